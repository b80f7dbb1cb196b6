(** Proofs about scn::expected. *)
From Verif Require Import Prelude ExpectedModel ExpectedSpec.

Section Proofs.
Context {V E : Type} (tr : traits).
Context (left_v : bool -> V -> V) (left_e : bool -> E -> E) (spoil_v : V -> V -> V) (spoil_e : E -> E -> E).
Context (zero : V).
Let step := step tr left_v left_e spoil_v spoil_e zero.
Let run := run tr left_v left_e spoil_v spoil_e zero.

(** Copies, moves and assignments of E do not throw. *)
Definition steady : Prop := e_copy tr = true /\ e_move tr = true /\ e_assign tr = true.
Definition holds (x : other V E) (c : content V E) : Prop :=
  match c with inl v => x = Other (LiveV v) true | inr e => x = Other (LiveE e) false end.
(** Statements that compile, and do what they should. *)
Definition allowed (o : op V E) : Prop :=
  match o with
  | Emplace _ _ | AssignValue _ _ => t_make tr = true
  | Convert _ => t_trivial tr = true
  | AssignCopy _ _ => t_plain tr && e_plain tr || t_copy tr || t_move tr = true
  | _ => True
  end.
(** Statements that may end the program. *)
Definition may_end (o : op V E) : Prop :=
  match o with
  | Default | Convert _ => t_default tr = false
  | AssignCopy _ _ => t_copy tr = false
  | _ => False
  end.

Lemma holds_nth xs l i : Forall2 holds xs l ->
  match nth_error xs i, nth_error l i with
  | Some x, Some c => holds x c
  | None, None => True
  | _, _ => False
  end.
Proof.
  intros H. revert i. induction H as [|x c xs l Hx H IH]; intros [|i]; cbn; auto. apply IH.
Qed.
Lemma holds_set xs l i x c : Forall2 holds xs l -> holds x c -> Forall2 holds (set i x xs) (put i c l).
Proof.
  intros H Hx. revert i. induction H as [|x0 c0 xs l Hx0 H IH]; intros i.
  - unfold set. destruct i; constructor.
  - destruct i as [|i]; cbn; [constructor; assumption|]. unfold set in *. cbn. constructor; [exact Hx0|apply IH].
Qed.
Lemma holds_snoc xs l x c : Forall2 holds xs l -> holds x c -> Forall2 holds (xs ++ [x]) (l ++ [c]).
Proof. intros H Hx. apply Forall2_app; [exact H|]. constructor; [exact Hx|constructor]. Qed.
Lemma holds_removelast xs l : Forall2 holds xs l -> Forall2 holds (removelast xs) (removelast l).
Proof.
  induction 1 as [|x c xs l Hx H IH]; [constructor|]. destruct H; cbn in *; [constructor|]. constructor; [exact Hx|exact IH].
Qed.
Lemma holds_last xs l : Forall2 holds xs l ->
  match rev xs with [] => l = [] /\ xs = [] | x :: _ => exists c, holds x c end.
Proof.
  intros H. destruct (rev xs) as [|x r] eqn:ER.
  - apply (f_equal (@rev _)) in ER. rewrite rev_involutive in ER. cbn in ER. subst xs. inversion H. auto.
  - assert (In x xs) by (apply in_rev; rewrite ER; left; reflexivity). clear ER. induction H as [|y c xs l Hy H IH]; [contradiction|].
    destruct H0 as [->|H0]; [exists c; exact Hy|auto].
Qed.
Lemma put_put l i a b : put (V := V) (E := E) i b (put i a l) = put i b l.
Proof. revert i. induction l as [|x l IH]; intros [|i]; cbn; f_equal; auto. Qed.
Lemma nth_set {A} (xs : list A) i j a x : nth_error xs j = Some x ->
  nth_error (set i a xs) j = Some (if Nat.eqb i j then a else x).
Proof.
  revert i j. induction xs as [|y xs IH]; intros i j H; [destruct j; discriminate|]. unfold set in *. destruct i as [|i], j as [|j]; cbn in *; try congruence.
  apply IH. exact H.
Qed.
Lemma nth_snoc {A} (xs : list A) j x y : nth_error xs j = Some x -> nth_error (xs ++ [y]) j = Some x.
Proof. intros H. rewrite nth_error_app1; [exact H|]. apply nth_error_Some. congruence. Qed.
Lemma put_snoc (l : list (content V E)) j c x : nth_error l j <> None -> put j c (l ++ [x]) = put j c l ++ [x].
Proof.
  revert j. induction l as [|y l IH]; intros [|j] H; cbn in *; try congruence. f_equal. apply IH. exact H.
Qed.

(** What comes of an operation: how it may return, throw, or end the program. *)
Definition comes (x : result V E) (R T : state V E -> Prop) (Z : Prop) : Prop :=
  match x with Returns s => R s | Throws s => T s | Terminates => Z | _ => False end.
Lemma comes_then x k (R T : state V E -> Prop) (Z : Prop) (R' : state V E -> Prop) : comes x R' T Z -> (forall s, R' s -> comes (k s) R T Z) -> comes (then_ x k) R T Z.
Proof. destruct x; cbn; auto. Qed.
Lemma comes_catch x k (R T : state V E -> Prop) (Z : Prop) (T' : state V E -> Prop) : comes x R T' Z -> (forall s, T' s -> comes (k s) R T Z) -> comes (catch_ x k) R T Z.
Proof. destruct x; cbn; auto. Qed.
Lemma comes_rethrow x (R T : state V E -> Prop) Z : comes x T T Z -> comes (rethrow x) R T Z.
Proof. destruct x; cbn; auto. Qed.
Lemma comes_noexcept (b : bool) x (R T : state V E -> Prop) (Z : Prop) (T' : state V E -> Prop) : comes x R T' Z -> (forall s, T' s -> if b then Z else T s) -> comes (noexcept_ b x) R T Z.
Proof. destruct x as [s|s| | |]; cbn; auto. intros H HT. specialize (HT _ H). destruct b; exact HT. Qed.
Lemma comes_weaken x (R T R' T' : state V E -> Prop) (Z Z' : Prop) : comes x R T Z -> (forall s, R s -> R' s) -> (forall s, T s -> T' s) -> (Z -> Z') -> comes x R' T' Z'.
Proof. destruct x; cbn; auto. Qed.

(** The storage can be reused. *)
Definition cleared (s : state V E) : Prop := lost (reuse tr s) = [].
Definition is (c : content V E) (s : state V E) : Prop := lost s = [] /\ holds (packed s) c.
(** The storage was reused, and the flag is [b]. *)
Definition void (b : bool) (s : state V E) : Prop := lost s = [] /\ cl s = Raw /\ has_value s = b.
Lemma elsewhere_comes n (s : state V E) (P : state V E -> Prop) :
  (forall t, P (State (cl s) (has_value s) (lost s) t)) -> comes (elsewhere n s) P (fun s' => n = false /\ P s') False.
Proof.
  intros H. unfold elsewhere, throws. destruct n; cbn.
  - specialize (H (tape s)). destruct s; exact H.
  - destruct (tape s) as [|[|] t] eqn:ET; cbn; auto. specialize (H []). rewrite <- ET in H. destruct s; exact H.
Qed.
Lemma construct_comes n v s : cleared s ->
  comes (construct tr n v s) (is (inl v)) (fun s' => n = false /\ void (has_value s) s') False.
Proof.
  intros H. unfold construct. eapply comes_then.
  - apply elsewhere_comes with (P := void (has_value s)). intros t. repeat split; exact H.
  - intros s' (H1 & _). split; [exact H1|reflexivity].
Qed.
Lemma construct_unexpected_comes n e s : cleared s ->
  comes (construct_unexpected tr n e s) (is (inr e)) (fun s' => n = false /\ void (has_value s) s') False.
Proof.
  intros H. unfold construct_unexpected. eapply comes_then.
  - apply elsewhere_comes with (P := void (has_value s)). intros t. repeat split; exact H.
  - intros s' (H1 & _). split; [exact H1|reflexivity].
Qed.
Lemma destroy_value_comes v s : is (inl v) s -> comes (destroy_value tr s) (fun s' => cleared s' /\ has_value s' = true) (fun _ => False) False.
Proof.
  intros [H1 H2]. destruct s as [c h l t]. cbn in *. injection H2 as -> ->. subst l. unfold destroy_value, trivial_storage, cleared, reuse.
  destruct (t_trivial tr) eqn:E1, (e_trivial tr) eqn:E2; cbn; rewrite ?E1; auto.
Qed.
Lemma destroy_unexpected_comes e s : is (inr e) s -> comes (destroy_unexpected tr s) (fun s' => cleared s' /\ has_value s' = false) (fun _ => False) False.
Proof.
  intros [H1 H2]. destruct s as [c h l t]. cbn in *. injection H2 as -> ->. subst l. unfold destroy_unexpected, trivial_storage, cleared, reuse.
  destruct (t_trivial tr) eqn:E1, (e_trivial tr) eqn:E2; cbn; rewrite ?E2; auto.
Qed.
Lemma assign_to_value_comes v0 v s : is (inl v0) s ->
  comes (assign_to_value tr spoil_v v s) (is (inl v)) (fun s' => t_assign tr = false /\ is (inl (spoil_v v0 v)) s') False.
Proof.
  intros [H1 H2]. destruct s as [c h l t]. cbn in *. injection H2 as -> ->. subst l. unfold assign_to_value, get_value, throws. cbn.
  destruct (t_assign tr); cbn; [split; reflexivity|]. destruct t as [|[|] t]; cbn; repeat split; reflexivity.
Qed.
Lemma assign_to_unexpected_comes e0 e s : steady -> is (inr e0) s ->
  comes (assign_to_unexpected tr spoil_e e s) (is (inr e)) (fun _ => False) False.
Proof.
  intros (_ & _ & HA) [H1 H2]. destruct s as [c h l t]. cbn in *. injection H2 as -> ->. subst l. unfold assign_to_unexpected, get_unexpected, throws. cbn.
  rewrite HA. cbn. split; reflexivity.
Qed.
Lemma is_flag c s : is c s -> has_value s = match c with inl _ => true | inr _ => false end.
Proof. intros [_ H]. destruct c; cbn in H; unfold packed in H; congruence. Qed.
Lemma raw_cleared b s : void b s -> cleared s.
Proof. intros (H1 & H2 & H3). unfold cleared, reuse. rewrite H2. exact H1. Qed.
Lemma value_over n v e s : is (inr e) s ->
  comes (then_ (destroy_unexpected tr s) (construct tr n v)) (is (inl v)) (fun s' => n = false /\ void false s') False.
Proof.
  intros H. eapply comes_then.
  - eapply comes_weaken; [apply destroy_unexpected_comes with e; exact H|intros s' Hs; exact Hs|contradiction|auto].
  - intros s' [H1 H2]. eapply comes_weaken; [apply construct_comes; exact H1|auto|rewrite H2; auto|auto].
Qed.
Lemma error_over n e v s : is (inl v) s -> n = true ->
  comes (then_ (destroy_value tr s) (construct_unexpected tr n e)) (is (inr e)) (fun _ => False) False.
Proof.
  intros H Hn. eapply comes_then.
  - apply destroy_value_comes with v. exact H.
  - intros s' [H1 H2]. eapply comes_weaken; [apply construct_unexpected_comes; exact H1|auto| |auto]. intros s'' [H3 _]. congruence.
Qed.
(** Move out the error, construct the value, on failure move the error back. *)
Lemma guarded n v e s : steady -> is (inr e) s ->
  comes (get_unexpected s (fun tmp => then_ (elsewhere (e_move tr) s) (fun s => then_ (destroy_unexpected tr s) (fun s =>
         catch_ (construct tr n v s) (fun s => rethrow (construct_unexpected tr (e_move tr) tmp s))))))
    (is (inl v)) (fun s' => n = false /\ is (inr e) s') False.
Proof.
  intros (_ & HM & _) H. assert (E0 : cl s = LiveE e) by (destruct H as [_ H]; cbn in H; unfold packed in H; congruence).
  unfold get_unexpected. rewrite E0. rewrite HM. unfold elsewhere at 1, throws at 1. cbn [then_].
  eapply comes_then.
  - eapply comes_weaken; [apply destroy_unexpected_comes with e; exact H|intros s' Hs; exact Hs|contradiction|auto].
  - intros s' [H1 H2]. eapply comes_catch; [apply construct_comes; exact H1|]. intros s'' [Hn Hv]. apply comes_rethrow.
    eapply comes_weaken; [apply construct_unexpected_comes; eapply raw_cleared; exact Hv| |intros s3 [H3 _]; discriminate|auto].
    intros s3 H3. split; assumption.
Qed.

Lemma assign_common_comes (mv : bool) a c s : steady -> is a s -> (mv = false -> t_copy tr || t_move tr = true) ->
  comes (assign_common tr spoil_v spoil_e mv (match c with inl v => Other (LiveV v) true | inr e => Other (LiveE e) false end) s)
    (is c) (fun s' => exists a', is a' s' /\ same_kind a a' /\ (~ same_kind a c -> a' = a)) (mv = false /\ t_copy tr = false).
Proof.
  intros HS Ha HC. unfold assign_common. rewrite (is_flag _ _ Ha). destruct HS as (S1 & S2 & S3).
  assert (HN : (if mv then e_move tr else e_copy tr) = true) by (destruct mv; assumption). rewrite HN, S3, !andb_true_r.
  destruct a as [v0|e0], c as [v|e]; cbn [o_has other_value other_error o_cell].
  - eapply comes_noexcept; [eapply comes_weaken; [apply assign_to_value_comes; exact Ha|auto|intros s' Hs; exact Hs|contradiction]|].
    intros s' [H1 H2]. rewrite H1. cbn. exists (inl (spoil_v v0 v)). split; [exact H2|]. split; [exact I|]. cbn. tauto.
  - eapply comes_noexcept; [eapply comes_weaken; [apply error_over with v0; [exact Ha|reflexivity]|auto|intros s' Hs; exact Hs|contradiction]|].
    intros s' [].
  - destruct mv.
    + eapply comes_noexcept with (T' := fun s' => t_move tr = false /\ is (inr e0) s').
      * unfold move_over_unexpected. eapply comes_noexcept with (T' := fun s' => t_move tr = false /\ is (inr e0) s').
        -- destruct (t_move tr) eqn:EM.
           ++ eapply comes_weaken; [apply value_over with e0; exact Ha|auto|intros s' [H _]; discriminate|contradiction].
           ++ eapply comes_weaken; [apply guarded; [repeat split; assumption|exact Ha]|auto|auto|contradiction].
        -- intros s' [H1 H2]. rewrite H1. auto.
      * intros s' [H1 H2]. rewrite H1, andb_false_r. exists (inr e0). split; [exact H2|]. split; [exact I|auto].
    + specialize (HC eq_refl). rewrite HC. unfold copy_over_unexpected. rewrite HC.
      eapply comes_noexcept with (T' := fun _ => False); [|contradiction]. eapply comes_noexcept with (T' := fun _ => t_copy tr = false); [|auto].
      destruct (t_copy tr) eqn:EC.
      * eapply comes_weaken; [apply value_over with e0; exact Ha|auto|intros s' [H _]; discriminate|contradiction].
      * cbn in HC. rewrite HC. eapply comes_then.
        -- eapply comes_weaken; [apply elsewhere_comes with (P := is (inr e0))|intros s' Hs; exact Hs|intros; reflexivity|contradiction].
           intros t. destruct Ha as [H1 H2]. split; [exact H1|exact H2].
        -- intros s' Hs. eapply comes_weaken; [apply value_over with e0; exact Hs|auto|auto|contradiction].
  - eapply comes_noexcept; [eapply comes_weaken; [apply assign_to_unexpected_comes with e0; [repeat split; assumption|exact Ha]|auto|intros s' Hs; exact Hs|contradiction]|].
    intros s' [].
Qed.
Lemma assign_value_comes v a s : steady -> is a s -> t_make tr = true ->
  comes (assign_value tr spoil_v v s) (is (inl v))
    (fun s' => exists a', is a' s' /\ same_kind a a' /\ (~ same_kind a (inl v) -> a' = a)) False.
Proof.
  intros HS Ha HM. unfold assign_value. rewrite (is_flag _ _ Ha), HM. destruct a as [v0|e0].
  - eapply comes_noexcept; [apply assign_to_value_comes; exact Ha|]. intros s' [H1 H2]. rewrite H1, andb_false_r.
    exists (inl (spoil_v v0 v)). split; [exact H2|]. split; [exact I|]. cbn. tauto.
  - eapply comes_noexcept; [apply value_over with e0; exact Ha|]. intros s' [H _]. discriminate.
Qed.
Lemma assign_unexpected_comes e a s : steady -> is a s ->
  comes (assign_unexpected tr spoil_e e s) (is (inr e)) (fun s' => exists a', is a' s' /\ False) False.
Proof.
  intros HS Ha. apply comes_weaken with (R := is (inr e)) (T := fun _ => False) (Z := False); [|auto|contradiction|auto].
  unfold assign_unexpected. rewrite (is_flag _ _ Ha). destruct a as [v0|e0]; cbn [negb].
  - apply error_over with v0; [exact Ha|apply HS].
  - apply assign_to_unexpected_comes with e0; assumption.
Qed.
Lemma emplace_comes v a s : steady -> is a s -> t_make tr = true ->
  comes (emplace tr v s) (is (inl v)) (fun s' => exists a', is a' s' /\ False) False.
Proof.
  intros HS Ha HM. apply comes_weaken with (R := is (inl v)) (T := fun _ => False) (Z := False); [|auto|contradiction|auto].
  unfold emplace. rewrite (is_flag _ _ Ha). rewrite HM.
  eapply comes_noexcept with (T' := fun _ => False); [|contradiction]. destruct a as [v0|e0].
  - eapply comes_then; [apply destroy_value_comes with v0; exact Ha|]. intros s' [H1 H2].
    eapply comes_weaken; [apply construct_comes; exact H1|auto|intros s'' [H _]; discriminate|auto].
  - eapply comes_weaken; [apply guarded; [exact HS|exact Ha]|auto|intros s'' [H _]; discriminate|auto].
Qed.
Lemma blank_void (w : world V E) b : w_lost w = [] -> void b (State Raw b (w_lost w) (w_tape w)).
Proof. intros H. repeat split; exact H. Qed.
Lemma destructor_comes c s : is c s -> comes (destructor tr s) cleared (fun _ => False) False.
Proof.
  intros Hc. unfold destructor. destruct (trivial_storage tr) eqn:ET.
  - cbn. unfold cleared, reuse. cbn. apply Hc.
  - rewrite (is_flag _ _ Hc). destruct c as [v|e].
    + eapply comes_weaken; [apply destroy_value_comes with v; exact Hc| |auto|auto]. intros s' [H _]. exact H.
    + eapply comes_weaken; [apply destroy_unexpected_comes with e; exact Hc| |auto|auto]. intros s' [H _]. exact H.
Qed.
(** Destroying storage that holds nothing. *)
Lemma destructor_void b s : void b s -> (if b then t_trivial tr else e_trivial tr) = true ->
  comes (destructor tr s) cleared (fun _ => False) False.
Proof.
  intros Hv HT. assert (HC := raw_cleared _ _ Hv). destruct Hv as (H1 & H2 & H3). unfold destructor. destruct (trivial_storage tr) eqn:ET.
  - cbn. unfold cleared, reuse. cbn. exact H1.
  - rewrite H3. destruct b; unfold destroy_value, destroy_unexpected; rewrite ET, H2, HT; exact HC.
Qed.
Lemma default_comes s : lost s = [] ->
  comes (default_construct tr zero s) (is (inl zero)) (void true) (t_default tr = false).
Proof.
  intros H. unfold default_construct. eapply comes_noexcept.
  - eapply comes_weaken; [apply construct_comes|auto|intros s' Hs; exact Hs|contradiction]. exact H.
  - intros s' [H1 H2]. rewrite H1. cbn. destruct (trivial_storage tr); cbn; [exact H2|reflexivity].
Qed.
Lemma copy_construct_comes (mv : bool) c s : steady -> (e_trivial tr = true \/ (if mv then t_move tr else t_copy tr) = true) -> lost s = [] ->
  comes (copy_construct tr mv (match c with inl v => Other (LiveV v) true | inr e => Other (LiveE e) false end) s)
    (is c) cleared False.
Proof.
  intros (S1 & S2 & S3) HE H. unfold copy_construct. destruct c as [v|e]; cbn [o_has other_value other_error o_cell].
  - eapply comes_catch; [apply construct_comes; exact H|]. intros s' [H1 H2]. apply comes_rethrow.
    eapply comes_weaken; [apply destructor_void with false; [exact H2|]|auto|contradiction|auto]. destruct HE as [HE|HE]; congruence.
  - eapply comes_catch; [apply construct_unexpected_comes; exact H|]. intros s' [H1 H2]. destruct mv; congruence.
Qed.
Lemma convert_comes c s : steady -> t_trivial tr = true -> lost s = [] ->
  comes (convert_construct tr zero c s) (is c) cleared (t_default tr = false).
Proof.
  intros (S1 & S2 & S3) HT H. unfold convert_construct. eapply comes_then.
  - eapply comes_weaken; [apply default_comes; exact H|intros s' Hs; exact Hs|apply raw_cleared|auto].
  - intros s' Hs. assert (HC : cleared s'). { destruct Hs as [H1 H2]. unfold cleared, reuse. cbn in H2. injection H2 as -> _. rewrite HT. exact H1. }
    assert (HF := is_flag _ _ Hs). cbn in HF. destruct c as [v|e].
    + eapply comes_catch.
      * eapply comes_weaken; [apply construct_comes; exact HC|auto|intros s'' [_ Hv]; exact Hv|contradiction].
      * intros s'' Hv. apply comes_rethrow. rewrite HF in Hv. eapply comes_weaken; [apply destructor_void with true; assumption|auto|contradiction|contradiction].
    + eapply comes_catch.
      * eapply comes_weaken; [apply construct_unexpected_comes; exact HC|auto|intros s'' Hv; exact Hv|contradiction].
      * intros s'' [Hv _]. congruence.
Qed.

Definition good (w : world V E) (l : list (content V E)) : Prop := w_lost w = [] /\ Forall2 holds (vars w) l.
Lemma loaded_is x c w : w_lost w = [] -> holds x c -> is c (loaded x w).
Proof. intros H Hx. split; [exact H|]. unfold packed. destruct x as [o h]. exact Hx. Qed.
Lemma holds_other x c : holds x c -> x = match c with inl v => Other (LiveV v) true | inr e => Other (LiveE e) false end.
Proof. destruct c; exact (fun H => H). Qed.
Lemma declare_comes w l x c T Z : good w l -> comes x (is c) T Z -> (forall s, T s -> cleared s) ->
  match declare tr w x with
  | Completed b w' => (b = false /\ good w' (l ++ [c])) \/ (b = true /\ good w' l)
  | STerminates => Z
  | _ => False
  end.
Proof.
  intros [H1 H2] H HT. destruct x as [s|s| | |]; cbn in *; auto.
  - left. split; [reflexivity|]. destruct H as [H3 H4]. split; [exact H3|]. apply holds_snoc; assumption.
  - right. split; [reflexivity|]. split; [apply HT; exact H|exact H2].
Qed.
Lemma update_comes w l i x c (T : content V E -> Prop) Z : good w l ->
  comes x (is c) (fun s => exists a, is a s /\ T a) Z ->
  match update w i x with
  | Completed b w' => exists a, (if b then T a else a = c) /\ good w' (put i a l)
  | STerminates => Z
  | _ => False
  end.
Proof.
  intros [H1 H2] H. destruct x as [s|s| | |]; cbn in *; auto.
  - destruct H as [H3 H4]. exists c. split; [reflexivity|]. split; [exact H3|]. apply holds_set; assumption.
  - destruct H as (a & [H3 H4] & HR). exists a. split; [exact HR|]. split; [exact H3|]. apply holds_set; assumption.
Qed.
Lemma leave_ok b (w : world V E) l j c : good w l -> nth_error l j = Some c ->
  exists c' w', leave left_v left_e j (Completed b w) = Completed b w' /\ same_kind c c' /\ good w' (put j c' l).
Proof.
  intros [H1 H2] Hc. assert (Hn := holds_nth _ _ j H2). rewrite Hc in Hn. cbn. destruct (nth_error (vars w) j) as [x|]; [|contradiction].
  apply holds_other in Hn. subst x. destruct c as [v|e]; cbn.
  - exists (inl (left_v b v)). eexists. split; [reflexivity|]. split; [exact I|]. split; [exact H1|]. apply holds_set; [exact H2|reflexivity].
  - exists (inr (left_e b e)). eexists. split; [reflexivity|]. split; [exact I|]. split; [exact H1|]. apply holds_set; [exact H2|reflexivity].
Qed.
Lemma same_kind_refl (c : content V E) : same_kind c c.
Proof. destruct c; exact I. Qed.
Lemma nth_put_same (l : list (content V E)) i c a : nth_error l i = Some a -> nth_error (put i c l) i = Some c.
Proof. revert i. induction l as [|x l IH]; intros [|i]; cbn; try discriminate; auto. Qed.
Lemma nth_put_other (l : list (content V E)) i j c : i <> j -> nth_error (put i c l) j = nth_error l j.
Proof. revert i j. induction l as [|x l IH]; intros [|i] [|j] H; cbn; try congruence; auto. Qed.

(** One statement. *)
Lemma step_ok o w l : steady -> (t_copy tr = true /\ t_move tr = true \/ e_trivial tr = true) -> allowed o -> good w l ->
  match step o w with
  | Completed b w' => exists l', std_step zero o l b l' /\ good w' l'
  | STerminates => may_end o
  | _ => False
  end.
Proof.
  intros HS HE HA HG. assert (HG' := HG). destruct HG' as [HL HV]. unfold step, ExpectedModel.step.
  destruct o as [|v|e|j|j|c|i j|i j|i v|i e|i v|]; cbn [allowed may_end std_step] in *.
  - assert (H := declare_comes w l _ _ _ _ HG (default_comes (blank w) HL) (raw_cleared true)).
    destruct (declare _ _ _) as [b w'| | |]; auto. destruct H as [[-> H]|[-> H]]; eexists; (split; [reflexivity|exact H]).
  - assert (H := declare_comes w l _ _ _ _ HG (construct_comes (t_make tr) v (State Raw true (lost (blank w)) (tape (blank w))) HL) ltac:(intros s' [_ H]; eapply raw_cleared; exact H)).
    unfold value_construct. destruct (declare _ _ _) as [b w'| | |]; auto. destruct H as [[-> H]|[-> H]]; eexists; (split; [reflexivity|exact H]).
  - assert (H := declare_comes w l _ _ _ _ HG (construct_unexpected_comes (e_copy tr) e (State Raw false (lost (blank w)) (tape (blank w))) HL) ltac:(intros s' [_ H]; eapply raw_cleared; exact H)).
    unfold error_construct. destruct (declare _ _ _) as [b w'| | |]; auto. destruct H as [[-> H]|[-> H]]; eexists; (split; [reflexivity|exact H]).
  - assert (HN := holds_nth _ _ j HV). destruct (nth_error (vars w) j) as [y|], (nth_error l j) as [c|]; try contradiction.
    2: { exists l. auto. }
    destruct (t_plain tr && e_plain tr) eqn:EP.
    + cbn. exists (l ++ [c]). split; [reflexivity|]. split; [exact HL|]. apply holds_snoc; [exact HV|]. destruct y; exact HN.
    + apply holds_other in HN. subst y.
      assert (H := declare_comes w l _ _ _ _ HG (copy_construct_comes false c (blank w) HS ltac:(tauto) HL) (fun s H => H)).
      destruct (declare _ _ _) as [b w'| | |]; auto. destruct H as [[-> H]|[-> H]]; eexists; (split; [reflexivity|exact H]).
  - assert (HN := holds_nth _ _ j HV). destruct (nth_error (vars w) j) as [y|], (nth_error l j) as [c|] eqn:EJ; try contradiction.
    2: { exists l. auto. }
    destruct (t_plain tr && e_plain tr) eqn:EP.
    + cbn. exists (l ++ [c]). split; [exists c; split; [apply same_kind_refl|]|].
      * f_equal. clear - EJ. revert j EJ. induction l as [|x l IH]; intros [|j] H; cbn in *; try congruence. f_equal. auto.
      * split; [exact HL|]. apply holds_snoc; [exact HV|]. destruct y; exact HN.
    + apply holds_other in HN. subst y.
      assert (H := declare_comes w l _ _ _ _ HG (copy_construct_comes true c (blank w) HS ltac:(tauto) HL) (fun s H => H)).
      destruct (declare _ _ _) as [b w'| | |]; auto. destruct H as [[-> H]|[-> H]].
      * destruct (leave_ok false _ _ j c H (nth_snoc _ _ _ _ EJ)) as (c' & w2 & -> & HK & HG2). exists (put j c' (l ++ [c])). split; [|exact HG2].
        exists c'. split; [exact HK|]. apply put_snoc. congruence.
      * destruct (leave_ok true _ _ j c H EJ) as (c' & w2 & -> & HK & HG2). exists (put j c' l). split; [|exact HG2]. exists c'. auto.
  - assert (H := declare_comes w l _ _ _ _ HG (convert_comes c (blank w) HS HA HL) (fun s H => H)).
    destruct (declare _ _ _) as [b w'| | |]; auto. destruct H as [[-> H]|[-> H]]; eexists; (split; [reflexivity|exact H]).
  - assert (HNi := holds_nth _ _ i HV). assert (HNj := holds_nth _ _ j HV).
    destruct (nth_error (vars w) i) as [x|], (nth_error l i) as [a|] eqn:EI; try contradiction.
    2: { exists l. auto. }
    destruct (nth_error (vars w) j) as [y|], (nth_error l j) as [c|] eqn:EJ; try contradiction.
    2: { exists l. auto. }
    destruct (t_plain tr && e_plain tr) eqn:EP.
    + cbn. exists (put i c l). split; [reflexivity|]. split; [exact HL|]. apply holds_set; [exact HV|]. destruct y; exact HNj.
    + apply holds_other in HNj. subst y.
      assert (H := assign_common_comes false a c (loaded x w) HS (loaded_is _ _ _ HL HNi) (fun _ => HA)).
      assert (H2 := update_comes w l i _ _ _ _ HG H).
      destruct (update _ _ _) as [b w'| | |]; try tauto. destruct H2 as (c' & Hc & HG2). exists (put i c' l). split; [|exact HG2].
      destruct b; [exists c'; tauto|]. subst c'. reflexivity.
  - assert (HNi := holds_nth _ _ i HV). assert (HNj := holds_nth _ _ j HV).
    destruct (nth_error (vars w) i) as [x|], (nth_error l i) as [a|] eqn:EI; try contradiction.
    2: { exists l. auto. }
    destruct (nth_error (vars w) j) as [y|], (nth_error l j) as [c|] eqn:EJ; try contradiction.
    2: { exists l. auto. }
    assert (HP : forall l' : list (content V E), nth_error l' j = Some c -> put j c l' = l').
    { clear. intros l'. revert j. induction l' as [|x l' IH]; intros [|j] H; cbn in *; try congruence. f_equal. auto. }
    destruct (t_plain tr && e_plain tr) eqn:EP.
    + cbn. exists (put i c l). split.
      * exists c, c. split; [apply same_kind_refl|]. split; [|reflexivity]. symmetry. apply HP. destruct (Nat.eq_dec i j) as [->|NE].
        -- eapply nth_put_same; exact EJ.
        -- rewrite nth_put_other by exact NE. exact EJ.
      * split; [exact HL|]. apply holds_set; [exact HV|]. destruct y; exact HNj.
    + apply holds_other in HNj. subst y.
      assert (H := assign_common_comes true a c (loaded x w) HS (loaded_is _ _ _ HL HNi) ltac:(discriminate)).
      assert (H2 := update_comes w l i _ _ _ _ HG H).
      destruct (update _ _ _) as [b w'| | |]; cbn [leave]; try tauto; [|destruct H2; discriminate]. destruct H2 as (a' & Hc & HG2).
      assert (HJ : exists c0, nth_error (put i a' l) j = Some c0 /\ same_kind c c0).
      { destruct (Nat.eq_dec i j) as [->|NE].
        - exists a'. split; [eapply nth_put_same; exact EJ|]. assert (a = c) by congruence. subst a. destruct b; [apply Hc|]. subst a'. apply same_kind_refl.
        - exists c. split; [rewrite nth_put_other by exact NE; exact EJ|apply same_kind_refl]. }
      destruct HJ as (c0 & HJ & HK0). destruct (leave_ok b _ _ j c0 HG2 HJ) as (c' & w2 & EL & HK & HG3).
      cbn [leave] in EL. rewrite EL. exists (put j c' (put i a' l)). split; [|exact HG3]. exists a', c'.
      split; [destruct c, c0, c'; cbn in *; tauto|]. split; [reflexivity|]. destruct b; exact Hc.
  - assert (HNi := holds_nth _ _ i HV).
    destruct (nth_error (vars w) i) as [x|], (nth_error l i) as [a|] eqn:EI; try contradiction.
    2: { exists l. auto. }
    assert (H := assign_value_comes v a (loaded x w) HS (loaded_is _ _ _ HL HNi) HA).
    assert (H2 := update_comes w l i _ _ _ _ HG H).
    destruct (update _ _ _) as [b w'| | |]; try tauto. destruct H2 as (c' & Hc & HG2). exists (put i c' l). split; [|exact HG2].
    destruct b; [exists c'; tauto|]. subst c'. reflexivity.
  - assert (HNi := holds_nth _ _ i HV).
    destruct (nth_error (vars w) i) as [x|], (nth_error l i) as [a|] eqn:EI; try contradiction.
    2: { exists l. auto. }
    assert (H := assign_unexpected_comes e a (loaded x w) HS (loaded_is _ _ _ HL HNi)).
    assert (H2 := update_comes w l i _ _ _ _ HG H).
    destruct (update _ _ _) as [b w'| | |]; try tauto. destruct H2 as (c' & Hc & HG2). exists (put i c' l). split; [|exact HG2].
    destruct b; [contradiction|]. subst c'. reflexivity.
  - assert (HNi := holds_nth _ _ i HV).
    destruct (nth_error (vars w) i) as [x|], (nth_error l i) as [a|] eqn:EI; try contradiction.
    2: { exists l. auto. }
    assert (H := emplace_comes v a (loaded x w) HS (loaded_is _ _ _ HL HNi) HA).
    assert (H2 := update_comes w l i _ _ _ _ HG H).
    destruct (update _ _ _) as [b w'| | |]; try tauto. destruct H2 as (c' & Hc & HG2). exists (put i c' l). split; [|exact HG2].
    destruct b; [contradiction|]. subst c'. split; reflexivity.
  - assert (H := holds_last _ _ HV). destruct (rev (vars w)) as [|x r].
    + destruct H as [-> H]. exists []. split; [split; reflexivity|exact HG].
    + destruct H as [c Hc]. assert (H := destructor_comes c (loaded x w) (loaded_is _ _ _ HL Hc)).
      destruct (destructor tr (loaded x w)) as [s|s| | |]; cbn in H; try contradiction.
      exists (removelast l). split; [split; reflexivity|]. split; [exact H|]. apply holds_removelast. exact HV.
Qed.
Lemma run_ok p w l : steady -> (t_copy tr = true /\ t_move tr = true \/ e_trivial tr = true) -> Forall allowed p -> good w l ->
  match run p w with
  | Ran bs w' => exists l', std_run zero p l bs l' /\ good w' l'
  | RTerminates => Exists may_end p
  | _ => False
  end.
Proof.
  intros HS HE HA. revert w l. unfold run. induction HA as [|o p Ho HA IH]; intros w l HG; cbn [ExpectedModel.run].
  - exists l. split; [constructor|exact HG].
  - assert (H := step_ok o w l HS HE Ho HG). unfold step in H. destruct (ExpectedModel.step tr left_v left_e spoil_v spoil_e zero o w) as [b w1| | |]; try contradiction.
    + destruct H as (l1 & H1 & HG1). specialize (IH _ _ HG1). destruct (ExpectedModel.run tr left_v left_e spoil_v spoil_e zero p w1) as [bs w2| | |]; try contradiction.
      * destruct IH as (l2 & H2 & HG2). exists l2. split; [econstructor; eassumption|exact HG2].
      * apply Exists_cons_tl. exact IH.
    + apply Exists_cons_hd. exact H.
Qed.
End Proofs.
