(** Totality of the range reading algorithms: they give a suffix of their input. *)
From Verif Require Import Prelude UnicodeModel UnicodeProofs WhitespaceModel WhitespaceSpec
  WhitespaceProofs ReadModel.
Local Open Scope Z_scope.

Definition suffix (a b : list Z) : Prop := exists p, b = p ++ a.

Lemma suffix_refl a : suffix a a.
Proof. exists []. reflexivity. Qed.
Lemma suffix_cons c a b : suffix a b -> suffix a (c :: b).
Proof. intros [p ->]. exists (c :: p). reflexivity. Qed.
Lemma suffix_trans a b c : suffix a b -> suffix b c -> suffix a c.
Proof. intros [p ->] [q ->]. exists (q ++ p). rewrite app_assoc. reflexivity. Qed.
Lemma suffix_skipn n a : suffix (skipn n a) a.
Proof. exists (firstn n a). symmetry. apply firstn_skipn. Qed.
Lemma suffix_nil a : suffix [] a.
Proof. exists a. symmetry. apply app_nil_r. Qed.
Lemma suffix_len a b : suffix a b -> (length a <= length b)%nat.
Proof. intros [p ->]. rewrite app_length. lia. Qed.
Lemma suffix_tl a b : suffix a b -> suffix (tl a) b.
Proof.
  intros H. eapply suffix_trans; [|exact H].
  destruct a; [apply suffix_refl|]. cbn. apply suffix_cons, suffix_refl.
Qed.
Lemma suffix_cons_inv c a b : suffix (c :: a) b -> suffix a b.
Proof. intros H. apply (suffix_tl (c :: a)); exact H. Qed.
Lemma suffix_bytes a b : suffix a b -> bytes b -> bytes a.
Proof. intros [p ->] H. apply bytes_app in H. apply H. Qed.
Lemma suffix_Forall (P : Z -> Prop) a b : suffix a b -> Forall P b -> Forall P a.
Proof. intros [p ->] H. apply Forall_app in H. apply H. Qed.
Global Hint Resolve suffix_refl suffix_nil suffix_skipn suffix_cons : sfx.

Lemma find_if_suffix p s : suffix (find_if p s) s.
Proof.
  induction s as [|c s IH]; cbn; [apply suffix_refl|].
  destruct (p c); auto with sfx.
Qed.

Lemma get_start_sfx e s : suffix (get_start_for_next_code_point e s) s.
Proof.
  induction s as [|c s IH]; cbn; [apply suffix_refl|]. destruct (cp_len e c); auto with sfx.
Qed.

Lemma read_code_point_into_total e c s :
  exists rest cps, read_code_point_into e (c :: s) = Ok (rest, cps) /\ suffix rest s
    /\ (cps = [] \/ exists v, decode_cp e cps = Ok v).
Proof.
  unfold read_code_point_into. destruct (cp_len e c) as [|n] eqn:E.
  - do 2 eexists. split; [reflexivity|]. split; [apply get_start_sfx|left; reflexivity].
  - do 2 eexists. split; [reflexivity|]. split; [cbn [skipn]; apply suffix_skipn|right].
    assert (HL : (length (firstn (S n) (c :: s)) <= S n)%nat) by apply firstn_le_length.
    assert (HP : (1 <= length (firstn (S n) (c :: s)))%nat) by (cbn; lia).
    assert (H4 : (S n <= 4)%nat) by (rewrite <- E; destruct e; cbn [cp_len];
      [apply utf8_cp_len_le4|pose proof (utf16_cp_len_le2 c); lia|lia]).
    destruct e; cbn [decode_cp cp_len] in *.
    + apply decode_utf8_total. lia.
    + pose proof (utf16_cp_len_le2 c) as H2. rewrite E in H2.
      destruct (firstn (S n) (c :: s)) as [|x [|y [|z l]]]; cbn [length] in *; try lia; cbn [decode_utf16]; eauto.
      destruct (_ || _); eauto.
    + injection E as <-. cbn. destruct (_ <=? _); eauto.
Qed.

Lemma read_until_code_point_loop_total e p : forall fuel s, (length s <= fuel)%nat ->
  exists s', read_until_code_point_loop fuel e p s = Ok s' /\ suffix s' s.
Proof.
  induction fuel as [|f IH]; intros [|c s] HL; cbn [read_until_code_point_loop length] in *;
    try (eexists; split; [reflexivity|apply suffix_refl]); [lia|].
  destruct (read_code_point_into_total e c s) as (rest & cps & -> & Hs & Hd). cbn [bind].
  assert (HL' := suffix_len _ _ Hs).
  destruct (IH rest) as (s' & E' & H'); [lia|].
  assert (suffix s' (c :: s)) by (apply suffix_cons; eapply suffix_trans; eassumption).
  destruct cps as [|x cps]; [rewrite E'; eauto|].
  destruct Hd as [Hd|[v ->]]; [discriminate|]. cbn [bind].
  destruct (p v); [eauto with sfx|]. rewrite E'. eauto.
Qed.
Lemma read_until_code_point_total e p s :
  exists s', read_until_code_point e p s = Ok s' /\ suffix s' s.
Proof. apply read_until_code_point_loop_total. lia. Qed.
Lemma read_while_code_point_total e p s :
  exists s', read_while_code_point e p s = Ok s' /\ suffix s' s.
Proof. apply read_until_code_point_total. Qed.

(** Units of a narrow source are bytes. *)
Definition units (e : enc) (s : list Z) : Prop := match e with U8 => bytes s | _ => True end.
Lemma units_suffix e a b : suffix a b -> units e b -> units e a.
Proof. destruct e; cbn; auto. intros H. apply suffix_bytes, H. Qed.

Lemma first_at_suffix e p s r : first_at e p s r -> suffix r s.
Proof. intros [H _]. apply steps_while_suffix in H. destruct H as [pre ->]. exists pre. reflexivity. Qed.

Lemma contiguous_beginning_bytes r s : bytes s -> bytes (contiguous_beginning r s).
Proof. intros H. unfold contiguous_beginning. destruct (s_contig r); [assumption|apply bytes_firstn, H]. Qed.

Lemma read_until_classic_space_total r s : units (s_enc r) s ->
  exists s', read_until_classic_space r s = Ok s' /\ suffix s' s.
Proof.
  unfold read_until_classic_space. destruct (s_enc r); cbn [units]; intros Hu; try apply read_until_code_point_total.
  destruct (s_contig r) eqn:EC.
  - destruct (find_classic_space_spec s Hu) as (f & E & Hf). rewrite E. eauto using first_at_suffix.
  - destruct (find_classic_space_spec _ (contiguous_beginning_bytes r s Hu)) as (f & E & Hf). rewrite E. cbn [bind].
    destruct f; [|eauto with sfx].
    destruct (read_until_code_point_total U8 is_cp_space (skipn (length (contiguous_beginning r s)) s)) as (s' & -> & H).
    eexists. split; [reflexivity|]. eapply suffix_trans; [exact H|apply suffix_skipn].
Qed.

Lemma read_while_classic_space_total r s : units (s_enc r) s ->
  exists s', read_while_classic_space r s = Ok s' /\ suffix s' s.
Proof.
  unfold read_while_classic_space. destruct (s_enc r); cbn [units]; intros Hu; try apply read_while_code_point_total.
  destruct (s_contig r) eqn:EC.
  - destruct (find_classic_nonspace_spec s Hu) as (f & E & Hf). rewrite E. eauto using first_at_suffix.
  - destruct (find_classic_nonspace_spec _ (contiguous_beginning_bytes r s Hu)) as (f & E & Hf). rewrite E. cbn [bind].
    destruct f; [|eauto with sfx]. apply read_while_code_point_total.
Qed.

Lemma skip_classic_whitespace_total r s b : units (s_enc r) s ->
  (exists s', skip_classic_whitespace r s b = Ok s' /\ suffix s' s)
  \/ skip_classic_whitespace r s b = Err EndOfInput.
Proof.
  intros Hu. unfold skip_classic_whitespace.
  destruct (read_while_classic_space_total r s Hu) as (s' & -> & H). cbn [bind].
  destruct b; [eauto|]. destruct s'; eauto.
Qed.

Lemma is_first_char_space_total e c s :
  exists rest cp, is_first_char_space e (c :: s) = Ok (rest, cp, is_cp_space cp) /\ suffix rest s.
Proof.
  unfold is_first_char_space. destruct (next_cp_progress e (c :: s)) as (cp & pre & rest & E & Hne & Heq); [discriminate|].
  rewrite E. cbn [bind]. do 2 eexists. split; [reflexivity|].
  destruct pre as [|x pre]; [contradiction|]. cbn in Heq. injection Heq as _ ->. exists pre. reflexivity.
Qed.
