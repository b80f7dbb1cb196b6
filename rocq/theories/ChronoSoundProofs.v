(** Every format: the parser ends, and accepts only formats as they are documented. *)
From Coq Require Import String Ascii.
From Verif Require Import Prelude UnicodeModel UnicodeSpec ReadModel ReadProofs FormatModel FormatSpec VscanSpec
  SpecsInvProofs ChronoModel ChronoSpec ChronoParseProofs ChronoInvProofs ChronoMarkProofs ChronoRuleProofs.
Import Coq.Strings.String.StringSyntax.
Local Open Scope string_scope.
Local Open Scope list_scope.
Local Open Scope Z_scope.

(** ** What follows a '%' *)
Definition letter1 (c : Z) : string := String (ascii_of_nat (Z.to_nat c)) EmptyString.
Definition letter2 (a c : Z) : string := String (ascii_of_nat (Z.to_nat a)) (letter1 c).
Definition ascii_all : list Z := map Z.of_nat (seq 0 128).
Lemma in_ascii c : 0 <= c < 128 -> In c ascii_all.
Proof.
  intros H. apply in_map_iff. exists (Z.to_nat c). split; [lia|]. apply in_seq. lia.
Qed.
Definition known (l : string) : bool := match meaning l with Some _ => true | None => false end.
Definition same_codes (l : string) (u : list Z) : bool :=
  if list_eq_dec Z.eq_dec (codes l) u then true else false.
Lemma plain_known c : 0 <= c < 128 -> plain_conv c <> None ->
  known (letter1 c) = true /\ codes (letter1 c) = [c].
Proof.
  intros H N. assert (A : forallb (fun c => match plain_conv c with
      | Some _ => known (letter1 c) && same_codes (letter1 c) [c] | None => true end) ascii_all = true)
    by (vm_compute; reflexivity).
  rewrite forallb_forall in A. specialize (A c (in_ascii c H)). cbn beta in A.
  destruct (plain_conv c); [|congruence]. apply andb_true_iff in A. destruct A as [A B].
  split; [trivial|]. unfold same_codes in B. destruct (list_eq_dec Z.eq_dec _ _); [trivial|discriminate].
Qed.
Lemma e_known c : 0 <= c < 128 -> e_conv c <> None ->
  known (letter2 69 c) = true /\ codes (letter2 69 c) = [69; c].
Proof.
  intros H N. assert (A : forallb (fun c => match e_conv c with
      | Some _ => known (letter2 69 c) && same_codes (letter2 69 c) [69; c] | None => true end) ascii_all = true)
    by (vm_compute; reflexivity).
  rewrite forallb_forall in A. specialize (A c (in_ascii c H)). cbn beta in A.
  destruct (e_conv c); [|congruence]. apply andb_true_iff in A. destruct A as [A B].
  split; [trivial|]. unfold same_codes in B. destruct (list_eq_dec Z.eq_dec _ _); [trivial|discriminate].
Qed.
Lemma o_known c : 0 <= c < 128 -> o_conv c <> None ->
  known (letter2 79 c) = true /\ codes (letter2 79 c) = [79; c].
Proof.
  intros H N. assert (A : forallb (fun c => match o_conv c with
      | Some _ => known (letter2 79 c) && same_codes (letter2 79 c) [79; c] | None => true end) ascii_all = true)
    by (vm_compute; reflexivity).
  rewrite forallb_forall in A. specialize (A c (in_ascii c H)). cbn beta in A.
  destruct (o_conv c); [|congruence]. apply andb_true_iff in A. destruct A as [A B].
  split; [trivial|]. unfold same_codes in B. destruct (list_eq_dec Z.eq_dec _ _); [trivial|discriminate].
Qed.
Lemma known_meaning l : known l = true -> meaning l <> None.
Proof. unfold known. destruct (meaning l); congruence. Qed.

Lemma decode_total e u : (exists cp, decode_cp e u = Ok cp) \/ decode_cp e u = UB.
Proof.
  destruct e; cbn.
  - unfold decode_utf8. destruct u as [|a [|b [|c [|d [|]]]]]; auto;
      repeat match goal with |- context [if ?x then _ else _] => destruct x end; eauto.
  - unfold decode_utf16. destruct u as [|a [|b [|]]]; auto; try (destruct (_ || _)); eauto.
  - destruct u as [|a [|]]; auto. destruct (_ <=? _); eauto.
Qed.
Lemma ascii_len e c : ascii c -> cp_len e c = 1%nat.
Proof.
  intros H. destruct e; cbn; [| |reflexivity].
  - assert (A : forallb (fun c => (utf8_cp_len c =? 1)%nat) ascii_all = true) by (vm_compute; reflexivity).
    rewrite forallb_forall in A. apply Nat.eqb_eq, A, in_ascii, H.
  - assert (A : forallb (fun c => (utf16_cp_len c =? 1)%nat) ascii_all = true) by (vm_compute; reflexivity).
    rewrite forallb_forall in A. apply Nat.eqb_eq, A, in_ascii, H.
Qed.
Lemma ascii_encode e c : ascii c -> encode e c = [c].
Proof.
  intros H. unfold ascii in H. destruct e; cbn; [| |reflexivity].
  - unfold utf8_of. now rewrite (proj2 (Z.ltb_lt c 128)) by lia.
  - unfold utf16_of. now rewrite (proj2 (Z.ltb_lt c 65536)) by lia.
Qed.
Lemma ascii_space c : ascii c -> simple_space c = is_ws c.
Proof.
  intros H. assert (A : forallb (fun c => Bool.eqb (simple_space c) (is_ws c)) ascii_all = true) by (vm_compute; reflexivity).
  rewrite forallb_forall in A. apply eqb_prop, A, in_ascii, H.
Qed.

Section Any.
Variable t : target.
Notation on := (ck_on t).
Lemma ck_total ev st : exists st', on ev st = Ok st'.
Proof. destruct (ck_on_step t ev st) as (st' & E & _). eauto. Qed.
Lemma on_error_bad st st' : on OnError st = Ok st' -> ck_fine st' = false.
Proof. cbn. intros H. injection H as <-. reflexivity. Qed.
(** ** One conversion specifier *)
Lemma conv_total p st : exists (go : option (list Z * cstate)) (q : list Z) st', parse_conv cstate on p st = Ok (go, (q, st')) /\
  (match go with
   | Some (p2, st2) => p2 = q /\ st2 = st' /\ (length p2 < length p)%nat
   | None => ck_fine st' = false
   end).
Proof.
  unfold parse_conv.
  assert (F : forall p0, exists (go : option (list Z * cstate)) (q : list Z) st', (st0 <- on OnError st ;; Ok (None, (p0, st0))) = Ok (go, (q, st')) /\
     match go with Some (p2, st2) => p2 = q /\ st2 = st' /\ (length p2 < length p)%nat | None => ck_fine st' = false end).
  { intros p0. cbn. exists None, p0. eexists. split; [reflexivity|]. reflexivity. }
  assert (C : forall c sys p0, (length p0 < length p)%nat ->
     exists (go : option (list Z * cstate)) (q : list Z) st', on_conv cstate on c sys p0 st = Ok (go, (q, st')) /\
     match go with Some (p2, st2) => p2 = q /\ st2 = st' /\ (length p2 < length p)%nat | None => ck_fine st' = false end).
  { intros c sys p0 L. unfold on_conv. destruct c as [c|]; [|apply F].
    destruct (ck_total (OnConv c sys) st) as (st' & E). rewrite E. cbn. exists (Some (p0, st')), p0, st'. auto. }
  assert (S0 : forall ev p0, (length p0 < length p)%nat ->
     exists (go : option (list Z * cstate)) (q : list Z) st', (st' <- on ev st ;; Ok (Some (p0, st'), (p0, st'))) = Ok (go, (q, st')) /\
     match go with Some (p2, st2) => p2 = q /\ st2 = st' /\ (length p2 < length p)%nat | None => ck_fine st' = false end).
  { intros ev p0 L. destruct (ck_total ev st) as (st' & E). rewrite E. cbn. exists (Some (p0, st')), p0, st'. auto. }
  destruct p as [|ch p1]; [apply F|]. cbn [length] in *.
  destruct (ch =? 37); [apply S0; lia|]. destruct (_ || _); [apply S0; lia|].
  destruct (ch =? 46).
  { destruct p1 as [|c p2]; [apply F|]. destruct (_ || _).
    - destruct p2 as [|c' p3]; [apply F|]. destruct (_ =? _); [apply C; cbn; lia|apply F].
    - destruct (_ =? _); [apply C; cbn; lia|apply F]. }
  destruct (ch =? 69); [destruct p1; [apply F|apply C; cbn; lia]|].
  destruct (ch =? 79); [destruct p1; [apply F|apply C; cbn; lia]|].
  apply C. lia.
Qed.
Lemma conv_sound p st p2 st2 ret : Forall ascii p ->
  parse_conv cstate on p st = Ok (Some (p2, st2), ret) ->
  exists l, meaning l <> None /\ p = codes l ++ p2.
Proof.
  intros A E. unfold parse_conv in E.
  assert (F : forall p0, (st0 <- on OnError st ;; Ok (None, (p0, st0))) = Ok (Some (p2, st2), ret) -> False).
  { intros p0 H. cbn in H. discriminate. }
  assert (C : forall c sys p0, on_conv cstate on c sys p0 st = Ok (Some (p2, st2), ret) -> c <> None /\ p0 = p2).
  { intros c sys p0 H. unfold on_conv in H. destruct c as [c|]; [|now apply F in H].
    destruct (ck_total (OnConv c sys) st) as (st' & E'). rewrite E' in H. cbn in H. injection H as <- _ _.
    split; [discriminate|reflexivity]. }
  assert (S0 : forall ev p0, (st' <- on ev st ;; Ok (Some (p0, st'), (p0, st'))) = Ok (Some (p2, st2), ret) -> p0 = p2).
  { intros ev p0 H. destruct (ck_total ev st) as (st' & E'). rewrite E' in H. cbn in H. now injection H as <- _ _. }
  destruct p as [|ch p1]; [now apply F in E|]. inversion A as [|? ? Ac A1]; subst.
  destruct (Z.eqb_spec ch 37) as [->|N1].
  { apply S0 in E. subst p2. exists "%"%string. split; [discriminate|reflexivity]. }
  destruct ((ch =? 110) || (ch =? 116)) eqn:W.
  { apply S0 in E. subst p2. apply orb_true_iff in W. rewrite !Z.eqb_eq in W. destruct W as [->| ->].
    - exists "n"%string. split; [discriminate|reflexivity].
    - exists "t"%string. split; [discriminate|reflexivity]. }
  destruct (Z.eqb_spec ch 46) as [->|N2].
  { destruct p1 as [|c p3]; [now apply F in E|]. destruct ((c =? 69) || (c =? 79)) eqn:W2.
    - destruct p3 as [|c' p4]; [now apply F in E|]. destruct (Z.eqb_spec c' 83) as [->|]; [|now apply F in E].
      apply C in E. destruct E as [_ <-]. apply orb_true_iff in W2. rewrite !Z.eqb_eq in W2. destruct W2 as [->| ->].
      + exists ".ES"%string. split; [discriminate|reflexivity].
      + exists ".OS"%string. split; [discriminate|reflexivity].
    - destruct (Z.eqb_spec c 83) as [->|]; [|now apply F in E].
      apply C in E. destruct E as [_ <-]. exists ".S"%string. split; [discriminate|reflexivity]. }
  destruct (Z.eqb_spec ch 69) as [->|N3].
  { destruct p1 as [|c p3]; [now apply F in E|]. apply C in E. destruct E as [N <-].
    inversion A1; subst. destruct (e_known c) as [K1 K2]; trivial.
    exists (letter2 69 c). split; [now apply known_meaning|]. now rewrite K2. }
  destruct (Z.eqb_spec ch 79) as [->|N4].
  { destruct p1 as [|c p3]; [now apply F in E|]. apply C in E. destruct E as [N <-].
    inversion A1; subst. destruct (o_known c) as [K1 K2]; trivial.
    exists (letter2 79 c). split; [now apply known_meaning|]. now rewrite K2. }
  apply C in E. destruct E as [N <-]. destruct (plain_known ch) as [K1 K2]; trivial.
  exists (letter1 ch). split; [now apply known_meaning|]. now rewrite K2.
Qed.

(** ** The loop ends *)
Lemma text_total text st : exists st', (match text with [] => Ok st | _ => on (OnText text) st end) = Ok st'.
Proof. destruct text; [eauto|apply ck_total]. Qed.
Lemma loop_ends e : forall fuel text p st, (length p < fuel)%nat ->
  (exists q st', parse_loop cstate on ck_fine fuel e text p st = Ok (q, st'))
  \/ parse_loop cstate on ck_fine fuel e text p st = UB.
Proof.
  induction fuel as [|fuel IH]; intros text p st L; [lia|]. cbn [parse_loop].
  assert (Fin : forall p, (exists q st', finish cstate on text p st = Ok (q, st')) \/ finish cstate on text p st = UB).
  { intros p0. unfold finish. destruct (text_total text st) as (st1 & ->). cbn [bind].
    destruct (ck_total OnVerify st1) as (st2 & ->). cbn. left. eauto. }
  assert (Stop : forall p, (exists q st', stop cstate on p st = Ok (q, st')) \/ stop cstate on p st = UB).
  { intros p0. left. unfold stop. cbn. eauto. }
  destruct p as [|ch p1]; [apply Fin|]. cbn [length] in L.
  destruct (ch =? 125); [apply Fin|]. destruct (ch =? 37); cbn [negb].
  - destruct (text_total text st) as (st1 & ->). cbn [bind].
    destruct (conv_total p1 st1) as (go & q & st2 & E & H). rewrite E. cbn [bind].
    destruct go as [[p2 st3]|]; [|left; eauto]. destruct H as (-> & -> & L2).
    destruct (ck_fine st2); [apply IH; lia|left; eauto].
  - destruct (simple_space ch).
    { destruct (ck_total (OnText text) st) as (st1 & ->). cbn [bind].
      destruct (ck_total OnWhitespace st1) as (st2 & ->). cbn [bind]. apply IH. lia. }
    cbv zeta. destruct (cp_len e ch =? 0)%nat eqn:Z0; [apply Stop|]. apply Nat.eqb_neq in Z0.
    destruct (1 <? cp_len e ch)%nat; [|apply IH; lia].
    destruct (length (ch :: p1) <? cp_len e ch)%nat; [apply Stop|].
    assert (Ls : (length (skipn (cp_len e ch) (ch :: p1)) < fuel)%nat)
      by (rewrite skipn_length; cbn [length]; lia).
    destruct (decode_total e (firstn (cp_len e ch) (ch :: p1))) as [(cp & ->)| ->]; [|right; reflexivity].
    cbn [bind]. destruct (is_cp_space cp).
    + destruct (ck_total (OnText text) st) as (st1 & ->). cbn [bind].
      destruct (ck_total OnWhitespace st1) as (st2 & ->). cbn [bind]. apply IH. exact Ls.
    + destruct (skipn _ _) as [|c p2]; [right; reflexivity|]. apply IH. cbn in Ls. lia.
Qed.
Lemma parse_ends e f : (exists p fmt, chrono_parse t e f = Ok (p, fmt)) \/
  chrono_parse t e f = Err InvalidFormatString \/ chrono_parse t e f = UB.
Proof.
  unfold chrono_parse. destruct f as [|c f']; [auto|]. destruct (c =? 125) eqn:E125; [auto|].
  set (f := c :: f').
  assert (G : (exists q st', parse_chrono_format_specs cstate on ck_fine e f ck_init = Ok (q, st'))
              \/ parse_chrono_format_specs cstate on ck_fine e f ck_init = UB).
  { subst f. cbv beta iota zeta delta [parse_chrono_format_specs]. rewrite E125.
    assert (From : forall (p : list Z) st, let r0 := match p with
        | 37 :: _ => parse_loop cstate on ck_fine (S (length p)) e [] p st | _ => stop cstate on p st end in
        (exists q st', r0 = Ok (q, st')) \/ r0 = UB).
    { intros p st. cbv zeta.
      assert (Stop : (exists q st', stop cstate on p st = Ok (q, st')) \/ stop cstate on p st = UB).
      { left. unfold stop. cbn. eauto. }
      pose proof (loop_ends e (S (length p)) [] p st (Nat.lt_succ_diag_r _)) as L.
      destruct p as [|z p0]; [exact Stop|].
      destruct (Z.eq_dec z 37) as [->|N]; [exact L|].
      destruct z as [|z|z]; try exact Stop.
      do 6 (destruct z as [z|z|]; try exact Stop). congruence. }
    destruct (c =? 76).
    - destruct (ck_total OnLocalized ck_init) as (st1 & ->). cbn [bind]. exact (From f' st1).
    - exact (From (c :: f') ck_init). }
  destruct G as [(q & st & ->)| ->]; cbn [bind]; [|auto].
  destruct (ck_fine st); [left; eauto|auto].
Qed.

(** ** ASCII formats *)
Lemma loop_sound e : forall fuel text p st, (length p < fuel)%nat -> Forall ascii p ->
  exists q st', parse_loop cstate on ck_fine fuel e text p st = Ok (q, st') /\
  (ck_fine st' = true -> at_end q /\ exists ts, Forall wf_token ts /\ Forall plain_token ts /\ p = flat_map (write e) ts ++ q).
Proof.
  induction fuel as [|fuel IH]; intros text p st L A; [lia|]. cbn [parse_loop].
  assert (Fin : at_end p -> exists q st', finish cstate on text p st = Ok (q, st') /\
     (ck_fine st' = true -> at_end q /\ exists ts, Forall wf_token ts /\ Forall plain_token ts /\ p = flat_map (write e) ts ++ q)).
  { intros He. unfold finish. destruct (text_total text st) as (st1 & ->). cbn [bind].
    destruct (ck_total OnVerify st1) as (st2 & ->). cbn [bind]. exists p, st2. split; [reflexivity|].
    intros _. split; [trivial|]. exists []. repeat split; constructor. }
  destruct p as [|ch p1]; [apply Fin; exact I|]. cbn [length] in L. inversion A as [|? ? Ac A1]; subst.
  destruct (Z.eqb_spec ch 125) as [->|N125]; [apply Fin; reflexivity|].
  assert (Next : forall u p2 text' st1 tk, (length p2 < fuel)%nat -> Forall ascii p2 ->
     wf_token tk -> plain_token tk -> write e tk = u -> ch :: p1 = u ++ p2 ->
     exists q st', parse_loop cstate on ck_fine fuel e text' p2 st1 = Ok (q, st') /\
     (ck_fine st' = true -> at_end q /\ exists ts, Forall wf_token ts /\ Forall plain_token ts /\ ch :: p1 = flat_map (write e) ts ++ q)).
  { intros u p2 text' st1 tk L2 A2 W Pl Eu Ep. destruct (IH text' p2 st1 L2 A2) as (q & st' & E & H).
    exists q, st'. split; [trivial|]. intros F. destruct (H F) as (Hq & ts & Wt & Pt & Et).
    split; [trivial|]. exists (tk :: ts). split; [now constructor|]. split; [now constructor|].
    cbn [flat_map]. now rewrite Ep, Eu, Et, app_assoc. }
  destruct (Z.eqb_spec ch 37) as [->|N37]; cbn [negb].
  - destruct (text_total text st) as (st1 & ->). cbn [bind].
    destruct (conv_total p1 st1) as (go & q & st2 & E & H). rewrite E. cbn [bind].
    destruct go as [[p2 st3]|].
    + destruct H as (-> & -> & L2). destruct (ck_fine st2) eqn:F2.
      * destruct (conv_sound p1 st1 q st2 _ A1 E) as (l & M & Ep).
        apply (Next (37 :: codes l) q [] st2 (TConv l)); trivial; [lia| |exact I|now rewrite Ep].
        rewrite Ep in A1. now apply Forall_app in A1.
      * exists q, st2. split; [reflexivity|]. congruence.
    + exists q, st2. split; [reflexivity|]. congruence.
  - destruct (simple_space ch) eqn:Sp.
    + destruct (ck_total (OnText text) st) as (st1 & ->). cbn [bind].
      destruct (ck_total OnWhitespace st1) as (st2 & ->). cbn [bind].
      apply (Next [ch] p1 [] st2 (TSpace ch)); trivial; try lia; [|now apply ascii_encode].
      cbn [wf_token]. now rewrite <- ascii_space.
    + cbv zeta. rewrite ascii_len by trivial. cbn [Nat.eqb Nat.ltb Nat.leb].
      apply (Next [ch] p1 (text ++ [ch]) st (TLit ch)); trivial; try lia; [|now apply ascii_encode].
      cbn [wf_token]. rewrite <- ascii_space by trivial. repeat split; trivial. left. unfold ascii in Ac. lia.
Qed.
Lemma format_sound e f : Forall ascii f ->
  chrono_parse t e f = Err InvalidFormatString \/
  exists loc ts p, Forall wf_token ts /\ Forall plain_token ts /\ starts_with_conv ts /\ at_end p /\
    f = write_format e loc ts ++ p /\ chrono_parse t e f = Ok (p, write_format e loc ts).
Proof.
  intros A. unfold chrono_parse. destruct f as [|c f']; [auto|]. destruct (Z.eqb_spec c 125) as [|N125]; [auto|].
  set (f := c :: f') in *.
  assert (From : forall (p : list Z) st, Forall ascii p -> let r0 := match p with
        | 37 :: _ => parse_loop cstate on ck_fine (S (length p)) e [] p st | _ => stop cstate on p st end in
        exists q st', r0 = Ok (q, st') /\ (ck_fine st' = true -> at_end q /\
          exists ts, Forall wf_token ts /\ Forall plain_token ts /\ starts_with_conv ts /\ p = flat_map (write e) ts ++ q)).
  { intros p st Ap. cbv zeta.
    assert (Stop : exists q st', stop cstate on p st = Ok (q, st') /\ (ck_fine st' = true -> at_end q /\
          exists ts, Forall wf_token ts /\ Forall plain_token ts /\ starts_with_conv ts /\ p = flat_map (write e) ts ++ q)).
    { unfold stop. cbn. eexists. eexists. split; [reflexivity|]. discriminate. }
    destruct (loop_sound e (S (length p)) [] p st (Nat.lt_succ_diag_r _) Ap) as (q & st' & E & H).
    destruct p as [|z p0]; [exact Stop|].
    destruct (Z.eq_dec z 37) as [->|N].
    - exists q, st'. split; [exact E|]. intros F. destruct (H F) as (Hq & ts & W & Pl & Et). split; [trivial|].
      exists ts. split; [trivial|]. split; [trivial|]. split; [|trivial].
      destruct ts as [|[cp|cp|l] ts]; cbn [starts_with_conv]; trivial; cbn [flat_map write app] in Et.
      + subst q. cbn in Hq. discriminate.
      + destruct (Forall_inv W) as (_ & _ & N37 & _). assert (Ac := Forall_inv Pl). cbn in Ac.
        rewrite (ascii_encode e cp Ac) in Et. cbn in Et. congruence.
      + assert (Wc := Forall_inv W). assert (Ac := Forall_inv Pl). cbn [wf_token plain_token] in Ac, Wc.
        rewrite (ascii_encode e cp Ac) in Et. cbn in Et. injection Et as <- _. discriminate Wc.
    - destruct z as [|z|z]; try exact Stop.
      do 6 (destruct z as [z|z|]; try exact Stop). congruence. }
  assert (G : exists q st', parse_chrono_format_specs cstate on ck_fine e f ck_init = Ok (q, st') /\
     (ck_fine st' = true -> at_end q /\ exists loc ts, Forall wf_token ts /\ Forall plain_token ts /\ starts_with_conv ts
         /\ f = write_format e loc ts ++ q)).
  { subst f. cbv beta iota zeta delta [parse_chrono_format_specs].
    rewrite (proj2 (Z.eqb_neq c 125) N125). destruct (Z.eqb_spec c 76) as [->|N76].
    - destruct (ck_total OnLocalized ck_init) as (st1 & ->). cbn [bind]. inversion A; subst.
      destruct (From f' st1) as (q & st' & E & H); trivial. exists q, st'. split; [exact E|].
      intros F. destruct (H F) as (Hq & ts & W & Pl & Sc & Et). split; [trivial|].
      exists true, ts. repeat split; trivial. now rewrite Et.
    - destruct (From (c :: f') ck_init A) as (q & st' & E & H). exists q, st'. split; [exact E|].
      intros F. destruct (H F) as (Hq & ts & W & Pl & Sc & Et). split; [trivial|].
      exists false, ts. repeat split; trivial. }
  destruct G as (q & st & E & H). rewrite E. cbn [bind]. destruct (ck_fine st) eqn:F; [|auto].
  right. destruct (H eq_refl) as (Hq & loc & ts & W & Pl & Sc & Et). exists loc, ts, q.
  repeat split; trivial. f_equal. f_equal.
  rewrite Et, app_length, Nat.add_sub, firstn_app, firstn_all, Nat.sub_diag. cbn. now rewrite app_nil_r.
Qed.
End Any.
