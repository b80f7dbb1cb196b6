(** Only format-specs of the grammar are accepted. *)
From Verif Require Import Prelude UnicodeModel UnicodeSpec ReadModel ReadProofs SpecsModel ArgsModel FormatModel FormatProofs
  FormatSpec FormatSpecProofs SpecsInvProofs GrammarSpec.
Local Open Scope Z_scope.
Ltac Zify.zify_post_hook ::= Z.div_mod_to_equations.

Lemma err_upd f st : ss_err (s_upd f st) = ss_err st. Proof. reflexivity. Qed.

(** ** Numbers *)
Lemma simple_int_inv s : forall v n s', 0 <= v -> parse_simple_int_loop s v = (n, s') -> n <> -1 ->
  exists ds, s = ds ++ s' /\ Forall (fun c => 48 <= c <= 57) ds
    /\ n = fold_left (fun v c => 10 * v + (c - 48)) ds v /\ (ds <> [] -> n <= 0x7fffffff).
Proof.
  induction s as [|c s IH]; intros v n s' Hv; cbn [parse_simple_int_loop].
  - intros [= <- <-] _. exists []. repeat split; auto. congruence.
  - destruct (is_digit c) eqn:E.
    + cbv zeta. destruct (Z.ltb_spec 0x7fffffff (v * 10 + (c - 48))); [intros [= <- _] HX; congruence|].
      intros H1 H2. unfold is_digit in E.
      destruct (IH (v * 10 + (c - 48)) n s' ltac:(lia) H1 H2) as (ds & -> & H3 & H4 & H5).
      exists (c :: ds). split; [reflexivity|]. split; [constructor; [lia|exact H3]|].
      cbn [fold_left]. replace (10 * v + (c - 48)) with (v * 10 + (c - 48)) by lia. split; [exact H4|].
      intros _. destruct ds; [cbn in H4; lia|apply H5; discriminate].
    + intros [= <- <-] _. exists []. repeat split; auto. congruence.
Qed.
Lemma simple_int_num s n s' : parse_simple_int s = Ok (n, s') -> n <> -1 ->
  exists ds, s = ds ++ s' /\ numeral ds /\ n = number ds.
Proof.
  unfold parse_simple_int. destruct s as [|c s]; [discriminate|]. destruct (is_digit c) eqn:E; [|discriminate].
  intros H Hn. assert (H' : parse_simple_int_loop (c :: s) 0 = (n, s')) by congruence.
  assert (HX := H'). cbn [parse_simple_int_loop] in HX. rewrite E in HX. cbv zeta in HX.
  destruct (simple_int_inv (c :: s) 0 n s' ltac:(lia) H' Hn) as (ds & H1 & H2 & H3 & H4). exists ds.
  assert (HD : ds <> []).
  { intros ->. cbn [app] in H1. subst s'. revert HX. destruct (Z.ltb_spec 0x7fffffff (0 * 10 + (c - 48))); [congruence|].
    intros HX. unfold is_digit in E. destruct (simple_int_inv s (0 * 10 + (c - 48)) n (c :: s) ltac:(lia) HX Hn) as (ds & H5 & _).
    apply (f_equal (@length Z)) in H5. rewrite app_length in H5. cbn [length] in H5. lia. }
  split; [exact H1|]. split; [|exact H3]. split; [exact HD|]. split; [exact H2|]. unfold number. rewrite <- H3. auto.
Qed.
Lemma width_inv s st s' st' : parse_width s st = Ok (s', st') -> ss_err st' = false ->
  ss_err st = false /\ exists w, s = w ++ s' /\ (w = [] \/ numeral w) /\
   ss_specs st' = if match w with [] => true | _ => false end then ss_specs st else set_width (number w) (ss_specs st).
Proof.
  unfold parse_width. destruct s as [|c s]; [discriminate|]. destruct (is_digit c).
  - intros H HE. apply ok_bind in H. destruct H as ([n q] & E & H). cbn beta iota in H.
    destruct (Z.eqb_spec n (-1)); [injection H as <- <-; discriminate|]. injection H as <- <-.
    unfold on_width in *. destruct (negb _ && _) eqn:EE; [discriminate|]. split; [exact HE|].
    destruct (simple_int_num _ _ _ E n0) as (ds & -> & H1 & ->). exists ds. split; [reflexivity|]. split; [right; exact H1|].
    destruct ds; [destruct H1 as [[] _]; reflexivity|]. reflexivity.
  - intros [= <- <-] HE. split; [exact HE|]. exists []. auto.
Qed.
Lemma precision_inv s st s' st' : parse_precision s st = Ok (s', st') -> ss_err st' = false ->
  ss_err st = false /\ exists p, s = p ++ s' /\ (p = [] \/ numeral p /\ width (ss_specs st) <= number p) /\
   ss_specs st' = if match p with [] => true | _ => false end then ss_specs st else set_precision (number p) (ss_specs st).
Proof.
  unfold parse_precision. destruct s as [|c s]; [discriminate|]. destruct (is_digit c).
  - intros H HE. apply ok_bind in H. destruct H as ([n q] & E & H). cbn beta iota in H.
    destruct (Z.eqb_spec n (-1)); [injection H as <- <-; discriminate|]. injection H as <- <-.
    unfold on_precision in *. destruct (Z.ltb_spec n (width (ss_specs st))); [discriminate|]. split; [exact HE|].
    destruct (simple_int_num _ _ _ E n0) as (ds & -> & H1 & ->). exists ds. split; [reflexivity|]. split; [right; auto|].
    destruct ds; [destruct H1 as [[] _]; reflexivity|]. reflexivity.
  - intros [= <- <-] HE. split; [exact HE|]. exists []. auto.
Qed.

(** ** Fill and alignment *)
Lemma check_align_inv c : check_align c <> ANone -> align_text [c].
Proof.
  unfold check_align, align_text. destruct (Z.eqb_spec c 60); [subst; auto|].
  destruct (Z.eqb_spec c 62); [subst; auto|]. destruct (Z.eqb_spec c 94); [subst; auto|]. congruence.
Qed.
Lemma align_inv e s st s' st' : parse_align e s st = Ok (s', st') -> ss_err st' = false ->
  ss_err st = false /\ exists fl al, s = fl ++ al ++ s' /\ (fl = [] \/ fill_text e fl /\ al <> []) /\ (al = [] \/ align_text al)
   /\ width (ss_specs st') = width (ss_specs st) /\ precision (ss_specs st') = precision (ss_specs st).
Proof.
  unfold parse_align. destruct s as [|c s]; [discriminate|]. cbv zeta.
  destruct ((code_point_length e c =? 0)%nat || (length (c :: s) <? code_point_length e c)%nat) eqn:EL.
  { intros [= <- <-] HE. discriminate. }
  apply orb_false_iff in EL. destruct EL as [EL1 EL2]. apply Nat.eqb_neq in EL1. apply Nat.ltb_ge in EL2.
  destruct (skipn (code_point_length e c) (c :: s)) as [|a after] eqn:ES.
  { intros [= <- <-] HE. split; [exact HE|]. exists [], []. auto 8. }
  assert (HS : c :: s = firstn (code_point_length e c) (c :: s) ++ a :: after) by (rewrite <- ES; symmetry; apply firstn_skipn).
  destruct ((code_point_length e c =? 1)%nat && (c =? 123)) eqn:EB; [intros [= <- <-] HE; discriminate|].
  destruct ((code_point_length e c =? 1)%nat && (c =? 91)) eqn:EC.
  { intros [= <- <-] HE. split; [exact HE|]. exists [], []. auto 8. }
  assert (HF : check_align a <> ANone -> forall st1, on_fill e (firstn (code_point_length e c) (c :: s)) st = Ok st1 ->
    ss_err st1 = false -> ss_err st = false /\ exists fl al, c :: s = fl ++ al ++ after /\ (fl = [] \/ fill_text e fl /\ al <> []) /\ (al = [] \/ align_text al)
      /\ width (ss_specs st1) = width (ss_specs st) /\ precision (ss_specs st1) = precision (ss_specs st)).
  { intros HA st1 HO HE. unfold on_fill in HO. apply ok_bind in HO. destruct HO as (f & _ & HO). injection HO as <-.
    split; [exact HE|]. exists (firstn (code_point_length e c) (c :: s)), [a]. split; [exact HS|].
    split; [|split; [right; apply check_align_inv, HA|cbn; auto]].
    right. split; [|discriminate]. unfold fill_text. destruct (firstn (code_point_length e c) (c :: s)) as [|x l] eqn:EF.
    - destruct (code_point_length e c); [congruence|discriminate].
    - assert (x = c) by (destruct (code_point_length e c); [congruence|cbn in EF; congruence]). subst x.
      split; [|split].
      + transitivity (code_point_length e c); [reflexivity|]. rewrite <- EF, firstn_length. lia.
      + intros [= -> ->]. assert (code_point_length e 123 = 1%nat).
        { apply (f_equal (@length Z)) in EF. rewrite firstn_length in EF. cbn [length] in EF, EL2. lia. }
        rewrite H in EB. discriminate.
      + intros [= -> ->]. assert (code_point_length e 91 = 1%nat).
        { apply (f_equal (@length Z)) in EF. rewrite firstn_length in EF. cbn [length] in EF, EL2. lia. }
        rewrite H in EC. discriminate. }
  destruct (check_align a) eqn:EA.
  1:{ destruct (check_align c) eqn:EQ; intros H HE; injection H as <- <-.
      - split; [exact HE|]. exists [], []. auto 8.
      - split; [exact HE|]. exists [], [c]. rewrite HS.
        assert (H1 : code_point_length e c = 1%nat) by (unfold check_align in EQ; revert EQ; destruct (Z.eqb_spec c 60); [subst; destruct e; reflexivity|];
          destruct (Z.eqb_spec c 62); [subst; destruct e; reflexivity|]; destruct (Z.eqb_spec c 94); [subst; destruct e; reflexivity|]; discriminate).
        rewrite H1. cbn [firstn app]. split; [reflexivity|]. split; [auto|]. split; [right; apply check_align_inv; congruence|cbn; auto].
      - split; [exact HE|]. exists [], [c]. rewrite HS.
        assert (H1 : code_point_length e c = 1%nat) by (unfold check_align in EQ; revert EQ; destruct (Z.eqb_spec c 60); [subst; destruct e; reflexivity|];
          destruct (Z.eqb_spec c 62); [subst; destruct e; reflexivity|]; destruct (Z.eqb_spec c 94); [subst; destruct e; reflexivity|]; discriminate).
        rewrite H1. cbn [firstn app]. split; [reflexivity|]. split; [auto|]. split; [right; apply check_align_inv; congruence|cbn; auto].
      - split; [exact HE|]. exists [], [c]. rewrite HS.
        assert (H1 : code_point_length e c = 1%nat) by (unfold check_align in EQ; revert EQ; destruct (Z.eqb_spec c 60); [subst; destruct e; reflexivity|];
          destruct (Z.eqb_spec c 62); [subst; destruct e; reflexivity|]; destruct (Z.eqb_spec c 94); [subst; destruct e; reflexivity|]; discriminate).
        rewrite H1. cbn [firstn app]. split; [reflexivity|]. split; [auto|]. split; [right; apply check_align_inv; congruence|cbn; auto]. }
  all: intros H HE; apply ok_bind in H; destruct H as (st1 & H1 & H2); injection H2 as <- <-;
    apply (HF ltac:(discriminate) st1 H1 HE).
Qed.

(** ** Character sets *)
Lemma set_code_point_inv e s cp s' : parse_set_code_point e s = Ok (Some (cp, s')) ->
  exists u, s = u ++ s' /\ one_cp e u cp.
Proof.
  unfold parse_set_code_point. destruct s as [|c s]; [discriminate|]. cbv zeta.
  destruct ((cp_len e c =? 0)%nat || (length (c :: s) <? cp_len e c)%nat) eqn:EL; [discriminate|].
  apply orb_false_iff in EL. destruct EL as [EL1 EL2]. apply Nat.eqb_neq in EL1. apply Nat.ltb_ge in EL2.
  intros H. apply ok_bind in H. destruct H as (x & E & H). destruct (Z.leb_spec invalid_code_point x); [discriminate|].
  assert (H1 : x = cp) by congruence. assert (H2 : skipn (cp_len e c) (c :: s) = s') by congruence. subst x s'.
  exists (firstn (cp_len e c) (c :: s)). split; [symmetry; apply firstn_skipn|].
  split; [|split; [exact E|unfold invalid_code_point in *; lia]].
  destruct (firstn (cp_len e c) (c :: s)) as [|x l] eqn:EF.
  - destruct (cp_len e c); [congruence|discriminate].
  - assert (x = c) by (destruct (cp_len e c); [congruence|cbn in EF; congruence]). subst x.
    rewrite <- EF, firstn_length. lia.
Qed.
Lemma set_literal_inv e c s st s' st' : c <> 93 -> parse_set_literal specs_set_handler e (c :: s) st = Ok (s', st') -> ss_err st' = false ->
  ss_err st = false /\ forall rest body, s' = body ++ rest -> set_body e body -> exists body', c :: s = body' ++ rest /\ body' <> [] /\ set_body e body'.
Proof.
  intros Hc H HE. unfold parse_set_literal in H. apply ok_bind in H. destruct H as (x & E & H).
  destruct x as [[first s1]|]; [|injection H as <- <-; discriminate].
  destruct (set_code_point_inv _ _ _ _ E) as (u & E1 & Hu). 
  assert (HU : hd 0 u <> 93 /\ u <> []).
  { destruct u as [|x u]; [destruct Hu as [[] _]|]. cbn in E1. injection E1 as -> _. cbn. split; [congruence|discriminate]. }
  assert (HS : forall st2, on_charset_single first st = st2 -> st' = st2 -> s' = s1 ->
    ss_err st = false /\ forall rest body, s' = body ++ rest -> set_body e body -> exists body', c :: s = body' ++ rest /\ body' <> [] /\ set_body e body').
  { intros st2 <- -> ->. split; [unfold on_charset_single in HE; destruct (first <=? 127); exact HE|].
    intros rest body Hb Hsb. exists (u ++ body). split; [rewrite E1, Hb, app_assoc; reflexivity|].
    split; [destruct u; [tauto|discriminate]|]. eapply SBone; [exact Hu|tauto|exact Hsb]. }
  assert (HS' : forall X, Ok (on_charset_single first st) = X -> ('st1 <- X;; Ok (s1, st1)) = Ok (s', st') ->
    ss_err st = false /\ forall rest body, s' = body ++ rest -> set_body e body -> exists body', c :: s = body' ++ rest /\ body' <> [] /\ set_body e body').
  { intros X <- HX. cbn [bind] in HX. injection HX as <- <-. eapply HS; reflexivity. }
  destruct s1 as [|d [|c2 s2]]; [eapply HS'; [reflexivity|exact H]..|].
  destruct ((d =? 45) && negb (c2 =? 93)) eqn:ED; [|eapply HS'; [reflexivity|exact H]].
  clear HS HS'. apply andb_true_iff in ED. destruct ED as [ED1 ED2]. apply Z.eqb_eq in ED1. subst d.
  apply negb_true_iff, Z.eqb_neq in ED2.
  apply ok_bind in H. destruct H as (x & E2 & H). destruct x as [[second s3]|]; [|injection H as <- <-; discriminate].
  destruct (Z.ltb_spec second first); [injection H as <- <-; discriminate|].
  apply ok_bind in H. destruct H as (st1 & E3 & H). injection H as <- <-.
  cbn [sh_range specs_set_handler] in E3. unfold on_charset_range in E3. destruct (negb _); [discriminate|].
  assert (HE' : ss_err st = false) by (destruct (_ <=? 127) in E3; injection E3 as <-; exact HE).
  split; [exact HE'|]. intros rest body -> Hsb.
  destruct (set_code_point_inv _ _ _ _ E2) as (v & E4 & Hv).
  assert (HV : hd 0 v <> 93).
  { destruct v as [|x v]; [destruct Hv as [[] _]|]. cbn in E4. injection E4 as -> _. exact ED2. }
  exists (u ++ 45 :: v ++ body). split; [rewrite E1, E4; rewrite <- !app_assoc; cbn; rewrite <- app_assoc; reflexivity|].
  split; [destruct u; [tauto|discriminate]|]. eapply SBrange; [exact Hu|tauto|exact Hv|exact HV|lia|exact Hsb].
Qed.
Lemma set_loop_inv e : forall fuel s st s' st' b, parse_set_loop fuel specs_set_handler e s st = Ok (s', st', b) -> ss_err st' = false ->
  ss_err st = false /\ b = true /\ exists body, s = body ++ 93 :: s' /\ set_body e body /\ (body = [] <-> hd 0 s = 93).
Proof.
  induction fuel as [|f IH]; intros [|c s] st s' st' b H HE; cbn [parse_set_loop specs_set_handler sh_failed sh_error] in H;
    try (injection H as <- <- <-; discriminate).
  - destruct (ss_err st) eqn:ES; [injection H as <- <- <-; discriminate|].
    destruct (Z.eqb_spec c 93); [|discriminate]. injection H as <- <- <-. subst c. split; [reflexivity|]. split; [reflexivity|].
    exists []. split; [reflexivity|]. split; [constructor|]. cbn. tauto.
  - destruct (ss_err st) eqn:ES; [injection H as <- <- <-; discriminate|].
    destruct (Z.eqb_spec c 93).
    { injection H as <- <- <-. subst c. split; [reflexivity|]. split; [reflexivity|]. exists []. split; [reflexivity|]. split; [constructor|]. cbn. tauto. }
    split; [reflexivity|]. apply ok_bind in H. destruct H as ([s2 st2] & E & H). cbn beta iota in H.
    destruct (IH _ _ _ _ _ H HE) as (H1 & H2 & body & H3 & H4 & _). split; [exact H2|].
    destruct (set_literal_inv e c s st s2 st2 n E H1) as [_ HL]. destruct (HL _ _ H3 H4) as (body' & H5 & H6 & H7).
    exists body'. split; [exact H5|]. split; [exact H7|]. cbn. tauto.
Qed.
Lemma presentation_set_inv e s st s' st' set : parse_presentation_set specs_set_handler e s st = Ok (s', st', set) -> ss_err st' = false ->
  (2 < length set)%nat -> ss_err st = false /\ exists ty, s = ty ++ s' /\ set_text e ty.
Proof.
  intros H HE HL. unfold parse_presentation_set in H. destruct s as [|c s]; [discriminate|].
  destruct (Z.eq_dec c 91) as [->|Hc].
  2:{ exfalso. revert H. destruct c as [|p|p]; try discriminate.
      repeat (destruct p as [p|p|]; try discriminate). contradiction. }
  destruct s as [|c s]; [injection H as <- <- <-; cbn in HL; lia|].
  destruct (Z.eqb_spec c 94).
  - subst c. cbn [specs_set_handler sh_inverted] in H.
    destruct s as [|d s]; [injection H as <- <- <-; cbn in HL; lia|].
    destruct (Z.eqb_spec d 93).
    + subst d. cbn [specs_set_handler sh_single] in H. cbn [bind] in H. unfold finish_set in H. apply ok_bind in H. destruct H as ([[s3 st3] b] & E & H).
      assert (H1 : s3 = s') by congruence. assert (H2 : st3 = st') by congruence. subst s3 st3.
      destruct (set_loop_inv _ _ _ _ _ _ _ E HE) as (H3 & _ & body & H4 & H5 & _).
      split; [exact H3|]. exists (91 :: [94] ++ [93] ++ body ++ [93]).
      split; [rewrite H4; cbn; rewrite <- app_assoc; reflexivity|]. exists [94], [93], body. auto 6.
    + unfold finish_set in H. apply ok_bind in H. destruct H as ([[s3 st3] b] & E & H).
      assert (H1 : s3 = s') by congruence. assert (H2 : st3 = st') by congruence. subst s3 st3.
      destruct (set_loop_inv _ _ _ _ _ _ _ E HE) as (H3 & _ & body & H4 & H5 & H6).
      split; [exact H3|]. exists (91 :: [94] ++ [] ++ body ++ [93]).
      split; [rewrite H4; cbn; rewrite <- app_assoc; reflexivity|]. exists [94], [], body.
      split; [reflexivity|]. split; [exact H5|]. right. split; [reflexivity|]. left. split; [reflexivity|].
      intros HX. apply H6 in HX. cbn in HX. contradiction.
  - destruct (Z.eqb_spec c 93); [injection H as <- <- <-; cbn in HL; lia|].
    unfold finish_set in H. apply ok_bind in H. destruct H as ([[s3 st3] b] & E & H).
    assert (H1 : s3 = s') by congruence. assert (H2 : st3 = st') by congruence. subst s3 st3.
    destruct (set_loop_inv _ _ _ _ _ _ _ E HE) as (H3 & _ & body & H4 & H5 & H6).
    split; [exact H3|]. exists (91 :: [] ++ [] ++ body ++ [93]).
    split; [rewrite H4; cbn; rewrite <- app_assoc; reflexivity|]. exists [], [], body.
    split; [reflexivity|]. split; [exact H5|]. left. repeat split.
    intros HX. apply H6 in HX. cbn in HX. contradiction.
Qed.

(** ** Regular expressions *)
Lemma regex_end_inv s : forall prev t s2 t2, regex_end prev s t = (s2, t2) ->
  s2 = [] \/ exists p s3, s2 = 47 :: s3 /\ s = p ++ 47 :: s3 /\ slashes_escaped prev p.
Proof.
  induction s as [|c s IH]; intros prev t s2 t2; cbn [regex_end].
  - intros [= <- _]. auto.
  - destruct (Z.eqb_spec c 47) as [->|Hc].
    + destruct (Z.eqb_spec prev 92) as [->|Hp]; cbn [negb].
      * intros H. destruct (IH _ _ _ _ H) as [H1|(p & s3 & H1 & H2 & H3)]; [auto|]. right.
        exists (47 :: p), s3. split; [exact H1|]. split; [rewrite H2; reflexivity|]. cbn. auto.
      * intros [= <- _]. right. exists [], s. split; [reflexivity|]. split; [reflexivity|]. exact Hp.
    + intros H. destruct (IH _ _ _ _ H) as [H1|(p & s3 & H1 & H2 & H3)]; [auto|]. right.
      exists (c :: p), s3. split; [exact H1|]. split; [rewrite H2; reflexivity|]. cbn. split; [congruence|exact H3].
Qed.
Definition fbit (c : Z) : Z := match regex_flag c with Some f => f | None => 0 end.
Lemma regex_flag_letter c f : regex_flag c = Some f -> In c regex_flag_letters /\ (f = 1 \/ f = 2 \/ f = 4 \/ f = 8).
Proof.
  unfold regex_flag, regex_flag_letters. cbn [In]. destruct (Z.eqb_spec c 109); [intros [= <-]; auto 8|].
  destruct (Z.eqb_spec c 115); [intros [= <-]; auto 8|]. destruct (Z.eqb_spec c 105); [intros [= <-]; auto 8|].
  destruct (Z.eqb_spec c 110); [intros [= <-]; auto 8|]. discriminate.
Qed.
Lemma flags_inv cf s : forall flags st s' st' x, regex_flags_loop cf s flags st = (s', st', Some x) -> ss_err st' = false ->
  ss_err st = false /\ exists fl, s = fl ++ s' /\ NoDup fl /\ incl fl regex_flag_letters
   /\ (forall c, In c fl -> Z.land flags (fbit c) = 0)
   /\ (c_regex_std cf = true -> ~ In 115 fl /\ (c_regex_multiline cf = false -> ~ In 109 fl)).
Proof.
  induction s as [|c s IH]; intros flags st s' st' x; cbn [regex_flags_loop].
  - intros [= <- <- _] HE. split; [exact HE|]. exists []. repeat split; auto using NoDup_nil; intros ? [].
  - destruct (c =? 125).
    { intros [= <- <- _] HE. split; [exact HE|]. exists []. repeat split; auto using NoDup_nil; intros ? []. }
    destruct (regex_flag c) as [f|] eqn:EF; [|discriminate].
    destruct (Z.eqb_spec (Z.land flags f) 0) as [EL|EL]; cbn [negb]; [|discriminate].
    cbv zeta. intros H HE. destruct (IH _ _ _ _ _ H HE) as (H1 & fl & -> & H2 & H3 & H4 & H5).
    destruct (regex_flag_letter c f EF) as [HI HV].
    assert (HB : fbit c = f) by (unfold fbit; rewrite EF; reflexivity).
    destruct (c_regex_std cf && ((c =? 115) || ((c =? 109) && negb (c_regex_multiline cf)))) eqn:ES; [discriminate|].
    split; [exact H1|]. exists (c :: fl). split; [reflexivity|]. split; [|split; [|split]].
    + constructor; [|exact H2]. intros HX. specialize (H4 c HX). rewrite HB in H4. rewrite Z.land_comm, Z.land_lor_distr_r, Z.land_diag in H4.
      apply Z.lor_eq_0_iff in H4. lia.
    + intros y [<-|Hy]; [exact HI|apply H3, Hy].
    + intros y [<-|Hy]; [rewrite HB; exact EL|]. specialize (H4 y Hy). rewrite Z.land_comm, Z.land_lor_distr_r in H4.
      apply Z.lor_eq_0_iff in H4. rewrite Z.land_comm. apply H4.
    + intros HS. rewrite HS in ES. cbn [andb] in ES. apply orb_false_iff in ES. destruct ES as [ES1 ES2].
      apply Z.eqb_neq in ES1. destruct (H5 HS) as [H6 H7]. split; [intros [HX|HX]; [congruence|tauto]|].
      intros HM. rewrite HM in ES2. cbn [negb] in ES2. rewrite andb_true_r in ES2. apply Z.eqb_neq in ES2.
      intros [HX|HX]; [congruence|]. apply (H7 HM HX).
Qed.
Lemma flags_none cf s : forall flags st s' st', regex_flags_loop cf s flags st = (s', st', None) -> ss_err st' = true.
Proof.
  induction s as [|c s IH]; intros flags st s' st'; cbn [regex_flags_loop]; [discriminate|].
  destruct (c =? 125); [discriminate|]. destruct (regex_flag c); [|intros [= _ <-]; reflexivity].
  destruct (negb _); [intros [= _ <-]; reflexivity|]. cbv zeta. apply IH.
Qed.
Lemma regex_inv cf s st s' st' : parse_presentation_regex cf s st = Ok (s', st') -> ss_err st' = false ->
  ss_err st = false /\ exists ty, s = ty ++ s' /\ regex_text (rb_of cf) ty.
Proof.
  intros H HE. unfold parse_presentation_regex in H. destruct (c_regex cf) eqn:ER; cbn [negb] in H; [|injection H as <- <-; discriminate].
  destruct s as [|c s]; [discriminate|]. destruct (Z.eq_dec c 47) as [->|Hc].
  2:{ exfalso. revert H. destruct c as [|p|p]; try discriminate. repeat (destruct p as [p|p|]; try discriminate). contradiction. }
  destruct (negb (c_regex_wide cf) && negb match c_enc cf with U8 => true | _ => false end) eqn:EW; [injection H as <- <-; discriminate|].
  destruct s as [|c1 s1]; [injection H as <- <-; discriminate|].
  destruct (regex_end 47 (c1 :: s1) PRegex) as [s2 t] eqn:EE.
  destruct (regex_end_inv _ _ _ _ _ EE) as [->|(p & s3 & -> & EP & HS)]; [injection H as <- <-; discriminate|].
  assert (HP : firstn (length (c1 :: s1) - length (47 :: s3)) (c1 :: s1) = p).
  { rewrite EP. rewrite app_length, Nat.add_sub, firstn_app, firstn_all, Nat.sub_diag. cbn. apply app_nil_r. }
  cbv zeta in H. rewrite HP in H. destruct p as [|x p]; [injection H as <- <-; discriminate|].
  destruct s3 as [|c3 s3]; [injection H as <- <-; discriminate|].
  destruct (regex_flags_loop cf (c3 :: s3) 0 _) as [[s4 st4] fl] eqn:EF. destruct fl as [fv|].
  2:{ injection H as <- <-. apply flags_none in EF. congruence. }
  assert (H1 : s4 = s' /\ ss_err st4 = false).
  { destruct s4; injection H as <- <-; [discriminate|]. split; [reflexivity|exact HE]. }
  destruct H1 as [-> H1]. destruct (flags_inv _ _ _ _ _ _ _ EF H1) as (H2 & fl & H3 & H4 & H5 & _ & H6).
  split; [exact H2|]. exists (47 :: (x :: p) ++ 47 :: fl). split.
  { rewrite EP, H3. cbn. rewrite <- app_assoc. reflexivity. }
  exists (x :: p), fl. split; [reflexivity|]. split.
  { unfold rb_of. cbn [rb_on]. rewrite ER. destruct (c_regex_wide cf), (c_enc cf); try discriminate; reflexivity. }
  split; [discriminate|]. split; [exact HS|]. split; [exact H4|]. split; [exact H5|exact H6].
Qed.

(** ** The presentation type, and the rest *)
Lemma letter_inv c t : parse_presentation_type c = Ok t -> t <> PNone -> letter_type c <> None \/ In c [114; 82; 63].
Proof.
  unfold parse_presentation_type.
  repeat match goal with
  | |- context [?a =? ?b] => destruct (Z.eqb_spec a b); [subst; cbn; intros; try discriminate; auto; left; discriminate|]
  end.
  cbn [orb]. intros [= <-] H. congruence.
Qed.
Lemma presentation_inv cf s st s' st' : do_presentation cf s st = Ok (s', st') -> ss_err st' = false ->
  ss_err st = false /\ exists ty, s = ty ++ s' /\ (letter_text ty \/ set_text (c_enc cf) ty \/ regex_text (rb_of cf) ty).
Proof.
  intros H HE. unfold do_presentation in H. destruct s as [|c s]; [discriminate|].
  destruct (c =? 91).
  { apply ok_bind in H. destruct H as ([[s2 st2] set] & E & H). cbn beta iota in H.
    destruct (length set <=? 2)%nat eqn:EL; injection H as <- <-; [discriminate|]. apply Nat.leb_gt in EL.
    destruct (presentation_set_inv _ _ _ _ _ _ E HE EL) as (H1 & ty & H2 & H3). split; [exact H1|]. exists ty. auto. }
  destruct (c =? 47).
  { destruct (regex_inv _ _ _ _ _ H HE) as (H1 & ty & H2 & H3). split; [exact H1|]. exists ty. auto. }
  apply ok_bind in H. destruct H as (t & E & H).
  destruct (ptype_eqb t PNone) eqn:EN.
  { destruct t; try discriminate. injection H as <- <-. discriminate. }
  assert (HN : t <> PNone) by (intros ->; discriminate).
  assert (H1 : s' = s /\ st' = s_upd (set_type t) st) by (destruct t; try congruence; injection H as <- <-; auto).
  destruct H1 as [-> ->]. split; [exact HE|]. exists [c]. split; [reflexivity|]. left. exists c. split; [reflexivity|]. eapply letter_inv; eassumption.
Qed.
Lemma localized_inv t st st' : on_localized t st = Ok st' -> ss_err st' = false -> ss_err st = false /\ localizable t = true.
Proof. intros H HE. unfold on_localized in H. destruct t; cbn in H; try discriminate; injection H as <-; cbn in HE; try discriminate; auto. Qed.
Lemma tail_inv cf t s st s' st' : parse_specs_tail cf t s st = Ok (s', st') -> ss_err st' = false ->
  ss_err st = false /\ exists loc ty, s = loc ++ ty ++ s' /\ (loc = [] \/ loc = [76] /\ localizable t = true) /\ type_text (rb_of cf) (c_enc cf) ty.
Proof.
  intros H HE. unfold parse_specs_tail in H. destruct s as [|c s]; [discriminate|].
  apply ok_bind in H. destruct H as ([s1 st1] & E & H). cbn beta iota in H.
  destruct s1 as [|d s1]; [injection H as <- <-; discriminate|].
  apply ok_bind in H. destruct H as ([s2 st2] & E2 & H). cbn beta iota in H.
  assert (H1 : s2 = s' /\ ss_err st2 = false) by (destruct s2; injection H as <- <-; [discriminate|auto]).
  destruct H1 as [-> H1]. clear H.
  assert (H2 : ss_err st1 = false /\ exists ty, d :: s1 = ty ++ s' /\ type_text (rb_of cf) (c_enc cf) ty).
  { destruct (negb (d =? 125)).
    - destruct (presentation_inv _ _ _ _ _ E2 H1) as (H2 & ty & H3 & H4). split; [exact H2|]. exists ty. split; [exact H3|]. right. exact H4.
    - injection E2 as <- <-. split; [exact H1|]. exists []. split; [reflexivity|left; reflexivity]. }
  destruct H2 as (H2 & ty & H3 & H4).
  destruct (Z.eqb_spec c 76) as [->|Hc].
  - apply ok_bind in E. destruct E as (st3 & E & E'). injection E' as -> ->.
    destruct (localized_inv _ _ _ E H2) as [H5 H6]. split; [exact H5|]. exists [76], ty. split; [rewrite H3; reflexivity|]. auto.
  - injection E as <- <- <-. split; [exact H2|]. exists [], ty. auto.
Qed.
Theorem specs_only cf t s s' sp :
  parse_format_specs cf t s (SS specs_default false) = Ok (s', SS sp false) ->
  exists u fl al w p loc ty, s = u ++ s' /\ specs_text (rb_of cf) (c_enc cf) t u fl al w p loc ty.
Proof.
  intros H. unfold parse_format_specs in H. destruct (specs_shortcut s).
  { destruct (presentation_inv _ _ _ _ _ H eq_refl) as (_ & ty & H1 & H2).
    exists ty, [], [], [], [], [], ty. split; [exact H1|]. repeat split; auto. right. exact H2. }
  destruct s as [|c s]; [discriminate|].
  apply ok_bind in H. destruct H as ([s1 st1] & E1 & H). cbn beta iota in H.
  destruct s1 as [|c1 s1]; [discriminate|].
  apply ok_bind in H. destruct H as ([s2 st2] & E2 & H). cbn beta iota in H.
  destruct s2 as [|c2 s2]; [discriminate|].
  assert (HA : ss_err st2 = false -> exists fl al w, c :: s = fl ++ al ++ w ++ c2 :: s2
     /\ (fl = [] \/ fill_text (c_enc cf) fl /\ al <> []) /\ (al = [] \/ align_text al) /\ (w = [] \/ numeral w) /\ width (ss_specs st2) = number w).
  { intros HE. destruct (width_inv _ _ _ _ E2 HE) as (H1 & w & H2 & H3 & H4).
    destruct (align_inv _ _ _ _ _ E1 H1) as (_ & fl & al & H5 & H6 & H7 & H8 & _).
    exists fl, al, w. split; [rewrite H5, H2; reflexivity|]. split; [exact H6|]. split; [exact H7|]. split; [exact H3|].
    rewrite H4. destruct w; [rewrite H8; reflexivity|reflexivity]. }
  destruct (Z.eqb_spec c2 46) as [->|Hc].
  - destruct s2 as [|c3 s3]; [discriminate|].
    apply ok_bind in H. destruct H as ([s4 st4] & E4 & H). cbn beta iota in H. destruct s4 as [|c5 s5]; [discriminate|].
    destruct (tail_inv _ _ _ _ _ _ H eq_refl) as (H1 & loc & ty & H2 & H3 & H4).
    destruct (precision_inv _ _ _ _ E4 H1) as (H5 & p & H6 & H7 & _).
    destruct (HA H5) as (fl & al & w & H8 & H9 & H10 & H11 & H12).
    exists (fl ++ al ++ w ++ (46 :: p) ++ loc ++ ty), fl, al, w, (46 :: p), loc, ty.
    split; [rewrite H8, H6, H2; repeat (rewrite <- !app_assoc; cbn [app]); reflexivity|].
    split; [reflexivity|]. split; [exact H9|]. split; [exact H10|]. split; [exact H11|].
    split; [right; exists p; split; [reflexivity|]; rewrite <- H12; exact H7|]. split; [exact H3|exact H4].
  - destruct (tail_inv _ _ _ _ _ _ H eq_refl) as (H1 & loc & ty & H2 & H3 & H4).
    destruct (HA H1) as (fl & al & w & H8 & H9 & H10 & H11 & H12).
    exists (fl ++ al ++ w ++ [] ++ loc ++ ty), fl, al, w, [], loc, ty.
    split; [rewrite H8, H2; rewrite <- !app_assoc; reflexivity|].
    split; [reflexivity|]. split; [exact H9|]. split; [exact H10|]. split; [exact H11|]. split; [left; reflexivity|]. split; [exact H3|exact H4].
Qed.
