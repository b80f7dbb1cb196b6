(** Proofs about format string parsing. *)
From Verif Require Import Prelude UnicodeModel UnicodeProofs ReadProofs SpecsModel ArgsModel
  FormatModel.
Local Open Scope Z_scope.
Ltac Zify.zify_post_hook ::= Z.div_mod_to_equations.

(** Safety of the specs parser: it yields a result and a suffix of its input. *)
Ltac cases := repeat match goal with
  | |- context [if ?b then _ else _] => let E := fresh "E" in destruct b eqn:E
  end.

Lemma parse_simple_int_loop_suffix s : forall v x s', parse_simple_int_loop s v = (x, s') -> suffix s' s.
Proof.
  induction s as [|c s IH]; intros v x s'; cbn [parse_simple_int_loop].
  - intros [= _ <-]. apply suffix_refl.
  - destruct (is_digit c).
    + cbv zeta. destruct (_ <? _); [intros [= _ <-]; apply suffix_refl|].
      intros H. apply suffix_cons. eapply IH, H.
    + intros [= _ <-]. apply suffix_refl.
Qed.
Lemma parse_simple_int_safe c s : is_digit c = true ->
  exists v s', parse_simple_int (c :: s) = Ok (v, s') /\ suffix s' (c :: s).
Proof.
  intros H. cbn [parse_simple_int]. rewrite H.
  destruct (parse_simple_int_loop (c :: s) 0) as [v s'] eqn:E.
  exists v, s'. split; [reflexivity|]. eapply parse_simple_int_loop_suffix, E.
Qed.

Lemma parse_align_safe e s st : s <> [] ->
  exists s' st', parse_align e s st = Ok (s', st') /\ suffix s' s.
Proof.
  destruct s as [|c s]; [congruence|]. intros _. unfold parse_align. cbv zeta.
  set (len := code_point_length e c). 
  destruct (len =? 0)%nat eqn:E0; cbn [orb]; [eauto with sfx|].
  destruct (length (c :: s) <? len)%nat eqn:E1; [eauto with sfx|].
  destruct (skipn len (c :: s)) as [|a after] eqn:EA; [eauto with sfx|].
  assert (HS : suffix (a :: after) (c :: s)) by (rewrite <- EA; apply suffix_skipn).
  assert (HS' := suffix_cons_inv _ _ _ HS).
  destruct (_ && _); [eauto|]. destruct (_ && _); [eauto with sfx|].
  assert (HF : exists st', on_fill e (firstn len (c :: s)) st = Ok st').
  { unfold on_fill, fill_assign. assert (HL : length (firstn len (c :: s)) = len) by (rewrite firstn_length; lia).
    destruct e.
    - rewrite HL. assert (H := utf8_cp_len_le4 c). subst len. cbn [code_point_length] in *.
      replace (_ || _) with false by lia. cbn [bind]. eauto.
    - subst len. cbn [code_point_length firstn] in *. cbn [bind]. eauto.
    - subst len. cbn [code_point_length firstn] in *. cbn [bind]. eauto. }
  destruct HF as [st' HF]. rewrite HF. cbn [bind].
  destruct (check_align a), (check_align c); eauto with sfx.
Qed.

Lemma parse_width_safe s st : s <> [] ->
  exists s' st', parse_width s st = Ok (s', st') /\ suffix s' s.
Proof.
  destruct s as [|c s]; [congruence|]. intros _. unfold parse_width.
  destruct (is_digit c) eqn:E; [|eauto with sfx].
  destruct (parse_simple_int_safe c s E) as (v & s' & -> & H). cbn [bind]. destruct (v =? -1); eauto.
Qed.
Lemma parse_precision_safe s st : s <> [] ->
  exists s' st', parse_precision s st = Ok (s', st') /\ suffix s' s.
Proof.
  destruct s as [|c s]; [congruence|]. intros _. unfold parse_precision.
  destruct (is_digit c) eqn:E; [|eauto with sfx].
  destruct (parse_simple_int_safe c s E) as (v & s' & -> & H). cbn [bind]. destruct (v =? -1); eauto.
Qed.

Lemma parse_set_code_point_safe e s : s <> [] ->
  parse_set_code_point e s = Ok None \/
  exists cp s', parse_set_code_point e s = Ok (Some (cp, s')) /\ suffix s' s
    /\ (length s' < length s)%nat /\ cp < invalid_code_point.
Proof.
  destruct s as [|c s]; [congruence|]. intros _. unfold parse_set_code_point. cbv zeta.
  destruct (cp_len e c =? 0)%nat eqn:E0; cbn [orb]; [left; reflexivity|].
  destruct (length (c :: s) <? cp_len e c)%nat eqn:E1; [left; reflexivity|].
  destruct (decode_cp_total e c s) as [v Hv]; [lia|lia|].
  rewrite Hv. cbn [bind]. destruct (invalid_code_point <=? v) eqn:E2; [left; reflexivity|].
  right. exists v, (skipn (cp_len e c) (c :: s)). split; [reflexivity|].
  split; [apply suffix_skipn|]. split; [rewrite skipn_length; cbn [length] in *; lia|lia].
Qed.

Lemma parse_set_literal_safe e s st : s <> [] ->
  exists s' st', parse_set_literal specs_set_handler e s st = Ok (s', st') /\ suffix s' s
   /\ (ss_err st' = true \/ (length s' < length s)%nat).
Proof.
  intros Hs. unfold parse_set_literal.
  destruct (parse_set_code_point_safe e s Hs) as [-> | (cp & s1 & -> & H1 & HL & Hcp)]; cbn [bind].
  { exists s, (s_error st). split; [reflexivity|]. split; [apply suffix_refl|left; reflexivity]. }
  assert (HSingle : exists s' st', Ok (s1, on_charset_single cp st) = Ok (s', st') /\ suffix s' s
   /\ (ss_err st' = true \/ (length s' < length s)%nat)) by (eexists; eexists; split; [reflexivity|split; [assumption|right; lia]]).
  destruct s1 as [|c [|d s2]]; [exact HSingle|exact HSingle|].
  destruct ((c =? 45) && _) eqn:Ec; [|exact HSingle].
  destruct (parse_set_code_point_safe e (d :: s2)) as [-> | (cp2 & s3 & -> & H3 & HL3 & _)]; [congruence| |]; cbn [bind].
  { do 2 eexists. split; [reflexivity|]. split; [eapply suffix_cons_inv, H1|left; reflexivity]. }
  assert (suffix s3 s) by (eapply suffix_trans; [exact H3|eapply suffix_cons_inv, H1]).
  destruct (cp2 <? cp) eqn:E.
  { do 2 eexists. split; [reflexivity|]. split; [assumption|left; reflexivity]. }
  cbn [sh_range specs_set_handler]. unfold on_charset_range. replace (cp <? cp2 + 1) with true by lia. cbn [negb].
  cbn [length] in *. destruct (_ <=? _); cbn [bind]; (do 2 eexists; split; [reflexivity|]; split; [assumption|right; lia]).
Qed.

Lemma parse_set_loop_safe e : forall fuel s st, (length s <= fuel)%nat ->
  exists s' st' b, parse_set_loop fuel specs_set_handler e s st = Ok (s', st', b) /\ suffix s' s.
Proof.
  induction fuel as [|f IH]; intros s st HL; destruct s as [|c s]; cbn [parse_set_loop sh_failed specs_set_handler].
  - do 3 eexists. split; [reflexivity|apply suffix_refl].
  - cbn [length] in HL. lia.
  - do 3 eexists. split; [reflexivity|apply suffix_refl].
  - destruct (ss_err st) eqn:Ee; [do 3 eexists; split; [reflexivity|apply suffix_refl]|].
    destruct (c =? 93); [do 3 eexists; split; [reflexivity|apply suffix_cons, suffix_refl]|].
    destruct (parse_set_literal_safe e (c :: s) st) as (s1 & st1 & -> & H1 & H2); [congruence|]. cbn [bind].
    destruct H2 as [H2|H2].
    + assert (HX : exists b, parse_set_loop f specs_set_handler e s1 st1 = Ok (s1, s_error st1, b)).
      { destruct s1 as [|c1 s1]; destruct f; cbn [parse_set_loop sh_failed specs_set_handler]; rewrite ?H2; eauto. }
      destruct HX as [b ->]. do 3 eexists. split; [reflexivity|exact H1].
    + destruct (IH s1 st1) as (s2 & st2 & b & -> & H3); [lia|].
      do 3 eexists. split; [reflexivity|eapply suffix_trans; eassumption].
Qed.

Lemma parse_presentation_set_safe e s st :
  exists s' st' set, parse_presentation_set specs_set_handler e (91 :: s) st = Ok (s', st', set) /\ suffix s' (91 :: s).
Proof.
  unfold parse_presentation_set. cbv zeta.
  assert (HF : forall s2 st2, suffix s2 (91 :: s) ->
    exists s' st' set, finish_set specs_set_handler e (91 :: s) s2 st2 = Ok (s', st', set)
      /\ suffix s' (91 :: s)).
  { intros s2 st2 H2. unfold finish_set. destruct (parse_set_loop_safe e (length s2) s2 st2) as (s3 & st3 & b & -> & H3); [lia|].
    cbn [bind]. do 3 eexists. split; [reflexivity|]. eapply suffix_trans; eassumption. }
  destruct s as [|c s2]; [do 3 eexists; split; [reflexivity|apply suffix_nil]|].
  destruct (c =? 94).
  - destruct s2 as [|d s3]; [do 3 eexists; split; [reflexivity|apply suffix_nil]|].
    destruct (d =? 93); apply HF; auto with sfx.
  - destruct (c =? 93); [do 3 eexists; split; [reflexivity|auto with sfx]|].
    apply HF; auto with sfx.
Qed.

Lemma regex_end_suffix s : forall prev t s' t', regex_end prev s t = (s', t') -> suffix s' s.
Proof.
  induction s as [|c s IH]; intros prev t s' t'; cbn [regex_end]; [intros [= <- _]; apply suffix_refl|].
  destruct (c =? 47).
  - destruct (negb _); [intros [= <- _]; apply suffix_refl|]. intros H. apply suffix_cons. eapply IH, H.
  - intros H. apply suffix_cons. eapply IH, H.
Qed.
Lemma regex_flags_suffix cf s : forall fl st s' st' x,
  regex_flags_loop cf s fl st = (s', st', x) -> suffix s' s.
Proof.
  induction s as [|c s IH]; intros fl st s' st' x; cbn [regex_flags_loop]; [intros [= <- _ _]; apply suffix_refl|].
  destruct (c =? 125); [intros [= <- _ _]; apply suffix_refl|].
  destruct (regex_flag c); [|intros [= <- _ _]; apply suffix_refl].
  destruct (negb _); [intros [= <- _ _]; apply suffix_refl|].
  cbv zeta. intros H. apply suffix_cons. eapply IH, H.
Qed.

Lemma parse_presentation_regex_safe cf s st :
  exists s' st', parse_presentation_regex cf (47 :: s) st = Ok (s', st') /\ suffix s' (47 :: s).
Proof.
  unfold parse_presentation_regex.
  destruct (c_regex cf); cbn [negb]; [|eauto with sfx].
  destruct (_ && _); [eauto with sfx|].
  destruct s as [|c s1]; [eauto with sfx|].
  destruct (regex_end 47 (c :: s1) PRegex) as [s2 t] eqn:ER. apply regex_end_suffix in ER.
  cbv zeta. destruct s2 as [|d s3]; [eauto with sfx|].
  destruct (firstn _ _); [eauto with sfx|].
  destruct s3 as [|d2 s4]; [eauto with sfx|].
  destruct (regex_flags_loop _ _ _ _) as [[s5 st5] fl] eqn:EF. apply regex_flags_suffix in EF.
  assert (suffix s5 (47 :: c :: s1)).
  { eapply suffix_trans; [exact EF|]. apply suffix_cons. eapply suffix_cons_inv, ER. }
  destruct fl; [|eauto]. destruct s5; eauto with sfx.
Qed.

Lemma do_presentation_safe cf s st : s <> [] ->
  exists s' st', do_presentation cf s st = Ok (s', st') /\ suffix s' s.
Proof.
  destruct s as [|c s]; [congruence|]. intros _. unfold do_presentation.
  destruct (c =? 91) eqn:E.
  { apply Z.eqb_eq in E. subst c.
    destruct (parse_presentation_set_safe (c_enc cf) s st) as (s' & st' & set & -> & H). cbn [bind].
    destruct (_ <=? _)%nat; eauto. }
  destruct (c =? 47) eqn:E2.
  { apply Z.eqb_eq in E2. subst c. apply parse_presentation_regex_safe. }
  assert (HT : exists t, parse_presentation_type c = Ok t).
  { unfold parse_presentation_type. rewrite E, E2. cases; eauto. discriminate. }
  destruct HT as [t ->]. cbn [bind]. destruct t; eauto with sfx.
Qed.

Definition no_regex (t : arg_type) : Prop :=
  t <> NarrowRegexMatchesType /\ t <> WideRegexMatchesType.

Lemma on_localized_safe t st : no_regex t -> exists st', on_localized t st = Ok st'.
Proof. intros [H1 H2]. destruct t; try congruence; cbn; eauto. Qed.

Lemma parse_specs_tail_safe cf t s st : no_regex t -> s <> [] ->
  exists s' st', parse_specs_tail cf t s st = Ok (s', st') /\ suffix s' s.
Proof.
  intros Ht. destruct s as [|c s]; [congruence|]. intros _. unfold parse_specs_tail.
  assert (HL : exists s4 st4, (if c =? 76 then st <- on_localized t st ;; Ok (s, st) else Ok (c :: s, st)) = Ok (s4, st4)
     /\ suffix s4 (c :: s)).
  { destruct (c =? 76); [|eauto with sfx]. destruct (on_localized_safe t st Ht) as [st' ->]. cbn [bind].
    eauto with sfx. }
  destruct HL as (s4 & st4 & -> & H4). cbn [bind].
  destruct s4 as [|c4 s4]; [eauto with sfx|].
  assert (HP : exists s5 st5, (if negb (c4 =? 125) then do_presentation cf (c4 :: s4) st4 else Ok (c4 :: s4, st4)) = Ok (s5, st5)
     /\ suffix s5 (c :: s)).
  { destruct (negb _); [|eauto].
    destruct (do_presentation_safe cf (c4 :: s4) st4) as (s5 & st5 & -> & H5); [congruence|].
    do 2 eexists. split; [reflexivity|]. eapply suffix_trans; eassumption. }
  destruct HP as (s5 & st5 & -> & H5). cbn [bind].
  destruct s5; eauto with sfx.
Qed.

Lemma parse_format_specs_safe cf t s st : no_regex t ->
  exists s' st', parse_format_specs cf t s st = Ok (s', st') /\ suffix s' s.
Proof.
  intros Ht. unfold parse_format_specs.
  destruct (specs_shortcut s) eqn:ES.
  { apply do_presentation_safe. destruct s; discriminate || congruence. }
  destruct s as [|c0 s0]; [eauto with sfx|]. set (S := c0 :: s0) in *.
  destruct (parse_align_safe (c_enc cf) S st) as (s1 & st1 & -> & H1); [unfold S; congruence|]. cbn [bind].
  destruct s1 as [|c1 s1]; [eauto with sfx|].
  destruct (parse_width_safe (c1 :: s1) st1) as (s2 & st2 & -> & H2); [congruence|]. cbn [bind].
  assert (H12 : suffix s2 S) by (eapply suffix_trans; eassumption).
  destruct s2 as [|c2 s2]; [eauto with sfx|].
  destruct (c2 =? 46).
  - destruct s2 as [|c3 s3]; [eauto with sfx|].
    destruct (parse_precision_safe (c3 :: s3) st2) as (s4 & st4 & -> & H4); [congruence|]. cbn [bind].
    destruct s4 as [|c4 s4]; [eauto with sfx|].
    destruct (parse_specs_tail_safe cf t (c4 :: s4) st4 Ht) as (s5 & st5 & -> & H5); [congruence|].
    do 2 eexists. split; [reflexivity|]. eapply suffix_trans; [exact H5|].
    eapply suffix_trans; [exact H4|]. eapply suffix_cons_inv, H12.
  - destruct (parse_specs_tail_safe cf t (c2 :: s2) st2 Ht) as (s5 & st5 & -> & H5); [congruence|].
    do 2 eexists. split; [reflexivity|]. eapply suffix_trans; eassumption.
Qed.
