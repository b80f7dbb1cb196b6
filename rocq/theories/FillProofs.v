(** Proofs about the fill a format-spec leaves in the specs. *)
From Verif Require Import Prelude UnicodeModel UnicodeSpec ReadModel ReadProofs SpecsModel ArgsModel FormatModel FormatProofs SpecsInvProofs FormatSpec FormatSpecProofs WidthSpec.
Local Open Scope Z_scope.

Section Kept.
Variable f0 : fill_type.
Definition kept (st : sstate) : Prop := fill (ss_specs st) = f0.
Notation Q := kept.
Lemma kept_width s st s' st' : Q st -> parse_width s st = Ok (s', st') -> Q st'.
Proof. intros HQ H. unfold parse_width in H. inv_ok; try exact HQ. unfold on_width. destruct (_ && _); exact HQ. Qed.
Lemma kept_precision s st s' st' : Q st -> parse_precision s st = Ok (s', st') -> Q st'.
Proof. intros HQ H. unfold parse_precision in H. inv_ok; try exact HQ. unfold on_precision. destruct (_ <? _); exact HQ. Qed.
Lemma kept_regex cf s st s' st' : Q st -> parse_presentation_regex cf s st = Ok (s', st') -> Q st'.
Proof.
  intros HQ H. unfold parse_presentation_regex in H. destruct (negb (c_regex cf)); [inv_ok; assumption|].
  destruct s as [|c s]; [discriminate|].
  destruct (Z.eq_dec c 47) as [->|Hc].
  2:{ exfalso. revert H. destruct c as [|p|p]; try discriminate.
      repeat (destruct p as [p|p|]; try discriminate). contradiction. }
  cbv iota in H. destruct (_ && _); [inv_ok; assumption|]. destruct s as [|c1 s1]; [inv_ok; assumption|].
  destruct (regex_end 47 (c1 :: s1) PRegex) as [s2 t]. cbv zeta in H.
  assert (H1 : Q (s_upd (set_type t) st)) by exact HQ.
  destruct s2 as [|d s3]; [inv_ok; exact H1|].
  destruct (firstn _ _) as [|p0 pat]; [inv_ok; exact H1|].
  assert (H2 : Q (s_upd (set_string (p0 :: pat)) (s_upd (set_type t) st))) by exact HQ.
  destruct s3 as [|d2 s4]; [inv_ok; exact H2|].
  destruct (regex_flags_loop _ _ _ _) as [[s5 st5] fl] eqn:EF. apply (Q_flags_loop (fun sp => fill sp = f0)) in EF; [|exact H2].
  destruct fl; [|inv_ok; exact EF]. destruct s5; inv_ok; exact EF.
Qed.

Lemma kept_presentation cf s st s' st' : Q st -> do_presentation cf s st = Ok (s', st') -> Q st'.
Proof.
  intros HQ H. unfold do_presentation in H. destruct s as [|c s]; [discriminate|].
  destruct (c =? 91).
  { apply ok_bind in H. destruct H as ([[s2 st2] set] & E & H). apply (Q_set (fun sp => fill sp = f0)) in E; auto.
    inv_ok; [exact E|]. exact E. }
  destruct (c =? 47); [eapply kept_regex; eassumption|].
  apply ok_bind in H. destruct H as (t & _ & H). destruct t; inv_ok; exact HQ.
Qed.
Lemma kept_tail cf t s st s' st' : Q st -> parse_specs_tail cf t s st = Ok (s', st') -> Q st'.
Proof.
  intros HQ H. unfold parse_specs_tail in H. destruct s as [|c s]; [discriminate|].
  apply ok_bind in H. destruct H as ([s1 st1] & E & H).
  assert (H1 : Q st1).
  { clear H. destruct (c =? 76); [|injection E as _ <-; exact HQ]. apply ok_bind in E. destruct E as (st2 & E & E').
    inv_ok. unfold on_localized in E. apply ok_bind in E. destruct E as (cat & _ & E).
    destruct cat; inv_ok; exact HQ. }
  cbn beta iota in H. destruct s1 as [|c1 s1]; [injection H as _ <-; exact H1|].
  apply ok_bind in H. destruct H as ([s2 st2] & E2 & H). cbn beta iota in H.
  assert (H2 : Q st2).
  { destruct (negb _); [|injection E2 as _ <-; exact H1]. eapply kept_presentation; eassumption. }
  destruct s2; injection H as _ <-; exact H2.
Qed.
End Kept.
(** The fill is the default, or the first code point of the spec with an alignment after it. *)
Lemma parse_fill cf t s s' st' : parse_format_specs cf t s (SS specs_default false) = Ok (s', st') ->
  fill (ss_specs st') = fill_default
  \/ exists c s0 a after, let len := code_point_length (c_enc cf) c in
       s = c :: s0 /\ skipn len s = a :: after /\ (0 < len)%nat /\ check_align a <> ANone
       /\ fill_assign (c_enc cf) (firstn len s) fill_default = Ok (fill (ss_specs st')).
Proof.
  assert (TAIL : forall s1 st1, match s1 with [] => Ok ([], s_error st1) | _ =>
      '(s2, st2) <- parse_width s1 st1 ;;
      match s2 with [] => Ok ([], s_error st2) | c2 :: s3 =>
        if c2 =? 46 then match s3 with [] => Ok ([], s_error st2) | _ => '(s4, st4) <- parse_precision s3 st2 ;; match s4 with [] => Ok ([], s_error st4) | _ => parse_specs_tail cf t s4 st4 end end
        else parse_specs_tail cf t s2 st2 end end = Ok (s', st') -> fill (ss_specs st') = fill (ss_specs st1)).
  { intros s1 st1 H. destruct s1 as [|c1 s1]; [inv_ok; reflexivity|].
    apply ok_bind in H. destruct H as ([s2 st2] & E2 & H). apply (kept_width (fill (ss_specs st1))) in E2; [|reflexivity].
    destruct s2 as [|c2 s2]; [inv_ok; exact E2|].
    destruct (c2 =? 46); [|eapply kept_tail; [exact E2|exact H]].
    destruct s2 as [|c3 s3]; [inv_ok; exact E2|].
    apply ok_bind in H. destruct H as ([s4 st4] & E4 & H). eapply kept_precision in E4; [|exact E2].
    destruct s4 as [|c4 s4]; [inv_ok; exact E4|]. eapply kept_tail; [exact E4|exact H]. }
  intros H. unfold parse_format_specs in H. destruct (specs_shortcut s); [left; eapply kept_presentation; [|exact H]; reflexivity|].
  destruct s as [|c s]; [inv_ok; left; reflexivity|].
  apply ok_bind in H. destruct H as ([s1 st1] & E1 & H). apply TAIL in H. rewrite H. clear H TAIL.
  unfold parse_align in E1. cbv zeta in E1. destruct (_ || _) eqn:EL; [inv_ok; left; reflexivity|]. destruct (skipn _ _) as [|a after] eqn:EA; [inv_ok; left; reflexivity|].
  destruct (_ && _); [inv_ok; left; reflexivity|]. destruct (_ && _); [inv_ok; left; reflexivity|].
  assert (FILL : check_align a <> ANone -> forall f, fill_assign (c_enc cf) (firstn (code_point_length (c_enc cf) c) (c :: s)) fill_default = Ok f -> fill (ss_specs st1) = f ->
    fill (ss_specs st1) = fill_default \/ exists c1 s0 a0 after0, let len := code_point_length (c_enc cf) c1 in
       c :: s = c1 :: s0 /\ skipn len (c :: s) = a0 :: after0 /\ (0 < len)%nat /\ check_align a0 <> ANone
       /\ fill_assign (c_enc cf) (firstn len (c :: s)) fill_default = Ok (fill (ss_specs st1))).
  { intros HA f HF EF. right. exists c, s, a, after. cbv zeta. repeat split; auto; [lia|rewrite HF, EF; reflexivity]. }
  destruct (check_align a) eqn:EC.
  - destruct (check_align c); inv_ok; left; reflexivity.
  - unfold on_fill in E1. inv_ok. eapply FILL; [discriminate|eassumption|reflexivity].
  - unfold on_fill in E1. inv_ok. eapply FILL; [discriminate|eassumption|reflexivity].
  - unfold on_fill in E1. inv_ok. eapply FILL; [discriminate|eassumption|reflexivity].
Qed.
(** ... in a format string which is text. *)
Lemma parse_fill_text cf t cps s' st' : c_enc cf <> U16 -> Forall scalar cps -> parse_format_specs cf t (text (c_enc cf) cps) (SS specs_default false) = Ok (s', st') ->
  fill (ss_specs st') = fill_default
  \/ exists c a q, cps = c :: a :: q /\ check_align a <> ANone /\ fill (ss_specs st') = mean_fill (c_enc cf) (Some c).
Proof.
  intros He HS H. destruct (parse_fill _ _ _ _ _ H) as [E|(c & s0 & a & after & E & EA & EL & EC & EF)]; [left; exact E|right]. clear H.
  destruct HS as [|cp cps Hcp HS]; [discriminate E|].
  destruct (encode_head (c_enc cf) cp He Hcp) as (c' & tl & E1 & _ & HL & _). 
  assert (ET : text (c_enc cf) (cp :: cps) = encode (c_enc cf) cp ++ text (c_enc cf) cps) by reflexivity.
  assert (c = c'). { rewrite ET, E1 in E. cbn in E. congruence. } subst c'.
  rewrite HL in EA, EF. rewrite ET, skipn_app, skipn_all, Nat.sub_diag in EA. cbn [app skipn] in EA.
  rewrite ET, firstn_app, firstn_all, Nat.sub_diag, firstn_O, app_nil_r, fill_mean in EF by assumption. injection EF as EF.
  assert (HA : 0 <= a < 128).
  { unfold check_align in EC. destruct (Z.eqb_spec a 60); [lia|]. destruct (Z.eqb_spec a 62); [lia|]. destruct (Z.eqb_spec a 94); [lia|]. contradiction EC; reflexivity. }
  destruct HS as [|d cps Hd HS]; [discriminate EA|].
  assert (d = a). { revert EA. unfold scalar in Hd. clear -HA Hd He. destruct (c_enc cf); [|contradiction|cbn; congruence].
    cbn [text flat_map encode app]. unfold utf8_of. destruct (d <? 128) eqn:E1; [cbn; congruence|]. destruct (d <? 2048); [|destruct (d <? 65536)]; cbn; intros [= E _]; assert (0 <= d / 64) by (apply Z.div_pos; lia); assert (0 <= d / 4096) by (apply Z.div_pos; lia); assert (0 <= d / 262144) by (apply Z.div_pos; lia); lia. }
  subst d. exists cp, a, cps. auto.
Qed.
