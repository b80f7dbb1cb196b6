(** Proofs that narrow and wide scanning agree: format strings. *)
From Verif Require Import Prelude UnicodeModel ReadModel ReadProofs SpecsModel FormatModel FormatProofs ArgsModel
  CheckerProofs SpecsInvProofs.
Local Open Scope Z_scope.

Definition ascii (c : Z) : Prop := 0 <= c < 128.
Notation ascii_str := (Forall ascii).
(** Two configurations that differ in the encoding only, and both have regular expressions or neither. *)
Definition same_config (cf cf' : config) : Prop :=
  c_enc cf = U8 /\ c_enc cf' = U32 /\ c_regex cf' = c_regex cf /\ c_regex_std cf' = c_regex_std cf
  /\ c_regex_multiline cf' = c_regex_multiline cf /\ (c_regex cf = false \/ c_regex_wide cf' = true).

Lemma utf8_ascii c : ascii c -> utf8_cp_len c = 1%nat.
Proof.
  intros H. unfold utf8_cp_len. unfold ascii in H.
  assert (S : forallb (fun c => (utf8_cp_len c =? 1)%nat) (zseq 0 128) = true) by (vm_compute; reflexivity).
  rewrite forallb_forall in S. specialize (S c). rewrite Nat.eqb_eq in S. apply S. apply in_zseq. lia.
Qed.
Lemma length_ascii e c : e <> U16 -> ascii c -> code_point_length e c = 1%nat.
Proof. intros He H. destruct e; cbn; [apply utf8_ascii, H|congruence|reflexivity]. Qed.
Lemma set_cp_ascii e c s : e <> U16 -> ascii c -> parse_set_code_point e (c :: s) = Ok (Some (c, s)).
Proof.
  intros He H. unfold parse_set_code_point, cp_len, decode_cp. unfold ascii in H.
  destruct e; [rewrite utf8_ascii by exact H|congruence|]; cbv zeta; cbn [Nat.eqb orb length firstn skipn].
  - replace (S (length s) <? 1)%nat with false by (symmetry; apply Nat.ltb_ge; lia).
    unfold decode_utf8. replace (0x80 <=? c) with false by lia. cbn [bind].
    unfold invalid_code_point. replace (_ <=? c) with false by lia. reflexivity.
  - replace (S (length s) <? 1)%nat with false by (symmetry; apply Nat.ltb_ge; lia).
    unfold invalid_code_point. assert (HE : (0x110000 <=? c) = false) by lia. rewrite HE. cbn [bind]. rewrite HE. reflexivity.
Qed.

Section Set_.
Context {St : Type} (h : set_handler St).
Lemma set_literal_ascii s st : ascii_str s -> parse_set_literal h U8 s st = parse_set_literal h U32 s st.
Proof.
  intros H. destruct H as [|c s Hc Hs]; [reflexivity|]. unfold parse_set_literal.
  rewrite !set_cp_ascii by (congruence || assumption). cbn [bind]. destruct Hs as [|d s Hd Hs]; [reflexivity|].
  destruct Hs as [|c2 s Hc2 Hs]; [reflexivity|]. destruct (_ && _); [|reflexivity].
  rewrite !set_cp_ascii by (congruence || assumption). reflexivity.
Qed.
Lemma set_literal_suffix s st s' st' : ascii_str s -> parse_set_literal h U32 s st = Ok (s', st') -> suffix s' s.
Proof.
  intros H. destruct H as [|c s Hc Hs]; [discriminate|]. unfold parse_set_literal.
  rewrite !set_cp_ascii by (congruence || assumption). cbn [bind]. destruct Hs as [|d s Hd Hs].
  { intros E. apply bind_ok in E. destruct E as (x & _ & E). injection E as <- <-. apply suffix_nil. }
  destruct Hs as [|c2 s Hc2 Hs].
  { intros E. apply bind_ok in E. destruct E as (x & _ & E). injection E as <- <-. apply suffix_cons, suffix_refl. }
  destruct (_ && _).
  - rewrite !set_cp_ascii by (congruence || assumption). cbn [bind]. destruct (_ <? _).
    + intros [= <- <-]. repeat apply suffix_cons. apply suffix_refl.
    + intros E. apply bind_ok in E. destruct E as (x & _ & E). injection E as <- <-. repeat apply suffix_cons. apply suffix_refl.
  - intros E. apply bind_ok in E. destruct E as (x & _ & E). injection E as <- <-. apply suffix_cons, suffix_refl.
Qed.
Lemma set_loop_ascii : forall fuel s st, ascii_str s -> parse_set_loop fuel h U8 s st = parse_set_loop fuel h U32 s st.
Proof.
  induction fuel as [|f IH]; intros s st H; destruct s as [|c s]; cbn [parse_set_loop]; try reflexivity.
  destruct (sh_failed h st); [reflexivity|]. destruct (c =? 93); [reflexivity|]. rewrite set_literal_ascii by exact H.
  destruct (parse_set_literal h U32 (c :: s) st) as [[s2 st2]| | |] eqn:E; cbn [bind]; try reflexivity.
  apply IH. eapply suffix_Forall; [eapply set_literal_suffix; eassumption|exact H].
Qed.
Lemma set_ascii s st : ascii_str s -> parse_presentation_set h U8 s st = parse_presentation_set h U32 s st.
Proof.
  intros H. assert (F : forall s1 s2 st, ascii_str s2 -> finish_set h U8 s1 s2 st = finish_set h U32 s1 s2 st).
  { intros s1 s2 st' H2. unfold finish_set. rewrite set_loop_ascii by exact H2. reflexivity. }
  unfold parse_presentation_set. destruct H as [|c s Hc Hs]; [reflexivity|].
  destruct c as [|c|c]; try reflexivity. do 7 (destruct c as [c|c|]; try reflexivity).
  destruct Hs as [|c s Hc' Hs]; [reflexivity|]. destruct (c =? 94).
  - cbv zeta. destruct Hs as [|d s Hd Hs]; [reflexivity|]. destruct (d =? 93).
    + destruct (sh_single h 93 _); cbn [bind]; try reflexivity. apply F, Hs.
    + apply F. constructor; assumption.
  - destruct (c =? 93); [reflexivity|]. apply F. constructor; assumption.
Qed.
End Set_.

(** What an ASCII format-spec leaves in the specs. *)
Definition ascii_specs (sp : specs) : Prop :=
  (exists c, ascii c /\ fill sp = Fill [c; 0; 0; 0] 1) /\ ascii_str (charset_string sp).
Definition ascii_result (s : list Z) (x : outcome (list Z * sstate)) : Prop :=
  match x with Ok (s', st') => suffix s' s /\ ascii_specs (ss_specs st') | _ => True end.

Lemma align_ascii s st : ascii_str s -> fill (ss_specs st) = fill_default -> ascii_str (charset_string (ss_specs st)) ->
  parse_align U8 s st = parse_align U32 s st /\ ascii_result s (parse_align U32 s st).
Proof.
  intros H HF HC. destruct H as [|c s Hc Hs]; [split; reflexivity|]. unfold parse_align.
  rewrite !length_ascii by (congruence || assumption). cbv zeta. cbn [Nat.eqb orb length firstn skipn].
  replace (S (length s) <? 1)%nat with false by (symmetry; apply Nat.ltb_ge; lia).
  assert (HK : ascii_specs (ss_specs st)) by (split; [exists 32; split; [unfold ascii; lia|exact HF]|exact HC]).
  destruct Hs as [|a s Ha Hs]; [split; [reflexivity|split; [apply suffix_refl|exact HK]]|].
  cbn [andb]. destruct (c =? 123); [split; [reflexivity|split; [repeat apply suffix_cons; apply suffix_refl|exact HK]]|].
  destruct (c =? 91); [split; [reflexivity|split; [apply suffix_refl|exact HK]]|].
  assert (FA : fill_assign U8 [c] (fill (ss_specs st)) = Ok (Fill [c; 0; 0; 0] 1)
               /\ fill_assign U32 [c] (fill (ss_specs st)) = Ok (Fill [c; 0; 0; 0] 1)).
  { rewrite HF. split; [reflexivity|]. unfold fill_assign, fill_default. cbn [f_size]. unfold ascii in Hc.
    rewrite !Z.shiftr_div_pow2 by lia. rewrite (Z.mod_small c) by lia. rewrite !Z.div_small by lia. reflexivity. }
  destruct FA as [F8 F32]. unfold on_fill. rewrite F8, F32. cbn [bind]. split; [reflexivity|].
  assert (HK2 : forall a, ascii_specs (ss_specs (on_align a (s_upd (set_fill (Fill [c; 0; 0; 0] 1)) st)))).
  { intros x. split; [exists c; split; [exact Hc|reflexivity]|exact HC]. }
  destruct (check_align a); [destruct (check_align c)|..]; cbn [ascii_result]; (split; [repeat first [apply suffix_refl|apply suffix_cons]|first [exact HK|apply HK2]]).
Qed.
Lemma upd_ascii f st : (forall sp, fill (f sp) = fill sp /\ charset_string (f sp) = charset_string sp) ->
  ascii_specs (ss_specs st) -> ascii_specs (ss_specs (s_upd f st)).
Proof. intros H [H1 H2]. destruct (H (ss_specs st)) as [E1 E2]. split; cbn; [rewrite E1|rewrite E2]; assumption. Qed.
Lemma width_ascii s st s' st' : ascii_specs (ss_specs st) -> parse_width s st = Ok (s', st') -> ascii_specs (ss_specs st').
Proof.
  intros H. unfold parse_width. destruct s as [|c s]; [discriminate|]. destruct (is_digit c); [|intros [= <- <-]; exact H].
  intros E. apply bind_ok in E. destruct E as ([w p] & _ & E). destruct (w =? -1); injection E as <- <-; [exact H|].
  unfold on_width. destruct (_ && _); [exact H|]. apply upd_ascii; [auto|exact H].
Qed.
Lemma precision_ascii s st s' st' : ascii_specs (ss_specs st) -> parse_precision s st = Ok (s', st') -> ascii_specs (ss_specs st').
Proof.
  intros H. unfold parse_precision. destruct s as [|c s]; [discriminate|]. destruct (is_digit c); [|intros [= <- <-]; exact H].
  intros E. apply bind_ok in E. destruct E as ([w p] & _ & E). destruct (w =? -1); injection E as <- <-; [exact H|].
  unfold on_precision. destruct (_ <? _); [exact H|]. apply upd_ascii; [auto|exact H].
Qed.
Lemma regex_flags_same cf cf' : c_regex_std cf' = c_regex_std cf -> c_regex_multiline cf' = c_regex_multiline cf ->
  forall s fl st, regex_flags_loop cf s fl st = regex_flags_loop cf' s fl st.
Proof.
  intros H1 H2. induction s as [|c s IH]; intros fl st; [reflexivity|]. cbn [regex_flags_loop]. rewrite H1, H2.
  destruct (c =? 125); [reflexivity|]. destruct (regex_flag c); [|reflexivity]. destruct (negb _); [reflexivity|]. apply IH.
Qed.
Lemma Forall_firstn_ascii n s : ascii_str s -> ascii_str (firstn n s).
Proof. intros H. rewrite <- (firstn_skipn n s) in H. apply Forall_app in H. apply H. Qed.
Lemma regex_ascii cf cf' s st : same_config cf cf' -> ascii_str s -> ascii_specs (ss_specs st) ->
  parse_presentation_regex cf s st = parse_presentation_regex cf' s st
  /\ match parse_presentation_regex cf' s st with Ok (_, st') => ascii_specs (ss_specs st') | _ => True end.
Proof.
  intros (E8 & E32 & ER & ES & EM & HW) H HK. unfold parse_presentation_regex. rewrite ER, E8, E32.
  destruct (c_regex cf); cbn [negb]; [|split; [reflexivity|exact HK]]. destruct HW as [HW|HW]; [discriminate|]. rewrite HW. rewrite andb_false_r. cbn [negb andb].
  destruct H as [|c s Hc Hs]; [split; reflexivity|].
  destruct (Z.eq_dec c 47) as [->|NC].
  2: { destruct c as [|c|c]; try (split; reflexivity). do 6 (destruct c as [c|c|]; try (split; reflexivity)). congruence. }
  destruct Hs as [|d s Hd Hs]; [split; [reflexivity|exact HK]|].
  destruct (regex_end 47 (d :: s) PRegex) as [s2 t]. cbv zeta.
  assert (HK1 : ascii_specs (ss_specs (s_upd (set_type t) st))) by (apply upd_ascii; [auto|exact HK]).
  destruct s2 as [|x s3]; [split; [reflexivity|exact HK1]|].
  assert (HP : ascii_str (firstn (length (d :: s) - length (x :: s3)) (d :: s))) by (apply Forall_firstn_ascii; constructor; assumption).
  destruct (firstn _ _) as [|p ps]; [split; [reflexivity|exact HK1]|].
  assert (HK2 : ascii_specs (ss_specs (s_upd (set_string (p :: ps)) (s_upd (set_type t) st)))) by (split; [apply HK1|exact HP]).
  destruct s3 as [|y s3]; [split; [reflexivity|exact HK2]|]. rewrite (regex_flags_same cf cf') by assumption.
  destruct (regex_flags_loop cf' (y :: s3) 0 _) as [[s4 st4] fl] eqn:EF.
  assert (HK4 : ascii_specs (ss_specs st4)).
  { exact (Q_flags_loop (fun sp => ascii_specs sp) cf' _ _ _ _ _ _ HK2 EF). }
  destruct fl as [fl|]; [|split; [reflexivity|exact HK4]].
  assert (HK5 : ascii_specs (ss_specs (s_upd (set_flags fl) st4))) by (apply upd_ascii; [auto|exact HK4]).
  destruct s4; (split; [reflexivity|exact HK5]).
Qed.
Lemma set_result {St} (h : set_handler St) e s st s' st' set : parse_presentation_set h e s st = Ok (s', st', set) ->
  ascii_str s -> ascii_str set.
Proof.
  assert (F : forall s1 s2 st, finish_set h e s1 s2 st = Ok (s', st', set) -> ascii_str s1 -> ascii_str set).
  { intros s1 s2 st1 E H. unfold finish_set in E. apply bind_ok in E. destruct E as ([[s3 st3] found] & _ & E).
    assert (set = if found then firstn (length s1 - length s3) s1 else []) as -> by congruence.
    destruct found; [apply Forall_firstn_ascii, H|constructor]. }
  intros E H. unfold parse_presentation_set in E. destruct s as [|c s]; [discriminate|].
  destruct c as [|c|c]; try discriminate. do 7 (destruct c as [c|c|]; try discriminate).
  destruct s as [|c s]; [injection E as _ _ <-; constructor|]. destruct (c =? 94).
  - cbv zeta in E. destruct s as [|d s]; [injection E as _ _ <-; constructor|]. destruct (d =? 93).
    + apply bind_ok in E. destruct E as (x & _ & E). eapply F; eassumption.
    + eapply F; eassumption.
  - destruct (c =? 93); [|eapply F; eassumption]. injection E as _ _ <-. repeat constructor; unfold ascii; lia.
Qed.
Lemma presentation_ascii cf cf' s st : same_config cf cf' -> ascii_str s -> ascii_specs (ss_specs st) ->
  do_presentation cf s st = do_presentation cf' s st
  /\ match do_presentation cf' s st with Ok (_, st') => ascii_specs (ss_specs st') | _ => True end.
Proof.
  intros HC H HK. assert (HS := set_ascii specs_set_handler s st H). assert (HX := regex_ascii cf cf' s st HC H HK).
  destruct HC as (E8 & E32 & _). unfold do_presentation. destruct s as [|c s]; [split; reflexivity|]. rewrite E8, E32.
  destruct (c =? 91); [|destruct (c =? 47); [exact HX|]].
  - rewrite HS. split; [reflexivity|].
    destruct (parse_presentation_set specs_set_handler U32 (c :: s) st) as [[[s2 st2] set]| | |] eqn:ES; cbn [bind]; try exact I.
    assert (HQ := Q_set (fun sp => ascii_specs sp) U32 (fun _ _ X => X) (fun _ X => X) (fun _ X => X) _ _ _ _ _ HK ES).
    assert (HR := set_result _ _ _ _ _ _ _ ES H).
    destruct (_ <=? _)%nat; [exact HQ|]. split; [apply HQ|exact HR].
  - split; [reflexivity|]. destruct (parse_presentation_type c) as [t| | |]; cbn [bind]; try exact I.
    assert (HT : ascii_specs (ss_specs (s_upd (set_type t) st))) by (apply upd_ascii; [auto|exact HK]).
    destruct t; first [exact HK|exact HT].
Qed.
Lemma tail_ascii cf cf' t s st : same_config cf cf' -> ascii_str s -> ascii_specs (ss_specs st) ->
  parse_specs_tail cf t s st = parse_specs_tail cf' t s st
  /\ match parse_specs_tail cf' t s st with Ok (_, st') => ascii_specs (ss_specs st') | _ => True end.
Proof.
  intros HC H HK. unfold parse_specs_tail. destruct s as [|c s]; [split; reflexivity|].
  set (m := if c =? 76 then _ else _).
  assert (HM : match m with Ok (s1, st1) => ascii_str s1 /\ ascii_specs (ss_specs st1) | _ => True end).
  { unfold m. destruct (c =? 76); [|split; assumption]. unfold on_localized. destruct (get_category t) as [k| | |]; cbn [bind]; try exact I.
    inversion H; subst. destruct k; cbn [bind]; (split; [assumption|]); first [exact HK|apply upd_ascii; [auto|exact HK]]. }
  destruct m as [[s1 st1]| | |]; cbn [bind]; try (split; [reflexivity|exact I]). destruct HM as [H1 HK1].
  destruct s1 as [|d s1]; [split; [reflexivity|exact HK1]|].
  destruct (negb (d =? 125)).
  - destruct (presentation_ascii cf cf' (d :: s1) st1 HC H1 HK1) as [E HP]. rewrite E. split; [reflexivity|].
    destruct (do_presentation cf' (d :: s1) st1) as [[s2 st2]| | |]; cbn [bind]; try exact I. destruct s2; exact HP.
  - cbn [bind]. split; [reflexivity|exact HK1].
Qed.
(** An ASCII format-spec means the same in narrow and wide format strings. *)
Theorem specs_ascii cf cf' t s : same_config cf cf' -> ascii_str s ->
  parse_format_specs cf t s (SS specs_default false) = parse_format_specs cf' t s (SS specs_default false)
  /\ match parse_format_specs cf' t s (SS specs_default false) with Ok (_, st') => ascii_specs (ss_specs st') | _ => True end.
Proof.
  intros HC H. set (st := SS specs_default false).
  assert (HK : ascii_specs (ss_specs st)) by (split; [exists 32; split; [unfold ascii; lia|reflexivity]|constructor]).
  unfold parse_format_specs. destruct (specs_shortcut s); [apply presentation_ascii; assumption|].
  destruct s as [|c s]; [split; [reflexivity|exact HK]|]. assert (HC' := HC). destruct HC' as (E8 & E32 & _). rewrite E8, E32.
  destruct (align_ascii (c :: s) st H eq_refl (Forall_nil _)) as [EA HA]. rewrite EA.
  destruct (parse_align U32 (c :: s) st) as [[s1 st1]| | |]; cbn [bind]; try (split; [reflexivity|exact I]). destruct HA as [HS1 HK1].
  assert (H1 := suffix_Forall _ _ _ HS1 H). destruct s1 as [|c1 s1]; [split; [reflexivity|exact HK1]|].
  destruct (parse_width_safe (c1 :: s1) st1 ltac:(discriminate)) as (s2 & st2 & EW & HS2). rewrite EW. cbn [bind].
  assert (HK2 := width_ascii _ _ _ _ HK1 EW). assert (H2 := suffix_Forall _ _ _ HS2 H1).
  destruct s2 as [|c2 s2]; [split; [reflexivity|exact HK2]|]. destruct (c2 =? 46); [|apply tail_ascii; assumption].
  inversion H2 as [|? ? _ H3]; subst. destruct s2 as [|c3 s2]; [split; [reflexivity|exact HK2]|].
  destruct (parse_precision_safe (c3 :: s2) st2 ltac:(discriminate)) as (s4 & st4 & EP & HS4). rewrite EP. cbn [bind].
  assert (HK4 := precision_ascii _ _ _ _ HK2 EP). assert (H4 := suffix_Forall _ _ _ HS4 H3).
  destruct s4 as [|c4 s4]; [split; [reflexivity|exact HK4]|]. apply tail_ascii; assumption.
Qed.
