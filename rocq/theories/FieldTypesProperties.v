(** Fields of every scalar type with width, precision, fill and alignment (C26, C27), through
    the reader that the type of the argument selects. *)
From Coq Require Import String.
From Verif Require Import Prelude Tables UnicodeModel UnicodeSpec UnicodeProofs ReadModel ReadProofs SpecsModel FormatModel FormatSpec FormatSpecProofs
  WidthModel WidthSpec WidthProofs GrammarSpec ArgReaderModel ArgReaderProofs VscanSpec VscanProperties
  StringModel StringSpec StringProofs StringProperties ScalarModel ScalarSpec ScalarProofs ScalarProperties
  FloatModel FloatSpec FloatProofs FloatInstance FloatProperties FloatTotal FloatFieldProperties FloatLocaleProperties
  LocaleModel LocaleProperties EncodingProofs EncodingReadProofs EncodingProperties IntModel IntSpec IntProofs IntAsciiProofs ArgReaderProperties.
Import Coq.Strings.String.StringSyntax.
Local Open Scope string_scope.
Local Open Scope list_scope.
Local Open Scope Z_scope.

(** A locale with ASCII separators, and words of Unicode text for booleans. *)
Definition text_locale (e : enc) (lo : locale) : Prop :=
  0 <= l_sep lo < 128 /\ 0 <= l_point lo < 128
  /\ exists yes no, Forall scalar yes /\ Forall scalar no /\ l_true lo = text e yes /\ l_false lo = text e no.
(** Types that are read as text: all but char, which is a code unit.  A string is read with a
    format-spec of C23 or C24, and not with a regular expression. *)
Definition reads_text {F} (e : enc) (d : desc) (t : scalar_type F) : Prop :=
  match t with
  | TInt t _ => type_ok t
  | TBool | TPointer => True
  | TChar k _ _ => k <> KChar
  | TString dst _ => string_type d /\ exists to, dest_ok dst e to
  | TFloat f _ => exists M, converts f M
  end.
(** What the type makes of a format-spec: whether it accepts it, whether white space is
    skipped before the value, and how the value itself is read. *)
Definition admits {F} (t : scalar_type F) (sp : specs) : bool :=
  match t with
  | TInt _ _ => check_int_type_specs sp
  | TBool => check_bool_type_specs sp
  | TChar k _ _ => char_check k sp
  | TPointer => check_pointer_type_specs sp
  | TString _ _ => check_string_type_specs sp
  | TFloat _ _ => check_float_type_specs sp
  end.
Definition skips {F} (t : scalar_type F) (d : desc) : bool :=
  match t with
  | TChar _ _ _ => false
  | TString _ _ => skips_white_space (portion_of d)
  | _ => true
  end.
Definition value_read {F} rx (lo : locale) (t : scalar_type F) (sp : specs) (r : src) (s : list Z) : outcome (svalue F * list Z) :=
  match t with
  | TInt t _ => as_value SVInt (int_read_specs r t sp (l_sep lo) s)
  | TBool => as_value SVBool (bool_specs (bool_names lo) r sp s)
  | TChar k old _ => as_value SVChar (char_specs k old (l_sep lo) r sp s)
  | TPointer => as_value SVPointer (pointer_read (l_sep lo) r s)
  | TString dst _ => as_value SVString (string_specs rx dst r sp s)
  | TFloat f _ => as_value SVFloat (float_read_specs f r (number_options lo) sp s)
  end.

Lemma as_value_whole {F A} (f : A -> svalue F) e read : whole_code_points e read -> whole_code_points e (fun s => as_value f (read s)).
Proof.
  intros H cps x rest Hc E. unfold as_value in E. destruct (read (text e cps)) as [[v l]|y| |] eqn:ER; cbn [bind] in E; try discriminate.
  injection E as _ <-. eapply H; eauto.
Qed.
Lemma mean_base e d : (ptype_rank PIntHex <? ptype_rank (type (mean e d))) = false ->
  exists b, get_base (mean e d) = Ok b /\ (b = 0 \/ 2 <= b <= 36).
Proof.
  assert (HB : arbitrary_base (mean e d) = 0) by (unfold mean; destruct (d_type d) as [[c|i l|p fl]|]; reflexivity).
  unfold get_base. rewrite HB. destruct (type (mean e d)); cbn; try discriminate; intros _; eexists; (split; [reflexivity|lia]).
Qed.
Lemma int_whole r t d sep : type_ok t -> 0 <= sep < 128 -> (ptype_rank PIntHex <? ptype_rank (type (mean (s_enc r) d))) = false ->
  whole_code_points (s_enc r) (fun s => int_read_specs r t (mean (s_enc r) d) sep s).
Proof.
  intros Ht Hs Hk. destruct (mean_base _ _ Hk) as (b & Hb & Hr). eapply C27_integers; eauto.
Qed.
Lemma bool_whole r lo sp : text_locale (s_enc r) lo -> whole_code_points (s_enc r) (bool_specs (bool_names lo) r sp).
Proof.
  intros (_ & _ & yes & no & Hy & Hn & Ey & En) cps x rest Hc E. unfold bool_specs, bool_names in E. cbn [fst snd] in E.
  destruct (bool_options sp) as [tx nu]. unfold bool_either in E.
  assert (K : forall l b, txt (s_enc r) (spelled l cps) = Ok (b, rest) -> exists a m, cps = a ++ m /\ rest = text (s_enc r) m).
  { intros l b H. unfold txt in H. destruct (spelled l cps) as [[b' m]|y| |] eqn:EL; cbn [bind] in H; try discriminate.
    injection H as _ <-. destruct (spelled_suffix _ _ _ _ EL) as [a ->]. eauto. }
  assert (D : nu = true /\ bool_numeric (text (s_enc r) cps) = Ok (x, rest)
    \/ (if localized sp then bool_textual_custom (l_true lo) (l_false lo) else bool_textual_classic) (text (s_enc r) cps) = Ok (x, rest)).
  { destruct nu.
    - destruct (bool_numeric _) as [y|y| |]; try discriminate; [left; auto|]. destruct tx; [right; exact E|discriminate].
    - destruct tx; [right; exact E|discriminate]. }
  clear E. destruct D as [[_ D]|D].
  - rewrite numeric_text in D by exact Hc. eapply K; eauto.
  - destruct (localized sp).
    + rewrite Ey, En in D. unfold bool_textual_custom in D. destruct (_ <=? _)%nat; rewrite two_text in D by assumption; eapply K; eauto.
    + rewrite classic_text in D by exact Hc. eapply K; eauto.
Qed.
Lemma code_point_whole e : whole_code_points e (code_point_read e).
Proof.
  intros cps x rest Hc E. rewrite code_points_text in E by exact Hc. destruct cps as [|c l]; [discriminate|].
  cbn [first_code_point bind] in E. injection E as _ <-. exists [c], l. auto.
Qed.
Lemma char_whole r k old sep d : k <> KChar -> s_enc r <> U16 -> 0 <= sep < 128 -> char_check k (mean (s_enc r) d) = true ->
  whole_code_points (s_enc r) (char_specs k old sep r (mean (s_enc r) d)).
Proof.
  intros Hk He Hs Hch. set (e := s_enc r) in *.
  assert (D : whole_code_points e (char_default_read k r)).
  { intros cps x rest Hc E. unfold char_default_read in E. fold e in E. destruct k; [congruence| |eapply code_point_whole; eauto].
    destruct e; [|congruence|].
    - unfold wide_character_read in E. destruct (code_point_read U8 (text U8 cps)) as [[c l]|y| |] eqn:EC; cbn [bind] in E; try discriminate.
      destruct (negb _); [discriminate|]. injection E as _ <-. eapply code_point_whole; eauto.
    - unfold code_unit_read in E. destruct cps as [|c l]; [discriminate|]. cbn in E. injection E as _ <-. exists [c], l. auto. }
  destruct k; [congruence| |exact D]. cbn [char_check] in Hch. unfold check_char_type_specs in Hch.
  apply negb_true_iff, orb_false_iff in Hch. destruct Hch as [Hch _].
  assert (W : whole_code_points e (fun s => int_read_specs r i32 (mean e d) sep s)).
  { apply int_whole; trivial. unfold type_ok. cbn. auto 10. }
  intros cps x rest Hc E. unfold char_specs in E.
  assert (K : ('(_, it) <- int_read_specs r i32 (mean e d) sep (text e cps) ;; Ok (old, it)) = Ok (x, rest) -> exists a l, cps = a ++ l /\ rest = text e l).
  { intros EK. destruct (int_read_specs r i32 (mean e d) sep (text e cps)) as [[v l]|y| |] eqn:EI; cbn [bind] in EK; try discriminate.
    injection EK as _ <-. eapply W; eauto. }
  destruct (type (mean e d)); (apply K, E) || (eapply D; eauto).
Qed.
Lemma float_whole {V} (F : fp V) M r lo sp : converts F M -> 0 <= l_sep lo < 128 -> 0 <= l_point lo < 128 -> check_float_type_specs sp = true ->
  whole_code_points (s_enc r) (float_read_specs F r (number_options lo) sp).
Proof.
  intros C H1 H2 Hch.
  assert (A : exists f, asks sp f).
  { unfold check_float_type_specs in Hch. unfold asks. destruct (type sp); cbn in Hch; try discriminate.
    - exists Any. reflexivity.
    - exists Hex. reflexivity.
    - exists Scientific. reflexivity.
    - exists Fixed. reflexivity.
    - exists General. reflexivity. }
  destruct A as [f A]. destruct (localized sp) eqn:EL; [|eapply C27_floats; eauto].
  intros cps x rest Hc E. unfold float_read_specs in E.
  assert (O : exists o, get_options sp = Ok o /\ o_hex o || o_fixed o || o_scientific o = true /\ o = options f true).
  { unfold asks in A. unfold get_options. rewrite A, EL. destruct f; eexists; (split; [reflexivity|]); split; reflexivity. }
  destruct O as (o & Eo & Ho & Ef). rewrite Eo in E. cbn [bind] in E.
  set (q := used_seps (localized sp) o (number_options lo)) in *.
  destruct (is_plain q) eqn:EP.
  - assert (EQ : q = plain_seps).
    { unfold is_plain in EP. apply andb_true_iff in EP. destruct EP as [P1 P2]. apply Z.eqb_eq in P1, P2.
      destruct q as [p th]. cbn in P1, P2. subst. reflexivity. }
    rewrite EQ in E.
    set (sp' := Specs (width sp) (precision sp) (fill sp) (type sp) (charset_literals sp) (charset_has_nonascii sp) (charset_is_inverted sp) (charset_string sp) (regexp_flags sp) (arbitrary_base sp) (align sp) false).
    assert (EX : float_read_specs F r plain_seps sp' (text (s_enc r) cps) = Ok (x, rest)).
    { rewrite <- (C51_plain F r plain_seps sp sp' (text (s_enc r) cps) eq_refl EL eq_refl).
      unfold float_read_specs. rewrite Eo, EL. cbn [bind used_seps plain_seps sep_point sep_thousands].
      destruct (o_thsep o); exact E. }
    eapply (C27_floats F M r plain_seps sp' f); eauto.
  - destruct (float_impl_low F M C r o q (text (s_enc r) cps) (text_units _ _ Hc) Ho) as [(v & s' & E' & t & Et & Ht)|[y E']]; [|congruence].
    rewrite E in E'. injection E' as <- <-.
    rewrite EP, andb_false_r in Ht. assert (Forall ascii t).
    { apply Ht; [reflexivity|]. unfold low_seps, q, used_seps. rewrite EL. cbn. unfold ascii. destruct (o_thsep o); lia. }
    destruct (ascii_text _ _ H _ _ Hc Et) as (l & -> & ->). eauto.
Qed.

(** The value in a field of any type but char is whole code points. *)
Theorem C27_values : forall F rx r lo (t : scalar_type F) d,
  s_enc r <> U16 -> wholes r -> text_locale (s_enc r) lo -> reads_text (s_enc r) d t -> fill_kept (s_enc r) d ->
  admits t (mean (s_enc r) d) = true ->
  whole_code_points (s_enc r) (value_read rx lo t (mean (s_enc r) d) (field_src r d)).
Proof.
  intros F rx r lo t d He Hr Hl Ht Hf Ha.
  assert (Ee : s_enc (field_src r d) = s_enc r) by (unfold field_src; destruct (said_precision d); reflexivity).
  assert (Hl' := Hl). destruct Hl' as (Hs & Hpt & _).
  destruct t as [t a| |k old a| |dst a|f a]; cbn [reads_text admits] in Ht, Ha; unfold value_read; cbn [value_read].
  - apply (as_value_whole SVInt). rewrite <- Ee. apply int_whole; trivial. rewrite Ee. unfold check_int_type_specs in Ha.
    destruct (_ <? _); [discriminate|reflexivity].
  - apply (as_value_whole SVBool). rewrite <- Ee. apply bool_whole. rewrite Ee. exact Hl.
  - apply (as_value_whole SVChar). rewrite <- Ee. apply char_whole; rewrite ?Ee; trivial.
  - apply (as_value_whole SVPointer). rewrite <- Ee. apply C27_pointers.
  - apply (as_value_whole SVString). destruct Ht as (Ht & to & Hd). intros cps x rest Hc E.
    assert (HP : forall c, d_type d = Some (TyLetter c) -> c = 99 -> precision (mean (s_enc r) d) <> 0).
    { intros c Ec ->. unfold string_type in Ht. rewrite Ec in Ht. destruct Ht as [|[_ Ht]]; [discriminate|].
      rewrite mean_precision. unfold said_precision in Ht. destruct (d_prec d) as [ds|]; [|congruence]. cbn [optv].
      destruct (Z.eqb_spec (FormatSpec.number ds) 0); congruence. }
    rewrite (string_specs_text rx dst r (field_src r d) to d cps) in E; trivial.
    + unfold coded in E. destruct (take (portion_of d) cps) as [[v l]|y| |] eqn:ET; cbn [bind] in E; try discriminate.
      injection E as _ <-. apply take_suffix in ET. rewrite ET. eauto.
    + intros _. unfold field_src. destruct (said_precision d); [apply view_whole|apply Hr].
    + rewrite mean_fill_eq. apply mean_fill_ok, Hf.
  - apply (as_value_whole SVFloat). destruct Ht as [M C]. assert (X := float_whole f M (field_src r d) lo (mean (s_enc r) d) C Hs Hpt Ha). rewrite Ee in X. exact X.
Qed.
Print Assumptions C27_values.

Lemma as_value_arg {F A} (f : A -> svalue F) r sp skip (read : src -> list Z -> outcome (A * list Z)) s :
  as_value f (arg_read r sp skip read s) = arg_read r sp skip (fun r' s => as_value f (read r' s)) s.
Proof.
  unfold arg_read, as_value. destruct (if negb _ then _ else _) as [[it pre]|y| |]; cbn [bind]; try reflexivity.
  destruct (negb (precision sp =? 0)).
  - destruct (precision sp <=? pre); [reflexivity|]. cbv zeta.
    destruct (take_width _ _ _) as [v|y| |]; cbn [bind]; try reflexivity.
    destruct (read (view_src r) v) as [[x rest]|y| |]; cbn [bind]; try reflexivity.
    destruct (view_count _ _ _ _ _) as [c|y| |]; cbn [bind]; try reflexivity.
    destruct (match view_base it v rest with [] => _ | _ => _ end) as [[it2 post]|y| |]; cbn [bind]; try reflexivity.
    destruct (check_widths _ _ _ _) as [w|y| |]; reflexivity.
  - destruct (read r it) as [[x it']|y| |]; cbn [bind]; try reflexivity.
    assert (K : forall w, ('(v, rest) <- ('(it, postfix) <- (match it' with [] => Ok (it', 0) | _ => impl_postfix r sp skip pre w it' end) ;;
                              _ <- check_widths sp pre w postfix ;; Ok (x, it)) ;; Ok (f v, rest))
      = ('(it, postfix) <- (match it' with [] => Ok (it', 0) | _ => impl_postfix r sp skip pre w it' end) ;;
                              _ <- check_widths sp pre w postfix ;; Ok (f x, it))).
    { intros w. destruct (match it' with [] => _ | _ => _ end) as [[it2 post]|y| |]; cbn [bind]; try reflexivity.
      destruct (check_widths _ _ _ _) as [z|y| |]; reflexivity. }
    destruct (need_width sp); [|apply K].
    destruct (text_width _ _) as [w|y| |]; cbn [bind]; try reflexivity. apply K.
Qed.
Lemma character_limited e d : string_type d -> forall c, d_type d = Some (TyLetter c) -> c = 99 -> precision (mean e d) <> 0.
Proof.
  intros Ht c Ec ->. unfold string_type in Ht. rewrite Ec in Ht. destruct Ht as [|[_ Ht]]; [discriminate|].
  rewrite mean_precision. unfold said_precision in Ht. destruct (d_prec d) as [ds|]; [|congruence]. cbn [optv].
  destruct (Z.eqb_spec (FormatSpec.number ds) 0); congruence.
Qed.
Lemma scalar_frame {F} rx r lo (t : scalar_type F) d s : reads_text (s_enc r) d t -> admits t (mean (s_enc r) d) = true ->
  scalar_specs rx r lo t (mean (s_enc r) d) s
  = arg_read r (mean (s_enc r) d) (skips t d) (fun r' => value_read rx lo t (mean (s_enc r) d) r') s.
Proof.
  intros Ht Ha.
  destruct t as [t a| |k old a| |dst a|f a]; cbn [reads_text admits] in Ht, Ha; unfold scalar_specs, string_arg, arg_read_checked;
    cbn [rd_check rd_skip rd_specs int_reader bool_reader char_reader pointer_reader string_reader float_reader]; rewrite Ha, as_value_arg; cbn [skips].
  5: destruct (mean_kind _ _ (proj1 Ht) (character_limited (s_enc r) d (proj1 Ht))) as [_ ->].
  all: reflexivity.
Qed.

(** ** C27 for every type: a field is fill, value and fill again. *)
Theorem C27_types_partial : forall F rx r lo (t : scalar_type F) d cps,
  s_enc r <> U16 -> wholes r -> text_locale (s_enc r) lo -> reads_text (s_enc r) d t ->
  numerals d -> fill_kept (s_enc r) d -> Forall scalar cps ->
  scalar_specs rx r lo t (mean (s_enc r) d) (text (s_enc r) cps)
  = if admits t (mean (s_enc r) d) then
      '(x, l) <- field (said_align d) (said_fill d) (said_width d) (said_precision d) (skips t d)
                   (on_text (s_enc r) (value_read rx lo t (mean (s_enc r) d) (field_src r d))) cps ;;
      Ok (x, text (s_enc r) l)
    else Err InvalidFormatString.
Proof.
  intros F rx r lo t d cps He Hr Hl Ht Hn Hf Hc. destruct (admits t (mean (s_enc r) d)) eqn:Ha.
  - rewrite scalar_frame by assumption. apply C27_field_partial; try assumption; [intros _ _; apply Hr|apply C27_values; assumption].
  - destruct t as [t a| |k old a| |dst a|f a]; cbn [admits] in Ha; unfold scalar_specs, string_arg, arg_read_checked;
      cbn [rd_check rd_skip rd_specs int_reader bool_reader char_reader pointer_reader string_reader float_reader]; rewrite Ha; reflexivity.
Qed.
Print Assumptions C27_types_partial.
(** ** C26 for every type: nothing beyond the first [n] columns has any influence, *)
Theorem C26_types_partial : forall F rx r lo (t : scalar_type F) d n v q,
  s_enc r <> U16 -> wholes r -> text_locale (s_enc r) lo -> reads_text (s_enc r) d t ->
  numerals d -> fill_kept (s_enc r) d -> Forall scalar (v ++ q) ->
  said_precision d = Some n -> take_cols n (v ++ q) = v ->
  scalar_specs rx r lo t (mean (s_enc r) d) (text (s_enc r) (v ++ q))
  = ('(x, l) <- scalar_specs rx r lo t (mean (s_enc r) d) (text (s_enc r) v) ;;
     Ok (x, l ++ text (s_enc r) q)).
Proof.
  intros F rx r lo t d n v q He Hr Hl Ht Hn Hf Hc Hp Hv. destruct (admits t (mean (s_enc r) d)) eqn:Ha.
  - rewrite !scalar_frame by assumption. eapply C26_bound_partial; eauto. apply C27_values; assumption.
  - assert (Hvs : Forall scalar v) by (apply scalars_app in Hc; apply Hc).
    rewrite !C27_types_partial by assumption. rewrite Ha. reflexivity.
Qed.
Print Assumptions C26_types_partial.
(** and what is consumed are whole code points, of at most [n] columns and at least as many as
    the width asks for. *)
Theorem C26_types_consumed_partial : forall F rx r lo (t : scalar_type F) d cps x rest,
  s_enc r <> U16 -> wholes r -> text_locale (s_enc r) lo -> reads_text (s_enc r) d t ->
  numerals d -> fill_kept (s_enc r) d -> Forall scalar cps ->
  scalar_specs rx r lo t (mean (s_enc r) d) (text (s_enc r) cps) = Ok (x, rest) ->
  exists a l, cps = a ++ l /\ rest = text (s_enc r) l /\ said_width d <= cols a
    /\ forall n, said_precision d = Some n -> cols a <= n.
Proof.
  intros F rx r lo t d cps x rest He Hr Hl Ht Hn Hf Hc E. destruct (admits t (mean (s_enc r) d)) eqn:Ha.
  - rewrite scalar_frame in E by assumption. eapply C26_consumed_partial; [..|exact E]; try assumption; [intros _ _; apply Hr|apply C27_values; assumption].
  - rewrite C27_types_partial in E by assumption. rewrite Ha in E. discriminate.
Qed.
Print Assumptions C26_types_consumed_partial.

(** Fields with a fill of two columns and words of the locale: a bool, a float, a string, a
    code point and a pointer. *)
Definition T := VscanProperties.T.
Definition han_locale : locale := Locale (text U8 [han; 33]) (T "ei") [3] 39 44.
Definition fielded (t : scalar_type FloatInstance.exact) (d : desc) (cps : list Z) :=
  scalar_specs no_rx string_src han_locale t (mean U8 d) (text U8 cps).
Definition double : scalar_type FloatInstance.exact := TFloat (exact_fp false) ArgsModel.DoubleType.
Definition string8 : scalar_type FloatInstance.exact := TString (DString U8) ArgsModel.NarrowStringType.
Definition code_point : scalar_type FloatInstance.exact := TChar KCodePoint 0 ArgsModel.CodePointType.
Definition centred : desc := Desc (Some han) (Some ACenter) (Some [56]) (Some [57]) true None.
Example C27_types_ex :
  text_locale U8 han_locale /\ wholes string_src /\ s_enc string_src <> U16
  /\ numerals centred /\ fill_kept U8 centred
  /\ (reads_text U8 centred (@TBool FloatInstance.exact) /\ reads_text U8 centred double /\ reads_text U8 centred string8
      /\ reads_text U8 centred code_point /\ reads_text U8 centred (@TPointer FloatInstance.exact))
  /\ fielded TBool centred ([han; han] ++ T "ei" ++ [han; han]) = Ok (SVBool false, text U8 [han])
  /\ fielded TBool (Desc (Some 42) (Some ARight) (Some [53]) None true None) (T "**" ++ [han; 33; 97]) = Ok (SVBool true, T "a")
  /\ fielded double centred ([han] ++ T "1'234,5" ++ [han]) = Ok (SVFloat (Fraction false 12345 10), text U8 [han])
  /\ fielded string8 (Desc (Some han) (Some ALeft) None (Some [55]) false (Some (TyLetter 115))) (T "abc" ++ [han; han; han]) = Ok (SVString (T "abc"), text U8 [han])
  /\ fielded code_point (Desc (Some 42) (Some ARight) (Some [52]) None false None) ([42; 42; han; 42]) = Ok (SVChar han, T "*")
  /\ fielded TPointer (Desc (Some han) (Some ACenter) None (Some [55]) false None) ([han] ++ T "0x1f2e") = Ok (SVPointer 0x1f2, T "e").
Proof.
  split. { split; [cbn; lia|]. split; [cbn; lia|]. exists [han; 33], (T "ei"). repeat split; repeat constructor; unfold scalar, han; cbn; lia. }
  split; [exact strings_whole|]. split; [discriminate|].
  split; [split; intros ? [= <-]; repeat split; repeat constructor; try discriminate; lia|].
  split; [intros ? [= <-]; split; [unfold scalar, han; lia|exact I]|].
  split. { split; [exact I|]. split; [eexists; apply exact_converts|]. split; [split; [exact I|exists U8; cbn; auto]|]. split; [discriminate|exact I]. }
  vm_compute. auto 10.
Qed.
