(** Property C69: which white space stands between values, and how much, does not matter. *)
From Coq Require Import String.
From Verif Require Import Prelude UnicodeModel UnicodeSpec ReadModel ReadProofs SpecsModel ArgsModel FormatModel FormatProofs FormatSpec FormatSpecProofs
  VscanModel VscanSpec IntModel ArgReaderModel ScalarModel StringModel FloatModel RangesModel LocaleModel VscanProofs VscanSpecProofs StringSafeProofs ScalarSpec ScalarProofs StringProofs
  FloatSpec FloatProofs FloatInstance WidthSpec EncodingProofs EncodingLoopProofs EncodingReadProofs FollowSpec FollowProofs FollowIntProofs FollowFloatProofs VscanProperties ScalarProperties LocaleProperties EncodingProperties FollowProperties
  DocTypesSpec DocTypesProofs DocTypesRun DocTypesProperties RespaceSpec RespaceProofs IntProofs.
Import Coq.Strings.String.StringSyntax.
Local Open Scope list_scope.
Local Open Scope Z_scope.

Section Wide.
Context {F : Type}.
Variables (rx : regex_engine) (cf : config) (global : locale) (l : locale_ref).
Notation loc := (get_locale global l).
(** Types before whose values white space is skipped. *)
Definition apart (t : scalar_type F) : Prop := ending global l t /\ match t with TChar _ _ _ => False | _ => True end.
Hypothesis Hcf : c_enc cf = U32.
Hypothesis Hrx : engine_ok rx.
Hypothesis Hsep : plain_sep (l_sep loc).
Hypothesis Hdark : is_ws (l_sep loc) = false.

(** A format-spec that asks for no width, precision or alignment, and for no set or pattern. *)
Definition unbounded (sp : specs) : Prop := plain_specs sp /\ type sp <> PStringSet /\ type sp <> PRegex /\ type sp <> PRegexEscaped /\ arbitrary_base sp = 0.
Section Values.
Variable r : src.
Hypothesis E32 : s_enc r = U32.
Lemma int_visible t sp : arbitrary_base sp = 0 -> visible (int_read_specs r t sp (l_sep loc)).
Proof.
  intros HB s v b _ E. assert (HD : dark_sep (l_sep loc) (localized sp)) by (intros _; exact Hdark).
  destruct (int_specs_follows (R:=respaced) r t sp (l_sep loc) s v b E32 Hsep HB (gentle_next _ _ HD) E) as (a & Ea & _ & Ha & HA). eauto.
Qed.
Lemma pointer_visible sep : plain_sep sep -> visible (pointer_read sep r).
Proof.
  intros HP s v b _ E. assert (HD : dark_sep sep false) by (intros H; discriminate H).
  destruct (int_specs_follows (R:=respaced) r u64 hex_specs sep s v b E32 HP eq_refl (gentle_next _ _ HD) E) as (a & Ea & _ & Ha & HA).
  exists a. split; [exact Ea|]. split; [exact (Ha HD)|exact HA].
Qed.
Lemma word_visible d : visible (word_read d r).
Proof. intros s v b HS E. exact (word_follows d r s v b E32 HS E). Qed.
Lemma spelled_visible ws (f : list Z -> outcome (bool * list Z)) : Forall (fun x => dark (snd x)) ws -> (forall s, Forall scalar s -> f s = spelled ws s) -> visible f.
Proof.
  intros HW HE s v b HS E. rewrite HE in E by exact HS. destruct (spelled_follows ws s v b HW E) as (a & -> & HD & HA). exists a. split; [reflexivity|]. split; [exact HD|].
  intros b' HR. rewrite HE; [apply HA, HR|]. apply Forall_app in HS as [H1 H2]. apply Forall_app. split; [exact H1|exact (respaced_scalar _ _ HR H2)].
Qed.
Lemma default_apart t : apart t -> respacing (scalar_default r t).
Proof.
  intros [[_ Ht] Hc]. destruct t; cbn [scalar_default]; try contradiction.
  - apply (respacing_map SVInt), default_respaced; [exact E32|]. intros s v b _ E.
    destruct (int_default_follows (R:=respaced) r t s v b E32 E) as (a' & Ea & _ & Ha & HA). eauto.
  - apply (respacing_map SVBool), default_respaced; [exact E32|].
    destruct (bool_words_ok true true _ classic_words_ok) as [W1 _]. apply (spelled_visible _ _ W1). intros s HS. apply bool_either_wide; [exact HS|].
    assert (X := classic_text U32 s HS). rewrite text32 in X. exact X.
  - apply (respacing_map SVPointer), default_respaced; [exact E32|]. apply pointer_visible. reflexivity.
  - apply (respacing_map SVString), default_respaced; [exact E32|]. apply word_visible.
  - destruct Ht as [_ [M C]]. apply (respacing_map SVFloat), default_respaced; [exact E32|]. intros s v b _ E.
    destruct (float_impl_follows _ M C (R:=respaced) r Any false s v b E32 E) as (a' & Ea & _ & Ha & HA). eauto.
Qed.
Lemma specs_apart t sp : apart t -> unbounded sp -> respacing (scalar_specs rx r loc t sp).
Proof.
  intros [[_ Ht] Hc] (HP & N1 & N2 & N3 & HA).
  destruct t; cbn [scalar_specs]; try contradiction.
  - apply (respacing_map SVInt), checked_respaced; [exact E32|exact HP|]. intros _. split; [reflexivity|]. apply int_visible, HA.
  - destruct Ht as [T1 T2]. apply (respacing_map SVBool), checked_respaced; [exact E32|exact HP|]. intros _. split; [reflexivity|]. cbn [bool_reader rd_specs].
    destruct (bool_words_ok (fst (bool_options sp)) (snd (bool_options sp)) (if localized sp then ordered_names (bool_names loc) else [(true, word_true); (false, word_false)])) as [W1 _].
    { destruct (localized sp); [apply ordered_names_ok; assumption|apply classic_words_ok]. }
    apply (spelled_visible _ _ W1). intros s HS. apply bool_read_wide; assumption.
  - apply (respacing_map SVPointer), checked_respaced; [exact E32|exact HP|]. intros _. split; [reflexivity|]. apply pointer_visible, Hsep.
  - apply (respacing_map SVString). unfold string_arg. destruct (string_kind_of sp) eqn:EK.
    + apply checked_respaced; [exact E32|exact HP|]. intros _. cbn [string_reader rd_skip rd_specs]. unfold string_skip, string_specs. rewrite EK. split; [reflexivity|]. apply word_visible.
    + exfalso. unfold string_kind_of in EK. destruct HP as (HP & _). rewrite HP in EK. destruct (type sp); discriminate.
    + intros s s' v b _ _ E. exfalso. unfold arg_read_checked in E. cbn [string_reader rd_check rd_skip rd_specs] in E. destruct (check_string_type_specs sp); [|discriminate].
      rewrite arg_read_plain in E by exact HP. unfold string_skip, string_specs in E. rewrite EK in E. cbn [bind] in E. unfold character_read in E. destruct HP as (_ & _ & HP). rewrite HP in E. discriminate.
    + exfalso. unfold string_kind_of in EK. destruct (type sp); try discriminate; try congruence; destruct (align sp); discriminate.
    + exfalso. unfold string_kind_of in EK. destruct (type sp); try discriminate; try congruence; destruct (align sp); discriminate.
    + exfalso. unfold string_kind_of in EK. destruct (type sp); try discriminate; try congruence; destruct (align sp); discriminate.
  - destruct Ht as [EL [M C]]. apply (respacing_map SVFloat), checked_respaced; [exact E32|exact HP|]. intros _. split; [reflexivity|]. cbn [float_reader rd_specs]. rewrite EL.
    intros s v b _ E. destruct (float_specs_follows _ M C (R:=respaced) sp r s v b E32 E) as (a' & Ea & _ & Ha & HA'). eauto.
Qed.
End Values.
Lemma mean_unbounded d : bare (Some d) -> unbounded (mean U32 d).
Proof. intros H. destruct (mean_plain U32 d H) as (H1 & H2 & H3 & H4). split; [exact H1|]. repeat split; try assumption. apply mean_parsed_base. Qed.
Lemma args_apart (sts : list (scalar_type F)) : Forall apart sts ->
  forall i d, bare d -> respacing (meant U32 (read_arg _ (map (target_arg rx cf global l wide_src) (map TScalar sts))) i d).
Proof.
  intros HT i d HB. unfold meant, read_arg. rewrite !nth_error_map. destruct (nth_error sts (Z.to_nat i)) as [t|] eqn:ET; cbn [option_map].
  2: intros s s' v b _ _ E; discriminate.
  assert (Ht : apart t) by (eapply (proj1 (Forall_forall _ _) HT), nth_error_In, ET). cbn [target_arg ar_default ar_specs].
  destruct d as [d|]; cbn [option_map]; apply (respacing_map VLeaf).
  - apply specs_apart; [reflexivity|exact Ht|apply mean_unbounded, HB].
  - apply default_apart; [reflexivity|exact Ht].
Qed.

(** Two texts with white space in the same places give the same values, and what is left has
    white space in the same places.  No characters, no character sets, no widths. *)
Theorem C69_partial (sts : list (scalar_type F)) ts source source' log rest :
  Forall named sts -> Forall usual sts -> Forall apart sts -> uniform ts -> wf_tok cf (map scalar_arg_type sts) ts 0 -> bare_fields ts ->
  Forall scalar source -> respaced source source' ->
  scan_with rx cf global l wide_src (map TScalar sts) (render U32 ts) source = Ok (log, rest) ->
  exists rest', scan_with rx cf global l wide_src (map TScalar sts) (render U32 ts) source' = Ok (log, rest') /\ respaced rest rest'.
Proof.
  intros Hna Hus Hap HU HW HB HS HR E.
  destruct (Nat.lt_ge_cases (List.length sts) 64) as [Hc|Hc]; [|exfalso; revert E; apply C18_many_args_refuted; rewrite !map_length; exact Hc].
  assert (G := fun s x => C18_scalars_partial F rx cf global l wide_src sts ts s x Hc (or_introl eq_refl) Hcf Hrx Hna Hus HU HW I).
  apply G in E. destruct (run_respaced _ _ _ (args_apart sts Hap) ts _ _ _ _ _ _ _ _ HB HS HR E) as (rest' & E' & HR'). exists rest'. split; [|exact HR'].
  apply G. exact E'.
Qed.
(** If the format string begins with a field, white space at the beginning does not matter either. *)
Theorem C69_start_partial (sts : list (scalar_type F)) id d ts source source' log rest :
  Forall named sts -> Forall usual sts -> Forall apart sts -> uniform (Field id d :: ts) -> wf_tok cf (map scalar_arg_type sts) (Field id d :: ts) 0 -> bare_fields (Field id d :: ts) ->
  Forall scalar source -> respaced_start source source' ->
  scan_with rx cf global l wide_src (map TScalar sts) (render U32 (Field id d :: ts)) source = Ok (log, rest) ->
  exists rest', scan_with rx cf global l wide_src (map TScalar sts) (render U32 (Field id d :: ts)) source' = Ok (log, rest') /\ respaced rest rest'.
Proof.
  intros Hna Hus Hap HU HW HB HS HR E.
  destruct (Nat.lt_ge_cases (List.length sts) 64) as [Hc|Hc]; [|exfalso; revert E; apply C18_many_args_refuted; rewrite !map_length; exact Hc].
  assert (G := fun s x => C18_scalars_partial F rx cf global l wide_src sts (Field id d :: ts) s x Hc (or_introl eq_refl) Hcf Hrx Hna Hus HU HW I).
  apply G in E. destruct (run_start _ _ _ (args_apart sts Hap) ts id d _ _ _ _ _ _ _ _ HB HS HR E) as (rest' & E' & HR'). exists rest'. split; [|exact HR'].
  apply G. exact E'.
Qed.
End Wide.
Print Assumptions C69_partial.
Print Assumptions C69_start_partial.

(** The same, of narrow strings. *)
Theorem C69_narrow_partial : forall (F : Type) rx8 rx32 cf8 cf32 global l (sts : list (scalar_type F)) ts cps cps' log rest,
  same_config cf8 cf32 -> same_engine rx8 rx32 -> engine_ok rx32 ->
  (let loc := get_locale global l in ascii (l_sep loc) /\ plain_sep (l_sep loc) /\ is_ws (l_sep loc) = false /\ ascii_str (l_true loc) /\ ascii_str (l_false loc)) ->
  Forall named sts -> Forall usual sts -> Forall (apart global l) sts -> Forall (portable global l) sts ->
  uniform ts -> wf_tok cf32 (map scalar_arg_type sts) ts 0 -> bare_fields ts -> ascii_str (render U32 ts) ->
  good cps -> good cps' -> respaced cps cps' ->
  scan_with rx8 cf8 global l string_src (map TScalar sts) (render U32 ts) (text U8 cps) = Ok (log, rest) ->
  exists b b', rest = text U8 b /\ respaced b b'
    /\ scan_with rx8 cf8 global l string_src (map TScalar sts) (render U32 ts) (text U8 cps') = Ok (log, text U8 b').
Proof.
  intros F rx8 rx32 cf8 cf32 global l sts ts cps cps' log rest Hcf Hrx Hok (L1 & L2 & L3 & L4 & L5) Hna Hus Hap Hpo HU HW HB HA HG HG' HR E.
  assert (HT : Forall2 (same_target global l) (map TScalar sts) (map TScalar sts)).
  { clear -Hpo. induction Hpo; constructor; [apply same_scalar; assumption|assumption]. }
  assert (T60 := C60_partial rx8 rx32 cf8 cf32 global l Hcf Hrx L1 L4 L5 (map TScalar sts) (map TScalar sts) (render U32 ts)).
  rewrite (T60 cps HT HA HG) in E. apply CheckerProofs.bind_ok in E. destruct E as ([vs' b] & E & E2). injection E2 as <- <-.
  assert (E32 : c_enc cf32 = U32) by apply Hcf.
  destruct (C69_partial rx32 cf32 global l E32 Hok L2 L3 sts ts cps cps' vs' b Hna Hus Hap HU HW HB (good_scalar _ HG) HR E) as (b' & E' & Hb').
  exists b, b'. split; [reflexivity|]. split; [exact Hb'|]. rewrite (T60 cps' HT HA HG'), E'. reflexivity.
Qed.
Print Assumptions C69_narrow_partial.
(** White space in the format string: any run of it is like one space. *)
Theorem C69_format_partial : forall (F : Type) rx cf global l r (sts : list (scalar_type F)) ts ts' source x,
  good_src r -> c_enc cf = s_enc r -> engine_ok rx -> Forall named sts -> Forall usual sts ->
  uniform ts -> wf_tok cf (map scalar_arg_type sts) ts 0 -> uniform ts' -> wf_tok cf (map scalar_arg_type sts) ts' 0 -> units (s_enc r) source ->
  squeeze_tokens false ts = squeeze_tokens false ts' ->
  scan_with rx cf global l r (map TScalar sts) (render (s_enc r) ts) source = Ok x
  <-> scan_with rx cf global l r (map TScalar sts) (render (s_enc r) ts') source = Ok x.
Proof.
  intros F rx cf global l r sts ts ts' source x Hr Hcf Hrx Hna Hus HU HW HU' HW' Hu HQ.
  destruct (Nat.lt_ge_cases (List.length sts) 64) as [Hc|Hc].
  2: { split; intros E; exfalso; revert E; apply C18_many_args_refuted; rewrite !map_length; exact Hc. }
  rewrite !C18_scalars_partial by assumption. unfold expected, scan_spec. rewrite (run_tokens _ _ _ _ _ ts ts') by exact HQ. reflexivity.
Qed.
Print Assumptions C69_format_partial.

(** "{}, {:x}{:s} {}" with a double, an int, a string and a bool. *)
Definition scalars69 : list (scalar_type FloatInstance.exact) := [TFloat (exact_fp true) DoubleType; TInt i32 IntType; TString (DString U8) NarrowStringType; TBool].
Definition tokens69 : list token :=
  [Field None None; Lit 44; Lit 32; Field None (Some (Desc None None None None false (Some (TyLetter 120))));
   Field None (Some (Desc None None None None false (Some (TyLetter 115)))); Lit 10; Lit 32; Field None None].
Definition values69 : list (Z * value (svalue FloatInstance.exact)) :=
  [(0, VLeaf (SVFloat (Fraction false 15 10))); (1, VLeaf (SVInt 255)); (2, VLeaf (SVString (T "ab"))); (3, VLeaf (SVBool true))].
Example C69_ex :
  render U32 tokens69 = T "{}, {:x}{:s}" ++ [10] ++ T " {}"
  /\ scan_with rest_engine wide classic None wide_src (map TScalar scalars69) (render U32 tokens69) (T " 1.5, 0xff ab true yes") = Ok (values69, T " yes")
  /\ scan_with rest_engine wide classic None wide_src (map TScalar scalars69) (render U32 tokens69) ([10; 0x2028] ++ T "1.5," ++ [9; 9] ++ T "0xff   ab" ++ [13; 10] ++ T "true" ++ [10] ++ T "yes") = Ok (values69, [10] ++ T "yes")
  /\ scan_with rest_engine narrow classic None string_src (map TScalar scalars69) (render U32 tokens69) (T " 1.5, 0xff ab true yes") = Ok (values69, T " yes")
  /\ scan_with rest_engine narrow classic None string_src (map TScalar scalars69) (render U32 tokens69) (text U8 ([10; 0x2028] ++ T "1.5," ++ [9; 9] ++ T "0xff   ab" ++ [13; 10] ++ T "true" ++ [10] ++ T "yes")) = Ok (values69, [10] ++ T "yes")
  /\ respaced (T " 1.5, 0xff ab true yes") ([10; 0x2028] ++ T "1.5," ++ [9; 9] ++ T "0xff   ab" ++ [13; 10] ++ T "true" ++ [10] ++ T "yes")
  /\ respaced_start (T " 1.5, 0xff") (T "1.5,  0xff")
  /\ Forall named scalars69 /\ Forall usual scalars69 /\ Forall (apart classic None) scalars69 /\ Forall (portable classic None) scalars69
  /\ uniform tokens69 /\ wf_tok wide (map scalar_arg_type scalars69) tokens69 0 /\ bare_fields tokens69 /\ ascii_str (render U32 tokens69)
  /\ plain_sep (l_sep (get_locale classic None)) /\ is_ws (l_sep (get_locale classic None)) = false
  /\ squeeze_tokens false tokens69 = squeeze_tokens false (firstn 5 tokens69 ++ [Lit 9; Lit 9; Lit 9] ++ skipn 7 tokens69).
Proof.
  split; [vm_compute; reflexivity|]. do 6 (split; [vm_compute; reflexivity|]).
  split; [repeat (apply Forall_cons; [constructor; reflexivity|]); apply Forall_nil|].
  split.
  { repeat (apply Forall_cons; [cbn [usual]|]); try apply Forall_nil; try exact I; [exists exact_meaning; apply exact_converts|unfold type_ok; cbn; auto 10]. }
  assert (N : forall a, a <> NarrowRegexMatchesType -> a <> WideRegexMatchesType -> no_regex a) by (intros a H1 H2; split; assumption).
  split.
  { unfold scalars69. repeat apply Forall_cons; try apply Forall_nil; (split; [split; [apply N; discriminate|]|exact I]); cbn; try exact I.
    - split; [reflexivity|]. exists exact_meaning. apply exact_converts.
    - exact plain_words. }
  split.
  { unfold scalars69. repeat apply Forall_cons; try apply Forall_nil; (split; [apply N; discriminate|]); cbn; try exact I; try discriminate.
    split; [reflexivity|]. exists exact_meaning. apply exact_converts. }
  split.
  { left. intros id d H. unfold tokens69 in H. cbn [In] in H. repeat (destruct H as [H|H]; [try discriminate H; injection H as <- _; reflexivity|]). destruct H. }
  split.
  { unfold wf_tok. cbn [wf_gtokens tokens69]. unfold wf_id, lit_ok. doc_wf_tac; unfold scalar; cbn; lia. }
  split.
  { intros id d H. unfold tokens69 in H. cbn [In] in H. repeat (destruct H as [H|H]; [try discriminate H; injection H as _ <-; cbn; auto|]). destruct H. }
  split; [apply ascii_check; vm_compute; reflexivity|]. repeat split; vm_compute; reflexivity.
Qed.

(** ** Refutations *)
(** White space is read as a character, and counts as width. *)
Theorem C69_character_refuted : exists f s s', respaced s s'
  /\ scan1 (TChar KChar 0 NarrowCharacterType) f s = Ok ([(0, VLeaf (SVChar 32))], T "x")
  /\ scan1 (TChar KChar 0 NarrowCharacterType) f s' = Ok ([(0, VLeaf (SVChar 10))], T "x").
Proof. exists (T "{}"), (T " x"), (10 :: T "x"). repeat split; vm_compute; reflexivity. Qed.
Theorem C69_width_refuted : exists f s s', respaced s s'
  /\ scan1 (TInt i32 IntType) f s = Ok ([(0, VLeaf (SVInt 12))], T "3")
  /\ scan1 (TInt i32 IntType) f s' = Ok ([(0, VLeaf (SVInt 1))], T "23").
Proof. exists (T "{:.3}"), (T " 123"), (T "  123"). repeat split; vm_compute; reflexivity. Qed.
Print Assumptions C69_character_refuted.
Print Assumptions C69_width_refuted.
