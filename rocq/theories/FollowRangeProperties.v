(** Properties C61 and C62, continued: ranges and tuples. *)
From Coq Require Import String.
From Verif Require Import Prelude UnicodeModel UnicodeSpec ReadModel ReadProofs SpecsModel FormatModel FormatProofs ArgsModel SpecsInvProofs
  IntModel ArgReaderModel WidthSpec ArgReaderProofs ScalarModel StringModel StringProofs FloatModel FloatSpec FloatProofs FloatInstance RangesModel RangesProofs VscanSpec VscanModel LocaleModel
  EncodingProofs EncodingLoopProofs EncodingReadProofs EncodingFloatProofs FollowSpec FollowProofs FollowIntProofs FollowFloatProofs FollowLoopProofs
  VscanProperties LocaleProperties EncodingProperties FollowProperties LockstepProofs EncodingRangeProperties FollowRangeProofs.
Import Coq.Strings.String.StringSyntax.
Local Open Scope string_scope.
Local Open Scope list_scope.
Local Open Scope Z_scope.

Section Wide.
Context {F : Type}.
Variables (rx : regex_engine) (cf : config) (global : locale) (l : locale_ref).
(** Arguments whose values end by themselves; ranges and tuples: of such elements, with a closing
    bracket.  Brackets and separators have one character at most, no white space.  (The elements
    are read with the global locale.) *)
Inductive ending_any : target F -> Prop :=
| ending_simple t : ending_target global l t -> ending_any t
| ending_shape sh : firm_shape (ending global None) sh -> close_of sh <> [] -> ending_any (TShape sh).
Hypothesis Hcf : c_enc cf = U32.
Hypothesis Hwide : c_regex cf = false \/ c_regex_wide cf = true.
Hypothesis Hsep : plain_sep (l_sep (get_locale global l)).
Hypothesis Hglobal : plain_sep (l_sep (get_locale global None)).

Definition fine_specs (sp : specs) : Prop := ascii_specs sp /\ parsed sp /\ (settled_engine rx \/ no_pattern sp).
Lemma fine_default : fine_specs specs_default.
Proof.
  split; [split; [exists 32; split; [unfold ascii; lia|reflexivity]|constructor]|]. split; [apply parsed_default|]. right. split; discriminate.
Qed.
Lemma element_wide sp s : s_enc (element_src wide_src sp s) = U32.
Proof. unfold element_src. cbn [wide_src s_contig]. cbv zeta. destruct (_ || _); reflexivity. Qed.
Lemma element_src_kept r sp s s' : kept s s' -> element_src r sp s = element_src r sp s'.
Proof. intros (x & c & y & y' & -> & -> & _). unfold element_src. destruct x; reflexivity. Qed.
Lemma element_settles (t : scalar_type F) sp s : ending global None t -> fine_specs sp -> Forall scalar s ->
  settles_by kept (element_scan rx (get_locale global None) wide_src t sp) s.
Proof.
  intros Ht (H1 & H2 & H3) HS v b E. unfold element_scan in *.
  destruct (specs_settled rx global None Hglobal (element_src wide_src sp s) t sp s (element_wide sp s) Ht H1 H2 H3 HS v b E) as (a & -> & H).
  exists a. split; [reflexivity|]. intros b' HK. rewrite <- (element_src_kept wide_src sp _ _ (kept_app a b b' HK)). apply H, kept_swap, HK.
Qed.
Lemma range_settles (sh : shape (scalar_type F)) sp s : firm_shape (ending global None) sh -> close_of sh <> [] -> fine_specs sp -> Forall scalar s ->
  settles (shape_scan rx global wide_src sh sp) s.
Proof.
  intros HF HC HS Hs. unfold shape_scan. apply (shape_settles (custom_src wide_src) eq_refl _ (ending global None) fine_specs fine_default); auto.
  intros. apply element_settles; assumption.
Qed.
Lemma any_settled may_end t : ending_any t -> settled_arg may_end (settled_engine rx) (target_arg rx cf global l wide_src t).
Proof.
  intros [t' Ht|sh Hsh Hc]; [apply target_settled; assumption|]. assert (FD := fine_default).
  constructor; cbn [target_arg ar_type ar_default ar_plain ar_specs ar_custom].
  - split; discriminate.
  - intros s Hs. apply range_settles; auto.
  - intros s Hs. apply range_settles; auto.
  - congruence.
  - intros _ f Hf.
    assert (HT : forall a, shape_type sh = Some a -> no_regex a).
    { clear -Hsh. induction sh as [t|n p sh IH|p es IH] using shape_all; cbn in *; intros a E; [injection E as <-; apply Hsh|apply IH; [apply Hsh|exact E]|discriminate E]. }
    unfold shape_parse. destruct (shape_type sh) as [a|]; [destruct f as [|c f]|].
    + cbn. exists []. split; [exact Hf|]. split; [reflexivity|]. intros s Hs. apply range_settles; auto.
    + assert (HA := okf_ascii _ _ _ Hf).
      destruct (specs_ascii (Config U8 (c_regex cf) (c_regex_wide cf) (c_regex_std cf) (c_regex_multiline cf)) cf a (c :: f)) as [_ HA2].
      { repeat split; auto. } { exact HA. }
      destruct (parse_format_specs_safe cf a (c :: f) (SS specs_default false) (HT a eq_refl)) as (p & st & EP & HSf). rewrite EP in *. cbn [bind fst snd].
      exists p. split; [eapply okf_suffix; eassumption|]. split; [reflexivity|]. intros s Hs. apply range_settles; auto.
      split; [exact HA2|]. split; [eapply parse_parsed, EP|].
      assert (HD : settled_engine rx \/ ~ In 47 (c :: f)); [|destruct HD as [HD|HD]; [left; exact HD|right; eapply parse_no_pattern; eassumption]].
      clear - Hf. induction Hf as [|d t (_ & _ & Hd) Ht IH]; [right; intros []|]. destruct Hd as [Hd|Hd]; [left; exact Hd|].
      destruct IH as [IH|IH]; [left; exact IH|right]. intros [HI|HI]; auto.
    + cbn. exists f. split; [exact Hf|]. split; [reflexivity|]. intros s Hs. apply range_settles; auto.
Qed.

(** As C61_partial and C62_partial, with ranges and tuples, of any depth, among the arguments. *)
Theorem C61_any_partial ts format cps vs b :
  Forall ending_any ts -> ascii_str format -> settled_engine rx \/ ~ In 47 format -> Forall scalar cps ->
  scan_with rx cf global l wide_src ts format cps = Ok (vs, b) ->
  exists a, cps = a ++ b /\
    forall b', swap b b' -> (b' = [] -> b = [] \/ Forall (fun c => is_ws c = false) format) ->
      scan_with rx cf global l wide_src ts format (a ++ b') = Ok (vs, b').
Proof.
  intros HT HF HR HS E.
  assert (HX : Forall (settled_arg (Forall (fun c => is_ws c = false) format) (settled_engine rx)) (map (target_arg rx cf global l wide_src) ts)).
  { clear -HT Hsep Hglobal Hcf Hwide. induction HT; constructor; auto. apply any_settled; assumption. }
  assert (HO : Forall (okc (Forall (fun c => is_ws c = false) format) (settled_engine rx)) format).
  { rewrite Forall_forall in HF |- *. intros c Hc. split; [apply HF, Hc|]. split.
    - intros H. rewrite Forall_forall in H. apply H, Hc.
    - destruct HR as [HR|HR]; [left; exact HR|right]. intros ->. auto. }
  destruct (vscan_follows wide_src cf eq_refl Hcf Hwide _ _ _ HX format cps HO HS vs b E) as (a & Ea & HA).
  exists a. split; [exact Ea|]. intros b' HB HE. apply HA. split; assumption.
Qed.
Theorem C62_any_partial ts format cps vs b :
  Forall ending_any ts -> ascii_str format -> Forall (fun c => is_ws c = false) format ->
  settled_engine rx \/ ~ In 47 format -> Forall scalar cps ->
  scan_with rx cf global l wide_src ts format cps = Ok (vs, b) ->
  exists a, cps = a ++ b /\ scan_with rx cf global l wide_src ts format a = Ok (vs, []).
Proof.
  intros HT HF HD HR HS E. destruct (C61_any_partial ts format cps vs _ HT HF HR HS E) as (a & Ea & HA). exists a. split; [exact Ea|].
  rewrite <- (app_nil_r a). apply HA; [apply swap_end|auto].
Qed.
End Wide.

Section Narrow.
Context {F : Type}.
Variables (rx8 rx32 : regex_engine) (cf8 cf32 : config) (global : locale) (l : locale_ref).
Hypothesis Hcf : same_config cf8 cf32.
Hypothesis Hrx : same_engine rx8 rx32.
Hypothesis Hloc : ascii_locale (get_locale global l).
Hypothesis Hglobal : ascii_locale (get_locale global None).
Hypothesis Hplain : plain_sep (l_sep (get_locale global l)).
Hypothesis Hplain0 : plain_sep (l_sep (get_locale global None)).
(** The same, of narrow strings. *)
Theorem C61_any_narrow_partial (ts8 ts32 : list (target F)) format cps vs rest :
  Forall2 (same_any global l) ts8 ts32 -> Forall (ending_any global l) ts32 ->
  ascii_str format -> settled_engine rx32 \/ ~ In 47 format -> good cps ->
  scan_with rx8 cf8 global l string_src ts8 format (text U8 cps) = Ok (vs, rest) ->
  exists a b, cps = a ++ b /\ rest = text U8 b /\
    forall b', good b' -> swap b b' -> (b' = [] -> b = [] \/ Forall (fun c => is_ws c = false) format) ->
      scan_with rx8 cf8 global l string_src ts8 format (text U8 (a ++ b')) = Ok (vs, text U8 b').
Proof.
  intros HT HE HF HR HG E. assert (T60 := C60_any_partial rx8 rx32 cf8 cf32 global l Hcf Hrx Hloc Hglobal ts8 ts32 format).
  rewrite (T60 cps HT HF HG) in E. apply CheckerProofs.bind_ok in E. destruct E as ([vs' b] & E & E2). injection E2 as <- <-.
  destruct Hcf as (_ & E32 & ER & _ & _ & EW).
  destruct (C61_any_partial rx32 cf32 global l E32 ltac:(destruct EW as [EW|EW]; [left; congruence|right; exact EW]) Hplain Hplain0 ts32 format cps vs' b HE HF HR (good_scalar _ HG) E) as (a & Ea & HA).
  exists a, b. split; [exact Ea|]. split; [reflexivity|]. intros b' Hb HB HE'.
  assert (HG' : good (a ++ b')). { rewrite Ea in HG. apply good_app in HG. apply Forall_app. split; [apply HG|exact Hb]. }
  rewrite (T60 (a ++ b') HT HF HG'), (HA b' HB HE'). reflexivity.
Qed.
End Narrow.
Print Assumptions C61_any_partial.
Print Assumptions C62_any_partial.
Print Assumptions C61_any_narrow_partial.

(** ** Example: a map from int to string and a vector of a pair of numbers *)
Definition map61 : target exact := TShape (map_of 9 (SLeaf (TInt i32 IntType)) (SLeaf (TString (DString U8) NarrowStringType))).
Definition vec61 : target exact := TShape (vector_of 9 (tuple_of [SLeaf (TInt i32 IntType); SLeaf (TFloat (exact_fp false) DoubleType)])).
Definition ints61 : target exact := TShape (set_of 9 (SLeaf (TInt i32 IntType))).
Definition values61r : list (Z * value (svalue exact)) :=
  [(0, VSeq [VTup [VLeaf (SVInt 1); VLeaf (SVString (T "a"))]; VTup [VLeaf (SVInt 2); VLeaf (SVString (T "bc"))]]);
   (1, VSeq [VTup [VLeaf (SVInt 3); VLeaf (SVFloat (Fraction false 15 10))]; VTup [VLeaf (SVInt 4); VLeaf (SVFloat (Fraction true 2 1))]]);
   (2, VSeq [VLeaf (SVInt 31)])].
Definition text61 : list Z := T " {1:a , 2 : bc },[(3, 1.5), ( 4,-2)]-{ 0x1f }".
Lemma firm_check s : forallb (fun c => negb (is_ws c)) s = true -> (List.length s <= 1)%nat -> firm s.
Proof. intros H HL. split; [|exact HL]. apply Forall_forall. intros c Hc. rewrite forallb_forall in H. specialize (H c Hc). destruct (is_ws c); [discriminate|reflexivity]. Qed.
Example C61_any_ex :
  wide_scan [map61; vec61; ints61] "{},{}-{:i}" (text61 ++ T "]-x and more") = Ok (values61r, T "]-x and more")
  /\ wide_scan [map61; vec61; ints61] "{},{}-{:i}" (text61 ++ T "]-x }") = Ok (values61r, T "]-x }")
  /\ wide_scan [map61; vec61; ints61] "{},{}-{:i}" text61 = Ok (values61r, [])
  /\ narrow_scan [map61; vec61; ints61] "{},{}-{:i}" (text61 ++ T "]-x and more") = Ok (values61r, T "]-x and more")
  /\ swap (T "]-x and more") (T "]-x }") /\ swap (T "]-x and more") []
  /\ Forall (ending_any classic None) [map61; vec61; ints61] /\ Forall2 (same_any classic None) [map61; vec61; ints61] [map61; vec61; ints61]
  /\ ascii_str (T "{},{}-{:i}") /\ ~ In 47 (T "{},{}-{:i}") /\ Forall (fun c => is_ws c = false) (T "{},{}-{:i}")
  /\ plain_sep (l_sep (get_locale classic None)) /\ ascii_locale (get_locale classic None) /\ good (text61 ++ T "]-x and more").
Proof.
  split; [vm_compute; reflexivity|]. split; [vm_compute; reflexivity|]. split; [vm_compute; reflexivity|]. split; [vm_compute; reflexivity|].
  split. { cbn. do 3 apply swap_same. apply swap_space; [reflexivity|]. repeat constructor; unfold scalar; lia. }
  split; [apply swap_end|].
  assert (N : forall a, a <> NarrowRegexMatchesType -> a <> WideRegexMatchesType -> no_regex a) by (intros a H1 H2; split; assumption).
  assert (PP : forall p, p = seq_punct \/ p = set_punct \/ p = pair_punct \/ p = tup_punct -> firm_punct p /\ punct_all ascii p).
  { intros p [-> |[-> |[-> | ->]]]; (split; (split; [|split])); try (apply firm_check; [reflexivity|cbn; lia]); apply ascii_check; reflexivity. }
  assert (IN : ending classic None (TInt (F:=exact) i32 IntType)) by (split; [apply N; discriminate|exact I]).
  assert (DB : ending classic None (TFloat (exact_fp false) DoubleType)).
  { split; [apply N; discriminate|]. split; [reflexivity|]. exists exact_meaning. apply exact_converts. }
  assert (WD : ending classic None (TString (F:=exact) (DString U8) NarrowStringType)) by (split; [apply N; discriminate|exact I]).
  assert (IP : portable classic None (TInt (F:=exact) i32 IntType)) by (split; [apply N; discriminate|exact I]).
  assert (DP : portable classic None (TFloat (exact_fp false) DoubleType)).
  { split; [apply N; discriminate|]. split; [reflexivity|]. exists exact_meaning. apply exact_converts. }
  assert (WP : portable classic None (TString (F:=exact) (DString U8) NarrowStringType)) by (split; [apply N; discriminate|discriminate]).
  split.
  { repeat apply Forall_cons; try apply Forall_nil; (apply ending_shape; [|discriminate]); (split; [apply PP; auto|]).
    - split; [apply PP; auto|]. split; [exact IN|]. split; [exact WD|exact I].
    - split; [apply PP; auto|]. split; [exact IN|]. split; [exact DB|exact I].
    - exact IN. }
  split.
  { repeat apply Forall2_cons; try apply Forall2_nil; apply same_shape; (split; [apply PP; auto|]).
    - split; [apply PP; auto|]. split; [exact IP|]. split; [exact WP|exact I].
    - split; [apply PP; auto|]. split; [exact IP|]. split; [exact DP|exact I].
    - exact IP. }
  split; [apply ascii_check; reflexivity|]. split; [cbn; intuition discriminate|]. split; [repeat constructor|]. split; [reflexivity|].
  split; [split; [|split; apply ascii_check; reflexivity]; unfold ascii; cbn; lia|]. apply good_check. reflexivity.
Qed.
