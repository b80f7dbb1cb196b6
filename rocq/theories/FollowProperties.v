(** Theorems about what follows the scanned values (C61, C62). *)
From Coq Require Import String.
From Verif Require Import Prelude UnicodeModel UnicodeSpec ReadModel ReadProofs SpecsModel FormatModel FormatProofs ArgsModel SpecsInvProofs
  IntModel ArgReaderModel WidthSpec ArgReaderProofs ScalarModel StringModel StringProofs FloatModel FloatSpec FloatProofs FloatInstance RangesModel VscanSpec VscanModel LocaleModel
  EncodingProofs EncodingLoopProofs EncodingReadProofs EncodingFloatProofs FollowSpec FollowProofs FollowIntProofs FollowFloatProofs FollowLoopProofs
  VscanProperties LocaleProperties EncodingProperties.
Import Coq.Strings.String.StringSyntax.
Local Open Scope string_scope.
Local Open Scope list_scope.
Local Open Scope Z_scope.

Section Wide.
Context {F : Type}.
Variables (rx : regex_engine) (cf : config) (global : locale) (l : locale_ref).
Notation loc := (get_locale global l).

(** Types whose values end by themselves.  Floating-point numbers: with the "C" number
    format, and routines converting correctly.  Names of booleans: without white space. *)
Definition ending (t : scalar_type F) : Prop :=
  no_regex (scalar_arg_type t) /\
  match t with
  | TInt _ _ | TPointer | TChar _ _ _ | TString _ _ => True
  | TBool => plain_name (l_true loc) /\ plain_name (l_false loc)
  | TFloat f _ => number_options loc = plain_seps /\ exists M, converts f M
  end.
Inductive ending_target : target F -> Prop :=
| ending_scalar t : ending t -> ending_target (TScalar t)
| ending_user parse scan :
    (forall f, exists g, f = g ++ parse f) -> (forall lo f s, Forall scalar s -> settles (scan lo f) s) ->
    ending_target (TUser parse scan).
Hypothesis Hcf : c_enc cf = U32.
Hypothesis Hwide : c_regex cf = false \/ c_regex_wide cf = true.
Hypothesis Hsep : plain_sep (l_sep loc).

Lemma zero_plain : plain_sep 0. Proof. reflexivity. Qed.
Lemma as_value_settles {A} (g : A -> svalue F) f s : settles f s -> settles (fun s => as_value g (f s)) s.
Proof. apply settles_map. Qed.
Lemma leaf_settles f s : settles f s -> settles (fun s => leaf_value (F:=F) (f s)) s.
Proof. apply settles_map. Qed.
Lemma default_settled r t cps : s_enc r = U32 -> ending t -> Forall scalar cps -> settles (scalar_default r t) cps.
Proof.
  intros E32 [_ Ht] HS. destruct t; cbn [scalar_default].
  - apply (as_value_settles SVInt), int_default_settles; auto.
  - apply (as_value_settles SVBool), bool_default_settles; auto.
  - apply (as_value_settles SVChar), char_default_settles; auto.
  - apply (as_value_settles SVPointer), pointer_default_settles; auto. apply zero_plain.
  - apply (as_value_settles SVString), string_default_settles; auto.
  - destruct Ht as [_ [M C]]. apply (as_value_settles SVFloat), (float_default_settles _ M C); auto.
Qed.
Lemma specs_settled r t sp cps : s_enc r = U32 -> ending t -> ascii_specs sp -> parsed sp -> settled_engine rx \/ no_pattern sp -> Forall scalar cps ->
  settles (scalar_specs rx r loc t sp) cps.
Proof.
  intros E32 [_ Ht] HA HP HR HS. destruct t; cbn [scalar_specs].
  - apply (as_value_settles SVInt), int_specs_settles; auto.
  - destruct Ht. apply (as_value_settles SVBool), bool_specs_settles; auto.
  - apply (as_value_settles SVChar), char_specs_settles; auto.
  - apply (as_value_settles SVPointer), pointer_specs_settles; auto.
  - apply (as_value_settles SVString), string_arg_settles; auto.
  - destruct Ht as [EL [M C]]. apply (as_value_settles SVFloat (arg_read_checked r (float_reader f (number_options loc)) sp)). rewrite EL.
    apply (float_specs_settles _ M C); auto.
Qed.
Lemma target_settled may_end t : ending_target t -> settled_arg may_end (settled_engine rx) (target_arg rx cf global l wide_src t).
Proof.
  intros [t' Ht|parse scan HP HS].
  - constructor; cbn [target_arg ar_type ar_default ar_plain ar_specs ar_custom].
    + apply Ht.
    + intros s Hs. apply leaf_settles, default_settled; auto.
    + intros s Hs. apply leaf_settles, default_settled; auto.
    + intros _ sp s HA HP HR Hs. apply leaf_settles, specs_settled; auto.
    + intros _ f Hf. exists f. split; [exact Hf|]. split; [reflexivity|]. intros s _ v b E. discriminate.
  - constructor; cbn [target_arg ar_type ar_default ar_plain ar_specs ar_custom].
    + split; discriminate.
    + intros s Hs. apply leaf_settles, as_value_settles, HS, Hs.
    + intros s Hs. apply leaf_settles, as_value_settles, HS, Hs.
    + congruence.
    + intros _ f Hf. exists (parse f). split; [eapply okf_suffix; [apply HP|exact Hf]|]. split; [reflexivity|].
      intros s Hs. apply leaf_settles, as_value_settles, HS, Hs.
Qed.

(** If a scan of a text succeeds, then the values come from the beginning [a] of the text, and
    the rest [b] can be replaced by [b']: cut off anywhere, or changed behind white space.  The
    values are the same and [b'] is what is left.  (If the format string has white space, some
    text must be left.)  Format strings with regular expressions: if the engine is like that. *)
Theorem C61_partial ts format cps vs b :
  Forall ending_target ts -> ascii_str format -> settled_engine rx \/ ~ In 47 format -> Forall scalar cps ->
  scan_with rx cf global l wide_src ts format cps = Ok (vs, b) ->
  exists a, cps = a ++ b /\
    forall b', swap b b' -> (b' = [] -> b = [] \/ Forall (fun c => is_ws c = false) format) ->
      scan_with rx cf global l wide_src ts format (a ++ b') = Ok (vs, b').
Proof.
  intros HT HF HR HS E.
  assert (HX : Forall (settled_arg (Forall (fun c => is_ws c = false) format) (settled_engine rx)) (map (target_arg rx cf global l wide_src) ts)).
  { clear -HT Hsep. induction HT; constructor; auto. apply target_settled; assumption. }
  assert (HO : Forall (okc (Forall (fun c => is_ws c = false) format) (settled_engine rx)) format).
  { rewrite Forall_forall in HF |- *. intros c Hc. split; [apply HF, Hc|]. split.
    - intros H. rewrite Forall_forall in H. apply H, Hc.
    - destruct HR as [HR|HR]; [left; exact HR|right]. intros ->. auto. }
  destruct (vscan_follows wide_src cf eq_refl Hcf Hwide _ _ _ HX format cps HO HS vs b E) as (a & Ea & HA).
  exists a. split; [exact Ea|]. intros b' HB HE. apply HA. split; assumption.
Qed.
(** Whatever comes after the next white space does not matter. *)
Theorem C61_append_partial ts format cps vs x w y :
  Forall ending_target ts -> ascii_str format -> settled_engine rx \/ ~ In 47 format -> Forall scalar cps -> is_ws w = true ->
  scan_with rx cf global l wide_src ts format cps = Ok (vs, x ++ w :: y) ->
  exists a, cps = a ++ x ++ w :: y /\
    forall y', Forall scalar y' -> scan_with rx cf global l wide_src ts format (a ++ x ++ w :: y') = Ok (vs, x ++ w :: y').
Proof.
  intros HT HF HR HS Hw E. destruct (C61_partial ts format cps vs _ HT HF HR HS E) as (a & Ea & HA). exists a. split; [exact Ea|].
  intros y' Hy. apply HA; [apply swap_app, swap_space; assumption|]. destruct x; discriminate.
Qed.
(** The text consumed, alone, gives the same values. *)
Theorem C62_partial ts format cps vs b :
  Forall ending_target ts -> ascii_str format -> Forall (fun c => is_ws c = false) format ->
  settled_engine rx \/ ~ In 47 format -> Forall scalar cps ->
  scan_with rx cf global l wide_src ts format cps = Ok (vs, b) ->
  exists a, cps = a ++ b /\ scan_with rx cf global l wide_src ts format a = Ok (vs, []).
Proof.
  intros HT HF HD HR HS E. destruct (C61_partial ts format cps vs _ HT HF HR HS E) as (a & Ea & HA). exists a. split; [exact Ea|].
  rewrite <- (app_nil_r a). apply HA; [apply swap_end|auto].
Qed.
End Wide.

Section Narrow.
Context {F : Type}.
Variables (rx8 rx32 : regex_engine) (cf8 cf32 : config) (global : locale) (l : locale_ref).
Notation loc := (get_locale global l).
Hypothesis Hcf : same_config cf8 cf32.
Hypothesis Hrx : same_engine rx8 rx32.
Hypothesis Hsep : ascii (l_sep loc).
Hypothesis Hplain : plain_sep (l_sep loc).
Hypothesis Hyes : ascii_str (l_true loc).
Hypothesis Hno : ascii_str (l_false loc).
(** The same, of narrow strings. *)
Theorem C61_narrow_partial (ts8 ts32 : list (target F)) format cps vs rest :
  Forall2 (same_target global l) ts8 ts32 -> Forall (ending_target global l) ts32 ->
  ascii_str format -> settled_engine rx32 \/ ~ In 47 format -> good cps ->
  scan_with rx8 cf8 global l string_src ts8 format (text U8 cps) = Ok (vs, rest) ->
  exists a b, cps = a ++ b /\ rest = text U8 b /\
    forall b', good b' -> swap b b' -> (b' = [] -> b = [] \/ Forall (fun c => is_ws c = false) format) ->
      scan_with rx8 cf8 global l string_src ts8 format (text U8 (a ++ b')) = Ok (vs, text U8 b').
Proof.
  intros HT HE HF HR HG E. assert (T60 := C60_partial rx8 rx32 cf8 cf32 global l Hcf Hrx Hsep Hyes Hno ts8 ts32 format).
  rewrite (T60 cps HT HF HG) in E. apply CheckerProofs.bind_ok in E. destruct E as ([vs' b] & E & E2). injection E2 as <- <-.
  destruct Hcf as (_ & E32 & ER & _ & _ & EW).
  destruct (C61_partial rx32 cf32 global l E32 ltac:(destruct EW as [EW|EW]; [left; congruence|right; exact EW]) Hplain ts32 format cps vs' b HE HF HR (good_scalar _ HG) E) as (a & Ea & HA).
  exists a, b. split; [exact Ea|]. split; [reflexivity|]. intros b' Hb HB HE'.
  assert (HG' : good (a ++ b')). { rewrite Ea in HG. apply good_app in HG. apply Forall_app. split; [apply HG|exact Hb]. }
  rewrite (T60 (a ++ b') HT HF HG'), (HA b' HB HE'). reflexivity.
Qed.
End Narrow.
Print Assumptions C61_partial.
Print Assumptions C61_append_partial.
Print Assumptions C61_narrow_partial.
Print Assumptions C62_partial.

(** ** Examples *)
Definition bool_t : target exact := TScalar TBool.
Definition kinds61 : list (target exact) := [i32_t; dbl; str32; bool_t].
Definition values61 : list (Z * value (svalue exact)) :=
  [(0, VLeaf (SVInt 31)); (1, VLeaf (SVFloat (Fraction false 150 1))); (2, VLeaf (SVString (T "ab"))); (3, VLeaf (SVBool true))].
Lemma plain_words : plain_name (T "true") /\ plain_name (T "false").
Proof. split; (split; [discriminate|]); split; repeat constructor; unfold ascii; lia. Qed.
Lemma ascii_check s : forallb (fun c => (0 <=? c) && (c <? 128)) s = true -> ascii_str s.
Proof. intros H. apply Forall_forall. intros c Hc. rewrite forallb_forall in H. specialize (H c Hc). unfold ascii. lia. Qed.
Lemma kinds61_end : Forall (ending_target classic None) kinds61.
Proof.
  assert (N : forall a, a <> NarrowRegexMatchesType -> a <> WideRegexMatchesType -> no_regex a) by (intros a H1 H2; split; assumption).
  unfold kinds61, i32_t, dbl, str32, bool_t. repeat apply Forall_cons; try apply Forall_nil; apply ending_scalar; (split; [apply N; discriminate|]); cbn; try exact I.
  - split; [reflexivity|]. exists exact_meaning. apply exact_converts.
  - exact plain_words.
Qed.
Example C61_ex :
  wide_scan kinds61 "{:i},{:>6}{:[a-z]};{}" (T "  0x1f,  1.5e2ab;true-ish and more") = Ok (values61, T "-ish and more")
  /\ wide_scan kinds61 "{:i},{:>6}{:[a-z]};{}" (T "  0x1f,  1.5e2ab;true-ish 0x") = Ok (values61, T "-ish 0x")
  /\ wide_scan kinds61 "{:i},{:>6}{:[a-z]};{}" (T "  0x1f,  1.5e2ab;true") = Ok (values61, [])
  /\ swap (T "-ish and more") (T "-ish 0x") /\ swap (T "-ish and more") []
  /\ Forall (ending_target classic None) kinds61 /\ ascii_str (T "{:i},{:>6}{:[a-z]};{}") /\ ~ In 47 (T "{:i},{:>6}{:[a-z]};{}")
  /\ Forall (fun c => is_ws c = false) (T "{:i},{:>6}{:[a-z]};{}") /\ plain_sep (l_sep (get_locale classic None))
  /\ good (T "  0x1f,  1.5e2ab;true-ish and more").
Proof.
  split; [vm_compute; reflexivity|]. split; [vm_compute; reflexivity|]. split; [vm_compute; reflexivity|].
  split. { cbn. do 4 apply swap_same. apply swap_space; [reflexivity|]. repeat constructor; unfold scalar; lia. }
  split; [apply swap_end|]. split; [exact kinds61_end|]. split; [apply ascii_check; reflexivity|]. split; [cbn; intuition discriminate|].
  split; [repeat constructor|]. split; [reflexivity|]. apply good_check. reflexivity.
Qed.
Example C61_narrow_ex :
  narrow_scan kinds61 "{:i},{:>6}{:[a-z]};{}" (T "  0x1f,  1.5e2ab;true-ish and more") = Ok (values61, T "-ish and more")
  /\ narrow_scan kinds61 "{:i},{:>6}{:[a-z]};{}" (T "  0x1f,  1.5e2ab;true-ish 0x") = Ok (values61, T "-ish 0x")
  /\ Forall2 (same_target classic None) kinds61 kinds61.
Proof.
  split; [vm_compute; reflexivity|]. split; [vm_compute; reflexivity|].
  assert (N : forall a, a <> NarrowRegexMatchesType -> a <> WideRegexMatchesType -> no_regex a) by (intros a H1 H2; split; assumption).
  repeat apply Forall2_cons; try apply Forall2_nil; apply same_scalar; (split; [apply N; discriminate|]); cbn; try exact I; try discriminate.
  split; [reflexivity|]. exists exact_meaning. apply exact_converts.
Qed.

(** ** Refutations *)
(** Text that follows without white space does matter, even if the next character stays: "x"
    after "0", "e" after a number. *)
Theorem C61_refuted : exists b b', hd 0 b = hd 0 b' /\ good b /\ good b'
  /\ wide_scan [i32_t] "{:x}" (T "0" ++ b) = Ok ([(0, VLeaf (SVInt 0))], b)
  /\ wide_scan [i32_t] "{:x}" (T "0" ++ b') = Ok ([(0, VLeaf (SVInt 1))], []).
Proof. exists (T "xg"), (T "x1"). split; [reflexivity|]. split; [apply good_check; reflexivity|]. split; [apply good_check; reflexivity|]. vm_compute. auto. Qed.
Theorem C61_float_refuted : exists b b', hd 0 b = hd 0 b' /\ good b /\ good b'
  /\ wide_scan [dbl] "{}" (T "1" ++ b) = Ok ([(0, VLeaf (SVFloat (Fraction false 1 1)))], b)
  /\ wide_scan [dbl] "{}" (T "1" ++ b') = Ok ([(0, VLeaf (SVFloat (Fraction false 100000 1)))], []).
Proof. exists (T "ex"), (T "e5"). split; [reflexivity|]. split; [apply good_check; reflexivity|]. split; [apply good_check; reflexivity|]. vm_compute. auto. Qed.
(** White space in the format string matches nothing, but not at the end of the text. *)
Theorem C62_refuted : exists a b, good (a ++ b)
  /\ wide_scan [i32_t] "{} " (a ++ b) = Ok ([(0, VLeaf (SVInt 42))], b) /\ wide_scan [i32_t] "{} " a = Err InvalidLiteral.
Proof. exists (T "42"), (T "x"). split; [apply good_check; reflexivity|]. vm_compute. auto. Qed.
Print Assumptions C61_refuted.
Print Assumptions C61_float_refuted.
Print Assumptions C62_refuted.
