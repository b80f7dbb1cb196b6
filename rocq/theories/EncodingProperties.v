(** Theorems about narrow and wide scanning (C60): the same text gives the same values. *)
From Coq Require Import String.
From Verif Require Import Prelude UnicodeModel UnicodeSpec ReadModel SpecsModel FormatModel FormatProofs ArgsModel SpecsInvProofs
  IntModel ArgReaderModel WidthSpec ArgReaderProofs ScalarModel StringModel FloatModel FloatSpec FloatProofs FloatInstance RangesModel VscanModel LocaleModel
  EncodingProofs EncodingLoopProofs EncodingReadProofs EncodingFloatProofs VscanProperties LocaleProperties.
Import Coq.Strings.String.StringSyntax.
Local Open Scope string_scope.
Local Open Scope list_scope.
Local Open Scope Z_scope.

Section Main.
Context {F : Type}.
Variables (rx8 rx32 : regex_engine) (cf8 cf32 : config) (global : locale) (l : locale_ref).
Notation loc := (get_locale global l).

(** Types read alike from both.  Floating-point numbers: with the "C" number format, and
    routines converting correctly. *)
Definition portable (t : scalar_type F) : Prop :=
  no_regex (scalar_arg_type t) /\
  match t with
  | TInt _ _ | TBool | TPointer => True
  | TChar k _ _ => k = KCodePoint
  | TString d _ => match d with DString to => to <> U16 | DView _ _ => False end
  | TFloat f _ => number_options loc = plain_seps /\ exists M, converts f M
  end.
Inductive same_target : target F -> target F -> Prop :=
| same_scalar t : portable t -> same_target (TScalar t) (TScalar t)
| same_user p8 s8 p32 s32 :
    (forall f, ascii_str f -> p8 f = p32 f /\ ascii_str (p32 f)) ->
    (forall lo f cps, ascii_str f -> good cps ->
       s8 lo f (text U8 cps) = ('(v, rest) <- s32 lo f cps ;; Ok (v, text U8 rest))
       /\ forall v rest, s32 lo f cps = Ok (v, rest) -> exists a, cps = a ++ rest) ->
    same_target (TUser p8 s8) (TUser p32 s32).
Hypothesis Hcf : same_config cf8 cf32.
Hypothesis Hrx : same_engine rx8 rx32.
Hypothesis Hsep : ascii (l_sep loc).
Hypothesis Hyes : ascii_str (l_true loc).
Hypothesis Hno : ascii_str (l_false loc).

Lemma strings_alike : alike string_src wide_src.
Proof. repeat split. Qed.
Lemma strings_whole : wholes string_src.
Proof. intros cps. apply contig_whole. reflexivity. Qed.
Lemma as_value_twin {A} (f : A -> svalue F) cps x y : twin cps x y -> twin cps (as_value f x) (as_value f y).
Proof. apply twin_map. Qed.
Lemma leaf_twin {X} cps (x y : outcome (X * list Z)) : twin cps x y -> twin cps ('(v, rest) <- x ;; Ok (VLeaf v, rest)) ('(v, rest) <- y ;; Ok (VLeaf v, rest)).
Proof. apply twin_map. Qed.
Lemma default_scalar_twin t cps : portable t -> good cps -> twin cps (scalar_default string_src t (text U8 cps)) (scalar_default wide_src t cps).
Proof.
  assert (HA := strings_alike). assert (HW := strings_whole). intros [_ Ht] HG. destruct t; cbn [scalar_default]; apply as_value_twin.
  - apply default_twin; auto. intros ds Hds. apply int_default_twin; auto.
  - apply bool_default_twin; auto.
  - subst k. apply default_twin; auto. intros ds Hds. apply char_twin; auto.
  - apply default_twin; auto. intros ds Hds. apply pointer_twin; auto. unfold ascii. lia.
  - destruct d; [|contradiction]. apply string_default_twin; auto.
  - destruct Ht as [_ [M C]]. apply (float_default_twin _ M C); auto.
Qed.
Lemma specs_scalar_twin t sp cps : portable t -> ascii_specs sp -> parsed sp -> good cps ->
  twin cps (scalar_specs rx8 string_src loc t sp (text U8 cps)) (scalar_specs rx32 wide_src loc t sp cps).
Proof.
  assert (HA := strings_alike). assert (HW := strings_whole). intros [_ Ht] HS HP HG. destruct t; cbn [scalar_specs]; apply as_value_twin.
  - apply checked_twin; auto. intros _ r r' ds HA' _ Hds. apply int_specs_twin; auto.
  - apply bool_specs_twin; auto.
  - subst k. apply checked_twin; auto. intros _ r r' ds HA' _ Hds. apply char_twin; auto.
  - apply checked_twin; auto. intros _ r r' ds HA' _ Hds. apply pointer_twin; auto.
  - destruct d; [|contradiction]. apply string_specs_twin; auto.
  - destruct Ht as [-> [M C]]. apply (float_specs_twin _ M C); auto.
Qed.
Lemma targets_twins t8 t32 : same_target t8 t32 ->
  twins good (target_arg rx8 cf8 global l string_src t8) (target_arg rx32 cf32 global l wide_src t32).
Proof.
  intros [t Ht|p8 s8 p32 s32 HP HS].
  - constructor; cbn [target_arg ar_type ar_default ar_plain ar_specs ar_custom].
    + reflexivity.
    + apply Ht.
    + intros. apply leaf_twin, default_scalar_twin; auto.
    + intros. apply leaf_twin, default_scalar_twin; auto.
    + intros. apply leaf_twin, specs_scalar_twin; auto.
    + intros _ f cps Hf _. split; [reflexivity|]. split; [exact Hf|apply twin_ub].
  - assert (G : forall lo f cps, ascii_str f -> good cps -> twin cps (leaf_value (as_value SVUser (s8 lo f (text U8 cps)))) (leaf_value (F:=F) (as_value SVUser (s32 lo f cps)))).
    { intros lo f cps Hf HG. apply leaf_twin, as_value_twin. exact (HS lo f cps Hf HG). }
    constructor; cbn [target_arg ar_type ar_default ar_plain ar_specs ar_custom].
    + reflexivity.
    + split; discriminate.
    + intros. apply G; auto.
    + intros. apply G; auto.
    + congruence.
    + intros _ f cps Hf HG. cbn [fst snd]. destruct (HP f Hf). split; [assumption|]. split; [assumption|]. apply G; auto.
Qed.

(** Scanning a text of scalar code points with an ASCII format string, valid or not: from its
    UTF-8 encoding as from its code points, the values, the error, and the text left are the
    same. *)
Theorem C60_partial ts8 ts32 format cps : Forall2 same_target ts8 ts32 -> ascii_str format -> good cps ->
  scan_with rx8 cf8 global l string_src ts8 format (text U8 cps)
  = ('(vs, rest) <- scan_with rx32 cf32 global l wide_src ts32 format cps ;; Ok (vs, text U8 rest)).
Proof.
  intros HT HF HG. unfold scan_with.
  apply (vscan_twin string_src wide_src cf8 cf32 eq_refl eq_refl Hcf good); auto.
  - intros ds Hds. split; [apply good_scalar, Hds|apply strings_whole].
  - intros a b H. apply good_app in H. apply H.
  - induction HT; constructor; auto. apply targets_twins. assumption.
Qed.
End Main.
Print Assumptions C60_partial.

(** ** Examples *)
Definition rest_engine : regex_engine := fun _ _ s => Ok [].
Definition narrow_scan (ts : list (target exact)) (format : string) (cps : list Z) :=
  scan_with rest_engine narrow classic None string_src ts (T format) (text U8 cps).
Definition wide_scan (ts : list (target exact)) (format : string) (cps : list Z) :=
  scan_with rest_engine wide classic None wide_src ts (T format) cps.
Definition str8 : target exact := TScalar (TString (DString U8) NarrowStringType).
Definition str32 : target exact := TScalar (TString (DString U32) WideStringType).
Definition i32_t : target exact := TScalar (TInt i32 IntType).
Definition dbl : target exact := TScalar (TFloat (exact_fp false) DoubleType).
Definition cp_t : target exact := TScalar (TChar KCodePoint 0 NarrowCharacterType).
Lemma rest_same : same_engine rest_engine rest_engine.
Proof. intros p fl cps _ _. cbn. split; [reflexivity|]. exists cps. symmetry. apply app_nil_r. Qed.
Definition is_good (c : Z) : bool :=
  (0 <=? c) && (c <=? 0x10ffff) && negb ((0xd800 <=? c) && (c <=? 0xdfff)) && negb (c =? 16).
Lemma good_check cps : forallb is_good cps = true -> good cps.
Proof.
  intros H. apply Forall_forall. intros c Hc. rewrite forallb_forall in H. specialize (H c Hc).
  unfold is_good in H. unfold scalar. lia.
Qed.
(** "{} {:i} {:*^8} {:c}: {:[a-z]}" on a text with letters of two, three and four bytes. *)
Definition text60 : list Z := [233; 0x20ac; 0x1f600] ++ T "  -0x2a " ++ T "**1.5***" ++ [0x2028; 233] ++ T ": ab" ++ [233] ++ T "cd".
Example C60_ex :
  wide_scan [str8; i32_t; dbl; cp_t; str32] "{} {:i} {:*^8} {:c}: {:[a-z]}" text60
    = Ok ([(0, VLeaf (SVString [195; 169; 226; 130; 172; 240; 159; 152; 128])); (1, VLeaf (SVInt (-42)));
           (2, VLeaf (SVFloat (Fraction false 15 10))); (3, VLeaf (SVChar 233)); (4, VLeaf (SVString (T "ab")))], 233 :: T "cd")
  /\ narrow_scan [str8; i32_t; dbl; cp_t; str32] "{} {:i} {:*^8} {:c}: {:[a-z]}" text60
    = Ok ([(0, VLeaf (SVString [195; 169; 226; 130; 172; 240; 159; 152; 128])); (1, VLeaf (SVInt (-42)));
           (2, VLeaf (SVFloat (Fraction false 15 10))); (3, VLeaf (SVChar 233)); (4, VLeaf (SVString (T "ab")))], [195; 169; 99; 100])
  /\ same_config narrow wide /\ same_engine rest_engine rest_engine
  /\ Forall2 (same_target classic None) [str8; i32_t; dbl; cp_t; str32] [str8; i32_t; dbl; cp_t; str32]
  /\ good text60.
Proof.
  split; [vm_compute; reflexivity|]. split; [vm_compute; reflexivity|]. split; [unfold same_config; cbn; auto 10|].
  split; [exact rest_same|]. split.
  - assert (N : forall a, a <> NarrowRegexMatchesType -> a <> WideRegexMatchesType -> no_regex a) by (intros a H1 H2; split; assumption).
    repeat apply Forall2_cons; try apply Forall2_nil; apply same_scalar; (split; [apply N; discriminate|]); cbn; try exact I; try discriminate.
    + split; [reflexivity|]. exists exact_meaning. apply exact_converts.
    + reflexivity.
  - apply good_check. reflexivity.
Qed.

(** ** Refutations *)
(** Byte 0x10 is taken for "0" at the beginning of a base prefix in a narrow string. *)
Theorem C60_refuted : exists cps, Forall scalar cps
  /\ narrow_scan [i32_t] "{:x}" cps = Ok ([(0, VLeaf (SVInt 42))], []) /\ wide_scan [i32_t] "{:x}" cps = Err InvalidScannedValue.
Proof. exists (16 :: T "x2a"). split; [constructor; [unfold scalar; lia|apply good_scalar, good_check; reflexivity]|]. vm_compute. auto. Qed.
(** A non-ASCII literal matches in a wide string only. *)
Theorem C60_literal_refuted : exists c cps, scalar c /\ good cps
  /\ scan_with rest_engine narrow classic None string_src [i32_t] (text U8 [c] ++ T "{}") (text U8 cps) = Err InvalidFormatString
  /\ scan_with rest_engine wide classic None wide_src [i32_t] (c :: T "{}") cps = Ok ([(0, VLeaf (SVInt 5))], []).
Proof.
  exists 233, [233; 53]. split; [unfold scalar; lia|]. split; [apply good_check; reflexivity|]. vm_compute. auto.
Qed.
(** A fill character above 255 is skipped in a narrow string only. *)
Theorem C60_fill_refuted : exists c cps, scalar c /\ good cps
  /\ scan_with rest_engine narrow classic None string_src [i32_t] (T "{:" ++ text U8 [c] ++ T ">4}") (text U8 cps) = Ok ([(0, VLeaf (SVInt 42))], [])
  /\ scan_with rest_engine wide classic None wide_src [i32_t] (T "{:" ++ [c] ++ T ">4}") cps = Err InvalidScannedValue.
Proof.
  exists 0x20ac, [0x20ac; 0x20ac; 52; 50]. split; [unfold scalar; lia|]. split; [apply good_check; reflexivity|]. vm_compute. auto.
Qed.
(** A [wchar_t] in a field without characters: undefined from a narrow string, an error from a
    wide one. *)
Definition wchar_t_ : target exact := TScalar (TChar KWchar 0 WideCharacterType).
Theorem C60_wchar_refuted : exists cps, good cps
  /\ narrow_scan [wchar_t_] "{:*>2}" cps = UB /\ wide_scan [wchar_t_] "{:*>2}" cps = Err EndOfInput.
Proof. exists (T "**"). split; [apply good_check; reflexivity|]. vm_compute. auto. Qed.
Print Assumptions C60_refuted.
Print Assumptions C60_literal_refuted.
Print Assumptions C60_fill_refuted.
Print Assumptions C60_wchar_refuted.
