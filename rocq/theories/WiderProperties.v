(** Property C65: a wider type reads the same. *)
From Verif Require Import Prelude UnicodeModel ReadModel SpecsModel FormatModel ArgsModel IntModel IntSpec
  ArgReaderModel ScalarModel StringModel FloatModel FloatInstance RangesModel VscanModel VscanProperties LocaleModel LocaleProperties
  WiderSpec WiderProofs.
Import Coq.Strings.String.StringSyntax.
Local Open Scope Z_scope.

Section C65.
Context {F : Type}.
Variables (rx : regex_engine) (cf : config).

(** What is scanned into some types, from any source with any format string and locale, is
    scanned into wider types as the same values, leaving the same characters.  Also within
    ranges and tuples. *)
Theorem C65_success : forall lost global l r (ts ts' : list (target F)) format source values rest,
  Forall2 (wider_target (s_enc r) lost) ts ts' ->
  scan_with rx cf global l r ts format source = Ok (values, rest) ->
  scan_with rx cf global l r ts' format source = Ok (values, rest).
Proof. intros lost global l r ts ts' format source values rest H. apply scan_success with lost (s_enc r); auto. Qed.
(** What fails for some types fails in the same way for wider ones, unless it is for what is
    lost with the narrower types. *)
Theorem C65_failure : forall lost global l r (ts ts' : list (target F)) format source e,
  Forall2 (wider_target (s_enc r) lost) ts ts' -> (length ts < 64)%nat ->
  scan_with rx cf global l r ts format source = Err e ->
  scan_with rx cf global l r ts' format source = Err e \/ error_of lost e.
Proof.
  intros lost global l r ts ts' format source e H HN HX.
  destruct (scan_near rx cf lost (s_enc r) global l r ts ts' format source eq_refl H HN) as [E|(x & E & HE)]; [left; congruence|right; congruence].
Qed.
(** Types of the same size and signedness, and string views where they can be, are
    interchangeable: values, errors and what is left are the same. *)
Theorem C65_same : forall global l r (ts ts' : list (target F)) format source,
  Forall2 (wider_target (s_enc r) (fun _ => False)) ts ts' -> (length ts < 64)%nat ->
  scan_with rx cf global l r ts format source = scan_with rx cf global l r ts' format source.
Proof.
  intros global l r ts ts' format source H HN.
  destruct (scan_near rx cf (fun _ => False) (s_enc r) global l r ts ts' format source eq_refl H HN) as [E|(x & _ & [[[] _]|[[[] _]|[[n []] _]]])]. exact E.
Qed.
(** Compile-time checking accepts every format string for the wider types that it accepts; the
    same format strings if no string view is replaced. *)
Theorem C65_checked : forall views contiguous borrowed custom_parse types types' format,
  Forall2 (wider_type views) types types' ->
  check_format_string cf contiguous borrowed types custom_parse format = Ok tt ->
  check_format_string cf contiguous borrowed types' custom_parse format = Ok tt.
Proof.
  intros views contiguous borrowed custom_parse types types' format H HX.
  destruct (check_near cf contiguous borrowed custom_parse views types types' H format) as [E|(x & E & _)]; congruence.
Qed.
Theorem C65_checked_same : forall contiguous borrowed custom_parse types types' format,
  Forall2 (wider_type False) types types' ->
  check_format_string cf contiguous borrowed types custom_parse format
  = check_format_string cf contiguous borrowed types' custom_parse format.
Proof.
  intros contiguous borrowed custom_parse types types' format H.
  destruct (check_near cf contiguous borrowed custom_parse False types types' H format) as [E|(x & _ & [] & _)]. exact E.
Qed.
End C65.
Print Assumptions C65_success.
Print Assumptions C65_failure.
Print Assumptions C65_same.
Print Assumptions C65_checked.
Print Assumptions C65_checked_same.

(** * Examples *)
(** Which of the integer types hold all values of which. *)
Lemma holds_more t t' : it_bits t < it_bits t' \/ it_bits t = it_bits t' /\ it_signed t = it_signed t' ->
  1 <= it_bits t -> it_signed t = false \/ it_signed t' = true -> holds_all t t'.
Proof.
  destruct t as [sg b], t' as [sg' b']; unfold holds_all, in_range; cbn [it_signed it_bits]. intros [HB|[<- <-]] H1 HS v; [|auto].
  assert (2 ^ (b - 1) <= 2 ^ (b' - 1)) by (apply Z.pow_le_mono_r; lia). assert (2 ^ b <= 2 ^ b') by (apply Z.pow_le_mono_r; lia).
  assert (2 ^ b <= 2 ^ (b' - 1)) by (apply Z.pow_le_mono_r; lia). assert (0 < 2 ^ b) by (apply Z.pow_pos_nonneg; lia).
  assert (0 < 2 ^ (b' - 1)) by (apply Z.pow_pos_nonneg; lia). destruct sg, sg'; destruct HS; try discriminate; lia.
Qed.

Section Examples.
Variable rx : regex_engine.
Let narrow_types : list (target Z) :=
  [TScalar (TInt u8 UCharType); TScalar (TString (DView U8 false) NarrowStringViewType);
   TShape (vector_of 100 (SLeaf (TInt i16 ShortType)))].
Let wide_types : list (target Z) :=
  [TScalar (TInt i64 LongType); TScalar (TString (DString U8) NarrowStringType);
   TShape (vector_of 100 (SLeaf (TInt i32 IntType)))].
Example C65_types : Forall2 (wider_target U8 (fun n => n = Overflows \/ n = RejectsMinus)) narrow_types wide_types.
Proof.
  constructor; [|constructor; [|constructor; [|constructor]]].
  - apply W_scalar, W_int; [constructor|constructor|apply holds_more; cbn; lia|auto|auto].
  - apply W_scalar, W_string; [constructor|]. intros [H|H]; congruence.
  - apply W_shape, W_seq, W_leaf, W_int; [constructor|constructor|apply holds_more; cbn; lia|auto|discriminate].
Qed.
(** 0xff word [-1, 32767] is read into all of them; 300 overflows, -1 is not unsigned. *)
Example C65_ex :
  scan_with rx narrow classic None string_src narrow_types (T "{:i} {} {}") (T "0xff word [-1, 32767] x")
    = Ok ([(0, VLeaf (SVInt 255)); (1, VLeaf (SVString (T "word"))); (2, VSeq [VLeaf (SVInt (-1)); VLeaf (SVInt 32767)])], T " x")
  /\ scan_with rx narrow classic None string_src wide_types (T "{:i} {} {}") (T "0xff word [-1, 32767] x")
    = Ok ([(0, VLeaf (SVInt 255)); (1, VLeaf (SVString (T "word"))); (2, VSeq [VLeaf (SVInt (-1)); VLeaf (SVInt 32767)])], T " x")
  /\ scan_with rx narrow classic None string_src narrow_types (T "{:i} {} {}") (T "0 word [-1, 32768]") = Err ValuePositiveOverflow
  /\ scan_with rx narrow classic None string_src wide_types (T "{:i} {} {}") (T "0 word [-1, 32768]")
    = Ok ([(0, VLeaf (SVInt 0)); (1, VLeaf (SVString (T "word"))); (2, VSeq [VLeaf (SVInt (-1)); VLeaf (SVInt 32768)])], [])
  (* invalid_format_string: the other arguments are not read *)
  /\ scan_with rx narrow classic None string_src narrow_types (T "{:i} {} {}") (T "-1 word [-1]") = Err InvalidFormatString.
Proof. repeat split; vm_compute; reflexivity. Qed.
Example C65_checked_ex :
  Forall2 (wider_type True) [UCharType; NarrowStringViewType] [LLongType; NarrowStringType]
  /\ check_format_string narrow true true [UCharType; NarrowStringViewType] (fun _ _ => UB) (T "{:x} {:s}") = Ok tt
  /\ check_format_string narrow true false [UCharType; NarrowStringViewType] (fun _ _ => UB) (T "{:x} {:s}") <> Ok tt
  /\ check_format_string narrow true false [LLongType; NarrowStringType] (fun _ _ => UB) (T "{:x} {:s}") = Ok tt.
Proof.
  split; [constructor; [eapply WT_int; constructor|constructor; [eapply WT_string; constructor|constructor]]|].
  repeat split; try (vm_compute; reflexivity). vm_compute. discriminate.
Qed.
End Examples.
