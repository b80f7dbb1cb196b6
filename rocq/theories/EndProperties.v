(** Property C78: the end of the input is reported when only white space or fill is left. *)
From Coq Require Import String.
From Verif Require Import Prelude UnicodeModel UnicodeSpec ReadModel ReadProofs ArgReaderModel SpecsModel SpecsInvProofs ArgsModel FormatModel FormatSpec FormatSpecProofs
  VscanModel VscanSpec IntModel WidthModel ScalarModel StringModel RangesModel LocaleModel VscanProofs VscanSpecProofs FormatProofs StringSafeProofs WidthSpec WidthProofs ArgReaderProofs ArgReaderProperties
  FloatModel FloatInstance EncodingReadProofs VscanProperties ScalarProperties LocaleProperties DocTypesSpec DocTypesProofs DocTypesRun DocTypesProperties EndSpec EndProofs.
Import Coq.Strings.String.StringSyntax.
Local Open Scope list_scope.
Local Open Scope Z_scope.

Lemma leaf_end {F} (x : outcome (svalue F * list Z)) : leaf_value x = Err EndOfInput <-> x = Err EndOfInput.
Proof. unfold leaf_value. destruct x as [[a l]|e| |]; cbn [bind]; split; intros H; try discriminate; injection H as ->; reflexivity. Qed.

(** scan with "{}": the end of input is reported exactly if nothing but white space is left; for
    a character, exactly if nothing is left.  Any type of scalar; any text, in UTF-8 or UTF-32, in
    any pieces that do not split characters. *)
Theorem C78_partial : forall (F : Type) rx cf global l r (t : scalar_type F) cps,
  whole r cps -> Forall scalar cps ->
  scan_with rx cf global l r [TScalar t] (T "{}") (text (s_enc r) cps) = Err EndOfInput
  <-> match t with TChar _ _ _ => cps = [] | _ => Forall (fun c => is_ws c = true) cps end.
Proof.
  intros F rx cf global l r t cps Hr HS. rewrite <- (default_end r t cps Hr HS).
  unfold scan_with, vscan. change (is_simple (T "{}") && _) with true. cbv iota. unfold get_arg. cbn [map Z.to_nat nth_error scan_simple_single_argument target_arg ar_plain].
  unfold leaf_value. destruct (scalar_default r t (text (s_enc r) cps)) as [[v s]|e| |]; cbn [bind]; split; intros H; try discriminate; injection H as ->; reflexivity.
Qed.
Print Assumptions C78_partial.
(** "\t\n  " is not all white space; "\t\n 　" is. *)
Example C78_ex :
  let run t s := scan_with no_rx narrow classic None string_src [@TScalar exact t] (T "{}") (text U8 s) in
  whole string_src [9; 10; 32; 0x2028] /\ Forall scalar [9; 10; 32; 0x2028] /\ Forall (fun c => is_ws c = true) [9; 10; 32; 0x2028]
  /\ run (TInt i32 IntType) [9; 10; 32; 0x2028] = Err EndOfInput /\ run (TInt i32 IntType) [9; 10; 0xa0] = Err InvalidScannedValue
  /\ run (TFloat (exact_fp true) DoubleType) [] = Err EndOfInput /\ run TBool [32; 120] = Err InvalidScannedValue
  /\ run (TChar KChar 0 NarrowCharacterType) [] = Err EndOfInput /\ run (TChar KChar 0 NarrowCharacterType) [32] = Ok ([(0, VLeaf (SVChar 32))], []).
Proof.
  split; [apply contig_whole; reflexivity|]. split; [repeat constructor; unfold scalar; lia|]. split; [repeat constructor|]. repeat split; vm_compute; reflexivity.
Qed.

Section Specs.
Context {F : Type}.
Variable rx : regex_engine.
(** The regular expression engine has no such error. *)
Hypothesis HX : forall p fl s, rx p fl s <> Err EndOfInput.
Lemma mean_prec_nonneg e d : numerals d -> 0 <= precision (mean e d).
Proof. intros [_ H]. rewrite mean_precision. destruct (d_prec d) as [p|]; cbn [optv]; [apply number_nonneg, H; reflexivity|lia]. Qed.
Lemma whole_when r d cps : (said_precision d = None -> whole r cps) -> precision (mean (s_enc r) d) = 0 -> whole r cps.
Proof. intros H E. apply H. exact (said_no_precision _ _ E). Qed.
(** With a format-spec: if the end of input is reported, then in the columns the field may use
    there is only white space that the type skips, or with an alignment only the fill. *)
Theorem C78_spec_partial : forall r l (t : scalar_type F) d cps,
  (said_precision d = None -> whole r cps) -> numerals d -> fill_kept (s_enc r) d -> Forall scalar cps ->
  scalar_specs rx r l t (mean (s_enc r) d) (text (s_enc r) cps) = Err EndOfInput ->
  only_padding (said_align d) (said_fill d) (over_space t (mean (s_enc r) d)) (said_precision d) cps.
Proof using HX.
  intros r l t d cps Hr Hn Hf HS HE. rewrite <- (mean_align (s_enc r)), <- (said_prec_of (s_enc r)).
  eapply specs_end; [exact HX|apply mean_prec_nonneg, Hn| | |exact HS|exact HE].
  - intros _. rewrite mean_fill_eq. apply mean_fill_ok, Hf.
  - apply whole_when, Hr.
Qed.
(** Types that skip white space, without an alignment: exactly then. *)
Theorem C78_blank : forall r l (t : scalar_type F) d cps,
  (said_precision d = None -> whole r cps) -> numerals d -> Forall scalar cps ->
  said_align d = ANone -> over_space t (mean (s_enc r) d) = true -> spec_fits t (mean (s_enc r) d) = true ->
  scalar_specs rx r l t (mean (s_enc r) d) (text (s_enc r) cps) = Err EndOfInput
  <-> Forall (fun c => is_ws c = true) (limit (said_precision d) cps).
Proof using HX.
  intros r l t d cps Hr Hn HS Ha Ho Hc. rewrite <- (mean_align (s_enc r)) in Ha. rewrite <- (said_prec_of (s_enc r)). split.
  - intros HE. eapply (specs_end rx HX r l t _ 0) in HE; [|apply mean_prec_nonneg, Hn|congruence|apply whole_when, Hr|exact HS].
    rewrite Ha in HE. eapply Forall_impl; [|exact HE]. cbn. tauto.
  - intros HW. apply blank_end; try assumption; [apply mean_prec_nonneg, Hn|apply whole_when, Hr|].
    eapply Forall_impl; [|exact HW]. cbn. auto.
Qed.
(** Numbers with an alignment and without a precision: exactly if there is only fill in front; with
    alignment to the left, exactly if nothing is left. *)
Theorem C78_filled : forall r l (t : scalar_type F) d cps,
  whole r cps -> numerals d -> fill_kept (s_enc r) d -> Forall scalar cps -> parsed (mean (s_enc r) d) ->
  numeric t -> said_precision d = None -> said_align d <> ANone -> spec_fits t (mean (s_enc r) d) = true ->
  scalar_specs rx r l t (mean (s_enc r) d) (text (s_enc r) cps) = Err EndOfInput
  <-> match said_align d with ALeft => cps = [] | _ => Forall (fun c => c = said_fill d) cps end.
Proof using HX.
  intros r l t d cps Hr Hn Hf HS HP Ht Hq Ha Hc.
  assert (HO : only_padding (said_align d) (said_fill d) (over_space t (mean (s_enc r) d)) None cps
               <-> match said_align d with ALeft => cps = [] | _ => Forall (fun c => c = said_fill d) cps end).
  { unfold only_padding, padding. cbn [limit]. destruct (said_align d); try reflexivity; [congruence|].
    split; [|intros ->; constructor]. intros H. destruct H; [reflexivity|contradiction]. }
  rewrite <- HO. split.
  - rewrite <- Hq. apply C78_spec_partial; auto.
  - clear HO. intros HO. assert (HN := fun r' => number_nothing r' l t (mean (s_enc r) d) Ht Hc HP).
    assert (HA : align (mean (s_enc r) d) <> ANone) by (rewrite mean_align; exact Ha).
    assert (H0 : precision (mean (s_enc r) d) = 0).
    { assert (E := said_prec_of (s_enc r) d). rewrite Hq in E. unfold prec_of in E. destruct (Z.eqb_spec (precision (mean (s_enc r) d)) 0); [assumption|discriminate]. }
    assert (HF : fill_ok (s_enc r) (said_fill d) (fill (mean (s_enc r) d))) by (rewrite mean_fill_eq; apply mean_fill_ok, Hf).
    rewrite <- (mean_align (s_enc r)) in HO.
    destruct t as [t a| |k old a| |dst a|g a]; try contradiction; cbn [spec_fits] in Hc; cbn [scalar_specs]; rewrite as_end; unfold arg_read_checked;
      cbn [int_reader pointer_reader float_reader rd_check rd_skip rd_specs]; rewrite Hc; eapply arg_read_filled; try eassumption; try (intros; exact Hr).
Qed.
End Specs.
Print Assumptions C78_spec_partial.
Print Assumptions C78_blank.
Print Assumptions C78_filled.

(** Any format string with any number of fields: an end of input is reported by a field, where
    only white space or fill is left for it: never by the literal characters of the format string
    or by the format string itself.  [s]: what is left of the source there. *)
Lemma ascii_whole r s : Forall (fun c => 0 <= c < 128) s -> whole r s.
Proof.
  intros HA _ _ a b ->. apply Forall_app in HA. destruct HA as [_ HA]. generalize (s_seg r (length (text U8 b))). intros n. exists (firstn n b), (skipn n b).
  split; [symmetry; apply firstn_skipn|]. assert (HB := HA). rewrite <- (firstn_skipn n b) in HB. apply Forall_app in HB.
  rewrite !EncodingReadProofs.text_ascii; [reflexivity|apply HB|exact HA].
Qed.
Definition left_for {F} (cf : config) (format : list Z) (r : src) (t : scalar_type F) (cps : list Z) : Prop :=
  match t with TChar _ _ _ => cps = [] | _ => Forall (fun c => is_ws c = true) cps end
  \/ exists fmt fmt' sp, suffix fmt format /\ parse_format_specs cf (scalar_arg_type t) fmt (SS specs_default false) = Ok (fmt', SS sp false)
     /\ forall f, (align sp <> ANone -> fill_ok (s_enc r) f (fill sp)) -> only_padding (align sp) f (over_space t sp) (prec_of sp) cps.
Lemma named_no_regex {F} (t : scalar_type F) : named t -> no_regex (scalar_arg_type t).
Proof. intros [? a H| |? ? a H| |? a H|? a H]; cbn [scalar_arg_type]; split; try discriminate; intros ->; try destruct k; discriminate H. Qed.
Theorem C78_format_partial : forall (F : Type) rx cf global l r (sts : list (scalar_type F)) format source,
  c_enc cf = s_enc r -> s_enc r <> U16 -> engine_ok rx -> (forall p fl s, rx p fl s <> Err EndOfInput) ->
  Forall named sts -> Forall usual sts -> units (s_enc r) source ->
  scan_with rx cf global l r (map TScalar sts) format source = Err EndOfInput ->
  exists t s, In t sts /\ suffix s source
    /\ forall cps, s = text (s_enc r) cps -> whole r cps -> Forall scalar cps -> left_for cf format r t cps.
Proof.
  intros F rx cf global l r sts format source Hcf He Hrx HX Hna Hus Hu HE.
  apply vscan_end in HE; [|exact Hu| |].
  - destruct HE as (a & s & Ha & Hs & HE). rewrite map_map in Ha. apply in_map_iff in Ha. destruct Ha as (t & <- & Ht).
    exists t, s. split; [exact Ht|]. split; [exact Hs|]. intros cps -> Hr HS. unfold ended_at in HE. cbn [target_arg ar_default ar_specs ar_custom ar_type snd] in HE.
    destruct HE as [HE|[(fmt & fmt' & sp & HF & EP & HE)|(fmt & _ & HE)]]; [| |discriminate].
    + left. apply leaf_end in HE. apply default_end in HE; assumption.
    + right. exists fmt, fmt', sp. assert (HP := parse_parsed _ _ _ _ _ EP). cbn [ss_specs] in HP. split; [exact HF|]. split; [exact EP|].
      intros f Hf. apply leaf_end in HE. assert (H0 := p_prec _ HP). eapply specs_end; [exact HX|lia|exact Hf|intros; exact Hr|exact HS|exact HE].
  - rewrite !Forall_map. apply Forall_forall. intros t Ht. rewrite Forall_forall in Hna, Hus. split; [apply scalar_consumes; auto|]. split; [|apply named_no_regex; auto]. intros f s. split; [apply suffix_refl|]. intros v s' _. discriminate.
  - rewrite !Forall_map. apply Forall_forall. reflexivity.
Qed.
Print Assumptions C78_format_partial.
(** ASCII sources, in any pieces. *)
Theorem C78_format_ascii : forall (F : Type) rx cf global l r (sts : list (scalar_type F)) format source,
  c_enc cf = s_enc r -> s_enc r <> U16 -> engine_ok rx -> (forall p fl s, rx p fl s <> Err EndOfInput) ->
  Forall named sts -> Forall usual sts -> Forall (fun c => 0 <= c < 128) source ->
  scan_with rx cf global l r (map TScalar sts) format source = Err EndOfInput ->
  exists t before s, In t sts /\ source = before ++ s /\ left_for cf format r t s.
Proof.
  intros F rx cf global l r sts format source Hcf He Hrx HX Hna Hus HA HE.
  apply C78_format_partial in HE; try assumption.
  - destruct HE as (t & s & Ht & [b ->] & H). exists t, b, s. split; [exact Ht|]. split; [reflexivity|]. apply Forall_app in HA. destruct HA as [_ HA].
    apply H; [symmetry; apply EncodingReadProofs.text_ascii, HA|apply ascii_whole, HA|]. eapply Forall_impl; [|exact HA]. cbn. unfold scalar. lia.
  - destruct (s_enc r) eqn:E; [|congruence|exact I]. eapply Forall_impl; [|exact HA]. cbn. unfold is_byte. lia.
Qed.
Print Assumptions C78_format_ascii.

(** Cases: "{:.3d}", "{:*>d}", "{:<x}" and "{} {:*>x} {}". *)
Definition dspec al f p ty : desc := Desc f al None p false (Some (TyLetter ty)).
Definition run78 (ts : list (scalar_type exact)) (f s : list Z) := scan_with no_rx narrow classic None string_src (map TScalar ts) f s.
Definition int78 : scalar_type exact := TInt i32 IntType.
Lemma quiet_no_rx : forall p fl s, no_rx p fl s <> Err EndOfInput. Proof. intros p fl s. vm_compute. discriminate. Qed.
Example C78_spec_ex :
  let d := dspec None None (Some (T "3")) 100 in let e := dspec (Some ARight) (Some 42) None 100 in
  numerals d /\ numerals e /\ fill_kept U8 e /\ parsed (mean U8 e) /\ numeric int78 /\ over_space int78 (mean U8 d) = true
  /\ spec_fits int78 (mean U8 d) = true /\ spec_fits int78 (mean U8 e) = true /\ said_align d = ANone /\ said_precision e = None /\ said_align e = ARight
  /\ scalar_specs no_rx string_src classic int78 (mean U8 d) (T "  ") = Err EndOfInput
  /\ scalar_specs no_rx string_src classic int78 (mean U8 d) (T "  5") = Ok (SVInt 5, [])
  /\ scalar_specs no_rx string_src classic int78 (mean U8 e) (T "***") = Err EndOfInput
  /\ scalar_specs no_rx string_src classic int78 (mean U8 e) (T "** ") = Err InvalidScannedValue
  /\ scalar_specs no_rx string_src classic int78 (mean U8 e) (T "**7*") = Ok (SVInt 7, T "*").
Proof.
  cbv zeta. split; [split; intros w [= <-]; unfold numeral; cbn; repeat split; try lia; try discriminate; repeat constructor; lia|].
  split; [split; intros w; discriminate|]. split; [intros f [= <-]; unfold scalar; lia|].
  split; [refine (parse_parsed narrow IntType (T "*>d}") (T "}") (SS (mean U8 (dspec (Some ARight) (Some 42) None 100)) false) _); vm_compute; reflexivity|].
  split; [exact I|]. repeat split; vm_compute; reflexivity.
Qed.
Example C78_format_ex :
  engine_ok no_rx /\ (forall p fl s, no_rx p fl s <> Err EndOfInput) /\ Forall named [int78; int78] /\ Forall usual [int78; int78]
  /\ run78 [int78; int78] (T "{}, {:*>x}") (T " 1,  ***") = Err EndOfInput
  /\ run78 [int78; int78] (T "{}, {:*>x}") (T " 1,  **z") = Err InvalidScannedValue.
Proof.
  split; [intros ? ? ?; left; eexists; reflexivity|]. split; [exact quiet_no_rx|]. split; [repeat constructor; cbn; auto|]. split; [apply Forall_forall; intros t [<-|[<-|[]]]; cbn; unfold IntProofs.type_ok; cbn; auto 10|].
  split; vm_compute; reflexivity.
Qed.

(** What is not said.  A precision can end the field before the value, though the source goes on. *)
Theorem C78_precision_refuted : exists f s, run78 [int78] f s = Err EndOfInput /\ run78 [int78] (T "{}") s = Ok ([(0, VLeaf (SVInt 5))], []).
Proof. exists (T "{:.3}"), (T "   5"). split; vm_compute; reflexivity. Qed.
(** With an alignment, a bool has another error; a string is read as empty. *)
Theorem C78_aligned_refuted : exists d a,
  run78 [TBool] (T "{:>}") [] = Err InvalidScannedValue /\ run78 [TString d a] (T "{:>}") [] = Ok ([(0, VLeaf (SVString []))], [])
  /\ run78 [TBool] (T "{}") [] = Err EndOfInput /\ run78 [TString d a] (T "{}") [] = Err EndOfInput.
Proof. exists (DString U8), NarrowStringType. repeat split; vm_compute; reflexivity. Qed.
(** So has a set of characters; and literal characters, or white space, in front of the field. *)
Theorem C78_other_refuted : exists d a,
  run78 [TString d a] (T "{:[a-z]}") [] = Err InvalidScannedValue
  /\ run78 [int78] (T " {}") [] = Err InvalidLiteral /\ run78 [int78] (T ",{}") [] = Err InvalidLiteral.
Proof. exists (DString U8), NarrowStringType. repeat split; vm_compute; reflexivity. Qed.
Print Assumptions C78_precision_refuted.
Print Assumptions C78_aligned_refuted.
Print Assumptions C78_other_refuted.
