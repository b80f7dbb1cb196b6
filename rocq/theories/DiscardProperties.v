(** Properties of discarded values: C59. *)
From Coq Require Import String.
From Verif Require Import Prelude UnicodeModel ReadModel ReadProofs SpecsModel WidthModel FormatModel FormatProofs ArgsModel
  SpecsInvProofs IntModel ArgReaderModel ScalarModel StringModel FloatModel RangesModel VscanModel VscanProperties
  LocaleModel LocaleSpec LocaleProofs LocaleProperties DiscardModel DiscardProofs.
Import Coq.Strings.String.StringSyntax.
Local Open Scope string_scope.
Local Open Scope list_scope.
Local Open Scope Z_scope.

Section C59.
Context {F : Type} (rx : regex_engine) (cf : config).
(** The same arguments, none of them discarded. *)
Definition undiscarded (its : list (item F)) : list (item F) :=
  map (fun it => match it with Keep t | Discard t => Keep t end) its.
(** What is stored, but for the values discarded. *)
Definition forgotten (its : list (item F)) (l : list (Z * option (svalue F))) : list (Z * option (svalue F)) :=
  map (fun '(i, v) => (i, match nth_error its (Z.to_nat i) with Some (Discard _) => None | _ => v end)) l.
(** discard<T> is for characters of the type of the source, integers, floats and strings. *)
Definition linkable (e : enc) (it : item F) : Prop :=
  match it with
  | Discard (TInt _ _) | Discard (TString _ _) | Discard (TFloat _ _) => True
  | Discard (TChar k old _) => (if enc_eqb e U8 then k = KChar else k = KWchar) /\ old = 0
  | Discard _ => False
  | Keep _ => True
  end.
Definition scalar_argument (it : item F) : Prop :=
  match it with Keep t | Discard t => ~ In (scalar_arg_type t) [NoneType; CustomType; NarrowRegexMatchesType; WideRegexMatchesType] end.
(** A field of digits and format-spec begins in the format string. *)
Definition spec_at (format f : list Z) : Prop :=
  exists a ds, format = a ++ 123 :: ds ++ 58 :: f /\ Forall (fun d => 48 <= d <= 57) ds.
(** No format-spec has a width without a precision. *)
Definition no_lone_width (its : list (item F)) (format : list Z) : Prop :=
  forall f t p sp, spec_at format f -> In (Discard t) its ->
  parse_format_specs cf (scalar_arg_type t) f (SS specs_default false) = Ok (p, SS sp false) -> width sp = 0 \/ precision sp <> 0.
(** Success, with the same characters read and nothing changed but the values discarded; or
    failure with the same error, except that invalid_literal may be invalid_format_string. *)
Definition as_if_kept (its : list (item F)) (x y : outcome (list (Z * option (svalue F)) * list Z)) : Prop :=
  match x with
  | Ok (l, rest) => y = Ok (forgotten its l, rest)
  | Err InvalidLiteral => y = Err InvalidLiteral \/ y = Err InvalidFormatString
  | Err e => y = Err e
  | UB => y = UB
  | OutOfFuel => y = OutOfFuel
  end.

Lemma items_ok e its : Forall (linkable e) its -> Forall scalar_argument its -> Forall (item_ok e) its.
Proof.
  intros H1 H2. induction H1 as [|it its H _ IH]; [constructor|]. inversion H2 as [|? ? Hs Hr]; subst. constructor; [|auto]. clear - H Hs.
  assert (HA : scalar_arg_type (item_scalar it) <> NoneType /\ scalar_arg_type (item_scalar it) <> CustomType /\ scalar_typed (item_scalar it)).
  { destruct it as [t|t]; cbn [scalar_argument item_scalar In] in *; unfold scalar_typed, no_regex; intuition congruence. }
  destruct HA as (HA & HB & HC). split; [exact HA|]. split; [exact HB|]. split; [exact HC|].
  destruct it as [t|t]; [discriminate|]. intros _. cbn [item_scalar].
  destruct t as [t a| |k old a| |d a|f a]; cbn [linkable discardable] in *; try tauto. destruct e; cbn [enc_eqb] in H; destruct H as [-> ->]; split; congruence.
Qed.
Lemma undiscarded_kept its : undiscarded its = map (@kept F) its.
Proof. apply map_ext. intros [t|t]; reflexivity. Qed.

(** scan with values discarded, of a format string that is accepted for the values: as if they
    were not.  Without a locale, or with one if no field has 'L'; from a source that is not
    contiguous, or with no width without a precision. *)
Theorem C59_discard_partial : forall global l r its format source contiguous borrowed,
  Forall (linkable (s_enc r)) its -> Forall scalar_argument its ->
  check_items cf contiguous borrowed (undiscarded its) format = Ok tt ->
  l = None \/ (units (c_enc cf) format /\ no_local_field (c_enc cf) format) ->
  s_contig r = false \/ no_lone_width its format ->
  as_if_kept its (scan_items rx cf global l r (undiscarded its) format source) (scan_items rx cf global l r its format source).
Proof.
  intros global l r its format source contiguous borrowed H1 H2 HC HL HW. rewrite undiscarded_kept in *.
  assert (H := items_vscan rx cf global l r its format (items_ok _ _ H1 H2)).
  assert (HR : follows_result (erase its) (scan_items rx cf global l r (map (@kept F) its) format source) (scan_items rx cf global l r its format source)).
  { apply H with contiguous borrowed; [|destruct HW as [HW|HW]|exact HC].
    - destruct HL as [->|HL]; [left; reflexivity|right; exact HL].
    - congruence.
    - intros _ f t p sp (a & ds & EF & Hds) Hin Hd EP. destruct t as [t|t]; [discriminate|]. apply (HW f t p sp); auto.
      exists a, ds. split; [exact EF|]. eapply Forall_impl; [|exact Hds]. unfold is_digit. lia. }
  unfold follows_result in HR. unfold as_if_kept.
  destruct (scan_items rx cf global l r (map (@kept F) its) format source) as [[lg rest]|[]| |]; auto.
  rewrite HR. f_equal. f_equal. unfold log_of, forgotten. apply map_ext. intros [i v]. unfold erase, keep_of.
  destruct (nth_error its (Z.to_nat i)) as [[t|t]|]; reflexivity.
Qed.
(** Compile-time checking accepts the same format strings, unless a field without format-spec
    is followed by '<', '>' or '^'; or string_view is discarded and could not be read. *)
Definition close_at (format f : list Z) : Prop :=
  exists a ds, format = a ++ 123 :: ds ++ 125 :: f /\ Forall (fun d => 48 <= d <= 57) ds.
Theorem C59_checked_partial : forall its format contiguous borrowed e,
  Forall (linkable e) its -> Forall scalar_argument its ->
  (forall c f, close_at format (c :: f) -> ~ In c [60; 62; 94]) ->
  contiguous && borrowed = true \/ Forall (fun it => match it with Discard t => is_view_type (scalar_arg_type t) = false | Keep _ => True end) its ->
  check_items cf contiguous borrowed its format = check_items cf contiguous borrowed (undiscarded its) format.
Proof.
  intros its format contiguous borrowed e H1 H2 HF HV. rewrite undiscarded_kept. apply check_two with e; [apply items_ok; assumption| |].
  - destruct HV as [HV|HV]; [left; exact HV|right]. eapply Forall_impl; [|exact HV]. intros [t|t]; cbn [is_discard item_scalar]; [discriminate|auto].
  - intros f (a & ds & E & Hds). destruct f as [|c f]; [exact I|]. assert (HN : ~ In c [60; 62; 94]).
    { apply (HF c f). exists a, ds. split; [exact E|]. eapply Forall_impl; [|exact Hds]. unfold is_digit. lia. }
    unfold check_align. cbn [In] in HN. repeat match goal with |- context[?x =? ?y] => destruct (Z.eqb_spec x y) as [->|_]; [tauto|] end. reflexivity.
Qed.
End C59.
Print Assumptions C59_discard_partial.
Print Assumptions C59_checked_partial.


(** * Examples *)
Fixpoint past_digits (s : list Z) : list Z :=
  match s with d :: t => if (48 <=? d) && (d <=? 57) then past_digits t else s | [] => [] end.
Fixpoint specs_in (format : list Z) : list (list Z) :=
  match format with
  | [] => []
  | c :: t => (if c =? 123 then match past_digits t with 58 :: f => [f] | _ => [] end else []) ++ specs_in t
  end.
Lemma past_digits_colon ds f : Forall (fun d => 48 <= d <= 57) ds -> past_digits (ds ++ 58 :: f) = 58 :: f.
Proof. induction 1 as [|d ds Hd _ IH]; [reflexivity|]. cbn [app past_digits]. replace ((48 <=? d) && (d <=? 57)) with true by lia. exact IH. Qed.
Lemma specs_in_all format f : spec_at format f -> In f (specs_in format).
Proof.
  intros (a & ds & -> & Hds). induction a as [|c a IH]; cbn [app specs_in]; apply in_or_app; [left|right; exact IH].
  rewrite past_digits_colon by exact Hds. left. reflexivity.
Qed.

Definition run59 (global : locale) (l : locale_ref) (r : src) (its : list (item nat)) (f s : list Z) :=
  scan_items no_rx narrow global l r its f s.
Definition str8 : scalar_type nat := TString (DString U8) NarrowStringType.
Definition view8 : scalar_type nat := TString (DView U8 false) NarrowStringViewType.
(** "{:x},{} {:.2s}": the int and the second string are discarded, from a string and from a
    source that is not contiguous. *)
Example C59_discard_ex :
  let its := [Discard int32; Keep str8; Discard str8] in
  let f := T "{:x},{} {:.2s}" in
  Forall (linkable U8) its /\ Forall scalar_argument its /\ check_items narrow true true (undiscarded its) f = Ok tt
  /\ no_lone_width narrow its f
  /\ run59 classic None string_src (undiscarded its) f (T " ff,ab cde")
     = Ok ([(0, Some (SVInt 255)); (1, Some (SVString (T "ab"))); (2, Some (SVString (T "cd")))], T "e")
  /\ run59 classic None string_src its f (T " ff,ab cde") = Ok ([(0, None); (1, Some (SVString (T "ab"))); (2, None)], T "e")
  /\ run59 classic None (Src U8 false (fun _ => 2%nat)) its f (T " ff,ab cde") = Ok ([(0, None); (1, Some (SVString (T "ab"))); (2, None)], T "e")
  /\ run59 classic None string_src its f (T " gg,ab cde") = run59 classic None string_src (undiscarded its) f (T " gg,ab cde").
Proof.
  cbv zeta. split; [repeat constructor|]. split; [repeat constructor; cbn; intuition discriminate|]. split; [vm_compute; reflexivity|].
  split; [|repeat split; vm_compute; reflexivity].
  intros f t p sp Hf Ht. apply specs_in_all in Hf. vm_compute in Hf. cbn [In] in Ht.
  destruct Ht as [Ht|[Ht|[Ht|[]]]]; inversion Ht; subst t; destruct Hf as [<-|[<-|[]]]; vm_compute; intros E; inversion E; auto; right; discriminate.
Qed.
(** With a locale, but no 'L'. *)
Example C59_locale_ex : no_local_field U8 (T "{:d};") /\ units U8 (T "{:d};")
  /\ run59 classic (Some finnish) string_src [Discard int32] (T "{:d};") (T "12;") = Ok ([(0, None)], []).
Proof.
  split; [|split; [|vm_compute; reflexivity]].
  - intros a ds c s E Hds. assert (H : spec_at (T "{:d};") (c :: s)) by (exists a, ds; auto). apply specs_in_all in H. vm_compute in H.
    destruct H as [H|[]]. injection H as <- <-. split; [exact I|]. cbn. intuition discriminate.
  - vm_compute. repeat constructor; discriminate.
Qed.
Example C59_checked_ex :
  let its := [Discard int32; Keep view8; Discard str8] in
  check_items narrow true true its (T "{} <{:.2}> {2:[a-z]}") = Err InvalidFormatString
  /\ check_items narrow true true its (T "{} <{:.2}> {:[a-z]}") = Ok tt
  /\ check_items narrow true true its (T "{} <{:.2}> {:d}") = Err InvalidFormatString
  /\ check_items narrow false false [Discard int32; Discard str8] (T "{:i}; {}") = Ok tt.
Proof. cbv zeta. repeat split; vm_compute; reflexivity. Qed.

(** "{}<" is accepted for int but not for discard<int>, though at run time it would be read. *)
Theorem C59_align_refuted : exists f t s,
  check_items narrow true true [Keep t] f = Ok tt
  /\ check_items narrow true true [Discard t] f = Err InvalidFormatString
  /\ run59 classic None string_src [Discard t] f s = Ok ([(0, None)], []).
Proof. exists (T "{}<"), int32, (T "5<"). repeat split; vm_compute; reflexivity. Qed.
Print Assumptions C59_align_refuted.
(** A literal that does not match before discard<int> with a format-spec: another error. *)
Theorem C59_literal_refuted : exists f t s,
  check_items narrow true true [Discard t] f = Ok tt
  /\ run59 classic None string_src [Keep t] f s = Err InvalidLiteral
  /\ run59 classic None string_src [Discard t] f s = Err InvalidFormatString.
Proof. exists (T "a{:d}"), int32, (T "b1"). repeat split; vm_compute; reflexivity. Qed.
Print Assumptions C59_literal_refuted.
(** The locale given is not used for the value discarded: less is read. *)
Theorem C59_locale_refuted : exists global loc f t s rest,
  rest <> []
  /\ run59 global (Some loc) string_src [Keep t] f s = Ok ([(0, Some (SVInt 1234))], [])
  /\ run59 global (Some loc) string_src [Discard t] f s = Ok ([(0, None)], rest).
Proof. exists classic, finnish, (T "{:L}"), int32, (T "1.234"), (T ".234"). split; [discriminate|]. repeat split; vm_compute; reflexivity. Qed.
Print Assumptions C59_locale_refuted.
(** With a width, a string is read as a source that is not contiguous: the byte 0x10, which is
    taken for '0' otherwise, is not. *)
Theorem C59_width_refuted : exists f t s,
  check_items narrow true true [Discard t] f = Ok tt
  /\ run59 classic None string_src [Keep t] f s = Ok ([(0, Some (SVInt 18))], [])
  /\ run59 classic None string_src [Discard t] f s = Err InvalidScannedValue.
Proof. exists (T "{:4i}"), int32, (16 :: T "x12"). repeat split; vm_compute; reflexivity. Qed.
Print Assumptions C59_width_refuted.
(** string_view cannot be read from a source that is not contiguous, and to try so is rejected
    at compile time; to discard one is not, and fails at run time. *)
Theorem C59_view_refuted : exists t f s,
  check_items narrow false true [Keep t] f = Err InvalidFormatString
  /\ check_items narrow false true [Discard t] f = Ok tt
  /\ run59 classic None (Src U8 false (fun _ => 2%nat)) [Discard t] f s = Err InvalidFormatString.
Proof. exists (TString (DView U8 true) NarrowStringViewType), (T "{}"), (T "abc"). repeat split; vm_compute; reflexivity. Qed.
Print Assumptions C59_view_refuted.
(** Mixed numbering in a runtime_format is an error only if a value is discarded. *)
Theorem C59_mixed_refuted : exists f its s,
  run59 classic None string_src (undiscarded its) f s = Ok ([(1, Some (SVInt 1)); (0, Some (SVInt 2))], [])
  /\ run59 classic None string_src its f s = Err InvalidFormatString.
Proof. exists (T "{1:d} {:d}"), [Discard int32; Keep int32], (T "1 2"). repeat split; vm_compute; reflexivity. Qed.
Print Assumptions C59_mixed_refuted.
