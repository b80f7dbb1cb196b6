(** Property C51: floats read with the separators of a locale. *)
From Coq Require Import String.
From Verif Require Import Prelude Tables UnicodeModel ReadModel SpecsModel FormatModel IntModel IntSpec ReadProofs.
From Verif Require Import ArgReaderModel VscanProperties FloatModel FloatSpec FloatProofs FloatInstance FloatProperties.
From Verif Require Import FloatLocaleSpec FloatLocaleProofs FloatTotal.
Import Coq.Strings.String.StringSyntax.
Local Open Scope string_scope.
Local Open Scope list_scope.
Local Open Scope Z_scope.

(** Numbers without and with an exponent *)
Definition plain_allowed (f : format) : bool := match f with Any | Fixed | General => true | _ => false end.
Definition exponent_allowed (f : format) : bool := match f with Any | Scientific | General => true | _ => false end.
(** The numbers of a format in a locale *)
Definition number_in (f : format) (loc : fseps) (t n : list Z) : Prop :=
  shows (plain_allowed f) (exponent_allowed f) (sep_point loc) (sep_thousands loc) t n.

Lemma specs_localized {V} (F : fp V) r loc sp f s : asks sp f -> localized sp = true ->
  float_read_specs F r loc sp s = float_read_impl F r (options f true) loc s.
Proof.
  unfold asks, float_read_specs, get_options. intros -> ->. destruct loc as [p th]. destruct f; reflexivity.
Qed.

Lemma not_plain p th : FSeps p th <> plain_seps -> is_plain (FSeps p th) = false.
Proof.
  intros Hq. unfold is_plain. cbn [sep_point sep_thousands]. destruct ((th =? 0) && (p =? 46)) eqn:E; [|reflexivity].
  exfalso. apply Hq. apply andb_prop in E. destruct E as [E1 E2]. apply Z.eqb_eq in E1. apply Z.eqb_eq in E2. subst. reflexivity.
Qed.

Lemma local_read {V} (F : fp V) (M : meaning V) r p th sp f neg sg t rest :
  converts F M -> asks sp f -> f <> Hex -> localized sp = true ->
  plausible p th -> is_plain (FSeps p th) = false -> signed neg sg ->
  longest (shown p th (plain_allowed f) (exponent_allowed f)) t rest ->
  (f = Any -> forall a b, t ++ rest = a ++ b -> ~ hex_prefix a) ->
  starts_with_digit 10 (squeezed p th t)
  /\ float_read_specs F r (FSeps p th) sp (sg ++ t ++ rest) = (v <- number_outcome M neg (squeezed p th t) ;; Ok (v, rest))
  \/ ~ starts_with_digit 10 (squeezed p th t)
  /\ float_read_specs F r (FSeps p th) sp (sg ++ t ++ rest) = Err InvalidScannedValue.
Proof.
  intros C Ha Hf Hl HP Hq Hs HL Hx. rewrite (specs_localized F r _ sp f _ Ha Hl).
  assert (Fst : exists c t', t = c :: t' /\ (is_digit 10 c \/ separator c)).
  { destruct (proj1 HL) as (m & x & -> & (w & [Hw Gw] & Hm) & _). destruct w as [|c w]; [congruence|].
    assert (Hc : is_digit 10 c \/ separator c).
    { inversion Gw as [|? ? H _]; subst. destruct H as [H|[H1 ->]]; [auto|]. destruct HP as (_ & [?|H] & _); [contradiction|auto]. }
    destruct Hm as [-> |(f0 & -> & _)]; eexists c, _; (split; [reflexivity|exact Hc]). }
  destruct Fst as (c & t' & Et & Hc).
  assert (Hc' : c <> 43 /\ c <> 45 /\ c <> 16 /\ ~ (65 <= c <= 90) /\ ~ (97 <= c <= 122)).
  { destruct Hc as [Hc|Hc]; [apply digit10_iff in Hc|unfold separator in Hc]; lia. }
  assert (Hne : sg ++ t ++ rest <> []) by (rewrite Et; destruct sg; discriminate).
  destruct (sign_split _ Hne) as (neg' & sg' & u' & sign & E & Hs' & Ep & Em & El & Hd).
  assert (Hn : unsigned (t ++ rest)) by (rewrite Et; cbn; lia).
  assert (sg' = sg /\ u' = t ++ rest /\ neg' = neg) as (-> & -> & ->).
  { remember (t ++ rest) as u eqn:Eu. clear - Hn Hs Hs' E El Hd.
    destruct Hs; destruct Hs'; cbn [app] in E; cbn [unsigned] in *; subst; cbn in *; auto;
      try (destruct sign; cbn in El; try discriminate; specialize (Hd eq_refl); cbn in Hd); try (injection E as ->); try discriminate; auto; lia. }
  assert (No : forall L : list Z -> Prop, (forall x, L x -> exists c x', x = c :: x' /\ (65 <= c <= 90 \/ 97 <= c <= 122)) -> ~ has L (t ++ rest)).
  { intros L H (x & y & E' & Hx'). apply H in Hx'. destruct Hx' as (c' & x' & -> & Hc2). rewrite Et in E'. cbn [app] in E'. injection E' as <- _. lia. }
  assert (LM := local_main F M C p th r f (sg ++ t ++ rest) neg sg (t ++ rest) sign HP Hq eq_refl Ep Em El Hf Hx).
  cbn zeta in LM. replace (o_fixed (options f true)) with (plain_allowed f) in LM by (destruct f; reflexivity).
  replace (o_scientific (options f true)) with (exponent_allowed f) in LM by (destruct f; reflexivity).
  destruct LM as [(t2 & rest2 & E2 & HL2 & R)|[N _]].
  - apply No. intros x H. apply infinite_first in H. destruct H as (c2 & x2 & -> & H). exists c2, x2. split; [reflexivity|lia].
  - apply No. intros x H. apply nan_first in H. destruct H as (c2 & x2 & -> & H). exists c2, x2. split; [reflexivity|lia].
  - rewrite Et. cbn. lia.
  - destruct (longest_unique _ _ _ _ _ _ eq_refl E2 HL HL2) as [<- <-]. exact R.
  - exfalso. apply N. exists t, rest. split; [reflexivity|exact (proj1 HL)].
Qed.

(** In locales whose thousands separator is not the point: if [t] is the longest prefix
    which shows a number [n] in the locale, the number is read and [t] is consumed.  (A
    text of separators without a digit in front is an error.)  The separators may be
    anywhere between the digits. *)
Theorem C51_partial {V} (F : fp V) (M : meaning V) r loc sp f neg sg t rest n :
  converts F M -> asks sp f -> f <> Hex -> localized sp = true ->
  plausible (sep_point loc) (sep_thousands loc) -> loc <> plain_seps -> sep_thousands loc <> 46 ->
  signed neg sg -> number_in f loc t n ->
  longest (fun t => exists n, number_in f loc t n) t rest ->
  (f = Any -> forall a b, t ++ rest = a ++ b -> ~ hex_prefix a) ->
  starts_with_digit 10 n
  /\ float_read_specs F r loc sp (sg ++ t ++ rest) = (v <- number_outcome M neg n ;; Ok (v, rest))
  \/ ~ starts_with_digit 10 n
  /\ float_read_specs F r loc sp (sg ++ t ++ rest) = Err InvalidScannedValue.
Proof.
  destruct loc as [p th]. unfold number_in. cbn [sep_point sep_thousands]. intros C Ha Hf Hl HP Hq H46 Hs Hn HL Hx.
  rewrite <- (shows_squeezed p th HP _ _ t n H46 Hn). apply (local_read F M r p th sp f neg sg t rest); auto.
  - now apply not_plain.
  - destruct HL as [H1 H2]. split; [now apply shown_iff|]. intros t' rest' E H. apply (H2 t' rest' E). now apply shown_iff.
Qed.

(** A text which starts like no number of the locale, and is no infinity or "nan", is
    refused. *)
Theorem C51_refuses {V} (F : fp V) (M : meaning V) r loc sp f neg sg u :
  converts F M -> asks sp f -> f <> Hex -> localized sp = true ->
  plausible (sep_point loc) (sep_thousands loc) -> loc <> plain_seps ->
  signed neg sg -> (sg = [] -> unsigned u) -> sg ++ u <> [] ->
  ~ has (fun t => exists n, number_in f loc t n) u -> ~ has infinite u -> ~ has not_a_number u -> (forall u', u <> 16 :: u') ->
  (f = Any -> ~ has hex_prefix u) ->
  float_read_specs F r loc sp (sg ++ u) = Err InvalidScannedValue.
Proof.
  destruct loc as [p th]. unfold number_in. cbn [sep_point sep_thousands].
  intros C Ha Hf Hl HP Hq Hs Hn Hne N Ni Nn N16 Hx. rewrite (specs_localized F r _ sp f _ Ha Hl).
  destruct (sign_split _ Hne) as (neg' & sg' & u' & sign & E & Hs' & Ep & Em & El & Hd).
  assert (sg' = sg /\ u' = u /\ neg' = neg) as (-> & -> & ->).
  { destruct Hs; destruct Hs'; cbn [app] in E; try specialize (Hn eq_refl); cbn [unsigned] in *; subst; cbn in *; auto;
      try (destruct sign; cbn in El; try discriminate; specialize (Hd eq_refl); cbn in Hd); try (injection E as ->); try discriminate; auto; lia. }
  assert (LM := local_main F M C p th r f (sg ++ u) neg sg u sign HP (not_plain p th Hq) eq_refl Ep Em El Hf).
  cbn zeta in LM. replace (o_fixed (options f true)) with (plain_allowed f) in LM by (destruct f; reflexivity).
  replace (o_scientific (options f true)) with (exponent_allowed f) in LM by (destruct f; reflexivity).
  destruct LM as [(t & rest & -> & [Ht _] & _)|[_ R]]; auto.
  - intros -> a b -> Ha'. apply (Hx eq_refl). exists a, b. auto.
  - destruct u as [|c u]; [exact I|]. intros ->. now apply (N16 u).
  - exfalso. apply N. exists t, rest. split; [reflexivity|]. now apply shown_iff in Ht.
Qed.

(** A locale with the usual separators changes nothing. *)
Theorem C51_plain {V} (F : fp V) r loc sp sp' s : type sp = type sp' -> localized sp = true -> localized sp' = false ->
  float_read_specs F r plain_seps sp s = float_read_specs F r loc sp' s.
Proof.
  unfold float_read_specs, get_options. intros <- -> ->. destruct (type sp) eqn:E; reflexivity.
Qed.

(** If the thousands separator is the point, as in German, the decimal point is dropped
    together with the separators: the digits before and after it are read as one whole
    number. *)
Theorem C51_point_lost {V} (F : fp V) (M : meaning V) r point sp f neg sg w fr x rest :
  converts F M -> asks sp f -> f <> Hex -> localized sp = true -> plausible point 46 ->
  signed neg sg -> grouped 46 w -> Forall (is_digit 10) fr ->
  plain_allowed f = true /\ x = [] \/ exponent_allowed f = true /\ exponent 101 x ->
  starts_with_digit 10 (without 46 w) ->
  longest (fun t => exists n, number_in f (FSeps point 46) t n) (w ++ point :: fr ++ x) rest ->
  (f = Any -> forall a b, (w ++ point :: fr ++ x) ++ rest = a ++ b -> ~ hex_prefix a) ->
  float_read_specs F r (FSeps point 46) sp (sg ++ (w ++ point :: fr ++ x) ++ rest)
  = (v <- number_outcome M neg (without 46 w ++ fr ++ x) ;; Ok (v, rest)).
Proof.
  intros C Ha Hf Hl HP Hs Hw Hfr Hxx Hd HL Hx.
  assert (E : squeezed point 46 (w ++ point :: fr ++ x) = without 46 w ++ fr ++ x) by (eapply shows_squeezed_lost; eauto).
  rewrite <- E. destruct (local_read F M r point 46 sp f neg sg (w ++ point :: fr ++ x) rest) as [[_ R]|[N _]]; auto.
  - destruct HL as [H1 H2]. split; [now apply shown_iff|]. intros t' rest' E' H. apply (H2 t' rest' E'). now apply shown_iff.
  - exfalso. apply N. rewrite E. destruct (without 46 w); [contradiction|exact Hd].
Qed.

(** With any separators and any presentation type of floats, nothing behind the text is
    read: the result is a number and a rest of the text, or an error. *)
Theorem C51_defined {V} (F : fp V) (M : meaning V) r loc sp s :
  converts F M -> check_float_type_specs sp = true -> units (s_enc r) s ->
  (exists v used rest, s = used ++ rest /\ float_read_specs F r loc sp s = Ok (v, rest))
  \/ exists e, float_read_specs F r loc sp s = Err e.
Proof.
  intros C Hc Hu. destruct (float_specs_ok F M C r loc sp Hc s Hu) as [(v & rest & E & used & Es)|H]; [left|right; exact H]. eauto.
Qed.

(** ** Examples *)

Definition german : fseps := FSeps 44 46.
Definition english : fseps := FSeps 46 44.
Definition french : fseps := FSeps 44 32.
Definition local_specs (t : ptype) : specs := set_localized (float_specs t).

(** "1.234,5" is read as 12345 *)
Theorem C51_refuted :
  (exists t n, number_in Any german t n
     /\ exact_value n = Fraction false 12345 10
     /\ float_read_specs (exact_fp false) string_src german (local_specs PNone) t = Ok (Fraction false 12345 1, [])).
Proof.
  exists (T "1.234,5"), (T "1234.5"). split; [|split; vm_compute; reflexivity].
  exists (T "1.234"), []. split; [|split].
  - split; [discriminate|]. cbn. repeat apply Forall_cons; try apply Forall_nil; try (right; split; [discriminate|reflexivity]); left; apply digit10_iff; lia.
  - right. exists (T "5"). split; [reflexivity|]. split; [reflexivity|]. constructor; [|constructor]. apply digit10_iff. cbn. lia.
  - left. auto.
Qed.

Example C51_example1 : plausible 46 44 /\ plausible 44 32 /\ plausible 44 46.
Proof. unfold plausible, separator. lia. Qed.
Example C51_example2 :
  float_read_specs (exact_fp false) string_src english (local_specs PNone) (T "-1,234,567.5e1x")
    = Ok (Fraction true 12345675 1, T "x")
  /\ float_read_specs (exact_fp true) slow_src french (local_specs PFloatFixed) (T "12 345,75")
    = Ok (Fraction false 1234575 100, [])
  /\ float_read_specs (exact_fp false) string_src english (local_specs PNone) (T "1,,2,e5")
    = Ok (Fraction false 1200000 1, [])
  /\ float_read_specs (exact_fp false) string_src english (local_specs PNone) (T ",.5") = Err InvalidScannedValue.
Proof. vm_compute. auto. Qed.
Example C51_refuses_example : float_read_specs (exact_fp false) string_src english (local_specs PNone) (T "-x1") = Err InvalidScannedValue
  /\ float_read_specs (exact_fp false) string_src english (local_specs PFloatScientific) (T "1,2.5") = Err InvalidScannedValue.
Proof. vm_compute. auto. Qed.
(** Digits and letters as separators *)
Example C51_defined_example :
  float_read_specs (exact_fp false) string_src (FSeps 101 49) (local_specs PNone) (T "1111") = Err InvalidScannedValue
  /\ float_read_specs (exact_fp false) slow_src (FSeps 46 120) (local_specs PFloatHex) (T "0x1x8.8p1z") = Ok (Fraction false 188 10, T "p1z").
Proof. vm_compute. auto. Qed.
Example C51_example3 : number_in Any english (T "1,234.5") (T "1234.5").
Proof.
  exists (T "1,234"), []. split; [|split].
  - split; [discriminate|]. cbn. repeat apply Forall_cons; try apply Forall_nil; try (right; split; [discriminate|reflexivity]); left; apply digit10_iff; lia.
  - right. exists (T "5"). split; [reflexivity|]. split; [reflexivity|]. constructor; [|constructor]. apply digit10_iff. cbn. lia.
  - left. auto.
Qed.

Print Assumptions C51_partial.
Print Assumptions C51_refuses.
Print Assumptions C51_plain.
Print Assumptions C51_point_lost.
Print Assumptions C51_refuted.
Print Assumptions C51_defined.
