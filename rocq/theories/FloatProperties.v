(** Theorems about floating-point scanning (C32). *)
From Coq Require Import String.
From Verif Require Import Prelude Tables UnicodeModel ReadModel SpecsModel FormatModel IntModel IntSpec ReadProofs.
From Verif Require Import ArgReaderModel VscanProperties FloatModel FloatSpec FloatProofs FloatInstance.
Import Coq.Strings.String.StringSyntax.
Local Open Scope string_scope.
Local Open Scope list_scope.
Local Open Scope Z_scope.

(** The format asked for by format specs. *)
Definition asks (sp : specs) (f : format) : Prop :=
  type sp = match f with
            | Any => PNone
            | Hex => PFloatHex
            | Scientific => PFloatScientific
            | Fixed => PFloatFixed
            | General => PFloatGeneral
            end.
(** No sign at the front. *)
Definition unsigned (u : list Z) : Prop := match u with [] => True | c :: _ => c <> 43 /\ c <> 45 end.

Lemma specs_options {V} (F : fp V) r loc sp f s : asks sp f -> localized sp = false ->
  float_read_specs F r loc sp s = float_read_impl F r (options f false) plain_seps s.
Proof.
  unfold asks, float_read_specs, get_options. intros -> ->. destruct f; reflexivity.
Qed.

(** ** What is read *)

(** A text [sg ++ u], [sg] being the sign.  If [u] is readable, the longest prefix [t] of
    [u] in the grammar is read: the result is the number's, or its range error, and the
    rest remains.  Otherwise the error is "invalid scanned value". *)
Theorem C32_partial {V} (F : fp V) (M : meaning V) r loc sp f neg sg u :
  converts F M -> asks sp f -> localized sp = false ->
  units (s_enc r) (sg ++ u) -> signed neg sg -> (sg = [] -> unsigned u) -> sg ++ u <> [] ->
  (readable (s_contig r) f u
   /\ exists t rest out, u = t ++ rest /\ longest (grammar f) t rest /\ reads M f neg t out
      /\ float_read_specs F r loc sp (sg ++ u) = (v <- out ;; Ok (v, rest)))
  \/ (~ readable (s_contig r) f u
      /\ float_read_specs F r loc sp (sg ++ u) = Err InvalidScannedValue).
Proof.
  intros C Ha Hl Hu Hs Hn Hne. rewrite (specs_options F r loc sp f _ Ha Hl).
  destruct (sign_split _ Hne) as (neg' & sg' & u' & sign & E & Hs' & Ep & Em & El & Hd).
  assert (sg' = sg /\ u' = u /\ neg' = neg) as (-> & -> & ->).
  { destruct Hs; destruct Hs'; cbn [app] in E; try specialize (Hn eq_refl); cbn [unsigned] in *; subst; cbn in *; auto;
      try (destruct sign; cbn in El; try discriminate; specialize (Hd eq_refl); cbn in Hd); try (injection E as ->); try discriminate; auto; lia. }
  exact (float_main F M C r f false (sg ++ u) neg sg u sign Hu eq_refl Ep Em El).
Qed.

(** What follows a success: the value is that of the longest prefix in the grammar. *)
Theorem C32_consumed {V} (F : fp V) (M : meaning V) r loc sp f s v rest :
  converts F M -> asks sp f -> localized sp = false -> units (s_enc r) s ->
  float_read_specs F r loc sp s = Ok (v, rest) ->
  exists neg sg t, s = sg ++ t ++ rest /\ signed neg sg /\ longest (grammar f) t rest
    /\ reads M f neg t (Ok v).
Proof.
  intros C Ha Hl Hu E. rewrite (specs_options F r loc sp f _ Ha Hl) in E.
  destruct s as [|c s]; [discriminate E|].
  destruct (sign_split (c :: s) ltac:(discriminate)) as (neg & sg & u & sign & Es & Hs & Ep & Em & El & Hd).
  destruct (float_main F M C r f false _ neg sg u sign Hu Es Ep Em El) as [(_ & t & rest' & out & -> & HL & HR & E')|[_ E']];
    rewrite E' in E; [|discriminate].
  destruct out as [v'|e| |]; try discriminate. injection E as -> ->. exists neg, sg, t. rewrite Es. auto.
Qed.

(** Every error: nothing to read, nothing readable, or a number out of range, the error
    telling its sign. *)
Theorem C32_errors {V} (F : fp V) (M : meaning V) r loc sp f s e :
  converts F M -> asks sp f -> localized sp = false -> units (s_enc r) s ->
  float_read_specs F r loc sp s = Err e ->
  s = [] /\ e = EndOfInput
  \/ exists neg sg u, s = sg ++ u /\ signed neg sg
     /\ (~ readable (s_contig r) f u /\ e = InvalidScannedValue
         \/ exists t rest, u = t ++ rest /\ longest (grammar f) t rest /\ reads M f neg t (Err e)
            /\ In e (if neg then [ValueNegativeOverflow; ValueNegativeUnderflow]
                     else [ValuePositiveOverflow; ValuePositiveUnderflow])).
Proof.
  intros C Ha Hl Hu E. rewrite (specs_options F r loc sp f _ Ha Hl) in E.
  destruct s as [|c s]; [left; injection E as <-; auto|]. right.
  destruct (sign_split (c :: s) ltac:(discriminate)) as (neg & sg & u & sign & Es & Hs & Ep & Em & El & Hd).
  exists neg, sg, u. split; [exact Es|]. split; [exact Hs|].
  destruct (float_main F M C r f false _ neg sg u sign Hu Es Ep Em El) as [(_ & t & rest' & out & -> & HL & HR & E')|[N E']];
    rewrite E' in E; [right|left; injection E as <-; auto].
  exists t, rest'. destruct out as [v'|e'| |]; try discriminate. injection E as ->. do 3 (split; [auto|]).
  assert (A : forall t, number_outcome M neg t = Err e -> In e (if neg then [ValueNegativeOverflow; ValueNegativeUnderflow] else [ValuePositiveOverflow; ValuePositiveUnderflow])).
  { intros t0. unfold number_outcome. destruct (mg_underflow M t0), (mg_overflow M t0), neg; intros [= <-]; cbn; auto. }
  remember (Err e) as out eqn:Eo. destruct HR; try discriminate; eapply A; eauto.
Qed.

(** Reading never has undefined behaviour. *)
Theorem C32_defined {V} (F : fp V) (M : meaning V) r loc sp f s :
  converts F M -> asks sp f -> localized sp = false -> units (s_enc r) s ->
  (exists v rest, float_read_specs F r loc sp s = Ok (v, rest)) \/ exists e, float_read_specs F r loc sp s = Err e.
Proof.
  intros C Ha Hl Hu. rewrite (specs_options F r loc sp f _ Ha Hl).
  destruct s as [|c s]; [right; eexists; reflexivity|].
  destruct (sign_split (c :: s) ltac:(discriminate)) as (neg & sg & u & sign & Es & Hs & Ep & Em & El & Hd).
  destruct (float_main F M C r f false _ neg sg u sign Hu Es Ep Em El) as [(_ & t & rest' & out & _ & _ & HR & ->)|[_ ->]]; [|eauto].
  assert (A : forall t, (exists v, number_outcome M neg t = Ok v) \/ exists e, number_outcome M neg t = Err e).
  { intros t0. unfold number_outcome. destruct (mg_underflow M t0), (mg_overflow M t0), neg; eauto. }
  destruct HR as [| |_ _|p h|fx sc]; cbn [bind]; eauto.
  - destruct (A (48 :: 120 :: t)) as [(v & ->)|(e & ->)]; cbn [bind]; eauto.
  - destruct (A t) as [(v & ->)|(e & ->)]; cbn [bind]; eauto.
  - destruct (A t) as [(v & ->)|(e & ->)]; cbn [bind]; eauto.
Qed.

(** The outcome is a function of the text. *)
Theorem C32_unique {V} (M : meaning V) f neg t o1 o2 : reads M f neg t o1 -> reads M f neg t o2 -> o1 = o2.
Proof.
  assert (I : infinite t -> ~ not_a_number t /\ ~ number f t /\ ~ (exists fx sc, decimal fx sc t)).
  { intros H. apply infinite_first in H. destruct H as (c & t' & -> & Hc). repeat split.
    - intros H. apply nan_first in H. destruct H as (c' & ? & [= <- _] & H). lia.
    - intros H. apply number_first in H. destruct H as (c' & ? & [= <- _] & H). rewrite digit16_iff in H. lia.
    - intros (fx & sc & H). apply decimal_first in H. destruct H as (c' & ? & [= <- _] & H). rewrite digit10_iff in H. lia. }
  assert (N : not_a_number t -> ~ number f t /\ ~ (exists fx sc, decimal fx sc t)).
  { intros H. apply nan_first in H. destruct H as (c & t' & -> & Hc). repeat split.
    - intros H. apply number_first in H. destruct H as (c' & ? & [= <- _] & H). rewrite digit16_iff in H. lia.
    - intros (fx & sc & H). apply decimal_first in H. destruct H as (c' & ? & [= <- _] & H). rewrite digit10_iff in H. lia. }
  assert (P : forall p h, t = p ++ h -> hex_prefix p -> ~ hexadecimal t).
  { intros p h -> Hp H. apply hex_prefix_iff in Hp. destruct Hp as (x & -> & Hx). cbn [app] in H.
    assert (E := hexadecimal_zero x h _ [] Hx H ltac:(now rewrite app_nil_r)). discriminate. }
  assert (Hx : f = Hex -> hexadecimal t -> number f t) by (intros -> H; left; exact H).
  assert (Px : forall p h, f = Hex \/ f = Any -> t = p ++ h -> hex_prefix p -> hexadecimal h -> number f t).
  { intros p h [-> | ->] E H1 H2; right; exists p, h; auto. }
  intros R1 R2. destruct R1 as [H1|H1|E1 H1|p1 h1 E1 T1 P1 H1|fx1 sc1 E1 H1];
    destruct R2 as [H2|H2|E2 H2|p2 h2 E2 T2 P2 H2|fx2 sc2 E2 H2]; try reflexivity; try contradiction;
    try (exfalso; now apply (proj1 (I H1))); try (exfalso; now apply (proj1 (I H2)));
    try (exfalso; apply (proj1 (proj2 (I H1))); now eauto); try (exfalso; apply (proj1 (proj2 (I H2))); now eauto);
    try (exfalso; apply (proj2 (proj2 (I H1))); now eauto); try (exfalso; apply (proj2 (proj2 (I H2))); now eauto);
    try (exfalso; apply (proj1 (N H1)); now eauto); try (exfalso; apply (proj1 (N H2)); now eauto);
    try (exfalso; apply (proj2 (N H1)); now eauto); try (exfalso; apply (proj2 (N H2)); now eauto);
    try (exfalso; now apply (P _ _ T1 P1)); try (exfalso; now apply (P _ _ T2 P2)).
Qed.

(** A whole text of the grammar which starts with a decimal digit, or is an infinity or a
    NaN, is read to its end from a string. *)
Theorem C32_accepts {V} (F : fp V) (M : meaning V) loc sp f neg sg t :
  converts F M -> asks sp f -> localized sp = false ->
  bytes (sg ++ t) -> signed neg sg -> grammar f t ->
  starts_with_digit 10 t \/ infinite t \/ not_a_number t ->
  exists out, reads M f neg t out
    /\ float_read_specs F string_src loc sp (sg ++ t) = (v <- out ;; Ok (v, [])).
Proof.
  intros C Ha Hl Hu Hs Hg Hf.
  assert (Hc : unsigned t /\ sg ++ t <> []).
  { destruct Hf as [H|[H|H]].
    - destruct t as [|c t]; [contradiction|]. cbn in H. apply digit10_iff in H. split; [cbn; lia|destruct sg; discriminate].
    - apply infinite_first in H. destruct H as (c & t' & -> & H). split; [cbn; lia|destruct sg; discriminate].
    - apply nan_first in H. destruct H as (c & t' & -> & H). split; [cbn; lia|destruct sg; discriminate]. }
  destruct Hc as [Hc Hne].
  destruct (C32_partial F M string_src loc sp f neg sg t C Ha Hl Hu Hs (fun _ => Hc) Hne) as [(_ & t' & rest & out & E & HL & HR & ->)|[N _]].
  - assert (t' = t) as -> by (eapply longest_all; [exact Hg|exact E|exact HL]).
    assert (rest = []) as ->. { apply (f_equal (@length Z)) in E. rewrite app_length in E. destruct rest; [reflexivity|cbn in E; lia]. }
    exists out. auto.
  - exfalso. apply N. destruct Hf as [H|[H|H]].
    + right. right. split; [exact H|]. split; [exists t, []; rewrite app_nil_r; auto|]. discriminate.
    + left. exists t, []. rewrite app_nil_r. auto.
    + right. left. split; [exists t, []; rewrite app_nil_r; auto|]. intros (n & p & rest & E & Hn & Hp & Hr).
      assert (Ln := any_case_len _ _ Hn). destruct H as [H|(n' & p' & E' & Hn' & Hp')].
      * assert (L := any_case_len _ _ H). rewrite E, app_length in L. cbn in *. lia.
      * assert (Ln' := any_case_len _ _ Hn'). rewrite E in E'. apply app_same in E'; [|lia]. destruct E' as [_ E']. injection E' as E'.
        assert (Ep : p = p' /\ rest = [41]).
        { apply (run_unique payload_char p rest p' [41] E' Hp); auto.
          - destruct rest; [auto|tauto].
          - unfold payload_char. lia. }
        destruct Ep as [_ ->]. cbn in Hr. tauto.
Qed.

(** The default reader, behind white space, reads the same as with empty specs. *)
Theorem C32_default {V} (F : fp V) r loc sp s : type sp = PNone -> localized sp = false ->
  float_read_default F r s = float_read_specs F r loc sp s.
Proof. unfold float_read_specs, get_options, used_seps. intros -> ->. reflexivity. Qed.

(** ** Examples *)

Definition float_specs (t : ptype) : specs := set_type t specs_default.
(** A source whose units come one at a time. *)
Definition slow_src : src := Src U8 false (fun _ => 1%nat).

(** The theorems are about something: both conversions of [FloatInstance] fulfil the
    contract. *)
Example C32_contract : converts (exact_fp false) exact_meaning /\ converts (exact_fp true) exact_meaning.
Proof. split; apply exact_converts. Qed.

Definition show (long : bool) (r : src) (t : ptype) (s : string) :=
  match float_read_specs (exact_fp long) r plain_seps (float_specs t) (T s) with
  | Ok (v, rest) => Ok (v, rest)
  | Err e => Err e
  | x => x
  end.
Example C32_example1 :
  show false string_src PNone "-12.5e+x" = Ok (Fraction true 125 10, T "e+x")
  /\ show true slow_src PNone "-12.5e+x" = Ok (Fraction true 125 10, T "e+x")
  /\ show false string_src PNone "0x1.8p3z" = Ok (Fraction false 24 2, T "z").
Proof. vm_compute. auto 10. Qed.
Example C32_example2 :
  show false string_src PFloatFixed "1.5e3" = Ok (Fraction false 15 10, T "e3")
  /\ show false string_src PFloatScientific "1.5" = Err InvalidScannedValue
  /\ show false string_src PFloatScientific "1.5e3 " = Ok (Fraction false 1500 1, T " ")
  /\ show false string_src PFloatGeneral "0x10" = Ok (Fraction false 0 1, T "x10").
Proof. vm_compute. auto. Qed.
Example C32_example3 :
  show false string_src PNone "-INFinityx" = Ok (Infinity true, T "x")
  /\ show false string_src PNone "infinitx" = Ok (Infinity false, T "initx")
  /\ show false string_src PFloatHex "nan(0_a)b" = Ok (NaN false, T "b").
Proof. vm_compute. auto. Qed.
Example C32_example4 :
  show false string_src PNone "-1e999" = Err ValueNegativeOverflow
  /\ show true string_src PNone "1e999" = Err ValuePositiveOverflow
  /\ show false slow_src PNone "-1e-999" = Err ValueNegativeUnderflow
  /\ show false slow_src PNone "0e-999" = Ok (Fraction false 0 1, []).
Proof. vm_compute. auto. Qed.
(** ** What is not read *)

(** Numbers of the grammar which are rejected, whatever the conversions do: ".5",
    hexadecimal numbers starting with a letter although the prefix is optional with [a],
    "nan(x" although "nan" can be read. *)
Theorem C32_refuted :
  (exists t, grammar Any t
     /\ forall V (F : fp V) r, float_read_default F r t = Err InvalidScannedValue)
  /\ (exists t, grammar Hex t /\ forall V (F : fp V) r loc,
        float_read_specs F r loc (float_specs PFloatHex) t = Err InvalidScannedValue)
  /\ (exists t rest, grammar Any t
        /\ forall V (F : fp V) r, float_read_default F r (t ++ rest) = Err InvalidScannedValue).
Proof.
  split; [|split].
  - exists (T ".5"). split.
    + right. right. left. left. split; [reflexivity|]. exists [], (T "5"). split; [right; reflexivity|].
      split; [constructor|]. split; [|discriminate]. constructor; [|constructor]. apply digit10_iff. vm_compute. split; discriminate.
    + intros V F [[] [] seg]; reflexivity.
  - exists (T "ff"). split.
    + right. right. left. left. exists (T "ff"), []. split; [left; split; reflexivity|].
      split; [change (T "ff") with [102; 102]; constructor; [|constructor; [|constructor]]; apply digit16_iff; lia|]. split; [constructor|discriminate].
    + intros V F [[] [] seg] loc; reflexivity.
  - exists (T "nan"), (T "(x"). split.
    + right. left. left. repeat constructor.
    + intros V F [[] [] seg]; reflexivity.
Qed.

(** The same text read from a string and from a source in pieces: "0x.8" is a number only
    in a string; "0xg" is 0 in a string and an error otherwise. *)
Theorem C32_segmented_refuted :
  (exists s v rest, show false string_src PNone s = Ok (v, rest) /\ show false slow_src PNone s = Err InvalidScannedValue)
  /\ grammar Any (T "0x.8").
Proof.
  split.
  - exists "0x.8"%string, (Fraction false 8 16), []. split; vm_compute; reflexivity.
  - right. right. right. exists (T "0x"), (T ".8"). split; [reflexivity|]. split.
    + apply hex_prefix_iff. exists 120. auto.
    + left. exists [], (T "8"). split; [right; reflexivity|]. split; [constructor|]. split; [|discriminate].
      constructor; [|constructor]. apply digit16_iff. left. vm_compute. split; discriminate.
Qed.

(** Apart from that, neither the kind of source nor its pieces nor the width of its units
    matter. *)
Lemma longest_unique L u t rest t' rest' : u = t ++ rest -> u = t' ++ rest' ->
  longest L t rest -> longest L t' rest' -> t = t' /\ rest = rest'.
Proof.
  intros E E' [H1 H2] [H1' H2']. rewrite E in E'. assert (L1 := H2 _ _ E' H1'). assert (L2 := H2' _ _ (eq_sym E') H1).
  apply app_same; [exact E'|lia].
Qed.
Theorem C32_sources {V} (F : fp V) (M : meaning V) r r' loc sp f s :
  converts F M -> asks sp f -> localized sp = false -> units (s_enc r) s -> units (s_enc r') s ->
  (forall sg p rest, s = sg ++ p ++ rest -> (length sg <= 1)%nat -> hex_prefix p -> starts_with_digit 16 rest) ->
  float_read_specs F r loc sp s = float_read_specs F r' loc sp s.
Proof.
  intros C Ha Hl Hu Hu' Hp. rewrite !(specs_options F _ loc sp f _ Ha Hl).
  destruct s as [|c s]; [reflexivity|].
  destruct (sign_split (c :: s) ltac:(discriminate)) as (neg & sg & u & sign & Es & Hs & Ep & Em & El & Hd).
  assert (B : forall b, readable b f u <-> readable true f u).
  { intros b. split; (intros [H|[H|(H1 & H2 & _)]]; [left; exact H|right; left; exact H|right; right; split; [exact H1|split; [exact H2|]]]).
    - discriminate.
    - intros _ _ p rest -> Hp'. eapply (Hp sg p rest); [exact Es|exact (signed_len _ _ Hs)|exact Hp']. }
  destruct (float_main F M C r f false _ neg sg u sign Hu Es Ep Em El) as [(R & t & rest & out & E & HL & HR & ->)|[R ->]];
    destruct (float_main F M C r' f false _ neg sg u sign Hu' Es Ep Em El) as [(R' & t' & rest' & out' & E' & HL' & HR' & ->)|[R' ->]].
  - destruct (longest_unique _ _ _ _ _ _ E E' HL HL') as [-> ->]. now rewrite (C32_unique _ _ _ _ _ _ HR HR').
  - exfalso. apply R', B. apply B in R. exact R.
  - exfalso. apply R, B. apply B in R'. exact R'.
  - reflexivity.
Qed.
Example C32_sources_example : forall sg p rest, T "-0x1e" = sg ++ p ++ rest -> (length sg <= 1)%nat -> hex_prefix p ->
  starts_with_digit 16 rest.
Proof.
  intros sg p rest E L Hp. apply hex_prefix_iff in Hp. destruct Hp as (x & -> & Hx).
  destruct sg as [|a [|b sg]]; cbn [length] in L; try lia; cbn in E; injection E; intros; subst; try lia; try discriminate.
  apply digit16_iff. lia.
Qed.

Print Assumptions C32_partial.
Print Assumptions C32_consumed.
Print Assumptions C32_errors.
Print Assumptions C32_defined.
Print Assumptions C32_unique.
Print Assumptions C32_accepts.
Print Assumptions C32_default.
Print Assumptions C32_refuted.
Print Assumptions C32_segmented_refuted.
Print Assumptions C32_sources.
Print Assumptions exact_converts.
