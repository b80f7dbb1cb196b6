(** Floating-point numbers and pointers in fields with width, precision, fill and alignment
    (C26, C27): their readers stop between code points, so that the theorems about fields
    apply to them. *)
From Coq Require Import String.
From Verif Require Import Prelude Tables UnicodeModel UnicodeSpec UnicodeProofs ReadModel SpecsModel FormatModel FormatSpec IntModel IntSpec IntProofs
  ReadProofs WidthSpec WidthProofs GrammarSpec ArgReaderModel ArgReaderProofs IntAsciiProofs ArgReaderProperties
  ScalarModel VscanProperties FloatModel FloatSpec FloatProofs FloatInstance FloatProperties.
Import Coq.Strings.String.StringSyntax.
Local Open Scope string_scope.
Local Open Scope list_scope.
Local Open Scope Z_scope.

Lemma text_units e cps : Forall scalar cps -> units e (text e cps).
Proof. intros H. destruct e; cbn; auto. apply utf8_bytes, H. Qed.
Lemma any_case_ascii w t : Forall (fun l => 97 <= l <= 122) w -> any_case w t -> Forall ascii t.
Proof.
  intros Hw H. induction H as [|l c w t Hc _ IH]; [constructor|]. inversion Hw; subst.
  constructor; [unfold ascii; lia|auto].
Qed.
Lemma significand_ascii b t : significand b t -> Forall ascii t.
Proof.
  intros (w & f & H & Hw & Hf & _). assert (A : forall l, Forall (is_digit b) l -> Forall ascii l).
  { intros l Hl. eapply Forall_impl; [|exact Hl]. intros c. apply digit_ascii. }
  destruct H as [[-> ->]| ->]; [auto|]. apply Forall_app. split; [auto|]. constructor; [unfold ascii; lia|auto].
Qed.
Lemma signed_ascii n t : signed n t -> Forall ascii t.
Proof. intros []; repeat constructor; unfold ascii; lia. Qed.
Lemma exponent_ascii l t : 97 <= l <= 122 -> exponent l t -> Forall ascii t.
Proof.
  intros Hl (c & n & sg & ds & -> & Hc & Hs & _ & Hd). constructor; [unfold ascii; lia|].
  apply Forall_app. split; [eapply signed_ascii; eauto|]. eapply Forall_impl; [|exact Hd]. intros x. apply digit_ascii.
Qed.
Lemma decimal_ascii fx sc t : decimal fx sc t -> Forall ascii t.
Proof.
  intros [[_ H]|(_ & m & x & -> & H1 & H2)]; [eapply significand_ascii; eauto|].
  apply Forall_app. split; [eapply significand_ascii; eauto|eapply exponent_ascii; [|eauto]; lia].
Qed.
Lemma hexadecimal_ascii t : hexadecimal t -> Forall ascii t.
Proof.
  intros [H|(m & x & -> & H1 & H2)]; [eapply significand_ascii; eauto|].
  apply Forall_app. split; [eapply significand_ascii; eauto|eapply exponent_ascii; [|eauto]; lia].
Qed.
Lemma hex_prefix_ascii t : hex_prefix t -> Forall ascii t.
Proof.
  destruct t as [|c t]; intros [H1 H2]; cbn [hd tl] in *; [lia|]. subst c. constructor; [unfold ascii; lia|].
  eapply any_case_ascii; [|exact H1]. repeat constructor; lia.
Qed.
Lemma grammar_ascii f t : grammar f t -> Forall ascii t.
Proof.
  assert (W : forall w, Forall (fun l => 97 <= l <= 122) w -> any_case w t -> Forall ascii t) by (intros; eapply any_case_ascii; eauto).
  assert (L1 : Forall (fun l => 97 <= l <= 122) word_inf) by (repeat constructor; lia).
  assert (L2 : Forall (fun l => 97 <= l <= 122) word_infinity) by (repeat constructor; lia).
  assert (L3 : Forall (fun l => 97 <= l <= 122) word_nan) by (repeat constructor; lia).
  assert (P : forall p h, t = p ++ h -> hex_prefix p -> hexadecimal h -> Forall ascii t).
  { intros p h -> H1 H2. apply Forall_app. split; [now apply hex_prefix_ascii|now apply hexadecimal_ascii]. }
  intros [[H|H]|[[H|(n & p & -> & Hn & Hp)]|H]]; [eauto|eauto|eauto| |].
  - apply Forall_app. split; [eapply any_case_ascii; eauto|]. constructor; [unfold ascii; lia|].
    apply Forall_app. split; [|repeat constructor; unfold ascii; lia].
    eapply Forall_impl; [|exact Hp]. unfold payload_char, ascii. intros. lia.
  - destruct f.
    + destruct H as [H|(p & h & E & H1 & H2)]; [eapply decimal_ascii; eauto|eauto].
    + destruct H as [H|(p & h & E & H1 & H2)]; [now apply hexadecimal_ascii|eauto].
    + eapply decimal_ascii; eauto.
    + eapply decimal_ascii; eauto.
    + eapply decimal_ascii; eauto.
Qed.

Theorem C27_floats {V} (F : fp V) (M : meaning V) r loc sp f :
  converts F M -> asks sp f -> localized sp = false ->
  whole_code_points (s_enc r) (float_read_specs F r loc sp).
Proof.
  intros C Ha Hl cps x rest Hc E.
  destruct (C32_consumed F M r loc sp f _ _ _ C Ha Hl (text_units _ _ Hc) E) as (neg & sg & t & Es & Hs & [HL _] & _).
  rewrite app_assoc in Es.
  destruct (ascii_text (s_enc r) (sg ++ t)) with (ds := cps) (rest := rest) as (l & -> & ->); trivial.
  { apply Forall_app. split; [eapply signed_ascii; eauto|eapply grammar_ascii; eauto]. }
  eauto.
Qed.
Print Assumptions C27_floats.
Theorem C27_pointers : forall r sep, whole_code_points (s_enc r) (pointer_read sep r).
Proof.
  intros r sep. apply (C27_integers r u64 hex_specs sep 16); [unfold type_ok; cbn; auto 10|reflexivity|lia|discriminate].
Qed.
Print Assumptions C27_pointers.

(** "{:*^8.9}" on "**1.5***;", and the same value under precision: no more characters than the
    precision are looked at, so that an exponent cut off by it is not completed *)
Definition float_field (d : desc) (s : string) :=
  arg_read string_src (mean U8 d) true (fun r => float_read_specs (exact_fp false) r plain_seps (mean U8 d)) (T s).
Definition d_float fl al w p t := Desc fl al w p false t.
Example C27_float_ex :
  let d := d_float (Some 42) (Some ACenter) (Some [56]) (Some [57]) None in
  numerals d /\ fill_kept U8 d /\ asks (mean U8 d) Any /\ localized (mean U8 d) = false
  /\ float_field d "**1.5***;" = Ok (Fraction false 15 10, T ";")
  /\ float_field (d_float (Some 42) (Some ACenter) None (Some [52]) None) "**1.5***;" = Ok (Fraction false 1 1, T "5***;")
  /\ float_field (d_float None None None (Some [52]) (Some (TyLetter 101))) "1.5e3" = Err InvalidScannedValue
  /\ float_field (d_float None None None (Some [53]) (Some (TyLetter 101))) "1.5e3" = Ok (Fraction false 1500 1, []).
Proof.
  cbv zeta. split; [split; intros ? [= <-]; repeat split; repeat constructor; try discriminate; lia|].
  split; [intros ? [= <-]; split; [unfold scalar; lia|exact I]|].
  split; [reflexivity|]. split; [reflexivity|]. vm_compute. auto.
Qed.
