(** Proofs that narrow and wide scanning agree: floating-point numbers. *)
From Verif Require Import Prelude Tables UnicodeModel UnicodeSpec ReadModel ReadProofs SpecsModel FormatModel
  SpecsInvProofs IntModel IntSpec IntProofs WidthSpec WidthProofs ArgReaderModel ArgReaderProofs StringProofs
  FloatModel FloatSpec FloatProofs FloatProperties FloatFieldProperties EncodingProofs EncodingLoopProofs EncodingReadProofs.
Local Open Scope Z_scope.

(** A text in an ASCII language ends before what is not ASCII. *)
Lemma ascii_front t : ascii_str t -> forall a z rest, high z -> a ++ z = t ++ rest -> exists a', a = t ++ a' /\ rest = a' ++ z.
Proof.
  induction 1 as [|c t Hc _ IH]; intros a z rest Hz E; [exists a; auto|].
  destruct a as [|d a]; cbn [app] in E.
  - subst z. cbn in Hz. unfold ascii in Hc. lia.
  - injection E as -> E. destruct (IH a z rest Hz E) as (a' & -> & ->). exists a'. auto.
Qed.
Section Ends.
Variables z z' : list Z.
Hypothesis Hz : high z.
Hypothesis Hz' : high z'.
Lemma has_swap (L : list Z -> Prop) a : (forall t, L t -> ascii_str t) -> has L (a ++ z) -> has L (a ++ z').
Proof.
  intros HL (t & rest & E & Ht). destruct (ascii_front t (HL t Ht) a z rest Hz E) as (a' & -> & _).
  exists t, (a' ++ z'). split; [apply app_assoc_reverse|exact Ht].
Qed.
Lemma longest_swap (L : list Z -> Prop) t a : (forall t, L t -> ascii_str t) -> longest L t (a ++ z) -> longest L t (a ++ z').
Proof.
  intros HL [Ht HM]. split; [exact Ht|]. intros t' rest' E Ht'. rewrite app_assoc in E.
  destruct (ascii_front t' (HL t' Ht') _ z' rest' Hz' E) as (a' & Ea & _).
  apply (HM t' (a' ++ z)); [|exact Ht']. rewrite !app_assoc. congruence.
Qed.
Lemma digit_swap b a : starts_with_digit b (a ++ z) -> starts_with_digit b (a ++ z').
Proof. destruct a as [|c a]; cbn; [|auto]. destruct z as [|c l]; [contradiction|]. cbn in *. intros H. apply digit_ascii in H. lia. Qed.
Lemma payload_swap a : open_payload (a ++ z) -> open_payload (a ++ z').
Proof.
  intros (n & p & rest & E & Hn & Hp & Hr). replace (n ++ 40 :: p ++ rest) with ((n ++ 40 :: p) ++ rest) in E by (rewrite <- app_assoc; reflexivity).
  assert (HA : ascii_str (n ++ 40 :: p)).
  { apply Forall_app. split.
    - assert (H := any_case_ascii word_nan n ltac:(repeat constructor; lia) Hn). eapply Forall_impl; [|exact H]. intros c Hc. exact Hc.
    - constructor; [unfold ascii; lia|]. eapply Forall_impl; [|exact Hp]. unfold payload_char, ascii. intros. lia. }
  destruct (ascii_front _ HA a z rest Hz E) as (a' & -> & ->). exists n, p, (a' ++ z').
  split; [rewrite <- !app_assoc; reflexivity|]. split; [exact Hn|]. split; [exact Hp|].
  destruct a' as [|c a']; [|exact Hr]. cbn [app]. destruct z' as [|c l]; [exact I|]. cbn in Hz'. unfold payload_char. lia.
Qed.
End Ends.
Lemma lang_ascii t : (infinite t -> ascii_str t) /\ (not_a_number t -> ascii_str t) /\ forall f, grammar f t -> ascii_str t.
Proof.
  assert (G : forall f, grammar f t -> ascii_str t) by (intros f H; eapply Forall_impl; [|exact (grammar_ascii f t H)]; intros c Hc; exact Hc).
  split; [intros H; apply (G Any); left; exact H|]. split; [intros H; apply (G Any); right; left; exact H|exact G].
Qed.
Lemma readable_swap z z' c f a : high z -> high z' -> readable c f (a ++ z) -> readable c f (a ++ z').
Proof.
  intros Hz Hz' [H|[[H HO]|(H & HG & HX)]].
  - left. apply (has_swap z z' Hz _ _ (fun t => proj1 (lang_ascii t)) H).
  - right. left. split; [apply (has_swap z z' Hz _ _ (fun t => proj1 (proj2 (lang_ascii t))) H)|]. intros HO'. apply HO, (payload_swap z' z Hz' Hz a HO').
  - right. right. split; [apply (digit_swap z z' Hz 10 a H)|]. split; [apply (has_swap z z' Hz _ _ (fun t => proj2 (proj2 (lang_ascii t)) f) HG)|].
    intros EC EF p rest E Hp. assert (HA : ascii_str p) by (eapply Forall_impl; [|exact (hex_prefix_ascii p Hp)]; intros x Hx; exact Hx).
    destruct (ascii_front p HA a z' rest Hz' E) as (a' & -> & ->). apply (digit_swap z z'); auto.
    apply (HX EC EF p); [apply app_assoc_reverse|exact Hp].
Qed.

Section Float.
Context {V : Type} (F : fp V) (M : meaning V) (C : converts F M).
Lemma fits_twin r8 r32 f neg a z x y : alike r8 r32 -> ascii_str a -> Forall scalar z -> high z ->
  fits M r8 f neg (a ++ text U8 z) x -> fits M r32 f neg (a ++ z) y -> twin (a ++ z) x y.
Proof.
  intros (_ & _ & EC) Ha Hz Hh HX HY. destruct (high_text z Hz Hh) as (Hh8 & _). unfold fits in *. rewrite EC in HX.
  destruct HX as [(R8 & t & rest & out & E & HL & HR & ->)|[N8 ->]], HY as [(R & t' & rest' & out' & E' & HL' & HR' & ->)|[N ->]].
  - assert (HT : forall t, grammar f t -> ascii_str t) by (intros t0 H0; exact (proj2 (proj2 (lang_ascii t0)) f H0)).
    destruct (ascii_front t (HT t (proj1 HL)) a _ rest Hh8 E) as (a1 & E1 & ->).
    destruct (ascii_front t' (HT t' (proj1 HL')) a _ rest' Hh E') as (a2 & E2 & ->).
    assert (HL2 := longest_swap _ z Hh (grammar f) t a1 HT HL).
    assert (ET : t = t').
    { assert (EE : t ++ a1 ++ z = t' ++ a2 ++ z) by (rewrite !app_assoc; congruence). destruct HL2 as [G1 M1], HL' as [G2 M2].
      assert (L1 := M2 t (a1 ++ z) (eq_sym EE) G1). assert (L2 := M1 t' (a2 ++ z) EE G2).
      assert (Hlen : length t = length t') by lia. revert Hlen EE. clear. revert t'. induction t as [|c t IH]; intros [|d t']; try discriminate; [reflexivity|].
      intros [= HL] [= <- E]. f_equal. apply IH; assumption. }
    subst t'. assert (E3 : a1 = a2) by (rewrite E1 in E2; apply app_inv_head in E2; exact E2). subst a2.
    rewrite (C32_unique M f neg t out' out HR' HR). destruct out as [v|e| |]; cbn.
    + split.
      * unfold lift. cbn. assert (A1 : ascii_str a1) by (rewrite E1 in Ha; apply Forall_app in Ha; apply Ha).
        rewrite text_app, (text_ascii U8 a1 A1). reflexivity.
      * intros v' l [= _ <-]. exists t. rewrite E1. apply app_assoc_reverse.
    + apply twin_err.
    + apply twin_ub.
    + apply twin_fail; [reflexivity|discriminate].
  - destruct N. eapply readable_swap; [exact Hh8| |exact R8]. exact Hh.
  - destruct N8. eapply readable_swap; [exact Hh| |exact R]. exact Hh8.
  - apply twin_err.
Qed.
Lemma float_impl_twin r8 r32 f th cps : alike r8 r32 -> good cps ->
  twin cps (float_read_impl F r8 (options f th) plain_seps (text U8 cps)) (float_read_impl F r32 (options f th) plain_seps cps).
Proof.
  intros HA HG. destruct (good_split cps HG) as (a & z & -> & -> & Ha & Ha0 & Hz & Hh). assert (HA' := HA). destruct HA' as (E8 & E32 & _).
  assert (HT := T_start a z). assert (HS := T_sign a z Ha0 Hz Hh _ _ HT). assert (HB := T_bytes a z Ha0 Hz Hh _ _ HT).
  destruct (parse_numeric_sign (a ++ z)) as [[y s2]|e| |] eqn:EP.
  - destruct (parse_numeric_sign (a ++ text U8 z)) as [[x s1]|e| |] eqn:EP8; try contradiction. destruct HS as [(b & HSf & Ex & Ey) Es]. cbn [fst snd] in *. subst x y s2.
    assert (NE : a ++ z <> []) by (intros E; rewrite E in EP; discriminate). assert (NE8 : a ++ text U8 z <> []) by (intros E; rewrite E in EP8; discriminate).
    destruct (sign_split _ NE) as (neg & sg & u & sign & E1 & _ & E2 & E3 & E4 & _). rewrite EP in E2. injection E2 as <- <-.
    destruct (sign_split _ NE8) as (neg8 & sg8 & u8 & sign8 & F1 & _ & F2 & F3 & F4 & _). rewrite EP8 in F2. injection F2 as <- <-.
    assert (M8 := float_main F M C r8 f th _ neg8 sg8 _ _ ltac:(rewrite E8; exact HB) F1 EP8 F3 F4).
    assert (M32 := float_main F M C r32 f th _ neg sg _ _ ltac:(rewrite E32; exact I) E1 EP E3 E4).
    rewrite <- F3, E3 in M8.
    assert (Hb : ascii_str b) by (eapply suffix_Forall; eassumption).
    assert (EQ : a = sg ++ b) by (rewrite app_assoc in E1; apply app_inv_tail in E1; exact E1).
    assert (HF := fits_twin r8 r32 f neg b z _ _ HA Hb Hz Hh M8 M32). apply (twin_suffix sg) in HF. rewrite E1 at 1. exact HF.
  - destruct (parse_numeric_sign (a ++ text U8 z)) as [[x s1]|e8| |] eqn:EP8; try contradiction. cbn in HS. subst e8.
    unfold float_read_impl, read_source_impl. rewrite EP, EP8. apply twin_err.
  - destruct (parse_numeric_sign (a ++ text U8 z)) as [[x s1]|e8| |] eqn:EP8; try contradiction.
    unfold float_read_impl, read_source_impl. rewrite EP, EP8. apply twin_ub.
  - destruct (parse_numeric_sign (a ++ text U8 z)) as [[x s1]|e8| |] eqn:EP8; try contradiction.
    unfold float_read_impl, read_source_impl. rewrite EP, EP8. apply twin_fail; [reflexivity|discriminate].
Qed.
Lemma float_default_twin r8 r32 cps : alike r8 r32 -> wholes r8 -> good cps ->
  twin cps (float_default F r8 (text U8 cps)) (float_default F r32 cps).
Proof. intros HA HW HG. apply default_twin; auto. intros ds Hds. apply (float_impl_twin r8 r32 Any false); auto. Qed.
Lemma float_specs_twin r8 r32 sp cps : alike r8 r32 -> wholes r8 -> ascii_specs sp -> parsed sp -> good cps ->
  twin cps (arg_read_checked r8 (float_reader F plain_seps) sp (text U8 cps)) (arg_read_checked r32 (float_reader F plain_seps) sp cps).
Proof.
  intros HA HW HS HP HG. apply checked_twin; auto. intros _ r r' ds HA' _ Hds. cbn [float_reader rd_specs]. unfold float_read_specs, get_options.
  assert (EQ : forall o, used_seps (localized sp) o plain_seps = plain_seps) by (intros o; unfold used_seps; destruct (localized sp); [destruct (o_thsep o)|]; reflexivity).
  destruct (type sp); try apply twin_ub; cbn [bind]; rewrite EQ.
  - apply (float_impl_twin r r' Any); auto.
  - apply (float_impl_twin r r' Hex); auto.
  - apply (float_impl_twin r r' Scientific); auto.
  - apply (float_impl_twin r r' Fixed); auto.
  - apply (float_impl_twin r r' General); auto.
Qed.
End Float.
