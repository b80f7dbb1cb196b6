(** Proofs about what can follow a scanned value: floating-point numbers.  src/scn/impl.h:3664-4284. *)
From Verif Require Import Prelude Tables UnicodeModel UnicodeSpec ReadModel ReadProofs SpecsModel FormatModel VscanSpec
  SpecsInvProofs IntModel IntSpec IntProofs WidthSpec WidthProofs ArgReaderModel ArgReaderProofs StringProofs
  FloatModel FloatSpec FloatProofs FloatProperties FloatFieldProperties EncodingProofs EncodingLoopProofs EncodingReadProofs EncodingFloatProofs
  FollowSpec FollowProofs.
Local Open Scope Z_scope.

(** Numbers are written without white space. *)
Definition printable (c : Z) : Prop := 33 <= c <= 126.
Lemma printable_dark l : Forall printable l -> dark l.
Proof.
  apply Forall_impl. intros c Hc. unfold printable in Hc. rewrite is_ws_space.
  assert (H : forallb (fun c => negb (is_cp_space c)) (map Z.of_nat (seq 33 94)) = true) by (vm_compute; reflexivity).
  rewrite forallb_forall in H. specialize (H c). apply negb_true_iff, H. apply in_map_iff. exists (Z.to_nat c). split; [lia|]. apply in_seq. lia.
Qed.
Lemma digits_printable b l : Forall (is_digit b) l -> Forall printable l.
Proof. apply Forall_impl. intros c Hc. apply IntProofs.digit_ascii in Hc. unfold printable. lia. Qed.
Lemma any_case_printable w t : Forall (fun l => 97 <= l <= 122) w -> any_case w t -> Forall printable t.
Proof. intros Hw H. induction H as [|l c w t Hc _ IH]; [constructor|]. inversion Hw; subst. constructor; [unfold printable; lia|auto]. Qed.
Lemma significand_printable b t : significand b t -> Forall printable t /\ t <> [].
Proof.
  intros (w & f & H & Hw & Hf & Hne). apply digits_printable in Hw, Hf. destruct H as [[-> ->]| ->].
  - rewrite app_nil_r in Hne. auto.
  - split; [apply Forall_app; split; [auto|constructor; [unfold printable; lia|auto]]|destruct w; discriminate].
Qed.
Lemma exponent_printable l t : 97 <= l <= 122 -> exponent l t -> Forall printable t.
Proof.
  intros Hl (c & n & sg & ds & -> & Hc & Hs & _ & Hd). constructor; [unfold printable; lia|]. apply Forall_app.
  split; [destruct Hs; repeat constructor; lia|exact (digits_printable _ _ Hd)].
Qed.
Lemma decimal_printable fx sc t : decimal fx sc t -> Forall printable t /\ t <> [].
Proof.
  intros [[_ H]|(_ & m & x & -> & H1 & H2)]; [eapply significand_printable; eauto|]. destruct (significand_printable _ _ H1) as [P N].
  split; [apply Forall_app; split; [exact P|eapply exponent_printable; [|eauto]; lia]|destruct m; [congruence|discriminate]].
Qed.
Lemma hexadecimal_printable t : hexadecimal t -> Forall printable t /\ t <> [].
Proof.
  intros [H|(m & x & -> & H1 & H2)]; [eapply significand_printable; eauto|]. destruct (significand_printable _ _ H1) as [P N].
  split; [apply Forall_app; split; [exact P|eapply exponent_printable; [|eauto]; lia]|destruct m; [congruence|discriminate]].
Qed.
Lemma hex_prefix_shape p : hex_prefix p -> p = [48; 120] \/ p = [48; 88].
Proof.
  destruct p as [|c p]; intros [H1 H2]; cbn [hd tl] in *; [lia|]. subst c. inversion H1 as [|l d w t Hd Hw E1 E2]; subst. inversion Hw; subst.
  destruct Hd as [->| ->]; auto.
Qed.
Lemma grammar_printable f t : grammar f t -> Forall printable t /\ t <> [].
Proof.
  assert (W : forall w, Forall (fun l => 97 <= l <= 122) w -> w <> [] -> forall t, any_case w t -> Forall printable t /\ t <> []).
  { intros w Hw Hn u Hu. split; [eapply any_case_printable; eauto|]. intros ->. inversion Hu. congruence. }
  assert (L1 : Forall (fun l => 97 <= l <= 122) word_inf) by (repeat constructor; lia).
  assert (L2 : Forall (fun l => 97 <= l <= 122) word_infinity) by (repeat constructor; lia).
  assert (L3 : Forall (fun l => 97 <= l <= 122) word_nan) by (repeat constructor; lia).
  assert (P : forall p h, t = p ++ h -> hex_prefix p -> hexadecimal h -> Forall printable t /\ t <> []).
  { intros p h -> H1 H2. destruct (hexadecimal_printable h H2) as [P1 P2]. apply hex_prefix_shape in H1.
    destruct H1 as [->| ->]; (split; [cbn [app]; repeat (constructor; [unfold printable; lia|]); exact P1|discriminate]). }
  intros [[H|H]|[[H|(n & p & -> & Hn & Hp)]|H]].
  - apply (W word_inf); auto; discriminate.
  - apply (W word_infinity); auto; discriminate.
  - apply (W word_nan); auto; discriminate.
  - split; [|destruct n; discriminate]. apply Forall_app. split; [eapply any_case_printable; eauto|]. constructor; [unfold printable; lia|].
    apply Forall_app. split; [|repeat constructor; unfold printable; lia]. eapply Forall_impl; [|exact Hp]. unfold payload_char, printable. intros. lia.
  - destruct f; try (eapply decimal_printable; eassumption).
    + destruct H as [H|(p & h & E & H1 & H2)]; [eapply decimal_printable; eauto|eauto].
    + destruct H as [H|(p & h & E & H1 & H2)]; [now apply hexadecimal_printable|eauto].
Qed.

(** A prefix no longer than another. *)
Lemma prefix_in (t t0 rest rest0 : list Z) : t ++ rest = t0 ++ rest0 -> (length t0 <= length t)%nat -> exists z, t = t0 ++ z.
Proof.
  revert t rest. induction t0 as [|c t0 IH]; intros t rest E H; [exists t; reflexivity|]. destruct t as [|d t]; cbn [length] in H; [lia|].
  cbn [app] in E. injection E as -> E. destruct (IH t rest E ltac:(lia)) as (z & ->). exists z. reflexivity.
Qed.
Lemma longest_follows {R} {HR0 : gentle R} (L : list Z -> Prop) t rest b' : (forall t, L t -> Forall printable t) -> longest L t rest -> R rest b' -> longest L t b'.
Proof.
  intros HL [Ht HM] HS. split; [exact Ht|]. intros t' rest' E Ht'.
  destruct (g_back t' (printable_dark _ (HL _ Ht')) (t ++ rest) (t ++ b') rest' (g_app t _ _ HS) E) as (r & Er & _). exact (HM t' r Er Ht').
Qed.
(** The payload of a NaN ends somewhere. *)
Lemma payload_run r : exists p c, r = p ++ c /\ Forall payload_char p /\ match c with [] => True | x :: _ => ~ payload_char x end.
Proof.
  induction r as [|x r (p & c & -> & H1 & H2)]; [exists [], []; repeat split; constructor|].
  destruct (Z_le_dec 48 x), (Z_le_dec x 57), (Z_le_dec 65 x), (Z_le_dec x 90), (Z_le_dec 97 x), (Z_le_dec x 122), (Z.eq_dec x 95);
    first [exists (x :: p), c; split; [reflexivity|split; [constructor; [unfold payload_char; lia|exact H1]|exact H2]]
          |exists [], (x :: p ++ c); split; [reflexivity|split; [constructor|unfold payload_char; lia]]].
Qed.
Lemma readable_follows {R} {HR0 : gentle R} c f t rest b' : longest (grammar f) t rest -> R rest b' -> readable c f (t ++ rest) -> readable c f (t ++ b').
Proof.
  intros HL HS. assert (HG := proj1 HL). destruct (grammar_printable f t HG) as [PT NT].
  assert (IN : forall t0 rest0, t ++ rest = t0 ++ rest0 -> grammar f t0 -> exists z, t = t0 ++ z).
  { intros t0 rest0 E H0. apply (prefix_in t t0 rest rest0 E). exact (proj2 HL t0 rest0 E H0). }
  intros [(t0 & rest0 & E & H0)|[[(t0 & rest0 & E & H0) HO]|(HD & _ & HX)]].
  - left. destruct (IN t0 rest0 E (or_introl H0)) as (z & ->). exists t0, (z ++ b'). split; [apply app_assoc_reverse|exact H0].
  - right. left. split.
    { destruct (IN t0 rest0 E (or_intror (or_introl H0))) as (z & ->). exists t0, (z ++ b'). split; [apply app_assoc_reverse|exact H0]. }
    intros (n & p & r2 & E2 & Hn & Hp & Hr2). replace (n ++ 40 :: p ++ r2) with ((n ++ 40 :: p) ++ r2) in E2 by (rewrite <- app_assoc; reflexivity).
    assert (D : dark (n ++ 40 :: p)).
    { apply printable_dark. apply Forall_app. split; [apply (any_case_printable word_nan); [repeat constructor; lia|exact Hn]|].
      constructor; [unfold printable; lia|]. eapply Forall_impl; [|exact Hp]. unfold payload_char, printable. intros; lia. }
    destruct (g_back _ D (t ++ rest) (t ++ b') r2 (g_app t _ _ HS) E2) as (r & Er & _).
    destruct (payload_run r) as (p' & c' & -> & Hp' & Hc').
    destruct c' as [|x c'].
    { apply HO. exists n, (p ++ p'), []. split; [rewrite Er; repeat (rewrite <- ?app_assoc; cbn [app]); reflexivity|]. split; [exact Hn|]. split; [apply Forall_app; auto|exact I]. }
    destruct (Z.eq_dec x 41) as [->|N].
    2: { apply HO. exists n, (p ++ p'), (x :: c'). split; [rewrite Er; repeat (rewrite <- ?app_assoc; cbn [app]); reflexivity|]. split; [exact Hn|]. split; [apply Forall_app; auto|auto]. }
    assert (NN : not_a_number (n ++ 40 :: (p ++ p') ++ [41])) by (right; exists n, (p ++ p'); split; [reflexivity|]; split; [exact Hn|apply Forall_app; auto]).
    destruct (IN (n ++ 40 :: (p ++ p') ++ [41]) c') as (z & Ez); [rewrite Er; repeat (rewrite <- ?app_assoc; cbn [app]); reflexivity|right; left; exact NN|].
    rewrite Ez in E2. assert (E3 : r2 = p' ++ 41 :: z ++ b').
    { repeat (rewrite <- ?app_assoc in E2; cbn [app] in E2). apply app_inv_head in E2. injection E2 as E2. apply app_inv_head in E2. auto. }
    subst r2. destruct p' as [|y p']; cbn in Hr2; [tauto|]. inversion Hp'. tauto.
  - right. right. split; [destruct t; [congruence|exact HD]|]. split; [exists t, b'; auto|]. intros EC EF p rest' E Hp.
    assert (D : dark p) by (apply hex_prefix_shape in Hp; destruct Hp as [->| ->]; repeat constructor).
    destruct (g_back _ D (t ++ rest) (t ++ b') rest' (g_app t _ _ HS) E) as (r & Er & _). assert (Hr := HX EC EF p r Er Hp).
    destruct r as [|d r]; [contradiction|]. cbn in Hr.
    assert (SG : hexadecimal [d]) by (left; exists [d], []; split; [left; auto|]; split; [constructor; auto|]; split; [constructor|discriminate]).
    destruct (IN (p ++ [d]) r) as (z & ->); [rewrite Er, <- app_assoc; reflexivity| |].
    { right. right. destruct EF as [->| ->]; right; exists p, [d]; auto. }
    rewrite <- !app_assoc in E. apply app_inv_head in E. rewrite <- E. exact Hr.
Qed.

Section Float.
Context {V : Type} (F : fp V) (M : meaning V) (C : converts F M).
Lemma fits_follows {R} {HR0 : gentle R} r f neg u v rest x : fits M r f neg u x -> x = Ok (v, rest) ->
  exists t, u = t ++ rest /\ t <> [] /\ dark t /\ forall b' y, R rest b' -> fits M r f neg (t ++ b') y -> y = Ok (v, b').
Proof.
  intros [(RD & t & rest0 & out & -> & HL & HR & ->)|[_ ->]]; [|discriminate]. destruct out as [w| | |]; try discriminate. cbn [bind]. intros [= -> ->].
  exists t. split; [reflexivity|]. split; [apply (grammar_printable f t (proj1 HL))|]. split; [apply printable_dark, (grammar_printable f t (proj1 HL))|]. intros b' y HS HF.
  assert (HL' := longest_follows _ _ _ _ (fun t0 H0 => proj1 (grammar_printable f t0 H0)) HL HS).
  destruct HF as [(_ & t' & rest' & out' & E' & HL2 & HR2 & ->)|[N _]].
  - destruct (longest_unique _ _ _ _ _ _ eq_refl E' HL' HL2) as [<- <-]. rewrite (C32_unique M f neg t out' (Ok v) HR2 HR). reflexivity.
  - destruct N. exact (readable_follows _ _ _ _ _ HL HS RD).
Qed.
Lemma float_impl_follows {R} {HR0 : gentle R} r f th s v rest : s_enc r = U32 -> float_read_impl F r (options f th) plain_seps s = Ok (v, rest) ->
  exists a, s = a ++ rest /\ a <> [] /\ dark a /\ forall b', R rest b' -> float_read_impl F r (options f th) plain_seps (a ++ b') = Ok (v, b').
Proof.
  intros E32 E. assert (U : forall s, units (s_enc r) s) by (intros s0; rewrite E32; exact I).
  destruct s as [|c s]; [discriminate|].
  destruct (sign_split (c :: s) ltac:(discriminate)) as (neg & sg & u & sign & E1 & Esg & E2 & E3 & E4 & _).
  assert (M1 := float_main F M C r f th _ neg sg u sign (U _) E1 E2 E3 E4).
  destruct (fits_follows (R:=R) r f neg u v rest _ M1 E) as (t & Eu & Hne & HDt & HT).
  exists (sg ++ t). split; [rewrite E1, Eu; apply app_assoc|]. split; [destruct sg; [exact Hne|discriminate]|].
  split; [apply Forall_app; split; [clear -Esg; destruct Esg; repeat constructor|exact HDt]|]. intros b' HS. rewrite <- app_assoc.
  apply HT; [exact HS|]. apply (float_main F M C r f th _ neg sg (t ++ b') sign (U _) eq_refl); auto.
  revert E1 E2. rewrite Eu. destruct t as [|d t]; [congruence|]. cbn [app]. clear. unfold parse_numeric_sign, read_one_of_code_unit. intros E1.
  destruct (existsb (Z.eqb c) [43; 45]) eqn:EX.
  - destruct (c =? 45) eqn:E5; intros [= -> <-].
    + assert (sg = [c]) as ->.
      { apply (f_equal (@rev Z)) in E1. clear -E1. assert (X : forall (l : list Z), c :: l = sg ++ l -> sg = [c]).
        { intros l H. assert (HL := f_equal (@length Z) H). rewrite app_length in HL. cbn [length] in HL. destruct sg as [|e [|e2 sg]]; cbn [length] in HL; [lia| |lia]. cbn in H. congruence. }
        apply (f_equal (@rev Z)) in E1. rewrite !rev_involutive in E1. exact (X _ E1). }
      cbn [app]. rewrite EX, E5. reflexivity.
    + assert (sg = [c]) as ->.
      { clear -E1. assert (X : forall (l : list Z), c :: l = sg ++ l -> sg = [c]).
        { intros l H. assert (HL := f_equal (@length Z) H). rewrite app_length in HL. cbn [length] in HL. destruct sg as [|e [|e2 sg]]; cbn [length] in HL; [lia| |lia]. cbn in H. congruence. }
        exact (X _ E1). }
      cbn [app]. rewrite EX, E5. reflexivity.
  - intros [= -> -> <-]. assert (sg = []) as ->.
    { clear -E1. assert (HL := f_equal (@length Z) E1). rewrite app_length in HL. cbn [length] in HL. destruct sg; [reflexivity|cbn [length] in HL; lia]. }
    cbn [app]. rewrite EX. reflexivity.
Qed.
Theorem float_default_settles {R} {HR0 : gentle R} r cps : s_enc r = U32 -> Forall scalar cps -> settles_by R (float_default F r) cps.
Proof.
  intros E32 HS. apply default_settles; auto.
  - intros ds _ v b E. destruct (float_impl_follows (R:=R) r Any false ds v b E32 E) as (a & Ea & _ & _ & HA). eauto.
  - intros c ds x rem _ _ _ E EQ. destruct (float_impl_follows (R:=R) r Any false _ _ _ E32 E) as (a & Ea & Hne & _).
    apply (f_equal (@length Z)) in Ea. rewrite app_length, EQ in Ea. destruct a; [congruence|]. cbn in Ea. lia.
Qed.
Lemma float_specs_follows {R} {HR0 : gentle R} sp r s v rest : s_enc r = U32 -> float_read_specs F r plain_seps sp s = Ok (v, rest) ->
  exists a, s = a ++ rest /\ a <> [] /\ dark a /\ forall b', R rest b' -> float_read_specs F r plain_seps sp (a ++ b') = Ok (v, b').
Proof.
  assert (EQ : forall o, used_seps (localized sp) o plain_seps = plain_seps) by (intros o; unfold used_seps; destruct (localized sp); [destruct (o_thsep o)|]; reflexivity).
  intros E'. unfold float_read_specs, get_options. destruct (type sp); try discriminate; cbn [bind]; rewrite EQ.
  - apply (float_impl_follows r Any _ s v rest E').
  - apply (float_impl_follows r Hex _ s v rest E').
  - apply (float_impl_follows r Scientific _ s v rest E').
  - apply (float_impl_follows r Fixed _ s v rest E').
  - apply (float_impl_follows r General _ s v rest E').
Qed.
Theorem float_specs_settles r sp cps : s_enc r = U32 -> ascii_specs sp -> parsed sp -> Forall scalar cps ->
  settles (arg_read_checked r (float_reader F plain_seps) sp) cps.
Proof.
  intros E32 HA HP HS. unfold arg_read_checked. cbn [float_reader rd_check rd_skip rd_specs]. destruct (check_float_type_specs sp); [|intros v b E; discriminate].
  assert (K := fun r' => float_specs_follows (R:=swap) sp r').
  apply arg_settles; auto.
  - intros r' ds E' _ v b E. destruct (K _ _ _ _ E' E) as (a & Ea & _ & _ & HB). eauto.
  - intros _ r' c ds x rem E' _ _ _ E EQ'. destruct (K _ _ _ _ E' E) as (a & Ea & Hne & _).
    apply (f_equal (@length Z)) in Ea. rewrite app_length, EQ' in Ea. destruct a; [congruence|]. cbn in Ea. lia.
Qed.
End Float.
