(** Proofs that narrow and wide scanning agree: readers of integers, booleans, characters,
    pointers and strings. *)
From Verif Require Import Prelude Tables BitsModel UnicodeModel UnicodeSpec ReadModel ReadProofs SpecsModel FormatModel FormatProofs ArgsModel
  CheckerProofs SpecsInvProofs IntModel IntSpec IntProofs WidthModel WidthSpec WidthProofs ArgReaderModel ArgReaderProofs ScalarModel
  WhitespaceSpec ScalarSpec ScalarProofs StringModel StringSpec StringProofs EncodingProofs EncodingLoopProofs.
Local Open Scope Z_scope.

(** A narrow and a wide source stored alike. *)
Definition alike (r8 r32 : src) : Prop := s_enc r8 = U8 /\ s_enc r32 = U32 /\ s_contig r8 = s_contig r32.
Definition good (cps : list Z) : Prop := Forall (fun c => scalar c /\ c <> 16) cps.
Lemma good_scalar cps : good cps -> Forall scalar cps.
Proof. apply Forall_impl. tauto. Qed.
Lemma good_app a b : good (a ++ b) <-> good a /\ good b.
Proof. apply Forall_app. Qed.

(** Text is ASCII up to a place where both encodings have a unit that is not. *)
Definition high (l : list Z) : Prop := match l with [] => True | c :: _ => 128 <= c end.
Lemma ascii_split cps : Forall scalar cps -> exists a z, cps = a ++ z /\ ascii_str a /\ high z.
Proof.
  induction 1 as [|c cps Hc _ (a & z & -> & Ha & Hz)]; [exists [], []; repeat split; constructor|].
  destruct (Z_lt_le_dec c 128) as [H|H].
  - exists (c :: a), z. repeat split; auto. constructor; [|exact Ha]. unfold ascii. unfold scalar in Hc. lia.
  - exists [], (c :: a ++ z). repeat split; [constructor|exact H].
Qed.
Lemma high_text z : Forall scalar z -> high z -> high (text U8 z) /\ (z = [] <-> text U8 z = []) /\ bytes (text U8 z).
Proof.
  intros H Hz. split; [|split].
  - destruct H as [|c z Hc _]; [exact I|]. cbn in Hz. cbn [text flat_map]. destruct (encode_units U8 c ltac:(discriminate) Hc) as [[H1 _]|[_ H1]]; [lia|].
    destruct (encode_lead U8 c Hc) as (u & tl & E & _). rewrite E in *. cbn. inversion H1. assumption.
  - split; [intros ->; reflexivity|]. apply text_nil_iff, H.
  - clear Hz. change (text U8 z) with (utf8 z). apply UnicodeProofs.utf8_bytes, H.
Qed.

Section Tail.
Variables a0 z : list Z.
Hypothesis Ha0 : Forall (fun c => ascii c /\ c <> 16) a0.
Hypothesis Hz : Forall scalar z.
Hypothesis Hh : high z.
(** The same place in both texts. *)
Definition T (x y : list Z) : Prop := exists a, suffix a a0 /\ x = a ++ text U8 z /\ y = a ++ z.
Lemma T_case x y : T x y ->
  (exists c x' y', x = c :: x' /\ y = c :: y' /\ ascii c /\ c <> 16 /\ T x' y') \/ (x = text U8 z /\ y = z).
Proof.
  intros (a & HS & -> & ->). destruct a as [|c a]; [right; auto|left]. exists c, (a ++ text U8 z), (a ++ z).
  assert (HA := suffix_Forall _ _ _ HS Ha0). inversion HA as [|? ? [H1 H2] _]; subst. repeat split; auto; try apply H1.
  exists a. split; [eapply suffix_cons_inv, HS|auto].
Qed.
Lemma T_bytes x y : T x y -> bytes x.
Proof.
  intros (a & HS & -> & ->). apply Forall_app. split; [|apply (high_text z Hz Hh)].
  eapply Forall_impl; [|exact (suffix_Forall _ _ _ HS Ha0)]. intros c [H _]. unfold ascii in H. unfold is_byte. lia.
Qed.
Lemma T_dle r x y : T x y -> no_dle r x.
Proof.
  intros H _ _. destruct (T_case x y H) as [(c & x' & y' & -> & _ & _ & H16 & _)|[-> _]]; [exact H16|].
  destruct (high_text z Hz Hh) as [HH _]. destruct (text U8 z); [exact I|]. cbn in HH. lia.
Qed.
Lemma T_digit B x y : B <= 36 -> T x y -> not_digit_of B x = not_digit_of B y.
Proof.
  intros HB H. destruct (T_case x y H) as [(c & x' & y' & -> & -> & _)|[-> ->]]; [reflexivity|].
  assert (D : forall l, high l -> not_digit_of B l = true).
  { intros [|c l]; [reflexivity|]. cbn. intros Hc. apply char_to_int_not_digit; [exact HB|]. intros Hd. apply digit_ascii in Hd. lia. }
  rewrite !D; auto. apply (high_text z Hz Hh).
Qed.
Lemma T_sign x y : T x y ->
  pair (fun p q => T (fst p) (fst q) /\ snd p = snd q) (parse_numeric_sign x) (parse_numeric_sign y).
Proof.
  intros H. unfold parse_numeric_sign, read_one_of_code_unit. destruct (T_case x y H) as [(c & x' & y' & -> & -> & _ & _ & HT)|[-> ->]].
  - destruct (existsb _ _); [destruct (c =? 45)|]; cbn; auto.
  - assert (D : forall l, high l -> l <> [] -> match l with [] => @inr (list Z) perr PEof | c :: s' => if existsb (Z.eqb c) [43; 45] then inl s' else inr PError end = inr PError).
    { intros [|c l]; [congruence|]. cbn. intros Hc _. replace (c =? 43) with false by lia. replace (c =? 45) with false by lia. reflexivity. }
    destruct (high_text z Hz Hh) as (H1 & H2 & _).
    assert (NE : z = [] \/ z <> []) by (destruct z; [left; reflexivity|right; discriminate]). destruct NE as [NE|NE].
    + apply H2 in NE as NE'. rewrite NE', NE. reflexivity.
    + rewrite !D; auto; [|tauto]. cbn. auto.
Qed.
Lemma T_pfx L x y : 48 < L < 128 -> T x y -> pfx_match L x = pfx_match L y /\ (pfx_match L y = true -> T (skipn 2 x) (skipn 2 y)).
Proof.
  intros HL H. destruct (high_text z Hz Hh) as (H1 & H2 & _).
  assert (D : forall l, high l -> pfx_match L l = false).
  { intros [|c [|d l]]; try reflexivity. cbn. intros Hc. replace (c =? 48) with false by lia. reflexivity. }
  assert (D2 : forall c l, high l -> pfx_match L (c :: l) = false).
  { intros c [|d l]; [reflexivity|]. cbn. intros Hc. unfold prefix_letter. replace (d =? L) with false by lia.
    replace (d =? L - 32) with false by lia. apply andb_false_r. }
  destruct (T_case x y H) as [(c & x' & y' & -> & -> & _ & _ & HT)|[-> ->]].
  - destruct (T_case x' y' HT) as [(d & x2 & y2 & -> & -> & _ & _ & HT2)|[-> ->]].
    + split; [reflexivity|]. intros _. exact HT2.
    + rewrite !D2 by assumption. split; [reflexivity|discriminate].
  - rewrite !D by assumption. split; [reflexivity|discriminate].
Qed.
Lemma T_nocase r8 r32 L x y : alike r8 r32 -> L = 98 \/ L = 120 \/ L = 111 -> T x y ->
  match read_matching_string_classic_nocase r8 [48; L] x, read_matching_string_classic_nocase r32 [48; L] y with
  | inl i, inl j => T i j | inr _, inr _ => True | _, _ => False end.
Proof.
  intros (E8 & E32 & _) HL H. assert (H8 := nocase_prefix r8 L x HL). assert (H32 := nocase_prefix r32 L y HL).
  specialize (H8 (fun _ => T_bytes x y H) (T_dle r8 x y H)). specialize (H32 ltac:(unfold enc_ok; congruence) ltac:(unfold no_dle; congruence)).
  destruct (T_pfx L x y ltac:(lia) H) as [E HT].
  destruct (read_matching_string_classic_nocase r8 _ x), (read_matching_string_classic_nocase r32 _ y); auto.
  - destruct H8 as [_ ->], H32 as [X ->]. apply HT, X.
  - destruct H8. congruence.
  - destruct H32. congruence.
Qed.
Definition same_base (p q : list Z * Z * bool) : Prop :=
  T (fst (fst p)) (fst (fst q)) /\ snd (fst p) = snd (fst q) /\ snd p = snd q /\ base_ok (snd (fst q)).
Lemma T_oct r8 r32 x y : alike r8 r32 -> T x y ->
  match parse_integer_oct_base_prefix r8 x, parse_integer_oct_base_prefix r32 y with
  | (inl i, a), (inl j, b) => T i j /\ a = b | (inr _, a), (inr _, b) => a = b | _, _ => False end.
Proof.
  intros HA H. unfold parse_integer_oct_base_prefix. assert (HN := T_nocase r8 r32 111 x y HA ltac:(auto) H).
  destruct (read_matching_string_classic_nocase r8 _ x), (read_matching_string_classic_nocase r32 _ y); try contradiction; auto.
  unfold read_matching_code_unit. destruct (T_case x y H) as [(c & x' & y' & -> & -> & _ & _ & HT)|[-> ->]].
  - destruct (c =? 48); auto.
  - assert (D : forall l, high l -> match l with [] => @inr (list Z) perr PEof | c :: s' => if c =? 48 then inl s' else inr PError end
       = inr (match l with [] => PEof | _ => PError end)).
    { intros [|c l]; [reflexivity|]. cbn. intros Hc. replace (c =? 48) with false by lia. reflexivity. }
    rewrite !D; auto. apply (high_text z Hz Hh).
Qed.
Lemma T_base r8 r32 x y b : alike r8 r32 -> b = 0 \/ base_ok b -> T x y ->
  same_base (parse_integer_base_prefix r8 x b) (parse_integer_base_prefix r32 y b).
Proof.
  intros HA Hb H. assert (HX := T_nocase r8 r32 120 x y HA ltac:(auto) H). assert (HB := T_nocase r8 r32 98 x y HA ltac:(auto) H).
  assert (HO := T_oct r8 r32 x y HA H). unfold parse_integer_base_prefix, parse_integer_base_prefix_for_detection, parse_integer_bin_base_prefix, parse_integer_hex_base_prefix.
  assert (BO : base_ok 2 /\ base_ok 8 /\ base_ok 10 /\ base_ok 16) by (unfold base_ok; lia). destruct BO as (B2 & B8 & B10 & B16).
  destruct (Z.eqb_spec b 2) as [->|].
  { destruct (read_matching_string_classic_nocase r8 [48; 98] x), (read_matching_string_classic_nocase r32 [48; 98] y); try contradiction; cbn; repeat split; auto; apply B2. }
  destruct (Z.eqb_spec b 8) as [->|].
  { destruct (parse_integer_oct_base_prefix r8 x) as [[i|e1] zz1], (parse_integer_oct_base_prefix r32 y) as [[j|e2] zz2]; try contradiction; cbn.
    - destruct HO. repeat split; auto; apply B8.
    - repeat split; auto; apply B8. }
  destruct (Z.eqb_spec b 16) as [->|].
  { destruct (read_matching_string_classic_nocase r8 [48; 120] x), (read_matching_string_classic_nocase r32 [48; 120] y); try contradiction; cbn; repeat split; auto; apply B16. }
  destruct (Z.eqb_spec b 0) as [->|].
  - destruct (read_matching_string_classic_nocase r8 [48; 120] x), (read_matching_string_classic_nocase r32 [48; 120] y); try contradiction; [cbn; repeat split; auto; apply B16|].
    destruct (read_matching_string_classic_nocase r8 [48; 98] x), (read_matching_string_classic_nocase r32 [48; 98] y); try contradiction; [cbn; repeat split; auto; apply B2|].
    destruct (parse_integer_oct_base_prefix r8 x) as [[i|e1] zz1], (parse_integer_oct_base_prefix r32 y) as [[j|e2] zz2]; try contradiction; cbn.
    + destruct HO. repeat split; auto; apply B8.
    + repeat split; auto; apply B10.
  - destruct Hb as [->|Hb]; [congruence|]. cbn. repeat split; auto; apply Hb.
Qed.
Definition same_prefix (p q : prefix_result) : Prop :=
  T (pr_it p) (pr_it q) /\ pr_base p = pr_base q /\ pr_sign p = pr_sign q /\ pr_zero p = pr_zero q /\ base_ok (pr_base q)
  /\ pr_sign q <> DefaultSign /\ (pr_zero q = true -> not_digit_of 8 (pr_it q) = false).
Lemma T_prefix r8 r32 x y b : alike r8 r32 -> b = 0 \/ base_ok b -> T x y ->
  pair same_prefix (parse_integer_prefix r8 x b) (parse_integer_prefix r32 y b).
Proof.
  intros HA Hb H. unfold parse_integer_prefix. eapply pair_bind; [apply T_sign, H|]. intros [x1 s1] [y1 s2] [HT E]. cbn [fst snd] in HT, E. subst s2.
  assert (HB := T_base r8 r32 x1 y1 b HA Hb HT). assert (HO := T_oct r8 r32 x1 y1 HA HT).
  assert (ZQ : snd (parse_integer_base_prefix r32 y1 b) = true -> not_digit_of 8 y1 = false).
  { clear HB. unfold parse_integer_base_prefix, parse_integer_base_prefix_for_detection.
    assert (OQ : snd (parse_integer_oct_base_prefix r32 y1) = true -> not_digit_of 8 y1 = false).
    { unfold parse_integer_oct_base_prefix. destruct (read_matching_string_classic_nocase _ _ _); [discriminate|].
      unfold read_matching_code_unit. destruct y1 as [|c y1]; [discriminate|]. destruct (Z.eqb_spec c 48) as [->|]; [reflexivity|discriminate]. }
    destruct (b =? 2); [discriminate|]. destruct (b =? 8); [destruct (parse_integer_oct_base_prefix r32 y1); exact OQ|].
    destruct (b =? 16); [discriminate|]. destruct (b =? 0); [|discriminate].
    destruct (parse_integer_hex_base_prefix r32 y1); [discriminate|]. destruct (parse_integer_bin_base_prefix r32 y1); [discriminate|].
    destruct (parse_integer_oct_base_prefix r32 y1) as [[j|e2] zz2]; [exact OQ|discriminate]. }
  destruct (parse_integer_base_prefix r8 x1 b) as [[i B] zp], (parse_integer_base_prefix r32 y1 b) as [[j B'] zp'].
  destruct HB as (HB1 & HB2 & HB3 & HB4). cbn [fst snd] in *. subst B' zp'.
  assert (NS : match s1 with DefaultSign => PlusSign | _ => s1 end <> DefaultSign) by (destruct s1; discriminate).
  assert (B36 : B <= 36) by (unfold base_ok in HB4; lia).
  destruct zp.
  - rewrite (T_digit 8 i j ltac:(lia) HB1). destruct (not_digit_of 8 j); cbn; unfold same_prefix; cbn; repeat split; auto; first [apply HB4|discriminate].
  - rewrite (T_digit B i j B36 HB1). cbn. unfold same_prefix. cbn. destruct (not_digit_of B j); repeat split; auto; first [apply HB4|discriminate].
Qed.
Definition same_rest {X} (p q : X * list Z) : Prop := fst p = fst q /\ T (snd p) (snd q).
Lemma piv_enc t ds sign b : bytes ds -> parse_integer_value U8 t ds sign b = parse_integer_value U32 t ds sign b.
Proof.
  intros H. unfold parse_integer_value. destruct ds as [|c ds]; [reflexivity|]. destruct sign; [reflexivity| |];
    (destruct (_ && _); [reflexivity|]; destruct (b <=? 0); [reflexivity|]; destruct (b <=? char_to_int c); [reflexivity|]; cbv zeta;
     destruct (match skip_zeros (c :: ds) with [] => true | d :: _ => b <=? char_to_int d end); [reflexivity|];
     destruct (Z.eqb_spec b 10) as [->|]; [|reflexivity]; apply decimal_fast_regular; destruct (skip_zeros_suffix (c :: ds)) as [n ->]; apply bytes_skipn, H).
Qed.
Lemma read_digits_value r t p ds rest : base_ok (pr_base p) -> enc_ok (s_enc r) (pr_it p) ->
  digit_run (pr_base p) (pr_it p) ds rest ->
  read_digits r t p = with_rest (parse_integer_value (s_enc r) t ds (pr_sign p) (pr_base p)) rest.
Proof.
  intros Hb He (Es & Hne & Hds & Hr). unfold read_digits, parse_integer_digits_without_thsep. rewrite Es.
  destruct (s_contig r).
  - destruct (ds ++ rest) as [|c s'] eqn:E'; [apply app_eq_nil in E'; tauto|].
    cbn [bind]. rewrite <- E' in *. clear c s' E'. cbn [length]. rewrite Nat.sub_0_r, firstn_all.
    rewrite piv_app by (try assumption; rewrite <- Es; assumption).
    destruct (parse_integer_value _ _ ds _ _) as [[v x]| | |]; try reflexivity.
    cbn [with_rest bind]. rewrite app_length, Nat.add_sub, skipn_len_app. reflexivity.
  - unfold read_while1_code_unit, read_while_code_unit, read_until_code_unit. unfold base_ok in Hb.
    rewrite find_if_run by (assumption || lia). replace (length rest =? length (ds ++ rest))%nat with false.
    2:{ symmetry. apply Nat.eqb_neq. rewrite app_length. destruct ds; [contradiction|]. cbn [length]. lia. }
    cbn [bind]. rewrite app_length, Nat.add_sub, firstn_len_app.
    assert (P := piv_app (s_enc r) t ds [] (pr_sign p) (pr_base p) Hb). rewrite app_nil_r in P. rewrite P at 1; auto.
    2:{ rewrite Es in He. apply enc_ok_app in He. tauto. }
    destruct (parse_integer_value _ _ ds _ _) as [[v x]| | |]; try reflexivity.
    cbn [with_rest bind length]. rewrite Nat.sub_0_r, skipn_len_app. reflexivity.
Qed.
Lemma T_run b : b <= 36 -> forall ds x y rest, T x y -> y = ds ++ rest -> Forall (is_digit b) ds ->
  exists rest', x = ds ++ rest' /\ T rest' rest.
Proof.
  intros Hb. induction ds as [|c ds IH]; intros x y rest HT -> Hd; [exists x; auto|]. cbn [app] in HT. inversion Hd as [|? ? Hc Hds]; subst.
  destruct (T_case _ _ HT) as [(d & x' & y' & -> & E & _ & _ & HT')|[-> E]].
  - injection E as <- <-. destruct (IH x' _ rest HT' eq_refl Hds) as (rest' & -> & HR). exists rest'. auto.
  - exfalso. rewrite <- E in Hh. cbn in Hh. apply digit_ascii in Hc. lia.
Qed.
Lemma T_digits r8 r32 t p q : alike r8 r32 -> same_prefix p q -> (it_signed t = false -> is_minus (pr_sign q) = false) ->
  pair same_rest (read_digits r8 t p) (read_digits r32 t q).
Proof.
  intros (E8 & E32 & _) (HT & HB & HS & _ & HO & HD & _) Hm. assert (B36 : pr_base q <= 36) by (unfold base_ok in HO; lia).
  destruct (not_digit_of (pr_base q) (pr_it q)) eqn:EN.
  - assert (N : forall l, not_digit_of (pr_base q) l = true -> ~ starts_with_digit (pr_base q) l).
    { intros l E. rewrite <- not_digit_of_spec by exact B36. congruence. }
    rewrite !read_digits_none; try assumption; [reflexivity|apply N, EN|rewrite HB; exact HO| |congruence|rewrite HS; exact Hm].
    rewrite HB. apply N. rewrite (T_digit _ _ _ B36 HT). exact EN.
  - assert (EN2 := EN). apply not_digit_of_spec in EN2; [|exact B36]. destruct (run_exists _ _ EN2) as (ds & rest & HR).
    assert (HR' := HR). destruct HR' as (Es & Hne & Hds & Hr).
    destruct (T_run _ B36 ds _ _ rest HT Es Hds) as (rest' & Es' & HT').
    rewrite (read_digits_value r32 t q ds rest) by (try assumption; unfold enc_ok; congruence).
    rewrite (read_digits_value r8 t p ds rest').
    + rewrite E8, E32, HB, HS, piv_enc by (eapply digits_bytes, Hds).
      destruct (parse_integer_value _ _ _ _ _) as [[v l]| | |]; cbn; auto. split; [reflexivity|exact HT'].
    + rewrite HB. exact HO.
    + intros _. eapply T_bytes, HT.
    + rewrite HB. split; [exact Es'|]. split; [exact Hne|]. split; [exact Hds|]. rewrite <- not_digit_of_spec by exact B36.
      rewrite (T_digit _ _ _ B36 HT'). rewrite not_digit_of_spec by exact B36. exact Hr.
Qed.
Lemma T_generic r8 r32 t x y b negok : alike r8 r32 -> b = 0 \/ base_ok b -> (negok = true -> it_signed t = true) -> T x y ->
  pair same_rest (int_generic r8 t x b negok) (int_generic r32 t y b negok).
Proof.
  intros HA Hb Hn HT. unfold int_generic. eapply pair_bind; [apply T_prefix; eassumption|]. intros p q HP.
  assert (HP' := HP). destruct HP' as (HT1 & HB & HS & HZ & HO & HD & HZD). rewrite HS, HZ.
  destruct (is_minus (pr_sign q) && negb negok) eqn:EM; [reflexivity|].
  destruct (pr_zero q).
  - specialize (HZD eq_refl). destruct (T_case _ _ HT1) as [(c & x' & y' & -> & -> & _ & _ & HT2)|[E1 E2]].
    + cbn. split; [reflexivity|exact HT2].
    + exfalso. rewrite E2 in HZD. apply not_digit_of_spec in HZD; [|lia]. destruct z as [|c l]; [exact HZD|]. cbn in Hh, HZD. apply digit_ascii in HZD. lia.
  - apply T_digits; auto. intros HU. destruct (is_minus (pr_sign q)); [|reflexivity]. destruct negok; [rewrite (Hn eq_refl) in HU; discriminate|discriminate].
Qed.
(** With thousands separators. *)
Lemma T_thsep sep b : ascii sep -> b <= 36 -> forall x y i o ix m, T x y -> Forall (is_digit b) o -> (m = true -> o <> []) ->
  exists o' ix' m' it it', thsep_loop sep b x i o ix m = (it, o', ix', m') /\ thsep_loop sep b y i o ix m = (it', o', ix', m')
    /\ T it it' /\ Forall (is_digit b) o' /\ (m' = true -> o' <> []) /\ (length x + length o + length ix = length it + length o' + length ix')%nat.
Proof.
  intros Hsep Hb x y i o ix m HT. destruct HT as (a & HS & -> & ->). revert HS i o ix m. unfold ascii in Hsep.
  assert (D : forall l i o ix m, high l -> thsep_loop sep b l i o ix m = (l, o, ix, m)).
  { intros [|c l] i o ix m; [reflexivity|]. cbn. intros Hc. replace (c =? sep) with false by lia.
    replace (b <=? char_to_int c) with true; [reflexivity|]. symmetry. apply char_to_int_not_digit; [exact Hb|]. intros Hd. apply digit_ascii in Hd. lia. }
  destruct (high_text z Hz Hh) as (HH & _). assert (HT0 : T (text U8 z) z) by (exists []; split; [apply suffix_nil|auto]).
  induction a as [|c a IH]; intros HS i o ix m Ho Hm.
  - exists o, ix, m, (text U8 z), z. cbn [app]. rewrite !D by assumption. repeat (split; [auto; fail|]). auto.
  - cbn [app thsep_loop]. assert (HS' := suffix_cons_inv _ _ _ HS). destruct (c =? sep).
    + destruct (IH HS' (i + 1) o (ix ++ [i mod 256]) m Ho Hm) as (o' & ix' & m' & it & it' & E1 & E2 & H1 & H2 & H3 & H4).
      exists o', ix', m', it, it'. repeat (split; [assumption|]). rewrite !app_length in *. cbn [length] in *. rewrite ?app_length in *. lia.
    + destruct (b <=? char_to_int c) eqn:EB.
      * exists o, ix, m, (c :: a ++ text U8 z), (c :: a ++ z). split; [reflexivity|]. split; [reflexivity|]. split; [exists (c :: a); auto|]. auto.
      * assert (HC : is_digit b c) by (apply char_to_int_is_digit; assumption).
        destruct (IH HS' (i + 1) (o ++ [c]) ix true ltac:(apply Forall_app; auto) ltac:(intros _ E; apply app_eq_nil in E; destruct E; discriminate)) as (o' & ix' & m' & it & it' & E1 & E2 & H1 & H2 & H3 & H4).
        exists o', ix', m', it, it'. repeat (split; [assumption|]). rewrite !app_length in *. cbn [length] in *. rewrite ?app_length in *. lia.
Qed.
Lemma T_skip k x y it it' : T x y -> T it it' -> (length it + k <= length x)%nat -> T (skipn k x) (skipn k y).
Proof.
  intros (a & HS & -> & ->) (b & _ & -> & _) HK. rewrite !app_length in HK. rewrite !skipn_app.
  replace (k - length a)%nat with O by lia. cbn [skipn]. exists (skipn k a). split; [|auto].
  eapply suffix_trans; [apply suffix_skipn|exact HS].
Qed.
Lemma T_specs r8 r32 t sp sep x y : alike r8 r32 -> ascii sep -> parsed sp -> T x y ->
  pair same_rest (int_read_specs r8 t sp sep x) (int_read_specs r32 t sp sep y).
Proof.
  intros HA Hsep HP HT. destruct (get_base sp) as [b| | |] eqn:EB; try (unfold int_read_specs; rewrite EB; cbn; exact I || reflexivity).
  assert (Hb : b = 0 \/ base_ok b).
  { unfold get_base in EB. unfold base_ok. destruct (type sp); try discriminate; injection EB as <-; try lia. left. apply (p_base _ HP). }
  destruct (localized sp) eqn:EL.
  2: { rewrite !(specs_generic _ _ _ _ _ b) by assumption. apply T_generic; auto. intros H. apply andb_true_iff in H. apply H. }
  unfold int_read_specs. rewrite EB, EL. cbn [bind]. eapply pair_bind; [apply T_prefix; eassumption|]. intros p q HPQ.
  assert (HP' := HPQ). destruct HP' as (HT1 & HB & HS & HZ & HO & HD & HZD). rewrite HS, HZ, HB.
  destruct (_ && (_ || _)) eqn:EM; [reflexivity|]. destruct (pr_zero q).
  - specialize (HZD eq_refl). destruct (T_case _ _ HT1) as [(c & x' & y' & -> & -> & _ & _ & HT2)|[E1 E2]].
    + cbn. split; [reflexivity|exact HT2].
    + exfalso. rewrite E2 in HZD. apply not_digit_of_spec in HZD; [|lia]. destruct z as [|c l]; [exact HZD|]. cbn in Hh, HZD. apply digit_ascii in HZD. lia.
  - cbn [negb]. unfold parse_integer_digits_with_thsep. assert (B36 : pr_base q <= 36) by (unfold base_ok in HO; lia).
    destruct (T_thsep sep (pr_base q) Hsep B36 _ _ 0 [] [] false HT1 (Forall_nil _) ltac:(discriminate)) as (o & ix & m & it & it' & E1 & E2 & H1 & H2 & H3 & H4).
    rewrite E1, E2. destruct m; [|reflexivity]. cbn [bind]. destruct HA as (E8 & E32 & _). rewrite E8, E32, piv_enc by (eapply digits_bytes, H2).
    destruct (parse_integer_value U32 t o (pr_sign q) (pr_base q)) as [[v rest]| | |]; cbn; auto.
    split; [reflexivity|]. cbn [snd]. eapply T_skip; [exact HT1|exact H1|]. cbn [length] in H4. lia.
Qed.
End Tail.

(** From places to texts. *)
Lemma text_ascii e l : ascii_str l -> text e l = l.
Proof. apply ascii_text_enc. Qed.
Lemma T_twin {X} a0 z (x y : outcome (X * list Z)) : ascii_str a0 -> pair (same_rest a0 z) x y -> twin (a0 ++ z) x y.
Proof.
  intros HA. destruct x as [[u i]| | |], y as [[v j]| | |]; cbn; try contradiction.
  - intros [E (a & HS & HI & HJ)]. cbn [fst snd] in *. subst. split.
    + unfold lift. cbn. rewrite text_app, (text_ascii U8 a) by (eapply suffix_Forall; eassumption). reflexivity.
    + intros v0 l [= <- <-]. destruct HS as [p ->]. exists p. apply app_assoc_reverse.
  - intros ->. split; [reflexivity|discriminate].
  - split; [reflexivity|discriminate].
  - split; [reflexivity|discriminate].
Qed.
Lemma T_start a0 z : T a0 z (a0 ++ text U8 z) (a0 ++ z).
Proof. exists a0. split; [apply suffix_refl|auto]. Qed.
Lemma good_split cps : good cps -> exists a z, cps = a ++ z /\ text U8 cps = a ++ text U8 z /\ ascii_str a
  /\ Forall (fun c => ascii c /\ c <> 16) a /\ Forall scalar z /\ high z.
Proof.
  intros H. destruct (ascii_split cps (good_scalar _ H)) as (a & z & -> & Ha & Hz). exists a, z. split; [reflexivity|].
  apply good_app in H as [H1 H2]. split; [rewrite text_app, text_ascii by exact Ha; reflexivity|]. split; [exact Ha|]. split; [|split; [exact (good_scalar _ H2)|exact Hz]].
  clear Hz H2. induction Ha; [constructor|]. inversion H1; subst. constructor; [tauto|auto].
Qed.

(** src/scn/impl.h:3400-3658: integers. *)
Theorem int_default_twin r8 r32 t cps : alike r8 r32 -> good cps ->
  twin cps (int_read_default r8 t (text U8 cps)) (int_read_default r32 t cps).
Proof.
  intros HA H. destruct (good_split cps H) as (a & z & -> & -> & Ha & Ha0 & Hz & Hh). apply T_twin; [exact Ha|].
  unfold int_read_default. rewrite !default_generic. apply T_generic; auto; [right; unfold base_ok; lia|apply T_start].
Qed.
Theorem int_specs_twin r8 r32 t sp sep cps : alike r8 r32 -> ascii sep -> parsed sp -> good cps ->
  twin cps (int_read_specs r8 t sp sep (text U8 cps)) (int_read_specs r32 t sp sep cps).
Proof.
  intros HA Hs HP H. destruct (good_split cps H) as (a & z & -> & -> & Ha & Ha0 & Hz & Hh). apply T_twin; [exact Ha|].
  apply T_specs; auto. apply T_start.
Qed.

(** * Outcomes in step *)
Lemma twin_fail {V} cps (x y : outcome (V * list Z)) : x = lift y -> (forall v l, y <> Ok (v, l)) -> twin cps x y.
Proof. intros H N. split; [exact H|]. intros v l E. destruct (N _ _ E). Qed.
Lemma twin_err {V} cps e : @twin V cps (Err e) (Err e).
Proof. apply twin_fail; [reflexivity|discriminate]. Qed.
Lemma twin_ub {V} cps : @twin V cps UB UB.
Proof. apply twin_fail; [reflexivity|discriminate]. Qed.
Lemma twin_map {V W} (f : V -> W) cps x y : twin cps x y ->
  twin cps ('(v, l) <- x ;; Ok (f v, l)) ('(v, l) <- y ;; Ok (f v, l)).
Proof.
  intros [-> H]. destruct y as [[v l]| | |]; cbn; [|apply twin_fail; [reflexivity|discriminate]..].
  split; [reflexivity|]. intros v' l' [= _ <-]. exact (H _ _ eq_refl).
Qed.
Lemma twin_suffix {V} a l (x y : outcome (V * list Z)) : twin l x y -> twin (a ++ l) x y.
Proof. intros [E H]. split; [exact E|]. intros v m Ey. destruct (H v m Ey) as [b ->]. exists (a ++ b). apply app_assoc. Qed.
(** What code points make of both texts. *)
Lemma twin_text {V} cps (rc : outcome (V * list Z)) x y : x = ('(v, l) <- rc ;; Ok (v, text U8 l)) -> y = ('(v, l) <- rc ;; Ok (v, text U32 l)) ->
  (forall v l, rc = Ok (v, l) -> exists a, cps = a ++ l) -> twin cps x y.
Proof.
  intros -> -> H. destruct rc as [[v l]| | |]; cbn; try (apply twin_fail; [reflexivity|discriminate]). rewrite text32. split; [reflexivity|].
  intros v' l' [= _ <-]. exact (H _ _ eq_refl).
Qed.

(** ** Frames *)
Definition wholes (r8 : src) : Prop := forall cps, whole r8 cps.
Lemma alike_view r8 r32 : alike r8 r32 -> alike (view_src r8) (view_src r32).
Proof. intros (H1 & H2 & _). split; [exact H1|]. split; [exact H2|reflexivity]. Qed.
Lemma good_within ds cps : within ds cps -> good cps -> good ds.
Proof. intros (a & b & ->) H. apply good_app in H as [_ H]. apply good_app in H. apply H. Qed.
Lemma frame_twin {V} r8 r32 sp skip (read8 read32 : src -> list Z -> outcome (V * list Z)) cps : alike r8 r32 -> wholes r8 ->
  ascii_specs sp -> parsed sp -> good cps ->
  (forall r r' ds, alike r r' -> wholes r -> good ds -> twin ds (read8 r (text U8 ds)) (read32 r' ds)) ->
  twin cps (arg_read r8 sp skip read8 (text U8 cps)) (arg_read r32 sp skip read32 cps).
Proof.
  intros HA HW [(f & Hf & EF) _] HP HG HR. assert (HA' := HA). destruct HA' as (E8 & E32 & _).
  set (r' := if precision sp =? 0 then r32 else view_src r32). set (r := if precision sp =? 0 then r8 else view_src r8).
  assert (HA2 : alike r r') by (unfold r, r'; destruct (precision sp =? 0); [exact HA|apply alike_view, HA]).
  assert (HW2 : wholes r) by (unfold r; destruct (precision sp =? 0); [exact HW|intros l; apply view_whole]).
  assert (HSf : forall ds x l, within ds cps -> read32 r' ds = Ok (x, l) -> exists a, ds = a ++ l).
  { intros ds x l Hds. exact (proj2 (HR r r' ds HA2 HW2 (good_within _ _ Hds HG)) x l). }
  assert (Hsc : scalar f) by (unfold ascii in Hf; unfold scalar; lia).
  assert (EU : utf8_of f = [f]) by (unfold ascii in Hf; unfold utf8_of; replace (f <? 128) with true by lia; reflexivity).
  assert (F8 : align sp <> ANone -> fill_ok (s_enc r8) f (fill sp)).
  { intros _. rewrite E8, EF. split; [exact Hsc|]. cbn [f_size f_data firstn]. rewrite EU. auto. }
  assert (F32 : align sp <> ANone -> fill_ok (s_enc r32) f (fill sp)).
  { intros _. rewrite E32, EF. split; [exact Hsc|]. cbn [f_size f_data firstn]. unfold ascii in Hf. split; [lia|auto]. }
  assert (X8 := arg_read_field_in r8 sp f skip read8 (read32 r') (proj1 (p_prec _ HP)) F8 cps).
  assert (X32 := arg_read_field_in r32 sp f skip read32 (read32 r') (proj1 (p_prec _ HP)) F32 cps).
  rewrite E8 in X8. rewrite E32 in X32. rewrite text32 in X32.
  eapply twin_text.
  - apply X8; auto; [|apply good_scalar, HG]. intros ds Hds _ _. exact (proj1 (HR r r' ds HA2 HW2 (good_within _ _ Hds HG))).
  - apply X32; auto; [|intros _ _; apply wide_whole; congruence|apply good_scalar, HG].
    intros ds Hds _ _. rewrite text32. fold r'. destruct (read32 r' ds) as [[v l]| | |]; cbn; rewrite ?text32; reflexivity.
  - intros v l E. apply field_suffix_in in E; [|exact HSf]. destruct E as (a & -> & _). exists a. reflexivity.
Qed.
Lemma checked_twin {V} r8 r32 (rd : reader V) sp cps : alike r8 r32 -> wholes r8 ->
  ascii_specs sp -> parsed sp -> good cps ->
  (rd_check rd sp = true -> forall r r' ds, alike r r' -> wholes r -> good ds -> twin ds (rd_specs rd r sp (text U8 ds)) (rd_specs rd r' sp ds)) ->
  twin cps (arg_read_checked r8 rd sp (text U8 cps)) (arg_read_checked r32 rd sp cps).
Proof.
  intros HA HW HS HP HG HR. unfold arg_read_checked. destruct (rd_check rd sp); [|apply twin_err].
  apply frame_twin; auto.
Qed.
Lemma skip_twin r8 r32 cps skip : alike r8 r32 -> wholes r8 -> good cps ->
  match skip_ws_before_if_required r32 skip cps with
  | Ok l => skip_ws_before_if_required r8 skip (text U8 cps) = Ok (text U8 l) /\ exists a, cps = a ++ l
  | Err e => skip_ws_before_if_required r8 skip (text U8 cps) = Err e
  | _ => False
  end.
Proof.
  intros (E8 & E32 & _) HW HG. assert (HS := good_scalar _ HG). unfold skip_ws_before_if_required.
  assert (H8 := skip_ws_text r8 cps false (HW cps) HS). assert (H32 := skip_ws_text r32 cps false (wide_whole r32 cps ltac:(congruence)) HS).
  rewrite E8 in H8. rewrite E32, !text32 in H32.
  assert (G : match skip_classic_whitespace r32 cps false with
    | Ok l => skip_classic_whitespace r8 (text U8 cps) false = Ok (text U8 l) /\ exists a, cps = a ++ l
    | Err e => skip_classic_whitespace r8 (text U8 cps) false = Err e | _ => False end).
  { rewrite H32, H8. destruct (_ && _); [reflexivity|]. split; [reflexivity|apply lead_suffix]. }
  destruct cps as [|c cps]; [reflexivity|]. destruct (text U8 (c :: cps)) as [|u l] eqn:ET.
  { apply text_nil_iff in ET; [discriminate|exact HS]. }
  destruct skip; [exact G|]. rewrite ET. split; [reflexivity|]. exists []. reflexivity.
Qed.
Lemma default_twin {V} r8 r32 skip (read8 read32 : list Z -> outcome (V * list Z)) cps : alike r8 r32 -> wholes r8 -> good cps ->
  (forall ds, good ds -> twin ds (read8 (text U8 ds)) (read32 ds)) ->
  twin cps (default_read r8 skip read8 (text U8 cps)) (default_read r32 skip read32 cps).
Proof.
  intros HA HW HG HR. assert (H := skip_twin r8 r32 cps skip HA HW HG). unfold default_read.
  destruct (skip_ws_before_if_required r32 skip cps) as [l|e| |]; try contradiction.
  - destruct H as [-> [a ->]]. apply twin_suffix, HR. apply good_app in HG. apply HG.
  - rewrite H. apply twin_err.
Qed.

(** ** Booleans: src/scn/impl.h:5388-5563. *)
Lemma ascii_scalars w : ascii_str w -> Forall scalar w.
Proof. apply Forall_impl. intros c Hc. unfold ascii in Hc. unfold scalar. lia. Qed.
Lemma custom_names_text e yes no cps : ascii_str yes -> ascii_str no -> Forall scalar cps ->
  bool_textual_custom yes no (text e cps)
  = txt e (spelled (if (length yes <=? length no)%nat then [(true, yes); (false, no)] else [(false, no); (true, yes)]) cps).
Proof.
  intros Hy Hn H. assert (X := two_text e true yes false no cps (ascii_scalars _ Hy) (ascii_scalars _ Hn) H).
  assert (Y := two_text e false no true yes cps (ascii_scalars _ Hn) (ascii_scalars _ Hy) H).
  rewrite (text_ascii e yes Hy), (text_ascii e no Hn) in X, Y. unfold bool_textual_custom.
  destruct (length yes <=? length no)%nat; [exact X|exact Y].
Qed.
Lemma bool_twin tx num l cps (t8 t32 : list Z -> outcome (bool * list Z)) : good cps ->
  t8 (text U8 cps) = txt U8 (spelled l cps) -> t32 cps = txt U32 (spelled l cps) ->
  twin cps (bool_either tx num t8 (text U8 cps)) (bool_either tx num t32 cps).
Proof.
  intros HG H8 H32. assert (HS := good_scalar _ HG).
  assert (HN8 := numeric_text U8 cps HS). assert (HN32 := numeric_text U32 cps HS). rewrite text32 in HN32.
  unfold bool_either. rewrite HN8, HN32, H8, H32.
  assert (G : forall m, twin cps (txt U8 (spelled m cps)) (txt U32 (spelled m cps))).
  { intros m. apply (twin_text cps (spelled m cps)); [reflexivity|reflexivity|]. intros v k. apply spelled_suffix. }
  destruct num; [|destruct tx; [apply G|apply twin_err]].
  assert (HE := spelled_err [(false, [48]); (true, [49])] cps False).
  destruct (spelled [(false, [48]); (true, [49])] cps) as [[b k]|x| |] eqn:ES; try contradiction.
  - assert (G1 := G [(false, [48]); (true, [49])]). rewrite ES in G1. exact G1.
  - cbn [txt bind]. destruct tx; [apply G|apply twin_err].
Qed.
Lemma bool_default_twin r8 r32 cps : alike r8 r32 -> wholes r8 -> good cps ->
  twin cps (bool_default r8 (text U8 cps)) (bool_default r32 cps).
Proof.
  intros HA HW HG. apply default_twin; auto. intros ds Hds. assert (HS := good_scalar _ Hds).
  assert (H32 := classic_text U32 ds HS). rewrite text32 in H32.
  apply (bool_twin true true _ ds _ _ Hds (classic_text U8 ds HS) H32).
Qed.
Lemma bool_specs_twin names r8 r32 sp cps : alike r8 r32 -> wholes r8 -> ascii_specs sp -> parsed sp -> good cps ->
  ascii_str (fst names) -> ascii_str (snd names) ->
  twin cps (arg_read_checked r8 (bool_reader names) sp (text U8 cps)) (arg_read_checked r32 (bool_reader names) sp cps).
Proof.
  intros HA HW HS HP HG H1 H2. apply checked_twin; auto. intros _ r r' ds _ _ Hds. assert (HSc := good_scalar _ Hds).
  cbn [bool_reader rd_specs]. unfold bool_specs. destruct (bool_options sp) as [tx num]. destruct (localized sp).
  - assert (H32 := custom_names_text U32 _ _ ds H1 H2 HSc). rewrite text32 in H32.
    apply (bool_twin tx num _ ds _ _ Hds (custom_names_text U8 _ _ ds H1 H2 HSc) H32).
  - assert (H32 := classic_text U32 ds HSc). rewrite text32 in H32.
    apply (bool_twin tx num _ ds _ _ Hds (classic_text U8 ds HSc) H32).
Qed.

(** ** Code points: src/scn/impl.h:5610-5771; [char] is not read from wide text, and [wchar_t]
    reports the end of a field differently. *)
Lemma char_twin r8 r32 cps : alike r8 r32 -> good cps ->
  twin cps (char_default_read KCodePoint r8 (text U8 cps)) (char_default_read KCodePoint r32 cps).
Proof.
  intros (E8 & E32 & _) HG. assert (HS := good_scalar _ HG).
  assert (C8 := code_points_text U8 cps HS). assert (C32 := code_points_text U32 cps HS). rewrite text32 in C32.
  assert (FS : forall v l, first_code_point cps = Ok (v, l) -> exists a, cps = a ++ l).
  { intros v l. destruct cps as [|c l']; [discriminate|]. intros [= <- <-]. exists [c]. reflexivity. }
  unfold char_default_read. rewrite E8, E32, C8, C32. apply (twin_text cps (first_code_point cps)); auto.
Qed.

(** ** Strings: src/scn/impl.h:4789-5376. *)
Lemma dest_both to : to <> U16 -> dest_ok (DString to) U8 to /\ dest_ok (DString to) U32 to.
Proof. intros H. split; cbn; (split; [reflexivity|right; split; [discriminate|exact H]]). Qed.
Lemma store_twin to cps a l : to <> U16 -> Forall scalar cps -> cps = a ++ l ->
  twin cps (store (DString to) U8 (text U8 cps) (text U8 l)) (store (DString to) U32 cps l).
Proof.
  intros Ht H ->. destruct (dest_both to Ht) as [D8 D32]. apply Forall_app in H as [Ha _].
  rewrite (store_text _ U8 to a l D8 Ha). assert (S32 := store_text _ U32 to a l D32 Ha). rewrite !text32 in S32. rewrite S32.
  split; [reflexivity|]. intros v l' [= _ <-]. exists a. reflexivity.
Qed.
Lemma coded_twin r8 r32 to rc cps x y : alike r8 r32 -> x = coded (s_enc r8) to rc cps -> y = coded (s_enc r32) to rc cps ->
  (forall v l, rc cps = Ok (v, l) -> exists a, cps = a ++ l) -> twin cps x y.
Proof.
  intros (E8 & E32 & _) -> -> H. rewrite E8, E32. unfold coded.
  apply (twin_text cps ('(v, l) <- rc cps ;; Ok (text to v, l))).
  - destruct (rc cps) as [[v l]| | |]; reflexivity.
  - destruct (rc cps) as [[v l]| | |]; reflexivity.
  - intros v l. destruct (rc cps) as [[v' l']| | |]; cbn; try discriminate. intros [= _ <-]. exact (H _ _ eq_refl).
Qed.
Lemma word_twin to r8 r32 cps : to <> U16 -> alike r8 r32 -> wholes r8 -> good cps ->
  twin cps (word_read (DString to) r8 (text U8 cps)) (word_read (DString to) r32 cps).
Proof.
  intros Ht HA HW HG. assert (HS := good_scalar _ HG). destruct (dest_both to Ht) as [D8 D32]. assert (HA' := HA). destruct HA' as (E8 & E32 & _).
  assert (W8 := word_text (DString to) r8 to cps (HW cps)). assert (W32 := word_text (DString to) r32 to cps (wide_whole r32 cps ltac:(congruence))).
  rewrite E8 in W8. rewrite E32, text32 in W32.
  apply (coded_twin r8 r32 to (take Word) cps); [exact HA|rewrite E8; auto|rewrite E32; auto|]. intros v l E. apply take_suffix in E. eauto.
Qed.
Lemma custom_word_twin to r8 r32 sp cps : to <> U16 -> alike r8 r32 -> ascii_specs sp -> good cps ->
  twin cps (custom_word_read (DString to) r8 (fill sp) (text U8 cps)) (custom_word_read (DString to) r32 (fill sp) cps).
Proof.
  intros Ht HA [(f & Hf & EF) _] HG. assert (HS := good_scalar _ HG). destruct (dest_both to Ht) as [D8 D32]. assert (HA' := HA). destruct HA' as (E8 & E32 & _).
  assert (Hsc : scalar f) by (unfold ascii in Hf; unfold scalar; lia).
  assert (EU : utf8_of f = [f]) by (unfold ascii in Hf; unfold utf8_of; replace (f <? 128) with true by lia; reflexivity).
  assert (W8 := custom_word_text (DString to) r8 to f (fill sp) cps). assert (W32 := custom_word_text (DString to) r32 to f (fill sp) cps).
  rewrite E8 in W8. rewrite E32, text32 in W32.
  apply (coded_twin r8 r32 to (take (Until f)) cps); [exact HA|rewrite E8|rewrite E32|].
  - apply W8; auto; [discriminate|]. rewrite EF. split; [exact Hsc|]. cbn [f_size f_data firstn]. rewrite EU. auto.
  - apply W32; auto; [discriminate|]. rewrite EF. split; [exact Hsc|]. cbn [f_size f_data firstn]. unfold ascii in Hf. split; [lia|auto].
  - intros v l E. apply take_suffix in E. eauto.
Qed.
Lemma character_twin to r8 r32 sp cps : to <> U16 -> alike r8 r32 -> good cps ->
  twin cps (character_read (DString to) r8 sp (text U8 cps)) (character_read (DString to) r32 sp cps).
Proof.
  intros Ht (E8 & E32 & _) HG. assert (HS := good_scalar _ HG). unfold character_read. destruct (precision sp =? 0); [apply twin_err|].
  rewrite E8, E32. apply (store_twin to cps cps []); auto. symmetry. apply app_nil_r.
Qed.
Lemma drop_twin to cps p : to <> U16 -> good cps ->
  twin cps (it <- (if (length (text U8 (drop_until p cps)) =? length (text U8 cps))%nat then Err InvalidScannedValue else Ok (text U8 (drop_until p cps))) ;;
            store (DString to) U8 (text U8 cps) it)
           (it <- (if (length (drop_until p cps) =? length cps)%nat then Err InvalidScannedValue else Ok (drop_until p cps)) ;;
            store (DString to) U32 cps it).
Proof.
  intros Ht HG. assert (HS := good_scalar _ HG).
  assert (L8 := text_len_eq U8 (fun c => negb (p c)) cps HS). assert (L32 := text_len_eq U32 (fun c => negb (p c)) cps HS).
  rewrite <- drop_lead in L8, L32. rewrite !text32 in L32. rewrite L8, L32.
  destruct (lead _ cps); [apply twin_err|]. destruct (drop_until_suffix p cps) as [a Ea]. cbn [bind]. apply (store_twin to cps a); auto.
Qed.
Lemma set_twin to r8 r32 sp cps : to <> U16 -> alike r8 r32 -> ascii_specs sp -> good cps ->
  twin cps (set_read (DString to) r8 sp (text U8 cps)) (set_read (DString to) r32 sp cps).
Proof.
  intros Ht (E8 & E32 & _) [_ HC] HG. assert (HS := good_scalar _ HG). unfold set_read, set_source. rewrite E8, E32.
  assert (EH : handle_nonascii U8 sp = handle_nonascii U32 sp) by (unfold handle_nonascii; rewrite set_ascii by exact HC; reflexivity).
  rewrite EH. destruct (handle_nonascii U32 sp) as [rs|e| |]; cbn [bind].
  2: apply twin_err. 2: apply twin_ub. 2: { apply twin_fail; [reflexivity|discriminate]. }
  assert (U : forall e p, read_until_code_point e p (text e cps) = Ok (text e (drop_until p cps))) by (intros e p; apply read_until_text, HS).
  assert (U32' : forall p, read_until_code_point U32 p cps = Ok (drop_until p cps)).
  { intros p. specialize (U U32 p). rewrite !text32 in U. exact U. }
  assert (P : forall u, 128 <= u -> on_ascii_only (charset_literals sp) u = false).
  { intros u Hu. unfold on_ascii_only, is_ascii_char. replace (u <=? 127) with false by lia. reflexivity. }
  destruct (charset_has_nonascii sp), (charset_is_inverted sp).
  - rewrite U, U32'. cbn [bind]. apply drop_twin; auto.
  - unfold read_while_code_point. rewrite U, U32'. cbn [bind]. apply drop_twin; auto.
  - cbn [bind]. assert (X32 := until_unit_text U32 _ cps ltac:(discriminate) P HS). rewrite !text32 in X32.
    rewrite (until_unit_text U8 _ cps ltac:(discriminate) P HS), X32. apply drop_twin; auto.
  - cbn [bind]. assert (X32 := while_unit_text U32 _ cps ltac:(discriminate) P HS). rewrite !text32 in X32.
    rewrite (while_unit_text U8 _ cps ltac:(discriminate) P HS), X32, !after_drop. apply drop_twin; auto.
Qed.
(** A regular expression engine for narrow text and one for wide text finding the same. *)
Definition same_engine (rx8 rx32 : regex_engine) : Prop := forall p fl cps, ascii_str p -> good cps ->
  match rx32 p fl cps with
  | Ok l => rx8 p fl (text U8 cps) = Ok (text U8 l) /\ exists a, cps = a ++ l
  | x => rx8 p fl (text U8 cps) = x
  end.
Lemma regex_twin to rx8 rx32 r8 r32 p fl cps : to <> U16 -> same_engine rx8 rx32 -> alike r8 r32 -> ascii_str p -> good cps ->
  twin cps (regex_read rx8 (DString to) r8 p fl (text U8 cps)) (regex_read rx32 (DString to) r32 p fl cps).
Proof.
  intros Ht HX (E8 & E32 & EC) Hp HG. unfold regex_read. rewrite EC, E8, E32. destruct (negb (s_contig r32)); [apply twin_err|].
  specialize (HX p fl cps Hp HG). destruct (rx32 p fl cps) as [l|e| |].
  - destruct HX as [-> [a Ea]]. cbn [bind]. apply (store_twin to cps a); auto. apply good_scalar, HG.
  - rewrite HX. apply twin_err.
  - rewrite HX. apply twin_ub.
  - rewrite HX. apply twin_fail; [reflexivity|discriminate].
Qed.
Lemma unescape_ascii p : ascii_str p -> ascii_str (unescape_pattern p).
Proof.
  remember (length p) as n eqn:En. assert (Hn : (length p <= n)%nat) by lia. clear En. revert p Hn.
  induction n as [|n IH]; intros p Hn H; [destruct p; [constructor|cbn in Hn; lia]|].
  destruct H as [|c p Hc H]; [constructor|]. cbn [unescape_pattern]. destruct H as [|d p Hd H]; [auto|]. cbn [length] in Hn.
  destruct (_ && _); constructor; auto; [unfold ascii; lia|apply IH; auto; lia|apply IH; [cbn [length]; lia|auto]].
Qed.
Lemma string_default_twin to r8 r32 cps : to <> U16 -> alike r8 r32 -> wholes r8 -> good cps ->
  twin cps (string_default (DString to) r8 (text U8 cps)) (string_default (DString to) r32 cps).
Proof. intros. apply default_twin; auto. intros ds Hds. apply word_twin; auto. Qed.
Lemma string_specs_twin to rx8 rx32 r8 r32 sp cps : to <> U16 -> same_engine rx8 rx32 -> alike r8 r32 -> wholes r8 ->
  ascii_specs sp -> parsed sp -> good cps ->
  twin cps (string_arg rx8 (DString to) r8 sp (text U8 cps)) (string_arg rx32 (DString to) r32 sp cps).
Proof.
  intros Ht HX HA HW HS HP HG. unfold string_arg, arg_read_checked. cbn [string_reader rd_check rd_skip rd_specs].
  destruct (check_string_type_specs sp); [|apply twin_err]. apply frame_twin; auto. intros r r' ds HA' HW' Hds.
  unfold string_specs. destruct (string_kind_of sp).
  - apply word_twin; auto.
  - apply custom_word_twin; auto.
  - apply character_twin; auto.
  - apply set_twin; auto.
  - apply regex_twin; auto. apply HS.
  - apply regex_twin; auto. apply unescape_ascii, HS.
Qed.
(** ** Pointers: src/scn/impl.h:5777-5825. *)
Lemma pointer_twin sep r8 r32 cps : ascii sep -> alike r8 r32 -> good cps ->
  twin cps (pointer_read sep r8 (text U8 cps)) (pointer_read sep r32 cps).
Proof. intros. apply int_specs_twin; auto. constructor; cbn; auto; try lia. Qed.
