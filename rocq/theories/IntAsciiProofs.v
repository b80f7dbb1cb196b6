(** Integer reading consumes ASCII characters only, hence whole code points. *)
From Verif Require Import Prelude Tables BitsModel UnicodeModel UnicodeSpec UnicodeProofs ReadModel
  ReadProofs FormatSpec FormatSpecProofs SpecsModel IntModel IntSpec IntProofs IntTotalProofs
  WidthSpec WidthProofs.
Local Open Scope Z_scope.

Definition ascii (c : Z) : Prop := 0 <= c < 128.
(** [a] is what is left of [b] after some ASCII characters. *)
Definition asfx (a b : list Z) : Prop := exists p, b = p ++ a /\ Forall ascii p.

Lemma asfx_refl a : asfx a a.
Proof. exists []. split; [reflexivity|constructor]. Qed.
Lemma asfx_cons c a b : ascii c -> asfx a b -> asfx a (c :: b).
Proof. intros Hc (p & -> & Hp). exists (c :: p). split; [reflexivity|constructor; assumption]. Qed.
Lemma asfx_trans a b c : asfx a b -> asfx b c -> asfx a c.
Proof.
  intros (p & -> & Hp) (q & -> & Hq). exists (q ++ p). split; [apply app_assoc|].
  apply Forall_app. split; assumption.
Qed.
Lemma asfx_suffix a b : asfx a b -> suffix a b.
Proof. intros (p & -> & _). exists p. reflexivity. Qed.

Lemma digit_ascii b c : is_digit b c -> ascii c.
Proof.
  intros (d & E & _). unfold digit_value in E. unfold ascii.
  destruct ((48 <=? c) && (c <=? 57)) eqn:E1; [lia|].
  destruct ((97 <=? c) && (c <=? 122)) eqn:E2; [lia|].
  destruct ((65 <=? c) && (c <=? 90)) eqn:E3; [lia|discriminate].
Qed.
Lemma run_asfx b s ds rest : digit_run b s ds rest -> asfx rest s.
Proof.
  intros (-> & _ & H & _). exists ds. split; [reflexivity|].
  eapply Forall_impl; [|exact H]. intros c. apply digit_ascii.
Qed.

Lemma nocase_asfx r L s it : L = 98 \/ L = 120 \/ L = 111 -> enc_ok (s_enc r) s ->
  read_matching_string_classic_nocase r [48; L] s = inl it -> asfx it s.
Proof.
  intros HL He. unfold read_matching_string_classic_nocase.
  destruct s as [|z [|l s]]; [discriminate..|].
  assert (El : (length (z :: l :: s) <? length [48; L]%Z)%nat = false)
    by (apply Nat.ltb_ge; cbn [length]; lia).
  rewrite El.
  change (firstn (length [48; L]) (z :: l :: s)) with [z; l].
  change (skipn (length [48; L]) (z :: l :: s)) with s.
  assert (HP : forall x, prefix_letter x L = true -> ascii x)
    by (intros x; unfold prefix_letter, ascii; destruct HL as [->|[->| ->]]; lia).
  assert (G : equal_nocase [48; L] (z :: l :: s) = (z =? 48) && prefix_letter l L).
  { unfold equal_nocase, ascii_tolower, prefix_letter.
    destruct ((z <? 65) || (90 <? z)) eqn:E1; destruct ((l <? 65) || (90 <? l)) eqn:E2;
      destruct HL as [->|[->| ->]]; lia. }
  assert (K : match s_enc r, s_contig r with
              | U8, true => fast_streq_nocase [z; l] [48; L]
              | _, _ => equal_nocase [48; L] (z :: l :: s)
              end = true -> ((z =? 48) || (z =? 16)) && prefix_letter l L = true).
  { destruct (s_enc r) eqn:E1; try (rewrite G; intros HH; apply andb_true_iff in HH as [-> ->]; reflexivity).
    destruct (s_contig r) eqn:E2; [|rewrite G; intros HH; apply andb_true_iff in HH as [-> ->]; reflexivity].
    specialize (He eq_refl). inversion_clear He as [|? ? Hz He']. inversion_clear He' as [|? ? Hl _].
    assert (S := streq2_sweep L HL z l Hz Hl). apply eqb_prop in S. rewrite S. auto. }
  cbv zeta. destruct (match s_enc r, s_contig r with U8, true => _ | _, _ => _ end); [|discriminate].
  specialize (K eq_refl). apply andb_true_iff in K. destruct K as [K1 K2]. intros [= <-].
  apply asfx_cons; [unfold ascii; lia|]. apply asfx_cons; [apply HP, K2|apply asfx_refl].
Qed.
Lemma oct_asfx r s it z : enc_ok (s_enc r) s ->
  parse_integer_oct_base_prefix r s = (inl it, z) -> asfx it s.
Proof.
  intros He. unfold parse_integer_oct_base_prefix.
  destruct (read_matching_string_classic_nocase r [48; 111] s) eqn:E.
  - intros [= <- <-]. eapply nocase_asfx; [|eassumption..]. lia.
  - destruct (read_matching_code_unit 48 s) eqn:F; [|discriminate]. apply code_unit_suffix in F.
    intros [= <- <-]. subst s. apply asfx_cons, asfx_refl. unfold ascii. lia.
Qed.
Lemma base_prefix_asfx r s b it b' z : enc_ok (s_enc r) s ->
  parse_integer_base_prefix r s b = (it, b', z) -> asfx it s.
Proof.
  intros He. unfold parse_integer_base_prefix.
  assert (HB : forall it, parse_integer_bin_base_prefix r s = inl it -> asfx it s)
    by (intros; eapply nocase_asfx; [|eassumption..]; lia).
  assert (HX : forall it, parse_integer_hex_base_prefix r s = inl it -> asfx it s)
    by (intros; eapply nocase_asfx; [|eassumption..]; lia).
  destruct (b =? 2).
  { intros [= <- <- <-]. unfold apply_opt.
    destruct (parse_integer_bin_base_prefix r s); auto using asfx_refl. }
  destruct (b =? 8).
  { destruct (parse_integer_oct_base_prefix r s) as [x z0] eqn:E. intros [= <- <- <-].
    destruct x as [l|q]; cbn [apply_opt]; [eapply oct_asfx; eassumption|apply asfx_refl]. }
  destruct (b =? 16).
  { intros [= <- <- <-]. unfold apply_opt.
    destruct (parse_integer_hex_base_prefix r s); auto using asfx_refl. }
  destruct (b =? 0); [|intros [= <- <- <-]; apply asfx_refl].
  unfold parse_integer_base_prefix_for_detection.
  destruct (parse_integer_hex_base_prefix r s); [intros [= <- <- <-]; auto|].
  destruct (parse_integer_bin_base_prefix r s); [intros [= <- <- <-]; auto|].
  destruct (parse_integer_oct_base_prefix r s) as [[l|q] z0] eqn:E3; intros [= <- <- <-];
    [eapply oct_asfx; eassumption|apply asfx_refl].
Qed.
Lemma sign_asfx s text sg : parse_numeric_sign s = Ok (text, sg) -> asfx text s.
Proof.
  destruct s as [|c s]; [discriminate|]. unfold parse_numeric_sign. cbn [read_one_of_code_unit existsb].
  destruct (Z.eqb_spec c 43) as [->|E1]; cbn [orb].
  { intros [= <- _]. apply asfx_cons, asfx_refl. unfold ascii; lia. }
  destruct (Z.eqb_spec c 45) as [->|E2]; cbn [orb].
  { intros [= <- _]. apply asfx_cons, asfx_refl. unfold ascii; lia. }
  intros [= <- _]. apply asfx_refl.
Qed.
Lemma prefix_asfx r s b p : enc_ok (s_enc r) s -> parse_integer_prefix r s b = Ok p ->
  asfx (pr_it p) s /\ (pr_zero p = true -> exists rest, pr_it p = 48 :: rest \/ asfx rest (pr_it p) /\ next1 (pr_it p) = Ok rest).
Proof.
  intros He. unfold parse_integer_prefix.
  destruct (parse_numeric_sign s) as [[t sg]|e| |] eqn:E; cbn [bind]; try discriminate.
  apply sign_asfx in E. assert (He' : enc_ok (s_enc r) t) by (eapply enc_ok_suffix; [apply asfx_suffix, E|exact He]).
  destruct (parse_integer_base_prefix r t b) as [[it b'] z] eqn:EB.
  assert (EP := base_prefix_asfx _ _ _ _ _ _ He' EB).
  assert (E2 : asfx it s) by (eapply asfx_trans; eassumption).
  destruct z.
  - destruct (not_digit_of 8 it); intros [= <-]; cbn [pr_it pr_zero]; (split; [assumption|]); [|discriminate].
    intros _. assert (HO : exists it', parse_integer_oct_base_prefix r t = (inl it', true)).
    { unfold parse_integer_base_prefix in EB. destruct (b =? 2); [discriminate|].
      destruct (b =? 8).
      - destruct (parse_integer_oct_base_prefix r t) as [x z0] eqn:Ex. injection EB as _ _ ->.
        destruct x as [l|q]; [eauto|]. unfold parse_integer_oct_base_prefix in Ex.
        destruct (read_matching_string_classic_nocase r [48; 111] t); [discriminate|].
        destruct (read_matching_code_unit 48 t); discriminate.
      - destruct (b =? 16); [discriminate|]. destruct (b =? 0); [|discriminate].
        unfold parse_integer_base_prefix_for_detection in EB.
        destruct (parse_integer_hex_base_prefix r t); [discriminate|].
        destruct (parse_integer_bin_base_prefix r t); [discriminate|].
        destruct (parse_integer_oct_base_prefix r t) as [[l|q] z0]; [|discriminate]. injection EB as _ _ ->. eauto. }
    destruct HO as [it' HO]. unfold parse_integer_oct_base_prefix in HO.
    destruct (read_matching_string_classic_nocase r [48; 111] t); [discriminate|].
    destruct (read_matching_code_unit 48 t) eqn:EC; [|discriminate]. apply code_unit_suffix in EC.
    eexists. left. exact EC.
  - intros [= <-]. cbn [pr_it pr_zero]. split; [destruct (not_digit_of b' it); assumption|discriminate].
Qed.

Lemma thsep_loop_ascii sep b s : 0 <= sep < 128 -> b <= 36 -> forall i out idx m it out' idx' m',
  thsep_loop sep b s i out idx m = (it, out', idx', m') ->
  exists p, s = p ++ it /\ Forall ascii p /\ (length out' + length idx' = length out + length idx + length p)%nat.
Proof.
  intros Hsep Hb. induction s as [|c s IH]; intros i out idx m it out' idx' m'; cbn [thsep_loop].
  - intros [= <- <- <- <-]. exists []. repeat split; [constructor|cbn; lia].
  - destruct (Z.eqb_spec c sep) as [->|].
    + intros E. apply IH in E. destruct E as (p & -> & Hp & HL). exists (sep :: p). repeat split.
      * constructor; [exact Hsep|exact Hp].
      * rewrite app_length in HL. cbn [length] in *. lia.
    + destruct (b <=? char_to_int c) eqn:EC.
      * intros [= <- <- <- <-]. exists []. repeat split; [constructor|cbn; lia].
      * intros E. apply IH in E. destruct E as (p & -> & Hp & HL). exists (c :: p). repeat split.
        -- constructor; [|exact Hp]. apply (digit_ascii b), char_to_int_is_digit; assumption.
        -- rewrite app_length in HL. cbn [length] in *. lia.
Qed.
Lemma firstn_ascii n p : Forall ascii p -> Forall ascii (firstn n p).
Proof. intros H. rewrite <- (firstn_skipn n p) in H. apply Forall_app in H. apply H. Qed.
Lemma skipn_asfx n p it : Forall ascii p -> (n <= length p)%nat -> asfx (skipn n (p ++ it)) (p ++ it).
Proof.
  intros H Hn. exists (firstn n p). split; [|apply firstn_ascii, H].
  rewrite skipn_app. replace (n - length p)%nat with O by lia. cbn [skipn].
  rewrite app_assoc, firstn_skipn. reflexivity.
Qed.

Lemma read_digits_asfx r t p v rest : type_ok t -> base_ok (pr_base p) -> enc_ok (s_enc r) (pr_it p) ->
  pr_sign p <> DefaultSign -> (it_signed t = false -> is_minus (pr_sign p) = false) ->
  read_digits r t p = Ok (v, rest) -> asfx rest (pr_it p).
Proof.
  intros Ht Hb He Hd Hs E. destruct (starts_dec (pr_base p) (pr_it p)) as [Hx|Hx].
  - destruct (run_exists _ _ Hx) as (ds & rest' & Hr).
    destruct (read_digits_run r t p ds rest' Ht Hb He Hr Hd Hs) as (_ & _ & [H|[H1 H2]]); [congruence|].
    rewrite E in H2. injection H2 as _ ->. eapply run_asfx, Hr.
  - rewrite read_digits_none in E by assumption. discriminate.
Qed.
Lemma next1_asfx s rest v : (exists tl, s = 48 :: tl \/ asfx tl s /\ next1 s = Ok tl) ->
  (it <- next1 s ;; Ok (0, it)) = Ok (v, rest) -> asfx rest s.
Proof.
  intros [tl [->|[H1 H2]]].
  - cbn. intros [= _ <-]. apply asfx_cons, asfx_refl. unfold ascii; lia.
  - rewrite H2. cbn. intros [= _ <-]. exact H1.
Qed.

Theorem int_default_ascii r t s b v rest : type_ok t -> enc_ok (s_enc r) s -> b = 0 \/ base_ok b ->
  int_read_default_with_base r t s b = Ok (v, rest) -> asfx rest s.
Proof.
  intros Ht He Hb. unfold int_read_default_with_base.
  destruct (prefix_total r s b Hb) as [(p & EP & H1 & H2 & H3 & H4)|[e ->]]; [|discriminate].
  rewrite EP. cbn [bind]. apply prefix_asfx in EP; [|exact He]. destruct EP as [EP EZ].
  destruct (negb (it_signed t) && is_minus (pr_sign p)) eqn:EM; [discriminate|]. intros E.
  eapply asfx_trans; [|exact EP].
  destruct (pr_zero p); [eapply next1_asfx; [apply EZ; reflexivity|exact E]|].
  eapply read_digits_asfx; [..|exact E]; auto; [eapply enc_ok_suffix; eassumption|].
  intros E'. rewrite E' in EM. exact EM.
Qed.
Theorem int_specs_ascii r t sp sep s b v rest : type_ok t -> enc_ok (s_enc r) s ->
  get_base sp = Ok b -> b = 0 \/ base_ok b -> (localized sp = true -> 0 <= sep < 128) ->
  int_read_specs r t sp sep s = Ok (v, rest) -> asfx rest s.
Proof.
  intros Ht He Hg Hb Hsep. unfold int_read_specs. rewrite Hg. cbn [bind].
  destruct (prefix_total r s b Hb) as [(p & EP & H1 & H2 & H3 & H4)|[e ->]]; [|discriminate].
  rewrite EP. cbn [bind]. apply prefix_asfx in EP; [|exact He]. destruct EP as [EP EZ].
  destruct (is_minus (pr_sign p) && (negb (it_signed t) || ptype_eqb (type sp) PIntUnsignedDecimal)) eqn:EM;
    [discriminate|].
  assert (HM : it_signed t = false -> is_minus (pr_sign p) = false).
  { intros E. rewrite E in EM. cbn [negb orb] in EM. rewrite andb_true_r in EM. exact EM. }
  assert (HE : enc_ok (s_enc r) (pr_it p)) by (eapply enc_ok_suffix; eassumption).
  intros E. eapply asfx_trans; [|exact EP]. clear EP.
  destruct (pr_zero p); [eapply next1_asfx; [apply EZ; reflexivity|exact E]|].
  destruct (localized sp); cbn [negb] in E; [|eapply read_digits_asfx; [..|exact E]; auto].
  unfold parse_integer_digits_with_thsep in E.
  destruct (thsep_loop sep (pr_base p) (pr_it p) 0 [] [] false) as [[[it out] idx] m] eqn:EL.
  destruct m; cbn [bind] in E; [|discriminate].
  unfold base_ok in H2. apply thsep_loop_ascii in EL; [|auto|lia]. destruct EL as (q & Eq & Hq & HL).
  destruct (parse_integer_value (s_enc r) t out (pr_sign p) (pr_base p)) as [[v' rest']|e| |]; cbn [bind] in E; try discriminate.
  injection E as _ <-. rewrite Eq. apply skipn_asfx; [exact Hq|]. cbn [length] in HL. lia.
Qed.

(** ASCII characters at the beginning of an encoded text are its first code points. *)
Lemma ascii_text e a : Forall ascii a -> forall ds rest, Forall scalar ds ->
  text e ds = a ++ rest -> exists l, ds = a ++ l /\ rest = text e l.
Proof.
  induction 1 as [|c a Hc _ IH]; intros ds rest Hds; cbn [app].
  - intros <-. exists ds. split; reflexivity.
  - destruct Hds as [|d ds Hd Hds]; [discriminate|]. cbn [text flat_map].
    assert (HE : forall tl, encode e d ++ tl = c :: a ++ rest -> encode e d = [c] /\ d = c).
    { intros tl. unfold ascii in Hc. unfold scalar in Hd. destruct e; cbn [encode].
      - unfold utf8_of. destruct (d <? 0x80) eqn:E1; [intros [= -> _]; auto|].
        destruct (d <? 0x800) eqn:E2; [intros [= E _]; exfalso; lia|].
        destruct (d <? 0x10000) eqn:E3; intros [= E _]; exfalso; lia.
      - unfold utf16_of. destruct (d <? 0x10000) eqn:E1; [intros [= -> _]; auto|].
        intros [= E _]; exfalso; lia.
      - intros [= -> _]. auto. }
    intros E. destruct (HE _ E) as [E1 ->]. rewrite E1 in E. injection E as E.
    destruct (IH ds rest Hds E) as (l & -> & ->). exists l. split; reflexivity.
Qed.
