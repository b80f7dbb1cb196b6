(** Proofs that a value that is read takes at least one code unit. *)
From Verif Require Import Prelude Tables BitsModel UnicodeModel WhitespaceModel WhitespaceSpec WhitespaceProofs UnicodeSpec UnicodeProofs ReadModel ReadProofs ArgsModel SpecsModel SpecsInvProofs FormatModel
  IntModel IntSpec IntProofs IntTotalProofs WidthModel ArgReaderModel ScalarModel StringModel FloatModel FloatSpec FloatProofs FloatTotal ScalarProperties LocaleModel VscanSpec ArgReaderProofs ArgSafeProofs StringSafeProofs FormatProofs VscanModel VscanProofs DocTypesSpec DocTypesRun RangesModel RangesProofs ProgressSpec.
Local Open Scope list_scope.
Local Open Scope Z_scope.

Definition shorter (a b : list Z) : Prop := suffix a b /\ (length a < length b)%nat.
Lemma shorter_suffix a b c : suffix a b -> shorter b c -> shorter a c.
Proof. intros H [S L]. split; [eapply suffix_trans; eassumption|]. apply suffix_len in H. lia. Qed.
Lemma suffix_shorter a b c : shorter a b -> suffix b c -> shorter a c.
Proof. intros [S L] H. split; [eapply suffix_trans; eassumption|]. apply suffix_len in H. lia. Qed.
Lemma shorter_app p b : p <> [] -> shorter b (p ++ b).
Proof. intros H. split; [exists p; reflexivity|]. rewrite app_length. destruct p; [congruence|]. cbn [length]. lia. Qed.
Lemma shorter_skip n s : (0 < n)%nat -> s <> [] -> shorter (skipn n s) s.
Proof. intros H1 H2. split; [exists (firstn n s); symmetry; apply firstn_skipn|]. rewrite skipn_length. destruct s; [congruence|]. cbn [length]. lia. Qed.

Lemma units_enc_ok e s : units e s -> enc_ok e s.
Proof. intros H E. rewrite E in H. exact H. Qed.

(** ** Integers *)
Lemma read_digits_short r t p v rest : type_ok t -> base_ok (pr_base p) -> enc_ok (s_enc r) (pr_it p) -> pr_sign p <> DefaultSign ->
  (it_signed t = false -> is_minus (pr_sign p) = false) -> read_digits r t p = Ok (v, rest) -> shorter rest (pr_it p).
Proof.
  intros Ht Hb He Hd Hm. destruct (starts_dec (pr_base p) (pr_it p)) as [Hx|Hx]; [|rewrite read_digits_none; [discriminate|assumption..]].
  destruct (run_exists _ _ Hx) as (ds & rs & Hr). destruct (read_digits_run r t p ds rs Ht Hb He Hr Hd Hm) as (_ & _ & [H|[_ H]]); rewrite H; [discriminate|].
  intros [= _ <-]. destruct Hr as (E & Hne & _). rewrite E. apply shorter_app. exact Hne.
Qed.
Lemma piv_short e t s sign b v rest : type_ok t -> base_ok b -> enc_ok e s -> s <> [] -> sign <> DefaultSign -> (it_signed t = false -> is_minus sign = false) ->
  parse_integer_value e t s sign b = Ok (v, rest) -> shorter rest s.
Proof.
  intros Ht Hb He Hne Hd Hs. destruct (starts_dec b s) as [Hx|Hx].
  - destruct (run_exists _ _ Hx) as (ds & rs & Hr). destruct (piv_run e t s ds rs sign b Ht Hb He Hr Hd Hs) as (_ & _ & [H|[_ H]]); rewrite H; [discriminate|].
    intros [= _ <-]. destruct Hr as (-> & Hn & _). apply shorter_app, Hn.
  - destruct s as [|c s]; [contradiction|]. rewrite piv_no_digit by assumption. discriminate.
Qed.
Lemma next1_short s (v : Z) rest : (it <- next1 s ;; Ok (0, it)) = Ok (v, rest) -> shorter rest s.
Proof. destruct s as [|c s]; cbn; [discriminate|]. intros [= _ <-]. apply (shorter_app [c]). discriminate. Qed.
Lemma int_default_short r t s v rest : type_ok t -> units (s_enc r) s -> int_read_default r t s = Ok (v, rest) -> shorter rest s.
Proof.
  intros Ht Hu. assert (He := units_enc_ok _ _ Hu). unfold int_read_default, int_read_default_with_base.
  destruct (prefix_total r s 10) as [(p & -> & H1 & H2 & H3 & H4)|[e ->]]; [right; unfold base_ok; lia| |discriminate]; cbn [bind].
  destruct (negb (it_signed t) && is_minus (pr_sign p)) eqn:EM; [discriminate|]. intros E. eapply suffix_shorter; [|exact H1].
  destruct (pr_zero p); [exact (next1_short _ _ _ E)|]. eapply read_digits_short; [..|exact E]; auto; [eapply enc_ok_suffix; eassumption|].
  intros E'. rewrite E' in EM. exact EM.
Qed.
Lemma int_specs_short r t sp sep b s v rest : type_ok t -> get_base sp = Ok b -> b = 0 \/ base_ok b -> units (s_enc r) s ->
  int_read_specs r t sp sep s = Ok (v, rest) -> shorter rest s.
Proof.
  intros Ht Hg Hb Hu. assert (He := units_enc_ok _ _ Hu). unfold int_read_specs. rewrite Hg. cbn [bind].
  destruct (prefix_total r s b Hb) as [(p & -> & H1 & H2 & H3 & H4)|[e ->]]; [|discriminate]; cbn [bind].
  destruct (is_minus (pr_sign p) && (negb (it_signed t) || ptype_eqb (type sp) PIntUnsignedDecimal)) eqn:EM; [discriminate|].
  assert (HM : it_signed t = false -> is_minus (pr_sign p) = false).
  { intros E. rewrite E in EM. cbn [negb orb] in EM. rewrite andb_true_r in EM. exact EM. }
  assert (HE : enc_ok (s_enc r) (pr_it p)) by (eapply enc_ok_suffix; eassumption).
  intros E. eapply suffix_shorter; [|exact H1].
  destruct (pr_zero p); [exact (next1_short _ _ _ E)|]. destruct (localized sp); cbn [negb] in E; [|eapply read_digits_short; [..|exact E]; auto].
  unfold parse_integer_digits_with_thsep in E.
  destruct (thsep_loop sep (pr_base p) (pr_it p) 0 [] [] false) as [[[it out] idx] m] eqn:EL.
  destruct m; cbn [bind] in E; [|discriminate].
  assert (HN : pr_it p <> []) by (intros HN; rewrite HN in EL; discriminate).
  apply thsep_loop_units in EL. destruct EL as (ds & -> & HF & HD). cbn [app] in E.
  assert (HD' : ds <> []) by (destruct (HD eq_refl); [discriminate|assumption]).
  destruct (parse_integer_value (s_enc r) t ds (pr_sign p) (pr_base p)) as [[v' rest']|e| |] eqn:EV; cbn [bind] in E; try discriminate.
  injection E as _ <-. apply piv_short in EV; auto; [|intros Eq; apply HF, HE, Eq]. apply shorter_skip; [|exact HN]. destruct EV as [_ EV]. lia.
Qed.

Lemma parsed_base sp : parsed sp -> check_int_type_specs sp = true \/ check_char_type_specs sp = true -> exists b, get_base sp = Ok b /\ (b = 0 \/ base_ok b).
Proof.
  intros [Hb _ _ _ _ _]. unfold check_int_type_specs, check_char_type_specs, get_base, base_ok. rewrite Hb.
  destruct (type sp); cbn; intros [H|H]; try discriminate; try (destruct (localized sp); discriminate);
    eexists; (split; [reflexivity|]); lia.
Qed.

(** ** Floating-point numbers *)
Section Floats.
Context {V : Type} (F : fp V) (M : meaning V) (C : converts F M).
Lemma strtod_pos e o k b t n v m : held b t n -> units e t -> numeric k -> starts_with_digit 10 (fb_view b) ->
  strtod_impl F e o k b = Ok (v, m) -> (0 < m)%nat.
Proof.
  intros (text & Hs & Hv & Hl & _) Hu Hk Hd. unfold strtod_impl.
  assert (Ht : starts_with_digit 10 text).
  { destruct text as [|c text]; [|destruct Hv as [Hv|[junk Hv]]; rewrite Hv in Hd; exact Hd].
    destruct Hv as [Hv|[junk Hv]]; rewrite Hv in Hd; [exact Hd|]. cbn [app starts_with_digit] in Hd. apply digit10_iff in Hd. lia. }
  assert (Src : exists p w, text = p ++ w /\ stops w
    /\ get_null_terminated_source e k b = Ok (match k with KHexWithout => 48 :: 120 :: p | _ => p end)).
  { destruct b as [view str]. cbn [fb_string fb_view] in *. destruct Hs as [-> |(-> & -> & ->)].
    - unfold get_null_terminated_source. cbn [fb_string bind].
      destruct (c_string_cut text) as (w & E & Hw). exists (c_string text), w. split; [exact E|]. split; [exact Hw|].
      destruct k; try reflexivity. rewrite !c_string_cons by lia. reflexivity.
    - apply FloatProofs.source_ok; auto. }
  destruct Src as (p & w & -> & Hw & ->). cbn [bind].
  assert (Hp : starts_with_digit 10 p).
  { destruct p as [|c p]; [|exact Ht]. cbn [app] in Ht. destruct w as [|c w]; cbn in *; [contradiction|]. exfalso. apply Hw. eapply digit_solid; [|exact Ht]; lia. }
  set (source := match k with KHexWithout => 48 :: 120 :: p | _ => p end).
  assert (Hso : starts_with_digit 10 source) by (unfold source; destruct k; try exact Hp; apply digit10_iff; lia).
  assert (X := cv_strtod F M C source Hso). destruct (fp_strtod F source) as [[v' m'] er].
  destruct X as (t' & rest & E & Em & [HL HM] & _). destruct (check_error F o k m' er v'); [discriminate|]. intros [= _ <-].
  assert (H0 := grammar_nonempty _ _ HL). assert (Hm : (0 < m')%nat) by lia.
  destruct k; try exact Hm.
  (* "0x" and a digit is a number *)
  destruct p as [|c p]; [contradiction|]. unfold source in E.
  assert (G : grammar Any [48; 120; c]).
  { right; right; right. exists [48; 120], [c]. split; [reflexivity|]. split; [apply hex_prefix_iff; eexists; split; [reflexivity|lia]|].
    left. apply digit10_16 in Hp. exists [c], []. split; [left; auto|]. repeat split; auto; discriminate. }
  assert (LG := HM [48; 120; c] p ltac:(symmetry; exact E) G). cbn [length] in LG. destruct m' as [|[|[|m']]]; cbn; lia.
Qed.
Lemma dispatch_pos e o k b t n v m : held b t n -> units e t -> numeric k -> t <> [] ->
  match k with KHexWith | KHexWithout => True | _ => o_fixed o || o_scientific o = true end ->
  dispatch_impl F e o k 0 b = Ok (v, m) -> (0 < m)%nat.
Proof.
  intros Hb Hu Hk Ht Ho. assert (Hne : fb_view b <> []) by (destruct Hb as (text & _ & _ & _ & Hb); auto).
  assert (Nw : match k with KInfShort | KInfLong | KNan | KNanPayload => False | _ => True end) by (destruct k; exact I || exact Hk).
  destruct b as [[|c view] str]; [cbn in Hne; congruence|].
  assert (Dec : is_digit 10 c \/ ~ is_digit 10 c) by (rewrite digit10_iff; lia). destruct Dec as [Dec|Dec].
  2:{ rewrite dispatch_nodigit by assumption. discriminate. }
  rewrite dispatch_digit by assumption.
  assert (St := strtod_pos e o k (FBuf (c :: view) str) t n v m Hb Hu Hk Dec). destruct (fp_long F); [exact St|].
  unfold fast_float_impl. destruct (match k with KHexWith | KHexWithout => true | _ => false end) eqn:Eh; [destruct k; try discriminate; exact St|].
  replace (match k with KHexWithout | KHexWith => _ | _ => _ end) with
    (match fp_fast F (o_fixed o) (o_scientific o) (c :: view) with FFInvalid => Err InvalidScannedValue
     | FFRange => strtod_impl F e o k (FBuf (c :: view) str) | FFOk v n => Ok (v, n) end) by (destruct k; try discriminate; reflexivity).
  assert (Ho' : o_fixed o || o_scientific o = true) by (destruct k; try discriminate; exact Ho).
  assert (X := cv_fast F M C (o_fixed o) (o_scientific o) (c :: view) Ho' Dec).
  cbn [fb_view]. destruct (fp_fast F (o_fixed o) (o_scientific o) (c :: view)) as [| |v0 m0]; [discriminate|exact St|]. intros [= _ <-].
  destruct X as (t' & rest & E & <- & [HL _] & _). apply decimal_first in HL. destruct HL as (c' & t'' & -> & _). cbn [length]. lia.
Qed.
Lemma float_impl_short r o q s v s' : units (s_enc r) s -> o_hex o || o_fixed o || o_scientific o = true ->
  float_read_impl F r o q s = Ok (v, s') -> shorter s' s.
Proof.
  intros Hu Ho. destruct s as [|c0 s0]; [discriminate|].
  set (s := c0 :: s0) in *. assert (Hs : s <> []) by discriminate. clearbody s.
  destruct (sign_split s Hs) as (neg & sg & u & sign & E & Hsg & Ep & _ & Hl & _).
  unfold float_read_impl, read_source_impl. rewrite Ep. cbn [bind]. fold (all_of u).
  assert (D := do_read_source_total r o q (s_contig r && is_plain q) u Ho).
  replace (if s_contig r && is_plain q then do_read_source_impl r o q (all_of u) (all_of u) u
           else do_read_source_impl r o q (fun _ => read_regular_float o q) (read_hexfloat q) u)
    with (do_read_source_impl r o q (if s_contig r && is_plain q then all_of u else fun _ => read_regular_float o q)
            (if s_contig r && is_plain q then all_of u else read_hexfloat q) u) by (destruct (s_contig r && is_plain q); reflexivity).
  destruct (do_read_source_impl _ _ _ _ _ _) as [[[it k] payload]|e| |]; try contradiction; [|discriminate].
  cbn [bind]. destruct D as (t & Eu & HA & Hk).
  set (b := match k with KInfShort | KInfLong | KNan | KNanPayload => FBuf [] None | _ => fill_buffer r u it end).
  destruct (handle_separators q b) as [b' n] eqn:Eb. cbn [bind].
  assert (P : forall v m, dispatch_impl F (s_enc r) o k payload b' = Ok (v, m) -> (0 < m)%nat).
  { intros v0 m. destruct Hk as [Hk|(Hk & Ht & Hf)].
    - destruct k; try discriminate; cbn [dispatch_impl]; intros [= _ <-]; lia.
    - assert (b = fill_buffer r (t ++ it) it) as Eb0 by (unfold b; rewrite <- Eu; destruct k; try contradiction; reflexivity).
      destruct (FloatProofs.fill_ok r t it) as (str & Ef & Hstr). rewrite Ef in Eb0.
      assert (Hb := separators_total q b t). rewrite Eb, Eb0 in Hb. cbn [fb_view fb_string] in Hb. specialize (Hb eq_refl Hstr).
      assert (Hut : units (s_enc r) t) by (rewrite E, Eu in Hu; apply units_app in Hu; destruct Hu as [_ Hu]; now apply units_app in Hu).
      assert (Ep0 : dispatch_impl F (s_enc r) o k payload b' = dispatch_impl F (s_enc r) o k 0 b') by (destruct k; try contradiction; reflexivity).
      rewrite Ep0. eapply dispatch_pos; eauto. }
  unfold parse_value. cbn [fs_kind fs_sign fs_thseps].
  assert (Q : forall v m, parse_value_impl F (s_enc r) o (FState sign k payload b' n) = Ok (v, m) -> (0 < m)%nat).
  { unfold parse_value_impl. cbn [fs_kind fs_sign fs_payload fs_buffer]. intros v0 m. destruct (dispatch_impl _ _ _ _ _ _) as [[v1 m1]|x| |] eqn:ED; try discriminate.
    - intros [= _ <-]. exact (P _ _ eq_refl).
    - destruct x; discriminate. }
  destruct (parse_value_impl F (s_enc r) o (FState sign k payload b' n)) as [[v0 m]|x| |]; destruct k; cbn [bind]; try discriminate;
    (destruct (_ <? _)%nat; [discriminate|]; intros [= _ <-]; apply shorter_skip; [|exact Hs]; specialize (Q v0 m eq_refl); lia).
Qed.
Lemma float_default_short r s v rest : units (s_enc r) s -> float_read_default F r s = Ok (v, rest) -> shorter rest s.
Proof. intros Hu. apply float_impl_short; [exact Hu|reflexivity]. Qed.
Lemma float_specs_short r loc sp s v rest : check_float_type_specs sp = true -> units (s_enc r) s -> float_read_specs F r loc sp s = Ok (v, rest) -> shorter rest s.
Proof.
  intros Hc Hu. unfold float_read_specs.
  assert (Hg : exists o, get_options sp = Ok o /\ o_hex o || o_fixed o || o_scientific o = true).
  { unfold check_float_type_specs, get_options in *. destruct (type sp); cbn in Hc; try discriminate; eexists; (split; [reflexivity|reflexivity]). }
  destruct Hg as (o & -> & Ho). cbn [bind]. apply float_impl_short; assumption.
Qed.
End Floats.

(** ** Booleans and characters *)
Lemma matching_short w s it : w <> [] -> read_matching_string w s = inl it -> shorter it s.
Proof.
  intros Hw. unfold read_matching_string.
  repeat match goal with |- context [if ?b then _ else _] => destruct b eqn:? end; intros H; try discriminate.
  injection H as <-. destruct s as [|c s]; [destruct w; [congruence|discriminate]|].
  apply shorter_skip; [destruct w; [congruence|cbn; lia]|discriminate].
Qed.
Lemma unit_short c s it : read_matching_code_unit c s = inl it -> shorter it s.
Proof. intros H. apply code_unit_suffix in H. subst s. apply (shorter_app [c]). discriminate. Qed.
Lemma bool_short tx nu f s v rest : (forall v rest, f s = Ok (v, rest) -> shorter rest s) -> bool_either tx nu f s = Ok (v, rest) -> shorter rest s.
Proof.
  intros Hf. unfold bool_either.
  assert (N : forall x, (if nu then bool_numeric s else Err InvalidScannedValue) = Ok x -> shorter (snd x) s).
  { intros x. destruct nu; [|discriminate]. unfold bool_numeric. destruct (read_matching_code_unit 48 s) eqn:E0; [intros [= <-]; exact (unit_short _ _ _ E0)|].
    destruct (read_matching_code_unit 49 s) eqn:E1; [intros [= <-]; exact (unit_short _ _ _ E1)|discriminate]. }
  destruct (if nu then _ else _) as [x|x| |]; try discriminate; [intros [= ->]; exact (N _ eq_refl)|].
  destruct tx; [apply Hf|discriminate].
Qed.
Lemma classic_short s v rest : bool_textual_classic s = Ok (v, rest) -> shorter rest s.
Proof.
  unfold bool_textual_classic. destruct (read_matching_string [116; 114; 117; 101] s) eqn:E0; [intros [= _ <-]; eapply matching_short; [|exact E0]; discriminate|].
  destruct (read_matching_string [102; 97; 108; 115; 101] s) eqn:E1; [intros [= _ <-]; eapply matching_short; [|exact E1]; discriminate|discriminate].
Qed.
Lemma custom_short tn fn s v rest : tn <> [] -> fn <> [] -> bool_textual_custom tn fn s = Ok (v, rest) -> shorter rest s.
Proof.
  intros Ht Hf. unfold bool_textual_custom. cbv zeta. destruct (_ <=? _)%nat.
  - destruct (read_matching_string tn s) eqn:E0; [intros [= _ <-]; eapply matching_short; [|exact E0]; exact Ht|].
    destruct (read_matching_string fn s) eqn:E1; [intros [= _ <-]; eapply matching_short; [|exact E1]; exact Hf|discriminate].
  - destruct (read_matching_string fn s) eqn:E0; [intros [= _ <-]; eapply matching_short; [|exact E0]; exact Hf|].
    destruct (read_matching_string tn s) eqn:E1; [intros [= _ <-]; eapply matching_short; [|exact E1]; exact Ht|discriminate].
Qed.
Lemma code_unit_short s v rest : code_unit_read s = Ok (v, rest) -> shorter rest s.
Proof. destruct s as [|c s]; cbn; [discriminate|]. intros [= _ <-]. apply (shorter_app [c]). discriminate. Qed.
Lemma code_point_short e s v rest : code_point_read e s = Ok (v, rest) -> shorter rest s.
Proof.
  destruct s as [|c s]; [discriminate|]. unfold code_point_read, read_code_point_into. destruct (cp_len e c) as [|len]; cbn [bind]; [discriminate|].
  destruct (firstn (S len) (c :: s)) as [|y t]; [discriminate|]. destruct (decode_cp_valid e (y :: t)); cbn [bind]; try discriminate.
  intros [= _ <-]. apply (shorter_skip (S len) (c :: s)); [lia|discriminate].
Qed.
Lemma char_default_short k r s v rest : char_default_read k r s = Ok (v, rest) -> shorter rest s.
Proof.
  unfold char_default_read. destruct k, (s_enc r); try discriminate; try apply code_unit_short; try apply code_point_short.
  unfold wide_character_read. destruct (code_point_read U8 s) as [[cp rest']| | |] eqn:E; cbn [bind]; try discriminate. destruct (negb _); [discriminate|].
  intros [= _ <-]. exact (code_point_short _ _ _ _ E).
Qed.
Lemma char_specs_short k old sep r sp s v rest : parsed sp -> char_check k sp = true -> units (s_enc r) s -> char_specs k old sep r sp s = Ok (v, rest) -> shorter rest s.
Proof.
  intros Hp Hk Hu.
  assert (H8 : IntProofs.type_ok i8) by (unfold IntProofs.type_ok; cbn; auto 10).
  assert (H32 : IntProofs.type_ok i32) by (unfold IntProofs.type_ok; cbn; auto 10).
  assert (HI : forall t, IntProofs.type_ok t -> check_char_type_specs sp = true -> ('(_, it) <- int_read_specs r t sp sep s ;; Ok (old, it)) = Ok (v, rest) -> shorter rest s).
  { intros t Ht HC. destruct (parsed_base sp Hp (or_intror HC)) as (b & Eb & Hb).
    destruct (int_read_specs r t sp sep s) as [[v0 it]| | |] eqn:E; cbn [bind]; try discriminate. intros [= _ <-]. eapply int_specs_short; eassumption. }
  unfold char_specs. destruct k; try apply char_default_short; cbn [char_check] in Hk; destruct (type sp); try apply char_default_short; apply HI; assumption.
Qed.

(** ** Arguments *)
Section Field.
Context {V : Type}.
Lemma arg_read_mono r sp skip (f g : src -> list Z -> outcome (V * list Z)) s y : (forall r' s y, f r' s = Ok y -> g r' s = Ok y) ->
  arg_read r sp skip f s = Ok y -> arg_read r sp skip g s = Ok y.
Proof.
  intros H. unfold arg_read. destruct (if negb (precision sp =? 0) then _ else impl_prefix r sp skip s) as [[it prefix]| | |]; cbn [bind]; try discriminate.
  assert (B : forall y, (if negb (precision sp =? 0) then
       if precision sp <=? prefix then Err InvalidFill
       else let n := precision sp - prefix in
         v <- take_width (s_enc r) it n ;; '(x, rest) <- f (view_src r) v ;; c <- view_count (s_enc r) it v rest n ;; Ok (x, view_base it v rest, n - c)
     else '(x, it') <- f r it ;; if need_width sp then w <- text_width (s_enc r) (firstn (length it - length it') it) ;; Ok (x, it', w) else Ok (x, it', 0)) = Ok y ->
     (if negb (precision sp =? 0) then
       if precision sp <=? prefix then Err InvalidFill
       else let n := precision sp - prefix in
         v <- take_width (s_enc r) it n ;; '(x, rest) <- g (view_src r) v ;; c <- view_count (s_enc r) it v rest n ;; Ok (x, view_base it v rest, n - c)
     else '(x, it') <- g r it ;; if need_width sp then w <- text_width (s_enc r) (firstn (length it - length it') it) ;; Ok (x, it', w) else Ok (x, it', 0)) = Ok y).
  { intros y0. destruct (negb _); cbv zeta.
    - destruct (_ <=? _); [discriminate|]. destruct (take_width _ _ _) as [v| | |]; cbn [bind]; try discriminate.
      destruct (f (view_src r) v) as [p| | |] eqn:E; cbn [bind]; try discriminate. rewrite (H _ _ _ E). cbn [bind]. auto.
    - destruct (f r it) as [p| | |] eqn:E; cbn [bind]; try discriminate. rewrite (H _ _ _ E). cbn [bind]. auto. }
  cbv zeta in *. match goal with |- (bind ?a _) = _ -> (bind ?b _) = _ => destruct a as [y0| | |]; cbn [bind]; try discriminate; rewrite (B _ eq_refl) end. cbn [bind]. auto.
Qed.
Lemma arg_read_short r sp skip (read : src -> list Z -> outcome (V * list Z)) s x rest : s_enc r <> U16 -> parsed sp ->
  (forall r' v y v', s_enc r' = s_enc r -> units (s_enc r) v -> read r' v = Ok (y, v') -> shorter v' v) -> units (s_enc r) s ->
  arg_read r sp skip read s = Ok (x, rest) -> shorter rest s.
Proof.
  intros He Hp HR Hu E. set (g := fun r' v => match read r' v with Ok p => Ok p | _ => Err InvalidScannedValue end).
  assert (HP := p_prec _ Hp). assert (HE : s_enc (seen r sp) = s_enc r) by (unfold seen; destruct (_ =? _); reflexivity).
  apply (arg_read_mono r sp skip read g) in E; [|intros r' s0 y H; unfold g; rewrite H; reflexivity].
  destruct (arg_read_total r sp skip ltac:(lia) (parsed_fill_safe _ _ He Hp) _ g) with (s := s) as [[e E']|(x' & rest' & E' & pre & value & post & v' & t & H1 & H2 & H3)]; [|exact Hu|congruence|].
  - intros v Hv. unfold g. destruct (read (seen r sp) v) as [[y v']| | |] eqn:ER; eauto. right. exists y, v'. split; [reflexivity|]. eapply HR; [exact HE|exact Hv|exact ER].
  - rewrite E in E'. injection E' as <- <-. unfold g in H2. destruct (read (seen r sp) (value ++ v')) as [[y w]| | |] eqn:ER; try discriminate. injection H2 as -> ->.
    assert (Hv : units (s_enc r) (value ++ v')).
    { assert (Hv : units (s_enc r) (value ++ v' ++ t)) by (eapply units_suffix; [|exact Hu]; exists pre; rewrite H1, H3; reflexivity).
      rewrite app_assoc in Hv. exact (units_prefix _ _ _ Hv). }
    apply HR in ER; [|exact HE|exact Hv]. destruct ER as [_ ER]. rewrite app_length in ER. split; [exists (pre ++ value ++ post); rewrite H1, <- !app_assoc; reflexivity|].
    rewrite H1, !app_length. lia.
Qed.
Lemma checked_short r (rd : reader V) sp s x rest : s_enc r <> U16 -> parsed sp ->
  (rd_check rd sp = true -> forall r' v y v', s_enc r' = s_enc r -> units (s_enc r) v -> rd_specs rd r' sp v = Ok (y, v') -> shorter v' v) -> units (s_enc r) s ->
  arg_read_checked r rd sp s = Ok (x, rest) -> shorter rest s.
Proof. intros He Hp HR Hu. unfold arg_read_checked. destruct (rd_check rd sp); [|discriminate]. intros E. eapply arg_read_short; [exact He|exact Hp|exact (HR eq_refl)|exact Hu|exact E]. Qed.
Lemma default_short r skip (read : list Z -> outcome (V * list Z)) s x rest : (forall v y v', units (s_enc r) v -> read v = Ok (y, v') -> shorter v' v) -> units (s_enc r) s ->
  default_read r skip read s = Ok (x, rest) -> shorter rest s.
Proof.
  intros HR Hu. unfold default_read, skip_ws_before_if_required. destruct s as [|c s]; [discriminate|]. destruct skip; [|cbn [bind]; apply HR, Hu].
  destruct (skip_classic_whitespace_total r (c :: s) false Hu) as [(it & -> & Hs)| ->]; [|discriminate]. cbn [bind]. intros E.
  eapply suffix_shorter; [|exact Hs]. eapply HR; [eapply units_suffix; eassumption|exact E].
Qed.
End Field.

Lemma u64_ok : type_ok u64. Proof. unfold type_ok; cbn; auto 10. Qed.
Lemma pointer_short sep r s v rest : units (s_enc r) s -> pointer_read sep r s = Ok (v, rest) -> shorter rest s.
Proof. intros Hu. apply (int_specs_short r u64 hex_specs sep 16); [exact u64_ok|reflexivity|right; unfold base_ok; lia|exact Hu]. Qed.
Lemma as_ok {F A} (f : A -> svalue F) x v s : as_value f x = Ok (v, s) -> exists y, x = Ok (y, s).
Proof. unfold as_value. destruct x as [[y s0]| | |]; cbn [bind]; intros [= _ <-]. eauto. Qed.
Lemma scalar_default_short {F} r (t : scalar_type F) s v rest l : never_empty l t -> units (s_enc r) s -> scalar_default r t s = Ok (v, rest) -> shorter rest s.
Proof.
  intros Ht Hu. destruct t as [t a| |k old a| |d a|f a]; cbn [scalar_default never_empty] in *; try contradiction; intros E; apply as_ok in E; destruct E as [y E];
    (eapply default_short; [|exact Hu|exact E]); intros v0 y0 v' Hv.
  - apply int_default_short; assumption.
  - apply bool_short. intros v1 rest1. apply classic_short.
  - apply char_default_short.
  - apply pointer_short, Hv.
  - destruct Ht as [M C]. apply (float_default_short f M C); assumption.
Qed.
Lemma scalar_specs_short {F} rx r l (t : scalar_type F) sp s v rest : s_enc r <> U16 -> parsed sp -> never_empty l t -> units (s_enc r) s ->
  scalar_specs rx r l t sp s = Ok (v, rest) -> shorter rest s.
Proof.
  intros He Hp Ht Hu. destruct t as [t a| |k old a| |d a|f a]; cbn [scalar_specs never_empty] in *; try contradiction; intros E; apply as_ok in E; destruct E as [y E];
    (eapply checked_short; [exact He|exact Hp| |exact Hu|exact E]); cbn [rd_check rd_specs int_reader bool_reader char_reader pointer_reader float_reader]; intros Hc r' v0 y0 v' Hr Hv; rewrite <- Hr in Hv.
  - destruct (parsed_base sp Hp (or_introl Hc)) as (b & Eb & Hb). eapply int_specs_short; eassumption.
  - unfold bool_specs. destruct (bool_options sp) as [tx nu]. apply bool_short. intros v1 rest1. destruct Ht as [H1 H2].
    destruct (localized sp); [apply custom_short; [exact H1|exact H2]|apply classic_short].
  - apply char_specs_short; assumption.
  - apply pointer_short, Hv.
  - destruct Ht as [M C]. apply (float_specs_short f M C); assumption.
Qed.

(** [a] is the end of [b] that is left after at least [n] code units. *)
Definition less_by (n : nat) (a b : list Z) : Prop := suffix a b /\ (n + length a <= length b)%nat.
(** ** Formats: every value stored has its own part of the source *)
Section Formats.
Context {V : Type}.
Variables (r : src) (cf : config) (args : list (arg V)).
Variable source : list Z.
Hypothesis Hsrc : units (s_enc r) source.
(** [cost]: how much a value of the argument takes at least. *)
Definition takes (cost : V -> nat) (a : arg V) : Prop :=
  (forall s v s', units (s_enc r) s -> ar_default a s = Ok (v, s') -> less_by (cost v) s' s)
  /\ (forall fmt fmt' sp s v s', parse_format_specs cf (ar_type a) fmt (SS specs_default false) = Ok (fmt', SS sp false) ->
       units (s_enc r) s -> ar_specs a sp s = Ok (v, s') -> less_by (cost v) s' s)
  /\ (forall f s v s', units (s_enc r) s -> snd (ar_custom a f s) = Ok (v, s') -> less_by (cost v) s' s).
Variable cost : Z -> V -> nat.
Hypothesis Hargs : forall id a, get_arg V args id = Some a -> takes (cost id) a.
Definition total (log : list (Z * V)) : nat := list_sum (map (fun x => cost (fst x) (snd x)) log).
Definition paid (st : state V) : Prop := suffix (st_src st) source /\ (length (st_src st) + total (st_log st) <= length source)%nat.
Notation H := (format_handler V r cf args).
Lemma paid_units st : paid st -> units (s_enc r) (st_src st).
Proof. intros [S _]. eapply units_suffix; eassumption. Qed.
Lemma paid_src st s : suffix s (st_src st) -> paid st -> paid (set_src V s st).
Proof. intros Hs [S L]. split; cbn [st_src st_log set_src]; [eapply suffix_trans; eassumption|]. apply suffix_len in Hs. lia. Qed.
Lemma paid_literal : forall fuel lit st st', paid st -> literal_loop V r fuel lit st = Ok st' -> paid st'.
Proof.
  induction fuel as [|f IH]; intros lit st st' J; destruct lit as [|c lit]; cbn [literal_loop]; try (intros [= <-]; exact J); try discriminate.
  assert (U := paid_units _ J). destruct (st_src st) as [|d src'] eqn:ES; [intros [= <-]; exact J|].
  destruct (is_first_char_space (s_enc r) (c :: lit)) as [[[after cp] space]| | |]; cbn [bind]; try discriminate.
  destruct (cp =? invalid_code_point); [intros [= <-]; exact J|]. destruct space.
  - destruct (read_while_classic_space_total r (d :: src') U) as (s' & -> & HS). cbn [bind]. destruct (read_while_classic_space _ after); cbn [bind]; try discriminate.
    apply IH. apply paid_src; [rewrite ES; exact HS|exact J].
  - destruct (negb (d =? c)); [intros [= <-]; exact J|]. apply IH. apply paid_src; [rewrite ES; exists [d]; reflexivity|exact J].
Qed.
Lemma paid_visited id st st' : paid st -> set_arg_as_visited V args id (note_missing V args id st) = Ok st' -> paid st'.
Proof.
  intros J. assert (J' : paid (note_missing V args id st)) by (unfold note_missing; destruct (get_arg V args id); exact J).
  revert J'. generalize (note_missing V args id st). clear st J. intros st J. unfold set_arg_as_visited. destruct (_ <=? id); [intros [= <-]; exact J|].
  destruct (id <? 64); cbv zeta.
  - destruct (Z.testbit _ _); intros [= <-]; exact J.
  - destruct (nth_error _ _) as [b|]; [|discriminate]. destruct (set_nth _ _ _); [|discriminate]. destruct (Z.testbit _ _); intros [= <-]; exact J.
Qed.
Lemma paid_finish id x st st' : (forall v s', x = Ok (v, s') -> less_by (cost id v) s' (st_src st)) -> paid st -> finish_visit V id x st = Ok st' -> paid st'.
Proof.
  intros Hs [S L]. destruct x as [[v s']|e| |]; cbn [finish_visit]; intros [= <-]; [|split; assumption].
  destruct (Hs _ _ eq_refl) as [H1 H2]. split; cbn [st_src st_log set_src add_log]; [eapply suffix_trans; eassumption|]. unfold total. rewrite map_app, list_sum_app. fold (total (st_log st)). cbn [map list_sum fold_right fst snd]. lia.
Qed.
Lemma get_takes id a : get_arg V args id = Some a -> takes (cost id) a.
Proof. apply Hargs. Qed.
Lemma paid_field id b st st' : paid st -> on_replacement_field V args id b st = Ok st' -> paid st'.
Proof.
  intros J. unfold on_replacement_field. destruct (set_arg_as_visited _ _ _ _) as [st1| | |] eqn:E; cbn [bind]; try discriminate.
  apply paid_visited in E; [|exact J]. destruct (failed V st1); [intros [= <-]; exact E|]. destruct (get_arg V args id) as [a|] eqn:Ga; [|intros [= <-]; exact E].
  apply paid_finish; [|exact E]. intros v s' ER. destruct (get_takes id a Ga) as [HC _]. exact (HC _ _ _ (paid_units _ E) ER).
Qed.
Lemma paid_specs id b st p st' : paid st -> on_format_specs V cf args id b st = Ok (p, st') -> paid st'.
Proof.
  intros J. unfold on_format_specs. destruct (set_arg_as_visited _ _ _ _) as [st1| | |] eqn:E; cbn [bind]; try discriminate.
  apply paid_visited in E; [|exact J]. assert (U := paid_units _ E). cbv zeta. destruct (arg_eqb _ CustomType).
  - destruct (failed V _); [intros [= _ <-]; exact E|]. destruct (get_arg V args id) as [a|] eqn:Ga; [|intros [= _ <-]; exact E].
    destruct (st_mixed (set_pctx V b st1)).
    + cbn [finish_visit bind]. intros [= _ <-]. exact E.
    + destruct (ar_custom a b (st_src (set_pctx V b st1))) as [q x] eqn:EC.
      destruct (finish_visit V id x _) as [st2| | |] eqn:EF; cbn [bind]; try discriminate. intros [= _ <-].
      refine (paid_finish _ _ _ _ _ _ EF); [|exact E]. intros v s' ->. destruct (get_takes id a Ga) as (_ & _ & HC). cbn [st_src set_pctx] in *. apply (HC b _ v s' U). rewrite EC. reflexivity.
  - destruct (parse_format_specs _ _ _ _) as [[s ss]| | |] eqn:EP; cbn [bind]; try discriminate.
    destruct s as [|c s]; [intros [= _ <-]; exact E|]. destruct (negb (c =? 125)); [intros [= _ <-]; exact E|].
    destruct (ss_err ss) eqn:EER; [intros [= _ <-]; exact E|]. destruct (failed V _); [intros [= _ <-]; exact E|].
    destruct (get_arg V args id) as [a|] eqn:Ga; [|intros [= _ <-]; exact E].
    destruct (finish_visit V id _ _) as [st2| | |] eqn:EF; cbn [bind]; try discriminate. intros [= _ <-].
    destruct ss as [sp er]. cbn [ss_err ss_specs] in *. subst er.
    refine (paid_finish _ _ _ _ _ _ EF); [|exact E]. intros v s' ER. destruct (get_takes id a Ga) as (_ & HC & _). exact (HC _ _ _ _ _ _ EP U ER).
Qed.
Lemma paid_auto st p : paid st -> next_arg_id V st = Ok p -> paid (snd p).
Proof. unfold next_arg_id. intros C. destruct (_ <? _); intros [= <-]; exact C. Qed.
Lemma paid_id i st p : paid st -> check_arg_id V i st = Ok p -> paid (snd p).
Proof. unfold check_arg_id. intros C. destruct (_ <? _); intros [= <-]; exact C. Qed.
Lemma paid_arg_id s st q : paid st -> parse_arg_id H s st = Ok q -> paid (snd q).
Proof.
  intros C. unfold parse_arg_id. destruct s as [|c s]; [discriminate|]. destruct (_ && _).
  - unfold do_parse_arg_id. cbn [h_error h_id format_handler].
    destruct (_ || _); [intros [= <-]; exact C|].
    destruct (if negb (c =? 48) then _ else _) as [[idx s2]| | |]; cbn [bind]; try discriminate.
    destruct s2 as [|d s2]; [intros [= <-]; exact C|]. destruct (_ && _); [intros [= <-]; exact C|].
    destruct (check_arg_id V idx st) as [[id v]| | |] eqn:E; cbn [bind]; try discriminate. intros [= <-]. exact (paid_id _ _ _ C E).
  - cbn [h_auto_id format_handler]. destruct (next_arg_id V st) as [[id v]| | |] eqn:E; cbn [bind]; try discriminate. intros [= <-]. exact (paid_auto _ _ C E).
Qed.
Lemma paid_replacement s st q : paid st -> parse_replacement_field H s st = Ok q -> paid (snd q).
Proof.
  assert (HE : forall (x : list Z) st0 q0, paid st0 -> (st1 <- h_error H st0 ;; Ok (x, st1)) = Ok q0 -> paid (snd q0)).
  { intros x st0 q0 S. cbn [h_error format_handler bind]. intros [= <-]. exact S. }
  intros C. unfold parse_replacement_field. destruct s as [|b s]; [discriminate|]. destruct s as [|c s]; [apply HE, C|].
  destruct (c =? 125).
  { cbn [h_auto_id format_handler]. destruct (next_arg_id V st) as [[id v]| | |] eqn:E; cbn [bind]; try discriminate. apply paid_auto in E; [|exact C].
    cbn [h_field format_handler]. destruct (on_replacement_field _ _ _ _ _) as [w| | |] eqn:EF; cbn [bind]; try discriminate. intros [= <-]. exact (paid_field _ _ _ _ E EF). }
  destruct (c =? 123).
  { cbn [h_literal format_handler]. destruct (on_literal_text _ _ _ _) as [w| | |] eqn:E; cbn [bind]; try discriminate. intros [= <-]. exact (paid_literal _ _ _ _ C E). }
  destruct (parse_arg_id H (c :: s) st) as [[[s1 id] v]| | |] eqn:E; cbn [bind]; try discriminate.
  apply paid_arg_id in E; [|exact C]. cbn [snd] in E.
  destruct s1 as [|d s1]; [apply HE, E|]. destruct (d =? 125).
  { cbn [h_field format_handler]. destruct (on_replacement_field _ _ _ _ _) as [w| | |] eqn:EF; cbn [bind]; try discriminate. intros [= <-]. exact (paid_field _ _ _ _ E EF). }
  destruct (d =? 58); [|apply HE, E]. destruct s1 as [|d1 s1]; [apply HE, E|].
  cbn [h_specs format_handler]. destruct (on_format_specs _ _ _ _ _ _) as [[s2 w]| | |] eqn:EF; cbn [bind]; try discriminate. apply paid_specs in EF; [|exact E].
  destruct s2 as [|d2 s2]; [apply HE, EF|]. destruct (negb _); [apply HE, EF|]. intros [= <-]. exact EF.
Qed.
Lemma paid_loop : forall fuel begin it st st', paid st -> parse_loop fuel H begin it st = Ok st' -> paid st'.
Proof.
  induction fuel as [|f IH]; intros begin it st st' C; (destruct it as [|ch it]; cbn [parse_loop]; [exact (paid_literal _ _ _ _ C)|]); [discriminate|].
  destruct (ch =? 123).
  - cbn [h_literal format_handler]. destruct (on_literal_text _ _ _ _) as [w| | |] eqn:E; cbn [bind]; try discriminate. apply paid_literal in E; [|exact C].
    destruct (parse_replacement_field _ _ _) as [[p v]| | |] eqn:ER; cbn [bind]; try discriminate. apply paid_replacement in ER; [|exact E]. cbn [snd] in ER.
    cbn [h_failed format_handler]. destruct (failed V v); [intros [= <-]; exact ER|]. apply IH, ER.
  - destruct (ch =? 125); [|apply IH, C]. destruct it as [|d it]; [intros [= <-]; exact C|].
    destruct (negb _); [intros [= <-]; exact C|].
    cbn [h_literal format_handler]. destruct (on_literal_text _ _ _ _) as [w| | |] eqn:E; cbn [bind]; try discriminate. apply IH. exact (paid_literal _ _ _ _ C E).
Qed.
Theorem vscan_takes format log rest : Forall (fun a => forall s, ar_plain a s = ar_default a s) args ->
  vscan V r cf args format source = Ok (log, rest) -> suffix rest source /\ (length rest + total log <= length source)%nat.
Proof.
  intros Hpl. unfold vscan. destruct (is_simple format && _) eqn:ES.
  - unfold get_arg. destruct (nth_error args (Z.to_nat 0)) as [a|] eqn:Ga; cbn [scan_simple_single_argument]; [|discriminate].
    assert (Ta := get_takes 0 a Ga). apply nth_error_In in Ga. assert (P := Hpl). rewrite Forall_forall in P. rewrite (P a Ga).
    destruct (ar_default a source) as [[v s]|e| |] eqn:E; cbn [bind]; try discriminate. intros [= <- <-]. destruct Ta as [HC _]. destruct (HC _ _ _ Hsrc E) as [H1 H2]. split; [exact H1|]. unfold total. cbn [map list_sum fold_right fst snd]. lia.
  - unfold vscan_parse_format_string.
    destruct (parse_format_string_impl _ _ _ _) as [st| | |] eqn:EP; cbn [bind]; try discriminate.
    assert (J : paid st). { eapply paid_loop; [|exact EP]. split; [apply suffix_refl|]. cbn. lia. }
    assert (D : forall st', check_args_exhausted V args st = Ok st' -> st' = st \/ st' = on_error V InvalidFormatString st).
    { intros st'. unfold check_args_exhausted. cbv zeta. destruct (negb _); [intros [= <-]; auto|]. destruct (_ <? 64); [intros [= <-]; auto|].
      destruct (check_upper _ _) as [[|[p|p|]|p]|]; cbn [bind]; try discriminate; intros [= <-]; auto. }
    destruct (check_args_exhausted V args st) as [st'| | |]; cbn [bind]; try discriminate. destruct (D _ eq_refl) as [->| ->]; [|discriminate].
    destruct (st_error st); [discriminate|]. intros [= <- <-]. exact J.
Qed.
End Formats.
Lemma shorter_by a b : shorter a b -> less_by 1 a b.
Proof. intros [S L]. split; [exact S|lia]. Qed.
Lemma scalar_takes {F} rx cf global l r (t : scalar_type F) cost : s_enc r <> U16 -> never_empty (get_locale global l) t ->
  (forall v, cost v = 1%nat) -> takes r cf cost (target_arg rx cf global l r (TScalar t)).
Proof.
  intros He Ht Hc. split; [|split]; cbn [target_arg ar_default ar_specs ar_custom ar_type snd]; [| |intros; discriminate].
  - intros s v s' Hu. unfold leaf_value. destruct (scalar_default r t s) as [[v0 s0]| | |] eqn:E; cbn [bind]; try discriminate. intros [= _ <-]. rewrite Hc. apply shorter_by. eapply scalar_default_short; eassumption.
  - intros fmt fmt' sp s v s' EP Hu. assert (Hp := parse_parsed _ _ _ _ _ EP). cbn [ss_specs] in Hp.
    unfold leaf_value. destruct (scalar_specs rx r _ t sp s) as [[v0 s0]| | |] eqn:E; cbn [bind]; try discriminate. intros [= _ <-]. rewrite Hc. apply shorter_by. eapply scalar_specs_short; eassumption.
Qed.

(** ** Ranges and tuples *)
Lemma less_trans n m a b c : less_by n a b -> less_by m b c -> less_by (n + m) a c.
Proof. intros [S1 L1] [S2 L2]. split; [eapply suffix_trans; eassumption|lia]. Qed.
Lemma scan_str_takes r str s rest : units (s_enc r) s -> scan_str r str s = Ok rest -> less_by (length str) rest s.
Proof.
  intros Hu. unfold scan_str. destruct (skip_classic_whitespace_total r s false Hu) as [(s' & -> & HS)|H]; [|rewrite H; discriminate].
  cbn [bind]. intros E. apply expect_inv in E. subst s'. split; [eapply suffix_trans; [|exact HS]; exists str; reflexivity|].
  apply suffix_len in HS. rewrite app_length in HS. lia.
Qed.
Lemma seq_takes {V} r p (elem : list Z -> outcome (V * list Z)) (cost : V -> nat)
  (He : forall s v rest, units (s_enc r) s -> elem s = Ok (v, rest) -> less_by (cost v) rest s) :
  forall n first s vs rest, units (s_enc r) s -> seq_loop r p elem n first s = Ok (vs, rest) ->
  less_by (list_sum (map cost vs) + length (p_sep p) * (length vs - (if first then 1 else 0))) rest s.
Proof.
  assert (H0 : forall s first, less_by (list_sum (map cost []) + length (p_sep p) * (length (@nil V) - (if first : bool then 1 else 0))) s s).
  { intros s first. split; [apply suffix_refl|]. cbn [map list_sum fold_right length]. rewrite Nat.sub_0_l, Nat.mul_0_r. lia. }
  induction n as [|n IH]; intros first s vs rest Hu; cbn [seq_loop]; [intros [= <- <-]; apply H0|].
  destruct (scan_str r (p_close p) s) as [?| e | |]; [intros [= <- <-]; apply H0| |discriminate|discriminate].
  destruct (if first then Ok s else scan_str r (p_sep p) s) as [it| | |] eqn:E1; cbn [bind]; try discriminate.
  assert (L1 : less_by (if first then 0 else length (p_sep p)) it s).
  { destruct first; [injection E1 as <-; split; [apply suffix_refl|lia]|]. apply scan_str_takes in E1; assumption. }
  assert (U1 : units (s_enc r) it) by (eapply units_suffix; [apply L1|exact Hu]).
  destruct (elem it) as [[v it2]| | |] eqn:E2; cbn [bind]; try discriminate. apply He in E2; [|exact U1].
  assert (U2 : units (s_enc r) it2) by (eapply units_suffix; [apply E2|exact U1]).
  destruct (seq_loop r p elem n false it2) as [[vs' it3]| | |] eqn:E3; cbn [bind]; try discriminate. intros [= <- <-]. apply IH in E3; [|exact U2].
  destruct L1 as [S1 L1], E2 as [S2 L2], E3 as [S3 L3]. split; [eapply suffix_trans; [exact S3|eapply suffix_trans; eassumption]|].
  cbn [map list_sum fold_right length]. fold (list_sum (map cost vs')). rewrite Nat.sub_0_r in L3.
  destruct first; [replace (S (length vs') - 1)%nat with (length vs') by lia|rewrite Nat.sub_0_r, Nat.mul_succ_r]; lia.
Qed.
Lemma shape_nested {L} (P : shape L -> Prop) : (forall t, P (SLeaf t)) -> (forall n p e, P e -> P (SSeq n p e)) -> (forall p es, Forall P es -> P (STup p es)) -> forall sh, P sh.
Proof.
  intros H1 H2 H3. fix IH 1. intros [t|n p e|p es]; [apply H1|apply H2, IH|]. apply H3. induction es as [|e es IHe]; constructor; [apply IH|exact IHe].
Qed.
Lemma shape_takes {L X} r (leaf : L -> specs -> list Z -> outcome (X * list Z)) (ok : L -> Prop)
  (Hl : forall t sp s x rest, ok t -> parsed sp -> units (s_enc r) s -> leaf t sp s = Ok (x, rest) -> less_by 1 rest s) :
  forall sh sp s v rest, scalars ok sh -> parsed sp -> units (s_enc r) s -> scan_shape r leaf sh sp s = Ok (v, rest) -> less_by (least sh v) rest s.
Proof.
  intros sh. induction sh as [t|n p e IH|p es IHs] using shape_nested; intros sp s v rest Ho Hp Hu; cbn [scan_shape].
  - destruct (leaf t sp s) as [[x it]| | |] eqn:E; cbn [bind]; try discriminate. intros [= <- <-]. eapply Hl; eassumption.
  - destruct (scan_str r (p_open p) s) as [i1| | |] eqn:E1; cbn [bind]; try discriminate. apply scan_str_takes in E1; [|exact Hu].
    assert (U1 : units (s_enc r) i1) by (eapply units_suffix; [apply E1|exact Hu]).
    destruct (seq_loop r p (scan_shape r leaf e sp) n true i1) as [[vs i2]| | |] eqn:E2; cbn [bind]; try discriminate.
    apply (seq_takes r p _ (least e)) in E2; [|intros s0 v0 rest0 Hu0; apply (IH sp s0 v0 rest0 Ho Hp Hu0)|exact U1].
    assert (U2 : units (s_enc r) i2) by (eapply units_suffix; [apply E2|exact U1]).
    destruct (scan_str r (p_close p) i2) as [i3| | |] eqn:E3; cbn [bind]; try discriminate. apply scan_str_takes in E3; [|exact U2]. intros [= <- <-].
    destruct E1 as [S1 L1], E2 as [S2 L2], E3 as [S3 L3]. split; [eapply suffix_trans; [exact S3|eapply suffix_trans; eassumption]|].
    cbn [least]. unfold around. rewrite map_length. lia.
  - destruct (scan_str r (p_open p) s) as [i1| | |] eqn:E1; cbn [bind]; try discriminate. apply scan_str_takes in E1; [|exact Hu].
    assert (U1 : units (s_enc r) i1) by (eapply units_suffix; [apply E1|exact Hu]).
    match goal with |- (bind (?go es true i1) _) = _ -> _ => set (GO := go) end.
    assert (HG : forall es, Forall (fun e => forall sp s v rest, scalars ok e -> parsed sp -> units (s_enc r) s -> scan_shape r leaf e sp s = Ok (v, rest) -> less_by (least e v) rest s) es ->
      forall first s vs rest, all_shapes (scalars ok) es -> units (s_enc r) s -> GO es first s = Ok (vs, rest) ->
      less_by (list_sum (pairwise least es vs) + length (p_sep p) * (length (pairwise least es vs) - (if first then 1 else 0))) rest s).
    { clear. intros es0 HF. induction HF as [|e es0 IH HF IHe]; intros first s vs rest Hall Hu; cbn [GO].
      - intros [= <- <-]. split; [apply suffix_refl|]. cbn [pairwise list_sum fold_right length]. rewrite Nat.sub_0_l, Nat.mul_0_r. lia.
      - destruct Hall as [Ho Hall]. destruct (if first then Ok s else scan_str r (p_sep p) s) as [it| | |] eqn:E1; cbn [bind]; try discriminate.
        assert (L1 : less_by (if first then 0 else length (p_sep p)) it s).
        { destruct first; [injection E1 as <-; split; [apply suffix_refl|lia]|]. apply scan_str_takes in E1; assumption. }
        assert (U1 : units (s_enc r) it) by (eapply units_suffix; [apply L1|exact Hu]).
        destruct (scan_shape r leaf e specs_default it) as [[v it2]| | |] eqn:E2; cbn [bind]; try discriminate. apply (IH _ _ _ _ Ho parsed_default U1) in E2.
        assert (U2 : units (s_enc r) it2) by (eapply units_suffix; [apply E2|exact U1]).
        destruct (GO es0 false it2) as [[vs' it3]| | |] eqn:E3; cbn [bind]; try discriminate. intros [= <- <-]. apply IHe in E3; [|exact Hall|exact U2].
        destruct L1 as [S1 L1], E2 as [S2 L2], E3 as [S3 L3]. split; [eapply suffix_trans; [exact S3|eapply suffix_trans; eassumption]|].
        cbn [pairwise list_sum fold_right length]. fold (list_sum (pairwise least es0 vs')). rewrite Nat.sub_0_r in L3.
        destruct first; [replace (S (length (pairwise least es0 vs')) - 1)%nat with (length (pairwise least es0 vs')) by lia|rewrite Nat.sub_0_r, Nat.mul_succ_r]; lia. }
    destruct (GO es true i1) as [[vs i2]| | |] eqn:E2; cbn [bind]; try discriminate. apply (HG es IHs) in E2; [|exact Ho|exact U1].
    assert (U2 : units (s_enc r) i2) by (eapply units_suffix; [apply E2|exact U1]).
    destruct (scan_str r (p_close p) i2) as [i3| | |] eqn:E3; cbn [bind]; try discriminate. apply scan_str_takes in E3; [|exact U2]. intros [= <- <-].
    destruct E1 as [S1 L1], E2 as [S2 L2], E3 as [S3 L3]. split; [eapply suffix_trans; [exact S3|eapply suffix_trans; eassumption]|].
    change (least (STup p es) (VTup vs)) with (around p (pairwise least es vs)). unfold around. lia.
Qed.
Lemma target_takes {F} rx cf global l r (ts : list (target F)) : s_enc r <> U16 -> Forall (holds_scalars global l) ts ->
  forall id a, get_arg _ (map (target_arg rx cf global l r) ts) id = Some a -> takes r cf (at_least ts id) a.
Proof.
  intros He Ht id a. unfold get_arg. rewrite nth_error_map. unfold at_least. destruct (nth_error ts (Z.to_nat id)) as [t|] eqn:EN; [|discriminate].
  cbn [option_map]. intros [= <-]. rewrite Forall_forall in Ht. specialize (Ht t (nth_error_In _ _ EN)). destruct t as [t|sh|pa sc]; [|cbn [holds_scalars] in Ht|destruct Ht].
  - apply scalar_takes; auto.
  - assert (HS : forall sp s v rest, parsed sp -> units (s_enc r) s -> shape_scan rx global r sh sp s = Ok (v, rest) -> less_by (least sh v) rest s).
    { intros sp s v rest Hp Hu. assert (EE : s_enc (custom_src r) = s_enc r) by (unfold custom_src; destruct (s_contig r); reflexivity).
      unfold shape_scan. apply (shape_takes (custom_src r) _ (never_empty (get_locale global None))); [|exact Ht|exact Hp|rewrite EE; exact Hu].
      intros t sp0 s0 x rest0 Hn Hp0. rewrite EE. intros Hu0 E. unfold element_scan in E.
      assert (E2 : s_enc (element_src r sp0 s0) = s_enc r) by (unfold element_src; cbv zeta; destruct (s_contig r); [destruct (_ || _)|]; reflexivity).
      apply shorter_by. eapply (scalar_specs_short rx (element_src r sp0 s0)); try eassumption; rewrite E2; assumption. }
    split; [|split]; cbn [target_arg ar_default ar_specs ar_custom ar_type snd]; [|intros; discriminate|].
    + intros s v s' Hu. apply HS; [apply parsed_default|exact Hu].
    + intros f s v s' Hu. unfold shape_parse. destruct (shape_type sh) as [t|]; [destruct f as [|c f]|]; cbn [snd]; try (apply HS; [apply parsed_default|exact Hu]).
      destruct (parse_format_specs cf t (c :: f) _) as [[q ss]| | |] eqn:EP; cbn [bind snd]; try discriminate. apply HS; [|exact Hu]. eapply parse_parsed, EP.
Qed.
Lemma kind_of_value {L X} r (leaf : L -> specs -> list Z -> outcome (X * list Z)) sh sp s v rest : scan_shape r leaf sh sp s = Ok (v, rest) ->
  match sh with SLeaf _ => True | SSeq _ _ _ => exists vs, v = VSeq vs | STup _ _ => exists vs, v = VTup vs end.
Proof.
  destruct sh as [t|n p e|p es]; cbn [scan_shape]; [exact (fun _ => I)| |].
  - destruct (scan_str r (p_open p) s); cbn [bind]; try discriminate. destruct (seq_loop _ _ _ _ _ _) as [[vs i2]| | |]; cbn [bind]; try discriminate.
    destruct (scan_str r (p_close p) i2); cbn [bind]; try discriminate. intros [= <- _]. eauto.
  - destruct (scan_str r (p_open p) s); cbn [bind]; try discriminate. match goal with |- bind ?x _ = _ -> _ => destruct x as [[vs i2]| | |] end; cbn [bind]; try discriminate.
    destruct (scan_str r (p_close p) i2); cbn [bind]; try discriminate. intros [= <- _]. eauto.
Qed.
Lemma target_takes_one {F} rx cf global l r (t : target F) : s_enc r <> U16 -> holds_scalars global l t -> bracketed t ->
  takes r cf (fun _ => 1%nat) (target_arg rx cf global l r t).
Proof.
  intros He Ht Hb. destruct t as [t|sh|pa sc]; [apply scalar_takes; auto| |destruct Ht].
  assert (HT := target_takes rx cf global l r [TShape sh] He (Forall_cons _ Ht (Forall_nil _)) 0 _ eq_refl).
  assert (HS : forall sp s v rest, shape_scan rx global r sh sp s = Ok (v, rest) -> less_by (at_least [TShape sh] 0 v) rest s -> less_by 1 rest s).
  { intros sp s v rest E [S Hl]. split; [exact S|]. unfold at_least in Hl. cbn [Z.to_nat nth_error] in Hl. unfold shape_scan in E. apply kind_of_value in E.
    assert (HP : forall p parts, p_open p ++ p_close p <> [] -> (1 <= around p parts)%nat).
    { clear. intros p parts H. unfold around. generalize (length (p_sep p) * (length parts - 1))%nat. intros m. destruct (p_open p); [destruct (p_close p); [destruct (H eq_refl)|]|]; cbn [length]; lia. }
    destruct sh as [t|n p e|p es]; [exact Hl| |]; destruct E as [vs ->]; cbn [least bracketed] in *.
    - specialize (HP p (map (least e) vs) Hb). lia.
    - specialize (HP p (pairwise least es vs) Hb). lia. }
  destruct HT as (H1 & _ & H3). split; [|split]; cbn [target_arg ar_default ar_specs ar_custom ar_type] in *; [|intros; discriminate|].
  - intros s v s' Hu E. eapply HS; [exact E|]. exact (H1 _ _ _ Hu E).
  - intros f s v s' Hu E. specialize (H3 f s v s' Hu E). destruct (shape_parse cf sh f) as [[q sp]| | |]; cbn [snd] in E; try discriminate. eapply HS; [exact E|exact H3].
Qed.

(** ** Sets of characters *)
Lemma set_short d r sp s v rest : set_read d r sp s = Ok (v, rest) -> shorter rest s.
Proof.
  unfold set_read, set_source. destruct (handle_nonascii (s_enc r) sp) as [rs| | |]; cbn [bind]; try discriminate.
  match goal with |- context[bind (if ?c then ?a else ?b) _] => assert (HR : exists it, (if c then a else b) = Ok it /\ suffix it s) end.
  { destruct (charset_has_nonascii sp); cbv zeta.
    - destruct (charset_is_inverted sp); [apply read_until_code_point_total|apply read_while_code_point_total].
    - eexists. split; [reflexivity|]. destruct (charset_is_inverted sp); apply find_if_suffix. }
  destruct HR as (it & -> & Hs). cbn [bind]. destruct (Nat.eqb_spec (length it) (length s)) as [|HN]; [discriminate|]. cbn [bind].
  destruct (store_total d (s_enc r) s it Hs) as [[x ->]|(v0 & part & -> & _)]; [discriminate|]. intros [= _ <-]. split; [exact Hs|]. apply suffix_len in Hs. lia.
Qed.
Lemma set_arg_short rx d r sp s v rest : s_enc r <> U16 -> parsed sp -> type sp = PStringSet -> units (s_enc r) s ->
  string_arg rx d r sp s = Ok (v, rest) -> shorter rest s.
Proof.
  intros He Hp HT Hu. unfold string_arg. apply checked_short; try assumption. cbn [rd_check rd_specs string_reader].
  intros _ r' v0 y v' _ _. unfold string_specs, string_kind_of. rewrite HT. apply set_short.
Qed.

(** ** Words: from contiguous narrow sources and from wide ones *)
Lemma until_stops e p : forall fuel s r, read_until_code_point_loop fuel e p s = Ok r ->
  r = [] \/ exists rest cps cp, read_code_point_into e r = Ok (rest, cps) /\ decode_cp e cps = Ok cp /\ p cp = true.
Proof.
  induction fuel as [|f IH]; intros s r; (destruct s as [|c s]; cbn [read_until_code_point_loop]; [intros [= <-]; auto|]); [discriminate|].
  destruct (read_code_point_into e (c :: s)) as [[rest cps]| | |] eqn:E; cbn [bind]; try discriminate. destruct cps as [|d cps]; [apply IH|].
  destruct (decode_cp e (d :: cps)) as [cp| | |] eqn:ED; cbn [bind]; try discriminate. destruct (p cp) eqn:EP; [|apply IH].
  intros [= <-]. right. exists rest, (d :: cps), cp. auto.
Qed.
Lemma word_after_skip d r s0 it v rest : (s_enc r = U8 -> s_contig r = true) -> units (s_enc r) s0 ->
  skip_classic_whitespace r s0 false = Ok it -> word_read d r it = Ok (v, rest) -> shorter rest s0.
Proof.
  intros Hr Hu ES. destruct (skip_classic_whitespace_total r s0 false Hu) as [(it' & ES' & HS)|H]; [|congruence]. rewrite ES in ES'. injection ES' as <-.
  assert (U : units (s_enc r) it) by (eapply units_suffix; eassumption).
  unfold word_read. destruct (read_until_classic_space_total r it U) as (w & EW & HW). rewrite EW. cbn [bind]. intros E.
  assert (ER : rest = w) by (destruct (store_total d (s_enc r) it w HW) as [[x EX]|(v0 & part & EX & _)]; congruence). subst w. clear E.
  eapply suffix_shorter; [|exact HS]. split; [exact HW|].
  assert (HN : it <> []). { unfold skip_classic_whitespace in ES. destruct (read_while_classic_space r s0) as [[|x l]| | |]; cbn [bind] in ES; congruence. }
  assert (ES2 : read_while_classic_space r s0 = Ok it). { unfold skip_classic_whitespace in ES. destruct (read_while_classic_space r s0) as [[|x l]| | |]; cbn [bind] in ES; congruence. }
  assert (NE : rest <> it).
  { intros ->. destruct (s_enc r) eqn:EE.
    - unfold read_while_classic_space, read_until_classic_space in *. rewrite EE, (Hr eq_refl) in *. cbn [units] in *.
      destruct (find_classic_nonspace_spec s0 Hu) as (f & E1 & _ & [->|(cp & q & G & P)]); [congruence|]. rewrite E1 in ES2. injection ES2 as ->.
      destruct (find_classic_space_spec it U) as (f & E2 & _ & [->|(cp' & q' & G' & P')]); [congruence|]. rewrite E2 in EW. injection EW as ->.
      rewrite G in G'. injection G' as <- <-. rewrite P' in P. discriminate.
    - unfold read_while_classic_space, read_until_classic_space in *. rewrite EE in *. destruct (until_stops _ _ _ _ _ ES2) as [|(q & cps & cp & G & D & P)]; [congruence|].
      destruct (until_stops _ _ _ _ _ EW) as [|(q' & cps' & cp' & G' & D' & P')]; [congruence|]. rewrite G in G'. injection G' as <- <-. rewrite D in D'. injection D' as <-. rewrite P' in P. discriminate.
    - unfold read_while_classic_space, read_until_classic_space in *. rewrite EE in *. destruct (until_stops _ _ _ _ _ ES2) as [|(q & cps & cp & G & D & P)]; [congruence|].
      destruct (until_stops _ _ _ _ _ EW) as [|(q' & cps' & cp' & G' & D' & P')]; [congruence|]. rewrite G in G'. injection G' as <- <-. rewrite D in D'. injection D' as <-. rewrite P' in P. discriminate. }
  destruct HW as [pre ->]. destruct pre as [|x pre]; [destruct (NE eq_refl)|]. rewrite app_length. cbn [length]. lia.
Qed.
Lemma word_short d r s v rest : (s_enc r = U8 -> s_contig r = true) -> units (s_enc r) s ->
  string_default d r s = Ok (v, rest) -> shorter rest s.
Proof.
  intros Hr Hu. unfold string_default, default_read, skip_ws_before_if_required. destruct s as [|c s]; [discriminate|].
  destruct (skip_classic_whitespace r (c :: s) false) as [it| | |] eqn:ES; cbn [bind]; try discriminate. eapply word_after_skip; eassumption.
Qed.
Lemma word_arg_short rx d r sp s v rest : (s_enc r = U8 -> s_contig r = true) -> type sp = PNone \/ type sp = PString -> align sp = ANone -> precision sp = 0 ->
  units (s_enc r) s -> string_arg rx d r sp s = Ok (v, rest) -> shorter rest s.
Proof.
  intros Hr HT HA HP Hu. assert (HK : string_kind_of sp = KWord) by (unfold string_kind_of; rewrite HA; destruct HT as [-> | ->]; reflexivity).
  unfold string_arg, arg_read_checked. destruct (rd_check _ sp); [|discriminate]. unfold arg_read, string_reader. cbn [rd_skip rd_specs]. unfold string_skip, string_specs, impl_prefix, impl_postfix. rewrite HK, HA, HP.
  change (negb (0 =? 0)) with false. cbv iota. unfold skip_ws_all.
  destruct (skip_classic_whitespace r s false) as [it| | |] eqn:ES; cbn [bind]; try discriminate.
  match goal with |- bind (if ?c then ?a else Ok (it, 0)) ?k = _ -> _ => set (K := k); assert (HX : forall n, K (it, n) = Ok (v, rest) -> shorter rest s) end.
  { intros n. unfold K. destruct (word_read d r it) as [[y it']| | |] eqn:EW; cbn [bind]; try discriminate. apply (word_after_skip d r s it y it' Hr Hu ES) in EW.
    cbn [negb andb]. destruct (need_width sp); [destruct (text_width _ _); cbn [bind]; try discriminate|cbn [bind]];
      destruct it' as [|c0 it']; cbn [bind]; destruct (check_widths _ _ _ _); cbn [bind]; try discriminate; intros [= _ <-]; exact EW. }
  destruct (need_width sp); [|cbn [bind]; apply HX]. destruct (text_width _ _); cbn [bind]; try discriminate. apply HX.
Qed.
