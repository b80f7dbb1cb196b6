(** Reading floating-point numbers commutes with making letters small. *)
From Verif Require Import Prelude Tables BitsModel UnicodeModel WhitespaceModel WhitespaceSpec WhitespaceProofs ReadModel ReadProofs SpecsModel
  IntModel WidthModel ArgReaderModel FloatModel IntSpec IntProofs IntTotalProofs EncodingReadProofs CaseSpec CaseProofs.
Local Open Scope Z_scope.

Definition seps_plain (q : fseps) : Prop := ~ letter (sep_point q) /\ ~ letter (sep_thousands q).
Lemma plain_plain : seps_plain plain_seps.
Proof. split; cbn; unfold letter; lia. Qed.
Lemma used_plain l o q : seps_plain q -> seps_plain (used_seps l o q).
Proof. intros [H1 H2]. unfold used_seps. destruct l; [|apply plain_plain]. split; cbn; [exact H1|]. destruct (o_thsep o); [exact H2|unfold letter; lia]. Qed.

Lemma float_digits_low q b th s : ~ letter (sep_thousands q) -> float_digits q b th (low s) = plow (float_digits q b th s).
Proof. intros H. apply read_while1_low. intros c. rewrite small_digit, small_eq by exact H. reflexivity. Qed.
Lemma hex_prefix_low r s : read_hex_prefix r (low s) = plow (read_hex_prefix r s).
Proof. apply nocase_low. Qed.
Definition kept {A} (x : option (list Z * A)) : option (list Z * A) := match x with Some (s, k) => Some (low s, k) | None => None end.
Lemma inf_low r s : read_inf r (low s) = kept (read_inf r s).
Proof.
  unfold read_inf. rewrite nocase_low. destruct (read_matching_string_classic_nocase r [105; 110; 102] s) as [it|]; [|reflexivity]. cbn [plow].
  rewrite nocase_low. destruct (read_matching_string_classic_nocase r _ it); reflexivity.
Qed.
Lemma payload_low c : is_payload_char (small c) = is_payload_char c.
Proof. unfold is_payload_char. destruct (small_range c) as [-> |[H ->]]; [reflexivity|]. lia. Qed.
Definition moved3 {A B} (x : outcome (list Z * A * B)) : outcome (list Z * A * B) := keep (fun p => let '(s, a, b) := p in (low s, a, b)) x.
Lemma nan_low r s : read_nan r (low s) = option_map moved3 (read_nan r s).
Proof.
  unfold read_nan. rewrite nocase_low. destruct (read_matching_string_classic_nocase r [110; 97; 110] s) as [it|]; [|reflexivity]. cbn [plow].
  rewrite unit_low by (unfold letter; lia). destruct (read_matching_code_unit 40 it) as [pl|]; [|reflexivity]. cbn [plow]. cbv zeta.
  rewrite (read_while_low _ payload_low), unit_low by (unfold letter; lia). destruct (read_matching_code_unit 41 _); [|reflexivity]. cbn [plow].
  rewrite !map_length. reflexivity.
Qed.
Lemma exp_low letters s : (forall c, existsb (Z.eqb (small c)) letters = existsb (Z.eqb c) letters) -> read_exponent letters (low s) = low (read_exponent letters s).
Proof.
  intros H. unfold read_exponent. rewrite one_of_low by exact H. destruct (read_one_of_code_unit letters s) as [it|]; [|reflexivity]. cbn [plow]. cbv zeta.
  rewrite sign_low. destruct (parse_numeric_sign it) as [[x sg]| | |]; cbn [keep bind fst snd];
    (rewrite read_while1_low by (intros c; rewrite small_digit; reflexivity)); destruct (read_while1_code_unit _ _); reflexivity.
Qed.
Lemma letters_blind k : 97 <= k <= 122 -> forall c, existsb (Z.eqb (small c)) [k; k - 32] = existsb (Z.eqb c) [k; k - 32].
Proof. intros Hk c. cbn. destruct (small_range c) as [-> |[H ->]]; [reflexivity|]. lia. Qed.
Lemma significand_low q b s : seps_plain q -> read_significand q b (low s) = lows (read_significand q b s).
Proof.
  intros [H1 H2]. unfold read_significand. rewrite float_digits_low by exact H2. destruct (float_digits q b true s) as [it|[]]; try reflexivity. cbn [plow]. cbv zeta.
  rewrite unit_low by exact H1. rewrite apply_low, float_digits_low, apply_low by exact H2. reflexivity.
Qed.
Definition moved2 {A} (x : outcome (list Z * A)) : outcome (list Z * A) := keep (fun p => (low (fst p), snd p)) x.
Lemma hexfloat_low q k s : seps_plain q -> read_hexfloat q k (low s) = moved2 (read_hexfloat q k s).
Proof.
  intros H. unfold read_hexfloat. rewrite significand_low by exact H. destruct (read_significand q 16 s) as [it| | |]; try reflexivity. cbn [keep bind moved2 fst snd].
  rewrite exp_low by (apply (letters_blind 112); lia). reflexivity.
Qed.
Lemma regular_low o q s : seps_plain q -> read_regular_float o q (low s) = moved2 (read_regular_float o q s).
Proof.
  intros H. unfold read_regular_float. cbv zeta. rewrite significand_low by exact H. destruct (read_significand q 10 s) as [it| | |]; try reflexivity. cbn [keep bind].
  assert (HI : (if o_scientific o then read_exponent [101; 69] (low it) else low it) = low (if o_scientific o then read_exponent [101; 69] it else it))
    by (destruct (o_scientific o); [apply exp_low, (letters_blind 101); lia|reflexivity]).
  rewrite HI, !map_length. destruct (_ && _ && _); reflexivity.
Qed.
Lemma source_low r o q reg reg' hex hex' s : seps_plain q -> (forall k t, reg' k (low t) = moved2 (reg k t)) -> (forall k t, hex' k (low t) = moved2 (hex k t)) ->
  do_read_source_impl r o q reg' hex' (low s) = moved3 (do_read_source_impl r o q reg hex s).
Proof.
  intros Hq HR HH. unfold do_read_source_impl. cbv zeta. rewrite inf_low. destruct (read_inf r s) as [[it k]|]; [reflexivity|]. cbn [kept].
  rewrite nan_low. destruct (read_nan r s) as [x|]; [reflexivity|]. cbn [option_map]. rewrite hex_prefix_low, (regular_low o q s Hq), HR, !HH.
  assert (HB : forall x : outcome (list Z * fkind), ('(it, k) <- moved2 x ;; Ok (it, k, O)) = moved3 ('(it, k) <- x ;; Ok (it, k, O))) by (intros [[it k]| | |]; reflexivity).
  rewrite <- HB. f_equal. destruct (_ && _); [|destruct (_ && _); [reflexivity|]]; destruct (read_hex_prefix r s) as [it|]; cbn [plow]; rewrite ?HH; reflexivity.
Qed.

(** The text of the number. *)
Definition blow (b : fbuffer) : fbuffer := FBuf (low (fb_view b)) (option_map low (fb_string b)).
Lemma buffer_low r s it : fill_buffer r (low s) (low it) = blow (fill_buffer r s it).
Proof.
  unfold fill_buffer, blow. cbv zeta. cbn [fb_view fb_string]. rewrite firstn_map, !map_length. destruct (s_contig r); [reflexivity|]. destruct (_ <=? _)%nat; reflexivity.
Qed.
Lemma filter_low p : (forall c, p (small c) = p c) -> forall s, filter p (low s) = low (filter p s).
Proof. intros Hp. induction s as [|c s IH]; [reflexivity|]. cbn [map filter]. rewrite Hp, IH. destruct (p c); reflexivity. Qed.
Lemma seps_low q b : seps_plain q -> handle_separators q (blow b) = (blow (fst (handle_separators q b)), snd (handle_separators q b)).
Proof.
  intros [H1 H2]. unfold handle_separators. destruct (is_plain q); [reflexivity|].
  assert (HS : match fb_string (blow b) with Some x => x | None => fb_view (blow b) end = low (match fb_string b with Some x => x | None => fb_view b end)) by (destruct b as [v [x|]]; reflexivity).
  rewrite HS. set (str := match fb_string b with Some x => x | None => fb_view b end). cbv zeta.
  assert (HM : map (fun ch => if ch =? sep_point q then 46 else ch) (low str) = low (map (fun ch => if ch =? sep_point q then 46 else ch) str)).
  { rewrite !map_map. apply map_ext. intros c. rewrite small_eq by exact H1. destruct (c =? sep_point q); reflexivity. }
  rewrite HM. set (str1 := map _ str). destruct (sep_thousands q =? 0); [reflexivity|].
  rewrite filter_low by (intros c; rewrite small_eq by exact H2; reflexivity). rewrite !map_length. destruct (_ =? 0)%nat; [reflexivity|].
  cbn [fst snd]. unfold blow. cbn [fb_view fb_string option_map]. rewrite map_app. cbn [map]. rewrite skipn_map. reflexivity.
Qed.
Definition stlow (st : fstate) : fstate := FState (fs_sign st) (fs_kind st) (fs_payload st) (blow (fs_buffer st)) (fs_thseps st).
Lemma read_source_low r o q s : seps_plain q -> read_source_impl r o q (low s) = keep stlow (read_source_impl r o q s).
Proof.
  intros Hq. unfold read_source_impl. rewrite sign_low. destruct (parse_numeric_sign s) as [[db sg]| | |]; try reflexivity. cbn [keep bind fst snd].
  set (x := if s_contig r && is_plain q then _ else do_read_source_impl r o q _ _ db).
  set (x' := if s_contig r && is_plain q then _ else do_read_source_impl r o q _ _ (low db)).
  assert (HX : x' = moved3 x).
  { unfold x, x'. destruct (s_contig r && is_plain q); apply source_low; try exact Hq.
    1-2: intros k t; destruct db; reflexivity.
    - intros k t. apply regular_low, Hq.
    - intros k t. apply hexfloat_low, Hq. }
  rewrite HX. destruct x as [[[it k] pl]| | |]; try reflexivity. cbn [moved3 keep bind].
  assert (HB : match k with KInfShort | KInfLong | KNan | KNanPayload => FBuf [] None | _ => fill_buffer r (low db) (low it) end
    = blow match k with KInfShort | KInfLong | KNan | KNanPayload => FBuf [] None | _ => fill_buffer r db it end) by (rewrite buffer_low; destruct k; reflexivity).
  rewrite HB, seps_low by exact Hq. destruct (handle_separators q _) as [b' n]. reflexivity.
Qed.

(** The conversions do not tell letters by their case. *)
Definition case_blind {V} (F : fp V) : Prop :=
  (forall fixed scientific s, fp_fast F fixed scientific (low s) = fp_fast F fixed scientific s) /\ forall s, fp_strtod F (low s) = fp_strtod F s.

(** The units of the buffer. *)
Definition bfit (e : enc) (b : fbuffer) : Prop := fit e (fb_view b) /\ match fb_string b with Some x => fit e x | None => True end.
Lemma fit_all e (P : Z -> Z) s : (forall c, is_byte c -> is_byte (P c)) -> fit e s -> fit e (map P s).
Proof. intros HP H He. specialize (H He). induction H; constructor; auto. Qed.
Lemma fit_filter e p s : fit e s -> fit e (filter p s).
Proof. intros H He. specialize (H He). induction H as [|c s Hc _ IH]; [constructor|]. cbn [filter]. destruct (p c); [constructor|]; assumption. Qed.
Lemma fit_app e a b : fit e a -> fit e b -> fit e (a ++ b).
Proof. intros H1 H2 He. apply Forall_app. split; [apply H1, He|apply H2, He]. Qed.
Lemma bfit_seps e q b : bfit e b -> bfit e (fst (handle_separators q b)).
Proof.
  intros [H1 H2]. unfold handle_separators. destruct (is_plain q); [split; assumption|].
  assert (HS : fit e (match fb_string b with Some x => x | None => fb_view b end)) by (destruct b as [v [x|]]; assumption).
  set (str := match fb_string b with Some x => x | None => fb_view b end) in *. cbv zeta.
  assert (HM : fit e (map (fun ch => if ch =? sep_point q then 46 else ch) str)) by (apply fit_all; [|exact HS]; intros c Hc; destruct (c =? sep_point q); [unfold is_byte; lia|exact Hc]).
  set (str1 := map _ str) in *. destruct (sep_thousands q =? 0); [split; assumption|]. destruct (_ =? 0)%nat; [split; assumption|].
  cbn [fst]. split; cbn [fb_view fb_string]; [|apply fit_filter, HM]. apply fit_app; [apply fit_filter, HM|]. intros He.
  constructor; [unfold is_byte; lia|]. apply bytes_skipn, HM, He.
Qed.
Lemma fit_sign e s l sg : fit e s -> parse_numeric_sign s = Ok (l, sg) -> fit e l.
Proof.
  intros H. unfold parse_numeric_sign, read_one_of_code_unit. destruct s as [|c s]; [discriminate|].
  assert (H' : fit e s) by (eapply fit_suffix; [|exact H]; exists [c]; reflexivity).
  destruct (existsb _ _); [|intros [= <- _]; exact H]. destruct (c =? 45); intros [= <- _]; exact H'.
Qed.
Lemma bfit_source r o q s st : fit (s_enc r) s -> read_source_impl r o q s = Ok st -> bfit (s_enc r) (fs_buffer st).
Proof.
  intros Hf. unfold read_source_impl. destruct (parse_numeric_sign s) as [[db sg]| | |] eqn:ES; try discriminate. cbn [bind].
  assert (Hd := fit_sign _ _ _ _ Hf ES).
  set (x := if s_contig r && is_plain q then _ else do_read_source_impl r o q _ _ db). destruct x as [[[it k] pl]| | |]; try discriminate. cbn [bind].
  set (b := match k with KInfShort | KInfLong | KNan | KNanPayload => FBuf [] None | _ => fill_buffer r db it end).
  assert (HB : bfit (s_enc r) b).
  { assert (HF : bfit (s_enc r) (fill_buffer r db it)).
    { unfold fill_buffer. cbv zeta. split; cbn [fb_view fb_string]; [apply fit_firstn, Hd|]. destruct (s_contig r); [exact I|]. destruct (_ <=? _)%nat; [apply fit_firstn, Hd|exact I]. }
    assert (HN : bfit (s_enc r) (FBuf [] None)) by (split; [intros _; constructor|exact I]). unfold b. destruct k; assumption. }
  assert (HH := bfit_seps _ q b HB). destruct (handle_separators q b) as [b' n]. intros [= <-]. exact HH.
Qed.

Section Conversion.
Context {V : Type} (F : fp V).
Hypothesis HF : case_blind F.
Lemma c_string_low s : c_string (low s) = low (c_string s).
Proof.
  unfold c_string. rewrite find_low, !map_length, firstn_map; [reflexivity|]. intros c. rewrite !(Z.eqb_sym 0). apply small_eq. unfold letter. lia.
Qed.
Lemma terminated_low e k b : bfit e b -> get_null_terminated_source e k (blow b) = lows (get_null_terminated_source e k b).
Proof.
  intros [H1 _]. unfold get_null_terminated_source. cbn [blow fb_string fb_view].
  assert (HK : forall x, c_string match k with KHexWithout => 48 :: 120 :: low x | _ => low x end = low (c_string match k with KHexWithout => 48 :: 120 :: x | _ => x end)).
  { intros x. rewrite <- c_string_low. destruct k; reflexivity. }
  destruct (fb_string b) as [x|]; cbn [option_map].
  - cbn [bind keep]. rewrite HK. reflexivity.
  - rewrite until_space_low by exact H1. destruct (read_until_classic_space _ (fb_view b)) as [l| | |]; try reflexivity. cbn [bind keep].
    rewrite !map_length, firstn_map, HK. reflexivity.
Qed.
Lemma strtod_low e o k b : bfit e b -> strtod_impl F e o k (blow b) = strtod_impl F e o k b.
Proof.
  intros H. unfold strtod_impl. rewrite terminated_low by exact H. destruct (get_null_terminated_source e k b) as [t| | |]; try reflexivity. cbn [bind keep].
  rewrite (proj2 HF). reflexivity.
Qed.
Lemma fast_low e o k b : bfit e b -> fast_float_impl F e o k (blow b) = fast_float_impl F e o k b.
Proof. intros H. unfold fast_float_impl. rewrite strtod_low by exact H. cbn [blow fb_view]. rewrite (proj1 HF). reflexivity. Qed.
Lemma dispatch_low e o k pl b : bfit e b -> dispatch_impl F e o k pl (blow b) = dispatch_impl F e o k pl b.
Proof.
  intros H. unfold dispatch_impl. rewrite strtod_low, fast_low by exact H. cbn [blow fb_view]. destruct (fb_view b) as [|c t]; [reflexivity|]. cbn [map]. rewrite small_digit. reflexivity.
Qed.
Lemma parse_low e o st : bfit e (fs_buffer st) -> parse_value F e o (stlow st) = parse_value F e o st.
Proof. intros H. unfold parse_value, parse_value_impl. cbn [stlow fs_kind fs_payload fs_buffer fs_sign fs_thseps]. rewrite dispatch_low by exact H. reflexivity. Qed.
Lemma float_impl_low r o q s : seps_plain q -> fit (s_enc r) s -> float_read_impl F r o q (low s) = rest (float_read_impl F r o q s).
Proof.
  intros Hq Hf. unfold float_read_impl. rewrite read_source_low by exact Hq. destruct (read_source_impl r o q s) as [st| | |] eqn:ES; try reflexivity. cbn [keep bind].
  rewrite parse_low by (eapply bfit_source; eassumption). destruct (parse_value F (s_enc r) o st) as [[v n]| | |]; try reflexivity. cbn [bind].
  rewrite map_length. destruct (_ <? _)%nat; [reflexivity|]. rewrite skipn_map. reflexivity.
Qed.
Lemma float_fits r loc sp : seps_plain loc -> fits_low r (fun r' => float_read_specs F r' loc sp).
Proof.
  intros Hq r' s He Hf. rewrite <- He in Hf |- *. unfold float_read_specs. destruct (get_options sp) as [o| | |]; try (split; [reflexivity|discriminate]). cbn [bind]. split.
  - apply float_impl_low; [apply used_plain, Hq|exact Hf].
  - intros v l. unfold float_read_impl. destruct (read_source_impl r' o _ s) as [st| | |]; try discriminate. cbn [bind].
    destruct (parse_value F (s_enc r') o st) as [[v' n]| | |]; try discriminate. cbn [bind]. destruct (_ <? _)%nat; [discriminate|]. intros [= _ <-]. apply fit_skipn, Hf.
Qed.
End Conversion.
