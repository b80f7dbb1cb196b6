(** Property C70: numbers are read without regard to the case of letters. *)
From Coq Require Import String.
From Verif Require Import Prelude UnicodeModel UnicodeSpec WhitespaceModel ReadModel ReadProofs SpecsModel ArgsModel FormatModel FormatProofs FormatSpec FormatSpecProofs
  VscanModel VscanSpec IntModel ArgReaderModel ScalarModel StringModel FloatModel RangesModel LocaleModel VscanProofs VscanSpecProofs StringSafeProofs ScalarSpec ScalarProofs
  FloatSpec FloatProofs FloatInstance EncodingReadProofs VscanProperties ScalarProperties LocaleProperties
  DocTypesSpec DocTypesProofs DocTypesRun DocTypesProperties CaseSpec CaseProofs CaseFloatProofs IntProofs.
Import Coq.Strings.String.StringSyntax.
Local Open Scope list_scope.
Local Open Scope Z_scope.

(** ** The conversion of FloatInstance *)
Lemma splits_low t : splits (low t) = map (fun p => (low (fst p), low (snd p))) (splits t).
Proof. unfold splits. rewrite map_length, map_map. apply map_ext. intros n. cbn [fst snd]. rewrite firstn_map, skipn_map. reflexivity. Qed.
Lemma exists_low (p : list Z * list Z -> bool) t : (forall a b, p (low a, low b) = p (a, b)) -> existsb p (splits (low t)) = existsb p (splits t).
Proof.
  intros H. rewrite splits_low. induction (splits t) as [|[a b] l IH]; [reflexivity|]. cbn [map existsb fst snd]. rewrite H, IH. reflexivity.
Qed.
Lemma digits_b_low b t : digits_b b (low t) = digits_b b t.
Proof. unfold digits_b, digit_b. induction t as [|c t IH]; [reflexivity|]. cbn [map forallb]. rewrite small_digit, IH. reflexivity. Qed.
Lemma nonempty_low t : nonempty (low t) = nonempty t.
Proof. destruct t; reflexivity. Qed.
Lemma significand_b_low b t : significand_b b (low t) = significand_b b t.
Proof.
  unfold significand_b. rewrite digits_b_low, nonempty_low, exists_low; [reflexivity|]. intros w [|c f]; [reflexivity|]. cbn [map].
  rewrite (small_eq c 46), !digits_b_low, <- map_app, nonempty_low by (unfold letter; lia). reflexivity.
Qed.
Lemma sign_b_low t : sign_b (low t) = sign_b t.
Proof. destruct t as [|c [|]]; try reflexivity. cbn [map sign_b]. rewrite (small_eq c 43), (small_eq c 45) by (unfold letter; lia). reflexivity. Qed.
Lemma either_case l c : 97 <= l <= 122 -> (small c =? l) || (small c =? l - 32) = (c =? l) || (c =? l - 32).
Proof. intros Hl. destruct (small_range c) as [-> |[H ->]]; [reflexivity|]. lia. Qed.
Lemma exponent_b_low l t : 97 <= l <= 122 -> exponent_b l (low t) = exponent_b l t.
Proof.
  intros Hl. destruct t as [|c t]; [reflexivity|]. cbn [map exponent_b]. rewrite either_case by exact Hl. rewrite exists_low; [reflexivity|].
  intros a b. rewrite sign_b_low, nonempty_low, digits_b_low. reflexivity.
Qed.
Lemma with_exponent_b_low b l t : 97 <= l <= 122 -> with_exponent_b b l (low t) = with_exponent_b b l t.
Proof. intros Hl. apply exists_low. intros m x. rewrite significand_b_low, exponent_b_low by exact Hl. reflexivity. Qed.
Lemma decimal_b_low fx sc t : decimal_b fx sc (low t) = decimal_b fx sc t.
Proof. unfold decimal_b. rewrite significand_b_low, with_exponent_b_low by lia. reflexivity. Qed.
Lemma prefix_b_low t : prefix_b (low t) = prefix_b t.
Proof.
  destruct t as [|z [|x [|]]]; try reflexivity. cbn [map prefix_b]. rewrite (small_eq z 48) by (unfold letter; lia). assert (E := either_case 120 x ltac:(lia)). cbn [Z.sub Z.add Z.opp Z.pos_sub Pos.pred_double Z.pred_double Z.double Z.succ_double] in E. change (120 - 32) with 88 in E. rewrite E. reflexivity.
Qed.
Lemma number_b_low t : number_b (low t) = number_b t.
Proof.
  unfold number_b, hexadecimal_b. rewrite decimal_b_low, exists_low; [reflexivity|]. intros a b.
  rewrite prefix_b_low, significand_b_low, with_exponent_b_low by lia. reflexivity.
Qed.
Lemma longest_b_low l s n : (forall t, l (low t) = l t) -> longest_b l (low s) n = longest_b l s n.
Proof. intros Hl. induction n as [|n IH]; cbn [longest_b]; rewrite firstn_map, Hl; [reflexivity|]. rewrite IH. reflexivity. Qed.
Lemma mantissa_low b : forall s m f p, mantissa b (low s) m f p = let '(m', f', t) := mantissa b s m f p in (m', f', low t).
Proof.
  induction s as [|c s IH]; intros m f p; [reflexivity|]. cbn [map mantissa]. unfold digit_b. rewrite (small_eq c 46), small_digit by (unfold letter; lia).
  destruct (_ && _); [apply IH|]. destruct (_ <? _); [apply IH|reflexivity].
Qed.
Lemma decimal_value_low ds : decimal_value (low ds) = decimal_value ds.
Proof. unfold decimal_value. generalize 0. induction ds as [|c ds IH]; intros a; [reflexivity|]. cbn [map fold_left]. rewrite small_digit. apply IH. Qed.
Lemma exponent_value_low s : exponent_value (low s) = exponent_value s.
Proof.
  destruct s as [|a [|c ds]]; try reflexivity. cbn [map exponent_value]. rewrite (small_eq c 45), (small_eq c 43) by (unfold letter; lia).
  rewrite decimal_value_low. change (small c :: low ds) with (low (c :: ds)). rewrite decimal_value_low. reflexivity.
Qed.
Lemma text_value_low t : text_value (low t) = text_value t.
Proof.
  unfold text_value. rewrite firstn_map, skipn_map, prefix_b_low, !mantissa_low. destruct (prefix_b (firstn 2 t)).
  - destruct (mantissa 16 (skipn 2 t) 0 0 false) as [[m f] x]. rewrite exponent_value_low. reflexivity.
  - destruct (mantissa 10 t 0 0 false) as [[m f] x]. rewrite exponent_value_low. reflexivity.
Qed.
Lemma overflows_low t : overflows (low t) = overflows t.
Proof. unfold overflows. rewrite text_value_low. reflexivity. Qed.
Lemma underflows_low t : underflows (low t) = underflows t.
Proof. unfold underflows. rewrite overflows_low, text_value_low. reflexivity. Qed.
Lemma exact_value_low t : exact_value (low t) = exact_value t.
Proof. unfold exact_value. rewrite overflows_low, underflows_low, text_value_low. reflexivity. Qed.
Theorem exact_blind long : case_blind (exact_fp long).
Proof.
  split.
  - intros fx sc s. cbn [exact_fp fp_fast]. unfold exact_fast. rewrite map_length, longest_b_low by apply decimal_b_low.
    destruct (longest_b _ s _) as [n|]; [|reflexivity]. cbv zeta. rewrite firstn_map, underflows_low, overflows_low, exact_value_low. reflexivity.
  - intros s. cbn [exact_fp fp_strtod]. unfold exact_strtod. rewrite map_length, longest_b_low by apply number_b_low.
    destruct (longest_b _ s _) as [n|]; [|reflexivity]. cbv zeta. rewrite firstn_map, underflows_low, overflows_low, exact_value_low. reflexivity.
Qed.

(** ** One value *)
Lemma alike {V} (f : list Z -> outcome (V * list Z)) s s' : f (low s) = rest (f s) -> f (low s') = rest (f s') -> same_case s s' -> same_result (f s) (f s').
Proof.
  intros H1 H2 HC. unfold same_case in HC. rewrite HC, H2 in H1. unfold rest, keep, bind in H1.
  destruct (f s) as [[v l]| | |], (f s') as [[v' l']| | |]; cbn [fst snd] in H1; try discriminate; cbn; try congruence; try exact I.
  split; [congruence|]. unfold same_case. congruence.
Qed.
(** Numbers: integers, pointers, floating-point numbers. *)
Definition numeric {F} (t : scalar_type F) : Prop := match t with TInt _ _ | TPointer => True | TFloat f _ => case_blind f | _ => False end.
Definition plain_locale (l : locale) : Prop := ~ letter (l_point l) /\ ~ letter (l_sep l).
Lemma as_value_low {F A} (f : A -> svalue F) (x : outcome (A * list Z)) : as_value f (rest x) = rest (as_value f x).
Proof. destruct x as [[v l]| | |]; reflexivity. Qed.
Lemma scalar_default_low {F} r (t : scalar_type F) s : numeric t -> fit (s_enc r) s -> scalar_default r t (low s) = rest (scalar_default r t s).
Proof.
  intros Ht Hf. destruct t; try contradiction; cbn [scalar_default]; rewrite <- as_value_low; f_equal.
  - apply default_low; [|exact Hf]. intros u Hu. apply int_base_low, Hu.
  - apply default_low; [|exact Hf]. intros u Hu. apply int_specs_low; [unfold letter; lia|exact Hu].
  - apply default_low; [|exact Hf]. intros u Hu. apply float_impl_low; [exact Ht|apply plain_plain|exact Hu].
Qed.
Lemma checked_low {V} r (rd : reader V) sp s : fill_plain (fill sp) -> fits_low r (fun r' => rd_specs rd r' sp) -> fit (s_enc r) s ->
  arg_read_checked r rd sp (low s) = rest (arg_read_checked r rd sp s).
Proof. intros HF HR Hf. unfold arg_read_checked. destruct (rd_check rd sp); [|reflexivity]. apply arg_read_low; assumption. Qed.
Lemma scalar_specs_low {F} rx r l (t : scalar_type F) sp s : numeric t -> plain_locale l -> fill_plain (fill sp) -> fit (s_enc r) s ->
  scalar_specs rx r l t sp (low s) = rest (scalar_specs rx r l t sp s).
Proof.
  intros Ht [L1 L2] HF Hf. destruct t; try contradiction; cbn [scalar_specs]; rewrite <- as_value_low; f_equal; (apply checked_low; [exact HF| |exact Hf]).
  - apply int_fits, L2.
  - apply (int_fits r u64 hex_specs (l_sep l)), L2.
  - apply (float_fits f Ht r (number_options l) sp). split; assumption.
Qed.
Lemma as_value_fit {F A} e (f : A -> svalue F) (x : outcome (A * list Z)) w b : (forall v l, x = Ok (v, l) -> fit e l) -> as_value f x = Ok (w, b) -> fit e b.
Proof. destruct x as [[v l]| | |]; try discriminate. intros H [= _ <-]. eapply H. reflexivity. Qed.
Lemma float_impl_fit {V} (F : fp V) r o q s v l : fit (s_enc r) s -> float_read_impl F r o q s = Ok (v, l) -> fit (s_enc r) l.
Proof.
  intros Hf. unfold float_read_impl. destruct (read_source_impl r o _ s) as [st| | |]; try discriminate. cbn [bind].
  destruct (parse_value F (s_enc r) o st) as [[v' n]| | |]; try discriminate. cbn [bind]. destruct (_ <? _)%nat; [discriminate|]. intros [= _ <-]. apply fit_skipn, Hf.
Qed.
Lemma scalar_default_fit {F} r (t : scalar_type F) s w b : numeric t -> fit (s_enc r) s -> scalar_default r t s = Ok (w, b) -> fit (s_enc r) b.
Proof.
  intros Ht Hf. destruct t; try contradiction; cbn [scalar_default]; apply as_value_fit; intros v l; apply default_fit; try exact Hf; intros u w' l' Hu.
  - apply int_base_fit, Hu.
  - apply int_specs_fit, Hu.
  - apply float_impl_fit, Hu.
Qed.
Lemma scalar_specs_fit {F} rx r l (t : scalar_type F) sp s w b : numeric t -> plain_locale l -> fit (s_enc r) s -> scalar_specs rx r l t sp s = Ok (w, b) -> fit (s_enc r) b.
Proof.
  intros Ht [L1 L2] Hf. destruct t; try contradiction; cbn [scalar_specs]; apply as_value_fit; intros v m; unfold arg_read_checked; (destruct (rd_check _ sp); [|discriminate]); apply arg_read_fit; try exact Hf.
  - apply int_fits, L2.
  - apply (int_fits r u64 hex_specs (l_sep l)), L2.
  - apply (float_fits f Ht r (number_options l) sp). split; assumption.
Qed.
(** A value with the default format, or with any format-spec whose fill is no letter: from any
    source, texts differing only in the case of letters give the same value and leave texts
    differing only in the case of letters, or the same error. *)
Theorem C70_default : forall (F : Type) r (t : scalar_type F) s s',
  numeric t -> units (s_enc r) s -> units (s_enc r) s' -> same_case s s' ->
  same_result (scalar_default r t s) (scalar_default r t s').
Proof. intros F r t s s' Ht Hs Hs' HC. apply alike; [| |exact HC]; (apply scalar_default_low; [exact Ht|apply fit_units; assumption]). Qed.
Theorem C70_specs : forall (F : Type) rx r l (t : scalar_type F) sp s s',
  numeric t -> plain_locale l -> ~ letter (get_code_unit (fill sp)) -> Forall (fun c => ~ letter c) (get_code_units (fill sp)) ->
  units (s_enc r) s -> units (s_enc r) s' -> same_case s s' ->
  same_result (scalar_specs rx r l t sp s) (scalar_specs rx r l t sp s').
Proof.
  intros F rx r l t sp s s' Ht HL F1 F2 Hs Hs' HC. apply alike; [| |exact HC]; (apply scalar_specs_low; [exact Ht|exact HL|split; assumption|apply fit_units; assumption]).
Qed.
Print Assumptions C70_default.
Print Assumptions C70_specs.

(** ** Format strings *)
Lemma ws_blind c d : small c = small d -> is_ws c = is_ws d.
Proof.
  assert (H : forall c, is_ws (small c) = is_ws c) by (apply (small_sweep is_ws Bool.eqb); [apply eqb_prop|vm_compute; reflexivity]).
  intros E. rewrite <- (H c), <- (H d), E. reflexivity.
Qed.
Lemma drop_low e : forall n s, drop_space_loop n e (low s) = low (drop_space_loop n e s).
Proof.
  induction n as [|n IH]; intros s; [reflexivity|]. destruct s as [|c s]; [reflexivity|]. change (low (c :: s)) with (small c :: low s). cbn [drop_space_loop].
  change (small c :: low s) with (low (c :: s)). assert (HN := next_low e (c :: s)). destruct (get_next_code_point e (c :: s)) as [[cp l]| | |]; try (rewrite HN; reflexivity).
  destruct HN as (cp' & -> & E). rewrite (ws_blind cp' cp E). destruct (is_ws cp); [apply IH|reflexivity].
Qed.
Lemma drop_case e s s' : same_case s s' -> same_case (drop_space e s) (drop_space e s').
Proof.
  unfold same_case, drop_space. intros H. rewrite <- !drop_low, H. f_equal. rewrite <- (map_length small s), H, map_length. reflexivity.
Qed.
(** Literals, and fills, without letters.  (The fill of a wide format string is cut to a byte.) *)
Definition plain_fill (e : enc) (d : desc) : Prop := forall c, d_fill d = Some c -> scalar c /\ ~ letter (match e with U8 => c | _ => c mod 256 end).
Definition plain_tokens (e : enc) (ts : list token) : Prop :=
  (forall c, In (Lit c) ts -> ~ letter c) /\ forall id d, In (Field id (Some d)) ts -> plain_fill e d.
Lemma mean_plain_fill e d : plain_fill e d -> fill_plain (fill (mean e d)).
Proof.
  intros H. assert (E : fill (mean e d) = mean_fill e (d_fill d)) by (unfold mean; destruct (d_type d) as [[c|i s|p f]|]; reflexivity). rewrite E. unfold plain_fill in H.
  destruct (d_fill d) as [c|]; [|split; [cbn; unfold letter; lia|repeat constructor; unfold letter; lia]]. destruct (H c eq_refl) as [HS HC].
  assert (HR : 0 <= c < 1114112) by (unfold scalar in HS; lia).
  unfold fill_plain, get_code_unit, get_code_units. cbn [mean_fill]. destruct e; cbn [f_size f_data].
  2,3: cbn [firstn fold_right]; split; [unfold letter in *; lia|repeat constructor; exact HC].
  rewrite firstn_app, firstn_all, Nat.sub_diag, firstn_O, app_nil_r. unfold utf8_of, letter in *.
  assert (D1 := Z.div_mod c 64 ltac:(lia)). assert (D2 := Z.mod_pos_bound c 64 ltac:(lia)). assert (D3 := Z.mod_pos_bound (c / 64) 64 ltac:(lia)). assert (D4 := Z.mod_pos_bound (c / 4096) 64 ltac:(lia)).
  assert (P1 : 0 <= c / 64) by (apply Z.div_pos; lia). assert (P2 : 0 <= c / 4096) by (apply Z.div_pos; lia). assert (P3 : 0 <= c / 262144) by (apply Z.div_pos; lia).
  destruct (c <? 128) eqn:E1; [|destruct (c <? 2048) eqn:E2; [|destruct (c <? 65536) eqn:E3]]; cbn [fold_right]; (split; [lia|repeat constructor; lia]).
Qed.

Section Run.
Context {V : Type} (e : enc) (nargs : Z) (read : Z -> option desc -> list Z -> outcome (V * list Z)) (eof_ok : bool) (fail : list Z -> err -> err).
Variable ts0 : list token.
Hypothesis Hread : forall id i d s s', In (Field id d) ts0 -> units e s -> units e s' -> same_case s s' -> same_result (read i d s) (read i d s').
Hypothesis Hrest : forall id i d s v l, In (Field id d) ts0 -> units e s -> read i d s = Ok (v, l) -> units e l.
Lemma run_case : forall ts next used ws s s' log, (forall t, In t ts -> In t ts0) -> (forall c, In (Lit c) ts -> ~ letter c) ->
  units e s -> units e s' -> same_case s s' ->
  same_result (run V e nargs read eof_ok fail ts next used ws s log) (run V e nargs read eof_ok fail ts next used ws s' log).
Proof.
  assert (UD : forall s, units e s -> units e (drop_space e s)).
  { intros s Hs. eapply units_suffix; [apply drop_space_suffix|exact Hs]. }
  induction ts as [|[c|id d] ts IH]; intros next used ws s s' log HI HL Hs Hs' HC; cbn [run].
  - destruct (covers nargs used); cbn; auto.
  - assert (HI' : forall t, In t ts -> In t ts0) by (intros t Ht; apply HI; right; exact Ht). assert (HL' : forall c, In (Lit c) ts -> ~ letter c) by (intros c' H; apply HL; right; exact H).
    destruct (is_ws c) eqn:EW.
    + destruct ws; [apply IH; assumption|]. destruct s as [|a s], s' as [|a' s']; try discriminate HC.
      * destruct eof_ok; [apply IH; assumption|reflexivity].
      * apply IH; try assumption; [apply UD, Hs|apply UD, Hs'|apply drop_case, HC].
    + destruct s as [|a s], s' as [|a' s']; try discriminate HC; [reflexivity|]. injection HC as Ha HC.
      assert (Hc : ~ letter c) by (apply HL; left; reflexivity). rewrite <- (small_eq a c Hc), <- (small_eq a' c Hc), Ha. destruct (small a' =? c); [|reflexivity].
      apply IH; try assumption; [eapply units_suffix; [|exact Hs]; exists [a]; reflexivity|eapply units_suffix; [|exact Hs']; exists [a']; reflexivity].
  - assert (HI' : forall t, In t ts -> In t ts0) by (intros t Ht; apply HI; right; exact Ht). assert (HL' : forall c, In (Lit c) ts -> ~ letter c) by (intros c' H; apply HL; right; exact H).
    assert (HF : In (Field id d) ts0) by (apply HI; left; reflexivity). set (i := match id with Some ds => FormatSpec.number ds | None => next end).
    destruct (_ || _); [reflexivity|]. assert (HR := Hread id i d s s' HF Hs Hs' HC). assert (R1 := fun v l => Hrest id i d s v l HF Hs). assert (R2 := fun v l => Hrest id i d s' v l HF Hs').
    destruct (read i d s) as [[v l]| | |], (read i d s') as [[v' l']| | |]; try contradiction HR; cbn in HR; cbn; auto; [|congruence].
    destruct HR as [<- HR]. apply IH; eauto.
Qed.
End Run.

(** Arguments of any type whose reading, for these fields, does not tell cases apart. *)
Theorem C70_args_partial : forall V r cf (args : list (arg V)) ts source source' log rest,
  setup r cf args ts source -> (forall c, In (Lit c) ts -> ~ letter c) ->
  (forall id i d s s', In (Field id d) ts -> units (s_enc r) s -> units (s_enc r) s' -> same_case s s' ->
     same_result (read_arg V args i (option_map (mean (s_enc r)) d) s) (read_arg V args i (option_map (mean (s_enc r)) d) s')) ->
  units (s_enc r) source' -> same_case source source' ->
  vscan V r cf args (render (s_enc r) ts) source = Ok (log, rest) ->
  exists rest', vscan V r cf args (render (s_enc r) ts) source' = Ok (log, rest') /\ same_case rest rest'.
Proof.
  intros V r cf args ts source source' log rest HS HL HR Hu' HC E. apply C18_tokens_partial in E; [|exact HS].
  destruct HS as (H1 & H2 & H3 & H4 & H5 & H6 & H7 & H8).
  assert (HX := run_case (s_enc r) (Z.of_nat (List.length args)) (meant (s_enc r) (read_arg V args)) false (code_fail V args) ts HR
    (fun id i d s v l _ Hs Es => units_suffix _ _ _ (H4 i d s v l Hs Es) Hs) ts 0 [] false source source' [] (fun _ H => H) HL H8 Hu' HC).
  unfold expected, scan_spec in E. rewrite E in HX.
  destruct (run V _ _ _ _ _ ts 0 [] false source' []) as [[log' rest']| | |] eqn:E'; try contradiction HX. destruct HX as [<- HX]. exists rest'. split; [|exact HX].
  apply C18_tokens_partial; [repeat split; assumption|exact E'].
Qed.
Print Assumptions C70_args_partial.

(** Numbers. *)
Theorem C70_partial : forall (F : Type) rx cf global l r (sts : list (scalar_type F)) ts source source' log rest,
  good_src r -> c_enc cf = s_enc r -> engine_ok rx -> Forall named sts -> Forall usual sts -> Forall numeric sts -> plain_locale (get_locale global l) ->
  uniform ts -> wf_tok cf (map scalar_arg_type sts) ts 0 -> plain_tokens (s_enc r) ts ->
  units (s_enc r) source -> units (s_enc r) source' -> same_case source source' ->
  scan_with rx cf global l r (map TScalar sts) (render (s_enc r) ts) source = Ok (log, rest) ->
  exists rest', scan_with rx cf global l r (map TScalar sts) (render (s_enc r) ts) source' = Ok (log, rest') /\ same_case rest rest'.
Proof.
  intros F rx cf global l r sts ts source source' log rest Hr Hcf Hrx Hna Hus Hnu HP HU HW [HL HF] Hu Hu' HC E.
  destruct (Nat.lt_ge_cases (List.length sts) 64) as [Hc|Hc]; [|exfalso; revert E; apply C18_many_args_refuted; rewrite !map_length; exact Hc].
  apply C18_scalars_partial in E; try assumption.
  set (args := map (target_arg rx cf global l r) (map TScalar sts)) in *.
  assert (HR : forall id i d s s', In (Field id d) ts -> units (s_enc r) s -> units (s_enc r) s' -> same_case s s' ->
    same_result (meant (s_enc r) (read_arg _ args) i d s) (meant (s_enc r) (read_arg _ args) i d s')).
  { intros id i d s s' HI Hs Hs' Hss. unfold meant, read_arg, args. rewrite !nth_error_map. destruct (nth_error sts (Z.to_nat i)) as [t|] eqn:ET; [|exact I].
    assert (Ht : numeric t) by (eapply (proj1 (Forall_forall _ _) Hnu), nth_error_In, ET). cbn [option_map target_arg ar_default ar_specs].
    assert (HV : forall x y : outcome (svalue F * list Z), same_result x y -> same_result (leaf_value x) (leaf_value y)).
    { intros x y. destruct x as [[v a]| | |], y as [[v' a']| | |]; cbn; try tauto. intros [<- H]. split; [reflexivity|exact H]. }
    destruct d as [d|]; cbn [option_map]; apply HV.
    - destruct (mean_plain_fill (s_enc r) d (HF _ _ HI)) as [F1 F2]. apply C70_specs; assumption.
    - apply C70_default; assumption. }
  assert (HQ : forall id i d s v a, In (Field id d) ts -> units (s_enc r) s -> meant (s_enc r) (read_arg _ args) i d s = Ok (v, a) -> units (s_enc r) a).
  { intros id i d s v a HI Hs. unfold meant, read_arg, args. rewrite !nth_error_map. destruct (nth_error sts (Z.to_nat i)) as [t|] eqn:ET; [|discriminate].
    assert (Ht : numeric t) by (eapply (proj1 (Forall_forall _ _) Hnu), nth_error_In, ET). cbn [option_map target_arg ar_default ar_specs].
    apply fit_units in Hs. intros Es. apply fit_units. revert Es.
    assert (HV : forall x : outcome (svalue F * list Z), (forall w b, x = Ok (w, b) -> fit (s_enc r) b) -> leaf_value x = Ok (v, a) -> fit (s_enc r) a).
    { intros [[w b]| | |] H Ex; try discriminate. injection Ex as _ <-. eapply H. reflexivity. }
    destruct d as [d|]; cbn [option_map]; apply HV; intros w b; [eapply scalar_specs_fit|eapply scalar_default_fit]; eassumption. }
  assert (HX := run_case (s_enc r) (Z.of_nat (List.length args)) (meant (s_enc r) (read_arg _ args)) false (code_fail _ args) ts HR HQ ts 0 [] false source source' [] (fun _ H => H) HL Hu Hu' HC).
  unfold expected, scan_spec in E. rewrite E in HX.
  destruct (run _ _ _ _ _ _ ts 0 [] false source' []) as [[log' rest']| | |] eqn:E'; try contradiction HX. destruct HX as [<- HX]. exists rest'. split; [|exact HX].
  apply C18_scalars_partial; try assumption; try exact E'.
Qed.
Print Assumptions C70_partial.

(** ** Presentation types *)
(** Format strings which differ in the case of the type letters only. *)
Definition recased_spec (d d' : desc) : Prop :=
  d_fill d = d_fill d' /\ d_align d = d_align d' /\ d_width d = d_width d' /\ d_prec d = d_prec d' /\ d_local d = d_local d'
  /\ match d_type d, d_type d' with
     | Some (TyLetter c), Some (TyLetter c') => small c = small c' /\ letter_type c <> None /\ letter_type c' <> None
     | x, y => x = y
     end.
Inductive recased : token -> token -> Prop :=
| rc_lit c : recased (Lit c) (Lit c)
| rc_field id : recased (Field id None) (Field id None)
| rc_spec id d d' : recased_spec d d' -> recased (Field id (Some d)) (Field id (Some d')).
Lemma letter_type_case c c' : small c = small c' -> letter_type c <> None -> letter_type c' <> None -> letter_type c = letter_type c'.
Proof.
  assert (HK : forall c, letter_type c <> None -> In c (map fst letter_table)).
  { intros x H. unfold letter_type in H. destruct (find (fun p => fst p =? x) letter_table) as [[k t]|] eqn:E; [|contradiction H; reflexivity].
    apply find_some in E. destruct E as [E1 E2]. apply Z.eqb_eq in E2. cbn [fst] in E2. subst k. apply (in_map fst) in E1. exact E1. }
  intros E H H'. apply HK in H. apply HK in H'. cbn in H, H'.
  repeat (destruct H as [<-|H]; [repeat (destruct H' as [<-|H']; [try reflexivity; cbn in E; discriminate E|]); destruct H'|]). destruct H.
Qed.
Lemma recased_mean e d d' : recased_spec d d' -> mean e d = mean e d'.
Proof.
  intros (H1 & H2 & H3 & H4 & H5 & H6). unfold mean. rewrite H1, H2, H3, H4, H5.
  destruct (d_type d) as [[c|i s|p f]|], (d_type d') as [[c'|i' s'|p' f']|]; try discriminate H6; try (injection H6 as ->; reflexivity); try reflexivity.
  - destruct H6 as (E & N1 & N2). rewrite (letter_type_case c c' E N1 N2). reflexivity.
  - injection H6 as -> ->. reflexivity.
  - injection H6 as -> ->. reflexivity.
Qed.
Theorem C70_letters_partial : forall (F : Type) rx cf global l r (sts : list (scalar_type F)) ts ts' source x,
  good_src r -> c_enc cf = s_enc r -> engine_ok rx -> Forall named sts -> Forall usual sts ->
  uniform ts -> wf_tok cf (map scalar_arg_type sts) ts 0 -> uniform ts' -> wf_tok cf (map scalar_arg_type sts) ts' 0 -> units (s_enc r) source ->
  Forall2 recased ts ts' ->
  scan_with rx cf global l r (map TScalar sts) (render (s_enc r) ts) source = Ok x
  <-> scan_with rx cf global l r (map TScalar sts) (render (s_enc r) ts') source = Ok x.
Proof.
  intros F rx cf global l r sts ts ts' source x Hr Hcf Hrx Hna Hus HU HW HU' HW' Hu HR.
  destruct (Nat.lt_ge_cases (List.length sts) 64) as [Hc|Hc].
  2: { split; intros E; exfalso; revert E; apply C18_many_args_refuted; rewrite !map_length; exact Hc. }
  rewrite !C18_scalars_partial by assumption. unfold expected, scan_spec. clear HU HW HU' HW'.
  assert (H : forall V n read eof fail next used ws s log, run V (s_enc r) n (meant (s_enc r) read) eof fail ts next used ws s log = run V (s_enc r) n (meant (s_enc r) read) eof fail ts' next used ws s log).
  { intros V n read eof fail. induction HR as [|t t' ts ts' H1 H2 IH]; intros next used ws s log; [reflexivity|]. destruct H1 as [c|id|id d d' HD]; cbn [run].
    - destruct (is_ws c); [destruct ws; [apply IH|]; destruct s; [destruct eof; [apply IH|reflexivity]|apply IH]|]. destruct s; [reflexivity|]. destruct (_ =? _); [apply IH|reflexivity].
    - destruct (_ || _); [reflexivity|]. destruct (meant _ _ _ _ s) as [[v s']| | |]; try reflexivity. apply IH.
    - destruct (_ || _); [reflexivity|]. unfold meant at 1 3. cbn [option_map]. rewrite (recased_mean (s_enc r) d d' HD). destruct (read _ _ s) as [[v s']| | |]; try reflexivity. apply IH. }
  rewrite H. reflexivity.
Qed.
Print Assumptions C70_letters_partial.

(** ** A case: "{:x}; {:*>8} {:e}" with an int, a pointer and a double *)
Definition scalars70 : list (scalar_type FloatInstance.exact) := [TInt i32 IntType; TPointer; TFloat (exact_fp false) DoubleType].
Definition tokens70 (x e : Z) : list token :=
  [Field None (Some (Desc None None None None false (Some (TyLetter x)))); Lit 59; Lit 32;
   Field None (Some (Desc (Some 42) (Some ARight) (Some (T "8")) None false None)); Lit 32; Field None (Some (Desc None None None None false (Some (TyLetter e))))].
Definition values70 : list (Z * value (svalue FloatInstance.exact)) := [(0, VLeaf (SVInt 0xab)); (1, VLeaf (SVPointer 0xbeef)); (2, VLeaf (SVFloat (Fraction false 1500 1)))].
Ltac plain70 := unfold letter; lia.
Example C70_ex :
  render U8 (tokens70 120 101) = T "{:x}; {:*>8} {:e}" /\ render U8 (tokens70 88 69) = T "{:X}; {:*>8} {:E}"
  /\ scan_with no_rx narrow classic None string_src (map TScalar scalars70) (T "{:x}; {:*>8} {:e}") (T "0xAb; **0XBeEF 1.5e3Xy") = Ok (values70, T "Xy")
  /\ scan_with no_rx narrow classic None string_src (map TScalar scalars70) (T "{:x}; {:*>8} {:e}") (T "0XaB; **0xbEeF 1.5E3xY") = Ok (values70, T "xY")
  /\ scan_with no_rx narrow classic None string_src (map TScalar scalars70) (T "{:X}; {:*>8} {:E}") (T "0xAb; **0XBeEF 1.5e3Xy") = Ok (values70, T "Xy")
  /\ same_case (T "0xAb; **0XBeEF 1.5e3Xy") (T "0XaB; **0xbEeF 1.5E3xY") /\ Forall2 recased (tokens70 120 101) (tokens70 88 69)
  /\ Forall named scalars70 /\ Forall usual scalars70 /\ Forall numeric scalars70 /\ plain_locale (get_locale classic None)
  /\ (forall x e, x = 120 \/ x = 88 -> e = 101 \/ e = 69 -> uniform (tokens70 x e) /\ wf_tok narrow (map scalar_arg_type scalars70) (tokens70 x e) 0 /\ plain_tokens U8 (tokens70 x e)).
Proof.
  do 6 (split; [vm_compute; reflexivity|]).
  split; [repeat (first [apply Forall2_nil | apply Forall2_cons]); try constructor; (repeat split; cbn; try reflexivity; discriminate)|].
  split; [repeat (apply Forall_cons; [constructor; reflexivity|]); apply Forall_nil|].
  split.
  { repeat (apply Forall_cons; [cbn [usual]|]); try apply Forall_nil; try exact I; [unfold type_ok; cbn; auto 10|exists exact_meaning; apply exact_converts]. }
  split; [apply Forall_cons; [exact I|apply Forall_cons; [exact I|apply Forall_cons; [apply exact_blind|apply Forall_nil]]]|].
  split; [split; cbn; unfold letter; lia|].
  intros x e Hx He. split.
  { left. intros id d H. unfold tokens70 in H. cbn [In] in H. repeat (destruct H as [H|H]; [try discriminate H; injection H as <- _; reflexivity|]). destruct H. }
  split.
  { unfold wf_tok. cbn [wf_gtokens tokens70]. unfold wf_id, lit_ok. destruct Hx as [-> | ->], He as [-> | ->]; doc_wf_tac; unfold scalar; cbn; lia. }
  split.
  - intros c H. unfold tokens70 in H. cbn [In] in H. repeat (destruct H as [H|H]; [try discriminate H; injection H as <-; plain70|]). destruct H.
  - intros id d H. unfold tokens70 in H. cbn [In] in H. repeat (destruct H as [H|H]; [try discriminate H; injection H as _ <-; intros c Hc; cbn in Hc; try discriminate Hc|]); [|destruct H].
    injection Hc as <-. split; [unfold scalar; lia|plain70].
Qed.
(** Infinity, NaN, binary and octal prefixes, and the same error either way. *)
Example C70_special_ex :
  scan1 (TFloat (exact_fp false) DoubleType) (T "{}") (T "InF.") = Ok ([(0, VLeaf (SVFloat (Infinity false)))], T ".")
  /\ scan1 (TFloat (exact_fp false) DoubleType) (T "{}") (T "-INFinity") = Ok ([(0, VLeaf (SVFloat (Infinity true)))], [])
  /\ scan1 (TFloat (exact_fp false) DoubleType) (T "{}") (T "nAN(Q)") = Ok ([(0, VLeaf (SVFloat (NaN false)))], [])
  /\ scan1 (TInt i32 IntType) (T "{:i}") (T "0B11") = Ok ([(0, VLeaf (SVInt 3))], [])
  /\ scan1 (TInt i32 IntType) (T "{:i}") (T "0O17") = Ok ([(0, VLeaf (SVInt 15))], [])
  /\ scan1 (TInt u8 UCharType) (T "{:x}") (T "FfF") = Err ValuePositiveOverflow
  /\ scan1 (TInt u8 UCharType) (T "{:x}") (T "fFf") = Err ValuePositiveOverflow.
Proof. repeat split; vm_compute; reflexivity. Qed.

(** ** Refutations *)
(** The names of the boolean values are read with regard to case ... *)
Theorem C70_bool_refuted : exists f s s', same_case s s'
  /\ scan1 TBool f s = Ok ([(0, VLeaf (SVBool true))], []) /\ scan1 TBool f s' = Err InvalidScannedValue.
Proof. exists (T "{}"), (T "true"), (T "TRUE"). repeat split; vm_compute; reflexivity. Qed.
(** ... and not every presentation type has a capital letter. *)
Theorem C70_capital_refuted : exists f f' s, same_case f f'
  /\ scan1 (TInt i32 IntType) f s = Ok ([(0, VLeaf (SVInt 12))], []) /\ scan1 (TInt i32 IntType) f' s = Err InvalidFormatString.
Proof. exists (T "{:d}"), (T "{:D}"), (T "12"). repeat split; vm_compute; reflexivity. Qed.
Print Assumptions C70_bool_refuted.
Print Assumptions C70_capital_refuted.
