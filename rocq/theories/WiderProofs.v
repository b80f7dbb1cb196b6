(** Proofs about replacing types by wider ones. *)
From Verif Require Import Prelude Tables UnicodeModel ReadModel SpecsModel FormatModel FormatProofs ArgsModel BitsModel BitsProofs
  WidthModel ArgReaderModel ScalarModel StringModel FloatModel RangesModel VscanModel LocaleModel CheckerProofs IntModel IntSpec IntProofs WiderSpec.
Local Open Scope Z_scope.

(** * Results *)
Definition near (E : err -> Prop) {A} (x y : outcome A) : Prop := x = y \/ exists e, x = Err e /\ E e.
Lemma near_refl E {A} (x : outcome A) : near E x x.
Proof. left. reflexivity. Qed.
Lemma near_err (E : err -> Prop) {A} e (y : outcome A) : E e -> near E (Err e) y.
Proof. right. exists e. auto. Qed.
Lemma near_bind E {A B} (x y : outcome A) (k l : A -> outcome B) : near E x y -> (forall v, y = Ok v -> near E (k v) (l v)) ->
  near E (bind x k) (bind y l).
Proof.
  intros [->|(e & -> & H)] HK; [|right; exists e; auto]. destruct y as [v|e| |]; cbn [bind]; try apply near_refl. apply HK. reflexivity.
Qed.

Lemma all_length {A B} (R : A -> B -> Prop) l l' : Forall2 R l l' -> length l = length l'.
Proof. induction 1; cbn; congruence. Qed.
Lemma all_nth {A B} (R : A -> B -> Prop) l l' : Forall2 R l l' ->
  forall n, match nth_error l n, nth_error l' n with Some a, Some b => R a b | None, None => True | _, _ => False end.
Proof. induction 1 as [|a b l l' H _ IH]; intros [|n]; cbn; try exact I; [exact H|exact (IH n)]. Qed.

Section Loop.
Context {V : Type}.
Variables (r : src) (cf : config) (E : err -> Prop).
Hypothesis HE : (exists e, E e) -> E InvalidFormatString.
Definition alike (t t' : arg_type) : Prop :=
  arg_eqb t CustomType = arg_eqb t' CustomType /\ forall st, on_localized t st = on_localized t' st.
Lemma alike_parse t t' s st : alike t t' -> parse_format_specs cf t s st = parse_format_specs cf t' s st.
Proof.
  intros [_ H]. assert (HT : forall s st, parse_specs_tail cf t s st = parse_specs_tail cf t' s st).
  { intros s0 st0. unfold parse_specs_tail. destruct s0 as [|c s0]; [reflexivity|]. rewrite H. reflexivity. }
  unfold parse_format_specs. destruct (specs_shortcut s); [reflexivity|]. destruct s as [|c0 s0]; [reflexivity|].
  destruct (parse_align _ _ _) as [[s1 st1]| | |]; cbn [bind]; try reflexivity. destruct s1 as [|c1 s1]; [reflexivity|].
  destruct (parse_width _ _) as [[s2 st2]| | |]; cbn [bind]; try reflexivity. destruct s2 as [|c2 s2]; [reflexivity|].
  destruct (c2 =? 46); [|apply HT]. destruct s2 as [|c3 s3]; [reflexivity|].
  destruct (parse_precision _ _) as [[s4 st4]| | |]; cbn [bind]; try reflexivity. destruct s4 as [|c4 s4]; [reflexivity|]. apply HT.
Qed.

Record better (a b : arg V) : Prop := Better {
  bt_type : alike (ar_type a) (ar_type b);
  bt_default : forall s, near E (ar_default a s) (ar_default b s);
  bt_plain : forall s, near E (ar_plain a s) (ar_plain b s);
  bt_specs : forall sp s, near E (ar_specs a sp s) (ar_specs b sp s);
  bt_custom : forall f s, fst (ar_custom a f s) = fst (ar_custom b f s) /\ near E (snd (ar_custom a f s)) (snd (ar_custom b f s)) }.
Variables args args' : list (arg V).
Hypothesis Hargs : Forall2 better args args'.
Lemma args_length : length args = length args'.
Proof. exact (all_length _ _ _ Hargs). Qed.
Lemma args_same_count : args_count V args = args_count V args'.
Proof. unfold args_count. rewrite args_length. reflexivity. Qed.
Lemma get_two i : match get_arg V args i, get_arg V args' i with Some a, Some b => better a b | None, None => True | _, _ => False end.
Proof. apply (all_nth better), Hargs. Qed.

(** * States *)
Definition lost_st (st : state V) : Prop := exists e, st_error st = Some e /\ E e.
Definition nearst {R} (p : R -> state V) (x y : outcome R) : Prop := x = y \/ exists z, x = Ok z /\ lost_st (p z).
Notation h := (format_handler V r cf args).
Notation h' := (format_handler V r cf args').
Lemma visited_same i st : set_arg_as_visited V args i st = set_arg_as_visited V args' i st.
Proof. unfold set_arg_as_visited. rewrite args_same_count. reflexivity. Qed.
Lemma missing_same i st : note_missing V args i st = note_missing V args' i st.
Proof. unfold note_missing. assert (H := get_two i). destruct (get_arg V args i), (get_arg V args' i); tauto. Qed.
Lemma finish_near i x y st : near E x y -> nearst (fun s => s) (finish_visit V i x st) (finish_visit V i y st).
Proof. intros [->|(e & -> & H)]; [left; reflexivity|right]. eexists. split; [reflexivity|]. exists e. auto. Qed.
Lemma field_near i t st : nearst (fun s => s) (on_replacement_field V args i t st) (on_replacement_field V args' i t st).
Proof.
  unfold on_replacement_field. rewrite visited_same, missing_same.
  destruct (set_arg_as_visited V args' i _) as [st1| | |]; cbn [bind]; try (left; reflexivity).
  destruct (failed V st1); [left; reflexivity|]. assert (H := get_two i).
  destruct (get_arg V args i) as [a|], (get_arg V args' i) as [b|]; try contradiction; [|left; reflexivity]. apply finish_near, H.
Qed.
Lemma finish_specs_near {P} (p : P) i x y st : near E x y ->
  nearst snd (st <- finish_visit V i x st ;; Ok (p, st)) (st <- finish_visit V i y st ;; Ok (p, st)).
Proof.
  intros H. destruct (finish_near i x y st H) as [->|(z & -> & HZ)]; [left; reflexivity|right]. eexists. split; [reflexivity|exact HZ].
Qed.
Lemma specs_near i t st : nearst snd (on_format_specs V cf args i t st) (on_format_specs V cf args' i t st).
Proof.
  unfold on_format_specs. rewrite visited_same, missing_same.
  destruct (set_arg_as_visited V args' i _) as [st1| | |]; cbn [bind]; try (left; reflexivity).
  assert (H := get_two i). destruct (get_arg V args i) as [a|], (get_arg V args' i) as [b|]; try contradiction; [|left; reflexivity].
  rewrite (proj1 (bt_type _ _ H)). destruct (arg_eqb (ar_type b) CustomType).
  - cbv zeta. destruct (failed V _); [left; reflexivity|]. destruct (st_mixed _); [left; reflexivity|].
    destruct (bt_custom _ _ H t (st_src (set_pctx V t st1))) as [H1 H2].
    destruct (ar_custom a t _) as [p x], (ar_custom b t _) as [q y]. cbn [fst snd] in H1, H2. subst q. apply finish_specs_near, H2.
  - rewrite (alike_parse _ _ _ _ (bt_type _ _ H)). destruct (parse_format_specs _ _ _ _) as [[s ss]| | |]; cbn [bind]; try (left; reflexivity).
    destruct s as [|c s]; [left; reflexivity|]. destruct (negb _); [left; reflexivity|]. destruct (ss_err ss); [left; reflexivity|]. cbv zeta.
    destruct (failed V _); [left; reflexivity|]. apply finish_specs_near, (bt_specs _ _ H).
Qed.
Lemma lost_error z : lost_st z -> lost_st (on_error V InvalidFormatString z).
Proof. intros (e & _ & H). exists InvalidFormatString. split; [reflexivity|]. apply HE. exists e. exact H. Qed.
Lemma replacement_near s st : nearst snd (parse_replacement_field h s st) (parse_replacement_field h' s st).
Proof.
  unfold parse_replacement_field. destruct s as [|c0 s]; [left; reflexivity|]. destruct s as [|c s]; [left; reflexivity|].
  destruct (c =? 125).
  { change (h_auto_id h) with (h_auto_id h'). destruct (h_auto_id h' st) as [[id st1]| | |]; cbn [bind]; try (left; reflexivity).
    cbn [h_field format_handler]. destruct (field_near id (c :: s) st1) as [->|(z & -> & HZ)]; [left; reflexivity|right]. eexists. split; [reflexivity|exact HZ]. }
  destruct (c =? 123); [left; reflexivity|]. change (parse_arg_id h) with (parse_arg_id h').
  destruct (parse_arg_id h' (c :: s) st) as [[[s1 id] st1]| | |]; cbn [bind]; try (left; reflexivity).
  destruct s1 as [|c1 s1]; [left; reflexivity|]. destruct (c1 =? 125).
  { cbn [h_field format_handler]. destruct (field_near id (c1 :: s1) st1) as [->|(z & -> & HZ)]; [left; reflexivity|right]. eexists. split; [reflexivity|exact HZ]. }
  destruct (c1 =? 58); [|left; reflexivity]. destruct s1 as [|c2 s2]; [left; reflexivity|].
  cbn [h_specs format_handler]. destruct (specs_near id (c2 :: s2) st1) as [->|([p z] & -> & HZ)]; [left; reflexivity|right]. cbn [bind snd] in *.
  destruct p as [|d p]; [eexists; split; [reflexivity|]; apply lost_error, HZ|].
  destruct (negb (d =? 125)); eexists; (split; [reflexivity|]); [apply lost_error, HZ|exact HZ].
Qed.
Lemma loop_near : forall fuel begin it st, nearst (fun s => s) (parse_loop fuel h begin it st) (parse_loop fuel h' begin it st).
Proof.
  induction fuel as [|f IH]; intros begin it st; destruct it as [|c it]; try (left; reflexivity). cbn [parse_loop].
  destruct (c =? 123).
  - change (h_literal h) with (h_literal h'). destruct (h_literal h' _ st) as [st1| | |]; cbn [bind]; try (left; reflexivity).
    destruct (replacement_near (c :: it) st1) as [->|([p z] & -> & HZ)].
    + destruct (parse_replacement_field h' (c :: it) st1) as [[p z]| | |]; cbn [bind]; try (left; reflexivity).
      change (h_failed h) with (h_failed h'). destruct (h_failed h' z); [left; reflexivity|apply IH].
    + right. cbn [bind snd] in *. exists z. split; [|exact HZ]. cbn [h_failed format_handler]. destruct HZ as (e & He & _). unfold failed. rewrite He. reflexivity.
  - destruct (c =? 125); [|apply IH]. destruct it as [|d it]; [left; reflexivity|]. destruct (negb _); [left; reflexivity|].
    change (h_literal h) with (h_literal h'). destruct (h_literal h' _ st) as [st1| | |]; cbn [bind]; try (left; reflexivity). apply IH.
Qed.
Lemma exhausted_same st : check_args_exhausted V args st = check_args_exhausted V args' st.
Proof. unfold check_args_exhausted. rewrite args_same_count. reflexivity. Qed.
(** For fewer than 64 arguments counting the visited ones is defined. *)
Lemma exhausted_lost st : args_count V args' < 64 -> lost_st st ->
  exists z, check_args_exhausted V args' st = Ok z /\ lost_st z.
Proof.
  intros HN HS. unfold check_args_exhausted. destruct (negb _); [eexists; split; [reflexivity|apply lost_error, HS]|].
  assert (EC : (args_count V args' <? 64) = true) by lia. rewrite EC. exists st. auto.
Qed.
Theorem vscan_near format source : args_count V args < 64 -> near E (vscan V r cf args format source) (vscan V r cf args' format source).
Proof.
  intros HN. unfold vscan. rewrite args_same_count. destruct (is_simple format && _).
  { unfold scan_simple_single_argument. assert (H := get_two 0).
    destruct (get_arg V args 0) as [x|], (get_arg V args' 0) as [y|]; try contradiction; [|left; reflexivity].
    eapply near_bind; [apply H|]. intros [v s] _. apply near_refl. }
  unfold vscan_parse_format_string, parse_format_string_impl.
  assert (EF : vscan_fuel V args format = vscan_fuel V args' format) by (unfold vscan_fuel; rewrite args_length; reflexivity).
  assert (EI : init_state V args format source = init_state V args' format source) by (unfold init_state; rewrite args_same_count; reflexivity).
  rewrite EF, EI. destruct (loop_near (vscan_fuel V args' format) format format (init_state V args' format source)) as [->|(z & -> & HZ)].
  - destruct (parse_loop _ h' _ _ _) as [st| | |]; cbn [bind]; try (left; reflexivity). rewrite exhausted_same. left. reflexivity.
  - right. cbn [bind]. rewrite exhausted_same. rewrite args_same_count in HN. destruct (exhausted_lost z HN HZ) as (w & -> & e & He & HE').
    cbn [bind]. rewrite He. exists e. auto.
Qed.
Theorem vscan_success format source x : vscan V r cf args format source = Ok x -> vscan V r cf args' format source = Ok x.
Proof.
  unfold vscan. rewrite args_same_count. destruct (is_simple format && _).
  { unfold scan_simple_single_argument. assert (H := get_two 0).
    destruct (get_arg V args 0) as [a|], (get_arg V args' 0) as [b|]; try contradiction; [|auto].
    destruct (bt_plain _ _ H source) as [->|(e & -> & _)]; [auto|discriminate]. }
  unfold vscan_parse_format_string, parse_format_string_impl.
  assert (EF : vscan_fuel V args format = vscan_fuel V args' format) by (unfold vscan_fuel; rewrite args_length; reflexivity).
  assert (EI : init_state V args format source = init_state V args' format source) by (unfold init_state; rewrite args_same_count; reflexivity).
  rewrite EF, EI. destruct (loop_near (vscan_fuel V args' format) format format (init_state V args' format source)) as [->|(z & -> & HZ)].
  - destruct (parse_loop _ h' _ _ _) as [st| | |]; cbn [bind]; try discriminate. rewrite exhausted_same. auto.
  - cbn [bind]. intros HX. exfalso. apply bind_ok in HX. destruct HX as (w & HW & HX). destruct HZ as (e & He & _). unfold check_args_exhausted in HW.
    destruct (negb _); [injection HW as <-; discriminate|]. destruct (_ <? _); [injection HW as <-; rewrite He in HX; discriminate|].
    destruct (check_upper _ _) as [[|[q|q|]|q]|]; try discriminate; injection HW as <-; cbn in HX; rewrite ?He in HX; discriminate.
Qed.
End Loop.

(** * Integers *)
Section Ints.
Variables (E : err -> Prop) (t t' : inttype).
Hypothesis Ht : type_ok t.
Hypothesis Ht' : type_ok t'.
Hypothesis Hholds : holds_all t t'.
Hypothesis HP : E ValuePositiveOverflow.
Hypothesis HN : E ValueNegativeOverflow.
Hypothesis HM : it_signed t = false -> it_signed t' = true -> E InvalidScannedValue.
Lemma limits_le neg : (it_signed t = false -> neg = false) -> (it_signed t' = false -> neg = false) -> limit t neg <= limit t' neg.
Proof.
  intros H H'. assert (HR := limit_range t neg Ht H). assert (F1 := limit_fits t neg (limit t neg) Ht H ltac:(lia)).
  assert (F2 := limit_fits t' neg (limit t neg) Ht' H' ltac:(lia)). apply F2, Hholds, F1. lia.
Qed.
Lemma signed_kept : it_signed t = true -> it_signed t' = true.
Proof.
  clear - Ht Hholds. intros H. destruct (it_signed t') eqn:E'; [reflexivity|exfalso]. assert (HR := Hholds (-1)). unfold in_range in HR. rewrite H, E' in HR.
  assert (2 ^ 0 <= 2 ^ (it_bits t - 1)) by (apply Z.pow_le_mono_r; unfold type_ok in Ht; lia). assert (-2 ^ (it_bits t - 1) <= -1) by lia.
  cut (0 <= -1); [lia|]. apply HR. lia.
Qed.
Lemma checked_near val n b neg (ptr : list Z) : 0 <= val < 2 ^ 64 -> (it_signed t = false -> neg = false) -> (it_signed t' = false -> neg = false) ->
  near E (o <- check_integer_overflow t val n b neg ;; if o : bool then Err (overflow_error neg) else v <- store_result t val neg ;; Ok (v, ptr))
         (o <- check_integer_overflow t' val n b neg ;; if o : bool then Err (overflow_error neg) else v <- store_result t' val neg ;; Ok (v, ptr)).
Proof.
  intros HV H H'. destruct (Z_le_dec 2 b) as [H2|H2].
  2: { unfold check_integer_overflow, maxdigits_u64. replace (2 <=? b) with false by lia. left. reflexivity. }
  destruct (Z_le_dec b 36) as [H3|H3].
  2: { unfold check_integer_overflow, maxdigits_u64. replace (b <=? 36) with false by lia. rewrite andb_false_r. left. reflexivity. }
  destruct (tables b (conj H2 H3)) as (m & _ & T1 & T2 & _ & _).
  rewrite (check_unfold t val n b neg m Ht H HV T1 T2), (check_unfold t' val n b neg m Ht' H' HV T1 T2). cbn [bind].
  destruct ((m <? n) || (n =? m) && (val <? b ^ (m - 1))); cbn [orb]; [left; reflexivity|]. assert (HL := limits_le neg H H').
  destruct (limit t neg <? val) eqn:E2; [apply near_err; destruct neg; assumption|]. assert (E3 : (limit t' neg <? val) = false) by lia. rewrite E3.
  rewrite (store_fits t val neg Ht H), (store_fits t' val neg Ht' H') by lia. left. reflexivity.
Qed.
Lemma digit_loop_range b : forall p v p' v', 0 <= v < 2 ^ 64 -> digit_loop b p v = (p', v') -> 0 <= v' < 2 ^ 64.
Proof.
  induction p as [|c p IH]; intros v p' v' HV H; cbn [digit_loop] in H; [injection H as _ <-; exact HV|].
  destruct (_ <=? _); [injection H as _ <-; exact HV|]. eapply IH; [|exact H]. apply wrap64_range.
Qed.
Lemma blocks_range : forall fuel p v p' v', 0 <= v < 2 ^ 64 -> loop_parse_if_eight_decimal_digits fuel p v = Ok (p', v') -> 0 <= v' < 2 ^ 64.
Proof.
  induction fuel as [|f IH]; intros p v p' v' HV H; cbn [loop_parse_if_eight_decimal_digits] in H; destruct (_ && _); try discriminate;
    try (injection H as _ <-; exact HV). eapply IH; [|exact H]. apply wrap64_range.
Qed.
Lemma regular_near s b neg : (it_signed t = false -> neg = false) -> (it_signed t' = false -> neg = false) ->
  near E (parse_regular_integer t s b neg) (parse_regular_integer t' s b neg).
Proof.
  intros H H'. unfold parse_regular_integer. destruct (digit_loop b s 0) as [ptr u] eqn:ED. apply checked_near; auto.
  eapply digit_loop_range; [|exact ED]. lia.
Qed.
Lemma fast_near s neg : (it_signed t = false -> neg = false) -> (it_signed t' = false -> neg = false) ->
  near E (parse_decimal_integer_fast t s neg) (parse_decimal_integer_fast t' s neg).
Proof.
  intros H H'. unfold parse_decimal_integer_fast, parse_decimal_integer_fast_impl.
  destruct (loop_parse_if_eight_decimal_digits _ _ _) as [[p v]| | |] eqn:EL; cbn [bind]; try apply near_refl.
  destruct (digit_loop 10 p v) as [ptr u] eqn:ED. apply checked_near; auto. eapply digit_loop_range; [|exact ED]. eapply blocks_range; [|exact EL]. lia.
Qed.
Definition takes (sign : sign_type) : Prop := it_signed t = false -> is_minus sign = false.
Lemma takes_too sign : takes sign -> it_signed t' = false -> is_minus sign = false.
Proof.
  intros H H'. apply H. destruct (it_signed t) eqn:ES; [|reflexivity]. rewrite (signed_kept ES) in H'. discriminate.
Qed.
Lemma value_near e s sign b : takes sign -> near E (parse_integer_value e t s sign b) (parse_integer_value e t' s sign b).
Proof.
  intros H. assert (H' := takes_too sign H). unfold parse_integer_value. destruct s as [|c s]; [left; reflexivity|].
  assert (N1 : negb (it_signed t) && is_minus sign = false) by (destruct (it_signed t) eqn:X; [reflexivity|apply H, X]).
  assert (N2 : negb (it_signed t') && is_minus sign = false) by (destruct (it_signed t') eqn:X; [reflexivity|apply H'; auto]).
  rewrite N1, N2. destruct sign; [left; reflexivity| |]; (destruct (b <=? 0); [left; reflexivity|]; destruct (b <=? _); [left; reflexivity|]; cbv zeta;
    destruct (match skip_zeros (c :: s) with [] => true | d :: _ => b <=? char_to_int d end); [left; reflexivity|];
    destruct e; [destruct (b =? 10)|..]; first [apply fast_near|apply regular_near]; assumption).
Qed.
Lemma digits_near r p : takes (pr_sign p) -> near E (read_digits r t p) (read_digits r t' p).
Proof.
  intros H. unfold read_digits. destruct (parse_integer_digits_without_thsep r (pr_it p) (pr_base p)) as [aft| | |]; cbn [bind]; try apply near_refl.
  eapply near_bind; [apply value_near, H|]. intros [v rest] _. apply near_refl.
Qed.
Lemma minus_near {A} sign (x y : outcome A) : (takes sign -> near E x y) ->
  near E (if negb (it_signed t) && is_minus sign then Err InvalidScannedValue else x)
         (if negb (it_signed t') && is_minus sign then Err InvalidScannedValue else y).
Proof.
  intros H. destruct (it_signed t) eqn:E1, (it_signed t') eqn:E2, (is_minus sign) eqn:E3; cbn [negb andb];
    try (apply H; intros X; congruence); try apply near_refl.
  - rewrite (signed_kept E1) in E2. discriminate.
  - apply near_err, HM; reflexivity.
Qed.
Lemma int_default_near r s b : near E (int_read_default_with_base r t s b) (int_read_default_with_base r t' s b).
Proof.
  unfold int_read_default_with_base. destruct (parse_integer_prefix r s b) as [p| | |]; cbn [bind]; try apply near_refl.
  apply minus_near. intros H. destruct (pr_zero p); [apply near_refl|]. apply digits_near, H.
Qed.
Lemma int_specs_near r sp sep s : near E (int_read_specs r t sp sep s) (int_read_specs r t' sp sep s).
Proof.
  unfold int_read_specs. destruct (get_base sp) as [b| | |]; cbn [bind]; try apply near_refl.
  destruct (parse_integer_prefix r s b) as [p| | |]; cbn [bind]; try apply near_refl.
  set (K := fun t => if pr_zero p then it <- next1 (pr_it p) ;; Ok (0, it) else if negb (localized sp) then read_digits r t p
    else '(_, nothsep, idx) <- parse_integer_digits_with_thsep sep (pr_it p) (pr_base p) ;;
         '(v, rest) <- parse_integer_value (s_enc r) t nothsep (pr_sign p) (pr_base p) ;;
         Ok (v, skipn (length nothsep - length rest + length idx) (pr_it p))).
  assert (HK : takes (pr_sign p) -> near E (K t) (K t')).
  { intros H. unfold K. destruct (pr_zero p); [apply near_refl|]. destruct (negb _); [apply digits_near, H|].
    destruct (parse_integer_digits_with_thsep _ _ _) as [[[it nt] idx]| | |]; cbn [bind]; try apply near_refl.
    eapply near_bind; [apply value_near, H|]. intros [v rest] _. apply near_refl. }
  change (near E (if is_minus (pr_sign p) && (negb (it_signed t) || ptype_eqb (type sp) PIntUnsignedDecimal) then Err InvalidScannedValue else K t)
                 (if is_minus (pr_sign p) && (negb (it_signed t') || ptype_eqb (type sp) PIntUnsignedDecimal) then Err InvalidScannedValue else K t')).
  destruct (ptype_eqb _ _).
  - rewrite !orb_true_r, andb_true_r. destruct (is_minus (pr_sign p)) eqn:EM; [apply near_refl|]. apply HK. intros _. exact EM.
  - rewrite !orb_false_r, !(andb_comm (is_minus _)). apply minus_near, HK.
Qed.
End Ints.

(** * Fields *)
Section Fields.
Variable E : err -> Prop.
Lemma default_near {V} r skip (f g : list Z -> outcome (V * list Z)) s : (forall s, near E (f s) (g s)) -> near E (default_read r skip f s) (default_read r skip g s).
Proof. intros H. unfold default_read. eapply near_bind; [apply near_refl|]. intros it _. apply H. Qed.
Lemma arg_read_near {V} r sp skip (f g : src -> list Z -> outcome (V * list Z)) s : (forall r' s, s_enc r' = s_enc r -> near E (f r' s) (g r' s)) ->
  near E (arg_read r sp skip f s) (arg_read r sp skip g s).
Proof.
  intros H. unfold arg_read. eapply near_bind; [apply near_refl|]. intros [it prefix] _.
  eapply near_bind; [|intros [[x it2] v] _; apply near_refl].
  destruct (negb _).
  - destruct (_ <=? _); [apply near_refl|]. cbv zeta. eapply near_bind; [apply near_refl|]. intros v _. eapply near_bind; [apply H; reflexivity|]. intros [x rest] _. apply near_refl.
  - eapply near_bind; [apply H; reflexivity|]. intros [x it'] _. apply near_refl.
Qed.
Lemma checked_read_near {V} r (a b : reader V) sp s : rd_check a sp = rd_check b sp -> rd_skip a sp = rd_skip b sp ->
  (forall r' s, s_enc r' = s_enc r -> near E (rd_specs a r' sp s) (rd_specs b r' sp s)) -> near E (arg_read_checked r a sp s) (arg_read_checked r b sp s).
Proof.
  intros H1 H2 H3. unfold arg_read_checked. rewrite H1, H2. destruct (rd_check b sp); [|apply near_refl]. apply arg_read_near, H3.
Qed.
Lemma map_near {A B} (f : A -> B) (x y : outcome (A * list Z)) : near E x y -> near E ('(v, rest) <- x ;; Ok (f v, rest)) ('(v, rest) <- y ;; Ok (f v, rest)).
Proof. intros H. eapply near_bind; [exact H|]. intros [v rest] _. apply near_refl. Qed.
Lemma store_near to alloc e s it : (alloc = true \/ to <> e -> E InvalidFormatString) -> near E (store (DView to alloc) e s it) (store (DString to) e s it).
Proof.
  intros H. unfold store. cbv zeta. destruct alloc; [apply near_err, H; auto|].
  destruct (enc_eqb e to) eqn:EE; cbn [negb]; [|apply near_err, H; right; intros ->; destruct e; discriminate].
  destruct (validate_unicode e _) as [[]| | |]; cbn [bind negb]; apply near_refl.
Qed.
Lemma string_specs_near rx to alloc r sp s : (alloc = true \/ to <> s_enc r -> E InvalidFormatString) -> near E (string_specs rx (DView to alloc) r sp s) (string_specs rx (DString to) r sp s).
Proof.
  intros H. assert (HS := store_near to alloc). unfold string_specs. destruct (string_kind_of sp).
  - unfold word_read. eapply near_bind; [apply near_refl|]. intros it _. apply HS, H.
  - unfold custom_word_read. destruct (_ <=? _)%nat; [apply HS, H|]. destruct (s_enc r) eqn:EE; [|apply near_refl..]. apply HS, H.
  - unfold character_read. destruct (_ =? _); [apply near_refl|apply HS, H].
  - unfold set_read. eapply near_bind; [apply near_refl|]. intros it _. apply HS, H.
  - unfold regex_read. destruct (negb _); [apply near_refl|]. eapply near_bind; [apply near_refl|]. intros it _. apply HS, H.
  - unfold regex_read. destruct (negb _); [apply near_refl|]. eapply near_bind; [apply near_refl|]. intros it _. apply HS, H.
Qed.
End Fields.

(** * Arguments *)
Section Args.
Context {F : Type}.
Variables (rx : regex_engine) (cf : config) (lost : narrowness -> Prop) (e : enc).
Notation E := (error_of lost).
Lemma named_ok t a : int_type_named t a -> type_ok t.
Proof. intros []; unfold type_ok; cbn; lia. Qed.
Lemma named_alike t a t' a' : int_type_named t a -> int_type_named t' a' -> alike a a'.
Proof. intros [] []; split; reflexivity. Qed.
Lemma view_alike to a a' : string_type_named to a a' -> alike a a'.
Proof. intros []; split; reflexivity. Qed.
Lemma alike_refl a : alike a a. Proof. split; reflexivity. Qed.
Lemma wider_alike (t t' : scalar_type F) : wider e lost t t' -> alike (scalar_arg_type t) (scalar_arg_type t').
Proof.
  intros []; cbn [scalar_arg_type]; [apply alike_refl|eapply named_alike; eassumption|eapply named_alike; eassumption|eapply view_alike; eassumption].
Qed.
Lemma fmt_error n : lost n -> E InvalidFormatString.
Proof. intros H. right. right. split; [exists n; exact H|reflexivity]. Qed.
Lemma wider_default r (t t' : scalar_type F) s : s_enc r = e -> wider e lost t t' -> near E (scalar_default r t s) (scalar_default r t' s).
Proof.
  intros Hr [t0|t0 a a' Ha Ha'|u u' a a' Ha Ha' HA HO HM|to alloc a a' Ha HV]; cbn [scalar_default]; try apply near_refl; apply map_near, default_near; intros s0.
  - apply int_default_near; eauto using named_ok.
    + left. auto.
    + left. auto.
    + intros H1 H2. right. left. auto.
  - unfold word_read. eapply near_bind; [apply near_refl|]. intros it _. apply store_near. rewrite Hr. intros HD. eapply fmt_error, HV, HD.
Qed.
Lemma wider_specs r l (t t' : scalar_type F) sp s : s_enc r = e -> wider e lost t t' -> near E (scalar_specs rx r l t sp s) (scalar_specs rx r l t' sp s).
Proof.
  intros Hr [t0|t0 a a' Ha Ha'|u u' a a' Ha Ha' HA HO HM|to alloc a a' Ha HV]; cbn [scalar_specs]; try apply near_refl; apply map_near; apply checked_read_near;
    try reflexivity; intros r0 s0 Hr0; cbn [rd_specs int_reader string_reader].
  - apply int_specs_near; eauto using named_ok.
    + left. auto.
    + left. auto.
    + intros H1 H2. right. left. auto.
  - apply string_specs_near. rewrite Hr0, Hr. intros HD. eapply fmt_error, HV, HD.
Qed.
Lemma seq_near {V} r p (f g : list Z -> outcome (V * list Z)) : (forall s, near E (f s) (g s)) ->
  forall n first s, near E (seq_loop r p f n first s) (seq_loop r p g n first s).
Proof.
  intros H. induction n as [|n IH]; intros first s; cbn [seq_loop]; [apply near_refl|].
  destruct (scan_str r (p_close p) s); try apply near_refl. eapply near_bind; [apply near_refl|]. intros it _.
  eapply near_bind; [apply H|]. intros [v it1] _. eapply near_bind; [apply IH|]. intros [vs it2] _. apply near_refl.
Qed.
Scheme wider_shape_ind2 := Induction for wider_shape Sort Prop
  with wider_shapes_ind2 := Induction for wider_shapes Sort Prop.
Lemma shape_near r (leaf : scalar_type F -> specs -> list Z -> outcome (svalue F * list Z)) :
  (forall t t' sp s, wider e lost t t' -> near E (leaf t sp s) (leaf t' sp s)) ->
  forall sh sh', wider_shape e lost sh sh' -> forall sp s, near E (scan_shape r leaf sh sp s) (scan_shape r leaf sh' sp s).
Proof.
  intros HL. apply (wider_shape_ind2 F e lost (fun sh sh' _ => forall sp s, near E (scan_shape r leaf sh sp s) (scan_shape r leaf sh' sp s))
    (fun es es' _ => forall p first s,
       near E ((fix go (es : list (shape (scalar_type F))) (first : bool) (s : list Z) : outcome (list (RangesModel.value (svalue F)) * list Z) :=
           match es with
           | [] => Ok ([], s)
           | e :: es' => it <- (if first then Ok s else scan_str r (p_sep p) s) ;; '(v, it) <- scan_shape r leaf e specs_default it ;;
               '(vs, it) <- go es' false it ;; Ok (v :: vs, it)
           end) es first s)
       ((fix go (es : list (shape (scalar_type F))) (first : bool) (s : list Z) : outcome (list (RangesModel.value (svalue F)) * list Z) :=
           match es with
           | [] => Ok ([], s)
           | e :: es' => it <- (if first then Ok s else scan_str r (p_sep p) s) ;; '(v, it) <- scan_shape r leaf e specs_default it ;;
               '(vs, it) <- go es' false it ;; Ok (v :: vs, it)
           end) es' first s))).
  - intros t t' HW sp s. cbn [scan_shape]. apply map_near, HL, HW.
  - intros n p x x' _ IH sp s. cbn [scan_shape]. eapply near_bind; [apply near_refl|]. intros it _.
    eapply near_bind; [apply seq_near; intros s0; apply IH|]. intros [vs it2] _. apply near_refl.
  - intros p es es' _ IH sp s. cbn [scan_shape]. eapply near_bind; [apply near_refl|]. intros it _.
    eapply near_bind; [apply IH|]. intros [vs it2] _. apply near_refl.
  - intros. apply near_refl.
  - intros x x' es es' _ IH1 _ IH2 p first s. eapply near_bind; [apply near_refl|]. intros it _.
    eapply near_bind; [apply IH1|]. intros [v it2] _. eapply near_bind; [apply IH2|]. intros [vs it3] _. apply near_refl.
Qed.
Lemma element_near l r t t' sp s : s_enc r = e -> wider e lost t t' -> near E (element_scan rx l r t sp s) (element_scan (F:=F) rx l r t' sp s).
Proof.
  intros Hr. apply wider_specs. rewrite <- Hr. unfold element_src. destruct (s_contig r); [|reflexivity]. cbv zeta. destruct (_ || _); reflexivity.
Qed.
Lemma shape_type_near (sh sh' : shape (scalar_type F)) : wider_shape e lost sh sh' ->
  match shape_type sh, shape_type sh' with Some t, Some t' => alike t t' | None, None => True | _, _ => False end.
Proof.
  apply (wider_shape_ind2 F e lost (fun sh sh' _ => match shape_type sh, shape_type sh' with Some t, Some t' => alike t t' | None, None => True | _, _ => False end)
    (fun _ _ _ => True)); cbn; auto. intros. apply wider_alike. assumption.
Qed.
Lemma shape_parse_near (sh sh' : shape (scalar_type F)) f : wider_shape e lost sh sh' -> shape_parse cf sh f = shape_parse cf sh' f.
Proof.
  intros H. apply shape_type_near in H. unfold shape_parse. destruct (shape_type sh), (shape_type sh'); try contradiction; [|reflexivity].
  destruct f as [|c f]; [reflexivity|]. rewrite (alike_parse cf _ _ _ _ H). reflexivity.
Qed.
Lemma target_better global l r (t t' : target F) : s_enc r = e -> wider_target e lost t t' -> better E (target_arg rx cf global l r t) (target_arg rx cf global l r t').
Proof.
  intros Hr [u u' H|sh sh' H|parse scan].
  - constructor; cbn [target_arg ar_type ar_default ar_plain ar_specs ar_custom].
    + apply wider_alike, H.
    + intros s. apply map_near, wider_default; [exact Hr|exact H].
    + intros s. apply map_near, wider_default; [exact Hr|exact H].
    + intros sp s. apply map_near, wider_specs; [exact Hr|exact H].
    + intros f s. split; [reflexivity|apply near_refl].
  - assert (HS : forall sp s, near E (shape_scan rx global r sh sp s) (shape_scan rx global r sh' sp s)).
    { intros sp s. apply shape_near; [|exact H]. intros; apply element_near; assumption. }
    constructor; cbn [target_arg ar_type ar_default ar_plain ar_specs ar_custom]; try (intros; apply HS); try (intros; apply near_refl).
    + apply alike_refl.
    + intros f s. rewrite (shape_parse_near _ _ f H). destruct (shape_parse cf sh' f) as [[p sp]| | |]; cbn [fst snd]; (split; [reflexivity|]); try apply near_refl. apply HS.
  - constructor; intros; try apply near_refl; [apply alike_refl|split; [reflexivity|apply near_refl]].
Qed.
Lemma targets_better global l r (ts ts' : list (target F)) : s_enc r = e -> Forall2 (wider_target e lost) ts ts' ->
  Forall2 (better E) (map (target_arg rx cf global l r) ts) (map (target_arg rx cf global l r) ts').
Proof. intros Hr H. induction H; constructor; [apply target_better; assumption|assumption]. Qed.
Lemma errors_fmt : (exists x, E x) -> E InvalidFormatString.
Proof. intros (x & [[He _]|[[He _]|[[n He] _]]]); eapply fmt_error; eassumption. Qed.
Theorem scan_near global l r (ts ts' : list (target F)) format source : s_enc r = e -> Forall2 (wider_target e lost) ts ts' -> (length ts < 64)%nat ->
  near E (scan_with rx cf global l r ts format source) (scan_with rx cf global l r ts' format source).
Proof.
  intros Hr H HN. unfold scan_with. apply vscan_near; [apply errors_fmt|apply targets_better; assumption|].
  unfold args_count. rewrite map_length. lia.
Qed.
Theorem scan_success global l r (ts ts' : list (target F)) format source x : s_enc r = e -> Forall2 (wider_target e lost) ts ts' ->
  scan_with rx cf global l r ts format source = Ok x -> scan_with rx cf global l r ts' format source = Ok x.
Proof. intros Hr H. apply vscan_success with E; [apply errors_fmt|apply targets_better; assumption]. Qed.
End Args.

(** * Compile-time checking *)
Section Check.
Variables (cf : config) (contiguous borrowed : bool) (custom_parse : Z -> list Z -> outcome (list Z)) (views : Prop).
Definition E1 (e : err) : Prop := views /\ e = InvalidFormatString.
Variables types types' : list arg_type.
Hypothesis Htypes : Forall2 (wider_type views) types types'.
Notation hc := (ct_handler cf contiguous borrowed types custom_parse).
Notation hc' := (ct_handler cf contiguous borrowed types' custom_parse).
Lemma types_count : num_args types = num_args types'.
Proof. unfold num_args. rewrite (all_length _ _ _ Htypes). reflexivity. Qed.
Lemma types_alike a a' : wider_type views a a' -> alike a a'.
Proof. intros []; [apply alike_refl|eapply named_alike; eassumption|eapply view_alike; eassumption]. Qed.
Lemma types_regex a a' : wider_type views a a' -> is_regex_type a = is_regex_type a'.
Proof. intros [| ? ? ? ? [] []|? ? ? []]; reflexivity. Qed.
Lemma types_read a a' : wider_type views a a' -> near E1 (check_arg_can_be_read contiguous borrowed a) (check_arg_can_be_read contiguous borrowed a').
Proof.
  intros [| ? ? ? ? [] []|? ? ? [] HV]; try apply near_refl; unfold check_arg_can_be_read, is_view_type; cbn;
    (destruct contiguous, borrowed; cbn; first [apply near_refl|right; eexists; split; [reflexivity|split; [exact HV|reflexivity]]]).
Qed.
Lemma types_specs a a' sp : wider_type views a a' -> check_type_specs a sp = check_type_specs a' sp.
Proof. intros [| ? ? ? ? [] []|? ? ? []]; reflexivity. Qed.
Lemma builtin_same a a' s : wider_type views a a' -> ct_parse_builtin cf contiguous borrowed a s = ct_parse_builtin cf contiguous borrowed a' s.
Proof.
  intros H. unfold ct_parse_builtin. destruct s as [|c s]; [reflexivity|]. rewrite (alike_parse cf _ _ _ _ (types_alike _ _ H)).
  destruct (parse_format_specs _ _ _ _) as [[p ss]| | |]; cbn [bind]; try reflexivity. destruct (ss_err ss); [reflexivity|].
  rewrite (types_specs _ _ _ H). reflexivity.
Qed.
Lemma types_nth id : match nth_error types id, nth_error types' id with Some a, Some b => wider_type views a b | None, None => True | _, _ => False end.
Proof. apply (all_nth (wider_type views)), Htypes. Qed.
Lemma ct_field_near id t st : near E1 (ct_replacement_field contiguous borrowed types custom_parse id t st) (ct_replacement_field contiguous borrowed types' custom_parse id t st).
Proof.
  unfold ct_replacement_field, set_arg_as_read. rewrite types_count. eapply near_bind; [apply near_refl|]. intros st1 _.
  assert (H := types_nth (Z.to_nat id)). destruct (nth_error types _) as [a|], (nth_error types' _) as [b|]; try contradiction; [|apply near_refl].
  eapply near_bind; [apply types_read, H|]. intros _ _. rewrite (types_regex _ _ H), (proj1 (types_alike _ _ H)). apply near_refl.
Qed.
Lemma ct_specs_near id t st : near E1 (ct_format_specs cf contiguous borrowed types custom_parse id t st) (ct_format_specs cf contiguous borrowed types' custom_parse id t st).
Proof.
  unfold ct_format_specs, set_arg_as_read. rewrite types_count. eapply near_bind; [apply near_refl|]. intros st1 _.
  assert (H := types_nth (Z.to_nat id)). destruct (nth_error types _) as [a|], (nth_error types' _) as [b|]; try contradiction; [|apply near_refl].
  eapply near_bind; [apply types_read, H|]. intros _ _. rewrite (proj1 (types_alike _ _ H)). destruct (arg_eqb _ _); [apply near_refl|].
  rewrite (builtin_same _ _ _ H). apply near_refl.
Qed.
Lemma ct_auto_same st : h_auto_id hc st = h_auto_id hc' st.
Proof. cbn. unfold ct_next_arg_id. rewrite types_count. reflexivity. Qed.
Lemma ct_id_same i st : h_id hc i st = h_id hc' i st.
Proof. cbn. unfold ct_check_arg_id. rewrite types_count. reflexivity. Qed.
Lemma ct_arg_id_same s st : parse_arg_id hc s st = parse_arg_id hc' s st.
Proof.
  unfold parse_arg_id. destruct s as [|c s]; [reflexivity|]. rewrite ct_auto_same. destruct (_ && _); [|reflexivity].
  unfold do_parse_arg_id. destruct (_ || _); [reflexivity|].
  destruct (if negb (c =? 48) then _ else _) as [[idx s2]| | |]; cbn [bind]; try reflexivity. destruct s2 as [|d s2]; [reflexivity|].
  rewrite ct_id_same. reflexivity.
Qed.
Lemma ct_replacement_near s st : near E1 (parse_replacement_field hc s st) (parse_replacement_field hc' s st).
Proof.
  unfold parse_replacement_field. destruct s as [|c0 s]; [apply near_refl|]. destruct s as [|c s]; [apply near_refl|].
  rewrite ct_auto_same, ct_arg_id_same. destruct (c =? 125).
  { eapply near_bind; [apply near_refl|]. intros [id st1] _. eapply near_bind; [apply ct_field_near|]. intros st2 _. apply near_refl. }
  destruct (c =? 123); [apply near_refl|]. eapply near_bind; [apply near_refl|]. intros [[s1 id] st1] _.
  destruct s1 as [|c1 s1]; [apply near_refl|]. destruct (c1 =? 125).
  { eapply near_bind; [apply ct_field_near|]. intros st2 _. apply near_refl. }
  destruct (c1 =? 58); [|apply near_refl]. destruct s1 as [|c2 s2]; [apply near_refl|].
  eapply near_bind; [apply ct_specs_near|]. intros [p st2] _. apply near_refl.
Qed.
Lemma ct_loop_near : forall fuel begin it st, near E1 (parse_loop fuel hc begin it st) (parse_loop fuel hc' begin it st).
Proof.
  induction fuel as [|f IH]; intros begin it st; destruct it as [|c it]; try apply near_refl. cbn [parse_loop].
  destruct (c =? 123).
  - eapply near_bind; [apply near_refl|]. intros st1 _. eapply near_bind; [apply ct_replacement_near|]. intros [p z] _. cbn [h_failed ct_handler]. apply IH.
  - destruct (c =? 125); [|apply IH]. destruct it as [|d it]; [apply near_refl|]. destruct (negb _); [apply near_refl|].
    eapply near_bind; [apply near_refl|]. intros st1 _. apply IH.
Qed.
Lemma check_near format : near E1 (check_format_string cf contiguous borrowed types custom_parse format) (check_format_string cf contiguous borrowed types' custom_parse format).
Proof.
  unfold check_format_string, parse_format_string_impl. eapply near_bind; [apply ct_loop_near|]. intros st _.
  unfold ct_check_args_exhausted. rewrite types_count, (all_length _ _ _ Htypes). apply near_refl.
Qed.
End Check.
