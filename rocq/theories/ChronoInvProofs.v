(** What every call of the date reader keeps, for every format, source and locale. *)
From Verif Require Import Prelude UnicodeModel ReadModel SpecsModel FormatModel SpecsInvProofs
  ChronoModel ChronoSpec.
Local Open Scope Z_scope.

(** Unfolded last when terms are compared *)
Strategy 1000 [scan_string].

(** ** The parser keeps what the handler keeps *)
Section Parser.
Variable St : Type.
Variable on : event -> St -> outcome St.
Variable fine : St -> bool.
Variable P : St -> Prop.
Hypothesis P_on : forall ev st st', P st -> on ev st = Ok st' -> P st'.
Lemma on_conv_inv c sys p st x : P st -> on_conv St on c sys p st = Ok x ->
  P (snd (snd x)) /\ (forall p' st', fst x = Some (p', st') -> P st').
Proof.
  intros H E. unfold on_conv in E. destruct c; inv_ok; cbn.
  - split; [eauto|]. intros p' st' X. inversion X; subst. eauto.
  - split; [eauto|discriminate].
Qed.
Lemma parse_conv_inv p st x : P st -> parse_conv St on p st = Ok x ->
  P (snd (snd x)) /\ (forall p' st', fst x = Some (p', st') -> P st').
Proof.
  intros H E. unfold parse_conv in E.
  repeat match goal with
  | E : match ?l with [] => _ | _ :: _ => _ end = Ok _ |- _ => destruct l
  | E : (if ?b then _ else _) = Ok _ |- _ => destruct b
  end; try (eapply on_conv_inv; eassumption); inv_ok; cbn;
  (split; [eauto|]; intros p' st' X; inversion X; subst; eauto).
Qed.
Lemma finish_inv text p st x : P st -> finish St on text p st = Ok x -> P (snd x).
Proof.
  intros H E. unfold finish in E. destruct text; inv_ok; cbn; eauto.
Qed.
Lemma stop_inv p st x : P st -> stop St on p st = Ok x -> P (snd x).
Proof. intros H E. unfold stop in E. inv_ok. cbn. eauto. Qed.
Lemma loop_inv fuel e : forall text p st x, P st -> parse_loop St on fine fuel e text p st = Ok x ->
  P (snd x).
Proof.
  induction fuel as [|fuel IH]; intros text p st x H E; [discriminate|].
  cbn [parse_loop] in E. destruct p as [|ch p1]; [eapply finish_inv; eassumption|].
  destruct (ch =? 125); [eapply finish_inv; eassumption|].
  destruct (negb (ch =? 37)).
  - destruct (simple_space ch).
    { inv_ok. eapply IH; [|eassumption]. eauto. }
    cbv zeta in E. destruct (_ =? 0)%nat; [eapply stop_inv; eassumption|].
    destruct (1 <? _)%nat; [|eapply IH; eassumption].
    destruct (_ <? _)%nat; [eapply stop_inv; eassumption|].
    apply ok_bind in E. destruct E as (cp & _ & E). destruct (is_cp_space cp).
    { inv_ok. eapply IH; [|eassumption]. eauto. }
    destruct (skipn _ _); [discriminate|]. eapply IH; eassumption.
  - apply ok_bind in E. destruct E as (st1 & E1 & E).
    assert (P st1) by (destruct text; inv_ok; eauto).
    apply ok_bind in E. destruct E as ([go ret] & E2 & E).
    destruct (parse_conv_inv _ _ _ H0 E2) as [R1 R2]. cbn [fst snd] in *.
    destruct go as [[p2 st2]|]; [|inv_ok; trivial].
    pose proof (R2 _ _ eq_refl). destruct (fine st2); [eapply IH; eassumption|inv_ok; trivial].
Qed.
Lemma parse_inv e f st x : P st -> parse_chrono_format_specs St on fine e f st = Ok x -> P (snd x).
Proof.
  intros H E. unfold parse_chrono_format_specs in E.
  assert (G : forall p st, P st -> match p with 37 :: _ => parse_loop St on fine (S (length p)) e [] p st
                                  | _ => stop St on p st end = Ok x -> P (snd x)).
  { clear st H E. intros p st H E. destruct p as [|c p]; [eapply stop_inv; eassumption|].
    destruct c as [|c|c]; try (eapply stop_inv; eassumption).
    repeat (destruct c as [c|c|]; try (eapply stop_inv; eassumption)).
    eapply loop_inv; eassumption. }
  destruct f as [|c f]; [eapply stop_inv; eassumption|].
  destruct (c =? 125); [eapply stop_inv; eassumption|].
  destruct (c =? 76); [apply ok_bind in E; destruct E as (st1 & E1 & E); eapply G; [|exact E]; eauto|exact (G (c :: f) _ H E)].
Qed.
End Parser.

(** ** Relations between the states before and after a call *)
Section Reader.
Variable D : Type.
Variable scan_double : list Z -> outcome D.
Variable in_unit : D -> bool.
Variable time_get : list Z -> list Z -> option (tmv * list Z).
Variable decimal_point : Z.
Variable r : src.
Variable cf : FormatModel.config.
Variable t : target.
Notation rstate := (rstate D).
Notation set_error := (set_error D).
Notation with_src := (with_src D).
Notation with_mode := (with_mode D).
Notation set_flag := (set_flag D).

Section Keep.
Variable P : rstate -> Prop.
Hypothesis P_error : forall e st, P st -> P (set_error e st).
Hypothesis P_src : forall s st, P st -> P (with_src s st).
Hypothesis P_mode : forall loc pm st, P st -> P (with_mode loc pm st).
Hypothesis P_sec : forall v st, P st -> P (set_sec D v st).
Hypothesis P_min : forall v st, P st -> P (set_min D v st).
Hypothesis P_hour24 : forall v st, P st -> P (set_hour24 D v st).
Hypothesis P_hour12 : forall v st, P st -> P (set_hour12 D v st).
Hypothesis P_ampm : forall loc pm st, P st -> P (set_flag FAmPm (with_mode loc pm st)).
Hypothesis P_mday : forall v st, P st -> P (set_mday D v st).
Hypothesis P_mon : forall v st, P st -> P (set_mon D t v st).
Hypothesis P_full_year : forall v st, P st -> P (set_full_year D t v st).
Hypothesis P_century : forall v st, P st -> P (set_century D t v st).
Hypothesis P_short_year : forall v st, P st -> P (set_short_year D t v st).
Hypothesis P_wday : forall v st, P st -> P (set_wday D v st).
Hypothesis P_yday : forall v st, P st -> P (set_yday D t v st).
Hypothesis P_subsec : forall d st st', P st -> set_subsec D in_unit t d st = Ok st' -> P st'.
Hypothesis P_tz_offset : forall v st, P st -> P (set_tz_offset D t v st).
Hypothesis P_tz_name : forall n st, P st -> P (set_tz_name D t n st).

Lemma keep_int lo hi st : P st -> P (snd (read_int D lo hi st)).
Proof.
  intros H. unfold read_int. destruct (read_digits hi 0 (rs_src D st)) as [[k v] s].
  destruct (k <? lo)%nat; cbn; auto.
Qed.
Lemma keep_number lo hi set st st' : (forall v st, P st -> P (set v st)) -> P st ->
  number D lo hi set st = Ok st' -> P st'.
Proof.
  intros Hs H E. unfold number in E. pose proof (keep_int lo hi st H) as K.
  destruct (read_int D lo hi st) as [v st1]. inv_ok. auto.
Qed.
Lemma keep_locale fmt k st st' : (forall tm st st', P st -> k tm st = Ok st' -> P st') -> P st ->
  from_locale D time_get fmt k st = Ok st' -> P st'.
Proof.
  intros Hk H E. unfold from_locale, localized in E.
  destruct (time_get fmt _) as [[tm s]|]; [eapply Hk; [|exact E]; auto|inv_ok; auto].
Qed.
Lemma keep_one_of o st : P st -> P (snd (try_one_of D o st)).
Proof. intros H. unfold try_one_of. destruct (one_of_loop o 0 _) as [[v s]|]; cbn; auto. Qed.
Lemma keep_named a b set st : (forall v st, P st -> P (set v st)) -> P st -> P (named D a b set st).
Proof.
  intros Hs H. unfold named. pose proof (keep_one_of a st H) as K.
  destruct (try_one_of D a st) as [[v|] st1]; cbn in K; [auto|].
  pose proof (keep_one_of b st1 K) as K2.
  destruct (try_one_of D b st1) as [[v|] st2]; cbn in K2; auto.
Qed.
Lemma keep_text txt : forall st, P st -> P (rd_text D txt st).
Proof.
  induction txt as [|c txt IH]; intros st H; cbn [rd_text]; [trivial|].
  destruct (rs_src D st); [auto|]. destruct (c =? z); auto.
Qed.
Lemma keep_whitespace st st' : P st -> rd_whitespace D r st = Ok st' -> P st'.
Proof.
  intros H E. unfold rd_whitespace in E. destruct (skip_classic_whitespace _ _ _); inv_ok; auto.
Qed.
Lemma keep_tz_offset sys st : P st -> P (rd_tz_offset D t sys st).
Proof.
  intros H. unfold rd_tz_offset. destruct (rs_src D st) as [|c s]; [auto|]. cbv zeta.
  set (st1 := if (_ || _)%bool then _ else _).
  assert (H1 : P st1) by (subst st1; destruct (_ || _); auto).
  clearbody st1. destruct (rs_src D st1) as [|c0 s0]; [auto|].
  assert (H2 : P (snd (match sys with Std => read_int D 2 2 st1 | _ => read_int D 1 2 st1 end)))
    by (destruct sys; apply keep_int; trivial).
  destruct (match sys with Std => read_int D 2 2 st1 | _ => read_int D 1 2 st1 end) as [hour st2].
  cbn in H2.
  destruct (rs_src D st2) as [|c1 s1]; [auto|].
  destruct (negb (c1 =? 58) && _); [auto|].
  destruct (if c1 =? 58 then s1 else c1 :: s1) as [|c2 s2] eqn:E; [auto|].
  destruct (is_digit c2); [|auto].
  pose proof (keep_int 2 2 (with_src (c2 :: s2) st2) (P_src _ _ H2)) as K.
  destruct (read_int D 2 2 _) as [m st3]. cbn in K. auto.
Qed.
Lemma keep_subsecond sys st st' : P st ->
  rd_subsecond D scan_double in_unit decimal_point r cf t sys st = Ok st' -> P st'.
Proof.
  intros H E. unfold rd_subsecond in E. pose proof (keep_int 1 2 st H) as K.
  destruct (read_int D 1 2 st) as [w st1]. cbn in K. cbv zeta in E.
  assert (K1 : P (set_sec D w st1)) by auto. set (st2 := set_sec D w st1) in *. clearbody st2.
  unfold consume_ch in E. generalize dependent (scan_string r cf digits_format). intros sc E.
  destruct (rs_src D st2) as [|c0 s0] eqn:Es; cbn [negb] in E; [inv_ok; auto|].
  destruct (c0 =? _); cbn [negb] in E; [|inv_ok; auto].
  destruct (sc _) as [[ds s]| | |]; try (inv_ok; auto; fail).
  destruct (_ =? _)%nat; [inv_ok; auto|].
  destruct (scan_double _); try (inv_ok; auto; fail).
  eapply P_subsec; [|exact E]. auto.
Qed.
Lemma keep_tz_name st st' : P st -> rd_tz_name D r cf t st = Ok st' -> P st'.
Proof.
  intros H E. unfold rd_tz_name in E. generalize dependent (scan_string r cf tz_name_format).
  intros sc E. destruct (sc _) as [[n s]| | |]; inv_ok. auto.
Qed.
Lemma keep_ampm st st' : P st ->
  match try_one_of D am_pm_names st with
  | (Some b, st) => Ok (set_flag FAmPm (with_mode (rs_loc D st) (b =? 1) st))
  | (None, st) => Ok (set_error InvalidScannedValue st)
  end = Ok st' -> P st'.
Proof.
  intros H E. pose proof (keep_one_of am_pm_names st H) as K.
  destruct (try_one_of D am_pm_names st) as [[v|] st1]; cbn in K; inv_ok; auto.
Qed.
Lemma keep_basic c sys st st' : P st ->
  rd_basic D scan_double in_unit time_get decimal_point r cf t c sys st = Ok st' -> P st'.
Proof.
  intros H E. destruct c; cbn [rd_basic] in E;
    repeat match type of E with (if ?b then _ else _) = _ => destruct b end;
    try (eapply keep_number; [|exact H|exact E]; intros; cbv beta; auto; fail);
    try (eapply keep_locale; [|exact H|exact E]; clear H E; intros tm sx sy H E; cbv beta in E;
         repeat match type of E with (if ?b then _ else _) = _ => destruct b end; inv_ok; auto; fail);
    try (inv_ok; auto using keep_named, keep_tz_offset; fail).
  - eapply keep_subsecond; eassumption.
  - eapply keep_tz_name; eassumption.
  - eapply keep_ampm; eassumption.
Qed.
Lemma keep_step ev st st' : P st ->
  rd_step D scan_double in_unit time_get decimal_point r cf t ev st = Ok st' -> P st'.
Proof.
  intros H E. destruct ev; cbn [rd_step] in E; try (inv_ok; trivial; fail).
  - inv_ok. now apply keep_text.
  - eapply keep_whitespace; eassumption.
  - eapply keep_basic; eassumption.
Qed.
Lemma keep_steps evs : forall st st', P st ->
  fold_left (fun o ev => st <- o ;; rd_step D scan_double in_unit time_get decimal_point r cf t ev st)
    evs (Ok st) = Ok st' -> P st'.
Proof.
  induction evs as [|ev evs IH]; intros st st' H E; cbn [fold_left bind] in E; [inv_ok; trivial|].
  destruct (rd_step D scan_double in_unit time_get decimal_point r cf t ev st) eqn:F;
    [eapply IH; [|exact E]; eapply keep_step; eassumption|..];
    (exfalso; clear - E; induction evs as [|ev' evs IH]; cbn in E; [discriminate|auto]).
Qed.
Lemma keep_date tm st st' : P st -> set_date D t tm st = Ok st' -> P st'.
Proof. intros H E. unfold set_date in E. inv_ok. auto. Qed.
Lemma keep_time tm st : P st -> P (set_time D tm st).
Proof. intros H. unfold set_time. auto. Qed.
Lemma keep_conv c sys st st' : P st ->
  rd_conv D scan_double in_unit time_get decimal_point r cf t c sys st = Ok st' -> P st'.
Proof.
  intros H E. unfold rd_conv in E.
  destruct (rd_localized_parts D time_get t c sys st) as [x|] eqn:L.
  - subst x. unfold rd_localized_parts in L. destruct (negb (rs_loc D st)); [discriminate|].
    destruct c; try discriminate; injection L as L;
      (eapply keep_locale; [|exact H|exact L]; clear H L; intros tm sx sy H E; cbv beta in E; inv_ok;
       eauto using keep_time, keep_date).
  - destruct (parts c) as [evs|]; [eapply keep_steps|eapply keep_basic]; eassumption.
Qed.
Hypothesis P_verify : forall st st', P st -> rd_verify D t st = Ok st' -> P st'.
Lemma keep_on ev st st' : P st ->
  rd_on D scan_double in_unit time_get decimal_point r cf t ev st = Ok st' -> P st'.
Proof.
  intros H E. destruct ev; cbn [rd_on] in E; try (inv_ok; auto using keep_text; fail).
  - eapply keep_whitespace; eassumption.
  - eapply keep_conv; eassumption.
  - eapply P_verify; eassumption.
Qed.
Lemma keep_scan fmt s d s' : (forall s, P (rd_init D s)) ->
  chrono_scan D scan_double in_unit time_get decimal_point r cf t fmt s = Ok (d, s') ->
  exists st, P st /\ rs_err D st = None /\ d = DT D (rs_int D st) (rs_subsec D st) (rs_tzname D st).
Proof.
  intros Hi E. unfold chrono_scan in E. apply ok_bind in E. destruct E as (s1 & _ & E).
  apply ok_bind in E. destruct E as ([p st] & E1 & E).
  exists st. split.
  - change st with (snd (p, st)). eapply parse_inv; [|apply Hi|exact E1]. apply keep_on.
  - destruct (rs_err D st); [discriminate|]. inv_ok. auto.
Qed.
End Keep.

(** ** Ranges *)
Definition ranges_ok (st : rstate) : Prop :=
  (forall f v, rs_int D st f = Some v -> field_range t f v)
  /\ (forall d, rs_subsec D st = Some d -> in_unit d = true).
Lemma ranges_same st st' : rs_int D st' = rs_int D st -> rs_subsec D st' = rs_subsec D st ->
  ranges_ok st -> ranges_ok st'.
Proof. unfold ranges_ok. intros -> ->. trivial. Qed.
Lemma ranges_flag f st : ranges_ok st -> ranges_ok (set_flag f st).
Proof. apply ranges_same; unfold set_flag; destruct (rs_set D st f); reflexivity. Qed.
Lemma ranges_int f v st : field_range t f v -> ranges_ok st -> ranges_ok (with_int D f v st).
Proof.
  intros Hv [R1 R2]. split; [|exact R2]. intros g w. cbn. destruct (field_eqb f g) eqn:E; [|apply R1].
  intros X; injection X as X; subst. destruct f, g; try discriminate; trivial.
Qed.
Lemma ranges_ranged f fl lo hi off v st :
  (forall v, lo <= v <= hi -> field_range t f (v - off)) ->
  ranges_ok st -> ranges_ok (set_ranged D f fl lo hi off v st).
Proof.
  intros Hv H. unfold set_ranged. destruct (Z.ltb_spec v lo); cbn [orb];
    [now apply (ranges_same st)|]. destruct (Z.ltb_spec hi v); [now apply (ranges_same st)|].
  apply ranges_flag, ranges_int; [apply Hv; lia|trivial].
Qed.
Lemma ranges_verify st st' : ranges_ok st -> rd_verify D t st = Ok st' -> ranges_ok st'.
Proof.
  intros H E. unfold rd_verify in E. cbv zeta in E.
  set (st1 := if conflict _ then _ else _) in *.
  assert (H1 : ranges_ok st1) by (subst st1; destruct (conflict _); [now apply (ranges_same st)|trivial]).
  clearbody st1. clear H. apply ok_bind in E. destruct E as (st2 & E2 & E).
  assert (H2 : ranges_ok st2).
  { destruct (_ && _); [|inv_ok; trivial]. unfold handle_am_pm in E2.
    destruct (rs_int D st1 Hour) as [h|] eqn:Eh; [|discriminate].
    pose proof (proj1 H1 _ _ Eh) as Rh. cbn in Rh.
    destruct (negb _ || (12 <? h)) eqn:C; [discriminate|]. injection E2 as E2; subst st2.
    destruct (rs_pm D st1); destruct (Z.eqb_spec h 12); trivial; apply ranges_int; trivial; cbn; lia. }
  clear H1 E2. destruct (_ && _); [|inv_ok; trivial]. unfold handle_years in E. cbv zeta in E.
  repeat match type of E with (if ?b then _ else _) = _ => destruct b end; inv_ok; trivial;
    apply ranges_int; cbn; trivial.
Qed.
Lemma ranges_hold fmt s d s' :
  chrono_scan D scan_double in_unit time_get decimal_point r cf t fmt s = Ok (d, s') ->
  (forall f v, dt_int D d f = Some v -> field_range t f v)
  /\ (forall x, dt_subsec D d = Some x -> in_unit x = true).
Proof.
  intros E. eapply (keep_scan ranges_ok) in E.
  - destruct E as (st & H & _ & ->). exact H.
  - intros; now apply (ranges_same st).
  - intros; now apply (ranges_same st).
  - intros; now apply (ranges_same st).
  - intros; apply ranges_ranged; trivial; cbn; lia.
  - intros; apply ranges_ranged; trivial; cbn; lia.
  - intros; apply ranges_ranged; trivial; cbn; lia.
  - intros; apply ranges_ranged; trivial; cbn; lia.
  - intros; apply ranges_flag; now apply (ranges_same st).
  - intros; apply ranges_ranged; trivial; cbn; lia.
  - intros; apply ranges_ranged; trivial; destruct t; cbn; lia.
  - intros v st H. unfold set_full_year.
    assert (forall y, ranges_ok (set_flag FFullYear (with_int D Year y st)))
      by (intros; apply ranges_flag, ranges_int; cbn; trivial).
    destruct t; trivial; destruct (_ <? _); trivial; now apply (ranges_same st).
  - intros v st H. unfold set_century.
    destruct t; apply ranges_flag; try (now apply (ranges_same st)); apply ranges_int; cbn; trivial.
  - intros v st H. unfold set_short_year.
    destruct t; try (destruct (_ || _); [now apply (ranges_same st)|]); apply ranges_flag;
      try (now apply (ranges_same st)); apply ranges_int; cbn; trivial.
  - intros; apply ranges_ranged; trivial; cbn; lia.
  - intros; apply ranges_ranged; trivial; destruct t; cbn; lia.
  - intros x st st' H G. unfold set_subsec in G. destruct t; try (inv_ok; now apply (ranges_same st)).
    destruct (in_unit x) eqn:I; [|discriminate]. injection G as G; subst st'. apply ranges_flag.
    split; [exact (proj1 H)|]. intros y Y. cbn in Y. congruence.
  - intros v st H. unfold set_tz_offset. destruct t; try apply ranges_flag; apply ranges_int; cbn; trivial.
  - intros n st H. unfold set_tz_name.
    destruct t; try apply ranges_flag; now apply (ranges_same st).
  - apply ranges_verify.
  - intros s0. split; cbn; discriminate.
Qed.
End Reader.
