(** Properties of time points: C53, and of datetime_components::to_tm: C54.
    [D], [scan_double], [in_unit], [time_get], [point]: as in ChronoProperties. *)
From Coq Require Import String Ascii Floats.SpecFloat.
From Verif Require Import Prelude UnicodeModel UnicodeSpec ReadModel ReadProofs FormatModel FormatSpec IntModel
  VscanSpec VscanProperties SpecsInvProofs ChronoModel ChronoSpec ChronoParseProofs ChronoInvProofs ChronoRuleProofs
  ChronoRoundProofs ChronoDateProofs ChronoTripProofs ChronoSoundProofs ChronoProperties
  ChronoPointModel ChronoPointSpec ChronoPointProofs.
Import Coq.Strings.String.StringSyntax.
Local Open Scope string_scope.
Local Open Scope list_scope.
Local Open Scope Z_scope.

(** * C53: a time point is the instant that is written *)
(** Whatever the format is: if the components that are scanned are a date that exists, and no
    more than a time of day, the time point is its instant in whole ticks (towards 1970). *)
Theorem C53_components_partial : forall D scan_double in_unit time_get point r cf mktime nanos off du f s d s' y m da h mi se,
  chrono_arg D scan_double in_unit time_get point r cf Components f s = Ok (d, s') ->
  clock off mktime -> valid_duration du ->
  dt_int D d Year = Some y -> dt_int D d Mon = Some m -> dt_int D d Mday = Some da ->
  given (dt_int D d Hour) h -> given (dt_int D d Min) mi -> given (dt_int D d Sec) se ->
  dt_int D d Wday = None -> dt_int D d Yday = None -> dt_int D d Tz = None -> dt_tzname D d = None ->
  valid_date y m da -> y < 2 ^ 31 -> dt_subsec D d = None \/ p_den du = 1 ->
  Z.abs ((instant y m da h mi se - off) * p_den du) < 2 ^ 63 ->
  exists v, ticks du (instant y m da h mi se - off) 1 v
    /\ (stores du v -> time_point_arg D scan_double in_unit time_get point r cf mktime nanos du f s = Ok (v, s')).
Proof.
  intros D sd iu tg pt r cf mk nn off du f s d s' y m da h mi se E C V Gy Gm Gd Gh Gi Gs Nw Ny Nt Nn Vd By S B.
  assert (Vt : valid_time h mi se).
  { destruct (C35_ranges_partial _ _ _ _ _ _ _ _ _ _ _ _ E) as [R _].
    split; [|split]; [destruct Gh as [G|[_ ->]]|destruct Gi as [G|[_ ->]]|destruct Gs as [G|[_ ->]]];
      try lia; apply R in G; exact G. }
  destruct (point_whole D nn mk off C d y m da h mi se) with (du := du) as (v & T & P); trivial.
  exists v. split; [trivial|]. intros St. unfold time_point_arg. rewrite E. cbn [bind]. now rewrite (P St).
Qed.
Print Assumptions C53_components_partial.

(** With fractions of a second and a duration of decimal ticks: [nanos] is the fraction in
    nanoseconds. *)
Theorem C53_fractions_partial : forall D scan_double in_unit time_get point r cf mktime nanos off du f s d s' y m da h mi se x,
  chrono_arg D scan_double in_unit time_get point r cf Components f s = Ok (d, s') ->
  clock off mktime -> valid_duration du ->
  dt_int D d Year = Some y -> dt_int D d Mon = Some m -> dt_int D d Mday = Some da ->
  given (dt_int D d Hour) h -> given (dt_int D d Min) mi -> given (dt_int D d Sec) se ->
  dt_int D d Wday = None -> dt_int D d Yday = None -> dt_int D d Tz = None -> dt_tzname D d = None ->
  valid_date y m da -> y < 2 ^ 31 -> dt_subsec D d = Some x -> 1 < p_den du -> (p_den du | 10 ^ 9) ->
  0 <= nanos x < 10 ^ 9 ->
  Z.abs (instant y m da h mi se - off) * 10 ^ 9 + 10 ^ 9 < 2 ^ 63 ->
  exists v, ticks du ((instant y m da h mi se - off) * 10 ^ 9 + nanos x) (10 ^ 9) v
    /\ (stores du v -> time_point_arg D scan_double in_unit time_get point r cf mktime nanos du f s = Ok (v, s')).
Proof.
  intros D sd iu tg pt r cf mk nn off du f s d s' y m da h mi se x E C V Gy Gm Gd Gh Gi Gs Nw Ny Nt Nn Vd By S L K N B.
  assert (Vt : valid_time h mi se).
  { destruct (C35_ranges_partial _ _ _ _ _ _ _ _ _ _ _ _ E) as [R _].
    split; [|split]; [destruct Gh as [G|[_ ->]]|destruct Gi as [G|[_ ->]]|destruct Gs as [G|[_ ->]]];
      try lia; apply R in G; exact G. }
  destruct (point_fraction D nn mk off C d y m da h mi se) with (du := du) (x := x) as (v & T & P); trivial.
  exists v. split; [trivial|]. intros St. unfold time_point_arg. rewrite E. cbn [bind]. now rewrite (P St).
Qed.
Print Assumptions C53_fractions_partial.

(** From the text: any format and text as in C50 that gives a date that exists. *)
Theorem C53_partial : forall D scan_double in_unit time_get point r cf mktime nanos off du ts rest sp s vs tail y m da h mi se,
  s_enc r <> U16 -> at_end rest -> Forall wf_token ts ->
  Forall (simple_token (s_enc r)) ts -> starts_with_conv ts -> Forall (fun tk => tk <> TConv "u") ts ->
  coherent (format_parts false ts) -> written (s_enc r) ts vs s tail -> Forall (good_value Components) vs ->
  Forall ascii_ws sp -> no_space_next s -> s <> [] -> units (s_enc r) (sp ++ s) ->
  clock off mktime -> valid_duration du ->
  made vs Year = Some y -> made vs Mon = Some m -> made vs Mday = Some da ->
  given (made vs Hour) h -> given (made vs Min) mi -> given (made vs Sec) se -> made vs Tz = None ->
  valid_date y m da -> y < 2 ^ 31 ->
  Z.abs ((instant y m da h mi se - off) * p_den du) < 2 ^ 63 ->
  exists v, ticks du (instant y m da h mi se - off) 1 v
    /\ (stores du v ->
        time_point_arg D scan_double in_unit time_get point r cf mktime nanos du
          (write_format (s_enc r) false ts ++ rest) (sp ++ s) = Ok (v, tail)).
Proof.
  intros D sd iu tg pt r cf mk nn off du ts rest sp s vs tail y m da h mi se He Hr W S0 Hc Nu Co Wr Gv Hsp Hs Hn Hb
    C V Gy Gm Gd Gh Gi Gs Nt Vd By B.
  destruct (trip D sd iu tg pt r cf Components ts rest sp s vs tail) as (d & E & F & Fs & Fz); trivial.
  assert (F' : forall f, dt_int D d f = made vs f).
  { intros f. rewrite F. unfold date. destruct (made vs f); cbn; [|reflexivity].
    destruct f; cbn; now rewrite Z.sub_0_r. }
  pose proof (written_parts _ _ _ _ _ Wr) as Pm. destruct Co as (_ & _ & _ & _ & O1 & _ & O3).
  assert (In (PMday) (format_parts false ts)).
  { eapply Permutation.Permutation_in; [exact Pm|]. eapply value_in. exact Gd. }
  eapply (C53_components_partial D sd iu tg pt r cf mk nn off du _ _ d tail); try rewrite F'; try eassumption; auto.
  - cbn. apply value_none. intros I. apply O1. split; [|trivial].
    eapply Permutation.Permutation_in; eassumption.
  - cbn. apply value_none. intros I. apply O3. split; [trivial|].
    eapply Permutation.Permutation_in; eassumption.
Qed.
Print Assumptions C53_partial.

(** The clock exists; the cases *)
Theorem C53_clock : clock 0 mktime_utc.
Proof. exact utc_clock. Qed.
Print Assumptions C53_clock.
Definition seconds : duration := Duration 1 1 64.
Definition millis : duration := Duration 1 1000 64.
Definition nanoseconds : duration := Duration 1 (10 ^ 9) 64.
Definition hours : duration := Duration 3600 1 64.
Definition sample_point (du : duration) (f s : list Z) : outcome (Z * list Z) :=
  time_point_arg Z (fun _ => Ok 5) (fun _ => true) (fun _ _ => None) 46 string_src narrow mktime_utc
    (fun x => x * 10 ^ 8) du f s.
Example C53_ex :
  valid_date 2024 9 10 /\ valid_time 23 11 10 /\
  valid_duration seconds /\ valid_duration millis /\ valid_duration nanoseconds /\ valid_duration hours /\
  instant 2024 9 10 23 11 10 = 1726009870 /\
  ticks hours (instant 2024 9 10 23 11 10) 1 479447 /\
  sample_point millis (T "%Y-%m-%d %H:%M:%S}") (T "2024-09-10 23:11:10 x") = Ok (1726009870000, T " x") /\
  sample_point nanoseconds (T "%Y-%m-%d %H:%M:%.S}") (T "2024-09-10 23:11:10.5") = Ok (1726009870500000000, []) /\
  sample_point hours (T "%Y-%m-%d %H:%M:%S}") (T "2024-09-10 23:11:10") = Ok (479447, []).
Proof.
  split; [vm_compute; intuition discriminate|]. split; [vm_compute; intuition discriminate|].
  do 4 (split; [repeat split; vm_compute; trivial; discriminate|]).
  split; [vm_compute; reflexivity|]. split.
  { exists 670. vm_compute. repeat split; congruence. }
  split; [|split]; vm_compute; reflexivity.
Qed.

(** ... and the hypotheses of C53_partial, for "%Y-%m-%d" *)
Definition ts_day : list token := [TConv "Y"; TLit 45; TConv "m"; TLit 45; TConv "d"].
Example C53_written_ex :
  Forall wf_token ts_day /\ Forall (simple_token U8) ts_day /\ starts_with_conv ts_day /\
  Forall (fun tk => tk <> TConv "u") ts_day /\ coherent (format_parts false ts_day) /\
  written U8 ts_day [(PYear, 2024); (PMon, 2); (PMday, 29)] (T "2024-02-29!") (T "!") /\
  valid_date 2024 2 29 /\ instant 2024 2 29 0 0 0 = 1709164800 /\
  sample_point millis (T "%Y-%m-%d}") (T "2024-02-29!") = Ok (1709164800000, T "!").
Proof.
  split; [repeat constructor; cbn; try discriminate; lia|].
  split; [repeat constructor; cbn; try discriminate; lia|].
  split; [exact I|]. split; [repeat constructor; discriminate|].
  split.
  { split; [repeat (apply NoDup_cons; [cbn; intuition congruence|]); apply NoDup_nil|].
    unfold no_clock_mix, no_year_mix, no_zone_mix, one_day_part. cbn. intuition (try discriminate; auto 10). }
  split.
  { unfold written.
    apply (pr_cons _ _ _ (T "2024") (T "-02-29!") [(PYear, 2024)]).
    { eapply (sh_number _ FullYear); [reflexivity|repeat constructor; cbn; lia|cbn; lia|now left|cbn; lia]. }
    apply (pr_cons _ _ _ (T "-") (T "02-29!") []); [apply sh_text|].
    apply (pr_cons _ _ _ (T "02") (T "-29!") [(PMon, 2)]).
    { eapply (sh_number _ DecMonth); [reflexivity|repeat constructor; cbn; lia|cbn; lia|now left|cbn; lia]. }
    apply (pr_cons _ _ _ (T "-") (T "29!") []); [apply sh_text|].
    apply (pr_cons _ _ _ (T "29") (T "!") [(PMday, 29)]).
    { eapply (sh_number _ DayOfMonth); [reflexivity|repeat constructor; cbn; lia|cbn; lia|now left|cbn; lia]. }
    apply pr_nil. }
  split; [vm_compute; intuition discriminate|]. split; vm_compute; reflexivity.
Qed.

(** A date that does not exist is read as another one. *)
Theorem C53_date_refuted : ~ valid_date 2023 2 31 /\
  sample_point seconds (T "%Y-%m-%d}") (T "2023-02-31") = Ok (instant 2023 3 3 0 0 0, []).
Proof. split; [intros (_ & _ & H); vm_compute in H; intuition congruence|vm_compute; reflexivity]. Qed.
Print Assumptions C53_date_refuted.
(** Without a day the time point is in the month before; without a date it is in 1899. *)
Theorem C53_missing_refuted :
  sample_point seconds (T "%Y-%m}") (T "2024-03") = Ok (instant 2024 2 29 0 0 0, []) /\
  sample_point seconds (T "%H:%M}") (T "12:30") = Ok (instant 1899 12 31 12 30 0, []).
Proof. split; vm_compute; reflexivity. Qed.
Print Assumptions C53_missing_refuted.
(** The conversion to ticks can overflow: std::chrono::system_clock counts nanoseconds. *)
Theorem C53_overflow_refuted : valid_date 2300 1 1 /\
  sample_point nanoseconds (T "%Y-%m-%d}") (T "2300-01-01") = UB /\
  sample_point (Duration 1 1 32) (T "%Y-%m-%d}") (T "2040-01-01") = Ok (instant 2040 1 1 0 0 0 - 2 ^ 32, []).
Proof. split; [vm_compute; intuition discriminate|]. split; vm_compute; reflexivity. Qed.
Print Assumptions C53_overflow_refuted.
(** If the conversion by the C library fails, this is a success: one second before 1970. *)
Theorem C53_failure_refuted :
  time_point_arg Z (fun _ => Ok 5) (fun _ => true) (fun _ _ => None) 46 string_src narrow (fun _ => -1)
    (fun x => x) seconds (T "%Y-%m-%d}") (T "2024-09-10") = Ok (instant 1969 12 31 23 59 59, []).
Proof. vm_compute. reflexivity. Qed.
Print Assumptions C53_failure_refuted.
(** A time zone is accepted in the format but no text is ever accepted with it. *)
Theorem C53_zone_refuted :
  chrono_parse Components U8 (T "%Y-%m-%d %H:%M:%S %z}") = Ok (T "}", T "%Y-%m-%d %H:%M:%S %z") /\
  forall D scan_double in_unit time_get point r cf mktime nanos du f s d s' v,
  chrono_arg D scan_double in_unit time_get point r cf Components f s = Ok (d, s') ->
  dt_int D d Tz = Some v ->
  time_point_arg D scan_double in_unit time_get point r cf mktime nanos du f s = Err InvalidScannedValue.
Proof.
  split; [vm_compute; reflexivity|]. intros D sd iu tg pt r cf mk nn du f s d s' v E G.
  unfold time_point_arg. rewrite E. cbn [bind]. unfold time_since_unix_epoch. rewrite G. reflexivity.
Qed.
Print Assumptions C53_zone_refuted.
(** Before 1970, the tick is not the one the instant is in but the next. *)
Theorem C53_rounding_refuted : instant 1969 12 31 23 30 0 < 0 /\
  sample_point hours (T "%Y-%m-%d %H:%M}") (T "1969-12-31 23:30") = Ok (0, []).
Proof. split; vm_compute; reflexivity. Qed.
Print Assumptions C53_rounding_refuted.

(** The fraction of a second goes through a double and loses a nanosecond: 0.0157 s are 15699999 ns,
    also 15699 microseconds.  Doubles as in Coq's [SpecFloat]; the one here is the nearest to
    0.0157. *)
Definition binary64 := spec_float.
Definition double_nanos (x : binary64) : Z :=
  match SFmul 53 1024 x (S754_finite false 8388608000000000%positive (-23)) with
  | S754_finite sg m e => (if sg then -1 else 1) * (if 0 <=? e then Z.pos m * 2 ^ e else Z.pos m / 2 ^ (- e))
  | _ => 0
  end.
Definition x157 : binary64 := S754_finite false 4525216905581874%positive (-58).
Definition micros : duration := Duration 1 (10 ^ 6) 64.
Theorem C53_fraction_refuted :
  2 * Z.abs (4525216905581874 * 10 ^ 4 - 157 * 2 ^ 58) <= 10 ^ 4 /\
  double_nanos x157 = 15699999 /\
  time_point_arg binary64 (fun _ => Ok x157) (fun _ => true) (fun _ _ => None) 46 string_src narrow mktime_utc
    double_nanos micros (T "%Y-%m-%d %H:%M:%.S}") (T "1970-01-01 00:00:00.0157") = Ok (15699, []).
Proof. split; [vm_compute; congruence|]. split; vm_compute; reflexivity. Qed.
Print Assumptions C53_fraction_refuted.

(** * C54: to_tm *)
(** Scanning into datetime_components and converting to std::tm is the same as scanning into a
    std::tm that was all zero: the fields that are not given are 0 (documentation, chrono.h:303-308). *)
Definition tm_field (b : broken) (f : field) : Z :=
  match f with
  | Sec => b_sec b | Min => b_min b | Hour => b_hour b | Mday => b_mday b | Mon => b_mon b
  | Year => b_year b | Wday => b_wday b | Yday => b_yday b | Tz => b_gmtoff b / 60
  end.
Theorem C54_partial : forall D scan_double in_unit time_get point r cf ts rest sp s vs tail,
  s_enc r <> U16 -> at_end rest -> Forall wf_token ts ->
  Forall (simple_token (s_enc r)) ts -> starts_with_conv ts -> Forall (fun tk => tk <> TConv "u") ts ->
  coherent (format_parts false ts) -> written (s_enc r) ts vs s tail -> Forall (good_value Components) vs ->
  Forall ascii_ws sp -> no_space_next s -> s <> [] -> units (s_enc r) (sp ++ s) ->
  exists d d' b,
    chrono_arg D scan_double in_unit time_get point r cf Components
      (write_format (s_enc r) false ts ++ rest) (sp ++ s) = Ok (d, tail)
    /\ chrono_arg D scan_double in_unit time_get point r cf Tm
      (write_format (s_enc r) false ts ++ rest) (sp ++ s) = Ok (d', tail)
    /\ to_tm (dt_int D d) = Ok b
    /\ forall f, tm_field b f = value_or 0 (dt_int D d' f).
Proof.
  intros D sd iu tg pt r cf ts rest sp s vs tail He Hr W S0 Hc Nu Co Wr Gv Hsp Hs Hn Hb.
  destruct (trip D sd iu tg pt r cf Components ts rest sp s vs tail) as (d & E & F & _); trivial.
  destruct (trip D sd iu tg pt r cf Tm ts rest sp s vs tail) as (d' & E' & F' & _); trivial.
  { apply Forall_forall. intros x _ ?. discriminate. }
  assert (Y : 0 <= value_or 1900 (made vs Year) <= 9999).
  { cbn [made]. destruct (value vs PYear) as [y|] eqn:Ey; cbn [value_or].
    - apply value_pair in Ey. unfold written in Wr.
      assert (R : Forall (fun x => fst x = PYear -> 0 <= snd x <= 9999) vs).
      { clear -Wr. induction Wr; [constructor|]. apply Forall_app. split; [|trivial].
        inversion H; subst; try apply Forall_nil; (constructor; [|constructor]); cbn [fst snd]; try discriminate.
        destruct c; try discriminate H0; injection H0 as <- <- <- <- <-; intros; try discriminate; cbn; lia. }
      rewrite Forall_forall in R. exact (R _ Ey eq_refl).
    - assert (N1 : value vs PCentury = None).
      { apply value_none. intros I. apply in_map_iff in I. destruct I as ([p z] & E1 & I). cbn in E1. subst p.
        rewrite Forall_forall in Gv. destruct (Gv _ I eq_refl) as (G & _). now apply G. }
      assert (N2 : value vs PShortYear = None).
      { apply value_none. intros I. apply in_map_iff in I. destruct I as ([p z] & E1 & I). cbn in E1. subst p.
        rewrite Forall_forall in Gv. destruct (Gv _ I eq_refl) as (_ & G & _). now apply G. }
      rewrite N1, N2. cbn. lia. }
  assert (G : forall f, dt_int D d f = made vs f).
  { intros f. rewrite F. unfold date. destruct (made vs f); cbn; [|reflexivity].
    destruct f; cbn; now rewrite Z.sub_0_r. }
  exists d, d'. eexists. split; [trivial|]. split; [trivial|]. split.
  { unfold to_tm. rewrite !G. unfold add_int.
    replace ((- 2 ^ 31 <=? value_or 1900 (made vs Year) + -1900) && (value_or 1900 (made vs Year) + -1900 <? 2 ^ 31))
      with true; [reflexivity|].
    symmetry; apply andb_true_intro; split; [apply Z.leb_le | apply Z.ltb_lt]; lia. }
  intros f. rewrite F'. unfold date.
  destruct f; cbn [tm_field b_sec b_min b_hour b_mday b_mon b_year b_wday b_yday b_gmtoff offset];
    match goal with |- context [option_map _ ?o] => destruct o as [v|] end; cbn [value_or option_map]; try lia.
Qed.
Print Assumptions C54_partial.
Example C54_ex :
  match sample Components (T "%d %b %I:%M %p}") (T "  7 May 12:30 p.M.!") with
  | Ok (d, _) => to_tm (dt_int Z d)
  | _ => UB
  end = Ok (Broken 0 30 12 7 4 0 0 0 0).
Proof. vm_compute. reflexivity. Qed.
(** Not for years of two digits: *)
Theorem C54_short_year_refuted :
  seen_fields (sample Tm (T "%m/%d/%y}") (T "05/07/95"))
  = Ok ([None; None; None; Some 7; Some 4; Some 95; None; None; None], []) /\
  match sample Components (T "%m/%d/%y}") (T "05/07/95") with
  | Ok (d, _) => to_tm (dt_int Z d)
  | _ => UB
  end = Ok (Broken 0 0 0 7 4 100 0 0 0).
Proof. split; vm_compute; reflexivity. Qed.
Print Assumptions C54_short_year_refuted.
