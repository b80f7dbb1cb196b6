(** Time points: conversion of components to ticks; a clock for UTC. *)
From Verif Require Import Prelude UnicodeModel ReadModel FormatModel IntModel ChronoModel ChronoSpec ChronoInvProofs
  ChronoDateProofs ChronoTripProofs ChronoSoundProofs ChronoPointModel ChronoPointSpec.
Local Open Scope Z_scope.

(** ** Ticks *)
Lemma to_rep_id du v : 0 < p_bits du -> stores du v -> to_rep (p_bits du) v = v.
Proof.
  intros B [S1 S2]. unfold to_rep.
  assert (E : 2 ^ p_bits du = 2 * 2 ^ (p_bits du - 1)).
  { rewrite <- Z.pow_succ_r by lia. f_equal. lia. }
  rewrite Z.mod_small by lia. lia.
Qed.
Lemma quot_ticks a n d g : 0 < n -> 0 < d -> 0 < g ->
  exists rest, a * (n * g) = Z.quot (a * n) d * (d * g) + rest /\ Z.abs rest < d * g /\ 0 <= a * rest.
Proof.
  intros Hn Hd Hg. exists (Z.rem (a * n) d * g).
  pose proof (Z.quot_rem' (a * n) d) as Q.
  pose proof (Z.rem_bound_abs (a * n) d ltac:(lia)) as B.
  pose proof (Z.rem_sign_mul (a * n) d ltac:(lia)) as S.
  split; [nia|]. split.
  - rewrite Z.abs_mul. rewrite (Z.abs_eq g) by lia. nia.
  - assert (0 <= a * Z.rem (a * n) d) by nia. nia.
Qed.
Lemma cast_ticks num den du a : 0 < num -> 0 < den -> valid_duration du ->
  Z.abs (a * (num * p_den du / Z.gcd (num * p_den du) (den * p_num du))) < 2 ^ 63 ->
  exists v, (exists rest, a * (num * p_den du) = v * (den * p_num du) + rest
              /\ Z.abs rest < den * p_num du /\ 0 <= a * rest)
    /\ (stores du v -> duration_cast num den du a = Ok v).
Proof.
  intros Hn Hd (P1 & P2 & P3 & _) B. unfold duration_cast.
  set (n := num * p_den du) in *. set (d := den * p_num du) in *. set (g := Z.gcd n d) in *.
  assert (n0 : 0 < n) by (unfold n; nia). assert (d0 : 0 < d) by (unfold d; nia).
  assert (g0 : 0 < g).
  { pose proof (Z.gcd_nonneg n d). destruct (Z.eq_dec g 0) as [E|]; [|unfold g in *; lia].
    apply Z.gcd_eq_0_l in E. lia. }
  destruct (Z.gcd_divide_l n d) as [n' En]. destruct (Z.gcd_divide_r n d) as [d' Ed]. fold g in En, Ed.
  assert (n1 : n / g = n') by (rewrite En; apply Z.div_mul; lia).
  assert (d1 : d / g = d') by (rewrite Ed; apply Z.div_mul; lia).
  rewrite n1 in *. rewrite d1. exists (Z.quot (a * n') d').
  assert (n'0 : 0 < n') by nia. assert (d'0 : 0 < d') by nia.
  split.
  - rewrite En, Ed. apply quot_ticks; trivial.
  - intros S. unfold int64.
    replace ((- 2 ^ 63 <=? a * n') && (a * n' <? 2 ^ 63)) with true
      by (symmetry; apply andb_true_intro; split; [apply Z.leb_le | apply Z.ltb_lt]; lia).
    cbn [bind]. now rewrite to_rep_id.
Qed.
Lemma ticks_unique du a b v w : valid_duration du -> 0 < b -> ticks du a b v -> ticks du a b w -> v = w.
Proof.
  intros (P1 & P2 & _) B (x & X1 & X2 & X3) (y & Y1 & Y2 & Y3).
  assert (K : 0 < b * p_num du) by nia. set (k := b * p_num du) in *.
  assert (E : (v - w) * k = y - x) by lia.
  destruct (Z.lt_trichotomy a 0) as [A|[->|A]].
  - assert (x <= 0) by nia. assert (y <= 0) by nia. nia.
  - cbn in X1, Y1. assert (v * k = - x) by lia. assert (w * k = - y) by lia.
    assert (v = 0) by nia. assert (w = 0) by nia. lia.
  - assert (0 <= x) by nia. assert (0 <= y) by nia. nia.
Qed.

(** ** From components *)
Definition given (o : option Z) (v : Z) : Prop := o = Some v \/ (o = None /\ v = 0).
Lemma given_or o v : given o v -> value_or 0 o = v.
Proof. intros [-> | [-> ->]]; reflexivity. Qed.

Section Components.
Variable D : Type.
Variable nanos : D -> Z.
Variable mktime : broken -> Z.
Variable off : Z.
Hypothesis Hc : clock off mktime.
Variable d : datetime D.
Variables y m da h mi s : Z.
Hypothesis Gy : dt_int D d Year = Some y.
Hypothesis Gm : dt_int D d Mon = Some m.
Hypothesis Gd : dt_int D d Mday = Some da.
Hypothesis Gh : given (dt_int D d Hour) h.
Hypothesis Gi : given (dt_int D d Min) mi.
Hypothesis Gs : given (dt_int D d Sec) s.
Hypothesis Nw : dt_int D d Wday = None.
Hypothesis Ny : dt_int D d Yday = None.
Hypothesis Nt : dt_int D d Tz = None.
Hypothesis Nn : dt_tzname D d = None.
Hypothesis Vd : valid_date y m da.
Hypothesis Vt : valid_time h mi s.
Hypothesis By : y < 2 ^ 31.

Lemma tm_made : to_tm (dt_int D d) = Ok (Broken s mi h da (m - 1) (y - 1900) 0 0 0).
Proof.
  unfold to_tm. rewrite Gy, Gm, Gd, Nw, Ny, Nt, (given_or _ _ Gh), (given_or _ _ Gi), (given_or _ _ Gs).
  cbn [value_or]. unfold add_int.
  destruct Vd as (V & _).
  replace ((- 2 ^ 31 <=? y + -1900) && (y + -1900 <? 2 ^ 31)) with true
    by (symmetry; apply andb_true_intro; split; [apply Z.leb_le | apply Z.ltb_lt]; lia).
  reflexivity.
Qed.

Lemma point_whole du : valid_duration du -> (dt_subsec D d = None \/ p_den du = 1) ->
  Z.abs ((instant y m da h mi s - off) * p_den du) < 2 ^ 63 ->
  exists v, ticks du (instant y m da h mi s - off) 1 v
    /\ (stores du v -> time_since_unix_epoch D mktime nanos du d = Ok (Some v)).
Proof.
  intros V S B. unfold time_since_unix_epoch. rewrite Nw, Ny, Nt, Nn, tm_made. cbn [is_set orb bind].
  rewrite (Hc y m da h mi s) by trivial.
  destruct (cast_ticks 1 1 du (instant y m da h mi s - off)) as (v & T & E); trivial; try lia.
  { rewrite !Z.mul_1_l. destruct V as (_ & V2 & _ & G). rewrite Z.gcd_comm, G, Z.div_1_r. trivial. }
  rewrite !Z.mul_1_l in T.
  exists v. split; [unfold ticks; rewrite !Z.mul_1_l; exact T|]. intros St. specialize (E St).
  destruct (dt_subsec D d) as [x|].
  - destruct S as [?|S]; [discriminate|]. rewrite S. cbn [Z.ltb Z.compare Pos.compare Pos.compare_cont].
    now rewrite E.
  - now rewrite E.
Qed.

Lemma point_fraction du x : valid_duration du -> dt_subsec D d = Some x -> 1 < p_den du ->
  (p_den du | 10 ^ 9) -> 0 <= nanos x < 10 ^ 9 ->
  Z.abs (instant y m da h mi s - off) * 10 ^ 9 + 10 ^ 9 < 2 ^ 63 ->
  exists v, ticks du ((instant y m da h mi s - off) * 10 ^ 9 + nanos x) (10 ^ 9) v
    /\ (stores du v -> time_since_unix_epoch D mktime nanos du d = Ok (Some v)).
Proof.
  intros V S L [k K] N B. unfold time_since_unix_epoch. rewrite Nw, Ny, Nt, Nn, tm_made. cbn [is_set orb bind].
  rewrite (Hc y m da h mi s) by trivial. rewrite S. set (i := instant y m da h mi s - off) in *.
  replace (1 <? p_den du) with true by (symmetry; apply Z.ltb_lt; trivial).
  assert (In1 : int64 (i * 10 ^ 9) = Ok (i * 10 ^ 9)).
  { unfold int64. replace ((- 2 ^ 63 <=? i * 10 ^ 9) && (i * 10 ^ 9 <? 2 ^ 63)) with true; [trivial|].
    symmetry; apply andb_true_intro; split; [apply Z.leb_le | apply Z.ltb_lt]; lia. }
  assert (In2 : int64 (i * 10 ^ 9 + nanos x) = Ok (i * 10 ^ 9 + nanos x)).
  { unfold int64. replace ((- 2 ^ 63 <=? i * 10 ^ 9 + nanos x) && (i * 10 ^ 9 + nanos x <? 2 ^ 63)) with true; [trivial|].
    symmetry; apply andb_true_intro; split; [apply Z.leb_le | apply Z.ltb_lt]; lia. }
  rewrite In1. cbn [bind]. rewrite In2. cbn [bind].
  destruct (cast_ticks 1 (10 ^ 9) du (i * 10 ^ 9 + nanos x)) as (v & T & E); trivial; try lia.
  { rewrite !Z.mul_1_l. destruct V as (_ & V2 & _).
    assert (G : Z.gcd (p_den du) (10 ^ 9 * p_num du) = p_den du).
    { apply Z.divide_gcd_iff; [lia|]. exists (k * p_num du). rewrite K. ring. }
    rewrite G, Z.div_same by lia. lia. }
  rewrite !Z.mul_1_l in T. exists v. split; [exact T|]. intros St. now rewrite (E St).
Qed.
End Components.

(** ** A clock for UTC, with the out-of-range fields carried over as C requires *)
Definition month_start (y m : Z) : Z := total (fun i => month_days y (i + 1)) (Z.to_nat m).
Definition mktime_utc (t : broken) : Z :=
  let y := b_year t + 1900 + b_mon t / 12 in
  let m := b_mon t mod 12 in
  let days := 365 * y + (y + 3) / 4 - (y + 99) / 100 + (y + 399) / 400 - 719528
              + month_start y m + b_mday t - 1 in
  days * 86400 + b_hour t * 3600 + b_min t * 60 + b_sec t.

Lemma years_closed n :
  total year_days n = 365 * Z.of_nat n + (Z.of_nat n + 3) / 4 - (Z.of_nat n + 99) / 100
                      + (Z.of_nat n + 399) / 400.
Proof.
  induction n as [|n IH]; [reflexivity|].
  cbn [total]. rewrite IH. rewrite Nat2Z.inj_succ. set (k := Z.of_nat n). clearbody k. clear IH.
  unfold year_days, leap.
  destruct (Z.eqb_spec (k mod 4) 0) as [A|A]; destruct (Z.eqb_spec (k mod 100) 0) as [B|B];
    destruct (Z.eqb_spec (k mod 400) 0) as [C|C]; cbn [andb orb negb]; Z.to_euclidean_division_equations; lia.
Qed.
Lemma years_1970 : years_before 1970 = 719528.
Proof. unfold years_before. rewrite years_closed. reflexivity. Qed.
Lemma utc_clock : clock 0 mktime_utc.
Proof.
  intros y m d h mi s (V1 & V2 & V3) _. unfold mktime_utc, instant, day_number. cbn [b_year b_mon b_mday b_hour b_min b_sec].
  rewrite years_1970. replace ((m - 1) / 12) with 0 by (rewrite Z.div_small; lia).
  replace ((m - 1) mod 12) with (m - 1) by (rewrite Z.mod_small; lia).
  replace (y - 1900 + 1900 + 0) with y by lia.
  unfold years_before. rewrite years_closed. rewrite Z2Nat.id by lia.
  unfold month_start, months_before. lia.
Qed.
