(** Time points: include/scn/chrono.h:278-331 (datetime_components::to_tm), 345-370
    (time_since_unix_epoch) and 1700-1725 (the scanner). *)
From Verif Require Import Prelude UnicodeModel ReadModel FormatModel IntModel ChronoModel.
Local Open Scope Z_scope.

(** std::tm as to_tm leaves it; [tm_isdst] is always -1. *)
Record broken : Type := Broken {
  b_sec : Z; b_min : Z; b_hour : Z; b_mday : Z; b_mon : Z; b_year : Z; b_wday : Z; b_yday : Z;
  b_gmtoff : Z }.
Definition value_or (d : Z) (o : option Z) : Z := match o with Some v => v | None => d end.
(** chrono.h:309-328, with tm_gmtoff (seconds); [UB]: the subtraction of 1900 overflows *)
Definition to_tm (get : field -> option Z) : outcome broken :=
  year <- add_int (value_or 1900 (get Year)) (-1900) ;;
  Ok (Broken (value_or 0 (get Sec)) (value_or 0 (get Min)) (value_or 0 (get Hour))
        (value_or 0 (get Mday)) (value_or 1 (get Mon) - 1) year (value_or 0 (get Wday))
        (value_or 0 (get Yday)) (value_or 0 (get Tz) * 60)).

(** std::chrono::duration with a signed representation of [p_bits] bits and the reduced period
    [p_num] / [p_den] seconds *)
Record duration : Type := Duration { p_num : Z; p_den : Z; p_bits : Z }.
(** Arithmetic on std::intmax_t; [UB]: overflow *)
Definition int64 (v : Z) : outcome Z :=
  if (- 2 ^ 63 <=? v) && (v <? 2 ^ 63) then Ok v else UB.
(** static_cast to the representation, modulo its size *)
Definition to_rep (bits v : Z) : Z := (v + 2 ^ (bits - 1)) mod 2 ^ bits - 2 ^ (bits - 1).
(** std::chrono::duration_cast from ticks of [num] / [den] seconds held in 64 bits: the ratio of
    the periods is reduced, multiplied with and divided by (rounding towards zero). *)
Definition duration_cast (num den : Z) (to : duration) (count : Z) : outcome Z :=
  let n := num * p_den to in
  let d := den * p_num to in
  let g := Z.gcd n d in
  v <- int64 (count * (n / g)) ;;
  Ok (to_rep (p_bits to) (Z.quot v (d / g))).

Section TimePoint.
Variable D : Type.
Variable scan_double : list Z -> outcome D.
Variable in_unit : D -> bool.
Variable time_get : list Z -> list Z -> option (tmv * list Z).
Variable point : Z.
Variable r : src.
Variable cf : config.
(** std::mktime, in the current time zone; its result on failure is -1 *)
Variable mktime : broken -> Z.
(** static_cast<std::int64_t>(x * 1e9) for a double *)
Variable nanos : D -> Z.
Definition is_set {A} (o : option A) : bool := match o with Some _ => true | None => false end.
(** chrono.h:345-370; [None]: std::nullopt *)
Definition time_since_unix_epoch (du : duration) (d : datetime D) : outcome (option Z) :=
  let get := dt_int D d in
  if is_set (get Tz) || is_set (dt_tzname D d) || is_set (get Wday) || is_set (get Yday) then Ok None
  else
    tm <- to_tm get ;;
    let time := mktime tm in
    match dt_subsec D d with
    | Some x =>
        if 1 <? p_den du then
          ns <- int64 (time * 10 ^ 9) ;;
          ns <- int64 (ns + nanos x) ;;
          v <- duration_cast 1 (10 ^ 9) du ns ;; Ok (Some v)
        else v <- duration_cast 1 1 du time ;; Ok (Some v)
    | None => v <- duration_cast 1 1 du time ;; Ok (Some v)
    end.
(** 1700-1725 *)
Definition time_point_arg (du : duration) (f s : list Z) : outcome (Z * list Z) :=
  '(d, s') <- chrono_arg D scan_double in_unit time_get point r cf Components f s ;;
  o <- time_since_unix_epoch du d ;;
  match o with
  | Some v => Ok (v, s')
  | None => Err InvalidScannedValue
  end.
End TimePoint.
