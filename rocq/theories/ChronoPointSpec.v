(** The instant of a date and time in the Gregorian calendar, in seconds since 1970. *)
From Verif Require Import Prelude ChronoModel ChronoSpec ChronoPointModel.
Local Open Scope Z_scope.

Definition leap (y : Z) : bool :=
  (y mod 4 =? 0) && (negb (y mod 100 =? 0) || (y mod 400 =? 0)).
Definition month_days (y m : Z) : Z :=
  if m =? 2 then (if leap y then 29 else 28)
  else if (m =? 4) || (m =? 6) || (m =? 9) || (m =? 11) then 30 else 31.
Definition year_days (y : Z) : Z := if leap y then 366 else 365.
Fixpoint total (f : Z -> Z) (n : nat) : Z :=
  match n with O => 0 | S n' => total f n' + f (Z.of_nat n') end.
(** Days from the beginning of the year 0 to the beginning of the year [y] *)
Definition years_before (y : Z) : Z := total year_days (Z.to_nat y).
(** ... and in the year [y] before the month [m] *)
Definition months_before (y m : Z) : Z := total (fun i => month_days y (i + 1)) (Z.to_nat (m - 1)).
Definition day_number (y m d : Z) : Z :=
  years_before y - years_before 1970 + months_before y m + (d - 1).
Definition instant (y m d h mi s : Z) : Z := day_number y m d * 86400 + h * 3600 + mi * 60 + s.
Definition valid_date (y m d : Z) : Prop := 0 <= y /\ 1 <= m <= 12 /\ 1 <= d <= month_days y m.
Definition valid_time (h mi s : Z) : Prop := 0 <= h <= 23 /\ 0 <= mi <= 59 /\ 0 <= s <= 60.
(** mktime in a time zone [off] seconds east of UTC, without daylight saving time: dates and
    times that exist are converted. *)
Definition clock (off : Z) (mktime : broken -> Z) : Prop :=
  forall y m d h mi s, valid_date y m d -> valid_time h mi s ->
  mktime (Broken s mi h d (m - 1) (y - 1900) 0 0 0) = instant y m d h mi s - off.
Definition valid_duration (du : duration) : Prop :=
  0 < p_num du /\ 0 < p_den du <= 10 ^ 9 /\ 0 < p_bits du /\ Z.gcd (p_num du) (p_den du) = 1.
(** [v] can be stored *)
Definition stores (du : duration) (v : Z) : Prop :=
  - 2 ^ (p_bits du - 1) <= v < 2 ^ (p_bits du - 1).
(** The number of whole ticks in [a] / [b] seconds, towards 1970 *)
Definition ticks (du : duration) (a b v : Z) : Prop :=
  exists rest, a * p_den du = v * (b * p_num du) + rest /\ Z.abs rest < b * p_num du /\ 0 <= a * rest.
