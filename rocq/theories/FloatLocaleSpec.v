(** Specification of numbers written in a locale (C51). *)
From Verif Require Import Prelude IntSpec FloatSpec.
Local Open Scope Z_scope.

(** Characters which can be used as separators: no control character, letter, digit or
    sign. *)
Definition separator (c : Z) : Prop :=
  ~ (48 <= c <= 57) /\ ~ (65 <= c <= 90) /\ ~ (97 <= c <= 122) /\ c <> 43 /\ c <> 45 /\ 32 <= c.
(** A decimal point and a thousands separator; 0: digits are not grouped. *)
Definition plausible (point thousands : Z) : Prop :=
  separator point /\ (thousands = 0 \/ separator thousands) /\ point <> thousands.

(** Digits and separators *)
Definition grouped (thousands : Z) (w : list Z) : Prop :=
  w <> [] /\ Forall (fun c => is_digit 10 c \/ thousands <> 0 /\ c = thousands) w.
Definition without (thousands : Z) (w : list Z) : list Z := filter (fun c => negb (c =? thousands)) w.

(** [t] shows the number whose plain notation is [n].  Where the separators are between the
    digits does not matter. *)
Definition shows (fixed scientific : bool) (point thousands : Z) (t n : list Z) : Prop :=
  exists w x, grouped thousands w
    /\ (t = w ++ x /\ n = without thousands w ++ x
        \/ exists f, t = w ++ point :: f ++ x /\ n = without thousands w ++ 46 :: f ++ x
             /\ Forall (is_digit 10) f)
    /\ (fixed = true /\ x = [] \/ scientific = true /\ exponent 101 x).
