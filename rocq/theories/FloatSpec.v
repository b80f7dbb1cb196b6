(** Specification of floating-point scanning, independent of the model: the grammar of
    std::from_chars and strtod, longest prefixes, and what conversion routines do. *)
From Verif Require Import Prelude IntSpec.
Local Open Scope Z_scope.

(** ** The grammar *)

(** A non-empty sequence of digits of base [b], optionally containing a point. *)
Definition significand (b : Z) (t : list Z) : Prop :=
  exists whole frac,
    (t = whole /\ frac = [] \/ t = whole ++ 46 :: frac)
    /\ Forall (is_digit b) whole /\ Forall (is_digit b) frac /\ whole ++ frac <> [].

(** A sign character or nothing; [neg]: it is a minus. *)
Inductive signed : bool -> list Z -> Prop :=
| no_sign : signed false []
| plus_sign : signed false [43]
| minus_sign : signed true [45].

(** The letter [lower] in either case, an optional sign, decimal digits. *)
Definition exponent (lower : Z) (t : list Z) : Prop :=
  exists c neg sg ds, t = c :: sg ++ ds /\ (c = lower \/ c = lower - 32)
    /\ signed neg sg /\ ds <> [] /\ Forall (is_digit 10) ds.

(** Decimal numbers: [fixed] allows numbers without an exponent, [scientific] those with
    one. *)
Definition decimal (fixed scientific : bool) (t : list Z) : Prop :=
  fixed = true /\ significand 10 t
  \/ scientific = true /\ exists m x, t = m ++ x /\ significand 10 m /\ exponent 101 x.

(** Hexadecimal numbers, without the prefix. *)
Definition hexadecimal (t : list Z) : Prop :=
  significand 16 t \/ exists m x, t = m ++ x /\ significand 16 m /\ exponent 112 x.

(** The word [w], of lower case letters, in any case. *)
Definition any_case (w t : list Z) : Prop :=
  Forall2 (fun l c => c = l \/ c = l - 32) w t.
Definition word_inf := [105; 110; 102].
Definition word_infinity := [105; 110; 102; 105; 110; 105; 116; 121].
Definition word_nan := [110; 97; 110].

Definition payload_char (c : Z) : Prop :=
  48 <= c <= 57 \/ 65 <= c <= 90 \/ 97 <= c <= 122 \/ c = 95.

Definition infinite (t : list Z) : Prop := any_case word_inf t \/ any_case word_infinity t.
Definition not_a_number (t : list Z) : Prop :=
  any_case word_nan t
  \/ exists n p, t = n ++ 40 :: p ++ [41] /\ any_case word_nan n /\ Forall payload_char p.

(** "0x" or "0X" *)
Definition hex_prefix (t : list Z) : Prop := any_case [120] (tl t) /\ hd 0 t = 48.

(** What can be asked for in a format string: nothing, or one of [a], [e], [f], [g]. *)
Inductive format : Type := Any | Hex | Scientific | Fixed | General.

Definition grammar (f : format) (t : list Z) : Prop :=
  infinite t \/ not_a_number t
  \/ match f with
     | Any => decimal true true t
              \/ exists p h, t = p ++ h /\ hex_prefix p /\ hexadecimal h
     | Hex => hexadecimal t \/ exists p h, t = p ++ h /\ hex_prefix p /\ hexadecimal h
     | Scientific => decimal false true t
     | Fixed => decimal true false t
     | General => decimal true true t
     end.

(** [t] is the longest prefix of [t ++ rest] in the language [L]. *)
Definition longest (L : list Z -> Prop) (t rest : list Z) : Prop :=
  L t /\ forall t' rest', t ++ rest = t' ++ rest' -> L t' -> (length t' <= length t)%nat.

(** ** What the texts mean *)

(** The magnitude of the number written [t], as a value of the type at hand; whether the
    number is too small or too large for the type.  These are parameters: the properties
    hold for any rounding. *)
Record meaning (V : Type) : Type := Meaning
  { mg_value : list Z -> V; mg_underflow : list Z -> bool; mg_overflow : list Z -> bool;
    mg_inf : V; mg_nan : V; mg_signed : bool -> V -> V }.
Arguments mg_value {V}. Arguments mg_underflow {V}. Arguments mg_overflow {V}.
Arguments mg_inf {V}. Arguments mg_nan {V}. Arguments mg_signed {V}.

(** The outcome of reading the number [t] preceded by a minus sign or not. *)
Definition number_outcome {V} (M : meaning V) (neg : bool) (t : list Z) : outcome V :=
  if mg_underflow M t then Err (if neg then ValueNegativeUnderflow else ValuePositiveUnderflow)
  else if mg_overflow M t
  then Err (if neg then ValueNegativeOverflow else ValuePositiveOverflow)
  else Ok (mg_signed M neg (mg_value M t)).

(** The outcome of reading the text [t] of the grammar.  Hexadecimal numbers without a
    prefix mean what they mean with it. *)
Inductive reads {V} (M : meaning V) (f : format) (neg : bool) (t : list Z) : outcome V -> Prop :=
| reads_inf : infinite t -> reads M f neg t (Ok (mg_signed M neg (mg_inf M)))
| reads_nan : not_a_number t -> reads M f neg t (Ok (mg_signed M neg (mg_nan M)))
| reads_hex : f = Hex -> hexadecimal t ->
    reads M f neg t (number_outcome M neg (48 :: 120 :: t))
| reads_prefixed p h : f = Hex \/ f = Any -> t = p ++ h -> hex_prefix p -> hexadecimal h ->
    reads M f neg t (number_outcome M neg t)
| reads_decimal fx sc : f <> Hex -> decimal fx sc t -> reads M f neg t (number_outcome M neg t).

(** ** What the reader accepts *)

(** [u] starts with a text of [L]. *)
Definition has (L : list Z -> Prop) (u : list Z) : Prop := exists t rest, u = t ++ rest /\ L t.

(** "nan(" and payload characters, without the closing parenthesis. *)
Definition open_payload (u : list Z) : Prop :=
  exists n p rest, u = n ++ 40 :: p ++ rest /\ any_case word_nan n /\ Forall payload_char p
    /\ match rest with [] => True | c :: _ => ~ payload_char c /\ c <> 41 end.

(** The texts after the sign which are read.  Compared with [has (grammar f)]: numbers must
    start with a decimal digit; "nan(" must be completed; and in a source which is not one
    contiguous piece, a hexadecimal digit must follow "0x". *)
Definition readable (contiguous : bool) (f : format) (u : list Z) : Prop :=
  has infinite u
  \/ has not_a_number u /\ ~ open_payload u
  \/ starts_with_digit 10 u /\ has (grammar f) u
     /\ (contiguous = false -> f = Any \/ f = Hex ->
         forall p rest, u = p ++ rest -> hex_prefix p -> starts_with_digit 16 rest).
