(** Specification of integer scanning, independent of the model: positional notation,
    the documented sign and prefix grammar. *)
From Coq Require Import List ZArith Bool.
From Verif Require Import Prelude.
Import ListNotations.
Local Open Scope Z_scope.

(** Value of an alphanumeric digit: 0-9, a-z, A-Z. *)
Definition digit_value (c : Z) : option Z :=
  if (48 <=? c) && (c <=? 57) then Some (c - 48)
  else if (97 <=? c) && (c <=? 122) then Some (c - 97 + 10)
  else if (65 <=? c) && (c <=? 90) then Some (c - 65 + 10)
  else None.

(** [c] is a digit of base [b]. *)
Definition is_digit (b c : Z) : Prop :=
  exists d, digit_value c = Some d /\ d < b.

(** Positional value of a digit string, most significant first. *)
Definition digit_or_0 (c : Z) : Z := match digit_value c with Some d => d | None => 0 end.
Fixpoint value (b : Z) (ds : list Z) : Z :=
  match ds with
  | [] => 0
  | c :: ds' => digit_or_0 c * b ^ Z.of_nat (length ds') + value b ds'
  end.

Definition starts_with_digit (b : Z) (s : list Z) : Prop :=
  match s with [] => False | c :: _ => is_digit b c end.

(** [s] starts with the maximal non-empty digit run [ds] of base [b], followed by
    [rest]. *)
Definition digit_run (b : Z) (s ds rest : list Z) : Prop :=
  s = ds ++ rest /\ ds <> [] /\ Forall (is_digit b) ds /\ ~ starts_with_digit b rest.

(** Signed and unsigned two's complement ranges. *)
Definition in_range (signed : bool) (bits v : Z) : Prop :=
  if signed then - 2 ^ (bits - 1) <= v < 2 ^ (bits - 1) else 0 <= v < 2 ^ bits.

Definition signed_value (neg : bool) (v : Z) : Z := if neg then - v else v.

(** An optional sign, then the text after it. *)
Definition split_sign (s : list Z) : bool * list Z :=
  match s with
  | c :: s' => if c =? 45 then (true, s') else if c =? 43 then (false, s') else (false, s)
  | [] => (false, s)
  end.

(** The documented prefix grammar: with requested base [b] (0: detect), the text [t]
    after the sign is read in base [B] from [body] on. *)
Definition prefix_letter (c : Z) (lower : Z) : bool := (c =? lower) || (c =? lower - 32).
Definition digitb (b c : Z) : bool :=
  match digit_value c with Some d => d <? b | None => false end.
(** [t] = '0', the given letter in either case, a digit of base [b], ... *)
Definition has_prefix (lower b : Z) (t : list Z) : bool :=
  match t with
  | z :: l :: d :: _ => (z =? 48) && prefix_letter l lower && digitb b d
  | _ => false
  end.
Definition read_base (b : Z) (t : list Z) : Z * list Z :=
  if ((b =? 16) || (b =? 0)) && has_prefix 120 16 t then (16, skipn 2 t)
  else if ((b =? 2) || (b =? 0)) && has_prefix 98 2 t then (2, skipn 2 t)
  else if ((b =? 8) || (b =? 0)) && has_prefix 111 8 t then (8, skipn 2 t)
  else if b =? 0 then
    match t with c :: _ => if c =? 48 then (8, t) else (10, t) | [] => (10, t) end
  else (b, t).
(** The letter of the prefix of a base *)
Definition prefix_of (b L : Z) : Prop :=
  b = 16 /\ L = 120 \/ b = 2 /\ L = 98 \/ b = 8 /\ L = 111.

(** Shortest decimal or other-base representations, for round trips: [ds] is a
    numeral of [v] in base [b]. *)
Definition numeral (b v : Z) (ds : list Z) : Prop :=
  ds <> [] /\ Forall (is_digit b) ds /\ value b ds = v.

(** The (type, base) combinations for which the 64-bit accumulator check of the code
    detects every out-of-range value. *)
Definition exact (signed : bool) (bits b : Z) : Prop :=
  bits <= 32 \/ In b (if signed then [2; 3; 4; 9; 10; 16; 19; 23; 29; 30] else [2; 4; 16]).

(** Printing, for the round trip: the digits of [v] in base [b], most significant
    first, without leading zeros; [upper] selects the case of the letters. *)
Definition digit_char (upper : bool) (d : Z) : Z :=
  if d <? 10 then 48 + d else if upper then 55 + d else 87 + d.
Fixpoint print_loop (fuel : nat) (upper : bool) (b v : Z) (acc : list Z) : list Z :=
  match fuel with
  | O => acc
  | S f => if v <? b then digit_char upper v :: acc
           else print_loop f upper b (v / b) (digit_char upper (v mod b) :: acc)
  end.
Definition print (upper : bool) (b v : Z) : list Z :=
  print_loop (S (Z.to_nat (Z.log2 v))) upper b v [].
(** with a '-' for negative values *)
Definition print_signed (upper : bool) (b v : Z) : list Z :=
  if v <? 0 then 45 :: print upper b (- v) else print upper b v.

(** Digit grouping by threes, as the grouping string "\3" demands: one to three
    digits, then groups of a separator and exactly three digits. *)
Fixpoint all_dec (s : list Z) : bool :=
  match s with [] => true | c :: s' => (48 <=? c) && (c <=? 57) && all_dec s' end.
Fixpoint groups_of_three (fuel : nat) (sep : Z) (s : list Z) : bool :=
  match s, fuel with
  | [], _ => true
  | x :: a :: b :: c :: s', S f => (x =? sep) && all_dec [a; b; c] && groups_of_three f sep s'
  | _, _ => false
  end.
Definition well_grouped (sep : Z) (s : list Z) : bool :=
  existsb (fun n => all_dec (firstn n s) && (Nat.eqb (length (firstn n s)) n)
                    && groups_of_three (length s) sep (skipn n s)) [1%nat; 2%nat; 3%nat].
