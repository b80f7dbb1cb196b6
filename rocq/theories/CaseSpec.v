(** Specification of letter case, independent of the model. *)
From Verif Require Import Prelude.
Local Open Scope Z_scope.

(** The ASCII capital letters made small. *)
Definition small (c : Z) : Z := if (65 <=? c) && (c <=? 90) then c + 32 else c.
Definition letter (c : Z) : Prop := 65 <= c <= 90 \/ 97 <= c <= 122.
(** Texts which differ in the case of ASCII letters only. *)
Definition same_case (s s' : list Z) : Prop := map small s = map small s'.
(** Results which differ in the case of letters not read only. *)
Definition same_result {V} (x y : outcome (V * list Z)) : Prop :=
  match x, y with
  | Ok (v, s), Ok (v', s') => v = v' /\ same_case s s'
  | Err e, Err e' => e = e'
  | UB, UB | OutOfFuel, OutOfFuel => True
  | _, _ => False
  end.
(** Format strings in whose literal text every code unit satisfies [ok]: a replacement field
    reaches from its opening brace to the first closing one, and two opening braces stand for
    a literal one.  [inside]: whether the text starts in a replacement field. *)
Fixpoint lits (ok : Z -> Prop) (inside : bool) (f : list Z) : Prop :=
  match f with
  | [] => True
  | c :: f' =>
      if inside then lits ok (negb (c =? 125)) f'
      else if c =? 123 then
        match f' with
        | [] => True
        | d :: f'' => if d =? 123 then ok d /\ lits ok false f'' else lits ok true f'
        end
      else ok c /\ lits ok false f'
  end.
(** The fills of a format string, given by its code points, are no letters: no letter stands
    between a colon and an alignment.  (The fill of a wide format string is cut to a byte.) *)
Definition plain_fills (narrow : bool) (format : list Z) : Prop :=
  forall p c a q, format = p ++ 58 :: c :: a :: q -> In a [60; 62; 94] -> ~ letter (if narrow then c else c mod 256).
