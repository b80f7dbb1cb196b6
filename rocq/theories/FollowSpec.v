(** What can follow a scanned value, on code points. *)
From Verif Require Import Prelude UnicodeModel UnicodeSpec VscanSpec.
Local Open Scope Z_scope.

(** What may stand instead of the text [b] after a value: nothing; or the same up to some
    white space, and any text from there on; or the same up to some place, and nothing from
    there on. *)
Inductive swap : list Z -> list Z -> Prop :=
| swap_end b : swap b []
| swap_space w b b' : is_ws w = true -> Forall scalar b' -> swap (w :: b) (w :: b')
| swap_same c b b' : swap b b' -> swap (c :: b) (c :: b').

(** A reader whose value does not depend on what follows, up to [R]. *)
Definition settles_by {V} (R : list Z -> list Z -> Prop) (read : list Z -> outcome (V * list Z)) (s : list Z) : Prop :=
  forall v b, read s = Ok (v, b) ->
    exists a, s = a ++ b /\ forall b', R b b' -> read (a ++ b') = Ok (v, b').
Notation settles := (settles_by swap).
