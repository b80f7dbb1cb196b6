(** Specification of searching a text code point by code point. *)
From Verif Require Import Prelude UnicodeModel.
Local Open Scope Z_scope.

(** [steps_while e p s r]: stepping code point by code point from [s], over code
    points all satisfying [p], one reaches [r]. *)
Inductive steps_while (e : enc) (p : Z -> bool) : list Z -> list Z -> Prop :=
| sw_refl s : steps_while e p s s
| sw_step s cp rest r :
    get_next_code_point e s = Ok (cp, rest) -> p cp = true ->
    steps_while e p rest r -> steps_while e p s r.

(** [r] is the first code point boundary of [s] at which a code point satisfying
    [p] starts, or the end. *)
Definition first_at (e : enc) (p : Z -> bool) (s r : list Z) : Prop :=
  steps_while e (fun cp => negb (p cp)) s r /\
  (r = [] \/ exists cp rest, get_next_code_point e r = Ok (cp, rest) /\ p cp = true).

(** The same on decoded text. *)
Fixpoint drop_until (p : Z -> bool) (cps : list Z) : list Z :=
  match cps with
  | [] => []
  | cp :: cps' => if p cp then cps else drop_until p cps'
  end.
