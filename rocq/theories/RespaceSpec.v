(** Texts and format strings with other white space. *)
From Verif Require Import Prelude SpecsModel FormatSpec VscanSpec.
Local Open Scope Z_scope.

(** Every run of white space written as one space; [ws]: white space comes before. *)
Fixpoint squeeze (ws : bool) (s : list Z) : list Z :=
  match s with
  | [] => []
  | c :: s' => if is_ws c then if ws then squeeze true s' else 32 :: squeeze true s' else c :: squeeze false s'
  end.
(** The same text, with white space in the same places. *)
Definition respaced (s s' : list Z) : Prop := squeeze false s = squeeze false s'.
(** The same text, but for the white space at the beginning. *)
Definition respaced_start (s s' : list Z) : Prop := squeeze true s = squeeze true s'.
Fixpoint squeeze_tokens {D} (ws : bool) (ts : list (gtoken D)) : list (gtoken D) :=
  match ts with
  | [] => []
  | Lit c :: ts' => if is_ws c then if ws then squeeze_tokens true ts' else Lit 32 :: squeeze_tokens true ts' else Lit c :: squeeze_tokens false ts'
  | Field id d :: ts' => Field id d :: squeeze_tokens false ts'
  end.
(** A format-spec without width, precision, alignment and fill, and not for sets of characters or
    regular expressions. *)
Definition bare (d : option desc) : Prop :=
  match d with
  | None => True
  | Some d => d_align d = None /\ d_width d = None /\ d_prec d = None
      /\ match d_type d with Some (TySet _ _) | Some (TyRegex _ _) => False | _ => True end
  end.
Definition bare_fields (ts : list (gtoken desc)) : Prop := forall id d, In (Field id d) ts -> bare d.
(** Every ':' of a format string is followed by no width, precision, alignment, fill, character
    set or pattern. *)
Definition no_bounds (format : list Z) : Prop := forall p f, format = p ++ 58 :: f ->
  match f with
  | [] => True
  | c :: t => ~ (48 <= c <= 57) /\ ~ In c [46; 47; 60; 62; 91; 94; 123]
      /\ match t with d :: _ => ~ In d [60; 62; 94] /\ (c = 76 -> ~ In d [47; 91]) | [] => True end
  end.
(** Both fail, or both succeed with the same values and leave the same text but for white space. *)
Definition same_but_space {X} (x y : outcome (X * list Z)) : Prop :=
  match x, y with
  | Ok (v, rest), Ok (v', rest') => v = v' /\ respaced rest rest'
  | Err _, Err _ | UB, UB | OutOfFuel, OutOfFuel => True
  | _, _ => False
  end.
