(** Specification of numbered fields: the numbers written, and the same format string without
    them. *)
From Verif Require Import Prelude FormatSpec VscanSpec.
Local Open Scope Z_scope.

Definition unnumbered {D} (t : gtoken D) : gtoken D := match t with Lit c => Lit c | Field _ d => Field None d end.
(** The numbers, in the order of the fields. *)
Definition order {D} (ts : list (gtoken D)) : list Z :=
  flat_map (fun t => match t with Field (Some ds) _ => [number ds] | _ => [] end) ts.
Definition all_numbered {D} (ts : list (gtoken D)) : Prop := forall id d, In (Field id d) ts -> id <> None.
(** The arguments in the order in which the fields refer to them. *)
Definition reordered {A} (o : list Z) (default : A) (l : list A) : list A := map (fun i => nth (Z.to_nat i) l default) o.
(** What has been stored where, in terms of the numbers. *)
Definition relabelled {A} (o : list Z) (log : list (Z * A)) : list (Z * A) := map (fun '(i, v) => (nth (Z.to_nat i) o 0, v)) log.
