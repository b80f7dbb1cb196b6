(** What a source delivered through a buffer means: its characters [D], and what a client
    of the iterators may observe.  Independent of put-back storage and of segments. *)
From Verif Require Import Prelude BufferModel.
Local Open Scope Z_scope.

(** The characters a stream still holds *)
Definition content (f : stream) : list Z := get_area f ++ concat (reads f).
Fixpoint received (l : list (option Z)) : list Z :=
  match l with
  | [] => []
  | Some c :: l' => c :: received l'
  | None :: l' => received l'
  end.
Definition gcontent (f : gstream) : list Z := received (chars f).

(** A correct answer: position [p] denotes character [p] of [D]; a segment is a piece of [D]
    starting there; the end is never reported as passed when it is not. *)
Definition right (D : list Z) (o : op) (x : obs) : Prop :=
  match o, x with
  | Deref p, Char c => nth_error D p = Some c
  | Next _, Moved => True
  | AtEnd p, End false => (p < length D)%nat
  | AtEnd _, End true => True
  | Segment p, Seg l => exists t, skipn p D = l ++ t
  | _, _ => False
  end.
(** The same, with the end reported exactly at the end. *)
Definition exact (D : list Z) (o : op) (x : obs) : Prop :=
  match o, x with
  | AtEnd p, End e => e = (length D <=? p)%nat
  | _, _ => right D o x
  end.
(** What a client may do with iterators: [m] is the farthest position reached, by
    increments from the first position. *)
Fixpoint legal (D : list Z) (m : nat) (ops : list op) : Prop :=
  match ops with
  | [] => True
  | Deref p :: l => (p <= m)%nat /\ (p < length D)%nat /\ legal D m l
  | Next p :: l => (p <= m)%nat /\ (p < length D)%nat /\ legal D (Nat.max m (S p)) l
  | AtEnd p :: l => (p <= m)%nat /\ legal D m l
  | Segment p :: l => (p <= m)%nat /\ legal D m l
  end.
