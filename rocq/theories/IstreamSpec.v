(** What a stream over the characters [s] does: [p] characters have been extracted. *)
From Verif Require Import Prelude IstreamModel.
Local Open Scope Z_scope.

Fixpoint answers (s : list Z) (p : nat) (ops : list sop) : list sobs * nat :=
  match ops with
  | [] => ([], p)
  | Peek :: l => let (xs, q) := answers s p l in (Got (nth_error s p) :: xs, q)
  | Get :: l =>
      let p' := match nth_error s p with Some _ => S p | None => p end in
      let (xs, q) := answers s p' l in (Got (nth_error s p) :: xs, q)
  | Unget :: l | Putback _ :: l =>
      let (xs, q) := answers s (Nat.pred p) l in (Done (0 <? p)%nat :: xs, q)
  end.

(** The operation sequences of the theorem: [unget] at most once ([used]: it has been), with
    something extracted, and not after a [peek] that found a character ([seen]). *)
Fixpoint moderate (s : list Z) (p : nat) (used seen : bool) (ops : list sop) : Prop :=
  match ops with
  | [] => True
  | Peek :: l =>
      moderate s p used (seen || match nth_error s p with Some _ => true | None => false end) l
  | Get :: l => moderate s (match nth_error s p with Some _ => S p | None => p end) used false l
  | Unget :: l => used = false /\ seen = false /\ (0 < p)%nat /\ moderate s (Nat.pred p) true false l
  | Putback _ :: _ => False
  end.
