(** What std::expected<T, E> is to do, [expected.object.cons] and [expected.object.assign] of
    C++23: on the contents, a value or an error. *)
From Verif Require Import Prelude ExpectedModel.

Section Spec.
Context {V E : Type} (zero : V).
Definition content := (V + E)%type.
Definition same_kind (a b : content) : Prop :=
  match a, b with inl _, inl _ | inr _, inr _ => True | _, _ => False end.
Fixpoint put (i : nat) (a : content) (l : list content) : list content :=
  match l, i with
  | [], _ => []
  | _ :: t, O => a :: t
  | x :: t, S i => x :: put i a t
  end.
(** The contents of variables before a statement, whether it threw, and the contents after.
    A statement that returns has its effect.  One that throws leaves the kind of the content;
    where the kind was to change, the content itself.  What is moved from keeps its kind. *)
Definition std_step (o : op V E) (l : list content) (threw : bool) (l' : list content) : Prop :=
  match o with
  | Default => l' = if threw then l else l ++ [inl zero]
  | FromValue v => l' = if threw then l else l ++ [inl v]
  | FromError e => l' = if threw then l else l ++ [inr e]
  | Convert c => l' = if threw then l else l ++ [c]
  | FromCopy j =>
      match nth_error l j with
      | Some c => l' = if threw then l else l ++ [c]
      | None => l' = l /\ threw = false
      end
  | FromMove j =>
      match nth_error l j with
      | Some c => exists c', same_kind c c' /\ l' = if threw then put j c' l else put j c' l ++ [c]
      | None => l' = l /\ threw = false
      end
  | AssignCopy i j =>
      match nth_error l i, nth_error l j with
      | Some a, Some c =>
          if threw then exists a', same_kind a a' /\ (~ same_kind a c -> a' = a) /\ l' = put i a' l
          else l' = put i c l
      | _, _ => l' = l /\ threw = false
      end
  | AssignMove i j =>
      match nth_error l i, nth_error l j with
      | Some a, Some c =>
          exists a' c', same_kind c c' /\ l' = put j c' (put i a' l)
          /\ (if threw then same_kind a a' /\ (~ same_kind a c -> a' = a) else a' = c)
      | _, _ => l' = l /\ threw = false
      end
  | AssignValue i v =>
      match nth_error l i with
      | Some a => if threw then exists a', same_kind a a' /\ (~ same_kind a (inl v) -> a' = a) /\ l' = put i a' l
                  else l' = put i (inl v) l
      | None => l' = l /\ threw = false
      end
  | AssignError i e =>
      match nth_error l i with
      | Some a => if threw then exists a', same_kind a a' /\ (~ same_kind a (inr e) -> a' = a) /\ l' = put i a' l
                  else l' = put i (inr e) l
      | None => l' = l /\ threw = false
      end
  | Emplace i v =>
      match nth_error l i with
      | Some a => threw = false /\ l' = put i (inl v) l
      | None => l' = l /\ threw = false
      end
  | Drop => l' = removelast l /\ threw = false
  end.
Inductive std_run : list (op V E) -> list content -> list bool -> list content -> Prop :=
| std_done l : std_run [] l [] l
| std_then o p l b l1 bs l2 : std_step o l b l1 -> std_run p l1 bs l2 -> std_run (o :: p) l (b :: bs) l2.
End Spec.
Arguments content : clear implicits.
