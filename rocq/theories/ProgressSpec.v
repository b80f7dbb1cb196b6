(** A program that scans again and again from where the last call has stopped. *)
From Verif Require Import Prelude ArgsModel SpecsModel FormatModel ReadModel VscanModel IntModel IntProofs ScalarModel StringModel FloatModel FloatProofs RangesModel LocaleModel.
Local Open Scope list_scope.
Local Open Scope Z_scope.

(** The types whose values are never empty: all but strings; and booleans unless the locale has an
    empty name for one of the two. *)
Definition never_empty {F} (l : locale) (t : scalar_type F) : Prop :=
  match t with
  | TInt t _ => type_ok t
  | TFloat f _ => exists M, converts f M
  | TBool => l_true l <> [] /\ l_false l <> []
  | TChar _ _ _ | TPointer => True
  | TString _ _ => False
  end.

(** Ranges and tuples of any depth.  The code units that a value shows: the brackets, the separators between
    its elements, and one for each scalar in it. *)
Definition around (p : punct) (parts : list nat) : nat :=
  length (p_open p) + list_sum parts + length (p_sep p) * (length parts - 1) + length (p_close p).
Definition pairwise {A B} (f : A -> B -> nat) : list A -> list B -> list nat :=
  fix go xs ys := match xs, ys with x :: xs', y :: ys' => f x y :: go xs' ys' | _, _ => [] end.
Fixpoint least {L X} (sh : shape L) (v : value X) {struct sh} : nat :=
  match sh, v with
  | SLeaf _, _ => 1
  | SSeq _ p e, VSeq vs => around p (map (least e) vs)
  | STup p es, VTup vs => around p (pairwise least es vs)
  | _, _ => 0
  end.
Definition all_shapes {L} (P : shape L -> Prop) : list (shape L) -> Prop :=
  fix go es := match es with [] => True | e :: es' => P e /\ go es' end.
Fixpoint scalars {L} (ok : L -> Prop) (sh : shape L) : Prop :=
  match sh with SLeaf t => ok t | SSeq _ _ e => scalars ok e | STup _ es => all_shapes (scalars ok) es end.
Definition holds_scalars {F} (global : locale) (l : locale_ref) (t : target F) : Prop :=
  match t with
  | TScalar t => never_empty (get_locale global l) t
  | TShape sh => scalars (never_empty (get_locale global None)) sh
  | TUser _ _ => False
  end.
(** Of a value of the argument [id]. *)
Definition at_least {F X} (ts : list (target F)) (id : Z) (v : value X) : nat :=
  match nth_error ts (Z.to_nat id) with
  | Some (TScalar _) => 1
  | Some (TShape sh) => least sh v
  | _ => 0
  end.
(** Ranges and tuples shown in brackets, if only in one. *)
Definition bracketed {F} (t : target F) : Prop :=
  match t with
  | TShape (SSeq _ p _) | TShape (STup p _) => p_open p ++ p_close p <> []
  | _ => True
  end.

(** Successful calls, each with any types, any format string and any locale; all the values they have
    stored, and what is left. *)
Inductive calls {F} (rx : regex_engine) (cf : config) (global : locale) (r : src) : list Z -> list (value (svalue F)) -> list Z -> Prop :=
| no_call s : calls rx cf global r s [] s
| one_call l ts format s log s' vs rest : Forall (holds_scalars global l) ts -> Forall bracketed ts ->
    scan_with rx cf global l r ts format s = Ok (log, s') -> calls rx cf global r s' vs rest ->
    calls rx cf global r s (map snd log ++ vs) rest.
