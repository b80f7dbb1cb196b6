(** Specification of format-specs that mean the same by the documentation: the rows of its tables of
    type specifiers (include/scn/scan.h:8198-8410), and the defaults of its grammar (8096-8182). *)
From Verif Require Import Prelude SpecsModel ArgsModel FormatSpec DocTypesSpec.
Local Open Scope Z_scope.

(** Letters with one meaning; [None]: no letter.  "Same as d", "none, s", "none, c", "b, B" ... *)
Definition rows (k : type_class) : list (list (option Z)) :=
  match k with
  | ClInt => [[None; Some 100]; [Some 98; Some 66]; [Some 111; Some 79]; [Some 120; Some 88]]
  | ClChar => [[None; Some 99]; [Some 98; Some 66]; [Some 111; Some 79]; [Some 120; Some 88]]
  | ClCodePoint => [[None; Some 99]]
  | ClFloat => [[Some 97; Some 65]; [Some 101; Some 69]; [Some 102; Some 70]; [Some 103; Some 71]]
  | ClBool => [map Some [98; 66; 100; 105; 111; 79; 117; 120; 88]]
  | ClString => [[None; Some 115]]
  | ClPointer => [[None; Some 112]]
  | ClRegex => []
  end.
Definition same_row (k : type_class) (a b : option Z) : Prop := exists row, In row (rows k) /\ In a row /\ In b row.
(** The type of a field: a letter, or none. *)
Definition simple_type (ty : option type_syntax) : option (option Z) :=
  match ty with None => Some None | Some (TyLetter c) => Some (Some c) | Some _ => None end.
Definition same_type (k : type_class) (a b : option type_syntax) : Prop :=
  a = b \/ exists x y, simple_type a = Some x /\ simple_type b = Some y /\ same_row k x y.
(** No format-spec is an empty one. *)
Definition spelled_out (d : option desc) : desc := match d with Some d => d | None => Desc None None None None false None end.
(** The same alignment; the same fill, which is a space if not given; the same width and precision,
    which are zero if not given; types with the same meaning. *)
Definition same_meaning (k : type_class) (a b : option desc) : Prop :=
  let d := spelled_out a in let d' := spelled_out b in
  d_align d = d_align d' /\ optv 32 (fun c => c) (d_fill d) = optv 32 (fun c => c) (d_fill d')
  /\ optv 0 number (d_width d) = optv 0 number (d_width d') /\ optv 0 number (d_prec d) = optv 0 number (d_prec d')
  /\ d_local d = d_local d' /\ same_type k (d_type d) (d_type d').
(** Where the code differs: 'c' for characters, and 's' with an alignment to the left or centre. *)
Definition differs (k : type_class) (a b : option desc) : bool :=
  match k with
  | ClChar => match letter_of a, letter_of b with Some c, None | None, Some c => c =? 99 | _, _ => false end
  | ClString => match letter_of a, letter_of b with
                | Some _, None | None, Some _ => match d_align (spelled_out a) with Some ALeft | Some ACenter => true | _ => false end
                | _, _ => false end
  | _ => false
  end.
(** Format strings that differ only in the wording of format-specs. *)
Fixpoint reworded (types : list arg_type) (ts us : list token) (next : Z) : Prop :=
  match ts, us with
  | [], [] => True
  | Lit c :: ts', Lit d :: us' => c = d /\ reworded types ts' us' next
  | Field id a :: ts', Field id' b :: us' =>
      id = id'
      /\ (forall t k, nth_error types (Z.to_nat (match id with Some ds => number ds | None => next end)) = Some t -> class_of t = Some k ->
            same_meaning k a b /\ differs k a b = false)
      /\ reworded types ts' us' (next + 1)
  | _, _ => False
  end.
