(** Specification of scanning booleans and code points (documentation in
    include/scn/scan.h:8262-8412), on code points. *)
From Verif Require Import Prelude UnicodeModel FormatSpec SpecsModel WidthSpec.
Local Open Scope Z_scope.

(** What follows [w] in a text. *)
Fixpoint strip (w cps : list Z) : option (list Z) :=
  match w, cps with
  | [], _ => Some cps
  | c :: w', d :: cps' => if c =? d then strip w' cps' else None
  | _ :: _, [] => None
  end.

(** The spellings of the two truth values: "0", "1", and two words. *)
Definition spellings (text numeric : bool) (yes no : list Z) : list (bool * list Z) :=
  (if numeric then [(false, [48]); (true, [49])] else [])
  ++ (if text then [(true, yes); (false, no)] else []).
Definition word_true : list Z := [116; 114; 117; 101].
Definition word_false : list Z := [102; 97; 108; 115; 101].
(** The first of some spellings with which a text begins, and what follows. *)
Fixpoint spelled (l : list (bool * list Z)) (cps : list Z) : outcome (bool * list Z) :=
  match l with
  | [] => Err InvalidScannedValue
  | (b, w) :: l' => match strip w cps with Some rest => Ok (b, rest) | None => spelled l' cps end
  end.
(** No spelling begins with another one. *)
Definition distinct (l : list (bool * list Z)) : Prop :=
  forall x y rest, In x l -> In y l -> strip (snd x) (snd y ++ rest) <> None -> x = y.

(** Which forms a format-spec allows: the words, the digits. *)
Definition bool_forms (d : desc) : bool * bool :=
  match d_type d with
  | None => (true, true)
  | Some (TyLetter 115) => (true, false)
  | _ => (false, true)
  end.
Definition bool_type (d : desc) : Prop :=
  match d_type d with
  | None => True
  | Some (TyLetter c) => In c [115; 98; 66; 100; 105; 111; 117; 120; 88]
  | _ => False
  end.

(** The first code point of a text. *)
Definition first_code_point (cps : list Z) : outcome (Z * list Z) :=
  match cps with [] => UB | c :: l => Ok (c, l) end.
Definition code_point_type (d : desc) : Prop :=
  match d_type d with None => True | Some (TyLetter c) => c = 99 | _ => False end.

(** The same format-spec for a hexadecimal number. *)
Definition as_hex (d : desc) : desc :=
  Desc (d_fill d) (d_align d) (d_width d) (d_prec d) false (Some (TyLetter 120)).
Definition pointer_type (d : desc) : Prop :=
  match d_type d with None => True | Some (TyLetter c) => c = 112 | _ => False end.
