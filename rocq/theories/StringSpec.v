(** Specification of string scanning (documentation in include/scn/scan.h:8197-8245), on
    code points. *)
From Verif Require Import Prelude UnicodeModel FormatSpec SpecsModel VscanSpec WidthSpec.
Local Open Scope Z_scope.

(** What is taken from a text, after leading white space and fill have been dealt with:
    everything up to white space, everything up to a given code point, everything there
    is, or members of a set. *)
Inductive portion : Type := Word | Until (f : Z) | Everything | Members (p : Z -> bool).
Definition taken (h : portion) (cps : list Z) : list Z :=
  match h with
  | Word => lead (fun c => negb (is_ws c)) cps
  | Until f => lead (fun c => negb (c =? f)) cps
  | Everything => cps
  | Members p => lead p cps
  end.
Definition take (h : portion) (cps : list Z) : outcome (list Z * list Z) :=
  match h, taken h cps with
  | Members _, [] => Err InvalidScannedValue
  | _, v => Ok (v, after v cps)
  end.

(** Which portion a format-spec asks for. *)
Definition portion_of (d : desc) : portion :=
  match d_type d with
  | Some (TyLetter 99) => Everything
  | Some (TyLetter 115) =>
      match said_align d with
      | ALeft | ACenter => Until (said_fill d)
      | _ => Word
      end
  | Some (TySet inv items) => Members (in_set inv items)
  | _ => Word
  end.
Definition skips_white_space (h : portion) : bool :=
  match h with Word => true | _ => false end.
(** The type specifiers for strings other than regular expressions. *)
Definition string_type (d : desc) : Prop :=
  match d_type d with
  | None => True
  | Some (TyLetter c) => c = 115 \/ (c = 99 /\ said_precision d <> None)
  | Some (TySet inv items) => wf_set inv items
  | Some (TyRegex _ _) => False
  end.

(** A pattern, written between slashes. *)
Definition escape_slashes (q : list Z) : list Z :=
  flat_map (fun c => if c =? 47 then [92; 47] else [c]) q.
