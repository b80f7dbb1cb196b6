(** What a loop that reads one value per call should give. *)
From Verif Require Import Prelude UnicodeSpec VscanSpec IntSpec.
Local Open Scope Z_scope.

(** The words of a text: what lies between white space; the last component is the white space
    at the end. *)
Inductive divided : list Z -> list (list Z) -> list Z -> Prop :=
| divided_end t : Forall (fun c => is_ws c = true) t -> divided t [] t
| divided_word t w l ws tail : Forall (fun c => is_ws c = true) t ->
    w <> [] -> Forall (fun c => is_ws c = false) w ->
    match l with c :: _ => is_ws c = true | [] => True end ->
    divided l ws tail -> divided (t ++ w ++ l) (w :: ws) tail.

(** Integers written one after the other, each with the white space before it and, if wanted,
    a '+'. *)
Definition item : Type := list Z * bool * Z.
Definition number (x : item) : Z := snd x.
Definition written (x : item) : list Z :=
  let '(ws, plus, v) := x in
  ws ++ (if (plus : bool) && (0 <=? v) then [43] else []) ++ print_signed false 10 v.
(** All but the first have white space before them *)
Definition separated (xs : list item) : Prop :=
  match xs with
  | [] => True
  | _ :: xs => Forall (fun '(ws, _, _) => ws <> []) xs
  end.
