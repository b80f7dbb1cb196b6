(** What a format-spec must look like, from the documentation in
    include/scn/scan.h:8023-8412: used to say that nothing else is accepted. *)
From Verif Require Import Prelude UnicodeModel UnicodeSpec SpecsModel ArgsModel FormatSpec.
Local Open Scope Z_scope.

(** The units of one code point [cp]. *)
Definition one_cp (e : enc) (u : list Z) (cp : Z) : Prop :=
  match u with [] => False | c :: _ => cp_len e c = length u end
  /\ decode_cp e u = Ok cp /\ cp < 0x110000.
(** The inside of a character set: code points and ranges that are not reversed. *)
Inductive set_body (e : enc) : list Z -> Prop :=
| SBnil : set_body e []
| SBone u cp rest : one_cp e u cp -> hd 0 u <> 93 -> set_body e rest -> set_body e (u ++ rest)
| SBrange u v a b rest : one_cp e u a -> hd 0 u <> 93 -> one_cp e v b -> hd 0 v <> 93 -> a <= b -> set_body e rest ->
    set_body e (u ++ 45 :: v ++ rest).
Definition set_text (e : enc) (ty : list Z) : Prop :=
  exists inv close body, ty = 91 :: inv ++ close ++ body ++ [93] /\ set_body e body
    /\ (inv = [] /\ close = [] /\ body <> []
        \/ inv = [94] /\ (close = [] /\ body <> [] \/ close = [93])).
Definition regex_text (rb : regex_build) (ty : list Z) : Prop :=
  exists p fl, ty = 47 :: p ++ 47 :: fl /\ rb_on rb = true /\ p <> [] /\ slashes_escaped 47 p
    /\ NoDup fl /\ incl fl regex_flag_letters
    /\ (rb_std rb = true -> ~ In 115 fl /\ (rb_multiline rb = false -> ~ In 109 fl)).
(** The letters of the table, and 'r', 'R' and '?', which are in the documentation but are
    rejected for every type. *)
Definition letter_text (ty : list Z) : Prop :=
  exists c, ty = [c] /\ (letter_type c <> None \/ In c [114; 82; 63]).
Definition type_text (rb : regex_build) (e : enc) (ty : list Z) : Prop :=
  ty = [] \/ letter_text ty \/ set_text e ty \/ regex_text rb ty.
Definition fill_text (e : enc) (fl : list Z) : Prop :=
  match fl with
  | [] => False
  | c :: _ => match e with U8 => utf8_cp_len c | _ => 1%nat end = length fl /\ fl <> [123] /\ fl <> [91]
  end.
Definition align_text (al : list Z) : Prop := al = [60] \/ al = [62] \/ al = [94].

(** [s] is a format-spec for an argument of type [t], with the given parts. *)
Definition specs_text (rb : regex_build) (e : enc) (t : arg_type) (s fl al w p loc ty : list Z) : Prop :=
  s = fl ++ al ++ w ++ p ++ loc ++ ty
  /\ (fl = [] \/ fill_text e fl /\ al <> [])
  /\ (al = [] \/ align_text al)
  /\ (w = [] \/ numeral w)
  /\ (p = [] \/ exists ds, p = 46 :: ds /\ (ds = [] \/ numeral ds /\ number w <= number ds))
  /\ (loc = [] \/ loc = [76] /\ localizable t = true)
  /\ type_text rb e ty.
