(** Specification of display columns and of fields limited and padded by them
    (documentation in include/scn/scan.h:8107-8170), on code points. *)
From Verif Require Import Prelude UnicodeModel UnicodeSpec FormatSpec SpecsModel VscanSpec.
Local Open Scope Z_scope.

(** Code points two columns wide. *)
Definition wide_ranges : list (Z * Z) :=
  [(0x1100, 0x115f); (0x2329, 0x232a); (0x2e80, 0x303e); (0x3040, 0xa4cf);
   (0xac00, 0xd7a3); (0xf900, 0xfaff); (0xfe10, 0xfe19); (0xfe30, 0xfe6f);
   (0xff00, 0xff60); (0xffe0, 0xffe6); (0x1f300, 0x1f64f); (0x1f900, 0x1f9ff);
   (0x20000, 0x2fffd); (0x30000, 0x3fffd)].
Definition col (cp : Z) : Z :=
  if existsb (fun '(a, b) => (a <=? cp) && (cp <=? b)) wide_ranges then 2 else 1.
Fixpoint cols (cps : list Z) : Z :=
  match cps with [] => 0 | cp :: cps' => col cp + cols cps' end.

(** The longest prefix that fits into [n] columns. *)
Fixpoint take_cols (n : Z) (cps : list Z) : list Z :=
  match cps with
  | [] => []
  | cp :: cps' => if col cp <=? n then cp :: take_cols (n - col cp) cps' else []
  end.

(** The encoded text. *)
Definition text (e : enc) (cps : list Z) : list Z := flat_map (encode e) cps.

(** Longest prefix satisfying [p], and what follows a prefix. *)
Fixpoint lead (p : Z -> bool) (cps : list Z) : list Z :=
  match cps with
  | cp :: cps' => if p cp then cp :: lead p cps' else []
  | [] => []
  end.
Definition after (a cps : list Z) : list Z := skipn (length a) cps.

(** Text limited to [n] columns; [None]: no limit. *)
Definition limit (n : option Z) (cps : list Z) : list Z :=
  match n with None => cps | Some n => take_cols n cps end.
Definition less (n : option Z) (k : Z) : option Z := option_map (fun n => n - k) n.

(** A field of minimal width [w] and maximal width [p], aligned in a given way with fill
    character [f], read by a reader for values that skips white space itself ([skip])
    or not. *)
Section Field.
Context {V : Type}.
Variables (al : align_type) (f w : Z) (p : option Z) (skip : bool).
(** Given a text, the reader gives a value and what it leaves of the text. *)
Variable read : list Z -> outcome (V * list Z).

Definition before_value (cps : list Z) : outcome (list Z) :=
  match al with
  | ARight | ACenter => Ok (lead (Z.eqb f) (limit p cps))
  | ANone =>
      if skip then
        let ws := lead is_ws (limit p cps) in
        if (length ws =? length (limit p cps))%nat then Err EndOfInput else Ok ws
      else Ok []
  | ALeft => Ok []
  end.
Definition after_value (used : Z) (cps : list Z) : list Z :=
  match al with
  | ALeft | ACenter => lead (Z.eqb f) (limit (less p used) cps)
  | ANone =>
      if negb skip && ((used <? w) || match p with Some n => used <? n | None => false end)
      then lead is_ws (limit (less p used) cps) else []
  | ARight => []
  end.
Definition field (cps : list Z) : outcome (V * list Z) :=
  pre <- before_value cps ;;
  if match p with Some n => n <=? cols pre | None => false end then Err InvalidFill
  else
    let rest := after pre cps in
    let lim := limit (less p (cols pre)) rest in
    '(x, rem) <- read lim ;;
    let value := firstn (length lim - length rem) lim in
    let rest := after value rest in
    let post := after_value (cols pre + cols value) rest in
    if cols pre + cols value + cols post <? w then Err LengthTooShort
    else Ok (x, after post rest).
End Field.

(** A reader of encoded text as a reader of code points: [cut e n cps] is what is left of
    [cps] when [n] units of its encoding are left. *)
Fixpoint cut (e : enc) (n : nat) (cps : list Z) : list Z :=
  if (length (text e cps) <=? n)%nat then cps
  else match cps with [] => [] | _ :: cps' => cut e n cps' end.
Definition on_text {V} (e : enc) (read : list Z -> outcome (V * list Z)) (cps : list Z)
  : outcome (V * list Z) :=
  '(x, rest) <- read (text e cps) ;; Ok (x, cut e (length rest) cps).
(** The reader never stops inside a code point. *)
Definition whole_code_points {V} (e : enc) (read : list Z -> outcome (V * list Z)) : Prop :=
  forall cps x rest, Forall scalar cps -> read (text e cps) = Ok (x, rest) ->
    exists a l, cps = a ++ l /\ rest = text e l.

(** What a format-spec says about the field. *)
Definition said_align (d : desc) : align_type := optv ANone (fun a => a) (d_align d).
Definition said_fill (d : desc) : Z := optv 32 (fun f => f) (d_fill d).
Definition said_width (d : desc) : Z := optv 0 number (d_width d).
Definition said_precision (d : desc) : option Z :=
  match d_prec d with
  | Some ds => if number ds =? 0 then None else Some (number ds)
  | None => None
  end.
