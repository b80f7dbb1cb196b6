(** Specification of the format string grammar: descriptions of format strings, how
    they are written, and what they mean (documentation in include/scn/scan.h:8023-8412). *)
From Verif Require Import Prelude UnicodeModel UnicodeSpec SpecsModel ArgsModel.
Local Open Scope Z_scope.

(** A code point in the encoding of the format string. *)
Definition encode (e : enc) (cp : Z) : list Z :=
  match e with U8 => utf8_of cp | U16 => utf16_of cp | U32 => [cp] end.

(** Character sets: [abc], [a-z], [^...]. *)
Inductive set_item : Type := SOne (cp : Z) | SRange (a b : Z).
Definition in_item (c : Z) (i : set_item) : bool :=
  match i with SOne x => c =? x | SRange a b => (a <=? c) && (c <=? b) end.
Definition in_items (items : list set_item) (c : Z) : bool := existsb (in_item c) items.
(** Membership in the set a specifier describes. *)
Definition in_set (inv : bool) (items : list set_item) (c : Z) : bool :=
  xorb inv (in_items items c).
Definition render_item (e : enc) (i : set_item) : list Z :=
  match i with
  | SOne x => encode e x
  | SRange a b => encode e a ++ [45] ++ encode e b
  end.
Definition render_items (e : enc) (items : list set_item) : list Z :=
  flat_map (render_item e) items.
Definition render_set (e : enc) (inv : bool) (items : list set_item) : list Z :=
  [91] ++ (if inv then [94] else []) ++ render_items e items ++ [93].

(** Items that can be written down: no ']', ranges not reversed, and '-' after a single
    code point only at the very end. *)
Definition wf_item (i : set_item) : Prop :=
  match i with
  | SOne x => scalar x /\ x <> 93
  | SRange a b => scalar a /\ scalar b /\ a <> 93 /\ b <> 93 /\ a <= b
  end.
Definition first_cp (i : set_item) : Z := match i with SOne x => x | SRange a _ => a end.
Fixpoint separated (items : list set_item) : Prop :=
  match items with
  | SOne _ :: (i :: rest) as tl =>
      (first_cp i = 45 -> i = SOne 45 /\ rest = []) /\ separated tl
  | _ :: tl => separated tl
  | [] => True
  end.
Definition wf_items (items : list set_item) : Prop :=
  Forall wf_item items /\ separated items.
(** The first code point must not be '^' in a plain set; in an inverted set a ']' may
    come first. *)
Definition wf_set (inv : bool) (items : list set_item) : Prop :=
  if inv then
    (items <> [] /\ wf_items items) \/ exists tl, items = SOne 93 :: tl /\ wf_items tl
  else
    wf_items items /\ exists i tl, items = i :: tl /\ first_cp i <> 94.
(** No range runs from ASCII past U+007E. *)
Definition no_crossing (items : list set_item) : Prop :=
  Forall (fun i => match i with SOne _ => True | SRange a b => b <= 126 \/ 128 <= a end)
         items.

(** Type specifiers. *)
Inductive type_syntax : Type :=
| TyLetter (c : Z)
| TySet (inv : bool) (items : list set_item)
| TyRegex (pattern flags : list Z).
Definition letter_table : list (Z * ptype) :=
  [ (97, PFloatHex); (65, PFloatHex);                    (* a A *)
    (98, PIntBinary); (66, PIntBinary);                  (* b B *)
    (99, PCharacter);                                    (* c *)
    (100, PIntDecimal);                                  (* d *)
    (101, PFloatScientific); (69, PFloatScientific);     (* e E *)
    (102, PFloatFixed); (70, PFloatFixed);               (* f F *)
    (103, PFloatGeneral); (71, PFloatGeneral);           (* g G *)
    (105, PIntGeneric);                                  (* i *)
    (111, PIntOctal);                                    (* o *)
    (112, PPointer);                                     (* p *)
    (115, PString);                                      (* s *)
    (117, PIntUnsignedDecimal);                          (* u *)
    (120, PIntHex); (88, PIntHex) ].                     (* x X *)
Definition letter_type (c : Z) : option ptype :=
  option_map snd (find (fun p => fst p =? c) letter_table).

(** A regex pattern between slashes: non-empty, every '/' in it escaped, not ending in a
    backslash. *)
Fixpoint slashes_escaped (prev : Z) (p : list Z) : Prop :=
  match p with
  | [] => prev <> 92
  | c :: p' => (c = 47 -> prev = 92) /\ slashes_escaped c p'
  end.
Definition regex_flag_letters : list Z := [109; 115; 105; 110].     (* m s i n *)
Definition flag_value (flags : list Z) : Z :=
  (if existsb (Z.eqb 109) flags then 1 else 0)
  + (if existsb (Z.eqb 115) flags then 2 else 0)
  + (if existsb (Z.eqb 105) flags then 4 else 0)
  + (if existsb (Z.eqb 110) flags then 8 else 0).

(** Numbers in decimal. *)
Definition number (ds : list Z) : Z := fold_left (fun v c => 10 * v + (c - 48)) ds 0.
Definition numeral (ds : list Z) : Prop :=
  ds <> [] /\ Forall (fun c => 48 <= c <= 57) ds /\ number ds <= 0x7fffffff.

(** A format-spec: [[fill] align] [width] [precision] ['L'] [type]. *)
Record desc : Type := Desc {
  d_fill : option Z;
  d_align : option align_type;
  d_width : option (list Z);
  d_prec : option (list Z);
  d_local : bool;
  d_type : option type_syntax }.

Definition opt {A} (f : A -> list Z) (x : option A) : list Z :=
  match x with Some a => f a | None => [] end.
Definition align_char (a : align_type) : list Z :=
  match a with ALeft => [60] | ARight => [62] | ACenter => [94] | ANone => [] end.
Definition render_type (e : enc) (t : type_syntax) : list Z :=
  match t with
  | TyLetter c => [c]
  | TySet inv items => render_set e inv items
  | TyRegex p fl => [47] ++ p ++ [47] ++ fl
  end.
Definition render_desc (e : enc) (d : desc) : list Z :=
  opt (encode e) (d_fill d) ++ opt align_char (d_align d) ++ opt (fun w => w) (d_width d)
  ++ opt (fun p => 46 :: p) (d_prec d) ++ (if d_local d then [76] else [])
  ++ opt (render_type e) (d_type d).

(** What a format-spec means.  charset_literals: bit j of byte i says whether code point
    8i+j is a member of the listed items. *)
Definition byte_of (P : Z -> bool) (i : Z) : Z :=
  let bit j := if P (8 * i + j) then 2 ^ j else 0 in
  bit 0 + bit 1 + bit 2 + bit 3 + bit 4 + bit 5 + bit 6 + bit 7.
Definition bytes_of (P : Z -> bool) : list Z := map (byte_of P) (zseq 0 16).

Definition mean_fill (e : enc) (f : option Z) : fill_type :=
  match f with
  | None => Fill [32; 0; 0; 0] 1
  | Some cp =>
      match e with
      | U8 => Fill (utf8_of cp ++ repeat 0 (4 - length (utf8_of cp))) (length (utf8_of cp))
      | _ => Fill [cp mod 256; cp / 256 mod 256; cp / 65536 mod 256; cp / 16777216 mod 256] 1
      end
  end.
Definition optv {A B} (b : B) (f : A -> B) (x : option A) : B :=
  match x with Some a => f a | None => b end.
Definition mean (e : enc) (d : desc) : specs :=
  let sp lits nonascii inv str flags ty :=
    Specs (optv 0 number (d_width d)) (optv 0 number (d_prec d)) (mean_fill e (d_fill d))
      ty lits nonascii inv str flags 0 (optv ANone (fun a => a) (d_align d)) (d_local d) in
  match d_type d with
  | None => sp (repeat 0 16) false false [] 0 PNone
  | Some (TyLetter c) =>
      sp (repeat 0 16) false false [] 0 (optv PNone (fun t => t) (letter_type c))
  | Some (TySet inv items) =>
      sp (bytes_of (in_items items))
         (existsb (fun i => match i with SOne x => 127 <? x | SRange _ b => 126 <? b end) items)
         inv (render_set e inv items) 0 PStringSet
  | Some (TyRegex p fl) =>
      sp (repeat 0 16) false false p (flag_value fl)
         (if existsb (Z.eqb 47) p then PRegexEscaped else PRegex)
  end.

(** Which regex features the build supports. *)
Record regex_build : Type := RB { rb_on : bool; rb_std : bool; rb_multiline : bool }.

Definition localizable (t : arg_type) : bool :=
  match t with
  | SCharType | ShortType | IntType | LongType | LLongType | UCharType | UShortType
  | UIntType | ULongType | ULLongType | FloatType | DoubleType | LDoubleType | BoolType => true
  | _ => false
  end.
Definition is_align (c : Z) : bool := (c =? 60) || (c =? 62) || (c =? 94).
Definition starts_align (s : list Z) : bool :=
  match s with c :: _ => is_align c | [] => false end.

Definition wf_type (rb : regex_build) (e : enc) (t : type_syntax) : Prop :=
  match t with
  | TyLetter c => letter_type c <> None
  | TySet inv items => wf_set inv items /\ no_crossing items
  | TyRegex p fl =>
      rb_on rb = true /\ p <> [] /\ slashes_escaped 47 p /\ NoDup fl
      /\ incl fl regex_flag_letters
      /\ (rb_std rb = true -> ~ In 115 fl /\ (rb_multiline rb = false -> ~ In 109 fl))
  end.
(** Descriptions the grammar permits, followed in the format string by '}' and [rest].
    The last two conditions are not in the documentation. *)
Definition wf_desc (rb : regex_build) (e : enc) (t : arg_type) (d : desc) (rest : list Z)
  : Prop :=
  (forall f, d_fill d = Some f ->
     scalar f /\ f <> 123 /\ f <> 125 /\ f <> 91 /\ d_align d <> None)
  /\ d_align d <> Some ANone
  /\ (forall w, d_width d = Some w -> numeral w)
  /\ (forall p, d_prec d = Some p -> numeral p /\ optv 0 number (d_width d) <= number p)
  /\ (d_local d = true -> localizable t = true)
  /\ (forall ty, d_type d = Some ty -> wf_type rb e ty)
  /\ (render_desc e d = [] -> starts_align rest = false)
  /\ (forall p fl, d = Desc None None None None false (Some (TyRegex p fl)) ->
        starts_align p = false).

(** Format strings: literal code units and replacement fields.  [D] describes the
    format-spec of a field, and [txt] writes it. *)
Inductive gtoken (D : Type) : Type :=
| Lit (c : Z)
| Field (id : option (list Z)) (d : option D).
Arguments Lit {D} c.
Arguments Field {D} id d.
Section Text.
Context {D : Type}.
Variable txt : D -> list Z.
Definition field_text (id : option (list Z)) (d : option D) : list Z :=
  [123] ++ opt (fun ds => ds) id ++ opt (fun d => 58 :: txt d) d ++ [125].
Definition token_text (t : gtoken D) : list Z :=
  match t with
  | Lit c => if c =? 123 then [123; 123] else if c =? 125 then [125; 125] else [c]
  | Field id d => field_text id d
  end.
Definition tokens_text (ts : list (gtoken D)) : list Z := flat_map token_text ts.
End Text.
(** Format-specs of the grammar. *)
Notation token := (gtoken desc).
Notation render e := (tokens_text (render_desc e)).
