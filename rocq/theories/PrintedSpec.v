(** Specification of text printed by std::format: the values shown in the fields of a format
    string, padded to their widths, between the literal text.  The documentation calls format
    strings "largely compatible" with those of std::format (include/scn/scan.h:8023-8030).
    On code points. *)
From Verif Require Import Prelude UnicodeModel UnicodeSpec SpecsModel FormatSpec ArgsModel IntModel VscanSpec WidthSpec
  ScalarModel ScalarSpec StringModel StringProofs FloatModel FloatSpec FloatProofs LocaleModel IntSpec IntProofs RangesModel.
Local Open Scope Z_scope.

Section Printed.
Context {F : Type}.
(** The encoding of the text. *)
Variable e : enc.

(** The type letter of a field; [None]: no letter. *)
Definition letter (d : option desc) : option Z :=
  match d with
  | Some d => match d_type d with Some (TyLetter c) => Some c | _ => None end
  | None => None
  end.
(** Format-specs both libraries have: fill, alignment, width and a letter. *)
Definition common (d : desc) : Prop :=
  d_prec d = None /\ d_local d = false
  /\ match d_type d with None | Some (TyLetter _) => True | _ => False end.

(** ** The text of a value *)
Definition int_base (c : option Z) : option Z :=
  match c with
  | None => Some 10
  | Some c => if c =? 100 then Some 10                                    (* d *)
              else if (c =? 120) || (c =? 88) then Some 16                (* x X *)
              else if c =? 111 then Some 8                                (* o *)
              else if (c =? 98) || (c =? 66) then Some 2 else None        (* b B *)
  end.
Definition float_format (c : option Z) (f : format) : Prop :=
  match f with
  | Any => c = None
  | Hex => c = Some 97 \/ c = Some 65
  | Scientific => c = Some 101 \/ c = Some 69
  | Fixed => c = Some 102 \/ c = Some 70
  | General => c = Some 103 \/ c = Some 71
  end.
Definition char_fits (k : char_kind) (u : Z) : Prop :=
  match k with KChar => e = U8 /\ u < 128 | KWchar | KCodePoint => True end.

(** [prints t c x b]: the value [x] of type [t] is printed [b] in a field with letter [c].
    A floating-point number may be printed as any text for it that starts with a digit.
    (The code rejects 'c' for char and wchar_t: include/scn/scan.h:7918-7927.) *)
Inductive prints : scalar_type F -> option Z -> svalue F -> list Z -> Prop :=
| pr_int t a c b v upper : int_base c = Some b -> type_ok t -> in_range (it_signed t) (it_bits t) v ->
    prints (TInt t a) c (SVInt v) (print_signed upper b v)
| pr_bool c v : c = None \/ c = Some 115 ->
    prints TBool c (SVBool v) (if v then word_true else word_false)
| pr_bool_digit c v : int_base (Some c) <> None ->
    prints TBool (Some c) (SVBool v) [if v then 49 else 48]
| pr_char k old a c u : c = None \/ (c = Some 99 /\ k = KCodePoint) -> scalar u -> char_fits k u ->
    prints (TChar k old a) c (SVChar u) [u]
| pr_string d a c to w : c = None \/ c = Some 115 -> dest_ok d e to -> Forall scalar w -> w <> [] ->
    prints (TString d a) c (SVString (text to w)) w
| pr_pointer c p upper : c = None \/ c = Some 112 -> 0 <= p < 2 ^ 64 ->
    prints TPointer c (SVPointer p) (48 :: 120 :: print upper 16 p)
| pr_float f a c M fm neg sg t v : converts f M -> float_format c fm -> signed neg sg -> grammar fm t ->
    starts_with_digit 10 t \/ infinite t \/ not_a_number t -> reads M fm neg t (Ok v) ->
    prints (TFloat f a) c (SVFloat v) (sg ++ t).

(** ** Ranges *)
(** Elements of ranges.  (std::format quotes strings and characters in a range.) *)
Definition element (t : scalar_type F) : Prop :=
  match t with TInt _ _ | TBool | TPointer | TFloat _ _ => True | TChar _ _ _ | TString _ _ => False end.
(** The elements with ", " between them. *)
Fixpoint listed (bs : list (list Z)) : list Z :=
  match bs with
  | [] => []
  | [b] => b
  | b :: bs' => b ++ [44; 32] ++ listed bs'
  end.
(** [shows sh v b]: the range or tuple [v] is printed [b]: "[1, 2]", "{1, 2}" for sets,
    "{1: 2, 3: 4}" for maps, "(1, true)" for tuples.  The bound [n] of a range is
    2^63 - 1 (C38_max_size_refuted). *)
Inductive shows : shape (scalar_type F) -> value (svalue F) -> list Z -> Prop :=
| sh_element t x b : element t -> prints t None x b -> shows (SLeaf t) (VLeaf x) b
| sh_vector n sh vs bs : (length vs <= n)%nat -> shows_all (map (fun _ => sh) vs) vs bs ->
    shows (vector_of n sh) (VSeq vs) ([91] ++ listed bs ++ [93])
| sh_set n sh vs bs : (length vs <= n)%nat -> shows_all (map (fun _ => sh) vs) vs bs ->
    shows (set_of n sh) (VSeq vs) ([123] ++ listed bs ++ [125])
| sh_map n k w vs bs : (length vs <= n)%nat -> shows_pairs k w vs bs ->
    shows (map_of n k w) (VSeq vs) ([123] ++ listed bs ++ [125])
| sh_tuple shs vs bs : shows_all shs vs bs -> shows (tuple_of shs) (VTup vs) ([40] ++ listed bs ++ [41])
with shows_all : list (shape (scalar_type F)) -> list (value (svalue F)) -> list (list Z) -> Prop :=
| sa_nil : shows_all [] [] []
| sa_cons sh shs v vs b bs : shows sh v b -> shows_all shs vs bs -> shows_all (sh :: shs) (v :: vs) (b :: bs)
with shows_pairs : shape (scalar_type F) -> shape (scalar_type F) -> list (value (svalue F)) -> list (list Z) -> Prop :=
| sp_nil k w : shows_pairs k w [] []
| sp_cons k w x y vs b c bs : shows k x b -> shows w y c -> shows_pairs k w vs bs ->
    shows_pairs k w (VTup [x; y] :: vs) ((b ++ [58; 32] ++ c) :: bs).
(** A type with brackets. *)
Definition bracketed (sh : shape (scalar_type F)) : Prop := match sh with SLeaf _ => False | _ => True end.

(** Specs of a letter and nothing else. *)
Definition letter_specs (sp : specs) (c : option Z) : Prop :=
  width sp = 0 /\ precision sp = 0 /\ align sp = ANone /\ localized sp = false
  /\ type sp = match c with Some c => optv PNone (fun t => t) (letter_type c) | None => PNone end.
(** The texts of an element. *)
Definition element_text (t : scalar_type F) (sp : specs) (x : svalue F) (b : list Z) : Prop :=
  element t /\ exists c, letter_specs sp c /\ prints t c x b.

(** ** Padding *)
Definition natural (t : scalar_type F) : align_type :=
  match t with TInt _ _ | TFloat _ _ | TPointer => ARight | _ => ALeft end.
(** The fill before and after the value [b]. *)
Definition padding (t : scalar_type F) (d : option desc) (b : list Z) : list Z * list Z :=
  match d with
  | None => ([], [])
  | Some d =>
      let k := Z.to_nat (said_width d - cols b) in
      let fill n := repeat (said_fill d) n in
      match (match said_align d with ANone => natural t | a => a end) with
      | ARight => (fill k, [])
      | ACenter => (fill (k / 2)%nat, fill (k - k / 2)%nat)
      | _ => ([], fill k)
      end
  end.

(** ** The whole text *)
(** The arguments: their types, their values, and how these are printed. *)
Variable items : list (target F * value (svalue F) * list Z).
Definition item (i : Z) : option (target F * value (svalue F) * list Z) := nth_error items (Z.to_nat i).
(** Types that come with a printed form: not those of the user. *)
Definition printable (t : target F) : Prop := match t with TUser _ _ => False | _ => True end.
(** Ranges are not padded. *)
Definition frame (t : target F) (d : option desc) (b : list Z) : list Z * list Z :=
  match t with TScalar t => padding t d b | _ => ([], []) end.
Definition index (id : option (list Z)) (next : Z) : Z := match id with Some ds => FormatSpec.number ds | None => next end.
(** [rest]: text behind. *)
Variable rest : list Z.
Fixpoint printed (ts : list token) (next : Z) : list Z :=
  match ts with
  | [] => rest
  | Lit c :: ts' => c :: printed ts' next
  | Field id d :: ts' =>
      match item (index id next) with
      | Some (t, _, b) => let '(pre, post) := frame t d b in pre ++ b ++ post ++ printed ts' (next + 1)
      | None => []
      end
  end.
(** The values, in the order of the fields. *)
Fixpoint values (ts : list token) (next : Z) : list (Z * value (svalue F)) :=
  match ts with
  | [] => []
  | Lit _ :: ts' => values ts' next
  | Field id _ :: ts' =>
      match item (index id next) with
      | Some (_, x, _) => (index id next, x) :: values ts' (next + 1)
      | None => []
      end
  end.

(** ** What can be told apart *)
Definition starts (p : Z -> bool) (s : list Z) : Prop := match s with c :: _ => p c = true | [] => False end.
Definition float_char (c : Z) : Prop :=
  payload_char c \/ c = 46 \/ c = 43 \/ c = 45 \/ c = 40.
(** The characters that may follow an element of a range: not those of numbers. *)
Definition delimiter (c : Z) : Prop := ~ float_char c.
(** The value [x], printed [b], ends where [s] begins: [s] does not continue it.  A word ends
    at white space; printed with 's' and aligned to the left or centered, at the fill. *)
Definition ends (t : scalar_type F) (d : option desc) (x : svalue F) (b s : list Z) : Prop :=
  match t with
  | TInt _ _ =>
      forall base, int_base (letter d) = Some base -> ~ starts_with_digit base s
      /\ (x = SVInt 0 -> forall L, prefix_of base L -> has_prefix L base (48 :: s) = false)
  | TBool | TChar _ _ _ => True
  | TPointer => ~ starts_with_digit 16 s
  | TString _ _ =>
      match letter d, option_map said_align d with
      | Some _, Some (ALeft | ACenter) =>
          let f := optv 32 said_fill d in ~ In f b /\ (s = [] \/ starts (Z.eqb f) s)
      | _, _ => Forall (fun c => is_ws c = false) b /\ (s = [] \/ starts is_ws s)
      end
  | TFloat _ _ => match s with c :: _ => ~ float_char c | [] => True end
  end.
(** What the field takes from the text behind it: fill, or white space behind a character
    narrower than its field. *)
Definition takes (t : scalar_type F) (d : option desc) (b : list Z) (c : Z) : bool :=
  match d with
  | None => false
  | Some d =>
      match said_align d, t with
      | (ALeft | ACenter), _ => said_fill d =? c
      | ANone, TChar _ _ _ => (cols b <? said_width d) && is_ws c
      | _, _ => false
      end
  end.
(** Fields: the value does not begin with the fill before it, ends where the text behind
    begins, and that text is not taken for fill: unless it is white space, as asked for by the
    format string, and there is more behind.  Without alignment, only numbers are padded;
    and characters. *)
Definition blank (s : list Z) : bool := forallb is_ws s.
Definition clear_field (t : scalar_type F) (d : option desc) (x : svalue F) (b : list Z) (ws : bool)
  (ts : list token) (s : list Z) : Prop :=
  let '(pre, post) := padding t d b in
  (forall d', d = Some d' -> common d')
  /\ ends t d x b (post ++ s)
  /\ (forall d', d = Some d' -> said_align d' = ARight \/ said_align d' = ACenter ->
        ~ starts (Z.eqb (said_fill d')) b)
  /\ (~ starts (takes t d b) s
      \/ (exists c ts', ts = Lit c :: ts' /\ is_ws c = true)
         /\ (forall c, takes t d b c = true -> is_ws c = true) /\ blank s = false)
  /\ (forall d', d = Some d' -> said_align d' = ANone ->
        match t with TBool | TString _ _ => said_width d' <= cols b | _ => True end)
  /\ (ws = true -> ~ starts is_ws (pre ++ b)).
(** [ws]: the token before was white space. *)
Fixpoint clear (ts : list token) (next : Z) (ws : bool) : Prop :=
  match ts with
  | [] => ws = true -> ~ starts is_ws rest
  | Lit c :: ts' => clear ts' next (is_ws c)
  | Field id d :: ts' =>
      match item (index id next) with
      | Some (TScalar t, VLeaf x, b) =>
          prints t (letter d) x b
          /\ clear_field t d x b ws ts' (printed ts' (next + 1))
          /\ clear ts' (next + 1) false
      | Some (TShape sh, v, b) =>
          d = None /\ bracketed sh /\ shows sh v b /\ clear ts' (next + 1) false
      | _ => False
      end
  end.
(** A format-spec that can be written for its argument (see [wf_desc]). *)
Definition writable (rb : regex_build) (i : Z) (d : desc) (fmt : list Z) : Prop :=
  forall t x b, item i = Some (t, x, b) ->
  match t with
  | TScalar t => arg_eqb (scalar_arg_type t) CustomType = false
      /\ wf_desc rb e (scalar_arg_type t) d fmt /\ (e = U8 \/ said_fill d < 256)
  | _ => False
  end.
End Printed.
