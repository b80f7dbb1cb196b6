(** Model of the readers for integers, booleans, characters, code points and pointers as
    arguments.  src/scn/impl.h:3520-3658, 5378-5825. *)
From Verif Require Import Prelude UnicodeModel WhitespaceModel ReadModel SpecsModel FormatModel
  IntModel ArgReaderModel.
Local Open Scope Z_scope.

(** src/scn/impl.h:3143-3160, reader_base::skip_ws_before_read; 3520-3658,
    reader_impl_for_int.  [sep]: see [int_read_specs]. *)
Definition int_reader (t : inttype) (sep : Z) : reader Z :=
  Reader Z (fun _ => true) check_int_type_specs (fun r sp => int_read_specs r t sp sep).
Definition int_default (t : inttype) (r : src) (s : list Z) : outcome (Z * list Z) :=
  default_read r true (int_read_default r t) s.

(** src/scn/impl.h:5416-5434, read_numeric *)
Definition bool_numeric (s : list Z) : outcome (bool * list Z) :=
  match read_matching_code_unit 48 s with
  | inl it => Ok (false, it)
  | inr _ => match read_matching_code_unit 49 s with
             | inl it => Ok (true, it)
             | inr _ => Err InvalidScannedValue
             end
  end.
(** src/scn/impl.h:5436-5452, read_textual_classic *)
Definition bool_textual_classic (s : list Z) : outcome (bool * list Z) :=
  match read_matching_string [116; 114; 117; 101] s with
  | inl it => Ok (true, it)
  | inr _ => match read_matching_string [102; 97; 108; 115; 101] s with
             | inl it => Ok (false, it)
             | inr _ => Err InvalidScannedValue
             end
  end.
(** src/scn/impl.h:5501-5527, read_textual_custom *)
Definition bool_textual_custom (truename falsename s : list Z) : outcome (bool * list Z) :=
  let true_shorter := (length truename <=? length falsename)%nat in
  let shorter := if true_shorter then truename else falsename in
  let longer := if true_shorter then falsename else truename in
  match read_matching_string shorter s with
  | inl it => Ok (true_shorter, it)
  | inr _ => match read_matching_string longer s with
             | inl it => Ok (negb true_shorter, it)
             | inr _ => Err InvalidScannedValue
             end
  end.
(** src/scn/impl.h:5388-5413, read_classic, and 5461-5498, read_localized: the numeric
    form first, then the textual one; the last error is reported. *)
Definition bool_either (text numeric : bool) (textual : list Z -> outcome (bool * list Z))
  (s : list Z) : outcome (bool * list Z) :=
  match (if numeric then bool_numeric s else Err InvalidScannedValue) with
  | Ok x => Ok x
  | UB => UB
  | OutOfFuel => OutOfFuel
  | Err e => if text then textual s else Err e
  end.
(** src/scn/impl.h:5565-5588, get_options: allow_text, allow_numeric *)
Definition bool_options (sp : specs) : bool * bool :=
  match type sp with
  | PString => (true, false)
  | PIntGeneric | PIntBinary | PIntDecimal | PIntHex | PIntOctal | PIntUnsignedDecimal =>
      (false, true)
  | _ => (true, true)
  end.
(** src/scn/impl.h:5530-5563, reader_impl_for_bool.  [names]: truename and falsename of
    the numpunct facet of the locale. *)
Definition bool_specs (names : list Z * list Z) (r : src) (sp : specs) (s : list Z)
  : outcome (bool * list Z) :=
  let '(text, numeric) := bool_options sp in
  bool_either text numeric
    (if localized sp then bool_textual_custom (fst names) (snd names)
     else bool_textual_classic) s.
Definition bool_reader (names : list Z * list Z) : reader bool :=
  Reader bool (fun _ => true) check_bool_type_specs (bool_specs names).
Definition bool_default (r : src) (s : list Z) : outcome (bool * list Z) :=
  default_read r true (bool_either true true bool_textual_classic) s.

(** src/scn/impl.h:5595-5605, code_unit_reader *)
Definition code_unit_read (s : list Z) : outcome (Z * list Z) :=
  match read_code_unit s, s with
  | inl it, c :: _ => Ok (c, it)
  | inr PEof, _ => Err EndOfInput
  | inr PError, _ => Err InvalidScannedValue
  | inl _, [] => UB
  end.
(** src/scn/impl.h:5610-5628, code_point_reader<char32_t> *)
Definition code_point_read (e : enc) (s : list Z) : outcome (Z * list Z) :=
  '(rest, cps) <- read_code_point_into e s ;;
  match cps with
  | [] => Err InvalidScannedValue
  | _ => cp <- decode_cp_valid e cps ;; Ok (cp, rest)
  end.
(** src/scn/impl.h:5630-5648, code_point_reader<wchar_t>, and 1325-1349,
    encode_code_point_as_wide_character, for a wchar_t of 32 bits *)
Definition wide_character_read (e : enc) (s : list Z) : outcome (Z * list Z) :=
  '(cp, rest) <- code_point_read e s ;;
  if negb (cp <? invalid_code_point) then UB else Ok (cp, rest).

(** src/scn/impl.h:5677-5771: reader_impl_for_char, reader_impl_for_wchar,
    reader_impl_for_code_point.  A char cannot be read from a wide source ([UB]: its
    SCN_EXPECT(false)).  [old]: the value of the variable read into; the integer forms
    do not change it. *)
Inductive char_kind : Type := KChar | KWchar | KCodePoint.
Definition char_default_read (k : char_kind) (r : src) (s : list Z) : outcome (Z * list Z) :=
  match k, s_enc r with
  | KChar, U8 => code_unit_read s
  | KChar, _ => UB
  | KWchar, U8 => wide_character_read U8 s
  | KWchar, _ => code_unit_read s
  | KCodePoint, e => code_point_read e s
  end.
Definition char_specs (k : char_kind) (old sep : Z) (r : src) (sp : specs) (s : list Z)
  : outcome (Z * list Z) :=
  match k with
  | KCodePoint => char_default_read k r s
  | _ =>
      match type sp with
      | PNone | PCharacter => char_default_read k r s
      | _ => '(_, it) <- int_read_specs r (match k with KChar => i8 | _ => i32 end) sp sep s ;;
             Ok (old, it)
      end
  end.
(** 5650-5675, char_reader_base *)
Definition char_check (k : char_kind) (sp : specs) : bool :=
  match k with
  | KCodePoint => check_code_point_type_specs sp
  | _ => check_char_type_specs sp
  end.
Definition char_reader (k : char_kind) (old sep : Z) : reader Z :=
  Reader Z (fun _ => false) (char_check k) (char_specs k old sep).
Definition char_default (k : char_kind) (r : src) (s : list Z) : outcome (Z * list Z) :=
  default_read r false (char_default_read k r) s.

(** src/scn/impl.h:5777-5825, reader_impl_for_voidptr *)
Definition hex_specs : specs :=
  Specs 0 0 fill_default PIntHex (repeat 0 16) false false [] 0 0 ANone false.
Definition pointer_read (sep : Z) (r : src) (s : list Z) : outcome (Z * list Z) :=
  int_read_specs r u64 hex_specs sep s.
Definition pointer_reader (sep : Z) : reader Z :=
  Reader Z (fun _ => true) check_pointer_type_specs (fun r _ => pointer_read sep r).
Definition pointer_default (sep : Z) (r : src) (s : list Z) : outcome (Z * list Z) :=
  default_read r true (pointer_read sep r) s.
