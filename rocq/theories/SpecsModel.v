(** Model of format_specs.  include/scn/scan.h:6822-7003. *)
From Verif Require Import Prelude BitsModel.
Local Open Scope Z_scope.

(** include/scn/scan.h:6822-6827 *)
Inductive align_type : Type := ANone | ALeft | ARight | ACenter.

(** include/scn/scan.h:6829-6849; the order of the constructors is that of the
    enumeration, [ptype_rank] its underlying value. *)
Inductive ptype : Type :=
| PNone | PIntBinary | PIntDecimal | PIntGeneric | PIntUnsignedDecimal | PIntOctal
| PIntHex | PIntArbitraryBase | PFloatHex | PFloatScientific | PFloatFixed
| PFloatGeneral | PString | PStringSet | PRegex | PRegexEscaped | PCharacter
| PEscapedCharacter | PPointer.
Definition ptype_rank (t : ptype) : Z :=
  match t with
  | PNone => 0 | PIntBinary => 1 | PIntDecimal => 2 | PIntGeneric => 3
  | PIntUnsignedDecimal => 4 | PIntOctal => 5 | PIntHex => 6
  | PIntArbitraryBase => 7 | PFloatHex => 8 | PFloatScientific => 9
  | PFloatFixed => 10 | PFloatGeneral => 11 | PString => 12 | PStringSet => 13
  | PRegex => 14 | PRegexEscaped => 15 | PCharacter => 16
  | PEscapedCharacter => 17 | PPointer => 18
  end.
Definition ptype_eqb (a b : ptype) : bool := ptype_rank a =? ptype_rank b.

(** include/scn/scan.h:6885-6949, fill_type: [f_data] are the four bytes m_data,
    [f_size] is m_size. *)
Record fill_type : Type := Fill { f_data : list Z; f_size : nat }.
Definition fill_default : fill_type := Fill [32; 0; 0; 0] 1.

(** include/scn/scan.h:6952-6963.  charset_literals as its sixteen bytes: bit j of
    byte i stands for code point 8i+j; charset_string by value; the regex fields are in
    [regexp_flags] (bit mask) and [charset_string]. *)
Record specs : Type := Specs {
  width : Z;
  precision : Z;
  fill : fill_type;
  type : ptype;
  charset_literals : list Z;
  charset_has_nonascii : bool;
  charset_is_inverted : bool;
  charset_string : list Z;
  regexp_flags : Z;
  arbitrary_base : Z;
  align : align_type;
  localized : bool
}.
Definition specs_default : specs :=
  Specs 0 0 fill_default PNone (repeat 0 16) false false [] 0 0 ANone false.

(** include/scn/scan.h:6967-6996, get_base *)
Definition get_base (sp : specs) : outcome Z :=
  match type sp with
  | PNone => Ok 10
  | PIntGeneric => Ok 0
  | PIntArbitraryBase => Ok (arbitrary_base sp)
  | PIntBinary => Ok 2
  | PIntOctal => Ok 8
  | PIntDecimal | PIntUnsignedDecimal => Ok 10
  | PIntHex => Ok 16
  | _ => UB
  end.
