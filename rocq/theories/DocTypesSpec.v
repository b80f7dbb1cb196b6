(** Specification of which format strings the documentation permits: the tables of type
    specifiers (include/scn/scan.h:8198-8410), and the rules for arguments (8064-8090).
    Independent of the checks in the code. *)
From Verif Require Import Prelude UnicodeModel SpecsModel ArgsModel FormatSpec VscanSpec IntModel ScalarModel StringModel LocaleModel.
Local Open Scope Z_scope.

Inductive type_class : Type := ClInt | ClChar | ClCodePoint | ClFloat | ClBool | ClString | ClPointer | ClRegex.
Definition class_of (t : arg_type) : option type_class :=
  match t with
  | SCharType | ShortType | IntType | LongType | LLongType
  | UCharType | UShortType | UIntType | ULongType | ULLongType => Some ClInt
  | NarrowCharacterType | WideCharacterType => Some ClChar
  | CodePointType => Some ClCodePoint
  | FloatType | DoubleType | LDoubleType => Some ClFloat
  | BoolType => Some ClBool
  | NarrowStringType | NarrowStringViewType | WideStringType | WideStringViewType => Some ClString
  | PointerType => Some ClPointer
  | NarrowRegexMatchesType | WideRegexMatchesType => Some ClRegex
  | NoneType | CustomType => None
  end.

(** The letters of the tables (8242-8304, 8309-8326, 8340-8376, 8384-8407, 8204-8221).  Pointers
    have no table: 'p' of the grammar (8061-8063). *)
Definition table (k : type_class) : list Z :=
  match k with
  | ClInt => [98; 66; 111; 79; 120; 88; 100; 117; 105; 99]       (* b B o O x X d u i c *)
  | ClChar => [99; 98; 66; 100; 105; 111; 79; 117; 120; 88]      (* c b B d i o O u x X *)
  | ClCodePoint => [99]                                          (* c *)
  | ClFloat => [97; 65; 101; 69; 102; 70; 103; 71]               (* a A e E f F g G *)
  | ClBool => [115; 98; 66; 100; 105; 111; 79; 117; 120; 88]     (* s b B d i o O u x X *)
  | ClString => [115; 99]                                        (* s c *)
  | ClPointer => [112]                                           (* p *)
  | ClRegex => []
  end.
Definition listed (k : type_class) (c : Z) : bool := existsb (Z.eqb c) (table k).
(** Is the format-spec documented for the class?  'c' of strings needs a precision; matches of
    a regular expression need one. *)
Definition doc_spec (k : type_class) (d : option desc) : bool :=
  match d with
  | None => match k with ClRegex => false | _ => true end
  | Some d =>
      match d_type d with
      | None => match k with ClRegex => false | _ => true end
      | Some (TyLetter c) =>
          listed k c && match k with ClString => negb (c =? 99) || (0 <? optv 0 number (d_prec d)) | _ => true end
      | Some (TySet _ _) => match k with ClString => true | _ => false end
      | Some (TyRegex _ _) => match k with ClString | ClRegex => true | _ => false end
      end
  end.
(** Can a value of the type be read from the source (8236-8238; 8658-8683)?  Views, and matches
    of regular expressions, refer to the source. *)
Definition is_view (t : arg_type) : bool :=
  match t with NarrowStringViewType | WideStringViewType => true | _ => false end.
Definition uses_regex (d : option desc) : bool :=
  match d with Some d => match d_type d with Some (TyRegex _ _) => true | _ => false end | None => false end.
Definition source_ok (contiguous borrowed : bool) (t : arg_type) (d : option desc) : bool :=
  implb (is_view t || uses_regex d) (contiguous && borrowed).

(** Where the code differs.  Documented, but rejected: 'c' for integers and characters, 'b' of
    integers with 'L'. *)
Definition letter_of (d : option desc) : option Z :=
  match d with Some d => match d_type d with Some (TyLetter c) => Some c | _ => None end | None => None end.
Definition is_local (d : option desc) : bool := match d with Some d => d_local d | None => false end.
Definition rejected (k : type_class) (d : option desc) : bool :=
  match k, letter_of d with
  | ClInt, Some c => (c =? 99) || (is_local d && ((c =? 98) || (c =? 66)))
  | ClChar, Some c | ClCodePoint, Some c => c =? 99
  | _, _ => false
  end.
(** Not documented, but accepted: the letters of integers for code points. *)
Definition undocumented (k : type_class) (d : option desc) : bool :=
  match k, letter_of d with
  | ClCodePoint, Some c => listed ClInt c && negb (c =? 99)
  | _, _ => false
  end.

(** Every field of the format string satisfies [P] with the type of its argument. *)
Fixpoint each_field (types : list arg_type) (P : arg_type -> option desc -> bool) (ts : list token) (next : Z) : bool :=
  match ts with
  | [] => true
  | Lit _ :: ts' => each_field types P ts' next
  | Field id d :: ts' =>
      match nth_error types (Z.to_nat (match id with Some ds => number ds | None => next end)) with
      | Some t => P t d && each_field types P ts' (next + 1)
      | None => false
      end
  end.
Definition documented_field (contiguous borrowed : bool) (t : arg_type) (d : option desc) : bool :=
  match class_of t with Some k => doc_spec k d && source_ok contiguous borrowed t d | None => false end.
Definition accepted_field (contiguous borrowed : bool) (t : arg_type) (d : option desc) : bool :=
  match class_of t with
  | Some k => ((doc_spec k d && negb (rejected k d)) || undocumented k d) && source_ok contiguous borrowed t d
  | None => false
  end.
(** At run time: code points are as documented, and the source is not looked at. *)
Definition scanned_field (t : arg_type) (d : option desc) : bool :=
  match class_of t with
  | Some k => doc_spec k d && negb (match k with ClCodePoint => false | _ => rejected k d end)
  | None => false
  end.

(** The names of the types of arguments. *)
Inductive named {F : Type} : scalar_type F -> Prop :=
| Na_int t a : class_of a = Some ClInt -> named (TInt t a)
| Na_bool : named TBool
| Na_char k old a : class_of a = Some (match k with KCodePoint => ClCodePoint | _ => ClChar end) -> named (TChar k old a)
| Na_pointer : named TPointer
| Na_string d a : class_of a = Some ClString -> named (TString d a)
| Na_float f a : class_of a = Some ClFloat -> named (TFloat f a).
