(** Model of argument type erasure.  include/scn/scan.h:5441-5470, 5749-5778,
    6044-6078, 6133-6247. *)
From Verif Require Import Prelude BitsModel.
Local Open Scope Z_scope.

(** include/scn/scan.h:5441-5469, arg_type; [arg_rank] is the underlying value. *)
Inductive arg_type : Type :=
| NoneType | SCharType | ShortType | IntType | LongType | LLongType
| UCharType | UShortType | UIntType | ULongType | ULLongType
| BoolType | NarrowCharacterType | WideCharacterType | CodePointType
| PointerType | FloatType | DoubleType | LDoubleType
| NarrowStringViewType | WideStringViewType | NarrowStringType | WideStringType
| NarrowRegexMatchesType | WideRegexMatchesType | CustomType.
Definition arg_rank (t : arg_type) : Z :=
  match t with
  | NoneType => 0 | SCharType => 1 | ShortType => 2 | IntType => 3 | LongType => 4
  | LLongType => 5 | UCharType => 6 | UShortType => 7 | UIntType => 8
  | ULongType => 9 | ULLongType => 10 | BoolType => 11 | NarrowCharacterType => 12
  | WideCharacterType => 13 | CodePointType => 14 | PointerType => 15
  | FloatType => 16 | DoubleType => 17 | LDoubleType => 18
  | NarrowStringViewType => 19 | WideStringViewType => 20
  | NarrowStringType => 21 | WideStringType => 22
  | NarrowRegexMatchesType => 23 | WideRegexMatchesType => 24 | CustomType => 25
  end.
(** static_cast<arg_type>; values without an enumerator do not occur. *)
Definition arg_of_rank (z : Z) : outcome arg_type :=
  match z with
  | 0 => Ok NoneType | 1 => Ok SCharType | 2 => Ok ShortType | 3 => Ok IntType
  | 4 => Ok LongType | 5 => Ok LLongType | 6 => Ok UCharType | 7 => Ok UShortType
  | 8 => Ok UIntType | 9 => Ok ULongType | 10 => Ok ULLongType | 11 => Ok BoolType
  | 12 => Ok NarrowCharacterType | 13 => Ok WideCharacterType | 14 => Ok CodePointType
  | 15 => Ok PointerType | 16 => Ok FloatType | 17 => Ok DoubleType
  | 18 => Ok LDoubleType | 19 => Ok NarrowStringViewType | 20 => Ok WideStringViewType
  | 21 => Ok NarrowStringType | 22 => Ok WideStringType
  | 23 => Ok NarrowRegexMatchesType | 24 => Ok WideRegexMatchesType
  | 25 => Ok CustomType
  | _ => UB
  end.
Definition arg_eqb (a b : arg_type) : bool := arg_rank a =? arg_rank b.

(** include/scn/scan.h:5749-5754 *)
Definition packed_arg_bits : Z := 5.
Definition bits_in_sz : Z := 64.
Definition max_packed_args : Z := (bits_in_sz - 2) / packed_arg_bits - 1.
Definition is_unpacked_bit : Z := Z.shiftl 1 (bits_in_sz - 1).
Definition has_custom_types_bit : Z := Z.shiftl 1 (bits_in_sz - 2).

(** include/scn/scan.h:5756-5766, encode_types_impl (size_t arithmetic) *)
Fixpoint encode_types_impl (ts : list arg_type) : Z :=
  match ts with
  | [] => 0
  | t :: ts' => Z.lor (arg_rank t) (wrap64 (Z.shiftl (encode_types_impl ts') packed_arg_bits))
  end.

(** include/scn/scan.h:5768-5779, encode_types *)
Definition encode_types (ts : list arg_type) : outcome Z :=
  if Z.of_nat (length ts) <? Z.shiftl 1 packed_arg_bits
  then Ok (Z.lor (Z.of_nat (length ts))
                 (wrap64 (Z.shiftl (encode_types_impl ts) packed_arg_bits)))
  else UB.

(** include/scn/scan.h:6032-6042, all_types_builtin *)
Fixpoint all_types_builtin (ts : list arg_type) : bool :=
  match ts with
  | [] => true
  | t :: ts' => negb (arg_eqb t CustomType) && all_types_builtin ts'
  end.

(** include/scn/scan.h:6044-6057, determine_arg_store_kind.  [apple]: Apple Clang. *)
Inductive store_kind : Type := KBuiltin | KPacked | KUnpacked.
Definition determine_arg_store_kind (apple : bool) (ts : list arg_type) : store_kind :=
  if max_packed_args <? Z.of_nat (length ts) then KUnpacked
  else if negb apple && all_types_builtin ts then KBuiltin
  else KPacked.

(** include/scn/scan.h:6059-6071, compute_arg_store_desc *)
Definition compute_arg_store_desc (k : store_kind) (ts : list arg_type) : outcome Z :=
  match k with
  | KBuiltin => encode_types ts
  | KPacked => d <- encode_types ts ;; Ok (Z.lor d has_custom_types_bit)
  | KUnpacked => Ok (Z.lor (Z.of_nat (length ts)) is_unpacked_bit)
  end.

(** basic_scan_args over the store of [ts]: the descriptor, and the three members of
    the union as the kind of array the store holds.  An element of the arrays is
    represented by its index ([slot]); the unpacked array also holds the type. *)
Record scan_args : Type := Args
  { m_desc : Z; a_kind : store_kind; a_types : list arg_type }.

(** include/scn/scan.h:6073-6105 and 6133-6147 *)
Definition make_args (apple : bool) (ts : list arg_type) : outcome scan_args :=
  let k := determine_arg_store_kind apple ts in
  d <- compute_arg_store_desc k ts ;; Ok (Args d k ts).

(** include/scn/scan.h:6215-6222 *)
Definition is_packed (a : scan_args) : bool := Z.land (m_desc a) is_unpacked_bit =? 0.
Definition is_only_builtin (a : scan_args) : bool :=
  Z.land (m_desc a) has_custom_types_bit =? 0.

(** include/scn/scan.h:6224-6230, type *)
Definition args_type (a : scan_args) (index : Z) : outcome arg_type :=
  let shift := (index + 1) * packed_arg_bits in
  arg_of_rank (Z.land (Z.shiftr (m_desc a) shift) (Z.shiftl 1 packed_arg_bits - 1)).

(** include/scn/scan.h:6232-6237, max_size *)
Definition args_max_size (a : scan_args) : Z :=
  if is_packed a then max_packed_args
  else Z.land (Z.land (m_desc a) (not64 is_unpacked_bit)) (not64 has_custom_types_bit).

(** Reading element [id] of the array selected by the union member [want]; reading
    through another member than the stored one, or out of bounds, is [UB]. *)
Definition array_get (a : scan_args) (want : store_kind) (id : Z) : outcome (arg_type * Z) :=
  match want, a_kind a with
  | KBuiltin, KBuiltin | KPacked, KPacked | KUnpacked, KUnpacked =>
      match nth_error (a_types a) (Z.to_nat id) with
      | Some t => Ok (t, id)
      | None => UB
      end
  | _, _ => UB
  end.

(** include/scn/scan.h:6150-6178, get.  [None]: empty argument; otherwise type and
    slot. *)
Definition args_get (a : scan_args) (id : Z) : outcome (option (arg_type * Z)) :=
  if negb (is_packed a) then
    if id <? args_max_size a
    then '(t, s) <- array_get a KUnpacked id ;; Ok (Some (t, s))
    else Ok None
  else if max_packed_args <=? id then Ok None
  else
    t <- args_type a id ;;
    match t with
    | NoneType => Ok None
    | _ =>
        '(_, s) <- (if is_only_builtin a then array_get a KBuiltin id
                    else array_get a KPacked id) ;;
        Ok (Some (t, s))
    end.

(** include/scn/scan.h:6183-6191, size *)
Definition args_size (a : scan_args) : Z :=
  if negb (is_packed a) then args_max_size a
  else Z.land (m_desc a) (Z.shiftl 1 packed_arg_bits - 1).
