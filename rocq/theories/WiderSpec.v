(** Vocabulary for property C65: types that can take the place of others.  Independent of the
    readers. *)
From Verif Require Import Prelude UnicodeModel ArgsModel IntModel IntSpec StringModel RangesModel LocaleModel.
Local Open Scope Z_scope.

(** The integer types of LP64 and the names under which arguments of them are known. *)
Inductive int_type_named : inttype -> arg_type -> Prop :=
| N_schar : int_type_named i8 SCharType | N_uchar : int_type_named u8 UCharType
| N_short : int_type_named i16 ShortType | N_ushort : int_type_named u16 UShortType
| N_int : int_type_named i32 IntType | N_uint : int_type_named u32 UIntType
| N_long : int_type_named i64 LongType | N_ulong : int_type_named u64 ULongType
| N_llong : int_type_named i64 LLongType | N_ullong : int_type_named u64 ULLongType.
(** Strings and string views of char and of wchar_t. *)
Inductive string_type_named : enc -> arg_type -> arg_type -> Prop :=
| N_narrow : string_type_named U8 NarrowStringViewType NarrowStringType
| N_wide : string_type_named U32 WideStringViewType WideStringType.

(** Every value of the type [t] is one of [t']. *)
Definition holds_all (t t' : inttype) : Prop :=
  forall v, in_range (it_signed t) (it_bits t) v -> in_range (it_signed t') (it_bits t') v.
(** How scanning into one type may fail where scanning into another does not. *)
Inductive narrowness : Type := Overflows | RejectsMinus | NoView.

Section Wider.
Context {F : Type}.
(** The encoding of the source. *)
Variable e : enc.
(** A type that [t] can be replaced by, and what is lost with [t]: larger integers have no
    overflow, signed ones take minus signs, strings can be stored when the characters are not
    contiguous in memory or have to be transcoded. *)
Inductive wider (lost : narrowness -> Prop) : scalar_type F -> scalar_type F -> Prop :=
| W_same t : wider lost t t
| W_renamed t a a' : int_type_named t a -> int_type_named t a' -> wider lost (TInt t a) (TInt t a')
| W_int t t' a a' : int_type_named t a -> int_type_named t' a' -> holds_all t t' -> lost Overflows ->
    (it_signed t = false -> it_signed t' = true -> lost RejectsMinus) ->
    wider lost (TInt t a) (TInt t' a')
| W_string to alloc a a' : string_type_named to a a' -> (alloc = true \/ to <> e -> lost NoView) ->
    wider lost (TString (DView to alloc) a) (TString (DString to) a').
(** Also within ranges and tuples. *)
Inductive wider_shape (lost : narrowness -> Prop) : shape (scalar_type F) -> shape (scalar_type F) -> Prop :=
| W_leaf t t' : wider lost t t' -> wider_shape lost (SLeaf t) (SLeaf t')
| W_seq max p x x' : wider_shape lost x x' -> wider_shape lost (SSeq max p x) (SSeq max p x')
| W_tup p es es' : wider_shapes lost es es' -> wider_shape lost (STup p es) (STup p es')
with wider_shapes (lost : narrowness -> Prop) : list (shape (scalar_type F)) -> list (shape (scalar_type F)) -> Prop :=
| W_nil : wider_shapes lost [] []
| W_cons x x' es es' : wider_shape lost x x' -> wider_shapes lost es es' -> wider_shapes lost (x :: es) (x' :: es').
Inductive wider_target (lost : narrowness -> Prop) : target F -> target F -> Prop :=
| W_scalar t t' : wider lost t t' -> wider_target lost (TScalar t) (TScalar t')
| W_shape sh sh' : wider_shape lost sh sh' -> wider_target lost (TShape sh) (TShape sh')
| W_user parse scan : wider_target lost (TUser parse scan) (TUser parse scan).
End Wider.

(** The errors that come of it.  invalid_format_string: of a view that cannot be, or in place of
    any error if later arguments are not read. *)
Definition error_of (lost : narrowness -> Prop) (e : err) : Prop :=
  (lost Overflows /\ (e = ValuePositiveOverflow \/ e = ValueNegativeOverflow))
  \/ (lost RejectsMinus /\ e = InvalidScannedValue)
  \/ ((exists n, lost n) /\ e = InvalidFormatString).

(** The same for the types alone, as compile-time checking sees them. *)
Inductive wider_type (views : Prop) : arg_type -> arg_type -> Prop :=
| WT_same a : wider_type views a a
| WT_int t t' a a' : int_type_named t a -> int_type_named t' a' -> wider_type views a a'
| WT_string to a a' : string_type_named to a a' -> views -> wider_type views a a'.
