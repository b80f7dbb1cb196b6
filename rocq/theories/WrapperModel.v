(** Model of scanners that derive from other scanners: docs/pages/guide.md:291-335 ("inherit it
    from another type", "scanning can be delegated to another scn::scanner"), as in
    tests/unittests/custom_type_test.cpp:61-75; include/scn/scan.h:5549-5650 (the call of a
    scanner), 9010-9035, 9100-9135 (scanner of a built-in type), 9166-9175 (discard). *)
From Verif Require Import Prelude UnicodeModel ReadModel SpecsModel FormatModel ArgsModel
  IntModel ArgReaderModel ScalarModel StringModel FloatModel RangesModel VscanModel LocaleModel.
Local Open Scope Z_scope.

(** scn::scanner<T>: parse sets members of the scanner, [sc_options]; scan is called with them.
    [sc_none]: what they are for a field without format-spec.  [sc_check]: parse during
    compile-time checking.  The scanner does not look at the locale of the call. *)
Record scanner (U : Type) : Type := Scanner {
  sc_options : Type; sc_none : sc_options;
  sc_check : list Z -> outcome (list Z);
  sc_parse : list Z -> outcome (list Z * sc_options);
  sc_scan : sc_options -> list Z -> outcome (U * list Z) }.
Arguments Scanner {U}. Arguments sc_options {U}. Arguments sc_none {U}. Arguments sc_check {U}.
Arguments sc_parse {U}. Arguments sc_scan {U}.

(** [struct scanner<W> : scanner<T> { auto scan(W& val, Context& ctx) const { ... } };] where
    scan calls that of the base for a T and makes the W of it by [w]; parse is inherited. *)
Definition derived {U W : Type} (w : U -> W) (sc : scanner U) : scanner W :=
  Scanner (sc_options sc) (sc_none sc) (sc_check sc) (sc_parse sc)
    (fun o s => '(v, rest) <- sc_scan sc o s ;; Ok (w v, rest)).

(** scan_custom_arg and parse_custom_arg, scan.h:5552-5584, 5619-5641.  If parse reports an
    error the position in the format string stays where it was. *)
Definition scanner_arg {U : Type} (sc : scanner U) : arg U :=
  Arg U CustomType (sc_scan sc (sc_none sc)) (sc_scan sc (sc_none sc)) (fun _ _ => UB)
    (fun f s => match sc_parse sc f with
                | Ok (p, o) => (p, sc_scan sc o s)
                | Err e => (f, Err e) | UB => (f, UB) | OutOfFuel => (f, OutOfFuel)
                end).

Section Wrapper.
Context {F U : Type} (rx : regex_engine) (cf : config).
Variable contiguous borrowed : bool.
(** The scanner of a built-in type, as a base class; its scan takes the locale of the program
    (src/scn/impl.cpp:229-243), and it can only be linked for characters of the type of the
    source, integers, floats and strings (impl.cpp:245-300). *)
Definition builtin_scanner (global : locale) (r : src) (t : scalar_type F) : scanner (svalue F) :=
  Scanner specs specs_default
    (fun f => '(p, _) <- ct_parse_builtin cf contiguous borrowed (scalar_arg_type t) f ;; Ok p)
    (shape_parse cf (SLeaf t)) (element_scan rx (get_locale global None) r t).

(** Ranges and tuples (include/scn/ranges.h:323-327, 399-405): at compile time too, parse is
    that of the element. *)
Definition range_scanner (global : locale) (r : src) (sh : shape (scalar_type F)) : scanner (value (svalue F)) :=
  Scanner specs specs_default
    (fun f => match shape_type sh with
              | Some t => '(p, _) <- ct_parse_builtin cf contiguous borrowed t f ;; Ok p
              | None => Ok f
              end)
    (shape_parse cf sh) (shape_scan rx global r sh).

(** Arguments of scan: of a built-in type; of a type whose scanner derives from that of a
    built-in type; of a type with a scanner of its own; of a type with a scanner that derives
    from one of these.  Ranges, tuples, dates, times and discard<T> are types with scanners. *)
Inductive item : Type :=
| Own (t : scalar_type F)
| Wraps (t : scalar_type F) (w : svalue F -> U)
| User (sc : scanner U)
| WrapsUser (sc : scanner U) (w : U -> U).
Definition map_arg {A B : Type} (m : A -> B) (a : arg A) : arg B :=
  let m' := fun x => '(v, rest) <- x ;; Ok (m v, rest) in
  Arg B (ar_type a) (fun s => m' (ar_default a s)) (fun s => m' (ar_plain a s))
    (fun sp s => m' (ar_specs a sp s)) (fun f s => (fst (ar_custom a f s), m' (snd (ar_custom a f s)))).
Definition scalar_arg (global : locale) (l : locale_ref) (r : src) (t : scalar_type F) : arg (svalue F) :=
  Arg _ (scalar_arg_type t) (scalar_default r t) (scalar_default r t)
    (scalar_specs rx r (get_locale global l) t) (fun f s => (f, UB)).
Definition item_arg (global : locale) (l : locale_ref) (r : src) (it : item) : arg (svalue F + U) :=
  match it with
  | Own t => map_arg inl (scalar_arg global l r t)
  | Wraps t w => map_arg inr (scanner_arg (derived w (builtin_scanner global r t)))
  | User sc => map_arg inr (scanner_arg sc)
  | WrapsUser sc w => map_arg inr (scanner_arg (derived w sc))
  end.
Definition scan_items (global : locale) (l : locale_ref) (r : src) (its : list item)
  (format source : list Z) : outcome (list (Z * (svalue F + U)) * list Z) :=
  vscan _ r cf (map (item_arg global l r) its) format source.

(** Compile-time checking. *)
Definition item_type (it : item) : arg_type :=
  match it with Own t => scalar_arg_type t | _ => CustomType end.
Definition item_parse (global : locale) (r : src) (its : list item) (id : Z) (f : list Z) : outcome (list Z) :=
  match nth_error its (Z.to_nat id) with
  | Some (Wraps t w) => sc_check (derived w (builtin_scanner global r t)) f
  | Some (User sc) => sc_check sc f
  | Some (WrapsUser sc w) => sc_check (derived w sc) f
  | _ => Ok f
  end.
Definition check_items (global : locale) (r : src) (its : list item) (format : list Z) : outcome unit :=
  check_format_string cf contiguous borrowed (map item_type its) (item_parse global r its) format.
End Wrapper.
Arguments item : clear implicits.
