(** Model of the locale given to scan: how it reaches the readers.
    include/scn/scan.h:8795-8870, 9432-9460, 9744-9800; src/scn/impl.h:1804-1890, 5462-5495,
    5934-5975, 6268-6292; src/scn/impl.cpp:228-243, 300-318, 1742-1795, 1897-1930. *)
From Verif Require Import Prelude UnicodeModel ReadModel SpecsModel FormatModel ArgsModel
  IntModel ArgReaderModel ScalarModel StringModel FloatModel RangesModel VscanModel.
Local Open Scope Z_scope.

(** The numpunct facet of a std::locale: truename, falsename, grouping, thousands_sep,
    decimal_point.  A locale without the facet is given the default one
    (get_or_add_facet, src/scn/impl.h:1814-1821): such a locale is the one with the names
    "true" and "false", no grouping and the point. *)
Record locale : Type := Locale {
  l_true : list Z; l_false : list Z; l_grouping : list Z; l_thousands : Z; l_point : Z }.
(** include/scn/scan.h:8795-8813: a locale_ref is a pointer to a std::locale, or null. *)
Definition locale_ref : Type := option locale.
(** src/scn/impl.cpp:311-318, locale_ref::get.  [global]: what std::locale{} copies. *)
Definition get_locale (global : locale) (l : locale_ref) : locale :=
  match l with Some x => x | None => global end.
(** src/scn/impl.h:1875-1884, localized_number_formatting_options(locale_ref) *)
Definition l_sep (l : locale) : Z := match l_grouping l with [] => 0 | _ :: _ => l_thousands l end.
Definition number_options (l : locale) : fseps := FSeps (l_point l) (l_sep l).
(** src/scn/impl.h:5473-5483, read_localized of booleans *)
Definition bool_names (l : locale) : list Z * list Z := (l_true l, l_false l).

Section Args.
Context {F : Type} (rx : regex_engine) (cf : config).

(** Scalar types.  The [arg_type] tells types of the same reader apart.  [old]: the value
    before the call. *)
Inductive scalar_type : Type :=
| TInt (t : inttype) (a : arg_type) | TBool | TChar (k : char_kind) (old : Z) (a : arg_type) | TPointer
| TString (d : dest) (a : arg_type) | TFloat (f : fp F) (a : arg_type).
Inductive svalue : Type :=
| SVInt (z : Z) | SVBool (b : bool) | SVChar (c : Z) | SVPointer (z : Z) | SVString (s : list Z) | SVFloat (x : F)
| SVUser (z : Z).
Definition as_value {A} (f : A -> svalue) (x : outcome (A * list Z)) : outcome (svalue * list Z) :=
  '(v, rest) <- x ;; Ok (f v, rest).
Definition scalar_arg_type (t : scalar_type) : arg_type :=
  match t with
  | TInt _ a | TChar _ _ a | TString _ a | TFloat _ a => a | TBool => BoolType | TPointer => PointerType
  end.
(** Without format-spec (default_arg_reader, src/scn/impl.h:5891-5932): read_default, which
    is not given the locale. *)
Definition scalar_default (r : src) (t : scalar_type) (s : list Z) : outcome (svalue * list Z) :=
  match t with
  | TInt t _ => as_value SVInt (int_default t r s)
  | TBool => as_value SVBool (bool_default r s)
  | TChar k _ _ => as_value SVChar (char_default k r s)
  | TPointer => as_value SVPointer (pointer_default 0 r s)
  | TString d _ => as_value SVString (string_default d r s)
  | TFloat f _ => as_value SVFloat (float_default f r s)
  end.
(** With one (arg_reader, src/scn/impl.h:6064-6266): read_specs, with the locale [l]. *)
Definition scalar_specs (r : src) (l : locale) (t : scalar_type) (sp : specs) (s : list Z)
  : outcome (svalue * list Z) :=
  match t with
  | TInt t _ => as_value SVInt (arg_read_checked r (int_reader t (l_sep l)) sp s)
  | TBool => as_value SVBool (arg_read_checked r (bool_reader (bool_names l)) sp s)
  | TChar k old _ => as_value SVChar (arg_read_checked r (char_reader k old (l_sep l)) sp s)
  | TPointer => as_value SVPointer (arg_read_checked r (pointer_reader (l_sep l)) sp s)
  | TString d _ => as_value SVString (string_arg rx d r sp s)
  | TFloat f _ => as_value SVFloat (arg_read_checked r (float_reader f (number_options l)) sp s)
  end.

(** The source as a range sees it: scan_context over a forward_iterator into the string
    (src/scn/impl.h:5934-5948; impl.cpp:1552-1563), or over the buffer as it is. *)
Definition custom_src (r : src) : src :=
  if s_contig r then Src (s_enc r) false (fun n => n) else r.

(** Arguments of scan: a scalar; a range of scalars, or of ranges or tuples of them; a type
    with a scanner of its own, which parses the format string from a position, and reads from
    a position with the locale the context holds. *)
Inductive target : Type :=
| TScalar (t : scalar_type)
| TShape (sh : shape scalar_type)
| TUser (parse : list Z -> list Z) (scan : locale -> list Z -> list Z -> outcome (Z * list Z)).

(** include/scn/ranges.h:323-327, 399-405 with include/scn/scan.h:9036-9128 (parse): a range
    has its element parse the format-spec, a tuple parses nothing.  Errors are reported to
    specs_checker only and do not reach the parse context at run time. *)
Fixpoint shape_type (sh : shape scalar_type) : option arg_type :=
  match sh with
  | SLeaf t => Some (scalar_arg_type t)
  | SSeq _ _ e => shape_type e
  | STup _ _ => None
  end.
Definition shape_parse (sh : shape scalar_type) (fmt : list Z) : outcome (list Z * specs) :=
  match shape_type sh, fmt with
  | None, _ | _, [] => Ok (fmt, specs_default)
  | Some t, _ :: _ =>
      '(p, ss) <- parse_format_specs cf t fmt (SS specs_default false) ;; Ok (p, ss_specs ss)
  end.
(** src/scn/impl.cpp:229-236, scanner_scan_for_builtin_type: the scanner of a scalar makes an
    arg_reader with a default-constructed locale_ref, not with ctx.locale(). *)
Definition element_scan (l : locale) (r : src) (t : scalar_type) (sp : specs) (s : list Z)
  : outcome (svalue * list Z) :=
  scalar_specs (element_src r sp s) l t sp s.
Definition shape_scan (global : locale) (r : src) (sh : shape scalar_type) (sp : specs) (s : list Z)
  : outcome (value svalue * list Z) :=
  scan_shape (custom_src r) (element_scan (get_locale global None) r) sh sp s.

Definition leaf_value (x : outcome (svalue * list Z)) : outcome (value svalue * list Z) :=
  '(v, rest) <- x ;; Ok (VLeaf v, rest).
(** A type-erased argument, visited with the locale [l] of the context (src/scn/impl.cpp:
    1665-1714).  [ar_plain]: scan_simple_single_argument and vscan_value are not given the
    locale (impl.cpp:1752, 1772, 1795).  If a parse is undefined, so is the call; it is then
    the result. *)
Definition target_arg (global : locale) (l : locale_ref) (r : src) (t : target) : arg (value svalue) :=
  match t with
  | TScalar t =>
      Arg _ (scalar_arg_type t)
        (fun s => leaf_value (scalar_default r t s)) (fun s => leaf_value (scalar_default r t s))
        (fun sp s => leaf_value (scalar_specs r (get_locale global l) t sp s))
        (fun f s => (f, UB))
  | TShape sh =>
      Arg _ CustomType
        (shape_scan global r sh specs_default) (shape_scan global r sh specs_default)
        (fun _ _ => UB)
        (fun f s => match shape_parse sh f with
                    | Ok (p, sp) => (p, shape_scan global r sh sp s)
                    | Err e => (f, Err e) | UB => (f, UB) | OutOfFuel => (f, OutOfFuel)
                    end)
  | TUser parse scan =>
      let run := fun l f s => leaf_value (as_value SVUser (scan (get_locale global l) f s)) in
      Arg _ CustomType (run l []) (run None []) (fun _ _ => UB) (fun f s => (parse f, run l f s))
  end.

(** include/scn/scan.h:9432-9460 (scan with a locale), 9395-9430 (without);
    src/scn/impl.cpp:1897-1930, vscan_localized_impl: locale_ref{loc}; 1868-1895, vscan_impl:
    locale_ref{}.  [l]: the locale argument, if there is one. *)
Definition scan_with (global : locale) (l : locale_ref) (r : src) (ts : list target)
  (format source : list Z) : outcome (list (Z * value svalue) * list Z) :=
  vscan _ r cf (map (target_arg global l r) ts) format source.
End Args.
Arguments scalar_type : clear implicits.
Arguments svalue : clear implicits.
Arguments target : clear implicits.
