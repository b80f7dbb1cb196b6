(** Model of discarded values: include/scn/scan.h:9137-9175 (discard<T> and its scanner), with
    5549-5650 (the call of a scanner), 8520-8718 (compile-time checking) and
    src/scn/impl.cpp:228-243 (the scanner of a scalar). *)
From Verif Require Import Prelude UnicodeModel ReadModel SpecsModel FormatModel ArgsModel
  IntModel ArgReaderModel ScalarModel StringModel FloatModel RangesModel VscanModel LocaleModel.
Local Open Scope Z_scope.

Section Discard.
Context {F : Type} (rx : regex_engine) (cf : config).

(** Arguments of scan: T, or discard<T>.  discard<T> of a range, and ranges of discard<T>, are
    not modelled.  scanner_scan_for_builtin_type is compiled for characters of the type of the
    source, integers, floats and strings only (impl.cpp:245-300): discard<bool> and the like do
    not link. *)
Inductive item : Type := Keep (t : scalar_type F) | Discard (t : scalar_type F).
Definition item_scalar (it : item) : scalar_type F := match it with Keep t | Discard t => t end.
Definition is_discard (it : item) : bool := match it with Keep _ => false | Discard _ => true end.

(** What is left of a value: nothing of one that is discarded (scan.h:9168-9173). *)
Definition stored (keep : bool) (x : outcome (svalue F * list Z)) : outcome (option (svalue F) * list Z) :=
  '(v, rest) <- x ;; Ok (if keep then Some v else None, rest).
(** scan.h:9166-9175: scanner<T>::scan into a value of its own. *)
Definition discard_scan (global : locale) (r : src) (t : scalar_type F) (sp : specs) (s : list Z)
  : outcome (option (svalue F) * list Z) :=
  stored false (element_scan rx (get_locale global None) r t sp s).
(** The type-erased arguments: discard<T> is a type with a scanner, whose parse is that of T
    ([shape_parse] of a leaf). *)
Definition item_arg (global : locale) (l : locale_ref) (r : src) (it : item) : arg (option (svalue F)) :=
  match it with
  | Keep t =>
      Arg _ (scalar_arg_type t)
        (fun s => stored true (scalar_default r t s)) (fun s => stored true (scalar_default r t s))
        (fun sp s => stored true (scalar_specs rx r (get_locale global l) t sp s))
        (fun f s => (f, UB))
  | Discard t =>
      Arg _ CustomType
        (discard_scan global r t specs_default) (discard_scan global r t specs_default)
        (fun _ _ => UB)
        (fun f s => match shape_parse cf (SLeaf t) f with
                    | Ok (p, sp) => (p, discard_scan global r t sp s)
                    | Err e => (f, Err e) | UB => (f, UB) | OutOfFuel => (f, OutOfFuel)
                    end)
  end.
Definition scan_items (global : locale) (l : locale_ref) (r : src) (its : list item)
  (format source : list Z) : outcome (list (Z * option (svalue F)) * list Z) :=
  vscan _ r cf (map (item_arg global l r) its) format source.

(** Compile-time checking: discard<T> is of a custom type, whose parse is
    scanner_parse_for_builtin_type for T. *)
Definition item_type (it : item) : arg_type :=
  match it with Keep t => scalar_arg_type t | Discard _ => CustomType end.
Definition item_parse (contiguous borrowed : bool) (its : list item) (id : Z) (f : list Z) : outcome (list Z) :=
  match nth_error its (Z.to_nat id) with
  | Some (Discard t) => '(p, _) <- ct_parse_builtin cf contiguous borrowed (scalar_arg_type t) f ;; Ok p
  | _ => Ok f
  end.
Definition check_items (contiguous borrowed : bool) (its : list item) (format : list Z) : outcome unit :=
  check_format_string cf contiguous borrowed (map item_type its) (item_parse contiguous borrowed its) format.
End Discard.
Arguments item : clear implicits.
