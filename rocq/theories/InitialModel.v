(** Model of scanning into objects that have a value: include/scn/scan.h:9721-9743, 9779-9799
    (scan with initial values), with include/scn/ranges.h:194-211, 255-377 (what ranges and
    tuples do with theirs) and src/scn/impl.h:3079-3132 (strings), 5677-5771 (characters). *)
From Verif Require Import Prelude UnicodeModel ReadModel SpecsModel FormatModel ArgsModel
  IntModel ArgReaderModel ScalarModel StringModel FloatModel RangesModel VscanModel LocaleModel.
Local Open Scope Z_scope.

Section Initial.
Context {F : Type} (rx : regex_engine) (cf : config).
(** A floating-point number that is value-initialized. *)
Variable fzero : F.
Notation object := (value (svalue F)).

(** Types of objects: scalars; containers of a kind, with their comparison of keys; tuples. *)
Record container : Type := Container {
  ct_kind : range_kind; ct_key : object -> object; ct_less : object -> object -> bool }.
Inductive otype : Type :=
| OLeaf (t : scalar_type F)
| ORange (k : container) (max : nat) (p : punct) (e : otype)
| OTuple (p : punct) (es : list otype).
Fixpoint shape_of (o : otype) : shape (scalar_type F) :=
  match o with
  | OLeaf t => SLeaf t
  | ORange _ max p e => SSeq max p (shape_of e)
  | OTuple p es => STup p (map shape_of es)
  end.
(** [T elem{}] (ranges.h:274) *)
Definition new_scalar (t : scalar_type F) : svalue F :=
  match t with
  | TInt _ _ => SVInt 0 | TBool => SVBool false | TChar _ _ _ => SVChar 0 | TPointer => SVPointer 0
  | TString _ _ => SVString [] | TFloat _ _ => SVFloat fzero
  end.
Fixpoint new_object (o : otype) : object :=
  match o with
  | OLeaf t => VLeaf (new_scalar t)
  | ORange _ _ _ _ => VSeq []
  | OTuple _ es => VTup (map new_object es)
  end.

(** The reader of a character is given the character in the object, see [char_specs]. *)
Definition with_old (t : scalar_type F) (old : svalue F) : scalar_type F :=
  match t, old with TChar k _ a, SVChar c => TChar k c a | _, _ => t end.
(** src/scn/impl.h:3079-3132, transcode_if_necessary and transcode_impl: [dst.assign(text)], or
    [dst.clear()] and then the code points appended to dst.  Other scalars are assigned. *)
Definition assign (e : enc) (t : scalar_type F) (old v : svalue F) : svalue F :=
  match t, old, v with
  | TString (DString to) _, SVString dst, SVString text =>
      if enc_eqb e to then SVString text
      else let dst := firstn 0 dst in SVString (dst ++ text)
  | _, _, _ => v
  end.
Definition into_scalar (r : src) (t : scalar_type F) (old : svalue F)
  (read : scalar_type F -> outcome (svalue F * list Z)) : outcome (svalue F * list Z) :=
  '(v, it) <- read (with_old t old) ;; Ok (assign (s_enc r) t old v, it).

Section Scan.
Variable r : src.
Variable leaf : scalar_type F -> specs -> list Z -> outcome (svalue F * list Z).
(** include/scn/ranges.h:269-284: every element is a new object, which is added to the range
    [c] once it has been read. *)
Fixpoint into_range (src : src) (p : punct) (k : container) (elem : list Z -> outcome (object * list Z))
  (n : nat) (first : bool) (c : list object) (s : list Z) : outcome (list object * list Z) :=
  match n with
  | O => Ok (c, s)
  | S n' =>
      match scan_str src (p_close p) s with
      | UB => UB
      | OutOfFuel => OutOfFuel
      | Ok _ => Ok (c, s)
      | Err _ =>
          it <- (if first then Ok s else scan_str src (p_sep p) s) ;;
          '(v, it) <- elem it ;;
          into_range src p k elem n' false (add_element_to_range (ct_key k) (ct_less k) (ct_kind k) c v) it
      end
  end.
(** include/scn/ranges.h:260-287, 321-372, 399-408: scan_impl of ranges, scanner<Tuple>::scan
    with scan_for_each, into the object [old].  [UB]: the object is of another type. *)
Fixpoint into_object (src : src) (o : otype) (old : object) (sp : specs) (s : list Z) {struct o}
  : outcome (object * list Z) :=
  match o, old with
  | OLeaf t, VLeaf x => '(v, it) <- into_scalar r t x (fun t => leaf t sp s) ;; Ok (VLeaf v, it)
  | ORange k max p e, VSeq c =>
      it <- scan_str src (p_open p) s ;;
      '(c, it) <- into_range src p k (into_object src e (new_object e) sp) max true c it ;;
      it <- scan_str src (p_close p) it ;;
      Ok (VSeq c, it)
  | OTuple p es, VTup olds =>
      it <- scan_str src (p_open p) s ;;
      '(vs, it) <-
        (fix go (es : list otype) (olds : list object) (first : bool) (s : list Z)
           : outcome (list object * list Z) :=
           match es, olds with
           | [], [] => Ok ([], s)
           | e :: es', old :: olds' =>
               it <- (if first then Ok s else scan_str src (p_sep p) s) ;;
               '(v, it) <- into_object src e old specs_default it ;;
               '(vs, it) <- go es' olds' false it ;;
               Ok (v :: vs, it)
           | _, _ => UB
           end) es olds true it ;;
      it <- scan_str src (p_close p) it ;;
      Ok (VTup vs, it)
  | _, _ => UB
  end.
End Scan.

(** The type-erased argument that refers to an object with a value; see [target_arg] for the
    arguments without one. *)
Definition object_arg (global : locale) (l : locale_ref) (r : src) (x : otype * object) : arg object :=
  let (o, old) := x in
  match o with
  | OLeaf t =>
      let into := fun read => match old with
                              | VLeaf x => '(v, it) <- into_scalar r t x read ;; Ok (VLeaf v, it)
                              | _ => UB
                              end in
      Arg _ (scalar_arg_type t)
        (fun s => into (fun t => scalar_default r t s)) (fun s => into (fun t => scalar_default r t s))
        (fun sp s => into (fun t => scalar_specs rx r (get_locale global l) t sp s))
        (fun f s => (f, UB))
  | _ =>
      let scan := into_object r (element_scan rx (get_locale global None) r) (custom_src r) o old in
      Arg _ CustomType (scan specs_default) (scan specs_default) (fun _ _ => UB)
        (fun f s => match shape_parse cf (shape_of o) f with
                    | Ok (p, sp) => (p, scan sp s)
                    | Err e => (f, Err e) | UB => (f, UB) | OutOfFuel => (f, OutOfFuel)
                    end)
  end.
(** scan with initial values. *)
Definition scan_into (global : locale) (l : locale_ref) (r : src) (objects : list (otype * object))
  (format source : list Z) : outcome (list (Z * object) * list Z) :=
  vscan _ r cf (map (object_arg global l r) objects) format source.
(** scan without: the targets, as in LocaleModel. *)
Definition target_of (o : otype) : target F :=
  match o with OLeaf t => TScalar t | _ => TShape (shape_of o) end.
End Initial.
Arguments otype : clear implicits. Arguments container : clear implicits.
