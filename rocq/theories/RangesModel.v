(** Model of the scanners for ranges and tuples.  include/scn/ranges.h:149-545. *)
From Verif Require Import Prelude UnicodeModel ReadModel SpecsModel.
Local Open Scope Z_scope.

(** include/scn/ranges.h:233-254, range_scanner_base: brackets and separator.  The
    setters are public; a user's scanner may choose any strings. *)
Record punct : Type := Punct { p_open : list Z; p_close : list Z; p_sep : list Z }.

(** Types.  [SLeaf]: a type with a scanner of its own, here any [L].  [SSeq]: a range
    (range_scanner, 383-412), [max]: the bound of its loop, see [range_max_size] below.
    [STup]: a pair or tuple (scanner<Tuple>, 307-377).  The default brackets and separators
    are narrow literals (245-247, 315-316, 483-494), so that the scanners of wchar_t do not
    compile; the model treats all encodings alike. *)
Inductive shape (L : Type) : Type :=
| SLeaf (l : L)
| SSeq (max : nat) (p : punct) (e : shape L)
| STup (p : punct) (es : list (shape L)).
Arguments SLeaf {L}. Arguments SSeq {L}. Arguments STup {L}.
(** Values.  A range is the list of the elements in the order of their insertion
    ([collect] below says what becomes of them). *)
Inductive value (X : Type) : Type :=
| VLeaf (x : X)
| VSeq (vs : list (value X))
| VTup (vs : list (value X)).
Arguments VLeaf {X}. Arguments VSeq {X}. Arguments VTup {X}.

(** include/scn/ranges.h:155-161, the loop of scan_str.  [UB]: *it at the end. *)
Fixpoint expect (str s : list Z) : outcome (list Z) :=
  match str, s with
  | [], _ => Ok s
  | _ :: _, [] => UB
  | c :: str', d :: s' => if c =? d then expect str' s' else Err InvalidScannedValue
  end.
(** include/scn/ranges.h:149-163, scan_str *)
Definition scan_str (r : src) (str s : list Z) : outcome (list Z) :=
  it <- skip_classic_whitespace r s false ;; expect str it.

(** include/scn/ranges.h:265-286, the loop of scan_impl with scan_inner_loop (290-309).
    [n]: iterations left; [elem]: scan_cb; a failed look for the closing bracket is
    ignored, whatever the error. *)
Fixpoint seq_loop {V} (r : src) (p : punct) (elem : list Z -> outcome (V * list Z))
  (n : nat) (first : bool) (s : list Z) : outcome (list V * list Z) :=
  match n with
  | O => Ok ([], s)
  | S n' =>
      match scan_str r (p_close p) s with
      | UB => UB
      | OutOfFuel => OutOfFuel
      | Ok _ => Ok ([], s)
      | Err _ =>
          it <- (if first then Ok s else scan_str r (p_sep p) s) ;;
          '(v, it) <- elem it ;;
          '(vs, it) <- seq_loop r p elem n' false it ;;
          Ok (v :: vs, it)
      end
  end.

Section Scan.
Context {L X : Type}.
Variable r : src.
(** The scanner of a leaf type after parse with the given specs; a default-constructed
    scanner has [specs_default]. *)
Variable leaf : L -> specs -> list Z -> outcome (X * list Z).

(** include/scn/ranges.h:260-287 (scan_impl), 321-372 (scanner<Tuple>::scan and
    scan_for_each), 399-408 (range_scanner::scan).  [sp]: specs given to parse; a range
    passes them on to its element scanner, a tuple ignores them and uses
    default-constructed scanners. *)
Fixpoint scan_shape (sh : shape L) (sp : specs) (s : list Z) {struct sh}
  : outcome (value X * list Z) :=
  match sh with
  | SLeaf l => '(x, it) <- leaf l sp s ;; Ok (VLeaf x, it)
  | SSeq n p e =>
      it <- scan_str r (p_open p) s ;;
      '(vs, it) <- seq_loop r p (scan_shape e sp) n true it ;;
      it <- scan_str r (p_close p) it ;;
      Ok (VSeq vs, it)
  | STup p es =>
      it <- scan_str r (p_open p) s ;;
      '(vs, it) <-
        (fix go (es : list (shape L)) (first : bool) (s : list Z)
           : outcome (list (value X) * list Z) :=
           match es with
           | [] => Ok ([], s)
           | e :: es' =>
               it <- (if first then Ok s else scan_str r (p_sep p) s) ;;
               '(v, it) <- scan_shape e specs_default it ;;
               '(vs, it) <- go es' false it ;;
               Ok (v :: vs, it)
           end) es true it ;;
      it <- scan_str r (p_close p) it ;;
      Ok (VTup vs, it)
  end.
End Scan.

(** include/scn/ranges.h:251-253, 312-316, 483-494: the default punctuation of
    sequences, tuples, sets, and of maps with their pairs. *)
Definition seq_punct : punct := Punct [91] [93] [44].
Definition tup_punct : punct := Punct [40] [41] [44].
Definition set_punct : punct := Punct [123] [125] [44].
Definition pair_punct : punct := Punct [] [] [58].
Definition vector_of {L} (max : nat) (e : shape L) : shape L := SSeq max seq_punct e.
Definition set_of {L} (max : nat) (e : shape L) : shape L := SSeq max set_punct e.
Definition map_of {L} (max : nat) (k v : shape L) : shape L :=
  SSeq max set_punct (STup pair_punct [k; v]).
Definition tuple_of {L} (es : list (shape L)) : shape L := STup tup_punct es.

(** How a built-in element is stored for its reader.  An element of a string is read
    through a forward_iterator into it without a parent (src/scn/impl.cpp:229-242,
    1552-1563).  arg_reader (src/scn/impl.h:6223-6251) then takes the rest of the string as
    contiguous (is_segment_contiguous, 979-1006), unless a width or precision is given or
    nothing is left.  A regular expression asks whether the entire source is contiguous
    (957-977), which it always is; its reader makes no other use of the storage.  Elements
    of other sources: as the source. *)
Definition element_src (r : src) (sp : specs) (s : list Z) : src :=
  if s_contig r then
    let regex := match type sp with PRegex | PRegexEscaped => true | _ => false end in
    let left := match s with [] => false | _ => true end in
    if regex || (left && (width sp =? 0) && (precision sp =? 0)) then r
    else Src (s_enc r) false (fun n => n)
  else r.

(** include/scn/ranges.h:213-230.  [member]: max_size() of the range, if it has one.
    has_max_size<Range> means has_max_size<Range, void>; the specialization has the type of
    max_size() in place of void and is not chosen for any type where that is a number.
    The difference type has 64 bits. *)
Definition has_max_size (member : option Z) : bool := false.
Definition range_max_size (member : option Z) : Z :=
  match member with
  | Some n => if has_max_size member then n else 2 ^ 63 - 1
  | None => 2 ^ 63 - 1
  end.

(** include/scn/ranges.h:194-211, add_element_to_range.  [Sequence]: push_back.
    [UniqueKeys]: insert of std::set and std::map; [EqualKeys]: of std::multiset and
    std::multimap; the elements in the order of iteration.  [lt]: the comparison of the
    container, [key]: what it compares.  Unordered containers are not modelled. *)
Inductive range_kind : Type := Sequence | UniqueKeys | EqualKeys.
Section Collect.
Context {E K : Type} (key : E -> K) (lt : K -> K -> bool).
Fixpoint insert_unique (x : E) (c : list E) : list E :=
  match c with
  | [] => [x]
  | y :: c' => if lt (key x) (key y) then x :: c
               else if lt (key y) (key x) then y :: insert_unique x c' else c
  end.
Fixpoint insert_equal (x : E) (c : list E) : list E :=
  match c with
  | [] => [x]
  | y :: c' => if lt (key x) (key y) then x :: c else y :: insert_equal x c'
  end.
Definition add_element_to_range (k : range_kind) (c : list E) (x : E) : list E :=
  match k with
  | Sequence => c ++ [x]
  | UniqueKeys => insert_unique x c
  | EqualKeys => insert_equal x c
  end.
(** The elements [vs] added one after the other (269-284) to a range with the elements [c];
    [c] is empty unless the caller gives an initial value. *)
Definition collect (k : range_kind) (c vs : list E) : list E :=
  fold_left (add_element_to_range k) vs c.
(** A range of the given kind read into: scanner<Range>::scan (399-408). *)
Definition scan_container {L X} (as_elem : value X -> E) (r : src)
  (leaf : L -> specs -> list Z -> outcome (X * list Z)) (k : range_kind) (sh : shape L) (sp : specs)
  (c : list E) (s : list Z) : outcome (list E * list Z) :=
  '(v, it) <- scan_shape r leaf sh sp s ;;
  match v with VSeq vs => Ok (collect k c (map as_elem vs), it) | _ => UB end.
End Collect.
