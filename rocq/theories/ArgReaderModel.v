(** Model of the argument readers.  src/scn/impl.h:5829-6290. *)
From Verif Require Import Prelude UnicodeModel WhitespaceModel ReadModel SpecsModel IntModel
  WidthModel.
Local Open Scope Z_scope.

(** src/scn/impl.h:5899-5906, default_arg_reader::impl.  [skip]: skip_ws_before_read of
    the reader; [read]: its read_default. *)
Definition default_read {V} (r : src) (skip : bool) (read : list Z -> outcome (V * list Z))
  (s : list Z) : outcome (V * list Z) :=
  it <- skip_ws_before_if_required r skip s ;; read it.

(** A take_width_view of the source: not contiguous, without contiguous beginning
    (impl.h:1021-1062). *)
Definition view_src (r : src) : src := Src (s_enc r) false (fun _ => O).

(** include/scn/scan.h:6939-6952, fill_type::get_code_unit and get_code_units (the latter
    for char only); bytes of m_data are combined in little endian order. *)
Definition unit_size (e : enc) : nat := match e with U8 => 1 | U16 => 2 | U32 => 4 end.
Definition get_code_unit (f : fill_type) : Z :=
  fold_right (fun b n => b + 256 * n) 0 (firstn (f_size f) (f_data f)).
Definition get_code_units (f : fill_type) : list Z := firstn (f_size f) (f_data f).

(** src/scn/impl.h:5984-6035, skip_fill: position after the fill, and the width skipped
    (not computed if [want] is false).  A fill longer than a unit occurs for char only;
    [UB]: get_code_units of a wider type would read past m_data. *)
Definition skip_fill (r : src) (s : list Z) (max_width : Z) (f : fill_type) (want : bool)
  : outcome (list Z * Z) :=
  let e := s_enc r in
  let read (v : list Z) : outcome (list Z) :=
    if (f_size f <=? unit_size e)%nat
    then Ok (read_while_code_unit (fun c => c =? get_code_unit f) v)
    else match e with U8 => read_while_code_units (get_code_units f) v | _ => UB end in
  if max_width =? 0 then
    it <- read s ;;
    if want then
      let dist := Z.of_nat (length s - length it) in
      if (f_size f <=? unit_size e)%nat
      then Ok (it, cp_width (get_code_unit f) * dist)
      else w <- text_width e (get_code_units f) ;;
           Ok (it, w * dist / Z.of_nat (length (get_code_units f)))
    else Ok (it, 0)
  else
    v <- take_width e s max_width ;;
    rest <- read v ;;
    n <- view_count e s v rest max_width ;;
    Ok (view_base s v rest, if want then max_width - n else 0).

(** src/scn/impl.h:6040-6062, check_widths_for_arg_reader.  [UB]: SCN_ENSURE. *)
Definition check_widths (sp : specs) (prefix value postfix : Z) : outcome unit :=
  if negb (width sp =? 0) && (prefix + value + postfix <? width sp)
  then Err LengthTooShort
  else if negb (precision sp =? 0) && (precision sp <? prefix + value + postfix)
  then UB
  else Ok tt.

Definition need_width (sp : specs) : bool :=
  negb (width sp =? 0) || negb (precision sp =? 0).

(** skip_classic_whitespace within the first [n] columns of [s] (6090-6094, 6140-6147):
    position and width. *)
Definition skip_ws_within (r : src) (s : list Z) (n : Z) (allow_exhaustion : bool)
  : outcome (list Z * Z) :=
  v <- take_width (s_enc r) s n ;;
  rest <- skip_classic_whitespace (view_src r) v allow_exhaustion ;;
  c <- view_count (s_enc r) s v rest n ;;
  Ok (view_base s v rest, n - c).
(** The same without a limit (6095-6107, 6148-6158). *)
Definition skip_ws_all (r : src) (s : list Z) (want allow_exhaustion : bool)
  : outcome (list Z * Z) :=
  it <- skip_classic_whitespace r s allow_exhaustion ;;
  if want then
    w <- text_width (s_enc r) (firstn (length s - length it) s) ;; Ok (it, w)
  else Ok (it, 0).

(** src/scn/impl.h:6072-6113, impl_prefix *)
Definition impl_prefix (r : src) (sp : specs) (skip : bool) (s : list Z)
  : outcome (list Z * Z) :=
  match align sp with
  | ARight | ACenter => skip_fill r s (precision sp) (fill sp) (need_width sp)
  | ANone =>
      if skip then
        if negb (precision sp =? 0) then skip_ws_within r s (precision sp) false
        else skip_ws_all r s (need_width sp) false
      else Ok (s, 0)
  | ALeft => Ok (s, 0)
  end.

(** src/scn/impl.h:6115-6162, impl_postfix *)
Definition impl_postfix (r : src) (sp : specs) (skip : bool) (prefix value : Z) (s : list Z)
  : outcome (list Z * Z) :=
  match align sp with
  | ALeft | ACenter =>
      if negb (precision sp =? 0) && (precision sp - value - prefix =? 0) then Ok (s, 0)
      else skip_fill r s (precision sp - value - prefix) (fill sp) (need_width sp)
  | ANone =>
      if negb skip
         && ((negb (width sp =? 0) && (prefix + value <? width sp))
             || (negb (precision sp =? 0) && (prefix + value <? precision sp)))
      then
        if negb (precision sp =? 0)
        then skip_ws_within r s (precision sp - prefix - value) true
        else skip_ws_all r s (need_width sp) true
      else Ok (s, 0)
  | ARight => Ok (s, 0)
  end.

(** src/scn/impl.h:6164-6221, arg_reader::impl.  [skip]: skip_ws_before_read of the
    reader; [read]: its read_specs on a range stored in the given way. *)
Definition arg_read {V} (r : src) (sp : specs) (skip : bool)
  (read : src -> list Z -> outcome (V * list Z)) (s : list Z) : outcome (V * list Z) :=
  '(it, prefix) <-
    (if negb (precision sp =? 0) then
       v <- take_width (s_enc r) s (precision sp) ;;
       '(rest, w) <- impl_prefix (view_src r) sp skip v ;;
       Ok (view_base s v rest, w)
     else impl_prefix r sp skip s) ;;
  '(x, it, value) <-
    (if negb (precision sp =? 0) then
       if precision sp <=? prefix then Err InvalidFill
       else
         let n := precision sp - prefix in
         v <- take_width (s_enc r) it n ;;
         '(x, rest) <- read (view_src r) v ;;
         c <- view_count (s_enc r) it v rest n ;;
         Ok (x, view_base it v rest, n - c)
     else
       '(x, it') <- read r it ;;
       if need_width sp then
         w <- text_width (s_enc r) (firstn (length it - length it') it) ;;
         Ok (x, it', w)
       else Ok (x, it', 0)) ;;
  '(it, postfix) <-
    (match it with
     | [] => Ok (it, 0)
     | _ => impl_postfix r sp skip prefix value it
     end) ;;
  _ <- check_widths sp prefix value postfix ;;
  Ok (x, it).

(** A reader (make_reader<T, CharT>, impl.h:5846-5888): skip_ws_before_read after
    check_specs, check_specs, read_specs. *)
Record reader (V : Type) : Type := Reader {
  rd_skip : specs -> bool;
  rd_check : specs -> bool;
  rd_specs : src -> specs -> list Z -> outcome (V * list Z) }.
Arguments rd_skip {V}. Arguments rd_check {V}. Arguments rd_specs {V}.

(** src/scn/impl.h:6223-6251, arg_reader::operator(); for a buffered source see the
    segment model. *)
Definition arg_read_checked {V} (r : src) (rd : reader V) (sp : specs) (s : list Z)
  : outcome (V * list Z) :=
  if rd_check rd sp then arg_read r sp (rd_skip rd sp) (fun r' => rd_specs rd r' sp) s
  else Err InvalidFormatString.
