(** Model of format-driven scanning.  src/scn/impl.cpp:1310-1795 and the compile-time
    checker, include/scn/scan.h:6256-6375, 6741-6821, 8520-8718, 9036-9128. *)
From Verif Require Import Prelude UnicodeModel WhitespaceModel ReadModel SpecsModel
  ArgsModel FormatModel.
Local Open Scope Z_scope.

Section Vscan.
(** Type of scanned values; how the source is stored; build configuration. *)
Variable V : Type.
Variable r : src.
Variable cf : config.

(** A type-erased argument and what visiting it does: arg.visit with
    default_arg_reader, with arg_reader, with custom_reader (src/scn/impl.h:5891-6290).
    A reader takes the position in the source, and returns the value stored and the
    new position, or an error.  A user-defined scanner also moves the position in the
    format string.  [ar_default] runs with the locale and arguments of the caller;
    [ar_plain] with the default locale, as scan_simple_single_argument is called without
    one (impl.cpp:1752, 1772, 1795).  Built-in types ignore the locale here. *)
Record arg : Type := Arg {
  ar_type : arg_type;
  ar_default : list Z -> outcome (V * list Z);
  ar_plain : list Z -> outcome (V * list Z);
  ar_specs : specs -> list Z -> outcome (V * list Z);
  ar_custom : list Z -> list Z -> list Z * outcome (V * list Z) }.

Variable args : list arg.
(** ctx.arg(id): by theorem C33_args the type-erased list is this list. *)
Definition get_arg (id : Z) : option arg := nth_error args (Z.to_nat id).
Definition args_count : Z := Z.of_nat (length args).

(** format_handler_base and format_handler (impl.cpp:1409-1507, 1575-1726): error,
    visited_args_lower64, visited_args_upper, parse_ctx (m_next_arg_id, whether m_error is
    set, m_format), the position in the source, and what has been stored into which argument
    so far. *)
Record state : Type := St {
  st_error : option err; st_low : Z; st_upper : list Z; st_next : Z; st_mixed : bool;
  st_pctx : list Z; st_src : list Z; st_log : list (Z * V) }.
Definition on_error (e : err) (st : state) : state :=
  St (Some e) (st_low st) (st_upper st) (st_next st) (st_mixed st) (st_pctx st) (st_src st) (st_log st).
Definition set_src (s : list Z) (st : state) : state :=
  St (st_error st) (st_low st) (st_upper st) (st_next st) (st_mixed st) (st_pctx st) s (st_log st).
Definition set_pctx (p : list Z) (st : state) : state :=
  St (st_error st) (st_low st) (st_upper st) (st_next st) (st_mixed st) p (st_src st) (st_log st).
Definition set_next (n : Z) (st : state) : state :=
  St (st_error st) (st_low st) (st_upper st) n (st_mixed st) (st_pctx st) (st_src st) (st_log st).
Definition set_mixed (st : state) : state :=
  St (st_error st) (st_low st) (st_upper st) (st_next st) true (st_pctx st) (st_src st) (st_log st).
Definition set_visited (l : Z) (u : list Z) (st : state) : state :=
  St (st_error st) l u (st_next st) (st_mixed st) (st_pctx st) (st_src st) (st_log st).
Definition add_log (x : Z * V) (st : state) : state :=
  St (st_error st) (st_low st) (st_upper st) (st_next st) (st_mixed st) (st_pctx st) (st_src st)
     (st_log st ++ [x]).

(** src/scn/impl.cpp:1409-1415 *)
Definition init_state (format source : list Z) : state :=
  St None 0
     (if 64 <=? args_count then repeat 0 (Z.to_nat ((args_count - 64) / 8)) else [])
     0 false format source [].

(** src/scn/impl.cpp:1417-1449, check_args_exhausted.  [UB]: end() - 1 and back() of an
    empty vector. *)
Fixpoint check_upper (u : list Z) (last : Z) : option Z :=
  match u with
  | [] => None
  | [b] => Some (if b =? (Z.shiftl 1 last) mod 256 - 1 then 1 else 0)
  | b :: u' => if b =? 255 then check_upper u' (last - 8) else Some 0
  end.
Definition check_args_exhausted (st : state) : outcome state :=
  let lower := if 64 <=? args_count then 64 else args_count in
  let mask := if lower =? 64 then 2 ^ 64 - 1 else Z.shiftl 1 lower - 1 in
  if negb (st_low st =? mask) then Ok (on_error InvalidFormatString st)
  else if args_count <? 64 then Ok st
  else match check_upper (st_upper st) (args_count - 64) with
       | None => UB
       | Some 1 => Ok st
       | Some _ => Ok (on_error InvalidFormatString st)
       end.

(** src/scn/impl.cpp:1468-1502: has_arg_been_visited, set_arg_as_visited.  [UB]: index
    past the end of the vector. *)
Fixpoint set_nth (n : nat) (f : Z -> Z) (l : list Z) : option (list Z) :=
  match n, l with
  | _, [] => None
  | O, b :: l' => Some (f b :: l')
  | S n', b :: l' => option_map (cons b) (set_nth n' f l')
  end.
Definition set_arg_as_visited (id : Z) (st : state) : outcome state :=
  if args_count <=? id then Ok (on_error InvalidFormatString st)
  else if id <? 64 then
    let st := if Z.testbit (st_low st) id then on_error InvalidFormatString st else st in
    Ok (set_visited (Z.lor (st_low st) (Z.shiftl 1 id)) (st_upper st) st)
  else
    let i := Z.to_nat ((id - 64) / 8) in
    match nth_error (st_upper st) i,
          set_nth i (fun b => Z.lor b (Z.shiftl 1 ((id - 64) mod 8))) (st_upper st) with
    | Some b, Some u =>
        let st := if Z.testbit b ((id - 64) mod 8) then on_error InvalidFormatString st
                  else st in
        Ok (set_visited (st_low st) u st)
    | _, _ => UB
    end.

(** src/scn/impl.cpp:1598-1636, on_literal_text.  [fuel]: number of iterations. *)
Definition format_src : src := Src (s_enc r) true (fun _ => O).
Fixpoint literal_loop (fuel : nat) (lit : list Z) (st : state) : outcome state :=
  match lit with
  | [] => Ok st
  | c :: lit' =>
      match fuel with
      | O => OutOfFuel
      | S f =>
          match st_src st with
          | [] => Ok (on_error InvalidLiteral st)
          | d :: src' =>
              '(after, cp, space) <- is_first_char_space (s_enc r) lit ;;
              if cp =? invalid_code_point then Ok (on_error InvalidFormatString st)
              else if space : bool then
                s' <- read_while_classic_space r (st_src st) ;;
                l' <- read_while_classic_space format_src after ;;
                literal_loop f l' (set_src s' st)
              else if negb (d =? c) then Ok (on_error InvalidLiteral st)
              else literal_loop f lit' (set_src src' st)
          end
      end
  end.
Definition on_literal_text (lit : list Z) (st : state) : outcome state :=
  literal_loop (length lit) lit st.

(** src/scn/impl.cpp:1638-1646 and include/scn/scan.h:6310-6336: on_arg_id.  The errors
    go to parse_ctx.m_error, which only parse_custom_arg reads.  do_check_arg_id does nothing
    at run time. *)
Definition next_arg_id (st : state) : outcome (Z * state) :=
  if st_next st <? 0 then Ok (0, set_mixed st)
  else Ok (st_next st, set_next (st_next st + 1) st).
Definition check_arg_id (id : Z) (st : state) : outcome (Z * state) :=
  if 0 <? st_next st then Ok (id, set_mixed st) else Ok (id, set_next (-1) st).

(** src/scn/impl.cpp:1369-1377, get_arg *)
Definition note_missing (id : Z) (st : state) : state :=
  match get_arg id with None => on_error InvalidFormatString st | Some _ => st end.

(** src/scn/impl.cpp:1648-1663, on_visit_scan_arg; [x] is the result of the visit. *)
Definition finish_visit (id : Z) (x : outcome (V * list Z)) (st : state) : outcome state :=
  match x with
  | Ok (v, s) => Ok (add_log (id, v) (set_src s st))
  | Err e => Ok (on_error e st)
  | UB => UB
  | OutOfFuel => OutOfFuel
  end.
Definition failed (st : state) : bool :=
  match st_error st with Some _ => true | None => false end.

(** src/scn/impl.cpp:1665-1674, on_replacement_field *)
Definition on_replacement_field (id : Z) (begin : list Z) (st : state) : outcome state :=
  st <- set_arg_as_visited id (note_missing id st) ;;
  if failed st then Ok st
  else match get_arg id with
       | None => Ok st
       | Some a => finish_visit id (ar_default a (st_src st)) st
       end.

(** src/scn/impl.cpp:1676-1714, on_format_specs.  An error of parse_ctx makes
    parse_custom_arg (include/scn/scan.h:5552-5584) fail after the scanner has parsed, without
    advancing. *)
Definition on_format_specs (id : Z) (begin : list Z) (st : state)
  : outcome (list Z * state) :=
  st <- set_arg_as_visited id (note_missing id st) ;;
  let t := match get_arg id with Some a => ar_type a | None => NoneType end in
  if arg_eqb t CustomType then
    let st := set_pctx begin st in
    if failed st then Ok (begin, st)
    else match get_arg id with
         | None => Ok (begin, st)
         | Some a =>
             let '(p, x) := if st_mixed st then (begin, Err InvalidFormatString)
                            else ar_custom a begin (st_src st) in
             st <- finish_visit id x (set_pctx p st) ;;
             Ok (p, st)
         end
  else
    '(s, ss) <- parse_format_specs cf t begin (SS specs_default false) ;;
    match s with
    | c :: _ =>
        if negb (c =? 125) then Ok (st_pctx st, on_error InvalidFormatString st)
        else if ss_err ss then Ok (st_pctx st, st)
        else
          let st := set_pctx s st in
          if failed st then Ok (s, st)
          else match get_arg id with
               | None => Ok (s, st)
               | Some a =>
                   st <- finish_visit id (ar_specs a (ss_specs ss) (st_src st)) st ;;
                   Ok (s, st)
               end
    | [] => Ok (st_pctx st, on_error InvalidFormatString st)
    end.

Definition format_handler : handler state :=
  Handler state on_literal_text next_arg_id check_arg_id on_replacement_field
    on_format_specs (fun st => Ok (on_error InvalidFormatString st)) failed.

(** include/scn/scan.h:7791-7799, parse_format_string, and impl.cpp:1729-1740,
    vscan_parse_format_string.  Result: stored values and rest of the source. *)
Definition vscan_fuel (format : list Z) : nat :=
  ((length args + 2) * (length format + 1))%nat.
Definition vscan_parse_format_string (format source : list Z)
  : outcome (list (Z * V) * list Z) :=
  st <- parse_format_string_impl (vscan_fuel format) format_handler format
          (init_state format source) ;;
  st <- check_args_exhausted st ;;
  match st_error st with
  | Some e => Err e
  | None => Ok (st_log st, st_src st)
  end.

(** src/scn/impl.cpp:1313-1367: is_simple_single_argument_format_string,
    scan_simple_single_argument; and vscan_value_internal (1790-1796) *)
Definition is_simple (format : list Z) : bool :=
  match format with [a; b] => (a =? 123) && (b =? 125) | _ => false end.
Definition scan_simple_single_argument (a : option arg) (source : list Z)
  : outcome (list (Z * V) * list Z) :=
  match a with
  | None => Err InvalidFormatString
  | Some a => '(v, s) <- ar_plain a source ;; Ok ([(0, v)], s)
  end.
Definition vscan_value (a : arg) (source : list Z) : outcome (list (Z * V) * list Z) :=
  scan_simple_single_argument (Some a) source.

(** src/scn/impl.cpp:1742-1788, vscan_internal *)
Definition vscan (format source : list Z) : outcome (list (Z * V) * list Z) :=
  if is_simple format && (args_count =? 1)
  then scan_simple_single_argument (get_arg 0) source
  else vscan_parse_format_string format source.

(** Compile-time checking.  Any call to on_error makes the program ill-formed, which is
    [Err InvalidFormatString] here. *)
Definition reject {A} : outcome A := Err InvalidFormatString.

(** Properties of the source type: m_is_contiguous, m_is_borrowed. *)
Variable src_contiguous src_borrowed : bool.
Variable types : list arg_type.
(** What scanner<T>::parse of a user-defined type does to the position; the flag tells
    whether it reports an error. *)
Variable custom_parse : Z -> list Z -> outcome (list Z).

Definition num_args : Z := Z.of_nat (length types).
Record cstate : Type := CS { cs_next : Z; cs_visited : list Z }.

(** include/scn/scan.h:8532-8559, format_string_checker::on_literal_text *)
Definition ct_literal (lit : list Z) (st : cstate) : outcome cstate :=
  ok <- validate_unicode (c_enc cf) lit ;; if ok : bool then Ok st else reject.

(** include/scn/scan.h:6310-6336, 6768-6786: on_arg_id *)
Definition ct_next_arg_id (st : cstate) : outcome (Z * cstate) :=
  if cs_next st <? 0 then reject
  else if num_args <=? cs_next st then reject
  else Ok (cs_next st, CS (cs_next st + 1) (cs_visited st)).
Definition ct_check_arg_id (id : Z) (st : cstate) : outcome (Z * cstate) :=
  if 0 <? cs_next st then reject
  else if num_args <=? id then reject
  else Ok (id, CS (-1) (cs_visited st)).

(** include/scn/scan.h:8646-8656, set_arg_as_read *)
Definition set_arg_as_read (id : Z) (st : cstate) : outcome cstate :=
  if num_args <=? id then reject
  else if existsb (Z.eqb id) (cs_visited st) then reject
  else Ok (CS (cs_next st) (id :: cs_visited st)).

(** include/scn/scan.h:8658-8683, check_arg_can_be_read *)
Definition is_view_type (t : arg_type) : bool :=
  match t with NarrowStringViewType | WideStringViewType => true | _ => false end.
Definition is_regex_type (t : arg_type) : bool :=
  match t with NarrowRegexMatchesType | WideRegexMatchesType => true | _ => false end.
Definition check_arg_can_be_read (t : arg_type) : outcome unit :=
  if is_view_type t && negb src_contiguous then reject
  else if is_view_type t && negb src_borrowed then reject
  else if is_regex_type t && negb src_contiguous then reject
  else Ok tt.

(** include/scn/scan.h:9036-9128, scanner_parse_for_builtin_type *)
Definition check_type_specs (t : arg_type) (sp : specs) : outcome bool :=
  match t with
  | NoneType | CustomType => UB
  | BoolType => Ok (check_bool_type_specs sp)
  | SCharType | ShortType | IntType | LongType | LLongType
  | UCharType | UShortType | UIntType | ULongType | ULLongType =>
      Ok (check_int_type_specs sp)
  | NarrowCharacterType | WideCharacterType | CodePointType =>
      Ok (check_char_type_specs sp)
  | FloatType | DoubleType | LDoubleType => Ok (check_float_type_specs sp)
  | NarrowStringType | NarrowStringViewType | WideStringType | WideStringViewType =>
      Ok (check_string_type_specs sp)
  | PointerType => Ok (check_pointer_type_specs sp)
  | NarrowRegexMatchesType | WideRegexMatchesType => Ok (check_regex_type_specs sp)
  end.
Definition ct_parse_builtin (t : arg_type) (s : list Z) : outcome (list Z * specs) :=
  match s with
  | [] => Ok ([], specs_default)
  | _ =>
      '(p, ss) <- parse_format_specs cf t s (SS specs_default false) ;;
      if ss_err ss then reject
      else
        ok <- check_type_specs t (ss_specs ss) ;;
        if negb ok then reject
        else if (ptype_eqb (type (ss_specs ss)) PRegex
                 || ptype_eqb (type (ss_specs ss)) PRegexEscaped)
                && negb (src_contiguous && src_borrowed)
        then reject
        else Ok (p, ss_specs ss)
  end.

(** include/scn/scan.h:8572-8606: on_replacement_field, on_format_specs *)
Definition ct_replacement_field (id : Z) (begin : list Z) (st : cstate) : outcome cstate :=
  st <- set_arg_as_read id st ;;
  match nth_error types (Z.to_nat id) with
  | None => UB
  | Some t =>
      _ <- check_arg_can_be_read t ;;
      if is_regex_type t then reject
      else if arg_eqb t CustomType then _ <- custom_parse id begin ;; Ok st
      else Ok st
  end.
Definition ct_format_specs (id : Z) (begin : list Z) (st : cstate)
  : outcome (list Z * cstate) :=
  st <- set_arg_as_read id st ;;
  match nth_error types (Z.to_nat id) with
  | None => UB
  | Some t =>
      _ <- check_arg_can_be_read t ;;
      if arg_eqb t CustomType then p <- custom_parse id begin ;; Ok (p, st)
      else '(p, _) <- ct_parse_builtin t begin ;; Ok (p, st)
  end.

(** include/scn/scan.h:8608-8618, check_args_exhausted *)
Definition ct_check_args_exhausted (st : cstate) : outcome unit :=
  if num_args =? 0 then Ok tt
  else if forallb (fun i => existsb (Z.eqb i) (cs_visited st)) (zseq 0 (length types))
  then Ok tt else reject.

Definition ct_handler : handler cstate :=
  Handler cstate ct_literal ct_next_arg_id ct_check_arg_id ct_replacement_field
    ct_format_specs (fun _ => reject) (fun _ => false).

(** include/scn/scan.h:8700-8718, check_format_string *)
Definition check_format_string (format : list Z) : outcome unit :=
  st <- parse_format_string_impl (length format + 1) ct_handler format (CS 0 []) ;;
  ct_check_args_exhausted st.
End Vscan.

Arguments ar_type {V}. Arguments ar_default {V}. Arguments ar_specs {V}.
Arguments ar_custom {V}. Arguments ar_plain {V}.
Arguments st_error {V}. Arguments st_low {V}. Arguments st_upper {V}.
Arguments st_next {V}. Arguments st_mixed {V}. Arguments st_pctx {V}. Arguments st_src {V}. Arguments st_log {V}.
