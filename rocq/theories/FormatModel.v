(** Model of format string parsing.  include/scn/scan.h:6893-8019. *)
From Verif Require Import Prelude UnicodeModel SpecsModel ArgsModel.
Local Open Scope Z_scope.

(** Build configuration: width of the format's character type, and
    SCN_DISABLE_REGEX (negated), SCN_REGEX_SUPPORTS_WIDE_STRINGS,
    SCN_REGEX_BACKEND == SCN_REGEX_BACKEND_STD, SCN_HAS_STD_REGEX_MULTILINE.
    SCN_DISABLE_LOCALE is taken to be off. *)
Record config : Type := Config {
  c_enc : enc; c_regex : bool; c_regex_wide : bool; c_regex_std : bool;
  c_regex_multiline : bool }.

(** specs_setter, include/scn/scan.h:7012-7138: the specs being built and m_error
    (only invalid_format_string occurs). *)
Record sstate : Type := SS { ss_specs : specs; ss_err : bool }.
Definition s_error (st : sstate) : sstate := SS (ss_specs st) true.
Definition s_upd (f : specs -> specs) (st : sstate) : sstate :=
  SS (f (ss_specs st)) (ss_err st).

Definition set_align (a : align_type) (s : specs) : specs :=
  Specs (width s) (precision s) (fill s) (type s) (charset_literals s)
        (charset_has_nonascii s) (charset_is_inverted s) (charset_string s)
        (regexp_flags s) (arbitrary_base s) a (localized s).
Definition set_fill (f : fill_type) (s : specs) : specs :=
  Specs (width s) (precision s) f (type s) (charset_literals s)
        (charset_has_nonascii s) (charset_is_inverted s) (charset_string s)
        (regexp_flags s) (arbitrary_base s) (align s) (localized s).
Definition set_width (w : Z) (s : specs) : specs :=
  Specs w (precision s) (fill s) (type s) (charset_literals s)
        (charset_has_nonascii s) (charset_is_inverted s) (charset_string s)
        (regexp_flags s) (arbitrary_base s) (align s) (localized s).
Definition set_precision (p : Z) (s : specs) : specs :=
  Specs (width s) p (fill s) (type s) (charset_literals s)
        (charset_has_nonascii s) (charset_is_inverted s) (charset_string s)
        (regexp_flags s) (arbitrary_base s) (align s) (localized s).
Definition set_type (t : ptype) (s : specs) : specs :=
  Specs (width s) (precision s) (fill s) t (charset_literals s)
        (charset_has_nonascii s) (charset_is_inverted s) (charset_string s)
        (regexp_flags s) (arbitrary_base s) (align s) (localized s).
Definition set_literals (l : list Z) (s : specs) : specs :=
  Specs (width s) (precision s) (fill s) (type s) l
        (charset_has_nonascii s) (charset_is_inverted s) (charset_string s)
        (regexp_flags s) (arbitrary_base s) (align s) (localized s).
Definition set_has_nonascii (s : specs) : specs :=
  Specs (width s) (precision s) (fill s) (type s) (charset_literals s)
        true (charset_is_inverted s) (charset_string s)
        (regexp_flags s) (arbitrary_base s) (align s) (localized s).
Definition set_is_inverted (s : specs) : specs :=
  Specs (width s) (precision s) (fill s) (type s) (charset_literals s)
        (charset_has_nonascii s) true (charset_string s)
        (regexp_flags s) (arbitrary_base s) (align s) (localized s).
Definition set_string (str : list Z) (s : specs) : specs :=
  Specs (width s) (precision s) (fill s) (type s) (charset_literals s)
        (charset_has_nonascii s) (charset_is_inverted s) str
        (regexp_flags s) (arbitrary_base s) (align s) (localized s).
Definition set_flags (f : Z) (s : specs) : specs :=
  Specs (width s) (precision s) (fill s) (type s) (charset_literals s)
        (charset_has_nonascii s) (charset_is_inverted s) (charset_string s)
        f (arbitrary_base s) (align s) (localized s).
Definition set_localized (s : specs) : specs :=
  Specs (width s) (precision s) (fill s) (type s) (charset_literals s)
        (charset_has_nonascii s) (charset_is_inverted s) (charset_string s)
        (regexp_flags s) (arbitrary_base s) (align s) true.

(** include/scn/scan.h:6901-6932, fill_type::operator=(basic_string_view<CharT>).
    For wider characters m_size is left alone. *)
Definition fill_assign (e : enc) (s : list Z) (f : fill_type) : outcome fill_type :=
  match e with
  | U8 =>
      if (length s =? 0)%nat || (4 <? length s)%nat then UB
      else Ok (Fill (s ++ skipn (length s) (f_data f)) (length s))
  | U16 =>
      match s with
      | [a] => Ok (Fill ([a mod 256; Z.shiftr a 8 mod 256] ++ skipn 2 (f_data f)) (f_size f))
      | [a; b] => Ok (Fill [a mod 256; Z.shiftr a 8 mod 256; b mod 256; Z.shiftr b 8 mod 256]
                           (f_size f))
      | _ => UB
      end
  | U32 =>
      match s with
      | [a] => Ok (Fill [a mod 256; Z.shiftr a 8 mod 256; Z.shiftr a 16 mod 256;
                         Z.shiftr a 24 mod 256] (f_size f))
      | _ => UB
      end
  end.

(** include/scn/scan.h:7016-7055: on_align, on_fill, on_width, on_precision *)
Definition on_align (a : align_type) (st : sstate) : sstate := s_upd (set_align a) st.
Definition on_fill (e : enc) (s : list Z) (st : sstate) : outcome sstate :=
  f <- fill_assign e s (fill (ss_specs st)) ;; Ok (s_upd (set_fill f) st).
Definition on_width (w : Z) (st : sstate) : sstate :=
  if negb (precision (ss_specs st) =? 0) && (precision (ss_specs st) <? w)
  then s_error st else s_upd (set_width w) st.
Definition on_precision (p : Z) (st : sstate) : sstate :=
  if p <? width (ss_specs st) then s_error st else s_upd (set_precision p) st.

(** include/scn/scan.h:7062-7097: charset_literals is the bit set of its 16 bytes. *)
Fixpoint lits_set (lits : list Z) (v : Z) : list Z :=
  match lits with
  | [] => []
  | b :: lits' =>
      if v <? 8 then Z.lor b (Z.shiftl 1 v) :: lits' else b :: lits_set lits' (v - 8)
  end.
Definition on_charset_single (cp : Z) (st : sstate) : sstate :=
  if cp <=? 127
  then s_upd (fun s => set_literals (lits_set (charset_literals s) cp) s) st
  else s_upd set_has_nonascii st.
Definition on_charset_range (b e : Z) (st : sstate) : outcome sstate :=
  if negb (b <? e) then UB
  else if e <=? 127
  then Ok (s_upd (fun s => set_literals
             (fold_left lits_set (zseq b (Z.to_nat (e - b))) (charset_literals s)) s) st)
  else Ok (s_upd set_has_nonascii st).
Definition on_charset_inverted (st : sstate) : sstate := s_upd set_is_inverted st.

(** include/scn/scan.h:7099-7105, on_character_set_string *)
Definition on_character_set_string (str : list Z) (st : sstate) : sstate :=
  s_upd (fun s => set_type PStringSet (set_string str s)) st.

(** include/scn/scan.h:7813-7865, get_category_for_arg_type; [UB]: SCN_ENSURE(false),
    reached for the regex match types. *)
Inductive category : Type :=
| CatNone | CatInteger | CatUnsigned | CatFloating | CatString | CatPointer
| CatBoolean | CatCharacter | CatCustom.
Definition get_category (t : arg_type) : outcome category :=
  match t with
  | NoneType => Ok CatNone
  | SCharType | ShortType | IntType | LongType | LLongType => Ok CatInteger
  | UCharType | UShortType | UIntType | ULongType | ULLongType => Ok CatUnsigned
  | PointerType => Ok CatPointer
  | BoolType => Ok CatBoolean
  | NarrowCharacterType | WideCharacterType | CodePointType => Ok CatCharacter
  | FloatType | DoubleType | LDoubleType => Ok CatFloating
  | NarrowStringViewType | WideStringViewType | NarrowStringType | WideStringType =>
      Ok CatString
  | CustomType => Ok CatCustom
  | NarrowRegexMatchesType | WideRegexMatchesType => UB
  end.

(** include/scn/scan.h:7867-7895, specs_checker::on_localized *)
Definition on_localized (t : arg_type) (st : sstate) : outcome sstate :=
  cat <- get_category t ;;
  match cat with
  | CatInteger | CatUnsigned | CatFloating | CatBoolean => Ok (s_upd set_localized st)
  | _ => Ok (s_error st)
  end.

Definition is_digit (c : Z) : bool := (48 <=? c) && (c <=? 57).

(** include/scn/scan.h:7140-7157, parse_simple_int: result and position.  On overflow
    the position is the digit that overflowed. *)
Fixpoint parse_simple_int_loop (s : list Z) (value : Z) : Z * list Z :=
  match s with
  | c :: s' =>
      if is_digit c then
        let v := value * 10 + (c - 48) in
        if 0x7fffffff <? v then (-1, s) else parse_simple_int_loop s' v
      else (value, s)
  | [] => (value, s)
  end.
Definition parse_simple_int (s : list Z) : outcome (Z * list Z) :=
  match s with
  | c :: _ => if is_digit c then Ok (parse_simple_int_loop s 0) else UB
  | [] => UB
  end.

(** include/scn/scan.h:7203-7253, parse_presentation_type *)
Definition parse_presentation_type (c : Z) : outcome ptype :=
  if (c =? 98) || (c =? 66) then Ok PIntBinary
  else if c =? 100 then Ok PIntDecimal
  else if c =? 105 then Ok PIntGeneric
  else if c =? 117 then Ok PIntUnsignedDecimal
  else if c =? 111 then Ok PIntOctal
  else if (c =? 120) || (c =? 88) then Ok PIntHex
  else if (c =? 114) || (c =? 82) then Ok PIntArbitraryBase
  else if (c =? 97) || (c =? 65) then Ok PFloatHex
  else if (c =? 101) || (c =? 69) then Ok PFloatScientific
  else if (c =? 102) || (c =? 70) then Ok PFloatFixed
  else if (c =? 103) || (c =? 71) then Ok PFloatGeneral
  else if c =? 115 then Ok PString
  else if c =? 99 then Ok PCharacter
  else if c =? 63 then Ok PEscapedCharacter
  else if c =? 112 then Ok PPointer
  else if (c =? 91) || (c =? 47) then UB
  else Ok PNone.

(** include/scn/scan.h:7255-7260, is_ascii_letter *)
Definition is_ascii_letter (c : Z) : bool :=
  ((97 <=? c) && (c <=? 122)) || ((65 <=? c) && (c <=? 90)).

(** include/scn/scan.h:7262-7276, code_point_length *)
Definition code_point_length (e : enc) (c : Z) : nat :=
  match e with U8 => utf8_cp_len c | _ => 1%nat end.

(** include/scn/scan.h:7285-7296, check_align; the cast to wchar_t of a non-ASCII
    unit matches no case. *)
Definition check_align (c : Z) : align_type :=
  if c =? 60 then ALeft else if c =? 62 then ARight else if c =? 94 then ACenter else ANone.

(** include/scn/scan.h:7278-7341, parse_align *)
Definition parse_align (e : enc) (s : list Z) (st : sstate) : outcome (list Z * sstate) :=
  match s with
  | [] => UB
  | c :: _ =>
      let len := code_point_length e c in
      if (len =? 0)%nat || (length s <? len)%nat then Ok (s, s_error st)
      else
        let on_fill_align := check_align c in
        let after := skipn len s in
        match after with
        | [] => Ok (s, st)
        | a :: after' =>
            let after_align := check_align a in
            if (len =? 1)%nat && (c =? 123) then Ok (after', s_error st)
            else if (len =? 1)%nat && (c =? 91) then Ok (s, st)
            else
              match after_align with
              | ANone =>
                  match on_fill_align with
                  | ANone => Ok (s, st)
                  | _ => Ok (after, on_align on_fill_align st)
                  end
              | _ =>
                  st <- on_fill e (firstn len s) st ;;
                  Ok (after', on_align after_align st)
              end
        end
  end.

(** include/scn/scan.h:7343-7381, parse_width and parse_precision *)
Definition parse_width (s : list Z) (st : sstate) : outcome (list Z * sstate) :=
  match s with
  | [] => UB
  | c :: _ =>
      if is_digit c then
        '(w, s') <- parse_simple_int s ;;
        if w =? -1 then Ok (s', s_error st) else Ok (s', on_width w st)
      else Ok (s, st)
  end.
Definition parse_precision (s : list Z) (st : sstate) : outcome (list Z * sstate) :=
  match s with
  | [] => UB
  | c :: _ =>
      if is_digit c then
        '(p, s') <- parse_simple_int s ;;
        if p =? -1 then Ok (s', s_error st) else Ok (s', on_precision p st)
      else Ok (s, st)
  end.

(** include/scn/scan.h:7383-7405, parse_presentation_set_code_point.  [None]: error
    (position unchanged). *)
Definition parse_set_code_point (e : enc) (s : list Z) : outcome (option (Z * list Z)) :=
  match s with
  | [] => UB
  | c :: _ =>
      let len := cp_len e c in
      if (len =? 0)%nat || (length s <? len)%nat then Ok None
      else cp <- decode_cp e (firstn len s) ;;
           if invalid_code_point <=? cp then Ok None else Ok (Some (cp, skipn len s))
  end.

(** Handler of a character set: on_charset_single, on_charset_range,
    on_charset_inverted, on_error, and whether get_error() is an error. *)
Record set_handler (St : Type) : Type := SetHandler {
  sh_single : Z -> St -> outcome St;
  sh_range : Z -> Z -> St -> outcome St;
  sh_inverted : St -> St;
  sh_error : St -> St;
  sh_failed : St -> bool }.
Arguments sh_single {St}. Arguments sh_range {St}. Arguments sh_inverted {St}.
Arguments sh_error {St}. Arguments sh_failed {St}.

(** include/scn/scan.h:7407-7440, parse_presentation_set_literal *)
Definition parse_set_literal {St} (h : set_handler St) (e : enc) (s : list Z) (st : St)
  : outcome (list Z * St) :=
  r <- parse_set_code_point e s ;;
  match r with
  | None => Ok (s, sh_error h st)
  | Some (first, s') =>
      match s' with
      | d :: c :: s2 =>
          if (d =? 45) && negb (c =? 93) then
            r <- parse_set_code_point e (c :: s2) ;;
            match r with
            | None => Ok (c :: s2, sh_error h st)
            | Some (second, s'') =>
                if second <? first then Ok (s'', sh_error h st)
                else st <- sh_range h first (second + 1) st ;; Ok (s'', st)
            end
          else st <- sh_single h first st ;; Ok (s', st)
      | _ => st <- sh_single h first st ;; Ok (s', st)
      end
  end.

(** include/scn/scan.h:7478-7492, the loop of parse_presentation_set.  [fuel]: number
    of iterations.  Result: position, state, whether the closing bracket was found. *)
Fixpoint parse_set_loop {St} (fuel : nat) (h : set_handler St) (e : enc) (s : list Z)
  (st : St) : outcome (list Z * St * bool) :=
  match s with
  | [] => Ok ([], sh_error h st, false)
  | c :: s' =>
      if sh_failed h st then Ok (s, sh_error h st, false)
      else if c =? 93 then Ok (s', st, true)
      else match fuel with
           | O => OutOfFuel
           | S f => '(s2, st) <- parse_set_literal h e s st ;; parse_set_loop f h e s2 st
           end
  end.

(** include/scn/scan.h:7442-7493, parse_presentation_set.  Result: position, state and
    the returned view. *)
Definition finish_set {St} (h : set_handler St) (e : enc) (s s2 : list Z) (st : St)
  : outcome (list Z * St * list Z) :=
  '(s3, st, found) <- parse_set_loop (length s2) h e s2 st ;;
  Ok (s3, st, if found : bool then firstn (length s - length s3) s else []).
Definition parse_presentation_set {St} (h : set_handler St) (e : enc) (s : list Z)
  (st : St) : outcome (list Z * St * list Z) :=
  match s with
  | 91 :: s1 =>
      match s1 with
      | [] => Ok ([], sh_error h st, [])
      | c :: s2 =>
          if c =? 94 then
            let st := sh_inverted h st in
            match s2 with
            | [] => Ok ([], sh_error h st, [])
            | d :: s3 => if d =? 93 then st <- sh_single h 93 st ;; finish_set h e s s3 st
                         else finish_set h e s s2 st
            end
          else if c =? 93 then Ok (s2, st, [91; 93])
          else finish_set h e s s1 st
      end
  | _ => UB
  end.

(** specs_setter as such a handler *)
Definition specs_set_handler : set_handler sstate :=
  SetHandler sstate (fun cp st => Ok (on_charset_single cp st)) on_charset_range
    on_charset_inverted s_error ss_err.

(** include/scn/scan.h:7519-7529, the search for the closing slash: position and type;
    [prev] is the preceding unit. *)
Fixpoint regex_end (prev : Z) (s : list Z) (t : ptype) : list Z * ptype :=
  match s with
  | [] => ([], t)
  | c :: s' =>
      if c =? 47 then
        if negb (prev =? 92) then (s, t) else regex_end c s' PRegexEscaped
      else regex_end c s' t
  end.

(** include/scn/scan.h:7549-7590, the flag loop: position, state, flags ([None]: returned
    early). *)
Definition regex_flag (c : Z) : option Z :=
  if c =? 109 then Some 1 else if c =? 115 then Some 2
  else if c =? 105 then Some 4 else if c =? 110 then Some 8 else None.
Fixpoint regex_flags_loop (cf : config) (s : list Z) (flags : Z) (st : sstate)
  : list Z * sstate * option Z :=
  match s with
  | [] => ([], st, Some flags)
  | c :: s' =>
      if c =? 125 then (s, st, Some flags)
      else
        match regex_flag c with
        | None => (s, s_error st, None)
        | Some f =>
            if negb (Z.land flags f =? 0) then (s, s_error st, None)
            else
              let st := if c_regex_std cf
                           && ((c =? 115) || ((c =? 109) && negb (c_regex_multiline cf)))
                        then s_error st else st in
              regex_flags_loop cf s' (Z.lor flags f) st
        end
  end.

(** include/scn/scan.h:7495-7602, parse_presentation_regex *)
Definition parse_presentation_regex (cf : config) (s : list Z) (st : sstate)
  : outcome (list Z * sstate) :=
  if negb (c_regex cf) then Ok (s, s_error st)
  else
    match s with
    | 47 :: s1 =>
        if negb (c_regex_wide cf) && negb (match c_enc cf with U8 => true | _ => false end)
        then Ok (s, s_error st)
        else
          match s1 with
          | [] => Ok ([], s_error st)
          | _ =>
              let '(s2, t) := regex_end 47 s1 PRegex in
              let st := s_upd (set_type t) st in
              match s2 with
              | [] => Ok ([], s_error st)
              | _ :: s3 =>
                  let pattern := firstn (length s1 - length s2) s1 in
                  match pattern with
                  | [] => Ok (s2, s_error st)
                  | _ =>
                      let st := s_upd (set_string pattern) st in
                      match s3 with
                      | [] => Ok ([], s_error st)
                      | _ =>
                          let '(s4, st, flags) := regex_flags_loop cf s3 0 st in
                          match flags with
                          | None => Ok (s4, st)
                          | Some f =>
                              let st := s_upd (set_flags f) st in
                              match s4 with
                              | [] => Ok ([], s_error st)
                              | _ => Ok (s4, st)
                              end
                          end
                      end
                  end
              end
          end
    | _ => UB
    end.

(** include/scn/scan.h:7609-7630, do_presentation *)
Definition do_presentation (cf : config) (s : list Z) (st : sstate)
  : outcome (list Z * sstate) :=
  match s with
  | [] => UB
  | c :: s' =>
      if c =? 91 then
        '(s2, st, set) <- parse_presentation_set specs_set_handler (c_enc cf) s st ;;
        if (length set <=? 2)%nat then Ok (s2, s_error st)
        else Ok (s2, on_character_set_string set st)
      else if c =? 47 then parse_presentation_regex cf s st
      else
        t <- parse_presentation_type c ;;
        match t with
        | PNone => Ok (s', s_error st)
        | _ => Ok (s', s_upd (set_type t) st)
        end
  end.

(** include/scn/scan.h:7668-7686, parse_format_specs from the L flag on *)
Definition parse_specs_tail (cf : config) (t : arg_type) (s : list Z) (st : sstate)
  : outcome (list Z * sstate) :=
  match s with
  | [] => UB
  | c :: s' =>
      '(s, st) <- (if c =? 76 then st <- on_localized t st ;; Ok (s', st)
                   else Ok (s, st)) ;;
      match s with
      | [] => Ok ([], s_error st)
      | c :: _ =>
          '(s, st) <- (if negb (c =? 125) then do_presentation cf s st
                       else Ok (s, st)) ;;
          match s with
          | [] => Ok ([], s_error st)
          | _ => Ok (s, st)
          end
      end
  end.

(** include/scn/scan.h:7604-7686, parse_format_specs with specs_checker for the
    argument type [t] *)
Definition specs_shortcut (s : list Z) : bool :=
  match s with
  | c :: d :: _ => (d =? 125) && is_ascii_letter c && negb (c =? 76)
  | _ => false
  end.
Definition parse_format_specs (cf : config) (t : arg_type) (s : list Z) (st : sstate)
  : outcome (list Z * sstate) :=
  if specs_shortcut s then do_presentation cf s st
  else
    match s with
    | [] => Ok ([], s_error st)
    | _ =>
        '(s, st) <- parse_align (c_enc cf) s st ;;
        match s with
        | [] => Ok ([], s_error st)
        | _ =>
            '(s, st) <- parse_width s st ;;
            match s with
            | [] => Ok ([], s_error st)
            | c :: s' =>
                if c =? 46 then
                  match s' with
                  | [] => Ok ([], s_error st)
                  | _ =>
                      '(s, st) <- parse_precision s' st ;;
                      match s with
                      | [] => Ok ([], s_error st)
                      | _ => parse_specs_tail cf t s st
                      end
                  end
                else parse_specs_tail cf t s st
            end
        end
    end.

(** include/scn/scan.h:7897-8019: check_*_type_specs.  [true]: accepted. *)
Definition check_int_type_specs (s : specs) : bool :=
  if ptype_rank PIntHex <? ptype_rank (type s) then false
  else if localized s then
    negb (ptype_eqb (type s) PIntBinary) && negb (ptype_eqb (type s) PIntArbitraryBase)
  else true.
Definition check_char_type_specs (s : specs) : bool :=
  negb ((ptype_rank PIntHex <? ptype_rank (type s)) || ptype_eqb (type s) PIntArbitraryBase).
Definition check_code_point_type_specs (s : specs) : bool :=
  negb (negb (ptype_eqb (type s) PNone) && negb (ptype_eqb (type s) PCharacter)).
Definition check_float_type_specs (s : specs) : bool :=
  negb (negb (ptype_eqb (type s) PNone)
        && ((ptype_rank (type s) <? ptype_rank PFloatHex)
            || (ptype_rank PFloatGeneral <? ptype_rank (type s)))).
Definition check_string_type_specs (s : specs) : bool :=
  match type s with
  | PNone | PString | PStringSet | PRegex | PRegexEscaped => true
  | PCharacter => negb (precision s =? 0)
  | _ => false
  end.
Definition check_pointer_type_specs (s : specs) : bool :=
  negb (negb (ptype_eqb (type s) PNone) && negb (ptype_eqb (type s) PPointer)).
Definition check_bool_type_specs (s : specs) : bool :=
  match type s with
  | PNone | PString | PIntGeneric | PIntHex | PIntBinary | PIntUnsignedDecimal
  | PIntOctal | PIntDecimal => true
  | _ => false
  end.
Definition check_regex_type_specs (s : specs) : bool :=
  if ptype_eqb (type s) PNone || (length (charset_string s) =? 0)%nat then false
  else ptype_eqb (type s) PRegex || ptype_eqb (type s) PRegexEscaped.

(** A handler of parse_format_string, over its state. *)
Record handler (St : Type) : Type := Handler {
  h_literal : list Z -> St -> outcome St;
  h_auto_id : St -> outcome (Z * St);
  h_id : Z -> St -> outcome (Z * St);
  h_field : Z -> list Z -> St -> outcome St;
  h_specs : Z -> list Z -> St -> outcome (list Z * St);
  h_error : St -> outcome St;
  h_failed : St -> bool }.
Arguments h_literal {St}. Arguments h_auto_id {St}. Arguments h_id {St}.
Arguments h_field {St}. Arguments h_specs {St}. Arguments h_error {St}.
Arguments h_failed {St}.

(** include/scn/scan.h:7159-7201, do_parse_arg_id and parse_arg_id with the id_adapter
    of parse_replacement_field (7693-7711): the position and the id (0 if none was
    set).  An id of -1 (overflow) is never handed on. *)
Definition do_parse_arg_id {St} (h : handler St) (s : list Z) (st : St)
  : outcome (list Z * Z * St) :=
  match s with
  | [] => UB
  | c :: s' =>
      if (c <? 48) || (57 <? c) then st <- h_error h st ;; Ok (s, 0, st)
      else
        '(idx, s2) <- (if negb (c =? 48) then parse_simple_int s else Ok (0, s')) ;;
        match s2 with
        | d :: _ =>
            if negb (d =? 125) && negb (d =? 58)
            then st <- h_error h st ;; Ok (s2, 0, st)
            else '(id, st) <- h_id h idx st ;; Ok (s2, id, st)
        | [] => st <- h_error h st ;; Ok (s2, 0, st)
        end
  end.
Definition parse_arg_id {St} (h : handler St) (s : list Z) (st : St)
  : outcome (list Z * Z * St) :=
  match s with
  | [] => UB
  | c :: _ =>
      if negb (c =? 125) && negb (c =? 58) then do_parse_arg_id h s st
      else '(id, st) <- h_auto_id h st ;; Ok (s, id, st)
  end.

(** include/scn/scan.h:7688-7755, parse_replacement_field; [s] starts at the brace. *)
Definition parse_replacement_field {St} (h : handler St) (s : list Z) (st : St)
  : outcome (list Z * St) :=
  match s with
  | [] => UB
  | _ :: s =>
      match s with
      | [] => st <- h_error h st ;; Ok ([], st)
      | c :: s' =>
          if c =? 125 then
            '(id, st) <- h_auto_id h st ;;
            st <- h_field h id s st ;; Ok (s', st)
          else if c =? 123 then
            st <- h_literal h [c] st ;; Ok (s', st)
          else
            '(s, id, st) <- parse_arg_id h s st ;;
            match s with
            | [] => st <- h_error h st ;; Ok ([], st)
            | c :: s' =>
                if c =? 125 then st <- h_field h id s st ;; Ok (s', st)
                else if c =? 58 then
                  match s' with
                  | [] => st <- h_error h st ;; Ok (s, st)
                  | _ =>
                      '(s, st) <- h_specs h id s' st ;;
                      match s with
                      | [] => st <- h_error h st ;; Ok ([], st)
                      | d :: s2 =>
                          if negb (d =? 125) then st <- h_error h st ;; Ok (s, st)
                          else Ok (s2, st)
                      end
                  end
                else st <- h_error h st ;; Ok (s, st)
            end
      end
  end.

(** include/scn/scan.h:7757-7789, parse_format_string_impl.  [begin] and [it] are
    positions; the literal is the text between them.  [fuel]: number of iterations. *)
Definition between (b e : list Z) : list Z := firstn (length b - length e) b.
Fixpoint parse_loop {St} (fuel : nat) (h : handler St) (begin it : list Z) (st : St)
  : outcome St :=
  match it with
  | [] => h_literal h begin st
  | ch :: it' =>
      match fuel with
      | O => OutOfFuel
      | S f =>
          if ch =? 123 then
            st <- h_literal h (between begin it) st ;;
            '(p, st) <- parse_replacement_field h it st ;;
            if h_failed h st then Ok st else parse_loop f h p p st
          else if ch =? 125 then
            match it' with
            | d :: it2 =>
                if negb (d =? 125) then h_error h st
                else
                  st <- h_literal h (between begin it') st ;;
                  parse_loop f h it2 it2 st
            | [] => h_error h st
            end
          else parse_loop f h begin it' st
      end
  end.
Definition parse_format_string_impl {St} (fuel : nat) (h : handler St) (format : list Z)
  (st : St) : outcome St :=
  parse_loop fuel h format format st.
