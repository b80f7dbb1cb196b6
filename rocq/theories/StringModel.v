(** Model of the string readers.  src/scn/impl.h:2102-2130, 4679-4696, 4785-5376. *)
From Verif Require Import Prelude BitsModel UnicodeModel WhitespaceModel ReadModel SpecsModel
  FormatModel IntModel WidthModel ArgReaderModel.
Local Open Scope Z_scope.

(** src/scn/impl.h:2102-2130, read_until_code_units: the first occurrence of [needle], or
    the end.  Both branches of the source give the same position. *)
Fixpoint read_until_code_units (needle s : list Z) : list Z :=
  match s with
  | [] => []
  | _ :: s' => if starts_with needle s then s else read_until_code_units needle s'
  end.

(** What a string is stored in: std::basic_string or std::basic_string_view of characters
    of encoding [to].  [alloc]: make_contiguous_buffer (1772-1789) has to copy, because
    the characters between the two positions are not contiguous in memory. *)
Inductive dest : Type := DString (to : enc) | DView (to : enc) (alloc : bool).
Definition enc_eqb (a b : enc) : bool :=
  match a, b with U8, U8 | U16, U16 | U32, U32 => true | _, _ => false end.

(** src/scn/impl.h:4789-4852, read_string_impl and read_string_view_impl, with
    transcode_if_necessary (3088-3132).  [it]: where the characters end. *)
Definition store (d : dest) (e : enc) (s it : list Z) : outcome (list Z * list Z) :=
  let src := firstn (length s - length it) s in
  match d with
  | DString to =>
      valid <- validate_unicode e src ;;
      if negb valid then Err InvalidScannedValue
      else v <- (if enc_eqb e to then Ok src else transcode_valid_to_string e to src) ;;
           Ok (v, it)
  | DView to alloc =>
      if alloc then Err InvalidFormatString
      else if negb (enc_eqb e to) then Err InvalidFormatString
      else valid <- validate_unicode e src ;;
           if negb valid then Err InvalidScannedValue else Ok (src, it)
  end.

(** src/scn/impl.h:4854-4871, word_reader_impl *)
Definition word_read (d : dest) (r : src) (s : list Z) : outcome (list Z * list Z) :=
  it <- read_until_classic_space r s ;; store d (s_enc r) s it.

(** src/scn/impl.h:4873-4919, custom_word_reader_impl.  [UB]: as in [skip_fill]. *)
Definition custom_word_read (d : dest) (r : src) (f : fill_type) (s : list Z)
  : outcome (list Z * list Z) :=
  if (f_size f <=? unit_size (s_enc r))%nat
  then store d (s_enc r) s (read_until_code_unit (fun c => c =? get_code_unit f) s)
  else match s_enc r with
       | U8 => store d U8 s (read_until_code_units (get_code_units f) s)
       | _ => UB
       end.

(** src/scn/impl.h:4679-4696, get_unescaped_regex_pattern *)
Fixpoint unescape_pattern (p : list Z) : list Z :=
  match p with
  | [] => []
  | c :: p' =>
      match p' with
      | d :: p'' => if (c =? 92) && (d =? 47) then 47 :: unescape_pattern p''
                    else c :: unescape_pattern p'
      | [] => [c]
      end
  end.

(** src/scn/impl.h:4370-4475, read_regex_string_impl: an external regular expression
    engine.  Given pattern, flags and input it says what is left after the match;
    [Err]: its two kinds of failure. *)
Definition regex_engine : Type := list Z -> Z -> list Z -> outcome (list Z).

(** src/scn/impl.h:4921-4975, regex_string_reader_impl, for a backend supporting the
    encoding.  Of the sources here only contiguous ones are entirely contiguous
    (is_entire_source_contiguous, 957-977); a buffered source all of whose characters are
    in one buffer is not modelled here. *)
Definition regex_read (rx : regex_engine) (d : dest) (r : src) (pattern : list Z) (flags : Z)
  (s : list Z) : outcome (list Z * list Z) :=
  if negb (s_contig r) then Err InvalidFormatString
  else it <- rx pattern flags s ;; store d (s_enc r) s it.

(** src/scn/impl.h:4978-5026, character_reader_impl.  A range is a take_width_view exactly
    if a precision is given (6185-6190). *)
Definition character_read (d : dest) (r : src) (sp : specs) (s : list Z)
  : outcome (list Z * list Z) :=
  if precision sp =? 0 then Err InvalidFormatString else store d (s_enc r) s [].

(** src/scn/impl.h:5028-5078, nonascii_specs_handler: extra_ranges and whether err is
    set. *)
Record nstate : Type := NS { ns_ranges : list (Z * Z); ns_err : bool }.
Fixpoint merge_range (b e : Z) (rs : list (Z * Z)) : option (list (Z * Z)) :=
  match rs with
  | [] => None
  | (x, y) :: rs' =>
      if x =? e then Some ((b, y) :: rs')
      else if y =? b then Some ((x, e) :: rs')
      else option_map (cons (x, y)) (merge_range b e rs')
  end.
Definition na_range (b e : Z) (st : nstate) : nstate :=
  if e <=? 127 then st
  else match merge_range b e (ns_ranges st) with
       | Some rs => NS rs (ns_err st)
       | None => NS (ns_ranges st ++ [(b, e)]) (ns_err st)
       end.
Definition nonascii_handler : set_handler nstate :=
  SetHandler nstate (fun cp st => Ok (na_range cp (cp + 1) st))
    (fun b e st => Ok (na_range b e st)) (fun st => st)
    (fun st => NS (ns_ranges st) true) ns_err.

(** src/scn/impl.h:5112-5163, specs_helper.  The ranges are sorted afterwards in the
    source; only their membership is ever asked for.  [UB]: the two SCN_ENSURE. *)
Fixpoint list_eqb (a b : list Z) : bool :=
  match a, b with
  | [], [] => true
  | x :: a', y :: b' => (x =? y) && list_eqb a' b'
  | _, _ => false
  end.
Definition handle_nonascii (e : enc) (sp : specs) : outcome (list (Z * Z)) :=
  if negb (charset_has_nonascii sp) then Ok []
  else
    '(it, st, set) <- parse_presentation_set nonascii_handler e (charset_string sp) (NS [] false) ;;
    if ns_err st then Err InvalidFormatString
    else match it with
         | [] => if list_eqb set (charset_string sp) then Ok (ns_ranges st) else UB
         | _ => UB
         end.
Definition in_literals (lits : list Z) (ch : Z) : bool :=
  Z.odd (Z.shiftr (nth (Z.to_nat (ch / 8)) lits 0) (ch mod 8)).
Definition in_extra_ranges (rs : list (Z * Z)) (cp : Z) : bool :=
  existsb (fun '(a, b) => (a <=? cp) && (cp <? b)) rs.

(** src/scn/impl.h:5165-5186, read_source_callback *)
Definition is_ascii_char (c : Z) : bool := c <=? 127.
Definition on_ascii_only (lits : list Z) (ch : Z) : bool :=
  if negb (is_ascii_char ch) then false else in_literals lits ch.
Definition on_classic_with_extra_ranges (lits : list Z) (rs : list (Z * Z)) (cp : Z) : bool :=
  if negb (is_ascii_char cp) then in_extra_ranges rs cp else in_literals lits cp.

(** src/scn/impl.h:5188-5235, character_set_reader_impl::read_source_impl and
    check_nonempty; 5080-5109, read *)
Definition set_source (r : src) (sp : specs) (s : list Z) : outcome (list Z) :=
  rs <- handle_nonascii (s_enc r) sp ;;
  it <- (if charset_has_nonascii sp then
           let cb := on_classic_with_extra_ranges (charset_literals sp) rs in
           if charset_is_inverted sp then read_until_code_point (s_enc r) cb s
           else read_while_code_point (s_enc r) cb s
         else
           let cb := on_ascii_only (charset_literals sp) in
           Ok (if charset_is_inverted sp then read_until_code_unit cb s
               else read_while_code_unit cb s)) ;;
  if (length it =? length s)%nat then Err InvalidScannedValue else Ok it.
Definition set_read (d : dest) (r : src) (sp : specs) (s : list Z)
  : outcome (list Z * list Z) :=
  it <- set_source r sp s ;; store d (s_enc r) s it.

(** src/scn/impl.h:5238-5376, string_reader: reader_type, check_specs_impl,
    skip_ws_before_read, read_default, read_specs *)
Inductive string_kind : Type :=
| KWord | KCustomWord | KCharacter | KCharacterSet | KRegex | KRegexEscaped.
Definition string_kind_of (sp : specs) : string_kind :=
  match type sp with
  | PString => match align sp with ALeft | ACenter => KCustomWord | _ => KWord end
  | PCharacter => KCharacter
  | PStringSet => KCharacterSet
  | PRegex => KRegex
  | PRegexEscaped => KRegexEscaped
  | _ => KWord
  end.
Definition string_skip (sp : specs) : bool :=
  match string_kind_of sp with KWord => true | _ => false end.
Definition string_specs (rx : regex_engine) (d : dest) (r : src) (sp : specs) (s : list Z)
  : outcome (list Z * list Z) :=
  match string_kind_of sp with
  | KWord => word_read d r s
  | KCustomWord => custom_word_read d r (fill sp) s
  | KCharacter => character_read d r sp s
  | KCharacterSet => set_read d r sp s
  | KRegex => regex_read rx d r (charset_string sp) (regexp_flags sp) s
  | KRegexEscaped =>
      regex_read rx d r (unescape_pattern (charset_string sp)) (regexp_flags sp) s
  end.
Definition string_reader (rx : regex_engine) (d : dest) : reader (list Z) :=
  Reader (list Z) string_skip check_string_type_specs (string_specs rx d).

(** A string argument: with format specs (arg_reader) and without (default_arg_reader). *)
Definition string_arg (rx : regex_engine) (d : dest) (r : src) (sp : specs) (s : list Z)
  : outcome (list Z * list Z) :=
  arg_read_checked r (string_reader rx d) sp s.
Definition string_default (d : dest) (r : src) (s : list Z) : outcome (list Z * list Z) :=
  default_read r true (word_read d r) s.
