(** Model of floating-point reading.  src/scn/impl.h:3660-4284,
    src/scn/impl.cpp:333-910.
    The conversion routines proper (fast_float::from_chars, strtof_l/strtod_l/strtold_l in
    the "C" locale) are external: they are parameters of the model, see [fp].  The branch
    calling std::from_chars (impl.cpp:702-706) is taken under
    is_same_v<CharT, has_charconv_for<T>>, which compares a character type with a trait
    class and never holds. *)
From Verif Require Import Prelude Tables UnicodeModel WhitespaceModel ReadModel SpecsModel
  IntModel ArgReaderModel FormatModel.
Local Open Scope Z_scope.

(** Result of fast_float::from_chars: errc::invalid_argument, errc::result_out_of_range,
    or the value and the number of characters used. *)
Inductive ff_result (V : Type) : Type := FFInvalid | FFRange | FFOk (v : V) (n : nat).
Arguments FFInvalid {V}.
Arguments FFRange {V}.
Arguments FFOk {V} v n.

(** A floating-point type and its conversion routines.
    - [fp_sign neg v]: std::copysign(v, neg ? -1 : 1);
    - [fp_zero], [fp_infinite]: v == 0, abs(v) == infinity;
    - [fp_long]: the type is long double (wider than double), which fast_float lacks;
    - [fp_fast fixed scientific s]: fast_float::from_chars on [s] with these flags;
    - [fp_strtod s]: strtod on the null-terminated string [s]: the value, the number of
      characters used, and whether errno is ERANGE afterwards. *)
Record fp (V : Type) : Type := FP
  { fp_inf : V; fp_nan : V; fp_sign : bool -> V -> V;
    fp_zero : V -> bool; fp_infinite : V -> bool; fp_long : bool;
    fp_fast : bool -> bool -> list Z -> ff_result V;
    fp_strtod : list Z -> V * nat * bool }.
Arguments fp_inf {V}. Arguments fp_nan {V}. Arguments fp_sign {V}. Arguments fp_zero {V}.
Arguments fp_infinite {V}. Arguments fp_long {V}. Arguments fp_fast {V}.
Arguments fp_strtod {V}.

(** src/scn/impl.h:3665-3670, float_reader_base::options_type *)
Record foptions : Type := FOpt
  { o_hex : bool; o_scientific : bool; o_fixed : bool; o_thsep : bool }.
(** src/scn/impl.h:3689, the default of m_options *)
Definition default_options : foptions := FOpt true true true false.

(** src/scn/impl.h:3672-3683, float_kind *)
Inductive fkind : Type :=
| KTbd | KGeneric | KFixed | KScientific | KHexWithout | KHexWith
| KInfShort | KInfLong | KNan | KNanPayload.

(** src/scn/impl.h:1868-1890: the decimal point and thousands separator of
    localized_number_formatting_options; 0 stands for no separator. *)
Record fseps : Type := FSeps { sep_point : Z; sep_thousands : Z }.
Definition plain_seps : fseps := FSeps 46 0.
Definition is_plain (q : fseps) : bool := (sep_thousands q =? 0) && (sep_point q =? 46).

(** src/scn/impl.h:3800-3813, read_dec_digits, and 3815-3828, read_hex_digits; [base] is
    10 or 16. *)
Definition float_digits (q : fseps) (base : Z) (thsep_allowed : bool) (s : list Z)
  : pexp (list Z) :=
  read_while1_code_unit
    (fun ch => (char_to_int ch <? base)
               || (negb (sep_thousands q =? 0) && thsep_allowed && (ch =? sep_thousands q)))
    s.
(** src/scn/impl.h:3830-3835, read_hex_prefix *)
Definition read_hex_prefix (r : src) (s : list Z) : pexp (list Z) :=
  read_matching_string_classic_nocase r [48; 120] s.

(** src/scn/impl.h:3837-3859, read_inf.  An error leaves the kind undetermined. *)
Definition read_inf (r : src) (s : list Z) : option (list Z * fkind) :=
  match read_matching_string_classic_nocase r [105; 110; 102] s with
  | inr _ => None
  | inl it => match read_matching_string_classic_nocase r [105; 110; 105; 116; 121] it with
              | inr _ => Some (it, KInfShort)
              | inl it' => Some (it', KInfLong)
              end
  end.

(** src/scn/impl.h:3885-3890, the characters of a NaN payload *)
Definition is_payload_char (ch : Z) : bool :=
  (ch <=? 127)
  && (((48 <=? ch) && (ch <=? 57)) || ((97 <=? ch) && (ch <=? 122))
      || ((65 <=? ch) && (ch <=? 90)) || (ch =? 95)).
(** src/scn/impl.h:3861-3901, read_nan: position, kind and length of the payload.  [None]: an
    error which leaves the kind undetermined. *)
Definition read_nan (r : src) (s : list Z) : option (outcome (list Z * fkind * nat)) :=
  match read_matching_string_classic_nocase r [110; 97; 110] s with
  | inr _ => None
  | inl it =>
      match read_matching_code_unit 40 it with
      | inr _ => Some (Ok (it, KNan, O))
      | inl payload =>
          let it' := read_while_code_unit is_payload_char payload in
          match read_matching_code_unit 41 it' with
          | inl it'' => Some (Ok (it'', KNanPayload, (length payload - length it')%nat))
          | inr _ => Some (Err InvalidScannedValue)
          end
      end
  end.

(** src/scn/impl.h:3903-3929, read_exponent *)
Definition read_exponent (letters s : list Z) : list Z :=
  match read_one_of_code_unit letters s with
  | inr _ => s
  | inl it =>
      let it' := match parse_numeric_sign it with Ok (x, _) => x | _ => it end in
      match read_while1_code_unit (fun ch => char_to_int ch <? 10) it' with
      | inr _ => s
      | inl it'' => it''
      end
  end.

(** src/scn/impl.h:849-872, map_parse_error_to_scan_error with invalid_scanned_value *)
Definition map_parse_error {A} (e : perr) : outcome A :=
  match e with PEof => Err EndOfInput | PError => Err InvalidScannedValue end.

(** The part common to read_hexfloat (impl.h:3931-3970) and read_regular_float
    (3972-4025): integral digits, decimal point, fractional digits.  After the first digits
    digits_count is positive, so that the check for "No significand digits" never fails.
    m_integral_part_length is not used anywhere. *)
Definition read_significand (q : fseps) (base : Z) (s : list Z) : outcome (list Z) :=
  match float_digits q base true s with
  | inr e => map_parse_error e
  | inl it =>
      let it1 := apply_opt (read_matching_code_unit (sep_point q) it) it in
      Ok (apply_opt (float_digits q base false it1) it1)
  end.
(** src/scn/impl.h:3931-3970, read_hexfloat *)
Definition read_hexfloat (q : fseps) (k : fkind) (s : list Z) : outcome (list Z * fkind) :=
  it <- read_significand q 16 s ;; Ok (read_exponent [112; 80] it, k).
(** src/scn/impl.h:3972-4025, read_regular_float.  Two positions are equal when as many
    units follow them. *)
Definition read_regular_float (o : foptions) (q : fseps) (s : list Z)
  : outcome (list Z * fkind) :=
  let allowed_exp := o_scientific o in
  let required_exp := allowed_exp && negb (o_fixed o) in
  beg <- read_significand q 10 s ;;
  let it := if allowed_exp then read_exponent [101; 69] beg else beg in
  let none := (length it =? length beg)%nat in
  if required_exp && none then Err InvalidScannedValue
  else Ok (it, if none then KFixed else KScientific).

(** src/scn/impl.h:4027-4086, do_read_source_impl: position, kind, payload length.
    [regular] and [hex] get the kind set so far. *)
Definition do_read_source_impl (r : src) (o : foptions) (q : fseps)
  (regular hex : fkind -> list Z -> outcome (list Z * fkind)) (s : list Z)
  : outcome (list Z * fkind * nat) :=
  let allowed_hex := o_hex o in
  let allowed_nonhex := o_scientific o || o_fixed o in
  match read_inf r s with
  | Some (it, k) => Ok (it, k, O)
  | None =>
      match read_nan r s with
      | Some x => x
      | None =>
          '(it, k) <-
            (if allowed_hex && negb allowed_nonhex then
               match read_hex_prefix r s with
               | inl it => hex KHexWith it
               | inr _ => hex KHexWithout s
               end
             else if negb allowed_hex && allowed_nonhex then read_regular_float o q s
             else match read_hex_prefix r s with
                  | inl it => hex KHexWith it
                  | inr _ => regular KGeneric s
                  end) ;;
          Ok (it, k, O)
      end
  end.

(** The buffer holding the text of the number: m_buffer, a contiguous_range_factory.
    - [fb_view]: view();
    - [fb_string]: get_allocated_string(), if stores_allocated_string(). *)
Record fbuffer : Type := FBuf { fb_view : list Z; fb_string : option (list Z) }.

(** src/scn/impl.h:1717-1766, emplace_range on [from, it).  A range of a scan buffer is
    copied if it does not lie in one segment; a range ending exactly where its segment
    does is taken to be copied as well, even at the end of the source. *)
Definition fill_buffer (r : src) (from it : list Z) : fbuffer :=
  let text := firstn (length from - length it) from in
  FBuf text
    (if s_contig r then None
     else if (s_seg r (length from) <=? length text)%nat then Some text else None).

(** src/scn/impl.h:4088-4128, handle_separators.  After erase, which null-terminates the
    string, m_view still has the old size: it shows the shortened string, the terminator
    and the old characters after it.  (These lie past the size of the string but within
    the storage.)  The second component is the number of separators,
    m_thsep_indices.size(). *)
Definition handle_separators (q : fseps) (b : fbuffer) : fbuffer * nat :=
  if is_plain q then (b, O)
  else
    let str := match fb_string b with Some x => x | None => fb_view b end in
    let str1 := map (fun ch => if ch =? sep_point q then 46 else ch) str in
    if sep_thousands q =? 0 then (FBuf str1 (Some str1), O)
    else
      let str2 := filter (fun ch => negb (ch =? sep_thousands q)) str1 in
      let n := (length str1 - length str2)%nat in
      if (n =? 0)%nat then (FBuf str1 (Some str1), O)
      else (FBuf (str2 ++ 0 :: skipn (S (length str2)) str1) (Some str2), n).

(** The members of a float_reader after read_source. *)
Record fstate : Type := FState
  { fs_sign : sign_type; fs_kind : fkind; fs_payload : nat; fs_buffer : fbuffer;
    fs_thseps : nat }.

(** src/scn/impl.h:3743-3798, read_source_impl.  read_all (1935-1939) moves to the end. *)
Definition read_source_impl (r : src) (o : foptions) (q : fseps) (s : list Z)
  : outcome fstate :=
  '(digits_begin, sign) <- parse_numeric_sign s ;;
  let all := fun k (rr : list Z) =>
    match digits_begin with
    | [] => Err InvalidScannedValue
    | _ => Ok ([] : list Z, k)
    end in
  '(it, k, payload) <-
    (if s_contig r && is_plain q then do_read_source_impl r o q all all digits_begin
     else do_read_source_impl r o q (fun _ => read_regular_float o q) (read_hexfloat q)
            digits_begin) ;;
  let b := match k with
           | KInfShort | KInfLong | KNan | KNanPayload => FBuf [] None
           | _ => fill_buffer r digits_begin it
           end in
  let (b', n) := handle_separators q b in
  Ok (FState sign k payload b' n).

(** src/scn/impl.h:3703-3713 and 3716-3727, read_source and read_source_localized: the
    separators in use.  [loc] are those of the locale.  Without SCN_DISABLE_LOCALE,
    allow_thsep is set only for localized reading (impl.h:4251-4253). *)
Definition used_seps (localized : bool) (o : foptions) (loc : fseps) : fseps :=
  if localized then
    FSeps (sep_point loc) (if o_thsep o then sep_thousands loc else 0)
  else plain_seps.

Section Conversion.
Context {V : Type} (F : fp V).

(** A null-terminated string ends at its first null character. *)
Definition c_string (s : list Z) : list Z :=
  firstn (length s - length (find_if (Z.eqb 0) s)) s.

(** src/scn/impl.cpp:405-426, get_null_terminated_source *)
Definition get_null_terminated_source (e : enc) (k : fkind) (b : fbuffer)
  : outcome (list Z) :=
  str <- (match fb_string b with
          | Some x => Ok x
          | None =>
              sp <- read_until_classic_space (Src e true (fun _ => O)) (fb_view b) ;;
              Ok (firstn (length (fb_view b) - length sp) (fb_view b))
          end) ;;
  Ok (c_string (match k with KHexWithout => 48 :: 120 :: str | _ => str end)).

(** src/scn/impl.cpp:428-470, check_error *)
Definition check_error (o : foptions) (k : fkind) (chars_read : nat) (erange : bool) (v : V)
  : option err :=
  if fp_zero F v && (chars_read =? 0)%nat then Some InvalidScannedValue
  else if (match k with KHexWith => negb (o_hex o) | _ => false end)
  then Some InvalidScannedValue
  else if erange && fp_zero F v then Some ValuePositiveUnderflow
  else if (match k with KInfShort | KInfLong => false | _ => fp_infinite F v end)
  then Some ValuePositiveOverflow
  else None.

(** src/scn/impl.cpp:384-403, strtod_impl_base::parse; 555-559, operator() *)
Definition strtod_impl (e : enc) (o : foptions) (k : fkind) (b : fbuffer)
  : outcome (V * nat) :=
  source <- get_null_terminated_source e k b ;;
  let '(v, chars_read, erange) := fp_strtod F source in
  match check_error o k chars_read erange v with
  | Some e => Err e
  | None =>
      Ok (v, match k with
             | KHexWithout => if (2 <=? chars_read)%nat then (chars_read - 2)%nat
                              else chars_read
             | _ => chars_read
             end)
  end.

(** src/scn/impl.cpp:743-773, fast_float_impl::operator(), and 722-733, get_flags *)
Definition fast_float_impl (e : enc) (o : foptions) (k : fkind) (b : fbuffer)
  : outcome (V * nat) :=
  match k with
  | KHexWithout | KHexWith => strtod_impl e o k b
  | _ =>
      match fp_fast F (o_fixed o) (o_scientific o) (fb_view b) with
      | FFInvalid => Err InvalidScannedValue
      | FFRange => strtod_impl e o k b
      | FFOk v n => Ok (v, n)
      end
  end.

(** src/scn/impl.cpp:798-888, dispatch_impl.  [UB]: SCN_EXPECT(!data.input.view().empty()). *)
Definition dispatch_impl (e : enc) (o : foptions) (k : fkind) (payload : nat) (b : fbuffer)
  : outcome (V * nat) :=
  match k with
  | KInfShort => Ok (fp_inf F, 3%nat)
  | KInfLong => Ok (fp_inf F, 8%nat)
  | KNan => Ok (fp_nan F, 3%nat)
  | KNanPayload => Ok (fp_nan F, (5 + payload)%nat)
  | _ =>
      match fb_view b with
      | [] => UB
      | c :: _ =>
          if (match k with KHexWithout => 16 <=? char_to_int c | _ => false end)
          then Err InvalidScannedValue
          else if 10 <=? char_to_int c then Err InvalidScannedValue
          else if fp_long F then strtod_impl e o k b
          else fast_float_impl e o k b
      end
  end.

(** src/scn/impl.cpp:891-913, parse_value_impl, with setsign (impl.h:4130-4137) *)
Definition parse_value_impl (e : enc) (o : foptions) (st : fstate) : outcome (V * nat) :=
  match dispatch_impl e o (fs_kind st) (fs_payload st) (fs_buffer st) with
  | Ok (v, n) => Ok (fp_sign F (is_minus (fs_sign st)) v, n)
  | Err ValuePositiveOverflow =>
      Err (if is_minus (fs_sign st) then ValueNegativeOverflow else ValuePositiveOverflow)
  | Err ValuePositiveUnderflow =>
      Err (if is_minus (fs_sign st) then ValueNegativeUnderflow else ValuePositiveUnderflow)
  | x => x
  end.
(** src/scn/impl.h:3730-3740, parse_value.  [UB]: SCN_EXPECT(m_kind != tbd). *)
Definition parse_value (e : enc) (o : foptions) (st : fstate) : outcome (V * nat) :=
  match fs_kind st with
  | KTbd => UB
  | _ =>
      '(v, n) <- parse_value_impl e o st ;;
      Ok (v, (n + match fs_sign st with DefaultSign => 0 | _ => 1 end + fs_thseps st)%nat)
  end.

(** src/scn/impl.h:4231-4246, read_impl.  [UB]: std::next past the end. *)
Definition float_read_impl (r : src) (o : foptions) (q : fseps) (s : list Z)
  : outcome (V * list Z) :=
  st <- read_source_impl r o q s ;;
  '(v, n) <- parse_value (s_enc r) o st ;;
  if (length s <? n)%nat then UB else Ok (v, skipn n s).

(** src/scn/impl.h:4248-4283, get_options.  [UB]: SCN_EXPECT(false) on other types. *)
Definition get_options (sp : specs) : outcome foptions :=
  match type sp with
  | PFloatFixed => Ok (FOpt false false true (localized sp))
  | PFloatScientific => Ok (FOpt false true false (localized sp))
  | PFloatHex => Ok (FOpt true false false (localized sp))
  | PFloatGeneral => Ok (FOpt false true true (localized sp))
  | PNone => Ok (FOpt true true true (localized sp))
  | _ => UB
  end.

(** src/scn/impl.h:4181-4194, read_default *)
Definition float_read_default (r : src) (s : list Z) : outcome (V * list Z) :=
  float_read_impl r default_options plain_seps s.
(** src/scn/impl.h:4196-4223, read_specs; [loc]: the separators of the locale *)
Definition float_read_specs (r : src) (loc : fseps) (sp : specs) (s : list Z)
  : outcome (V * list Z) :=
  o <- get_options sp ;;
  float_read_impl r o (used_seps (localized sp) o loc) s.

(** src/scn/impl.h:3143-3160, 4168-4223: the reader as an argument reader. *)
Definition float_reader (loc : fseps) : reader V :=
  Reader V (fun _ => true) check_float_type_specs (fun r => float_read_specs r loc).
Definition float_default (r : src) (s : list Z) : outcome (V * list Z) :=
  default_read r true (float_read_default r) s.

End Conversion.
