(** Model of integer reading.  src/scn/impl.cpp:937-1244 and src/scn/impl.h:3255-3658,
    src/scn/impl.cpp:1800-1822. *)
From Verif Require Import Prelude Tables BitsModel UnicodeModel ReadModel SpecsModel.
Local Open Scope Z_scope.

(** An integer type: signedness and number of bits (8, 16, 32, 64). *)
Record inttype : Type := IT { it_signed : bool; it_bits : Z }.
Definition it_max (t : inttype) : Z :=
  if it_signed t then 2 ^ (it_bits t - 1) - 1 else 2 ^ it_bits t - 1.
Definition it_min (t : inttype) : Z :=
  if it_signed t then - 2 ^ (it_bits t - 1) else 0.
(** static_cast<T> of an integer value. *)
Definition cast (t : inttype) (z : Z) : Z :=
  let m := z mod 2 ^ it_bits t in
  if it_signed t && (2 ^ (it_bits t - 1) <=? m) then m - 2 ^ it_bits t else m.

Definition i8 := IT true 8.   Definition u8 := IT false 8.
Definition i16 := IT true 16. Definition u16 := IT false 16.
Definition i32 := IT true 32. Definition u32 := IT false 32.
Definition i64 := IT true 64. Definition u64 := IT false 64.

(** src/scn/impl.cpp:937-945, get_eight_digits_word (little endian) *)
Definition get_eight_digits_word (p : list Z) : Z := word_of (firstn 8 p).

(** src/scn/impl.cpp:947-958 *)
Definition parse_eight_decimal_digits_unrolled_fast (word : Z) : Z :=
  let mask := 0x000000FF000000FF in
  let mul1 := 0x000F424000000064 in
  let mul2 := 0x0000271000000001 in
  let word := wrap64 (word - 0x3030303030303030) in
  let word := wrap64 (wrap64 (word * 10) + Z.shiftr word 8) in
  let word := Z.shiftr
    (wrap64 (wrap64 (Z.land word mask * mul1)
             + wrap64 (Z.land (Z.shiftr word 16) mask * mul2))) 32 in
  wrap32 word.

(** src/scn/impl.cpp:960-964 *)
Definition is_word_made_of_eight_decimal_digits_fast (word : Z) : bool :=
  Z.land (Z.lor (wrap64 (word + 0x4646464646464646))
                (wrap64 (word - 0x3030303030303030)))
         0x8080808080808080 =? 0.

(** src/scn/impl.cpp:966-977, loop_parse_if_eight_decimal_digits: position and
    accumulator at loop exit. *)
Fixpoint loop_parse_if_eight_decimal_digits (fuel : nat) (p : list Z) (val : Z)
  : outcome (list Z * Z) :=
  if (8 <=? length p)%nat
     && is_word_made_of_eight_decimal_digits_fast (get_eight_digits_word p)
  then match fuel with
       | O => OutOfFuel
       | S f => loop_parse_if_eight_decimal_digits f (skipn 8 p)
                  (wrap64 (wrap64 (val * 100000000)
                   + parse_eight_decimal_digits_unrolled_fast
                       (get_eight_digits_word p)))
       end
  else Ok (p, val).

(** The digit loops of impl.cpp:984-993 and 1122-1130. *)
Fixpoint digit_loop (base : Z) (p : list Z) (val : Z) : list Z * Z :=
  match p with
  | [] => ([], val)
  | c :: p' =>
      let digit := char_to_int c in
      if base <=? digit then (p, val)
      else digit_loop base p' (wrap64 (wrap64 (base * val) + digit))
  end.

(** src/scn/impl.cpp:979-996, parse_decimal_integer_fast_impl *)
Definition parse_decimal_integer_fast_impl (p : list Z) (val : Z)
  : outcome (list Z * Z) :=
  '(p', v) <- loop_parse_if_eight_decimal_digits (length p) p val ;;
  Ok (digit_loop 10 p' v).

(** src/scn/impl.cpp:998-1007 *)
Definition maxdigits_u64_table : list Z :=
  [0;  0;  64; 41; 32; 28; 25; 23; 22; 21; 20; 19; 18; 18; 17; 17; 16; 16; 16;
   16; 15; 15; 15; 15; 14; 14; 14; 14; 14; 14; 14; 13; 13; 13; 13; 13; 13].
Definition maxdigits_u64 (base : Z) : outcome Z :=
  if (2 <=? base) && (base <=? 36) then table_get maxdigits_u64_table base else UB.

(** src/scn/impl.cpp:1009-1051 *)
Definition min_safe_u64_table : list Z :=
  [0; 0; 9223372036854775808; 12157665459056928801; 4611686018427387904;
   7450580596923828125; 4738381338321616896; 3909821048582988049;
   9223372036854775808; 12157665459056928801; 10000000000000000000;
   5559917313492231481; 2218611106740436992; 8650415919381337933;
   2177953337809371136; 6568408355712890625; 1152921504606846976;
   2862423051509815793; 6746640616477458432; 15181127029874798299;
   1638400000000000000; 3243919932521508681; 6221821273427820544;
   11592836324538749809; 876488338465357824; 1490116119384765625;
   2481152873203736576; 4052555153018976267; 6502111422497947648;
   10260628712958602189; 15943230000000000000; 787662783788549761;
   1152921504606846976; 1667889514952984961; 2386420683693101056;
   3379220508056640625; 4738381338321616896].
Definition min_safe_u64 (base : Z) : outcome Z :=
  if (2 <=? base) && (base <=? 36) then table_get min_safe_u64_table base else UB.

(** src/scn/impl.cpp:1051-1073, check_integer_overflow *)
Definition check_integer_overflow (t : inttype) (val digits_count base : Z)
  (is_negative : bool) : outcome bool :=
  max_digits <- maxdigits_u64 base ;;
  if max_digits <? digits_count then Ok true
  else
    min_safe <- min_safe_u64 base ;;
    if (digits_count =? max_digits) && (val <? min_safe) then Ok true
    else if negb (negb (it_signed t) && (it_bits t =? 64))
            && (wrap64 (it_max t + Z.b2z is_negative) <? val) then Ok true
    else Ok false.

(** src/scn/impl.cpp:1075-1088, store_result.  Types narrower than int are promoted,
    so the subtraction only overflows (UB) for 32 and 64 bit signed types. *)
Definition store_result (t : inttype) (u64val : Z) (is_negative : bool) : outcome Z :=
  if is_negative then
    let r := - it_max t - cast t (wrap64 (u64val - it_max t)) in
    if it_signed t && (32 <=? it_bits t) && ((r <? it_min t) || (it_max t <? r))
    then UB
    else Ok (cast t r)
  else Ok (cast t u64val).

(** src/scn/impl.cpp:1090-1110, parse_decimal_integer_fast *)
Definition overflow_error (is_negative : bool) : err :=
  if is_negative then ValueNegativeOverflow else ValuePositiveOverflow.
Definition parse_decimal_integer_fast (t : inttype) (input : list Z)
  (is_negative : bool) : outcome (Z * list Z) :=
  '(ptr, u64val) <- parse_decimal_integer_fast_impl input 0 ;;
  o <- check_integer_overflow t u64val (Z.of_nat (length input - length ptr)) 10
         is_negative ;;
  if o then Err (overflow_error is_negative)
  else v <- store_result t u64val is_negative ;; Ok (v, ptr).

(** src/scn/impl.cpp:1112-1143, parse_regular_integer *)
Definition parse_regular_integer (t : inttype) (input : list Z) (base : Z)
  (is_negative : bool) : outcome (Z * list Z) :=
  let (ptr, u64val) := digit_loop base input 0 in
  o <- check_integer_overflow t u64val (Z.of_nat (length input - length ptr)) base
         is_negative ;;
  if o then Err (overflow_error is_negative)
  else v <- store_result t u64val is_negative ;; Ok (v, ptr).

(** src/scn/impl.h:3216 *)
Inductive sign_type : Type := DefaultSign | PlusSign | MinusSign.
Definition is_minus (s : sign_type) : bool :=
  match s with MinusSign => true | _ => false end.

(** src/scn/impl.cpp:1146-1194, parse_integer_value.  The first units of the source
    from [skip_zeros] on are the digits after the leading zeros. *)
Fixpoint skip_zeros (s : list Z) : list Z :=
  match s with
  | c :: s' => if c =? 48 then skip_zeros s' else s
  | [] => []
  end.
Definition parse_integer_value (e : enc) (t : inttype) (source : list Z)
  (sign : sign_type) (base : Z) : outcome (Z * list Z) :=
  match source, sign with
  | [], _ | _, DefaultSign => UB
  | c :: _, _ =>
      if negb (it_signed t) && is_minus sign then UB
      else if base <=? 0 then UB
      else if base <=? char_to_int c then Err InvalidScannedValue
      else
        let start := skip_zeros source in
        if match start with [] => true | d :: _ => base <=? char_to_int d end
        then Ok (0, start)
        else match e with
             | U8 => if base =? 10
                     then parse_decimal_integer_fast t start (is_minus sign)
                     else parse_regular_integer t start base (is_minus sign)
             | _ => parse_regular_integer t start base (is_minus sign)
             end
  end.

(** src/scn/impl.cpp:1196-1244, parse_integer_value_exhaustive_valid.  Every
    SCN_EXPECT is checked. *)
Fixpoint exhaustive_blocks (fuel : nat) (p : list Z) (val : Z)
  : outcome (list Z * Z) :=
  if (8 <=? length p)%nat then
    if negb (is_word_made_of_eight_decimal_digits_fast (get_eight_digits_word p))
    then UB
    else match fuel with
         | O => OutOfFuel
         | S f => exhaustive_blocks f (skipn 8 p)
                    (wrap64 (wrap64 (val * 100000000)
                     + parse_eight_decimal_digits_unrolled_fast
                         (get_eight_digits_word p)))
         end
  else Ok (p, val).
Fixpoint exhaustive_digits (p : list Z) (val : Z) : outcome Z :=
  match p with
  | [] => Ok val
  | c :: p' => let digit := char_to_int c in
               if negb (digit <? 10) then UB
               else exhaustive_digits p' (wrap64 (wrap64 (10 * val) + digit))
  end.
Definition parse_integer_value_exhaustive_valid (t : inttype) (source : list Z)
  : outcome Z :=
  match source with
  | [] => UB
  | c :: tl =>
      let neg := it_signed t && (c =? 45) in
      let source' := if neg then tl else source in
      match source' with
      | [] => UB
      | d :: _ =>
          if negb (char_to_int d <? 10) then UB
          else
            '(p, v) <- exhaustive_blocks (length source') source' 0 ;;
            val <- exhaustive_digits p v ;;
            o <- check_integer_overflow t val (Z.of_nat (length source')) 10 neg ;;
            if o then UB else store_result t val neg
      end
  end.

(** src/scn/impl.h:3254-3271, parse_numeric_sign, eof mapped to end_of_input. *)
Definition parse_numeric_sign (s : list Z) : outcome (list Z * sign_type) :=
  match read_one_of_code_unit [43; 45] s with
  | inr PError => Ok (s, DefaultSign)
  | inr PEof => Err EndOfInput
  | inl it => match s with
              | c :: _ => if c =? 45 then Ok (it, MinusSign) else Ok (it, PlusSign)
              | [] => UB
              end
  end.

(** src/scn/impl.h:3291-3319 *)
Definition parse_integer_bin_base_prefix (r : src) (s : list Z) : pexp (list Z) :=
  read_matching_string_classic_nocase r [48; 98] s.
Definition parse_integer_hex_base_prefix (r : src) (s : list Z) : pexp (list Z) :=
  read_matching_string_classic_nocase r [48; 120] s.
(** Returns also whether a bare '0' was parsed (zero_parsed). *)
Definition parse_integer_oct_base_prefix (r : src) (s : list Z)
  : pexp (list Z) * bool :=
  match read_matching_string_classic_nocase r [48; 111] s with
  | inl it => (inl it, false)
  | inr _ => match read_matching_code_unit 48 s with
             | inl it => (inl it, true)
             | inr _ => (inr PError, false)
             end
  end.

(** src/scn/impl.h:3321-3338 *)
Definition parse_integer_base_prefix_for_detection (r : src) (s : list Z)
  : list Z * Z * bool :=
  match parse_integer_hex_base_prefix r s with
  | inl it => (it, 16, false)
  | inr _ =>
      match parse_integer_bin_base_prefix r s with
      | inl it => (it, 2, false)
      | inr _ =>
          match parse_integer_oct_base_prefix r s with
          | (inl it, z) => (it, 8, z)
          | (inr _, _) => (s, 10, false)
          end
      end
  end.

(** src/scn/impl.h:3340-3371 *)
Definition parse_integer_base_prefix (r : src) (s : list Z) (base : Z)
  : list Z * Z * bool :=
  if base =? 2 then (apply_opt (parse_integer_bin_base_prefix r s) s, 2, false)
  else if base =? 8 then
    let (x, z) := parse_integer_oct_base_prefix r s in (apply_opt x s, 8, z)
  else if base =? 16 then
    (apply_opt (parse_integer_hex_base_prefix r s) s, 16, false)
  else if base =? 0 then parse_integer_base_prefix_for_detection r s
  else (s, base, false).

(** src/scn/impl.h:3283-3289, 3373-3405, parse_integer_prefix *)
Record prefix_result : Type := PR
  { pr_it : list Z; pr_base : Z; pr_sign : sign_type; pr_zero : bool }.
Definition not_digit_of (base : Z) (s : list Z) : bool :=
  match s with [] => true | c :: _ => base <=? char_to_int c end.
Definition parse_integer_prefix (r : src) (s : list Z) (base : Z)
  : outcome prefix_result :=
  '(begin_it, sign) <- parse_numeric_sign s ;;
  let '(digits_it, parsed_base, parsed_zero) :=
    parse_integer_base_prefix r begin_it base in
  let sign' := match sign with DefaultSign => PlusSign | _ => sign end in
  if parsed_zero then
    if not_digit_of 8 digits_it
    then Ok (PR begin_it parsed_base sign' true)
    else Ok (PR digits_it parsed_base sign' false)
  else
    Ok (PR (if not_digit_of parsed_base digits_it then begin_it else digits_it)
           parsed_base sign' false).

(** src/scn/impl.h:3407-3430, parse_integer_digits_without_thsep: position after the
    digits. *)
Definition parse_integer_digits_without_thsep (r : src) (s : list Z) (base : Z)
  : outcome (list Z) :=
  if s_contig r then
    match s with [] => Err InvalidScannedValue | _ => Ok [] end
  else match read_while1_code_unit (fun ch => char_to_int ch <? base) s with
       | inl it => Ok it
       | inr PEof => Err EndOfInput
       | inr PError => Err InvalidScannedValue
       end.

(** std::next(it): advancing past the end is UB. *)
Definition next1 (s : list Z) : outcome (list Z) :=
  match s with [] => UB | _ :: s' => Ok s' end.

(** The part of read_default_with_base and read_specs after the prefix,
    src/scn/impl.h:3561-3573 and 3614-3628. *)
Definition read_digits (r : src) (t : inttype) (p : prefix_result)
  : outcome (Z * list Z) :=
  after <- parse_integer_digits_without_thsep r (pr_it p) (pr_base p) ;;
  let buf := firstn (length (pr_it p) - length after) (pr_it p) in
  '(v, rest) <- parse_integer_value (s_enc r) t buf (pr_sign p) (pr_base p) ;;
  Ok (v, skipn (length buf - length rest) (pr_it p)).

(** src/scn/impl.h:3539-3573, reader_impl_for_int::read_default_with_base *)
Definition int_read_default_with_base (r : src) (t : inttype) (s : list Z) (base : Z)
  : outcome (Z * list Z) :=
  p <- parse_integer_prefix r s base ;;
  if negb (it_signed t) && is_minus (pr_sign p) then Err InvalidScannedValue
  else if pr_zero p then it <- next1 (pr_it p) ;; Ok (0, it)
  else read_digits r t p.

(** src/scn/impl.h:3575-3581, read_default *)
Definition int_read_default (r : src) (t : inttype) (s : list Z)
  : outcome (Z * list Z) :=
  int_read_default_with_base r t s 10.

(** src/scn/impl.h:3432-3465, parse_integer_digits_with_thsep: position after the
    digits and separators, digits, separator indices (stored as char). *)
Fixpoint thsep_loop (sep base : Z) (s : list Z) (i : Z) (output idx : list Z)
  (matched : bool) : list Z * list Z * list Z * bool :=
  match s with
  | [] => ([], output, idx, matched)
  | c :: s' =>
      if c =? sep then thsep_loop sep base s' (i + 1) output (idx ++ [i mod 256]) matched
      else if base <=? char_to_int c then (s, output, idx, matched)
      else thsep_loop sep base s' (i + 1) (output ++ [c]) idx true
  end.
Definition parse_integer_digits_with_thsep (sep : Z) (s : list Z) (base : Z)
  : outcome (list Z * list Z * list Z) :=
  let '(it, output, idx, matched) := thsep_loop sep base s 0 [] [] false in
  if matched then Ok (it, output, idx) else Err InvalidScannedValue.

(** src/scn/impl.h:3583-3655, reader_impl_for_int::read_specs.  [sep] is the
    thousands_sep of the locale options (0 when grouping is empty), an input of the
    model; the grouping string is not used by the code. *)
Definition int_read_specs (r : src) (t : inttype) (sp : specs) (sep : Z) (s : list Z)
  : outcome (Z * list Z) :=
  base <- get_base sp ;;
  p <- parse_integer_prefix r s base ;;
  if is_minus (pr_sign p)
     && (negb (it_signed t) || ptype_eqb (type sp) PIntUnsignedDecimal)
  then Err InvalidScannedValue
  else if pr_zero p then it <- next1 (pr_it p) ;; Ok (0, it)
  else if negb (localized sp) then read_digits r t p
  else
    '(_, nothsep, idx) <- parse_integer_digits_with_thsep sep (pr_it p) (pr_base p) ;;
    '(v, rest) <- parse_integer_value (s_enc r) t nothsep (pr_sign p) (pr_base p) ;;
    Ok (v, skipn (length nothsep - length rest + length idx) (pr_it p)).

(** src/scn/impl.cpp:1800-1811, scan_int_impl: scn::scan_int(source, base) on a
    string_view. *)
Definition string_src : src := Src U8 true (fun _ => O).
Definition scan_int (t : inttype) (source : list Z) (base : Z) : outcome (Z * list Z) :=
  beg <- skip_classic_whitespace string_src source false ;;
  int_read_default_with_base string_src t beg base.

(** src/scn/impl.cpp:1813-1819, scan_int_exhaustive_valid_impl *)
Definition scan_int_exhaustive_valid (t : inttype) (source : list Z) : outcome Z :=
  parse_integer_value_exhaustive_valid t source.
