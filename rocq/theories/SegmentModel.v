(** Model of scanning ints, words, bools and characters and literal text from a source behind
    a buffer, at the level of single iterator operations.  src/scn/impl.h:890-1126, 1685-1772,
    1932-2300, 2368-2383, 3061-3077, 3254-3573, 4789-4871, 5388-5452, 5595-5628, 5831-5930,
    src/scn/impl.cpp:1598-1726.  Characters are [char].  An iterator is its position; the
    buffer is threaded through. *)
From Verif Require Import Prelude UnicodeModel WhitespaceModel ReadModel SpecsModel FormatModel
  IntModel Tables ArgReaderModel ScalarModel StringModel BufferModel.
Local Open Scope Z_scope.

(** include/scn/scan.h:4601-4610, comparison with the sentinel *)
Definition it_end (p : nat) (b : buffer) : outcome (bool * buffer) :=
  '(ok, b) <- read_at_position p b ;; Ok (negb ok, b).
(** 4516-4529; [UB]: SCN_EXPECT(res) *)
Definition it_deref (p : nat) (b : buffer) : outcome (Z * buffer) :=
  '(ok, b) <- read_at_position p b ;;
  if ok : bool then c <- get_character_at p b ;; Ok (c, b) else UB.
(** 4502-4507 *)
Definition it_next (p : nat) (b : buffer) : outcome (nat * buffer) :=
  '(_, b) <- read_at_position (S p) b ;; Ok (S p, b).
(** ranges::next(it, n), ranges::advance(it, n) *)
Fixpoint next_n (n : nat) (p : nat) (b : buffer) : outcome (nat * buffer) :=
  match n with
  | O => Ok (p, b)
  | S n' => '(p, b) <- it_next p b ;; next_n n' p b
  end.
(** ranges::advance(it, n, end) *)
Fixpoint advance (n : nat) (p : nat) (b : buffer) : outcome (nat * buffer) :=
  match n with
  | O => Ok (p, b)
  | S n' => '(e, b) <- it_end p b ;;
            if e : bool then Ok (p, b) else '(p, b) <- it_next p b ;; advance n' p b
  end.
(** std::string(it, it + n), std::copy of [n] characters *)
Fixpoint copy (n : nat) (p : nat) (b : buffer) : outcome (list Z * buffer) :=
  match n with
  | O => Ok ([], b)
  | S n' => '(c, b) <- it_deref p b ;; '(p, b) <- it_next p b ;;
            '(l, b) <- copy n' p b ;; Ok (c :: l, b)
  end.

(** src/scn/impl.h:1261-1272, get_start_for_next_code_point.  [fuel] bounds the number of
    iterations here and below. *)
Fixpoint start_next (fuel : nat) (p : nat) (b : buffer) : outcome (nat * buffer) :=
  match fuel with
  | O => OutOfFuel
  | S f =>
      '(e, b) <- it_end p b ;;
      if e : bool then Ok (p, b)
      else '(c, b) <- it_deref p b ;;
           match cp_len U8 c with
           | O => '(p, b) <- it_next p b ;; start_next f p b
           | _ => Ok (p, b)
           end
  end.
(** src/scn/impl.h:1981-2017, read_code_point_into *)
Definition code_point_into (fuel : nat) (p : nat) (b : buffer)
  : outcome (nat * list Z * buffer) :=
  '(e, b) <- it_end p b ;;
  if e : bool then UB
  else
    '(c, b) <- it_deref p b ;;
    match cp_len U8 c with
    | O => '(q, b) <- it_next p b ;; '(q, b) <- start_next fuel q b ;; Ok (q, [], b)
    | S O => '(q, b) <- it_next p b ;; '(c, b) <- it_deref p b ;; Ok (q, [c], b)
    | len => '(q, b) <- advance len p b ;; '(l, b) <- copy (q - p) p b ;; Ok (q, l, b)
    end.
(** src/scn/impl.h:2156-2175, read_until_code_point *)
Fixpoint until_code_point (fuel : nat) (pred : Z -> bool) (p : nat) (b : buffer)
  : outcome (nat * buffer) :=
  match fuel with
  | O => OutOfFuel
  | S f =>
      '(e, b) <- it_end p b ;;
      if e : bool then Ok (p, b)
      else
        '(q, cps, b) <- code_point_into f p b ;;
        match cps with
        | [] => until_code_point f pred q b
        | _ => cp <- decode_cp U8 cps ;;
               if pred cp then Ok (p, b) else until_code_point f pred q b
        end
  end.
(** src/scn/impl.h:2213-2240, read_while_classic_space *)
Definition while_classic_space (fuel : nat) (p : nat) (b : buffer) : outcome (nat * buffer) :=
  seg <- get_segment_starting_at p b ;;
  f <- find_classic_nonspace_narrow_fast seg ;;
  match f with
  | [] => '(_, b) <- next_n (length seg) p b ;;
          until_code_point fuel (fun cp => negb (is_cp_space cp)) p b
  | _ => next_n (length seg - length f) p b
  end.
(** src/scn/impl.h:3061-3077, skip_classic_whitespace without allow_exhaustion *)
Definition skip_space (fuel : nat) (p : nat) (b : buffer) : outcome (nat * buffer) :=
  '(p, b) <- while_classic_space fuel p b ;;
  '(e, b) <- it_end p b ;;
  if e : bool then Err EndOfInput else Ok (p, b).

(** src/scn/impl.h:2368-2383, 3254-3271: read_one_of_code_unit with "+-" and
    parse_numeric_sign.  The next position is computed before the characters are compared. *)
Definition numeric_sign (p : nat) (b : buffer) : outcome (nat * sign_type * buffer) :=
  '(e, b) <- it_end p b ;;
  if e : bool then Err EndOfInput
  else
    '(q, b) <- it_next p b ;;
    '(c, b) <- it_deref p b ;;
    Ok (if c =? 43 then (q, PlusSign, b)
        else if c =? 45 then (q, MinusSign, b)
        else (p, DefaultSign, b)).
(** src/scn/impl.h:2051-2075, read_while_code_unit *)
Fixpoint while_unit (fuel : nat) (pred : Z -> bool) (p : nat) (b : buffer)
  : outcome (nat * buffer) :=
  match fuel with
  | O => OutOfFuel
  | S f =>
      '(e, b) <- it_end p b ;;
      if e : bool then Ok (p, b)
      else '(c, b) <- it_deref p b ;;
           if pred c then '(p, b) <- it_next p b ;; while_unit f pred p b else Ok (p, b)
  end.
(** src/scn/impl.h:1718-1742, emplace_range of two iterators of a buffer: a view into the
    buffer if both are in the put-back storage or both in the current view, otherwise a
    copy. *)
Definition contiguous (p q : nat) (b : buffer) : outcome (list Z * buffer) :=
  s1 <- get_segment_starting_at p b ;;
  s2 <- get_segment_starting_at q b ;;
  if Bool.eqb (p <? length (putback b))%nat (q <? length (putback b))%nat
  then Ok (firstn (length s1 - length s2) s1, b)
  else copy (q - p) p b.
(** src/scn/impl.h:3373-3405, 3407-3430, 3539-3581: read_default of an int type, base 10 (no
    base prefix, so parse_integer_prefix only looks at one more character) *)
Definition read_int (fuel : nat) (t : inttype) (p : nat) (b : buffer)
  : outcome (Z * nat * buffer) :=
  '(p, sign, b) <- numeric_sign p b ;;
  '(e, b) <- it_end p b ;;
  '(_, b) <- (if e : bool then Ok (0, b) else it_deref p b) ;;
  let sign := match sign with DefaultSign => PlusSign | _ => sign end in
  if negb (it_signed t) && is_minus sign then Err InvalidScannedValue
  else
    '(q, b) <- while_unit fuel (fun c => char_to_int c <? 10) p b ;;
    if (q =? p)%nat then Err InvalidScannedValue
    else
      '(buf, b) <- contiguous p q b ;;
      '(v, rest) <- parse_integer_value U8 t buf sign 10 ;;
      '(q, b) <- next_n (length buf - length rest) p b ;;
      Ok (v, q, b).

(** src/scn/impl.h:2184-2211, read_until_classic_space *)
Definition until_classic_space (fuel : nat) (p : nat) (b : buffer) : outcome (nat * buffer) :=
  seg <- get_segment_starting_at p b ;;
  f <- find_classic_space_narrow_fast seg ;;
  match f with
  | [] => '(p, b) <- next_n (length seg) p b ;; until_code_point fuel is_cp_space p b
  | _ => next_n (length seg - length f) p b
  end.
(** src/scn/impl.h:4789-4806, 4854-4862: read_default of a std::string *)
Definition read_word (fuel : nat) (p : nat) (b : buffer) : outcome (list Z * nat * buffer) :=
  '(q, b) <- until_classic_space fuel p b ;;
  '(buf, b) <- contiguous p q b ;;
  valid <- validate_unicode U8 buf ;;
  if valid : bool then Ok (buf, q, b) else Err InvalidScannedValue.

(** src/scn/impl.h:1939-1948, 2243-2257: read_code_unit and read_matching_code_unit; [None]: an
    error, of which only the existence matters here *)
Definition matching_unit (ch : Z) (p : nat) (b : buffer) : outcome (option nat * buffer) :=
  '(e, b) <- it_end p b ;;
  if e : bool then Ok (None, b)
  else
    '(q, b) <- it_next p b ;;
    '(c, b) <- it_deref p b ;;
    Ok (if c =? ch then Some q else None, b).
(** src/scn/impl.h:1950-1978, read_exactly_n_code_units, with guaranteed_minimum_size
    (1093-1119): the characters already available *)
Fixpoint exactly_loop (n : nat) (p : nat) (b : buffer) : outcome (option nat * buffer) :=
  match n with
  | O => Ok (Some p, b)
  | S n' => '(e, b) <- it_end p b ;;
            if e : bool then Ok (None, b) else '(p, b) <- it_next p b ;; exactly_loop n' p b
  end.
Definition exactly_n (n : nat) (p : nat) (b : buffer) : outcome (option nat * buffer) :=
  if (n <=? chars_available b - p)%nat
  then '(q, b) <- next_n n p b ;; Ok (Some q, b)
  else exactly_loop n p b.
(** src/scn/impl.h:2290-2311, read_matching_string_classic *)
Definition matching_string (str : list Z) (p : nat) (b : buffer) : outcome (option nat * buffer) :=
  '(q, b) <- exactly_n (length str) p b ;;
  match q with
  | None => Ok (None, b)
  | Some q => '(l, b) <- contiguous p q b ;; Ok (if list_eqb l str then Some q else None, b)
  end.
(** The first of several attempts that succeeds *)
Fixpoint first_of {V} (l : list (V * (nat -> buffer -> outcome (option nat * buffer)))) (p : nat)
  (b : buffer) : outcome (V * nat * buffer) :=
  match l with
  | [] => Err InvalidScannedValue
  | (v, f) :: l' =>
      '(q, b) <- f p b ;;
      match q with Some q => Ok (v, q, b) | None => first_of l' p b end
  end.
(** src/scn/impl.h:5388-5452, 5540-5549: read_default of a bool.  The error in the end is
    always that of the last attempt. *)
Definition read_bool (p : nat) (b : buffer) : outcome (bool * nat * buffer) :=
  first_of [(false, matching_unit 48); (true, matching_unit 49);
            (true, matching_string [116; 114; 117; 101]);
            (false, matching_string [102; 97; 108; 115; 101])] p b.
(** src/scn/impl.h:5595-5605, 5683-5696: read_default of a char *)
Definition read_char (p : nat) (b : buffer) : outcome (Z * nat * buffer) :=
  '(e, b) <- it_end p b ;;
  if e : bool then Err EndOfInput
  else
    '(q, b) <- it_next p b ;;
    '(c, b) <- it_deref p b ;;
    Ok (c, q, b).
(** src/scn/impl.h:5610-5626: read_default of a char32_t *)
Definition read_char32 (fuel : nat) (p : nat) (b : buffer) : outcome (Z * nat * buffer) :=
  '(q, cps, b) <- code_point_into fuel p b ;;
  match cps with
  | [] => Err InvalidScannedValue
  | _ => cp <- decode_cp_valid U8 cps ;; Ok (cp, q, b)
  end.

(** The types of argument considered, and their values *)
Inductive kind : Type := FInt (t : inttype) | FWord | FBool | FChar | FChar32.
Inductive scanned : Type := RNumber (v : Z) | RText (v : list Z) | RTruth (v : bool).
Definition with_result {A B} (g : A -> scanned) (m : outcome (A * B)) : outcome (scanned * B) :=
  '(a, x) <- m ;; Ok (g a, x).
Definition with_result3 {A} (g : A -> scanned) (m : outcome (A * nat * buffer))
  : outcome (scanned * nat * buffer) :=
  '(a, p, b) <- m ;; Ok (g a, p, b).
(** default_arg_reader on a string *)
Definition from_string (k : kind) (s : list Z) : outcome (scanned * list Z) :=
  match k with
  | FInt t => with_result RNumber (int_default t string_src s)
  | FWord => with_result RText (string_default (DString U8) string_src s)
  | FBool => with_result RTruth (bool_default string_src s)
  | FChar => with_result RNumber (char_default KChar string_src s)
  | FChar32 => with_result RNumber (char_default KCodePoint string_src s)
  end.
(** skip_ws_before_read: 3149-3152, 5655-5658 *)
Definition skips (k : kind) : bool := match k with FChar | FChar32 => false | _ => true end.
Definition from_buffer (fuel : nat) (k : kind) (p : nat) (b : buffer)
  : outcome (scanned * nat * buffer) :=
  match k with
  | FInt t => with_result3 RNumber (read_int fuel t p b)
  | FWord => with_result3 RText (read_word fuel p b)
  | FBool => with_result3 RTruth (read_bool p b)
  | FChar => with_result3 RNumber (read_char p b)
  | FChar32 => with_result3 RNumber (read_char32 fuel p b)
  end.

(** src/scn/impl.h:978-1004, is_segment_contiguous of [iterator, default_sentinel) *)
Definition is_segment_contiguous (p : nat) (b : buffer) : outcome bool :=
  seg <- get_segment_starting_at p b ;;
  Ok (match seg with [] => false | _ => negb (p <? length (putback b))%nat end).
(** src/scn/impl.h:5831-5844, 5899-5930, default_arg_reader: from the current segment
    alone if it is_segment_contiguous *)
Definition read_field (fuel : nat) (k : kind) (p : nat) (b : buffer)
  : outcome (scanned * nat * buffer) :=
  c <- is_segment_contiguous p b ;;
  if c : bool then
    seg <- get_segment_starting_at p b ;;
    '(v, rest) <- from_string k seg ;;
    '(p, b) <- next_n (length seg - length rest) p b ;;
    Ok (v, p, b)
  else
    '(e, b) <- it_end p b ;;
    if e : bool then Err EndOfInput
    else '(p, b) <- (if skips k then skip_space fuel p b else Ok (p, b)) ;;
         from_buffer fuel k p b.

(** src/scn/impl.cpp:1598-1636, on_literal_text *)
Fixpoint literal_text (fuel : nat) (lit : list Z) (p : nat) (b : buffer)
  : outcome (nat * buffer) :=
  match lit with
  | [] => Ok (p, b)
  | c :: lit' =>
      match fuel with
      | O => OutOfFuel
      | S f =>
          '(e, b) <- it_end p b ;;
          if e : bool then Err InvalidLiteral
          else
            '(after, cp, space) <- is_first_char_space U8 lit ;;
            if cp =? invalid_code_point then Err InvalidFormatString
            else if space : bool then
              '(p, b) <- while_classic_space fuel p b ;;
              lit' <- read_while_classic_space string_src after ;;
              literal_text f lit' p b
            else
              '(d, b) <- it_deref p b ;;
              if negb (d =? c) then Err InvalidLiteral
              else '(p, b) <- it_next p b ;; literal_text f lit' p b
      end
  end.

(** src/scn/impl.cpp:1598-1674, 1728-1740: the calls made for a format string that consists
    of literal text and of fields [{}].  Values and the position reached. *)
Inductive piece : Type := Text (lit : list Z) | Braces (k : kind).
Fixpoint scan_pieces (fuel : nat) (ps : list piece) (p : nat) (b : buffer)
  : outcome (list scanned * nat * buffer) :=
  match ps with
  | [] => Ok ([], p, b)
  | Text lit :: ps' =>
      '(p, b) <- literal_text fuel lit p b ;; scan_pieces fuel ps' p b
  | Braces k :: ps' =>
      '(v, p, b) <- read_field fuel k p b ;;
      '(vs, p, b) <- scan_pieces fuel ps' p b ;;
      Ok (v :: vs, p, b)
  end.
