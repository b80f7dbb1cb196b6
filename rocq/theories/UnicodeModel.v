(** Model of the Unicode facilities.
    include/scn/scan.h:4021-4318 and src/scn/impl.h:1237-1566. *)
From Verif Require Import Prelude.
Local Open Scope Z_scope.

(** Width of the code unit type: char, 2-byte wchar_t/char16_t, 4-byte
    wchar_t/char32_t. *)
Inductive enc : Type := U8 | U16 | U32.

(** include/scn/scan.h:4082 *)
Definition invalid_code_point : Z := 0x110000.

(** include/scn/scan.h:4030-4047, utf8_code_point_length_by_starting_code_unit.
    The table is the string literal, the last entry being its terminating NUL. *)
Definition utf8_lengths : list nat :=
  [1;1;1;1;1;1;1;1; 1;1;1;1;1;1;1;1; 0;0;0;0;0;0;0;0; 2;2;2;2; 3;3; 4; 0]%nat.
Definition utf8_cp_len (ch : Z) : nat :=
  nth (Z.to_nat (Z.shiftr ch 3)) utf8_lengths O.

(** include/scn/scan.h:4049-4064 *)
Definition utf16_cp_len (ch : Z) : nat :=
  let lead := Z.land 0xffff ch in
  if (0xd800 <=? lead) && (lead <=? 0xdbff) then 2%nat
  else if (0xdc00 <=? lead) && (lead <=? 0xdfff) then O
  else 1%nat.

(** include/scn/scan.h:4066-4080 *)
Definition cp_len (e : enc) (ch : Z) : nat :=
  match e with U8 => utf8_cp_len ch | U16 => utf16_cp_len ch | U32 => 1%nat end.

Definition is_trailing (ch : Z) : bool := Z.shiftr ch 6 =? 2.

(** include/scn/scan.h:4084-4161, decode_utf8_code_point_exhaustive.
    [UB]: the SCN_EXPECT on the size. *)
Definition decode_utf8 (input : list Z) : outcome Z :=
  match input with
  | [a] => if 0x80 <=? a then Ok invalid_code_point else Ok a
  | [a; b] =>
      if negb (Z.land a 0xe0 =? 0xc0) then Ok invalid_code_point
      else if negb (is_trailing b) then Ok invalid_code_point
      else Ok (Z.lor (Z.shiftl (Z.land a 0x1f) 6) (Z.land b 0x3f))
  | [a; b; c] =>
      if negb (Z.land a 0xf0 =? 0xe0) then Ok invalid_code_point
      else if negb (is_trailing b) || negb (is_trailing c)
      then Ok invalid_code_point
      else Ok (Z.lor (Z.lor (Z.shiftl (Z.land a 0x0f) 12)
                            (Z.shiftl (Z.land b 0x3f) 6))
                     (Z.land c 0x3f))
  | [a; b; c; d] =>
      if negb (Z.land a 0xf8 =? 0xf0) then Ok invalid_code_point
      else if 0xf4 <? a then Ok invalid_code_point
      else if negb (is_trailing b) || negb (is_trailing c)
              || negb (is_trailing d)
      then Ok invalid_code_point
      else Ok (Z.lor (Z.lor (Z.lor (Z.shiftl (Z.land a 0x07) 18)
                                   (Z.shiftl (Z.land b 0x3f) 12))
                            (Z.shiftl (Z.land c 0x3f) 6))
                     (Z.land d 0x3f))
  | _ => UB
  end.

(** include/scn/scan.h:4163-4220, decode_utf8_code_point_exhaustive_valid.
    [UB] wherever an SCN_EXPECT would fail. *)
Definition decode_utf8_valid (input : list Z) : outcome Z :=
  match input with
  | [a] => if a <? 0x80 then Ok a else UB
  | [a; b] =>
      if (Z.land a 0xe0 =? 0xc0) && is_trailing b
      then Ok (Z.lor (Z.shiftl (Z.land a 0x1f) 6) (Z.land b 0x3f))
      else UB
  | [a; b; c] =>
      if (Z.land a 0xf0 =? 0xe0) && is_trailing b && is_trailing c
      then Ok (Z.lor (Z.lor (Z.shiftl (Z.land a 0x0f) 12)
                            (Z.shiftl (Z.land b 0x3f) 6))
                     (Z.land c 0x3f))
      else UB
  | [a; b; c; d] =>
      if (Z.land a 0xf8 =? 0xf0) && (a <=? 0xf4)
         && is_trailing b && is_trailing c && is_trailing d
      then Ok (Z.lor (Z.lor (Z.lor (Z.shiftl (Z.land a 0x07) 18)
                                   (Z.shiftl (Z.land b 0x3f) 12))
                            (Z.shiftl (Z.land c 0x3f) 6))
                     (Z.land d 0x3f))
      else UB
  | _ => UB
  end.

(** include/scn/scan.h:4222-4245, decode_utf16_code_point_exhaustive *)
Definition decode_utf16 (input : list Z) : outcome Z :=
  match input with
  | [a] => Ok a
  | [lead; trail] =>
      if (lead <? 0xd800) || (0xdbff <? lead)
         || (trail <? 0xdc00) || (0xdfff <? trail)
      then Ok invalid_code_point
      else Ok (Z.lor (Z.shiftl (lead - 0xd800) 10) (trail - 0xdc00) + 0x10000)
  | _ => UB
  end.

(** include/scn/scan.h:4247-4269, decode_utf16_code_point_exhaustive_valid *)
Definition decode_utf16_valid (input : list Z) : outcome Z :=
  match input with
  | [a] => Ok a
  | [lead; trail] =>
      if (0xd800 <=? lead) && (lead <=? 0xdbff)
         && (0xdc00 <=? trail) && (trail <=? 0xdfff)
      then Ok (Z.lor (Z.shiftl (lead - 0xd800) 10) (trail - 0xdc00) + 0x10000)
      else UB
  | _ => UB
  end.

(** include/scn/scan.h:4271-4289, decode_code_point_exhaustive *)
Definition decode_cp (e : enc) (input : list Z) : outcome Z :=
  match e with
  | U8 => decode_utf8 input
  | U16 => decode_utf16 input
  | U32 => match input with
           | [c] => if invalid_code_point <=? c then Ok invalid_code_point else Ok c
           | _ => UB
           end
  end.

(** include/scn/scan.h:4291-4304, decode_code_point_exhaustive_valid *)
Definition decode_cp_valid (e : enc) (input : list Z) : outcome Z :=
  match e with
  | U8 => decode_utf8_valid input
  | U16 => decode_utf16_valid input
  | U32 => match input with [c] => Ok c | _ => UB end
  end.

(** include/scn/scan.h:4306-4316, is_cp_space *)
Definition is_cp_space (cp : Z) : bool :=
  ((0x09 <=? cp) && (cp <=? 0x0d)) || (cp =? 0x20) || (cp =? 0x85)
  || (cp =? 0x200e) || (cp =? 0x200f) || (cp =? 0x2028) || (cp =? 0x2029).

(** src/scn/impl.h:1261-1272, get_start_for_next_code_point *)
Fixpoint get_start_for_next_code_point (e : enc) (input : list Z) : list Z :=
  match input with
  | [] => []
  | c :: rest =>
      match cp_len e c with
      | O => get_start_for_next_code_point e rest
      | _ => input
      end
  end.

(** src/scn/impl.h:1274-1293, get_next_code_point.  Returns the code point and
    the remaining input (the returned iterator). *)
Definition get_next_code_point (e : enc) (input : list Z) : outcome (Z * list Z) :=
  match input with
  | [] => UB
  | c :: _ =>
      let len := cp_len e c in
      match len with
      | O => Ok (invalid_code_point, get_start_for_next_code_point e input)
      | _ =>
          if (length input <? len)%nat then Ok (invalid_code_point, [])
          else cp <- decode_cp e (firstn len input) ;;
               Ok (cp, skipn len input)
      end
  end.

(** src/scn/impl.h:1295-1308, get_next_code_point_valid *)
Definition get_next_code_point_valid (e : enc) (input : list Z)
  : outcome (Z * list Z) :=
  match input with
  | [] => UB
  | c :: _ =>
      let len := cp_len e c in
      if (length input <? len)%nat then UB
      else cp <- decode_cp_valid e (firstn len input) ;;
           Ok (cp, skipn len input)
  end.

(** src/scn/impl.h:1239-1259, validate_unicode.  [fuel]: number of iterations. *)
Fixpoint validate_unicode_loop (fuel : nat) (e : enc) (src : list Z)
  : outcome bool :=
  match src with
  | [] => Ok true
  | c :: _ =>
      match fuel with
      | O => OutOfFuel
      | S fuel' =>
          let len := cp_len e c in
          match len with
          | O => Ok false
          | _ =>
              if (length src <? len)%nat then Ok false
              else cp <- decode_cp e (firstn len src) ;;
                   if invalid_code_point <=? cp then Ok false
                   else validate_unicode_loop fuel' e (skipn len src)
          end
      end
  end.
Definition validate_unicode (e : enc) (src : list Z) : outcome bool :=
  validate_unicode_loop (length src) e src.

(** src/scn/impl.h:1317-1325, is_first_char_space *)
Definition is_first_char_space (e : enc) (str : list Z)
  : outcome (list Z * Z * bool) :=
  '(cp, rest) <- get_next_code_point e str ;;
  Ok (rest, cp, is_cp_space cp).

(** src/scn/impl.h:1538-1550, for_each_code_point: the sequence of values the
    callback receives. *)
Fixpoint for_each_code_point_loop (fuel : nat) (e : enc) (input : list Z)
  : outcome (list Z) :=
  match input with
  | [] => Ok []
  | _ =>
      match fuel with
      | O => OutOfFuel
      | S fuel' =>
          '(cp, rest) <- get_next_code_point e input ;;
          cps <- for_each_code_point_loop fuel' e rest ;;
          Ok (cp :: cps)
      end
  end.
Definition for_each_code_point (e : enc) (input : list Z) : outcome (list Z) :=
  for_each_code_point_loop (length input) e input.

(** src/scn/impl.h:1552-1563, for_each_code_point_valid *)
Fixpoint for_each_code_point_valid_loop (fuel : nat) (e : enc) (input : list Z)
  : outcome (list Z) :=
  match input with
  | [] => Ok []
  | _ =>
      match fuel with
      | O => OutOfFuel
      | S fuel' =>
          '(cp, rest) <- get_next_code_point_valid e input ;;
          cps <- for_each_code_point_valid_loop fuel' e rest ;;
          Ok (cp :: cps)
      end
  end.
Definition for_each_code_point_valid (e : enc) (input : list Z)
  : outcome (list Z) :=
  for_each_code_point_valid_loop (length input) e input.

(** src/scn/impl.h:1327-1352, encode_code_point_as_wide_character.
    [wide] is the width of wchar_t; [UB]: SCN_EXPECT(cp < invalid). *)
Definition encode_cp_as_wide (wide : enc) (cp : Z) (error_on_overflow : bool)
  : outcome Z :=
  if negb (cp <? invalid_code_point) then UB
  else match wide with
       | U32 => Ok cp
       | _ => if cp <? 0x10000 then Ok cp
              else if error_on_overflow then Err ValuePositiveOverflow
              else Ok ((cp - 0x10000) / 0x400 + 0xd800)
       end.

(** src/scn/impl.h:1354-1374, transcode_to_string_impl_to32 *)
Definition replace_invalid32 (cp : Z) : Z :=
  if cp =? invalid_code_point then 0xfffd else cp.
Definition transcode_to32 (e : enc) (src : list Z) : outcome (list Z) :=
  cps <- for_each_code_point e src ;; Ok (map replace_invalid32 cps).

(** src/scn/impl.h:1375-1393, transcode_valid_to_string_impl_to32.
    [UB]: SCN_EXPECT(res.value < invalid_code_point). *)
Definition transcode_valid_to32 (e : enc) (src : list Z) : outcome (list Z) :=
  cps <- for_each_code_point_valid e src ;;
  if forallb (fun cp => cp <? invalid_code_point) cps then Ok cps else UB.

(** src/scn/impl.h:1395-1441, body of the loop of transcode_to_string_impl_32to8.
    The narrowing casts to char keep the low 8 bits. *)
Definition to_char (z : Z) : Z := z mod 256.
Definition cp_32to8 (verified_valid : bool) (cp : Z) : list Z :=
  if negb verified_valid && (invalid_code_point <=? cp) then [0xef; 0xbf; 0xbd]
  else if cp <? 128 then [to_char cp]
  else if cp <? 2048 then
    [to_char (Z.lor 0xc0 (to_char (Z.shiftr cp 6)));
     to_char (Z.lor 0x80 (Z.land (to_char cp) 0x3f))]
  else if cp <? 65536 then
    [to_char (Z.lor 0xe0 (to_char (Z.shiftr cp 12)));
     to_char (Z.lor 0x80 (Z.land (to_char (Z.shiftr cp 6)) 0x3f));
     to_char (Z.lor 0x80 (Z.land (to_char cp) 0x3f))]
  else
    [to_char (Z.lor 0xf0 (to_char (Z.shiftr cp 18)));
     to_char (Z.lor 0x80 (Z.land (to_char (Z.shiftr cp 12)) 0x3f));
     to_char (Z.lor 0x80 (Z.land (to_char (Z.shiftr cp 6)) 0x3f));
     to_char (Z.lor 0x80 (Z.land (to_char cp) 0x3f))].
Definition transcode_32to8 (verified_valid : bool) (src : list Z) : list Z :=
  flat_map (cp_32to8 verified_valid) src.

(** src/scn/impl.h:1443-1467, transcode_to_string_impl_32to16.  The low
    surrogate is computed with 0xd800 in the source. *)
Definition to_char16 (z : Z) : Z := z mod 0x10000.
Definition cp_32to16 (verified_valid : bool) (cp : Z) : list Z :=
  if negb verified_valid && (invalid_code_point <=? cp) then [0xfffd]
  else if cp <? 0x10000 then [to_char16 cp]
  else [to_char16 ((cp - 0x10000) / 0x400 + 0xd800);
        to_char16 ((cp - 0x10000) mod 0x400 + 0xd800)].
Definition transcode_32to16 (verified_valid : bool) (src : list Z) : list Z :=
  flat_map (cp_32to16 verified_valid) src.

(** src/scn/impl.h:1469-1499, transcode_to_string (the 16 -> 32 case names a
    non-existent function in the source and is modelled as the intended call). *)
Definition transcode_to_string (from to : enc) (src : list Z) : outcome (list Z) :=
  match from, to with
  | U8, U16 => tmp <- transcode_to32 U8 src ;; Ok (transcode_32to16 false tmp)
  | U8, U32 => transcode_to32 U8 src
  | U16, U8 => tmp <- transcode_to32 U16 src ;; Ok (transcode_32to8 false tmp)
  | U16, U32 => transcode_to32 U16 src
  | U32, U8 => Ok (transcode_32to8 false src)
  | U32, U16 => Ok (transcode_32to16 false src)
  | _, _ => UB
  end.

(** src/scn/impl.h:1500-1536, transcode_valid_to_string *)
Definition transcode_valid_to_string (from to : enc) (src : list Z)
  : outcome (list Z) :=
  valid <- validate_unicode from src ;;
  if negb valid then UB
  else match from, to with
       | U8, U16 => tmp <- transcode_valid_to32 U8 src ;;
                    Ok (transcode_32to16 true tmp)
       | U8, U32 => transcode_valid_to32 U8 src
       | U16, U8 => tmp <- transcode_valid_to32 U16 src ;;
                    Ok (transcode_32to8 true tmp)
       | U16, U32 => transcode_valid_to32 U16 src
       | U32, U8 => Ok (transcode_32to8 true src)
       | U32, U16 => Ok (transcode_32to16 true src)
       | _, _ => UB
       end.
