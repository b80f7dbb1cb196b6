(** Model of the bit helpers.  src/scn/impl.h:490-590 and src/scn/impl.cpp:115-124. *)
From Verif Require Import Prelude.
Local Open Scope Z_scope.

(** uint64_t / uint32_t arithmetic: results are reduced modulo 2^64 / 2^32. *)
Definition wrap64 (z : Z) : Z := z mod 2 ^ 64.
Definition wrap32 (z : Z) : Z := z mod 2 ^ 32.
Definition not64 (z : Z) : Z := Z.lxor z (2 ^ 64 - 1).

(** std::memcpy of at most eight chars into a zero-initialised uint64_t on a
    little-endian machine. *)
Fixpoint word_of (bs : list Z) : Z :=
  match bs with [] => 0 | b :: bs' => b + 256 * word_of bs' end.

(** std::countr_zero.  [UB]: SCN_EXPECT(val != 0).  src/scn/impl.h:490-516 *)
Fixpoint ctz_loop (fuel : nat) (val : Z) : Z :=
  match fuel with
  | O => 0
  | S f => if Z.odd val then 0 else 1 + ctz_loop f (Z.div2 val)
  end.
Definition count_trailing_zeroes (val : Z) : outcome Z :=
  if val =? 0 then UB else Ok (ctz_loop 64 val).

(** src/scn/impl.h:522-525 *)
Definition has_zero_byte (word : Z) : Z :=
  Z.land (Z.land (wrap64 (word - 0x0101010101010101)) (not64 word))
         0x8080808080808080.

(** ~0ull / 255 *)
Definition ones_bytes : Z := (2 ^ 64 - 1) / 255.

(** src/scn/impl.h:538-541; n is a uint8_t and 127 - n an int, converted to
    uint64_t by the multiplication. *)
Definition has_byte_greater (word n : Z) : Z :=
  Z.land (Z.lor (wrap64 (word + wrap64 (ones_bytes * wrap64 (127 - n)))) word)
         (wrap64 (ones_bytes * 128)).

(** src/scn/impl.h:543-550 *)
Definition get_index_of_first_nonmatching_byte (word : Z) : outcome Z :=
  let w := Z.lxor word 0x8080808080808080 in
  if w =? 0 then Ok 8
  else c <- count_trailing_zeroes w ;; Ok (c / 8).

(** src/scn/impl.h:552-559 *)
Definition get_index_of_first_matching_byte (word pattern : Z) : outcome Z :=
  let mask := 0x7f7f7f7f7f7f7f7f in
  let input := Z.lxor word pattern in
  let tmp := wrap64 (Z.land input mask + mask) in
  let tmp := not64 (Z.lor (Z.lor tmp input) mask) in
  c <- count_trailing_zeroes tmp ;; Ok (c / 8).

(** src/scn/impl.h:561-574.  Reading outside the table is [UB]. *)
Definition log2_lookup : list Z :=
  [0;  9;  1;  10; 13; 21; 2;  29; 11; 14; 16;
   18; 22; 25; 3;  30; 8;  12; 20; 28; 15; 17;
   24; 7;  19; 27; 23; 6;  26; 5;  4;  31].
Definition table_get (t : list Z) (i : Z) : outcome Z :=
  match nth_error t (Z.to_nat i) with Some x => Ok x | None => UB end.
Definition log2_fast (val : Z) : outcome Z :=
  let val := Z.lor val (Z.shiftr val 1) in
  let val := Z.lor val (Z.shiftr val 2) in
  let val := Z.lor val (Z.shiftr val 4) in
  let val := Z.lor val (Z.shiftr val 8) in
  let val := Z.lor val (Z.shiftr val 16) in
  table_get log2_lookup (Z.shiftr (wrap32 (val * 0x07c4acdd)) 27).

(** src/scn/impl.h:576-583 *)
Definition log2_pow2_lookup : list Z :=
  [0;  1;  28; 2;  29; 14; 24; 3;  30; 22; 20;
   15; 25; 17; 4;  8;  31; 27; 13; 23; 21; 19;
   16; 7;  26; 12; 18; 6;  11; 5;  10; 9].
Definition log2_pow2_fast (val : Z) : outcome Z :=
  table_get log2_pow2_lookup (Z.shiftr (wrap32 (val * 0x077cb531)) 27).

(** src/scn/impl.h:585-591 *)
Definition byteswap (val : Z) : Z :=
  Z.lor (Z.lor (Z.lor (Z.lor (Z.lor (Z.lor (Z.lor
    (Z.shiftr (Z.land val 0xFF00000000000000) 56)
    (Z.shiftr (Z.land val 0x00FF000000000000) 40))
    (Z.shiftr (Z.land val 0x0000FF0000000000) 24))
    (Z.shiftr (Z.land val 0x000000FF00000000) 8))
    (wrap64 (Z.shiftl (Z.land val 0x00000000FF000000) 8)))
    (wrap64 (Z.shiftl (Z.land val 0x0000000000FF0000) 24)))
    (wrap64 (Z.shiftl (Z.land val 0x000000000000FF00) 40)))
    (wrap64 (Z.shiftl (Z.land val 0x00000000000000FF) 56)).

(** src/scn/impl.cpp:115-124, has_nonascii_char_64.
    [UB]: SCN_EXPECT(source.size() <= 8). *)
Definition has_nonascii_char_64 (source : list Z) : outcome bool :=
  if (8 <? length source)%nat then UB
  else Ok (negb (has_byte_greater (word_of source) 127 =? 0)).
