(** Lookup tables of the library, transcribed entry by entry. *)
From Verif Require Import Prelude.
Local Open Scope Z_scope.

(** src/scn/impl.h:428-455, is_ascii_space_lookup *)
Definition is_ascii_space_lookup : list bool :=
  [
   false; false; false; false; false; false; false; false; false; true;
   true; true; true; true; false; false; false; false; false; false;
   false; false; false; false; false; false; false; false; false; false;
   false; false; true; false; false; false; false; false; false; false;
   false; false; false; false; false; false; false; false; false; false;
   false; false; false; false; false; false; false; false; false; false;
   false; false; false; false; false; false; false; false; false; false;
   false; false; false; false; false; false; false; false; false; false;
   false; false; false; false; false; false; false; false; false; false;
   false; false; false; false; false; false; false; false; false; false;
   false; false; false; false; false; false; false; false; false; false;
   false; false; false; false; false; false; false; false; false; false;
   false; false; false; false; false; false; false; false; false; false;
   false; false; false; false; false; false; false; false; false; false;
   false; false; false; false; false; false; false; false; false; false;
   false; false; false; false; false; false; false; false; false; false;
   false; false; false; false; false; false; false; false; false; false;
   false; false; false; false; false; false; false; false; false; false;
   false; false; false; false; false; false; false; false; false; false;
   false; false; false; false; false; false; false; false; false; false;
   false; false; false; false; false; false; false; false; false; false;
   false; false; false; false; false; false; false; false; false; false;
   false; false; false; false; false; false; false; false; false; false;
   false; false; false; false; false; false; false; false; false; false;
   false; false; false; false; false; false; false; false; false; false;
   false; false; false; false; false; false].

(** src/scn/impl.cpp:162-190, lookup in is_decimal_digit *)
Definition is_decimal_digit_lookup : list bool :=
  [
   false; false; false; false; false; false; false; false; false; false;
   false; false; false; false; false; false; false; false; false; false;
   false; false; false; false; false; false; false; false; false; false;
   false; false; false; false; false; false; false; false; false; false;
   false; false; false; false; false; false; false; false; true; true;
   true; true; true; true; true; true; true; true; false; false;
   false; false; false; false; false; false; false; false; false; false;
   false; false; false; false; false; false; false; false; false; false;
   false; false; false; false; false; false; false; false; false; false;
   false; false; false; false; false; false; false; false; false; false;
   false; false; false; false; false; false; false; false; false; false;
   false; false; false; false; false; false; false; false; false; false;
   false; false; false; false; false; false; false; false; false; false;
   false; false; false; false; false; false; false; false; false; false;
   false; false; false; false; false; false; false; false; false; false;
   false; false; false; false; false; false; false; false; false; false;
   false; false; false; false; false; false; false; false; false; false;
   false; false; false; false; false; false; false; false; false; false;
   false; false; false; false; false; false; false; false; false; false;
   false; false; false; false; false; false; false; false; false; false;
   false; false; false; false; false; false; false; false; false; false;
   false; false; false; false; false; false; false; false; false; false;
   false; false; false; false; false; false; false; false; false; false;
   false; false; false; false; false; false; false; false; false; false;
   false; false; false; false; false; false; false; false; false; false;
   false; false; false; false; false; false].

(** src/scn/impl.h:3218-3236, char_to_int_table *)
Definition char_to_int_table : list Z :=
  [
   255; 255; 255; 255; 255; 255; 255; 255; 255; 255; 255; 255; 255; 255; 255;
   255; 255; 255; 255; 255; 255; 255; 255; 255; 255; 255; 255; 255; 255; 255;
   255; 255; 255; 255; 255; 255; 255; 255; 255; 255; 255; 255; 255; 255; 255;
   255; 255; 255; 0; 1; 2; 3; 4; 5; 6; 7; 8; 9; 255; 255;
   255; 255; 255; 255; 255; 10; 11; 12; 13; 14; 15; 16; 17; 18; 19;
   20; 21; 22; 23; 24; 25; 26; 27; 28; 29; 30; 31; 32; 33; 34;
   35; 255; 255; 255; 255; 255; 255; 10; 11; 12; 13; 14; 15; 16; 17;
   18; 19; 20; 21; 22; 23; 24; 25; 26; 27; 28; 29; 30; 31; 32;
   33; 34; 35; 255; 255; 255; 255; 255; 255; 255; 255; 255; 255; 255; 255;
   255; 255; 255; 255; 255; 255; 255; 255; 255; 255; 255; 255; 255; 255; 255;
   255; 255; 255; 255; 255; 255; 255; 255; 255; 255; 255; 255; 255; 255; 255;
   255; 255; 255; 255; 255; 255; 255; 255; 255; 255; 255; 255; 255; 255; 255;
   255; 255; 255; 255; 255; 255; 255; 255; 255; 255; 255; 255; 255; 255; 255;
   255; 255; 255; 255; 255; 255; 255; 255; 255; 255; 255; 255; 255; 255; 255;
   255; 255; 255; 255; 255; 255; 255; 255; 255; 255; 255; 255; 255; 255; 255;
   255; 255; 255; 255; 255; 255; 255; 255; 255; 255; 255; 255; 255; 255; 255;
   255; 255; 255; 255; 255; 255; 255; 255; 255; 255; 255; 255; 255; 255; 255;
   255].

(** src/scn/impl.h:457-461, is_ascii_space(char); [ch] is the unsigned char value. *)
Definition is_ascii_space (ch : Z) : bool :=
  nth (Z.to_nat ch) is_ascii_space_lookup false.

(** src/scn/impl.h:463-466, is_ascii_space(wchar_t) *)
Definition is_ascii_space_wide (ch : Z) : bool :=
  (ch =? 0x20) || ((0x09 <=? ch) && (ch <=? 0x0d)).

(** src/scn/impl.h:468-471, is_ascii_char(char) *)
Definition is_ascii_char (ch : Z) : bool := ch <=? 127.

(** src/scn/impl.cpp:160-194, is_decimal_digit *)
Definition is_decimal_digit (ch : Z) : bool :=
  nth (Z.to_nat ch) is_decimal_digit_lookup false.

(** src/scn/impl.h:3238-3252, char_to_int for char and wchar_t. [ch] is the
    non-negative value of the unit; beyond 255 only for wchar_t. *)
Definition char_to_int (ch : Z) : Z :=
  if (0 <=? ch) && (ch <=? 255) then nth (Z.to_nat ch) char_to_int_table 255 else 255.
