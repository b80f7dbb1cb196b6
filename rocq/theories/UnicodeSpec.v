(** Independent specification of UTF-8, UTF-16 and UTF-32 (Unicode 15, 3.9). *)
From Verif Require Import Prelude.
Local Open Scope Z_scope.

(** Unicode scalar values (D76). *)
Definition scalar (cp : Z) : Prop :=
  0 <= cp <= 0xD7FF \/ 0xE000 <= cp <= 0x10FFFF.

(** UTF-8 encoding of one scalar value, as arithmetic on its value. *)
Definition utf8_of (cp : Z) : list Z :=
  if cp <? 0x80 then [cp]
  else if cp <? 0x800 then [0xC0 + cp / 64; 0x80 + cp mod 64]
  else if cp <? 0x10000 then
    [0xE0 + cp / 4096; 0x80 + (cp / 64) mod 64; 0x80 + cp mod 64]
  else
    [0xF0 + cp / 262144; 0x80 + (cp / 4096) mod 64;
     0x80 + (cp / 64) mod 64; 0x80 + cp mod 64].

(** UTF-16 encoding of one scalar value. *)
Definition utf16_of (cp : Z) : list Z :=
  if cp <? 0x10000 then [cp]
  else [0xD800 + (cp - 0x10000) / 1024; 0xDC00 + (cp - 0x10000) mod 1024].

Definition utf8 (cps : list Z) : list Z := flat_map utf8_of cps.
Definition utf16 (cps : list Z) : list Z := flat_map utf16_of cps.

(** Well-formed text: the encoding of some sequence of scalar values. *)
Definition well_formed_utf8 (s : list Z) : Prop :=
  exists cps, Forall scalar cps /\ s = utf8 cps.
Definition well_formed_utf16 (s : list Z) : Prop :=
  exists cps, Forall scalar cps /\ s = utf16 cps.

(** Pattern_White_Space (UAX #31, R3a), as an enumeration. *)
Definition pattern_white_space : list Z :=
  [0x9; 0xA; 0xB; 0xC; 0xD; 0x20; 0x85; 0x200E; 0x200F; 0x2028; 0x2029].
