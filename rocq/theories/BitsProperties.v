(** Properties C05 (whitespace search) and C42 (bit helpers). *)
From Verif Require Import Prelude Tables UnicodeModel UnicodeSpec
  BitsModel BitsProofs WhitespaceModel WhitespaceSpec WhitespaceProofs.
Local Open Scope Z_scope.

(** ** C05 *)

(** On every byte string the block-wise search terminates, stays inside the source
    (no UB) and returns the first code point boundary where a space starts. *)
Theorem C05_find_space : forall s, bytes s ->
  exists r, find_classic_space_narrow_fast s = Ok r /\ first_at U8 is_cp_space s r.
Proof. exact find_classic_space_spec. Qed.
Print Assumptions C05_find_space.

Theorem C05_find_nonspace : forall s, bytes s ->
  exists r, find_classic_nonspace_narrow_fast s = Ok r /\
            first_at U8 (fun cp => negb (is_cp_space cp)) s r.
Proof. exact find_classic_nonspace_spec. Qed.
Print Assumptions C05_find_nonspace.

(** That specification has a unique answer, which is a suffix of the source. *)
Theorem C05_search_unique : forall e p s r1 r2,
  first_at e p s r1 -> first_at e p s r2 -> r1 = r2.
Proof. exact first_at_unique. Qed.
Print Assumptions C05_search_unique.

Theorem C05_search_suffix : forall e p s r,
  first_at e p s r -> exists pre, s = pre ++ r.
Proof. exact (fun e p s r H => steps_while_suffix e _ s r (proj1 H)). Qed.
Print Assumptions C05_search_suffix.

(** On well-formed text: drop code points until the first (non-)space. *)
Theorem C05_find_space_utf8 : forall cps, Forall scalar cps ->
  find_classic_space_narrow_fast (utf8 cps) = Ok (utf8 (drop_until is_cp_space cps)).
Proof. exact find_classic_space_utf8. Qed.
Print Assumptions C05_find_space_utf8.

Theorem C05_find_nonspace_utf8 : forall cps, Forall scalar cps ->
  find_classic_nonspace_narrow_fast (utf8 cps) =
  Ok (utf8 (drop_until (fun cp => negb (is_cp_space cp)) cps)).
Proof. exact find_classic_nonspace_utf8. Qed.
Print Assumptions C05_find_nonspace_utf8.

(** Eleven ASCII letters, then U+2028 (three bytes), then 'z'. *)
Example C05_ex :
  find_classic_space_narrow_fast
    [97;98;99;100;101;102;103;104;105;106;107; 0xE2;0x80;0xA8; 122] =
  Ok [0xE2;0x80;0xA8; 122] /\
  find_classic_nonspace_narrow_fast [32; 0xC2; 0x85; 9; 122] = Ok [122] /\
  find_classic_space_narrow_fast [0xE2; 0x80] = Ok [].
Proof. repeat split; vm_compute; reflexivity. Qed.

(** The decimal digit finder. *)
Theorem C05_find_nondigit : forall s, bytes s -> exists ds,
  s = ds ++ find_nondecimal_digit_narrow_fast s /\
  Forall (fun c => 0x30 <= c <= 0x39) ds /\
  (forall c rest, find_nondecimal_digit_narrow_fast s = c :: rest -> ~ 0x30 <= c <= 0x39).
Proof. exact find_nondecimal_spec. Qed.
Print Assumptions C05_find_nondigit.

(** ** C42 *)

Theorem C42_byteswap : forall bs, bytes bs -> length bs = 8%nat ->
  byteswap (word_of bs) = word_of (rev bs).
Proof. exact byteswap_rev. Qed.
Print Assumptions C42_byteswap.

Theorem C42_has_zero_byte : forall bs, bytes bs -> length bs = 8%nat ->
  (has_zero_byte (word_of bs) = 0 <-> ~ In 0 bs).
Proof. exact has_zero_byte_iff. Qed.
Print Assumptions C42_has_zero_byte.

Theorem C42_has_zero_byte_first : forall pre post,
  bytes (pre ++ 0 :: post) -> length (pre ++ 0 :: post) = 8%nat -> ~ In 0 pre ->
  count_trailing_zeroes (has_zero_byte (word_of (pre ++ 0 :: post)))
  = Ok (8 * Z.of_nat (length pre) + 7).
Proof. exact has_zero_byte_first. Qed.
Print Assumptions C42_has_zero_byte_first.

Theorem C42_has_byte_greater : forall bs n, bytes bs -> length bs = 8%nat -> 0 <= n <= 127 ->
  (has_byte_greater (word_of bs) n = 0 <-> Forall (fun b => b <= n) bs).
Proof. exact has_byte_greater_iff. Qed.
Print Assumptions C42_has_byte_greater.

Theorem C42_has_byte_greater_first : forall pre b post n,
  bytes (pre ++ b :: post) -> length (pre ++ b :: post) = 8%nat -> 0 <= n <= 127 ->
  Forall (fun b => b <= n) pre -> n < b ->
  count_trailing_zeroes (has_byte_greater (word_of (pre ++ b :: post)) n)
  = Ok (8 * Z.of_nat (length pre) + 7).
Proof. exact has_byte_greater_first. Qed.
Print Assumptions C42_has_byte_greater_first.

Theorem C42_first_nonmatching_byte : forall n b post, bytes (b :: post) ->
  length (repeat 0x80 n ++ b :: post) = 8%nat -> b <> 0x80 ->
  get_index_of_first_nonmatching_byte (word_of (repeat 0x80 n ++ b :: post))
  = Ok (Z.of_nat n).
Proof. exact nonmatching_first. Qed.
Print Assumptions C42_first_nonmatching_byte.

Theorem C42_first_matching_byte : forall pa a posta pb postb,
  bytes (pa ++ a :: posta) -> bytes (pb ++ a :: postb) ->
  length (pa ++ a :: posta) = 8%nat -> length (pb ++ a :: postb) = 8%nat ->
  length pa = length pb -> Forall (fun p => fst p <> snd p) (combine pa pb) ->
  get_index_of_first_matching_byte (word_of (pa ++ a :: posta)) (word_of (pb ++ a :: postb))
  = Ok (Z.of_nat (length pa)).
Proof. exact matching_first. Qed.
Print Assumptions C42_first_matching_byte.

Theorem C42_log2 : forall v, 0 < v < 2 ^ 32 -> log2_fast v = Ok (Z.log2 v).
Proof. exact log2_fast_exact. Qed.
Print Assumptions C42_log2.

Theorem C42_log2_pow2 : forall k, 0 <= k < 32 -> log2_pow2_fast (2 ^ k) = Ok k.
Proof. exact log2_pow2_fast_exact. Qed.
Print Assumptions C42_log2_pow2.

(** Every 64-bit word is [word_of] some eight bytes, so the above cover all words. *)
Theorem C42_words_are_bytes : forall w, 0 <= w < 2 ^ 64 ->
  exists bs, bytes bs /\ length bs = 8%nat /\ word_of bs = w.
Proof. exact word_of_surj. Qed.
Print Assumptions C42_words_are_bytes.

Example C42_ex :
  byteswap 0x0102030405060708 = 0x0807060504030201 /\
  has_zero_byte 0x1100223344556677 <> 0 /\ has_zero_byte 0x1101223344556677 = 0 /\
  has_byte_greater 0x0000000000800000 127 <> 0 /\
  log2_fast 1000000 = Ok 19 /\ log2_pow2_fast 4096 = Ok 12 /\
  get_index_of_first_matching_byte 0x0000000000615a41 0x6161616161616161 = Ok 2.
Proof. repeat split; vm_compute; congruence. Qed.
