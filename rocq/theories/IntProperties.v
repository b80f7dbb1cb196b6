(** Properties C06-C12 and C41: integer scanning; and the integer part of C13. *)
From Verif Require Import Prelude Tables UnicodeModel UnicodeSpec BitsModel BitsProofs
  WhitespaceModel WhitespaceSpec WhitespaceProofs
  ReadModel SpecsModel IntModel IntSpec IntProofs.
Local Open Scope Z_scope.

(** Standing hypotheses of this file.
    - [type_ok t]: 8, 16, 32 or 64 bits.  [b = 0 \/ base_ok b]: detection or 2..36.
    - [enc_ok e s]: the units of a narrow source are bytes.
    - [no_dle r text]: on a contiguous narrow source the text after the sign does not
      begin with the byte 0x10, which the prefix comparison takes for '0'
      (see [C11_dle_refuted]). *)

(** ** C06 *)

(** A successful scan returns the value of the sign and of the maximal digit run, in
    range, for every (type, base) with complete overflow detection, and for every
    type when the run denotes a value below 2^64. *)
Theorem C06_value_partial : forall r t s b v rest,
  type_ok t -> b = 0 \/ base_ok b -> enc_ok (s_enc r) s -> no_dle r (snd (split_sign s)) ->
  int_read_default_with_base r t s b = Ok (v, rest) ->
  let neg := fst (split_sign s) in
  let (B, body) := read_base b (snd (split_sign s)) in
  exists ds, digit_run B body ds rest
    /\ (exact (it_signed t) (it_bits t) B \/ value B ds < 2 ^ 64 ->
        v = signed_value neg (value B ds) /\ in_range (it_signed t) (it_bits t) v).
Proof.
  intros r t s b v rest Ht Hb He Hq HR. rewrite default_generic in HR.
  destruct (success_inv r t s b _ v rest Ht Hb He Hq (fun H => H) HR) as (_ & ds & H1 & H2 & _).
  cbv zeta in *. destruct (read_base b (snd (split_sign s))) as [B body]. exists ds. auto.
Qed.
Print Assumptions C06_value_partial.

(** What is missing: on the remaining 64-bit (type, base) pairs a longer run is read
    modulo 2^64. *)
Theorem C06_value_mod : forall r t s b v rest,
  type_ok t -> b = 0 \/ base_ok b -> enc_ok (s_enc r) s -> no_dle r (snd (split_sign s)) ->
  int_read_default_with_base r t s b = Ok (v, rest) ->
  let neg := fst (split_sign s) in
  let (B, body) := read_base b (snd (split_sign s)) in
  exists ds, digit_run B body ds rest /\ v = signed_value neg (value B ds mod 2 ^ 64)
    /\ in_range (it_signed t) (it_bits t) v.
Proof.
  intros r t s b v rest Ht Hb He Hq HR. rewrite default_generic in HR.
  destruct (success_inv r t s b _ v rest Ht Hb He Hq (fun H => H) HR) as (_ & ds & H1 & _ & H2 & H3).
  cbv zeta in *. destruct (read_base b (snd (split_sign s))) as [B body]. exists ds. auto.
Qed.
Print Assumptions C06_value_mod.

(** The same for formatted reading without L. *)
Theorem C06_specs_value : forall r t sp sep s b v rest,
  type_ok t -> localized sp = false -> get_base sp = Ok b -> b = 0 \/ base_ok b ->
  enc_ok (s_enc r) s -> no_dle r (snd (split_sign s)) ->
  int_read_specs r t sp sep s = Ok (v, rest) ->
  let neg := fst (split_sign s) in
  let (B, body) := read_base b (snd (split_sign s)) in
  (neg = true -> type sp <> PIntUnsignedDecimal) /\
  exists ds, digit_run B body ds rest
    /\ (exact (it_signed t) (it_bits t) B \/ value B ds < 2 ^ 64 ->
        v = signed_value neg (value B ds) /\ in_range (it_signed t) (it_bits t) v).
Proof.
  intros r t sp sep s b v rest Ht HL Hbase Hb He Hq HR.
  rewrite (specs_generic r t sp sep s b HL Hbase) in HR.
  destruct (success_inv r t s b (it_signed t && negb (ptype_eqb (type sp) PIntUnsignedDecimal))
              v rest Ht Hb He Hq (fun H => proj1 (andb_prop _ _ H)) HR)
    as (H0 & ds & H1 & H2 & _).
  cbv zeta in *. destruct (read_base b (snd (split_sign s))) as [B body].
  split; [|exists ds; auto].
  intros Hneg E. specialize (H0 Hneg). rewrite E in H0. rewrite andb_false_r in H0. discriminate.
Qed.
Print Assumptions C06_specs_value.

(** scan<uint64_t>("30000000000000000000") succeeds with 11553255926290448384. *)
Theorem C06_value_refuted : exists t s v,
  type_ok t /\ bytes s /\ scan_int t s 10 = Ok (v, []) /\
  exists ds, digit_run 10 s ds [] /\ value 10 ds <> v.
Proof.
  exists u64, (51 :: repeat 48 19), 11553255926290448384.
  assert (Hd : Forall (is_digit 10) (51 :: repeat 48 19)).
  { apply forallb_dec. vm_compute; reflexivity. }
  split; [unfold type_ok; cbn; lia|]. split; [eapply digits_bytes; exact Hd|].
  split; [vm_compute; reflexivity|].
  exists (51 :: repeat 48 19). split; [|vm_compute; congruence].
  repeat split; [discriminate|exact Hd|intros []].
Qed.
Print Assumptions C06_value_refuted.

(** "-0x1Fz" read as int with detected base: -31, leaving "z"; from a non-contiguous
    wide source as well. *)
Example C06_ex :
  int_read_default_with_base string_src i32 [45; 48; 120; 49; 70; 122] 0 = Ok (-31, [122]) /\
  int_read_default_with_base (Src U32 false (fun _ => 1%nat)) i8 [49; 50; 55; 0x10FFFF] 10
    = Ok (127, [0x10FFFF]) /\
  scan_int i64 (32 :: 45 :: [57;50;50;51;51;55;50;48;51;54;56;53;52;55;55;53;56;48;56]) 10
    = Ok (-9223372036854775808, []).
Proof. repeat split; vm_compute; reflexivity. Qed.

(** ** C07 *)

(** In-range values are always read, whatever the type, base, number of leading zeros
    and source kind: overflow is never reported for them. *)
Theorem C07_in_range_never_fails : forall r t s b,
  type_ok t -> b = 0 \/ base_ok b -> enc_ok (s_enc r) s -> no_dle r (snd (split_sign s)) ->
  let neg := fst (split_sign s) in
  let (B, body) := read_base b (snd (split_sign s)) in
  forall ds rest, digit_run B body ds rest -> (neg = true -> it_signed t = true) ->
  in_range (it_signed t) (it_bits t) (signed_value neg (value B ds)) ->
  int_read_default_with_base r t s b = Ok (signed_value neg (value B ds), rest).
Proof.
  intros r t s b Ht Hb He Hq neg.
  destruct (read_base b (snd (split_sign s))) as [B body] eqn:E.
  intros ds rest Hrun Hneg HV.
  assert (H1 := rd_run r t s b (it_signed t) Ht Hb He Hq (fun H => H) ds rest Hneg).
  rewrite E in H1. cbn [fst snd] in H1. destruct (H1 Hrun) as (H2 & _).
  rewrite default_generic. apply H2. apply limit_fits; auto.
  - fold neg. intros X. destruct neg; [rewrite Hneg in X by reflexivity; discriminate|reflexivity].
  - destruct Hrun as (_ & _ & Hds & _).
    destruct s as [|c s].
    + unfold read_base in E. cbn in E. rewrite !andb_false_r in E.
      apply value_range in Hds; [lia|]. destruct Hb as [->|Hb]; [cbn in E; injection E as <- _; lia|].
      unfold base_ok in Hb. destruct (b =? 0); injection E as <- _; lia.
    + destruct (prefix_spec r (c :: s) b ltac:(discriminate) Hb He Hq) as (_ & _ & _ & _ & _ & HB & _).
      rewrite E in HB. cbn [fst] in HB. unfold base_ok in HB. apply value_range in Hds; lia.
Qed.
Print Assumptions C07_in_range_never_fails.

(** Out-of-range values: complete detection on [exact] combinations, for every source
    kind ... *)
Theorem C07_overflow_reported_partial : forall r t s b,
  type_ok t -> b = 0 \/ base_ok b -> enc_ok (s_enc r) s -> no_dle r (snd (split_sign s)) ->
  let neg := fst (split_sign s) in
  let (B, body) := read_base b (snd (split_sign s)) in
  forall ds rest, digit_run B body ds rest -> (neg = true -> it_signed t = true) ->
  exact (it_signed t) (it_bits t) B ->
  ~ in_range (it_signed t) (it_bits t) (signed_value neg (value B ds)) ->
  int_read_default_with_base r t s b
  = Err (if neg then ValueNegativeOverflow else ValuePositiveOverflow).
Proof.
  intros r t s b Ht Hb He Hq neg.
  destruct (read_base b (snd (split_sign s))) as [B body] eqn:E.
  intros ds rest Hrun Hneg Hx HV.
  assert (H1 := rd_run r t s b (it_signed t) Ht Hb He Hq (fun H => H) ds rest Hneg).
  rewrite E in H1. cbn [fst snd] in H1. destruct (H1 Hrun) as (_ & H2 & _).
  rewrite default_generic. apply H2; [|exact Hx].
  assert (HB : base_ok B).
  { destruct s as [|c s].
    - unfold read_base in E. cbn in E. rewrite !andb_false_r in E.
      destruct Hb as [->|Hb]; [cbn in E; injection E as <- _; unfold base_ok; lia|].
      destruct (b =? 0) eqn:E0; injection E as <- _; [unfold base_ok; lia|exact Hb].
    - destruct (prefix_spec r (c :: s) b ltac:(discriminate) Hb He Hq) as (_ & _ & _ & _ & _ & HB & _).
      rewrite E in HB. exact HB. }
  destruct Hrun as (_ & _ & Hds & _).
  apply value_range in Hds; [|unfold base_ok in HB; lia].
  destruct (Z_lt_le_dec (limit t neg) (value B ds)) as [|Hle]; [assumption|exfalso].
  apply HV, limit_fits; auto; [|lia].
  intros X. destruct neg; [rewrite Hneg in X by reflexivity; discriminate|reflexivity].
Qed.
Print Assumptions C07_overflow_reported_partial.

(** ... and on no other: these are exactly the pairs (type, base) for which every
    out-of-range numeral is reported. *)
Theorem C07_detection_iff : forall t b, type_ok t -> base_ok b ->
  ((forall neg ds, ds <> [] -> Forall (is_digit b) ds -> (neg = true -> it_signed t = true) ->
     (forall L, prefix_of b L -> has_prefix L b ds = false) ->
     ~ in_range (it_signed t) (it_bits t) (signed_value neg (value b ds)) ->
     scan_int t ((if neg then [45] else []) ++ ds) b
     = Err (if neg then ValueNegativeOverflow else ValuePositiveOverflow))
   <-> exact (it_signed t) (it_bits t) b).
Proof. exact detects_exact. Qed.
Print Assumptions C07_detection_iff.

(** In particular unsigned 64-bit decimal scanning misses overflows. *)
Theorem C07_overflow_refuted : exists s, bytes s /\
  (exists ds, digit_run 10 s ds [] /\ ~ in_range false 64 (value 10 ds)) /\
  exists v, scan_int u64 s 10 = Ok (v, []).
Proof.
  exists (51 :: repeat 48 19).
  assert (Hd : Forall (is_digit 10) (51 :: repeat 48 19)).
  { apply forallb_dec. vm_compute; reflexivity. }
  split; [eapply digits_bytes; exact Hd|]. split.
  - exists (51 :: repeat 48 19). split; [repeat split; [discriminate|exact Hd|intros []]|].
    unfold in_range. vm_compute. intros [_ H]. discriminate.
  - exists 11553255926290448384. vm_compute; reflexivity.
Qed.
Print Assumptions C07_overflow_refuted.

Example C07_ex :
  scan_int i8 [45; 49; 50; 56] 10 = Ok (-128, []) /\
  scan_int i8 [49; 50; 56] 10 = Err ValuePositiveOverflow /\
  scan_int i32 (repeat 48 40 ++ [55]) 10 = Ok (7, []) /\
  scan_int u16 [70; 70; 70; 70; 48] 16 = Err ValuePositiveOverflow /\
  scan_int u64 [49;56;52;52;54;55;52;52;48;55;51;55;48;57;53;53;49;54;49;54] 10 = Err ValuePositiveOverflow.
Proof. repeat split; vm_compute; reflexivity. Qed.

(** ** C08 *)

(** Print in any base and case, optional '+', any suffix not continuing the digits,
    any source kind.  The number 0 followed by what completes a base prefix ("0" then
    "x1" in base 16) is excluded; see [C08_zero_refuted]. *)
Theorem C08_round_trip_partial : forall r t upper b v plus rest,
  type_ok t -> base_ok b -> in_range (it_signed t) (it_bits t) v ->
  ~ starts_with_digit b rest -> enc_ok (s_enc r) rest ->
  (v = 0 -> forall L, prefix_of b L -> has_prefix L b (48 :: rest) = false) ->
  int_read_default_with_base r t
    ((if plus && (0 <=? v) then [43] else []) ++ print_signed upper b v ++ rest) b
  = Ok (v, rest).
Proof. exact round_trip. Qed.
Print Assumptions C08_round_trip_partial.

(** With leading whitespace (any Unicode whitespace), through scn::scan_int. *)
Theorem C08_scan_int_round_trip_partial : forall t upper b v plus rest ws,
  type_ok t -> base_ok b -> in_range (it_signed t) (it_bits t) v ->
  ~ starts_with_digit b rest -> bytes rest ->
  (v = 0 -> forall L, prefix_of b L -> has_prefix L b (48 :: rest) = false) ->
  Forall scalar ws -> Forall (fun cp => is_cp_space cp = true) ws ->
  scan_int t (utf8 ws ++ (if plus && (0 <=? v) then [43] else []) ++ print_signed upper b v ++ rest) b
  = Ok (v, rest).
Proof.
  intros t upper b v plus rest ws Ht Hb Hv Hr Hrb H0 Hws Hsp.
  assert (RT := round_trip string_src t upper b v plus rest Ht Hb Hv Hr (fun _ => Hrb) H0).
  cbv zeta in RT. rewrite <- RT. clear RT.
  destruct (print_signed_shape upper b v Hb) as (sg & ds & E & Hne & Hds & _ & Hsg & _).
  assert (Hbs : bytes ((if plus && (0 <=? v) then [43] else []) ++ print_signed upper b v ++ rest)).
  { rewrite E, <- app_assoc. repeat (apply bytes_app; split); try assumption.
    - destruct (plus && (0 <=? v)); repeat constructor; unfold is_byte; lia.
    - rewrite Hsg. destruct (v <? 0); repeat constructor; unfold is_byte; lia.
    - eapply digits_bytes; eassumption. }
  assert (Hhead : exists c s', (if plus && (0 <=? v) then [43] else []) ++ print_signed upper b v ++ rest
                               = c :: s' /\ 0 <= c < 128 /\ is_cp_space c = false).
  { rewrite E. destruct (plus && (0 <=? v)).
    { eexists 43, _. split; [reflexivity|]. split; [lia|reflexivity]. }
    rewrite Hsg. destruct (v <? 0).
    { eexists 45, _. split; [reflexivity|]. split; [lia|reflexivity]. }
    destruct ds as [|c ds]; [contradiction|]. eexists c, _. split; [reflexivity|].
    inversion_clear Hds as [|? ? Hc _]. apply digit_ascii in Hc. split; [lia|].
    unfold is_cp_space. lia. }
  destruct Hhead as (c & s' & Eh & Hc & Hcs). rewrite Eh in *.
  apply scan_int_skip; [apply utf8_bytes_app; assumption|apply ws_then; assumption|discriminate].
Qed.
Print Assumptions C08_scan_int_round_trip_partial.

(** print really denotes the value. *)
Theorem C08_print_numeral : forall upper b v, base_ok b -> 0 <= v ->
  numeral b v (print upper b v).
Proof.
  intros upper b v Hb Hv. destruct (print_ok upper b v Hb Hv) as (H1 & H2 & (c & p & H3 & _)).
  split; [rewrite H3; discriminate|split; assumption].
Qed.
Print Assumptions C08_print_numeral.

(** "0" followed by "x1" in base 16 is read as 1. *)
Theorem C08_zero_refuted : exists rest, ~ starts_with_digit 16 rest /\ bytes rest /\
  scan_int i32 (print false 16 0 ++ rest) 16 <> Ok (0, rest).
Proof.
  exists [120; 49]. split; [intros (d & H & Hlt); vm_compute in H; injection H as <-; lia|].
  split; [repeat constructor; unfold is_byte; lia|]. vm_compute. congruence.
Qed.
Print Assumptions C08_zero_refuted.

Example C08_ex :
  print_signed false 16 (-255) = [45; 102; 102] /\ print true 36 35 = [90] /\
  scan_int i16 (utf8 [0x2028; 32] ++ print_signed true 36 (-32768) ++ [33]) 36 = Ok (-32768, [33]).
Proof. repeat split; vm_compute; reflexivity. Qed.

(** ** C09 *)

Theorem C09_block_test : forall bs, bytes bs -> length bs = 8%nat ->
  (is_word_made_of_eight_decimal_digits_fast (word_of bs) = true
   <-> Forall (fun c => 48 <= c <= 57) bs).
Proof.
  intros bs Hb Hl. rewrite eight_digits_test, forallb_forall, Forall_forall by assumption.
  unfold dec_digit. split; intros H x Hx; specialize (H x Hx); lia.
Qed.
Print Assumptions C09_block_test.

Theorem C09_block_value : forall bs, length bs = 8%nat -> Forall (is_digit 10) bs ->
  parse_eight_decimal_digits_unrolled_fast (word_of bs) = value 10 bs.
Proof. exact eight_digits_convert. Qed.
Print Assumptions C09_block_value.

(** The accumulator is taken modulo 2^64 in both. *)
Theorem C09_fast_is_plain_loop : forall p v, bytes p -> 0 <= v < 2 ^ 64 ->
  parse_decimal_integer_fast_impl p v = Ok (digit_loop 10 p v).
Proof. exact fast_impl_loop. Qed.
Print Assumptions C09_fast_is_plain_loop.

(** And what the plain loop computes. *)
Theorem C09_plain_loop : forall b ds rest v, base_ok b -> Forall (is_digit b) ds ->
  ~ starts_with_digit b rest -> 0 <= v < 2 ^ 64 ->
  digit_loop b (ds ++ rest) v
  = (rest, (v * b ^ Z.of_nat (length ds) + value b ds) mod 2 ^ 64).
Proof.
  intros b ds rest v Hb Hds Hr Hv. rewrite <- (wrap64_small v Hv) at 1.
  apply digit_loop_run; assumption.
Qed.
Print Assumptions C09_plain_loop.

Example C09_ex :
  parse_decimal_integer_fast_impl
    [49;50;51;52;53;54;55;56;57;48;49;50;51;52;53;54;55;56;57;97] 0
  = Ok ([97], 1234567890123456789) /\
  is_word_made_of_eight_decimal_digits_fast (word_of [48;49;50;58;52;53;54;55]) = false /\
  parse_eight_decimal_digits_unrolled_fast (word_of [49;50;51;52;53;54;55;56]) = 12345678.
Proof. repeat split; vm_compute; reflexivity. Qed.

(** ** C10 *)

(** No SCN_EXPECT is violated and the exact value is returned, for every canonical
    numeral (and for numerals with leading zeros of fewer than 20 digits). *)
Theorem C10_exhaustive_valid : forall t neg c ds, type_ok t ->
  (it_signed t = false -> neg = false) -> Forall (is_digit 10) (c :: ds) ->
  (digit_or_0 c <> 0 \/ (length (c :: ds) < 20)%nat) ->
  in_range (it_signed t) (it_bits t) (signed_value neg (value 10 (c :: ds))) ->
  scan_int_exhaustive_valid t ((if neg then [45] else []) ++ c :: ds)
  = Ok (signed_value neg (value 10 (c :: ds))).
Proof. exact exhaustive_valid. Qed.
Print Assumptions C10_exhaustive_valid.

Theorem C10_every_value : forall t v, type_ok t -> in_range (it_signed t) (it_bits t) v ->
  scan_int_exhaustive_valid t (print_signed false 10 v) = Ok v.
Proof.
  intros t v Ht Hv. assert (Hb : base_ok 10) by (unfold base_ok; lia).
  destruct (print_signed_shape false 10 v Hb) as (sg & ds & E & Hne & Hds & HV & Hsg & Hnz & Hz).
  destruct ds as [|c ds]; [contradiction|]. rewrite E.
  assert (Hsv : signed_value (v <? 0) (value 10 (c :: ds)) = v).
  { rewrite HV. unfold signed_value. destruct (v <? 0) eqn:E0; lia. }
  rewrite Hsg. replace (Ok v) with (Ok (signed_value (v <? 0) (value 10 (c :: ds)))) by (rewrite Hsv; reflexivity).
  apply exhaustive_valid; auto.
  - intros Hs. unfold in_range in Hv. rewrite Hs in Hv. lia.
  - destruct (Z.eq_dec v 0) as [E0|E0].
    + right. injection (Hz E0) as -> ->. cbn. lia.
    + left. intros H0. apply (Hnz E0). eapply digit_zero; [inversion Hds; eassumption|exact H0].
  - rewrite Hsv. exact Hv.
Qed.
Print Assumptions C10_every_value.

(** Longer zero-padded input, in range, trips the overflow precondition. *)
Theorem C10_leading_zeros_refuted : exists ds, Forall (is_digit 10) ds /\ ds <> [] /\
  in_range true 32 (value 10 ds) /\ scan_int_exhaustive_valid i32 ds = UB.
Proof.
  exists (repeat 48 20 ++ [55]). split; [apply forallb_dec; vm_compute; reflexivity|].
  split; [discriminate|]. split; [unfold in_range; vm_compute; split; congruence|].
  vm_compute; reflexivity.
Qed.
Print Assumptions C10_leading_zeros_refuted.

Example C10_ex :
  scan_int_exhaustive_valid u64 (print_signed false 10 18446744073709551615) = Ok 18446744073709551615 /\
  scan_int_exhaustive_valid i64 (print_signed false 10 (-9223372036854775808)) = Ok (-9223372036854775808) /\
  scan_int_exhaustive_valid i8 [48; 48; 45] = UB.
Proof. repeat split; vm_compute; reflexivity. Qed.

(** ** C11 and C12 *)

(** The complete reading: sign, prefix, digits.  [read_base] is the documented prefix
    grammar.  With [C07_in_range_never_fails] and [C07_overflow_reported_partial]
    (the digit cases), every source is covered. *)
Theorem C11_no_digits : forall r t s b,
  type_ok t -> b = 0 \/ base_ok b -> enc_ok (s_enc r) s -> no_dle r (snd (split_sign s)) ->
  s <> [] ->
  let neg := fst (split_sign s) in
  let (B, body) := read_base b (snd (split_sign s)) in
  (neg = true -> it_signed t = true) -> ~ starts_with_digit B body ->
  int_read_default_with_base r t s b = Err InvalidScannedValue.
Proof.
  intros r t s b Ht Hb He Hq Hne neg.
  destruct (read_base b (snd (split_sign s))) as [B body] eqn:E. intros Hneg Hnd.
  rewrite default_generic. apply rd_no_digit; auto. rewrite E. exact Hnd.
Qed.
Print Assumptions C11_no_digits.

(** A prefix not followed by a digit of its base is read as 0, leaving the letter. *)
Theorem C11_dangling_prefix : forall r t b z l rest,
  type_ok t -> enc_ok (s_enc r) (z :: l :: rest) ->
  z = 48 -> In (b, l) [(16, 120); (16, 88); (2, 98); (2, 66); (8, 111); (8, 79);
                       (0, 120); (0, 88); (0, 98); (0, 66); (0, 111); (0, 79)] ->
  ~ starts_with_digit (if b =? 0 then 16 else b) rest ->
  int_read_default_with_base r t (z :: l :: rest) b = Ok (0, l :: rest).
Proof.
  intros r t b z l rest Ht He -> Hin Hnd.
  assert (Hb : b = 0 \/ base_ok b).
  { unfold base_ok. cbn [In] in Hin.
    repeat (destruct Hin as [Hin|Hin]; [injection Hin; lia|]). destruct Hin. }
  assert (Hq : no_dle r (snd (split_sign (48 :: l :: rest)))) by (intros _ _; cbn; lia).
  assert (Hnp : forall L B, 0 < B <= (if b =? 0 then 16 else b) -> has_prefix L B (48 :: l :: rest) = false).
  { intros L B HB. destruct rest as [|d rest]; [reflexivity|]. cbn [has_prefix].
    destruct (digitb B d) eqn:Ed; [|rewrite !andb_false_r; reflexivity].
    exfalso. apply Hnd. apply digitb_is_digit in Ed. destruct Ed as (x & Ex & Hx).
    exists x. split; [exact Ex|lia]. }
  assert (H := C07_in_range_never_fails r t (48 :: l :: rest) b Ht Hb He Hq).
  cbn [split_sign fst snd] in H.
  change (48 =? 45) with false in H. change (48 =? 43) with false in H. cbn [fst snd] in H.
  assert (ER : exists B, read_base b (48 :: l :: rest) = (B, 48 :: l :: rest) /\ base_ok B /\ ~ is_digit B l).
  { unfold read_base.
    assert (K : forall B, (B = 16 /\ (l = 120 \/ l = 88)) \/ (B = 2 /\ (l = 98 \/ l = 66)) \/ B = 8 /\ 66 <= l ->
                base_ok B /\ ~ is_digit B l).
    { intros B HB. split; [unfold base_ok; lia|]. intros (x & Ex & Hx). unfold digit_value in Ex.
      destruct ((48 <=? l) && (l <=? 57)) eqn:X1; [lia|].
      destruct ((97 <=? l) && (l <=? 122)) eqn:X2; [injection Ex; lia|].
      destruct ((65 <=? l) && (l <=? 90)) eqn:X3; [injection Ex; lia|discriminate]. }
    assert (F : forall L B, 0 < B <= (if b =? 0 then 16 else b) ->
                has_prefix L B (48 :: l :: rest) = false) by exact Hnp.
    cbn [In] in Hin.
    repeat (destruct Hin as [Hin|Hin];
      [injection Hin as <- <-; cbn [Z.eqb] in *;
       cbn [andb orb];
       try rewrite (F 120 16) by lia; try rewrite (F 98 2) by lia; try rewrite (F 111 8) by lia;
       eexists; (split; [reflexivity|]); apply K; lia|]).
    destruct Hin. }
  destruct ER as (B & ER & HB & Hl). rewrite ER in H.
  assert (V0 : signed_value false (value B [48]) = 0) by reflexivity.
  rewrite <- V0. apply H.
  - repeat split; [discriminate| |exact Hl].
    constructor; [apply digit_48; unfold base_ok in HB; lia|constructor].
  - discriminate.
  - rewrite V0. apply in_range_zero. unfold type_ok in Ht. lia.
Qed.
Print Assumptions C11_dangling_prefix.

(** On contiguous narrow sources the byte 0x10 is taken for the '0' of a prefix. *)
Theorem C11_dle_refuted : exists s, bytes s /\
  (let (B, body) := read_base 16 (snd (split_sign s)) in ~ starts_with_digit B body) /\
  scan_int i32 s 16 = Ok (1, []) /\
  int_read_default_with_base (Src U8 false (fun _ => O)) i32 s 16 = Err InvalidScannedValue.
Proof.
  exists [16; 120; 49]. split; [repeat constructor; unfold is_byte; lia|].
  split; [|split; vm_compute; reflexivity].
  vm_compute. intros (d & H & _). discriminate.
Qed.
Print Assumptions C11_dle_refuted.

Example C11_ex :
  read_base 0 [48; 88; 102] = (16, [102]) /\ read_base 0 [48; 55; 56] = (8, [48; 55; 56]) /\
  scan_int i32 [48; 55; 56] 0 = Ok (7, [56]) /\
  scan_int i32 [48; 98; 49; 49] 0 = Ok (3, []) /\
  scan_int i32 [48; 120; 103] 16 = Ok (0, [120; 103]) /\
  scan_int i32 [48; 120; 49] 10 = Ok (0, [120; 49]) /\
  scan_int i32 [48; 57] 0 = Ok (0, [57]).
Proof. repeat split; vm_compute; reflexivity. Qed.

(** Signs: '-' is an error for unsigned types ... *)
Theorem C12_minus_unsigned : forall r t s b, b = 0 \/ base_ok b ->
  enc_ok (s_enc r) (45 :: s) -> no_dle r s -> it_signed t = false ->
  int_read_default_with_base r t (45 :: s) b = Err InvalidScannedValue.
Proof.
  intros r t s b Hb He Hq Hs. rewrite default_generic.
  apply rd_minus; auto.
Qed.
Print Assumptions C12_minus_unsigned.

(** ... and with the u specifier ... *)
Theorem C12_minus_u : forall r t sp sep s,
  enc_ok (s_enc r) (45 :: s) -> no_dle r s -> localized sp = false ->
  type sp = PIntUnsignedDecimal ->
  int_read_specs r t sp sep (45 :: s) = Err InvalidScannedValue.
Proof.
  intros r t sp sep s He Hq HL Hty.
  assert (Hb : get_base sp = Ok 10) by (unfold get_base; rewrite Hty; reflexivity).
  rewrite (specs_generic r t sp sep _ 10 HL Hb).
  apply rd_minus; auto; [right; unfold base_ok; lia|].
  rewrite Hty. apply andb_false_r.
Qed.
Print Assumptions C12_minus_u.

(** ... '+' is skipped for every type and '-' negates (C07_in_range_never_fails with
    [split_sign]); a lone sign is an error, and so is a second sign. *)
Theorem C12_lone_sign : forall r t b c s, type_ok t -> b = 0 \/ base_ok b ->
  c = 43 \/ c = 45 -> enc_ok (s_enc r) (c :: s) -> no_dle r s ->
  s = [] \/ (exists c', In c' [43; 45] /\ exists s', s = c' :: s') ->
  int_read_default_with_base r t (c :: s) b = Err InvalidScannedValue.
Proof.
  intros r t b c s Ht Hb Hc He Hq Hs.
  assert (HSS : split_sign (c :: s) = (c =? 45, s)).
  { unfold split_sign. destruct Hc as [->| ->]; reflexivity. }
  destruct (Bool.bool_dec (it_signed t) false) as [Hu|Hu].
  { destruct Hc as [->| ->].
    - assert (H := C11_no_digits r t (43 :: s) b Ht Hb He). rewrite HSS in H. cbn [fst snd] in H.
      specialize (H Hq ltac:(discriminate)).
      destruct (read_base b s) as [B body] eqn:E. apply H; [discriminate|].
      assert (X : body = s /\ base_ok B).
      { unfold read_base in E. destruct Hs as [->|(c' & Hc' & s' & ->)].
        - cbn in E. rewrite !andb_false_r in E. destruct (b =? 0) eqn:E0; injection E as <- <-;
            (split; [reflexivity|]); [unfold base_ok; lia|destruct Hb; [lia|assumption]].
        - assert (c' <> 48) by (cbn in Hc'; lia).
          rewrite !no_prefix_nonzero, !andb_false_r in E by assumption.
          replace (c' =? 48) with false in E by lia.
          destruct (b =? 0) eqn:E0; injection E as <- <-;
            (split; [reflexivity|]); [unfold base_ok; lia|destruct Hb; [lia|assumption]]. }
      destruct X as [-> HB]. destruct Hs as [->|(c' & Hc' & s' & ->)]; [intros []|].
      intros Hd. apply digit_ascii in Hd. cbn in Hc'. lia.
    - apply C12_minus_unsigned; assumption. }
  assert (Hsig : it_signed t = true) by (destruct (it_signed t); congruence).
  assert (H := C11_no_digits r t (c :: s) b Ht Hb He). rewrite HSS in H. cbn [fst snd] in H.
  specialize (H Hq ltac:(discriminate)).
  destruct (read_base b s) as [B body] eqn:E. apply H; [auto|].
  assert (X : body = s /\ base_ok B).
  { unfold read_base in E. destruct Hs as [->|(c' & Hc' & s' & ->)].
    - cbn in E. rewrite !andb_false_r in E. destruct (b =? 0) eqn:E0; injection E as <- <-;
        (split; [reflexivity|]); [unfold base_ok; lia|destruct Hb; [lia|assumption]].
    - assert (c' <> 48) by (cbn in Hc'; lia).
      rewrite !no_prefix_nonzero, !andb_false_r in E by assumption.
      replace (c' =? 48) with false in E by lia.
      destruct (b =? 0) eqn:E0; injection E as <- <-;
        (split; [reflexivity|]); [unfold base_ok; lia|destruct Hb; [lia|assumption]]. }
  destruct X as [-> HB]. destruct Hs as [->|(c' & Hc' & s' & ->)]; [intros []|].
  intros Hd. apply digit_ascii in Hd. cbn in Hc'. lia.
Qed.
Print Assumptions C12_lone_sign.

Theorem C12_empty : forall r t b, int_read_default_with_base r t [] b = Err EndOfInput.
Proof. reflexivity. Qed.
Print Assumptions C12_empty.

Example C12_ex :
  scan_int u8 [43; 53] 10 = Ok (5, []) /\ scan_int u8 [45; 48] 10 = Err InvalidScannedValue /\
  scan_int i8 [45; 53] 10 = Ok (-5, []) /\ scan_int i8 [45] 10 = Err InvalidScannedValue /\
  scan_int i8 [43; 45; 53] 10 = Err InvalidScannedValue /\ scan_int i8 [32] 10 = Err EndOfInput.
Proof. repeat split; vm_compute; reflexivity. Qed.

(** ** C13 for integers *)

(** The same units from two sources of any kind give the same outcome: value, error
    code and unread rest. *)
Theorem C13_int_source_independent : forall r1 r2 t s b,
  s_enc r1 = s_enc r2 -> b = 0 \/ base_ok b -> enc_ok (s_enc r1) s ->
  no_dle r1 (snd (split_sign s)) -> no_dle r2 (snd (split_sign s)) ->
  int_read_default_with_base r1 t s b = int_read_default_with_base r2 t s b.
Proof.
  intros r1 r2 t s b E Hb He H1 H2. rewrite !default_generic. apply generic_src; auto.
Qed.
Print Assumptions C13_int_source_independent.

Theorem C13_int_specs_source_independent : forall r1 r2 t sp sep s b,
  s_enc r1 = s_enc r2 -> localized sp = false -> get_base sp = Ok b ->
  b = 0 \/ base_ok b -> enc_ok (s_enc r1) s ->
  no_dle r1 (snd (split_sign s)) -> no_dle r2 (snd (split_sign s)) ->
  int_read_specs r1 t sp sep s = int_read_specs r2 t sp sep s.
Proof.
  intros r1 r2 t sp sep s b E HL Hbase Hb He H1 H2.
  rewrite !(specs_generic _ _ _ _ _ _ HL Hbase). apply generic_src; auto.
  intros H. apply andb_true_iff in H. tauto.
Qed.
Print Assumptions C13_int_specs_source_independent.

Example C13_int_ex :
  int_read_default_with_base (Src U8 false (fun n => n)) i32 [45; 48; 120; 49; 70; 122] 0
  = int_read_default_with_base string_src i32 [45; 48; 120; 49; 70; 122] 0 /\
  no_dle string_src [48; 120; 49; 70; 122].
Proof. split; [vm_compute; reflexivity|]. intros _ _. cbn. lia. Qed.

(** ** C41 *)

(** The value part: with the L flag the digits with the separators removed are read. *)
Theorem C41_value_partial : forall r t sp sep s b mixed rest,
  type_ok t -> localized sp = true -> get_base sp = Ok b ->
  (b = 10 \/ b = 3) -> enc_ok (s_enc r) s -> s <> [] ->
  let (neg, body) := split_sign s in
  (neg = true -> it_signed t = true /\ type sp <> PIntUnsignedDecimal) ->
  body = mixed ++ rest -> Forall (fun c => c = sep \/ is_digit b c) mixed ->
  match rest with c :: _ => c <> sep /\ ~ is_digit b c | [] => True end ->
  strip sep mixed <> [] ->
  in_range (it_signed t) (it_bits t) (signed_value neg (value b (strip sep mixed))) ->
  int_read_specs r t sp sep s = Ok (signed_value neg (value b (strip sep mixed)), rest).
Proof.
  intros r t sp sep s b mixed rest Ht HL Hbase Hb He Hne.
  destruct (split_sign s) as [neg body] eqn:ES. intros Hneg Ebody Hm Hr Hst HV.
  assert (Hp : parse_integer_prefix r s b = Ok (PR body b (sign_of neg) false)).
  { unfold parse_integer_prefix.
    assert (HS : parse_numeric_sign s = Ok (body, match s with
      | c :: _ => if c =? 45 then MinusSign else if c =? 43 then PlusSign else DefaultSign
      | [] => DefaultSign end) /\ neg = match s with c :: _ => c =? 45 | [] => false end).
    { destruct s as [|c s]; [contradiction|]. unfold split_sign, parse_numeric_sign in *.
      cbn [read_one_of_code_unit existsb].
      destruct (Z.eqb_spec c 45) as [->|E1]; [injection ES as <- <-; split; reflexivity|].
      destruct (Z.eqb_spec c 43) as [->|E2]; [injection ES as <- <-; split; reflexivity|].
      injection ES as <- <-. split; reflexivity. }
    destruct HS as [HS Hn]. rewrite HS. cbn [bind].
    assert (EB : parse_integer_base_prefix r body b = (body, b, false)) by (destruct Hb as [->| ->]; reflexivity).
    rewrite EB. f_equal.
    replace (if not_digit_of b body then body else body) with body by (destruct (not_digit_of b body); reflexivity).
    f_equal. rewrite Hn. destruct s as [|c s]; [reflexivity|].
    destruct (c =? 45); [reflexivity|]. destruct (c =? 43); reflexivity. }
  assert (T := thsep_value r t sp sep s mixed rest _ Ht HL (ex_intro _ b (conj Hbase Hp))).
  cbn [pr_it pr_base pr_sign pr_zero] in T. rewrite is_minus_sign_of in T. apply T; auto.
  - unfold base_ok. lia.
  - intros E8. specialize (He E8). destruct s as [|c s]; [contradiction|]. unfold split_sign in ES.
    inversion_clear He. destruct (c =? 45); [injection ES as _ <-; assumption|].
    destruct (c =? 43); injection ES as _ <-; [assumption|constructor; assumption].
  - apply sign_of_default.
  - destruct neg; [|reflexivity]. destruct (Hneg eq_refl) as [-> Hty]. cbn [negb orb andb].
    destruct (type sp); try reflexivity. contradiction.
  - repeat split; assumption.
Qed.
Print Assumptions C41_value_partial.

(** But the placement of the separators is not validated: "1,2,,3" is read as 123
    with ',' as the separator, whatever the grouping. *)
Definition specs_L : specs :=
  Specs 0 0 fill_default PNone (repeat 0 16) false false [] 0 0 ANone true.
Theorem C41_grouping_refuted : exists s v,
  bytes s /\ well_grouped 44 s = false /\ int_read_specs string_src i32 specs_L 44 s = Ok (v, []).
Proof.
  exists [49; 44; 50; 44; 44; 51], 123.
  split; [repeat constructor; unfold is_byte; lia|]. split; vm_compute; reflexivity.
Qed.
Print Assumptions C41_grouping_refuted.

(** A locale without grouping uses NUL as the separator: "1\0002" reads as 12. *)
Theorem C41_nul_refuted : exists s, bytes s /\ In 0 s /\
  int_read_specs string_src i32 specs_L 0 s = Ok (12, []).
Proof.
  exists [49; 0; 50]. split; [repeat constructor; unfold is_byte; lia|].
  split; [cbn; auto|vm_compute; reflexivity].
Qed.
Print Assumptions C41_nul_refuted.

Example C41_ex :
  well_grouped 44 [49; 44; 50; 51; 52; 44; 53; 54; 55] = true /\
  int_read_specs string_src i32 specs_L 44 [49; 44; 50; 51; 52; 44; 53; 54; 55; 32] = Ok (1234567, [32]).
Proof. split; vm_compute; reflexivity. Qed.
