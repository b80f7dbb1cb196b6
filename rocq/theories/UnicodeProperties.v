(** Properties C01-C04: decoding, validation, iteration, transcoding. *)
From Verif Require Import Prelude UnicodeModel UnicodeSpec UnicodeProofs.
Local Open Scope Z_scope.

(** ** C01 *)

(** Decoding the next code point of an encoded scalar value followed by anything
    yields that value and stops right after its bytes. *)
Theorem C01_decode_one : forall cp rest, scalar cp ->
  get_next_code_point U8 (utf8_of cp ++ rest) = Ok (cp, rest).
Proof. exact next_cp_utf8_of. Qed.
Print Assumptions C01_decode_one.

(** U+20AC followed by a stray byte. *)
Example C01_decode_one_ex :
  scalar 0x20AC /\ utf8_of 0x20AC = [0xE2; 0x82; 0xAC] /\
  get_next_code_point U8 [0xE2; 0x82; 0xAC; 0xFF] = Ok (0x20AC, [0xFF]).
Proof. repeat split; try (vm_compute; reflexivity). left; lia. Qed.

(** Same for the entry point used on text already known to be valid. *)
Theorem C01_decode_one_valid : forall cp rest, scalar cp ->
  get_next_code_point_valid U8 (utf8_of cp ++ rest) = Ok (cp, rest).
Proof. exact next_cp_valid_utf8_of. Qed.
Print Assumptions C01_decode_one_valid.

Theorem C01_decode_all : forall cps, Forall scalar cps ->
  for_each_code_point U8 (utf8 cps) = Ok cps.
Proof. exact for_each_utf8. Qed.
Print Assumptions C01_decode_all.

Theorem C01_decode_all_valid : forall cps, Forall scalar cps ->
  for_each_code_point_valid U8 (utf8 cps) = Ok cps.
Proof. exact for_each_valid_utf8. Qed.
Print Assumptions C01_decode_all_valid.

Example C01_decode_all_ex :
  for_each_code_point U8 [0x61; 0xC3; 0xA4; 0xF0; 0x9F; 0x98; 0x80] =
  Ok [0x61; 0xE4; 0x1F600].
Proof. vm_compute; reflexivity. Qed.

(** The UTF-16 and UTF-32 decoders. *)
Theorem C01_decode_one_utf16 : forall cp rest, scalar cp ->
  get_next_code_point U16 (utf16_of cp ++ rest) = Ok (cp, rest).
Proof. exact next_cp_utf16_of. Qed.
Print Assumptions C01_decode_one_utf16.

Theorem C01_decode_one_utf32 : forall cp rest, scalar cp ->
  get_next_code_point U32 (cp :: rest) = Ok (cp, rest).
Proof. exact next_cp_utf32. Qed.
Print Assumptions C01_decode_one_utf32.

Example C01_decode_utf16_ex :
  get_next_code_point U16 [0xD83D; 0xDE00; 0x61] = Ok (0x1F600, [0x61]).
Proof. vm_compute; reflexivity. Qed.

(** ** C02 *)

(** Full statement (false): validation accepts exactly well-formed UTF-8. *)
Definition C02_statement : Prop :=
  forall s, bytes s -> (validate_unicode U8 s = Ok true <-> well_formed_utf8 s).

(** Witness C0 A0 (overlong space); surrogates are accepted as well. *)
Theorem C02_refuted : exists s, bytes s /\
  validate_unicode U8 s = Ok true /\ ~ well_formed_utf8 s.
Proof.
  exists [0xC0; 0xA0]. split; [apply bytesb_bytes; vm_compute; reflexivity|].
  split; [vm_compute; reflexivity | exact not_well_formed_c0a0].
Qed.
Print Assumptions C02_refuted.

Example C02_surrogate_accepted : validate_unicode U8 [0xED; 0xA0; 0x80] = Ok true.
Proof. vm_compute; reflexivity. Qed.

(** Exact characterisation of the accepted language: concatenations of sequences of
    the right shape with value below 0x110000; missing from the full statement is
    only the exclusion of overlong forms and of surrogates. *)
Theorem C02_accepted_language_partial : forall s, bytes s ->
  (validate_unicode U8 s = Ok true <->
   exists us, Forall lenient_seq us /\ s = concat us).
Proof. exact validate_unicode_exact. Qed.
Print Assumptions C02_accepted_language_partial.

(** The sequences of that language that are neither overlong nor surrogates are
    exactly the encodings of scalar values. *)
Theorem C02_lenient_strict_partial : forall u, lenient_seq u ->
  ((exists cp, scalar cp /\ u = utf8_of cp) <-> ~ overlong_or_surrogate u).
Proof. exact lenient_strict. Qed.
Print Assumptions C02_lenient_strict_partial.

(** No well-formed text is rejected, and validation always gives an answer. *)
Theorem C02_well_formed_accepted_partial : forall s,
  well_formed_utf8 s -> validate_unicode U8 s = Ok true.
Proof. exact validate_well_formed. Qed.
Print Assumptions C02_well_formed_accepted_partial.

Theorem C02_validation_total : forall e s, exists b, validate_unicode e s = Ok b.
Proof. exact (fun e s => validate_loop_total e (length s) s (le_n _)). Qed.
Print Assumptions C02_validation_total.

Example C02_examples :
  validate_unicode U8 [0x61; 0xE2; 0x82; 0xAC] = Ok true /\
  validate_unicode U8 [0x80] = Ok false /\            (* stray continuation *)
  validate_unicode U8 [0xE2; 0x82] = Ok false /\      (* truncated *)
  validate_unicode U8 [0xF4; 0x90; 0x80; 0x80] = Ok false /\ (* above U+10FFFF *)
  lenient_seq [0xE2; 0x82; 0xAC].
Proof. repeat split; try (vm_compute; reflexivity); try (cbn; lia). Qed.

(** ** C03 *)

Theorem C03_step_progress : forall e s, s <> [] ->
  exists cp pre rest,
    get_next_code_point e s = Ok (cp, rest) /\ pre <> [] /\ s = pre ++ rest.
Proof. exact next_cp_progress. Qed.
Print Assumptions C03_step_progress.

Theorem C03_partition : forall e s,
  exists l, stepped e s l /\ concat (map fst l) = s /\
            for_each_code_point e s = Ok (map snd l).
Proof. exact for_each_partition. Qed.
Print Assumptions C03_partition.

(** Malformed input: stray continuation bytes, truncated sequence. *)
Example C03_ex : for_each_code_point U8 [0x80; 0x80; 0x61; 0xE2; 0x82] =
  Ok [invalid_code_point; 0x61; invalid_code_point].
Proof. vm_compute; reflexivity. Qed.

(** ** C04 *)

(** UTF-8 <-> UTF-32, both entry points. *)
Theorem C04_utf8_utf32_round_trip : forall cps, Forall scalar cps ->
  transcode_to_string U8 U32 (utf8 cps) = Ok cps /\
  transcode_to_string U32 U8 cps = Ok (utf8 cps) /\
  transcode_valid_to_string U8 U32 (utf8 cps) = Ok cps /\
  transcode_valid_to_string U32 U8 cps = Ok (utf8 cps).
Proof. exact roundtrip_8_32. Qed.
Print Assumptions C04_utf8_utf32_round_trip.

(** From UTF-16. *)
Theorem C04_from_utf16 : forall cps, Forall scalar cps ->
  transcode_to_string U16 U32 (utf16 cps) = Ok cps /\
  transcode_to_string U16 U8 (utf16 cps) = Ok (utf8 cps).
Proof. exact transcode_16_sources. Qed.
Print Assumptions C04_from_utf16.

(** To UTF-16: full statement (false, the low surrogate is computed wrongly). *)
Definition C04_to_utf16_statement : Prop :=
  forall cps, Forall scalar cps ->
    transcode_to_string U32 U16 cps = Ok (utf16 cps).

Theorem C04_to_utf16_refuted : exists cps, Forall scalar cps /\
  transcode_to_string U32 U16 cps <> Ok (utf16 cps).
Proof.
  exists [0x1F600]. split; [constructor; [right; lia | constructor] | vm_compute; discriminate].
Qed.
Print Assumptions C04_to_utf16_refuted.

(** The defect hits every supplementary code point ... *)
Theorem C04_to_utf16_supplementary_wrong : forall v cp, 0x10000 <= cp <= 0x10FFFF ->
  cp_32to16 v cp <> utf16_of cp.
Proof. exact cp_32to16_supplementary. Qed.
Print Assumptions C04_to_utf16_supplementary_wrong.

(** ... and nothing else. *)
Theorem C04_to_utf16_partial : forall cps,
  Forall (fun cp => scalar cp /\ cp < 0x10000) cps ->
  transcode_to_string U8 U16 (utf8 cps) = Ok (utf16 cps) /\
  transcode_to_string U32 U16 cps = Ok (utf16 cps).
Proof. exact transcode_to_16_bmp. Qed.
Print Assumptions C04_to_utf16_partial.

(** Malformed text: every malformed part, as cut by C03, is replaced by U+FFFD. *)
Theorem C04_replacement : forall e s, e <> U32 ->
  exists l, stepped e s l /\ concat (map fst l) = s
    /\ transcode_to_string e U32 s = Ok (map (fun x => if snd x =? invalid_code_point then 0xFFFD else snd x) l).
Proof.
  intros e s He. destruct (for_each_partition e s) as (l & H1 & H2 & H3). exists l. split; [exact H1|]. split; [exact H2|].
  assert (E : transcode_to_string e U32 s = transcode_to32 e s) by (destruct e; [reflexivity..|congruence]).
  rewrite E. unfold transcode_to32. rewrite H3. cbn [bind]. rewrite map_map. reflexivity.
Qed.
Print Assumptions C04_replacement.
(** Values that are no code points, on the way to UTF-8: the encoding of U+FFFD. *)
Theorem C04_replacement_utf8 : forall cps, Forall (fun cp => scalar cp \/ invalid_code_point <= cp) cps ->
  transcode_to_string U32 U8 cps = Ok (utf8 (map (fun cp => if invalid_code_point <=? cp then 0xFFFD else cp) cps)).
Proof.
  intros cps H. cbn [transcode_to_string]. f_equal. induction H as [|cp cps H _ IH]; [reflexivity|].
  cbn [map]. unfold utf8, transcode_32to8 in *. cbn [flat_map]. rewrite IH. f_equal. destruct (Z.leb_spec invalid_code_point cp) as [L|L].
  - unfold cp_32to8. destruct (Z.leb_spec invalid_code_point cp); [reflexivity|lia].
  - apply cp_32to8_spec. destruct H as [H|H]; [exact H|lia].
Qed.
Print Assumptions C04_replacement_utf8.
Example C04_replacement_ex :
  transcode_to_string U8 U32 [0x80; 0x61; 0xE2; 0x82] = Ok [0xFFFD; 0x61; 0xFFFD]
  /\ transcode_to_string U16 U32 [0xDC00; 0x61] = Ok [0xFFFD; 0x61]
  /\ transcode_to_string U32 U8 [0x110000; 0x61] = Ok [0xEF; 0xBF; 0xBD; 0x61].
Proof. repeat split; vm_compute; reflexivity. Qed.

Example C04_ex :
  transcode_to_string U8 U32 [0xF0; 0x9F; 0x98; 0x80; 0x61] = Ok [0x1F600; 0x61] /\
  transcode_to_string U32 U8 [0x1F600; 0x61] = Ok [0xF0; 0x9F; 0x98; 0x80; 0x61] /\
  transcode_to_string U32 U16 [0x20AC] = Ok [0x20AC] /\
  transcode_to_string U32 U16 [0x1F600] = Ok [0xD83D; 0xDA00].
Proof. repeat split; vm_compute; reflexivity. Qed.

(** ** Whitespace test used throughout (part of C05, C20, C23) *)
Theorem C05_is_cp_space_exact : forall cp,
  is_cp_space cp = true <-> In cp pattern_white_space.
Proof. exact is_cp_space_spec. Qed.
Print Assumptions C05_is_cp_space_exact.
