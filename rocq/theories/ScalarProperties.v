(** Properties of scanning booleans, characters, code points and pointers: C28-C31, and
    of the safety of all built-in readers: C49. *)
From Verif Require Import Prelude UnicodeModel UnicodeSpec UnicodeProofs ReadModel ReadProofs SpecsModel FormatModel
  IntModel IntSpec IntProofs IntProperties IntTotalProofs FormatSpec FormatSpecProofs SpecsInvProofs ArgsModel VscanModel VscanProofs
  VscanSpec VscanProperties WidthModel WidthSpec WidthProofs ArgReaderModel ArgReaderProofs ArgSafeProofs ArgReaderProperties
  StringModel StringSafeProofs ScalarModel ScalarSpec ScalarProofs.
Import Coq.Strings.String.StringSyntax.
Local Open Scope Z_scope.

(** ** C28 *)
Definition bool_arg (names : list Z * list Z) (r : src) (sp : specs) : list Z -> outcome (bool * list Z) :=
  arg_read_checked r (bool_reader names) sp.
Definition yes_no (d : desc) (yes no : list Z) : list Z * list Z :=
  if d_local d then (yes, no) else (word_true, word_false).
(** A boolean field: inside the frame of C27 it is one of the spellings its format-spec
    allows.  [yes] and [no] are the words of the locale, used with 'L'; there neither may
    begin with the other. *)
Theorem C28_field_partial : forall r d yes no cps,
  (said_precision d = None -> whole r cps) -> bool_type d -> numerals d -> fill_kept (s_enc r) d ->
  Forall scalar yes -> Forall scalar no -> Forall scalar cps ->
  (d_local d = true -> strip yes no = None /\ strip no yes = None) ->
  bool_arg (text (s_enc r) yes, text (s_enc r) no) r (mean (s_enc r) d) (text (s_enc r) cps)
  = ('(b, l) <- field (said_align d) (said_fill d) (said_width d) (said_precision d) true
       (spelled (spellings (fst (bool_forms d)) (snd (bool_forms d))
                   (fst (yes_no d yes no)) (snd (yes_no d yes no)))) cps ;;
     Ok (b, text (s_enc r) l)).
Proof.
  intros r d yes no cps Hr Ht [Hw Hp] Hf Hy Hn Hc HD.
  unfold bool_arg, arg_read_checked, bool_reader. cbn [rd_check rd_skip rd_specs].
  assert (HT : check_bool_type_specs (mean (s_enc r) d) = true
    /\ bool_options (mean (s_enc r) d) = bool_forms d).
  { unfold check_bool_type_specs, bool_options, bool_forms, mean, bool_type in *. destruct (d_type d) as [[c|i l|p fl]|]; try contradiction.
    - cbn [In] in Ht. repeat (destruct Ht as [<-|Ht]; [split; reflexivity|]). destruct Ht.
    - split; reflexivity. }
  destruct HT as [-> HO].
  assert (HL : localized (mean (s_enc r) d) = d_local d) by (unfold mean; destruct (d_type d) as [[c|i l|p fl]|]; reflexivity).
  rewrite <- (mean_align (s_enc r)), <- (mean_width (s_enc r)), <- (said_prec_of (s_enc r)).
  apply arg_read_field; try assumption.
  - rewrite mean_precision. destruct (d_prec d) as [w|] eqn:E; cbn [optv]; [apply number_nonneg; auto|lia].
  - intros _. rewrite mean_fill_eq. apply mean_fill_ok, Hf.
  - intros ds _ Hds. unfold bool_specs. rewrite HO, HL. destruct (bool_forms d) as [tx nu]. cbn [fst snd].
    unfold yes_no. destruct (d_local d); cbn [fst snd].
    + apply either_text; [exact Hds|]. intros _. destruct HD as [H1 H2]; [reflexivity|]. apply custom_text; assumption.
    + apply either_text; [exact Hds|]. intros _. apply classic_text, Hds.
  - intros ds x l. apply spelled_suffix.
  - intros E _. apply Hr, (said_no_precision (s_enc r)), E.
Qed.
Print Assumptions C28_field_partial.
(** Without a format-spec. *)
Theorem C28_default_partial : forall r cps, whole r cps -> Forall scalar cps ->
  bool_default r (text (s_enc r) cps)
  = (if (length (lead is_ws cps) =? length cps)%nat then Err EndOfInput
     else '(b, l) <- spelled (spellings true true word_true word_false) (after (lead is_ws cps) cps) ;;
          Ok (b, text (s_enc r) l)).
Proof.
  intros r cps Hr Hc. unfold bool_default, default_read, skip_ws_before_if_required.
  destruct (text (s_enc r) cps) as [|u s] eqn:ET.
  { apply text_nil_iff in ET; [|exact Hc]. subst cps. reflexivity. }
  rewrite <- ET, skip_ws_text by assumption. cbn [negb andb].
  destruct (_ =? _)%nat; [reflexivity|]. cbn [bind].
  apply either_text; [apply (scalars_lead is_ws cps Hc)|]. intros _. apply classic_text, (scalars_lead is_ws cps Hc).
Qed.
Print Assumptions C28_default_partial.
(** What is accepted are exactly the texts that begin with an allowed spelling. *)
Theorem C28_spellings : forall tx nu cps b rest,
  spelled (spellings tx nu word_true word_false) cps = Ok (b, rest)
  <-> (nu = true /\ cps = (if b then 49 else 48) :: rest)
      \/ (tx = true /\ cps = (if b then [116; 114; 117; 101] else [102; 97; 108; 115; 101]) ++ rest).
Proof.
  intros tx nu cps b rest. rewrite spelled_exact.
  - unfold spellings, word_true, word_false. split.
    + intros (w & Hi & ->). apply in_app_or in Hi. destruct Hi as [Hi|Hi].
      * destruct nu; [|destruct Hi]. left. split; [reflexivity|]. destruct Hi as [Hi|[Hi|[]]]; injection Hi as <- <-; reflexivity.
      * destruct tx; [|destruct Hi]. right. split; [reflexivity|]. destruct Hi as [Hi|[Hi|[]]]; injection Hi as <- <-; reflexivity.
    + intros [[-> ->]|[-> ->]].
      * exists [if b then 49 else 48]. split; [|reflexivity]. apply in_or_app. left. destruct b; cbn; auto.
      * eexists. split; [|reflexivity]. apply in_or_app. right. destruct b; cbn; auto.
  - unfold distinct, spellings, word_true, word_false. intros x y t Hx Hy HS.
    apply in_app_or in Hx. apply in_app_or in Hy.
    destruct nu, tx; cbn [In] in *;
    repeat match goal with
    | H : _ \/ _ |- _ => destruct H as [H|H]
    | H : False |- _ => destruct H
    end; subst x y; cbn in *; congruence.
Qed.
Print Assumptions C28_spellings.
(** "{:*^6.6}" on "*true*": a bool; "{:d}" does not take the word, "{:s}" not the digit;
    "{:L}" takes the words of the locale only. *)
Definition d_bool fl al w p loc c := Desc fl al w p loc (option_map TyLetter c).
Example C28_ex :
  let names := (text U8 [106; 97], text U8 [110; 101; 105; 110]) in
  bool_arg names string_src (mean U8 (d_bool (Some 42) (Some ACenter) (Some [54]) (Some [54]) false None)) (text U8 [42; 116; 114; 117; 101; 42; 42])
    = Ok (true, [42])
  /\ bool_type (d_bool None None None None false (Some 100))
  /\ bool_arg names string_src (mean U8 (d_bool None None None None false (Some 100))) (text U8 [32; 116; 114; 117; 101]) = Err InvalidScannedValue
  /\ bool_arg names string_src (mean U8 (d_bool None None None None false (Some 100))) (text U8 [32; 49; 48]) = Ok (true, [48])
  /\ bool_arg names string_src (mean U8 (d_bool None None None None false (Some 115))) (text U8 [49]) = Err InvalidScannedValue
  /\ bool_arg names string_src (mean U8 (d_bool None None None None true (Some 115))) (text U8 [110; 101; 105; 110; 33]) = Ok (false, [33])
  /\ strip [106; 97] [110; 101; 105; 110] = None /\ strip [110; 101; 105; 110] [106; 97] = None
  /\ bool_default string_src (text U8 [0x2028; 102; 97; 108; 115; 101]) = Ok (false, [])
  /\ bool_default string_src (text U8 [84; 114; 117; 101]) = Err InvalidScannedValue.
Proof. cbv zeta. repeat split; vm_compute; auto. Qed.

(** ** C29 *)
(** A char: the first unit, for every source of bytes.  wchar_t from a wide source
    likewise. *)
Theorem C29_char : forall k r s, k = KChar /\ s_enc r = U8 \/ k = KWchar /\ s_enc r = U32 ->
  char_default k r s = match s with [] => Err EndOfInput | c :: rest => Ok (c, rest) end.
Proof.
  intros k r s H. unfold char_default, default_read, skip_ws_before_if_required, char_default_read.
  destruct s as [|c s]; [reflexivity|]. destruct H as [[-> ->]|[-> ->]]; reflexivity.
Qed.
Print Assumptions C29_char.
(** A code point, from well-formed text. *)
Theorem C29_code_point_partial : forall k r cps, k = KCodePoint \/ k = KWchar ->
  s_enc r <> U16 -> Forall scalar cps ->
  char_default k r (text (s_enc r) cps)
  = match cps with [] => Err EndOfInput | c :: l => Ok (c, text (s_enc r) l) end.
Proof.
  intros k r cps Hk He Hc. unfold char_default, default_read, skip_ws_before_if_required, char_default_read.
  destruct Hc as [|c l Hc Hl]; [reflexivity|].
  cbn [text flat_map]. fold (text (s_enc r) l).
  destruct (encode (s_enc r) c ++ text (s_enc r) l) as [|u s] eqn:E.
  { destruct (encode_lead (s_enc r) c Hc) as (x & tl & EE & _). rewrite EE in E. discriminate. }
  cbn [bind]. rewrite <- E. destruct Hk as [-> | ->]; [apply code_point_text, Hc|].
  destruct (s_enc r) eqn:EE; [|congruence|reflexivity].
  unfold wide_character_read. rewrite code_point_text by exact Hc. cbn [bind].
  unfold scalar, invalid_code_point in *. destruct (Z.ltb_spec c 0x110000); [reflexivity|lia].
Qed.
Print Assumptions C29_code_point_partial.
Definition char_arg (k : char_kind) (old sep : Z) (r : src) (sp : specs) : list Z -> outcome (Z * list Z) :=
  arg_read_checked r (char_reader k old sep) sp.
(** A code point with a format-spec: inside the frame of C27, white space not being
    skipped.  [UB] if no code point is left for it. *)
Theorem C29_code_point_field_partial : forall old sep r d cps,
  (said_precision d = None -> said_width d <> 0 -> whole r cps) -> s_enc r <> U16 -> code_point_type d -> numerals d -> fill_kept (s_enc r) d -> Forall scalar cps ->
  char_arg KCodePoint old sep r (mean (s_enc r) d) (text (s_enc r) cps)
  = ('(c, l) <- field (said_align d) (said_fill d) (said_width d) (said_precision d) false first_code_point cps ;;
     Ok (c, text (s_enc r) l)).
Proof.
  intros old sep r d cps Hr He Ht [Hw Hp] Hf Hc.
  unfold char_arg, arg_read_checked, char_reader. cbn [rd_check rd_skip rd_specs].
  assert (HT : char_check KCodePoint (mean (s_enc r) d) = true).
  { unfold char_check, check_code_point_type_specs, code_point_type, mean in *.
    destruct (d_type d) as [[c|i l|p fl]|]; try contradiction; [subst c; reflexivity|reflexivity]. }
  rewrite HT.
  rewrite <- (mean_align (s_enc r)), <- (mean_width (s_enc r)), <- (said_prec_of (s_enc r)).
  apply arg_read_field; try assumption.
  - rewrite mean_precision. destruct (d_prec d) as [w|] eqn:E; cbn [optv]; [apply number_nonneg; auto|lia].
  - intros _. rewrite mean_fill_eq. apply mean_fill_ok, Hf.
  - intros ds _ Hds. unfold char_specs, char_default_read.
    replace (s_enc (if precision (mean (s_enc r) d) =? 0 then r else view_src r)) with (s_enc r) by (destruct (_ =? _); reflexivity).
    apply code_points_text, Hds.
  - intros ds x l. destruct ds as [|y ds]; [discriminate|]. intros [= <- <-]. exists [y]. reflexivity.
  - intros E [|HW]; [discriminate|]. rewrite mean_width in HW. apply Hr; [apply (said_no_precision (s_enc r)), E|exact HW].
Qed.
Print Assumptions C29_code_point_field_partial.
Example C29_ex :
  char_default KChar string_src (text U8 [32; han]) = Ok (32, text U8 [han])
  /\ char_default KChar string_src (text U8 [han]) = Ok (0xe4, [0xb8; 0xad])
  /\ char_default KCodePoint string_src (text U8 [han; 32]) = Ok (han, [32])
  /\ char_default KWchar string_src (text U8 [han; 32]) = Ok (han, [32])
  /\ char_arg KCodePoint 0 0 string_src (mean U8 (d_fmt (Some 42) (Some ARight) (Some [52]) None)) (text U8 [42; 42; han; 42]) = Ok (han, [42])
  /\ char_default KCodePoint string_src [0xff; 97] = Err InvalidScannedValue.
Proof. vm_compute. auto 8. Qed.
(** A truncated or broken sequence is not reported: the decoder is called in violation of
    its precondition. *)
Theorem C29_truncated_refuted : exists s, bytes s /\ s = [0xc3]
  /\ char_default KCodePoint string_src s = UB /\ char_default KWchar string_src s = UB.
Proof. exists [0xc3]. split; [repeat constructor; unfold is_byte; lia|]. vm_compute. auto. Qed.
Print Assumptions C29_truncated_refuted.
Theorem C29_broken_refuted : exists s, bytes s /\ s = [0xe4; 97; 98]
  /\ char_default KCodePoint string_src s = UB.
Proof. exists [0xe4; 97; 98]. split; [repeat constructor; unfold is_byte; lia|]. vm_compute. auto. Qed.
Print Assumptions C29_broken_refuted.
(** Exactly so: with a leading byte that announces a sequence which then is not there, the
    precondition is violated, for every source of bytes. *)
Definition announced (a : Z) : nat :=
  if a <? 0x80 then 1 else if a <? 0xc0 then 0 else if a <? 0xe0 then 2 else if a <? 0xf0 then 3 else if a <? 0xf8 then 4 else 0.
Definition continues (c : Z) : bool := (0x80 <=? c) && (c <? 0xc0).
Theorem C29_any_bytes : forall r a s, s_enc r = U8 -> bytes (a :: s) ->
  char_default KCodePoint r (a :: s)
  = match announced a with
    | O => Err InvalidScannedValue
    | S n => if (length (firstn n s) =? n)%nat && forallb continues (firstn n s) && (a <=? 0xf4)
             then Ok (fold_left (fun v c => v * 64 + c mod 64) (firstn n s)
                        (a mod (match n with O => 128 | 1%nat => 32 | 2%nat => 16 | _ => 8 end)), skipn n s)
             else UB
    end.
Proof.
  intros r a s He Hb. unfold char_default, default_read, skip_ws_before_if_required, char_default_read. rewrite He.
  cbn [bind]. unfold code_point_read, read_code_point_into, cp_len.
  assert (Ha : is_byte a) by (inversion Hb; assumption).
  rewrite utf8_cp_len_class by exact Ha. change (utf8_len_class a) with (announced a).
  assert (Hs : bytes s) by (inversion Hb; assumption). clear Hb.
  unfold announced.
  change continues with tail_byte.
  destruct (Z.ltb_spec a 0x80); [|destruct (Z.ltb_spec a 0xc0); [reflexivity|destruct (Z.ltb_spec a 0xe0);
    [|destruct (Z.ltb_spec a 0xf0); [|destruct (Z.ltb_spec a 0xf8); [|reflexivity]]]]].
  - cbn [firstn skipn bind decode_cp_valid decode_utf8_valid length Nat.eqb forallb andb fold_left].
    destruct (Z.ltb_spec a 0x80); [|lia]. destruct (Z.leb_spec a 0xf4); [|lia]. cbn [bind].
    rewrite Z.mod_small; [reflexivity|unfold is_byte in *; lia].
  - destruct s as [|b s]; cbn [firstn skipn bind decode_cp_valid decode_utf8_valid length Nat.eqb forallb andb fold_left].
    { destruct (Z.ltb_spec a 0x80); [lia|reflexivity]. }
    assert (is_byte b) by (inversion Hs; assumption).
    rewrite mask2_spec, is_trailing_spec by assumption. rewrite andb_true_r.
    destruct (Z.leb_spec 0xc0 a); [|lia]. destruct (Z.ltb_spec a 0xe0); [|lia]. destruct (Z.leb_spec a 0xf4); [|lia].
    destruct (tail_byte b) eqn:E; [|reflexivity]. cbn [andb bind]. rewrite or2_spec by (try assumption; lia).
    do 2 f_equal. unfold val2, tail_byte, is_byte in *. lia.
  - destruct s as [|b [|c s]]; cbn [firstn skipn bind decode_cp_valid decode_utf8_valid length Nat.eqb forallb andb fold_left].
    { destruct (Z.ltb_spec a 0x80); [lia|reflexivity]. }
    { assert (is_byte b) by (inversion Hs; assumption). rewrite mask2_spec by assumption.
      destruct (Z.ltb_spec a 0xe0); [lia|]. rewrite andb_false_r. reflexivity. }
    inversion_clear Hs as [|? ? Hb Hs']. inversion_clear Hs' as [|? ? Hc _].
    rewrite mask3_spec, !is_trailing_spec by assumption. rewrite andb_true_r.
    destruct (Z.leb_spec 0xe0 a); [|lia]. destruct (Z.ltb_spec a 0xf0); [|lia]. destruct (Z.leb_spec a 0xf4); [|lia].
    destruct (tail_byte b) eqn:E; [|reflexivity]. destruct (tail_byte c) eqn:E2; [|reflexivity].
    cbn [andb bind]. rewrite or3_spec by (try assumption; lia).
    do 2 f_equal. unfold val3, tail_byte, is_byte in *. lia.
  - destruct s as [|b [|c [|d s]]]; cbn [firstn skipn bind decode_cp_valid decode_utf8_valid length Nat.eqb forallb andb fold_left].
    { destruct (Z.ltb_spec a 0x80); [lia|reflexivity]. }
    { assert (is_byte b) by (inversion Hs; assumption). rewrite mask2_spec by assumption.
      destruct (Z.ltb_spec a 0xe0); [lia|]. rewrite andb_false_r. reflexivity. }
    { rewrite mask3_spec by assumption.
      destruct (Z.ltb_spec a 0xf0); [lia|]. rewrite andb_false_r. reflexivity. }
    inversion_clear Hs as [|? ? Hb Hs']. inversion_clear Hs' as [|? ? Hc Hs]. inversion_clear Hs as [|? ? Hd _].
    rewrite mask4_spec, !is_trailing_spec by assumption. rewrite andb_true_r.
    destruct (Z.leb_spec 0xf0 a); [|lia]. destruct (Z.ltb_spec a 0xf8); [|lia].
    destruct (Z.leb_spec a 0xf4); [|rewrite !andb_false_r; reflexivity].
    destruct (tail_byte b) eqn:E; [|reflexivity]. destruct (tail_byte c) eqn:E2; [|reflexivity].
    destruct (tail_byte d) eqn:E3; [|reflexivity].
    cbn [andb bind]. rewrite or4_spec by (try assumption; lia).
    do 2 f_equal. unfold val4, tail_byte, is_byte in *. lia.
Qed.
Print Assumptions C29_any_bytes.
(** So encodings longer than necessary, surrogates and values beyond U+10FFFF are read as
    if they were code points. *)
Theorem C29_ill_formed_accepted_refuted : exists s1 s2 s3,
  char_default KCodePoint string_src s1 = Ok (0, []) /\ s1 = [0xc0; 0x80]
  /\ char_default KCodePoint string_src s2 = Ok (0xd800, []) /\ s2 = [0xed; 0xa0; 0x80]
  /\ char_default KCodePoint string_src s3 = Ok (0x110000, []) /\ s3 = [0xf4; 0x90; 0x80; 0x80].
Proof.
  exists [0xc0; 0x80], [0xed; 0xa0; 0x80], [0xf4; 0x90; 0x80; 0x80].
  split; [vm_compute; reflexivity|]. split; [reflexivity|]. split; [vm_compute; reflexivity|].
  split; [reflexivity|]. split; [vm_compute; reflexivity|]. reflexivity.
Qed.
Print Assumptions C29_ill_formed_accepted_refuted.
(** With a format-spec, the end of the source is not reported either. *)
Theorem C29_end_refuted : char_arg KCodePoint 0 0 string_src (mean U8 (d_bool None None None None false (Some 99))) [] = UB
  /\ char_arg KChar 0 0 string_src (mean U8 (d_bool None None None None false None)) [] = Err EndOfInput
  /\ char_arg KCodePoint 0 0 string_src (mean U8 (d_bool None None None (Some [49]) false (Some 99))) (text U8 [han]) = UB.
Proof. vm_compute. auto. Qed.
Print Assumptions C29_end_refuted.

(** ** C30 *)
(** The number is scanned, and then dropped: the variable keeps its value. *)
Theorem C30_refuted : exists d s, d_type d = Some (TyLetter 100) /\ s = [52; 50]
  /\ forall k old sep, k = KChar \/ k = KWchar -> char_arg k old sep string_src (mean U8 d) s = Ok (old, []).
Proof.
  exists (d_bool None None None None false (Some 100)), [52; 50]. split; [reflexivity|]. split; [reflexivity|].
  intros k old sep [-> | ->]; reflexivity.
Qed.
Print Assumptions C30_refuted.
(** What holds: with every integer presentation type and for every source, the characters
    consumed and the errors are those of scanning an integer of the same size, except that
    leading white space is not skipped. *)
Theorem C30_partial : forall k old sep r sp s, k = KChar \/ k = KWchar ->
  check_char_type_specs sp = true -> type sp <> PNone ->
  char_arg k old sep r sp s
  = ('(_, rest) <- arg_read r sp false (fun r' => int_read_specs r' (match k with KChar => i8 | _ => i32 end) sp sep) s ;;
     Ok (old, rest)).
Proof.
  intros k old sep r sp s Hk HC HT. unfold char_arg, arg_read_checked, char_reader. cbn [rd_check rd_skip rd_specs].
  assert (E : char_check k sp = true) by (destruct Hk as [-> | ->]; exact HC). rewrite E.
  rewrite <- (arg_read_map r sp false _ (fun _ : Z => old)). apply arg_read_ext. intros r' v.
  unfold char_specs. destruct Hk as [-> | ->]; destruct (type sp) eqn:ET; try congruence; try reflexivity;
    unfold check_char_type_specs in HC; rewrite ET in HC; discriminate.
Qed.
Print Assumptions C30_partial.
Example C30_ex :
  let sp := mean U8 (d_bool None None None None false (Some 120)) in
  check_char_type_specs sp = true /\ type sp = PIntHex
  /\ char_arg KChar 65 0 string_src sp [48; 120; 55; 102; 103] = Ok (65, [103])
  /\ char_arg KChar 65 0 string_src sp [48; 120; 56; 48] = Err ValuePositiveOverflow
  /\ char_arg KChar 65 0 string_src sp [32; 49] = Err InvalidScannedValue.
Proof. vm_compute. auto 8. Qed.

(** ** C31 *)
(** Scanning a pointer is scanning a 64-bit unsigned integer with 'x' and the same fill,
    alignment, width and precision. *)
Definition pointer_arg (sep : Z) (r : src) (sp : specs) := arg_read_checked r (pointer_reader sep) sp.
Definition u64_arg (sep : Z) (r : src) (sp : specs) := arg_read_checked r (int_reader u64 sep) sp.
Lemma pointer_is_hex sep r sp v : localized sp = false -> type sp = PIntHex ->
  pointer_read sep r v = int_read_specs r u64 sp sep v.
Proof.
  intros HL HT. unfold pointer_read. rewrite (specs_generic r u64 hex_specs sep v 16); [|reflexivity|reflexivity].
  rewrite (specs_generic r u64 sp sep v 16); [reflexivity|exact HL|]. unfold get_base. rewrite HT. reflexivity.
Qed.
Theorem C31_as_hex : forall sep sep' r d s, pointer_type d ->
  pointer_arg sep r (mean (s_enc r) d) s = u64_arg sep' r (mean (s_enc r) (as_hex d)) s.
Proof.
  intros sep sep' r d s Ht. unfold pointer_arg, u64_arg, arg_read_checked, pointer_reader, int_reader.
  cbn [rd_check rd_skip rd_specs].
  assert (HC : check_pointer_type_specs (mean (s_enc r) d) = true).
  { unfold check_pointer_type_specs, mean, pointer_type in *. destruct (d_type d) as [[c|i l|p fl]|]; try contradiction; [subst c|]; reflexivity. }
  rewrite HC. change (check_int_type_specs (mean (s_enc r) (as_hex d))) with true. cbv iota.
  rewrite (arg_read_cong r (mean (s_enc r) d) (mean (s_enc r) (as_hex d)));
    [|unfold mean; destruct (d_type d) as [[c|i l|p fl]|]; reflexivity..].
  apply arg_read_ext. intros r' v. change (pointer_read sep r' v) with (pointer_read sep' r' v). apply pointer_is_hex; reflexivity.
Qed.
Print Assumptions C31_as_hex.
(** What is accepted: an optional '+', an optional 0x, the longest run of hexadecimal
    digits; the address is their value, and at most 2^64 - 1. *)
Theorem C31_value : forall sep r s v rest, enc_ok (s_enc r) s -> no_dle r (snd (split_sign s)) ->
  pointer_read sep r s = Ok (v, rest) ->
  fst (split_sign s) = false
  /\ exists ds, digit_run 16 (snd (read_base 16 (snd (split_sign s)))) ds rest /\ v = value 16 ds /\ 0 <= v < 2 ^ 64.
Proof.
  intros sep r s v rest He Hq E. unfold pointer_read in E. rewrite (specs_generic r u64 hex_specs sep s 16) in E; [|reflexivity|reflexivity].
  assert (HB : fst (read_base 16 (snd (split_sign s))) = 16).
  { unfold read_base. cbn. destruct (has_prefix 120 16 (snd (split_sign s))); reflexivity. }
  apply success_inv in E; [|unfold type_ok; cbn; auto 10|right; unfold base_ok; lia|exact He|exact Hq|discriminate].
  cbv zeta in E. rewrite HB in E. destruct E as (HN & ds & H1 & H2 & _). 
  assert (HE : exact (it_signed u64) (it_bits u64) 16) by (unfold exact; cbn; auto 10; lia).
  destruct (H2 (or_introl HE)) as [H3 H4].
  destruct (fst (split_sign s)); [specialize (HN eq_refl); discriminate|]. split; [reflexivity|].
  exists ds. auto.
Qed.
Print Assumptions C31_value.
(** And all of that is accepted. *)
Theorem C31_accepted : forall sep r s ds rest, enc_ok (s_enc r) s -> no_dle r (snd (split_sign s)) ->
  fst (split_sign s) = false -> digit_run 16 (snd (read_base 16 (snd (split_sign s)))) ds rest ->
  pointer_read sep r s = if value 16 ds <? 2 ^ 64 then Ok (value 16 ds, rest) else Err ValuePositiveOverflow.
Proof.
  intros sep r s ds rest He Hq HN HR. unfold pointer_read. rewrite (specs_generic r u64 hex_specs sep s 16); [|reflexivity|reflexivity].
  assert (HB : fst (read_base 16 (snd (split_sign s))) = 16).
  { unfold read_base. cbn. destruct (has_prefix 120 16 (snd (split_sign s))); reflexivity. }
  destruct (rd_run r u64 s 16 (it_signed u64 && negb (ptype_eqb (type hex_specs) PIntUnsignedDecimal))) with (ds := ds) (rest := rest)
    as (H1 & H2 & _); try (unfold type_ok, base_ok; cbn; auto 10; fail); try assumption.
  - right. unfold base_ok. lia.
  - rewrite HN. discriminate.
  - rewrite HB. exact HR.
  - rewrite HB, HN in *. change (IntProofs.limit u64 false) with (2 ^ 64 - 1) in *. cbn [signed_value overflow_error] in *.
    destruct (Z.ltb_spec (value 16 ds) (2 ^ 64)); [apply H1; lia|]. apply H2; [lia|unfold exact; cbn; auto 10; lia].
Qed.
Print Assumptions C31_accepted.
(** Without a format-spec: after white space. *)
Theorem C31_default_partial : forall sep r cps, whole r cps -> Forall scalar cps ->
  pointer_default sep r (text (s_enc r) cps)
  = (if (length (lead is_ws cps) =? length cps)%nat then Err EndOfInput
     else pointer_read sep r (text (s_enc r) (after (lead is_ws cps) cps))).
Proof.
  intros sep r cps Hr Hc. unfold pointer_default, default_read, skip_ws_before_if_required.
  destruct (text (s_enc r) cps) as [|u s] eqn:ET.
  { apply text_nil_iff in ET; [|exact Hc]. subst cps. reflexivity. }
  rewrite <- ET, skip_ws_text by assumption. cbn [negb andb].
  destruct (_ =? _)%nat; reflexivity.
Qed.
Print Assumptions C31_default_partial.
Example C31_ex :
  pointer_arg 0 string_src (mean U8 (d_bool None None (Some [55]) None false (Some 112))) [32; 48; 88; 98; 69; 101; 70; 103] = Ok (0xbeef, [103])
  /\ pointer_type (d_bool None None (Some [55]) None false (Some 112))
  /\ pointer_default 0 string_src [32; 49; 48] = Ok (16, [])
  /\ pointer_default 0 string_src [45; 49] = Err InvalidScannedValue
  /\ no_dle string_src (snd (split_sign [48; 88; 98; 69]))
  /\ digit_run 16 (snd (read_base 16 (snd (split_sign [48; 88; 98; 69; 120])))) [98; 69] [120]
  /\ pointer_read 0 string_src (48 :: 120 :: 49 :: repeat 48 16) = Err ValuePositiveOverflow.
Proof.
  split; [vm_compute; reflexivity|]. split; [exact eq_refl|]. split; [vm_compute; reflexivity|].
  split; [vm_compute; reflexivity|]. split; [intros _ _; discriminate|]. split; [|vm_compute; reflexivity].
  split; [reflexivity|]. split; [discriminate|]. split.
  - repeat constructor; eexists; (split; [reflexivity|lia]).
  - intros (d & H & HL). vm_compute in H. injection H as <-. lia.
Qed.

(** ** C49 *)
(** The built-in types: integers, bool, char from a narrow and wchar_t from a wide source,
    pointers, strings and string_views.  [rx]: the regular expression engine; [names], [sep]:
    words for the booleans and thousands separator of the locale; [old]: value of the
    variable before. *)
Inductive builtin : Type :=
| BInt (t : inttype) (a : arg_type) | BBool | BChar (wide : bool) (old : Z) | BPointer
| BString (d : dest) (a : arg_type).
Inductive bvalue : Type := VInteger (z : Z) | VBool (b : bool) | VChar (c : Z) | VPointer (z : Z) | VString (s : list Z).
Definition tag {A} (f : A -> bvalue) (x : outcome (A * list Z)) : outcome (bvalue * list Z) :=
  '(v, rest) <- x ;; Ok (f v, rest).
Definition builtin_arg (rx : regex_engine) (names : list Z * list Z) (sep : Z) (r : src) (b : builtin) : arg bvalue :=
  let none := fun (f s : list Z) => (f, Err InvalidFormatString) in
  match b with
  | BInt t a =>
      let d := fun s => tag VInteger (int_default t r s) in
      Arg bvalue a d d (fun sp s => tag VInteger (arg_read_checked r (int_reader t sep) sp s)) none
  | BBool =>
      let d := fun s => tag VBool (bool_default r s) in
      Arg bvalue BoolType d d (fun sp s => tag VBool (bool_arg names r sp s)) none
  | BChar w old =>
      let k := if w then KWchar else KChar in
      let d := fun s => tag VChar (char_default k r s) in
      Arg bvalue (if w then WideCharacterType else NarrowCharacterType) d d (fun sp s => tag VChar (char_arg k old sep r sp s)) none
  | BPointer =>
      let d := fun s => tag VPointer (pointer_default sep r s) in
      Arg bvalue PointerType d d (fun sp s => tag VPointer (pointer_arg sep r sp s)) none
  | BString dst a =>
      let d := fun s => tag VString (string_default dst r s) in
      Arg bvalue a d d (fun sp s => tag VString (string_arg rx dst r sp s)) none
  end.
Definition supported (e : enc) (b : builtin) : Prop :=
  match b with
  | BInt t a => IntProofs.type_ok t /\ In a [SCharType; ShortType; IntType; LongType; LLongType; UCharType; UShortType; UIntType; ULongType; ULLongType]
  | BChar w _ => w = negb (match e with U8 => true | _ => false end)
  | BString _ a => In a [NarrowStringViewType; WideStringViewType; NarrowStringType; WideStringType]
  | _ => True
  end.

Lemma tag_ok {A} r (f : A -> bvalue) g : reader_ok A r g -> reader_ok bvalue r (fun s => tag f (g s)).
Proof.
  intros H s Hu. destruct (H s Hu) as [(v & s' & E & Hs)|[e E]]; unfold tag; rewrite E; cbn [bind]; [left|right]; eauto.
Qed.
Lemma checked_ok {A} cf t r (rd : reader A) fmt fmt' sp : c_enc cf = s_enc r -> s_enc r <> U16 ->
  parse_format_specs cf t fmt (SS specs_default false) = Ok (fmt', SS sp false) ->
  (rd_check rd sp = true -> forall r', s_enc r' = s_enc r -> reader_ok A r' (rd_specs rd r' sp)) ->
  reader_ok A r (arg_read_checked r rd sp).
Proof.
  intros Hcf He HF HR s Hu. unfold arg_read_checked. destruct (rd_check rd sp); [|right; eexists; reflexivity].
  assert (Hp := parse_parsed _ _ _ _ _ HF). cbn [ss_specs] in Hp.
  assert (Hf := parsed_fill_safe _ _ He Hp). assert (HP := p_prec _ Hp).
  destruct (arg_read_total r sp (rd_skip rd sp) ltac:(lia) Hf _ (fun r' => rd_specs rd r' sp)) with (s := s)
    as [[e ->]|(x & rest & -> & pre & value & post & v' & t' & H1 & _)].
  - intros v Hv. assert (EQ : s_enc (seen r sp) = s_enc r) by (unfold seen; destruct (_ =? _); reflexivity).
    destruct (HR eq_refl (seen r sp) EQ v) as [(x & it & E & Hs)|[e E]]; [rewrite EQ; exact Hv|right|left]; eauto.
  - exact Hu.
  - right. eauto.
  - left. exists x, rest. split; [reflexivity|]. exists (pre ++ value ++ post). rewrite H1, !app_assoc. reflexivity.
Qed.
Lemma int_read_ok t r sp sep : IntProofs.type_ok t -> parsed sp ->
  check_int_type_specs sp = true \/ check_char_type_specs sp = true ->
  reader_ok Z r (int_read_specs r t sp sep).
Proof.
  intros Ht Hp HC s Hu.
  assert (HB : exists b, get_base sp = Ok b /\ (b = 0 \/ base_ok b)).
  { destruct Hp as [Hb _ _ _ _ _]. revert HC. unfold check_int_type_specs, check_char_type_specs, get_base, base_ok. rewrite Hb.
    destruct (type sp); cbn; intros [H|H]; try discriminate; try (destruct (localized sp); discriminate);
      eexists; (split; [reflexivity|]); lia. }
  destruct HB as (b & Eb & Hb).
  destruct (int_specs_total r t sp sep s b) as [(v & s' & E & Hs & _)|[e E]]; auto.
  - intros E. rewrite E in Hu. exact Hu.
  - left. eauto.
  - right. eauto.
Qed.
Lemma matching_string_suffix w s it : read_matching_string w s = inl it -> suffix it s.
Proof.
  unfold read_matching_string. destruct (_ <? _)%nat; [discriminate|]. destruct (starts_with w s); [|discriminate].
  intros [= <-]. apply suffix_skipn.
Qed.
Lemma bool_either_ok r tx nu textual : reader_ok bool r textual -> reader_ok bool r (bool_either tx nu textual).
Proof.
  intros H s Hu. unfold bool_either.
  assert (HN : (exists v s', bool_numeric s = Ok (v, s') /\ suffix s' s) \/ exists e, bool_numeric s = Err e).
  { unfold bool_numeric, read_matching_code_unit. destruct s as [|c s]; [right; eexists; reflexivity|].
    destruct (c =? 48); [left; do 2 eexists; split; [reflexivity|exists [c]; reflexivity]|].
    destruct (c =? 49); [left; do 2 eexists; split; [reflexivity|exists [c]; reflexivity]|right; eexists; reflexivity]. }
  destruct nu.
  - destruct HN as [(v & s' & -> & Hs)|[e ->]]; [left; eauto|]. destruct tx; [apply H, Hu|right; eauto].
  - destruct tx; [apply H, Hu|right; eauto].
Qed.
Lemma classic_ok r : reader_ok bool r bool_textual_classic.
Proof.
  intros s _. unfold bool_textual_classic. destruct (read_matching_string [116; 114; 117; 101] s) eqn:E1.
  { left. do 2 eexists. split; [reflexivity|]. eapply matching_string_suffix, E1. }
  destruct (read_matching_string [102; 97; 108; 115; 101] s) eqn:E2; [|right; eexists; reflexivity].
  left. do 2 eexists. split; [reflexivity|]. eapply matching_string_suffix, E2.
Qed.
Lemma custom_ok r yes no : reader_ok bool r (bool_textual_custom yes no).
Proof.
  intros s _. unfold bool_textual_custom.
  destruct (read_matching_string (if (length yes <=? length no)%nat then yes else no) s) eqn:E1.
  { left. do 2 eexists. split; [reflexivity|]. eapply matching_string_suffix, E1. }
  destruct (read_matching_string (if (length yes <=? length no)%nat then no else yes) s) eqn:E2; [|right; eexists; reflexivity].
  left. do 2 eexists. split; [reflexivity|]. eapply matching_string_suffix, E2.
Qed.
Lemma code_unit_ok r : reader_ok Z r code_unit_read.
Proof.
  intros [|c s] _; [right; eexists; reflexivity|]. left. exists c, s. split; [reflexivity|exists [c]; reflexivity].
Qed.
Lemma builtin_ok rx names sep r cf b : c_enc cf = s_enc r -> s_enc r <> U16 -> engine_ok rx -> supported (s_enc r) b ->
  arg_ok bvalue r cf (builtin_arg rx names sep r b).
Proof.
  intros Hcf He Hrx Hb.
  assert (HC : forall fmt s, units (s_enc r) s -> suffix (fst ((fun f s : list Z => (f, @Err (bvalue * list Z) InvalidFormatString)) fmt s)) fmt
     /\ ((exists v s', snd ((fun f s : list Z => (f, @Err (bvalue * list Z) InvalidFormatString)) fmt s) = Ok (v, s') /\ suffix s' s)
         \/ exists e, snd ((fun f s : list Z => (f, @Err (bvalue * list Z) InvalidFormatString)) fmt s) = Err e)).
  { intros fmt s _. split; [apply suffix_refl|right; eexists; reflexivity]. }
  assert (HI : forall t, IntProofs.type_ok t -> reader_ok Z r (int_default t r)).
  { intros t Ht. apply default_read_ok. intros s Hu.
    destruct (int_default_total r t s 10) as [(v & s' & E & Hs & _)|[e E]]; [exact Ht|intros E; rewrite E in Hu; exact Hu|right; unfold base_ok; lia| |].
    - left. unfold int_read_default. eauto.
    - right. unfold int_read_default. eauto. }
  destruct b as [t a| |w old| |dst a]; (split; [|split; [|split; [exact HC|]]]); cbn [builtin_arg ar_default ar_specs ar_type] in *.
  - apply tag_ok, HI, Hb.
  - intros fmt fmt' sp HF. apply tag_ok. eapply checked_ok; [exact Hcf|exact He|exact HF|].
    cbn [int_reader rd_check rd_specs]. intros HCk r' _. apply int_read_ok; [apply Hb|exact (parse_parsed _ _ _ _ _ HF)|left; exact HCk].
  - destruct Hb as [_ Hb]. cbn [In] in Hb. split; intros ->; intuition discriminate.
  - apply tag_ok, default_read_ok, bool_either_ok, classic_ok.
  - intros fmt fmt' sp HF. apply tag_ok. eapply checked_ok; [exact Hcf|exact He|exact HF|].
    cbn [bool_reader rd_check rd_specs]. intros _ r' _. unfold bool_specs. destruct (bool_options sp) as [tx nu].
    apply bool_either_ok. destruct (localized sp); [apply custom_ok|apply classic_ok].
  - split; discriminate.
  - apply tag_ok, default_read_ok. unfold char_default_read. cbn [supported] in Hb. subst w.
    destruct (s_enc r) eqn:E; [|congruence|]; apply code_unit_ok.
  - intros fmt fmt' sp HF. apply tag_ok. eapply checked_ok; [exact Hcf|exact He|exact HF|].
    cbn [char_reader rd_check rd_specs]. intros HCk r' HE. unfold char_specs, char_default_read. cbn [supported] in Hb. rewrite HE.
    assert (HK : check_char_type_specs sp = true) by (destruct w; exact HCk).
    assert (HIR : forall t, IntProofs.type_ok t -> reader_ok Z r' (fun s => '(_, it) <- int_read_specs r' t sp sep s ;; Ok (old, it))).
    { intros t Ht s Hu. destruct (int_read_ok t r' sp sep Ht (parse_parsed _ _ _ _ _ HF) (or_intror HK) s Hu) as [(v & s' & E & Hs)|[e E]];
        rewrite E; cbn [bind]; eauto. }
    assert (H8 : IntProofs.type_ok i8) by (unfold IntProofs.type_ok; cbn; auto 10).
    assert (H32 : IntProofs.type_ok i32) by (unfold IntProofs.type_ok; cbn; auto 10).
    subst w. destruct (s_enc r) eqn:E; cbn [negb] in *; [|congruence|]; destruct (type sp); try apply code_unit_ok; apply HIR; assumption.
  - destruct w; split; discriminate.
  - apply tag_ok, default_read_ok. intros s Hu.
    destruct (int_specs_total r u64 hex_specs sep s 16) as [(v & s' & E & Hs & _)|[e E]]; unfold IntProofs.type_ok, base_ok; cbn; auto 10; try lia.
    + intros E. rewrite E in Hu. exact Hu.
    + left. eauto.
    + right. eauto.
  - intros fmt fmt' sp HF. apply tag_ok. eapply checked_ok; [exact Hcf|exact He|exact HF|].
    cbn [pointer_reader rd_check rd_specs]. intros _ r' _ s Hu.
    destruct (int_specs_total r' u64 hex_specs sep s 16) as [(v & s' & E & Hs & _)|[e E]]; unfold IntProofs.type_ok, base_ok; cbn; auto 10; try lia.
    + intros E. rewrite E in Hu. exact Hu.
    + left. eauto.
    + right. eauto.
  - split; discriminate.
  - apply tag_ok. intros s Hu. destruct (string_default_total dst r s Hu) as [H|(v & rest & pre & part & H & E & _)]; [right; exact H|].
    left. exists v, rest. split; [exact H|]. exists (pre ++ part). rewrite E, app_assoc. reflexivity.
  - intros fmt fmt' sp HF. apply tag_ok. intros s Hu.
    destruct (string_arg_total rx dst r sp s He Hrx Hu (parse_parsed _ _ _ _ _ HF)) as [H|(v & rest & pre & part & post & H & E & _)].
    + rewrite <- Hcf. eapply parse_set_again, HF.
    + right. exact H.
    + left. exists v, rest. split; [exact H|]. exists (pre ++ part ++ post). rewrite E, <- !app_assoc. reflexivity.
  - cbn [supported In] in Hb. split; intros ->; intuition discriminate.
Qed.
Theorem C49_partial : forall rx names sep r cf bs format source,
  c_enc cf = s_enc r -> s_enc r <> U16 -> engine_ok rx ->
  (List.length bs < 64)%nat -> Forall (supported (s_enc r)) bs ->
  units (s_enc r) format -> units (s_enc r) source ->
  (exists log rest, vscan_parse_format_string bvalue r cf (map (builtin_arg rx names sep r) bs) format source = Ok (log, rest)
     /\ suffix rest source)
  \/ exists e, vscan_parse_format_string bvalue r cf (map (builtin_arg rx names sep r) bs) format source = Err e.
Proof.
  intros rx names sep r cf bs format source Hcf He Hrx Hl Hb Hf Hs. apply C17_run_time_total_partial; try assumption.
  - rewrite map_length. exact Hl.
  - rewrite Forall_map. eapply Forall_impl; [|exact Hb]. intros b. apply builtin_ok; assumption.
Qed.
Print Assumptions C49_partial.
(** "{:s}{} {:*<5d}|{:[a-c]}{:p}" with a bool, a char, an int, a string and a pointer; the
    same with malformed bytes. *)
Definition no_rx : regex_engine := fun _ _ _ => Err InvalidScannedValue.
Example C49_ex :
  let bs := [BBool; BChar false 0; BInt i32 IntType; BString (DString U8) NarrowStringType; BPointer] in
  let run := fun s => vscan_parse_format_string bvalue string_src narrow (map (builtin_arg no_rx ([], []) 0 string_src) bs)
       (VscanProperties.T "{:s}{} {:*<5d}|{:[a-c]}{:p}") s in
  Forall (supported U8) bs /\ engine_ok no_rx
  /\ run (VscanProperties.T "true! 42***|abcabd 0xfgh")
     = Ok ([(0, VBool true); (1, VChar 33); (2, VInteger 42); (3, VString (VscanProperties.T "abcab")); (4, VPointer 13)], VscanProperties.T " 0xfgh")
  /\ run (VscanProperties.T "true" ++ [255; 32; 32; 52; 50; 42; 42; 42; 0xe4; 0xb8]) = Err InvalidFormatString.
Proof.
  cbv zeta. split.
  { repeat (apply Forall_cons); try apply Forall_nil; cbn; unfold IntProofs.type_ok; cbn; auto 10. }
  split; [intros p f s; left; eexists; reflexivity|]. split; vm_compute; reflexivity.
Qed.
(** Missing above: code points, for which it fails (C29_truncated_refuted).  Floating-point
    numbers are added in [BuiltinProperties]. *)
Theorem C49_refuted : exists format source,
  bytes source /\ vscan_parse_format_string Z string_src narrow
    [let d := char_default KCodePoint string_src in Arg Z CodePointType d d (char_arg KCodePoint 0 0 string_src) (fun f _ => (f, Err InvalidFormatString))]
    format source = UB.
Proof.
  exists (VscanProperties.T "{}"), [0xe2; 0x82]. split; [repeat constructor; unfold is_byte; lia|]. vm_compute. reflexivity.
Qed.
Print Assumptions C49_refuted.
