(** C56: reading a source in a loop, one value per call. *)
From Coq Require Import String.
From Verif Require Import Prelude UnicodeModel UnicodeSpec UnicodeProofs ReadModel ReadProofs ArgsModel SpecsModel FormatModel
  IntModel IntSpec IntProofs VscanModel VscanSpec VscanProofs WidthSpec WidthProofs ArgReaderModel ArgReaderProofs ScalarModel
  StringModel StringSpec StringProofs BufferModel BufferProofs BufferProperties
  SegmentModel SegmentSpec SegmentProofs SegmentRunProofs SegmentProperties VscanProperties StringProperties LoopModel LoopSpec LoopProofs.
Import Coq.Strings.String.StringSyntax.
Local Open Scope string_scope.
Local Open Scope list_scope.
Local Open Scope Z_scope.

(** Words: from any text the loop gives all its words in their order; it ends with EndOfInput, only
    white space being left.  Sources whose
    segments do not end within a code point, any encoding, any destination. *)
Theorem C56_words_partial : forall r dst to cf a cps fuel, whole r cps -> dest_ok dst (s_enc r) to ->
  ar_plain a = string_default dst r -> Forall scalar cps -> (List.length (text (s_enc r) cps) < fuel)%nat ->
  exists ws tail, divided cps ws tail
    /\ scan_loop r cf a fuel (Chars (text (s_enc r) cps)) = Ok (map (text to) ws, EndOfInput, Chars (text (s_enc r) tail)).
Proof.
  intros r dst to cf a cps fuel Hr Hd Ha Hs HF. destruct (divide cps) as (ws & tail & D).
  exists ws, tail. split; [exact D|]. eapply words_loop; eassumption.
Qed.
Print Assumptions C56_words_partial.
(** The division of a text is unique. *)
Theorem C56_unique : forall cps ws tail ws' tail', divided cps ws tail -> divided cps ws' tail' -> ws = ws' /\ tail = tail'.
Proof.
  intros cps ws tail ws' tail' D. revert ws' tail'. induction D as [t Ht|t w l ws tail Ht Hw Hf Hl D IH]; intros ws' tail' D'.
  - inversion D' as [t' Ht' E|t' w' l' ws2 tail2 Ht' Hw' Hf' Hl' D2 E]; subst; [auto|exfalso].
    apply Forall_app in Ht. destruct Ht as [_ Ht]. apply Forall_app in Ht. destruct Ht as [Ht _].
    destruct w' as [|c w']; [congruence|]. inversion Ht; inversion Hf'; subst; congruence.
  - remember (t ++ w ++ l) as s eqn:Es. assert (E : word_of s = Ok (w, l)) by (rewrite Es; now apply word_first). clear Es.
    destruct D' as [t' Ht'|t' w' l' ws2 tail2 Ht' Hw' Hf' Hl' D2].
    + exfalso. rewrite word_none in E by assumption. discriminate.
    + rewrite word_first in E by assumption. injection E as -> ->. destruct (IH _ _ D2) as [-> ->]. auto.
Qed.
Print Assumptions C56_unique.

(** Integers: those written are those read, in their order; the loop then goes on with what follows. *)
Theorem C56_ints_partial : forall r t cf a xs tail fuel, whole r (flat_map written xs ++ tail) -> s_enc r <> U16 -> type_ok t -> ar_plain a = int_default t r ->
  Forall (fun '(ws, _, v) => in_range (it_signed t) (it_bits t) v /\ Forall scalar ws /\ Forall (fun c => is_ws c = true) ws) xs ->
  separated xs -> Forall scalar tail -> no_more tail ->
  scan_loop r cf a (List.length xs + fuel) (Chars (text (s_enc r) (flat_map written xs ++ tail)))
  = ('(vs, e, z) <- scan_loop r cf a fuel (Chars (text (s_enc r) tail)) ;; Ok (map number xs ++ vs, e, z)).
Proof. intros r t cf a xs tail fuel Hr He Ht Ha HX HS Hst Hn. now apply (ints_loop r t). Qed.
Print Assumptions C56_ints_partial.
(** If only white space follows, the loop ends there with EndOfInput. *)
Theorem C56_all_ints_partial : forall r t cf a xs tail fuel, whole r (flat_map written xs ++ tail) -> s_enc r <> U16 -> type_ok t -> ar_plain a = int_default t r ->
  Forall (fun '(ws, _, v) => in_range (it_signed t) (it_bits t) v /\ Forall scalar ws /\ Forall (fun c => is_ws c = true) ws) xs ->
  separated xs -> Forall scalar tail -> Forall (fun c => is_ws c = true) tail -> (List.length xs < fuel)%nat ->
  scan_loop r cf a fuel (Chars (text (s_enc r) (flat_map written xs ++ tail)))
  = Ok (map number xs, EndOfInput, Chars (text (s_enc r) tail)).
Proof.
  intros r t cf a xs tail fuel Hr He Ht Ha HX HS Hst Hw HF.
  replace fuel with (List.length xs + S (fuel - List.length xs - 1))%nat by lia.
  rewrite (ints_loop r t); auto.
  - rewrite (ints_end r t) by (try exact (whole_suffix r _ _ Hr); assumption). cbn [bind]. rewrite app_nil_r. reflexivity.
  - destruct tail as [|c tail]; [exact I|]. inversion Hw as [|? ? Hc _]; subst. cbn. intros HD.
    assert (E := RangesIntProofs.ws_no_digit c Hc). unfold RangesIntProofs.no_digit in E.
    assert (D : is_digit 10 c) by (apply FloatProofs.digit10_iff, HD). destruct D as (d & D & _). congruence.
Qed.
Print Assumptions C56_all_ints_partial.

(** On any bytes the loop ends, and what is left is a suffix of the source on which scanning fails. *)
Theorem C56_ends : forall k cf s fuel, kind_ok k -> k <> FChar32 -> bytes s -> (List.length s < fuel)%nat ->
  exists vs e rest, scan_loop string_src cf (argument k) fuel (Chars s) = Ok (vs, e, Chars rest)
    /\ (exists used, s = used ++ rest /\ (List.length vs <= List.length used)%nat)
    /\ scan_range string_src cf (argument k) (Chars rest) = Err e.
Proof.
  intros k cf s fuel HK Hk. revert s. induction fuel as [|fuel IH]; intros s HB HF; [lia|].
  destruct (from_string k s) as [[v rest]|e| |] eqn:E.
  - assert (L := progress k s v rest HK Hk HB E). assert (S := kind_suffix k s v rest HK HB E).
    rewrite (loop_ok string_src cf (argument k) fuel s v rest) by assumption.
    destruct (IH rest) as (vs & e & rest' & -> & (used & -> & Hn) & HE); [eapply (units_suffix U8); eassumption|lia|].
    destruct S as [p ->]. exists (v :: vs), e, rest'. split; [reflexivity|]. split; [|exact HE].
    exists (p ++ used). rewrite <- app_assoc. split; [reflexivity|]. rewrite !app_length in *. cbn [List.length]. lia.
  - exists [], e, s. rewrite (loop_err string_src cf (argument k) fuel s e) by exact E. split; [reflexivity|].
    split; [exists []; split; [reflexivity|cbn; lia]|]. rewrite range_step. cbn [argument ar_plain]. rewrite E. reflexivity.
  - exfalso. destruct (kind_total k s HK Hk HB) as [(v & rest & E1)|[e E1]]; congruence.
  - exfalso. destruct (kind_total k s HK Hk HB) as [(v & rest & E1)|[e E1]]; congruence.
Qed.
Print Assumptions C56_ends.

(** An array counts as the string before its last element, ... *)
Theorem C56_array : forall V r cf (a : arg V) s c,
  scan_range r cf a (Array (s ++ [c])) = scan_range r cf a (Chars s).
Proof.
  intros V r cf a s c. unfold scan_range. cbn [scanned_chars result_range].
  rewrite app_length. cbn [List.length]. replace (List.length s + 1 - 1)%nat with (List.length s) by lia.
  rewrite firstn_app, Nat.sub_diag, firstn_all. cbn [firstn]. rewrite app_nil_r. reflexivity.
Qed.
Print Assumptions C56_array.
(** ... so that of an array that is not a string literal the last character is lost: {'4','2'} gives 4; and the null
    characters behind a shorter string in it are scanned: the only word of "ab" in a char[5] is of four
    characters. *)
Theorem C56_array_refuted :
  scan_loop string_src (Config U8 true false false true) (argument (FInt (IT true 32))) 10 (Array (T "42"))
  = Ok ([RNumber 4], EndOfInput, Chars [])
  /\ scan_loop string_src (Config U8 true false false true) (argument FWord) 10 (Array [97; 98; 0; 0; 0])
  = Ok ([RText [97; 98; 0; 0]], EndOfInput, Chars []).
Proof. split; vm_compute; reflexivity. Qed.
Print Assumptions C56_array_refuted.

(** Ranges that are not contiguous: the same values, error and rest as for a string.  ASCII. *)
Theorem C56_forward_partial : forall k cf n fuel s vs e rest, kind_ok k -> ascii s -> (List.length s < n)%nat ->
  forward_loop n fuel k s = Ok (vs, e, rest) <-> scan_loop string_src cf (argument k) fuel (Chars s) = Ok (vs, e, Chars rest).
Proof.
  intros k cf n fuel s vs e rest HK. revert s vs. induction fuel as [|fuel IH]; intros s vs HA Hn; [split; discriminate|].
  cbn [forward_loop scan_loop]. rewrite forward_step by assumption. rewrite range_step. cbn [argument ar_plain].
  destruct (from_string k s) as [[v rest']|e'| |] eqn:E; cbn [bind].
  - assert (S := kind_suffix k s v rest' HK (ascii_bytes s HA) E). rewrite (suffix_skip rest' s S). cbn [app].
    destruct S as [p ->]. apply ascii_app in HA. destruct HA as [_ HA]. rewrite app_length in Hn.
    assert (IH' := fun ws => IH rest' ws HA ltac:(lia)). clear IH.
    destruct (forward_loop n fuel k rest') as [[[ws e1] z]| | |] eqn:EF; cbn [bind].
    + split; intros H.
      * injection H as <- <- <-. rewrite (proj1 (IH' ws) eq_refl). reflexivity.
      * destruct (scan_loop string_src cf (argument k) fuel (Chars rest')) as [[[ws2 e2] z2]| | |]; cbn [bind] in H; try discriminate.
        injection H as <- <- ->. assert (H := proj2 (IH' ws2) eq_refl). injection H as -> -> ->. reflexivity.
    + split; intros H; [discriminate|].
      destruct (scan_loop string_src cf (argument k) fuel (Chars rest')) as [[[ws2 e2] z2]| | |]; cbn [bind] in H; try discriminate.
      injection H as <- <- ->. assert (H := proj2 (IH' ws2) eq_refl). discriminate.
    + split; intros H; [discriminate|].
      destruct (scan_loop string_src cf (argument k) fuel (Chars rest')) as [[[ws2 e2] z2]| | |]; cbn [bind] in H; try discriminate.
      injection H as <- <- ->. assert (H := proj2 (IH' ws2) eq_refl). discriminate.
    + split; intros H; [discriminate|].
      destruct (scan_loop string_src cf (argument k) fuel (Chars rest')) as [[[ws2 e2] z2]| | |]; cbn [bind] in H; try discriminate.
      injection H as <- <- ->. assert (H := proj2 (IH' ws2) eq_refl). discriminate.
  - split; intros [= <- <- <-]; reflexivity.
  - split; discriminate.
  - split; discriminate.
Qed.
Print Assumptions C56_forward_partial.

Definition cfg : config := Config U8 true false false true.
Definition words_arg : arg (list Z) :=
  Arg (list Z) NarrowStringType (string_default (DString U8) string_src) (string_default (DString U8) string_src)
    (fun _ _ => Err InvalidFormatString) (fun f _ => (f, Err InvalidFormatString)).
Definition ints_arg : arg Z :=
  Arg Z IntType (int_default (IT true 32) string_src) (int_default (IT true 32) string_src)
    (fun _ _ => Err InvalidFormatString) (fun f _ => (f, Err InvalidFormatString)).
Example C56_words_ex :
  whole string_src ([0x4e2d; 98; 32; 10; 0xe9; 99; 0x2028; 100; 32] : list Z) /\ dest_ok (DString U8) U8 U8
  /\ scan_loop string_src cfg words_arg 30 (Chars (text U8 ([0x4e2d; 98; 32; 10; 0xe9; 99; 0x2028; 100; 32] : list Z)))
     = Ok ([text U8 [0x4e2d; 98]; text U8 [0xe9; 99]; [100]], EndOfInput, Chars [32]).
Proof. split; [apply contig_whole; reflexivity|]. split; [cbn; auto|]. vm_compute. reflexivity. Qed.
(** "1 -22\n+333  x": the numbers, then the error of the x *)
Example C56_ints_ex :
  let xs := [([], false, 1); ([32], false, -22); ([10], true, 333)] in
  text U8 (flat_map written xs ++ T "  x") = T "1 -22" ++ [10] ++ T "+333  x"
  /\ separated xs /\ no_more (T "  x")
  /\ scan_loop string_src cfg ints_arg 10 (Chars (text U8 (flat_map written xs ++ T "  x")))
     = Ok ([1; -22; 333], InvalidScannedValue, Chars (T "  x")).
Proof.
  split; [vm_compute; reflexivity|]. split; [repeat constructor; discriminate|]. split; [cbn; lia|]. vm_compute. reflexivity.
Qed.
Example C56_ends_ex :
  scan_loop string_src cfg (argument FChar) 10 (Chars [0xff; 32; 0xc3]) = Ok ([RNumber 0xff; RNumber 32; RNumber 0xc3], EndOfInput, Chars [])
  /\ scan_loop string_src cfg (argument FWord) 10 (Chars [97; 32; 0xc3]) = Ok ([RText [97]], InvalidScannedValue, Chars [32; 0xc3]).
Proof. split; vm_compute; reflexivity. Qed.
Example C56_forward_ex : forward_loop 20 10 (FInt (IT true 32)) (T "1 2 x") = Ok ([RNumber 1; RNumber 2], InvalidScannedValue, T " x").
Proof. vm_compute. reflexivity. Qed.
