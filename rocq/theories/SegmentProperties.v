(** Property C13, whole scans: ints, words, bools and characters from a source behind a
    buffer against the same from a string with the same characters. *)
From Coq Require Import String.
From Verif Require Import Prelude UnicodeModel UnicodeSpec UnicodeProofs ReadModel ReadProofs SpecsModel
  ArgsModel FormatModel FormatSpec IntModel IntSpec IntProofs ScalarModel VscanModel VscanSpec
  VscanSpecProofs VscanProperties BufferModel BufferSpec BufferProofs BufferProperties SegmentModel
  SegmentSpec SegmentProofs SegmentRunProofs.
Import Coq.Strings.String.StringSyntax.
Local Open Scope string_scope.
Local Open Scope list_scope.
Local Open Scope Z_scope.

Lemma fresh_fine D b : fresh D b -> steady b -> fine D 0 b.
Proof. intros F S. split; [apply fresh_good, F|]. split; [exact S|lia]. Qed.
Lemma fresh_safe D D' b : fresh D b -> safe D' 0 b.
Proof. intros F. unfold safe. destruct F; cbn; discriminate. Qed.

(** A scan of a buffer is a scan of the string [D]: it succeeds iff that does, with the
    same values and the same number of characters consumed ([as_string]).
    [D] is ASCII; [fuel] is any number above the number of characters of [D] and of the
    literal text. *)

(** The first field is right, whatever the kind of source and however it is cut. *)
Theorem C13_first_field_partial : forall D b k last fuel, fresh D b -> steady b -> ascii D ->
  proper [([], k)] last -> (List.length D + size [([], k)] last < fuel)%nat ->
  as_string [([], k)] last D (scan_pieces fuel (pieces [([], k)] last) 0 b).
Proof.
  intros D b k last fuel F S HA HP HF. apply scan_as_string; auto using fresh_fine.
  cbn [all_unaffected]. intros q b1 E. destruct fuel; cbn [literal_text] in E; injection E as <- <-;
    (split; [left; eapply fresh_safe; eassumption|auto]).
Qed.
Print Assumptions C13_first_field_partial.
Example C13_first_field_ex :
  let f := Stream None [T "  1"; T "2"; T "34,"; T "5"] 1 in
  fresh (T "  1234,5") (file_buffer f) /\ steady (file_buffer f)
  /\ string_scan [([], FInt (IT true 32))] (T ",") (T "  1234,5") = Ok ([(0, RNumber 1234)], T "5")
  /\ exists b, scan_pieces 100 (pieces [([], FInt (IT true 32))] (T ",")) 0 (file_buffer f) = Ok ([RNumber 1234], 7%nat, b).
Proof.
  intros f. split; [exact (fresh_file f)|]. split; [repeat constructor; discriminate|].
  split; [vm_compute; reflexivity|]. eexists. vm_compute. reflexivity.
Qed.

(** A file whose content arrives in a single read: every format string with such fields. *)
Theorem C13_one_read_partial : forall D f fs last fuel, one_piece f D -> steady (file_buffer f) ->
  ascii D -> proper fs last -> (List.length D + size fs last < fuel)%nat ->
  as_string fs last D (scan_pieces fuel (pieces fs last) 0 (file_buffer f)).
Proof.
  intros D f fs last fuel HO S HA HP HF.
  assert (F : fine D 0 (file_buffer f)).
  { apply fresh_fine; [|exact S]. replace D with (content f); [exact (fresh_file f)|].
    unfold content. destruct HO as [[-> ->]|[E ->]]; cbn; [apply app_nil_r|]. unfold get_area. rewrite E. apply app_nil_r. }
  apply scan_as_string; auto. apply one_read_unaffected; auto; [apply HP|apply or_start, HO|].
  assert (H := size_le fs last). lia.
Qed.
Print Assumptions C13_one_read_partial.
Example C13_one_read_ex :
  let f := Stream None [T "12,yes no-5;"] 1 in
  let fs := [([], FInt (IT true 32)); (T ",", FWord); (T " n", FChar); ([], FInt (IT true 8))] in
  one_piece f (T "12,yes no-5;") /\ steady (file_buffer f) /\ ascii (T "12,yes no-5;") /\ proper fs (T ";")
  /\ string_scan fs (T ";") (T "12,yes no-5;") = Ok ([(0, RNumber 12); (1, RText (T "yes")); (2, RNumber 111); (3, RNumber (-5))], [])
  /\ exists b, scan_pieces 100 (pieces fs (T ";")) 0 (file_buffer f) = Ok ([RNumber 12; RText (T "yes"); RNumber 111; RNumber (-5)], 12%nat, b).
Proof.
  assert (HA : forall s, forallb (fun c => (0 <=? c) && (c <? 128)) s = true -> ascii s).
  { intros s H. apply Forall_forall. intros c Hc. rewrite forallb_forall in H. specialize (H c Hc). lia. }
  split; [left; split; reflexivity|]. split; [repeat constructor; discriminate|]. split; [apply HA; reflexivity|].
  split.
  - split; [cbn; lia|]. split; [|apply HA; reflexivity].
    repeat (apply Forall_cons || apply Forall_nil);
      (split; [apply HA; reflexivity|unfold kind_ok, type_ok; cbn; tauto]).
  - split; [vm_compute; reflexivity|]. eexists. vm_compute. reflexivity.
Qed.

(** A source that is read one character at a time (a range that is not contiguous, or a file
    read with fgetc), if every field is an int, a word or a bool and, but for a first one
    without text before it, comes right after white space. *)
Theorem C13_spaced_partial : forall D b fs last fuel, fresh D b -> steady b -> single b -> ascii D ->
  proper fs last -> Forall (fun '(_, k) => skips k = true) fs -> (List.length D + size fs last < fuel)%nat ->
  Forall (follows_space D) (match fs with ([], _) :: _ => tl (starts fs D) | _ => starts fs D end) ->
  as_string fs last D (scan_pieces fuel (pieces fs last) 0 b).
Proof.
  intros D b fs last fuel F S HS HA HP HK HF HC.
  apply scan_as_string; auto using fresh_fine.
  apply spaced_unaffected; auto using fresh_fine; [apply HP| |intros [H _]; lia|].
  - assert (H := size_le fs last). lia.
  - cbn [skipn]. destruct fs as [|[[|c l] t] fs]; auto. split; [eapply fresh_safe; exact F|exact HC].
Qed.
Print Assumptions C13_spaced_partial.
(** "{} {} :  {}": an int, a word and a bool *)
Example C13_spaced_ex :
  let fs := [([], FInt (IT true 32)); (T " ", FWord); (T " :  ", FBool)] in
  let D := T "-12   key : true" in
  fresh D (forward_buffer D) /\ steady (forward_buffer D) /\ single (forward_buffer D)
  /\ Forall (fun '(_, k) => skips k = true) fs
  /\ Forall (follows_space D) (tl (starts fs D))
  /\ string_scan fs [] D = Ok ([(0, RNumber (-12)); (1, RText (T "key")); (2, RTruth true)], [])
  /\ exists b, scan_pieces 100 (pieces fs []) 0 (forward_buffer D) = Ok ([RNumber (-12); RText (T "key"); RTruth true], 16%nat, b).
Proof.
  intros fs D.
  split; [exact (fresh_forward _)|]. split; [exact I|]. split; [split; cbn; auto|].
  split; [repeat constructor|].
  split.
  { replace (tl (starts fs D)) with [T "key : true"; T "true"] by (vm_compute; reflexivity).
    constructor; [exists (T "-12  "), 32; auto|]. constructor; [exists (T "-12   key :"), 32; auto|constructor]. }
  split; [vm_compute; reflexivity|]. eexists. vm_compute. reflexivity.
Qed.

(** A source of any kind, cut anywhere: characters and code points alone, with any text between them. *)
Theorem C13_characters_partial : forall D b fs last fuel, fresh D b -> steady b -> ascii D ->
  proper fs last -> Forall (fun '(_, k) => skips k = false) fs -> (List.length D + size fs last < fuel)%nat ->
  as_string fs last D (scan_pieces fuel (pieces fs last) 0 b).
Proof.
  intros D b fs last fuel F S HA HP HK HF.
  apply scan_as_string; auto using fresh_fine. apply chars_unaffected; auto using fresh_fine; [apply HP|].
  assert (H := size_le fs last). lia.
Qed.
Print Assumptions C13_characters_partial.
(** "<{}{} ,{}" on a file that comes in three pieces *)
Example C13_characters_ex :
  let fs := [(T "<", FChar); ([], FChar32); (T " ,", FChar)] in
  let f := Stream None [T "<a"; T "b "; T " , ."] 1 in
  content f = T "<ab  , ." /\ steady (file_buffer f) /\ Forall (fun '(_, k) => skips k = false) fs
  /\ string_scan fs [] (content f) = Ok ([(0, RNumber 97); (1, RNumber 98); (2, RNumber 32)], T ".")
  /\ exists b, scan_pieces 100 (pieces fs []) 0 (file_buffer f) = Ok ([RNumber 97; RNumber 98; RNumber 32], 7%nat, b).
Proof.
  intros fs f. split; [reflexivity|]. split; [repeat constructor; discriminate|]. split; [repeat constructor|].
  split; [vm_compute; reflexivity|]. eexists. vm_compute. reflexivity.
Qed.

(** Any later field, any source, any cut: right if it ends inside the segment it starts in,
    or starts in the characters read before, or in a segment that reaches the end.  A bool
    or a character is right if it is in the segment it starts in. *)
Theorem C13_field_partial : forall D p b k fuel, ascii D -> fine D p b -> (List.length D < fuel)%nat ->
  unaffected D k p b ->
  match from_string k (skipn p D) with
  | Ok (v, rest) => exists q b', read_field fuel k p b = Ok (v, q, b') /\ rest = skipn q D
  | x => match read_field fuel k p b with Ok _ => False | Err e => x = Err e | UB => x = UB | OutOfFuel => x = OutOfFuel end
  end.
Proof.
  intros D p b k fuel HA F HF HU. assert (H := read_field_ok D fuel k p b HA F HF HU). unfold same in H.
  destruct (from_string k (skipn p D)) as [[v rest]| | |]; [|rewrite H; reflexivity..].
  destruct H as (q & b' & E & Er & _). eauto.
Qed.
Print Assumptions C13_field_partial.
(** The third number of a file that is read in two pieces, "12 34 5" and "67 8". *)
Example C13_field_ex : exists b,
  let f := Stream None [T "12 34 5"; T "67 8"] 1 in
  scan_pieces 100 [Braces (FInt (IT true 32))] 0 (file_buffer f) = Ok ([RNumber 12], 2%nat, b)
  /\ unaffected (T "12 34 567 8") (FInt (IT true 32)) 2 b
  /\ exists b', read_field 100 (FInt (IT true 32)) 2 b = Ok (RNumber 34, 5%nat, b').
Proof.
  eexists. split; [vm_compute; reflexivity|]. split.
  - right. exists (T " 34 5"), (RNumber 34), (T " 5"). vm_compute. repeat split. discriminate.
  - eexists. vm_compute. reflexivity.
Qed.

(** A field that starts at the last character fetched reads that character and no more. *)
Theorem C13_one_character : forall fuel k pb c o v rest,
  from_string k [c] = Ok (v, rest) ->
  forall x q b', read_field fuel k (List.length pb) (Buffer pb [c] o) = Ok (x, q, b') -> x = v.
Proof.
  intros fuel k pb c o v rest E x q b'. rewrite one_character, E. cbn [bind].
  destruct (next_n _ _ _) as [[? ?]| | |]; try discriminate. intros [= <- _ _]. reflexivity.
Qed.
Print Assumptions C13_one_character.
Example C13_one_character_ex :
  from_string (FInt (IT true 32)) [51] = Ok (RNumber 3, [])
  /\ exists q b, read_field 100 (FInt (IT true 32)) 3 (Buffer (T "12,") [51] (Forward (T "456"))) = Ok (RNumber 3, q, b).
Proof. split; [vm_compute; reflexivity|]. do 2 eexists. vm_compute. reflexivity. Qed.

(** So the property does not hold for whole format strings.  "{},{}" on the characters
    "12,34": 12 and 34 from a string, 12 and 3 from a std::deque. *)
Theorem C13_comma_refuted : exists D fs b,
  string_scan fs [] D = Ok ([(0, RNumber 12); (1, RNumber 34)], [])
  /\ scan_pieces 100 (pieces fs []) 0 (forward_buffer D) = Ok ([RNumber 12; RNumber 3], 4%nat, b).
Proof.
  exists (T "12,34"), [([], FInt (IT true 32)); (T ",", FInt (IT true 32))]. eexists.
  split; vm_compute; reflexivity.
Qed.
Print Assumptions C13_comma_refuted.
(** "{}{}" on "12 34" fails. *)
Theorem C13_adjacent_refuted : exists D fs,
  string_scan fs [] D = Ok ([(0, RNumber 12); (1, RNumber 34)], [])
  /\ scan_pieces 100 (pieces fs []) 0 (forward_buffer D) = Err EndOfInput.
Proof. exists (T "12 34"), [([], FInt (IT true 32)); ([], FInt (IT true 32))]. split; vm_compute; reflexivity. Qed.
Print Assumptions C13_adjacent_refuted.
(** " {}" on "12" gives 1. *)
Theorem C13_leading_space_refuted : exists D fs b,
  string_scan fs [] D = Ok ([(0, RNumber 12)], [])
  /\ scan_pieces 100 (pieces fs []) 0 (forward_buffer D) = Ok ([RNumber 1], 1%nat, b).
Proof. exists (T "12"), [(T " ", FInt (IT true 32))]. eexists. split; vm_compute; reflexivity. Qed.
Print Assumptions C13_leading_space_refuted.
(** A file that arrives as "12 3" and "4": "{}{}" gives 12 and 3. *)
Theorem C13_file_refuted : exists f fs b,
  string_scan fs [] (content f) = Ok ([(0, RNumber 12); (1, RNumber 34)], [])
  /\ scan_pieces 100 (pieces fs []) 0 (file_buffer f) = Ok ([RNumber 12; RNumber 3], 4%nat, b).
Proof.
  exists (Stream None [T "12 3"; T "4"] 1), [([], FInt (IT true 32)); ([], FInt (IT true 32))]. eexists.
  split; vm_compute; reflexivity.
Qed.
Print Assumptions C13_file_refuted.
(** White space that is cut in the middle of a code point (U+0085) is not recognised. *)
Theorem C13_cut_space_refuted : exists f fs,
  string_scan fs [] (content f) = Ok ([(0, RNumber 1); (1, RNumber 2)], [])
  /\ scan_pieces 100 (pieces fs []) 0 (file_buffer f) = Err InvalidScannedValue.
Proof.
  exists (Stream None [[49; 0xc2]; [0x85; 50]] 1), [([], FInt (IT true 32)); ([], FInt (IT true 32))].
  split; vm_compute; reflexivity.
Qed.
Print Assumptions C13_cut_space_refuted.
(** "[{}]" on "[true]" fails for a bool, and reads less for a word. *)
Theorem C13_bool_refuted : exists D fs,
  string_scan fs (T "]") D = Ok ([(0, RTruth true)], [])
  /\ scan_pieces 100 (pieces fs (T "]")) 0 (forward_buffer D) = Err InvalidScannedValue.
Proof. exists (T "[true]"), [(T "[", FBool)]. split; vm_compute; reflexivity. Qed.
Print Assumptions C13_bool_refuted.
Theorem C13_word_refuted : exists D fs b,
  string_scan fs [] D = Ok ([(0, RText (T "value"))], [])
  /\ scan_pieces 100 (pieces fs []) 0 (forward_buffer D) = Ok ([RText (T "v")], 5%nat, b).
Proof.
  exists (T "key=value"), [(T "key=", FWord)]. eexists. split; vm_compute; reflexivity.
Qed.
Print Assumptions C13_word_refuted.
(** A code point after another field, "{}{}" on an a and U+00E9: the segment ends in the middle
    of it, and a decoder that requires a whole code point gets half of one. *)
Theorem C13_code_point_refuted : exists D fs,
  string_scan fs [] D = Ok ([(0, RNumber 97); (1, RNumber 0xe9)], [])
  /\ scan_pieces 100 (pieces fs []) 0 (forward_buffer D) = UB.
Proof. exists [97; 0xc3; 0xa9], [([], FChar); ([], FChar32)]. split; vm_compute; reflexivity. Qed.
Print Assumptions C13_code_point_refuted.
