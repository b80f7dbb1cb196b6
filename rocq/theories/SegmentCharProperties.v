(** Property C13, code points: a char32_t from a source behind a buffer, of any bytes. *)
From Coq Require Import String.
From Verif Require Import Prelude UnicodeModel UnicodeSpec UnicodeProofs ReadModel ReadProofs SpecsModel
  IntModel IntSpec IntProofs ScalarModel VscanProperties BufferModel BufferSpec BufferProofs BufferProperties SegmentModel
  SegmentSpec SegmentProofs SegmentProperties.
Import Coq.Strings.String.StringSyntax.
Local Open Scope string_scope.
Local Open Scope list_scope.
Local Open Scope Z_scope.

Lemma start_len e s : (List.length (get_start_for_next_code_point e s) <= List.length s)%nat.
Proof. induction s as [|c s IH]; cbn [get_start_for_next_code_point]; [lia|]. destruct (cp_len e c); cbn [List.length]; lia. Qed.
Lemma start_suffix e s : exists n, get_start_for_next_code_point e s = skipn n s /\ (n <= List.length s)%nat.
Proof.
  induction s as [|c s [n [E H]]]; [exists O; auto|]. cbn [get_start_for_next_code_point]. destruct (cp_len e c).
  - exists (S n). cbn [skipn List.length]. split; [exact E|lia].
  - exists O. split; [reflexivity|lia].
Qed.
Lemma start_next_ok D : forall fuel p b, fine D p b -> (List.length D - p < fuel)%nat ->
  exists q b', start_next fuel p b = Ok (q, b') /\ skipn q D = get_start_for_next_code_point U8 (skipn p D) /\ fine D q b' /\ later b b'.
Proof.
  induction fuel as [|f IH]; intros p b F L; [lia|]. cbn [start_next]. assert (FL := fine_len D p b F).
  destruct (end_ok D p p b F) as (b1 & E1 & F1 & L1 & _). rewrite E1. cbn [bind].
  destruct (Nat.leb_spec (List.length D) p) as [Q|Q].
  - exists p, b1. rewrite skipn_all2 by exact Q. auto.
  - destruct (deref_ok D p p b1 F1 Q) as (b2 & E2 & F2 & L2 & _). rewrite E2. cbn [bind].
    rewrite (nth_skipn_cons D p Q). cbn [get_start_for_next_code_point]. destruct (cp_len U8 (nth p D 0)).
    + destruct (next_ok D p p b2 F2 Q) as (b3 & E3 & F3 & P3 & L3 & _). rewrite E3. cbn [bind].
      destruct (IH (S p) b3 P3 ltac:(lia)) as (q & b4 & E4 & H4 & F4 & L4). exists q, b4. eauto 9 using later_trans.
    + exists p, b2. rewrite (nth_skipn_cons D p Q). eauto 9 using later_trans.
Qed.
Lemma advance_ok D : forall n p b, fine D p b ->
  exists b', advance n p b = Ok (Nat.min (p + n) (List.length D), b') /\ fine D (Nat.min (p + n) (List.length D)) b' /\ later b b'.
Proof.
  induction n as [|n IH]; intros p b F; cbn [advance]; assert (FL := fine_len D p b F).
  - exists b. replace (Nat.min (p + 0) (List.length D)) with p by lia. eauto using later_refl.
  - destruct (end_ok D p p b F) as (b1 & E1 & F1 & L1 & _). rewrite E1. cbn [bind].
    destruct (Nat.leb_spec (List.length D) p) as [Q|Q].
    + exists b1. replace (Nat.min (p + S n) (List.length D)) with p by lia. auto.
    + destruct (next_ok D p p b1 F1 Q) as (b2 & E2 & _ & P2 & L2 & _). rewrite E2. cbn [bind].
      destruct (IH (S p) b2 P2) as (b3 & E3 & F3 & L3). rewrite E3. replace (S p + n)%nat with (p + S n)%nat in * by lia.
      exists b3. eauto using later_trans.
Qed.
(** read_code_point_into on a buffer: as on the characters that are left. *)
Lemma code_point_ok D fuel p b : fine D p b -> (List.length D < fuel)%nat -> (p < List.length D)%nat ->
  exists q cps b', code_point_into fuel p b = Ok (q, cps, b') /\ read_code_point_into U8 (skipn p D) = Ok (skipn q D, cps) /\ fine D q b' /\ later b b'.
Proof.
  intros F HF L. unfold code_point_into.
  destruct (end_ok D p p b F) as (b1 & E1 & F1 & L1 & _). rewrite E1. cbn [bind].
  rewrite (proj2 (Nat.leb_gt _ _)) by exact L.
  destruct (deref_ok D p p b1 F1 L) as (b2 & E2 & F2 & L2 & _). rewrite E2. cbn [bind].
  unfold read_code_point_into. rewrite (nth_skipn_cons D p L). destruct (cp_len U8 (nth p D 0)) as [|[|n]] eqn:EL.
  - destruct (next_ok D p p b2 F2 L) as (b3 & E3 & F3 & P3 & L3 & _). rewrite E3. cbn [bind].
    destruct (start_next_ok D fuel (S p) b3 P3 ltac:(lia)) as (q & b4 & E4 & H4 & F4 & L4). rewrite E4. cbn [bind].
    exists q, [], b4. rewrite <- H4. eauto 9 using later_trans.
  - destruct (next_ok D p p b2 F2 L) as (b3 & E3 & F3 & P3 & L3 & _). rewrite E3. cbn [bind].
    destruct (deref_ok D p (S p) b3 P3 L) as (b4 & E4 & F4 & L4 & _). rewrite E4. cbn [bind].
    exists (S p), [nth p D 0], b4. cbn [skipn firstn]. eauto 9 using later_trans.
  - destruct (advance_ok D (S (S n)) p b2 F2) as (b3 & E3 & F3 & L3). rewrite E3. cbn [bind].
    set (q := Nat.min (p + S (S n)) (List.length D)) in *.
    destruct (copy_ok D (q - p) p q b3 F3 ltac:(lia)) as (b4 & E4 & F4 & L4). rewrite E4. cbn [bind].
    rewrite <- (nth_skipn_cons D p L). exists q, (firstn (q - p) (skipn p D)), b4. split; [reflexivity|]. split; [|eauto using later_trans].
    rewrite skipn_skipn'. f_equal. f_equal.
    + destruct (Nat.leb_spec (p + S (S n)) (List.length D)); [f_equal; unfold q; lia|]. rewrite !skipn_all2; [reflexivity|unfold q; lia|lia].
    + destruct (Nat.leb_spec (p + S (S n)) (List.length D)); [f_equal; unfold q; lia|]. rewrite !firstn_all2; [reflexivity|rewrite skipn_length; unfold q; lia|rewrite skipn_length; lia].
Qed.
Lemma char32_ok D fuel p b : fine D p b -> (List.length D < fuel)%nat -> (p < List.length D)%nat ->
  same D b (code_point_read U8 (skipn p D)) (read_char32 fuel p b).
Proof.
  intros F HF L. destruct (code_point_ok D fuel p b F HF L) as (q & cps & b' & E & R & F' & L').
  unfold read_char32, code_point_read. rewrite E, R. cbn [bind]. destruct cps as [|c cps]; [reflexivity|].
  destruct (decode_cp_valid U8 (c :: cps)); cbn [bind same]; eauto 9.
Qed.

(** The first field, a char32_t, whatever the kind of source, however it is cut and whatever its
    bytes are: as from the string of all of them. *)
Theorem C13_code_point : forall D b fuel, fresh D b -> steady b -> (List.length D < fuel)%nat ->
  match from_string FChar32 D with
  | Ok (v, rest) => exists q b', read_field fuel FChar32 0 b = Ok (v, q, b') /\ rest = skipn q D
  | x => match read_field fuel FChar32 0 b with Ok _ => False | Err e => x = Err e | UB => x = UB | OutOfFuel => x = OutOfFuel end
  end.
Proof.
  intros D b fuel Fr S HF. assert (F := fresh_fine D b Fr S).
  assert (H : same D b (from_string FChar32 D) (read_field fuel FChar32 0 b)).
  { unfold read_field. assert (HC : is_segment_contiguous 0 b = Ok false) by (destruct Fr; reflexivity). rewrite HC. cbn [bind].
    destruct (end_ok D 0 0 b F) as (b1 & E1 & F1 & L1 & _). rewrite E1. cbn [bind skips].
    destruct D as [|c D]; [reflexivity|]. cbn [List.length Nat.leb bind from_buffer].
    eapply same_later; [exact L1|]. assert (HR := char32_ok (c :: D) fuel 0 b1 F1 HF ltac:(cbn; lia)). cbn [skipn] in HR.
    exact (same_result RNumber _ _ _ _ HR). }
  unfold same in H. destruct (from_string FChar32 D) as [[v rest]| | |]; [|rewrite H; reflexivity..].
  destruct H as (q & b' & E & Er & _). eauto.
Qed.
Print Assumptions C13_code_point.
(** The euro sign in three reads, and the same behind two stray bytes: an error. *)
Example C13_code_point_ex :
  let f := Stream None [[0xe2]; [0x82]; [0xac; 48]] 1 in
  let g := Stream None [[0x80]; [0xac]; [48]] 1 in
  fresh [0xe2; 0x82; 0xac; 48] (file_buffer f) /\ steady (file_buffer f)
  /\ from_string FChar32 [0xe2; 0x82; 0xac; 48] = Ok (RNumber 0x20ac, [48])
  /\ (exists b, read_field 10 FChar32 0 (file_buffer f) = Ok (RNumber 0x20ac, 3%nat, b))
  /\ read_field 10 FChar32 0 (file_buffer g) = Err InvalidScannedValue.
Proof.
  intros f g. split; [exact (fresh_file f)|]. split; [repeat constructor; discriminate|].
  split; [vm_compute; reflexivity|]. split; [eexists; vm_compute; reflexivity|vm_compute; reflexivity].
Qed.
