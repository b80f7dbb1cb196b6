(** Properties of the buffers behind non-contiguous sources: C14, C15, C16. *)
From Verif Require Import Prelude BufferModel BufferSpec BufferProofs.
Local Open Scope Z_scope.

(** The three kinds of fresh buffers, with their characters *)
Inductive fresh : list Z -> buffer -> Prop :=
| fresh_forward s : fresh s (forward_buffer s)
| fresh_file f : fresh (content f) (file_buffer f)
| fresh_getc f : fresh (gcontent f) (getc_buffer f).

Lemma fresh_good D b : fresh D b -> good D b.
Proof.
  intros []; [apply forward_good|apply file_good|apply getc_good].
Qed.

(** C14.  Whatever is done with iterators, in any order and on any position, every answer
    is about the characters of the source: a character read at position [p] is the [p]-th
    character, also after any number of further fills. *)
Theorem C14_answers_right D b ops xs b' :
  fresh D b -> run ops b = Ok (xs, b') -> Forall2 (right D) ops xs.
Proof.
  exact (fun F H => proj1 (run_right D ops b xs b' (fresh_good D b F) H)).
Qed.
Print Assumptions C14_answers_right.

Definition two_reads : stream := Stream (Some [49; 50]) [[51; 52; 53]; [54]] 1.
Example C14_answers_right_ex :
  run [AtEnd 0; Deref 4; Segment 1; Deref 0; AtEnd 6; Deref 1; Segment 2]
      (file_buffer two_reads) =
  Ok ([End false; Char 53; Seg [50]; Char 49; End true; Char 50; Seg [51; 52; 53; 54]],
      Buffer [49; 50; 51; 52; 53; 54] [] (File (Stream (Some []) [] 1))).
Proof. vm_compute. reflexivity. Qed.

(** C14.  On sources that do not report the end too early, every legal sequence of
    operations runs without violating a precondition and the end is reported exactly at
    the end. *)
Theorem C14_runs D b ops :
  fresh D b -> steady b -> legal D 0 ops ->
  exists xs b', run ops b = Ok (xs, b') /\ Forall2 (exact D) ops xs.
Proof.
  exact (fun F H L => run_exact D ops 0 b (fresh_good D b F) H (Nat.le_0_l _) L).
Qed.
Print Assumptions C14_runs.

Example C14_runs_ex :
  steady (file_buffer two_reads) /\
  legal (content two_reads) 0 [AtEnd 0; Next 0; Next 1; Next 2; Deref 2; Segment 3; Next 3; Next 4;
    Deref 1; Next 5; AtEnd 6; Segment 6].
Proof.
  split.
  - cbn. repeat constructor; discriminate.
  - cbn. repeat split; lia.
Qed.

(** C14.  Iterating from the first position to the end yields the characters, once, in
    order. *)
Theorem C14_iterate D b :
  fresh D b -> steady b -> exists b', collect (S (length D)) 0 b = Ok (D, b').
Proof.
  exact (fun F H => collect_ok D (S (length D)) 0 b (fresh_good D b F) H
                      (Nat.le_0_l _) (Nat.lt_succ_diag_r _)).
Qed.
Print Assumptions C14_iterate.

Example C14_iterate_ex :
  exists b', collect 7 0 (file_buffer two_reads) = Ok ([49; 50; 51; 52; 53; 54], b').
Proof. eexists. vm_compute. reflexivity. Qed.

(** C14.  Iterating again, from any position and after any use of the buffer, yields the
    same characters again. *)
Lemma iterate_again D b ops xs b1 p :
  fresh D b -> steady b -> run ops b = Ok (xs, b1) -> (p <= length D)%nat ->
  exists b', collect (S (length D)) p b1 = Ok (skipn p D, b').
Proof.
  intros F HS H Hp. destruct (run_right D ops b xs b1 (fresh_good D b F) H) as (_ & G & _ & ST).
  apply collect_ok; auto. lia.
Qed.
Theorem C14_iterate_again D b ops xs b1 p :
  fresh D b -> steady b -> run ops b = Ok (xs, b1) -> (p <= length D)%nat ->
  exists b', collect (S (length D)) p b1 = Ok (skipn p D, b').
Proof. exact (iterate_again D b ops xs b1 p). Qed.
Print Assumptions C14_iterate_again.

Example C14_iterate_again_ex :
  (2 <= length (content two_reads))%nat /\
  exists b1, run [AtEnd 6] (file_buffer two_reads) = Ok ([End true], b1) /\
  exists b', collect 7 2 b1 = Ok ([51; 52; 53; 54], b').
Proof. split; [cbn; lia|]. eexists; split; [vm_compute; reflexivity|]. eexists; vm_compute; reflexivity. Qed.

(** C14.  A segment handed out at a position that has been reached and is not at the end is
    never empty. *)
Lemma segment_nonempty D b ops xs b1 p :
  fresh D b -> run ops b = Ok (xs, b1) -> (p < chars_available b1)%nat ->
  exists l t, get_segment_starting_at p b1 = Ok l /\ l <> [] /\ skipn p D = l ++ t.
Proof.
  intros F H Hp. destruct (run_right D ops b xs b1 (fresh_good D b F) H) as (_ & G & _ & _).
  destruct (segment_at D b1 p G ltac:(lia)) as (l & t & E & E2 & N). exists l, t. auto.
Qed.
Theorem C14_segment_nonempty D b ops xs b1 p :
  fresh D b -> run ops b = Ok (xs, b1) -> (p < chars_available b1)%nat ->
  exists l t, get_segment_starting_at p b1 = Ok l /\ l <> [] /\ skipn p D = l ++ t.
Proof. exact (segment_nonempty D b ops xs b1 p). Qed.
Print Assumptions C14_segment_nonempty.

Example C14_segment_nonempty_ex :
  exists b1, run [Deref 3] (file_buffer two_reads) = Ok ([Char 52], b1) /\
             (1 < chars_available b1)%nat /\ get_segment_starting_at 1 b1 = Ok [50].
Proof. eexists; split; [vm_compute; reflexivity|]. vm_compute. split; [lia|reflexivity]. Qed.

(** C15.  Streams with an accessible get area: after any use of the buffer, for every
    position [n] reached, what the stream delivers next is exactly what follows position
    [n]; when the scan fails, everything is given back.  Missing for the full claim: the
    stream must accept as many put-back characters as are needed, and must have a get area
    or have been read from at all. *)
Lemma file_position f ops xs b n e :
  run ops (file_buffer f) = Ok (xs, b) ->
  area f <> None \/ Exists is_read ops ->
  ((n <= chars_available b)%nat -> (length (putback b) <= n + room f)%nat ->
   exists f', sync_after_vscan b (inl n) = Ok (inl n, Buffer (putback b) (view b) (File f')) /\
              content f' = skipn n (content f)) /\
  ((length (putback b) <= room f)%nat ->
   exists f', sync_after_vscan b (inr e) = Ok (inr e, Buffer (putback b) (view b) (File f')) /\
              content f' = content f).
Proof.
  intros H NN. destruct (run_right (content f) ops _ xs b (file_good f) H) as (_ & G & _ & _).
  destruct (run_kept (content f) (room f) ops (area f <> None) (file_buffer f) xs b
              (file_good f)) as (g & ES & ER & _ & HA); [|exact H|].
  { exists f. cbn. auto. }
  destruct b as [p v o]; cbn [source putback view] in *; subst o. rewrite <- ER.
  unfold sync_after_vscan. split.
  - intros Hn HR. destruct (sync_runs _ p v g n G (HA NN) Hn HR) as [b' E].
    destruct (sync_content _ p v g n b' G E) as (f' & -> & C). rewrite E; cbn [bind].
    exists f'. auto.
  - intros HR.
    destruct (sync_runs _ p v g 0 G (HA NN) (Nat.le_0_l _) HR) as [b' E].
    destruct (sync_content _ p v g 0 b' G E) as (f' & -> & C). rewrite E; cbn [bind].
    exists f'. auto.
Qed.
Theorem C15_partial f ops xs b n e :
  run ops (file_buffer f) = Ok (xs, b) ->
  area f <> None \/ Exists is_read ops ->
  ((n <= chars_available b)%nat -> (length (putback b) <= n + room f)%nat ->
   exists f', sync_after_vscan b (inl n) = Ok (inl n, Buffer (putback b) (view b) (File f')) /\
              content f' = skipn n (content f)) /\
  ((length (putback b) <= room f)%nat ->
   exists f', sync_after_vscan b (inr e) = Ok (inr e, Buffer (putback b) (view b) (File f')) /\
              content f' = content f).
Proof. exact (file_position f ops xs b n e). Qed.
Print Assumptions C15_partial.

Example C15_partial_ex :
  exists b, run [AtEnd 0; Deref 3] (file_buffer two_reads) = Ok ([End false; Char 52], b) /\
    (length (putback b) <= 1 + room two_reads)%nat /\
    sync_after_vscan b (inl 1%nat) =
    Ok (inl 1%nat, Buffer [49; 50] [51; 52; 53]
                     (File (Stream (Some [50; 51; 52; 53]) [[54]] 0))).
Proof. eexists; split; [vm_compute; reflexivity|]. vm_compute. split; [lia|reflexivity]. Qed.

(** C15.  Whatever room the stream has: a scan whose result is passed on has left the
    stream in the right place; otherwise invalid_source_state is reported. *)
Lemma file_no_silent_loss f ops xs b r b' :
  run ops (file_buffer f) = Ok (xs, b) ->
  sync_after_vscan b r = Ok (r, b') -> r <> inr InvalidSourceState ->
  exists f', source b' = File f' /\
    content f' = skipn (match r with inl n => n | inr _ => O end) (content f).
Proof.
  intros H. destruct (run_right (content f) ops _ xs b (file_good f) H) as (_ & G & _ & _).
  destruct (run_kept (content f) (room f) ops (area f <> None) (file_buffer f) xs b
              (file_good f)) as (g & ES & ER & _ & HA); [|exact H|].
  { exists f. cbn. auto. }
  destruct b as [p v o]; cbn [source] in ES; subst o.
  unfold sync_after_vscan. set (n := match r with inl n => n | inr _ => O end).
  destruct (sync n _) as [[ok b1]| | |] eqn:E; cbn [bind]; try discriminate.
  destruct ok; [|intros [= <- <-] N; contradiction].
  intros [= <-] _. destruct (sync_content _ p v g n b1 G E) as (f' & -> & C).
  exists f'. auto.
Qed.
Theorem C15_no_silent_loss f ops xs b r b' :
  run ops (file_buffer f) = Ok (xs, b) ->
  sync_after_vscan b r = Ok (r, b') -> r <> inr InvalidSourceState ->
  exists f', source b' = File f' /\
    content f' = skipn (match r with inl n => n | inr _ => O end) (content f).
Proof. exact (file_no_silent_loss f ops xs b r b'). Qed.
Print Assumptions C15_no_silent_loss.

Example C15_no_silent_loss_ex :
  exists b b', run [Deref 5] (file_buffer two_reads) = Ok ([Char 54], b) /\
    sync_after_vscan b (inl 4%nat) = Ok (inl 4%nat, b').
Proof. eexists; eexists; split; vm_compute; reflexivity. Qed.

(** A source that is not a stream has nothing to give back: the result of the scan, good or
    bad, is what the caller gets. *)
Theorem C15_ranges s ops xs b r :
  run ops (forward_buffer s) = Ok (xs, b) -> sync_after_vscan b r = Ok (r, b).
Proof.
  intros H. assert (N := no_stream_run ops (forward_buffer s) xs b I H). revert N.
  unfold sync_after_vscan, sync, no_stream.
  destruct (source b); try contradiction; intros _; reflexivity.
Qed.
Print Assumptions C15_ranges.
Example C15_ranges_ex :
  exists b, run [AtEnd 3; Deref 1] (forward_buffer [97; 98; 99]) = Ok ([End true; Char 98], b) /\
    sync_after_vscan b (inl 2%nat) = Ok (inl 2%nat, b) /\
    sync_after_vscan b (inr EndOfInput) = Ok (inr EndOfInput, b).
Proof. eexists; split; [vm_compute; reflexivity|]. split; vm_compute; reflexivity. Qed.

(** C15 fails when more than the one character guaranteed by ISO C has to be given back:
    here a failed scan has looked at the third refill; the first character is lost. *)
Definition slow_stream : stream := Stream (Some [97]) [[98]; [99]] 1.
Theorem C15_room_refuted :
  exists f b f', room f = 1%nat /\
    run [AtEnd 2] (file_buffer f) = Ok ([End false], b) /\
    sync_after_vscan b (inr EndOfInput) =
      Ok (inr InvalidSourceState, Buffer (putback b) (view b) (File f')) /\
    content f = [97; 98; 99] /\ content f' = [98; 99].
Proof.
  exists slow_stream. eexists. eexists. split; [reflexivity|].
  split; [vm_compute; reflexivity|]. split; [vm_compute; reflexivity|].
  split; vm_compute; reflexivity.
Qed.
Print Assumptions C15_room_refuted.

(** C15 fails on a stream that has not been read from yet when the scan does not read
    anything either (for instance because the format string is malformed): its get area
    does not exist. *)
Theorem C15_unread_refuted :
  exists f, content f = [97; 98] /\
    sync_after_vscan (file_buffer f) (inr InvalidFormatString) = UB /\
    sync_after_vscan (file_buffer f) (inl O) = UB.
Proof. exists (Stream None [[97; 98]] 1). repeat split. Qed.
Print Assumptions C15_unread_refuted.

(** C15, streams read character by character.  Missing: as above enough room; and the end
    must not have been met unless everything was consumed. *)
Lemma getc_position f ops xs b n :
  run ops (getc_buffer f) = Ok (xs, b) ->
  (n <= chars_available b)%nat ->
  view b <> [] \/ n = chars_available b ->
  (chars_available b <= n + groom f)%nat ->
  exists f', sync_after_vscan b (inl n) = Ok (inl n, Buffer (putback b) (view b) (Getc f')) /\
             gcontent f' = skipn n (gcontent f).
Proof.
  intros H Hn Hv HR.
  destruct (run_right (gcontent f) ops _ xs b (getc_good f) H) as (_ & G & _ & _).
  destruct (getc_kept (gcontent f) (groom f) ops (getc_buffer f) xs b (getc_good f))
    as (g & ES & ER); [|exact H|].
  { exists f. cbn. auto. }
  destruct b as [p v o]; cbn [source view] in *; subst o.
  destruct (getc_sync _ p v g n G Hn Hv) as (f' & E & C); [rewrite ER; exact HR|].
  unfold sync_after_vscan. rewrite E; cbn [bind]. exists f'. auto.
Qed.
Theorem C15_getc_partial f ops xs b n :
  run ops (getc_buffer f) = Ok (xs, b) ->
  (n <= chars_available b)%nat ->
  view b <> [] \/ n = chars_available b ->
  (chars_available b <= n + groom f)%nat ->
  exists f', sync_after_vscan b (inl n) = Ok (inl n, Buffer (putback b) (view b) (Getc f')) /\
             gcontent f' = skipn n (gcontent f).
Proof. exact (getc_position f ops xs b n). Qed.
Print Assumptions C15_getc_partial.

Example C15_getc_partial_ex :
  exists b, run [AtEnd 2] (getc_buffer (GStream [Some 97; Some 98; Some 99; Some 100] 2))
            = Ok ([End false], b) /\
    sync_after_vscan b (inl 1%nat) =
    Ok (inl 1%nat, Buffer [97; 98] [99] (Getc (GStream [Some 98; Some 99; Some 100] 0))).
Proof. eexists; split; [vm_compute; reflexivity|]. vm_compute; reflexivity. Qed.

(** There a scan that met the end of the file and then fails (or stops earlier) reads the
    first character of an empty view. *)
Theorem C15_getc_end_refuted :
  exists f b, gcontent f = [45] /\
    run [Deref 0; Next 0; AtEnd 1] (getc_buffer f) = Ok ([Char 45; Moved; End true], b) /\
    sync_after_vscan b (inr InvalidScannedValue) = UB.
Proof.
  exists (GStream [Some 45] 8). eexists. split; [reflexivity|].
  split; [vm_compute; reflexivity|]. vm_compute; reflexivity.
Qed.
Print Assumptions C15_getc_end_refuted.

(** C16.  A nested scan from position [pos] after any use of the buffer.  It sees exactly
    the remaining characters if only one segment has been delivered so far (for containers
    also: unless the source is exhausted exactly there), or if [pos] is in a segment before
    the current one.  Missing: positions in the current segment when there are earlier ones;
    refuted below. *)
Lemma nested b D ops xs b1 pos :
  fresh D b -> run ops b = Ok (xs, b1) -> (pos <= chars_available b1)%nat ->
  (putback b1 = [] /\ (pos = O \/ delivers b1 \/ forall s, b <> forward_buffer s)) \/
  (pos < length (putback b1))%nat ->
  exists r, make_ref b1 pos = Ok r /\
    (forall ops' xs' r', run ops' r = Ok (xs', r') -> Forall2 (right (skipn pos D)) ops' xs') /\
    (steady b -> forall ops', legal (skipn pos D) 0 ops' ->
       exists xs' r', run ops' r = Ok (xs', r') /\ Forall2 (exact (skipn pos D)) ops' xs') /\
    (steady b -> exists r', collect (S (length D)) 0 r = Ok (skipn pos D, r')).
Proof.
  intros F H Hp HC. destruct (run_right D ops b xs b1 (fresh_good D b F) H) as (_ & G & _ & ST).
  destruct (make_ref_usable D b1 pos G Hp) as (r & E & CR & SR).
  { destruct HC as [[A B]|B]; [left|right; exact B]. split; [exact A|].
    destruct B as [B|[B|B]]; [left; exact B|right; apply (delivers_moves D b1 G B)|right].
    destruct F as [s|f|f]; [destruct (B s eq_refl)| |].
    - destruct (run_kept (content f) (room f) ops (area f <> None) (file_buffer f) xs b1
                  (file_good f)) as (g & ES & _); [exists f; cbn; auto|exact H|].
      apply (file_moves _ b1 g G ES).
    - destruct (getc_kept (gcontent f) (groom f) ops (getc_buffer f) xs b1 (getc_good f))
        as (g & ES & _); [exists f; cbn; auto|exact H|].
      apply (getc_moves _ b1 g G ES). }
  exists r. split; [exact E|]. split; [|split].
  - intros ops' xs' r' E'. apply (usable_run _ ops' r xs' r'); [|exact E'].
    destruct CR as [[A _]|[A _]]; [left|right]; exact A.
  - intros HS ops' L. apply (client_run _ ops' 0 r CR (SR (ST HS)) L).
  - intros HS. apply (client_collect (skipn pos D) (S (length D)) 0 r CR); auto.
    + lia.
    + rewrite skipn_length. lia.
Qed.
Theorem C16_partial b D ops xs b1 pos :
  fresh D b -> run ops b = Ok (xs, b1) -> (pos <= chars_available b1)%nat ->
  (putback b1 = [] /\ (pos = O \/ delivers b1 \/ forall s, b <> forward_buffer s)) \/
  (pos < length (putback b1))%nat ->
  exists r, make_ref b1 pos = Ok r /\
    (forall ops' xs' r', run ops' r = Ok (xs', r') -> Forall2 (right (skipn pos D)) ops' xs') /\
    (steady b -> forall ops', legal (skipn pos D) 0 ops' ->
       exists xs' r', run ops' r = Ok (xs', r') /\ Forall2 (exact (skipn pos D)) ops' xs') /\
    (steady b -> exists r', collect (S (length D)) 0 r = Ok (skipn pos D, r')).
Proof. exact (nested b D ops xs b1 pos). Qed.
Print Assumptions C16_partial.

Example C16_partial_ex :
  exists b1, run [Deref 1] (file_buffer two_reads) = Ok ([Char 50], b1) /\
    putback b1 = [] /\ delivers b1 /\
    exists r r', make_ref b1 1 = Ok r /\
                 collect 7 0 r = Ok ([50; 51; 52; 53; 54], r').
Proof.
  eexists; split; [vm_compute; reflexivity|]. split; [reflexivity|].
  split; [eexists; vm_compute; reflexivity|].
  eexists; eexists; split; vm_compute; reflexivity.
Qed.

(** From the current segment, when it is not the first one: the segment is delivered twice and the
    character after it is lost.  "12 abc" from a list of characters, position 3. *)
Theorem C16_current_segment_refuted :
  exists s b1 r r', run [AtEnd 3] (forward_buffer s) = Ok ([End false], b1) /\
    make_ref b1 3 = Ok r /\ skipn 3 s = [97; 98; 99] /\
    collect 10 0 r = Ok ([97; 97; 99], r').
Proof.
  exists [49; 50; 32; 97; 98; 99]. eexists. eexists. eexists.
  split; [vm_compute; reflexivity|]. split; [vm_compute; reflexivity|].
  split; [reflexivity|]. vm_compute. reflexivity.
Qed.
Print Assumptions C16_current_segment_refuted.

Example C16_earlier_ex :
  exists b1, run [AtEnd 1] (forward_buffer [97; 98]) = Ok ([End false], b1) /\
    (0 < length (putback b1))%nat /\
    exists r r', make_ref b1 0 = Ok r /\ collect 3 0 r = Ok ([97; 98], r').
Proof.
  eexists; split; [vm_compute; reflexivity|]. split; [vm_compute; lia|].
  eexists; eexists; split; vm_compute; reflexivity.
Qed.

(** From the end of an exhausted one-character source: std::out_of_range. *)
Theorem C16_end_refuted :
  exists s b1 r, run [Next 0] (forward_buffer s) = Ok ([Moved], b1) /\
    make_ref b1 1 = Ok r /\ run [AtEnd 0] r = UB.
Proof.
  exists [97]. eexists. eexists.
  split; [vm_compute; reflexivity|]. split; [vm_compute; reflexivity|]. vm_compute. reflexivity.
Qed.
Print Assumptions C16_end_refuted.
