(** Property C55: a file read value by value; and C15 for whole scans. *)
From Coq Require Import String.
From Verif Require Import Prelude UnicodeModel UnicodeSpec UnicodeProofs ReadModel ReadProofs SpecsModel
  ArgsModel FormatModel FormatSpec IntModel IntSpec IntProofs ScalarModel VscanModel VscanSpec
  VscanSpecProofs VscanProperties BufferModel BufferSpec BufferProofs BufferProperties SegmentModel
  SegmentSpec SegmentProofs SegmentRunProofs SegmentProperties FileCallModel FileCallSpec FileCallProofs.
Import Coq.Strings.String.StringSyntax.
Local Open Scope string_scope.
Local Open Scope list_scope.
Local Open Scope Z_scope.

(** C15 for scans of ints, words, bools and characters with any literal text, from any file of
    ASCII text however it is delivered: if the scan succeeds, the file is left right behind what it
    consumed, and one character given back is enough for it (none if there are no words and no
    white space in the literal text).  [0 < q]: something was consumed; else see C15_unread_refuted. *)
Theorem C15_scan_partial : forall fuel ps f vs q b, ascii (content f) -> steady (file_buffer f) ->
  Forall (fits fuel (content f)) ps -> scan_pieces fuel ps 0 (file_buffer f) = Ok (vs, q, b) -> (0 < q)%nat ->
  (1 <= room f)%nat \/ Forall (fun p => match p with Text l => existsb is_ws l = false | Braces k => k <> FWord end) ps ->
  exists f', scan_file fuel ps f = Ok (vs, f') /\ content f' = skipn q (content f).
Proof.
  intros fuel ps f vs q b HA HS HP H HQ HR.
  destruct (file_synced (content f) fuel ps f vs q b HA eq_refl HS HP H) as (f' & E & EC & _); [|auto|].
  - destruct HR as [HR|HR]; [assert (L := look_le ps); lia|].
    assert (L : list_max (map look ps) = O); [|lia]. clear - HR.
    induction HR as [|p ps Hp _ IH]; [reflexivity|]. cbn [map]. change (Nat.max (look p) (list_max (map look ps)) = O).
    rewrite IH. destruct p as [l|[]]; cbn [look ahead]; unfold behind; rewrite ?Hp; try reflexivity. congruence.
  - exists f'. split; [|exact EC]. unfold scan_file. rewrite H. cbn [bind]. rewrite E. reflexivity.
Qed.
Print Assumptions C15_scan_partial.
(** Without any assumption on how many characters can be given back: a scan reported as
    successful has left the file right behind what it consumed. *)
Theorem C15_scan_success_partial : forall fuel ps f vs f', ascii (content f) -> steady (file_buffer f) ->
  Forall (fits fuel (content f)) ps -> scan_file fuel ps f = Ok (vs, f') ->
  exists q b, scan_pieces fuel ps 0 (file_buffer f) = Ok (vs, q, b) /\ content f' = skipn q (content f).
Proof.
  intros fuel ps f vs f' HA HS HP H. unfold scan_file in H. step3 H ws q b E.
  destruct (pieces_within (content f) fuel HA ps 0 (file_buffer f) ws q b HP) as (_ & (G & _ & _) & W); [|exact E|].
  { split; [|split; [exact HS|lia]]. split; [reflexivity|left; reflexivity]. }
  destruct (W I) as [FR _]. destruct b as [p v o]. unfold frame in FR. cbn [source file_buffer] in FR.
  destruct o as [|f1| |]; try contradiction. clear FR W. exists q, (Buffer p v (File f1)).
  unfold sync_after_vscan in H. destruct (sync q (Buffer p v (File f1))) as [[ok b2]| | |] eqn:ES; try discriminate.
  cbn [bind] in H. destruct ok; [|discriminate].
  destruct (sync_content (content f) p v f1 q b2 G ES) as (f2 & -> & EC). cbn [bind source] in H. injection H as <- <-. auto.
Qed.
Print Assumptions C15_scan_success_partial.
(** No character can be given back: the word is delivered with the file behind it, or, if the
    piece after the blank has been read in search of its end, an error reported. *)
Example C15_scan_success_ex :
  scan_file 100 [Braces FWord] (Stream None [T "ab cd"] 0) = Ok ([RText (T "ab")], Stream (Some (T " cd")) [] 0)
  /\ scan_file 100 [Braces FWord] (Stream None [T "ab"; T " cd"] 0) = Ok ([RText (T "ab")], Stream (Some (T " cd")) [] 0)
  /\ scan_file 100 [Braces FWord] (Stream None [T "a"; T "b "; T "cd"] 0) = Err InvalidSourceState.
Proof. vm_compute. auto. Qed.
(** The same for a file read by fgetc, if one character can be given back, as ISO C
    guarantees. *)
Theorem C15_getc_success_partial : forall fuel ps f vs f', ascii (gcontent f) -> steady (getc_buffer f) ->
  Forall (fits fuel (gcontent f)) ps -> (1 <= groom f)%nat -> scan_getc fuel ps f = Ok (vs, f') ->
  exists q b, scan_pieces fuel ps 0 (getc_buffer f) = Ok (vs, q, b) /\ gcontent f' = skipn q (gcontent f).
Proof.
  intros fuel ps f vs f' HA HS HP HR H. unfold scan_getc in H. step3 H ws q b E.
  destruct (pieces_within (gcontent f) fuel HA ps 0 (getc_buffer f) ws q b HP) as (_ & (G & _ & _) & W); [|exact E|].
  { split; [|split; [exact HS|lia]]. apply getc_good. }
  destruct (W I) as [FR _]. destruct b as [p v o]. unfold frame in FR. cbn [source getc_buffer] in FR.
  destruct o as [| |f1|]; try contradiction. clear W. exists q, (Buffer p v (Getc f1)).
  unfold sync_after_vscan, sync in H. cbn [source putback view] in H.
  destruct (sync_getc q p v f1) as [[ok f2]| | |] eqn:ES; try discriminate.
  cbn [bind] in H. destruct ok; [|discriminate]. cbn [source] in H. injection H as <- <-. split; [reflexivity|].
  destruct G as [G Hv]. unfold sync_getc in ES. destruct (Nat.eqb_spec q (List.length p + List.length v)) as [->|Q].
  - injection ES as <-. rewrite <- G, app_assoc, <- app_length. rewrite skipn_len_app. reflexivity.
  - destruct v as [|c [|d v]]; try discriminate. unfold gungetc in ES. destruct (groom f1) as [|r] eqn:ER; [lia|].
    destruct (Nat.ltb_spec (List.length p) q) as [Q2|Q2]; [discriminate|].
    injection ES as ES. rewrite (gputback_all_content _ _ _ ES), rev_involutive, <- G.
    rewrite skipn_le_app by lia. reflexivity.
Qed.
Print Assumptions C15_getc_success_partial.
Example C15_getc_success_ex : let f := GStream (map Some (T "12x")) 1 in
  ascii (gcontent f) /\ steady (getc_buffer f) /\ Forall (fits 100 (gcontent f)) [Braces (FInt (IT true 32))]
  /\ scan_getc 100 [Braces (FInt (IT true 32))] f = Ok ([RNumber 12], GStream [Some 120] 0).
Proof.
  cbv zeta. split; [repeat constructor; discriminate|]. split; [repeat constructor; discriminate|].
  split; [repeat constructor|vm_compute; reflexivity].
Qed.
(** "{} {}:" on a file in four pieces; the blank after the word and the first letter of the next
    one have been read when the blank is known to be its end *)
Example C15_scan_ex :
  let f := Stream None [T "ab"; T "c "; T "12"; T ":rest"] 1 in
  let ps := [Braces FWord; Text (T " "); Braces (FInt (IT true 32)); Text (T ":")] in
  ascii (content f) /\ steady (file_buffer f) /\ Forall (fits 100 (content f)) ps
  /\ scan_file 100 ps f = Ok ([RText (T "abc"); RNumber 12], Stream (Some (T "rest")) [] 1).
Proof.
  assert (HA : forall s, forallb (fun c => (0 <=? c) && (c <? 128)) s = true -> ascii s).
  { intros s H. apply Forall_forall. intros c Hc. rewrite forallb_forall in H. specialize (H c Hc). lia. }
  split; [apply HA; reflexivity|]. split; [repeat constructor; discriminate|].
  split; [|vm_compute; reflexivity].
  repeat (apply Forall_cons || apply Forall_nil); cbn [fits]; try (split; [apply HA; reflexivity|]); apply Nat.ltb_lt; reflexivity.
Qed.

Lemma numbered_snd vs : map snd (numbered vs) = vs.
Proof.
  unfold numbered. generalize 0. induction vs as [|v vs IH]; intros n; [reflexivity|]. cbn. f_equal. apply IH.
Qed.
Definition call_ok (fuel n : nat) (c : call) : Prop :=
  let '(k, last, r) := c in
  proper [([], k)] last /\ (n + List.length last < fuel)%nat /\ (needs k last <= r)%nat.
Lemma call_fits fuel n D k last r : call_ok fuel n (k, last, r) -> (List.length D <= n)%nat ->
  Forall (fits fuel D) [Text []; Braces k; Text last].
Proof.
  intros ((_ & _ & HL) & HF & _) H.
  constructor; [split; [constructor|cbn [List.length]; lia]|]. constructor; [cbn [fits]; lia|].
  constructor; [split; [exact HL|lia]|constructor].
Qed.
Lemma call_look k last : list_max (map look [Text []; Braces k; Text last]) = needs k last.
Proof.
  cbn [map list_max fold_right look]. unfold needs, behind. cbn [existsb]. destruct k; cbn [ahead]; destruct (existsb is_ws last); reflexivity.
Qed.
Lemma first_positive D fuel k last b vs q b' : ascii D -> fine D 0 b -> fresh D b -> (List.length D < fuel)%nat ->
  Forall (fits fuel D) [Text last] ->
  scan_pieces fuel [Text []; Braces k; Text last] 0 b = Ok (vs, q, b') -> (0 < q)%nat.
Proof.
  intros HA F HF L HL H. cbn [scan_pieces] in H. destruct fuel as [|fuel]; [lia|].
  change (literal_text (S fuel) [] 0 b) with (@Ok (nat * buffer) (O, b)) in H. cbn [bind] in H.
  step3 H v p1 b1 E1. step3 H ws q2 b2 E2. injection H as _ <- <-.
  destruct (field_within D _ k 0 b v p1 b1 HA F L E1) as (_ & F1 & _ & HP).
  step E2 p3 b3 E3. injection E2 as _ <- <-. inversion HL as [|? ? Hl _]; subst. destruct Hl as [Hl1 Hl2].
  destruct (literal_within D HA _ last p1 b1 p3 b3 Hl1 F1 Hl2 E3) as (L3 & _).
  assert (0 < p1)%nat; [|lia]. apply HP. destruct HF; reflexivity.
Qed.

Lemma not_ok D fuel k last b x : ascii D -> fine D 0 b -> Forall (fits fuel D) [Text []; Braces k; Text last] ->
  as_string [([], k)] last D (scan_pieces fuel [Text []; Braces k; Text last] 0 b) ->
  (forall log rest, string_scan [([], k)] last D <> Ok (log, rest)) ->
  scan_pieces fuel [Text []; Braces k; Text last] 0 b <> Ok x.
Proof.
  intros HA F HF AS HN H. destruct x as [[vs q] b'].
  destruct (pieces_within D fuel HA _ 0 b vs q b' HF F H) as (_ & Fq & _).
  apply (HN (numbered vs) (skipn q D)). apply AS. exists vs, q, b'. assert (L := fine_len _ _ _ Fq). auto.
Qed.

(** A file read with direct access to its get area (has_buffering), whatever the sizes of the pieces
    it comes in: the values and what is left are those of the string; the first call
    that fails on the string fails.  ASCII text; [r] characters can be given back in each call. *)
Theorem C55_partial : forall fuel cs f, ascii (content f) -> steady (file_buffer f) ->
  Forall (call_ok fuel (List.length (content f))) cs ->
  match string_calls cs (content f) with
  | Some (vs, rest) => exists f', file_calls fuel cs f = Ok (vs, f') /\ content f' = rest
  | None => forall x, file_calls fuel cs f <> Ok x
  end.
Proof.
  intros fuel cs f. generalize (Nat.le_refl (List.length (content f))). generalize (List.length (content f)) at 2 3. intros N.
  revert f. induction cs as [|[[k last] r] cs IH]; intros f HN HA HS HC; cbn [string_calls file_calls]; [eauto|].
  inversion HC as [|? ? Hc HC']; subst. assert (Hc' := Hc). destruct Hc' as (HP & HF & HR).
  set (f0 := Stream (area f) (reads f) r). assert (EC : content f0 = content f) by reflexivity.
  assert (HS0 : steady (file_buffer f0)) by exact HS.
  assert (FR : fresh (content f) (file_buffer f0)) by (rewrite <- EC; constructor).
  assert (AS := C13_first_field_partial (content f) (file_buffer f0) k last fuel FR HS0 HA HP ltac:(change (size [([], k)] last) with (List.length last); lia)).
  change (pieces [([], k)] last) with [Text []; Braces k; Text last] in AS.
  assert (Hfits := call_fits fuel N (content f) k last r Hc HN). unfold scan_file.
  destruct (string_scan [([], k)] last (content f)) as [[log rest]| | |] eqn:ES.
  - destruct (proj1 (AS log rest) ES) as (vs & q & b & E & HQ & -> & ->). rewrite E. cbn [bind].
    assert (PQ : (0 < q)%nat).
    { eapply (first_positive (content f) fuel k last); [exact HA|apply (fresh_fine _ _ FR HS0)|exact FR|lia| |exact E].
      inversion Hfits as [|? ? _ H1]; subst. inversion H1; subst. assumption. }
    destruct (file_synced (content f) fuel _ f0 vs q b HA (eq_sym EC) HS0 Hfits E) as (f' & E' & EC' & HS'); [|auto|].
    { rewrite call_look. exact HR. }
    rewrite E'. cbn [bind source]. rewrite numbered_snd.
    specialize (IH f'). rewrite EC' in IH. specialize (IH ltac:(rewrite skipn_length; lia) (ascii_skipn q _ HA) HS' HC').
    destruct (string_calls cs (skipn q (content f))) as [[ws rest]|].
    + destruct IH as (f2 & -> & E2). cbn [bind]. eauto.
    + intros x. destruct (file_calls fuel cs f') as [[ws f2]| | |] eqn:E2; cbn [bind]; try discriminate.
      intros _. exact (IH _ eq_refl).
  - intros x.
    assert (NO := fun y => not_ok (content f) fuel k last _ y HA (fresh_fine _ _ FR HS0) Hfits AS ltac:(intros ? ?; rewrite ES; discriminate)).
    destruct (scan_pieces fuel _ 0 (file_buffer f0)) as [y| | |]; cbn [bind]; try discriminate. destruct (NO y eq_refl).
  - intros x.
    assert (NO := fun y => not_ok (content f) fuel k last _ y HA (fresh_fine _ _ FR HS0) Hfits AS ltac:(intros ? ?; rewrite ES; discriminate)).
    destruct (scan_pieces fuel _ 0 (file_buffer f0)) as [y| | |]; cbn [bind]; try discriminate. destruct (NO y eq_refl).
  - intros x.
    assert (NO := fun y => not_ok (content f) fuel k last _ y HA (fresh_fine _ _ FR HS0) Hfits AS ltac:(intros ? ?; rewrite ES; discriminate)).
    destruct (scan_pieces fuel _ 0 (file_buffer f0)) as [y| | |]; cbn [bind]; try discriminate. destruct (NO y eq_refl).
Qed.
Print Assumptions C55_partial.
(** Numbers and words from a file that comes in pieces; then a call that fails *)
Example C55_ex :
  let f := Stream None [T "12"; T "34 -"; T "5"; T " ab"; T "c"; T " "; T "true,x"] 1 in
  let cs := [(FInt (IT true 32), [], 0%nat); (FInt (IT true 8), [], 0%nat); (FWord, [], 1%nat); (FBool, T ",", 0%nat)] in
  ascii (content f) /\ steady (file_buffer f) /\ Forall (call_ok 100 (List.length (content f))) cs
  /\ string_calls cs (content f) = Some ([RNumber 1234; RNumber (-5); RText (T "abc"); RTruth true], T "x")
  /\ (exists f', file_calls 100 cs f = Ok ([RNumber 1234; RNumber (-5); RText (T "abc"); RTruth true], f') /\ content f' = T "x")
  /\ string_calls (cs ++ [(FBool, [], 0%nat)]) (content f) = None
  /\ file_calls 100 (cs ++ [(FBool, [], 0%nat)]) f = Err InvalidScannedValue.
Proof.
  assert (HA : forall s, forallb (fun c => (0 <=? c) && (c <? 128)) s = true -> ascii s).
  { intros s H. apply Forall_forall. intros c Hc. rewrite forallb_forall in H. specialize (H c Hc). lia. }
  split; [apply HA; reflexivity|]. split; [repeat constructor; discriminate|].
  split.
  { repeat (apply Forall_cons || apply Forall_nil); (split; [|split; [apply Nat.ltb_lt; reflexivity|apply Nat.leb_le; reflexivity]]);
      (split; [cbn; lia|]; split; [repeat constructor; unfold kind_ok, type_ok; cbn; tauto|apply HA; reflexivity]). }
  split; [vm_compute; reflexivity|]. split; [eexists; split; [vm_compute; reflexivity|reflexivity]|].
  split; vm_compute; reflexivity.
Qed.

(** A file read with fgetc, one character can be given back in each call.  Missing: words, and white
    space at the end of the format string (see below). *)
Theorem C55_getc_partial : forall fuel cs f, ascii (gcontent f) -> steady (getc_buffer f) ->
  Forall (fun c => call_ok fuel (List.length (gcontent f)) c /\
                   needs (fst (fst c)) (snd (fst c)) = O /\ (1 <= snd c)%nat) cs ->
  match string_calls cs (gcontent f) with
  | Some (vs, rest) => exists f', getc_calls fuel cs f = Ok (vs, f') /\ gcontent f' = rest
  | None => forall x, getc_calls fuel cs f <> Ok x
  end.
Proof.
  intros fuel cs f. generalize (Nat.le_refl (List.length (gcontent f))). generalize (List.length (gcontent f)) at 2 3. intros N.
  revert f. induction cs as [|[[k last] r] cs IH]; intros f HN HA HS HC; cbn [string_calls getc_calls]; [eauto|].
  inversion HC as [|? ? Hc HC']; subst. destruct Hc as (Hc & HZ & HR). cbn [fst snd] in HZ, HR.
  assert (Hc' := Hc). destruct Hc' as (HP & HF & _).
  set (f0 := GStream (chars f) r). assert (EC : gcontent f0 = gcontent f) by reflexivity.
  assert (HS0 : steady (getc_buffer f0)) by exact HS.
  assert (FR : fresh (gcontent f) (getc_buffer f0)) by (rewrite <- EC; constructor).
  assert (AS := C13_first_field_partial (gcontent f) (getc_buffer f0) k last fuel FR HS0 HA HP ltac:(change (size [([], k)] last) with (List.length last); lia)).
  change (pieces [([], k)] last) with [Text []; Braces k; Text last] in AS.
  assert (Hfits := call_fits fuel N (gcontent f) k last r Hc HN). unfold scan_getc.
  assert (NO : (forall log rest, string_scan [([], k)] last (gcontent f) <> Ok (log, rest)) ->
    forall x, ('(vs, f1) <- ('(vs, q, b) <- scan_pieces fuel [Text []; Braces k; Text last] 0 (getc_buffer f0) ;;
       '(r0, b) <- sync_after_vscan b (inl q) ;;
       match r0, source b with inl _, Getc f2 => Ok (vs, f2) | inr e, _ => Err e | _, _ => UB end) ;;
      '(ws, f1) <- getc_calls fuel cs f1 ;; Ok (vs ++ ws, f1)) <> Ok x).
  { intros HNo x.
    assert (N1 := fun y => not_ok (gcontent f) fuel k last _ y HA (fresh_fine _ _ FR HS0) Hfits AS HNo).
    destruct (scan_pieces fuel _ 0 (getc_buffer f0)) as [y| | |]; cbn [bind]; try discriminate. destruct (N1 y eq_refl). }
  destruct (string_scan [([], k)] last (gcontent f)) as [[log rest]| | |] eqn:ES; try (apply NO; discriminate). clear NO.
  destruct (proj1 (AS log rest) ES) as (vs & q & b & E & HQ & -> & ->). rewrite E. cbn [bind].
  destruct (getc_synced (gcontent f) fuel _ f0 vs q b HA (eq_sym EC) HS0 Hfits E) as (f' & E' & EC' & HS'); [|exact HR|].
  { rewrite call_look. exact HZ. }
  rewrite E'. cbn [bind source]. rewrite numbered_snd.
  specialize (IH f'). rewrite EC' in IH. specialize (IH ltac:(rewrite skipn_length; lia) (ascii_skipn q _ HA) HS' HC').
  destruct (string_calls cs (skipn q (gcontent f))) as [[ws rest]|].
  - destruct IH as (f2 & -> & E2). cbn [bind]. eauto.
  - intros x. destruct (getc_calls fuel cs f') as [[ws f2]| | |] eqn:E2; cbn [bind]; try discriminate.
    intros _. exact (IH _ eq_refl).
Qed.
Print Assumptions C55_getc_partial.
Example C55_getc_ex :
  let f := GStream (map Some (T "12 -5,1")) 1 in
  let cs := [(FInt (IT true 32), [], 1%nat); (FInt (IT true 8), T ",", 1%nat); (FBool, [], 1%nat)] in
  gcontent f = T "12 -5,1" /\ steady (getc_buffer f)
  /\ string_calls cs (gcontent f) = Some ([RNumber 12; RNumber (-5); RTruth true], [])
  /\ getc_calls 100 cs f = Ok ([RNumber 12; RNumber (-5); RTruth true], GStream [] 1).
Proof. split; [reflexivity|]. split; [repeat constructor; discriminate|]. split; vm_compute; reflexivity. Qed.

(** Read with fgetc, a word followed by one character at the end of the file: that character has been read,
    and the end of the file met, when the word is known to be complete; giving the character back violates the
    precondition of sync (there is no current character). *)
Theorem C55_getc_refuted : exists f,
  gcontent f = T "ab" ++ [10] /\ groom f = 8%nat
  /\ string_calls [(FWord, [], 8%nat)] (gcontent f) = Some ([RText (T "ab")], [10])
  /\ getc_calls 100 [(FWord, [], 8%nat)] f = UB.
Proof. exists (GStream (map Some (T "ab" ++ [10])) 8). repeat split; vm_compute; reflexivity. Qed.
Print Assumptions C55_getc_refuted.

(** Several values in one call are another matter: the second is read from the current piece
    alone.  The file has 12 and 34; one call gives 12 and 3, two calls 12 and 34. *)
Theorem C55_together_refuted : exists f f' f'',
  content f = T "12 34 5" /\
  scan_file 100 [Braces (FInt (IT true 32)); Braces (FInt (IT true 32))] f = Ok ([RNumber 12; RNumber 3], f') /\
  content f' = T "4 5" /\
  file_calls 100 [(FInt (IT true 32), [], 0%nat); (FInt (IT true 32), [], 0%nat)] f = Ok ([RNumber 12; RNumber 34], f'') /\
  content f'' = T " 5".
Proof.
  exists (Stream None [T "12 3"; T "4 5"] 0). do 2 eexists. split; [reflexivity|].
  split; [vm_compute; reflexivity|]. split; [reflexivity|]. split; [vm_compute; reflexivity|reflexivity].
Qed.
Print Assumptions C55_together_refuted.
