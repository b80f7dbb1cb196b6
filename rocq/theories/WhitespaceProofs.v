(** Proofs about the whitespace finders. *)
From Verif Require Import Prelude Tables UnicodeModel UnicodeSpec UnicodeProofs
  BitsModel BitsProofs WhitespaceModel WhitespaceSpec.
Local Open Scope Z_scope.

Lemma is_ascii_space_spec c : is_byte c ->
  is_ascii_space c = (c =? 0x20) || ((0x09 <=? c) && (c <=? 0x0d)).
Proof.
  intros H; apply eqb_prop; revert c H.
  apply (sweep_byte (fun c => Bool.eqb (is_ascii_space c) ((c =? 0x20) || ((0x09 <=? c) && (c <=? 0x0d))))).
  vm_compute; reflexivity.
Qed.

Lemma ascii_space_cp c : 0 <= c < 128 -> is_ascii_space c = is_cp_space c.
Proof.
  intros H; rewrite is_ascii_space_spec by (unfold is_byte; lia).
  unfold is_cp_space; lia.
Qed.

Lemma is_decimal_digit_spec c : is_byte c ->
  is_decimal_digit c = (0x30 <=? c) && (c <=? 0x39).
Proof.
  intros H; apply eqb_prop; revert c H.
  apply (sweep_byte (fun c => Bool.eqb (is_decimal_digit c) ((0x30 <=? c) && (c <=? 0x39)))).
  vm_compute; reflexivity.
Qed.

Lemma next_cp_ascii c s : 0 <= c < 128 ->
  get_next_code_point U8 (c :: s) = Ok (c, s).
Proof.
  intros H. assert (Hs : scalar c) by (unfold scalar; lia).
  assert (Hu : utf8_of c = [c]) by (unfold utf8_of; destruct (c <? 0x80) eqn:E; [reflexivity|lia]).
  assert (G := next_cp_utf8_of c s Hs). rewrite Hu in G. exact G.
Qed.

Lemma steps_while_trans e p a b c :
  steps_while e p a b -> steps_while e p b c -> steps_while e p a c.
Proof. induction 1; [auto|]. intros; econstructor; eauto. Qed.

Lemma steps_while_suffix e p s r : steps_while e p s r -> exists pre, s = pre ++ r.
Proof.
  induction 1 as [s|s cp rest r Hn Hp _ [pre IH]]; [exists []; reflexivity|].
  destruct s as [|c s]; [discriminate|].
  destruct (next_cp_progress e (c :: s)) as (cp' & pre' & rest' & Hn' & _ & Heq); [discriminate|].
  rewrite Hn in Hn'; inversion Hn'; subst. exists (pre' ++ pre).
  rewrite Heq, app_assoc; reflexivity.
Qed.

(** ASCII blocks *)
Lemma find_if_none cu cp_cb sv rest :
  (forall c, 0 <= c < 128 -> cu c = cp_cb c) ->
  bytes sv -> forallb (fun c => c <? 128) sv = true ->
  find_if cu sv = [] -> steps_while U8 (fun cp => negb (cp_cb cp)) (sv ++ rest) rest.
Proof.
  intros Hcb. induction 1 as [|c sv Hc Hsv IH]; cbn [forallb find_if app]; intros Ha Hf.
  - constructor.
  - apply andb_true_iff in Ha; destruct Ha as [Hc' Ha]. unfold is_byte in Hc.
    destruct (cu c) eqn:E; [discriminate|].
    econstructor; [apply next_cp_ascii; lia | rewrite <- Hcb, E by lia; reflexivity |].
    apply IH; assumption.
Qed.

Lemma find_if_some cu cp_cb sv rest f found :
  (forall c, 0 <= c < 128 -> cu c = cp_cb c) ->
  bytes sv -> forallb (fun c => c <? 128) sv = true ->
  find_if cu sv = f :: found ->
  steps_while U8 (fun cp => negb (cp_cb cp)) (sv ++ rest) ((f :: found) ++ rest) /\
  cp_cb f = true /\ 0 <= f < 128 /\ exists pre, sv = pre ++ f :: found.
Proof.
  intros Hcb. induction 1 as [|c sv Hc Hsv IH]; cbn [forallb find_if]; intros Ha Hf;
    [discriminate|].
  apply andb_true_iff in Ha; destruct Ha as [Hc' Ha]. unfold is_byte in Hc.
  destruct (cu c) eqn:E.
  - inversion Hf; subst. split; [constructor|]. rewrite <- Hcb by lia.
    split; [exact E|]. split; [lia|]. exists []; reflexivity.
  - destruct (IH Ha Hf) as (H1 & H2 & H3 & pre & H4).
    split.
    + cbn [app]. econstructor; [apply next_cp_ascii; lia | rewrite <- Hcb, E by lia; reflexivity |].
      exact H1.
    + split; [exact H2|]. split; [exact H3|]. exists (c :: pre); cbn; f_equal; exact H4.
Qed.

(** the inner loop *)
Lemma find_classic_inner_spec cp_cb n : forall fuel i it,
  (n - i <= fuel)%nat -> (n <= i + length it)%nat ->
  (exists r, find_classic_inner fuel cp_cb n i it = Ok (inl r) /\ first_at U8 cp_cb it r) \/
  (exists r, find_classic_inner fuel cp_cb n i it = Ok (inr r) /\
             steps_while U8 (fun cp => negb (cp_cb cp)) it r /\
             ((i < n)%nat -> (length r < length it)%nat) /\ exists pre, it = pre ++ r).
Proof.
  induction fuel as [|fuel IH]; intros i it Hf Hn.
  - cbn [find_classic_inner]. destruct (Nat.ltb_spec i n); [lia|].
    right; exists it; split; [reflexivity|]. split; [constructor|]. split; [lia|].
    exists []; reflexivity.
  - cbn [find_classic_inner]. destruct (Nat.ltb_spec i n) as [Hlt|Hge].
    2:{ right; exists it; split; [reflexivity|]. split; [constructor|]. split; [lia|].
        exists []; reflexivity. }
    destruct it as [|c it]; [cbn [length] in Hn; lia|].
    destruct (next_cp_progress U8 (c :: it)) as (cp & pre & rest & Hnx & Hp & Heq); [discriminate|].
    rewrite Hnx; cbn [bind].
    destruct (cp_cb cp) eqn:Ecp.
    { left; exists (c :: it); split; [reflexivity|]. split; [constructor|].
      right; exists cp, rest; split; assumption. }
    assert (Hlen : length (c :: it) = (length pre + length rest)%nat)
      by (rewrite Heq, app_length; reflexivity).
    assert (0 < length pre)%nat by (destruct pre; [congruence|cbn; lia]).
    destruct (IH (S (i + (length (c :: it) - length rest))) rest) as [(r & H1 & H2)|(r & H1 & H2 & H3 & H4)];
      [lia|lia| |].
    + left; exists r; split; [exact H1|]. destruct H2 as [H2 H2'].
      split; [|exact H2']. econstructor; [exact Hnx | rewrite Ecp; reflexivity | exact H2].
    + right; exists r; split; [exact H1|]. split.
      * econstructor; [exact Hnx | rewrite Ecp; reflexivity | exact H2].
      * destruct H4 as (pre' & H4). split.
        -- intros _. assert (length rest = (length pre' + length r)%nat)
             by (rewrite H4, app_length; reflexivity). lia.
        -- exists (pre ++ pre'). rewrite Heq, H4, app_assoc; reflexivity.
Qed.

Lemma first_at_after e p s s' r :
  steps_while e (fun cp => negb (p cp)) s s' -> first_at e p s' r -> first_at e p s r.
Proof.
  intros H [H1 H2]; split; [|exact H2]. eapply steps_while_trans; eassumption.
Qed.

Lemma find_classic_loop_spec cu cp_cb :
  (forall c, 0 <= c < 128 -> cu c = cp_cb c) ->
  forall fuel it, bytes it -> (length it <= fuel)%nat ->
  exists r, find_classic_loop fuel cu cp_cb it = Ok r /\ first_at U8 cp_cb it r.
Proof.
  intros Hcb. induction fuel as [|fuel IH]; intros it Hb Hf.
  { destruct it; cbn [length] in Hf; [|lia]. exists []; split; [reflexivity|].
    split; [constructor|left; reflexivity]. }
  destruct it as [|c it].
  { exists []; split; [reflexivity|]. split; [constructor|left; reflexivity]. }
  set (s := c :: it) in *.
  change (find_classic_loop (S fuel) cu cp_cb s) with
    (let sv := firstn 8 s in
     nonascii <- has_nonascii_char_64 sv ;;
     if negb nonascii then
       match find_if cu sv with
       | [] => find_classic_loop fuel cu cp_cb (skipn (length sv) s)
       | found => Ok (skipn (length sv - length found) s)
       end
     else
       r <- find_classic_inner (length sv) cp_cb (length sv) 0 s ;;
       match r with
       | inl found => Ok found
       | inr it' => find_classic_loop fuel cu cp_cb it'
       end).
  cbv zeta. set (sv := firstn 8 s).
  assert (Hsv : bytes sv) by (apply bytes_firstn, Hb).
  assert (Hl8 : (length sv <= 8)%nat) by (unfold sv; rewrite firstn_length; lia).
  assert (Hsplit : s = sv ++ skipn 8 s) by (unfold sv; rewrite firstn_skipn; reflexivity).
  assert (Hpos : (1 <= length sv)%nat) by (unfold sv, s; cbn; lia).
  assert (Hle : (length sv <= length s)%nat)
    by (unfold sv; rewrite firstn_length; lia).
  rewrite has_nonascii_char_64_spec by assumption. cbn [bind]. rewrite negb_involutive.
  destruct (forallb (fun c0 => c0 <? 128) sv) eqn:Ea.
  - destruct (find_if cu sv) as [|f found] eqn:Ef.
    + assert (Hskip : skipn (length sv) s = skipn 8 s).
      { rewrite Hsplit at 1. rewrite skipn_len_app. reflexivity. }
      rewrite Hskip.
      destruct (IH (skipn 8 s)) as (r & H1 & H2); [apply bytes_skipn, Hb| |].
      { assert (length s = (length sv + length (skipn 8 s))%nat)
          by (rewrite Hsplit at 1; rewrite app_length; reflexivity). lia. }
      exists r; split; [exact H1|].
      eapply first_at_after; [|exact H2]. rewrite Hsplit at 1.
      apply (find_if_none cu); assumption.
    + destruct (find_if_some cu cp_cb sv (skipn 8 s) f found Hcb Hsv Ea Ef)
        as (H1 & H2 & H3 & pre & H4).
      assert (Hsk : skipn (length sv - length (f :: found)) s = (f :: found) ++ skipn 8 s).
      { rewrite Hsplit at 1. rewrite H4, app_length, Nat.add_sub, <- app_assoc.
        apply skipn_len_app. }
      rewrite Hsk. eexists; split; [reflexivity|]. split.
      * rewrite Hsplit at 1. exact H1.
      * right. exists f, (found ++ skipn 8 s). split; [|exact H2].
        cbn [app]. apply next_cp_ascii; lia.
  - destruct (find_classic_inner_spec cp_cb (length sv) (length sv) 0 s)
      as [(r & H1 & H2)|(r & H1 & H2 & H3 & pre & H4)]; [lia|lia| |].
    + rewrite H1; cbn [bind]. exists r; split; [reflexivity|exact H2].
    + rewrite H1; cbn [bind].
      destruct (IH r) as (r' & G1 & G2).
      * rewrite H4 in Hb. apply bytes_app in Hb. tauto.
      * lia.
      * exists r'; split; [exact G1|]. eapply first_at_after; eassumption.
Qed.

Lemma find_classic_space_spec s : bytes s ->
  exists r, find_classic_space_narrow_fast s = Ok r /\ first_at U8 is_cp_space s r.
Proof.
  intros Hb. apply find_classic_loop_spec; [apply ascii_space_cp | exact Hb | lia].
Qed.

Lemma find_classic_nonspace_spec s : bytes s ->
  exists r, find_classic_nonspace_narrow_fast s = Ok r /\
            first_at U8 (fun cp => negb (is_cp_space cp)) s r.
Proof.
  intros Hb. apply find_classic_loop_spec; [|exact Hb | lia].
  intros c Hc; rewrite ascii_space_cp by exact Hc; reflexivity.
Qed.

(** the spec determines the result *)
Lemma first_at_unique e p s r1 r2 : first_at e p s r1 -> first_at e p s r2 -> r1 = r2.
Proof.
  intros [H1 E1] [H2 E2]. revert r2 H2 E2.
  induction H1 as [s|s cp rest r Hn Hp H1 IH]; intros r2 H2 E2.
  - destruct H2 as [s|s cp rest r Hn Hp H2]; [reflexivity|].
    exfalso. destruct E1 as [->|(cp' & rest' & Hn' & Hp')]; [discriminate|].
    rewrite Hn in Hn'; inversion Hn'; subst. rewrite Hp' in Hp; discriminate.
  - destruct H2 as [s|s cp' rest' r2 Hn' Hp' H2].
    + exfalso. destruct E2 as [->|(cp' & rest' & Hn' & Hp')]; [discriminate|].
      rewrite Hn in Hn'; inversion Hn'; subst. rewrite Hp' in Hp; discriminate.
    + rewrite Hn in Hn'; inversion Hn'; subst. apply IH; assumption.
Qed.

Lemma first_at_utf8 p cps : Forall scalar cps ->
  first_at U8 p (utf8 cps) (utf8 (drop_until p cps)).
Proof.
  induction 1 as [|cp cps H Hs IH]; cbn [drop_until].
  - split; [constructor|left; reflexivity].
  - destruct (p cp) eqn:E.
    + split; [constructor|]. right. exists cp, (utf8 cps). split; [|exact E].
      cbn [utf8 flat_map]. apply next_cp_utf8_of, H.
    + destruct IH as [IH1 IH2]. split; [|exact IH2].
      econstructor; [cbn [utf8 flat_map]; apply next_cp_utf8_of, H | rewrite E; reflexivity | exact IH1].
Qed.

Lemma bytes_utf8 cps : Forall scalar cps -> bytes (utf8 cps).
Proof. apply utf8_bytes. Qed.

Lemma find_classic_space_utf8 cps : Forall scalar cps ->
  find_classic_space_narrow_fast (utf8 cps) = Ok (utf8 (drop_until is_cp_space cps)).
Proof.
  intros H. destruct (find_classic_space_spec (utf8 cps) (utf8_bytes _ H)) as (r & -> & Hr).
  f_equal. eapply first_at_unique; [exact Hr | apply first_at_utf8, H].
Qed.

Lemma find_classic_nonspace_utf8 cps : Forall scalar cps ->
  find_classic_nonspace_narrow_fast (utf8 cps) =
  Ok (utf8 (drop_until (fun cp => negb (is_cp_space cp)) cps)).
Proof.
  intros H. destruct (find_classic_nonspace_spec (utf8 cps) (utf8_bytes _ H)) as (r & -> & Hr).
  f_equal. eapply first_at_unique; [exact Hr | apply first_at_utf8, H].
Qed.

Lemma find_nondecimal_spec s : bytes s -> exists ds,
  s = ds ++ find_nondecimal_digit_narrow_fast s /\
  Forall (fun c => 0x30 <= c <= 0x39) ds /\
  (forall c rest, find_nondecimal_digit_narrow_fast s = c :: rest -> ~ 0x30 <= c <= 0x39).
Proof.
  unfold find_nondecimal_digit_narrow_fast.
  induction 1 as [|c s Hc _ (ds & IH1 & IH2 & IH3)]; cbn [find_if].
  - exists []; repeat split; [constructor|discriminate].
  - rewrite is_decimal_digit_spec by exact Hc.
    destruct ((0x30 <=? c) && (c <=? 0x39)) eqn:E; cbn [negb].
    + exists (c :: ds). split; [cbn; f_equal; exact IH1|]. split; [constructor; [lia|exact IH2]|exact IH3].
    + exists []; repeat split; [constructor|]. intros c' rest Heq; inversion Heq; subst; lia.
Qed.
