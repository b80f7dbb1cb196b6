(** How far a scan reads ahead. *)
From Verif Require Import Prelude UnicodeModel UnicodeSpec UnicodeProofs WhitespaceModel
  WhitespaceSpec WhitespaceProofs ReadModel ReadProofs SpecsModel FormatModel Tables IntModel
  IntSpec IntProofs ArgReaderModel ArgReaderProofs ScalarModel StringModel StringProofs
  StringSafeProofs VscanSpec VscanSpecProofs BufferModel BufferSpec BufferProofs SegmentModel
  SegmentSpec SegmentProofs SegmentRunProofs.
Local Open Scope Z_scope.

(** Not a buffer on another buffer *)
Definition direct (b : buffer) : Prop := match source b with Ref _ _ _ => False | _ => True end.
Definition held (b : buffer) : nat := length (putback b).
(** What iterator operations leave as it is *)
Definition frame (b b' : buffer) : Prop :=
  match source b, source b' with
  | Forward _, Forward _ => True
  | File f, File f' => room f' = room f /\
      (area f <> None -> area f' <> None) /\
      (chars_available b = O -> area f' <> None \/ chars_available b' = O)
  | Getc f, Getc f' => groom f' = groom f
  | _, _ => False
  end.
Lemma frame_direct b b' : frame b b' -> direct b'.
Proof. unfold frame, direct. destruct (source b), (source b'); tauto. Qed.
Lemma frame_refl b : direct b -> frame b b.
Proof. unfold frame, direct. destruct (source b); tauto. Qed.
Lemma frame_trans a b c : frame a b -> frame b c -> frame a c.
Proof.
  unfold frame. destruct (source a), (source b), (source c); try tauto; [|congruence].
  intros (H1 & H2 & H3) (H4 & H5 & H6). split; [congruence|]. split; [auto|]. intros H. destruct (H3 H); auto.
Qed.
(** No position beyond [m] was asked for between [b] and [b']: at most [m] characters went
    into the put-back storage. *)
Definition within (m : nat) (b b' : buffer) : Prop :=
  direct b -> frame b b' /\ (held b' <= Nat.max (held b) m)%nat.
Lemma within_refl m b : within m b b.
Proof. intros H. split; [apply frame_refl, H|lia]. Qed.
Lemma within_trans m b1 b2 b3 : within m b1 b2 -> within m b2 b3 -> within m b1 b3.
Proof.
  intros H1 H2 H. destruct (H1 H) as [D1 L1]. destruct (H2 (frame_direct _ _ D1)) as [D2 L2].
  split; [eapply frame_trans; eassumption|lia].
Qed.
Lemma within_le m n b b' : within m b b' -> (m <= n)%nat -> within n b b'.
Proof. intros H L Hd. destruct (H Hd). split; [assumption|lia]. Qed.

Lemma fill_held b ok b' : direct b -> fill b = Ok (ok, b') -> frame b b' /\ (held b' <= chars_available b)%nat.
Proof.
  unfold direct, held, frame, chars_available. destruct b as [p v [[|c rest]|f|f|? ? ?]]; cbn [source fill putback view]; intros Hd E;
    try contradiction.
  - injection E as <- <-. cbn. split; [exact I|lia].
  - injection E as <- <-. cbn. rewrite app_length. split; [exact I|lia].
  - destruct (match v with [] => Ok f | _ => unsafe_advance_n (length v) f end) as [f1| | |] eqn:E1; [|discriminate..].
    cbn [bind] in E. injection E as <- <-. cbn [source putback view]. rewrite app_length. split; [|lia].
    assert (HR : room f1 = room f).
    { destruct v; [congruence|]. unfold unsafe_advance_n in E1. destruct (area f); [|discriminate].
      destruct (_ <? _)%nat; [discriminate|]. injection E1 as <-. reflexivity. }
    destruct (get_area f1) eqn:EG.
    + unfold fill_buffer. destruct (reads f1); cbn [room area]; (split; [exact HR|]); split; intros _; [|left| |left]; discriminate.
    + split; [exact HR|]. assert (area f1 <> None) by (unfold get_area in EG; destruct (area f1); discriminate). auto.
  - unfold read_one in E. destruct (chars f) as [|[c|] cs]; injection E as <- <-; cbn; rewrite app_length; (split; [reflexivity|lia]).
Qed.
Lemma loop_within : forall fuel p b ok b', read_at_loop fuel p b = Ok (ok, b') -> within p b b'.
Proof.
  induction fuel as [|f IH]; intros p b ok b' E Hd; cbn [read_at_loop] in E;
    (destruct (Nat.ltb_spec p (chars_available b)) as [Q|Q]; [injection E as <- <-; split; [apply frame_refl, Hd|lia]|]); [discriminate|].
  destruct (fill b) as [[ok1 b1]| | |] eqn:EF; cbn [bind] in E; try discriminate.
  destruct (fill_held b ok1 b1 Hd EF) as [D1 L1]. destruct ok1.
  - destruct (IH p b1 ok b' E (frame_direct _ _ D1)) as [D2 L2]. split; [eapply frame_trans; eassumption|lia].
  - injection E as <- <-. split; [exact D1|lia].
Qed.
Lemma read_within p b ok b' : read_at_position p b = Ok (ok, b') -> within p b b'.
Proof. apply loop_within. Qed.

(** A step of an evaluation, in a hypothesis *)
Ltac step H x b E := match type of H with
  | bind ?m _ = _ => destruct m as [[x b]| | |] eqn:E; cbn [bind] in H; try discriminate H
  end.
Ltac step3 H x y b E := match type of H with
  | bind ?m _ = _ => destruct m as [[[x y] b]| | |] eqn:E; cbn [bind] in H; try discriminate H
  end.

Lemma end_within p b e b' : it_end p b = Ok (e, b') -> within p b b'.
Proof. unfold it_end. intros H. step H ok b1 E. injection H as <- <-. eapply read_within; eauto. Qed.
Lemma deref_within p b c b' : it_deref p b = Ok (c, b') -> within p b b'.
Proof.
  unfold it_deref. intros H. step H ok b1 E. destruct ok; [|discriminate].
  destruct (get_character_at p b1); cbn [bind] in H; try discriminate. injection H as <- <-. eapply read_within; eauto.
Qed.
Lemma next_within p b q b' : it_next p b = Ok (q, b') -> q = S p /\ within (S p) b b'.
Proof. unfold it_next. intros H. step H ok b1 E. injection H as <- <-. split; [reflexivity|]. eapply read_within; eauto. Qed.
Lemma next_n_within : forall n p b q b', next_n n p b = Ok (q, b') -> q = (p + n)%nat /\ within (p + n) b b'.
Proof.
  induction n as [|n IH]; intros p b q b' H; cbn [next_n] in H.
  - injection H as <- <-. split; [lia|apply within_refl].
  - step H p1 b1 E. destruct (next_within _ _ _ _ E) as [-> W]. destruct (IH _ _ _ _ H) as [-> W2].
    split; [lia|]. eapply within_trans; [eapply within_le; [exact W|lia]|eapply within_le; [exact W2|lia]].
Qed.
Lemma copy_within : forall n p b l b', copy n p b = Ok (l, b') -> within (p + n) b b'.
Proof.
  induction n as [|n IH]; intros p b l b' H; cbn [copy] in H.
  - injection H as <- <-. apply within_refl.
  - step H c b1 E. step H p1 b2 E2. step H l1 b3 E3. injection H as <- <-.
    destruct (next_within _ _ _ _ E2) as [-> W2].
    eapply within_trans; [eapply within_le; [eapply deref_within; exact E|lia]|].
    eapply within_trans; [eapply within_le; [exact W2|lia]|]. eapply within_le; [eapply IH; exact E3|lia].
Qed.
Lemma contiguous_within p q b l b' : contiguous p q b = Ok (l, b') -> (p <= q)%nat -> within q b b'.
Proof.
  unfold contiguous. intros H L.
  destruct (get_segment_starting_at p b); cbn [bind] in H; try discriminate.
  destruct (get_segment_starting_at q b); cbn [bind] in H; try discriminate.
  destruct (Bool.eqb _ _); [injection H as <- <-; apply within_refl|].
  apply copy_within in H. eapply within_le; [exact H|lia].
Qed.
Lemma while_unit_within pred : forall fuel p b q b', while_unit fuel pred p b = Ok (q, b') -> (p <= q)%nat /\ within q b b'.
Proof.
  induction fuel as [|f IH]; intros p b q b' H; cbn [while_unit] in H; [discriminate|].
  step H e b1 E. apply end_within in E. destruct e; [injection H as <- <-; split; [lia|exact E]|].
  step H c b2 E2. apply deref_within in E2. destruct (pred c).
  - step H p3 b3 E3. destruct (next_within _ _ _ _ E3) as [-> W]. destruct (IH _ _ _ _ H) as [L W2]. split; [lia|].
    repeat (eapply within_trans; [eapply within_le; [eassumption|lia]|]). apply within_refl.
  - injection H as <- <-. split; [lia|]. eapply within_trans; eauto.
Qed.

(** Code points of ASCII text: the character behind the one found has been asked for. *)
Lemma code_point_within D fuel p b x b' : ascii D -> fine D p b -> (p < length D)%nat ->
  code_point_into fuel p b = Ok (x, b') -> within (S p) b b'.
Proof.
  intros HA F L H. unfold code_point_into in H. step H e b1 E.
  destruct (end_ok D p p b F) as (b1' & E1 & F1 & _). rewrite E in E1. injection E1 as -> <-.
  apply end_within in E. destruct (_ <=? _)%nat; [discriminate|].
  destruct (deref_ok D p p b1 F1 L) as (b2 & E2 & F2 & _). rewrite E2 in H. apply deref_within in E2. cbn [bind] in H.
  rewrite ascii_len in H by (apply ascii_nth; assumption).
  step H q b3 E3. destruct (next_within _ _ _ _ E3) as [-> W]. step H c b4 E4. apply deref_within in E4. injection H as _ <-.
  repeat (eapply within_trans; [eapply within_le; [eassumption|lia]|]). apply within_refl.
Qed.
Lemma until_within D pred : ascii D -> forall fuel p b q b', fine D p b ->
  until_code_point fuel pred p b = Ok (q, b') -> (p <= q)%nat /\ within (S q) b b'.
Proof.
  intros HA. induction fuel as [|f IH]; intros p b q b' F H; cbn [until_code_point] in H; [discriminate|].
  destruct (end_ok D p p b F) as (b1 & E1 & F1 & _). rewrite E1 in H. apply end_within in E1. cbn [bind] in H.
  destruct (Nat.leb_spec (length D) p) as [Q|Q].
  { injection H as <- <-. split; [lia|]. eapply within_le; [exact E1|lia]. }
  destruct (code_point_ascii D f p p b1 HA F1 Q) as (b2 & E2 & F2 & _ & P2 & _). rewrite E2 in H.
  apply (code_point_within D f p b1 _ b2 HA F1 Q) in E2. cbn [bind] in H.
  rewrite ascii_decode in H by (apply ascii_nth; assumption). cbn [bind] in H.
  destruct (pred (nth p D 0)).
  - injection H as <- <-. split; [lia|]. eapply within_trans; [eapply within_le; [exact E1|lia]|exact E2].
  - destruct (IH _ _ _ _ P2 H) as [L W]. split; [lia|].
    repeat (eapply within_trans; [eapply within_le; [eassumption|lia]|]). apply within_refl.
Qed.
Lemma while_space_within D fuel p b q b' : ascii D -> fine D p b -> (length D < fuel)%nat ->
  while_classic_space fuel p b = Ok (q, b') -> (p <= q)%nat /\ within (S q) b b'.
Proof.
  intros HA F HF H. assert (FL := fine_len D p b F).
  destruct (while_space_ok D fuel p b HA F HF) as (b2 & E2 & F2 & _).
  rewrite E2 in H. injection H as <- <-. set (q := pos D (skip_ws (skipn p D))) in *.
  destruct (pos_skip D p FL) as [_ LP]. fold q in LP. split; [lia|].
  unfold while_classic_space in E2.
  destruct (seg_ok D p b F) as (seg & t & ES & HS). rewrite ES in E2. cbn [bind] in E2.
  assert (HB := ascii_skipn p D HA). rewrite HS in HB. apply ascii_app in HB.
  rewrite nonspace_ascii in E2 by apply HB. cbn [bind] in E2.
  assert (HLen : (length seg + length t = length D - p)%nat).
  { rewrite <- app_length, <- HS. apply skipn_length. }
  destruct (skip_ws seg) as [|c f] eqn:EW.
  - destruct (next_n_ok D (length seg) p p b F ltac:(lia)) as (b1 & E1 & F1 & _). rewrite E1 in E2. cbn [bind] in E2.
    apply next_n_within in E1. destruct E1 as [_ W1]. apply (until_within D) in E2; [|exact HA|exact F1].
    assert (HT := skip_ws_len t).
    assert (LQ : (p + length seg <= q)%nat).
    { unfold q, pos. rewrite HS, skip_ws_app_nil by exact EW. lia. }
    eapply within_trans; [eapply within_le; [exact W1|lia]|apply E2].
  - apply next_n_within in E2. destruct E2 as [E2 W]. eapply within_le; [exact W|lia].
Qed.

Lemma skip_space_within D fuel p b q b' : ascii D -> fine D p b -> (length D < fuel)%nat ->
  skip_space fuel p b = Ok (q, b') -> (p <= q)%nat /\ within (S q) b b' /\ fine D q b' /\ (q < length D)%nat /\ skip_ws (skipn p D) = skipn q D.
Proof.
  intros HA F HF H. unfold skip_space in H. assert (FL := fine_len D p b F).
  destruct (while_space_ok D fuel p b HA F HF) as (b1 & E1 & F1 & _). rewrite E1 in H. cbn [bind] in H.
  destruct (while_space_within D fuel p b _ b1 HA F HF E1) as [L W].
  destruct (pos_skip D p FL) as [EP _].
  set (q1 := pos D (skip_ws (skipn p D))) in *.
  destruct (end_ok D q1 q1 b1 F1) as (b2 & E2 & F2 & _). rewrite E2 in H. cbn [bind] in H. apply end_within in E2.
  destruct (Nat.leb_spec (length D) q1) as [Q|Q]; [discriminate|]. injection H as <- <-.
  split; [exact L|]. split; [eapply within_trans; [exact W|eapply within_le; [exact E2|lia]]|]. auto.
Qed.

(** The readers.  [ahead k]: how many characters behind the value may have been asked for. *)
Definition ahead (k : kind) : nat := match k with FWord => 1 | _ => 0 end.
Lemma sign_within p b q sg b' : numeric_sign p b = Ok (q, sg, b') -> (p <= q <= S p)%nat /\ within (S p) b b'.
Proof.
  unfold numeric_sign. intros H. step H e b1 E. apply end_within in E. destruct e; [discriminate|].
  step H q1 b2 E2. apply next_within in E2. destruct E2 as [-> E2]. step H c b3 E3. apply deref_within in E3.
  assert (W : within (S p) b b3).
  { repeat (eapply within_trans; [eapply within_le; [eassumption|lia]|]). apply within_refl. }
  destruct (c =? 43); [|destruct (c =? 45)]; injection H as <- _ <-; (split; [lia|exact W]).
Qed.
Lemma int_within D fuel t p b v q b' : ascii D -> fine D p b -> (length D < fuel)%nat ->
  read_int fuel t p b = Ok (v, q, b') -> (p < q)%nat /\ within q b b'.
Proof.
  intros HB F HF H. unfold read_int in H.
  assert (SG := sign_ok D p b F). step3 H p1 sg b1 E1.
  assert (F1 : fine D p1 b1).
  { destruct (parse_numeric_sign (skipn p D)) as [[text sg']| | |]; try contradiction.
    - destruct SG as (p1' & b1' & E & _ & F1 & _). injection E as -> -> ->. exact F1.
    - discriminate. }
  clear SG. apply sign_within in E1. destruct E1 as [L1 W1].
  destruct (end_ok D p1 p1 b1 F1) as (b2 & E2 & F2 & _). rewrite E2 in H. apply end_within in E2. cbn [bind] in H.
  step H y b3 E3.
  assert (X : within p1 b2 b3 /\ fine D p1 b3).
  { destruct (Nat.leb_spec (length D) p1) as [Q|Q].
    - injection E3 as _ <-. split; [apply within_refl|exact F2].
    - destruct (deref_ok D p1 p1 b2 F2 Q) as (b3' & E3' & F3 & _). assert (E4 := E3). rewrite E3' in E4. injection E4 as _ <-.
      split; [eapply deref_within; eauto|exact F3]. }
  destruct X as [W3 F3]. destruct (negb (it_signed t) && _); [discriminate|].
  destruct (while_unit_ok D dec fuel p1 b3 F3 ltac:(lia)) as (b4 & E4 & F4 & _).
  change (fun c : Z => char_to_int c <? 10) with dec in H. rewrite E4 in H. cbn [bind] in H.
  apply while_unit_within in E4. destruct E4 as [L4 W4].
  assert (FL := fine_len D p1 b3 F3).
  destruct (find_if_skip (fun c => negb (dec c)) (skipn p1 D)) as (n & En & Ln).
  assert (HDig := find_if_digits (skipn p1 D)).
  set (after := find_if (fun c => negb (dec c)) (skipn p1 D)) in *. rewrite skipn_length in Ln, HDig.
  assert (HP : pos D after = (p1 + n)%nat) by (unfold pos; lia). rewrite HP in *.
  replace (length D - p1 - length after)%nat with n in HDig by lia.
  destruct (Nat.eqb_spec (p1 + n) p1) as [Q|Q]; [discriminate|].
  destruct (contiguous_ok D p1 (p1 + n) b4 F4 ltac:(lia)) as (b5 & E5 & F5 & _). rewrite E5 in H. cbn [bind] in H.
  apply contiguous_within in E5; [|lia]. replace (p1 + n - p1)%nat with n in H by lia.
  set (buf := firstn n (skipn p1 D)) in *. step H x rest E6. step H q6 b6 E7.
  apply piv_suffix in E6; [|exact HDig|]. 2:{ apply ascii_bytes, ascii_firstn, ascii_skipn, HB. }
  subst rest. cbn [length] in E7. rewrite Nat.sub_0_r in E7.
  assert (LB : length buf = n) by (unfold buf; rewrite firstn_length, skipn_length; lia).
  apply next_n_within in E7. destruct E7 as [-> W7]. injection H as _ <- <-. rewrite LB in *. split; [lia|].
  repeat (eapply within_trans; [eapply within_le; [eassumption|lia]|]). apply within_refl.
Qed.

Lemma until_classic_within D fuel p b q b' : ascii D -> fine D p b -> (length D < fuel)%nat ->
  until_classic_space fuel p b = Ok (q, b') -> q = pos D (find_if is_ws (skipn p D)) /\ (p <= q)%nat /\ within (S q) b b'.
Proof.
  intros HA F HF H. assert (FL := fine_len D p b F). destruct (pos_find D is_ws p FL) as [_ LP].
  destruct (until_classic_ok D fuel p b HA F HF) as (b2 & E2 & F2 & _).
  assert (E3 := E2). rewrite H in E3. injection E3 as -> <-. rename E2 into E2'. clear E2'.
  split; [reflexivity|]. split; [lia|]. set (q := pos D (find_if is_ws (skipn p D))) in *.
  unfold until_classic_space in H.
  destruct (seg_ok D p b F) as (seg & t & ES & HS). rewrite ES in H. cbn [bind] in H.
  assert (HB := ascii_skipn p D HA). rewrite HS in HB. apply ascii_app in HB.
  rewrite space_ascii in H by apply HB. cbn [bind] in H.
  assert (HLen : (length seg + length t = length D - p)%nat).
  { rewrite <- app_length, <- HS. apply skipn_length. }
  destruct (find_if is_ws seg) as [|c f] eqn:EW.
  - destruct (next_n_ok D (length seg) p p b F ltac:(lia)) as (b1 & E1 & F1 & _ & P1 & _). rewrite E1 in H. cbn [bind] in H.
    apply next_n_within in E1. destruct E1 as [_ W1]. apply (until_within D) in H; [|exact HA|exact (P1 F)].
    eapply within_trans; [eapply within_le; [exact W1|lia]|apply H].
  - apply next_n_within in H. destruct H as [H W]. eapply within_le; [exact W|lia].
Qed.
Lemma word_within D fuel p b v q b' : ascii D -> fine D p b -> (length D < fuel)%nat -> (p < length D)%nat ->
  is_ws (nth p D 0) = false ->
  read_word fuel p b = Ok (v, q, b') -> (p < q)%nat /\ within (S q) b b'.
Proof.
  intros HA F HF HL HN H. unfold read_word in H. step H q1 b1 E1.
  destruct (until_classic_within D fuel p b q1 b1 HA F HF E1) as (-> & L1 & W1).
  assert (LS : (p < pos D (find_if is_ws (skipn p D)))%nat).
  { rewrite (nth_skipn_cons D p HL). cbn [find_if]. rewrite HN. unfold pos.
    destruct (find_if_skip is_ws (skipn (S p) D)) as (n & _ & Ln). rewrite skipn_length in Ln. lia. }
  step H buf b2 E2. apply contiguous_within in E2; [|lia].
  destruct (validate_unicode U8 buf) as [[|]| | |]; cbn [bind] in H; try discriminate. injection H as _ <- <-.
  split; [exact LS|]. eapply within_trans; [exact W1|eapply within_le; [exact E2|lia]].
Qed.
Lemma unit_within ch p b o b' : matching_unit ch p b = Ok (o, b') ->
  within (S p) b b' /\ match o with Some q => q = S p | None => True end.
Proof.
  unfold matching_unit. intros H. step H e b1 E. apply end_within in E.
  destruct e. { injection H as <- <-. split; [eapply within_le; [exact E|lia]|exact I]. }
  step H q1 b2 E2. apply next_within in E2. destruct E2 as [-> E2]. step H c b3 E3. apply deref_within in E3.
  injection H as <- <-. split; [|destruct (c =? ch); auto].
  repeat (eapply within_trans; [eapply within_le; [eassumption|lia]|]). apply within_refl.
Qed.
Lemma exactly_within : forall n p b o b', exactly_loop n p b = Ok (o, b') ->
  within (p + n) b b' /\ match o with Some q => q = (p + n)%nat | None => True end.
Proof.
  induction n as [|n IH]; intros p b o b' H; cbn [exactly_loop] in H.
  { injection H as <- <-. split; [apply within_refl|lia]. }
  step H e b1 E. apply end_within in E. destruct e; [injection H as <- <-; split; [eapply within_le; [exact E|lia]|exact I]|].
  step H q1 b2 E2. apply next_within in E2. destruct E2 as [-> E2]. destruct (IH _ _ _ _ H) as [W Ho].
  split; [|destruct o; [lia|exact I]].
  repeat (eapply within_trans; [eapply within_le; [eassumption|lia]|]). apply within_refl.
Qed.
Lemma string_within str p b o b' : matching_string str p b = Ok (o, b') ->
  within (p + length str) b b' /\ match o with Some q => q = (p + length str)%nat | None => True end.
Proof.
  unfold matching_string. intros H. step H o1 b1 E.
  assert (X : within (p + length str) b b1 /\ match o1 with Some q => q = (p + length str)%nat | None => True end).
  { unfold exactly_n in E. destruct (_ <=? _)%nat; [|apply exactly_within, E].
    step E q1 b2 E2. injection E as <- <-. apply next_n_within in E2. destruct E2. auto. }
  destruct X as [W X]. destruct o1 as [q|]; [|injection H as <- <-; auto]. subst q.
  step H l b2 E2. apply contiguous_within in E2; [|lia]. injection H as <- <-.
  split; [eapply within_trans; eauto|]. destruct (list_eqb _ _); auto.
Qed.
Lemma bool_within p b v q b' : read_bool p b = Ok (v, q, b') -> (p < q)%nat /\ within q b b'.
Proof.
  unfold read_bool. cbn [first_of]. intros H.
  step H o1 b1 E1. apply unit_within in E1. destruct E1 as [W1 X1].
  destruct o1; [injection H as <- <- <-; subst; split; [lia|assumption]|].
  step H o2 b2 E2. apply unit_within in E2. destruct E2 as [W2 X2].
  destruct o2; [injection H as <- <- <-; subst; split; [lia|eapply within_trans; eassumption]|].
  step H o3 b3 E3. apply string_within in E3. cbn [length] in E3. destruct E3 as [W3 X3].
  destruct o3.
  { injection H as <- <- <-. subst. split; [lia|].
    repeat (eapply within_trans; [eapply within_le; [eassumption|lia]|]). apply within_refl. }
  step H o4 b4 E4. apply string_within in E4. cbn [length] in E4. destruct E4 as [W4 X4].
  destruct o4; [|discriminate]. injection H as <- <- <-. subst. split; [lia|].
  repeat (eapply within_trans; [eapply within_le; [eassumption|lia]|]). apply within_refl.
Qed.
Lemma char_within p b v q b' : read_char p b = Ok (v, q, b') -> (p < q)%nat /\ within q b b'.
Proof.
  unfold read_char. intros H. step H e b1 E. apply end_within in E. destruct e; [discriminate|].
  step H q1 b2 E2. apply next_within in E2. destruct E2 as [-> E2]. step H c b3 E3. apply deref_within in E3.
  injection H as _ <- <-. split; [lia|].
  repeat (eapply within_trans; [eapply within_le; [eassumption|lia]|]). apply within_refl.
Qed.
Lemma char32_within D fuel p b v q b' : ascii D -> fine D p b -> (p < length D)%nat ->
  read_char32 fuel p b = Ok (v, q, b') -> (p < q)%nat /\ within q b b'.
Proof.
  intros HA F HL H. unfold read_char32 in H.
  destruct (code_point_ascii D fuel p p b HA F HL) as (b1 & E1 & _). rewrite E1 in H.
  apply (code_point_within D fuel p b _ b1 HA F HL) in E1. cbn [bind] in H.
  destruct (decode_cp_valid U8 _); cbn [bind] in H; try discriminate. injection H as _ <- <-. split; [lia|exact E1].
Qed.
Lemma buffer_within D fuel k p b v q b' : ascii D -> fine D p b -> (length D < fuel)%nat -> (p < length D)%nat ->
  (skips k = true -> is_ws (nth p D 0) = false) ->
  from_buffer fuel k p b = Ok (v, q, b') -> (p < q)%nat /\ within (q + ahead k) b b'.
Proof.
  intros HA F HF HL HN H.
  assert (R : forall A (g : A -> scanned) m, with_result3 g m = Ok (v, q, b') -> exists x, m = Ok (x, q, b')).
  { intros A g m E. destruct m as [[[x q'] b2]| | |]; try discriminate. injection E as _ <- <-. eauto. }
  destruct k as [t| | | |]; cbn [from_buffer ahead] in H |- *; apply R in H; destruct H as [x H]; rewrite ?Nat.add_0_r.
  - eapply int_within; eauto.
  - rewrite Nat.add_1_r. eapply word_within; eauto.
  - eapply bool_within; eauto.
  - eapply char_within; eauto.
  - eapply char32_within; eauto.
Qed.

(** A field, whichever way it is read *)
Lemma field_within D fuel k p b v q b' : ascii D -> fine D p b -> (length D < fuel)%nat ->
  read_field fuel k p b = Ok (v, q, b') -> (p <= q)%nat /\ fine D q b' /\ within (q + ahead k) b b' /\
    (is_segment_contiguous p b = Ok false -> (p < q)%nat).
Proof.
  intros HA F HF H. assert (FL := fine_len D p b F). unfold read_field in H.
  destruct (fine_contiguous D p b F) as [c Ec]. rewrite Ec in H. cbn [bind] in H. destruct c.
  - destruct (seg_ok D p b F) as (seg & t & ES & HS). rewrite ES in H. cbn [bind] in H. step H v1 rest E.
    assert (HLen : (length seg + length t = length D - p)%nat).
    { rewrite <- app_length, <- HS. apply skipn_length. }
    destruct (next_n_ok D (length seg - length rest) p p b F) as (b1 & E1 & F1 & L1 & P1 & _); [lia|].
    rewrite E1 in H. cbn [bind] in H. injection H as _ <- <-. apply next_n_within in E1. destruct E1 as [_ W].
    split; [lia|]. split; [apply P1, F|]. split; [eapply within_le; [exact W|lia]|rewrite Ec; discriminate].
  - assert (G := generic_field D fuel k p b HA F HF). rewrite H in G.
    destruct (from_string k (skipn p D)) as [[v' rest]| | |]; try discriminate G.
    destruct G as (q' & b2 & E & _ & Fq & _). injection E as -> -> ->.
    destruct (end_ok D p p b F) as (b0 & E0 & F0 & _). rewrite E0 in H. apply end_within in E0. cbn [bind] in H.
    destruct (Nat.leb_spec (length D) p) as [Q|Q]; [discriminate|].
    destruct (skips k) eqn:EK.
    + step H p1 b1 E1. apply (skip_space_within D) in E1; [|assumption..]. destruct E1 as (L1 & W1 & F1 & Q1 & ES).
      apply (buffer_within D) in H; trivial.
      * destruct H as [L2 W2]. split; [lia|]. split; [exact Fq|]. split; [|lia].
        repeat (eapply within_trans; [eapply within_le; [eassumption|lia]|]). apply within_refl.
      * intros _. assert (SH := skip_ws_head (skipn p D)). rewrite ES, (nth_skipn_cons D p1 Q1) in SH. exact SH.
    + cbn [bind] in H. apply (buffer_within D) in H; trivial; [|congruence]. destruct H as [L2 W2]. split; [lia|]. split; [exact Fq|]. split; [|lia].
      eapply within_trans; [eapply within_le; [exact E0|lia]|exact W2].
Qed.

(** Literal text *)
Definition behind (l : list Z) : nat := if existsb is_ws l then 1 else 0.
Lemma literal_within D : ascii D -> forall fuel l p b q b', ascii l -> fine D p b -> (length D + length l < fuel)%nat ->
  literal_text fuel l p b = Ok (q, b') -> (p <= q)%nat /\ fine D q b' /\ within (q + behind l) b b'.
Proof.
  intros HA. induction fuel as [|f IH]; intros l p b q b' Hl F HF H; [lia|].
  destruct l as [|c l]; cbn [literal_text] in H.
  { injection H as <- <-. split; [lia|]. split; [exact F|apply within_refl]. }
  inversion Hl as [|? ? Hc Hl']; subst. cbn [length] in HF.
  destruct (end_ok D p p b F) as (b1 & E1 & F1 & _). rewrite E1 in H. apply end_within in E1. cbn [bind] in H.
  destruct (Nat.leb_spec (length D) p) as [Q|Q]; [discriminate|].
  destruct (first_char_lit U8 c l ltac:(discriminate) Hc) as [EF EI]. rewrite EF in H. cbn [bind] in H.
  rewrite EI, <- is_ws_cp in H. unfold behind. cbn [existsb]. destruct (is_ws c) eqn:EW; cbn [orb].
  - destruct (while_space_ok D (S f) p b1 HA F1 ltac:(lia)) as (b2 & E2 & F2 & _). rewrite E2 in H. cbn [bind] in H.
    apply (while_space_within D) in E2; [|assumption|assumption|lia]. destruct E2 as [L2 W2].
    rewrite (read_while_drop string_src l (or_intror (conj eq_refl eq_refl)) (ascii_bytes l Hl')) in H.
    cbn [bind s_enc string_src] in H. rewrite (skip_ws_drop l Hl') in H. assert (HS := skip_ws_len l).
    destruct (IH (skip_ws l) _ b2 q b' ltac:(destruct (skip_ws_suffix l) as (n & -> & _); apply ascii_skipn, Hl') F2 ltac:(lia) H) as (L3 & F3 & W3).
    split; [lia|]. split; [exact F3|].
    assert (HB : (behind (skip_ws l) <= 1)%nat) by (unfold behind; destruct (existsb _ _); lia).
    repeat (eapply within_trans; [eapply within_le; [eassumption|lia]|]). apply within_refl.
  - destruct (deref_ok D p p b1 F1 Q) as (b2 & E2 & F2 & _). rewrite E2 in H. apply deref_within in E2. cbn [bind] in H.
    destruct (nth p D 0 =? c); cbn [negb] in H; [|discriminate].
    destruct (next_ok D p p b2 F2 Q) as (b3 & E3 & _ & F3 & _). rewrite E3 in H. apply next_within in E3. destruct E3 as [_ E3]. cbn [bind] in H.
    destruct (IH l (S p) b3 q b' Hl' F3 ltac:(lia) H) as (L4 & F4 & W4). fold (behind l).
    split; [lia|]. split; [exact F4|].
    repeat (eapply within_trans; [eapply within_le; [eassumption|lia]|]). apply within_refl.
Qed.

(** A whole scan *)
Definition look (p : piece) : nat := match p with Text l => behind l | Braces k => ahead k end.
Definition fits (fuel : nat) (D : list Z) (p : piece) : Prop :=
  match p with Text l => ascii l /\ (length D + length l < fuel)%nat | Braces _ => (length D < fuel)%nat end.
Lemma pieces_within D fuel : ascii D -> forall ps p b vs q b', Forall (fits fuel D) ps -> fine D p b ->
  scan_pieces fuel ps p b = Ok (vs, q, b') ->
  (p <= q)%nat /\ fine D q b' /\ within (q + list_max (map look ps)) b b'.
Proof.
  intros HA. induction ps as [|x ps IH]; intros p b vs q b' HP F H; cbn [scan_pieces] in H.
  { injection H as _ <- <-. split; [lia|]. split; [exact F|apply within_refl]. }
  inversion HP as [|? ? Hx HP']; subst. cbn [map list_max fold_right]. fold (list_max (map look ps)).
  destruct x as [l|k].
  - destruct Hx as [Hl Hf]. step H p1 b1 E1. destruct (literal_within D HA fuel l p b p1 b1 Hl F Hf E1) as (L1 & F1 & W1).
    destruct (IH _ _ _ _ _ HP' F1 H) as (L2 & F2 & W2). cbn [look]. split; [lia|]. split; [exact F2|].
    repeat (eapply within_trans; [eapply within_le; [eassumption|lia]|]). apply within_refl.
  - cbn [fits] in Hx. step3 H v p1 b1 E1. step3 H vs1 q2 b2 E2. injection H as _ <- <-.
    destruct (field_within D fuel k p b v p1 b1 HA F Hx E1) as (L1 & F1 & W1 & _).
    destruct (IH _ _ _ _ _ HP' F1 E2) as (L2 & F2 & W2). cbn [look]. split; [lia|]. split; [exact F2|].
    repeat (eapply within_trans; [eapply within_le; [eassumption|lia]|]). apply within_refl.
Qed.
Lemma look_le ps : (list_max (map look ps) <= 1)%nat.
Proof.
  induction ps as [|x ps IH]; [cbn; lia|]. cbn [map list_max fold_right]. fold (list_max (map look ps)).
  assert (look x <= 1)%nat; [|lia]. destruct x as [l|[]]; cbn [look ahead]; try lia. unfold behind. destruct (existsb _ _); lia.
Qed.

(** * Giving back *)
Lemma putback_reads l : forall f ok f', putback_all l f = (ok, f') -> reads f' = reads f.
Proof.
  induction l as [|c l IH]; intros f ok f'; cbn [putback_all]; [intros [= _ <-]; reflexivity|].
  unfold ungetc. destruct (room f); [intros [= _ <-]; reflexivity|]. intros H. rewrite (IH _ _ _ H). reflexivity.
Qed.
Lemma sync_reads n p v f b' : sync n (Buffer p v (File f)) = Ok (true, b') ->
  exists f', b' = Buffer p v (File f') /\ reads f' = reads f.
Proof.
  unfold sync, sync_file. cbn [source putback view]. destruct (n <? length p)%nat.
  - destruct (putback_all _ _) as [ok f'] eqn:E. cbn [bind]. intros [= -> <-]. exists f'. split; [reflexivity|].
    eapply putback_reads, E.
  - unfold unsafe_advance_n. destruct (area f); [|discriminate]. destruct (_ <? _)%nat; [discriminate|].
    cbn [bind]. intros [= <-]. eexists. split; reflexivity.
Qed.
Lemma gputback_steady l : forall f ok f', gputback_all l f = (ok, f') ->
  Forall (fun c => c <> None) (chars f) -> Forall (fun c => c <> None) (chars f').
Proof.
  induction l as [|c l IH]; intros f ok f'; cbn [gputback_all]; [intros [= _ <-]; auto|].
  unfold gungetc. destruct (groom f); [intros [= _ <-]; auto|]. intros H HF. apply (IH _ _ _ H). cbn [chars].
  constructor; [discriminate|exact HF].
Qed.
Lemma gsync_steady n p v f b' : sync n (Buffer p v (Getc f)) = Ok (true, b') -> Forall (fun c => c <> None) (chars f) ->
  exists f', b' = Buffer p v (Getc f') /\ Forall (fun c => c <> None) (chars f').
Proof.
  unfold sync, sync_getc. cbn [source putback view]. destruct (_ =? _)%nat.
  { cbn [bind]. intros [= <-] H. eauto. }
  destruct v as [|c [|? ?]]; try discriminate. destruct (_ <? _)%nat; [discriminate|].
  destruct (gputback_all _ _) as [ok f'] eqn:E. cbn [bind]. intros [= -> <-] H. exists f'. split; [reflexivity|].
  apply (gputback_steady _ _ _ _ E). unfold gungetc. destruct (groom f); [exact H|]. cbn [chars]. constructor; [discriminate|exact H].
Qed.
(** A scan that succeeds leaves the file right behind what it consumed. *)
Lemma file_synced D fuel ps f vs q b : ascii D -> D = content f -> steady (file_buffer f) -> Forall (fits fuel D) ps ->
  scan_pieces fuel ps 0 (file_buffer f) = Ok (vs, q, b) ->
  (list_max (map look ps) <= room f)%nat -> (0 < q)%nat \/ area f <> None ->
  exists f', sync_after_vscan b (inl q) = Ok (inl q, Buffer (putback b) (view b) (File f')) /\
    content f' = skipn q D /\ steady (file_buffer f').
Proof.
  intros HA HD HS HP H HR HQ.
  assert (F : fine D 0 (file_buffer f)).
  { split; [|split; [exact HS|lia]]. subst D. split; [reflexivity|left; reflexivity]. }
  destruct (pieces_within D fuel HA ps 0 _ vs q b HP F H) as (_ & Fq & W). destruct (W I) as [FR HL]. clear W.
  cbn [held file_buffer putback length Nat.max] in HL. destruct b as [p v o].
  unfold frame in FR. cbn [source file_buffer] in FR. destruct o as [|f1| |]; try contradiction.
  destruct FR as (ER & EA1 & EA). unfold held in HL. cbn [putback] in HL. destruct Fq as (G & S & HQ').
  destruct (sync_runs D p v f1 q G) as [b' E]; [|exact HQ'|lia|].
  { destruct HQ as [HQ|HQ]; [|auto]. destruct EA as [EA|EA]; [reflexivity|exact EA|lia]. }
  destruct (sync_content D p v f1 q b' G E) as (f' & -> & EC).
  destruct (sync_reads _ _ _ _ _ E) as (f2 & [= <-] & Hr).
  exists f'. unfold sync_after_vscan. rewrite E. cbn [bind putback view]. split; [reflexivity|]. split; [exact EC|].
  cbn [steady file_buffer]. rewrite Hr. exact S.
Qed.
Lemma getc_synced D fuel ps f vs q b : ascii D -> D = gcontent f -> steady (getc_buffer f) -> Forall (fits fuel D) ps ->
  scan_pieces fuel ps 0 (getc_buffer f) = Ok (vs, q, b) ->
  list_max (map look ps) = O -> (1 <= groom f)%nat ->
  exists f', sync_after_vscan b (inl q) = Ok (inl q, Buffer (putback b) (view b) (Getc f')) /\
    gcontent f' = skipn q D /\ steady (getc_buffer f').
Proof.
  intros HA HD HS HP H HM HR.
  assert (F : fine D 0 (getc_buffer f)).
  { split; [|split; [exact HS|lia]]. subst D. apply getc_good. }
  destruct (pieces_within D fuel HA ps 0 _ vs q b HP F H) as (_ & Fq & W). destruct (W I) as [FR HL]. clear W.
  cbn [held getc_buffer putback length Nat.max] in HL. rewrite HM in HL. destruct b as [p v o].
  unfold frame in FR. cbn [source getc_buffer] in FR. destruct o as [| |f1|]; try contradiction.
  unfold held in HL. cbn [putback] in HL. destruct Fq as (G & S & HQ'). assert (HV := proj2 G). cbn [chars_available] in HQ'.
  unfold chars_available in HQ'. cbn [putback view] in HQ'.
  destruct (getc_sync D p v f1 q G) as (f' & E & EC).
  { exact HQ'. }
  { destruct v; [right|left; discriminate]. unfold chars_available. cbn [putback view length] in *. lia. }
  { unfold chars_available. cbn [putback view]. lia. }
  destruct (gsync_steady _ _ _ _ _ E S) as (f2 & [= <-] & Hr).
  exists f'. unfold sync_after_vscan. rewrite E. cbn [bind putback view]. auto.
Qed.
