(** Scanning from a source behind a buffer: refinement of the iterator operations to
    the characters of the source. *)
From Verif Require Import Prelude UnicodeModel UnicodeSpec UnicodeProofs WhitespaceModel
  WhitespaceSpec WhitespaceProofs ReadModel ReadProofs SpecsModel FormatModel Tables IntModel
  IntSpec IntProofs ArgReaderModel ArgReaderProofs ScalarModel StringModel StringProofs
  StringSafeProofs VscanSpec VscanSpecProofs BufferModel BufferSpec BufferProofs SegmentModel.
Local Open Scope Z_scope.

(** * Iterators *)

(** The buffer delivers [D], and position [p] has been reached. *)
Definition fine (D : list Z) (p : nat) (b : buffer) : Prop :=
  good D b /\ steady b /\ (p <= chars_available b)%nat.
(** [b'] comes from [b] by iterator operations. *)
Inductive later : buffer -> buffer -> Prop :=
| later_refl b : later b b
| later_step p ok b b1 b2 : read_at_position p b = Ok (ok, b1) -> later b1 b2 -> later b b2.
Lemma later_trans a b c : later a b -> later b c -> later a c.
Proof. induction 1; [auto|]. intros H'. eapply later_step; eauto. Qed.
Lemma later_one p ok b b1 : read_at_position p b = Ok (ok, b1) -> later b b1.
Proof. intros H. eapply later_step; [exact H|apply later_refl]. Qed.
Lemma later_avail D b b' : good D b -> later b b' -> (chars_available b <= chars_available b')%nat.
Proof.
  intros G L. induction L as [|p ok b b1 b2 E L IH]; [lia|].
  destruct (read_at_ok D p b G) as (ok' & b1' & E' & G' & _ & A & _).
  rewrite E in E'. injection E' as <- <-. specialize (IH G'). lia.
Qed.
Lemma fine_len D p b : fine D p b -> (p <= length D)%nat.
Proof. intros (G & _ & H). apply good_avail in G. lia. Qed.
Lemma fine_le D p q b : fine D p b -> (q <= p)%nat -> fine D q b.
Proof. intros (G & S & H) L. repeat split; auto. lia. Qed.
Lemma fine_later D p q b b' : fine D p b -> fine D q b' -> later b b' -> fine D p b'.
Proof. intros (G0 & _ & H) (G & S & _) L. apply (later_avail D) in L; [|exact G0]. repeat split; auto. lia. Qed.

Lemma end_ok D p q b : fine D q b ->
  exists b', it_end p b = Ok ((length D <=? p)%nat, b') /\ fine D q b' /\ later b b' /\
    ((p < length D)%nat -> (p < chars_available b')%nat).
Proof.
  intros (G & S & H). unfold it_end.
  destruct (read_at_ok D p b G) as (ok & b' & E & G' & S' & A & R). rewrite E. cbn [bind].
  exists b'. assert (AD := good_avail D b' G'). assert (LT := later_one _ _ _ _ E).
  assert (F' : fine D q b') by (repeat split; auto; lia). destruct ok; cbn [negb].
  - rewrite (proj2 (Nat.leb_gt _ _)) by lia. auto.
  - destruct R as [R1 R2]. rewrite (proj2 (Nat.leb_le _ _)) by (rewrite <- R2 by exact S; exact R1).
    split; [reflexivity|]. split; [exact F'|]. split; [exact LT|]. rewrite <- R2 by exact S. lia.
Qed.
Lemma deref_ok D p q b : fine D q b -> (p < length D)%nat ->
  exists b', it_deref p b = Ok (nth p D 0, b') /\ fine D q b' /\ later b b' /\
    (p < chars_available b')%nat.
Proof.
  intros (G & S & H) L. unfold it_deref.
  destruct (read_at_ok D p b G) as (ok & b' & E & G' & S' & A & R). rewrite E. cbn [bind].
  exists b'. destruct ok; [|destruct R as [R1 R2]; rewrite R2 in R1 by exact S; lia].
  destruct (char_at D b' p G' R) as (c & Ec & N). rewrite Ec. cbn [bind].
  rewrite (nth_error_nth D p 0 N). assert (LT := later_one _ _ _ _ E).
  split; [reflexivity|]. split; [repeat split; auto; lia|]. split; [exact LT|exact R].
Qed.
Lemma next_ok D p q b : fine D q b -> (p < length D)%nat ->
  exists b', it_next p b = Ok (S p, b') /\ fine D q b' /\ fine D (S p) b' /\ later b b' /\
    ((S p < length D)%nat -> (S p < chars_available b')%nat).
Proof.
  intros (G & S & H) L. unfold it_next.
  destruct (read_at_ok D (Datatypes.S p) b G) as (ok & b' & E & G' & S' & A & R). rewrite E. cbn [bind].
  exists b'. assert (S2 := S' S).
  assert (HP : (Datatypes.S p <= chars_available b')%nat /\
               ((Datatypes.S p < length D)%nat -> (Datatypes.S p < chars_available b')%nat)).
  { destruct ok; [lia|]. destruct R as [R1 R2]. rewrite R2 by exact S. lia. }
  assert (LT := later_one _ _ _ _ E). split; [reflexivity|].
  split; [repeat split; auto; lia|]. split; [repeat split; auto; lia|]. split; [exact LT|apply HP].
Qed.
Lemma next_n_ok D : forall n p q b, fine D q b -> (p + n <= length D)%nat ->
  exists b', next_n n p b = Ok ((p + n)%nat, b') /\ fine D q b' /\ later b b' /\
    (fine D p b -> fine D (p + n) b') /\
    ((0 < n)%nat -> (p + n < length D)%nat -> (p + n < chars_available b')%nat).
Proof.
  induction n as [|n IH]; intros p q b F L; cbn [next_n].
  - exists b. rewrite Nat.add_0_r. split; [reflexivity|]. split; [exact F|]. split; [apply later_refl|].
    split; [auto|lia].
  - destruct (next_ok D p q b F ltac:(lia)) as (b1 & E & F1 & F1p & L1 & N1). rewrite E. cbn [bind].
    destruct (IH (S p) q b1 F1 ltac:(lia)) as (b2 & E2 & F2 & L2 & P2 & N2). rewrite E2.
    exists b2. replace (S p + n)%nat with (p + S n)%nat in * by lia.
    split; [reflexivity|]. split; [exact F2|]. split; [eapply later_trans; eassumption|].
    split; [intros _; apply P2, F1p|]. intros _ HL. destruct n as [|n].
    + replace (p + 1)%nat with (S p) in * by lia. apply (later_avail D) in L2; [|apply F1]. lia.
    + apply N2; lia.
Qed.
Lemma nth_skipn_cons (D : list Z) p : (p < length D)%nat -> skipn p D = nth p D 0 :: skipn (S p) D.
Proof.
  revert p. induction D as [|c D IH]; intros p H; [cbn in H; lia|]. destruct p; [reflexivity|].
  cbn [skipn nth]. rewrite IH by (cbn in H; lia). reflexivity.
Qed.
Lemma copy_ok D : forall n p q b, fine D q b -> (p + n <= length D)%nat ->
  exists b', copy n p b = Ok (firstn n (skipn p D), b') /\ fine D q b' /\ later b b'.
Proof.
  induction n as [|n IH]; intros p q b F L; cbn [copy].
  - exists b. split; [reflexivity|]. split; [exact F|apply later_refl].
  - destruct (deref_ok D p q b F ltac:(lia)) as (b1 & E1 & F1 & L1 & _). rewrite E1. cbn [bind].
    destruct (next_ok D p q b1 F1 ltac:(lia)) as (b2 & E2 & F2 & _ & L2 & _). rewrite E2. cbn [bind].
    destruct (IH (S p) q b2 F2 ltac:(lia)) as (b3 & E3 & F3 & L3). rewrite E3. cbn [bind].
    exists b3. rewrite (nth_skipn_cons D p) by lia. cbn [firstn].
    split; [reflexivity|]. split; [exact F3|]. eauto using later_trans.
Qed.

(** * Segments *)
Lemma seg_ok D p b : fine D p b -> exists l t, get_segment_starting_at p b = Ok l /\ skipn p D = l ++ t.
Proof. intros (G & _ & H). destruct (segment_at D b p G H) as (l & t & E & E2 & _). eauto. Qed.

(** A view into the buffer, or a copy: the characters between two positions. *)
Lemma contiguous_ok D p q b : fine D q b -> (p <= q)%nat ->
  exists b', contiguous p q b = Ok (firstn (q - p) (skipn p D), b') /\ fine D q b' /\ later b b'.
Proof.
  intros F L. unfold contiguous.
  destruct (good_seen' D b (proj1 F)) as [t HD].
  assert (HQ := proj2 (proj2 F)). assert (HL := fine_len D q b F).
  destruct (seg_ok D p b (fine_le D q p b F L)) as (l1 & t1 & E1 & _).
  destruct (seg_ok D q b F) as (l2 & t2 & E2 & _). rewrite E1, E2. cbn [bind].
  destruct (Bool.eqb _ _) eqn:EB; [|apply copy_ok; [exact F|lia]].
  exists b. split; [|split; [exact F|apply later_refl]].
  f_equal. f_equal. unfold get_segment_starting_at, chars_available, seen in *.
  rewrite HD. destruct (Nat.ltb_spec p (length (putback b))) as [Q1|Q1];
    destruct (Nat.ltb_spec q (length (putback b))) as [Q2|Q2]; try discriminate EB.
  - injection E1 as <-. injection E2 as <-. rewrite !skipn_length.
    rewrite <- app_assoc, skipn_le_app by lia. rewrite firstn_app, skipn_length.
    replace (q - p - (length (putback b) - p))%nat with O by lia. cbn [firstn]. rewrite app_nil_r.
    f_equal. lia.
  - destruct (length (view b) <? p - length (putback b))%nat; [discriminate|].
    destruct (length (view b) <? q - length (putback b))%nat; [discriminate|].
    injection E1 as <-. injection E2 as <-. rewrite !skipn_length.
    rewrite <- app_assoc, (skipn_app p (putback b)), (skipn_all2 (putback b)) by exact Q1. cbn [app].
    rewrite skipn_le_app by lia. rewrite firstn_app, skipn_length.
    replace (q - p - (length (view b) - (p - length (putback b))))%nat with O by lia.
    cbn [firstn]. rewrite app_nil_r. f_equal. lia.
Qed.

(** * White space in ASCII text *)
Definition ascii (s : list Z) : Prop := Forall (fun c => 0 <= c < 128) s.
Lemma ascii_bytes s : ascii s -> bytes s.
Proof. apply Forall_impl. intros c H. unfold is_byte. lia. Qed.
Lemma ascii_skipn n s : ascii s -> ascii (skipn n s).
Proof. intros H. unfold ascii in *. rewrite <- (firstn_skipn n s) in H. apply Forall_app in H. apply H. Qed.
Lemma ascii_app s t : ascii (s ++ t) <-> ascii s /\ ascii t.
Proof. apply Forall_app. Qed.
Lemma ascii_nth D p : ascii D -> (p < length D)%nat -> 0 <= nth p D 0 < 128.
Proof. intros H L. assert (H2 := Forall_forall (fun c => 0 <= c < 128) D). apply H2; [exact H|]. apply nth_In, L. Qed.

Lemma ascii_len c : 0 <= c < 128 -> cp_len U8 c = 1%nat.
Proof.
  intros H. cbn [cp_len]. rewrite utf8_cp_len_class by (unfold is_byte; lia). unfold utf8_len_class.
  replace (c <? 0x80) with true by lia. reflexivity.
Qed.
Lemma ascii_decode c : 0 <= c < 128 -> decode_cp U8 [c] = Ok c.
Proof. intros H. cbn [decode_cp decode_utf8]. replace (0x80 <=? c) with false by lia. reflexivity. Qed.

Fixpoint skip_ws (s : list Z) : list Z :=
  match s with c :: s' => if is_ws c then skip_ws s' else s | [] => [] end.
Lemma skip_ws_len s : (length (skip_ws s) <= length s)%nat.
Proof. induction s as [|c s IH]; cbn [skip_ws length]; [lia|]. destruct (is_ws c); cbn [length]; lia. Qed.
Lemma skip_ws_suffix s : exists n, skip_ws s = skipn n s /\ (n + length (skip_ws s) = length s)%nat.
Proof.
  induction s as [|c s IH]; cbn [skip_ws]; [exists O; auto|]. destruct (is_ws c).
  - destruct IH as (n & E & L). exists (S n). cbn [skipn length]. split; [exact E|lia].
  - exists O. auto.
Qed.
Lemma skip_ws_drop s : ascii s -> drop_space U8 s = skip_ws s.
Proof.
  intros H. unfold drop_space.
  assert (G : forall f, (length s <= f)%nat -> drop_space_loop f U8 s = skip_ws s); [|apply G; lia].
  induction H as [|c s Hc Hs IH]; intros f L; destruct f; cbn [length] in L; try lia; try reflexivity.
  cbn [drop_space_loop skip_ws]. rewrite next_lit by (discriminate || exact Hc).
  destruct (is_ws c); [apply IH; lia|reflexivity].
Qed.
Lemma nonspace_ascii s : ascii s -> find_classic_nonspace_narrow_fast s = Ok (skip_ws s).
Proof.
  intros H. assert (E := read_while_drop (Src U8 true (fun _ => O)) s (or_intror (conj eq_refl eq_refl)) (ascii_bytes s H)).
  cbn [read_while_classic_space s_enc s_contig] in E. rewrite E. rewrite skip_ws_drop by exact H. reflexivity.
Qed.
Lemma skip_ws_app s t : skip_ws s <> [] -> skip_ws (s ++ t) = skip_ws s ++ t.
Proof.
  induction s as [|c s IH]; cbn [skip_ws app]; [contradiction|]. destruct (is_ws c); auto.
Qed.
Lemma skip_ws_app_nil s t : skip_ws s = [] -> skip_ws (s ++ t) = skip_ws t.
Proof.
  induction s as [|c s IH]; cbn [skip_ws app]; [auto|]. destruct (is_ws c); [auto|discriminate].
Qed.

(** The position [D] has reached when [rest] is left *)
Definition pos (D rest : list Z) : nat := (length D - length rest)%nat.
Lemma pos_skipn (D : list Z) p : (p <= length D)%nat -> pos D (skipn p D) = p.
Proof. intros H. unfold pos. rewrite skipn_length. lia. Qed.

Lemma code_point_ascii D fuel p q b : ascii D -> fine D q b -> (p < length D)%nat ->
  exists b', code_point_into fuel p b = Ok (S p, [nth p D 0], b') /\ fine D q b' /\ later b b' /\
    fine D (S p) b' /\ ((S p < length D)%nat -> (S p < chars_available b')%nat).
Proof.
  intros HA F L. unfold code_point_into.
  destruct (end_ok D p q b F) as (b1 & E1 & F1 & L1 & _). rewrite E1. cbn [bind].
  rewrite (proj2 (Nat.leb_gt _ _)) by exact L.
  destruct (deref_ok D p q b1 F1 L) as (b2 & E2 & F2 & L2 & _). rewrite E2. cbn [bind].
  rewrite ascii_len by (apply ascii_nth; assumption).
  destruct (next_ok D p q b2 F2 L) as (b3 & E3 & F3 & P3 & L3 & N3). rewrite E3. cbn [bind].
  destruct (deref_ok D p q b3 F3 L) as (b4 & E4 & F4 & L4 & _). rewrite E4. cbn [bind].
  exists b4. split; [reflexivity|]. split; [exact F4|]. split; [eauto using later_trans|].
  split; [eapply fine_later; eassumption|]. apply (later_avail D) in L4; [|apply F3]. intros H. specialize (N3 H). lia.
Qed.

Lemma until_space_ok D : ascii D -> forall fuel p b, fine D p b -> (length D - p < fuel)%nat ->
  exists b', until_code_point fuel (fun cp => negb (is_cp_space cp)) p b
             = Ok (pos D (skip_ws (skipn p D)), b') /\
    fine D (pos D (skip_ws (skipn p D))) b' /\ later b b' /\
    (S (pos D (skip_ws (skipn p D))) < length D -> S (pos D (skip_ws (skipn p D))) < chars_available b')%nat.
Proof.
  intros HA. induction fuel as [|f IH]; intros p b F L; [lia|]. cbn [until_code_point].
  assert (FL := fine_len D p b F).
  destruct (end_ok D p p b F) as (b1 & E1 & F1 & L1 & _). rewrite E1. cbn [bind].
  destruct (Nat.leb_spec (length D) p) as [Q|Q].
  - exists b1. rewrite skipn_all2 by exact Q. cbn [skip_ws]. unfold pos. cbn [length].
    rewrite Nat.sub_0_r. replace (length D) with p by lia. split; [reflexivity|].
    split; [exact F1|]. split; [exact L1|lia].
  - destruct (code_point_ascii D f p p b1 HA F1 Q) as (b2 & E2 & F2 & L2 & P2 & N2).
    rewrite E2. cbn [bind]. rewrite ascii_decode by (apply ascii_nth; assumption). cbn [bind].
    rewrite (nth_skipn_cons D p Q). cbn [skip_ws]. rewrite <- is_ws_cp.
    destruct (is_ws (nth p D 0)) eqn:EW; cbn [negb].
    + destruct (IH (S p) b2 P2 ltac:(lia)) as (b3 & E3 & F3 & L3 & N3). rewrite E3.
      exists b3. split; [reflexivity|]. split; [exact F3|]. split; [eauto using later_trans|exact N3].
    + exists b2. rewrite <- (nth_skipn_cons D p Q), pos_skipn by lia.
      split; [reflexivity|]. split; [exact F2|]. split; [eauto using later_trans|exact N2].
Qed.

(** Skipping white space; [peeked]: if some was skipped code point by code point, the
    character after the one reached has been fetched. *)
Lemma while_space_ok D fuel p b : ascii D -> fine D p b -> (length D < fuel)%nat ->
  exists b', while_classic_space fuel p b = Ok (pos D (skip_ws (skipn p D)), b') /\
    fine D (pos D (skip_ws (skipn p D))) b' /\ later b b'.
Proof.
  intros HA F L. unfold while_classic_space.
  assert (FL := fine_len D p b F).
  destruct (seg_ok D p b F) as (seg & t & ES & HS). rewrite ES. cbn [bind].
  assert (HB := ascii_skipn p D HA). rewrite HS in HB. apply ascii_app in HB.
  rewrite nonspace_ascii by apply HB. cbn [bind].
  assert (HLen : (length seg + length t = length D - p)%nat).
  { rewrite <- app_length, <- HS. apply skipn_length. }
  destruct (skip_ws seg) as [|c f] eqn:EW.
  - destruct (next_n_ok D (length seg) p p b F ltac:(lia)) as (b1 & E1 & F1 & L1 & _). rewrite E1. cbn [bind].
    destruct (until_space_ok D HA fuel p b1 F1 ltac:(lia)) as (b2 & E2 & F2 & L2 & _).
    exists b2. eauto using later_trans.
  - assert (HW : skip_ws (skipn p D) = (c :: f) ++ t) by (rewrite HS, skip_ws_app by congruence; rewrite EW; reflexivity).
    assert (HWL := skip_ws_len seg). rewrite EW in HWL.
    destruct (next_n_ok D (length seg - length (c :: f)) p p b F ltac:(lia)) as (b1 & E1 & F1 & L1 & P1 & _).
    exists b1. rewrite E1. rewrite HW. unfold pos. rewrite app_length.
    replace (p + (length seg - length (c :: f)))%nat with (length D - (length (c :: f) + length t))%nat in * by lia.
    split; [reflexivity|]. split; [apply P1, F|exact L1].
Qed.

(** * Integers, base 10 *)
Definition dec (c : Z) : bool := char_to_int c <? 10.
Definition plain_src : src := Src U8 false (fun _ => O).

Lemma int10_src r t s : s_enc r = U8 -> bytes s -> int_read_default r t s = int_read_default plain_src t s.
Proof.
  intros E Hb. unfold int_read_default, int_read_default_with_base, parse_integer_prefix.
  destruct (parse_numeric_sign s) as [[text sg]| | |] eqn:Es; try reflexivity.
  destruct (sign_suffix _ _ _ Es) as [Et [k Ek]]. cbn [bind].
  unfold parse_integer_base_prefix.
  change (10 =? 2) with false. change (10 =? 8) with false. change (10 =? 16) with false.
  change (10 =? 0) with false. cbv iota beta. cbn [bind pr_sign pr_zero].
  destruct (negb (it_signed t) && is_minus (match sg with DefaultSign => PlusSign | _ => sg end)) eqn:Em; [reflexivity|].
  apply read_digits_src; cbn [pr_base pr_it pr_sign].
  - exact E.
  - unfold base_ok. lia.
  - intros _. replace (if not_digit_of 10 text then text else text) with text by (destruct (not_digit_of 10 text); reflexivity).
    rewrite Ek. apply bytes_skipn, Hb.
  - destruct sg; discriminate.
  - intros Hu. rewrite Hu in Em. exact Em.
Qed.

Lemma int10_plain t s : int_read_default plain_src t s =
  ('(text, sg) <- parse_numeric_sign s ;;
   let sg := match sg with DefaultSign => PlusSign | _ => sg end in
   if negb (it_signed t) && is_minus sg then Err InvalidScannedValue
   else let after := find_if (fun c => negb (dec c)) text in
        if (length after =? length text)%nat then Err InvalidScannedValue
        else let buf := firstn (length text - length after) text in
             '(v, rest) <- parse_integer_value U8 t buf sg 10 ;;
             Ok (v, skipn (length buf - length rest) text)).
Proof.
  unfold int_read_default, int_read_default_with_base, parse_integer_prefix.
  destruct (parse_numeric_sign s) as [[text sg]| | |]; try reflexivity. cbn [bind].
  unfold parse_integer_base_prefix.
  change (10 =? 2) with false. change (10 =? 8) with false. change (10 =? 16) with false.
  change (10 =? 0) with false. cbv iota beta. cbn [bind pr_sign pr_zero].
  replace (if not_digit_of 10 text then text else text) with text by (destruct (not_digit_of 10 text); reflexivity).
  destruct (negb (it_signed t) && is_minus (match sg with DefaultSign => PlusSign | _ => sg end)); [reflexivity|].
  unfold read_digits, parse_integer_digits_without_thsep. cbn [pr_it pr_base pr_sign s_contig plain_src s_enc].
  unfold read_while1_code_unit, read_while_code_unit, read_until_code_unit, dec.
  destruct (_ =? _)%nat; reflexivity.
Qed.

Lemma while_unit_ok D pred : forall fuel p b, fine D p b -> (length D - p < fuel)%nat ->
  exists b', while_unit fuel pred p b = Ok (pos D (find_if (fun c => negb (pred c)) (skipn p D)), b') /\
    fine D (pos D (find_if (fun c => negb (pred c)) (skipn p D))) b' /\ later b b'.
Proof.
  induction fuel as [|f IH]; intros p b F L; [lia|]. cbn [while_unit].
  assert (FL := fine_len D p b F).
  destruct (end_ok D p p b F) as (b1 & E1 & F1 & L1 & _). rewrite E1. cbn [bind].
  destruct (Nat.leb_spec (length D) p) as [Q|Q].
  - exists b1. rewrite skipn_all2 by exact Q. cbn [find_if]. unfold pos. cbn [length].
    rewrite Nat.sub_0_r. replace (length D) with p by lia. auto.
  - destruct (deref_ok D p p b1 F1 Q) as (b2 & E2 & F2 & L2 & _). rewrite E2. cbn [bind].
    rewrite (nth_skipn_cons D p Q). cbn [find_if]. destruct (pred (nth p D 0)) eqn:EP; cbn [negb].
    + destruct (next_ok D p p b2 F2 Q) as (b3 & E3 & _ & F3 & L3 & _). rewrite E3. cbn [bind].
      destruct (IH (S p) b3 F3 ltac:(lia)) as (b4 & E4 & F4 & L4). exists b4. eauto 6 using later_trans.
    + exists b2. rewrite <- (nth_skipn_cons D p Q), pos_skipn by lia. eauto using later_trans.
Qed.

Lemma find_if_skip (P : Z -> bool) s : exists n, find_if P s = skipn n s /\ (n + length (find_if P s) = length s)%nat.
Proof.
  induction s as [|c s IH]; cbn [find_if]; [exists O; auto|]. destruct (P c); [exists O; auto|].
  destruct IH as (n & E & L). exists (S n). cbn [skipn length]. split; [exact E|lia].
Qed.

(** The result [m] on the buffer is the result [x] on the characters. *)
Definition same {V} (D : list Z) (b : buffer) (x : outcome (V * list Z)) (m : outcome (V * nat * buffer)) : Prop :=
  match x with
  | Ok (v, rest) => exists q b', m = Ok (v, q, b') /\ rest = skipn q D /\ fine D q b' /\ later b b'
  | Err e => m = Err e
  | UB => m = UB
  | OutOfFuel => m = OutOfFuel
  end.
Lemma same_later {V} D b b' (x : outcome (V * list Z)) m : later b b' -> same D b' x m -> same D b x m.
Proof.
  unfold same. intros L. destruct x as [[v rest]| | |]; auto.
  intros (q & b2 & H1 & H2 & H3 & H4). exists q, b2. eauto using later_trans.
Qed.

Lemma sign_ok D p b : fine D p b ->
  match parse_numeric_sign (skipn p D) with
  | Ok (text, sg) => exists q b', numeric_sign p b = Ok (q, sg, b') /\ text = skipn q D /\ fine D q b' /\ later b b'
  | Err e => numeric_sign p b = Err e
  | _ => False
  end.
Proof.
  intros F. assert (FL := fine_len D p b F). unfold numeric_sign.
  destruct (end_ok D p p b F) as (b1 & E1 & F1 & L1 & _). rewrite E1. cbn [bind].
  destruct (Nat.leb_spec (length D) p) as [Q|Q].
  - rewrite skipn_all2 by exact Q. reflexivity.
  - destruct (next_ok D p p b1 F1 Q) as (b2 & E2 & F2 & P2 & L2 & _). rewrite E2. cbn [bind].
    destruct (deref_ok D p (S p) b2 P2 Q) as (b3 & E3 & F3 & L3 & _). rewrite E3. cbn [bind].
    assert (L13 : later b b3) by eauto using later_trans.
    rewrite (nth_skipn_cons D p Q). unfold parse_numeric_sign. cbn [read_one_of_code_unit existsb].
    destruct (Z.eqb_spec (nth p D 0) 43) as [E|E].
    { rewrite E. exists (S p), b3. auto. }
    destruct (Z.eqb_spec (nth p D 0) 45) as [E'|E'].
    { exists (S p), b3. auto. }
    cbn [orb]. exists p, b3. rewrite <- (nth_skipn_cons D p Q). split; [reflexivity|].
    split; [reflexivity|]. split; [|exact L13]. eapply fine_le; [exact F3|lia].
Qed.

Lemma piv_suffix t ds sg v rest : Forall (is_digit 10) ds -> bytes ds ->
  parse_integer_value U8 t ds sg 10 = Ok (v, rest) -> rest = [].
Proof.
  intros Hd Hb E. destruct ds as [|c ds]; [discriminate|].
  assert (P := piv_app U8 t (c :: ds) [] sg 10 ltac:(unfold base_ok; lia)).
  rewrite app_nil_r in P. rewrite E in P. cbn [with_rest] in P.
  assert (P' : @Ok (Z * list Z) (v, rest) = Ok (v, [])).
  { apply P; [intros _; exact Hb|discriminate|exact Hd|]. intros H. inversion H. }
  injection P' as ->. reflexivity.
Qed.

Lemma read_int_ok D fuel t p b : bytes D -> fine D p b -> (length D < fuel)%nat ->
  same D b (int_read_default plain_src t (skipn p D)) (read_int fuel t p b).
Proof.
  intros HB F HF. rewrite int10_plain. unfold read_int.
  assert (SG := sign_ok D p b F).
  destruct (parse_numeric_sign (skipn p D)) as [[text sg]| | |]; try contradiction;
    [|rewrite SG; reflexivity].
  destruct SG as (p1 & b1 & E1 & -> & F1 & L1). rewrite E1. cbn [bind].
  assert (FL := fine_len D p1 b1 F1).
  destruct (end_ok D p1 p1 b1 F1) as (b2 & E2 & F2 & L2 & _). rewrite E2. cbn [bind].
  assert (HX : exists y b3, (if (length D <=? p1)%nat then Ok (0, b2) else it_deref p1 b2) = Ok (y, b3) /\
                 fine D p1 b3 /\ later b b3).
  { destruct (Nat.leb_spec (length D) p1) as [Q|Q].
    - exists 0, b2. split; [reflexivity|]. split; [exact F2|]. eapply later_trans; eassumption.
    - destruct (deref_ok D p1 p1 b2 F2 Q) as (b3 & E3 & F3 & L3 & _). exists (nth p1 D 0), b3.
      split; [exact E3|]. split; [exact F3|]. eauto using later_trans. }
  destruct HX as (y & b3 & E3 & F3 & L3). rewrite E3. cbn [bind].
  set (sg' := match sg with DefaultSign => PlusSign | _ => sg end).
  destruct (negb (it_signed t) && is_minus sg'); [reflexivity|].
  destruct (while_unit_ok D dec fuel p1 b3 F3 ltac:(lia)) as (b4 & E4 & F4 & L4).
  change (fun c : Z => char_to_int c <? 10) with dec. rewrite E4. cbn [bind].
  destruct (find_if_skip (fun c => negb (dec c)) (skipn p1 D)) as (n & En & Ln).
  set (after := find_if (fun c => negb (dec c)) (skipn p1 D)) in *.
  rewrite skipn_length in Ln.
  assert (HP : pos D after = (p1 + n)%nat) by (unfold pos; lia). rewrite HP in *.
  rewrite skipn_length.
  destruct (Nat.eqb_spec (length after) (length D - p1)) as [Q|Q].
  { replace (p1 + n =? p1)%nat with true by (symmetry; apply Nat.eqb_eq; lia). reflexivity. }
  replace (p1 + n =? p1)%nat with false by (symmetry; apply Nat.eqb_neq; lia).
  destruct (contiguous_ok D p1 (p1 + n) b4 F4 ltac:(lia)) as (b5 & E5 & F5 & L5).
  rewrite E5. cbn [bind].
  replace (p1 + n - p1)%nat with n by lia. replace (length D - p1 - length after)%nat with n by lia.
  set (buf := firstn n (skipn p1 D)).
  destruct (parse_integer_value U8 t buf sg' 10) as [[v rest]| | |]; cbn [bind]; try reflexivity.
  assert (HBL : (length buf <= n)%nat) by (unfold buf; rewrite firstn_length; lia).
  destruct (next_n_ok D (length buf - length rest) p1 p1 b5) as (b6 & E6 & F6 & L6 & P6 & _).
  { eapply fine_le; [exact F5|lia]. }
  { lia. }
  rewrite E6. cbn [bind same]. do 2 eexists. split; [reflexivity|].
  split; [rewrite skipn_skipn'; f_equal; lia|].
  split; [apply P6; eapply fine_le; [exact F5|lia]|]. eauto using later_trans.
Qed.

(** * Words *)
Lemma utf8_ascii s : ascii s -> utf8 s = s.
Proof.
  induction 1 as [|c s Hc _ IH]; [reflexivity|]. cbn [utf8 flat_map]. change (flat_map utf8_of s) with (utf8 s). rewrite IH. unfold utf8_of.
  replace (c <? 0x80) with true by lia. reflexivity.
Qed.
Lemma ascii_scalar s : ascii s -> Forall scalar s.
Proof. apply Forall_impl. intros c Hc. unfold scalar. lia. Qed.
Lemma ascii_valid s : ascii s -> validate_unicode U8 s = Ok true.
Proof. intros H. apply validate_well_formed. exists s. split; [apply ascii_scalar, H|]. symmetry. apply utf8_ascii, H. Qed.
Lemma ascii_firstn n s : ascii s -> ascii (firstn n s).
Proof. intros H. unfold ascii in *. rewrite <- (firstn_skipn n s) in H. apply Forall_app in H. apply H. Qed.
Lemma drop_find p s : drop_until p s = find_if p s.
Proof. induction s as [|c s IH]; cbn [drop_until find_if]; [reflexivity|]. rewrite IH. reflexivity. Qed.
Lemma find_if_ext (p q : Z -> bool) s : (forall c, p c = q c) -> find_if p s = find_if q s.
Proof. intros H. induction s as [|c s IH]; cbn [find_if]; [reflexivity|]. rewrite H, IH. reflexivity. Qed.
Lemma find_if_ascii p s : ascii s -> ascii (find_if p s).
Proof. intros H. destruct (find_if_skip p s) as (n & -> & _). apply ascii_skipn, H. Qed.
Lemma space_ascii s : ascii s -> find_classic_space_narrow_fast s = Ok (find_if is_ws s).
Proof.
  intros H. assert (E := find_classic_space_utf8 s (ascii_scalar s H)).
  rewrite utf8_ascii in E by exact H. rewrite E, drop_find.
  rewrite utf8_ascii by (apply find_if_ascii, H). f_equal. apply find_if_ext. intros c. symmetry. apply is_ws_cp.
Qed.
Lemma find_if_app (P : Z -> bool) l t : find_if P l <> [] -> find_if P (l ++ t) = find_if P l ++ t.
Proof. induction l as [|c l IH]; cbn [find_if app]; [contradiction|]. destruct (P c); auto. Qed.
Lemma find_if_app_nil (P : Z -> bool) l t : find_if P l = [] -> find_if P (l ++ t) = find_if P t.
Proof. induction l as [|c l IH]; cbn [find_if app]; [auto|]. destruct (P c); [discriminate|auto]. Qed.
Lemma until_cp_ok D pred : ascii D -> forall fuel p b, fine D p b -> (length D - p < fuel)%nat ->
  exists b', until_code_point fuel pred p b = Ok (pos D (find_if pred (skipn p D)), b') /\
    fine D (pos D (find_if pred (skipn p D))) b' /\ later b b'.
Proof.
  intros HA. induction fuel as [|f IH]; intros p b F L; [lia|]. cbn [until_code_point].
  assert (FL := fine_len D p b F).
  destruct (end_ok D p p b F) as (b1 & E1 & F1 & L1 & _). rewrite E1. cbn [bind].
  destruct (Nat.leb_spec (length D) p) as [Q|Q].
  - exists b1. rewrite skipn_all2 by exact Q. cbn [find_if]. unfold pos. cbn [length].
    rewrite Nat.sub_0_r. replace (length D) with p by lia. auto.
  - destruct (code_point_ascii D f p p b1 HA F1 Q) as (b2 & E2 & F2 & L2 & P2 & N2).
    rewrite E2. cbn [bind]. rewrite ascii_decode by (apply ascii_nth; assumption). cbn [bind].
    rewrite (nth_skipn_cons D p Q). cbn [find_if].
    destruct (pred (nth p D 0)) eqn:EW.
    + exists b2. rewrite <- (nth_skipn_cons D p Q), pos_skipn by lia. eauto using later_trans.
    + destruct (IH (S p) b2 P2 ltac:(lia)) as (b3 & E3 & F3 & L3). exists b3. eauto using later_trans.
Qed.
Lemma pos_find D P p : (p <= length D)%nat ->
  find_if P (skipn p D) = skipn (pos D (find_if P (skipn p D))) D /\ (p <= pos D (find_if P (skipn p D)) <= length D)%nat.
Proof.
  intros H. destruct (find_if_skip P (skipn p D)) as (n & E & L).
  rewrite skipn_length in L. set (s := find_if P (skipn p D)) in *.
  assert (HP : pos D s = (p + n)%nat) by (unfold pos; lia). rewrite HP. rewrite skipn_skipn' in E. split; [exact E|].
  unfold pos in HP. lia.
Qed.
Lemma until_classic_ok D fuel p b : ascii D -> fine D p b -> (length D < fuel)%nat ->
  exists b', until_classic_space fuel p b = Ok (pos D (find_if is_ws (skipn p D)), b') /\
    fine D (pos D (find_if is_ws (skipn p D))) b' /\ later b b'.
Proof.
  intros HA F L. unfold until_classic_space.
  assert (FL := fine_len D p b F).
  destruct (seg_ok D p b F) as (seg & t & ES & HS). rewrite ES. cbn [bind].
  assert (HB := ascii_skipn p D HA). rewrite HS in HB. apply ascii_app in HB.
  rewrite space_ascii by apply HB. cbn [bind].
  assert (HLen : (length seg + length t = length D - p)%nat).
  { rewrite <- app_length, <- HS. apply skipn_length. }
  destruct (find_if is_ws seg) as [|c f] eqn:EW.
  - destruct (next_n_ok D (length seg) p p b F ltac:(lia)) as (b1 & E1 & F1 & L1 & P1 & _). rewrite E1. cbn [bind].
    destruct (until_cp_ok D is_cp_space HA fuel (p + length seg) b1 (P1 F) ltac:(lia)) as (b2 & E2 & F2 & L2).
    assert (HX : find_if is_ws (skipn p D) = find_if is_cp_space (skipn (p + length seg) D)).
    { rewrite HS, find_if_app_nil by exact EW. rewrite <- skipn_skipn', HS.
      rewrite skipn_app, skipn_all, Nat.sub_diag. cbn [app skipn]. apply find_if_ext, is_ws_cp. }
    rewrite HX. exists b2. eauto using later_trans.
  - assert (HW : find_if is_ws (skipn p D) = (c :: f) ++ t) by (rewrite HS, find_if_app by congruence; rewrite EW; reflexivity).
    destruct (find_if_skip is_ws seg) as (n & _ & HWL). rewrite EW in HWL.
    destruct (next_n_ok D (length seg - length (c :: f)) p p b F ltac:(lia)) as (b1 & E1 & F1 & L1 & P1 & _).
    exists b1. rewrite E1. rewrite HW. unfold pos. rewrite app_length.
    replace (p + (length seg - length (c :: f)))%nat with (length D - (length (c :: f) + length t))%nat in * by lia.
    split; [reflexivity|]. split; [apply P1, F|exact L1].
Qed.
(** The characters up to white space *)
Definition word_of (s : list Z) : list Z * list Z :=
  let f := find_if is_ws s in (firstn (length s - length f) s, f).
Lemma read_word_ok D fuel p b : ascii D -> fine D p b -> (length D < fuel)%nat ->
  same D b (Ok (word_of (skipn p D))) (read_word fuel p b).
Proof.
  intros HA F HF. unfold read_word, word_of.
  assert (FL := fine_len D p b F). destruct (pos_find D is_ws p FL) as [EP LP].
  destruct (until_classic_ok D fuel p b HA F HF) as (b1 & E1 & F1 & L1). rewrite E1. cbn [bind].
  set (q := pos D (find_if is_ws (skipn p D))) in *.
  destruct (contiguous_ok D p q b1 F1 ltac:(lia)) as (b2 & E2 & F2 & L2). rewrite E2. cbn [bind].
  rewrite ascii_valid by (apply ascii_firstn, ascii_skipn, HA). cbn [bind same].
  exists q, b2. split; [|split; [exact EP|split; [exact F2|eauto using later_trans]]].
  rewrite EP at 1. rewrite !skipn_length. do 4 f_equal. lia.
Qed.
Lemma word_string s : ascii s -> word_read (DString U8) string_src s = Ok (word_of s).
Proof.
  intros H. unfold word_read, read_until_classic_space. cbn [string_src s_enc s_contig].
  rewrite space_ascii by exact H. cbn [bind]. unfold store.
  rewrite ascii_valid by (apply ascii_firstn, H). reflexivity.
Qed.

(** * Bools *)
(** An attempt at some text, on a buffer and on the characters *)
Definition attempt (D : list Z) (f : nat -> buffer -> outcome (option nat * buffer)) (g : list Z -> pexp (list Z)) : Prop :=
  forall p b, fine D p b -> exists o b', f p b = Ok (o, b') /\ fine D p b' /\ later b b' /\
    match o with
    | Some q => g (skipn p D) = inl (skipn q D) /\ fine D q b'
    | None => exists e, g (skipn p D) = inr e
    end.
Lemma matching_unit_ok D ch : attempt D (matching_unit ch) (read_matching_code_unit ch).
Proof.
  intros p b F. unfold matching_unit. assert (FL := fine_len D p b F).
  destruct (end_ok D p p b F) as (b1 & E1 & F1 & L1 & _). rewrite E1. cbn [bind].
  destruct (Nat.leb_spec (length D) p) as [Q|Q].
  - exists None, b1. rewrite skipn_all2 by exact Q. cbn. eauto 6.
  - destruct (next_ok D p p b1 F1 Q) as (b2 & E2 & F2 & P2 & L2 & _). rewrite E2. cbn [bind].
    destruct (deref_ok D p (S p) b2 P2 Q) as (b3 & E3 & F3 & L3 & _). rewrite E3. cbn [bind].
    do 2 eexists. split; [reflexivity|]. split; [eapply fine_le; [exact F3|lia]|].
    split; [eauto using later_trans|]. rewrite (nth_skipn_cons D p Q). cbn [read_matching_code_unit].
    destruct (nth p D 0 =? ch); eauto.
Qed.
Lemma exactly_loop_ok D p0 : forall n p b, fine D p b -> (p0 <= p)%nat -> exists o b', exactly_loop n p b = Ok (o, b') /\
  fine D p0 b' /\ later b b' /\
  match o with Some q => q = (p + n)%nat /\ fine D q b' | None => (length D < p + n)%nat end.
Proof.
  induction n as [|n IH]; intros p b F HP; cbn [exactly_loop].
  - exists (Some p), b. split; [reflexivity|]. split; [eapply fine_le; eassumption|]. split; [apply later_refl|].
    split; [lia|exact F].
  - destruct (end_ok D p p b F) as (b1 & E1 & F1 & L1 & _). rewrite E1. cbn [bind].
    destruct (Nat.leb_spec (length D) p) as [Q|Q].
    + exists None, b1. split; [reflexivity|]. split; [eapply fine_le; eassumption|]. split; [exact L1|lia].
    + destruct (next_ok D p p b1 F1 Q) as (b2 & E2 & F2 & P2 & L2 & _). rewrite E2. cbn [bind].
      destruct (IH (S p) b2 P2 ltac:(lia)) as (o & b3 & E3 & F3 & L3 & H3). exists o, b3. split; [exact E3|].
      split; [exact F3|]. split; [eauto using later_trans|]. destruct o; [|lia]. split; [lia|apply H3].
Qed.
Lemma starts_with_eq str s : (length str <= length s)%nat -> starts_with str s = list_eqb (firstn (length str) s) str.
Proof.
  revert s. induction str as [|c str IH]; intros s H; [reflexivity|]. destruct s as [|d s]; [cbn in H; lia|].
  cbn [starts_with length firstn list_eqb]. rewrite IH by (cbn in H; lia). rewrite (Z.eqb_sym c d). reflexivity.
Qed.
Lemma matching_string_ok D str : attempt D (matching_string str) (read_matching_string str).
Proof.
  intros p b F. unfold matching_string, read_matching_string. assert (FL := fine_len D p b F). rewrite skipn_length.
  assert (HX : exists o b', exactly_n (length str) p b = Ok (o, b') /\ fine D p b' /\ later b b' /\
     match o with Some q => q = (p + length str)%nat /\ fine D q b' | None => (length D < p + length str)%nat end).
  { unfold exactly_n. destruct (Nat.leb_spec (length str) (chars_available b - p)) as [Q|Q]; [|apply exactly_loop_ok; auto].
    assert (HV := good_avail D b (proj1 F)). assert (HQ := proj2 (proj2 F)).
    destruct (next_n_ok D (length str) p p b F ltac:(lia)) as (b1 & E1 & F1 & L1 & P1 & _). rewrite E1. cbn [bind].
    do 2 eexists. split; [reflexivity|]. split; [exact F1|]. split; [exact L1|]. split; [reflexivity|apply P1, F]. }
  destruct HX as (o & b1 & E1 & F1 & L1 & H1). rewrite E1. cbn [bind]. destruct o as [q|].
  - destruct H1 as [-> F2]. assert (FL2 := fine_len _ _ _ F2).
    destruct (contiguous_ok D p (p + length str) b1 F2 ltac:(lia)) as (b2 & E2 & F3 & L2). rewrite E2. cbn [bind].
    replace (p + length str - p)%nat with (length str) by lia.
    do 2 eexists. split; [reflexivity|]. split; [eapply fine_le; [exact F3|lia]|]. split; [eauto using later_trans|].
    replace (length D - p <? length str)%nat with false by (symmetry; apply Nat.ltb_ge; lia).
    rewrite starts_with_eq by (rewrite skipn_length; lia).
    destruct (list_eqb _ _); [|eauto]. split; [|exact F3]. rewrite skipn_skipn'. reflexivity.
  - exists None, b1. split; [reflexivity|]. split; [exact F1|]. split; [exact L1|].
    replace (length D - p <? length str)%nat with true by (symmetry; apply Nat.ltb_lt; lia). eauto.
Qed.
Lemma read_bool_ok D p b : fine D p b ->
  same D b (bool_either true true bool_textual_classic (skipn p D)) (read_bool p b).
Proof.
  intros F. unfold read_bool, bool_either, bool_numeric, bool_textual_classic. cbn [first_of].
  destruct (matching_unit_ok D 48 p b F) as (o1 & b1 & E1 & F1 & L1 & H1). rewrite E1. cbn [bind].
  destruct o1 as [q|]; [destruct H1 as [-> Fq]; cbn [same]; eauto 8|destruct H1 as [e1 ->]].
  destruct (matching_unit_ok D 49 p b1 F1) as (o2 & b2 & E2 & F2 & L2 & H2). rewrite E2. cbn [bind].
  assert (L12 := later_trans _ _ _ L1 L2).
  destruct o2 as [q|]; [destruct H2 as [-> Fq]; cbn [same]; eauto 8|destruct H2 as [e2 ->]].
  destruct (matching_string_ok D [116; 114; 117; 101] p b2 F2) as (o3 & b3 & E3 & F3 & L3 & H3). rewrite E3. cbn [bind].
  assert (L13 := later_trans _ _ _ L12 L3).
  destruct o3 as [q|]; [destruct H3 as [-> Fq]; cbn [same]; eauto 8|destruct H3 as [e3 ->]].
  destruct (matching_string_ok D [102; 97; 108; 115; 101] p b3 F3) as (o4 & b4 & E4 & F4 & L4 & H4). rewrite E4. cbn [bind].
  assert (L14 := later_trans _ _ _ L13 L4).
  destruct o4 as [q|]; [destruct H4 as [-> Fq]; cbn [same]; eauto 8|destruct H4 as [e4 ->]]. reflexivity.
Qed.

(** * Characters *)
Definition char_of (s : list Z) : outcome (Z * list Z) :=
  match s with c :: s' => Ok (c, s') | [] => Err EndOfInput end.
Lemma read_char_ok D p b : fine D p b -> same D b (char_of (skipn p D)) (read_char p b).
Proof.
  intros F. unfold read_char. assert (FL := fine_len D p b F).
  destruct (end_ok D p p b F) as (b1 & E1 & F1 & L1 & _). rewrite E1. cbn [bind].
  destruct (Nat.leb_spec (length D) p) as [Q|Q]; [rewrite skipn_all2 by exact Q; reflexivity|].
  destruct (next_ok D p p b1 F1 Q) as (b2 & E2 & F2 & P2 & L2 & _). rewrite E2. cbn [bind].
  destruct (deref_ok D p (S p) b2 P2 Q) as (b3 & E3 & F3 & L3 & _). rewrite E3. cbn [bind].
  rewrite (nth_skipn_cons D p Q). cbn [char_of same]. eauto 9 using later_trans.
Qed.
Lemma decode_valid_ascii c : 0 <= c < 128 -> decode_cp_valid U8 [c] = Ok c.
Proof.
  intros H. cbn [decode_cp_valid decode_utf8_valid]. replace (c <? 0x80) with true by lia. reflexivity.
Qed.
Lemma read_char32_ok D fuel p b : ascii D -> fine D p b -> (p < length D)%nat ->
  same D b (char_of (skipn p D)) (read_char32 fuel p b).
Proof.
  intros HA F Q. unfold read_char32.
  destruct (code_point_ascii D fuel p p b HA F Q) as (b1 & E1 & F1 & L1 & P1 & _). rewrite E1. cbn [bind].
  rewrite decode_valid_ascii by (apply ascii_nth; assumption). rewrite (nth_skipn_cons D p Q). cbn [bind char_of same]. eauto 8.
Qed.
Lemma char32_string s : ascii s -> s <> [] -> code_point_read U8 s = char_of s.
Proof.
  intros H HN. destruct s as [|c s]; [congruence|]. inversion H as [|? ? Hc _]; subst.
  unfold code_point_read, read_code_point_into. rewrite ascii_len by exact Hc. cbn [length Nat.leb skipn firstn bind].
  rewrite decode_valid_ascii by exact Hc. reflexivity.
Qed.

(** * A field *)

(** Where reading starts, and what is read there *)
Definition start (k : kind) (s : list Z) : list Z := if skips k then skip_ws s else s.
Definition core (k : kind) (s : list Z) : outcome (scanned * list Z) :=
  match k with
  | FInt t => with_result RNumber (int_read_default plain_src t s)
  | FWord => with_result RText (Ok (word_of s))
  | FBool => with_result RTruth (bool_either true true bool_textual_classic s)
  | FChar | FChar32 => with_result RNumber (char_of s)
  end.
Lemma start_suffix k s : exists n, start k s = skipn n s /\ (n + length (start k s) = length s)%nat.
Proof. unfold start. destruct (skips k); [apply skip_ws_suffix|]. exists O. auto. Qed.

(** What a field gives on a string of these characters. *)
Lemma default_string {V} (f : list Z -> outcome (V * list Z)) s : ascii s ->
  default_read string_src true f s = match skip_ws s with [] => Err EndOfInput | s' => f s' end.
Proof.
  intros HA. unfold default_read, skip_ws_before_if_required, skip_classic_whitespace. cbn [negb].
  destruct s as [|c0 s0] eqn:E0; [reflexivity|]. rewrite <- E0 in *. clear E0 c0 s0.
  rewrite (read_while_drop string_src s (or_intror (conj eq_refl eq_refl)) (ascii_bytes s HA)).
  cbn [s_enc string_src bind]. rewrite skip_ws_drop by exact HA.
  destruct (skip_ws s) as [|c s'] eqn:E; reflexivity.
Qed.
Lemma field_string k s : ascii s -> from_string k s =
  match start k s with [] => Err EndOfInput | s' => core k s' end.
Proof.
  intros HA. assert (HS : ascii (skip_ws s)) by (destruct (skip_ws_suffix s) as (n & -> & _); apply ascii_skipn, HA).
  unfold start. destruct k as [t| | | |]; cbn [from_string core skips].
  - unfold int_default. rewrite default_string by exact HA.
    destruct (skip_ws s) as [|c s']; [reflexivity|]. rewrite (int10_src string_src); [reflexivity..|apply ascii_bytes, HS].
  - unfold string_default. rewrite default_string by exact HA.
    destruct (skip_ws s) as [|c s']; [reflexivity|]. rewrite word_string by exact HS. reflexivity.
  - unfold bool_default. rewrite default_string by exact HA. destruct (skip_ws s); reflexivity.
  - destruct s; reflexivity.
  - destruct s as [|c s]; [reflexivity|]. unfold char_default, default_read, skip_ws_before_if_required. cbn [negb bind].
    unfold char_default_read. cbn [string_src s_enc]. rewrite char32_string by (assumption || discriminate). reflexivity.
Qed.

Lemma same_result {A} (g : A -> scanned) D b x m : same D b x m -> same D b (with_result g x) (with_result3 g m).
Proof.
  unfold same, with_result, with_result3. destruct x as [[v rest]| | |]; cbn [bind]; [|intros ->; reflexivity..].
  intros (q & b' & -> & H). cbn [bind]. eauto.
Qed.
Lemma from_buffer_ok D fuel k p b : ascii D -> fine D p b -> (length D < fuel)%nat -> (p < length D)%nat ->
  same D b (core k (skipn p D)) (from_buffer fuel k p b).
Proof.
  intros HA F HF Q. destruct k; cbn [core from_buffer]; apply same_result.
  - apply read_int_ok; auto using ascii_bytes.
  - apply read_word_ok; assumption.
  - apply read_bool_ok, F.
  - apply read_char_ok, F.
  - apply read_char32_ok; assumption.
Qed.

Lemma generic_field D fuel k p b : ascii D -> fine D p b -> (length D < fuel)%nat ->
  same D b (from_string k (skipn p D))
    ('(e, b) <- it_end p b ;;
     if e : bool then Err EndOfInput
     else '(q, b) <- (if skips k then skip_space fuel p b else Ok (p, b)) ;; from_buffer fuel k q b).
Proof.
  intros HA F0 HF. rewrite field_string by (apply ascii_skipn, HA). unfold skip_space, start.
  destruct (end_ok D p p b F0) as (b0 & E0 & F & L0 & _). rewrite E0. cbn [bind].
  destruct (Nat.leb_spec (length D) p) as [Q0|Q0].
  { rewrite skipn_all2 by exact Q0. destruct (skips k); reflexivity. }
  eapply same_later; [exact L0|]. destruct (skips k).
  2:{ cbn [bind]. assert (HB := from_buffer_ok D fuel k p b0 HA F HF Q0). rewrite (nth_skipn_cons D p Q0) in HB |- *. exact HB. }
  destruct (while_space_ok D fuel p b0 HA F HF) as (b1 & E1 & F1 & L1). rewrite E1. cbn [bind].
  set (s := skip_ws (skipn p D)) in *.
  assert (HS : s = skipn (pos D s) D).
  { destruct (skip_ws_suffix (skipn p D)) as (n & E & L). fold s in E, L. rewrite skipn_skipn' in E.
    rewrite skipn_length in L. assert (FL := fine_len D p b0 F).
    replace (pos D s) with (p + n)%nat by (unfold pos; lia). exact E. }
  destruct (end_ok D (pos D s) (pos D s) b1 F1) as (b2 & E2 & F2 & L2 & _). rewrite E2. cbn [bind].
  assert (FL := fine_len _ _ _ F1).
  destruct (Nat.leb_spec (length D) (pos D s)) as [Q|Q].
  - rewrite skipn_all2 in HS by exact Q. rewrite HS. reflexivity.
  - cbn [bind]. destruct s as [|c s'] eqn:Es; [unfold pos in Q; cbn [length] in Q; lia|].
    replace (core k (c :: s'))
      with (core k (skipn (pos D (c :: s')) D)) by (rewrite <- HS; reflexivity).
    eapply same_later; [|apply from_buffer_ok; [exact HA|exact F2|exact HF|exact Q]].
    eauto using later_trans.
Qed.

(** Reading stops before the end of [l]: what follows [l] does not matter. *)
Lemma find_if_digits l : Forall (is_digit 10) (firstn (length l - length (find_if (fun c => negb (dec c)) l)) l).
Proof.
  induction l as [|c l IH]; cbn [find_if length]; [constructor|].
  destruct (find_if_skip (fun c => negb (dec c)) l) as (n & _ & L).
  unfold dec at 1. destruct (char_to_int c <? 10) eqn:E; cbn [negb].
  - replace (S (length l) - length (find_if (fun c0 => negb (dec c0)) l))%nat
      with (S (length l - length (find_if (fun c0 => negb (dec c0)) l))) by lia.
    cbn [firstn]. constructor; [|exact IH]. apply char_to_int_is_digit; [lia|]. lia.
  - cbn [length]. rewrite Nat.sub_diag. constructor.
Qed.
Lemma int_local t s x v rest : bytes s ->
  int_read_default plain_src t s = Ok (v, rest) -> rest <> [] ->
  int_read_default plain_src t (s ++ x) = Ok (v, rest ++ x).
Proof.
  intros HB.
  rewrite !int10_plain. destruct s as [|c s]; [discriminate|].
  assert (HSG : exists k sg, parse_numeric_sign (c :: s) = Ok (skipn k (c :: s), sg) /\ (k <= 1)%nat /\
            parse_numeric_sign ((c :: s) ++ x) = Ok (skipn k (c :: s) ++ x, sg)).
  { unfold parse_numeric_sign. cbn [app read_one_of_code_unit existsb].
    destruct (Z.eqb_spec c 43) as [->|E1]; [exists 1%nat, PlusSign; auto|].
    destruct (Z.eqb_spec c 45) as [->|E2]; [exists 1%nat, MinusSign; auto|].
    exists O, DefaultSign. auto. }
  destruct HSG as (k & sg & E1 & _ & E2). rewrite E1, E2. cbn [bind].
  assert (HBT : bytes (skipn k (c :: s))) by (apply bytes_skipn, HB).
  set (text := skipn k (c :: s)) in *. clearbody text. clear E1 E2 HB k c s.
  set (sg' := match sg with DefaultSign => PlusSign | _ => sg end). clearbody sg'.
  destruct (negb (it_signed t) && is_minus sg'); [discriminate|].
  destruct (find_if_skip (fun c => negb (dec c)) text) as (n & En & Ln).
  assert (HD := find_if_digits text).
  destruct (Nat.eqb_spec (length (find_if (fun c => negb (dec c)) text)) (length text)) as [Q|Q]; [discriminate|].
  set (buf := firstn (length text - length (find_if (fun c => negb (dec c)) text)) text) in *.
  destruct (parse_integer_value U8 t buf sg' 10) as [[v0 r0]| | |] eqn:EP; cbn [bind]; try discriminate.
  assert (r0 = []).
  { eapply piv_suffix; [exact HD| |exact EP]. unfold buf. clear -HBT.
    apply Forall_forall. intros y Hy. eapply Forall_forall; [exact HBT|].
    rewrite <- (firstn_skipn (length text - length (find_if (fun c => negb (dec c)) text)) text).
    apply in_or_app. left. exact Hy. }
  subst r0. cbn [length]. rewrite Nat.sub_0_r. intros [= <- <-] HR.
  assert (HBL : length buf = (length text - length (find_if (fun c => negb (dec c)) text))%nat).
  { unfold buf. rewrite firstn_length. lia. }
  assert (HN : find_if (fun c => negb (dec c)) text <> []).
  { intros E0. apply HR. rewrite HBL, E0. cbn [length]. rewrite Nat.sub_0_r. apply skipn_all. }
  rewrite find_if_app by exact HN. rewrite !app_length.
  replace (length text + length x - (length (find_if (fun c => negb (dec c)) text) + length x))%nat
    with (length buf) by lia.
  replace (_ =? _)%nat with false by (symmetry; apply Nat.eqb_neq; lia).
  rewrite firstn_app. replace (length buf - length text)%nat with O by lia. cbn [firstn]. rewrite app_nil_r.
  replace (firstn (length buf) text) with buf by (rewrite HBL at 1; reflexivity).
  rewrite EP. cbn [bind length]. rewrite Nat.sub_0_r.
  f_equal. f_equal. rewrite skipn_le_app by lia. reflexivity.
Qed.

Lemma matching_local str s x r : read_matching_string str s = inl r -> read_matching_string str (s ++ x) = inl (r ++ x).
Proof.
  unfold read_matching_string. rewrite app_length. destruct (Nat.ltb_spec (length s) (length str)) as [Q|Q]; [discriminate|].
  replace (length s + length x <? length str)%nat with false by (symmetry; apply Nat.ltb_ge; lia).
  rewrite !starts_with_eq by (try rewrite app_length; lia). rewrite firstn_app.
  replace (length str - length s)%nat with O by lia. cbn [firstn]. rewrite app_nil_r.
  destruct (list_eqb _ _); [|discriminate]. intros [= <-]. rewrite skipn_le_app by lia. reflexivity.
Qed.
Lemma matching_head str s r : read_matching_string str s = inl r -> exists t, s = str ++ t.
Proof.
  unfold read_matching_string. destruct (_ <? _)%nat; [discriminate|]. destruct (starts_with str s) eqn:E; [|discriminate].
  intros _. apply starts_with_inv, E.
Qed.
Lemma bool_local s x v rest : bool_either true true bool_textual_classic s = Ok (v, rest) ->
  bool_either true true bool_textual_classic (s ++ x) = Ok (v, rest ++ x).
Proof.
  unfold bool_either, bool_numeric, bool_textual_classic. destruct s as [|c s]; [discriminate|].
  cbn [app read_matching_code_unit]. change (c :: s ++ x) with ((c :: s) ++ x).
  destruct (c =? 48); [intros [= <- <-]; reflexivity|].
  destruct (c =? 49); [intros [= <- <-]; reflexivity|].
  destruct (read_matching_string [116; 114; 117; 101] (c :: s)) as [r|e] eqn:E1.
  { rewrite (matching_local _ _ x _ E1). intros [= <- <-]. reflexivity. }
  destruct (read_matching_string [102; 97; 108; 115; 101] (c :: s)) as [r|e'] eqn:E2; [|discriminate].
  intros [= <- <-]. destruct (read_matching_string [116; 114; 117; 101] ((c :: s) ++ x)) as [r'|e''] eqn:E3.
  - apply matching_head in E2. apply matching_head in E3. destruct E2 as [t2 E2]. destruct E3 as [t3 E3].
    rewrite E2 in E3. discriminate.
  - rewrite (matching_local _ _ x _ E2). reflexivity.
Qed.
Lemma word_local s x w rest : word_of s = (w, rest) -> rest <> [] -> word_of (s ++ x) = (w, rest ++ x).
Proof.
  unfold word_of. intros [= <- <-] H. rewrite find_if_app by exact H. rewrite !app_length.
  destruct (find_if_skip is_ws s) as (n & _ & L).
  replace (length s + length x - (length (find_if is_ws s) + length x))%nat with (length s - length (find_if is_ws s))%nat by lia.
  rewrite firstn_app. replace (length s - length (find_if is_ws s) - length s)%nat with O by lia. cbn [firstn].
  rewrite app_nil_r. reflexivity.
Qed.
Lemma with_result_ok {A} (g : A -> scanned) (m : outcome (A * list Z)) v rest :
  with_result g m = Ok (v, rest) -> exists a, m = Ok (a, rest) /\ v = g a.
Proof. unfold with_result. destruct m as [[a r]| | |]; try discriminate. cbn [bind]. intros [= <- <-]. eauto. Qed.
(** Is what is read settled by what is there? *)
Definition decided (k : kind) (rest : list Z) : Prop :=
  match k with FInt _ | FWord => rest <> [] | _ => True end.
Lemma field_local k l x v rest : ascii (l ++ x) ->
  from_string k l = Ok (v, rest) -> decided k rest ->
  from_string k (l ++ x) = Ok (v, rest ++ x).
Proof.
  intros HA. assert (HL := proj1 (proj1 (ascii_app l x) HA)). rewrite !field_string by assumption.
  assert (HSt : start k l <> [] -> start k (l ++ x) = start k l ++ x).
  { unfold start. destruct (skips k); [apply skip_ws_app|reflexivity]. }
  destruct (start_suffix k l) as (n & En & _).
  destruct (start k l) as [|c l'] eqn:E; [discriminate|].
  rewrite HSt by discriminate. cbn [app].
  assert (HB : bytes (c :: l')) by (rewrite En; apply bytes_skipn, ascii_bytes, HL).
  change (c :: l' ++ x) with ((c :: l') ++ x). clear HSt En E HL HA.
  destruct k as [t| | | |]; cbn [core decided]; intros H HD; apply with_result_ok in H; destruct H as (a & H & ->).
  - rewrite (int_local t _ x a rest HB H HD). reflexivity.
  - assert (H' : word_of (c :: l') = (a, rest)) by congruence. rewrite (word_local _ x a rest H' HD). reflexivity.
  - rewrite (bool_local _ x a rest H). reflexivity.
  - injection H as <- <-. reflexivity.
  - injection H as <- <-. reflexivity.
Qed.

Lemma skipn_suf k (s : list Z) : exists h, s = h ++ skipn k s.
Proof. exists (firstn k s). symmetry. apply firstn_skipn. Qed.
Lemma suf_trans (a b c : list Z) : (exists h, b = h ++ a) -> (exists h, c = h ++ b) -> exists h, c = h ++ a.
Proof. intros [h ->] [h' ->]. exists (h' ++ h). apply app_assoc. Qed.
Lemma int_suffix t s v rest : int_read_default plain_src t s = Ok (v, rest) -> exists h, s = h ++ rest.
Proof.
  intros E.
  rewrite int10_plain in E.
  assert (HSG := sign_suffix s).
  destruct (parse_numeric_sign s) as [[text sg]| | |]; try discriminate. cbn [bind] in E.
  destruct (HSG _ _ eq_refl) as [_ [k ->]].
  match type of E with (if ?x then _ else _) = _ => destruct x; [discriminate|] end.
  destruct (_ =? _)%nat; [discriminate|].
  destruct (parse_integer_value _ _ _ _ _) as [[v' r']| | |]; try discriminate. cbn [bind] in E.
  injection E as _ <-. eapply suf_trans; apply skipn_suf.
Qed.
Lemma bool_inv s v rest : bool_either true true bool_textual_classic s = Ok (v, rest) ->
  exists w, s = w ++ rest /\ In (w, v) [([48], false); ([49], true); ([116; 114; 117; 101], true); ([102; 97; 108; 115; 101], false)].
Proof.
  assert (HM : forall str r, read_matching_string str s = inl r -> s = str ++ r).
  { intros str r. unfold read_matching_string. destruct (_ <? _)%nat; [discriminate|]. destruct (starts_with str s) eqn:E; [|discriminate].
    intros [= <-]. apply starts_with_inv in E. destruct E as [t ->]. rewrite skipn_app, skipn_all, Nat.sub_diag. reflexivity. }
  unfold bool_either, bool_numeric, bool_textual_classic.
  destruct (read_matching_code_unit 48 s) as [r1|e1] eqn:E1.
  { intros [= <- <-]. destruct s as [|c s]; [discriminate|]. cbn [read_matching_code_unit] in E1.
    destruct (Z.eqb_spec c 48) as [->|]; [|discriminate]. injection E1 as ->. exists [48]. cbn. auto. }
  destruct (read_matching_code_unit 49 s) as [r2|e2] eqn:E2.
  { intros [= <- <-]. destruct s as [|c s]; [discriminate|]. cbn [read_matching_code_unit] in E2.
    destruct (Z.eqb_spec c 49) as [->|]; [|discriminate]. injection E2 as ->. exists [49]. cbn. auto. }
  destruct (read_matching_string [116; 114; 117; 101] s) as [r3|e3] eqn:E3.
  { intros [= <- <-]. apply HM in E3. eexists. split; [exact E3|]. cbn. auto. }
  destruct (read_matching_string [102; 97; 108; 115; 101] s) as [r4|e4] eqn:E4; [|discriminate].
  intros [= <- <-]. apply HM in E4. eexists. split; [exact E4|]. cbn. auto.
Qed.
Lemma word_split s w rest : word_of s = (w, rest) -> s = w ++ rest.
Proof.
  unfold word_of. destruct (find_if_skip is_ws s) as (n & E & L). intros [= <- <-].
  rewrite E at 2. replace n with (length s - length (find_if is_ws s))%nat by lia. symmetry. apply firstn_skipn.
Qed.
Lemma field_suffix k s v rest : ascii s -> from_string k s = Ok (v, rest) -> exists h, s = h ++ rest.
Proof.
  intros HA EI. rewrite field_string in EI by exact HA.
  apply suf_trans with (b := start k s); [|destruct (start_suffix k s) as (n & -> & _); apply skipn_suf].
  destruct (start k s) as [|c s'] eqn:Es; [discriminate|]. clear HA Es s. revert EI.
  generalize (c :: s'). clear. intros s.
  destruct k as [t| | | |]; cbn [core]; intros H; apply with_result_ok in H; destruct H as (a & H & _).
  - eapply int_suffix, H.
  - assert (H' : word_of s = (a, rest)) by congruence. apply word_split in H'. eauto.
  - apply bool_inv in H. destruct H as (w & H & _). eauto.
  - destruct s as [|d s]; [discriminate|]. injection H as _ <-. exists [d]. reflexivity.
  - destruct s as [|d s]; [discriminate|]. injection H as _ <-. exists [d]. reflexivity.
Qed.

(** Is the whole rest of the source in the current segment, or is the segment not used? *)
Definition safe (D : list Z) (p : nat) (b : buffer) : Prop :=
  is_segment_contiguous p b = Ok true -> get_segment_starting_at p b = Ok (skipn p D).

Lemma fine_contiguous D p b : fine D p b -> exists c, is_segment_contiguous p b = Ok c.
Proof. intros F. unfold is_segment_contiguous. destruct (seg_ok D p b F) as (l & t & E & _). rewrite E. cbn [bind]. eauto. Qed.

Lemma read_field_ok D fuel k p b : ascii D -> fine D p b -> (length D < fuel)%nat ->
  safe D p b \/
  (exists seg v rest, get_segment_starting_at p b = Ok seg /\
     from_string k seg = Ok (v, rest) /\ decided k rest) ->
  same D b (from_string k (skipn p D)) (read_field fuel k p b).
Proof.
  intros HA F HF HS. unfold read_field.
  destruct (fine_contiguous D p b F) as [c Ec]. rewrite Ec. cbn [bind].
  destruct c; [|apply generic_field; assumption].
  assert (FL := fine_len D p b F).
  destruct HS as [HS|(seg & v & rest & ES & EI & HR)].
  - rewrite (HS Ec). cbn [bind].
    destruct (from_string k (skipn p D)) as [[v rest]| | |] eqn:EI; cbn [bind same]; try reflexivity.
    destruct (field_suffix k (skipn p D) v rest (ascii_skipn p D HA) EI) as [h Eh].
    assert (HLen : (length h + length rest = length D - p)%nat).
    { rewrite <- app_length, <- Eh. apply skipn_length. }
    destruct (next_n_ok D (length (skipn p D) - length rest) p p b F) as (b' & E' & F' & L' & P' & _).
    { rewrite skipn_length. lia. }
    rewrite E'. cbn [bind]. do 2 eexists. split; [reflexivity|].
    split; [|split; [apply P', F|exact L']].
    rewrite <- skipn_skipn'. rewrite Eh. rewrite app_length.
    replace (length h + length rest - length rest)%nat with (length h) by lia.
    rewrite skipn_app, skipn_all, Nat.sub_diag. reflexivity.
  - destruct (seg_ok D p b F) as (seg' & x & ES' & ED). rewrite ES in ES'. injection ES' as <-.
    assert (HA' := ascii_skipn p D HA). rewrite ED in HA'.
    rewrite ED, (field_local k seg x v rest HA' EI HR). rewrite ES. cbn [bind]. rewrite EI. cbn [bind same].
    destruct (field_suffix k seg v rest (proj1 (proj1 (ascii_app _ _) HA')) EI) as [h Eh].
    assert (HLen : (length seg + length x = length D - p)%nat).
    { rewrite <- app_length, <- ED. apply skipn_length. }
    destruct (next_n_ok D (length seg - length rest) p p b F) as (b' & E' & F' & L' & P' & _); [lia|].
    rewrite E'. cbn [bind]. do 2 eexists. split; [reflexivity|].
    split; [|split; [apply P', F|exact L']].
    rewrite <- skipn_skipn', ED, Eh. rewrite app_length.
    replace (length h + length rest - length rest)%nat with (length h) by lia.
    rewrite <- app_assoc, skipn_app, skipn_all, Nat.sub_diag. reflexivity.
Qed.
