(** Whole format strings with [{}] fields: a source behind a buffer against a string. *)
From Verif Require Import Prelude UnicodeModel UnicodeSpec UnicodeProofs WhitespaceModel
  WhitespaceSpec WhitespaceProofs ReadModel ReadProofs SpecsModel ArgsModel FormatModel FormatSpec Tables
  IntModel IntSpec IntProofs IntTotalProofs ArgReaderModel ScalarModel ScalarProperties StringModel
  StringSafeProofs VscanModel VscanSpec VscanProofs VscanSpecProofs
  VscanProperties BufferModel BufferSpec BufferProofs SegmentModel SegmentSpec SegmentProofs.
Local Open Scope Z_scope.

(** * The string side *)
Fixpoint srun (fs : fields) (last s : list Z) : outcome (list scanned * list Z) :=
  match fs with
  | [] => match literal false last s with Some s' => Ok ([], s') | None => Err InvalidLiteral end
  | (l, k) :: fs' =>
      match literal false l s with
      | None => Err InvalidLiteral
      | Some s1 =>
          '(v, s2) <- from_string k s1 ;;
          '(vs, s3) <- srun fs' last s2 ;;
          Ok (v :: vs, s3)
      end
  end.

Lemma tokens_cons l k fs last : tokens ((l, k) :: fs) last = map Lit l ++ Field None None :: tokens fs last.
Proof. unfold tokens. cbn [flat_map]. rewrite <- !app_assoc. reflexivity. Qed.
Section Run.
Variable nargs : Z.
Variable read : Z -> option desc -> list Z -> outcome (scanned * list Z).
Variable fail : list Z -> err -> err.
Notation go := (VscanSpec.run scanned U8 nargs read false fail).

Lemma run_lits ts next used log :
  (forall s, go ts next used true s log = go ts next used false s log) ->
  forall l ws s, go (map Lit l ++ ts) next used ws s log =
  match literal ws l s with Some s' => go ts next used false s' log | None => Err InvalidLiteral end.
Proof.
  intros HW. induction l as [|c l IH]; intros ws s; cbn [map app literal].
  - destruct ws; [apply HW|reflexivity].
  - cbn [VscanSpec.run]. destruct (is_ws c).
    + destruct ws; [apply IH|]. destruct s; [reflexivity|apply IH].
    + destruct s as [|d s]; [reflexivity|]. destruct (d =? c); [apply IH|reflexivity].
Qed.

Lemma run_fields : forall fs last next used s log,
  (forall i x, nth_error fs i = Some x -> forall s, read (next + Z.of_nat i) None s = from_string (snd x) s) ->
  nargs = next + Z.of_nat (length fs) -> 0 <= next ->
  (forall i, In i used <-> 0 <= i < next) ->
  forall log' rest,
  go (tokens fs last) next used false s log = Ok (log', rest) <->
  exists vs, srun fs last s = Ok (vs, rest) /\ log' = log ++ combine (zseq next (length vs)) vs.
Proof.
  induction fs as [|[l k] fs IH]; intros last next used s log HR HN H0 HU log' rest.
  - unfold tokens. cbn [flat_map app srun]. rewrite <- (app_nil_r (map Lit last)).
    rewrite run_lits by reflexivity. destruct (literal false last s) as [s'|].
    + cbn [VscanSpec.run]. replace (covers nargs used) with true.
      * split.
        -- intros [= <- <-]. exists []. split; [reflexivity|]. cbn. symmetry. apply app_nil_r.
        -- intros (vs & [= <- <-] & ->). cbn. rewrite app_nil_r. reflexivity.
      * symmetry. unfold covers. apply forallb_forall. intros i Hi. apply in_zseq in Hi.
        apply existsb_exists. exists i. split; [apply HU; cbn [length] in HN; lia|apply Z.eqb_refl].
    + split; [discriminate|]. intros (vs & E & _). discriminate.
  - rewrite tokens_cons. cbn [srun].
    rewrite run_lits by reflexivity.
    destruct (literal false l s) as [s1|]; [|split; [discriminate|intros (vs & E & _); discriminate]].
    cbn [VscanSpec.run].
    replace (nargs <=? next) with false by (cbn [length] in HN; lia).
    replace (existsb (Z.eqb next) used) with false.
    2:{ symmetry. apply Bool.not_true_iff_false. intros E. apply existsb_exists in E.
        destruct E as (x & Hx & Ex). apply Z.eqb_eq in Ex. subst x. apply HU in Hx. lia. }
    cbn [orb].
    assert (HR0 := HR O (l, k) eq_refl s1). rewrite Z.add_0_r in HR0. cbn [snd] in HR0. rewrite HR0.
    destruct (from_string k s1) as [[v s2]| | |]; cbn [bind];
      try (split; [discriminate|intros (vs & E & _); discriminate]).
    rewrite IH.
    + split.
      * intros (vs & E & ->). rewrite E. cbn [bind]. exists (v :: vs). split; [reflexivity|].
        cbn [length zseq combine]. rewrite <- app_assoc. reflexivity.
      * intros (vs & E & ->). destruct (srun fs last s2) as [[vs2 s3]| | |]; try discriminate.
        cbn [bind] in E. injection E as <- <-. exists vs2. split; [reflexivity|].
        cbn [length zseq combine]. rewrite <- app_assoc. reflexivity.
    + intros i x E s'. rewrite <- (HR (S i) x E s'). f_equal. lia.
    + cbn [length] in HN. lia.
    + lia.
    + intros i. cbn [In]. rewrite HU. lia.
Qed.
End Run.

Lemma tokens_fields fs last id d : In (Field id d) (tokens fs last) -> id = None /\ d = None.
Proof.
  unfold tokens. rewrite in_app_iff, in_flat_map. intros [([l t] & _ & H)|H].
  - apply in_app_iff in H. destruct H as [H|[H|[]]]; [|injection H as <- <-; auto].
    apply in_map_iff in H. destruct H as (x & H & _). discriminate.
  - apply in_map_iff in H. destruct H as (x & H & _). discriminate.
Qed.
Lemma wf_lits e ok l ts next : Forall (fun c => lit_ok e c) l -> wf_tokens e ok ts next ->
  wf_tokens e ok (map Lit l ++ ts) next.
Proof. intros H HT. induction H; cbn [map app wf_gtokens]; auto. Qed.

(** Format strings that can be written: ASCII text, fewer than 64 fields *)
Definition kind_ok (k : kind) : Prop := match k with FInt t => type_ok t | _ => True end.
Definition proper (fs : fields) (last : list Z) : Prop :=
  (length fs < 64)%nat /\ Forall (fun '(l, k) => ascii l /\ kind_ok k) fs /\ ascii last.

Lemma result_suffix {A} (g : A -> scanned) (f : list Z -> outcome (A * list Z)) s v rest :
  reader_ok A string_src f -> units U8 s -> with_result g (f s) = Ok (v, rest) -> suffix rest s.
Proof.
  intros H Hu E. apply with_result_ok in E. destruct E as (a & E & _).
  destruct (H s Hu) as [(v1 & s1 & E1 & Hs)|[e E1]]; rewrite E1 in E; [|discriminate]. injection E as _ <-. exact Hs.
Qed.
Lemma kind_suffix k s v rest : kind_ok k -> bytes s -> from_string k s = Ok (v, rest) -> suffix rest s.
Proof.
  intros HK HB. destruct k as [t| | | |]; cbn [from_string kind_ok] in *.
  - apply result_suffix; [|exact HB]. apply default_read_ok. intros y Hy.
    destruct (int_default_total string_src t y 10) as [(v1 & s1 & E1 & Hs & _)|[e E1]];
      try (unfold base_ok; lia); auto; [intros _; exact Hy| |]; unfold int_read_default; rewrite E1; eauto.
  - intros E. apply with_result_ok in E. destruct E as (a & E & _).
    destruct (string_default_total (DString U8) string_src s HB) as [[e E1]|(v1 & r1 & pre & part & E1 & Es & _)];
      rewrite E1 in E; [discriminate|]. injection E as _ <-. exists (pre ++ part). rewrite <- app_assoc. exact Es.
  - apply result_suffix; [|exact HB]. apply default_read_ok, bool_either_ok, classic_ok.
  - apply result_suffix; [|exact HB]. apply default_read_ok, code_unit_ok.
  - intros E. apply with_result_ok in E. destruct E as (a & E & _). destruct s as [|c s]; [discriminate|].
    unfold char_default, default_read, skip_ws_before_if_required, char_default_read, code_point_read in E. cbn [bind s_enc string_src negb] in E.
    destruct (read_code_point_into_total U8 c s) as (r1 & cps & E1 & Hs & _). rewrite E1 in E. cbn [bind] in E.
    destruct cps; [discriminate|]. destruct (decode_cp_valid U8 _) as [cp| | |]; try discriminate. cbn [bind] in E. injection E as _ <-.
    apply suffix_cons, Hs.
Qed.

Lemma string_scan_run fs last s log rest : proper fs last -> bytes s ->
  string_scan fs last s = Ok (log, rest) <-> exists vs, srun fs last s = Ok (vs, rest) /\ log = numbered vs.
Proof.
  intros (HL & HF & HLast) HB. unfold string_scan, layout.
  set (args := map (fun '(_, k) => argument k) fs).
  assert (HNth : forall i a, nth_error args i = Some a ->
            exists l k, nth_error fs i = Some (l, k) /\ a = argument k).
  { intros i a E. unfold args in E. rewrite nth_error_map in E. destruct (nth_error fs i) as [[l t]|]; [|discriminate].
    injection E as <-. eauto. }
  assert (HS : setup string_src narrow args (tokens fs last) s).
  { split; [unfold args; rewrite map_length; exact HL|]. split; [right; auto|]. split; [reflexivity|].
    split.
    - intros i d x v x' Hx. unfold read_arg. destruct (nth_error args (Z.to_nat i)) as [a|] eqn:E; [|discriminate].
      destruct (HNth _ _ E) as (l & t & E' & ->). apply nth_error_In in E'.
      assert (HT := proj1 (Forall_forall _ _) HF _ E'). cbn in HT. destruct HT as [_ HT].
      destruct d; cbn [option_map ar_specs ar_default argument]; [discriminate|]. apply kind_suffix; assumption.
    - split; [|split; [|split]].
      + apply Forall_forall. intros a Ha. apply In_nth_error in Ha. destruct Ha as [i Ha].
        destruct (HNth _ _ Ha) as (l & k & _ & ->). destruct k; reflexivity.
      + left. intros id d H. apply tokens_fields in H. apply H.
      + assert (G : forall next, wf_tokens U8 (spec_ok scanned string_src narrow args) (tokens fs last) next); [|apply G].
        clearbody args. clear -HF HLast. unfold tokens. induction HF as [|[l k] fs [Hl _] HF IH]; intros next; cbn [flat_map app].
        * rewrite <- (app_nil_r (map Lit last)). apply wf_lits; [exact HLast|exact I].
        * rewrite <- !app_assoc. apply wf_lits; [exact Hl|]. cbn [app wf_gtokens]. split; [exact I|].
          split; [discriminate|apply IH].
      + exact HB. }
  assert (HC := C18_tokens_partial scanned string_src narrow args (tokens fs last) s (log, rest) HS).
  change (s_enc string_src) with U8 in HC.
  change (Config U8 true false false true) with narrow. rewrite HC. clear HC HS.
  unfold expected, scan_spec. change (s_enc string_src) with U8.
  rewrite run_fields.
  - reflexivity.
  - intros i [l t] E x. cbn [snd]. unfold meant, read_arg. rewrite Z.add_0_l, Nat2Z.id.
    unfold args. rewrite nth_error_map, E. reflexivity.
  - unfold args. rewrite map_length. lia.
  - lia.
  - intros i. cbn [In]. lia.
Qed.

(** * Literal text from a buffer *)
Lemma skip_ascii_eq s : skip_ascii_ws s = skip_ws s.
Proof. induction s as [|c s IH]; cbn; [reflexivity|]. rewrite IH. reflexivity. Qed.
Lemma literal_skip l s : literal true l s = literal true (skip_ws l) s.
Proof. induction l as [|c l IH]; cbn [literal skip_ws]; [reflexivity|]. destruct (is_ws c) eqn:E; [exact IH|]. cbn [literal]. rewrite E. reflexivity. Qed.
Lemma skip_ws_head l : match skip_ws l with c :: _ => is_ws c = false | [] => True end.
Proof. induction l as [|c l IH]; cbn [skip_ws]; [exact I|]. destruct (is_ws c) eqn:E; [exact IH|exact E]. Qed.
Lemma literal_flag l s : match l with c :: _ => is_ws c = false | [] => True end -> literal true l s = literal false l s.
Proof. destruct l as [|c l]; [reflexivity|]. intros H. cbn [literal]. rewrite H. reflexivity. Qed.

(** [D] from position [q] on, when [skip_ws] leaves it *)
Lemma pos_skip D p : (p <= length D)%nat ->
  skip_ws (skipn p D) = skipn (pos D (skip_ws (skipn p D))) D /\ (p <= pos D (skip_ws (skipn p D)) <= length D)%nat.
Proof.
  intros H. destruct (skip_ws_suffix (skipn p D)) as (n & E & L).
  rewrite skipn_length in L. set (s := skip_ws (skipn p D)) in *.
  assert (HP : pos D s = (p + n)%nat) by (unfold pos; lia). rewrite HP. rewrite skipn_skipn' in E. split; [exact E|].
  unfold pos in HP. lia.
Qed.

Lemma literal_text_ok D : ascii D -> forall fuel l p b, ascii l -> fine D p b ->
  (length D + length l < fuel)%nat ->
  match literal false l (skipn p D) with
  | Some s => exists q b', literal_text fuel l p b = Ok (q, b') /\ s = skipn q D /\ fine D q b' /\ later b b'
  | None => literal_text fuel l p b = Err InvalidLiteral
  end.
Proof.
  intros HA. induction fuel as [|f IH]; intros l p b Hl F HF; [lia|].
  destruct l as [|c l]; cbn [literal literal_text].
  { exists p, b. split; [reflexivity|]. split; [reflexivity|]. split; [exact F|apply later_refl]. }
  inversion Hl as [|? ? Hc Hl']; subst. cbn [length] in HF.
  assert (FL := fine_len D p b F).
  destruct (end_ok D p p b F) as (b1 & E1 & F1 & L1 & _). rewrite E1. cbn [bind].
  destruct (first_char_lit U8 c l ltac:(discriminate) Hc) as [EF EI]. rewrite EF. cbn [bind].
  destruct (Nat.leb_spec (length D) p) as [Q|Q].
  { rewrite skipn_all2 by exact Q. destruct (is_ws c); reflexivity. }
  rewrite EI, <- is_ws_cp. destruct (is_ws c) eqn:EW.
  - destruct (while_space_ok D (S f) p b1 HA F1 ltac:(lia)) as (b2 & E2 & F2 & L2). rewrite E2. cbn [bind].
    rewrite (read_while_drop string_src l (or_intror (conj eq_refl eq_refl)) (ascii_bytes l Hl')).
    cbn [bind s_enc string_src]. rewrite (skip_ws_drop l Hl').
    assert (HNE : match skipn p D with [] => None | _ :: _ => literal true l (drop_space U8 (skipn p D)) end
                  = literal true l (drop_space U8 (skipn p D))) by (rewrite (nth_skipn_cons D p Q); reflexivity).
    rewrite HNE. clear HNE.
    rewrite literal_skip, literal_flag by apply skip_ws_head.
    rewrite (skip_ws_drop (skipn p D) (ascii_skipn p D HA)).
    destruct (pos_skip D p FL) as [EP LP].
    set (q := pos D (skip_ws (skipn p D))) in *. rewrite EP.
    assert (HS := skip_ws_len l).
    specialize (IH (skip_ws l) q b2). 
    destruct (literal false (skip_ws l) (skipn q D)) as [s|].
    + destruct IH as (q' & b3 & E3 & Es & F3 & L3); [|exact F2|lia|].
      { destruct (skip_ws_suffix l) as (n & -> & _). apply ascii_skipn, Hl'. }
      exists q', b3. split; [exact E3|]. split; [exact Es|]. split; [exact F3|]. eauto using later_trans.
    + apply IH; [|exact F2|lia]. destruct (skip_ws_suffix l) as (n & -> & _). apply ascii_skipn, Hl'.
  - destruct (deref_ok D p p b1 F1 Q) as (b2 & E2 & F2 & L2 & _). rewrite E2. cbn [bind].
    rewrite (nth_skipn_cons D p Q). destruct (nth p D 0 =? c) eqn:Ed; cbn [negb]; [|reflexivity].
    destruct (next_ok D p p b2 F2 Q) as (b3 & E3 & _ & F3 & L3 & _). rewrite E3. cbn [bind].
    specialize (IH l (S p) b3 Hl' F3 ltac:(lia)).
    destruct (literal false l (skipn (S p) D)) as [s|]; [|exact IH].
    destruct IH as (q' & b4 & E4 & Es & F4 & L4). exists q', b4. split; [exact E4|]. split; [exact Es|].
    split; [exact F4|]. eauto using later_trans.
Qed.

(** * The whole scan *)

(** Every field that is reached is read from a segment that has all that is left of the
    source, or not from a segment, or is settled by its segment: a number
    or word leaves a part of it. *)
Definition unaffected (D : list Z) (k : kind) (p : nat) (b : buffer) : Prop :=
  safe D p b \/
  exists seg v rest, get_segment_starting_at p b = Ok seg /\
    from_string k seg = Ok (v, rest) /\ decided k rest.
Fixpoint all_unaffected (D : list Z) (fuel : nat) (fs : fields) (p : nat) (b : buffer) : Prop :=
  match fs with
  | [] => True
  | (l, k) :: fs' =>
      forall q b1, literal_text fuel l p b = Ok (q, b1) ->
        unaffected D k q b1 /\
        forall v q2 b2, read_field fuel k q b1 = Ok (v, q2, b2) -> all_unaffected D fuel fs' q2 b2
  end.
Definition size (fs : fields) (last : list Z) : nat :=
  fold_right (fun '(l, _) n => (length l + n)%nat) (length last) fs.

Lemma scan_pieces_ok D fuel last : ascii D -> ascii last -> forall fs p b,
  Forall (fun '(l, k) => ascii l /\ kind_ok k) fs -> fine D p b ->
  (length D + size fs last < fuel)%nat -> all_unaffected D fuel fs p b ->
  match srun fs last (skipn p D) with
  | Ok (vs, rest) => exists q b', scan_pieces fuel (pieces fs last) p b = Ok (vs, q, b') /\
                       rest = skipn q D /\ fine D q b' /\ later b b'
  | Err e => scan_pieces fuel (pieces fs last) p b = Err e
  | UB => scan_pieces fuel (pieces fs last) p b = UB
  | OutOfFuel => scan_pieces fuel (pieces fs last) p b = OutOfFuel
  end.
Proof.
  intros HA HLast. induction fs as [|[l k] fs IH]; intros p b HFs F HF HU.
  - cbn [size fold_right] in HF. unfold pieces. cbn [flat_map app srun scan_pieces].
    assert (HL := literal_text_ok D HA fuel last p b HLast F HF).
    destruct (literal false last (skipn p D)) as [s|]; [|rewrite HL; reflexivity].
    destruct HL as (q & b' & E & Es & F' & L). rewrite E. cbn [bind]. exists q, b'. auto.
  - inversion HFs as [|? ? Hlt HFs']; subst. destruct Hlt as [Hl _]. cbn [size fold_right] in HF.
    change (pieces ((l, k) :: fs) last) with (Text l :: Braces k :: pieces fs last).
    cbn [srun scan_pieces].
    assert (HSz : (size fs last = fold_right (fun '(l, _) n => (length l + n)%nat) (length last) fs)%nat) by reflexivity.
    assert (HL := literal_text_ok D HA fuel l p b Hl F ltac:(lia)).
    destruct (literal false l (skipn p D)) as [s1|]; [|rewrite HL; reflexivity].
    destruct HL as (q & b1 & E & -> & F1 & L1). rewrite E. cbn [bind].
    destruct (HU q b1 E) as [HQ HU2].
    assert (HI := read_field_ok D fuel k q b1 HA F1 ltac:(lia) HQ).
    destruct (from_string k (skipn q D)) as [[v s2]| | |]; cbn [same bind] in HI |- *;
      try (rewrite HI; reflexivity).
    destruct HI as (q2 & b2 & E2 & -> & F2 & L2). rewrite E2. cbn [bind].
    specialize (IH q2 b2 HFs' F2 ltac:(lia) (HU2 v q2 b2 E2)).
    destruct (srun fs last (skipn q2 D)) as [[vs s3]| | |]; cbn [bind]; try (rewrite IH; reflexivity).
    destruct IH as (q3 & b3 & E3 & -> & F3 & L3). rewrite E3. cbn [bind].
    exists q3, b3. split; [reflexivity|]. split; [reflexivity|]. split; [exact F3|]. eauto using later_trans.
Qed.

(** Against the string, position and values. *)
Definition as_string (fs : fields) (last D : list Z) (m : outcome (list scanned * nat * buffer)) : Prop :=
  forall log rest, string_scan fs last D = Ok (log, rest) <->
    exists vs q b', m = Ok (vs, q, b') /\ (q <= length D)%nat /\ log = numbered vs /\ rest = skipn q D.
Lemma scan_as_string D fuel fs last b : proper fs last -> ascii D -> fine D 0 b ->
  (length D + size fs last < fuel)%nat -> all_unaffected D fuel fs 0 b ->
  as_string fs last D (scan_pieces fuel (pieces fs last) 0 b).
Proof.
  intros HP HA F HF HU log rest. rewrite string_scan_run by (auto; apply ascii_bytes, HA).
  destruct HP as (_ & HFs & HLast).
  assert (H := scan_pieces_ok D fuel last HA HLast fs 0 b HFs F HF HU). cbn [skipn] in H.
  destruct (srun fs last D) as [[vs r]| | |].
  - destruct H as (q & b' & E & -> & F' & _). rewrite E. split.
    + intros (vs' & [= <- <-] & ->). exists vs, q, b'. split; [reflexivity|]. split; [apply (fine_len D q b' F')|auto].
    + intros (vs' & q' & b2 & [= <- <- <-] & _ & -> & ->). exists vs. auto.
  - rewrite H. split; [intros (? & ? & _); discriminate|intros (? & ? & ? & ? & _); discriminate].
  - rewrite H. split; [intros (? & ? & _); discriminate|intros (? & ? & ? & ? & _); discriminate].
  - rewrite H. split; [intros (? & ? & _); discriminate|intros (? & ? & ? & ? & _); discriminate].
Qed.

(** * Sources that come in one piece *)
(** The whole content is delivered by one read, or is in the get area. *)
Definition one_piece (f : stream) (D : list Z) : Prop :=
  (get_area f = [] /\ reads f = [D]) \/ (area f = Some D /\ reads f = []).
Inductive one_read (D : list Z) : buffer -> Prop :=
| or_start f : one_piece f D -> one_read D (Buffer [] [] (File f))
| or_view r : one_read D (Buffer [] D (File (Stream (Some D) [] r)))
| or_end r : one_read D (Buffer D [] (File (Stream (Some []) [] r))).
Lemma one_read_fill D b ok b' : one_read D b -> fill b = Ok (ok, b') -> one_read D b'.
Proof.
  intros H. destruct H as [f H|r|r]; cbn [fill app].
  - cbn [bind]. destruct H as [[H1 H2]|[H1 H2]].
    + rewrite H1. unfold fill_buffer. rewrite H2. cbn [get_area area]. intros [= _ <-]. apply or_view.
    + unfold get_area. rewrite H1. destruct D as [|c D].
      * unfold fill_buffer. rewrite H2. cbn [area]. intros [= _ <-]. apply or_end.
      * rewrite H1. intros [= _ <-]. destruct f as [a rs r]; cbn in *; subst. apply or_view.
  - destruct D as [|c D]; cbn [bind].
    + cbn [get_area area fill_buffer reads room]. intros [= _ <-]. apply or_end.
    + unfold unsafe_advance_n. cbn [area]. rewrite Nat.ltb_irrefl. cbn [bind].
      rewrite skipn_all. cbn [get_area area fill_buffer reads room]. intros [= _ <-]. apply or_end.
  - cbn [bind get_area area fill_buffer reads room]. rewrite app_nil_r. intros [= _ <-]. apply or_end.
Qed.
Lemma keep_read (I : buffer -> Prop) : (forall b ok b', I b -> fill b = Ok (ok, b') -> I b') ->
  forall p ok b b', I b -> read_at_position p b = Ok (ok, b') -> I b'.
Proof.
  intros HI p ok b b'. unfold read_at_position. generalize (S (S (p - chars_available b))). intros fuel.
  revert ok b b'. induction fuel as [|f IH]; intros ok b b' HB; cbn [read_at_loop];
    (destruct (p <? chars_available b)%nat; [intros [= _ <-]; exact HB|]); [discriminate|].
  destruct (fill b) as [[ok1 b1]| | |] eqn:E; try discriminate. cbn [bind].
  assert (H1 := HI _ _ _ HB E). destruct ok1; [apply IH, H1|]. intros [= _ <-]. exact H1.
Qed.
Lemma keep_later (I : buffer -> Prop) : (forall b ok b', I b -> fill b = Ok (ok, b') -> I b') ->
  forall b b', later b b' -> I b -> I b'.
Proof. intros HI b b' L. induction L as [|p ok b b1 b2 E L IH]; [auto|]. intros HB. apply IH. eapply keep_read; eauto. Qed.
Lemma one_read_safe D p b : one_read D b -> fine D p b -> safe D p b.
Proof.
  intros H (_ & _ & HA). unfold safe, is_segment_contiguous, get_segment_starting_at, chars_available in *.
  destruct H as [f _|r|r]; cbn [putback view length] in *.
  - replace p with O by lia. cbn. discriminate.
  - rewrite Nat.sub_0_r. change (p <? 0)%nat with false. cbv iota.
    replace (length D <? p)%nat with false by (symmetry; apply Nat.ltb_ge; lia). reflexivity.
  - destruct (Nat.ltb_spec p (length D)) as [Q|Q]; cbn [bind].
    + destruct (skipn p D); discriminate.
    + replace (p - length D)%nat with O by lia. discriminate.
Qed.
Lemma one_read_unaffected D fuel : ascii D -> forall fs p b, Forall (fun '(l, k) => ascii l /\ kind_ok k) fs ->
  one_read D b -> fine D p b -> (length D + size fs [] < fuel)%nat -> all_unaffected D fuel fs p b.
Proof.
  intros HA. induction fs as [|[l k] fs IH]; intros p b HFs HB F HF; cbn [all_unaffected]; [exact I|].
  inversion HFs as [|? ? Hlt HFs']; subst. destruct Hlt as [Hl _]. cbn [size fold_right] in HF.
  assert (HSz : size fs [] = fold_right (fun '(l, _) n => (length l + n)%nat) (length (@nil Z)) fs) by reflexivity.
  intros q b1 E.
  assert (HL := literal_text_ok D HA fuel l p b Hl F ltac:(lia)). rewrite E in HL.
  destruct (literal false l (skipn p D)) as [s|]; [|discriminate].
  destruct HL as (q' & b1' & [= <- <-] & _ & F1 & L1).
  assert (HB1 : one_read D b1) by (eapply keep_later; [apply one_read_fill|exact L1|exact HB]).
  assert (HS : unaffected D k q b1) by (left; apply one_read_safe; assumption).
  split; [exact HS|]. intros v q2 b2 E2.
  assert (HI := read_field_ok D fuel k q b1 HA F1 ltac:(lia) HS). rewrite E2 in HI.
  destruct (from_string k (skipn q D)) as [[v' s2]| | |]; cbn [same] in HI; try discriminate.
  destruct HI as (q2' & b2' & [= <- <- <-] & _ & F2 & L2).
  apply IH; [exact HFs'| |exact F2|lia]. eapply keep_later; [apply one_read_fill|exact L2|exact HB1].
Qed.
Lemma size_le fs last : (size fs [] <= size fs last)%nat.
Proof. induction fs as [|[l k] fs IH]; cbn [size fold_right]; [cbn; lia|]. unfold size in IH. lia. Qed.

(** * Sources that come one character at a time *)
Definition single (b : buffer) : Prop :=
  (length (view b) <= 1)%nat /\ match source b with Forward _ | Getc _ => True | _ => False end.
Lemma single_fill b ok b' : single b -> fill b = Ok (ok, b') -> single b'.
Proof.
  destruct b as [p v o]. intros [H1 H2]. cbn [source view] in *. destruct o as [[|c rest]|f|f|? ? ?]; try contradiction; cbn [fill].
  - intros [= _ <-]. split; cbn; auto.
  - intros [= _ <-]. split; cbn; auto.
  - destruct (read_one f) as [[c|] f']; intros [= _ <-]; split; cbn; auto.
Qed.
Lemma single_putback n b ok b' : single b /\ (n <= length (putback b))%nat -> fill b = Ok (ok, b') ->
  single b' /\ (n <= length (putback b'))%nat.
Proof.
  intros [HS HN] E. split; [eapply single_fill; eassumption|]. destruct b as [p v o].
  destruct HS as [H1 H2]. cbn [source view putback] in *. destruct o as [[|c rest]|f|f|? ? ?]; try contradiction; cbn [fill] in E.
  - injection E as _ <-. exact HN.
  - injection E as _ <-. cbn [putback]. rewrite app_length. lia.
  - destruct (read_one f) as [[c|] f']; injection E as _ <-; cbn [putback]; rewrite app_length; lia.
Qed.
Lemma single_later b b' : later b b' -> single b -> single b' /\ (length (putback b) <= length (putback b'))%nat.
Proof. intros L H. eapply (keep_later (fun x => single x /\ (length (putback b) <= length (putback x))%nat)); [apply single_putback|exact L|auto]. Qed.

(** The position is in the put-back storage, or at the last character. *)
Definition ready (D : list Z) (q : nat) (b : buffer) : Prop :=
  (q < length (putback b) \/ length D <= S q)%nat.
Lemma ready_safe D q b : single b -> fine D q b -> ready D q b -> safe D q b.
Proof.
  intros [HV _] F HR. unfold safe, is_segment_contiguous.
  destruct (segment_at D b q (proj1 F) (proj2 (proj2 F))) as (l & t & E & ED & _). rewrite E. cbn [bind].
  destruct l as [|c l]; [discriminate|].
  destruct (Nat.ltb_spec q (length (putback b))) as [Q|Q]; [discriminate|]. intros _.
  destruct HR as [HR|HR]; [lia|]. f_equal.
  assert (HL : length (skipn q D) = S (length l + length t)) by (rewrite ED; cbn [app length]; rewrite app_length; reflexivity).
  rewrite skipn_length in HL. destruct t; [rewrite ED, app_nil_r; reflexivity|]. cbn [length] in HL. lia.
Qed.

Lemma while_space_ready D fuel p b q b' : ascii D -> fine D p b -> single b -> (length D < fuel)%nat ->
  while_classic_space fuel p b = Ok (q, b') -> (p < q)%nat -> ready D q b'.
Proof.
  intros HA F HS L. unfold while_classic_space.
  assert (FL := fine_len D p b F).
  destruct (seg_ok D p b F) as (seg & t & ES & HD). rewrite ES. cbn [bind].
  assert (HB := ascii_skipn p D HA). rewrite HD in HB. apply ascii_app in HB.
  rewrite nonspace_ascii by apply HB. cbn [bind].
  assert (HLen : (length seg + length t = length D - p)%nat).
  { rewrite <- app_length, <- HD. apply skipn_length. }
  destruct (skip_ws seg) as [|c f] eqn:EW.
  - destruct (next_n_ok D (length seg) p p b F ltac:(lia)) as (b1 & E1 & F1 & L1 & _). rewrite E1. cbn [bind].
    destruct (until_space_ok D HA fuel p b1 F1 ltac:(lia)) as (b2 & E2 & F2 & L2 & N2). rewrite E2.
    intros [= <- <-] _. destruct (single_later b b2 (later_trans _ _ _ L1 L2) HS) as [[HV _] _].
    unfold ready. unfold chars_available in N2. lia.
  - assert (HWL := skip_ws_len seg). rewrite EW in HWL.
    destruct (next_n_ok D (length seg - length (c :: f)) p p b F ltac:(lia)) as (b1 & E1 & F1 & L1 & _).
    rewrite E1. intros [= <- <-] HQ. destruct (single_later b b1 L1 HS) as [_ HP]. left.
    unfold get_segment_starting_at in ES. destruct (Nat.ltb_spec p (length (putback b))) as [Q|Q].
    + injection ES as <-. rewrite skipn_length in *. cbn [length] in *. lia.
    + destruct (_ <? _)%nat in ES; [discriminate|]. injection ES as <-. rewrite skipn_length in *.
      destruct HS as [HV _]. cbn [length] in *. lia.
Qed.

(** The character before a position is white space. *)
Definition space_before (D : list Z) (q : nat) : Prop := (0 < q)%nat /\ is_ws (nth (q - 1) D 0) = true.
Lemma literal_ready D : ascii D -> forall fuel l p b q b', ascii l -> fine D p b -> single b ->
  (length D + length l < fuel)%nat -> literal_text fuel l p b = Ok (q, b') -> l <> [] ->
  (~ space_before D p) \/ (exists c l', l = c :: l' /\ is_ws c = false) ->
  space_before D q -> ready D q b'.
Proof.
  intros HA. induction fuel as [|f IH]; intros l p b q b' Hl F HS HF E HN HB HQ; [lia|].
  destruct l as [|c l]; [congruence|]. clear HN. cbn [literal_text] in E.
  inversion Hl as [|? ? Hc Hl']; subst. cbn [length] in HF.
  assert (FL := fine_len D p b F).
  destruct (end_ok D p p b F) as (b1 & E1 & F1 & L1 & _). rewrite E1 in E. cbn [bind] in E.
  destruct (first_char_lit U8 c l ltac:(discriminate) Hc) as [EF EI]. rewrite EF in E. cbn [bind] in E.
  destruct (Nat.leb_spec (length D) p) as [Q|Q]; [discriminate|].
  assert (HS1 := proj1 (single_later b b1 L1 HS)).
  rewrite EI, <- is_ws_cp in E. destruct (is_ws c) eqn:EW.
  - destruct (while_space_ok D (S f) p b1 HA F1 ltac:(lia)) as (b2 & E2 & F2 & L2). rewrite E2 in E. cbn [bind] in E.
    rewrite (read_while_drop string_src l (or_intror (conj eq_refl eq_refl)) (ascii_bytes l Hl')) in E.
    cbn [bind s_enc string_src] in E. rewrite (skip_ws_drop l Hl') in E.
    assert (HSk := skip_ws_len l). assert (HH := skip_ws_head l).
    assert (HAk : ascii (skip_ws l)) by (destruct (skip_ws_suffix l) as (n & -> & _); apply ascii_skipn, Hl').
    destruct (pos_skip D p FL) as [_ LP].
    assert (HS2 := proj1 (single_later b1 b2 L2 HS1)).
    destruct (skip_ws l) as [|c' l'].
    + destruct f; cbn [literal_text] in E; injection E as <- <-.
      all: (eapply while_space_ready; [exact HA|exact F1|exact HS1| |exact E2|]; [lia|];
        destruct HB as [HB|(c0 & l0 & [= <- <-] & HB)]; [|congruence];
        destruct (Nat.eq_dec p (pos D (skip_ws (skipn p D)))) as [EQ|NE]; [|lia]; rewrite <- EQ in HQ; contradiction).
    + eapply (IH (c' :: l')); [exact HAk|exact F2|exact HS2|lia|exact E|discriminate| |exact HQ].
      right. exists c', l'. auto.
  - destruct (deref_ok D p p b1 F1 Q) as (b2 & E2 & F2 & L2 & _). rewrite E2 in E. cbn [bind] in E.
    destruct (nth p D 0 =? c) eqn:Ed; cbn [negb] in E; [|discriminate].
    destruct (next_ok D p p b2 F2 Q) as (b3 & E3 & _ & F3 & L3 & _). rewrite E3 in E. cbn [bind] in E.
    assert (HNS : ~ space_before D (S p)).
    { intros [_ H]. replace (S p - 1)%nat with p in H by lia. apply Z.eqb_eq in Ed. rewrite Ed in H. congruence. }
    destruct l as [|c' l']; [destruct f; cbn [literal_text] in E; injection E as <- <-; contradiction|].
    eapply IH; [exact Hl'|exact F3| |lia|exact E|discriminate|left; exact HNS|exact HQ].
    apply (single_later b3); [apply later_refl|]. apply (single_later b1); [eapply later_trans; eassumption|exact HS1].
Qed.

(** A number, word or bool ends with a character that is not white space. *)
Lemma int_last t s v rest : ascii s -> int_read_default plain_src t s = Ok (v, rest) ->
  exists h c, s = h ++ c :: rest /\ is_ws c = false.
Proof.
  intros HA E. rewrite int10_plain in E.
  assert (HSG := sign_suffix s).
  destruct (parse_numeric_sign s) as [[text sg]| | |]; try discriminate. cbn [bind] in E.
  destruct (HSG _ _ eq_refl) as [_ [k Ek]].
  match type of E with (if ?x then _ else _) = _ => destruct x; [discriminate|] end.
  assert (HT : ascii text) by (rewrite Ek; apply ascii_skipn, HA).
  destruct (find_if_skip (fun c => negb (dec c)) text) as (m & Em & Lm).
  assert (HD := find_if_digits text).
  destruct (Nat.eqb_spec (length (find_if (fun c => negb (dec c)) text)) (length text)) as [Q|Q]; [discriminate|].
  set (buf := firstn (length text - length (find_if (fun c => negb (dec c)) text)) text) in *.
  destruct (parse_integer_value _ _ _ _ _) as [[v' r']| | |] eqn:EP; try discriminate. cbn [bind] in E.
  injection E as _ <-.
  assert (HBB : bytes buf).
  { apply Forall_forall. intros y Hy. assert (HY : In y text).
    { rewrite <- (firstn_skipn (length text - length (find_if (fun c => negb (dec c)) text)) text).
      apply in_or_app. left. exact Hy. }
    assert (Hy2 := proj1 (Forall_forall _ _) HT y HY). cbn in Hy2. unfold is_byte. lia. }
  rewrite (piv_suffix _ _ _ _ _ HD HBB EP). cbn [length]. rewrite Nat.sub_0_r.
  assert (HBL : length buf = m) by (unfold buf; rewrite firstn_length; lia). rewrite HBL.
  assert (HM : buf = firstn m text) by (unfold buf; f_equal; lia).
  destruct (exists_last (l := buf)) as (h & c & Eh); [intros E0; rewrite E0 in HBL; cbn in HBL; lia|].
  exists (firstn k s ++ h), c. split.
  - rewrite <- app_assoc. change (c :: skipn m text) with ([c] ++ skipn m text).
    rewrite (app_assoc h), <- Eh, HM, firstn_skipn, Ek, firstn_skipn. reflexivity.
  - assert (HC : is_digit 10 c) by (eapply Forall_forall; [exact HD|]; rewrite Eh; apply in_or_app; right; left; reflexivity).
    clear -HC. destruct (is_ws c) eqn:EX; [|reflexivity]. exfalso.
    unfold is_ws in EX. apply existsb_exists in EX. destruct EX as (w & Hw & Ew). apply Z.eqb_eq in Ew. subst w.
    destruct HC as (d & HC & _). revert HC. cbn in Hw.
    repeat (destruct Hw as [<-|Hw]; [discriminate|]). contradiction.
Qed.
Lemma lead_plain s : Forall (fun c => is_ws c = false) (firstn (length s - length (find_if is_ws s)) s).
Proof.
  induction s as [|c s IH]; cbn [find_if length]; [constructor|].
  destruct (find_if_skip is_ws s) as (n & _ & L).
  destruct (is_ws c) eqn:E; [cbn [length]; rewrite Nat.sub_diag; constructor|].
  replace (S (length s) - length (find_if is_ws s))%nat with (S (length s - length (find_if is_ws s))) by lia.
  cbn [firstn]. constructor; assumption.
Qed.
Lemma word_last s w rest : word_of s = (w, rest) -> (match s with c :: _ => is_ws c = false | [] => False end) ->
  exists h c, s = h ++ c :: rest /\ is_ws c = false.
Proof.
  intros E H. assert (HS := word_split _ _ _ E). unfold word_of in E. injection E as Ew Er.
  assert (HF := lead_plain s). rewrite Ew in HF. clear Ew.
  destruct (exists_last (l := w)) as (h & c & ->).
  - intros ->. destruct s as [|c s]; [contradiction|]. cbn [find_if] in Er. rewrite H in Er. cbn [app] in HS. rewrite <- Er in HS.
    destruct (find_if_skip is_ws s) as (n & _ & L). apply (f_equal (@length Z)) in HS. cbn [length] in HS. lia.
  - exists h, c. rewrite <- app_assoc in HS. split; [exact HS|]. apply Forall_app in HF. destruct HF as [_ HF]. inversion HF. assumption.
Qed.
Lemma bool_last s v rest : bool_either true true bool_textual_classic s = Ok (v, rest) ->
  exists h c, s = h ++ c :: rest /\ is_ws c = false.
Proof.
  intros E. destruct (bool_inv s v rest E) as (w & -> & HI). cbn [In] in HI.
  destruct HI as [[= <- _]|[[= <- _]|[[= <- _]|[[= <- _]|[]]]]].
  - exists [], 48. auto.
  - exists [], 49. auto.
  - exists [116; 114; 117], 101. auto.
  - exists [102; 97; 108; 115], 101. auto.
Qed.
Lemma field_last k s v rest : skips k = true -> ascii s -> from_string k s = Ok (v, rest) ->
  exists h c, s = h ++ c :: rest /\ is_ws c = false.
Proof.
  intros HK HA EI. assert (HAk : ascii (skip_ws s)) by (destruct (skip_ws_suffix s) as (n & -> & _); apply ascii_skipn, HA).
  rewrite field_string in EI by exact HA. unfold start in EI. rewrite HK in EI.
  destruct (skip_ws_suffix s) as (n & En & _). assert (HH := skip_ws_head s).
  destruct (skip_ws s) as [|c0 s'] eqn:Es; [discriminate|].
  assert (G : exists h c, skip_ws s = h ++ c :: rest /\ is_ws c = false).
  { rewrite Es. destruct k as [t| | | |]; try discriminate; cbn [core] in EI;
      apply with_result_ok in EI; destruct EI as (a & EI & _).
    - eapply int_last; eassumption.
    - eapply word_last; [|exact HH]. assert (H' : word_of (c0 :: s') = (a, rest)) by congruence. exact H'.
    - eapply bool_last, EI. }
  destruct G as (h & c & Eg & Ec). exists (firstn n s ++ h), c. split; [|exact Ec].
  rewrite <- app_assoc, <- Eg, Es, En, firstn_skipn. reflexivity.
Qed.

Lemma follows_before D q : (q <= length D)%nat -> follows_space D (skipn q D) -> space_before D q.
Proof.
  intros HQ (h & w & Hw & E).
  assert (HL : length D = (length h + S (length D - q))%nat).
  { rewrite E at 1. rewrite app_length. cbn [length]. rewrite skipn_length. reflexivity. }
  split; [lia|]. replace (q - 1)%nat with (length h) by lia. rewrite E.
  rewrite app_nth2 by lia. rewrite Nat.sub_diag. exact Hw.
Qed.
Lemma last_before D p q h c : (p <= length D)%nat -> (q <= length D)%nat ->
  skipn p D = h ++ c :: skipn q D -> is_ws c = false -> ~ space_before D q.
Proof.
  intros HP HQ E HC [H0 HS]. assert (HL : length (skipn p D) = (length h + S (length D - q))%nat).
  { rewrite E, app_length. cbn [length]. rewrite skipn_length. reflexivity. }
  rewrite skipn_length in HL. replace (q - 1)%nat with (p + length h)%nat in HS by lia.
  rewrite <- (firstn_skipn p D) in HS. rewrite app_nth2 in HS by (rewrite firstn_length; lia).
  rewrite firstn_length in HS. replace (p + length h - Nat.min p (length D))%nat with (length h) in HS by lia.
  rewrite E in HS. rewrite app_nth2 in HS by lia. rewrite Nat.sub_diag in HS. cbn [nth] in HS. congruence.
Qed.

Lemma spaced_unaffected D fuel : ascii D -> forall fs p b, Forall (fun '(l, k) => ascii l /\ kind_ok k) fs ->
  Forall (fun '(_, k) => skips k = true) fs ->
  single b -> fine D p b -> (length D + size fs [] < fuel)%nat -> ~ space_before D p ->
  (match fs with
   | ([], t) :: _ => safe D p b /\ Forall (follows_space D) (tl (starts fs (skipn p D)))
   | _ => Forall (follows_space D) (starts fs (skipn p D))
   end) ->
  all_unaffected D fuel fs p b.
Proof.
  intros HA. induction fs as [|[l k] fs IH]; intros p b HFs HK HB F HF HN HC; cbn [all_unaffected]; [exact I|].
  inversion HFs as [|? ? Hlt HFs']; subst. inversion HK as [|? ? HK1 HK2]; subst. destruct Hlt as [Hl _]. cbn [size fold_right] in HF.
  assert (HSz : size fs [] = fold_right (fun '(l, _) n => (length l + n)%nat) (length (@nil Z)) fs) by reflexivity.
  intros q b1 E.
  assert (HL := literal_text_ok D HA fuel l p b Hl F ltac:(lia)). rewrite E in HL.
  destruct (literal false l (skipn p D)) as [s|] eqn:EL; [|discriminate].
  destruct HL as (q' & b1' & [= <- <-] & Es & F1 & L1).
  destruct (single_later b b1 L1 HB) as [HB1 _].
  assert (FQ := fine_len D q b1 F1).
  assert (HS : safe D q b1 /\
    match from_string k (skipn q D) with Ok (_, s2) => Forall (follows_space D) (starts fs s2) | _ => True end).
  { destruct l as [|c l].
    - destruct fuel; cbn [literal_text] in E; injection E as <- <-; (split; [apply HC|]); cbn [starts literal tl] in HC;
        destruct HC as [_ HC]; destruct (from_string k (skipn p D)) as [[v s2]| | |]; auto.
    - cbn [starts] in HC. rewrite EL in HC. inversion HC as [|? ? HC1 HC2]; subst. split.
      + apply ready_safe; [exact HB1|exact F1|].
        eapply literal_ready; [exact HA|exact Hl|exact F|exact HB| |exact E|discriminate|left; exact HN|].
        * lia.
        * apply follows_before; assumption.
      + destruct (from_string k (skipn q D)) as [[v s2]| | |]; auto. }
  destruct HS as [HS HR].
  assert (HU : unaffected D k q b1) by (left; exact HS).
  split; [exact HU|]. intros v q2 b2 E2.
  assert (HI := read_field_ok D fuel k q b1 HA F1 ltac:(lia) HU). rewrite E2 in HI.
  assert (HLast := field_last k (skipn q D)).
  destruct (from_string k (skipn q D)) as [[v' s2]| | |]; cbn [same] in HI; try discriminate.
  destruct HI as (q2' & b2' & [= <- <- <-] & -> & F2 & L2).
  destruct (HLast _ _ HK1 (ascii_skipn q D HA) eq_refl) as (h & c & Eh & Ec).
  assert (HN2 : ~ space_before D q2) by (eapply last_before; [exact FQ|apply (fine_len D q2 b2 F2)|exact Eh|exact Ec]).
  apply IH; [exact HFs'|exact HK2| |exact F2|lia|exact HN2|].
  - apply (single_later b1 b2 L2 HB1).
  - destruct fs as [|[[|c0 l0] t0] fs]; try exact HR.
    exfalso. cbn [starts literal] in HR. inversion HR as [|? ? HR1 HR2]; subst. apply HN2.
    apply follows_before; [apply (fine_len D q2 b2 F2)|exact HR1].
Qed.

(** * Characters *)
Lemma chars_unaffected D fuel : ascii D -> forall fs p b, Forall (fun '(l, k) => ascii l /\ kind_ok k) fs ->
  Forall (fun '(_, k) => skips k = false) fs ->
  fine D p b -> (length D + size fs [] < fuel)%nat -> all_unaffected D fuel fs p b.
Proof.
  intros HA. induction fs as [|[l k] fs IH]; intros p b HFs HK F HF; cbn [all_unaffected]; [exact I|].
  inversion HFs as [|? ? Hlt HFs']; subst. destruct Hlt as [Hl _]. cbn [size fold_right] in HF.
  inversion HK as [|? ? HK1 HK2]; subst.
  assert (HSz : size fs [] = fold_right (fun '(l, _) n => (length l + n)%nat) (length (@nil Z)) fs) by reflexivity.
  intros q b1 E.
  assert (HL := literal_text_ok D HA fuel l p b Hl F ltac:(lia)). rewrite E in HL.
  destruct (literal false l (skipn p D)) as [s|]; [|discriminate].
  destruct HL as (q' & b1' & [= <- <-] & _ & F1 & L1).
  assert (HS : unaffected D k q b1).
  { unfold unaffected, safe, is_segment_contiguous. destruct (seg_ok D q b1 F1) as (seg & t & ES & ED). rewrite ES. cbn [bind].
    destruct seg as [|c seg]; [left; discriminate|]. right.
    assert (HAs : ascii (c :: seg)).
    { assert (HA' := ascii_skipn q D HA). rewrite ED in HA'. apply ascii_app in HA'. apply HA'. }
    exists (c :: seg), (RNumber c), seg. split; [reflexivity|].
    rewrite field_string by exact HAs. unfold start. rewrite HK1. destruct k; try discriminate HK1; split; reflexivity || exact I. }
  split; [exact HS|]. intros v q2 b2 E2.
  assert (HI := read_field_ok D fuel k q b1 HA F1 ltac:(lia) HS). rewrite E2 in HI.
  destruct (from_string k (skipn q D)) as [[v' s2]| | |]; cbn [same] in HI; try discriminate.
  destruct HI as (q2' & b2' & [= <- <- <-] & _ & F2 & L2).
  apply IH; [exact HFs'|exact HK2|exact F2|lia].
Qed.

(** A field at the start of a view of one character reads that character alone. *)
Lemma one_character fuel k pb c o :
  read_field fuel k (length pb) (Buffer pb [c] o) =
  ('(v, rest) <- from_string k [c] ;;
   '(p, b) <- next_n (1 - length rest) (length pb) (Buffer pb [c] o) ;;
   Ok (v, p, b)).
Proof.
  unfold read_field, is_segment_contiguous, get_segment_starting_at. cbn [putback view].
  rewrite Nat.ltb_irrefl, Nat.sub_diag. reflexivity.
Qed.
