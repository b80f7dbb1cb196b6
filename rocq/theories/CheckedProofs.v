(** Format strings accepted at compile time: what the scan has read when it succeeds. *)
From Coq Require Import Permutation.
From Verif Require Import Prelude UnicodeModel ReadModel ReadProofs SpecsModel ArgsModel FormatModel FormatProofs
  VscanModel VscanProofs VscanSpecProofs CheckerProofs.
Local Open Scope Z_scope.

(** * What literal text and marking leave alone *)
Section Unchanged.
Variable V : Type.
Variable r : src.
Variable args : list (arg V).
Lemma literal_unchanged : forall fuel t st st', literal_loop V r fuel t st = Ok st' ->
  st_next st' = st_next st /\ st_mixed st' = st_mixed st /\ st_log st' = st_log st.
Proof.
  induction fuel as [|f IH]; intros [|c t] st st'; cbn [literal_loop]; try (intros [= <-]; auto; fail).
  destruct (st_src st) as [|d s]; [intros [= <-]; auto|]. intros E. apply bind_ok in E. destruct E as ([[after cp] sp] & _ & E).
  destruct (cp =? invalid_code_point); [injection E as <-; auto|]. destruct sp.
  - apply bind_ok in E. destruct E as (s' & _ & E). apply bind_ok in E. destruct E as (l' & _ & E). apply IH in E. exact E.
  - destruct (negb (d =? c)); [injection E as <-; auto|]. apply IH in E. exact E.
Qed.
Lemma visited_unchanged i st st' : set_arg_as_visited V args i (note_missing V args i st) = Ok st' ->
  st_next st' = st_next st /\ st_mixed st' = st_mixed st /\ st_log st' = st_log st /\ st_src st' = st_src st.
Proof.
  assert (HN : forall st, st_next (note_missing V args i st) = st_next st /\ st_mixed (note_missing V args i st) = st_mixed st
    /\ st_log (note_missing V args i st) = st_log st /\ st_src (note_missing V args i st) = st_src st).
  { intros s. unfold note_missing. destruct (get_arg V args i); auto. }
  specialize (HN st). destruct HN as (<- & <- & <- & <-). generalize (note_missing V args i st). clear st. intros st.
  unfold set_arg_as_visited. destruct (_ <=? i); [intros [= <-]; auto|]. destruct (i <? 64).
  - cbv zeta. intros [= <-]. destruct (Z.testbit _ _); auto.
  - cbv zeta. destruct (nth_error _ _); [|discriminate]. destruct (set_nth _ _ _); [|discriminate]. intros [= <-].
    destruct (Z.testbit _ _); auto.
Qed.
End Unchanged.

(** * In step with the checker *)
Section Step.
Variable V : Type.
Variable r : src.
Variable cf : config.
Variable contiguous borrowed : bool.
Variable args : list (arg V).
Variable custom_parse : Z -> list Z -> outcome (list Z).
(** User scanners parse at run time what they parse at compile time. *)
Definition parses_alike : Prop := forall id a f p q v s s', nth_error args (Z.to_nat id) = Some a -> ar_type a = CustomType ->
  custom_parse id f = Ok p -> ar_custom a f s = (q, Ok (v, s')) -> q = p.
Hypothesis Hcustom : parses_alike.
Notation types := (map ar_type args).
Notation hc := (ct_handler cf contiguous borrowed types custom_parse).
Notation H := (format_handler V r cf args).

(** The fields so far have been read, in this order. *)
Record in_step (c : cstate) (st : state V) : Prop := InStep {
  i_next : cs_next c = st_next st; i_mixed : st_mixed st = false;
  i_log : map fst (st_log st) = rev (cs_visited c);
  i_once : NoDup (cs_visited c);
  i_range : forall i, In i (cs_visited c) -> 0 <= i < Z.of_nat (length args) }.

Lemma literal_step t c st c' st' : in_step c st -> ct_literal cf t c = Ok c' -> on_literal_text V r t st = Ok st' -> in_step c' st'.
Proof.
  intros HI E1 E2. assert (c' = c) as ->.
  { unfold ct_literal, reject in E1. apply bind_ok in E1. destruct E1 as (ok & _ & E1). destruct ok; congruence. }
  apply literal_unchanged in E2. destruct E2 as (H1 & H2 & H3). destruct HI. constructor; congruence || (rewrite ?H1, ?H2, ?H3; assumption) || assumption.
Qed.
Lemma read_step id c c1 : 0 <= id -> set_arg_as_read types id c = Ok c1 ->
  cs_next c1 = cs_next c /\ cs_visited c1 = id :: cs_visited c /\ ~ In id (cs_visited c) /\ id < Z.of_nat (length args)
  /\ exists a, nth_error args (Z.to_nat id) = Some a.
Proof.
  intros Hid. unfold set_arg_as_read, reject, num_args. rewrite map_length. destruct (Z.leb_spec (Z.of_nat (length args)) id); [discriminate|].
  destruct (existsb (Z.eqb id) (cs_visited c)) eqn:E; [discriminate|]. intros [= <-]. cbn. repeat split; auto.
  - intros Hin. apply existsb_In in Hin. congruence.
  - destruct (nth_error args (Z.to_nat id)) eqn:EN; [eauto|]. apply nth_error_None in EN. lia.
Qed.
(** A field that has been read *)
Lemma read_in_step id c c1 st st1 v s p : 0 <= id -> in_step c st -> set_arg_as_read types id c = Ok c1 ->
  set_arg_as_visited V args id (note_missing V args id st) = Ok st1 ->
  in_step c1 (add_log V (id, v) (set_src V s st1)) /\ in_step c1 (add_log V (id, v) (set_src V s (set_pctx V p st1))).
Proof.
  intros Hid HI E1 E2. destruct (read_step _ _ _ Hid E1) as (H1 & H2 & H3 & H4 & _). apply visited_unchanged in E2. destruct E2 as (H5 & H6 & H7 & _).
  destruct HI as [I1 I2 I3 I4 I5].
  split; (constructor; cbn; [congruence|congruence|rewrite map_app, H7, I3, H2; reflexivity|rewrite H2; constructor; assumption|]);
    rewrite H2; intros i [<-|Hi]; auto.
Qed.
Lemma field_step id t c c' st st' : 0 <= id -> in_step c st -> ct_replacement_field contiguous borrowed types custom_parse id t c = Ok c' ->
  on_replacement_field V args id t st = Ok st' -> st_error st' = None -> in_step c' st'.
Proof.
  intros Hid HI E1 E2 HE. unfold ct_replacement_field in E1. apply bind_ok in E1. destruct E1 as (c1 & E1 & E3).
  assert (c' = c1) as ->.
  { destruct (nth_error types _); [|discriminate]. apply bind_ok in E3. destruct E3 as (u & _ & E3). destruct (is_regex_type _); [discriminate|].
    destruct (arg_eqb _ _); [apply bind_ok in E3; destruct E3 as (? & _ & E3)|]; congruence. }
  unfold on_replacement_field in E2. apply bind_ok in E2. destruct E2 as (st1 & E2 & E4).
  destruct (failed V st1) eqn:EF. { injection E4 as <-. unfold failed in EF. rewrite HE in EF. discriminate. }
  destruct (read_step _ _ _ Hid E1) as (_ & _ & _ & _ & a & EA). unfold get_arg in E4. rewrite EA in E4.
  destruct (ar_default a (st_src st1)) as [[v s]| | |]; cbn in E4; try discriminate; injection E4 as <-; [|discriminate].
  destruct (read_in_step id c c1 st st1 v s [] Hid HI E1 E2). assumption.
Qed.
Lemma specs_step id f c c' p st q st' : 0 <= id -> in_step c st ->
  ct_format_specs cf contiguous borrowed types custom_parse id f c = Ok (125 :: p, c') ->
  on_format_specs V cf args id f st = Ok (q, st') -> st_error st' = None -> q = 125 :: p /\ in_step c' st'.
Proof.
  intros Hid HI E1 E2 HE. unfold ct_format_specs in E1. apply bind_ok in E1. destruct E1 as (c1 & E1 & E3).
  unfold on_format_specs in E2. apply bind_ok in E2. destruct E2 as (st1 & E2 & E4). cbv zeta in E4.
  destruct (read_step _ _ _ Hid E1) as (_ & _ & _ & _ & a & EA). rewrite nth_error_map, EA in E3. cbn [option_map] in E3.
  apply bind_ok in E3. destruct E3 as (u & _ & E3). unfold get_arg in E4. rewrite EA in E4.
  assert (EM : st_mixed st1 = false) by (apply visited_unchanged in E2; destruct E2 as (_ & -> & _); apply HI).
  destruct (arg_eqb (ar_type a) CustomType) eqn:ET.
  - assert (HT : ar_type a = CustomType) by (destruct (ar_type a); congruence || discriminate ET).
    apply bind_ok in E3. destruct E3 as (p1 & EP & E3). injection E3 as -> <-.
    change (failed V (set_pctx V f st1)) with (failed V st1) in E4. change (st_mixed (set_pctx V f st1)) with (st_mixed st1) in E4.
    destruct (failed V st1) eqn:EF. { injection E4 as _ <-. unfold failed in EF. change (st_error st1 = None) in HE. rewrite HE in EF. discriminate. }
    rewrite EM in E4. destruct (ar_custom a f _) as [q1 x] eqn:EC. apply bind_ok in E4. destruct E4 as (st2 & E5 & E4). injection E4 as -> <-.
    destruct x as [[v s]| | |]; cbn in E5; try discriminate; injection E5 as <-; [|discriminate].
    split; [eapply Hcustom; eassumption|]. destruct (read_in_step id c c1 st st1 v s q Hid HI E1 E2). assumption.
  - apply bind_ok in E3. destruct E3 as ([p1 sp] & EP & E3). injection E3 as -> <-.
    assert (EP' : exists sp, parse_format_specs cf (ar_type a) f (SS specs_default false) = Ok (125 :: p, SS sp false)).
    { unfold ct_parse_builtin, reject in EP. destruct f as [|f0 f1]; [discriminate|].
      apply bind_ok in EP. destruct EP as ([p2 [sp2 er]] & EP & E5). cbn [ss_err ss_specs] in E5. destruct er; [discriminate|].
      apply bind_ok in E5. destruct E5 as (ok & _ & E5). destruct (negb ok); [discriminate|]. destruct (_ && _); [discriminate|].
      injection E5 as -> <-. eauto. }
    destruct EP' as (sp' & EP'). rewrite EP' in E4. cbn [bind ss_err ss_specs] in E4. change (125 =? 125) with true in E4. cbn [negb] in E4.
    change (failed V (set_pctx V (125 :: p) st1)) with (failed V st1) in E4.
    destruct (failed V st1) eqn:EF. { injection E4 as _ <-. unfold failed in EF. change (st_error st1 = None) in HE. rewrite HE in EF. discriminate. }
    apply bind_ok in E4. destruct E4 as (st2 & E5 & E4). injection E4 as <- <-. split; [reflexivity|].
    destruct (ar_specs a _ _) as [[v s]| | |]; cbn in E5; try discriminate; injection E5 as <-; [|discriminate].
    destruct (read_in_step id c c1 st st1 v s (125 :: p) Hid HI E1 E2). assumption.
Qed.
Lemma auto_step c id c' st i st' : in_step c st -> ct_next_arg_id types c = Ok (id, c') -> next_arg_id V st = Ok (i, st') ->
  i = id /\ in_step c' st' /\ 0 <= id.
Proof.
  intros HI. unfold ct_next_arg_id, reject, next_arg_id. rewrite <- (i_next _ _ HI).
  destruct (Z.ltb_spec (cs_next c) 0); [discriminate|]. destruct (_ <=? _); [discriminate|]. intros [= <- <-] [= <- <-].
  split; [reflexivity|]. split; [|lia]. destruct HI. constructor; cbn; auto; congruence.
Qed.
Lemma arg_id_step s c s' id c' st s2 i st' : in_step c st -> parse_arg_id hc s c = Ok (s', id, c') ->
  parse_arg_id H s st = Ok (s2, i, st') -> s2 = s' /\ i = id /\ in_step c' st' /\ 0 <= id.
Proof.
  intros HI. unfold parse_arg_id. destruct s as [|ch s]; [discriminate|]. destruct (negb (ch =? 125) && negb (ch =? 58)).
  - unfold do_parse_arg_id. destruct (_ || _); [discriminate|]. intros E1 E2. apply bind_ok in E1. destruct E1 as ([idx s3] & E1 & E3).
    rewrite E1 in E2. cbn [bind] in E2. destruct s3 as [|d s3]; [discriminate|]. destruct (negb (d =? 125) && negb (d =? 58)) eqn:ED; [discriminate|].
    assert (H1 : 0 <= idx \/ exists d' t, d :: s3 = d' :: t /\ is_digit d' = true).
    { destruct (negb (ch =? 48)); [|injection E1 as <- _; left; lia].
      unfold parse_simple_int in E1. destruct (is_digit ch); [|discriminate].
      assert (E4 : parse_simple_int_loop (ch :: s) 0 = (idx, d :: s3)) by congruence. eapply simple_int_nonneg; [|exact E4]. lia. }
    cbn [ct_handler h_id format_handler] in E2, E3. unfold ct_check_arg_id, reject in E3. unfold check_arg_id in E2.
    rewrite <- (i_next _ _ HI) in E2. destruct (0 <? cs_next c); [discriminate|]. destruct (_ <=? idx); [discriminate|].
    cbn [bind] in E2, E3. injection E2 as <- <- <-. injection E3 as <- <- <-. split; [reflexivity|]. split; [reflexivity|].
    split; [destruct HI; constructor; cbn; auto|]. destruct H1 as [H1|(d' & t & H1 & H2)]; [exact H1|]. injection H1 as <- _. unfold is_digit in H2. lia.
  - intros E1 E2. apply bind_ok in E1. destruct E1 as ([j c1] & E1 & E3). injection E3 as <- <- <-.
    apply bind_ok in E2. destruct E2 as ([k st1] & E2 & E3). injection E3 as <- <- <-.
    cbn [ct_handler h_auto_id format_handler] in E1, E2. destruct (auto_step _ _ _ _ _ _ HI E1 E2) as (H1 & H2 & H3). auto.
Qed.
Lemma not_error (P : Prop) e (st : state V) : st_error (on_error V e st) = None -> P.
Proof. discriminate. Qed.
Lemma replacement_step s c p c' st q st' : in_step c st -> parse_replacement_field hc s c = Ok (p, c') ->
  parse_replacement_field H s st = Ok (q, st') -> st_error st' = None -> q = p /\ in_step c' st'.
Proof.
  intros HI. destruct s as [|c0 s]; [discriminate|]. cbn [parse_replacement_field]. destruct s as [|ch s]; [discriminate|].
  destruct (ch =? 125).
  { intros E1 E2 HE. apply bind_ok in E1. destruct E1 as ([id c1] & E1 & E3). apply bind_ok in E3. destruct E3 as (c2 & E3 & E4). injection E4 as <- <-.
    apply bind_ok in E2. destruct E2 as ([i st1] & E2 & E4). apply bind_ok in E4. destruct E4 as (st2 & E4 & E5). injection E5 as <- <-.
    cbn [ct_handler h_auto_id h_field format_handler] in *. destruct (auto_step _ _ _ _ _ _ HI E1 E2) as (-> & HI1 & Hid).
    split; [reflexivity|]. exact (field_step _ _ _ _ _ _ Hid HI1 E3 E4 HE). }
  destruct (ch =? 123).
  { intros E1 E2 HE. apply bind_ok in E1. destruct E1 as (c1 & E1 & E3). injection E3 as <- <-. apply bind_ok in E2. destruct E2 as (st1 & E2 & E3). injection E3 as <- <-.
    split; [reflexivity|]. exact (literal_step _ _ _ _ _ HI E1 E2). }
  intros E1 E2 HE. apply bind_ok in E1. destruct E1 as ([[s1 id] c1] & E1 & E3). apply bind_ok in E2. destruct E2 as ([[s2 i] st1] & E2 & E4).
  destruct (arg_id_step _ _ _ _ _ _ _ _ _ HI E1 E2) as (-> & -> & HI1 & Hid).
  destruct s1 as [|d s1]; [discriminate|]. destruct (d =? 125).
  { apply bind_ok in E3. destruct E3 as (c2 & E3 & E5). injection E5 as <- <-. apply bind_ok in E4. destruct E4 as (st2 & E4 & E5). injection E5 as <- <-.
    split; [reflexivity|]. exact (field_step _ _ _ _ _ _ Hid HI1 E3 E4 HE). }
  destruct (d =? 58); [|discriminate]. destruct s1 as [|d1 s1]; [discriminate|].
  apply bind_ok in E3. destruct E3 as ([s2 c2] & E3 & E5). apply bind_ok in E4. destruct E4 as ([s3 st2] & E4 & E6).
  cbn [ct_handler h_specs h_error format_handler] in *.
  destruct s2 as [|d2 s2]; [discriminate|]. destruct (Z.eqb_spec d2 125) as [->|_]; [|discriminate]. cbn [negb] in E5. injection E5 as <- <-.
  assert (HE2 : st_error st2 = None).
  { destruct s3 as [|d3 s3]; cbn [bind] in E6; [injection E6 as _ <-; discriminate HE|].
    destruct (negb (d3 =? 125)); cbn [bind] in E6; [injection E6 as _ <-; discriminate HE|]. injection E6 as _ <-. exact HE. }
  destruct (specs_step _ _ _ _ _ _ _ _ Hid HI1 E3 E4 HE2) as [-> HI2]. change (125 =? 125) with true in E6. cbn [negb] in E6. injection E6 as <- <-. auto.
Qed.
Lemma loop_step : forall fuel fc begin it c c' st st', in_step c st -> parse_loop fc hc begin it c = Ok c' ->
  parse_loop fuel H begin it st = Ok st' -> st_error st' = None -> in_step c' st'.
Proof.
  induction fuel as [|f IH]; intros fc begin it c c' st st' HI E1 E2 HE.
  { destruct it; [|discriminate]. eapply literal_step; [exact HI| |exact E2]. destruct fc; exact E1. }
  destruct it as [|ch it]. { eapply literal_step; [exact HI| |exact E2]. destruct fc; exact E1. }
  destruct fc as [|fc]; [discriminate|]. cbn [parse_loop] in E1, E2. destruct (ch =? 123).
  - apply bind_ok in E1. destruct E1 as (c1 & E1 & E3). apply bind_ok in E3. destruct E3 as ([p c2] & E3 & E4).
    apply bind_ok in E2. destruct E2 as (st1 & E2 & E5). apply bind_ok in E5. destruct E5 as ([q st2] & E5 & E6).
    cbn [ct_handler h_literal h_failed format_handler] in E1, E2, E4, E6.
    assert (HI1 := literal_step _ _ _ _ _ HI E1 E2).
    destruct (failed V st2) eqn:EF. { injection E6 as <-. unfold failed in EF. rewrite HE in EF. discriminate. }
    assert (HE2 : st_error st2 = None) by (unfold failed in EF; destruct (st_error st2); [discriminate|reflexivity]).
    destruct (replacement_step _ _ _ _ _ _ _ HI1 E3 E5 HE2) as [-> HI2]. eapply IH; eassumption.
  - destruct (ch =? 125); [|eapply IH; eassumption]. destruct it as [|d it]; [discriminate|]. destruct (negb (d =? 125)); [discriminate|].
    apply bind_ok in E1. destruct E1 as (c1 & E1 & E3). apply bind_ok in E2. destruct E2 as (st1 & E2 & E4).
    cbn [ct_handler h_literal format_handler] in E1, E2. eapply IH; [eapply literal_step; eassumption|exact E3|exact E4|exact HE].
Qed.
Lemma zseq_nodup n : forall i, NoDup (zseq i n).
Proof.
  induction n as [|n IH]; intros i; cbn [zseq]; constructor; [|apply IH]. rewrite in_zseq. lia.
Qed.
(** Success means that every argument has been read, once. *)
Lemma checked_reads format source log rest :
  check_format_string cf contiguous borrowed types custom_parse format = Ok tt ->
  vscan V r cf args format source = Ok (log, rest) -> Permutation (map fst log) (zseq 0 (length args)).
Proof.
  intros HC E. unfold vscan, args_count in E. destruct (is_simple format && (Z.of_nat (length args) =? 1)) eqn:ES.
  { assert (HL : length args = 1%nat) by lia. rewrite HL. unfold scan_simple_single_argument in E. destruct (get_arg V args 0); [|discriminate].
    destruct (ar_plain a source) as [[v s]| | |]; try discriminate. injection E as <- _. cbn. apply Permutation_refl. }
  unfold check_format_string, parse_format_string_impl in HC. apply bind_ok in HC. destruct HC as (c & E1 & HC).
  unfold vscan_parse_format_string, parse_format_string_impl in E. apply bind_ok in E. destruct E as (st & E2 & E). apply bind_ok in E. destruct E as (st1 & E3 & E).
  destruct (st_error st1) eqn:EE; [discriminate|]. injection E as <- _.
  assert (HX : st1 = st).
  { unfold check_args_exhausted in E3. cbv zeta in E3. destruct (negb _); [injection E3 as <-; discriminate EE|]. destruct (_ <? 64); [congruence|].
    destruct (check_upper _ _) as [[|p|p]|]; try discriminate; try (injection E3 as <-; discriminate EE).
    destruct p; try (injection E3 as <-; discriminate EE). congruence. }
  subst st1.
  assert (HI : in_step (CS 0 []) (init_state V args format source)) by (constructor; try reflexivity; [constructor|intros i []]).
  assert (HF := loop_step _ _ _ _ _ _ _ _ HI E1 E2 EE). destruct HF as [_ _ HL HN HR]. rewrite HL.
  apply NoDup_Permutation; [apply NoDup_rev, HN|apply zseq_nodup|].
  intros i. rewrite <- in_rev, in_zseq. split; [intros Hi; apply HR in Hi; lia|]. intros Hi.
  unfold ct_check_args_exhausted, num_args, reject in HC. rewrite map_length in HC.
  destruct (Z.of_nat (length args) =? 0) eqn:E0; [lia|]. destruct (forallb _ _) eqn:EA; [|discriminate].
  rewrite forallb_forall in EA. apply existsb_In. apply EA, in_zseq. exact Hi.
Qed.
End Step.
