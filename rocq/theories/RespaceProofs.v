(** Proofs about texts with other white space. *)
From Verif Require Import Prelude UnicodeModel UnicodeSpec ReadModel ReadProofs SpecsModel FormatModel FormatSpec ArgsModel VscanSpec
  WhitespaceModel WidthSpec WidthProofs ArgReaderModel ScalarProofs StringProofs EncodingProofs EncodingLoopProofs
  PrintedProofs DiscardProofs FollowSpec FollowProofs RespaceSpec WidthSpec ArgReaderProofs.
Local Open Scope Z_scope.

Lemma ws_scalar c : is_ws c = true -> scalar c.
Proof.
  unfold is_ws. intros H. apply existsb_exists in H. destruct H as (d & HI & HC). apply Z.eqb_eq in HC. subst d.
  repeat (destruct HI as [<-|HI]; [unfold scalar; lia|]). destruct HI.
Qed.
(** What is next in both texts. *)
Lemma respaced_next s s' : respaced s s' ->
  s = [] /\ s' = []
  \/ (exists c l l', s = c :: l /\ s' = c :: l' /\ is_ws c = false /\ respaced l l')
  \/ exists w l w' l', s = w :: l /\ s' = w' :: l' /\ is_ws w = true /\ is_ws w' = true /\ squeeze true l = squeeze true l'.
Proof.
  unfold respaced. destruct s as [|c l], s' as [|c' l']; cbn [squeeze].
  - auto.
  - destruct (is_ws c'); discriminate.
  - destruct (is_ws c); discriminate.
  - destruct (is_ws c) eqn:E1, (is_ws c') eqn:E2; intros [= H]; try (subst; discriminate).
    + right. right. exists c, l, c', l'. auto.
    + right. left. subst c'. exists c, l, l'. auto.
Qed.
Lemma respaced_true s s' : respaced s s' -> squeeze true s = squeeze true s'.
Proof.
  intros H. destruct (respaced_next s s' H) as [[-> ->]|[(c & l & l' & -> & -> & Hc & HR)|(w & l & w' & l' & -> & -> & Hw & Hw' & HR)]]; [reflexivity|..].
  - cbn [squeeze]. rewrite Hc, HR. reflexivity.
  - cbn [squeeze]. rewrite Hw, Hw'. exact HR.
Qed.
Lemma respaced_app a b b' : respaced b b' -> respaced (a ++ b) (a ++ b').
Proof.
  intros H. unfold respaced. generalize false. induction a as [|c a IH]; intros ws; cbn [app].
  - destruct ws; [apply respaced_true, H|exact H].
  - cbn [squeeze]. rewrite !IH. reflexivity.
Qed.
Lemma squeeze_in c s : is_ws c = false -> forall ws, In c (squeeze ws s) <-> In c s.
Proof.
  intros Hc. induction s as [|d s IH]; intros ws; cbn [squeeze]; [tauto|]. destruct (is_ws d) eqn:ED.
  - destruct ws; cbn [In]; rewrite IH; (split; [intros H|intros [->|H]; [congruence|]]); auto. destruct H as [<-|H]; [discriminate Hc|auto].
  - cbn [In]. rewrite IH. tauto.
Qed.
Lemma respaced_scalar b b' : respaced b b' -> Forall scalar b -> Forall scalar b'.
Proof.
  intros H HS. rewrite Forall_forall in *. intros c Hc. destruct (is_ws c) eqn:EC; [apply ws_scalar, EC|].
  apply HS. apply (squeeze_in c b EC false). rewrite H. apply (squeeze_in c b' EC false), Hc.
Qed.
Lemma respaced_sym b b' : respaced b b' -> respaced b' b.
Proof. unfold respaced. congruence. Qed.
Lemma respaced_back p : dark p -> forall b b' r', respaced b b' -> b' = p ++ r' -> exists r, b = p ++ r /\ respaced r r'.
Proof.
  induction 1 as [|c p Hc _ IH]; intros b b' r' HS E; cbn [app] in E; [exists b; subst; auto|]. subst b'.
  destruct (respaced_next _ _ HS) as [[_ E]|[(d & l & l' & -> & E & Hd & HR)|(w & l & w' & l' & -> & E & _ & Hw' & _)]]; [discriminate|..].
  - injection E as <- <-. destruct (IH l _ r' HR eq_refl) as (r & -> & HR'). exists r. auto.
  - injection E as <- _. congruence.
Qed.
#[export] Instance respaced_gentle : gentle respaced.
Proof. constructor; [exact respaced_app|exact respaced_scalar|exact respaced_back]. Qed.

(** The text behind white space. *)
Definition behind (s : list Z) : list Z := after (lead is_ws s) s.
Lemma behind_squeeze s : squeeze false (behind s) = squeeze true s.
Proof.
  unfold behind. induction s as [|c s IH]; [reflexivity|]. cbn [lead squeeze]. destruct (is_ws c) eqn:EC.
  - change (after (c :: lead is_ws s) (c :: s)) with (after (lead is_ws s) s). exact IH.
  - change (after [] (c :: s)) with (c :: s). cbn [squeeze]. rewrite EC. reflexivity.
Qed.
Lemma behind_scalar s : Forall scalar s -> Forall scalar (behind s).
Proof. intros H. unfold behind. rewrite <- (lead_after is_ws s) in H. apply Forall_app in H. apply H. Qed.

(** A reader that skips white space, and takes text without. *)
Definition visible {V} (read : list Z -> outcome (V * list Z)) : Prop := forall s v b, Forall scalar s -> read s = Ok (v, b) ->
  exists a, s = a ++ b /\ dark a /\ forall b', respaced b b' -> read (a ++ b') = Ok (v, b').
Definition skipping {V} (read : list Z -> outcome (V * list Z)) (s : list Z) : outcome (V * list Z) :=
  match behind s with [] => Err EndOfInput | x => read x end.
Lemma skip_wide {V} r (f : list Z -> outcome (V * list Z)) s : s_enc r = U32 -> Forall scalar s -> (it <- skip_classic_whitespace r s false ;; f it) = skipping f s.
Proof.
  intros E32 HS. assert (H := skip_ws_text r s false (wide_whole r s ltac:(congruence)) HS). rewrite E32, !text32 in H. rewrite H. cbn [negb andb].
  unfold skipping, behind. assert (X := lead_after is_ws s). destruct (after (lead is_ws s) s) as [|d l] eqn:EA.
  - rewrite app_nil_r in X. rewrite X, Nat.eqb_refl. reflexivity.
  - destruct (Nat.eqb_spec (length (lead is_ws s)) (length s)) as [EQ|]; [|reflexivity]. rewrite <- X in EQ at 2. rewrite app_length in EQ. cbn [length] in EQ. lia.
Qed.
(** The reader behind the skipping is all that matters. *)
Definition respacing {V} (read : list Z -> outcome (V * list Z)) : Prop := forall s s' v b, Forall scalar s -> respaced_start s s' -> read s = Ok (v, b) ->
  exists b', read s' = Ok (v, b') /\ respaced b b' /\ Forall scalar b.
Lemma start_scalar s s' : respaced_start s s' -> Forall scalar s -> Forall scalar s'.
Proof.
  intros H HS. rewrite Forall_forall in *. intros c Hc. destruct (is_ws c) eqn:EC; [apply ws_scalar, EC|].
  apply HS. apply (squeeze_in c s EC true). rewrite H. apply (squeeze_in c s' EC true), Hc.
Qed.
Lemma skipping_respaced {V} (read : list Z -> outcome (V * list Z)) : visible read -> respacing (skipping read).
Proof.
  intros HV s s' v b HS HR E. unfold skipping in *.
  assert (HB : respaced (behind s) (behind s')) by (unfold respaced; rewrite !behind_squeeze; exact HR).
  destruct (behind s) as [|c x] eqn:EB; [discriminate|]. assert (HX : Forall scalar (c :: x)) by (rewrite <- EB; apply behind_scalar, HS).
  destruct (HV (c :: x) v b HX E) as (a & Ea & HD & HA).
  destruct (respaced_back a HD (behind s') (c :: x) b (respaced_sym _ _ HB) Ea) as (b' & Eb' & Hb'). apply respaced_sym in Hb'.
  exists b'. split; [|split; [exact Hb'|rewrite Ea in HX; apply Forall_app in HX; apply HX]]. rewrite Eb'. destruct (a ++ b') as [|d y] eqn:EY.
  - exfalso. rewrite Eb' in HB. destruct (respaced_next _ _ HB) as [[? _]|[(? & ? & ? & _ & ? & _)|(? & ? & ? & ? & _ & ? & _)]]; discriminate.
  - rewrite <- EY. apply HA, Hb'.
Qed.
Lemma respacing_ext {V} (f g : list Z -> outcome (V * list Z)) : (forall s, Forall scalar s -> f s = g s) -> respacing g -> respacing f.
Proof. intros HE HG s s' v b HS HR E. rewrite HE in E by exact HS. rewrite HE by exact (start_scalar _ _ HR HS). eapply HG; eauto. Qed.
Lemma respacing_map {V W} (g : V -> W) (f : list Z -> outcome (V * list Z)) : respacing f -> respacing (fun s => '(v, l) <- f s ;; Ok (g v, l)).
Proof.
  intros HF s s' v b HS HR E. destruct (f s) as [[u l]| | |] eqn:EF; try discriminate. injection E as <- <-.
  destruct (HF s s' u l HS HR EF) as (b' & E' & Hb). exists b'. rewrite E'. split; [reflexivity|exact Hb].
Qed.
Lemma default_respaced {V} r (read : list Z -> outcome (V * list Z)) : s_enc r = U32 -> visible read -> respacing (default_read r true read).
Proof.
  intros E32 HV. apply (respacing_ext _ (skipping read)); [|apply skipping_respaced, HV]. intros s HS. rewrite default_skip. apply skip_wide; assumption.
Qed.
(** With a format-spec that asks for no width, precision or alignment. *)
Definition plain_specs (sp : specs) : Prop := align sp = ANone /\ width sp = 0 /\ precision sp = 0.
Lemma arg_read_plain {V} r sp skip (f : src -> list Z -> outcome (V * list Z)) s : plain_specs sp ->
  arg_read r sp skip f s = (it <- (if skip then skip_classic_whitespace r s false else Ok s) ;; f r it).
Proof.
  intros (HA & HW & HP). unfold arg_read, impl_prefix, need_width, check_widths. rewrite HA, HW, HP. change (negb (0 =? 0)) with false. cbn [orb andb]. cbv iota.
  assert (H' : forall it prefix, (' (x, it', value) <- (' (x, it') <- f r it ;; Ok (x, it', 0)) ;;
     '(it2, postfix) <- match it' with [] => Ok (it', 0) | _ => impl_postfix r sp skip prefix value it' end ;;
      _ <- Ok tt ;; Ok (x, it2)) = f r it).
  { intros it prefix. destruct (f r it) as [[x it']| | |]; try reflexivity. cbn [bind].
    assert (E : match it' with [] => Ok (it', 0) | _ => impl_postfix r sp skip prefix 0 it' end = Ok (it', 0)).
    { destruct it'; [reflexivity|]. unfold impl_postfix. rewrite HA, HW, HP. cbn. rewrite andb_false_r. reflexivity. }
    rewrite E. reflexivity. }
  destruct skip; cbn [bind].
  - unfold skip_ws_all. destruct (skip_classic_whitespace r s false) as [it| | |]; cbn [bind]; try reflexivity. apply (H' it 0).
  - apply (H' s 0).
Qed.
Lemma checked_respaced {V} r (rd : reader V) sp : s_enc r = U32 -> plain_specs sp ->
  (rd_check rd sp = true -> rd_skip rd sp = true /\ visible (rd_specs rd r sp)) -> respacing (arg_read_checked r rd sp).
Proof.
  intros E32 HP HV. unfold arg_read_checked. destruct (rd_check rd sp); [|intros s s' v b _ _ E; discriminate]. destruct (HV eq_refl) as [HK HV'].
  apply (respacing_ext _ (skipping (rd_specs rd r sp))); [|apply skipping_respaced, HV']. intros s HS. rewrite arg_read_plain, HK by exact HP. apply (skip_wide r (rd_specs rd r sp)); assumption.
Qed.
Lemma mean_plain e d : bare (Some d) -> plain_specs (mean e d) /\ type (mean e d) <> PStringSet /\ type (mean e d) <> PRegex /\ type (mean e d) <> PRegexEscaped.
Proof.
  intros (HA & HW & HP & HT). unfold plain_specs, mean. rewrite HA, HW, HP. destruct (d_type d) as [[c|inv items|p fl]|]; try contradiction; cbn; (split; [auto|]).
  - unfold letter_type. destruct (find _ letter_table) as [[x t]|] eqn:EF; cbn; [|repeat split; discriminate].
    apply find_some in EF. destruct EF as [HI _]. unfold letter_table in HI. repeat (destruct HI as [HI|HI]; [injection HI as <- <-; repeat split; discriminate|]). destruct HI.
  - repeat split; discriminate.
Qed.

(** * A whole scan *)
Lemma drop_wide s : Forall scalar s -> drop_space U32 s = behind s.
Proof. intros H. assert (X := drop_space_text U32 s H). rewrite !text32 in X. exact X. Qed.
Section Run.
Context {V : Type}.
Variables (n : Z) (read : Z -> option desc -> list Z -> outcome (V * list Z)) (fail : list Z -> err -> err).
Hypothesis Hread : forall i d, bare d -> respacing (read i d).
Lemma run_respaced ts : forall next used ws s s' log x b, bare_fields ts -> Forall scalar s -> respaced s s' ->
  run V U32 n read false fail ts next used ws s log = Ok (x, b) ->
  exists b', run V U32 n read false fail ts next used ws s' log = Ok (x, b') /\ respaced b b'.
Proof.
  induction ts as [|[c|id d] ts IH]; intros next used ws s s' log x b HF HS HR E; cbn [run] in *.
  - destruct (covers n used); [|discriminate]. injection E as <- <-. exists s'. auto.
  - assert (HF' : bare_fields ts) by (intros id d H; apply (HF id d); right; exact H). destruct (is_ws c) eqn:EC.
    + destruct ws; [eapply IH; eauto|].
      assert (HB : respaced (behind s) (behind s')) by (unfold respaced; rewrite !behind_squeeze; apply respaced_true, HR).
      assert (HS' := respaced_scalar _ _ HR HS). rewrite drop_wide in E |- * by assumption.
      destruct s as [|y s]; [discriminate|].
      destruct s' as [|y' s']; [exfalso; destruct (respaced_next _ _ HR) as [[? _]|[(? & ? & ? & _ & ? & _)|(? & ? & ? & ? & _ & ? & _)]]; discriminate|].
      eapply IH; [exact HF'| |exact HB|exact E]. apply behind_scalar, HS.
    + destruct s as [|y s]; [discriminate|]. destruct (Z.eqb_spec y c) as [->|]; [|discriminate].
      destruct (respaced_next _ _ HR) as [[? _]|[(y & l & l' & E1 & -> & _ & HR')|(w & l & w' & l' & E1 & _ & Hw & _)]]; [discriminate|..].
      * injection E1 as <- <-. rewrite Z.eqb_refl. eapply IH; [exact HF'| |exact HR'|exact E]. inversion HS. assumption.
      * injection E1 as <- _. congruence.
  - assert (HF' : bare_fields ts) by (intros id' d' H; apply (HF id' d'); right; exact H). cbv zeta in *. set (i := match id with Some ds => number ds | None => next end) in *.
    destruct (_ || _); [discriminate|]. destruct (read i d s) as [[v s1]| | |] eqn:ER; try discriminate.
    destruct (Hread i d (HF id d (or_introl eq_refl)) s s' v s1 HS (respaced_true _ _ HR) ER) as (s1' & ER' & HR1 & HS1). rewrite ER'.
    eapply IH; [exact HF'|exact HS1|exact HR1|exact E].
Qed.
(** White space before a field which skips it. *)
Lemma run_start ts id d : forall next used ws s s' log x b, bare_fields (Field id d :: ts) -> Forall scalar s -> respaced_start s s' ->
  run V U32 n read false fail (Field id d :: ts) next used ws s log = Ok (x, b) ->
  exists b', run V U32 n read false fail (Field id d :: ts) next used ws s' log = Ok (x, b') /\ respaced b b'.
Proof.
  intros next used ws s s' log x b HF HS HR E. cbn [run] in *.
  assert (HF' : bare_fields ts) by (intros id' d' H; apply (HF id' d'); right; exact H). cbv zeta in *. set (i := match id with Some ds => number ds | None => next end) in *.
  destruct (_ || _); [discriminate|]. destruct (read i d s) as [[v s1]| | |] eqn:ER; try discriminate.
  destruct (Hread i d (HF id d (or_introl eq_refl)) s s' v s1 HS HR ER) as (s1' & ER' & HR1 & HS1). rewrite ER'.
  eapply run_respaced; [exact HF'|exact HS1|exact HR1|exact E].
Qed.
End Run.
Lemma run_tokens {V D} e n (read : Z -> option D -> list Z -> outcome (V * list Z)) fail eof ts : forall ts' next used ws s log,
  squeeze_tokens ws ts = squeeze_tokens ws ts' ->
  run V e n read eof fail ts next used ws s log = run V e n read eof fail ts' next used ws s log.
Proof.
  set (sq := fun ws => squeeze_tokens (D:=D) ws).
  assert (G : forall ts next used ws s log, run V e n read eof fail ts next used ws s log = run V e n read eof fail (sq ws ts) next used ws s log).
  { clear ts. induction ts as [|[c|id d] ts IH]; intros next used ws s log; cbn [sq squeeze_tokens run]; fold sq; [reflexivity|..].
    - destruct (is_ws c) eqn:EC.
      + destruct ws; [apply IH|]. cbn [run]. change (is_ws 32) with true. cbv iota. destruct s as [|y s]; [destruct eof; [apply IH|reflexivity]|apply IH].
      + cbn [run]. rewrite EC. destruct s as [|y s]; [reflexivity|]. destruct (y =? c); [apply IH|reflexivity].
    - destruct (_ || _); [reflexivity|]. destruct (read _ d s) as [[v s1]| | |]; try reflexivity. apply IH. }
  intros ts' next used ws s log H. rewrite (G ts), (G ts'). rewrite H. reflexivity.
Qed.
