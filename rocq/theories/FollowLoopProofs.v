(** Proofs about what can follow scanned values: a whole scan. *)
From Verif Require Import Prelude UnicodeModel UnicodeSpec ReadModel ReadProofs SpecsModel FormatModel FormatProofs ArgsModel
  CheckerProofs SpecsInvProofs WhitespaceModel WidthModel WidthSpec WidthProofs ArgReaderProofs ScalarProofs StringProofs VscanSpec VscanModel VscanSpecProofs
  EncodingProofs EncodingLoopProofs FollowSpec FollowProofs.
Local Open Scope Z_scope.

(** * Format-specs without a slash have no regular expression *)
Lemma presentation_no_pattern cf s st s' st' : ~ In 47 s -> no_pattern (ss_specs st) -> do_presentation cf s st = Ok (s', st') -> no_pattern (ss_specs st').
Proof.
  intros HN HQ H. unfold do_presentation in H. destruct s as [|c s]; [discriminate|]. destruct (c =? 91).
  { apply bind_ok in H. destruct H as ([[s2 st2] set] & E & H).
    eapply (Q_set no_pattern) in E; [| | | |exact HQ]; try (intros; assumption).
    destruct (_ <=? _)%nat; injection H as _ <-; [exact E|]. split; discriminate. }
  destruct (Z.eqb_spec c 47) as [->|_]; [exfalso; apply HN; left; reflexivity|].
  apply bind_ok in H. destruct H as (t & E & H). unfold parse_presentation_type in E.
  repeat match type of E with (if ?b then _ else _) = _ => destruct b end; try discriminate; injection E as <-; injection H as _ <-; first [exact HQ|split; discriminate].
Qed.
Lemma tail_no_pattern cf t s st s' st' : ~ In 47 s -> no_pattern (ss_specs st) -> parse_specs_tail cf t s st = Ok (s', st') -> no_pattern (ss_specs st').
Proof.
  intros HN HQ H. unfold parse_specs_tail in H. destruct s as [|c s]; [discriminate|].
  apply bind_ok in H. destruct H as ([s1 st1] & E & H).
  assert (H1 : ~ In 47 s1 /\ no_pattern (ss_specs st1)).
  { clear H. destruct (c =? 76); [|injection E as <- <-; auto]. apply bind_ok in E. destruct E as (st2 & E & E').
    injection E' as <- <-. split; [intros HI; apply HN; right; exact HI|]. unfold on_localized in E. apply bind_ok in E. destruct E as (cat & _ & E).
    destruct cat; injection E as <-; exact HQ. }
  destruct H1 as [HN1 H1]. destruct s1 as [|c1 s1]; [injection H as _ <-; exact H1|].
  apply bind_ok in H. destruct H as ([s2 st2] & E2 & H).
  assert (H2 : no_pattern (ss_specs st2)).
  { destruct (negb _); [|injection E2 as _ <-; exact H1]. eapply presentation_no_pattern; eassumption. }
  destruct s2; injection H as _ <-; exact H2.
Qed.
Lemma not_in_suffix (c : Z) a b : suffix a b -> ~ In c b -> ~ In c a.
Proof. intros [p ->] H HI. apply H, in_or_app. right. exact HI. Qed.
Lemma parse_no_pattern cf t s s' st' : ~ In 47 s -> parse_format_specs cf t s (SS specs_default false) = Ok (s', st') -> no_pattern (ss_specs st').
Proof.
  assert (H0 : no_pattern (ss_specs (SS specs_default false))) by (split; discriminate).
  revert H0. generalize (SS specs_default false). intros st H0 HN H. unfold parse_format_specs in H.
  destruct (specs_shortcut s); [eapply presentation_no_pattern; eassumption|].
  destruct s as [|c0 s0]; [injection H as _ <-; exact H0|].
  destruct (parse_align_safe (c_enc cf) (c0 :: s0) st ltac:(discriminate)) as (s1 & st1 & E1 & S1). rewrite E1 in H. cbn [bind] in H.
  eapply (Q_on_align no_pattern) in E1; try (intros; assumption); try exact H0. apply (not_in_suffix 47) in S1; [|exact HN].
  destruct s1 as [|c1 s1]; [injection H as _ <-; exact E1|].
  destruct (parse_width_safe (c1 :: s1) st1 ltac:(discriminate)) as (s2 & st2 & E2 & S2). rewrite E2 in H. cbn [bind] in H.
  eapply (Q_on_width no_pattern) in E2; try (intros; assumption); try exact E1. apply (not_in_suffix 47) in S2; [|exact S1].
  destruct s2 as [|c2 s2]; [injection H as _ <-; exact E2|].
  destruct (c2 =? 46); [|eapply tail_no_pattern; eassumption]. assert (S3 : ~ In 47 s2) by (intros HI; apply S2; right; exact HI).
  destruct s2 as [|c3 s3]; [injection H as _ <-; exact E2|].
  destruct (parse_precision_safe (c3 :: s3) st2 ltac:(discriminate)) as (s4 & st4 & E4 & S4). rewrite E4 in H. cbn [bind] in H.
  eapply (Q_on_precision no_pattern) in E4; try (intros; assumption); try exact E2. apply (not_in_suffix 47) in S4; [|exact S3].
  destruct s4 as [|c4 s4]; [injection H as _ <-; exact E4|]. eapply tail_no_pattern; eassumption.
  Unshelve. all: exact U32.
Qed.

Section Lands.
Context {V : Type}.
Variables (r : src) (cf : config).
Hypothesis Her : s_enc r = U32.
Hypothesis Hcf : c_enc cf = U32.
Hypothesis Hrx : c_regex cf = false \/ c_regex_wide cf = true.
(** Whether the text may end where there was more: the format string has no white space then. *)
Variable may_end : Prop.
(** Whether regular expressions are fine. *)
Variable patterns : Prop.
Definition okc (c : Z) : Prop := ascii c /\ (may_end -> is_ws c = false) /\ (patterns \/ c <> 47).
Notation okf := (Forall okc).
Definition change (b b' : list Z) : Prop := swap b b' /\ (b' = [] -> b = [] \/ may_end).
Lemma change_app a b b' : change b b' -> change (a ++ b) (a ++ b').
Proof. intros [H1 H2]. split; [apply swap_app, H1|]. destruct a; [exact H2|discriminate]. Qed.
Lemma okf_ascii t : okf t -> ascii_str t.
Proof. intros H. eapply Forall_impl; [|exact H]. intros c Hc. apply Hc. Qed.

Record settled_arg (a : arg V) : Prop := Settled {
  sa_typed : no_regex (ar_type a);
  sa_default : forall s, Forall scalar s -> settles (ar_default a) s;
  sa_plain : forall s, Forall scalar s -> settles (ar_plain a) s;
  sa_specs : ar_type a <> CustomType -> forall sp s, ascii_specs sp -> parsed sp -> patterns \/ no_pattern sp -> Forall scalar s -> settles (ar_specs a sp) s;
  sa_custom : ar_type a = CustomType -> forall f, okf f -> exists p, okf p /\ (forall s, Forall scalar s -> fst (ar_custom a f s) = p)
    /\ forall s, Forall scalar s -> settles (fun s => snd (ar_custom a f s)) s }.
Variable args : list (arg V).
Hypothesis Hargs : Forall settled_arg args.
Lemma get_settled i a : get_arg V args i = Some a -> settled_arg a.
Proof. intros H. rewrite Forall_forall in Hargs. apply Hargs. eapply nth_error_In, H. Qed.

(** Results with a state in them. *)
Record view (R : Type) : Type := View { v_st : R -> state V; v_set : list Z -> R -> R; v_ok : R -> Prop }.
Arguments v_st {R}. Arguments v_set {R}. Arguments v_ok {R}.
Definition v_good {R} (w : view R) : Prop := forall x, v_set w (st_src (v_st w x)) x = x.
Definition sv : view (state V) := View _ (fun st => st) (fun l st => set_src V l st) (fun _ => True).
Definition iv : view (Z * state V) := View _ snd (fun l x => (fst x, set_src V l (snd x))) (fun _ => True).
Definition pv : view (list Z * state V) := View _ snd (fun l x => (fst x, set_src V l (snd x))) (fun x => okf (fst x)).
Definition piv : view (list Z * Z * state V) := View _ snd (fun l x => (fst x, set_src V l (snd x))) (fun x => okf (fst (fst x))).
Lemma set_same st : set_src V (st_src st) st = st.
Proof. destruct st. reflexivity. Qed.
Lemma sv_good : v_good sv. Proof. intros x. apply set_same. Qed.
Lemma iv_good : v_good iv. Proof. intros [i x]. cbn. rewrite set_same. reflexivity. Qed.
Lemma pv_good : v_good pv. Proof. intros [i x]. cbn. rewrite set_same. reflexivity. Qed.
Lemma piv_good : v_good piv. Proof. intros [i x]. cbn. rewrite set_same. reflexivity. Qed.

Definition lands {R} (w : view R) (F : list Z -> outcome R) (s : list Z) : Prop :=
  forall x, F s = Ok x -> failed V (v_st w x) = false ->
    v_ok w x /\ okf (st_pctx (v_st w x))
    /\ exists a, s = a ++ st_src (v_st w x) /\ forall b', change (st_src (v_st w x)) b' -> F (a ++ b') = Ok (v_set w b' x).
Lemma lands_bind {R S} (w : view R) (w2 : view S) F k s : v_good w -> Forall scalar s -> lands w F s ->
  (forall x y, F s = Ok x -> k x = Ok y -> failed V (v_st w2 y) = false -> failed V (v_st w x) = false) ->
  (forall x, F s = Ok x -> failed V (v_st w x) = false -> v_ok w x -> okf (st_pctx (v_st w x)) -> Forall scalar (st_src (v_st w x)) ->
     lands w2 (fun l => k (v_set w l x)) (st_src (v_st w x))) ->
  lands w2 (fun l => bind (F l) k) s.
Proof.
  intros HG HS HF HM HK y E EF. apply bind_ok in E. destruct E as (x & E1 & E2).
  assert (EX := HM x y E1 E2 EF). destruct (HF x E1 EX) as (Hok & Hpc & a & Ea & HA).
  assert (HS2 : Forall scalar (st_src (v_st w x))) by (rewrite Ea in HS; apply Forall_app in HS; apply HS).
  specialize (HK x E1 EX Hok Hpc HS2). red in HK. specialize (HK y). rewrite (HG x) in HK. destruct (HK E2 EF) as (Hok2 & Hpc2 & a2 & Ea2 & HA2).
  split; [exact Hok2|]. split; [exact Hpc2|]. exists (a ++ a2). split; [rewrite <- app_assoc, <- Ea2; exact Ea|].
  intros b' Hb. rewrite <- app_assoc, (HA (a2 ++ b')); [|rewrite Ea2; apply change_app, Hb]. cbn [bind]. apply HA2, Hb.
Qed.
Lemma lands_ret {R} (w : view R) x s : (forall l, st_src (v_st w (v_set w l x)) = l) -> (forall l l', v_set w l (v_set w l' x) = v_set w l x) ->
  v_ok w (v_set w s x) -> okf (st_pctx (v_st w (v_set w s x))) -> lands w (fun l => Ok (v_set w l x)) s.
Proof.
  intros H1 H2 H3 H4 y [= <-] _. split; [exact H3|]. split; [exact H4|]. exists []. rewrite H1. split; [reflexivity|].
  intros b' _. rewrite H2. reflexivity.
Qed.
Lemma lands_state st s : okf (st_pctx st) -> lands sv (fun l => Ok (set_src V l st)) s.
Proof. intros H. apply (lands_ret sv); auto. exact I. Qed.
Lemma lands_pos p st s : okf p -> okf (st_pctx st) -> lands pv (fun l => Ok (p, set_src V l st)) s.
Proof. intros H H1. apply (lands_ret pv (p, st)); auto. Qed.
Lemma lands_id i st s : okf (st_pctx st) -> lands iv (fun l => Ok (i, set_src V l st)) s.
Proof. intros H. apply (lands_ret iv (i, st)); auto. exact I. Qed.
Lemma lands_fail {R} (w : view R) F s : (forall x, F s = Ok x -> failed V (v_st w x) = true) -> lands w F s.
Proof. intros H x E EF. rewrite (H x E) in EF. discriminate. Qed.

(** * Errors stay *)
Notation h := (format_handler V r cf args).
Notation bad st := (failed V st = true).
Lemma error_bad e st : bad (on_error V e st). Proof. reflexivity. Qed.
Lemma literal_bad : forall fuel t st st', bad st -> literal_loop V r fuel t st = Ok st' -> bad st'.
Proof.
  induction fuel as [|f IH]; intros t st st' HB E; destruct t as [|c t]; cbn [literal_loop] in E; [injection E as <-; exact HB|discriminate|injection E as <-; exact HB|].
  destruct (st_src st) as [|d s]; [injection E as <-; reflexivity|]. apply bind_ok in E. destruct E as ([[aft cp] sp] & _ & E).
  destruct (cp =? _); [injection E as <-; reflexivity|]. destruct sp.
  - apply bind_ok in E. destruct E as (s1 & _ & E). apply bind_ok in E. destruct E as (l1 & _ & E). eapply IH; [|exact E]. exact HB.
  - destruct (negb _); [injection E as <-; reflexivity|]. eapply IH; [|exact E]. exact HB.
Qed.
Lemma visited_bad i st st' : bad st -> set_arg_as_visited V args i st = Ok st' -> bad st'.
Proof.
  intros HB. unfold set_arg_as_visited. destruct (_ <=? i); [intros [= <-]; reflexivity|]. destruct (i <? 64); cbv zeta.
  - intros [= <-]. destruct (Z.testbit _ _); [reflexivity|exact HB].
  - destruct (nth_error _ _); [|discriminate]. destruct (set_nth _ _ _); [|discriminate]. intros [= <-]. destruct (Z.testbit _ _); [reflexivity|exact HB].
Qed.
Lemma missing_bad i st : bad st -> bad (note_missing V args i st).
Proof. intros H. unfold note_missing. destruct (get_arg _ _ _); [exact H|reflexivity]. Qed.
Lemma finish_bad i x st st' : bad st -> finish_visit V i x st = Ok st' -> bad st'.
Proof. intros H. destruct x as [[v s]|e| |]; cbn; try discriminate; intros [= <-]; [exact H|reflexivity]. Qed.
Lemma field_bad i b st st' : bad st -> on_replacement_field V args i b st = Ok st' -> bad st'.
Proof.
  intros H E. unfold on_replacement_field in E. apply bind_ok in E. destruct E as (st1 & E1 & E).
  apply visited_bad in E1; [|apply missing_bad, H]. rewrite E1 in E. injection E as <-. exact E1.
Qed.
Lemma specs_bad i b st p st' : bad st -> on_format_specs V cf args i b st = Ok (p, st') -> bad st'.
Proof.
  intros H E. unfold on_format_specs in E. apply bind_ok in E. destruct E as (st1 & E1 & E).
  apply visited_bad in E1; [|apply missing_bad, H]. destruct (arg_eqb _ _).
  - cbv zeta in E. change (failed V (set_pctx V b st1)) with (failed V st1) in E. rewrite E1 in E. injection E as _ <-. exact E1.
  - apply bind_ok in E. destruct E as ([s ss] & _ & E). destruct s as [|c s]; [injection E as _ <-; reflexivity|].
    destruct (negb _); [injection E as _ <-; reflexivity|]. destruct (ss_err ss); [injection E as _ <-; exact E1|].
    cbv zeta in E. change (failed V (set_pctx V (c :: s) st1)) with (failed V st1) in E. rewrite E1 in E. injection E as _ <-. exact E1.
Qed.
Lemma auto_bad st i st' : bad st -> next_arg_id V st = Ok (i, st') -> bad st'.
Proof. intros H. unfold next_arg_id. destruct (_ <? _); intros [= _ <-]; exact H. Qed.
Lemma id_bad id st i st' : bad st -> check_arg_id V id st = Ok (i, st') -> bad st'.
Proof. intros H. unfold check_arg_id. destruct (_ <? _); intros [= _ <-]; exact H. Qed.
Lemma arg_id_bad s st s' i st' : bad st -> parse_arg_id h s st = Ok (s', i, st') -> bad st'.
Proof.
  apply (arg_id_preserves h (fun st => bad st)); cbn; [apply auto_bad|apply id_bad|].
  intros a b _ [= <-]. reflexivity.
Qed.
Lemma replacement_bad s st p st' : bad st -> parse_replacement_field h s st = Ok (p, st') -> bad st'.
Proof.
  apply (field_preserves h (fun st => bad st)); cbn; [intros t a b; apply literal_bad|apply auto_bad|apply id_bad|apply field_bad|apply specs_bad|].
  intros a b _ [= <-]. reflexivity.
Qed.
Lemma loop_bad fuel b it st st' : bad st -> parse_loop fuel h b it st = Ok st' -> bad st'.
Proof.
  apply (loop_preserves h (fun st => bad st)); cbn; [intros t a c; apply literal_bad|apply auto_bad|apply id_bad|apply field_bad|apply specs_bad|].
  intros a c _ [= <-]. reflexivity.
Qed.

(** * Steps *)
Lemma okf_suffix p t : suffix p t -> okf t -> okf p.
Proof. apply suffix_Forall. Qed.
Lemma space_wide s : Forall scalar s -> read_while_classic_space r s = Ok (after (lead is_ws s) s).
Proof.
  intros H. assert (E := while_space_text r s (wide_whole r s ltac:(congruence)) H). rewrite Her, !text32 in E. exact E.
Qed.
Lemma space_format t : okf t -> exists t', read_while_classic_space (format_src r) t = Ok t' /\ okf t'.
Proof.
  intros H. assert (HS : Forall scalar t).
  { eapply Forall_impl; [|exact (okf_ascii t H)]. intros x Hx. unfold ascii in Hx. unfold scalar. lia. }
  assert (E := while_space_text (format_src r) t (contig_whole (format_src r) t eq_refl) HS). cbn [s_enc format_src] in E. rewrite Her, !text32 in E.
  eexists. split; [exact E|]. eapply okf_suffix; [apply lead_suffix|exact H].
Qed.
Lemma literal_lands : forall fuel t st s, okf t -> okf (st_pctx st) -> Forall scalar s -> lands sv (fun l => literal_loop V r fuel t (set_src V l st)) s.
Proof.
  induction fuel as [|f IH]; intros t st s Ht Hst HS; destruct Ht as [|c t Hc Ht]; cbn [literal_loop]; try (apply lands_state; exact Hst).
  { apply lands_fail. intros; discriminate. }
  cbn [st_src set_src].
  assert (L : lit_ok U32 c) by (destruct Hc as [Hc _]; unfold ascii in Hc; cbn; unfold scalar; lia).
  destruct (first_char_lit U32 c t ltac:(discriminate) L) as [HF HI]. rewrite Her, HF. cbn [bind]. rewrite HI. clear HF HI.
  intros x E EF. destruct s as [|d s]; [injection E as <-; discriminate|]. destruct (is_cp_space c) eqn:EC.
  - rewrite space_wide in E by exact HS. cbn [bind] in E. destruct (space_format t Ht) as (t' & ET & Ht'). rewrite ET in E. cbn [bind] in E.
    set (s' := after (lead is_ws (d :: s)) (d :: s)) in *. assert (ES : d :: s = lead is_ws (d :: s) ++ s') by (symmetry; apply lead_after).
    assert (HS' : Forall scalar s') by (rewrite ES in HS; apply Forall_app in HS; apply HS).
    change (set_src V s' (set_src V (d :: s) st)) with (set_src V s' st) in E.
    destruct (IH t' st s' Ht' Hst HS' x E EF) as (Hok & Hpc & a & Ea & HA). cbn [v_st v_set sv] in *.
    split; [exact I|]. split; [exact Hpc|]. set (ld := lead is_ws (d :: s)) in *. exists (ld ++ a).
    split; [rewrite <- app_assoc, <- Ea; exact ES|]. intros b' Hb. rewrite <- app_assoc.
    assert (ELD : lead is_ws (ld ++ a ++ b') = ld).
    { apply (lead_swap is_ws ld s'); [|rewrite Ea; apply swap_app, Hb]. rewrite <- ES. reflexivity. }
    assert (HSB : Forall scalar (ld ++ a ++ b')).
    { apply (swap_scalar (d :: s)); [|exact HS]. rewrite ES, Ea. apply swap_app, swap_app, Hb. }
    destruct (ld ++ a ++ b') as [|d' l'] eqn:EL.
    { exfalso. apply app_eq_nil in EL. destruct EL as [E1 E2]. apply app_eq_nil in E2. destruct E2 as [E2 E3].
      rewrite E1, Ea, E2 in ES. cbn [app] in ES. destruct Hb as [_ Hb]. destruct (Hb E3) as [E0|HM]; [congruence|].
      destruct Hc as (Hc & Hd & _). specialize (Hd HM). rewrite <- is_ws_space in EC. congruence. }
    rewrite space_wide, ELD by exact HSB. rewrite <- EL. rewrite after_app. cbn [bind]. rewrite ET. cbn [bind]. apply HA, Hb.
  - destruct (negb (d =? c)) eqn:ED; [injection E as <-; discriminate|].
    change (set_src V s (set_src V (d :: s) st)) with (set_src V s st) in E.
    destruct (IH t st s Ht Hst (Forall_inv_tail HS) x E EF) as (Hok & Hpc & a & Ea & HA). cbn [v_st v_set sv] in *.
    split; [exact I|]. split; [exact Hpc|]. exists (d :: a). cbn [app]. split; [rewrite <- Ea; reflexivity|].
    intros b' Hb. rewrite ED. apply HA, Hb.
Qed.
Lemma visited_lands i st s : okf (st_pctx st) -> lands sv (fun l => set_arg_as_visited V args i (note_missing V args i (set_src V l st))) s.
Proof.
  intros Hst x E EF. unfold note_missing in *. destruct (get_arg V args i) as [a|].
  2: { exfalso. apply visited_bad in E; [|reflexivity]. cbn in EF. congruence. }
  unfold set_arg_as_visited in *. cbn [st_low st_upper set_src] in *. destruct (_ <=? i); [injection E as <-; discriminate|]. destruct (i <? 64); cbv zeta in *.
  - injection E as <-. destruct (Z.testbit (st_low st) i); [discriminate|]. split; [exact I|]. split; [exact Hst|]. exists []. split; [reflexivity|]. intros b' _. reflexivity.
  - destruct (nth_error _ _) as [y|]; [|discriminate]. destruct (set_nth _ _ _) as [u|]; [|discriminate]. injection E as <-.
    destruct (Z.testbit y _); [discriminate|]. split; [exact I|]. split; [exact Hst|]. exists []. split; [reflexivity|]. intros b' _. reflexivity.
Qed.
Lemma finish_lands i read st s : okf (st_pctx st) -> settles read s -> lands sv (fun l => finish_visit V i (read l) (set_src V l st)) s.
Proof.
  intros Hst HR x E EF. destruct (read s) as [[v b]|e| |] eqn:ER; cbn [finish_visit] in E; try discriminate; injection E as <-; [|discriminate].
  destruct (HR v b ER) as (a & -> & HA). split; [exact I|]. split; [exact Hst|]. exists a. split; [reflexivity|].
  intros b' [Hb _]. cbn in Hb |- *. rewrite (HA b' Hb). reflexivity.
Qed.
Lemma lands_ext {R} (w : view R) F G s : (forall l, Forall scalar l -> F l = G l) -> Forall scalar s -> lands w G s -> lands w F s.
Proof.
  intros HE HS HG x E EF. rewrite HE in E by exact HS. destruct (HG x E EF) as (H1 & H2 & a & Ea & HA). split; [exact H1|]. split; [exact H2|].
  exists a. split; [exact Ea|]. intros b' Hb. rewrite HE; [apply HA, Hb|]. apply (swap_scalar s); [|exact HS]. rewrite Ea. apply swap_app, Hb.
Qed.
Lemma field_lands i t st s : okf (st_pctx st) -> Forall scalar s -> lands sv (fun l => on_replacement_field V args i t (set_src V l st)) s.
Proof.
  intros Hst HS. unfold on_replacement_field. eapply (lands_bind sv); [apply sv_good|exact HS|apply visited_lands, Hst| |].
  - intros x y _ E EF. cbn in *. destruct (failed V x) eqn:EX; [|reflexivity]. injection E as <-. congruence.
  - intros x _ EX _ Hpc HS1. cbn [v_st v_set sv] in *. cbn [st_src set_src].
    eapply lands_ext with (G := fun l => match get_arg V args i with Some a => finish_visit V i (ar_default a l) (set_src V l x) | None => Ok (set_src V l x) end);
      [intros l _; change (failed V (set_src V l x)) with (failed V x); rewrite EX; reflexivity|exact HS1|].
    destruct (get_arg V args i) as [a|] eqn:EG; [|apply lands_state, Hpc]. apply finish_lands; [exact Hpc|]. apply (sa_default _ (get_settled i a EG)), HS1.
Qed.
Lemma specs_lands i t st s : okf t -> okf (st_pctx st) -> Forall scalar s -> lands pv (fun l => on_format_specs V cf args i t (set_src V l st)) s.
Proof.
  intros Ht Hst HS. unfold on_format_specs. eapply (lands_bind sv); [apply sv_good|exact HS|apply visited_lands, Hst| |].
  - intros x y _ E EF. cbn in *. destruct (failed V x) eqn:EX; [|reflexivity]. exfalso. destruct y as [p y]. cbn in EF.
    assert (B : bad y); [|congruence]. destruct (arg_eqb _ _).
    + cbv zeta in E. change (failed V (set_pctx V t x)) with (failed V x) in E. rewrite EX in E. injection E as _ <-. exact EX.
    + apply bind_ok in E. destruct E as ([s1 ss] & _ & E). destruct s1 as [|c s1]; [injection E as _ <-; reflexivity|].
      destruct (negb _); [injection E as _ <-; reflexivity|]. destruct (ss_err ss); [injection E as _ <-; exact EX|].
      cbv zeta in E. change (failed V (set_pctx V (c :: s1) x)) with (failed V x) in E. rewrite EX in E. injection E as _ <-. exact EX.
  - intros x _ EX _ Hpc HS1. cbn [v_st v_set sv] in *.
    set (ty := match get_arg V args i with Some a => ar_type a | None => NoneType end).
    assert (HT : no_regex ty).
    { unfold ty. destruct (get_arg V args i) as [a|] eqn:EG; [apply (sa_typed _ (get_settled i a EG))|split; discriminate]. }
    destruct (arg_eqb ty CustomType) eqn:ET.
    + cbv zeta. eapply lands_ext with (G := fun l => match get_arg V args i with
        | Some a => let '(p, y) := if st_mixed x then (t, Err InvalidFormatString) else ar_custom a t l in
                    st0 <- finish_visit V i y (set_pctx V p (set_src V l x)) ;; Ok (p, st0)
        | None => Ok (t, set_pctx V t (set_src V l x)) end);
        [intros l _; change (failed V (set_pctx V t (set_src V l x))) with (failed V x); rewrite EX; reflexivity|exact HS1|].
      destruct (get_arg V args i) as [a|] eqn:EG; [|apply (lands_pos t (set_pctx V t x)); exact Ht].
      destruct (st_mixed x). { apply lands_fail. intros y E. cbn in E. injection E as <-. reflexivity. }
      assert (EC : ar_type a = CustomType) by (unfold ty in ET; destruct (ar_type a); try reflexivity; discriminate ET).
      destruct (sa_custom _ (get_settled i a EG) EC t Ht) as (p & Hp & HP & HV).
      eapply lands_ext with (G := fun l => st0 <- finish_visit V i (snd (ar_custom a t l)) (set_src V l (set_pctx V p x)) ;; Ok (p, st0)); [|exact HS1|].
      { intros l Hl. assert (E := HP l Hl). destruct (ar_custom a t l) as [q y]. cbn in E. subst q. reflexivity. }
      eapply (lands_bind sv); [apply sv_good|exact HS1|apply (finish_lands i (fun l => snd (ar_custom a t l))); [exact Hp|apply HV, HS1]| |].
      * intros u y _ [= <-]. cbn. auto.
      * intros u _ _ _ Hu _. apply lands_pos; assumption.
    + destruct (specs_ascii (Config U8 (c_regex cf) (c_regex_wide cf) (c_regex_std cf) (c_regex_multiline cf)) cf ty t) as [_ HA].
      { repeat split; auto. } { apply okf_ascii, Ht. }
      destruct (parse_format_specs_safe cf ty t (SS specs_default false) HT) as (s1 & st1 & EP & HSf).
      assert (HR : patterns \/ no_pattern (ss_specs st1)).
      { assert (HD : patterns \/ ~ In 47 t); [|destruct HD as [HD|HD]; [left; exact HD|right; eapply parse_no_pattern; eassumption]].
        clear - Ht. induction Ht as [|c t (_ & _ & Hc) Ht IH]; [right; intros []|]. destruct Hc as [Hc|Hc]; [left; exact Hc|].
        destruct IH as [IH|IH]; [left; exact IH|right]. intros [HI|HI]; auto. }
      assert (HP := parse_parsed _ _ _ _ _ EP). rewrite EP in HA |- *. cbn [bind]. assert (H1 := okf_suffix _ _ HSf Ht).
      destruct s1 as [|c s1]; [apply lands_fail; intros y E; injection E as <-; reflexivity|].
      destruct (negb (c =? 125)); [apply lands_fail; intros y E; injection E as <-; reflexivity|].
      destruct (ss_err st1); [apply lands_pos; exact Hpc|]. cbv zeta.
      eapply lands_ext with (G := fun l => match get_arg V args i with
        | Some a => st0 <- finish_visit V i (ar_specs a (ss_specs st1) l) (set_src V l (set_pctx V (c :: s1) x)) ;; Ok (c :: s1, st0)
        | None => Ok (c :: s1, set_src V l (set_pctx V (c :: s1) x)) end);
        [intros l _; change (failed V (set_pctx V (c :: s1) (set_src V l x))) with (failed V x); rewrite EX; reflexivity|exact HS1|].
      destruct (get_arg V args i) as [a|] eqn:EG; [|apply lands_pos; exact H1].
      assert (NC : ar_type a <> CustomType) by (unfold ty in ET; intros E; rewrite E in ET; discriminate).
      eapply (lands_bind sv); [apply sv_good|exact HS1| | |].
      * apply (finish_lands i (ar_specs a (ss_specs st1))); [exact H1|]. apply (sa_specs _ (get_settled i a EG) NC); assumption.
      * intros u y _ [= <-]. cbn. auto.
      * intros u _ _ _ Hu _. apply lands_pos; assumption.
Qed.
Lemma auto_lands st s : okf (st_pctx st) -> lands iv (fun l => next_arg_id V (set_src V l st)) s.
Proof.
  intros H. unfold next_arg_id. cbn [st_next set_src]. destruct (_ <? 0).
  - apply (lands_id 0 (set_mixed V st)), H.
  - apply (lands_id _ (set_next V (st_next st + 1) st)), H.
Qed.
Lemma id_lands i st s : okf (st_pctx st) -> lands iv (fun l => check_arg_id V i (set_src V l st)) s.
Proof.
  intros H. unfold check_arg_id. cbn [st_next set_src]. destruct (0 <? _).
  - apply (lands_id i (set_mixed V st)), H.
  - apply (lands_id i (set_next V (-1) st)), H.
Qed.
Lemma lands_idpos p i st s : okf p -> okf (st_pctx st) -> lands piv (fun l => Ok (p, i, set_src V l st)) s.
Proof. intros H H1. apply (lands_ret piv (p, i, st)); auto. Qed.
Lemma arg_id_lands t st s : okf t -> okf (st_pctx st) -> Forall scalar s -> lands piv (fun l => parse_arg_id h t (set_src V l st)) s.
Proof.
  assert (ERR : forall p st s, lands piv (fun l => st' <- h_error h (set_src V l st) ;; Ok (p, 0, st')) s).
  { intros p st0 s0. apply lands_fail. intros y E. cbn in E. injection E as <-. reflexivity. }
  intros Ht Hst HS. unfold parse_arg_id. destruct t as [|c t]; [apply lands_fail; intros; discriminate|]. destruct (_ && _).
  2: { eapply (lands_bind iv); [apply iv_good|exact HS|apply auto_lands, Hst| |].
    - intros [i x] y _ [= <-]. cbn. auto.
    - intros [i x] _ _ _ Hpc _. apply lands_idpos; assumption. }
  unfold do_parse_arg_id. destruct (_ || _); [apply ERR|].
  assert (E : match (if negb (c =? 48) then parse_simple_int (c :: t) else Ok (0, t)) with Ok (_, s2) => okf s2 | _ => True end).
  { destruct (negb (c =? 48)); [|inversion Ht; assumption]. unfold parse_simple_int. destruct (is_digit c); [|exact I].
    assert (H := int_suffix (c :: t) 0). destruct (parse_simple_int_loop (c :: t) 0). eapply okf_suffix; eassumption. }
  destruct (if negb (c =? 48) then _ else _) as [[idx s2]| | |]; cbn [bind]; try (apply lands_fail; intros; discriminate).
  destruct s2 as [|d s2]; [apply ERR|]. destruct (_ && _); [apply ERR|].
  eapply (lands_bind iv); [apply iv_good|exact HS|apply id_lands, Hst| |].
  - intros [i x] y _ [= <-]. cbn. auto.
  - intros [i x] _ _ _ Hpc _. apply lands_idpos; assumption.
Qed.
Lemma bad_back (b b2 : bool) : (b = true -> b2 = true) -> b2 = false -> b = false.
Proof. destruct b, b2; auto. intros H; specialize (H eq_refl). discriminate. Qed.
Lemma then_pos F p s : Forall scalar s -> okf p -> lands sv F s -> lands pv (fun l => st' <- F l ;; Ok (p, st')) s.
Proof.
  intros HS Hp HF. eapply (lands_bind sv); [apply sv_good|exact HS|exact HF| |].
  - intros x y _ [= <-]. cbn. auto.
  - intros x _ _ _ Hpc _. apply lands_pos; assumption.
Qed.
Lemma replacement_lands t st s : okf t -> okf (st_pctx st) -> Forall scalar s -> lands pv (fun l => parse_replacement_field h t (set_src V l st)) s.
Proof.
  assert (ERR : forall p st s, lands pv (fun l => st' <- h_error h (set_src V l st) ;; Ok (p, st')) s).
  { intros p st0 s0. apply lands_fail. intros y E. cbn in E. injection E as <-. reflexivity. }
  intros Ht Hst HS. unfold parse_replacement_field. destruct Ht as [|x t _ Ht]; [apply lands_fail; intros; discriminate|].
  destruct t as [|c t]; [apply ERR|]. assert (Hc := Forall_inv Ht). assert (Ht1 := Forall_inv_tail Ht). destruct (c =? 125).
  { eapply (lands_bind iv); [apply iv_good|exact HS|apply auto_lands, Hst| |].
    - intros [i u] y _ E. cbn [v_st iv pv snd] in *. apply bad_back. intros B. apply bind_ok in E. destruct E as (st1 & E1 & E2). injection E2 as <-. cbn.
      exact (field_bad _ [] _ _ B E1).
    - intros [i u] _ _ _ Hpc HS1. cbn [v_set v_st iv fst snd] in *. apply then_pos; [exact HS1|exact Ht1|]. apply field_lands; assumption. }
  destruct (c =? 123).
  { apply then_pos; [exact HS|exact Ht1|]. apply literal_lands; [constructor; [exact Hc|constructor]|exact Hst|exact HS]. }
  eapply (lands_bind piv); [apply piv_good|exact HS|apply arg_id_lands; assumption| |].
  - intros [[t1 i] u] [p y] _ E. cbn [v_st piv pv snd] in *. apply bad_back. intros B.
    destruct t1 as [|d t1]; [injection E as _ <-; reflexivity|]. destruct (d =? 125).
    { apply bind_ok in E. destruct E as (st1 & E1 & E2). injection E2 as _ <-. exact (field_bad _ [] _ _ B E1). }
    destruct (d =? 58); [|injection E as _ <-; reflexivity]. destruct t1 as [|d1 t1]; [injection E as _ <-; reflexivity|].
    apply bind_ok in E. destruct E as ([q st1] & E1 & E). apply specs_bad in E1; [|exact B].
    destruct q as [|e q]; [injection E as _ <-; reflexivity|]. destruct (negb _); injection E as _ <-; [reflexivity|exact E1].
  - intros [[t1 i] u] _ _ Hok Hpc HS1. cbn [v_set v_st v_ok piv fst snd] in *.
    destruct t1 as [|d t1]; [apply ERR|]. assert (Hd := Forall_inv_tail Hok). destruct (d =? 125).
    { apply then_pos; [exact HS1|exact Hd|]. apply field_lands; assumption. }
    destruct (d =? 58); [|apply ERR]. destruct t1 as [|d1 t1]; [apply ERR|].
    eapply (lands_bind pv); [apply pv_good|exact HS1|apply specs_lands; assumption| |].
    + intros [q st1] [p y] _ E. cbn [v_st pv snd] in *. apply bad_back. intros B.
      destruct q as [|e q]; [injection E as _ <-; reflexivity|]. destruct (negb _); injection E as _ <-; [reflexivity|exact B].
    + intros [q st1] _ _ Hok1 Hpc1 HS2. cbn [v_set v_st v_ok pv fst snd] in *. destruct q as [|e q]; [apply ERR|].
      destruct (negb _); [apply ERR|]. apply lands_pos; [exact (Forall_inv_tail Hok1)|exact Hpc1].
Qed.
Lemma loop_lands : forall fuel begin it st s, okf begin -> okf it -> okf (st_pctx st) -> Forall scalar s ->
  lands sv (fun l => parse_loop fuel h begin it (set_src V l st)) s.
Proof.
  assert (BT : forall x y, okf x -> okf (between x y)).
  { intros x y H. unfold between. rewrite <- (firstn_skipn (length x - length y) x) in H. apply Forall_app in H. apply H. }
  assert (LIT : forall t st s, okf t -> okf (st_pctx st) -> Forall scalar s -> lands sv (fun l => h_literal h t (set_src V l st)) s).
  { intros t st s. apply literal_lands. }
  assert (ERR : forall st s, lands sv (fun l => h_error h (set_src V l st)) s).
  { intros st0 s0. apply lands_fail. intros y E. cbn in E. injection E as <-. reflexivity. }
  induction fuel as [|f IH]; intros begin it st s HB HI Hst HS.
  { destruct it; cbn [parse_loop]; [apply LIT; assumption|apply lands_fail; intros; discriminate]. }
  destruct it as [|c it]; cbn [parse_loop]; [apply LIT; assumption|]. assert (Hc := Forall_inv HI). assert (Hit := Forall_inv_tail HI). destruct (c =? 123).
  - eapply (lands_bind sv); [apply sv_good|exact HS|apply LIT; auto| |].
    + intros x y _ E. cbn [v_st sv] in *. apply bad_back. intros B. apply bind_ok in E. destruct E as ([p st1] & E1 & E).
      apply replacement_bad in E1; [|exact B]. cbn [h_failed format_handler] in E. rewrite E1 in E. injection E as <-. exact E1.
    + intros x _ _ _ Hpc HS1. cbn [v_set v_st sv] in *.
      eapply (lands_bind pv); [apply pv_good|exact HS1|apply replacement_lands; assumption| |].
      * intros [p st1] y _ E. cbn [v_st pv sv snd] in *. apply bad_back. intros B. cbn [h_failed format_handler] in E. rewrite B in E. injection E as <-. exact B.
      * intros [p st1] _ EX Hok Hpc1 HS2. cbn [v_set v_st v_ok pv sv fst snd] in *. cbn [h_failed format_handler].
        eapply lands_ext with (G := fun l => parse_loop f h p p (set_src V l st1)); [|exact HS2|apply IH; assumption].
        intros l _. change (failed V (set_src V l st1)) with (failed V st1). rewrite EX. reflexivity.
  - destruct (c =? 125); [|apply IH; assumption]. destruct it as [|d it]; [apply ERR|]. destruct (negb (d =? 125)); [apply ERR|].
    eapply (lands_bind sv); [apply sv_good|exact HS|apply LIT; auto| |].
    + intros x y _ E. cbn [v_st sv] in *. apply bad_back. intros B. eapply loop_bad; [exact B|exact E].
    + intros x _ _ _ Hpc HS1. cbn [v_set v_st sv] in *. apply IH; try assumption; exact (Forall_inv_tail Hit).
Qed.
Lemma exhausted_lands st s : okf (st_pctx st) -> lands sv (fun l => check_args_exhausted V args (set_src V l st)) s.
Proof.
  intros H. unfold check_args_exhausted. cbn [st_low st_upper set_src]. cbv zeta.
  destruct (negb _); [apply lands_fail; intros y [= <-]; reflexivity|]. destruct (_ <? 64); [apply lands_state, H|].
  destruct (check_upper _ _) as [[|[p|p|]|p]|]; first [apply lands_state, H|apply lands_fail; intros y E; first [discriminate E|injection E as <-; reflexivity]].
Qed.

(** * A whole scan *)
Theorem vscan_follows format cps : okf format -> Forall scalar cps ->
  forall vs b, vscan V r cf args format cps = Ok (vs, b) ->
    exists a, cps = a ++ b /\ forall b', change b b' -> vscan V r cf args format (a ++ b') = Ok (vs, b').
Proof.
  intros HF HS vs b E. unfold vscan in *. destruct (is_simple format && _).
  { unfold scan_simple_single_argument in *. destruct (get_arg V args 0) as [x|] eqn:EG; [|discriminate].
    apply bind_ok in E. destruct E as ([v l] & E1 & E2). injection E2 as <- <-.
    destruct (sa_plain _ (get_settled 0 x EG) cps HS v l E1) as (a & Ea & HA). exists a. split; [exact Ea|].
    intros b' [Hb _]. rewrite (HA b' Hb). reflexivity. }
  unfold vscan_parse_format_string, parse_format_string_impl in *.
  set (st0 := init_state V args format cps). assert (EI : forall l, init_state V args format l = set_src V l st0) by reflexivity.
  assert (HL : lands sv (fun l => st <- parse_loop (vscan_fuel V args format) h format format (init_state V args format l) ;; check_args_exhausted V args st) cps).
  { eapply (lands_bind sv sv (fun l => parse_loop (vscan_fuel V args format) h format format (init_state V args format l))); [apply sv_good|exact HS| | |].
    - apply (loop_lands _ format format st0 cps); assumption.
    - intros x y _ EY. cbn [v_st sv]. apply bad_back. intros B. unfold check_args_exhausted in EY. cbv zeta in EY.
      destruct (negb _); [injection EY as <-; reflexivity|]. destruct (_ <? 64); [injection EY as <-; exact B|].
      destruct (check_upper _ _) as [[|[p|p|]|p]|]; try discriminate; injection EY as <-; first [exact B|reflexivity].
    - intros x _ _ _ Hpc _. apply exhausted_lands, Hpc. }
  apply bind_ok in E. destruct E as (x & E1 & E). apply bind_ok in E. destruct E as (y & E2 & E).
  destruct (st_error y) eqn:EY; [discriminate|]. injection E as <- <-.
  red in HL. specialize (HL y). rewrite E1 in HL. cbn [bind] in HL. destruct (HL E2) as (_ & _ & a & Ea & HA).
  { cbn. unfold failed. rewrite EY. reflexivity. }
  exists a. split; [exact Ea|]. intros b' Hb. specialize (HA b' Hb). apply bind_ok in HA. destruct HA as (x' & EX & EX2).
  rewrite EX. cbn [bind]. rewrite EX2. cbn. rewrite EY. reflexivity.
Qed.
End Lands.
