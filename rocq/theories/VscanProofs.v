(** Proofs about format-driven scanning. *)
From Coq Require Import Permutation.
From Verif Require Import Prelude UnicodeModel UnicodeProofs WhitespaceModel ReadModel
  ReadProofs SpecsModel ArgsModel FormatModel FormatProofs SpecsInvProofs VscanModel.
Local Open Scope Z_scope.
Ltac Zify.zify_post_hook ::= Z.div_mod_to_equations.

Lemma NoDup_snoc {A} (l : list A) x : NoDup l -> ~ In x l -> NoDup (l ++ [x]).
Proof.
  intros H Hx. apply (Permutation.Permutation_NoDup (l := x :: l)).
  - apply Permutation.Permutation_cons_append.
  - constructor; assumption.
Qed.

Lemma simple_int_nonneg s : forall v0 v s', 0 <= v0 -> parse_simple_int_loop s v0 = (v, s') ->
  0 <= v \/ exists d t, s' = d :: t /\ is_digit d = true.
Proof.
  induction s as [|c s IH]; intros v0 v s' H0; cbn [parse_simple_int_loop].
  - intros [= <- <-]. left. exact H0.
  - destruct (is_digit c) eqn:E.
    + cbv zeta. destruct (_ <? _); [intros [= <- <-]; right; eauto|].
      apply IH. unfold is_digit in E. lia.
    + intros [= <- <-]. left. exact H0.
Qed.

Section Inv.
Variable V : Type.
Variable r : src.
Variable cf : config.
Variable args : list (arg V).
Hypothesis Hcount : (length args < 64)%nat.

(** A reader gives a result that is a suffix of what it was given. *)
Definition reader_ok (f : list Z -> outcome (V * list Z)) : Prop :=
  forall s, units (s_enc r) s ->
    (exists v s', f s = Ok (v, s') /\ suffix s' s) \/ exists e, f s = Err e.
Definition arg_ok (a : arg V) : Prop :=
  reader_ok (ar_default a)
  /\ (forall fmt fmt' sp, parse_format_specs cf (ar_type a) fmt (SS specs_default false) = Ok (fmt', SS sp false) ->
        reader_ok (ar_specs a sp))
  /\ (forall fmt s, units (s_enc r) s -> suffix (fst (ar_custom a fmt s)) fmt
       /\ ((exists v s', snd (ar_custom a fmt s) = Ok (v, s') /\ suffix s' s)
           \/ exists e, snd (ar_custom a fmt s) = Err e))
  /\ no_regex (ar_type a).
Hypothesis Hargs : Forall arg_ok args.

Variable format source : list Z.
Hypothesis Hfu : units (s_enc r) format.
Hypothesis Hsu : units (s_enc r) source.

Notation n := (Z.of_nat (length args)).

(** Invariant, with the list of the ids visited so far. *)
Record inv (vis : list Z) (st : state V) : Prop := Inv {
  i_nodup : NoDup vis;
  i_range : Forall (fun i => 0 <= i < n) vis;
  i_low0 : 0 <= st_low st;
  i_low : forall i, 0 <= i -> Z.testbit (st_low st) i = existsb (Z.eqb i) vis;
  i_next : -1 <= st_next st;
  i_pctx : suffix (st_pctx st) format;
  i_src : suffix (st_src st) source;
  i_lnodup : NoDup (map fst (st_log st));
  i_lincl : incl (map fst (st_log st)) vis }.

Lemma inv_error vis st e : inv vis st -> inv vis (on_error V e st).
Proof. intros []; constructor; assumption. Qed.
Lemma inv_src vis st s : inv vis st -> suffix s (st_src st) -> inv vis (set_src V s st).
Proof. intros [] H; constructor; try assumption. eapply suffix_trans; eassumption. Qed.
Lemma inv_pctx vis st p : inv vis st -> suffix p format -> inv vis (set_pctx V p st).
Proof. intros [] H; constructor; assumption. Qed.
Lemma inv_next vis st k : inv vis st -> -1 <= k -> inv vis (set_next V k st).
Proof. intros [] H; constructor; assumption. Qed.
Lemma inv_mixed vis st : inv vis st -> inv vis (set_mixed V st).
Proof. intros []; constructor; assumption. Qed.
Lemma inv_units vis st : inv vis st -> units (s_enc r) (st_src st).
Proof. intros []. eapply units_suffix; eassumption. Qed.

Lemma existsb_In i l : existsb (Z.eqb i) l = true <-> In i l.
Proof.
  rewrite existsb_exists. split.
  - intros (x & H & E). apply Z.eqb_eq in E. subst. assumption.
  - intros H. exists i. split; [assumption|apply Z.eqb_refl].
Qed.

Lemma set_visited_inv vis st id : inv vis st -> 0 <= id ->
  exists st', set_arg_as_visited V args id st = Ok st'
  /\ st_src st' = st_src st /\ st_pctx st' = st_pctx st /\ st_log st' = st_log st
  /\ st_next st' = st_next st
  /\ ((inv vis st' /\ failed V st' = true)
      \/ (inv (id :: vis) st' /\ id < n /\ ~ In id vis /\ st_error st' = st_error st)).
Proof.
  intros HI Hid. unfold set_arg_as_visited, args_count.
  destruct (n <=? id) eqn:E.
  { eexists. split; [reflexivity|]. do 4 (split; [reflexivity|]). left. split; [apply inv_error, HI|reflexivity]. }
  replace (id <? 64) with true by lia. cbv zeta.
  eexists. split; [reflexivity|].
  assert (HB : forall i, 0 <= i -> Z.testbit (Z.lor (st_low st) (Z.shiftl 1 id)) i = (Z.eqb i id) || existsb (Z.eqb i) vis).
  { intros i Hi. rewrite Z.lor_spec, (i_low _ _ HI i Hi). rewrite orb_comm. f_equal.
    rewrite Z.shiftl_1_l, Z.pow2_bits_eqb by lia. apply Z.eqb_sym. }
  destruct (Z.testbit (st_low st) id) eqn:ET.
  - cbn. do 4 (split; [reflexivity|]). left. split; [|reflexivity].
    rewrite (i_low _ _ HI id Hid) in ET. destruct HI; constructor; cbn; try assumption.
    + apply Z.lor_nonneg. split; [assumption|]. apply Z.shiftl_nonneg. lia.
    + intros i Hi. rewrite HB by assumption. destruct (Z.eqb_spec i id) as [->|]; [rewrite ET; reflexivity|reflexivity].
  - cbn. do 4 (split; [reflexivity|]). right.
    assert (HN : ~ In id vis). { rewrite (i_low _ _ HI id Hid) in ET. intros HX. apply existsb_In in HX. congruence. }
    split; [|split; [lia|split; [exact HN|reflexivity]]].
    destruct HI; constructor; cbn; try assumption.
    + constructor; assumption.
    + constructor; [lia|assumption].
    + apply Z.lor_nonneg. split; [assumption|]. apply Z.shiftl_nonneg. lia.
    + intros x Hx. right. apply i_lincl0, Hx.
Qed.

Lemma note_missing_inv vis st id : inv vis st -> inv vis (note_missing V args id st).
Proof. intros H. unfold note_missing. destruct (get_arg _ _ _); [assumption|apply inv_error, H]. Qed.

(** Literal text. *)
Lemma literal_loop_inv : forall fuel lit vis st, (length lit <= fuel)%nat -> units (s_enc r) lit ->
  inv vis st -> exists st', literal_loop V r fuel lit st = Ok st' /\ inv vis st'
  /\ st_log st' = st_log st /\ st_pctx st' = st_pctx st.
Proof.
  induction fuel as [|f IH]; intros [|c lit] vis st HL HU HI; cbn [literal_loop length] in *;
    try (eexists; split; [reflexivity|split; [exact HI|split; reflexivity]]); [lia|].
  destruct (st_src st) as [|d s] eqn:ES.
  { eexists. split; [reflexivity|split; [apply inv_error, HI|split; reflexivity]]. }
  destruct (is_first_char_space_total (s_enc r) c lit) as (after & cp & -> & Hafter). cbn [bind].
  destruct (cp =? invalid_code_point).
  { eexists. split; [reflexivity|split; [apply inv_error, HI|split; reflexivity]]. }
  destruct (is_cp_space cp).
  - rewrite <- ES.
    destruct (read_while_classic_space_total r (st_src st)) as (s' & -> & Hs'); [eapply inv_units, HI|]. cbn [bind].
    assert (HUa : units (s_enc (format_src r)) after).
    { eapply units_suffix; [|exact HU]. apply suffix_cons, Hafter. }
    destruct (read_while_classic_space_total (format_src r) after HUa) as (l' & -> & Hl'). cbn [bind].
    destruct (IH l' vis (set_src V s' st)) as (st' & E & HI' & HLg & HP).
    + apply suffix_len in Hafter, Hl'. lia.
    + eapply units_suffix; [exact Hl'|exact HUa].
    + apply inv_src; assumption.
    + eexists. split; [exact E|]. split; [exact HI'|]. split; [rewrite HLg|rewrite HP]; reflexivity.
  - destruct (negb (d =? c)).
    { eexists. split; [reflexivity|split; [apply inv_error, HI|split; reflexivity]]. }
    destruct (IH lit vis (set_src V s st)) as (st' & E & HI' & HLg & HP).
    + lia.
    + eapply units_suffix; [|exact HU]. auto with sfx.
    + apply inv_src; [assumption|]. rewrite ES. auto with sfx.
    + eexists. split; [exact E|]. split; [exact HI'|]. split; [rewrite HLg|rewrite HP]; reflexivity.
Qed.

Lemma on_literal_inv lit vis st : units (s_enc r) lit -> inv vis st ->
  exists st', on_literal_text V r lit st = Ok st' /\ inv vis st'.
Proof.
  intros HU HI. destruct (literal_loop_inv (length lit) lit vis st) as (st' & E & H & _); [lia|assumption|assumption|].
  exists st'. split; assumption.
Qed.

(** Fields. *)
Definition grown (vis vis' : list Z) : Prop := vis' = vis \/ exists id, vis' = id :: vis.

Lemma finish_visit_inv vis st id x : inv vis st -> In id vis -> ~ In id (map fst (st_log st)) ->
  ((exists v s', x = Ok (v, s') /\ suffix s' (st_src st)) \/ exists e, x = Err e) ->
  exists st', finish_visit V id x st = Ok st' /\ inv vis st' /\ st_pctx st' = st_pctx st.
Proof.
  intros HI Hin Hni [(v & s' & -> & Hs)|(e & ->)]; cbn [finish_visit].
  - eexists. split; [reflexivity|]. split; [|reflexivity].
    destruct HI; constructor; cbn; try assumption.
    + eapply suffix_trans; eassumption.
    + rewrite map_app. cbn. apply NoDup_snoc; assumption.
    + rewrite map_app. cbn. intros y Hy. apply in_app_or in Hy. destruct Hy as [Hy|[<-|[]]]; auto.
  - eexists. split; [reflexivity|]. split; [apply inv_error, HI|reflexivity].
Qed.

Lemma get_arg_ok id a : get_arg V args id = Some a -> arg_ok a.
Proof.
  unfold get_arg. intros H. rewrite Forall_forall in Hargs. apply Hargs. eapply nth_error_In, H.
Qed.

Lemma log_fresh vis st id : inv vis st -> ~ In id vis -> ~ In id (map fst (st_log st)).
Proof. intros HI H HX. apply H. eapply i_lincl; eassumption. Qed.

Lemma on_field_inv vis st id b : inv vis st -> 0 <= id ->
  exists st' vis', on_replacement_field V args id b st = Ok st' /\ inv vis' st' /\ grown vis vis'.
Proof.
  intros HI Hid. unfold on_replacement_field.
  destruct (set_visited_inv vis (note_missing V args id st) id) as (st1 & -> & ES & EP & EL & EN & H1);
    [apply note_missing_inv, HI|exact Hid|]. cbn [bind].
  destruct H1 as [[H1 HF]|(H1 & Hn & Hni & HE)].
  { rewrite HF. do 2 eexists. split; [reflexivity|]. split; [exact H1|left; reflexivity]. }
  assert (HD : exists st' vis', Ok st1 = Ok st' /\ inv vis' st' /\ grown vis vis').
  { do 2 eexists. split; [reflexivity|]. split; [exact H1|right; eauto]. }
  destruct (failed V st1); [exact HD|].
  destruct (get_arg V args id) as [a|] eqn:EA; [|exact HD].
  destruct (get_arg_ok id a EA) as (Hd & _).
  destruct (finish_visit_inv (id :: vis) st1 id (ar_default a (st_src st1))) as (st2 & -> & H2 & _).
  - exact H1.
  - left; reflexivity.
  - rewrite EL. unfold note_missing. rewrite EA. eapply log_fresh; eassumption.
  - destruct (Hd (st_src st1)) as [(v & s' & E & Hs)|(e & E)]; [eapply inv_units, H1|left; eauto|right; eauto].
  - do 2 eexists. split; [reflexivity|]. split; [exact H2|right; eauto].
Qed.

(** The format position after a field is either after the specs, or anywhere if a new
    argument has been visited. *)
Lemma on_specs_inv vis st id b : inv vis st -> 0 <= id -> suffix b format ->
  exists p st' vis', on_format_specs V cf args id b st = Ok (p, st') /\ inv vis' st'
  /\ suffix p format /\ ((vis' = vis /\ failed V st' = true) \/ vis' = id :: vis).
Proof.
  intros HI Hid Hb. unfold on_format_specs.
  destruct (set_visited_inv vis (note_missing V args id st) id) as (st1 & -> & ES & EP & EL & EN & H1);
    [apply note_missing_inv, HI|exact Hid|]. cbn [bind]. cbv zeta.
  assert (HP1 : suffix (st_pctx st1) format) by (destruct H1 as [[H1 _]|[H1 _]]; apply (i_pctx _ _ H1)).
  set (t := match get_arg V args id with Some a => ar_type a | None => NoneType end).
  assert (Ht : no_regex t).
  { unfold t. destruct (get_arg V args id) eqn:EA; [|split; discriminate]. apply (get_arg_ok _ _ EA). }
  (* generic finish *)
  assert (HX : forall st2, (forall vv, inv vv st1 -> inv vv st2) -> (failed V st1 = true -> failed V st2 = true) ->
     exists vis', inv vis' st2 /\ ((vis' = vis /\ failed V st2 = true) \/ vis' = id :: vis)).
  { intros st2 Hi Hf. destruct H1 as [[H1 HF]|(H1 & _)].
    - exists vis. split; [apply Hi, H1|left; split; [reflexivity|apply Hf, HF]].
    - exists (id :: vis). split; [apply Hi, H1|right; reflexivity]. }
  destruct (arg_eqb t CustomType) eqn:EC.
  - destruct (failed V (set_pctx V b st1)) eqn:EF.
    { destruct (HX (set_pctx V b st1)) as (vis' & Hi & Hv); [intros; apply inv_pctx; assumption|auto|].
      do 3 eexists. split; [reflexivity|]. split; [exact Hi|]. split; [exact Hb|exact Hv]. }
    destruct (get_arg V args id) as [a|] eqn:EA.
    2:{ destruct (HX (set_pctx V b st1)) as (vis' & Hi & Hv); [intros; apply inv_pctx; assumption|auto|].
      do 3 eexists. split; [reflexivity|]. split; [exact Hi|]. split; [exact Hb|exact Hv]. }
    destruct (get_arg_ok id a EA) as (_ & _ & Hc & _).
    assert (HU : units (s_enc r) (st_src st1)) by (destruct H1 as [[H1 _]|[H1 _]]; eapply inv_units, H1).
    destruct (Hc b (st_src st1) HU) as [Hp Hres].
    change (st_src (set_pctx V b st1)) with (st_src st1).
    assert (HM : let y := (if st_mixed (set_pctx V b st1) then (b, Err InvalidFormatString) else ar_custom a b (st_src st1)) in
      suffix (fst y) b /\ ((exists v s', snd y = Ok (v, s') /\ suffix s' (st_src st1)) \/ exists e, snd y = Err e)).
    { destruct (st_mixed _); cbn [fst snd]; [|split; assumption]. split; [apply suffix_refl|right; eauto]. }
    clear Hp Hres. cbv zeta in HM. destruct HM as [Hp Hres].
    destruct (if st_mixed (set_pctx V b st1) then (b, Err InvalidFormatString) else ar_custom a b (st_src st1)) as [p x].
    cbn [fst snd] in *.
    assert (Hpf : suffix p format) by (eapply suffix_trans; eassumption).
    destruct H1 as [[H1 HF]|(H1 & Hn & Hni & HE)].
    { change (failed V (set_pctx V b st1)) with (failed V st1) in EF. congruence. }
    destruct (finish_visit_inv (id :: vis) (set_pctx V p (set_pctx V b st1)) id x) as (st2 & -> & H2 & _).
    + apply inv_pctx; [apply inv_pctx; assumption|assumption].
    + left; reflexivity.
    + cbn. rewrite EL. unfold note_missing. rewrite EA. eapply log_fresh; eassumption.
    + exact Hres.
    + cbn [bind]. do 3 eexists. split; [reflexivity|]. split; [exact H2|]. split; [exact Hpf|right; reflexivity].
  - destruct (parse_format_specs_safe cf t b (SS specs_default false) Ht) as (s & ss & EPS & Hs). rewrite EPS. cbn [bind].
    assert (Hsf : suffix s format) by (eapply suffix_trans; eassumption).
    assert (HErr : exists p st' vis', Ok (st_pctx st1, on_error V InvalidFormatString st1) = Ok (p, st') /\ inv vis' st' /\
      suffix p format /\ ((vis' = vis /\ failed V st' = true) \/ vis' = id :: vis)).
    { destruct (HX (on_error V InvalidFormatString st1)) as (vis' & Hi & Hv); [intros; apply inv_error; assumption|auto|].
      do 3 eexists. split; [reflexivity|]. split; [exact Hi|]. split; [exact HP1|exact Hv]. }
    destruct s as [|c s]; [exact HErr|]. destruct (negb (c =? 125)); [exact HErr|].
    destruct ss as [sp er]. cbn [ss_err ss_specs]. destruct er.
    { destruct (HX st1) as (vis' & Hi & Hv); [auto|auto|].
      do 3 eexists. split; [reflexivity|]. split; [exact Hi|]. split; [exact HP1|exact Hv]. }
    assert (HD : exists p st' vis', Ok (c :: s, set_pctx V (c :: s) st1) = Ok (p, st') /\ inv vis' st' /\
      suffix p format /\ ((vis' = vis /\ failed V st' = true) \/ vis' = id :: vis)).
    { destruct (HX (set_pctx V (c :: s) st1)) as (vis' & Hi & Hv); [intros; apply inv_pctx; assumption|auto|].
      do 3 eexists. split; [reflexivity|]. split; [exact Hi|]. split; [exact Hsf|exact Hv]. }
    destruct (failed V (set_pctx V (c :: s) st1)) eqn:EF; [exact HD|].
    destruct (get_arg V args id) as [a|] eqn:EA; [|exact HD].
    destruct (get_arg_ok id a EA) as (_ & Hsp & _).
    destruct H1 as [[H1 HF]|(H1 & Hn & Hni & HE)].
    { change (failed V (set_pctx V (c :: s) st1)) with (failed V st1) in EF. congruence. }
    destruct (finish_visit_inv (id :: vis) (set_pctx V (c :: s) st1) id (ar_specs a sp (st_src st1))) as (st2 & E2 & H2 & _).
    + apply inv_pctx; assumption.
    + left; reflexivity.
    + cbn. rewrite EL. unfold note_missing. rewrite EA. eapply log_fresh; eassumption.
    + assert (ET : t = ar_type a) by (unfold t; reflexivity || (rewrite EA; reflexivity)). rewrite ET in EPS. destruct (Hsp _ _ sp EPS (st_src st1)) as [(v & s' & E & Hs')|(e & E)];
        [eapply inv_units, H1|left; eauto|right; eauto].
    + cbn [st_src set_pctx]. rewrite E2. cbn [bind].
      do 3 eexists. split; [reflexivity|]. split; [exact H2|]. split; [exact Hsf|right; reflexivity].
Qed.

Lemma next_id_inv vis st : inv vis st ->
  exists id st', next_arg_id V st = Ok (id, st') /\ 0 <= id /\ inv vis st'.
Proof.
  intros HI. unfold next_arg_id. destruct (st_next st <? 0) eqn:E.
  - do 2 eexists. split; [reflexivity|]. split; [lia|apply inv_mixed, HI].
  - do 2 eexists. split; [reflexivity|]. split; [lia|]. apply inv_next; [exact HI|lia].
Qed.
Lemma check_id_inv vis st id : inv vis st -> 
  exists st', check_arg_id V id st = Ok (id, st') /\ inv vis st'.
Proof.
  intros HI. unfold check_arg_id. destruct (0 <? st_next st).
  - eexists. split; [reflexivity|apply inv_mixed, HI].
  - eexists. split; [reflexivity|]. apply inv_next; [exact HI|lia].
Qed.


Notation H := (format_handler V r cf args).

Lemma parse_arg_id_inv vis st c s : inv vis st -> suffix (c :: s) format ->
  exists s' id st', parse_arg_id H (c :: s) st = Ok (s', id, st') /\ suffix s' (c :: s)
   /\ 0 <= id /\ inv vis st'.
Proof.
  intros HI Hs. unfold parse_arg_id.
  destruct (negb (c =? 125) && negb (c =? 58)).
  - unfold do_parse_arg_id. destruct ((c <? 48) || (57 <? c)) eqn:EC.
    { cbn [h_error bind format_handler]. do 3 eexists. split; [reflexivity|]. split; [apply suffix_refl|]. split; [lia|apply inv_error, HI]. }
    assert (HN : exists idx s2, (if negb (c =? 48) then parse_simple_int (c :: s) else Ok (0, s)) = Ok (idx, s2)
      /\ suffix s2 (c :: s) /\ (0 <= idx \/ exists d t, s2 = d :: t /\ is_digit d = true)).
    { destruct (negb (c =? 48)); [|do 2 eexists; split; [reflexivity|split; [auto with sfx|left; lia]]].
      assert (ED : is_digit c = true) by (unfold is_digit; lia).
      cbn [parse_simple_int]. rewrite ED.
      destruct (parse_simple_int_loop (c :: s) 0) as [v s2] eqn:EL.
      do 2 eexists. split; [reflexivity|]. split; [eapply parse_simple_int_loop_suffix, EL|].
      eapply simple_int_nonneg; [|exact EL]. lia. }
    destruct HN as (idx & s2 & -> & Hs2 & Hidx). cbn [bind].
    destruct s2 as [|d s2].
    { cbn [h_error bind format_handler]. do 3 eexists. split; [reflexivity|]. split; [apply suffix_nil|]. split; [lia|apply inv_error, HI]. }
    destruct (negb (d =? 125) && negb (d =? 58)) eqn:ED.
    { cbn [h_error bind format_handler]. do 3 eexists. split; [reflexivity|]. split; [exact Hs2|]. split; [lia|apply inv_error, HI]. }
    cbn [h_id format_handler]. destruct (check_id_inv vis st idx HI) as (st' & -> & HI'). cbn [bind].
    do 3 eexists. split; [reflexivity|]. split; [exact Hs2|]. split; [|exact HI'].
    destruct Hidx as [?|(d' & t & [= <- <-] & HD)]; [assumption|]. unfold is_digit in HD. lia.
  - cbn [h_auto_id format_handler]. destruct (next_id_inv vis st HI) as (id & st' & -> & Hid & HI'). cbn [bind].
    do 3 eexists. split; [reflexivity|]. split; [apply suffix_refl|]. split; assumption.
Qed.

Lemma failed_error st e : failed V (on_error V e st) = true.
Proof. reflexivity. Qed.

Lemma parse_field_inv vis st c s : inv vis st -> suffix (c :: s) format ->
  exists p st' vis', parse_replacement_field H (c :: s) st = Ok (p, st') /\ inv vis' st'
   /\ suffix p format
   /\ (failed V st' = true \/ (grown vis vis' /\ suffix p s)
        \/ exists id, vis' = id :: vis).
Proof.
  intros HI Hs. unfold parse_replacement_field.
  assert (HsT : suffix s format) by (eapply suffix_cons_inv, Hs).
  assert (HE : forall p stx vx, suffix p format -> inv vx stx ->
     exists p0 st' vis', (st0 <- h_error H stx ;; Ok (p, st0)) = Ok (p0, st') /\ inv vis' st'
     /\ suffix p0 format /\ (failed V st' = true \/ (grown vis vis' /\ suffix p0 s) \/ exists id, vis' = id :: vis)).
  { intros p stx vx Hp Hi. cbn [h_error format_handler bind]. do 3 eexists. split; [reflexivity|].
    split; [apply inv_error, Hi|]. split; [exact Hp|left; reflexivity]. }
  destruct s as [|c1 s1]; [eapply HE; [apply suffix_nil|exact HI]|].
  destruct (c1 =? 125).
  { cbn [h_auto_id h_field format_handler].
    destruct (next_id_inv vis st HI) as (id & st1 & -> & Hid & HI1). cbn [bind].
    destruct (on_field_inv vis st1 id (c1 :: s1) HI1 Hid) as (st2 & vis2 & -> & HI2 & HG). cbn [bind].
    do 3 eexists. split; [reflexivity|]. split; [exact HI2|]. split; [eapply suffix_cons_inv, HsT|].
    right; left. split; [exact HG|auto with sfx]. }
  destruct (c1 =? 123).
  { cbn [h_literal format_handler].
    destruct (on_literal_inv [c1] vis st) as (st1 & -> & HI1); [|exact HI|].
    { assert (HUF := units_suffix _ _ _ HsT Hfu). destruct (s_enc r); cbn in *; auto. inversion HUF; subst. constructor; [assumption|constructor]. }
    cbn [bind]. do 3 eexists. split; [reflexivity|]. split; [exact HI1|]. split; [eapply suffix_cons_inv, HsT|].
    right; left. split; [left; reflexivity|auto with sfx]. }
  destruct (parse_arg_id_inv vis st c1 s1 HI HsT) as (s2 & id & st2 & -> & Hs2 & Hid & HI2). cbn [bind].
  assert (Hs2F : suffix s2 format) by (eapply suffix_trans; eassumption).
  destruct s2 as [|c2 s2]; [eapply HE; [apply suffix_nil|exact HI2]|].
  destruct (c2 =? 125).
  { cbn [h_field format_handler].
    destruct (on_field_inv vis st2 id (c2 :: s2) HI2 Hid) as (st3 & vis3 & -> & HI3 & HG). cbn [bind].
    do 3 eexists. split; [reflexivity|]. split; [exact HI3|]. split; [eapply suffix_cons_inv, Hs2F|].
    right; left. split; [exact HG|eapply suffix_cons_inv, Hs2]. }
  destruct (c2 =? 58); [|eapply HE; [exact Hs2F|exact HI2]].
  destruct s2 as [|c3 s3]; [eapply HE; [exact Hs2F|exact HI2]|].
  cbn [h_specs format_handler].
  destruct (on_specs_inv vis st2 id (c3 :: s3) HI2 Hid) as (p & st3 & vis3 & -> & HI3 & Hp & HV);
    [eapply suffix_cons_inv, Hs2F|]. cbn [bind].
  destruct p as [|d p]; [eapply HE; [apply suffix_nil|exact HI3]|].
  destruct (negb (d =? 125)); [eapply HE; [exact Hp|exact HI3]|].
  do 3 eexists. split; [reflexivity|]. split; [exact HI3|]. split; [eapply suffix_cons_inv, Hp|].
  destruct HV as [[_ HV]| ->]; [left; exact HV|right; right; eauto].
Qed.

Lemma vis_count vis st : inv vis st -> (length vis <= length args)%nat.
Proof.
  intros HI. rewrite <- (map_length Z.to_nat vis). rewrite <- (seq_length (length args) 0).
  apply NoDup_incl_length.
  - assert (HN := i_nodup _ _ HI). assert (HR := i_range _ _ HI). clear HI.
    induction HN as [|x l Hx HN IH]; cbn; [constructor|]. apply Forall_cons_iff in HR. destruct HR as [H2 H3]. constructor; [|auto].
    intros HX. apply in_map_iff in HX. destruct HX as (y & Ey & Hy).
    rewrite Forall_forall in H3. specialize (H3 y Hy). assert (x = y) by lia. subst. contradiction.
  - intros k Hk. apply in_map_iff in Hk. destruct Hk as (y & <- & Hy).
    assert (HR := i_range _ _ HI). rewrite Forall_forall in HR. specialize (HR y Hy).
    apply in_seq. lia.
Qed.

Lemma between_units b e : units (s_enc r) b -> units (s_enc r) (between b e).
Proof. destruct (s_enc r); cbn; auto. intros. unfold between. apply bytes_firstn. assumption. Qed.

Lemma parse_loop_inv : forall fuel begin it vis st, inv vis st ->
  suffix begin format -> suffix it format ->
  ((length args - length vis) * (length format + 1) + length it < fuel)%nat ->
  exists st' vis', parse_loop fuel H begin it st = Ok st' /\ inv vis' st'.
Proof.
  induction fuel as [|f IH]; intros begin it vis st HI Hb Hit HF; [exfalso; eapply Nat.nlt_0_r, HF|].
  assert (Hub := units_suffix _ _ _ Hb Hfu).
  destruct it as [|ch it']; cbn [parse_loop length] in *.
  { cbn [h_literal format_handler]. destruct (on_literal_inv begin vis st Hub HI) as (st' & -> & HI'). eauto. }
  destruct (ch =? 123).
  - cbn [h_literal format_handler].
    destruct (on_literal_inv (between begin (ch :: it')) vis st) as (st1 & -> & HI1); [apply between_units, Hub|exact HI|].
    cbn [bind].
    destruct (parse_field_inv vis st1 ch it' HI1 Hit) as (p & st2 & vis2 & -> & HI2 & Hp & HV). cbn [bind h_failed format_handler].
    destruct (failed V st2) eqn:EF; [eauto|].
    apply (IH p p vis2 st2 HI2 Hp Hp).
    assert (HC := vis_count _ _ HI2). assert (HC1 := vis_count _ _ HI1).
    assert (HLp := suffix_len _ _ Hp).
    destruct HV as [HV|[[[-> |[id ->]] HV]|[id ->]]]; [congruence|apply suffix_len in HV; lia| |];
      cbn [length] in *; nia.
  - destruct (ch =? 125).
    + destruct it' as [|d it2].
      { cbn [h_error format_handler]. do 2 eexists. split; [reflexivity|apply inv_error, HI]. }
      destruct (negb (d =? 125)).
      { cbn [h_error format_handler]. do 2 eexists. split; [reflexivity|apply inv_error, HI]. }
      cbn [h_literal format_handler].
      destruct (on_literal_inv (between begin (d :: it2)) vis st) as (st1 & -> & HI1); [apply between_units, Hub|exact HI|].
      cbn [bind]. apply (IH it2 it2 vis st1 HI1).
      * do 2 eapply suffix_cons_inv. exact Hit.
      * do 2 eapply suffix_cons_inv. exact Hit.
      * cbn [length] in HF. lia.
    + apply (IH begin it' vis st HI Hb); [eapply suffix_cons_inv, Hit|lia].
Qed.

Lemma init_inv : inv [] (init_state V args format source).
Proof.
  constructor; cbn.
  - constructor.
  - constructor.
  - lia.
  - intros. apply Z.bits_0.
  - lia.
  - apply suffix_refl.
  - apply suffix_refl.
  - constructor.
  - intros x [].
Qed.

Lemma parse_total : exists st vis,
  parse_format_string_impl (vscan_fuel V args format) H format (init_state V args format source) = Ok st
  /\ inv vis st.
Proof.
  apply (parse_loop_inv _ _ _ [] _ init_inv); [apply suffix_refl|apply suffix_refl|].
  cbn [length]. unfold vscan_fuel. nia.
Qed.

Lemma exhausted_total vis st : inv vis st ->
  exists st', check_args_exhausted V args st = Ok st'
   /\ (failed V st' = true \/ (st' = st /\ forall i, 0 <= i < n -> In i vis)).
Proof.
  intros HI. unfold check_args_exhausted, args_count. cbv zeta.
  replace (64 <=? n) with false by lia. replace (n =? 64) with false by lia.
  destruct (st_low st =? Z.shiftl 1 n - 1) eqn:E; cbn [negb].
  - replace (n <? 64) with true by lia. eexists. split; [reflexivity|].
    right. split; [reflexivity|]. intros i Hi. apply existsb_In. rewrite <- (i_low _ _ HI) by lia.
    apply Z.eqb_eq in E. rewrite E, Z.shiftl_1_l.
    rewrite <- Z.shiftl_1_l.
    replace (Z.shiftl 1 n - 1) with (Z.ones n) by (rewrite Z.ones_equiv, Z.shiftl_1_l; lia).
    apply Z.ones_spec_low. lia.
  - eexists. split; [reflexivity|left; reflexivity].
Qed.

Lemma vscan_general_total :
  (exists log rest, vscan_parse_format_string V r cf args format source = Ok (log, rest)
     /\ suffix rest source /\ NoDup (map fst log)
     /\ Forall (fun i => 0 <= i < n) (map fst log))
  \/ exists e, vscan_parse_format_string V r cf args format source = Err e.
Proof.
  unfold vscan_parse_format_string.
  destruct parse_total as (st & vis & -> & HI). cbn [bind].
  destruct (exhausted_total vis st HI) as (st' & -> & HX). cbn [bind].
  destruct (st_error st') eqn:EE; [right; eauto|].
  destruct HX as [HX|[-> HX]]; [unfold failed in HX; rewrite EE in HX; discriminate|].
  left. do 2 eexists. split; [reflexivity|]. split; [apply (i_src _ _ HI)|].
  split; [apply (i_lnodup _ _ HI)|].
  assert (HR := i_range _ _ HI). rewrite Forall_forall in *. intros i Hi. apply HR. apply (i_lincl _ _ HI), Hi.
Qed.
End Inv.
