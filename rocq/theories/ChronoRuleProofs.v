(** Accepted formats follow the rules on using fields together. *)
From Coq Require Import String Ascii.
From Verif Require Import Prelude UnicodeModel UnicodeSpec ReadModel SpecsModel FormatModel FormatSpec
  VscanSpec SpecsInvProofs ChronoModel ChronoSpec ChronoParseProofs ChronoInvProofs ChronoMarkProofs.
Import Coq.Strings.String.StringSyntax.
Local Open Scope string_scope.
Local Open Scope list_scope.
Local Open Scope Z_scope.

Definition call_parts (loc : bool) (x : event * bool) : list part :=
  match fst x with OnConv c _ => match sets loc c with Some ps => ps | None => [] end | _ => [] end.
Lemma as_text_parts loc u : flat_map (call_parts loc) (as_text u) = [].
Proof. destruct u; reflexivity. Qed.
Lemma calls_parts loc e ts : forall u, flat_map (call_parts loc) (calls e u ts) = format_parts loc ts.
Proof.
  unfold format_parts. induction ts as [|tk ts IH]; intros u; cbn [calls flat_map].
  - apply as_text_parts.
  - destruct tk; [apply IH| |].
    + rewrite flat_map_app, as_text_parts. cbn [app flat_map call_parts fst]. apply IH.
    + rewrite !flat_map_app, as_text_parts, IH. cbn [app]. f_equal.
      destruct (meaning l) as [ev|]; [|reflexivity]. cbn [flat_map]. rewrite app_nil_r.
      unfold call_parts. cbn [fst]. destruct ev; reflexivity.
Qed.
(** The calls made for the tokens are texts, white space and conversions. *)
Definition inner (x : event * bool) : Prop :=
  match fst x with OnText _ | OnWhitespace | OnConv _ _ => True | _ => False end.
Lemma as_text_inner u : Forall inner (as_text u).
Proof. destruct u; repeat constructor. Qed.
Lemma meaning_inner l ev chk : meaning l = Some ev -> inner (ev, chk).
Proof.
  unfold meaning. destruct (l =? "%")%string; [intros H; injection H as <-; exact I|].
  destruct (_ || _); [intros H; injection H as <-; exact I|].
  destruct (find _ _) as [x|]; [|discriminate]. intros H; injection H as <-; exact I.
Qed.
Lemma calls_inner e ts : Forall wf_token ts -> forall u, Forall inner (calls e u ts).
Proof.
  induction 1 as [|tk ts W F IH]; intros u; cbn [calls]; [apply as_text_inner|].
  destruct tk; [apply IH| |].
  - apply Forall_app. split; [apply as_text_inner|]. constructor; [exact I|apply IH].
  - rewrite !Forall_app. split; [apply as_text_inner|]. split; [|apply IH].
    cbn in W. destruct (meaning l) as [ev|] eqn:M; [|congruence].
    repeat constructor. eapply meaning_inner; eassumption.
Qed.

Definition isTz (p : part) : bool := match p with PTz => true | _ => false end.
(** What the checker sees of the zone *)
Lemma ck_zone loc c ps : sets loc c = Some ps ->
  filter (flag_eqb FTzoff) (match ck_flags c with Some fs => fs | None => [] end)
  = map flag_of (filter isTz ps)
  /\ (In PTzName ps -> In FTzname (match ck_flags c with Some fs => fs | None => [] end)).
Proof.
  intros H. destruct c; cbn in H; try discriminate H; injection H as <-; cbn; try (destruct loc); cbn; (split; [reflexivity|intuition congruence]).
Qed.

Section Reader.
Variable D : Type.
Variable scan_double : list Z -> outcome D.
Variable in_unit : D -> bool.
Variable time_get : list Z -> list Z -> option (tmv * list Z).
Variable decimal_point : Z.
Variable r : src.
Variable cf : FormatModel.config.
Variable t : target.
Notation on := (rd_on D scan_double in_unit time_get decimal_point r cf t).
Notation fine := (rd_fine D).

Definition same (fs gs : list flag) : Prop :=
  (NoDup fs -> NoDup gs) /\ (forall f, In f fs <-> In f gs).
Lemma nodup_app {A} (a b : list A) : NoDup (a ++ b) <->
  NoDup a /\ NoDup b /\ (forall x, In x a -> ~ In x b).
Proof.
  induction a as [|x a IH]; cbn.
  - split; [intros H; repeat split; [constructor|trivial|tauto]|tauto].
  - rewrite !NoDup_cons_iff, IH, in_app_iff. split.
    + intros (H1 & H2 & H3 & H4). split; [tauto|]. split; [trivial|].
      intros y [<-|I]; [tauto|auto].
    + intros ((H1 & H2) & H3 & H4). split; [|auto]. intros [?|?]; [auto|]. eapply H4; eauto.
Qed.
Lemma same_app a b c d : same a b -> same c d -> same (a ++ c) (b ++ d).
Proof.
  intros [N1 I1] [N2 I2]. split.
  - rewrite !nodup_app. intros (X & Y & Z). split; [auto|]. split; [auto|].
    intros x Hx. rewrite <- I1 in Hx. rewrite <- I2. auto.
  - intros f. rewrite !in_app_iff, I1, I2. tauto.
Qed.

Lemma rd_drive evs : Forall inner evs -> forall st b st', drive on fine evs st = Ok (b, st') ->
  rs_err D st' = None ->
  b = true /\ rs_loc D st' = rs_loc D st /\ rs_err D st = None
  /\ exists fs, adds fs (rs_set D st) (rs_set D st')
                /\ same fs (rd_flags t (flat_map (call_parts (rs_loc D st)) evs)).
Proof.
  induction 1 as [|[ev chk] evs Hi F IH]; intros st b st' E N; cbn [drive flat_map] in *.
  - inv_ok. repeat split; trivial. exists []. split; [apply adds_nil|]. split; cbn; tauto.
  - apply ok_bind in E. destruct E as (st1 & E1 & E).
    destruct (chk && negb (fine st1)) eqn:X.
    { inv_ok. unfold rd_fine in X. rewrite N in X. destruct chk; discriminate. }
    destruct (IH _ _ _ E N) as (B & L & N1 & fs2 & A2 & S2).
    assert (G : exists fs, rd_steps D fs st st1 /\ same fs (rd_flags t (call_parts (rs_loc D st) (ev, chk)))).
    { unfold call_parts. destruct ev; try contradiction; cbn [fst rd_on] in *.
      - injection E1 as <-. exists []. split; [apply rd_text_steps|]. split; cbn; tauto.
      - exists []. split; [eapply rd_space; eassumption|]. split; cbn; tauto.
      - destruct (sets (rs_loc D st) c) as [ps|] eqn:Sc.
        + eapply rd_conv_steps in E1; [|exact Sc]. destruct E1 as (fs & H1 & H2). exists fs. auto.
        + exfalso. exact (rd_unimplemented _ _ _ _ _ _ _ _ _ _ _ _ Sc E1 N1). }
    destruct G as (fs1 & [L1 H1] & S1). destruct (H1 N1) as [N0 A1].
    split; [trivial|]. split; [congruence|]. split; [trivial|].
    exists (fs1 ++ fs2). split; [eapply adds_app; eassumption|].
    unfold rd_flags. rewrite filter_app, map_app. apply same_app; [exact S1|].
    rewrite L1 in S2. exact S2.
Qed.

(** ** From a successful scan back to the tokens *)
Lemma checked e loc ts rest p fmt : e <> U16 -> at_end rest -> Forall wf_token ts ->
  Forall (simple_token e) ts -> starts_with_conv ts ->
  chrono_parse t e (write_format e loc ts ++ rest) = Ok (p, fmt) ->
  p = rest /\ fmt = write_format e loc ts /\
  exists cs, adds (flat_map (fun x => ck_event_flags (fst x)) (calls e [] ts)) (fun _ => false) cs
    /\ conflict cs = false
    /\ (forall c sys chk, In (OnConv c sys, chk) (calls e [] ts) -> supports t c = true /\ ck_flags c <> None).
Proof.
  intros He Hr W S0 Hc E. unfold chrono_parse in E.
  assert (Sn : Forall (seen e) ts).
  { rewrite Forall_forall in *. intros tk I. apply simple_seen; auto. }
  assert (NW : Forall (fun tk => tk <> TConv "OW") ts).
  { rewrite Forall_forall in *. intros tk I ->. apply (S0 _ I). reflexivity. }
  destruct (write_format e loc ts ++ rest) as [|c f] eqn:Ef; [discriminate|].
  destruct (c =? 125); [discriminate|]. rewrite <- Ef in E.
  pose proof (parse_agrees cstate (ck_on t) ck_fine (fun st => eq_refl) e loc ts rest ck_init He Hr Sn Hc) as A.
  rewrite made_calls_eq in A by assumption.
  set (evs := (if loc then [(OnLocalized, false)] else []) ++ calls e [] ts) in *.
  assert (Q : (if loc then [(OnLocalized, false)] else []) ++ calls e [] ts ++ [(OnVerify, false)]
              = evs ++ [(OnVerify, false)]) by (subst evs; now rewrite app_assoc).
  rewrite Q in A. clear Q. rewrite drive_app in A.
  destruct (ck_drive t evs ck_init) as (b & st1 & E1 & H1). rewrite E1 in A. cbn [bind] in A.
  apply ok_bind in E. destruct E as ([q st2] & E2 & E).
  destruct (ck_fine st2) eqn:Fn; [|discriminate]. injection E as E3 E4.
  destruct b.
  - cbn [drive] in A. destruct (ck_on_step t OnVerify st1) as (st3 & E5 & S3 & C3).
    rewrite E5 in A. cbn [bind agree andb] in A. destruct A as (q' & Eq & R).
    rewrite Eq in E2. injection E2 as <- <-. specialize (R eq_refl). rewrite R in *. clear R q'.
    destruct (C3 Fn) as [Cf Cs]. destruct (S3 Fn) as [F1 _].
    destruct (H1 F1) as (_ & _ & A1 & Sup).
    split; [symmetry; exact E3|]. split.
    { rewrite <- E4, app_length, Nat.add_sub, firstn_app, firstn_all, Nat.sub_diag.
      cbn. now rewrite app_nil_r. }
    exists (ck_set st1). split.
    { subst evs. rewrite flat_map_app in A1. destruct loc; exact A1. }
    split; [trivial|]. intros c0 sys chk I. eapply Sup. subst evs. apply in_or_app. right. exact I.
  - cbn [agree] in A. destruct A as (q' & Eq & _). rewrite Eq in E2. injection E2 as <- <-.
    destruct (H1 Fn) as [B _]. discriminate.
Qed.
Lemma scanned loc ts s d s' : s_enc r <> U16 -> Forall wf_token ts ->
  Forall (simple_token (s_enc r)) ts -> starts_with_conv ts ->
  chrono_scan D scan_double in_unit time_get decimal_point r cf t (write_format (s_enc r) loc ts) s
    = Ok (d, s') ->
  exists s0 st0 st1 st, skip_classic_whitespace r s false = Ok s0
    /\ st0 = (if loc then with_mode D true false (rd_init D s0) else rd_init D s0)
    /\ drive on fine (calls (s_enc r) [] ts) st0 = Ok (true, st1)
    /\ rd_verify D t st1 = Ok st /\ rs_err D st = None
    /\ d = DT D (rs_int D st) (rs_subsec D st) (rs_tzname D st) /\ s' = rs_src D st.
Proof.
  intros He W S0 Hc E. unfold chrono_scan in E.
  assert (Sn : Forall (seen (s_enc r)) ts).
  { rewrite Forall_forall in *. intros tk I. apply simple_seen; auto. }
  assert (NW : Forall (fun tk => tk <> TConv "OW") ts).
  { rewrite Forall_forall in *. intros tk I ->. apply (S0 _ I). reflexivity. }
  apply ok_bind in E. destruct E as (s0 & E0 & E). exists s0.
  apply ok_bind in E. destruct E as ([p st] & E1 & E).
  destruct (rs_err D st) eqn:N; [discriminate|]. injection E as <- <-.
  pose proof (parse_agrees (rstate D) on fine (fun st => eq_refl) (s_enc r) loc ts [] (rd_init D s0)
                He I Sn Hc) as A.
  rewrite app_nil_r, E1, made_calls_eq in A by assumption.
  set (st0 := if loc then with_mode D true false (rd_init D s0) else rd_init D s0).
  exists st0.
  assert (Q : drive on fine ((if loc then [(OnLocalized, false)] else []) ++
                 calls (s_enc r) [] ts ++ [(OnVerify, false)]) (rd_init D s0)
              = drive on fine (calls (s_enc r) [] ts ++ [(OnVerify, false)]) st0)
    by (subst st0; destruct loc; reflexivity).
  rewrite Q, drive_app in A. clear Q.
  destruct (drive on fine (calls (s_enc r) [] ts) st0) as [[b st1]| | |] eqn:Dr; try discriminate A.
  cbn [bind] in A. destruct b.
  - cbn [drive] in A. exists st1, st. change (on OnVerify st1) with (rd_verify D t st1) in A.
    destruct (rd_verify D t st1) as [st2| | |] eqn:V; try discriminate A. cbn in A.
    destruct A as (q & Eq & _). injection Eq as _ <-. auto 10.
  - cbn in A. destruct A as (q & Eq & _). injection Eq as _ <-.
    destruct (rd_drive _ (calls_inner _ _ W _) _ _ _ Dr N) as [B _]. discriminate.
Qed.

Lemma conflict_false s : conflict s = false ->
  (s FHour24 = true -> s FHour12 = true -> False) /\ (s FAmPm = true -> s FHour12 = true)
  /\ (s FFullYear = true -> s FCentury = false /\ s FShortYear = false)
  /\ (s FTzoff = true -> s FTzname = false)
  /\ ((s FWday = true /\ s FMday = true \/ s FWday = true /\ s FYday = true \/ s FMday = true /\ s FYday = true)
      -> s FWday = true /\ s FMday = true /\ s FYday = true).
Proof.
  unfold conflict.
  destruct (s FHour24), (s FHour12), (s FAmPm), (s FFullYear), (s FCentury), (s FShortYear),
    (s FTzoff), (s FTzname), (s FWday), (s FMday), (s FYday); cbn; intros H; try discriminate H;
    repeat split; trivial; try discriminate; intuition discriminate.
Qed.
Lemma filter_two {A} (p : A -> bool) l : NoDup (filter p l) -> NoDup (filter (fun x => negb (p x)) l) ->
  NoDup l.
Proof.
  induction l as [|x l IH]; cbn; [constructor|]. intros H1 H2. destruct (p x) eqn:E; cbn in H2.
  - inversion H1 as [|? ? N H]; subst. constructor; [|auto]. intros I. apply N, filter_In. auto.
  - inversion H2 as [|? ? N H]; subst. constructor; [|auto]. intros I. apply N, filter_In.
    rewrite E. auto.
Qed.
Lemma nodup_map {A B} (f : A -> B) l : NoDup (map f l) -> NoDup l.
Proof. apply NoDup_map_inv. Qed.

Lemma verify_conflict st st' : rd_verify D t st = Ok st' -> rs_err D st' = None ->
  conflict (rs_set D st) = false /\ rs_err D st = None.
Proof.
  intros E N. unfold rd_verify in E. cbv zeta in E.
  assert (G : forall st st', (st <- (if rs_set D st FAmPm && rs_set D st FHour12 then handle_am_pm D st else Ok st) ;;
     (if negb (rs_set D st FFullYear) && (rs_set D st FShortYear || rs_set D st FCentury)
      then handle_years D t st else Ok st)) = Ok st' -> rs_err D st' = rs_err D st).
  { clear. intros st st' E. apply ok_bind in E. destruct E as (s2 & E2 & E).
    assert (H2 : rs_err D s2 = rs_err D st).
    { destruct (_ && _); [|inv_ok; trivial]. unfold handle_am_pm in E2.
      destruct (rs_int D st Hour); [|discriminate]. destruct (_ || _); [discriminate|].
      injection E2 as <-. destruct (rs_pm D st), (_ =? _); reflexivity. }
    rewrite <- H2. clear H2 E2. destruct (_ && _); [|inv_ok; trivial].
    unfold handle_years in E. cbv zeta in E.
    repeat match type of E with (if ?b then _ else _) = _ => destruct b end; inv_ok; trivial. }
  apply G in E. rewrite N in E. destruct (conflict (rs_set D st)); cbn in E.
  - destruct (rs_err D st); discriminate.
  - auto.
Qed.

Lemma rules loc ts rest s d s' : s_enc r <> U16 -> at_end rest -> Forall wf_token ts ->
  Forall (simple_token (s_enc r)) ts -> starts_with_conv ts ->
  chrono_arg D scan_double in_unit time_get decimal_point r cf t (write_format (s_enc r) loc ts ++ rest) s
    = Ok (d, s') ->
  let ps := format_parts loc ts in
  NoDup ps /\ no_clock_mix ps /\ no_year_mix ps /\ no_zone_mix ps
  /\ (one_day_part ps \/ In PWday ps /\ In PMday ps /\ In PYday ps).
Proof.
  intros He Hr W S0 Hc E ps. unfold chrono_arg in E. apply ok_bind in E.
  destruct E as ([p fmt] & E1 & E).
  destruct (checked _ _ _ _ _ _ He Hr W S0 Hc E1) as (-> & -> & cs & Ack & Cck & Sup).
  destruct (scanned _ _ _ _ _ He W S0 Hc E) as (s0 & st0 & st1 & st & _ & Est0 & Dr & V & N & _ & _).
  destruct (verify_conflict _ _ V N) as [Crd N1].
  destruct (rd_drive _ (calls_inner _ _ W _) _ _ _ Dr N1) as (_ & _ & _ & fs & Ard & Srd).
  assert (Lo : rs_loc D st0 = loc) by (subst st0; destruct loc; reflexivity).
  assert (S00 : rs_set D st0 = (fun _ => false)) by (subst st0; destruct loc; reflexivity).
  rewrite Lo, calls_parts in Srd. rewrite S00 in Ard. fold ps in Srd.
  destruct Ard as (Nd & _ & Mem). destruct Srd as [Sn Si]. apply Sn in Nd.
  assert (Mem' : forall q, q <> PTz -> rs_set D st1 (flag_of q) = true <-> In q ps).
  { intros q Hq. rewrite Mem, Si. unfold rd_flags. rewrite in_flags, filter_In.
    clear -Hq. destruct t, q; try congruence; cbn; intuition congruence. }
  assert (Nr : NoDup (filter (fun q => negb (isTz q)) ps)).
  { unfold rd_flags in Nd. apply nodup_map in Nd. destruct t; cbn beta in Nd; revert Nd.
    - rewrite (filter_ext _ (fun q => negb (isTz q))); [trivial|now intros []].
    - rewrite (filter_ext _ (fun q => negb (isTz q))); [trivial|now intros []].
    - intros Nd. apply NoDup_filter. 
      match type of Nd with NoDup ?l => replace l with ps in Nd; [exact Nd|] end.
      clear. induction ps as [|x l IH]; [reflexivity|]. cbn. now rewrite <- IH. }
  (* the checker's view of the zone *)
  assert (Zn : filter (flag_eqb FTzoff) (flat_map (fun x => ck_event_flags (fst x)) (calls (s_enc r) [] ts))
               = map flag_of (filter isTz ps)
               /\ (In PTzName ps -> In FTzname (flat_map (fun x => ck_event_flags (fst x)) (calls (s_enc r) [] ts)))).
  { subst ps. rewrite <- (calls_parts loc (s_enc r) ts []).
    pose proof (calls_inner (s_enc r) ts W []) as Inn. revert Inn Sup.
    generalize (calls (s_enc r) [] ts). clear. intros l Inn Sup.
    induction l as [|[ev chk] l IH]; cbn [flat_map]; [split; [reflexivity|intros []]|].
    inversion Inn; subst.
    destruct IH as [I1 I2]; [assumption|intros; eapply Sup; right; eassumption|].
    rewrite !filter_app, map_app, I1.
    assert (G : filter (flag_eqb FTzoff) (ck_event_flags (fst (ev, chk)))
                = map flag_of (filter isTz (call_parts loc (ev, chk)))
                /\ (In PTzName (call_parts loc (ev, chk)) -> In FTzname (ck_event_flags (fst (ev, chk))))).
    { unfold ck_event_flags, call_parts. cbn [fst].
      destruct ev; try (split; [reflexivity|intros []]).
      destruct (sets loc c) as [ps|] eqn:Sc; [eapply ck_zone; eassumption|].
      destruct (Sup c sys chk (or_introl eq_refl)) as [_ X].
      destruct c; cbn in *; try congruence; split; (reflexivity || intros []). }
    destruct G as [G1 G2]. rewrite G1. split; [reflexivity|]. rewrite !in_app_iff. tauto. }
  destruct Zn as [Zf Zn]. destruct Ack as (Nck & _ & Mck).
  assert (Nt : NoDup (filter isTz ps)).
  { apply (nodup_map flag_of). rewrite <- Zf. now apply NoDup_filter. }
  destruct (conflict_false _ Cck) as (_ & _ & _ & Z1 & _).
  destruct (conflict_false _ Crd) as (C1 & C2 & C3 & _ & C5).
  pose proof (fun q (H : q <> PTz) => proj2 (Mem' q H)) as M2.
  pose proof (fun q (H : q <> PTz) => proj1 (Mem' q H)) as M1.
  repeat split.
  - eapply filter_two; eassumption.
  - intros A B. apply C1; [apply (M2 PHour24)|apply (M2 PHour12)]; trivial; discriminate.
  - intros A. apply (M1 PHour12); [discriminate|]. apply C2, (M2 PAmPm); [discriminate|trivial].
  - intros X. destruct C3 as [C3 _]; [apply (M2 PYear); trivial; discriminate|].
    pose proof (M2 PCentury ltac:(discriminate) X) as Y. cbn in Y. congruence.
  - intros X. destruct C3 as [_ C3]; [apply (M2 PYear); trivial; discriminate|].
    pose proof (M2 PShortYear ltac:(discriminate) X) as Y. cbn in Y. congruence.
  - intros A B. apply Zn in B.
    assert (Q : cs FTzoff = true).
    { apply Mck. right. assert (I : In FTzoff (map flag_of (filter isTz ps))).
      { change FTzoff with (flag_of PTz). apply in_map. apply filter_In. auto. }
      rewrite <- Zf in I. apply filter_In in I. tauto. }
    apply Z1 in Q. assert (cs FTzname = true) by (apply Mck; now right). congruence.
  - assert (W1 : forall q, q <> PTz -> {In q ps} + {~ In q ps}).
    { intros q Hq. destruct (rs_set D st1 (flag_of q)) eqn:X; [left; auto|right].
      intros I. apply (M2 q Hq) in I. congruence. }
    assert (C6 : (In PWday ps /\ In PMday ps \/ In PWday ps /\ In PYday ps \/ In PMday ps /\ In PYday ps) ->
                 In PWday ps /\ In PMday ps /\ In PYday ps).
    { intros X. rewrite <- !Mem' in X |- * by discriminate. apply C5, X. }
    unfold one_day_part.
    destruct (W1 PWday ltac:(discriminate)), (W1 PMday ltac:(discriminate)), (W1 PYday ltac:(discriminate)); tauto.
Qed.
End Reader.
