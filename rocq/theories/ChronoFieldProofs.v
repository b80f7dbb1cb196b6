(** Which fields of the destination a scan assigns. *)
From Coq Require Import String Ascii.
From Verif Require Import Prelude UnicodeModel UnicodeSpec ReadModel SpecsModel FormatModel FormatSpec
  VscanSpec SpecsInvProofs ChronoModel ChronoSpec ChronoParseProofs ChronoInvProofs ChronoMarkProofs ChronoRuleProofs.
Import Coq.Strings.String.StringSyntax.
Local Open Scope string_scope.
Local Open Scope list_scope.
Local Open Scope Z_scope.

Section Reader.
Variable D : Type.
Variable scan_double : list Z -> outcome D.
Variable in_unit : D -> bool.
Variable time_get : list Z -> list Z -> option (tmv * list Z).
Variable decimal_point : Z.
Variable r : src.
Variable cf : FormatModel.config.
Variable t : target.
Notation rstate := (rstate D).

(** As [field_of], before verify *)
Definition now (p : part) : option field :=
  match p, t with (PCentury | PShortYear), (Tm | TmTz) => None | _, _ => field_of p end.
Definition moves (ps : list part) (st st' : rstate) : Prop :=
  rs_err D st' = None -> rs_err D st = None
  /\ (forall f, rs_int D st' f <> None <-> rs_int D st f <> None \/ exists p, In p ps /\ now p = Some f)
  /\ (rs_subsec D st' <> None <-> rs_subsec D st <> None \/ In PSubsec ps)
  /\ (rs_tzname D st' <> None <-> rs_tzname D st <> None \/ In PTzName ps).
Lemma mv_ext a b s1 s2 : (forall p, In p a <-> In p b) -> moves a s1 s2 -> moves b s1 s2.
Proof.
  intros HE H E. destruct (H E) as (E1 & HI & HS & HZ). split; [exact E1|]. split; [|split].
  - intros f. rewrite HI. setoid_rewrite HE. clear; tauto.
  - rewrite HS, HE. clear; tauto.
  - rewrite HZ, HE. clear; tauto.
Qed.
Lemma mv_app a b s1 s2 s3 : moves a s1 s2 -> moves b s2 s3 -> moves (a ++ b) s1 s3.
Proof.
  intros H1 H2 E. destruct (H2 E) as (E2 & I2 & S2 & Z2). destruct (H1 E2) as (E1 & I1 & S1 & Z1).
  split; [exact E1|]. split; [|split].
  - intros f. rewrite I2, I1. setoid_rewrite in_app_iff. split.
    + intros [[H|(p & H & K)]|(p & H & K)]; eauto.
    + intros [H|(p & [H|H] & K)]; eauto.
  - rewrite S2, S1, in_app_iff. clear; tauto.
  - rewrite Z2, Z1, in_app_iff. clear; tauto.
Qed.
Lemma mv_then a s1 s2 s3 : moves [] s1 s2 -> moves a s2 s3 -> moves a s1 s3.
Proof. intros H1 H2. apply (mv_app [] a s1 s2 s3 H1 H2). Qed.
Lemma mv_before a s1 s2 s3 : moves a s1 s2 -> moves [] s2 s3 -> moves a s1 s3.
Proof. intros H1 H2. rewrite <- (app_nil_r a). apply (mv_app a [] s1 s2 s3 H1 H2). Qed.
(** Nothing is assigned. *)
Lemma mv_same st st' : (rs_err D st' = None -> rs_err D st = None) -> rs_int D st' = rs_int D st -> rs_subsec D st' = rs_subsec D st ->
  rs_tzname D st' = rs_tzname D st -> moves [] st st'.
Proof.
  intros HE E1 E2 E3 E. rewrite E1, E2, E3. split; [auto|]. cbn [In]. clear. split; [|split; tauto]. intros f. split; [tauto|]. intros [H|(p & [] & _)]. exact H.
Qed.
Lemma mv_refl st : moves [] st st.
Proof. apply mv_same; auto. Qed.
Lemma mv_err fs e st : moves fs st (set_error D e st).
Proof. intros E. cbn in E. destruct (rs_err D st); discriminate. Qed.
Lemma mv_src s st : moves [] st (with_src D s st).
Proof. apply mv_same; auto. Qed.
Lemma mv_flag f st : moves [] st (set_flag D f st).
Proof.
  unfold set_flag. destruct (rs_set D st f); apply mv_same; auto. cbn. destruct (rs_err D st); discriminate.
Qed.
Lemma mv_years a b st : moves [] st (with_years D a b st).
Proof. apply mv_same; auto. Qed.
Lemma mv_int p f v st : now p = Some f -> moves [p] st (with_int D f v st).
Proof.
  intros HN E. cbn in E. split; [exact E|]. cbn [with_int rs_int rs_subsec rs_tzname In].
  assert (EP : p <> PSubsec /\ p <> PTzName) by (split; intros ->; unfold now in HN; destruct t; discriminate). destruct EP as [P1 P2].
  split; [|clear - P1 P2; tauto].
  intros h. destruct (field_eqb f h) eqn:EF.
  - assert (f = h) by (destruct f, h; try discriminate; reflexivity). subst h. split; [|discriminate]. intros _. right. exists p. auto.
  - split; [left; assumption|]. intros [H|(q & [<-|[]] & H)]; [exact H|]. rewrite HN in H. injection H as <-. destruct f; discriminate.
Qed.
Lemma mv_none p st st' : now p = None -> p <> PSubsec -> p <> PTzName -> moves [] st st' -> moves [p] st st'.
Proof.
  intros HN H1 H2 H E. destruct (H E) as (E1 & HI & HS & HZ). split; [exact E1|]. cbn [In] in *. split; [|split].
  - intros f. rewrite HI. split; intros [K|(q & K & L)]; auto. destruct K as [<-|[]]. congruence.
  - rewrite HS. clear - H1. tauto.
  - rewrite HZ. clear - H2. tauto.
Qed.
Lemma mv_ranged p f fl lo hi off v st : now p = Some f -> moves [p] st (set_ranged D f fl lo hi off v st).
Proof.
  intros HN. unfold set_ranged. destruct (_ || _); [apply mv_err|]. eapply mv_before; [apply mv_int, HN|apply mv_flag].
Qed.
Lemma now_at p : p <> PCentury -> p <> PShortYear -> now p = field_of p.
Proof. intros H1 H2. unfold now. destruct p, t; congruence. Qed.
Lemma mv_full_year v st : moves [PYear] st (set_full_year D t v st).
Proof.
  assert (HN : now PYear = Some Year) by (apply now_at; discriminate).
  unfold set_full_year. destruct t; try (destruct (_ <? _); [apply mv_err|]); (eapply mv_before; [apply mv_int, HN|apply mv_flag]).
Qed.
Lemma mv_century v st : moves [PCentury] st (set_century D t v st).
Proof.
  unfold set_century. destruct t eqn:Et.
  - apply mv_none; [unfold now; rewrite Et; reflexivity|discriminate|discriminate|]. eapply mv_then; [apply mv_years|apply mv_flag].
  - apply mv_none; [unfold now; rewrite Et; reflexivity|discriminate|discriminate|]. eapply mv_then; [apply mv_years|apply mv_flag].
  - eapply mv_before; [apply mv_int; unfold now; rewrite Et; reflexivity|apply mv_flag].
Qed.
Lemma mv_short_year v st : moves [PShortYear] st (set_short_year D t v st).
Proof.
  unfold set_short_year. destruct t eqn:Et; try (destruct (_ || _); [apply mv_err|]).
  - apply mv_none; [unfold now; rewrite Et; reflexivity|discriminate|discriminate|]. eapply mv_then; [apply mv_years|apply mv_flag].
  - apply mv_none; [unfold now; rewrite Et; reflexivity|discriminate|discriminate|]. eapply mv_then; [apply mv_years|apply mv_flag].
  - eapply mv_before; [apply mv_int; unfold now; rewrite Et; reflexivity|apply mv_flag].
Qed.
Lemma mv_subsec d st st' : set_subsec D in_unit t d st = Ok st' -> moves [PSubsec] st st'.
Proof.
  unfold set_subsec. intros E. assert (HN : now PSubsec = None) by (unfold now; destruct t; reflexivity).
  destruct t; try (inv_ok; apply mv_err).
  destruct (in_unit d); [|discriminate]. inv_ok. eapply mv_before; [|apply mv_flag].
  intros E. split; [exact E|]. cbn. split; [|split; [|intuition discriminate]].
  - intros f. split; [tauto|]. intros [H|(p & [<-|[]] & H)]; [exact H|congruence].
  - split; [auto|discriminate].
Qed.
Lemma mv_tz_offset_set v st : moves [PTz] st (set_tz_offset D t v st).
Proof.
  assert (HN : now PTz = Some Tz) by (apply now_at; discriminate). unfold set_tz_offset. destruct t; try apply (mv_int _ _ _ _ HN).
  eapply mv_before; [apply mv_int, HN|apply mv_flag].
Qed.
Lemma mv_tz_name_set n st : moves [PTzName] st (set_tz_name D t n st).
Proof.
  assert (HN : now PTzName = None) by (unfold now; destruct t; reflexivity). unfold set_tz_name.
  assert (G : moves [PTzName] st (with_tzname D n st)).
  { intros E. split; [exact E|]. cbn. split; [|split; [intuition discriminate|]].
    - intros f. split; [tauto|]. intros [H|(p & [<-|[]] & H)]; [exact H|congruence].
    - split; [auto|discriminate]. }
  destruct t; [apply mv_err|..]; (eapply mv_before; [exact G|apply mv_flag]).
Qed.
Lemma mv_read_int lo hi st : moves [] st (snd (read_int D lo hi st)).
Proof.
  unfold read_int. destruct (read_digits _ _ _) as [[k v] s]. destruct (_ <? _)%nat; cbn [snd].
  - eapply mv_then; [apply mv_src|apply mv_err].
  - apply mv_src.
Qed.
Lemma mv_number lo hi set fs st st' : (forall v st, moves fs st (set v st)) ->
  number D lo hi set st = Ok st' -> moves fs st st'.
Proof.
  intros Hs E. unfold number in E. pose proof (mv_read_int lo hi st) as K.
  destruct (read_int D lo hi st) as [v st1]. inv_ok. eapply mv_then; eauto.
Qed.
Lemma mv_locale fmt k fs st st' : (forall tm st st', k tm st = Ok st' -> moves fs st st') ->
  from_locale D time_get fmt k st = Ok st' -> moves fs st st'.
Proof.
  intros Hk E. unfold from_locale, localized in E.
  destruct (time_get fmt _) as [[tm s]|]; [eapply mv_then; [apply mv_src|eauto]|inv_ok; apply mv_err].
Qed.
Lemma mv_one_of o st : moves [] st (snd (try_one_of D o st)).
Proof.
  unfold try_one_of. destruct (one_of_loop o 0 _) as [[v s]|]; cbn [snd]; [apply mv_src|apply mv_refl].
Qed.
Lemma mv_named a b set fs st : (forall v st, moves fs st (set v st)) -> moves fs st (named D a b set st).
Proof.
  intros Hs. unfold named. pose proof (mv_one_of a st) as K.
  destruct (try_one_of D a st) as [[v|] st1]; cbn [snd] in K; [eapply mv_then; eauto|].
  pose proof (mv_one_of b st1) as K2.
  destruct (try_one_of D b st1) as [[v|] st2]; cbn [snd] in K2;
    (eapply mv_then; [exact K|]; eapply mv_then; [exact K2|]); [auto|apply mv_err].
Qed.
Lemma mv_text txt : forall st, moves [] st (rd_text D txt st).
Proof.
  induction txt as [|c txt IH]; intros st; cbn [rd_text]; [apply mv_refl|].
  destruct (rs_src D st); [apply mv_err|].
  destruct (c =? z); [eapply mv_then; [apply mv_src|apply IH]|apply mv_err].
Qed.
Lemma mv_space st st' : rd_whitespace D r st = Ok st' -> moves [] st st'.
Proof.
  intros E. unfold rd_whitespace in E. destruct (skip_classic_whitespace _ _ _); inv_ok; [apply mv_src|apply mv_err].
Qed.
Lemma mv_tz_offset sys st : moves [PTz] st (rd_tz_offset D t sys st).
Proof.
  unfold rd_tz_offset. destruct (rs_src D st) as [|c s]; [apply mv_err|]. cbv zeta.
  set (st1 := if (_ || _)%bool then _ else _).
  assert (H1 : moves [] st st1) by (subst st1; destruct (_ || _); [apply mv_src|apply mv_refl]).
  clearbody st1. eapply mv_then; [exact H1|]. clear H1 st.
  destruct (rs_src D st1) as [|c0 s0]; [apply mv_err|].
  assert (H2 : moves [] st1 (snd (match sys with Std => read_int D 2 2 st1 | _ => read_int D 1 2 st1 end)))
    by (destruct sys; apply mv_read_int).
  destruct (match sys with Std => read_int D 2 2 st1 | _ => read_int D 1 2 st1 end) as [hour st2].
  cbn [snd] in H2. eapply mv_then; [exact H2|]. clear H2.
  destruct (rs_src D st2) as [|c1 s1]; [apply mv_tz_offset_set|].
  destruct (negb (c1 =? 58) && _); [apply mv_tz_offset_set|].
  destruct (if c1 =? 58 then s1 else c1 :: s1) as [|c2 s2] eqn:E; [apply mv_tz_offset_set|].
  destruct (is_digit c2); [|apply mv_tz_offset_set].
  pose proof (mv_read_int 2 2 (with_src D (c2 :: s2) st2)) as K.
  destruct (read_int D 2 2 _) as [m st3]. cbn [snd] in K.
  eapply mv_then; [apply (mv_src (c2 :: s2))|]. eapply mv_then; [exact K|apply mv_tz_offset_set].
Qed.
Lemma mv_subsecond sys st st' :
  rd_subsecond D scan_double in_unit decimal_point r cf t sys st = Ok st' -> moves [PSec; PSubsec] st st'.
Proof.
  intros E. unfold rd_subsecond in E. pose proof (mv_read_int 1 2 st) as K.
  destruct (read_int D 1 2 st) as [w st1]. cbn [snd] in K. cbv zeta in E.
  eapply mv_then; [exact K|]. clear K.
  change [PSec; PSubsec] with ([PSec] ++ [PSubsec]).
  eapply mv_app; [apply (mv_ranged PSec Sec FSec 0 60 0 w), now_at; discriminate|]. fold (set_sec D w st1).
  set (st2 := set_sec D w st1) in *. clearbody st2.
  unfold consume_ch in E. generalize dependent (scan_string r cf digits_format). intros sc E.
  destruct (rs_src D st2) as [|c0 s0] eqn:Es; cbn [negb] in E; [inv_ok; apply mv_err|].
  destruct (c0 =? _); cbn [negb] in E; [|inv_ok; apply mv_err].
  eapply mv_then; [apply (mv_src s0)|].
  destruct (sc _) as [[ds s]| | |]; try (inv_ok; apply mv_err).
  destruct (_ =? _)%nat; [inv_ok; apply mv_err|].
  eapply mv_then; [apply (mv_src s)|].
  destruct (scan_double _); try (inv_ok; apply mv_err).
  eapply mv_subsec; exact E.
Qed.
Lemma mv_tz_name st st' : rd_tz_name D r cf t st = Ok st' -> moves [PTzName] st st'.
Proof.
  intros E. unfold rd_tz_name in E. generalize dependent (scan_string r cf tz_name_format).
  intros sc E. destruct (sc _) as [[n s]| | |]; inv_ok.
  eapply mv_before; [apply mv_tz_name_set|apply mv_src].
Qed.
Lemma mv_ampm st st' :
  match try_one_of D am_pm_names st with
  | (Some b, st) => Ok (set_flag D FAmPm (with_mode D (rs_loc D st) (b =? 1) st))
  | (None, st) => Ok (set_error D InvalidScannedValue st)
  end = Ok st' -> moves [PAmPm] st st'.
Proof.
  intros E. pose proof (mv_one_of am_pm_names st) as K.
  destruct (try_one_of D am_pm_names st) as [[v|] st1]; cbn [snd] in K; inv_ok;
    (eapply mv_then; [exact K|]); [|apply mv_err].
  apply mv_none; [apply now_at; discriminate|discriminate|discriminate|].
  eapply mv_then; [|apply mv_flag]. apply mv_same; auto.
Qed.
Ltac put := first [apply mv_ranged, now_at; discriminate | apply mv_full_year | apply mv_century | apply mv_short_year].
Lemma mv_basic loc c sys st st' ps : basic c = true -> sets loc c = Some ps ->
  rd_basic D scan_double in_unit time_get decimal_point r cf t c sys st = Ok st' -> moves ps st st'.
Proof.
  intros B P E. destruct c; try discriminate B; try discriminate P; injection P as P; subst ps;
    cbn [rd_basic] in E;
    repeat match type of E with (if ?b then _ else _) = _ => destruct b end;
    first
    [ eapply mv_number; [|exact E]; intros; cbv beta; put
    | eapply mv_locale; [|exact E]; clear E st; intros tm st sy E; cbv beta in E;
      repeat match type of E with (if ?b then _ else _) = _ => destruct b end; inv_ok; put
    | inv_ok; apply mv_named; intros; put
    | idtac ].
  - eapply mv_subsecond; exact E.
  - injection E as E; subst st'. apply mv_tz_offset.
  - now apply mv_tz_name.
  - now apply mv_ampm.
Qed.
Lemma mv_date tm st st' : set_date D t tm st = Ok st' -> moves [PYear; PMon; PMday] st st'.
Proof.
  unfold set_date. intros E. inv_ok. change [PYear; PMon; PMday] with ([PYear] ++ [PMon] ++ [PMday]).
  rewrite app_assoc. eapply mv_app; [|put]. eapply mv_app; [apply mv_full_year|put].
Qed.
Lemma mv_time tm st : moves [PHour24; PMin; PSec] st (set_time D tm st).
Proof.
  unfold set_time. change [PHour24; PMin; PSec] with ([PHour24] ++ [PMin] ++ [PSec]).
  rewrite app_assoc. eapply mv_app; [|put]. eapply mv_app; [|put]. put.
Qed.
Lemma mv_fold evs : Forall (fun ev => match ev with
      | OnText _ | OnWhitespace => True
      | OnConv c _ => basic c = true /\ sets false c <> None
      | _ => False end) evs -> forall st st',
  fold_left (fun o ev => st <- o ;; rd_step D scan_double in_unit time_get decimal_point r cf t ev st)
    evs (Ok st) = Ok st' -> moves (flat_map event_parts evs) st st'.
Proof.
  induction 1 as [|ev evs Hev F IH]; intros st st' E; cbn [fold_left flat_map] in *;
    [inv_ok; apply mv_refl|].
  destruct (fold_stuck _ _ _ _ _ _ _ _ _ _ _ E) as [st1 E1]. rewrite E1 in E. cbn [bind] in E1.
  eapply mv_app; [|apply IH; exact E].
  destruct ev; try contradiction; cbn [rd_step event_parts] in *.
  - inv_ok. apply mv_text.
  - now apply mv_space.
  - destruct Hev as [B S0]. destruct (sets false c) as [ps|] eqn:Q; [|congruence].
    eapply mv_basic; eassumption.
Qed.
Lemma mv_conv c sys st st' ps : sets (rs_loc D st) c = Some ps ->
  rd_conv D scan_double in_unit time_get decimal_point r cf t c sys st = Ok st' -> moves ps st st'.
Proof.
  intros S0 E. unfold rd_conv in E.
  destruct (rd_localized_parts D time_get t c sys st) as [x|] eqn:L.
  - subst x. unfold rd_localized_parts in L. destruct (rs_loc D st) eqn:Lo; [|discriminate].
    cbn [negb] in L. destruct c; try discriminate; injection L as L; injection S0 as S0; subst ps.
    + apply (mv_ext ([PYear; PMon; PMday] ++ [PHour24; PMin; PSec])); [cbn; tauto|].
      eapply mv_locale; [|exact L]. intros tm sx sy E. cbv beta in E. inv_ok.
      eapply mv_app; [eapply mv_date; eassumption|apply mv_time].
    + apply (mv_ext [PYear; PMon; PMday]); [cbn; tauto|].
      eapply mv_locale; [|exact L]. intros tm sx sy E. eapply mv_date; eassumption.
    + eapply mv_locale; [|exact L]. intros tm sx sy E. cbv beta in E. inv_ok. apply mv_time.
    + eapply mv_locale; [|exact L]. intros tm sx sy E. cbv beta in E. inv_ok. apply mv_time.
  - destruct (parts c) as [evs|] eqn:P.
    + apply (mv_ext (flat_map event_parts evs)).
      * unfold rd_localized_parts in L.
        destruct c; try discriminate P; injection P as P; subst evs;
          try (destruct (rs_loc D st); [discriminate L|]);
          injection S0 as S0; subst ps; cbn; tauto.
      * apply mv_fold; [|exact E].
        destruct c; try discriminate P; injection P as P; subst evs;
          repeat (constructor; [cbn; try (split; [trivial|discriminate]); trivial|]); constructor.
    + eapply mv_basic; [|exact S0|exact E]. unfold basic. now rewrite P.
Qed.
Notation on := (rd_on D scan_double in_unit time_get decimal_point r cf t).
Lemma mv_drive evs : Forall inner evs -> forall st b st', drive on (rd_fine D) evs st = Ok (b, st') ->
  rs_err D st' = None -> moves (flat_map (call_parts (rs_loc D st)) evs) st st'.
Proof.
  induction 1 as [|[ev chk] evs Hi F IH]; intros st b st' E N; cbn [drive flat_map] in *.
  - inv_ok. apply mv_refl.
  - apply ok_bind in E. destruct E as (st1 & E1 & E).
    destruct (chk && negb (rd_fine D st1)) eqn:X.
    { inv_ok. unfold rd_fine in X. rewrite N in X. destruct chk; discriminate. }
    pose proof (IH _ _ _ E N) as H2. destruct (H2 N) as (N1 & _).
    assert (L1 : rs_loc D st1 = rs_loc D st /\ moves (call_parts (rs_loc D st) (ev, chk)) st st1).
    { unfold call_parts. destruct ev; try contradiction; cbn [fst rd_on] in *.
      - injection E1 as <-. split; [apply rd_text_steps|apply mv_text].
      - split; [eapply rd_space; eassumption|apply mv_space, E1].
      - destruct (sets (rs_loc D st) c) as [ps|] eqn:Sc.
        + split; [|eapply mv_conv; eassumption]. eapply rd_conv_steps in E1; [|exact Sc]. destruct E1 as (fs & [H1 _] & _). exact H1.
        + exfalso. exact (rd_unimplemented _ _ _ _ _ _ _ _ _ _ _ _ Sc E1 N1). }
    destruct L1 as [L1 H1]. rewrite L1 in H2. eapply mv_app; eassumption.
Qed.
Lemma mv_am_pm st st' : handle_am_pm D st = Ok st' -> moves [] st st' /\ rs_set D st' = rs_set D st.
Proof.
  unfold handle_am_pm. destruct (rs_int D st Hour) as [h|] eqn:EH; [|discriminate]. destruct (_ || _); [discriminate|].
  assert (G : forall v, moves [] st (with_int D Hour v st)).
  { intros v E. split; [exact E|]. cbn. split; [|tauto]. intros f. destruct f; cbn; try (rewrite EH; split; [left|]; discriminate);
      (split; [tauto|]; intros [H|(p & [] & _)]; exact H). }
  intros E. injection E as <-. destruct (rs_pm D st), (h =? 12); split; auto using mv_refl.
Qed.
Lemma assigned loc ts rest s d s' : s_enc r <> U16 -> at_end rest -> Forall wf_token ts ->
  Forall (simple_token (s_enc r)) ts -> starts_with_conv ts ->
  chrono_arg D scan_double in_unit time_get decimal_point r cf t (write_format (s_enc r) loc ts ++ rest) s = Ok (d, s') ->
  (forall f, dt_int D d f <> None <-> exists p, In p (format_parts loc ts) /\ field_of p = Some f)
  /\ (dt_subsec D d <> None <-> In PSubsec (format_parts loc ts))
  /\ (dt_tzname D d <> None <-> In PTzName (format_parts loc ts)).
Proof.
  intros He Hr W S0 Hc E. set (ps := format_parts loc ts). unfold chrono_arg in E. apply ok_bind in E.
  destruct E as ([p fmt] & E1 & E).
  destruct (checked _ _ _ _ _ _ _ He Hr W S0 Hc E1) as (-> & -> & _).
  destruct (scanned _ _ _ _ _ _ _ _ _ _ _ _ _ He W S0 Hc E) as (s0 & st0 & st1 & st & _ & Est0 & Dr & V & N & Ed & _).
  destruct (verify_conflict _ _ _ _ V N) as [Crd N1].
  pose proof (mv_drive _ (calls_inner _ _ W _) _ _ _ Dr N1 N1) as (_ & MI & MS & MZ).
  destruct (rd_drive _ _ _ _ _ _ _ _ _ (calls_inner _ _ W _) _ _ _ Dr N1) as (_ & _ & _ & fs & Ard & Srd).
  assert (Lo : rs_loc D st0 = loc) by (subst st0; destruct loc; reflexivity).
  assert (S00 : rs_set D st0 = (fun _ => false)) by (subst st0; destruct loc; reflexivity).
  assert (I00 : rs_int D st0 = (fun _ => None)) by (subst st0; destruct loc; reflexivity).
  assert (B00 : rs_subsec D st0 = None) by (subst st0; destruct loc; reflexivity).
  assert (Z00 : rs_tzname D st0 = None) by (subst st0; destruct loc; reflexivity).
  rewrite Lo, calls_parts in *. fold ps in Srd, MI, MS, MZ. rewrite S00 in Ard. rewrite B00 in MS. rewrite Z00 in MZ.
  destruct Ard as (_ & _ & Mem). destruct Srd as [_ Si].
  assert (Mem' : forall q, q <> PTz -> rs_set D st1 (flag_of q) = true <-> In q ps).
  { intros q Hq. rewrite Mem, Si. unfold rd_flags. rewrite in_flags, filter_In.
    clear -Hq. destruct t, q; try congruence; cbn; intuition congruence. }
  unfold rd_verify in V. rewrite Crd in V. apply ok_bind in V. destruct V as (st2 & V1 & V).
  assert (H2 : moves [] st1 st2 /\ rs_set D st2 = rs_set D st1).
  { destruct (_ && _); [apply mv_am_pm, V1|]. injection V1 as <-. split; [apply mv_refl|reflexivity]. }
  destruct H2 as [H2 HS2].
  assert (H3 : rs_err D st2 = None /\ (forall f, f <> Year -> rs_int D st f = rs_int D st2 f) /\ rs_subsec D st = rs_subsec D st2 /\ rs_tzname D st = rs_tzname D st2
     /\ (rs_int D st Year <> None <-> rs_int D st2 Year <> None \/ negb (rs_set D st2 FFullYear) && (rs_set D st2 FShortYear || rs_set D st2 FCentury) = true)).
  { destruct (negb (rs_set D st2 FFullYear) && (rs_set D st2 FShortYear || rs_set D st2 FCentury)) eqn:EB.
    - assert (G : exists v, st = with_int D Year v st2).
      { unfold handle_years in V. destruct (match t, rs_int D st2 Year with Components, None => true | _, _ => false end); [discriminate|].
        apply andb_true_iff in EB. destruct EB as [B1 B2]. apply negb_true_iff in B1. rewrite B1 in V.
        destruct (rs_set D st2 FShortYear), (rs_set D st2 FCentury); cbn [andb orb] in *; try discriminate; injection V as <-; eexists; reflexivity. }
      destruct G as [v ->]. split; [exact N|]. split; [intros f Hf; destruct f; try reflexivity; congruence|]. split; [reflexivity|]. split; [reflexivity|].
      split; [auto|discriminate].
    - injection V as <-. split; [exact N|]. split; [auto|]. split; [auto|]. split; [auto|]. split; [auto|]. intros [H|H]; [exact H|discriminate]. }
  destruct H3 as (N2 & HI & HB & HZ & HY). destruct (H2 N2) as (_ & MI2 & MS2 & MZ2).
  subst d. cbn [dt_int dt_subsec dt_tzname]. rewrite HB, HZ, MS2, MZ2, MS, MZ. cbn [In]. split; [|split; [split; [intros [[H|H]|[]]; congruence || exact H|auto]|split; [intros [[H|H]|[]]; congruence || exact H|auto]]].
  assert (G : forall f, rs_int D st2 f <> None <-> exists p, In p ps /\ now p = Some f).
  { intros f. rewrite MI2, MI, I00. cbn [In]. split; [|auto]. intros [[H|H]|(q & [] & _)]; [congruence|exact H]. }
  intros f. destruct (field_eqb f Year) eqn:EY.
  - assert (f = Year) by (destruct f; try discriminate; reflexivity). subst f. rewrite HY, G, HS2. split.
    + intros [(q & H1 & H3)|H].
      * exists q. split; [exact H1|]. unfold now in H3. destruct q, t; cbn in *; congruence.
      * apply andb_true_iff in H. destruct H as [_ H]. apply orb_true_iff in H. destruct H as [H|H].
        -- exists PShortYear. split; [apply (Mem' PShortYear); [discriminate|exact H]|reflexivity].
        -- exists PCentury. split; [apply (Mem' PCentury); [discriminate|exact H]|reflexivity].
    + intros (q & H1 & H3). destruct (now q) as [g|] eqn:EN.
      * left. exists q. split; [exact H1|]. rewrite EN. unfold now in EN. destruct q, t; cbn in *; congruence.
      * right. assert (HQ : q = PCentury \/ q = PShortYear) by (unfold now in EN; destruct q, t; cbn in *; try discriminate; auto).
        assert (HF : rs_set D st1 FFullYear = false).
        { apply conflict_false in Crd. destruct Crd as (_ & _ & K & _). destruct (rs_set D st1 FFullYear); [|reflexivity].
          destruct (K eq_refl) as [K1 K2]. destruct HQ as [-> | ->]; apply Mem' in H1; try discriminate; cbn in H1; congruence. }
        rewrite HF. cbn [negb andb]. apply orb_true_iff. destruct HQ as [-> | ->]; apply Mem' in H1; try discriminate; cbn in H1; auto.
  - assert (HF : f <> Year) by (intros ->; discriminate). rewrite (HI f HF), G. split; intros (q & H1 & H3); exists q; (split; [exact H1|]);
      unfold now in *; destruct q, t; cbn in *; congruence.
Qed.
End Reader.
