(** Which fields a format sets in the checker and in the reader. *)
From Coq Require Import String Ascii.
From Verif Require Import Prelude UnicodeModel UnicodeSpec ReadModel SpecsModel FormatModel FormatSpec
  VscanSpec SpecsInvProofs ChronoModel ChronoSpec ChronoParseProofs ChronoInvProofs.
Import Coq.Strings.String.StringSyntax.
Local Open Scope string_scope.
Local Open Scope list_scope.
Local Open Scope Z_scope.

(** Flags and parts *)
Definition flag_of (p : part) : flag :=
  match p with
  | PSubsec => FSubsec | PSec => FSec | PMin => FMin | PHour24 => FHour24 | PHour12 => FHour12
  | PAmPm => FAmPm | PMday => FMday | PMon => FMon | PYear => FFullYear | PCentury => FCentury
  | PShortYear => FShortYear | PWday => FWday | PYday => FYday | PTz => FTzoff | PTzName => FTzname
  end.
Lemma flag_of_inj p q : flag_of p = flag_of q -> p = q.
Proof. destruct p, q; cbn; congruence. Qed.
Lemma flag_eqb_spec a b : flag_eqb a b = true <-> a = b.
Proof. destruct a, b; cbn; split; congruence. Qed.
Lemma in_flags p ps : In (flag_of p) (map flag_of ps) <-> In p ps.
Proof.
  split; [|apply in_map]. intros H. apply in_map_iff in H. destruct H as (q & E & I).
  apply flag_of_inj in E. now subst.
Qed.

(** [adds fs s s']: the flags [fs], all new, were added *)
Definition adds (fs : list flag) (s s' : flagset) : Prop :=
  NoDup fs /\ (forall f, In f fs -> s f = false)
  /\ (forall g, s' g = true <-> s g = true \/ In g fs).
Lemma adds_nil s : adds [] s s.
Proof. split; [constructor|]. cbn. firstorder. Qed.
Lemma adds_app a b s1 s2 s3 : adds a s1 s2 -> adds b s2 s3 -> adds (a ++ b) s1 s3.
Proof.
  intros (N1 & F1 & E1) (N2 & F2 & E2). repeat split.
  - clear E2. assert (Dj : forall f, In f a -> ~ In f b).
    { intros f Ha Hb. apply F2 in Hb. assert (s2 f = true) by (apply E1; now right). congruence. }
    clear F1 F2 E1. induction N1 as [|x a Hx N1 IH]; cbn; [trivial|]. constructor.
    + rewrite in_app_iff. intros [?|?]; [contradiction|]. apply (Dj x); cbn; auto.
    + apply IH. intros f Hf. apply Dj. now right.
  - intros f Hf. apply in_app_iff in Hf. destruct Hf as [Hf|Hf]; [auto|].
    apply F2 in Hf. destruct (s1 f) eqn:Q; [|trivial].
    assert (s2 f = true) by (apply E1; now left). congruence.
  - intros H. apply E2 in H. rewrite in_app_iff. destruct H as [H|H]; [|tauto].
    apply E1 in H. tauto.
  - rewrite in_app_iff. intros H. apply E2. rewrite E1. tauto.
Qed.
Lemma adds_one f s : s f = false -> adds [f] s (mark f s).
Proof.
  intros H. split; [constructor; [intros []|constructor]|]. split.
  - intros g [<-|[]]. trivial.
  - intros g. unfold mark. rewrite orb_true_iff, flag_eqb_spec. cbn. split; intuition congruence.
Qed.

(** ** The checker *)
Definition ck_step (fs : list flag) (st st' : cstate) : Prop :=
  ck_fine st' = true -> ck_fine st = true /\ adds fs (ck_set st) (ck_set st').
Lemma ck_step_app a b s1 s2 s3 : ck_step a s1 s2 -> ck_step b s2 s3 -> ck_step (a ++ b) s1 s3.
Proof.
  intros H1 H2 E. destruct (H2 E) as [E2 A2]. destruct (H1 E2) as [E1 A1].
  split; [trivial|]. eapply adds_app; eassumption.
Qed.
Lemma ck_step_mark f st : ck_step [f] st (ck_mark f st).
Proof.
  unfold ck_step, ck_mark. cbn. intros E. apply andb_true_iff in E. destruct E as [E1 E2].
  split; [trivial|]. apply adds_one. now apply negb_true_iff.
Qed.
Lemma ck_step_nil st : ck_step [] st st.
Proof. intros E. split; [trivial|apply adds_nil]. Qed.
Lemma ck_step_fold fs : forall st, ck_step fs st (fold_left (fun st f => ck_mark f st) fs st).
Proof.
  induction fs as [|f fs IH]; intros st; cbn [fold_left]; [apply ck_step_nil|].
  change (f :: fs) with ([f] ++ fs). eapply ck_step_app; [apply ck_step_mark|apply IH].
Qed.
Definition ck_event_flags (ev : event) : list flag :=
  match ev with OnConv c _ => match ck_flags c with Some fs => fs | None => [] end | _ => [] end.
Lemma ck_on_step t ev st : exists st', ck_on t ev st = Ok st' /\ ck_step (ck_event_flags ev) st st'
  /\ (ck_fine st' = true -> match ev with
        | OnConv c _ => supports t c = true /\ ck_flags c <> None
        | OnVerify => conflict (ck_set st) = false /\ ck_set st' = ck_set st
        | OnError => False
        | _ => True
        end).
Proof.
  destruct ev; cbn [ck_on ck_event_flags]; try (eexists; split; [reflexivity|]; split;
    [apply ck_step_nil|]; trivial; fail).
  - destruct (ck_flags c) as [fs|] eqn:E.
    + eexists. split; [reflexivity|].
      destruct (supports t c); [split; [apply ck_step_fold|intros _; split; congruence]|].
      assert (G : ck_fine (fold_left (fun st f => ck_mark f st) fs (ck_error st)) = true -> False).
      { intros G. apply ck_step_fold in G. destruct G as [G _]. discriminate. }
      split; [intros X|intros X]; destruct (G X).
    + eexists. split; [reflexivity|]. split; intros X; discriminate.
  - eexists. split; [reflexivity|]. split; intros X; discriminate.
  - destruct (conflict (ck_set st)); eexists; (split; [reflexivity|]).
    + split; intros X; discriminate.
    + split; [apply ck_step_nil|]; auto.
Qed.
(** A run of the checker over calls: it never stops early without an error *)
Lemma ck_drive t evs : forall st, exists b st', drive (ck_on t) ck_fine evs st = Ok (b, st')
  /\ (ck_fine st' = true -> b = true /\ ck_fine st = true /\
        adds (flat_map (fun x => ck_event_flags (fst x)) evs) (ck_set st) (ck_set st')
        /\ (forall c sys chk, In (OnConv c sys, chk) evs -> supports t c = true /\ ck_flags c <> None)).
Proof.
  induction evs as [|[ev chk] evs IH]; intros st; cbn [drive flat_map fst].
  - exists true, st. split; [trivial|]. intros E. repeat split; trivial;
      try apply adds_nil; cbn in *; try contradiction; try tauto.
    + constructor.
  - destruct (ck_on_step t ev st) as (st1 & E1 & S1 & C1). rewrite E1. cbn [bind].
    destruct (chk && negb (ck_fine st1)) eqn:X.
    + exists false, st1. split; [trivial|]. intros E. rewrite E in X.
      destruct chk; discriminate.
    + destruct (IH st1) as (b & st' & E2 & H2). exists b, st'. split; [trivial|]. intros E.
      destruct (H2 E) as (-> & F1 & A2 & C2). destruct (S1 F1) as [F0 A1].
      split; [trivial|]. split; [trivial|]. split; [eapply adds_app; eassumption|].
      intros c sys k [I|I]; [|eauto]. inversion I; subst. apply C1. trivial.
Qed.

(** ** The reader *)
Section Reader.
Variable D : Type.
Variable scan_double : list Z -> outcome D.
Variable in_unit : D -> bool.
Variable time_get : list Z -> list Z -> option (tmv * list Z).
Variable decimal_point : Z.
Variable r : src.
Variable cf : FormatModel.config.
Variable t : target.
Notation rstate := (rstate D).
Notation set_error := (set_error D).
Notation with_src := (with_src D).
Notation set_flag := (set_flag D).

Definition rd_steps (fs : list flag) (st st' : rstate) : Prop :=
  rs_loc D st' = rs_loc D st /\
  (rs_err D st' = None -> rs_err D st = None /\ adds fs (rs_set D st) (rs_set D st')).
Lemma rd_app a b s1 s2 s3 : rd_steps a s1 s2 -> rd_steps b s2 s3 -> rd_steps (a ++ b) s1 s3.
Proof.
  intros [L1 H1] [L2 H2]. split; [congruence|]. intros E. destruct (H2 E) as [E2 A2].
  destruct (H1 E2) as [E1 A1]. split; [trivial|]. eapply adds_app; eassumption.
Qed.
Lemma rd_then a s1 s2 s3 : rd_steps [] s1 s2 -> rd_steps a s2 s3 -> rd_steps a s1 s3.
Proof. intros H1 H2. apply (rd_app [] a s1 s2 s3 H1 H2). Qed.
Lemma rd_before a s1 s2 s3 : rd_steps a s1 s2 -> rd_steps [] s2 s3 -> rd_steps a s1 s3.
Proof. intros H1 H2. rewrite <- (app_nil_r a). apply (rd_app a [] s1 s2 s3 H1 H2). Qed.
Lemma rd_refl st : rd_steps [] st st.
Proof. split; [trivial|]. intros E. split; [trivial|apply adds_nil]. Qed.
Lemma rd_err fs e st : rd_steps fs st (set_error e st).
Proof. split; [reflexivity|]. cbn. destruct (rs_err D st); discriminate. Qed.
Lemma rd_src s st : rd_steps [] st (with_src s st).
Proof. split; [reflexivity|]. cbn. intros E. split; [trivial|apply adds_nil]. Qed.
Lemma rd_flag f st : rd_steps [f] st (set_flag f st).
Proof.
  unfold set_flag. destruct (rs_set D st f) eqn:E; (split; [reflexivity|]); cbn.
  - destruct (rs_err D st); discriminate.
  - intros H. split; [trivial|]. now apply adds_one.
Qed.
Lemma rd_int f v st : rd_steps [] st (with_int D f v st).
Proof. split; [reflexivity|]. cbn. intros E. split; [trivial|apply adds_nil]. Qed.
Lemma rd_years a b st : rd_steps [] st (with_years D a b st).
Proof. split; [reflexivity|]. cbn. intros E. split; [trivial|apply adds_nil]. Qed.
Lemma rd_ranged f fl lo hi off v st : rd_steps [fl] st (set_ranged D f fl lo hi off v st).
Proof.
  unfold set_ranged. destruct (_ || _); [apply rd_err|].
  eapply rd_then; [apply rd_int|apply rd_flag].
Qed.
Lemma rd_full_year v st : rd_steps [FFullYear] st (set_full_year D t v st).
Proof.
  unfold set_full_year. destruct t; try (destruct (_ <? _); [apply rd_err|]);
    (eapply rd_then; [apply rd_int|apply rd_flag]).
Qed.
Lemma rd_century v st : rd_steps [FCentury] st (set_century D t v st).
Proof.
  unfold set_century. destruct t; (eapply rd_then; [|apply rd_flag]; (apply rd_int || apply rd_years)).
Qed.
Lemma rd_short_year v st : rd_steps [FShortYear] st (set_short_year D t v st).
Proof.
  unfold set_short_year. destruct t; try (destruct (_ || _); [apply rd_err|]);
  (eapply rd_then; [|apply rd_flag]; (apply rd_int || apply rd_years)).
Qed.
Lemma rd_subsec d st st' : set_subsec D in_unit t d st = Ok st' -> rd_steps [FSubsec] st st'.
Proof.
  unfold set_subsec. intros E. destruct t; try (inv_ok; apply rd_err).
  destruct (in_unit d); [|discriminate]. inv_ok. eapply rd_then; [|apply rd_flag].
  split; [reflexivity|]. cbn. intros E. split; [trivial|apply adds_nil].
Qed.
Definition tz_flags : list flag := match t with Components => [FTzoff] | _ => [] end.
Lemma rd_tz_offset_set v st : rd_steps tz_flags st (set_tz_offset D t v st).
Proof.
  unfold set_tz_offset, tz_flags. destruct t; try apply rd_int.
  eapply rd_then; [apply rd_int|apply rd_flag].
Qed.
Lemma rd_tz_name_set n st : rd_steps [FTzname] st (set_tz_name D t n st).
Proof.
  unfold set_tz_name. destruct t; [apply rd_err|..];
  (eapply rd_then; [|apply rd_flag]; split; [reflexivity|]; cbn; intros E;
   split; [trivial|apply adds_nil]).
Qed.
Lemma rd_read_int lo hi st : rd_steps [] st (snd (read_int D lo hi st)).
Proof.
  unfold read_int. destruct (read_digits _ _ _) as [[k v] s]. destruct (_ <? _)%nat; cbn [snd].
  - eapply rd_then; [apply rd_src|apply rd_err].
  - apply rd_src.
Qed.
Lemma rd_number lo hi set fs st st' : (forall v st, rd_steps fs st (set v st)) ->
  number D lo hi set st = Ok st' -> rd_steps fs st st'.
Proof.
  intros Hs E. unfold number in E. pose proof (rd_read_int lo hi st) as K.
  destruct (read_int D lo hi st) as [v st1]. inv_ok. eapply rd_then; eauto.
Qed.
Lemma rd_locale fmt k fs st st' : (forall tm st st', k tm st = Ok st' -> rd_steps fs st st') ->
  from_locale D time_get fmt k st = Ok st' -> rd_steps fs st st'.
Proof.
  intros Hk E. unfold from_locale, localized in E.
  destruct (time_get fmt _) as [[tm s]|]; [eapply rd_then; [apply rd_src|eauto]|inv_ok; apply rd_err].
Qed.
Lemma rd_one_of o st : rd_steps [] st (snd (try_one_of D o st)).
Proof.
  unfold try_one_of. destruct (one_of_loop o 0 _) as [[v s]|]; cbn [snd]; [apply rd_src|apply rd_refl].
Qed.
Lemma rd_named a b set fs st : (forall v st, rd_steps fs st (set v st)) ->
  rd_steps fs st (named D a b set st).
Proof.
  intros Hs. unfold named. pose proof (rd_one_of a st) as K.
  destruct (try_one_of D a st) as [[v|] st1]; cbn [snd] in K; [eapply rd_then; eauto|].
  pose proof (rd_one_of b st1) as K2.
  destruct (try_one_of D b st1) as [[v|] st2]; cbn [snd] in K2;
    (eapply rd_then; [exact K|]; eapply rd_then; [exact K2|]); [auto|apply rd_err].
Qed.
Lemma rd_text_steps txt : forall st, rd_steps [] st (rd_text D txt st).
Proof.
  induction txt as [|c txt IH]; intros st; cbn [rd_text]; [apply rd_refl|].
  destruct (rs_src D st); [apply rd_err|].
  destruct (c =? z); [eapply rd_then; [apply rd_src|apply IH]|apply rd_err].
Qed.
Lemma rd_space st st' : rd_whitespace D r st = Ok st' -> rd_steps [] st st'.
Proof.
  intros E. unfold rd_whitespace in E. destruct (skip_classic_whitespace _ _ _); inv_ok;
  [apply rd_src|apply rd_err].
Qed.
Lemma rd_tz_offset_steps sys st : rd_steps tz_flags st (rd_tz_offset D t sys st).
Proof.
  unfold rd_tz_offset. destruct (rs_src D st) as [|c s]; [apply rd_err|]. cbv zeta.
  set (st1 := if (_ || _)%bool then _ else _).
  assert (H1 : rd_steps [] st st1) by (subst st1; destruct (_ || _); [apply rd_src|apply rd_refl]).
  clearbody st1. eapply rd_then; [exact H1|]. clear H1 st.
  destruct (rs_src D st1) as [|c0 s0]; [apply rd_err|].
  assert (H2 : rd_steps [] st1
     (snd (match sys with Std => read_int D 2 2 st1 | _ => read_int D 1 2 st1 end)))
    by (destruct sys; apply rd_read_int).
  destruct (match sys with Std => read_int D 2 2 st1 | _ => read_int D 1 2 st1 end) as [hour st2].
  cbn [snd] in H2. eapply rd_then; [exact H2|]. clear H2.
  destruct (rs_src D st2) as [|c1 s1]; [apply rd_tz_offset_set|].
  destruct (negb (c1 =? 58) && _); [apply rd_tz_offset_set|].
  destruct (if c1 =? 58 then s1 else c1 :: s1) as [|c2 s2] eqn:E; [apply rd_tz_offset_set|].
  destruct (is_digit c2); [|apply rd_tz_offset_set].
  pose proof (rd_read_int 2 2 (with_src (c2 :: s2) st2)) as K.
  destruct (read_int D 2 2 _) as [m st3]. cbn [snd] in K.
  eapply rd_then; [apply (rd_src (c2 :: s2))|]. eapply rd_then; [exact K|apply rd_tz_offset_set].
Qed.
Lemma rd_subsecond_steps sys st st' :
  rd_subsecond D scan_double in_unit decimal_point r cf t sys st = Ok st' ->
  rd_steps [FSec; FSubsec] st st'.
Proof.
  intros E. unfold rd_subsecond in E. pose proof (rd_read_int 1 2 st) as K.
  destruct (read_int D 1 2 st) as [w st1]. cbn [snd] in K. cbv zeta in E.
  eapply rd_then; [exact K|]. clear K.
  change [FSec; FSubsec] with ([FSec] ++ [FSubsec]).
  eapply rd_app; [apply (rd_ranged Sec FSec 0 60 0 w)|]. fold (set_sec D w st1).
  set (st2 := set_sec D w st1) in *. clearbody st2.
  unfold consume_ch in E. generalize dependent (scan_string r cf digits_format). intros sc E.
  destruct (rs_src D st2) as [|c0 s0] eqn:Es; cbn [negb] in E; [inv_ok; apply rd_err|].
  destruct (c0 =? _); cbn [negb] in E; [|inv_ok; apply rd_err].
  eapply rd_then; [apply (rd_src s0)|].
  destruct (sc _) as [[ds s]| | |]; try (inv_ok; apply rd_err).
  destruct (_ =? _)%nat; [inv_ok; apply rd_err|].
  eapply rd_then; [apply (rd_src s)|].
  destruct (scan_double _); try (inv_ok; apply rd_err).
  eapply rd_subsec; exact E.
Qed.
Lemma rd_tz_name_steps st st' : rd_tz_name D r cf t st = Ok st' -> rd_steps [FTzname] st st'.
Proof.
  intros E. unfold rd_tz_name in E. generalize dependent (scan_string r cf tz_name_format).
  intros sc E. destruct (sc _) as [[n s]| | |]; inv_ok.
  eapply rd_before; [apply rd_tz_name_set|apply rd_src].
Qed.
Lemma rd_ampm_steps st st' :
  match try_one_of D am_pm_names st with
  | (Some b, st) => Ok (set_flag FAmPm (with_mode D (rs_loc D st) (b =? 1) st))
  | (None, st) => Ok (set_error InvalidScannedValue st)
  end = Ok st' -> rd_steps [FAmPm] st st'.
Proof.
  intros E. pose proof (rd_one_of am_pm_names st) as K.
  destruct (try_one_of D am_pm_names st) as [[v|] st1]; cbn [snd] in K; inv_ok;
    (eapply rd_then; [exact K|]); [|apply rd_err].
  eapply rd_then; [|apply rd_flag]. split; [reflexivity|]. cbn. intros E.
  split; [trivial|apply adds_nil].
Qed.

(** The parts a basic conversion specifier sets, and the flags for them *)
Definition rd_flags (ps : list part) : list flag :=
  map flag_of (filter (fun p => match t, p with (Tm | TmTz), PTz => false | _, _ => true end) ps).
Definition basic (c : conv) : bool := match parts c with Some _ => false | None => true end.
Lemma rd_basic_steps loc c sys st st' ps : basic c = true -> sets loc c = Some ps ->
  rd_basic D scan_double in_unit time_get decimal_point r cf t c sys st = Ok st' ->
  rd_steps (rd_flags ps) st st'.
Proof.
  intros B P E. destruct c; try discriminate B; try discriminate P; injection P as P; subst ps;
    cbn [rd_basic] in E;
    repeat match type of E with (if ?b then _ else _) = _ => destruct b end;
    first
    [ eapply rd_number; [|exact E]; intros; cbv beta; unfold rd_flags; cbn [filter];
      replace (match t with Tm | TmTz => true | Components => true end) with true by (destruct t; trivial);
      cbn [map flag_of];
      first [apply rd_ranged | apply rd_full_year | apply rd_century | apply rd_short_year]
    | eapply rd_locale; [|exact E]; clear E st; intros tm st sy E; cbv beta in E;
      repeat match type of E with (if ?b then _ else _) = _ => destruct b end; inv_ok;
      unfold rd_flags; cbn [filter];
      replace (match t with Tm | TmTz => true | Components => true end) with true by (destruct t; trivial);
      cbn [map flag_of];
      first [apply rd_ranged | apply rd_full_year | apply rd_century | apply rd_short_year]
    | inv_ok; unfold rd_flags; cbn [filter];
      replace (match t with Tm | TmTz => true | Components => true end) with true by (destruct t; trivial);
      cbn [map flag_of]; apply rd_named; intros; apply rd_ranged
    | idtac ].
  - unfold rd_flags. replace (map flag_of _) with [FSec; FSubsec] by (destruct t; reflexivity).
    eapply rd_subsecond_steps; exact E.
  - injection E as E; subst st'. unfold rd_flags.
    replace (map flag_of _) with tz_flags by (unfold tz_flags; destruct t; reflexivity).
    apply rd_tz_offset_steps.
  - unfold rd_flags. replace (map flag_of _) with [FTzname] by (destruct t; reflexivity).
    now apply rd_tz_name_steps.
  - unfold rd_flags. replace (map flag_of _) with [FAmPm] by (destruct t; reflexivity).
    now apply rd_ampm_steps.
Qed.
Lemma rd_date tm st st' : set_date D t tm st = Ok st' ->
  rd_steps [FFullYear; FMon; FMday] st st'.
Proof.
  unfold set_date. intros E. inv_ok. change [FFullYear; FMon; FMday] with ([FFullYear] ++ [FMon] ++ [FMday]).
  eapply rd_app; [apply rd_full_year|]. eapply rd_app; apply rd_ranged.
Qed.
Lemma rd_time tm st : rd_steps [FHour24; FMin; FSec] st (set_time D tm st).
Proof.
  unfold set_time. change [FHour24; FMin; FSec] with ([FHour24] ++ [FMin] ++ [FSec]).
  eapply rd_app; [apply rd_ranged|]. eapply rd_app; apply rd_ranged.
Qed.
Lemma fold_stuck evs : forall (o : outcome rstate) st',
  fold_left (fun o ev => st <- o ;; rd_step D scan_double in_unit time_get decimal_point r cf t ev st)
    evs o = Ok st' -> exists st, o = Ok st.
Proof.
  induction evs as [|ev evs IH]; intros o st' E; cbn in E; [eauto|].
  apply IH in E. destruct E as [st E]. destruct o; try discriminate. eauto.
Qed.
Definition event_parts (ev : event) : list part :=
  match ev with OnConv c _ => match sets false c with Some ps => ps | None => [] end | _ => [] end.
Lemma rd_steps_fold evs : Forall (fun ev => match ev with
      | OnText _ | OnWhitespace => True
      | OnConv c _ => basic c = true /\ sets false c <> None
      | _ => False end) evs -> forall st st',
  fold_left (fun o ev => st <- o ;; rd_step D scan_double in_unit time_get decimal_point r cf t ev st)
    evs (Ok st) = Ok st' -> rd_steps (rd_flags (flat_map event_parts evs)) st st'.
Proof.
  induction 1 as [|ev evs Hev F IH]; intros st st' E; cbn [fold_left flat_map] in *;
    [inv_ok; apply rd_refl|].
  destruct (fold_stuck _ _ _ E) as [st1 E1]. rewrite E1 in E. cbn [bind] in E1.
  unfold rd_flags. rewrite filter_app, map_app. eapply rd_app; [|apply IH; exact E].
  destruct ev; try contradiction; cbn [rd_step event_parts] in *.
  - inv_ok. apply rd_text_steps.
  - now apply rd_space.
  - destruct Hev as [B S0]. destruct (sets false c) as [ps|] eqn:Q; [|congruence].
    eapply rd_basic_steps; eassumption.
Qed.
(** All conversion specifiers, up to the order of their flags *)
Lemma rd_conv_steps c sys st st' ps : sets (rs_loc D st) c = Some ps ->
  rd_conv D scan_double in_unit time_get decimal_point r cf t c sys st = Ok st' ->
  exists fs, rd_steps fs st st' /\ (NoDup fs -> NoDup (rd_flags ps))
             /\ (forall f, In f fs <-> In f (rd_flags ps)).
Proof.
  intros S0 E. unfold rd_conv in E.
  destruct (rd_localized_parts D time_get t c sys st) as [x|] eqn:L.
  - subst x. unfold rd_localized_parts in L. destruct (rs_loc D st) eqn:Lo; [|discriminate].
    cbn [negb] in L. destruct c; try discriminate; injection L as L; injection S0 as S0; subst ps.
    + exists ([FFullYear; FMon; FMday] ++ [FHour24; FMin; FSec]).
      split; [|unfold rd_flags; destruct t; (split; [intros _; cbn; repeat (apply NoDup_cons; [cbn; intuition congruence|]); apply NoDup_nil
                                   |cbn; intros f; intuition])].
      eapply rd_locale; [|exact L]. intros tm sx sy E. cbv beta in E. inv_ok.
      eapply rd_app; [eapply rd_date; eassumption|apply rd_time].
    + exists [FFullYear; FMon; FMday].
      split; [|unfold rd_flags; destruct t; (split; [intros _; cbn; repeat (apply NoDup_cons; [cbn; intuition congruence|]); apply NoDup_nil
                                   |cbn; intros f; intuition])].
      eapply rd_locale; [|exact L]. intros tm sx sy E. eapply rd_date; eassumption.
    + exists [FHour24; FMin; FSec].
      split; [|unfold rd_flags; destruct t; (split; [trivial|cbn; intros f; intuition])].
      eapply rd_locale; [|exact L]. intros tm sx sy E. cbv beta in E. inv_ok. apply rd_time.
    + exists [FHour24; FMin; FSec].
      split; [|unfold rd_flags; destruct t; (split; [trivial|cbn; intros f; intuition])].
      eapply rd_locale; [|exact L]. intros tm sx sy E. cbv beta in E. inv_ok. apply rd_time.
  - destruct (parts c) as [evs|] eqn:P.
    + exists (rd_flags (flat_map event_parts evs)). split.
      * apply rd_steps_fold; [|exact E].
        destruct c; try discriminate P; injection P as P; subst evs;
          repeat (constructor; [cbn; try (split; [trivial|discriminate]); trivial|]); constructor.
      * unfold rd_localized_parts in L.
        destruct c; try discriminate P; injection P as P; subst evs;
          try (destruct (rs_loc D st); [discriminate L|]);
          injection S0 as S0; subst ps; unfold rd_flags; destruct t; cbn;
          (split; [intros _; repeat (apply NoDup_cons; [cbn; intuition congruence|]); apply NoDup_nil
                  |intros f; tauto]).
    + exists (rd_flags ps). split; [|split; [trivial|tauto]].
      eapply rd_basic_steps; [|exact S0|exact E]. unfold basic. now rewrite P.
Qed.
Lemma rd_unimplemented c sys st st' : sets (rs_loc D st) c = None ->
  rd_conv D scan_double in_unit time_get decimal_point r cf t c sys st = Ok st' ->
  rs_err D st' <> None.
Proof.
  intros S0 E. unfold rd_conv in E.
  assert (N : rd_localized_parts D time_get t c sys st = None /\ parts c = None).
  { unfold rd_localized_parts. destruct c; try discriminate S0; (split; [|reflexivity]);
      destruct (negb _); reflexivity. }
  destruct N as [N1 N2]. rewrite N1, N2 in E.
  destruct c; try discriminate S0; cbn [rd_basic] in E; injection E as E; subst st'; cbn;
    destruct (rs_err D st); discriminate.
Qed.
End Reader.
