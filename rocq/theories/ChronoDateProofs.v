(** Reading a date that was written in the format: the reader. *)
From Coq Require Import String Ascii Permutation.
From Verif Require Import Prelude UnicodeModel UnicodeSpec ReadModel ReadProofs FormatModel FormatSpec VscanSpec
  SpecsInvProofs ChronoModel ChronoSpec ChronoParseProofs ChronoInvProofs ChronoMarkProofs ChronoRuleProofs
  ChronoRoundProofs VscanSpecProofs ChronoTextProofs.
Import Coq.Strings.String.StringSyntax.
Local Open Scope string_scope.
Local Open Scope list_scope.
Local Open Scope Z_scope.

(** ** Tables of names *)
Definition entry_eqb (a b : list Z * Z) : bool :=
  if list_eq_dec Z.eq_dec (fst a) (fst b) then snd a =? snd b else false.
Lemma entry_eqb_eq a b : entry_eqb a b = true -> a = b.
Proof.
  destruct a, b. unfold entry_eqb. cbn [fst snd]. destruct (list_eq_dec Z.eq_dec _ _); [|discriminate].
  intros H. apply Z.eqb_eq in H. congruence.
Qed.
Fixpoint differb (a b : list Z) : bool :=
  match a, b with x :: a', y :: b' => negb (compat x y) || differb a' b' | _, _ => false end.
Lemma differb_differ a b : differb a b = true -> differ 0 a b.
Proof.
  revert b. induction a as [|x a IH]; intros [|y b] H; cbn in H; try discriminate.
  apply orb_true_iff in H. destruct H as [H|H].
  - exists O, x, y. apply negb_true_iff in H. auto.
  - destruct (IH b H) as (i & x' & y' & Hi & E). exists (S i), x', y'. split; [lia|exact E].
Qed.
Fixpoint distinct (l : list (list Z * Z)) : bool :=
  match l with [] => true | x :: l' => negb (existsb (entry_eqb x) l') && distinct l' end.
Definition table_ok (l : list (list Z * Z)) : bool :=
  distinct l && forallb (fun o => forallb (fun o' => entry_eqb o o' || differb (fst o) (fst o')) l) l.
Lemma distinct_nodup l : distinct l = true -> NoDup l.
Proof.
  induction l as [|x l IH]; cbn; [constructor|]. intros H. apply andb_true_iff in H. destruct H as [H1 H2].
  constructor; [|auto]. intros I. apply negb_true_iff in H1.
  assert (existsb (entry_eqb x) l = true); [|congruence].
  apply existsb_exists. exists x. split; [trivial|]. destruct x. unfold entry_eqb. cbn [fst snd].
  destruct (list_eq_dec Z.eq_dec _ _); [apply Z.eqb_refl|congruence].
Qed.
Lemma table_found l w v u next : table_ok l = true -> In (w, v) l ->
  Forall2 (fun a b => nocase_eq a b = true) u w -> one_of_loop l 0 (u ++ next) = Some (v, next).
Proof.
  intros T I F. apply andb_true_iff in T. destruct T as [T1 T2].
  apply (one_of_found v w); trivial; [now apply distinct_nodup|lia|].
  intros o Io. rewrite forallb_forall in T2. specialize (T2 _ Io). rewrite forallb_forall in T2.
  specialize (T2 _ I). apply orb_true_iff in T2. destruct T2 as [T2|T2].
  - left. now apply entry_eqb_eq.
  - right. now apply differb_differ.
Qed.
Definition has_name (l : list (list Z * Z)) (name : list Z) (v : Z) : bool :=
  existsb (fun o => (if list_eq_dec Z.eq_dec (map lower (fst o)) name then snd o =? v else false)
                    && forallb (fun c => letter c || (c =? 46)) (fst o)) l.
Lemma name_found l name v u next : table_ok l = true -> has_name l name v = true -> spelled u name ->
  one_of_loop l 0 (u ++ next) = Some (v, next).
Proof.
  intros T H S0. apply existsb_exists in H. destruct H as ([w v'] & I & H).
  apply andb_true_iff in H. destruct H as [H1 H2]. cbn [fst snd] in *.
  destruct (list_eq_dec Z.eq_dec _ _) as [E|]; [|discriminate]. apply Z.eqb_eq in H1. subst v'.
  eapply table_found; [trivial|eassumption|]. eapply spelled_nocase; eassumption.
Qed.
(** A shortened name is not found among the full ones. *)
Lemma nocase_spelled u w : Forall2 (fun a b => nocase_eq a b = true) u w ->
  forallb letter w = true -> spelled u (map lower w).
Proof.
  unfold spelled. induction 1 as [|c x u w E F IH]; [trivial|]. cbn. intros L.
  apply andb_true_iff in L. destruct L as [L1 L2]. apply lower_nocase in E; [|trivial].
  now rewrite E, IH.
Qed.
Lemma abbr_not_found l name u next :
  forallb (fun o => forallb letter (fst o) && (3 <=? length (fst o))%nat &&
    (if list_eq_dec Z.eq_dec (firstn 3 (map lower (fst o))) (firstn 3 name)
     then if list_eq_dec Z.eq_dec (map lower (fst o)) name then true else false else true)) l = true ->
  length (firstn 3 name) = 3%nat -> spelled u (firstn 3 name) -> ~ completes name next ->
  one_of_loop l 0 (u ++ next) = None.
Proof.
  intros T L3 Hu Hc. destruct (one_of_loop l 0 (u ++ next)) as [[v rest]|] eqn:E; [|trivial].
  exfalso. apply one_of_sound in E. destruct E as (w & u' & I & Es & F). cbn [skipn] in F.
  rewrite forallb_forall in T. specialize (T _ I). cbn [fst] in T.
  apply andb_true_iff in T. destruct T as [T T3]. apply andb_true_iff in T. destruct T as [T1 T2].
  apply Nat.leb_le in T2.
  assert (Sp := nocase_spelled _ _ F T1). unfold spelled in *.
  assert (Lu : length u = 3%nat) by (rewrite <- (map_length lower), Hu; trivial).
  assert (Lu' : (3 <= length u')%nat) by (rewrite <- (map_length lower), Sp, map_length; trivial).
  assert (Eu : firstn 3 u' = u).
  { assert (X : firstn 3 (u ++ next) = firstn 3 (u' ++ rest)) by now rewrite Es.
    rewrite !firstn_app, Lu in X. replace (3 - length u')%nat with O in X by lia.
    replace (3 - 3)%nat with O in X by lia. rewrite !firstn_O, !app_nil_r in X.
    rewrite <- X. now apply firstn_all2; lia. }
  assert (Ew : map lower w = name).
  { destruct (list_eq_dec Z.eq_dec _ _) as [|N] in T3.
    - destruct (list_eq_dec Z.eq_dec _ _) in T3; [trivial|discriminate].
    - destruct N. rewrite <- Sp, firstn_map, Eu. exact Hu. }
  apply Hc. exists (skipn 3 u'), rest. split.
  - assert (X : skipn 3 (u ++ next) = skipn 3 (u' ++ rest)) by now rewrite Es.
    rewrite !skipn_app, Lu in X. replace (3 - 3)%nat with O in X by lia.
    rewrite (skipn_all2 u) in X by lia. replace (3 - length u')%nat with O in X by lia. exact X.
  - unfold spelled. rewrite <- skipn_map, Sp, Ew. reflexivity.
Qed.

(** The names of months and days, and am and pm *)
Lemma in_check {A} (p : A -> bool) l x : forallb p l = true -> In x l -> p x = true.
Proof. intros H I. rewrite forallb_forall in H. auto. Qed.
Lemma month_long u w v s : In (w, v) month_names -> spelled u (codes w) ->
  one_of_loop long_months 0 (u ++ s) = Some (v, s) /\ 1 <= v <= 12.
Proof.
  intros I H. split.
  - apply (name_found long_months (codes w)); [vm_compute; reflexivity| |trivial].
    apply (in_check (fun x => has_name long_months (codes (fst x)) (snd x)) month_names (w, v)); [vm_compute; reflexivity|trivial].
  - apply (in_check (fun x => (1 <=? snd x) && (snd x <=? 12)) month_names) in I; [|vm_compute; reflexivity].
    cbn in I. lia.
Qed.
Lemma abbr_found long short names w v u s :
  table_ok short = true ->
  forallb (fun x : string * Z => (length (firstn 3 (codes (fst x))) =? 3)%nat &&
     ((length (codes (fst x)) <=? 3)%nat || has_name short (firstn 3 (codes (fst x))) (snd x)) &&
     forallb (fun o => forallb letter (fst o) && (3 <=? length (fst o))%nat &&
      (if list_eq_dec Z.eq_dec (firstn 3 (map lower (fst o))) (firstn 3 (codes (fst x)))
       then if list_eq_dec Z.eq_dec (map lower (fst o)) (codes (fst x)) then true else false else true)) long) names = true ->
  In (w, v) names -> spelled u (firstn 3 (codes w)) -> ~ completes (codes w) s ->
  one_of_loop long 0 (u ++ s) = None /\ one_of_loop short 0 (u ++ s) = Some (v, s).
Proof.
  intros T C I H N. pose proof (in_check _ _ _ C I) as K. cbn [fst snd] in K.
  apply andb_true_iff in K. destruct K as [K K3]. apply andb_true_iff in K. destruct K as [K1 K2].
  apply Nat.eqb_eq in K1. split; [eapply abbr_not_found; eassumption|].
  apply (name_found short (firstn 3 (codes w))); trivial.
  apply orb_true_iff in K2. destruct K2 as [K2|K2]; [|trivial].
  exfalso. apply N. exists [], s. split; [reflexivity|]. apply Nat.leb_le in K2.
  now rewrite skipn_all2 by lia.
Qed.
Lemma month_short u w v s : In (w, v) month_names -> spelled u (firstn 3 (codes w)) -> ~ completes (codes w) s ->
  (one_of_loop long_months 0 (u ++ s) = None /\ one_of_loop short_months 0 (u ++ s) = Some (v, s)) /\ 1 <= v <= 12.
Proof.
  intros I H N. split.
  - apply (abbr_found long_months short_months month_names w); trivial; vm_compute; reflexivity.
  - apply (in_check (fun x => (1 <=? snd x) && (snd x <=? 12)) month_names) in I; [|vm_compute; reflexivity].
    cbn in I. lia.
Qed.
Lemma day_long u w v s : In (w, v) day_names -> spelled u (codes w) ->
  one_of_loop long_days 0 (u ++ s) = Some (v, s) /\ 0 <= v <= 6.
Proof.
  intros I H. split.
  - apply (name_found long_days (codes w)); [vm_compute; reflexivity| |trivial].
    apply (in_check (fun x => has_name long_days (codes (fst x)) (snd x)) day_names (w, v)); [vm_compute; reflexivity|trivial].
  - apply (in_check (fun x => (0 <=? snd x) && (snd x <=? 6)) day_names) in I; [|vm_compute; reflexivity].
    cbn in I. lia.
Qed.
Lemma day_short u w v s : In (w, v) day_names -> spelled u (firstn 3 (codes w)) -> ~ completes (codes w) s ->
  (one_of_loop long_days 0 (u ++ s) = None /\ one_of_loop short_days 0 (u ++ s) = Some (v, s)) /\ 0 <= v <= 6.
Proof.
  intros I H N. split.
  - apply (abbr_found long_days short_days day_names w); trivial; vm_compute; reflexivity.
  - apply (in_check (fun x => (0 <=? snd x) && (snd x <=? 6)) day_names) in I; [|vm_compute; reflexivity].
    cbn in I. lia.
Qed.
Lemma ampm_found u w v s : In (w, v) ampm_names -> spelled u (codes w) ->
  one_of_loop am_pm_names 0 (u ++ s) = Some (v, s) /\ (v = 0 \/ v = 1).
Proof.
  intros I H. split.
  - apply (name_found am_pm_names (codes w)); [vm_compute; reflexivity| |trivial].
    apply (in_check (fun x => has_name am_pm_names (codes (fst x)) (snd x)) ampm_names (w, v)); [vm_compute; reflexivity|trivial].
  - apply (in_check (fun x => (snd x =? 0) || (snd x =? 1)) ampm_names) in I; [|vm_compute; reflexivity].
    cbn in I. lia.
Qed.

(** ** Values *)
Lemma part_eqb_spec a b : part_eqb a b = true <-> a = b.
Proof. destruct a, b; cbn; split; congruence. Qed.
Lemma value_app vs p v q : value (vs ++ [(p, v)]) q
  = match value vs q with Some x => Some x | None => if part_eqb q p then Some v else None end.
Proof.
  unfold value. induction vs as [|[a x] vs IH]; cbn [app find fst].
  - destruct (part_eqb q p); reflexivity.
  - destruct (part_eqb q a); [reflexivity|exact IH].
Qed.
Lemma value_none vs p : ~ In p (map fst vs) -> value vs p = None.
Proof.
  unfold value. induction vs as [|[a x] vs IH]; cbn; [trivial|]. intros H.
  destruct (part_eqb p a) eqn:E; [apply part_eqb_spec in E; subst; tauto|]. apply IH. tauto.
Qed.
Lemma value_new vs p l : ~ In p (map fst vs ++ l) -> value vs p = None.
Proof. intros H. apply value_none. intros I. apply H, in_or_app. now left. Qed.
Lemma value_some vs p : In p (map fst vs) -> exists v, value vs p = Some v.
Proof.
  unfold value. induction vs as [|[a x] vs IH]; cbn; [tauto|]. intros H.
  destruct (part_eqb p a) eqn:E; [cbn; eauto|]. apply IH. destruct H as [->|]; [|trivial].
  assert (part_eqb p p = true) by now apply part_eqb_spec. congruence.
Qed.
Lemma part_dec (a b : part) : {a = b} + {a <> b}.
Proof. decide equality. Defined.
Lemma value_in vs p v : value vs p = Some v -> In p (map fst vs).
Proof.
  intros H. destruct (in_dec part_dec p (map fst vs)) as [I|N]; [trivial|].
  apply value_none in N. congruence.
Qed.
Lemma has_app ps qs p : has (ps ++ qs) p = has ps p || has qs p.
Proof. unfold has. apply existsb_app. Qed.

Section Reader.
Variable D : Type.
Variable scan_double : list Z -> outcome D.
Variable in_unit : D -> bool.
Variable time_get : list Z -> list Z -> option (tmv * list Z).
Variable decimal_point : Z.
Variable r : src.
Variable cf : FormatModel.config.
Variable t : target.
(** Is the 'L' flag given? *)
Variable lo : bool.
Notation step := (rd_step D scan_double in_unit time_get decimal_point r cf t).
Notation basic_step := (rd_basic D scan_double in_unit time_get decimal_point r cf t).
Notation rstate := (rstate D).

Definition direct (f : field) : option part :=
  match f with
  | Sec => Some PSec | Min => Some PMin | Hour => None | Mday => Some PMday | Mon => Some PMon
  | Year => Some PYear | Wday => Some PWday | Yday => Some PYday | Tz => Some PTz
  end.
Section Texts.
Variable xs : texts.
Record sim (vs : values) (st : rstate) : Prop := Sim {
  sim_err : rs_err D st = None;
  sim_loc : rs_loc D st = lo;
  sim_set : forall p, (p = PTz -> t = Components) -> rs_set D st (flag_of p) = has (map fst vs ++ map fst xs) p;
  sim_zone : t <> Components -> rs_set D st FTzoff = false;
  sim_int : forall f p, direct f = Some p ->
              rs_int D st f = option_map (fun v => v - offset t f) (value vs p);
  sim_hour : rs_int D st Hour = match value vs PHour24 with Some h => Some h | None => value vs PHour12 end;
  sim_short : forall y, value vs PShortYear = Some y -> rs_short D st = y;
  sim_cent : forall y, value vs PCentury = Some y -> rs_cent D st = y;
  sim_pm : forall v, value vs PAmPm = Some v -> rs_pm D st = (v =? 1);
  sim_sub : match text_of xs PSubsec with
            | Some fr => exists d, scan_double (48 :: 46 :: fr) = Ok d /\ rs_subsec D st = Some d
            | None => rs_subsec D st = None
            end;
  sim_tzn : rs_tzname D st = text_of xs PTzName }.

Lemma sim_src vs s st : sim vs st -> sim vs (with_src D s st).
Proof. intros []. now constructor. Qed.
Lemma sim_unset vs p st : sim vs st -> ~ In p (map fst vs ++ map fst xs) -> (p = PTz -> t = Components) ->
  rs_set D st (flag_of p) = false.
Proof.
  intros S0 N Hp. rewrite (sim_set _ _ S0 p Hp). unfold has.
  destruct (existsb _ _) eqn:E; [|trivial]. apply existsb_exists in E. destruct E as (q & I & Q).
  apply part_eqb_spec in Q. subst. contradiction.
Qed.
Lemma set_flag_new fl st : rs_set D st fl = false ->
  set_flag D fl st = with_set D (mark fl (rs_set D st)) st.
Proof. intros H. unfold set_flag. now rewrite H. Qed.
Lemma mark_has vs p v q st : sim vs st -> (q = PTz -> t = Components) ->
  mark (flag_of p) (rs_set D st) (flag_of q) = has (map fst (vs ++ [(p, v)]) ++ map fst xs) q.
Proof.
  intros S0 Hq. unfold mark. rewrite (sim_set _ _ S0 q Hq), map_app, !has_app. cbn [map fst has existsb].
  assert (F : flag_eqb (flag_of p) (flag_of q) = part_eqb q p).
  { destruct (part_eqb q p) eqn:E.
    - apply part_eqb_spec in E. subst. now apply flag_eqb_spec.
    - destruct (flag_eqb _ _) eqn:F; [|trivial]. apply flag_eqb_spec, flag_of_inj in F. subst.
      assert (part_eqb q q = true) by now apply part_eqb_spec. congruence. }
  rewrite F. destruct (part_eqb q p), (has (map fst vs) q), (has (map fst xs) q); reflexivity.
Qed.
Lemma has_ext_tz (vs : values) v q : q <> PTz -> has (map fst (vs ++ [(PTz, v)]) ++ map fst xs) q = has (map fst vs ++ map fst xs) q.
Proof.
  intros N. rewrite map_app, !has_app. cbn. destruct q; cbn; rewrite ?orb_false_r; congruence.
Qed.
Lemma zone_mark vs p st : sim vs st -> (p = PTz -> t = Components) -> t <> Components ->
  mark (flag_of p) (rs_set D st) FTzoff = false.
Proof.
  intros S0 Hp Ht. unfold mark. rewrite (sim_zone _ _ S0 Ht), orb_false_r. destruct p; try reflexivity. destruct (Ht (Hp eq_refl)).
Qed.
Lemma sim_put vs f p v st : sim vs st -> direct f = Some p -> value vs p = None -> (p = PTz -> t = Components) ->
  sim (vs ++ [(p, v)]) (with_set D (mark (flag_of p) (rs_set D st)) (with_int D f (v - offset t f) st)).
Proof.
  intros S0 Df Vn Hz. pose proof S0 as [E L Se Zo In0 H Sh Ce Pm Su Tn].
  constructor; trivial.
  - intros q Hq. cbn [rs_set with_set]. now apply mark_has.
  - intros Ht. cbn [rs_set with_set]. eapply zone_mark; eassumption.
  - intros g q Dg. cbn. destruct (field_eqb f g) eqn:Efg.
    + assert (q = p) by (destruct f, g; cbn in *; congruence). assert (g = f) by (destruct f, g; cbn in *; congruence).
      subst. rewrite value_app, Vn. assert (part_eqb p p = true) by now apply part_eqb_spec.
      now rewrite H0.
    + assert (q <> p) by (intros ->; destruct f, g; cbn in *; congruence).
      rewrite (In0 g q Dg), value_app. destruct (value vs q); [trivial|].
      destruct (part_eqb q p) eqn:X; [apply part_eqb_spec in X; contradiction|trivial].
  - cbn. rewrite !value_app. destruct f; try discriminate; injection Df as <-; cbn in *; rewrite H;
      destruct (value vs PHour24), (value vs PHour12); trivial.
  - intros y. rewrite value_app. cbn. destruct (value vs PShortYear) eqn:X; [intros Y; apply Sh; congruence|].
    destruct f; try discriminate; injection Df as <-; discriminate.
  - intros y. rewrite value_app. cbn. destruct (value vs PCentury) eqn:X; [intros Y; apply Ce; congruence|].
    destruct f; try discriminate; injection Df as <-; discriminate.
  - intros y. rewrite value_app. cbn. destruct (value vs PAmPm) eqn:X; [intros Y; apply Pm; congruence|].
    destruct f; try discriminate; injection Df as <-; discriminate.
Qed.
Lemma sim_ranged vs f p low hi v st : sim vs st -> direct f = Some p -> value vs p = None ->
  ~ In p (map fst vs ++ map fst xs) -> p <> PTz -> low <= v <= hi -> 
  sim (vs ++ [(p, v)]) (set_ranged D f (flag_of p) low hi (offset t f) v st).
Proof.
  intros S0 Df Vn N Np Hv. unfold set_ranged.
  rewrite (proj2 (Z.ltb_ge v low)), (proj2 (Z.ltb_ge hi v)) by lia. cbn [orb].
  rewrite set_flag_new; [exact (sim_put vs f p v st S0 Df Vn ltac:(congruence))|]. cbn. eapply sim_unset; [eassumption|trivial|]. congruence.
Qed.
(** The other parts *)
Lemma sim_hour_put vs p v st : sim vs st -> (p = PHour24 \/ p = PHour12) ->
  value vs PHour24 = None -> value vs PHour12 = None ->
  sim (vs ++ [(p, v)]) (with_set D (mark (flag_of p) (rs_set D st)) (with_int D Hour v st)).
Proof.
  intros S0 Hp V1 V2. pose proof S0 as [E L Se Zo In0 H Sh Ce Pm Su Tn].
  constructor; trivial.
  - intros q Hq. cbn [rs_set with_set]. now apply mark_has.
  - intros Ht. cbn [rs_set with_set]. eapply zone_mark; [eassumption|destruct Hp; congruence|trivial].
  - intros g q Dg. cbn. assert (field_eqb Hour g = false) by (destruct g; cbn in *; congruence).
    destruct g; try discriminate; rewrite (In0 _ q Dg), value_app; destruct (value vs q); trivial;
      injection Dg as <-; destruct Hp; subst; reflexivity.
  - cbn. rewrite !value_app, V1, V2. destruct Hp; subst; reflexivity.
  - intros y. rewrite value_app. cbn. destruct (value vs PShortYear) eqn:X; [intros Y; apply Sh; congruence|].
    destruct Hp; subst; discriminate.
  - intros y. rewrite value_app. cbn. destruct (value vs PCentury) eqn:X; [intros Y; apply Ce; congruence|].
    destruct Hp; subst; discriminate.
  - intros y. rewrite value_app. cbn. destruct (value vs PAmPm) eqn:X; [intros Y; apply Pm; congruence|].
    destruct Hp; subst; discriminate.
Qed.
Lemma sim_other vs p v st st' : sim vs st -> value vs p = None ->
  (p = PShortYear \/ p = PCentury \/ p = PAmPm) ->
  rs_err D st' = None -> rs_loc D st' = lo -> rs_set D st' = mark (flag_of p) (rs_set D st) ->
  rs_int D st' = rs_int D st -> rs_subsec D st' = rs_subsec D st -> rs_tzname D st' = rs_tzname D st ->
  rs_short D st' = (match p with PShortYear => v | _ => rs_short D st end) ->
  rs_cent D st' = (match p with PCentury => v | _ => rs_cent D st end) ->
  rs_pm D st' = (match p with PAmPm => v =? 1 | _ => rs_pm D st end) ->
  sim (vs ++ [(p, v)]) st'.
Proof.
  intros S0 Vn Hp E' L' Se' I' Su' Tn' Sh' Ce' Pm'. pose proof S0 as [E L Se Zo In0 H Sh Ce Pm Su Tn].
  constructor; trivial.
  - intros q Hq. rewrite Se'. now apply mark_has.
  - intros Ht. rewrite Se'. eapply zone_mark; [eassumption|destruct Hp as [->|[->| ->]]; congruence|trivial].
  - intros g q Dg. rewrite I', (In0 g q Dg), value_app. destruct (value vs q); [trivial|].
    destruct g; try discriminate; injection Dg as <-; destruct Hp as [->|[->| ->]]; reflexivity.
  - rewrite I', H, !value_app. destruct (value vs PHour24), (value vs PHour12); trivial;
      destruct Hp as [->|[->| ->]]; reflexivity.
  - intros y. rewrite value_app, Sh'. destruct Hp as [->|[->| ->]]; cbn; rewrite ?Vn;
      try (destruct (value vs PShortYear); [|discriminate]; intros Y; apply Sh; trivial; fail).
    congruence.
  - intros y. rewrite value_app, Ce'. destruct Hp as [->|[->| ->]]; cbn; rewrite ?Vn;
      try (destruct (value vs PCentury); [|discriminate]; intros Y; apply Ce; trivial; fail).
    congruence.
  - intros y. rewrite value_app, Pm'. destruct Hp as [->|[->| ->]]; cbn; rewrite ?Vn;
      try (destruct (value vs PAmPm); [|discriminate]; intros Y; apply Pm; trivial; fail).
    congruence.
  - rewrite Su'. exact Su.
  - rewrite Tn'. exact Tn.
Qed.
Lemma sim_tz vs v st : sim vs st -> value vs PTz = None -> ~ In PTz (map fst vs ++ map fst xs) ->
  sim (vs ++ [(PTz, v)]) (set_tz_offset D t v st).
Proof.
  intros S0 Vn N. unfold set_tz_offset.
  assert (G : t <> Components -> sim (vs ++ [(PTz, v)]) (with_int D Tz v st)).
  { intros Ht. pose proof S0 as [E L Se Zo In0 H Sh Ce Pm Su Tn].
    constructor; trivial.
    - intros q Hq. cbn [rs_set with_int]. destruct (part_eqb q PTz) eqn:X.
      { apply part_eqb_spec in X. destruct (Ht (Hq X)). }
      rewrite has_ext_tz; [auto|]. intros ->. discriminate.
    - intros g q Dg. pose proof (In0 g q Dg) as K.
      destruct g; try discriminate Dg; injection Dg as <-; cbn [rs_int with_int field_eqb]; rewrite ?K, value_app;
        try (match goal with |- context [value vs ?q] => destruct (value vs q) end; reflexivity).
      rewrite Vn. cbn. f_equal. destruct t; cbn; lia.
    - cbn. rewrite H, !value_app. destruct (value vs PHour24), (value vs PHour12); reflexivity.
    - intros y. rewrite value_app. cbn. destruct (value vs PShortYear) eqn:X; [intros Y; apply Sh; congruence|discriminate].
    - intros y. rewrite value_app. cbn. destruct (value vs PCentury) eqn:X; [intros Y; apply Ce; congruence|discriminate].
    - intros y. rewrite value_app. cbn. destruct (value vs PAmPm) eqn:X; [intros Y; apply Pm; congruence|discriminate]. }
  destruct t eqn:Et; try (apply G; discriminate).
  rewrite set_flag_new.
  - pose proof (sim_put vs Tz PTz v st S0 eq_refl Vn (fun _ => Et)) as P. rewrite Et in P. cbn [offset] in P.
    rewrite Z.sub_0_r in P. exact P.
  - cbn. apply (sim_unset vs PTz); trivial.
Qed.

(** ** One step of the reader *)
Definition good (ev : event) : Prop :=
  match ev with OnConv Dec1Weekday _ => False | _ => lo = true -> same_in_locales ev end.
Definition one_clock (ps : list part) : Prop := ~ (In PHour24 ps /\ In PHour12 ps).

Lemma text_read u : forall s st, rs_src D st = u ++ s -> 
  exists st', rd_text D u st = st' /\ rs_src D st' = s /\ forall vs, sim vs st -> sim vs st'.
Proof.
  induction u as [|c u IH]; intros s st E; cbn [rd_text].
  - exists st. auto.
  - rewrite E. cbn [app]. rewrite Z.eqb_refl. destruct (IH s (with_src D (u ++ s) st) eq_refl) as (st' & E' & S' & H).
    exists st'. split; [exact E'|]. split; [trivial|]. intros vs S0. apply H. now apply sim_src.
Qed.
Lemma int_read low hi u s st : rs_src D st = u ++ s -> Forall digit u -> (low <= length u <= hi)%nat ->
  (length u = hi \/ no_digit_next s) -> read_int D low hi st = (decimal u, with_src D s st).
Proof.
  intros E Hu Hl Hn. unfold read_int. rewrite E, (read_digits_text hi u 0 s Hu) by (lia || trivial).
  destruct (Nat.ltb_spec (length u) low); [lia|]. reflexivity.
Qed.
Lemma number_read low hi u s st set : rs_src D st = u ++ s -> Forall digit u -> (low <= length u <= hi)%nat ->
  (length u = hi \/ no_digit_next s) -> number D low hi set st = Ok (set (decimal u) (with_src D s st)).
Proof. intros. unfold number. now erewrite int_read by eassumption. Qed.
Lemma set_src f fl low hi off v st : rs_src D (set_ranged D f fl low hi off v st) = rs_src D st.
Proof.
  unfold set_ranged, set_flag. destruct (_ || _); [reflexivity|]. cbn.
  destruct (rs_set D st fl); reflexivity.
Qed.
Lemma flag_src fl st : rs_src D (set_flag D fl st) = rs_src D st.
Proof. unfold set_flag. destruct (rs_set D st fl); reflexivity. Qed.
Lemma sim_hour_set vs p low hi v st : sim vs st -> (p = PHour24 \/ p = PHour12) ->
  one_clock (map fst vs ++ [p]) -> ~ In p (map fst vs ++ map fst xs) -> low <= v <= hi ->
  sim (vs ++ [(p, v)]) (set_ranged D Hour (flag_of p) low hi 0 v st).
Proof.
  intros S0 Hp Oc N Hv. unfold set_ranged.
  rewrite (proj2 (Z.ltb_ge v low)), (proj2 (Z.ltb_ge hi v)) by lia. cbn [orb].
  rewrite set_flag_new.
  - rewrite Z.sub_0_r.
    refine (sim_hour_put vs p v st S0 Hp _ _); apply value_none; intros I; destruct Hp; subst p;
      first [apply N, in_or_app; now left | apply Oc; rewrite !in_app_iff; cbn; tauto].
  - cbn. eapply sim_unset; [eassumption|trivial|]. destruct Hp; congruence.
Qed.
Lemma named_read long short set u s st v : rs_src D st = u ++ s ->
  (one_of_loop long 0 (u ++ s) = Some (v, s) \/
   one_of_loop long 0 (u ++ s) = None /\ one_of_loop short 0 (u ++ s) = Some (v, s)) ->
  named D long short set st = set v (with_src D s st).
Proof.
  intros E H. unfold named, try_one_of. rewrite E. destruct H as [->|[-> H]]; [reflexivity|].
  rewrite E, H. reflexivity.
Qed.
Lemma alt_false sys st : rs_loc D st = lo -> (lo = true -> sys = Std) -> alt D sys st = false.
Proof. intros H Hs. unfold alt. rewrite H. destruct lo; [now rewrite Hs|reflexivity]. Qed.
Lemma year_set vs v st : sim vs st -> ~ In PYear (map fst vs ++ map fst xs) -> 0 <= v ->
  sim (vs ++ [(PYear, v)]) (set_full_year D t v st) /\ rs_src D (set_full_year D t v st) = rs_src D st.
Proof.
  intros S0 N Hv.
  assert (G : sim (vs ++ [(PYear, v)]) (set_flag D FFullYear (with_int D Year (v - offset t Year) st))).
  { rewrite set_flag_new; [exact (sim_put vs Year PYear v st S0 eq_refl (value_new _ _ _ N) ltac:(discriminate))|].
    cbn. apply (sim_unset vs PYear st S0 N). discriminate. }
  unfold set_full_year. destruct t; cbn [offset] in G; rewrite ?Z.sub_0_r in G;
    try (destruct (Z.ltb_spec v (- 2 ^ 31 + 1900)); [lia|]); (split; [exact G|now rewrite flag_src]).
Qed.

Lemma zone_src v st : rs_src D (set_tz_offset D t v st) = rs_src D st.
Proof. unfold set_tz_offset. destruct t; rewrite ?flag_src; reflexivity. Qed.
Lemma digit_first (h : list Z) : Forall digit h -> length h = 2%nat -> exists a b, h = [a; b] /\ digit a /\ digit b.
Proof.
  intros F L. destruct h as [|a [|b [|]]]; try discriminate. exists a, b.
  inversion F as [|? ? A F2]; inversion F2; subst. auto.
Qed.
(** After the sign *)
Lemma zone_read sys sign h rest s m st : (sign = [] \/ sign = [43] \/ sign = [45]) ->
  Forall digit h -> length h = 2%nat -> rs_src D st = sign ++ h ++ rest ->
  ((exists colon mm, (colon = [] \/ colon = [58]) /\ Forall digit mm /\ length mm = 2%nat /\
      (sys = Std \/ colon = [58]) /\ rest = colon ++ mm ++ s /\ m = decimal mm)
   \/ match rest with [] => True | c :: _ => ~ digit c /\ c <> 58 end /\ rest = s /\ m = 0) ->
  rd_tz_offset D t sys st
  = set_tz_offset D t ((if (match sign with [45] => true | _ => false end) then -1 else 1) * (decimal h * 60 + m))
      (with_src D s st).
Proof.
  intros Hs Hh Lh E Hr. unfold rd_tz_offset. rewrite E.
  destruct (digit_first h Hh Lh) as (a & b & -> & Ha & Hb).
  assert (N : (a =? 43) || (a =? 45) = false) by (unfold digit in Ha; lia).
  assert (N45 : (a =? 45) = false) by (unfold digit in Ha; lia).
  assert (G : forall minus st1, rs_src D st1 = [a; b] ++ rest -> with_src D s st1 = with_src D s st ->
     match rs_src D st1 with
     | [] => set_error D EndOfInput st1
     | _ =>
         let '(hour, st) := match sys with Std => read_int D 2 2 st1 | _ => read_int D 1 2 st1 end in
          let '(minute, st) :=
            match rs_src D st with
            | [] => (0, st)
            | c1 :: s1 =>
                let colon := c1 =? 58 in
                let after := if colon then s1 else c1 :: s1 in
                if negb colon && match sys with Std => false | _ => true end then (0, st)
                else match after with
                     | [] => (0, st)
                     | c2 :: _ => if ChronoModel.is_digit c2 then read_int D 2 2 (with_src D after st) else (0, st)
                     end
            end in
          set_tz_offset D t ((if minus : bool then -1 else 1) * (hour * 60 + minute)) st
     end = set_tz_offset D t ((if minus then -1 else 1) * (decimal [a; b] * 60 + m)) (with_src D s st)).
  { intros minus st1 E1 Ew. rewrite E1. cbn [app].
    assert (R : match sys with Std => read_int D 2 2 st1 | _ => read_int D 1 2 st1 end
                = (decimal [a; b], with_src D rest st1)).
    { destruct sys; apply (int_read _ _ [a; b]); trivial; cbn; try lia; now left. }
    rewrite R. clear R. cbn [rs_src with_src].
    destruct Hr as [(colon & mm & Hc & Hm & Lm & Hsys & -> & ->)|(Hn & -> & ->)].
    - destruct (digit_first mm Hm Lm) as (x & y & -> & Hx & Hy).
      assert (Dx : ChronoModel.is_digit x = true) by (unfold ChronoModel.is_digit, digit in *; lia).
      destruct Hc as [->| ->]; cbn [app].
      + destruct Hsys as [->|?]; [|discriminate]. assert (X : (x =? 58) = false) by (unfold digit in Hx; lia).
        rewrite X. cbn [negb andb]. rewrite Dx.
        rewrite (int_read 2 2 [x; y] s) by (trivial; cbn; try lia; now left).
        now rewrite <- Ew.
      + cbn [Z.eqb Pos.eqb negb andb]. rewrite Dx.
        rewrite (int_read 2 2 [x; y] s) by (trivial; cbn; try lia; now left).
        now rewrite <- Ew.
    - destruct s as [|c s]; [now rewrite <- Ew|]. destruct Hn as [Hd H58].
      apply Z.eqb_neq in H58. rewrite H58. cbn [negb andb].
      assert (Dc : ChronoModel.is_digit c = false) by (unfold ChronoModel.is_digit, digit in *; lia).
      rewrite Dc. destruct sys; now rewrite <- Ew. }
  destruct Hs as [->|[->| ->]]; cbn [app].
  - rewrite N, N45. apply (G false st); [exact E|reflexivity].
  - cbn [Z.eqb Pos.eqb orb]. apply (G false); reflexivity.
  - cbn [Z.eqb Pos.eqb orb]. apply (G true); reflexivity.
Qed.

Lemma step_shows s ev u ws vs st : s_enc r <> U16 -> units (s_enc r) (u ++ s) -> rs_src D st = u ++ s ->
  sim vs st -> shows s ev u ws -> good ev -> Forall (good_value t) ws ->
  NoDup (map fst (vs ++ ws) ++ map fst xs) -> one_clock (map fst (vs ++ ws)) ->
  exists st', step ev st = Ok st' /\ rs_src D st' = s /\ sim (vs ++ ws) st'.
Proof.
  intros He Hb E S0 Sh G Gv Nd Oc.
  assert (Lo : rs_loc D st = lo) by apply S0.
  assert (New : forall p v, ws = [(p, v)] -> ~ In p (map fst vs ++ map fst xs)).
  { intros p v ->. rewrite map_app, <- app_assoc in Nd. cbn [map fst app] in Nd. now apply NoDup_remove_2 in Nd. }
  assert (Named : forall c sys, ev = OnConv c sys -> In c [MonthName; WeekdayName] -> lo = false).
  { intros c sys -> Ic. destruct lo eqn:El; [exfalso|reflexivity]. destruct c; cbn in Ic; try (intuition discriminate);
      cbn in G; destruct (G El) as [_ X]; apply X; cbn; tauto. }
  inversion Sh; subst.
  - (* text *)
    destruct (text_read u s st E) as (st' & Et & Es & H). exists st'. cbn. rewrite Et, app_nil_r. auto.
  - (* white space *)
    cbn. unfold rd_whitespace. rewrite E, (skip_ascii r u s true) by auto.
    eexists. split; [reflexivity|]. split; [reflexivity|]. rewrite app_nil_r. now apply sim_src.
  - (* numbers *)
    pose proof (New _ _ eq_refl) as N. clear New Sh.
    assert (S1 := sim_src _ s _ S0).
    assert (Vn := value_new _ _ _ N).
    destruct c; try discriminate H; injection H as <- <- <- <- <-;
      try contradiction G; cbn [rd_step rd_basic part_value] in *;
      rewrite ?alt_false by (exact Lo || (intros El; destruct (G El) as [[X|X] _]; [exact X|discriminate X]));
      erewrite number_read by eassumption;
      (eexists; split; [reflexivity|]);
      try (split; [apply set_src|];
           match goal with
           | |- context [set_mon] => unfold set_mon; replace (match t with Components => 0 | _ => 1 end) with (offset t Mon) by (destruct t; reflexivity)
           | |- context [set_yday] => unfold set_yday
           | |- context [set_mday] => unfold set_mday
           | |- context [set_wday] => unfold set_wday
           | |- context [set_hour24] => unfold set_hour24
           | |- context [set_hour12] => unfold set_hour12
           | |- context [set_min] => unfold set_min
           | |- context [set_sec] => unfold set_sec
           end).
    + destruct (year_set vs (decimal u) (with_src D s st) S1 N) as [A B]; [lia|]. rewrite B. auto.
    + (* short year *)
      inversion Gv as [|? ? Gx _]; subst. unfold good_value in Gx. cbn in Gx. unfold set_short_year.
      assert (Ht : t <> Components) by (intros Ht; destruct (Gx Ht) as (_ & X & _); now apply X).
      assert (R : sim (vs ++ [(PShortYear, decimal u)])
                    (set_flag D FShortYear (with_years D (decimal u) (rs_cent D (with_src D s st)) (with_src D s st)))
                  /\ rs_src D (set_flag D FShortYear (with_years D (decimal u) (rs_cent D (with_src D s st)) (with_src D s st))) = s).
      { rewrite set_flag_new.
        - split; [|reflexivity]. apply (sim_other vs PShortYear (decimal u) (with_src D s st)); auto; try apply S1.
        - cbn. apply (sim_unset vs PShortYear st S0 N). discriminate. }
      destruct t; try congruence; rewrite (proj2 (Z.ltb_ge _ 0)), (proj2 (Z.ltb_ge 99 _)) by lia; cbn [orb]; tauto.
    + (* century *)
      inversion Gv as [|? ? Gx _]; subst. unfold good_value in Gx. cbn in Gx. unfold set_century.
      assert (Ht : t <> Components) by (intros Ht; destruct (Gx Ht) as (X & _); now apply X).
      rewrite Z.mod_small by lia.
      assert (R : sim (vs ++ [(PCentury, decimal u)])
                    (set_flag D FCentury (with_years D (rs_short D (with_src D s st)) (decimal u) (with_src D s st)))
                  /\ rs_src D (set_flag D FCentury (with_years D (rs_short D (with_src D s st)) (decimal u) (with_src D s st))) = s).
      { rewrite set_flag_new.
        - split; [|reflexivity]. apply (sim_other vs PCentury (decimal u) (with_src D s st)); auto; try apply S1.
        - cbn. apply (sim_unset vs PCentury st S0 N). discriminate. }
      destruct t; try congruence; tauto.
    + apply (sim_ranged vs Mon PMon); auto; discriminate.
    + inversion Gv as [|? ? Gx _]; subst. unfold good_value in Gx. cbn in Gx.
      pose proof (sim_ranged vs Yday PYday 0 (match t with Components => 6 | _ => 365 end) (decimal u - 1)
        (with_src D s st) S1 eq_refl Vn N ltac:(discriminate)) as R.
      replace (offset t Yday) with 0 in R by (destruct t; reflexivity). apply R.
      destruct t; try lia. destruct (Gx eq_refl) as (_ & _ & X). specialize (X eq_refl). lia.
    + pose proof (sim_ranged vs Mday PMday 1 31 (decimal u) (with_src D s st) S1 eq_refl Vn N ltac:(discriminate)) as R.
      replace (offset t Mday) with 0 in R by (destruct t; reflexivity). now apply R.
    + pose proof (sim_ranged vs Wday PWday 0 6 (decimal u) (with_src D s st) S1 eq_refl Vn N ltac:(discriminate)) as R.
      replace (offset t Wday) with 0 in R by (destruct t; reflexivity). now apply R.
    + rewrite map_app in Oc. apply (sim_hour_set vs PHour24); auto.
    + rewrite map_app in Oc. apply (sim_hour_set vs PHour12); auto.
    + pose proof (sim_ranged vs Min PMin 0 59 (decimal u) (with_src D s st) S1 eq_refl Vn N ltac:(discriminate)) as R.
      replace (offset t Min) with 0 in R by (destruct t; reflexivity). now apply R.
    + pose proof (sim_ranged vs Sec PSec 0 60 (decimal u) (with_src D s st) S1 eq_refl Vn N ltac:(discriminate)) as R.
      replace (offset t Sec) with 0 in R by (destruct t; reflexivity). now apply R.
  - (* month names *)
    pose proof (New _ _ eq_refl) as N. assert (S1 := sim_src _ s _ S0). assert (Vn := value_new _ _ _ N).
    destruct (month_long u w v s) as [F R]; trivial.
    cbn [rd_step rd_basic]. rewrite Lo, (Named _ _ eq_refl) by (cbn; tauto). rewrite (named_read _ _ _ u s st v) by auto.
    eexists. split; [reflexivity|]. split; [apply set_src|]. unfold set_mon.
    replace (match t with Components => 0 | _ => 1 end) with (offset t Mon) by (destruct t; reflexivity).
    apply (sim_ranged vs Mon PMon); auto; discriminate.
  - pose proof (New _ _ eq_refl) as N. assert (S1 := sim_src _ s _ S0). assert (Vn := value_new _ _ _ N).
    destruct (month_short u w v s) as [F R]; trivial.
    cbn [rd_step rd_basic]. rewrite Lo, (Named _ _ eq_refl) by (cbn; tauto). rewrite (named_read _ _ _ u s st v) by auto.
    eexists. split; [reflexivity|]. split; [apply set_src|]. unfold set_mon.
    replace (match t with Components => 0 | _ => 1 end) with (offset t Mon) by (destruct t; reflexivity).
    apply (sim_ranged vs Mon PMon); auto; discriminate.
  - pose proof (New _ _ eq_refl) as N. assert (S1 := sim_src _ s _ S0). assert (Vn := value_new _ _ _ N).
    destruct (day_long u w v s) as [F R]; trivial.
    cbn [rd_step rd_basic]. rewrite Lo, (Named _ _ eq_refl) by (cbn; tauto). rewrite (named_read _ _ _ u s st v) by auto.
    eexists. split; [reflexivity|]. split; [apply set_src|]. unfold set_wday.
    pose proof (sim_ranged vs Wday PWday 0 6 v (with_src D s st) S1 eq_refl Vn N ltac:(discriminate)) as Q.
    replace (offset t Wday) with 0 in Q by (destruct t; reflexivity). now apply Q.
  - pose proof (New _ _ eq_refl) as N. assert (S1 := sim_src _ s _ S0). assert (Vn := value_new _ _ _ N).
    destruct (day_short u w v s) as [F R]; trivial.
    cbn [rd_step rd_basic]. rewrite Lo, (Named _ _ eq_refl) by (cbn; tauto). rewrite (named_read _ _ _ u s st v) by auto.
    eexists. split; [reflexivity|]. split; [apply set_src|]. unfold set_wday.
    pose proof (sim_ranged vs Wday PWday 0 6 v (with_src D s st) S1 eq_refl Vn N ltac:(discriminate)) as Q.
    replace (offset t Wday) with 0 in Q by (destruct t; reflexivity). now apply Q.
  - (* am and pm *)
    pose proof (New _ _ eq_refl) as N. assert (S1 := sim_src _ s _ S0). assert (Vn := value_new _ _ _ N).
    destruct (ampm_found u w v s) as [F R]; trivial.
    cbn [rd_step rd_basic]. unfold try_one_of. rewrite E, F.
    eexists. split; [reflexivity|]. rewrite flag_src. split; [reflexivity|].
    rewrite set_flag_new.
    + apply (sim_other vs PAmPm v (with_src D s st)); auto; try apply S1.
    + cbn. apply (sim_unset vs PAmPm st S0 N). discriminate.
  - (* zones *)
    pose proof (New _ _ eq_refl) as N. assert (S1 := sim_src _ s _ S0). assert (Vn := value_new _ _ _ N).
    cbn [rd_step rd_basic]. eexists. split; [reflexivity|].
    rewrite (zone_read sys sign h (colon ++ m ++ s) s (decimal m)); trivial.
    + rewrite zone_src. split; [reflexivity|]. now apply sim_tz.
    + rewrite E, <- !app_assoc. reflexivity.
    + left. exists colon, m. auto 10.
  - pose proof (New _ _ eq_refl) as N. assert (S1 := sim_src _ s _ S0). assert (Vn := value_new _ _ _ N).
    cbn [rd_step rd_basic]. eexists. split; [reflexivity|].
    rewrite (zone_read sys sign h s s 0); trivial.
    + rewrite zone_src, Z.add_0_r. split; [reflexivity|]. now apply sim_tz.
    + rewrite E, <- !app_assoc. reflexivity.
    + right. auto.
Qed.

End Texts.

Lemma units_tail e u s : units e (u ++ s) -> units e s.
Proof. destruct e; cbn; trivial; intros H; now apply Forall_app in H. Qed.
(** ** Text that is kept *)
Lemma text_app xs p u q : text_of (xs ++ [(p, u)]) q
  = match text_of xs q with Some x => Some x | None => if part_eqb q p then Some u else None end.
Proof.
  unfold text_of. induction xs as [|[a x] xs IH]; cbn [app find fst].
  - destruct (part_eqb q p); reflexivity.
  - destruct (part_eqb q a); [reflexivity|exact IH].
Qed.
Lemma text_none xs p : ~ In p (map fst xs) -> text_of xs p = None.
Proof.
  unfold text_of. induction xs as [|[a x] xs IH]; cbn; [trivial|]. intros H.
  destruct (part_eqb p a) eqn:E; [apply part_eqb_spec in E; subst; tauto|]. apply IH. tauto.
Qed.
Lemma sim_text xs vs p u st st' : sim xs vs st -> (p = PTzName \/ p = PSubsec) ->
  ~ In p (map fst vs ++ map fst xs) ->
  rs_err D st' = None -> rs_loc D st' = lo -> rs_set D st' = mark (flag_of p) (rs_set D st) ->
  rs_int D st' = rs_int D st -> rs_short D st' = rs_short D st -> rs_cent D st' = rs_cent D st -> rs_pm D st' = rs_pm D st ->
  match p with
  | PSubsec => exists d, scan_double (48 :: 46 :: u) = Ok d /\ rs_subsec D st' = Some d
  | _ => rs_subsec D st' = rs_subsec D st
  end ->
  rs_tzname D st' = (match p with PTzName => Some u | _ => rs_tzname D st end) ->
  sim (xs ++ [(p, u)]) vs st'.
Proof.
  intros S0 Hp N E' L' Se' I' Sh' Ce' Pm' Su' Tn'. pose proof S0 as [E L Se Zo In0 H Sh Ce Pm Su Tn].
  assert (Nx : text_of xs p = None) by (apply text_none; intros I; apply N, in_or_app; now right).
  constructor; trivial; try (rewrite ?Sh', ?Ce', ?Pm', ?I'; assumption).
  - intros q Hq. rewrite Se', map_app, app_assoc, has_app. cbn [map fst has existsb]. unfold mark.
    rewrite (Se q Hq), orb_false_r, orb_comm. f_equal.
    destruct (part_eqb q p) eqn:X.
    + apply part_eqb_spec in X. subst. now apply flag_eqb_spec.
    + destruct (flag_eqb _ _) eqn:F; [|trivial]. apply flag_eqb_spec, flag_of_inj in F. subst.
      assert (part_eqb q q = true) by now apply part_eqb_spec. congruence.
  - intros Ht. rewrite Se'. eapply zone_mark; [eassumption|destruct Hp; congruence|trivial].
  - rewrite text_app. destruct Hp as [->| ->]; cbn [part_eqb].
    + destruct (text_of xs PSubsec); [|congruence]. destruct Su as (d & A & B). exists d. split; [trivial|congruence].
    + rewrite Nx. exact Su'.
  - rewrite Tn', text_app. destruct Hp as [->| ->]; cbn [part_eqb].
    + now rewrite Nx.
    + rewrite Tn. destruct (text_of xs PTzName); reflexivity.
Qed.
Lemma decimal_nonneg u : Forall digit u -> 0 <= decimal u.
Proof.
  intros F. unfold decimal. enough (H : forall a, 0 <= a -> 0 <= fold_left (fun a c => a * 10 + (c - 48)) u a) by (apply H; lia).
  induction F as [|c u Hc F IH]; intros a Ha; cbn [fold_left]; [trivial|]. apply IH. unfold digit in Hc. lia.
Qed.
Lemma zone_items_char c : zone_char c <-> 0 <= c < 128 /\ in_items zone_items c = true.
Proof. unfold zone_char, zone_items, in_items, digit. cbn [existsb in_item]. lia. Qed.
Lemma digit_items_char c : digit c <-> 0 <= c < 128 /\ in_items digit_items c = true.
Proof. unfold digit_items, in_items, digit. cbn [existsb in_item]. lia. Qed.
Lemma scan_run items P fmt u s : good_src r -> FormatModel.c_enc cf = s_enc r -> ascii_items items -> no_crossing items ->
  fmt = render (s_enc r) [Field None (Some (set_desc items))] ->
  (forall c, P c <-> 0 <= c < 128 /\ in_items items c = true) -> existsb FormatSpecProofs.item_nonascii items = false ->
  u <> [] -> Forall P u -> not_next P s -> units (s_enc r) (u ++ s) -> scan_string r cf fmt (u ++ s) = Ok (u, s).
Proof.
  intros Hr Hcf Ha Hc Ef HP Hn Hu Fu Hs Hb. eapply scan_set; try eassumption.
  - eapply Forall_impl; [|exact Fu]. intros c. apply HP.
  - destruct s as [|c s]; [exact I|]. destruct Hs as [H0 Hc']. split; [trivial|].
    destruct (in_items items c) eqn:X; [|reflexivity]. exfalso. apply Hc', HP. split; [|trivial].
    split; [trivial|]. destruct (Z.ltb_spec c 128); [trivial|].
    assert (Y := StringProofs.item_bound items c Hn ltac:(trivial)). congruence.
Qed.
Lemma step_text s ev u ws ys xs vs st : s_enc r <> U16 -> units (s_enc r) (u ++ s) -> rs_src D st = u ++ s ->
  sim xs vs st -> shows_text s ev u ws ys -> good ev -> Forall (good_value t) ws ->
  Forall (good_text scan_double in_unit t) ys -> (ys <> [] -> good_src r /\ FormatModel.c_enc cf = s_enc r) ->
  NoDup (map fst (vs ++ ws) ++ map fst (xs ++ ys)) -> one_clock (map fst (vs ++ ws)) ->
  exists st', step ev st = Ok st' /\ rs_src D st' = s /\ sim (xs ++ ys) (vs ++ ws) st'.
Proof.
  intros He Hb E S0 Sh G Gv Gt Hc Nd Oc. inversion Sh; subst.
  - rewrite app_nil_r in *. eapply step_shows; eassumption.
  - (* zone *)
    destruct (Hc ltac:(discriminate)) as [Hr Hcf]. cbn [rd_step rd_basic]. unfold rd_tz_name. rewrite E.
    rewrite (scan_run zone_items zone_char) by (trivial; try apply ascii_items_zone; try apply zone_rendered; try apply zone_items_char; reflexivity).
    eexists. split; [reflexivity|]. split; [reflexivity|]. rewrite app_nil_r in *.
    assert (Ht : t <> Tm) by (inversion Gt as [|? ? [X _] _]; subst; now apply X).
    assert (N : ~ In PTzName (map fst vs ++ map fst xs)).
    { rewrite map_app, app_assoc in Nd. cbn [map fst] in Nd. apply NoDup_remove_2 in Nd. now rewrite app_nil_r in Nd. }
    apply sim_src. unfold set_tz_name. pose proof S0 as [Er L Se Zo In0 H' Sh' Ce Pm Su Tn].
    assert (Fl : set_flag D FTzname (with_tzname D u st) = with_set D (mark FTzname (rs_set D st)) (with_tzname D u st)).
    { rewrite (set_flag_new FTzname (with_tzname D u st)); [reflexivity|]. change (rs_set D st (flag_of PTzName) = false). apply (sim_unset xs vs PTzName st S0 N). discriminate. }
    assert (R : sim (xs ++ [(PTzName, u)]) vs (set_flag D FTzname (with_tzname D u st))).
    { rewrite Fl. apply (sim_text xs vs PTzName u st); auto. }
    destruct t; try congruence; exact R.
  - (* seconds *)
    destruct (Hc ltac:(discriminate)) as [Hr Hcf]. cbn [rd_step rd_basic]. unfold rd_subsecond.
    assert (Ey : (sec ++ 46 :: fr) ++ s = sec ++ 46 :: fr ++ s) by now rewrite <- app_assoc.
    rewrite Ey in *. rewrite (int_read 1 2 sec (46 :: fr ++ s)) by (trivial; right; cbn; unfold digit; lia).
    set (st1 := set_sec D (decimal sec) (with_src D (46 :: fr ++ s) st)).
    assert (D0 : 0 <= decimal sec) by now apply decimal_nonneg.
    assert (Nsub : ~ In PSubsec (map fst (vs ++ [(PSec, decimal sec)]) ++ map fst xs)).
    { rewrite (map_app fst xs), app_assoc in Nd. cbn [map fst] in Nd. apply NoDup_remove_2 in Nd. now rewrite app_nil_r in Nd. }
    assert (S1 : sim xs (vs ++ [(PSec, decimal sec)]) st1).
    { assert (N : ~ In PSec (map fst vs ++ map fst xs)).
      { rewrite map_app, (map_app fst xs), <- app_assoc in Nd. cbn [map fst app] in Nd. apply NoDup_remove_2 in Nd.
        rewrite app_assoc, in_app_iff in Nd. tauto. }
      pose proof (sim_ranged xs vs Sec PSec 0 60 (decimal sec) (with_src D (46 :: fr ++ s) st) (sim_src _ _ _ _ S0) eq_refl
        (value_new _ _ _ N) N ltac:(discriminate)) as R.
      replace (offset t Sec) with 0 in R by (destruct t; reflexivity). apply R. lia. }
    assert (Es1 : rs_src D st1 = 46 :: fr ++ s) by apply set_src.
    rewrite (alt_false sys st1) by (exact (sim_loc _ _ _ S1) || (intros El; destruct (G El) as [[X|X] _]; [exact X|discriminate X])).
    unfold consume_ch. rewrite Es1. cbn [Z.eqb Pos.eqb negb rs_src with_src].
    rewrite (scan_run digit_items digit) by
      (trivial; try apply ascii_items_digits; try apply digits_rendered; try apply digit_items_char; try reflexivity;
       apply units_tail in Hb; change (46 :: fr ++ s) with ([46] ++ fr ++ s) in Hb; now apply units_tail in Hb).
    rewrite app_length. destruct fr as [|f0 fr]; [congruence|].
    destruct (Nat.eqb_spec (length s) (length (f0 :: fr) + length s)) as [X|_]; [cbn in X; lia|].
    inversion Gt as [|? ? [_ Gx] _]; subst. destruct (Gx eq_refl) as (Ht & d & Ed & Hd). cbn [snd] in Ed.
    rewrite Ed. unfold set_subsec. rewrite Ht, Hd. eexists. split; [reflexivity|].
    rewrite flag_src. split; [reflexivity|].
    pose proof S1 as [Er L Se Zo In0 H' Sh' Ce Pm Su Tn].
    rewrite set_flag_new.
    + apply (sim_text xs _ PSubsec (f0 :: fr) st1); auto. exists d. auto.
    + change (rs_set D st1 (flag_of PSubsec) = false). apply (sim_unset xs _ PSubsec st1 S1 Nsub). discriminate.
Qed.

(** ** All steps *)
Lemma nodup_sub (a b : list part) : NoDup (a ++ b) -> NoDup a.
Proof. intros H. apply nodup_app in H. tauto. Qed.
Lemma clock_sub a b : one_clock (a ++ b) -> one_clock a.
Proof. unfold one_clock. rewrite !in_app_iff. tauto. Qed.
Lemma nodup_begin (a b c d : list part) : NoDup ((a ++ b) ++ (c ++ d)) -> NoDup (a ++ c).
Proof.
  intros H. rewrite !nodup_app in *. setoid_rewrite in_app_iff in H. intuition eauto.
Qed.
Definition usable (ys : texts) : Prop := ys <> [] -> good_src r /\ FormatModel.c_enc cf = s_enc r.
Lemma usable_app a b : usable (a ++ b) -> usable a /\ usable b.
Proof.
  unfold usable. intros H. split; intros N; apply H; intros X; apply app_eq_nil in X; tauto.
Qed.
Notation good_texts := (Forall (good_text scan_double in_unit t)).
Lemma fold_prints rest evs s ws ys : prints_text rest evs s ws ys -> s_enc r <> U16 -> units (s_enc r) s ->
  Forall good evs -> Forall (good_value t) ws -> good_texts ys -> usable ys -> forall vs xs st,
  NoDup (map fst (vs ++ ws) ++ map fst (xs ++ ys)) -> one_clock (map fst (vs ++ ws)) -> rs_src D st = s -> sim xs vs st ->
  exists st', fold_left (fun o ev => st <- o ;; step ev st) evs (Ok st) = Ok st'
    /\ rs_src D st' = rest /\ sim (xs ++ ys) (vs ++ ws) st'.
Proof.
  intros P He. induction P as [|ev evs u s ws ws' ys ys' Sh P IH]; intros Hb Hg Hv Gt Hu vs xs st Nd Oc Es S0.
  - exists st. rewrite !app_nil_r. auto.
  - inversion Hg; subst. apply Forall_app in Hv. destruct Hv as [Hv1 Hv2].
    apply Forall_app in Gt. destruct Gt as [Gt1 Gt2]. apply usable_app in Hu. destruct Hu as [Hu1 Hu2].
    rewrite (app_assoc vs ws), (app_assoc xs ys) in Nd. rewrite (app_assoc vs ws) in Oc. rewrite (app_assoc vs ws), (app_assoc xs ys).
    destruct (step_text s ev u ws ys xs vs st) as (st1 & E1 & Es1 & S1); trivial.
    + rewrite (map_app fst (vs ++ ws)), (map_app fst (xs ++ ys)) in Nd. now apply nodup_begin in Nd.
    + rewrite map_app in Oc. now apply clock_sub in Oc.
    + destruct (IH (units_tail _ _ _ Hb) ltac:(assumption) Hv2 Gt2 Hu2 _ _ _ Nd Oc Es1 S1) as (st' & E' & H).
      exists st'. split; [|exact H]. cbn [fold_left bind]. now rewrite E1.
Qed.
Lemma prints_split rest a : forall b s ws ys, prints_text rest (a ++ b) s ws ys ->
  exists s1 w1 w2 y1 y2, prints_text s1 a s w1 y1 /\ prints_text rest b s1 w2 y2 /\ ws = w1 ++ w2 /\ ys = y1 ++ y2
    /\ exists u, s = u ++ s1.
Proof.
  induction a as [|ev a IH]; intros b s ws ys P.
  - exists s, [], ws, [], ys. repeat split; trivial; [constructor|now exists []].
  - cbn [app] in P. inversion P as [|? ? u s2 w1 w2 y1 y2 Sh P2]; subst.
    destruct (IH _ _ _ _ P2) as (s1 & w3 & w4 & y3 & y4 & P3 & P4 & -> & -> & u' & ->).
    exists s1, (w1 ++ w3), w4, (y1 ++ y3), y4. split; [now constructor|]. split; [trivial|].
    split; [now rewrite app_assoc|]. split; [now rewrite app_assoc|]. exists (u ++ u'). now rewrite app_assoc.
Qed.
Lemma composed_parts c : parts c = option_map (events (s_enc r)) (composed c).
Proof. destruct c; try reflexivity; destruct (s_enc r); reflexivity. Qed.
Lemma conv_prints rest c sys s ws ys vs xs st : s_enc r <> U16 -> units (s_enc r) s ->
  prints_text rest (expand (s_enc r) (OnConv c sys)) s ws ys -> good (OnConv c sys) -> Forall (good_value t) ws ->
  good_texts ys -> usable ys ->
  NoDup (map fst (vs ++ ws) ++ map fst (xs ++ ys)) -> one_clock (map fst (vs ++ ws)) -> rs_src D st = s -> sim xs vs st ->
  exists st', rd_conv D scan_double in_unit time_get decimal_point r cf t c sys st = Ok st'
    /\ rs_src D st' = rest /\ sim (xs ++ ys) (vs ++ ws) st'.
Proof.
  intros He Hb P G Gv Gt Hu Nd Oc Es S0. unfold rd_conv.
  assert (L : rd_localized_parts D time_get t c sys st = None).
  { unfold rd_localized_parts. rewrite (sim_loc _ _ _ S0). destruct lo eqn:El; [|reflexivity]. cbn [negb].
    destruct c; try reflexivity; exfalso; cbn in G; destruct (G El) as [_ X]; apply X; cbn; tauto. }
  rewrite L. cbn [expand] in P. rewrite composed_parts. destruct (composed c) as [ts|] eqn:C.
  - cbn [option_map]. eapply fold_prints; try eassumption.
    assert (K : forall c' sys', match c' with Dec1Weekday => False | _ => True end ->
              (lo = true -> same_in_locales (OnConv c' sys')) -> good (OnConv c' sys')).
    { intros c' sys' X Y. destruct c'; try exact Y. contradiction. }
    assert (Kt : forall u, good (OnText u)) by (intros u _; exact I).
    assert (Kw : good OnWhitespace) by (intros _; exact I).
    destruct c; try discriminate C; injection C as <-;
      (destruct (s_enc r); cbn;
       repeat (constructor; [first [ apply Kt | apply Kw
         | apply K; [exact I|intros El; first [ cbn; intuition discriminate
             | exfalso; cbn in G; destruct (G El) as [_ X]; apply X; cbn; tauto ]] ]|]); constructor).
  - cbn [option_map]. inversion P as [|? ? u s2 w1 w2 y1 y2 Sh P2]; subst. inversion P2; subst.
    rewrite !app_nil_r in *.
    match goal with H : u ++ _ = rs_src D st |- _ => rewrite <- H in Hb; symmetry in H end.
    eapply (step_text _ (OnConv c sys)); eassumption.
Qed.
Notation on := (rd_on D scan_double in_unit time_get decimal_point r cf t).
Notation fine := (rd_fine D).
Lemma drive_prints rest evs : Forall inner evs -> Forall (fun x => good (fst x)) evs -> s_enc r <> U16 ->
  forall s ws ys vs xs st, prints_text rest (flat_map (expand (s_enc r)) (map fst evs)) s ws ys ->
  units (s_enc r) s -> Forall (good_value t) ws -> good_texts ys -> usable ys ->
  NoDup (map fst (vs ++ ws) ++ map fst (xs ++ ys)) -> one_clock (map fst (vs ++ ws)) -> rs_src D st = s -> sim xs vs st ->
  exists st', drive on fine evs st = Ok (true, st') /\ rs_src D st' = rest /\ sim (xs ++ ys) (vs ++ ws) st'.
Proof.
  intros In0 Gd He. induction evs as [|[ev chk] evs IH]; intros s ws ys vs xs st P Hb Gv Gt Hu Nd Oc Es S0.
  - inversion P; subst. exists st. rewrite !app_nil_r. auto.
  - inversion In0; inversion Gd; subst. cbn [map flat_map fst drive] in *.
    apply prints_split in P. destruct P as (s1 & w1 & w2 & y1 & y2 & P1 & P2 & -> & -> & u & Eu).
    apply Forall_app in Gv. destruct Gv as [Gv1 Gv2].
    rewrite (app_assoc vs w1), (app_assoc xs y1) in Nd. rewrite (app_assoc vs w1) in Oc. rewrite (app_assoc vs w1), (app_assoc xs y1).
    apply Forall_app in Gt. destruct Gt as [Gt1 Gt2]. apply usable_app in Hu. destruct Hu as [Hu1 Hu2].
    assert (Nd1 : NoDup (map fst (vs ++ w1) ++ map fst (xs ++ y1)))
      by (rewrite (map_app fst (vs ++ w1)), (map_app fst (xs ++ y1)) in Nd; now apply nodup_begin in Nd).
    assert (Oc1 : one_clock (map fst (vs ++ w1))) by (rewrite map_app in Oc; now apply clock_sub in Oc).
    assert (X : exists st1, on ev st = Ok st1 /\ rs_src D st1 = s1 /\ sim (xs ++ y1) (vs ++ w1) st1).
    { destruct ev; try contradiction.
      - inversion P1 as [|? ? u' s2 x1 x2 z1 z2 Sh P3]; subst. inversion P3; subst. rewrite !app_nil_r in *.
        match goal with H : _ = rs_src D st |- _ => rewrite <- H in Hb; symmetry in H end.
        eapply (step_text _ (OnText _)); eassumption.
      - inversion P1 as [|? ? u' s2 x1 x2 z1 z2 Sh P3]; subst. inversion P3; subst. rewrite !app_nil_r in *.
        match goal with H : _ = rs_src D st |- _ => rewrite <- H in Hb; symmetry in H end.
        eapply (step_text _ OnWhitespace); eassumption.
      - eapply conv_prints; eauto. }
    destruct X as (st1 & E1 & Es1 & S1). rewrite E1. cbn [bind]. unfold rd_fine.
    rewrite (sim_err _ _ _ S1). cbn [negb]. rewrite andb_false_r.
    eapply IH; eauto.
    rewrite Eu in Hb. now apply units_tail in Hb.
Qed.
End Reader.
