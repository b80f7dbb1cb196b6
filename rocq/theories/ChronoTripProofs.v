(** Reading a date that was written in the format: the checker, and all together. *)
From Coq Require Import String Ascii Permutation.
From Verif Require Import Prelude UnicodeModel UnicodeSpec ReadModel ReadProofs FormatModel FormatSpec VscanSpec
  SpecsInvProofs ChronoModel ChronoSpec ChronoParseProofs ChronoInvProofs ChronoMarkProofs ChronoRuleProofs
  ChronoRoundProofs VscanSpecProofs ChronoDateProofs.
Import Coq.Strings.String.StringSyntax.
Local Open Scope string_scope.
Local Open Scope list_scope.
Local Open Scope Z_scope.

(** ** The parts of written text *)
Definition ev_parts (ev : event) : list part :=
  match ev with OnConv c _ => match sets false c with Some ps => ps | None => [] end | _ => [] end.
Lemma shows_parts s ev u ws : shows s ev u ws -> map fst ws = ev_parts ev.
Proof.
  intros H. inversion H; subst; try reflexivity.
  destruct c; try discriminate H0; injection H0 as <- <- <- <- <-; reflexivity.
Qed.
Lemma prints_parts rest evs s ws : prints rest evs s ws -> map fst ws = flat_map ev_parts evs.
Proof.
  induction 1 as [|ev evs u s ws ws' Sh P IH]; [reflexivity|]. cbn [flat_map].
  rewrite map_app, IH. f_equal. eapply shows_parts; eassumption.
Qed.
Lemma shows_text_parts s ev u ws ys : shows_text s ev u ws ys -> map fst ws ++ map fst ys = ev_parts ev.
Proof.
  intros H. inversion H; subst; try reflexivity. cbn [map]. rewrite app_nil_r. eapply shows_parts; eassumption.
Qed.
Lemma perm_mix {A} (a b c d : list A) : Permutation ((a ++ b) ++ c ++ d) ((a ++ c) ++ b ++ d).
Proof. rewrite <- !app_assoc. apply Permutation_app_head. rewrite !app_assoc. apply Permutation_app_tail, Permutation_app_comm. Qed.
Lemma prints_text_parts rest evs s ws ys : prints_text rest evs s ws ys ->
  Permutation (map fst ws ++ map fst ys) (flat_map ev_parts evs).
Proof.
  induction 1 as [|ev evs u s ws ws' ys ys' Sh P IH]; [reflexivity|]. cbn [flat_map].
  rewrite !map_app, perm_mix, (shows_text_parts _ _ _ _ _ Sh). now apply Permutation_app_head.
Qed.
(** Nothing but text *)
Lemma text_of_prints rest evs s ws : prints rest evs s ws -> prints_text rest evs s ws [].
Proof.
  induction 1 as [|ev evs u s ws ws' Sh P IH]; [constructor|].
  apply (pt_cons rest ev evs u s ws ws' [] []); [now constructor|trivial].
Qed.
Lemma expand_parts e ev : Permutation (flat_map ev_parts (expand e ev)) (ev_parts ev).
Proof.
  destruct ev as [| | |c sys| |]; try reflexivity. cbn [expand].
  destruct c; try (cbn; rewrite ?app_nil_r; reflexivity); destruct e; cbn;
    repeat (first [ reflexivity
                  | apply perm_skip
                  | match goal with |- Permutation (?x :: ?l) ?r =>
                      let rec go pre l := match l with
                        | x :: ?post => apply (Permutation_cons_app pre post)
                        | ?y :: ?post => go (pre ++ [y])%list post
                        end in go (@nil part) r end; cbn]).
Qed.
Lemma all_parts e evs : Permutation (flat_map ev_parts (flat_map (expand e) evs)) (flat_map ev_parts evs).
Proof.
  induction evs as [|ev evs IH]; [reflexivity|]. cbn [flat_map]. rewrite flat_map_app.
  apply Permutation_app; [apply expand_parts|exact IH].
Qed.
Lemma written_parts e ts vs s rest : written e ts vs s rest ->
  Permutation (map fst vs) (format_parts false ts).
Proof.
  intros H. apply prints_parts in H. rewrite H, all_parts. unfold events.
  rewrite <- (calls_parts false e ts []).
  generalize (calls e [] ts). intros l. induction l as [|[ev chk] l IH]; [reflexivity|].
  cbn [map flat_map fst]. now rewrite IH.
Qed.

Lemma written_text_parts e ts vs xs s rest : written_text e ts vs xs s rest ->
  Permutation (map fst vs ++ map fst xs) (format_parts false ts).
Proof.
  intros H. apply prints_text_parts in H. rewrite H, all_parts. unfold events.
  rewrite <- (calls_parts false e ts []).
  generalize (calls e [] ts). intros l. induction l as [|[ev chk] l IH]; [reflexivity|].
  cbn [map flat_map fst]. now rewrite IH.
Qed.
Lemma locale_parts loc ts : (loc = true -> Forall locale_free ts) -> format_parts loc ts = format_parts false ts.
Proof.
  destruct loc; [|reflexivity]. intros H. specialize (H eq_refl). unfold format_parts.
  induction H as [|tk ts L F IH]; [reflexivity|]. cbn [flat_map]. rewrite IH. f_equal.
  destruct tk as [| |l]; try reflexivity. unfold locale_free in L. destruct (meaning l) as [ev|]; [|reflexivity].
  destruct ev; try reflexivity. destruct L as [_ L].
  destruct c; try reflexivity; exfalso; apply L; cbn; tauto.
Qed.

(** ** The checker *)
Lemma nodup_flat {A B} (f : A -> list B) l a b x : NoDup (flat_map f l) -> In a l -> In b l ->
  In x (f a) -> In x (f b) -> a = b.
Proof.
  induction l as [|y l IH]; cbn; [tauto|]. intros N Ia Ib Xa Xb. apply nodup_app in N.
  destruct N as (N1 & N2 & N3).
  destruct Ia as [->|Ia], Ib as [->|Ib]; trivial.
  - exfalso. apply (N3 x); trivial. apply in_flat_map. eauto.
  - exfalso. apply (N3 x); trivial. apply in_flat_map. eauto.
  - now apply IH.
Qed.
Lemma nodup_other {A B C} (f : A -> list B) (g : A -> list C) l : NoDup (flat_map f l) ->
  (forall a, In a l -> NoDup (g a)) ->
  (forall a b y, In a l -> In b l -> In y (g a) -> In y (g b) -> exists x, In x (f a) /\ In x (f b)) ->
  NoDup (flat_map g l).
Proof.
  induction l as [|a l IH]; cbn [flat_map]; intros N Ng Ho; [constructor|].
  apply nodup_app in N. destruct N as (N1 & N2 & N3). apply nodup_app.
  split; [apply Ng; now left|]. split.
  - apply IH; trivial.
    + intros b I. apply Ng. now right.
    + intros b c y Ib Ic. apply Ho; now right.
  - intros y Ya Yl. apply in_flat_map in Yl. destruct Yl as (b & Ib & Yb).
    destruct (Ho a b y) as (x & Xa & Xb); trivial; [now left|now right|].
    apply (N3 x Xa). apply in_flat_map. eauto.
Qed.
Lemma fold_marks fs : forall st, ck_fine st = true -> NoDup fs -> (forall f, In f fs -> ck_set st f = false) ->
  ck_fine (fold_left (fun st f => ck_mark f st) fs st) = true.
Proof.
  induction fs as [|f fs IH]; intros st Hf Nd Hs; cbn [fold_left]; [trivial|].
  inversion Nd; subst. apply IH; trivial.
  - unfold ck_mark. cbn. rewrite Hf, (Hs f) by now left. reflexivity.
  - intros g Ig. cbn. unfold mark. rewrite (Hs g) by now right.
    destruct (flag_eqb f g) eqn:X; [apply flag_eqb_spec in X; subst; contradiction|reflexivity].
Qed.
Definition accepted (t : target) (ev : event) : Prop :=
  match ev with
  | OnConv c _ => supports t c = true /\ ck_flags c <> None
  | OnText _ | OnWhitespace | OnLocalized => True
  | _ => False
  end.
Lemma ck_complete t evs : forall st, ck_fine st = true -> Forall (fun x => accepted t (fst x)) evs ->
  NoDup (flat_map (fun x => ck_event_flags (fst x)) evs) ->
  (forall f, In f (flat_map (fun x => ck_event_flags (fst x)) evs) -> ck_set st f = false) ->
  exists st', drive (ck_on t) ck_fine evs st = Ok (true, st') /\ ck_fine st' = true.
Proof.
  induction evs as [|[ev chk] evs IH]; intros st Hf Ac Nd Hs; [exists st; auto|].
  inversion Ac as [|? ? Av Ac']; subst. cbn [drive flat_map fst] in *.
  apply nodup_app in Nd. destruct Nd as (N1 & N2 & N3).
  assert (X : exists st1, ck_on t ev st = Ok st1 /\ ck_fine st1 = true /\
     adds (ck_event_flags ev) (ck_set st) (ck_set st1)).
  { destruct (ck_on_step t ev st) as (st1 & E1 & S1 & _). exists st1. split; [trivial|].
    assert (F1 : ck_fine st1 = true).
    { destruct ev; try contradiction; cbn in E1; try (injection E1 as <-; trivial).
      destruct Av as [Sp Fl]. rewrite Sp in E1. unfold ck_event_flags in *.
      destruct (ck_flags c) as [fs|]; [|congruence]. injection E1 as <-.
      apply fold_marks; trivial. intros f If. apply Hs, in_or_app. now left. }
    split; [trivial|]. now apply S1. }
  destruct X as (st1 & E1 & F1 & (_ & _ & A1)). rewrite E1. cbn [bind]. rewrite F1. cbn [negb]. rewrite andb_false_r.
  apply IH; trivial. intros f If.
  destruct (ck_set st1 f) eqn:Q; [|reflexivity]. apply A1 in Q. destruct Q as [Q|Q].
  - rewrite (Hs f) in Q; [discriminate|]. apply in_or_app. now right.
  - exfalso. apply (N3 f Q If).
Qed.

(** Parts and the flags of the checker *)
Notation ckf x := (ck_event_flags (fst x)).
Lemma flag_part c fs f : ck_flags c = Some fs -> In f fs ->
  (exists p, flag_of p = f /\ In p (ev_parts (OnConv c Std))) \/ (f = FHour24 /\ c = Loc12HourTime).
Proof.
  intros E I. destruct c; try discriminate E; injection E as <-; cbn in I;
    repeat destruct I as [I|I]; try contradiction; subst f; cbn;
    try (right; split; reflexivity);
    left;
    first [ exists PSubsec; split; [reflexivity|cbn; tauto] | exists PSec; split; [reflexivity|cbn; tauto]
          | exists PMin; split; [reflexivity|cbn; tauto] | exists PHour24; split; [reflexivity|cbn; tauto]
          | exists PHour12; split; [reflexivity|cbn; tauto] | exists PAmPm; split; [reflexivity|cbn; tauto]
          | exists PMday; split; [reflexivity|cbn; tauto] | exists PMon; split; [reflexivity|cbn; tauto]
          | exists PYear; split; [reflexivity|cbn; tauto] | exists PCentury; split; [reflexivity|cbn; tauto]
          | exists PShortYear; split; [reflexivity|cbn; tauto] | exists PWday; split; [reflexivity|cbn; tauto]
          | exists PYday; split; [reflexivity|cbn; tauto] | exists PTz; split; [reflexivity|cbn; tauto]
          | exists PTzName; split; [reflexivity|cbn; tauto] ].
Qed.
Lemma ev_flag_part ev f : In f (ck_event_flags ev) ->
  (exists p, flag_of p = f /\ In p (ev_parts ev)) \/ (f = FHour24 /\ exists sys, ev = OnConv Loc12HourTime sys).
Proof.
  unfold ck_event_flags. destruct ev; try contradiction. destruct (ck_flags c) as [fs|] eqn:E; [|contradiction].
  intros I. destruct (flag_part c fs f E I) as [(p & E1 & I1)|[-> ->]]; [left; exists p; auto|right; eauto].
Qed.
Lemma call_ev_parts evs : flat_map (call_parts false) evs = flat_map (fun x => ev_parts (fst x)) evs.
Proof. induction evs as [|[ev chk] evs IH]; [reflexivity|]. cbn [flat_map]. now rewrite IH. Qed.
Lemma ck_flags_nodup ev : NoDup (ck_event_flags ev).
Proof.
  destruct ev; try apply NoDup_nil. cbn.
  destruct c; cbn; repeat (apply NoDup_cons; [cbn; intuition congruence|]); apply NoDup_nil.
Qed.

Lemma flags_fine (evs : list (event * bool)) cs : let ps := flat_map (fun x => ev_parts (fst x)) evs in
  coherent ps -> (forall f, cs f = true <-> In f (flat_map (fun x => ckf x) evs)) ->
  NoDup (flat_map (fun x => ckf x) evs) /\ conflict cs = false.
Proof.
  intros ps (Nd & Ck & Ym & Zm & Od) Mem.
  assert (P : forall p x, In x evs -> In p (ev_parts (fst x)) -> In p ps).
  { intros p x I J. subst ps. apply in_flat_map. eauto. }
  split.
  - apply (nodup_other (fun x => ev_parts (fst x))); [exact Nd|intros; apply ck_flags_nodup|].
    intros a b f Ia Ib Fa Fb. apply ev_flag_part in Fa. apply ev_flag_part in Fb.
    destruct Fa as [(p & Ea & Pa)|[-> (sa & Ea)]], Fb as [(q & Eb & Pb)|[Ef (sb & Eb)]].
    + exists p. split; [trivial|]. rewrite <- Ea in Eb. apply flag_of_inj in Eb. now subst.
    + exfalso. subst f. destruct p; try discriminate Ef. apply (proj1 Ck).
      * exact (P _ _ Ia Pa).
      * apply (P PHour12 b); [trivial|]. rewrite Eb. cbn. tauto.
    + exfalso. destruct q; try discriminate Eb. apply (proj1 Ck).
      * exact (P _ _ Ib Pb).
      * apply (P PHour12 a); [trivial|]. rewrite Ea. cbn. tauto.
    + exists PMin. rewrite Ea, Eb. cbn. tauto.
  - assert (Fl : forall f, cs f = true -> f <> FHour24 -> exists p x, flag_of p = f /\ In x evs /\ In p (ev_parts (fst x))
                     /\ In p ps).
    { intros f Hf Nf. apply Mem in Hf. apply in_flat_map in Hf. destruct Hf as (x & Ix & Fx).
      apply ev_flag_part in Fx. destruct Fx as [(p & Ea & Pa)|[-> _]]; [|congruence].
      exists p, x. repeat split; trivial. eapply P; eassumption. }
    assert (F1 : forall p, flag_of p <> FHour24 -> cs (flag_of p) = true -> In p ps).
    { intros p Np Hp. destruct (Fl _ Hp Np) as (q & x & E & _ & _ & I). apply flag_of_inj in E. now subst. }
    assert (H24 : cs FHour24 = true -> In PHour24 ps \/ exists x sys, In x evs /\ fst x = OnConv Loc12HourTime sys).
    { intros Hf. apply Mem in Hf. apply in_flat_map in Hf. destruct Hf as (x & Ix & Fx).
      apply ev_flag_part in Fx. destruct Fx as [(p & Ea & Pa)|[_ (sys & Ea)]].
      - left. destruct p; try discriminate Ea. eapply P; eassumption.
      - right. eauto. }
    (* a 12-hour time excludes %I and %p *)
    assert (Ex : forall x sys p, In x evs -> fst x = OnConv Loc12HourTime sys -> (p = PHour12 \/ p = PAmPm) ->
                   cs (flag_of p) = false).
    { intros x sys p Ix Ex Hp. destruct (cs (flag_of p)) eqn:Q; [|reflexivity]. exfalso.
      apply Mem in Q. apply in_flat_map in Q. destruct Q as (y & Iy & Fy).
      assert (Fy' := Fy). apply ev_flag_part in Fy. destruct Fy as [(q & Ea & Pa)|[Ea _]]; [|destruct Hp; subst; discriminate].
      apply flag_of_inj in Ea. subst q.
      assert (x = y).
      { apply (nodup_flat (fun x => ev_parts (fst x)) evs x y p Nd Ix Iy); [|trivial].
        rewrite Ex. cbn. destruct Hp; subst; tauto. }
      subst y. rewrite Ex in Fy'. cbn in Fy'. destruct Hp; subst p; cbn in Fy'; intuition discriminate. }
    assert (A1 : cs FHour24 = true -> cs FHour12 = true -> False).
    { intros X Y. apply H24 in X. destruct X as [X|(x & sys & Ix & Xs)].
      - apply (proj1 Ck X). apply (F1 PHour12); [discriminate|exact Y].
      - assert (Z := Ex x sys PHour12 Ix Xs (or_introl eq_refl)). cbn in Z. congruence. }
    assert (A2 : cs FAmPm = true -> cs FHour12 = true).
    { intros X. assert (Pm := X). apply (F1 PAmPm) in X; [|discriminate]. apply (proj2 Ck) in X.
      subst ps. apply in_flat_map in X. destruct X as (x & Ix & Px).
      apply Mem, in_flat_map. exists x. split; [trivial|].
      destruct x as [ev chk]. cbn [fst] in *. destruct ev; try contradiction. cbn in Px |- *.
      destruct c; cbn in Px |- *; repeat destruct Px as [Px|Px]; try discriminate Px; try contradiction; try tauto.
      exfalso. assert (Z := Ex (OnConv Loc12HourTime sys, chk) sys PAmPm Ix eq_refl (or_intror eq_refl)).
      cbn in Z. congruence. }
    assert (A3 : cs FFullYear = true -> cs FCentury = false /\ cs FShortYear = false).
    { intros X. apply (F1 PYear) in X; [|discriminate]. apply Ym in X. destruct X as [X1 X2].
      split; [destruct (cs FCentury) eqn:Q|destruct (cs FShortYear) eqn:Q]; trivial; exfalso.
      - apply X1, F1; [discriminate|exact Q].
      - apply X2, F1; [discriminate|exact Q]. }
    assert (A4 : cs FTzoff = true -> cs FTzname = false).
    { intros X. apply (F1 PTz) in X; [|discriminate]. apply Zm in X.
      destruct (cs FTzname) eqn:Q; trivial. exfalso. apply X, F1; [discriminate|exact Q]. }
    assert (A5 : ~ (cs FWday = true /\ cs FMday = true) /\ ~ (cs FWday = true /\ cs FYday = true) /\
                 ~ (cs FMday = true /\ cs FYday = true)).
    { destruct Od as (O1 & O2 & O3).
      assert (W := F1 PWday ltac:(discriminate)). assert (M := F1 PMday ltac:(discriminate)).
      assert (Y := F1 PYday ltac:(discriminate)). cbn in W, M, Y. tauto. }
    clear - A1 A2 A3 A4 A5. unfold conflict.
    destruct (cs FHour24), (cs FHour12); try (specialize (A1 eq_refl eq_refl); discriminate A1); try now destruct A1.
    all: destruct (cs FAmPm); try discriminate (A2 eq_refl).
    all: destruct (cs FFullYear); [destruct (A3 eq_refl) as [-> ->]|]; destruct (cs FTzoff); try rewrite (A4 eq_refl);
      destruct A5 as (B1 & B2 & B3); destruct (cs FWday), (cs FMday), (cs FYday); try reflexivity; exfalso;
      first [apply B1; split; reflexivity|apply B2; split; reflexivity|apply B3; split; reflexivity].
Qed.

Lemma check_ok t e loc ts rest : e <> U16 -> at_end rest -> Forall wf_token ts ->
  Forall (simple_token e) ts -> starts_with_conv ts -> coherent (format_parts false ts) ->
  Forall (fun x => accepted t (fst x)) (calls e [] ts) ->
  chrono_parse t e (write_format e loc ts ++ rest) = Ok (rest, write_format e loc ts).
Proof.
  intros He Hr W S0 Hc Co Ac. unfold chrono_parse.
  assert (Sn : Forall (seen e) ts).
  { rewrite Forall_forall in *. intros tk I. apply simple_seen; auto. }
  assert (NW : Forall (fun tk => tk <> TConv "OW") ts).
  { rewrite Forall_forall in *. intros tk I ->. apply (S0 _ I). reflexivity. }
  pose proof (parse_agrees cstate (ck_on t) ck_fine (fun st => eq_refl) e loc ts rest ck_init He Hr Sn Hc) as A.
  rewrite made_calls_eq in A by assumption.
  assert (Lc : drive (ck_on t) ck_fine ((if loc then [(OnLocalized, false)] else []) ++ calls e [] ts ++ [(OnVerify, false)]) ck_init
               = drive (ck_on t) ck_fine (calls e [] ts ++ [(OnVerify, false)]) ck_init) by (destruct loc; reflexivity).
  rewrite Lc, drive_app in A. clear Lc.
  assert (Hd : exists c f, write_format e loc ts ++ rest = c :: f /\ (c =? 125) = false).
  { destruct ts as [|[cp|cp|l] ts]; try contradiction. destruct loc; cbn; eauto. }
  destruct Hd as (c & f & Ef & E125). rewrite Ef, E125. rewrite <- Ef. clear c f Ef E125.
  rewrite <- (calls_parts false e ts []), call_ev_parts in Co.
  set (evs := calls e [] ts) in *.
  assert (Nf : NoDup (flat_map (fun x => ckf x) evs)).
  { apply (flags_fine evs (fun f => existsb (flag_eqb f) (flat_map (fun x => ckf x) evs))); [exact Co|].
    intros f. rewrite existsb_exists. split.
    - intros (x & I & X). apply flag_eqb_spec in X. now subst.
    - intros I. exists f. split; [trivial|]. now apply flag_eqb_spec. }
  destruct (ck_complete t evs ck_init eq_refl Ac Nf (fun _ _ => eq_refl)) as (st1 & E1 & F1).
  rewrite E1 in A. cbn [bind] in A.
  destruct (ck_drive t evs ck_init) as (b & st2 & E2 & H2). rewrite E1 in E2. injection E2 as <- <-.
  destruct (H2 F1) as (_ & _ & (_ & _ & A1) & _).
  assert (Cf : conflict (ck_set st1) = false).
  { apply (flags_fine evs); [exact Co|]. intros f. rewrite A1. cbn. intuition discriminate. }
  cbn [drive ck_on] in A. rewrite Cf in A. cbn [bind agree andb] in A. destruct A as (q & Eq & Q).
  rewrite Eq. cbn [bind]. rewrite F1, (Q eq_refl). f_equal. f_equal.
  rewrite app_length, Nat.add_sub, firstn_app, firstn_all, Nat.sub_diag. cbn. now rewrite app_nil_r.
Qed.

(** ** What can be written *)
Lemma value_pair vs p v : value vs p = Some v -> In (p, v) vs.
Proof.
  unfold value. destruct (find _ vs) as [[q x]|] eqn:E; [|discriminate]. intros H. injection H as <-.
  apply find_some in E. destruct E as [I E]. cbn in E. apply part_eqb_spec in E. now subst.
Qed.
Definition in_range (x : part * Z) : Prop :=
  (fst x = PHour12 -> 1 <= snd x <= 12) /\ (fst x = PAmPm -> snd x = 0 \/ snd x = 1) /\
  (fst x = PShortYear -> 0 <= snd x <= 99) /\ (fst x = PCentury -> 0 <= snd x <= 99) /\ fst x <> PTzName.
Lemma shows_range s ev u ws : shows s ev u ws -> Forall in_range ws.
Proof.
  assert (One : forall x, in_range x -> Forall in_range [x]) by (intros; constructor; [trivial|constructor]).
  intros H. inversion H; subst; try apply Forall_nil; apply One; unfold in_range; cbn [fst snd];
    try (split; [|split; [|split; [|split]]]; congruence).
  - destruct c; try discriminate H0; injection H0 as <- <- <- <- <-;
      (split; [|split; [|split; [|split]]]; try congruence; intros _; cbn; lia).
  - destruct (ampm_found u w v s) as [_ R]; trivial.
    split; [|split; [|split; [|split]]]; congruence.
Qed.
Lemma prints_range rest evs s ws : prints rest evs s ws -> Forall in_range ws.
Proof.
  induction 1; [constructor|]. apply Forall_app. split; [eapply shows_range; eassumption|trivial].
Qed.
Lemma prints_text_range rest evs s ws ys : prints_text rest evs s ws ys -> Forall in_range ws.
Proof.
  induction 1 as [|ev evs u s ws ws' ys ys' Sh P IH]; [constructor|]. apply Forall_app. split; [|trivial].
  inversion Sh; subst; [eapply shows_range; eassumption|constructor|].
  constructor; [|constructor]. unfold in_range. cbn. intuition discriminate.
Qed.
Lemma prints_text_kind rest evs s ws ys : prints_text rest evs s ws ys ->
  Forall (fun x => fst x = PTzName \/ fst x = PSubsec) ys.
Proof.
  induction 1 as [|ev evs u s ws ws' ys ys' Sh P IH]; [constructor|]. apply Forall_app. split; [|trivial].
  inversion Sh; subst; constructor; cbn; auto.
Qed.
Lemma shows_accepted t s ev u ws : shows s ev u ws -> accepted t ev.
Proof.
  intros H. inversion H; subst; cbn; trivial; try (split; [destruct t; reflexivity|discriminate]).
  destruct c; try discriminate H0; (split; [destruct t; reflexivity|discriminate]).
Qed.
Lemma prints_accepted {D} (scan_double : list Z -> outcome D) in_unit t e rest evs : Forall inner evs ->
  forall s ws ys, prints_text rest (flat_map (expand e) (map fst evs)) s ws ys -> Forall (good_text scan_double in_unit t) ys ->
  Forall (fun x => accepted t (fst x)) evs.
Proof.
  induction 1 as [|[ev chk] evs Hi F IH]; intros s ws ys P G; [constructor|].
  cbn [map flat_map fst] in P. apply prints_split in P. destruct P as (s1 & w1 & w2 & y1 & y2 & P1 & P2 & _ & -> & _).
  apply Forall_app in G. destruct G as [G1 G2].
  constructor; [|eapply IH; eassumption]. cbn [fst].
  destruct ev as [| | |c sys| |]; try contradiction; try exact I.
  cbn [expand] in P1. destruct (composed c) as [ts|] eqn:C.
  - destruct c; try discriminate C; (split; [destruct t; reflexivity|discriminate]).
  - inversion P1 as [|? ? u s2 x1 x2 z1 z2 Sh P3]; subst. inversion Sh; subst.
    + eapply shows_accepted; eassumption.
    + inversion G1 as [|? ? [X _] _]; subst. cbn. split; [|discriminate]. specialize (X eq_refl). destruct t; try reflexivity; congruence.
    + inversion G1 as [|? ? [_ X] _]; subst. cbn. split; [|discriminate]. destruct (X eq_refl) as [-> _]. reflexivity.
Qed.
Lemma meaning_u l sys : meaning l = Some (OnConv Dec1Weekday sys) -> l = "u"%string.
Proof.
  intros H. assert (I := meaning_letters _ _ H).
  assert (A : Forall (fun l => match meaning l with Some (OnConv Dec1Weekday _) => l = "u"%string | _ => True end) all_letters)
    by (repeat constructor).
  rewrite Forall_forall in A. specialize (A l I). cbn beta in A. rewrite H in A. exact A.
Qed.
Lemma good_calls lo e ts : Forall (fun tk => tk <> TConv "u") ts -> (lo = true -> Forall locale_free ts) -> forall u,
  Forall (fun x => good lo (fst x)) (calls e u ts).
Proof.
  assert (G : forall u, Forall (fun x => good lo (fst x)) (as_text u)) by (intros [|]; repeat constructor).
  induction 1 as [|tk ts N F IH]; intros Lf u; cbn [calls]; [apply G|].
  assert (Lf' : lo = true -> Forall locale_free ts) by (intros El; specialize (Lf El); now inversion Lf).
  specialize (IH Lf'). destruct tk as [cp|cp|l]; [apply IH| |].
  - apply Forall_app. split; [apply G|]. constructor; [exact (fun _ => I)|apply IH].
  - apply Forall_app. split; [apply G|]. apply Forall_app. split; [|apply IH].
    assert (Ll : lo = true -> locale_free (TConv l)) by (intros El; specialize (Lf El); now inversion Lf).
    unfold locale_free in Ll.
    destruct (meaning l) as [ev|] eqn:M; (constructor; [|constructor]); [|exact (fun _ => I)]. cbn [fst].
    destruct ev; try exact Ll. destruct c; try exact Ll. apply meaning_u in M. subst. now apply N.
Qed.

Section Trip.
Variable D : Type.
Variable scan_double : list Z -> outcome D.
Variable in_unit : D -> bool.
Variable time_get : list Z -> list Z -> option (tmv * list Z).
Variable decimal_point : Z.
Variable r : src.
Variable cf : FormatModel.config.
Variable t : target.
Notation rstate := (rstate D).

Lemma has_in ps p : has ps p = true <-> In p ps.
Proof.
  unfold has. rewrite existsb_exists. split.
  - intros (x & I & E). apply part_eqb_spec in E. now subst.
  - intros I. exists p. split; [trivial|]. now apply part_eqb_spec.
Qed.
Lemma has_value vs p : has (map fst vs) p = match value vs p with Some _ => true | None => false end.
Proof.
  destruct (value vs p) eqn:E.
  - apply has_in. eapply value_in; eassumption.
  - destruct (has (map fst vs) p) eqn:H; [|trivial]. apply has_in, value_some in H. destruct H. congruence.
Qed.
Definition fraction (xs : texts) (o : option D) : Prop :=
  match text_of xs PSubsec with
  | Some fr => exists d, scan_double (48 :: 46 :: fr) = Ok d /\ o = Some d
  | None => o = None
  end.
Lemma verify_ok lo xs vs (st : rstate) : sim D scan_double t lo xs vs st -> no_clock_mix (map fst vs) -> no_year_mix (map fst vs) ->
  one_day_part (map fst vs) -> no_zone_mix (map fst vs ++ map fst xs) ->
  Forall (fun x => fst x = PTzName \/ fst x = PSubsec) xs -> Forall (good_value t) vs -> Forall in_range vs ->
  exists st', rd_verify D t st = Ok st' /\ rs_err D st' = None /\ rs_src D st' = rs_src D st
    /\ (forall f, rs_int D st' f = date t vs f) /\ fraction xs (rs_subsec D st') /\ rs_tzname D st' = text_of xs PTzName.
Proof.
  intros S0 Ck Ym Od Zm Kx Gv Rg. pose proof S0 as [E L Se Zo In0 H Sh Ce Pm Su Tn]. fold (fraction xs (rs_subsec D st)) in Su.
  assert (V : forall p, In p (map fst vs) <-> value vs p <> None).
  { intros p. rewrite <- has_in, has_value. destruct (value vs p); split; congruence. }
  rewrite Forall_forall in Gv, Rg.
  assert (R12 : forall h, value vs PHour12 = Some h -> 1 <= h <= 12).
  { intros h Eh. apply value_pair, Rg in Eh. destruct Eh as (X & _). now apply X. }
  assert (Rpm : forall v, value vs PAmPm = Some v -> v = 0 \/ v = 1).
  { intros h Eh. apply value_pair, Rg in Eh. destruct Eh as (_ & X & _). now apply X. }
  assert (Rsy : forall v, value vs PShortYear = Some v -> 0 <= v <= 99).
  { intros h Eh. apply value_pair, Rg in Eh. destruct Eh as (_ & _ & X & _). now apply X. }
  assert (Gc : t = Components -> value vs PCentury = None /\ value vs PShortYear = None).
  { intros Ht. split; [destruct (value vs PCentury) eqn:X|destruct (value vs PShortYear) eqn:X]; trivial;
      apply value_pair, Gv in X; destruct (X Ht) as (X1 & X2 & _); cbn in *; congruence. }
  assert (Fs : forall p, p <> PTz -> p <> PTzName -> p <> PSubsec ->
             rs_set D st (flag_of p) = match value vs p with Some _ => true | None => false end).
  { intros p Hp H1 H2. rewrite Se by congruence. rewrite has_app, has_value.
    replace (has (map fst xs) p) with false; [apply orb_false_r|].
    destruct (has (map fst xs) p) eqn:X; [|trivial]. apply has_in, in_map_iff in X. destruct X as ([q x] & <- & X).
    rewrite Forall_forall in Kx. destruct (Kx _ X); contradiction. }
  assert (F10 : rs_set D st FTzoff && rs_set D st FTzname = false).
  { destruct (rs_set D st FTzname) eqn:X; [|apply andb_false_r]. rewrite andb_true_r.
    change FTzname with (flag_of PTzName) in X. rewrite Se in X by discriminate. apply has_in in X.
    destruct (rs_set D st FTzoff) eqn:Y; [|trivial]. exfalso.
    assert (Ht : t = Components) by (destruct t; trivial; specialize (Zo ltac:(discriminate)); discriminate Zo).
    change FTzoff with (flag_of PTz) in Y. rewrite Se in Y by (intros _; exact Ht). apply has_in in Y. now apply Zm in Y. }
  pose proof (Fs PHour24 ltac:(discriminate) ltac:(discriminate) ltac:(discriminate)) as F1. pose proof (Fs PHour12 ltac:(discriminate) ltac:(discriminate) ltac:(discriminate)) as F2.
  pose proof (Fs PAmPm ltac:(discriminate) ltac:(discriminate) ltac:(discriminate)) as F3. pose proof (Fs PYear ltac:(discriminate) ltac:(discriminate) ltac:(discriminate)) as F4.
  pose proof (Fs PCentury ltac:(discriminate) ltac:(discriminate) ltac:(discriminate)) as F5. pose proof (Fs PShortYear ltac:(discriminate) ltac:(discriminate) ltac:(discriminate)) as F6.
  pose proof (Fs PWday ltac:(discriminate) ltac:(discriminate) ltac:(discriminate)) as F7. pose proof (Fs PMday ltac:(discriminate) ltac:(discriminate) ltac:(discriminate)) as F8.
  pose proof (Fs PYday ltac:(discriminate) ltac:(discriminate) ltac:(discriminate)) as F9.
  cbn [flag_of] in *. clear Fs.
  destruct Ck as [Ck1 Ck2]. unfold no_year_mix, one_day_part in *. rewrite !V in *.
  assert (Cf : conflict (rs_set D st) = false).
  { unfold conflict. rewrite F1, F2, F3, F4, F5, F6, F7, F8, F9, F10.
    clear - Ck1 Ck2 Ym Od. revert Ck1 Ck2 Ym Od.
    generalize (value vs PHour24) (value vs PHour12) (value vs PAmPm) (value vs PYear) (value vs PCentury)
      (value vs PShortYear) (value vs PWday) (value vs PMday) (value vs PYday).
    intros o1 o2 o3 o4 o5 o6 o7 o8 o9 C1 C2 Y O0.
    assert (A1 : (match o1 with Some _ => true | None => false end && match o2 with Some _ => true | None => false end) = false).
    { destruct o1, o2; trivial. exfalso. apply C1; discriminate. }
    assert (A2 : (match o3 with Some _ => true | None => false end && negb match o2 with Some _ => true | None => false end) = false).
    { destruct o3, o2; trivial. exfalso. apply C2; [discriminate|reflexivity]. }
    assert (A3 : (match o4 with Some _ => true | None => false end && match o5 with Some _ => true | None => false end) = false).
    { destruct o4, o5; trivial. exfalso. destruct Y as [Y1 Y2]; [discriminate|first [apply Y1; discriminate | apply Y2; discriminate]]. }
    assert (A4 : (match o4 with Some _ => true | None => false end && match o6 with Some _ => true | None => false end) = false).
    { destruct o4, o6; trivial. exfalso. destruct Y as [Y1 Y2]; [discriminate|first [apply Y1; discriminate | apply Y2; discriminate]]. }
    assert (A5 : (match o7 with Some _ => true | None => false end && match o8 with Some _ => true | None => false end) = false).
    { destruct o7, o8; trivial. exfalso. destruct O0 as (O1 & O2 & O3); first [apply O1; split; discriminate | apply O2; split; discriminate | apply O3; split; discriminate]. }
    assert (A6 : (match o7 with Some _ => true | None => false end && match o9 with Some _ => true | None => false end) = false).
    { destruct o7, o9; trivial. exfalso. destruct O0 as (O1 & O2 & O3); first [apply O1; split; discriminate | apply O2; split; discriminate | apply O3; split; discriminate]. }
    assert (A7 : (match o8 with Some _ => true | None => false end && match o9 with Some _ => true | None => false end) = false).
    { destruct o8, o9; trivial. exfalso. destruct O0 as (O1 & O2 & O3); first [apply O1; split; discriminate | apply O2; split; discriminate | apply O3; split; discriminate]. }
    clear C1 C2 Y O0.
    destruct o1, o2; try discriminate A1; destruct o3; try discriminate A2; destruct o4, o5; try discriminate A3;
      destruct o6; try discriminate A4; destruct o7, o8; try discriminate A5; destruct o9; try discriminate A6;
      try discriminate A7; reflexivity. }
  unfold rd_verify. rewrite Cf. cbv zeta. rewrite F2, F3.
  (* the hour *)
  assert (X : exists st1, (if match value vs PAmPm with Some _ => true | None => false end
                  && match value vs PHour12 with Some _ => true | None => false end then handle_am_pm D st else Ok st) = Ok st1
     /\ rs_err D st1 = None /\ rs_src D st1 = rs_src D st /\ rs_set D st1 = rs_set D st
     /\ rs_short D st1 = rs_short D st /\ rs_cent D st1 = rs_cent D st /\ fraction xs (rs_subsec D st1) /\ rs_tzname D st1 = text_of xs PTzName
     /\ rs_int D st1 Hour = date t vs Hour /\ (forall f, f <> Hour -> rs_int D st1 f = rs_int D st f)).
  { unfold date, made. replace (offset t Hour) with 0 by (destruct t; reflexivity).
    destruct (value vs PAmPm) as [pm|] eqn:Xp; [destruct (value vs PHour12) as [h|] eqn:Xh|]; cbn [andb].
    - destruct (value vs PHour24) as [h24|] eqn:X24; [exfalso; apply Ck1; congruence|].
      specialize (R12 h eq_refl). specialize (Rpm pm eq_refl). specialize (Pm pm eq_refl).
      unfold handle_am_pm. rewrite H, F2. cbn [negb orb]. destruct (Z.ltb_spec 12 h) as [Q|Q]; [clear - Q R12; lia|].
      eexists. split; [reflexivity|]. rewrite Pm. cbn [option_map]. unfold hour_24.
      destruct Rpm as [->| ->]; cbn [Z.eqb Pos.eqb]; destruct (Z.eqb_spec h 12) as [->|Hn];
        (repeat split; trivial; try (now intros [])).
      + rewrite H. f_equal. clear - R12 Hn. rewrite Z.mod_small by lia. lia.
      + cbn. f_equal. clear - R12 Hn. rewrite Z.mod_small by lia. lia.
    - exfalso. apply Ck2; congruence.
    - exists st. repeat split; trivial. rewrite H. destruct (value vs PHour24); cbn; [f_equal; clear; lia|].
      destruct (value vs PHour12); cbn; [f_equal; clear; lia|trivial]. }
  destruct X as (st1 & E1 & Er1 & Es1 & Se1 & Sh1 & Ce1 & Su1 & Tn1 & H1 & I1).
  rewrite E1. cbn [bind]. rewrite Se1, F4, F5, F6.
  assert (Dir : forall f p, direct f = Some p -> f <> Year -> rs_int D st f = date t vs f).
  { intros f p Df Ny. rewrite (In0 f p Df). unfold date.
    destruct f; try discriminate Df; try congruence; injection Df as <-; reflexivity. }
  assert (All : forall st2, rs_int D st2 Hour = rs_int D st1 Hour -> rs_int D st2 Year = date t vs Year ->
                 (forall f, f <> Hour -> f <> Year -> rs_int D st2 f = rs_int D st1 f) -> forall f, rs_int D st2 f = date t vs f).
  { intros st2 A B C f. destruct f; try (rewrite C by discriminate; rewrite I1 by discriminate; eapply Dir; [reflexivity|discriminate]).
    - congruence.
    - exact B. }
  assert (Yr := In0 Year PYear eq_refl).
  destruct (value vs PYear) as [y|] eqn:Xy.
  { cbn [negb andb]. exists st1. repeat split; trivial. apply All; trivial. rewrite I1, Yr by discriminate.
    unfold date, made. now rewrite Xy. }
  cbn [negb andb].
  assert (YU : rs_int D st1 Year = None) by (rewrite I1, Yr by discriminate; reflexivity).
  destruct (value vs PShortYear) as [sy|] eqn:Xs; [|destruct (value vs PCentury) as [ce|] eqn:Xc]; cbn [orb].
  - assert (Ht : t <> Components) by (intros Ht; destruct (Gc Ht); congruence).
    unfold handle_years. rewrite Se1, F4, F5, F6. specialize (Rsy sy eq_refl). specialize (Sh sy eq_refl).
    assert (Yd : forall y, Some y = year_of (value vs PCentury) (Some sy) -> date t vs Year = Some (y - 1900)).
    { intros y Ey. unfold date, made. rewrite Xy, Xs, <- Ey. destruct t; try reflexivity. congruence. }
    destruct (value vs PCentury) as [ce|] eqn:Xc.
    + specialize (Ce ce eq_refl). specialize (Yd _ eq_refl).
      destruct t eqn:Et; try congruence; cbn [andb];
        (eexists; split; [reflexivity|]; repeat split; trivial; apply All; [reflexivity| |now intros []]; cbn;
         rewrite Yd, Sh1, Ce1, Sh, Ce; f_equal; clear; lia).
    + specialize (Yd _ eq_refl).
      destruct t eqn:Et; try congruence; cbn [andb];
        (eexists; split; [reflexivity|]; repeat split; trivial; apply All; [reflexivity| |now intros []]; cbn;
         rewrite Yd, Sh1, Sh; f_equal; clear; destruct (Z.leb_spec 69 sy), (Z.leb_spec sy 68); lia).
  - assert (Ht : t <> Components) by (intros Ht; destruct (Gc Ht); congruence).
    unfold handle_years. rewrite Se1, F4, F5, F6. specialize (Ce ce eq_refl).
    assert (Yd : date t vs Year = Some (100 * ce - 1900)).
    { unfold date, made. rewrite Xy, Xs, Xc. destruct t; try reflexivity. congruence. }
    destruct t eqn:Et; try congruence; cbn [andb];
        (eexists; split; [reflexivity|]; repeat split; trivial; apply All; [reflexivity| |now intros []]; cbn;
         rewrite Yd, Ce1, Ce; f_equal; clear; lia).
  - exists st1. repeat split; trivial. apply All; trivial. rewrite YU. unfold date, made. now rewrite Xy, Xs, Xc.
Qed.

Lemma trip_text loc ts rest sp s vs xs tail : s_enc r <> U16 -> at_end rest -> Forall wf_token ts ->
  Forall (simple_token (s_enc r)) ts -> starts_with_conv ts -> Forall (fun tk => tk <> TConv "u") ts ->
  (loc = true -> Forall locale_free ts) -> (xs <> [] -> good_src r /\ FormatModel.c_enc cf = s_enc r) ->
  coherent (format_parts loc ts) -> written_text (s_enc r) ts vs xs s tail -> Forall (good_value t) vs ->
  Forall (good_text scan_double in_unit t) xs ->
  Forall ascii_ws sp -> no_space_next s -> s <> [] -> units (s_enc r) (sp ++ s) ->
  exists d, chrono_arg D scan_double in_unit time_get decimal_point r cf t
              (write_format (s_enc r) loc ts ++ rest) (sp ++ s) = Ok (d, tail)
    /\ (forall f, dt_int D d f = date t vs f) /\ fraction xs (dt_subsec D d) /\ dt_tzname D d = text_of xs PTzName.
Proof.
  intros He Hr W S0 Hc Nu Lf Us Co Wr Gv Gt Hsp Hs Hn Hb. rewrite (locale_parts loc ts Lf) in Co.
  assert (Pm := written_text_parts _ _ _ _ _ _ Wr). unfold written_text, events in Wr.
  assert (In0 := calls_inner (s_enc r) ts W []).
  assert (Gd := good_calls loc (s_enc r) ts Nu Lf []).
  assert (Ac := prints_accepted scan_double in_unit t _ _ _ In0 _ _ _ Wr Gt).
  unfold chrono_arg. rewrite check_ok by assumption. cbn [bind].
  unfold chrono_scan. rewrite skip_ascii by auto. cbn [bind].
  assert (Sn : Forall (seen (s_enc r)) ts).
  { rewrite Forall_forall in *. intros tk I. apply simple_seen; auto. }
  assert (NW : Forall (fun tk => tk <> TConv "OW") ts).
  { rewrite Forall_forall in *. intros tk I ->. apply (S0 _ I). reflexivity. }
  pose proof (parse_agrees rstate (rd_on D scan_double in_unit time_get decimal_point r cf t) (rd_fine D)
                (fun st => eq_refl) (s_enc r) loc ts [] (rd_init D s) He I Sn Hc) as A.
  rewrite app_nil_r, made_calls_eq in A by assumption.
  set (st0 := if loc then with_mode D true false (rd_init D s) else rd_init D s).
  assert (Q : drive (rd_on D scan_double in_unit time_get decimal_point r cf t) (rd_fine D)
                ((if loc then [(OnLocalized, false)] else []) ++ calls (s_enc r) [] ts ++ [(OnVerify, false)]) (rd_init D s)
              = drive (rd_on D scan_double in_unit time_get decimal_point r cf t) (rd_fine D)
                  (calls (s_enc r) [] ts ++ [(OnVerify, false)]) st0)
    by (subst st0; destruct loc; reflexivity).
  rewrite Q, drive_app in A. clear Q.
  destruct Co as (Nd & Ck & Ym & Zm & Od).
  assert (InP : forall p, In p (map fst vs ++ map fst xs) <-> In p (format_parts false ts)).
  { intros p. split; apply Permutation_in; [exact Pm|now symmetry]. }
  assert (Kx := prints_text_kind _ _ _ _ _ Wr).
  assert (InV : forall p, p <> PTzName -> p <> PSubsec -> In p (map fst vs) <-> In p (format_parts false ts)).
  { intros p P1 P2. rewrite <- InP, in_app_iff. split; [tauto|]. intros [X|X]; [trivial|].
    apply in_map_iff in X. destruct X as ([q x] & <- & X). rewrite Forall_forall in Kx. destruct (Kx _ X); contradiction. }
  assert (Ndv : NoDup (map fst vs ++ map fst xs)) by (eapply Permutation_NoDup; [symmetry; exact Pm|exact Nd]).
  assert (Oc : one_clock (map fst vs)).
  { unfold one_clock. rewrite !InV by discriminate. destruct Ck as [Ck _]. tauto. }
  destruct (drive_prints D scan_double in_unit time_get decimal_point r cf t loc tail _ In0 Gd He s vs xs [] [] st0 Wr)
    as (st1 & E1 & Es1 & S1); trivial.
  { now apply units_tail in Hb. }
  { subst st0. destruct loc; reflexivity. }
  { subst st0. destruct loc; constructor; trivial; try discriminate; try (intros []; reflexivity); try (intros; reflexivity). }
  cbn [app] in S1.
  rewrite E1 in A. cbn [bind drive rd_on] in A.
  destruct (verify_ok loc xs vs st1) as (st2 & E2 & Er2 & Es2 & I2 & Su2 & Tn2); trivial.
  { unfold no_clock_mix. rewrite !InV by discriminate. exact Ck. }
  { unfold no_year_mix. rewrite !InV by discriminate. exact Ym. }
  { unfold one_day_part. rewrite !InV by discriminate. exact Od. }
  { unfold no_zone_mix. rewrite !InP. exact Zm. }
  { eapply prints_text_range; eassumption. }
  rewrite E2 in A. cbn [bind agree andb] in A. destruct A as (q & Eq & _).
  rewrite Eq. cbn [bind]. rewrite Er2. eexists. split; [f_equal; f_equal; congruence|]. cbn. auto.
Qed.

Lemma trip ts rest sp s vs tail : s_enc r <> U16 -> at_end rest -> Forall wf_token ts ->
  Forall (simple_token (s_enc r)) ts -> starts_with_conv ts -> Forall (fun tk => tk <> TConv "u") ts ->
  coherent (format_parts false ts) -> written (s_enc r) ts vs s tail -> Forall (good_value t) vs ->
  Forall ascii_ws sp -> no_space_next s -> s <> [] -> units (s_enc r) (sp ++ s) ->
  exists d, chrono_arg D scan_double in_unit time_get decimal_point r cf t
              (write_format (s_enc r) false ts ++ rest) (sp ++ s) = Ok (d, tail)
    /\ (forall f, dt_int D d f = date t vs f) /\ dt_subsec D d = None /\ dt_tzname D d = None.
Proof.
  intros He Hr W S0 Hc Nu Co Wr Gv Hsp Hs Hn Hb.
  destruct (trip_text false ts rest sp s vs [] tail) as (d & E & F & Su & Tn); trivial; try discriminate.
  - congruence.
  - now apply text_of_prints.
  - exists d. auto.
Qed.
End Trip.
