(** Years stay in the range of int when centuries and short years are added to an initial one. *)
From Coq Require Import String Ascii.
From Verif Require Import Prelude UnicodeModel UnicodeSpec ReadModel SpecsModel FormatModel FormatSpec
  VscanSpec SpecsInvProofs ChronoModel ChronoSpec ChronoParseProofs ChronoInvProofs ChronoMarkProofs ChronoOverModel ChronoOverProofs.
Import Coq.Strings.String.StringSyntax.
Local Open Scope string_scope.
Local Open Scope list_scope.
Local Open Scope Z_scope.

Section Reader.
Variable D : Type.
Variable scan_double : list Z -> outcome D.
Variable in_unit : D -> bool.
Variable time_get : list Z -> list Z -> option (tmv * list Z).
Variable decimal_point : Z.
Variable r : src.
Variable cf : FormatModel.config.
Notation rstate := (rstate D).
(** The locale knows years of four digits. *)
Hypothesis mild : forall fmt s tm s', time_get fmt s = Some (tm, s') -> -10000 < tm_year tm + 1900 < 10000.

Definition below (n : Z) (st : rstate) : Prop := forall y, rs_int D st Year = Some y -> Z.abs y <= 2 ^ 31 - 40000 + 10000 * n.
Definition cnt (fs : flagset) : Z := (if fs FShortYear then 1 else 0) + (if fs FCentury then 1 else 0).
Definition yr (m : Z) (st st' : rstate) : Prop :=
  0 <= m /\ (forall n, 0 <= n -> below n st -> below (n + m) st')
  /\ (rs_err D st' = None -> rs_err D st = None /\ cnt (rs_set D st') = cnt (rs_set D st) + m)
  /\ (rs_short D st' = rs_short D st /\ rs_cent D st' = rs_cent D st).
Lemma yr_app a b s1 s2 s3 : yr a s1 s2 -> yr b s2 s3 -> yr (a + b) s1 s3.
Proof.
  intros (A1 & A2 & A3 & A4 & A5) (B1 & B2 & B3 & B4 & B5). split; [lia|]. split; [|split; [|split; congruence]].
  - intros n Hn H. replace (n + (a + b)) with (n + a + b) by lia. apply B2; [lia|]. apply A2; assumption.
  - intros E. destruct (B3 E) as [E2 K2]. destruct (A3 E2) as [E1 K1]. split; [exact E1|lia].
Qed.
Lemma yr_then a s1 s2 s3 : yr 0 s1 s2 -> yr a s2 s3 -> yr a s1 s3.
Proof. intros H1 H2. apply (yr_app 0 a s1 s2 s3 H1 H2). Qed.
Lemma yr_before a s1 s2 s3 : yr a s1 s2 -> yr 0 s2 s3 -> yr a s1 s3.
Proof. intros H1 H2. replace a with (a + 0) by lia. apply (yr_app a 0 s1 s2 s3 H1 H2). Qed.
Lemma yr_same st st' : rs_err D st' = rs_err D st -> rs_int D st' Year = rs_int D st Year -> rs_set D st' = rs_set D st ->
  rs_short D st' = rs_short D st -> rs_cent D st' = rs_cent D st -> yr 0 st st'.
Proof.
  intros E1 E2 E3 E4 E5. split; [lia|]. unfold below. rewrite E1, E2, E3. split; [|split; [intros E; split; [exact E|lia]|auto]].
  intros n Hn H y Hy. specialize (H y Hy). lia.
Qed.
Lemma yr_refl st : yr 0 st st.
Proof. apply yr_same; reflexivity. Qed.
Lemma yr_err m e st : 0 <= m -> yr m st (set_error D e st).
Proof.
  intros Hm. split; [exact Hm|]. split; [|split; [intros E; cbn in E; destruct (rs_err D st); discriminate|split; reflexivity]].
  intros n Hn H y Hy. specialize (H y Hy). lia.
Qed.
Lemma yr_src s st : yr 0 st (with_src D s st).
Proof. apply yr_same; reflexivity. Qed.
Lemma yr_flag f st : f <> FShortYear -> f <> FCentury -> yr 0 st (set_flag D f st).
Proof.
  intros H1 H2. unfold set_flag. split; [lia|].
  assert (EC : cnt (mark f (rs_set D st)) = cnt (rs_set D st)) by (unfold cnt, mark; destruct f; try reflexivity; congruence).
  destruct (rs_set D st f); (split; [intros n Hn H y Hy; specialize (H y Hy); lia|]); (split; [|split; reflexivity]); cbn.
  - destruct (rs_err D st); discriminate.
  - intros E. split; [exact E|]. rewrite EC. lia.
Qed.
Lemma yr_int f v st : f <> Year -> yr 0 st (with_int D f v st).
Proof. intros H. apply yr_same; try reflexivity. destruct f; try reflexivity. congruence. Qed.
Lemma yr_ranged f fl lo hi off v st : f <> Year -> fl <> FShortYear -> fl <> FCentury -> yr 0 st (set_ranged D f fl lo hi off v st).
Proof.
  intros H1 H2 H3. unfold set_ranged. destruct (_ || _); [apply yr_err; lia|]. eapply yr_then; [apply yr_int, H1|apply yr_flag; assumption].
Qed.
Lemma yr_full_year v st : Z.abs v <= 10000 -> yr 0 st (set_full_year D Components v st).
Proof.
  intros Hv. unfold set_full_year. eapply yr_before; [|apply yr_flag; discriminate].
  split; [lia|]. split; [|split; [intros E; split; [exact E|cbn; lia]|split; reflexivity]]. intros n Hn _ y Hy. cbn in Hy. injection Hy as <-. lia.
Qed.
Lemma yr_add f k st : f = FShortYear \/ f = FCentury -> Z.abs k <= 10000 ->
  yr 1 st (set_flag D f (with_int D Year (match rs_int D st Year with None => k | Some y => y + k end) st)).
Proof.
  intros Hf Hk. split; [lia|]. split; [|split].
  - intros n Hn H y Hy. assert (K : match rs_int D st Year with None => k | Some y => y + k end = y)
      by (unfold set_flag in Hy; cbn [with_int rs_set] in Hy; destruct (rs_set D st f); cbn in Hy; congruence).
    unfold below in H. destruct (rs_int D st Year) as [y0|]; [specialize (H y0 eq_refl)|]; lia.
  - unfold set_flag. cbn [with_int rs_set]. destruct (rs_set D st f) eqn:ES; cbn.
    + destruct (rs_err D st); discriminate.
    + intros E. split; [exact E|]. unfold cnt, mark. destruct Hf as [-> | ->]; cbn [flag_eqb orb]; rewrite ES; lia.
  - unfold set_flag. cbn [with_int rs_set]. destruct (rs_set D st f); split; reflexivity.
Qed.
Lemma yr_century v st : -1 <= v < 100 -> yr 1 st (set_century D Components v st).
Proof. intros Hv. apply yr_add; [auto|lia]. Qed.
Lemma yr_century_loc v st : -100 <= v <= 100 -> yr 1 st (set_century D Components v st).
Proof. intros Hv. apply yr_add; [auto|lia]. Qed.
Lemma yr_short_year v st : -100 <= v <= 100 -> yr 1 st (set_short_year D Components v st).
Proof. intros Hv. apply yr_add; [auto|lia]. Qed.
Lemma yr_subsec d st st' : set_subsec D in_unit Components d st = Ok st' -> yr 0 st st'.
Proof.
  unfold set_subsec. intros E. destruct (in_unit d); [|discriminate]. inv_ok. eapply yr_then; [|apply yr_flag; discriminate]. apply yr_same; reflexivity.
Qed.
Lemma yr_tz_offset_set v st : yr 0 st (set_tz_offset D Components v st).
Proof. eapply yr_then; [apply (yr_int Tz v); discriminate|apply yr_flag; discriminate]. Qed.
Lemma yr_tz_name_set n st : yr 0 st (set_tz_name D Components n st).
Proof. eapply yr_then; [|apply yr_flag; discriminate]. apply yr_same; reflexivity. Qed.
Lemma yr_read_int lo hi st : yr 0 st (snd (read_int D lo hi st)).
Proof.
  unfold read_int. destruct (read_digits _ _ _) as [[k v] s]. destruct (_ <? _)%nat; cbn [snd].
  - eapply yr_then; [apply yr_src|apply yr_err; lia].
  - apply yr_src.
Qed.
Lemma digits_bound n : forall acc s, 0 <= acc -> 0 <= snd (fst (read_digits n acc s)) < (acc + 1) * 10 ^ Z.of_nat n.
Proof.
  induction n as [|n IH]; intros acc s Ha; cbn [read_digits].
  - destruct s; cbn [fst snd]; lia.
  - destruct s as [|c s]; [cbn [fst snd]|]; [|destruct ((c <? 48) || (57 <? c)) eqn:E; [cbn [fst snd]|]].
    1,2: rewrite Nat2Z.inj_succ, Z.pow_succ_r by lia; pose proof (Z.pow_pos_nonneg 10 (Z.of_nat n) ltac:(lia) ltac:(lia)); nia.
    apply orb_false_iff in E. specialize (IH (acc * 10 + (c - 48)) s ltac:(lia)).
    destruct (read_digits n (acc * 10 + (c - 48)) s) as [[k v] s']. cbn [fst snd] in *.
    rewrite Nat2Z.inj_succ, Z.pow_succ_r by lia. pose proof (Z.pow_pos_nonneg 10 (Z.of_nat n) ltac:(lia) ltac:(lia)). nia.
Qed.
Lemma int_bound lo hi st : -1 <= fst (read_int D lo hi st) < 10 ^ Z.of_nat hi.
Proof.
  unfold read_int. pose proof (digits_bound hi 0 (rs_src D st) ltac:(lia)) as H. destruct (read_digits hi 0 (rs_src D st)) as [[k v] s]. cbn [fst snd] in H.
  pose proof (Z.pow_pos_nonneg 10 (Z.of_nat hi) ltac:(lia) ltac:(lia)). destruct (k <? lo)%nat; cbn [fst]; lia.
Qed.
Lemma yr_number lo hi set fs st st' : (forall v st, -1 <= v < 10 ^ Z.of_nat hi -> yr fs st (set v st)) ->
  number D lo hi set st = Ok st' -> yr fs st st'.
Proof.
  intros Hs E. unfold number in E. pose proof (yr_read_int lo hi st) as K. pose proof (int_bound lo hi st) as KB.
  destruct (read_int D lo hi st) as [v st1]. cbn [fst] in KB. inv_ok. eapply yr_then; eauto.
Qed.
Lemma yr_locale fmt k fs st st' : 0 <= fs -> (forall tm st st', -10000 < tm_year tm + 1900 < 10000 -> k tm st = Ok st' -> yr fs st st') ->
  from_locale D time_get fmt k st = Ok st' -> yr fs st st'.
Proof.
  intros Hf Hk E. unfold from_locale, localized in E.
  destruct (time_get fmt _) as [[tm s]|] eqn:ET; [eapply yr_then; [apply yr_src|eapply Hk; [exact (mild _ _ _ _ ET)|exact E]]|inv_ok; apply yr_err; lia].
Qed.
Lemma yr_one_of o st : yr 0 st (snd (try_one_of D o st)).
Proof.
  unfold try_one_of. destruct (one_of_loop o 0 _) as [[v s]|]; cbn [snd]; [apply yr_src|apply yr_refl].
Qed.
Lemma yr_named a b set st : let fs := 0 in (forall v st, yr fs st (set v st)) -> yr fs st (named D a b set st).
Proof.
  intros fs Hs. unfold named. pose proof (yr_one_of a st) as K.
  destruct (try_one_of D a st) as [[v|] st1]; cbn [snd] in K; [eapply yr_then; eauto|].
  pose proof (yr_one_of b st1) as K2.
  destruct (try_one_of D b st1) as [[v|] st2]; cbn [snd] in K2;
    (eapply yr_then; [exact K|]; eapply yr_then; [exact K2|]); [auto|apply yr_err; subst fs; lia].
Qed.
Lemma yr_text txt : forall st, yr 0 st (rd_text D txt st).
Proof.
  induction txt as [|c txt IH]; intros st; cbn [rd_text]; [apply yr_refl|].
  destruct (rs_src D st); [apply yr_err; lia|].
  destruct (c =? z); [eapply yr_then; [apply yr_src|apply IH]|apply yr_err; lia].
Qed.
Lemma yr_space st st' : rd_whitespace D r st = Ok st' -> yr 0 st st'.
Proof.
  intros E. unfold rd_whitespace in E. destruct (skip_classic_whitespace _ _ _); inv_ok; [apply yr_src|apply yr_err; lia].
Qed.
Lemma yr_tz_offset sys st : yr 0 st (rd_tz_offset D Components sys st).
Proof.
  unfold rd_tz_offset. destruct (rs_src D st) as [|c s]; [apply yr_err; lia|]. cbv zeta.
  set (st1 := if (_ || _)%bool then _ else _).
  assert (H1 : yr 0 st st1) by (subst st1; destruct (_ || _); [apply yr_src|apply yr_refl]).
  clearbody st1. eapply yr_then; [exact H1|]. clear H1 st.
  destruct (rs_src D st1) as [|c0 s0]; [apply yr_err; lia|].
  assert (H2 : yr 0 st1 (snd (match sys with Std => read_int D 2 2 st1 | _ => read_int D 1 2 st1 end)))
    by (destruct sys; apply yr_read_int).
  destruct (match sys with Std => read_int D 2 2 st1 | _ => read_int D 1 2 st1 end) as [hour st2].
  cbn [snd] in H2. eapply yr_then; [exact H2|]. clear H2.
  destruct (rs_src D st2) as [|c1 s1]; [apply yr_tz_offset_set|].
  destruct (negb (c1 =? 58) && _); [apply yr_tz_offset_set|].
  destruct (if c1 =? 58 then s1 else c1 :: s1) as [|c2 s2] eqn:E; [apply yr_tz_offset_set|].
  destruct (is_digit c2); [|apply yr_tz_offset_set].
  pose proof (yr_read_int 2 2 (with_src D (c2 :: s2) st2)) as K.
  destruct (read_int D 2 2 _) as [m st3]. cbn [snd] in K.
  eapply yr_then; [apply (yr_src (c2 :: s2))|]. eapply yr_then; [exact K|apply yr_tz_offset_set].
Qed.
Lemma yr_subsecond sys st st' :
  rd_subsecond D scan_double in_unit decimal_point r cf Components sys st = Ok st' -> yr 0 st st'.
Proof.
  intros E. unfold rd_subsecond in E. pose proof (yr_read_int 1 2 st) as K.
  destruct (read_int D 1 2 st) as [w st1]. cbn [snd] in K. cbv zeta in E.
  eapply yr_then; [exact K|]. clear K.
  eapply yr_then; [apply (yr_ranged Sec FSec 0 60 0 w); discriminate|]. fold (set_sec D w st1).
  set (st2 := set_sec D w st1) in *. clearbody st2.
  unfold consume_ch in E. generalize dependent (scan_string r cf digits_format). intros sc E.
  destruct (rs_src D st2) as [|c0 s0] eqn:Es; cbn [negb] in E; [inv_ok; apply yr_err; lia|].
  destruct (c0 =? _); cbn [negb] in E; [|inv_ok; apply yr_err; lia].
  eapply yr_then; [apply (yr_src s0)|].
  destruct (sc _) as [[ds s]| | |]; try (inv_ok; apply yr_err; lia).
  destruct (_ =? _)%nat; [inv_ok; apply yr_err; lia|].
  eapply yr_then; [apply (yr_src s)|].
  destruct (scan_double _); try (inv_ok; apply yr_err; lia).
  eapply yr_subsec; exact E.
Qed.
Lemma yr_tz_name st st' : rd_tz_name D r cf Components st = Ok st' -> yr 0 st st'.
Proof.
  intros E. unfold rd_tz_name in E. generalize dependent (scan_string r cf tz_name_format).
  intros sc E. destruct (sc _) as [[n s]| | |]; inv_ok.
  eapply yr_before; [apply yr_tz_name_set|apply yr_src].
Qed.
Lemma yr_ampm st st' :
  match try_one_of D am_pm_names st with
  | (Some b, st) => Ok (set_flag D FAmPm (with_mode D (rs_loc D st) (b =? 1) st))
  | (None, st) => Ok (set_error D InvalidScannedValue st)
  end = Ok st' -> yr 0 st st'.
Proof.
  intros E. pose proof (yr_one_of am_pm_names st) as K.
  destruct (try_one_of D am_pm_names st) as [[v|] st1]; cbn [snd] in K; inv_ok;
    (eapply yr_then; [exact K|]); [|apply yr_err; lia].
  eapply yr_then; [|apply yr_flag; discriminate]. apply yr_same; auto.
Qed.
Definition added (c : conv) : Z := match c with ShortYear | Century | UsDate => 1 | _ => 0 end.
Lemma added_nonneg c : 0 <= added c.
Proof. destruct c; cbn; lia. Qed.
Ltac year_fact := match goal with H : add_int _ _ = Ok _ |- _ => unfold add_int in H; destruct (_ && _) in H; [injection H as <-|discriminate] end.
Ltac put := first [apply yr_ranged; discriminate | apply yr_full_year; lia | apply yr_century; lia | apply yr_short_year; lia
  | apply yr_century_loc; Z.to_euclidean_division_equations; lia | apply yr_short_year; Z.to_euclidean_division_equations; lia ].
Lemma yr_basic c sys st st' : basic c = true ->
  rd_basic D scan_double in_unit time_get decimal_point r cf Components c sys st = Ok st' -> yr (added c) st st'.
Proof.
  intros B E. destruct c; try discriminate B; cbn [added];
    cbn [rd_basic] in E;
    repeat match type of E with (if ?b then _ else _) = _ => destruct b end;
    first
    [ eapply yr_number; [|exact E]; intros v0 st0 Hv0; cbn in Hv0; cbv beta; put
    | eapply yr_locale; [lia| |exact E]; clear E st; intros tm st sy Hyear E; cbv beta in E;
      repeat match type of E with (if ?b then _ else _) = _ => destruct b end; inv_ok; try year_fact; put
    | inv_ok; apply yr_named; intros; put
    | injection E as <-; apply yr_err; lia
    | idtac ].
  - eapply yr_subsecond; exact E.
  - injection E as E; subst st'. apply yr_tz_offset.
  - now apply yr_tz_name.
  - now apply yr_ampm.
Qed.
Lemma yr_date tm st st' : -10000 < tm_year tm + 1900 < 10000 -> set_date D Components tm st = Ok st' -> yr 0 st st'.
Proof.
  unfold set_date. intros Hy E. inv_ok. repeat year_fact. eapply yr_then; [|put]. eapply yr_then; [|put]. put.
Qed.
Lemma yr_time tm st : yr 0 st (set_time D tm st).
Proof. unfold set_time. eapply yr_then; [|put]. eapply yr_then; [|put]. put. Qed.
Definition ev_added (ev : event) : Z := match ev with OnConv c _ => added c | _ => 0 end.
Lemma yr_fold evs : Forall (fun ev => match ev with
      | OnText _ | OnWhitespace => True
      | OnConv c _ => basic c = true
      | _ => False end) evs -> forall st st',
  fold_left (fun o ev => st <- o ;; rd_step D scan_double in_unit time_get decimal_point r cf Components ev st)
    evs (Ok st) = Ok st' -> yr (fold_right Z.add 0 (map ev_added evs)) st st'.
Proof.
  induction 1 as [|ev evs Hev F IH]; intros st st' E; cbn [fold_left map fold_right] in *;
    [inv_ok; apply yr_refl|].
  destruct (fold_stuck _ _ _ _ _ _ _ _ _ _ _ E) as [st1 E1]. rewrite E1 in E. cbn [bind] in E1.
  eapply yr_app; [|apply IH; exact E].
  destruct ev; try contradiction; cbn [rd_step ev_added] in *.
  - inv_ok. apply yr_text.
  - now apply yr_space.
  - eapply yr_basic; eassumption.
Qed.
Lemma yr_conv c sys st st' :
  rd_conv D scan_double in_unit time_get decimal_point r cf Components c sys st = Ok st' -> yr (added c) st st'.
Proof.
  intros E. unfold rd_conv in E.
  destruct (rd_localized_parts D time_get Components c sys st) as [x|] eqn:L.
  - subst x. unfold rd_localized_parts in L. destruct (negb _); [discriminate|].
    destruct c; try discriminate; injection L as L; cbn [added]; (eapply yr_locale; [lia| |exact L]); intros tm sx sy Hy E; cbv beta in E.
    + apply ok_bind in E. destruct E as (sz & E1 & E). injection E as <-. eapply yr_then; [eapply yr_date; eassumption|apply yr_time].
    + eapply yr_date; eassumption.
    + inv_ok. apply yr_time.
    + inv_ok. apply yr_time.
  - destruct (parts c) as [evs|] eqn:P.
    + replace (added c) with (fold_right Z.add 0 (map ev_added evs)).
      * apply yr_fold; [|exact E].
        destruct c; try discriminate P; injection P as P; subst evs;
          repeat (constructor; [cbn; trivial|]); constructor.
      * destruct c; try discriminate P; injection P as P; subst evs; reflexivity.
    + eapply yr_basic; [|exact E]. unfold basic. now rewrite P.
Qed.
Notation on := (rd_on D scan_double in_unit time_get decimal_point r cf Components).
Notation on_over := (rd_on_over D scan_double in_unit time_get decimal_point r cf Components).
Lemma text_set txt : forall st, rs_set D (rd_text D txt st) = rs_set D st.
Proof.
  induction txt as [|c txt IH]; intros st; cbn [rd_text]; [reflexivity|]. destruct (rs_src D st); [reflexivity|].
  destruct (c =? z); [rewrite IH|]; reflexivity.
Qed.
Definition Y (a b : rstate) : Prop := b = a /\ below (cnt (rs_set D a)) a /\ rs_short D a = 0 /\ rs_cent D a = 0.
Lemma cnt_range fs : 0 <= cnt fs <= 2.
Proof. unfold cnt. destruct (fs FShortYear), (fs FCentury); lia. Qed.
Lemma in_range st : below 3 st -> match Components, rs_int D st Year with
  | Components, Some y => if (- 2 ^ 31 <=? y) && (y <? 2 ^ 31) then Ok st else UB
  | _, _ => Ok st
  end = Ok st.
Proof.
  intros H. destruct (rs_int D st Year) as [y|] eqn:E; [|reflexivity]. specialize (H y E).
  replace (- 2 ^ 31 <=? y) with true by lia. replace (y <? 2 ^ 31) with true by lia. reflexivity.
Qed.
Lemma below_mono m n st : m <= n -> below m st -> below n st.
Proof. intros H K y E. specialize (K y E). lia. Qed.
Lemma plain_Y ev a b : plain ev = true -> Y a b -> rel Y (on ev a) (on_over ev b).
Proof.
  intros Hev (-> & H & H0 & H00). unfold rd_on_over. pose proof (cnt_range (rs_set D a)) as HC.
  assert (G : forall st', rs_set D st' = rs_set D a -> yr 0 a st' -> rel Y (Ok st') (match Components, rs_int D st' Year with
     | Components, Some y => if (- 2 ^ 31 <=? y) && (y <? 2 ^ 31) then Ok st' else UB | _, _ => Ok st' end)).
  { intros st' ES (_ & K & _ & K3 & K4). specialize (K _ (proj1 HC) H). rewrite in_range by (eapply below_mono; [|exact K]; lia).
    cbn [rel]. split; [reflexivity|]. split; [|split; congruence]. rewrite ES. eapply below_mono; [|exact K]. lia. }
  destruct ev; try discriminate; cbn [rd_on bind].
  - apply G; [reflexivity|]. apply yr_same; reflexivity.
  - apply G; [apply text_set|apply yr_text].
  - destruct (rd_whitespace D r a) as [st'|e| |] eqn:E; cbn [bind]; [|reflexivity|exact I|exact I]. apply G; [|apply yr_space, E].
    unfold rd_whitespace in E. destruct (skip_classic_whitespace r (rs_src D a) true); try discriminate; injection E as <-; reflexivity.
Qed.
Lemma conv_Y c sys a b : Y a b -> rel (W' _ _ (rd_fine D) (rd_fine D) Y eq) (on (OnConv c sys) a) (on_over (OnConv c sys) b).
Proof.
  intros (-> & H & H0 & H00). unfold rd_on_over. pose proof (cnt_range (rs_set D a)) as HC. cbn [rd_on].
  destruct (rd_conv _ _ _ _ _ _ _ _ c sys a) as [st'|e| |] eqn:E; cbn [bind]; [|reflexivity|exact I|exact I].
  pose proof (yr_conv _ _ _ _ E) as (_ & K & K2 & K3 & K4). specialize (K _ (proj1 HC) H).
  rewrite in_range by (eapply below_mono; [|exact K]; destruct c; cbn; lia). cbn [rel].
  destruct (rs_err D st') eqn:EE.
  - right. unfold rd_fine. rewrite EE. auto.
  - left. split; [reflexivity|]. split; [|split; congruence]. destruct (K2 eq_refl) as [_ ->]. exact K.
Qed.
Lemma error_Y a b : Y a b -> rel eq (on OnError a) (on_over OnError b).
Proof.
  intros (-> & H & _). unfold rd_on_over. cbn [rd_on bind]. pose proof (cnt_range (rs_set D a)) as HC.
  rewrite in_range; [reflexivity|]. apply (below_mono (cnt (rs_set D a))); [lia|exact H].
Qed.
Lemma verify_Y a b : Y a b -> rel eq (on OnVerify a) (on_over OnVerify b).
Proof.
  intros (-> & H & H0 & H00). unfold rd_on_over. pose proof (cnt_range (rs_set D a)) as HC. apply (below_mono _ 3) in H; [|lia]. cbn [rd_on].
  destruct (rd_verify D Components a) as [st'|e| |] eqn:E; cbn [bind]; [|reflexivity|exact I|exact I].
  rewrite in_range; [reflexivity|]. unfold rd_verify in E. apply ok_bind in E. destruct E as (st2 & E1 & E).
  assert (H2 : below 3 st2 /\ rs_short D st2 = 0 /\ rs_cent D st2 = 0).
  { assert (HA : let st := if conflict (rs_set D a) then set_error D InvalidFormatString a else a in below 3 st /\ rs_short D st = 0 /\ rs_cent D st = 0)
      by (destruct (conflict _); cbn; auto).
    cbv zeta in HA, E1. match type of E1 with (if ?c then _ else _) = _ => destruct c end; [|injection E1 as <-; exact HA]. unfold handle_am_pm in E1.
    destruct (rs_int D _ Hour) as [h|]; [|discriminate]. destruct (_ || _); [discriminate|]. injection E1 as <-.
    destruct (rs_pm D _), (h =? 12); exact HA. }
  destruct H2 as (H2 & S2 & C2). match type of E with (if ?c then _ else _) = _ => destruct c end; [|injection E as <-; exact H2]. unfold handle_years in E. rewrite S2, C2 in E.
  repeat match type of E with (if ?c then _ else _) = _ => destruct c end; try discriminate; injection E as <-; try exact H2;
    intros y Hy; cbn in Hy; injection Hy as <-; lia.
Qed.
Lemma checked_run fmt st : below 0 st -> cnt (rs_set D st) = 0 -> rs_short D st = 0 -> rs_cent D st = 0 ->
  rel (posn _ _ eq) (parse_chrono_format_specs _ on (rd_fine D) (s_enc r) fmt st) (parse_chrono_format_specs _ on_over (rd_fine D) (s_enc r) fmt st).
Proof.
  intros H1 H2 H3 H4. apply (parse_rel _ _ on on_over (rd_fine D) (rd_fine D) Y eq plain_Y conv_Y error_Y verify_Y).
  - intros a b (-> & _). reflexivity.
  - intros a b (-> & _). reflexivity.
  - split; [reflexivity|]. rewrite H2. auto.
Qed.
End Reader.

(** With any destination *)
Definition year_in_range {D} (t : target) (d : datetime D) : Prop :=
  match t, dt_int D d Year with Components, Some y => Z.abs y <= 2 ^ 31 - 40000 | _, _ => True end.
Lemma over_run D scan_double in_unit time_get decimal_point r cf t (d : datetime D) fmt s1 :
  (t = Components -> forall fmt s tm s', time_get fmt s = Some (tm, s') -> -10000 < tm_year tm + 1900 < 10000) -> year_in_range t d ->
  rel (posn _ _ eq) (parse_chrono_format_specs _ (rd_on D scan_double in_unit time_get decimal_point r cf t) (rd_fine D) (s_enc r) fmt (rd_init_over D d s1))
    (parse_chrono_format_specs _ (rd_on_over D scan_double in_unit time_get decimal_point r cf t) (rd_fine D) (s_enc r) fmt (rd_init_over D d s1)).
Proof.
  intros HM HY. destruct t eqn:Et.
  1,2: apply (parse_rel _ _ _ _ (rd_fine D) (rd_fine D) eq eq); try (intros; subst; reflexivity); try reflexivity;
    intros; subst; unfold rd_on_over;
    match goal with |- rel _ ?x _ => destruct x end; cbn [bind rel]; auto; try (left; reflexivity).
  apply checked_run; try reflexivity; [apply HM; reflexivity|]. intros y Hy. cbn [rd_init_over rs_int] in Hy. unfold year_in_range in HY. rewrite Hy in HY. lia.
Qed.
Lemma scan_over D scan_double in_unit time_get decimal_point r cf t (d : datetime D) fmt s :
  (t = Components -> forall fmt s tm s', time_get fmt s = Some (tm, s') -> -10000 < tm_year tm + 1900 < 10000) -> year_in_range t d ->
  rel (fun x y => snd y = snd x /\ (forall f, dt_int D (fst y) f = over (dt_int D (fst x) f) (dt_int D d f))
     /\ dt_subsec D (fst y) = over (dt_subsec D (fst x)) (dt_subsec D d) /\ dt_tzname D (fst y) = over (dt_tzname D (fst x)) (dt_tzname D d))
    (chrono_scan D scan_double in_unit time_get decimal_point r cf t fmt s)
    (chrono_scan_over D scan_double in_unit time_get decimal_point r cf t d fmt s).
Proof.
  intros HM HY. unfold chrono_scan, chrono_scan_over. destruct (skip_classic_whitespace r s false) as [s1|e| |]; cbn [bind]; [|reflexivity|exact I|exact I].
  pose proof (run_over D scan_double in_unit time_get decimal_point r cf t d fmt s1) as R.
  pose proof (over_run D scan_double in_unit time_get decimal_point r cf t d fmt s1 HM HY) as R'.
  destruct (parse_chrono_format_specs _ _ _ _ fmt (rd_init D s1)) as [[p a]|e| |],
    (parse_chrono_format_specs _ (rd_on D scan_double in_unit time_get decimal_point r cf t) _ _ fmt (rd_init_over D d s1)) as [[p' b]|e'| |],
    (parse_chrono_format_specs _ _ _ _ fmt (rd_init_over D d s1)) as [[p'' b']|e''| |]; cbn [rel] in R, R'; try contradiction; cbn [bind]; auto; [|cbn; congruence].
  destruct R' as [_ R']. cbn [snd] in R'. subst b'. destruct R as [_ (g & Eb & K)]. cbn [fst snd] in *. subst b. cbn [laid rs_err].
  destruct (rs_err D a) eqn:EE; [reflexivity|].
  cbn [rel fst snd dt_int dt_subsec dt_tzname laid rs_src rs_int rs_subsec rs_tzname]. auto.
Qed.
