(** Proofs about dates and times with the 'L' flag. *)
From Coq Require Import String Ascii.
From Verif Require Import Prelude UnicodeModel UnicodeSpec ReadModel ReadProofs FormatModel FormatSpec IntModel
  VscanSpec ChronoModel ChronoSpec ChronoParseProofs ChronoRuleProofs ChronoRoundProofs ChronoDateProofs
  ChronoTripProofs ChronoMarkProofs ChronoProperties ChronoLocaleSpec.
Import Coq.Strings.String.StringSyntax.
Local Open Scope string_scope.
Local Open Scope list_scope.
Local Open Scope Z_scope.

Lemma check_drive t e loc ts rest st : e <> U16 -> at_end rest -> Forall wf_token ts -> Forall (simple_token e) ts ->
  starts_with_conv ts -> drive (ck_on t) ck_fine (format_calls e loc ts) ck_init = Ok (true, st) -> ck_fine st = true ->
  chrono_parse t e (write_format e loc ts ++ rest) = Ok (rest, write_format e loc ts).
Proof.
  intros He Hr W S0 Hc E F.
  pose proof (C34_partial cstate (ck_on t) ck_fine e loc ts rest ck_init (fun _ => eq_refl) He Hr W S0 Hc) as A.
  rewrite E in A. destruct A as (q & Eq & Q). specialize (Q eq_refl). subst q.
  unfold chrono_parse. rewrite Eq. cbn [bind]. rewrite F.
  assert (L : firstn (length (write_format e loc ts ++ rest) - length rest) (write_format e loc ts ++ rest) = write_format e loc ts).
  { rewrite app_length, Nat.add_sub, firstn_app, Nat.sub_diag, firstn_all. cbn. apply app_nil_r. }
  rewrite L. destruct (write_format e loc ts ++ rest) as [|c f] eqn:Ef.
  - exfalso. apply app_eq_nil in Ef. destruct Ef as [Ef _]. unfold write_format in Ef. destruct ts as [|[]]; try contradiction.
    destruct loc; discriminate Ef.
  - assert (c <> 125).
    { unfold write_format in Ef. destruct ts as [|[]]; try contradiction. destruct loc; cbn in Ef; injection Ef as <- _; lia. }
    now rewrite (proj2 (Z.eqb_neq c 125)) by assumption.
Qed.
Lemma one_conv e l c sys : meaning l = Some (OnConv c sys) ->
  format_calls e true [TConv l] = [(OnLocalized, false); (OnConv c sys, true); (OnVerify, false)].
Proof. intros M. unfold format_calls. cbn [calls as_text app]. now rewrite M. Qed.

Section Locale.
Variable D : Type.
Variable scan_double : list Z -> outcome D.
Variable in_unit : D -> bool.
Variable time_get : list Z -> list Z -> option (tmv * list Z).
Variable decimal_point : Z.
Variable r : src.
Variable cf : FormatModel.config.
Variable t : target.
Notation rstate := (rstate D).
Notation sim := (sim D scan_double t true []).

(** Storing one part *)
Definition put (p : part) (v : Z) (st : rstate) : rstate :=
  match p with
  | PYear => set_full_year D t v st | PMon => set_mon D t v st | PMday => set_mday D v st
  | PWday => set_wday D v st | PHour24 => set_hour24 D v st | PHour12 => set_hour12 D v st
  | PMin => set_min D v st | PSec => set_sec D v st
  | _ => st
  end.
Definition put_all (tm : tmv) (ps : list part) (st : rstate) : rstate :=
  fold_left (fun st p => put p (shown tm p) st) ps st.
Definition storable (p : part) : Prop := In p [PYear; PMon; PMday; PWday; PHour24; PHour12; PMin; PSec].

Lemma entry l facet ps : In (l, (facet, ps)) by_locale -> exists c sys, meaning l = Some (OnConv c sys)
  /\ forall st, rs_loc D st = true ->
     match time_get (codes facet) (rs_start D st) with
     | None => rd_conv D scan_double in_unit time_get decimal_point r cf t c sys st = Ok (set_error D InvalidScannedValue st)
     | Some (tm, s') => computable tm ->
         rd_conv D scan_double in_unit time_get decimal_point r cf t c sys st = Ok (put_all tm ps (with_src D s' st))
     end.
Proof.
  intros Hin. cbn in Hin.
  repeat destruct Hin as [Hin|Hin]; try contradiction; injection Hin as <- <- <-;
    do 2 eexists; (split; [reflexivity|]); intros st L; unfold rd_conv, rd_localized_parts; rewrite L; cbn [negb fst snd parts rd_basic];
    unfold alt; rewrite ?L; cbn [andb]; unfold from_locale, localized;
    match goal with |- context [codes ?x] => let y := eval vm_compute in (codes x) in change (codes x) with y end;
    destruct (time_get _ (rs_start D st)) as [[tm s']|]; try reflexivity; intros [Hy Hm];
    assert (Ay : add_int (tm_year tm) 1900 = Ok (tm_year tm + 1900))
      by (unfold add_int; rewrite (proj2 (Z.leb_le _ _)), (proj2 (Z.ltb_lt _ _)) by lia; reflexivity);
    assert (Am : add_int (tm_mon tm) 1 = Ok (tm_mon tm + 1))
      by (unfold add_int; rewrite (proj2 (Z.leb_le _ _)), (proj2 (Z.ltb_lt _ _)) by lia; reflexivity);
    unfold set_date; rewrite ?Ay; cbn [bind]; rewrite ?Am; reflexivity.
Qed.
Lemma entry_parts l facet ps : In (l, (facet, ps)) by_locale ->
  NoDup ps /\ Forall storable ps /\ ~ (In PHour24 ps /\ In PHour12 ps) /\ no_clock_mix ps /\ no_year_mix ps
  /\ one_day_part ps /\ no_zone_mix (ps ++ []).
Proof.
  intros Hin. cbn in Hin.
  repeat destruct Hin as [Hin|Hin]; try contradiction; injection Hin as <- <- <-;
    (split; [repeat (apply NoDup_cons; [cbn; intuition congruence|]); apply NoDup_nil|]);
    (split; [unfold storable; repeat (apply Forall_cons; [cbn; tauto|]); apply Forall_nil|]);
    unfold no_clock_mix, no_year_mix, no_zone_mix, one_day_part; cbn; intuition (try discriminate; auto 10).
Qed.
Lemma keep_error p v st e : rs_err D st = Some e -> rs_err D (put p v st) = Some e.
Proof.
  intros E. destruct p; trivial; cbn [put];
    unfold set_full_year, set_mon, set_mday, set_wday, set_hour24, set_hour12, set_min, set_sec, set_ranged, set_flag;
    repeat (match goal with |- context [if ?b then _ else _] => destruct b | |- context [match t with _ => _ end] => destruct t end;
            cbn [rs_err set_error with_set with_int]; rewrite ?E; trivial).
Qed.
Lemma put_src p v st : rs_src D (put p v st) = rs_src D st.
Proof.
  destruct p; trivial; cbn [put];
    unfold set_full_year, set_mon, set_mday, set_wday, set_hour24, set_hour12, set_min, set_sec; try apply set_src.
  destruct t; try (destruct (_ <? _); [reflexivity|]); rewrite flag_src; reflexivity.
Qed.
Lemma put_all_src tm ps : forall st, rs_src D (put_all tm ps st) = rs_src D st.
Proof. unfold put_all. induction ps as [|p ps IH]; intros st; cbn [fold_left]; [trivial|]. now rewrite IH, put_src. Qed.
Lemma put_error tm ps : forall st e, rs_err D st = Some e -> rs_err D (put_all tm ps st) = Some e.
Proof. unfold put_all. induction ps as [|p ps IH]; intros st e E; cbn [fold_left]; [trivial|]. apply IH. now apply keep_error. Qed.
Lemma put_sim tm p vs st : computable tm -> storable p -> ~ In p (map fst vs) -> one_clock (map fst vs ++ [p]) -> sim vs st ->
  if within p (shown tm p) then sim (vs ++ [(p, shown tm p)]) (put p (shown tm p) st)
  else rs_err D (put p (shown tm p) st) = Some InvalidScannedValue.
Proof.
  intros [Hy Hm] Hp N Oc S0.
  assert (N' : ~ In p (map fst vs ++ map fst ([] : texts))) by now rewrite app_nil_r.
  assert (Vn : value vs p = None) by now apply value_none.
  assert (Er := sim_err _ _ _ _ _ _ _ S0).
  assert (Rg : forall f p low hi off v, p = p -> if (low <=? v) && (v <=? hi) then low <= v <= hi
                else rs_err D (set_ranged D f (flag_of p) low hi off v st) = Some InvalidScannedValue).
  { intros f q low hi off v _. destruct (Z.leb_spec low v), (Z.leb_spec v hi); cbn [andb]; try lia;
      unfold set_ranged; rewrite ?(proj2 (Z.ltb_lt v low)), ?(proj2 (Z.ltb_lt hi v)), ?orb_true_r by lia; cbn [orb rs_err set_error];
      rewrite ?Er; reflexivity. }
  cbn in Hp. repeat destruct Hp as [<-|Hp]; try contradiction; cbn [within put].
  - unfold set_full_year. pose proof (sim_put D scan_double t true [] vs Year PYear (shown tm PYear) st S0 eq_refl Vn ltac:(discriminate)) as P.
    assert (Fl : forall v, set_flag D FFullYear (with_int D Year v st) = with_set D (mark FFullYear (rs_set D st)) (with_int D Year v st)).
    { intros v. refine (set_flag_new D FFullYear (with_int D Year v st) _). change (rs_set D st (flag_of PYear) = false). exact (sim_unset D scan_double t true [] vs PYear st S0 N' ltac:(discriminate)). }
    rewrite !Fl. cbn [shown] in *. assert ((tm_year tm + 1900 <? - 2 ^ 31 + 1900) = false) as -> by (apply Z.ltb_ge; lia).
    cbn [flag_of] in P. destruct t; cbn [offset] in P; try exact P. rewrite Z.sub_0_r in P. exact P.
  - unfold set_mon. specialize (Rg Mon PMon 1 12 (match t with Components => 0 | _ => 1 end) (shown tm PMon) eq_refl).
    destruct (_ && _); [|exact Rg].
    replace (match t with Components => 0 | _ => 1 end) with (offset t Mon) by (destruct t; reflexivity).
    apply (sim_ranged D scan_double t true [] vs Mon PMon); trivial; discriminate.
  - unfold set_mday. specialize (Rg Mday PMday 1 31 0 (shown tm PMday) eq_refl). destruct (_ && _); [|exact Rg].
    replace 0 with (offset t Mday) by (destruct t; reflexivity). apply (sim_ranged D scan_double t true [] vs Mday PMday); trivial; discriminate.
  - unfold set_wday. specialize (Rg Wday PWday 0 6 0 (shown tm PWday) eq_refl). destruct (_ && _); [|exact Rg].
    replace (set_ranged D Wday FWday 0 6 0) with (set_ranged D Wday FWday 0 6 (offset t Wday)) by (destruct t; reflexivity).
    apply (sim_ranged D scan_double t true [] vs Wday PWday); trivial; discriminate.
  - unfold set_hour24. specialize (Rg Hour PHour24 0 23 0 (shown tm PHour24) eq_refl). destruct (_ && _); [|exact Rg].
    apply (sim_hour_set D scan_double t true [] vs PHour24); trivial; auto.
  - unfold set_hour12. specialize (Rg Hour PHour12 1 12 0 (shown tm PHour12) eq_refl). destruct (_ && _); [|exact Rg].
    apply (sim_hour_set D scan_double t true [] vs PHour12); trivial; auto.
  - unfold set_min. specialize (Rg Min PMin 0 59 0 (shown tm PMin) eq_refl). destruct (_ && _); [|exact Rg].
    replace (set_ranged D Min FMin 0 59 0) with (set_ranged D Min FMin 0 59 (offset t Min)) by (destruct t; reflexivity).
    apply (sim_ranged D scan_double t true [] vs Min PMin); trivial; discriminate.
  - unfold set_sec. specialize (Rg Sec PSec 0 60 0 (shown tm PSec) eq_refl). destruct (_ && _); [|exact Rg].
    replace (set_ranged D Sec FSec 0 60 0) with (set_ranged D Sec FSec 0 60 (offset t Sec)) by (destruct t; reflexivity).
    apply (sim_ranged D scan_double t true [] vs Sec PSec); trivial; discriminate.
Qed.
Lemma put_all_sim tm ps : computable tm -> Forall storable ps -> forall vs st,
  NoDup (map fst vs ++ ps) -> one_clock (map fst vs ++ ps) -> sim vs st ->
  if forallb (fun p => within p (shown tm p)) ps then sim (vs ++ as_read tm ps) (put_all tm ps st)
  else rs_err D (put_all tm ps st) = Some InvalidScannedValue.
Proof.
  intros Hc. induction 1 as [|p ps Hp F IH]; intros vs st Nd Oc S0; cbn [forallb as_read map].
  - now rewrite app_nil_r.
  - assert (N : ~ In p (map fst vs)).
    { apply NoDup_remove_2 in Nd. intros X. apply Nd, in_or_app. now left. }
    assert (Oc1 : one_clock (map fst vs ++ [p])).
    { unfold one_clock in *. rewrite !in_app_iff in *. cbn in *. clear - Oc. tauto. }
    pose proof (put_sim tm p vs st Hc Hp N Oc1 S0) as P. destruct (within p (shown tm p)); cbn [andb].
    + change (put_all tm (p :: ps) st) with (put_all tm ps (put p (shown tm p) st)).
      specialize (IH (vs ++ [(p, shown tm p)]) (put p (shown tm p) st)). rewrite map_app, <- !app_assoc in IH. cbn [map fst app] in IH.
      exact (IH Nd Oc P).
    + change (put_all tm (p :: ps) st) with (put_all tm ps (put p (shown tm p) st)). apply put_error. exact P.
Qed.

(** Formats that begin with such a specifier *)
Notation on := (rd_on D scan_double in_unit time_get decimal_point r cf t).
Notation fine := (rd_fine D).
Definition outcome_of (st : rstate) : outcome (datetime D * list Z) :=
  match rs_err D st with
  | Some e => Err e
  | None => Ok (DT D (rs_int D st) (rs_subsec D st) (rs_tzname D st), rs_src D st)
  end.
Lemma first_then l facet ps ts sp s : s_enc r <> U16 -> In (l, (facet, ps)) by_locale -> Forall wf_token ts ->
  Forall (simple_token (s_enc r)) ts -> Forall ascii_ws sp -> no_space_next s -> s <> [] -> units (s_enc r) (sp ++ s) ->
  let scan := chrono_scan D scan_double in_unit time_get decimal_point r cf t (write_format (s_enc r) true (TConv l :: ts)) (sp ++ s) in
  match time_get (codes facet) s with
  | None => scan = Err InvalidScannedValue
  | Some (tm, s') => computable tm ->
      if forallb (fun p => within p (shown tm p)) ps
      then exists st, rs_src D st = s' /\ sim (as_read tm ps) st /\
        forall b st', drive on fine (calls (s_enc r) [] ts ++ [(OnVerify, false)]) st = Ok (b, st') -> scan = outcome_of st'
      else scan = Err InvalidScannedValue
  end.
Proof.
  intros He Hin W S0 Hsp Hs Hn Hb scan.
  assert (Hl : wf_token (TConv l) /\ l <> "OW"%string).
  { clear - Hin. cbn in Hin. repeat destruct Hin as [Hin|Hin]; try contradiction; injection Hin as <- <- <-; split; cbn; discriminate. }
  destruct Hl as [Wl Nw].
  destruct (entry l facet ps Hin) as (c & sys & M & En). destruct (entry_parts l facet ps Hin) as (Nd & Fs & Oc & _).
  pose proof (C34_partial rstate on fine (s_enc r) true (TConv l :: ts) [] (rd_init D s) (fun _ => eq_refl) He I
                (Forall_cons _ Wl W) (Forall_cons (TConv l) Nw S0) I) as A.
  rewrite app_nil_r in A.
  assert (E0 : scan = ('(_, st) <- parse_chrono_format_specs rstate on fine (s_enc r) (write_format (s_enc r) true (TConv l :: ts)) (rd_init D s) ;;
                      outcome_of st)).
  { subst scan. unfold chrono_scan. rewrite skip_ascii by auto. reflexivity. }
  clearbody scan. subst scan.
  set (st0 := with_mode D true false (rd_init D s)).
  assert (Dr : forall st1, rd_conv D scan_double in_unit time_get decimal_point r cf t c sys st0 = Ok st1 ->
     drive on fine (format_calls (s_enc r) true (TConv l :: ts)) (rd_init D s)
     = if negb (fine st1) then Ok (false, st1) else drive on fine (calls (s_enc r) [] ts ++ [(OnVerify, false)]) st1).
  { intros st1 E1. unfold format_calls. cbn [calls as_text app]. rewrite M. cbn [app drive rd_on bind andb]. change (with_mode D true (rs_pm D (rd_init D s)) (rd_init D s)) with st0. rewrite E1. reflexivity. }
  assert (Fn : forall st1 e, rd_conv D scan_double in_unit time_get decimal_point r cf t c sys st0 = Ok st1 -> rs_err D st1 = Some e ->
     ('(_, st) <- parse_chrono_format_specs rstate on fine (s_enc r) (write_format (s_enc r) true (TConv l :: ts)) (rd_init D s) ;;
      outcome_of st) = Err e).
  { intros st1 e E1 Er. rewrite (Dr st1 E1) in A. assert (Ff : fine st1 = false) by (unfold rd_fine; now rewrite Er). rewrite Ff in A. cbn [negb] in A.
    destruct A as (q & -> & _). cbn [bind]. unfold outcome_of. now rewrite Er. }
  specialize (En st0 eq_refl). change (rs_start D st0) with s in En.
  destruct (time_get (codes facet) s) as [[tm s']|].
  - intros Hc. specialize (En Hc).
    assert (Si : sim [] (with_src D s' st0)).
    { apply sim_src. constructor; trivial; try discriminate; try (intros []; reflexivity); try (intros; reflexivity). }
    pose proof (put_all_sim tm ps Hc Fs [] (with_src D s' st0) Nd Oc Si) as P.
    destruct (forallb _ ps).
    + exists (put_all tm ps (with_src D s' st0)). split; [now rewrite put_all_src|]. split; [exact P|].
      intros b st' E1. rewrite (Dr _ En) in A.
      assert (Ff : fine (put_all tm ps (with_src D s' st0)) = true) by (unfold rd_fine; now rewrite (sim_err _ _ _ _ _ _ _ P)).
      rewrite Ff in A. cbn [negb] in A.
      rewrite E1 in A. destruct A as (q & -> & _). reflexivity.
    + exact (Fn _ _ En P).
  - eapply Fn; [exact En|reflexivity].
Qed.
End Locale.
