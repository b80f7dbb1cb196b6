(** Dates and times with the 'L' flag: what the locale reads is what is stored. *)
From Coq Require Import String Ascii Permutation.
From Verif Require Import Prelude UnicodeModel UnicodeSpec ReadModel ReadProofs FormatModel FormatSpec IntModel
  VscanSpec VscanProperties ChronoModel ChronoSpec ChronoParseProofs ChronoRuleProofs ChronoRoundProofs ChronoDateProofs
  ChronoTripProofs ChronoProperties ChronoLocaleSpec ChronoLocaleProofs.
Import Coq.Strings.String.StringSyntax.
Local Open Scope string_scope.
Local Open Scope list_scope.
Local Open Scope Z_scope.

(** * C77 *)
Lemma read_good t tm ps : Forall storable ps -> forallb (fun p => within p (shown tm p)) ps = true ->
  Forall (good_value t) (as_read tm ps) /\ Forall in_range (as_read tm ps).
Proof.
  unfold as_read. induction 1 as [|p ps Hp F IH]; intros E; cbn [map]; [split; constructor|].
  cbn [forallb] in E. apply andb_true_iff in E. destruct E as [Ep E]. destruct (IH E) as [G R].
  split; constructor; trivial; cbn in Hp; repeat destruct Hp as [<-|Hp]; try contradiction;
    unfold good_value, in_range; cbn in *; repeat split; try discriminate; try (intros; discriminate); lia.
Qed.
Lemma read_parts tm ps : map fst (as_read tm ps) = ps.
Proof. unfold as_read. rewrite map_map. cbn. apply map_id. Qed.

(** Given alone, such a specifier skips white space and stores what the locale reads, if it is in
    range, and nothing else; it stops where the locale stops, and fails if the locale does. *)
Theorem C77_partial : forall D scan_double in_unit time_get point r cf t l facet ps sp s rest,
  s_enc r <> U16 -> at_end rest -> In (l, (facet, ps)) by_locale ->
  Forall ascii_ws sp -> no_space_next s -> s <> [] -> units (s_enc r) (sp ++ s) ->
  let scan := chrono_arg D scan_double in_unit time_get point r cf t (76 :: 37 :: codes l ++ rest) (sp ++ s) in
  match time_get (codes facet) s with
  | None => scan = Err InvalidScannedValue
  | Some (tm, s') => computable tm ->
      if forallb (fun p => within p (shown tm p)) ps
      then exists d, scan = Ok (d, s') /\ (forall f, dt_int D d f = date t (as_read tm ps) f)
             /\ dt_subsec D d = None /\ dt_tzname D d = None
      else scan = Err InvalidScannedValue
  end.
Proof.
  intros D sd iu tg pt r cf t l facet ps sp s rest He Hr Hin Hsp Hs Hn Hb scan.
  assert (Hl : wf_token (TConv l) /\ l <> "OW"%string).
  { clear - Hin. cbn in Hin. repeat destruct Hin as [Hin|Hin]; try contradiction; injection Hin as <- <- <-; split; cbn; discriminate. }
  destruct Hl as [Wl Nw].
  assert (Ef : 76 :: 37 :: codes l ++ rest = write_format (s_enc r) true [TConv l] ++ rest).
  { unfold write_format. cbn [flat_map write app]. now rewrite app_nil_r. }
  assert (Ck : exists st, drive (ck_on t) ck_fine (format_calls (s_enc r) true [TConv l]) ck_init = Ok (true, st) /\ ck_fine st = true).
  { clear - Hin. cbn in Hin. repeat destruct Hin as [Hin|Hin]; try contradiction; injection Hin as <- <- <-;
      (erewrite one_conv by reflexivity); destruct t; eexists; split; reflexivity. }
  destruct Ck as (cs & Ck & Cf).
  assert (E0 : scan = chrono_scan D sd iu tg pt r cf t (write_format (s_enc r) true [TConv l]) (sp ++ s)).
  { subst scan. rewrite Ef. unfold chrono_arg.
    rewrite (check_drive t (s_enc r) true [TConv l] rest cs He Hr (Forall_cons _ Wl (Forall_nil _)) (Forall_cons (TConv l) Nw (Forall_nil _)) I Ck Cf).
    reflexivity. }
  clearbody scan. subst scan.
  pose proof (first_then D sd iu tg pt r cf t l facet ps [] sp s He Hin (Forall_nil _) (Forall_nil _) Hsp Hs Hn Hb) as F. cbv zeta in F.
  destruct (tg (codes facet) s) as [[tm s']|]; [|exact F]. intros Hc. specialize (F Hc).
  destruct (forallb _ ps) eqn:Ew; [|exact F]. destruct F as (st & Es & Si & F).
  destruct (entry_parts l facet ps Hin) as (Nd & Fs & Oc & Ckm & Ym & Od & Zm).
  destruct (read_good t tm ps Fs Ew) as [Gv Rg].
  destruct (verify_ok D sd t true [] (as_read tm ps) st Si) as (st2 & E2 & Er2 & Es2 & I2 & Su2 & Tn2); rewrite ?read_parts; trivial.
  specialize (F true st2). cbn [calls as_text app drive rd_on] in F. rewrite E2 in F. cbn [bind andb] in F. specialize (F eq_refl).
  rewrite F. unfold outcome_of. rewrite Er2. eexists. split; [rewrite Es2, Es; reflexivity|]. cbn. repeat split; trivial.
Qed.
Print Assumptions C77_partial.
(** A locale that writes dates as "17.10.2020" and times as "4.41", for the examples *)
Definition fi_locale (fmt s : list Z) : option (tmv * list Z) :=
  if list_eq_dec Z.eq_dec fmt (T "%x") then
    match s with
    | a :: b :: 46 :: c :: d :: 46 :: e :: f :: g :: h :: s' =>
        Some (TMV 0 0 0 (decimal [a; b]) (decimal [c; d] - 1) (decimal [e; f; g; h] - 1900) 0, s')
    | _ => None
    end
  else if list_eq_dec Z.eq_dec fmt (T "%OH") then
    match s with a :: s' => Some (TMV 0 0 (decimal [a]) 0 0 0 0, s') | [] => None end
  else None.
Definition in_finland (t : target) (f s : list Z) : outcome (datetime Z * list Z) :=
  chrono_arg Z (fun _ => Ok 5) (fun _ => true) fi_locale 44 string_src narrow t f s.
Example C77_ex :
  In ("x", ("%x", [PYear; PMon; PMday])) by_locale /\ no_space_next (T "17.10.2020!") /\
  (exists tm, fi_locale (T "%x") (T "17.10.2020!") = Some (tm, T "!") /\ computable tm /\
     forallb (fun p => within p (shown tm p)) [PYear; PMon; PMday] = true) /\
  seen_fields (in_finland Tm (T "L%x}") (T " 17.10.2020!")) = Ok ([None; None; None; Some 17; Some 9; Some 120; None; None; None], T "!") /\
  seen_fields (in_finland Components (T "L%x}") (T " 17.10.2020!")) = Ok ([None; None; None; Some 17; Some 10; Some 2020; None; None; None], T "!") /\
  seen_fields (in_finland Tm (T "L%x}") (T "17.13.2020!")) = Err InvalidScannedValue /\
  seen_fields (in_finland Tm (T "L%x}") (T "10/17/2020")) = Err InvalidScannedValue.
Proof.
  split; [cbn; tauto|]. split; [cbn; split; [lia|reflexivity]|].
  split; [eexists; split; [vm_compute; reflexivity|]; split; [unfold computable; cbn; lia|vm_compute; reflexivity]|].
  repeat split; vm_compute; reflexivity.
Qed.
(** Followed by anything that looks the same in every locale, it is read so, and the rest from
    where the locale stopped. *)
Theorem C77_then_partial : forall D scan_double in_unit time_get point r cf t l facet ps ts sp u s tm vs tail rest,
  s_enc r <> U16 -> at_end rest -> In (l, (facet, ps)) by_locale ->
  Forall wf_token ts -> Forall (simple_token (s_enc r)) ts -> Forall (fun tk => tk <> TConv "u") ts -> Forall locale_free ts ->
  coherent (format_parts false (TConv l :: ts)) -> coherent (format_parts true (TConv l :: ts)) ->
  Forall ascii_ws sp -> no_space_next (u ++ s) -> u ++ s <> [] -> units (s_enc r) (sp ++ u ++ s) ->
  time_get (codes facet) (u ++ s) = Some (tm, s) -> computable tm -> forallb (fun p => within p (shown tm p)) ps = true ->
  written (s_enc r) ts vs s tail -> Forall (good_value t) vs ->
  exists d, chrono_arg D scan_double in_unit time_get point r cf t (write_format (s_enc r) true (TConv l :: ts) ++ rest) (sp ++ u ++ s)
              = Ok (d, tail)
    /\ (forall f, dt_int D d f = date t (as_read tm ps ++ vs) f) /\ dt_subsec D d = None /\ dt_tzname D d = None.
Proof.
  intros D sd iu tg pt r cf t l facet ps ts sp u s tm vs tail rest He Hr Hin W S0 Nu Lf Cf Ct Hsp Hs Hn Hb G Hc Ew Wr Gv.
  destruct (entry D sd iu tg pt r cf t l facet ps Hin) as (c & sys & M & _).
  assert (Hl : wf_token (TConv l) /\ l <> "OW"%string /\ accepted t (OnConv c sys) /\
               Permutation (format_parts true [TConv l]) ps).
  { clear - Hin M. cbn in Hin. repeat destruct Hin as [Hin|Hin]; try contradiction; injection Hin as <- <- <-;
      cbn in M; injection M as <- <-; (split; [cbn; discriminate|]); (split; [discriminate|]);
      (split; [cbn; split; [destruct t; reflexivity|discriminate]|]); cbn; try reflexivity;
      try (apply NoDup_Permutation; [repeat (apply NoDup_cons; [cbn; intuition congruence|]); apply NoDup_nil
        |repeat (apply NoDup_cons; [cbn; intuition congruence|]); apply NoDup_nil|intros p; cbn; tauto]). }
  destruct Hl as (Wl & Nw & Ac & Pm).
  assert (Wx : written_text (s_enc r) ts vs [] s tail) by now apply text_of_prints.
  assert (Pv := written_text_parts _ _ _ _ _ _ Wx). cbn [map] in Pv. rewrite app_nil_r in Pv.
  unfold written_text, events in Wx.
  assert (In0 := calls_inner (s_enc r) ts W []).
  assert (Gd := good_calls true (s_enc r) ts Nu (fun _ => Lf) []).
  assert (Act := prints_accepted sd iu t _ _ _ In0 _ _ _ Wx (Forall_nil _)).
  assert (Ep : format_parts true (TConv l :: ts) = format_parts true [TConv l] ++ format_parts false ts).
  { rewrite <- (locale_parts true ts (fun _ => Lf)). unfold format_parts. cbn [flat_map]. now rewrite app_nil_r. }
  rewrite Ep in Ct.
  assert (PP : Permutation (map fst (as_read tm ps ++ vs)) (format_parts true [TConv l] ++ format_parts false ts)).
  { rewrite map_app, read_parts. apply Permutation_app; [now symmetry|exact Pv]. }
  assert (InP : forall p, In p (map fst (as_read tm ps ++ vs)) <-> In p (format_parts true [TConv l] ++ format_parts false ts)).
  { intros p. split; apply Permutation_in; [exact PP|now symmetry]. }
  destruct Ct as (Nd & Ckm & Ym & Zm & Od).
  pose proof (first_then D sd iu tg pt r cf t l facet ps ts sp (u ++ s) He Hin W S0 Hsp Hs Hn Hb) as F. cbv zeta in F.
  rewrite G in F. specialize (F Hc). rewrite Ew in F. destruct F as (st & Es & Si & F).
  destruct (entry_parts l facet ps Hin) as (_ & Fs & _). destruct (read_good t tm ps Fs Ew) as [Gr Rr].
  destruct (drive_prints D sd iu tg pt r cf t true tail _ In0 Gd He s vs [] (as_read tm ps) [] st Wx) as (st1 & E1 & Es1 & S1); trivial.
  { rewrite app_assoc in Hb. now apply units_tail in Hb. }
  { intros X. congruence. }
  { cbn [app map]. rewrite app_nil_r. eapply Permutation_NoDup; [symmetry; exact PP|exact Nd]. }
  { unfold one_clock. rewrite !InP. destruct Ckm as [Ckm _]. clear - Ckm. tauto. }
  cbn [app] in S1.
  destruct (verify_ok D sd t true [] (as_read tm ps ++ vs) st1 S1) as (st2 & E2 & Er2 & Es2 & I2 & Su2 & Tn2).
  { unfold no_clock_mix. rewrite !InP. exact Ckm. }
  { unfold no_year_mix. rewrite !InP. exact Ym. }
  { unfold one_day_part. rewrite !InP. exact Od. }
  { unfold no_zone_mix. cbn [map]. rewrite app_nil_r, !InP. exact Zm. }
  { constructor. }
  { apply Forall_app. auto. }
  { apply Forall_app. split; [exact Rr|]. eapply prints_text_range; exact Wx. }
  specialize (F true st2). rewrite drive_app, E1 in F. cbn [bind drive rd_on] in F. rewrite E2 in F. cbn [bind andb] in F. specialize (F eq_refl).
  unfold chrono_arg. rewrite check_ok; trivial.
  - cbn [bind]. rewrite F. unfold outcome_of. rewrite Er2. eexists. split; [f_equal; f_equal; congruence|]. cbn. repeat split; trivial.
  - constructor; trivial.
  - constructor; trivial.
  - exact I.
  - cbn [calls as_text app]. rewrite M. cbn [app]. constructor; trivial.
Qed.
Print Assumptions C77_then_partial.
(** "L%x %H:%M" *)
Definition ts_clock : list token := [TSpace 32; TConv "H"; TLit 58; TConv "M"].
Example C77_then_ex :
  Forall wf_token ts_clock /\ Forall (simple_token U8) ts_clock /\ Forall locale_free ts_clock /\
  coherent (format_parts false (TConv "x" :: ts_clock)) /\ coherent (format_parts true (TConv "x" :: ts_clock)) /\
  written U8 ts_clock [(PHour24, 4); (PMin, 41)] (T " 4:41!") (T "!") /\
  seen_fields (in_finland Tm (write_format U8 true (TConv "x" :: ts_clock) ++ T "}") (T "17.10.2020 4:41!"))
    = Ok ([None; Some 41; Some 4; Some 17; Some 9; Some 120; None; None; None], T "!").
Proof.
  split; [repeat constructor; cbn; try discriminate; lia|].
  split; [repeat constructor; cbn; try discriminate; lia|].
  split; [repeat constructor; cbn; intuition discriminate|].
  assert (C : coherent [PMon; PMday; PYear; PHour24; PMin]).
  { split; [repeat (apply NoDup_cons; [cbn; intuition congruence|]); apply NoDup_nil|].
    unfold no_clock_mix, no_year_mix, no_zone_mix, one_day_part; cbn; intuition (try discriminate; auto 10). }
  split; [exact C|]. split; [exact C|].
  split; [|vm_compute; reflexivity].
  change (prints (T "!") [OnWhitespace; OnConv Hour24 Std; OnText [58]; OnConv Minute Std] (T " 4:41!") [(PHour24, 4); (PMin, 41)]).
  apply (pr_cons _ _ _ (T " ") (T "4:41!") [] _); [apply sh_space; [repeat constructor; cbn; lia|cbn; split; [lia|reflexivity]]|].
  apply (pr_cons _ _ _ (T "4") (T ":41!") [(PHour24, 4)] _).
  { eapply (sh_number _ Hour24); [reflexivity|repeat constructor; cbn; lia|cbn; lia|right; cbn; unfold digit; lia|cbn; lia]. }
  apply (pr_cons _ _ _ (T ":") (T "41!") [] _); [apply sh_text|].
  apply (pr_cons _ _ _ (T "41") (T "!") [(PMin, 41)] _).
  { eapply (sh_number _ Minute); [reflexivity|repeat constructor; cbn; lia|cbn; lia|now left|cbn; lia]. }
  apply pr_nil.
Qed.
(** Not so after another specifier: the locale is given the text from the beginning again
    (C50_localized_refuted), here the day of the month as the hour; what was read before is read
    again. *)
Theorem C77_place_refuted :
  seen_fields (in_finland Tm (T "L%OH %d}") (T "4 17!")) = Ok ([None; None; Some 4; Some 17; None; None; None; None; None], T "!") /\
  seen_fields (in_finland Tm (T "L%d %OH}") (T "17 4!")) = Ok ([None; None; Some 1; Some 17; None; None; None; None; None], T "7 4!").
Proof. split; vm_compute; reflexivity. Qed.
Print Assumptions C77_place_refuted.
(** %p does not ask the locale: whatever it calls morning and afternoon, only the English names
    are read. *)
Theorem C77_ampm_refuted : forall time_get,
  let scan s := seen_fields (chrono_arg Z (fun _ => Ok 5) (fun _ => true) time_get 46 string_src narrow Tm (T "L%I %p}") s) in
  scan (T "3 ip.") = Err InvalidScannedValue /\ scan (T "3 pm") = Ok ([None; None; Some 15; None; None; None; None; None; None], []).
Proof. intros tg. split; vm_compute; reflexivity. Qed.
Print Assumptions C77_ampm_refuted.
(** %Oy, the year in the digits of the locale, is read as %Ey, the year of its era: in a locale
    that counts years from 2019 the text "02" written for 2002 gives 2020. *)
Definition era_locale (fmt s : list Z) : option (tmv * list Z) :=
  match s with
  | a :: b :: s' =>
      if list_eq_dec Z.eq_dec fmt (T "%Oy") then Some (TMV 0 0 0 0 0 (decimal [a; b] + 100) 0, s')
      else if list_eq_dec Z.eq_dec fmt (T "%Ey") then Some (TMV 0 0 0 0 0 (decimal [a; b] + 118) 0, s')
      else None
  | _ => None
  end.
Theorem C77_short_year_refuted :
  era_locale (T "%Oy") (T "02") = Some (TMV 0 0 0 0 0 102 0, []) /\
  seen_fields (chrono_arg Z (fun _ => Ok 5) (fun _ => true) era_locale 46 string_src narrow Tm (T "L%Oy}") (T "02"))
    = Ok ([None; None; None; None; None; Some 120; None; None; None], []).
Proof. split; vm_compute; reflexivity. Qed.
Print Assumptions C77_short_year_refuted.
