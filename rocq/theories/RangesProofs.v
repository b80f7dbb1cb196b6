(** Reading back what was written; safety; the accepted syntax. *)
From Verif Require Import Prelude UnicodeModel UnicodeSpec UnicodeProofs WhitespaceModel WhitespaceSpec
  WhitespaceProofs ReadModel ReadProofs SpecsModel FormatSpec VscanSpec WidthSpec WidthProofs
  ArgReaderProofs VscanSpecProofs ChronoSpec ChronoRoundProofs StringProofs RangesModel RangesSpec.
Local Open Scope Z_scope.

(** ** White space *)
Lemma until_spaces e ws cp s :
  Forall (fun c => scalar c /\ is_ws c = true) ws -> scalar cp -> is_ws cp = false ->
  read_while_code_point e is_cp_space (text e ws ++ encode e cp ++ s) = Ok (encode e cp ++ s).
Proof.
  intros Hw Sc Hn. unfold read_while_code_point, read_until_code_point.
  assert (G : forall fuel, (length (text e ws ++ encode e cp ++ s) <= fuel)%nat ->
     read_until_code_point_loop fuel e (fun cp => negb (is_cp_space cp)) (text e ws ++ encode e cp ++ s)
     = Ok (encode e cp ++ s)).
  { induction Hw as [|c ws [Hc Hs] Hw IH]; intros fuel Hf.
    - cbn [text flat_map app] in *. destruct (encode_lead e cp Sc) as (c & tl & E & _).
      destruct (read_into_encode e cp s Sc) as [H1 H2].
      rewrite E in *. cbn [app length] in *. destruct fuel as [|fuel]; [lia|].
      cbn [read_until_code_point_loop]. rewrite H1. cbn [bind]. rewrite H2. cbn [bind].
      rewrite <- ArgReaderProofs.is_ws_space, Hn. reflexivity.
    - cbn [text flat_map] in *. fold (text e ws) in *. rewrite <- app_assoc in *.
      destruct (encode_lead e c Hc) as (d & tl & E & _).
      destruct (read_into_encode e c (text e ws ++ encode e cp ++ s) Hc) as [H1 H2].
      rewrite app_length in Hf. rewrite E in *. cbn [app length] in *. destruct fuel as [|fuel]; [lia|].
      cbn [read_until_code_point_loop]. rewrite H1. cbn [bind]. rewrite H2. cbn [bind].
      rewrite <- ArgReaderProofs.is_ws_space, Hs. cbn [negb]. apply IH. lia. }
  apply G. lia.
Qed.
Lemma first_spaces ws cp s :
  Forall (fun c => scalar c /\ is_ws c = true) ws -> scalar cp -> is_ws cp = false ->
  first_at U8 (fun cp => negb (is_cp_space cp)) (text U8 ws ++ encode U8 cp ++ s) (encode U8 cp ++ s).
Proof.
  intros Hw Sc Hn. split.
  - induction Hw as [|c ws [Hc Hs] Hw IH]; [apply sw_refl|].
    cbn [text flat_map]. fold (text U8 ws). rewrite <- app_assoc. econstructor; [| |exact IH].
    + cbn [encode]. apply next_cp_utf8_of, Hc.
    + cbv beta. now rewrite <- ArgReaderProofs.is_ws_space, Hs.
  - right. exists cp, s. split; [cbn [encode]; apply next_cp_utf8_of, Sc|].
    now rewrite <- ArgReaderProofs.is_ws_space, Hn.
Qed.
Lemma all_or (A : Prop) (P : Z -> Prop) l : Forall (fun x => A \/ P x) l -> A \/ Forall P l.
Proof. induction 1 as [|x l [H|H] Hl [IH|IH]]; auto. Qed.
Lemma text_ascii e ws : e <> U16 -> Forall (fun c => 0 <= c < 128) ws -> text e ws = ws.
Proof.
  intros He. induction 1 as [|c ws Hc Hw IH]; [reflexivity|].
  cbn [text flat_map]. fold (text e ws). rewrite IH. destruct e; [|congruence|reflexivity].
  cbn [encode]. unfold utf8_of. now rewrite (proj2 (Z.ltb_lt c 128)) by lia.
Qed.
Lemma encode_ascii e c : e <> U16 -> 0 <= c < 128 -> encode e c = [c].
Proof.
  intros He Hc. pose proof (text_ascii e [c] He ltac:(repeat constructor; lia)) as H.
  cbn [text flat_map] in H. now rewrite app_nil_r in H.
Qed.
Lemma encode_ne e cp s : scalar cp -> encode e cp ++ s <> [].
Proof. intros H. destruct (encode_lead e cp H) as (c & tl & -> & _). discriminate. Qed.
Lemma scalar_nonneg cp : scalar cp -> 0 <= cp.
Proof. unfold scalar. lia. Qed.

Section R.
Variable r : src.
Hypothesis He : s_enc r <> U16.
Notation e := (s_enc r).

Lemma spaces_scalar ws : spaces r ws -> Forall (fun c => scalar c /\ is_ws c = true) ws.
Proof. apply Forall_impl. intros c [[H _] H']. auto. Qed.

Lemma skip_to ws cp s allow : units e (enc_text r ws ++ encode e cp ++ s) ->
  spaces r ws -> plain r cp -> is_ws cp = false ->
  skip_classic_whitespace r (enc_text r ws ++ encode e cp ++ s) allow = Ok (encode e cp ++ s).
Proof.
  intros Hu Hw [Sc Hp] Hn. unfold enc_text in *.
  assert (D : unsplit r \/ (Forall (fun c => 0 <= c < 128) ws /\ 0 <= cp < 128)).
  { destruct Hp as [Hp|Hp]; [now left|]. pose proof (scalar_nonneg _ Sc).
    assert (unsplit r \/ Forall (fun c => 0 <= c < 128) ws) as [G|G]; [|now left|right; split; [exact G|lia]].
    apply all_or. eapply Forall_impl; [|exact Hw]. intros c [[Sc' [H1|H1]] _]; [now left|right].
    pose proof (scalar_nonneg _ Sc'). lia. }
  destruct D as [Hns|[Ha Hc]].
  - unfold skip_classic_whitespace.
    assert (E : read_while_classic_space r (text e ws ++ encode e cp ++ s) = Ok (encode e cp ++ s)).
    { pose proof (spaces_scalar _ Hw) as Hw'. unfold read_while_classic_space, unsplit in *.
      destruct e eqn:Er; [|congruence|apply until_spaces; trivial]. cbn [units] in Hu.
      pose proof (first_spaces ws cp s Hw' Sc Hn) as HF.
      destruct (s_contig r) eqn:Ec.
      - destruct (find_classic_nonspace_spec _ Hu) as (f & E & Hf). rewrite E. f_equal.
        eapply first_at_unique; eassumption.
      - destruct Hns as [Hns|[Hns|Hns]]; [congruence| |].
        + unfold contiguous_beginning. rewrite Ec, Hns. cbn [firstn].
          replace (find_classic_nonspace_narrow_fast []) with (@Ok (list Z) []) by reflexivity.
          cbn [bind]. apply until_spaces; trivial.
        + unfold contiguous_beginning. rewrite Ec.
          rewrite firstn_all2 by apply Hns.
          destruct (find_classic_nonspace_spec _ Hu) as (f & E & Hf). rewrite E. cbn [bind].
          rewrite (first_at_unique _ _ _ _ _ Hf HF). clear - Sc.
          rewrite app_length. replace (length (text U8 ws) + length (encode U8 cp ++ s) - length (encode U8 cp ++ s))%nat
            with (length (text U8 ws)) by lia. rewrite skipn_len_app.
          destruct (encode U8 cp ++ s) eqn:Q; [|reflexivity]. now apply encode_ne in Q. }
    rewrite E. cbn [bind]. destruct allow; [reflexivity|].
    destruct (encode e cp ++ s) eqn:Q; [|reflexivity]. now apply encode_ne in Q.
  - rewrite text_ascii in * by trivial. rewrite encode_ascii in * by trivial. cbn [app] in *.
    apply skip_ascii; trivial.
    + rewrite Forall_forall in *. intros c Hi. split; [now apply Ha|]. unfold spaces in Hw. rewrite Forall_forall in Hw. now apply Hw.
    + split; trivial.
    + right; discriminate.
Qed.

Lemma units_tail' u s : units e (u ++ s) -> units e s.
Proof. apply units_suffix. now exists u. Qed.
Lemma units_spaces w s : spaces r w -> units e s -> units e (enc_text r w ++ s).
Proof.
  intros Hw Hu. unfold enc_text. revert He Hu. induction Hw as [|c w [[Sc _] _] Hw IH]; intros He Hu; [exact Hu|].
  cbn [text flat_map]. fold (text e w). specialize (IH He Hu).
  destruct e; trivial. cbn [units encode] in *. rewrite <- app_assoc.
  apply bytes_app. split; trivial. now apply utf8_of_bytes.
Qed.
Lemma spaces_nil : spaces r [].
Proof. constructor. Qed.
Lemma spaces_app a b : spaces r a -> spaces r b -> spaces r (a ++ b).
Proof. intros H1 H2. apply Forall_app. auto. Qed.
Lemma enc_app a b : enc_text r (a ++ b) = enc_text r a ++ enc_text r b.
Proof. apply text_app. Qed.

(** A mark begins with a code point. *)
Lemma mark_cp stop m : mark stop m -> exists c m', m = encode e c ++ m' /\ plain r c /\ is_ws c = false
  /\ 0 <= c < 128 /\ stop c /\ m = c :: m'.
Proof.
  intros (c & m' & -> & Hc & Hn & Hs). exists c, m'. rewrite encode_ascii by trivial.
  repeat split; trivial; try lia. left; lia.
Qed.
Lemma mark_app stop m s : mark stop m -> mark stop (m ++ s).
Proof. intros (c & m' & -> & H). exists c, (m' ++ s). auto. Qed.
Lemma expect_app str s : expect str (str ++ s) = Ok s.
Proof. induction str as [|c str IH]; [reflexivity|]. cbn [expect app]. now rewrite Z.eqb_refl. Qed.

Lemma scan_mark stop str ws s : mark stop str -> spaces r ws -> units e (enc_text r ws ++ str ++ s) ->
  scan_str r str (enc_text r ws ++ str ++ s) = Ok s.
Proof.
  intros Hm Hw Hu. unfold scan_str. destruct (mark_cp _ _ (mark_app _ _ s Hm)) as (c & m' & E & Hp & Hn & _).
  rewrite E in *. rewrite skip_to by trivial. cbn [bind]. rewrite <- E. apply expect_app.
Qed.
Lemma scan_empty ws t : begins r [] t -> spaces r ws -> units e (enc_text r ws ++ t) ->
  scan_str r [] (enc_text r ws ++ t) = Ok t.
Proof.
  intros (cp & t' & Hp & Hn & -> & _) Hw Hu. unfold scan_str. rewrite skip_to by trivial. reflexivity.
Qed.
Lemma scan_other c a ws t s : begins r (c :: a) t -> spaces r ws -> units e (enc_text r ws ++ t ++ s) ->
  scan_str r (c :: a) (enc_text r ws ++ t ++ s) = Err InvalidScannedValue.
Proof.
  intros (cp & t' & Hp & Hn & -> & Hh) Hw Hu. specialize (Hh c a eq_refl). unfold scan_str.
  rewrite <- app_assoc in *. rewrite skip_to by trivial. cbn [bind].
  destruct Hp as [Sc _]. destruct (encode_lead e cp Sc) as (d & tl & E & _). rewrite E in *. cbn in *.
  destruct (Z.eqb_spec c d); [congruence|reflexivity].
Qed.
Lemma mark_other stop c a ws m : mark stop m -> hd 0 m <> c -> spaces r ws -> units e (enc_text r ws ++ m) ->
  scan_str r (c :: a) (enc_text r ws ++ m) = Err InvalidScannedValue.
Proof.
  intros Hm Hh Hw Hu. destruct (mark_cp _ _ Hm) as (d & m' & E & Hp & Hn & _ & _ & E').
  rewrite <- (app_nil_r m) in *. apply scan_other; trivial. exists d, m'. rewrite app_nil_r in *. repeat split; trivial; try apply Hp.
  intros ? ? Q. injection Q as -> ->. rewrite E' in *. exact Hh.
Qed.
Lemma mark_begins stop m : mark stop m -> begins r [] m.
Proof.
  intros Hm. destruct (mark_cp _ _ Hm) as (d & m' & E & Hp & Hn & _). exists d, m'. repeat split; trivial; try apply Hp.
  discriminate.
Qed.
Lemma begins_weak a t : begins r a t -> begins r [] t.
Proof. intros (cp & t' & H1 & H2 & H3 & _). exists cp, t'. repeat split; trivial; try apply H1. discriminate. Qed.
Lemma begins_app t s : begins r [] t -> begins r [] (t ++ s).
Proof. intros (cp & t' & H1 & H2 & -> & _). exists cp, (t' ++ s). rewrite app_assoc. repeat split; trivial; try apply H1. discriminate. Qed.

Section Back.
Context {L X : Type}.
Variable leaf : L -> specs -> list Z -> outcome (X * list Z).
Variable leaf_text : L -> specs -> X -> list Z -> Prop.
Variable stop : Z -> Prop.
Hypothesis leaf_back : forall l sp x t ws tail, leaf_text l sp x t -> begins r [] t -> spaces r ws ->
  follows r stop tail -> units e (enc_text r ws ++ t ++ tail) ->
  leaf l sp (enc_text r ws ++ t ++ tail) = Ok (x, tail).

Lemma follows_mark ws m : spaces r ws -> mark stop m -> follows r stop (enc_text r ws ++ m).
Proof.
  intros Hw Hm. right. destruct Hw as [|c ws [[Sc _] Hs] Hw].
  - destruct (mark_cp _ _ Hm) as (d & m' & E & Hp & Hn & Hd & Hst & _). exists d, m'. cbn.
    repeat split; trivial; try apply Hp. right. auto.
  - exists c, (enc_text r ws ++ m). cbn [enc_text text flat_map]. rewrite <- app_assoc. auto.
Qed.
Lemma remains_mark (sh : shape L) ws m : spaces r ws -> mark stop m ->
  exists w', spaces r w' /\ remains r stop sh (enc_text r ws ++ m) (enc_text r w' ++ m).
Proof.
  intros Hw Hm. destruct sh as [l|n p s|p ss]; cbn [remains].
  - exists ws. repeat split; trivial. now apply follows_mark.
  - destruct (p_close p); [exists []|exists ws]; split; trivial; [constructor|]. exists ws. auto.
  - destruct (p_close p); [exists []|exists ws]; split; trivial; [constructor|]. exists ws. auto.
Qed.

(** The loop over the elements of a tuple. *)
Definition tup_loop (p : punct) := fix go (es : list (shape L)) (first : bool) (s : list Z)
   : outcome (list (value X) * list Z) :=
   match es with
   | [] => Ok ([], s)
   | e :: es' =>
       it <- (if first then Ok s else scan_str r (p_sep p) s) ;;
       '(v, it) <- scan_shape r leaf e specs_default it ;;
       '(vs, it) <- go es' false it ;;
       Ok (v :: vs, it)
   end.

Scheme wrote_m := Minimality for wrote Sort Prop
  with items_m := Minimality for wrote_items Sort Prop
  with more_m := Minimality for wrote_more Sort Prop.
Combined Scheme wrote_all from wrote_m, items_m, more_m.

Definition P (sp : specs) (sh : shape L) (v : value X) (t : list Z) : Prop :=
  forall ws tail out, spaces r ws -> begins r [] (t ++ tail) -> units e (enc_text r ws ++ t ++ tail) ->
  (match sh with SLeaf _ => begins r [] t | _ => True end) ->
  remains r stop sh tail out -> scan_shape r leaf sh sp (enc_text r ws ++ t ++ tail) = Ok (v, out).
Definition loops (sp : specs) (sep avoid : list Z) (es : list (shape L)) (vs : list (value X)) first (s : list Z) m : Prop :=
  (forall p, sp = specs_default -> p_sep p = sep -> exists w', spaces r w' /\
     tup_loop p es first s = Ok (vs, enc_text r w' ++ m))
  /\ (forall p n sh rest, es = map (fun _ => sh) vs -> p_sep p = sep -> p_close p = avoid -> mark stop avoid ->
     hd 0 sep <> hd 0 avoid -> (length vs <= n)%nat -> m = avoid ++ rest -> exists w', spaces r w' /\
     seq_loop r p (scan_shape r leaf sh sp) n first s = Ok (vs, enc_text r w' ++ m)).

Definition Qi sep avoid sp es vs t : Prop := forall wt m, spaces r wt -> mark stop m -> mark stop sep ->
  units e (t ++ enc_text r wt ++ m) -> loops sp sep avoid es vs true (t ++ enc_text r wt ++ m) m.
Definition Qm sep sp es vs t : Prop := (forall m, mark stop sep -> t <> [] -> mark stop (t ++ m)) /\
  forall avoid w' wt m, spaces r w' -> spaces r wt -> mark stop m -> mark stop sep ->
  units e (enc_text r w' ++ t ++ enc_text r wt ++ m) ->
  loops sp sep avoid es vs false (enc_text r w' ++ t ++ enc_text r wt ++ m) m.

Lemma more_after t ts sp sep es vs sh v w2 wt m : P sp sh v t -> Qm sep sp es vs ts ->
  spaces r w2 -> spaces r wt -> mark stop m -> mark stop sep -> begins r [] t ->
  forall ws, spaces r ws -> units e (enc_text r ws ++ t ++ enc_text r w2 ++ ts ++ enc_text r wt ++ m) ->
  exists out, scan_shape r leaf sh sp (enc_text r ws ++ t ++ enc_text r w2 ++ ts ++ enc_text r wt ++ m) = Ok (v, out)
    /\ forall avoid, loops sp sep avoid es vs false out m.
Proof.
  intros HP [HM HQ] H2 Ht Hm Hs Hb ws Hw Hu.
  destruct ts as [|c ts].
  - cbn [app] in *. rewrite (app_assoc (enc_text r w2)) in *. rewrite <- enc_app in *.
    destruct (remains_mark sh (w2 ++ wt) m (spaces_app _ _ H2 Ht) Hm) as (w' & Hw' & HR).
    eexists. split; [apply HP; trivial; [now apply begins_app|now destruct sh|exact HR]|].
    intros avoid. apply (HQ avoid w' [] m); trivial using spaces_nil. cbn [app enc_text text flat_map].
    apply units_tail', units_tail', units_tail' in Hu. now apply units_spaces.
  - set (tt := c :: ts) in *. specialize (HM (enc_text r wt ++ m) Hs ltac:(discriminate)).
    destruct (remains_mark sh w2 _ H2 HM) as (w' & Hw' & HR).
    eexists. split; [apply HP; trivial; [now apply begins_app|now destruct sh|exact HR]|].
    intros avoid. apply HQ; trivial.
    apply units_tail', units_tail', units_tail' in Hu. now apply units_spaces.
Qed.

Lemma loops_first sp sep avoid es vs sh v t w1 w2 ts wt m : spaces r w1 -> spaces r w2 -> spaces r wt ->
  P sp sh v t -> begins r avoid t -> Qm sep sp es vs ts -> mark stop m -> mark stop sep ->
  units e (enc_text r w1 ++ t ++ enc_text r w2 ++ ts ++ enc_text r wt ++ m) ->
  loops sp sep avoid (sh :: es) (v :: vs) true (enc_text r w1 ++ t ++ enc_text r w2 ++ ts ++ enc_text r wt ++ m) m.
Proof.
  intros H1 H2 Ht HP Hb HQ Hm Hs Hu.
  destruct (more_after t ts sp sep es vs sh v w2 wt m HP HQ H2 Ht Hm Hs (begins_weak _ _ Hb) w1 H1 Hu)
    as (out & E & HL). destruct (HL avoid) as [L1 L2]. split.
  - intros p Ep Es. destruct (L1 p Ep Es) as (w' & Hw' & EL). exists w'. split; trivial.
    cbn [tup_loop bind]. fold (tup_loop p). subst sp. rewrite E. cbn [bind]. rewrite EL. reflexivity.
  - intros p [|n] sh' rest Ees Es Ec Ha Hh Hl Em; [cbn in Hl; lia|].
    cbn [map] in Ees. injection Ees as E1 E2. subst sh'.
    destruct (L2 p n sh rest E2 Es Ec Ha Hh ltac:(cbn in Hl; lia) Em) as (w' & Hw' & EL). exists w'. split; trivial.
    cbn [seq_loop]. rewrite Ec. destruct Ha as (c & a & -> & _). rewrite scan_other by trivial. cbn [bind].
    rewrite E. cbn [bind]. rewrite EL. reflexivity.
Qed.

Lemma back_all :
  (forall sp sh v t, wrote r leaf_text stop sp sh v t -> P sp sh v t)
  /\ (forall sep avoid sp es vs t, wrote_items r leaf_text stop sep avoid sp es vs t -> Qi sep avoid sp es vs t)
  /\ (forall sep sp es vs t, wrote_more r leaf_text stop sep sp es vs t -> Qm sep sp es vs t).
Proof.
  apply wrote_all.
  - (* leaf *) intros sp l x t Hl ws tail out Hw Hb Hu Hbt [Hf ->]. cbn [scan_shape].
    rewrite (leaf_back l sp x) by trivial. reflexivity.
  - (* sequence *)
    intros sp n p sh vs t Ho Hc Hs Hh Hl _ HQ ws tail out Hw Hb Hu _ HR.
    rewrite <- !app_assoc in *. cbn [scan_shape].
    assert (E1 : scan_str r (p_open p) (enc_text r ws ++ p_open p ++ t ++ p_close p ++ tail)
                 = Ok (t ++ p_close p ++ tail)).
    { destruct Ho as [Ho|Ho]; [rewrite Ho in *; now apply scan_empty|]. eapply scan_mark; eassumption. }
    rewrite E1. cbn [bind]. apply units_tail', units_tail' in Hu.
    destruct (HQ [] (p_close p ++ tail) spaces_nil (mark_app _ _ _ Hc) Hs) as [_ H2]; [exact Hu|].
    destruct (H2 p n sh tail eq_refl eq_refl eq_refl Hc Hh Hl eq_refl) as (w' & Hw' & EL).
    cbn [enc_text text flat_map app] in EL. rewrite EL. cbn [bind].
    erewrite scan_mark; try eassumption; [|apply units_spaces; trivial; now apply units_tail' in Hu]. cbn [bind].
    cbn [remains] in HR. destruct Hc as (c & c' & Ec & _). rewrite Ec in HR. now subst.
  - (* tuple *)
    intros sp p es vs t Ho Hc Hs _ HQ ws tail out Hw Hb Hu _ HR.
    rewrite <- !app_assoc in *. cbn [scan_shape]. fold (tup_loop p).
    assert (E1 : scan_str r (p_open p) (enc_text r ws ++ p_open p ++ t ++ p_close p ++ tail)
                 = Ok (t ++ p_close p ++ tail)).
    { destruct Ho as [Ho|Ho]; [rewrite Ho in *; now apply scan_empty|]. eapply scan_mark; eassumption. }
    rewrite E1. cbn [bind]. apply units_tail', units_tail' in Hu. cbn [remains] in HR.
    destruct Hc as [Hc|Hc].
    + rewrite Hc in *. destruct HR as (wt & Hwt & -> & Hm). cbn [app] in *.
      destruct (HQ wt out Hwt Hm Hs Hu) as [H1 _]. destruct (H1 p eq_refl eq_refl) as (w' & Hw' & EL).
      rewrite EL. cbn [bind]. rewrite scan_empty; trivial; [now apply mark_begins with (stop := stop)|].
      apply units_spaces; trivial. now apply units_tail', units_tail' in Hu.
    + destruct (HQ [] (p_close p ++ tail) spaces_nil (mark_app _ _ _ Hc) Hs) as [H1 _]; [exact Hu|].
      destruct (H1 p eq_refl eq_refl) as (w' & Hw' & EL).
      cbn [enc_text text flat_map app] in EL. rewrite EL. cbn [bind].
      erewrite scan_mark; try eassumption; [|apply units_spaces; trivial; now apply units_tail' in Hu]. cbn [bind].
      destruct Hc as (c & c' & Ec & _). rewrite Ec in HR. now subst.
  - (* no items *)
    intros sep avoid sp w Hw wt m Ht Hm Hs Hu. rewrite app_assoc, <- enc_app in *. pose proof (spaces_app _ _ Hw Ht) as Hwt. split.
    + intros p _ _. exists (w ++ wt). split; trivial.
    + intros p n sh rest _ _ Ec Ha _ _ ->. exists (w ++ wt). split; trivial.
      destruct n; [reflexivity|]. cbn [seq_loop]. rewrite Ec. erewrite scan_mark by eassumption. reflexivity.
  - (* items *)
    intros sep avoid sp sh es v vs w1 w2 t ts H1 H2 _ HP Hb _ HQ wt m Ht Hm Hs Hu.
    rewrite <- !app_assoc in *. apply loops_first; trivial.
  - (* no more *)
    intros sep sp. split; [congruence|]. intros avoid w wt m Hw Ht Hm Hs Hu. cbn [app] in *.
    rewrite app_assoc, <- enc_app in *. pose proof (spaces_app _ _ Hw Ht) as Hwt. split.
    + intros p _ _. exists (w ++ wt). split; trivial.
    + intros p n sh rest _ _ Ec Ha _ _ ->. exists (w ++ wt). split; trivial.
      destruct n; [reflexivity|]. cbn [seq_loop]. rewrite Ec. erewrite scan_mark by eassumption. reflexivity.
  - (* more *)
    intros sep sp sh es v vs w1 w2 t ts H1 H2 _ HP Hb _ HQ. split; [intros m Hs _; rewrite <- app_assoc; now apply mark_app|].
    intros avoid w' wt m Hw' Ht Hm Hs Hu. rewrite <- !app_assoc in *.
    assert (Hu' := units_tail' _ _ (units_tail' _ _ Hu)).
    destruct (more_after t ts sp sep es vs sh v w2 wt m HP HQ H2 Ht Hm Hs Hb w1 H1 Hu')
      as (out & E & HL). destruct (HL avoid) as [L1 L2]. split.
    + intros p Ep Es. destruct (L1 p Ep Es) as (w'' & Hw'' & EL). exists w''. split; trivial.
      cbn [tup_loop]. fold (tup_loop p). subst sp. rewrite Es. erewrite scan_mark by eassumption. cbn [bind].
      rewrite E. cbn [bind]. rewrite EL. reflexivity.
    + intros p [|n] sh' rest Ees Es Ec Ha Hh Hl Em; [cbn in Hl; lia|].
      cbn [map] in Ees. injection Ees as E1 E2. subst sh'.
      destruct (L2 p n sh rest E2 Es Ec Ha Hh ltac:(cbn in Hl; lia) Em) as (w'' & Hw'' & EL). exists w''. split; trivial.
      cbn [seq_loop]. rewrite Ec. destruct Ha as (c & a & -> & _).
      rewrite (mark_other stop); trivial; [|now apply mark_app|].
      2: { destruct Hs as (d & sep' & -> & _). cbn in *. exact Hh. }
      rewrite Es. erewrite scan_mark by eassumption. cbn [bind].
      rewrite E. cbn [bind]. rewrite EL. reflexivity.
Qed.
End Back.
End R.

(** ** Safety *)
Section Shapes.
Context {L : Type}.
Variable Q : shape L -> Prop.
Hypothesis Hl : forall l, Q (SLeaf l).
Hypothesis Hs : forall n p sh, Q sh -> Q (SSeq n p sh).
Hypothesis Ht : forall p es, Forall Q es -> Q (STup p es).
Fixpoint shape_all (sh : shape L) : Q sh :=
  match sh with
  | SLeaf l => Hl l
  | SSeq n p sh' => Hs n p sh' (shape_all sh')
  | STup p es => Ht p es ((fix go es : Forall Q es :=
                             match es with
                             | [] => Forall_nil _
                             | x :: es' => Forall_cons _ (shape_all x) (go es')
                             end) es)
  end.
End Shapes.

Lemma specs_for_default {L} (okspec : L -> specs -> Prop) : (forall l, okspec l specs_default) ->
  forall sh, specs_for okspec sh specs_default.
Proof. intros H. induction sh as [l|n p sh IH|p es IH] using shape_all; cbn; auto. Qed.
Lemma expect_inv str s s' : expect str s = Ok s' -> s = str ++ s'.
Proof.
  revert s. induction str as [|c str IH]; intros s H; [now injection H|].
  destruct s as [|d s]; [discriminate|]. cbn [expect] in H. destruct (Z.eqb_spec c d) as [->|]; [|discriminate].
  cbn [app]. f_equal. auto.
Qed.
Lemma skip_nonempty r s s' : skip_classic_whitespace r s false = Ok s' -> s' <> [].
Proof.
  unfold skip_classic_whitespace. destruct (read_while_classic_space r s) as [[|]| | |]; cbn [bind]; congruence.
Qed.

Section Safe.
Context {L X : Type}.
Variable r : src.
Variable leaf : L -> specs -> list Z -> outcome (X * list Z).
Notation e := (s_enc r).
Variable okspec : L -> specs -> Prop.
Hypothesis default_ok : forall l, okspec l specs_default.
Hypothesis leaf_safe : forall l sp s, okspec l sp -> units e s ->
  (exists x s', leaf l sp s = Ok (x, s') /\ suffix s' s) \/ exists er, leaf l sp s = Err er.

(** The errors that can come out. *)
Definition from_leaf (er : err) : Prop := exists l sp s, leaf l sp s = Err er.
Definition syntax_error (er : err) : Prop := er = EndOfInput \/ er = InvalidScannedValue \/ from_leaf er.

Lemma scan_str_total str s : (length str <= 1)%nat -> units e s ->
  (exists s', scan_str r str s = Ok s' /\ suffix s' s)
  \/ scan_str r str s = Err EndOfInput \/ scan_str r str s = Err InvalidScannedValue.
Proof.
  intros Hl Hu. unfold scan_str.
  destruct (skip_classic_whitespace_total r s false Hu) as [(s' & E & HS)|E]; rewrite E; cbn [bind]; [|auto].
  apply skip_nonempty in E. destruct s' as [|d s']; [contradiction|].
  destruct str as [|c [|]]; cbn [length] in Hl; [|destruct (Z.eqb_spec c d) as [->|]|lia]; cbn [expect].
  - left. eauto.
  - left. rewrite Z.eqb_refl. exists s'. split; trivial. destruct HS as [u ->]. exists (u ++ [d]). now rewrite <- app_assoc.
  - right. right. rewrite (proj2 (Z.eqb_neq c d)) by trivial. reflexivity.
Qed.
Definition total {V} (s : list Z) (o : outcome (V * list Z)) : Prop :=
  (exists v s', o = Ok (v, s') /\ suffix s' s) \/ exists er, o = Err er /\ syntax_error er.
Lemma suffix_tr (a b c : list Z) : suffix a b -> suffix b c -> suffix a c.
Proof. intros [u ->] [w ->]. exists (w ++ u). now rewrite app_assoc. Qed.
Lemma suffix_self (a : list Z) : suffix a a.
Proof. now exists []. Qed.

Lemma seq_loop_total {V} p (elem : list Z -> outcome (V * list Z)) :
  (forall s, units e s -> total s (elem s)) -> (length (p_close p) <= 1)%nat -> (length (p_sep p) <= 1)%nat ->
  forall n first s, units e s -> total s (seq_loop r p elem n first s).
Proof.
  intros HE Hc Hs. induction n as [|n IH]; intros first s Hu; cbn [seq_loop].
  - left. exists [], s. split; trivial using suffix_self.
  - destruct (scan_str_total (p_close p) s Hc Hu) as [(s' & -> & _)|HX].
    { left. exists [], s. split; trivial using suffix_self. }
    assert (G : total s (it <- (if first then Ok s else scan_str r (p_sep p) s) ;;
        '(v, it0) <- elem it ;; '(vs, it1) <- seq_loop r p elem n false it0 ;; Ok (v :: vs, it1))).
    { assert (HT : (exists s', (if first then Ok s else scan_str r (p_sep p) s) = Ok s' /\ suffix s' s)
          \/ exists er, (if first then Ok s else scan_str r (p_sep p) s) = Err er /\ syntax_error er).
      { destruct first; [left; exists s; split; trivial using suffix_self|].
        destruct (scan_str_total (p_sep p) s Hs Hu) as [H|[H|H]]; [left; exact H| |]; right; rewrite H; eexists; split; trivial.
        - now left.
        - right. now left. }
      destruct HT as [(s1 & -> & S1)|(er & -> & Er)]; [|right; exists er; split; trivial]. cbn [bind].
      destruct (HE s1 (units_suffix _ _ _ S1 Hu)) as [(v & s2 & -> & S2)|(er & -> & Er)]; [|right; exists er; split; trivial].
      cbn [bind]. assert (S3 := suffix_tr _ _ _ S2 S1).
      destruct (IH false s2 (units_suffix _ _ _ S3 Hu)) as [(vs & s3 & -> & S4)|(er & -> & Er)]; [|right; exists er; split; trivial].
      cbn [bind]. left. exists (v :: vs), s3. split; trivial. eapply suffix_tr; eassumption. }
    destruct HX as [-> | ->]; exact G.
Qed.

Lemma scan_shape_total sh : short sh -> forall sp s, specs_for okspec sh sp -> units e s -> total s (scan_shape r leaf sh sp s).
Proof.
  induction sh as [l|n p sh IH|p es IH] using shape_all; intros Hsh sp s Hok Hu; cbn [scan_shape].
  - destruct (leaf_safe l sp s Hok Hu) as [(x & s' & -> & S1)|(er & E)].
    + left. exists (VLeaf x), s'. split; trivial.
    + right. exists er. rewrite E. split; trivial. right. right. now exists l, sp, s.
  - destruct Hsh as [(Ho & Hc & Hs) Hsh].
    destruct (scan_str_total (p_open p) s Ho Hu) as [(s1 & -> & S1)|HX].
    2: { right. destruct HX as [-> | ->]; eexists; split; try reflexivity; unfold syntax_error; auto. }
    cbn [bind].
    destruct (seq_loop_total p (scan_shape r leaf sh sp) (fun s => IH Hsh sp s Hok) Hc Hs n true s1 (units_suffix _ _ _ S1 Hu))
      as [(vs & s2 & -> & S2)|(er & -> & Er)]; [|right; exists er; split; trivial]. cbn [bind].
    assert (S3 := suffix_tr _ _ _ S2 S1).
    destruct (scan_str_total (p_close p) s2 Hc (units_suffix _ _ _ S3 Hu)) as [(s3 & -> & S4)|HX].
    2: { right. destruct HX as [-> | ->]; eexists; split; try reflexivity; unfold syntax_error; auto. }
    left. exists (VSeq vs), s3. split; trivial. eapply suffix_tr; eassumption.
  - destruct Hsh as [(Ho & Hc & Hs) Hsh].
    destruct (scan_str_total (p_open p) s Ho Hu) as [(s1 & -> & S1)|HX].
    2: { right. destruct HX as [-> | ->]; eexists; split; try reflexivity; unfold syntax_error; auto. }
    cbn [bind]. fold (tup_loop r leaf p).
    assert (G : forall first s, units e s -> total s (tup_loop r leaf p es first s)).
    { clear - IH Hsh Hs leaf_safe default_ok. induction IH as [|sh es H IH IHL]; intros first s Hu.
      - left. exists [], s. split; trivial using suffix_self.
      - destruct Hsh as [Hsh1 Hsh2]. cbn [tup_loop]. fold (tup_loop r leaf p).
        assert (HT : (exists s', (if first then Ok s else scan_str r (p_sep p) s) = Ok s' /\ suffix s' s)
          \/ exists er, (if first then Ok s else scan_str r (p_sep p) s) = Err er /\ syntax_error er).
        { destruct first; [left; exists s; split; trivial using suffix_self|].
          destruct (scan_str_total (p_sep p) s Hs Hu) as [H0|[H0|H0]]; [left; exact H0| |]; right; rewrite H0; eexists; split; trivial.
          - now left.
          - right. now left. }
        destruct HT as [(s1 & -> & S1)|(er & -> & Er)]; [|right; exists er; split; trivial]. cbn [bind].
        destruct (H Hsh1 specs_default s1 (specs_for_default okspec default_ok sh) (units_suffix _ _ _ S1 Hu)) as [(v & s2 & -> & S2)|(er & -> & Er)]; [|right; exists er; split; trivial].
        cbn [bind]. assert (S3 := suffix_tr _ _ _ S2 S1).
        destruct (IHL Hsh2 false s2 (units_suffix _ _ _ S3 Hu)) as [(vs & s3 & -> & S4)|(er & -> & Er)]; [|right; exists er; split; trivial].
        cbn [bind]. left. exists (v :: vs), s3. split; trivial. eapply suffix_tr; eassumption. }
    destruct (G true s1 (units_suffix _ _ _ S1 Hu)) as [(vs & s2 & -> & S2)|(er & -> & Er)]; [|right; exists er; split; trivial]. cbn [bind].
    assert (S3 := suffix_tr _ _ _ S2 S1).
    destruct (scan_str_total (p_close p) s2 Hc (units_suffix _ _ _ S3 Hu)) as [(s3 & -> & S4)|HX].
    2: { right. destruct HX as [-> | ->]; eexists; split; try reflexivity; unfold syntax_error; auto. }
    left. exists (VTup vs), s3. split; trivial. eapply suffix_tr; eassumption.
Qed.

(** ** The accepted syntax *)
Hypothesis Hg : good_src r.

Lemma scan_str_token str s : units e s ->
  (forall s', scan_str r str s = Ok s' <-> token e str s s').
Proof.
  intros Hu s'. unfold scan_str, token, skip_classic_whitespace. rewrite (read_while_drop r s Hg Hu). cbn [bind].
  destruct (drop_space e s) as [|c l] eqn:E; cbn [bind].
  - split; [discriminate|intros [_ H]; congruence].
  - split.
    + intros H. apply expect_inv in H. split; [exact H|discriminate].
    + intros [H _]. rewrite H. apply expect_app.
Qed.
Lemma token_suffix str s s' : token e str s s' -> suffix s' s.
Proof.
  intros [H _]. eapply suffix_tr; [|apply (drop_space_suffix e s)]. rewrite H. now exists str.
Qed.
Lemma step_token (first : bool) sep s s1 : units e s ->
  ((if first then Ok s else scan_str r sep s) = Ok s1 <-> (if first then s1 = s else token e sep s s1)).
Proof.
  intros Hu. destruct first; [split; congruence|]. now apply scan_str_token.
Qed.

Lemma seq_loop_reads p sh sp :
  (forall s v s', units e s -> scan_shape r leaf sh sp s = Ok (v, s') -> reads e leaf sp sh v s s' /\ suffix s' s) ->
  forall n first s vs s', units e s -> seq_loop r p (scan_shape r leaf sh sp) n first s = Ok (vs, s') ->
  reads_items e leaf (p_sep p) (p_close p) sp n sh first vs s s' /\ suffix s' s.
Proof.
  intros HE. induction n as [|n IH]; intros first s vs s' Hu E; cbn [seq_loop] in E.
  - injection E as <- <-. split; [constructor; auto|apply suffix_self].
  - destruct (scan_str r (p_close p) s) as [t|er| |] eqn:EC; try discriminate.
    + injection E as <- <-. split; [|apply suffix_self]. constructor. right. exists t. now apply scan_str_token.
    + destruct (if first then Ok s else scan_str r (p_sep p) s) as [s1| | |] eqn:E1; try discriminate. cbn [bind] in E.
      apply step_token in E1; [|exact Hu].
      assert (S1 : suffix s1 s) by (destruct first; [subst; apply suffix_self|eapply token_suffix; eassumption]).
      destruct (scan_shape r leaf sh sp s1) as [[v s2]| | |] eqn:E2; try discriminate. cbn [bind] in E.
      destruct (HE _ _ _ (units_suffix _ _ _ S1 Hu) E2) as [R2 S2]. assert (S3 := suffix_tr _ _ _ S2 S1).
      destruct (seq_loop r p (scan_shape r leaf sh sp) n false s2) as [[vs' s3]| | |] eqn:E3; try discriminate. cbn [bind] in E.
      injection E as <- <-. destruct (IH _ _ _ _ (units_suffix _ _ _ S3 Hu) E3) as [R3 S4].
      split; [|eapply suffix_tr; eassumption]. econstructor; try eassumption.
      intros [t Ht]. apply scan_str_token in Ht; [|exact Hu]. congruence.
Qed.

Lemma scan_shape_reads sh : forall sp s v s', specs_for okspec sh sp -> units e s -> scan_shape r leaf sh sp s = Ok (v, s') ->
  reads e leaf sp sh v s s' /\ suffix s' s.
Proof.
  induction sh as [l|n p sh IH|p es IH] using shape_all; intros sp s v s' Hok Hu E; cbn [scan_shape] in E.
  - destruct (leaf_safe l sp s Hok Hu) as [(x & s1 & E1 & S1)|(er & E1)]; rewrite E1 in E; [|discriminate].
    injection E as <- <-. split; trivial. now constructor.
  - destruct (scan_str r (p_open p) s) as [s1| | |] eqn:E1; try discriminate. cbn [bind] in E.
    apply scan_str_token in E1; [|exact Hu]. assert (S1 := token_suffix _ _ _ E1).
    destruct (seq_loop r p (scan_shape r leaf sh sp) n true s1) as [[vs s2]| | |] eqn:E2; try discriminate. cbn [bind] in E.
    destruct (seq_loop_reads p sh sp (fun s v s' => IH sp s v s' Hok) n true s1 vs s2 (units_suffix _ _ _ S1 Hu) E2) as [R2 S2].
    assert (S3 := suffix_tr _ _ _ S2 S1).
    destruct (scan_str r (p_close p) s2) as [s3| | |] eqn:E3; try discriminate. cbn [bind] in E.
    apply scan_str_token in E3; [|exact (units_suffix _ _ _ S3 Hu)]. injection E as <- <-.
    split; [econstructor; eassumption|]. eapply suffix_tr; [eapply token_suffix; exact E3|exact S3].
  - destruct (scan_str r (p_open p) s) as [s1| | |] eqn:E1; try discriminate. cbn [bind] in E.
    apply scan_str_token in E1; [|exact Hu]. assert (S1 := token_suffix _ _ _ E1).
    fold (tup_loop r leaf p) in E.
    destruct (tup_loop r leaf p es true s1) as [[vs s2]| | |] eqn:E2; try discriminate. cbn [bind] in E.
    assert (G : forall first s vs s', units e s -> tup_loop r leaf p es first s = Ok (vs, s') ->
      reads_each e leaf (p_sep p) es first vs s s' /\ suffix s' s).
    { clear - IH Hg default_ok. induction IH as [|sh es H IH IHL]; intros first s vs s' Hu E.
      - injection E as <- <-. split; [constructor|apply suffix_self].
      - cbn [tup_loop] in E. fold (tup_loop r leaf p) in E.
        destruct (if first then Ok s else scan_str r (p_sep p) s) as [s1| | |] eqn:E1; try discriminate. cbn [bind] in E.
        apply step_token in E1; [|exact Hu].
        assert (S1 : suffix s1 s) by (destruct first; [subst; apply suffix_self|eapply token_suffix; eassumption]).
        destruct (scan_shape r leaf sh specs_default s1) as [[v s2]| | |] eqn:E2; try discriminate. cbn [bind] in E.
        destruct (H _ _ _ _ (specs_for_default okspec default_ok sh) (units_suffix _ _ _ S1 Hu) E2) as [R2 S2]. assert (S3 := suffix_tr _ _ _ S2 S1).
        destruct (tup_loop r leaf p es false s2) as [[vs' s3]| | |] eqn:E3; try discriminate. cbn [bind] in E.
        injection E as <- <-. destruct (IHL _ _ _ _ (units_suffix _ _ _ S3 Hu) E3) as [R3 S4].
        split; [|eapply suffix_tr; eassumption]. econstructor; eassumption. }
    destruct (G true s1 vs s2 (units_suffix _ _ _ S1 Hu) E2) as [R2 S2].
    assert (S3 := suffix_tr _ _ _ S2 S1).
    destruct (scan_str r (p_close p) s2) as [s3| | |] eqn:E3; try discriminate. cbn [bind] in E.
    apply scan_str_token in E3; [|exact (units_suffix _ _ _ S3 Hu)]. injection E as <- <-.
    split; [econstructor; eassumption|]. eapply suffix_tr; [eapply token_suffix; exact E3|exact S3].
Qed.

(** Conversely. *)
Lemma not_token str s : (length str <= 1)%nat -> units e s -> ~ (exists s', token e str s s') ->
  exists er, scan_str r str s = Err er.
Proof.
  intros Hl Hu Hn. destruct (scan_str_total str s Hl Hu) as [(s' & E & _)|[E|E]]; eauto.
  exfalso. apply Hn. exists s'. now apply scan_str_token.
Qed.

Scheme reads_m := Minimality for reads Sort Prop
  with reads_items_m := Minimality for reads_items Sort Prop
  with reads_each_m := Minimality for reads_each Sort Prop.
Combined Scheme reads_all from reads_m, reads_items_m, reads_each_m.

Lemma reads_scan :
  (forall sp sh v s s', reads e leaf sp sh v s s' -> short sh -> specs_for okspec sh sp -> units e s ->
     scan_shape r leaf sh sp s = Ok (v, s') /\ suffix s' s)
  /\ (forall sep close sp n sh first vs s s', reads_items e leaf sep close sp n sh first vs s s' ->
     short sh -> specs_for okspec sh sp -> (length close <= 1)%nat -> units e s ->
     forall p, p_sep p = sep -> p_close p = close ->
     seq_loop r p (scan_shape r leaf sh sp) n first s = Ok (vs, s') /\ suffix s' s)
  /\ (forall sep es first vs s s', reads_each e leaf sep es first vs s s' ->
     Forall short es -> units e s -> forall p, p_sep p = sep ->
     tup_loop r leaf p es first s = Ok (vs, s') /\ suffix s' s).
Proof.
  apply reads_all.
  - intros sp l x s s' E _ Hok Hu. cbn [scan_shape]. destruct (leaf_safe l sp s Hok Hu) as [(x1 & s1 & E1 & S1)|(er & E1)]; [|congruence].
    rewrite E in E1. injection E1 as <- <-. rewrite E. auto.
  - intros sp n p sh vs s s1 s2 s3 T1 _ IH T3 [(Ho & Hc & Hs) Hsh] Hok Hu.
    assert (S1 := token_suffix _ _ _ T1). assert (U1 := units_suffix _ _ _ S1 Hu).
    destruct (IH Hsh Hok Hc U1 p eq_refl eq_refl) as [E2 S2]. assert (S3 := suffix_tr _ _ _ S2 S1).
    assert (U2 := units_suffix _ _ _ S3 Hu).
    split; [|eapply suffix_tr; [eapply token_suffix; exact T3|exact S3]].
    cbn [scan_shape]. apply scan_str_token in T1; trivial. rewrite T1. cbn [bind]. rewrite E2. cbn [bind].
    apply scan_str_token in T3; trivial. rewrite T3. reflexivity.
  - intros sp p es vs s s1 s2 s3 T1 _ IH T3 [(Ho & Hc & Hs) Hsh] Hok Hu.
    assert (S1 := token_suffix _ _ _ T1). assert (U1 := units_suffix _ _ _ S1 Hu).
    destruct (IH ltac:(clear - Hsh; induction es as [|x es IH]; constructor; tauto) U1 p eq_refl) as [E2 S2]. assert (S3 := suffix_tr _ _ _ S2 S1).
    assert (U2 := units_suffix _ _ _ S3 Hu).
    split; [|eapply suffix_tr; [eapply token_suffix; exact T3|exact S3]].
    cbn [scan_shape]. fold (tup_loop r leaf p). apply scan_str_token in T1; trivial. rewrite T1. cbn [bind]. rewrite E2. cbn [bind].
    apply scan_str_token in T3; trivial. rewrite T3. reflexivity.
  - intros sep close sp n sh first s Hn Hsh Hok Hc Hu p Es Ec. split; [|apply suffix_self].
    destruct n as [|n]; [reflexivity|]. destruct Hn as [Hn|[s' T]]; [discriminate|].
    cbn [seq_loop]. rewrite Ec. apply scan_str_token in T; trivial. rewrite T. reflexivity.
  - intros sep close sp n sh first v vs s s1 s2 s3 Hn T1 _ IH1 _ IH2 Hsh Hok Hc Hu p Es Ec.
    destruct (not_token close s Hc Hu Hn) as [er E0].
    assert (S1 : suffix s1 s) by (destruct first; [subst; apply suffix_self|eapply token_suffix; eassumption]).
    destruct (IH1 Hsh Hok (units_suffix _ _ _ S1 Hu)) as [E1 S2]. assert (S3 := suffix_tr _ _ _ S2 S1).
    destruct (IH2 Hsh Hok Hc (units_suffix _ _ _ S3 Hu) p Es Ec) as [E2 S4].
    split; [|eapply suffix_tr; eassumption]. cbn [seq_loop]. rewrite Ec, E0, Es.
    apply step_token in T1; trivial. rewrite T1. cbn [bind]. rewrite E1. cbn [bind]. rewrite E2. reflexivity.
  - intros sep first s _ Hu p Es. split; [reflexivity|apply suffix_self].
  - intros sep first sh es v vs s s1 s2 s3 T1 _ IH1 _ IH2 Hsh Hu p Es. inversion_clear Hsh as [|? ? H1 H2].
    assert (S1 : suffix s1 s) by (destruct first; [subst; apply suffix_self|eapply token_suffix; eassumption]).
    destruct (IH1 H1 (specs_for_default okspec default_ok sh) (units_suffix _ _ _ S1 Hu)) as [E1 S2]. assert (S3 := suffix_tr _ _ _ S2 S1).
    destruct (IH2 H2 (units_suffix _ _ _ S3 Hu) p Es) as [E2 S4].
    split; [|eapply suffix_tr; eassumption]. cbn [tup_loop]. fold (tup_loop r leaf p). rewrite Es.
    apply step_token in T1; trivial. rewrite T1. cbn [bind]. rewrite E1. cbn [bind]. rewrite E2. reflexivity.
Qed.
End Safe.
