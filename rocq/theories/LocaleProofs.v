(** What reaches the readers does not depend on the locale without 'L'. *)
From Verif Require Import Prelude UnicodeModel ReadModel ReadProofs SpecsModel WidthModel FormatModel FormatProofs ArgsModel
  SpecsInvProofs UnicodeProofs IntModel ArgReaderModel ScalarModel StringModel FloatModel RangesModel VscanModel LocaleModel LocaleSpec.
Local Open Scope Z_scope.

(** ** format_specs of a format-spec without 'L' *)
Lemma before_app p q : Forall (fun c => c <> 125) p -> before_brace (p ++ q) = p ++ before_brace q.
Proof.
  induction 1 as [|c p Hc _ IH]; [reflexivity|]. cbn [app before_brace]. destruct (Z.eqb_spec c 125); [contradiction|].
  rewrite IH. reflexivity.
Qed.
(** [s] lies in [b] so that what is between is the first character, if anything, and no
    closing brace. *)
Definition reach (e : enc) (b s : list Z) : Prop :=
  s = b \/ exists c t p, b = c :: t /\ skipn (character_length e c - 1) t = p ++ s /\ Forall (fun c => c <> 125) p.
Lemma reach_start e b s : reach e b (76 :: s) -> In 76 (spec_start e b).
Proof.
  intros [<-|(c & t & p & -> & E & Hp)]; [left; reflexivity|]. cbn [spec_start]. right. rewrite E, before_app by exact Hp.
  apply in_or_app. right. left. reflexivity.
Qed.
Lemma reach_step e b p s : reach e b (p ++ s) -> Forall (fun c => c <> 125 /\ 0 <= c < 0x80) p -> reach e b s.
Proof.
  intros H Hp. assert (Hp' : Forall (fun c => c <> 125) p) by (eapply Forall_impl; [|exact Hp]; cbn; tauto).
  destruct H as [<-|(c & t & q & -> & E & Hq)].
  - destruct Hp as [|c p [_ Hc] Hp]; [left; reflexivity|]. right. exists c, (p ++ s), p.
    split; [reflexivity|]. inversion Hp'; subst. split; [|assumption].
    replace (character_length e c - 1)%nat with O; [reflexivity|].
    destruct e; try reflexivity. cbn [character_length]. destruct (Z.ltb_spec c 0x80); [reflexivity|lia].
  - right. exists c, t, (q ++ p). rewrite E, app_assoc. repeat split. apply Forall_app. auto.
Qed.
Lemma digits_skip s : forall v x s', parse_simple_int_loop s v = (x, s') ->
  exists p, s = p ++ s' /\ Forall (fun c => is_digit c = true) p.
Proof.
  induction s as [|c s IH]; intros v x s'; cbn [parse_simple_int_loop].
  - intros [= _ <-]. exists []. auto.
  - destruct (is_digit c) eqn:E; [|intros [= _ <-]; exists []; auto]. cbv zeta.
    destruct (_ <? _); [intros [= _ <-]; exists []; auto|]. intros H. destruct (IH _ _ _ H) as (p & -> & Hp).
    exists (c :: p). auto.
Qed.
Lemma digits_clear p : Forall (fun c => is_digit c = true) p -> Forall (fun c => c <> 125 /\ 0 <= c < 0x80) p.
Proof. apply Forall_impl. unfold is_digit. lia. Qed.
Lemma length_class e c : 0 <= c -> (e = U8 -> is_byte c) -> code_point_length e c = character_length e c.
Proof.
  intros H0 H. destruct e; try reflexivity. cbn [code_point_length character_length]. rewrite utf8_cp_len_class by auto.
  unfold utf8_len_class. reflexivity.
Qed.
Lemma align_reach e b st s st' : units e b -> match b with 123 :: _ => False | _ => True end ->
  parse_align e b st = Ok (s, st') -> reach e b s.
Proof.
  intros Hu Hb H. unfold parse_align in H. destruct b as [|c t]; [discriminate|]. cbv zeta in H.
  assert (HL : code_point_length e c = character_length e c).
  { destruct e; try reflexivity. cbn [units] in Hu. inversion Hu; subst. apply length_class; [unfold is_byte in *; lia|auto]. }
  rewrite HL in H. set (len := character_length e c) in *.
  destruct (len =? 0)%nat eqn:E0; cbn [orb] in H; [injection H as <- _; left; reflexivity|].
  destruct (length (c :: t) <? len)%nat eqn:E1; [injection H as <- _; left; reflexivity|].
  destruct len as [|n] eqn:EL; [discriminate|]. cbn [skipn] in H.
  assert (HS : skipn (character_length e c - 1) t = skipn n t) by (fold len; rewrite EL; f_equal; lia).
  destruct (skipn n t) as [|a after] eqn:EA; [injection H as <- _; left; reflexivity|].
  destruct (Z.eqb_spec c 123) as [->|Hc]; [destruct Hb|]. rewrite andb_false_r in H.
  destruct (_ && _); [injection H as <- _; left; reflexivity|].
  assert (HR : reach e (c :: t) (a :: after)).
  { right. exists c, t, []. rewrite HS. auto. }
  assert (HA : check_align a <> ANone -> reach e (c :: t) after).
  { intros Ha. right. exists c, t, [a]. rewrite HS. repeat split. constructor; [|constructor].
    unfold check_align in Ha. intros ->. cbn in Ha. congruence. }
  destruct (check_align a) eqn:EC; try (apply ok_bind in H; destruct H as (st1 & _ & H); injection H as <- _; apply HA; discriminate).
  destruct (check_align c); injection H as <- _; auto. left. reflexivity.
Qed.
Lemma tail_plain cf t s st s' st' : (forall s1, s <> 76 :: s1) -> localized (ss_specs st) = false ->
  parse_specs_tail cf t s st = Ok (s', st') -> localized (ss_specs st') = false.
Proof.
  intros Hn HQ H. unfold parse_specs_tail in H. destruct s as [|c s]; [discriminate|].
  destruct (Z.eqb_spec c 76) as [->|Hc]; [exfalso; apply (Hn s); reflexivity|]. cbn [bind] in H.
  apply ok_bind in H. destruct H as ([s2 st2] & E2 & H). cbn beta iota in H.
  assert (H2 : localized (ss_specs st2) = false).
  { destruct (negb _); [|injection E2 as _ <-; exact HQ].
    refine (Q_presentation (fun q => localized q = false) (c_enc cf) _ _ _ _ _ _ _ cf (c :: s) st s2 st2 eq_refl HQ E2); auto. }
  destruct s2; injection H as _ <-; exact H2.
Qed.
Lemma specs_plain cf t s s' st' : units (c_enc cf) s -> plain_start (c_enc cf) s ->
  parse_format_specs cf t s (SS specs_default false) = Ok (s', st') -> localized (ss_specs st') = false.
Proof.
  intros Hu [Hb Hn] H. set (st := SS specs_default false) in *. assert (HQ : localized (ss_specs st) = false) by reflexivity.
  clearbody st. unfold parse_format_specs in H. destruct (specs_shortcut s).
  { refine (Q_presentation (fun q => localized q = false) (c_enc cf) _ _ _ _ _ _ _ cf s st s' st' eq_refl HQ H); auto. }
  destruct s as [|c0 s0]; [inv_ok; exact HQ|]. set (b := c0 :: s0) in *.
  assert (HT : forall s2, reach (c_enc cf) b s2 -> forall s1, s2 <> 76 :: s1).
  { intros s2 Hr s1 ->. apply Hn, (reach_start _ _ _ Hr). }
  apply ok_bind in H. destruct H as ([s1 st1] & E1 & H).
  assert (R1 := align_reach _ _ _ _ _ Hu Hb E1).
  apply (Q_on_align (fun q => localized q = false)) in E1; [|solve [auto]..|exact HQ].
  destruct s1 as [|c1 s1]; [inv_ok; exact E1|].
  apply ok_bind in H. destruct H as ([s2 st2] & E2 & H).
  assert (R2 : reach (c_enc cf) b s2).
  { unfold parse_width in E2. destruct (is_digit c1) eqn:ED; [|injection E2 as <- _; exact R1].
    apply ok_bind in E2. destruct E2 as ([w s3] & E3 & E2). cbn beta iota in E2.
    unfold parse_simple_int in E3. rewrite ED in E3.
    assert (E4 : parse_simple_int_loop (c1 :: s1) 0 = (w, s3)) by congruence. destruct (digits_skip _ _ _ _ E4) as (p & EP & Hp).
    rewrite EP in R1. assert (R3 := reach_step _ _ _ _ R1 (digits_clear p Hp)). destruct (w =? -1); injection E2 as <- _; exact R3. }
  apply (Q_on_width (fun q => localized q = false) (c_enc cf)) in E2; [|solve [auto]..|exact E1].
  destruct s2 as [|c2 s2]; [inv_ok; exact E2|].
  destruct (Z.eqb_spec c2 46) as [->|_]; [|exact (tail_plain _ _ _ _ _ _ (HT _ R2) E2 H)].
  destruct s2 as [|c3 s3]; [inv_ok; exact E2|].
  apply ok_bind in H. destruct H as ([s4 st4] & E4 & H).
  assert (R3 : reach (c_enc cf) b (c3 :: s3)).
  { apply (reach_step _ _ [46] _ R2). repeat constructor; discriminate || lia. }
  assert (R4 : reach (c_enc cf) b s4).
  { unfold parse_precision in E4. destruct (is_digit c3) eqn:ED; [|injection E4 as <- _; exact R3].
    apply ok_bind in E4. destruct E4 as ([w s5] & E5 & E4). cbn beta iota in E4.
    unfold parse_simple_int in E5. rewrite ED in E5.
    assert (E6 : parse_simple_int_loop (c3 :: s3) 0 = (w, s5)) by congruence. destruct (digits_skip _ _ _ _ E6) as (p & EP & Hp).
    rewrite EP in R3. assert (R6 := reach_step _ _ _ _ R3 (digits_clear p Hp)). destruct (w =? -1); injection E4 as <- _; exact R6. }
  apply (Q_on_precision (fun q => localized q = false) (c_enc cf)) in E4; [|solve [auto]..|exact E2].
  destruct s4 as [|c4 s4]; [inv_ok; exact E4|]. exact (tail_plain _ _ _ _ _ _ (HT _ R4) E4 H).
Qed.

(** ** Arguments that agree where they are used *)
Lemma forall2_nth {A B} (R : A -> B -> Prop) l l' : Forall2 R l l' ->
  length l = length l' /\ forall n, match nth_error l n, nth_error l' n with
    | Some a, Some b => R a b | None, None => True | _, _ => False end.
Proof.
  induction 1 as [|a b l l' Hab _ [IH1 IH2]]; (split; [cbn; congruence|]); intros [|n]; cbn [nth_error]; auto. apply IH2.
Qed.
Section Agree.
Variable V : Type.
Variable r : src.
Variable cf : config.
(** A property of positions in the format string. *)
Variable P : list Z -> Prop.
Hypothesis P_suffix : forall a b, suffix a b -> P b -> P a.
(** A property of where format-specs begin. *)
Variable S : list Z -> Prop.
Hypothesis S_start : forall ds c s, P (123 :: ds ++ 58 :: c :: s) -> Forall (fun c => is_digit c = true) ds -> S (c :: s).
(** Whether the format string is "{}". *)
Variable simple : bool.
Definition agree (a b : arg V) : Prop :=
  ar_type a = ar_type b /\ no_regex (ar_type a)
  /\ (forall s, ar_default a s = ar_default b s) /\ (simple = true -> forall s, ar_plain a s = ar_plain b s)
  /\ (forall f p sp e, S f -> parse_format_specs cf (ar_type a) f (SS specs_default false) = Ok (p, SS sp e) ->
      forall s, ar_specs a sp s = ar_specs b sp s)
  /\ (forall f s, P f -> S f -> ar_custom a f s = ar_custom b f s /\ P (fst (ar_custom a f s))).
Variables args args' : list (arg V).
Hypothesis HA : Forall2 agree args args'.

Lemma agree_length : length args = length args'.
Proof. apply (forall2_nth _ _ _ HA). Qed.
Lemma agree_count : args_count V args = args_count V args'.
Proof. unfold args_count. rewrite agree_length. reflexivity. Qed.
Lemma agree_get id : match get_arg V args id, get_arg V args' id with
  | Some a, Some b => agree a b | None, None => True | _, _ => False end.
Proof. apply (forall2_nth _ _ _ HA). Qed.
Lemma missing_agree id st : note_missing V args id st = note_missing V args' id st.
Proof.
  unfold note_missing. assert (H := agree_get id). destruct (get_arg V args id), (get_arg V args' id); tauto.
Qed.
Lemma visited_agree id st : set_arg_as_visited V args id st = set_arg_as_visited V args' id st.
Proof. unfold set_arg_as_visited. rewrite agree_count. reflexivity. Qed.

Notation I st := (P (st_pctx st)).
Lemma literal_pctx : forall fuel lit st st', literal_loop V r fuel lit st = Ok st' -> st_pctx st' = st_pctx st.
Proof.
  induction fuel as [|f IH]; intros lit st st' H; destruct lit as [|c lit]; cbn [literal_loop] in H; try congruence; try discriminate.
  repeat first
    [ match goal with E : bind _ _ = Ok _ |- _ => apply ok_bind in E; destruct E as (? & ? & E); cbn beta iota in E end
    | match goal with E : (let '(_, _) := ?p in _) = Ok _ |- _ => destruct p end
    | match goal with E : (if ?b then _ else _) = Ok _ |- _ => destruct b end
    | match goal with E : match ?l with _ => _ end = Ok _ |- _ => destruct l end
    | match goal with E : Ok _ = Ok _ |- _ => injection E as <- end ];
  try discriminate; try reflexivity; try (apply IH in H; exact H).
Qed.
Lemma missing_pctx id st : st_pctx (note_missing V args id st) = st_pctx st.
Proof. unfold note_missing. destruct (get_arg V args id); reflexivity. Qed.
Lemma visited_pctx id st st' : set_arg_as_visited V args id st = Ok st' -> st_pctx st' = st_pctx st.
Proof.
  unfold set_arg_as_visited. destruct (_ <=? _); [intros [= <-]; reflexivity|]. destruct (_ <? _); cbv zeta.
  - destruct (Z.testbit _ _); intros [= <-]; reflexivity.
  - destruct (nth_error _ _); [|discriminate]. destruct (set_nth _ _ _); [|discriminate].
    destruct (Z.testbit _ _); intros [= <-]; reflexivity.
Qed.
Lemma finish_pctx id x st st' : finish_visit V id x st = Ok st' -> st_pctx st' = st_pctx st.
Proof. unfold finish_visit. destruct x as [[v s]| | |]; intros [= <-]; reflexivity. Qed.

Lemma field_agree id b st : on_replacement_field V args id b st = on_replacement_field V args' id b st.
Proof.
  unfold on_replacement_field. rewrite missing_agree, visited_agree.
  destruct (set_arg_as_visited V args' id _) as [st1| | |]; [|reflexivity..]. cbn [bind].
  destruct (failed V st1); [reflexivity|]. assert (H := agree_get id).
  destruct (get_arg V args id) as [a|], (get_arg V args' id) as [a'|]; try tauto.
  destruct H as (_ & _ & H & _). rewrite H. reflexivity.
Qed.
Lemma field_pctx id b st st' : on_replacement_field V args id b st = Ok st' -> st_pctx st' = st_pctx st.
Proof.
  unfold on_replacement_field. intros H. apply ok_bind in H. destruct H as (st1 & E & H).
  apply visited_pctx in E. rewrite missing_pctx in E. rewrite <- E.
  destruct (failed V st1); [congruence|]. destruct (get_arg V args id); [|congruence]. eapply finish_pctx, H.
Qed.
Lemma get_type id a : get_arg V args id = Some a -> no_regex (ar_type a).
Proof. intros E. assert (H := agree_get id). rewrite E in H. destruct (get_arg V args' id); [apply H|tauto]. Qed.
Lemma specs_agree id b st : P b -> S b -> I st ->
  on_format_specs V cf args id b st = on_format_specs V cf args' id b st
  /\ forall p st', on_format_specs V cf args id b st = Ok (p, st') -> P p /\ I st'.
Proof.
  intros Hb Sb HI. unfold on_format_specs. rewrite <- missing_agree, <- visited_agree.
  destruct (set_arg_as_visited V args id _) as [st1| | |] eqn:EV; [|split; [reflexivity|discriminate]..]. cbn [bind].
  apply visited_pctx in EV. rewrite missing_pctx in EV. rewrite <- EV in HI. clear EV.
  assert (H := agree_get id).
  assert (HN : no_regex (match get_arg V args id with Some a => ar_type a | None => NoneType end)).
  { destruct (get_arg V args id) as [a|] eqn:E; [eapply get_type, E|split; discriminate]. }
  destruct (get_arg V args id) as [a|] eqn:EG, (get_arg V args' id) as [a'|]; try tauto.
  - destruct H as (HT & _ & HD & HP & HS & HC). rewrite <- HT.
    destruct (arg_eqb (ar_type a) CustomType).
    + cbv zeta. destruct (failed V _).
      * split; [reflexivity|]. intros p st' [= <- <-]. auto.
      * destruct (HC b (st_src (set_pctx V b st1)) Hb Sb) as [<- HPP].
        assert (HM : P (fst (if st_mixed (set_pctx V b st1) then (b, Err InvalidFormatString)
                             else ar_custom a b (st_src (set_pctx V b st1))))) by (destruct (st_mixed _); [exact Hb|exact HPP]).
        clear HPP.
        destruct (if st_mixed (set_pctx V b st1) then (b, Err InvalidFormatString)
                  else ar_custom a b (st_src (set_pctx V b st1))) as [p x] eqn:EC. cbn [fst] in HM.
        split; [reflexivity|]. intros q st' E. apply ok_bind in E. destruct E as (st2 & E & E').
        injection E' as <- <-. apply finish_pctx in E. rewrite E. auto.
    + destruct (parse_format_specs_safe cf (ar_type a) b (SS specs_default false) HN) as (s & [sp er] & E & Hs).
      rewrite E. cbn [bind]. destruct s as [|c s]; [split; [reflexivity|]; intros q st' [= <- <-]; auto|].
      destruct (negb _); [split; [reflexivity|]; intros q st' [= <- <-]; auto|].
      destruct (ss_err _); [split; [reflexivity|]; intros q st' [= <- <-]; auto|].
      cbv zeta. assert (HPs : P (c :: s)) by (eapply P_suffix; eassumption).
      destruct (failed V _); [split; [reflexivity|]; intros q st' [= <- <-]; auto|].
      cbn [ss_specs]. rewrite <- (HS _ _ _ _ Sb E). split; [reflexivity|].
      intros q st' E'. apply ok_bind in E'. destruct E' as (st2 & E' & E2). injection E2 as <- <-.
      apply finish_pctx in E'. rewrite E'. auto.
  - split; [reflexivity|].
    destruct (arg_eqb NoneType CustomType).
    + cbv zeta. destruct (failed V _); intros p st' [= <- <-]; auto.
    + destruct (parse_format_specs_safe cf NoneType b (SS specs_default false) HN) as (s & [sp er] & E & Hs).
      rewrite E. cbn [bind]. intros q st'. destruct s as [|c s]; [intros [= <- <-]; auto|].
      assert (HPs : P (c :: s)) by (eapply P_suffix; eassumption).
      destruct (negb _); [intros [= <- <-]; auto|]. destruct (ss_err _); [intros [= <- <-]; auto|].
      cbv zeta. destruct (failed V _); intros [= <- <-]; auto.
Qed.

Notation h1 := (format_handler V r cf args).
Notation h2 := (format_handler V r cf args').
Lemma arg_id_agree s st : I st -> parse_arg_id h1 s st = parse_arg_id h2 s st
  /\ forall s' id st', parse_arg_id h1 s st = Ok (s', id, st') -> suffix s' s /\ I st'
       /\ forall t, s' = 58 :: t -> exists ds, s = ds ++ s' /\ Forall (fun c => is_digit c = true) ds.
Proof.
  intros HI. split; [reflexivity|]. intros s' id st'.
  unfold parse_arg_id. destruct s as [|c s]; [discriminate|]. destruct (negb (c =? 125) && negb (c =? 58)) eqn:EC.
  - unfold do_parse_arg_id. destruct (_ || _) eqn:ED.
    { cbn [format_handler h_error bind]. intros [= <- _ <-]. split; [apply suffix_refl|]. split; [exact HI|].
      intros t [= -> _]. cbn in EC. discriminate. }
    intros E. apply ok_bind in E. destruct E as ([idx s2] & E1 & E). cbn beta iota in E.
    assert (H2 : exists ds, c :: s = ds ++ s2 /\ Forall (fun c => is_digit c = true) ds).
    { destruct (negb (c =? 48)).
      - unfold parse_simple_int in E1. destruct (is_digit c) eqn:EI; [|discriminate].
        assert (E2 : parse_simple_int_loop (c :: s) 0 = (idx, s2)) by congruence. eapply digits_skip, E2.
      - injection E1 as _ <-. exists [c]. split; [reflexivity|]. constructor; [unfold is_digit; lia|constructor]. }
    assert (HS2 : suffix s2 (c :: s)) by (destruct H2 as (ds & -> & _); exists ds; reflexivity).
    destruct s2 as [|d s2]; [cbn [format_handler h_error bind] in E; injection E as <- _ <-; split; [exact HS2|]; split; [exact HI|]; discriminate|].
    destruct (negb (d =? 125) && negb (d =? 58)) eqn:EN.
    { cbn [format_handler h_error bind] in E; injection E as <- _ <-. split; [exact HS2|]. split; [exact HI|].
      intros t [= -> _]. cbn in EN. discriminate. }
    cbn [format_handler h_id] in E. unfold check_arg_id in E. destruct (0 <? st_next st); cbn [bind] in E; injection E as <- _ <-; auto.
  - cbn [format_handler h_auto_id]. unfold next_arg_id.
    destruct (st_next st <? 0); cbn [bind]; intros [= <- _ <-]; (split; [apply suffix_refl|]); (split; [exact HI|]); intros; exists []; auto.
Qed.
Lemma replacement_agree s st : P (123 :: s) -> I st -> parse_replacement_field h1 (123 :: s) st = parse_replacement_field h2 (123 :: s) st
  /\ forall p st', parse_replacement_field h1 (123 :: s) st = Ok (p, st') -> P p /\ I st'.
Proof.
  intros Hs HI. unfold parse_replacement_field.
  assert (HP : forall x y, P (x :: y) -> P y) by (intros x y; apply P_suffix; exists [x]; reflexivity).
  assert (H0 := Hs). apply HP in Hs. destruct s as [|c s].
  { split; [reflexivity|]. cbn [format_handler h_error bind]. intros p st' [= <- <-]. auto. }
  destruct (c =? 125).
  { cbn [format_handler h_auto_id h_field]. unfold next_arg_id.
    destruct (_ <? _); cbn [bind]; (rewrite field_agree; split; [reflexivity|]); rewrite <- field_agree; intros p st' E;
      apply ok_bind in E; destruct E as (st2 & E & E2); injection E2 as <- <-; apply field_pctx in E; rewrite E; split; eauto. }
  destruct (c =? 123).
  { split; [reflexivity|]. intros p st' E. apply ok_bind in E. destruct E as (st2 & E & E2). injection E2 as <- <-.
    cbn [format_handler h_literal] in E. apply literal_pctx in E. rewrite E. eauto. }
  destruct (arg_id_agree (c :: s) st HI) as [<- H].
  destruct (parse_arg_id h1 (c :: s) st) as [[[s1 id] st1]| | |] eqn:EI; [|split; [reflexivity|discriminate]..].
  destruct (H _ _ _ eq_refl) as (H1 & HI1 & HD). apply (P_suffix _ _ H1) in Hs. rename Hs into HPs. clear H1. cbn [bind].
  destruct s1 as [|d s1].
  { split; [reflexivity|]. cbn [format_handler h_error bind]. intros p st' [= <- <-]. auto. }
  assert (H1 := HPs). destruct (d =? 125).
  { cbn [format_handler h_field]. rewrite field_agree. split; [reflexivity|]. rewrite <- field_agree. intros p st' E.
    apply ok_bind in E. destruct E as (st2 & E & E2). injection E2 as <- <-. apply field_pctx in E. rewrite E. eauto. }
  destruct (Z.eqb_spec d 58) as [->|_].
  2:{ split; [reflexivity|]. cbn [format_handler h_error bind]. intros p st' [= <- <-]. auto. }
  destruct s1 as [|d1 s1].
  { split; [reflexivity|]. cbn [format_handler h_error bind]. intros p st' [= <- <-]. auto. }
  assert (Hst : S (d1 :: s1)).
  { destruct (HD _ eq_refl) as (ds & ED & Hds). rewrite ED in H0. exact (S_start ds d1 s1 H0 Hds). }
  cbn [format_handler h_specs]. destruct (specs_agree id (d1 :: s1) st1 (HP _ _ H1) Hst HI1) as [<- HS].
  destruct (on_format_specs V cf args id (d1 :: s1) st1) as [[s2 st2]| | |]; [|split; [reflexivity|discriminate]..].
  destruct (HS _ _ eq_refl) as [HP2 HI2]. cbn [bind]. split; [reflexivity|].
  destruct s2 as [|e s2]; [intros p st' [= <- <-]; auto|]. destruct (negb _).
  - cbn [format_handler h_error bind]. intros p st' [= <- <-]. auto.
  - intros p st' [= <- <-]. eauto.
Qed.
Lemma loop_agree : forall fuel begin it st, P it -> I st ->
  parse_loop fuel h1 begin it st = parse_loop fuel h2 begin it st.
Proof.
  assert (HP : forall x y, P (x :: y) -> P y) by (intros x y; apply P_suffix; exists [x]; reflexivity).
  induction fuel as [|f IH]; intros begin it st Hi HI; destruct it as [|ch it]; try reflexivity.
  cbn [parse_loop]. destruct (Z.eqb_spec ch 123) as [->|_].
  - cbn [format_handler h_literal].
    destruct (on_literal_text V r (between begin (123 :: it)) st) as [st1| | |] eqn:EL; try reflexivity. cbn [bind].
    apply literal_pctx in EL. rewrite <- EL in HI. destruct (replacement_agree it st1 Hi HI) as [HE H].
    change (format_handler V r cf args) with h1. change (format_handler V r cf args') with h2. rewrite <- HE.
    destruct (parse_replacement_field h1 (123 :: it) st1) as [[p st2]| | |]; try reflexivity. cbn [bind].
    destruct (H _ _ eq_refl) as [H1 H2]. cbn [format_handler h_failed].
    destruct (failed V st2); [reflexivity|]. apply IH; assumption.
  - destruct (ch =? 125).
    + destruct it as [|d it]; [reflexivity|]. destruct (negb _); [reflexivity|]. cbn [format_handler h_literal].
      destruct (on_literal_text V r (between begin (d :: it)) st) as [st1| | |] eqn:EL; try reflexivity. cbn [bind].
      apply literal_pctx in EL. rewrite <- EL in HI. apply IH; eauto.
    + apply IH; eauto.
Qed.
Lemma general_agree format source : P format ->
  vscan_parse_format_string V r cf args format source = vscan_parse_format_string V r cf args' format source.
Proof.
  intros HF. unfold vscan_parse_format_string, vscan_fuel, parse_format_string_impl.
  rewrite agree_length. replace (init_state V args format source) with (init_state V args' format source)
    by (unfold init_state; rewrite agree_count; reflexivity).
  rewrite loop_agree; [|exact HF|exact HF].
  destruct (parse_loop _ h2 _ _ _) as [st1| | |]; try reflexivity. cbn [bind].
  unfold check_args_exhausted. rewrite agree_count. reflexivity.
Qed.
Lemma vscan_agree format source : P format -> (is_simple format = true -> simple = true) -> vscan V r cf args format source = vscan V r cf args' format source.
Proof.
  intros HF HS. unfold vscan. rewrite agree_count. destruct (is_simple format) eqn:EF, (args_count V args' =? 1); cbn [andb].
  - unfold scan_simple_single_argument. assert (H := agree_get 0).
    destruct (get_arg V args 0), (get_arg V args' 0); try tauto. destruct H as (_ & _ & _ & H & _). rewrite H by auto. reflexivity.
  - apply general_agree, HF.
  - apply general_agree, HF.
  - apply general_agree, HF.
Qed.
End Agree.

(** ** Format strings *)
Lemma no_local_suffix e a b : suffix a b -> no_local_field e b -> no_local_field e a.
Proof. intros [p ->] H x ds c s ->. intros Hds. apply (H (p ++ x) ds c s); [|exact Hds]. rewrite app_assoc. reflexivity. Qed.
Lemma no_local_start e ds c s : no_local_field e (123 :: ds ++ 58 :: c :: s) -> Forall (fun c => is_digit c = true) ds ->
  plain_start e (c :: s).
Proof. intros H Hds. apply (H [] ds c s); [reflexivity|]. eapply Forall_impl; [|exact Hds]. unfold is_digit. lia. Qed.

(** ** Readers *)
Lemma arg_read_ext {V} r sp skip (f g : src -> list Z -> outcome (V * list Z)) s :
  (forall r' v, f r' v = g r' v) -> arg_read r sp skip f s = arg_read r sp skip g s.
Proof.
  intros H. unfold arg_read. destruct (if negb (precision sp =? 0) then _ else _) as [[it w]| | |]; try reflexivity. cbn [bind].
  destruct (negb (precision sp =? 0)).
  - destruct (_ <=? _); [reflexivity|]. cbv zeta. destruct (take_width _ it _) as [v| | |]; try reflexivity. cbn [bind].
    rewrite H. reflexivity.
  - rewrite H. reflexivity.
Qed.
Lemma int_plain r t sp sep sep' s : localized sp = false -> int_read_specs r t sp sep s = int_read_specs r t sp sep' s.
Proof. intros HL. unfold int_read_specs. rewrite HL. reflexivity. Qed.
Section Readers.
Context {F : Type} (rx : regex_engine) (cf : config).
Lemma scalar_plain r l l' (t : scalar_type F) sp s : localized sp = false ->
  scalar_specs rx r l t sp s = scalar_specs rx r l' t sp s.
Proof.
  intros HL. destruct t as [t a| |k old a| |d a|f a]; cbn [scalar_specs]; try reflexivity; f_equal;
  unfold arg_read_checked; cbn [rd_check rd_skip rd_specs int_reader bool_reader char_reader pointer_reader float_reader];
  match goal with |- (if ?b then _ else _) = _ => destruct b; [|reflexivity] end; apply arg_read_ext; intros r' v.
  - apply int_plain, HL.
  - unfold bool_specs. rewrite HL. reflexivity.
  - unfold char_specs. destruct k; try reflexivity; destruct (type sp); try reflexivity; repeat (rewrite (int_plain _ _ _ (l_sep l) (l_sep l')) by assumption; try reflexivity).
  - unfold float_read_specs. destruct (get_options sp); try reflexivity. cbn [bind]. rewrite HL. reflexivity.
Qed.
(** A shape without format-spec 'L'. *)
Lemma seq_loop_ext {X} r p (f g : list Z -> outcome (X * list Z)) : (forall s, f s = g s) ->
  forall n first s, seq_loop r p f n first s = seq_loop r p g n first s.
Proof.
  intros H. induction n as [|n IH]; intros first s; [reflexivity|]. cbn [seq_loop].
  destruct (scan_str r (p_close p) s); try reflexivity.
  destruct (if first then _ else _) as [it| | |]; try reflexivity. cbn [bind]. rewrite H.
  destruct (g it) as [[v it2]| | |]; try reflexivity. cbn [bind]. rewrite IH. reflexivity.
Qed.
Fixpoint shape_size {L} (sh : shape L) : nat :=
  match sh with
  | SLeaf _ => O
  | SSeq _ _ e => S (shape_size e)
  | STup _ es => S (fold_right (fun e n => shape_size e + n)%nat O es)
  end.
Lemma shape_ext {L X} r (f g : L -> specs -> list Z -> outcome (X * list Z)) (Q : specs -> Prop) : Q specs_default ->
  (forall l sp s, Q sp -> f l sp s = g l sp s) ->
  forall n sh sp s, (shape_size sh <= n)%nat -> Q sp -> scan_shape r f sh sp s = scan_shape r g sh sp s.
Proof.
  intros HD H. induction n as [|n IH]; intros sh sp s Hn HQ; destruct sh as [l|m p e|p es]; cbn [shape_size] in Hn; try lia;
    cbn [scan_shape]; try (rewrite H by exact HQ; reflexivity).
  - destruct (scan_str r (p_open p) s) as [it| | |]; try reflexivity. cbn [bind].
    rewrite (seq_loop_ext r p (scan_shape r f e sp) (scan_shape r g e sp)); [reflexivity|].
    intros s'. apply IH; [lia|exact HQ].
  - destruct (scan_str r (p_open p) s) as [it| | |]; try reflexivity. cbn [bind].
    match goal with |- bind (?a es true it) _ = bind (?b es true it) _ => assert (HE : forall first it, a es first it = b es first it) end.
    { clear it s. assert (HS : Forall (fun e => (shape_size e <= n)%nat) es).
      { clear IH. apply le_S_n in Hn. revert Hn. induction es as [|e es IHe]; intros Hn; constructor; cbn [fold_right] in Hn; [lia|apply IHe; lia]. }
      clear Hn. induction HS as [|e es He _ IHe]; intros first it; [reflexivity|].
      destruct (if first then _ else _) as [i2| | |]; try reflexivity. cbn [bind].
      rewrite (IH e specs_default i2 He HD). destruct (scan_shape r g e specs_default i2) as [[v i3]| | |]; try reflexivity.
      cbn [bind]. rewrite IHe. reflexivity. }
    rewrite HE. reflexivity.
Qed.
Lemma shape_plain gl gl' r (sh : shape (scalar_type F)) sp s : localized sp = false ->
  shape_scan rx gl r sh sp s = shape_scan rx gl' r sh sp s.
Proof.
  intros HL. unfold shape_scan. apply (shape_ext _ _ _ (fun q => localized q = false)) with (n := shape_size sh); auto.
  intros t q s' Hq. unfold element_scan. apply scalar_plain, Hq.
Qed.

(** Types of arguments. *)
Definition scalar_typed (t : scalar_type F) : Prop := no_regex (scalar_arg_type t).
Definition target_typed (t : target F) : Prop :=
  match t with
  | TScalar t => scalar_typed t
  | TShape sh => match shape_type sh with Some a => no_regex a | None => True end
  | TUser _ _ => False
  end.
Lemma target_agree gl l gl' l' r t simple : target_typed t ->
  agree _ cf (fun f => units (c_enc cf) f /\ no_local_field (c_enc cf) f)
    (fun f => units (c_enc cf) f /\ plain_start (c_enc cf) f) simple
    (target_arg rx cf gl l r t) (target_arg rx cf gl' l' r t).
Proof.
  intros Ht. destruct t as [t|sh|p u]; cbn [target_typed] in Ht; [| |destruct Ht]; unfold agree;
    cbn [target_arg ar_type ar_default ar_plain ar_specs ar_custom].
  - split; [reflexivity|]. split; [exact Ht|]. split; [reflexivity|]. split; [reflexivity|]. split; [|auto].
    intros f p sp e [Hu Hf] E s. rewrite (scalar_plain r (get_locale gl l) (get_locale gl' l')); [reflexivity|].
    apply (specs_plain cf _ f p _ Hu Hf E).
  - split; [reflexivity|]. split; [split; discriminate|].
    split; [intros s; apply shape_plain; reflexivity|]. split; [intros _ s; apply shape_plain; reflexivity|].
    split; [reflexivity|]. intros f s [Hu Hf] [_ Hs]. unfold shape_parse. destruct (shape_type sh) as [a|].
    + destruct f as [|c f]; [split; [f_equal; apply shape_plain; reflexivity|split; assumption]|].
      destruct (parse_format_specs_safe cf a (c :: f) (SS specs_default false) Ht) as (q & [sp er] & E & Hq).
      rewrite E. cbn [bind ss_specs fst]. apply (specs_plain cf a _ _ _ Hu Hs) in E. split; [f_equal; apply shape_plain, E|].
      split; [eapply units_suffix; eassumption|eapply no_local_suffix; eassumption].
    + split; [f_equal; apply shape_plain; reflexivity|split; assumption].
Qed.
End Readers.
