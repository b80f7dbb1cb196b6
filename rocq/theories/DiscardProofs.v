(** Proofs about discarded values: two scans in step with the compile-time check. *)
From Verif Require Import Prelude UnicodeModel ReadModel ReadProofs SpecsModel FormatModel FormatProofs ArgsModel
  SpecsInvProofs IntModel ArgReaderModel VscanModel VscanProofs CheckerProofs LocaleProofs ScalarModel StringModel FloatModel RangesModel WidthModel LocaleModel LocaleSpec DiscardModel.
Local Open Scope Z_scope.

Definition map_value {A B} (g : A -> B) (x : outcome (A * list Z)) : outcome (B * list Z) :=
  '(v, rest) <- x ;; Ok (g v, rest).

Section Step.
Context {A B : Type}.
Variable r : src.
Variable cf : config.
Variable contiguous borrowed : bool.
Variable custom_parse : Z -> list Z -> outcome (list Z).
(** What the arguments of the second scan keep of the values of the first. *)
Variable g : Z -> A -> B.
Variable argsA : list (arg A).
Variable argsB : list (arg B).
Variable format : list Z.
(** The format-spec that begins here is used with the argument. *)
Definition used_at (f : list Z) : Prop :=
  exists a ds, format = a ++ 123 :: ds ++ 58 :: f /\ Forall (fun c => is_digit c = true) ds.
Definition follows (id : Z) (a : arg A) (b : arg B) : Prop :=
  (forall s, ar_default b s = map_value (g id) (ar_default a s))
  /\ ((ar_type a <> CustomType /\ no_regex (ar_type a)
       /\ forall f p sp, used_at f -> parse_format_specs cf (ar_type a) f (SS specs_default false) = Ok (125 :: p, SS sp false) ->
         (ar_type b = CustomType /\ forall s, ar_custom b f s = (125 :: p, map_value (g id) (ar_specs a sp s)))
         \/ (ar_type b = ar_type a /\ forall s, ar_specs b sp s = map_value (g id) (ar_specs a sp s)))
      \/ (ar_type a = CustomType /\ ar_type b = CustomType
          /\ forall f p, used_at f -> custom_parse id f = Ok p -> suffix p f
             /\ forall s, fst (ar_custom a f s) = p /\ ar_custom b f s = (p, map_value (g id) (snd (ar_custom a f s))))).
Hypothesis Hlen : length argsA = length argsB.
Hypothesis Hargs : forall id a b, nth_error argsA (Z.to_nat id) = Some a -> nth_error argsB (Z.to_nat id) = Some b -> 0 <= id -> follows id a b.

Notation types := (map ar_type argsA).
Notation hc := (ct_handler cf contiguous borrowed types custom_parse).
Notation hA := (format_handler A r cf argsA).
Notation hB := (format_handler B r cf argsB).

Definition log_of (l : list (Z * A)) : list (Z * B) := map (fun '(i, v) => (i, g i v)) l.
(** Everything but the error. *)
Record rel (c : cstate) (a : state A) (b : state B) : Prop := Rel {
  r_next : cs_next c = st_next a; r_nextb : st_next b = st_next a;
  r_mixed : st_mixed a = false; r_mixedb : st_mixed b = false;
  r_low : st_low b = st_low a; r_up : st_upper b = st_upper a;
  r_src : st_src b = st_src a; r_log : st_log b = log_of (st_log a) }.
(** Errors inside the loop. *)
Definition early (e : option err) : Prop := e = None \/ e = Some InvalidLiteral \/ e = Some InvalidFormatString.
Definition inside (a : state A) (b : state B) : Prop := st_error b = st_error a /\ early (st_error a).
Definition differ (a : state A) (b : state B) : Prop :=
  st_error b = st_error a \/ (st_error a = Some InvalidLiteral /\ st_error b = Some InvalidFormatString).

Lemma rel_error c a b e e' : rel c a b -> rel c (on_error A e a) (on_error B e' b).
Proof. intros []; constructor; assumption. Qed.
Lemma rel_src c a b s : rel c a b -> rel c (set_src A s a) (set_src B s b).
Proof. intros []; constructor; cbn; auto. Qed.
Lemma rel_pctx c a b p q : rel c a b -> rel c (set_pctx A p a) (set_pctx B q b).
Proof. intros []; constructor; assumption. Qed.

(** One result follows another. *)
Definition both {X} (R : state A -> state B -> X -> X -> Prop) (x : outcome (X * state A)) (y : outcome (X * state B)) : Prop :=
  match x with
  | Ok (u, a) => match y with Ok (v, b) => R a b u v | _ => False end
  | Err e => y = Err e | UB => y = UB | OutOfFuel => y = OutOfFuel
  end.
Definition both1 (R : state A -> state B -> Prop) (x : outcome (state A)) (y : outcome (state B)) : Prop :=
  match x with
  | Ok a => match y with Ok b => R a b | _ => False end
  | Err e => y = Err e | UB => y = UB | OutOfFuel => y = OutOfFuel
  end.

Lemma literal_both : forall fuel t c a b, rel c a b -> inside a b ->
  both1 (fun a b => rel c a b /\ inside a b) (literal_loop A r fuel t a) (literal_loop B r fuel t b).
Proof.
  induction fuel as [|f IH]; intros [|x t] c a b HR HI; cbn [literal_loop both1]; auto.
  rewrite (r_src _ _ _ HR). destruct (st_src a) as [|d s] eqn:ES.
  { cbn. split; [apply rel_error, HR|split; cbn; unfold early; auto]. }
  destruct (is_first_char_space (s_enc r) (x :: t)) as [[[after cp] sp]| | |]; cbn [bind both1]; auto.
  destruct (cp =? invalid_code_point).
  { cbn. split; [apply rel_error, HR|split; cbn; unfold early; auto]. }
  destruct sp.
  - destruct (read_while_classic_space r (d :: s)) as [s'| | |]; cbn [bind both1]; auto.
    destruct (read_while_classic_space (format_src r) after) as [l'| | |]; cbn [bind both1]; auto.
    apply IH; [apply rel_src, HR|exact HI].
  - destruct (negb (d =? x)).
    { cbn. split; [apply rel_error, HR|split; cbn; unfold early; auto]. }
    apply IH; [apply rel_src, HR|exact HI].
Qed.
Lemma on_literal_both t c a b : rel c a b -> inside a b ->
  both1 (fun a b => rel c a b /\ inside a b) (on_literal_text A r t a) (on_literal_text B r t b).
Proof. apply literal_both. Qed.

Lemma get_both id : match get_arg A argsA id, get_arg B argsB id with Some _, Some _ => True | None, None => True | _, _ => False end.
Proof.
  unfold get_arg. destruct (nth_error argsA (Z.to_nat id)) eqn:E1, (nth_error argsB (Z.to_nat id)) eqn:E2; auto.
  - apply nth_error_None in E2. assert (nth_error argsA (Z.to_nat id) <> None) by congruence. apply nth_error_Some in H. lia.
  - apply nth_error_None in E1. assert (nth_error argsB (Z.to_nat id) <> None) by congruence. apply nth_error_Some in H. lia.
Qed.
(** note_missing and set_arg_as_visited *)
Lemma visited_both id c a b : rel c a b -> inside a b ->
  both1 (fun a b => rel c a b /\ inside a b) (set_arg_as_visited A argsA id (note_missing A argsA id a))
    (set_arg_as_visited B argsB id (note_missing B argsB id b)).
Proof.
  intros HR HI. assert (HN : rel c (note_missing A argsA id a) (note_missing B argsB id b) /\ inside (note_missing A argsA id a) (note_missing B argsB id b)).
  { unfold note_missing. assert (H := get_both id). destruct (get_arg A argsA id), (get_arg B argsB id); try tauto; auto.
    split; [apply rel_error, HR|split; cbn; unfold early; auto]. }
  clear HR HI. destruct HN as [HR HI]. revert HR HI. generalize (note_missing A argsA id a) (note_missing B argsB id b). clear a b. intros a b HR HI.
  unfold set_arg_as_visited, args_count. rewrite <- Hlen.
  destruct (_ <=? id). { cbn. split; [apply rel_error, HR|split; cbn; unfold early; auto]. }
  rewrite (r_low _ _ _ HR), (r_up _ _ _ HR). destruct HR, HI as [HI1 HI2]. destruct (id <? 64).
  - destruct (Z.testbit (st_low a) id); cbn; (split; [constructor; cbn; first [assumption|congruence]|split; cbn; unfold early; auto]).
  - cbv zeta. destruct (nth_error (st_upper a) _) as [y|]; [|reflexivity]. destruct (set_nth _ _ _) as [u|]; [|reflexivity].
    destruct (Z.testbit y _); cbn; (split; [constructor; cbn; first [assumption|congruence]|split; cbn; unfold early; auto]).
Qed.
Lemma failed_both a b : inside a b -> failed B b = failed A a.
Proof. intros [H _]. unfold failed. rewrite H. reflexivity. Qed.
(** A reader *)
Lemma finish_both id c a b x : rel c a b -> inside a b -> failed A a = false ->
  both1 (fun a b => rel c a b /\ st_error b = st_error a) (finish_visit A id x a) (finish_visit B id (map_value (g id) x) b).
Proof.
  intros HR [HI _] _. destruct x as [[v s]| | |]; cbn; auto.
  - split; [|exact HI]. destruct HR. constructor; cbn; try assumption; try reflexivity.
    rewrite r_log0. unfold log_of. rewrite map_app. reflexivity.
  - split; [apply rel_error, HR|reflexivity].
Qed.
Lemma field_both id t c c' a b : 0 <= id -> rel c a b -> inside a b ->
  ct_replacement_field contiguous borrowed types custom_parse id t c = Ok c' ->
  both1 (fun a b => rel c' a b /\ st_error b = st_error a) (on_replacement_field A argsA id t a) (on_replacement_field B argsB id t b).
Proof.
  intros Hid HR HI E. unfold on_replacement_field.
  assert (HN : cs_next c' = cs_next c).
  { unfold ct_replacement_field in E. apply bind_ok in E. destruct E as (c1 & E1 & E).
    assert (H1 : cs_next c1 = cs_next c).
    { unfold set_arg_as_read, reject in E1. destruct (_ <=? _); [discriminate|]. destruct (existsb _ _); [discriminate|].
      injection E1 as <-. reflexivity. }
    destruct (nth_error types _); [|discriminate]. apply bind_ok in E. destruct E as (u & _ & E).
    destruct (is_regex_type _); [discriminate|]. destruct (arg_eqb _ _); [apply bind_ok in E; destruct E as (? & _ & E)|]; congruence. }
  assert (HV := visited_both id c a b HR HI). unfold both1 in HV |- *.
  destruct (set_arg_as_visited A argsA id _) as [a1| | |]; [|rewrite HV; reflexivity..].
  destruct (set_arg_as_visited B argsB id _) as [b1| | |]; try tauto. destruct HV as [HR1 HI1]. cbn [bind].
  assert (HC : rel c' a1 b1) by (destruct HR1; constructor; congruence).
  rewrite (failed_both _ _ HI1). destruct (failed A a1) eqn:EF; [split; [exact HC|apply HI1]|].
  assert (H := get_both id). destruct (get_arg A argsA id) as [x|] eqn:EA, (get_arg B argsB id) as [y|] eqn:EB; try tauto.
  - destruct (Hargs id x y EA EB Hid) as (HD & _). rewrite HD, (r_src _ _ _ HC). apply (finish_both id c' a1 b1); assumption.
  - split; [exact HC|apply HI1].
Qed.
Lemma specs_both id f c p c' a b : 0 <= id -> used_at f -> rel c a b -> inside a b ->
  ct_format_specs cf contiguous borrowed types custom_parse id f c = Ok (125 :: p, c') ->
  suffix (125 :: p) f /\ both (fun a b u v => rel c' a b /\ st_error b = st_error a
          /\ (u = 125 :: p \/ (u = f /\ v = f /\ early (st_error a) /\ st_error a <> None))
          /\ (v = u \/ (v = f /\ early (st_error a) /\ st_error a <> None)))
    (on_format_specs A cf argsA id f a) (on_format_specs B cf argsB id f b).
Proof.
  intros Hid Hf HR HI E. unfold on_format_specs. unfold ct_format_specs in E. apply bind_ok in E. destruct E as (c1 & E1 & E).
  assert (H1 : cs_next c1 = cs_next c).
  { unfold set_arg_as_read, reject in E1. destruct (_ <=? _); [discriminate|]. destruct (existsb _ _); [discriminate|].
    injection E1 as <-. reflexivity. }
  destruct (nth_error types (Z.to_nat id)) as [t|] eqn:ET; [|discriminate].
  rewrite nth_error_map in ET. destruct (nth_error argsA (Z.to_nat id)) as [x|] eqn:EA; [|discriminate]. injection ET as <-.
  apply bind_ok in E. destruct E as (u & _ & E).
  assert (H := get_both id). unfold get_arg in H |- *. rewrite EA in H |- *.
  destruct (nth_error argsB (Z.to_nat id)) as [y|] eqn:EB; [|tauto]. clear H.
  destruct (Hargs id x y EA EB Hid) as (_ & [(HT & HN & HS)|(HT & HTB & HS)]).
  2: { rewrite HT in E |- *. rewrite HTB. change (arg_eqb CustomType CustomType) with true in *. cbv iota in E |- *.
    apply bind_ok in E. destruct E as (q & E2 & E). injection E as -> <-. destruct (HS f (125 :: p) Hf E2) as [HSuf HX]. split; [exact HSuf|].
    assert (HV := visited_both id c a b HR HI). unfold both1 in HV. unfold both.
    destruct (set_arg_as_visited A argsA id _) as [a1| | |]; [|rewrite HV; reflexivity..].
    destruct (set_arg_as_visited B argsB id _) as [b1| | |]; try tauto. destruct HV as [HR1 HI1]. cbn [bind].
    assert (HC : rel c1 a1 b1) by (destruct HR1; constructor; congruence). cbv zeta.
    change (failed B (set_pctx B f b1)) with (failed B b1). change (failed A (set_pctx A f a1)) with (failed A a1). rewrite (failed_both _ _ HI1).
    destruct (failed A a1) eqn:EF.
    { split; [apply rel_pctx, HC|]. split; [apply HI1|]. assert (HNE : st_error a1 <> None) by (unfold failed in EF; destruct (st_error a1); congruence).
      split; [right; repeat split; [apply HI1|exact HNE]|left; reflexivity]. }
    change (st_mixed (set_pctx B f b1)) with (st_mixed b1). change (st_mixed (set_pctx A f a1)) with (st_mixed a1). rewrite (r_mixed _ _ _ HC), (r_mixedb _ _ _ HC).
    change (st_src (set_pctx B f b1)) with (st_src b1). change (st_src (set_pctx A f a1)) with (st_src a1). rewrite (r_src _ _ _ HC).
    destruct (HX (st_src a1)) as [HX1 HX2]. rewrite HX2. destruct (ar_custom x f (st_src a1)) as [q z]. cbn [fst snd] in *. subst q.
    assert (HF := finish_both id c1 (set_pctx A (125 :: p) (set_pctx A f a1)) (set_pctx B (125 :: p) (set_pctx B f b1)) z
                   (rel_pctx _ _ _ _ _ (rel_pctx _ _ _ f f HC)) HI1 EF). unfold both1 in HF.
    destruct (finish_visit A id _ _) as [a2| | |]; cbn [bind]; [|rewrite HF; reflexivity..].
    destruct (finish_visit B id _ _) as [b2| | |]; try tauto. cbn [bind]. destruct HF as [HF1 HF2]. auto. }
  assert (ET : arg_eqb (ar_type x) CustomType = false) by (destruct (ar_type x); try reflexivity; congruence).
  rewrite ET in E |- *. apply bind_ok in E. destruct E as ([p1 sp] & E2 & E). injection E as -> <-.
  assert (EP : parse_format_specs cf (ar_type x) f (SS specs_default false) = Ok (125 :: p, SS sp false)).
  { unfold ct_parse_builtin in E2. destruct f as [|f0 f1]; [discriminate|].
    apply bind_ok in E2. destruct E2 as ([p2 [sp2 er]] & E3 & E2). cbn [ss_err ss_specs] in E2. destruct er; [discriminate|].
    apply bind_ok in E2. destruct E2 as (ok & _ & E2). destruct (negb ok); [discriminate|]. destruct (_ && _); [discriminate|].
    injection E2 as -> <-. exact E3. }
  split.
  { destruct (parse_format_specs_safe cf (ar_type x) f (SS specs_default false) HN) as (s & ? & E3 & Hs).
    rewrite EP in E3. injection E3 as <- _. exact Hs. }
  assert (HV := visited_both id c a b HR HI). unfold both1 in HV. unfold both.
  destruct (set_arg_as_visited A argsA id _) as [a1| | |]; [|rewrite HV; reflexivity..].
  destruct (set_arg_as_visited B argsB id _) as [b1| | |]; try tauto. destruct HV as [HR1 HI1]. cbn [bind].
  assert (HC : rel c1 a1 b1) by (destruct HR1; constructor; congruence).
  rewrite EP. cbn [bind ss_err ss_specs]. change (125 =? 125) with true. cbv zeta. cbn [negb].
  change (failed A (set_pctx A (125 :: p) a1)) with (failed A a1).
  destruct (HS f p sp Hf EP) as [[HTB HBx]|[HTB HBx]]; rewrite HTB.
  - cbn [arg_eqb]. change (arg_eqb CustomType CustomType) with true. cbv iota.
    change (failed B (set_pctx B f b1)) with (failed B b1). rewrite (failed_both _ _ HI1). destruct (failed A a1) eqn:EF.
    { split; [apply rel_pctx, HC|]. split; [apply HI1|]. split; [left; reflexivity|]. right. split; [reflexivity|]. split; [apply HI1|].
      cbn. unfold failed in EF. destruct (st_error a1); [discriminate|discriminate EF]. }
    change (st_mixed (set_pctx B f b1)) with (st_mixed b1). rewrite (r_mixedb _ _ _ HC).
    change (st_src (set_pctx B f b1)) with (st_src b1). rewrite HBx, (r_src _ _ _ HC). 
    assert (HF := finish_both id c1 (set_pctx A (125 :: p) a1) (set_pctx B (125 :: p) (set_pctx B f b1)) (ar_specs x sp (st_src a1))
                   (rel_pctx _ _ _ _ _ (rel_pctx _ _ _ (st_pctx a1) f HC)) HI1 EF). unfold both1 in HF.
    change (st_src (set_pctx A (125 :: p) a1)) with (st_src a1).
    destruct (finish_visit A id _ _) as [a2| | |]; cbn [bind]; [|rewrite HF; reflexivity..].
    destruct (finish_visit B id _ _) as [b2| | |]; try tauto. cbn [bind]. destruct HF as [HF1 HF2]. auto.
  - rewrite ET. cbv iota. rewrite EP. cbn [bind ss_err ss_specs]. change (125 =? 125) with true. cbn [negb].
    change (failed B (set_pctx B (125 :: p) b1)) with (failed B b1). rewrite (failed_both _ _ HI1). destruct (failed A a1) eqn:EF.
    { split; [apply rel_pctx, HC|]. split; [apply HI1|]. auto. }
    change (st_src (set_pctx B (125 :: p) b1)) with (st_src b1). rewrite HBx, (r_src _ _ _ HC).
    assert (HF := finish_both id c1 (set_pctx A (125 :: p) a1) (set_pctx B (125 :: p) b1) (ar_specs x sp (st_src a1))
                   (rel_pctx _ _ _ _ _ HC) HI1 EF). unfold both1 in HF.
    change (st_src (set_pctx A (125 :: p) a1)) with (st_src a1).
    destruct (finish_visit A id _ _) as [a2| | |]; cbn [bind]; [|rewrite HF; reflexivity..].
    destruct (finish_visit B id _ _) as [b2| | |]; try tauto. cbn [bind]. destruct HF as [HF1 HF2]. auto.
Qed.

Lemma digits_result s : forall v x s', 0 <= v -> parse_simple_int_loop s v = (x, s') ->
  0 <= x \/ exists d s2, s' = d :: s2 /\ is_digit d = true.
Proof.
  induction s as [|c s IH]; intros v x s' Hv; cbn [parse_simple_int_loop]; [intros [= <- <-]; auto|].
  destruct (is_digit c) eqn:ED; [|intros [= <- <-]; auto]. cbv zeta. destruct (_ <? _); [intros [= <- <-]; right; eauto|].
  apply IH. unfold is_digit in ED. lia.
Qed.
Lemma auto_both c id c' a b : rel c a b -> ct_next_arg_id types c = Ok (id, c') ->
  exists a' b', next_arg_id A a = Ok (id, a') /\ next_arg_id B b = Ok (id, b') /\ rel c' a' b'
    /\ st_error a' = st_error a /\ st_error b' = st_error b /\ 0 <= id.
Proof.
  intros HR. unfold ct_next_arg_id, reject, next_arg_id. rewrite (r_nextb _ _ _ HR), <- (r_next _ _ _ HR).
  destruct (_ <? _) eqn:E; [discriminate|]. destruct (_ <=? _); [discriminate|]. intros [= <- <-].
  eexists _, _. split; [reflexivity|]. split; [reflexivity|]. destruct HR. cbn. split; [constructor; cbn; auto|]. auto with zarith.
Qed.
Lemma arg_id_both s c s' id c' a b : rel c a b -> parse_arg_id hc s c = Ok (s', id, c') ->
  exists a' b', parse_arg_id hA s a = Ok (s', id, a') /\ parse_arg_id hB s b = Ok (s', id, b') /\ rel c' a' b'
    /\ st_error a' = st_error a /\ st_error b' = st_error b /\ 0 <= id /\ suffix s' s
    /\ forall t, s' = 58 :: t -> exists ds, s = ds ++ s' /\ Forall (fun c => is_digit c = true) ds.
Proof.
  intros HR. unfold parse_arg_id. destruct s as [|ch s]; [discriminate|]. destruct (negb (ch =? 125) && negb (ch =? 58)) eqn:EC.
  - unfold do_parse_arg_id. destruct (_ || _) eqn:ED; [discriminate|]. intros E. apply bind_ok in E. destruct E as ([idx s2] & E1 & E).
    rewrite E1. cbn [bind].
    assert (H2 : (exists ds, ch :: s = ds ++ s2 /\ Forall (fun c => is_digit c = true) ds) /\ (0 <= idx \/ exists d s3, s2 = d :: s3 /\ is_digit d = true)).
    { destruct (negb (ch =? 48)).
      - unfold parse_simple_int in E1. destruct (is_digit ch) eqn:EI; [|discriminate].
        assert (E2 : parse_simple_int_loop (ch :: s) 0 = (idx, s2)) by congruence. split; [eapply digits_skip, E2|].
        eapply digits_result, E2. lia.
      - injection E1 as <- <-. split; [|left; lia]. exists [ch]. split; [reflexivity|]. constructor; [unfold is_digit; lia|constructor]. }
    destruct s2 as [|d s2]; [discriminate|]. destruct (negb (d =? 125) && negb (d =? 58)) eqn:EN; [discriminate|].
    cbn [ct_handler h_id] in E. unfold ct_check_arg_id, reject in E. destruct (0 <? cs_next c) eqn:E0; [discriminate|].
    destruct (_ <=? idx); [discriminate|]. cbn [bind] in E. injection E as <- <- <-.
    cbn [format_handler h_id]. unfold check_arg_id. rewrite (r_nextb _ _ _ HR), <- (r_next _ _ _ HR), E0. cbn [bind].
    eexists _, _. split; [reflexivity|]. split; [reflexivity|]. destruct HR. split; [constructor; cbn; auto|].
    split; [reflexivity|]. split; [reflexivity|]. split; [|split; [destruct H2 as [(ds & -> & _) _]; exists ds; reflexivity|intros; apply H2]].
    destruct H2 as [_ [H2|(d' & s3 & H2 & H3)]]; [exact H2|]. injection H2 as <- _. unfold is_digit in H3. lia.
  - intros E. apply bind_ok in E. destruct E as ([i c1] & E1 & E). injection E as <- <- <-. cbn [ct_handler h_auto_id] in E1.
    destruct (auto_both _ _ _ _ _ HR E1) as (a' & b' & Ea & Eb & H1 & H2 & H3 & H4).
    cbn [format_handler h_auto_id]. rewrite Ea, Eb. cbn [bind]. exists a', b'. repeat (split; [auto using suffix_refl; fail|]). intros; exists []; auto.
Qed.
(** A replacement field: the same error, up to the kind of a literal that did not match; and
    without one the scan goes on from the same place. *)
Definition after (c : cstate) (p : list Z) (a : state A) (b : state B) (u v : list Z) : Prop :=
  rel c a b /\ differ a b /\ (st_error a = None -> u = p /\ v = p).
Lemma replacement_both s c p c' a b : (exists x, format = x ++ 123 :: s) -> rel c a b -> inside a b ->
  parse_replacement_field hc (123 :: s) c = Ok (p, c') ->
  suffix p (123 :: s) /\ both (after c' p) (parse_replacement_field hA (123 :: s) a) (parse_replacement_field hB (123 :: s) b).
Proof.
  intros HF HR HI. unfold parse_replacement_field.
  destruct s as [|ch s]; [discriminate|].
  assert (FIELD : forall id t c1 c2 q a1 b1, 0 <= id -> rel c1 a1 b1 -> inside a1 b1 -> ct_replacement_field contiguous borrowed types custom_parse id t c1 = Ok c2 ->
    both (after c2 q) (st <- on_replacement_field A argsA id t a1 ;; Ok (q, st)) (st <- on_replacement_field B argsB id t b1 ;; Ok (q, st))).
  { intros id t c1 c2 q a1 b1 Hid HR1 HI1 E. assert (H := field_both id t c1 c2 a1 b1 Hid HR1 HI1 E). unfold both1 in H. unfold both.
    destruct (on_replacement_field A _ _ _ _); [|rewrite H; reflexivity..]. destruct (on_replacement_field B _ _ _ _); try tauto. cbn [bind].
    destruct H. split; [assumption|]. split; [left; assumption|auto]. }
  destruct (ch =? 125).
  { intros E. apply bind_ok in E. destruct E as ([id c1] & E1 & E). apply bind_ok in E. destruct E as (c2 & E2 & E). injection E as <- <-.
    cbn [ct_handler h_auto_id h_field] in E1, E2. destruct (auto_both _ _ _ _ _ HR E1) as (a1 & b1 & Ea & Eb & HR1 & H1 & H2 & Hid).
    cbn [format_handler h_auto_id h_field]. rewrite Ea, Eb. cbn [bind].
    split; [apply suffix_cons, suffix_cons, suffix_refl|]. apply FIELD with c1; auto. destruct HI as [HI1 HI2]. split; congruence. }
  destruct (ch =? 123).
  { intros E. apply bind_ok in E. destruct E as (c1 & E1 & E). injection E as <- <-. cbn [format_handler h_literal].
    assert (c1 = c) as ->.
    { cbn [ct_handler h_literal] in E1. unfold ct_literal, reject in E1. apply bind_ok in E1. destruct E1 as (ok & _ & E1). destruct ok; congruence. }
    split; [apply suffix_cons, suffix_cons, suffix_refl|]. assert (H := on_literal_both [ch] c a b HR HI). unfold both1 in H. unfold both.
    destruct (on_literal_text A _ _ _); [|rewrite H; reflexivity..]. destruct (on_literal_text B _ _ _); try tauto. cbn [bind].
    destruct H as [H1 H2]. split; [assumption|]. split; [left; apply H2|auto]. }
  intros E. apply bind_ok in E. destruct E as ([[s1 id] c1] & E1 & E).
  destruct (arg_id_both _ _ _ _ _ _ _ HR E1) as (a1 & b1 & Ea & Eb & HR1 & H1 & H2 & Hid & HSuf & HD). rewrite Ea, Eb. cbn [bind].
  assert (HI1 : inside a1 b1) by (destruct HI as [HI1 HI2]; split; congruence).
  apply suffix_cons with (c := 123) in HSuf. destruct s1 as [|d s1]; [discriminate|]. assert (HSuf1 := suffix_cons_inv _ _ _ HSuf). destruct (d =? 125).
  { apply bind_ok in E. destruct E as (c2 & E2 & E). injection E as <- <-. split; [exact HSuf1|]. apply FIELD with c1; assumption. }
  destruct (Z.eqb_spec d 58) as [->|_]; [|discriminate].
  destruct s1 as [|d1 s1]; [discriminate|].
  apply bind_ok in E. destruct E as ([s2 c2] & E2 & E). cbn [ct_handler h_specs] in E2.
  destruct s2 as [|d2 s2]; [discriminate|]. destruct (Z.eqb_spec d2 125) as [->|_]; [|discriminate]. cbn [negb] in E. injection E as <- <-.
  assert (HU : used_at (d1 :: s1)).
  { destruct HF as (x & HF). destruct (HD _ eq_refl) as (ds & ED & Hds). exists x, ds. rewrite <- ED. auto. }
  cbn [format_handler h_specs h_error]. destruct (specs_both id (d1 :: s1) c1 s2 c2 a1 b1 Hid HU HR1 HI1 E2) as [HS2 H].
  split; [eapply suffix_trans; [eapply suffix_cons_inv, HS2|exact HSuf1]|]. unfold both in H |- *.
  destruct (on_format_specs A cf argsA id (d1 :: s1) a1) as [[u a2]| | |]; [|rewrite H; reflexivity..].
  destruct (on_format_specs B cf argsB id (d1 :: s1) b1) as [[v b2]| | |]; try tauto. cbn [bind].
  destruct H as (HR2 & HE & [->|(-> & -> & H3 & H4)] & HV2).
  2: { cbn [bind]. destruct (negb (d1 =? 125)); cbn [bind].
    - split; [destruct HR2; constructor; assumption|]. split; [left; reflexivity|]. cbn. congruence.
    - split; [exact HR2|]. split; [left; exact HE|congruence]. }
  destruct HV2 as [->|(-> & H3 & H4)]; change (125 =? 125) with true; cbn [negb bind].
  { split; [exact HR2|]. split; [left; exact HE|auto]. }
  destruct (negb (d1 =? 125)); cbn [bind].
  - split; [destruct HR2; constructor; assumption|].
    split; [|congruence]. unfold differ. cbn. destruct H3 as [H3|[H3|H3]]; [congruence|right; auto|left; congruence].
  - split; [exact HR2|]. split; [left; exact HE|congruence].
Qed.
Lemma loop_both : forall fuel fc begin it c c' a b, (exists x, format = x ++ it) -> rel c a b -> inside a b ->
  parse_loop fc hc begin it c = Ok c' ->
  both1 (fun a b => (exists c, rel c a b) /\ differ a b) (parse_loop fuel hA begin it a) (parse_loop fuel hB begin it b).
Proof.
  assert (LIT : forall t c c1 a b, rel c a b -> inside a b -> ct_literal cf t c = Ok c1 -> c1 = c).
  { intros t c c1 a b _ _ E1. unfold ct_literal, reject in E1. apply bind_ok in E1. destruct E1 as (ok & _ & E1). destruct ok; congruence. }
  induction fuel as [|f IH]; intros fc begin it c c' a b HF HR HI E.
  { destruct it; [|reflexivity]. cbn [parse_loop format_handler h_literal]. assert (H := on_literal_both begin c a b HR HI). unfold both1 in *.
    destruct (on_literal_text A _ _ _); [|rewrite H; reflexivity..]. destruct (on_literal_text B _ _ _); try tauto.
    destruct H as [H1 [H2 _]]. split; [eauto|left; exact H2]. }
  destruct it as [|ch it].
  { cbn [parse_loop format_handler h_literal]. assert (H := on_literal_both begin c a b HR HI). unfold both1 in *.
    destruct (on_literal_text A _ _ _); [|rewrite H; reflexivity..]. destruct (on_literal_text B _ _ _); try tauto.
    destruct H as [H1 [H2 _]]. split; [eauto|left; exact H2]. }
  destruct fc as [|fc]; [discriminate|]. cbn [parse_loop] in E |- *.
  assert (HT : forall y z, it = y ++ z -> exists x, format = x ++ z).
  { intros y z ->. destruct HF as (x & ->). exists (x ++ ch :: y). rewrite <- app_assoc. reflexivity. }
  destruct (Z.eqb_spec ch 123) as [->|_].
  - apply bind_ok in E. destruct E as (c1 & E1 & E). apply bind_ok in E. destruct E as ([p c2] & E2 & E).
    cbn [ct_handler h_literal h_failed] in E1, E. apply (LIT _ _ _ _ _ HR HI) in E1. subst c1.
    cbn [format_handler h_literal h_failed]. assert (H := on_literal_both (between begin (123 :: it)) c a b HR HI). unfold both1 in H.
    destruct (on_literal_text A _ _ _) as [a1| | |]; [|rewrite H; reflexivity..]. destruct (on_literal_text B _ _ _) as [b1| | |]; try tauto. cbn [bind].
    destruct H as [HR1 HI1]. destruct (replacement_both it c p c2 a1 b1 HF HR1 HI1 E2) as [HS H]. unfold both in H.
    change (format_handler A r cf argsA) with hA. change (format_handler B r cf argsB) with hB. cbv iota.
    destruct (parse_replacement_field hA (123 :: it) a1) as [[u a2]| | |]; [|rewrite H; reflexivity..].
    destruct (parse_replacement_field hB (123 :: it) b1) as [[v b2]| | |]; try tauto. cbn [bind].
    destruct H as (HR2 & HD & HP). unfold failed. destruct (st_error a2) as [e|] eqn:EE.
    + assert (exists e', st_error b2 = Some e') as (e' & ->) by (destruct HD as [HD|[_ HD]]; eauto; rewrite HD, EE; eauto).
      cbn. split; [eauto|exact HD].
    + assert (EB : st_error b2 = None) by (destruct HD as [HD|[HD _]]; congruence). rewrite EB.
      destruct (HP eq_refl) as [-> ->]. apply IH with fc c2 c'; auto; [|split; [congruence|left; exact EE]].
      destruct HS as (y & HS). destruct HF as (x & HF). exists (x ++ y). rewrite HF, HS, <- app_assoc. reflexivity.
  - destruct (ch =? 125).
    + destruct it as [|d it]; [discriminate|]. destruct (negb (d =? 125)); [discriminate|].
      apply bind_ok in E. destruct E as (c1 & E1 & E). cbn [ct_handler h_literal] in E1. apply (LIT _ _ _ _ _ HR HI) in E1. subst c1.
      cbn [format_handler h_literal]. assert (H := on_literal_both (between begin (d :: it)) c a b HR HI). unfold both1 in H.
      destruct (on_literal_text A _ _ _) as [a1| | |]; [|rewrite H; reflexivity..]. destruct (on_literal_text B _ _ _) as [b1| | |]; try tauto. cbn [bind].
      destruct H as [HR1 HI1]. apply IH with fc c c'; auto. apply (HT [d] it eq_refl).
    + apply IH with fc c c'; auto. apply (HT [] it eq_refl).
Qed.

(** The whole call. *)
Definition follows_result (x : outcome (list (Z * A) * list Z)) (y : outcome (list (Z * B) * list Z)) : Prop :=
  match x with
  | Ok (l, rest) => y = Ok (log_of l, rest)
  | Err InvalidLiteral => y = Err InvalidLiteral \/ y = Err InvalidFormatString
  | Err e => y = Err e
  | UB => y = UB
  | OutOfFuel => y = OutOfFuel
  end.
Hypothesis Hplain : forall a b, nth_error argsA 0 = Some a -> nth_error argsB 0 = Some b -> is_simple format = true ->
  forall s, ar_plain b s = map_value (g 0) (ar_plain a s).
Hypothesis Hcheck : check_format_string cf contiguous borrowed types custom_parse format = Ok tt.
Lemma vscan_both source : follows_result (vscan A r cf argsA format source) (vscan B r cf argsB format source).
Proof.
  unfold vscan, args_count. rewrite <- Hlen. destruct (is_simple format && (Z.of_nat (length argsA) =? 1)) eqn:ES.
  { apply andb_true_iff in ES. destruct ES as [ES _]. assert (H := get_both 0). unfold get_arg in *. change (Z.to_nat 0) with O in *.
    destruct (nth_error argsA 0) as [a|] eqn:EA, (nth_error argsB 0) as [b|] eqn:EB; try tauto; [|reflexivity].
    cbn [scan_simple_single_argument]. rewrite (Hplain a b eq_refl eq_refl ES). unfold map_value. destruct (ar_plain a source) as [[v s]|[]| |]; cbn; auto. }
  unfold check_format_string in Hcheck. apply bind_ok in Hcheck. destruct Hcheck as (c & E & _).
  unfold vscan_parse_format_string, parse_format_string_impl in *.
  assert (H := loop_both (vscan_fuel A argsA format) (length format + 1) format format (CS 0 []) c (init_state A argsA format source) (init_state B argsB format source)
    (ex_intro _ [] eq_refl)).
  assert (HF : vscan_fuel B argsB format = vscan_fuel A argsA format) by (unfold vscan_fuel; rewrite Hlen; reflexivity). rewrite HF.
  assert (HR : rel (CS 0 []) (init_state A argsA format source) (init_state B argsB format source)).
  { constructor; try reflexivity. cbn. unfold args_count. rewrite Hlen. reflexivity. }
  specialize (H HR). assert (HI : inside (init_state A argsA format source) (init_state B argsB format source)) by (split; [reflexivity|left; reflexivity]).
  specialize (H HI E). unfold both1 in H.
  destruct (parse_loop _ hA _ _ _) as [a|e| |] eqn:EL; [|rewrite H; destruct e; cbn; auto|rewrite H; reflexivity|rewrite H; reflexivity].
  destruct (parse_loop _ hB _ _ _) as [b| | |]; try tauto. cbn [bind]. destruct H as [(c1 & HR1) HD].
  unfold check_args_exhausted, args_count. rewrite <- Hlen, (r_low _ _ _ HR1), (r_up _ _ _ HR1).
  assert (END : follows_result (match st_error a with Some e => Err e | None => Ok (st_log a, st_src a) end)
                 (match st_error b with Some e => Err e | None => Ok (st_log b, st_src b) end)).
  { rewrite (r_log _ _ _ HR1), (r_src _ _ _ HR1). destruct HD as [->|[-> ->]]; [|right; reflexivity]. destruct (st_error a) as [[]|]; cbn; auto. }
  cbv zeta. destruct (negb _); [reflexivity|]. destruct (_ <? 64); [exact END|].
  destruct (check_upper _ _) as [[|p|p]|]; try reflexivity. destruct p; try reflexivity. exact END.
Qed.
End Step.

(** * Readers *)
Lemma arg_read_default {V} r skip (f : src -> list Z -> outcome (V * list Z)) s :
  arg_read r specs_default skip f s = (it <- (if skip then skip_classic_whitespace r s false else Ok s) ;; f r it).
Proof.
  unfold arg_read. change (precision specs_default) with 0. cbn [negb Z.eqb]. unfold impl_prefix. change (align specs_default) with ANone.
  change (negb (0 =? 0)) with false. change (need_width specs_default) with false. cbv iota.
  assert (H' : forall it prefix, (' (x, it', value) <- (' (x, it') <- f r it ;; Ok (x, it', 0)) ;;
     '(it2, postfix) <- match it' with [] => Ok (it', 0) | _ => impl_postfix r specs_default skip prefix value it' end ;;
      _ <- check_widths specs_default prefix value postfix ;; Ok (x, it2)) = f r it).
  { intros it prefix. destruct (f r it) as [[x it']| | |]; try reflexivity. cbn [bind].
    assert (E : match it' with [] => Ok (it', 0) | _ => impl_postfix r specs_default skip prefix 0 it' end = Ok (it', 0)).
    { destruct it'; [reflexivity|]. unfold impl_postfix. change (align specs_default) with ANone. change (width specs_default) with 0.
      change (precision specs_default) with 0. cbn. rewrite andb_false_r. reflexivity. }
    rewrite E. reflexivity. }
  destruct skip; cbn [bind].
  - unfold skip_ws_all. destruct (skip_classic_whitespace r s false) as [it| | |]; cbn [bind]; try reflexivity. apply (H' it 0).
  - apply (H' s 0).
Qed.
Lemma default_skip {V} r (f : list Z -> outcome (V * list Z)) s :
  default_read r true f s = (it <- skip_classic_whitespace r s false ;; f it).
Proof.
  unfold default_read, skip_ws_before_if_required. destruct s; [|reflexivity].
  unfold skip_classic_whitespace, read_while_classic_space, contiguous_beginning. rewrite firstn_nil.
  destruct (s_enc r), (s_contig r); reflexivity.
Qed.

Section Scalars.
Context {F : Type} (rx : regex_engine).
(** The types whose scanner exists: characters are of the type of the source. *)
Definition discardable (e : enc) (t : scalar_type F) : Prop :=
  match t with
  | TInt _ _ | TString _ _ | TFloat _ _ => True
  | TChar KChar old _ => e = U8 /\ old = 0
  | TChar KWchar old _ => e <> U8 /\ old = 0
  | TChar KCodePoint _ _ | TBool | TPointer => False
  end.
Lemma scalar_default_specs r l (t : scalar_type F) s : discardable (s_enc r) t ->
  scalar_specs rx r l t specs_default s = scalar_default r t s.
Proof.
  destruct t as [t a| |k old a| |d a|f a]; cbn [discardable]; try tauto; intros H; cbn [scalar_specs scalar_default]; f_equal;
    unfold string_arg, arg_read_checked.
  - cbn [rd_check int_reader rd_skip rd_specs]. change (check_int_type_specs specs_default) with true. cbv iota.
    rewrite arg_read_default. unfold int_default. rewrite default_skip.
    destruct (skip_classic_whitespace r s false) as [it| | |]; try reflexivity. cbn [bind].
    unfold int_read_specs, int_read_default, int_read_default_with_base. change (get_base specs_default) with (Ok 10). cbn [bind].
    destruct (parse_integer_prefix r it 10) as [p| | |]; try reflexivity. cbn [bind]. change (ptype_eqb (type specs_default) PIntUnsignedDecimal) with false.
    rewrite orb_false_r, andb_comm. reflexivity.
  - assert (EC : char_check k specs_default = true) by (destruct k; reflexivity).
    cbn [rd_check char_reader rd_skip rd_specs]. rewrite EC, arg_read_default. cbn [bind].
    unfold char_specs, char_default, default_read, skip_ws_before_if_required. change (type specs_default) with PNone.
    destruct s as [|c s]; [|destruct k; reflexivity]. cbn [bind]. unfold char_default_read.
    destruct k; [destruct H as [-> _]; reflexivity| |tauto]. destruct H as [H _]. destruct (s_enc r); [congruence| |]; reflexivity.
  - cbn [rd_check string_reader rd_skip rd_specs]. change (check_string_type_specs specs_default) with true. change (string_skip specs_default) with true. cbv iota.
    rewrite arg_read_default. unfold string_default. rewrite default_skip. reflexivity.
  - cbn [rd_check float_reader rd_skip rd_specs]. change (check_float_type_specs specs_default) with true. cbv iota.
    rewrite arg_read_default. unfold float_default. rewrite default_skip. reflexivity.
Qed.

(** Sources of the same encoding are the same to a reader with a maximum width, and when
    nothing is left. *)
Lemma skip_fill_enc r r' s n f want : s_enc r = s_enc r' -> skip_fill r s n f want = skip_fill r' s n f want.
Proof. intros E. unfold skip_fill. rewrite E. reflexivity. Qed.
Lemma arg_read_limit {V} r r' sp skip (f : src -> list Z -> outcome (V * list Z)) s : s_enc r = s_enc r' -> precision sp <> 0 ->
  arg_read r sp skip f s = arg_read r' sp skip f s.
Proof.
  intros E HP. unfold arg_read, impl_postfix, impl_prefix, skip_ws_within, view_src. rewrite E.
  replace (negb (precision sp =? 0)) with true by lia. 
  destruct (take_width (s_enc r') s (precision sp)) as [v| | |]; try reflexivity. cbn [bind].
  destruct (match align sp with ANone => _ | _ => _ end) as [[it w]| | |]; try reflexivity. cbn [bind].
  destruct (_ <=? _); [reflexivity|]. cbv zeta. destruct (take_width _ _ _) as [v2| | |]; try reflexivity. cbn [bind].
  destruct (f _ v2) as [[x rest]| | |]; try reflexivity. cbn [bind]. destruct (view_count _ _ _ _ _) as [n| | |]; try reflexivity. cbn [bind].
  destruct (view_base _ _ _) as [|c z]; [reflexivity|]. f_equal.
  destruct (align sp); try reflexivity; destruct (_ && _); try reflexivity; apply skip_fill_enc, E.
Qed.
Lemma skip_nothing r : skip_classic_whitespace r [] false = Err EndOfInput.
Proof.
  unfold skip_classic_whitespace, read_while_classic_space, contiguous_beginning. rewrite firstn_nil.
  destruct (s_enc r), (s_contig r); reflexivity.
Qed.
Lemma arg_read_nothing {V} r r' sp skip (f : src -> list Z -> outcome (V * list Z)) : s_enc r = s_enc r' ->
  f r [] = f r' [] -> (forall x it, f r [] = Ok (x, it) -> it = []) ->
  arg_read r sp skip f [] = arg_read r' sp skip f [].
Proof.
  intros E Hf HE. destruct (Z.eq_dec (precision sp) 0) as [HP|HP]; [|apply arg_read_limit; assumption].
  unfold arg_read. rewrite HP. change (negb (0 =? 0)) with false. cbv iota.
  assert (EP : impl_prefix r sp skip [] = impl_prefix r' sp skip [] /\ forall it w, impl_prefix r sp skip [] = Ok (it, w) -> it = []).
  { unfold impl_prefix, skip_ws_all. rewrite HP. change (negb (0 =? 0)) with false. cbv iota.
    rewrite !skip_nothing.
    assert (FILL : skip_fill r [] 0 (fill sp) (need_width sp) = skip_fill r' [] 0 (fill sp) (need_width sp)
       /\ forall it w, skip_fill r [] 0 (fill sp) (need_width sp) = Ok (it, w) -> it = []).
    { split; [apply skip_fill_enc, E|]. unfold skip_fill. intros it w. cbv zeta. change (0 =? 0) with true. cbv iota.
      change (read_while_code_units (get_code_units (fill sp)) []) with (Ok (@nil Z)).
      destruct (_ <=? _)%nat; [|destruct (s_enc r)]; cbn [bind]; try discriminate; destruct (need_width sp); cbn [bind];
        try (destruct (text_width _ _); cbn [bind]); try discriminate; try (intros [= <- _]; reflexivity). }
    destruct (align sp); try exact FILL; [destruct skip|]; (split; [reflexivity|]); cbn [bind]; try discriminate; congruence. }
  destruct EP as [EP HI]. rewrite EP in *. destruct (impl_prefix r' sp skip []) as [[it w]| | |]; try reflexivity. cbn [bind].
  rewrite (HI it w eq_refl), <- Hf. destruct (f r []) as [[x it']| | |]; try reflexivity. cbn [bind]. rewrite (HE x it' eq_refl), E.
  destruct (need_width sp); [destruct (text_width _ _)|]; reflexivity.
Qed.
Lemma word_nothing d r r' : s_enc r = s_enc r' -> word_read d r [] = word_read d r' [].
Proof.
  intros E. unfold word_read, read_until_classic_space, contiguous_beginning. rewrite E, !firstn_nil.
  destruct (s_enc r'), (s_contig r), (s_contig r'); reflexivity.
Qed.

Lemma scalar_nothing r r' l (t : scalar_type F) sp : s_enc r = s_enc r' -> discardable (s_enc r) t ->
  (match type sp with PRegex | PRegexEscaped => False | _ => True end) ->
  scalar_specs rx r l t sp [] = scalar_specs rx r' l t sp [].
Proof.
  intros E HT HR.
  assert (INT : forall x t sep, int_read_specs x t sp sep [] = match get_base sp with Ok _ => Err EndOfInput | Err e => Err e | UB => UB | OutOfFuel => OutOfFuel end).
  { intros. unfold int_read_specs. destruct (get_base sp); reflexivity. }
  destruct t as [t a| |k old a| |d a|f a]; cbn [discardable] in HT; try tauto; cbn [scalar_specs]; f_equal;
    unfold string_arg, arg_read_checked; cbn [rd_check rd_skip rd_specs int_reader char_reader string_reader float_reader].
  - destruct (check_int_type_specs sp); [|reflexivity]. apply arg_read_nothing; [exact E| |]; rewrite INT; [rewrite INT; reflexivity|].
    destruct (get_base sp); discriminate.
  - destruct (char_check k sp); [|reflexivity].
    assert (CH : forall x, s_enc x = s_enc r -> char_specs k old (l_sep l) x sp [] = match type sp with PNone | PCharacter => Err EndOfInput | _ => match get_base sp with Ok _ => Err EndOfInput | Err e => Err e | UB => UB | OutOfFuel => OutOfFuel end end).
    { intros x Ex. unfold char_specs, char_default_read. rewrite Ex. destruct k; [destruct HT as [-> _]| |tauto].
      - destruct (type sp); try reflexivity; rewrite INT; destruct (get_base sp); reflexivity.
      - destruct HT as [HT _]. destruct (s_enc r); [congruence| |]; destruct (type sp); try reflexivity; rewrite INT; destruct (get_base sp); reflexivity. }
    apply arg_read_nothing; [exact E| |]; rewrite CH by auto; [rewrite CH by auto; reflexivity|].
    destruct (type sp), (get_base sp); discriminate.
  - destruct (check_string_type_specs sp); [|reflexivity].
    assert (ST : string_specs rx d r sp [] = string_specs rx d r' sp []).
    { unfold string_specs, string_kind_of, custom_word_read, character_read, set_read, set_source. rewrite <- E.
      destruct (type sp); try tauto; try apply word_nothing, E; try reflexivity. destruct (align sp); try apply word_nothing, E; reflexivity. }
    apply arg_read_nothing; [exact E|exact ST|]. clear ST.
    assert (STO : forall e x it, store d e [] [] = Ok (x, it) -> it = []).
    { intros e x it. unfold store. cbn [length Nat.sub firstn]. destruct d.
      - destruct (validate_unicode e []) as [ok| | |]; cbn [bind]; try discriminate. destruct (negb ok); [discriminate|].
        destruct (if enc_eqb _ _ then _ else _); cbn [bind]; congruence.
      - destruct alloc; [discriminate|]. destruct (negb _); [discriminate|]. 
        destruct (validate_unicode e []) as [ok| | |]; cbn [bind]; try discriminate. destruct (negb ok); [discriminate|]. congruence. }
    assert (WORD : forall x it, word_read d r [] = Ok (x, it) -> it = []).
    { intros x it. unfold word_read, read_until_classic_space, contiguous_beginning. rewrite firstn_nil. intros H. apply STO with (s_enc r) x.
      rewrite <- H. destruct (s_enc r), (s_contig r); reflexivity. }
    unfold string_specs, string_kind_of, custom_word_read, character_read, set_read, set_source. intros x it.
    assert (CUS : (if (f_size (fill sp) <=? unit_size (s_enc r))%nat then store d (s_enc r) [] (read_until_code_unit (fun c => c =? get_code_unit (fill sp)) [])
       else match s_enc r with U8 => store d U8 [] (read_until_code_units (get_code_units (fill sp)) []) | _ => UB end) = Ok (x, it) -> it = []).
    { destruct (_ <=? _)%nat; [apply STO|]. destruct (s_enc r); try discriminate. apply STO. }
    destruct (type sp); try tauto; try apply WORD.
    + destruct (align sp); try apply WORD; exact CUS.
    + destruct (handle_nonascii (s_enc r) sp) as [rs| | |]; try discriminate. cbn [bind].
      destruct (charset_has_nonascii sp), (charset_is_inverted sp); try (destruct (s_enc r)); discriminate.
    + destruct (precision sp =? 0); [discriminate|apply STO].
  - destruct (check_float_type_specs sp); [|reflexivity].
    assert (FL : forall x, float_read_specs f x (number_options l) sp [] = match get_options sp with Ok _ => Err EndOfInput | Err e => Err e | UB => UB | OutOfFuel => OutOfFuel end).
    { intros. unfold float_read_specs. destruct (get_options sp); reflexivity. }
    apply arg_read_nothing; [exact E| |]; rewrite FL; [rewrite FL; reflexivity|]. destruct (get_options sp); discriminate.
Qed.
(** The element is read as the argument would be. *)
Lemma element_as_argument r l (t : scalar_type F) sp s : discardable (s_enc r) t ->
  s_contig r = false \/ width sp = 0 \/ precision sp <> 0 ->
  element_scan rx l r t sp s = scalar_specs rx r l t sp s.
Proof.
  intros HT H. unfold element_scan, element_src. destruct (s_contig r) eqn:EC; [|reflexivity]. cbv zeta.
  destruct H as [H|H]; [discriminate|].
  destruct (match type sp with PRegex | PRegexEscaped => true | _ => false end) eqn:ER; [reflexivity|]. cbn [orb].
  destruct H as [H|H].
  - rewrite H. change (0 =? 0) with true. destruct s as [|c s].
    + cbn [andb]. symmetry. apply scalar_nothing; [reflexivity|exact HT|destruct (type sp); auto; discriminate].
    + cbn [andb]. destruct (precision sp =? 0) eqn:EP; [reflexivity|]. clear H. assert (H : precision sp <> 0) by lia.
      destruct t as [t a| |k old a| |d a|f a]; cbn [discardable] in HT; try tauto; cbn [scalar_specs]; f_equal;
        unfold string_arg, arg_read_checked; match goal with |- (if ?b then _ else _) = _ => destruct b; [|reflexivity] end;
        apply arg_read_limit; auto.
  - replace (precision sp =? 0) with false by lia. rewrite andb_false_r.
    destruct t as [t a| |k old a| |d a|f a]; cbn [discardable] in HT; try tauto; cbn [scalar_specs]; f_equal;
      unfold string_arg, arg_read_checked; match goal with |- (if ?b then _ else _) = _ => destruct b; [|reflexivity] end;
      apply arg_read_limit; auto.
Qed.

(** * Items *)
Variable cf : config.
Definition kept (it : item F) : item F := Keep (item_scalar it).
Definition item_ok (e : enc) (it : item F) : Prop :=
  scalar_arg_type (item_scalar it) <> NoneType /\ scalar_arg_type (item_scalar it) <> CustomType /\ scalar_typed (item_scalar it)
  /\ (is_discard it = true -> discardable e (item_scalar it)).
Definition keep_of (its : list (item F)) (i : Z) : bool :=
  match nth_error its (Z.to_nat i) with Some it => negb (is_discard it) | None => true end.
Definition erase (its : list (item F)) (i : Z) (v : option (svalue F)) : option (svalue F) := if keep_of its i then v else None.
Variables (global : locale) (l : locale_ref) (r : src) (its : list (item F)) (format : list Z).
Hypothesis Hits : Forall (item_ok (s_enc r)) its.
Hypothesis Hloc : get_locale global l = get_locale global None \/ (units (c_enc cf) format /\ no_local_field (c_enc cf) format).
Hypothesis Hwidth : s_contig r = true -> forall f t p sp, used_at format f -> In t its -> is_discard t = true ->
  parse_format_specs cf (scalar_arg_type (item_scalar t)) f (SS specs_default false) = Ok (p, SS sp false) -> width sp = 0 \/ precision sp <> 0.
Lemma stored_erase i it x : nth_error its (Z.to_nat i) = Some it -> map_value (erase its i) (stored true x) = stored (negb (is_discard it)) x.
Proof. intros E. unfold map_value, stored, erase, keep_of. rewrite E. destruct x as [[v s]| | |]; reflexivity. Qed.
Lemma item_default (it : item F) s : item_ok (s_enc r) it -> ar_default (item_arg rx cf global l r it) s = stored (negb (is_discard it)) (scalar_default r (item_scalar it) s).
Proof.
  intros H. destruct it as [t|t]; [reflexivity|]. cbn [item_arg ar_default is_discard negb item_scalar]. unfold discard_scan. f_equal.
  rewrite element_as_argument; [apply scalar_default_specs|apply H; reflexivity|right; left; reflexivity]. apply H. reflexivity.
Qed.
Lemma item_plain (it : item F) s : ar_plain (item_arg rx cf global l r it) s = ar_default (item_arg rx cf global l r it) s.
Proof. destruct it; reflexivity. Qed.
Lemma items_follow i a b : nth_error (map (item_arg rx cf global l r) (map kept its)) (Z.to_nat i) = Some a ->
  nth_error (map (item_arg rx cf global l r) its) (Z.to_nat i) = Some b -> 0 <= i -> forall cp, follows cf cp (erase its) format i a b.
Proof.
  rewrite map_map, !nth_error_map. destruct (nth_error its (Z.to_nat i)) as [it|] eqn:E; [|discriminate]. intros [= <-] [= <-] _ cp.
  assert (Hin := nth_error_In _ _ E). assert (Hok := proj1 (Forall_forall _ _) Hits it Hin).
  unfold follows. cbn [kept item_arg ar_type ar_default ar_specs].
  split.
  { intros s. rewrite (stored_erase i it _ E). apply item_default, Hok. }
  left. split; [apply Hok|]. split; [apply Hok|].
  intros f p sp Hf EP. destruct it as [t|t]; cbn [item_scalar item_arg ar_type ar_specs ar_custom] in *.
  - right. split; [reflexivity|]. intros s. rewrite (stored_erase i _ _ E). reflexivity.
  - left. split; [reflexivity|]. intros s. cbn [shape_parse shape_type]. destruct f as [|c f]; [discriminate|]. rewrite EP. cbn [bind ss_specs].
    f_equal. rewrite (stored_erase i _ _ E). unfold discard_scan. cbn [is_discard negb]. f_equal.
    rewrite element_as_argument.
    + destruct Hloc as [->|[Hu Hn]]; [reflexivity|]. apply scalar_plain.
      destruct Hf as (x & ds & EF & Hds). apply (specs_plain cf (scalar_arg_type t) (c :: f) (125 :: p) (SS sp false)); [|apply (no_local_start _ ds)|exact EP].
      * rewrite EF in Hu. eapply units_suffix; [|exact Hu]. exists (x ++ 123 :: ds ++ [58]). rewrite <- app_assoc. cbn. rewrite <- app_assoc. reflexivity.
      * eapply no_local_suffix; [|exact Hn]. rewrite EF. exists x. reflexivity.
      * exact Hds.
    + apply Hok. reflexivity.
    + destruct (s_contig r) eqn:EC; [|left; reflexivity]. right. eapply Hwidth; [reflexivity|exact Hf|exact Hin|reflexivity|exact EP].
Qed.
Lemma items_vscan contiguous borrowed source :
  check_items cf contiguous borrowed (map kept its) format = Ok tt ->
  follows_result (erase its) (scan_items rx cf global l r (map kept its) format source) (scan_items rx cf global l r its format source).
Proof.
  intros HC. unfold scan_items. eapply vscan_both with (custom_parse := item_parse cf contiguous borrowed (map kept its)).
  - rewrite !map_length. reflexivity.
  - intros id a b Ea Eb Hid. apply items_follow; assumption.
  - intros a b. change O with (Z.to_nat 0). intros Ea Eb _ s. assert (H := items_follow 0 a b Ea Eb). destruct (H ltac:(lia) (fun _ f => Ok f)) as (HD & _). clear H. rename HD into H.
    rewrite nth_error_map in Ea, Eb. rewrite nth_error_map in Ea. destruct (nth_error its (Z.to_nat 0)) as [it|]; [|discriminate].
    injection Ea as <-. injection Eb as <-. rewrite !item_plain. apply H.
  - unfold check_items in HC. rewrite <- HC. f_equal. rewrite !map_map. reflexivity.
Qed.
End Scalars.

(** * Compile-time checking *)
Section TwoHandlers.
Context {St : Type} (h1 h2 : handler St).
Variable format : list Z.
Hypothesis H_lit : forall t st, h_literal h1 t st = h_literal h2 t st.
Hypothesis H_auto : forall st, h_auto_id h1 st = h_auto_id h2 st.
Hypothesis H_id : forall i st, h_id h1 i st = h_id h2 i st.
Hypothesis H_err : forall st, h_error h1 st = h_error h2 st.
Hypothesis H_failed : forall st, h_failed h1 st = h_failed h2 st.
Hypothesis H_specs : forall i f st, h_specs h1 i f st = h_specs h2 i f st.
(** Where a field without format-spec ends, or a format-spec does. *)
Definition ends_at (f : list Z) : Prop :=
  exists a ds, format = a ++ 123 :: ds ++ 125 :: f /\ Forall (fun c => is_digit c = true) ds.
Hypothesis H_field : forall i f st, ends_at f -> h_field h1 i (125 :: f) st = h_field h2 i (125 :: f) st.
Hypothesis H_suffix : forall i f st p st', h_specs h2 i f st = Ok (p, st') -> suffix p f.
Lemma arg_id_two s st : parse_arg_id h1 s st = parse_arg_id h2 s st.
Proof.
  unfold parse_arg_id, do_parse_arg_id. destruct s as [|c s]; [reflexivity|]. rewrite H_err, H_auto.
  destruct (_ && _); [|reflexivity]. destruct (_ || _); [reflexivity|]. destruct (if negb (c =? 48) then _ else _) as [[i s2]| | |]; try reflexivity. cbn [bind].
  destruct s2; [reflexivity|]. destruct (_ && _); [reflexivity|]. rewrite H_id. reflexivity.
Qed.
Lemma arg_id_where s st s' i st' : parse_arg_id h2 s st = Ok (s', i, st') -> suffix s' s
  /\ forall c t, s' = c :: t -> c = 125 \/ c = 58 -> exists ds, s = ds ++ s' /\ Forall (fun c => is_digit c = true) ds.
Proof.
  unfold parse_arg_id. destruct s as [|c s]; [discriminate|]. destruct (negb (c =? 125) && negb (c =? 58)) eqn:EC.
  - unfold do_parse_arg_id. destruct (_ || _) eqn:ED.
    { intros E. apply bind_ok in E. destruct E as (st1 & _ & E). injection E as <- _ _. split; [apply suffix_refl|].
      intros d t [= <- _] Hd. lia. }
    intros E. apply bind_ok in E. destruct E as ([idx s2] & E1 & E).
    assert (H2 : exists ds, c :: s = ds ++ s2 /\ Forall (fun c => is_digit c = true) ds).
    { destruct (negb (c =? 48)).
      - unfold parse_simple_int in E1. destruct (is_digit c) eqn:EI; [|discriminate].
        assert (E2 : parse_simple_int_loop (c :: s) 0 = (idx, s2)) by congruence. eapply digits_skip, E2.
      - injection E1 as _ <-. exists [c]. split; [reflexivity|]. constructor; [unfold is_digit; lia|constructor]. }
    assert (s' = s2) as ->.
    { destruct s2 as [|d s2]; [apply bind_ok in E; destruct E as (? & _ & E); congruence|].
      destruct (negb (d =? 125) && negb (d =? 58)); apply bind_ok in E; [destruct E as (? & _ & E)|destruct E as ([? ?] & _ & E)]; congruence. }
    split; [destruct H2 as (ds & -> & _); exists ds; reflexivity|auto].
  - intros E. apply bind_ok in E. destruct E as ([? ?] & _ & E). injection E as <- _ _. split; [apply suffix_refl|]. intros. exists []. auto.
Qed.
Lemma replacement_two s st : (exists x, format = x ++ 123 :: s) ->
  parse_replacement_field h1 (123 :: s) st = parse_replacement_field h2 (123 :: s) st
  /\ forall p st', parse_replacement_field h2 (123 :: s) st = Ok (p, st') -> suffix p (123 :: s).
Proof.
  intros (x & HF). unfold parse_replacement_field. rewrite H_err, H_auto.
  destruct s as [|c s]; [split; [reflexivity|]; intros p st' E; apply bind_ok in E; destruct E as (? & _ & E); injection E as <- _; apply suffix_nil|].
  destruct (Z.eqb_spec c 125) as [->|_].
  { split; [|intros p st' E; apply bind_ok in E; destruct E as ([? ?] & _ & E); apply bind_ok in E; destruct E as (? & _ & E); injection E as <- _; apply suffix_cons, suffix_cons, suffix_refl].
    destruct (h_auto_id h2 st) as [[i st1]| | |]; try reflexivity. cbn [bind]. rewrite H_field; [reflexivity|]. exists x, []. auto. }
  destruct (c =? 123).
  { rewrite H_lit. split; [reflexivity|]. intros p st' E. apply bind_ok in E; destruct E as (? & _ & E). injection E as <- _. apply suffix_cons, suffix_cons, suffix_refl. }
  rewrite arg_id_two. destruct (parse_arg_id h2 (c :: s) st) as [[[s1 i] st1]| | |] eqn:EI; [|split; [reflexivity|discriminate]..]. cbn [bind].
  destruct (arg_id_where _ _ _ _ _ EI) as [HS HD]. apply suffix_cons with (c := 123) in HS.
  destruct s1 as [|d s1].
  { rewrite H_err. split; [reflexivity|]. intros p st' E. apply bind_ok in E; destruct E as (? & _ & E). injection E as <- _. apply suffix_nil. }
  assert (HS1 := suffix_cons_inv _ _ _ HS). destruct (Z.eqb_spec d 125) as [->|_].
  { rewrite H_field; [split; [reflexivity|]; intros p st' E; apply bind_ok in E; destruct E as (? & _ & E); injection E as <- _; exact HS1|].
    destruct (HD 125 s1 eq_refl) as (ds & ED & Hds); [auto|]. exists x, ds. rewrite <- ED. auto. }
  destruct (d =? 58); [|rewrite H_err; split; [reflexivity|]; intros p st' E; apply bind_ok in E; destruct E as (? & _ & E); injection E as <- _; exact HS].
  destruct s1 as [|d1 s1]; [rewrite H_err; split; [reflexivity|]; intros p st' E; apply bind_ok in E; destruct E as (? & _ & E); injection E as <- _; exact HS|].
  rewrite H_specs. destruct (h_specs h2 i (d1 :: s1) st1) as [[s2 st2]| | |] eqn:ES; [|split; [reflexivity|discriminate]..]. cbn [bind].
  apply H_suffix in ES. assert (HS2 := suffix_trans _ _ _ ES HS1). destruct s2 as [|e s2].
  { rewrite H_err. split; [reflexivity|]. intros p st' E. apply bind_ok in E; destruct E as (? & _ & E). injection E as <- _. apply suffix_nil. }
  rewrite H_err. split; [reflexivity|]. intros p st'. destruct (negb _).
  - intros E. apply bind_ok in E; destruct E as (? & _ & E). injection E as <- _. exact HS2.
  - intros [= <- _]. eapply suffix_cons_inv, HS2.
Qed.
Lemma loop_two : forall fuel begin it st, (exists x, format = x ++ it) -> parse_loop fuel h1 begin it st = parse_loop fuel h2 begin it st.
Proof.
  induction fuel as [|f IH]; intros begin it st HF; destruct it as [|ch it]; cbn [parse_loop]; auto.
  assert (HT : forall y z, it = y ++ z -> exists x, format = x ++ z).
  { intros y z ->. destruct HF as (x & ->). exists (x ++ ch :: y). rewrite <- app_assoc. reflexivity. }
  destruct (Z.eqb_spec ch 123) as [->|_].
  - rewrite H_lit. destruct (h_literal h2 _ st) as [st1| | |]; try reflexivity. cbn [bind].
    destruct (replacement_two it st1 HF) as [-> HS]. destruct (parse_replacement_field h2 (123 :: it) st1) as [[p st2]| | |]; try reflexivity. cbn [bind].
    rewrite H_failed. destruct (h_failed h2 st2); [reflexivity|]. apply IH.
    destruct (HS _ _ eq_refl) as (y & Hy). destruct HF as (x & HF). exists (x ++ y). rewrite HF, Hy, <- app_assoc. reflexivity.
  - destruct (ch =? 125).
    + destruct it as [|d it]; [apply H_err|]. rewrite H_err. destruct (negb _); [reflexivity|]. rewrite H_lit.
      destruct (h_literal h2 _ st) as [st1| | |]; try reflexivity. cbn [bind]. apply IH, (HT [d] it eq_refl).
    + apply IH, (HT [] it eq_refl).
Qed.
End TwoHandlers.

Section Check.
Context {F : Type} (cf : config) (contiguous borrowed : bool) (its : list (item F)).
Variable e : enc.
Hypothesis Hits : Forall (item_ok e) its.
Hypothesis Hview : (contiguous && borrowed = true) \/ Forall (fun it => is_discard it = true -> is_view_type (scalar_arg_type (item_scalar it)) = false) its.
Lemma brace_specs t f : (match f with c :: _ => check_align c = ANone | [] => True end) ->
  parse_format_specs cf t (125 :: f) (SS specs_default false) = Ok (125 :: f, SS specs_default false).
Proof.
  intros H. assert (EA : parse_align (c_enc cf) (125 :: f) (SS specs_default false) = Ok (125 :: f, SS specs_default false)).
  { unfold parse_align. replace (code_point_length (c_enc cf) 125) with 1%nat by (destruct (c_enc cf); reflexivity).
    destruct f as [|c f]; [reflexivity|]. cbn. rewrite H. reflexivity. }
  unfold parse_format_specs. replace (specs_shortcut (125 :: f)) with false by (destruct f; [reflexivity|]; cbn; rewrite andb_false_r; reflexivity).
  rewrite EA. reflexivity.
Qed.
(** [field]: the text after "{}" or "{0}" does not begin with a sign of alignment. *)
Definition no_aligned_close (format : list Z) : Prop :=
  forall f, ends_at format f -> match f with c :: _ => check_align c = ANone | [] => True end.
Lemma kept_length : length (map item_type its) = length (map item_type (map (@kept F) its)).
Proof. rewrite !map_length. reflexivity. Qed.
Lemma view_read it : In it its -> is_discard it = true -> check_arg_can_be_read contiguous borrowed (scalar_arg_type (item_scalar it)) = Ok tt.
Proof.
  intros Hin Hd. unfold check_arg_can_be_read. assert (HR : is_regex_type (scalar_arg_type (item_scalar it)) = false).
  { destruct (proj1 (Forall_forall _ _) Hits it Hin) as (_ & _ & [H1 H2] & _). destruct (scalar_arg_type _); try reflexivity; congruence. }
  rewrite HR. cbn [andb]. destruct Hview as [H|H].
  - apply andb_true_iff in H. destruct H as [-> ->]. cbn. rewrite !andb_false_r. reflexivity.
  - rewrite (proj1 (Forall_forall _ _) H it Hin Hd). reflexivity.
Qed.
Lemma default_checked it : In it its -> check_type_specs (scalar_arg_type (item_scalar it)) specs_default = Ok true.
Proof.
  intros Hin. destruct (proj1 (Forall_forall _ _) Hits it Hin) as (H0 & H1 & [H2 H3] & _).
  destruct (scalar_arg_type (item_scalar it)); try reflexivity; congruence.
Qed.
Lemma check_two format : no_aligned_close format ->
  check_items cf contiguous borrowed its format = check_items cf contiguous borrowed (map (@kept F) its) format.
Proof.
  intros HF. unfold check_items, check_format_string, parse_format_string_impl.
  set (p1 := item_parse cf contiguous borrowed its). set (p2 := item_parse cf contiguous borrowed (map (@kept F) its)).
  rewrite (loop_two (ct_handler cf contiguous borrowed (map item_type its) p1) (ct_handler cf contiguous borrowed (map item_type (map (@kept F) its)) p2) format).
  - destruct (parse_loop _ _ _ _ _) as [c| | |]; try reflexivity. cbn [bind]. unfold ct_check_args_exhausted, num_args. rewrite kept_length. reflexivity.
  - reflexivity.
  - intros st. cbn [ct_handler h_auto_id]. unfold ct_next_arg_id, num_args. rewrite kept_length. reflexivity.
  - intros i st. cbn [ct_handler h_id]. unfold ct_check_arg_id, num_args. rewrite kept_length. reflexivity.
  - reflexivity.
  - reflexivity.
  - intros i f st. cbn [ct_handler h_specs]. unfold ct_format_specs, set_arg_as_read, num_args. rewrite kept_length.
    destruct (_ <=? i); [reflexivity|]. destruct (existsb _ _); [reflexivity|]. cbn [bind]. rewrite !nth_error_map.
    destruct (nth_error its (Z.to_nat i)) as [it|] eqn:E; [|reflexivity]. assert (Hin := nth_error_In _ _ E). cbn [option_map].
    assert (HC : arg_eqb (scalar_arg_type (item_scalar it)) CustomType = false).
    { destruct (proj1 (Forall_forall _ _) Hits it Hin) as (_ & H1 & _). destruct (scalar_arg_type (item_scalar it)); try reflexivity; congruence. }
    destruct it as [t|t]; cbn [item_type kept item_scalar] in *; [rewrite HC; reflexivity|]. rewrite HC.
    assert (HV := view_read (Discard t) Hin eq_refl). cbn [item_scalar] in HV. rewrite HV. cbn [bind check_arg_can_be_read is_view_type is_regex_type andb]. change (arg_eqb CustomType CustomType) with true. cbv iota.
    unfold p1, item_parse. rewrite E. destruct (ct_parse_builtin _ _ _ _ f) as [[p sp]| | |]; reflexivity.
  - intros i f st Hf. cbn [ct_handler h_field]. unfold ct_replacement_field, set_arg_as_read, num_args. rewrite kept_length.
    destruct (_ <=? i); [reflexivity|]. destruct (existsb _ _); [reflexivity|]. cbn [bind]. rewrite !nth_error_map.
    destruct (nth_error its (Z.to_nat i)) as [it|] eqn:E; [|reflexivity]. assert (Hin := nth_error_In _ _ E). cbn [option_map].
    assert (HC : arg_eqb (scalar_arg_type (item_scalar it)) CustomType = false).
    { destruct (proj1 (Forall_forall _ _) Hits it Hin) as (_ & H1 & _). destruct (scalar_arg_type (item_scalar it)); try reflexivity; congruence. }
    assert (HR : is_regex_type (scalar_arg_type (item_scalar it)) = false).
    { destruct (proj1 (Forall_forall _ _) Hits it Hin) as (_ & _ & [H1 H2] & _). destruct (scalar_arg_type (item_scalar it)); try reflexivity; congruence. }
    destruct it as [t|t]; cbn [item_type kept item_scalar] in *; [rewrite HC; reflexivity|]. rewrite HC, HR.
    assert (HV := view_read (Discard t) Hin eq_refl). cbn [item_scalar] in HV. rewrite HV. cbn [bind check_arg_can_be_read is_view_type is_regex_type andb]. change (arg_eqb CustomType CustomType) with true. cbv iota.
    unfold p1, item_parse. rewrite E. unfold ct_parse_builtin. rewrite (brace_specs _ f (HF f Hf)). cbn [bind ss_err ss_specs].
    assert (HD := default_checked (Discard t) Hin). cbn [item_scalar] in HD. rewrite HD. reflexivity.
  - intros i f st p st'. cbn [ct_handler h_specs]. unfold ct_format_specs. intros E. apply bind_ok in E. destruct E as (c1 & _ & E).
    rewrite !nth_error_map in E. destruct (nth_error its (Z.to_nat i)) as [it|] eqn:EN; [|discriminate]. cbn [option_map kept item_type] in E.
    assert (Hin := nth_error_In _ _ EN). apply bind_ok in E. destruct E as (u & _ & E).
    assert (HC : arg_eqb (scalar_arg_type (item_scalar it)) CustomType = false).
    { destruct (proj1 (Forall_forall _ _) Hits it Hin) as (_ & H1 & _). destruct (scalar_arg_type (item_scalar it)); try reflexivity; congruence. }
    rewrite HC in E. apply bind_ok in E. destruct E as ([q sp] & E & E2). injection E2 as <- _.
    unfold ct_parse_builtin in E. destruct f as [|c f]; [injection E as <- _; apply suffix_nil|].
    destruct (proj1 (Forall_forall _ _) Hits it Hin) as (_ & _ & HN & _).
    destruct (parse_format_specs_safe cf _ (c :: f) (SS specs_default false) HN) as (s & ss & EP & Hs). rewrite EP in E. cbn [bind] in E.
    destruct (ss_err ss); [discriminate|]. apply bind_ok in E. destruct E as (ok & _ & E). destruct (negb ok); [discriminate|].
    match type of E with (if ?b then _ else _) = _ => destruct b; [discriminate|] end. injection E as <- _. exact Hs.
  - exists []. reflexivity.
Qed.
End Check.
