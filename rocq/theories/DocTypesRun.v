(** A scan, token by token, for arguments whose readers consume what they read. *)
From Verif Require Import Prelude UnicodeModel UnicodeSpec ReadModel ReadProofs ArgReaderModel FloatModel SpecsModel ArgsModel FormatModel FormatSpec FormatSpecProofs
  VscanModel VscanSpec IntModel ScalarModel StringModel RangesModel LocaleModel VscanProofs VscanSpecProofs AcceptedProofs DocTypesSpec DocTypesProofs FloatSpec FloatProofs FloatTotal VscanProperties StringProofs ScalarProperties StringSafeProofs SpecsInvProofs IntProofs.
Local Open Scope list_scope.
Local Open Scope Z_scope.

(** The readers of an argument leave a suffix of the source when they succeed. *)
Definition consumes {V} (r : src) (cf : config) (a : arg V) : Prop :=
  (forall s v s', units (s_enc r) s -> ar_default a s = Ok (v, s') -> suffix s' s)
  /\ forall fmt fmt' sp s v s', parse_format_specs cf (ar_type a) fmt (SS specs_default false) = Ok (fmt', SS sp false) ->
       units (s_enc r) s -> ar_specs a sp s = Ok (v, s') -> suffix s' s.

Section Tokens.
Variable V : Type.
Variable r : src.
Variable cf : config.
Variable args : list (arg V).
Hypothesis Hcount : (length args < 64)%nat.
Hypothesis Hr : good_src r.
Hypothesis Hcf : c_enc cf = s_enc r.
Hypothesis Hargs : Forall (consumes r cf) args.
Hypothesis Hplain : Forall (fun a => forall s, ar_plain a s = ar_default a s) args.
Notation e := (s_enc r).
Notation n := (Z.of_nat (length args)).

(** The tokens, with each format-spec as it is written. *)
Fixpoint raws (ts : list token) : list (gtoken raw) :=
  match ts with
  | [] => []
  | Lit c :: ts' => Lit c :: raws ts'
  | Field id d :: ts' => Field id (option_map (fun d => Raw (render_desc e d) (render e ts')) d) :: raws ts'
  end.
Lemma raws_text ts : tokens_text r_text (raws ts) = render e ts.
Proof.
  induction ts as [|[c|id d] ts IH]; [reflexivity| |];
    unfold tokens_text in *; cbn [raws flat_map]; rewrite IH; [reflexivity|destruct d; reflexivity].
Qed.
Definition written (i : Z) (d : raw) (rest : list Z) : Prop :=
  exists d', d = Raw (render_desc e d') rest /\ spec_ok V r cf args i d' rest.
Lemma raws_wf ts : forall next, wf_tokens e (spec_ok V r cf args) ts next -> wf_gtokens r_text e written (raws ts) next.
Proof.
  induction ts as [|[c|id d] ts IH]; intros next; cbn [raws wf_gtokens]; [trivial| |].
  - intros [H1 H2]. auto.
  - intros (H1 & H2 & H3). split; [exact H1|]. split; [|apply IH, H3]. intros d' ED. rewrite raws_text.
    destruct d as [d|]; [|discriminate]. injection ED as <-. exists d. split; [reflexivity|apply H2; reflexivity].
Qed.
Lemma field_same i d rest s : spec_ok V r cf args i d rest -> forall a, nth_error args (Z.to_nat i) = Some a ->
  field_read V cf args i (Some (Raw (render_desc e d) rest)) s = ar_specs a (mean e d) s.
Proof.
  intros Hok a EA. unfold field_read. rewrite EA. destruct (Hok a EA) as [-> Hwf]. unfold r_all. cbn [r_text r_after].
  assert (HS : parse_format_specs cf (ar_type a) (render_desc e d ++ 125 :: rest) (SS specs_default false) = Ok (125 :: rest, SS (mean e d) false)).
  { rewrite <- Hcf. apply specs_render; rewrite Hcf; [exact (He r Hr)|exact Hwf]. }
  rewrite HS. reflexivity.
Qed.
Lemma run_raws fail ts : forall next used ws s log, wf_tokens e (spec_ok V r cf args) ts next ->
  0 <= next ->
  run V e n (field_read V cf args) false fail (raws ts) next used ws s log
  = run V e n (meant e (read_arg V args)) false fail ts next used ws s log.
Proof.
  induction ts as [|[c|id d] ts IH]; intros next used ws s log; cbn [raws run wf_gtokens]; [reflexivity| |].
  - intros [_ H2] Hn. destruct (is_ws c).
    + destruct ws; [apply IH; assumption|]. destruct s; [reflexivity|]. apply IH; assumption.
    + destruct s as [|y s]; [reflexivity|]. destruct (y =? c); [apply IH; assumption|reflexivity].
  - intros (H1 & H2 & H3) Hn. cbv zeta. assert (Hi := id_nonneg id next H1 Hn).
    set (i := match id with Some ds => FormatSpec.number ds | None => next end) in *.
    destruct (n <=? i) eqn:EN; [reflexivity|]. destruct (existsb _ used); [reflexivity|]. cbn [orb].
    assert (EA : exists a, nth_error args (Z.to_nat i) = Some a).
    { destruct (nth_error args (Z.to_nat i)) eqn:E; [eauto|]. apply nth_error_None in E. lia. }
    destruct EA as [a EA].
    assert (EQ : field_read V cf args i (option_map (fun d => Raw (render_desc e d) (render e ts)) d) s = meant e (read_arg V args) i d s).
    { unfold meant, read_arg. rewrite EA. destruct d as [d|]; cbn [option_map].
      - apply (field_same i d (render e ts)); [apply H2; reflexivity|exact EA].
      - unfold field_read. rewrite EA. reflexivity. }
    rewrite EQ. destruct (meant _ _ _ _ _) as [[v s']| | |]; try reflexivity. apply IH; [exact H3|lia].
Qed.
Lemma written_uniform ts : uniform ts -> uniform (raws ts).
Proof.
  assert (HI : forall id (d : option raw), In (Field id d) (raws ts) -> exists d', In (Field id d') ts).
  { induction ts as [|[c|id' d'] ts IH]; intros id d; cbn [raws In]; [contradiction| |].
    - intros [E|H]; [discriminate|]. destruct (IH _ _ H) as [x HX]. eauto.
    - intros [E|H]; [injection E as -> _; eauto|]. destruct (IH _ _ H) as [x HX]. eauto. }
  intros HU. unfold uniform in *. revert HU. intros [H|H]; [left|right]; intros id d HF; destruct (HI _ _ HF) as [x HX]; eauto.
Qed.
Lemma consumed i d s v s' : field_read V cf args i d s = Ok (v, s') -> (forall x, d = Some x -> forall a, nth_error args (Z.to_nat i) = Some a -> arg_eqb (ar_type a) CustomType = false) ->
  units e s -> suffix s' s.
Proof.
  intros E HC Hu. revert E. unfold field_read. destruct (nth_error args (Z.to_nat i)) as [a|] eqn:EA; [|discriminate].
  assert (Ha : consumes r cf a) by (eapply Forall_forall; [exact Hargs|eapply nth_error_In, EA]). destruct Ha as [H1 H2].
  destruct d as [d|]; [|apply H1, Hu]. rewrite (HC _ eq_refl _ eq_refl).
  destruct (parse_format_specs _ _ _ _) as [[p [sp [|]]]| | |] eqn:EP; try discriminate. eapply H2; eassumption.
Qed.
Hypothesis Hbuiltin : Forall (fun a => arg_eqb (ar_type a) CustomType = false) args.
Lemma tokens_agree ts source : uniform ts -> wf_tokens e (spec_ok V r cf args) ts 0 -> units e source ->
  agrees V [InvalidLiteral; InvalidFormatString] (vscan V r cf args (render e ts) source) (@expected V r args ts source).
Proof.
  intros HU HW Hu. unfold expected, scan_spec. rewrite <- run_raws by (exact HW || lia). rewrite <- raws_text.
  eapply vscan_agrees_any with (spec_ok := written); try assumption.
  - intros i a s EA. unfold field_read. rewrite EA. reflexivity.
  - intros i d rest (d' & -> & Hok) a EA. destruct (Hok a EA) as [EC Hwf]. rewrite EC. exists (mean e d'). split.
    + rewrite <- Hcf. apply specs_render; rewrite Hcf; [exact (He r Hr)|exact Hwf].
    + intros s. apply field_same; assumption.
  - intros i d s v s' E Hus. eapply units_suffix; [|exact Hus]. eapply consumed; [exact E| |exact Hus].
    intros x _ a EA. eapply (proj1 (Forall_forall _ _) Hbuiltin). eapply nth_error_In, EA.
  - left. reflexivity.
  - left. right. left. reflexivity.
  - apply written_uniform, HU.
  - apply raws_wf, HW.
Qed.
Lemma tokens_success ts source x : uniform ts -> wf_tokens e (spec_ok V r cf args) ts 0 -> units e source ->
  vscan V r cf args (render e ts) source = Ok x <-> @expected V r args ts source = Ok x.
Proof.
  intros HU HW Hu. assert (HA := tokens_agree ts source HU HW Hu). unfold agrees in HA.
  destruct (@expected V r args ts source) as [y|y| |]; rewrite ?HA; [reflexivity| |split; discriminate|split; discriminate].
  destruct HA as [-> |[_ (z & _ & ->)]]; split; discriminate.
Qed.
End Tokens.

(** Scalars do: undefined behaviour is no success. *)
Definition usual {F} (t : scalar_type F) : Prop :=
  match t with TInt t _ => IntProofs.type_ok t | TFloat f _ => exists M, converts f M | _ => True end.
Definition hides {A} (x y : outcome A) : Prop := y = UB \/ x = y.
Lemma hides_refl {A} (x : outcome A) : hides x x.
Proof. right. reflexivity. Qed.
Lemma hides_bind {A B} (x y : outcome A) (k l : A -> outcome B) : hides x y -> (forall v, hides (k v) (l v)) -> hides (bind x k) (bind y l).
Proof. intros [->| ->] H; [left; reflexivity|]. destruct y; cbn [bind]; try apply hides_refl. apply H. Qed.
Lemma default_hides {A} r skip (f g : list Z -> outcome (A * list Z)) s : (forall s, hides (f s) (g s)) -> hides (default_read r skip f s) (default_read r skip g s).
Proof. intros H. unfold default_read. apply hides_bind; [apply hides_refl|apply H]. Qed.
Lemma arg_read_hides {A} r sp skip (f g : src -> list Z -> outcome (A * list Z)) s : (forall r' s, hides (f r' s) (g r' s)) ->
  hides (arg_read r sp skip f s) (arg_read r sp skip g s).
Proof.
  intros H. unfold arg_read. apply hides_bind; [apply hides_refl|]. intros [it prefix].
  apply hides_bind; [|intros [[x it2] v]; apply hides_refl].
  destruct (negb _).
  - destruct (_ <=? _); [apply hides_refl|]. cbv zeta. apply hides_bind; [apply hides_refl|]. intros v. apply hides_bind; [apply H|]. intros [x rest]. apply hides_refl.
  - apply hides_bind; [apply H|]. intros [x it']. apply hides_refl.
Qed.
(** A reader that only has undefined behaviour besides. *)
Definition unless_ub {A} (e : enc) (f : list Z -> outcome (A * list Z)) : Prop := forall s, units e s ->
  f s = UB \/ (exists v s', f s = Ok (v, s') /\ suffix s' s) \/ exists x, f s = Err x.
Definition catch {A} (f : list Z -> outcome (A * list Z)) (s : list Z) : outcome (A * list Z) :=
  match f s with UB => Err InvalidScannedValue | x => x end.
Lemma catch_hides {A} (f : list Z -> outcome (A * list Z)) s : hides (catch f s) (f s).
Proof. unfold catch. destruct (f s); (right; reflexivity) || left; reflexivity. Qed.
Lemma catch_ok {A} r (f : list Z -> outcome (A * list Z)) : unless_ub (s_enc r) f -> reader_ok A r (catch f).
Proof. intros H s Hu. unfold catch. destruct (H s Hu) as [->|[(v & s' & -> & Hs)|[x ->]]]; eauto. Qed.
Lemma hidden {A} (x : outcome A) y v : hides x y -> y = Ok v -> x = Ok v.
Proof. intros [->| ->] E; [discriminate|exact E]. Qed.

Lemma code_point_unless e : unless_ub e (code_point_read e).
Proof.
  intros [|c s] Hu; [left; reflexivity|]. unfold code_point_read, read_code_point_into. destruct (cp_len e c) as [|len]; cbn [bind]; [right; right; eexists; reflexivity|].
  destruct (firstn (S len) (c :: s)) as [|y t] eqn:EF; [discriminate EF|].
  destruct (decode_cp_valid e (y :: t)) as [cp|x| |] eqn:ED; cbn [bind].
  - right. left. eexists; eexists. split; [reflexivity|]. exists (firstn (S len) (c :: s)). symmetry. apply firstn_skipn.
  - right. right. eexists. reflexivity.
  - left. reflexivity.
  - exfalso. revert ED. unfold decode_cp_valid. destruct e; cbn; repeat match goal with |- context [match ?x with _ => _ end] => destruct x end; discriminate.
Qed.
Lemma char_unless k r : unless_ub (s_enc r) (char_default_read k r).
Proof.
  intros s Hu. unfold char_default_read. destruct k, (s_enc r) eqn:ER; try (left; reflexivity); try (right; rewrite <- ER in Hu; apply (code_unit_ok r s Hu));
    try (rewrite <- ER in *; apply (code_point_unless (s_enc r) s Hu)).
  unfold wide_character_read. destruct (code_point_unless U8 s Hu) as [->|[(v & s' & -> & Hs)|[x ->]]]; cbn [bind]; [left; reflexivity| |right; right; eexists; reflexivity].
  destruct (negb _); [left; reflexivity|]. right. left. eauto.
Qed.
Lemma char_specs_unless k old sep r sp : parsed sp -> char_check k sp = true -> unless_ub (s_enc r) (char_specs k old sep r sp).
Proof.
  intros Hp Hk.
  assert (H8 : IntProofs.type_ok i8) by (unfold IntProofs.type_ok; cbn; auto 10).
  assert (H32 : IntProofs.type_ok i32) by (unfold IntProofs.type_ok; cbn; auto 10).
  assert (HIR : forall t, IntProofs.type_ok t -> check_char_type_specs sp = true ->
    unless_ub (s_enc r) (fun s => '(_, it) <- int_read_specs r t sp sep s ;; Ok (old, it))).
  { intros t Ht HC s Hu. right. destruct (int_read_ok t r sp sep Ht Hp (or_intror HC) s Hu) as [(v & s' & E & Hs)|[e E]]; rewrite E; cbn [bind]; eauto. }
  unfold char_specs. destruct k; try apply char_unless; cbn [char_check] in Hk; destruct (type sp); try apply char_unless; apply HIR; assumption.
Qed.
Lemma leaf_as {F A} (f : A -> svalue F) x v s : leaf_value (as_value f x) = Ok (v, s) -> exists y, x = Ok (y, s).
Proof. unfold leaf_value, as_value. destruct x as [[y s0]| | |]; cbn [bind]; intros [= _ <-]. eauto. Qed.
Lemma reader_consumes {A} r g s (v : A) s' : reader_ok A r g -> units (s_enc r) s -> g s = Ok (v, s') -> suffix s' s.
Proof. intros H Hu E. destruct (H s Hu) as [(x & y & EX & Hs)|[x EX]]; [|congruence]. rewrite E in EX. injection EX as _ <-. exact Hs. Qed.
Lemma tag_as {A} (f : A -> bvalue) x y s : x = Ok (y, s) -> tag f x = Ok (f y, s).
Proof. intros ->. reflexivity. Qed.
Lemma scalar_consumes {F} rx cf global l r (t : scalar_type F) : c_enc cf = s_enc r -> s_enc r <> U16 -> engine_ok rx ->
  named t -> usual t -> consumes r cf (target_arg rx cf global l r (TScalar t)).
Proof.
  intros Hcf He Hrx Hn Hus.
  assert (HB : forall b (sp0 : Z), supported (s_enc r) b -> ar_type (builtin_arg rx (bool_names (get_locale global l)) (l_sep (get_locale global l)) r b) = scalar_arg_type t ->
    (forall s v s', leaf_value (scalar_default r t s) = Ok (v, s') -> exists y, ar_default (builtin_arg rx (bool_names (get_locale global l)) 0 r b) s = Ok (y, s')) ->
    (forall sp s v s', leaf_value (scalar_specs rx r (get_locale global l) t sp s) = Ok (v, s') ->
       exists y, ar_specs (builtin_arg rx (bool_names (get_locale global l)) (l_sep (get_locale global l)) r b) sp s = Ok (y, s')) ->
    consumes r cf (target_arg rx cf global l r (TScalar t))).
  { intros b _ Hb ET HD HS.
    destruct (builtin_ok rx (bool_names (get_locale global l)) 0 r cf b Hcf He Hrx Hb) as (HD' & _).
    destruct (builtin_ok rx (bool_names (get_locale global l)) (l_sep (get_locale global l)) r cf b Hcf He Hrx Hb) as (_ & HS' & _).
    split; cbn [target_arg ar_default ar_specs ar_type].
    - intros s v s' Hu E. destruct (HD _ _ _ E) as [y EY]. eapply reader_consumes; [exact HD'|exact Hu|exact EY].
    - intros fmt fmt' sp s v s' EP Hu E. destruct (HS _ _ _ _ E) as [y EY]. rewrite <- ET in EP.
      eapply reader_consumes; [exact (HS' _ _ _ EP)|exact Hu|exact EY]. }
  destruct t as [t a| |k old a| |d a|f a]; cbn [usual] in Hus.
  - apply (HB (BInt t a) 0); cbn [supported builtin_arg ar_type ar_default ar_specs scalar_arg_type scalar_default scalar_specs]; [|reflexivity| |].
    + split; [exact Hus|]. inversion Hn as [t0 a0 Ha| | | | |]. destruct a; cbn in Ha; try discriminate Ha; cbn; auto 20.
    + intros s v s' E. apply leaf_as in E. destruct E as [y E]. eexists. apply tag_as, E.
    + intros sp s v s' E. apply leaf_as in E. destruct E as [y E]. eexists. apply tag_as, E.
  - apply (HB BBool 0); cbn [supported builtin_arg ar_type ar_default ar_specs scalar_arg_type scalar_default scalar_specs]; [exact I|reflexivity| |].
    + intros s v s' E. apply leaf_as in E. destruct E as [y E]. eexists. apply tag_as, E.
    + intros sp s v s' E. apply leaf_as in E. destruct E as [y E]. eexists. apply tag_as, E.
  - split; cbn [target_arg ar_default ar_specs ar_type scalar_default scalar_specs].
    + intros s v s' Hu E. apply leaf_as in E. destruct E as [y E].
      eapply reader_consumes; [apply (default_read_ok r false (catch (char_default_read k r))), catch_ok, char_unless|exact Hu|].
      eapply hidden; [|exact E]. apply default_hides. intros s0. apply catch_hides.
    + intros fmt fmt' sp s v s' EP Hu E. apply leaf_as in E. destruct E as [y E].
      assert (Hp := parse_parsed _ _ _ _ _ EP). cbn [ss_specs] in Hp.
      unfold arg_read_checked in E. cbn [rd_check rd_specs rd_skip char_reader] in E.
      set (rd := Reader Z (fun _ => false) (char_check k) (fun r' sp => catch (char_specs k old (l_sep (get_locale global l)) r' sp))).
      assert (HR : reader_ok Z r (arg_read_checked r rd sp)).
      { eapply checked_ok; [exact Hcf|exact He|exact EP|]. cbn [rd rd_check rd_specs]. intros Hc r' Er. apply catch_ok, char_specs_unless; assumption. }
      eapply reader_consumes; [exact HR|exact Hu|]. unfold arg_read_checked. cbn [rd rd_check rd_specs rd_skip].
      destruct (char_check k sp); [|discriminate]. eapply hidden; [|exact E]. apply arg_read_hides. intros r' s0. apply catch_hides.
  - apply (HB BPointer 0); cbn [supported builtin_arg ar_type ar_default ar_specs scalar_arg_type scalar_default scalar_specs]; [exact I|reflexivity| |].
    + intros s v s' E. apply leaf_as in E. destruct E as [y E]. eexists. apply tag_as, E.
    + intros sp s v s' E. apply leaf_as in E. destruct E as [y E]. eexists. apply tag_as, E.
  - apply (HB (BString d a) 0); cbn [supported builtin_arg ar_type ar_default ar_specs scalar_arg_type scalar_default scalar_specs]; [|reflexivity| |].
    + inversion Hn as [| | | |d0 a0 Ha|]. destruct a; cbn in Ha; try discriminate Ha; cbn; auto 20.
    + intros s v s' E. apply leaf_as in E. destruct E as [y E]. eexists. apply tag_as, E.
    + intros sp s v s' E. apply leaf_as in E. destruct E as [y E]. eexists. apply tag_as, E.
  - destruct Hus as [M C]. split; cbn [target_arg ar_default ar_specs ar_type scalar_default scalar_specs].
    + intros s v s' Hu E. apply leaf_as in E. destruct E as [y E]. eapply reader_consumes; [exact (float_default_ok f M C r)|exact Hu|exact E].
    + intros fmt fmt' sp s v s' EP Hu E. apply leaf_as in E. destruct E as [y E]. eapply reader_consumes; [|exact Hu|exact E].
      eapply checked_ok; [exact Hcf|exact He|exact EP|]. cbn [float_reader rd_check rd_specs]. intros Hc r' _. apply (float_specs_ok f M C). exact Hc.
Qed.
