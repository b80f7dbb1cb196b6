(** Proofs about derived scanners. *)
From Verif Require Import Prelude UnicodeModel ReadModel ReadProofs SpecsModel WidthModel FormatModel FormatProofs ArgsModel
  SpecsInvProofs IntModel ArgReaderModel ScalarModel StringModel FloatModel RangesModel VscanModel CheckerProofs LocaleModel LocaleSpec LocaleProofs DiscardProofs ValueMapProofs WrapperModel.
Local Open Scope Z_scope.

(** The check depends on what custom types parse only. *)
Lemma check_ext cf contiguous borrowed types p q format : (forall id f, p id f = q id f) ->
  check_format_string cf contiguous borrowed types p format = check_format_string cf contiguous borrowed types q format.
Proof.
  intros H. unfold check_format_string, parse_format_string_impl.
  assert (I : forall X (x : outcome X), omap (fun y => y) x = x) by (intros X []; reflexivity).
  assert (J : forall X (x : outcome (X * cstate)), omap (second (fun y => y)) x = x) by (intros X [[]| | |]; reflexivity).
  match goal with |- bind ?a _ = bind ?b _ => assert (E : b = a); [|rewrite E; reflexivity] end.
  rewrite <- (I _ (parse_loop _ (ct_handler cf contiguous borrowed types p) _ _ _)).
  apply (loop_map (fun y => y)); intros; rewrite ?I, ?J; try reflexivity; cbn [ct_handler h_field h_specs].
  - unfold ct_replacement_field. destruct (set_arg_as_read _ _ _); cbn [bind]; try reflexivity. rewrite H. reflexivity.
  - unfold ct_format_specs. destruct (set_arg_as_read _ _ _); cbn [bind]; try reflexivity. rewrite H. reflexivity.
Qed.

Section Wrapper.
Context {F U : Type} (rx : regex_engine) (cf : config).
Variable contiguous borrowed : bool.
(** The same argument, not wrapped; what the wrapper makes of its value. *)
Definition bare (it : item F U) : item F U :=
  match it with Wraps t _ => Own t | WrapsUser sc _ => User sc | it => it end.
Definition wrap (it : item F U) (v : svalue F + U) : svalue F + U :=
  match it, v with
  | Wraps _ w, inl x => inr (w x)
  | WrapsUser _ w, inr x => inr (w x)
  | _, _ => v
  end.
Definition wrap_at (its : list (item F U)) (i : Z) (v : svalue F + U) : svalue F + U :=
  match nth_error its (Z.to_nat i) with Some it => wrap it v | None => v end.
(** parse does the same at compile time and at run time. *)
Definition faithful (sc : scanner U) : Prop :=
  forall f p, sc_check sc f = Ok p -> suffix p f /\ exists o, sc_parse sc f = Ok (p, o).
Definition item_ok (e : enc) (it : item F U) : Prop :=
  match it with
  | Own t => scalar_arg_type t <> CustomType /\ scalar_typed t
  | Wraps t _ => scalar_arg_type t <> CustomType /\ scalar_typed t /\ discardable e t
  | User sc | WrapsUser sc _ => faithful sc
  end.
Variables (global : locale) (l : locale_ref) (r : src) (its : list (item F U)).
Notation arg_of := (item_arg rx cf contiguous borrowed global l r).

Lemma map_value_twice {X Y Z'} (f : X -> Y) (g : Y -> Z') x : map_value g (map_value f x) = map_value (fun v => g (f v)) x.
Proof. destruct x as [[v s]| | |]; reflexivity. Qed.
(** Scanners that derive from user scanners, with any format string *)
Section Any.
Hypothesis Hits : Forall (fun it => match it with Wraps _ _ => False | _ => True end) its.
Lemma user_map format source :
  scan_items rx cf contiguous borrowed global l r its format source
  = omap (fun p => (map (fun q => (fst q, wrap_at its (fst q) (snd q))) (fst p), snd p))
      (scan_items rx cf contiguous borrowed global l r (map bare its) format source).
Proof.
  unfold scan_items. apply (vscan_map r cf (wrap_at its)); [rewrite !map_length; reflexivity|].
  intros id a b. rewrite map_map, !nth_error_map. destruct (nth_error its (Z.to_nat id)) as [it|] eqn:E; [|discriminate]. intros [= <-] [= <-].
  assert (H := proj1 (Forall_forall _ _) Hits it (nth_error_In _ _ E)).
  assert (EG : forall (X : outcome ((svalue F + U) * list Z)), map_value (wrap_at its id) X = map_value (wrap it) X) by (intros X; unfold wrap_at; rewrite E; reflexivity).
  destruct it as [t|t w|sc|sc w]; [|contradiction|..]; constructor; cbn [bare item_arg map_arg ar_type ar_default ar_plain ar_specs ar_custom scalar_arg scanner_arg fst snd derived sc_scan sc_none sc_parse];
    try reflexivity; intros; rewrite EG;
    try match goal with
    | |- context [sc_parse sc ?f] => destruct (sc_parse sc f) as [[p o]| | |]; cbn; try reflexivity; destruct (sc_scan sc o s) as [[v q]| | |]; reflexivity
    | |- context [sc_scan sc ?o ?s] => destruct (sc_scan sc o s) as [[v p]| | |]; reflexivity
    | |- context [scalar_default r t ?s] => destruct (scalar_default r t s) as [[v p]| | |]; reflexivity
    | |- context [scalar_specs rx r ?l t ?sp ?s] => destruct (scalar_specs rx r l t sp s) as [[v p]| | |]; reflexivity
    | |- _ => reflexivity
    end.
Qed.
End Any.

(** All of them, with format strings accepted for the types that are wrapped *)
Variable format : list Z.
Hypothesis Hits : Forall (item_ok (s_enc r)) its.
Hypothesis Hloc : get_locale global l = get_locale global None \/ (units (c_enc cf) format /\ no_local_field (c_enc cf) format).
Hypothesis Hwidth : s_contig r = true -> forall f t w p sp, used_at format f -> In (Wraps t w) its ->
  parse_format_specs cf (scalar_arg_type t) f (SS specs_default false) = Ok (p, SS sp false) -> width sp = 0 \/ precision sp <> 0.

Lemma wraps_default t (w : svalue F -> U) s : discardable (s_enc r) t ->
  ar_default (arg_of (Wraps t w)) s = map_value (fun v => inr (w v)) (scalar_default r t s).
Proof.
  intros H. cbn [item_arg map_arg ar_default scanner_arg derived sc_scan sc_none builtin_scanner].
  rewrite element_as_argument; [|exact H|right; left; reflexivity]. rewrite scalar_default_specs by exact H.
  destruct (scalar_default r t s) as [[v p]| | |]; reflexivity.
Qed.
Lemma wrapped_follow i a b : nth_error (map arg_of (map bare its)) (Z.to_nat i) = Some a -> nth_error (map arg_of its) (Z.to_nat i) = Some b -> 0 <= i ->
  follows cf (item_parse rx cf contiguous borrowed global r (map bare its)) (wrap_at its) format i a b
  /\ forall s, ar_plain b s = map_value (wrap_at its i) (ar_plain a s).
Proof.
  rewrite map_map, !nth_error_map. destruct (nth_error its (Z.to_nat i)) as [it|] eqn:E; [|discriminate]. intros [= <-] [= <-] _.
  assert (Hin := nth_error_In _ _ E). assert (Hok := proj1 (Forall_forall _ _) Hits it Hin).
  assert (EG : forall (X : outcome ((svalue F + U) * list Z)), map_value (wrap_at its i) X = map_value (wrap it) X) by (intros X; unfold wrap_at; rewrite E; reflexivity).
  assert (PL : forall (it : item F U) s, ar_plain (arg_of it) s = ar_default (arg_of it) s) by (intros [] ?; reflexivity).
  assert (DEF : forall s, ar_default (arg_of it) s = map_value (wrap_at its i) (ar_default (arg_of (bare it)) s)).
  { intros s. rewrite EG. destruct it as [t|t w|sc|sc w]; cbn [bare].
    - cbn. destruct (scalar_default r t s) as [[v p]| | |]; reflexivity.
    - rewrite wraps_default by apply Hok. cbn. destruct (scalar_default r t s) as [[v p]| | |]; reflexivity.
    - cbn. destruct (sc_scan sc (sc_none sc) s) as [[v p]| | |]; reflexivity.
    - cbn. destruct (sc_scan sc (sc_none sc) s) as [[v p]| | |]; reflexivity. }
  split; [|intros s; rewrite !PL; apply DEF].
  split; [exact DEF|].
  assert (IP : item_parse rx cf contiguous borrowed global r (map bare its) i = item_parse rx cf contiguous borrowed global r [bare it] 0).
  { unfold item_parse. rewrite nth_error_map, E. reflexivity. }
  rewrite IP. clear IP.
  assert (USER : forall sc, faithful sc -> (bare it = User sc) -> (it = User sc \/ exists w, it = WrapsUser sc w) ->
    forall f p, item_parse rx cf contiguous borrowed global r [@User F U sc] 0 f = Ok p -> suffix p f /\
    forall s, fst (ar_custom (arg_of (@User F U sc)) f s) = p /\ ar_custom (arg_of it) f s = (p, map_value (wrap_at its i) (snd (ar_custom (arg_of (@User F U sc)) f s)))).
  { intros sc Hf HB HI f p HP. cbn in HP. destruct (Hf f p HP) as (HS & o & EP). split; [exact HS|]. intros s. rewrite EG.
    destruct HI as [->|(w & ->)]; cbn; rewrite EP; cbn; (split; [reflexivity|]); f_equal; destruct (sc_scan sc o s) as [[v q]| | |]; reflexivity. }
  destruct it as [t|t w|sc|sc w].
  - left. split; [apply Hok|]. split; [apply Hok|]. intros f p sp _ EP. right. split; [reflexivity|]. intros s. rewrite EG. cbn.
    destruct (scalar_specs rx r _ t sp s) as [[v q]| | |]; reflexivity.
  - left. cbn [bare item_arg map_arg ar_type scalar_arg]. split; [apply Hok|]. split; [apply Hok|]. intros f p sp Hf EP. left. split; [reflexivity|].
    intros s. rewrite EG. cbn [item_arg map_arg ar_custom ar_specs scanner_arg scalar_arg derived builtin_scanner sc_parse sc_scan fst snd shape_parse shape_type].
    destruct f as [|c f]; [discriminate|]. rewrite EP. cbn [bind ss_specs fst snd]. f_equal.
    assert (EE : element_scan rx (get_locale global None) r t sp s = scalar_specs rx r (get_locale global l) t sp s).
    { rewrite element_as_argument.
      - destruct Hloc as [->|[Hu Hn]]; [reflexivity|]. apply scalar_plain.
        destruct Hf as (x & ds & EF & Hds). apply (specs_plain cf (scalar_arg_type t) (c :: f) (125 :: p) (SS sp false)); [|apply (no_local_start _ ds)|exact EP].
        + rewrite EF in Hu. eapply units_suffix; [|exact Hu]. exists (x ++ 123 :: ds ++ [58]). rewrite <- app_assoc. cbn. rewrite <- app_assoc. reflexivity.
        + eapply no_local_suffix; [|exact Hn]. rewrite EF. exists x. reflexivity.
        + exact Hds.
      - apply Hok.
      - destruct (s_contig r) eqn:EC; [|left; reflexivity]. right. eapply Hwidth; [reflexivity|exact Hf|exact Hin|exact EP]. }
    rewrite EE. destruct (scalar_specs rx r _ t sp s) as [[v q]| | |]; reflexivity.
  - right. split; [reflexivity|]. split; [reflexivity|]. intros f p _ HP. apply USER; auto.
  - right. split; [reflexivity|]. split; [reflexivity|]. intros f p _ HP. apply USER; eauto.
Qed.
Lemma wrapped_vscan source :
  check_items rx cf contiguous borrowed global r (map bare its) format = Ok tt ->
  follows_result (wrap_at its) (scan_items rx cf contiguous borrowed global l r (map bare its) format source)
    (scan_items rx cf contiguous borrowed global l r its format source).
Proof.
  intros HC. unfold scan_items. eapply vscan_both with (custom_parse := item_parse rx cf contiguous borrowed global r (map bare its)).
  - rewrite !map_length. reflexivity.
  - intros id a b Ea Eb Hid. apply wrapped_follow; assumption.
  - intros a b. change O with (Z.to_nat 0). intros Ea Eb _ s. apply (wrapped_follow 0 a b Ea Eb). lia.
  - unfold check_items in HC. rewrite <- HC. f_equal. rewrite !map_map. apply map_ext. intros []; reflexivity.
Qed.
End Wrapper.

Section Ranges.
Context {F : Type} (rx : regex_engine) (cf : config).
Lemma range_parses contiguous borrowed global r (sh : shape (scalar_type F)) f p :
  (forall t, shape_type sh = Some t -> no_regex t) ->
  sc_check (range_scanner rx cf contiguous borrowed global r sh) f = Ok p ->
  suffix p f /\ exists o, sc_parse (range_scanner rx cf contiguous borrowed global r sh) f = Ok (p, o).
Proof.
  cbn [range_scanner sc_check sc_parse]. unfold shape_parse. destruct (shape_type sh) as [t|].
  - intros HN H. specialize (HN t eq_refl). apply bind_ok in H. destruct H as ([q sp] & E & H). injection H as ->. unfold ct_parse_builtin in E.
    destruct f as [|c f]; [injection E as <- _; split; [apply suffix_nil|eauto]|].
    apply bind_ok in E. destruct E as ([q ss] & EP & E). destruct (ss_err ss) eqn:ES; [discriminate|]. apply bind_ok in E. destruct E as ([|] & _ & E); [|discriminate]. cbn [negb] in E.
    destruct ((_ || _) && _) in E; [discriminate|]. injection E as -> <-. rewrite EP. cbn [bind]. split; [|eauto].
    destruct (parse_format_specs_safe cf t (c :: f) (SS specs_default false) HN) as (s & ss' & EP' & Hs). rewrite EP in EP'. injection EP' as -> _. exact Hs.
  - intros _ [= ->]. split; [apply suffix_refl|destruct p; eauto].
Qed.
End Ranges.
