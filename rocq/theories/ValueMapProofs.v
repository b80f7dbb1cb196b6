(** Proofs: what becomes of the values has no influence on the scan that finds them. *)
From Verif Require Import Prelude UnicodeModel ReadModel SpecsModel FormatModel ArgsModel VscanModel DiscardProofs.
Local Open Scope Z_scope.

Definition omap {X Y} (m : X -> Y) (x : outcome X) : outcome Y := v <- x ;; Ok (m v).
Lemma omap_bind {X Y X' Y'} (m : X -> Y) (n : X' -> Y') x k k' :
  (forall v, k' (m v) = omap n (k v)) -> bind (omap m x) k' = omap n (bind x k).
Proof. intros H. destruct x; cbn; auto. Qed.

(** ** The parser, with two handlers whose states correspond *)
Section Handlers.
Context {S T : Type} (m : S -> T) (h : handler S) (k : handler T).
Definition second {X} (p : X * S) : X * T := let (x, st) := p in (x, m st).
Hypothesis H_lit : forall t st, h_literal k t (m st) = omap m (h_literal h t st).
Hypothesis H_auto : forall st, h_auto_id k (m st) = omap second (h_auto_id h st).
Hypothesis H_id : forall i st, h_id k i (m st) = omap second (h_id h i st).
Hypothesis H_field : forall i t st, h_field k i t (m st) = omap m (h_field h i t st).
Hypothesis H_specs : forall i t st, h_specs k i t (m st) = omap second (h_specs h i t st).
Hypothesis H_err : forall st, h_error k (m st) = omap m (h_error h st).
Hypothesis H_failed : forall st, h_failed k (m st) = h_failed h st.

Lemma arg_id_map s st : parse_arg_id k s (m st) = omap second (parse_arg_id h s st).
Proof.
  unfold parse_arg_id. destruct s as [|c s]; [reflexivity|]. destruct (_ && _).
  - unfold do_parse_arg_id. destruct (_ || _); [rewrite H_err; apply omap_bind; reflexivity|].
    destruct (if negb (c =? 48) then _ else _) as [[idx s2]| | |]; try reflexivity. cbn [bind].
    destruct s2 as [|d s2]; [rewrite H_err; apply omap_bind; reflexivity|]. destruct (_ && _); [rewrite H_err; apply omap_bind; reflexivity|].
    rewrite H_id. apply omap_bind. intros [id v]. reflexivity.
  - rewrite H_auto. apply omap_bind. intros [id v]. reflexivity.
Qed.
Lemma field_map s st : parse_replacement_field k s (m st) = omap second (parse_replacement_field h s st).
Proof.
  unfold parse_replacement_field. destruct s as [|b s]; [reflexivity|]. destruct s as [|c s]; [rewrite H_err; apply omap_bind; reflexivity|].
  destruct (c =? 125). { rewrite H_auto. apply omap_bind. intros [id v]. cbn [second]. rewrite H_field. apply omap_bind. reflexivity. }
  destruct (c =? 123); [rewrite H_lit; apply omap_bind; reflexivity|].
  rewrite arg_id_map. apply omap_bind. intros [[s1 id] v]. cbn [second]. destruct s1 as [|d s1]; [rewrite H_err; apply omap_bind; reflexivity|].
  destruct (d =? 125); [rewrite H_field; apply omap_bind; reflexivity|].
  destruct (d =? 58); [|rewrite H_err; apply omap_bind; reflexivity].
  destruct s1 as [|d1 s1]; [rewrite H_err; apply omap_bind; reflexivity|].
  rewrite H_specs. apply omap_bind. intros [s2 v2]. cbn [second]. destruct s2 as [|d2 s2]; [rewrite H_err; apply omap_bind; reflexivity|].
  destruct (negb _); [rewrite H_err; apply omap_bind; reflexivity|reflexivity].
Qed.
Lemma loop_map : forall fuel begin it st, parse_loop fuel k begin it (m st) = omap m (parse_loop fuel h begin it st).
Proof.
  induction fuel as [|f IH]; intros begin it st; (destruct it as [|ch it]; cbn [parse_loop]; [apply H_lit|]); [reflexivity|].
  destruct (ch =? 123).
  - rewrite H_lit. apply omap_bind. intros v. rewrite field_map. apply omap_bind. intros [p w]. cbn [second]. rewrite H_failed.
    destruct (h_failed h w); [reflexivity|apply IH].
  - destruct (ch =? 125); [|apply IH]. destruct it as [|d it]; [apply H_err|]. destruct (negb _); [apply H_err|].
    rewrite H_lit. apply omap_bind. intros v. apply IH.
Qed.
End Handlers.

(** ** Scans with arguments whose values correspond *)
Section Values.
Context {A B : Type}.
Variable r : src.
Variable cf : config.
Variable g : Z -> A -> B.
Variable argsA : list (arg A).
Variable argsB : list (arg B).
Hypothesis Hlen : length argsA = length argsB.
Record as_value (id : Z) (a : arg A) (b : arg B) : Prop := AsValue {
  av_type : ar_type b = ar_type a;
  av_default : forall s, ar_default b s = map_value (g id) (ar_default a s);
  av_plain : forall s, ar_plain b s = map_value (g id) (ar_plain a s);
  av_specs : forall sp s, ar_type a <> CustomType -> ar_specs b sp s = map_value (g id) (ar_specs a sp s);
  av_custom : forall f s, ar_type a = CustomType -> ar_custom b f s = (fst (ar_custom a f s), map_value (g id) (snd (ar_custom a f s))) }.
Hypothesis Hargs : forall id a b, nth_error argsA (Z.to_nat id) = Some a -> nth_error argsB (Z.to_nat id) = Some b -> as_value id a b.
Notation hA := (format_handler A r cf argsA).
Notation hB := (format_handler B r cf argsB).
Notation values := (map (fun p : Z * A => (fst p, g (fst p) (snd p)))).
Definition mapst (st : state A) : state B :=
  St B (st_error st) (st_low st) (st_upper st) (st_next st) (st_mixed st) (st_pctx st) (st_src st) (values (st_log st)).
Lemma get_map id : match get_arg A argsA id, get_arg B argsB id with
  | Some a, Some b => as_value id a b | None, None => True | _, _ => False end.
Proof.
  unfold get_arg. destruct (nth_error argsA (Z.to_nat id)) eqn:E1, (nth_error argsB (Z.to_nat id)) eqn:E2; auto.
  - apply nth_error_None in E2. assert (H : nth_error argsA (Z.to_nat id) <> None) by congruence. apply nth_error_Some in H. lia.
  - apply nth_error_None in E1. assert (H : nth_error argsB (Z.to_nat id) <> None) by congruence. apply nth_error_Some in H. lia.
Qed.
Lemma literal_map : forall fuel t st, literal_loop B r fuel t (mapst st) = omap mapst (literal_loop A r fuel t st).
Proof.
  induction fuel as [|f IH]; intros [|c t] st; try reflexivity. cbn [literal_loop].
  change (st_src (mapst st)) with (st_src st). destruct (st_src st) as [|d s]; [reflexivity|].
  destruct (is_first_char_space _ _) as [[[after cp] sp]| | |]; try reflexivity. cbn [bind]. destruct (cp =? _); [reflexivity|].
  destruct sp.
  - destruct (read_while_classic_space r (d :: s)); try reflexivity. cbn [bind]. destruct (read_while_classic_space _ after); try reflexivity. cbn [bind].
    rewrite <- IH. reflexivity.
  - destruct (negb _); [reflexivity|]. rewrite <- IH. reflexivity.
Qed.
Lemma visited_map id st : set_arg_as_visited B argsB id (note_missing B argsB id (mapst st)) = omap mapst (set_arg_as_visited A argsA id (note_missing A argsA id st)).
Proof.
  assert (E : note_missing B argsB id (mapst st) = mapst (note_missing A argsA id st)).
  { unfold note_missing. assert (H := get_map id). destruct (get_arg A argsA id), (get_arg B argsB id); try contradiction; reflexivity. }
  rewrite E. generalize (note_missing A argsA id st). clear st E. intros st. unfold set_arg_as_visited, args_count. rewrite <- Hlen.
  destruct (_ <=? _); [reflexivity|]. destruct (_ <? _).
  - change (st_low (mapst st)) with (st_low st). destruct (Z.testbit _ _); reflexivity.
  - change (st_upper (mapst st)) with (st_upper st). cbv zeta. destruct (nth_error _ _); [|reflexivity]. destruct (set_nth _ _ _); [|reflexivity]. destruct (Z.testbit _ _); reflexivity.
Qed.
Lemma finish_map id x st : finish_visit B id (map_value (g id) x) (mapst st) = omap mapst (finish_visit A id x st).
Proof. destruct x as [[v s]| | |]; try reflexivity. cbn. unfold mapst, add_log, set_src. cbn. rewrite map_app. reflexivity. Qed.
Lemma on_field_map id t st : on_replacement_field B argsB id t (mapst st) = omap mapst (on_replacement_field A argsA id t st).
Proof.
  unfold on_replacement_field. rewrite visited_map. apply omap_bind. intros v. change (failed B (mapst v)) with (failed A v). destruct (failed A v); [reflexivity|].
  assert (H := get_map id). destruct (get_arg A argsA id) as [a|], (get_arg B argsB id) as [b|]; try contradiction; [|reflexivity].
  change (st_src (mapst v)) with (st_src v). rewrite (av_default _ _ _ H). apply finish_map.
Qed.
Lemma on_specs_map id t st : on_format_specs B cf argsB id t (mapst st) = omap (second mapst) (on_format_specs A cf argsA id t st).
Proof.
  unfold on_format_specs. rewrite visited_map. apply omap_bind. intros v. cbv zeta.
  assert (H := get_map id). destruct (get_arg A argsA id) as [a|], (get_arg B argsB id) as [b|]; try contradiction.
  - rewrite (av_type _ _ _ H). destruct (arg_eqb (ar_type a) CustomType) eqn:ET.
    + assert (ET' : ar_type a = CustomType) by (revert ET; clear; destruct (ar_type a); cbn; congruence).
      change (failed B (set_pctx B t (mapst v))) with (failed A (set_pctx A t v)). destruct (failed A _); [reflexivity|].
      change (st_mixed (set_pctx B t (mapst v))) with (st_mixed (set_pctx A t v)). destruct (st_mixed _).
      { reflexivity. }
      change (st_src (set_pctx B t (mapst v))) with (st_src (set_pctx A t v)). rewrite (av_custom _ _ _ H) by exact ET'.
      destruct (ar_custom a t (st_src (set_pctx A t v))) as [p x]. cbn [fst snd].
      change (set_pctx B p (set_pctx B t (mapst v))) with (mapst (set_pctx A p (set_pctx A t v))). rewrite finish_map. apply omap_bind. reflexivity.
    + assert (ET' : ar_type a <> CustomType) by (intros E; rewrite E in ET; discriminate).
      destruct (parse_format_specs _ _ _ _) as [[s ss]| | |]; try reflexivity. cbn [bind]. destruct s as [|c s]; [reflexivity|]. destruct (negb _); [reflexivity|].
      destruct (ss_err ss); [reflexivity|]. change (failed B (set_pctx B (c :: s) (mapst v))) with (failed A (set_pctx A (c :: s) v)). destruct (failed A _); [reflexivity|].
      change (st_src (set_pctx B (c :: s) (mapst v))) with (st_src (set_pctx A (c :: s) v)). rewrite (av_specs _ _ _ H) by exact ET'.
      change (set_pctx B (c :: s) (mapst v)) with (mapst (set_pctx A (c :: s) v)). rewrite finish_map. apply omap_bind. reflexivity.
  - change (arg_eqb NoneType CustomType) with false. cbv iota.
    destruct (parse_format_specs _ _ _ _) as [[s ss]| | |]; try reflexivity. cbn [bind]. destruct s as [|c s]; [reflexivity|]. destruct (negb _); [reflexivity|].
    destruct (ss_err ss); [reflexivity|]. change (failed B (set_pctx B (c :: s) (mapst v))) with (failed A (set_pctx A (c :: s) v)). destruct (failed A _); reflexivity.
Qed.
Theorem vscan_map format source : vscan B r cf argsB format source
  = omap (fun p => (values (fst p), snd p)) (vscan A r cf argsA format source).
Proof.
  unfold vscan, args_count. rewrite <- Hlen. destruct (_ && _).
  { assert (H := get_map 0). destruct (get_arg A argsA 0) as [a|], (get_arg B argsB 0) as [b|]; try contradiction; [|reflexivity].
    cbn [scan_simple_single_argument]. rewrite (av_plain _ _ _ H). unfold map_value. destruct (ar_plain a source) as [[v s]| | |]; reflexivity. }
  unfold vscan_parse_format_string, parse_format_string_impl.
  assert (EI : init_state B argsB format source = mapst (init_state A argsA format source)) by (unfold init_state, mapst, args_count; cbn; rewrite Hlen; reflexivity).
  assert (EF : vscan_fuel B argsB format = vscan_fuel A argsA format) by (unfold vscan_fuel; rewrite Hlen; reflexivity).
  rewrite EI, EF, (loop_map mapst hA hB).
  - apply omap_bind. intros v. unfold check_args_exhausted, args_count. rewrite <- Hlen. cbv zeta.
    change (st_low (mapst v)) with (st_low v). change (st_upper (mapst v)) with (st_upper v).
    destruct (negb _); [reflexivity|].
    assert (END : (match st_error (mapst v) with Some e => Err e | None => Ok (st_log (mapst v), st_src (mapst v)) end)
       = omap (fun p => (values (fst p), snd p)) (match st_error v with Some e => Err e | None => Ok (st_log v, st_src v) end)).
    { cbn. destruct (st_error v); reflexivity. }
    destruct (_ <? 64); [exact END|]. destruct (check_upper _ _) as [[|p|p]|]; try reflexivity. destruct p; try reflexivity. exact END.
  - intros. apply literal_map.
  - intros st. cbn [h_auto_id format_handler]. unfold next_arg_id. change (st_next (mapst st)) with (st_next st). destruct (_ <? _); reflexivity.
  - intros i st. cbn [h_id format_handler]. unfold check_arg_id. change (st_next (mapst st)) with (st_next st). destruct (_ <? _); reflexivity.
  - intros. apply on_field_map.
  - intros. apply on_specs_map.
  - reflexivity.
  - reflexivity.
Qed.
End Values.
