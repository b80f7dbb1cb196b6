(** Proofs about scanning into objects that have a value. *)
From Verif Require Import Prelude UnicodeModel ReadModel SpecsModel FormatModel ArgsModel
  IntModel ArgReaderModel ScalarModel StringModel FloatModel RangesModel VscanModel LocaleModel DiscardProofs ValueMapProofs InitialModel.
Local Open Scope Z_scope.

Section Initial.
Context {F : Type} (rx : regex_engine) (cf : config) (fzero : F).
Notation object := (RangesModel.value (svalue F)).
Notation otype := (otype F).
Notation new := (new_object fzero).

(** What becomes of [old] when [v] is read into it. *)
Fixpoint added (o : otype) (old v : object) {struct o} : object :=
  match o, old, v with
  | ORange k _ _ e, VSeq c, VSeq vs => VSeq (collect (ct_key k) (ct_less k) (ct_kind k) c (map (added e (new e)) vs))
  | OTuple _ es, VTup olds, VTup vs =>
      VTup ((fix go (es : list otype) (olds vs : list object) : list object :=
               match es, olds, vs with
               | e :: es', old :: olds', v :: vs' => added e old v :: go es' olds' vs'
               | _, _, _ => vs
               end) es olds vs)
  | _, _, _ => v
  end.
Definition char_new (t : scalar_type F) (x : svalue F) : Prop :=
  match t with
  | TChar KCodePoint _ _ => True
  | TChar _ old _ => old = 0 /\ x = SVChar 0
  | _ => True
  end.
Fixpoint chars_new (o : otype) (old : object) {struct o} : Prop :=
  match o, old with
  | OLeaf t, VLeaf x => char_new t x
  | ORange _ _ _ e, VSeq _ => chars_new e (new e)
  | OTuple _ es, VTup olds =>
      (fix go (es : list otype) (olds : list object) : Prop :=
         match es, olds with
         | [], [] => True
         | e :: es', old :: olds' => chars_new e old /\ go es' olds'
         | _, _ => False
         end) es olds
  | _, _ => False
  end.
Lemma assign_value e t old (v : svalue F) : assign e t old v = v.
Proof. unfold assign. destruct t as [| | | |[to|]|], old, v; try reflexivity. cbn [firstn app]. destruct (enc_eqb e to); reflexivity. Qed.
Lemma into_scalar_value r (t : scalar_type F) old read : into_scalar r t old read = read (with_old t old).
Proof. unfold into_scalar. destruct (read (with_old t old)) as [[v it]| | |]; try reflexivity. cbn [bind]. rewrite assign_value. reflexivity. Qed.
Lemma old_specs r l (t : scalar_type F) x sp s : char_new t x -> scalar_specs rx r l (with_old t x) sp s = scalar_specs rx r l t sp s.
Proof.
  intros H. destruct t as [| |k old a| | |]; try reflexivity. destruct k; cbn [char_new] in H; [destruct H as [-> ->]; reflexivity|destruct H as [-> ->]; reflexivity|].
  destruct x; reflexivity.
Qed.
Lemma old_default r (t : scalar_type F) x s : scalar_default r (with_old t x) s = scalar_default r t s.
Proof. destruct t as [| |k old a| | |]; try reflexivity. destruct x; reflexivity. Qed.
Lemma old_element r l (t : scalar_type F) x sp s : char_new t x -> element_scan rx l r (with_old t x) sp s = element_scan rx l r t sp s.
Proof. apply old_specs. Qed.

Section Object.
Variables (l : locale) (r src : src).
Notation leaf := (element_scan rx l r).
Lemma range_map p k (m : object -> object) elem elem' : (forall s, elem s = map_value m (elem' s)) -> forall n first c s,
  into_range src p k elem n first c s = map_value (fun vs => collect (ct_key k) (ct_less k) (ct_kind k) c (map m vs)) (seq_loop src p elem' n first s).
Proof.
  intros H. induction n as [|n IH]; intros first c s; [reflexivity|]. cbn [into_range seq_loop].
  destruct (scan_str src (p_close p) s); try reflexivity.
  destruct (if first then Ok s else scan_str src (p_sep p) s) as [it| | |]; try reflexivity. cbn [bind]. rewrite H.
  destruct (elem' it) as [[v it1]| | |]; try reflexivity. cbn [map_value bind]. rewrite IH.
  destruct (seq_loop src p elem' n false it1) as [[vs it2]| | |]; reflexivity.
Qed.
Fixpoint object_map (o : otype) : forall old sp s, chars_new o old ->
  into_object fzero r leaf src o old sp s = map_value (added o old) (scan_shape src leaf (shape_of o) sp s).
Proof.
  destruct o as [t|k max p e|p es]; intros old sp s H; destruct old as [x|c|olds]; try contradiction; cbn [into_object shape_of scan_shape].
  - rewrite into_scalar_value, old_element by exact H. destruct (leaf t sp s) as [[v it]| | |]; reflexivity.
  - destruct (scan_str src (p_open p) s) as [it| | |]; try reflexivity. cbn [bind].
    rewrite (range_map p k (added e (new e)) _ (scan_shape src leaf (shape_of e) sp)) by (intros s0; apply object_map; exact H).
    destruct (seq_loop src p _ max true it) as [[vs it1]| | |]; try reflexivity. cbn [map_value bind].
    destruct (scan_str src (p_close p) it1) as [it2| | |]; reflexivity.
  - destruct (scan_str src (p_open p) s) as [it| | |]; try reflexivity. cbn [bind].
    match goal with |- context [bind (?go1 es olds true it) _] => set (g1 := go1) end.
    match goal with |- context [bind (?go2 (map shape_of es) true it) _] => set (g2 := go2) end.
    cbn [chars_new] in H.
    set (m := (fix go (es : list otype) (olds vs : list object) {struct es} : list object :=
               match es, olds, vs with
               | e :: es', old :: olds', v :: vs' => added e old v :: go es' olds' vs'
               | _, _, _ => vs
               end)).
    assert (HG : forall first it0, g1 es olds first it0 = map_value (m es olds) (g2 (map shape_of es) first it0)).
    { clear s it. revert olds H. induction es as [|e es IH]; intros olds H first it0; destruct olds as [|old olds]; try contradiction; [reflexivity|].
      cbn [map g1 g2]. destruct (if first then Ok it0 else scan_str src (p_sep p) it0) as [it| | |]; try reflexivity. cbn [bind].
      rewrite object_map by apply H. destruct (scan_shape src leaf (shape_of e) specs_default it) as [[v it1]| | |]; try reflexivity. cbn [map_value bind].
      fold g1. fold g2. rewrite IH by apply H. destruct (g2 (map shape_of es) false it1) as [[vs it2]| | |]; reflexivity. }
    rewrite HG. destruct (g2 (map shape_of es) true it) as [[vs it1]| | |]; try reflexivity. cbn [map_value bind].
    destruct (scan_str src (p_close p) it1) as [it2| | |]; reflexivity.
Qed.
End Object.

Variables (global : locale) (l : locale_ref) (r : src) (objects : list (otype * object)).
Definition added_at (i : Z) (v : object) : object :=
  match nth_error objects (Z.to_nat i) with Some (o, old) => added o old v | None => v end.
Lemma into_map format source : Forall (fun x => chars_new (fst x) (snd x)) objects ->
  scan_into rx cf fzero global l r objects format source
  = omap (fun p => (map (fun q => (fst q, added_at (fst q) (snd q))) (fst p), snd p))
      (scan_with rx cf global l r (map (fun x => target_of (fst x)) objects) format source).
Proof.
  intros HC. unfold scan_into, scan_with. apply (vscan_map r cf added_at); [rewrite !map_length; reflexivity|].
  intros id a b. rewrite map_map, !nth_error_map. destruct (nth_error objects (Z.to_nat id)) as [[o old]|] eqn:E; [|discriminate]. intros [= <-] [= <-].
  assert (H := proj1 (Forall_forall _ _) HC _ (nth_error_In _ _ E)). cbn [fst snd] in *.
  assert (EG : forall X, map_value (added_at id) X = map_value (added o old) X) by (intros X; unfold added_at; rewrite E; reflexivity).
  destruct o as [t|k max p e|p es].
  - destruct old as [x|c|olds]; try contradiction. constructor; cbn [object_arg target_of target_arg ar_type ar_default ar_plain ar_specs ar_custom]; intros; rewrite ?EG, ?into_scalar_value, ?old_default; try reflexivity.
    + destruct (scalar_default r t s) as [[v it]| | |]; reflexivity.
    + destruct (scalar_default r t s) as [[v it]| | |]; reflexivity.
    + rewrite old_specs by exact H. destruct (scalar_specs rx r (get_locale global l) t sp s) as [[v it]| | |]; reflexivity.
  - constructor; cbn [object_arg target_of target_arg ar_type ar_default ar_plain ar_specs ar_custom]; intros; rewrite ?EG; try reflexivity; try (apply object_map; exact H); try congruence.
    destruct (shape_parse cf (shape_of (ORange k max p e)) f) as [[q sp]| | |]; try reflexivity. cbn [fst snd]. f_equal. apply object_map. exact H.
  - constructor; cbn [object_arg target_of target_arg ar_type ar_default ar_plain ar_specs ar_custom]; intros; rewrite ?EG; try reflexivity; try (apply object_map; exact H); try congruence.
    destruct (shape_parse cf (shape_of (OTuple p es)) f) as [[q sp]| | |]; try reflexivity. cbn [fst snd]. f_equal. apply object_map. exact H.
Qed.
End Initial.
