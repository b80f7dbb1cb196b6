(** Ranges and tuples of integers. *)
From Verif Require Import Prelude UnicodeModel UnicodeSpec UnicodeProofs ReadModel ReadProofs SpecsModel FormatModel
  IntModel IntSpec IntProofs FormatSpec VscanSpec WidthSpec ArgReaderModel ArgReaderProofs ScalarModel StringProofs
  RangesModel RangesSpec RangesProofs.
Local Open Scope Z_scope.

Definition int_leaf (r : src) (sep : Z) (t : inttype) (sp : specs) (s : list Z) : outcome (Z * list Z) :=
  arg_read_checked (element_src r sp s) (int_reader t sep) sp s.
Definition int_text (t : inttype) (sp : specs) (v : Z) (txt : list Z) : Prop :=
  IntProofs.type_ok t /\ in_range (it_signed t) (it_bits t) v
  /\ exists b upper plus, base_spec sp b /\ txt = (if (plus : bool) && (0 <=? v) then [43] else []) ++ print_signed upper b v.
(** Characters that are not digits in any base. *)
Definition no_digit (c : Z) : Prop := digit_value c = None.

Lemma ws_no_digit c : is_ws c = true -> no_digit c.
Proof.
  intros H. unfold is_ws in H. apply existsb_exists in H. destruct H as (x & Hi & Hx). apply Z.eqb_eq in Hx. subst x.
  revert c Hi. apply (proj1 (Forall_forall (fun c => digit_value c = None) _)). repeat constructor.
Qed.
Lemma high_no_digit c : 128 <= c -> no_digit c.
Proof.
  intros H. unfold no_digit, digit_value.
  repeat match goal with |- context [if ?b then _ else _] => destruct b eqn:?; [exfalso; lia|] end. reflexivity.
Qed.
Lemma follows_head r tail c s : s_enc r <> U16 -> follows r no_digit tail -> tail = c :: s -> no_digit c.
Proof.
  intros He [->|(cp & s' & Sc & -> & H)] E; [discriminate|].
  destruct (encode_units (s_enc r) cp He Sc) as [[H1 H2]|[H1 H2]].
  - rewrite H2 in E. cbn in E. injection E as <- _. destruct H as [H|H]; [now apply ws_no_digit|tauto].
  - destruct (WidthProofs.encode_lead (s_enc r) cp Sc) as (d & tl & E2 & _). rewrite E2 in *. cbn in E. injection E as <- _.
    inversion_clear H2. now apply high_no_digit.
Qed.
Lemma base_of sp b : base_spec sp b -> get_base sp = Ok b /\ base_ok b /\ ptype_eqb (type sp) PIntUnsignedDecimal = false
  /\ check_int_type_specs sp = true.
Proof.
  intros (_ & _ & _ & HL & H). unfold get_base, check_int_type_specs, base_ok. rewrite HL. cbn in H.
  destruct H as [H|[H|[H|[H|[H|[]]]]]]; injection H as <- <-; (split; [reflexivity|split; [lia|split; reflexivity]]).
Qed.
Lemma int_specs_base r t sp sep b s : base_spec sp b ->
  int_read_specs r t sp sep s = int_read_default_with_base r t s b.
Proof.
  intros H. destruct (base_of sp b H) as (Eb & _ & Eu & _). destruct H as (_ & _ & _ & HL & _).
  unfold int_read_specs, int_read_default_with_base. rewrite Eb, Eu, HL. cbn [bind negb].
  destruct (parse_integer_prefix r s b); trivial. cbn [bind]. rewrite orb_false_r, (andb_comm (is_minus _)). reflexivity.
Qed.

Lemma int_back r sep : s_enc r <> U16 -> forall t sp v txt ws tail, int_text t sp v txt -> begins r [] txt -> spaces r ws ->
  follows r no_digit tail -> units (s_enc r) (enc_text r ws ++ txt ++ tail) ->
  int_leaf r sep t sp (enc_text r ws ++ txt ++ tail) = Ok (v, tail).
Proof.
  intros He t sp v txt ws tail (Ht & Hv & b & upper & plus & Hb & ->) (cp & t' & Hp & Hn & E & _) Hw Hf Hu.
  destruct (base_of sp b Hb) as (Eb & Bb & _ & Ec).
  unfold int_leaf. replace (element_src r sp _) with r.
  2: { unfold element_src. destruct (s_contig r); [|reflexivity]. destruct Hb as (-> & -> & _). rewrite E.
       destruct (WidthProofs.encode_lead (s_enc r) cp) as (c & l & -> & _); [apply Hp|].
       destruct (enc_text r ws); cbn; rewrite orb_true_r; reflexivity. }
  unfold arg_read_checked. cbn [int_reader rd_check rd_specs rd_skip]. rewrite Ec. unfold arg_read.
  destruct (Hb) as (W0 & P0 & A0 & _). rewrite P0. cbn [Z.eqb negb]. unfold impl_prefix. rewrite A0, P0. cbn [Z.eqb negb].
  unfold skip_ws_all, need_width. rewrite W0, P0. cbn [Z.eqb negb orb].
  rewrite E in *. rewrite <- app_assoc in *. rewrite skip_to by trivial. cbn [bind].
  rewrite app_assoc, <- E. rewrite (int_specs_base r t sp sep b _ Hb).
  assert (Hd : forall c s, tail = c :: s -> no_digit c) by (intros c s; apply follows_head with (r := r); trivial).
  assert (Hu' : units (s_enc r) tail) by (apply (units_suffix _ _ (enc_text r ws ++ encode (s_enc r) cp ++ t' ++ tail)); [|exact Hu]; exists (enc_text r ws ++ encode (s_enc r) cp ++ t'); now rewrite <- !app_assoc).
  pose proof (round_trip r t upper b v plus tail Ht Bb Hv) as RT. cbv zeta in RT.
  rewrite <- app_assoc. rewrite RT; clear RT.
  - cbn [bind]. destruct tail as [|c s]; [|unfold impl_postfix; rewrite A0; cbn [negb andb bind]];
      unfold check_widths; rewrite W0, P0; reflexivity.
  - destruct tail as [|c s]; [intros []|]. cbn [starts_with_digit]. intros (d & Hd' & _). rewrite (Hd c s eq_refl) in Hd'. discriminate.
  - intros E8. rewrite E8 in Hu'. exact Hu'.
  - intros _ L HL. unfold has_prefix. destruct tail as [|c [|d s]]; trivial.
    assert (Hc := Hd c _ eq_refl). replace (prefix_letter c L) with false; [now rewrite andb_false_r|].
    symmetry. unfold prefix_letter. apply orb_false_iff. split; apply Z.eqb_neq; intros ->; unfold no_digit in Hc;
      destruct HL as [[_ ->]|[[_ ->]|[_ ->]]]; vm_compute in Hc; discriminate.
Qed.

(** ** The printer writes *)
Inductive all3 {A B C} (R : A -> B -> C -> Prop) : list A -> list B -> list C -> Prop :=
| all3_nil : all3 R [] [] []
| all3_cons a b c la lb lc : R a b c -> all3 R la lb lc -> all3 R (a :: la) (b :: lb) (c :: lc).

Section Show.
Variable r : src.
Hypothesis He : s_enc r <> U16.
Variable ws : list Z.
Hypothesis Hws : spaces r ws.
Notation wrote := (wrote r int_text no_digit).
Notation wrote_items := (wrote_items r int_text no_digit).
Notation wrote_more := (wrote_more r int_text no_digit).
Notation show := (show (enc_text r ws)).
Notation join := (fun sep ts => join sep (enc_text r ws) ts).

(** The text begins with a sign, a digit or an opening bracket. *)
Definition starts (t : list Z) : Prop :=
  exists c t', t = c :: t' /\ 0 <= c < 128 /\ is_ws c = false /\ c <> 93 /\ c <> 125.
Lemma starts_begins t a : starts t -> In a [[]; [93]; [125]] -> begins r a t.
Proof.
  intros (c & t' & -> & Hc & Hn & H1 & H2) Ha. exists c, t'. rewrite encode_ascii by trivial.
  repeat split; trivial; [left; lia|right; lia|]. intros c0 a0 E. cbn [hd].
  destruct Ha as [<-|[<-|[<-|[]]]]; [discriminate| |]; injection E as <- _; assumption.
Qed.
Lemma starts_app t s : starts t -> starts (t ++ s).
Proof. intros (c & t' & -> & H). exists c, (t' ++ s). auto. Qed.

Lemma more_join sp sep es vs ts :
  all3 (fun e v t => wrote sp e v t /\ starts t) es vs ts ->
  wrote_more sep sp es vs ((match ts with [] => [] | _ => sep end) ++ join sep ts).
Proof.
  induction 1 as [|e v t es vs ts [H1 H2] H IH]; [constructor|].
  cbn [RangesSpec.join]. apply (wm_some _ _ _ sep sp e es v vs ws ws t); trivial.
  apply starts_begins; cbn; auto.
Qed.
Lemma items_join sp sep avoid es vs ts : In avoid [[]; [93]; [125]] ->
  all3 (fun e v t => wrote sp e v t /\ starts t) es vs ts ->
  wrote_items sep avoid sp es vs (join sep ts).
Proof.
  intros Ha H. destruct H as [|e v t es vs ts [H1 H2] H].
  - cbn. change (@nil Z) with (enc_text r []). constructor. constructor.
  - cbn [RangesSpec.join]. apply (wi_some _ _ _ sep avoid sp e es v vs ws ws t); trivial; [now apply starts_begins|].
    now apply more_join.
Qed.

Section Types.
Variable Q : stype -> Prop.
Hypothesis H1 : forall i, Q (TInt i).
Hypothesis H2 : forall n e, Q e -> Q (TVec n e).
Hypothesis H3 : forall n e, Q e -> Q (TSet n e).
Hypothesis H4 : forall n k v, Q k -> Q v -> Q (TMap n k v).
Hypothesis H5 : forall es, Forall Q es -> Q (TTup es).
Fixpoint stype_all (t : stype) : Q t :=
  match t with
  | TInt i => H1 i
  | TVec n e => H2 n e (stype_all e)
  | TSet n e => H3 n e (stype_all e)
  | TMap n k v => H4 n k v (stype_all k) (stype_all v)
  | TTup es => H5 es ((fix go es : Forall Q es :=
                         match es with
                         | [] => Forall_nil _
                         | x :: es' => Forall_cons _ (stype_all x) (go es')
                         end) es)
  end.
End Types.

Lemma base_default : base_spec specs_default 10.
Proof. unfold base_spec. cbn. auto 10. Qed.
Lemma mark_one c : 0 <= c < 128 -> is_ws c = false -> no_digit c -> mark no_digit [c].
Proof. intros. exists c, []. auto. Qed.
Lemma mark_any c : 0 <= c < 128 -> is_ws c = false -> mark (fun _ => True) [c].
Proof. intros. exists c, []. auto. Qed.
Ltac marks :=
  match goal with
  | |- mark _ _ => apply mark_one; [cbn; lia|reflexivity|reflexivity]
  | |- mark_opt _ [] => left; reflexivity
  | |- mark_opt _ (p_open pair_punct) => left; reflexivity
  | |- mark_opt _ (p_close pair_punct) => left; reflexivity
  | |- mark_opt (fun _ => True) _ => right; apply mark_any; [cbn; lia|reflexivity]
  | |- mark_opt _ _ => right; apply mark_one; [cbn; lia|reflexivity|reflexivity]
  | |- hd _ _ <> hd _ _ => discriminate
  end.

Lemma show_wrote t : Forall IntProofs.type_ok (int_types t) -> forall sp b v, base_spec sp b -> fits t v ->
  wrote sp (shape_of t) v (show b t v) /\ starts (show b t v).
Proof.
  induction t as [i|n e IH|n e IH|n k w IHk IHw|es IH] using stype_all; intros Ht sp b v Hb Hf.
  - destruct v as [x| |]; try contradiction. cbn in Hf. cbn [RangesSpec.show shape_of]. inversion_clear Ht as [|? ? Hi _]. split.
    + constructor. split; [exact Hi|]. split; [exact Hf|]. exists b, false, false. split; [exact Hb|reflexivity].
    + destruct (base_of sp b Hb) as (_ & Bb & _). destruct (print_signed_shape false b x Bb) as (sg & ds & -> & Hne & Hds & _ & -> & _).
      destruct (x <? 0); [exists 45, ds; repeat split; trivial; lia|].
      destruct ds as [|c ds]; [contradiction|]. inversion_clear Hds as [|? ? [d [Hd _]] _].
      exists c, ds. cbn [app]. split; trivial. unfold digit_value in Hd.
      assert (Hc : (48 <= c <= 57 \/ 97 <= c <= 122 \/ 65 <= c <= 90)).
      { revert Hd. clear. repeat match goal with |- context [if ?q then _ else _] => destruct q eqn:? end; try discriminate; intros _; lia. }
      repeat split; try lia.
      destruct (is_ws c) eqn:Ew; trivial. apply ws_no_digit in Ew. unfold no_digit, digit_value in Ew. rewrite Ew in Hd. discriminate.
  - destruct v as [|vs|]; try contradiction. destruct Hf as [Hl Hf]. cbn [RangesSpec.show shape_of]. split.
    + apply w_seq; trivial; try marks.
      apply items_join; [cbn; auto|]. clear Hl. induction Hf as [|v vs Hv Hf IHf]; constructor; trivial. now apply IH.
    + exists 91. eexists. split; [reflexivity|]. repeat split; lia.
  - destruct v as [|vs|]; try contradiction. destruct Hf as [Hl Hf]. cbn [RangesSpec.show shape_of]. split.
    + apply w_seq; trivial; try marks.
      apply items_join; [cbn; auto|]. clear Hl. induction Hf as [|v vs Hv Hf IHf]; constructor; trivial. now apply IH.
    + exists 123. eexists. split; [reflexivity|]. repeat split; lia.
  - destruct v as [|vs|]; try contradiction. destruct Hf as [Hl Hf]. cbn [RangesSpec.show shape_of].
    cbn [int_types] in Ht. apply Forall_app in Ht. destruct Ht as [Tk Tw]. split.
    + apply w_seq; trivial; try marks.
      apply items_join; [cbn; auto|]. clear Hl. induction Hf as [|v vs Hv Hf IHf]; constructor; trivial.
      destruct v as [| |[|a [|b' [|]]]]; try contradiction. destruct Hv as [Ha Hb'].
      destruct (IHk Tk specs_default 10 a base_default Ha) as [Wk Sk].
      destruct (IHw Tw specs_default 10 b' base_default Hb') as [Ww Sw].
      split; [|now apply starts_app].
      match goal with |- wrote _ _ _ ?t => replace t with (p_open pair_punct ++ t ++ p_close pair_punct) by (cbn; apply app_nil_r) end.
      apply w_tup; try marks.
      pose proof (wi_some r int_text no_digit [58] [] specs_default (shape_of k) [shape_of w] a [b'] [] ws
        (show 10 k a) ([58] ++ enc_text r ws ++ show 10 w b') (Forall_nil _) Hws Wk (starts_begins _ [] Sk (or_introl eq_refl))) as W.
      cbn [enc_text text flat_map app] in W |- *. apply W.
      pose proof (wm_some r int_text no_digit [58] specs_default (shape_of w) [] b' [] ws [] (show 10 w b') [] Hws (Forall_nil _) Ww
        (starts_begins _ [] Sw (or_introl eq_refl)) (wm_none _ _ _ _ _)) as W2.
      cbn [enc_text text flat_map app] in W2 |- *. rewrite !app_nil_r in W2. exact W2.
    + exists 123. eexists. split; [reflexivity|]. repeat split; lia.
  - destruct v as [| |vs]; try contradiction. cbn [RangesSpec.show shape_of]. split.
    + apply w_tup; try marks. apply items_join; [cbn; auto|].
      cbn [fits] in Hf. cbn [int_types] in Ht. clear Hb. revert vs Hf. induction IH as [|e es He' IHe IHL]; intros vs Hf;
        (destruct vs as [|v vs]; try contradiction); [constructor|]. destruct Hf as [Hv Hf].
      cbn [flat_map] in Ht. apply Forall_app in Ht. destruct Ht as [T1 T2]. cbn [map]. constructor; auto using base_default.
    + exists 40. eexists. split; [reflexivity|]. repeat split; lia.
Qed.

Lemma units_app e a b : units e a -> units e b -> units e (a ++ b).
Proof. intros H1 H2. destruct e; [|exact I|exact I]. now apply bytes_app. Qed.
Lemma units_one e c : 0 <= c < 256 -> units e [c].
Proof. intros H. destruct e; [|exact I|exact I]. apply Forall_cons; [exact H|apply Forall_nil]. Qed.
Lemma units_join sep ts : units (s_enc r) sep -> Forall (units (s_enc r)) ts -> units (s_enc r) (join sep ts).
Proof.
  intros Hs. assert (Hw : units (s_enc r) (enc_text r ws)).
  { rewrite <- (app_nil_r (enc_text r ws)). apply units_spaces; trivial. destruct (s_enc r); cbn; trivial. constructor. }
  induction 1 as [|t ts Ht Hts IH]; cbn [RangesSpec.join]; [destruct (s_enc r); cbn; trivial; constructor|].
  repeat apply units_app; trivial. destruct ts; trivial.
  all: destruct (s_enc r); cbn; trivial; constructor.
Qed.
Lemma show_units t : forall b v, base_ok b -> units (s_enc r) (show b t v).
Proof.
  assert (Hw : units (s_enc r) (enc_text r ws)).
  { rewrite <- (app_nil_r (enc_text r ws)). apply units_spaces; trivial. destruct (s_enc r); cbn; trivial. constructor. }
  assert (Hn : units (s_enc r) []) by (destruct (s_enc r); cbn; trivial; constructor).
  assert (B10 : base_ok 10) by (unfold base_ok; lia).
  induction t as [i|n e IH|n e IH|n k w IHk IHw|es IH] using stype_all; intros b v Hb;
    (destruct v as [x|vs|vs]; cbn [RangesSpec.show]; trivial).
  - destruct (print_signed_shape false b x Hb) as (sg & ds & -> & Hne & Hds & _ & -> & _). apply units_app.
    + destruct (x <? 0); trivial. apply units_one. lia.
    + clear Hne. induction Hds as [|c ds [d [Hd _]] Hds IH]; trivial. change (c :: ds) with ([c] ++ ds).
      apply units_app; trivial. apply units_one. revert Hd. unfold digit_value.
      clear. repeat match goal with |- context [if ?q then _ else _] => destruct q eqn:? end; try discriminate; intros _; lia.
  - repeat apply units_app; try (apply units_one; lia). apply units_join; [apply units_one; lia|].
    apply Forall_map, Forall_forall. auto.
  - repeat apply units_app; try (apply units_one; lia). apply units_join; [apply units_one; lia|].
    apply Forall_map, Forall_forall. auto.
  - repeat apply units_app; try (apply units_one; lia). apply units_join; [apply units_one; lia|].
    apply Forall_map, Forall_forall. intros v _. destruct v as [| |[|a [|b' [|]]]]; trivial.
    repeat apply units_app; trivial; auto. apply units_one. lia.
  - repeat apply units_app; try (apply units_one; lia). apply units_join; [apply units_one; lia|].
    revert vs. induction IH as [|e es He' IHe IHL]; intros [|v vs]; constructor; auto.
Qed.
End Show.
