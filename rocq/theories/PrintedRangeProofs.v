(** Proofs about scanning printed ranges. *)
From Verif Require Import Prelude UnicodeModel UnicodeSpec UnicodeProofs ReadModel ReadProofs RangesSpec RangesProofs
  SpecsModel FormatModel FormatSpec ArgsModel IntModel VscanModel VscanSpec WidthSpec WidthProofs StringProofs ArgReaderModel
  StringModel ScalarModel ScalarSpec ScalarProofs ScalarProperties FloatModel FloatSpec FloatProofs FloatProperties
  LocaleModel PrintedSpec PrintedTextProofs IntSpec IntProofs RangesModel.
Local Open Scope Z_scope.

(** The text begins with a character of a number or an opening bracket. *)
Definition opens (b : list Z) : Prop := exists u b', b = u :: b' /\ 33 <= u < 128 /\ u <> 93 /\ u <> 125.
Lemma part_opens u b : part_char u -> opens (u :: b).
Proof. intros H. exists u, b. unfold part_char, payload_char in H. repeat split; lia. Qed.
Lemma opens_app b s : opens b -> opens (b ++ s).
Proof. intros (u & b' & -> & H). exists u, (b' ++ s). auto. Qed.
Section Elements.
Context {F : Type}.
Variable r : src.
Notation e := (s_enc r).
Hypothesis He : e <> U16.
Hypothesis Hcontig : s_contig r = true.
Variables (rx : regex_engine) (l : locale).

Lemma follows_end q tail : s_enc q = e -> follows q delimiter tail -> float_end tail.
Proof.
  intros Eq [->|(cp & s & Sc & -> & H)]; [exact I|]. rewrite Eq.
  destruct (encode_units e cp He Sc) as [[Hc ->]|[Hc Hu]]; cbn [app].
  - cbn [float_end]. destruct H as [H|[_ H]]; [|exact H]. intros HF. apply float_ink in HF. rewrite ink in H by exact HF. discriminate.
  - destruct (encode_lead e cp Sc) as (u & tl & E & _). rewrite E in *. cbn [app float_end]. apply Forall_inv in Hu. intros HF. apply float_ink in HF. lia.
Qed.
Lemma end_digit b tail : b <= 36 -> float_end tail -> ~ starts_with_digit b tail.
Proof.
  intros Hb HF. destruct tail as [|c tail]; [intros []|]. cbn in *. intros HD. apply HF, part_float. eapply digit_float; eauto.
Qed.
Lemma end_prefix L b tail : 97 <= L <= 122 -> float_end tail -> has_prefix L b (48 :: tail) = false.
Proof.
  intros HL HF. unfold has_prefix. destruct tail as [|c [|d s]]; trivial. cbn [float_end] in HF.
  replace (prefix_letter c L) with false; [now rewrite andb_false_r|]. symmetry. unfold prefix_letter.
  apply orb_false_iff. unfold float_char, payload_char in HF. split; lia.
Qed.

Lemma plain_arg {V} (rd : reader V) sp ws b tail v :
  width sp = 0 -> precision sp = 0 -> align sp = ANone -> rd_check rd sp = true -> rd_skip rd sp = true ->
  begins r [] b -> spaces r ws -> units e (enc_text r ws ++ b ++ tail) ->
  rd_specs rd r sp (b ++ tail) = Ok (v, tail) ->
  arg_read_checked r rd sp (enc_text r ws ++ b ++ tail) = Ok (v, tail).
Proof.
  intros W0 P0 A0 Ec Ek (cp & b' & Hp & Hn & E & _) Hw Hu HR.
  unfold arg_read_checked. rewrite Ec. unfold arg_read. rewrite Ek, P0. cbn [Z.eqb negb]. unfold impl_prefix. rewrite A0, P0. cbn [Z.eqb negb].
  unfold ArgReaderModel.skip_ws_all, need_width. rewrite W0, P0. cbn [Z.eqb negb orb].
  rewrite E in *. rewrite <- app_assoc in *. rewrite skip_to by trivial. cbn [bind].
  rewrite HR. cbn [bind]. destruct tail as [|c s]; [|unfold impl_postfix; rewrite A0; cbn [negb andb bind]];
    unfold check_widths; rewrite W0, P0; reflexivity.
Qed.
Lemma bool_units (tx nu v : bool) s w :
  (if nu then w = [if v then 49 else 48] else False) \/ (if tx then w = (if v then word_true else word_false) else False) ->
  bool_either tx nu bool_textual_classic (w ++ s) = Ok (v, s).
Proof.
  intros [H|H]; [destruct nu|destruct tx]; try contradiction; subst w.
  - destruct v; reflexivity.
  - destruct nu, v; reflexivity.
Qed.

Lemma prints_part (t : scalar_type F) c x b : element t -> prints e t c x b -> exists u b', b = u :: b' /\ part_char u.
Proof.
  intros Ht Hp.
  inversion Hp as [t0 a c0 bs v upper Hb0 Ht0 Hv|c0 v Hc|c0 v Hc|k old a c0 u Hc Hcu Hf|d a c0 to w Hc Hd Hwd _|c0 p upper Hc Hpr|f a c0 M fm neg sg tx v HC Hfm Hsg Hg Hst Hr];
    subst; try contradiction.
  - destruct (print_signed_shape upper bs v (int_base_ok _ _ Hb0)) as (sg & ds & -> & Hne & Hds & _ & -> & _).
    destruct (v <? 0); [exists 45, ds; split; [reflexivity|unfold part_char; lia]|].
    destruct ds as [|q ds]; [congruence|]. exists q, ds. split; [reflexivity|]. apply Forall_inv in Hds. apply (digit_float bs); [|exact Hds].
    assert (H := int_base_ok _ _ Hb0). unfold base_ok in H. lia.
  - destruct v; eexists _, _; (split; [reflexivity|unfold part_char, payload_char; lia]).
  - destruct v; eexists _, _; (split; [reflexivity|unfold part_char, payload_char; lia]).
  - eexists _, _; (split; [reflexivity|unfold part_char, payload_char; lia]).
  - destruct Hsg; [destruct Hst as [H|[H|H]]|..].
    + destruct tx as [|q tx]; [destruct H|]. exists q, tx. split; [reflexivity|]. apply (digit_float 10); [lia|exact H].
    + apply infinite_first in H. destruct H as (q & t' & -> & H). exists q, t'. split; [reflexivity|unfold part_char, payload_char; lia].
    + apply nan_first in H. destruct H as (q & t' & -> & H). exists q, t'. split; [reflexivity|unfold part_char, payload_char; lia].
    + eexists _, _; (split; [reflexivity|unfold part_char; lia]).
    + eexists _, _; (split; [reflexivity|unfold part_char; lia]).
Qed.
Lemma opens_begins q a b : s_enc q = e -> opens b -> In a [[]; [93]; [125]] -> begins q a b.
Proof.
  intros Eq (u & b' & -> & Hu & H1 & H2) Ha. exists u, b'. split; [split; [unfold scalar; lia|right; lia]|].
  split; [apply ink, Hu|]. rewrite Eq. split.
  { destruct (encode_units e u He ltac:(unfold scalar; lia)) as [[_ ->]|[H _]]; [reflexivity|lia]. }
  intros c0 a0 ->. cbn [hd]. destruct Ha as [H|[H|[H|[]]]]; [discriminate|..]; injection H as <- _; congruence.
Qed.

Theorem element_back (t : scalar_type F) sp x b ws tail : element_text e t sp x b -> spaces r ws -> units e (enc_text r ws ++ b ++ tail) -> float_end tail ->
  scalar_specs rx r l t sp (enc_text r ws ++ b ++ tail) = Ok (x, tail).
Proof.
  intros (Ht & c & (W0 & P0 & A0 & L0 & T0) & Hp) Hw Hu Hend.
  assert (Hb : begins r [] b).
  { destruct (prints_part t c x b Ht Hp) as (u & b' & -> & H). apply opens_begins; [reflexivity|apply part_opens, H|left; reflexivity]. }
  assert (Hut : units e (b ++ tail)) by (eapply units_suffix; [|exact Hu]; exists (enc_text r ws); reflexivity).
  assert (PA : forall {V} (rd : reader V) v, rd_check rd sp = true -> rd_skip rd sp = true -> rd_specs rd r sp (b ++ tail) = Ok (v, tail) ->
    arg_read_checked r rd sp (enc_text r ws ++ b ++ tail) = Ok (v, tail)) by (intros V rd v H1 H2 H3; apply plain_arg; trivial).
  assert (Htail : enc_ok e tail).
  { intros E8. rewrite E8 in Hut. apply bytes_app in Hut. apply Hut. }
  inversion Hp as [t0 a c0 bs v upper Hb0 Ht0 Hv|c0 v Hc|c0 v Hc|k old a c0 u Hc Hcu Hf|d a c0 to w Hc Hd Hwd _|c0 p upper Hc Hpr|f a c0 M fm neg sg tx v HC Hfm Hsg Hg Hst Hr];
    subst; cbn [scalar_specs element] in *; try contradiction.
  - destruct (int_letter c bs Hb0 sp T0) as (Eb & Eu & Ec).
    rewrite (PA Z (int_reader t0 (l_sep l)) v); [reflexivity|cbn [int_reader rd_check]; auto|reflexivity|].
    cbn [int_reader rd_specs]. unfold int_read_specs. rewrite Eb, Eu, L0. cbn [bind negb].
    assert (RT := round_trip r t0 upper bs v false tail Ht0 (int_base_ok _ _ Hb0) Hv). cbn [andb app] in RT.
    assert (Hbs : bs <= 36) by (assert (H := int_base_ok _ _ Hb0); unfold base_ok in H; lia).
    rewrite <- RT; [|apply end_digit; assumption|exact Htail|].
    2: { intros _ L HL. apply end_prefix; [|exact Hend]. destruct HL as [[_ ->]|[[_ ->]|[_ ->]]]; lia. }
    unfold int_read_default_with_base. destruct (parse_integer_prefix r _ bs); trivial. cbn [bind]. rewrite orb_false_r, (andb_comm (is_minus _)). reflexivity.
  - rewrite (PA bool (bool_reader (bool_names l)) v); [reflexivity|..|reflexivity|]; cbn [bool_reader rd_check rd_specs].
    + unfold check_bool_type_specs. rewrite T0. destruct Hc as [->| ->]; reflexivity.
    + unfold bool_specs. replace (bool_options sp) with (true, match c with None => true | _ => false end) by (unfold bool_options; rewrite T0; destruct Hc as [->| ->]; reflexivity).
      rewrite L0. apply bool_units. right. reflexivity.
  - rename c0 into c1. destruct (int_base (Some c1)) as [bs|] eqn:EB; [|congruence].
    assert (Hcs : c1 = 100 \/ c1 = 120 \/ c1 = 88 \/ c1 = 111 \/ c1 = 98 \/ c1 = 66).
    { cbn [int_base] in EB. destruct (Z.eqb_spec c1 100); [lia|]. destruct (Z.eqb_spec c1 120); [lia|]. destruct (Z.eqb_spec c1 88); [lia|].
      destruct (Z.eqb_spec c1 111); [lia|]. destruct (Z.eqb_spec c1 98); [lia|]. destruct (Z.eqb_spec c1 66); [lia|]. discriminate. }
    rewrite (PA bool (bool_reader (bool_names l)) v); [reflexivity|..|reflexivity|]; cbn [bool_reader rd_check rd_specs].
    + unfold check_bool_type_specs. rewrite T0. destruct Hcs as [->|[->|[->|[->|[->| ->]]]]]; reflexivity.
    + unfold bool_specs. replace (bool_options sp) with (false, true) by (unfold bool_options; rewrite T0; destruct Hcs as [->|[->|[->|[->|[->| ->]]]]]; reflexivity).
      rewrite L0. apply bool_units. left. reflexivity.
  - rewrite (PA Z (pointer_reader (l_sep l)) p); [reflexivity|..|reflexivity|]; cbn [pointer_reader rd_check rd_specs].
    + unfold check_pointer_type_specs. rewrite T0. destruct Hc as [->| ->]; reflexivity.
    + apply pointer_units; [exact Hpr|exact Htail|apply end_digit; [lia|exact Hend]].
  - assert (Hask : asks sp fm /\ check_float_type_specs sp = true).
    { unfold asks, check_float_type_specs. rewrite T0. destruct fm; cbn [float_format] in Hfm; [rewrite Hfm; split; reflexivity|..];
        destruct Hfm as [->| ->]; split; reflexivity. }
    rewrite (PA F (float_reader f (number_options l)) v); [reflexivity|apply Hask|reflexivity|].
    cbn [rd_specs float_reader]. apply (float_units r f M (number_options l) sp fm neg); trivial. apply Hask.
Qed.
End Elements.

(** ** Ranges *)
Section Shapes.
Context {F : Type}.
Variable r : src.
Notation e := (s_enc r).
Hypothesis He : e <> U16.
Hypothesis Hcontig : s_contig r = true.
Variables (rx : regex_engine) (global : locale).
Notation q := (custom_src r).
Notation wrote := (wrote (X := svalue F) q (element_text e) delimiter).
Notation wrote_items := (wrote_items (X := svalue F) q (element_text e) delimiter).
Notation wrote_more := (wrote_more (X := svalue F) q (element_text e) delimiter).

Lemma custom_enc : s_enc q = e.
Proof. unfold custom_src. destruct (s_contig r); reflexivity. Qed.
Lemma custom_spaces ws : spaces q ws -> spaces r ws.
Proof.
  apply Forall_impl. intros c [[Sc _] Hw]. split; [split; [exact Sc|]|exact Hw]. left. unfold unsplit. destruct e; trivial. left. exact Hcontig.
Qed.
Lemma element_src_left sp s : width sp = 0 -> precision sp = 0 -> s <> [] -> element_src r sp s = r.
Proof.
  intros W0 P0 Hs. unfold element_src. rewrite Hcontig, W0, P0. destruct s; [congruence|]. cbn. rewrite orb_true_r. reflexivity.
Qed.
Theorem shape_back sp sh v t ws rest out : wrote sp sh v t -> begins q [] t -> spaces q ws ->
  units e (enc_text r ws ++ t ++ rest) -> remains q delimiter sh rest out ->
  shape_scan rx global r sh sp (enc_text r ws ++ t ++ rest) = Ok (v, out).
Proof.
  intros HW Hb Hw Hu HR. unfold shape_scan.
  assert (ET : forall w, enc_text q w = enc_text r w) by (intros; unfold enc_text; rewrite custom_enc; reflexivity).
  rewrite <- ET. rewrite <- ET, <- custom_enc in Hu.
  destruct (back_all q ltac:(rewrite custom_enc; exact He) (element_scan (F := F) rx (get_locale global None) r) (element_text e) delimiter) as [BA _].
  - intros t0 sp0 x b ws0 tail HE Hb0 Hw0 Hf Hu0. unfold element_scan. rewrite ET in *. rewrite custom_enc in Hu0.
    assert (HE' := HE). destruct HE' as (Ht & c & (W0 & P0 & _) & Hp). rewrite element_src_left; trivial.
    + apply element_back; trivial; [apply custom_spaces, Hw0|]. eapply follows_end; eauto using custom_enc.
    + destruct (prints_part r t0 c x b Ht Hp) as (u & b' & -> & _). destruct (enc_text r ws0); discriminate.
  - apply (BA _ _ _ _ HW); trivial; [now apply begins_app|]. destruct sh; trivial.
Qed.

Scheme shows_m := Minimality for shows Sort Prop
  with all_m := Minimality for shows_all Sort Prop
  with pairs_m := Minimality for shows_pairs Sort Prop.
Combined Scheme shows_mutual from shows_m, all_m, pairs_m.

(** The punctuation of std::format. *)
Lemma mark_one c : 33 <= c < 128 -> ~ float_char c -> mark delimiter [c].
Proof. intros H1 H2. exists c, []. split; [reflexivity|]. split; [lia|]. split; [apply ink, H1|exact H2]. Qed.
Lemma mark_any c : 33 <= c < 128 -> mark (fun _ => True) [c].
Proof. intros H. exists c, []. split; [reflexivity|]. split; [lia|]. split; [apply ink, H|exact I]. Qed.
Ltac marks :=
  match goal with
  | |- mark _ _ => apply mark_one; cbn; unfold float_char, payload_char; lia
  | |- mark_opt _ [] => left; reflexivity
  | |- mark_opt _ (p_open pair_punct) => left; reflexivity
  | |- mark_opt _ (p_close pair_punct) => left; reflexivity
  | |- mark_opt (fun _ => True) _ => right; apply mark_any; cbn; lia
  | |- mark_opt _ _ => right; apply mark_one; cbn; unfold float_char, payload_char; lia
  | |- hd _ _ <> hd _ _ => discriminate
  end.
Lemma space_one : spaces q [32].
Proof. constructor; [|constructor]. split; [split; [unfold scalar; lia|right; lia]|reflexivity]. Qed.

Definition all_wrote (shs : list (shape (scalar_type F))) vs bs : Prop :=
  forall sep sp, sep = [44] -> sp = specs_default ->
  wrote_more sep sp shs vs (match bs with [] => [] | _ => [44; 32] end ++ listed bs)
  /\ forall avoid, In avoid [[]; [93]; [125]] -> wrote_items sep avoid sp shs vs (listed bs).
Lemma listed_cons b bs : listed (b :: bs) = b ++ match bs with [] => [] | _ => [44; 32] end ++ listed bs.
Proof. destruct bs; [cbn; rewrite app_nil_r; reflexivity|reflexivity]. Qed.
Lemma all_nil : all_wrote [] [] [].
Proof.
  intros sep sp -> ->. split; [constructor|]. intros a Ha. cbn. change (@nil Z) with (enc_text q []). constructor. constructor.
Qed.
Lemma all_cons sh shs v vs b bs : wrote specs_default sh v b -> opens b -> all_wrote shs vs bs -> all_wrote (sh :: shs) (v :: vs) (b :: bs).
Proof.
  intros HW HO HA sep sp -> ->. destruct (HA [44] specs_default eq_refl eq_refl) as [HM _]. rewrite listed_cons.
  assert (Hb : forall a, In a [[]; [93]; [125]] -> begins q a b) by (intros a Ha; apply (opens_begins r He); auto using custom_enc).
  split.
  - assert (H := wm_some q (element_text e) delimiter [44] specs_default sh shs v vs [32] [] b _ space_one (Forall_nil _) HW (Hb [] (or_introl eq_refl)) HM).
    replace (enc_text q [32]) with [32] in H by (unfold enc_text; destruct (s_enc q); reflexivity). exact H.
  - intros a Ha.
    exact (wi_some q (element_text e) delimiter [44] a specs_default sh shs v vs [] [] b _ (Forall_nil _) (Forall_nil _) HW (Hb a Ha) HM).
Qed.
Theorem shows_wrote :
  (forall sh v b, shows e sh v b -> wrote specs_default sh v b /\ opens b)
  /\ (forall shs vs bs, shows_all e shs vs bs -> all_wrote shs vs bs)
  /\ (forall k w vs bs, shows_pairs e k w vs bs -> all_wrote (map (fun _ => STup pair_punct [k; w]) vs) vs bs).
Proof.
  apply (shows_mutual F e (fun sh v b => wrote specs_default sh v b /\ opens b) all_wrote
    (fun k w vs bs => all_wrote (map (fun _ => STup pair_punct [k; w]) vs) vs bs)).
  - intros t x b Ht Hp. split.
    + constructor. split; [exact Ht|]. exists None. split; [repeat split|exact Hp].
    + destruct (prints_part r t None x b Ht Hp) as (u & b' & -> & H). apply part_opens, H.
  - intros n sh vs bs Hn _ HA. destruct (HA [44] specs_default eq_refl eq_refl) as [_ H]. split; [|exists 91; eexists; repeat split; lia].
    apply w_seq; trivial; try marks. apply H. cbn. auto.
  - intros n sh vs bs Hn _ HA. destruct (HA [44] specs_default eq_refl eq_refl) as [_ H]. split; [|exists 123; eexists; repeat split; lia].
    apply w_seq; trivial; try marks. apply H. cbn. auto.
  - intros n k w vs bs Hn _ HA. destruct (HA [44] specs_default eq_refl eq_refl) as [_ H]. split; [|exists 123; eexists; repeat split; lia].
    apply w_seq; trivial; try marks. apply H. cbn. auto.
  - intros shs vs bs _ HA. destruct (HA [44] specs_default eq_refl eq_refl) as [_ H]. split; [|exists 40; eexists; repeat split; lia].
    apply w_tup; trivial; try marks. apply H. cbn. auto.
  - apply all_nil.
  - intros sh shs v vs b bs _ [H1 H2] _ H3. apply all_cons; assumption.
  - intros k w. apply all_nil.
  - intros k w x y vs b c bs _ [H1 H2] _ [H3 H4] _ H5. cbn [map]. apply all_cons; [|apply opens_app, H2|exact H5].
    replace (b ++ [58; 32] ++ c) with (p_open pair_punct ++ (b ++ [58; 32] ++ c) ++ p_close pair_punct) by (cbn; rewrite app_nil_r; reflexivity).
    assert (Hb : forall b, opens b -> begins q [] b) by (intros b0 Hb; apply (opens_begins r He); [apply custom_enc|exact Hb|left; reflexivity]).
    apply w_tup; try marks.
    assert (M := wm_some q (element_text e) delimiter [58] specs_default w [] y [] [32] [] c [] space_one (Forall_nil _) H3 (Hb c H4) (wm_none _ _ _ _ _)).
    replace (enc_text q [32]) with [32] in M by (unfold enc_text; destruct (s_enc q); reflexivity). cbn [enc_text text flat_map app] in M. rewrite !app_nil_r in M.
    exact (wi_some q (element_text e) delimiter [58] [] specs_default k [w] x [y] [] [] b _ (Forall_nil _) (Forall_nil _) H1 (Hb b H2) M).
Qed.

(** A printed range is scanned back. *)
Theorem shape_reads (sh : shape (scalar_type F)) v b rest : bracketed sh -> shows e sh v b -> units e (b ++ rest) ->
  shape_scan rx global r sh specs_default (b ++ rest) = Ok (v, rest).
Proof.
  intros Hbr Hs Hu. destruct (proj1 shows_wrote sh v b Hs) as [HW HO].
  apply (shape_back specs_default sh v b [] rest rest HW); trivial.
  - apply (opens_begins r He); [apply custom_enc|exact HO|left; reflexivity].
  - constructor.
  - inversion Hs; subst; try contradiction; reflexivity.
Qed.
Lemma shows_ink : (forall sh v b, shows (F := F) e sh v b -> Forall (fun c => 32 <= c < 128) b)
  /\ (forall shs vs bs, shows_all (F := F) e shs vs bs -> Forall (fun c => 32 <= c < 128) (listed bs))
  /\ (forall k w vs bs, shows_pairs (F := F) e k w vs bs -> Forall (fun c => 32 <= c < 128) (listed bs)).
Proof.
  assert (HL : forall b bs, Forall (fun c => 32 <= c < 128) b -> Forall (fun c => 32 <= c < 128) (listed bs) -> Forall (fun c => 32 <= c < 128) (listed (b :: bs))).
  { intros b bs H1 H2. rewrite listed_cons, !Forall_app. split; [exact H1|]. split; [|exact H2]. destruct bs; repeat constructor; lia. }
  assert (HB : forall x y b, 32 <= x < 128 -> 32 <= y < 128 -> Forall (fun c => 32 <= c < 128) b -> Forall (fun c => 32 <= c < 128) ([x] ++ b ++ [y])).
  { intros x y b Hx Hy Hb. rewrite !Forall_app. repeat split; trivial; repeat constructor; lia. }
  apply (shows_mutual F e (fun sh v b => Forall (fun c => 32 <= c < 128) b) (fun shs vs bs => Forall (fun c => 32 <= c < 128) (listed bs))
    (fun k w vs bs => Forall (fun c => 32 <= c < 128) (listed bs))); intros; try (apply HB; trivial; lia); try (apply HL; trivial); try constructor.
  - destruct (prints_shape e t None x b H0) as (_ & _ & Hi). assert (Hb : Forall (fun c => 33 <= c < 128) b) by (destruct t; try contradiction; exact Hi).
    eapply Forall_impl; [|exact Hb]. cbn. intros; lia.
  - rewrite !Forall_app. repeat split; trivial; repeat constructor; lia.
Qed.
End Shapes.
