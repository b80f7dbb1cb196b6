(** Proofs about scanning printed text. *)
From Verif Require Import Prelude UnicodeModel UnicodeSpec UnicodeProofs WhitespaceModel WhitespaceProofs ReadModel ReadProofs
  SpecsModel FormatModel FormatSpec FormatSpecProofs ArgsModel IntModel VscanModel VscanSpec VscanSpecProofs VscanProperties WidthModel
  WidthSpec WidthProofs ArgReaderModel ArgReaderProofs ArgReaderProperties ScalarModel ScalarSpec ScalarProofs
  ScalarProperties StringModel StringSpec StringProofs StringProperties FloatModel FloatSpec FloatProofs FloatProperties
  FloatFieldProperties LocaleModel WiderProofs PrintedSpec PrintedRangeProofs IntSpec IntProofs RangesModel.
From Verif Require Export PrintedTextProofs.
Local Open Scope Z_scope.

(** ** Readers inside the frame of a field *)
Lemma field_reads {V} al f w skip (rc : list Z -> outcome (V * list Z)) pre b post s x a s' :
  rc (b ++ post ++ s) = Ok (x, post ++ s) ->
  before_value al f None skip (pre ++ b ++ post ++ s) = Ok pre ->
  after_value al f w None skip (cols pre + cols b) (post ++ s) = post ++ a -> s = a ++ s' ->
  w <= cols pre + cols b + cols post ->
  field al f w None skip rc (pre ++ b ++ post ++ s) = Ok (x, s').
Proof.
  intros HR HB HA Hs HW. rewrite (field_unlimited al f w skip rc _ pre (b ++ post ++ s) x b (post ++ s) HB eq_refl HR eq_refl).
  cbv zeta. rewrite HA. rewrite cols_app. pose proof (cols_nonneg a).
  destruct (Z.ltb_spec (cols pre + cols b + (cols post + cols a)) w); [lia|].
  rewrite Hs, app_assoc, after_app. reflexivity.
Qed.

Section Frame.
Variable r : src.
Notation e := (s_enc r).
Variables (d : desc) (skip : bool).
Hypothesis Hgood : good_src r.
Lemma good_whole cps : whole r cps.
Proof. destruct Hgood as [H|[_ H]]; [apply wide_whole; congruence|apply contig_whole, H]. Qed.
Hypothesis Hnum : numerals d.
Hypothesis Hfill : fill_kept e d.
Hypothesis Hprec : d_prec d = None.

Definition err_any (x : err) : Prop := True.
Lemma near_ok {A} (x y : outcome A) v : near err_any x y -> x = Ok v -> y = Ok v.
Proof. intros [->|(z & -> & _)]; [auto|discriminate]. Qed.

Theorem framed {V} (read : src -> list Z -> outcome (V * list Z)) x pre b post s a s' :
  Forall scalar (pre ++ b ++ post ++ s) ->
  read r (text e (b ++ post ++ s)) = Ok (x, text e (post ++ s)) ->
  before_value (said_align d) (said_fill d) None skip (pre ++ b ++ post ++ s) = Ok pre ->
  after_value (said_align d) (said_fill d) (said_width d) None skip (cols pre + cols b) (post ++ s) = post ++ a -> s = a ++ s' ->
  said_width d <= cols pre + cols b + cols post ->
  arg_read r (mean e d) skip read (text e (pre ++ b ++ post ++ s)) = Ok (x, text e s').
Proof.
  intros Hc HR HB HA Hs HW.
  set (B := b ++ post ++ s) in *.
  assert (HcB : Forall scalar B) by (apply scalars_app in Hc; apply Hc).
  set (target := text e B).
  set (out := text e (post ++ s)) in *.
  set (read' := fun (r' : src) (t : list Z) =>
    match read r' t with
    | Ok (y, t') => if (if list_eq_dec Z.eq_dec t target then true else false) && (if list_eq_dec Z.eq_dec t' out then true else false)
                    then Ok (y, t') else Err EndOfInput
    | _ => Err EndOfInput
    end).
  set (rc := fun t : list Z => if list_eq_dec Z.eq_dec t B then Ok (x, post ++ s) else Err EndOfInput).
  assert (HP0 : precision (mean e d) = 0) by (rewrite mean_precision, Hprec; reflexivity).
  eapply near_ok.
  - apply (arg_read_near err_any r (mean e d) skip read' read). intros r' t _. unfold read'.
    destruct (read r' t) as [[y t']|z| |]; try (right; exists EndOfInput; split; [reflexivity|exact I]).
    destruct (_ && _); [left; reflexivity|right; exists EndOfInput; split; [reflexivity|exact I]].
  - rewrite (arg_read_field r (mean e d) (said_fill d) skip read' rc).
    + rewrite said_prec_of, mean_align, mean_width. unfold said_precision. rewrite Hprec.
      rewrite (field_reads _ _ _ _ rc pre b post s x a s'); trivial.
      fold B. unfold rc. destruct (list_eq_dec Z.eq_dec B B); [reflexivity|contradiction].
    + lia.
    + intros _. rewrite mean_fill_eq. apply mean_fill_ok, Hfill.
    + intros ds _ Hds. unfold read', rc. rewrite HP0. cbn [Z.eqb].
      destruct (list_eq_dec Z.eq_dec ds B) as [->|Hne].
      * fold target. unfold target. rewrite HR. fold target.
        destruct (list_eq_dec Z.eq_dec target target); [|contradiction].
        destruct (list_eq_dec Z.eq_dec out out); [reflexivity|contradiction].
      * destruct (read r (text e ds)) as [[y t']|z| |]; try reflexivity.
        destruct (list_eq_dec Z.eq_dec (text e ds) target) as [E|_]; [|reflexivity].
        exfalso. apply Hne. eapply text_inj; eassumption.
    + intros ds y l. unfold rc. destruct (list_eq_dec Z.eq_dec ds B) as [->|]; [|discriminate].
      intros [= _ <-]. exists b. reflexivity.
    + intros _ _. apply good_whole.
    + exact Hc.
Qed.
End Frame.

(** ** Padding *)
Section Pad.
Context {F : Type}.
Implicit Type t : scalar_type F.
Definition is_char t : bool := match t with TChar _ _ _ => true | _ => false end.
(** The frame of a field is found. *)
Lemma pad_found t d b pre post s skip : padding t (Some d) b = (pre, post) -> b <> [] ->
  (d_fill d <> None -> d_align d <> None) -> d_align d <> Some ANone ->
  (said_align d = ANone -> skip = negb (is_char t)) ->
  (said_align d = ANone -> is_char t = false -> ~ starts is_ws b) ->
  (said_align d = ARight \/ said_align d = ACenter -> ~ starts (Z.eqb (said_fill d)) b) ->
  (said_align d = ANone -> match t with TBool | TString _ _ => said_width d <= cols b | _ => True end) ->
  before_value (said_align d) (said_fill d) None skip (pre ++ b ++ post ++ s) = Ok pre
  /\ after_value (said_align d) (said_fill d) (said_width d) None skip (cols pre + cols b) (post ++ s)
     = post ++ lead (takes t (Some d) b) s
  /\ said_width d <= cols pre + cols b + cols post.
Proof.
  intros HP Hb Hdf Hda Hsk Hws Hst Hw. cbn [padding] in HP.
  set (k := Z.to_nat (said_width d - cols b)) in *. set (f := said_fill d) in *.
  assert (Hcol : forall n m, (k <= n + m)%nat -> said_width d <= cols (repeat f n) + cols b + cols (repeat f m)).
  { intros n m H. pose proof (cols_repeat f n). pose proof (cols_repeat f m). lia. }
  assert (Hnb : forall p l, ~ starts p b -> lead p (b ++ l) = []).
  { intros p l H. apply lead_none. destruct b as [|c b']; [congruence|]. exact H. }
  assert (Hno : forall l : list Z, lead (fun _ => false) l = []) by (intros []; reflexivity).
  unfold before_value, after_value, takes. fold f. cbn [WidthSpec.limit WidthSpec.less option_map]. destruct (said_align d) eqn:EA.
  - (* none *)
    assert (Ef : f = 32).
    { unfold f, said_fill. destruct (d_fill d) as [g|] eqn:EF; [|reflexivity]. exfalso.
      unfold said_align in EA. destruct (d_align d) as [al|]; [|now apply Hdf]. cbn in EA. congruence. }
    specialize (Hsk eq_refl). subst skip. destruct t; cbn [natural is_char negb andb] in *.
    all: try (injection HP as <- <-; cbn [app];
      rewrite (repeat_lead is_ws) by (rewrite Ef; reflexivity); rewrite Hnb by auto; rewrite app_nil_r;
      split; [match goal with |- (if ?c then _ else _) = _ => replace c with false; [reflexivity|] end;
              symmetry; apply Nat.eqb_neq; rewrite !app_length; destruct b; [congruence|]; cbn [length]; lia|];
      split; [symmetry; apply Hno|apply (Hcol k 0%nat); lia]).
    all: try (replace k with O in HP by (specialize (Hw eq_refl); lia); injection HP as <- <-; cbn [app repeat];
      rewrite Hnb by auto; split; [match goal with |- (if ?c then _ else _) = _ => replace c with false; [reflexivity|] end;
              symmetry; apply Nat.eqb_neq; rewrite !app_length; destruct b; [congruence|]; cbn [length]; lia|];
      split; [symmetry; apply Hno|cbn [cols]; specialize (Hw eq_refl); lia]).
    injection HP as <- <-. cbn [app]. split; [reflexivity|]. split; [|apply (Hcol 0%nat); lia].
    rewrite orb_false_r. cbn [cols]. destruct (Z.ltb_spec (0 + cols b) (said_width d)); destruct (Z.ltb_spec (cols b) (said_width d)); try lia; cbn [andb].
    + rewrite (repeat_lead is_ws) by (rewrite Ef; reflexivity). reflexivity.
    + replace k with O by lia. symmetry. apply Hno.
  - (* left *) injection HP as <- <-. cbn [app]. split; [reflexivity|]. split.
    + rewrite (repeat_lead (Z.eqb f)) by apply Z.eqb_refl. f_equal.
    + apply (Hcol 0%nat). lia.
  - (* right *) injection HP as <- <-. cbn [app]. rewrite (repeat_lead (Z.eqb f)) by apply Z.eqb_refl.
    rewrite Hnb by auto. rewrite app_nil_r. split; [reflexivity|]. split; [|apply (Hcol k 0%nat); lia].
    symmetry. apply Hno.
  - (* center *) injection HP as <- <-. rewrite (repeat_lead (Z.eqb f)) by apply Z.eqb_refl.
    rewrite Hnb by auto. rewrite app_nil_r. split; [reflexivity|]. split.
    + rewrite (repeat_lead (Z.eqb f)) by apply Z.eqb_refl. reflexivity.
    + apply Hcol. assert (Nat.div k 2 <= k)%nat by (apply Nat.div_le_upper_bound; lia). lia.
Qed.
End Pad.

(** ** Fields *)
Section Fields.
Context {F : Type}.
Variable r : src.
Notation e := (s_enc r).
Hypothesis Hgood : good_src r.
Hypothesis Hcontig : s_contig r = true.
Variables (rx : regex_engine) (l : locale).

Lemma mean_type d : common d -> type (mean e d) = match letter (Some d) with Some c => optv PNone (fun t => t) (letter_type c) | None => PNone end.
Proof. intros (_ & _ & H). unfold mean, letter. destruct (d_type d) as [[c|i s|p fl]|]; try contradiction; reflexivity. Qed.
Lemma mean_local d : localized (mean e d) = d_local d.
Proof. unfold mean. destruct (d_type d) as [[c|i s|p fl]|]; reflexivity. Qed.
Lemma skip_none b s : b <> [] -> Forall scalar (b ++ s) -> ~ starts is_ws b ->
  skip_ws_before_if_required r true (text e (b ++ s)) = Ok (text e (b ++ s)).
Proof.
  intros Hb Hs Hw. unfold skip_ws_before_if_required. destruct b as [|c b]; [congruence|]. cbn [app] in *.
  assert (Hc := Forall_inv Hs). destruct (encode_lead e c Hc) as (u & tl & E & _).
  assert (EL : lead is_ws (c :: b ++ s) = []) by (apply lead_none; exact Hw).
  assert (HS := skip_ws_text r (c :: b ++ s) false (good_whole r Hgood _) Hs). rewrite EL in HS. cbn [negb andb length Nat.eqb after skipn] in HS.
  change (text e (c :: b ++ s)) with (encode e c ++ text e (b ++ s)) in *. rewrite E in *. cbn [app] in *. exact HS.
Qed.

Lemma ends_nonws (t : scalar_type F) d c x b s : prints e t c x b -> ends t d x b s -> is_char t = false ->
  match d with Some d => said_align d = ANone | None => True end -> ~ starts is_ws b.
Proof.
  intros Hp He Hc Hd. destruct (prints_shape e t c x b Hp) as (Hne & _ & Hi). destruct b as [|u b]; [congruence|]. cbn [starts].
  assert (HI : Forall (fun c => 33 <= c < 128) (u :: b) -> is_ws u <> true).
  { intros H. apply Forall_inv in H. rewrite ink by exact H. discriminate. }
  destruct t; try (apply HI, Hi); [discriminate|].
  cbn [ends] in He.
  assert (HF : Forall (fun c => is_ws c = false) (u :: b)).
  { destruct d as [d|]; cbn [option_map] in He; [rewrite Hd in He|]; destruct (letter _) in He; apply He. }
  apply Forall_inv in HF. rewrite HF. discriminate.
Qed.

Lemma taken_word b s : Forall (fun c => is_ws c = false) b -> s = [] \/ starts is_ws s -> take Word (b ++ s) = Ok (b, s).
Proof.
  intros Hb Hs. unfold take, taken. rewrite (lead_app (fun c => negb (is_ws c))) by (eapply Forall_impl; [|exact Hb]; cbn; intros a ->; reflexivity).
  rewrite (lead_none _ s), app_nil_r, after_app; [reflexivity|]. destruct Hs as [->|Hs]; [intros []|].
  destruct s as [|c s]; [destruct Hs|]. cbn in *. rewrite Hs. discriminate.
Qed.
Lemma taken_until f b s : ~ In f b -> s = [] \/ starts (Z.eqb f) s -> take (Until f) (b ++ s) = Ok (b, s).
Proof.
  intros Hb Hs. unfold take, taken. rewrite (lead_app (fun c => negb (c =? f))).
  - rewrite (lead_none _ s), app_nil_r, after_app; [reflexivity|]. destruct Hs as [->|Hs]; [intros []|].
    destruct s as [|c s]; [destruct Hs|]. cbn in *. rewrite Z.eqb_sym, Hs. discriminate.
  - apply Forall_forall. intros c Hc. destruct (Z.eqb_spec c f) as [->|]; [contradiction|reflexivity].
Qed.

Theorem field_default (t : scalar_type F) x b s : prints e t None x b -> ends t None x b s -> Forall scalar (b ++ s) ->
  scalar_default r t (text e (b ++ s)) = Ok (x, text e s).
Proof.
  intros Hp He Hs. destruct (prints_shape e t None x b Hp) as (Hne & _ & _).
  assert (Hw : is_char t = false -> ~ starts is_ws b) by (intros; eapply (ends_nonws t None); eauto; exact I).
  assert (Hss : Forall scalar s) by (apply scalars_app in Hs; apply Hs).
  assert (D : forall {V} (rd : list Z -> outcome (V * list Z)), is_char t = false -> default_read r true rd (text e (b ++ s)) = rd (text e (b ++ s))).
  { intros V rd Hc. unfold default_read. rewrite skip_none by auto. reflexivity. }
  inversion Hp as [t0 a c bs v upper Hb Ht Hv|c v Hc|c v Hc|k old a c u Hc Hu Hf|d a c to w Hc Hd Hwd _|c p upper Hc Hpr|f a c M fm neg sg tx v HC Hfm Hsg Hg Hst Hr];
    subst; cbn [scalar_default].
  - unfold int_default. rewrite D by reflexivity. injection Hb as <-. unfold int_read_default. rewrite int_reads; trivial; [unfold base_ok; lia|].
    cbn [ends] in He. destruct (He 10 eq_refl) as [H1 H2]. split; [exact H1|]. intros ->. auto.
  - unfold bool_default. rewrite D by reflexivity. rewrite (bool_reads r true true v s Hss); [reflexivity|]. right. reflexivity.
  - unfold char_default, default_read. cbn [skip_ws_before_if_required].
    destruct (encode_lead e u Hu) as (q & tl & E & _).
    assert (EQ : skip_ws_before_if_required r false (text e ([u] ++ s)) = Ok (text e ([u] ++ s))).
    { unfold skip_ws_before_if_required. change (text e ([u] ++ s)) with (encode e u ++ text e s). rewrite E. reflexivity. }
    rewrite EQ. cbn [bind]. rewrite char_reads by assumption. reflexivity.
  - unfold string_default. rewrite D by reflexivity. rewrite (word_text d r to) by (try apply good_whole; assumption). unfold coded.
    cbn [ends letter option_map] in He. destruct He as [H1 H2]. rewrite taken_word by assumption. reflexivity.
  - unfold pointer_default. rewrite D by reflexivity. rewrite pointer_reads by assumption. reflexivity.
  - unfold float_default. rewrite D by reflexivity. rewrite (C32_default f r plain_seps specs_default) by reflexivity.
    rewrite (float_reads r Hgood f M plain_seps specs_default fm neg sg tx v s); trivial. destruct fm; cbn [float_format] in Hfm; try (destruct Hfm; discriminate). reflexivity.
Qed.

Lemma checked_field {V} (rd : reader V) (t : scalar_type F) d c x v b pre post s :
  padding t (Some d) b = (pre, post) -> prints e t c x b -> ends t (Some d) x b (post ++ s) ->
  Forall scalar (pre ++ b ++ post ++ s) -> numerals d -> fill_kept e d -> d_prec d = None ->
  (d_fill d <> None -> d_align d <> None) -> d_align d <> Some ANone ->
  (said_align d = ARight \/ said_align d = ACenter -> ~ starts (Z.eqb (said_fill d)) b) ->
  (said_align d = ANone -> match t with TBool | TString _ _ => said_width d <= cols b | _ => True end) ->
  rd_check rd (mean e d) = true -> (said_align d = ANone -> rd_skip rd (mean e d) = negb (is_char t)) ->
  rd_specs rd r (mean e d) (text e (b ++ post ++ s)) = Ok (v, text e (post ++ s)) ->
  arg_read_checked r rd (mean e d) (text e (pre ++ b ++ post ++ s)) = Ok (v, text e (after (lead (takes t (Some d) b) s) s)).
Proof.
  intros HP Hp He Hs Hn Hf Hpr Hdf Hda Hst Hw Hck Hsk HR. unfold arg_read_checked. rewrite Hck.
  destruct (prints_shape e t c x b Hp) as (Hne & _ & _).
  destruct (pad_found t d b pre post s (rd_skip rd (mean e d)) HP Hne Hdf Hda Hsk) as (H1 & H2 & H3); trivial.
  { intros HA Hc. eapply (ends_nonws t (Some d)); eauto. }
  apply (framed r d (rd_skip rd (mean e d)) Hgood Hf Hpr (fun r' => rd_specs rd r' (mean e d)) v pre b post s (lead (takes t (Some d) b) s)); trivial.
  symmetry. apply lead_after.
Qed.

Theorem field_specs (t : scalar_type F) d x b pre post s :
  padding t (Some d) b = (pre, post) -> prints e t (letter (Some d)) x b -> ends t (Some d) x b (post ++ s) ->
  Forall scalar (pre ++ b ++ post ++ s) -> common d -> numerals d -> fill_kept e d ->
  (d_fill d <> None -> d_align d <> None) -> d_align d <> Some ANone ->
  (said_align d = ARight \/ said_align d = ACenter -> ~ starts (Z.eqb (said_fill d)) b) ->
  (said_align d = ANone -> match t with TBool | TString _ _ => said_width d <= cols b | _ => True end) ->
  scalar_specs rx r l t (mean e d) (text e (pre ++ b ++ post ++ s)) = Ok (x, text e (after (lead (takes t (Some d) b) s) s)).
Proof.
  intros HP Hp He Hs Hcm Hn Hf Hdf Hda Hst Hw.
  assert (HT := mean_type d Hcm). assert (HL := mean_local d). destruct Hcm as (Hpr & Hloc & Hty). rewrite Hloc in HL.
  assert (Hps : Forall scalar (post ++ s)) by (apply scalars_app in Hs; destruct Hs as [_ Hs]; apply scalars_app in Hs; apply Hs).
  assert (CF := fun V (rd : reader V) v => checked_field rd t d (letter (Some d)) x v b pre post s HP Hp He Hs Hn Hf Hpr Hdf Hda Hst Hw).
  inversion Hp as [t0 a c bs v upper Hb Ht Hv|c v Hc|c v Hc Hlt|k old a c u Hc Hu Hfit|dst a c to w Hc Hd Hwd _|c p upper Hc Hpp|f a c M fm neg sg tx v HC Hfm Hsg Hg Hstd Hr];
    subst; cbn [scalar_specs].
  - destruct (int_letter _ _ Hb _ HT) as (G1 & G2 & G3). rewrite (CF Z (int_reader t0 (l_sep l)) v); [reflexivity| |reflexivity|].
    + apply G3, HL.
    + cbn [rd_specs int_reader]. rewrite (specs_generic r t0 (mean e d) (l_sep l) _ bs HL G1), G2, andb_true_r, <- default_generic.
      apply int_reads; trivial; [eapply int_base_ok; eauto|]. cbn [ends] in He. destruct (He bs Hb) as [H1 H2]. split; [exact H1|]. intros ->. auto.
  - rewrite (CF bool (bool_reader (bool_names l)) v); [reflexivity| |reflexivity|].
    + cbn [rd_check bool_reader]. unfold check_bool_type_specs. rewrite HT. destruct Hc as [->| ->]; reflexivity.
    + cbn [rd_specs bool_reader]. unfold bool_specs. rewrite HL. unfold bool_options. rewrite HT.
      destruct Hc as [->| ->]; apply (bool_reads r); trivial; right; reflexivity.
  - assert (HB : exists bs, int_base (Some c) = Some bs) by (destruct (int_base (Some c)) as [bs|]; [eauto|congruence]).
    destruct HB as [bs HB].
    match goal with H : Some c = _ |- _ => rename H into Hlt | H : _ = Some c |- _ => symmetry in H; rename H into Hlt end.
    change (Some c = letter (Some d)) in Hlt. rewrite <- Hlt in HT. cbn match in HT.
    assert (Hcc : c = 100 \/ c = 120 \/ c = 88 \/ c = 111 \/ c = 98 \/ c = 66).
    { cbn [int_base] in HB. destruct (Z.eqb_spec c 100); [lia|]. destruct (Z.eqb_spec c 120); [lia|]. destruct (Z.eqb_spec c 88); [lia|].
      destruct (Z.eqb_spec c 111); [lia|]. destruct (Z.eqb_spec c 98); [lia|]. destruct (Z.eqb_spec c 66); [lia|]. discriminate. }
    rewrite (CF bool (bool_reader (bool_names l)) v); [reflexivity| |reflexivity|].
    + cbn [rd_check bool_reader]. unfold check_bool_type_specs. rewrite HT. destruct Hcc as [->|[->|[->|[->|[->| ->]]]]]; reflexivity.
    + cbn [rd_specs bool_reader]. unfold bool_specs. rewrite HL. unfold bool_options. rewrite HT.
      destruct Hcc as [->|[->|[->|[->|[->| ->]]]]]; apply (bool_reads r false true v); trivial; left; reflexivity.
  - rewrite (CF Z (char_reader k old (l_sep l)) u); [reflexivity| |reflexivity|].
    + cbn [rd_check char_reader]. unfold char_check, check_code_point_type_specs, check_char_type_specs. rewrite HT.
      destruct Hc as [->|[-> ->]]; [destruct k|]; reflexivity.
    + cbn [rd_specs char_reader]. unfold char_specs. rewrite HT.
      assert (HC := char_reads r Hgood k u (post ++ s) Hu Hfit Hps). destruct Hc as [->|[-> ->]]; [destruct k|]; exact HC.
  - unfold string_arg. rewrite (CF (list Z) (string_reader rx dst) (text to b)); [reflexivity| | |].
    + cbn [rd_check string_reader]. unfold check_string_type_specs. rewrite HT. destruct Hc as [->| ->]; reflexivity.
    + intros HA. cbn [rd_skip string_reader]. unfold string_skip, string_kind_of. rewrite HT, mean_align, HA.
      destruct Hc as [->| ->]; reflexivity.
    + cbn [rd_specs string_reader]. rewrite (string_specs_text rx dst r r to d (b ++ post ++ s)); trivial.
      * unfold coded. assert (HPt : take (portion_of d) (b ++ post ++ s) = Ok (b, post ++ s)); [|rewrite HPt; reflexivity].
        cbn [ends option_map] in He. unfold portion_of. unfold letter in He, Hc. destruct (d_type d) as [[c|i q|q fl]|]; try contradiction.
        -- destruct Hc as [Hc|Hc]; [discriminate|]. injection Hc as ->. cbn [option_map optv] in He.
           destruct (said_align d); destruct He as [H1 H2]; try (apply taken_word; assumption); apply taken_until; assumption.
        -- destruct He as [H1 H2]. apply taken_word; assumption.
      * intros _. apply good_whole, Hgood.
      * apply good_u16, Hgood.
      * unfold string_type, letter in *. destruct (d_type d) as [[c|i q|q fl]|]; try contradiction; [|exact I].
        destruct Hc as [Hc|Hc]; [discriminate|]. injection Hc as ->. left. reflexivity.
      * rewrite mean_fill_eq. apply mean_fill_ok, Hf.
      * intros c Hc1 ->. unfold letter in Hc. rewrite Hc1 in Hc. destruct Hc; discriminate.
      * apply scalars_app in Hs. apply Hs.
  - rewrite (CF Z (pointer_reader (l_sep l)) p); [reflexivity| |reflexivity|].
    + cbn [rd_check pointer_reader]. unfold check_pointer_type_specs. rewrite HT. destruct Hc as [->| ->]; reflexivity.
    + cbn [rd_specs pointer_reader]. apply pointer_reads; trivial.
  - assert (Hask : asks (mean e d) fm /\ check_float_type_specs (mean e d) = true).
    { unfold asks, check_float_type_specs. rewrite HT. destruct fm; cbn [float_format] in Hfm; [rewrite Hfm; split; reflexivity|..];
        destruct Hfm as [->| ->]; split; reflexivity. }
    rewrite (CF F (float_reader f (number_options l)) v); [reflexivity|apply Hask|reflexivity|].
    cbn [rd_specs float_reader]. apply (float_reads r Hgood f M (number_options l) (mean e d) fm neg sg tx v (post ++ s)); trivial. apply Hask.
Qed.
End Fields.

(** ** The whole text *)
Section Whole.
Context {F : Type}.
Variable r : src.
Notation e := (s_enc r).
Hypothesis Hgood : good_src r.
Hypothesis Hcontig : s_contig r = true.
Variables (rx : regex_engine) (cf : config) (global : locale) (lr : locale_ref).
Variable items : list (target F * RangesModel.value (svalue F) * list Z).
Variable rest : list Z.
Hypothesis Hrest : Forall scalar rest.
Notation printed := (printed items rest).
Notation values := (values items).
Notation clear := (clear e items rest).
Notation V := (RangesModel.value (svalue F)).
Notation types := (map (fun i => fst (fst i)) items).
Notation args := (map (target_arg rx cf global lr r) types).
Notation n := (Z.of_nat (length items)).

Lemma lit_scalar c : lit_ok e c -> scalar c.
Proof. unfold lit_ok. destruct e; intros H; [unfold scalar; lia|unfold scalar; lia|exact H]. Qed.
Lemma lit_text c s : lit_ok e c -> text e (c :: s) = c :: text e s.
Proof.
  intros H. change (text e (c :: s)) with (encode e c ++ text e s). assert (Hs := lit_scalar c H). unfold lit_ok in H.
  destruct Hgood as [He|[He _]]; rewrite He in *; [reflexivity|].
  destruct (encode_units U8 c ltac:(discriminate) Hs) as [[_ ->]|[? _]]; [reflexivity|lia].
Qed.
Lemma said_fill_scalar rb t d fmt : wf_desc rb e t d fmt -> scalar (said_fill d).
Proof.
  intros (Hf & _). unfold said_fill. destruct (d_fill d) as [f|]; cbn [optv]; [|unfold scalar; lia]. apply (Hf f eq_refl).
Qed.
Lemma pad_scalar (t : scalar_type F) d b pre post : padding t d b = (pre, post) -> (forall d', d = Some d' -> scalar (said_fill d')) -> Forall scalar pre /\ Forall scalar post.
Proof.
  unfold padding. destruct d as [d|]; [|intros [= <- <-] _; split; constructor]. intros E H. specialize (H d eq_refl).
  assert (R : forall k, Forall scalar (repeat (said_fill d) k)) by (intros k; apply Forall_forall; intros c Hc; apply repeat_spec in Hc; subst c; exact H).
  cbv zeta in E. destruct (match said_align d with ANone => natural t | a => a end); injection E as <- <-; split; auto.
Qed.

Notation W := (wf_tokens e (writable e items (rb_of cf))).
(** What a field takes from the text behind. *)
Definition takes_any (t : target F) (d : option desc) (b : list Z) (c : Z) : bool :=
  match t with TScalar t => takes t d b c | _ => false end.
(** The fields of a clear text. *)
Definition clear_any (t : target F) (d : option desc) (x : V) (b : list Z) (ws : bool) (ts : list token) (s : list Z) : Prop :=
  match t, x with
  | TScalar t, VLeaf x => prints e t (letter d) x b /\ clear_field t d x b ws ts s
  | TShape sh, v => d = None /\ bracketed sh /\ shows e sh v b
  | _, _ => False
  end.
Lemma clear_cons id d ts next ws t x b : item items (index id next) = Some (t, x, b) -> clear (Field id d :: ts) next ws ->
  clear_any t d x b ws ts (printed ts (next + 1)) /\ clear ts (next + 1) false.
Proof.
  intros EI. cbn [PrintedSpec.clear]. rewrite EI. unfold clear_any. destruct t as [t|sh|]; [destruct x| |]; try contradiction; tauto.
Qed.
Lemma shows_text sh v b : bracketed sh -> shows (F := F) e sh v b -> b <> [] /\ Forall scalar b /\ Forall (fun c => 0 <= c < 128) b /\ ~ starts is_ws b.
Proof.
  intros Hb Hs. assert (Hi := proj1 (shows_ink r) sh v b Hs). destruct (proj1 (shows_wrote r (good_u16 r Hgood) Hcontig) sh v b Hs) as [_ (u & b' & -> & Hu & _)].
  split; [discriminate|]. split; [|split].
  - eapply Forall_impl; [|exact Hi]. cbn beta. unfold scalar. intros; lia.
  - eapply Forall_impl; [|exact Hi]. cbn beta. intros; lia.
  - cbn [starts]. rewrite ink by exact Hu. discriminate.
Qed.
Lemma any_shape t d x b ws ts s pre post : clear_any t d x b ws ts s -> frame t d b = (pre, post) ->
  b <> [] /\ Forall scalar b /\ (ws = true -> ~ starts is_ws (pre ++ b))
  /\ (~ starts (takes_any t d b) s
      \/ (exists c ts', ts = Lit c :: ts' /\ is_ws c = true)
         /\ (forall c, takes_any t d b c = true -> is_ws c = true) /\ blank s = false).
Proof.
  intros HC EP. destruct t as [t|sh|]; [destruct x as [x| |]| |]; try contradiction; cbn [clear_any frame] in *.
  - destruct HC as [Hp Hcf]. unfold clear_field in Hcf. rewrite EP in Hcf. destruct (prints_shape e t _ x b Hp) as (H1 & H2 & _). tauto.
  - destruct HC as (_ & Hb & Hs). injection EP as <- <-. destruct (shows_text sh x b Hb Hs) as (H1 & H2 & _ & H3).
    split; [exact H1|]. split; [exact H2|]. split; [intros _; exact H3|]. left. destruct s; cbn; [auto|discriminate].
Qed.
Lemma printed_scalar ts : forall next ws, W ts next -> clear ts next ws -> Forall scalar (printed ts next).
Proof.
  induction ts as [|[c|id d] ts IH]; intros next ws HW HC; [exact Hrest|..].
  - cbn [PrintedSpec.printed PrintedSpec.clear wf_gtokens] in *. destruct HW as [Hl HW]. constructor; [apply lit_scalar, Hl|eapply IH; eauto].
  - destruct (item items (index id next)) as [[[t x] b]|] eqn:EI; [|cbn [PrintedSpec.clear] in HC; rewrite EI in HC; contradiction].
    destruct (clear_cons _ _ _ _ _ _ _ _ EI HC) as [Hp HC']. cbn [PrintedSpec.printed wf_gtokens] in *. rewrite EI.
    destruct HW as (_ & Hd & HW). destruct (frame t d b) as [pre post] eqn:EP.
    destruct (any_shape _ _ _ _ _ _ _ _ _ Hp EP) as (_ & H3 & _).
    assert (Forall scalar pre /\ Forall scalar post) as [H1 H2].
    { destruct t as [t| |]; cbn [frame] in EP; [|injection EP as <- <-; split; constructor..]. apply (pad_scalar t d b pre post EP).
      intros d' ->. specialize (Hd d' eq_refl). destruct (Hd _ x b EI) as (_ & Hwf & _). eapply said_fill_scalar; eauto. }
    rewrite !Forall_app. split; [auto|]. split; [auto|]. split; [auto|]. eapply IH; eauto.
Qed.

Lemma arg_item i t x b : item items i = Some (t, x, b) -> nth_error args (Z.to_nat i) = Some (target_arg rx cf global lr r t).
Proof. unfold item. intros H. rewrite !nth_error_map, H. reflexivity. Qed.

Lemma field_reads_back id d ts next ws t x b : item items (index id next) = Some (t, x, b) -> W (Field id d :: ts) next -> clear (Field id d :: ts) next ws ->
  let s := printed ts (next + 1) in
  meant e (read_arg V args) (index id next) d (text e (printed (Field id d :: ts) next))
  = Ok (x, text e (after (lead (takes_any t d b) s) s)).
Proof.
  intros EI HW HC s. assert (HA := arg_item _ _ _ _ EI). assert (HS := printed_scalar _ _ _ HW HC).
  destruct (clear_cons _ _ _ _ _ _ _ _ EI HC) as [Hp HC']. cbn [PrintedSpec.printed wf_gtokens] in *. rewrite EI in *. clear HC.
  destruct HW as (_ & Hd & HW). fold s in Hp, HS |- *. unfold meant, read_arg. rewrite HA.
  destruct t as [t|sh|]; [destruct x as [x| |]| |]; try contradiction; cbn [clear_any frame] in *.
  - destruct Hp as [Hp Hcf]. unfold clear_field in Hcf.
    destruct (padding t d b) as [pre post] eqn:EP. destruct Hcf as (Hcm & He & Hst & _ & Hw & _).
    cbn [target_arg ar_default ar_specs]. cbn [takes_any]. change (takes_any (TScalar t) d b) with (takes t d b).
    destruct d as [d|]; cbn [option_map].
    + destruct (Hd d eq_refl _ _ b EI) as (_ & Hwf & Hfl). destruct Hwf as (Hf & Han & Hwid & Hprec & _).
      rewrite (field_specs r Hgood Hcontig rx (get_locale global lr) t d x b pre post s EP Hp He HS); [reflexivity|auto..].
      * split; [exact Hwid|]. intros p Ep. apply Hprec in Ep. apply Ep.
      * intros f Ef. split; [apply (Hf f Ef)|]. destruct e eqn:Ee; [exact I|..]; destruct Hfl as [Hfl|Hfl]; try discriminate; unfold said_fill in Hfl; rewrite Ef in Hfl; exact Hfl.
      * intros Hne. destruct (d_fill d) as [f|]; [|congruence]. apply (Hf f eq_refl).
      * exact (Hw d eq_refl).
    + injection EP as <- <-. cbn [app] in *. rewrite (field_default r Hgood Hcontig t x b s Hp He HS). unfold leaf_value. cbn [bind].
      replace (lead (takes t None b) s) with (@nil Z) by (destruct s; reflexivity). reflexivity.
  - destruct Hp as (-> & Hb & Hs). cbn [target_arg ar_default option_map app] in *.
    replace (lead (takes_any (TShape sh) None b) s) with (@nil Z) by (destruct s; reflexivity).
    destruct (shows_text sh x b Hb Hs) as (_ & _ & Ha & _).
    assert (ET : text e (b ++ s) = b ++ text e s) by (rewrite text_app; f_equal; apply ascii_text_enc; exact Ha).
    assert (HU := text_units e _ HS). rewrite ET in *. apply (shape_reads r (good_u16 r Hgood) Hcontig); trivial.
Qed.

Lemma ws_app a s : Forall (fun c => is_ws c = true) a -> after (lead is_ws (a ++ s)) (a ++ s) = after (lead is_ws s) s.
Proof. induction 1 as [|c a Hc _ IH]; [reflexivity|]. cbn [app lead]. rewrite Hc. exact IH. Qed.
Lemma ws_none s : ~ starts is_ws s -> after (lead is_ws s) s = s.
Proof. intros H. rewrite lead_none by exact H. reflexivity. Qed.
Lemma starts_app p a s : a <> [] -> ~ starts p a -> ~ starts p (a ++ s).
Proof. destruct a; [congruence|]. auto. Qed.

Section Run.
(** [s]: what is left of the printed text: white space may have been taken already. *)
Definition left_over (ts : list token) (ws : bool) (p s : list Z) : Prop :=
  if ws then s = after (lead is_ws p) p
  else exists a, p = a ++ s /\ Forall (fun c => is_ws c = true) a
       /\ (a = [] \/ s <> [] /\ exists c ts', ts = Lit c :: ts' /\ is_ws c = true).
Variable read : Z -> option desc -> list Z -> outcome (V * list Z).
Hypothesis Hread : forall id d ts next ws t x b, item items (index id next) = Some (t, x, b) -> W (Field id d :: ts) next ->
  clear (Field id d :: ts) next ws -> let s := printed ts (next + 1) in
  read (index id next) d (text e (printed (Field id d :: ts) next)) = Ok (x, text e (after (lead (takes_any t d b) s) s)).
Theorem run_printed fail ts : forall next used ws s log, W ts next -> clear ts next ws -> index_ok n ts next used = true ->
  left_over ts ws (printed ts next) s ->
  run V e n read false fail ts next used ws (text e s) log = Ok (log ++ values ts next, text e rest).
Proof.
  induction ts as [|[c|id d] ts IH]; intros next used ws s log HW HC HI HL.
  - cbn [run PrintedSpec.values index_ok PrintedSpec.printed PrintedSpec.clear] in *. rewrite HI, app_nil_r. f_equal. f_equal. f_equal.
    unfold left_over in HL. destruct ws.
    + rewrite HL. apply ws_none. auto.
    + destruct HL as (a & E & _ & [->|(_ & c & ts' & H & _)]); [symmetry; exact E|discriminate].
  - assert (HS := printed_scalar _ _ _ HW HC).
    cbn [run PrintedSpec.values index_ok PrintedSpec.printed PrintedSpec.clear wf_gtokens] in *. destruct HW as [Hlit HW].
    destruct (is_ws c) eqn:EW.
    + destruct ws; unfold left_over in HL.
      * apply IH; trivial. unfold left_over. rewrite HL. cbn [lead]. rewrite EW. reflexivity.
      * destruct HL as (a & E & Ha & Hor).
        assert (Hne : s <> []) by (destruct Hor as [->|[H _]]; [cbn [app] in E; congruence|exact H]).
        assert (Hss : Forall scalar s) by (rewrite E in HS; apply scalars_app in HS; apply HS).
        assert (HT : text e s <> []).
        { destruct s as [|q s]; [congruence|]. apply Forall_inv in Hss. destruct (encode_lead e q Hss) as (u & tl & EQ & _).
          change (text e (q :: s)) with (encode e q ++ text e s). rewrite EQ. discriminate. }
        destruct (text e s) as [|u us] eqn:ET; [congruence|]. rewrite <- ET, drop_space_text by exact Hss.
        apply IH; trivial. unfold left_over. rewrite <- (ws_app a s Ha), <- E. cbn [lead]. rewrite EW. reflexivity.
    + assert (Es : s = c :: printed ts next).
      { unfold left_over in HL. destruct ws.
        - rewrite HL. apply ws_none. cbn [starts]. rewrite EW. discriminate.
        - destruct HL as (a & E & _ & [->|(_ & c' & ts' & [= -> _] & H)]); [symmetry; exact E|congruence]. }
      rewrite Es, lit_text by exact Hlit. rewrite Z.eqb_refl. apply IH; trivial. exists []. auto.
  - assert (HR := fun t x b EI => Hread id d ts next ws t x b EI HW HC).
    destruct (item items (index id next)) as [[[t x] b]|] eqn:EI; [|cbn [PrintedSpec.clear] in HC; rewrite EI in HC; contradiction]. specialize (HR t x b eq_refl).
    destruct (clear_cons _ _ _ _ _ _ _ _ EI HC) as [Hp HC']. clear HC. rename HC' into HC.
    cbn [run PrintedSpec.values index_ok wf_gtokens] in *. destruct HW as (_ & Hd & HW). rewrite EI.
    destruct (frame t d b) as [pre post] eqn:EP. destruct (any_shape _ _ _ _ _ _ _ _ _ Hp EP) as (Hne & _ & Hws & Htk).
    change (match id with Some ds => FormatSpec.number ds | None => next end) with (index id next) in *.
    destruct ((n <=? index id next) || existsb (Z.eqb (index id next)) used); [discriminate|].
    assert (EPr : printed (Field id d :: ts) next = pre ++ b ++ post ++ printed ts (next + 1)) by (cbn [PrintedSpec.printed]; rewrite EI, EP; reflexivity).
    assert (Es : s = printed (Field id d :: ts) next).
    { unfold left_over in HL. destruct ws.
      - rewrite HL. apply ws_none. rewrite EPr, app_assoc. apply starts_app; [|auto].
        intros H. apply app_eq_nil in H. tauto.
      - destruct HL as (a & E & _ & [->|(_ & c & ts' & H & _)]); [symmetry; exact E|discriminate]. }
    rewrite Es, HR. cbv zeta.
    rewrite IH; trivial; [rewrite <- app_assoc; reflexivity|]. unfold left_over. set (S := printed ts (next + 1)) in *.
    destruct (after_lead (takes_any t d b) S) as (a & E & Ha). exists a. split; [exact E|].
    destruct Htk as [Hno|(Htok & Htw & Hbl)].
    + assert (EL := lead_none _ _ Hno). destruct a as [|q a]; [auto|]. exfalso. apply Hno. rewrite E. cbn. apply Forall_inv in Ha. exact Ha.
    + assert (HaW : Forall (fun c => is_ws c = true) a) by (eapply Forall_impl; [|exact Ha]; exact Htw).
      split; [exact HaW|]. right. split; [|exact Htok].
      intros H0. rewrite H0, app_nil_r in E. assert (blank S = true); [|congruence]. unfold blank. apply forallb_forall. rewrite E. apply Forall_forall, HaW.
Qed.
End Run.

(** ** The code *)
Definition suffixb (s' s : list Z) : bool := if list_eq_dec Z.eq_dec (skipn (length s - length s') s) s' then true else false.
Lemma suffixb_ok s' s : suffixb s' s = true -> suffix s' s.
Proof.
  unfold suffixb. destruct (list_eq_dec _ _ _) as [H|]; [|discriminate]. intros _. exists (firstn (length s - length s') s).
  rewrite <- (firstn_skipn (length s - length s') s) at 1. rewrite H. reflexivity.
Qed.
Lemma suffixb_text a s : suffixb s (a ++ s) = true.
Proof.
  unfold suffixb. rewrite app_length, Nat.add_sub, skipn_app, skipn_all, Nat.sub_diag. cbn [app skipn]. destruct (list_eq_dec _ _ _); congruence.
Qed.
Definition guard {A} (x : outcome (A * list Z)) (s : list Z) : outcome (A * list Z) :=
  match x with Ok (_, s') => if suffixb s' s then x else Err EndOfInput | _ => x end.
Lemma guard_near {A} (x : outcome (A * list Z)) s : near err_any (guard x s) x.
Proof.
  destruct x as [[v s']|z| |]; cbn [guard]; try apply near_refl. destruct (suffixb s' s); [apply near_refl|apply near_err; exact I].
Qed.
Definition guarded (a : arg V) : arg V :=
  Arg V (ar_type a) (fun s => guard (ar_default a s) s) (fun s => guard (ar_plain a s) s) (fun sp s => guard (ar_specs a sp s) s) (ar_custom a).
Lemma guarded_better a : better err_any (guarded a) a.
Proof.
  constructor; cbn [guarded ar_type ar_default ar_plain ar_specs ar_custom]; intros; try apply guard_near.
  - split; reflexivity.
  - split; [reflexivity|apply near_refl].
Qed.
Lemma guarded_read i d s : read_arg V (map guarded args) i d s = guard (read_arg V args i d s) s.
Proof.
  unfold read_arg. rewrite (nth_error_map guarded). destruct (nth_error args (Z.to_nat i)) as [a|]; cbn [option_map]; [|reflexivity].
  destruct d; reflexivity.
Qed.
Lemma guarded_back id d ts next ws t x b : item items (index id next) = Some (t, x, b) -> W (Field id d :: ts) next ->
  clear (Field id d :: ts) next ws -> let s := printed ts (next + 1) in
  meant e (read_arg V (map guarded args)) (index id next) d (text e (printed (Field id d :: ts) next))
  = Ok (x, text e (after (lead (takes_any t d b) s) s)).
Proof.
  intros EI HW HC s. unfold meant. rewrite guarded_read.
  assert (H := field_reads_back id d ts next ws t x b EI HW HC). unfold meant in H. cbv zeta in H. rewrite H. cbn [guard]. fold s.
  cbn [PrintedSpec.printed]. rewrite EI. destruct (frame t d b) as [pre post]. fold s.
  replace (pre ++ b ++ post ++ s) with ((pre ++ b ++ post ++ lead (takes_any t d b) s) ++ after (lead (takes_any t d b) s) s)
    by (rewrite <- !app_assoc, lead_after; reflexivity).
  rewrite text_app, suffixb_text. reflexivity.
Qed.

Theorem scanned ts : c_enc cf = e -> (length items < 64)%nat -> Forall (fun i => printable (fst (fst i))) items -> uniform ts -> W ts 0 -> index_ok n ts 0 [] = true -> clear ts 0 false ->
  scan_with rx cf global lr r types (render e ts) (text e (printed ts 0)) = Ok (values ts 0, text e rest).
Proof.
  intros Hcf Hn Hpr Hu HW HI HC. unfold scan_with.
  apply (vscan_success r cf err_any (fun _ => I) (map guarded args) args).
  { assert (G : forall l : list (arg V), Forall2 (better err_any) (map guarded l) l) by (induction l; constructor; [apply guarded_better|assumption]). apply G. }
  apply VscanProperties.C18_tokens_partial.
  - split; [rewrite !map_length; exact Hn|]. split; [exact Hgood|]. split; [exact Hcf|]. split; [|split; [|split; [exact Hu|split]]].
    + intros i d s v s' _. rewrite guarded_read. destruct (read_arg V args i _ s) as [[v0 s0]|z| |]; cbn [guard]; try discriminate.
      destruct (suffixb s0 s) eqn:ES; [|discriminate]. intros [= _ <-]. apply suffixb_ok, ES.
    + apply Forall_forall. intros a Ha. apply in_map_iff in Ha. destruct Ha as (a0 & <- & Ha). apply in_map_iff in Ha. destruct Ha as (t & <- & Ht).
      apply in_map_iff in Ht. destruct Ht as (i & <- & Hi). rewrite Forall_forall in Hpr. specialize (Hpr i Hi).
      destruct (fst (fst i)); [reflexivity..|contradiction].
    + assert (G : forall ts next, W ts next -> wf_tokens e (spec_ok V r cf (map guarded args)) ts next); [|apply G, HW].
      induction ts0 as [|[c|id d] ts0 IH]; cbn [wf_gtokens]; intros next H; [exact I|split; [apply H|apply IH, H]|].
      destruct H as (H1 & H2 & H3). split; [exact H1|]. split; [|apply IH, H3]. intros d' Ed. specialize (H2 d' Ed). intros a Ea.
      rewrite !nth_error_map in Ea. unfold writable, item in H2.
      destruct (nth_error items _) as [[[t x] b]|]; [|discriminate]. injection Ea as <-. specialize (H2 t x b eq_refl).
      destruct t as [t| |]; [|contradiction..]. destruct H2 as (G1 & G2 & _). split; [exact G1|exact G2].
    + apply text_units. eapply printed_scalar; eauto.
  - unfold VscanProperties.expected, scan_spec. rewrite !map_length.
    apply (run_printed (meant e (read_arg V (map guarded args)))) with (log := []); trivial.
    + apply guarded_back.
    + exists []. auto.
Qed.
End Whole.
