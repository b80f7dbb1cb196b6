(** Proofs that narrow and wide scanning agree: two scans in step. *)
From Verif Require Import Prelude UnicodeModel UnicodeSpec ReadModel ReadProofs SpecsModel FormatModel FormatProofs ArgsModel
  CheckerProofs SpecsInvProofs WidthModel WidthSpec WidthProofs ArgReaderProofs ScalarProofs StringProofs VscanSpec VscanModel VscanSpecProofs EncodingProofs.
Local Open Scope Z_scope.

(** Two outcomes of the same kind. *)
Definition pair {X Y} (R : X -> Y -> Prop) (x : outcome X) (y : outcome Y) : Prop :=
  match x, y with
  | Ok a, Ok b => R a b
  | Err e, Err e' => e = e'
  | UB, UB | OutOfFuel, OutOfFuel => True
  | _, _ => False
  end.
Lemma pair_bind {X Y X' Y'} (R : X -> Y -> Prop) (S : X' -> Y' -> Prop) x y k k' :
  pair R x y -> (forall a b, R a b -> pair S (k a) (k' b)) -> pair S (bind x k) (bind y k').
Proof. intros H HK. destruct x, y; cbn in *; try contradiction; auto. Qed.

Section Sim.
Context {A B : Type} (h : handler A) (h' : handler B) (R : A -> B -> Prop).
Definition at_same (x : list Z * A) (y : list Z * B) : Prop := fst x = fst y /\ ascii_str (fst x) /\ R (snd x) (snd y).
Definition id_same (x : Z * A) (y : Z * B) : Prop := fst x = fst y /\ R (snd x) (snd y).
Definition id_at_same (x : list Z * Z * A) (y : list Z * Z * B) : Prop :=
  fst x = fst y /\ ascii_str (fst (fst x)) /\ R (snd x) (snd y).
Hypothesis Hlit : forall t a b, ascii_str t -> R a b -> pair R (h_literal h t a) (h_literal h' t b).
Hypothesis Hauto : forall a b, R a b -> pair id_same (h_auto_id h a) (h_auto_id h' b).
Hypothesis Hid : forall i a b, R a b -> pair id_same (h_id h i a) (h_id h' i b).
Hypothesis Hfield : forall i t a b, R a b -> pair R (h_field h i t a) (h_field h' i t b).
Hypothesis Hspecs : forall i t a b, ascii_str t -> R a b -> pair at_same (h_specs h i t a) (h_specs h' i t b).
Hypothesis Herror : forall a b, R a b -> pair R (h_error h a) (h_error h' b).
Hypothesis Hfailed : forall a b, R a b -> h_failed h a = h_failed h' b.

Lemma int_suffix s : forall v, suffix (snd (parse_simple_int_loop s v)) s.
Proof.
  induction s as [|c s IH]; intros v; cbn [parse_simple_int_loop]; [apply suffix_refl|].
  destruct (is_digit c); [|apply suffix_refl]. cbv zeta. destruct (_ <? _); [apply suffix_refl|apply suffix_cons, IH].
Qed.
Lemma arg_id_sim s a b : ascii_str s -> R a b -> pair id_at_same (parse_arg_id h s a) (parse_arg_id h' s b).
Proof.
  intros Hs HR. unfold parse_arg_id. destruct s as [|c s]; [exact I|]. destruct (_ && _).
  2: { eapply pair_bind; [apply Hauto, HR|]. intros [i a1] [j b1] [H1 H2]. cbn in H1, H2. subst j. cbn. repeat split; auto. }
  unfold do_parse_arg_id. destruct (_ || _).
  { eapply pair_bind; [apply Herror, HR|]. intros a1 b1 H1. cbn. repeat split; auto. }
  assert (E : match (if negb (c =? 48) then parse_simple_int (c :: s) else Ok (0, s)) with Ok (_, s2) => ascii_str s2 | _ => True end).
  { destruct (negb (c =? 48)); [|inversion Hs; assumption]. unfold parse_simple_int. destruct (is_digit c); [|exact I].
    assert (H := int_suffix (c :: s) 0). destruct (parse_simple_int_loop (c :: s) 0). eapply suffix_Forall; eassumption. }
  destruct (if negb (c =? 48) then _ else _) as [[idx s2]| | |]; cbn [bind pair]; auto.
  destruct s2 as [|d s2].
  { eapply pair_bind; [apply Herror, HR|]. intros a1 b1 H1. cbn. repeat split; auto. }
  destruct (_ && _).
  { eapply pair_bind; [apply Herror, HR|]. intros a1 b1 H1. cbn. repeat split; auto. }
  eapply pair_bind; [apply Hid, HR|]. intros [i a1] [j b1] [H1 H2]. cbn in H1, H2. subst j. cbn. repeat split; auto.
Qed.
Lemma replacement_sim s a b : ascii_str s -> R a b ->
  pair at_same (parse_replacement_field h s a) (parse_replacement_field h' s b).
Proof.
  assert (ERR : forall p a b, ascii_str p -> R a b -> pair at_same (st <- h_error h a ;; Ok (p, st)) (st <- h_error h' b ;; Ok (p, st))).
  { intros p a1 b1 Hp H1. eapply pair_bind; [apply Herror, H1|]. intros. cbn. repeat split; auto. }
  intros Hs HR. unfold parse_replacement_field. destruct Hs as [|x s _ Hs]; [exact I|].
  destruct s as [|c s]; [apply ERR; auto|]. inversion Hs as [|? ? Hc Hs']; subst. destruct (c =? 125).
  { eapply pair_bind; [apply Hauto, HR|]. intros [i a1] [j b1] [H1 H2]. cbn in H1, H2. subst j.
    eapply pair_bind; [apply Hfield, H2|]. intros. cbn. repeat split; auto. }
  destruct (c =? 123).
  { eapply pair_bind; [apply Hlit; [apply Forall_cons; [exact Hc|constructor]|exact HR]|]. intros. cbn. repeat split; auto. }
  eapply pair_bind; [apply arg_id_sim; [exact Hs|exact HR]|]. intros [[s1 i] a1] [[s2 j] b1] (H1 & H2 & H3). cbn in H1, H2, H3.
  injection H1 as <- <-. destruct s1 as [|d s1]; [apply ERR; auto|]. inversion H2 as [|? ? Hd Hs1]; subst. destruct (d =? 125).
  { eapply pair_bind; [apply Hfield, H3|]. intros. cbn. repeat split; auto. }
  destruct (d =? 58); [|apply ERR; auto]. destruct s1 as [|d1 s1]; [apply ERR; auto|].
  eapply pair_bind; [apply Hspecs; [exact Hs1|exact H3]|]. intros [p a2] [q b2] (E1 & E2 & E3). cbn in E1, E2, E3. subst q.
  destruct p as [|d2 p]; [apply ERR; auto|]. destruct (negb (d2 =? 125)); [apply ERR; auto|]. inversion E2; subst. split; [reflexivity|]. split; assumption.
Qed.
Lemma loop_sim : forall fuel begin it a b, ascii_str begin -> ascii_str it -> R a b ->
  pair R (parse_loop fuel h begin it a) (parse_loop fuel h' begin it b).
Proof.
  assert (BT : forall x y, ascii_str x -> ascii_str (between x y)) by (intros; apply Forall_firstn_ascii; assumption).
  induction fuel as [|f IH]; intros begin it a b HB HI HR.
  { destruct it; cbn [parse_loop]; [apply Hlit; assumption|exact I]. }
  destruct HI as [|c it Hc Hit]; cbn [parse_loop]; [apply Hlit; assumption|]. destruct (c =? 123).
  - eapply pair_bind; [apply Hlit; [apply BT, HB|exact HR]|]. intros a1 b1 H1.
    eapply pair_bind; [apply replacement_sim; [constructor; assumption|exact H1]|]. intros [p a2] [q b2] (E1 & E2 & E3). cbn in E1, E2, E3. subst q.
    rewrite (Hfailed a2 b2 E3). destruct (h_failed h' b2); [exact E3|apply IH; assumption].
  - destruct (c =? 125); [|apply IH; assumption]. destruct Hit as [|d it Hd Hit]; [apply Herror, HR|].
    destruct (negb (d =? 125)); [apply Herror, HR|].
    eapply pair_bind; [apply Hlit; [apply BT, HB|exact HR]|]. intros a1 b1 H1. apply IH; assumption.
Qed.
End Sim.

(** The narrow result [x] on the encoding of [cps] is the wide result [y] on [cps]. *)
Definition lift {V} (y : outcome (V * list Z)) : outcome (V * list Z) := '(v, l) <- y ;; Ok (v, text U8 l).
Definition twin {V} (cps : list Z) (x y : outcome (V * list Z)) : Prop :=
  x = lift y /\ forall v l, y = Ok (v, l) -> exists a, cps = a ++ l.

Lemma while_space_text r cps : whole r cps -> Forall scalar cps ->
  read_while_classic_space r (text (s_enc r) cps) = Ok (text (s_enc r) (after (lead is_ws cps) cps)).
Proof.
  intros HW HS. assert (H := skip_ws_text r cps true HW HS). unfold skip_classic_whitespace in H. cbn [negb andb] in H.
  destruct (read_while_classic_space r _); cbn [bind] in H; congruence.
Qed.
Lemma head_ascii cp cps : scalar cp ->
  exists d t, text U8 (cp :: cps) = d :: t /\ forall c, ascii c -> (d =? c) = (cp =? c) /\ (cp = c -> t = text U8 cps).
Proof.
  intros H. cbn [text flat_map]. fold (text U8 cps). destruct (encode_units U8 cp ltac:(discriminate) H) as [[H1 ->]|[H1 H2]].
  - exists cp, (text U8 cps). split; [reflexivity|]. intros c _. auto.
  - destruct (encode_lead U8 cp H) as (u & tl & E & _). rewrite E in *. exists u, (tl ++ text U8 cps). split; [reflexivity|].
    inversion H2; subst. intros c Hc. unfold ascii in Hc. split; [|lia]. destruct (Z.eqb_spec u c), (Z.eqb_spec cp c); lia.
Qed.

Section Twin.
Context {V : Type}.
Variables (r8 r32 : src) (cf8 cf32 : config).
Hypothesis He8 : s_enc r8 = U8.
Hypothesis He32 : s_enc r32 = U32.
Hypothesis Hcf : same_config cf8 cf32.
(** The texts scanned. *)
Variable Good : list Z -> Prop.
Hypothesis Hgood : forall cps, Good cps -> Forall scalar cps /\ whole r8 cps.
Hypothesis Hsuffix : forall a l, Good (a ++ l) -> Good l.
Variables args8 args32 : list (arg V).
Record twins (a8 a32 : arg V) : Prop := Twins {
  tw_type : ar_type a8 = ar_type a32;
  tw_typed : no_regex (ar_type a32);
  tw_default : forall cps, Good cps -> twin cps (ar_default a8 (text U8 cps)) (ar_default a32 cps);
  tw_plain : forall cps, Good cps -> twin cps (ar_plain a8 (text U8 cps)) (ar_plain a32 cps);
  tw_specs : ar_type a32 <> CustomType -> forall sp cps, ascii_specs sp -> parsed sp -> Good cps ->
    twin cps (ar_specs a8 sp (text U8 cps)) (ar_specs a32 sp cps);
  tw_custom : ar_type a32 = CustomType -> forall f cps, ascii_str f -> Good cps ->
    fst (ar_custom a8 f (text U8 cps)) = fst (ar_custom a32 f cps) /\ ascii_str (fst (ar_custom a32 f cps))
    /\ twin cps (snd (ar_custom a8 f (text U8 cps))) (snd (ar_custom a32 f cps)) }.
Hypothesis Hargs : Forall2 twins args8 args32.

Notation h8 := (format_handler V r8 cf8 args8).
Notation h32 := (format_handler V r32 cf32 args32).
Record same (a b : state V) : Prop := Same {
  sm_src : st_src a = text U8 (st_src b); sm_good : Good (st_src b); sm_pctx : ascii_str (st_pctx b);
  sm_rest : a = set_src V (st_src a) b }.
Lemma same_upd (f : state V -> state V) a b : same a b ->
  (forall s x, f (set_src V s x) = set_src V s (f x)) -> st_src (f b) = st_src b -> ascii_str (st_pctx (f b)) ->
  same (f a) (f b).
Proof.
  intros [H1 H2 H3 H4] HF HS HP.
  assert (E : f a = set_src V (st_src a) (f b)) by (rewrite H4, HF; reflexivity).
  constructor; rewrite ?HS; auto; rewrite E; [exact H1|reflexivity].
Qed.
Lemma same_error e a b : same a b -> same (on_error V e a) (on_error V e b).
Proof. intros H. apply (same_upd (on_error V e)); auto. apply (sm_pctx _ _ H). Qed.
Lemma same_src l a b : same a b -> Good l -> same (set_src V (text U8 l) a) (set_src V l b).
Proof. intros [H1 H2 H3 H4] HG. constructor; cbn; auto. rewrite H4. reflexivity. Qed.
Lemma args_len : length args8 = length args32.
Proof. induction Hargs as [|a b l l' H HL IH]; cbn; auto. Qed.
Lemma same_count : args_count V args8 = args_count V args32.
Proof. unfold args_count. rewrite args_len. reflexivity. Qed.
Lemma get_same i : match get_arg V args8 i, get_arg V args32 i with
  | Some a, Some b => twins a b | None, None => True | _, _ => False end.
Proof.
  unfold get_arg. generalize (Z.to_nat i). induction Hargs as [|a b l l' H HL IH]; intros n; destruct n; cbn [nth_error]; [exact I|exact I|exact H|apply IH; assumption].
Qed.
Ltac flds H := rewrite (sm_rest _ _ H).

Lemma literal_same : forall fuel t a b, ascii_str t -> same a b ->
  pair same (literal_loop V r8 fuel t a) (literal_loop V r32 fuel t b).
Proof.
  induction fuel as [|f IH]; intros t a b Ht HS; destruct Ht as [|c t Hc Ht]; cbn [literal_loop pair]; auto.
  rewrite (sm_src _ _ HS). assert (HG := sm_good _ _ HS). destruct (Hgood _ HG) as [HA HW].
  assert (L8 : lit_ok U8 c) by (unfold ascii in Hc; cbn; lia).
  assert (L32 : lit_ok U32 c) by (unfold ascii in Hc; cbn; unfold scalar; lia).
  destruct (st_src b) as [|cp cps] eqn:EB; [apply same_error, HS|].
  inversion HA as [|? ? Hcp Hcps]; subst. destruct (head_ascii cp cps Hcp) as (d & s & E & HD). rewrite E.
  rewrite He8, He32. destruct (first_char_lit U8 c t ltac:(discriminate) L8) as [-> HI]. destruct (first_char_lit U32 c t ltac:(discriminate) L32) as [-> _].
  cbn [bind]. rewrite HI. destruct (is_cp_space c).
  - assert (E8 := while_space_text r8 (cp :: cps) HW HA). rewrite He8, E in E8. rewrite E8. cbn [bind].
    assert (E32 := while_space_text r32 (cp :: cps) (wide_whole r32 _ ltac:(congruence)) HA). rewrite He32, text32, text32 in E32. rewrite E32. cbn [bind].
    assert (HSt : Forall scalar t). { eapply Forall_impl; [|exact Ht]. intros x Hx. unfold ascii in Hx. unfold scalar. lia. }
    assert (ET : forall e, text e t = t) by (intros e; apply ascii_text_enc, Ht).
    assert (EL : forall r, s_enc (format_src r) <> U16 -> read_while_classic_space (format_src r) t = Ok (after (lead is_ws t) t)).
    { intros r _. assert (X := while_space_text (format_src r) t (contig_whole (format_src r) t eq_refl) HSt). rewrite ET in X. rewrite X. f_equal.
      apply ascii_text_enc. apply (suffix_Forall _ _ t); [|exact Ht]. apply lead_suffix. }
    rewrite !EL by (cbn; congruence). cbn [bind]. apply IH; [apply (suffix_Forall _ _ t); [apply lead_suffix|exact Ht]|].
    apply same_src; [exact HS|]. destruct (lead_suffix is_ws (cp :: cps)) as [pre EP]. rewrite EP in HG. eapply Hsuffix, HG.
  - destruct (HD c Hc) as [-> HT]. destruct (Z.eqb_spec cp c) as [EQ|NE]; cbn [negb]; [|apply same_error, HS].
    rewrite (HT EQ). apply IH; [exact Ht|]. apply same_src; [exact HS|]. apply (Hsuffix [cp]), HG.
Qed.
Lemma visited_same i a b : same a b -> pair same (set_arg_as_visited V args8 i (note_missing V args8 i a)) (set_arg_as_visited V args32 i (note_missing V args32 i b)).
Proof.
  intros HS. assert (HN : same (note_missing V args8 i a) (note_missing V args32 i b)).
  { unfold note_missing. assert (H := get_same i). destruct (get_arg V args8 i), (get_arg V args32 i); try tauto; auto. apply same_error, HS. }
  revert HN. generalize (note_missing V args8 i a) (note_missing V args32 i b). clear a b HS. intros a b HS.
  unfold set_arg_as_visited. rewrite same_count. destruct (_ <=? i); [apply same_error, HS|].
  assert (EL : st_low a = st_low b) by (flds HS; reflexivity). assert (EU : st_upper a = st_upper b) by (flds HS; reflexivity). rewrite EL, EU.
  assert (UPD : forall l u x y, same x y -> same (set_visited V l u x) (set_visited V l u y)).
  { intros l u x y Hxy. apply (same_upd (set_visited V l u)); auto. apply (sm_pctx _ _ Hxy). }
  assert (STE : st_low (if Z.testbit (st_low b) i then on_error V InvalidFormatString a else a) = st_low (if Z.testbit (st_low b) i then on_error V InvalidFormatString b else b)
    /\ st_upper (if Z.testbit (st_low b) i then on_error V InvalidFormatString a else a) = st_upper (if Z.testbit (st_low b) i then on_error V InvalidFormatString b else b)).
  { destruct (Z.testbit _ _); cbn; auto. }
  destruct (i <? 64); cbv zeta.
  - destruct STE as [-> ->]. apply UPD. destruct (Z.testbit _ _); [apply same_error|]; exact HS.
  - destruct (nth_error _ _) as [y|]; [|exact I]. destruct (set_nth _ _ _) as [u|]; [|exact I].
    assert (EL2 : st_low (if Z.testbit y ((i - 64) mod 8) then on_error V InvalidFormatString a else a) = st_low (if Z.testbit y ((i - 64) mod 8) then on_error V InvalidFormatString b else b)).
    { destruct (Z.testbit y _); cbn; auto. }
    rewrite EL2. apply UPD. destruct (Z.testbit y _); [apply same_error|]; exact HS.
Qed.
Lemma failed_same a b : same a b -> failed V a = failed V b.
Proof. intros H. flds H. reflexivity. Qed.
Lemma finish_same i x y a b : same a b -> twin (st_src b) x y -> pair same (finish_visit V i x a) (finish_visit V i y b).
Proof.
  intros HS [-> HT]. destruct y as [[v l]|e| |]; [|exact (same_error e a b HS)|exact I|exact I]. cbn [lift bind finish_visit pair].
  destruct (HT v l eq_refl) as [p E]. assert (HG := sm_good _ _ HS). rewrite E in HG. apply Hsuffix in HG.
  assert (H := same_src l a b HS HG). apply (same_upd (add_log V (i, v))) in H; auto. apply (sm_pctx _ _ HS).
Qed.
Lemma field_same i t a b : same a b -> pair same (on_replacement_field V args8 i t a) (on_replacement_field V args32 i t b).
Proof.
  intros HS. unfold on_replacement_field. eapply pair_bind; [apply visited_same, HS|]. intros a1 b1 H1.
  rewrite (failed_same _ _ H1). destruct (failed V b1); [exact H1|]. assert (H := get_same i).
  destruct (get_arg V args8 i) as [x|], (get_arg V args32 i) as [y|]; try contradiction; [|exact H1].
  rewrite (sm_src _ _ H1). apply finish_same; [exact H1|]. apply (tw_default _ _ H), (sm_good _ _ H1).
Qed.
Lemma pctx_same p a b : same a b -> ascii_str p -> same (set_pctx V p a) (set_pctx V p b).
Proof. intros H Hp. apply (same_upd (set_pctx V p)); auto. Qed.
Lemma specs_same i t a b : ascii_str t -> same a b ->
  pair (at_same same) (on_format_specs V cf8 args8 i t a) (on_format_specs V cf32 args32 i t b).
Proof.
  assert (AT : forall p a b, ascii_str p -> same a b -> at_same same (p, a) (p, b)).
  { intros p x y Hp Hx. split; [reflexivity|]. split; assumption. }
  intros Ht HS. unfold on_format_specs. eapply pair_bind; [apply visited_same, HS|]. clear a b HS. intros a b HS.
  assert (H := get_same i).
  destruct (get_arg V args8 i) as [x|] eqn:EX, (get_arg V args32 i) as [y|] eqn:EY; try tauto.
  - rewrite (tw_type _ _ H). destruct (arg_eqb (ar_type y) CustomType) eqn:ET.
    + assert (EC : ar_type y = CustomType) by (destruct (ar_type y); try reflexivity; discriminate ET).
      cbv zeta. assert (H1 := pctx_same t a b HS Ht). rewrite (failed_same _ _ H1). destruct (failed V (set_pctx V t b)); [exact (AT _ _ _ Ht H1)|].
      assert (EM : st_mixed (set_pctx V t a) = st_mixed (set_pctx V t b)) by (flds H1; reflexivity). rewrite EM.
      destruct (st_mixed (set_pctx V t b)).
      * cbn. split; [reflexivity|]. split; [exact Ht|]. cbn. apply same_error. apply (pctx_same t _ _ H1 Ht).
      * rewrite (sm_src _ _ H1). destruct (tw_custom _ _ H EC t _ Ht (sm_good _ _ H1)) as (E1 & E2 & E3).
        destruct (ar_custom x t _) as [p x1], (ar_custom y t _) as [q y1]. cbn [fst snd] in *. subst q.
        eapply pair_bind; [apply finish_same; [apply pctx_same; [exact H1|exact E2]|exact E3]|].
        intros a2 b2 H2. exact (AT _ _ _ E2 H2).
    + assert (NC : ar_type y <> CustomType) by (intros E; rewrite E in ET; discriminate).
      destruct (specs_ascii cf8 cf32 (ar_type y) t Hcf Ht) as [ES HA]. rewrite ES.
      destruct (parse_format_specs_safe cf32 (ar_type y) t (SS specs_default false) (tw_typed _ _ H)) as (s1 & st1 & EP & HSf).
      assert (HP := parse_parsed _ _ _ _ _ EP). rewrite EP in HA |- *. cbn [bind].
      assert (H1 := suffix_Forall _ _ _ HSf Ht).
      assert (EPC : st_pctx a = st_pctx b) by (flds HS; reflexivity). rewrite EPC.
      destruct s1 as [|c s1]; [exact (AT _ _ _ (sm_pctx _ _ HS) (same_error _ _ _ HS))|].
      destruct (negb (c =? 125)); [cbn; split; [reflexivity|]; split; [apply (sm_pctx _ _ HS)|apply same_error, HS]|].
      destruct (ss_err st1); [cbn; split; [reflexivity|]; split; [apply (sm_pctx _ _ HS)|exact HS]|].
      cbv zeta. assert (H2 := pctx_same (c :: s1) a b HS H1). rewrite (failed_same _ _ H2). destruct (failed V _); [exact (AT _ _ _ H1 H2)|].
      rewrite (sm_src _ _ H2). eapply pair_bind; [apply finish_same; [exact H2|apply (tw_specs _ _ H NC); [exact HA|exact HP|apply (sm_good _ _ H2)]]|].
      intros a2 b2 H3. exact (AT _ _ _ H1 H3).
  - change (arg_eqb NoneType CustomType) with false. cbv iota.
    destruct (specs_ascii cf8 cf32 NoneType t Hcf Ht) as [ES HA]. rewrite ES.
    destruct (parse_format_specs_safe cf32 NoneType t (SS specs_default false) ltac:(split; discriminate)) as (s1 & st1 & EP & HSf).
    rewrite EP. cbn [bind]. assert (H1 := suffix_Forall _ _ _ HSf Ht).
    assert (EPC : st_pctx a = st_pctx b) by (flds HS; reflexivity). rewrite EPC.
    destruct s1 as [|c s1]; [exact (AT _ _ _ (sm_pctx _ _ HS) (same_error _ _ _ HS))|].
    destruct (negb (c =? 125)); [cbn; split; [reflexivity|]; split; [apply (sm_pctx _ _ HS)|apply same_error, HS]|].
    destruct (ss_err st1); [cbn; split; [reflexivity|]; split; [apply (sm_pctx _ _ HS)|exact HS]|].
    cbv zeta. assert (H2 := pctx_same (c :: s1) a b HS H1). rewrite (failed_same _ _ H2). destruct (failed V _); exact (AT _ _ _ H1 H2).
Qed.

Theorem vscan_twin format cps : ascii_str format -> Good cps ->
  vscan V r8 cf8 args8 format (text U8 cps) = lift (vscan V r32 cf32 args32 format cps).
Proof.
  intros HF HG. unfold vscan. rewrite same_count. destruct (is_simple format && _).
  { unfold scan_simple_single_argument. assert (H := get_same 0).
    destruct (get_arg V args8 0) as [x|], (get_arg V args32 0) as [y|]; try contradiction; [|reflexivity].
    destruct (tw_plain _ _ H cps HG) as [-> _]. destruct (ar_plain y cps) as [[v l]| | |]; reflexivity. }
  unfold vscan_parse_format_string, parse_format_string_impl.
  assert (EF : vscan_fuel V args8 format = vscan_fuel V args32 format).
  { unfold vscan_fuel. rewrite (args_len). reflexivity. }
  rewrite EF.
  assert (H0 : same (init_state V args8 format (text U8 cps)) (init_state V args32 format cps)).
  { constructor; cbn; auto. unfold init_state. rewrite same_count. reflexivity. }
  assert (H := loop_sim h8 h32 same).
  assert (P : pair same (parse_loop (vscan_fuel V args32 format) h8 format format (init_state V args8 format (text U8 cps)))
                   (parse_loop (vscan_fuel V args32 format) h32 format format (init_state V args32 format cps))).
  { apply H; cbn [format_handler h_literal h_auto_id h_id h_field h_specs h_error h_failed]; try assumption.
    - intros t a b Ht HS. apply literal_same; assumption.
    - intros a b HS. unfold next_arg_id. assert (E : st_next a = st_next b) by (flds HS; reflexivity). rewrite E.
      destruct (_ <? 0); cbn; (split; [reflexivity|]); cbn.
      + apply (same_upd (set_mixed V)); auto. apply (sm_pctx _ _ HS).
      + apply (same_upd (set_next V (st_next b + 1))); auto. apply (sm_pctx _ _ HS).
    - intros i a b HS. unfold check_arg_id. assert (E : st_next a = st_next b) by (flds HS; reflexivity). rewrite E.
      destruct (0 <? _); cbn; (split; [reflexivity|]); cbn.
      + apply (same_upd (set_mixed V)); auto. apply (sm_pctx _ _ HS).
      + apply (same_upd (set_next V (-1))); auto. apply (sm_pctx _ _ HS).
    - intros i t a b HS. apply field_same, HS.
    - intros i t a b Ht HS. apply specs_same; assumption.
    - intros a b HS. apply same_error, HS.
    - intros a b HS. apply failed_same, HS. }
  assert (P2 : pair same (st <- parse_loop (vscan_fuel V args32 format) h8 format format (init_state V args8 format (text U8 cps)) ;; check_args_exhausted V args8 st)
                    (st <- parse_loop (vscan_fuel V args32 format) h32 format format (init_state V args32 format cps) ;; check_args_exhausted V args32 st)).
  { eapply pair_bind; [exact P|]. intros a b HS. unfold check_args_exhausted. rewrite same_count.
    assert (EL : st_low a = st_low b) by (flds HS; reflexivity). assert (EU : st_upper a = st_upper b) by (flds HS; reflexivity). rewrite EL, EU.
    cbv zeta. destruct (negb _); [apply same_error, HS|]. destruct (_ <? 64); [exact HS|].
    destruct (check_upper _ _) as [[|[p|p|]|p]|]; first [exact I|exact HS|apply same_error, HS]. }
  revert P2. clear P. unfold lift. 
  destruct (parse_loop _ h8 format format _) as [a0| | |]; destruct (parse_loop _ h32 format format _) as [b0| | |]; cbn [bind pair]; try tauto; try congruence.
  - destruct (check_args_exhausted V args8 a0) as [a1| | |], (check_args_exhausted V args32 b0) as [b1| | |]; cbn [bind pair]; try tauto; try congruence.
    intros HS. assert (EE : st_error a1 = st_error b1) by (flds HS; reflexivity). assert (ELog : st_log a1 = st_log b1) by (flds HS; reflexivity).
    rewrite EE, ELog, (sm_src _ _ HS). destruct (st_error b1); reflexivity.
  - destruct (check_args_exhausted V args8 a0); cbn [bind pair]; try tauto; congruence.
  - destruct (check_args_exhausted V args8 a0); cbn [bind pair]; tauto.
  - destruct (check_args_exhausted V args8 a0); cbn [bind pair]; tauto.
  - destruct (check_args_exhausted V args32 b0); cbn [bind pair]; try tauto; congruence.
  - destruct (check_args_exhausted V args32 b0); cbn [bind pair]; tauto.
  - destruct (check_args_exhausted V args32 b0); cbn [bind pair]; tauto.
Qed.
End Twin.
