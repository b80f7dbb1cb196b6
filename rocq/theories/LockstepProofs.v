(** Proofs about two scans in step: related sources, any format string. *)
From Verif Require Import Prelude UnicodeModel UnicodeSpec ReadModel ReadProofs SpecsModel FormatModel FormatProofs ArgsModel
  CheckerProofs RangesModel RangesProofs VscanModel VscanProofs VscanSpecProofs EncodingLoopProofs CaseSpec.
Local Open Scope Z_scope.

(** ** Positions in a format string *)
Section Literals.
Variable okch : Z -> Prop.
Notation lits := (lits okch).
Lemma lits_brace : forall n p q b, (length p <= n)%nat -> lits b (p ++ 125 :: q) -> lits false q.
Proof.
  induction n as [|n IH]; intros p q b Hn H.
  - destruct p; [|cbn in Hn; lia]. cbn in H. destruct b; [exact H|]. apply H.
  - destruct p as [|c p]; [cbn in H; destruct b; [exact H|]; apply H|]. cbn in Hn. cbn [app CaseSpec.lits] in H. destruct b; [eapply IH; [|exact H]; lia|].
    destruct (c =? 123); [|eapply IH; [|apply H]; lia].
    destruct p as [|d p]; cbn [app] in H; [exact H|]. destruct (d =? 123); [eapply IH; [|apply H]; cbn in Hn; lia|]. eapply (IH (d :: p)); [|exact H]. lia.
Qed.
Lemma lits_after F q : lits false F -> suffix (125 :: q) F -> lits false q.
Proof. intros H [p ->]. eapply lits_brace; [apply Nat.le_refl|exact H]. Qed.
End Literals.

(** Outcomes of the same kind, with errors related by [E]. *)
Definition pairE {X Y} (E : err -> err -> Prop) (R : X -> Y -> Prop) (x : outcome X) (y : outcome Y) : Prop :=
  match x, y with
  | Ok a, Ok b => R a b
  | Err e, Err e' => E e e'
  | UB, UB | OutOfFuel, OutOfFuel => True
  | _, _ => False
  end.
Lemma pairE_bind {X Y X' Y'} E (R : X -> Y -> Prop) (S : X' -> Y' -> Prop) x y k k' :
  pairE E R x y -> (forall a b, R a b -> pairE E S (k a) (k' b)) -> pairE E S (bind x k) (bind y k').
Proof. intros H HK. destruct x, y; cbn in *; try contradiction; auto. Qed.
(** The same value, and related texts left. *)
Definition stepE {X} (E : err -> err -> Prop) (Rel : list Z -> list Z -> Prop) (x y : outcome (X * list Z)) : Prop :=
  pairE E (fun a b => fst a = fst b /\ Rel (snd a) (snd b)) x y.
Notation step := (stepE eq).

Section Step.
Context {V : Type}.
Variable er : err -> err -> Prop.
Hypothesis Her : forall e, er e e.
Variables (r r' : src) (cf : config) (F : list Z).
Hypothesis He : s_enc r = s_enc r'.
(** The sources, what literal text may contain, what specs there are in the format. *)
Variable Rel : list Z -> list Z -> Prop.
Variable okch hard : Z -> Prop.
Variable SpOK : specs -> Prop.
Hypothesis HF : lits okch false F.
Hypothesis Hunits : forall t, Forall okch t -> units (s_enc r') t.
Hypothesis Hempty : forall s, (Rel [] s -> s = []) /\ (Rel s [] -> s = []).
Hypothesis Hhard : forall c t after cp sp, okch c -> is_first_char_space (s_enc r') (c :: t) = Ok (after, cp, sp) -> sp = false -> hard c.
Hypothesis Hhead : forall c d s d' s', hard c -> Rel (d :: s) (d' :: s') -> (d =? c) = (d' =? c) /\ (d = c -> Rel s s').
Hypothesis Hspace : forall s s', Rel s s' -> pairE er Rel (read_while_classic_space r s) (read_while_classic_space r' s').
Variables args args' : list (arg V).
Record steps (a a' : arg V) : Prop := Steps {
  sp_type : ar_type a = ar_type a';
  sp_default : forall s s', Rel s s' -> stepE er Rel (ar_default a s) (ar_default a' s');
  sp_plain : forall s s', Rel s s' -> stepE er Rel (ar_plain a s) (ar_plain a' s');
  sp_specs : ar_type a' <> CustomType -> forall sp s s', SpOK sp -> Rel s s' -> stepE er Rel (ar_specs a sp s) (ar_specs a' sp s');
  sp_custom : ar_type a' = CustomType -> forall f s s', suffix (58 :: f) F -> Rel s s' ->
    fst (ar_custom a f s) = fst (ar_custom a' f s') /\ suffix (fst (ar_custom a' f s')) F /\ stepE er Rel (snd (ar_custom a f s)) (snd (ar_custom a' f s')) }.
Hypothesis Hargs : Forall2 steps args args'.
Hypothesis Htypes : forall t, In t (NoneType :: map ar_type args') -> t <> CustomType -> forall f p st, suffix (58 :: f) F ->
  parse_format_specs cf t f (SS specs_default false) = Ok (p, st) -> suffix p F /\ SpOK (ss_specs st).

Notation h := (format_handler V r cf args).
Notation h' := (format_handler V r' cf args').
Definition set_err (x : option err) (st : state V) : state V :=
  St V x (st_low st) (st_upper st) (st_next st) (st_mixed st) (st_pctx st) (st_src st) (st_log st).
Definition rel_err (x y : option err) : Prop := match x, y with Some e, Some e' => er e e' | None, None => True | _, _ => False end.
Record same (a b : state V) : Prop := Same {
  sm_src : Rel (st_src a) (st_src b); sm_pctx : suffix (st_pctx b) F; sm_err : rel_err (st_error a) (st_error b);
  sm_rest : a = set_err (st_error a) (set_src V (st_src a) b) }.
Lemma same_upd (f : state V -> state V) a b : same a b ->
  (forall y s x, f (set_err y (set_src V s x)) = set_err y (set_src V s (f x))) -> st_src (f b) = st_src b -> st_error (f b) = st_error b ->
  suffix (st_pctx (f b)) F -> same (f a) (f b).
Proof.
  intros [H1 H2 H3 H4] Hf HS HX HP.
  assert (E : f a = set_err (st_error a) (set_src V (st_src a) (f b))) by (rewrite H4 at 1; apply Hf).
  constructor; [rewrite HS, E; exact H1|exact HP|rewrite HX, E; exact H3|rewrite E; reflexivity].
Qed.
Lemma same_errors e e' a b : er e e' -> same a b -> same (on_error V e a) (on_error V e' b).
Proof. intros HE [H1 H2 H3 H4]. constructor; cbn; auto. rewrite H4. reflexivity. Qed.
Lemma same_error e a b : same a b -> same (on_error V e a) (on_error V e b).
Proof. apply same_errors, Her. Qed.
Lemma same_src l l' a b : same a b -> Rel l l' -> same (set_src V l a) (set_src V l' b).
Proof. intros [H1 H2 H3 H4] HG. constructor; cbn; auto. rewrite H4. reflexivity. Qed.
Lemma args_len : length args = length args'.
Proof. clear Htypes. induction Hargs as [|a b l l' H HL IH]; cbn; auto. Qed.
Lemma same_count : args_count V args = args_count V args'.
Proof. unfold args_count. rewrite args_len. reflexivity. Qed.
Lemma get_same i : match get_arg V args i, get_arg V args' i with
  | Some a, Some b => steps a b /\ In (ar_type b) (map ar_type args') | None, None => True | _, _ => False end.
Proof.
  unfold get_arg. generalize (Z.to_nat i) as n. assert (HI : forall n b, nth_error args' n = Some b -> In (ar_type b) (map ar_type args')).
  { intros n b E. apply in_map. eapply nth_error_In, E. }
  assert (H : forall n, match nth_error args n, nth_error args' n with Some a, Some b => steps a b | None, None => True | _, _ => False end).
  { clear HI Htypes. induction Hargs as [|a b l l' H HL IH]; intros n; destruct n; cbn [nth_error]; auto. apply IH, HL. }
  intros n. specialize (H n). specialize (HI n). destruct (nth_error args n), (nth_error args' n); auto.
Qed.
Ltac flds H := rewrite (sm_rest _ _ H).

Lemma literal_same : forall fuel t a b, Forall okch t -> same a b ->
  pairE er same (literal_loop V r fuel t a) (literal_loop V r' fuel t b).
Proof.
  induction fuel as [|f IH]; intros t a b Ht HS; destruct Ht as [|c t Hc Ht]; cbn [literal_loop pairE]; auto.
  assert (HR := sm_src _ _ HS). destruct (st_src a) as [|d s] eqn:EA, (st_src b) as [|d' s'] eqn:EB.
  - apply same_error, HS.
  - apply Hempty in HR. discriminate HR.
  - apply Hempty in HR. discriminate HR.
  - rewrite He. destruct (is_first_char_space_total (s_enc r') c t) as (after & cp & EF & HA). rewrite EF. cbn [bind].
    destruct (cp =? invalid_code_point); [apply same_error, HS|]. destruct (is_cp_space cp) eqn:EW.
    + eapply pairE_bind; [apply Hspace, HR|]. intros l l' HL.
      assert (EG : format_src r = format_src r') by (unfold format_src; rewrite He; reflexivity). rewrite EG.
      assert (HA' := suffix_Forall _ _ _ HA Ht).
      destruct (read_while_classic_space_total (format_src r') after) as (t' & -> & HT); [apply Hunits, HA'|]. cbn [bind].
      apply IH; [apply (suffix_Forall _ _ _ HT HA')|apply same_src; assumption].
    + assert (Hh := Hhard c t after cp _ Hc EF eq_refl). destruct (Hhead c d s d' s' Hh HR) as [-> HT]. destruct (Z.eqb_spec d' c) as [E|E]; cbn [negb]; [|apply same_error, HS].
      apply IH; [exact Ht|]. apply same_src; [exact HS|]. apply HT. destruct (Hhead c d s d' s' Hh HR) as [E' _]. apply Z.eqb_eq. rewrite E'. apply Z.eqb_eq, E.
Qed.
Lemma visited_same i a b : same a b -> pairE er same (set_arg_as_visited V args i (note_missing V args i a)) (set_arg_as_visited V args' i (note_missing V args' i b)).
Proof.
  intros HS. assert (HN : same (note_missing V args i a) (note_missing V args' i b)).
  { unfold note_missing. assert (H := get_same i). destruct (get_arg V args i), (get_arg V args' i); try tauto; auto. apply same_error, HS. }
  revert HN. generalize (note_missing V args i a) (note_missing V args' i b). clear a b HS. intros a b HS.
  unfold set_arg_as_visited. rewrite same_count. destruct (_ <=? i); [apply same_error, HS|].
  assert (EL : st_low a = st_low b) by (flds HS; reflexivity). assert (EU : st_upper a = st_upper b) by (flds HS; reflexivity). rewrite EL, EU.
  assert (UPD : forall l u x y, same x y -> same (set_visited V l u x) (set_visited V l u y)).
  { intros l u x y Hxy. apply (same_upd (set_visited V l u)); auto. apply (sm_pctx _ _ Hxy). }
  assert (STE : st_low (if Z.testbit (st_low b) i then on_error V InvalidFormatString a else a) = st_low (if Z.testbit (st_low b) i then on_error V InvalidFormatString b else b)
    /\ st_upper (if Z.testbit (st_low b) i then on_error V InvalidFormatString a else a) = st_upper (if Z.testbit (st_low b) i then on_error V InvalidFormatString b else b)).
  { destruct (Z.testbit _ _); cbn; auto. }
  destruct (i <? 64); cbv zeta.
  - destruct STE as [-> ->]. apply UPD. destruct (Z.testbit _ _); [apply same_error|]; exact HS.
  - destruct (nth_error _ _) as [y|]; [|exact I]. destruct (set_nth _ _ _) as [u|]; [|exact I].
    assert (EL2 : st_low (if Z.testbit y ((i - 64) mod 8) then on_error V InvalidFormatString a else a) = st_low (if Z.testbit y ((i - 64) mod 8) then on_error V InvalidFormatString b else b)).
    { destruct (Z.testbit y _); cbn; auto. }
    rewrite EL2. apply UPD. destruct (Z.testbit y _); [apply same_error|]; exact HS.
Qed.
Lemma failed_same a b : same a b -> failed V a = failed V b.
Proof. intros H. assert (HX := sm_err _ _ H). unfold failed, rel_err in *. destruct (st_error a), (st_error b); tauto. Qed.
Lemma finish_same i x y a b : same a b -> stepE er Rel x y -> pairE er same (finish_visit V i x a) (finish_visit V i y b).
Proof.
  intros HS HX. destruct x as [[v l]|e| |], y as [[w l']|e'| |]; try contradiction; try exact I.
  - destruct HX as [E HR]. cbn in E, HR. subst w. cbn [finish_visit pairE].
    assert (H := same_src l l' a b HS HR). apply (same_upd (add_log V (i, v))) in H; auto. apply (sm_pctx _ _ HS).
  - exact (same_errors e e' a b HX HS).
Qed.
Lemma field_same i t a b : same a b -> pairE er same (on_replacement_field V args i t a) (on_replacement_field V args' i t b).
Proof.
  intros HS. unfold on_replacement_field. eapply pairE_bind; [apply visited_same, HS|]. intros a1 b1 H1.
  rewrite (failed_same _ _ H1). destruct (failed V b1); [exact H1|]. assert (H := get_same i).
  destruct (get_arg V args i) as [x|], (get_arg V args' i) as [y|]; try contradiction; [|exact H1]. destruct H as [H _].
  apply finish_same; [exact H1|]. apply (sp_default _ _ H), (sm_src _ _ H1).
Qed.
Lemma pctx_same p a b : same a b -> suffix p F -> same (set_pctx V p a) (set_pctx V p b).
Proof. intros H Hp. apply (same_upd (set_pctx V p)); auto. Qed.
Definition at_same (x y : list Z * state V) : Prop := fst x = fst y /\ suffix (fst x) F /\ same (snd x) (snd y).
Lemma specs_same i t a b : suffix (58 :: t) F -> same a b ->
  pairE er at_same (on_format_specs V cf args i t a) (on_format_specs V cf args' i t b).
Proof.
  assert (AT : forall p a b, suffix p F -> same a b -> at_same (p, a) (p, b)).
  { intros p x y Hp Hx. split; [reflexivity|]. split; assumption. }
  intros Ht HS. assert (Ht' := suffix_cons_inv _ _ _ Ht). unfold on_format_specs. eapply pairE_bind; [apply visited_same, HS|]. clear a b HS. intros a b HS.
  assert (H := get_same i).
  destruct (get_arg V args i) as [x|] eqn:EX, (get_arg V args' i) as [y|] eqn:EY; try tauto.
  - destruct H as [H HIn]. rewrite (sp_type _ _ H). destruct (arg_eqb (ar_type y) CustomType) eqn:ET.
    + assert (EC : ar_type y = CustomType) by (destruct (ar_type y); try reflexivity; discriminate ET).
      cbv zeta. assert (H1 := pctx_same t a b HS Ht'). rewrite (failed_same _ _ H1). destruct (failed V (set_pctx V t b)); [exact (AT _ _ _ Ht' H1)|].
      assert (EM : st_mixed (set_pctx V t a) = st_mixed (set_pctx V t b)) by (flds H1; reflexivity). rewrite EM.
      destruct (st_mixed (set_pctx V t b)).
      * cbn. split; [reflexivity|]. split; [exact Ht'|]. cbn. apply same_error. apply (pctx_same t _ _ H1 Ht').
      * destruct (sp_custom _ _ H EC t _ _ Ht (sm_src _ _ H1)) as (E1 & E2 & E3).
        destruct (ar_custom x t _) as [p x1], (ar_custom y t _) as [q y1]. cbn [fst snd] in *. subst q.
        eapply pairE_bind; [apply finish_same; [apply pctx_same; [exact H1|exact E2]|exact E3]|].
        intros a2 b2 H2. exact (AT _ _ _ E2 H2).
    + assert (NC : ar_type y <> CustomType) by (intros E; rewrite E in ET; discriminate).
      destruct (parse_format_specs cf (ar_type y) t (SS specs_default false)) as [[s1 st1]| | |] eqn:EP; cbn [bind pairE]; auto.
      destruct (Htypes (ar_type y) (or_intror HIn) NC t s1 st1 Ht EP) as [HSf HSp].
      assert (EPC : st_pctx a = st_pctx b) by (flds HS; reflexivity). rewrite EPC.
      destruct s1 as [|c s1]; [exact (AT _ _ _ (sm_pctx _ _ HS) (same_error _ _ _ HS))|].
      destruct (negb (c =? 125)); [cbn; split; [reflexivity|]; split; [apply (sm_pctx _ _ HS)|apply same_error, HS]|].
      destruct (ss_err st1); [cbn; split; [reflexivity|]; split; [apply (sm_pctx _ _ HS)|exact HS]|].
      cbv zeta. assert (H2 := pctx_same (c :: s1) a b HS HSf). rewrite (failed_same _ _ H2). destruct (failed V _); [exact (AT _ _ _ HSf H2)|].
      eapply pairE_bind; [apply finish_same; [exact H2|apply (sp_specs _ _ H NC); [exact HSp|apply (sm_src _ _ H2)]]|].
      intros a2 b2 H3. exact (AT _ _ _ HSf H3).
  - change (arg_eqb NoneType CustomType) with false. cbv iota.
    destruct (parse_format_specs cf NoneType t (SS specs_default false)) as [[s1 st1]| | |] eqn:EP; cbn [bind pairE]; auto.
    destruct (Htypes NoneType (or_introl eq_refl) ltac:(discriminate) t s1 st1 Ht EP) as [HSf HSp].
    assert (EPC : st_pctx a = st_pctx b) by (flds HS; reflexivity). rewrite EPC.
    destruct s1 as [|c s1]; [exact (AT _ _ _ (sm_pctx _ _ HS) (same_error _ _ _ HS))|].
    destruct (negb (c =? 125)); [cbn; split; [reflexivity|]; split; [apply (sm_pctx _ _ HS)|apply same_error, HS]|].
    destruct (ss_err st1); [cbn; split; [reflexivity|]; split; [apply (sm_pctx _ _ HS)|exact HS]|].
    cbv zeta. assert (H2 := pctx_same (c :: s1) a b HS HSf). rewrite (failed_same _ _ H2). destruct (failed V _); exact (AT _ _ _ HSf H2).
Qed.
Definition id_same (x y : Z * state V) : Prop := fst x = fst y /\ same (snd x) (snd y).
Lemma auto_same a b : same a b -> pairE er id_same (next_arg_id V a) (next_arg_id V b).
Proof.
  intros HS. unfold next_arg_id. assert (E : st_next a = st_next b) by (flds HS; reflexivity). rewrite E.
  destruct (_ <? 0); cbn; (split; [reflexivity|]); cbn.
  - apply (same_upd (set_mixed V)); auto. apply (sm_pctx _ _ HS).
  - apply (same_upd (set_next V (st_next b + 1))); auto. apply (sm_pctx _ _ HS).
Qed.
Lemma id_same_ok i a b : same a b -> pairE er id_same (check_arg_id V i a) (check_arg_id V i b).
Proof.
  intros HS. unfold check_arg_id. assert (E : st_next a = st_next b) by (flds HS; reflexivity). rewrite E.
  destruct (0 <? _); cbn; (split; [reflexivity|]); cbn.
  - apply (same_upd (set_mixed V)); auto. apply (sm_pctx _ _ HS).
  - apply (same_upd (set_next V (-1))); auto. apply (sm_pctx _ _ HS).
Qed.
Lemma lit_same t a b : Forall okch t -> same a b -> pairE er same (on_literal_text V r t a) (on_literal_text V r' t b).
Proof. intros. apply literal_same; assumption. Qed.
Definition id_at (x y : list Z * Z * state V) : Prop := fst x = fst y /\ suffix (fst (fst x)) F /\ same (snd x) (snd y).
Lemma int_suffix s : forall v, suffix (snd (parse_simple_int_loop s v)) s.
Proof.
  induction s as [|c s IH]; intros v; cbn [parse_simple_int_loop]; [apply suffix_refl|].
  destruct (is_digit c); [|apply suffix_refl]. cbv zeta. destruct (_ <? _); [apply suffix_refl|apply suffix_cons, IH].
Qed.
Lemma arg_id_same s a b : suffix s F -> same a b -> pairE er id_at (parse_arg_id h s a) (parse_arg_id h' s b).
Proof.
  intros Hs HR. unfold parse_arg_id. destruct s as [|c s]; [exact I|]. destruct (_ && _).
  2: { eapply pairE_bind; [apply auto_same, HR|]. intros [i a1] [j b1] [H1 H2]. cbn in H1, H2. subst j. cbn. repeat split; auto; apply H2. }
  unfold do_parse_arg_id. cbn [format_handler h_error h_id bind]. destruct (_ || _).
  { cbn. split; [reflexivity|]. split; [exact Hs|]. apply same_error, HR. }
  assert (E : match (if negb (c =? 48) then parse_simple_int (c :: s) else Ok (0, s)) with Ok (_, s2) => suffix s2 F | _ => True end).
  { destruct (negb (c =? 48)); [|eapply suffix_cons_inv, Hs]. unfold parse_simple_int. destruct (is_digit c); [|exact I].
    assert (H := int_suffix (c :: s) 0). destruct (parse_simple_int_loop (c :: s) 0). eapply suffix_trans; eassumption. }
  destruct (if negb (c =? 48) then _ else _) as [[idx s2]| | |]; cbn [bind pairE]; auto.
  destruct s2 as [|d s2].
  { cbn. split; [reflexivity|]. split; [exact E|]. apply same_error, HR. }
  destruct (_ && _).
  { cbn. split; [reflexivity|]. split; [exact E|]. apply same_error, HR. }
  eapply pairE_bind; [apply id_same_ok, HR|]. intros [i a1] [j b1] [H1 H2]. cbn in H1, H2. subst j. cbn. split; [reflexivity|]. split; assumption.
Qed.
(** After a replacement field: failed, or in literal text again. *)
Definition next_at (x y : list Z * state V) : Prop :=
  fst x = fst y /\ same (snd x) (snd y) /\ (failed V (snd y) = true \/ lits okch false (fst x) /\ suffix (fst x) F).
Lemma replacement_same s a b : suffix (123 :: s) F -> lits okch false (123 :: s) -> same a b ->
  pairE er next_at (parse_replacement_field h (123 :: s) a) (parse_replacement_field h' (123 :: s) b).
Proof.
  assert (ERR : forall p a b, same a b -> next_at (p, on_error V InvalidFormatString a) (p, on_error V InvalidFormatString b)).
  { intros p a1 b1 H1. split; [reflexivity|]. split; [apply same_error, H1|left; reflexivity]. }
  intros Hs HL HR. unfold parse_replacement_field. cbn [format_handler h_error h_field h_literal h_specs h_auto_id bind].
  destruct s as [|c s]; [apply ERR, HR|]. assert (Hs' := suffix_cons_inv _ _ _ Hs). destruct (Z.eqb_spec c 125) as [Hc|Hc].
  { subst c. eapply pairE_bind; [apply auto_same, HR|]. intros [i a1] [j b1] [H1 H2]. cbn in H1, H2. subst j.
    eapply pairE_bind; [apply field_same, H2|]. intros a2 b2 H3. split; [reflexivity|]. split; [exact H3|]. right.
    split; [eapply lits_after; [exact HF|eassumption]|eapply suffix_cons_inv, Hs']. }
  destruct (Z.eqb_spec c 123) as [Hb|Hb].
  { subst c. cbn in HL. destruct HL as [HL1 HL2]. eapply pairE_bind; [apply lit_same; [constructor; [exact HL1|constructor]|exact HR]|].
    intros a2 b2 H3. split; [reflexivity|]. split; [exact H3|]. right. split; [exact HL2|eapply suffix_cons_inv, Hs']. }
  eapply pairE_bind; [apply arg_id_same; [exact Hs'|exact HR]|]. intros [[s1 i] a1] [[s2 j] b1] (H1 & H2 & H3). cbn in H1, H2, H3.
  injection H1 as <- <-. destruct s1 as [|d s1]; [apply ERR; auto|]. destruct (Z.eqb_spec d 125) as [Hd|Hd].
  { subst d. eapply pairE_bind; [apply field_same, H3|]. intros a2 b2 H4. split; [reflexivity|]. split; [exact H4|]. right.
    split; [eapply lits_after; [exact HF|eassumption]|eapply suffix_cons_inv, H2]. }
  destruct (Z.eqb_spec d 58) as [Hd'|_]; [subst d|apply ERR; auto]. destruct s1 as [|d1 s1]; [apply ERR; auto|].
  eapply pairE_bind; [apply specs_same; [exact H2|exact H3]|]. intros [p a2] [q b2] (E1 & E2 & E3). cbn in E1, E2, E3. subst q.
  destruct p as [|d2 p]; [apply ERR; auto|]. destruct (Z.eqb_spec d2 125) as [Hd2|Hd2]; cbn [negb]; [|apply ERR; auto].
  subst d2. split; [reflexivity|]. split; [exact E3|]. right. split; [eapply lits_after; [exact HF|eassumption]|eapply suffix_cons_inv, E2].
Qed.
Lemma between_app (p it : list Z) : between (p ++ it) it = p.
Proof. unfold between. rewrite app_length. replace (length p + length it - length it)%nat with (length p) by lia. rewrite firstn_app, firstn_all, Nat.sub_diag, firstn_O, app_nil_r. reflexivity. Qed.
Lemma loop_same : forall fuel p it a b, Forall okch p -> suffix it F -> lits okch false it -> same a b ->
  pairE er same (parse_loop fuel h (p ++ it) it a) (parse_loop fuel h' (p ++ it) it b).
Proof.
  induction fuel as [|f IH]; intros p it a b Hp HI HL HR.
  { destruct it; cbn [parse_loop]; [rewrite app_nil_r; apply lit_same; assumption|exact I]. }
  destruct it as [|c it]; cbn [parse_loop]; [rewrite app_nil_r; apply lit_same; assumption|].
  assert (HI' := suffix_cons_inv _ _ _ HI). destruct (Z.eqb_spec c 123) as [Hc|Hc].
  - subst c. rewrite between_app. eapply pairE_bind; [apply lit_same; [exact Hp|exact HR]|]. intros a1 b1 H1.
    eapply pairE_bind; [apply replacement_same; [exact HI|exact HL|exact H1]|]. intros [x a2] [y b2] (E1 & E2 & E3). cbn in E1, E2, E3. subst y.
    cbn [format_handler h_failed]. rewrite (failed_same a2 b2 E2). destruct (failed V b2); [exact E2|]. destruct E3 as [E3|[E3 E4]]; [discriminate E3|].
    apply (IH [] x); auto.
  - cbn [lits] in HL. replace (c =? 123) with false in HL by lia. destruct HL as [HL1 HL2]. destruct (Z.eqb_spec c 125) as [Hb|Hb].
    + subst c. destruct it as [|d it]; [apply same_error, HR|]. destruct (Z.eqb_spec d 125) as [Hd|Hd]; cbn [negb]; [|apply same_error, HR]. subst d.
      replace (p ++ 125 :: 125 :: it) with ((p ++ [125]) ++ 125 :: it) by (rewrite <- app_assoc; reflexivity). rewrite between_app.
      eapply pairE_bind; [apply lit_same; [apply Forall_app; split; [exact Hp|constructor; [exact HL1|constructor]]|exact HR]|]. intros a1 b1 H1.
      apply (IH [] it); [constructor|eapply suffix_cons_inv, HI'|apply HL2|exact H1].
    + replace (p ++ c :: it) with ((p ++ [c]) ++ it) by (rewrite <- app_assoc; reflexivity). apply IH; [|exact HI'|exact HL2|exact HR].
      apply Forall_app. split; [exact Hp|constructor; [exact HL1|constructor]].
Qed.
Theorem vscan_same source source' : Rel source source' -> stepE er Rel (vscan V r cf args F source) (vscan V r' cf args' F source').
Proof.
  intros HS. unfold vscan. rewrite same_count. destruct (is_simple F && _).
  { unfold scan_simple_single_argument. assert (H := get_same 0).
    destruct (get_arg V args 0) as [x|], (get_arg V args' 0) as [y|]; try contradiction; [|apply Her]. destruct H as [H _].
    eapply pairE_bind; [apply (sp_plain _ _ H), HS|]. intros [v l] [w l'] [E HL]. cbn in E, HL. subst w. split; [reflexivity|exact HL]. }
  unfold vscan_parse_format_string, parse_format_string_impl.
  assert (EF : vscan_fuel V args F = vscan_fuel V args' F) by (unfold vscan_fuel; rewrite args_len; reflexivity). rewrite EF.
  assert (H0 : same (init_state V args F source) (init_state V args' F source')).
  { constructor; cbn; auto; [apply suffix_refl|]. unfold init_state. rewrite same_count. reflexivity. }
  eapply pairE_bind; [apply (loop_same _ [] F); [constructor|apply suffix_refl|exact HF|exact H0]|]. intros a b Hab.
  eapply (pairE_bind er same).
  { unfold check_args_exhausted. rewrite same_count.
    assert (EL : st_low a = st_low b) by (flds Hab; reflexivity). assert (EU : st_upper a = st_upper b) by (flds Hab; reflexivity). rewrite EL, EU.
    cbv zeta. destruct (negb _); [apply same_error, Hab|]. destruct (_ <? 64); [exact Hab|].
    destruct (check_upper _ _) as [[|[x|x|]|x]|]; first [exact I|exact Hab|apply same_error, Hab]. }
  intros a1 b1 H1. assert (EE := sm_err _ _ H1). assert (ELog : st_log a1 = st_log b1) by (flds H1; reflexivity).
  rewrite ELog. unfold rel_err in EE. destruct (st_error a1), (st_error b1); try contradiction; [exact EE|]. split; [reflexivity|apply (sm_src _ _ H1)].
Qed.
End Step.

(** ** Ranges and tuples *)
Section Shapes.
Context {L X : Type}.
Variable er : err -> err -> Prop.
Hypothesis Her : forall e, er e e.
Variables (r r' : src).
Variable Rel : list Z -> list Z -> Prop.
Variable okch : Z -> Prop.
Hypothesis Hempty : forall s, (Rel [] s -> s = []) /\ (Rel s [] -> s = []).
Hypothesis Hhead : forall c d s d' s', okch c -> Rel (d :: s) (d' :: s') -> (d =? c) = (d' =? c) /\ (d = c -> Rel s s').
Hypothesis Hskip : forall s s', Rel s s' -> pairE er Rel (skip_classic_whitespace r s false) (skip_classic_whitespace r' s' false).
Variables (leaf leaf' : L -> specs -> list Z -> outcome (X * list Z)).
Variable okleaf : L -> Prop.
Variable SpOK : specs -> Prop.
Hypothesis Hdefault : SpOK specs_default.
Hypothesis Hleaf : forall l sp s s', okleaf l -> SpOK sp -> Rel s s' -> stepE er Rel (leaf l sp s) (leaf' l sp s').
Definition punct_all (ok : Z -> Prop) (p : punct) : Prop := Forall ok (p_open p) /\ Forall ok (p_close p) /\ Forall ok (p_sep p).
Fixpoint shape_over (ok : Z -> Prop) (okl : L -> Prop) (sh : shape L) : Prop :=
  match sh with
  | SLeaf l => okl l
  | SSeq _ p e => punct_all ok p /\ shape_over ok okl e
  | STup p es => punct_all ok p /\ (fix go es := match es with [] => True | x :: es' => shape_over ok okl x /\ go es' end) es
  end.
Lemma expect_same str : forall s s', Forall okch str -> Rel s s' -> pairE er Rel (expect str s) (expect str s').
Proof.
  induction str as [|c str IH]; intros s s' HO HR; [exact HR|]. inversion HO as [|? ? Hc HO']; subst.
  destruct s as [|d s], s' as [|d' s']; cbn [expect].
  - exact I.
  - apply Hempty in HR. discriminate HR.
  - apply Hempty in HR. discriminate HR.
  - destruct (Hhead c d s d' s' Hc HR) as [E HT]. rewrite (Z.eqb_sym c d), (Z.eqb_sym c d'), E. destruct (d' =? c) eqn:E'; [|apply Her].
    apply IH; [exact HO'|]. apply HT. apply Z.eqb_eq, E.
Qed.
Lemma str_same str s s' : Forall okch str -> Rel s s' -> pairE er Rel (scan_str r str s) (scan_str r' str s').
Proof. intros HO HR. eapply pairE_bind; [apply Hskip, HR|]. intros a b Hab. apply expect_same; assumption. Qed.
Lemma seq_same {V} p (f g : list Z -> outcome (V * list Z)) : punct_all okch p -> (forall s s', Rel s s' -> stepE er Rel (f s) (g s')) ->
  forall n first s s', Rel s s' -> stepE er Rel (seq_loop r p f n first s) (seq_loop r' p g n first s').
Proof.
  intros (P1 & P2 & P3) H. induction n as [|n IH]; intros first s s' HR; cbn [seq_loop]; [split; [reflexivity|exact HR]|].
  assert (HC := str_same (p_close p) s s' P2 HR).
  destruct (scan_str r (p_close p) s), (scan_str r' (p_close p) s'); try contradiction; try exact I; [split; [reflexivity|exact HR]|].
  eapply (pairE_bind er Rel); [destruct first; [exact HR|apply str_same; assumption]|]. intros a b Hab.
  eapply pairE_bind; [apply H, Hab|]. intros [v it1] [w it2] [E HR2]. cbn in E, HR2. subst w.
  eapply pairE_bind; [apply IH, HR2|]. intros [vs it3] [ws it4] [E HR3]. cbn in E, HR3. subst ws. split; [reflexivity|exact HR3].
Qed.
Lemma shape_same sh : shape_over okch okleaf sh -> forall sp s s', SpOK sp -> Rel s s' ->
  stepE er Rel (scan_shape r leaf sh sp s) (scan_shape r' leaf' sh sp s').
Proof.
  induction sh as [l|n p sh IH|p es IH] using shape_all; intros HO sp s s' HSp HR; cbn [scan_shape].
  - eapply pairE_bind; [apply Hleaf; [exact HO|exact HSp|exact HR]|]. intros [v a] [w b] [E HR2]. cbn in E, HR2. subst w. split; [reflexivity|exact HR2].
  - destruct HO as [HP HO]. eapply pairE_bind; [apply str_same; [apply HP|exact HR]|]. intros a b Hab.
    eapply pairE_bind; [apply seq_same; [exact HP| |exact Hab]; intros; apply IH; assumption|]. intros [vs it1] [ws it2] [E HR2]. cbn in E, HR2. subst ws.
    eapply pairE_bind; [apply str_same; [apply HP|exact HR2]|]. intros a2 b2 H2. split; [reflexivity|exact H2].
  - destruct HO as [HP HO]. eapply pairE_bind; [apply str_same; [apply HP|exact HR]|]. intros a b Hab.
    eapply (pairE_bind er (fun a b => fst a = fst b /\ Rel (snd a) (snd b))).
    + clear s s' HR. revert a b Hab HO. generalize true as first. induction IH as [|x es Hx HI IHes]; intros first a b Hab HO; [split; [reflexivity|exact Hab]|].
      destruct HO as [HO1 HO2]. eapply (pairE_bind er Rel); [destruct first; [exact Hab|apply str_same; [apply HP|exact Hab]]|]. intros a1 b1 H1.
      eapply pairE_bind; [apply Hx; [exact HO1|exact Hdefault|exact H1]|]. intros [v it1] [w it2] [E HR2]. cbn in E, HR2. subst w.
      eapply pairE_bind; [apply IHes; [exact HR2|exact HO2]|]. intros [vs it3] [ws it4] [E HR3]. cbn in E, HR3. subst ws. split; [reflexivity|exact HR3].
    + intros [vs it1] [ws it2] [E HR2]. cbn in E, HR2. subst ws.
      eapply pairE_bind; [apply str_same; [apply HP|exact HR2]|]. intros a2 b2 H2. split; [reflexivity|exact H2].
Qed.
End Shapes.
