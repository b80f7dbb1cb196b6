(** The compile-time checker, and format strings with many arguments. *)
From Verif Require Import Prelude UnicodeModel UnicodeSpec UnicodeProofs ReadModel ReadProofs
  SpecsModel ArgsModel FormatModel FormatProofs FormatSpec FormatSpecProofs VscanModel
  VscanSpec VscanProofs VscanSpecProofs.
Local Open Scope Z_scope.
Ltac Zify.zify_post_hook ::= Z.div_mod_to_equations.

Lemma bind_ok {A B} (x : outcome A) (f : A -> outcome B) b :
  bind x f = Ok b -> exists a, x = Ok a /\ f a = Ok b.
Proof. destruct x; cbn; try discriminate. eauto. Qed.

(** * Invariants of the parser *)
Section Preserve.
Context {St : Type}.
Variable h : handler St.
Variable P : St -> Prop.
Hypothesis H_lit : forall t st st', P st -> h_literal h t st = Ok st' -> P st'.
Hypothesis H_auto : forall st i st', P st -> h_auto_id h st = Ok (i, st') -> P st'.
Hypothesis H_id : forall id st i st', P st -> h_id h id st = Ok (i, st') -> P st'.
Hypothesis H_field : forall i b st st', P st -> h_field h i b st = Ok st' -> P st'.
Hypothesis H_specs : forall i b st p st', P st -> h_specs h i b st = Ok (p, st') -> P st'.
Hypothesis H_err : forall st st', P st -> h_error h st = Ok st' -> P st'.

Ltac go := repeat match goal with
  | E : bind _ _ = Ok _ |- _ => apply bind_ok in E; let x := fresh in let E1 := fresh in let E2 := fresh in destruct E as (x & E1 & E2); try destruct x
  | E : (let '(_, _) := ?p in _) = Ok _ |- _ => destruct p
  | E : Ok _ = Ok _ |- _ => injection E; clear E; intros; subst
  | E : UB = Ok _ |- _ => discriminate
  | E : (if ?b then _ else _) = Ok _ |- _ => destruct b
  | E : match ?l with [] => _ | _ :: _ => _ end = Ok _ |- _ => destruct l
  end.
Ltac fin := repeat first [assumption | match goal with
  | E : h_literal h _ _ = Ok ?s |- P ?s => eapply H_lit; [|exact E]
  | E : h_auto_id h _ = Ok (_, ?s) |- P ?s => eapply H_auto; [|exact E]
  | E : h_id h _ _ = Ok (_, ?s) |- P ?s => eapply H_id; [|exact E]
  | E : h_field h _ _ _ = Ok ?s |- P ?s => eapply H_field; [|exact E]
  | E : h_specs h _ _ _ = Ok (_, ?s) |- P ?s => eapply H_specs; [|exact E]
  | E : h_error h _ = Ok ?s |- P ?s => eapply H_err; [|exact E]
  end].
Lemma arg_id_preserves s st s' i st' : P st -> parse_arg_id h s st = Ok (s', i, st') -> P st'.
Proof.
  intros HP E. unfold parse_arg_id, do_parse_arg_id in E. go; fin.
Qed.
Lemma field_preserves s st p st' : P st -> parse_replacement_field h s st = Ok (p, st') -> P st'.
Proof.
  intros HP E. destruct s as [|c0 s]; [discriminate|]. cbn [parse_replacement_field] in E. destruct s as [|c s]; [go; fin|].
  destruct (c =? 125); [go; fin|]. destruct (c =? 123); [go; fin|].
  apply bind_ok in E. destruct E as ([[s1 i] st1] & E1 & E). apply arg_id_preserves in E1; [|exact HP].
  destruct s1 as [|c1 s1]; [go; fin|]. destruct (c1 =? 125); [go; fin|]. destruct (c1 =? 58); [|go; fin].
  destruct s1 as [|c2 s1]; [go; fin|]. apply bind_ok in E. destruct E as ([s2 st2] & E2 & E).
  apply H_specs in E2; [|exact E1]. go; fin.
Qed.
Lemma loop_preserves : forall fuel b it st st', P st -> parse_loop fuel h b it st = Ok st' -> P st'.
Proof.
  induction fuel as [|f IH]; intros b it st st' HP E; (destruct it as [|c it]; cbn [parse_loop] in E; [fin|]); [discriminate|].
  destruct (c =? 123).
  - apply bind_ok in E. destruct E as (st1 & E1 & E). apply bind_ok in E. destruct E as ([p st2] & E2 & E).
    assert (HP2 : P st2) by (eapply field_preserves; [|exact E2]; fin).
    destruct (h_failed h st2); [|eapply IH; [exact HP2|exact E]]. injection E as <-. assumption.
  - destruct (c =? 125); [|eapply IH; [exact HP|exact E]]. destruct it as [|d it]; [fin|]. destruct (negb (d =? 125)); [fin|].
    apply bind_ok in E. destruct E as (st1 & E1 & E). eapply IH; [|exact E]. fin.
Qed.
End Preserve.

(** * 64 arguments or more *)
Section Many.
Variable V : Type.
Variable r : src.
Variable cf : config.
Variable args : list (arg V).
Notation n := (Z.of_nat (length args)).
Hypothesis Hn : 64 <= n.

Definition upper_ok (st : state V) : Prop :=
  Forall (fun b => 0 <= b) (st_upper st) /\ Z.of_nat (length (st_upper st)) = (n - 64) / 8.
Lemma set_nth_ok f i : (forall b, 0 <= b -> 0 <= f b) -> forall l l', Forall (fun b => 0 <= b) l ->
  set_nth i f l = Some l' -> Forall (fun b => 0 <= b) l' /\ length l' = length l.
Proof.
  intros Hf. induction i as [|i IH]; intros [|b l] l' Hl; cbn; try discriminate; inversion Hl; subst.
  - intros E. injection E as <-. split; [constructor; auto|reflexivity].
  - destruct (set_nth i f l) as [l2|] eqn:E; [|discriminate]. intros E2. injection E2 as <-.
    edestruct IH as [IH1 IH2]; [|exact E|]; [assumption|]. split; [constructor; assumption|cbn; congruence].
Qed.
Lemma visited_upper i st st' : upper_ok st -> set_arg_as_visited V args i st = Ok st' -> upper_ok st'.
Proof.
  intros HU. unfold set_arg_as_visited. destruct (args_count V args <=? i); [intros E; injection E as <-; exact HU|].
  destruct (i <? 64).
  { intros E; injection E as <-. destruct (Z.testbit _ _); exact HU. }
  destruct (nth_error _ _); [|discriminate]. destruct (set_nth _ _ _) as [u|] eqn:ES; [|discriminate].
  intros E; injection E as <-. apply set_nth_ok in ES; [|intros b Hb; apply Z.lor_nonneg; split; [exact Hb|apply Z.shiftl_nonneg; lia]|apply HU].
  destruct ES as [H1 H2]. destruct HU as [_ HU]. split; cbn; [exact H1|]. rewrite H2. exact HU.
Qed.
Lemma literal_upper : forall fuel t st st', upper_ok st -> literal_loop V r fuel t st = Ok st' -> upper_ok st'.
Proof.
  induction fuel as [|f IH]; intros t st st' HU; (destruct t as [|c t]; cbn [literal_loop]; [intros E; injection E as <-; exact HU|]); [discriminate|].
  destruct (st_src st) as [|d s]; [intros E; injection E as <-; exact HU|].
  intros E. apply bind_ok in E. destruct E as ([[a cp] sp] & _ & E).
  destruct (cp =? invalid_code_point); [injection E as <-; exact HU|].
  destruct sp.
  - apply bind_ok in E. destruct E as (x & _ & E). apply bind_ok in E. destruct E as (y & _ & E).
    eapply IH; [|exact E]. exact HU.
  - destruct (negb (d =? c)); [injection E as <-; exact HU|]. eapply IH; [|exact E]. exact HU.
Qed.
Lemma note_upper i st : upper_ok st -> upper_ok (note_missing V args i st).
Proof. unfold note_missing. destruct (get_arg V args i); auto. Qed.
Lemma visit_upper i x st st' : upper_ok st -> finish_visit V i x st = Ok st' -> upper_ok st'.
Proof. intros HU. destruct x as [[v s]|e| |]; cbn; try discriminate; intros E; injection E as <-; exact HU. Qed.
Lemma loop_upper fuel b it st st' : upper_ok st -> parse_loop fuel (format_handler V r cf args) b it st = Ok st' -> upper_ok st'.
Proof.
  apply loop_preserves; cbn [format_handler h_literal h_auto_id h_id h_field h_specs h_error]; clear st st'.
  - intros t st st'. apply literal_upper.
  - intros st i st' HU. unfold next_arg_id. destruct (_ <? _); intros E; injection E as _ <-; exact HU.
  - intros id st i st' HU. unfold check_arg_id. destruct (_ <? _); intros E; injection E as _ <-; exact HU.
  - intros i b0 st st' HU E. unfold on_replacement_field in E. apply bind_ok in E. destruct E as (st1 & E1 & E).
    apply visited_upper in E1; [|apply note_upper, HU].
    destruct (failed V st1); [injection E as <-; exact E1|].
    destruct (get_arg V args i); [|injection E as <-; exact E1]. eapply visit_upper; eassumption.
  - intros i b0 st p st' HU E. unfold on_format_specs in E. apply bind_ok in E. destruct E as (st1 & E1 & E).
    apply visited_upper in E1; [|apply note_upper, HU]. cbv zeta in E.
    destruct (arg_eqb _ CustomType).
    + destruct (failed V _); [injection E as _ <-; exact E1|].
      destruct (get_arg V args i) as [a|]; [|injection E as _ <-; exact E1].
      destruct (if st_mixed _ then _ else _) as [q x]. apply bind_ok in E. destruct E as (st2 & E2 & E). injection E as _ <-.
      eapply visit_upper; [|exact E2]. exact E1.
    + apply bind_ok in E. destruct E as ([s ss] & _ & E). destruct s as [|c s]; [injection E as _ <-; exact E1|].
      destruct (negb (c =? 125)); [injection E as _ <-; exact E1|].
      destruct (ss_err ss); [injection E as _ <-; exact E1|].
      destruct (failed V _); [injection E as _ <-; exact E1|].
      destruct (get_arg V args i) as [a|]; [|injection E as _ <-; exact E1].
      apply bind_ok in E. destruct E as (st2 & E2 & E). injection E as _ <-.
      eapply visit_upper; [|exact E2]. exact E1.
  - intros st st' HU E. injection E as <-. exact HU.
Qed.
Lemma check_upper_never u : forall last, Forall (fun b => 0 <= b) u -> 8 * Z.of_nat (length u) <= last -> check_upper u last <> Some 1.
Proof.
  induction u as [|b u IH]; intros last Hu HL; [discriminate|]. inversion Hu as [|? ? Hb Hu']; subst.
  destruct u as [|b2 u].
  - cbn [check_upper]. cbn [length] in HL.
    assert (E : Z.shiftl 1 last mod 256 = 0).
    { rewrite Z.shiftl_1_l. replace last with (8 + (last - 8)) by lia. rewrite Z.pow_add_r by lia.
      change (2 ^ 8) with 256. rewrite Z.mul_comm. apply Z.mod_mul. lia. }
    rewrite E. replace (b =? 0 - 1) with false by lia. discriminate.
  - cbn [check_upper]. destruct (b =? 255); [|discriminate]. apply IH; [exact Hu'|]. cbn [length] in *. lia.
Qed.
Lemma many_never fmt source x : vscan V r cf args fmt source <> Ok x.
Proof.
  unfold vscan, args_count. replace (n =? 1) with false by lia. rewrite andb_false_r.
  unfold vscan_parse_format_string. intros E. apply bind_ok in E. destruct E as (st & E1 & E).
  apply loop_upper in E1.
  - apply bind_ok in E. destruct E as (st2 & E2 & E). revert E2. unfold check_args_exhausted, args_count. cbv zeta.
    replace (64 <=? n) with true by lia. replace (n <? 64) with false by lia.
    destruct (negb _); [intros E2; injection E2 as <-; discriminate|].
    destruct (check_upper (st_upper st) (n - 64)) as [z|] eqn:EC; [|discriminate].
    assert (z <> 1). { intros ->. revert EC. apply check_upper_never; [apply E1|]. destruct E1 as [_ E1]. lia. }
    assert (EZ : forall A (a b : A), match z with 1 => a | _ => b end = b).
    { intros A a b. destruct z as [|[?|?|]|?]; try reflexivity. congruence. }
    rewrite EZ. intros E2. injection E2 as <-. discriminate.
  - unfold init_state, args_count. replace (64 <=? n) with true by lia. split; cbn [st_upper].
    + apply Forall_forall. intros b Hb. apply repeat_spec in Hb. lia.
    + rewrite repeat_length. assert (0 <= (n - 64) / 8) by lia. lia.
Qed.
End Many.

(** * The compile-time checker is total *)
Section CtTotal.
Variable V : Type.
Variable cf : config.
Variable contiguous borrowed : bool.
Variable types : list arg_type.
Variable custom_parse : Z -> list Z -> outcome (list Z).
Hypothesis Htypes : Forall (fun t => t <> NoneType /\ no_regex t) types.
Hypothesis Hcustom : forall i s, (exists p, custom_parse i s = Ok p /\ suffix p s)
  \/ custom_parse i s = Err InvalidFormatString.

Definition decided {A} (x : outcome A) : Prop := (exists a, x = Ok a) \/ x = Err InvalidFormatString.
Lemma decided_ok {A} (a : A) : decided (Ok a).
Proof. left. eauto. Qed.
Lemma decided_no {A} : decided (@Err A InvalidFormatString).
Proof. right. reflexivity. Qed.
Hint Resolve decided_ok decided_no : core.

Notation h := (ct_handler cf contiguous borrowed types custom_parse).
Lemma decided_bind {A B} (x : outcome A) (f : A -> outcome B) :
  decided x -> (forall a, x = Ok a -> decided (f a)) -> decided (bind x f).
Proof. intros [[a ->] | ->] Hf; cbn; auto. Qed.
Lemma set_read_decided i st : decided (set_arg_as_read types i st).
Proof.
  unfold set_arg_as_read, reject. destruct (num_args types <=? i); [auto|]. destruct (existsb _ _); auto.
Qed.
Lemma set_read_range i st st' : 0 <= i -> set_arg_as_read types i st = Ok st' ->
  exists t, nth_error types (Z.to_nat i) = Some t /\ t <> NoneType /\ no_regex t.
Proof.
  intros Hi. unfold set_arg_as_read, reject, num_args. destruct (_ <=? i) eqn:E; [discriminate|]. intros _.
  destruct (nth_error types (Z.to_nat i)) as [t|] eqn:ET; [|apply nth_error_None in ET; lia].
  exists t. split; [reflexivity|]. rewrite Forall_forall in Htypes. eapply Htypes, nth_error_In, ET.
Qed.
Lemma can_read_decided t : decided (check_arg_can_be_read contiguous borrowed t).
Proof. unfold check_arg_can_be_read, reject. destruct (_ && _); [auto|]. destruct (_ && _); [auto|]. destruct (_ && _); auto. Qed.
Lemma custom_decided i s : decided (custom_parse i s).
Proof. destruct (Hcustom i s) as [(p & -> & _)| ->]; auto. Qed.
Lemma ct_field_decided i b st : 0 <= i -> decided (ct_replacement_field contiguous borrowed types custom_parse i b st).
Proof.
  intros Hi. unfold ct_replacement_field. apply decided_bind; [apply set_read_decided|]. intros st' E.
  destruct (set_read_range _ _ _ Hi E) as (t & -> & _). apply decided_bind; [apply can_read_decided|]. intros _ _.
  destruct (is_regex_type t); [unfold reject; auto|]. destruct (arg_eqb t CustomType); [|auto].
  apply decided_bind; [apply custom_decided|]. auto.
Qed.
Lemma type_specs_decided t sp : t <> NoneType -> arg_eqb t CustomType = false -> exists b, check_type_specs t sp = Ok b.
Proof. destruct t; cbn; intros; eauto; congruence. Qed.
Lemma ct_specs_decided i b st : 0 <= i ->
  decided (ct_format_specs cf contiguous borrowed types custom_parse i b st)
  /\ forall p st', ct_format_specs cf contiguous borrowed types custom_parse i b st = Ok (p, st') -> suffix p b.
Proof.
  intros Hi. unfold ct_format_specs.
  destruct (set_read_decided i st) as [[st1 E]|E]; rewrite E; cbn [bind]; [|split; [auto|discriminate]].
  destruct (set_read_range _ _ _ Hi E) as (t & -> & Ht & Hx).
  destruct (can_read_decided t) as [[? ->] | ->]; cbn [bind]; [|split; [auto|discriminate]].
  destruct (arg_eqb t CustomType) eqn:EC.
  - destruct (Hcustom i b) as [(p & -> & Hs)| ->]; cbn [bind]; split; auto; [|discriminate].
    intros q st' E2. injection E2 as <- _. exact Hs.
  - unfold ct_parse_builtin. destruct b as [|c b]; cbn [bind].
    { split; [auto|]. intros p st' E2. injection E2 as <- _. apply suffix_refl. }
    destruct (parse_format_specs_safe cf t (c :: b) (SS specs_default false) Hx) as (s' & ss & -> & Hs). cbn [bind]. unfold reject.
    destruct (ss_err ss); cbn [bind]; [split; [auto|discriminate]|].
    destruct (type_specs_decided t (ss_specs ss) Ht EC) as (ok & ->). cbn [bind].
    destruct (negb ok); cbn [bind]; [split; [auto|discriminate]|].
    destruct (_ && _); cbn [bind]; [split; [auto|discriminate]|]. split; [auto|].
    intros p st' E2. injection E2 as <- _. exact Hs.
Qed.
Lemma ct_literal_decided t st : decided (ct_literal cf t st).
Proof.
  unfold ct_literal, validate_unicode.
  destruct (validate_loop_total (c_enc cf) (length t) t) as [ok ->]; [lia|]. cbn [bind]. unfold reject. destruct ok; auto.
Qed.
Lemma ct_next_decided st : decided (ct_next_arg_id types st)
  /\ forall i st', ct_next_arg_id types st = Ok (i, st') -> 0 <= i.
Proof.
  unfold ct_next_arg_id, reject. destruct (cs_next st <? 0) eqn:E; [split; [auto|discriminate]|].
  destruct (_ <=? _); (split; [auto|]); [discriminate|]. intros i st' E2. injection E2 as <- _. lia.
Qed.
Lemma ct_check_decided id st : decided (ct_check_arg_id types id st)
  /\ forall i st', ct_check_arg_id types id st = Ok (i, st') -> i = id.
Proof.
  unfold ct_check_arg_id, reject. destruct (0 <? cs_next st); [split; [auto|discriminate]|].
  destruct (_ <=? _); (split; [auto|]); [discriminate|]. intros i st' E2. injection E2 as <- _. reflexivity.
Qed.
Lemma ct_arg_id_decided c s st : decided (parse_arg_id h (c :: s) st)
  /\ forall s' i st', parse_arg_id h (c :: s) st = Ok (s', i, st') -> suffix s' (c :: s) /\ 0 <= i.
Proof.
  unfold parse_arg_id. destruct (negb (c =? 125) && negb (c =? 58)).
  - unfold do_parse_arg_id. destruct ((c <? 48) || (57 <? c)) eqn:EC; [cbn; split; [auto|discriminate]|].
    assert (HN : exists idx s2, (if negb (c =? 48) then parse_simple_int (c :: s) else Ok (0, s)) = Ok (idx, s2)
      /\ suffix s2 (c :: s) /\ (0 <= idx \/ exists d t, s2 = d :: t /\ is_digit d = true)).
    { destruct (negb (c =? 48)); [|do 2 eexists; split; [reflexivity|split; [auto with sfx|left; lia]]].
      assert (ED : is_digit c = true) by (unfold is_digit; lia).
      cbn [parse_simple_int]. rewrite ED.
      destruct (parse_simple_int_loop (c :: s) 0) as [v s2] eqn:EL.
      do 2 eexists. split; [reflexivity|]. split; [eapply parse_simple_int_loop_suffix, EL|].
      eapply simple_int_nonneg; [|exact EL]. lia. }
    destruct HN as (idx & s2 & -> & Hs2 & Hidx). cbn [bind].
    destruct s2 as [|d s2]; [cbn; split; [auto|discriminate]|].
    destruct (negb (d =? 125) && negb (d =? 58)) eqn:ED; [cbn; split; [auto|discriminate]|].
    cbn [h_id ct_handler]. destruct (ct_check_decided idx st) as [[[[i st'] E]|E] HC]; rewrite E; cbn [bind]; (split; [auto|]); [|discriminate].
    intros s' i' st'' E2. injection E2 as <- <- _. split; [exact Hs2|]. apply HC in E. subst i.
    destruct Hidx as [?|(d' & t & [= <- <-] & HD)]; [assumption|]. unfold is_digit in HD. lia.
  - cbn [h_auto_id ct_handler]. destruct (ct_next_decided st) as [[[[i st'] E]|E] HC]; rewrite E; cbn [bind]; (split; [auto|]); [|discriminate].
    intros s' i' st'' E2. injection E2 as <- <- _. split; [apply suffix_refl|]. eapply HC, E.
Qed.
Lemma ct_rfield_decided c s st : decided (parse_replacement_field h (c :: s) st)
  /\ forall p st', parse_replacement_field h (c :: s) st = Ok (p, st') -> suffix p s.
Proof.
  cbn [parse_replacement_field]. destruct s as [|c1 s]; [cbn; split; [auto|discriminate]|].
  destruct (c1 =? 125).
  { cbn [h_auto_id ct_handler]. destruct (ct_next_decided st) as [[[[i st'] E]|E] HC]; rewrite E; cbn [bind]; [|split; [auto|discriminate]].
    cbn [h_field ct_handler]. destruct (ct_field_decided i (c1 :: s) st' (HC _ _ E)) as [[st2 ->] | ->]; cbn [bind]; (split; [auto|]); [|discriminate].
    intros p st3 E3. injection E3 as <- _. auto with sfx. }
  destruct (c1 =? 123).
  { cbn [h_literal ct_handler]. destruct (ct_literal_decided [c1] st) as [[st2 ->] | ->]; cbn [bind]; (split; [auto|]); [|discriminate].
    intros p st3 E3. injection E3 as <- _. auto with sfx. }
  destruct (ct_arg_id_decided c1 s st) as [[[[[s1 i] st1] E]|E] HA]; rewrite E; cbn [bind]; [|split; [auto|discriminate]].
  destruct (HA _ _ _ E) as [Hs1 Hi]. clear HA E.
  destruct s1 as [|c2 s1]; [cbn; split; [auto|discriminate]|].
  destruct (c2 =? 125).
  { cbn [h_field ct_handler]. destruct (ct_field_decided i (c2 :: s1) st1 Hi) as [[st2 ->] | ->]; cbn [bind]; (split; [auto|]); [|discriminate].
    intros p st3 E3. injection E3 as <- _. eapply suffix_cons_inv, Hs1. }
  destruct (c2 =? 58); [|cbn; split; [auto|discriminate]].
  destruct s1 as [|c3 s1]; [cbn; split; [auto|discriminate]|].
  cbn [h_specs ct_handler]. destruct (ct_specs_decided i (c3 :: s1) st1 Hi) as [[[[p st2] E]|E] HS]; rewrite E; cbn [bind]; [|split; [auto|discriminate]].
  specialize (HS _ _ E). destruct p as [|d p]; [cbn; split; [auto|discriminate]|].
  destruct (negb (d =? 125)); [cbn; split; [auto|discriminate]|]. split; [auto|].
  intros q st3 E3. injection E3 as <- _. eapply suffix_cons_inv. eapply suffix_trans; [exact HS|]. eapply suffix_cons_inv, Hs1.
Qed.
Lemma ct_loop_decided : forall fuel b it st, (length it < fuel)%nat -> decided (parse_loop fuel h b it st).
Proof.
  induction fuel as [|f IH]; intros b it st HL; [lia|]. destruct it as [|c it]; cbn [parse_loop]; [apply ct_literal_decided|].
  cbn [length] in HL. destruct (c =? 123).
  - apply decided_bind; [apply ct_literal_decided|]. intros st1 _.
    destruct (ct_rfield_decided c it st1) as [[[[p st2] E]|E] HS]; rewrite E; cbn [bind]; [|auto].
    specialize (HS _ _ E). apply suffix_len in HS. cbn [h_failed ct_handler]. apply IH. lia.
  - destruct (c =? 125); [|apply IH; lia]. destruct it as [|d it]; [cbn; unfold reject; auto|].
    destruct (negb (d =? 125)); [cbn; unfold reject; auto|]. apply decided_bind; [apply ct_literal_decided|].
    intros st1 _. apply IH. cbn [length] in HL. lia.
Qed.
Lemma checker_decided fmt : decided (check_format_string cf contiguous borrowed types custom_parse fmt).
Proof.
  unfold check_format_string. apply decided_bind; [apply ct_loop_decided; lia|]. intros st _.
  unfold ct_check_args_exhausted, reject. destruct (_ =? 0); [auto|]. destruct (forallb _ _); auto.
Qed.
End CtTotal.

(** * Indexing in format strings the checker accepts *)
Lemma index_run V {D} e n (read : Z -> option D -> list Z -> outcome (V * list Z)) ok fail ts : forall next used ws s log,
  index_ok n ts next used = true ->
  run V e n read ok fail ts next used ws s log = Err InvalidFormatString ->
  exists i d s' u x, read i d s' = Err x /\ fail u x = InvalidFormatString.
Proof.
  induction ts as [|[c|id d] ts IH]; intros next used ws s log HI; cbn [run index_ok] in *.
  - rewrite HI. discriminate.
  - destruct (is_ws c).
    + destruct ws; [apply IH, HI|]. destruct s; [|apply IH, HI]. destruct ok; [apply IH, HI|discriminate].
    + destruct s as [|d s]; [discriminate|]. destruct (d =? c); [apply IH, HI|discriminate].
  - destruct (_ || _); [discriminate|]. destruct (read _ _ s) as [[v s']|x| |] eqn:ER; try discriminate; [apply IH, HI|].
    intros E. injection E as E. do 5 eexists. split; [exact ER|exact E].
Qed.

Section CtTokens.
Variable V : Type.
Variable cf : config.
Variable contiguous borrowed : bool.
Variable types : list arg_type.
Variable custom_parse : Z -> list Z -> outcome (list Z).
Notation e := (c_enc cf).
Notation n := (Z.of_nat (length types)).
Notation h := (ct_handler cf contiguous borrowed types custom_parse).
Hypothesis He : e <> U16.
Definition type_ok (i : Z) (d : desc) (rest : list Z) : Prop :=
  forall t, nth_error types (Z.to_nat i) = Some t ->
    arg_eqb t CustomType = false /\ wf_desc (rb_of cf) e t d rest.
Record ct_good (auto : bool) (used : list Z) (next : Z) (st : cstate) : Prop := CtGood {
  cg_used : cs_visited st = used;
  cg_next : if auto then cs_next st = next else cs_next st <= 0 }.

Lemma ct_arg_id id d rest st s' i st' : wf_id id ->
  id <> None ->
  parse_arg_id h (opt (fun ds => ds) id ++ opt (fun d : desc => 58 :: render_desc e d) d ++ 125 :: rest) st = Ok (s', i, st') ->
  s' = opt (fun d : desc => 58 :: render_desc e d) d ++ 125 :: rest
  /\ exists ds, id = Some ds /\ ct_check_arg_id types (number ds) st = Ok (i, st').
Proof.
  intros Hid Hne. destruct id as [ds|]; [|congruence]. cbn [opt]. destruct Hid as [Hn Hz]. destruct Hn as (Hne' & Hds & HN).
  destruct ds as [|c ds]; [congruence|]. inversion Hds as [|? ? Hc Hds']; subst.
  set (T := opt (fun d : desc => 58 :: render_desc e d) d ++ 125 :: rest).
  assert (HT : exists x T', T = x :: T' /\ (x = 125 \/ x = 58)) by (unfold T; destruct d; cbn; eauto).
  destruct HT as (x & T' & ET & Hx). cbn [app]. unfold parse_arg_id.
  replace (c =? 125) with false by lia. replace (c =? 58) with false by lia. cbn [negb andb].
  unfold do_parse_arg_id. replace ((c <? 48) || (57 <? c)) with false by lia.
  assert (EI : (if negb (c =? 48) then parse_simple_int (c :: ds ++ T) else Ok (0, ds ++ T)) = Ok (number (c :: ds), T)).
  { destruct (c =? 48) eqn:E48; cbn [negb].
    - destruct Hz as [Hz|Hz]; [|cbn in Hz; lia]. injection Hz as -> ->. reflexivity.
    - destruct (parse_number (c :: ds) T) as (? & ? & _ & _ & E & _).
      + repeat split; assumption.
      + rewrite ET. unfold is_digit. destruct Hx as [-> | ->]; reflexivity.
      + exact E. }
  rewrite EI. cbn [bind]. rewrite ET. replace (negb (x =? 125) && negb (x =? 58)) with false by lia.
  intros E. apply bind_ok in E. destruct E as ([i0 st0] & E & E2). injection E2 as <- <- <-. split; [reflexivity|].
  eexists. split; [reflexivity|]. exact E.
Qed.

Lemma ct_read_good auto used next i st st' : ct_good auto used next st -> set_arg_as_read types i st = Ok st' ->
  (n <=? i) || existsb (Z.eqb i) used = false /\ ct_good auto (i :: used) next st'.
Proof.
  intros [<- Hn]. unfold set_arg_as_read, num_args, reject. destruct (n <=? i); [discriminate|].
  destruct (existsb _ _) eqn:EX; [discriminate|]. intros E. injection E as <-. split; [reflexivity|]. constructor; [reflexivity|exact Hn].
Qed.
Lemma ct_next_good used next st i st' : ct_good true used next st -> ct_next_arg_id types st = Ok (i, st') ->
  i = next /\ ct_good true used (next + 1) st'.
Proof.
  intros [Hu Hn]. unfold ct_next_arg_id, reject. destruct (_ <? 0); [discriminate|]. destruct (_ <=? _); [discriminate|].
  intros E. injection E as <- <-. split; [exact Hn|]. constructor; cbn; [exact Hu|lia].
Qed.
Lemma ct_check_good used next st id i st' : ct_good false used next st -> ct_check_arg_id types id st = Ok (i, st') ->
  i = id /\ ct_good false used (next + 1) st'.
Proof.
  intros [Hu Hn]. unfold ct_check_arg_id, reject. destruct (_ <? _); [discriminate|]. destruct (_ <=? _); [discriminate|].
  intros E. injection E as <- <-. split; [reflexivity|]. constructor; cbn; [exact Hu|lia].
Qed.

Lemma ct_field auto used next id d rest st p st' : ct_good auto used next st -> wf_id id ->
  auto = match id with None => true | Some _ => false end ->
  (forall d', d = Some d' -> type_ok (match id with Some ds => number ds | None => next end) d' rest) ->
  parse_replacement_field h (field_text (render_desc e) id d ++ rest) st = Ok (p, st') ->
  let i := match id with Some ds => number ds | None => next end in
  p = rest /\ (n <=? i) || existsb (Z.eqb i) used = false /\ ct_good auto (i :: used) (next + 1) st'.
Proof.
  intros Hg Hid Ha Hok E i.
  unfold field_text in E. rewrite <- !app_assoc in E. cbn [app] in E.
  assert (TAIL : forall st1, ct_good auto used (next + 1) st1 ->
    match opt (fun d : desc => 58 :: render_desc e d) d ++ 125 :: rest with
    | [] => st <- h_error h st1;; Ok ([], st)
    | c :: s' =>
       if c =? 125 then st <- h_field h i (opt (fun d : desc => 58 :: render_desc e d) d ++ 125 :: rest) st1;; Ok (s', st)
       else if c =? 58 then
         match s' with
         | [] => st <- h_error h st1;; Ok (opt (fun d : desc => 58 :: render_desc e d) d ++ 125 :: rest, st)
         | _ :: _ => ' (s, st) <- h_specs h i s' st1;;
             match s with
             | [] => st <- h_error h st;; Ok ([], st)
             | d :: s2 => if negb (d =? 125) then st <- h_error h st;; Ok (s, st) else Ok (s2, st)
             end
         end
       else st <- h_error h st1;; Ok (opt (fun d : desc => 58 :: render_desc e d) d ++ 125 :: rest, st)
    end = Ok (p, st') ->
    p = rest /\ (n <=? i) || existsb (Z.eqb i) used = false /\ ct_good auto (i :: used) (next + 1) st').
  { intros st1 Hg1 E1. destruct d as [d|]; cbn [opt app] in E1.
    - change (58 =? 125) with false in E1. change (58 =? 58) with true in E1. cbv iota in E1.
      assert (E2 : (' (s, st) <- ct_format_specs cf contiguous borrowed types custom_parse i (render_desc e d ++ 125 :: rest) st1;;
             match s with
             | [] => reject
             | d :: s2 => if negb (d =? 125) then reject else Ok (s2, st)
             end) = Ok (p, st')).
      { destruct (render_desc e d ++ 125 :: rest) as [|c0 s0]; [discriminate E1|]. exact E1. }
      clear E1. apply bind_ok in E2. destruct E2 as ([s st2] & E1 & E2). unfold ct_format_specs in E1.
      apply bind_ok in E1. destruct E1 as (st3 & E3 & E1). destruct (ct_read_good _ _ _ _ _ _ Hg1 E3) as [HX Hg3].
      destruct (nth_error types (Z.to_nat i)) as [t|] eqn:ET; [|discriminate].
      apply bind_ok in E1. destruct E1 as (? & _ & E1). destruct (Hok d eq_refl t ET) as [HC Hwf]. rewrite HC in E1.
      apply bind_ok in E1. destruct E1 as ([q sp] & E1 & E4). injection E4 as -> ->.
      unfold ct_parse_builtin in E1. rewrite (specs_render cf t d rest He Hwf) in E1. cbn [bind ss_err] in E1.
      destruct (render_desc e d ++ 125 :: rest) eqn:ED; [destruct (render_desc e d); discriminate|].
      apply bind_ok in E1. destruct E1 as (ok & _ & E1). destruct (negb ok); [discriminate|].
      destruct (_ && _) in E1; [discriminate|]. injection E1 as <- _. change (negb (125 =? 125)) with false in E2. cbv iota in E2.
      injection E2 as <- <-. auto.
    - change (125 =? 125) with true in E1. cbv iota in E1. apply bind_ok in E1. destruct E1 as (st2 & E1 & E2). injection E2 as <- <-.
      cbn [h_field ct_handler] in E1. unfold ct_replacement_field in E1. apply bind_ok in E1. destruct E1 as (st3 & E3 & E1).
      destruct (ct_read_good _ _ _ _ _ _ Hg1 E3) as [HX Hg3].
      destruct (nth_error types (Z.to_nat i)) as [t|]; [|discriminate]. apply bind_ok in E1. destruct E1 as (? & _ & E1).
      destruct (is_regex_type t); [discriminate|]. destruct (arg_eqb t CustomType).
      + apply bind_ok in E1. destruct E1 as (? & _ & E1). injection E1 as <-. auto.
      + injection E1 as <-. auto. }
  destruct id as [ds|].
  - destruct Hid as [Hn Hz]. assert (Hn' := Hn). destruct Hn' as (Hne & Hds & HN).
    destruct ds as [|c ds]; [congruence|]. inversion Hds as [|? ? Hc Hds']; subst.
    cbn [opt app parse_replacement_field] in E. replace (c =? 125) with false in E by lia. replace (c =? 123) with false in E by lia.
    apply bind_ok in E. destruct E as ([[s1 i1] st1] & E1 & E).
    apply (ct_arg_id (Some (c :: ds)) d rest) in E1; [|split; assumption|discriminate]. destruct E1 as (-> & ds1 & [= <-] & E1).
    destruct (ct_check_good _ _ _ _ _ _ Hg E1) as [-> Hg1]. apply (TAIL st1 Hg1). exact E.
  - subst auto. cbn [opt app] in E. destruct d as [d|].
    + cbn [opt app parse_replacement_field] in E.
      change (58 =? 125) with false in E. change (58 =? 123) with false in E. cbn [parse_arg_id] in E.
      change (negb (58 =? 125) && negb (58 =? 58)) with false in E. cbv iota in E.
      apply bind_ok in E. destruct E as ([[s1 i1] st1] & E1 & E). apply bind_ok in E1. destruct E1 as ([i2 st2] & E1 & E2).
      injection E2 as <- <- <-. destruct (ct_next_good _ _ _ _ _ Hg E1) as [-> Hg1]. apply (TAIL st2 Hg1). exact E.
    + cbn [opt app parse_replacement_field] in E. change (125 =? 125) with true in E. cbv iota in E.
      apply bind_ok in E. destruct E as ([i2 st2] & E1 & E).
      destruct (ct_next_good _ _ _ _ _ Hg E1) as [-> Hg1]. apply (TAIL st2 Hg1). exact E.
Qed.

Lemma ct_loop : forall ts auto used next acc st fuel st',
  wf_tokens e type_ok ts next -> same_mode auto ts -> ct_good auto used next st ->
  parse_loop fuel h (acc ++ render e ts) (render e ts) st = Ok st' ->
  ct_check_args_exhausted types st' = Ok tt -> index_ok n ts next used = true.
Proof.
  induction ts as [|t ts IH]; intros auto used next acc st fuel st' Hwf Hm Hg E HX.
  - cbn [tokens_text flat_map] in E. rewrite app_nil_r in E.
    assert (E2 : ct_literal cf acc st = Ok st') by (destruct fuel; exact E).
    unfold ct_literal in E2. apply bind_ok in E2. destruct E2 as (ok & _ & E2). destruct ok; [|discriminate]. injection E2 as <-.
    unfold ct_check_args_exhausted in HX. cbn [index_ok]. unfold covers, num_args in *. rewrite Nat2Z.id.
    destruct (n =? 0) eqn:E0; [replace (length types) with 0%nat by lia; reflexivity|].
    rewrite (cg_used _ _ _ _ Hg) in HX. destruct (forallb _ _); [reflexivity|discriminate].
  - assert (Hm' : same_mode auto ts) by (intros id d Hin; apply (Hm id d); right; exact Hin).
    change (render e (t :: ts)) with (token_text (render_desc e) t ++ render e ts) in *.
    destruct t as [c|id d]; cbn [token_text wf_gtokens index_ok] in *.
    + destruct Hwf as [Hc Hwf].
      destruct (c =? 123) eqn:E1; [|destruct (c =? 125) eqn:E2]; cbn [app] in *; (destruct fuel as [|f]; [discriminate|]); cbn [parse_loop] in E.
      * change (123 =? 123) with true in E. cbv iota in E. apply bind_ok in E. destruct E as (st1 & E3 & E).
        assert (E3' : st1 = st). { cbn [h_literal ct_handler] in E3. unfold ct_literal in E3. apply bind_ok in E3. destruct E3 as (ok & _ & E3). destruct ok; [|discriminate]. congruence. } subst st1.
        apply bind_ok in E. destruct E as ([p st2] & E4 & E). cbn [parse_replacement_field] in E4.
        change (123 =? 125) with false in E4. change (123 =? 123) with true in E4. cbv iota in E4.
        apply bind_ok in E4. destruct E4 as (st3 & E4 & E5). injection E5 as <- <-.
        assert (E4' : st3 = st). { cbn [h_literal ct_handler] in E4. unfold ct_literal in E4. apply bind_ok in E4. destruct E4 as (ok & _ & E4). destruct ok; [|discriminate]. congruence. } subst st3.
        cbn [h_failed ct_handler] in E. eapply (IH auto used next []); eassumption.
      * change (125 =? 123) with false in E. change (125 =? 125) with true in E. cbv iota in E. cbn [negb] in E.
        apply bind_ok in E. destruct E as (st1 & E3 & E).
        assert (E3' : st1 = st). { cbn [h_literal ct_handler] in E3. unfold ct_literal in E3. apply bind_ok in E3. destruct E3 as (ok & _ & E3). destruct ok; [|discriminate]. congruence. } subst st1.
        eapply (IH auto used next []); eassumption.
      * rewrite E1, E2 in E. eapply (IH auto used next (acc ++ [c])); try eassumption. rewrite <- app_assoc. exact E.
    + destruct Hwf as (Hid & Hok & Hwf).
      assert (ER : field_text (render_desc e) id d ++ render e ts = 123 :: tl (field_text (render_desc e) id d ++ render e ts)) by reflexivity.
      rewrite ER in E. destruct fuel as [|f]; [discriminate|]. cbn [parse_loop] in E. change (123 =? 123) with true in E. cbv iota in E.
      apply bind_ok in E. destruct E as (st1 & E3 & E).
      assert (E3' : st1 = st). { cbn [h_literal ct_handler] in E3. unfold ct_literal in E3. apply bind_ok in E3. destruct E3 as (ok & _ & E3). destruct ok; [|discriminate]. congruence. } subst st1.
      apply bind_ok in E. destruct E as ([p st2] & E4 & E). rewrite <- ER in E4.
      destruct (ct_field auto used next id d (render e ts) st p st2) as (-> & -> & Hg2); try assumption; [apply (Hm id d); left; reflexivity|].
      cbn [h_failed ct_handler] in E. eapply (IH auto _ (next + 1) []); eassumption.
Qed.

Lemma checker_index ts : uniform ts -> wf_tokens e type_ok ts 0 ->
  check_format_string cf contiguous borrowed types custom_parse (render e ts) = Ok tt ->
  index_ok n ts 0 [] = true.
Proof.
  intros Hun Hwf E. assert (Hm : exists auto, same_mode auto ts).
  { destruct Hun as [Hun|Hun]; [exists true|exists false]; intros id d Hin.
    - rewrite (Hun id d Hin). reflexivity.
    - destruct id; [reflexivity|]. exfalso. apply (Hun None d Hin). reflexivity. }
  destruct Hm as [auto Hm]. unfold check_format_string in E. apply bind_ok in E. destruct E as (st & E1 & E2).
  eapply (ct_loop ts auto [] 0 [] (CS 0 [])); try eassumption.
  constructor; cbn; [reflexivity|destruct auto; lia].
Qed.
End CtTokens.
