(** What the format-spec parser can put into format_specs. *)
From Verif Require Import Prelude UnicodeModel UnicodeProofs ReadProofs SpecsModel ArgsModel
  FormatModel FormatProofs.
Local Open Scope Z_scope.

Lemma ok_bind {A B} (x : outcome A) (f : A -> outcome B) b :
  bind x f = Ok b -> exists a, x = Ok a /\ f a = Ok b.
Proof. destruct x; cbn; try discriminate. eauto. Qed.

Ltac inv_ok := repeat match goal with
  | E : bind _ _ = Ok _ |- _ =>
      apply ok_bind in E; let x := fresh in let E1 := fresh "E" in let E2 := fresh "E" in
      destruct E as (x & E1 & E2); cbn beta iota in E2
  | E : (let '(_, _) := ?p in _) = Ok _ |- _ => destruct p eqn:?
  | E : Ok _ = Ok _ |- _ => injection E; clear E; intros; subst
  | E : UB = Ok _ |- _ => discriminate
  | E : Err _ = Ok _ |- _ => discriminate
  | E : OutOfFuel = Ok _ |- _ => discriminate
  | E : (if ?b then _ else _) = Ok _ |- _ => destruct b eqn:?
  | E : match ?l with [] => _ | _ :: _ => _ end = Ok _ |- _ => destruct l eqn:?
  end.

Section Pres.
Variable P : specs -> Prop.
Variable e : enc.
Hypothesis P_align : forall a s, P s -> P (set_align a s).
Hypothesis P_fill : forall u f s, P s -> fill_assign e u (fill s) = Ok f -> P (set_fill f s).
Hypothesis P_width : forall w s, P s -> 0 <= w <= 0x7fffffff -> precision s = 0 \/ w <= precision s ->
  P (set_width w s).
Hypothesis P_precision : forall p s, P s -> 0 <= p <= 0x7fffffff -> width s <= p -> P (set_precision p s).
Hypothesis P_type : forall t s, P s -> P (set_type t s).
Hypothesis P_literals : forall v s, P s -> P (set_literals (lits_set (charset_literals s) v) s).
Hypothesis P_nonascii : forall s, P s -> P (set_has_nonascii s).
Hypothesis P_inverted : forall s, P s -> P (set_is_inverted s).
Hypothesis P_string : forall t s, P s -> P (set_string t s).
Hypothesis P_flags : forall f s, P s -> P (set_flags f s).
Hypothesis P_localized : forall s, P s -> P (set_localized s).

Notation Q st := (P (ss_specs st)).
Lemma Q_upd f st : (forall s, P s -> P (f s)) -> Q st -> Q (s_upd f st).
Proof. intros H1 H2. apply H1, H2. Qed.
Lemma Q_error st : Q st -> Q (s_error st).
Proof. auto. Qed.

Lemma simple_int_range s : forall v x s', parse_simple_int_loop s v = (x, s') -> 0 <= v <= 0x7fffffff ->
  x = -1 \/ 0 <= x <= 0x7fffffff.
Proof.
  induction s as [|c s IH]; intros v x s'; cbn [parse_simple_int_loop].
  - intros [= <- _]. auto.
  - destruct (is_digit c) eqn:E.
    + cbv zeta. destruct (_ <? _) eqn:E2; [intros [= <- _]; auto|]. intros H Hv. eapply IH; [exact H|].
      unfold is_digit in E. lia.
    + intros [= <- _]. auto.
Qed.
Lemma simple_int_range0 s x s' : parse_simple_int s = Ok (x, s') -> x = -1 \/ 0 <= x <= 0x7fffffff.
Proof.
  unfold parse_simple_int. destruct s as [|c s]; [discriminate|]. destruct (is_digit c); [|discriminate].
  intros H. assert (H' : parse_simple_int_loop (c :: s) 0 = (x, s')) by congruence. eapply simple_int_range; [exact H'|lia].
Qed.

Lemma Q_on_align s st s' st' : Q st -> parse_align e s st = Ok (s', st') -> Q st'.
Proof.
  intros HQ. unfold parse_align. intros H. destruct s as [|c s]; [discriminate|]. cbv zeta in H.
  destruct (_ || _); [inv_ok; assumption|]. destruct (skipn _ _) as [|a after]; [inv_ok; assumption|].
  destruct (_ && _); [inv_ok; assumption|]. destruct (_ && _); [inv_ok; assumption|].
  destruct (check_align a).
  - destruct (check_align c); inv_ok; try assumption; apply P_align; assumption.
  - unfold on_fill in H. inv_ok. apply P_align. eapply P_fill; eassumption.
  - unfold on_fill in H. inv_ok. apply P_align. eapply P_fill; eassumption.
  - unfold on_fill in H. inv_ok. apply P_align. eapply P_fill; eassumption.
Qed.
Lemma Q_on_width s st s' st' : Q st -> parse_width s st = Ok (s', st') -> Q st'.
Proof.
  intros HQ. unfold parse_width. intros H. inv_ok; try assumption.
  unfold on_width. destruct (_ && _) eqn:E2; [assumption|]. apply P_width; [assumption| |].
  - apply simple_int_range0 in E. lia.
  - lia.
Qed.
Lemma Q_on_precision s st s' st' : Q st -> parse_precision s st = Ok (s', st') -> Q st'.
Proof.
  intros HQ. unfold parse_precision. intros H. inv_ok; try assumption.
  unfold on_precision. destruct (_ <? _) eqn:E2; [assumption|]. apply P_precision; [assumption| |].
  - apply simple_int_range0 in E. lia.
  - lia.
Qed.

Lemma fold_lits l : forall s, P s -> P (set_literals (fold_left lits_set l (charset_literals s)) s).
Proof.
  induction l as [|v l IH]; intros s HP; cbn [fold_left].
  - destruct s; exact HP.
  - exact (IH (set_literals (lits_set (charset_literals s) v) s) (P_literals v s HP)).
Qed.

Lemma Q_set_literal s st s' st' : Q st -> parse_set_literal specs_set_handler e s st = Ok (s', st') -> Q st'.
Proof.
  intros HQ H. unfold parse_set_literal in H. apply ok_bind in H. destruct H as (x & _ & H).
  assert (HS : forall cp, Q (on_charset_single cp st)).
  { intros cp. unfold on_charset_single. destruct (_ <=? _); apply Q_upd; auto. }
  destruct x as [[first s1]|]; [|inv_ok; assumption].
  destruct s1 as [|d [|c s2]]; try (cbn [specs_set_handler sh_single bind] in H; inv_ok; apply HS).
  destruct (_ && _); [|cbn [specs_set_handler sh_single bind] in H; inv_ok; apply HS].
  apply ok_bind in H. destruct H as (y & _ & H). destruct y as [[second s3]|]; [|inv_ok; assumption].
  destruct (_ <? _); [inv_ok; assumption|]. cbn [specs_set_handler sh_range] in H. unfold on_charset_range in H.
  inv_ok; apply Q_upd; auto. intros q HP. apply fold_lits, HP.
Qed.
Lemma Q_set_loop : forall fuel s st s' st' b, Q st ->
  parse_set_loop fuel specs_set_handler e s st = Ok (s', st', b) -> Q st'.
Proof.
  induction fuel as [|f IH]; intros s st s' st' b HQ H; destruct s as [|c s]; cbn [parse_set_loop] in H;
    cbn [sh_failed specs_set_handler sh_error] in H.
  - inv_ok. assumption.
  - inv_ok; assumption.
  - inv_ok. assumption.
  - destruct (ss_err st); [inv_ok; assumption|]. destruct (c =? 93); [inv_ok; assumption|].
    apply ok_bind in H. destruct H as ([s2 st2] & E & H). eapply IH; [|exact H]. eapply Q_set_literal; eassumption.
Qed.
Lemma Q_finish_set s s2 st s' st' set : Q st -> finish_set specs_set_handler e s s2 st = Ok (s', st', set) -> Q st'.
Proof.
  intros HQ H. unfold finish_set in H. apply ok_bind in H. destruct H as ([[s3 st3] b] & E & H).
  apply Q_set_loop in E; [|exact HQ]. inv_ok; assumption.
Qed.
Lemma Q_set s st s' st' set : Q st -> parse_presentation_set specs_set_handler e s st = Ok (s', st', set) -> Q st'.
Proof.
  intros HQ H. unfold parse_presentation_set in H. destruct s as [|c s]; [discriminate|].
  destruct (Z.eq_dec c 91) as [->|Hc].
  2:{ exfalso. revert H. destruct c as [|p|p]; try discriminate.
      repeat (destruct p as [p|p|]; try discriminate). contradiction. }
  cbv iota in H. destruct s as [|c s2]; [inv_ok; assumption|]. destruct (c =? 94).
  - cbv zeta in H. destruct s2 as [|d s3]; [inv_ok; apply P_inverted; assumption|].
    assert (HI : Q (sh_inverted specs_set_handler st)) by (apply P_inverted, HQ).
    destruct (d =? 93).
    + cbn [sh_single specs_set_handler bind] in H. eapply Q_finish_set; [|exact H].
      unfold on_charset_single. destruct (_ <=? _); apply Q_upd; auto.
    + eapply Q_finish_set; [|exact H]. exact HI.
  - destruct (c =? 93); [inv_ok; assumption|]. eapply Q_finish_set; eassumption.
Qed.

Lemma Q_flags_loop cf s : forall fl st s' st' x, Q st -> regex_flags_loop cf s fl st = (s', st', x) -> Q st'.
Proof.
  induction s as [|c s IH]; intros fl st s' st' x HQ; cbn [regex_flags_loop].
  - intros [= _ <- _]. exact HQ.
  - destruct (c =? 125); [intros [= _ <- _]; exact HQ|].
    destruct (regex_flag c); [|intros [= _ <- _]; exact HQ].
    destruct (negb _); [intros [= _ <- _]; exact HQ|]. cbv zeta. apply IH.
    destruct (_ && _); exact HQ.
Qed.
Lemma Q_regex cf s st s' st' : Q st -> parse_presentation_regex cf s st = Ok (s', st') -> Q st'.
Proof.
  intros HQ H. unfold parse_presentation_regex in H. destruct (negb (c_regex cf)); [inv_ok; assumption|].
  destruct s as [|c s]; [discriminate|].
  destruct (Z.eq_dec c 47) as [->|Hc].
  2:{ exfalso. revert H. destruct c as [|p|p]; try discriminate.
      repeat (destruct p as [p|p|]; try discriminate). contradiction. }
  cbv iota in H. destruct (_ && _); [inv_ok; assumption|]. destruct s as [|c1 s1]; [inv_ok; assumption|].
  destruct (regex_end 47 (c1 :: s1) PRegex) as [s2 t]. cbv zeta in H.
  assert (H1 : Q (s_upd (set_type t) st)) by (apply Q_upd; auto).
  destruct s2 as [|d s3]; [inv_ok; exact H1|].
  destruct (firstn _ _) as [|p0 pat]; [inv_ok; exact H1|].
  assert (H2 : Q (s_upd (set_string (p0 :: pat)) (s_upd (set_type t) st))) by (apply Q_upd; auto).
  destruct s3 as [|d2 s4]; [inv_ok; exact H2|].
  destruct (regex_flags_loop _ _ _ _) as [[s5 st5] fl] eqn:EF. apply Q_flags_loop in EF; [|exact H2].
  destruct fl; [|inv_ok; exact EF]. destruct s5; inv_ok; apply P_flags, EF.
Qed.

Lemma Q_presentation cf s st s' st' : c_enc cf = e -> Q st -> do_presentation cf s st = Ok (s', st') -> Q st'.
Proof.
  intros He HQ H. unfold do_presentation in H. destruct s as [|c s]; [discriminate|].
  destruct (c =? 91).
  { apply ok_bind in H. destruct H as ([[s2 st2] set] & E & H). rewrite He in E. apply Q_set in E; [|exact HQ].
    inv_ok; [exact E|]. apply P_type, P_string, E. }
  destruct (c =? 47); [eapply Q_regex; eassumption|].
  apply ok_bind in H. destruct H as (t & _ & H). destruct t; inv_ok; try exact HQ; apply P_type, HQ.
Qed.
Lemma Q_tail cf t s st s' st' : c_enc cf = e -> Q st -> parse_specs_tail cf t s st = Ok (s', st') -> Q st'.
Proof.
  intros He HQ H. unfold parse_specs_tail in H. destruct s as [|c s]; [discriminate|].
  apply ok_bind in H. destruct H as ([s1 st1] & E & H).
  assert (H1 : Q st1).
  { clear H. destruct (c =? 76); [|injection E as _ <-; exact HQ]. apply ok_bind in E. destruct E as (st2 & E & E').
    inv_ok. unfold on_localized in E. apply ok_bind in E. destruct E as (cat & _ & E).
    destruct cat; inv_ok; try exact HQ; apply P_localized, HQ. }
  cbn beta iota in H. destruct s1 as [|c1 s1]; [injection H as _ <-; exact H1|].
  apply ok_bind in H. destruct H as ([s2 st2] & E2 & H). cbn beta iota in H.
  assert (H2 : Q st2).
  { destruct (negb _); [|injection E2 as _ <-; exact H1]. eapply Q_presentation; eassumption. }
  destruct s2; injection H as _ <-; exact H2.
Qed.
Lemma parse_preserves cf t s st s' st' : c_enc cf = e -> Q st ->
  parse_format_specs cf t s st = Ok (s', st') -> Q st'.
Proof.
  intros He HQ H. unfold parse_format_specs in H. destruct (specs_shortcut s); [eapply Q_presentation; eassumption|].
  destruct s as [|c0 s0]; [inv_ok; exact HQ|].
  apply ok_bind in H. destruct H as ([s1 st1] & E1 & H). rewrite He in E1. apply Q_on_align in E1; [|exact HQ].
  destruct s1 as [|c1 s1]; [inv_ok; exact E1|].
  apply ok_bind in H. destruct H as ([s2 st2] & E2 & H). apply Q_on_width in E2; [|exact E1].
  destruct s2 as [|c2 s2]; [inv_ok; exact E2|].
  destruct (c2 =? 46); [|eapply Q_tail; [exact He|exact E2|exact H]].
  destruct s2 as [|c3 s3]; [inv_ok; exact E2|].
  apply ok_bind in H. destruct H as ([s4 st4] & E4 & H). apply Q_on_precision in E4; [|exact E2].
  destruct s4 as [|c4 s4]; [inv_ok; exact E4|]. eapply Q_tail; [exact He|exact E4|exact H].
Qed.
End Pres.

(** Invariant of every format_specs the parser produces. *)
Record parsed (sp : specs) : Prop := Parsed {
  p_base : arbitrary_base sp = 0;
  p_width : 0 <= width sp <= 0x7fffffff;
  p_prec : 0 <= precision sp <= 0x7fffffff;
  p_order : precision sp = 0 \/ width sp <= precision sp;
  p_fill : length (f_data (fill sp)) = 4%nat /\ (1 <= f_size (fill sp) <= 4)%nat;
  p_lits : length (charset_literals sp) = 16%nat }.

Lemma lits_set_length l : forall v, length (lits_set l v) = length l.
Proof. induction l as [|b l IH]; intros v; cbn; [reflexivity|]. destruct (v <? 8); cbn; auto. Qed.

Lemma parsed_default : parsed specs_default.
Proof. constructor; cbn; auto; lia. Qed.

Theorem parse_parsed cf t s s' st' :
  parse_format_specs cf t s (SS specs_default false) = Ok (s', st') -> parsed (ss_specs st').
Proof.
  intros H. refine (parse_preserves parsed (c_enc cf) _ _ _ _ _ _ _ _ _ _ _ cf t s _ s' st' eq_refl _ H).
  - intros a sp []. constructor; assumption.
  - intros u f sp [] E. constructor; cbn; try assumption.
    unfold fill_assign in E. destruct p_fill0 as [E1 E2]. destruct (c_enc cf).
    + destruct (_ || _) eqn:EO; [discriminate|]. injection E as <-. cbn [f_data f_size].
      rewrite app_length, skipn_length, E1. lia.
    + destruct u as [|a [|b [|c u]]]; try discriminate; injection E as <-; cbn [f_data f_size]; split; auto.
      change (S (S (length (skipn 2 (f_data (fill sp))))) = 4%nat). rewrite skipn_length, E1. reflexivity.
    + destruct u as [|a [|b u]]; try discriminate; injection E as <-; cbn [f_data f_size]; split; auto.
  - intros w sp [] Hw Ho. constructor; cbn; assumption.
  - intros p sp [] Hp Ho. constructor; cbn; try assumption. right. exact Ho.
  - intros a sp []. constructor; assumption.
  - intros v sp []. constructor; cbn; try assumption. rewrite lits_set_length. assumption.
  - intros sp []. constructor; assumption.
  - intros sp []. constructor; assumption.
  - intros a sp []. constructor; assumption.
  - intros a sp []. constructor; assumption.
  - intros sp []. constructor; assumption.
  - exact parsed_default.
Qed.
