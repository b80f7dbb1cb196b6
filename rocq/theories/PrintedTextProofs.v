(** Proofs about the text of printed values. *)
From Verif Require Import Prelude UnicodeModel UnicodeSpec UnicodeProofs WhitespaceModel WhitespaceProofs ReadModel ReadProofs
  SpecsModel FormatModel FormatSpec FormatSpecProofs ArgsModel IntModel VscanModel VscanSpec VscanSpecProofs VscanProperties WidthModel
  WidthSpec WidthProofs ArgReaderModel ArgReaderProofs ArgReaderProperties ScalarModel ScalarSpec ScalarProofs
  ScalarProperties StringModel StringSpec StringProofs StringProperties FloatModel FloatSpec FloatProofs FloatProperties
  FloatFieldProperties LocaleModel WiderProofs PrintedSpec IntSpec IntProofs.
Local Open Scope Z_scope.

(** ** Encoded text *)
Lemma text_inj e a b : Forall scalar a -> Forall scalar b -> text e a = text e b -> a = b.
Proof.
  intros Ha Hb E. assert (H1 := for_each_text e a Ha). rewrite E, (for_each_text e b Hb) in H1. congruence.
Qed.
Lemma lead_first (p : Z -> bool) s : starts p s -> exists c l, s = c :: l /\ p c = true.
Proof. destruct s as [|c l]; [intros []|intros H]. exists c, l. auto. Qed.
Lemma lead_none p s : ~ starts p s -> lead p s = [].
Proof. destruct s as [|c l]; [reflexivity|]. cbn. destruct (p c); tauto. Qed.
Lemma lead_app p a s : Forall (fun c => p c = true) a -> lead p (a ++ s) = a ++ lead p s.
Proof. induction 1 as [|c a Hc _ IH]; [reflexivity|]. cbn [app lead]. rewrite Hc, IH. reflexivity. Qed.
Lemma after_lead p s : exists a, s = a ++ after (lead p s) s /\ Forall (fun c => p c = true) a.
Proof.
  exists (lead p s). split; [symmetry; apply lead_after|].
  induction s as [|c s IH]; cbn [lead]; [constructor|]. destruct (p c) eqn:E; constructor; assumption.
Qed.
Lemma repeat_lead p (f : Z) n s : p f = true -> lead p (repeat f n ++ s) = repeat f n ++ lead p s.
Proof. intros H. apply lead_app. apply Forall_forall. intros c Hc. apply repeat_spec in Hc. subst c. exact H. Qed.
Lemma cols_repeat f n : Z.of_nat n <= cols (repeat f n).
Proof. assert (H := cols_length (repeat f n)). rewrite repeat_length in H. exact H. Qed.

Lemma drop_space_text e cps : Forall scalar cps -> drop_space e (text e cps) = text e (after (lead is_ws cps) cps).
Proof.
  intros H. unfold drop_space.
  assert (G : forall fuel, (length (text e cps) <= fuel)%nat -> drop_space_loop fuel e (text e cps) = text e (after (lead is_ws cps) cps)).
  { induction H as [|c l Hc Hl IH]; intros fuel HL; [destruct fuel; reflexivity|].
    destruct (encode_lead e c Hc) as (u & tl & E & _).
    change (text e (c :: l)) with (encode e c ++ text e l) in *. assert (HN := encode_next e c (text e l) Hc).
    rewrite E in *. cbn [app] in *. destruct fuel as [|fuel]; [cbn in HL; lia|]. cbn [drop_space_loop]. rewrite HN.
    cbn [lead]. destruct (is_ws c).
    - rewrite IH; [reflexivity|]. cbn [length] in HL. rewrite app_length in HL. lia.
    - change (after [] (c :: l)) with (c :: l). change (text e (c :: l)) with (encode e c ++ text e l). rewrite E. reflexivity. }
  apply G. lia.
Qed.

(** ** Texts of values *)
(** The characters of numbers, without parentheses. *)
Definition part_char (c : Z) : Prop := payload_char c \/ c = 46 \/ c = 43 \/ c = 45.
Definition with_payload (t : list Z) : Prop := exists n p, t = n ++ 40 :: p ++ [41] /\ any_case word_nan n /\ Forall payload_char p.
Lemma part_float c : part_char c -> float_char c.
Proof. unfold part_char, float_char. tauto. Qed.
Lemma payload_float c : payload_char c -> part_char c.
Proof. left. assumption. Qed.
Lemma digit_float b c : b <= 36 -> is_digit b c -> part_char c.
Proof.
  intros _ (d & E & _). left. unfold payload_char, digit_value in *.
  destruct ((48 <=? c) && (c <=? 57)) eqn:E1; [lia|]. destruct ((97 <=? c) && (c <=? 122)) eqn:E2; [lia|].
  destruct ((65 <=? c) && (c <=? 90)) eqn:E3; [lia|]. discriminate.
Qed.
Lemma any_case_float w t : Forall (fun l => 97 <= l <= 122) w -> any_case w t -> Forall part_char t.
Proof.
  intros Hw H. induction H as [|l c w t Hc _ IH]; [constructor|]. inversion Hw; subst.
  constructor; [left; unfold payload_char; lia|auto].
Qed.
Lemma digits_float b l : b <= 36 -> Forall (is_digit b) l -> Forall part_char l.
Proof. intros Hb Hl. eapply Forall_impl; [|exact Hl]. intros c. apply digit_float, Hb. Qed.
Lemma significand_float b t : b <= 36 -> significand b t -> Forall part_char t.
Proof.
  intros Hb (w & f & H & Hw & Hf & _). destruct H as [[-> ->]| ->]; [eapply digits_float; eauto|].
  apply Forall_app. split; [eapply digits_float; eauto|]. constructor; [unfold part_char; lia|eapply digits_float; eauto].
Qed.
Lemma signed_float n t : signed n t -> Forall part_char t.
Proof. intros []; repeat constructor; unfold part_char; lia. Qed.
Lemma exponent_float l t : 97 <= l <= 122 -> exponent l t -> Forall part_char t.
Proof.
  intros Hl (c & n & sg & ds & -> & Hc & Hs & _ & Hd). constructor; [left; unfold payload_char; lia|].
  apply Forall_app. split; [eapply signed_float; eauto|]. eapply digits_float; [|exact Hd]. lia.
Qed.
Lemma decimal_float fx sc t : decimal fx sc t -> Forall part_char t.
Proof.
  intros [[_ H]|(_ & m & x & -> & H1 & H2)]; [eapply significand_float; [|eauto]; lia|].
  apply Forall_app. split; [eapply significand_float; [|eauto]; lia|eapply exponent_float; [|eauto]; lia].
Qed.
Lemma hexadecimal_float t : hexadecimal t -> Forall part_char t.
Proof.
  intros [H|(m & x & -> & H1 & H2)]; [eapply significand_float; [|eauto]; lia|].
  apply Forall_app. split; [eapply significand_float; [|eauto]; lia|eapply exponent_float; [|eauto]; lia].
Qed.
Lemma hex_prefix_float t : hex_prefix t -> Forall part_char t.
Proof.
  destruct t as [|c t]; intros [H1 H2]; cbn [hd tl] in *; [lia|]. subst c. constructor; [left; unfold payload_char; lia|].
  eapply any_case_float; [|exact H1]. repeat constructor; lia.
Qed.
Lemma grammar_float f t : grammar f t -> Forall part_char t \/ with_payload t.
Proof.
  assert (W : forall w, Forall (fun l => 97 <= l <= 122) w -> any_case w t -> Forall part_char t) by (intros; eapply any_case_float; eauto).
  assert (L1 : Forall (fun l => 97 <= l <= 122) word_inf) by (repeat constructor; lia).
  assert (L2 : Forall (fun l => 97 <= l <= 122) word_infinity) by (repeat constructor; lia).
  assert (L3 : Forall (fun l => 97 <= l <= 122) word_nan) by (repeat constructor; lia).
  assert (P : forall p h, t = p ++ h -> hex_prefix p -> hexadecimal h -> Forall part_char t).
  { intros p h -> H1 H2. apply Forall_app. split; [now apply hex_prefix_float|now apply hexadecimal_float]. }
  intros [[H|H]|[[H|H]|H]]; [eauto|eauto|eauto|right; exact H|].
  left. destruct f.
  + destruct H as [H|(p & h & E & H1 & H2)]; [eapply decimal_float; eauto|eauto].
  + destruct H as [H|(p & h & E & H1 & H2)]; [now apply hexadecimal_float|eauto].
  + eapply decimal_float; eauto.
  + eapply decimal_float; eauto.
  + eapply decimal_float; eauto.
Qed.
Lemma part_ink c : part_char c -> 33 <= c < 128.
Proof. unfold part_char, payload_char. lia. Qed.
Lemma nan_parts n : any_case word_nan n -> Forall part_char n.
Proof. apply any_case_float. repeat constructor; lia. Qed.
Lemma grammar_ink f t : grammar f t -> Forall (fun c => 33 <= c < 128) t.
Proof.
  intros H. apply grammar_float in H. destruct H as [H|(n & p & -> & Hn & Hp)]; [eapply Forall_impl; [exact part_ink|exact H]|].
  apply Forall_app. split; [eapply Forall_impl; [exact part_ink|apply nan_parts, Hn]|]. constructor; [lia|].
  apply Forall_app. split; [|repeat constructor; lia]. eapply Forall_impl; [|exact Hp]. intros c Hc. apply part_ink, payload_float, Hc.
Qed.
Lemma split_last {A} (x : A) a l b : a ++ x :: l = b ++ [x] -> ~ In x b -> a = b.
Proof.
  revert b. induction a as [|y a IH]; intros [|z b] E Hn; cbn [app] in E; [reflexivity|..].
  - injection E as -> _. exfalso. apply Hn. left. reflexivity.
  - injection E as -> E. destruct a; discriminate.
  - injection E as -> E. f_equal. apply IH; [exact E|]. intros H. apply Hn. right. exact H.
Qed.
Definition float_end (s : list Z) : Prop := match s with c :: _ => ~ float_char c | [] => True end.
Lemma float_longest f t s : grammar f t -> float_end s -> longest (grammar f) t s.
Proof.
  intros Hg Hs. split; [exact Hg|]. intros t' rest' E Hg'. apply grammar_float in Hg'.
  destruct (Nat.le_gt_cases (length t') (length t)) as [|Hlt]; [assumption|exfalso].
  assert (E' : exists c l, t' = t ++ c :: l /\ ~ float_char c).
  { apply (f_equal (firstn (length t'))) in E. rewrite firstn_len_app in E. rewrite firstn_app in E.
    rewrite firstn_all2 in E by lia. destruct s as [|c s].
    - rewrite firstn_nil, app_nil_r in E. subst t'. lia.
    - destruct (length t' - length t)%nat as [|n] eqn:EN; [lia|]. cbn [firstn] in E. exists c, (firstn n s). auto. }
  destruct E' as (c & l & -> & Hc). destruct Hg' as [Hg'|(n & p & E' & Hn & Hp)].
  - apply Forall_app in Hg'. destruct Hg' as [_ Hg']. apply Forall_inv in Hg'. apply Hc, part_float, Hg'.
  - assert (Hc' : forall x, In x (n ++ 40 :: p) -> float_char x).
    { intros x Hx. apply in_app_iff in Hx. destruct Hx as [Hx|[<-|Hx]]; [|unfold float_char; lia|].
      - apply part_float. apply nan_parts in Hn. rewrite Forall_forall in Hn. auto.
      - apply part_float, payload_float. rewrite Forall_forall in Hp. auto. }
    replace (n ++ 40 :: p ++ [41]) with ((n ++ 40 :: p) ++ [41]) in E' by (rewrite <- app_assoc; reflexivity).
    assert (H41 : ~ In 41 (n ++ 40 :: p)) by (intros H; apply Hc' in H; unfold float_char, payload_char in H; lia).
    assert (c = 41) as ->.
    { assert (HI : In c ((n ++ 40 :: p) ++ [41])) by (rewrite <- E'; apply in_elt). apply in_app_iff in HI.
      destruct HI as [HI|[<-|[]]]; [|reflexivity]. exfalso. apply Hc, Hc', HI. }
    assert (t = n ++ 40 :: p) as -> by exact (split_last 41 t l _ E' H41).
    apply grammar_float in Hg. destruct Hg as [Hg|(n' & p' & E2 & _)].
    + apply Forall_app in Hg. destruct Hg as [_ Hg]. apply Forall_inv in Hg. unfold part_char, payload_char in Hg. lia.
    + apply H41. rewrite E2. apply in_app_iff. right. right. apply in_app_iff. right. left. reflexivity.
Qed.
Lemma longest_unique L t s t' s' : longest L t s -> longest L t' s' -> t ++ s = t' ++ s' -> t = t' /\ s = s'.
Proof.
  intros [H1 H2] [H3 H4] E. assert (length t = length t').
  { apply Nat.le_antisymm; [eapply H4; [symmetry; exact E|exact H1]|eapply H2; [exact E|exact H3]]. }
  assert (t = t') as <-; [|split; [reflexivity|eapply app_inv_head; exact E]].
  apply (f_equal (firstn (length t))) in E. rewrite firstn_len_app, H, firstn_len_app in E. exact E.
Qed.
Lemma nan_len n : any_case word_nan n -> length n = 3%nat.
Proof.
  unfold word_nan. intros H. inversion H as [|? ? ? ? _ H1]; subst. inversion H1 as [|? ? ? ? _ H2]; subst.
  inversion H2 as [|? ? ? ? _ H3]; subst. inversion H3. reflexivity.
Qed.
Lemma split_len {A} (a b c d : list A) : a ++ b = c ++ d -> length a = length c -> a = c /\ b = d.
Proof.
  revert c. induction a as [|x a IH]; intros [|y c] E L; cbn in *; try discriminate; [auto|].
  injection E as -> E. injection L as L. destruct (IH c E L) as [-> ->]. auto.
Qed.
Lemma nan_closed t s : not_a_number t -> float_end s -> ~ open_payload (t ++ s).
Proof.
  intros Ht Hs (n & p & rest & E & Hn & Hp & Hr). apply nan_len in Hn.
  destruct Ht as [Ht|(n' & p' & -> & Hn' & Hp')].
  - apply nan_len in Ht. destruct (split_len _ _ _ _ E) as [_ ->]; [congruence|].
    cbn in Hs. apply Hs. unfold float_char. lia.
  - apply nan_len in Hn'. rewrite <- app_assoc in E. cbn [app] in E. rewrite <- app_assoc in E. cbn [app] in E.
    destruct (split_len _ _ _ _ E) as [_ E']; [congruence|]. injection E' as E'. clear E Hn Hn'.
    revert p E' Hp. induction Hp' as [|c p' Hc _ IH]; intros p E Hp; cbn [app] in E.
    + destruct p as [|c p]; cbn [app] in E.
      * subst rest. cbn in Hr. lia.
      * injection E as <- _. apply Forall_inv in Hp. unfold payload_char in Hp. lia.
    + destruct p as [|c' p]; cbn [app] in E.
      * subst rest. cbn in Hr. tauto.
      * injection E as <- E. apply (IH p E). apply Forall_inv_tail in Hp. exact Hp.
Qed.

Lemma ink c : 33 <= c < 128 -> is_ws c = false.
Proof.
  intros Hc. destruct (is_ws c) eqn:W; [exfalso|reflexivity]. unfold is_ws in W. apply existsb_exists in W.
  destruct W as (x & Hi & Hx). apply Z.eqb_eq in Hx. subst x. vm_compute in Hi.
  repeat (destruct Hi as [Hi|Hi]; [lia|]). exact Hi.
Qed.
Lemma int_base_ok c b : int_base c = Some b -> base_ok b.
Proof.
  unfold base_ok. destruct c as [c|]; cbn [int_base]; [|intros [= <-]; lia].
  repeat match goal with |- context [if ?x then _ else _] => destruct x end; try discriminate; intros [= <-]; lia.
Qed.
Lemma print_ink upper b v : base_ok b -> Forall (fun c => 33 <= c < 128) (print_signed upper b v) /\ print_signed upper b v <> [].
Proof.
  intros Hb. destruct (print_signed_shape upper b v Hb) as (sg & ds & E & Hne & Hds & _ & Hsg & _). rewrite E. split.
  - apply Forall_app. split; [rewrite Hsg; destruct (v <? 0); repeat constructor; lia|].
    eapply Forall_impl; [|exact Hds]. intros c Hc. apply digit_ascii in Hc. lia.
  - intros H. apply app_eq_nil in H. tauto.
Qed.
Lemma float_ink c : float_char c -> 33 <= c < 128.
Proof. unfold float_char, payload_char. lia. Qed.

Lemma prints_shape {F} e (t : scalar_type F) c x b : prints e t c x b ->
  b <> [] /\ Forall scalar b
  /\ match t with TChar _ _ _ | TString _ _ => True | _ => Forall (fun c => 33 <= c < 128) b end.
Proof.
  assert (S : forall l, Forall (fun c => 33 <= c < 128) l -> Forall scalar l).
  { intros l Hl. eapply Forall_impl; [|exact Hl]. intros a Ha. cbn beta in Ha. unfold scalar. lia. }
  assert (G : forall l, Forall (fun c => 33 <= c < 128) l /\ l <> [] -> l <> [] /\ Forall scalar l /\ Forall (fun c => 33 <= c < 128) l)
    by (intros l [H1 H2]; auto).
  destruct 1 as [? ? ? b ? ? Hb ? ?|c v _|c v _|k old a c u _ Hu _|d a c to w _ _ Hw Hne|c p upper _ Hp|f a c M fm neg sg t v _ _ Hs Hg Hst _].
  - apply G, print_ink. eapply int_base_ok; eauto.
  - apply G. destruct v; (split; [repeat constructor; lia|discriminate]).
  - apply G. destruct v; (split; [repeat constructor; lia|discriminate]).
  - split; [discriminate|]. split; [constructor; [exact Hu|constructor]|exact I].
  - auto.
  - apply G. split; [|discriminate]. destruct (print_ok upper 16 p ltac:(unfold base_ok; lia) ltac:(lia)) as (Hd & _ & _).
    repeat (constructor; [lia|]). eapply Forall_impl; [|exact Hd]. intros a Ha. apply digit_ascii in Ha. lia.
  - apply G. split.
    + apply Forall_app. split; [eapply Forall_impl; [exact part_ink|eapply signed_float; eauto]|eapply grammar_ink; eauto].
    + intros H. apply app_eq_nil in H. destruct H as [_ ->]. destruct Hst as [[]|[H|H]].
      * apply infinite_first in H. destruct H as (? & ? & H & _). discriminate.
      * apply nan_first in H. destruct H as (? & ? & H & _). discriminate.
Qed.

(** ** Readers, on code units *)
Lemma int_letter c b : int_base c = Some b -> forall sp, type sp = match c with Some c => optv PNone (fun t => t) (letter_type c) | None => PNone end ->
  get_base sp = Ok b /\ ptype_eqb (type sp) PIntUnsignedDecimal = false /\ (localized sp = false -> check_int_type_specs sp = true).
Proof.
  intros Hb sp Ht. destruct c as [c|]; cbn [int_base] in Hb.
  - assert (Hc : c = 100 \/ c = 120 \/ c = 88 \/ c = 111 \/ c = 98 \/ c = 66).
    { destruct (Z.eqb_spec c 100); [lia|]. destruct (Z.eqb_spec c 120); [lia|]. destruct (Z.eqb_spec c 88); [lia|].
      destruct (Z.eqb_spec c 111); [lia|]. destruct (Z.eqb_spec c 98); [lia|]. destruct (Z.eqb_spec c 66); [lia|]. discriminate. }
    destruct Hc as [->|[->|[->|[->|[->| ->]]]]]; vm_compute in Hb; injection Hb as <-;
      match type of Ht with ?a = ?x => let y := eval vm_compute in x in change (a = y) in Ht end;
      unfold get_base, check_int_type_specs; rewrite Ht; (split; [reflexivity|]; split; [reflexivity|]; intros ->; reflexivity).
  - injection Hb as <-. unfold get_base, check_int_type_specs. rewrite Ht. split; [reflexivity|]. split; [reflexivity|]. intros ->. reflexivity.
Qed.

Lemma pointer_ink upper p : 0 <= p -> Forall (fun c => 33 <= c < 128) (48 :: 120 :: print upper 16 p).
Proof.
  intros Hp. destruct (print_ok upper 16 p ltac:(unfold base_ok; lia) Hp) as (H1 & _).
  repeat (constructor; [lia|]). eapply Forall_impl; [|exact H1]. intros a Ha. apply digit_ascii in Ha. lia.
Qed.
Lemma pointer_units r sep p upper s : 0 <= p < 2 ^ 64 -> enc_ok (s_enc r) s -> ~ starts_with_digit 16 s ->
  pointer_read sep r ((48 :: 120 :: print upper 16 p) ++ s) = Ok (p, s).
Proof.
  intros Hp Hs Hd. destruct (print_ok upper 16 p ltac:(unfold base_ok; lia) ltac:(lia)) as (H1 & H2 & (c & p' & H3 & _)).
  assert (He : enc_ok (s_enc r) ((48 :: 120 :: print upper 16 p) ++ s)).
  { intros E8. specialize (Hs E8). apply bytes_app. split; [|exact Hs]. eapply Forall_impl; [|apply pointer_ink; lia]. cbn beta. intros a Ha. unfold is_byte. lia. }
  cbn [app] in *.
  assert (HP : has_prefix 120 16 (48 :: 120 :: print upper 16 p ++ s) = true).
  { rewrite H3. cbn [app has_prefix]. rewrite H3 in H1. apply Forall_inv in H1. destruct H1 as (d & E & HD). unfold digitb. rewrite E.
    cbn. lia. }
  rewrite (C31_accepted sep r _ (print upper 16 p) s).
  - rewrite H2. destruct (Z.ltb_spec p (2 ^ 64)); [reflexivity|lia].
  - exact He.
  - intros _ _. cbn. lia.
  - reflexivity.
  - cbn [split_sign Z.eqb Pos.eqb snd]. unfold read_base. cbn [Z.eqb Pos.eqb orb]. rewrite HP. cbn [andb snd skipn].
    split; [reflexivity|]. split; [rewrite H3; discriminate|]. split; assumption.
Qed.
Lemma float_text_ink neg sg fm t : signed neg sg -> grammar fm t -> Forall (fun c => 33 <= c < 128) (sg ++ t).
Proof.
  intros Hs Hg. apply Forall_app. split; [eapply Forall_impl; [exact part_ink|eapply signed_float; eauto]|eapply grammar_ink; eauto].
Qed.
Lemma float_units r {V} (f : fp V) (M : meaning V) loc sp fm neg sg t v s : s_contig r = true -> converts f M -> asks sp fm -> localized sp = false ->
  signed neg sg -> grammar fm t -> starts_with_digit 10 t \/ infinite t \/ not_a_number t -> reads M fm neg t (Ok v) ->
  units (s_enc r) ((sg ++ t) ++ s) -> float_end s ->
  float_read_specs f r loc sp ((sg ++ t) ++ s) = Ok (v, s).
Proof.
  intros Hcg HC Ha Hl Hs Hg Hst Hr Hu Hend.
  rewrite <- app_assoc in *. set (u := t ++ s) in *.
  assert (Hc1 : exists c t', t = c :: t' /\ c <> 43 /\ c <> 45).
  { destruct Hst as [H|[H|H]].
    - destruct t as [|c t']; [destruct H|]. exists c, t'. cbn in H. apply digit10_iff in H. split; [reflexivity|lia].
    - apply infinite_first in H. destruct H as (c & t' & -> & H). exists c, t'. split; [reflexivity|lia].
    - apply nan_first in H. destruct H as (c & t' & -> & H). exists c, t'. split; [reflexivity|lia]. }
  destruct Hc1 as (c & t' & Et & Hc).
  destruct (C32_partial f M r loc sp fm neg sg u HC Ha Hl Hu Hs) as [(_ & t1 & rest & out & E & HL & HR & ->)|[HN _]].
  - intros _. unfold u. rewrite Et. exact Hc.
  - unfold u. rewrite Et. destruct sg; discriminate.
  - destruct (longest_unique (grammar fm) t s t1 rest (float_longest fm t s Hg Hend) HL E) as [<- <-].
    rewrite (C32_unique M fm neg t out (Ok v) HR Hr). reflexivity.
  - exfalso. apply HN. unfold readable. destruct Hst as [H|[H|H]].
    + right. right. split; [unfold u; rewrite Et in *; exact H|]. split; [exists t, s; auto|]. congruence.
    + left. exists t, s. auto.
    + right. left. split; [exists t, s; auto|]. apply nan_closed; assumption.
Qed.

(** ** Readers *)
Section Bodies.
Variable r : src.
Notation e := (s_enc r).
Hypothesis Hgood : good_src r.
Lemma good_u16 : e <> U16.
Proof. destruct Hgood as [->|[-> _]]; discriminate. Qed.

Lemma first_text s : Forall scalar s ->
  match text e s with
  | [] => s = []
  | u :: us => exists c l, s = c :: l /\ (u < 128 /\ u = c /\ us = text e l \/ 128 <= u /\ 128 <= c)
  end.
Proof.
  destruct 1 as [|c l Hc Hl]; [reflexivity|]. change (text e (c :: l)) with (encode e c ++ text e l).
  destruct (encode_units e c good_u16 Hc) as [[H1 ->]|[H1 H2]]; cbn [app]; [exists c, l; auto 6|].
  destruct (encode_lead e c Hc) as (u & tl & E & _). rewrite E in *. cbn [app]. exists c, l. apply Forall_inv in H2. auto.
Qed.
Lemma digit_text b s : Forall scalar s -> starts_with_digit b (text e s) -> starts_with_digit b s.
Proof.
  intros Hs. assert (H := first_text s Hs). destruct (text e s) as [|u us]; [intros []|].
  destruct H as (c & l & -> & [(_ & -> & _)|[H _]]); cbn [starts_with_digit]; [auto|]. intros HD. apply digit_ascii in HD. lia.
Qed.
Lemma prefix_text L b s : L < 128 -> Forall scalar s -> has_prefix L b (48 :: text e s) = true -> has_prefix L b (48 :: s) = true.
Proof.
  intros HL Hs. cbn [has_prefix]. assert (H := first_text s Hs). destruct (text e s) as [|u us]; [discriminate|].
  destruct H as (c & l & -> & [(_ & -> & ->)|[H _]]).
  - apply Forall_inv_tail in Hs. assert (H := first_text l Hs). destruct (text e l) as [|u us]; [discriminate|].
    destruct H as (c' & l' & -> & [(_ & -> & _)|[H _]]); [auto|].
    intros HP. apply andb_prop in HP. destruct HP as [_ HP]. exfalso. unfold digitb in HP.
    destruct (digit_value u) as [d|] eqn:E; [|discriminate]. apply Z.ltb_lt in HP.
    assert (HD : is_digit b u) by (exists d; auto). apply digit_ascii in HD. lia.
  - destruct us as [|? ?]; [discriminate|]. intros HP. apply andb_prop in HP. destruct HP as [HP _].
    apply andb_prop in HP. destruct HP as [_ HP]. unfold prefix_letter in HP. lia.
Qed.
Lemma ink_text b s : Forall (fun c => 33 <= c < 128) b -> text e (b ++ s) = b ++ text e s.
Proof.
  intros Hb. rewrite text_app. f_equal. apply ascii_text_enc. eapply Forall_impl; [|exact Hb]. cbn. intros; lia.
Qed.

Definition int_end (b v : Z) (s : list Z) : Prop :=
  ~ starts_with_digit b s /\ (v = 0 -> forall L, prefix_of b L -> has_prefix L b (48 :: s) = false).
Lemma int_reads t b v upper s : type_ok t -> base_ok b -> in_range (it_signed t) (it_bits t) v -> Forall scalar s -> int_end b v s ->
  int_read_default_with_base r t (text e (print_signed upper b v ++ s)) b = Ok (v, text e s).
Proof.
  intros Ht Hb Hv Hs [H1 H2]. destruct (print_ink upper b v Hb) as [Hp _]. rewrite ink_text by exact Hp.
  apply (round_trip r t upper b v false (text e s)); trivial.
  - intros H. apply H1, digit_text; assumption.
  - apply text_enc_ok, Hs.
  - intros E L HL. destruct (has_prefix L b (48 :: text e s)) eqn:EP; [|reflexivity].
    rewrite <- (H2 E L HL). symmetry. apply prefix_text; [|assumption|assumption]. destruct HL as [[_ ->]|[[_ ->]|[_ ->]]]; lia.
Qed.
Lemma pointer_reads sep p upper s : 0 <= p < 2 ^ 64 -> Forall scalar s -> ~ starts_with_digit 16 s ->
  pointer_read sep r (text e ((48 :: 120 :: print upper 16 p) ++ s)) = Ok (p, text e s).
Proof.
  intros Hp Hs Hd. assert (Hi := pointer_ink upper p ltac:(lia)).
  rewrite ink_text by exact Hi. apply pointer_units; [exact Hp|apply text_enc_ok, Hs|]. intros H. apply Hd, digit_text; assumption.
Qed.
Lemma bool_reads (tx nu v : bool) s : Forall scalar s ->
  forall w, (if nu then w = [if v then 49 else 48] else False) \/ (if tx then w = (if v then word_true else word_false) else False) ->
  bool_either tx nu bool_textual_classic (text e (w ++ s)) = Ok (v, text e s).
Proof.
  intros Hs w Hw.
  assert (Hc : Forall scalar (w ++ s)).
  { apply Forall_app. split; [|assumption]. destruct Hw as [Hw|Hw]; [destruct nu|destruct tx]; try contradiction; subst w; destruct v;
      repeat constructor; unfold scalar; lia. }
  rewrite (either_text e tx bool_textual_classic nu (w ++ s) word_true word_false Hc) by (intros _; apply classic_text, Hc).
  assert (E : spelled (spellings tx nu word_true word_false) (w ++ s) = Ok (v, s)).
  { apply C28_spellings. destruct Hw as [Hw|Hw]; [destruct nu|destruct tx]; try contradiction; subst w; [left|right]; split; try reflexivity.
    all: destruct v; reflexivity. }
  rewrite E. reflexivity.
Qed.
Lemma char_reads k u s : scalar u -> char_fits e k u -> Forall scalar s ->
  char_default_read k r (text e ([u] ++ s)) = Ok (u, text e s).
Proof.
  intros Hu Hf Hs. change (text e ([u] ++ s)) with (encode e u ++ text e s). unfold char_default_read.
  assert (HW : wide_character_read e (encode e u ++ text e s) = Ok (u, text e s)).
  { unfold wide_character_read. rewrite code_point_text by exact Hu. cbn [bind].
    replace (u <? invalid_code_point) with true; [reflexivity|]. symmetry. apply Z.ltb_lt. unfold scalar, invalid_code_point in *. lia. }
  destruct k; cbn [char_fits] in Hf.
  - destruct Hf as [He Hlt]. rewrite He in *. assert (Hsc := Hu). unfold scalar in Hu.
    destruct (encode_units U8 u ltac:(discriminate) Hsc) as [[_ ->]|[H _]]; [reflexivity|lia].
  - destruct Hgood as [He|[He _]]; rewrite He in *; [reflexivity|exact HW].
  - apply code_point_text, Hu.
Qed.
Lemma float_reads {V} (f : fp V) (M : meaning V) loc sp fm neg sg t v s : s_contig r = true -> converts f M -> asks sp fm -> localized sp = false ->
  signed neg sg -> grammar fm t -> starts_with_digit 10 t \/ infinite t \/ not_a_number t -> reads M fm neg t (Ok v) ->
  Forall scalar s -> float_end s ->
  float_read_specs f r loc sp (text e ((sg ++ t) ++ s)) = Ok (v, text e s).
Proof.
  intros Hcg HC Ha Hl Hs Hg Hst Hr Hsc Hend. assert (Hi := float_text_ink neg sg fm t Hs Hg).
  assert (Hend' : float_end (text e s)).
  { assert (H := first_text s Hsc). destruct (text e s) as [|u us]; [exact I|]. cbn.
    destruct H as (c & l & -> & [(_ & -> & _)|[H _]]); [exact Hend|]. intros HD. apply float_ink in HD. lia. }
  rewrite ink_text by exact Hi. apply (float_units r f M loc sp fm neg); trivial. rewrite <- ink_text by exact Hi.
  apply text_units. apply Forall_app. split; [|assumption]. eapply Forall_impl; [|exact Hi]. intros a Ha'. cbn beta in Ha'. unfold scalar. lia.
Qed.
End Bodies.

