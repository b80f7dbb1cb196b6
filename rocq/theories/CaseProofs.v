(** Reading numbers commutes with making letters small. *)
From Verif Require Import Prelude Tables BitsModel UnicodeModel UnicodeSpec WhitespaceModel WhitespaceSpec WhitespaceProofs ReadModel ReadProofs SpecsModel
  IntModel WidthModel ArgReaderModel IntSpec IntProofs IntTotalProofs EncodingReadProofs CaseSpec.
Local Open Scope Z_scope.

Notation low := (map small).
Definition keep {A B} (f : A -> B) (x : outcome A) : outcome B := a <- x ;; Ok (f a).
(** What is left over is made small. *)
Definition rest {V} (x : outcome (V * list Z)) : outcome (V * list Z) := keep (fun p => (fst p, low (snd p))) x.
Notation lows := (keep low).
Definition plow (x : pexp (list Z)) : pexp (list Z) := match x with inl s => inl (low s) | inr e => inr e end.

(** ** Units *)
Lemma small_range c : small c = c \/ 65 <= c <= 90 /\ small c = c + 32.
Proof. unfold small. destruct ((65 <=? c) && (c <=? 90)) eqn:E; [right; lia|left; reflexivity]. Qed.
Lemma small_small c : small (small c) = small c.
Proof. unfold small. repeat match goal with |- context [if ?b then _ else _] => destruct b eqn:? end; lia. Qed.
Lemma small_eq c k : ~ letter k -> (small c =? k) = (c =? k).
Proof. intros H. unfold letter in H. destruct (small_range c) as [-> |[Hc ->]]; [reflexivity|]. lia. Qed.
Lemma small_sweep {A} (P : Z -> A) (eqb : A -> A -> bool) : (forall a b, eqb a b = true -> a = b) ->
  forallb (fun c => eqb (P (c + 32)) (P c)) (zseq 65 26) = true -> forall c, P (small c) = P c.
Proof.
  intros He H c. destruct (small_range c) as [-> |[Hc ->]]; [reflexivity|].
  apply He, (sweep (fun c => eqb (P (c + 32)) (P c)) 65 26 H). lia.
Qed.
Lemma small_digit c : char_to_int (small c) = char_to_int c.
Proof. apply (small_sweep char_to_int Z.eqb); [apply Z.eqb_eq|vm_compute; reflexivity]. Qed.
Lemma small_len e c : cp_len e (small c) = cp_len e c.
Proof. apply (small_sweep (cp_len e) Nat.eqb); [apply Nat.eqb_eq|destruct e; vm_compute; reflexivity]. Qed.
Lemma small_trailing c : is_trailing (small c) = is_trailing c.
Proof. apply (small_sweep is_trailing Bool.eqb); [apply eqb_prop|vm_compute; reflexivity]. Qed.
Lemma small_space c : is_cp_space (small c) = is_cp_space c.
Proof. apply (small_sweep is_cp_space Bool.eqb); [apply eqb_prop|vm_compute; reflexivity]. Qed.
Lemma small_width c : cp_width (small c) = cp_width c.
Proof. apply (small_sweep cp_width Z.eqb); [apply Z.eqb_eq|vm_compute; reflexivity]. Qed.
Lemma small_above c : 128 <= c -> small c = c.
Proof. intros H. unfold small. destruct ((65 <=? c) && (c <=? 90)) eqn:E; [lia|reflexivity]. Qed.
Lemma small_fold c d : small c = small d -> is_cp_space c = is_cp_space d /\ cp_width c = cp_width d.
Proof. intros H. rewrite <- (small_space c), <- (small_space d), <- (small_width c), <- (small_width d), H. auto. Qed.
Lemma low_bytes s : bytes s -> bytes (low s).
Proof. unfold bytes. rewrite Forall_map. apply Forall_impl. intros c Hc. unfold is_byte in *. destruct (small_range c) as [-> |[H ->]]; lia. Qed.
Lemma low_low s : low (low s) = low s.
Proof. rewrite map_map. apply map_ext, small_small. Qed.

(** ** Code points *)
Lemma land_small a m k : (forall c, 65 <= c <= 90 -> ((Z.land (c + 32) m =? k) = (Z.land c m =? k))) ->
  (Z.land (small a) m =? k) = (Z.land a m =? k).
Proof. intros H. destruct (small_range a) as [-> |[Hc ->]]; [reflexivity|apply H, Hc]. Qed.
Lemma trailing_small c : is_trailing c = true -> small c = c.
Proof. intros H. destruct (small_range c) as [|[Hc _]]; [assumption|exfalso]. revert H. assert (E : forallb (fun c => negb (is_trailing c)) (zseq 65 26) = true) by (vm_compute; reflexivity).
  assert (HS := sweep _ 65 26 E c ltac:(lia)). cbn beta in HS. destruct (is_trailing c); [discriminate|intros; discriminate]. Qed.
Ltac lead_tac a m k :=
  assert (EL : (Z.land (small a) m =? k) = (Z.land a m =? k)) by (apply (small_sweep (fun a => Z.land a m =? k) Bool.eqb); [apply eqb_prop|vm_compute; reflexivity]);
  assert (EK : (Z.land a m =? k) = true -> small a = a) by
    (intros HK; destruct (small_range a) as [|[Hc _]]; [assumption|exfalso];
     assert (E : forallb (fun a => negb (Z.land a m =? k)) (zseq 65 26) = true) by (vm_compute; reflexivity);
     assert (HS := sweep _ 65 26 E a ltac:(lia)); cbn beta in HS; rewrite HK in HS; discriminate).
Lemma decode_low e u : keep small (decode_cp e (low u)) = keep small (decode_cp e u).
Proof.
  destruct e; cbn [decode_cp].
  - destruct u as [|a [|b [|c [|d [|x u]]]]]; cbn [map decode_utf8]; try reflexivity.
    + destruct (small_range a) as [-> |[Ha EA]]; [reflexivity|]. rewrite EA. replace (128 <=? a + 32) with false by lia. replace (128 <=? a) with false by lia.
      unfold keep, bind. rewrite <- EA. rewrite small_small. reflexivity.
    + lead_tac a 224 192. rewrite EL. destruct (Z.land a 224 =? 192) eqn:E1; cbn [negb]; [|reflexivity]. rewrite (EK eq_refl), small_trailing.
      destruct (is_trailing b) eqn:E2; cbn [negb]; [|reflexivity]. rewrite (trailing_small b E2). reflexivity.
    + lead_tac a 240 224. rewrite EL. destruct (Z.land a 240 =? 224) eqn:E1; cbn [negb]; [|reflexivity]. rewrite (EK eq_refl), !small_trailing.
      destruct (is_trailing b) eqn:E2; cbn [negb orb]; [|reflexivity]. destruct (is_trailing c) eqn:E3; cbn [negb orb]; [|reflexivity].
      rewrite (trailing_small b E2), (trailing_small c E3). reflexivity.
    + lead_tac a 248 240. rewrite EL. destruct (Z.land a 248 =? 240) eqn:E1; cbn [negb]; [|reflexivity]. rewrite (EK eq_refl), !small_trailing.
      destruct (244 <? a); [reflexivity|].
      destruct (is_trailing b) eqn:E2; cbn [negb orb]; [|reflexivity]. destruct (is_trailing c) eqn:E3; cbn [negb orb]; [|reflexivity].
      destruct (is_trailing d) eqn:E4; cbn [negb orb]; [|reflexivity].
      rewrite (trailing_small b E2), (trailing_small c E3), (trailing_small d E4). reflexivity.
  - destruct u as [|a [|b [|c u]]]; cbn [map decode_utf16]; try reflexivity.
    + unfold keep, bind. rewrite small_small. reflexivity.
    + replace ((small a <? 55296) || (56319 <? small a) || (small b <? 56320) || (57343 <? small b))
        with ((a <? 55296) || (56319 <? a) || (b <? 56320) || (57343 <? b)) by (destruct (small_range a) as [-> |[Ha ->]], (small_range b) as [-> |[Hb ->]]; lia).
      destruct ((a <? 55296) || (56319 <? a) || (b <? 56320) || (57343 <? b)) eqn:E; [reflexivity|].
      rewrite (small_above a), (small_above b) by lia. reflexivity.
  - destruct u as [|a [|b u]]; cbn [map]; try reflexivity. unfold invalid_code_point.
    replace (1114112 <=? small a) with (1114112 <=? a) by (destruct (small_range a) as [-> |[Ha ->]]; lia).
    destruct (1114112 <=? a); [reflexivity|]. unfold keep, bind. rewrite small_small. reflexivity.
Qed.
Lemma start_low e s : get_start_for_next_code_point e (low s) = low (get_start_for_next_code_point e s).
Proof. induction s as [|c s IH]; cbn [map get_start_for_next_code_point]; [reflexivity|]. rewrite small_len. destruct (cp_len e c); [exact IH|reflexivity]. Qed.
Lemma keep_small x y : keep small x = keep small y ->
  match y with Ok c => exists c', x = Ok c' /\ small c' = small c | Err e => x = Err e | UB => x = UB | OutOfFuel => x = OutOfFuel end.
Proof. destruct x, y; cbn; intros H; try discriminate; try congruence. injection H as H. eauto. Qed.
Lemma next_low e s :
  match get_next_code_point e s with
  | Ok (cp, s') => exists cp', get_next_code_point e (low s) = Ok (cp', low s') /\ small cp' = small cp
  | Err x => get_next_code_point e (low s) = Err x | UB => get_next_code_point e (low s) = UB | OutOfFuel => get_next_code_point e (low s) = OutOfFuel
  end.
Proof.
  destruct s as [|c s]; [reflexivity|]. unfold get_next_code_point. cbn [map]. rewrite small_len. cbv zeta.
  change (small c :: low s) with (low (c :: s)). destruct (cp_len e c) as [|len] eqn:EL.
  - rewrite start_low. eauto.
  - rewrite map_length. destruct (length (c :: s) <? S len)%nat; [eauto|].
    rewrite firstn_map, skipn_map. assert (HD := keep_small _ _ (decode_low e (firstn (S len) (c :: s)))).
    destruct (decode_cp e (firstn (S len) (c :: s))); cbn [bind].
    + destruct HD as (c' & -> & E). cbn [bind]. eauto.
    + rewrite HD. reflexivity.
    + rewrite HD. reflexivity.
    + rewrite HD. reflexivity.
Qed.
Lemma each_low e : forall fuel s, keep low (for_each_code_point_loop fuel e (low s)) = keep low (for_each_code_point_loop fuel e s).
Proof.
  induction fuel as [|fuel IH]; intros s; destruct s as [|c s]; try reflexivity.
  change (low (c :: s)) with (small c :: low s). cbn [for_each_code_point_loop]. change (small c :: low s) with (low (c :: s)).
  assert (HN := next_low e (c :: s)). destruct (get_next_code_point e (c :: s)) as [[cp s']|x| |]; cbn [bind]; try (rewrite HN; reflexivity).
  destruct HN as (cp' & -> & E). cbn [bind]. specialize (IH s'). unfold keep, bind in IH |- *.
  destruct (for_each_code_point_loop fuel e (low s')), (for_each_code_point_loop fuel e s'); try discriminate; try congruence.
  injection IH as IH. cbn [map]. rewrite E, IH. reflexivity.
Qed.
Lemma widths_low l l' : low l = low l' -> fold_right (fun cp n => cp_width cp + n) 0 l = fold_right (fun cp n => cp_width cp + n) 0 l'.
Proof.
  revert l'. induction l as [|c l IH]; intros [|d l']; cbn; intros H; try discriminate; [reflexivity|].
  injection H as Hc Hl. rewrite (IH l' Hl). destruct (small_fold c d Hc) as [_ ->]. reflexivity.
Qed.
Lemma width_low e s : text_width e (low s) = text_width e s.
Proof.
  unfold text_width, for_each_code_point. rewrite map_length. assert (H := each_low e (length s) s). unfold keep, bind in *.
  destruct (for_each_code_point_loop _ e (low s)), (for_each_code_point_loop _ e s); try discriminate; try congruence.
  injection H as H. f_equal. apply widths_low, H.
Qed.

(** ** Views *)
Lemma width_at_low e s : width_at e (low s) = width_at e s.
Proof.
  destruct s as [|c s]; [reflexivity|]. unfold width_at. cbn [map]. rewrite small_len, small_width.
  change (small c :: low s) with (low (c :: s)). destruct (cp_len e c) as [|[|len]]; try reflexivity. rewrite map_length, firstn_map, width_low. reflexivity.
Qed.
Lemma increment_low e count left s : increment e count left (low s) = increment e count left s.
Proof. unfold increment. rewrite width_at_low. destruct s as [|c s]; [reflexivity|]. cbn [map]. rewrite small_len. reflexivity. Qed.
Lemma at_end_low e count left s : at_end e count left (low s) = at_end e count left s.
Proof. unfold at_end. rewrite width_at_low. reflexivity. Qed.
Lemma tw_low e : forall s count left, tw_from e count left (low s) = lows (tw_from e count left s).
Proof.
  induction s as [|c s IH]; intros count left; [reflexivity|].
  change (low (c :: s)) with (small c :: low s). cbn [tw_from]. change (small c :: low s) with (low (c :: s)).
  rewrite at_end_low, increment_low. destruct (at_end e count left (c :: s)) as [[|]| | |]; try reflexivity. cbn [bind].
  destruct (increment e count left (c :: s)) as [[n l]| | |]; try reflexivity. cbn [bind]. rewrite IH.
  destruct (tw_from e n l s); reflexivity.
Qed.
Lemma take_low e s n : take_width e (low s) n = lows (take_width e s n).
Proof. apply tw_low. Qed.
Lemma tw_count_low e : forall k s count left, tw_count e count left (low s) k = tw_count e count left s k.
Proof.
  induction k as [|k IH]; intros s count left; [destruct s; reflexivity|]. destruct s as [|c s]; [reflexivity|].
  change (low (c :: s)) with (small c :: low s). cbn [tw_count]. change (small c :: low s) with (low (c :: s)). rewrite increment_low.
  destruct (increment e count left (c :: s)) as [[n l]| | |]; try reflexivity. cbn [bind]. apply IH.
Qed.
Lemma base_low s v l : view_base (low s) (low v) (low l) = low (view_base s v l).
Proof. unfold view_base. rewrite !map_length, skipn_map. reflexivity. Qed.
Lemma count_low e s v l n : view_count e (low s) (low v) (low l) n = view_count e s v l n.
Proof. unfold view_count. rewrite !map_length. apply tw_count_low. Qed.

(** ** White space *)
Lemma into_low e s : read_code_point_into e (low s) = keep (fun p => (low (fst p), low (snd p))) (read_code_point_into e s).
Proof.
  destruct s as [|c s]; [reflexivity|]. unfold read_code_point_into. cbn [map]. rewrite small_len. destruct (cp_len e c) as [|len].
  - rewrite start_low. reflexivity.
  - change (small c :: low s) with (low (c :: s)). rewrite skipn_map, firstn_map. reflexivity.
Qed.
Lemma until_low e p : (forall c d, small c = small d -> p c = p d) ->
  forall fuel s, read_until_code_point_loop fuel e p (low s) = lows (read_until_code_point_loop fuel e p s).
Proof.
  intros Hp. induction fuel as [|fuel IH]; intros s; destruct s as [|c s]; try reflexivity.
  change (low (c :: s)) with (small c :: low s). cbn [read_until_code_point_loop]. change (small c :: low s) with (low (c :: s)).
  rewrite into_low. destruct (read_code_point_into e (c :: s)) as [[l u]| | |]; try reflexivity. cbn [keep bind fst snd].
  destruct u as [|d u]; cbn [map]; [apply IH|]. change (small d :: low u) with (low (d :: u)).
  assert (HD := keep_small _ _ (decode_low e (d :: u))). destruct (decode_cp e (d :: u)) as [cp| | |]; try (rewrite HD; reflexivity).
  destruct HD as (cp' & -> & E). cbn [bind]. rewrite (Hp _ _ E). destruct (p cp); [reflexivity|apply IH].
Qed.
Lemma steps_low e p : (forall c d, small c = small d -> p c = p d) -> forall s l, steps_while e p s l -> steps_while e p (low s) (low l).
Proof.
  intros Hp s l H. induction H as [s|s cp s' l EN EP _ IH]; [constructor|]. assert (HN := next_low e s). rewrite EN in HN.
  destruct HN as (cp' & E1 & E2). econstructor; [exact E1|rewrite (Hp _ _ E2); exact EP|exact IH].
Qed.
Lemma first_low e p : (forall c d, small c = small d -> p c = p d) -> forall s l, first_at e p s l -> first_at e p (low s) (low l).
Proof.
  intros Hp s l [H1 H2]. split.
  - apply steps_low; [|exact H1]. intros c d E. rewrite (Hp _ _ E). reflexivity.
  - destruct H2 as [-> |(cp & s' & EN & EP)]; [left; reflexivity|]. right. assert (HN := next_low e l). rewrite EN in HN.
    destruct HN as (cp' & E1 & E2). exists cp', (low s'). split; [exact E1|]. rewrite (Hp _ _ E2). exact EP.
Qed.
Lemma space_blind c d : small c = small d -> is_cp_space c = is_cp_space d.
Proof. intros H. apply small_fold, H. Qed.
Lemma nonspace_blind c d : small c = small d -> negb (is_cp_space c) = negb (is_cp_space d).
Proof. intros H. rewrite (space_blind c d H). reflexivity. Qed.
Lemma nonspace_low s : bytes s -> find_classic_nonspace_narrow_fast (low s) = lows (find_classic_nonspace_narrow_fast s).
Proof.
  intros Hb. destruct (find_classic_nonspace_spec s Hb) as (l & -> & H1). destruct (find_classic_nonspace_spec _ (low_bytes s Hb)) as (l' & -> & H2).
  cbn. f_equal. eapply first_at_unique; [exact H2|]. apply first_low; [apply nonspace_blind|exact H1].
Qed.
Lemma space_low s : bytes s -> find_classic_space_narrow_fast (low s) = lows (find_classic_space_narrow_fast s).
Proof.
  intros Hb. destruct (find_classic_space_spec s Hb) as (l & -> & H1). destruct (find_classic_space_spec _ (low_bytes s Hb)) as (l' & -> & H2).
  cbn. f_equal. eapply first_at_unique; [exact H2|]. apply first_low; [apply space_blind|exact H1].
Qed.
Lemma beginning_low r s : contiguous_beginning r (low s) = low (contiguous_beginning r s).
Proof. unfold contiguous_beginning. destruct (s_contig r); [reflexivity|]. rewrite map_length, firstn_map. reflexivity. Qed.
Lemma bytes_beginning r s : bytes s -> bytes (contiguous_beginning r s).
Proof. intros H. unfold contiguous_beginning. destruct (s_contig r); [exact H|]. apply bytes_firstn, H. Qed.
Notation fit := enc_ok.
Lemma while_low r s : fit (s_enc r) s -> read_while_classic_space r (low s) = lows (read_while_classic_space r s).
Proof.
  intros Hf. unfold read_while_classic_space.
  assert (HW : forall e, read_while_code_point e is_cp_space (low s) = lows (read_while_code_point e is_cp_space s)).
  { intros e. unfold read_while_code_point, read_until_code_point. rewrite map_length. apply until_low, nonspace_blind. }
  destruct (s_enc r) eqn:EE; [|apply HW..]. specialize (Hf eq_refl). destruct (s_contig r); [apply nonspace_low, Hf|].
  cbv zeta. rewrite beginning_low, nonspace_low by (apply bytes_beginning, Hf).
  destruct (find_classic_nonspace_narrow_fast (contiguous_beginning r s)) as [[|c l]| | |]; try reflexivity.
  - apply HW.
  - cbn [keep bind map]. change (small c :: low l) with (low (c :: l)). rewrite !map_length, skipn_map. reflexivity.
Qed.
Lemma until_space_low r s : fit (s_enc r) s -> read_until_classic_space r (low s) = lows (read_until_classic_space r s).
Proof.
  intros Hf. unfold read_until_classic_space.
  assert (HW : forall e s, read_until_code_point e is_cp_space (low s) = lows (read_until_code_point e is_cp_space s)).
  { intros e t. unfold read_until_code_point. rewrite map_length. apply until_low, space_blind. }
  destruct (s_enc r) eqn:EE; [|apply HW..]. specialize (Hf eq_refl). destruct (s_contig r); [apply space_low, Hf|].
  cbv zeta. rewrite beginning_low, space_low by (apply bytes_beginning, Hf).
  destruct (find_classic_space_narrow_fast (contiguous_beginning r s)) as [[|c l]| | |]; try reflexivity.
  - cbn [keep bind map]. rewrite map_length, skipn_map. apply HW.
  - cbn [keep bind map]. change (small c :: low l) with (low (c :: l)). rewrite !map_length, skipn_map. reflexivity.
Qed.
Lemma skip_low r s allow : fit (s_enc r) s -> skip_classic_whitespace r (low s) allow = lows (skip_classic_whitespace r s allow).
Proof.
  intros Hf. unfold skip_classic_whitespace. rewrite while_low by exact Hf. destruct (read_while_classic_space r s) as [l| | |]; try reflexivity.
  cbn [keep bind]. destruct allow; [reflexivity|]. destruct l; reflexivity.
Qed.

(** ** Matching *)
Lemma find_low p : (forall c, p (small c) = p c) -> forall s, find_if p (low s) = low (find_if p s).
Proof. intros Hp. induction s as [|c s IH]; [reflexivity|]. cbn [map find_if]. rewrite Hp, IH. destruct (p c); reflexivity. Qed.
Lemma read_while_low p : (forall c, p (small c) = p c) -> forall s, read_while_code_unit p (low s) = low (read_while_code_unit p s).
Proof. intros Hp s. apply find_low. intros c. rewrite Hp. reflexivity. Qed.
Lemma read_while1_low p : (forall c, p (small c) = p c) -> forall s, read_while1_code_unit p (low s) = plow (read_while1_code_unit p s).
Proof.
  intros Hp s. unfold read_while1_code_unit. rewrite (read_while_low p Hp), !map_length. cbv zeta. destruct (_ =? _)%nat; reflexivity.
Qed.
Lemma unit_low k s : ~ letter k -> read_matching_code_unit k (low s) = plow (read_matching_code_unit k s).
Proof. intros Hk. destruct s as [|c s]; [reflexivity|]. cbn [map read_matching_code_unit]. rewrite (small_eq c k Hk). destruct (c =? k); reflexivity. Qed.
Lemma zero_or_32 z : (z =? 0) || (z =? 32) = (Z.ldiff z 32 =? 0).
Proof.
  destruct (Z.ldiff z 32 =? 0) eqn:E.
  - apply Z.eqb_eq in E.
    assert (EZ : z = Z.land z 32).
    { apply Z.bits_inj'. intros n Hn. assert (B := f_equal (fun w => Z.testbit w n) E). cbn beta in B. rewrite Z.ldiff_spec, Z.bits_0 in B. rewrite Z.land_spec.
      destruct (Z.testbit z n), (Z.testbit 32 n); cbn in *; congruence. }
    assert (H32 : Z.land z 32 = 0 \/ Z.land z 32 = 32).
    { change 32 with (2 ^ 5). destruct (Z.testbit z 5) eqn:E5; [right|left]; apply Z.bits_inj'; intros n Hn; rewrite Z.land_spec, Z.pow2_bits_eqb, ?Z.bits_0 by lia;
        destruct (5 =? n) eqn:EN; rewrite ?andb_false_r; try reflexivity; apply Z.eqb_eq in EN; subst n; rewrite E5; reflexivity. }
    destruct H32 as [H|H]; rewrite H in EZ; rewrite EZ; reflexivity.
  - destruct (z =? 0) eqn:E0; [apply Z.eqb_eq in E0; subst z; discriminate|]. destruct (z =? 32) eqn:E1; [apply Z.eqb_eq in E1; subst z; discriminate|]. reflexivity.
Qed.
Lemma diff_low : forall a b, Z.ldiff (running_diff (low a) b) 32 = Z.ldiff (running_diff a b) 32.
Proof.
  induction a as [|x a IH]; intros [|y b]; try reflexivity. cbn [map running_diff]. specialize (IH b).
  assert (HX : Z.ldiff (small x) 32 = Z.ldiff x 32).
  { apply (small_sweep (fun x => Z.ldiff x 32) Z.eqb); [apply Z.eqb_eq|vm_compute; reflexivity]. }
  apply Z.bits_inj'. intros n Hn. assert (B1 := f_equal (fun w => Z.testbit w n) IH). assert (B2 := f_equal (fun w => Z.testbit w n) HX). cbn beta in *.
  rewrite !Z.ldiff_spec in B1, B2 |- *. rewrite !Z.lor_spec, !Z.lxor_spec.
  destruct (Z.testbit (small x) n), (Z.testbit x n), (Z.testbit y n), (Z.testbit 32 n), (Z.testbit (running_diff a b) n), (Z.testbit (running_diff (low a) b) n); cbn in *; congruence.
Qed.
Lemma streq_low a b : fast_streq_nocase (low a) b = fast_streq_nocase a b.
Proof. unfold fast_streq_nocase. cbv zeta. rewrite !zero_or_32, diff_low. reflexivity. Qed.
Lemma lower_low c : ascii_tolower (small c) = ascii_tolower c.
Proof. apply (small_sweep ascii_tolower Z.eqb); [apply Z.eqb_eq|vm_compute; reflexivity]. Qed.
Lemma equal_low : forall str s, equal_nocase str (low s) = equal_nocase str s.
Proof. induction str as [|n str IH]; intros [|c s]; try reflexivity. cbn [map equal_nocase]. rewrite lower_low, IH. reflexivity. Qed.
Lemma nocase_low r str s : read_matching_string_classic_nocase r str (low s) = plow (read_matching_string_classic_nocase r str s).
Proof.
  unfold read_matching_string_classic_nocase. rewrite map_length, firstn_map, streq_low, equal_low, skipn_map. cbv zeta.
  destruct (length s <? length str)%nat; [reflexivity|]. destruct (match s_enc r with U8 => _ | _ => _ end); reflexivity.
Qed.
Lemma one_of_low str s : (forall c, existsb (Z.eqb (small c)) str = existsb (Z.eqb c) str) -> read_one_of_code_unit str (low s) = plow (read_one_of_code_unit str s).
Proof. intros H. destruct s as [|c s]; [reflexivity|]. cbn [map read_one_of_code_unit]. rewrite H. destruct (existsb (Z.eqb c) str); reflexivity. Qed.
Lemma apply_low x s : apply_opt (plow x) (low s) = low (apply_opt x s).
Proof. destruct x; reflexivity. Qed.

(** ** Integers *)
Lemma sign_low s : parse_numeric_sign (low s) = keep (fun p => (low (fst p), snd p)) (parse_numeric_sign s).
Proof.
  unfold parse_numeric_sign. rewrite one_of_low.
  - destruct s as [|c s]; [reflexivity|]. cbn [map read_one_of_code_unit]. rewrite (small_eq c 45) by (unfold letter; lia).
    destruct (existsb (Z.eqb c) [43; 45]); cbn [plow]; [destruct (c =? 45); reflexivity|reflexivity].
  - intros c. cbn [existsb]. rewrite (small_eq c 43), (small_eq c 45) by (unfold letter; lia). reflexivity.
Qed.
Lemma not_digit_low b s : not_digit_of b (low s) = not_digit_of b s.
Proof. destruct s as [|c s]; [reflexivity|]. cbn [map not_digit_of]. rewrite small_digit. reflexivity. Qed.
Definition based (p : list Z * Z * bool) : list Z * Z * bool := let '(s, b, z) := p in (low s, b, z).
Lemma oct_low r s : parse_integer_oct_base_prefix r (low s) = (plow (fst (parse_integer_oct_base_prefix r s)), snd (parse_integer_oct_base_prefix r s)).
Proof.
  unfold parse_integer_oct_base_prefix. rewrite nocase_low, (unit_low 48) by (unfold letter; lia).
  destruct (read_matching_string_classic_nocase r [48; 111] s); [reflexivity|]. cbn [plow]. destruct (read_matching_code_unit 48 s); reflexivity.
Qed.
Lemma base_prefix_low r s b : parse_integer_base_prefix r (low s) b = based (parse_integer_base_prefix r s b).
Proof.
  unfold parse_integer_base_prefix, parse_integer_base_prefix_for_detection, parse_integer_bin_base_prefix, parse_integer_hex_base_prefix.
  rewrite oct_low, !nocase_low. destruct (parse_integer_oct_base_prefix r s) as [x z]. cbn [fst snd].
  destruct (b =? 2); [rewrite apply_low; reflexivity|]. destruct (b =? 8); [rewrite apply_low; reflexivity|]. destruct (b =? 16); [rewrite apply_low; reflexivity|].
  destruct (b =? 0); [|reflexivity]. destruct (read_matching_string_classic_nocase r [48; 120] s); [reflexivity|]. cbn [plow].
  destruct (read_matching_string_classic_nocase r [48; 98] s); [reflexivity|]. cbn [plow]. destruct x; reflexivity.
Qed.
Definition prefixed (p : prefix_result) : prefix_result := PR (low (pr_it p)) (pr_base p) (pr_sign p) (pr_zero p).
Lemma prefix_low r s b : parse_integer_prefix r (low s) b = keep prefixed (parse_integer_prefix r s b).
Proof.
  unfold parse_integer_prefix. rewrite sign_low. destruct (parse_numeric_sign s) as [[it sg]| | |]; try reflexivity. cbn [keep bind fst snd].
  rewrite base_prefix_low. destruct (parse_integer_base_prefix r it b) as [[d B] z]. cbn [based]. rewrite !not_digit_low.
  destruct z; [destruct (not_digit_of 8 d); reflexivity|]. destruct (not_digit_of B d); reflexivity.
Qed.
Lemma zeros_low s : skip_zeros (low s) = low (skip_zeros s).
Proof. induction s as [|c s IH]; [reflexivity|]. cbn [map skip_zeros]. rewrite (small_eq c 48), IH by (unfold letter; lia). destruct (c =? 48); reflexivity. Qed.
Lemma digit_loop_low b : forall s v, digit_loop b (low s) v = (low (fst (digit_loop b s v)), snd (digit_loop b s v)).
Proof. induction s as [|c s IH]; intros v; [reflexivity|]. cbn [map digit_loop]. rewrite small_digit. cbv zeta. destruct (b <=? char_to_int c); [reflexivity|apply IH]. Qed.
Lemma piv_low t s sg b : parse_integer_value U32 t (low s) sg b = rest (parse_integer_value U32 t s sg b).
Proof.
  unfold parse_integer_value. destruct s as [|c s]; [reflexivity|]. change (low (c :: s)) with (small c :: low s). cbv beta iota.
  rewrite small_digit. change (small c :: low s) with (low (c :: s)). rewrite zeros_low. cbv zeta.
  destruct sg; [reflexivity| |].
  all: destruct (negb (it_signed t) && _); [reflexivity|]; destruct (b <=? 0); [reflexivity|]; destruct (b <=? char_to_int c); [reflexivity|].
  all: destruct (skip_zeros (c :: s)) as [|d l]; [reflexivity|]; cbn [map]; rewrite small_digit; destruct (b <=? char_to_int d); [reflexivity|].
  all: change (small d :: low l) with (low (d :: l)); unfold parse_regular_integer; rewrite digit_loop_low; destruct (digit_loop b (d :: l) 0) as [p u]; cbn [fst snd]; rewrite !map_length.
  all: destruct (check_integer_overflow _ _ _ _ _) as [[|]| | |]; try reflexivity; cbn [bind]; destruct (store_result _ _ _); reflexivity.
Qed.
Lemma value_low e t s sg b : fit e s -> parse_integer_value e t (low s) sg b = rest (parse_integer_value e t s sg b).
Proof.
  intros Hf. destruct e.
  - rewrite !piv_enc by (try apply low_bytes; apply Hf; reflexivity). apply piv_low.
  - apply (piv_low t s sg b).
  - apply piv_low.
Qed.
Lemma fit_firstn e n s : fit e s -> fit e (firstn n s).
Proof. intros H He. apply bytes_firstn, H, He. Qed.
Lemma fit_suffix e s s' : suffix s' s -> fit e s -> fit e s'.
Proof. apply enc_ok_suffix. Qed.
Lemma read_digits_low r t p : fit (s_enc r) (pr_it p) -> read_digits r t (prefixed p) = rest (read_digits r t p).
Proof.
  intros Hf. destruct p as [s b sg z]. unfold read_digits, prefixed. cbn [pr_it pr_base pr_sign] in *. unfold parse_integer_digits_without_thsep.
  rewrite read_while1_low by (intros c; rewrite small_digit; reflexivity).
  assert (HK : forall after, '(v, l) <- parse_integer_value (s_enc r) t (firstn (length (low s) - length (low after)) (low s)) sg b ;;
      Ok (v, skipn (length (firstn (length (low s) - length (low after)) (low s)) - length l) (low s))
    = rest ('(v, l) <- parse_integer_value (s_enc r) t (firstn (length s - length after) s) sg b ;; Ok (v, skipn (length (firstn (length s - length after) s) - length l) s))).
  { intros after. rewrite !map_length, firstn_map, value_low by (apply fit_firstn, Hf). destruct (parse_integer_value _ _ _ _ _) as [[v l]| | |]; try reflexivity.
    cbn [rest keep bind fst snd]. rewrite !map_length, skipn_map. reflexivity. }
  destruct (s_contig r).
  - destruct s as [|c s]; [reflexivity|]. exact (HK []).
  - destruct (read_while1_code_unit (fun ch : Z => char_to_int ch <? b) s) as [it|[|]]; cbn [plow bind]; [apply HK|reflexivity|reflexivity].
Qed.
Lemma next1_low s : next1 (low s) = lows (next1 s).
Proof. destruct s; reflexivity. Qed.
Lemma fit_prefix r s b p : parse_integer_prefix r s b = Ok p -> fit (s_enc r) s -> fit (s_enc r) (pr_it p).
Proof.
  intros E. apply fit_suffix. unfold parse_integer_prefix in E. destruct (parse_numeric_sign s) as [[text sg]| | |] eqn:ES; try discriminate. cbn [bind] in E.
  apply sign_suffix in ES. destruct ES as [_ [k ->]].
  destruct (parse_integer_base_prefix r (skipn k s) b) as [[it b'] z] eqn:EB.
  assert (HI : suffix it (skipn k s)).
  { destruct (Z.eq_dec b 0) as [H|H0]; [apply base_prefix_total in EB; [apply EB|left; exact H]|].
    destruct (Z_le_dec 2 b); [destruct (Z_le_dec b 36); [apply base_prefix_total in EB; [apply EB|right; unfold base_ok; lia]|]|].
    all: unfold parse_integer_base_prefix in EB; replace (b =? 2) with false in EB by lia; replace (b =? 8) with false in EB by lia;
      replace (b =? 16) with false in EB by lia; replace (b =? 0) with false in EB by lia; injection EB as <- _ _; apply suffix_refl. }
  assert (HS : suffix it s) by (eapply suffix_trans; [exact HI|apply suffix_skipn]).
  destruct z; [destruct (not_digit_of 8 it)|]; injection E as <-; cbn [pr_it]; [apply suffix_skipn|exact HS|]. destruct (not_digit_of b' it); [apply suffix_skipn|exact HS].
Qed.
Lemma int_base_low r t s b : fit (s_enc r) s -> int_read_default_with_base r t (low s) b = rest (int_read_default_with_base r t s b).
Proof.
  intros Hf. unfold int_read_default_with_base. rewrite prefix_low. destruct (parse_integer_prefix r s b) as [p| | |] eqn:EP; try reflexivity. cbn [keep bind prefixed pr_sign pr_zero pr_it].
  destruct (negb (it_signed t) && is_minus (pr_sign p)); [reflexivity|]. destruct (pr_zero p).
  - rewrite next1_low. destruct (next1 (pr_it p)); reflexivity.
  - apply read_digits_low. eapply fit_prefix; eassumption.
Qed.
Lemma thsep_low sep b : ~ letter sep -> forall s i o idx m, thsep_loop sep b (low s) i (low o) idx m
  = let '(s', o', idx', m') := thsep_loop sep b s i o idx m in (low s', low o', idx', m').
Proof.
  intros Hs. induction s as [|c s IH]; intros i o idx m; [reflexivity|]. cbn [map thsep_loop]. rewrite (small_eq c sep Hs), small_digit.
  destruct (c =? sep); [apply IH|]. destruct (b <=? char_to_int c); [reflexivity|].
  change [small c] with (low [c]). rewrite <- map_app. apply IH.
Qed.
Lemma thsep_fit e sep b : forall s i o idx m, fit e s -> fit e o -> fit e (snd (fst (fst (thsep_loop sep b s i o idx m)))).
Proof.
  induction s as [|c s IH]; intros i o idx m Hs Ho; [exact Ho|]. cbn [thsep_loop].
  assert (Hs' : fit e s) by (eapply fit_suffix; [|exact Hs]; exists [c]; reflexivity).
  destruct (c =? sep); [apply IH; assumption|]. destruct (b <=? char_to_int c); [exact Ho|]. apply IH; [exact Hs'|].
  intros He. apply bytes_app. split; [apply Ho, He|]. specialize (Hs He). inversion Hs. constructor; [assumption|constructor].
Qed.
Lemma int_specs_low r t sp sep s : ~ letter sep -> fit (s_enc r) s -> int_read_specs r t sp sep (low s) = rest (int_read_specs r t sp sep s).
Proof.
  intros Hsep Hf. unfold int_read_specs. destruct (get_base sp) as [b| | |]; try reflexivity. cbn [bind]. rewrite prefix_low.
  destruct (parse_integer_prefix r s b) as [p| | |] eqn:EP; try reflexivity. cbn [keep bind prefixed pr_sign pr_zero pr_it pr_base].
  assert (Hp := fit_prefix r s b p EP Hf).
  destruct (is_minus (pr_sign p) && _); [reflexivity|]. destruct (pr_zero p).
  - rewrite next1_low. destruct (next1 (pr_it p)); reflexivity.
  - destruct (negb (localized sp)); [apply (read_digits_low r t p Hp)|]. unfold parse_integer_digits_with_thsep.
    assert (HT := thsep_low sep (pr_base p) Hsep (pr_it p) 0 [] [] false). cbn [map] in HT. rewrite HT.
    assert (HO := thsep_fit (s_enc r) sep (pr_base p) (pr_it p) 0 [] [] false Hp ltac:(intros _; constructor)).
    destruct (thsep_loop sep (pr_base p) (pr_it p) 0 [] [] false) as [[[it o] idx] m]. cbn [fst snd] in HO. destruct m; [|reflexivity]. cbn [bind].
    rewrite value_low by exact HO. destruct (parse_integer_value _ _ _ _ _) as [[v l]| | |]; try reflexivity. cbn [rest keep bind fst snd].
    rewrite !map_length, skipn_map. reflexivity.
Qed.

(** ** Fields *)
Lemma fit_units e s : fit e s <-> units e s.
Proof. unfold enc_ok. destruct e; cbn; split; auto; discriminate. Qed.
Lemma skipn_more {A} j k : forall l : list A, skipn j (skipn k l) = skipn (j + k) l.
Proof.
  induction k as [|k IH]; intros l; [rewrite Nat.add_0_r; reflexivity|]. rewrite Nat.add_succ_r. destruct l; [apply skipn_nil|apply IH].
Qed.
Definition fits_low {V} (r : src) (read : src -> list Z -> outcome (V * list Z)) : Prop := forall r' s, s_enc r' = s_enc r -> fit (s_enc r) s ->
  read r' (low s) = rest (read r' s) /\ forall v l, read r' s = Ok (v, l) -> fit (s_enc r) l.
Lemma fit_skipped r s allow l : fit (s_enc r) s -> skip_classic_whitespace r s allow = Ok l -> fit (s_enc r) l.
Proof.
  intros Hf. unfold skip_classic_whitespace. destruct (read_while_classic_space_total r s) as (s' & -> & HS); [apply fit_units, Hf|]. cbn [bind].
  intros E. assert (l = s') as -> by (destruct allow; [congruence|]; destruct s'; congruence). eapply fit_suffix; eassumption.
Qed.
Lemma fit_skipn e n s : fit e s -> fit e (skipn n s).
Proof. intros H He. apply bytes_skipn, H, He. Qed.
Lemma fit_view e s n v : fit e s -> take_width e s n = Ok v -> fit e v.
Proof.
  intros Hf. unfold take_width. revert v n Hf. generalize 0. induction s as [|c s IH]; intros left v n Hf; cbn [tw_from].
  { intros [= <-] _. constructor. }
  destruct (at_end e n left (c :: s)) as [[|]| | |]; try discriminate; cbn [bind]; [intros [= <-] _; constructor|].
  destruct (increment e n left (c :: s)) as [[n' l']| | |]; try discriminate. cbn [bind]. destruct (tw_from e n' l' s) as [t| | |] eqn:ET; try discriminate. cbn [bind].
  intros [= <-] He. specialize (IH l' t n' ltac:(eapply fit_suffix; [|exact Hf]; exists [c]; reflexivity) ET He). specialize (Hf He). inversion Hf. constructor; assumption.
Qed.

(** Fills without letters. *)
Definition fill_plain (f : fill_type) : Prop := ~ letter (get_code_unit f) /\ Forall (fun c => ~ letter c) (get_code_units f).
Lemma starts_low : forall n s, Forall (fun c => ~ letter c) n -> starts_with n (low s) = starts_with n s.
Proof.
  induction n as [|k n IH]; intros s Hn; [reflexivity|]. destruct s as [|c s]; [reflexivity|]. inversion Hn. cbn [map starts_with].
  rewrite IH by assumption. rewrite (Z.eqb_sym k (small c)), (Z.eqb_sym k c), small_eq by assumption. reflexivity.
Qed.
Lemma units_low n : Forall (fun c => ~ letter c) n -> forall fuel s, read_while_code_units_loop fuel n (low s) = lows (read_while_code_units_loop fuel n s).
Proof.
  intros Hn. induction fuel as [|fuel IH]; intros s; (destruct s as [|c s]; [reflexivity|]);
    change (low (c :: s)) with (small c :: low s); cbn [read_while_code_units_loop]; change (small c :: low s) with (low (c :: s));
    rewrite map_length, (starts_low n _ Hn); destruct (length (c :: s) <? length n)%nat; try reflexivity; destruct (negb (starts_with n (c :: s))); try reflexivity.
  rewrite skipn_map. apply IH.
Qed.
Lemma fill_low r s n f want : fill_plain f -> skip_fill r (low s) n f want = keep (fun p => (low (fst p), snd p)) (skip_fill r s n f want).
Proof.
  intros [H1 H2]. unfold skip_fill. cbv zeta.
  assert (HR : forall v, (if (f_size f <=? unit_size (s_enc r))%nat then Ok (read_while_code_unit (fun c => c =? get_code_unit f) (low v))
      else match s_enc r with U8 => read_while_code_units (get_code_units f) (low v) | _ => UB end)
    = lows (if (f_size f <=? unit_size (s_enc r))%nat then Ok (read_while_code_unit (fun c => c =? get_code_unit f) v)
      else match s_enc r with U8 => read_while_code_units (get_code_units f) v | _ => UB end)).
  { intros v. destruct (f_size f <=? unit_size (s_enc r))%nat.
    - rewrite read_while_low by (intros c; apply small_eq, H1). reflexivity.
    - destruct (s_enc r); try reflexivity. unfold read_while_code_units. rewrite map_length. apply units_low, H2. }
  destruct (n =? 0).
  - rewrite HR. destruct (if (f_size f <=? unit_size (s_enc r))%nat then _ else _) as [it| | |]; try reflexivity. cbn [keep bind]. rewrite !map_length.
    destruct want; [|reflexivity]. destruct (f_size f <=? unit_size (s_enc r))%nat; [reflexivity|]. destruct (text_width _ _); reflexivity.
  - rewrite take_low. destruct (take_width (s_enc r) s n) as [v| | |]; try reflexivity. cbn [keep bind]. rewrite HR.
    destruct (if (f_size f <=? unit_size (s_enc r))%nat then _ else _) as [it| | |]; try reflexivity. cbn [keep bind]. rewrite count_low, base_low.
    destruct (view_count (s_enc r) s v it n); reflexivity.
Qed.
Lemma fit_filled r s n f want l w : fit (s_enc r) s -> skip_fill r s n f want = Ok (l, w) -> fit (s_enc r) l.
Proof.
  intros Hf. unfold skip_fill. cbv zeta.
  assert (HR : forall v t, (if (f_size f <=? unit_size (s_enc r))%nat then Ok (read_while_code_unit (fun c => c =? get_code_unit f) v)
      else match s_enc r with U8 => read_while_code_units (get_code_units f) v | _ => UB end) = Ok t -> exists k, t = skipn k v).
  { intros v t. destruct (f_size f <=? unit_size (s_enc r))%nat.
    - intros [= <-]. destruct (find_if_suffix (fun c => negb (c =? get_code_unit f)) v) as [p E]. exists (length p).
      unfold read_while_code_unit, read_until_code_unit. set (q := find_if _ v) in *. rewrite E, skipn_app, skipn_all, Nat.sub_diag. reflexivity.
    - destruct (s_enc r); try discriminate. unfold read_while_code_units. generalize (length v). intros k. revert v t. induction k as [|k IH]; intros v t; (destruct v as [|c v]; [intros [= <-]; exists O; reflexivity|]);
        cbn [read_while_code_units_loop]; (destruct (length (c :: v) <? length (get_code_units f))%nat; [intros [= <-]; exists O; reflexivity|]);
        (destruct (negb (starts_with (get_code_units f) (c :: v))); [intros [= <-]; exists O; reflexivity|]); [discriminate|].
      intros E. apply IH in E. destruct E as [j ->]. exists (j + length (get_code_units f))%nat. apply skipn_more. }
  destruct (n =? 0).
  - destruct (if (f_size f <=? unit_size (s_enc r))%nat then Ok (read_while_code_unit (fun c => c =? get_code_unit f) s) else _) as [it| | |] eqn:E; try discriminate. cbn [bind].
    apply HR in E. destruct E as [k ->]. intros E. assert (l = skipn k s) as ->; [|apply fit_skipn, Hf].
    destruct want; [|congruence]. destruct (f_size f <=? unit_size (s_enc r))%nat; [congruence|]. destruct (text_width _ _); try discriminate. cbn [bind] in E. congruence.
  - destruct (take_width (s_enc r) s n) as [v| | |]; try discriminate. cbn [bind]. destruct (if (f_size f <=? unit_size (s_enc r))%nat then _ else _) as [it| | |]; try discriminate. cbn [bind].
    destruct (view_count (s_enc r) s v it n); try discriminate. cbn [bind]. intros [= <- _]. apply fit_skipn, Hf.
Qed.
Definition moved (x y : outcome (list Z * Z)) : Prop := y = keep (fun p => (low (fst p), snd p)) x.
Lemma within_low r s n allow : fit (s_enc r) s -> moved (skip_ws_within r s n allow) (skip_ws_within r (low s) n allow)
  /\ forall l w, skip_ws_within r s n allow = Ok (l, w) -> fit (s_enc r) l.
Proof.
  intros Hf. unfold skip_ws_within, moved. rewrite take_low. destruct (take_width (s_enc r) s n) as [v| | |] eqn:EV; try (split; [reflexivity|discriminate]). cbn [keep bind].
  assert (Hv := fit_view _ _ _ _ Hf EV). rewrite skip_low by exact Hv. destruct (skip_classic_whitespace (view_src r) v allow) as [l| | |]; try (split; [reflexivity|discriminate]). cbn [keep bind].
  rewrite count_low, base_low. destruct (view_count (s_enc r) s v l n); try (split; [reflexivity|discriminate]). cbn [bind]. split; [reflexivity|].
  intros l' w [= <- _]. apply fit_skipn, Hf.
Qed.
Lemma all_low r s want allow : fit (s_enc r) s -> moved (ArgReaderModel.skip_ws_all r s want allow) (ArgReaderModel.skip_ws_all r (low s) want allow)
  /\ forall l w, ArgReaderModel.skip_ws_all r s want allow = Ok (l, w) -> fit (s_enc r) l.
Proof.
  intros Hf. unfold ArgReaderModel.skip_ws_all, moved. rewrite skip_low by exact Hf. destruct (skip_classic_whitespace r s allow) as [l| | |] eqn:ES; try (split; [reflexivity|discriminate]). cbn [keep bind].
  assert (Hl := fit_skipped _ _ _ _ Hf ES). rewrite !map_length, firstn_map, width_low.
  destruct want; [|split; [reflexivity|intros l' w [= <- _]; exact Hl]].
  destruct (text_width _ _); try (split; [reflexivity|discriminate]). cbn [bind]. split; [reflexivity|intros l' w [= <- _]; exact Hl].
Qed.
Lemma impl_prefix_low r sp skip s : fill_plain (fill sp) -> fit (s_enc r) s -> moved (impl_prefix r sp skip s) (impl_prefix r sp skip (low s))
  /\ forall l w, impl_prefix r sp skip s = Ok (l, w) -> fit (s_enc r) l.
Proof.
  intros HF Hf. unfold impl_prefix.
  assert (HS : moved (Ok (s, 0)) (Ok (low s, 0)) /\ forall l w, Ok (s, 0) = Ok (l, w) -> fit (s_enc r) l) by (split; [reflexivity|intros l w [= <- _]; exact Hf]).
  assert (HL : moved (skip_fill r s (precision sp) (fill sp) (need_width sp)) (skip_fill r (low s) (precision sp) (fill sp) (need_width sp))
    /\ forall l w, skip_fill r s (precision sp) (fill sp) (need_width sp) = Ok (l, w) -> fit (s_enc r) l)
    by (split; [apply fill_low, HF|intros l w; apply fit_filled, Hf]).
  destruct (align sp); auto. destruct skip; [|exact HS]. destruct (negb (precision sp =? 0)); [apply within_low, Hf|apply all_low, Hf].
Qed.
Lemma impl_postfix_low r sp skip p v s : fill_plain (fill sp) -> fit (s_enc r) s -> moved (impl_postfix r sp skip p v s) (impl_postfix r sp skip p v (low s)).
Proof.
  intros HF Hf. unfold impl_postfix. destruct (align sp).
  all: repeat match goal with |- context [if ?b then _ else _] => destruct b end; try reflexivity; try apply fill_low, HF; try apply within_low, Hf; apply all_low, Hf.
Qed.
Lemma arg_read_low {V} r sp skip (read : src -> list Z -> outcome (V * list Z)) s : fill_plain (fill sp) -> fits_low r read -> fit (s_enc r) s ->
  arg_read r sp skip read (low s) = rest (arg_read r sp skip read s).
Proof.
  intros HF HR Hf. unfold arg_read.
  assert (HP : exists x, (if negb (precision sp =? 0) then v <- take_width (s_enc r) s (precision sp) ;; '(l, w) <- impl_prefix (view_src r) sp skip v ;; Ok (view_base s v l, w) else impl_prefix r sp skip s) = x
    /\ (if negb (precision sp =? 0) then v <- take_width (s_enc r) (low s) (precision sp) ;; '(l, w) <- impl_prefix (view_src r) sp skip v ;; Ok (view_base (low s) v l, w) else impl_prefix r sp skip (low s))
       = keep (fun p => (low (fst p), snd p)) x /\ forall l w, x = Ok (l, w) -> fit (s_enc r) l).
  { destruct (negb (precision sp =? 0)); (eexists; split; [reflexivity|]).
    - rewrite take_low. destruct (take_width (s_enc r) s (precision sp)) as [v| | |] eqn:EV; try (split; [reflexivity|discriminate]). cbn [keep bind].
      assert (Hv := fit_view _ _ _ _ Hf EV). destruct (impl_prefix_low (view_src r) sp skip v HF Hv) as [E _]. rewrite E.
      destruct (impl_prefix (view_src r) sp skip v) as [[l w]| | |]; try (split; [reflexivity|discriminate]). cbn [keep bind fst snd]. rewrite base_low.
      split; [reflexivity|]. intros l' w' [= <- _]. apply fit_skipn, Hf.
    - destruct (impl_prefix_low r sp skip s HF Hf) as [E H]. split; [exact E|exact H]. }
  destruct HP as (x & -> & -> & HX). destruct x as [[it p]| | |]; try reflexivity. cbn [keep bind fst snd]. specialize (HX it p eq_refl).
  assert (HV : exists y, (if negb (precision sp =? 0) then if precision sp <=? p then Err InvalidFill else
        v <- take_width (s_enc r) it (precision sp - p) ;; '(x, l) <- read (view_src r) v ;; c <- view_count (s_enc r) it v l (precision sp - p) ;; Ok (x, view_base it v l, precision sp - p - c)
      else '(x, it') <- read r it ;; if need_width sp then w <- text_width (s_enc r) (firstn (length it - length it') it) ;; Ok (x, it', w) else Ok (x, it', 0)) = y
    /\ (if negb (precision sp =? 0) then if precision sp <=? p then Err InvalidFill else
        v <- take_width (s_enc r) (low it) (precision sp - p) ;; '(x, l) <- read (view_src r) v ;; c <- view_count (s_enc r) (low it) v l (precision sp - p) ;; Ok (x, view_base (low it) v l, precision sp - p - c)
      else '(x, it') <- read r (low it) ;; if need_width sp then w <- text_width (s_enc r) (firstn (length (low it) - length it') (low it)) ;; Ok (x, it', w) else Ok (x, it', 0))
      = keep (fun q => let '(a, l, w) := q in (a, low l, w)) y /\ forall a l w, y = Ok (a, l, w) -> fit (s_enc r) l).
  { destruct (negb (precision sp =? 0)); (eexists; split; [reflexivity|]).
    - destruct (precision sp <=? p); [split; [reflexivity|discriminate]|]. cbv zeta. rewrite take_low.
      destruct (take_width (s_enc r) it (precision sp - p)) as [v| | |] eqn:EV; try (split; [reflexivity|discriminate]). cbn [keep bind].
      assert (Hv := fit_view _ _ _ _ HX EV). destruct (HR (view_src r) v eq_refl Hv) as [E _]. rewrite E.
      destruct (read (view_src r) v) as [[a l]| | |]; try (split; [reflexivity|discriminate]). cbn [rest keep bind fst snd]. rewrite count_low, base_low.
      destruct (view_count (s_enc r) it v l (precision sp - p)); try (split; [reflexivity|discriminate]). cbn [bind]. split; [reflexivity|].
      intros a' l' w' [= _ <- _]. apply fit_skipn, HX.
    - destruct (HR r it eq_refl HX) as [E H]. rewrite E. destruct (read r it) as [[a l]| | |]; try (split; [reflexivity|discriminate]). cbn [rest keep bind fst snd].
      specialize (H a l eq_refl). rewrite !map_length, firstn_map, width_low. destruct (need_width sp); [|split; [reflexivity|intros ? ? ? [= _ <- _]; exact H]].
      destruct (text_width _ _); try (split; [reflexivity|discriminate]). cbn [bind]. split; [reflexivity|intros ? ? ? [= _ <- _]; exact H]. }
  destruct HV as (y & -> & -> & HY). destruct y as [[[a l] w]| | |]; try reflexivity. cbn [keep bind]. specialize (HY a l w eq_refl).
  destruct l as [|c l].
  - cbn [map bind]. destruct (check_widths sp p w 0); reflexivity.
  - cbn [map]. change (small c :: low l) with (low (c :: l)). assert (HO := impl_postfix_low r sp skip p w (c :: l) HF HY). unfold moved in HO. rewrite HO.
    destruct (impl_postfix r sp skip p w (c :: l)) as [[l' w']| | |]; try reflexivity. cbn [keep bind fst snd]. destruct (check_widths sp p w w'); reflexivity.
Qed.
Lemma default_low {V} r skip (read : list Z -> outcome (V * list Z)) s : (forall t, fit (s_enc r) t -> read (low t) = rest (read t)) -> fit (s_enc r) s ->
  default_read r skip read (low s) = rest (default_read r skip read s).
Proof.
  intros HR Hf. unfold default_read, skip_ws_before_if_required. destruct s as [|c s]; [reflexivity|]. change (low (c :: s)) with (small c :: low s). cbv beta iota. change (small c :: low s) with (low (c :: s)).
  destruct skip; [|apply HR, Hf]. rewrite skip_low by exact Hf. destruct (skip_classic_whitespace r (c :: s) false) as [l| | |] eqn:ES; try reflexivity. cbn [keep bind].
  apply HR. eapply fit_skipped; eassumption.
Qed.
Lemma int_specs_fit r t sp sep s v l : fit (s_enc r) s -> int_read_specs r t sp sep s = Ok (v, l) -> fit (s_enc r) l.
Proof.
  intros Hf. unfold int_read_specs. destruct (get_base sp) as [b| | |]; try discriminate. cbn [bind].
  destruct (parse_integer_prefix r s b) as [p| | |] eqn:EP; try discriminate. cbn [bind]. assert (Hp := fit_prefix r s b p EP Hf).
  destruct (_ && _); [discriminate|]. destruct (pr_zero p).
  - destruct (pr_it p) as [|c q] eqn:E; [discriminate|]. cbn. intros [= _ <-]. eapply fit_suffix; [|exact Hp]. exists [c]. reflexivity.
  - destruct (negb (localized sp)).
    + unfold read_digits. destruct (parse_integer_digits_without_thsep r (pr_it p) (pr_base p)); try discriminate. cbn [bind].
      destruct (parse_integer_value _ _ _ _ _) as [[v' l']| | |]; try discriminate. cbn [bind]. intros [= _ <-]. apply fit_skipn, Hp.
    + destruct (parse_integer_digits_with_thsep _ _ _) as [[[x o] idx]| | |]; try discriminate. cbn [bind].
      destruct (parse_integer_value _ _ _ _ _) as [[v' l']| | |]; try discriminate. cbn [bind]. intros [= _ <-]. apply fit_skipn, Hp.
Qed.
Lemma int_fits r t sp sep : ~ letter sep -> fits_low r (fun r' => int_read_specs r' t sp sep).
Proof.
  intros Hs r' s He Hf. rewrite <- He in Hf |- *. split; [apply int_specs_low; assumption|]. intros v l. apply int_specs_fit, Hf.
Qed.

(** What is left consists of units again. *)
Lemma fit_postfix r sp skip p v s l w : fit (s_enc r) s -> impl_postfix r sp skip p v s = Ok (l, w) -> fit (s_enc r) l.
Proof.
  intros Hf. unfold impl_postfix. destruct (align sp).
  all: repeat match goal with |- context [if ?b then _ else _] => destruct b end; try (intros [= <- _]; exact Hf); try apply fit_filled, Hf; try apply within_low, Hf; apply all_low, Hf.
Qed.
Lemma fit_impl_prefix r sp skip s l w : fit (s_enc r) s -> impl_prefix r sp skip s = Ok (l, w) -> fit (s_enc r) l.
Proof.
  intros Hf. unfold impl_prefix. destruct (align sp).
  all: repeat match goal with |- context [if ?b then _ else _] => destruct b end; try (intros [= <- _]; exact Hf); try apply fit_filled, Hf; try apply within_low, Hf; apply all_low, Hf.
Qed.
Lemma arg_read_fit {V} r sp skip (read : src -> list Z -> outcome (V * list Z)) s v l : fits_low r read -> fit (s_enc r) s ->
  arg_read r sp skip read s = Ok (v, l) -> fit (s_enc r) l.
Proof.
  intros HR Hf. unfold arg_read. set (x := if negb (precision sp =? 0) then _ else _).
  assert (HX : forall it p, x = Ok (it, p) -> fit (s_enc r) it).
  { intros it p. unfold x. destruct (negb (precision sp =? 0)); [|apply fit_impl_prefix, Hf]. destruct (take_width _ _ _) as [t| | |]; try discriminate. cbn [bind].
    destruct (impl_prefix _ _ _ t) as [[l' w']| | |]; try discriminate. cbn [bind]. intros [= <- _]. apply fit_skipn, Hf. }
  destruct x as [[it p]| | |]; try discriminate. cbn [bind]. specialize (HX it p eq_refl). set (y := if negb (precision sp =? 0) then _ else _).
  assert (HY : forall a t w, y = Ok (a, t, w) -> fit (s_enc r) t).
  { intros a t w. unfold y. destruct (negb (precision sp =? 0)).
    - destruct (_ <=? _); [discriminate|]. destruct (take_width _ _ _) as [u| | |]; try discriminate. cbn [bind]. destruct (read _ u) as [[a' t']| | |]; try discriminate. cbn [bind].
      destruct (view_count _ _ _ _ _); try discriminate. cbn [bind]. intros [= _ <- _]. apply fit_skipn, HX.
    - destruct (HR r it eq_refl HX) as [_ H]. destruct (read r it) as [[a' t']| | |]; try discriminate. cbn [bind]. specialize (H a' t' eq_refl).
      destruct (need_width sp); [|intros [= _ <- _]; exact H]. destruct (text_width _ _); try discriminate. cbn [bind]. intros [= _ <- _]. exact H. }
  destruct y as [[[a t] w]| | |]; try discriminate. cbn [bind]. specialize (HY a t w eq_refl).
  destruct t as [|c t].
  - cbn [bind]. destruct (check_widths sp p w 0); try discriminate. cbn [bind]. intros [= _ <-]. exact HY.
  - destruct (impl_postfix r sp skip p w (c :: t)) as [[l' w']| | |] eqn:EP; try discriminate. cbn [bind]. destruct (check_widths sp p w w'); try discriminate. cbn [bind].
    intros [= _ <-]. eapply fit_postfix; eassumption.
Qed.
Lemma default_fit {V} r skip (read : list Z -> outcome (V * list Z)) s v l : (forall t v l, fit (s_enc r) t -> read t = Ok (v, l) -> fit (s_enc r) l) -> fit (s_enc r) s ->
  default_read r skip read s = Ok (v, l) -> fit (s_enc r) l.
Proof.
  intros HR Hf. unfold default_read, skip_ws_before_if_required. destruct s as [|c s]; [destruct skip; cbn; first [discriminate|apply HR, Hf]|].
  destruct skip; [|apply HR, Hf]. destruct (skip_classic_whitespace r (c :: s) false) as [t| | |] eqn:ES; try discriminate. cbn [bind].
  apply HR. eapply fit_skipped; eassumption.
Qed.
Lemma int_base_fit r t s b v l : fit (s_enc r) s -> int_read_default_with_base r t s b = Ok (v, l) -> fit (s_enc r) l.
Proof.
  intros Hf. unfold int_read_default_with_base. destruct (parse_integer_prefix r s b) as [p| | |] eqn:EP; try discriminate. cbn [bind]. assert (Hp := fit_prefix r s b p EP Hf).
  destruct (negb (it_signed t) && _); [discriminate|]. destruct (pr_zero p).
  - destruct (pr_it p) as [|c q] eqn:E; [discriminate|]. cbn. intros [= _ <-]. eapply fit_suffix; [|exact Hp]. exists [c]. reflexivity.
  - unfold read_digits. destruct (parse_integer_digits_without_thsep r (pr_it p) (pr_base p)); try discriminate. cbn [bind].
    destruct (parse_integer_value _ _ _ _ _) as [[v' l']| | |]; try discriminate. cbn [bind]. intros [= _ <-]. apply fit_skipn, Hp.
Qed.
