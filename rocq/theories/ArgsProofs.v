From Verif Require Import Prelude BitsModel ArgsModel.
Local Open Scope Z_scope.
Ltac Zify.zify_post_hook ::= Z.div_mod_to_equations.

Lemma arg_rank_range t : 0 <= arg_rank t < 26.
Proof. destruct t; cbn; lia. Qed.

Lemma arg_of_rank_rank t : arg_of_rank (arg_rank t) = Ok t.
Proof. destruct t; reflexivity. Qed.

(** a | (b << 5) for a < 32 *)
Lemma lor_shift5 a b : 0 <= a < 32 -> 0 <= b -> Z.lor a (b * 32) = a + b * 32.
Proof.
  intros Ha Hb. rewrite <- Z.lxor_lor.
  - rewrite <- Z.add_nocarry_lxor; [reflexivity|].
    apply Z.bits_inj'. intros n Hn. rewrite Z.land_spec, Z.bits_0.
    change (b * 32) with (b * 2 ^ 5). rewrite Z.mul_pow2_bits by lia.
    destruct (Z.ltb_spec n 5).
    + rewrite (Z.testbit_neg_r b) by lia. apply andb_false_r.
    + replace (Z.testbit a n) with false; [reflexivity|]. symmetry.
      destruct (Z.eq_dec a 0) as [->|]; [apply Z.bits_0|].
      apply Z.bits_above_log2; [lia|].
      apply Z.log2_lt_pow2; [lia|]. apply Z.lt_le_trans with (2 ^ 5); [lia|].
      apply Z.pow_le_mono_r; lia.
  - apply Z.bits_inj'. intros n Hn. rewrite Z.land_spec, Z.bits_0.
    change (b * 32) with (b * 2 ^ 5). rewrite Z.mul_pow2_bits by lia.
    destruct (Z.ltb_spec n 5).
    + rewrite (Z.testbit_neg_r b) by lia. apply andb_false_r.
    + replace (Z.testbit a n) with false; [reflexivity|]. symmetry.
      destruct (Z.eq_dec a 0) as [->|]; [apply Z.bits_0|].
      apply Z.bits_above_log2; [lia|].
      apply Z.log2_lt_pow2; [lia|]. apply Z.lt_le_trans with (2 ^ 5); [lia|].
      apply Z.pow_le_mono_r; lia.
Qed.

Fixpoint enc_sum (ts : list arg_type) : Z :=
  match ts with [] => 0 | t :: ts' => arg_rank t + enc_sum ts' * 32 end.

Lemma enc_sum_range ts : 0 <= enc_sum ts < 32 ^ Z.of_nat (length ts).
Proof.
  induction ts as [|t ts IH]; cbn [enc_sum length]; [cbn; lia|].
  assert (H := arg_rank_range t).
  rewrite Nat2Z.inj_succ, Z.pow_succ_r by lia. lia.
Qed.

Lemma pow32_le n m : (n <= m)%nat -> 32 ^ Z.of_nat n <= 32 ^ Z.of_nat m.
Proof. intros. apply Z.pow_le_mono_r; lia. Qed.

Lemma encode_impl_sum ts : (length ts <= 11)%nat -> encode_types_impl ts = enc_sum ts.
Proof.
  induction ts as [|t ts IH]; intros Hl; cbn [encode_types_impl enc_sum]; [reflexivity|].
  cbn [length] in Hl. rewrite IH by lia.
  assert (H := arg_rank_range t). assert (H2 := enc_sum_range ts).
  assert (H3 := pow32_le (length ts) 11 ltac:(lia)). change (32 ^ Z.of_nat 11) with 36028797018963968 in H3.
  unfold packed_arg_bits. rewrite Z.shiftl_mul_pow2 by lia. change (2 ^ 5) with 32.
  unfold wrap64. rewrite Z.mod_small by (change (2 ^ 64) with 18446744073709551616; lia).
  apply lor_shift5; lia.
Qed.

Lemma encode_types_sum ts : (length ts <= 11)%nat ->
  encode_types ts = Ok (Z.of_nat (length ts) + enc_sum ts * 32)
  /\ 0 <= Z.of_nat (length ts) + enc_sum ts * 32 < 2 ^ 60.
Proof.
  intros Hl. unfold encode_types. rewrite encode_impl_sum by assumption.
  assert (H2 := enc_sum_range ts).
  assert (H3 := pow32_le (length ts) 11 ltac:(lia)). change (32 ^ Z.of_nat 11) with 36028797018963968 in H3.
  unfold packed_arg_bits. change (Z.shiftl 1 5) with 32.
  replace (Z.of_nat (length ts) <? 32) with true by lia.
  rewrite Z.shiftl_mul_pow2 by lia. change (2 ^ 5) with 32. change (2 ^ 60) with 1152921504606846976.
  unfold wrap64. rewrite Z.mod_small by (change (2 ^ 64) with 18446744073709551616; lia).
  split; [|lia]. f_equal. apply lor_shift5; lia.
Qed.

Lemma enc_sum_nth ts : forall i, (enc_sum ts / 32 ^ Z.of_nat i) mod 32
  = match nth_error ts i with Some t => arg_rank t | None => 0 end.
Proof.
  induction ts as [|t ts IH]; intros [|i]; cbn [enc_sum nth_error]; try reflexivity.
  - cbn [Z.of_nat]. rewrite Z.pow_0_r, Z.div_1_r. assert (H := arg_rank_range t). lia.
  - rewrite <- IH. rewrite Nat2Z.inj_succ, Z.pow_succ_r by lia.
    rewrite <- Z.div_div by (try apply Z.pow_pos_nonneg; lia).
    f_equal. f_equal. assert (H := arg_rank_range t). lia.
Qed.

(** Bits of the descriptor. *)
Lemma land_high d k : 0 <= d < 2 ^ k -> 0 <= k -> Z.land d (Z.shiftl 1 k) = 0.
Proof.
  intros Hd Hk. apply Z.bits_inj'. intros n Hn. rewrite Z.land_spec, Z.bits_0.
  rewrite Z.shiftl_spec by lia. destruct (Z.eq_dec n k) as [->|].
  - replace (Z.testbit d k) with false; [reflexivity|]. symmetry.
    destruct (Z.eq_dec d 0) as [->|]; [apply Z.bits_0|].
    apply Z.bits_above_log2; [lia|]. apply Z.log2_lt_pow2; lia.
  - replace (Z.testbit 1 (n - k)) with false; [apply andb_false_r|]. symmetry.
    destruct (Z.ltb_spec (n - k) 0); [apply Z.testbit_neg_r; lia|].
    apply Z.bits_above_log2; [lia|]. cbn. lia.
Qed.

Lemma lor_high d k : 0 <= d < 2 ^ k -> 0 <= k -> Z.lor d (Z.shiftl 1 k) = d + 2 ^ k.
Proof.
  intros Hd Hk. rewrite <- Z.lxor_lor by (apply land_high; assumption).
  rewrite <- Z.add_nocarry_lxor by (apply land_high; assumption).
  rewrite Z.shiftl_mul_pow2 by lia. lia.
Qed.

Lemma land31 x : Z.land x (Z.shiftl 1 5 - 1) = x mod 32.
Proof. change (Z.shiftl 1 5 - 1) with (Z.ones 5). rewrite Z.land_ones by lia. reflexivity. Qed.

Lemma pow2_32 i : 2 ^ (Z.of_nat i * 5) = 32 ^ Z.of_nat i.
Proof. rewrite Z.mul_comm, Z.pow_mul_r by lia. reflexivity. Qed.

Lemma packed_type d k ts i : (length ts <= 11)%nat -> (i < 11)%nat ->
  (k = 0 \/ k = 2 ^ 62) -> d = Z.of_nat (length ts) + enc_sum ts * 32 + k ->
  Z.land (Z.shiftr d ((Z.of_nat i + 1) * 5)) (Z.shiftl 1 5 - 1)
  = match nth_error ts i with Some t => arg_rank t | None => 0 end.
Proof.
  intros Hl Hi Hk Hd. rewrite land31, Z.shiftr_div_pow2 by lia. rewrite <- enc_sum_nth.
  replace ((Z.of_nat i + 1) * 5) with (Z.of_nat i * 5 + 5) by ring.
  rewrite Z.pow_add_r by lia. change (2 ^ 5) with 32. rewrite pow2_32.
  assert (HP : 0 < 32 ^ Z.of_nat i) by (apply Z.pow_pos_nonneg; lia).
  rewrite (Z.mul_comm (32 ^ _)), <- Z.div_div by lia.
  destruct Hk as [->| ->].
  - f_equal. f_equal. lia.
  - assert (E : d / 32 = enc_sum ts + 2 ^ 57).
    { rewrite Hd. change (2 ^ 62) with (2 ^ 57 * 32). change (2 ^ 57) with 144115188075855872. lia. }
    rewrite E.
    assert (E2 : 2 ^ 57 = (2 ^ (57 - Z.of_nat i * 5 - 5) * 32) * 32 ^ Z.of_nat i).
    { rewrite <- pow2_32. change 32 with (2 ^ 5) at 1. rewrite <- !Z.pow_add_r by lia. f_equal. ring. }
    rewrite E2, Z.div_add by lia. apply Z.mod_add. lia.
Qed.

Definition not_none (t : arg_type) : Prop := t <> NoneType.

Lemma small_args apple ts : (length ts <= 11)%nat ->
  exists k, make_args apple ts
    = Ok (Args (Z.of_nat (length ts) + enc_sum ts * 32 + k)
               (if k =? 0 then KBuiltin else KPacked) ts)
    /\ (k = 0 \/ k = 2 ^ 62).
Proof.
  intros Hl. unfold make_args, determine_arg_store_kind, compute_arg_store_desc.
  change max_packed_args with 11. replace (11 <? Z.of_nat (length ts)) with false by lia.
  destruct (encode_types_sum ts Hl) as [E HR]. rewrite E. cbn [bind].
  destruct (negb apple && all_types_builtin ts).
  - exists 0. rewrite Z.add_0_r. split; [reflexivity|left; reflexivity].
  - exists (2 ^ 62). cbn [bind]. unfold has_custom_types_bit. change (bits_in_sz - 2) with 62.
    rewrite lor_high; [split; [reflexivity|right; reflexivity]| |lia].
    change (2 ^ 62) with 4611686018427387904. change (2 ^ 60) with 1152921504606846976 in HR. lia.
Qed.

Lemma args_ok apple ts : Forall not_none ts -> Z.of_nat (length ts) < 2 ^ 62 ->
  exists a, make_args apple ts = Ok a
    /\ args_size a = Z.of_nat (length ts)
    /\ forall id, args_get a (Z.of_nat id)
       = Ok (match nth_error ts id with Some t => Some (t, Z.of_nat id) | None => None end).
Proof.
  intros Hnn HL.
  destruct (Nat.leb_spec (length ts) 11) as [Hl|Hl].
  - destruct (small_args apple ts Hl) as (k & E & Hk). eexists. split; [exact E|].
    destruct (encode_types_sum ts Hl) as [_ HR].
    set (D := Z.of_nat (length ts) + enc_sum ts * 32 + k) in *.
    assert (HP : is_packed (Args D (if k =? 0 then KBuiltin else KPacked) ts) = true).
    { unfold is_packed, is_unpacked_bit. cbn [m_desc]. change (bits_in_sz - 1) with 63.
      rewrite land_high; [reflexivity| |lia]. unfold D.
      change (2 ^ 60) with 1152921504606846976 in HR. change (2 ^ 63) with 9223372036854775808.
      change (2 ^ 62) with 4611686018427387904 in Hk. lia. }
    split.
    + unfold args_size. rewrite HP. cbn [negb m_desc]. unfold packed_arg_bits. rewrite land31.
      unfold D. change (2 ^ 62) with 4611686018427387904 in Hk. lia.
    + intros id. unfold args_get. rewrite HP. cbn [negb]. change max_packed_args with 11.
      destruct (Z.leb_spec 11 (Z.of_nat id)) as [Hi|Hi].
      { replace (nth_error ts id) with (@None arg_type); [reflexivity|].
        symmetry. apply nth_error_None. lia. }
      unfold args_type. cbn [m_desc]. unfold packed_arg_bits.
      rewrite (packed_type D k ts id) by (unfold D; lia || reflexivity).
      assert (HB : is_only_builtin (Args D (if k =? 0 then KBuiltin else KPacked) ts) = (k =? 0)).
      { unfold is_only_builtin, has_custom_types_bit. cbn [m_desc]. change (bits_in_sz - 2) with 62.
        destruct Hk as [Hk|Hk].
        - rewrite land_high; [rewrite Hk; reflexivity| |lia]. unfold D.
          change (2 ^ 60) with 1152921504606846976 in HR. change (2 ^ 62) with 4611686018427387904. lia.
        - unfold D. rewrite Hk. rewrite <- lor_high;
            [|change (2 ^ 60) with 1152921504606846976 in HR; change (2 ^ 62) with 4611686018427387904; lia|lia].
          rewrite Z.land_lor_distr_l, Z.land_diag. 
          rewrite land_high;
            [reflexivity|change (2 ^ 60) with 1152921504606846976 in HR; change (2 ^ 62) with 4611686018427387904; lia|lia]. }
      destruct (nth_error ts id) as [t|] eqn:En; [|reflexivity].
      rewrite arg_of_rank_rank. cbn [bind]. rewrite HB.
      assert (Ht : t <> NoneType).
      { rewrite Forall_forall in Hnn. apply Hnn. eapply nth_error_In, En. }
      unfold array_get. cbn [a_kind a_types]. rewrite Nat2Z.id, En.
      destruct (k =? 0); cbn [bind]; destruct t; congruence || reflexivity.
  - unfold make_args, determine_arg_store_kind, compute_arg_store_desc.
    change max_packed_args with 11. replace (11 <? Z.of_nat (length ts)) with true by lia.
    cbn [bind]. eexists. split; [reflexivity|].
    set (n := Z.of_nat (length ts)) in *.
    change (2 ^ 62) with 4611686018427387904 in HL.
    assert (ED : Z.lor n is_unpacked_bit = n + 2 ^ 63).
    { unfold is_unpacked_bit. change (bits_in_sz - 1) with 63. apply lor_high; [|lia].
      change (2 ^ 63) with 9223372036854775808. unfold n in *. lia. }
    assert (HN : n <> 0) by (unfold n; lia).
    assert (HP : forall kk, is_packed (Args (Z.lor n is_unpacked_bit) kk ts) = false).
    { intros kk. unfold is_packed. cbn [m_desc]. rewrite Z.land_lor_distr_l, Z.land_diag.
      unfold is_unpacked_bit. change (bits_in_sz - 1) with 63.
      rewrite land_high; [reflexivity| |lia]. change (2 ^ 63) with 9223372036854775808. unfold n in *. lia. }
    assert (HM : forall kk, args_max_size (Args (Z.lor n is_unpacked_bit) kk ts) = n).
    { intros kk. unfold args_max_size. rewrite HP. cbn [m_desc].
      rewrite <- Z.land_assoc.
      change (Z.land (not64 is_unpacked_bit) (not64 has_custom_types_bit)) with (Z.ones 62).
      rewrite ED, Z.land_ones by lia. change (2 ^ 63) with 9223372036854775808.
      change (2 ^ 62) with 4611686018427387904. unfold n in *. lia. }
    split.
    + unfold args_size. rewrite HP, HM. reflexivity.
    + intros id. unfold args_get. rewrite HP. cbn [negb]. rewrite HM.
      destruct (Z.ltb_spec (Z.of_nat id) n) as [Hi|Hi].
      * unfold array_get. cbn [a_kind a_types]. rewrite Nat2Z.id.
        destruct (nth_error ts id) as [t|] eqn:En; [reflexivity|].
        apply nth_error_None in En. unfold n in Hi. lia.
      * replace (nth_error ts id) with (@None arg_type); [reflexivity|].
        symmetry. apply nth_error_None. unfold n in Hi. lia.
Qed.
