(** Proofs about words as sequences of bytes. *)
From Verif Require Import Prelude BitsModel.
Local Open Scope Z_scope.
Ltac Zify.zify_post_hook ::= Z.div_mod_to_equations.
Arguments Z.mul : simpl never.
Arguments Z.add : simpl never.
Arguments Z.sub : simpl never.
Arguments Z.land : simpl never.
Arguments Z.lor : simpl never.
Arguments Z.lxor : simpl never.

(** * Splitting off the low byte *)

Lemma tb_lo lo hi k : 0 <= lo < 256 -> 0 <= k < 8 ->
  Z.testbit (lo + 256 * hi) k = Z.testbit lo k.
Proof.
  intros Hl Hk.
  rewrite <- (Z.mod_pow2_bits_low (lo + 256 * hi) 8 k) by lia.
  f_equal. change (2 ^ 8) with 256. lia.
Qed.

Lemma tb_hi lo hi k : 0 <= lo < 256 -> 8 <= k ->
  Z.testbit (lo + 256 * hi) k = Z.testbit hi (k - 8).
Proof.
  intros Hl Hk.
  replace k with ((k - 8) + 8) at 1 by lia.
  rewrite <- Z.shiftr_spec by lia.
  f_equal. rewrite Z.shiftr_div_pow2 by lia. change (2 ^ 8) with 256. lia.
Qed.

Lemma byte_tb_high b k : 0 <= b < 256 -> 8 <= k -> Z.testbit b k = false.
Proof.
  intros Hb Hk. rewrite <- (Z.mod_small b (2 ^ 8)) by (change (2 ^ 8) with 256; lia).
  apply Z.mod_pow2_bits_high; lia.
Qed.

Lemma byte_of_bits b : 0 <= b -> (forall k, 8 <= k -> Z.testbit b k = false) -> b < 256.
Proof.
  intros Hb Hk. destruct (Z.eq_dec b 0) as [->|Hne]; [lia|].
  destruct (Z_lt_le_dec b 256) as [|Hge]; [assumption|].
  assert (Hl : 8 <= Z.log2 b) by (change 8 with (Z.log2 256); apply Z.log2_le_mono; lia).
  specialize (Hk _ Hl). rewrite Z.bit_log2 in Hk by lia. discriminate.
Qed.

Lemma land_byte a b : 0 <= a < 256 -> 0 <= b -> 0 <= Z.land a b < 256.
Proof.
  intros Ha Hb. split; [apply Z.land_nonneg; lia|].
  apply byte_of_bits; [apply Z.land_nonneg; lia|].
  intros k Hk. rewrite Z.land_spec, byte_tb_high by lia. reflexivity.
Qed.

Lemma lor_byte a b : 0 <= a < 256 -> 0 <= b < 256 -> 0 <= Z.lor a b < 256.
Proof.
  intros Ha Hb. split; [apply Z.lor_nonneg; lia|].
  apply byte_of_bits; [apply Z.lor_nonneg; lia|].
  intros k Hk. rewrite Z.lor_spec, !byte_tb_high by lia. reflexivity.
Qed.

Lemma lxor_byte a b : 0 <= a < 256 -> 0 <= b < 256 -> 0 <= Z.lxor a b < 256.
Proof.
  intros Ha Hb.
  assert (H0 : 0 <= Z.lxor a b) by (apply Z.lxor_nonneg; lia).
  split; [exact H0|].
  apply byte_of_bits; [exact H0|].
  intros k Hk. rewrite Z.lxor_spec, !byte_tb_high by lia. reflexivity.
Qed.

Lemma land_split lo hi lo' hi' : 0 <= lo < 256 -> 0 <= lo' < 256 ->
  Z.land (lo + 256 * hi) (lo' + 256 * hi') = Z.land lo lo' + 256 * Z.land hi hi'.
Proof.
  intros H H'. apply Z.bits_inj'; intros k Hk.
  assert (Hb := land_byte lo lo' H ltac:(lia)).
  rewrite Z.land_spec.
  destruct (Z_lt_le_dec k 8).
  - rewrite !tb_lo by lia. rewrite Z.land_spec. reflexivity.
  - rewrite !tb_hi by lia. rewrite Z.land_spec. reflexivity.
Qed.

Lemma lor_split lo hi lo' hi' : 0 <= lo < 256 -> 0 <= lo' < 256 ->
  Z.lor (lo + 256 * hi) (lo' + 256 * hi') = Z.lor lo lo' + 256 * Z.lor hi hi'.
Proof.
  intros H H'. apply Z.bits_inj'; intros k Hk.
  assert (Hb := lor_byte lo lo' H H').
  rewrite Z.lor_spec.
  destruct (Z_lt_le_dec k 8).
  - rewrite !tb_lo by lia. rewrite Z.lor_spec. reflexivity.
  - rewrite !tb_hi by lia. rewrite Z.lor_spec. reflexivity.
Qed.

Lemma lxor_split lo hi lo' hi' : 0 <= lo < 256 -> 0 <= lo' < 256 ->
  Z.lxor (lo + 256 * hi) (lo' + 256 * hi') = Z.lxor lo lo' + 256 * Z.lxor hi hi'.
Proof.
  intros H H'. apply Z.bits_inj'; intros k Hk.
  assert (Hb := lxor_byte lo lo' H H').
  rewrite Z.lxor_spec.
  destruct (Z_lt_le_dec k 8).
  - rewrite !tb_lo by lia. rewrite Z.lxor_spec. reflexivity.
  - rewrite !tb_hi by lia. rewrite Z.lxor_spec. reflexivity.
Qed.

(** any integer splits *)
Lemma split_byte x : exists lo hi, 0 <= lo < 256 /\ x = lo + 256 * hi.
Proof. exists (x mod 256), (x / 256). lia. Qed.

(** * Words *)

Lemma word_of_range bs : bytes bs -> 0 <= word_of bs < 256 ^ Z.of_nat (length bs).
Proof.
  induction 1 as [|b bs Hb _ IH]; cbn [word_of length]; [cbn; lia|].
  unfold is_byte in Hb. rewrite Nat2Z.inj_succ, Z.pow_succ_r by lia. lia.
Qed.

Lemma word_of_64 bs : bytes bs -> (length bs <= 8)%nat -> 0 <= word_of bs < 2 ^ 64.
Proof.
  intros Hb Hl. assert (H := word_of_range bs Hb).
  assert (256 ^ Z.of_nat (length bs) <= 256 ^ 8) by (apply Z.pow_le_mono_r; lia).
  change (256 ^ 8) with (2 ^ 64) in *. lia.
Qed.

Lemma word_of_app a b : word_of (a ++ b) = word_of a + 256 ^ Z.of_nat (length a) * word_of b.
Proof.
  induction a as [|x a IH]; cbn [app word_of length].
  - change (256 ^ Z.of_nat 0) with 1. lia.
  - rewrite IH, Nat2Z.inj_succ, Z.pow_succ_r by lia. lia.
Qed.

Lemma word_of_zeros n : word_of (repeat 0 n) = 0.
Proof. induction n as [|n IH]; cbn [repeat word_of]; lia. Qed.

Definition rep (c : Z) (n : nat) : Z := word_of (repeat c n).

Lemma rep_S c n : rep c (S n) = c + 256 * rep c n.
Proof. reflexivity. Qed.

Lemma rep_mul c n : rep c n = c * rep 1 n.
Proof.
  induction n as [|n IH]; [cbn; unfold rep; cbn; lia|].
  rewrite !rep_S, IH. lia.
Qed.

(** the high-bit mask ignores everything beyond the word *)
Lemma land_wrap64 x m : 0 <= m < 2 ^ 64 -> Z.land (wrap64 x) m = Z.land x m.
Proof.
  intros Hm; unfold wrap64. rewrite <- Z.land_ones by lia.
  rewrite <- Z.land_assoc. f_equal. rewrite Z.land_comm, Z.land_ones by lia.
  apply Z.mod_small; lia.
Qed.

Lemma land_not64 x m : 0 <= m < 2 ^ 64 -> Z.land (not64 x) m = Z.land (Z.lnot x) m.
Proof.
  intros Hm. unfold not64. replace (2 ^ 64 - 1) with (Z.ones 64) by (rewrite Z.ones_equiv; lia).
  apply Z.bits_inj'; intros k Hk. rewrite !Z.land_spec, Z.lxor_spec, Z.lnot_spec by lia.
  destruct (Z_lt_le_dec k 64).
  - rewrite Z.ones_spec_low by lia. destruct (Z.testbit x k); reflexivity.
  - assert (Z.testbit m k = false) as ->; [|rewrite !andb_false_r; reflexivity].
    rewrite <- (Z.mod_small m (2 ^ 64)) by lia. apply Z.mod_pow2_bits_high; lia.
Qed.

(** Low byte good / low byte bad, for the mask 0x80..80. *)
Lemma mask_good lo hi h : 0 <= lo < 128 ->
  Z.land (lo + 256 * hi) (128 + 256 * h) = 256 * Z.land hi h.
Proof.
  intros Hlo. rewrite land_split by lia.
  assert (Z.land lo 128 = 0) as ->; [|lia].
  apply Z.eqb_eq. assert (Hx : 0 <= lo < 0 + Z.of_nat 128) by lia.
  revert lo Hlo Hx; intros lo _; revert lo.
  apply (sweep (fun lo => Z.land lo 128 =? 0)); vm_compute; reflexivity.
Qed.

Lemma mask_bad lo hi h : 128 <= lo < 256 ->
  Z.land (lo + 256 * hi) (128 + 256 * h) = 128 * (2 * Z.land hi h + 1).
Proof.
  intros Hlo. rewrite land_split by lia.
  assert (Z.land lo 128 = 128) as ->; [|lia].
  apply Z.eqb_eq. assert (Hx : 128 <= lo < 128 + Z.of_nat 128) by lia.
  revert lo Hlo Hx; intros lo _; revert lo.
  apply (sweep (fun lo => Z.land lo 128 =? 128)); vm_compute; reflexivity.
Qed.

(** [R] has its lowest set bit at position [k]. *)
Definition lowest_bit (R k : Z) : Prop := exists q, R = 2 ^ k * (2 * q + 1).

Lemma lowest_bit_nonzero R k : 0 <= k -> lowest_bit R k -> R <> 0.
Proof.
  intros Hk [q ->]. assert (0 < 2 ^ k) by (apply Z.pow_pos_nonneg; lia).
  apply Z.neq_mul_0; lia.
Qed.

Lemma ctz_loop_lowest : forall fuel k R, 0 <= k < Z.of_nat fuel ->
  lowest_bit R k -> ctz_loop fuel R = k.
Proof.
  induction fuel as [|fuel IH]; intros k R Hk [q ->]; [lia|].
  cbn [ctz_loop]. destruct (Z.eq_dec k 0) as [->|Hne].
  - change (2 ^ 0) with 1. replace (1 * (2 * q + 1)) with (2 * q + 1) by lia.
    assert (Z.odd (2 * q + 1) = true) as ->; [|reflexivity].
    rewrite Z.odd_spec. exists q; reflexivity.
  - replace k with (Z.succ (k - 1)) by lia. rewrite Z.pow_succ_r by lia.
    replace (2 * 2 ^ (k - 1) * (2 * q + 1)) with (2 * (2 ^ (k - 1) * (2 * q + 1))) by lia.
    set (r := 2 ^ (k - 1) * (2 * q + 1)).
    assert (Z.odd (2 * r) = false) as ->.
    { rewrite <- Z.negb_even, Z.even_mul. reflexivity. }
    rewrite Z.div2_div. replace (2 * r / 2) with r by lia.
    rewrite (IH (k - 1)); [lia|lia|]. exists q; reflexivity.
Qed.

Lemma ctz_lowest R k : 0 <= k < 64 -> lowest_bit R k -> count_trailing_zeroes R = Ok k.
Proof.
  intros Hk HR. unfold count_trailing_zeroes.
  assert (Hn := lowest_bit_nonzero R k ltac:(lia) HR).
  destruct (Z.eqb_spec R 0); [contradiction|].
  rewrite (ctz_loop_lowest 64 k) by (assumption || lia). reflexivity.
Qed.

(** A generic per-byte test: [X] is computed from the bytes such that a good low
    byte contributes a clear bit 7 and no carry. *)
Section Generic.
  Variable good : Z -> bool.
  (** the tested word, as a function of the bytes *)
  Variable X : list Z -> Z.
  Hypothesis Xgood : forall b bs, is_byte b -> bytes bs -> good b = true ->
    exists lo, 0 <= lo < 128 /\ X (b :: bs) = lo + 256 * X bs.
  Hypothesis Xbad : forall b bs, is_byte b -> bytes bs -> good b = false ->
    exists lo hi, 128 <= lo < 256 /\ X (b :: bs) = lo + 256 * hi.

  Lemma generic_none bs : bytes bs -> forallb good bs = true ->
    Z.land (X bs) (rep 128 (length bs)) = 0.
  Proof.
    induction 1 as [|b bs Hb Hbs IH]; cbn [forallb length]; intros H.
    - apply Z.land_0_r.
    - apply andb_true_iff in H; destruct H as [Hg H].
      destruct (Xgood b bs Hb Hbs Hg) as (lo & Hlo & ->).
      rewrite rep_S, mask_good, IH by assumption. reflexivity.
  Qed.

  Lemma generic_first pre b post : bytes (pre ++ b :: post) ->
    forallb good pre = true -> good b = false ->
    lowest_bit (Z.land (X (pre ++ b :: post)) (rep 128 (length (pre ++ b :: post))))
               (8 * Z.of_nat (length pre) + 7).
  Proof.
    induction pre as [|a pre IH]; cbn [app forallb length]; intros Hb H Hbad.
    - inversion_clear Hb as [|? ? Hb1 Hb2].
      destruct (Xbad b post Hb1 Hb2 Hbad) as (lo & hi & Hlo & ->).
      rewrite rep_S, mask_bad by assumption.
      eexists; reflexivity.
    - apply andb_true_iff in H; destruct H as [Hg H].
      inversion_clear Hb as [|? ? Hb1 Hb2].
      destruct (Xgood a _ Hb1 Hb2 Hg) as (lo & Hlo & ->).
      rewrite rep_S, mask_good by assumption.
      destruct (IH Hb2 H Hbad) as [q Hq]. exists q. rewrite Hq.
      replace (8 * Z.of_nat (S (length pre)) + 7)
        with (8 + (8 * Z.of_nat (length pre) + 7)) by lia.
      rewrite (Z.pow_add_r 2 8) by lia. change (2 ^ 8) with 256. ring.
  Qed.

  Lemma generic_iff bs : bytes bs ->
    (Z.land (X bs) (rep 128 (length bs)) = 0 <-> forallb good bs = true).
  Proof.
    intros Hb; split; [|apply generic_none, Hb].
    intros H0. destruct (forallb good bs) eqn:E; [reflexivity|].
    assert (exists pre b post, bs = pre ++ b :: post /\ forallb good pre = true /\ good b = false)
      as (pre & b & post & -> & Hg & Hbad).
    { clear Hb H0. induction bs as [|a bs IH]; cbn [forallb] in E; [discriminate|].
      destruct (good a) eqn:Ea; cbn [andb] in E.
      - destruct (IH E) as (pre & b & post & -> & Hg & Hbad).
        exists (a :: pre), b, post. cbn [app forallb]. rewrite Ea. auto.
      - exists [], a, bs; auto. }
    assert (HL := generic_first pre b post Hb Hg Hbad).
    apply lowest_bit_nonzero in HL; [contradiction|lia].
  Qed.
End Generic.

(** ** has_byte_greater *)

Lemma rep128_8 : rep 128 8 = 0x8080808080808080.
Proof. vm_compute; reflexivity. Qed.

Lemma hbg_unfold bs n : bytes bs -> 0 <= n <= 127 ->
  has_byte_greater (word_of bs) n =
  Z.land (Z.lor (word_of bs + rep (127 - n) 8) (word_of bs)) (rep 128 8).
Proof.
  intros Hb Hn. unfold has_byte_greater.
  assert (Hm : wrap64 (ones_bytes * 128) = rep 128 8) by (vm_compute; reflexivity).
  rewrite Hm. rewrite Z.land_lor_distr_l, land_wrap64 by (rewrite rep128_8; lia).
  rewrite <- Z.land_lor_distr_l. do 3 f_equal.
  rewrite (rep_mul (127 - n)).
  assert (Ho : ones_bytes = rep 1 8) by (vm_compute; reflexivity). rewrite Ho.
  unfold wrap64. rewrite (Z.mod_small (127 - n)) by lia.
  rewrite Z.mod_small; [lia|].
  assert (Hr : rep 1 8 = 0x0101010101010101) by (vm_compute; reflexivity). rewrite Hr. lia.
Qed.

Definition hbg_X (n : Z) (bs : list Z) : Z :=
  Z.lor (word_of bs + rep (127 - n) (length bs)) (word_of bs).

Lemma lor_lt128 a b : 0 <= a < 128 -> 0 <= b < 128 -> 0 <= Z.lor a b < 128.
Proof.
  intros Ha Hb. split; [apply Z.lor_nonneg; lia|].
  destruct (Z.eq_dec (Z.lor a b) 0) as [->|Hne]; [lia|].
  apply Z.log2_lt_cancel. change (Z.log2 128) with 7.
  rewrite Z.log2_lor by lia.
  assert (Z.log2 a < 7).
  { destruct (Z.eq_dec a 0) as [->|]; [cbn; lia|].
    change 128 with (2 ^ 7) in Ha. apply Z.log2_lt_pow2; lia. }
  assert (Z.log2 b < 7).
  { destruct (Z.eq_dec b 0) as [->|]; [cbn; lia|].
    change 128 with (2 ^ 7) in Hb. apply Z.log2_lt_pow2; lia. }
  lia.
Qed.

Lemma lor_ge128_r a b : 0 <= a < 256 -> 128 <= b < 256 -> 128 <= Z.lor a b < 256.
Proof.
  intros Ha Hb. assert (H := lor_byte a b ltac:(lia) ltac:(lia)).
  split; [|lia].
  destruct (Z_lt_le_dec (Z.lor a b) 128) as [Hlt|]; [exfalso|lia].
  assert (Z.log2 (Z.lor a b) = 7).
  { rewrite Z.log2_lor by lia.
    assert (Z.log2 b = 7) by (apply Z.log2_unique; [lia|change (2^7) with 128; change (2 ^ (7+1)) with 256; lia]).
    assert (Z.log2 a <= 7).
    { destruct (Z.eq_dec a 0) as [->|]; [cbn; lia|].
      assert (Z.log2 a < 8) by (apply Z.log2_lt_pow2; [lia|change (2^8) with 256; lia]). lia. }
    lia. }
  assert (Z.log2 (Z.lor a b) < 7).
  { destruct (Z.eq_dec (Z.lor a b) 0) as [E|]; [rewrite E in *; cbn in *; lia|].
    apply Z.log2_lt_pow2; [lia|change (2^7) with 128; lia]. }
  lia.
Qed.

Lemma lor_ge128_l a b : 128 <= a < 256 -> 0 <= b < 256 -> 128 <= Z.lor a b < 256.
Proof. intros Ha Hb. rewrite Z.lor_comm. apply lor_ge128_r; lia. Qed.

Lemma hbg_Xgood n : 0 <= n <= 127 -> forall b bs, is_byte b -> bytes bs -> (b <=? n) = true ->
  exists lo, 0 <= lo < 128 /\ hbg_X n (b :: bs) = lo + 256 * hbg_X n bs.
Proof.
  intros Hn b bs Hb Hbs Hg. unfold hbg_X. cbn [word_of length].
  unfold is_byte in Hb. rewrite rep_S.
  replace (b + 256 * word_of bs + (127 - n + 256 * rep (127 - n) (length bs)))
    with ((b + (127 - n)) + 256 * (word_of bs + rep (127 - n) (length bs))) by lia.
  rewrite lor_split by lia.
  exists (Z.lor (b + (127 - n)) b). split; [apply lor_lt128; lia | reflexivity].
Qed.

Lemma hbg_Xbad n : 0 <= n <= 127 -> forall b bs, is_byte b -> bytes bs -> (b <=? n) = false ->
  exists lo hi, 128 <= lo < 256 /\ hbg_X n (b :: bs) = lo + 256 * hi.
Proof.
  intros Hn b bs Hb Hbs Hg. unfold hbg_X. cbn [word_of length].
  unfold is_byte in Hb. rewrite rep_S.
  set (c := if b + (127 - n) <? 256 then 0 else 1).
  replace (b + 256 * word_of bs + (127 - n + 256 * rep (127 - n) (length bs)))
    with ((b + (127 - n) - 256 * c) + 256 * (c + word_of bs + rep (127 - n) (length bs))) by lia.
  assert (Hc : 0 <= b + (127 - n) - 256 * c < 256)
    by (unfold c; destruct (b + (127 - n) <? 256) eqn:E; lia).
  rewrite lor_split by lia.
  eexists; eexists; split; [|reflexivity].
  unfold c in *; destruct (b + (127 - n) <? 256) eqn:E.
  - apply lor_ge128_l; lia.
  - apply lor_ge128_r; lia.
Qed.

Lemma has_byte_greater_iff bs n : bytes bs -> length bs = 8%nat -> 0 <= n <= 127 ->
  (has_byte_greater (word_of bs) n = 0 <-> Forall (fun b => b <= n) bs).
Proof.
  intros Hb Hl Hn. rewrite hbg_unfold by assumption.
  assert (H := generic_iff (fun b => b <=? n) (hbg_X n) (hbg_Xgood n Hn) (hbg_Xbad n Hn) bs Hb).
  unfold hbg_X in H. rewrite Hl in H. rewrite H.
  rewrite forallb_forall, Forall_forall. split; intros G x Hx; specialize (G x Hx); lia.
Qed.

Lemma has_byte_greater_first pre b post n :
  bytes (pre ++ b :: post) -> length (pre ++ b :: post) = 8%nat -> 0 <= n <= 127 ->
  Forall (fun b => b <= n) pre -> n < b ->
  count_trailing_zeroes (has_byte_greater (word_of (pre ++ b :: post)) n)
  = Ok (8 * Z.of_nat (length pre) + 7).
Proof.
  intros Hb Hl Hn Hpre Hbad. rewrite hbg_unfold by assumption.
  assert (H := generic_first (fun b => b <=? n) (hbg_X n) (hbg_Xgood n Hn) (hbg_Xbad n Hn)
                 pre b post Hb).
  unfold hbg_X in H. rewrite Hl in H.
  rewrite app_length in Hl; cbn [length] in Hl.
  apply ctz_lowest; [lia|]. apply H; [|lia].
  rewrite forallb_forall. rewrite Forall_forall in Hpre. intros x Hx; specialize (Hpre x Hx); lia.
Qed.

(** memcpy of fewer than eight bytes leaves the rest zero *)
Lemma word_of_pad bs n : word_of (bs ++ repeat 0 n) = word_of bs.
Proof. rewrite word_of_app, word_of_zeros. lia. Qed.

Lemma has_nonascii_char_64_spec sv : bytes sv -> (length sv <= 8)%nat ->
  has_nonascii_char_64 sv = Ok (negb (forallb (fun c => c <? 128) sv)).
Proof.
  intros Hb Hl. unfold has_nonascii_char_64.
  destruct (Nat.ltb_spec 8 (length sv)); [lia|]. do 2 f_equal.
  set (pad := sv ++ repeat 0 (8 - length sv)).
  assert (Hp : bytes pad).
  { apply bytes_app; split; [exact Hb|]. apply Forall_forall. intros x Hx.
    apply repeat_spec in Hx. subst; unfold is_byte; lia. }
  assert (Hlp : length pad = 8%nat) by (unfold pad; rewrite app_length, repeat_length; lia).
  assert (H0 := has_byte_greater_iff pad 127 Hp Hlp ltac:(lia)).
  unfold pad in H0 at 1. rewrite word_of_pad in H0.
  apply eq_true_iff_eq. rewrite Z.eqb_eq, H0, forallb_forall.
  unfold pad. rewrite Forall_app, Forall_forall. split.
  - intros [G _] x Hx. specialize (G x Hx). lia.
  - intros G. split; [intros x Hx; specialize (G x Hx); lia|].
    apply Forall_forall. intros x Hx. apply repeat_spec in Hx. lia.
Qed.

(** ** has_zero_byte *)

Definition hzb_X (bs : list Z) : Z :=
  Z.land (word_of bs - rep 1 (length bs)) (Z.lnot (word_of bs)).

Lemma lnot_split lo hi : Z.lnot (lo + 256 * hi) = (255 - lo) + 256 * Z.lnot hi.
Proof. unfold Z.lnot. lia. Qed.

Lemma hzb_Xgood : forall b bs, is_byte b -> bytes bs -> negb (b =? 0) = true ->
  exists lo, 0 <= lo < 128 /\ hzb_X (b :: bs) = lo + 256 * hzb_X bs.
Proof.
  intros b bs Hb Hbs Hg. unfold hzb_X. cbn [word_of length].
  assert (Hb' := Hb); unfold is_byte in Hb. rewrite rep_S, lnot_split.
  replace (b + 256 * word_of bs - (1 + 256 * rep 1 (length bs)))
    with ((b - 1) + 256 * (word_of bs - rep 1 (length bs))) by lia.
  rewrite land_split by lia.
  exists (Z.land (b - 1) (255 - b)). split; [|reflexivity].
  assert (Hs : (b =? 0) || ((0 <=? Z.land (b - 1) (255 - b)) && (Z.land (b - 1) (255 - b) <? 128)) = true).
  { revert b Hb' Hb Hg. intros b Hb' _ _. revert b Hb'. 
    apply (sweep_byte (fun b => (b =? 0) || ((0 <=? Z.land (b - 1) (255 - b)) && (Z.land (b - 1) (255 - b) <? 128)))).
    vm_compute; reflexivity. }
  lia.
Qed.

Lemma hzb_Xbad : forall b bs, is_byte b -> bytes bs -> negb (b =? 0) = false ->
  exists lo hi, 128 <= lo < 256 /\ hzb_X (b :: bs) = lo + 256 * hi.
Proof.
  intros b bs Hb Hbs Hg. unfold hzb_X. cbn [word_of length].
  assert (b = 0) by lia; subst b. rewrite rep_S, lnot_split.
  replace (0 + 256 * word_of bs - (1 + 256 * rep 1 (length bs)))
    with (255 + 256 * (word_of bs - rep 1 (length bs) - 1)) by lia.
  rewrite land_split by lia.
  eexists; eexists; split; [|reflexivity]. vm_compute; split; congruence.
Qed.

Lemma hzb_unfold bs : bytes bs ->
  has_zero_byte (word_of bs) =
  Z.land (Z.land (word_of bs - rep 1 8) (Z.lnot (word_of bs))) (rep 128 8).
Proof.
  intros Hb. unfold has_zero_byte.
  assert (Hr : rep 1 8 = 0x0101010101010101) by (vm_compute; reflexivity).
  rewrite rep128_8, Hr.
  rewrite <- !Z.land_assoc. rewrite (Z.land_comm (not64 _)).
  rewrite Z.land_assoc, land_wrap64 by lia.
  rewrite <- Z.land_assoc, (Z.land_comm _ (not64 _)), land_not64 by lia. reflexivity.
Qed.

Lemma has_zero_byte_iff bs : bytes bs -> length bs = 8%nat ->
  (has_zero_byte (word_of bs) = 0 <-> ~ In 0 bs).
Proof.
  intros Hb Hl. rewrite hzb_unfold by assumption.
  assert (H := generic_iff (fun b => negb (b =? 0)) hzb_X hzb_Xgood hzb_Xbad bs Hb).
  unfold hzb_X in H. rewrite Hl in H. rewrite H.
  rewrite forallb_forall. split.
  - intros G Hin. specialize (G 0 Hin). discriminate.
  - intros G x Hx. destruct (Z.eqb_spec x 0); [subst; contradiction|reflexivity].
Qed.

Lemma has_zero_byte_first pre post :
  bytes (pre ++ 0 :: post) -> length (pre ++ 0 :: post) = 8%nat -> ~ In 0 pre ->
  count_trailing_zeroes (has_zero_byte (word_of (pre ++ 0 :: post)))
  = Ok (8 * Z.of_nat (length pre) + 7).
Proof.
  intros Hb Hl Hpre. rewrite hzb_unfold by assumption.
  assert (H := generic_first (fun b => negb (b =? 0)) hzb_X hzb_Xgood hzb_Xbad pre 0 post Hb).
  unfold hzb_X in H. rewrite Hl in H.
  rewrite app_length in Hl; cbn [length] in Hl.
  apply ctz_lowest; [lia|]. apply H; [|reflexivity].
  rewrite forallb_forall. intros x Hx. destruct (Z.eqb_spec x 0); [subst; contradiction|reflexivity].
Qed.

(** ** index of the first non-matching / matching byte *)

Lemma pos_lowest_bit b : 0 < b < 256 -> exists t, 0 <= t < 8 /\ lowest_bit b t.
Proof.
  intros Hb.
  assert (Hs : forallb (fun b => (b =? 0) ||
      existsb (fun t => (b mod 2 ^ (t + 1) =? 2 ^ t)) (zseq 0 8)) (zseq 0 256) = true)
    by (vm_compute; reflexivity).
  assert (H := sweep_byte _ Hs b ltac:(unfold is_byte; lia)). cbv beta in H.
  apply orb_true_iff in H; destruct H as [H|H]; [lia|].
  apply existsb_exists in H. destruct H as (t & Ht & H). apply in_zseq in Ht.
  exists t; split; [lia|]. apply Z.eqb_eq in H.
  assert (Hd := Z.div_mod b (2 ^ (t + 1)) ltac:(apply Z.pow_nonzero; lia)).
  exists (b / 2 ^ (t + 1)). rewrite H in Hd. rewrite Hd at 1.
  rewrite Z.pow_add_r by lia. change (2 ^ 1) with 2. ring.
Qed.

Lemma lowest_bit_shift8 R k n : 0 <= k -> lowest_bit R k ->
  lowest_bit (256 ^ Z.of_nat n * R) (8 * Z.of_nat n + k).
Proof.
  intros Hk [q ->]. exists q. rewrite Z.pow_add_r by lia.
  rewrite Z.pow_mul_r by lia. change (2 ^ 8) with 256. ring.
Qed.

Lemma lowest_bit_high b t r : 0 <= t < 8 -> lowest_bit b t -> lowest_bit (b + 256 * r) t.
Proof.
  intros Ht [q ->]. exists (q + 2 ^ (7 - t) * r).
  replace 256 with (2 ^ t * 2 * 2 ^ (7 - t)).
  - ring.
  - rewrite <- Z.mul_assoc, (Z.mul_comm 2), Z.mul_assoc, <- Z.pow_add_r by lia.
    replace (t + (7 - t)) with 7 by lia. reflexivity.
Qed.

Lemma word_xor_bytes a b : bytes a -> bytes b -> length a = length b ->
  Z.lxor (word_of a) (word_of b) = word_of (map (fun p => Z.lxor (fst p) (snd p)) (combine a b)).
Proof.
  intros Ha; revert b; induction Ha as [|x a Hx _ IH]; intros b Hb Hl.
  - destruct b; [reflexivity|discriminate].
  - destruct b as [|y b]; [discriminate|]. inversion_clear Hb as [|? ? Hy Hb'].
    cbn [word_of combine map fst snd]. unfold is_byte in *.
    rewrite lxor_split by lia. rewrite IH by (assumption || (cbn in Hl; lia)). reflexivity.
Qed.

Lemma lxor_eq_0 a b : Z.lxor a b = 0 <-> a = b.
Proof. split; [apply Z.lxor_eq | intros ->; apply Z.lxor_nilpotent]. Qed.

Lemma nonmatching_all bs : bs = repeat 0x80 8 ->
  get_index_of_first_nonmatching_byte (word_of bs) = Ok 8.
Proof. intros ->; vm_compute; reflexivity. Qed.

Lemma word_of_prefix_zeros pre r : word_of (repeat 0 pre ++ r) = 256 ^ Z.of_nat pre * word_of r.
Proof. rewrite word_of_app, word_of_zeros, repeat_length. lia. Qed.

Lemma nonmatching_first n b post : bytes (b :: post) ->
  length (repeat 0x80 n ++ b :: post) = 8%nat -> b <> 0x80 ->
  get_index_of_first_nonmatching_byte (word_of (repeat 0x80 n ++ b :: post))
  = Ok (Z.of_nat n).
Proof.
  intros Hb Hl Hne. unfold get_index_of_first_nonmatching_byte.
  rewrite app_length, repeat_length in Hl; cbn [length] in Hl.
  inversion_clear Hb as [|? ? Hb1 Hpost].
  set (x := Z.lxor b 0x80).
  assert (Hx : 0 < x < 256).
  { assert (H := lxor_byte b 0x80 Hb1 ltac:(lia)). fold x in H.
    assert (x <> 0) by (unfold x; rewrite lxor_eq_0; exact Hne). lia. }
  destruct (pos_lowest_bit x Hx) as (t & Ht & Hlow).
  assert (HW : exists r, Z.lxor (word_of (repeat 0x80 n ++ b :: post)) 0x8080808080808080
               = 256 ^ Z.of_nat n * (x + 256 * r)).
  { replace 0x8080808080808080 with (word_of (repeat 0x80 n ++ 0x80 :: repeat 0x80 (7 - n))).
    2:{ clear -Hl. assert (n <= 7)%nat by lia.
        change 0x8080808080808080 with (word_of (repeat 0x80 8)). f_equal.
        change (0x80 :: repeat 0x80 (7 - n)) with (repeat 0x80 (S (7 - n))).
        rewrite <- repeat_app. f_equal. lia. }
    rewrite !word_of_app, !repeat_length.
    assert (Hrec : forall m u v, Z.lxor (word_of (repeat 0x80 m) + 256 ^ Z.of_nat m * u)
                                    (word_of (repeat 0x80 m) + 256 ^ Z.of_nat m * v)
                   = 256 ^ Z.of_nat m * Z.lxor u v).
    { intros m u v; induction m as [|m IH].
      - cbn [repeat word_of]. change (256 ^ Z.of_nat 0) with 1. rewrite !Z.mul_1_l; reflexivity.
      - cbn [repeat word_of]. rewrite Nat2Z.inj_succ, Z.pow_succ_r by lia.
        replace (0x80 + 256 * word_of (repeat 0x80 m) + 256 * 256 ^ Z.of_nat m * u)
          with (0x80 + 256 * (word_of (repeat 0x80 m) + 256 ^ Z.of_nat m * u)) by lia.
        replace (0x80 + 256 * word_of (repeat 0x80 m) + 256 * 256 ^ Z.of_nat m * v)
          with (0x80 + 256 * (word_of (repeat 0x80 m) + 256 ^ Z.of_nat m * v)) by lia.
        rewrite lxor_split, IH by lia. change (Z.lxor 0x80 0x80) with 0. lia. }
    rewrite Hrec. cbn [word_of]. unfold is_byte in Hb1. rewrite lxor_split by lia.
    eexists; reflexivity. }
  destruct HW as (r & HW). rewrite HW.
  assert (HL : lowest_bit (256 ^ Z.of_nat n * (x + 256 * r)) (8 * Z.of_nat n + t)).
  { apply lowest_bit_shift8; [lia|]. apply lowest_bit_high; assumption. }
  destruct (Z.eqb_spec (256 ^ Z.of_nat n * (x + 256 * r)) 0) as [E|_].
  { exfalso; eapply lowest_bit_nonzero; [|exact HL|exact E]; lia. }
  erewrite ctz_lowest; [|..|exact HL]; [|lia]. cbn [bind]. f_equal. lia.
Qed.

(** first matching byte *)
Definition gim_X (bs : list Z) : Z :=
  Z.lnot (Z.lor (Z.lor (Z.land (word_of bs) (rep 0x7f (length bs)) + rep 0x7f (length bs))
                       (word_of bs)) (rep 0x7f (length bs))).

Definition gim_byte (b : Z) : Z :=
  255 - Z.lor (Z.lor (Z.land b 0x7f + 0x7f) b) 0x7f.

Lemma gim_byte_spec b : is_byte b -> gim_byte b = if b =? 0 then 128 else 0.
Proof.
  intros Hb; apply Z.eqb_eq; revert b Hb. apply (sweep_byte (fun b => gim_byte b =? if b =? 0 then 128 else 0)).
  vm_compute; reflexivity.
Qed.

Lemma gim_step b bs : is_byte b -> bytes bs ->
  gim_X (b :: bs) = gim_byte b + 256 * gim_X bs.
Proof.
  intros Hb Hbs. unfold gim_X, gim_byte. cbn [word_of length]. rewrite rep_S.
  unfold is_byte in Hb. rewrite land_split by lia.
  assert (Hl := land_byte b 0x7f Hb ltac:(lia)).
  assert (Z.land b 0x7f < 128).
  { change 0x7f with (Z.ones 7). rewrite (Z.land_ones b 7) by lia. change (2 ^ 7) with 128. lia. }
  replace (Z.land b 127 + 256 * Z.land (word_of bs) (rep 127 (length bs)) + (127 + 256 * rep 127 (length bs)))
    with ((Z.land b 127 + 127) + 256 * (Z.land (word_of bs) (rep 127 (length bs)) + rep 127 (length bs))) by lia.
  rewrite lor_split by lia.
  assert (H1 := lor_byte (Z.land b 127 + 127) b ltac:(lia) Hb).
  rewrite lor_split by lia. rewrite lnot_split. reflexivity.
Qed.

(** here the test is inverted: bit 7 set iff the byte is zero *)
Lemma gim_Xgood : forall b bs, is_byte b -> bytes bs -> negb (b =? 0) = true ->
  exists lo, 0 <= lo < 128 /\ gim_X (b :: bs) = lo + 256 * gim_X bs.
Proof.
  intros b bs Hb Hbs Hg. rewrite gim_step, gim_byte_spec by assumption.
  destruct (b =? 0); [discriminate|]. exists 0; split; [lia|reflexivity].
Qed.
Lemma gim_Xbad : forall b bs, is_byte b -> bytes bs -> negb (b =? 0) = false ->
  exists lo hi, 128 <= lo < 256 /\ gim_X (b :: bs) = lo + 256 * hi.
Proof.
  intros b bs Hb Hbs Hg. rewrite gim_step, gim_byte_spec by assumption.
  destruct (b =? 0); [|discriminate]. eexists; eexists; split; [|reflexivity]. lia.
Qed.

(** the result word only has bits under the mask *)
Lemma gim_masked bs : bytes bs ->
  Z.land (gim_X bs) (rep 128 (length bs)) = Z.land (gim_X bs) (rep 255 (length bs)).
Proof.
  induction 1 as [|b bs Hb Hbs IH]; cbn [length]; [rewrite !Z.land_0_r; reflexivity|].
  rewrite gim_step, gim_byte_spec, !rep_S by assumption.
  assert (0 <= (if b =? 0 then 128 else 0) < 256) by (destruct (b =? 0); lia).
  rewrite !land_split, IH by lia. f_equal. destruct (b =? 0); reflexivity.
Qed.

Lemma land_le_r a b : 0 <= b -> Z.land a b <= b.
Proof.
  intros Hb. rewrite Z.land_comm.
  assert (H := Z.lor_ldiff_and b a).
  rewrite <- Z.lxor_lor in H.
  - rewrite <- Z.add_nocarry_lxor in H.
    + assert (0 <= Z.ldiff b a) by (apply Z.ldiff_nonneg; lia). lia.
    + apply Z.bits_inj'; intros k Hk.
      rewrite !Z.land_spec, Z.ldiff_spec, Z.bits_0. destruct (Z.testbit b k), (Z.testbit a k); reflexivity.
  - apply Z.bits_inj'; intros k Hk.
    rewrite !Z.land_spec, Z.ldiff_spec, Z.bits_0. destruct (Z.testbit b k), (Z.testbit a k); reflexivity.
Qed.

Lemma gim_unfold w : 0 <= w < 2 ^ 64 ->
  not64 (Z.lor (Z.lor (wrap64 (Z.land w 0x7f7f7f7f7f7f7f7f + 0x7f7f7f7f7f7f7f7f)) w)
               0x7f7f7f7f7f7f7f7f)
  = Z.land (Z.lnot (Z.lor (Z.lor (Z.land w (rep 0x7f 8) + rep 0x7f 8) w) (rep 0x7f 8))) (rep 255 8).
Proof.
  intros Hw.
  assert (Hr : rep 0x7f 8 = 0x7f7f7f7f7f7f7f7f) by (vm_compute; reflexivity).
  assert (Hff : rep 255 8 = 2 ^ 64 - 1) by (vm_compute; reflexivity).
  rewrite Hr, Hff.
  assert (H1 : 0 <= Z.land w 0x7f7f7f7f7f7f7f7f <= 0x7f7f7f7f7f7f7f7f).
  { split; [apply Z.land_nonneg; lia|]. apply land_le_r; lia. }
  unfold wrap64. rewrite Z.mod_small by lia.
  set (V := Z.lor _ _).
  assert (HV : 0 <= V) by (unfold V; rewrite !Z.lor_nonneg; lia).
  unfold not64. replace (2 ^ 64 - 1) with (Z.ones 64) by reflexivity.
  assert (HV64 : V < 2 ^ 64).
  { destruct (Z.eq_dec V 0) as [->|]; [lia|]. apply Z.log2_lt_pow2; [lia|].
    unfold V. rewrite !Z.log2_lor by (try apply Z.lor_nonneg; lia).
    assert (Hlg : forall x, 0 <= x < 2 ^ 64 -> Z.log2 x < 64).
    { intros x Hx. destruct (Z.eq_dec x 0) as [->|]; [cbn; lia|]. apply Z.log2_lt_pow2; lia. }
    assert (Z.log2 w < 64) by (apply Hlg; lia).
    assert (Z.log2 (Z.land w 0x7f7f7f7f7f7f7f7f + 0x7f7f7f7f7f7f7f7f) < 64) by (apply Hlg; lia).
    assert (Z.log2 0x7f7f7f7f7f7f7f7f < 64) by (apply Hlg; lia). lia. }
  apply Z.bits_inj'; intros k Hk.
  rewrite Z.lxor_spec, Z.land_spec, Z.lnot_spec by lia.
  destruct (Z_lt_le_dec k 64).
  - rewrite Z.ones_spec_low by lia. destruct (Z.testbit V k); reflexivity.
  - rewrite Z.ones_spec_high by lia. rewrite andb_false_r.
    assert (Z.testbit V k = false) as ->; [|reflexivity].
    rewrite <- (Z.mod_small V (2 ^ 64)) by lia. apply Z.mod_pow2_bits_high; lia.
Qed.

Lemma bytes_xor a b : bytes a -> bytes b ->
  bytes (map (fun p => Z.lxor (fst p) (snd p)) (combine a b)).
Proof.
  intros Ha; revert b; induction Ha as [|x a Hx _ IH]; intros b Hb; [constructor|].
  destruct Hb as [|y b Hy Hb]; cbn; constructor; [|apply IH, Hb].
  apply lxor_byte; assumption.
Qed.

Lemma matching_first pa a posta pb postb :
  bytes (pa ++ a :: posta) -> bytes (pb ++ a :: postb) ->
  length (pa ++ a :: posta) = 8%nat -> length (pb ++ a :: postb) = 8%nat ->
  length pa = length pb -> Forall (fun p => fst p <> snd p) (combine pa pb) ->
  get_index_of_first_matching_byte (word_of (pa ++ a :: posta)) (word_of (pb ++ a :: postb))
  = Ok (Z.of_nat (length pa)).
Proof.
  intros Ha Hb Hla Hlb Hl Hne. unfold get_index_of_first_matching_byte.
  rewrite word_xor_bytes by (assumption || lia).
  set (xs := map _ _).
  assert (Hxs : bytes xs) by (apply bytes_xor; assumption).
  assert (Hlx : length xs = 8%nat).
  { unfold xs. rewrite map_length, combine_length. lia. }
  rewrite gim_unfold by (apply word_of_64; [exact Hxs|lia]).
  assert (Hm := gim_masked xs Hxs). unfold gim_X in Hm. rewrite Hlx in Hm. rewrite <- Hm.
  set (pre := map (fun p => Z.lxor (fst p) (snd p)) (combine pa pb)).
  set (post := map (fun p => Z.lxor (fst p) (snd p)) (combine posta postb)).
  assert (Hsplit : xs = pre ++ 0 :: post).
  { unfold xs, pre, post. clear -Hl. revert pb Hl.
    induction pa as [|x pa IH]; intros [|y pb] Hl; cbn in Hl; try lia; cbn.
    - rewrite Z.lxor_nilpotent; reflexivity.
    - f_equal. apply IH; lia. }
  assert (Hpl : length pre = length pa) by (unfold pre; rewrite map_length, combine_length; lia).
  assert (H := generic_first (fun b => negb (b =? 0)) gim_X gim_Xgood gim_Xbad pre 0 post).
  rewrite <- Hsplit in H. unfold gim_X in H. rewrite Hlx in H.
  rewrite app_length in Hla; cbn [length] in Hla.
  assert (HL : lowest_bit (Z.land (Z.lnot (Z.lor (Z.lor (Z.land (word_of xs) (rep 127 8) + rep 127 8)
                 (word_of xs)) (rep 127 8))) (rep 128 8)) (8 * Z.of_nat (length pre) + 7)).
  { apply H; [exact Hxs| |reflexivity].
    unfold pre. rewrite forallb_forall. intros x Hx. apply in_map_iff in Hx.
    destruct Hx as (p & <- & Hp). rewrite Forall_forall in Hne. specialize (Hne p Hp).
    destruct (Z.eqb_spec (Z.lxor (fst p) (snd p)) 0) as [E|]; [|reflexivity].
    exfalso. exact (Hne (proj1 (lxor_eq_0 _ _) E)). }
  erewrite ctz_lowest; [|..|exact HL]; [|lia]. cbn [bind]. f_equal. lia.
Qed.

(** ** byteswap *)

Lemma land_shifted_mask w k : 0 <= k ->
  Z.land w (Z.shiftl 255 k) = Z.shiftl ((w / 2 ^ k) mod 256) k.
Proof.
  intros Hk. rewrite <- Z.shiftr_div_pow2 by exact Hk.
  change 256 with (2 ^ 8). rewrite <- (Z.land_ones _ 8) by lia.
  change 255 with (Z.ones 8).
  apply Z.bits_inj'; intros n Hn. rewrite Z.land_spec.
  destruct (Z_lt_le_dec n k).
  - rewrite !Z.shiftl_spec_low by lia. apply andb_false_r.
  - rewrite !Z.shiftl_spec by lia. rewrite Z.land_spec, Z.shiftr_spec by lia.
    replace (n - k + k) with n by lia. reflexivity.
Qed.

Lemma lor_add_lo lo hi n : 0 <= n -> 0 <= lo < 2 ^ n ->
  Z.lor lo (hi * 2 ^ n) = lo + hi * 2 ^ n.
Proof.
  intros Hn Hlo. rewrite <- Z.lxor_lor, <- Z.add_nocarry_lxor; [reflexivity| |].
  all: apply Z.bits_inj'; intros k Hk; rewrite Z.land_spec, Z.bits_0;
    destruct (Z_lt_le_dec k n);
    [rewrite Z.mul_pow2_bits_low by lia; apply andb_false_r|];
    rewrite <- (Z.mod_small lo (2 ^ n)) by lia; rewrite Z.mod_pow2_bits_high by lia; reflexivity.
Qed.

Lemma byteswap_rev bs : bytes bs -> length bs = 8%nat ->
  byteswap (word_of bs) = word_of (rev bs).
Proof.
  intros Hb Hl.
  destruct bs as [|b0 [|b1 [|b2 [|b3 [|b4 [|b5 [|b6 [|b7 [|? ?]]]]]]]]]; try discriminate Hl.
  repeat match goal with H : bytes (_ :: _) |- _ => inversion_clear H | H : Forall is_byte (_ :: _) |- _ => inversion_clear H end.
  unfold is_byte in *.
  unfold byteswap. cbn [rev app].
  set (w := word_of _).
  assert (Hw : w = b0 + 256 * (b1 + 256 * (b2 + 256 * (b3 + 256 * (b4 + 256 * (b5 + 256 * (b6 + 256 * b7)))))))
    by (unfold w; cbn [word_of]; lia).
  change 0xFF00000000000000 with (Z.shiftl 255 56).
  change 0x00FF000000000000 with (Z.shiftl 255 48).
  change 0x0000FF0000000000 with (Z.shiftl 255 40).
  change 0x000000FF00000000 with (Z.shiftl 255 32).
  change 0x00000000FF000000 with (Z.shiftl 255 24).
  change 0x0000000000FF0000 with (Z.shiftl 255 16).
  change 0x000000000000FF00 with (Z.shiftl 255 8).
  replace 0x00000000000000FF with (Z.shiftl 255 0) by reflexivity.
  rewrite !land_shifted_mask by lia.
  assert (E7 : (w / 2 ^ 56) mod 256 = b7) by (change (2 ^ 56) with 72057594037927936; lia).
  assert (E6 : (w / 2 ^ 48) mod 256 = b6) by (change (2 ^ 48) with 281474976710656; lia).
  assert (E5 : (w / 2 ^ 40) mod 256 = b5) by (change (2 ^ 40) with 1099511627776; lia).
  assert (E4 : (w / 2 ^ 32) mod 256 = b4) by (change (2 ^ 32) with 4294967296; lia).
  assert (E3 : (w / 2 ^ 24) mod 256 = b3) by (change (2 ^ 24) with 16777216; lia).
  assert (E2 : (w / 2 ^ 16) mod 256 = b2) by (change (2 ^ 16) with 65536; lia).
  assert (E1 : (w / 2 ^ 8) mod 256 = b1) by (change (2 ^ 8) with 256; lia).
  assert (E0 : (w / 2 ^ 0) mod 256 = b0) by (change (2 ^ 0) with 1; lia).
  rewrite E0, E1, E2, E3, E4, E5, E6, E7.
  rewrite !Z.shiftr_shiftl_l by lia. unfold wrap64.
  rewrite !Z.shiftl_shiftl by lia.
  rewrite !Z.shiftl_mul_pow2 by lia.
  repeat match goal with |- context [2 ^ (?a - ?b)] =>
    let c := eval vm_compute in (a - b) in change (a - b) with c end.
  repeat match goal with |- context [2 ^ (?a + ?b)] =>
    let c := eval vm_compute in (a + b) in change (a + b) with c end.
  rewrite !Z.mod_small by (change (2 ^ 64) with 18446744073709551616;
    change (2 ^ 32) with 4294967296; change (2 ^ 40) with 1099511627776;
    change (2 ^ 48) with 281474976710656; change (2 ^ 56) with 72057594037927936; lia).
  rewrite (lor_add_lo (b7 * 2 ^ 0)) by (change (2 ^ 0) with 1; change (2 ^ 8) with 256; lia).
  rewrite (lor_add_lo _ b5 16), (lor_add_lo _ b4 24), (lor_add_lo _ b3 32), (lor_add_lo _ b2 40),
    (lor_add_lo _ b1 48), (lor_add_lo _ b0 56);
    change (2 ^ 0) with 1; change (2 ^ 8) with 256; change (2 ^ 16) with 65536;
    change (2 ^ 24) with 16777216;
    change (2 ^ 32) with 4294967296; change (2 ^ 40) with 1099511627776;
    change (2 ^ 48) with 281474976710656; change (2 ^ 56) with 72057594037927936; try lia.
  cbn [word_of]. lia.
Qed.

(** ** logarithms *)

(** bit k of the smeared value: some bit of v in [k, k+n) *)
Definition smeared (n : Z) (v x : Z) : Prop :=
  forall k, 0 <= k -> (Z.testbit x k = true <-> exists j, 0 <= j < n /\ Z.testbit v (k + j) = true).

Lemma smeared_1 v : smeared 1 v v.
Proof.
  intros k Hk; split.
  - intros H; exists 0; rewrite Z.add_0_r; split; [lia|exact H].
  - intros (j & Hj & H). replace (k + j) with k in H by lia. exact H.
Qed.

Lemma smeared_double n v x : 0 < n -> smeared n v x -> smeared (2 * n) v (Z.lor x (Z.shiftr x n)).
Proof.
  intros Hn Hx k Hk. rewrite Z.lor_spec, Z.shiftr_spec, orb_true_iff by lia.
  rewrite (Hx k Hk), (Hx (k + n)) by lia. split.
  - intros [(j & Hj & H)|(j & Hj & H)].
    + exists j; split; [lia|exact H].
    + exists (n + j); split; [lia|]. replace (k + (n + j)) with (k + n + j) by lia; exact H.
  - intros (j & Hj & H). destruct (Z_lt_le_dec j n).
    + left; exists j; split; [lia|exact H].
    + right; exists (j - n); split; [lia|]. replace (k + n + (j - n)) with (k + j) by lia; exact H.
Qed.

Lemma smeared_ones v x : 0 < v < 2 ^ 32 -> 0 <= x -> smeared 32 v x -> x = Z.ones (Z.log2 v + 1).
Proof.
  intros Hv Hx0 Hx. assert (HL : Z.log2 v < 32) by (apply Z.log2_lt_pow2; lia).
  assert (HL0 := Z.log2_nonneg v).
  apply Z.bits_inj'; intros k Hk.
  apply eq_true_iff_eq. rewrite (Hx k Hk).
  destruct (Z_lt_le_dec k (Z.log2 v + 1)).
  - rewrite Z.ones_spec_low by lia. split; [reflexivity|]. intros _.
    exists (Z.log2 v - k); split; [lia|]. replace (k + (Z.log2 v - k)) with (Z.log2 v) by lia.
    apply Z.bit_log2; lia.
  - rewrite Z.ones_spec_high by lia. split; [|discriminate].
    intros (j & Hj & H). rewrite Z.bits_above_log2 in H by lia. discriminate.
Qed.

Lemma log2_fast_exact v : 0 < v < 2 ^ 32 -> log2_fast v = Ok (Z.log2 v).
Proof.
  intros Hv. unfold log2_fast.
  set (x := Z.lor _ (Z.shiftr _ 16)).
  assert (Hx : smeared 32 v x).
  { unfold x. apply (smeared_double 16); [lia|]. apply (smeared_double 8); [lia|].
    apply (smeared_double 4); [lia|]. apply (smeared_double 2); [lia|].
    apply (smeared_double 1); [lia|]. apply smeared_1. }
  assert (Hx0 : 0 <= x).
  { unfold x. repeat (rewrite ?Z.lor_nonneg, ?Z.shiftr_nonneg); lia. }
  rewrite (smeared_ones v x Hv Hx0 Hx).
  assert (HL : 0 <= Z.log2 v < 0 + Z.of_nat 32).
  { split; [apply Z.log2_nonneg|]. apply Z.log2_lt_pow2; lia. }
  set (f := fun l => match table_get log2_lookup (Z.shiftr (wrap32 (Z.ones (l + 1) * 0x07c4acdd)) 27) with
                     | Ok y => y =? l | _ => false end).
  assert (Hs : f (Z.log2 v) = true).
  { apply (sweep f 0 32); [vm_compute; reflexivity|exact HL]. }
  unfold f in Hs. destruct (table_get _ _); try discriminate. f_equal; lia.
Qed.

Lemma log2_fast_zero : log2_fast 0 = Ok 0.
Proof. vm_compute; reflexivity. Qed.

Lemma log2_pow2_fast_exact k : 0 <= k < 32 -> log2_pow2_fast (2 ^ k) = Ok k.
Proof.
  intros Hk.
  set (f := fun l => match log2_pow2_fast (2 ^ l) with Ok y => y =? l | _ => false end).
  assert (Hs : f k = true) by (apply (sweep f 0 32); [vm_compute; reflexivity|lia]).
  unfold f in Hs. destruct (log2_pow2_fast _); try discriminate. f_equal; lia.
Qed.

Lemma word_of_surj_n : forall n w, 0 <= w < 256 ^ Z.of_nat n ->
  exists bs, bytes bs /\ length bs = n /\ word_of bs = w.
Proof.
  induction n as [|n IH]; intros w Hw.
  - exists []; repeat split; [constructor|]. change (256 ^ Z.of_nat 0) with 1 in Hw. cbn; lia.
  - rewrite Nat2Z.inj_succ, Z.pow_succ_r in Hw by lia.
    destruct (IH (w / 256)) as (bs & Hb & Hl & Hw'); [lia|].
    exists (w mod 256 :: bs). repeat split.
    + constructor; [unfold is_byte; lia|exact Hb].
    + cbn; lia.
    + cbn [word_of]. rewrite Hw'. lia.
Qed.

Lemma word_of_surj w : 0 <= w < 2 ^ 64 ->
  exists bs, bytes bs /\ length bs = 8%nat /\ word_of bs = w.
Proof. apply (word_of_surj_n 8). Qed.
