(** Proofs about integer reading. *)
From Verif Require Import Prelude Tables BitsModel UnicodeModel ReadModel SpecsModel.
From Verif Require Import IntModel IntSpec BitsProofs.
Local Open Scope Z_scope.
Ltac Zify.zify_post_hook ::= Z.div_mod_to_equations.

Arguments Z.land : simpl never.
Arguments Z.lor : simpl never.
Arguments Z.shiftr : simpl never.
Arguments Z.pow : simpl never.
Arguments Z.mul : simpl never.
Arguments Z.add : simpl never.
Arguments Z.sub : simpl never.
Arguments Z.modulo : simpl never.

(** ** Digits *)

Lemma char_to_int_digit c :
  char_to_int c = match digit_value c with Some d => d | None => 255 end.
Proof.
  unfold char_to_int.
  destruct ((0 <=? c) && (c <=? 255)) eqn:E.
  - revert c E.
    assert (H : forall c, is_byte c ->
      (nth (Z.to_nat c) char_to_int_table 255
       =? match digit_value c with Some d => d | None => 255 end) = true).
    { apply (sweep_byte (fun c => nth (Z.to_nat c) char_to_int_table 255
        =? match digit_value c with Some d => d | None => 255 end)).
      vm_compute; reflexivity. }
    intros c E. apply Z.eqb_eq, H. unfold is_byte. lia.
  - unfold digit_value.
    destruct ((48 <=? c) && (c <=? 57)) eqn:E1; [lia|].
    destruct ((97 <=? c) && (c <=? 122)) eqn:E2; [lia|].
    destruct ((65 <=? c) && (c <=? 90)) eqn:E3; [lia|]. reflexivity.
Qed.

Lemma digit_value_range c d : digit_value c = Some d -> 0 <= d < 36.
Proof.
  unfold digit_value.
  destruct ((48 <=? c) && (c <=? 57)) eqn:E1; [intros [= <-]; lia|].
  destruct ((97 <=? c) && (c <=? 122)) eqn:E2; [intros [= <-]; lia|].
  destruct ((65 <=? c) && (c <=? 90)) eqn:E3; [intros [= <-]; lia|]. discriminate.
Qed.

Lemma char_to_int_is_digit b c : b <= 36 -> ((b <=? char_to_int c) = false <-> is_digit b c).
Proof.
  intros Hb. rewrite char_to_int_digit. unfold is_digit.
  destruct (digit_value c) as [d|] eqn:E.
  - split; [intros H; exists d; split; [reflexivity|lia] |
            intros (d' & [= <-] & H); lia].
  - split; [lia | intros (d' & H & _); discriminate].
Qed.

Lemma char_to_int_not_digit b c : b <= 36 -> ((b <=? char_to_int c) = true <-> ~ is_digit b c).
Proof.
  intros Hb. rewrite <- char_to_int_is_digit by assumption.
  destruct (b <=? char_to_int c); split; congruence.
Qed.

Lemma is_digit_or_0 b c : is_digit b c -> 0 <= digit_or_0 c < b /\ char_to_int c = digit_or_0 c.
Proof.
  intros (d & E & H). rewrite char_to_int_digit. unfold digit_or_0. rewrite E.
  apply digit_value_range in E. lia.
Qed.

Lemma value_range b ds : 0 < b -> Forall (is_digit b) ds ->
  0 <= value b ds < b ^ Z.of_nat (length ds).
Proof.
  intros Hb. induction 1 as [|c ds Hc Hds IH]; cbn [value length]; [lia|].
  apply is_digit_or_0 in Hc. destruct Hc as [Hc _].
  rewrite Nat2Z.inj_succ, Z.pow_succ_r by lia.
  assert (0 < b ^ Z.of_nat (length ds)) by (apply Z.pow_pos_nonneg; lia).
  nia.
Qed.

Lemma value_lower b c ds : 0 < b -> is_digit b c -> digit_or_0 c <> 0 ->
  Forall (is_digit b) ds -> b ^ Z.of_nat (length ds) <= value b (c :: ds).
Proof.
  intros Hb Hc Hz Hds. cbn [value].
  apply is_digit_or_0 in Hc. destruct Hc as [Hc _].
  assert (H := value_range b ds Hb Hds).
  assert (0 < b ^ Z.of_nat (length ds)) by (apply Z.pow_pos_nonneg; lia).
  nia.
Qed.

Lemma value_app b x y : value b (x ++ y) = value b x * b ^ Z.of_nat (length y) + value b y.
Proof.
  induction x as [|c x IH]; cbn [app value]; [lia|].
  rewrite IH, app_length, Nat2Z.inj_add, Z.pow_add_r by lia. ring.
Qed.

(** ** The eight-digit block test *)

Definition edd_X (bs : list Z) : Z :=
  Z.lor (word_of bs + rep 0x46 (length bs)) (word_of bs - rep 0x30 (length bs)).
Definition dec_digit (c : Z) : bool := (48 <=? c) && (c <=? 57).

Lemma edd_Xgood : forall b bs, is_byte b -> bytes bs -> dec_digit b = true ->
  exists lo, 0 <= lo < 128 /\ edd_X (b :: bs) = lo + 256 * edd_X bs.
Proof.
  intros b bs Hb Hbs Hg. unfold edd_X, dec_digit in *. cbn [word_of length].
  rewrite !rep_S.
  replace (b + 256 * word_of bs + (70 + 256 * rep 70 (length bs)))
    with ((b + 70) + 256 * (word_of bs + rep 70 (length bs))) by ring.
  replace (b + 256 * word_of bs - (48 + 256 * rep 48 (length bs)))
    with ((b - 48) + 256 * (word_of bs - rep 48 (length bs))) by ring.
  rewrite lor_split by lia.
  eexists; split; [|reflexivity]. apply lor_lt128; lia.
Qed.

Lemma edd_Xbad : forall b bs, is_byte b -> bytes bs -> dec_digit b = false ->
  exists lo hi, 128 <= lo < 256 /\ edd_X (b :: bs) = lo + 256 * hi.
Proof.
  intros b bs Hb Hbs Hg. unfold edd_X, dec_digit, is_byte in *. cbn [word_of length].
  rewrite !rep_S.
  assert (Hlo : exists l1 h1, 0 <= l1 < 256 /\
            b + 256 * word_of bs + (70 + 256 * rep 70 (length bs)) = l1 + 256 * h1 /\
            (58 <= b < 186 -> 128 <= l1)).
  { destruct (Z_lt_le_dec b 186).
    - exists (b + 70), (word_of bs + rep 70 (length bs)). repeat split; try lia; ring.
    - exists (b + 70 - 256), (word_of bs + rep 70 (length bs) + 1).
      repeat split; try lia; ring. }
  assert (Hhi : exists l2 h2, 0 <= l2 < 256 /\
            b + 256 * word_of bs - (48 + 256 * rep 48 (length bs)) = l2 + 256 * h2 /\
            (b < 48 \/ 176 <= b -> 128 <= l2)).
  { destruct (Z_lt_le_dec b 48).
    - exists (b - 48 + 256), (word_of bs - rep 48 (length bs) - 1).
      repeat split; try lia; ring.
    - exists (b - 48), (word_of bs - rep 48 (length bs)). repeat split; try lia; ring. }
  destruct Hlo as (l1 & h1 & R1 & -> & C1). destruct Hhi as (l2 & h2 & R2 & -> & C2).
  rewrite lor_split by lia.
  eexists _, _; split; [|reflexivity].
  destruct (Z_lt_le_dec b 48); [apply lor_ge128_r; lia|].
  destruct (Z_lt_le_dec b 186); [apply lor_ge128_l; lia|apply lor_ge128_r; lia].
Qed.

Lemma eight_digits_test bs : bytes bs -> length bs = 8%nat ->
  is_word_made_of_eight_decimal_digits_fast (word_of bs) = forallb dec_digit bs.
Proof.
  intros Hb Hl. unfold is_word_made_of_eight_decimal_digits_fast.
  assert (Hm : 0x8080808080808080 = rep 128 8) by (vm_compute; reflexivity).
  assert (H1 : 0x4646464646464646 = rep 0x46 8) by (vm_compute; reflexivity).
  assert (H2 : 0x3030303030303030 = rep 0x30 8) by (vm_compute; reflexivity).
  rewrite Z.land_lor_distr_l, !land_wrap64 by lia.
  rewrite <- Z.land_lor_distr_l, Hm, H1, H2.
  assert (G := generic_iff dec_digit edd_X edd_Xgood edd_Xbad bs Hb).
  unfold edd_X in G. rewrite Hl in G.
  destruct (forallb dec_digit bs).
  - apply Z.eqb_eq, G; reflexivity.
  - apply Z.eqb_neq. intros H; apply G in H; discriminate.
Qed.

(** ** The eight-digit block conversion *)

Lemma land_words : forall a m, bytes a -> bytes m -> length a = length m ->
  Z.land (word_of a) (word_of m) = word_of (map (fun p => Z.land (fst p) (snd p)) (combine a m)).
Proof.
  induction a as [|x a IH]; intros [|y m] Ha Hm Hl; try discriminate; cbn [combine map word_of].
  - reflexivity.
  - inversion_clear Ha; inversion_clear Hm. unfold is_byte in *.
    rewrite land_split by lia. rewrite IH by (auto; cbn in Hl; congruence). reflexivity.
Qed.

Lemma land_255 x : 0 <= x < 256 -> Z.land x 255 = x.
Proof. intros H. change 255 with (Z.ones 8). rewrite Z.land_ones by lia. apply Z.mod_small. lia. Qed.

Lemma eight_digits_value d0 d1 d2 d3 d4 d5 d6 d7 :
  0 <= d0 <= 9 -> 0 <= d1 <= 9 -> 0 <= d2 <= 9 -> 0 <= d3 <= 9 ->
  0 <= d4 <= 9 -> 0 <= d5 <= 9 -> 0 <= d6 <= 9 -> 0 <= d7 <= 9 ->
  parse_eight_decimal_digits_unrolled_fast
    (word_of [48 + d0; 48 + d1; 48 + d2; 48 + d3; 48 + d4; 48 + d5; 48 + d6; 48 + d7])
  = d0 * 10000000 + d1 * 1000000 + d2 * 100000 + d3 * 10000
    + d4 * 1000 + d5 * 100 + d6 * 10 + d7.
Proof.
  intros H0 H1 H2 H3 H4 H5 H6 H7.
  unfold parse_eight_decimal_digits_unrolled_fast.
  assert (E1 : wrap64 (word_of [48 + d0; 48 + d1; 48 + d2; 48 + d3; 48 + d4; 48 + d5; 48 + d6; 48 + d7]
                       - 0x3030303030303030) = word_of [d0; d1; d2; d3; d4; d5; d6; d7]).
  { cbn [word_of]. unfold wrap64. change (2 ^ 64) with 18446744073709551616.
    rewrite Z.mod_small; lia. }
  rewrite E1.
  assert (E2 : Z.shiftr (word_of [d0; d1; d2; d3; d4; d5; d6; d7]) 8
               = word_of [d1; d2; d3; d4; d5; d6; d7]).
  { rewrite Z.shiftr_div_pow2 by lia. change (2 ^ 8) with 256.
    change (word_of [d0; d1; d2; d3; d4; d5; d6; d7])
      with (d0 + 256 * word_of [d1; d2; d3; d4; d5; d6; d7]).
    generalize (word_of [d1; d2; d3; d4; d5; d6; d7]); intros; lia. }
  rewrite E2.
  set (e0 := 10 * d0 + d1). set (e1 := 10 * d1 + d2). set (e2 := 10 * d2 + d3).
  set (e3 := 10 * d3 + d4). set (e4 := 10 * d4 + d5). set (e5 := 10 * d5 + d6).
  set (e6 := 10 * d6 + d7). set (e7 := 10 * d7).
  assert (E3 : wrap64 (wrap64 (word_of [d0; d1; d2; d3; d4; d5; d6; d7] * 10)
                       + word_of [d1; d2; d3; d4; d5; d6; d7])
               = word_of [e0; e1; e2; e3; e4; e5; e6; e7]).
  { unfold e0, e1, e2, e3, e4, e5, e6, e7. cbn [word_of]. unfold wrap64.
    change (2 ^ 64) with 18446744073709551616.
    rewrite (Z.mod_small (_ * 10)) by lia. rewrite Z.mod_small; lia. }
  rewrite E3.
  assert (R0 : 0 <= e0 < 100) by (unfold e0; lia).
  assert (R1 : 0 <= e1 < 100) by (unfold e1; lia).
  assert (R2 : 0 <= e2 < 100) by (unfold e2; lia).
  assert (R3 : 0 <= e3 < 100) by (unfold e3; lia).
  assert (R4 : 0 <= e4 < 100) by (unfold e4; lia).
  assert (R5 : 0 <= e5 < 100) by (unfold e5; lia).
  assert (R6 : 0 <= e6 < 100) by (unfold e6; lia).
  assert (R7 : 0 <= e7 < 100) by (unfold e7; lia).
  assert (M : 0x000000FF000000FF = word_of [255; 0; 0; 0; 255; 0; 0; 0]) by reflexivity.
  assert (E4 : Z.land (word_of [e0; e1; e2; e3; e4; e5; e6; e7]) 0x000000FF000000FF
               = e0 + 2 ^ 32 * e4).
  { rewrite M, land_words; [|repeat constructor; unfold is_byte; lia..|reflexivity].
    cbn [combine map fst snd]. rewrite !Z.land_0_r, !land_255 by lia.
    cbn [word_of]. change (2 ^ 32) with 4294967296. ring. }
  assert (E5 : Z.shiftr (word_of [e0; e1; e2; e3; e4; e5; e6; e7]) 16
               = word_of [e2; e3; e4; e5; e6; e7; 0; 0]).
  { rewrite Z.shiftr_div_pow2 by lia. change (2 ^ 16) with 65536.
    change (word_of [e0; e1; e2; e3; e4; e5; e6; e7])
      with (e0 + 256 * (e1 + 256 * word_of [e2; e3; e4; e5; e6; e7])).
    change (word_of [e2; e3; e4; e5; e6; e7; 0; 0]) with (word_of [e2; e3; e4; e5; e6; e7]).
    generalize (word_of [e2; e3; e4; e5; e6; e7]); intros; lia. }
  assert (E6 : Z.land (word_of [e2; e3; e4; e5; e6; e7; 0; 0]) 0x000000FF000000FF
               = e2 + 2 ^ 32 * e6).
  { rewrite M, land_words; [|repeat constructor; unfold is_byte; lia..|reflexivity].
    cbn [combine map fst snd]. rewrite !Z.land_0_r, !land_255 by lia.
    cbn [word_of]. change (2 ^ 32) with 4294967296. ring. }
  rewrite E4, E5, E6.
  unfold wrap64, wrap32. rewrite Z.shiftr_div_pow2 by lia.
  rewrite <- Z.add_mod by (change (2 ^ 64) with 18446744073709551616; lia).
  change (2 ^ 64) with 18446744073709551616. change (2 ^ 32) with 4294967296.
  replace ((e0 + 4294967296 * e4) * 4294967296000100 + (e2 + 4294967296 * e6) * 42949672960001)
    with ((100 * e0 + e2) + 4294967296 * (1000000 * e0 + 10000 * e2 + 100 * e4 + e6)
          + (1000000 * e4 + 10000 * e6) * 18446744073709551616) by ring.
  rewrite Z.mod_add by lia.
  rewrite (Z.mod_small (_ + _) 18446744073709551616) by lia.
  unfold e0, e2, e4, e6 in *. clear - H0 H1 H2 H3 H4 H5 H6 H7.
  rewrite (Z.mul_comm 4294967296), Z.div_add by lia.
  rewrite (Z.div_small (100 * _ + _)) by lia.
  rewrite Z.mod_small by lia. ring.
Qed.

(** ** The digit loops *)

Lemma wrap64_small v : 0 <= v < 2 ^ 64 -> wrap64 v = v.
Proof. apply Z.mod_small. Qed.

Lemma wrap64_range v : 0 <= wrap64 v < 2 ^ 64.
Proof. apply Z.mod_pos_bound. lia. Qed.

(** one step of the accumulator, modulo 2^64 *)
Lemma wrap64_step b v d : wrap64 (wrap64 (b * wrap64 v) + d) = wrap64 (b * v + d).
Proof.
  unfold wrap64. rewrite Z.mul_mod_idemp_r, Z.add_mod_idemp_l by lia. reflexivity.
Qed.

Lemma digit_loop_run b ds rest : 2 <= b <= 36 -> Forall (is_digit b) ds ->
  ~ starts_with_digit b rest -> forall v,
  digit_loop b (ds ++ rest) (wrap64 v)
  = (rest, wrap64 (v * b ^ Z.of_nat (length ds) + value b ds)).
Proof.
  intros Hb Hds Hr. induction Hds as [|c ds Hc Hds IH]; intros v; cbn [app].
  - cbn [length value]. rewrite Z.pow_0_r, Z.mul_1_r, Z.add_0_r.
    destruct rest as [|c rest]; cbn [digit_loop]; [reflexivity|].
    cbn [starts_with_digit] in Hr. rewrite <- char_to_int_not_digit in Hr by lia.
    rewrite Hr. reflexivity.
  - cbn [digit_loop]. assert (Hc' := Hc). rewrite <- char_to_int_is_digit in Hc' by lia.
    rewrite Hc', wrap64_step, IH. f_equal. f_equal. cbn [length value].
    apply is_digit_or_0 in Hc. destruct Hc as [_ ->].
    rewrite Nat2Z.inj_succ, Z.pow_succ_r by lia. ring.
Qed.

Lemma dec_digit_is_digit c : dec_digit c = true <-> is_digit 10 c.
Proof.
  unfold dec_digit, is_digit, digit_value.
  destruct ((48 <=? c) && (c <=? 57)) eqn:E1.
  - split; [|reflexivity]. intros _. eexists; split; [reflexivity|lia].
  - split; [discriminate|]. intros (d & H & Hd).
    destruct ((97 <=? c) && (c <=? 122)) eqn:E2; [injection H as <-; lia|].
    destruct ((65 <=? c) && (c <=? 90)) eqn:E3; [injection H as <-; lia|]. discriminate.
Qed.

Lemma dec_digit_loop ds rest v : Forall (is_digit 10) ds ->
  digit_loop 10 (ds ++ rest) (wrap64 v)
  = digit_loop 10 rest (wrap64 (v * 10 ^ Z.of_nat (length ds) + value 10 ds)).
Proof.
  intros H; revert v. induction H as [|c ds Hc Hds IH]; intros v; cbn [app].
  - cbn [length value]. rewrite Z.pow_0_r, Z.mul_1_r, Z.add_0_r. reflexivity.
  - cbn [digit_loop]. assert (Hc' := Hc). rewrite <- char_to_int_is_digit in Hc' by lia.
    rewrite Hc', wrap64_step, IH. do 2 f_equal. cbn [length value].
    apply is_digit_or_0 in Hc. destruct Hc as [_ ->].
    rewrite Nat2Z.inj_succ, Z.pow_succ_r by lia. ring.
Qed.

Lemma list8 {A} (l : list A) : length l = 8%nat ->
  exists a b c d e f g h, l = [a; b; c; d; e; f; g; h].
Proof.
  intros H. do 8 (destruct l as [|? l]; [discriminate|]).
  destruct l; [|discriminate]. repeat eexists.
Qed.

(** The converted block is the decimal value of its digits. *)
Lemma eight_digits_convert bs : length bs = 8%nat -> Forall (is_digit 10) bs ->
  parse_eight_decimal_digits_unrolled_fast (word_of bs) = value 10 bs.
Proof.
  intros Hl H. destruct (list8 bs Hl) as (a & b & c & d & e & f & g & h & ->).
  assert (D : forall x, is_digit 10 x -> exists y, x = 48 + y /\ 0 <= y <= 9 /\ digit_or_0 x = y).
  { intros x Hx. apply dec_digit_is_digit in Hx. unfold dec_digit in Hx.
    exists (x - 48). unfold digit_or_0, digit_value. rewrite Hx. repeat split; lia. }
  repeat match goal with
         | H : Forall _ (_ :: _) |- _ => inversion_clear H
         end.
  repeat match goal with
         | H : is_digit 10 ?x |- _ =>
             destruct (D x H) as (? & -> & ? & ?); clear H
         end.
  rewrite eight_digits_value by assumption.
  cbn [value length]. repeat match goal with H : digit_or_0 _ = _ |- _ => rewrite H; clear H end.
  change (10 ^ Z.of_nat 7) with 10000000. change (10 ^ Z.of_nat 6) with 1000000.
  change (10 ^ Z.of_nat 5) with 100000. change (10 ^ Z.of_nat 4) with 10000.
  change (10 ^ Z.of_nat 3) with 1000. change (10 ^ Z.of_nat 2) with 100.
  change (10 ^ Z.of_nat 1) with 10. change (10 ^ Z.of_nat 0) with 1. ring.
Qed.

Lemma get_word_forall p : bytes p -> (8 <= length p)%nat ->
  is_word_made_of_eight_decimal_digits_fast (get_eight_digits_word p)
  = forallb dec_digit (firstn 8 p).
Proof.
  intros Hb Hl. apply eight_digits_test; [apply bytes_firstn, Hb|].
  rewrite firstn_length. lia.
Qed.

Lemma forallb_dec ds : forallb dec_digit ds = true <-> Forall (is_digit 10) ds.
Proof.
  rewrite forallb_forall, Forall_forall. split; intros H x Hx; apply dec_digit_is_digit, H, Hx.
Qed.

Lemma block_acc v p : Forall (is_digit 10) (firstn 8 p) -> (8 <= length p)%nat ->
  wrap64 (wrap64 (wrap64 v * 100000000)
          + parse_eight_decimal_digits_unrolled_fast (get_eight_digits_word p))
  = wrap64 (v * 10 ^ 8 + value 10 (firstn 8 p)).
Proof.
  intros H Hl. assert (L : length (firstn 8 p) = 8%nat) by (rewrite firstn_length; lia).
  unfold get_eight_digits_word. rewrite eight_digits_convert by assumption.
  rewrite (Z.mul_comm (wrap64 v)), wrap64_step. f_equal. change (10 ^ 8) with 100000000. ring.
Qed.

(** the blocks, then the loop, is the loop *)
Lemma blocks_loop : forall fuel p v, bytes p -> (length p <= fuel)%nat ->
  exists p' v', loop_parse_if_eight_decimal_digits fuel p (wrap64 v) = Ok (p', wrap64 v')
    /\ digit_loop 10 p' (wrap64 v') = digit_loop 10 p (wrap64 v).
Proof.
  induction fuel as [|f IH]; intros p v Hb Hf.
  - destruct p; [|cbn in Hf; lia]. exists [], v. split; reflexivity.
  - cbn [loop_parse_if_eight_decimal_digits].
    destruct (8 <=? length p)%nat eqn:El; [|exists p, v; split; reflexivity].
    apply Nat.leb_le in El. rewrite get_word_forall by assumption. cbn [andb].
    destruct (forallb dec_digit (firstn 8 p)) eqn:E; [|exists p, v; split; reflexivity].
    apply forallb_dec in E. rewrite block_acc by assumption.
    destruct (IH (skipn 8 p) (v * 10 ^ 8 + value 10 (firstn 8 p))) as (p' & v' & H1 & H2).
    + apply bytes_skipn, Hb.
    + rewrite skipn_length. lia.
    + exists p', v'. split; [exact H1|]. rewrite H2.
      rewrite <- (firstn_skipn 8 p) at 3. rewrite dec_digit_loop by exact E.
      rewrite firstn_length, Nat.min_l by lia. reflexivity.
Qed.

Lemma fast_impl_loop p v : bytes p -> 0 <= v < 2 ^ 64 ->
  parse_decimal_integer_fast_impl p v = Ok (digit_loop 10 p v).
Proof.
  intros Hb Hv. unfold parse_decimal_integer_fast_impl.
  destruct (blocks_loop (length p) p v Hb (le_n _)) as (p' & v' & H1 & H2).
  rewrite <- (wrap64_small v Hv) at 1. rewrite H1. cbn [bind]. rewrite H2.
  rewrite wrap64_small by assumption. reflexivity.
Qed.

(** ** The overflow tables *)

Definition base_ok (b : Z) : Prop := 2 <= b <= 36.

Definition tables_good (b : Z) : bool :=
  match maxdigits_u64 b, min_safe_u64 b with
  | Ok m, Ok s => (1 <=? m) && (m <=? 64) && (s =? b ^ (m - 1)) && (s <? 2 ^ 64)
                  && (2 ^ 64 <=? b ^ m) && (2 ^ 32 <? s)
  | _, _ => false
  end.

Lemma tables b : base_ok b -> exists m, 1 <= m <= 64
  /\ maxdigits_u64 b = Ok m /\ min_safe_u64 b = Ok (b ^ (m - 1))
  /\ b ^ (m - 1) < 2 ^ 64 <= b ^ m /\ 2 ^ 32 < b ^ (m - 1).
Proof.
  intros Hb. assert (H : tables_good b = true).
  { apply (sweep tables_good 2 35); [vm_compute; reflexivity|unfold base_ok in Hb; lia]. }
  unfold tables_good in H.
  destruct (maxdigits_u64 b) as [m| | |]; try discriminate.
  destruct (min_safe_u64 b) as [s| | |]; try discriminate.
  rewrite !andb_true_iff in H. destruct H as [[[[[H1 H2] H3] H4] H5] H6].
  apply Z.eqb_eq in H3. subst s.
  exists m. repeat split; try lia.
Qed.

(** ** Ranges of the destination types *)

Definition type_ok (t : inttype) : Prop :=
  it_bits t = 8 \/ it_bits t = 16 \/ it_bits t = 32 \/ it_bits t = 64.

Ltac on_types t Ht :=
  destruct t as [[] bits]; unfold type_ok, it_max, it_min, cast in *; cbn [it_signed it_bits] in *;
  destruct Ht as [->|[->|[->| ->]]].

Ltac pows :=
  repeat match goal with
         | |- context [2 ^ ?k] => let v := eval vm_compute in (2 ^ k) in change (2 ^ k) with v
         | H : context [2 ^ ?k] |- _ =>
             let v := eval vm_compute in (2 ^ k) in change (2 ^ k) with v in H
         end.

Lemma cast_wrap64 t x : type_ok t -> it_min t <= x <= it_max t -> cast t (wrap64 x) = x.
Proof.
  intros Ht H. unfold wrap64. on_types t Ht; cbn [andb] in *;
    pows; try destruct (_ <=? _) eqn:E in |- *; lia.
Qed.

Lemma cast_id t x : type_ok t -> it_min t <= x <= it_max t -> cast t x = x.
Proof.
  intros Ht H. on_types t Ht; cbn [andb] in *; pows; try destruct (_ <=? _) eqn:E in |- *; lia.
Qed.

(** Largest magnitude that fits with the given sign. *)
Definition limit (t : inttype) (neg : bool) : Z := it_max t + Z.b2z neg.

Lemma limit_fits t neg V : type_ok t -> (it_signed t = false -> neg = false) -> 0 <= V ->
  (in_range (it_signed t) (it_bits t) (signed_value neg V) <-> V <= limit t neg).
Proof.
  intros Ht Hs HV. unfold limit, in_range, signed_value.
  on_types t Ht; destruct neg; cbn [Z.b2z]; try (specialize (Hs eq_refl); discriminate);
    pows; lia.
Qed.

Lemma limit_range t neg : type_ok t -> (it_signed t = false -> neg = false) ->
  0 < limit t neg < 2 ^ 64 /\ (it_bits t <= 32 -> limit t neg <= 2 ^ 32)
  /\ (it_signed t = true -> limit t neg <= 2 ^ 63).
Proof.
  intros Ht Hs. unfold limit.
  on_types t Ht; destruct neg; cbn [Z.b2z]; try (specialize (Hs eq_refl); discriminate);
    pows; lia.
Qed.

Lemma store_fits t V neg : type_ok t -> (it_signed t = false -> neg = false) ->
  0 <= V <= limit t neg -> store_result t V neg = Ok (signed_value neg V).
Proof.
  intros Ht Hs HV. unfold store_result, signed_value, limit in *.
  destruct neg; cbn [Z.b2z] in *.
  - assert (Hs' : it_signed t = true) by
      (destruct (it_signed t); [reflexivity|discriminate (Hs eq_refl)]).
    rewrite cast_wrap64; [|assumption| revert HV Hs'; clear Hs;
      on_types t Ht; intros; try discriminate; pows; lia].
    replace (- it_max t - (V - it_max t)) with (- V) by ring.
    rewrite cast_id; [|assumption| revert HV Hs'; clear Hs;
      on_types t Ht; intros; try discriminate; pows; lia].
    destruct (_ && ((_ <? _) || _)) eqn:E in |- *; [exfalso|reflexivity].
    apply andb_true_iff in E. destruct E as [_ E]. revert HV Hs' E; clear Hs.
    on_types t Ht; intros; try discriminate; pows; lia.
  - rewrite cast_id; [reflexivity|assumption|].
    revert HV; clear Hs. on_types t Ht; intros; pows; lia.
Qed.

Lemma store_total t V neg : type_ok t -> (it_signed t = false -> neg = false) ->
  0 <= V <= limit t neg -> exists v, store_result t V neg = Ok v.
Proof. intros. eexists. apply store_fits; assumption. Qed.

(** ** Overflow detection *)

Lemma check_unfold t val n b neg m : type_ok t -> (it_signed t = false -> neg = false) ->
  0 <= val < 2 ^ 64 ->
  maxdigits_u64 b = Ok m -> min_safe_u64 b = Ok (b ^ (m - 1)) ->
  check_integer_overflow t val n b neg
  = Ok ((m <? n) || ((n =? m) && (val <? b ^ (m - 1))) || (limit t neg <? val)).
Proof.
  intros Ht Hs Hv Hm Hsafe. unfold check_integer_overflow. rewrite Hm, Hsafe. cbn [bind].
  destruct (m <? n) eqn:E1; [reflexivity|].
  destruct ((n =? m) && (val <? b ^ (m - 1))) eqn:E2; [reflexivity|]. cbn [orb].
  assert (HL := limit_range t neg Ht Hs). destruct HL as [HL _].
  fold (limit t neg). rewrite wrap64_small by lia.
  destruct (negb (negb (it_signed t) && (it_bits t =? 64))) eqn:E3.
  - cbn [andb]. destruct (limit t neg <? val); reflexivity.
  - cbn [andb]. f_equal. symmetry. apply Z.ltb_ge.
    assert (it_signed t = false /\ it_bits t = 64) as [E4 E5].
    { apply negb_false_iff, andb_true_iff in E3. destruct E3 as [E3 E4].
      split; [destruct (it_signed t); [discriminate|reflexivity]|lia]. }
    unfold limit, it_max. rewrite E4, E5, (Hs E4). cbn [Z.b2z]. pows. lia.
Qed.

Lemma pow_le_mono b x y : 2 <= b -> 0 <= x <= y -> b ^ x <= b ^ y.
Proof. intros. apply Z.pow_le_mono_r; lia. Qed.

Definition exact_good (b : Z) : bool :=
  match maxdigits_u64 b with
  | Ok m => (Bool.eqb (existsb (Z.eqb b) [2; 4; 16]) (b ^ m <=? 2 ^ 64 + b ^ (m - 1)))
            && (Bool.eqb (existsb (Z.eqb b) [2; 3; 4; 9; 10; 16; 19; 23; 29; 30])
                 ((b ^ m <=? 2 ^ 64 + b ^ (m - 1)) || (2 ^ 63 <? b ^ (m - 1))))
            && (b ^ m <? 2 ^ 64 * 64)
  | _ => false
  end.

Lemma existsb_in b l : existsb (Z.eqb b) l = true <-> In b l.
Proof.
  rewrite existsb_exists. split.
  - intros (x & Hx & E). apply Z.eqb_eq in E. subst. assumption.
  - intros H. exists b. split; [assumption|apply Z.eqb_refl].
Qed.

Lemma exact_tables signed bits b m : base_ok b -> exact signed bits b -> maxdigits_u64 b = Ok m ->
  bits <= 32 \/ b ^ m <= 2 ^ 64 + b ^ (m - 1) \/ (signed = true /\ 2 ^ 63 < b ^ (m - 1)).
Proof.
  intros Hb Hx Hm. assert (H : exact_good b = true).
  { apply (sweep exact_good 2 35); [vm_compute; reflexivity|unfold base_ok in Hb; lia]. }
  unfold exact_good in H. rewrite Hm in H. rewrite !andb_true_iff in H.
  destruct H as [[H1 H2] _]. apply eqb_prop in H1. apply eqb_prop in H2.
  destruct Hx as [Hx|Hx]; [left; exact Hx|right].
  destruct signed; apply existsb_in in Hx.
  - rewrite Hx in H2. symmetry in H2. apply orb_true_iff in H2.
    destruct H2 as [H2|H2]; [left|right; split; [reflexivity|]]; lia.
  - rewrite Hx in H1. left. lia.
Qed.

Section Check.
  Variables (t : inttype) (neg : bool) (b : Z) (c : Z) (ds : list Z).
  Hypothesis Ht : type_ok t.
  Hypothesis Hs : it_signed t = false -> neg = false.
  Hypothesis Hb : base_ok b.
  Hypothesis Hc : is_digit b c.
  Hypothesis Hz : digit_or_0 c <> 0.
  Hypothesis Hds : Forall (is_digit b) ds.
  Let V := value b (c :: ds).
  Let n := Z.of_nat (length (c :: ds)).

  Lemma V_bounds : b ^ (n - 1) <= V < b ^ n.
  Proof.
    unfold V, n. unfold base_ok in Hb. split.
    - replace (Z.of_nat (length (c :: ds)) - 1) with (Z.of_nat (length ds))
        by (cbn [length]; lia).
      apply value_lower; auto; lia.
    - apply value_range; [lia|constructor; assumption].
  Qed.

  Lemma check_in_range : V <= limit t neg ->
    check_integer_overflow t (wrap64 V) n b neg = Ok false /\ wrap64 V = V.
  Proof.
    intros HV. destruct (tables b Hb) as (m & Hm & T1 & T2 & T3 & T4).
    assert (HL := limit_range t neg Ht Hs). destruct HL as [HL _].
    assert (HB := V_bounds). unfold base_ok in Hb.
    assert (0 <= V). { assert (0 <= b ^ (n - 1)) by (apply Z.pow_nonneg; lia). lia. }
    assert (HW : wrap64 V = V) by (apply wrap64_small; lia). split; [|exact HW].
    rewrite (check_unfold t (wrap64 V) n b neg m Ht Hs (wrap64_range V) T1 T2), HW.
    f_equal. rewrite !orb_false_iff. repeat split.
    - apply Z.ltb_ge. destruct (Z_lt_le_dec m n); [exfalso|lia].
      assert (b ^ m <= b ^ (n - 1)) by (apply pow_le_mono; lia). lia.
    - apply andb_false_iff. destruct (Z.eqb_spec n m) as [E|E]; [right|left; reflexivity].
      apply Z.ltb_ge. rewrite <- E. lia.
    - apply Z.ltb_ge. lia.
  Qed.

  Lemma check_out_of_range : limit t neg < V -> exact (it_signed t) (it_bits t) b ->
    check_integer_overflow t (wrap64 V) n b neg = Ok true.
  Proof.
    intros HV Hx. destruct (tables b Hb) as (m & Hm & T1 & T2 & T3 & T4).
    assert (HL := limit_range t neg Ht Hs). destruct HL as (HL & HL32 & HL63).
    assert (HB := V_bounds).
    rewrite (check_unfold t (wrap64 V) n b neg m Ht Hs (wrap64_range V) T1 T2).
    f_equal. assert (HX := exact_tables _ _ _ _ Hb Hx T1). unfold base_ok in Hb.
    assert (Hn : 1 <= n) by (unfold n; cbn [length]; lia).
    destruct (m <? n) eqn:E1; [reflexivity|]. cbn [orb].
    destruct (Z_lt_le_dec V (2 ^ 64)) as [Hlt|Hge].
    - assert (0 <= b ^ (n - 1)) by (apply Z.pow_nonneg; lia).
      rewrite wrap64_small by lia.
      apply orb_true_iff. right. lia.
    - assert (n = m).
      { destruct (Z.eq_dec n m); [assumption|exfalso].
        assert (b ^ n <= b ^ (m - 1)) by (apply pow_le_mono; lia). lia. }
      subst m. rewrite Z.eqb_refl. cbn [andb].
      assert (HWr := wrap64_range V).
      destruct HX as [HX|[HX|[HX1 HX2]]].
      + destruct (wrap64 V <? b ^ (n - 1)) eqn:E2; [reflexivity|].
        specialize (HL32 HX). cbn [orb]. lia.
      + apply orb_true_iff. left. apply Z.ltb_lt.
        unfold wrap64. replace V with (V - 2 ^ 64 + 1 * 2 ^ 64) by ring.
        rewrite Z.mod_add by lia. rewrite Z.mod_small by lia. lia.
      + destruct (wrap64 V <? b ^ (n - 1)) eqn:E2; [reflexivity|].
        specialize (HL63 HX1). cbn [orb]. lia.
  Qed.

  Lemma check_total : exists o, check_integer_overflow t (wrap64 V) n b neg = Ok o
    /\ (o = false -> wrap64 V <= limit t neg).
  Proof.
    destruct (tables b Hb) as (m & Hm & T1 & T2 & T3 & T4).
    eexists; split; [apply (check_unfold t (wrap64 V) n b neg m Ht Hs (wrap64_range V) T1 T2)|].
    intros H. apply orb_false_iff in H. lia.
  Qed.
End Check.

(** ** Values *)

Lemma digit_zero b c : is_digit b c -> digit_or_0 c = 0 -> c = 48.
Proof.
  intros (d & E & Hd). unfold digit_or_0. rewrite E. intros ->.
  unfold digit_value in E.
  destruct ((48 <=? c) && (c <=? 57)) eqn:E1; [injection E; lia|].
  destruct ((97 <=? c) && (c <=? 122)) eqn:E2; [injection E; lia|].
  destruct ((65 <=? c) && (c <=? 90)) eqn:E3; [injection E; lia|discriminate].
Qed.

Lemma digit_48 b : 0 < b -> is_digit b 48.
Proof. intros H. exists 0. split; [reflexivity|lia]. Qed.

Lemma skip_zeros_run b ds rest : 0 < b -> Forall (is_digit b) ds -> ~ starts_with_digit b rest ->
  (skip_zeros (ds ++ rest) = rest /\ value b ds = 0)
  \/ exists c ds', skip_zeros (ds ++ rest) = c :: ds' ++ rest /\ is_digit b c
       /\ digit_or_0 c <> 0 /\ Forall (is_digit b) ds' /\ value b ds = value b (c :: ds').
Proof.
  intros Hb Hds Hr. induction Hds as [|c ds Hc Hds IH]; cbn [app].
  - left. split; [|reflexivity]. destruct rest as [|c rest]; [reflexivity|].
    cbn [skip_zeros]. destruct (Z.eqb_spec c 48) as [->|E]; [|reflexivity].
    exfalso. apply Hr. apply digit_48, Hb.
  - cbn [skip_zeros]. destruct (Z.eqb_spec c 48) as [->|E].
    + assert (E0 : forall l, value b (48 :: l) = value b l)
        by (intros l; cbn [value]; change (digit_or_0 48) with 0; lia).
      rewrite E0. exact IH.
    + right. exists c, ds. repeat split; auto.
      intros H0. apply E. eapply digit_zero; eassumption.
Qed.

Definition enc_ok (e : enc) (s : list Z) : Prop := e = U8 -> bytes s.

Lemma regular_run t c ds rest b neg : type_ok t -> (it_signed t = false -> neg = false) ->
  base_ok b -> is_digit b c -> digit_or_0 c <> 0 -> Forall (is_digit b) ds ->
  ~ starts_with_digit b rest ->
  let V := value b (c :: ds) in
  let R := parse_regular_integer t (c :: ds ++ rest) b neg in
  (V <= limit t neg -> R = Ok (signed_value neg V, rest))
  /\ (limit t neg < V -> exact (it_signed t) (it_bits t) b -> R = Err (overflow_error neg))
  /\ (R = Err (overflow_error neg)
      \/ (wrap64 V <= limit t neg /\ R = Ok (signed_value neg (wrap64 V), rest))).
Proof.
  intros Ht Hs Hb Hc Hz Hds Hr V R.
  assert (HF : Forall (is_digit b) (c :: ds)) by (constructor; assumption).
  assert (HD : digit_loop b (c :: ds ++ rest) 0 = (rest, wrap64 V)).
  { change (c :: ds ++ rest) with ((c :: ds) ++ rest). change 0 with (wrap64 0).
    unfold base_ok in Hb. rewrite (digit_loop_run b (c :: ds) rest) by (assumption || lia).
    rewrite Z.mul_0_l, Z.add_0_l. reflexivity. }
  assert (HN : Z.of_nat (length (c :: ds ++ rest) - length rest) = Z.of_nat (length (c :: ds))).
  { cbn [length]. rewrite app_length. lia. }
  unfold R, parse_regular_integer. rewrite HD, HN.
  assert (HT := store_fits t (wrap64 V) neg Ht Hs).
  assert (HWr := wrap64_range V).
  split; [|split].
  - intros HV. destruct (check_in_range t neg b c ds Ht Hs Hb Hc Hz Hds HV) as [H1 H2].
    fold V in H1, H2. rewrite H1. cbn [bind]. rewrite H2.
    rewrite H2 in HT. rewrite HT by lia. reflexivity.
  - intros HV Hx.
    assert (H1 := check_out_of_range t neg b c ds Ht Hs Hb Hc Hz Hds HV Hx).
    fold V in H1. rewrite H1. reflexivity.
  - destruct (check_total t neg b c ds Ht Hs Hb) as (o & H1 & H2). fold V in H1, H2.
    rewrite H1. cbn [bind]. destruct o; [left; reflexivity|right].
    specialize (H2 eq_refl). split; [exact H2|]. rewrite HT by lia. reflexivity.
Qed.

Lemma decimal_fast_regular t input neg : bytes input ->
  parse_decimal_integer_fast t input neg = parse_regular_integer t input 10 neg.
Proof.
  intros Hb. unfold parse_decimal_integer_fast, parse_regular_integer.
  rewrite fast_impl_loop by (assumption || lia). cbn [bind].
  destruct (digit_loop 10 input 0). reflexivity.
Qed.

Lemma skip_zeros_suffix s : exists n, skip_zeros s = skipn n s.
Proof.
  induction s as [|c s [n IH]]; cbn [skip_zeros]; [exists O; reflexivity|].
  destruct (c =? 48); [exists (S n); exact IH|exists O; reflexivity].
Qed.

(** Reading a value from a digit run. *)
Lemma piv_run e t s ds rest sign b : type_ok t -> base_ok b -> enc_ok e s ->
  digit_run b s ds rest -> sign <> DefaultSign ->
  (it_signed t = false -> is_minus sign = false) ->
  let neg := is_minus sign in
  let V := value b ds in
  let R := parse_integer_value e t s sign b in
  (V <= limit t neg -> R = Ok (signed_value neg V, rest))
  /\ (limit t neg < V -> exact (it_signed t) (it_bits t) b -> R = Err (overflow_error neg))
  /\ (R = Err (overflow_error neg)
      \/ (wrap64 V <= limit t neg /\ R = Ok (signed_value neg (wrap64 V), rest))).
Proof.
  intros Ht Hb He (-> & Hne & Hds & Hr) Hd Hs neg V R.
  assert (Hb' := Hb). unfold base_ok in Hb'.
  assert (HR : R = let start := skip_zeros (ds ++ rest) in
        if match start with [] => true | d :: _ => b <=? char_to_int d end
        then Ok (0, start) else parse_regular_integer t start b neg).
  { unfold R, parse_integer_value.
    destruct ds as [|c ds]; [contradiction|]. cbn [app].
    assert (Hc : (b <=? char_to_int c) = false)
      by (apply char_to_int_is_digit; [lia|inversion Hds; assumption]).
    assert (E1 : negb (it_signed t) && is_minus sign = false).
    { destruct (it_signed t); [reflexivity|]. rewrite (Hs eq_refl). reflexivity. }
    assert (E2 : (b <=? 0) = false) by lia.
    destruct sign; [contradiction| |]; cbv zeta; rewrite E1, E2, Hc;
      (destruct (match skip_zeros (c :: ds ++ rest) with
               | [] => true | d :: _ => b <=? char_to_int d end);
       [reflexivity|]; destruct e; [|reflexivity..];
       destruct (Z.eqb_spec b 10) as [->|_]; [|reflexivity];
       apply decimal_fast_regular;
       destruct (skip_zeros_suffix (c :: ds ++ rest)) as [k ->];
       apply bytes_skipn, He; reflexivity). }
  assert (HL := limit_range t neg Ht Hs). destruct HL as [HL _].
  destruct (skip_zeros_run b ds rest ltac:(lia) Hds Hr) as [[E1 E2]|(c & ds' & E1 & E2 & E3 & E4 & E5)].
  - assert (HR' : R = Ok (0, rest)).
    { rewrite HR, E1. cbv zeta. destruct rest as [|c rest]; [reflexivity|].
      apply char_to_int_not_digit in Hr; [rewrite Hr; reflexivity|lia]. }
    unfold V. rewrite E2, HR'. change (wrap64 0) with 0.
    assert (E0 : signed_value neg 0 = 0) by (destruct neg; reflexivity).
    rewrite E0. repeat split; try lia. right. split; [lia|reflexivity].
  - assert (HR' : R = parse_regular_integer t (c :: ds' ++ rest) b neg).
    { rewrite HR, E1. cbv beta iota zeta.
      apply (char_to_int_is_digit b) in E2; [rewrite E2; reflexivity|lia]. }
    rewrite HR'. unfold V. rewrite E5. apply regular_run; assumption.
Qed.

Lemma piv_no_digit e t c s sign b : base_ok b -> ~ is_digit b c ->
  sign <> DefaultSign -> (it_signed t = false -> is_minus sign = false) ->
  parse_integer_value e t (c :: s) sign b = Err InvalidScannedValue.
Proof.
  intros Hb Hc Hd Hs. unfold base_ok in Hb. unfold parse_integer_value.
  assert (E1 : negb (it_signed t) && is_minus sign = false).
  { destruct (it_signed t); [reflexivity|]. rewrite (Hs eq_refl). reflexivity. }
  assert (E2 : (b <=? 0) = false) by lia.
  assert (E3 : (b <=? char_to_int c) = true) by (apply char_to_int_not_digit; [lia|assumption]).
  destruct sign; [contradiction| |]; rewrite E1, E2, E3; reflexivity.
Qed.

(** Every text has a decomposition into a maximal digit run and a rest. *)
Fixpoint take_digits (b : Z) (s : list Z) : list Z * list Z :=
  match s with
  | [] => ([], [])
  | c :: s' => if digitb b c then let (d, r) := take_digits b s' in (c :: d, r) else ([], s)
  end.

Lemma digitb_is_digit b c : digitb b c = true <-> is_digit b c.
Proof.
  unfold digitb, is_digit. destruct (digit_value c) as [d|]; split.
  - intros H; exists d; split; [reflexivity|lia].
  - intros (d' & [= <-] & H); lia.
  - discriminate.
  - intros (d' & H & _); discriminate.
Qed.

Lemma take_digits_spec b s : s = fst (take_digits b s) ++ snd (take_digits b s)
  /\ Forall (is_digit b) (fst (take_digits b s))
  /\ ~ starts_with_digit b (snd (take_digits b s)).
Proof.
  induction s as [|c s IH]; cbn [take_digits].
  - repeat split; [constructor|intros []].
  - destruct (digitb b c) eqn:E.
    + destruct (take_digits b s) as [d r]. cbn [fst snd] in *. destruct IH as (-> & H2 & H3).
      repeat split; [constructor; [apply digitb_is_digit, E|assumption]|assumption].
    + cbn [fst snd app]. repeat split; [constructor|].
      cbn [starts_with_digit]. rewrite <- digitb_is_digit. congruence.
Qed.

Lemma run_exists b s : starts_with_digit b s -> exists ds rest, digit_run b s ds rest.
Proof.
  intros H. destruct (take_digits_spec b s) as (H1 & H2 & H3).
  exists (fst (take_digits b s)), (snd (take_digits b s)). repeat split; auto.
  destruct s as [|c s]; [destruct H|]. cbn [take_digits starts_with_digit] in *.
  apply digitb_is_digit in H. rewrite H. destruct (take_digits b s). discriminate.
Qed.

Lemma run_unique b s ds rest ds' rest' :
  digit_run b s ds rest -> digit_run b s ds' rest' -> ds = ds' /\ rest = rest'.
Proof.
  intros (E1 & _ & D1 & R1) (E2 & _ & D2 & R2). subst s.
  revert ds' D2 E2. induction D1 as [|c ds Hc D1 IH]; intros ds' D2 E2.
  - destruct D2 as [|c' ds' Hc' D2]; cbn [app] in E2; [split; auto|].
    subst rest. exfalso. apply R1. exact Hc'.
  - destruct D2 as [|c' ds' Hc' D2]; cbn [app] in E2.
    + subst rest'. exfalso. apply R2. exact Hc.
    + injection E2 as -> E2. destruct (IH ds' D2 E2) as [-> ->]. split; reflexivity.
Qed.

(** ** Prefixes *)

(** The narrow contiguous comparison also takes 0x10 for '0' (0x10 = '0' ^ 0x20). *)
Definition no_dle (r : src) (text : list Z) : Prop :=
  s_enc r = U8 -> s_contig r = true -> match text with c :: _ => c <> 16 | [] => True end.

Definition streq2 (L z l : Z) : bool :=
  Bool.eqb (fast_streq_nocase [z; l] [48; L])
           (((z =? 48) || (z =? 16)) && prefix_letter l L).

Lemma streq2_sweep L : L = 98 \/ L = 120 \/ L = 111 -> forall z l, is_byte z -> is_byte l ->
  streq2 L z l = true.
Proof.
  intros HL z l Hz Hl.
  assert (H : forallb (fun L => forallb (fun z => forallb (streq2 L z) (zseq 0 256)) (zseq 0 256))
                [98; 120; 111] = true) by (vm_compute; reflexivity).
  rewrite forallb_forall in H. specialize (H L ltac:(cbn; lia)).
  rewrite forallb_forall in H. specialize (H z). cbv beta in H.
  rewrite in_zseq in H. specialize (H ltac:(unfold is_byte in Hz; lia)).
  rewrite forallb_forall in H. apply H, in_zseq. unfold is_byte in Hl. lia.
Qed.

Definition pfx_match (L : Z) (text : list Z) : bool :=
  match text with z :: l :: _ => (z =? 48) && prefix_letter l L | _ => false end.

Lemma nocase_prefix r L text : L = 98 \/ L = 120 \/ L = 111 ->
  enc_ok (s_enc r) text -> no_dle r text ->
  match read_matching_string_classic_nocase r [48; L] text with
  | inl it => pfx_match L text = true /\ it = skipn 2 text
  | inr _ => pfx_match L text = false
  end.
Proof.
  intros HL He Hq. unfold read_matching_string_classic_nocase.
  destruct text as [|z [|l text]]; [reflexivity..|].
  assert (El : (length (z :: l :: text) <? length [48; L]%Z)%nat = false)
    by (apply Nat.ltb_ge; cbn [length]; lia).
  rewrite El. cbn [pfx_match].
  assert (G : equal_nocase [48; L] (z :: l :: text) = (z =? 48) && prefix_letter l L).
  { unfold equal_nocase, ascii_tolower, prefix_letter.
    destruct ((z <? 65) || (90 <? z)) eqn:E1; destruct ((l <? 65) || (90 <? l)) eqn:E2;
      destruct HL as [->|[->| ->]]; lia. }
  assert (F : s_enc r = U8 -> s_contig r = true ->
    fast_streq_nocase [z; l] [48; L] = (z =? 48) && prefix_letter l L).
  { intros E1 E2. specialize (He E1). specialize (Hq E1 E2). cbn in Hq.
    inversion_clear He as [|? ? Hz He']. inversion_clear He' as [|? ? Hl _].
    assert (S := streq2_sweep L HL z l Hz Hl). apply eqb_prop in S. rewrite S.
    replace (z =? 16) with false by lia. rewrite orb_false_r. reflexivity. }
  change (firstn (length [48; L]) (z :: l :: text)) with [z; l].
  change (skipn (length [48; L]) (z :: l :: text)) with text.
  assert (K : match s_enc r, s_contig r with
              | U8, true => fast_streq_nocase [z; l] [48; L]
              | _, _ => equal_nocase [48; L] (z :: l :: text)
              end = (z =? 48) && prefix_letter l L).
  { destruct (s_enc r) eqn:E1; try exact G. destruct (s_contig r) eqn:E2; [|exact G].
    apply F; reflexivity. }
  cbv zeta. rewrite K. destruct ((z =? 48) && prefix_letter l L); [split|]; reflexivity.
Qed.

Lemma not_digit_of_spec b s : b <= 36 -> (not_digit_of b s = false <-> starts_with_digit b s).
Proof.
  intros Hb. destruct s as [|c s]; cbn [not_digit_of starts_with_digit].
  - split; [discriminate|intros []].
  - apply char_to_int_is_digit, Hb.
Qed.

Lemma has_prefix_match L b text : b <= 36 ->
  has_prefix L b text = pfx_match L text && negb (not_digit_of b (skipn 2 text)).
Proof.
  intros Hb. destruct text as [|z [|l [|d text]]]; try reflexivity.
  - cbn [has_prefix pfx_match skipn not_digit_of negb]. rewrite andb_false_r. reflexivity.
  - cbn [has_prefix pfx_match skipn not_digit_of].
    assert (E : digitb b d = negb (b <=? char_to_int d)).
    { apply eq_true_iff_eq. rewrite digitb_is_digit, negb_true_iff.
      symmetry. apply char_to_int_is_digit, Hb. }
    rewrite E. reflexivity.
Qed.

(** Two readings of a text that denote the same number. *)
Definition same_reading (B1 : Z) (s1 : list Z) (B2 : Z) (s2 : list Z) : Prop :=
  (starts_with_digit B1 s1 <-> starts_with_digit B2 s2) /\
  forall ds2 rest, digit_run B2 s2 ds2 rest ->
    exists ds1, digit_run B1 s1 ds1 rest /\ value B1 ds1 = value B2 ds2
      /\ (B1 = B2 \/ value B2 ds2 = 0).

Lemma same_reading_refl B s : same_reading B s B s.
Proof. split; [reflexivity|]. intros ds rest H. exists ds. auto. Qed.

(** "0" followed by something that is no digit in either base. *)
Lemma same_reading_zero B1 B2 t : 0 < B1 -> 0 < B2 ->
  ~ starts_with_digit B1 t -> ~ starts_with_digit B2 t ->
  same_reading B1 (48 :: t) B2 (48 :: t).
Proof.
  intros H1 H2 N1 N2. split.
  - cbn [starts_with_digit]. split; intros _; apply digit_48; assumption.
  - intros ds rest H.
    assert (R2 : digit_run B2 (48 :: t) [48] t).
    { repeat split; [discriminate| |assumption]. constructor; [apply digit_48, H2|constructor]. }
    destruct (run_unique _ _ _ _ _ _ H R2) as [-> ->].
    exists [48]. split; [|split; [reflexivity|right; reflexivity]].
    repeat split; [discriminate| |assumption]. constructor; [apply digit_48, H1|constructor].
Qed.

(** A redundant leading zero. *)
Lemma same_reading_skip0 B t : 0 < B -> starts_with_digit B t -> same_reading B t B (48 :: t).
Proof.
  intros HB Ht. split.
  - split; [intros _; apply digit_48, HB|intros _; exact Ht].
  - intros ds rest H. destruct (run_exists B t Ht) as (d & r & Hd).
    assert (R2 : digit_run B (48 :: t) (48 :: d) r).
    { destruct Hd as (-> & Hd1 & Hd2 & Hd3). repeat split; [discriminate| |assumption].
      constructor; [apply digit_48, HB|assumption]. }
    destruct (run_unique _ _ _ _ _ _ H R2) as [-> ->].
    exists d. split; [exact Hd|]. split; [|left; reflexivity].
    cbn [value]. change (digit_or_0 48) with 0. lia.
Qed.

Definition sign_of (neg : bool) : sign_type := if neg then MinusSign else PlusSign.

Lemma prefix_spec r s b : s <> [] -> (b = 0 \/ base_ok b) ->
  enc_ok (s_enc r) s -> no_dle r (snd (split_sign s)) ->
  let text := snd (split_sign s) in
  let neg := fst (split_sign s) in
  exists p, parse_integer_prefix r s b = Ok p
    /\ pr_sign p = sign_of neg
    /\ base_ok (pr_base p)
    /\ (exists k, pr_it p = skipn k s)
    /\ base_ok (fst (read_base b text))
    /\ same_reading (pr_base p) (pr_it p) (fst (read_base b text)) (snd (read_base b text))
    /\ (pr_zero p = true -> exists t', pr_it p = 48 :: t' /\ ~ starts_with_digit (pr_base p) t').
Proof.
  intros Hne Hb He Hq text neg.
  assert (HS : exists k, text = skipn k s /\
    parse_numeric_sign s = Ok (text, match s with
      | c :: _ => if c =? 45 then MinusSign else if c =? 43 then PlusSign else DefaultSign
      | [] => DefaultSign end)
    /\ neg = match s with c :: _ => c =? 45 | [] => false end).
  { destruct s as [|c s]; [contradiction|]. unfold text, neg, split_sign, parse_numeric_sign.
    cbn [read_one_of_code_unit existsb].
    destruct (Z.eqb_spec c 45) as [->|E1]; [exists 1%nat; repeat split|].
    destruct (Z.eqb_spec c 43) as [->|E2]; [exists 1%nat; repeat split|].
    exists O. repeat split. }
  destruct HS as (k & Hk & Hsign & Hneg).
  set (sg := match s with
      | c :: _ => if c =? 45 then MinusSign else if c =? 43 then PlusSign else DefaultSign
      | [] => DefaultSign end) in *.
  assert (Hsg : match sg with DefaultSign => PlusSign | _ => sg end = sign_of neg).
  { unfold sg. rewrite Hneg. destruct s as [|c s]; [reflexivity|].
    destruct (c =? 45); [reflexivity|]. destruct (c =? 43); reflexivity. }
  assert (He' : enc_ok (s_enc r) text).
  { intros E. rewrite Hk. apply bytes_skipn, He, E. }
  unfold parse_integer_prefix. rewrite Hsign. cbn [bind].
  fold text in Hq.
  clearbody sg text neg.
  assert (Hsk : forall j, exists k', skipn j text = skipn k' s).
  { intros j. exists (k + j)%nat. rewrite Hk. clear. revert s.
    induction k as [|k IH]; intros s; [reflexivity|]. destruct s; [destruct j; reflexivity|]. apply IH. }
  assert (Hsk0 := Hsk O). cbn [skipn] in Hsk0. assert (Hsk2 := Hsk 2%nat). assert (Hsk1 := Hsk 1%nat).
  clear Hsk Hk Hsign Hne He.
  assert (PX := nocase_prefix r 120 text ltac:(lia) He' Hq).
  assert (PB := nocase_prefix r 98 text ltac:(lia) He' Hq).
  assert (PO := nocase_prefix r 111 text ltac:(lia) He' Hq).
  assert (HX := has_prefix_match 120 16 text ltac:(lia)).
  assert (HB := has_prefix_match 98 2 text ltac:(lia)).
  assert (HO := has_prefix_match 111 8 text ltac:(lia)).
  assert (Hlet : forall L z l t', text = z :: l :: t' -> pfx_match L text = true ->
            L = 98 \/ L = 120 \/ L = 111 ->
            z = 48 /\ ((l = L \/ l = L - 32))).
  { intros L z l t' -> H _. cbn [pfx_match] in H. unfold prefix_letter in H. lia. }
  (* a prefix letter is no digit of its base, nor of base 8 *)
  assert (Hzero : forall L B, pfx_match L text = true ->
            (L = 120 /\ B = 16) \/ (L = 98 /\ B = 2) \/ (L = 111 /\ B = 8) ->
            exists t', text = 48 :: t' /\ ~ starts_with_digit B t' /\ ~ starts_with_digit 8 t').
  { intros L B H HLB. destruct text as [|z [|l t']]; try discriminate.
    cbn [pfx_match] in H. unfold prefix_letter in H.
    exists (l :: t'). split; [f_equal; lia|]. cbn [starts_with_digit].
    split; intros (d & Hd & Hlt); unfold digit_value in Hd;
      (destruct ((48 <=? l) && (l <=? 57)) eqn:X1; [lia|];
       destruct ((97 <=? l) && (l <=? 122)) eqn:X2; [injection Hd; lia|];
       destruct ((65 <=? l) && (l <=? 90)) eqn:X3; [injection Hd; lia|discriminate]). }
  assert (Hexcl : forall L L', pfx_match L text = true -> L <> L' -> L <> L' - 32 -> L - 32 <> L' ->
            pfx_match L' text = false).
  { intros L L'. destruct text as [|z [|l t']]; try discriminate.
    cbn [pfx_match]. unfold prefix_letter. lia. }
  assert (HZ : match read_matching_code_unit 48 text with
               | inl it => text = 48 :: it
               | inr _ => match text with c :: _ => c <> 48 | [] => True end
               end).
  { destruct text as [|c t']; cbn [read_matching_code_unit]; [exact I|].
    destruct (Z.eqb_spec c 48) as [->|E]; [reflexivity|exact E]. }
  unfold parse_integer_base_prefix, read_base, parse_integer_base_prefix_for_detection,
    parse_integer_hex_base_prefix, parse_integer_bin_base_prefix, parse_integer_oct_base_prefix.
  Ltac finish := cbn [pr_sign pr_base pr_it pr_zero fst snd];
    repeat match goal with |- _ /\ _ => split end; try assumption; try (unfold base_ok; lia);
    try apply same_reading_refl; try discriminate.
  destruct (Z.eq_dec b 2) as [->|N2];
  [|destruct (Z.eq_dec b 8) as [->|N8];
    [|destruct (Z.eq_dec b 16) as [->|N16];
      [|destruct (Z.eq_dec b 0) as [->|N0]]]].
  - (* binary *)
    change (2 =? 2) with true. change (2 =? 16) with false. change (2 =? 8) with false.
    change (2 =? 0) with false. cbn [orb andb]. rewrite HB.
    destruct (read_matching_string_classic_nocase r [48; 98] text) as [it|]; cbn [apply_opt].
    + destruct PB as [PB ->]. rewrite PB. cbn [andb].
      destruct (not_digit_of 2 (skipn 2 text)); cbn [negb]; eexists; (split; [reflexivity|]); finish.
    + rewrite PB. cbn [andb]. eexists; split; [reflexivity|].
      destruct (not_digit_of 2 text); finish.
  - (* octal *)
    change (8 =? 2) with false. change (8 =? 16) with false. change (8 =? 8) with true.
    change (8 =? 0) with false. cbn [orb andb]. rewrite HO.
    destruct (read_matching_string_classic_nocase r [48; 111] text) as [it|]; cbn [apply_opt].
    + destruct PO as [PO ->]. rewrite PO. cbn [andb].
      destruct (not_digit_of 8 (skipn 2 text)); cbn [negb]; eexists; (split; [reflexivity|]); finish.
    + rewrite PO. cbn [andb].
      destruct (read_matching_code_unit 48 text) as [it|]; cbn [apply_opt].
      * subst text. cbn [skipn] in Hsk1.
        destruct (not_digit_of 8 it) eqn:E; (eexists; split; [reflexivity|]); finish.
        -- intros _. exists it. split; [reflexivity|].
           rewrite <- not_digit_of_spec by lia. congruence.
        -- apply not_digit_of_spec in E; [|lia]. apply same_reading_skip0; [lia|exact E].
      * eexists; split; [reflexivity|]. destruct (not_digit_of 8 text); finish.
  - (* hexadecimal *)
    change (16 =? 2) with false. change (16 =? 16) with true. change (16 =? 8) with false.
    change (16 =? 0) with false. cbn [orb andb]. rewrite HX.
    destruct (read_matching_string_classic_nocase r [48; 120] text) as [it|]; cbn [apply_opt].
    + destruct PX as [PX ->]. rewrite PX. cbn [andb].
      destruct (not_digit_of 16 (skipn 2 text)); cbn [negb]; eexists; (split; [reflexivity|]); finish.
    + rewrite PX. cbn [andb]. eexists; split; [reflexivity|].
      destruct (not_digit_of 16 text); finish.
  - (* detection *)
    change (0 =? 2) with false. change (0 =? 16) with false. change (0 =? 8) with false.
    change (0 =? 0) with true. cbn [orb andb]. rewrite HX, HB, HO.
    destruct (read_matching_string_classic_nocase r [48; 120] text) as [it|].
    { destruct PX as [PX ->]. rewrite PX. cbn [andb].
      destruct (not_digit_of 16 (skipn 2 text)); cbn [negb].
      - rewrite (Hexcl 120 98 PX), (Hexcl 120 111 PX) by lia. cbn [andb].
        destruct (Hzero 120 16 PX) as (t' & -> & Z1 & Z2); [lia|].
        change (48 =? 48) with true. cbv iota.
        eexists; split; [reflexivity|]. finish.
        apply same_reading_zero; auto; lia.
      - eexists; split; [reflexivity|]. finish. }
    rewrite PX. cbn [andb].
    destruct (read_matching_string_classic_nocase r [48; 98] text) as [it|].
    { destruct PB as [PB ->]. rewrite PB. cbn [andb].
      destruct (not_digit_of 2 (skipn 2 text)); cbn [negb].
      - rewrite (Hexcl 98 111 PB) by lia. cbn [andb].
        destruct (Hzero 98 2 PB) as (t' & -> & Z1 & Z2); [lia|].
        change (48 =? 48) with true. cbv iota.
        eexists; split; [reflexivity|]. finish.
        apply same_reading_zero; auto; lia.
      - eexists; split; [reflexivity|]. finish. }
    rewrite PB. cbn [andb].
    destruct (read_matching_string_classic_nocase r [48; 111] text) as [it|].
    { destruct PO as [PO ->]. rewrite PO. cbn [andb].
      destruct (not_digit_of 8 (skipn 2 text)); cbn [negb].
      - destruct (Hzero 111 8 PO) as (t' & -> & Z1 & Z2); [lia|].
        change (48 =? 48) with true. cbv iota.
        eexists; split; [reflexivity|]. finish.
      - eexists; split; [reflexivity|]. finish. }
    rewrite PO. cbn [andb].
    destruct (read_matching_code_unit 48 text) as [it|].
    + subst text. cbn [skipn] in Hsk1. change (48 =? 48) with true. cbv iota.
      destruct (not_digit_of 8 it) eqn:E; (eexists; split; [reflexivity|]); finish.
      * intros _. exists it. split; [reflexivity|].
        rewrite <- not_digit_of_spec by lia. congruence.
      * apply not_digit_of_spec in E; [|lia]. apply same_reading_skip0; [lia|exact E].
    + assert (E : match text with
                  | [] => (10, text)
                  | c :: _ => if c =? 48 then (8, text) else (10, text)
                  end = (10, text)).
      { destruct text as [|c t']; [reflexivity|]. apply Z.eqb_neq in HZ. rewrite HZ. reflexivity. }
      rewrite E. eexists; split; [reflexivity|]. destruct (not_digit_of 10 text); finish.
  - (* other bases *)
    destruct Hb as [Hb|Hb]; [contradiction|].
    apply Z.eqb_neq in N2, N8, N16, N0. rewrite N2, N8, N16, N0. cbn [orb andb].
    eexists; split; [reflexivity|]. destruct (not_digit_of b text); finish.
Qed.

(** ** The reader *)

Lemma find_if_run b ds rest : b <= 36 -> Forall (is_digit b) ds -> ~ starts_with_digit b rest ->
  WhitespaceModel.find_if (fun c => negb (char_to_int c <? b)) (ds ++ rest) = rest.
Proof.
  intros Hb Hds Hr. induction Hds as [|c ds Hc Hds IH]; cbn [app].
  - destruct rest as [|c rest]; [reflexivity|]. cbn [WhitespaceModel.find_if].
    apply char_to_int_not_digit in Hr; [|exact Hb].
    replace (char_to_int c <? b) with false by lia. reflexivity.
  - cbn [WhitespaceModel.find_if]. apply char_to_int_is_digit in Hc; [|exact Hb].
    replace (char_to_int c <? b) with true by lia. exact IH.
Qed.

Lemma enc_ok_app e a b : enc_ok e (a ++ b) -> enc_ok e a /\ enc_ok e b.
Proof.
  unfold enc_ok. intros H. split; intros E; specialize (H E); apply bytes_app in H; tauto.
Qed.

Lemma read_digits_run r t p ds rest : type_ok t -> base_ok (pr_base p) ->
  enc_ok (s_enc r) (pr_it p) -> digit_run (pr_base p) (pr_it p) ds rest ->
  pr_sign p <> DefaultSign -> (it_signed t = false -> is_minus (pr_sign p) = false) ->
  let neg := is_minus (pr_sign p) in
  let V := value (pr_base p) ds in
  let R := read_digits r t p in
  (V <= limit t neg -> R = Ok (signed_value neg V, rest))
  /\ (limit t neg < V -> exact (it_signed t) (it_bits t) (pr_base p) -> R = Err (overflow_error neg))
  /\ (R = Err (overflow_error neg)
      \/ (wrap64 V <= limit t neg /\ R = Ok (signed_value neg (wrap64 V), rest))).
Proof.
  intros Ht Hb He Hrun Hd Hs neg V R.
  assert (Hb' := Hb). unfold base_ok in Hb'.
  destruct Hrun as (Es & Hne & Hds & Hr). unfold R, read_digits, parse_integer_digits_without_thsep.
  destruct (s_contig r).
  - rewrite Es. destruct (ds ++ rest) as [|c s'] eqn:E;
      [apply app_eq_nil in E; destruct E; contradiction|]. cbn [bind]. rewrite <- E in *. clear c s' E.
    cbn [length]. rewrite Nat.sub_0_r, firstn_all.
    destruct (piv_run (s_enc r) t (ds ++ rest) ds rest (pr_sign p) (pr_base p) Ht Hb)
      as (H1 & H2 & H3); auto; [rewrite <- Es; assumption|repeat split; assumption|].
    assert (HK : skipn (length (ds ++ rest) - length rest) (ds ++ rest) = rest).
    { rewrite app_length, Nat.add_sub. apply skipn_len_app. }
    fold neg V in H1, H2, H3. split; [|split].
    + intros HV. rewrite H1 by assumption. cbn [bind]. rewrite HK. reflexivity.
    + intros HV Hx. rewrite H2 by assumption. reflexivity.
    + destruct H3 as [H3|[H3 H4]]; [left; rewrite H3; reflexivity|right].
      split; [exact H3|]. rewrite H4. cbn [bind]. rewrite HK. reflexivity.
  - unfold read_while1_code_unit, read_while_code_unit, read_until_code_unit.
    rewrite Es, find_if_run by (assumption || lia).
    replace (length rest =? length (ds ++ rest))%nat with false.
    2:{ symmetry. apply Nat.eqb_neq. rewrite app_length. destruct ds; [contradiction|]. cbn [length]. lia. }
    cbn [bind]. rewrite app_length, Nat.add_sub, firstn_len_app.
    destruct (piv_run (s_enc r) t ds ds [] (pr_sign p) (pr_base p) Ht Hb)
      as (H1 & H2 & H3); auto.
    { rewrite Es in He. apply enc_ok_app in He. tauto. }
    { repeat split; auto. symmetry. apply app_nil_r. }
    assert (HK : skipn (length ds - @length Z []) (ds ++ rest) = rest).
    { cbn [length]. rewrite Nat.sub_0_r. apply skipn_len_app. }
    fold neg V in H1, H2, H3. split; [|split].
    + intros HV. rewrite H1 by assumption. cbn [bind]. rewrite HK. reflexivity.
    + intros HV Hx. rewrite H2 by assumption. reflexivity.
    + destruct H3 as [H3|[H3 H4]]; [left; rewrite H3; reflexivity|right].
      split; [exact H3|]. rewrite H4. cbn [bind]. rewrite HK. reflexivity.
Qed.

Lemma read_digits_none r t p : base_ok (pr_base p) -> ~ starts_with_digit (pr_base p) (pr_it p) ->
  pr_sign p <> DefaultSign -> (it_signed t = false -> is_minus (pr_sign p) = false) ->
  read_digits r t p = Err InvalidScannedValue.
Proof.
  intros Hb Hn Hd Hs. assert (Hb' := Hb). unfold base_ok in Hb'.
  unfold read_digits, parse_integer_digits_without_thsep. destruct (pr_it p) as [|c s'].
  - destruct (s_contig r); [reflexivity|]. reflexivity.
  - destruct (s_contig r).
    + cbn [bind]. cbn [length]. rewrite Nat.sub_0_r.
      change (S (length s')) with (length (c :: s')). rewrite firstn_all.
      rewrite piv_no_digit by assumption. reflexivity.
    + unfold read_while1_code_unit, read_while_code_unit, read_until_code_unit.
      assert (F := find_if_run (pr_base p) [] (c :: s') ltac:(lia) (Forall_nil _) Hn).
      cbn [app] in F. rewrite F.
      rewrite Nat.eqb_refl. reflexivity.
Qed.

(** The common shape of read_default_with_base and of read_specs without L. *)
Definition int_generic (r : src) (t : inttype) (s : list Z) (b : Z) (negok : bool)
  : outcome (Z * list Z) :=
  p <- parse_integer_prefix r s b ;;
  if is_minus (pr_sign p) && negb negok then Err InvalidScannedValue
  else if pr_zero p then it <- next1 (pr_it p) ;; Ok (0, it)
  else read_digits r t p.

Lemma default_generic r t s b :
  int_read_default_with_base r t s b = int_generic r t s b (it_signed t).
Proof.
  unfold int_read_default_with_base, int_generic.
  destruct (parse_integer_prefix r s b); cbn [bind]; try reflexivity.
  rewrite andb_comm. reflexivity.
Qed.

Lemma specs_generic r t sp sep s b : localized sp = false -> get_base sp = Ok b ->
  int_read_specs r t sp sep s
  = int_generic r t s b (it_signed t && negb (ptype_eqb (type sp) PIntUnsignedDecimal)).
Proof.
  intros HL Hb. unfold int_read_specs, int_generic. rewrite Hb. cbn [bind].
  destruct (parse_integer_prefix r s b); cbn [bind]; try reflexivity.
  rewrite HL. cbn [negb]. rewrite negb_andb, negb_involutive. reflexivity.
Qed.

Lemma is_minus_sign_of neg : is_minus (sign_of neg) = neg.
Proof. destruct neg; reflexivity. Qed.
Lemma sign_of_default neg : sign_of neg <> DefaultSign.
Proof. destruct neg; discriminate. Qed.

Section Reader.
  Variables (r : src) (t : inttype) (s : list Z) (b : Z) (negok : bool).
  Hypothesis Ht : type_ok t.
  Hypothesis Hb : b = 0 \/ base_ok b.
  Hypothesis He : enc_ok (s_enc r) s.
  Hypothesis Hq : no_dle r (snd (split_sign s)).
  Hypothesis Hn : negok = true -> it_signed t = true.
  Let neg := fst (split_sign s).
  Let text := snd (split_sign s).
  Let B := fst (read_base b text).
  Let body := snd (read_base b text).
  Let R := int_generic r t s b negok.

  Lemma rd_empty : s = [] -> R = Err EndOfInput.
  Proof. unfold R. intros ->. reflexivity. Qed.

  Lemma rd_minus : neg = true -> negok = false -> R = Err InvalidScannedValue.
  Proof.
    intros H1 H2. assert (Hne : s <> []).
    { unfold neg in H1. destruct s; [discriminate H1|discriminate]. }
    destruct (prefix_spec r s b Hne Hb He Hq) as (p & E & Hs & _).
    unfold R, int_generic. rewrite E. cbn [bind]. rewrite Hs. fold neg. rewrite H1, H2. reflexivity.
  Qed.

  Lemma nonneg_signed : (neg = true -> negok = true) -> it_signed t = false -> neg = false.
  Proof.
    intros H1 H2. destruct neg; [|reflexivity]. rewrite Hn in H2 by auto. discriminate.
  Qed.

  Lemma rd_no_digit : s <> [] -> (neg = true -> negok = true) -> ~ starts_with_digit B body ->
    R = Err InvalidScannedValue.
  Proof.
    intros Hne Hng Hnd. assert (NS := nonneg_signed Hng).
    destruct (prefix_spec r s b Hne Hb He Hq) as (p & E & Hs & Hpb & Hit & HB & [Hsr _] & Hz).
    fold text in HB, Hsr. fold B in HB, Hsr. fold body in Hsr. fold neg in Hs.
    unfold R, int_generic. rewrite E. cbn [bind]. rewrite Hs, is_minus_sign_of.
    replace (neg && negb negok) with false by (destruct neg; [rewrite Hng by auto|]; reflexivity).
    destruct (pr_zero p) eqn:Ez.
    - destruct (Hz eq_refl) as (t' & Et & _). exfalso. apply Hnd, Hsr. rewrite Et.
      cbn. apply digit_48. unfold base_ok in Hpb. lia.
    - apply read_digits_none; auto; [tauto| |].
      + rewrite Hs. apply sign_of_default.
      + rewrite Hs, is_minus_sign_of. exact NS.
  Qed.

  Lemma rd_run ds rest : (neg = true -> negok = true) -> digit_run B body ds rest ->
    let V := value B ds in
    (V <= limit t neg -> R = Ok (signed_value neg V, rest))
    /\ (limit t neg < V -> exact (it_signed t) (it_bits t) B -> R = Err (overflow_error neg))
    /\ (R = Err (overflow_error neg)
        \/ (wrap64 V <= limit t neg /\ R = Ok (signed_value neg (wrap64 V), rest))).
  Proof.
    intros Hng Hrun V. assert (NS := nonneg_signed Hng).
    assert (Hne : s <> []).
    { intros E. destruct Hrun as (E1 & E2 & _). unfold body, text in E1. rewrite E in E1.
      assert (E3 : snd (read_base b (snd (split_sign []))) = []).
      { unfold read_base. cbn [split_sign snd has_prefix]. rewrite !andb_false_r.
        destruct (b =? 0); reflexivity. }
      rewrite E3 in E1. symmetry in E1. apply app_eq_nil in E1. tauto. }
    destruct (prefix_spec r s b Hne Hb He Hq) as (p & E & Hs & Hpb & Hit & HB & [_ Hsr] & Hz).
    fold text in HB, Hsr. fold B in HB, Hsr. fold body in Hsr. fold neg in Hs.
    destruct (Hsr ds rest Hrun) as (ds1 & Hrun1 & HV & HBB). fold V in HV, HBB.
    assert (HL := limit_range t neg Ht NS). destruct HL as [HL _].
    unfold R, int_generic. rewrite E. cbn [bind]. rewrite Hs, is_minus_sign_of.
    replace (neg && negb negok) with false by (destruct neg; [rewrite Hng by auto|]; reflexivity).
    destruct (pr_zero p) eqn:Ez.
    - destruct (Hz eq_refl) as (t' & Et & Hnt). rewrite Et. cbn [next1 bind].
      assert (Hrun0 : digit_run (pr_base p) (pr_it p) [48] t').
      { rewrite Et. repeat split; [discriminate| |exact Hnt].
        constructor; [apply digit_48; unfold base_ok in Hpb; lia|constructor]. }
      destruct (run_unique _ _ _ _ _ _ Hrun1 Hrun0) as [-> ->].
      assert (V = 0) by (rewrite <- HV; reflexivity).
      assert (E0 : signed_value neg 0 = 0) by (destruct neg; reflexivity).
      rewrite H. change (wrap64 0) with 0. rewrite E0. repeat split; try lia.
      right. split; [lia|reflexivity].
    - assert (He2 : enc_ok (s_enc r) (pr_it p)).
      { destruct Hit as [k ->]. intros E8. apply bytes_skipn, He, E8. }
      destruct (read_digits_run r t p ds1 rest Ht Hpb He2 Hrun1) as (H1 & H2 & H3).
      { rewrite Hs. apply sign_of_default. }
      { rewrite Hs, is_minus_sign_of. exact NS. }
      rewrite Hs, is_minus_sign_of, HV in H1, H2, H3.
      split; [exact H1|split; [|exact H3]].
      intros HV1 Hx. apply H2; [exact HV1|].
      destruct HBB as [->|H0]; [exact Hx|]. lia.
  Qed.
End Reader.

(** ** Independence of the source kind *)

Definition with_rest (R : outcome (Z * list Z)) (rest : list Z) : outcome (Z * list Z) :=
  match R with Ok (v, _) => Ok (v, rest) | other => other end.

Lemma regular_app t ds rest b neg : base_ok b -> Forall (is_digit b) ds ->
  ~ starts_with_digit b rest ->
  parse_regular_integer t (ds ++ rest) b neg = with_rest (parse_regular_integer t ds b neg) rest.
Proof.
  intros Hb Hds Hr. unfold base_ok in Hb. unfold parse_regular_integer.
  assert (H1 := digit_loop_run b ds rest Hb Hds Hr 0).
  assert (H2 := digit_loop_run b ds [] Hb Hds (fun f => f) 0).
  rewrite app_nil_r in H2. change (wrap64 0) with 0 in H1, H2. rewrite H1, H2.
  rewrite app_length, Nat.add_sub. cbn [length]. rewrite Nat.sub_0_r.
  destruct (check_integer_overflow _ _ _ _ _) as [[]| | |]; try reflexivity. cbn [bind].
  destruct (store_result _ _ _); reflexivity.
Qed.

Lemma skip_zeros_app ds rest b : 0 < b -> Forall (is_digit b) ds -> ~ starts_with_digit b rest ->
  skip_zeros (ds ++ rest) = skip_zeros ds ++ rest /\ Forall (is_digit b) (skip_zeros ds).
Proof.
  intros Hb Hds Hr. induction Hds as [|c ds Hc Hds IH]; cbn [app skip_zeros].
  - split; [|constructor]. destruct rest as [|c rest]; [reflexivity|].
    cbn [skip_zeros]. destruct (Z.eqb_spec c 48) as [->|E]; [|reflexivity].
    exfalso. apply Hr, digit_48, Hb.
  - destruct (c =? 48); [exact IH|]. split; [reflexivity|constructor; assumption].
Qed.

Lemma piv_app e t ds rest sign b : base_ok b -> enc_ok e (ds ++ rest) -> ds <> [] ->
  Forall (is_digit b) ds -> ~ starts_with_digit b rest ->
  parse_integer_value e t (ds ++ rest) sign b
  = with_rest (parse_integer_value e t ds sign b) rest.
Proof.
  intros Hb He Hne Hds Hr. unfold base_ok in Hb.
  destruct (skip_zeros_app ds rest b ltac:(lia) Hds Hr) as [HZ1 HZ2].
  assert (He1 : enc_ok e (skip_zeros ds ++ rest)).
  { rewrite <- HZ1. destruct (skip_zeros_suffix (ds ++ rest)) as [k ->].
    intros E. apply bytes_skipn, He, E. }
  destruct ds as [|c ds]; [contradiction|].
  cbn [app] in *. unfold parse_integer_value. rewrite HZ1.
  assert (G : (if match skip_zeros (c :: ds) ++ rest with
                  | [] => true | d :: _ => b <=? char_to_int d end
               then Ok (0, skip_zeros (c :: ds) ++ rest)
               else match e with
                    | U8 => if b =? 10
                            then parse_decimal_integer_fast t (skip_zeros (c :: ds) ++ rest) (is_minus sign)
                            else parse_regular_integer t (skip_zeros (c :: ds) ++ rest) b (is_minus sign)
                    | _ => parse_regular_integer t (skip_zeros (c :: ds) ++ rest) b (is_minus sign)
                    end)
            = with_rest (if match skip_zeros (c :: ds) with
                  | [] => true | d :: _ => b <=? char_to_int d end
               then Ok (0, skip_zeros (c :: ds))
               else match e with
                    | U8 => if b =? 10
                            then parse_decimal_integer_fast t (skip_zeros (c :: ds)) (is_minus sign)
                            else parse_regular_integer t (skip_zeros (c :: ds)) b (is_minus sign)
                    | _ => parse_regular_integer t (skip_zeros (c :: ds)) b (is_minus sign)
                    end) rest).
  { clear HZ1. generalize dependent (skip_zeros (c :: ds)). intros z HZ2 He1.
    destruct z as [|d z].
    - cbn [app]. destruct rest as [|d rest]; [reflexivity|].
      apply char_to_int_not_digit in Hr; [rewrite Hr; reflexivity|lia].
    - cbn [app]. assert (Hd : (b <=? char_to_int d) = false)
        by (inversion HZ2; apply char_to_int_is_digit; [lia|assumption]).
      rewrite Hd. change (d :: z ++ rest) with ((d :: z) ++ rest).
      assert (K : match e with
                  | U8 => if b =? 10
                          then parse_decimal_integer_fast t ((d :: z) ++ rest) (is_minus sign)
                          else parse_regular_integer t ((d :: z) ++ rest) b (is_minus sign)
                  | _ => parse_regular_integer t ((d :: z) ++ rest) b (is_minus sign)
                  end = parse_regular_integer t ((d :: z) ++ rest) b (is_minus sign)).
      { destruct e; try reflexivity. destruct (Z.eqb_spec b 10) as [->|_]; [|reflexivity].
        apply decimal_fast_regular, He1. reflexivity. }
      assert (K' : match e with
                  | U8 => if b =? 10
                          then parse_decimal_integer_fast t (d :: z) (is_minus sign)
                          else parse_regular_integer t (d :: z) b (is_minus sign)
                  | _ => parse_regular_integer t (d :: z) b (is_minus sign)
                  end = parse_regular_integer t (d :: z) b (is_minus sign)).
      { destruct e; try reflexivity. destruct (Z.eqb_spec b 10) as [->|_]; [|reflexivity].
        apply decimal_fast_regular. specialize (He1 eq_refl). apply bytes_app in He1. tauto. }
      rewrite K, K'. apply regular_app; assumption. }
  destruct sign; [reflexivity| |];
    (destruct (negb (it_signed t) && _); [reflexivity|]; destruct (b <=? 0); [reflexivity|];
     destruct (b <=? char_to_int c); [reflexivity|]; exact G).
Qed.

Lemma read_digits_src r1 r2 t p : s_enc r1 = s_enc r2 -> base_ok (pr_base p) ->
  enc_ok (s_enc r1) (pr_it p) -> pr_sign p <> DefaultSign ->
  (it_signed t = false -> is_minus (pr_sign p) = false) ->
  read_digits r1 t p = read_digits r2 t p.
Proof.
  intros E Hb He Hd Hs.
  destruct (not_digit_of (pr_base p) (pr_it p)) eqn:En.
  - assert (N : ~ starts_with_digit (pr_base p) (pr_it p)).
    { unfold base_ok in Hb. rewrite <- not_digit_of_spec by lia. congruence. }
    rewrite !read_digits_none by assumption. reflexivity.
  - apply not_digit_of_spec in En; [|unfold base_ok in Hb; lia].
    destruct (run_exists _ _ En) as (ds & rest & Es & Hne & Hds & Hr).
    assert (G : forall r, s_enc r = s_enc r1 -> read_digits r t p =
      with_rest (parse_integer_value (s_enc r1) t ds (pr_sign p) (pr_base p)) rest).
    { intros r Er. unfold read_digits, parse_integer_digits_without_thsep. rewrite Er, Es.
      destruct (s_contig r).
      - destruct (ds ++ rest) as [|c s'] eqn:E'; [apply app_eq_nil in E'; tauto|].
        cbn [bind]. rewrite <- E' in *. clear c s' E'.
        cbn [length]. rewrite Nat.sub_0_r, firstn_all.
        rewrite piv_app by (try assumption; rewrite <- Es; assumption).
        destruct (parse_integer_value _ _ ds _ _) as [[v x]| | |]; try reflexivity.
        cbn [with_rest bind]. rewrite app_length, Nat.add_sub, skipn_len_app. reflexivity.
      - unfold read_while1_code_unit, read_while_code_unit, read_until_code_unit.
        unfold base_ok in Hb.
        rewrite find_if_run by (assumption || lia).
        replace (length rest =? length (ds ++ rest))%nat with false.
        2:{ symmetry. apply Nat.eqb_neq. rewrite app_length. destruct ds; [contradiction|]. cbn [length]. lia. }
        cbn [bind]. rewrite app_length, Nat.add_sub, firstn_len_app.
        assert (P := piv_app (s_enc r1) t ds [] (pr_sign p) (pr_base p) Hb).
        rewrite app_nil_r in P. rewrite P at 1; auto.
        2:{ rewrite Es in He. apply enc_ok_app in He. tauto. }
        destruct (parse_integer_value _ _ ds _ _) as [[v x]| | |]; try reflexivity.
        cbn [with_rest bind length]. rewrite Nat.sub_0_r, skipn_len_app. reflexivity. }
    rewrite (G r1), (G r2) by congruence. reflexivity.
Qed.

Lemma nocase_src r1 r2 L text : s_enc r1 = s_enc r2 -> L = 98 \/ L = 120 \/ L = 111 ->
  enc_ok (s_enc r1) text -> no_dle r1 text -> no_dle r2 text ->
  match read_matching_string_classic_nocase r1 [48; L] text,
        read_matching_string_classic_nocase r2 [48; L] text with
  | inl a, inl b => a = b
  | inr _, inr _ => True
  | _, _ => False
  end.
Proof.
  intros E HL He H1 H2.
  assert (P1 := nocase_prefix r1 L text HL He H1).
  rewrite E in He. assert (P2 := nocase_prefix r2 L text HL He H2).
  destruct (read_matching_string_classic_nocase r1 [48; L] text);
    destruct (read_matching_string_classic_nocase r2 [48; L] text); intuition congruence.
Qed.

Lemma sign_suffix s text sg : parse_numeric_sign s = Ok (text, sg) ->
  text = snd (split_sign s) /\ exists k, text = skipn k s.
Proof.
  destruct s as [|c s]; [discriminate|]. unfold parse_numeric_sign, split_sign.
  cbn [read_one_of_code_unit existsb].
  destruct (Z.eqb_spec c 43) as [->|E1]; [intros [= <- _]; split; [reflexivity|exists 1%nat; reflexivity]|].
  destruct (Z.eqb_spec c 45) as [->|E2]; [intros [= <- _]; split; [reflexivity|exists 1%nat; reflexivity]|].
  intros [= <- _]. split; [reflexivity|exists O; reflexivity].
Qed.

Lemma prefix_src r1 r2 s b : s_enc r1 = s_enc r2 -> enc_ok (s_enc r1) s ->
  no_dle r1 (snd (split_sign s)) -> no_dle r2 (snd (split_sign s)) ->
  parse_integer_prefix r1 s b = parse_integer_prefix r2 s b.
Proof.
  intros E He H1 H2. unfold parse_integer_prefix.
  destruct (parse_numeric_sign s) as [[text sg]| | |] eqn:Es; try reflexivity.
  destruct (sign_suffix _ _ _ Es) as [Et [k Ek]]. rewrite <- Et in H1, H2.
  assert (He' : enc_ok (s_enc r1) text) by (intros E8; rewrite Ek; apply bytes_skipn, He, E8).
  cbn [bind].
  assert (G : parse_integer_base_prefix r1 text b = parse_integer_base_prefix r2 text b).
  { assert (PX := nocase_src r1 r2 120 text E ltac:(lia) He' H1 H2).
    assert (PB := nocase_src r1 r2 98 text E ltac:(lia) He' H1 H2).
    assert (PO := nocase_src r1 r2 111 text E ltac:(lia) He' H1 H2).
    unfold parse_integer_base_prefix, parse_integer_base_prefix_for_detection,
      parse_integer_hex_base_prefix, parse_integer_bin_base_prefix, parse_integer_oct_base_prefix.
    destruct (read_matching_string_classic_nocase r1 [48; 120] text);
      destruct (read_matching_string_classic_nocase r2 [48; 120] text); try contradiction;
    destruct (read_matching_string_classic_nocase r1 [48; 98] text);
      destruct (read_matching_string_classic_nocase r2 [48; 98] text); try contradiction;
    destruct (read_matching_string_classic_nocase r1 [48; 111] text);
      destruct (read_matching_string_classic_nocase r2 [48; 111] text); try contradiction;
    subst; reflexivity. }
  rewrite G. reflexivity.
Qed.

Lemma generic_src r1 r2 t s b negok : s_enc r1 = s_enc r2 -> b = 0 \/ base_ok b ->
  enc_ok (s_enc r1) s -> no_dle r1 (snd (split_sign s)) -> no_dle r2 (snd (split_sign s)) ->
  (negok = true -> it_signed t = true) ->
  int_generic r1 t s b negok = int_generic r2 t s b negok.
Proof.
  intros E Hb He H1 H2 Hn. unfold int_generic.
  rewrite (prefix_src r1 r2) by assumption.
  destruct s as [|c s]; [reflexivity|].
  assert (He2 : enc_ok (s_enc r2) (c :: s)) by (rewrite <- E; exact He).
  destruct (prefix_spec r2 (c :: s) b ltac:(discriminate) Hb He2 H2)
    as (p & Ep & Hs & Hpb & [k Hit] & _).
  rewrite Ep. cbn [bind].
  destruct (is_minus (pr_sign p) && negb negok) eqn:Em; [reflexivity|].
  destruct (pr_zero p); [reflexivity|].
  apply read_digits_src; auto.
  - rewrite Hit. intros E8. apply bytes_skipn, He, E8.
  - rewrite Hs. apply sign_of_default.
  - intros Hu. destruct (is_minus (pr_sign p)); [|reflexivity].
    destruct negok; [rewrite Hn in Hu by reflexivity; discriminate|discriminate].
Qed.

(** ** Printing *)

Lemma digit_char_ok upper b d : 0 <= d < b -> b <= 36 ->
  is_digit b (digit_char upper d) /\ digit_or_0 (digit_char upper d) = d.
Proof.
  intros Hd Hb.
  assert (E : digit_value (digit_char upper d) = Some d).
  { unfold digit_char, digit_value. destruct (d <? 10) eqn:E1.
    - destruct ((48 <=? 48 + d) && (48 + d <=? 57)) eqn:E2; [f_equal; lia|lia].
    - destruct upper.
      + destruct ((48 <=? 55 + d) && (55 + d <=? 57)) eqn:E2; [lia|].
        destruct ((97 <=? 55 + d) && (55 + d <=? 122)) eqn:E3; [lia|].
        destruct ((65 <=? 55 + d) && (55 + d <=? 90)) eqn:E4; [f_equal; lia|lia].
      + destruct ((48 <=? 87 + d) && (87 + d <=? 57)) eqn:E2; [lia|].
        destruct ((97 <=? 87 + d) && (87 + d <=? 122)) eqn:E3; [f_equal; lia|lia]. }
  split; [exists d; split; [exact E|lia]|]. unfold digit_or_0. rewrite E. reflexivity.
Qed.

Lemma print_loop_ok upper b : base_ok b -> forall fuel v acc, 0 <= v -> v < 2 ^ Z.of_nat fuel ->
  (0 < fuel)%nat -> Forall (is_digit b) acc ->
  let p := print_loop fuel upper b v acc in
  Forall (is_digit b) p /\ value b p = v * b ^ Z.of_nat (length acc) + value b acc
  /\ (exists c p', p = c :: p' /\ (0 < v -> digit_or_0 c <> 0) /\ (v = 0 -> p' = acc)).
Proof.
  intros Hb. unfold base_ok in Hb. induction fuel as [|f IH]; intros v acc Hv Hf Hp Hacc; [lia|].
  cbn [print_loop]. destruct (v <? b) eqn:E.
  - destruct (digit_char_ok upper b v ltac:(lia) ltac:(lia)) as [D1 D2].
    split; [constructor; assumption|]. split; [cbn [value]; rewrite D2; reflexivity|].
    eexists _, _. split; [reflexivity|]. split; [rewrite D2; lia|auto].
  - assert (Hmod := Z.mod_pos_bound v b ltac:(lia)).
    destruct (digit_char_ok upper b (v mod b) ltac:(lia) ltac:(lia)) as [D1 D2].
    assert (Hdm := Z.div_mod v b ltac:(lia)).
    assert (Hq : 1 <= v / b) by (apply Z.div_le_lower_bound; lia).
    assert (Hf2 : v / b < 2 ^ Z.of_nat f).
    { apply Z.div_lt_upper_bound; [lia|].
      rewrite Nat2Z.inj_succ, Z.pow_succ_r in Hf by lia. nia. }
    assert (Hf0 : (0 < f)%nat).
    { destruct f; [|lia]. cbn in Hf2. change (2 ^ 0) with 1 in Hf2. lia. }
    destruct (IH (v / b) (digit_char upper (v mod b) :: acc) ltac:(lia) Hf2 Hf0)
      as (H1 & H2 & (c & p' & H3 & H4 & H5)); [constructor; assumption|].
    split; [exact H1|]. split.
    + rewrite H2. cbn [value length]. rewrite D2, Nat2Z.inj_succ, Z.pow_succ_r by lia.
      rewrite Hdm at 3. ring.
    + exists c, p'. split; [exact H3|]. split; [intros _; apply H4; lia|lia].
Qed.

Lemma print_ok upper b v : base_ok b -> 0 <= v ->
  Forall (is_digit b) (print upper b v) /\ value b (print upper b v) = v
  /\ (exists c p', print upper b v = c :: p' /\ (0 < v -> digit_or_0 c <> 0) /\ (v = 0 -> p' = [])).
Proof.
  intros Hb Hv.
  destruct (print_loop_ok upper b Hb (S (Z.to_nat (Z.log2 v))) v [] Hv) as (H1 & H2 & H3).
  - rewrite Nat2Z.inj_succ, Z2Nat.id by apply Z.log2_nonneg.
    destruct (Z.eq_dec v 0) as [->|]; [reflexivity|]. apply Z.log2_spec. lia.
  - lia.
  - constructor.
  - split; [exact H1|]. split; [|exact H3].
    unfold print. rewrite H2. cbn [value length]. change (Z.of_nat 0) with 0. rewrite Z.pow_0_r. lia.
Qed.

(** ** scan_int *)
From Verif Require Import UnicodeSpec UnicodeProofs WhitespaceModel WhitespaceSpec WhitespaceProofs.

Lemma skip_ws_spec s r : bytes s -> first_at U8 (fun cp => negb (is_cp_space cp)) s r -> r <> [] ->
  skip_classic_whitespace string_src s false = Ok r.
Proof.
  intros Hb Hf Hne. unfold skip_classic_whitespace, read_while_classic_space. cbn [s_enc s_contig string_src].
  destruct (find_classic_nonspace_spec s Hb) as (r' & E & Hf').
  rewrite E. cbn [bind]. rewrite (first_at_unique _ _ _ _ _ Hf' Hf).
  destruct r; [contradiction|reflexivity].
Qed.

Lemma skip_ws_all s : bytes s -> first_at U8 (fun cp => negb (is_cp_space cp)) s [] ->
  skip_classic_whitespace string_src s false = Err EndOfInput.
Proof.
  intros Hb Hf. unfold skip_classic_whitespace, read_while_classic_space. cbn [s_enc s_contig string_src].
  destruct (find_classic_nonspace_spec s Hb) as (r' & E & Hf').
  rewrite E. cbn [bind]. rewrite (first_at_unique _ _ _ _ _ Hf' Hf). reflexivity.
Qed.

(** Leading whitespace before a printable ASCII unit. *)
Lemma ws_then ws c s : Forall scalar ws -> Forall (fun cp => is_cp_space cp = true) ws ->
  0 <= c < 128 -> is_cp_space c = false ->
  first_at U8 (fun cp => negb (is_cp_space cp)) (utf8 ws ++ c :: s) (c :: s).
Proof.
  intros Hs Hw Hc Hn. split.
  - induction Hs as [|w ws H Hs IH]; [constructor|].
    inversion_clear Hw as [|? ? Hw1 Hw2].
    unfold utf8. cbn [map concat flat_map]. 
    econstructor; [| |apply IH, Hw2].
    + unfold utf8. rewrite <- app_assoc. apply next_cp_utf8_of, H.
    + cbv beta. rewrite Hw1. reflexivity.
  - right. exists c, s. split; [apply next_cp_ascii, Hc|]. rewrite Hn. reflexivity.
Qed.

Lemma utf8_bytes_app ws s : Forall scalar ws -> bytes s -> bytes (utf8 ws ++ s).
Proof. intros. apply bytes_app. split; [apply utf8_bytes; assumption|assumption]. Qed.

Lemma scan_int_skip t source s b : bytes source ->
  first_at U8 (fun cp => negb (is_cp_space cp)) source s -> s <> [] ->
  scan_int t source b = int_read_default_with_base string_src t s b.
Proof.
  intros Hb Hf Hne. unfold scan_int. rewrite (skip_ws_spec source s Hb Hf Hne). reflexivity.
Qed.

Lemma digit_ascii b c : is_digit b c -> 48 <= c <= 122.
Proof.
  intros (d & E & _). unfold digit_value in E.
  destruct ((48 <=? c) && (c <=? 57)) eqn:X1; [lia|].
  destruct ((97 <=? c) && (c <=? 122)) eqn:X2; [lia|].
  destruct ((65 <=? c) && (c <=? 90)) eqn:X3; [lia|discriminate].
Qed.

Lemma digits_bytes b ds : Forall (is_digit b) ds -> bytes ds.
Proof.
  apply Forall_impl. intros c H. apply digit_ascii in H. unfold is_byte. lia.
Qed.

(** A digit string without a redundant leading zero is not taken for a prefix. *)
Lemma read_base_plain b ds rest : base_ok b -> ds <> [] -> Forall (is_digit b) ds ->
  (forall L, prefix_of b L -> has_prefix L b (ds ++ rest) = false) ->
  read_base b (ds ++ rest) = (b, ds ++ rest).
Proof.
  intros Hb Hne Hds Hp. unfold base_ok in Hb. unfold read_base.
  replace (b =? 0) with false by lia. rewrite !orb_false_r.
  destruct (Z.eqb_spec b 16) as [->|N16]; [rewrite Hp by (unfold prefix_of; auto); reflexivity|].
  destruct (Z.eqb_spec b 2) as [->|N2]; [rewrite Hp by (unfold prefix_of; auto); reflexivity|].
  destruct (Z.eqb_spec b 8) as [->|N8]; [rewrite Hp by (unfold prefix_of; auto); reflexivity|].
  reflexivity.
Qed.

Lemma split_sign_digit b c s : is_digit b c -> split_sign (c :: s) = (false, c :: s).
Proof.
  intros H. apply digit_ascii in H. unfold split_sign.
  replace (c =? 45) with false by lia. replace (c =? 43) with false by lia. reflexivity.
Qed.

(** Scanning a signed numeral. *)
Lemma reader_numeral r t b sg ds rest : type_ok t -> base_ok b ->
  sg = [] \/ sg = [43] \/ (sg = [45] /\ it_signed t = true) ->
  ds <> [] -> Forall (is_digit b) ds -> ~ starts_with_digit b rest ->
  (forall L, prefix_of b L -> has_prefix L b (ds ++ rest) = false) ->
  enc_ok (s_enc r) rest ->
  let neg := match sg with c :: _ => c =? 45 | [] => false end in
  in_range (it_signed t) (it_bits t) (signed_value neg (value b ds)) ->
  int_read_default_with_base r t (sg ++ ds ++ rest) b = Ok (signed_value neg (value b ds), rest).
Proof.
  intros Ht Hb Hsg Hne Hds Hr Hp He neg HV.
  assert (HSS : split_sign (sg ++ ds ++ rest) = (neg, ds ++ rest)).
  { unfold neg. destruct Hsg as [->|[->|[-> _]]]; [|reflexivity..].
    destruct ds as [|c ds]; [contradiction|]. cbn [app].
    apply split_sign_digit with (b := b). inversion Hds; assumption. }
  assert (HRB := read_base_plain b ds rest Hb Hne Hds Hp).
  rewrite default_generic.
  assert (Hng : neg = true -> it_signed t = true).
  { unfold neg. destruct Hsg as [->|[->|[-> H]]]; try discriminate. auto. }
  destruct (rd_run r t (sg ++ ds ++ rest) b (it_signed t) Ht (or_intror Hb)) with (ds := ds) (rest := rest)
    as (H1 & _); auto.
  - intros E8. specialize (He E8). repeat (apply bytes_app; split).
    + destruct Hsg as [->|[->|[-> _]]]; repeat constructor; unfold is_byte; lia.
    + eapply digits_bytes; eassumption.
    + exact He.
  - rewrite HSS. cbn [snd]. intros _ _. destruct ds as [|c ds]; [contradiction|]. cbn [app].
    inversion_clear Hds as [|? ? Hc _]. apply digit_ascii in Hc. lia.
  - rewrite HSS. exact Hng.
  - rewrite HSS. cbn [snd]. rewrite HRB. repeat split; assumption.
  - rewrite HSS in H1. cbn [fst snd] in H1. rewrite HRB in H1. cbn [fst] in H1.
    apply H1. apply limit_fits; auto.
    + destruct neg; [intros H; rewrite Hng in H by reflexivity; discriminate|auto].
    + assert (X := value_range b ds). unfold base_ok in Hb. specialize (X ltac:(lia) Hds). lia.
Qed.

Lemma no_prefix_nonzero L b c s : c <> 48 -> has_prefix L b (c :: s) = false.
Proof.
  intros H. destruct s as [|l [|d s]]; try reflexivity. cbn [has_prefix].
  replace (c =? 48) with false by lia. reflexivity.
Qed.

(** Round trip of a printed value. *)
Lemma print_signed_shape upper b v : base_ok b ->
  exists sg ds, print_signed upper b v = sg ++ ds /\ ds <> [] /\ Forall (is_digit b) ds
    /\ value b ds = Z.abs v /\ (sg = if v <? 0 then [45] else [])
    /\ (v <> 0 -> match ds with c :: _ => c <> 48 | [] => False end)
    /\ (v = 0 -> ds = [48]).
Proof.
  intros Hb. unfold print_signed. destruct (v <? 0) eqn:E.
  - destruct (print_ok upper b (- v) Hb ltac:(lia)) as (H1 & H2 & (c & p' & H3 & H4 & H5)).
    exists [45], (print upper b (- v)). repeat split; auto.
    + rewrite H3. discriminate.
    + lia.
    + intros _. rewrite H3. intros ->. apply H4; [lia|reflexivity].
    + lia.
  - destruct (print_ok upper b v Hb ltac:(lia)) as (H1 & H2 & (c & p' & H3 & H4 & H5)).
    exists [], (print upper b v). repeat split; auto.
    + rewrite H3. discriminate.
    + lia.
    + intros Hv. rewrite H3. intros ->. apply H4; [lia|reflexivity].
    + intros ->. unfold base_ok in Hb. unfold print, print_loop, digit_char. cbn.
      replace (0 <? b) with true by lia. reflexivity.
Qed.

Lemma in_range_zero signed bits : 0 < bits -> in_range signed bits 0.
Proof.
  intros H. unfold in_range. destruct signed.
  - assert (0 < 2 ^ (bits - 1)) by (apply Z.pow_pos_nonneg; lia). lia.
  - assert (0 < 2 ^ bits) by (apply Z.pow_pos_nonneg; lia). lia.
Qed.

Lemma round_trip r t upper b v plus rest : type_ok t -> base_ok b ->
  in_range (it_signed t) (it_bits t) v -> ~ starts_with_digit b rest ->
  enc_ok (s_enc r) rest ->
  (v = 0 -> forall L, prefix_of b L -> has_prefix L b (48 :: rest) = false) ->
  let sg := if plus && (0 <=? v) then [43] else [] in
  int_read_default_with_base r t (sg ++ print_signed upper b v ++ rest) b = Ok (v, rest).
Proof.
  intros Ht Hb Hv Hr He H0 sg0.
  destruct (print_signed_shape upper b v Hb) as (sg & ds & E & Hne & Hds & HV & Hsg & Hnz & Hz).
  rewrite E. rewrite <- app_assoc.
  assert (HP : forall L, prefix_of b L -> has_prefix L b (ds ++ rest) = false).
  { intros L HL. destruct (Z.eq_dec v 0) as [Ev|Ev].
    - rewrite (Hz Ev). apply (H0 Ev L HL).
    - specialize (Hnz Ev). destruct ds as [|c ds]; [contradiction|].
      apply no_prefix_nonzero, Hnz. }
  assert (Hsig : v < 0 -> it_signed t = true).
  { intros Hneg. unfold in_range in Hv. destruct (it_signed t); [reflexivity|lia]. }
  destruct (v <? 0) eqn:Ev.
  - assert (Esg0 : sg0 = []) by (unfold sg0; replace (0 <=? v) with false by lia; rewrite andb_false_r; reflexivity).
    rewrite Esg0, Hsg. cbn [app].
    assert (R := reader_numeral r t b [45] ds rest Ht Hb). cbn [app] in R.
    rewrite R; auto; [|right; right; split; [reflexivity|apply Hsig; lia]|].
    + change (45 =? 45) with true. unfold signed_value. do 2 f_equal. lia.
    + change (45 =? 45) with true. unfold signed_value. replace (- value b ds) with v by lia. exact Hv.
  - rewrite Hsg. cbn [app].
    assert (G : sg0 = [] \/ sg0 = [43]) by (unfold sg0; destruct (plus && (0 <=? v)); auto).
    assert (R := reader_numeral r t b sg0 ds rest Ht Hb).
    assert (EN : match sg0 with c :: _ => c =? 45 | [] => false end = false)
      by (destruct G as [-> | ->]; reflexivity).
    cbv zeta in R. rewrite EN in R. unfold signed_value in R.
    replace (value b ds) with v in R by lia. apply R; auto. tauto.
Qed.

(** ** scan_int_exhaustive_valid *)

Lemma exhaustive_digits_ok ds : Forall (is_digit 10) ds -> forall v,
  exhaustive_digits ds (wrap64 v) = Ok (wrap64 (v * 10 ^ Z.of_nat (length ds) + value 10 ds)).
Proof.
  induction 1 as [|c ds Hc Hds IH]; intros v; cbn [exhaustive_digits].
  - cbn [length value]. rewrite Z.pow_0_r, Z.mul_1_r, Z.add_0_r. reflexivity.
  - assert (Hc' := Hc). rewrite <- char_to_int_is_digit in Hc' by lia.
    replace (char_to_int c <? 10) with true by lia. cbn [negb].
    rewrite wrap64_step, IH. do 2 f_equal. cbn [length value].
    apply is_digit_or_0 in Hc. destruct Hc as [_ ->].
    rewrite Nat2Z.inj_succ, Z.pow_succ_r by lia. ring.
Qed.

Lemma exhaustive_blocks_ok : forall fuel p v, Forall (is_digit 10) p -> (length p <= fuel)%nat ->
  exists p' v', exhaustive_blocks fuel p (wrap64 v) = Ok (p', wrap64 v') /\ Forall (is_digit 10) p'
    /\ v' * 10 ^ Z.of_nat (length p') + value 10 p' = v * 10 ^ Z.of_nat (length p) + value 10 p.
Proof.
  induction fuel as [|f IH]; intros p v Hp Hf.
  - destruct p; [|cbn in Hf; lia]. exists [], v. split; [reflexivity|split; [constructor|reflexivity]].
  - cbn [exhaustive_blocks].
    destruct (8 <=? length p)%nat eqn:El; [|exists p, v; split; [reflexivity|split; [assumption|reflexivity]]].
    apply Nat.leb_le in El. rewrite get_word_forall by (eauto using digits_bytes).
    assert (H8 : Forall (is_digit 10) (firstn 8 p)).
    { rewrite Forall_forall in *. intros x Hx. apply Hp.
      rewrite <- (firstn_skipn 8 p). apply in_or_app. auto. }
    assert (Hsk : Forall (is_digit 10) (skipn 8 p)).
    { rewrite Forall_forall in *. intros x Hx. apply Hp.
      rewrite <- (firstn_skipn 8 p). apply in_or_app. auto. }
    assert (HF := H8). apply forallb_dec in HF. rewrite HF. cbn [negb].
    rewrite block_acc by assumption.
    destruct (IH (skipn 8 p) (v * 10 ^ 8 + value 10 (firstn 8 p)) Hsk) as (p' & v' & H1 & H2 & H3).
    { rewrite skipn_length. lia. }
    exists p', v'. split; [exact H1|]. split; [exact H2|]. rewrite H3.
    rewrite <- (firstn_skipn 8 p) at 4 5. rewrite app_length, value_app.
    rewrite firstn_length, Nat.min_l by lia. rewrite Nat2Z.inj_add, Z.pow_add_r by lia.
    change (Z.of_nat 8) with 8. ring.
Qed.

(** Fewer digits than the table's maximum: leading zeros do not matter. *)
Lemma check_short t V n neg : type_ok t -> (it_signed t = false -> neg = false) ->
  0 <= V <= limit t neg -> n < 20 -> check_integer_overflow t V n 10 neg = Ok false.
Proof.
  intros Ht Hs HV Hn. destruct (limit_range t neg Ht Hs) as (HL & _).
  rewrite (check_unfold t V n 10 neg 20 Ht Hs ltac:(lia) eq_refl eq_refl).
  f_equal. rewrite !orb_false_iff. repeat split; [lia| |lia].
  apply andb_false_iff. left. lia.
Qed.

Lemma exhaustive_valid t (neg : bool) c ds : type_ok t -> (it_signed t = false -> neg = false) ->
  Forall (is_digit 10) (c :: ds) -> (digit_or_0 c <> 0 \/ (length (c :: ds) < 20)%nat) ->
  in_range (it_signed t) (it_bits t) (signed_value neg (value 10 (c :: ds))) ->
  scan_int_exhaustive_valid t ((if neg then [45] else []) ++ c :: ds)
  = Ok (signed_value neg (value 10 (c :: ds))).
Proof.
  intros Ht Hs Hds Hz HV.
  assert (HVr := value_range 10 (c :: ds) ltac:(lia) Hds).
  apply limit_fits in HV; [|assumption..|lia].
  unfold scan_int_exhaustive_valid, parse_integer_value_exhaustive_valid.
  assert (Hc : is_digit 10 c) by (inversion Hds; assumption).
  assert (Hca := digit_ascii _ _ Hc).
  assert (E : forall (k : bool -> list Z -> outcome Z),
    match (if neg then [45] else []) ++ c :: ds with
    | [] => UB
    | c0 :: tl =>
        k (it_signed t && (c0 =? 45))
          (if it_signed t && (c0 =? 45) then tl else (if neg then [45] else []) ++ c :: ds)
    end = k neg (c :: ds)).
  { intros k. destruct neg; cbn [app].
    - assert (it_signed t = true) as ->.
      { destruct (it_signed t); [reflexivity|]. discriminate (Hs eq_refl). }
      reflexivity.
    - replace (c =? 45) with false by lia. rewrite andb_false_r. reflexivity. }
  refine (eq_trans (E (fun ng src => match src with
      | [] => UB
      | d :: _ =>
          if negb (char_to_int d <? 10) then UB
          else
            '(p, v) <- exhaustive_blocks (length src) src 0 ;;
            val <- exhaustive_digits p v ;;
            o <- check_integer_overflow t val (Z.of_nat (length src)) 10 ng ;;
            if o then UB else store_result t val ng
      end)) _). clear E.
  assert (Hc' := Hc). rewrite <- char_to_int_is_digit in Hc' by lia.
  replace (char_to_int c <? 10) with true by lia. cbn [negb].
  destruct (exhaustive_blocks_ok (length (c :: ds)) (c :: ds) 0 Hds (le_n _)) as (p' & v' & H1 & H2 & H3).
  change (wrap64 0) with 0 in H1. rewrite H1. cbn [bind].
  rewrite exhaustive_digits_ok by assumption. cbn [bind]. rewrite H3, Z.mul_0_l, Z.add_0_l.
  assert (HW : wrap64 (value 10 (c :: ds)) = value 10 (c :: ds)).
  { apply wrap64_small. destruct (limit_range t neg Ht Hs) as (HL & _). lia. }
  assert (HK : check_integer_overflow t (wrap64 (value 10 (c :: ds)))
                 (Z.of_nat (length (c :: ds))) 10 neg = Ok false).
  { destruct Hz as [Hz|Hz].
    - apply check_in_range; auto; [unfold base_ok; lia|]. inversion Hds; assumption.
    - rewrite HW. apply check_short; auto; lia. }
  rewrite HK. cbn [bind]. rewrite HW. apply store_fits; auto. lia.
Qed.

(** ** Thousands separators *)

Definition thsep_run (sep b : Z) (s mixed rest : list Z) : Prop :=
  s = mixed ++ rest /\ Forall (fun c => c = sep \/ is_digit b c) mixed
  /\ match rest with c :: _ => c <> sep /\ ~ is_digit b c | [] => True end.

Definition strip (sep : Z) (s : list Z) : list Z := filter (fun c => negb (c =? sep)) s.

Lemma thsep_loop_spec sep b mixed rest : b <= 36 ->
  Forall (fun c => c = sep \/ is_digit b c) mixed ->
  match rest with c :: _ => c <> sep /\ ~ is_digit b c | [] => True end ->
  forall i out idx m, exists idx',
  thsep_loop sep b (mixed ++ rest) i out idx m
  = (rest, out ++ strip sep mixed, idx', m || negb (length (strip sep mixed) =? 0)%nat)
  /\ (length idx' = length idx + (length mixed - length (strip sep mixed)))%nat
  /\ (length (strip sep mixed) <= length mixed)%nat.
Proof.
  intros Hb Hm Hr. induction Hm as [|c mixed Hc Hm IH]; intros i out idx m; cbn [app].
  - exists idx. cbn [strip filter length Nat.eqb negb]. rewrite app_nil_r, orb_false_r.
    split; [|split; lia]. destruct rest as [|c rest]; [reflexivity|]. cbn [thsep_loop].
    destruct Hr as [Hr1 Hr2]. replace (c =? sep) with false by lia.
    apply char_to_int_not_digit in Hr2; [|exact Hb]. rewrite Hr2. reflexivity.
  - cbn [thsep_loop strip filter]. destruct (Z.eqb_spec c sep) as [->|E]; cbn [negb].
    + destruct (IH (i + 1) out (idx ++ [i mod 256]) m) as (idx' & H1 & H2 & H3).
      exists idx'. fold (strip sep mixed). split; [exact H1|].
      rewrite app_length in H2. cbn [length] in *. lia.
    + destruct Hc as [Hc|Hc]; [contradiction|].
      apply char_to_int_is_digit in Hc; [|exact Hb]. rewrite Hc.
      destruct (IH (i + 1) (out ++ [c]) idx true) as (idx' & H1 & H2 & H3).
      exists idx'. fold (strip sep mixed). rewrite H1, <- app_assoc. cbn [length app Nat.eqb negb].
      split; [rewrite orb_true_r; reflexivity|]. lia.
Qed.

Lemma strip_digits sep b mixed : Forall (fun c => c = sep \/ is_digit b c) mixed ->
  Forall (is_digit b) (strip sep mixed).
Proof.
  intros H. rewrite Forall_forall in *. intros c Hc. apply filter_In in Hc.
  destruct Hc as [Hc1 Hc2]. destruct (H c Hc1); [lia|assumption].
Qed.

(** Integer scanning with the L flag, base prefix and sign aside. *)
Lemma thsep_value r t sp sep s mixed rest p : type_ok t -> localized sp = true ->
  (exists b, get_base sp = Ok b /\ parse_integer_prefix r s b = Ok p) ->
  base_ok (pr_base p) -> enc_ok (s_enc r) (pr_it p) -> pr_sign p <> DefaultSign ->
  is_minus (pr_sign p) && (negb (it_signed t) || ptype_eqb (type sp) PIntUnsignedDecimal) = false ->
  pr_zero p = false -> thsep_run sep (pr_base p) (pr_it p) mixed rest ->
  strip sep mixed <> [] ->
  let V := value (pr_base p) (strip sep mixed) in
  let neg := is_minus (pr_sign p) in
  (in_range (it_signed t) (it_bits t) (signed_value neg V) ->
   int_read_specs r t sp sep s = Ok (signed_value neg V, rest)).
Proof.
  intros Ht HL (b & Hbase & Hp) Hb He Hd Hs Hz (Es & Hm & Hr) Hne V neg HV.
  assert (Hb' := Hb). unfold base_ok in Hb'.
  assert (Hs2 : it_signed t = false -> neg = false).
  { unfold neg. intros E. rewrite E in Hs. cbn [negb orb] in Hs.
    destruct (is_minus (pr_sign p)); [discriminate|reflexivity]. }
  unfold int_read_specs. rewrite Hbase. cbn [bind]. rewrite Hp. cbn [bind].
  rewrite Hs, Hz, HL. cbn [negb].
  unfold parse_integer_digits_with_thsep. rewrite Es.
  destruct (thsep_loop_spec sep (pr_base p) mixed rest ltac:(lia) Hm Hr 0 [] [] false)
    as (idx & H1 & H2 & H3).
  rewrite H1. cbn [app orb].
  assert (HD := strip_digits sep (pr_base p) mixed Hm).
  destruct (length (strip sep mixed) =? 0)%nat eqn:E0.
  { apply Nat.eqb_eq in E0. destruct (strip sep mixed); [contradiction|discriminate]. }
  cbn [negb bind].
  destruct (piv_run (s_enc r) t (strip sep mixed) (strip sep mixed) [] (pr_sign p) (pr_base p) Ht Hb)
    as (P & _); auto.
  { intros E8. eapply digits_bytes; eassumption. }
  { repeat split; auto. symmetry. apply app_nil_r. }
  assert (HVr := value_range (pr_base p) (strip sep mixed) ltac:(lia) HD).
  rewrite P; [|apply limit_fits; auto; unfold V in *; lia].
  cbn [bind length].
  replace (length (strip sep mixed) - 0 + length idx)%nat with (length mixed) by (cbn [length] in H2; lia).
  rewrite skipn_len_app. reflexivity.
Qed.

(** ** Where overflow detection is inexact *)

Definition inexact_witness (signed : bool) (b : Z) : list Z :=
  match maxdigits_u64 b with
  | Ok m => print false b (2 ^ 64 + b ^ (m - 1))
  | _ => []
  end.

Definition inexact_bad (signed : bool) (b : Z) : bool :=
  existsb (Z.eqb b) (if signed then [2; 3; 4; 9; 10; 16; 19; 23; 29; 30] else [2; 4; 16])
  || match scan_int (IT signed 64) ((if signed then [45] else []) ++ inexact_witness signed b) b with
     | Ok (v, []) => negb (v =? signed_value signed (value b (inexact_witness signed b)))
     | _ => false
     end && (2 ^ 64 <? value b (inexact_witness signed b))
     && forallb (digitb b) (inexact_witness signed b).

Lemma inexact_sweep signed b : base_ok b -> inexact_bad signed b = true.
Proof.
  intros Hb. unfold base_ok in Hb.
  destruct signed; [apply (sweep (inexact_bad true) 2 35)|apply (sweep (inexact_bad false) 2 35)];
    try lia; vm_compute; reflexivity.
Qed.

Definition detects (t : inttype) (b : Z) : Prop :=
  forall neg ds, ds <> [] -> Forall (is_digit b) ds -> (neg = true -> it_signed t = true) ->
    (forall L, prefix_of b L -> has_prefix L b ds = false) ->
    ~ in_range (it_signed t) (it_bits t) (signed_value neg (value b ds)) ->
    scan_int t ((if neg then [45] else []) ++ ds) b
    = Err (if neg then ValueNegativeOverflow else ValuePositiveOverflow).

Lemma in_rangeb signed bits v : {in_range signed bits v} + {~ in_range signed bits v}.
Proof.
  unfold in_range. destruct signed.
  - destruct (Z_le_dec (- 2 ^ (bits - 1)) v); destruct (Z_lt_dec v (2 ^ (bits - 1))); [left|right..]; lia.
  - destruct (Z_le_dec 0 v); destruct (Z_lt_dec v (2 ^ bits)); [left|right..]; lia.
Qed.

Lemma detects_exact t b : type_ok t -> base_ok b ->
  (detects t b <-> exact (it_signed t) (it_bits t) b).
Proof.
  intros Ht Hb. split.
  - intros HD. unfold exact.
    destruct (Z_le_gt_dec (it_bits t) 32) as [|H64]; [left; assumption|right].
    assert (E64 : it_bits t = 64) by (unfold type_ok in Ht; lia).
    assert (G := inexact_sweep (it_signed t) b Hb). unfold inexact_bad in G.
    apply orb_true_iff in G. destruct G as [G|G]; [apply existsb_in in G; exact G|exfalso].
    destruct t as [sg bits]. cbn [it_signed it_bits] in *. subst bits.
    rewrite !andb_true_iff in G. destruct G as [[G1 G2] G3].
    remember (inexact_witness sg b) as w eqn:Ew.
    assert (Hw : Forall (is_digit b) w).
    { rewrite forallb_forall in G3. apply Forall_forall. intros x Hx. apply digitb_is_digit, G3, Hx. }
    assert (Hne : w <> []) by (intros ->; discriminate).
    assert (Hc : match w with c :: _ => c <> 48 | [] => False end).
    { destruct (tables b Hb) as (m & Hm & T1 & _). unfold inexact_witness in Ew. rewrite T1 in Ew.
      assert (Hp : 0 < b ^ (m - 1)) by (apply Z.pow_pos_nonneg; unfold base_ok in Hb; lia).
      destruct (print_ok false b (2 ^ 64 + b ^ (m - 1)) Hb ltac:(lia)) as (_ & _ & (c & p' & X1 & X2 & _)).
      rewrite <- Ew in X1. rewrite X1. intros ->. apply X2; [lia|reflexivity]. }
    specialize (HD sg w Hne Hw ltac:(auto)). cbn [it_signed it_bits] in HD.
    rewrite HD in G1; [destruct sg; discriminate| |].
    + intros L _. destruct w as [|c w]; [contradiction|]. apply no_prefix_nonzero, Hc.
    + unfold in_range, signed_value. destruct sg; pows; lia.
  - intros Hx neg ds Hne Hds Hneg HP HV.
    assert (HSS : split_sign ((if neg then [45] else []) ++ ds) = (neg, ds)).
    { destruct neg; [reflexivity|]. destruct ds as [|c ds]; [contradiction|]. cbn [app].
      apply split_sign_digit with (b := b). inversion Hds; assumption. }
    assert (HRB := read_base_plain b ds [] Hb Hne Hds). rewrite app_nil_r in HRB.
    specialize (HRB HP).
    assert (Hbytes : bytes ((if neg then [45] else []) ++ ds)).
    { apply bytes_app. split; [destruct neg; repeat constructor; unfold is_byte; lia|].
      eapply digits_bytes; eassumption. }
    rewrite (scan_int_skip t _ ((if neg then [45] else []) ++ ds)); [|assumption| |].
    2:{ destruct ds as [|c ds]; [contradiction|].
        assert (Hca : 48 <= c <= 122) by (apply digit_ascii with (b := b); inversion Hds; assumption).
        destruct neg; cbn [app]; (split; [constructor|right; eexists _, _; split; [apply next_cp_ascii; lia|]]);
          unfold is_cp_space; lia. }
    2:{ destruct neg; [discriminate|exact Hne]. }
    rewrite default_generic.
    destruct (rd_run string_src t ((if neg then [45] else []) ++ ds) b (it_signed t) Ht (or_intror Hb))
      with (ds := ds) (rest := @nil Z) as (_ & H2 & _); auto.
    + intros _. exact Hbytes.
    + rewrite HSS. cbn [snd]. intros _ _. destruct ds as [|c ds]; [contradiction|].
      inversion_clear Hds as [|? ? Hc _]. apply digit_ascii in Hc. lia.
    + rewrite HSS. exact Hneg.
    + rewrite HSS. cbn [snd]. rewrite HRB. repeat split; auto. symmetry. apply app_nil_r.
    + rewrite HSS in H2. cbn [fst snd] in H2. rewrite HRB in H2. cbn [fst] in H2.
      assert (HR := value_range b ds ltac:(unfold base_ok in Hb; lia) Hds).
      assert (NS : it_signed t = false -> neg = false).
      { intros E. destruct neg; [rewrite Hneg in E by reflexivity; discriminate|reflexivity]. }
      rewrite H2; [reflexivity| |exact Hx].
      destruct (Z_lt_le_dec (limit t neg) (value b ds)) as [|Hle]; [assumption|exfalso].
      apply HV. apply limit_fits; auto. lia.
Qed.

(** What a successful read means. *)
Lemma success_inv r t s b negok v rest : type_ok t -> b = 0 \/ base_ok b ->
  enc_ok (s_enc r) s -> no_dle r (snd (split_sign s)) -> (negok = true -> it_signed t = true) ->
  int_generic r t s b negok = Ok (v, rest) ->
  let neg := fst (split_sign s) in
  let B := fst (read_base b (snd (split_sign s))) in
  let body := snd (read_base b (snd (split_sign s))) in
  (neg = true -> negok = true) /\
  exists ds, digit_run B body ds rest
    /\ (exact (it_signed t) (it_bits t) B \/ value B ds < 2 ^ 64 ->
         v = signed_value neg (value B ds) /\ in_range (it_signed t) (it_bits t) v)
    /\ v = signed_value neg (value B ds mod 2 ^ 64)
    /\ in_range (it_signed t) (it_bits t) v.
Proof.
  intros Ht Hb He Hq Hn HR neg B body.
  assert (Hng : neg = true -> negok = true).
  { intros E. destruct negok; [reflexivity|].
    rewrite (rd_minus r t s b false Hb He Hq) in HR by auto. discriminate. }
  split; [exact Hng|].
  assert (Hne : s <> []).
  { intros ->. discriminate HR. }
  destruct (prefix_spec r s b Hne Hb He Hq) as (_ & _ & _ & _ & _ & HB & _).
  fold B in HB.
  destruct (not_digit_of B body) eqn:End.
  { assert (X : ~ starts_with_digit B body).
    { rewrite <- not_digit_of_spec by (unfold base_ok in HB; lia). congruence. }
    rewrite (rd_no_digit r t s b negok Hb He Hq Hn Hne Hng X) in HR. discriminate. }
  apply not_digit_of_spec in End; [|unfold base_ok in HB; lia].
  destruct (run_exists B body End) as (ds & rest' & Hrun).
  assert (NS : it_signed t = false -> neg = false).
  { intros E. destruct neg eqn:En; [|reflexivity]. rewrite Hn in E by auto. discriminate. }
  destruct (rd_run r t s b negok Ht Hb He Hq Hn ds rest' Hng Hrun) as (H1 & H2 & H3).
  fold B neg in H1, H2, H3.
  assert (HVr := value_range B ds ltac:(unfold base_ok in HB; lia) (proj1 (proj2 (proj2 Hrun)))).
  destruct H3 as [H3|[H3 H4]]; [rewrite H3 in HR; discriminate|].
  rewrite H4 in HR. injection HR as <- <-.
  assert (HI : in_range (it_signed t) (it_bits t) (signed_value neg (wrap64 (value B ds)))).
  { apply limit_fits; auto. apply wrap64_range. }
  exists ds. split; [exact Hrun|]. split; [|split; [reflexivity|exact HI]].
  intros Hx. destruct (Z_lt_le_dec (limit t neg) (value B ds)) as [Hgt|Hle].
  - destruct Hx as [Hx|Hx]; [rewrite H2 in H4 by assumption; discriminate|].
    rewrite wrap64_small in H3 by lia. lia.
  - destruct (limit_range t neg Ht NS) as (HL & _). rewrite wrap64_small in * by lia.
    split; [reflexivity|exact HI].
Qed.
