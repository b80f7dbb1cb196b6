(** Proofs about the Unicode model. *)
From Verif Require Import Prelude UnicodeModel UnicodeSpec.
Local Open Scope Z_scope.
Ltac Zify.zify_post_hook ::= Z.div_mod_to_equations.

Arguments Z.mul : simpl never.
Arguments Z.add : simpl never.
Arguments Z.sub : simpl never.
Arguments Z.div : simpl never.
Arguments Z.modulo : simpl never.
Arguments Z.land : simpl never.
Arguments Z.lor : simpl never.
Arguments Z.shiftl : simpl never.
Arguments Z.shiftr : simpl never.

(** * Byte classes *)

Definition utf8_len_class (a : Z) : nat :=
  if a <? 0x80 then 1%nat else if a <? 0xC0 then O
  else if a <? 0xE0 then 2%nat else if a <? 0xF0 then 3%nat
  else if a <? 0xF8 then 4%nat else O.

Lemma utf8_cp_len_class a : is_byte a -> utf8_cp_len a = utf8_len_class a.
Proof.
  intros H; apply Nat.eqb_eq.
  revert a H; apply sweep_byte; vm_compute; reflexivity.
Qed.

Definition tail_byte (b : Z) : bool := (0x80 <=? b) && (b <? 0xC0).

Lemma is_trailing_spec b : is_byte b -> is_trailing b = tail_byte b.
Proof.
  intros H; apply eqb_prop.
  revert b H; apply sweep_byte; vm_compute; reflexivity.
Qed.

Lemma mask2_spec a : is_byte a ->
  (Z.land a 0xe0 =? 0xc0) = (0xC0 <=? a) && (a <? 0xE0).
Proof.
  intros H; apply eqb_prop; revert a H; apply sweep_byte; vm_compute; reflexivity.
Qed.
Lemma mask3_spec a : is_byte a ->
  (Z.land a 0xf0 =? 0xe0) = (0xE0 <=? a) && (a <? 0xF0).
Proof.
  intros H; apply eqb_prop; revert a H; apply sweep_byte; vm_compute; reflexivity.
Qed.
Lemma mask4_spec a : is_byte a ->
  (Z.land a 0xf8 =? 0xf0) = (0xF0 <=? a) && (a <? 0xF8).
Proof.
  intros H; apply eqb_prop; revert a H; apply sweep_byte; vm_compute; reflexivity.
Qed.

Lemma land_ones_mod a n : 0 <= n -> Z.land a (2 ^ n - 1) = a mod 2 ^ n.
Proof.
  intros Hn. rewrite <- (Z.land_ones a n Hn). f_equal.
  rewrite Z.ones_equiv; lia.
Qed.

(** or-ing a value below 2^n into a multiple of 2^n is an addition *)
Lemma lor_disjoint_add hi lo n :
  0 <= n -> 0 <= lo < 2 ^ n -> Z.lor (Z.shiftl hi n) lo = hi * 2 ^ n + lo.
Proof.
  intros Hn Hlo.
  assert (Hz : Z.land (Z.shiftl hi n) lo = 0).
  { apply Z.bits_inj'; intros k Hk.
    rewrite Z.land_spec, Z.bits_0.
    destruct (Z_lt_le_dec k n) as [Hkn|Hkn].
    - rewrite Z.shiftl_spec_low by lia; reflexivity.
    - destruct (Z.eq_dec lo 0) as [->|Hne]; [rewrite Z.bits_0; apply andb_false_r|].
      assert (Z.testbit lo k = false) as ->; [|apply andb_false_r].
      apply Z.bits_above_log2; [lia|].
      assert (Z.log2 lo < n) by (apply Z.log2_lt_pow2; lia); lia. }
  rewrite <- Z.lxor_lor, <- Z.add_nocarry_lxor by exact Hz.
  rewrite Z.shiftl_mul_pow2 by lia; lia.
Qed.

(** * Arithmetic form of the decoders *)

Definition val2 (a b : Z) : Z := (a - 0xC0) * 64 + (b - 0x80).
Definition val3 (a b c : Z) : Z := (a - 0xE0) * 4096 + (b - 0x80) * 64 + (c - 0x80).
Definition val4 (a b c d : Z) : Z :=
  (a - 0xF0) * 262144 + (b - 0x80) * 4096 + (c - 0x80) * 64 + (d - 0x80).

Lemma land_3f b : is_byte b -> tail_byte b = true -> Z.land b 0x3f = b - 0x80.
Proof.
  intros Hb Ht.
  change 0x3f with (2 ^ 6 - 1); rewrite land_ones_mod by lia.
  change (2 ^ 6) with 64; unfold tail_byte, is_byte in *; lia.
Qed.

Lemma or2_spec a b :
  is_byte a -> is_byte b -> 0xC0 <= a < 0xE0 -> tail_byte b = true ->
  Z.lor (Z.shiftl (Z.land a 0x1f) 6) (Z.land b 0x3f) = val2 a b.
Proof.
  intros Ha Hb Ha' Hb'. rewrite (land_3f b) by assumption.
  change 0x1f with (2 ^ 5 - 1); rewrite land_ones_mod by lia.
  rewrite lor_disjoint_add by (unfold tail_byte, is_byte in *; lia).
  change (2 ^ 5) with 32; change (2 ^ 6) with 64; unfold val2; lia.
Qed.

Lemma or3_spec a b c :
  is_byte a -> is_byte b -> is_byte c -> 0xE0 <= a < 0xF0 ->
  tail_byte b = true -> tail_byte c = true ->
  Z.lor (Z.lor (Z.shiftl (Z.land a 0x0f) 12) (Z.shiftl (Z.land b 0x3f) 6))
        (Z.land c 0x3f) = val3 a b c.
Proof.
  intros Ha Hb Hc Ha' Hb' Hc'.
  rewrite (land_3f b), (land_3f c) by assumption.
  change 0x0f with (2 ^ 4 - 1); rewrite land_ones_mod by lia.
  change 12 with (6 + 6); rewrite <- Z.shiftl_shiftl by lia.
  rewrite <- Z.shiftl_lor.
  rewrite lor_disjoint_add by (unfold tail_byte, is_byte in *; lia).
  rewrite lor_disjoint_add by (unfold tail_byte, is_byte in *; lia).
  change (2 ^ 4) with 16; change (2 ^ 6) with 64; unfold val3; lia.
Qed.

Lemma or4_spec a b c d :
  is_byte a -> is_byte b -> is_byte c -> is_byte d -> 0xF0 <= a < 0xF8 ->
  tail_byte b = true -> tail_byte c = true -> tail_byte d = true ->
  Z.lor (Z.lor (Z.lor (Z.shiftl (Z.land a 0x07) 18) (Z.shiftl (Z.land b 0x3f) 12))
               (Z.shiftl (Z.land c 0x3f) 6))
        (Z.land d 0x3f) = val4 a b c d.
Proof.
  intros Ha Hb Hc Hd Ha' Hb' Hc' Hd'.
  rewrite (land_3f b), (land_3f c), (land_3f d) by assumption.
  change 0x07 with (2 ^ 3 - 1); rewrite land_ones_mod by lia.
  change 18 with (6 + (6 + 6)) at 1; change 12 with (6 + 6).
  rewrite <- !Z.shiftl_shiftl by lia.
  rewrite <- !Z.shiftl_lor.
  rewrite !lor_disjoint_add by (unfold tail_byte, is_byte in *; lia).
  change (2 ^ 3) with 8; change (2 ^ 6) with 64; unfold val4; lia.
Qed.

Lemma decode_utf8_1 a : is_byte a ->
  decode_utf8 [a] = Ok (if a <? 0x80 then a else invalid_code_point).
Proof.
  intros Ha; cbn [decode_utf8].
  destruct (a <? 0x80) eqn:E; destruct (0x80 <=? a) eqn:E'; try lia; reflexivity.
Qed.

Lemma decode_utf8_2 a b : is_byte a -> is_byte b ->
  decode_utf8 [a; b] =
  Ok (if (0xC0 <=? a) && (a <? 0xE0) && tail_byte b then val2 a b
      else invalid_code_point).
Proof.
  intros Ha Hb; cbn [decode_utf8].
  rewrite mask2_spec, is_trailing_spec by assumption.
  destruct ((0xC0 <=? a) && (a <? 0xE0)) eqn:E; cbn [negb andb]; [|reflexivity].
  destruct (tail_byte b) eqn:Eb; cbn [negb]; [|reflexivity].
  rewrite or2_spec by (try assumption; lia). reflexivity.
Qed.

Lemma decode_utf8_3 a b c : is_byte a -> is_byte b -> is_byte c ->
  decode_utf8 [a; b; c] =
  Ok (if (0xE0 <=? a) && (a <? 0xF0) && tail_byte b && tail_byte c then val3 a b c
      else invalid_code_point).
Proof.
  intros Ha Hb Hc; cbn [decode_utf8].
  rewrite mask3_spec, !is_trailing_spec by assumption.
  destruct ((0xE0 <=? a) && (a <? 0xF0)) eqn:E; cbn [negb andb]; [|reflexivity].
  destruct (tail_byte b) eqn:Eb; cbn [negb orb andb]; [|reflexivity].
  destruct (tail_byte c) eqn:Ec; cbn [negb]; [|reflexivity].
  rewrite or3_spec by (try assumption; lia). reflexivity.
Qed.

Lemma decode_utf8_4 a b c d : is_byte a -> is_byte b -> is_byte c -> is_byte d ->
  decode_utf8 [a; b; c; d] =
  Ok (if (0xF0 <=? a) && (a <=? 0xF4) && tail_byte b && tail_byte c && tail_byte d
      then val4 a b c d else invalid_code_point).
Proof.
  intros Ha Hb Hc Hd; cbn [decode_utf8].
  rewrite mask4_spec, !is_trailing_spec by assumption.
  destruct (tail_byte b) eqn:Eb; cbn [negb orb andb];
  destruct (tail_byte c) eqn:Ec; cbn [negb orb andb];
  destruct (tail_byte d) eqn:Ed; cbn [negb orb andb];
  rewrite ?andb_true_r, ?andb_false_r;
  destruct ((0xF0 <=? a) && (a <? 0xF8)) eqn:E; cbn [negb];
  destruct (0xf4 <? a) eqn:E4;
  destruct ((0xF0 <=? a) && (a <=? 0xF4)) eqn:E5; try lia; try reflexivity.
  rewrite or4_spec by (try assumption; lia). reflexivity.
Qed.

Lemma decode_utf8_valid_agrees l cp :
  bytes l -> decode_utf8 l = Ok cp -> cp < invalid_code_point ->
  decode_utf8_valid l = Ok cp.
Proof.
  intros Hb. unfold decode_utf8, decode_utf8_valid.
  destruct l as [|a [|b [|c [|d [|? ?]]]]]; try discriminate.
  - destruct (0x80 <=? a) eqn:E; intros H Hlt; inversion H; subst; [lia|].
    destruct (cp <? 0x80) eqn:E2; [reflexivity|lia].
  - destruct (Z.land a 0xe0 =? 0xc0), (is_trailing b); cbn [negb andb];
      intros H Hlt; inversion H; subst; try lia; reflexivity.
  - destruct (Z.land a 0xf0 =? 0xe0), (is_trailing b), (is_trailing c); cbn [negb andb orb];
      intros H Hlt; inversion H; subst; try lia; reflexivity.
  - destruct (Z.land a 0xf8 =? 0xf0), (0xf4 <? a) eqn:E4, (is_trailing b), (is_trailing c), (is_trailing d);
      cbn [negb andb orb]; intros H Hlt; inversion H; subst; try lia;
      (destruct (a <=? 0xf4) eqn:E5; [reflexivity|lia]).
Qed.

(** * Decoding well-formed text *)

Lemma utf8_of_bytes cp : scalar cp -> bytes (utf8_of cp).
Proof.
  intros H; unfold utf8_of, bytes, is_byte, scalar in *.
  destruct (cp <? 0x80) eqn:E1; [repeat constructor; lia|].
  destruct (cp <? 0x800) eqn:E2; [repeat constructor; lia|].
  destruct (cp <? 0x10000) eqn:E3; repeat constructor; lia.
Qed.

Lemma utf8_bytes cps : Forall scalar cps -> bytes (utf8 cps).
Proof.
  induction 1 as [|cp cps H Hs IH]; cbn; [constructor|].
  apply bytes_app; split; [apply utf8_of_bytes, H | exact IH].
Qed.

Lemma utf8_of_nonempty cp : utf8_of cp <> [].
Proof.
  unfold utf8_of.
  destruct (cp <? 0x80), (cp <? 0x800), (cp <? 0x10000); discriminate.
Qed.

Lemma utf8_of_lead cp : scalar cp ->
  exists a rest, utf8_of cp = a :: rest /\ is_byte a /\
                 utf8_cp_len a = length (utf8_of cp).
Proof.
  intros H; unfold utf8_of.
  assert (Hs := H); unfold scalar in Hs.
  destruct (cp <? 0x80) eqn:E1; [|destruct (cp <? 0x800) eqn:E2;
    [|destruct (cp <? 0x10000) eqn:E3]];
    eexists; eexists; (split; [reflexivity|]);
    (split; [unfold is_byte; lia|]);
    (rewrite utf8_cp_len_class by (unfold is_byte; lia)); cbn [length];
    unfold utf8_len_class;
    repeat match goal with |- context [if ?b then _ else _] => destruct b eqn:? end;
    try reflexivity; exfalso; lia.
Qed.

Lemma decode_utf8_of cp : scalar cp -> decode_utf8 (utf8_of cp) = Ok cp.
Proof.
  intros H; assert (Hb := utf8_of_bytes cp H).
  assert (Hs := H); unfold scalar in Hs; revert Hb; unfold utf8_of.
  destruct (cp <? 0x80) eqn:E1.
  { intros Hb; rewrite decode_utf8_1 by (inversion Hb; assumption).
    rewrite E1; reflexivity. }
  destruct (cp <? 0x800) eqn:E2.
  { intros Hb. inversion_clear Hb as [|? ? Ha Hb1]; inversion_clear Hb1 as [|? ? Hb2 _].
    rewrite decode_utf8_2 by assumption; unfold tail_byte, val2.
    match goal with |- context [if ?b then _ else _] => destruct b eqn:E end;
      [f_equal; lia | exfalso; lia]. }
  destruct (cp <? 0x10000) eqn:E3.
  { intros Hb. inversion_clear Hb as [|? ? Ha Hb1]; inversion_clear Hb1 as [|? ? Hb2 Hb3].
    inversion_clear Hb3 as [|? ? Hc _].
    rewrite decode_utf8_3 by assumption; unfold tail_byte, val3.
    match goal with |- context [if ?b then _ else _] => destruct b eqn:E end;
      [f_equal; lia | exfalso; lia]. }
  intros Hb. inversion_clear Hb as [|? ? Ha Hb1]; inversion_clear Hb1 as [|? ? Hb2 Hb3].
  inversion_clear Hb3 as [|? ? Hc Hd1]; inversion_clear Hd1 as [|? ? Hd _].
  rewrite decode_utf8_4 by assumption; unfold tail_byte, val4.
  match goal with |- context [if ?b then _ else _] => destruct b eqn:E end;
    [f_equal; lia | exfalso; lia].
Qed.

Lemma utf8_of_len_pos cp : scalar cp -> exists n, length (utf8_of cp) = S n.
Proof.
  intros H; destruct (utf8_of cp) eqn:E; [exfalso; eapply utf8_of_nonempty; eauto|].
  eexists; reflexivity.
Qed.

Lemma next_cp_utf8_of cp rest : scalar cp ->
  get_next_code_point U8 (utf8_of cp ++ rest) = Ok (cp, rest).
Proof.
  intros H; destruct (utf8_of_lead cp H) as (a & tl & Heq & Ha & Hlen).
  destruct (utf8_of_len_pos cp H) as [n Hn].
  unfold get_next_code_point.
  destruct (utf8_of cp ++ rest) as [|x xs] eqn:Eapp;
    [rewrite Heq in Eapp; discriminate|].
  assert (x = a) by (rewrite Heq in Eapp; inversion Eapp; reflexivity); subst x.
  cbn [cp_len]. rewrite Hlen, Hn. rewrite <- Eapp.
  destruct (Nat.ltb_spec (length (utf8_of cp ++ rest)) (S n)) as [Hlt|Hge];
    [rewrite app_length in Hlt; lia|].
  rewrite <- Hn, firstn_len_app, skipn_len_app.
  cbn [decode_cp]; rewrite decode_utf8_of by exact H; reflexivity.
Qed.

Lemma next_cp_valid_utf8_of cp rest : scalar cp ->
  get_next_code_point_valid U8 (utf8_of cp ++ rest) = Ok (cp, rest).
Proof.
  intros H; destruct (utf8_of_lead cp H) as (a & tl & Heq & Ha & Hlen).
  destruct (utf8_of_len_pos cp H) as [n Hn].
  unfold get_next_code_point_valid.
  destruct (utf8_of cp ++ rest) as [|x xs] eqn:Eapp;
    [rewrite Heq in Eapp; discriminate|].
  assert (x = a) by (rewrite Heq in Eapp; inversion Eapp; reflexivity); subst x.
  cbn [cp_len]. rewrite Hlen, Hn. rewrite <- Eapp.
  destruct (Nat.ltb_spec (length (utf8_of cp ++ rest)) (S n)) as [Hlt|Hge];
    [rewrite app_length in Hlt; lia|].
  rewrite <- Hn, firstn_len_app, skipn_len_app.
  cbn [decode_cp_valid]. rewrite (decode_utf8_valid_agrees _ cp).
  - reflexivity.
  - apply utf8_of_bytes, H.
  - apply decode_utf8_of, H.
  - unfold scalar, invalid_code_point in *; lia.
Qed.

Lemma utf8_of_length_pos cp : scalar cp -> (1 <= length (utf8_of cp))%nat.
Proof. intros H; destruct (utf8_of_len_pos cp H) as [n ->]; lia. Qed.

Lemma utf8_length_ge cps : Forall scalar cps -> (length cps <= length (utf8 cps))%nat.
Proof.
  induction 1 as [|cp cps H Hs IH]; cbn; [lia|].
  rewrite app_length. pose proof (utf8_of_length_pos cp H). fold (utf8 cps). lia.
Qed.

Lemma for_each_loop_utf8 cps : Forall scalar cps ->
  forall fuel, (length cps <= fuel)%nat ->
  for_each_code_point_loop fuel U8 (utf8 cps) = Ok cps.
Proof.
  induction 1 as [|cp cps H Hs IH]; intros fuel Hf.
  - destruct fuel; reflexivity.
  - cbn [length] in Hf. destruct fuel as [|fuel]; [lia|].
    cbn [utf8 flat_map]. fold (utf8 cps).
    destruct (utf8_of cp ++ utf8 cps) as [|x xs] eqn:E.
    + exfalso; apply app_eq_nil in E; destruct E as [E _].
      revert E; apply utf8_of_nonempty.
    + cbn [for_each_code_point_loop]; rewrite <- E, next_cp_utf8_of by exact H.
      cbn [bind]. rewrite IH by lia; reflexivity.
Qed.

Lemma for_each_utf8 cps : Forall scalar cps ->
  for_each_code_point U8 (utf8 cps) = Ok cps.
Proof.
  intros H; apply for_each_loop_utf8; [exact H | apply utf8_length_ge, H].
Qed.

Lemma for_each_valid_loop_utf8 cps : Forall scalar cps ->
  forall fuel, (length cps <= fuel)%nat ->
  for_each_code_point_valid_loop fuel U8 (utf8 cps) = Ok cps.
Proof.
  induction 1 as [|cp cps H Hs IH]; intros fuel Hf.
  - destruct fuel; reflexivity.
  - cbn [length] in Hf. destruct fuel as [|fuel]; [lia|].
    cbn [utf8 flat_map]. fold (utf8 cps).
    destruct (utf8_of cp ++ utf8 cps) as [|x xs] eqn:E.
    + exfalso; apply app_eq_nil in E; destruct E as [E _].
      revert E; apply utf8_of_nonempty.
    + cbn [for_each_code_point_valid_loop]; rewrite <- E, next_cp_valid_utf8_of by exact H.
      cbn [bind]. rewrite IH by lia; reflexivity.
Qed.

Lemma for_each_valid_utf8 cps : Forall scalar cps ->
  for_each_code_point_valid U8 (utf8 cps) = Ok cps.
Proof.
  intros H; apply for_each_valid_loop_utf8; [exact H | apply utf8_length_ge, H].
Qed.

(** * Progress on arbitrary input *)

Lemma get_start_suffix e s :
  exists pre, s = pre ++ get_start_for_next_code_point e s /\
              Forall (fun c => cp_len e c = O) pre.
Proof.
  induction s as [|c s [pre [IH1 IH2]]]; cbn [get_start_for_next_code_point].
  - exists []; split; [reflexivity|constructor].
  - destruct (cp_len e c) eqn:E.
    + exists (c :: pre); split; [cbn; f_equal; exact IH1 | constructor; assumption].
    + exists []; split; [reflexivity|constructor].
Qed.

Lemma utf8_cp_len_le4 c : (utf8_cp_len c <= 4)%nat.
Proof.
  unfold utf8_cp_len.
  destruct (le_lt_dec 32 (Z.to_nat (Z.shiftr c 3))) as [H|H].
  - rewrite nth_overflow by (cbn; lia); lia.
  - remember (Z.to_nat (Z.shiftr c 3)) as n; clear Heqn.
    do 32 (destruct n as [|n]; [cbn; lia|]); lia.
Qed.

Lemma decode_utf8_total l :
  (1 <= length l <= 4)%nat -> exists cp, decode_utf8 l = Ok cp.
Proof.
  intros H; destruct l as [|a [|b [|c [|d [|? ?]]]]]; cbn [length] in H; try lia;
    cbn [decode_utf8];
    repeat match goal with |- context [if ?b then _ else _] => destruct b end;
    eexists; reflexivity.
Qed.

Lemma utf16_cp_len_le2 c : (utf16_cp_len c <= 2)%nat.
Proof.
  unfold utf16_cp_len.
  repeat match goal with |- context [if ?b then _ else _] => destruct b end; lia.
Qed.

Lemma decode_cp_total e c rest :
  let len := cp_len e c in
  len <> O -> (len <= length (c :: rest))%nat ->
  exists cp, decode_cp e (firstn len (c :: rest)) = Ok cp.
Proof.
  intros len Hne Hle.
  assert (Hl : length (firstn len (c :: rest)) = len)
    by (apply firstn_length_le; exact Hle).
  destruct e; unfold len in *; cbn [cp_len decode_cp] in *.
  - apply decode_utf8_total; pose proof (utf8_cp_len_le4 c); lia.
  - pose proof (utf16_cp_len_le2 c).
    destruct (firstn (utf16_cp_len c) (c :: rest)) as [|a [|b [|? ?]]];
      cbn [length] in Hl; try lia; cbn [decode_utf16];
      repeat match goal with |- context [if ?b then _ else _] => destruct b end;
      eexists; reflexivity.
  - cbn [firstn]. destruct (invalid_code_point <=? c); eexists; reflexivity.
Qed.

(** Stepping over one code point: never undefined on non-empty input, consumes a
    non-empty prefix. *)
Lemma next_cp_progress e s : s <> [] ->
  exists cp pre rest,
    get_next_code_point e s = Ok (cp, rest) /\ pre <> [] /\ s = pre ++ rest.
Proof.
  destruct s as [|c s]; [congruence|]; intros _.
  unfold get_next_code_point.
  destruct (cp_len e c) as [|n] eqn:El.
  - destruct (get_start_suffix e (c :: s)) as (pre & Hpre & Hall).
    exists invalid_code_point, pre, (get_start_for_next_code_point e (c :: s)).
    split; [reflexivity|]. split; [|exact Hpre].
    intros ->. cbn [get_start_for_next_code_point] in Hpre.
    rewrite El in Hpre. cbn [app] in Hpre.
    destruct (get_start_suffix e s) as (pre' & Hpre' & _).
    apply (f_equal (@length Z)) in Hpre; apply (f_equal (@length Z)) in Hpre'.
    cbn [length] in Hpre. rewrite app_length in Hpre'. lia.
  - rewrite <- El.
    destruct (Nat.ltb_spec (length (c :: s)) (cp_len e c)) as [Hlt|Hge].
    + exists invalid_code_point, (c :: s), []; split; [reflexivity|].
      split; [discriminate | rewrite app_nil_r; reflexivity].
    + destruct (decode_cp_total e c s) as [cp Hcp]; [congruence|exact Hge|].
      rewrite Hcp; cbn [bind].
      exists cp, (firstn (cp_len e c) (c :: s)), (skipn (cp_len e c) (c :: s)).
      split; [reflexivity|]. split.
      * rewrite El; cbn; discriminate.
      * rewrite firstn_skipn; reflexivity.
Qed.

(** One run of stepping code point by code point: the pieces consumed, each with
    the value reported for it. *)
Inductive stepped (e : enc) : list Z -> list (list Z * Z) -> Prop :=
| stepped_done : stepped e [] []
| stepped_one p cp rest l :
    p <> [] -> get_next_code_point e (p ++ rest) = Ok (cp, rest) ->
    stepped e rest l -> stepped e (p ++ rest) ((p, cp) :: l).

Lemma stepped_concat e s l : stepped e s l -> concat (map fst l) = s.
Proof. induction 1; cbn; [reflexivity|]. f_equal; assumption. Qed.

Lemma iteration_partition e : forall fuel s, (length s <= fuel)%nat ->
  exists l, stepped e s l /\ for_each_code_point_loop fuel e s = Ok (map snd l).
Proof.
  induction fuel as [|fuel IH]; intros s Hs.
  - destruct s; cbn [length] in Hs; [|lia].
    exists []; split; [constructor|reflexivity].
  - destruct s as [|c s].
    + exists []; split; [constructor|reflexivity].
    + destruct (next_cp_progress e (c :: s)) as (cp & pre & rest & Hn & Hp & Heq);
        [discriminate|].
      cbn [for_each_code_point_loop]. rewrite Hn; cbn [bind].
      assert (Hl : (length rest <= fuel)%nat).
      { apply (f_equal (@length Z)) in Heq. rewrite app_length in Heq.
        destruct pre; [congruence|]. cbn [length] in *; lia. }
      destruct (IH rest Hl) as (l & H1 & H2).
      rewrite H2; cbn [bind].
      exists ((pre, cp) :: l); split; [|reflexivity].
      rewrite Heq. constructor; [exact Hp | rewrite <- Heq; exact Hn | exact H1].
Qed.

Lemma for_each_partition e s :
  exists l, stepped e s l /\ concat (map fst l) = s /\ for_each_code_point e s = Ok (map snd l).
Proof.
  destruct (iteration_partition e (length s) s (le_n _)) as (l & H1 & H2).
  exists l; split; [exact H1|]. split; [exact (stepped_concat _ _ _ H1) | exact H2].
Qed.

(** * Validation *)

(** What validate_unicode actually accepts as one UTF-8 sequence. *)
Definition lenient_seq (u : list Z) : Prop :=
  match u with
  | [a] => 0 <= a < 0x80
  | [a; b] => 0xC0 <= a < 0xE0 /\ 0x80 <= b < 0xC0
  | [a; b; c] => 0xE0 <= a < 0xF0 /\ 0x80 <= b < 0xC0 /\ 0x80 <= c < 0xC0
  | [a; b; c; d] =>
      0xF0 <= a <= 0xF4 /\ 0x80 <= b < 0xC0 /\ 0x80 <= c < 0xC0 /\ 0x80 <= d < 0xC0
      /\ val4 a b c d < 0x110000
  | _ => False
  end.

Lemma lenient_seq_bytes u : lenient_seq u -> bytes u.
Proof.
  destruct u as [|a [|b [|c [|d [|? ?]]]]]; cbn; intros H; try contradiction;
    repeat constructor; unfold is_byte; lia.
Qed.

Lemma lenient_decode u : bytes u -> (1 <= length u <= 4)%nat ->
  forall a tl, u = a :: tl -> utf8_cp_len a = length u ->
  exists cp, decode_utf8 u = Ok cp /\
             (cp < invalid_code_point <-> lenient_seq u).
Proof.
  intros Hb Hl a0 tl Hu Hlen. subst u.
  assert (Ha : is_byte a0) by (inversion Hb; assumption).
  rewrite utf8_cp_len_class in Hlen by exact Ha.
  unfold utf8_len_class in Hlen.
  destruct tl as [|b [|c [|d [|? ?]]]]; cbn [length] in *; try lia.
  - rewrite decode_utf8_1 by exact Ha. eexists; split; [reflexivity|].
    cbn [lenient_seq]; unfold invalid_code_point, is_byte in *.
    destruct (a0 <? 0x80) eqn:E; lia.
  - inversion_clear Hb as [|? ? _ Hb1]; inversion_clear Hb1 as [|? ? Hb2 _].
    rewrite decode_utf8_2 by assumption. eexists; split; [reflexivity|].
    cbn [lenient_seq]; unfold tail_byte, val2, invalid_code_point, is_byte in *.
    match goal with |- context [if ?b then _ else _] => destruct b eqn:E end; lia.
  - inversion_clear Hb as [|? ? _ Hb1]; inversion_clear Hb1 as [|? ? Hb2 Hb3].
    inversion_clear Hb3 as [|? ? Hc _].
    rewrite decode_utf8_3 by assumption. eexists; split; [reflexivity|].
    cbn [lenient_seq]; unfold tail_byte, val3, invalid_code_point, is_byte in *.
    match goal with |- context [if ?b then _ else _] => destruct b eqn:E end; lia.
  - inversion_clear Hb as [|? ? _ Hb1]; inversion_clear Hb1 as [|? ? Hb2 Hb3].
    inversion_clear Hb3 as [|? ? Hc Hd1]; inversion_clear Hd1 as [|? ? Hd _].
    rewrite decode_utf8_4 by assumption. eexists; split; [reflexivity|].
    cbn [lenient_seq]; unfold tail_byte, invalid_code_point, is_byte in *.
    match goal with |- context [if ?b then _ else _] => destruct b eqn:E end.
    + assert (val4 a0 b c d < 0x110000 <-> val4 a0 b c d < 0x110000) by tauto. lia.
    + lia.
Qed.

Lemma lenient_seq_len u a tl : lenient_seq u -> u = a :: tl ->
  utf8_cp_len a = length u.
Proof.
  intros H ->.
  assert (Ha : is_byte a) by (apply lenient_seq_bytes in H; inversion H; assumption).
  rewrite utf8_cp_len_class by exact Ha; unfold utf8_len_class.
  destruct tl as [|b [|c [|d [|? ?]]]]; cbn [lenient_seq length] in *; try contradiction;
    repeat match goal with |- context [if ?b then _ else _] => destruct b eqn:? end;
    try reflexivity; exfalso; lia.
Qed.

Lemma lenient_seq_nonempty u : lenient_seq u -> u <> [].
Proof. intros H ->; exact H. Qed.

Lemma lenient_seq_length u : lenient_seq u -> (1 <= length u <= 4)%nat.
Proof.
  destruct u as [|a [|b [|c [|d [|? ?]]]]]; cbn; intros H; try contradiction; lia.
Qed.

Lemma validate_loop_complete us : Forall lenient_seq us ->
  forall fuel, (length us <= fuel)%nat ->
  validate_unicode_loop fuel U8 (concat us) = Ok true.
Proof.
  induction 1 as [|u us H Hus IH]; intros fuel Hf.
  - destruct fuel; reflexivity.
  - cbn [length] in Hf; destruct fuel as [|fuel]; [lia|].
    cbn [concat].
    destruct u as [|a tl]; [destruct H|].
    assert (Hlen := lenient_seq_len _ a tl H eq_refl).
    assert (Hl4 := lenient_seq_length _ H).
    destruct (lenient_decode _ (lenient_seq_bytes _ H) Hl4 a tl eq_refl Hlen)
      as (cp & Hcp & Hiff).
    change ((a :: tl) ++ concat us) with (a :: (tl ++ concat us)).
    cbn [validate_unicode_loop cp_len]. rewrite Hlen.
    change (a :: (tl ++ concat us)) with ((a :: tl) ++ concat us).
    destruct (Nat.ltb_spec (length ((a :: tl) ++ concat us)) (length (a :: tl))) as [Hlt|_];
      [rewrite app_length in Hlt; lia|].
    cbn [length].
    change (S (length tl)) with (length (a :: tl)).
    rewrite firstn_len_app, skipn_len_app.
    cbn [decode_cp]; rewrite Hcp; cbn [bind].
    destruct (invalid_code_point <=? cp) eqn:E; [exfalso; apply Hiff in H; lia|].
    apply IH; lia.
Qed.

Lemma validate_loop_sound : forall fuel s, bytes s ->
  validate_unicode_loop fuel U8 s = Ok true ->
  exists us, Forall lenient_seq us /\ s = concat us.
Proof.
  induction fuel as [|fuel IH]; intros s Hb.
  - destruct s; cbn; [|discriminate]. intros _; exists []; split; [constructor|reflexivity].
  - destruct s as [|a s]; cbn [validate_unicode_loop].
    { intros _; exists []; split; [constructor|reflexivity]. }
    cbn [cp_len].
    destruct (utf8_cp_len a) as [|n] eqn:El; [discriminate|].
    destruct (Nat.ltb_spec (length (a :: s)) (S n)) as [_|Hge]; [discriminate|].
    set (u := firstn (S n) (a :: s)).
    assert (Hu : bytes u) by (apply bytes_firstn; exact Hb).
    assert (Hul : length u = S n) by (apply firstn_length_le; exact Hge).
    assert (Hu4 : (1 <= length u <= 4)%nat) by (pose proof (utf8_cp_len_le4 a); lia).
    destruct (lenient_decode u Hu Hu4 a (firstn n s)) as (cp & Hcp & Hiff);
      [reflexivity | rewrite El, Hul; reflexivity |].
    cbn [decode_cp]; rewrite Hcp; cbn [bind].
    destruct (invalid_code_point <=? cp) eqn:E; [discriminate|].
    intros Hrec. destruct (IH _ (bytes_skipn (S n) _ Hb) Hrec) as (us & Hus & Heq).
    exists (u :: us); split.
    + constructor; [apply Hiff; lia | exact Hus].
    + cbn [concat]; rewrite <- Heq. unfold u; rewrite firstn_skipn; reflexivity.
Qed.

Lemma concat_length_ge (us : list (list Z)) :
  Forall (fun u => u <> []) us -> (length us <= length (concat us))%nat.
Proof.
  induction 1 as [|u us H _ IH]; cbn; [lia|].
  rewrite app_length; destruct u; [congruence|]; cbn; lia.
Qed.

Lemma validate_unicode_exact s : bytes s ->
  validate_unicode U8 s = Ok true <->
  exists us, Forall lenient_seq us /\ s = concat us.
Proof.
  intros Hb; split.
  - apply validate_loop_sound, Hb.
  - intros (us & Hus & ->). apply validate_loop_complete; [exact Hus|].
    apply concat_length_ge.
    eapply Forall_impl; [|exact Hus]. apply lenient_seq_nonempty.
Qed.

Lemma validate_loop_total e : forall fuel s, (length s <= fuel)%nat ->
  exists b, validate_unicode_loop fuel e s = Ok b.
Proof.
  induction fuel as [|fuel IH]; intros s Hl.
  - destruct s; cbn [length] in Hl; [|lia]. eexists; reflexivity.
  - destruct s as [|c s]; cbn [validate_unicode_loop]; [eexists; reflexivity|].
    destruct (cp_len e c) as [|n] eqn:E; [eexists; reflexivity|].
    destruct (Nat.ltb_spec (length (c :: s)) (S n)) as [_|Hge]; [eexists; reflexivity|].
    destruct (decode_cp_total e c s) as [cp Hcp];
      [congruence | rewrite E; exact Hge |].
    rewrite E in Hcp. rewrite Hcp; cbn [bind].
    destruct (invalid_code_point <=? cp); [eexists; reflexivity|].
    apply IH. rewrite skipn_length. cbn [length] in *; lia.
Qed.

Lemma lenient_utf8_of cp : scalar cp -> lenient_seq (utf8_of cp).
Proof.
  intros H; unfold scalar in H; unfold utf8_of.
  destruct (cp <? 0x80) eqn:E1; cbn [lenient_seq]; [lia|].
  destruct (cp <? 0x800) eqn:E2; cbn [lenient_seq]; [lia|].
  destruct (cp <? 0x10000) eqn:E3; cbn [lenient_seq]; unfold val4; lia.
Qed.

Lemma utf8_concat cps : utf8 cps = concat (map utf8_of cps).
Proof. unfold utf8; apply flat_map_concat_map. Qed.

Lemma validate_well_formed s : well_formed_utf8 s -> validate_unicode U8 s = Ok true.
Proof.
  intros (cps & H & ->). apply validate_unicode_exact; [apply utf8_bytes, H|].
  exists (map utf8_of cps); split; [|apply utf8_concat].
  apply Forall_map. eapply Forall_impl; [|exact H]. apply lenient_utf8_of.
Qed.

(** A sequence accepted by the validator that is neither overlong nor a surrogate
    encodes a scalar value. *)
Definition strict_seq (u : list Z) : Prop := exists cp, scalar cp /\ u = utf8_of cp.

Definition overlong_or_surrogate (u : list Z) : Prop :=
  match u with
  | [a; b] => a < 0xC2
  | [a; b; c] => (a = 0xE0 /\ b < 0xA0) \/ (a = 0xED /\ 0xA0 <= b)
  | [a; b; c; d] => a = 0xF0 /\ b < 0x90
  | _ => False
  end.

Lemma lenient_strict u :
  lenient_seq u -> (strict_seq u <-> ~ overlong_or_surrogate u).
Proof.
  intros H; split.
  - intros (cp & Hs & ->). unfold scalar in Hs. unfold utf8_of.
    destruct (cp <? 0x80) eqn:E1; cbn [overlong_or_surrogate]; [tauto|].
    destruct (cp <? 0x800) eqn:E2; cbn [overlong_or_surrogate]; [lia|].
    destruct (cp <? 0x10000) eqn:E3; cbn [overlong_or_surrogate]; lia.
  - destruct u as [|a [|b [|c [|d [|? ?]]]]]; cbn [lenient_seq] in H; try contradiction;
      cbn [overlong_or_surrogate]; intros Hn.
    + exists a; unfold scalar, utf8_of. split; [lia|].
      destruct (a <? 0x80) eqn:E; [reflexivity|lia].
    + exists (val2 a b); unfold val2, scalar, utf8_of. split; [lia|].
      destruct (_ <? 0x80) eqn:E; [lia|]. destruct (_ <? 0x800) eqn:E2; [|lia].
      f_equal; [lia|f_equal; lia].
    + exists (val3 a b c); unfold val3, scalar, utf8_of. split; [lia|].
      destruct (_ <? 0x80) eqn:E; [lia|]. destruct (_ <? 0x800) eqn:E2; [lia|].
      destruct (_ <? 0x10000) eqn:E3; [|lia].
      f_equal; [lia|f_equal; [lia|f_equal; lia]].
    + exists (val4 a b c d); unfold val4, scalar, utf8_of in *. split; [lia|].
      destruct (_ <? 0x80) eqn:E; [lia|]. destruct (_ <? 0x800) eqn:E2; [lia|].
      destruct (_ <? 0x10000) eqn:E3; [lia|].
      f_equal; [lia|f_equal; [lia|f_equal; [lia|f_equal; lia]]].
Qed.

(** * UTF-16 *)

Lemma utf16_of_nonempty cp : utf16_of cp <> [].
Proof. unfold utf16_of; destruct (cp <? 0x10000); discriminate. Qed.

Lemma land_ffff c : 0 <= c < 0x10000 -> Z.land 0xffff c = c.
Proof.
  intros H. rewrite Z.land_comm. change 0xffff with (2 ^ 16 - 1).
  rewrite land_ones_mod by lia. apply Z.mod_small; exact H.
Qed.

Lemma next_cp_utf16_of cp rest : scalar cp ->
  get_next_code_point U16 (utf16_of cp ++ rest) = Ok (cp, rest).
Proof.
  intros H; unfold scalar in H; unfold utf16_of.
  destruct (cp <? 0x10000) eqn:E; cbn [app get_next_code_point cp_len].
  - unfold utf16_cp_len. rewrite land_ffff by lia.
    destruct ((0xd800 <=? cp) && (cp <=? 0xdbff)) eqn:E1; [lia|].
    destruct ((0xdc00 <=? cp) && (cp <=? 0xdfff)) eqn:E2; [lia|].
    cbn. reflexivity.
  - unfold utf16_cp_len. rewrite land_ffff by lia.
    set (lead := 0xd800 + (cp - 0x10000) / 1024).
    set (trail := 0xdc00 + (cp - 0x10000) mod 1024).
    assert (Hl : 0xd800 <= lead <= 0xdbff) by (unfold lead; lia).
    assert (Ht : 0xdc00 <= trail <= 0xdfff) by (unfold trail; lia).
    destruct ((0xd800 <=? lead) && (lead <=? 0xdbff)) eqn:E1; [|lia].
    cbn [length Nat.ltb Nat.leb firstn skipn decode_cp decode_utf16].
    destruct ((lead <? 0xd800) || (0xdbff <? lead) || (trail <? 0xdc00) || (0xdfff <? trail)) eqn:E2;
      [lia|]. cbn [bind].
    rewrite lor_disjoint_add by (change (2 ^ 10) with 1024; lia).
    change (2 ^ 10) with 1024. do 2 f_equal. unfold lead, trail. lia.
Qed.

Lemma for_each_loop_utf16 cps : Forall scalar cps ->
  forall fuel, (length cps <= fuel)%nat ->
  for_each_code_point_loop fuel U16 (utf16 cps) = Ok cps.
Proof.
  induction 1 as [|cp cps H Hs IH]; intros fuel Hf.
  - destruct fuel; reflexivity.
  - cbn [length] in Hf. destruct fuel as [|fuel]; [lia|].
    cbn [utf16 flat_map]. fold (utf16 cps).
    destruct (utf16_of cp ++ utf16 cps) as [|x xs] eqn:E.
    + exfalso; apply app_eq_nil in E; destruct E as [E _].
      revert E; apply utf16_of_nonempty.
    + cbn [for_each_code_point_loop]; rewrite <- E, next_cp_utf16_of by exact H.
      cbn [bind]. rewrite IH by lia; reflexivity.
Qed.

Lemma utf16_length_ge cps : (length cps <= length (utf16 cps))%nat.
Proof.
  induction cps as [|cp cps IH]; cbn; [lia|].
  rewrite app_length. fold (utf16 cps).
  assert (1 <= length (utf16_of cp))%nat
    by (unfold utf16_of; destruct (cp <? 0x10000); cbn; lia). lia.
Qed.

Lemma for_each_utf16 cps : Forall scalar cps ->
  for_each_code_point U16 (utf16 cps) = Ok cps.
Proof.
  intros H; apply for_each_loop_utf16; [exact H | apply utf16_length_ge].
Qed.

Lemma next_cp_utf32 cp rest : scalar cp ->
  get_next_code_point U32 (cp :: rest) = Ok (cp, rest).
Proof.
  intros H; unfold scalar in H. cbn. destruct (invalid_code_point <=? cp) eqn:E; [|reflexivity].
  unfold invalid_code_point in E; lia.
Qed.

(** * Transcoding *)

Lemma map_replace_scalars cps : Forall scalar cps -> map replace_invalid32 cps = cps.
Proof.
  induction 1 as [|cp cps H _ IH]; cbn [map]; [reflexivity|].
  rewrite IH; f_equal. unfold replace_invalid32, invalid_code_point, scalar in *.
  destruct (cp =? 0x110000) eqn:E; [lia|reflexivity].
Qed.

Lemma transcode_to32_utf8 cps : Forall scalar cps ->
  transcode_to32 U8 (utf8 cps) = Ok cps.
Proof.
  intros H; unfold transcode_to32; rewrite for_each_utf8 by exact H; cbn [bind].
  rewrite map_replace_scalars by exact H; reflexivity.
Qed.

Lemma transcode_to32_utf16 cps : Forall scalar cps ->
  transcode_to32 U16 (utf16 cps) = Ok cps.
Proof.
  intros H; unfold transcode_to32; rewrite for_each_utf16 by exact H; cbn [bind].
  rewrite map_replace_scalars by exact H; reflexivity.
Qed.

Lemma scalars_lt_invalid cps : Forall scalar cps ->
  forallb (fun cp => cp <? invalid_code_point) cps = true.
Proof.
  intros H; rewrite forallb_forall; intros x Hx; rewrite Forall_forall in H.
  specialize (H x Hx); unfold scalar, invalid_code_point in *; lia.
Qed.

Lemma transcode_valid_to32_utf8 cps : Forall scalar cps ->
  transcode_valid_to32 U8 (utf8 cps) = Ok cps.
Proof.
  intros H; unfold transcode_valid_to32; rewrite for_each_valid_utf8 by exact H; cbn [bind].
  rewrite scalars_lt_invalid by exact H; reflexivity.
Qed.

Lemma lor_lead k n lo : 0 <= n -> 0 <= lo < 2 ^ n ->
  Z.lor (k * 2 ^ n) lo = k * 2 ^ n + lo.
Proof.
  intros Hn Hlo. rewrite <- Z.shiftl_mul_pow2 by lia.
  rewrite lor_disjoint_add by lia. rewrite Z.shiftl_mul_pow2 by lia; reflexivity.
Qed.

Lemma cont_byte z : 0 <= z ->
  to_char (Z.lor 0x80 (Z.land (to_char z) 0x3f)) = 0x80 + z mod 64.
Proof.
  intros Hz; unfold to_char. change 0x3f with (2 ^ 6 - 1).
  rewrite land_ones_mod by lia.
  change 0x80 with (2 * 2 ^ 6) at 1. rewrite lor_lead by lia.
  change (2 ^ 6) with 64. lia.
Qed.

Lemma cp_32to8_spec v cp : scalar cp -> cp_32to8 v cp = utf8_of cp.
Proof.
  intros H; unfold scalar in H; unfold cp_32to8, utf8_of.
  assert (negb v && (invalid_code_point <=? cp) = false) as ->
    by (unfold invalid_code_point; destruct v; cbn; lia).
  destruct (cp <? 128) eqn:E1.
  { unfold to_char; f_equal; lia. }
  assert (Hs : forall k, 0 <= k -> Z.shiftr cp k = cp / 2 ^ k)
    by (intros; apply Z.shiftr_div_pow2; assumption).
  destruct (cp <? 2048) eqn:E2.
  { rewrite !cont_byte, Hs by lia. f_equal. unfold to_char.
    change (2 ^ 6) with 64. rewrite (Z.mod_small (cp / 64)) by lia.
    change 0xc0 with (6 * 2 ^ 5) at 1. rewrite lor_lead by lia.
    change (2 ^ 5) with 32; lia. }
  destruct (cp <? 65536) eqn:E3.
  { rewrite !cont_byte, !Hs by (try rewrite Hs by lia; try apply Z.div_pos; lia).
    change (2 ^ 6) with 64; change (2 ^ 12) with 4096.
    f_equal. unfold to_char.
    rewrite (Z.mod_small (cp / 4096)) by lia.
    change 0xe0 with (14 * 2 ^ 4) at 1. rewrite lor_lead by lia.
    change (2 ^ 4) with 16; lia. }
  rewrite !cont_byte, !Hs by (try rewrite Hs by lia; try apply Z.div_pos; lia).
  change (2 ^ 6) with 64; change (2 ^ 12) with 4096; change (2 ^ 18) with 262144.
  f_equal. unfold to_char.
  rewrite (Z.mod_small (cp / 262144)) by lia.
  change 0xf0 with (30 * 2 ^ 3) at 1. rewrite lor_lead by lia.
  change (2 ^ 3) with 8; lia.
Qed.

Lemma transcode_32to8_scalars v cps : Forall scalar cps ->
  transcode_32to8 v cps = utf8 cps.
Proof.
  induction 1 as [|cp cps H _ IH]; cbn; [reflexivity|].
  rewrite cp_32to8_spec by exact H. f_equal; exact IH.
Qed.

Lemma cp_32to16_bmp v cp : scalar cp -> cp < 0x10000 -> cp_32to16 v cp = utf16_of cp.
Proof.
  intros H Hb; unfold scalar in H; unfold cp_32to16, utf16_of.
  assert (negb v && (invalid_code_point <=? cp) = false) as ->
    by (unfold invalid_code_point; destruct v; cbn; lia).
  destruct (cp <? 0x10000) eqn:E; [|lia]. unfold to_char16. f_equal; lia.
Qed.

Lemma transcode_32to16_bmp v cps : Forall (fun cp => scalar cp /\ cp < 0x10000) cps ->
  transcode_32to16 v cps = utf16 cps.
Proof.
  induction 1 as [|cp cps [H Hb] _ IH]; cbn; [reflexivity|].
  rewrite cp_32to16_bmp by assumption. f_equal; exact IH.
Qed.

(** every supplementary code point is mis-encoded *)
Lemma cp_32to16_supplementary v cp : 0x10000 <= cp <= 0x10FFFF ->
  cp_32to16 v cp <> utf16_of cp.
Proof.
  intros H; unfold cp_32to16, utf16_of.
  assert (negb v && (invalid_code_point <=? cp) = false) as ->
    by (unfold invalid_code_point; destruct v; cbn; lia).
  destruct (cp <? 0x10000) eqn:E; [lia|]. unfold to_char16.
  intros Heq; inversion Heq. lia.
Qed.

Lemma wf_utf32_loop cps : Forall scalar cps -> forall fuel, (length cps <= fuel)%nat ->
  validate_unicode_loop fuel U32 cps = Ok true.
Proof.
  induction 1 as [|cp cps H _ IH]; intros fuel Hf; [destruct fuel; reflexivity|].
  cbn [length] in Hf; destruct fuel as [|fuel]; [lia|].
  unfold scalar in H.
  assert (E : (invalid_code_point <=? cp) = false) by (unfold invalid_code_point; lia).
  cbn [validate_unicode_loop cp_len length Nat.ltb Nat.leb firstn skipn decode_cp].
  rewrite E; cbn [bind]. rewrite E. apply IH; lia.
Qed.

(** Lossless transcoding narrow -> 32-bit wide -> narrow, through both the checked
    and the valid-input entry points. *)
Lemma roundtrip_8_32 cps : Forall scalar cps ->
  transcode_to_string U8 U32 (utf8 cps) = Ok cps /\
  transcode_to_string U32 U8 cps = Ok (utf8 cps) /\
  transcode_valid_to_string U8 U32 (utf8 cps) = Ok cps /\
  transcode_valid_to_string U32 U8 cps = Ok (utf8 cps).
Proof.
  intros H; unfold transcode_to_string, transcode_valid_to_string.
  rewrite transcode_to32_utf8, !transcode_32to8_scalars by exact H.
  rewrite validate_well_formed by (exists cps; split; [exact H|reflexivity]).
  unfold validate_unicode; rewrite wf_utf32_loop by (exact H || lia).
  cbn [bind negb]. rewrite transcode_valid_to32_utf8 by exact H.
  repeat split; reflexivity.
Qed.

Lemma transcode_16_sources cps : Forall scalar cps ->
  transcode_to_string U16 U32 (utf16 cps) = Ok cps /\
  transcode_to_string U16 U8 (utf16 cps) = Ok (utf8 cps).
Proof.
  intros H; unfold transcode_to_string.
  rewrite transcode_to32_utf16 by exact H; cbn [bind].
  rewrite transcode_32to8_scalars by exact H. split; reflexivity.
Qed.

Lemma transcode_to_16_bmp cps : Forall (fun cp => scalar cp /\ cp < 0x10000) cps ->
  transcode_to_string U8 U16 (utf8 cps) = Ok (utf16 cps) /\
  transcode_to_string U32 U16 cps = Ok (utf16 cps).
Proof.
  intros H.
  assert (Hs : Forall scalar cps) by (eapply Forall_impl; [|exact H]; cbn; tauto).
  unfold transcode_to_string.
  rewrite transcode_to32_utf8 by exact Hs; cbn [bind].
  rewrite !transcode_32to16_bmp by exact H. split; reflexivity.
Qed.

(** * Whitespace *)

Lemma is_cp_space_spec cp : is_cp_space cp = true <-> In cp pattern_white_space.
Proof.
  unfold is_cp_space, pattern_white_space; cbn [In].
  rewrite ?orb_true_iff, ?andb_true_iff. lia.
Qed.

Lemma is_cp_space_space_scalar cp : is_cp_space cp = true -> scalar cp.
Proof. unfold is_cp_space, scalar; lia. Qed.

Lemma not_well_formed_c0a0 : ~ well_formed_utf8 [0xC0; 0xA0].
Proof.
  intros (cps & Hs & Heq). destruct cps as [|cp cps]; [discriminate|].
  inversion_clear Hs as [|? ? H _]. revert Heq; unfold utf8, utf8_of, scalar in *; cbn [flat_map].
  destruct (cp <? 0x80) eqn:E1; [intros Heq; inversion Heq; lia|].
  destruct (cp <? 0x800) eqn:E2; [intros Heq; inversion Heq; lia|].
  destruct (cp <? 0x10000) eqn:E3; intros Heq; inversion Heq; lia.
Qed.
