(** Width-limited views of well-formed text. *)
From Verif Require Import Prelude UnicodeModel UnicodeSpec UnicodeProofs FormatSpec VscanSpec
  WidthModel WidthSpec.
Local Open Scope Z_scope.
Ltac Zify.zify_post_hook ::= Z.div_mod_to_equations.

Lemma cp_width_col cp : cp_width cp = col cp.
Proof.
  unfold cp_width, col, wide_ranges. cbn [existsb].
  destruct ((0x1100 <=? cp) && _) eqn:E1; destruct (_ || _) eqn:E2 in |- *; try reflexivity; exfalso; lia.
Qed.
Lemma col_pos cp : 1 <= col cp <= 2.
Proof. unfold col. destruct (existsb _ _); lia. Qed.
Lemma cols_nonneg cps : 0 <= cols cps.
Proof. induction cps as [|c l IH]; cbn [cols]; [lia|]. pose proof (col_pos c). lia. Qed.
Lemma cols_app a b : cols (a ++ b) = cols a + cols b.
Proof. induction a as [|c l IH]; cbn [cols app]; lia. Qed.
Lemma cols_length cps : Z.of_nat (length cps) <= cols cps.
Proof. induction cps as [|c l IH]; cbn [cols length]; [lia|]. pose proof (col_pos c). lia. Qed.

Lemma text_app e a b : text e (a ++ b) = text e a ++ text e b.
Proof. apply flat_map_app. Qed.

Lemma encode_next e cp rest : scalar cp ->
  get_next_code_point e (encode e cp ++ rest) = Ok (cp, rest).
Proof.
  intros H. destruct e; cbn [encode].
  - apply next_cp_utf8_of, H.
  - apply next_cp_utf16_of, H.
  - apply next_cp_utf32, H.
Qed.
Lemma encode_lead e cp : scalar cp -> exists c tl, encode e cp = c :: tl
  /\ cp_len e c = length (encode e cp).
Proof.
  intros H. destruct e; cbn [encode cp_len].
  - destruct (utf8_of_lead cp H) as (a & tl & E & Ha & HL). exists a, tl. split; [exact E|].
    exact HL.
  - unfold utf16_of. unfold scalar in H. destruct (cp <? 0x10000) eqn:E; do 2 eexists; (split; [reflexivity|]);
      unfold utf16_cp_len; rewrite land_ffff by lia.
    + destruct ((0xd800 <=? cp) && (cp <=? 0xdbff)) eqn:E1; [lia|].
      destruct ((0xdc00 <=? cp) && (cp <=? 0xdfff)) eqn:E2; [lia|]. reflexivity.
    + destruct (_ && _) eqn:E1; [reflexivity|lia].
  - eauto.
Qed.

Lemma for_each_text e cps : Forall scalar cps -> for_each_code_point e (text e cps) = Ok cps.
Proof.
  intros H. unfold for_each_code_point.
  assert (G : forall fuel, (length (text e cps) <= fuel)%nat -> for_each_code_point_loop fuel e (text e cps) = Ok cps).
  { induction H as [|cp cps H Hs IH]; intros fuel Hf; [destruct fuel; reflexivity|].
    cbn [text flat_map] in *. fold (text e cps) in *.
    destruct (encode_lead e cp H) as (c & tl & E & _).
    assert (HN := encode_next e cp (text e cps) H).
    rewrite app_length in Hf. rewrite E in *. cbn [length app] in *.
    destruct fuel as [|fuel]; [lia|]. cbn [for_each_code_point_loop]. rewrite HN. cbn [bind].
    rewrite IH by lia. reflexivity. }
  apply G. lia.
Qed.
Lemma text_width_text e cps : Forall scalar cps -> text_width e (text e cps) = Ok (cols cps).
Proof.
  intros H. unfold text_width. rewrite for_each_text by exact H. cbn [bind]. f_equal. clear H.
  induction cps as [|c l IH]; cbn [fold_right cols]; [reflexivity|]. rewrite IH, cp_width_col. reflexivity.
Qed.

Lemma width_at_encode e cp rest : scalar cp -> width_at e (encode e cp ++ rest) = Ok (col cp).
Proof.
  intros H. destruct (encode_lead e cp H) as (c & tl & E & HL). unfold width_at.
  assert (HW : text_width e (encode e cp) = Ok (col cp)).
  { assert (T := text_width_text e [cp]). cbn [text flat_map cols] in T. rewrite app_nil_r, Z.add_0_r in T. auto. }
  rewrite E in *. cbn [app length] in *. rewrite HL.
  destruct tl as [|d tl].
  - cbn [length]. rewrite cp_width_col. do 2 f_equal.
    assert (HN := encode_next e cp [] H). rewrite E in HN. cbn in HN. cbn [length] in HL. rewrite HL in HN.
    destruct e; cbn [encode] in E.
    + unfold utf8_of in E. repeat destruct (_ <? _) in E; congruence.
    + unfold utf16_of in E. repeat destruct (_ <? _) in E; congruence.
    + congruence.
  - cbn [length]. rewrite app_length. cbn [length]. destruct (Nat.ltb_spec (S (S (length tl) + length rest)) (S (S (length tl)))); [lia|].
    replace (firstn _ _) with (c :: d :: tl); [exact HW|].
    change (c :: (d :: tl) ++ rest) with ((c :: d :: tl) ++ rest).
    change (S (S (length tl))) with (length (c :: d :: tl)). symmetry. apply firstn_len_app.
Qed.

Lemma tw_inside e u rest count : tw_from e count (Z.of_nat (length u)) (u ++ rest)
  = (l <- tw_from e count 0 rest ;; Ok (u ++ l)).
Proof.
  revert rest. induction u as [|c u IH]; intros rest.
  - cbn [length app]. change (Z.of_nat 0) with 0. destruct (tw_from e count 0 rest); reflexivity.
  - cbn [length app tw_from]. unfold at_end, increment.
    destruct (Z.eqb_spec (Z.of_nat (S (length u))) 0); [lia|]. rewrite !andb_false_r. cbn [bind].
    replace (Z.of_nat (S (length u)) - 1) with (Z.of_nat (length u)) by lia. rewrite IH.
    destruct (tw_from e count 0 rest); reflexivity.
Qed.

(** A negative count never runs out. *)
Definition eff (n : Z) (cps : list Z) : list Z := if n <? 0 then cps else take_cols n cps.
Lemma take_width_gen e cps : Forall scalar cps -> forall n,
  take_width e (text e cps) n = Ok (text e (eff n cps)).
Proof.
  unfold take_width, eff. induction 1 as [|cp cps H Hs IH]; intros n.
  - cbn. destruct (n <? 0); reflexivity.
  - cbn [text flat_map take_cols]. fold (text e cps).
    destruct (encode_lead e cp H) as (c & tl & E & HL).
    assert (HW := width_at_encode e cp (text e cps) H). assert (HC := col_pos cp).
    rewrite E in *. cbn [app] in *. cbn [tw_from]. unfold at_end, increment. rewrite HW.
    change (0 =? 0) with true. cbn [bind andb]. rewrite !andb_true_r, HL.
    replace (Z.of_nat (length (c :: tl)) - 1) with (Z.of_nat (length tl)) by (cbn [length]; lia).
    destruct (Z.eqb_spec n 0) as [->|H0].
    { cbn [bind]. replace (col cp <=? 0) with false by lia. reflexivity. }
    destruct (Z.eqb_spec n 1) as [->|H1].
    { cbn [bind]. change (1 <? 0) with false.
      destruct (Z.eqb_spec (col cp) 2) as [E2|E2].
      - rewrite E2. reflexivity.
      - assert (E1 : col cp = 1) by lia. rewrite E1. change (1 <=? 1) with true.
        rewrite tw_inside, (IH (1 - 1)). cbn [bind]. change (1 - 1 <? 0) with false.
        cbn [text flat_map]. rewrite E. reflexivity. }
    cbn [bind]. rewrite tw_inside, IH. cbn [bind].
    destruct (Z.ltb_spec n 0).
    + replace (n - col cp <? 0) with true by lia. cbn [text flat_map]. rewrite E. reflexivity.
    + replace (n - col cp <? 0) with false by lia. replace (col cp <=? n) with true by lia.
      cbn [text flat_map]. rewrite E. reflexivity.
Qed.
Lemma take_width_text e cps n : Forall scalar cps -> 0 <= n ->
  take_width e (text e cps) n = Ok (text e (take_cols n cps)).
Proof. intros H Hn. rewrite take_width_gen by exact H. unfold eff. replace (n <? 0) with false by lia. reflexivity. Qed.

Lemma tw_count_inside e u rest k count : tw_count e count (Z.of_nat (length u)) (u ++ rest) (length u + k)
  = tw_count e count 0 rest k.
Proof.
  revert rest. induction u as [|c u IH]; intros rest.
  - reflexivity.
  - cbn [length app tw_count Nat.add]. unfold increment.
    destruct (Z.eqb_spec (Z.of_nat (S (length u))) 0); [lia|]. cbn [bind].
    replace (Z.of_nat (S (length u)) - 1) with (Z.of_nat (length u)) by lia. apply IH.
Qed.
Lemma tw_count_text e a : Forall scalar a -> forall n rest,
  tw_count e n 0 (text e a ++ rest) (length (text e a)) = Ok (n - cols a).
Proof.
  induction 1 as [|cp a H Hs IH]; intros n rest.
  - cbn. rewrite Z.sub_0_r. destruct rest; reflexivity.
  - cbn [text flat_map cols]. fold (text e a). rewrite <- app_assoc.
    destruct (encode_lead e cp H) as (c & tl & E & HL).
    assert (HW := width_at_encode e cp (text e a ++ rest) H).
    rewrite E in *. cbn [app length] in *. cbn [tw_count]. unfold increment. rewrite HW.
    change (0 =? 0) with true. cbn [bind]. rewrite HL.
    replace (Z.of_nat (S (length tl)) - 1) with (Z.of_nat (length tl)) by lia.
    rewrite app_length, tw_count_inside, IH. f_equal. lia.
Qed.

(** Reading a view up to a code point boundary. *)
Lemma view_base_text e a b rest : view_base (text e (a ++ b) ++ rest) (text e (a ++ b)) (text e b)
  = text e b ++ rest.
Proof.
  unfold view_base. rewrite text_app, app_length, <- app_assoc.
  replace (_ - _)%nat with (length (text e a)) by lia. apply skipn_len_app.
Qed.
Lemma view_count_text e a b rest n : Forall scalar a ->
  view_count e (text e (a ++ b) ++ rest) (text e (a ++ b)) (text e b) n = Ok (n - cols a).
Proof.
  intros H. unfold view_count. rewrite text_app, app_length, <- app_assoc.
  replace (_ - _)%nat with (length (text e a)) by lia. apply tw_count_text, H.
Qed.

Lemma take_cols_prefix n cps : exists r, cps = take_cols n cps ++ r.
Proof.
  revert n. induction cps as [|c l IH]; intros n; cbn [take_cols]; [exists []; reflexivity|].
  destruct (col c <=? n); [|exists (c :: l); reflexivity].
  destruct (IH (n - col c)) as [r E]. exists r. cbn [app]. f_equal. exact E.
Qed.
Lemma take_cols_fits n cps : 0 <= n -> cols (take_cols n cps) <= n.
Proof.
  revert n. induction cps as [|c l IH]; intros n Hn; cbn [take_cols cols]; [lia|].
  destruct (Z.leb_spec (col c) n); cbn [cols]; [|lia]. specialize (IH (n - col c)). lia.
Qed.
Lemma take_cols_longest n a c r : cols (a ++ [c]) <= n -> exists r', take_cols n (a ++ c :: r) = a ++ c :: r'.
Proof.
  revert n. induction a as [|d a IH]; intros n H; cbn [app cols take_cols] in *.
  - replace (col c <=? n) with true by lia. eauto.
  - pose proof (cols_nonneg (a ++ [c])). replace (col d <=? n) with true by lia.
    destruct (IH (n - col d)) as [r' ->]; [lia|]. eauto.
Qed.
Lemma take_cols_all n cps : cols cps <= n -> take_cols n cps = cps.
Proof.
  revert n. induction cps as [|c l IH]; intros n H; cbn [take_cols cols] in *; [reflexivity|].
  pose proof (cols_nonneg l). replace (col c <=? n) with true by lia. f_equal. apply IH. lia.
Qed.
Lemma take_cols_idem n cps : 0 <= n -> take_cols n (take_cols n cps) = take_cols n cps.
Proof. intros H. apply take_cols_all, take_cols_fits, H. Qed.
Lemma take_cols_app n a b : cols a <= n -> take_cols n (a ++ b) = a ++ take_cols (n - cols a) b.
Proof.
  revert n. induction a as [|c a IH]; intros n H; cbn [take_cols cols app] in *; [rewrite Z.sub_0_r; reflexivity|].
  pose proof (cols_nonneg a). replace (col c <=? n) with true by lia. f_equal. rewrite IH by lia. do 2 f_equal. lia.
Qed.
Lemma scalars_app a b : Forall scalar (a ++ b) <-> Forall scalar a /\ Forall scalar b.
Proof. apply Forall_app. Qed.
Lemma take_cols_scalar n cps : Forall scalar cps -> Forall scalar (take_cols n cps).
Proof. intros H. destruct (take_cols_prefix n cps) as [r E]. rewrite E in H. apply scalars_app in H. apply H. Qed.
