(** Reading a date that was written in the format. *)
From Coq Require Import String Ascii Permutation.
From Verif Require Import Prelude UnicodeModel UnicodeSpec WhitespaceModel WhitespaceSpec WhitespaceProofs
  UnicodeProofs ReadModel ReadProofs SpecsModel FormatModel FormatSpec FormatSpecProofs VscanSpec WidthSpec
  ArgReaderProofs IntProofs SpecsInvProofs
  ChronoModel ChronoSpec ChronoParseProofs ChronoInvProofs ChronoMarkProofs ChronoRuleProofs.
Import Coq.Strings.String.StringSyntax.
Local Open Scope string_scope.
Local Open Scope list_scope.
Local Open Scope Z_scope.

(** ** White space *)
Lemma read_into_ascii e c s : e <> U16 -> 0 <= c < 128 ->
  read_code_point_into e (c :: s) = Ok (s, [c]) /\ decode_cp e [c] = Ok c.
Proof.
  intros He Hc. assert (Sc : scalar c) by (left; lia).
  assert (E : encode e c = [c]).
  { destruct e; [|congruence|reflexivity]. cbn. unfold utf8_of. now rewrite (proj2 (Z.ltb_lt c 128)) by lia. }
  pose proof (read_into_encode e c s Sc) as H. rewrite E in H. exact H.
Qed.
Lemma until_ascii e : e <> U16 -> forall u next, Forall ascii_ws u -> no_space_next next ->
  read_while_code_point e is_cp_space (u ++ next) = Ok next.
Proof.
  intros He u next Hu Hn. unfold read_while_code_point, read_until_code_point.
  assert (G : forall fuel, (length (u ++ next) <= fuel)%nat ->
     read_until_code_point_loop fuel e (fun cp => negb (is_cp_space cp)) (u ++ next) = Ok next).
  { induction Hu as [|c u [Hc Hw] Hu IH]; intros fuel Hf; cbn [app] in *.
    - destruct next as [|c s]; [destruct fuel; reflexivity|]. destruct fuel as [|fuel]; [cbn in Hf; lia|].
      destruct Hn as [Hc Hw]. cbn [read_until_code_point_loop].
      destruct (read_into_ascii e c s He Hc) as [E1 E2]. rewrite E1. cbn [bind]. rewrite E2. cbn [bind].
      rewrite <- is_ws_space, Hw. reflexivity.
    - destruct fuel as [|fuel]; [cbn in Hf; lia|]. cbn [read_until_code_point_loop].
      destruct (read_into_ascii e c (u ++ next) He Hc) as [E1 E2]. rewrite E1. cbn [bind]. rewrite E2.
      cbn [bind]. rewrite <- is_ws_space, Hw. cbn [negb]. apply IH. cbn in Hf. lia. }
  apply G. lia.
Qed.
Lemma ascii_utf8 u : Forall ascii_ws u -> utf8 u = u /\ Forall scalar u
  /\ Forall (fun cp => is_cp_space cp = true) u.
Proof.
  induction 1 as [|c u [Hc Hw] Hu (E & S0 & W)]; [repeat split; constructor|].
  repeat split; try constructor; trivial; try (left; lia).
  - unfold utf8 in *. cbn [flat_map map concat]. rewrite E. unfold utf8_of.
    now rewrite (proj2 (Z.ltb_lt c 128)) by lia.
  - now rewrite <- is_ws_space.
Qed.
Lemma first_ascii u next : Forall ascii_ws u -> no_space_next next ->
  first_at U8 (fun cp => negb (is_cp_space cp)) (u ++ next) next.
Proof.
  intros Hu Hn. destruct (ascii_utf8 u Hu) as (E & S0 & W). destruct next as [|c s].
  - rewrite app_nil_r. split; [|now left]. rewrite <- E.
    clear E. induction S0 as [|w ws H Hs IH]; [constructor|].
    inversion_clear W as [|? ? W1 W2]. inversion_clear Hu as [|? ? U1 U2].
    unfold utf8. cbn [map concat flat_map]. econstructor; [| |apply IH; assumption].
    + apply next_cp_utf8_of, H.
    + cbv beta. now rewrite W1.
  - destruct Hn as [Hc Hw]. rewrite <- E at 1. apply ws_then; trivial. now rewrite <- is_ws_space.
Qed.
Lemma skip_ascii r u next allow : s_enc r <> U16 -> units (s_enc r) (u ++ next) ->
  Forall ascii_ws u -> no_space_next next -> (allow = true \/ next <> []) ->
  skip_classic_whitespace r (u ++ next) allow = Ok next.
Proof.
  intros He Hb Hu Hn Ha. unfold skip_classic_whitespace.
  assert (E : read_while_classic_space r (u ++ next) = Ok next).
  { unfold read_while_classic_space. destruct (s_enc r) eqn:Er; [|congruence|apply until_ascii; trivial].
    cbn [units] in Hb. destruct (s_contig r) eqn:Ec.
    - destruct (find_classic_nonspace_spec _ Hb) as (f & E & Hf). rewrite E. f_equal.
      eapply first_at_unique; [exact Hf|]. now apply first_ascii.
    - destruct (find_classic_nonspace_spec _ (contiguous_beginning_bytes r _ Hb)) as (f & E & Hf).
      rewrite E. cbn [bind]. unfold contiguous_beginning in *. rewrite Ec in *.
      set (k := s_seg r (length (u ++ next))) in *. clearbody k.
      destruct (Nat.le_gt_cases k (length u)) as [Hk|Hk].
      + assert (Q : firstn k (u ++ next) = firstn k u ++ []).
        { rewrite firstn_app. replace (k - length u)%nat with O by lia. now rewrite firstn_O. }
        rewrite Q in Hf.
        assert (f = []).
        { eapply first_at_unique; [exact Hf|]. apply first_ascii; [|exact I].
          rewrite Forall_forall in *. intros x Ix. apply Hu. rewrite <- (firstn_skipn k u).
          apply in_or_app. now left. }
        subst f. apply until_ascii; trivial; discriminate.
      + assert (Q : firstn k (u ++ next) = u ++ firstn (k - length u) next).
        { rewrite firstn_app. now rewrite firstn_all2 by lia. }
        rewrite Q in *.
        assert (Hf' : f = firstn (k - length u) next).
        { eapply first_at_unique; [exact Hf|]. apply first_ascii; [trivial|].
          destruct next; destruct (k - length u)%nat; cbn; trivial. }
        subst f. destruct (firstn (k - length u) next) as [|c s] eqn:Fn.
        * apply until_ascii; trivial; discriminate.
        * rewrite app_length, Nat.add_sub, skipn_app, skipn_all, Nat.sub_diag. reflexivity. }
  rewrite E. cbn [bind]. destruct allow; [trivial|]. destruct next; [|trivial].
  destruct Ha; congruence.
Qed.

(** ** Numbers *)
Lemma decimal_snoc acc ds : fold_left (fun a c => a * 10 + (c - 48)) ds acc
  = acc * 10 ^ Z.of_nat (length ds) + decimal ds.
Proof.
  revert acc. unfold decimal. induction ds as [|c ds IH]; intros acc.
  - cbn. lia.
  - cbn [fold_left]. rewrite IH, (IH (0 * 10 + (c - 48))). cbn [length].
    rewrite Nat2Z.inj_succ, Z.pow_succ_r by lia. nia.
Qed.
Lemma read_digits_text n : forall u acc next, Forall digit u -> (length u <= n)%nat ->
  (length u = n \/ no_digit_next next) ->
  read_digits n acc (u ++ next)
  = (length u, fold_left (fun a c => a * 10 + (c - 48)) u acc, next).
Proof.
  induction n as [|n IH]; intros u acc next Hu Hl Hn.
  - destruct u; [reflexivity|cbn in Hl; lia].
  - destruct u as [|c u]; cbn [app length fold_left].
    + destruct Hn as [Hn|Hn]; [discriminate|]. destruct next as [|c s]; [reflexivity|].
      cbn [read_digits]. cbn in Hn. unfold digit in Hn.
      destruct (Z.ltb_spec c 48); [reflexivity|]. destruct (Z.ltb_spec 57 c); [reflexivity|]. lia.
    + inversion_clear Hu as [|? ? Hc Hu']. cbn [length] in *. cbn [read_digits].
      unfold digit in Hc.
      rewrite (proj2 (Z.ltb_ge c 48)), (proj2 (Z.ltb_ge 57 c)) by lia. cbn [orb].
      rewrite IH; [reflexivity|trivial|lia|]. destruct Hn as [Hn|Hn]; [left; lia|now right].
Qed.

(** ** Names *)
Lemma nocase_spec a b : nocase_eq a b = true <-> a = b \/ a = Z.lxor b 32.
Proof.
  unfold nocase_eq. rewrite orb_true_iff, !Z.eqb_eq, Z.lxor_eq_0_iff. split; intros [H|H]; auto; right.
  - rewrite <- H, (Z.lxor_comm b), Z.lxor_assoc, Z.lxor_nilpotent. symmetry. apply Z.lxor_0_r.
  - subst a. rewrite (Z.lxor_comm b 32), Z.lxor_assoc, Z.lxor_nilpotent. apply Z.lxor_0_r.
Qed.
Definition letter (c : Z) : bool := ((65 <=? c) && (c <=? 90)) || ((97 <=? c) && (c <=? 122)).
Lemma letter_other x : letter x = true -> Z.lxor x 32 = if x <=? 90 then x + 32 else x - 32.
Proof.
  assert (A : forallb (fun c => negb (letter c) || (Z.lxor c 32 =? if c <=? 90 then c + 32 else c - 32))
     (map Z.of_nat (seq 0 128)) = true) by (vm_compute; reflexivity).
  intros H. rewrite forallb_forall in A. specialize (A x). unfold letter in *.
  assert (I : In x (map Z.of_nat (seq 0 128))).
  { apply in_map_iff. exists (Z.to_nat x). split; [lia|]. apply in_seq. lia. }
  apply A in I. rewrite H in I. cbn [negb orb] in I. now apply Z.eqb_eq in I.
Qed.
Lemma lower_nocase x c : letter x = true -> (nocase_eq c x = true <-> lower c = lower x).
Proof.
  intros H. rewrite nocase_spec, (letter_other x H). unfold letter, lower in *.
  destruct ((65 <=? c) && (c <=? 90)) eqn:E1; destruct ((65 <=? x) && (x <=? 90)) eqn:E2;
    destruct (x <=? 90) eqn:E3; lia.
Qed.
(** Words of letters and full stops, matched in any case *)
Lemma spelled_nocase u w w' : spelled u w -> map lower w' = w ->
  forallb (fun c => letter c || (c =? 46)) w' = true -> Forall2 (fun a b => nocase_eq a b = true) u w'.
Proof.
  unfold spelled. intros E1 E2 L. assert (E : map lower u = map lower w') by congruence.
  clear E1 E2. revert w' E L. induction u as [|c u IH]; intros [|x w'] E L; cbn in E; try discriminate; constructor.
  - cbn in L. apply andb_true_iff in L. destruct L as [L _]. injection E as E _.
    destruct (letter x) eqn:Lx; [now apply lower_nocase|].
    cbn in L. apply Z.eqb_eq in L. subst x. apply nocase_spec. left.
    unfold lower in E. cbn in E. destruct ((65 <=? c) && (c <=? 90)) eqn:B; lia.
  - injection E as _ E. cbn in L. apply andb_true_iff in L. now apply IH.
Qed.
Definition compat (x y : Z) : bool := (x =? y) || (x =? Z.lxor y 32).
Lemma both_match c x y : nocase_eq c x = true -> nocase_eq c y = true -> compat x y = true.
Proof.
  rewrite !nocase_spec. unfold compat. rewrite orb_true_iff, !Z.eqb_eq.
  assert (I : forall a, Z.lxor (Z.lxor a 32) 32 = a)
    by (intros a; now rewrite Z.lxor_assoc, Z.lxor_nilpotent, Z.lxor_0_r).
  intros [->| ->] [E|E]; auto.
  - right. now rewrite <- E, I.
  - left. rewrite <- (I x), E. apply I.
Qed.
(** The words differ at some place from [k] on. *)
Definition differ (k : nat) (a b : list Z) : Prop :=
  exists i x y, (k <= i)%nat /\ nth_error a i = Some x /\ nth_error b i = Some y /\ compat x y = false.
Lemma skipn_nth (w : list Z) k y : nth_error w k = Some y -> skipn k w = y :: skipn (S k) w.
Proof.
  revert k. induction w as [|z w IH]; intros [|k] Ey; cbn in *; try discriminate.
  - now injection Ey as ->.
  - now apply IH.
Qed.
Lemma one_of_found v w next : forall u k live, In (w, v) live -> NoDup live -> (k <= length w)%nat ->
  (forall o, In o live -> o = (w, v) \/ differ k (fst o) w) ->
  Forall2 (fun a b => nocase_eq a b = true) u (skipn k w) ->
  one_of_loop live k (u ++ next) = Some (v, next).
Proof.
  induction u as [|c u IH]; intros k live Hin Nd Hk Hd Hu.
  - assert (Hs : skipn k w = []) by (inversion Hu; congruence).
    assert (Lw : k = length w).
    { assert (X := skipn_length k w). rewrite Hs in X. cbn in X. lia. }
    assert (All : forall o, In o live -> o = (w, v)).
    { intros o Io. destruct (Hd o Io) as [|(i & x & y & Hi & _ & E2 & _)]; [trivial|].
      assert (nth_error w i <> None) by congruence. apply nth_error_Some in H. lia. }
    destruct live as [|o1 live]; [destruct Hin|]. assert (o1 = (w, v)) by (apply All; now left). subst o1.
    destruct live as [|o2 live].
    + destruct next; cbn [one_of_loop app]; rewrite (proj2 (Nat.ltb_ge k (length w))) by lia; reflexivity.
    + exfalso. assert (o2 = (w, v)) by (apply All; right; now left). subst o2.
      inversion Nd as [|? ? X _]. apply X. now left.
  - assert (Es : exists y w', y :: w' = skipn k w /\ nocase_eq c y = true
                  /\ Forall2 (fun a b => nocase_eq a b = true) u w').
    { inversion Hu; subst; eauto. }
    destruct Es as (y & w' & Es & Hc & Hu').
    assert (Ek : nth_error w k = Some y).
    { rewrite <- (firstn_skipn k w), <- Es. rewrite nth_error_app2; rewrite firstn_length_le by lia; [|lia].
      now rewrite Nat.sub_diag. }
    assert (Lk : (k < length w)%nat) by (apply nth_error_Some; congruence).
    assert (Ew : w' = skipn (S k) w).
    { rewrite (skipn_nth w k y Ek) in Es. now injection Es. }
    destruct live as [|[w0 v0] live]; [destruct Hin|]. cbn [one_of_loop app].
    assert (L0 : (k < length w0)%nat).
    { destruct (Hd (w0, v0) (or_introl eq_refl)) as [X|(i & x & z & Hi & E1 & _)].
      - injection X as -> _. trivial.
      - cbn in E1. assert (nth_error w0 i <> None) by congruence. apply nth_error_Some in H. lia. }
    rewrite (proj2 (Nat.ltb_lt k (length w0)) L0). apply IH.
    + apply filter_In. split; [trivial|]. cbn [fst]. now rewrite Ek.
    + now apply NoDup_filter.
    + lia.
    + intros o Io. apply filter_In in Io. destruct Io as [Io Hm].
      destruct (Hd o Io) as [|(i & x & z & Hi & E1 & E2 & Hx)]; [now left|]. right.
      exists i, x, z. split; [|auto]. destruct (Nat.eq_dec i k) as [->|]; [|lia].
      exfalso. rewrite E1 in Hm. rewrite Ek in E2. injection E2 as <-.
      rewrite (both_match c x y) in Hx; [discriminate|trivial|trivial].
    + now rewrite <- Ew.
Qed.
Lemma one_of_sound : forall s k live v rest, one_of_loop live k s = Some (v, rest) ->
  exists w u, In (w, v) live /\ s = u ++ rest /\ Forall2 (fun a b => nocase_eq a b = true) u (skipn k w).
Proof.
  assert (E0 : forall (live : list (list Z * Z)) k (s : list Z) v rest, match live with
     | (w, v0) :: others => if (k <? length w)%nat then False else
          (match others with [] => Some (v0, s) | _ => None end) = Some (v, rest)
     | [] => False end -> exists w u, In (w, v) live /\ s = u ++ rest
        /\ Forall2 (fun a b => nocase_eq a b = true) u (skipn k w)).
  { intros live k s v rest H. destruct live as [|[w v0] others]; [destruct H|].
    destruct (Nat.ltb_spec k (length w)); [destruct H|]. destruct others; [|discriminate].
    injection H as -> ->. exists w, []. split; [now left|]. split; [trivial|].
    rewrite skipn_all2 by lia. constructor. }
  induction s as [|c s IH]; intros k live v rest E.
  - apply E0. destruct live as [|[w v0] others]; [discriminate E|]. cbn [one_of_loop] in E.
    destruct (k <? length w)%nat; [discriminate E|exact E].
  - destruct live as [|[w v0] others]; [discriminate E|]. cbn [one_of_loop] in E.
    destruct (Nat.ltb_spec k (length w)).
    + apply IH in E. destruct E as (w1 & u & I & -> & F).
      apply filter_In in I. destruct I as [I Hm]. cbn [fst] in Hm.
      destruct (nth_error w1 k) as [y|] eqn:Ey; [|discriminate].
      exists w1, (c :: u). split; [trivial|]. split; [reflexivity|].
      rewrite (skipn_nth _ _ _ Ey). now constructor.
    + apply E0. destruct (Nat.ltb_spec k (length w)); [lia|exact E].
Qed.
