(** Elements added to containers; the bound of the loop over elements. *)
From Verif Require Import Prelude UnicodeModel ReadModel SpecsModel RangesModel RangesSpec.
Local Open Scope Z_scope.

Section Keys.
Context {E K : Type} (key : E -> K) (lt : K -> K -> bool) (O : weak_order lt).
Let key_of := with_key key lt.

Lemma lt_irr a : lt a a = false. Proof. apply O. Qed.
Lemma lt_trans a b c : lt a b = true -> lt b c = true -> lt a c = true. Proof. apply O. Qed.
Lemma same_refl a : same_key lt a a = true. Proof. unfold same_key. now rewrite lt_irr. Qed.
Lemma same_sym a b : same_key lt a b = same_key lt b a. Proof. apply andb_comm. Qed.
Lemma same_trans a b c : same_key lt a b = true -> same_key lt b c = true -> same_key lt a c = true. Proof. apply O. Qed.
Lemma lt_same a b : lt a b = true -> same_key lt a b = false.
Proof. intros H. unfold same_key. now rewrite H. Qed.
Lemma lt_asym a b : lt a b = true -> lt b a = false.
Proof. intros H. destruct (lt b a) eqn:E1; [|reflexivity]. pose proof (lt_trans _ _ _ H E1) as C. now rewrite lt_irr in C. Qed.
Lemma neither a b : lt a b = false -> lt b a = false -> same_key lt a b = true.
Proof. intros H1 H2. unfold same_key. now rewrite H1, H2. Qed.
(** Comparisons do not tell keys apart that are the same. *)
Lemma lt_same_r a b c : lt a b = true -> same_key lt b c = true -> lt a c = true.
Proof.
  intros H S. destruct (lt a c) eqn:E1; [reflexivity|]. destruct (lt c a) eqn:E2.
  - pose proof (lt_trans _ _ _ E2 H) as C. unfold same_key in S. rewrite C in S. now rewrite andb_false_r in S.
  - assert (S2 : same_key lt a b = true). { apply same_trans with c; [now apply neither|now rewrite same_sym]. }
    apply lt_same in H. congruence.
Qed.
Lemma lt_same_l a b c : same_key lt a b = true -> lt b c = true -> lt a c = true.
Proof.
  intros S H. destruct (lt a c) eqn:E1; [reflexivity|]. destruct (lt c a) eqn:E2.
  - pose proof (lt_trans _ _ _ H E2) as C. unfold same_key in S. rewrite C in S. now rewrite andb_false_r in S.
  - assert (S2 : same_key lt b c = true). { apply same_trans with a; [now rewrite same_sym|now apply neither]. }
    apply lt_same in H. congruence.
Qed.
(** Not greater, then not greater. *)
Lemma ge_trans a b c : lt b a = false -> lt c b = false -> lt c a = false.
Proof.
  intros H1 H2. destruct (lt c a) eqn:E1; [|reflexivity]. exfalso.
  destruct (lt a b) eqn:E2; [pose proof (lt_trans _ _ _ E1 E2); congruence|].
  pose proof (lt_same_r _ _ _ E1 (neither _ _ E2 H1)). congruence.
Qed.

Lemma in_order_le st l : in_order key lt st l -> in_order key lt false l.
Proof.
  induction l as [|x l IH]; [trivial|]. cbn. intros [H1 H2]. split; [|auto].
  eapply Forall_impl; [|exact H1]. cbn. intros y. destruct st; [apply lt_asym|trivial].
Qed.
Lemma insert_unique_in x c y : In y (insert_unique key lt x c) -> y = x \/ In y c.
Proof.
  induction c as [|z c IH]; cbn; [intuition|]. destruct (lt (key x) (key z)); [cbn; intuition|].
  destruct (lt (key z) (key x)); cbn; intuition.
Qed.
Lemma insert_equal_in x c y : In y (insert_equal key lt x c) -> y = x \/ In y c.
Proof. induction c as [|z c IH]; cbn; [intuition|]. destruct (lt (key x) (key z)); cbn; intuition. Qed.
Lemma insert_unique_order x c : in_order key lt true c -> in_order key lt true (insert_unique key lt x c).
Proof.
  induction c as [|y c IH]; cbn; [auto|]. intros [H1 H2].
  destruct (lt (key x) (key y)) eqn:E1; [|destruct (lt (key y) (key x)) eqn:E2]; cbn [in_order]; auto.
  - split; [|auto]. constructor; [exact E1|]. eapply Forall_impl; [|exact H1]. cbn. intros z. now apply lt_trans.
  - split; [|auto]. apply Forall_forall. intros z Hz. apply insert_unique_in in Hz. destruct Hz as [->|Hz]; [exact E2|].
    rewrite Forall_forall in H1. auto.
Qed.
Lemma insert_equal_order x c : in_order key lt false c -> in_order key lt false (insert_equal key lt x c).
Proof.
  induction c as [|y c IH]; cbn; [auto|]. intros [H1 H2]. destruct (lt (key x) (key y)) eqn:E1; cbn [in_order].
  - split; [|auto]. constructor; [now apply lt_asym|]. eapply Forall_impl; [|exact H1]. cbn. intros z Hz.
    destruct (lt (key z) (key x)) eqn:E2; [|reflexivity]. pose proof (lt_trans _ _ _ E2 E1). congruence.
  - split; [|auto]. apply Forall_forall. intros z Hz. apply insert_equal_in in Hz. destruct Hz as [->|Hz]; [exact E1|].
    rewrite Forall_forall in H1. auto.
Qed.

Lemma none_above k c : Forall (fun y => lt k (key y) = true) c -> filter (fun x => same_key lt (key x) k) c = [].
Proof.
  induction 1 as [|y c Hy _ IH]; [reflexivity|]. cbn. rewrite IH, same_sym, (lt_same _ _ Hy). reflexivity.
Qed.
Lemma insert_equal_key x c k : in_order key lt false c -> key_of k (insert_equal key lt x c) = key_of k (c ++ [x]).
Proof.
  unfold key_of, with_key. induction c as [|y c IH]; [reflexivity|]. cbn [insert_equal in_order]. intros [H1 H2].
  destruct (lt (key x) (key y)) eqn:E1; [|cbn [filter app]; now rewrite IH].
  rewrite filter_app. cbn [filter]. destruct (same_key lt (key x) k) eqn:S; [|now rewrite app_nil_r].
  enough (N : filter (fun x0 => same_key lt (key x0) k) (y :: c) = []).
  { cbn [filter] in N. now rewrite N. }
  apply none_above. assert (Ek : lt k (key y) = true) by (apply lt_same_l with (key x); [now rewrite same_sym|exact E1]).
  constructor; [exact Ek|]. apply Forall_forall. rewrite Forall_forall in H1. intros z Hz. specialize (H1 z Hz). cbn in H1.
  destruct (lt (key y) (key z)) eqn:E2; [now apply lt_trans with (key y)|]. apply lt_same_r with (key y); [exact Ek|].
  now apply neither.
Qed.
Lemma only_one k c : in_order key lt true c ->
  first_of (filter (fun z => same_key lt (key z) k) c) = filter (fun z => same_key lt (key z) k) c.
Proof.
  induction c as [|z c IHc]; [reflexivity|]. cbn. intros [H1 H2]. destruct (same_key lt (key z) k) eqn:S; [|auto].
  cbn. f_equal. symmetry. apply none_above. eapply Forall_impl; [|exact H1]. cbn. intros w. apply lt_same_l. now rewrite same_sym.
Qed.
Lemma insert_unique_key x c k : in_order key lt true c ->
  key_of k (insert_unique key lt x c) = first_of (key_of k (c ++ [x])).
Proof.
  unfold key_of, with_key. induction c as [|y c IH]; cbn [insert_unique in_order app].
  { intros _. cbn. destruct (same_key lt (key x) k); reflexivity. }
  intros [H1 H2]. specialize (IH H2).
  assert (Above : forall j, same_key lt (key y) j = true -> filter (fun z => same_key lt (key z) j) c = []).
  { intros j Sj. apply none_above. eapply Forall_impl; [|exact H1]. cbn. intros z. apply lt_same_l. now rewrite same_sym. }
  assert (Once := only_one k).
  destruct (lt (key x) (key y)) eqn:E1; [|destruct (lt (key y) (key x)) eqn:E2].
  - cbn [filter]. rewrite filter_app. cbn [filter]. destruct (same_key lt (key x) k) eqn:S.
    + assert (Ek : lt k (key y) = true) by (apply lt_same_l with (key x); [now rewrite same_sym|exact E1]).
      rewrite (same_sym _ k), (lt_same _ _ Ek).
      assert (N : filter (fun z => same_key lt (key z) k) c = []).
      { apply none_above. eapply Forall_impl; [|exact H1]. cbn. intros z. now apply lt_trans. }
      rewrite N. reflexivity.
    + rewrite app_nil_r. symmetry. apply (Once (y :: c)). split; assumption.
  - cbn [filter]. destruct (same_key lt (key y) k) eqn:S; [|exact IH]. rewrite IH, filter_app, (Above k S). cbn [app filter].
    replace (same_key lt (key x) k) with false; [reflexivity|]. symmetry.
    destruct (same_key lt (key x) k) eqn:S2; [|reflexivity].
    assert (C : same_key lt (key y) (key x) = true) by (apply same_trans with k; [exact S|now rewrite same_sym]).
    rewrite (lt_same _ _ E2) in C. discriminate.
  - cbn [filter]. rewrite filter_app. cbn [filter]. destruct (same_key lt (key y) k) eqn:S.
    + rewrite (Above k S). reflexivity.
    + replace (same_key lt (key x) k) with false.
      * rewrite app_nil_r. symmetry. apply Once. assumption.
      * symmetry. destruct (same_key lt (key x) k) eqn:S2; [|reflexivity].
        rewrite <- S. symmetry. apply same_trans with (key x); [now apply neither|exact S2].
Qed.

Lemma collect_equal vs : forall c, in_order key lt false c ->
  in_order key lt false (collect key lt EqualKeys c vs)
  /\ forall k, key_of k (collect key lt EqualKeys c vs) = key_of k (c ++ vs).
Proof.
  induction vs as [|x vs IH]; intros c Hc.
  - cbn. rewrite app_nil_r. auto.
  - destruct (IH (insert_equal key lt x c) (insert_equal_order x c Hc)) as [H1 H2]. split; [exact H1|].
    intros k. specialize (H2 k). unfold collect in *. cbn [fold_left add_element_to_range]. rewrite H2.
    pose proof (insert_equal_key x c k Hc) as HK. unfold key_of, with_key in *. rewrite filter_app, HK, !filter_app. cbn.
    destruct (same_key lt (key x) k); cbn; now rewrite <- ?app_assoc, ?app_nil_r.
Qed.
Lemma first_app {A} (a b : list A) : first_of (first_of a ++ b) = first_of (a ++ b).
Proof. destruct a; reflexivity. Qed.
Lemma collect_unique vs : forall c, in_order key lt true c ->
  in_order key lt true (collect key lt UniqueKeys c vs)
  /\ forall k, key_of k (collect key lt UniqueKeys c vs) = first_of (key_of k (c ++ vs)).
Proof.
  induction vs as [|x vs IH]; intros c Hc.
  - cbn. rewrite app_nil_r. split; [exact Hc|]. intros k. unfold key_of, with_key. symmetry. now apply only_one.
  - destruct (IH (insert_unique key lt x c) (insert_unique_order x c Hc)) as [H1 H2]. split; [exact H1|].
    intros k. specialize (H2 k). unfold collect in *. cbn [fold_left add_element_to_range]. rewrite H2.
    pose proof (insert_unique_key x c k Hc) as HK. unfold key_of, with_key in *. rewrite filter_app, HK, first_app, !filter_app, <- app_assoc.
    cbn. destruct (same_key lt (key x) k); reflexivity.
Qed.
End Keys.

Lemma collect_sequence {E K} (key : E -> K) lt vs : forall c, collect key lt Sequence c vs = c ++ vs.
Proof.
  induction vs as [|x vs IH]; intros c; [symmetry; apply app_nil_r|]. unfold collect in *. cbn [fold_left add_element_to_range].
  now rewrite IH, <- app_assoc.
Qed.

(** ** The bound *)
Lemma seq_loop_more {V} r p (elem : list Z -> outcome (V * list Z)) n : forall first s vs it,
  seq_loop r p elem n first s = Ok (vs, it) -> (length vs < n)%nat ->
  forall m, (n <= m)%nat -> seq_loop r p elem m first s = Ok (vs, it).
Proof.
  induction n as [|n IH]; intros first s vs it H HL m Hm; [inversion HL|]. destruct m as [|m]; [inversion Hm|].
  cbn [seq_loop] in *. destruct (scan_str r (p_close p) s); trivial.
  destruct (if first then Ok s else scan_str r (p_sep p) s) as [i1| | |]; try discriminate. cbn [bind] in *.
  destruct (elem i1) as [[v i2]| | |]; try discriminate. cbn [bind] in *.
  destruct (seq_loop r p elem n false i2) as [[vs' i3]| | |] eqn:E; try discriminate. cbn [bind] in *.
  injection H as <- <-. cbn in HL. rewrite (IH _ _ _ _ E ltac:(lia) m ltac:(lia)). reflexivity.
Qed.
Lemma scan_seq_more {L X} r (leaf : L -> specs -> list Z -> outcome (X * list Z)) n m p e sp s vs it :
  scan_shape r leaf (SSeq n p e) sp s = Ok (VSeq vs, it) -> (length vs < n)%nat -> (n <= m)%nat ->
  scan_shape r leaf (SSeq m p e) sp s = Ok (VSeq vs, it).
Proof.
  cbn [scan_shape]. intros H HL Hm. destruct (scan_str r (p_open p) s) as [i1| | |]; try discriminate. cbn [bind] in *.
  destruct (seq_loop r p (scan_shape r leaf e sp) n true i1) as [[vs' i2]| | |] eqn:E; try discriminate. cbn [bind] in *.
  assert (vs' = vs) as ->. { destruct (scan_str r (p_close p) i2); try discriminate. cbn in H. congruence. }
  rewrite (seq_loop_more _ _ _ _ _ _ _ _ E HL m Hm). exact H.
Qed.
