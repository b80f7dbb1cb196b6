(** Proofs for property C68. *)
From Coq Require Import Permutation.
From Verif Require Import Prelude UnicodeModel SpecsModel ArgsModel FormatModel FormatSpec FormatSpecProofs VscanModel VscanSpec VscanSpecProofs DocTypesSpec DocTypesProofs NumberedSpec.
Local Open Scope Z_scope.

Definition relabel {V} (o : list Z) (x : outcome (list (Z * V) * list Z)) : outcome (list (Z * V) * list Z) :=
  '(log, rest) <- x ;; Ok (relabelled o log, rest).

Section Numbered.
Context {D : Type}.
Variable n : Z.
Variable o : list Z.
Hypothesis Hn : 0 <= n.
Hypothesis Ho : Permutation o (zseq 0 (Z.to_nat n)).
Lemma o_length : Z.of_nat (length o) = n.
Proof. rewrite (Permutation_length Ho). clear -Hn. assert (H : forall k i, length (zseq i k) = k) by (induction k; cbn; congruence). rewrite H. lia. Qed.
Lemma o_range i : In i o -> 0 <= i < n.
Proof. intros H. apply (Permutation_in _ Ho) in H. apply in_zseq in H. lia. Qed.
Lemma o_all i : 0 <= i < n -> In i o.
Proof. intros H. apply (Permutation_in _ (Permutation_sym Ho)). apply in_zseq. lia. Qed.
Lemma o_nodup : NoDup o.
Proof.
  eapply Permutation_NoDup; [apply Permutation_sym, Ho|]. clear. generalize 0. induction (Z.to_nat n) as [|k IH]; intros i; cbn; constructor; [|apply IH].
  intros H. apply in_zseq in H. lia.
Qed.
Lemma existsb_in i l : existsb (Z.eqb i) l = true <-> In i l.
Proof. rewrite existsb_exists. split; [intros (x & H & E); apply Z.eqb_eq in E; subst; exact H|intros H; exists i; split; [exact H|apply Z.eqb_refl]]. Qed.
Lemma covers_in l : covers n l = true <-> forall i, 0 <= i < n -> In i l.
Proof.
  unfold covers. rewrite forallb_forall. split; intros H i Hi.
  - apply existsb_in, H, in_zseq. lia.
  - apply existsb_in, H. apply in_zseq in Hi. lia.
Qed.
(** The fields read so far, by their numbers and by their places. *)
Definition paired (done used used' : list Z) : Prop :=
  (forall i, In i used' <-> In i done) /\ (forall i, In i used <-> 0 <= i < Z.of_nat (length done)).
Lemma covers_paired done todo used used' : o = done ++ todo -> paired done used used' -> covers n used = covers n used'.
Proof.
  intros E [H1 H2]. apply Bool.eq_true_iff_eq. rewrite !covers_in. split; intros H i Hi.
  - apply H1. assert (HL := o_length). destruct todo as [|t todo].
    + rewrite app_nil_r in E. subst done. apply o_all, Hi.
    + exfalso. rewrite E, app_length in HL. cbn [length] in HL. assert (HX : 0 <= n - 1 < n) by lia. apply H, H2 in HX. lia.
  - apply H2. assert (HL := o_length). enough (todo = []) by (subst todo; rewrite E, app_nil_r in HL; lia).
    destruct todo as [|t todo]; [reflexivity|]. exfalso. assert (HN := o_nodup). rewrite E in HN. apply NoDup_remove_2 in HN. apply HN.
    apply in_app_iff. left. apply H1, H. apply o_range. rewrite E. apply in_app_iff. right. left. reflexivity.
Qed.
Lemma paired_snoc done i used used' : paired done used used' -> paired (done ++ [i]) (Z.of_nat (length done) :: used) (i :: used').
Proof.
  intros [H1 H2]. split; intros j; cbn [In].
  - rewrite H1, in_app_iff. cbn [In]. tauto.
  - rewrite H2, app_length. cbn [length]. lia.
Qed.

Variable V : Type.
Variable e : enc.
Variable read read' : Z -> option D -> list Z -> outcome (V * list Z).
Variable fail fail' : list Z -> err -> err.
Hypothesis Hread : forall k d s, (k < length o)%nat -> read' (nth k o 0) d s = read (Z.of_nat k) d s.
Hypothesis Hfail : forall u u' x, covers n u = covers n u' -> fail' u' x = fail u x.
Lemma run_numbered ok : forall ts done used used' next' ws s log, all_numbered ts -> o = done ++ order ts -> paired done used used' ->
  run V e n read' ok fail' ts next' used' ws s (relabelled o log)
  = relabel o (run V e n read ok fail (map unnumbered ts) (Z.of_nat (length done)) used ws s log).
Proof.
  induction ts as [|[c|id d] ts IH]; intros done used used' next' ws s log HA E HP; cbn [run map unnumbered].
  - rewrite <- (covers_paired _ _ _ _ E HP). destruct (covers n used); reflexivity.
  - assert (HA' : all_numbered ts) by (intros id d H; apply (HA id d); right; exact H).
    destruct (is_ws c).
    + destruct ws; [apply IH; assumption|]. destruct s; [destruct ok; [apply IH; assumption|reflexivity]|apply IH; assumption].
    + destruct s as [|y s]; [reflexivity|]. destruct (y =? c); [apply IH; assumption|reflexivity].
  - destruct id as [ds|]; [|exfalso; apply (HA None d); [left|]; reflexivity].
    assert (HA' : all_numbered ts) by (intros id d' H; apply (HA id d'); right; exact H).
    cbn [order flat_map app] in E. fold (order ts) in E. cbv zeta. assert (HL := o_length).
    set (i := number ds) in *. set (k := length done).
    assert (HK : (k < length o)%nat) by (rewrite E, app_length; unfold k; cbn; lia).
    assert (EI : nth k o 0 = i) by (rewrite E, app_nth2, Nat.sub_diag by (unfold k; lia); reflexivity).
    assert (HI : 0 <= i < n) by (apply o_range; rewrite E; apply in_app_iff; right; left; reflexivity).
    replace (n <=? i) with false by lia. replace (n <=? Z.of_nat k) with false by lia.
    replace (existsb (Z.eqb i) used') with false.
    2: { symmetry. apply Bool.not_true_iff_false. intros H. apply existsb_in in H. apply (proj1 HP) in H.
         assert (HN := o_nodup). rewrite E in HN. apply NoDup_remove_2 in HN. apply HN, in_app_iff. left. exact H. }
    replace (existsb (Z.eqb (Z.of_nat k)) used) with false.
    2: { symmetry. apply Bool.not_true_iff_false. intros H. apply existsb_in in H. apply (proj2 HP) in H. unfold k in H. lia. }
    cbn [orb]. rewrite <- EI, Hread by exact HK.
    assert (HP' : paired (done ++ [i]) (Z.of_nat k :: used) (nth k o 0 :: used')) by (rewrite EI; apply paired_snoc, HP).
    assert (E' : o = (done ++ [i]) ++ order ts) by (rewrite <- app_assoc; exact E).
    destruct (read (Z.of_nat k) d s) as [[v s']|x| |]; try reflexivity.
    + specialize (IH (done ++ [i]) (Z.of_nat k :: used) (nth k o 0 :: used') (next' + 1) false s' (log ++ [(Z.of_nat k, v)]) HA' E' HP').
      rewrite app_length in IH. cbn [length] in IH. rewrite Nat2Z.inj_add in IH. change (Z.of_nat 1) with 1 in IH. fold k in IH. rewrite <- IH.
      f_equal. unfold relabelled. rewrite map_app. cbn [map]. rewrite Nat2Z.id. reflexivity.
    + cbn [relabel bind]. f_equal. apply Hfail, (covers_paired _ _ _ _ E' HP').
Qed.
End Numbered.

(** * Well-formed format strings *)
Lemma unnumbered_align e (ts : list token) : starts_align (render e (map unnumbered ts)) = starts_align (render e ts).
Proof. destruct ts as [|[c|id d] ts]; cbn; [reflexivity| |reflexivity]. unfold tokens_text. cbn [flat_map token_text]. destruct (c =? 123), (c =? 125); reflexivity. Qed.
Lemma wf_desc_align rb e t d rest rest' : starts_align rest' = starts_align rest -> wf_desc rb e t d rest -> wf_desc rb e t d rest'.
Proof. intros E (H1 & H2 & H3 & H4 & H5 & H6 & H7 & H8). unfold wf_desc. rewrite E. auto 10. Qed.
Lemma unnumbered_wf cf types types' o : (forall k, (k < length o)%nat -> nth_error types' k = nth_error types (Z.to_nat (nth k o 0))) ->
  forall ts done next, all_numbered ts -> o = done ++ order ts -> wf_tok cf types ts next -> wf_tok cf types' (map unnumbered ts) (Z.of_nat (length done)).
Proof.
  intros HT. unfold wf_tok. induction ts as [|[c|id d] ts IH]; intros done next HA E; cbn [wf_gtokens map unnumbered]; [trivial| |];
    assert (HA' : all_numbered ts) by (intros id' d' H; apply (HA id' d'); right; exact H).
  - intros [H1 H2]. split; [exact H1|]. eapply IH; eassumption.
  - intros (_ & H2 & H3). split; [exact I|].
    destruct id as [ds|]; [|exfalso; apply (HA None d); [left|]; reflexivity].
    cbn [order flat_map app] in E. fold (order ts) in E. split.
    + intros d' -> t Ht. apply wf_desc_align with (rest := render (c_enc cf) ts); [apply unnumbered_align|].
      apply (H2 d' eq_refl). rewrite <- Ht, Nat2Z.id, HT by (rewrite E, app_length; cbn; lia).
      rewrite E, app_nth2, Nat.sub_diag by lia. reflexivity.
    + replace (Z.of_nat (length done) + 1) with (Z.of_nat (length (done ++ [number ds]))) by (rewrite app_length; cbn; lia).
      eapply IH; [exact HA'| |exact H3]. rewrite <- app_assoc. exact E.
Qed.
Lemma unnumbered_uniform (ts : list token) : uniform (map unnumbered ts).
Proof. left. intros id d H. apply in_map_iff in H. destruct H as ([c|id' d'] & E & _); cbn in E; congruence. Qed.
(** * At compile time *)
Section Check.
Context {D : Type}.
Lemma index_numbered n o : 0 <= n -> Permutation o (zseq 0 (Z.to_nat n)) -> forall (ts : list (gtoken D)) done used used' next',
  all_numbered ts -> o = done ++ order ts -> paired done used used' ->
  index_ok n ts next' used' = true /\ index_ok n (map unnumbered ts) (Z.of_nat (length done)) used = true.
Proof.
  intros Hn Ho. assert (HL := o_length n o Hn Ho).
  induction ts as [|[c|id d] ts IH]; intros done used used' next' HA E HP; cbn [index_ok map unnumbered].
  - rewrite <- (covers_paired n o Hn Ho _ _ _ _ E HP). split; apply (covers_in n); intros i Hi; apply (proj2 HP);
      cbn [order flat_map] in E; rewrite app_nil_r in E; subst done; lia.
  - eapply IH; try eassumption. intros id d H. apply (HA id d). right. exact H.
  - destruct id as [ds|]; [|exfalso; apply (HA None d); [left|]; reflexivity].
    assert (HA' : all_numbered ts) by (intros id d' H; apply (HA id d'); right; exact H).
    cbn [order flat_map app] in E. fold (order ts) in E. cbv zeta.
    set (i := number ds) in *. set (k := length done).
    assert (HK : (k < length o)%nat) by (rewrite E, app_length; unfold k; cbn; lia).
    assert (HI : 0 <= i < n) by (apply (o_range n o Ho); rewrite E; apply in_app_iff; right; left; reflexivity).
    replace (n <=? i) with false by lia. replace (n <=? Z.of_nat k) with false by lia.
    replace (existsb (Z.eqb i) used') with false.
    2: { symmetry. apply Bool.not_true_iff_false. intros H. apply existsb_in in H. apply (proj1 HP) in H.
         assert (HN := o_nodup n o Ho). rewrite E in HN. apply NoDup_remove_2 in HN. apply HN, in_app_iff. left. exact H. }
    replace (existsb (Z.eqb (Z.of_nat k)) used) with false.
    2: { symmetry. apply Bool.not_true_iff_false. intros H. apply existsb_in in H. apply (proj2 HP) in H. unfold k in H. lia. }
    cbn [orb]. replace (Z.of_nat k + 1) with (Z.of_nat (length (done ++ [i]))) by (rewrite app_length; cbn; lia).
    apply IH; [exact HA'|rewrite <- app_assoc; exact E|apply paired_snoc, HP].
Qed.
End Check.
Lemma each_numbered types types' P o : (forall k, (k < length o)%nat -> nth_error types' k = nth_error types (Z.to_nat (nth k o 0))) ->
  forall ts done next, all_numbered ts -> o = done ++ order ts ->
  each_field types P ts next = each_field types' P (map unnumbered ts) (Z.of_nat (length done)).
Proof.
  intros HT. induction ts as [|[c|id d] ts IH]; intros done next HA E; cbn [each_field map unnumbered]; [reflexivity| |];
    assert (HA' : all_numbered ts) by (intros id' d' H; apply (HA id' d'); right; exact H).
  - apply IH; assumption.
  - destruct id as [ds|]; [|exfalso; apply (HA None d); [left|]; reflexivity].
    cbn [order flat_map app] in E. fold (order ts) in E. rewrite Nat2Z.id, HT by (rewrite E, app_length; cbn; lia).
    replace (nth (length done) o 0) with (number ds) by (rewrite E, app_nth2, Nat.sub_diag by lia; reflexivity).
    destruct (nth_error types _) as [t|]; [|reflexivity]. f_equal.
    replace (Z.of_nat (length done) + 1) with (Z.of_nat (length (done ++ [number ds]))) by (rewrite app_length; cbn; lia).
    apply IH; [exact HA'|]. rewrite <- app_assoc. exact E.
Qed.
Lemma reordered_nth {A} o (x : A) l : (forall i, In i o -> (Z.to_nat i < length l)%nat) -> forall k, (k < length o)%nat ->
  nth_error (reordered o x l) k = nth_error l (Z.to_nat (nth k o 0)).
Proof.
  intros H k Hk. unfold reordered. rewrite nth_error_map. assert (HI := nth_In o 0 Hk). rewrite (nth_error_nth' o 0 Hk). cbn [option_map].
  symmetry. apply nth_error_nth', H, HI.
Qed.
