(** C39: scanning through [operator>>]. *)
From Verif Require Import Prelude IstreamModel IstreamSpec.
Local Open Scope Z_scope.

Definition matches (s : list Z) (p : nat) (used seen : bool) (b : sbuf) : Prop :=
  sb_back b = used /\ (p <= length s)%nat /\
  if seen then sb_ch b = nth_error s p /\ sb_ch b <> None /\ sb_prev b = p /\ sb_begin b = S p
  else sb_ch b = None /\ sb_begin b = p /\ (used = false -> sb_prev b = Nat.pred p).

Lemma srun_ok s fl : forall ops p used seen b, matches s p used seen b ->
  moderate s p used seen ops ->
  exists b', srun s ops b = Ok (fst (answers s p ops), b') /\
    (f_fail fl = false -> f_bad fl = false ->
     istream_scan fl b' = Ok (snd (answers s p ops))).
Proof.
  induction ops as [|o ops IH]; intros p used seen b M HM.
  - cbn. exists b. split; [reflexivity|]. intros F1 F2. unfold istream_scan. rewrite F1, F2. cbn.
    destruct M as (_ & _ & M). destruct seen.
    + destruct M as (M1 & M2 & M3 & M4). destruct (sb_ch b); [|congruence]. rewrite M3; reflexivity.
    + destruct M as (M1 & M2 & M3). rewrite M1, M2; reflexivity.
  - destruct M as (MU & ML & M).
    assert (STEP : exists x b1, sstep s o b = Ok (x, b1) /\
      exists p' u' s', matches s p' u' s' b1 /\ moderate s p' u' s' ops /\
        answers s p (o :: ops) = (x :: fst (answers s p' ops), snd (answers s p' ops))).
    { destruct o as [| | |c]; cbn [sstep moderate answers] in *.
      - unfold underflow. destruct seen.
        + destruct M as (M1 & M2 & M3 & M4).
          destruct (sb_ch b) as [c|] eqn:EC; [|congruence].
          do 2 eexists; split; [reflexivity|]. exists p, used, true.
          split; [unfold matches; rewrite EC; repeat split; auto; discriminate|].
          split; [exact HM|]. rewrite <- M1. destruct (answers s p ops); reflexivity.
        + destruct M as (M1 & M2 & M3). rewrite M1, M2.
          destruct (nth_error s p) as [c|] eqn:EN.
          * do 2 eexists; split; [reflexivity|]. exists p, used, true.
            split; [unfold matches; cbn; repeat split; auto; discriminate|].
            split; [exact HM|]. destruct (answers s p ops); reflexivity.
          * do 2 eexists; split; [reflexivity|]. exists p, used, false.
            split; [unfold matches; repeat split; auto|].
            split; [exact HM|]. destruct (answers s p ops); reflexivity.
      - unfold uflow, underflow. destruct seen.
        + destruct M as (M1 & M2 & M3 & M4).
          destruct (sb_ch b) as [c|] eqn:EC; [|congruence].
          do 2 eexists; split; [reflexivity|]. exists (S p), used, false.
          rewrite <- M1 in HM |- *.
          assert (p < length s)%nat by (apply nth_error_Some; congruence).
          split; [unfold matches; cbn; repeat split; auto; lia|].
          split; [exact HM|]. destruct (answers s (S p) ops); reflexivity.
        + destruct M as (M1 & M2 & M3). rewrite M1, M2.
          destruct (nth_error s p) as [c|] eqn:EN.
          * do 2 eexists; split; [reflexivity|]. exists (S p), used, false.
            assert (p < length s)%nat by (apply nth_error_Some; congruence).
            split; [unfold matches; cbn; repeat split; auto; lia|].
            split; [exact HM|]. destruct (answers s (S p) ops); reflexivity.
          * do 2 eexists; split; [reflexivity|]. exists p, used, false.
            split; [unfold matches; repeat split; auto|].
            split; [exact HM|]. destruct (answers s p ops); reflexivity.
      - destruct HM as (-> & -> & HP & HM). destruct M as (M1 & M2 & M3).
        unfold pbackfail. rewrite MU. cbn [bind].
        do 2 eexists; split; [reflexivity|]. exists (Nat.pred p), true, false.
        rewrite (M3 eq_refl).
        split; [unfold matches; cbn; repeat split; auto; [lia|discriminate]|].
        split; [exact HM|].
        replace (Nat.pred p <? length s)%nat with true by (symmetry; apply Nat.ltb_lt; lia).
        replace (0 <? p)%nat with true by (symmetry; apply Nat.ltb_lt; lia).
        destruct (answers s (Nat.pred p) ops); reflexivity.
      - contradiction. }
    destruct STEP as (x & b1 & E & p' & u' & s' & M' & HM' & EA).
    destruct (IH p' u' s' b1 M' HM') as (b' & E' & R).
    cbn [srun]. rewrite E; cbn [bind]. rewrite E'; cbn [bind]. rewrite EA. cbn [fst snd].
    exists b'. auto.
Qed.

(** C39, for every source and every sequence of stream operations with at most one [unget],
    not directly after a successful [peek]: every answer is right, no precondition is
    violated, and when the extraction succeeds the position returned is right after the
    characters extracted.  Missing: further [unget]s and [putback]; refuted below. *)
Theorem C39_partial s ops fl :
  moderate s 0 false false ops ->
  exists b', srun s ops streambuf = Ok (fst (answers s 0 ops), b') /\
    (f_fail fl = false -> f_bad fl = false -> istream_scan fl b' = Ok (snd (answers s 0 ops))).
Proof.
  refine (fun H => srun_ok s fl ops 0 false false streambuf _ H).
  unfold matches; cbn. repeat split; auto. lia.
Qed.
Print Assumptions C39_partial.

Example C39_ex :
  moderate [49; 50; 32] 0 false false [Peek; Get; Peek; Get; Get; Unget; Peek; Peek] /\
  answers [49; 50; 32] 0 [Peek; Get; Peek; Get; Get; Unget; Peek; Peek] =
    ([Got (Some 49); Got (Some 49); Got (Some 50); Got (Some 50); Got (Some 32); Done true;
      Got (Some 32); Got (Some 32)], 2%nat).
Proof. split; [cbn; repeat split; lia|reflexivity]. Qed.

(** Without [unget] there is no restriction. *)
Lemma no_unget_moderate s : forall ops p used seen,
  (forall o, In o ops -> o = Peek \/ o = Get) -> moderate s p used seen ops.
Proof.
  induction ops as [|o ops IH]; intros p used seen H; [exact I|].
  destruct (H o (or_introl eq_refl)) as [->| ->]; cbn [moderate]; apply IH; firstorder.
Qed.
Theorem C39_get_peek s ops fl :
  (forall o, In o ops -> o = Peek \/ o = Get) ->
  exists b', srun s ops streambuf = Ok (fst (answers s 0 ops), b') /\
    (f_fail fl = false -> f_bad fl = false -> istream_scan fl b' = Ok (snd (answers s 0 ops))).
Proof.
  exact (fun H => C39_partial s ops fl (no_unget_moderate s ops 0 false false H)).
Qed.
Print Assumptions C39_get_peek.

Example C39_get_peek_ex : forall o, In o [Get; Peek; Get] -> o = Peek \/ o = Get.
Proof. intros o [<-|[<-|[<-|[]]]]; auto. Qed.

(** An [unget] after a [peek] does not go back: the position returned is behind a character
    that was put back. *)
Theorem C39_peek_unget_refuted :
  exists s ops b', srun s ops streambuf = Ok (fst (answers s 0 ops), b') /\
    snd (answers s 0 ops) = 0%nat /\
    istream_scan (Flags false false false) b' = Ok 1%nat.
Proof.
  exists [97; 98], [Get; Peek; Unget]. eexists. split; [vm_compute; reflexivity|].
  split; vm_compute; reflexivity.
Qed.
Print Assumptions C39_peek_unget_refuted.

(** ... and what is read after it is wrong as well: a character is seen twice, another one
    not at all. *)
Theorem C39_peek_unget_get_refuted :
  exists s ops xs b', srun s ops streambuf = Ok (xs, b') /\
    fst (answers s 0 ops) =
      [Got (Some 97); Got (Some 98); Done true; Got (Some 97); Got (Some 98)] /\
    xs = [Got (Some 97); Got (Some 98); Done true; Got (Some 98); Got (Some 98)].
Proof.
  exists [97; 98], [Get; Peek; Unget; Get; Get]. eexists. eexists.
  split; [vm_compute; reflexivity|]. split; vm_compute; reflexivity.
Qed.
Print Assumptions C39_peek_unget_get_refuted.

(** A second [unget], even after reading on, and any [putback] violate a precondition. *)
Theorem C39_second_unget_refuted :
  exists s ops, srun s ops streambuf = UB /\ ops = [Get; Unget; Get; Unget].
Proof. exists [97; 98]. eexists. split; [|reflexivity]. vm_compute. reflexivity. Qed.
Print Assumptions C39_second_unget_refuted.
Theorem C39_putback_refuted :
  exists s ops, srun s ops streambuf = UB /\ ops = [Get; Putback 97].
Proof. exists [97; 98]. eexists. split; [|reflexivity]. vm_compute. reflexivity. Qed.
Print Assumptions C39_putback_refuted.
(** An [unget] before anything was read is reported as successful. *)
Theorem C39_unget_at_start_refuted :
  exists s b', srun s [Unget] streambuf = Ok ([Done true], b') /\
    fst (answers s 0 [Unget]) = [Done false].
Proof. exists [97]. eexists. split; vm_compute; reflexivity. Qed.
Print Assumptions C39_unget_at_start_refuted.

(** A failed extraction is never taken for a value, whatever was read: it is the end of the
    input exactly if the stream met the end of its source, a broken source exactly if the
    stream says so otherwise, and a value that does not parse in the remaining cases. *)
Theorem C39_failures fl b :
  ((exists p, istream_scan fl b = Ok p) <-> f_fail fl = false /\ f_bad fl = false) /\
  (istream_scan fl b = Err EndOfInput <->
     (f_fail fl = true \/ f_bad fl = true) /\ f_eof fl = true) /\
  (istream_scan fl b = Err InvalidSourceState <-> f_bad fl = true /\ f_eof fl = false) /\
  (istream_scan fl b = Err InvalidScannedValue <->
     f_fail fl = true /\ f_bad fl = false /\ f_eof fl = false).
Proof.
  unfold istream_scan. destruct fl as [[] [] []], (sb_ch b); cbn;
    repeat split; intros; repeat match goal with
      | H : exists _, _ |- _ => destruct H
      | H : _ /\ _ |- _ => destruct H
      | H : _ \/ _ |- _ => destruct H
      end; try congruence; eauto.
Qed.
Print Assumptions C39_failures.

Example C39_failures_ex : exists b,
  srun [97] [Get; Get] streambuf = Ok ([Got (Some 97); Got None], b) /\
  istream_scan (Flags true true false) b = Err EndOfInput.
Proof. eexists. split; vm_compute; reflexivity. Qed.
