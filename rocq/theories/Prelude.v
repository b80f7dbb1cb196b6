(** Common definitions: outcomes, error codes, finite sweeps over machine bytes. *)
From Coq Require Export List ZArith Lia Bool.
From Coq Require Export ZifyBool ZifyNat ZifyN.
Export ListNotations.
Local Open Scope Z_scope.

(** scan_error::code, include/scn/scan.h:3688-3735. *)
Inductive err : Type :=
| EndOfInput
| InvalidFormatString
| InvalidScannedValue
| InvalidLiteral
| InvalidFill
| LengthTooShort
| InvalidSourceState
| ValuePositiveOverflow
| ValueNegativeOverflow
| ValuePositiveUnderflow
| ValueNegativeUnderflow.

(** Outcome of a modelled function.  [UB] stands for undefined behaviour: a
    violated SCN_EXPECT/assert, an out-of-bounds access, an exception thrown
    out of a std:: call, ...  [OutOfFuel] marks exhausted recursion fuel and is
    excluded by theorems. *)
Inductive outcome (A : Type) : Type :=
| Ok (a : A)
| Err (e : err)
| UB
| OutOfFuel.
Arguments Ok {A} a.
Arguments Err {A} e.
Arguments UB {A}.
Arguments OutOfFuel {A}.

Definition bind {A B} (m : outcome A) (f : A -> outcome B) : outcome B :=
  match m with
  | Ok a => f a
  | Err e => Err e
  | UB => UB
  | OutOfFuel => OutOfFuel
  end.

Notation "x <- m ;; k" := (bind m (fun x => k))
  (at level 61, m at next level, right associativity).
Notation "' p <- m ;; k" := (bind m (fun p => k))
  (at level 61, p pattern, m at next level, right associativity).

(** [s] is a string of code units below [2^bits]. *)
Definition unitsb (lim : Z) (s : list Z) : bool :=
  forallb (fun c => (0 <=? c) && (c <? lim)) s.
Definition bytesb (s : list Z) : bool := unitsb 256 s.
Definition is_byte (c : Z) : Prop := 0 <= c < 256.
Definition bytes (s : list Z) : Prop := Forall is_byte s.

Lemma bytesb_bytes s : bytesb s = true <-> bytes s.
Proof.
  unfold bytesb, unitsb, bytes; rewrite forallb_forall, Forall_forall.
  unfold is_byte; split; intros H x Hx; specialize (H x Hx); lia.
Qed.

Fixpoint zseq (start : Z) (n : nat) : list Z :=
  match n with
  | O => []
  | S n' => start :: zseq (start + 1) n'
  end.

Lemma in_zseq n : forall start x,
  In x (zseq start n) <-> start <= x < start + Z.of_nat n.
Proof.
  induction n as [|n IH]; intros start x; cbn [zseq In]; [lia|].
  rewrite IH; lia.
Qed.

(** Lifting a finite computation to all integers of an interval. *)
Lemma sweep (P : Z -> bool) (lo : Z) (n : nat) :
  forallb P (zseq lo n) = true ->
  forall x, lo <= x < lo + Z.of_nat n -> P x = true.
Proof.
  intros H x Hx; rewrite forallb_forall in H; apply H, in_zseq, Hx.
Qed.

Lemma sweep_byte (P : Z -> bool) :
  forallb P (zseq 0 256) = true -> forall x, is_byte x -> P x = true.
Proof.
  intros H x Hx; apply (sweep P 0 256 H); unfold is_byte in Hx; lia.
Qed.

Lemma skipn_len_app {A} (a b : list A) : skipn (length a) (a ++ b) = b.
Proof. induction a; simpl; auto. Qed.

Lemma firstn_len_app {A} (a b : list A) : firstn (length a) (a ++ b) = a.
Proof. induction a; simpl; f_equal; auto. Qed.

Lemma bytes_app a b : bytes (a ++ b) <-> bytes a /\ bytes b.
Proof. apply Forall_app. Qed.

Lemma bytes_skipn n s : bytes s -> bytes (skipn n s).
Proof.
  intros H; unfold bytes in *; rewrite Forall_forall in *; intros x Hx.
  apply H. rewrite <- (firstn_skipn n s). apply in_or_app; auto.
Qed.

Lemma bytes_firstn n s : bytes s -> bytes (firstn n s).
Proof.
  intros H; unfold bytes in *; rewrite Forall_forall in *; intros x Hx.
  apply H. rewrite <- (firstn_skipn n s). apply in_or_app; auto.
Qed.
