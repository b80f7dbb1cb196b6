(** Property C35: the fraction of a second, as a double. *)
From Coq Require Import QArith Qabs Lqa.
From Verif Require Import Prelude UnicodeModel ReadModel SpecsModel FormatModel VscanModel VscanProperties ChronoModel IntModel.
Import Coq.Strings.String.StringSyntax.
Local Open Scope Z_scope.

(** * Doubles *)
(** The numbers with 53 significant bits (the bounds of the exponent play no part between
    1/2 and 1). *)
Definition is_double (q : Q) : Prop :=
  exists m e, Z.abs m < 2 ^ 53 /\ 0 <= e /\ (q == inject_Z (m * 2 ^ e) \/ q == inject_Z m / inject_Z (2 ^ e))%Q.
(** [d] is a double nearest to [x], as the conversion routines round. *)
Definition nearest (x d : Q) : Prop :=
  is_double d /\ forall d', is_double d' -> (Qabs (d - x) <= Qabs (d' - x))%Q.
(** The number shown by "0." and these digits. *)
Fixpoint digits_value (ds : list Z) (acc : Z) : Z :=
  match ds with [] => acc | c :: ds' => digits_value ds' (10 * acc + (c - 48)) end.
Definition fraction (ds : list Z) : Q := (inject_Z (digits_value ds 0) / inject_Z (10 ^ Z.of_nat (List.length ds)))%Q.

(** There is no double between 1 - 2^-53 and 1. *)
Lemma below_one d : is_double d -> (d < 1)%Q -> (d <= 1 - (1 # 9007199254740992))%Q.
Proof.
  intros (m & k & Hm & Hk & E) Hd. change (1 - (1 # 9007199254740992))%Q with (9007199254740991 # 9007199254740992)%Q.
  assert (Hp : 0 < 2 ^ k) by (apply Z.pow_pos_nonneg; lia).
  destruct E as [E|E]; rewrite E in *.
  - change 1%Q with (inject_Z 1) in Hd. rewrite <- Zlt_Qlt in Hd. apply Qle_trans with (inject_Z 0); [rewrite <- Zle_Qle; lia|discriminate].
  - assert (HQ : (0 < inject_Z (2 ^ k))%Q) by (change 0%Q with (inject_Z 0); rewrite <- Zlt_Qlt; exact Hp).
    assert (Hmk : m < 2 ^ k).
    { apply (Qmult_lt_compat_r _ _ (inject_Z (2 ^ k))) in Hd; trivial. unfold Qdiv in Hd.
      rewrite <- Qmult_assoc, (Qmult_comm (/ _)), Qmult_inv_r, Qmult_1_r, Qmult_1_l in Hd by (intros N; rewrite N in HQ; discriminate HQ).
      now rewrite <- Zlt_Qlt in Hd. }
    apply Qle_shift_div_r; trivial.
    assert (Hz : m * 9007199254740992 <= 9007199254740991 * 2 ^ k).
    { change (2 ^ 53) with 9007199254740992 in Hm. destruct (Z.le_gt_cases k 53) as [Hk3|Hk3].
      - assert (H : 2 ^ k <= 2 ^ 53) by (apply Z.pow_le_mono_r; lia). change (2 ^ 53) with 9007199254740992 in H. nia.
      - assert (H : 2 ^ 53 < 2 ^ k) by (apply Z.pow_lt_mono_r; lia). change (2 ^ 53) with 9007199254740992 in H. nia. }
    unfold Qle, inject_Z, Qmult. cbn [Qnum Qden]. lia.
Qed.
Lemma one_double : is_double 1.
Proof. exists 1, 0. split; [reflexivity|]. split; [lia|]. left. reflexivity. Qed.

(** * Seconds *)
(** The fraction of a second is smaller than 1, but the double nearest to it is 1 if it is
    written with enough nines; then the assertion of its range fails. *)
Definition nines : list Z := T "99999999999999999999".
Theorem C35_fraction_refuted : exists ds, (0 <= fraction ds < 1)%Q
  /\ forall D (val : D -> Q) scan_double in_unit time_get point d,
     (forall d, in_unit d = true <-> (0 <= val d < 1)%Q) ->
     scan_double (T "0." ++ ds) = Ok d -> nearest (fraction ds) (val d) ->
     chrono_arg D scan_double in_unit time_get point string_src narrow Components (T "%.S}") (T "01." ++ ds) = UB.
Proof.
  exists nines. split; [split; vm_compute; congruence|]. intros D val sd iu tg pt d Hu Hs [Hd Hn].
  assert (H1 : iu d = false).
  { destruct (iu d) eqn:E; trivial. apply Hu in E. destruct E as [E0 E1]. apply below_one in E1; trivial.
    exfalso. specialize (Hn 1%Q one_double). rewrite Qabs_neg in Hn.
    - rewrite Qabs_pos in Hn by (vm_compute; discriminate).
      assert (F : (fraction nines == 99999999999999999999 # 100000000000000000000)%Q) by (vm_compute; reflexivity). rewrite F in Hn. lra.
    - assert (F : (fraction nines == 99999999999999999999 # 100000000000000000000)%Q) by (vm_compute; reflexivity). rewrite F. lra. }
  unfold chrono_arg. set (x := chrono_parse _ _ _). vm_compute in x. subst x. cbn [bind].
  unfold chrono_scan. set (x := skip_classic_whitespace _ _ _). vm_compute in x. subst x. cbn [bind].
  unfold parse_chrono_format_specs. cbn -[rd_on]. unfold rd_on, rd_conv. cbn -[rd_basic]. unfold rd_basic, rd_subsecond.
  set (x := read_int _ _ _ _). vm_compute in x. subst x.
  cbn -[scan_string].
  set (x := scan_string _ _ _ _). vm_compute in x. subst x.
  cbn -[scan_string]. let t := eval vm_compute in (T "0." ++ nines) in change (T "0." ++ nines) with t in Hs.
  rewrite Hs. cbn. rewrite H1. reflexivity.
Qed.
Print Assumptions C35_fraction_refuted.
(** The nearest double is 1. *)
Example C35_fraction_ex : nearest (fraction nines) 1.
Proof.
  assert (F : (fraction nines == 99999999999999999999 # 100000000000000000000)%Q) by (vm_compute; reflexivity).
  split; [exact one_double|]. intros d' Hd. rewrite F. rewrite (Qabs_pos (1 - _)) by (vm_compute; discriminate).
  destruct (Qlt_le_dec d' 1) as [H|H].
  - apply below_one in H; trivial. rewrite Qabs_neg by lra. lra.
  - rewrite Qabs_pos by lra. lra.
Qed.
