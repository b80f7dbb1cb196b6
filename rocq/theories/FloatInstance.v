(** A conversion satisfying the contract [converts]: exact rationals with the range of
    double.  It decides the grammar by trying all splits and shows that the hypotheses of
    the theorems about floats can be met; it models no code. *)
From Verif Require Import Prelude Tables ReadModel IntModel IntSpec IntProofs FloatModel FloatSpec FloatProofs.
Local Open Scope Z_scope.

(** ** Deciding the grammar *)

Definition splits (t : list Z) : list (list Z * list Z) :=
  map (fun n => (firstn n t, skipn n t)) (seq 0 (S (length t))).
Lemma splits_ok t a b : In (a, b) (splits t) <-> t = a ++ b.
Proof.
  unfold splits. rewrite in_map_iff. split.
  - intros (n & [= <- <-] & _). now rewrite firstn_skipn.
  - intros ->. exists (length a). split.
    + rewrite firstn_app, firstn_all, Nat.sub_diag, skipn_app, skipn_all, Nat.sub_diag. cbn. now rewrite app_nil_r.
    + apply in_seq. rewrite app_length. lia.
Qed.
Lemma exists_split (p : list Z * list Z -> bool) t :
  existsb p (splits t) = true <-> exists a b, t = a ++ b /\ p (a, b) = true.
Proof.
  rewrite existsb_exists. split.
  - intros ([a b] & H & Hp). apply splits_ok in H. eauto.
  - intros (a & b & H & Hp). exists (a, b). split; [now apply splits_ok|exact Hp].
Qed.

Definition digit_b (b c : Z) : bool := char_to_int c <? b.
Lemma digit_b_ok b c : b <= 36 -> digit_b b c = true <-> is_digit b c.
Proof.
  intros Hb. split.
  - now apply digitP.
  - intros H. unfold digit_b. destruct (char_to_int c <? b) eqn:E; [reflexivity|]. exfalso. apply (proj1 (digitN b c Hb) E H).
Qed.
Definition digits_b (b : Z) (t : list Z) : bool := forallb (digit_b b) t.
Lemma digits_b_ok b t : b <= 36 -> digits_b b t = true <-> Forall (is_digit b) t.
Proof.
  intros Hb. unfold digits_b. rewrite forallb_forall, Forall_forall.
  split; intros H x Hx; specialize (H x Hx); now apply (digit_b_ok b x Hb).
Qed.
Definition nonempty (t : list Z) : bool := match t with [] => false | _ => true end.
Lemma nonempty_ok t : nonempty t = true <-> t <> [].
Proof. destruct t; cbn; split; congruence. Qed.

Definition significand_b (b : Z) (t : list Z) : bool :=
  (digits_b b t && nonempty t)
  || existsb (fun '(w, r) => match r with
       | [] => false
       | c :: f => (c =? 46) && digits_b b w && digits_b b f && nonempty (w ++ f)
       end) (splits t).
Lemma significand_b_ok b t : b <= 36 -> significand_b b t = true <-> significand b t.
Proof.
  intros Hb. unfold significand_b, significand. rewrite orb_true_iff, exists_split. split.
  - intros [H|(w & r & -> & H)].
    + apply andb_prop in H. destruct H as [H1 H2]. apply digits_b_ok in H1; [|exact Hb]. apply nonempty_ok in H2.
      exists t, []. rewrite app_nil_r. auto.
    + destruct r as [|c f]; [discriminate|]. rewrite !andb_true_iff in H. destruct H as [[[H1 H2] H3] H4].
      apply Z.eqb_eq in H1. subst c. apply digits_b_ok in H2; [|exact Hb]. apply digits_b_ok in H3; [|exact Hb]. apply nonempty_ok in H4.
      exists w, f. auto.
  - intros (w & f & [[-> ->] | ->] & Hw & Hf & Hn).
    + left. rewrite app_nil_r in Hn. apply andb_true_intro. split; [now apply digits_b_ok|now apply nonempty_ok].
    + right. exists w, (46 :: f). split; [reflexivity|]. rewrite !andb_true_iff. repeat split; [now apply digits_b_ok..|now apply nonempty_ok].
Qed.

Definition sign_b (t : list Z) : bool := match t with [] => true | [c] => (c =? 43) || (c =? 45) | _ => false end.
Lemma sign_b_ok t : sign_b t = true <-> exists neg, signed neg t.
Proof.
  split.
  - destruct t as [|c [|]]; cbn [sign_b]; [exists false; constructor| |discriminate].
    intros H. apply orb_prop in H. destruct H as [H|H]; apply Z.eqb_eq in H; subst c; eexists; constructor.
  - intros (neg & H). destruct H; reflexivity.
Qed.

Definition exponent_b (l : Z) (t : list Z) : bool :=
  match t with
  | [] => false
  | c :: r => ((c =? l) || (c =? l - 32))
      && existsb (fun '(sg, ds) => sign_b sg && nonempty ds && digits_b 10 ds) (splits r)
  end.
Lemma exponent_b_ok l t : exponent_b l t = true <-> exponent l t.
Proof.
  unfold exponent. split.
  - destruct t as [|c r]; cbn [exponent_b]; [discriminate|]. rewrite andb_true_iff, orb_true_iff, exists_split, !Z.eqb_eq.
    intros [Hc (sg & ds & -> & H)]. rewrite !andb_true_iff in H. destruct H as [[H1 H2] H3].
    apply sign_b_ok in H1. destruct H1 as [neg H1]. apply nonempty_ok in H2. apply digits_b_ok in H3; [|lia].
    exists c, neg, sg, ds. auto.
  - intros (c & neg & sg & ds & -> & Hc & Hs & Hn & Hd). cbn [exponent_b]. rewrite andb_true_iff, orb_true_iff, exists_split, !Z.eqb_eq.
    split; [exact Hc|]. exists sg, ds. split; [reflexivity|]. rewrite !andb_true_iff.
    repeat split; [apply sign_b_ok; eauto|now apply nonempty_ok|apply digits_b_ok; [lia|exact Hd]].
Qed.

Definition with_exponent_b (b l : Z) (t : list Z) : bool :=
  existsb (fun '(m, x) => significand_b b m && exponent_b l x) (splits t).
Lemma with_exponent_b_ok b l t : b <= 36 -> with_exponent_b b l t = true <-> exists m x, t = m ++ x /\ significand b m /\ exponent l x.
Proof.
  intros Hb. unfold with_exponent_b. rewrite exists_split. split.
  - intros (m & x & E & H). apply andb_prop in H. destruct H as [H1 H2]. apply significand_b_ok in H1; [|exact Hb]. apply exponent_b_ok in H2. eauto.
  - intros (m & x & E & H1 & H2). exists m, x. split; [exact E|]. apply andb_true_intro. split; [now apply significand_b_ok|now apply exponent_b_ok].
Qed.

Definition decimal_b (fixed scientific : bool) (t : list Z) : bool :=
  (fixed && significand_b 10 t) || (scientific && with_exponent_b 10 101 t).
Lemma decimal_b_ok fx sc t : decimal_b fx sc t = true <-> decimal fx sc t.
Proof.
  unfold decimal_b, decimal. rewrite orb_true_iff, !andb_true_iff, (significand_b_ok 10 t ltac:(lia)), (with_exponent_b_ok 10 101 t ltac:(lia)).
  reflexivity.
Qed.
Definition hexadecimal_b (t : list Z) : bool := significand_b 16 t || with_exponent_b 16 112 t.
Lemma hexadecimal_b_ok t : hexadecimal_b t = true <-> hexadecimal t.
Proof.
  unfold hexadecimal_b, hexadecimal. rewrite orb_true_iff, (significand_b_ok 16 t ltac:(lia)), (with_exponent_b_ok 16 112 t ltac:(lia)).
  reflexivity.
Qed.

Definition prefix_b (t : list Z) : bool :=
  match t with [z; x] => (z =? 48) && ((x =? 120) || (x =? 88)) | _ => false end.
Lemma prefix_b_ok t : prefix_b t = true <-> hex_prefix t.
Proof.
  rewrite hex_prefix_iff. split.
  - destruct t as [|z [|x [|]]]; cbn [prefix_b]; try discriminate. rewrite andb_true_iff, orb_true_iff, !Z.eqb_eq. intros [-> H]. eauto.
  - intros (x & -> & H). cbn [prefix_b]. rewrite andb_true_iff, orb_true_iff, !Z.eqb_eq. auto.
Qed.

Definition number_b (t : list Z) : bool :=
  decimal_b true true t || existsb (fun '(p, h) => prefix_b p && hexadecimal_b h) (splits t).
Lemma number_b_ok t : number_b t = true <-> number Any t.
Proof.
  unfold number_b. cbn [number]. rewrite orb_true_iff, exists_split, decimal_b_ok.
  split; (intros [H|(p & h & E & H)]; [left; exact H|right; exists p, h]).
  - apply andb_prop in H. destruct H as [H1 H2]. apply prefix_b_ok in H1. apply hexadecimal_b_ok in H2. auto.
  - destruct H as [H1 H2]. split; [exact E|]. apply andb_true_intro. split; [now apply prefix_b_ok|now apply hexadecimal_b_ok].
Qed.

(** ** The longest prefix *)

Fixpoint longest_b (l : list Z -> bool) (s : list Z) (n : nat) : option nat :=
  if l (firstn n s) then Some n
  else match n with O => None | S n' => longest_b l s n' end.
Lemma longest_b_ok l (L : list Z -> Prop) s n : (forall t, l t = true <-> L t) ->
  match longest_b l s n with
  | Some m => (m <= n)%nat /\ L (firstn m s) /\ forall m', (m < m' <= n)%nat -> ~ L (firstn m' s)
  | None => forall m', (m' <= n)%nat -> ~ L (firstn m' s)
  end.
Proof.
  intros Hl. induction n as [|n IH]; cbn [longest_b].
  - destruct (l (firstn 0 s)) eqn:E.
    + split; [lia|]. split; [now apply Hl|lia].
    + intros m' Hm H. assert (m' = 0)%nat as -> by lia. apply Hl in H. congruence.
  - destruct (l (firstn (S n) s)) eqn:E.
    + split; [lia|]. split; [now apply Hl|lia].
    + destruct (longest_b l s n) as [m|].
      * destruct IH as (H1 & H2 & H3). split; [lia|]. split; [exact H2|]. intros m' Hm H.
        destruct (Nat.eq_dec m' (S n)) as [-> |Hne]; [apply Hl in H; congruence|]. apply (H3 m'); [lia|exact H].
      * intros m' Hm H. destruct (Nat.eq_dec m' (S n)) as [-> |Hne]; [apply Hl in H; congruence|]. apply (IH m'); [lia|exact H].
Qed.
Lemma longest_some l (L : list Z -> Prop) s m : (forall t, l t = true <-> L t) ->
  longest_b l s (length s) = Some m -> length (firstn m s) = m /\ longest L (firstn m s) (skipn m s).
Proof.
  intros Hl E. assert (H := longest_b_ok l L s (length s) Hl). rewrite E in H. destruct H as (H1 & H2 & H3).
  rewrite firstn_length, Nat.min_l by exact H1. split; [reflexivity|]. split; [exact H2|].
  intros t' rest' E' Ht'. rewrite firstn_skipn in E'. rewrite firstn_length, Nat.min_l by exact H1.
  destruct (Nat.le_gt_cases (length t') m) as [|Hgt]; [assumption|]. exfalso. apply (H3 (length t')).
  - subst s. rewrite app_length. lia.
  - subst s. now rewrite firstn_app, firstn_all, Nat.sub_diag, app_nil_r.
Qed.
Lemma longest_none l (L : list Z -> Prop) s : (forall t, l t = true <-> L t) ->
  longest_b l s (length s) = None -> ~ has L s.
Proof.
  intros Hl E (t & rest & -> & Ht). assert (H := longest_b_ok l L (t ++ rest) (length (t ++ rest)) Hl). rewrite E in H.
  apply (H (length t)); [rewrite app_length; lia|]. now rewrite firstn_app, firstn_all, Nat.sub_diag, app_nil_r.
Qed.

(** ** Values *)

Inductive exact : Type := Fraction (neg : bool) (num den : Z) | Infinity (neg : bool) | NaN (neg : bool).

(** Digits and the number of those behind the point; what follows them. *)
Fixpoint mantissa (b : Z) (s : list Z) (m f : Z) (point : bool) : Z * Z * list Z :=
  match s with
  | [] => (m, f, [])
  | c :: s' =>
      if (c =? 46) && negb point then mantissa b s' m f true
      else if digit_b b c then mantissa b s' (m * b + char_to_int c) (if point then f + 1 else f) point
      else (m, f, s)
  end.
Definition decimal_value (ds : list Z) : Z := fold_left (fun a c => a * 10 + char_to_int c) ds 0.
Definition exponent_value (s : list Z) : Z :=
  match s with
  | [] => 0
  | _ :: [] => 0
  | _ :: c :: ds => if c =? 45 then - decimal_value ds else if c =? 43 then decimal_value ds else decimal_value (c :: ds)
  end.
Definition fraction (m b e : Z) : Z * Z :=
  if m =? 0 then (0, 1) else if 0 <=? e then (m * b ^ e, 1) else (m, b ^ (- e)).
Definition text_value (t : list Z) : Z * Z :=
  if prefix_b (firstn 2 t)
  then let '(m, f, x) := mantissa 16 (skipn 2 t) 0 0 false in fraction m 2 (exponent_value x - 4 * f)
  else let '(m, f, x) := mantissa 10 t 0 0 false in fraction m 10 (exponent_value x - f).

(** Larger than the largest double; smaller than half of the smallest one. *)
Definition overflows (t : list Z) : bool := let '(n, d) := text_value t in d * (2 ^ 1024) <=? n.
Definition underflows (t : list Z) : bool :=
  negb (overflows t) && (let '(n, d) := text_value t in negb (n =? 0) && (n * 2 ^ 1075 <=? d)).

Definition exact_value (t : list Z) : exact :=
  if overflows t then Infinity false
  else if underflows t then Fraction false 0 1
  else let '(n, d) := text_value t in Fraction false n d.
Definition exact_signed (neg : bool) (v : exact) : exact :=
  match v with Fraction _ n d => Fraction neg n d | Infinity _ => Infinity neg | NaN _ => NaN neg end.
Definition exact_zero (v : exact) : bool := match v with Fraction _ n _ => n =? 0 | _ => false end.
Definition exact_infinite (v : exact) : bool := match v with Infinity _ => true | _ => false end.

Definition exact_meaning : meaning exact :=
  Meaning exact exact_value underflows overflows (Infinity false) (NaN false) exact_signed.
Definition exact_strtod (s : list Z) : exact * nat * bool :=
  match longest_b number_b s (length s) with
  | None => (Fraction false 0 1, O, false)
  | Some n => let t := firstn n s in (exact_value t, n, underflows t || overflows t)
  end.
Definition exact_fast (fx sc : bool) (s : list Z) : ff_result exact :=
  match longest_b (decimal_b fx sc) s (length s) with
  | None => FFInvalid
  | Some n => let t := firstn n s in
      if underflows t || overflows t then FFRange else FFOk (exact_value t) n
  end.
(** [long]: as for long double, which is not converted by fast_float *)
Definition exact_fp (long : bool) : fp exact :=
  FP exact (Infinity false) (NaN false) exact_signed exact_zero exact_infinite long exact_fast exact_strtod.

Theorem exact_converts long : converts (exact_fp long) exact_meaning.
Proof.
  constructor; try reflexivity.
  - intros fx sc s Hf Hd. cbn [exact_fp fp_fast]. unfold exact_fast.
    destruct (longest_b (decimal_b fx sc) s (length s)) as [n|] eqn:E.
    + destruct (longest_some _ (decimal fx sc) s n (decimal_b_ok fx sc) E) as [L HL].
      destruct (underflows (firstn n s) || overflows (firstn n s)) eqn:EU; [exact I|]. apply orb_false_elim in EU.
      exists (firstn n s), (skipn n s). rewrite firstn_skipn. tauto.
    + apply (longest_none _ (decimal fx sc) s (decimal_b_ok fx sc) E).
  - intros s Hd. cbn [exact_fp fp_strtod]. unfold exact_strtod.
    destruct (longest_b number_b s (length s)) as [n|] eqn:E.
    + destruct (longest_some _ (number Any) s n number_b_ok E) as [L HL]. set (t := firstn n s) in *.
      exists t, (skipn n s). split; [symmetry; apply firstn_skipn|]. split; [exact L|]. split.
      { split; [right; right; exact (proj1 HL)|]. intros t' rest' E' G. apply (proj2 HL t' rest' E').
        apply (digit_number Any (t ++ skipn n s) t' rest' 10) in G; [exact G| |lia|exact E']. unfold t. rewrite firstn_skipn. exact Hd. }
      split; [reflexivity|]. cbn [exact_fp fp_zero fp_infinite exact_meaning mg_underflow mg_overflow].
      unfold exact_value. destruct (overflows t) eqn:EO.
      * unfold underflows. rewrite EO. cbn. split; reflexivity.
      * destruct (underflows t); [split; reflexivity|]. destruct (text_value t). split; reflexivity.
    + exfalso. apply (longest_none _ (number Any) s number_b_ok E). destruct s as [|c s]; [contradiction|].
      exists [c], s. split; [reflexivity|]. left. left. split; [reflexivity|]. exists [c], []. cbn [starts_with_digit] in Hd.
      repeat split; auto. discriminate.
Qed.
