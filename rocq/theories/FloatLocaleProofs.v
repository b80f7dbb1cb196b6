(** Proofs about floats read with the separators of a locale. *)
From Verif Require Import Prelude Tables UnicodeModel WhitespaceModel ReadModel SpecsModel IntModel IntSpec ReadProofs IntProofs.
From Verif Require Import FloatModel FloatSpec FloatProofs FloatLocaleSpec.
Local Open Scope Z_scope.

Section Locale.
Variables p th : Z.
Hypothesis HP : plausible p th.
Notation q := (FSeps p th).

Definition member (c : Z) : Prop := is_digit 10 c \/ th <> 0 /\ c = th.

Lemma sep_digit c : separator c -> ~ is_digit 10 c.
Proof. rewrite digit10_iff. unfold separator. lia. Qed.
Lemma point_not_member : ~ member p.
Proof. destruct HP as (H1 & H2 & H3). intros [H|[_ H]]; [exact (sep_digit p H1 H)|contradiction]. Qed.
Lemma letter_not_member c : c = 101 \/ c = 101 - 32 -> ~ member c /\ c <> p.
Proof.
  destruct HP as (H1 & H2 & H3). unfold separator in *. intros Hc. split; [|lia].
  intros [H|[H H']]; [rewrite digit10_iff in H; lia|lia].
Qed.

(** A significand read as far as possible. *)
Definition sig (m : list Z) : Prop :=
  exists w, grouped th w /\ (m = w \/ exists f, m = w ++ p :: f /\ Forall (is_digit 10) f).
Definition lfull (m rest : list Z) : Prop :=
  exists w, grouped th w
    /\ (m = w /\ match rest with [] => True | c :: _ => ~ member c /\ c <> p end
        \/ exists f, m = w ++ p :: f /\ Forall (is_digit 10) f /\ ~ starts_with_digit 10 rest).

Lemma float_digits_member s : float_digits q 10 true s =
  read_while1_code_unit (fun ch => (char_to_int ch <? 10) || (negb (th =? 0) && (ch =? th))) s.
Proof.
  unfold float_digits, read_while1_code_unit, read_while_code_unit, read_until_code_unit. cbn [sep_thousands].
  replace (find_if _ s) with (find_if (fun c => negb ((char_to_int c <? 10) || (negb (th =? 0) && (c =? th)))) s); [reflexivity|].
  induction s as [|c s IH]; cbn [find_if]; [reflexivity|]. rewrite IH, andb_true_r. reflexivity.
Qed.
Lemma float_digits_fraction s : float_digits q 10 false s = read_while1_code_unit (fun ch => char_to_int ch <? 10) s.
Proof.
  unfold float_digits, read_while1_code_unit, read_while_code_unit, read_until_code_unit. cbn [sep_thousands].
  replace (find_if _ s) with (find_if (fun c => negb (char_to_int c <? 10)) s); [reflexivity|].
  induction s as [|c s IH]; cbn [find_if]; [reflexivity|]. rewrite IH, andb_false_r, orb_false_r. reflexivity.
Qed.
Lemma memberP c : (char_to_int c <? 10) || (negb (th =? 0) && (c =? th)) = true <-> member c.
Proof. unfold member. rewrite orb_true_iff, (digitP 10 c ltac:(lia)), andb_true_iff, negb_true_iff, Z.eqb_neq, Z.eqb_eq. reflexivity. Qed.
Lemma memberN c : (char_to_int c <? 10) || (negb (th =? 0) && (c =? th)) = false <-> ~ member c.
Proof. rewrite <- memberP. destruct (_ || _); intuition congruence. Qed.

Lemma significand_local s :
  (exists m rest, s = m ++ rest /\ read_significand q 10 s = Ok rest /\ lfull m rest)
  \/ match s with [] => True | c :: _ => ~ member c end /\ read_significand q 10 s = Err InvalidScannedValue.
Proof.
  unfold read_significand. rewrite float_digits_member. set (pm := fun ch => (char_to_int ch <? 10) || _).
  destruct (while1_split pm s) as [(c & w & it & -> & -> & F & H)|[-> H]].
  2:{ right. split; [|reflexivity]. destruct s; [auto|]. now apply memberN. }
  left. assert (G : grouped th (c :: w)).
  { split; [discriminate|]. eapply Forall_impl; [|exact F]. intros a Ha. now apply memberP. }
  assert (N : match it with [] => True | c :: _ => ~ member c end) by (destruct it; [auto|now apply memberN]).
  unfold read_matching_code_unit. cbn [sep_point]. destruct it as [|x it].
  - cbn [apply_opt]. rewrite float_digits_fraction. cbn. exists (c :: w), []. split; [reflexivity|]. split; [reflexivity|].
    exists (c :: w). auto 6.
  - destruct (x =? p) eqn:Ex; cbn [apply_opt].
    + apply Z.eqb_eq in Ex. subst x. rewrite float_digits_fraction.
      destruct (while1_split (fun ch => char_to_int ch <? 10) it) as [(d & f & it' & -> & -> & Ff & Hf)|[-> Hf]]; cbn [apply_opt].
      * exists ((c :: w) ++ p :: d :: f), it'. split; [rewrite <- app_assoc; reflexivity|]. split; [reflexivity|].
        exists (c :: w). split; [exact G|]. right. exists (d :: f). split; [reflexivity|].
        split; [eapply Forall_impl; [|exact Ff]; intros; now apply digitP|].
        destruct it'; cbn [starts_with_digit]; [auto|]. apply digitN; [lia|exact Hf].
      * exists ((c :: w) ++ [p]), it. split; [rewrite <- app_assoc; reflexivity|]. split; [reflexivity|].
        exists (c :: w). split; [exact G|]. right. exists []. split; [reflexivity|]. split; [constructor|].
        destruct it; cbn [starts_with_digit]; [auto|]. apply digitN; [lia|exact Hf].
    + rewrite float_digits_fraction.
      destruct (while1_split (fun ch => char_to_int ch <? 10) (x :: it)) as [(d & f & it' & E & -> & Ff & Hf)|[-> Hf]]; cbn [apply_opt].
      * exfalso. injection E as -> E. apply N. left. inversion Ff; subst. apply digitP; [lia|assumption].
      * exists (c :: w), (x :: it). split; [reflexivity|]. split; [reflexivity|]. exists (c :: w).
        split; [exact G|]. left. split; [reflexivity|]. split; [exact N|lia].
Qed.

Lemma lfull_unique m rest m' rest' : lfull m rest -> sig m' -> m ++ rest = m' ++ rest' ->
  (length m' <= length m)%nat
  /\ (match rest' with [] => True | x :: _ => ~ member x /\ x <> p end -> m' = m /\ rest' = rest).
Proof.
  intros (w & [Hw Gw] & Hm) (w' & [Hw' Gw'] & Hm') E. fold member in Gw, Gw'.
  assert (PN := point_not_member).
  assert (D : forall x, ~ member x -> ~ is_digit 10 x) by (intros x Hx H; apply Hx; left; exact H).
  destruct Hm as [[-> Hr]|(f & -> & Ff & Nr)].
  - assert (Hr' : match rest with [] => True | c :: _ => ~ member c end) by (destruct rest; tauto).
    destruct Hm' as [-> |(f' & -> & Ff')].
    + split; [apply (run_longest member _ _ _ _ (eq_sym E)); assumption|]. intros Hx.
      assert (Hx' : match rest' with [] => True | c :: _ => ~ member c end) by (destruct rest'; tauto).
      destruct (run_unique member _ _ _ _ E Gw Hr' Gw' Hx'). auto.
    + exfalso. rewrite <- app_assoc in E. cbn [app] in E.
      destruct (run_unique member w rest w' (p :: f' ++ rest') E Gw Hr' Gw' PN) as [_ ->]. tauto.
  - rewrite <- app_assoc in E. cbn [app] in E.
    assert (Nr' : match rest with [] => True | c :: _ => ~ is_digit 10 c end) by (destruct rest; cbn in Nr; auto).
    destruct Hm' as [-> |(f' & -> & Ff')].
    + split.
      * assert (L := run_longest member _ _ _ _ (eq_sym E) Gw' PN). rewrite app_length. lia.
      * intros Hx. exfalso. assert (Hx' : match rest' with [] => True | c :: _ => ~ member c end) by (destruct rest'; tauto).
        destruct (run_unique member w (p :: f ++ rest) w' rest' E Gw PN Gw' Hx') as [_ <-]. tauto.
    + rewrite <- app_assoc in E. cbn [app] in E.
      destruct (run_unique member w (p :: f ++ rest) w' (p :: f' ++ rest') E Gw PN Gw' PN) as [<- E']. injection E' as E'. split.
      * assert (L := run_longest (is_digit 10) _ _ _ _ (eq_sym E') Ff' Nr'). rewrite !app_length. cbn [length]. lia.
      * intros Hx. assert (Hx' : match rest' with [] => True | c :: _ => ~ is_digit 10 c end).
        { destruct rest' as [|x ?]; [auto|]. destruct Hx as [Hx _]. apply D, Hx. }
        destruct (run_unique (is_digit 10) _ _ _ _ E' Ff Nr' Ff' Hx') as [<- <-]. auto.
Qed.
Lemma lfull_exponent m rest m' x' rest' : lfull m rest -> sig m' -> exponent 101 x' -> m ++ rest = (m' ++ x') ++ rest' ->
  m' = m /\ rest = x' ++ rest'.
Proof.
  intros Hf Hm' Hx' E. rewrite <- app_assoc in E. destruct (exponent_first _ _ Hx') as (c & t & -> & Hc).
  destruct (lfull_unique m rest m' ((c :: t) ++ rest') Hf Hm' E) as [_ H]. cbn [app] in H.
  destruct (H (letter_not_member c Hc)) as [-> <-]. auto.
Qed.
Lemma lfull_sig m rest : lfull m rest -> sig m.
Proof. intros (w & Hw & [[-> _]|(f & -> & Ff & _)]); exists w; eauto. Qed.

(** What is shown, without its plain notation *)
Definition shown (fx sc : bool) (t : list Z) : Prop :=
  exists m x, t = m ++ x /\ sig m /\ (fx = true /\ x = [] \/ sc = true /\ exponent 101 x).
Lemma shown_iff fx sc t : shown fx sc t <-> exists n, shows fx sc p th t n.
Proof.
  split.
  - intros (m & x & -> & (w & Hw & [-> |(f & -> & Ff)]) & Hx).
    + exists (without th w ++ x), w, x. auto.
    + exists (without th w ++ 46 :: f ++ x), w, x. split; [exact Hw|]. split; [|exact Hx]. right. exists f.
      split; [rewrite <- app_assoc; reflexivity|]. auto.
  - intros (n & w & x & Hw & [[-> _]|(f & -> & _ & Ff)] & Hx).
    + exists w, x. split; [reflexivity|]. split; [exists w; auto|exact Hx].
    + exists (w ++ p :: f), x. split; [rewrite <- app_assoc; reflexivity|]. split; [exists w; eauto|exact Hx].
Qed.

Lemma regular_local o s : o_fixed o || o_scientific o = true ->
  (exists t rest k, s = t ++ rest /\ read_regular_float o q s = Ok (rest, k) /\ (k = KFixed \/ k = KScientific)
     /\ longest (shown (o_fixed o) (o_scientific o)) t rest)
  \/ read_regular_float o q s = Err InvalidScannedValue /\ ~ has (shown (o_fixed o) (o_scientific o)) s.
Proof.
  intros Ho. unfold read_regular_float.
  destruct (significand_local s) as [(m & it & -> & -> & Hf)|[N ->]].
  2:{ right. split; [reflexivity|]. intros (t & rest & -> & (m & x & -> & (w & [Hw Gw] & Hm) & _)).
      destruct w as [|c w]; [congruence|]. fold member in Gw. inversion Gw; subst. destruct Hm as [-> |(f & -> & _)]; cbn [app] in N; contradiction. }
  cbn [bind]. assert (Hm := lfull_sig _ _ Hf).
  assert (X := read_exponent_ok 101 it ltac:(lia)). change (101 - 32) with 69 in X.
  destruct (o_scientific o) eqn:Esc; cbn [andb].
  - destruct X as [(x & rest & -> & -> & Hx & HL)|[-> HN]].
    + destruct (exponent_first _ _ Hx) as (c & x0 & Ex & _). replace (length rest =? length (x ++ rest))%nat with false
        by (symmetry; apply Nat.eqb_neq; rewrite app_length, Ex; cbn [length]; lia).
      rewrite andb_false_r. left. exists (m ++ x), rest, KScientific. split; [now rewrite app_assoc|]. do 2 (split; [auto|]). split.
      { exists m, x. auto. }
      intros t' rest' E (m' & x' & -> & Hm' & Hx').
      destruct Hx' as [[_ ->]|[_ Hx']].
      * rewrite app_nil_r in *. rewrite <- app_assoc in E. destruct (lfull_unique m _ m' rest' Hf Hm' E) as [L _]. rewrite app_length. lia.
      * rewrite <- (app_assoc m) in E. destruct (lfull_exponent m _ m' x' rest' Hf Hm' Hx' E) as [-> E'].
        specialize (HL _ _ E' Hx'). rewrite !app_length. lia.
    + rewrite Nat.eqb_refl, andb_true_r. destruct (o_fixed o) eqn:Efx; cbn [negb].
      * left. exists m, it, KFixed. do 3 (split; [auto|]). split.
        { exists m, []. rewrite app_nil_r. auto. }
        intros t' rest' E (m' & x' & -> & Hm' & [[_ ->]|[_ Hx']]).
        -- rewrite app_nil_r in *. apply (lfull_unique m it m' rest'); auto.
        -- destruct (lfull_exponent m _ m' x' rest' Hf Hm' Hx' E) as [-> E']. now apply HN in E'.
      * right. split; [reflexivity|]. intros (t' & rest' & E & (m' & x' & -> & Hm' & [[D _]|[_ Hx']])); [discriminate|].
        destruct (lfull_exponent m _ m' x' rest' Hf Hm' Hx' E) as [-> E']. now apply HN in E'.
  - rewrite orb_false_r in Ho. rewrite Ho, Nat.eqb_refl. left. exists m, it, KFixed. do 3 (split; [auto|]). split.
    { exists m, []. rewrite app_nil_r. auto. }
    intros t' rest' E (m' & x' & -> & Hm' & [[_ ->]|[D _]]); [|discriminate]. rewrite app_nil_r in *. apply (lfull_unique m it m' rest'); auto.
Qed.

(** ** Removing the separators *)

Definition squeezed (t : list Z) : list Z := without th (map (fun c => if c =? p then 46 else c) t).

Lemma filter_none {A} (g : A -> bool) l : Forall (fun x => g x = true) l -> filter g l = l.
Proof. induction 1 as [|x l H F IH]; cbn [filter]; [reflexivity|]. now rewrite H, IH. Qed.
Lemma map_none (g : Z -> Z) l : Forall (fun x => g x = x) l -> map g l = l.
Proof. induction 1 as [|x l H F IH]; cbn [map]; [reflexivity|]. now rewrite H, IH. Qed.

Lemma squeeze_app a b : squeezed (a ++ b) = squeezed a ++ squeezed b.
Proof. unfold squeezed, without. now rewrite map_app, filter_app. Qed.
Lemma squeeze_plain l : Forall (fun c => c <> p /\ c <> th) l -> squeezed l = l.
Proof.
  intros F. unfold squeezed, without. rewrite map_none, filter_none; [reflexivity| |].
  - eapply Forall_impl; [|exact F]. intros c [H1 H2]. cbn beta. apply negb_true_iff. lia.
  - eapply Forall_impl; [|exact F]. intros c [H1 H2]. cbn beta. replace (c =? p) with false by lia. reflexivity.
Qed.
Lemma digits_plain l : Forall (is_digit 10) l -> Forall (fun c => c <> p /\ c <> th) l.
Proof.
  destruct HP as (H1 & H2 & H3). unfold separator in *. apply Forall_impl. intros c. rewrite digit10_iff. lia.
Qed.
Lemma exponent_plain x : exponent 101 x -> Forall (fun c => c <> p /\ c <> th) x.
Proof.
  destruct HP as (H1 & H2 & H3). intros (c & neg & sg & ds & -> & Hc & Hs & _ & F). unfold separator in *. constructor; [lia|].
  apply Forall_app. split; [destruct Hs; repeat constructor; lia|]. now apply digits_plain.
Qed.
Lemma whole_squeeze w : grouped th w -> squeezed w = without th w.
Proof.
  intros [_ G]. unfold squeezed. rewrite map_none; [reflexivity|]. fold member in G. eapply Forall_impl; [|exact G].
  intros c H. cbn beta. destruct (c =? p) eqn:E; [|reflexivity]. apply Z.eqb_eq in E. subst c. now apply point_not_member in H.
Qed.
Lemma whole_digits w : grouped th w -> Forall (is_digit 10) (without th w).
Proof.
  intros [_ G]. unfold without. induction G as [|c w H G IH]; cbn [filter]; [constructor|].
  destruct (c =? th) eqn:E; cbn [negb]; [exact IH|]. constructor; [|exact IH]. destruct H as [H|[_ H]]; [exact H|lia].
Qed.

Lemma shows_squeezed fx sc t n : th <> 46 -> shows fx sc p th t n -> squeezed t = n.
Proof.
  intros H46 (w & x & Hw & Ht & Hx).
  assert (Ex : squeezed x = x). { apply squeeze_plain. destruct Hx as [[_ ->]|[_ Hx]]; [constructor|now apply exponent_plain]. }
  destruct Ht as [[-> ->]|(f & -> & -> & Ff)].
  - now rewrite squeeze_app, Ex, whole_squeeze.
  - change (p :: f ++ x) with ([p] ++ f ++ x). rewrite !squeeze_app, Ex, (whole_squeeze w Hw), (squeeze_plain f) by now apply digits_plain.
    f_equal. unfold squeezed, without. cbn [map filter]. rewrite Z.eqb_refl. replace (46 =? th) with false by lia. reflexivity.
Qed.
(** If the thousands separator is the point, the decimal point is removed with it. *)
Lemma shows_squeezed_lost fx sc t w f x : th = 46 -> grouped th w -> Forall (is_digit 10) f ->
  (fx = true /\ x = [] \/ sc = true /\ exponent 101 x) -> t = w ++ p :: f ++ x -> squeezed t = without th w ++ f ++ x.
Proof.
  intros H46 Hw Ff Hx ->.
  assert (Ex : squeezed x = x). { apply squeeze_plain. destruct Hx as [[_ ->]|[_ Hx]]; [constructor|now apply exponent_plain]. }
  change (p :: f ++ x) with ([p] ++ f ++ x). rewrite !squeeze_app, Ex, (whole_squeeze w Hw), (squeeze_plain f) by now apply digits_plain.
  f_equal. unfold squeezed, without. cbn [map filter]. rewrite Z.eqb_refl, H46. reflexivity.
Qed.
(** Either way a decimal number remains, if there is a digit. *)
Lemma squeezed_decimal fx sc t : shown fx sc t -> starts_with_digit 10 (squeezed t) -> decimal fx sc (squeezed t).
Proof.
  intros (m & x & -> & (w & Hw & Hm) & Hx) Hd.
  assert (Ex : squeezed x = x). { apply squeeze_plain. destruct Hx as [[_ ->]|[_ Hx]]; [constructor|now apply exponent_plain]. }
  rewrite squeeze_app, Ex in *. assert (Dw := whole_digits w Hw).
  assert (S : exists f dot, squeezed m = without th w ++ dot ++ f /\ (dot = [] \/ dot = [46]) /\ Forall (is_digit 10) f).
  { destruct Hm as [-> |(f & -> & Ff)].
    - exists [], []. rewrite whole_squeeze by exact Hw. rewrite app_nil_r. auto.
    - change (p :: f) with ([p] ++ f). rewrite !squeeze_app, (whole_squeeze w Hw), (squeeze_plain f) by now apply digits_plain.
      exists f, (squeezed [p]). split; [reflexivity|]. split; [|exact Ff]. unfold squeezed, without. cbn [map filter]. rewrite Z.eqb_refl.
      destruct (46 =? th); auto. }
  destruct S as (f & dot & ES & Hdot & Ff). rewrite ES in *. clear ES. set (a := without th w) in *.
  assert (Hne : significand 10 (a ++ dot ++ f)).
  { destruct Hdot as [-> | ->]; cbn [app] in *.
    - exists (a ++ f), []. rewrite !app_nil_r. split; [auto|]. split; [apply Forall_app; auto|]. split; [constructor|].
      intros D. rewrite D in Hd. cbn [app] in Hd. destruct Hx as [[_ ->]|[_ Hx]]; [contradiction|].
      destruct (exponent_first _ _ Hx) as (c & x' & -> & Hc). cbn in Hd. rewrite digit10_iff in Hd. lia.
    - exists a, f. split; [auto|]. split; [exact Dw|]. split; [exact Ff|]. intros D. apply app_eq_nil in D. destruct D as [Da _].
      rewrite Da in Hd. cbn in Hd. now apply point_not_digit in Hd. }
  destruct Hx as [[Hfx ->]|[Hsc Hx]].
  - rewrite app_nil_r. left. auto.
  - right. split; [exact Hsc|]. exists (a ++ dot ++ f), x. auto.
Qed.

Lemma squeezed_len t : (length (squeezed t) <= length t)%nat.
Proof.
  unfold squeezed, without. rewrite <- (map_length (fun c => if c =? p then 46 else c) t).
  induction (map _ t) as [|c l IH]; cbn [filter length]; [lia|]. destruct (negb _); cbn [length]; lia.
Qed.

(** The buffer afterwards. *)
Lemma separators_ok r t rest : is_plain q = false -> Forall (fun c => c <> 0) t ->
  exists b n, handle_separators q (fill_buffer r (t ++ rest) rest) = (b, n)
    /\ fb_string b = Some (squeezed t) /\ (length t = length (squeezed t) + n)%nat
    /\ (n = O /\ fb_view b = squeezed t \/ exists junk, fb_view b = squeezed t ++ 0 :: junk).
Proof.
  intros Hq Nz. destruct (fill_ok r t rest) as (str & -> & Hstr). unfold handle_separators. rewrite Hq. cbn [fb_string fb_view].
  replace (match str with Some x => x | None => t end) with t by (destruct Hstr as [-> | ->]; reflexivity). cbn [sep_point sep_thousands].
  set (str1 := map (fun c => if c =? p then 46 else c) t).
  assert (L1 : length str1 = length t) by apply map_length.
  destruct (th =? 0) eqn:Et.
  - apply Z.eqb_eq in Et. assert (squeezed t = str1) as ->.
    { unfold squeezed, without. fold str1. apply filter_none. unfold str1. apply Forall_map. eapply Forall_impl; [|exact Nz].
      intros c H. cbn beta in *. destruct (c =? p); rewrite Et; [reflexivity|]. apply negb_true_iff. lia. }
    exists (FBuf str1 (Some str1)), O. repeat split; [lia|auto].
  - change (filter (fun ch => negb (ch =? th)) str1) with (squeezed t). assert (L := squeezed_len t).
    destruct (length str1 - length (squeezed t) =? 0)%nat eqn:En.
    + apply Nat.eqb_eq in En. assert (squeezed t = str1) as ->.
      { assert (L2 : length (filter (fun ch => negb (ch =? th)) str1) = length str1) by (change (length (squeezed t) = length str1); lia).
        unfold squeezed, without. fold str1. clearbody str1. clear -L2.
        assert (A : forall l, (length (filter (fun ch => negb (ch =? th)%Z) l) <= length l)%nat).
        { induction l as [|c l IH]; cbn [filter length]; [lia|]. destruct (negb _); cbn [length]; lia. }
        induction str1 as [|c l IH]; cbn [filter length] in *; [reflexivity|]. destruct (negb (c =? th)); cbn [length] in *.
        - f_equal. apply IH. lia.
        - specialize (A l). lia. }
      exists (FBuf str1 (Some str1)), O. repeat split; [lia|auto].
    + eexists _, _. split; [reflexivity|]. cbn [fb_string fb_view]. split; [reflexivity|]. split; [lia|]. right. eexists. reflexivity.
Qed.
End Locale.

Section Value.
Context {V : Type} (F : fp V) (M : meaning V) (C : converts F M).

Lemma solid_units e n : Forall solid n -> units e n.
Proof. destruct e; cbn [units]; auto. apply Forall_impl. unfold solid, is_byte. intros; lia. Qed.

(** Conversion of [n] in a buffer which may show old characters behind it. *)
Lemma conv_stale e o k n b : fb_string b = Some n -> (fb_view b = n \/ exists junk, fb_view b = n ++ 0 :: junk) ->
  decimal (o_fixed o) (o_scientific o) n -> starts_with_digit 10 n -> o_fixed o || o_scientific o = true ->
  k = KFixed \/ k = KScientific ->
  dispatch_impl F e o k 0 b = (v <- magnitude M n ;; Ok (v, length n)).
Proof.
  intros Hs Hv Hn Hd Ho Hk. destruct b as [view str]. cbn [fb_string fb_view] in *. subst str.
  assert (So := decimal_solid _ _ _ Hn).
  assert (Dig : starts_with_digit 10 view).
  { destruct n as [|c n]; [contradiction|]. destruct Hv as [-> |[junk ->]]; exact Hd. }
  rewrite dispatch_digit by (auto; destruct Hk as [-> | ->]; exact I).
  destruct (conv_fast F M C e o k n (Some n) (solid_units e n So) ltac:(auto) Hd Ho ltac:(tauto) (or_introl Hn)) as (t & rest & E & HL & Ec).
  assert (t = n) as -> by (eapply longest_all; [exact Hn|exact E|exact HL]).
  rewrite <- conv_magnitude, <- Ec. destruct (fp_long F); [reflexivity|].
  destruct Hv as [-> |[junk ->]]; [reflexivity|].
  assert (A : forall view, fast_float_impl F e o k (FBuf view (Some n)) =
     match fp_fast F (o_fixed o) (o_scientific o) view with
     | FFInvalid => Err InvalidScannedValue | FFRange => strtod_impl F e o k (FBuf n (Some n)) | FFOk v m => Ok (v, m) end).
  { intros view. destruct Hk as [-> | ->]; reflexivity. }
  rewrite A. rewrite A in Ec |- *.
  assert (St : strtod_impl F e o k (FBuf n (Some n)) = conv M n (length n)).
  { destruct (strtod_plain F M C e o k n (Some n) (solid_units e n So) ltac:(auto) Hd) as (t & rest2 & E2 & HL2 & ->).
    - intros ->. destruct Hk; discriminate.
    - destruct Hk as [-> | ->]; exact I.
    - assert (t = n) as -> ; [|reflexivity]. eapply longest_all; [|exact E2|exact HL2]. right. right. left.
      destruct Hn as [[_ Hn]|[_ Hn]]; [left|right]; auto. }
  rewrite Ec. assert (X := cv_fast F M C (o_fixed o) (o_scientific o) (n ++ 0 :: junk) Ho Dig).
  destruct (fp_fast F (o_fixed o) (o_scientific o) (n ++ 0 :: junk)) as [| |v m].
  - exfalso. apply X. exists n, (0 :: junk). auto.
  - exact St.
  - destruct X as (t & rest2 & E2 & <- & HL2 & -> & H1 & H2).
    assert (t = n) as ->.
    { assert (L1 := proj2 HL2 n (0 :: junk) (eq_sym E2) Hn).
      assert (L2 := run_longest solid t rest2 n (0 :: junk) (eq_sym E2) (decimal_solid _ _ _ (proj1 HL2)) ltac:(unfold solid; lia)).
      apply (app_same t rest2 n (0 :: junk)); [auto|lia]. }
    unfold conv. now rewrite H1, H2.
Qed.

Lemma local_dispatch_bad e o k b n : fb_string b = Some n -> (fb_view b = n /\ n <> [] \/ exists junk, fb_view b = n ++ 0 :: junk) ->
  ~ starts_with_digit 10 n -> k = KFixed \/ k = KScientific -> dispatch_impl F e o k 0 b = Err InvalidScannedValue.
Proof.
  intros Hs Hv Hd Hk. destruct b as [view str]. cbn [fb_string fb_view] in *. subst str.
  assert (X : exists c v, view = c :: v /\ ~ is_digit 10 c).
  { destruct n as [|c n].
    - destruct Hv as [[_ D]|[junk ->]]; [congruence|]. exists 0, junk. split; [reflexivity|]. rewrite digit10_iff. lia.
    - destruct Hv as [[-> _]|[junk ->]]; eexists c, _; (split; [reflexivity|exact Hd]). }
  destruct X as (c & v & -> & Hc). apply dispatch_nodigit; [exact Hc|]. destruct Hk as [-> | ->]; exact I.
Qed.

(** The whole reader for decimal numbers. *)
Lemma local_main p th r f s neg sg u sign : plausible p th -> is_plain (FSeps p th) = false ->
  s = sg ++ u -> parse_numeric_sign s = Ok (u, sign) -> is_minus sign = neg ->
  length sg = match sign with DefaultSign => 0%nat | _ => 1%nat end -> f <> Hex ->
  (f = Any -> forall p rest, u = p ++ rest -> ~ hex_prefix p) -> ~ has infinite u -> ~ has not_a_number u ->
  match u with [] => True | c :: _ => c <> 16 end ->
  let o := options f true in
  (exists t rest, u = t ++ rest /\ longest (shown p th (o_fixed o) (o_scientific o)) t rest
     /\ (starts_with_digit 10 (squeezed p th t) /\ float_read_impl F r o (FSeps p th) s = (v <- number_outcome M neg (squeezed p th t) ;; Ok (v, rest))
         \/ ~ starts_with_digit 10 (squeezed p th t) /\ float_read_impl F r o (FSeps p th) s = Err InvalidScannedValue))
  \/ ~ has (shown p th (o_fixed o) (o_scientific o)) u /\ float_read_impl F r o (FSeps p th) s = Err InvalidScannedValue.
Proof.
  intros HP Hq Es Ep Hn Hl Hf Hp Ni Nn N16 o.
  assert (Ho : o_fixed o || o_scientific o = true) by (destruct f; congruence || reflexivity).
  assert (E0 : do_read_source_impl r o (FSeps p th) (fun _ => read_regular_float o (FSeps p th)) (read_hexfloat (FSeps p th)) u
     = ('(it, k) <- read_regular_float o (FSeps p th) u ;; Ok (it, k, O))).
  { unfold do_read_source_impl.
    destruct (inf_ok r u) as [(t & rest & k & E & _ & Ht & _)|[-> _]]; [exfalso; apply Ni; exists t, rest; auto|].
    destruct (nan_ok r u) as [(t & rest & k & n & E & _ & Ht & _)|[(_ & HO & _)|[-> _]]]; [exfalso; apply Nn; exists t, rest; auto| |].
    { exfalso. apply Nn. destruct HO as (n & pp & rest & -> & H & _). exists n, (40 :: pp ++ rest). split; [reflexivity|left; exact H]. }
    destruct f; try reflexivity; [|congruence]. unfold o. cbn [options o_hex o_scientific o_fixed orb andb negb].
    destruct (hex_prefix_ok r u) as [(pp & u2 & E & Hpp & _)|[(EC & c & u2 & E & _)|[[e ->] _]]]; [| |reflexivity].
    - exfalso. exact (Hp eq_refl pp u2 E Hpp).
    - exfalso. subst u. apply N16. reflexivity. }
  unfold float_read_impl, read_source_impl. rewrite Ep. cbn [bind]. rewrite Hq, andb_false_r, E0.
  destruct (regular_local p th HP o u Ho) as [(t & rest & k & E & -> & Hk & HL)|[-> Hno]]; [left|right; auto].
  exists t, rest. split; [exact E|]. split; [exact HL|]. cbn [bind].
  replace (match k with KInfShort | KInfLong | KNan | KNanPayload => FBuf [] None | _ => fill_buffer r u rest end)
    with (fill_buffer r (t ++ rest) rest) by (rewrite <- E; destruct Hk as [-> | ->]; reflexivity).
  assert (Sh := proj1 HL). destruct Sh as (m & x & Et & (w & [Hw Gw] & Hm) & Hx).
  assert (Nz : Forall (fun c => c <> 0) t).
  { destruct HP as (H1 & H2 & H3). unfold separator in *. assert (A : Forall (fun c => c <> 0) w).
    { eapply Forall_impl; [|exact Gw]. intros c [H|[H H']]; [rewrite digit10_iff in H; lia|lia]. }
    assert (B : Forall (fun c => c <> 0) x).
    { destruct Hx as [[_ ->]|[_ Hx]]; [constructor|]. apply exponent_solid in Hx; [|lia]. eapply Forall_impl; [|exact Hx]. unfold solid. intros; lia. }
    rewrite Et. apply Forall_app. split; [|exact B]. destruct Hm as [-> |(ff & -> & Ff)]; [exact A|]. apply Forall_app. split; [exact A|].
    constructor; [lia|]. eapply Forall_impl; [|exact Ff]. intros c H. rewrite digit10_iff in H. lia. }
  destruct (separators_ok p th r t rest Hq Nz) as (b & n & -> & Hb & Hlen & Hv). cbn [bind].
  set (nn := squeezed p th t) in *.
  assert (PV : forall res, dispatch_impl F (s_enc r) o k 0 b = res ->
     ('(v, n) <- parse_value F (s_enc r) o (FState sign k 0 b n) ;; if (length s <? n)%nat then UB else Ok (v, skipn n s))
     = ('(v, m) <- parse_value_impl F (s_enc r) o (FState sign k 0 b n) ;;
        if (length s <? m + length sg + n)%nat then UB else Ok (v, skipn (m + length sg + n) s))).
  { intros res _. unfold parse_value. cbn [fs_kind fs_sign fs_thseps]. rewrite Hl.
    destruct Hk as [-> | ->]; destruct (parse_value_impl _ _ _ _) as [[? ?]|?| |]; reflexivity. }
  rewrite (PV _ eq_refl). clear PV. unfold parse_value_impl. cbn [fs_kind fs_sign fs_payload fs_buffer].
  assert (Dec : starts_with_digit 10 nn \/ ~ starts_with_digit 10 nn).
  { destruct nn as [|c nn']; cbn [starts_with_digit]; [auto|]. rewrite digit10_iff. lia. }
  destruct Dec as [Hd|Hd]; [left|right]; (split; [exact Hd|]).
  - rewrite (conv_stale (s_enc r) o k nn b Hb ltac:(tauto) (squeezed_decimal p th HP _ _ t (proj1 HL) Hd) Hd Ho Hk).
    rewrite <- with_sign_magnitude, Hn. destruct (magnitude M nn) as [v|e| |]; [|destruct e; reflexivity|reflexivity|reflexivity].
    cbn [bind with_sign]. rewrite (cv_sign F M C).
    assert (Ls : (length nn + length sg + n)%nat = length (sg ++ t)) by (rewrite app_length; lia).
    rewrite Ls. assert (Es' : s = (sg ++ t) ++ rest) by (rewrite <- app_assoc, <- E; exact Es).
    replace (length s <? length (sg ++ t))%nat with false by (symmetry; apply Nat.ltb_ge; rewrite Es', (app_length (sg ++ t)); lia).
    f_equal. f_equal. rewrite Es', skipn_app, skipn_all, Nat.sub_diag. reflexivity.
  - rewrite (local_dispatch_bad (s_enc r) o k b nn Hb); [reflexivity| |exact Hd|exact Hk].
    destruct Hv as [[-> Hv]|Hv]; [left|right; exact Hv]. split; [exact Hv|]. intros D. rewrite D in Hlen. cbn [length] in Hlen.
    destruct w as [|c w]; [congruence|]. rewrite Et, app_length in Hlen. destruct Hm as [-> |(ff & -> & _)]; cbn [app length] in Hlen; lia.
Qed.
End Value.
