(** Proofs about floating-point reading. *)
From Verif Require Import Prelude Tables UnicodeModel WhitespaceModel WhitespaceSpec ReadModel SpecsModel.
From Verif Require Import IntModel IntSpec ReadProofs WhitespaceProofs IntProofs FloatModel FloatSpec.
Local Open Scope Z_scope.

Arguments Z.land : simpl never.
Arguments Z.lor : simpl never.
Arguments Z.lxor : simpl never.

(** ** Runs of characters *)

Lemma while_split p s : exists pre, s = pre ++ read_while_code_unit p s
  /\ Forall (fun c => p c = true) pre
  /\ match read_while_code_unit p s with [] => True | c :: _ => p c = false end.
Proof.
  unfold read_while_code_unit, read_until_code_unit.
  induction s as [|c s (pre & E & F & H)]; cbn [find_if].
  - exists []. auto.
  - destruct (p c) eqn:Ec; cbn [negb].
    + exists (c :: pre). cbn [app]. rewrite <- E. auto.
    + exists []. auto.
Qed.

Lemma while1_split p s :
  (exists c pre rest, s = c :: pre ++ rest /\ read_while1_code_unit p s = inl rest
     /\ Forall (fun c => p c = true) (c :: pre)
     /\ match rest with [] => True | c :: _ => p c = false end)
  \/ read_while1_code_unit p s = inr PError /\ match s with [] => True | c :: _ => p c = false end.
Proof.
  unfold read_while1_code_unit. destruct (while_split p s) as (pre & E & F & H).
  set (it := read_while_code_unit p s) in *. clearbody it. subst s. destruct pre as [|c pre].
  - right. cbn [app]. rewrite Nat.eqb_refl. auto.
  - left. exists c, pre, it. cbn [app]. split; [reflexivity|].
    replace (_ =? _)%nat with false; [auto|]. symmetry. apply Nat.eqb_neq. cbn [length]. rewrite app_length. lia.
Qed.

Lemma digitP b c : b <= 36 -> ((char_to_int c <? b) = true <-> is_digit b c).
Proof. intros Hb. rewrite <- char_to_int_is_digit by exact Hb. lia. Qed.
Lemma digitN b c : b <= 36 -> ((char_to_int c <? b) = false <-> ~ is_digit b c).
Proof. intros Hb. rewrite <- char_to_int_not_digit by exact Hb. lia. Qed.

Lemma digit10_16 c : is_digit 10 c -> is_digit 16 c.
Proof. intros (d & E & H). exists d. split; [exact E|lia]. Qed.
Lemma digit10_iff c : is_digit 10 c <-> 48 <= c <= 57.
Proof.
  unfold is_digit, digit_value. split.
  - intros (d & E & H). destruct ((48 <=? c) && (c <=? 57)) eqn:E1; [lia|].
    destruct ((97 <=? c) && (c <=? 122)) eqn:E2; [injection E as <-; lia|].
    destruct ((65 <=? c) && (c <=? 90)) eqn:E3; [injection E as <-; lia|discriminate].
  - intros H. replace ((48 <=? c) && (c <=? 57)) with true by lia. exists (c - 48). split; [reflexivity|lia].
Qed.
Lemma digit16_iff c : is_digit 16 c <-> 48 <= c <= 57 \/ 97 <= c <= 102 \/ 65 <= c <= 70.
Proof.
  unfold is_digit, digit_value. split.
  - intros (d & E & H). destruct ((48 <=? c) && (c <=? 57)) eqn:E1; [lia|].
    destruct ((97 <=? c) && (c <=? 122)) eqn:E2; [injection E as <-; lia|].
    destruct ((65 <=? c) && (c <=? 90)) eqn:E3; [injection E as <-; lia|discriminate].
  - intros H. destruct ((48 <=? c) && (c <=? 57)) eqn:E1; [exists (c - 48); split; [reflexivity|lia]|].
    destruct ((97 <=? c) && (c <=? 122)) eqn:E2; [exists (c - 97 + 10); split; [reflexivity|lia]|].
    destruct ((65 <=? c) && (c <=? 90)) eqn:E3; [exists (c - 65 + 10); split; [reflexivity|lia]|]. lia.
Qed.

(** Two decompositions of the same text. *)
Lemma app_split {A} (a b c d : list A) : a ++ b = c ++ d -> (length a <= length c)%nat ->
  exists e, c = a ++ e /\ b = e ++ d.
Proof.
  revert c. induction a as [|x a IH]; intros c E L.
  - exists c. auto.
  - destruct c as [|y c]; cbn [length] in L; [lia|]. cbn [app] in E. injection E as <- E.
    destruct (IH c E ltac:(lia)) as (e & -> & ->). exists e. auto.
Qed.

(** A run of characters of a class followed by something else is longest. *)
Lemma run_longest (P : Z -> Prop) a b c d : a ++ b = c ++ d ->
  Forall P a -> match d with [] => True | x :: _ => ~ P x end -> (length a <= length c)%nat.
Proof.
  intros E F H. destruct (Nat.le_gt_cases (length a) (length c)) as [L|L]; [exact L|].
  destruct (app_split c d a b (eq_sym E) ltac:(lia)) as (e & -> & ->).
  destruct e as [|x e]; [rewrite app_nil_r in L; lia|].
  rewrite Forall_app in F. destruct F as [_ F]. inversion F; subst. cbn [app] in H. contradiction.
Qed.
Lemma run_unique (P : Z -> Prop) a b c d : a ++ b = c ++ d ->
  Forall P a -> match b with [] => True | x :: _ => ~ P x end ->
  Forall P c -> match d with [] => True | x :: _ => ~ P x end -> a = c /\ b = d.
Proof.
  intros E Fa Hb Fc Hd. assert (L1 := run_longest P _ _ _ _ E Fa Hd).
  assert (L2 := run_longest P _ _ _ _ (eq_sym E) Fc Hb).
  apply app_inj_tail_iff || idtac. apply app_eq_app in E.
  destruct E as (l & [[-> ->]|[-> ->]]); destruct l; rewrite ?app_length, ?app_nil_r in *; cbn [length app] in *; auto; lia.
Qed.

(** ** Significands *)

Lemma float_digits_plain b th s : float_digits plain_seps b th s = read_while1_code_unit (fun ch => char_to_int ch <? b) s.
Proof.
  unfold float_digits, read_while1_code_unit, read_while_code_unit, read_until_code_unit. cbn [plain_seps sep_thousands].
  replace (find_if _ s) with (find_if (fun c => negb (char_to_int c <? b)) s); [reflexivity|].
  induction s as [|c s IH]; cbn [find_if]; [reflexivity|]. rewrite IH. cbn. rewrite orb_false_r. reflexivity.
Qed.

(** [m] is the significand at the start of [m ++ rest], read as far as possible: [w] its
    whole part. *)
Definition full (b : Z) (m rest : list Z) : Prop :=
  exists c w, Forall (is_digit b) (c :: w) /\ ~ starts_with_digit b rest
    /\ (m = c :: w /\ match rest with [] => True | x :: _ => x <> 46 end
        \/ exists f, m = c :: w ++ 46 :: f /\ Forall (is_digit b) f).

Lemma read_significand_ok b s : b <= 36 ->
  (exists m rest, s = m ++ rest /\ read_significand plain_seps b s = Ok rest /\ full b m rest)
  \/ ~ starts_with_digit b s /\ read_significand plain_seps b s = Err InvalidScannedValue.
Proof.
  intros Hb. unfold read_significand. rewrite float_digits_plain.
  destruct (while1_split (fun ch => char_to_int ch <? b) s) as [(c & w & it & -> & -> & F & H)|[-> H]].
  2:{ right. split; [|reflexivity]. destruct s; cbn [starts_with_digit]; [auto|]. now apply digitN. }
  left. assert (F' : Forall (is_digit b) (c :: w)) by (eapply Forall_impl; [|exact F]; intros; now apply digitP).
  assert (N : ~ starts_with_digit b it) by (destruct it; cbn [starts_with_digit]; [auto|now apply digitN]).
  unfold read_matching_code_unit. cbn [plain_seps sep_point]. destruct it as [|x it].
  - cbn [apply_opt]. rewrite float_digits_plain. cbn. exists (c :: w), []. split; [reflexivity|]. split; [reflexivity|].
    exists c, w. auto 6.
  - destruct (x =? 46) eqn:Ex; cbn [apply_opt].
    + apply Z.eqb_eq in Ex. subst x. rewrite float_digits_plain.
      destruct (while1_split (fun ch => char_to_int ch <? b) it) as [(d & f & it' & -> & -> & Ff & Hf)|[-> Hf]]; cbn [apply_opt].
      * exists (c :: w ++ 46 :: d :: f), it'. split; [cbn [app]; rewrite <- app_assoc; reflexivity|]. split; [reflexivity|].
        exists c, w. split; [exact F'|]. split; [destruct it'; cbn [starts_with_digit]; [auto|now apply digitN]|].
        right. exists (d :: f). split; [reflexivity|]. eapply Forall_impl; [|exact Ff]; intros; now apply digitP.
      * exists (c :: w ++ [46]), it. split; [cbn [app]; rewrite <- app_assoc; reflexivity|]. split; [reflexivity|].
        exists c, w. split; [exact F'|]. split; [destruct it; cbn [starts_with_digit]; [auto|now apply digitN]|].
        right. exists []. auto.
    + rewrite float_digits_plain.
      destruct (while1_split (fun ch => char_to_int ch <? b) (x :: it)) as [(d & f & it' & E & -> & Ff & Hf)|[-> Hf]]; cbn [apply_opt].
      * exfalso. injection E as -> E. apply N. cbn [starts_with_digit]. inversion Ff; subst. now apply digitP.
      * exists (c :: w), (x :: it). split; [reflexivity|]. split; [reflexivity|]. exists c, w.
        split; [exact F'|]. split; [exact N|]. left. split; [reflexivity|]. lia.
Qed.

Lemma full_significand b m rest : full b m rest -> significand b m.
Proof.
  intros (c & w & F & _ & [[-> _]|(f & -> & Ff)]).
  - exists (c :: w), []. rewrite app_nil_r. repeat split; auto. discriminate.
  - exists (c :: w), f. repeat split; auto. discriminate.
Qed.
Lemma full_starts b m rest : full b m rest -> starts_with_digit b (m ++ rest).
Proof. intros (c & w & F & _ & [[-> _]|(f & -> & Ff)]); cbn; inversion F; assumption. Qed.

(** The point is not a digit. *)
Lemma point_not_digit b : b <= 36 -> ~ is_digit b 46.
Proof. intros Hb (d & E & _). discriminate E. Qed.

(** A significand followed by a character which could not belong to it is the full one. *)
Lemma full_unique b m rest m' rest' : b <= 36 -> full b m rest -> significand b m' ->
  m ++ rest = m' ++ rest' ->
  (length m' <= length m)%nat /\
  (match rest' with [] => True | x :: _ => ~ is_digit b x /\ x <> 46 end -> m' = m /\ rest' = rest).
Proof.
  intros Hb (c & w & F & N & Hm) (w' & f' & Hm' & Fw' & Ff' & Hne) E.
  assert (P46 := point_not_digit b Hb).
  assert (Nr : match rest with [] => True | x :: _ => ~ is_digit b x end) by (destruct rest; cbn in N; auto).
  destruct Hm as [[-> Hr]|(f & -> & Ff)].
  - (* no point in [m] *)
    destruct Hm' as [[-> ->]| ->].
    + split; [apply (run_longest (is_digit b) _ _ _ _ (eq_sym E)); assumption|].
      intros Hx. assert (Hx' : match rest' with [] => True | x :: _ => ~ is_digit b x end) by (destruct rest'; tauto).
      destruct (run_unique (is_digit b) _ _ _ _ E F Nr Fw' Hx'). auto.
    + exfalso. rewrite <- app_assoc in E. cbn [app] in E.
      destruct (run_unique (is_digit b) (c :: w) rest w' (46 :: f' ++ rest') E F Nr Fw' P46) as [_ ->]. congruence.
  - replace ((c :: w ++ 46 :: f) ++ rest) with ((c :: w) ++ 46 :: f ++ rest) in E by (cbn [app]; rewrite <- app_assoc; reflexivity).
    destruct Hm' as [[-> ->]| ->].
    + split.
      * assert (L := run_longest (is_digit b) _ _ _ _ (eq_sym E) Fw' P46). cbn [length] in *. rewrite app_length. lia.
      * intros Hx. exfalso. assert (Hx' : match rest' with [] => True | x :: _ => ~ is_digit b x end) by (destruct rest'; tauto).
        destruct (run_unique (is_digit b) (c :: w) (46 :: f ++ rest) w' rest' E F P46 Fw' Hx') as [_ <-]. destruct Hx as [_ Hx]. auto.
    + rewrite <- app_assoc in E. cbn [app] in E.
      destruct (run_unique (is_digit b) (c :: w) (46 :: f ++ rest) w' (46 :: f' ++ rest') E F P46 Fw' P46) as [<- E'].
      injection E' as E'. split.
      * assert (L := run_longest (is_digit b) _ _ _ _ (eq_sym E') Ff' Nr). cbn [length]. rewrite !app_length. cbn [length]. lia.
      * intros Hx. assert (Hx' : match rest' with [] => True | x :: _ => ~ is_digit b x end) by (destruct rest'; tauto).
        destruct (run_unique (is_digit b) _ _ _ _ E' Ff Nr Ff' Hx') as [<- <-]. auto.
Qed.

(** ** Exponents *)

Lemma sign_split s : s <> [] -> exists neg sg u sign, s = sg ++ u /\ signed neg sg
  /\ parse_numeric_sign s = Ok (u, sign) /\ is_minus sign = neg
  /\ length sg = match sign with DefaultSign => 0%nat | _ => 1%nat end
  /\ (sign = DefaultSign -> match u with [] => True | c :: _ => c <> 43 /\ c <> 45 end).
Proof.
  intros Hs. destruct s as [|c s]; [contradiction|]. unfold parse_numeric_sign. cbn [read_one_of_code_unit existsb].
  destruct (c =? 43) eqn:E1; [|destruct (c =? 45) eqn:E2]; cbn [orb].
  - apply Z.eqb_eq in E1. subst c. cbn. exists false, [43], s, PlusSign. repeat split; try constructor. discriminate.
  - apply Z.eqb_eq in E2. subst c. cbn. exists true, [45], s, MinusSign. repeat split; try constructor. discriminate.
  - exists false, [], (c :: s), DefaultSign. repeat split; try constructor; lia.
Qed.

Lemma signed_len neg sg : signed neg sg -> (length sg <= 1)%nat.
Proof. intros []; cbn; lia. Qed.

Lemma sign_agree neg sg u neg' sg' ds rest : signed neg sg -> signed neg' sg' ->
  sg ++ u = sg' ++ ds ++ rest -> ds <> [] -> Forall (is_digit 10) ds ->
  (sg = [] -> match u with [] => True | c :: _ => c <> 43 /\ c <> 45 end) ->
  sg' = sg /\ ds ++ rest = u.
Proof.
  intros Hs Hs' E Hd Fd Hu. destruct ds as [|d ds]; [congruence|]. inversion Fd as [|? ? D _]. subst. rewrite digit10_iff in D.
  destruct Hs; destruct Hs'; cbn [app] in E.
  - auto.
  - subst u. specialize (Hu eq_refl). cbn in Hu. lia.
  - subst u. specialize (Hu eq_refl). cbn in Hu. lia.
  - injection E as E1 E2. lia.
  - injection E as E. auto.
  - discriminate.
  - injection E as E1 E2. lia.
  - discriminate.
  - injection E as E. auto.
Qed.

Lemma read_exponent_ok lower s : 97 <= lower <= 122 ->
  (exists x rest, s = x ++ rest /\ read_exponent [lower; lower - 32] s = rest /\ exponent lower x
     /\ forall x' rest', s = x' ++ rest' -> exponent lower x' -> (length x' <= length x)%nat)
  \/ read_exponent [lower; lower - 32] s = s /\ forall x' rest', s = x' ++ rest' -> ~ exponent lower x'.
Proof.
  intros Hl. unfold read_exponent. destruct s as [|c s].
  { right. split; [reflexivity|]. intros x' rest' E (c & ? & ? & ? & -> & _). discriminate. }
  cbn [read_one_of_code_unit existsb]. destruct ((c =? lower) || ((c =? lower - 32) || false)) eqn:Ec.
  2:{ right. split; [reflexivity|]. intros x' rest' E (c' & ? & ? & ? & -> & Hc & _). injection E as <- E. lia. }
  assert (Hc : c = lower \/ c = lower - 32) by lia. clear Ec.
  destruct s as [|d s].
  { right. cbn. split; [reflexivity|]. intros x' rest' E (c' & neg & sg & ds & -> & _ & _ & Hd & _).
    injection E as <- E. destruct sg, ds; try discriminate; congruence. }
  destruct (sign_split (d :: s) ltac:(discriminate)) as (neg & sg & u & sign & Es & Hsg & -> & _ & Hlen & Hdef).
  rewrite Es in *. clear Es.
  assert (Hu : forall x' rest', c :: sg ++ u = x' ++ rest' -> exponent lower x' ->
            exists ds, x' = c :: sg ++ ds /\ u = ds ++ rest' /\ ds <> [] /\ Forall (is_digit 10) ds).
  { intros x' rest' E (c' & neg' & sg' & ds & -> & _ & Hsg' & Hd & Fd). injection E as <- E. rewrite <- app_assoc in E.
    assert (sg' = sg /\ ds ++ rest' = u) as [-> <-].
    { eapply sign_agree; [exact Hsg|exact Hsg'|exact E|exact Hd|exact Fd|].
      intros ->. apply Hdef. destruct sign; cbn [length] in Hlen; congruence. }
    exists ds. auto. }
  destruct (while1_split (fun ch => char_to_int ch <? 10) u) as [(e & ds & rest & -> & -> & F & H)|[-> H]].
  - left. exists (c :: sg ++ e :: ds), rest. split; [cbn [app]; rewrite <- app_assoc; reflexivity|]. split; [reflexivity|].
    assert (F' : Forall (is_digit 10) (e :: ds)) by (eapply Forall_impl; [|exact F]; intros; now apply digitP).
    assert (H' : match rest with [] => True | x :: _ => ~ is_digit 10 x end) by (destruct rest; [auto|now apply digitN]).
    split. { exists c, neg, sg, (e :: ds). repeat split; auto. discriminate. }
    intros x' rest' E Hx. destruct (Hu x' rest' E Hx) as (ds' & -> & E' & Hne & F2).
    assert (L := run_longest (is_digit 10) ds' rest' (e :: ds) rest (eq_sym E') F2 H'). cbn [length] in *. rewrite !app_length. cbn [length]. lia.
  - right. split; [reflexivity|]. intros x' rest' E Hx. destruct (Hu x' rest' E Hx) as (ds' & -> & E' & Hne & F2).
    destruct ds' as [|d' ds']; [congruence|]. subst u. cbn [app] in H. apply digitN in H; [|lia]. inversion F2; contradiction.
Qed.

(** ** Numbers *)

Lemma exponent_first lower x : exponent lower x -> exists c t, x = c :: t /\ (c = lower \/ c = lower - 32).
Proof. intros (c & neg & sg & ds & -> & Hc & _). eauto. Qed.

(** Any number at the start of a text consists of the full significand and an exponent. *)
Lemma full_exponent b lower m rest m' x' rest' : b <= 36 ->
  (forall c, c = lower \/ c = lower - 32 -> ~ is_digit b c /\ c <> 46) ->
  full b m rest -> significand b m' -> exponent lower x' -> m ++ rest = (m' ++ x') ++ rest' ->
  m' = m /\ rest = x' ++ rest'.
Proof.
  intros Hb Hl Hf Hm' Hx' E. rewrite <- app_assoc in E. destruct (exponent_first _ _ Hx') as (c & t & -> & Hc).
  destruct (full_unique b m rest m' ((c :: t) ++ rest') Hb Hf Hm' E) as [_ H]. cbn [app] in H.
  destruct (H (Hl c Hc)) as [-> <-]. auto.
Qed.

Lemma letters_e c : c = 101 \/ c = 101 - 32 -> ~ is_digit 10 c /\ c <> 46.
Proof. rewrite digit10_iff. lia. Qed.
Lemma letters_p c : c = 112 \/ c = 112 - 32 -> ~ is_digit 16 c /\ c <> 46.
Proof. rewrite digit16_iff. lia. Qed.

Lemma read_hexfloat_ok k s :
  (exists h rest, s = h ++ rest /\ read_hexfloat plain_seps k s = Ok (rest, k)
     /\ starts_with_digit 16 s /\ longest hexadecimal h rest)
  \/ ~ starts_with_digit 16 s /\ read_hexfloat plain_seps k s = Err InvalidScannedValue.
Proof.
  unfold read_hexfloat. destruct (read_significand_ok 16 s ltac:(lia)) as [(m & it & -> & -> & Hf)|[N ->]]; [|right; auto].
  left. cbn [bind]. assert (Hs := full_starts _ _ _ Hf). assert (Hm := full_significand _ _ _ Hf).
  assert (X := read_exponent_ok 112 it ltac:(lia)). change (112 - 32) with 80 in X.
  destruct X as [(x & rest & -> & -> & Hx & HL)|[-> HN]].
  - exists (m ++ x), rest. split; [now rewrite app_assoc|]. split; [reflexivity|]. split; [exact Hs|]. split.
    { right. exists m, x. auto. }
    intros t' rest' E [Ht|(m' & x' & -> & Hm' & Hx')]; rewrite <- app_assoc in E.
    + destruct (full_unique 16 m _ t' rest' ltac:(lia) Hf Ht E) as [L _]. rewrite app_length. lia.
    + destruct (full_exponent 16 112 m _ m' x' rest' ltac:(lia) letters_p Hf Hm' Hx' E) as [-> E'].
      specialize (HL _ _ E' Hx'). rewrite !app_length. lia.
  - exists m, it. split; [reflexivity|]. split; [reflexivity|]. split; [exact Hs|]. split; [left; exact Hm|].
    intros t' rest' E [Ht|(m' & x' & -> & Hm' & Hx')].
    + apply (full_unique 16 m it t' rest'); auto. lia.
    + destruct (full_exponent 16 112 m _ m' x' rest' ltac:(lia) letters_p Hf Hm' Hx' E) as [-> E']. now apply HN in E'.
Qed.

Lemma read_regular_ok o s : o_fixed o || o_scientific o = true ->
  (exists t rest k, s = t ++ rest /\ read_regular_float o plain_seps s = Ok (rest, k) /\ (k = KFixed \/ k = KScientific)
     /\ starts_with_digit 10 s /\ longest (decimal (o_fixed o) (o_scientific o)) t rest)
  \/ read_regular_float o plain_seps s = Err InvalidScannedValue
     /\ (starts_with_digit 10 s -> ~ has (decimal (o_fixed o) (o_scientific o)) s).
Proof.
  intros Ho. unfold read_regular_float.
  destruct (read_significand_ok 10 s ltac:(lia)) as [(m & it & -> & -> & Hf)|[N ->]]; [|right; split; [reflexivity|contradiction]].
  cbn [bind]. assert (Hs := full_starts _ _ _ Hf). assert (Hm := full_significand _ _ _ Hf).
  assert (X := read_exponent_ok 101 it ltac:(lia)). change (101 - 32) with 69 in X.
  destruct (o_scientific o) eqn:Esc; cbn [andb].
  - destruct X as [(x & rest & -> & -> & Hx & HL)|[-> HN]].
    + destruct (exponent_first _ _ Hx) as (c & x0 & Ex & _). replace (length rest =? length (x ++ rest))%nat with false
        by (symmetry; apply Nat.eqb_neq; rewrite app_length, Ex; cbn [length]; lia).
      rewrite andb_false_r. left. exists (m ++ x), rest, KScientific. split; [now rewrite app_assoc|]. do 3 (split; [auto|]). split.
      { right. split; [reflexivity|]. exists m, x. auto. }
      intros t' rest' E [[_ Ht]|[_ (m' & x' & -> & Hm' & Hx')]]; rewrite <- app_assoc in E.
      * destruct (full_unique 10 m _ t' rest' ltac:(lia) Hf Ht E) as [L _]. rewrite app_length. lia.
      * destruct (full_exponent 10 101 m _ m' x' rest' ltac:(lia) letters_e Hf Hm' Hx' E) as [-> E'].
        specialize (HL _ _ E' Hx'). rewrite !app_length. lia.
    + rewrite Nat.eqb_refl, andb_true_r. destruct (o_fixed o) eqn:Efx; cbn [negb].
      * left. exists m, it, KFixed. do 4 (split; [auto|]). split; [left; auto|].
        intros t' rest' E [[_ Ht]|[_ (m' & x' & -> & Hm' & Hx')]].
        -- apply (full_unique 10 m it t' rest'); auto. lia.
        -- destruct (full_exponent 10 101 m _ m' x' rest' ltac:(lia) letters_e Hf Hm' Hx' E) as [-> E']. now apply HN in E'.
      * right. split; [reflexivity|]. intros _ (t' & rest' & E & [[D _]|[_ (m' & x' & -> & Hm' & Hx')]]); [discriminate|].
        destruct (full_exponent 10 101 m _ m' x' rest' ltac:(lia) letters_e Hf Hm' Hx' E) as [-> E']. now apply HN in E'.
  - rewrite orb_false_r in Ho. rewrite Ho, Nat.eqb_refl. left. exists m, it, KFixed. do 4 (split; [auto|]). split; [left; auto|].
    intros t' rest' E [[_ Ht]|[D _]]; [|discriminate]. apply (full_unique 10 m it t' rest'); auto. lia.
Qed.

(** ** Words *)

Lemma lor_one_bit x y : (Z.lor x y = 0 \/ Z.lor x y = 32) <-> (x = 0 \/ x = 32) /\ (y = 0 \/ y = 32).
Proof.
  assert (A : forall x y, Z.lor x y = 0 \/ Z.lor x y = 32 -> x = 0 \/ x = 32).
  { clear. intros x y H. assert (E : x = Z.land x (Z.lor x y)).
    { apply Z.bits_inj'. intros n _. rewrite Z.land_spec, Z.lor_spec. destruct (Z.testbit x n), (Z.testbit y n); reflexivity. }
    destruct H as [H|H]; rewrite H in E; [rewrite Z.land_0_r in E; auto|].
    rewrite E. destruct (Z.testbit x 5) eqn:T; [right|left]; apply Z.bits_inj'; intros n Hn; rewrite Z.land_spec;
      change 32 with (2 ^ 5); rewrite Z.pow2_bits_eqb by lia; destruct (5 =? n) eqn:En; try (apply Z.eqb_eq in En; subst n; rewrite T);
      rewrite ?andb_false_r, ?Z.bits_0; reflexivity. }
  split.
  - intros H. split; [eapply A, H|]. rewrite Z.lor_comm in H. eapply A, H.
  - intros [[->| ->] [->| ->]]; cbn; auto.
Qed.

Lemma lxor_one_bit a b : (Z.lxor a b = 0 \/ Z.lxor a b = 32) <-> a = b \/ a = Z.lxor b 32.
Proof.
  rewrite Z.lxor_eq_0_iff. split; intros [H|H]; auto; right.
  - rewrite <- H, (Z.lxor_comm a b), <- Z.lxor_assoc, Z.lxor_nilpotent, Z.lxor_0_l. reflexivity.
  - subst a. rewrite (Z.lxor_comm b 32), Z.lxor_assoc, Z.lxor_nilpotent, Z.lxor_0_r. reflexivity.
Qed.

Lemma running_diff_ok w : forall a, length a = length w ->
  (running_diff a w = 0 \/ running_diff a w = 32) <-> Forall2 (fun l c => c = l \/ c = Z.lxor l 32) w a.
Proof.
  induction w as [|l w IH]; intros [|c a] HL; cbn [length] in HL; try discriminate; cbn [running_diff].
  - split; [constructor|auto].
  - rewrite lor_one_bit, lxor_one_bit, IH by lia. split; [intros [H1 H2]; auto|]. intros H. inversion H; subst. auto.
Qed.

Lemma equal_nocase_ok w : forall s, equal_nocase w s = true <->
  exists a rest, s = a ++ rest /\ Forall2 (fun l c => ascii_tolower c = l) w a.
Proof.
  induction w as [|l w IH]; intros s; cbn [equal_nocase].
  - split; [|auto]. intros _. exists [], s. auto.
  - destruct s as [|c s].
    + split; [discriminate|]. intros (a & rest & E & F). inversion F; subst. discriminate.
    + rewrite andb_true_iff, IH, Z.eqb_eq. split.
      * intros [Hc (a & rest & -> & F)]. exists (c :: a), rest. auto.
      * intros (a & rest & E & F). inversion F; subst. cbn [app] in E. injection E as -> ->. eauto.
Qed.

Lemma ascii_tolower_letter l c : 97 <= l <= 122 -> (ascii_tolower c = l <-> c = l \/ c = l - 32).
Proof. unfold ascii_tolower. intros H. destruct ((c <? 65) || (90 <? c)) eqn:E; lia. Qed.
Lemma lxor_letter l : 97 <= l <= 122 -> Z.lxor l 32 = l - 32.
Proof.
  intros H. apply Z.eqb_eq. revert l H. assert (A := sweep (fun l => Z.lxor l 32 =? l - 32) 97 26 eq_refl).
  intros l H. apply A. lia.
Qed.

Lemma forall2_length {A B} (P : A -> B -> Prop) l l' : Forall2 P l l' -> length l = length l'.
Proof. induction 1; cbn [length]; auto. Qed.

(** How the code compares with a word. *)
Definition code_case (r : src) (w a : list Z) : Prop :=
  match s_enc r, s_contig r with
  | U8, true => Forall2 (fun l c => c = l \/ c = Z.lxor l 32) w a
  | _, _ => Forall2 (fun l c => ascii_tolower c = l) w a
  end.
Lemma code_case_len r w a : code_case r w a -> length a = length w.
Proof. unfold code_case. destruct (s_enc r), (s_contig r); intros F; symmetry; eapply forall2_length; exact F. Qed.

Lemma nocase_ok r w s :
  (exists a rest, s = a ++ rest /\ code_case r w a /\ read_matching_string_classic_nocase r w s = inl rest)
  \/ (exists e, read_matching_string_classic_nocase r w s = inr e) /\ forall a rest, s = a ++ rest -> ~ code_case r w a.
Proof.
  unfold read_matching_string_classic_nocase. destruct (length s <? length w)%nat eqn:EL.
  { right. split; [eauto|]. intros a rest -> H. apply code_case_len in H. rewrite app_length in EL. lia. }
  set (eq := match s_enc r with U8 => _ | _ => _ end).
  assert (Heq : eq = true <-> exists a rest, s = a ++ rest /\ code_case r w a).
  { assert (A : equal_nocase w s = true <-> exists a rest, s = a ++ rest /\ Forall2 (fun l c => ascii_tolower c = l) w a)
      by apply equal_nocase_ok.
    unfold eq, code_case. destruct (s_enc r); [|exact A|exact A]. destruct (s_contig r); [|exact A].
    unfold fast_streq_nocase. rewrite orb_true_iff, !Z.eqb_eq, running_diff_ok by (rewrite firstn_length; lia). split.
    - intros F. exists (firstn (length w) s), (skipn (length w) s). rewrite firstn_skipn. auto.
    - intros (a & rest & -> & F). rewrite firstn_app, (forall2_length _ _ _ F), firstn_all, Nat.sub_diag, app_nil_r. exact F. }
  destruct eq.
  - left. destruct (proj1 Heq eq_refl) as (a & rest & -> & Ha). exists a, rest. split; [reflexivity|]. split; [exact Ha|].
    rewrite <- (code_case_len _ _ _ Ha), skipn_app, skipn_all, Nat.sub_diag. reflexivity.
  - right. split; [eauto|]. intros a rest -> Ha. enough (false = true) by discriminate. apply Heq. eauto.
Qed.

Lemma forall2_ext {A B} (R : A -> Prop) (P Q : A -> B -> Prop) l l' : Forall R l ->
  (forall a b, R a -> (P a b <-> Q a b)) -> (Forall2 P l l' <-> Forall2 Q l l').
Proof.
  intros HR E. revert l'. induction HR as [|a l Ha HR IH]; intros l'.
  - split; intros F; inversion F; constructor.
  - split; intros F; inversion F; subst; constructor; try apply E; auto; apply IH; assumption.
Qed.
Lemma code_case_letters r w a : Forall (fun l => 97 <= l <= 122) w -> (code_case r w a <-> any_case w a).
Proof.
  intros Hw. unfold code_case, any_case.
  assert (A : Forall2 (fun l c => ascii_tolower c = l) w a <-> Forall2 (fun l c => c = l \/ c = l - 32) w a)
    by (eapply forall2_ext; [exact Hw|]; intros; now apply ascii_tolower_letter).
  destruct (s_enc r); [|exact A|exact A]. destruct (s_contig r); [|exact A].
  eapply forall2_ext; [exact Hw|]. intros l c H. cbn beta. rewrite (lxor_letter l H). reflexivity.
Qed.

Lemma word_ok r w s : Forall (fun l => 97 <= l <= 122) w ->
  (exists a rest, s = a ++ rest /\ any_case w a /\ read_matching_string_classic_nocase r w s = inl rest)
  \/ (exists e, read_matching_string_classic_nocase r w s = inr e) /\ ~ has (any_case w) s.
Proof.
  intros Hw. destruct (nocase_ok r w s) as [(a & rest & -> & Ha & E)|[E N]].
  - left. exists a, rest. rewrite <- code_case_letters with (r := r) by exact Hw. auto.
  - right. split; [exact E|]. intros (a & rest & -> & Ha). apply (N a rest eq_refl), code_case_letters; assumption.
Qed.

Lemma hex_prefix_iff p : hex_prefix p <-> exists x, p = [48; x] /\ (x = 120 \/ x = 88).
Proof.
  unfold hex_prefix. split.
  - intros [F H]. destruct p as [|c p]; cbn in *; [discriminate|]. subst c. inversion F as [|? x ? ? Hx F']; subst. inversion F'; subst.
    exists x. split; [reflexivity|lia].
  - intros (x & -> & Hx). cbn. split; [|reflexivity]. constructor; [lia|constructor].
Qed.

Lemma hex_prefix_ok r s :
  (exists p rest, s = p ++ rest /\ hex_prefix p /\ read_hex_prefix r s = inl rest)
  \/ s_contig r = true /\ (exists c rest, s = 16 :: c :: rest /\ read_hex_prefix r s = inl rest)
  \/ (exists e, read_hex_prefix r s = inr e) /\ forall p rest, s = p ++ rest -> ~ hex_prefix p.
Proof.
  unfold read_hex_prefix. destruct (nocase_ok r [48; 120] s) as [(a & rest & -> & Ha & E)|[E N]].
  - assert (A : Forall2 (fun l c => ascii_tolower c = l) [48; 120] a -> hex_prefix a).
    { intros F. inversion F as [|? c ? a' Hc F']; subst. inversion F' as [|? x ? a'' Hx F'']; subst. inversion F''; subst.
      apply hex_prefix_iff. exists x. apply ascii_tolower_letter in Hx; [|lia]. unfold ascii_tolower in Hc.
      split; [|lia]. f_equal. destruct ((c <? 65) || (90 <? c)) eqn:Ec; lia. }
    unfold code_case in Ha. destruct (s_enc r); [|left; eauto 6|left; eauto 6]. destruct (s_contig r) eqn:EC; [|left; eauto 6].
    inversion Ha as [|? c ? a' Hc F']; subst. inversion F' as [|? x ? a'' Hx F'']; subst. inversion F''; subst.
    change (Z.lxor 48 32) with 16 in Hc. change (Z.lxor 120 32) with 88 in Hx. destruct Hc as [->| ->].
    + left. exists [48; x], rest. split; [reflexivity|]. split; [|exact E]. apply hex_prefix_iff. eauto.
    + right. left. split; [reflexivity|]. exists x, rest. split; [reflexivity|]. exact E.
  - right. right. split; [exact E|]. intros p rest -> Hp. apply (N p rest eq_refl).
    apply hex_prefix_iff in Hp. destruct Hp as (x & -> & Hx). unfold code_case.
    assert (A : Forall2 (fun l c => ascii_tolower c = l) [48; 120] [48; x]).
    { constructor; [reflexivity|]. constructor; [|constructor]. apply ascii_tolower_letter; lia. }
    destruct (s_enc r); [|exact A|exact A]. destruct (s_contig r); [|exact A].
    constructor; [auto|]. constructor; [|constructor]. change (Z.lxor 120 32) with 88. exact Hx.
Qed.

(** ** Infinities and NaNs *)

Lemma any_case_cons l w t : any_case (l :: w) t -> exists c t', t = c :: t' /\ (c = l \/ c = l - 32) /\ any_case w t'.
Proof. intros F. inversion F as [|? c ? t' Hc F']; subst. eauto. Qed.
Lemma any_case_app w1 w2 t : any_case (w1 ++ w2) t <-> exists a b, t = a ++ b /\ any_case w1 a /\ any_case w2 b.
Proof.
  split.
  - intros F. apply Forall2_app_inv_l in F. destruct F as (a & b & F1 & F2 & ->). exists a, b. auto.
  - intros (a & b & -> & F1 & F2). now apply Forall2_app.
Qed.
Lemma any_case_len w t : any_case w t -> length t = length w.
Proof. intros F. symmetry. eapply forall2_length. exact F. Qed.
(** Prefixes of the same length are equal. *)
Lemma app_same {A} (a b c d : list A) : a ++ b = c ++ d -> length a = length c -> a = c /\ b = d.
Proof.
  intros E L. destruct (app_split a b c d E ltac:(lia)) as (e & -> & ->). rewrite app_length in L.
  destruct e; cbn [length] in L; [|lia]. rewrite app_nil_r. auto.
Qed.

Definition inf_letters : Forall (fun l => 97 <= l <= 122) word_inf.
Proof. repeat constructor; lia. Qed.

Lemma inf_ok r s :
  (exists t rest k, s = t ++ rest /\ read_inf r s = Some (rest, k) /\ infinite t
     /\ (k = KInfShort /\ length t = 3%nat \/ k = KInfLong /\ length t = 8%nat)
     /\ forall t' rest', s = t' ++ rest' -> infinite t' -> (length t' <= length t)%nat)
  \/ read_inf r s = None /\ ~ has infinite s.
Proof.
  unfold read_inf. fold word_inf.
  destruct (word_ok r word_inf s inf_letters) as [(a & it & -> & Ha & ->)|[[e ->] N]].
  - left. assert (La := any_case_len _ _ Ha). cbn [word_inf length] in La.
    destruct (word_ok r [105; 110; 105; 116; 121] it ltac:(repeat constructor; lia)) as [(a2 & it2 & -> & Ha2 & ->)|[[e ->] N]].
    + assert (La2 := any_case_len _ _ Ha2). cbn [length] in La2.
      exists (a ++ a2), it2, KInfLong. split; [now rewrite app_assoc|]. split; [reflexivity|].
      split. { right. apply (any_case_app word_inf [105; 110; 105; 116; 121]). eauto. }
      rewrite !app_length, La, La2. split; [auto|]. intros t' rest' _ [H|H]; apply any_case_len in H; cbn [length word_inf word_infinity] in H; lia.
    + exists a, it, KInfShort. split; [reflexivity|]. split; [reflexivity|]. split; [left; exact Ha|]. split; [auto|].
      intros t' rest' E [H|H]; [apply any_case_len in H; cbn [length word_inf] in H; lia|].
      exfalso. apply (any_case_app word_inf [105; 110; 105; 116; 121]) in H. destruct H as (b & c & -> & Hb & Hc).
      rewrite <- app_assoc in E. apply app_same in E; [|rewrite (any_case_len _ _ Hb), La; reflexivity].
      destruct E as [-> ->]. apply N. exists c, rest'. auto.
  - right. split; [reflexivity|]. intros (t & rest & -> & [H|H]); apply N.
    + exists t, rest. auto.
    + apply (any_case_app word_inf [105; 110; 105; 116; 121]) in H. destruct H as (b & c & -> & Hb & Hc).
      exists b, (c ++ rest). rewrite app_assoc. auto.
Qed.

Lemma payload_charP c : is_payload_char c = true <-> payload_char c.
Proof. unfold is_payload_char, payload_char. lia. Qed.
Lemma payload_charN c : is_payload_char c = false <-> ~ payload_char c.
Proof. rewrite <- payload_charP. destruct (is_payload_char c); intuition congruence. Qed.

Lemma nan_ok r s :
  (exists t rest k n, s = t ++ rest /\ read_nan r s = Some (Ok (rest, k, n)) /\ not_a_number t
     /\ (k = KNan /\ length t = 3%nat \/ k = KNanPayload /\ length t = (5 + n)%nat)
     /\ ~ open_payload s
     /\ forall t' rest', s = t' ++ rest' -> not_a_number t' -> (length t' <= length t)%nat)
  \/ read_nan r s = Some (Err InvalidScannedValue) /\ open_payload s /\ (exists c u, s = c :: u /\ (c = 110 \/ c = 78))
  \/ read_nan r s = None /\ ~ has not_a_number s.
Proof.
  unfold read_nan. fold word_nan.
  destruct (word_ok r word_nan s ltac:(repeat constructor; lia)) as [(a & it & -> & Ha & ->)|[[e ->] N]].
  2:{ right. right. split; [reflexivity|]. intros (t & rest & -> & [H|(n & p & -> & Hn & Hp)]); apply N.
      - exists t, rest. auto.
      - exists n, ((40 :: p ++ [41]) ++ rest). rewrite app_assoc. auto. }
  assert (La := any_case_len _ _ Ha). cbn [word_nan length] in La.
  assert (U : forall a' it', a ++ it = a' ++ it' -> any_case word_nan a' -> a = a' /\ it = it').
  { intros a' it' E H. apply app_same; [exact E|]. rewrite (any_case_len _ _ H), La. reflexivity. }
  unfold read_matching_code_unit. destruct it as [|c it].
  { left. exists a, [], KNan, O. split; [reflexivity|]. split; [reflexivity|]. split; [left; exact Ha|]. split; [auto|]. split.
    - intros (n & p & rest & E & Hn & _). apply (U _ _ E) in Hn. destruct Hn as [_ D]. discriminate.
    - intros t' rest' E _. apply (f_equal (@length Z)) in E. rewrite !app_length in E. cbn [length] in E. lia. }
  destruct (c =? 40) eqn:Ec.
  2:{ left. exists a, (c :: it), KNan, O. split; [reflexivity|]. split; [reflexivity|]. split; [left; exact Ha|]. split; [auto|]. split.
      - intros (n & p & rest & E & Hn & _). apply (U _ _ E) in Hn. destruct Hn as [_ D]. injection D as -> _. discriminate.
      - intros t' rest' E [H|(n & p & -> & Hn & Hp)]; [apply any_case_len in H; cbn [word_nan length] in H; lia|].
        rewrite <- app_assoc in E. apply (U _ _ E) in Hn. destruct Hn as [_ D]. injection D as -> _. discriminate. }
  apply Z.eqb_eq in Ec. subst c.
  destruct (while_split is_payload_char it) as (p & E & F & H). set (it' := read_while_code_unit is_payload_char it) in *. clearbody it'. subst it.
  assert (F' : Forall payload_char p) by (eapply Forall_impl; [|exact F]; intros; now apply payload_charP).
  assert (H' : match it' with [] => True | c :: _ => ~ payload_char c end) by (destruct it'; [auto|now apply payload_charN]).
  assert (Q41 : ~ payload_char 41) by (unfold payload_char; lia).
  destruct it' as [|c it'].
  { right. left. split; [reflexivity|]. split; [exists a, p, []; rewrite app_nil_r; auto|].
    apply any_case_cons in Ha. destruct Ha as (c & t & -> & Hc & _). exists c, (t ++ 40 :: p ++ []). split; [reflexivity|lia]. }
  destruct (c =? 41) eqn:Ec.
  - apply Z.eqb_eq in Ec. subst c. left. exists (a ++ 40 :: p ++ [41]), it', KNanPayload, (length (p ++ 41%Z :: it') - length (41%Z :: it'))%nat.
    split; [rewrite <- app_assoc; cbn [app]; rewrite <- app_assoc; reflexivity|]. split; [reflexivity|]. split; [right; eauto 6|].
    split; [right; split; [reflexivity|]; rewrite !app_length; cbn [length]; rewrite !app_length; cbn [length]; lia|]. split.
    + intros (n & p' & rest & E & Hn & Hp & Hr). apply (U _ _ E) in Hn. destruct Hn as [_ D]. injection D as D.
      assert (Hr' : match rest with [] => True | x :: _ => ~ payload_char x end) by (destruct rest; tauto).
      destruct (run_unique payload_char _ _ _ _ D F' Q41 Hp Hr') as [_ <-]. destruct Hr as [_ Hr]. auto.
    + intros t' rest' E [Hn|(n & p' & -> & Hn & Hp)].
      * apply any_case_len in Hn. rewrite Hn, app_length, La. cbn [word_nan length]. lia.
      * rewrite <- app_assoc in E. apply (U _ _ E) in Hn. destruct Hn as [<- D]. cbn [app] in D. injection D as D. rewrite <- app_assoc in D.
        destruct (run_unique payload_char _ _ _ _ D F' Q41 Hp Q41) as [<- _]. lia.
  - right. left. split; [reflexivity|]. split; [exists a, p, (c :: it'); repeat split; auto; lia|].
    apply any_case_cons in Ha. destruct Ha as (c' & t & -> & Hc & _). eexists c', _. split; [reflexivity|lia].
Qed.

(** ** First characters *)

Lemma significand_first b m : significand b m -> exists c m', m = c :: m' /\ (is_digit b c \/ c = 46).
Proof.
  intros (w & f & Hm & Fw & Ff & Hne). destruct w as [|c w].
  - destruct Hm as [[-> ->]| ->]; [exfalso; apply Hne; reflexivity|]. cbn [app]. eauto 6.
  - inversion Fw; subst. destruct Hm as [[-> ->]| ->]; cbn [app]; eauto 6.
Qed.
Lemma decimal_first fx sc t : decimal fx sc t -> exists c t', t = c :: t' /\ (is_digit 10 c \/ c = 46).
Proof.
  intros [[_ H]|[_ (m & x & -> & H & _)]]; apply significand_first in H; [exact H|].
  destruct H as (c & m' & -> & H). exists c, (m' ++ x). auto.
Qed.
Lemma hexadecimal_first t : hexadecimal t -> exists c t', t = c :: t' /\ (is_digit 16 c \/ c = 46).
Proof.
  intros [H|(m & x & -> & H & _)]; apply significand_first in H; [exact H|].
  destruct H as (c & m' & -> & H). exists c, (m' ++ x). auto.
Qed.
Lemma infinite_first t : infinite t -> exists c t', t = c :: t' /\ (c = 105 \/ c = 73).
Proof. intros [H|H]; apply any_case_cons in H; destruct H as (c & t' & -> & Hc & _); exists c, t'; split; auto; lia. Qed.
Lemma nan_first t : not_a_number t -> exists c t', t = c :: t' /\ (c = 110 \/ c = 78).
Proof.
  intros [H|(n & p & -> & H & _)]; apply any_case_cons in H; destruct H as (c & t' & -> & Hc & _).
  - exists c, t'. split; auto; lia.
  - exists c, (t' ++ 40 :: p ++ [41]). split; auto; lia.
Qed.

(** The part of the grammar with numbers in it. *)
Definition number (f : format) (t : list Z) : Prop :=
  match f with
  | Any => decimal true true t \/ exists p h, t = p ++ h /\ hex_prefix p /\ hexadecimal h
  | Hex => hexadecimal t \/ exists p h, t = p ++ h /\ hex_prefix p /\ hexadecimal h
  | Scientific => decimal false true t
  | Fixed => decimal true false t
  | General => decimal true true t
  end.
Lemma number_first f t : number f t -> exists c t', t = c :: t' /\ (is_digit 16 c \/ c = 46).
Proof.
  assert (D : forall fx sc, decimal fx sc t -> exists c t', t = c :: t' /\ (is_digit 16 c \/ c = 46)).
  { intros fx sc H. apply decimal_first in H. destruct H as (c & t' & -> & [H|H]); exists c, t'; auto using digit10_16. }
  assert (P : (exists p h, t = p ++ h /\ hex_prefix p /\ hexadecimal h) -> exists c t', t = c :: t' /\ (is_digit 16 c \/ c = 46)).
  { intros (p & h & -> & Hp & _). apply hex_prefix_iff in Hp. destruct Hp as (x & -> & _). exists 48, (x :: h).
    split; [reflexivity|]. left. apply digit16_iff. lia. }
  destruct f; cbn [number]; try apply D.
  - intros [H|H]; [eapply D, H|auto].
  - intros [H|H]; [now apply hexadecimal_first|auto].
Qed.
Lemma grammar_number f t : grammar f t <-> infinite t \/ not_a_number t \/ number f t.
Proof. reflexivity. Qed.

(** ** Characters of the grammar *)

Definition solid (c : Z) : Prop := 33 <= c <= 126.
Lemma digit_solid b c : b <= 16 -> is_digit b c -> solid c.
Proof.
  intros Hb (d & E & H). assert (D : is_digit 16 c) by (exists d; split; [exact E|lia]).
  apply digit16_iff in D. unfold solid. lia.
Qed.
Lemma digits_solid b ds : b <= 16 -> Forall (is_digit b) ds -> Forall solid ds.
Proof. intros Hb. apply Forall_impl. intros c. now apply digit_solid. Qed.
Lemma significand_solid b m : b <= 16 -> significand b m -> Forall solid m.
Proof.
  intros Hb (w & f & [[-> _]| ->] & Fw & Ff & _); [now apply (digits_solid b)|].
  apply Forall_app. split; [now apply (digits_solid b)|]. constructor; [unfold solid; lia|now apply (digits_solid b)].
Qed.
Lemma exponent_solid lower x : 97 <= lower <= 122 -> exponent lower x -> Forall solid x.
Proof.
  intros Hl (c & neg & sg & ds & -> & Hc & Hs & _ & F). constructor; [unfold solid; lia|]. apply Forall_app.
  split; [destruct Hs; repeat constructor; unfold solid; lia|now apply (digits_solid 10)].
Qed.
Lemma decimal_solid fx sc t : decimal fx sc t -> Forall solid t.
Proof.
  intros [[_ H]|[_ (m & x & -> & H & Hx)]]; [now apply (significand_solid 10)|].
  apply Forall_app. split; [now apply (significand_solid 10)|now apply (exponent_solid 101)].
Qed.
Lemma hexadecimal_solid t : hexadecimal t -> Forall solid t.
Proof.
  intros [H|(m & x & -> & H & Hx)]; [now apply (significand_solid 16)|].
  apply Forall_app. split; [now apply (significand_solid 16)|now apply (exponent_solid 112)].
Qed.
Lemma any_case_solid w t : Forall (fun l => 97 <= l <= 122) w -> any_case w t -> Forall solid t.
Proof.
  intros Hw F. induction F as [|l c w t Hc F IH]; constructor; inversion Hw; subst; [unfold solid; lia|auto].
Qed.
Lemma grammar_solid f t : grammar f t -> Forall solid t.
Proof.
  assert (P : (exists p h, t = p ++ h /\ hex_prefix p /\ hexadecimal h) -> Forall solid t).
  { intros (p & h & -> & Hp & Hh). apply Forall_app. split; [|now apply hexadecimal_solid].
    apply hex_prefix_iff in Hp. destruct Hp as (x & -> & Hx). repeat constructor; unfold solid; lia. }
  intros [[H|H]|[[H|(n & p & -> & Hn & Hp)]|H]].
  - eapply any_case_solid; [|exact H]. repeat constructor; lia.
  - eapply any_case_solid; [|exact H]. repeat constructor; lia.
  - eapply any_case_solid; [|exact H]. repeat constructor; lia.
  - apply Forall_app. split; [eapply any_case_solid; [|exact Hn]; repeat constructor; lia|].
    constructor; [unfold solid; lia|]. apply Forall_app. split; [|repeat constructor; unfold solid; lia].
    eapply Forall_impl; [|exact Hp]. unfold payload_char, solid. intros; lia.
  - destruct f.
    + destruct H as [H|H]; [now apply decimal_solid in H|auto].
    + destruct H as [H|H]; [now apply hexadecimal_solid|auto].
    + now apply decimal_solid in H.
    + now apply decimal_solid in H.
    + now apply decimal_solid in H.
Qed.

(** Cutting a text where a character outside the language is does not change its longest
    prefix. *)
Definition stops (w : list Z) : Prop := match w with [] => True | c :: _ => ~ solid c end.
Lemma longest_cut (L : list Z -> Prop) t rest w : (forall t, L t -> Forall solid t) ->
  longest L t rest -> stops w -> longest L t (rest ++ w).
Proof.
  intros HL [Ht Hm] Hw. split; [exact Ht|]. intros t' rest' E Ht'.
  assert (LE : (length t' <= length (t ++ rest))%nat).
  { apply (run_longest solid t' rest' (t ++ rest) w); [now rewrite <- app_assoc|now apply HL|exact Hw]. }
  destruct (app_split t' rest' (t ++ rest) w) as (e & E1 & E2); [now rewrite <- app_assoc|exact LE|].
  apply (Hm t' e); assumption.
Qed.

Lemma c_string_cut s : exists w, s = c_string s ++ w /\ stops w.
Proof.
  unfold c_string. exists (find_if (Z.eqb 0) s).
  assert (A : exists pre, s = pre ++ find_if (Z.eqb 0) s /\ match find_if (Z.eqb 0) s with [] => True | c :: _ => c = 0 end).
  { induction s as [|c s (pre & E & H)]; cbn [find_if]; [exists []; auto|].
    destruct (0 =? c) eqn:Ec; [exists []; split; [reflexivity|lia]|]. exists (c :: pre). cbn [app]. rewrite <- E. auto. }
  destruct A as (pre & E & H). set (f := find_if (Z.eqb 0) s) in *. clearbody f. subst s.
  rewrite app_length, Nat.add_sub, firstn_app, firstn_all, Nat.sub_diag. cbn [firstn]. rewrite app_nil_r.
  split; [reflexivity|]. destruct f; cbn [stops]; [auto|]. subst z. unfold solid. lia.
Qed.

Lemma solid_not_space c : solid c -> is_cp_space c = false.
Proof. unfold solid, is_cp_space. lia. Qed.

Lemma until_code_point_end e p : forall fuel s w, read_until_code_point_loop fuel e p s = Ok w ->
  w = [] \/ exists rest x cps cp, read_code_point_into e w = Ok (rest, x :: cps) /\ decode_cp e (x :: cps) = Ok cp /\ p cp = true.
Proof.
  induction fuel as [|f IH]; intros [|c s] w; cbn [read_until_code_point_loop]; try (intros [= <-]; auto); try discriminate.
  destruct (read_code_point_into_total e c s) as (rest & cps & E & _ & Hd). rewrite E. cbn [bind].
  destruct cps as [|x cps]; [apply IH|]. destruct Hd as [Hd|[v Ev]]; [discriminate|]. rewrite Ev. cbn [bind].
  destruct (p v) eqn:Ep; [|apply IH]. intros [= <-]. right. rewrite E. eauto 8.
Qed.

Lemma space_cut e s : units e s -> exists p w, s = p ++ w
  /\ read_until_classic_space (Src e true (fun _ => O)) s = Ok w /\ stops w.
Proof.
  intros Hu. assert (T := read_until_classic_space_total (Src e true (fun _ => O)) s Hu).
  destruct T as (w & E & [p Hp]). exists p, w. split; [exact Hp|]. split; [exact E|].
  unfold read_until_classic_space in E. cbn [s_enc s_contig] in E. destruct w as [|c w]; cbn [stops]; [exact I|]. intros Hc.
  assert (Sp := solid_not_space c Hc).
  assert (A : e <> U8 -> read_until_code_point e is_cp_space s = Ok (c :: w) -> False).
  { intros He E'. apply until_code_point_end in E'. destruct E' as [D|(rest & x & cps & cp & E1 & E2 & E3)]; [discriminate|].
    unfold solid in Hc. unfold read_code_point_into in E1.
    assert (L : cp_len e c = 1%nat).
    { destruct e; [congruence| |reflexivity]. cbn [cp_len]. unfold utf16_cp_len.
      replace (Z.land 65535 c) with c by (change 65535 with (Z.ones 16); rewrite Z.land_comm, Z.land_ones, Z.mod_small; lia).
      repeat match goal with |- context [if ?b then _ else _] => destruct b eqn:? end; try reflexivity; lia. }
    rewrite L in E1. cbn [skipn firstn] in E1. injection E1 as <- <- <-.
    assert (cp = c) as ->.
    { destruct e; [congruence| |]; cbn [decode_cp decode_utf16] in E2; [congruence|].
      destruct (invalid_code_point <=? c) eqn:Ei; [unfold invalid_code_point in Ei; lia|congruence]. }
    congruence. }
  destruct e; [|apply (A ltac:(discriminate) E)|apply (A ltac:(discriminate) E)].
  destruct (find_classic_space_spec s Hu) as (f & E' & [_ Hf]). rewrite E in E'. injection E' as <-.
  destruct Hf as [D|(cp & rest & G & Gs)]; [discriminate|]. rewrite next_cp_ascii in G by (unfold solid in Hc; lia). congruence.
Qed.

Lemma c_string_cons c s : c <> 0 -> c_string (c :: s) = c :: c_string s.
Proof.
  intros H. unfold c_string. cbn [find_if]. replace (0 =? c) with false by lia.
  assert (L := suffix_len _ _ (find_if_suffix (Z.eqb 0) s)). cbn [length].
  replace (S (length s) - length (find_if (Z.eqb 0) s))%nat with (S (length s - length (find_if (Z.eqb 0) s))) by lia. reflexivity.
Qed.

Lemma source_ok e k view str : units e view -> str = None \/ str = Some view ->
  exists p w, view = p ++ w /\ stops w
    /\ get_null_terminated_source e k (FBuf view str) = Ok (match k with KHexWithout => 48 :: 120 :: p | _ => p end).
Proof.
  intros Hu Hs. unfold get_null_terminated_source. cbn [fb_string fb_view].
  assert (A : exists p w, view = p ++ w /\ stops w /\
    (match str with Some x => Ok x
     | None => sp <- read_until_classic_space (Src e true (fun _ => O)) view ;; Ok (firstn (length view - length sp) view) end) = Ok p).
  { destruct Hs as [-> | ->]; [|exists view, []; rewrite app_nil_r; cbn; auto].
    destruct (space_cut e view Hu) as (p & w & -> & -> & Hw). exists p, w. cbn [bind].
    rewrite app_length, Nat.add_sub, firstn_app, firstn_all, Nat.sub_diag. cbn [firstn]. rewrite app_nil_r. auto. }
  destruct A as (p & w & -> & Hw & ->). cbn [bind].
  destruct (c_string_cut p) as (w' & E & Hw'). exists (c_string p), (w' ++ w).
  split; [rewrite app_assoc, <- E; reflexivity|]. split; [destruct w'; cbn [app stops]; assumption|].
  destruct k; try reflexivity. rewrite !c_string_cons by lia. reflexivity.
Qed.

(** ** The contract of the conversion routines *)

(** What is assumed of the external routines.
    - fast_float::from_chars, on a text starting with a digit, uses the longest prefix
      which is a decimal number of the wanted form and yields its value; it reports
      numbers out of range.
    - strtod (in the "C" locale), on a text starting with a digit, uses the longest prefix
      which is a number in C syntax; the value of a number too small to represent is 0
      with ERANGE, that of a number too large is infinite.
    - "0" and "0x0" mean the same. *)
Record converts {V} (F : fp V) (M : meaning V) : Prop := Converts
  { cv_inf : mg_inf M = fp_inf F;
    cv_nan : mg_nan M = fp_nan F;
    cv_sign : forall neg v, mg_signed M neg v = fp_sign F neg v;
    cv_fast : forall fx sc s, fx || sc = true -> starts_with_digit 10 s ->
      match fp_fast F fx sc s with
      | FFInvalid => ~ has (decimal fx sc) s
      | FFRange => True
      | FFOk v n => exists t rest, s = t ++ rest /\ length t = n /\ longest (decimal fx sc) t rest
          /\ v = mg_value M t /\ mg_underflow M t = false /\ mg_overflow M t = false
      end;
    cv_strtod : forall s, starts_with_digit 10 s ->
      let '(v, n, erange) := fp_strtod F s in
      exists t rest, s = t ++ rest /\ length t = n /\ longest (grammar Any) t rest
        /\ v = mg_value M t /\ erange && fp_zero F v = mg_underflow M t
        /\ fp_infinite F v = mg_overflow M t;
    cv_zero : forall neg, number_outcome M neg [48] = number_outcome M neg [48; 120; 48] }.

Section Main.
Context {V : Type} (F : fp V) (M : meaning V) (C : converts F M).

(** The outcome of a conversion of [t] which used [n] characters. *)
Definition conv (t : list Z) (n : nat) : outcome (V * nat) :=
  if mg_underflow M t then Err ValuePositiveUnderflow
  else if mg_overflow M t then Err ValuePositiveOverflow
  else Ok (mg_value M t, n).

Lemma grammar_nonempty f t : grammar f t -> (0 < length t)%nat.
Proof.
  intros [H|[H|H]].
  - apply infinite_first in H. destruct H as (c & t' & -> & _). cbn. lia.
  - apply nan_first in H. destruct H as (c & t' & -> & _). cbn. lia.
  - apply (number_first f) in H. destruct H as (c & t' & -> & _). cbn. lia.
Qed.

(** strtod on the text of a number. *)
Lemma strtod_plain e o k view str : units e view -> str = None \/ str = Some view ->
  starts_with_digit 10 view -> (k = KHexWith -> o_hex o = true) ->
  match k with KHexWithout | KInfShort | KInfLong => False | _ => True end ->
  exists t rest, view = t ++ rest /\ longest (grammar Any) t rest
    /\ strtod_impl F e o k (FBuf view str) = conv t (length t).
Proof.
  intros Hu Hs Hd Ho Hk. unfold strtod_impl.
  destruct (source_ok e k view str Hu Hs) as (p & w & -> & Hw & ->). cbn [bind].
  replace (match k with KHexWithout => 48 :: 120 :: p | _ => p end) with p by (destruct k; [reflexivity..|contradiction|reflexivity|reflexivity|reflexivity|reflexivity|reflexivity]).
  assert (Hp : starts_with_digit 10 p).
  { destruct p as [|c p]; [|exact Hd]. cbn [app] in Hd. destruct w as [|c w]; cbn in *; [contradiction|]. exfalso. apply Hw. eapply digit_solid; [|exact Hd]; lia. }
  assert (X := cv_strtod F M C p Hp). destruct (fp_strtod F p) as [[v n] er].
  destruct X as (t & rest & -> & <- & HL & -> & Hun & Hov).
  exists t, (rest ++ w). split; [now rewrite app_assoc|].
  split. { apply longest_cut; [apply (grammar_solid Any)|exact HL|exact Hw]. }
  assert (Ln := grammar_nonempty _ _ (proj1 HL)).
  unfold check_error, conv. replace (length t =? 0)%nat with false by (symmetry; apply Nat.eqb_neq; lia). rewrite andb_false_r.
  replace (match k with KHexWith => negb (o_hex o) | _ => false end) with false by (destruct k; try reflexivity; rewrite Ho; reflexivity).
  rewrite Hun. destruct (mg_underflow M t); [reflexivity|].
  replace (match k with KInfShort | KInfLong => false | _ => fp_infinite F (mg_value M t) end) with (mg_overflow M t) by (destruct k; auto; contradiction).
  destruct (mg_overflow M t); [reflexivity|]. destruct k; try reflexivity; contradiction.
Qed.

(** What follows "0x" cannot belong to a number without the prefix. *)
Lemma full_zero b x s : b <= 16 -> 10 <= b -> x = 120 \/ x = 88 -> full b [48] (x :: s).
Proof.
  intros Hb1 Hb2 Hx. exists 48, []. split; [constructor; [|constructor]|].
  { exists 0. split; [reflexivity|lia]. }
  split. { cbn. intros (d & E & H). destruct Hx as [-> | ->]; cbv in E; injection E as <-; lia. }
  left. split; [reflexivity|lia].
Qed.
Lemma significand_zero b x s m rest : b <= 16 -> 10 <= b -> x = 120 \/ x = 88 -> significand b m -> 48 :: x :: s = m ++ rest -> m = [48].
Proof.
  intros Hb1 Hb2 Hx Hm E. assert (Hf := full_zero b x s Hb1 Hb2 Hx).
  destruct (full_unique b [48] (x :: s) m rest ltac:(lia) Hf Hm E) as [L _]. cbn [length] in L.
  destruct (significand_first _ _ Hm) as (c & m' & -> & _). cbn [length] in L. destruct m'; [|cbn [length] in L; lia].
  cbn [app] in E. injection E as <- _. reflexivity.
Qed.
Lemma decimal_zero fx sc x s t rest : x = 120 \/ x = 88 -> decimal fx sc t -> 48 :: x :: s = t ++ rest -> t = [48].
Proof.
  intros Hx [[_ H]|[_ (m & y & -> & H & Hy)]] E; [eapply (significand_zero 10 x s); eauto; lia|].
  exfalso. destruct (full_exponent 10 101 [48] (x :: s) m y rest ltac:(lia) letters_e (full_zero 10 x s ltac:(lia) ltac:(lia) Hx) H Hy E) as [_ E'].
  destruct (exponent_first _ _ Hy) as (c & y' & -> & Hc). cbn [app] in E'. injection E' as -> _. lia.
Qed.
Lemma hexadecimal_zero x s t rest : x = 120 \/ x = 88 -> hexadecimal t -> 48 :: x :: s = t ++ rest -> t = [48].
Proof.
  intros Hx [H|(m & y & -> & H & Hy)] E; [eapply (significand_zero 16 x s); eauto; lia|].
  exfalso. destruct (full_exponent 16 112 [48] (x :: s) m y rest ltac:(lia) letters_p (full_zero 16 x s ltac:(lia) ltac:(lia) Hx) H Hy E) as [_ E'].
  destruct (exponent_first _ _ Hy) as (c & y' & -> & Hc). cbn [app] in E'. injection E' as -> _. lia.
Qed.

(** Prefixes in the grammar of a text starting with a digit are numbers. *)
Lemma digit_number f s t rest b : starts_with_digit b s -> b <= 16 -> s = t ++ rest -> grammar f t -> number f t.
Proof.
  intros Hd Hb -> [H|[H|H]]; [| |exact H].
  - apply infinite_first in H. destruct H as (c & t' & -> & Hc). cbn [app starts_with_digit] in Hd.
    exfalso. destruct Hd as (d & E & Hd). assert (D : is_digit 16 c) by (exists d; split; [exact E|lia]). apply digit16_iff in D. lia.
  - apply nan_first in H. destruct H as (c & t' & -> & Hc). cbn [app starts_with_digit] in Hd.
    exfalso. destruct Hd as (d & E & Hd). assert (D : is_digit 16 c) by (exists d; split; [exact E|lia]). apply digit16_iff in D. lia.
Qed.

(** strtod on the text of a hexadecimal number to which "0x" is added. *)
Lemma strtod_hex e o view str : units e view -> str = None \/ str = Some view ->
  starts_with_digit 10 view ->
  exists t rest, view = t ++ rest /\ longest hexadecimal t rest
    /\ strtod_impl F e o KHexWithout (FBuf view str) = conv (48 :: 120 :: t) (length t).
Proof.
  intros Hu Hs Hd. unfold strtod_impl.
  destruct (source_ok e KHexWithout view str Hu Hs) as (p & w & -> & Hw & ->). cbn [bind].
  assert (Hp : starts_with_digit 10 p).
  { destruct p as [|c p]; [|exact Hd]. cbn [app] in Hd. destruct w as [|c w]; cbn in *; [contradiction|]. exfalso. apply Hw. eapply digit_solid; [|exact Hd]; lia. }
  assert (H48 : starts_with_digit 10 (48 :: 120 :: p)) by (apply digit10_iff; lia).
  assert (X := cv_strtod F M C (48 :: 120 :: p) H48). destruct (fp_strtod F (48 :: 120 :: p)) as [[v n] er].
  destruct X as (T & rest & E & <- & HL & -> & Hun & Hov).
  assert (HT : exists t, T = 48 :: 120 :: t /\ p = t ++ rest /\ hexadecimal t).
  { destruct p as [|c p]; [contradiction|]. cbn [starts_with_digit] in Hp.
    assert (L3 : (3 <= length T)%nat).
    { apply (proj2 HL [48; 120; c] p); [now rewrite <- E|]. right. right. right. exists [48; 120], [c]. split; [reflexivity|].
      split; [apply hex_prefix_iff; eauto|]. left. exists [c], []. repeat split; auto; [|discriminate]. constructor; [|constructor]. now apply digit10_16. }
    destruct (digit_number Any _ T rest 10 H48 ltac:(lia) E (proj1 HL)) as [H|(q & h & -> & Hq & Hh)].
    - apply (decimal_zero _ _ 120 (c :: p) T rest) in H; [|auto|exact E]. subst T. cbn [length] in L3. lia.
    - apply hex_prefix_iff in Hq. destruct Hq as (x & -> & _). cbn [app] in E. injection E as <- E. exists h. auto. }
  destruct HT as (t & -> & -> & Ht). exists t, (rest ++ w). split; [now rewrite app_assoc|]. split.
  { apply longest_cut; [apply hexadecimal_solid| |exact Hw]. split; [exact Ht|]. intros t' rest' E' Ht'.
    assert (L := proj2 HL (48 :: 120 :: t') rest'). cbn [app length] in L. specialize (L ltac:(rewrite E'; reflexivity)).
    enough (S (S (length t')) <= S (S (length t)))%nat by lia. apply L. right. right. right.
    exists [48; 120], t'. repeat split; auto. constructor; [auto|constructor]. }
  unfold check_error, conv. cbn [length Nat.eqb]. rewrite andb_false_r, Hun.
  destruct (mg_underflow M _); [reflexivity|]. rewrite Hov. destruct (mg_overflow M _); [reflexivity|].
  cbn [Nat.leb Nat.sub]. rewrite Nat.sub_0_r. reflexivity.
Qed.

(** fast_float, with strtod for numbers out of its range. *)
Lemma conv_fast e o k view str : units e view -> str = None \/ str = Some view ->
  starts_with_digit 10 view -> o_fixed o || o_scientific o = true -> k = KGeneric \/ k = KFixed \/ k = KScientific ->
  (* the text is either delimited already, or may have any form *)
  (decimal (o_fixed o) (o_scientific o) view \/ o_fixed o = true /\ o_scientific o = true /\ ~ (exists p rest, view = p ++ rest /\ hex_prefix p)) ->
  exists t rest, view = t ++ rest /\ longest (decimal (o_fixed o) (o_scientific o)) t rest
    /\ (if fp_long F then strtod_impl F e o k (FBuf view str) else fast_float_impl F e o k (FBuf view str)) = conv t (length t).
Proof.
  intros Hu Hs Hd Ho Hk Hv.
  assert (St : exists t rest, view = t ++ rest /\ longest (decimal (o_fixed o) (o_scientific o)) t rest
    /\ strtod_impl F e o k (FBuf view str) = conv t (length t)).
  { destruct (strtod_plain e o k view str Hu Hs Hd) as (t & rest & E & HL & Ec).
    { intros ->. destruct Hk as [Hk|[Hk|Hk]]; discriminate. }
    { destruct Hk as [->|[->| ->]]; exact I. }
    exists t, rest. split; [exact E|]. split; [|exact Ec]. destruct Hv as [Hv|(H1 & H2 & H3)].
    - assert (rest = []) as ->.
      { assert (L := proj2 HL view []). rewrite app_nil_r, <- E in L. specialize (L eq_refl).
        assert (G : grammar Any view). { right. right. left. destruct Hv as [[_ Hv]|[_ Hv]]; [left|right]; auto. }
        apply L in G. rewrite E, app_length in G. destruct rest; [reflexivity|]. cbn [length] in G. lia. }
      rewrite app_nil_r in E. subst view. split; [exact Hv|]. intros t' rest' E' _. rewrite app_nil_r in E'. rewrite E', app_length. lia.
    - rewrite H1, H2. destruct (digit_number Any view t rest 10 Hd ltac:(lia) E (proj1 HL)) as [H|(p & h & -> & Hp & _)].
      + split; [exact H|]. intros t' rest' E' Ht'. apply (proj2 HL t' rest' E'). right. right. left. exact Ht'.
      + exfalso. apply H3. exists p, (h ++ rest). rewrite E, app_assoc. auto. }
  destruct (fp_long F); [exact St|]. unfold fast_float_impl. cbn [fb_view].
  assert (X := cv_fast F M C (o_fixed o) (o_scientific o) view Ho Hd).
  replace (match k with KHexWithout | KHexWith => strtod_impl F e o k (FBuf view str) | _ => match fp_fast F (o_fixed o) (o_scientific o) view with FFInvalid => Err InvalidScannedValue | FFRange => strtod_impl F e o k (FBuf view str) | FFOk v n => Ok (v, n) end end)
    with (match fp_fast F (o_fixed o) (o_scientific o) view with FFInvalid => Err InvalidScannedValue | FFRange => strtod_impl F e o k (FBuf view str) | FFOk v n => Ok (v, n) end)
    by (destruct Hk as [->|[->| ->]]; reflexivity).
  destruct (fp_fast F (o_fixed o) (o_scientific o) view) as [| |v n].
  - exfalso. apply X. destruct St as (t & rest & E & HL & _). exists t, rest. split; [exact E|exact (proj1 HL)].
  - exact St.
  - destruct X as (t & rest & E & <- & HL & -> & H1 & H2). exists t, rest. split; [exact E|]. split; [exact HL|].
    unfold conv. rewrite H1, H2. reflexivity.
Qed.

(** ** The whole reader *)

Definition options (f : format) (th : bool) : foptions :=
  match f with
  | Any => FOpt true true true th
  | Hex => FOpt true false false th
  | Scientific => FOpt false true false th
  | Fixed => FOpt false false true th
  | General => FOpt false true true th
  end.

(** The part of the reader after the text is delimited. *)
Definition fin (r : src) (o : foptions) (s : list Z) (sign : sign_type) (k : fkind) (payload : nat) (b : fbuffer)
  : outcome (V * list Z) :=
  '(v, n) <- parse_value F (s_enc r) o (FState sign k payload b 0) ;;
  if (length s <? n)%nat then UB else Ok (v, skipn n s).
Definition buffer_of (r : src) (u : list Z) (k : fkind) (it : list Z) : fbuffer :=
  match k with
  | KInfShort | KInfLong | KNan | KNanPayload => FBuf [] None
  | _ => fill_buffer r u it
  end.
Definition all_of (u : list Z) (k : fkind) (rr : list Z) : outcome (list Z * fkind) :=
  match u with [] => Err InvalidScannedValue | _ => Ok ([], k) end.

Lemma impl_unfold r o s u sign : parse_numeric_sign s = Ok (u, sign) ->
  float_read_impl F r o plain_seps s =
  '(it, k, payload) <-
    (if s_contig r then do_read_source_impl r o plain_seps (all_of u) (all_of u) u
     else do_read_source_impl r o plain_seps (fun _ => read_regular_float o plain_seps) (read_hexfloat plain_seps) u) ;;
  fin r o s sign k payload (buffer_of r u k it).
Proof.
  intros E. unfold float_read_impl, read_source_impl. rewrite E. cbn [bind]. change (is_plain plain_seps) with true. rewrite andb_true_r.
  fold (all_of u). destruct (if s_contig r then _ else _) as [[[it k] pl]|e| |]; reflexivity.
Qed.

(** Outcomes with a sign. *)
Definition with_sign (neg : bool) (d : outcome V) : outcome V :=
  match d with
  | Ok v => Ok (mg_signed M neg v)
  | Err ValuePositiveOverflow => Err (if neg then ValueNegativeOverflow else ValuePositiveOverflow)
  | Err ValuePositiveUnderflow => Err (if neg then ValueNegativeUnderflow else ValuePositiveUnderflow)
  | x => x
  end.
Definition magnitude (t : list Z) : outcome V :=
  if mg_underflow M t then Err ValuePositiveUnderflow
  else if mg_overflow M t then Err ValuePositiveOverflow else Ok (mg_value M t).
Lemma with_sign_magnitude neg t : with_sign neg (magnitude t) = number_outcome M neg t.
Proof. unfold magnitude, number_outcome. destruct (mg_underflow M t), (mg_overflow M t); reflexivity. Qed.
Lemma conv_magnitude t n : conv t n = (v <- magnitude t ;; Ok (v, n)).
Proof. unfold magnitude, conv. destruct (mg_underflow M t), (mg_overflow M t); reflexivity. Qed.

Lemma finish r o s sign k payload b neg sg t rest d : k <> KTbd ->
  dispatch_impl F (s_enc r) o k payload b = (v <- d ;; Ok (v, length t)) ->
  is_minus sign = neg -> length sg = match sign with DefaultSign => 0%nat | _ => 1%nat end ->
  s = sg ++ t ++ rest ->
  fin r o s sign k payload b = (v <- with_sign neg d ;; Ok (v, rest)).
Proof.
  intros Hk E Hn Hl ->. unfold fin, parse_value. cbn [fs_kind fs_sign fs_thseps].
  replace (match k with KTbd => UB | _ => _ end) with
    ('(v, n) <- parse_value_impl F (s_enc r) o (FState sign k payload b 0) ;; Ok (v, (n + match sign with DefaultSign => 0 | _ => 1 end + 0)%nat))
    by (destruct k; [congruence|reflexivity..]).
  unfold parse_value_impl. cbn [fs_kind fs_sign fs_payload fs_buffer]. rewrite E, Hn.
  destruct d as [v|e| |]; [|destruct e; reflexivity|reflexivity|reflexivity].
  cbn [bind with_sign]. rewrite (cv_sign F M C).
  rewrite Nat.add_0_r, <- Hl. replace (length (sg ++ t ++ rest) <? length t + length sg)%nat with false
    by (symmetry; apply Nat.ltb_ge; rewrite !app_length; lia).
  f_equal. f_equal. rewrite app_assoc. replace (length t + length sg)%nat with (length (sg ++ t)) by (rewrite app_length; lia).
  rewrite skipn_app, skipn_all, Nat.sub_diag. reflexivity.
Qed.

(** A first character which is no decimal digit is rejected. *)
Lemma dispatch_nodigit e o k payload c v str : ~ is_digit 10 c ->
  match k with KInfShort | KInfLong | KNan | KNanPayload => False | _ => True end ->
  dispatch_impl F e o k payload (FBuf (c :: v) str) = Err InvalidScannedValue.
Proof.
  intros Hc Hk. apply char_to_int_not_digit in Hc; [|lia]. destruct k; try contradiction; cbn [dispatch_impl fb_view]; rewrite Hc; try reflexivity.
  destruct (16 <=? char_to_int c); reflexivity.
Qed.
Lemma dispatch_digit e o k payload view str : starts_with_digit 10 view ->
  match k with KInfShort | KInfLong | KNan | KNanPayload => False | _ => True end ->
  dispatch_impl F e o k payload (FBuf view str)
  = if fp_long F then strtod_impl F e o k (FBuf view str) else fast_float_impl F e o k (FBuf view str).
Proof.
  intros Hc Hk. destruct view as [|c view]; [contradiction|]. cbn [starts_with_digit] in Hc.
  assert (H10 := proj2 (char_to_int_is_digit 10 c ltac:(lia)) Hc).
  assert (H16 := proj2 (char_to_int_is_digit 16 c ltac:(lia)) (digit10_16 c Hc)).
  destruct k; try contradiction; cbn [dispatch_impl fb_view]; rewrite ?H16, ?H10; reflexivity.
Qed.

Lemma fill_ok r t rest : exists str, fill_buffer r (t ++ rest) rest = FBuf t str /\ (str = None \/ str = Some t).
Proof.
  unfold fill_buffer. rewrite app_length, Nat.add_sub, firstn_app, firstn_all, Nat.sub_diag. cbn [firstn]. rewrite app_nil_r.
  destruct (s_contig r); [eauto|]. destruct (_ <=? _)%nat; eauto.
Qed.
Lemma fill_all r u : exists str, fill_buffer r u [] = FBuf u str /\ (str = None \/ str = Some u).
Proof. destruct (fill_ok r u []) as (str & E & H). rewrite app_nil_r in E. eauto. Qed.

(** The longest prefix of a text which is itself in the language. *)
Lemma longest_all (L : list Z -> Prop) t t0 rest0 : L t -> t = t0 ++ rest0 -> longest L t0 rest0 -> t0 = t.
Proof.
  intros Ht E [_ H]. specialize (H t []). rewrite app_nil_r, <- E in H. specialize (H eq_refl Ht).
  rewrite E, app_length in H. destruct rest0; [rewrite app_nil_r in E; auto|cbn [length] in H; lia].
Qed.

Lemma units_app e a b : units e (a ++ b) -> units e a /\ units e b.
Proof. destruct e; cbn [units]; auto. unfold bytes. rewrite Forall_app. auto. Qed.

Definition fits (r : src) (f : format) (neg : bool) (u : list Z) (x : outcome (V * list Z)) : Prop :=
  (readable (s_contig r) f u /\ exists t rest out, u = t ++ rest /\ longest (grammar f) t rest /\ reads M f neg t out
     /\ x = (v <- out ;; Ok (v, rest)))
  \/ (~ readable (s_contig r) f u /\ x = Err InvalidScannedValue).

Lemma not_readable c f u : ~ has infinite u -> ~ has not_a_number u -> ~ starts_with_digit 10 u -> ~ readable c f u.
Proof. intros N1 N2 N3 [H|[[H _]|[H _]]]; contradiction. Qed.

Lemma float_main r f th s neg sg u sign : units (s_enc r) s -> s = sg ++ u ->
  parse_numeric_sign s = Ok (u, sign) -> is_minus sign = neg ->
  length sg = match sign with DefaultSign => 0%nat | _ => 1%nat end ->
  fits r f neg u (float_read_impl F r (options f th) plain_seps s).
Proof.
  intros Hu Es Ep Hn Hl. rewrite (impl_unfold _ _ _ _ _ Ep).
  assert (Huu : units (s_enc r) u) by (subst s; now apply units_app in Hu).
  unfold do_read_source_impl.
  destruct (inf_ok r u) as [(t & rest & k & E & -> & Ht & Hk & HL)|[-> Ninf]].
  { left. split; [left; exists t, rest; auto|]. exists t, rest, (Ok (mg_signed M neg (mg_inf M))).
    split; [exact E|]. split; [|split; [now apply reads_inf|]].
    { split; [left; exact Ht|]. intros t' rest' E' G. rewrite <- E in E'. destruct G as [G|[G|G]]; [now apply (HL t' rest')|exfalso..].
      - destruct (infinite_first t Ht) as (c & t1 & -> & Hc). destruct (nan_first t' G) as (c' & t2 & -> & Hc').
        rewrite E in E'. cbn [app] in E'. injection E' as -> _. lia.
      - destruct (infinite_first t Ht) as (c & t1 & -> & Hc). destruct (number_first f t' G) as (c' & t2 & -> & Hc').
        rewrite E in E'. cbn [app] in E'. injection E' as -> _. rewrite digit16_iff in Hc'. lia. }
    replace (if s_contig r then _ else _) with (Ok (rest, k, 0%nat)) by (destruct (s_contig r); reflexivity). cbn [bind].
    apply (finish r _ s sign k 0 _ neg sg t rest (Ok (mg_inf M))); [destruct Hk as [[-> _]|[-> _]]; discriminate| |exact Hn|exact Hl|subst; auto].
    rewrite (cv_inf F M C). destruct Hk as [[-> ->]|[-> ->]]; reflexivity. }
  destruct (nan_ok r u) as [(t & rest & k & n & E & -> & Ht & Hk & NO & HL)|[(-> & HO & c & u' & E & Hc)|[-> Nnan]]].
  { left. split; [right; left; split; [exists t, rest; auto|exact NO]|]. exists t, rest, (Ok (mg_signed M neg (mg_nan M))).
    split; [exact E|]. split; [|split; [now apply reads_nan|]].
    { split; [right; left; exact Ht|]. intros t' rest' E' G. rewrite <- E in E'. destruct G as [G|[G|G]]; [exfalso|now apply (HL t' rest')|exfalso].
      - apply Ninf. exists t', rest'. auto.
      - destruct (nan_first t Ht) as (c & t1 & -> & Hc). destruct (number_first f t' G) as (c' & t2 & -> & Hc').
        rewrite E in E'. cbn [app] in E'. injection E' as -> _. rewrite digit16_iff in Hc'. lia. }
    replace (if s_contig r then _ else _) with (Ok (rest, k, n)) by (destruct (s_contig r); reflexivity). cbn [bind].
    apply (finish r _ s sign k n _ neg sg t rest (Ok (mg_nan M))); [destruct Hk as [[-> _]|[-> _]]; discriminate| |exact Hn|exact Hl|subst; auto].
    rewrite (cv_nan F M C). destruct Hk as [[-> ->]|[-> ->]]; reflexivity. }
  { right. split.
    - intros [H|[[_ H]|[H _]]]; [contradiction|contradiction|]. rewrite E in H. cbn [starts_with_digit] in H. rewrite digit10_iff in H. lia.
    - destruct (s_contig r); reflexivity. }
  (* numbers *)
  assert (HG : forall t rest, u = t ++ rest -> grammar f t -> number f t).
  { intros t rest E [H|[H|H]]; [exfalso; apply Ninf; exists t, rest; auto|exfalso; apply Nnan; exists t, rest; auto|exact H]. }
  assert (NR : ~ starts_with_digit 10 u -> ~ readable (s_contig r) f u) by (now apply not_readable).
  (* a number of type decimal which was delimited before the conversion *)
  assert (Dec : forall fx sc, o_fixed (options f th) = fx -> o_scientific (options f th) = sc -> fx || sc = true ->
     (forall t, decimal fx sc t -> number f t) ->
     (forall t rest, u = t ++ rest -> number f t -> decimal fx sc t \/ (f = Any \/ f = Hex) /\ exists p h, t = p ++ h /\ hex_prefix p) ->
     (forall p rest, u = p ++ rest -> hex_prefix p -> f <> Any /\ f <> Hex) -> f <> Hex ->
     fits r f neg u ('(it, k, payload) <- ('(it, k) <- read_regular_float (options f th) plain_seps u ;; Ok (it, k, 0%nat)) ;;
                    fin r (options f th) s sign k payload (buffer_of r u k it))).
  { intros fx sc Efx Esc Hfs Hin Hout Hp Hf.
    destruct (read_regular_ok (options f th) u) as [(t & rest & k & E & -> & Hk & Hd & HLg)|[-> Hno]]; [now rewrite Efx, Esc| |].
    - rewrite Efx, Esc in HLg. left. cbn [bind].
      assert (Gt : grammar f t) by (right; right; apply Hin, HLg).
      split. { right. right. split; [exact Hd|]. split; [exists t, rest; auto|].
               intros _ Hf2 p rest' E' Hp'. exfalso. destruct (Hp p rest' E' Hp') as [H1 H2]. destruct Hf2; auto. }
      exists t, rest, (number_outcome M neg t). split; [exact E|]. split.
      { split; [exact Gt|]. intros t' rest' E' G'. rewrite <- E in E'. destruct (Hout t' rest' E' (HG t' rest' E' G')) as [D|[Hf2 (p & h & -> & Hp')]].
        - apply (proj2 HLg t' rest'); [now rewrite <- E|exact D].
        - exfalso. rewrite <- app_assoc in E'. destruct (Hp p _ E' Hp') as [H1 H2]. destruct Hf2; auto. }
      split. { eapply reads_decimal; [exact Hf|exact (proj1 HLg)]. }
      replace (buffer_of r u k rest) with (fill_buffer r (t ++ rest) rest) by (rewrite <- E; destruct Hk as [-> | ->]; reflexivity).
      destruct (fill_ok r t rest) as (str & -> & Hstr).
      assert (Hdt : starts_with_digit 10 t).
      { destruct (decimal_first _ _ _ (proj1 HLg)) as (c & t' & -> & _). rewrite E in Hd. exact Hd. }
      assert (Hut : units (s_enc r) t) by (rewrite E in Huu; now apply units_app in Huu).
      destruct (conv_fast (s_enc r) (options f th) k t str Hut Hstr Hdt ltac:(now rewrite Efx, Esc) ltac:(tauto)) as (t0 & rest0 & E0 & HL0 & Ec).
      { left. rewrite Efx, Esc. apply HLg. }
      rewrite Efx, Esc in HL0. assert (t0 = t) as -> by (eapply longest_all; [exact (proj1 HLg)|exact E0|exact HL0]).
      rewrite <- with_sign_magnitude. apply (finish r _ s sign k 0 _ neg sg t rest); [destruct Hk as [-> | ->]; discriminate| |exact Hn|exact Hl|subst; auto].
      rewrite dispatch_digit by (auto; destruct Hk as [-> | ->]; exact I). rewrite Ec. apply conv_magnitude.
    - right. cbn [bind]. split; [|reflexivity]. rewrite Efx, Esc in Hno. intros [H|[[H _]|[Hd [(t & rest & E & G) _]]]]; [contradiction|contradiction|].
      apply (Hno Hd). destruct (Hout t rest E (HG t rest E G)) as [D|[Hf2 (p & h & -> & Hp')]]; [exists t, rest; auto|].
      exfalso. rewrite <- app_assoc in E. destruct (Hp p _ E Hp') as [H1 H2]. destruct Hf2; auto. }
  (* a hexadecimal number with its prefix, delimited before the conversion *)
  assert (HexD : forall p u2, s_contig r = false -> f = Any \/ f = Hex -> u = p ++ u2 -> hex_prefix p ->
     fits r f neg u ('(it, k, payload) <- ('(it, k) <- read_hexfloat plain_seps KHexWith u2 ;; Ok (it, k, 0%nat)) ;;
                    fin r (options f th) s sign k payload (buffer_of r u k it))).
  { intros p u2 EC Hf E Hp.
    assert (Ex := proj1 (hex_prefix_iff p) Hp). destruct Ex as (x & -> & Hx). cbn [app] in E.
    assert (Hd : starts_with_digit 10 u) by (subst u; apply digit10_iff; lia).
    destruct (read_hexfloat_ok KHexWith u2) as [(h & rest & E2 & -> & H16 & HLh)|[N16 ->]]; cbn [bind].
    - left. assert (Gt : forall h, hexadecimal h -> number f ([48; x] ++ h)).
      { intros h' Hh'. destruct Hf as [-> | ->]; right; exists [48; x], h'; auto. }
      split. { right. right. split; [exact Hd|]. split; [exists ([48; x] ++ h), rest; split; [rewrite <- app_assoc, <- E2; exact E|right; right; apply Gt, HLh]|].
               intros _ _ p' rest' E' Hp'. apply hex_prefix_iff in Hp'. destruct Hp' as (x' & -> & _). rewrite E in E'. cbn [app] in E'.
               injection E' as _ <-. exact H16. }
      exists ([48; x] ++ h), rest, (number_outcome M neg ([48; x] ++ h)). split; [rewrite <- app_assoc, <- E2; exact E|]. split.
      { split; [right; right; apply Gt, HLh|]. intros t' rest' E' G'. rewrite <- app_assoc, <- E2 in E'. cbn [app] in E'.
        assert (N := HG t' rest' ltac:(now rewrite E) G'). cbn [app length].
        assert (Pre : (exists p h, t' = p ++ h /\ hex_prefix p /\ hexadecimal h) -> (length t' <= S (S (length h)))%nat).
        { intros (p' & h' & -> & Hp' & Hh'). apply hex_prefix_iff in Hp'. destruct Hp' as (x' & -> & _). cbn [app] in E'. injection E' as _ E'.
          cbn [app length]. enough (length h' <= length h)%nat by lia. apply (proj2 HLh h' rest'); [now rewrite <- E2|exact Hh']. }
        destruct Hf as [-> | ->]; (destruct N as [N|N]; [|now apply Pre]).
        - rewrite (decimal_zero _ _ x u2 t' rest' Hx N E'). cbn [length]. lia.
        - rewrite (hexadecimal_zero x u2 t' rest' Hx N E'). cbn [length]. lia. }
      split. { eapply reads_prefixed; [tauto|reflexivity|exact Hp|exact (proj1 HLh)]. }
      cbn [buffer_of]. rewrite E, E2. change (48 :: x :: h ++ rest) with (([48; x] ++ h) ++ rest).
      destruct (fill_ok r ([48; x] ++ h) rest) as (str & -> & Hstr).
      assert (Hut : units (s_enc r) ([48; x] ++ h)).
      { apply (units_app _ _ rest). rewrite <- app_assoc, <- E2. cbn [app]. rewrite <- E. exact Huu. }
      destruct (strtod_plain (s_enc r) (options f th) KHexWith ([48; x] ++ h) str Hut Hstr) as (t0 & rest0 & E0 & HL0 & Ec);
        [apply digit10_iff; lia|destruct Hf as [-> | ->]; reflexivity|exact I|].
      assert (t0 = [48; x] ++ h) as ->.
      { eapply longest_all; [|exact E0|exact HL0]. right. right. right. exists [48; x], h. split; [reflexivity|]. split; [exact Hp|exact (proj1 HLh)]. }
      rewrite <- with_sign_magnitude.
      apply (finish r _ s sign KHexWith 0 _ neg sg ([48; x] ++ h) rest); [discriminate| |exact Hn|exact Hl|].
      2:{ rewrite <- app_assoc, <- E2. cbn [app]. rewrite <- E. exact Es. }
      rewrite dispatch_digit by (try exact I; apply digit10_iff; lia). cbn [fast_float_impl]. rewrite Ec.
      destruct (fp_long F); apply conv_magnitude.
    - right. split; [|reflexivity]. intros [H|[[H _]|(_ & _ & H)]]; [contradiction|contradiction|]. apply N16.
      apply (H EC Hf [48; x] u2 E Hp). }
  (* a text starting like a prefix with a character which is none *)
  assert (Dle : forall k c u2, u = 16 :: c :: u2 -> k = KHexWith -> fits r f neg u (fin r (options f th) s sign k 0 (buffer_of r u k []))).
  { intros k c u2 E ->. right. split; [apply NR; subst u; cbn [starts_with_digit]; rewrite digit10_iff; lia|].
    cbn [buffer_of]. destruct (fill_all r u) as (str & -> & _). rewrite E. unfold fin, parse_value. cbn [fs_kind].
    unfold parse_value_impl. cbn [fs_kind fs_payload fs_buffer]. rewrite dispatch_nodigit; [reflexivity|rewrite digit10_iff; lia|exact I]. }
  (* a text none of whose first characters is a decimal digit *)
  assert (Nod : forall k it t, u = t ++ it -> t <> [] -> ~ starts_with_digit 10 u -> k = KGeneric \/ k = KHexWithout ->
     fits r f neg u (fin r (options f th) s sign k 0 (buffer_of r u k it))).
  { intros k it t E Ht Hd Hk. right. split; [now apply NR|].
    replace (buffer_of r u k it) with (fill_buffer r (t ++ it) it) by (rewrite <- E; destruct Hk as [-> | ->]; reflexivity).
    destruct (fill_ok r t it) as (str & -> & _). destruct t as [|c t]; [congruence|]. subst u. cbn [app starts_with_digit] in Hd.
    unfold fin, parse_value, parse_value_impl. cbn [fs_kind fs_payload fs_buffer].
    rewrite dispatch_nodigit by (auto; destruct Hk as [-> | ->]; exact I). destruct Hk as [-> | ->]; reflexivity. }
  assert (Nil : u = [] -> fits r f neg u (Err InvalidScannedValue)).
  { intros ->. right. split; [apply NR; auto|reflexivity]. }
  destruct f; cbn [options o_hex o_scientific o_fixed orb andb negb].
  - (* Any *)
    destruct (hex_prefix_ok r u) as [(p & u2 & E & Hp & ->)|[(EC & c & u2 & E & ->)|[[e ->] Np]]].
    + destruct (s_contig r) eqn:EC; [|apply (HexD p u2); auto].
      assert (Ex := proj1 (hex_prefix_iff p) Hp). destruct Ex as (x & -> & Hx). cbn [app] in E.
      replace (all_of u KHexWith u2) with (Ok (@nil Z, KHexWith)) by (rewrite E; reflexivity). cbn [bind buffer_of]. destruct (fill_all r u) as (str & -> & Hstr).
      assert (Hd : starts_with_digit 10 u) by (subst u; apply digit10_iff; lia).
      destruct (strtod_plain (s_enc r) (options Any th) KHexWith u str Huu Hstr Hd) as (t & rest & Et & HLt & Ec); [reflexivity|exact I|].
      left. split. { right. right. split; [exact Hd|]. split; [exists t, rest; split; [exact Et|exact (proj1 HLt)]|]. rewrite EC. discriminate. }
      exists t, rest, (number_outcome M neg t). split; [exact Et|]. split; [exact HLt|]. split.
      { destruct (HG t rest Et (proj1 HLt)) as [D|(p & h & -> & Hp' & Hh)]; [eapply reads_decimal; [discriminate|exact D]|].
        eapply reads_prefixed; eauto. }
      rewrite <- with_sign_magnitude. apply (finish r _ s sign KHexWith 0 _ neg sg t rest); [discriminate| |exact Hn|exact Hl|rewrite <- Et; exact Es].
      rewrite dispatch_digit by (auto; exact I). cbn [fast_float_impl]. cbn [options] in Ec. rewrite Ec. destruct (fp_long F); apply conv_magnitude.
    + rewrite EC. replace (all_of u KHexWith u2) with (Ok (@nil Z, KHexWith)) by (rewrite E; reflexivity). cbn [bind]. apply (Dle KHexWith c u2); auto.
    + destruct (s_contig r) eqn:EC.
      * unfold all_of. destruct u as [|c u']; [cbn [bind]; now apply Nil|]. cbn [bind]. set (u := c :: u') in *.
        destruct (char_to_int c <? 10) eqn:Ed.
        2:{ apply (Nod KGeneric [] u); [now rewrite app_nil_r|discriminate| |auto]. cbn [u starts_with_digit]. now apply digitN. }
        assert (Hd : starts_with_digit 10 u) by (cbn [u starts_with_digit]; apply digitP; [lia|exact Ed]).
        cbn [buffer_of]. destruct (fill_all r u) as (str & -> & Hstr).
        destruct (conv_fast (s_enc r) (options Any th) KGeneric u str Huu Hstr Hd eq_refl ltac:(auto)) as (t & rest & Et & HLt & Ec).
        { right. split; [reflexivity|]. split; [reflexivity|]. intros (p & rest & Eu & Hp). apply (Np p rest Eu Hp). }
        cbn [options o_fixed o_scientific] in HLt.
        left. split. { right. right. split; [exact Hd|]. split; [exists t, rest; split; [exact Et|right; right; left; exact (proj1 HLt)]|]. rewrite EC. discriminate. }
        exists t, rest, (number_outcome M neg t). split; [exact Et|]. split.
        { split; [right; right; left; exact (proj1 HLt)|]. intros t' rest' E' G. rewrite <- Et in E'.
          destruct (HG t' rest' E' G) as [D|(p & h & -> & Hp & _)]; [apply (proj2 HLt t' rest'); [now rewrite <- Et|exact D]|].
          exfalso. rewrite <- app_assoc in E'. apply (Np p _ E' Hp). }
        split; [eapply reads_decimal; [discriminate|exact (proj1 HLt)]|].
        rewrite <- with_sign_magnitude. apply (finish r _ s sign KGeneric 0 _ neg sg t rest); [discriminate| |exact Hn|exact Hl|rewrite <- Et; exact Es].
        rewrite dispatch_digit by (auto; exact I). cbn [options] in Ec. rewrite Ec. apply conv_magnitude.
      * apply (Dec true true); auto.
        -- intros t D. left. exact D.
        -- intros t rest E [D|(p & h & -> & Hp & _)]; [auto|]. exfalso. rewrite <- app_assoc in E. apply (Np p _ E Hp).
        -- intros p rest E Hp. exfalso. apply (Np p rest E Hp).
        -- discriminate.
  - (* Hex *)
    destruct (hex_prefix_ok r u) as [(p & u2 & E & Hp & ->)|[(EC & c & u2 & E & ->)|[[e ->] Np]]].
    + destruct (s_contig r) eqn:EC; [|apply (HexD p u2); auto].
      assert (Ex := proj1 (hex_prefix_iff p) Hp). destruct Ex as (x & -> & Hx). cbn [app] in E.
      replace (all_of u KHexWith u2) with (Ok (@nil Z, KHexWith)) by (rewrite E; reflexivity). cbn [bind buffer_of]. destruct (fill_all r u) as (str & -> & Hstr).
      assert (Hd : starts_with_digit 10 u) by (subst u; apply digit10_iff; lia).
      destruct (strtod_plain (s_enc r) (options Hex th) KHexWith u str Huu Hstr Hd) as (t & rest & Et & HLt & Ec); [reflexivity|exact I|].
      assert (Cases : t = [48] \/ exists p h, t = p ++ h /\ hex_prefix p /\ hexadecimal h).
      { destruct (digit_number Any u t rest 10 Hd ltac:(lia) Et (proj1 HLt)) as [D|D]; [|auto]. left.
        apply (decimal_zero _ _ x u2 t rest Hx D). now rewrite <- E. }
      assert (H0 : hexadecimal [48]).
      { left. exists [48], []. repeat split; auto; [|discriminate]. constructor; [|constructor]. apply digit16_iff. lia. }
      assert (Gt : grammar Hex t). { right. right. destruct Cases as [-> | Hc]; [left; exact H0|right; exact Hc]. }
      left. split. { right. right. split; [exact Hd|]. split; [exists t, rest; auto|]. rewrite EC. discriminate. }
      exists t, rest, (number_outcome M neg t). split; [exact Et|]. split.
      { split; [exact Gt|]. intros t' rest' E' G. rewrite <- Et in E'. destruct (HG t' rest' E' G) as [D|D].
        - rewrite (hexadecimal_zero x u2 t' rest' Hx D); [|now rewrite <- E]. assert (L := grammar_nonempty _ _ Gt). cbn [length]. lia.
        - apply (proj2 HLt t' rest'); [now rewrite <- Et|right; right; right; exact D]. }
      split.
      { destruct Cases as [-> | (p & h & -> & Hp' & Hh)]; [|eapply reads_prefixed; eauto].
        rewrite (cv_zero F M C). apply reads_hex; auto. }
      rewrite <- with_sign_magnitude. apply (finish r _ s sign KHexWith 0 _ neg sg t rest); [discriminate| |exact Hn|exact Hl|rewrite <- Et; exact Es].
      rewrite dispatch_digit by (auto; exact I). cbn [fast_float_impl]. cbn [options] in Ec. rewrite Ec. destruct (fp_long F); apply conv_magnitude.
    + rewrite EC. replace (all_of u KHexWith u2) with (Ok (@nil Z, KHexWith)) by (rewrite E; reflexivity). cbn [bind]. apply (Dle KHexWith c u2); auto.
    + (* no prefix: the text to convert is [view], [view ++ it] being [u] *)
      assert (Main : forall view it, u = view ++ it -> view <> [] -> (view = u \/ longest hexadecimal view it) ->
         fits r Hex neg u (fin r (options Hex th) s sign KHexWithout 0 (buffer_of r u KHexWithout it))).
      { intros view it Ev Hne Hv. destruct view as [|c view']; [congruence|]. set (view := c :: view') in *.
        assert (Hcu : exists u', u = c :: u') by (exists (view' ++ it); exact Ev). destruct Hcu as [u' Eu'].
        destruct (char_to_int c <? 10) eqn:Ed.
        2:{ apply (Nod KHexWithout it view); [exact Ev|exact Hne| |auto]. rewrite Eu'. cbn [starts_with_digit]. now apply digitN. }
        assert (Hdc : is_digit 10 c) by (apply digitP; [lia|exact Ed]).
        assert (Hd : starts_with_digit 10 u) by (rewrite Eu'; exact Hdc).
        cbn [buffer_of]. assert (Euv : units (s_enc r) view) by (rewrite Ev in Huu; now apply units_app in Huu).
        rewrite Ev at 2. destruct (fill_ok r view it) as (str & -> & Hstr).
        destruct (strtod_hex (s_enc r) (options Hex th) view str Euv Hstr Hdc) as (t & rest0 & Et & HLt & Ec).
        assert (HL : exists rest, u = t ++ rest /\ longest hexadecimal t rest).
        { destruct Hv as [Hv|Hv].
          - rewrite Hv in Et. eauto.
          - assert (t = view) as -> by (eapply longest_all; [exact (proj1 Hv)|exact Et|exact HLt]). eauto. }
        destruct HL as (rest & Eur & HL).
        left. split. { right. right. split; [exact Hd|]. split; [exists t, rest; split; [exact Eur|right; right; left; exact (proj1 HL)]|].
                       intros _ _ p rest' E' Hp. exfalso. apply (Np p rest' E' Hp). }
        exists t, rest, (number_outcome M neg (48 :: 120 :: t)). split; [exact Eur|]. split.
        { split; [right; right; left; exact (proj1 HL)|]. intros t' rest' E' G. rewrite <- Eur in E'.
          destruct (HG t' rest' E' G) as [D|(p & h & -> & Hp & _)]; [apply (proj2 HL t' rest'); [now rewrite <- Eur|exact D]|].
          exfalso. rewrite <- app_assoc in E'. apply (Np p _ E' Hp). }
        split; [apply reads_hex; [reflexivity|exact (proj1 HL)]|].
        rewrite <- with_sign_magnitude. apply (finish r _ s sign KHexWithout 0 _ neg sg t rest); [discriminate| |exact Hn|exact Hl|rewrite <- Eur; exact Es].
        rewrite dispatch_digit by (auto; exact I). cbn [fast_float_impl]. rewrite Ec. destruct (fp_long F); apply conv_magnitude. }
      destruct (s_contig r) eqn:EC.
      * unfold all_of. destruct u as [|c u'] eqn:Eu; [cbn [bind]; now apply Nil|]. rewrite <- Eu in *. cbn [bind].
        apply (Main u []); [now rewrite app_nil_r|rewrite Eu; discriminate|auto].
      * destruct (read_hexfloat_ok KHexWithout u) as [(h & rest & E2 & -> & H16 & HLh)|[N16 ->]]; cbn [bind].
        -- apply (Main h rest); [exact E2| |auto]. intros ->. destruct (hexadecimal_first _ (proj1 HLh)) as (? & ? & D & _). discriminate.
        -- right. split; [|reflexivity]. rewrite EC. apply NR. intros Hd. apply N16. destruct u; [contradiction|]. now apply digit10_16.
  - replace (if s_contig r then _ else _) with ('(it, k) <- read_regular_float (options Scientific th) plain_seps u ;; Ok (it, k, 0%nat))
      by (destruct (s_contig r); reflexivity).
    apply (Dec false true); auto; try discriminate. split; discriminate.
  - replace (if s_contig r then _ else _) with ('(it, k) <- read_regular_float (options Fixed th) plain_seps u ;; Ok (it, k, 0%nat))
      by (destruct (s_contig r); reflexivity).
    apply (Dec true false); auto; try discriminate. split; discriminate.
  - replace (if s_contig r then _ else _) with ('(it, k) <- read_regular_float (options General th) plain_seps u ;; Ok (it, k, 0%nat))
      by (destruct (s_contig r); reflexivity).
    apply (Dec true true); auto; try discriminate. split; discriminate.
Qed.
End Main.
