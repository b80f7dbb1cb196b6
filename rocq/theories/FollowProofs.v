(** Proofs about what can follow a scanned value: places, fields, words, booleans, characters. *)
From Verif Require Import Prelude UnicodeModel UnicodeSpec ReadModel ReadProofs SpecsModel FormatModel FormatProofs ArgsModel
  CheckerProofs SpecsInvProofs VscanSpec WidthModel WidthSpec WidthProofs ArgReaderModel ArgReaderProofs ScalarModel
  WhitespaceSpec ScalarSpec ScalarProofs StringModel StringSpec StringProofs EncodingProofs EncodingLoopProofs EncodingReadProofs FollowSpec.
Local Open Scope Z_scope.

(** * Places *)
Lemma swap_refl b : swap b b.
Proof. induction b; constructor; assumption. Qed.
Lemma swap_app a b b' : swap b b' -> swap (a ++ b) (a ++ b').
Proof. intros H. induction a; cbn; [exact H|constructor; assumption]. Qed.
Lemma swap_scalar b b' : swap b b' -> Forall scalar b -> Forall scalar b'.
Proof. induction 1 as [b|w b b' Hw Hb|c b b' H IH]; intros HF; [constructor|inversion HF; constructor; assumption|inversion HF; constructor; auto]. Qed.
(** The same code point is next, or there is none. *)
Lemma swap_head b b' : swap b b' -> b' = [] \/ exists c l l', b = c :: l /\ b' = c :: l'.
Proof. intros []; [left; reflexivity|right; eauto|right; eauto]. Qed.
(** A text without white space in front of the new text was in front of the old one. *)
Definition dark (l : list Z) : Prop := Forall (fun c => is_ws c = false) l.
Lemma swap_back p : dark p -> forall b b' r', swap b b' -> b' = p ++ r' -> exists r, b = p ++ r /\ swap r r'.
Proof.
  induction 1 as [|c p Hc _ IH]; intros b b' r' HS E; cbn [app] in E; [exists b; subst; auto|].
  subst b'. inversion HS as [|w l l' Hw _|d l l' HS']; subst; [congruence|].
  destruct (IH l _ r' HS' eq_refl) as (r & -> & HR). exists r. auto.
Qed.
(** Changes of what follows that words, names and numbers do not notice. *)
Class gentle (R : list Z -> list Z -> Prop) : Prop := Gentle {
  g_app : forall a b b', R b b' -> R (a ++ b) (a ++ b');
  g_scalar : forall b b', R b b' -> Forall scalar b -> Forall scalar b';
  g_back : forall p, dark p -> forall b b' r', R b b' -> b' = p ++ r' -> exists r, b = p ++ r /\ R r r' }.
#[export] Instance swap_gentle : gentle swap.
Proof. constructor; [exact swap_app|exact swap_scalar|exact swap_back]. Qed.
(** Next is nothing, the same, or white space. *)
Lemma g_next {R} {HR : gentle R} b b' : R b b' ->
  b' = [] \/ (exists c l l', b = c :: l /\ b' = c :: l' /\ is_ws c = false /\ R l l') \/ exists w l', b' = w :: l' /\ is_ws w = true.
Proof.
  intros H. destruct b' as [|c l']; [auto|right]. destruct (is_ws c) eqn:EW; [eauto|left].
  destruct (g_back [c] ltac:(repeat constructor; exact EW) b (c :: l') l' H eq_refl) as (l & -> & HL). exists c, l, l'. auto.
Qed.
Lemma swap_take n b : forall b', swap b b' -> forall k, n = k -> swap (take_cols n b) (take_cols k b').
Proof.
  revert n. induction b as [|c b IH]; intros n b' HS k <-; inversion HS; subst; cbn; try apply swap_end.
  - destruct (_ <=? n); [apply swap_space; [|apply take_cols_scalar]; assumption|apply swap_end].
  - destruct (_ <=? n); [apply swap_same, IH; auto|apply swap_end].
Qed.
Lemma swap_limit n b b' : swap b b' -> swap (limit n b) (limit n b').
Proof. intros H. destruct n as [n|]; [apply (swap_take n b b' H n eq_refl)|exact H]. Qed.
Lemma cols_limit v n cps r : 0 <= n -> take_cols n cps = v ++ r -> cols v <= n.
Proof. intros Hn E. assert (H := take_cols_fits n cps Hn). rewrite E, cols_app in H. assert (H0 := cols_nonneg r). lia. Qed.
(** A prefix of a limited text stays one. *)
Lemma limit_swap n v l r : (forall k, n = Some k -> 0 <= k) -> limit n l = v ++ r ->
  exists l0, l = v ++ l0 /\ forall l1, swap l0 l1 -> exists r', limit n (v ++ l1) = v ++ r' /\ swap r r'.
Proof.
  intros Hn E. destruct n as [n|]; cbn [limit] in *; [|exists r; split; [exact E|]; intros l1 HS; exists l1; auto].
  specialize (Hn n eq_refl). assert (HC := cols_limit v n l r Hn E). destruct (take_cols_prefix n l) as [m Em]. rewrite E in Em.
  exists (r ++ m). split; [rewrite Em at 1; apply app_assoc_reverse|]. intros l1 HS.
  exists (take_cols (n - cols v) l1). split; [apply take_cols_pre, HC|].
  assert (E2 : r = take_cols (n - cols v) (r ++ m)).
  { rewrite Em, <- app_assoc, take_cols_pre in E by exact HC. apply app_inv_head in E. congruence. }
  rewrite E2. apply (swap_take _ _ _ HS). reflexivity.
Qed.
Lemma lead_swap p v r r' : lead p (v ++ r) = v -> swap r r' -> lead p (v ++ r') = v.
Proof.
  revert r r'. induction v as [|c v IH]; cbn [app lead]; intros r r' E HS.
  - destruct (swap_head _ _ HS) as [->|(c & l & l' & -> & ->)]; [reflexivity|]. cbn [lead] in *. destruct (p c); [discriminate|reflexivity].
  - destruct (p c); [|discriminate]. injection E as E. f_equal. eapply IH; eassumption.
Qed.
Lemma lead_limit_swap p n l : (forall k, n = Some k -> 0 <= k) ->
  exists l0, l = lead p (limit n l) ++ l0 /\ forall l1, swap l0 l1 -> lead p (limit n (lead p (limit n l) ++ l1)) = lead p (limit n l).
Proof.
  intros Hn. set (v := lead p (limit n l)). assert (E := lead_after p (limit n l)). fold v in E.
  destruct (limit_swap n v l (after v (limit n l)) Hn (eq_sym E)) as (l0 & El & HL). exists l0. split; [exact El|].
  intros l1 HS. destruct (HL l1 HS) as (r' & -> & HR). eapply lead_swap; [|exact HR]. rewrite E. reflexivity.
Qed.

(** * Fields *)
Section Field.
Context {V : Type} (al : align_type) (f w : Z) (p : option Z) (skip : bool) (read : list Z -> outcome (V * list Z)).
Hypothesis Hp : forall k, p = Some k -> 0 <= k.
(** A value that white space is skipped for is not empty. *)
Hypothesis Hne : skip = true -> forall c ds x rem, is_ws c = false -> read (c :: ds) = Ok (x, rem) -> rem <> c :: ds.
Lemma before_swap cps pre rest : before_value al f p skip cps = Ok pre -> cps = pre ++ rest ->
  forall val rest1 rest', rest = val ++ rest1 -> swap rest1 rest' -> (skip = true -> al = ANone -> val <> []) ->
  before_value al f p skip (pre ++ val ++ rest') = Ok pre.
Proof.
  intros E Ec val rest1 rest' Er HS Hv. unfold before_value in *.
  assert (G : forall q, pre = lead q (limit p cps) -> lead q (limit p (pre ++ val ++ rest')) = pre).
  { intros q EQ. destruct (lead_limit_swap q p cps Hp) as (l0 & E0 & HL). rewrite <- EQ in E0, HL. rewrite Ec in E0 at 1. apply app_inv_head in E0. subst l0.
    rewrite HL; [reflexivity|]. subst rest. apply swap_app, HS. }
  destruct al.
  - destruct skip; [|injection E as <-; reflexivity]. destruct (Nat.eqb_spec (length (lead is_ws (limit p cps))) (length (limit p cps))) as [|N]; [discriminate|].
    injection E as E. rewrite (G is_ws (eq_sym E)). specialize (Hv eq_refl eq_refl). destruct val as [|c val]; [congruence|].
    assert (EL := lead_after is_ws (limit p cps)). rewrite E in EL, N. destruct (after pre (limit p cps)) as [|d m] eqn:EA.
    { rewrite app_nil_r in EL. rewrite <- EL in N. congruence. }
    assert (E2 : limit p cps = (pre ++ [d]) ++ m) by (rewrite <- app_assoc; symmetry; exact EL).
    destruct (limit_swap p (pre ++ [d]) cps m Hp E2) as (l0 & E3 & HL).
    rewrite Ec, Er, <- app_assoc in E3. apply app_inv_head in E3. cbn [app] in E3. injection E3 as <- E3.
    assert (HS2 := swap_app val _ _ HS).
    rewrite E3 in HS2. destruct (HL _ HS2) as (r' & E4 & _). rewrite <- app_assoc in E4. cbn [app] in E4 |- *. rewrite E4.
    destruct (Nat.eqb_spec (length pre) (length ((pre ++ [c]) ++ r'))) as [EQ|_]; [|reflexivity]. rewrite !app_length in EQ. cbn [length] in EQ. lia.
  - injection E as <-. reflexivity.
  - injection E as E. rewrite (G _ (eq_sym E)). reflexivity.
  - injection E as E. rewrite (G _ (eq_sym E)). reflexivity.
Qed.
Theorem field_settles cps : (forall ds, within ds cps -> settles read ds) -> settles (field al f w p skip read) cps.
Proof.
  intros HR x b E. unfold field in E. destruct (before_value al f p skip cps) as [pre|e| |] eqn:EB; try discriminate. cbn [bind] in E.
  destruct (before_prefix al f skip p cps pre EB) as [rest Ec].
  destruct (match p with Some n => n <=? cols pre | None => false end) eqn:EF; [discriminate|].
  assert (ER : after pre cps = rest) by (rewrite Ec; apply after_app). rewrite ER in E.
  assert (Hl1 : forall k, less p (cols pre) = Some k -> 0 <= k).
  { intros k Hk. destruct p as [n|]; [|discriminate]. cbn in Hk. injection Hk as <-. lia. }
  set (lim := limit (less p (cols pre)) rest) in *.
  assert (HW : within lim cps).
  { exists pre. assert (X : exists m, rest = lim ++ m).
    { unfold lim, limit. destruct (less p (cols pre)); [apply take_cols_prefix|exists []; symmetry; apply app_nil_r]. }
    destruct X as [m X]. exists m. rewrite Ec, X at 1. reflexivity. }
  destruct (read lim) as [[y rem]|e| |] eqn:ERd; try discriminate. cbn [bind] in E.
  destruct (HR lim HW y rem ERd) as (val & EL & HV).
  assert (EV : firstn (length lim - length rem) lim = val).
  { rewrite EL, app_length. replace (length val + length rem - length rem)%nat with (length val) by lia. rewrite firstn_app, firstn_all, Nat.sub_diag. cbn. apply app_nil_r. }
  rewrite EV in E. destruct (limit_swap (less p (cols pre)) val rest rem Hl1 EL) as (rest1 & Er & HL).
  assert (ER1 : after val rest = rest1) by (rewrite Er; apply after_app). rewrite ER1 in E.
  set (u := cols pre + cols val) in *. set (post := after_value al f w p skip u rest1) in *.
  destruct (u + cols post <? w) eqn:EW; [discriminate|]. injection E as <- <-.
  assert (Hl2 : forall k, less p u = Some k -> 0 <= k).
  { intros k Hk. destruct p as [n|]; [|discriminate]. cbn in Hk. injection Hk as <-.
    assert (H := cols_limit val (n - cols pre) rest rem ltac:(apply Hl1; reflexivity) EL). unfold u. lia. }
  assert (HP : exists m, rest1 = post ++ m /\ forall m', swap m m' -> after_value al f w p skip u (post ++ m') = post).
  { assert (LL : forall q, post = lead q (limit (less p u) rest1) -> exists m, rest1 = post ++ m /\ forall m', swap m m' -> lead q (limit (less p u) (post ++ m')) = post).
    { intros q EQ. destruct (lead_limit_swap q (less p u) rest1 Hl2) as (m & Em & HM). rewrite <- EQ in Em, HM. eauto. }
    assert (NN : post = [] -> exists m, rest1 = post ++ m /\ forall m', swap m m' -> [] = post) by (intros ->; exists rest1; auto).
    unfold after_value in post |- *. destruct al; [|apply LL; reflexivity|apply NN; reflexivity|apply LL; reflexivity].
    destruct (negb skip && _); [apply LL|apply NN]; reflexivity. }
  destruct HP as (m & Em & HM). assert (EA : after post rest1 = m) by (rewrite Em; apply after_app). rewrite EA.
  exists (pre ++ val ++ post). split; [rewrite Ec, Er, Em at 1; rewrite <- !app_assoc; reflexivity|]. intros b' HS.
  assert (HSp := swap_app post _ _ HS). rewrite <- Em in HSp.
  assert (EB' : before_value al f p skip (pre ++ val ++ post ++ b') = Ok pre).
  { eapply (before_swap cps pre rest EB Ec); [exact Er|exact HSp|]. intros Hs Ha Hv. rewrite Hv in EL. cbn [app] in EL.
    unfold before_value in EB. rewrite Ha, Hs in EB. destruct (Nat.eqb_spec (length (lead is_ws (limit p cps))) (length (limit p cps))) as [|N]; [discriminate|].
    injection EB as EB. assert (X := lead_after is_ws (limit p cps)). rewrite EB in X, N.
    assert (XL : after pre (limit p cps) = lim).
    { unfold lim. rewrite Ec. destruct p as [n|]; cbn [limit less option_map]; [|apply after_app].
      rewrite take_cols_pre; [apply after_app|]. assert (Y := cols_lead_limit is_ws n cps (Hp n eq_refl)). cbn [limit] in EB. cbn [limit] in Y. rewrite EB in Y. exact Y. }
    destruct lim as [|c l]; [rewrite XL, app_nil_r in X; rewrite <- X in N; congruence|].
    refine (Hne Hs c l y rem _ ERd (eq_sym EL)). rewrite XL in X. assert (Y := EB). rewrite <- X in Y. clear - Y.
    revert Y. induction pre as [|d pre IH]; cbn [app lead]; [destruct (is_ws c); [discriminate|reflexivity]|]. destruct (is_ws d); [|discriminate]. intros [= Y]. auto. }
  unfold field. rewrite <- !app_assoc, EB'. cbn [bind]. rewrite EF, after_app.
  destruct (HL _ HSp) as (r' & -> & HR'). rewrite (HV r' HR'). cbn [bind].
  assert (EV' : firstn (length (val ++ r') - length r') (val ++ r') = val).
  { rewrite app_length. replace (length val + length r' - length r')%nat with (length val) by lia. rewrite firstn_app, firstn_all, Nat.sub_diag. cbn. apply app_nil_r. }
  rewrite EV', after_app. fold u. rewrite (HM b' HS), EW, after_app. reflexivity.
Qed.
End Field.

(** What code points say about a wide source. *)
Theorem arg_settles {V} r sp skip (read : src -> list Z -> outcome (V * list Z)) cps : s_enc r = U32 -> ascii_specs sp -> parsed sp -> Forall scalar cps ->
  (forall r' ds, s_enc r' = U32 -> Forall scalar ds -> settles (read r') ds) ->
  (skip = true -> forall r' c ds x rem, s_enc r' = U32 -> scalar c -> Forall scalar ds -> is_ws c = false -> read r' (c :: ds) = Ok (x, rem) -> rem <> c :: ds) ->
  settles (arg_read r sp skip read) cps.
Proof.
  intros E32 [(f & Hf & EF) _] HP HS HR Hne.
  set (r' := if precision sp =? 0 then r else view_src r).
  assert (E32' : s_enc r' = U32) by (unfold r'; destruct (precision sp =? 0); exact E32).
  assert (Hsc : scalar f) by (unfold ascii in Hf; unfold scalar; lia).
  assert (F32 : align sp <> ANone -> fill_ok (s_enc r) f (fill sp)).
  { intros _. rewrite E32, EF. split; [exact Hsc|]. cbn [f_size f_data firstn]. unfold ascii in Hf. split; [lia|auto]. }
  (* only scalar code points are ever read *)
  set (rc := fun ds => if forallb (fun c => (0 <=? c) && (c <=? 0x10ffff) && negb ((0xd800 <=? c) && (c <=? 0xdfff))) ds then read r' ds else UB).
  assert (HRC : forall ds, Forall scalar ds -> rc ds = read r' ds).
  { intros ds Hds. unfold rc. replace (forallb _ ds) with true; [reflexivity|]. symmetry. apply forallb_forall. intros c Hc.
    rewrite Forall_forall in Hds. specialize (Hds c Hc). unfold scalar in Hds. lia. }
  assert (HCR : forall ds v b, rc ds = Ok (v, b) -> Forall scalar ds /\ read r' ds = Ok (v, b)).
  { intros ds v b E. unfold rc in E. destruct (forallb _ ds) eqn:EB; [|discriminate]. split; [|exact E].
    apply Forall_forall. intros c Hc. rewrite forallb_forall in EB. specialize (EB c Hc). unfold scalar. lia. }
  assert (HF : forall ds, settles rc ds).
  { intros ds v b E. destruct (HCR _ _ _ E) as [Hds E1]. destruct (HR r' ds E32' Hds v b E1) as (a & -> & HA). exists a. split; [reflexivity|].
    intros b' HSw. rewrite HRC; [apply HA, HSw|]. apply Forall_app in Hds as [H1 H2]. apply Forall_app. split; [exact H1|exact (swap_scalar _ _ HSw H2)]. }
  assert (EQ : forall ds, Forall scalar ds -> arg_read r sp skip read ds = field (align sp) f (width sp) (prec_of sp) skip rc ds).
  { intros ds Hds. assert (X := arg_read_field_in r sp f skip read rc (proj1 (p_prec _ HP)) F32 ds). rewrite E32, !text32 in X. rewrite X; auto.
    - destruct (field _ _ _ _ _ _ _) as [[v l]| | |]; cbn; rewrite ?text32; reflexivity.
    - intros es _ _ Hes. rewrite !text32, HRC by exact Hes. fold r'. destruct (read r' es) as [[v l]| | |]; cbn; rewrite ?text32; reflexivity.
    - intros es v l _ E. destruct (HF es v l E) as (a & -> & _). exists a. reflexivity.
    - intros _ _. apply wide_whole. congruence. }
  intros v b E. rewrite (EQ cps HS) in E. apply field_settles in E; [|..].
  - destruct E as (a & Ea & HA). exists a. split; [exact Ea|]. intros b' HSw. rewrite EQ; [apply HA, HSw|].
    rewrite Ea in HS. apply Forall_app in HS as [H1 H2]. apply Forall_app. split; [exact H1|exact (swap_scalar _ _ HSw H2)].
  - intros k Hk. unfold prec_of in Hk. destruct (precision sp =? 0); [discriminate|]. injection Hk as <-. apply (p_prec _ HP).
  - intros Hs c ds x rem Hc Ed. destruct (HCR _ _ _ Ed) as [Hds E1]. exact (Hne Hs r' c ds x rem E32' (Forall_inv Hds) (Forall_inv_tail Hds) Hc E1).
  - intros ds _. apply HF.
Qed.

Lemma settles_ext {V} {R} {HR0 : gentle R} (f g : list Z -> outcome (V * list Z)) s : (forall ds, Forall scalar ds -> f ds = g ds) -> Forall scalar s -> settles_by R g s -> settles_by R f s.
Proof.
  intros HE Hs HG v b E. rewrite HE in E by exact Hs. destruct (HG v b E) as (a & -> & HA). exists a. split; [reflexivity|]. intros b' HSw.
  rewrite HE; [apply HA, HSw|]. apply Forall_app in Hs as [H1 H2]. apply Forall_app. split; [exact H1|exact (g_scalar _ _ HSw H2)].
Qed.
Lemma settles_map {V W} {R} (g : V -> W) (f : list Z -> outcome (V * list Z)) s : settles_by R f s -> settles_by R (fun s => '(v, l) <- f s ;; Ok (g v, l)) s.
Proof.
  intros HF v b E. destruct (f s) as [[u l]| | |] eqn:EF; try discriminate. injection E as <- <-.
  destruct (HF _ _ EF) as (a & -> & HA). exists a. split; [reflexivity|]. intros b' HS. rewrite (HA b' HS). reflexivity.
Qed.
(** A reader without options, after white space. *)
Theorem default_settles {V} {R} {HR0 : gentle R} r skip (read : list Z -> outcome (V * list Z)) cps : s_enc r = U32 -> Forall scalar cps ->
  (forall ds, Forall scalar ds -> settles_by R read ds) ->
  (forall c ds x rem, scalar c -> Forall scalar ds -> (skip = true -> is_ws c = false) -> read (c :: ds) = Ok (x, rem) -> rem <> c :: ds) ->
  settles_by R (default_read r skip read) cps.
Proof.
  intros E32 HS HR Hne.
  assert (SK : forall ds, Forall scalar ds -> skip_ws_before_if_required r skip ds
    = if (if skip then (length (lead is_ws ds) =? length ds)%nat else (length ds =? 0)%nat) then Err EndOfInput else Ok (if skip then after (lead is_ws ds) ds else ds)).
  { intros ds Hds. unfold skip_ws_before_if_required. assert (H32 := skip_ws_text r ds false (wide_whole r ds ltac:(congruence)) Hds). rewrite E32, !text32 in H32.
    destruct ds as [|c ds]; [destruct skip; reflexivity|]. destruct skip; [|reflexivity]. rewrite H32. cbn [negb andb].
    assert (X := lead_after is_ws (c :: ds)). destruct (after (lead is_ws (c :: ds)) (c :: ds)) as [|d l] eqn:EA.
    - rewrite app_nil_r in X. rewrite X, Nat.eqb_refl. reflexivity.
    - destruct (Nat.eqb_spec (length (lead is_ws (c :: ds))) (length (c :: ds))) as [EQ|]; [|reflexivity].
      rewrite <- X in EQ at 2. rewrite app_length in EQ. cbn [length] in EQ. lia. }
  intros v b E. unfold default_read in *. rewrite (SK cps HS) in E. destruct (if skip then _ else _) eqn:EN; [discriminate|]. cbn [bind] in E.
  set (ws := if skip then lead is_ws cps else []). assert (EC : cps = ws ++ (if skip then after (lead is_ws cps) cps else cps)).
  { unfold ws. destruct skip; [symmetry; apply lead_after|reflexivity]. }
  set (ds := if skip then after (lead is_ws cps) cps else cps) in *. rewrite EC in HS. apply Forall_app in HS as [HS1 HS2].
  destruct (HR ds HS2 v b E) as (a & Ea & HA). exists (ws ++ a). split; [rewrite <- app_assoc, <- Ea; exact EC|]. intros b' HSw.
  assert (HB : Forall scalar (ws ++ a ++ b')).
  { rewrite Ea in HS2. apply Forall_app in HS2 as [H1 H2]. apply Forall_app. split; [exact HS1|]. apply Forall_app. split; [exact H1|exact (g_scalar _ _ HSw H2)]. }
  rewrite <- app_assoc, SK by exact HB.
  assert (HN : exists c a', a = c :: a' /\ (skip = true -> is_ws c = false)).
  { destruct ds as [|d l] eqn:ED.
    { exfalso. rewrite app_nil_r in EC. unfold ws in EC. destruct skip; [rewrite <- EC, Nat.eqb_refl in EN|rewrite EC in EN]; discriminate. }
    assert (HD : skip = true -> is_ws d = false).
    { intros ->. unfold ws in EC. clear - EC. assert (Y : lead is_ws (lead is_ws cps ++ d :: l) = lead is_ws cps) by (rewrite <- EC; reflexivity).
      clear EC. revert Y. induction (lead is_ws cps) as [|e pre IH]; cbn [app lead]; [destruct (is_ws d); [discriminate|reflexivity]|].
      destruct (is_ws e); [|discriminate]. intros [= Y]. auto. }
    assert (X := Hne d l v b ltac:(inversion HS2; assumption) ltac:(inversion HS2; assumption) HD E).
    destruct a as [|c a]; [cbn [app] in Ea; congruence|]. cbn [app] in Ea. injection Ea as <- _. exists d, a. auto. }
  destruct HN as (c & a' & -> & Hc). cbn [app] in *.
  assert (EL : skip = true -> lead is_ws (ws ++ c :: a' ++ b') = ws).
  { intros Hs. specialize (Hc Hs). unfold ws. rewrite Hs. clear - Hc. assert (Y : forall l, forallb is_ws l = true -> lead is_ws (l ++ c :: a' ++ b') = l).
    { induction l as [|e l IH]; cbn [app lead forallb]; [rewrite Hc; reflexivity|]. destruct (is_ws e); [|discriminate]. cbn. intros H. rewrite IH by exact H. reflexivity. }
    apply Y. induction cps as [|e l IH]; [reflexivity|]. cbn [lead]. destruct (is_ws e) eqn:EE; [cbn [forallb]; rewrite EE; exact IH|reflexivity]. }
  assert (EX : skip = false -> ws = []) by (unfold ws; intros ->; reflexivity).
  destruct skip.
  - rewrite (EL eq_refl), after_app. destruct (Nat.eqb_spec (length ws) (length (ws ++ c :: a' ++ b'))) as [EQ|_]; [rewrite app_length in EQ; cbn [length] in EQ; lia|].
    apply HA, HSw.
  - rewrite (EX eq_refl). apply HA, HSw.
Qed.

(** * Strings *)
Lemma store_app d e a b v b0 : store d e (a ++ b) b = Ok (v, b0) -> b0 = b /\ forall b', store d e (a ++ b') b' = Ok (v, b').
Proof.
  assert (EF : forall b, firstn (length (a ++ b) - length b) (a ++ b) = a).
  { intros l. rewrite app_length. replace (length a + length l - length l)%nat with (length a) by lia. rewrite firstn_app, firstn_all, Nat.sub_diag. cbn. apply app_nil_r. }
  unfold store. rewrite EF. destruct d as [to|to alloc].
  - destruct (validate_unicode e a) as [ok| | |] eqn:E1; try discriminate. cbn [bind]. destruct (negb ok) eqn:E2; [discriminate|].
    destruct (if enc_eqb e to then _ else _) as [x| | |] eqn:E3; try discriminate. cbn [bind]. intros [= -> ->]. split; [reflexivity|]. intros b'.
    rewrite EF, E1. cbn [bind]. rewrite E2, E3. reflexivity.
  - destruct alloc; [discriminate|]. destruct (negb (enc_eqb e to)); [discriminate|]. destruct (validate_unicode e a) as [ok| | |] eqn:E1; try discriminate.
    cbn [bind]. destruct (negb ok) eqn:E2; [discriminate|]. intros [= -> ->]. split; [reflexivity|]. intros b'. rewrite EF, E1. cbn [bind]. rewrite E2. reflexivity.
Qed.
(** Where a string ends is decided by the first code point that does not belong to it. *)
Lemma drop_swap p a b b' : drop_until p (a ++ b) = b -> swap b b' -> drop_until p (a ++ b') = b'.
Proof.
  assert (L : forall a b, drop_until p (a ++ b) = b -> forallb (fun c => negb (p c)) a = true /\ drop_until p b = b).
  { clear. assert (LE : forall l, (length (drop_until p l) <= length l)%nat).
    { induction l as [|c l IH]; cbn [drop_until length]; [lia|]. destruct (p c); cbn [length]; lia. }
    induction a as [|c a IH]; intros b E; [auto|]. cbn [app drop_until forallb] in *. destruct (p c).
    - exfalso. apply (f_equal (@length Z)) in E. cbn [length] in E. rewrite app_length in E. lia.
    - apply IH, E. }
  intros E HS. destruct (L a b E) as [HA HB]. clear E L. induction a as [|c a IH].
  - cbn [app]. destruct (swap_head _ _ HS) as [->|(c & l & l' & -> & ->)]; [reflexivity|]. cbn [drop_until] in *. destruct (p c); [reflexivity|].
    exfalso. assert (LE : forall l, (length (drop_until p l) <= length l)%nat).
    { clear. induction l as [|c l IH]; cbn [drop_until length]; [lia|]. destruct (p c); cbn [length]; lia. }
    specialize (LE l). rewrite HB in LE. cbn [length] in LE. lia.
  - cbn [app drop_until forallb] in *. destruct (p c); [discriminate|]. apply IH, HA.
Qed.
Lemma drop_settles d e p ds : settles (fun s => store d e s (drop_until p s)) ds.
Proof.
  intros v b E. destruct (drop_until_suffix p ds) as [a Ea]. rewrite Ea in E at 1. destruct (store_app _ _ _ _ _ _ E) as [-> HA].
  exists a. split; [exact Ea|]. intros b' HS. rewrite (drop_swap p a (drop_until p ds) b'); [apply HA| |exact HS]. rewrite <- Ea. reflexivity.
Qed.
Lemma drop1_settles d e p ds :
  settles (fun s => it <- (if (length (drop_until p s) =? length s)%nat then Err InvalidScannedValue else Ok (drop_until p s)) ;; store d e s it) ds.
Proof.
  intros v b E. destruct (Nat.eqb_spec (length (drop_until p ds)) (length ds)) as [|N]; [discriminate|]. cbn [bind] in E.
  destruct (drop_until_suffix p ds) as [a Ea]. assert (EQ := E). rewrite Ea in E at 1. destruct (store_app _ _ _ _ _ _ E) as [-> HA].
  exists a. split; [exact Ea|]. intros b' HS. rewrite (drop_swap p a (drop_until p ds) b'); [| |exact HS]; [|rewrite <- Ea; reflexivity].
  destruct (Nat.eqb_spec (length b') (length (a ++ b'))) as [X|_]; [|apply HA]. exfalso. apply N. rewrite app_length in X. destruct a; [|cbn [length] in X; lia].
  cbn [app] in Ea. congruence.
Qed.
Definition wide_until (d : dest) (r : src) (p : Z -> bool) (s : list Z) : outcome (list Z * list Z) := store d (s_enc r) s (drop_until p s).
Lemma until_wide p ds : Forall scalar ds -> read_until_code_point U32 p ds = Ok (drop_until p ds).
Proof. intros H. assert (X := read_until_text U32 p ds H). rewrite !text32 in X. exact X. Qed.
Lemma drop_gentle {R} {HR : gentle R} a b b' : drop_until is_cp_space (a ++ b) = b -> R b b' -> dark a /\ drop_until is_cp_space (a ++ b') = b'.
Proof.
  assert (LE : forall l, (length (drop_until is_cp_space l) <= length l)%nat).
  { induction l as [|c l IH]; cbn [drop_until length]; [lia|]. destruct (is_cp_space c); cbn [length]; lia. }
  intros E HS. induction a as [|c a IH].
  - split; [constructor|]. cbn [app] in *. destruct (g_next _ _ HS) as [->|[(c & l & l' & -> & -> & Hc & _)|(w & l' & -> & Hw)]]; [reflexivity|..].
    + rewrite is_ws_space in Hc. cbn [drop_until] in E. rewrite Hc in E. specialize (LE l). rewrite E in LE. cbn [length] in LE. lia.
    + rewrite is_ws_space in Hw. cbn [drop_until]. rewrite Hw. reflexivity.
  - cbn [app drop_until] in *. destruct (is_cp_space c) eqn:EC.
    + exfalso. apply (f_equal (@length Z)) in E. cbn [length] in E. rewrite app_length in E. lia.
    + destruct (IH E) as [H1 H2]. split; [constructor; [rewrite is_ws_space; exact EC|exact H1]|exact H2].
Qed.
Lemma word_follows {R} {HR : gentle R} d r ds v b : s_enc r = U32 -> Forall scalar ds -> word_read d r ds = Ok (v, b) ->
  exists a, ds = a ++ b /\ dark a /\ forall b', R b b' -> word_read d r (a ++ b') = Ok (v, b').
Proof.
  intros E32 HS.
  assert (EQ : forall es, Forall scalar es -> word_read d r es = store d U32 es (drop_until is_cp_space es)).
  { intros es Hes. unfold word_read, read_until_classic_space. rewrite E32, until_wide by exact Hes. reflexivity. }
  rewrite EQ by exact HS. intros E. destruct (drop_until_suffix is_cp_space ds) as [a Ea]. rewrite Ea in E at 1. destruct (store_app _ _ _ _ _ _ E) as [-> HA].
  assert (ED : drop_until is_cp_space (a ++ drop_until is_cp_space ds) = drop_until is_cp_space ds) by (rewrite <- Ea; reflexivity).
  exists a. split; [exact Ea|]. split; [exact (proj1 (drop_gentle a _ _ ED (swap_refl _)))|]. intros b' HSw.
  rewrite EQ, (proj2 (drop_gentle a _ _ ED HSw)); [apply HA|].
  rewrite Ea in HS. apply Forall_app in HS as [H1 H2]. apply Forall_app. split; [exact H1|exact (g_scalar _ _ HSw H2)].
Qed.
Lemma word_settles {R} {HR : gentle R} d r ds : s_enc r = U32 -> Forall scalar ds -> settles_by R (word_read d r) ds.
Proof. intros E32 HS v b E. destruct (word_follows d r ds v b E32 HS E) as (a & Ea & _ & HA). eauto. Qed.
Lemma word_takes d r c ds x rem : s_enc r = U32 -> scalar c -> Forall scalar ds -> is_ws c = false -> word_read d r (c :: ds) = Ok (x, rem) -> rem <> c :: ds.
Proof.
  intros E32 Hc HS Hw E EQ. unfold word_read, read_until_classic_space in E. rewrite E32, until_wide in E by (constructor; assumption). cbn [bind] in E.
  destruct (drop_until_suffix is_cp_space (c :: ds)) as [a Ea]. rewrite Ea in E at 1. destruct (store_app _ _ _ _ _ _ E) as [-> _].
  cbn [drop_until] in EQ. rewrite is_ws_space in Hw. rewrite Hw in EQ. destruct (drop_until_suffix is_cp_space ds) as [a' Ea'].
  apply (f_equal (@length Z)) in Ea', EQ. rewrite app_length in Ea'. cbn [length] in EQ. lia.
Qed.
Lemma custom_settles d r f ds : s_enc r = U32 -> settles (custom_word_read d r f) ds.
Proof.
  intros E32. unfold custom_word_read. rewrite E32. destruct (_ <=? _)%nat; [|intros v b E; discriminate].
  assert (X : forall q s, read_until_code_unit q s = drop_until q s).
  { intros q s. unfold read_until_code_unit. induction s as [|c s IH]; [reflexivity|]. cbn [WhitespaceModel.find_if drop_until]. rewrite IH. reflexivity. }
  intros v b E. rewrite X in E. destruct (drop_settles d U32 _ ds v b E) as (a & -> & HA). exists a. split; [reflexivity|]. intros b' HS.
  rewrite X. apply HA, HS.
Qed.
Lemma character_settles d r sp ds : settles (character_read d r sp) ds.
Proof.
  unfold character_read. destruct (precision sp =? 0); [intros v b E; discriminate|]. intros v b E.
  assert (E' := E). rewrite <- (app_nil_r ds) in E'. destruct (store_app _ _ _ _ _ _ E') as [-> HA]. exists ds. split; [symmetry; apply app_nil_r|].
  intros b' HS. inversion HS; subst. rewrite app_nil_r. exact E.
Qed.
Lemma set_settles d r sp ds : s_enc r = U32 -> Forall scalar ds -> settles (set_read d r sp) ds.
Proof.
  intros E32 HS. unfold set_read, set_source. rewrite E32. destruct (handle_nonascii U32 sp) as [rs|e| |]; cbn [bind]; try (intros v b E; discriminate).
  assert (X : forall q s, read_until_code_unit q s = drop_until q s).
  { intros q s. unfold read_until_code_unit. induction s as [|c s IH]; [reflexivity|]. cbn [WhitespaceModel.find_if drop_until]. rewrite IH. reflexivity. }
  destruct (charset_has_nonascii sp).
  - destruct (charset_is_inverted sp).
    + apply (settles_ext _ (fun s => it <- (if (length (drop_until (on_classic_with_extra_ranges (charset_literals sp) rs) s) =? length s)%nat then Err InvalidScannedValue else Ok (drop_until (on_classic_with_extra_ranges (charset_literals sp) rs) s)) ;; store d U32 s it)); [|exact HS|apply drop1_settles].
      intros es Hes. cbv zeta. rewrite until_wide by exact Hes. reflexivity.
    + apply (settles_ext _ (fun s => it <- (if (length (drop_until (fun c => negb (on_classic_with_extra_ranges (charset_literals sp) rs c)) s) =? length s)%nat then Err InvalidScannedValue else Ok (drop_until (fun c => negb (on_classic_with_extra_ranges (charset_literals sp) rs c)) s)) ;; store d U32 s it)); [|exact HS|apply drop1_settles].
      intros es Hes. cbv zeta. unfold read_while_code_point. rewrite until_wide by exact Hes. reflexivity.
  - destruct (charset_is_inverted sp).
    + apply (settles_ext _ (fun s => it <- (if (length (drop_until (on_ascii_only (charset_literals sp)) s) =? length s)%nat then Err InvalidScannedValue else Ok (drop_until (on_ascii_only (charset_literals sp)) s)) ;; store d U32 s it)); [|exact HS|apply drop1_settles].
      intros es Hes. cbv zeta. rewrite X. reflexivity.
    + apply (settles_ext _ (fun s => it <- (if (length (drop_until (fun c => negb (on_ascii_only (charset_literals sp) c)) s) =? length s)%nat then Err InvalidScannedValue else Ok (drop_until (fun c => negb (on_ascii_only (charset_literals sp) c)) s)) ;; store d U32 s it)); [|exact HS|apply drop1_settles].
      intros es Hes. cbv zeta. unfold read_while_code_unit. rewrite X. reflexivity.
Qed.
(** A regular expression engine whose matches do not depend on what follows. *)
Definition settled_engine (rx : regex_engine) : Prop := forall p fl s l, Forall scalar s -> rx p fl s = Ok l ->
  exists a, s = a ++ l /\ forall l', swap l l' -> rx p fl (a ++ l') = Ok l'.
Lemma regex_settles rx d r p fl ds : settled_engine rx -> Forall scalar ds -> settles (regex_read rx d r p fl) ds.
Proof.
  intros HX HS v b E. unfold regex_read in *. destruct (negb (s_contig r)); [discriminate|]. destruct (rx p fl ds) as [l| | |] eqn:ER; try discriminate. cbn [bind] in E.
  destruct (HX p fl ds l HS ER) as (a & -> & HA). destruct (store_app _ _ _ _ _ _ E) as [-> HB]. exists a. split; [reflexivity|]. intros b' HSw.
  rewrite (HA b' HSw). apply HB.
Qed.
Theorem string_default_settles {R} {HR : gentle R} d r cps : s_enc r = U32 -> Forall scalar cps -> settles_by R (string_default d r) cps.
Proof.
  intros E32 HS. apply default_settles; auto; [intros ds Hds; apply word_settles; auto|].
  intros c ds x rem Hc Hds Hw. apply word_takes; auto.
Qed.
(** No regular expression. *)
Definition no_pattern (sp : specs) : Prop := type sp <> PRegex /\ type sp <> PRegexEscaped.
Theorem string_arg_settles rx d r sp cps : settled_engine rx \/ no_pattern sp -> s_enc r = U32 -> ascii_specs sp -> parsed sp -> Forall scalar cps -> settles (string_arg rx d r sp) cps.
Proof.
  intros HX E32 HA HP HS. unfold string_arg, arg_read_checked. cbn [string_reader rd_check rd_skip rd_specs].
  destruct (check_string_type_specs sp); [|intros v b E; discriminate]. apply arg_settles; auto.
  - intros r' ds E' Hds. unfold string_specs. destruct (string_kind_of sp) eqn:EK.
    + apply word_settles; auto.
    + apply custom_settles; auto.
    + apply character_settles.
    + apply set_settles; auto.
    + destruct HX as [HX|[]]; [apply regex_settles; auto|]. unfold string_kind_of in EK. destruct (type sp); try congruence; destruct (align sp); discriminate.
    + destruct HX as [HX|[]]; [apply regex_settles; auto|]. unfold string_kind_of in EK. destruct (type sp); try congruence; destruct (align sp); discriminate.
  - intros Hs r' c ds x rem E' Hc Hds Hw. unfold string_skip in Hs. unfold string_specs. destruct (string_kind_of sp); try discriminate. apply word_takes; auto.
Qed.

(** * Booleans *)
Lemma strip_inv w : forall s rest, strip w s = Some rest -> s = w ++ rest.
Proof.
  induction w as [|c w IH]; intros s rest E; cbn in E; [injection E as ->; reflexivity|]. destruct s as [|d s]; [discriminate|].
  destruct (Z.eqb_spec c d) as [->|]; [|discriminate]. apply IH in E. subst. reflexivity.
Qed.
Lemma strip_app w : forall rest, strip w (w ++ rest) = Some rest.
Proof. induction w as [|c w IH]; intros rest; cbn; [reflexivity|]. rewrite Z.eqb_refl. apply IH. Qed.
Lemma strip_none_gentle {R} {HR : gentle R} w a b b' : dark w -> strip w (a ++ b) = None -> R b b' -> strip w (a ++ b') = None.
Proof.
  intros HD E HS. destruct (strip w (a ++ b')) as [rest|] eqn:E'; [|reflexivity]. exfalso. apply strip_inv in E'.
  destruct (g_back w HD (a ++ b) (a ++ b') rest (g_app a _ _ HS) E') as (l & El & _). rewrite El, strip_app in E. discriminate.
Qed.
Lemma spelled_follows {R} {HR : gentle R} l ds v b : Forall (fun x => dark (snd x)) l -> spelled l ds = Ok (v, b) ->
  exists a, ds = a ++ b /\ dark a /\ forall b', R b b' -> spelled l (a ++ b') = Ok (v, b').
Proof.
  intros HL. revert v b. induction HL as [|[x w] l Hw _ IH]; intros v b E; [discriminate|]. cbn [spelled] in E. destruct (strip w ds) as [rest|] eqn:ES.
  - injection E as <- <-. apply strip_inv in ES. exists w. split; [exact ES|]. split; [exact Hw|]. intros b' _. cbn [spelled]. rewrite strip_app. reflexivity.
  - destruct (IH v b E) as (a & -> & HD & HA). exists a. split; [reflexivity|]. split; [exact HD|]. intros b' HS. cbn [spelled].
    rewrite (strip_none_gentle w a b b' Hw ES HS). apply HA, HS.
Qed.
Lemma spelled_settles {R} {HR : gentle R} l ds : Forall (fun x => dark (snd x)) l -> settles_by R (spelled l) ds.
Proof. intros HL v b E. destruct (spelled_follows l ds v b HL E) as (a & Ea & _ & HA). eauto. Qed.
Lemma spelled_takes l c ds x rem : Forall (fun x => snd x <> []) l -> spelled l (c :: ds) = Ok (x, rem) -> rem <> c :: ds.
Proof.
  induction 1 as [|[y w] l Hw _ IH]; [discriminate|]. cbn [spelled]. destruct (strip w (c :: ds)) as [rest|] eqn:ES; [|exact IH].
  intros [= _ <-]. apply strip_inv in ES. intros ->. cbn [snd] in Hw. apply (f_equal (@length Z)) in ES. rewrite app_length in ES.
  destruct w; [congruence|]. cbn [length] in ES. lia.
Qed.
Definition bool_words (tx num : bool) (l : list (bool * list Z)) : list (bool * list Z) :=
  (if num then [(false, [48]); (true, [49])] else []) ++ (if tx then l else []).
Lemma bool_either_wide tx num l t ds : Forall scalar ds -> t ds = txt U32 (spelled l ds) -> bool_either tx num t ds = spelled (bool_words tx num l) ds.
Proof.
  intros HS HT. assert (HN := numeric_text U32 ds HS). rewrite text32 in HN.
  assert (TX : forall m, txt U32 (spelled m ds) = spelled m ds) by (intros m; unfold txt; destruct (spelled m ds) as [[v k]| | |]; cbn; rewrite ?text32; reflexivity).
  rewrite TX in HT, HN. unfold bool_either, bool_words. rewrite HT, HN.
  assert (SA : forall m n, spelled (m ++ n) ds = match spelled m ds with Err _ => spelled n ds | x => x end).
  { induction m as [|[y w] m IH]; intros n; [reflexivity|]. cbn [app spelled]. destruct (strip w ds); [reflexivity|apply IH]. }
  rewrite SA. destruct num.
  - assert (HE := spelled_err [(false, [48]); (true, [49])] ds False). destruct (spelled [(false, [48]); (true, [49])] ds) as [[b k]|x| |] eqn:ES; try contradiction; try reflexivity.
    destruct tx; [reflexivity|]. cbn [spelled]. revert ES. clear. cbn [spelled]. destruct (strip [48] ds); [discriminate|]. destruct (strip [49] ds); [discriminate|]. congruence.
  - cbn [spelled]. destruct tx; reflexivity.
Qed.
Definition ordered_names (names : list Z * list Z) : list (bool * list Z) :=
  if (length (fst names) <=? length (snd names))%nat then [(true, fst names); (false, snd names)] else [(false, snd names); (true, fst names)].
(** The names of the locale: printable, without white space. *)
Definition plain_name (w : list Z) : Prop := w <> [] /\ ascii_str w /\ dark w.
Lemma bool_words_ok tx num l : Forall (fun x : bool * list Z => snd x <> [] /\ dark (snd x)) l ->
  Forall (fun x => dark (snd x)) (bool_words tx num l) /\ Forall (fun x => snd x <> []) (bool_words tx num l).
Proof.
  intros H. assert (N : Forall (fun x : bool * list Z => snd x <> [] /\ dark (snd x)) (bool_words tx num l)).
  { unfold bool_words. apply Forall_app. split; [|destruct tx; [exact H|constructor]].
    destruct num; [|constructor]. repeat constructor; discriminate. }
  split; (eapply Forall_impl; [|exact N]); intros x; apply proj1 || apply proj2.
Qed.
Lemma bool_read_wide names sp ds : plain_name (fst names) -> plain_name (snd names) -> Forall scalar ds ->
  forall r, bool_specs names r sp ds = spelled (bool_words (fst (bool_options sp)) (snd (bool_options sp))
    (if localized sp then ordered_names names else [(true, word_true); (false, word_false)])) ds.
Proof.
  intros (_ & H1 & _) (_ & H2 & _) HS r. unfold bool_specs. destruct (bool_options sp) as [tx num]. cbn [fst snd].
  apply bool_either_wide; [exact HS|]. destruct (localized sp).
  - assert (X := custom_names_text U32 _ _ ds H1 H2 HS). rewrite text32 in X. exact X.
  - assert (X := classic_text U32 ds HS). rewrite text32 in X. exact X.
Qed.
Lemma classic_words_ok : Forall (fun x : bool * list Z => snd x <> [] /\ dark (snd x)) [(true, word_true); (false, word_false)].
Proof. repeat constructor; discriminate. Qed.
Lemma ordered_names_ok names : plain_name (fst names) -> plain_name (snd names) -> Forall (fun x : bool * list Z => snd x <> [] /\ dark (snd x)) (ordered_names names).
Proof. intros (A1 & _ & A2) (B1 & _ & B2). unfold ordered_names. destruct (_ <=? _)%nat; repeat constructor; auto. Qed.
Theorem bool_default_settles {R} {HR : gentle R} r cps : s_enc r = U32 -> Forall scalar cps -> settles_by R (bool_default r) cps.
Proof.
  intros E32 HS.
  assert (EQ : forall ds, Forall scalar ds -> bool_either true true bool_textual_classic ds = spelled (bool_words true true [(true, word_true); (false, word_false)]) ds).
  { intros ds Hds. apply bool_either_wide; [exact Hds|]. assert (X := classic_text U32 ds Hds). rewrite text32 in X. exact X. }
  destruct (bool_words_ok true true _ classic_words_ok) as [W1 W2].
  apply default_settles; auto.
  - intros ds Hds. apply (settles_ext _ (spelled (bool_words true true [(true, word_true); (false, word_false)]))); auto. apply spelled_settles, W1.
  - intros c ds x rem Hc Hds _ E. rewrite EQ in E by (constructor; assumption). exact (spelled_takes _ _ _ _ _ W2 E).
Qed.
Theorem bool_specs_settles names r sp cps : s_enc r = U32 -> ascii_specs sp -> parsed sp -> Forall scalar cps -> plain_name (fst names) -> plain_name (snd names) ->
  settles (arg_read_checked r (bool_reader names) sp) cps.
Proof.
  intros E32 HA HP HS H1 H2. unfold arg_read_checked. cbn [bool_reader rd_check rd_skip rd_specs].
  destruct (check_bool_type_specs sp); [|intros v b E; discriminate].
  destruct (bool_words_ok (fst (bool_options sp)) (snd (bool_options sp)) (if localized sp then ordered_names names else [(true, word_true); (false, word_false)])) as [W1 W2].
  { destruct (localized sp); [apply ordered_names_ok; auto|apply classic_words_ok]. }
  apply arg_settles; auto.
  - intros r' ds E' Hds. eapply settles_ext; [|exact Hds|apply spelled_settles, W1]. intros es Hes. apply bool_read_wide; auto.
  - intros _ r' c ds x rem E' Hc Hds _ E. rewrite bool_read_wide in E by (auto; constructor; assumption). exact (spelled_takes _ _ _ _ _ W2 E).
Qed.

(** * Characters *)
Lemma char_settles k r ds : s_enc r = U32 -> Forall scalar ds -> settles (char_default_read k r) ds.
Proof.
  intros E32 HS.
  assert (CU : settles code_unit_read ds).
  { intros v b E. destruct ds as [|c ds]; [discriminate|]. injection E as <- <-. exists [c]. split; [reflexivity|]. intros b' _. reflexivity. }
  unfold char_default_read. rewrite E32. destruct k; [intros v b E; discriminate|exact CU|].
  apply (settles_ext _ first_code_point); [|exact HS|].
  - intros es Hes. assert (X := code_points_text U32 es Hes). rewrite text32 in X. rewrite X. destruct es; cbn; rewrite ?text32; reflexivity.
  - intros v b E. destruct ds as [|c ds]; [discriminate|]. injection E as <- <-. exists [c]. split; [reflexivity|]. intros b' _. reflexivity.
Qed.
Lemma char_takes k r c ds x rem : s_enc r = U32 -> Forall scalar (c :: ds) -> char_default_read k r (c :: ds) = Ok (x, rem) -> rem <> c :: ds.
Proof.
  intros E32 HS. assert (N : ds <> c :: ds) by (intros E; apply (f_equal (@length Z)) in E; cbn in E; lia).
  unfold char_default_read. rewrite E32. destruct k; [discriminate|intros [= _ <-]; exact N|].
  assert (X := code_points_text U32 (c :: ds) HS). rewrite text32 in X. rewrite X. cbn. intros [= _ <-]. rewrite text32. exact N.
Qed.
Theorem char_default_settles k r cps : s_enc r = U32 -> Forall scalar cps -> settles (char_default k r) cps.
Proof.
  intros E32 HS. apply default_settles; auto; [intros ds Hds; apply char_settles; auto|].
  intros c ds x rem Hc Hds _ E. eapply char_takes; [exact E32|constructor; assumption|exact E].
Qed.
