(** Proofs about what can follow a range or a tuple. *)
From Verif Require Import Prelude UnicodeModel UnicodeSpec WhitespaceModel ReadModel ReadProofs SpecsModel FormatModel ArgsModel
  SpecsInvProofs VscanSpec ArgReaderModel ScalarSpec ScalarProofs StringModel WidthSpec CheckerProofs StringSpec StringProofs EncodingProofs EncodingReadProofs RangesModel RangesProofs LockstepProofs FollowSpec FollowProofs RespaceProofs.
Local Open Scope Z_scope.

(** The same up to some place that is not white space, and from there on as in [swap]. *)
Definition kept (b b' : list Z) : Prop := exists x c y y', b = x ++ c :: y /\ b' = x ++ c :: y' /\ is_ws c = false /\ swap y y'.
Lemma kept_swap b b' : kept b b' -> swap b b'.
Proof. intros (x & c & y & y' & -> & -> & _ & H). apply swap_app, swap_same, H. Qed.
Lemma kept_app a b b' : kept b b' -> kept (a ++ b) (a ++ b').
Proof. intros (x & c & y & y' & -> & -> & H). exists (a ++ x), c, y, y'. rewrite <- !app_assoc. auto. Qed.
Lemma kept_scalar b b' : kept b b' -> Forall scalar b -> Forall scalar b'.
Proof. intros H. apply swap_scalar, kept_swap, H. Qed.
Lemma kept_behind b b' : kept b b' -> exists w d m m', Forall (fun c => is_ws c = true) w /\ b = w ++ d :: m /\ b' = w ++ d :: m' /\ is_ws d = false /\ swap m m'.
Proof.
  intros (x & c & y & y' & -> & -> & Hc & HS). induction x as [|d x IH]; [exists [], c, y, y'; auto|].
  destruct (is_ws d) eqn:Ed.
  - destruct IH as (w & e & m & m' & Hw & E1 & E2 & H). exists (d :: w), e, m, m'. cbn [app]. rewrite E1, E2. auto.
  - exists [], d, (x ++ c :: y), (x ++ c :: y'). cbn [app]. split; [constructor|]. repeat split; auto. apply swap_app, swap_same, HS.
Qed.
Lemma behind_is w d m : Forall (fun c => is_ws c = true) w -> is_ws d = false -> behind (w ++ d :: m) = d :: m.
Proof.
  intros Hw Hd. unfold behind. induction Hw as [|c w Hc Hw IH]; cbn [app lead].
  - rewrite Hd. reflexivity.
  - rewrite Hc. exact IH.
Qed.
Lemma behind_split s : exists w, Forall (fun c => is_ws c = true) w /\ s = w ++ behind s /\ match behind s with [] => True | d :: _ => is_ws d = false end.
Proof.
  unfold behind. induction s as [|c s IH]; [exists []; cbn; auto|]. destruct IH as (w & Hw & E & H). cbn [lead]. destruct (is_ws c) eqn:EC.
  - exists (c :: w). split; [auto|]. cbn [after length skipn app] in *. split; [f_equal; exact E|exact H].
  - exists []. split; [constructor|]. split; [reflexivity|]. exact EC.
Qed.

Section Punctuation.
Variable r : src.
Hypothesis E32 : s_enc r = U32.
Lemma str_is str s : Forall scalar s -> scan_str r str s = match behind s with [] => Err EndOfInput | x => expect str x end.
Proof.
  intros HS. unfold scan_str. assert (H := skip_wide r (fun x => Ok (tt, x)) s E32 HS). unfold skipping in H.
  destruct (skip_classic_whitespace r s false); cbn [bind] in *; destruct (behind s); congruence.
Qed.
Definition firm (str : list Z) : Prop := dark str /\ (length str <= 1)%nat.
(** What may be changed behind a text that has been found. *)
Definition tail (str b b' : list Z) : Prop := (str <> [] /\ swap b b') \/ kept b b'.
Lemma tail_swap str b b' : tail str b b' -> swap b b'.
Proof. intros [[_ H]|H]; [exact H|apply kept_swap, H]. Qed.
Lemma str_settles str s b : firm str -> Forall scalar s -> scan_str r str s = Ok b ->
  exists a, s = a ++ b /\ forall b', tail str b b' -> scan_str r str (a ++ b') = Ok b' /\ kept (a ++ b) (a ++ b').
Proof.
  intros [HD _] HS E. rewrite str_is in E by exact HS. destruct (behind_split s) as (w & Hw & Es & Hb).
  destruct (behind s) as [|d m] eqn:EB; [discriminate|]. apply expect_inv in E. rewrite E in Es.
  exists (w ++ str). split; [rewrite <- app_assoc; exact Es|]. intros b' HT.
  assert (HS' : Forall scalar ((w ++ str) ++ b')).
  { apply (swap_scalar ((w ++ str) ++ b)); [apply swap_app, (tail_swap str), HT|]. rewrite <- app_assoc, <- Es. exact HS. }
  rewrite str_is by exact HS'. destruct str as [|c str].
  - destruct HT as [[[] _]|HT]; [reflexivity|]. cbn [app] in E. subst b.
    destruct (kept_behind _ _ HT) as (w' & e & n & n' & Hw' & E1 & E2 & He & HN).
    assert (w' = []) as ->. { destruct w' as [|x w']; [reflexivity|]. injection E1 as <- _. inversion Hw'. congruence. }
    injection E1 as <- <-. cbn [app] in E2. subst b'. rewrite app_nil_r, behind_is by assumption. split; [reflexivity|]. apply kept_app, HT.
  - inversion HD as [|? ? Hc HD']; subst. rewrite <- !app_assoc. cbn [app]. rewrite behind_is by assumption. split; [apply (expect_app (c :: str))|].
    apply kept_app. exists [], c, (str ++ b), (str ++ b'). cbn [app]. repeat split; auto. apply swap_app, (tail_swap _ _ _ HT).
Qed.
Lemma str_fails str s s' e : firm str -> Forall scalar s -> scan_str r str s = Err e -> kept s s' -> exists e', scan_str r str s' = Err e'.
Proof.
  intros [HD HL] HS E HK. assert (HS' := kept_scalar _ _ HK HS). rewrite str_is in * by assumption.
  destruct (kept_behind _ _ HK) as (w & d & m & m' & Hw & -> & -> & Hd & HM). rewrite behind_is in * by assumption.
  destruct str as [|c [|]]; cbn [length expect] in *; [discriminate| |lia]. destruct (c =? d); [discriminate|]. eauto.
Qed.
Lemma str_app str s b a : firm str -> Forall scalar s -> s = a ++ b -> scan_str r str s = Ok b -> Forall scalar b.
Proof. intros _ HS -> _. apply Forall_app in HS. apply HS. Qed.

(** ** Elements *)
Context {V : Type}.
Variables (p : punct) (elem : list Z -> outcome (V * list Z)).
Hypothesis Hp : firm (p_open p) /\ firm (p_close p) /\ firm (p_sep p).
Hypothesis Helem : forall s, Forall scalar s -> settles_by kept elem s.
Lemma sep_settles (first : bool) s b : Forall scalar s -> (if first then Ok s else scan_str r (p_sep p) s) = Ok b ->
  exists a, s = a ++ b /\ forall b', kept b b' -> (if first then Ok (a ++ b') else scan_str r (p_sep p) (a ++ b')) = Ok b'.
Proof.
  intros HS E. destruct first; [injection E as ->; exists []; auto|]. destruct (str_settles _ _ _ (proj2 (proj2 Hp)) HS E) as (a & Ea & H).
  exists a. split; [exact Ea|]. intros b' HK. apply H. right. exact HK.
Qed.
Lemma loop_settles n : forall first s vs b, Forall scalar s -> seq_loop r p elem n first s = Ok (vs, b) ->
  exists a, s = a ++ b /\ forall b', kept b b' -> (exists t, scan_str r (p_close p) b' = Ok t) -> seq_loop r p elem n first (a ++ b') = Ok (vs, b').
Proof.
  induction n as [|n IH]; intros first s vs b HS E; cbn [seq_loop] in E; [injection E as <- <-; exists []; split; [reflexivity|]; reflexivity|].
  destruct (scan_str r (p_close p) s) as [t|e| |] eqn:EC; try discriminate.
  - injection E as <- <-. exists []. split; [reflexivity|]. intros b' HK [t' Et]. cbn [app seq_loop]. rewrite Et. reflexivity.
  - apply bind_ok in E. destruct E as (s1 & E1 & E). apply bind_ok in E. destruct E as ([v s2] & E2 & E). apply bind_ok in E. destruct E as ([vs' s3] & E3 & E).
    injection E as <- <-. destruct (sep_settles first s s1 HS E1) as (a1 & -> & H1). assert (HS1 := HS). apply Forall_app in HS1. destruct HS1 as [_ HS1].
    destruct (Helem s1 HS1 v s2 E2) as (a2 & -> & H2). assert (HS2 := HS1). apply Forall_app in HS2. destruct HS2 as [_ HS2].
    destruct (IH false s2 vs' s3 HS2 E3) as (a3 & -> & H3). exists (a1 ++ a2 ++ a3). split; [rewrite <- !app_assoc; reflexivity|].
    intros b' HK HC. rewrite <- !app_assoc. cbn [seq_loop].
    assert (K : kept (a1 ++ a2 ++ a3 ++ s3) (a1 ++ a2 ++ a3 ++ b')) by (do 3 apply kept_app; exact HK).
    destruct (str_fails (p_close p) _ _ _ (proj1 (proj2 Hp)) HS EC K) as [e' ->].
    rewrite H1 by (do 2 apply kept_app; exact HK). cbn [bind]. rewrite H2 by (apply kept_app; exact HK). cbn [bind]. rewrite H3 by assumption. reflexivity.
Qed.
(** ** Brackets around *)
Lemma bracket_settles (body : list Z -> outcome (list V * list Z)) {W} (mk : list V -> W) s v b : Forall scalar s ->
  (forall s vs b, Forall scalar s -> body s = Ok (vs, b) -> exists a, s = a ++ b /\
     forall b', kept b b' -> (exists t, scan_str r (p_close p) b' = Ok t) -> body (a ++ b') = Ok (vs, b')) ->
  (it <- scan_str r (p_open p) s ;; '(vs, it) <- body it ;; it <- scan_str r (p_close p) it ;; Ok (mk vs, it)) = Ok (v, b) ->
  exists a, s = a ++ b /\ forall b', tail (p_close p) b b' ->
    (it <- scan_str r (p_open p) (a ++ b') ;; '(vs, it) <- body it ;; it <- scan_str r (p_close p) it ;; Ok (mk vs, it)) = Ok (v, b').
Proof.
  intros HS HB E. apply bind_ok in E. destruct E as (s1 & E1 & E). apply bind_ok in E. destruct E as ([vs s2] & E2 & E). apply bind_ok in E. destruct E as (s3 & E3 & E).
  injection E as <- <-. destruct (str_settles _ _ _ (proj1 Hp) HS E1) as (a1 & -> & H1). assert (HS1 := HS). apply Forall_app in HS1. destruct HS1 as [_ HS1].
  destruct (HB s1 vs s2 HS1 E2) as (a2 & -> & H2). assert (HS2 := HS1). apply Forall_app in HS2. destruct HS2 as [_ HS2].
  destruct (str_settles _ _ _ (proj1 (proj2 Hp)) HS2 E3) as (a3 & -> & H3). exists (a1 ++ a2 ++ a3). split; [rewrite <- !app_assoc; reflexivity|].
  intros b' HT. rewrite <- !app_assoc. destruct (H3 b' HT) as [E4 K].
  destruct (H1 (a2 ++ a3 ++ b')) as [-> _]; [right; apply kept_app, K|]. cbn [bind].
  rewrite H2 by eauto. cbn [bind]. rewrite E4. reflexivity.
Qed.
End Punctuation.

Section Shapes.
Context {L X : Type}.
Variable r : src.
Hypothesis E32 : s_enc r = U32.
Variable leaf : L -> specs -> list Z -> outcome (X * list Z).
Variables (okleaf : L -> Prop) (okspecs : specs -> Prop).
Hypothesis Hdefault : okspecs specs_default.
Hypothesis Hleaf : forall t sp s, okleaf t -> okspecs sp -> Forall scalar s -> settles_by kept (leaf t sp) s.
(** Punctuation of one character or none, no white space. *)
Definition firm_punct (p : punct) : Prop := firm (p_open p) /\ firm (p_close p) /\ firm (p_sep p).
Fixpoint firm_shape (sh : shape L) : Prop :=
  match sh with
  | SLeaf t => okleaf t
  | SSeq _ p e => firm_punct p /\ firm_shape e
  | STup p es => firm_punct p /\ (fix go es := match es with [] => True | x :: es' => firm_shape x /\ go es' end) es
  end.
(** With a closing bracket. *)
Definition close_of (sh : shape L) : list Z := match sh with SLeaf _ => [] | SSeq _ p _ => p_close p | STup p _ => p_close p end.
Lemma shape_tail sh : firm_shape sh -> forall sp s, okspecs sp -> Forall scalar s -> settles_by (tail (close_of sh)) (scan_shape r leaf sh sp) s.
Proof.
  induction sh as [t|n p sh IH|p es IH] using shape_all; intros HO sp s HSp HS v b E; cbn [scan_shape close_of] in *.
  - apply bind_ok in E. destruct E as ([x s1] & E1 & E). injection E as <- <-. destruct (Hleaf t sp s HO HSp HS x s1 E1) as (a & Ea & H).
    exists a. split; [exact Ea|]. intros b' [[[] _]|HK]; [reflexivity|]. rewrite (H b' HK). reflexivity.
  - destruct HO as [HP HO].
    apply (bracket_settles r E32 p HP (seq_loop r p (scan_shape r leaf sh sp) n true) VSeq); [exact HS| |exact E].
    intros s0 vs b0 HS0 E0. apply loop_settles; auto. intros s1 HS1 v1 b1 E1.
    destruct (IH HO sp s1 HSp HS1 v1 b1 E1) as (a & Ea & H). exists a. split; [exact Ea|]. intros b' HK. apply H. right. exact HK.
  - destruct HO as [HP HO].
    match type of E with bind _ (fun it => bind (?g es true it) _) = _ => set (go := g) in * end.
    apply (bracket_settles r E32 p HP (go es true) VTup); [exact HS| |exact E]. clear E v b s HS.
    assert (G : forall fs, Forall (fun e => firm_shape e -> forall sp s, okspecs sp -> Forall scalar s -> settles_by (tail (close_of e)) (scan_shape r leaf e sp) s) fs ->
       (fix go es := match es with [] => True | x :: es' => firm_shape x /\ go es' end) fs ->
       forall first s vs b, Forall scalar s -> go fs first s = Ok (vs, b) -> exists a, s = a ++ b /\ forall b', kept b b' -> go fs first (a ++ b') = Ok (vs, b')).
    { induction fs as [|e fs IHf]; intros HI HF first s vs b HS E; cbn in E; [injection E as <- <-; exists []; split; [reflexivity|]; reflexivity|].
      inversion HI as [|? ? He HI']; subst. destruct HF as [HF1 HF2].
      apply bind_ok in E. destruct E as (s1 & E1 & E). apply bind_ok in E. destruct E as ([v s2] & E2 & E). apply bind_ok in E. destruct E as ([vs' s3] & E3 & E).
      injection E as <- <-. destruct (sep_settles r E32 p HP first s s1 HS E1) as (a1 & -> & H1). assert (HS1 := HS). apply Forall_app in HS1. destruct HS1 as [_ HS1].
      destruct (He HF1 specs_default s1 Hdefault HS1 v s2 E2) as (a2 & -> & H2). assert (HS2 := HS1). apply Forall_app in HS2. destruct HS2 as [_ HS2].
      destruct (IHf HI' HF2 false s2 vs' s3 HS2 E3) as (a3 & -> & H3). exists (a1 ++ a2 ++ a3). split; [rewrite <- !app_assoc; reflexivity|].
      intros b' HK. rewrite <- !app_assoc. cbn. fold go. rewrite H1 by (do 2 apply kept_app; exact HK). cbn [bind].
      rewrite H2 by (right; apply kept_app; exact HK). cbn [bind]. rewrite H3 by assumption. reflexivity. }
    intros s vs b HS E. destruct (G es IH HO true s vs b HS E) as (a & Ea & H). exists a. split; [exact Ea|]. intros b' HK _. apply H, HK.
Qed.
Theorem shape_settles sh sp s : firm_shape sh -> close_of sh <> [] -> okspecs sp -> Forall scalar s -> settles (scan_shape r leaf sh sp) s.
Proof.
  intros HF HC HSp HS v b E. destruct (shape_tail sh HF sp s HSp HS v b E) as (a & Ea & H). exists a. split; [exact Ea|]. intros b' HB. apply H. left. auto.
Qed.
End Shapes.
