(** Buffers deliver exactly the characters of their source. *)
From Verif Require Import Prelude BufferModel BufferSpec.
Local Open Scope Z_scope.

Definition seen (b : buffer) : list Z := putback b ++ view b.

Lemma seen_len b : length (seen b) = chars_available b.
Proof. unfold seen, chars_available; apply app_length. Qed.

(** The next fill delivers something / moves the current view to the put-back buffer. *)
Definition delivers (b : buffer) : Prop := exists b', fill b = Ok (true, b').
Definition moves (b : buffer) : Prop :=
  exists ok b', fill b = Ok (ok, b') /\ (length (seen b) <= length (putback b'))%nat.

Fixpoint good (D : list Z) (b : buffer) : Prop :=
  match b with
  | Buffer p v o =>
      match o with
      | Forward rest => p ++ v ++ rest = D
      | File f => p ++ content f = D /\ (v = [] \/ area f = Some v)
      | Getc f => p ++ v ++ gcontent f = D /\ (length v <= 1)%nat
      | Ref other start prop =>
          prop = true /\
          exists D', good D' other /\ D = skipn start D' /\
            (start <= length (seen other))%nat /\
            (length p <= length (putback other) - start)%nat /\
            (start <= length (putback other) \/ moves other)%nat /\
            p ++ v = skipn start (seen other)
      end
  end.

Fixpoint steady (b : buffer) : Prop :=
  match b with
  | Buffer _ _ o =>
      match o with
      | Forward _ => True
      | File f => Forall (fun l => l <> []) (reads f)
      | Getc f => Forall (fun c => c <> None) (chars f)
      | Ref other _ _ => steady other
      end
  end.

Fixpoint depth (b : buffer) : nat :=
  match b with
  | Buffer _ _ (Ref other _ _) => S (depth other)
  | _ => O
  end.

Lemma skipn_le_app {A} n (a b : list A) : (n <= length a)%nat ->
  skipn n (a ++ b) = skipn n a ++ b.
Proof.
  intros H; rewrite skipn_app. replace (n - length a)%nat with O by lia. reflexivity.
Qed.

Lemma good_seen : forall n D b, (depth b <= n)%nat -> good D b -> exists t, D = seen b ++ t.
Proof.
  induction n as [|n IH]; intros D [p v o] Hd Hg; unfold seen; cbn [putback view];
    destruct o as [rest|f|f|other start prop]; cbn [good] in Hg.
  1, 5: exists rest; rewrite <- app_assoc; symmetry; exact Hg.
  1, 4: destruct Hg as [Hg Hv]; destruct Hv as [->|Hv];
    [exists (content f); rewrite <- app_assoc; symmetry; exact Hg|];
    exists (concat (reads f)); rewrite <- app_assoc; rewrite <- Hg; unfold content, get_area;
    rewrite Hv; reflexivity.
  1, 3: destruct Hg as [Hg _]; exists (gcontent f); rewrite <- app_assoc; symmetry; exact Hg.
  - cbn [depth] in Hd; lia.
  - cbn [depth] in Hd. destruct Hg as [_ (D' & G & -> & Hs & _ & _ & Hp)].
    destruct (IH D' other ltac:(lia) G) as [t Ht].
    exists t. rewrite Hp, Ht. apply skipn_le_app, Hs.
Qed.

Lemma good_seen' D b : good D b -> exists t, D = seen b ++ t.
Proof. apply (good_seen (depth b)); lia. Qed.

Lemma good_avail D b : good D b -> (chars_available b <= length D)%nat.
Proof.
  intros H; destruct (good_seen' D b H) as [t ->]. rewrite app_length, seen_len. lia.
Qed.


Lemma fill_good : forall n D b, (depth b <= n)%nat -> good D b ->
  exists ok b', fill b = Ok (ok, b') /\ good D b' /\ (steady b -> steady b') /\
    (length (putback b) <= length (putback b'))%nat /\
    (if ok : bool then chars_available b < chars_available b' /\
                       length (seen b) <= length (putback b')
     else chars_available b' = chars_available b /\
          (steady b -> chars_available b' = length D))%nat.
Proof.
  induction n as [|n IH]; intros D [p v o] Hd Hg;
    destruct o as [rest|f|f|other start prop]; cbn [good] in Hg.
  4: cbn [depth] in Hd; lia.
  1, 4: destruct rest as [|c rest]; cbn [fill]; do 2 eexists; (split; [reflexivity|]);
    [ split; [exact Hg|]; split; [auto|]; split; [lia|]; split; [reflexivity|];
      intros _; unfold chars_available; cbn [putback view]; rewrite <- Hg, app_nil_r, app_length; lia
    | split; [cbn [good]; rewrite <- Hg, <- app_assoc; reflexivity|]; split; [cbn; auto|];
      unfold seen, chars_available; cbn [putback view]; rewrite !app_length; cbn [length]; lia ].
  1, 3: destruct Hg as [Hg Hv];
    assert (HA : exists f1, (match v with [] => Ok f | _ => unsafe_advance_n (length v) f end)
                  = Ok f1 /\ v ++ content f1 = content f /\ reads f1 = reads f);
    [ destruct v as [|c v];
      [ exists f; repeat split; reflexivity
      | destruct Hv as [Hv|Hv]; [discriminate|]; unfold unsafe_advance_n; rewrite Hv;
        destruct (Nat.ltb_spec (length (c :: v)) (length (c :: v))) as [Q|Q]; [lia|];
        eexists; split; [reflexivity|]; split; [|reflexivity];
        unfold content, get_area; rewrite Hv; cbn [area reads];
        rewrite skipn_all; reflexivity ]
    | destruct HA as (f1 & E1 & E2 & E3);
      cbn [fill]; rewrite E1; cbn [bind];
      destruct (get_area f1) as [|c a] eqn:EA;
      [ unfold fill_buffer;
        destruct (reads f1) as [|l ls] eqn:ER;
        [ do 2 eexists; (split; [reflexivity|]); cbn [get_area area];
          split; [cbn [good]; split; [|left; reflexivity];
                  rewrite <- Hg, <- E2; unfold content; cbn [get_area area reads];
                  rewrite EA, ER; cbn [concat app]; rewrite !app_nil_r; reflexivity|];
          split; [cbn [steady reads]; auto|];
          unfold chars_available; cbn [putback view]; rewrite app_length;
          split; [lia|]; cbn [length]; split; [lia|]; intros _;
          rewrite <- Hg, <- E2; unfold content; rewrite EA, ER; cbn [concat app];
          rewrite !app_length; cbn [length]; lia
        | cbn [get_area area]; do 2 eexists; (split; [reflexivity|]);
          split; [cbn [good]; split; [|right; reflexivity];
                  rewrite <- Hg, <- E2; unfold content; cbn [get_area area reads];
                  rewrite EA, ER; cbn [concat app]; rewrite <- app_assoc; reflexivity|];
          split; [cbn [steady reads]; rewrite <- E3; intros HF; inversion HF; assumption|];
          unfold seen, chars_available; cbn [putback view]; rewrite app_length;
          split; [lia|]; destruct l as [|c l];
          [ cbn [length]; split; [lia|]; cbn [steady]; rewrite <- E3; intros HF;
            inversion HF as [|? ? Q ?]; exfalso; apply Q; reflexivity
          | cbn [length]; lia ] ]
      | rewrite EA; do 2 eexists; (split; [reflexivity|]);
        split; [cbn [good]; split; [|right; unfold get_area in EA;
                destruct (area f1); [rewrite EA; reflexivity|discriminate]];
                rewrite <- Hg, <- E2, <- app_assoc; reflexivity|];
        split; [cbn [steady]; rewrite E3; auto|];
        unfold seen, chars_available; cbn [putback view]; rewrite app_length; cbn [length]; lia ] ].
  1, 2: destruct Hg as [Hg Hv]; cbn [fill]; unfold read_one;
    destruct (chars f) as [|[c|] cs] eqn:EC; do 2 eexists; (split; [reflexivity|]);
    [ split; [cbn [good]; split; [|cbn; lia]; rewrite <- Hg; unfold gcontent; rewrite EC;
              cbn [received]; rewrite !app_nil_r; reflexivity|];
      split; [auto|]; unfold chars_available; cbn [putback view]; rewrite app_length;
      split; [lia|]; split; [cbn [length]; lia|]; intros _; rewrite <- Hg;
      unfold gcontent; rewrite EC; cbn [received]; rewrite app_nil_r, app_length;
      cbn [length]; lia
    | split; [cbn [good]; split; [|cbn; lia]; rewrite <- Hg; unfold gcontent; rewrite EC;
              cbn [received chars]; rewrite <- app_assoc; reflexivity|];
      split; [cbn [steady chars]; rewrite EC; intros HF; inversion HF; assumption|];
      unfold seen, chars_available; cbn [putback view]; rewrite app_length; cbn [length]; lia
    | split; [cbn [good]; split; [|cbn; lia]; rewrite <- Hg; unfold gcontent; rewrite EC;
              cbn [received chars app]; rewrite <- app_assoc; reflexivity|];
      split; [cbn [steady chars]; rewrite EC; intros HF; inversion HF; assumption|];
      unfold chars_available; cbn [putback view]; rewrite app_length;
      split; [lia|]; split; [cbn [length]; lia|]; cbn [steady]; rewrite EC; intros HF;
      inversion HF as [|? ? Q ?]; exfalso; apply Q; reflexivity ].
  cbn [depth] in Hd. destruct Hg as [-> (D' & G & -> & Hs & Hp & Hm & HD)].
  destruct (IH D' other ltac:(lia) G) as (ok & o' & EF & G' & ST & MP & R).
  cbn [fill]. rewrite EF; cbn [bind].
  assert (HL : (start <= length (putback o'))%nat).
  { destruct Hm as [Hm|(ok2 & o2 & E2 & L2)]; [lia|]. rewrite E2 in EF.
    injection EF as -> ->. lia. }
  destruct (Nat.ltb_spec (length (putback o')) start) as [Q|Q]; [lia|].
  do 2 eexists; (split; [reflexivity|]).
  assert (HS : skipn start (putback o') ++ view o' = skipn start (seen o')).
  { unfold seen. rewrite skipn_le_app by exact HL. reflexivity. }
  assert (HLS : length (seen o') = chars_available o') by apply seen_len.
  assert (HLO : length (seen other) = chars_available other) by apply seen_len.
  assert (HLpv : (length (p ++ v) + (if ok then 0 else 0) <= length (seen other) - start)%nat).
  { rewrite HD, skipn_length. destruct ok; lia. }
  split; [|split; [|split]].
  - cbn [good]. split; [reflexivity|]. exists D'. split; [exact G'|]. split; [reflexivity|].
    split; [unfold seen; rewrite app_length; lia|].
    split; [rewrite skipn_length; lia|]. split; [left; exact HL|]. exact HS.
  - cbn [steady]. exact ST.
  - cbn [putback]. rewrite skipn_length. lia.
  - unfold seen at 1, chars_available at 1 2; unfold chars_available at 1 2; cbn [putback view].
    rewrite <- !app_length, HS, !skipn_length, HLS.
    unfold seen in HLO; rewrite app_length in HLO.
    unfold seen in HLpv; rewrite app_length in HLpv.
    destruct ok.
    + destruct R as [R1 R2]. unfold seen in R2; rewrite app_length in R2.
      rewrite app_length in *. unfold chars_available in R1, HLO.
      unfold chars_available. unfold seen in Hs; rewrite app_length in Hs; lia.
    + destruct R as [R1 R2].
      assert (L := f_equal (@length Z) HD). unfold seen in L.
      rewrite skipn_length, !app_length in L. rewrite !app_length in *.
      rewrite R1. split; [lia|]. intros S. specialize (R2 S). rewrite <- seen_len.
      unfold seen at 1; cbn [putback view]. rewrite HS, skipn_length. lia.
Qed.

Lemma fill_spec D b : good D b ->
  exists ok b', fill b = Ok (ok, b') /\ good D b' /\ (steady b -> steady b') /\
    (length (putback b) <= length (putback b'))%nat /\
    (if ok : bool then chars_available b < chars_available b' /\
                       length (seen b) <= length (putback b')
     else chars_available b' = chars_available b /\
          (steady b -> chars_available b' = length D))%nat.
Proof. apply (fill_good (depth b)); lia. Qed.

Lemma delivers_moves D b : good D b -> delivers b -> moves b.
Proof.
  intros G [b' E]. destruct (fill_spec D b G) as (ok & b2 & E2 & _ & _ & _ & R).
  rewrite E in E2; injection E2 as <- <-. exists true, b'. split; [exact E|]. apply R.
Qed.

Lemma read_at_loop_ok D p : forall fuel b, good D b -> (p < chars_available b + fuel)%nat ->
  exists ok b', read_at_loop fuel p b = Ok (ok, b') /\ good D b' /\ (steady b -> steady b') /\
    (chars_available b <= chars_available b')%nat /\
    (if ok : bool then p < chars_available b'
     else chars_available b' <= p /\ (steady b -> chars_available b' = length D))%nat.
Proof.
  induction fuel as [|fuel IH]; intros b G Hf; cbn [read_at_loop];
    destruct (Nat.ltb_spec p (chars_available b)) as [Q|Q].
  1, 3: exists true, b; split; [reflexivity|]; auto.
  - lia.
  - destruct (fill_spec D b G) as (ok & b' & E & G' & ST & _ & R). rewrite E; cbn [bind].
    destruct ok.
    + destruct R as [R _]. destruct (IH b' G' ltac:(lia)) as (ok & b2 & E2 & G2 & S2 & A2 & R2).
      exists ok, b2. split; [exact E2|]. split; [exact G2|]. split; [auto|]. split; [lia|].
      destruct ok; [exact R2|]. destruct R2 as [R2 R3]. auto.
    + destruct R as [R1 R2]. exists false, b'. split; [reflexivity|]. split; [exact G'|].
      split; [exact ST|]. split; [lia|]. split; [lia|exact R2].
Qed.

Lemma read_at_ok D p b : good D b ->
  exists ok b', read_at_position p b = Ok (ok, b') /\ good D b' /\ (steady b -> steady b') /\
    (chars_available b <= chars_available b')%nat /\
    (if ok : bool then p < chars_available b'
     else chars_available b' <= p /\ (steady b -> chars_available b' = length D))%nat.
Proof. intros G; apply read_at_loop_ok; [exact G|lia]. Qed.

Lemma char_at D b p : good D b -> (p < chars_available b)%nat ->
  exists c, get_character_at p b = Ok c /\ nth_error D p = Some c.
Proof.
  intros G H. destruct (good_seen' D b G) as [t ->].
  rewrite nth_error_app1 by (rewrite seen_len; exact H).
  unfold get_character_at, seen, chars_available in *.
  destruct (Nat.ltb_spec p (length (putback b))) as [Q|Q].
  - rewrite nth_error_app1 by exact Q.
    destruct (nth_error (putback b) p) eqn:E; [eauto|]. apply nth_error_None in E; lia.
  - rewrite nth_error_app2 by exact Q.
    destruct (nth_error (view b) (p - length (putback b))) eqn:E; [eauto|].
    apply nth_error_None in E; lia.
Qed.

Lemma segment_at D b p : good D b -> (p <= chars_available b)%nat ->
  exists l t, get_segment_starting_at p b = Ok l /\ skipn p D = l ++ t /\
    (p < chars_available b -> l <> [])%nat.
Proof.
  intros G H. destruct (good_seen' D b G) as [t ->].
  unfold get_segment_starting_at, seen, chars_available in *.
  destruct (Nat.ltb_spec p (length (putback b))) as [Q|Q].
  - exists (skipn p (putback b)), (view b ++ t). split; [reflexivity|].
    rewrite <- app_assoc, skipn_le_app by lia. split; [reflexivity|].
    intros _ E. apply (f_equal (@length Z)) in E. rewrite skipn_length in E. cbn in E; lia.
  - destruct (Nat.ltb_spec (length (view b)) (p - length (putback b))) as [Q2|Q2]; [lia|].
    exists (skipn (p - length (putback b)) (view b)), t. split; [reflexivity|].
    rewrite <- app_assoc, skipn_app, skipn_all2 by exact Q. cbn [app].
    rewrite skipn_le_app by exact Q2. split; [reflexivity|].
    intros H2 E. apply (f_equal (@length Z)) in E. rewrite skipn_length in E. cbn in E; lia.
Qed.

Lemma step_right D o b x b' : good D b -> step o b = Ok (x, b') ->
  right D o x /\ good D b' /\ (chars_available b <= chars_available b')%nat /\
  (steady b -> steady b').
Proof.
  intros G. destruct o as [p|p|p|p]; cbn [step].
  - destruct (read_at_ok D p b G) as (ok & b1 & E & G1 & S1 & A1 & R). rewrite E; cbn [bind].
    destruct ok; [|discriminate]. destruct (char_at D b1 p G1 R) as (c & Ec & N).
    rewrite Ec; cbn [bind]. intros [= <- <-]. auto.
  - destruct (read_at_ok D (S p) b G) as (ok & b1 & E & G1 & S1 & A1 & R). rewrite E; cbn [bind].
    intros [= <- <-]. cbn. auto.
  - destruct (read_at_ok D p b G) as (ok & b1 & E & G1 & S1 & A1 & R). rewrite E; cbn [bind].
    intros [= <- <-]. destruct ok; cbn; auto.
    split; [|auto]. apply good_avail in G1; lia.
  - unfold get_segment_starting_at.
    intros H. destruct (get_segment_starting_at p b) eqn:E; cbn [bind] in H; try discriminate;
      unfold get_segment_starting_at in E; rewrite E in H; cbn [bind] in H; try discriminate.
    injection H as <- <-.
    assert (HP : (p <= chars_available b)%nat).
    { unfold chars_available. destruct (Nat.ltb_spec p (length (putback b))); [lia|].
      destruct (Nat.ltb_spec (length (view b)) (p - length (putback b))); [discriminate|lia]. }
    destruct (segment_at D b p G HP) as (l & t & E2 & E3 & _).
    unfold get_segment_starting_at in E2; rewrite E in E2. injection E2 as ->.
    split; [exists t; exact E3|auto].
Qed.

Lemma run_right D : forall ops b xs b', good D b -> run ops b = Ok (xs, b') ->
  Forall2 (right D) ops xs /\ good D b' /\ (chars_available b <= chars_available b')%nat /\
  (steady b -> steady b').
Proof.
  induction ops as [|o ops IH]; intros b xs b' G; cbn [run].
  - intros [= <- <-]; auto.
  - destruct (step o b) as [[x b1]| | |] eqn:E; cbn [bind]; try discriminate.
    destruct (run ops b1) as [[xs1 b2]| | |] eqn:E1; cbn [bind]; try discriminate.
    intros [= <- <-]. destruct (step_right D o b x b1 G E) as (R & G1 & A1 & S1).
    destruct (IH b1 xs1 b2 G1 E1) as (R2 & G2 & A2 & S2).
    split; [constructor; assumption|]. split; [exact G2|]. split; [lia|auto].
Qed.

Lemma step_exact D o b m ops : good D b -> steady b -> (m <= chars_available b)%nat ->
  legal D m (o :: ops) ->
  exists x b', step o b = Ok (x, b') /\ exact D o x /\
    exists m', (m' <= chars_available b')%nat /\ legal D m' ops.
Proof.
  intros G ST HM L. destruct o as [p|p|p|p]; cbn [step legal] in *.
  - destruct (read_at_ok D p b G) as (ok & b1 & E & G1 & S1 & A1 & R). rewrite E; cbn [bind].
    destruct ok; [|destruct R as [R1 R2]; rewrite R2 in R1 by exact ST; lia].
    destruct (char_at D b1 p G1 R) as (c & Ec & N). rewrite Ec; cbn [bind].
    do 2 eexists; split; [reflexivity|]. split; [exact N|].
    exists m. split; [lia|apply L].
  - destruct (read_at_ok D (S p) b G) as (ok & b1 & E & G1 & S1 & A1 & R). rewrite E; cbn [bind].
    do 2 eexists; split; [reflexivity|]. split; [exact I|].
    exists (Nat.max m (S p)). split; [|apply L].
    destruct ok; [lia|]. destruct R as [R1 R2]; rewrite R2 in * by exact ST. lia.
  - destruct (read_at_ok D p b G) as (ok & b1 & E & G1 & S1 & A1 & R). rewrite E; cbn [bind].
    do 2 eexists; split; [reflexivity|]. assert (AD := good_avail D b1 G1). split.
    + unfold exact. destruct ok; cbn [negb]; symmetry.
      * apply Nat.leb_gt. lia.
      * apply Nat.leb_le. destruct R as [R1 R2]; rewrite R2 in R1 by exact ST. lia.
    + exists m. split; [lia|apply L].
  - destruct (segment_at D b p G ltac:(lia)) as (l & t & E2 & E3 & _). rewrite E2; cbn [bind].
    do 2 eexists; split; [reflexivity|]. split; [exists t; exact E3|].
    exists m. split; [lia|apply L].
Qed.

Lemma run_exact D : forall ops m b, good D b -> steady b -> (m <= chars_available b)%nat ->
  legal D m ops ->
  exists xs b', run ops b = Ok (xs, b') /\ Forall2 (exact D) ops xs.
Proof.
  induction ops as [|o ops IH]; intros m b G ST HM L; cbn [run].
  - do 2 eexists; split; [reflexivity|constructor].
  - destruct (step_exact D o b m ops G ST HM L) as (x & b1 & E & X & m' & HM' & L').
    destruct (step_right D o b x b1 G E) as (_ & G1 & _ & S1).
    rewrite E; cbn [bind].
    destruct (IH m' b1 G1 (S1 ST) HM' L') as (xs & b2 & E2 & X2). rewrite E2; cbn [bind].
    do 2 eexists; split; [reflexivity|constructor; assumption].
Qed.

Lemma skipn_nth_error {A} (l : list A) p c : nth_error l p = Some c ->
  skipn p l = c :: skipn (S p) l.
Proof.
  revert p; induction l as [|x l IH]; intros [|p]; cbn; try discriminate.
  - intros [= ->]; reflexivity.
  - intros H. rewrite (IH p H). reflexivity.
Qed.

Lemma collect_ok D : forall fuel p b, good D b -> steady b -> (p <= length D)%nat ->
  (length D < p + fuel)%nat -> exists b', collect fuel p b = Ok (skipn p D, b').
Proof.
  induction fuel as [|fuel IH]; intros p b G ST Hp Hf; cbn [collect]; [lia|].
  destruct (read_at_ok D p b G) as (ok & b1 & E & G1 & S1 & A1 & R). rewrite E; cbn [bind].
    destruct ok.
    + assert (AD := good_avail D b1 G1). destruct (read_at_ok D p b1 G1) as (ok & b2 & E2 & G2 & S2 & A2 & R2). rewrite E2; cbn [bind].
      destruct ok; [|destruct R2; lia].
      destruct (char_at D b2 p G2 R2) as (c & Ec & N). rewrite Ec; cbn [bind].
      destruct (read_at_ok D (S p) b2 G2) as (ok & b3 & E3 & G3 & S3 & A3 & R3).
      rewrite E3; cbn [bind].
      destruct (IH (S p) b3 G3 ltac:(auto) ltac:(lia) ltac:(lia)) as (b4 & E4). rewrite E4; cbn [bind].
      exists b4. rewrite (skipn_nth_error D p c N). reflexivity.
    + destruct R as [R1 R2]; rewrite R2 in R1 by exact ST.
      exists b1. rewrite skipn_all2 by lia. reflexivity.
Qed.

(** ** Synchronising a file with the position reached *)
Lemma putback_all_content : forall l f f', putback_all l f = (true, f') ->
  content f' = rev l ++ content f.
Proof.
  induction l as [|c l IH]; intros f f'; cbn [putback_all].
  - intros [= ->]; reflexivity.
  - unfold ungetc. destruct (room f) as [|n]; [discriminate|].
    intros H. rewrite (IH _ _ H). unfold content; cbn [get_area area reads rev].
    rewrite <- app_assoc. reflexivity.
Qed.
Lemma putback_all_room : forall l f, (length l <= room f)%nat ->
  exists f', putback_all l f = (true, f').
Proof.
  induction l as [|c l IH]; intros f H; cbn [putback_all]; [eauto|].
  unfold ungetc. cbn [length] in H. destruct (room f) as [|n] eqn:E; [lia|].
  apply IH; cbn [room]; lia.
Qed.

Lemma gputback_all_content : forall l f f', gputback_all l f = (true, f') ->
  gcontent f' = rev l ++ gcontent f.
Proof.
  induction l as [|c l IH]; intros f f'; cbn [gputback_all].
  - intros [= ->]; reflexivity.
  - unfold gungetc. destruct (groom f) as [|n]; [discriminate|].
    intros H. rewrite (IH _ _ H). unfold gcontent; cbn [chars received rev].
    rewrite <- app_assoc. reflexivity.
Qed.
Lemma gputback_all_room : forall l f, (length l <= groom f)%nat ->
  exists f', gputback_all l f = (true, f').
Proof.
  induction l as [|c l IH]; intros f H; cbn [gputback_all]; [eauto|].
  unfold gungetc. cbn [length] in H. destruct (groom f) as [|n] eqn:E; [lia|].
  apply IH; cbn [groom]; lia.
Qed.

Definition is_read (o : op) : Prop := match o with Segment _ => False | _ => True end.

(** What stays true of a file buffer while it is read: [R] room, [nn] the get area exists *)
Definition file_kept (R : nat) (nn : Prop) (b : buffer) : Prop :=
  exists f, source b = File f /\ room f = R /\
            (area f <> None \/ chars_available b = O) /\ (nn -> area f <> None).

Lemma fill_kept D R nn b ok b' : good D b -> file_kept R nn b -> fill b = Ok (ok, b') ->
  file_kept R True b'.
Proof.
  intros G (f & ES & ER & _ & _). destruct b as [p v o]; cbn [source] in ES; subst o.
  cbn [fill].
  destruct (match v with [] => Ok f | _ => unsafe_advance_n (length v) f end)
    as [f1| | |] eqn:E1; cbn [bind]; try discriminate.
  assert (R1 : room f1 = R).
  { destruct v as [|c v]; [injection E1 as <-; exact ER|].
    revert E1. unfold unsafe_advance_n. destruct (area f); [|discriminate].
    destruct (_ <? _)%nat; [discriminate|]. intros [= <-]; exact ER. }
  intros [= <- <-].
  assert (A : area (match get_area f1 with [] => fill_buffer f1 | _ => f1 end) <> None).
  { destruct (get_area f1) eqn:EA.
    - unfold fill_buffer. destruct (reads f1); discriminate.
    - unfold get_area in EA. destruct (area f1); discriminate. }
  eexists; split; [reflexivity|]. split; [|split; [left; exact A|intros _; exact A]].
  destruct (get_area f1); [|exact R1]. unfold fill_buffer. destruct (reads f1); exact R1.
Qed.

Lemma read_at_loop_kept D R p : forall fuel nn b ok b', good D b -> file_kept R nn b ->
  read_at_loop fuel p b = Ok (ok, b') -> file_kept R True b'.
Proof.
  induction fuel as [|fuel IH]; intros nn b ok b' G K; cbn [read_at_loop];
    destruct (Nat.ltb_spec p (chars_available b)) as [Q|Q]; try discriminate.
  1, 2: intros [= <- <-]; destruct K as (f & ES & ER & [A|A] & _); [|lia];
    exists f; auto.
  destruct (fill_spec D b G) as (ok1 & b1 & E & G1 & _). rewrite E; cbn [bind].
  assert (K1 := fill_kept D R nn b ok1 b1 G K E).
  destruct ok1.
  - apply IH with (nn := True); assumption.
  - intros [= <- <-]. exact K1.
Qed.

Lemma step_kept D R nn o b x b' : good D b -> file_kept R nn b -> step o b = Ok (x, b') ->
  file_kept R (nn \/ is_read o) b'.
Proof.
  intros G K. assert (W : forall b, file_kept R True b -> file_kept R (nn \/ is_read o) b).
  { intros b0 (f & A & B & C & E). exists f; auto. }
  assert (RD : forall p ok b1, read_at_position p b = Ok (ok, b1) -> file_kept R True b1)
    by (intros p ok b1; apply (read_at_loop_kept D R p _ nn b ok b1 G K)).
  destruct o as [p|p|p|p]; cbn [step].
  - destruct (read_at_position p b) as [[ok b1]| | |] eqn:E; cbn [bind]; try discriminate.
    destruct ok; [|discriminate].
    destruct (get_character_at p b1); cbn [bind]; try discriminate.
    intros [= <- <-]. apply W, (RD p true), E.
  - destruct (read_at_position (S p) b) as [[ok b1]| | |] eqn:E; cbn [bind]; try discriminate.
    intros [= <- <-]. eapply W, RD, E.
  - destruct (read_at_position p b) as [[ok b1]| | |] eqn:E; cbn [bind]; try discriminate.
    intros [= <- <-]. eapply W, RD, E.
  - destruct (get_segment_starting_at p b); cbn [bind]; try discriminate.
    intros [= <- <-]. destruct K as (f & A & B & C & E). exists f. repeat split; auto.
    intros [N|[]]; auto.
Qed.

Lemma run_kept D R : forall ops nn b xs b', good D b -> file_kept R nn b ->
  run ops b = Ok (xs, b') -> file_kept R (nn \/ Exists is_read ops) b'.
Proof.
  induction ops as [|o ops IH]; intros nn b xs b' G K; cbn [run].
  - intros [= <- <-]. destruct K as (f & A & B & C & E). exists f. repeat split; auto.
    intros [N|N]; [auto|inversion N].
  - destruct (step o b) as [[x b1]| | |] eqn:E; cbn [bind]; try discriminate.
    destruct (run ops b1) as [[xs1 b2]| | |] eqn:E1; cbn [bind]; try discriminate.
    intros [= <- <-]. destruct (step_right D o b x b1 G E) as (_ & G1 & _).
    assert (K1 := step_kept D R nn o b x b1 G K E).
    destruct (IH _ b1 xs1 b2 G1 K1 E1) as (f & A & B & C & F). exists f. repeat split; auto.
    intros [N|N]; [auto|]. apply F. inversion N; auto.
Qed.

Lemma file_good f : good (content f) (file_buffer f).
Proof. cbn [good file_buffer]. split; [reflexivity|left; reflexivity]. Qed.
Lemma forward_good s : good s (forward_buffer s).
Proof. reflexivity. Qed.
Lemma getc_good f : good (gcontent f) (getc_buffer f).
Proof. cbn [good getc_buffer]. split; [reflexivity|cbn; lia]. Qed.

Lemma skipn_skipn' {A} x y (l : list A) : skipn x (skipn y l) = skipn (y + x) l.
Proof.
  revert l; induction y as [|y IH]; intros l; [reflexivity|]. destruct l as [|a l].
  - rewrite !skipn_nil; reflexivity.
  - cbn [skipn Nat.add]. apply IH.
Qed.

Lemma sync_content D p v f n b' : good D (Buffer p v (File f)) ->
  sync n (Buffer p v (File f)) = Ok (true, b') ->
  exists f', b' = Buffer p v (File f') /\ content f' = skipn n D.
Proof.
  intros [G Hv]; unfold sync; cbn [source putback view]; unfold sync_file.
  destruct (Nat.ltb_spec n (length p)) as [Q|Q].
  - destruct (putback_all (rev (skipn n p)) f) as [ok f'] eqn:E; cbn [bind].
    intros [= -> <-]. exists f'. split; [reflexivity|].
    rewrite (putback_all_content _ _ _ E), rev_involutive, <- G.
    rewrite skipn_le_app by lia. reflexivity.
  - unfold unsafe_advance_n. destruct (area f) as [a|] eqn:EA; [|discriminate].
    destruct (Nat.ltb_spec (length a) (n - length p)) as [Q2|Q2]; [discriminate|].
    cbn [bind]. intros [= <-]. eexists; split; [reflexivity|].
    rewrite <- G. unfold content, get_area; cbn [area reads]. rewrite EA.
    rewrite skipn_app, (skipn_all2 p) by lia. cbn [app].
    rewrite skipn_le_app by exact Q2. reflexivity.
Qed.

Lemma sync_runs D p v f n : good D (Buffer p v (File f)) -> area f <> None ->
  (n <= chars_available (Buffer p v (File f)))%nat -> (length p <= n + room f)%nat ->
  exists b', sync n (Buffer p v (File f)) = Ok (true, b').
Proof.
  intros [G Hv] NN Hn HR; unfold sync; cbn [source putback view]; unfold sync_file.
  destruct (Nat.ltb_spec n (length p)) as [Q|Q].
  - destruct (putback_all_room (rev (skipn n p)) f) as [f' E].
    { rewrite rev_length, skipn_length. lia. }
    rewrite E; cbn [bind]. eauto.
  - unfold unsafe_advance_n. destruct (area f) as [a|] eqn:EA; [|congruence].
    unfold chars_available in Hn; cbn [putback view] in Hn.
    destruct (Nat.ltb_spec (length a) (n - length p)) as [Q2|Q2]; [|cbn [bind]; eauto].
    destruct Hv as [->|Hv]; [cbn in Hn; lia|]. injection Hv as ->. lia.
Qed.

(** ** Reference buffers *)
(** A reference buffer created inside the put-back buffer of its parent: it does not see the
    current view of the parent until its first fill. *)
Definition lagging (D : list Z) (b : buffer) : Prop :=
  match b with
  | Buffer p v (Ref other start prop) =>
      prop = true /\ p = [] /\ v = skipn start (putback other) /\ v <> [] /\
      view other <> [] /\ exists D', good D' other /\ D = skipn start D'
  | _ => False
  end.

Lemma lag_start D p v other start prop : lagging D (Buffer p v (Ref other start prop)) ->
  (start < length (putback other))%nat.
Proof.
  intros (_ & _ & -> & N & _). destruct (Nat.lt_ge_cases start (length (putback other))); [auto|].
  rewrite skipn_all2 in N by lia. contradiction.
Qed.

Lemma lag_fill D b : lagging D b ->
  exists ok b', fill b = Ok (ok, b') /\ good D b' /\ (steady b -> steady b') /\
    (chars_available b < chars_available b')%nat /\
    (ok = false -> steady b -> chars_available b' = length D).
Proof.
  destruct b as [p v [rest|f|f|other start prop]]; try contradiction. intros L.
  assert (HL := lag_start _ _ _ _ _ _ L).
  destruct L as (-> & -> & -> & N & NV & D' & G & ->).
  destruct (fill_spec D' other G) as (ok & o' & EF & G' & ST & MP & R).
  cbn [fill]. rewrite EF; cbn [bind].
  destruct (Nat.ltb_spec (length (putback o')) start) as [Q|Q]; [lia|].
  assert (HS : skipn start (putback o') ++ view o' = skipn start (seen o')).
  { unfold seen. rewrite skipn_le_app by lia. reflexivity. }
  assert (AV : chars_available (Buffer (skipn start (putback o')) (view o')
                                  (Ref o' start true)) = (chars_available o' - start)%nat).
  { rewrite <- !seen_len. unfold seen at 1; cbn [putback view].
    rewrite HS, skipn_length. reflexivity. }
  assert (NVL : (0 < length (view other))%nat) by (destruct (view other); [congruence|cbn; lia]).
  do 2 eexists; split; [reflexivity|]. split; [|split; [exact ST|split]].
  - cbn [good]. split; [reflexivity|]. exists D'. split; [exact G'|]. split; [reflexivity|].
    split; [unfold seen; rewrite app_length; lia|].
    split; [rewrite skipn_length; lia|]. split; [left; lia|]. exact HS.
  - rewrite AV. unfold chars_available at 1; cbn [putback view length]. rewrite skipn_length.
    destruct ok; [destruct R as [R _]|destruct R as [R _]]; unfold chars_available in *; lia.
  - intros ->. destruct R as [_ R]. cbn [steady]. intros S. specialize (R S).
    rewrite AV, R, skipn_length. reflexivity.
Qed.

Lemma lag_seen D b : lagging D b -> exists t, D = seen b ++ t.
Proof.
  destruct b as [p v [rest|f|f|other start prop]]; try contradiction. intros L.
  assert (HL := lag_start _ _ _ _ _ _ L).
  destruct L as (_ & -> & -> & _ & _ & D' & G & ->). destruct (good_seen' D' other G) as [t ->].
  exists (view other ++ t). unfold seen; cbn [putback view app].
  rewrite <- app_assoc, skipn_le_app by lia. reflexivity.
Qed.

Lemma lag_read D b p : lagging D b -> (chars_available b <= p)%nat ->
  exists ok b', read_at_position p b = Ok (ok, b') /\ good D b' /\ (steady b -> steady b') /\
    (chars_available b < chars_available b')%nat /\
    (p < chars_available b' \/ ok = false /\ (steady b -> chars_available b' = length D))%nat.
Proof.
  intros L Hp. unfold read_at_position.
  destruct (lag_fill D b L) as (ok & b1 & E & G1 & S1 & A1 & R1).
  set (fuel := S (p - chars_available b)).
  cbn [read_at_loop]. destruct (Nat.ltb_spec p (chars_available b)) as [Q|_]; [lia|].
  rewrite E; cbn [bind]. destruct ok.
  - destruct (read_at_loop_ok D p fuel b1 G1 ltac:(lia)) as (ok & b2 & E2 & G2 & S2 & A2 & R2).
    exists ok, b2. split; [exact E2|]. split; [exact G2|]. split; [auto|]. split; [lia|].
    destruct ok; [left; exact R2|right]. split; [reflexivity|]. intros S.
    apply R2. auto.
  - exists false, b1. split; [reflexivity|]. split; [exact G1|]. split; [exact S1|].
    split; [exact A1|]. right. auto.
Qed.

Lemma lag_read_seen p b : (p < chars_available b)%nat -> read_at_position p b = Ok (true, b).
Proof.
  intros H. unfold read_at_position. cbn [read_at_loop].
  apply Nat.ltb_lt in H. rewrite H. reflexivity.
Qed.

Definition usable (D : list Z) (b : buffer) : Prop := good D b \/ lagging D b.

Lemma usable_seen D b : usable D b -> exists t, D = seen b ++ t.
Proof. intros [H|H]; [apply good_seen', H|apply lag_seen, H]. Qed.

Lemma usable_char D b p : usable D b -> (p < chars_available b)%nat ->
  exists c, get_character_at p b = Ok c /\ nth_error D p = Some c.
Proof.
  intros G H. destruct (usable_seen D b G) as [t ->].
  rewrite nth_error_app1 by (rewrite seen_len; exact H).
  unfold get_character_at, seen, chars_available in *.
  destruct (Nat.ltb_spec p (length (putback b))) as [Q|Q].
  - rewrite nth_error_app1 by exact Q.
    destruct (nth_error (putback b) p) eqn:E; [eauto|]. apply nth_error_None in E; lia.
  - rewrite nth_error_app2 by exact Q.
    destruct (nth_error (view b) (p - length (putback b))) eqn:E; [eauto|].
    apply nth_error_None in E; lia.
Qed.

Lemma usable_segment D b p l : usable D b -> get_segment_starting_at p b = Ok l ->
  exists t, skipn p D = l ++ t.
Proof.
  intros G. destruct (usable_seen D b G) as [t ->].
  unfold get_segment_starting_at, seen.
  destruct (Nat.ltb_spec p (length (putback b))) as [Q|Q].
  - intros [= <-]. exists (view b ++ t).
    rewrite <- app_assoc, skipn_le_app by lia. reflexivity.
  - destruct (Nat.ltb_spec (length (view b)) (p - length (putback b))) as [Q2|Q2]; [discriminate|].
    intros [= <-]. exists t.
    rewrite <- app_assoc, skipn_app, skipn_all2 by exact Q. cbn [app].
    rewrite skipn_le_app by exact Q2. reflexivity.
Qed.

Lemma usable_read D b p : usable D b ->
  exists ok b', read_at_position p b = Ok (ok, b') /\ usable D b' /\
    (ok = true -> p < chars_available b')%nat.
Proof.
  intros U. destruct (Nat.lt_ge_cases p (chars_available b)) as [Q|Q].
  - exists true, b. split; [apply lag_read_seen, Q|]. auto.
  - destruct U as [G|L].
    + destruct (read_at_ok D p b G) as (ok & b1 & E & G1 & _ & _ & R).
      exists ok, b1. split; [exact E|]. split; [left; exact G1|]. intros ->; exact R.
    + destruct (lag_read D b p L Q) as (ok & b1 & E & G1 & _ & _ & R).
      exists ok, b1. split; [exact E|]. split; [left; exact G1|]. intros ->.
      destruct R as [R|[R _]]; [exact R|discriminate].
Qed.

Lemma usable_run D : forall ops b xs b', usable D b -> run ops b = Ok (xs, b') ->
  Forall2 (right D) ops xs.
Proof.
  induction ops as [|o ops IH]; intros b xs b' U; cbn [run].
  - intros [= <- <-]; constructor.
  - destruct (step o b) as [[x b1]| | |] eqn:E; cbn [bind]; try discriminate.
    destruct (run ops b1) as [[xs1 b2]| | |] eqn:E1; cbn [bind]; try discriminate.
    intros [= <- <-].
    assert (X : right D o x /\ usable D b1).
    { destruct o as [p|p|p|p]; cbn [step] in E.
      - destruct (usable_read D b p U) as (ok & b3 & E3 & U3 & R). rewrite E3 in E.
        cbn [bind] in E. destruct ok; [|discriminate].
        destruct (usable_char D b3 p U3 (R eq_refl)) as (c & Ec & N). rewrite Ec in E.
        injection E as <- <-. auto.
      - destruct (usable_read D b (S p) U) as (ok & b3 & E3 & U3 & R). rewrite E3 in E.
        injection E as <- <-. cbn; auto.
      - destruct (usable_read D b p U) as (ok & b3 & E3 & U3 & R). rewrite E3 in E.
        injection E as <- <-. destruct ok; cbn; auto. split; [|auto].
        specialize (R eq_refl). destruct (usable_seen D b3 U3) as [t ->].
        rewrite app_length, seen_len. lia.
      - destruct (get_segment_starting_at p b) as [l| | |] eqn:EL; try discriminate.
        injection E as <- <-. split; [|exact U]. apply (usable_segment D b p l U EL). }
    constructor; [apply X|]. apply (IH b1 xs1 b2); [apply X|exact E1].
Qed.

(** Client positions in a lagging buffer are inside what it sees. *)
Definition client (D : list Z) (m : nat) (b : buffer) : Prop :=
  good D b /\ (m <= chars_available b)%nat \/ lagging D b /\ (m < chars_available b)%nat.

Lemma client_run D : forall ops m b, client D m b -> steady b -> legal D m ops ->
  exists xs b', run ops b = Ok (xs, b') /\ Forall2 (exact D) ops xs.
Proof.
  induction ops as [|o ops IH]; intros m b [[G HM]|[LG HM]] ST L.
  1, 2: do 2 eexists; split; [reflexivity|constructor].
  - apply (run_exact D (o :: ops) m b G ST HM L).
  - assert (U : usable D b) by (right; exact LG).
    destruct (usable_seen D b U) as [t HD].
    assert (AL : (chars_available b <= length D)%nat) by (rewrite HD, app_length, seen_len; lia).
    cbn [run]. destruct o as [p|p|p|p]; cbn [step legal] in *.
    + rewrite (lag_read_seen p b) by lia. cbn [bind].
      destruct (usable_char D b p U ltac:(lia)) as (c & Ec & N). rewrite Ec; cbn [bind].
      destruct (IH m b (or_intror (conj LG HM)) ST ltac:(apply L)) as (xs & b' & E & X).
      rewrite E; cbn [bind]. do 2 eexists; split; [reflexivity|]. constructor; assumption.
    + destruct L as (L1 & L2 & L3).
      destruct (Nat.lt_ge_cases (S p) (chars_available b)) as [Q|Q].
      * rewrite (lag_read_seen (S p) b) by lia. cbn [bind].
        destruct (IH (Nat.max m (S p)) b) as (xs & b' & E & X); auto.
        { right. split; [exact LG|lia]. }
        rewrite E; cbn [bind]. do 2 eexists; split; [reflexivity|]. constructor; [exact I|assumption].
      * destruct (lag_read D b (S p) LG Q) as (ok & b1 & E & G1 & S1 & A1 & R).
        rewrite E; cbn [bind].
        destruct (IH (Nat.max m (S p)) b1) as (xs & b' & E2 & X); auto.
        { left. split; [exact G1|]. lia. }
        rewrite E2; cbn [bind]. do 2 eexists; split; [reflexivity|]. constructor; [exact I|assumption].
    + rewrite (lag_read_seen p b) by lia. cbn [bind].
      destruct (IH m b (or_intror (conj LG HM)) ST ltac:(apply L)) as (xs & b' & E & X).
      rewrite E; cbn [bind]. do 2 eexists; split; [reflexivity|]. constructor; [|assumption].
      cbn. symmetry. apply Nat.leb_gt. lia.
    + destruct (get_segment_starting_at p b) as [l| | |] eqn:EL.
      * cbn [bind]. destruct (IH m b (or_intror (conj LG HM)) ST ltac:(apply L)) as (xs & b' & E & X).
        rewrite E; cbn [bind]. do 2 eexists; split; [reflexivity|]. constructor; [|assumption].
        apply (usable_segment D b p l U EL).
      * unfold get_segment_starting_at in EL. destruct (_ <? _)%nat; [discriminate|].
        destruct (_ <? _)%nat; discriminate.
      * unfold get_segment_starting_at in EL.
        destruct (Nat.ltb_spec p (length (putback b))); [discriminate|].
        destruct (Nat.ltb_spec (length (view b)) (p - length (putback b))); [|discriminate].
        unfold chars_available in HM; lia.
      * unfold get_segment_starting_at in EL. destruct (_ <? _)%nat; [discriminate|].
        destruct (_ <? _)%nat; discriminate.
Qed.

Lemma client_collect D : forall fuel p b, client D p b -> steady b -> (p <= length D)%nat ->
  (length D < p + fuel)%nat -> exists b', collect fuel p b = Ok (skipn p D, b').
Proof.
  induction fuel as [|fuel IH]; intros p b [[G HM]|[LG HM]] ST Hp Hf; try lia.
  - apply (collect_ok D (S fuel) p b G ST Hp Hf).
  - assert (U : usable D b) by (right; exact LG).
    destruct (usable_seen D b U) as [t HD].
    assert (AL : (chars_available b <= length D)%nat) by (rewrite HD, app_length, seen_len; lia).
    cbn [collect]. rewrite (lag_read_seen p b) by lia. cbn [bind].
    rewrite (lag_read_seen p b) by lia. cbn [bind].
    destruct (usable_char D b p U ltac:(lia)) as (c & Ec & N). rewrite Ec; cbn [bind].
    rewrite (skipn_nth_error D p c N).
    destruct (Nat.lt_ge_cases (S p) (chars_available b)) as [Q|Q].
    + rewrite (lag_read_seen (S p) b) by lia. cbn [bind].
      destruct (IH (S p) b) as (b' & E); auto; try lia.
      { right. split; [exact LG|lia]. }
      rewrite E; cbn [bind]. eauto.
    + destruct (lag_read D b (S p) LG Q) as (ok & b1 & E & G1 & S1 & A1 & R).
      rewrite E; cbn [bind].
      destruct (IH (S p) b1) as (b' & E2); auto; try lia.
      { left. split; [exact G1|]. lia. }
      rewrite E2; cbn [bind]. eauto.
Qed.

Lemma make_ref_usable D b pos : good D b -> (pos <= chars_available b)%nat ->
  (putback b = [] /\ (pos = O \/ moves b)) \/ (pos < length (putback b))%nat ->
  exists r, make_ref b pos = Ok r /\ client (skipn pos D) 0 r /\ (steady b -> steady r).
Proof.
  intros G Hp H. unfold make_ref. destruct (segment_at D b pos G Hp) as (l & t & E & _ & _).
  rewrite E; cbn [bind]. eexists; split; [reflexivity|]. split; [|auto].
  unfold get_segment_starting_at in E. unfold client.
  destruct H as [[H1 H2]|H1].
  - left. split; [|lia]. cbn [good]. rewrite H1 in *.
    replace (pos <? @length Z [])%nat with false in E by (symmetry; apply Nat.ltb_ge; cbn; lia).
    change (@length Z []) with O in E. rewrite Nat.sub_0_r in E. cbv zeta in E.
    destruct (length (view b) <? pos)%nat; [discriminate|].
    injection E as <-. split; [reflexivity|]. exists D. split; [exact G|]. split; [reflexivity|].
    split; [rewrite seen_len; exact Hp|]. split; [cbn; lia|].
    split; [destruct H2 as [->|H2]; [left; cbn; lia|right; exact H2]|].
    unfold seen. rewrite H1. reflexivity.
  - assert (Q := proj2 (Nat.ltb_lt _ _) H1). rewrite Q in E |- *. injection E as <-.
    assert (HL : (0 < length (skipn pos (putback b)))%nat) by (rewrite skipn_length; lia).
    assert (PT : match putback b with [] => true | _ => true end = true)
      by (destruct (putback b); reflexivity).
    destruct (view b) as [|c v] eqn:EV.
    + left. split; [|lia]. cbn [good]. split; [exact PT|]. exists D. split; [exact G|].
      split; [reflexivity|]. split; [rewrite seen_len; exact Hp|]. split; [cbn; lia|].
      split; [left; lia|]. unfold seen. rewrite EV, app_nil_r. reflexivity.
    + right. split; [|unfold chars_available; cbn [putback view length]; lia].
      cbn [lagging]. split; [exact PT|]. split; [reflexivity|]. split; [reflexivity|].
      split; [destruct (skipn pos (putback b)); [cbn in HL; lia|discriminate]|].
      split; [rewrite EV; discriminate|]. exists D. auto.
Qed.

Lemma getc_moves D b f : good D b -> source b = Getc f -> moves b.
Proof.
  intros G. destruct b as [p v o]; cbn [source]; intros ->. unfold moves, seen; cbn [fill].
  unfold read_one. destruct (chars f) as [|[c|] cs]; do 2 eexists; (split; [reflexivity|]);
    cbn [putback view]; lia.
Qed.
Lemma file_moves D b f : good D b -> source b = File f -> moves b.
Proof.
  intros G ES. destruct (fill_spec D b G) as (ok & b' & E & _). exists ok, b'.
  split; [exact E|]. destruct b as [p v o]; cbn [source] in ES; subst o. revert E; cbn [fill].
  destruct (match v with [] => Ok f | _ => unsafe_advance_n (length v) f end)
    as [f1| | |]; cbn [bind]; try discriminate.
  intros [= <- <-]. unfold seen; cbn [putback view]. lia.
Qed.

Lemma getc_kept_fill D b ok b' R : good D b -> (exists f, source b = Getc f /\ groom f = R) ->
  fill b = Ok (ok, b') -> exists f, source b' = Getc f /\ groom f = R.
Proof.
  intros G (f & ES & ER). destruct b as [p v o]; cbn [source] in ES; subst o. cbn [fill].
  unfold read_one. destruct (chars f) as [|[c|] cs]; intros [= <- <-]; cbn [source];
    eexists; split; try reflexivity; exact ER.
Qed.

Lemma getc_kept_read D R p : forall fuel b ok b', good D b ->
  (exists f, source b = Getc f /\ groom f = R) ->
  read_at_loop fuel p b = Ok (ok, b') -> exists f, source b' = Getc f /\ groom f = R.
Proof.
  induction fuel as [|fuel IH]; intros b ok b' G K; cbn [read_at_loop];
    destruct (Nat.ltb_spec p (chars_available b)) as [Q|Q]; try discriminate.
  1, 2: intros [= <- <-]; exact K.
  destruct (fill_spec D b G) as (ok1 & b1 & E & G1 & _). rewrite E; cbn [bind].
  assert (K1 := getc_kept_fill D b ok1 b1 R G K E).
  destruct ok1; [apply IH; assumption|]. intros [= <- <-]. exact K1.
Qed.

Lemma getc_kept D R : forall ops b xs b', good D b ->
  (exists f, source b = Getc f /\ groom f = R) ->
  run ops b = Ok (xs, b') -> exists f, source b' = Getc f /\ groom f = R.
Proof.
  induction ops as [|o ops IH]; intros b xs b' G K; cbn [run].
  - intros [= <- <-]. exact K.
  - destruct (step o b) as [[x b1]| | |] eqn:E; cbn [bind]; try discriminate.
    destruct (run ops b1) as [[xs1 b2]| | |] eqn:E1; cbn [bind]; try discriminate.
    intros [= <- <-]. destruct (step_right D o b x b1 G E) as (_ & G1 & _).
    apply (IH b1 xs1 b2 G1); [|exact E1].
    assert (RD : forall p ok b1, read_at_position p b = Ok (ok, b1) ->
                 exists f, source b1 = Getc f /\ groom f = R)
      by (intros p ok b3; apply (getc_kept_read D R p _ b ok b3 G K)).
    destruct o as [p|p|p|p]; cbn [step] in E.
    + destruct (read_at_position p b) as [[ok b3]| | |] eqn:E3; cbn [bind] in E; try discriminate.
      destruct ok; [|discriminate].
      destruct (get_character_at p b3); cbn [bind] in E; try discriminate.
      injection E as <- <-. eapply RD, E3.
    + destruct (read_at_position (S p) b) as [[ok b3]| | |] eqn:E3; cbn [bind] in E;
        try discriminate. injection E as <- <-. eapply RD, E3.
    + destruct (read_at_position p b) as [[ok b3]| | |] eqn:E3; cbn [bind] in E;
        try discriminate. injection E as <- <-. eapply RD, E3.
    + destruct (get_segment_starting_at p b); cbn [bind] in E; try discriminate.
      injection E as <- <-. exact K.
Qed.

Lemma getc_sync D p v f n : good D (Buffer p v (Getc f)) ->
  (n <= chars_available (Buffer p v (Getc f)))%nat ->
  (v <> [] \/ n = chars_available (Buffer p v (Getc f))) ->
  (chars_available (Buffer p v (Getc f)) <= n + groom f)%nat ->
  exists f', sync n (Buffer p v (Getc f)) = Ok (true, Buffer p v (Getc f')) /\
             gcontent f' = skipn n D.
Proof.
  unfold sync, sync_getc, chars_available; cbn [source putback view].
  intros [G Hv] Hn Hw HR.
  destruct (Nat.eqb_spec n (length p + length v)) as [->|Q].
  - cbn [bind]. eexists; split; [reflexivity|]. rewrite <- G, app_assoc, <- app_length.
    rewrite skipn_len_app. reflexivity.
  - destruct Hw as [Hw|Hw]; [|contradiction].
    destruct v as [|c [|d v]]; [contradiction| |cbn in Hv; lia].
    cbn [length] in *. unfold gungetc. destruct (groom f) as [|r] eqn:ER; [lia|].
    destruct (Nat.ltb_spec (length p) n) as [Q2|Q2]; [lia|].
    destruct (gputback_all_room (rev (skipn n p)) (GStream (Some c :: chars f) r)) as [f' E].
    { rewrite rev_length, skipn_length. cbn [groom]. lia. }
    rewrite E; cbn [bind]. exists f'. split; [reflexivity|].
    rewrite (gputback_all_content _ _ _ E), rev_involutive, <- G.
    rewrite skipn_le_app by lia. unfold gcontent; cbn [chars received]. reflexivity.
Qed.

(** Buffers of ranges and reference buffers stay so. *)
Definition no_stream (b : buffer) : Prop :=
  match source b with File _ | Getc _ => False | _ => True end.
Lemma no_stream_fill b ok b' : no_stream b -> fill b = Ok (ok, b') -> no_stream b'.
Proof.
  destruct b as [p v [[|c rest]|f|f|b0 start [|]]]; unfold no_stream; cbn [fill source]; intros N.
  - intros [= <- <-]. exact N.
  - intros [= <- <-]. exact N.
  - contradiction.
  - contradiction.
  - destruct (fill b0) as [[ret b1]| | |]; cbn [bind]; try discriminate.
    destruct (_ <? _)%nat; [discriminate|]. intros [= <- <-]. exact N.
  - intros [= <- <-]. exact N.
Qed.
Lemma no_stream_read p : forall fuel b ok b', no_stream b ->
  read_at_loop fuel p b = Ok (ok, b') -> no_stream b'.
Proof.
  induction fuel as [|fuel IH]; intros b ok b' K; cbn [read_at_loop];
    destruct (p <? chars_available b)%nat; try discriminate.
  1, 2: intros [= <- <-]; exact K.
  destruct (fill b) as [[ok1 b1]| | |] eqn:E; cbn [bind]; try discriminate.
  assert (K1 := no_stream_fill b ok1 b1 K E).
  destruct ok1; [apply IH; assumption|]. intros [= <- <-]. exact K1.
Qed.
Lemma no_stream_run : forall ops b xs b', no_stream b -> run ops b = Ok (xs, b') -> no_stream b'.
Proof.
  induction ops as [|o ops IH]; intros b xs b' K; cbn [run].
  - intros [= <- <-]. exact K.
  - destruct (step o b) as [[x b1]| | |] eqn:E; cbn [bind]; try discriminate.
    destruct (run ops b1) as [[xs1 b2]| | |] eqn:E1; cbn [bind]; try discriminate.
    intros [= <- <-]. apply (IH b1 xs1 b2); [|exact E1].
    assert (RD : forall p ok b1, read_at_position p b = Ok (ok, b1) -> no_stream b1)
      by (intros p ok b3; apply (no_stream_read p _ b ok b3 K)).
    destruct o as [p|p|p|p]; cbn [step] in E.
    + destruct (read_at_position p b) as [[ok b3]| | |] eqn:E3; cbn [bind] in E; try discriminate.
      destruct ok; [|discriminate].
      destruct (get_character_at p b3); cbn [bind] in E; try discriminate.
      injection E as <- <-. eapply RD, E3.
    + destruct (read_at_position (S p) b) as [[ok b3]| | |] eqn:E3; cbn [bind] in E;
        try discriminate. injection E as <- <-. eapply RD, E3.
    + destruct (read_at_position p b) as [[ok b3]| | |] eqn:E3; cbn [bind] in E;
        try discriminate. injection E as <- <-. eapply RD, E3.
    + destruct (get_segment_starting_at p b); cbn [bind] in E; try discriminate.
      injection E as <- <-. exact K.
Qed.
