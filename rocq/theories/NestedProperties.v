(** Property C72: an object scanned with a nested scan takes what its parts would take if they
    stood in the format string. *)
From Verif Require Import Prelude UnicodeModel ReadModel ReadProofs SpecsModel ArgsModel FormatModel FormatSpec
  VscanModel VscanSpec VscanProofs VscanSpecProofs CheckerProofs IntModel VscanProperties TwoStepsProperties NestedModel.
Import Coq.Strings.String.StringSyntax.
Local Open Scope list_scope.
Local Open Scope Z_scope.

(** The format string does not begin with white space. *)
Definition no_leading_space {D} (ts : list (gtoken D)) : Prop :=
  match ts with Lit c :: _ => is_ws c = false | _ => True end.

(** Values of the arguments [i], [i] + 1, ... *)
Definition numbered {V} (i : Z) (vs : list V) : list (Z * V) := combine (zseq i (List.length vs)) vs.

(** A run as a function on states: number of fields, whether white space came last, the
    source, and the values. *)
Section Go.
Variable V : Type.
Variable e : enc.
Context {D : Type}.
Notation token := (gtoken D).
Notation reader := (Z -> option D -> list Z -> outcome (V * list Z)).
Record gstate := G { g_next : Z; g_ws : bool; g_src : list Z; g_log : list (Z * V) }.
Definition go1 (read : reader) (t : token) (g : gstate) : option gstate :=
  match t with
  | Lit c =>
      if is_ws c then
        if g_ws g then Some g
        else match g_src g with
             | [] => None
             | _ => Some (G (g_next g) true (drop_space e (g_src g)) (g_log g))
             end
      else match g_src g with
           | d :: s' => if d =? c then Some (G (g_next g) false s' (g_log g)) else None
           | [] => None
           end
  | Field _ d =>
      match read (g_next g) d (g_src g) with
      | Ok (v, s') => Some (G (g_next g + 1) false s' (g_log g ++ [(g_next g, v)]))
      | _ => None
      end
  end.
Fixpoint go (read : reader) (ts : list token) (g : gstate) : option gstate :=
  match ts with
  | [] => Some g
  | t :: ts' => match go1 read t g with Some g' => go read ts' g' | None => None end
  end.
Definition fields (ts : list token) : Z :=
  Z.of_nat (length (filter (fun t => match t with Field _ _ => true | _ => false end) ts)).

Lemma go_app read a b g : go read (a ++ b) g = match go read a g with Some g' => go read b g' | None => None end.
Proof. revert g. induction a as [|t a IH]; intros g; cbn; [reflexivity|]. destruct (go1 read t g); [apply IH|reflexivity]. Qed.
Lemma fields_cons t ts : fields (t :: ts) = (match t with Field _ _ => 1 | _ => 0 end) + fields ts.
Proof. unfold fields. destruct t; cbn [filter length]; lia. Qed.
Lemma fields_pos ts : 0 <= fields ts.
Proof. unfold fields. lia. Qed.
Lemma go1_next read t g g' : go1 read t g = Some g' -> g_next g' = g_next g + match t with Field _ _ => 1 | _ => 0 end.
Proof.
  destruct t as [c|id d]; cbn [go1].
  - destruct (is_ws c).
    + destruct (g_ws g); [intros [= <-]; lia|]. destruct (g_src g); [discriminate|]. intros [= <-]; cbn; lia.
    + destruct (g_src g); [discriminate|]. destruct (_ =? c); [|discriminate]. intros [= <-]; cbn; lia.
  - destruct (read _ _ _) as [[v s]| | |]; try discriminate. intros [= <-]; cbn; lia.
Qed.
Lemma go_next read ts : forall g g', go read ts g = Some g' -> g_next g' = g_next g + fields ts.
Proof.
  induction ts as [|t ts IH]; intros g g'; cbn [go].
  - intros [= <-]. unfold fields. cbn. lia.
  - destruct (go1 read t g) as [g1|] eqn:E1; [|discriminate]. intros E. apply IH in E. apply go1_next in E1. rewrite fields_cons. lia.
Qed.

(** Success of a run, in these terms. *)
Lemma run_go n read f ts : automatic ts -> forall next used ws s log x, 0 <= next <= n ->
  (forall i, In i used <-> 0 <= i < next) ->
  run V e n read false f ts next used ws s log = Ok x <->
  exists ws', go read ts (G next ws s log) = Some (G n ws' (snd x) (fst x)).
Proof.
  induction ts as [|[c|id d] ts IH]; intros Ha next used ws s log [l s'] Hn Hu; cbn [run go go1 g_ws g_src g_next g_log fst snd].
  - destruct (covers n used) eqn:EC; [rewrite covers_all in EC|].
    + assert (next = n).
      { destruct (Z.eq_dec next n); [assumption|]. exfalso. assert (HX := EC next ltac:(lia)). apply Hu in HX. lia. }
      subst next. split; [intros [= <- <-]; exists ws; reflexivity|intros [ws' [= _ <- <-]]; reflexivity].
    + split; [discriminate|]. intros [ws' [= -> _ _ _]]. exfalso. apply Bool.not_true_iff_false in EC. apply EC, covers_all.
      intros i Hi. apply Hu. exact Hi.
  - assert (Ha' : automatic ts) by (intros i x Hin; apply (Ha i x); right; exact Hin).
    destruct (is_ws c).
    + destruct ws; [rewrite (IH Ha' next used true s log (l, s') Hn Hu); reflexivity|].
      destruct s as [|y s]; [split; [discriminate|intros [? [=]]]|].
      rewrite (IH Ha' next used true _ log (l, s') Hn Hu). reflexivity.
    + destruct s as [|y s]; [split; [discriminate|intros [? [=]]]|]. destruct (y =? c); [|split; [discriminate|intros [? [=]]]].
      rewrite (IH Ha' next used false s log (l, s') Hn Hu). reflexivity.
  - assert (Ha' : automatic ts) by (intros i x Hin; apply (Ha i x); right; exact Hin).
    rewrite (Ha id d) by (left; reflexivity).
    destruct ((n <=? next) || existsb (Z.eqb next) used) eqn:EC.
    + split; [discriminate|]. intros [ws' E]. exfalso.
      apply orb_true_iff in EC. destruct EC as [EC|EC]; [|apply existsb_In, Hu in EC; lia].
      destruct (read next d s) as [[v s1]| | |]; try discriminate. apply go_next in E. cbn [g_next] in E.
      assert (HX := fields_pos ts). lia.
    + apply orb_false_iff in EC. destruct EC as [EC1 EC2].
      destruct (read next d s) as [[v s1]| | |]; [|split; [discriminate|intros [? [=]]]..].
      rewrite (IH Ha' (next + 1) (next :: used) false s1 _ (l, s')); [reflexivity|lia|]. intros i. cbn. rewrite Hu. lia.
Qed.

(** The same tokens for arguments further on. *)
Definition gshift (k : Z) (pre : list (Z * V)) (g : gstate) : gstate :=
  G (k + g_next g) (g_ws g) (g_src g) (pre ++ shift k (g_log g)).
Lemma go_shift k pre n read read' : (forall i d s, 0 <= i < n -> read' (k + i) d s = read i d s) ->
  forall ts g, 0 <= g_next g -> g_next g + fields ts <= n ->
  go read' ts (gshift k pre g) = option_map (gshift k pre) (go read ts g).
Proof.
  intros HR. induction ts as [|t ts IH]; intros g Hg Hn; [reflexivity|]. cbn [go].
  assert (E1 : go1 read' t (gshift k pre g) = option_map (gshift k pre) (go1 read t g)).
  { destruct t as [c|id d]; cbn [go1].
    - cbn [gshift g_ws g_src g_next g_log]. destruct (is_ws c).
      + destruct (g_ws g); [reflexivity|]. destruct (g_src g); reflexivity.
      + destruct (g_src g); [reflexivity|]. destruct (_ =? c); reflexivity.
    - cbn [gshift g_ws g_src g_next g_log]. rewrite fields_cons in Hn. assert (HX := fields_pos ts). rewrite HR by lia.
      destruct (read _ _ _) as [[v s]| | |]; try reflexivity. unfold gshift. cbn [option_map g_next g_ws g_src g_log].
      unfold shift. rewrite map_app, app_assoc. cbn [map fst snd]. f_equal. f_equal. lia. }
  rewrite E1. destruct (go1 read t g) as [g1|] eqn:E; [|reflexivity]. cbn [option_map]. apply go1_next in E. rewrite fields_cons in Hn.
  apply IH; destruct t; lia.
Qed.
Lemma go_same n read read' : (forall i d s, 0 <= i < n -> read' i d s = read i d s) ->
  forall ts g, 0 <= g_next g -> g_next g + fields ts <= n -> go read' ts g = go read ts g.
Proof.
  intros HR. induction ts as [|t ts IH]; intros g Hg Hn; [reflexivity|]. cbn [go].
  assert (E1 : go1 read' t g = go1 read t g).
  { destruct t as [c|id d]; cbn [go1]; [reflexivity|]. rewrite fields_cons in Hn. assert (HX := fields_pos ts). rewrite HR by lia. reflexivity. }
  rewrite E1. destruct (go1 read t g) as [g1|] eqn:E; [|reflexivity]. apply go1_next in E. rewrite fields_cons in Hn.
  apply IH; destruct t; lia.
Qed.

(** White space already skipped. *)
Definition skipped (g : gstate) : Prop := g_ws g = true -> drop_space e (g_src g) = g_src g.
Definition upto_ws (g g' : gstate) : Prop := g_next g' = g_next g /\ g_src g' = g_src g /\ g_log g' = g_log g.
Lemma go1_skipped read t g g' : skipped g -> go1 read t g = Some g' -> skipped g'.
Proof.
  unfold skipped. intros Hg. destruct t as [c|id d]; cbn [go1].
  - destruct (is_ws c).
    + destruct (g_ws g) eqn:EW; [intros [= <-]; rewrite EW in *; exact Hg|]. destruct (g_src g) as [|y s] eqn:ES; [discriminate|]. intros [= <-] _. cbn [g_src]. apply drop_space_idem.
    + destruct (g_src g); [discriminate|]. destruct (_ =? c); [|discriminate]. intros [= <-] [=].
  - destruct (read _ _ _) as [[v s]| | |]; try discriminate. intros [= <-] [=].
Qed.
Lemma go_skipped read ts : forall g g', skipped g -> go read ts g = Some g' -> skipped g'.
Proof.
  induction ts as [|t ts IH]; intros g g' Hg; cbn [go]; [intros [= <-]; exact Hg|].
  destruct (go1 read t g) as [g1|] eqn:E1; [|discriminate]. intros E. eapply IH; [|exact E]. eapply go1_skipped; eassumption.
Qed.
(** A run from a state behind white space does what it does from the same state otherwise. *)
Lemma go_after read ts next ws s log g' : skipped (G next ws s log) ->
  go read ts (G next false s log) = Some g' -> exists g'', go read ts (G next ws s log) = Some g'' /\ upto_ws g' g''.
Proof.
  intros Hs. destruct ws; [|intros E; exists g'; repeat split; exact E].
  destruct ts as [|t ts]; cbn [go].
  - intros [= <-]. eexists. repeat split.
  - intros E. exists g'. split; [|repeat split]. revert E. destruct t as [c|id d]; cbn [go1 g_ws g_src g_next g_log]; [|auto].
    destruct (is_ws c); [|auto]. destruct s as [|y s]; [discriminate|]. rewrite Hs by reflexivity. auto.
Qed.
Lemma go_before read ts next ws s log g' : no_leading_space ts ->
  go read ts (G next ws s log) = Some g' -> exists g'', go read ts (G next false s log) = Some g'' /\ upto_ws g' g''.
Proof.
  destruct ts as [|t ts]; cbn [go no_leading_space].
  - intros _ [= <-]. eexists. repeat split.
  - intros Hn E. exists g'. split; [|repeat split]. revert E. destruct t as [c|id d]; cbn [go1 g_ws g_src g_next g_log]; [|auto].
    rewrite Hn. auto.
Qed.
(** Position and values after a run. *)
Lemma go_src (P : list Z -> Prop) read ts : (forall s, P s -> P (drop_space e s)) -> (forall c s, P (c :: s) -> P s) ->
  (forall i d s v s', P s -> read i d s = Ok (v, s') -> P s') ->
  forall g g', P (g_src g) -> go read ts g = Some g' -> P (g_src g').
Proof.
  intros H1 H2 H3. induction ts as [|t ts IH]; intros g g' Hg; cbn [go]; [intros [= <-]; exact Hg|].
  destruct (go1 read t g) as [g1|] eqn:E1; [|discriminate]. apply IH. revert E1. destruct t as [c|id d]; cbn [go1].
  - destruct (is_ws c).
    + destruct (g_ws g); [intros [= <-]; exact Hg|]. destruct (g_src g) as [|y s] eqn:ES; [discriminate|]. intros [= <-]. cbn [g_src]. rewrite <- ES in *. auto.
    + destruct (g_src g) as [|y s]; [discriminate|]. destruct (_ =? c); [|discriminate]. intros [= <-]. cbn. eauto.
  - destruct (read _ _ _) as [[v s]| | |] eqn:ER; try discriminate. intros [= <-]. cbn. eauto.
Qed.
Lemma go_log read ts : forall g g', go read ts g = Some g' ->
  exists l, g_log g' = g_log g ++ l /\ map fst l = zseq (g_next g) (Z.to_nat (fields ts)).
Proof.
  induction ts as [|t ts IH]; intros g g'; cbn [go].
  - intros [= <-]. exists []. rewrite app_nil_r. split; reflexivity.
  - destruct (go1 read t g) as [g1|] eqn:E1; [|discriminate]. intros E. apply IH in E. destruct E as (l & -> & Hl).
    assert (HN := go1_next _ _ _ _ E1). rewrite fields_cons. destruct t as [c|id d].
    + exists l. split; [|rewrite Hl; f_equal; lia]. f_equal. revert E1. cbn [go1]. destruct (is_ws c).
      * destruct (g_ws g); [intros [= <-]; reflexivity|]. destruct (g_src g); [discriminate|]. intros [= <-]. reflexivity.
      * destruct (g_src g); [discriminate|]. destruct (_ =? c); [|discriminate]. intros [= <-]. reflexivity.
    + revert E1. cbn [go1]. destruct (read _ _ _) as [[v s]| | |]; try discriminate. intros [= <-]. cbn [g_log g_next] in *.
      exists ((g_next g, v) :: l). rewrite <- app_assoc. split; [reflexivity|]. cbn [map fst]. rewrite Hl.
      assert (HF := fields_pos ts). replace (Z.to_nat (1 + fields ts)) with (S (Z.to_nat (fields ts))) by lia. reflexivity.
Qed.
End Go.

Lemma zseq_length : forall n i, List.length (zseq i n) = n.
Proof. induction n; intros i; cbn; auto. Qed.
Lemma numbered_app {V} (a b : list V) : forall i, numbered i (a ++ b) = numbered i a ++ numbered (i + Z.of_nat (List.length a)) b.
Proof.
  unfold numbered. induction a as [|x a IH]; intros i; cbn [app List.length zseq combine].
  - f_equal. f_equal. lia.
  - rewrite IH. cbn. do 4 f_equal. lia.
Qed.
Lemma shift_numbered {V} k (vs : list V) : forall i, shift k (numbered i vs) = numbered (k + i) vs.
Proof.
  unfold numbered, shift. induction vs as [|x vs IH]; intros i; cbn; [reflexivity|]. rewrite IH. do 3 f_equal. lia.
Qed.
Lemma numbered_of {V} (l : list (Z * V)) : forall i n, map fst l = zseq i n -> l = numbered i (map snd l) /\ List.length (map snd l) = n.
Proof.
  unfold numbered. induction l as [|[j v] l IH]; intros i [|n]; cbn; try discriminate; auto. intros [= -> E]. apply IH in E.
  destruct E as [E1 E2]. rewrite <- E1, E2. auto.
Qed.
Lemma stored_numbered {V} (vs : list V) : stored (List.length vs) (numbered 0 vs) = vs.
Proof.
  unfold stored. assert (G : forall i pre, (forall p, In p pre -> fst p < i) ->
    flat_map (fun k => map snd (filter (fun p => fst p =? k) (pre ++ numbered i vs))) (zseq i (List.length vs)) = vs).
  { induction vs as [|v vs IH]; intros i pre Hp; [reflexivity|]. cbn [List.length zseq flat_map numbered combine].
    change (combine (zseq (i + 1) (List.length vs)) vs) with (numbered (i + 1) vs).
    rewrite filter_app, map_app. cbn [filter fst]. rewrite Z.eqb_refl. cbn [map snd].
    assert (E0 : filter (fun p : Z * V => fst p =? i) pre = []).
    { clear -Hp. induction pre as [|p pre IH]; [reflexivity|]. cbn. rewrite IH by (intros q Hq; apply Hp; right; exact Hq).
      assert (HX := Hp p (or_introl eq_refl)). destruct (Z.eqb_spec (fst p) i); [lia|reflexivity]. }
    assert (E1 : forall k, i < k -> filter (fun p : Z * V => fst p =? i) (numbered k vs) = []).
    { unfold numbered. clear. generalize vs. intros l. induction l as [|x l IH]; intros k Hk; cbn; [reflexivity|].
      destruct (Z.eqb_spec k i); [lia|]. apply IH. lia. }
    rewrite E0, E1 by lia. cbn [map app]. f_equal. 
    specialize (IH (i + 1) (pre ++ [(i, v)])). rewrite <- app_assoc in IH. apply IH.
    intros p Hin. apply in_app_or in Hin. destruct Hin as [Hin|[<-|[]]]; [specialize (Hp _ Hin); lia|cbn; lia]. }
  apply (G 0 []). intros p [].
Qed.

Section Splice.
Variable V : Type.
Variable r : src.
Variable cf : config.
Variable args1 parts args3 : list (arg V).
Variable ts1 ts2 ts3 : list token.
Variable build : list V -> V.
Variable source : list Z.
Notation obj := (nested_arg V r cf parts (render (s_enc r) ts2) build).
Notation n1 := (Z.of_nat (List.length args1)).
Notation n2 := (Z.of_nat (List.length parts)).
Notation n3 := (Z.of_nat (List.length args3)).
Hypothesis A1 : automatic ts1.
Hypothesis A2 : automatic ts2.
Hypothesis A3 : automatic ts3.
Hypothesis F1 : fields ts1 = n1.
Hypothesis F2 : fields ts2 = n2.
Hypothesis S2 : setup r cf parts ts2 source.
Hypothesis SN : setup r cf (args1 ++ obj :: args3) (ts1 ++ Field None None :: ts3) source.
Hypothesis SF : setup r cf (args1 ++ parts ++ args3) (ts1 ++ ts2 ++ ts3) source.
Notation e := (s_enc r).
Notation rd a := (meant e (read_arg V a)).

Lemma auto_app (a b : list token) : automatic a -> automatic b -> automatic (a ++ b).
Proof. intros H1 H2 id d Hin. apply in_app_or in Hin. destruct Hin; [eapply H1|eapply H2]; eassumption. Qed.
Lemma vscan_go (a : list (arg V)) ts s log rest : automatic ts -> setup r cf a ts s ->
  vscan V r cf a (render e ts) s = Ok (log, rest) <->
  exists ws, go V e (rd a) ts (G V 0 false s []) = Some (G V (Z.of_nat (List.length a)) ws rest log).
Proof.
  intros HA HS. rewrite C18_tokens_partial by exact HS. unfold expected, scan_spec.
  rewrite run_go; [reflexivity|exact HA|lia|]. intros i. cbn. lia.
Qed.
Lemma setup_at s : units e s -> setup r cf parts ts2 s.
Proof. intros Hu. destruct S2 as (H1 & H2 & H3 & H4 & H5 & H6 & H7 & _). repeat split; try assumption; apply H2. Qed.
Lemma rd_first a b i d s : 0 <= i < Z.of_nat (List.length a) -> rd (a ++ b) i d s = rd a i d s.
Proof. intros Hi. unfold meant, read_arg. rewrite nth_error_app1 by lia. reflexivity. Qed.
Lemma rd_second a b i d s : 0 <= i -> rd (a ++ b) (Z.of_nat (List.length a) + i) d s = rd b i d s.
Proof.
  intros Hi. unfold meant, read_arg. rewrite nth_error_app2 by lia.
  replace (Z.to_nat (Z.of_nat (List.length a) + i) - List.length a)%nat with (Z.to_nat i) by lia. reflexivity.
Qed.
(** The first part is the same for both. *)
Lemma first_same b : go V e (rd (args1 ++ b)) ts1 (G V 0 false source []) = go V e (rd args1) ts1 (G V 0 false source []).
Proof. apply go_same with (n := n1); [intros; apply rd_first; lia|cbn; lia|cbn [g_next]; rewrite F1; lia]. Qed.
Lemma units_read a ts s i d v s' : setup r cf a ts s -> forall t, units e t -> rd a i d t = Ok (v, s') -> units e s'.
Proof. intros HS t Ht E. eapply units_suffix; [|exact Ht]. eapply HS; [exact Ht|exact E]. Qed.
Lemma units_go a ts0 ts s g g' : setup r cf a ts0 s -> units e (g_src V g) -> go V e (rd a) ts g = Some g' -> units e (g_src V g').
Proof.
  intros HS Hg E. apply (go_src V e (units e) (rd a) ts) with (g := g); [| | |exact Hg|exact E].
  - intros t Ht. eapply units_suffix; [apply drop_space_suffix|exact Ht].
  - intros c t Ht. eapply units_suffix; [|exact Ht]. exists [c]. reflexivity.
  - intros i d t v t' Ht ER. eapply units_read; [exact HS|exact Ht|exact ER].
Qed.
Lemma read_obj s x : rd (args1 ++ obj :: args3) n1 None s = Ok x <->
  exists log rest, vscan V r cf parts (render e ts2) s = Ok (log, rest) /\ x = (build (stored (List.length parts) log), rest).
Proof.
  replace n1 with (n1 + 0) by lia. rewrite rd_second by lia. unfold meant, read_arg. cbn [option_map Z.to_nat nth_error ar_default nested_arg].
  unfold nested_read. destruct (vscan V r cf parts (render e ts2) s) as [[l t]| | |]; cbn [bind]; split; try discriminate.
  - intros [= <-]. eauto.
  - intros (l' & t' & [= <- <-] & ->). reflexivity.
  - intros (? & ? & [=] & _).
  - intros (? & ? & [=] & _).
  - intros (? & ? & [=] & _).
Qed.
Lemma rd_third_nested i d s : 0 <= i -> rd (args1 ++ obj :: args3) (n1 + 1 + i) d s = rd args3 i d s.
Proof.
  intros Hi. replace (args1 ++ obj :: args3) with ((args1 ++ [obj]) ++ args3) by (rewrite <- app_assoc; reflexivity).
  replace (n1 + 1) with (Z.of_nat (List.length (args1 ++ [obj]))) by (rewrite app_length; cbn; lia). apply rd_second. exact Hi.
Qed.
Lemma rd_third_flat i d s : 0 <= i -> rd (args1 ++ parts ++ args3) (n1 + n2 + i) d s = rd args3 i d s.
Proof.
  intros Hi. rewrite app_assoc. replace (n1 + n2) with (Z.of_nat (List.length (args1 ++ parts))) by (rewrite app_length; lia). apply rd_second. exact Hi.
Qed.
Lemma rd_middle i d s : 0 <= i < n2 -> rd (args1 ++ parts ++ args3) (n1 + i) d s = rd parts i d s.
Proof. intros Hi. rewrite rd_second by lia. apply rd_first. exact Hi. Qed.

(** The run of each, taken apart. *)
Lemma nested_parts log rest : vscan V r cf (args1 ++ obj :: args3) (render e (ts1 ++ Field None None :: ts3)) source = Ok (log, rest) <->
  exists w1 s1 l1 w2 s2 l2 w3 l3,
    go V e (rd args1) ts1 (G V 0 false source []) = Some (G V n1 w1 s1 l1)
    /\ go V e (rd parts) ts2 (G V 0 false s1 []) = Some (G V n2 w2 s2 l2)
    /\ go V e (rd args3) ts3 (G V 0 false s2 []) = Some (G V n3 w3 rest l3)
    /\ log = l1 ++ (n1, build (stored (List.length parts) l2)) :: shift (n1 + 1) l3.
Proof.
  rewrite vscan_go; [|apply auto_app; [exact A1|]; intros id d [[= <- _]|Hin]; [reflexivity|eapply A3; exact Hin]|exact SN].
  rewrite go_app, first_same.
  assert (EL : Z.of_nat (List.length (args1 ++ obj :: args3)) = n1 + 1 + n3) by (rewrite app_length; cbn [List.length]; lia). rewrite EL.
  destruct (go V e (rd args1) ts1 (G V 0 false source [])) as [[k1 w1 s1 l1]|] eqn:E1.
  2:{ split; [intros [? [=]]|]. intros (w1 & s1 & l1 & w2 & s2 & l2 & w3 & l3 & E & _). discriminate. }
  assert (Hk := go_next V e (rd args1) ts1 _ _ E1). cbn [g_next] in Hk. rewrite F1 in Hk. assert (k1 = n1) by lia. clear Hk. subst k1.
  assert (HU1 : units e s1).
  { rewrite <- (first_same (obj :: args3)) in E1. apply (units_go _ _ _ _ _ _ SN) in E1; [exact E1|apply SN]. }
  cbn [go go1 g_next g_src g_log].
  assert (H3 : forall pre s2, fields ts3 = n3 -> go V e (rd (args1 ++ obj :: args3)) ts3 (G V (n1 + 1) false s2 pre)
     = option_map (gshift V (n1 + 1) pre) (go V e (rd args3) ts3 (G V 0 false s2 []))).
  { intros pre s2 F3. rewrite <- (go_shift V e (n1 + 1) pre n3 (rd args3) (rd (args1 ++ obj :: args3))); [unfold gshift; cbn; rewrite Z.add_0_r, app_nil_r; reflexivity| |cbn; lia|cbn [g_next]; lia].
    intros i d s Hi. apply rd_third_nested. lia. }
  split.
  - intros [ws E]. destruct (rd (args1 ++ obj :: args3) n1 None s1) as [[v s2]| | |] eqn:ER; try discriminate.
    apply read_obj in ER. destruct ER as (l2 & rest2 & EV & [= -> ->]).
    apply vscan_go in EV; [|exact A2|apply setup_at, HU1]. destruct EV as [w2 E2].
    assert (F3 : fields ts3 = n3) by (apply go_next in E; cbn [g_next] in E; lia). rewrite H3 in E by exact F3.
    destruct (go V e (rd args3) ts3 (G V 0 false rest2 [])) as [[k3 w3 s3 l3]|] eqn:E3; [|discriminate]. cbn [option_map] in E.
    injection E as Ek _ -> El. cbn [g_next] in Ek. assert (k3 = n3) by lia. subst k3.
    exists w1, s1, l1, w2, rest2, l2, w3, l3. repeat split; try assumption. rewrite <- El. cbn [g_log]. rewrite <- app_assoc. reflexivity.
  - intros (w1' & s1' & l1' & w2 & s2 & l2 & w3 & l3 & [= <- <- <-] & E2 & E3 & ->). exists w3.
    replace (rd (args1 ++ obj :: args3) n1 None s1) with (Ok (build (stored (List.length parts) l2), s2)).
    2:{ symmetry. apply read_obj. exists l2, s2. split; [|reflexivity]. apply vscan_go; [exact A2|apply setup_at, HU1|]. exists w2. exact E2. }
    assert (F3 : fields ts3 = n3) by (apply go_next in E3; cbn [g_next] in E3; lia). rewrite H3, E3 by exact F3. cbn [option_map].
    unfold gshift. cbn [g_next g_ws g_src g_log]. rewrite <- app_assoc. reflexivity.
Qed.
Lemma flat_parts log rest : vscan V r cf (args1 ++ parts ++ args3) (render e (ts1 ++ ts2 ++ ts3)) source = Ok (log, rest) <->
  exists w1 s1 l1 w2 s2 l2 w3 l3,
    go V e (rd args1) ts1 (G V 0 false source []) = Some (G V n1 w1 s1 l1)
    /\ go V e (rd parts) ts2 (G V 0 w1 s1 []) = Some (G V n2 w2 s2 l2)
    /\ go V e (rd args3) ts3 (G V 0 w2 s2 []) = Some (G V n3 w3 rest l3)
    /\ log = l1 ++ shift n1 l2 ++ shift (n1 + n2) l3.
Proof.
  rewrite vscan_go; [|repeat apply auto_app; assumption|exact SF].
  rewrite !go_app, first_same.
  assert (EL : Z.of_nat (List.length (args1 ++ parts ++ args3)) = n1 + n2 + n3) by (rewrite !app_length; lia). rewrite EL.
  destruct (go V e (rd args1) ts1 (G V 0 false source [])) as [[k1 w1 s1 l1]|] eqn:E1.
  2:{ split; [intros [? [=]]|]. intros (w1 & s1 & l1 & w2 & s2 & l2 & w3 & l3 & E & _). discriminate. }
  assert (Hk := go_next V e (rd args1) ts1 _ _ E1). cbn [g_next] in Hk. rewrite F1 in Hk. assert (k1 = n1) by lia. clear Hk. subst k1.
  rewrite go_app.
  assert (H2 : go V e (rd (args1 ++ parts ++ args3)) ts2 (G V n1 w1 s1 l1)
     = option_map (gshift V n1 l1) (go V e (rd parts) ts2 (G V 0 w1 s1 []))).
  { rewrite <- (go_shift V e n1 l1 n2 (rd parts) (rd (args1 ++ parts ++ args3))); [unfold gshift; cbn; rewrite Z.add_0_r, app_nil_r; reflexivity| |cbn; lia|cbn [g_next]; lia].
    intros i d s Hi. apply rd_middle. lia. }
  rewrite H2. destruct (go V e (rd parts) ts2 (G V 0 w1 s1 [])) as [[k2 w2 s2 l2]|] eqn:E2; cbn [option_map].
  2:{ split; [intros [? [=]]|]. intros (w1' & s1' & l1' & w2 & s2 & l2 & w3 & l3 & [= <- <- <-] & E & _). congruence. }
  assert (Hk := go_next V e (rd parts) ts2 _ _ E2). cbn [g_next] in Hk. rewrite F2 in Hk. assert (k2 = n2) by lia. clear Hk. subst k2.
  unfold gshift at 1. cbn [g_next g_ws g_src g_log].
  assert (H3 : forall pre, fields ts3 = n3 -> go V e (rd (args1 ++ parts ++ args3)) ts3 (G V (n1 + n2) w2 s2 pre)
     = option_map (gshift V (n1 + n2) pre) (go V e (rd args3) ts3 (G V 0 w2 s2 []))).
  { intros pre F3. rewrite <- (go_shift V e (n1 + n2) pre n3 (rd args3) (rd (args1 ++ parts ++ args3))); [unfold gshift; cbn; rewrite Z.add_0_r, app_nil_r; reflexivity| |cbn; lia|cbn [g_next]; lia].
    intros i d s Hi. apply rd_third_flat. lia. }
  split.
  - intros [ws E]. assert (F3 : fields ts3 = n3) by (apply go_next in E; cbn [g_next] in E; lia). rewrite H3 in E by exact F3.
    destruct (go V e (rd args3) ts3 (G V 0 w2 s2 [])) as [[k3 w3 s3 l3]|] eqn:E3; [|discriminate]. cbn [option_map] in E.
    injection E as Ek _ -> El. cbn [g_next] in Ek. assert (k3 = n3) by lia. subst k3.
    exists w1, s1, l1, w2, s2, l2, w3, l3. repeat split; try assumption. rewrite <- El. cbn [g_log]. rewrite <- app_assoc. reflexivity.
  - intros (w1' & s1' & l1' & w2' & s2' & l2' & w3 & l3 & [= <- <- <-] & E2' & E3 & ->). exists w3.
    rewrite E2 in E2'. injection E2' as <- <- <-.
    assert (F3 : fields ts3 = n3) by (apply go_next in E3; cbn [g_next] in E3; lia). rewrite H3, E3 by exact F3. cbn [option_map].
    unfold gshift. cbn [g_next g_ws g_src g_log]. rewrite <- app_assoc. reflexivity.
Qed.
Lemma values_of rd' (ts : list token) w s g : go V e rd' ts (G V 0 w s []) = Some g ->
  g_log V g = numbered 0 (map snd (g_log V g)) /\ Z.of_nat (List.length (map snd (g_log V g))) = fields ts.
Proof.
  intros E. apply go_log in E. destruct E as (l & E & Hl). cbn [g_log app g_next] in *. subst l.
  apply numbered_of in Hl. destruct Hl as [H1 H2]. split; [exact H1|]. rewrite H2. assert (HX := fields_pos ts). lia.
Qed.
Lemma nested_log (u1 u3 : list V) v : Z.of_nat (List.length u1) = n1 ->
  numbered 0 u1 ++ (n1, v) :: shift (n1 + 1) (numbered 0 u3) = numbered 0 (u1 ++ v :: u3).
Proof.
  intros H. rewrite numbered_app, shift_numbered. f_equal. unfold numbered. cbn [List.length zseq combine]. rewrite H.
  f_equal. f_equal. f_equal. lia.
Qed.
Lemma flat_log (u1 u2 u3 : list V) : Z.of_nat (List.length u1) = n1 -> Z.of_nat (List.length u2) = n2 ->
  numbered 0 (u1 ++ u2 ++ u3) = numbered 0 u1 ++ shift n1 (numbered 0 u2) ++ shift (n1 + n2) (numbered 0 u3).
Proof. intros H1 H2. rewrite !numbered_app, !shift_numbered, H1, H2. replace (n1 + 0) with (0 + n1) by lia. replace (n1 + n2 + 0) with (0 + n1 + n2) by lia. reflexivity. Qed.
Lemma nested_flat log rest : vscan V r cf (args1 ++ obj :: args3) (render e (ts1 ++ Field None None :: ts3)) source = Ok (log, rest) ->
  exists v1 v2 v3, List.length v1 = List.length args1 /\ List.length v2 = List.length parts /\ List.length v3 = List.length args3
    /\ log = numbered 0 (v1 ++ build v2 :: v3)
    /\ vscan V r cf (args1 ++ parts ++ args3) (render e (ts1 ++ ts2 ++ ts3)) source = Ok (numbered 0 (v1 ++ v2 ++ v3), rest).
Proof.
  intros E. apply nested_parts in E. destruct E as (w1 & s1 & l1 & w2 & s2 & l2 & w3 & l3 & E1 & E2 & E3 & ->).
  destruct (values_of _ _ _ _ _ E1) as [V1 L1]. destruct (values_of _ _ _ _ _ E2) as [V2 L2]. destruct (values_of _ _ _ _ _ E3) as [V3 L3].
  cbn [g_log] in *. assert (F3 : fields ts3 = n3) by (apply go_next in E3; cbn [g_next] in E3; lia).
  assert (K1 : skipped V e (G V n1 w1 s1 l1)) by (eapply go_skipped; [|exact E1]; intros [=]).
  assert (K1' : skipped V e (G V 0 w1 s1 [])) by exact K1.
  destruct (go_after V e (rd parts) ts2 0 w1 s1 [] _ K1' E2) as ([k2 w2' s2' l2'] & E2' & (Q1 & Q2 & Q3)). cbn in Q1, Q2, Q3. subst k2 s2' l2'.
  assert (K2 := go_skipped V e (rd parts) ts2 _ _ K1' E2').
  assert (K2' : skipped V e (G V 0 w2' s2 [])) by exact K2.
  destruct (go_after V e (rd args3) ts3 0 w2' s2 [] _ K2' E3) as ([k3 w3' s3' l3'] & E3' & (Q1 & Q2 & Q3)). cbn in Q1, Q2, Q3. subst k3 s3' l3'.
  remember (map snd l1) as u1 eqn:X1. clear X1. subst l1. remember (map snd l2) as u2 eqn:X2. clear X2. subst l2.
  remember (map snd l3) as u3 eqn:X3. clear X3. subst l3. exists u1, u2, u3.
  split; [lia|]. split; [lia|]. split; [lia|]. split.
  - replace (List.length parts) with (List.length u2) by lia. rewrite stored_numbered. apply nested_log. lia.
  - apply flat_parts. exists w1, s1, (numbered 0 u1), w2', s2, (numbered 0 u2), w3', (numbered 0 u3). repeat split; try assumption.
    apply flat_log; lia.
Qed.
Lemma flat_nested log rest : no_leading_space ts2 -> no_leading_space ts3 ->
  vscan V r cf (args1 ++ parts ++ args3) (render e (ts1 ++ ts2 ++ ts3)) source = Ok (log, rest) ->
  exists v1 v2 v3, List.length v1 = List.length args1 /\ List.length v2 = List.length parts /\ List.length v3 = List.length args3
    /\ log = numbered 0 (v1 ++ v2 ++ v3)
    /\ vscan V r cf (args1 ++ obj :: args3) (render e (ts1 ++ Field None None :: ts3)) source = Ok (numbered 0 (v1 ++ build v2 :: v3), rest).
Proof.
  intros N2 N3 E. apply flat_parts in E. destruct E as (w1 & s1 & l1 & w2 & s2 & l2 & w3 & l3 & E1 & E2 & E3 & ->).
  destruct (values_of _ _ _ _ _ E1) as [V1 L1]. destruct (values_of _ _ _ _ _ E2) as [V2 L2]. destruct (values_of _ _ _ _ _ E3) as [V3 L3].
  cbn [g_log] in *. assert (F3 : fields ts3 = n3) by (apply go_next in E3; cbn [g_next] in E3; lia).
  destruct (go_before V e (rd parts) ts2 0 w1 s1 [] _ N2 E2) as ([k2 w2' s2' l2'] & E2' & (Q1 & Q2 & Q3)). cbn in Q1, Q2, Q3. subst k2 s2' l2'.
  destruct (go_before V e (rd args3) ts3 0 w2 s2 [] _ N3 E3) as ([k3 w3' s3' l3'] & E3' & (Q1 & Q2 & Q3)). cbn in Q1, Q2, Q3. subst k3 s3' l3'.
  remember (map snd l1) as u1 eqn:X1. clear X1. subst l1. remember (map snd l2) as u2 eqn:X2. clear X2. subst l2.
  remember (map snd l3) as u3 eqn:X3. clear X3. subst l3. exists u1, u2, u3.
  split; [lia|]. split; [lia|]. split; [lia|]. split; [symmetry; apply flat_log; lia|].
  apply nested_parts. exists w1, s1, (numbered 0 u1), w2', s2, (numbered 0 u2), w3', (numbered 0 u3). repeat split; try assumption.
  replace (List.length parts) with (List.length u2) by lia. rewrite stored_numbered. symmetry. apply nested_log. lia.
Qed.
End Splice.

(** The object consumes a prefix of the source, so scans may be nested to any depth. *)
Lemma nested_suffix V r cf parts ts build s v rest : automatic ts -> setup r cf parts ts s ->
  nested_read V r cf parts (render (s_enc r) ts) build s = Ok (v, rest) -> suffix rest s.
Proof.
  intros HA HS. unfold nested_read. destruct (vscan V r cf parts (render (s_enc r) ts) s) as [[l t]| | |] eqn:E; cbn [bind]; try discriminate.
  intros [= _ <-]. apply (vscan_go V r cf [] []) in E; [|exact HA|exact HS]. destruct E as [ws E].
  assert (HP : suffix t s /\ units (s_enc r) t); [|apply HP].
  apply (go_src V (s_enc r) (fun t => suffix t s /\ units (s_enc r) t)) in E; [exact E| | | |].
  - intros u [H1 H2]. split; [eapply suffix_trans; [apply drop_space_suffix|exact H1]|eapply units_suffix; [apply drop_space_suffix|exact H2]].
  - intros c u [H1 H2]. assert (HX : suffix u (c :: u)) by (exists [c]; reflexivity).
    split; [eapply suffix_trans; [exact HX|exact H1]|eapply units_suffix; [exact HX|exact H2]].
  - intros i d u w u' [H1 H2] ER. assert (HX : suffix u' u) by (eapply HS; [exact H2|exact ER]).
    split; [eapply suffix_trans; [exact HX|exact H1]|eapply units_suffix; [exact HX|exact H2]].
  - cbn [g_src]. split; [exists []; reflexivity|apply HS].
Qed.

(** ** C72 *)

(** An object among the arguments, whose scanner reads its [parts] with a nested scan: if the
    scan succeeds, so does scanning the parts in place, with the format string of the nested scan
    in place of the field; the other values are the same, the object is what its parts make,
    and the same text is left. *)
Theorem C72_flat_partial : forall V r cf args1 parts args3 ts1 ts2 ts3 (build : list V -> V) source log rest,
  automatic ts1 -> automatic ts2 -> automatic ts3 ->
  fields ts1 = Z.of_nat (List.length args1) -> fields ts2 = Z.of_nat (List.length parts) ->
  let object := nested_arg V r cf parts (render (s_enc r) ts2) build in
  setup r cf parts ts2 source ->
  setup r cf (args1 ++ object :: args3) (ts1 ++ Field None None :: ts3) source ->
  setup r cf (args1 ++ parts ++ args3) (ts1 ++ ts2 ++ ts3) source ->
  vscan V r cf (args1 ++ object :: args3) (render (s_enc r) (ts1 ++ Field None None :: ts3)) source = Ok (log, rest) ->
  exists v1 v2 v3,
    List.length v1 = List.length args1 /\ List.length v2 = List.length parts /\ List.length v3 = List.length args3
    /\ log = numbered 0 (v1 ++ build v2 :: v3)
    /\ vscan V r cf (args1 ++ parts ++ args3) (render (s_enc r) (ts1 ++ ts2 ++ ts3)) source
       = Ok (numbered 0 (v1 ++ v2 ++ v3), rest).
Proof. intros. eapply nested_flat; eassumption. Qed.
Print Assumptions C72_flat_partial.

(** Conversely, if neither the nested format string nor what follows the field begins with white
    space. *)
Theorem C72_nested_partial : forall V r cf args1 parts args3 ts1 ts2 ts3 (build : list V -> V) source log rest,
  automatic ts1 -> automatic ts2 -> automatic ts3 ->
  fields ts1 = Z.of_nat (List.length args1) -> fields ts2 = Z.of_nat (List.length parts) ->
  no_leading_space ts2 -> no_leading_space ts3 ->
  let object := nested_arg V r cf parts (render (s_enc r) ts2) build in
  setup r cf parts ts2 source ->
  setup r cf (args1 ++ object :: args3) (ts1 ++ Field None None :: ts3) source ->
  setup r cf (args1 ++ parts ++ args3) (ts1 ++ ts2 ++ ts3) source ->
  vscan V r cf (args1 ++ parts ++ args3) (render (s_enc r) (ts1 ++ ts2 ++ ts3)) source = Ok (log, rest) ->
  exists v1 v2 v3,
    List.length v1 = List.length args1 /\ List.length v2 = List.length parts /\ List.length v3 = List.length args3
    /\ log = numbered 0 (v1 ++ v2 ++ v3)
    /\ vscan V r cf (args1 ++ object :: args3) (render (s_enc r) (ts1 ++ Field None None :: ts3)) source
       = Ok (numbered 0 (v1 ++ build v2 :: v3), rest).
Proof. intros. eapply flat_nested; eassumption. Qed.
Print Assumptions C72_nested_partial.

(** A point "(x, y)" between two numbers; the object is a number made of both. *)
Definition point_tokens : list token := [Lit 40; Field None None; Lit 44; Field None None; Lit 41].
Definition point (vs : list Z) : Z := match vs with [x; y] => 1000 * x + y | _ => 0 end.
Definition point_arg : arg Z := nested_arg Z string_src narrow [int_arg; int_arg] (T "({},{})") point.
Ltac plain_tokens := cbn [wf_gtokens app]; unfold wf_id, lit_ok; cbn [s_enc string_src]; repeat match goal with |- _ /\ _ => split | |- forall d0, None = Some d0 -> _ => discriminate | |- True => exact I end; try lia.
Lemma point_setup s : bytes s -> setup string_src narrow [int_arg; int_arg] point_tokens s.
Proof.
  intros Hs. apply (ints_setup 2); [lia| |unfold point_tokens; plain_tokens|exact Hs].
  left. intros id d H. repeat destruct H as [H|H]; try discriminate; try contradiction; injection H as <- _; reflexivity.
Qed.
Example C72_ex :
  let ts1 := [Field None None; Lit 32] in let ts3 := [Lit 59; Field None None] in let s := T "7   (1, 22); 9x" in
  automatic ts1 /\ automatic point_tokens /\ automatic ts3
  /\ fields ts1 = 1 /\ fields point_tokens = 2 /\ no_leading_space point_tokens /\ no_leading_space ts3
  /\ render U8 point_tokens = T "({},{})"
  /\ setup string_src narrow [int_arg; int_arg] point_tokens s
  /\ setup string_src narrow ([int_arg] ++ point_arg :: [int_arg]) (ts1 ++ Field None None :: ts3) s
  /\ setup string_src narrow ([int_arg] ++ [int_arg; int_arg] ++ [int_arg]) (ts1 ++ point_tokens ++ ts3) s
  /\ vscan Z string_src narrow [int_arg; point_arg; int_arg] (T "{} {};{}") s = Ok ([(0, 7); (1, 1022); (2, 9)], T "x")
  /\ vscan Z string_src narrow [int_arg; int_arg; int_arg; int_arg] (T "{} ({},{});{}") s
     = Ok ([(0, 7); (1, 1); (2, 22); (3, 9)], T "x").
Proof.
  intros ts1 ts3 s.
  assert (HA : automatic (ts1 ++ point_tokens ++ Field None None :: ts3)).
  { intros id d H. repeat destruct H as [H|H]; try discriminate; try contradiction; injection H as <- _; reflexivity. }
  assert (HB : bytes s) by (vm_compute; repeat constructor; discriminate).
  assert (A1 : automatic ts1) by (intros id d H; apply (HA id d), in_or_app; auto).
  assert (A2 : automatic point_tokens) by (intros id d H; apply (HA id d), in_or_app; right; apply in_or_app; auto).
  assert (A3 : automatic ts3) by (intros id d H; apply (HA id d), in_or_app; right; apply in_or_app; right; right; exact H).
  do 3 (split; [assumption|]). do 2 (split; [reflexivity|]). do 2 (split; [vm_compute; auto|]). split; [reflexivity|]. split; [apply point_setup, HB|].
  split; [|split; [|vm_compute; auto]].
  - split; [cbn; lia|]. split; [unfold good_src; cbn; auto|]. split; [reflexivity|]. split.
    + intros i d u v u' Hu E. unfold read_arg in E. destruct (nth_error _ _) as [a|] eqn:EN; [|discriminate].
      apply nth_error_In in EN. destruct EN as [<-|[<-|[<-|[]]]].
      * eapply (int_args_read 1 0); [exact Hu|exact E|]. intros sp Esp. destruct d as [d|]; [|discriminate]. injection Esp as <-. apply mean_parsed_base.
      * destruct d as [d|]; [discriminate|]. eapply nested_suffix; [exact A2| |exact E]. apply point_setup, Hu.
      * eapply (int_args_read 1 0); [exact Hu|exact E|]. intros sp Esp. destruct d as [d|]; [|discriminate]. injection Esp as <-. apply mean_parsed_base.
    + split; [repeat constructor|]. split; [left; intros id d H; repeat destruct H as [H|H]; try discriminate; try contradiction; injection H as <- _; reflexivity|].
      split; [unfold ts1, ts3; plain_tokens|exact HB].
  - apply (ints_setup 4); [lia|left; intros id d H; repeat destruct H as [H|H]; try discriminate; try contradiction; injection H as <- _; reflexivity|unfold ts1, ts3, point_tokens; plain_tokens|exact HB].
Qed.

(** White space at the end of the source: "{} " followed by the white space the object begins
    with. *)
Theorem C72_space_refuted : exists f1 f2 source,
  let object := nested_arg Z string_src narrow [] f2 (fun _ => 5) in
  vscan Z string_src narrow [int_arg] (f1 ++ f2) source = Ok ([(0, 1)], [])
  /\ vscan Z string_src narrow [int_arg; object] (f1 ++ T "{}") source = Err InvalidLiteral.
Proof. exists (T "{} "), (T " "), (T "1 "). vm_compute. auto. Qed.
Print Assumptions C72_space_refuted.

