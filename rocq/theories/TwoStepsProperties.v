(** Property C21: scanning in two steps, with numbered fields too. *)
From Verif Require Import Prelude UnicodeModel ReadModel ReadProofs SpecsModel ArgsModel FormatModel FormatSpec
  VscanModel VscanSpec VscanProofs VscanSpecProofs CheckerProofs IntModel VscanProperties.
Import Coq.Strings.String.StringSyntax.
Local Open Scope list_scope.
Local Open Scope Z_scope.

(** On success what is left is a suffix of the source: any number of arguments. *)
Theorem C21_rest_is_suffix : forall V r cf args format source log rest,
  Forall (arg_ok V r cf) args -> Forall (fun a => forall s, ar_plain a s = ar_default a s) args ->
  units (s_enc r) format -> units (s_enc r) source ->
  vscan V r cf args format source = Ok (log, rest) ->
  exists consumed, source = consumed ++ rest.
Proof.
  intros V r cf args format source log rest H2 HP H3 H4 E.
  destruct (Nat.lt_ge_cases (List.length args) 64) as [H1|H1]; [|exfalso; revert E; apply C18_many_args_refuted, H1].
  exact (C21_suffix V r cf args format source log rest H1 H2 HP H3 H4 E).
Qed.
Print Assumptions C21_rest_is_suffix.

(** The fields of the second format string, for arguments that come after [n] others. *)
Definition renumbered {D} (n : Z) (t t' : gtoken D) : Prop :=
  match t, t' with
  | Lit c, Lit c' => c = c'
  | Field None d, Field None d' => d = d'
  | Field (Some ds) d, Field (Some ds') d' => number ds' = n + number ds /\ d = d'
  | _, _ => False
  end.
Definition explicit {D} (ts : list (gtoken D)) : Prop := forall id d, In (Field id d) ts -> exists ds, id = Some ds /\ 0 <= number ds.

Lemma covers_all n used : covers n used = true <-> forall i, 0 <= i < n -> In i used.
Proof.
  unfold covers. rewrite forallb_forall. split; intros H i Hi.
  - apply existsb_In, H, in_zseq. lia.
  - apply existsb_In, H. apply in_zseq in Hi. lia.
Qed.
Section Steps.
Variable V : Type.
Variable e : enc.
Variable n1 n2 : Z.
Context {D : Type}.
Variable read1 read2 readc : Z -> option D -> list Z -> outcome (V * list Z).
Variable f1 f2 fc : list Z -> err -> err.
Hypothesis Hn1 : 0 <= n1.
Hypothesis Hn2 : 0 <= n2.
Hypothesis H1 : forall i d s, 0 <= i < n1 -> readc i d s = read1 i d s.
Hypothesis H2 : forall i d s, 0 <= i < n2 -> readc (n1 + i) d s = read2 i d s.

Lemma first_step (ts1 ts2 : list (gtoken D)) : explicit ts1 -> forall next used ws s log log1 s1,
  (forall i, In i used -> 0 <= i < n1) -> (ws = true -> drop_space e s = s) ->
  run V e n1 read1 false f1 ts1 next used ws s log = Ok (log1, s1) ->
  exists ws1 used1 next1, (ws1 = true -> drop_space e s1 = s1) /\ (forall i, In i used1 <-> 0 <= i < n1)
   /\ run V e (n1 + n2) readc false fc (ts1 ++ ts2) next used ws s log
      = run V e (n1 + n2) readc false fc ts2 next1 used1 ws1 s1 log1.
Proof.
  induction ts1 as [|[c|id d] ts IH]; intros Ha next used ws s log log1 s1 Hu Hws; cbn [run app].
  - destruct (covers n1 used) eqn:EC; [|discriminate]. intros E. injection E as <- <-. rewrite covers_all in EC.
    exists ws, used, next. split; [exact Hws|]. split; [|reflexivity]. intros i. split; [exact (Hu i)|exact (EC i)].
  - assert (Ha' : explicit ts) by (intros i x Hin; apply (Ha i x); right; exact Hin).
    destruct (is_ws c).
    + destruct ws; [apply IH; auto|]. destruct s as [|y s]; [discriminate|]. apply IH; auto. intros _. apply drop_space_idem.
    + destruct s as [|y s]; [discriminate|]. destruct (y =? c); [|discriminate]. apply IH; auto. discriminate.
  - assert (Ha' : explicit ts) by (intros i x Hin; apply (Ha i x); right; exact Hin).
    destruct (Ha id d) as (ds & -> & Hd); [left; reflexivity|]. set (k := number ds) in *.
    destruct ((n1 <=? k) || existsb (Z.eqb k) used) eqn:EC; [discriminate|].
    apply orb_false_iff in EC. destruct EC as [EC1 EC2]. rewrite EC2.
    replace (n1 + n2 <=? k) with false by lia. cbn [orb]. rewrite H1 by lia.
    destruct (read1 k d s) as [[v s']|x| |]; try discriminate.
    apply IH; auto; [|discriminate]. intros i [<-|Hi]; [lia|auto].
Qed.

Lemma second_step ts2 ts2' base log1 : explicit ts2 -> Forall2 (renumbered n1) ts2 ts2' -> (forall i, In i base <-> 0 <= i < n1) ->
  forall next next' used ws ws' s log log2 s2, (forall i, In i used -> 0 <= i) ->
  ws' = ws \/ (ws = false /\ ws' = true /\ drop_space e s = s) -> (ws = true -> drop_space e s = s) ->
  run V e n2 read2 false f2 ts2 next used ws s log = Ok (log2, s2) ->
  run V e (n1 + n2) readc false fc ts2' next' (map (Z.add n1) used ++ base) ws' s (log1 ++ shift n1 log)
  = Ok (log1 ++ shift n1 log2, s2).
Proof.
  intros Ha HM Hb. induction HM as [|t t' ts ts' Ht HM IH]; intros next next' used ws ws' s log log2 s2 Hn Hw Hws; [|destruct t as [c|id d]]; cbn [run].
  - destruct (covers n2 used) eqn:EC; [|discriminate]. intros E. injection E as <- <-.
    replace (covers (n1 + n2) (map (Z.add n1) used ++ base)) with true; [reflexivity|]. symmetry.
    rewrite covers_all in *. intros i Hi. apply in_or_app. destruct (Z_lt_le_dec i n1); [right; apply Hb; lia|left].
    apply in_map_iff. exists (i - n1). split; [lia|]. apply EC. lia.
  - assert (Ha' : explicit ts) by (intros i x Hin; apply (Ha i x); right; exact Hin). specialize (IH Ha').
    destruct t' as [c'|]; [|contradiction]. cbn [renumbered] in Ht. subst c'. cbn [run].
    destruct (is_ws c).
    + destruct ws.
      * destruct Hw as [-> |[? _]]; [|discriminate]. intros E. eapply IH; [exact Hn|left; reflexivity|exact Hws|exact E].
      * destruct s as [|y s]; [discriminate|]. destruct Hw as [-> |(_ & -> & Hd)]; intros E.
        -- eapply IH; [exact Hn|left; reflexivity|intros _; apply drop_space_idem|exact E].
        -- rewrite Hd in E. eapply IH; [exact Hn|left; reflexivity|intros _; exact Hd|exact E].
    + destruct s as [|y s]; [discriminate|]. destruct (y =? c); [|discriminate]. intros E.
      eapply IH; [exact Hn|left; reflexivity|discriminate|exact E].
  - assert (Ha' : explicit ts) by (intros i x Hin; apply (Ha i x); right; exact Hin). specialize (IH Ha').
    destruct (Ha id d) as (ds & -> & Hd); [left; reflexivity|]. destruct t' as [|[ds'|] d']; try contradiction. destruct Ht as [Hk <-]. cbn [run]. rewrite Hk. set (k := number ds) in *.
    destruct ((n2 <=? k) || existsb (Z.eqb k) used) eqn:EC; [discriminate|].
    apply orb_false_iff in EC. destruct EC as [EC1 EC2].
    replace ((n1 + n2 <=? n1 + k) || existsb (Z.eqb (n1 + k)) (map (Z.add n1) used ++ base)) with false.
    2:{ symmetry. apply orb_false_iff. split; [lia|]. apply not_true_iff_false. intros HX. apply existsb_In in HX.
        apply in_app_or in HX. destruct HX as [HX|HX].
        - apply in_map_iff in HX. destruct HX as (j & Ej & Hj). assert (j = k) by lia. subst j.
          apply existsb_In in Hj. congruence.
        - apply Hb in HX. lia. }
    rewrite H2 by lia. destruct (read2 k d s) as [[v s']|x| |]; try discriminate.
    intros E. change (n1 + k :: map (Z.add n1) used ++ base) with (map (Z.add n1) (k :: used) ++ base).
    replace ((log1 ++ shift n1 log) ++ [(n1 + k, v)]) with (log1 ++ shift n1 (log ++ [(k, v)]))
      by (unfold shift; rewrite map_app, app_assoc; reflexivity).
    eapply IH; [|left; reflexivity|discriminate|exact E]. intros i [<-|Hi]; [lia|auto].
Qed.
End Steps.

Lemma number_nonneg ds : Forall (fun c => 48 <= c <= 57) ds -> 0 <= number ds.
Proof.
  intros H. unfold number. assert (G : forall a, 0 <= a -> 0 <= fold_left (fun v c => 10 * v + (c - 48)) ds a).
  { induction H as [|c ds Hc _ IH]; intros a Ha; cbn [fold_left]; [exact Ha|]. apply IH. lia. }
  apply G. lia.
Qed.
Lemma wf_nonneg e (ok : Z -> desc -> list Z -> Prop) (ts : list token) : forall next, wf_tokens e ok ts next ->
  (forall id d, In (Field id d) ts -> id <> None) -> explicit ts.
Proof.
  induction ts as [|[c|id d] ts IH]; intros next HW HN i x Hin; [destruct Hin| |].
  - destruct Hin as [E|Hin]; [discriminate|]. destruct HW as [_ HW]. apply (IH _ HW) with (d := x); [|exact Hin]. intros j y Hj. apply (HN j y). right. exact Hj.
  - destruct HW as (HI & _ & HW). destruct Hin as [E|Hin].
    + injection E as <- <-. destruct id as [ds|]; [|exfalso; eapply HN; [left; reflexivity|reflexivity]]. exists ds. split; [reflexivity|]. apply number_nonneg, HI.
    + apply (IH _ HW) with (d := x); [|exact Hin]. intros j y Hj. apply (HN j y). right. exact Hj.
Qed.
(** Scanning with one format string, and what is left with another one, gives the values that
    scanning with both in one gives.  Fields are numbered or not; the numbers of the second
    format string count its own arguments. *)
Theorem C21_two_steps : forall V r cf args1 args2 ts1 ts2 ts2' source log1 rest1 log2 rest2,
  Forall2 (renumbered (Z.of_nat (List.length args1))) ts2 ts2' ->
  setup r cf args1 ts1 source -> setup r cf args2 ts2 rest1 -> setup r cf (args1 ++ args2) (ts1 ++ ts2') source ->
  vscan V r cf args1 (render (s_enc r) ts1) source = Ok (log1, rest1) ->
  vscan V r cf args2 (render (s_enc r) ts2) rest1 = Ok (log2, rest2) ->
  vscan V r cf (args1 ++ args2) (render (s_enc r) ts1 ++ render (s_enc r) ts2') source
  = Ok (log1 ++ shift (Z.of_nat (List.length args1)) log2, rest2).
Proof.
  intros V r cf args1 args2 ts1 ts2 ts2' source log1 rest1 log2 rest2 HM S1 S2 S3 E1 E2.
  assert (HU : uniform (ts1 ++ ts2')) by apply S3. destruct HU as [HU|HU].
  - assert (ts2' = ts2).
    { assert (HU' : forall id d, In (Field id d) ts2' -> id = None) by (intros id d Hin; apply (HU id d), in_or_app; right; exact Hin).
      clear -HM HU'. induction HM as [|t t' ts ts' Ht HM IH]; [reflexivity|]. f_equal; [|apply IH; intros id d Hin; apply (HU' id d); right; exact Hin].
      destruct t as [c|[ds|] d], t' as [c'|[ds'|] d']; cbn in Ht; try contradiction; try congruence.
      exfalso. assert (HX := HU' (Some ds') d' (or_introl eq_refl)). discriminate. }
    subst ts2'. eapply C21_two_steps_partial; try eassumption; intros id d Hin; apply (HU id d), in_or_app; auto.
  - assert (X1 : explicit ts1).
    { eapply wf_nonneg; [apply S1|]. intros id d Hin. apply (HU id d), in_or_app. auto. }
    assert (X2 : explicit ts2).
    { assert (HU' : forall id d, In (Field id d) ts2' -> id <> None) by (intros id d Hin; apply (HU id d), in_or_app; right; exact Hin).
      eapply wf_nonneg; [apply S2|]. clear -HM HU'. induction HM as [|t t' ts ts' Ht HM IH]; intros id d Hin; [destruct Hin|].
      destruct Hin as [->|Hin]; [|eapply IH; [|exact Hin]; intros i x Hi; apply (HU' i x); right; exact Hi].
      intros ->. destruct t' as [c'|[ds'|] d']; cbn in Ht; try contradiction. eapply HU'; [left; reflexivity|reflexivity]. }
    replace (render (s_enc r) ts1 ++ render (s_enc r) ts2') with (render (s_enc r) (ts1 ++ ts2')) by apply flat_map_app.
    apply C18_tokens_partial in E1; [|exact S1]. apply C18_tokens_partial in E2; [|exact S2].
    apply C18_tokens_partial; [exact S3|]. unfold expected, scan_spec in *. rewrite app_length, Nat2Z.inj_add.
    set (n1 := Z.of_nat (List.length args1)) in *. set (n2 := Z.of_nat (List.length args2)) in *.
    assert (R1 : forall i d s, 0 <= i < n1 -> meant (s_enc r) (read_arg V (args1 ++ args2)) i d s = meant (s_enc r) (read_arg V args1) i d s).
    { intros i d s Hi. unfold meant, read_arg. rewrite nth_error_app1 by lia. reflexivity. }
    assert (R2 : forall i d s, 0 <= i < n2 -> meant (s_enc r) (read_arg V (args1 ++ args2)) (n1 + i) d s = meant (s_enc r) (read_arg V args2) i d s).
    { intros i d s Hi. unfold meant, read_arg. rewrite nth_error_app2 by lia.
      replace (Z.to_nat (n1 + i) - List.length args1)%nat with (Z.to_nat i) by lia. reflexivity. }
    destruct (first_step V (s_enc r) n1 n2 (meant (s_enc r) (read_arg V args1)) (meant (s_enc r) (read_arg V args2)) (meant (s_enc r) (read_arg V (args1 ++ args2)))
      (code_fail V args1) (code_fail V args2) (code_fail V (args1 ++ args2)) ltac:(lia) R1 R2 ts1 ts2' X1 0 [] false source [] log1 rest1)
      as (ws1 & used1 & next1 & Hws & Hused & ->); [intros i []|discriminate|exact E1|].
    assert (HX := second_step V (s_enc r) n1 n2 (meant (s_enc r) (read_arg V args1)) (meant (s_enc r) (read_arg V args2)) (meant (s_enc r) (read_arg V (args1 ++ args2)))
      (code_fail V args1) (code_fail V args2) (code_fail V (args1 ++ args2)) R1 R2 ts2 ts2' used1 log1 X2 HM Hused 0 next1 [] false ws1 rest1 [] log2 rest2).
    cbn [map app shift] in HX. rewrite app_nil_r in HX. apply HX; auto; [intros i []| |discriminate].
    destruct ws1; [right; auto|left; reflexivity].
Qed.
Print Assumptions C21_two_steps.

(** "{1},{0};" and then "{1} {0}", and both with the second renumbered. *)
Example C21_two_steps_numbered_ex :
  vscan_ints 2 (T "{1},{0};") (T "1,  2;3 4x") = Ok ([(1, 1); (0, 2)], T "3 4x")
  /\ vscan_ints 2 (T "{1} {0}") (T "3 4x") = Ok ([(1, 3); (0, 4)], T "x")
  /\ vscan_ints 4 (T "{1},{0};{3} {2}") (T "1,  2;3 4x") = Ok ([(1, 1); (0, 2); (3, 3); (2, 4)], T "x")
  /\ Forall2 (renumbered (Z.of_nat 2)) [Field (Some [49]) (None : option desc); Lit 32; Field (Some [48]) None] [Field (Some [51]) None; Lit 32; Field (Some [50]) None].
Proof. do 3 (split; [vm_compute; reflexivity|]). repeat constructor. Qed.
(** The converse does not hold: white space at the end of the source is matched by white space
    only if some white space came before it in the same format string. *)
Theorem C21_split_refuted : exists f1 f2 source rest1,
  vscan_ints 1 f1 source = Ok ([(0, 1)], rest1)
  /\ vscan_ints 1 (f1 ++ f2) source = Ok ([(0, 1)], [])
  /\ vscan_ints 0 f2 rest1 = Err InvalidLiteral.
Proof. exists (T "{} "), (T " "), (T "1 "), []. vm_compute. auto. Qed.
Print Assumptions C21_split_refuted.
