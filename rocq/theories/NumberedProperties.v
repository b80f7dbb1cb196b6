(** Property C68: numbered fields read the same as fields without numbers, in the order of the
    numbers. *)
From Coq Require Import String Permutation.
From Verif Require Import Prelude UnicodeModel ReadModel ReadProofs SpecsModel ArgsModel FormatModel FormatSpec FormatSpecProofs
  VscanModel VscanSpec IntModel ScalarModel StringModel RangesModel LocaleModel CheckerProofs VscanProofs VscanSpecProofs StringSafeProofs
  FloatSpec FloatProofs FloatInstance EncodingReadProofs VscanProperties ScalarProperties LocaleProperties DocTypesSpec DocTypesProofs DocTypesRun DocTypesProperties
  NumberedSpec NumberedProofs IntProofs.
Import Coq.Strings.String.StringSyntax.
Local Open Scope list_scope.
Local Open Scope Z_scope.

(** The fields refer to every argument once. *)
Definition refers_once (ts : list token) (n : nat) : Prop := all_numbered ts /\ Permutation (order ts) (zseq 0 n).

(** A scan with numbers gives the values of the scan without, of the arguments reordered, and
    leaves the same; each value goes to the argument of that number. *)
Theorem C68_partial : forall (F : Type) rx cf global l r (sts : list (scalar_type F)) ts source log rest,
  good_src r -> c_enc cf = s_enc r -> engine_ok rx -> Forall named sts -> Forall usual sts ->
  wf_tok cf (map scalar_arg_type sts) ts 0 -> refers_once ts (List.length sts) -> units (s_enc r) source ->
  scan_with rx cf global l r (map TScalar sts) (render (s_enc r) ts) source = Ok (log, rest)
  <-> exists log0, scan_with rx cf global l r (map TScalar (reordered (order ts) TBool sts)) (render (s_enc r) (map unnumbered ts)) source = Ok (log0, rest)
        /\ log = relabelled (order ts) log0.
Proof.
  intros F rx cf global l r sts ts source log rest Hr Hcf Hrx Hna Hus HW [HA HO] Hu.
  assert (HO' : Permutation (order ts) (zseq 0 (Z.to_nat (Z.of_nat (List.length sts))))) by (rewrite Nat2Z.id; exact HO).
  assert (HL : List.length (reordered (order ts) TBool sts) = List.length sts).
  { unfold reordered. rewrite map_length. assert (H := o_length (Z.of_nat (List.length sts)) (order ts) ltac:(lia) HO'). lia. }
  assert (HN : forall k, (k < List.length (order ts))%nat -> nth_error (reordered (order ts) TBool sts) k = nth_error sts (Z.to_nat (nth k (order ts) 0))).
  { apply reordered_nth. intros i Hi. apply (o_range (Z.of_nat (List.length sts)) (order ts) HO') in Hi. lia. }
  assert (HNt : forall k, (k < List.length (order ts))%nat ->
    nth_error (map scalar_arg_type (reordered (order ts) TBool sts)) k = nth_error (map scalar_arg_type sts) (Z.to_nat (nth k (order ts) 0))).
  { intros k Hk. rewrite !nth_error_map, HN by exact Hk. reflexivity. }
  assert (HI : forall P : scalar_type F -> Prop, Forall P sts -> Forall P (reordered (order ts) TBool sts)).
  { intros P H. rewrite Forall_forall in *. intros t Ht. apply In_nth_error in Ht. destruct Ht as [k Ek].
    assert (Hk : (k < List.length (order ts))%nat).
    { assert (H0 : nth_error (reordered (order ts) TBool sts) k <> None) by congruence. apply nth_error_Some in H0. unfold reordered in H0. rewrite map_length in H0. exact H0. }
    rewrite HN in Ek by exact Hk. apply H. eapply nth_error_In, Ek. }
  destruct (Nat.lt_ge_cases (List.length sts) 64) as [Hc|Hc].
  2: { split; [|intros (log0 & E & _)].
       - intros E. exfalso. revert E. apply C18_many_args_refuted. rewrite !map_length. exact Hc.
       - exfalso. revert E. apply C18_many_args_refuted. rewrite !map_length, HL. exact Hc. }
  assert (HW' : wf_tok cf (map scalar_arg_type (reordered (order ts) TBool sts)) (map unnumbered ts) 0).
  { exact (unnumbered_wf cf _ _ (order ts) HNt ts [] 0 HA eq_refl HW). }
  assert (HU : uniform ts) by (right; exact HA).
  rewrite C18_scalars_partial by assumption.
  assert (E : @expected _ r (map (target_arg rx cf global l r) (map TScalar sts)) ts source
    = relabel (order ts) (@expected _ r (map (target_arg rx cf global l r) (map TScalar (reordered (order ts) TBool sts))) (map unnumbered ts) source)).
  { unfold expected, scan_spec. rewrite !map_length, HL. change (@nil (Z * value (svalue F))) with (relabelled (order ts) (@nil (Z * value (svalue F)))) at 1.
    apply (run_numbered (Z.of_nat (List.length sts)) (order ts)) with (done := []); try assumption; try reflexivity.
    - lia.
    - intros k d s Hk. unfold meant, read_arg. rewrite Nat2Z.id, !nth_error_map, HN by exact Hk. reflexivity.
    - intros u u' x E. unfold code_fail. rewrite !map_length, HL, E. reflexivity.
    - split; intros i; cbn; [tauto|lia]. }
  rewrite E. unfold relabel.
  assert (HX : forall x, scan_with rx cf global l r (map TScalar (reordered (order ts) TBool sts)) (render (s_enc r) (map unnumbered ts)) source = Ok x
    <-> @expected _ r (map (target_arg rx cf global l r) (map TScalar (reordered (order ts) TBool sts))) (map unnumbered ts) source = Ok x).
  { intros x. apply C18_scalars_partial; try assumption; [rewrite HL; exact Hc|apply HI, Hna|apply HI, Hus|apply unnumbered_uniform]. }
  split.
  - destruct (expected r _ (map unnumbered ts) source) as [[log0 s0]| | |] eqn:EX; try discriminate. cbn [bind]. intros [= <- <-].
    exists log0. split; [apply HX; reflexivity|reflexivity].
  - intros (log0 & E0 & ->). apply HX in E0. rewrite E0. reflexivity.
Qed.
Print Assumptions C68_partial.

(** The same at compile time. *)
Theorem C68_checked_partial : forall cf contiguous borrowed types custom_parse ts,
  c_enc cf <> U16 -> Forall (fun t => class_of t <> None) types -> wf_tok cf types ts 0 -> refers_once ts (List.length types) ->
  check_format_string cf contiguous borrowed types custom_parse (render (c_enc cf) ts)
  = check_format_string cf contiguous borrowed (reordered (order ts) NoneType types) custom_parse (render (c_enc cf) (map unnumbered ts)).
Proof.
  intros cf contiguous borrowed types custom_parse ts He Hb HW [HA HO].
  assert (HO' : Permutation (order ts) (zseq 0 (Z.to_nat (Z.of_nat (List.length types))))) by (rewrite Nat2Z.id; exact HO).
  assert (HL : List.length (reordered (order ts) NoneType types) = List.length types).
  { unfold reordered. rewrite map_length. assert (H := o_length (Z.of_nat (List.length types)) (order ts) ltac:(lia) HO'). lia. }
  assert (HN : forall k, (k < List.length (order ts))%nat -> nth_error (reordered (order ts) NoneType types) k = nth_error types (Z.to_nat (nth k (order ts) 0))).
  { apply reordered_nth. intros i Hi. apply (o_range (Z.of_nat (List.length types)) (order ts) HO') in Hi. lia. }
  assert (Hb' : Forall (fun t => class_of t <> None) (reordered (order ts) NoneType types)).
  { rewrite Forall_forall in *. intros t Ht. apply In_nth_error in Ht. destruct Ht as [k Ek].
    assert (Hk : (k < List.length (order ts))%nat).
    { assert (H0 : nth_error (reordered (order ts) NoneType types) k <> None) by congruence. apply nth_error_Some in H0. unfold reordered in H0. rewrite map_length in H0. exact H0. }
    rewrite HN in Ek by exact Hk. apply Hb. eapply nth_error_In, Ek. }
  assert (HW' := unnumbered_wf cf _ _ (order ts) HN ts [] 0 HA eq_refl HW). cbn [List.length Z.of_nat] in HW'.
  destruct (index_numbered (Z.of_nat (List.length types)) (order ts) ltac:(lia) HO' ts [] [] [] 0 HA eq_refl) as [I1 I2]; [split; intros i; cbn; [tauto|lia]|].
  assert (EE := each_numbered types _ (accepted_field contiguous borrowed) (order ts) HN ts [] 0 HA eq_refl). cbn [List.length Z.of_nat] in EE, I2.
  assert (C1 := C67_partial cf contiguous borrowed types custom_parse ts He Hb HW).
  assert (C2 := C67_partial cf contiguous borrowed _ custom_parse (map unnumbered ts) He Hb' HW'). rewrite HL in C2.
  assert (N1 := C67_error_partial cf contiguous borrowed types custom_parse ts He Hb HW).
  assert (N2 := C67_error_partial cf contiguous borrowed _ custom_parse (map unnumbered ts) He Hb' HW').
  destruct (each_field types (accepted_field contiguous borrowed) ts 0) eqn:EF.
  - rewrite (proj2 C1), (proj2 C2); [reflexivity| |]; repeat split; try assumption; [apply unnumbered_uniform|rewrite <- EE; reflexivity|right; exact HA].
  - rewrite N1, N2; [reflexivity| |]; intros H; [apply C2 in H|apply C1 in H]; destruct H as (_ & _ & H); congruence.
Qed.
Print Assumptions C68_checked_partial.

Lemma zseq_length n : forall i, List.length (zseq i n) = n.
Proof. induction n as [|n IH]; intros i; cbn; [reflexivity|]. rewrite IH. reflexivity. Qed.
Lemma zseq_nth n : forall i k, (k < n)%nat -> nth k (zseq i n) 0 = i + Z.of_nat k.
Proof. induction n as [|n IH]; intros i [|k] Hk; cbn [nth zseq]; try lia. rewrite IH by lia. lia. Qed.
(** Numbers in order change nothing. *)
Theorem C68_in_order_partial : forall (F : Type) rx cf global l r (sts : list (scalar_type F)) ts source x,
  good_src r -> c_enc cf = s_enc r -> engine_ok rx -> Forall named sts -> Forall usual sts ->
  wf_tok cf (map scalar_arg_type sts) ts 0 -> all_numbered ts -> order ts = zseq 0 (List.length sts) -> units (s_enc r) source ->
  scan_with rx cf global l r (map TScalar sts) (render (s_enc r) ts) source = Ok x
  <-> scan_with rx cf global l r (map TScalar sts) (render (s_enc r) (map unnumbered ts)) source = Ok x.
Proof.
  intros F rx cf global l r sts ts source [log rest] Hr Hcf Hrx Hna Hus HW HA HO Hu.
  assert (HR : reordered (order ts) TBool sts = sts).
  { rewrite HO. unfold reordered. apply (nth_ext _ _ TBool TBool).
    - rewrite map_length, zseq_length. reflexivity.
    - intros k Hk. rewrite map_length, zseq_length in Hk.
      rewrite (nth_indep _ TBool (nth (Z.to_nat 0) sts TBool)) by (rewrite map_length, zseq_length; exact Hk).
      rewrite (map_nth (fun i => nth (Z.to_nat i) sts TBool)). rewrite zseq_nth by exact Hk. f_equal. lia. }
  assert (HO' : refers_once ts (List.length sts)) by (split; [exact HA|rewrite HO; apply Permutation_refl]).
  rewrite (C68_partial F rx cf global l r sts ts source log rest Hr Hcf Hrx Hna Hus HW HO' Hu). rewrite HR.
  assert (HX : forall log0, scan_with rx cf global l r (map TScalar sts) (render (s_enc r) (map unnumbered ts)) source = Ok (log0, rest) -> relabelled (order ts) log0 = log0).
  { intros log0 E. destruct (Nat.lt_ge_cases (List.length sts) 64) as [Hc|Hc].
    2: { exfalso. revert E. apply C18_many_args_refuted. rewrite !map_length. exact Hc. }
    assert (HW' : wf_tok cf (map scalar_arg_type sts) (map unnumbered ts) 0).
    { assert (HN := unnumbered_wf cf (map scalar_arg_type sts) (map scalar_arg_type sts) (order ts)). rewrite HO in HN.
      refine (HN _ ts [] 0 HA _ HW); [|rewrite HO; reflexivity]. intros k Hk. rewrite zseq_length in Hk. rewrite zseq_nth by exact Hk. f_equal. lia. }
    apply C18_scalars_partial in E; try assumption; [|apply unnumbered_uniform].
    assert (Hwf := scalar_tokens F rx cf global l r sts (map unnumbered ts) Hcf Hna HW').
    unfold expected, scan_spec in E.
    destruct (run_reads_all _ (s_enc r) _ _ _ _ _ _ (map unnumbered ts) 0 [] false source [] log0 rest Hwf ltac:(lia) ltac:(constructor) ltac:(intros i []) ltac:(reflexivity) E) as [_ HS].
    unfold relabelled. rewrite <- (map_id log0) at 2. apply map_ext_in. intros [i v] Hi. f_equal.
    assert (HI : In i (map fst log0)) by (apply in_map_iff; exists (i, v); auto). apply HS in HI. rewrite !map_length in HI.
    rewrite HO, zseq_nth by lia. lia. }
  split; [intros (log0 & E & ->)|intros E; exists log]; rewrite HX by exact E; auto.
Qed.
Print Assumptions C68_in_order_partial.

(** "{2:x}/{0} {1:s}" *)
Definition scalars2 : list (scalar_type FloatInstance.exact) := [TInt i32 IntType; TBool; TInt u8 UCharType].
Definition tokens3 : list token :=
  [Field (Some (T "2")) (Some (Desc None None None None false (Some (TyLetter 120)))); Lit 47; Field (Some (T "0")) None; Lit 32;
   Field (Some (T "1")) (Some (Desc None None None None false (Some (TyLetter 115))))].
Example C68_ex :
  render U8 tokens3 = T "{2:x}/{0} {1:s}" /\ render U8 (map unnumbered tokens3) = T "{:x}/{} {:s}"
  /\ Forall named scalars2 /\ Forall usual scalars2 /\ wf_tok narrow (map scalar_arg_type scalars2) tokens3 0 /\ refers_once tokens3 3
  /\ reordered (order tokens3) TBool scalars2 = [TInt u8 UCharType; TInt i32 IntType; TBool]
  /\ scan_with no_rx narrow classic None string_src (map TScalar scalars2) (T "{2:x}/{0} {1:s}") (T "ff/-12  true!")
     = Ok ([(2, VLeaf (SVInt 255)); (0, VLeaf (SVInt (-12))); (1, VLeaf (SVBool true))], T "!")
  /\ scan_with no_rx narrow classic None string_src (map TScalar [TInt u8 UCharType; TInt i32 IntType; @TBool FloatInstance.exact]) (T "{:x}/{} {:s}") (T "ff/-12  true!")
     = Ok ([(0, VLeaf (SVInt 255)); (1, VLeaf (SVInt (-12))); (2, VLeaf (SVBool true))], T "!")
  /\ check_format_string narrow true true (map scalar_arg_type scalars2) any_parse (T "{2:x}/{0} {1:s}") = Ok tt.
Proof.
  split; [vm_compute; reflexivity|]. split; [vm_compute; reflexivity|].
  split; [repeat (apply Forall_cons; [constructor; reflexivity|]); apply Forall_nil|].
  split.
  { repeat (apply Forall_cons; [cbn [usual]|]); try apply Forall_nil; try exact I; unfold type_ok; cbn; auto 10. }
  split.
  { unfold wf_tok. cbn [wf_gtokens tokens3]. unfold wf_id, numeral.
    repeat match goal with
    | |- _ /\ _ => split
    | |- forall d', Some _ = Some d' -> _ => intros d' [= <-] t0 [= <-]; wf_desc_tac
    | |- forall d', None = Some d' -> _ => intros d'; discriminate
    end; try exact I; try (left; reflexivity); try (right; discriminate); try discriminate; try (cbn; lia);
    try (apply Forall_forall; intros c Hc; repeat destruct Hc as [<-|Hc]; [..|destruct Hc]; cbn; lia). }
  split.
  { split.
    - intros id d H. unfold tokens3 in H. cbn [In] in H. repeat (destruct H as [H|H]; [try discriminate H; injection H as <- _; discriminate|]). destruct H.
    - cbn. apply (Permutation_cons_app [0; 1] []). apply Permutation_refl. }
  split; [reflexivity|]. repeat split; vm_compute; reflexivity.
Qed.
(** At run time numbered and unnumbered fields may be mixed, which is rejected at compile time:
    here "{1} {}" reads the second argument and then the first. *)
Theorem C68_mixed_refuted : exists f s, 
  check_format_string narrow true true (map scalar_arg_type [TInt i32 IntType; @TBool FloatInstance.exact]) any_parse f = Err InvalidFormatString
  /\ scan_with no_rx narrow classic None string_src (map TScalar [TInt i32 IntType; @TBool FloatInstance.exact]) f s
     = Ok ([(1, VLeaf (SVBool true)); (0, VLeaf (SVInt 5))], []).
Proof. exists (T "{1} {}"), (T "true 5"). split; vm_compute; reflexivity. Qed.
Print Assumptions C68_mixed_refuted.
