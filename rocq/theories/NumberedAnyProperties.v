(** Property C68 for arguments of all types: scalars, ranges, tuples, user types. *)
From Coq Require Import String Permutation.
From Verif Require Import Prelude UnicodeModel ReadModel ReadProofs SpecsModel ArgsModel FormatModel FormatSpec FormatSpecProofs
  VscanModel VscanSpec IntModel ScalarModel StringModel RangesModel LocaleModel CheckerProofs VscanProofs VscanSpecProofs StringSafeProofs
  FloatSpec FloatProofs FloatInstance EncodingReadProofs VscanProperties ScalarProperties LocaleProperties DocTypesSpec DocTypesProofs DocTypesRun DocTypesProperties
  NumberedSpec NumberedProofs NumberedProperties IntProofs.
Import Coq.Strings.String.StringSyntax.
Local Open Scope list_scope.
Local Open Scope Z_scope.

Lemma unnumbered_args {V} r cf (args args' : list (arg V)) o : (forall k, (k < List.length o)%nat -> nth_error args' k = nth_error args (Z.to_nat (nth k o 0))) ->
  forall ts done next, all_numbered ts -> o = done ++ order ts -> wf_tokens (s_enc r) (spec_ok V r cf args) ts next ->
  wf_tokens (s_enc r) (spec_ok V r cf args') (map unnumbered ts) (Z.of_nat (List.length done)).
Proof.
  intros HT. unfold wf_tokens. induction ts as [|[c|id d] ts IH]; intros done next HA E; cbn [wf_gtokens map unnumbered]; [trivial| |];
    assert (HA' : all_numbered ts) by (intros id' d' H; apply (HA id' d'); right; exact H).
  - intros [H1 H2]. split; [exact H1|]. eapply IH; eassumption.
  - intros (_ & H2 & H3). split; [exact I|].
    destruct id as [ds|]; [|exfalso; apply (HA None d); [left|]; reflexivity].
    cbn [order flat_map app] in E. fold (order ts) in E. split.
    + intros d' -> t Ht. rewrite Nat2Z.id, HT in Ht by (rewrite E, app_length; cbn; lia). rewrite E, app_nth2, Nat.sub_diag in Ht by lia. cbn [nth] in Ht.
      destruct (H2 d' eq_refl t Ht) as [K1 K2]. split; [exact K1|]. apply wf_desc_align with (rest := render (s_enc r) ts); [apply unnumbered_align|exact K2].
    + replace (Z.of_nat (List.length done) + 1) with (Z.of_nat (List.length (done ++ [FormatSpec.number ds]))) by (rewrite app_length; cbn; lia).
      eapply IH; [exact HA'| |exact H3]. rewrite <- app_assoc. exact E.
Qed.
(** Arguments of any type (fields of ranges, tuples and user types without format-spec), whose
    readers leave a suffix of the source ([setup]). *)
Theorem C68_any_partial : forall V r cf (default : arg V) args ts source log rest,
  setup r cf args ts source -> refers_once ts (List.length args) ->
  vscan V r cf args (render (s_enc r) ts) source = Ok (log, rest)
  <-> exists log0, vscan V r cf (reordered (order ts) default args) (render (s_enc r) (map unnumbered ts)) source = Ok (log0, rest)
        /\ log = relabelled (order ts) log0.
Proof.
  intros V r cf default args ts source log rest HS [HA HO]. destruct HS as (Hc & Hr & Hcf & Hsf & Hpl & HU & HW & Hu).
  assert (HO' : Permutation (order ts) (zseq 0 (Z.to_nat (Z.of_nat (List.length args))))) by (rewrite Nat2Z.id; exact HO).
  assert (HL : List.length (reordered (order ts) default args) = List.length args).
  { unfold reordered. rewrite map_length. assert (H := o_length (Z.of_nat (List.length args)) (order ts) ltac:(lia) HO'). lia. }
  assert (HN : forall k, (k < List.length (order ts))%nat -> nth_error (reordered (order ts) default args) k = nth_error args (Z.to_nat (nth k (order ts) 0))).
  { apply reordered_nth. intros i Hi. apply (o_range (Z.of_nat (List.length args)) (order ts) HO') in Hi. lia. }
  assert (HK : forall k a, nth_error (reordered (order ts) default args) k = Some a -> (k < List.length (order ts))%nat).
  { intros k a Ek. assert (H0 : nth_error (reordered (order ts) default args) k <> None) by congruence. apply nth_error_Some in H0. unfold reordered in H0. rewrite map_length in H0. exact H0. }
  assert (HW' : wf_tokens (s_enc r) (spec_ok V r cf (reordered (order ts) default args)) (map unnumbered ts) 0).
  { exact (unnumbered_args r cf _ _ (order ts) HN ts [] 0 HA eq_refl HW). }
  assert (S' : setup r cf (reordered (order ts) default args) (map unnumbered ts) source).
  { split; [rewrite HL; exact Hc|]. split; [exact Hr|]. split; [exact Hcf|]. split.
    { intros i d s v s' Hs E. unfold read_arg in E. destruct (nth_error _ (Z.to_nat i)) as [a|] eqn:EA; [|discriminate]. assert (Hk := HK _ _ EA). rewrite HN in EA by exact Hk.
      apply (Hsf (nth (Z.to_nat i) (order ts) 0) d s v s' Hs). unfold read_arg. rewrite EA. exact E. }
    split.
    { apply Forall_forall. intros a Ha. apply In_nth_error in Ha. destruct Ha as [k Ek]. assert (Hk := HK _ _ Ek). rewrite HN in Ek by exact Hk.
      rewrite Forall_forall in Hpl. apply Hpl. eapply nth_error_In, Ek. }
    split; [apply unnumbered_uniform|]. split; [exact HW'|exact Hu]. }
  rewrite C18_tokens_partial by (repeat split; try assumption).
  assert (E : @expected V r args ts source = relabel (order ts) (@expected V r (reordered (order ts) default args) (map unnumbered ts) source)).
  { unfold expected, scan_spec. rewrite HL. change (@nil (Z * V)) with (relabelled (order ts) (@nil (Z * V))) at 1.
    apply (run_numbered (Z.of_nat (List.length args)) (order ts)) with (done := []); try assumption; try reflexivity.
    - lia.
    - intros k d s Hk. unfold meant, read_arg. rewrite Nat2Z.id, HN by exact Hk. reflexivity.
    - intros u u' x E. unfold code_fail. rewrite HL, E. reflexivity.
    - split; intros i; cbn; [tauto|lia]. }
  rewrite E. unfold relabel.
  split.
  - destruct (expected r _ (map unnumbered ts) source) as [[log0 s0]| | |] eqn:EX; try discriminate. cbn [bind]. intros [= <- <-].
    exists log0. split; [apply C18_tokens_partial; [exact S'|exact EX]|reflexivity].
  - intros (log0 & E0 & ->). apply C18_tokens_partial in E0; [|exact S']. rewrite E0. reflexivity.
Qed.
Print Assumptions C68_any_partial.

(** "{1}; {0:x} {2}" with an int, a vector and a word. *)
Definition targets68 : list (target FloatInstance.exact) :=
  [TScalar (TInt i32 IntType); TShape (vector_of 100 (SLeaf (TInt i32 IntType))); TScalar (TString (DString U8) NarrowStringType)].
Example C68_any_ex :
  scan_with no_rx narrow classic None string_src targets68 (T "{1}; {0:x} {2}") (T "[1, 22]; ff ab.")
     = Ok ([(1, VSeq [VLeaf (SVInt 1); VLeaf (SVInt 22)]); (0, VLeaf (SVInt 255)); (2, VLeaf (SVString (T "ab.")))], [])
  /\ scan_with no_rx narrow classic None string_src [nth 1 targets68 (TScalar TBool); nth 0 targets68 (TScalar TBool); nth 2 targets68 (TScalar TBool)] (T "{}; {:x} {}") (T "[1, 22]; ff ab.")
     = Ok ([(0, VSeq [VLeaf (SVInt 1); VLeaf (SVInt 22)]); (1, VLeaf (SVInt 255)); (2, VLeaf (SVString (T "ab.")))], []).
Proof. split; vm_compute; reflexivity. Qed.
(** A user type whose scanner reads one unit, and an int. *)
Definition unit_read (s : list Z) : outcome (Z * list Z) := match s with c :: s => Ok (c, s) | [] => Err EndOfInput end.
Definition unit_arg : arg Z := Arg Z CustomType unit_read unit_read (fun _ => unit_read) (fun f s => (f, unit_read s)).
Definition tokens68 : list token := [Field (Some (T "1")) None; Lit 58; Field (Some (T "0")) (Some (Desc None None None None false (Some (TyLetter 120))))].
Example C68_user_ex :
  render U8 tokens68 = T "{1}:{0:x}" /\ render U8 (map unnumbered tokens68) = T "{}:{:x}"
  /\ setup string_src narrow [int_arg; unit_arg] tokens68 (T "+:ff.") /\ refers_once tokens68 2
  /\ vscan Z string_src narrow [int_arg; unit_arg] (T "{1}:{0:x}") (T "+:ff.") = Ok ([(1, 43); (0, 255)], T ".")
  /\ vscan Z string_src narrow [unit_arg; int_arg] (T "{}:{:x}") (T "+:ff.") = Ok ([(0, 43); (1, 255)], T ".").
Proof.
  split; [vm_compute; reflexivity|]. split; [vm_compute; reflexivity|]. split.
  { split; [cbn; lia|]. split; [unfold good_src; cbn; auto|]. split; [reflexivity|]. split.
    - intros i d s v s' Hs E. assert (Hi : Z.to_nat i = 0%nat \/ Z.to_nat i = 1%nat \/ (2 <= Z.to_nat i)%nat) by lia. destruct Hi as [Hi|[Hi|Hi]].
      + apply (int_args_read 1 i (option_map (mean U8) d) s v s' Hs).
        * unfold read_arg in E |- *. rewrite Hi in *. exact E.
        * intros sp Esp. destruct d as [d|]; [|discriminate]. injection Esp as <-. apply mean_parsed_base.
      + unfold read_arg in E. rewrite Hi in E. cbn [nth_error] in E.
        assert (E' : unit_read s = Ok (v, s')) by (destruct d; exact E).
        destruct s as [|c s]; [discriminate|]. injection E' as _ <-. exists [c]. reflexivity.
      + unfold read_arg in E. destruct (Z.to_nat i) as [|[|k]]; [lia..|]. cbn [nth_error] in E. destruct k; discriminate.
    - split; [repeat constructor|]. split.
      { right. intros id d H. cbn [In tokens68] in H. repeat (destruct H as [H|H]; [try discriminate H; injection H as <- _; discriminate|]). destruct H. }
      split.
      { unfold wf_tokens. cbn [wf_gtokens tokens68]. unfold wf_id, numeral.
        repeat match goal with
        | |- _ /\ _ => split
        | |- forall d', Some _ = Some d' -> _ =>
            intros d' E; injection E as <-; intros a Ha; injection Ha as <-; split; [reflexivity|wf_desc_tac]
        | |- forall d', None = Some d' -> _ => intros d'; discriminate
        end; try (left; reflexivity); try (right; discriminate); try discriminate; try (cbn; lia);
        try exact I; try (apply Forall_forall; intros c Hc; repeat destruct Hc as [<-|Hc]; [..|destruct Hc]; cbn; lia). }
      vm_compute. repeat constructor; discriminate. }
  split.
  { split.
    - intros id d H. cbn [In tokens68] in H. repeat (destruct H as [H|H]; [try discriminate H; injection H as <- _; discriminate|]). destruct H.
    - cbn. apply perm_swap. }
  split; vm_compute; reflexivity.
Qed.
