(** Property C60, continued: ranges and tuples. *)
From Coq Require Import String.
From Verif Require Import Prelude UnicodeModel UnicodeSpec WhitespaceModel ReadModel SpecsModel FormatModel FormatProofs ArgsModel SpecsInvProofs
  IntModel ArgReaderModel WidthSpec WidthProofs ArgReaderProofs ScalarModel StringModel FloatModel FloatSpec FloatProofs FloatInstance RangesModel RangesProofs VscanModel FormatSpec LocaleModel
  EncodingProofs EncodingLoopProofs EncodingReadProofs EncodingFloatProofs VscanProperties LocaleProperties EncodingProperties VscanSpec ReadProofs StringProofs LockstepProofs.
Import Coq.Strings.String.StringSyntax.
Local Open Scope string_scope.
Local Open Scope list_scope.
Local Open Scope Z_scope.

(** ** One value, from sources stored alike *)
Section Leaf.
Context {F : Type}.
Variables (rx8 rx32 : regex_engine) (global : locale) (l : locale_ref).
Notation loc := (get_locale global l).
Hypothesis Hrx : same_engine rx8 rx32.
Hypothesis Hsep : ascii (l_sep loc).
Hypothesis Hyes : ascii_str (l_true loc).
Hypothesis Hno : ascii_str (l_false loc).
Lemma specs_twin_any r8 r32 (t : scalar_type F) sp cps : alike r8 r32 -> wholes r8 -> portable global l t -> ascii_specs sp -> parsed sp -> good cps ->
  twin cps (scalar_specs rx8 r8 loc t sp (text U8 cps)) (scalar_specs rx32 r32 loc t sp cps).
Proof.
  intros HA HW [_ Ht] HS HP HG. destruct t; cbn [scalar_specs]; apply as_value_twin.
  - apply checked_twin; auto. intros _ r r' ds HA' _ Hds. apply int_specs_twin; auto.
  - apply bool_specs_twin; auto.
  - subst k. apply checked_twin; auto. intros _ r r' ds HA' _ Hds. apply char_twin; auto.
  - apply checked_twin; auto. intros _ r r' ds HA' _ Hds. apply pointer_twin; auto.
  - destruct d; [|contradiction]. apply string_specs_twin; auto.
  - destruct Ht as [-> [M C]]. apply (float_specs_twin _ M C); auto.
Qed.
End Leaf.
Definition whole_src (e : enc) : src := Src e false (fun n => n).
Lemma whole_alike : alike (whole_src U8) (whole_src U32).
Proof. repeat split. Qed.
Lemma whole_whole : wholes (whole_src U8).
Proof. intros cps _ _ a b _. exists b, []. rewrite app_nil_r. split; [reflexivity|]. cbn [whole_src s_seg]. apply firstn_all. Qed.
Lemma text_nil e cps : e <> U16 -> text e cps = [] -> cps = [].
Proof.
  intros He. destruct cps as [|c cps]; [reflexivity|]. unfold text. cbn [flat_map]. destruct e; [|contradiction|discriminate].
  cbn [encode]. unfold utf8_of. destruct (c <? 128); [discriminate|]. destruct (c <? 2048); [discriminate|]. destruct (c <? 65536); discriminate.
Qed.
Lemma element_alike sp cps : alike (element_src string_src sp (text U8 cps)) (element_src wide_src sp cps) /\ wholes (element_src string_src sp (text U8 cps)).
Proof.
  unfold element_src. cbn [string_src wide_src s_contig s_enc]. cbv zeta.
  assert (E : match text U8 cps with [] => false | _ => true end = match cps with [] => false | _ => true end).
  { destruct cps as [|c cps]; [reflexivity|]. destruct (text U8 (c :: cps)) eqn:EQ; [apply text_nil in EQ; discriminate|reflexivity]. }
  rewrite E. destruct (_ || _); [split; [apply strings_alike|apply strings_whole]|]. split; [apply whole_alike|apply whole_whole].
Qed.

(** ** Texts in lockstep: the encoding of what is left of [all], and its code points *)
Definition encoded (all s8 s32 : list Z) : Prop := s8 = text U8 s32 /\ good s32 /\ exists a, all = a ++ s32.
Lemma encoded_empty all s : (encoded all [] s -> s = []) /\ (encoded all s [] -> s = []).
Proof. split; intros (H & _); [apply (text_nil U8); [discriminate|congruence]|exact H]. Qed.
Lemma encoded_head all c d s d' s' : ascii c -> encoded all (d :: s) (d' :: s') -> (d =? c) = (d' =? c) /\ (d = c -> encoded all s s').
Proof.
  intros Hc (E & HG & a & EA). inversion HG as [|? ? [Hd _] HG']; subst.
  assert (ET : text U8 (d' :: s') = encode U8 d' ++ text U8 s') by reflexivity. rewrite ET in E. clear ET. cbn [encode] in E. unfold utf8_of, ascii, scalar in *.
  destruct (d' <? 128) eqn:E1.
  - injection E as -> ->. split; [reflexivity|]. intros _. split; [reflexivity|]. split; [exact HG'|]. exists (a ++ [d']). rewrite <- app_assoc. reflexivity.
  - assert (0 <= d' / 64) by (apply Z.div_pos; lia). assert (0 <= d' / 4096) by (apply Z.div_pos; lia). assert (0 <= d' / 262144) by (apply Z.div_pos; lia).
    assert (HD : 128 <= d) by (destruct (d' <? 2048); [|destruct (d' <? 65536)]; injection E as E _; lia). split; [lia|]. intros EC. lia.
Qed.
Lemma encoded_skip all s s' : encoded all s s' -> pairE eq (encoded all) (skip_classic_whitespace (whole_src U8) s false) (skip_classic_whitespace (whole_src U32) s' false).
Proof.
  intros (-> & HG & a & EA).
  assert (H1 := skip_ws_text (whole_src U8) s' false (whole_whole s') (good_scalar _ HG)).
  assert (H2 := skip_ws_text (whole_src U32) s' false ltac:(apply wide_whole; discriminate) (good_scalar _ HG)).
  cbn [whole_src s_enc] in H1, H2. rewrite !text32 in H2. fold (whole_src U8) in H1. fold (whole_src U32) in H2. rewrite H1, H2.
  cbn [negb andb]. destruct (Nat.eqb _ _); [reflexivity|]. cbn. split; [reflexivity|].
  assert (X := lead_after is_ws s'). split.
  - rewrite <- X in HG. apply good_app in HG. apply HG.
  - exists (a ++ lead is_ws s'). rewrite <- app_assoc, X. exact EA.
Qed.
Lemma twin_encoded {V} all s8 s32 (x y : outcome (V * list Z)) : encoded all s8 s32 -> twin s32 x y -> stepE eq (encoded all) x y.
Proof.
  intros (_ & HG & a & EA) [-> HY]. unfold stepE. destruct y as [[v m]| | |]; cbn; auto. split; [reflexivity|]. split; [reflexivity|].
  destruct (HY v m eq_refl) as [b Eb]. rewrite Eb in HG. apply good_app in HG. split; [apply HG|]. exists (a ++ b). rewrite <- app_assoc, <- Eb. exact EA.
Qed.
Lemma encoded_twin {V} all (x y : outcome (V * list Z)) : stepE eq (encoded all) x y -> twin all x y.
Proof.
  unfold stepE. intros H. split; destruct x as [[v m]|e| |], y as [[w n]|e'| |]; cbn in *; try contradiction; try discriminate; try congruence.
  - destruct H as (-> & -> & _). reflexivity.
  - intros v' l' [= <- <-]. destruct H as (_ & _ & _ & H). exact H.
Qed.

Section Any.
Context {F : Type}.
Variables (rx8 rx32 : regex_engine) (cf8 cf32 : config) (global : locale) (l : locale_ref).
Definition ascii_locale (lo : locale) : Prop := ascii (l_sep lo) /\ ascii_str (l_true lo) /\ ascii_str (l_false lo).
(** Arguments of any type, ranges with ASCII punctuation.  (The elements of a range are read with
    the global locale.) *)
Inductive same_any : target F -> target F -> Prop :=
| same_simple t8 t32 : same_target global l t8 t32 -> same_any t8 t32
| same_shape sh : shape_over ascii (portable global None) sh -> same_any (TShape sh) (TShape sh).
Hypothesis Hcf : same_config cf8 cf32.
Hypothesis Hrx : same_engine rx8 rx32.
Hypothesis Hloc : ascii_locale (get_locale global l).
Hypothesis Hglobal : ascii_locale (get_locale global None).

Lemma shape_twin (sh : shape (scalar_type F)) sp cps : shape_over ascii (portable global None) sh -> ascii_specs sp -> parsed sp -> good cps ->
  twin cps (shape_scan rx8 global string_src sh sp (text U8 cps)) (shape_scan rx32 global wide_src sh sp cps).
Proof.
  intros HO HS HP HG. apply encoded_twin. unfold shape_scan. change (custom_src string_src) with (whole_src U8). change (custom_src wide_src) with (whole_src U32).
  apply (shape_same eq (@eq_refl err) (whole_src U8) (whole_src U32) (encoded cps) ascii) with (okleaf := portable global None) (SpOK := fun sp => ascii_specs sp /\ parsed sp); auto.
  - apply encoded_empty.
  - apply encoded_head.
  - apply encoded_skip.
  - split; [|apply parsed_default]. split; [exists 32; split; [unfold ascii; lia|reflexivity]|constructor].
  - intros t q s s' Ht [Hq Hq'] HR. eapply twin_encoded; [exact HR|]. destruct HR as (-> & HG' & _). unfold element_scan.
    destruct (element_alike q s') as [HA HW]. destruct Hglobal as (L1 & L2 & L3). apply specs_twin_any; auto.
  - split; [reflexivity|]. split; [exact HG|]. exists []. reflexivity.
Qed.
Lemma any_twins t8 t32 : same_any t8 t32 ->
  twins good (target_arg rx8 cf8 global l string_src t8) (target_arg rx32 cf32 global l wide_src t32).
Proof.
  destruct Hloc as (L1 & L2 & L3). intros [t1 t2 Ht|sh Hsh]; [apply targets_twins; auto|].
  assert (SD : ascii_specs specs_default) by (split; [exists 32; split; [unfold ascii; lia|reflexivity]|constructor]).
  constructor; cbn [target_arg ar_type ar_default ar_plain ar_specs ar_custom].
  - reflexivity.
  - split; discriminate.
  - intros. apply shape_twin; auto. apply parsed_default.
  - intros. apply shape_twin; auto. apply parsed_default.
  - congruence.
  - intros _ f cps Hf HG.
    assert (HT : forall a, shape_type sh = Some a -> no_regex a).
    { clear -Hsh. induction sh as [t|n p sh IH|p es IH] using shape_all; cbn in *; intros a E; [injection E as <-; apply Hsh|apply IH; [apply Hsh|exact E]|discriminate E]. }
    unfold shape_parse. destruct (shape_type sh) as [a|]; [destruct f as [|c f]|].
    + cbn. split; [reflexivity|]. split; [exact Hf|]. apply shape_twin; auto. apply parsed_default.
    + destruct (specs_ascii cf8 cf32 a (c :: f) Hcf Hf) as [EQ HA]. rewrite EQ.
      destruct (parse_format_specs_safe cf32 a (c :: f) (SS specs_default false) (HT a eq_refl)) as (p & st & EP & HSf). rewrite EP in *. cbn [bind fst snd].
      split; [reflexivity|]. split; [eapply suffix_Forall; eassumption|]. apply shape_twin; auto. eapply parse_parsed, EP.
    + cbn. split; [reflexivity|]. split; [exact Hf|]. apply shape_twin; auto. apply parsed_default.
Qed.
(** As C60_partial, with ranges and tuples, of any depth, among the arguments. *)
Theorem C60_any_partial ts8 ts32 format cps : Forall2 same_any ts8 ts32 -> ascii_str format -> good cps ->
  scan_with rx8 cf8 global l string_src ts8 format (text U8 cps)
  = ('(vs, rest) <- scan_with rx32 cf32 global l wide_src ts32 format cps ;; Ok (vs, text U8 rest)).
Proof.
  intros HT HF HG. unfold scan_with.
  apply (vscan_twin string_src wide_src cf8 cf32 eq_refl eq_refl Hcf good); auto.
  - intros ds Hds. split; [apply good_scalar, Hds|apply strings_whole].
  - intros a b H. apply good_app in H. apply H.
  - induction HT; constructor; auto. apply any_twins. assumption.
Qed.
End Any.
Print Assumptions C60_any_partial.

(** "{} -> {:*^7}" with a map from int to string and a vector of double. *)
Definition map60 : target exact := TShape (map_of 9 (SLeaf (TInt i32 IntType)) (SLeaf (TString (DString U8) NarrowStringType))).
Definition dbls60 : target exact := TShape (vector_of 9 (SLeaf (TFloat (exact_fp false) DoubleType))).
Definition range60 : list Z := [0x2028] ++ T "{ 1:" ++ [233; 0x20ac] ++ T " , -2 : a" ++ [0x1f600] ++ [133] ++ T "} -> [**1.5**,*25**** ]" ++ [233].
Example C60_any_ex :
  wide_scan [map60; dbls60] "{} -> {:*^7}" range60
    = Ok ([(0, VSeq [VTup [VLeaf (SVInt 1); VLeaf (SVString [195; 169; 226; 130; 172])]; VTup [VLeaf (SVInt (-2)); VLeaf (SVString [97; 240; 159; 152; 128])]]);
           (1, VSeq [VLeaf (SVFloat (Fraction false 15 10)); VLeaf (SVFloat (Fraction false 25 1))])], [233])
  /\ narrow_scan [map60; dbls60] "{} -> {:*^7}" range60
    = Ok ([(0, VSeq [VTup [VLeaf (SVInt 1); VLeaf (SVString [195; 169; 226; 130; 172])]; VTup [VLeaf (SVInt (-2)); VLeaf (SVString [97; 240; 159; 152; 128])]]);
           (1, VSeq [VLeaf (SVFloat (Fraction false 15 10)); VLeaf (SVFloat (Fraction false 25 1))])], [195; 169])
  /\ Forall2 (same_any classic None) [map60; dbls60] [map60; dbls60] /\ ascii_locale (get_locale classic None)
  /\ same_config narrow wide /\ same_engine rest_engine rest_engine /\ good range60.
Proof.
  split; [vm_compute; reflexivity|]. split; [vm_compute; reflexivity|].
  assert (N : forall a, a <> NarrowRegexMatchesType -> a <> WideRegexMatchesType -> no_regex a) by (intros a H1 H2; split; assumption).
  assert (A : forall s, forallb (fun c => (0 <=? c) && (c <? 128)) s = true -> ascii_str s).
  { intros s H. apply Forall_forall. intros c Hc. rewrite forallb_forall in H. specialize (H c Hc). unfold ascii. lia. }
  assert (PP : forall p, p = seq_punct \/ p = set_punct \/ p = pair_punct -> punct_all ascii p).
  { intros p [-> |[-> | ->]]; (split; [|split]); apply A; reflexivity. }
  split.
  { apply Forall2_cons; [|apply Forall2_cons; [|apply Forall2_nil]]; apply same_shape; (split; [apply PP; auto|]).
    - split; [apply PP; auto|]. split; [split; [apply N; discriminate|exact I]|]. split; [|exact I]. split; [apply N; discriminate|discriminate].
    - split; [apply N; discriminate|]. split; [reflexivity|]. exists exact_meaning. apply exact_converts. }
  split; [split; [|split; apply A; reflexivity]; unfold ascii; cbn; lia|]. split; [unfold same_config; cbn; auto 10|]. split; [exact rest_same|]. apply good_check. reflexivity.
Qed.
