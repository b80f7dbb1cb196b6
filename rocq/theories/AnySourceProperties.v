(** Booleans and pointers from any source, well-formed or not (C28, C31). *)
From Verif Require Import Prelude UnicodeModel ReadModel ReadProofs SpecsModel FormatModel FormatSpec FormatProofs ArgsModel SpecsInvProofs WhitespaceModel
  IntModel ArgReaderModel WidthSpec ArgReaderProofs ArgSafeProofs ScalarModel ScalarSpec ScalarProofs StringModel StringSafeProofs ScalarProperties RespaceProofs VscanProperties.
Local Open Scope Z_scope.

Lemma starts_strip w : forall s, starts_with w s = true -> strip w s = Some (skipn (length w) s).
Proof.
  induction w as [|c w IH]; intros s H; [destruct s; reflexivity|]. destruct s as [|d s]; [discriminate|]. cbn in H |- *.
  destruct (c =? d) eqn:E; [|rewrite Z.eqb_sym in E; rewrite ?E in H; cbn in H; discriminate].
  apply IH. apply andb_prop in H. apply H.
Qed.
Lemma strip_starts w : forall s t, strip w s = Some t -> starts_with w s = true /\ (length w <= length s)%nat.
Proof.
  induction w as [|c w IH]; intros s t H; [split; [reflexivity|cbn; lia]|]. destruct s as [|d s]; [discriminate|]. cbn in H |- *.
  destruct (c =? d) eqn:E; [|discriminate]. apply IH in H. rewrite ?(Z.eqb_sym d c), ?E. destruct H as [-> H]. split; [reflexivity|lia].
Qed.
Lemma matching_strip w s : match read_matching_string w s with inl it => strip w s = Some it | inr _ => strip w s = None end.
Proof.
  unfold read_matching_string. destruct (length s <? length w)%nat eqn:EL.
  - destruct (strip w s) as [t|] eqn:E; [|reflexivity]. apply strip_starts in E. apply Nat.ltb_lt in EL. lia.
  - destruct (starts_with w s) eqn:E; [apply starts_strip, E|]. destruct (strip w s) as [t|] eqn:ES; [|reflexivity]. apply strip_starts in ES. destruct ES. congruence.
Qed.
Lemma classic_spelled s : bool_textual_classic s = spelled [(true, word_true); (false, word_false)] s.
Proof.
  unfold bool_textual_classic, spelled, word_true, word_false. assert (M1 := matching_strip [116; 114; 117; 101] s). assert (M2 := matching_strip [102; 97; 108; 115; 101] s).
  destruct (read_matching_string [116; 114; 117; 101] s) as [it|]; rewrite M1; [reflexivity|]. destruct (read_matching_string _ s) as [it|]; rewrite M2; reflexivity.
Qed.
Lemma numeric_spelled s : bool_numeric s = spelled [(false, [48]); (true, [49])] s.
Proof.
  unfold bool_numeric, read_matching_code_unit, spelled. destruct s as [|c s]; [reflexivity|]. cbn [strip]. rewrite !(Z.eqb_sym _ c).
  destruct (c =? 48); [reflexivity|]. destruct (c =? 49); reflexivity.
Qed.
Lemma either_spelled tx nu s : bool_either tx nu bool_textual_classic s = spelled (spellings tx nu word_true word_false) s.
Proof.
  unfold bool_either, spellings. rewrite spelled_app, classic_spelled, numeric_spelled. destruct nu.
  - assert (HE := spelled_err [(false, [48]); (true, [49])] s False).
    destruct (spelled [(false, [48]); (true, [49])] s) as [[b l]|x| |]; try contradiction; [reflexivity|]. subst x. destruct tx; reflexivity.
  - destruct tx; reflexivity.
Qed.
(** The white space in front of a value is skipped; if nothing else is left, that is the error. *)
Definition behind_space (r : src) (s : list Z) : outcome (list Z) :=
  match read_while_classic_space r s with Ok [] => Err EndOfInput | x => x end.
Lemma skip_behind r s : skip_classic_whitespace r s false = behind_space r s.
Proof. unfold skip_classic_whitespace, behind_space. destruct (read_while_classic_space r s) as [[|c it]| | |]; reflexivity. Qed.
Lemma required_behind r s : units (s_enc r) s -> skip_ws_before_if_required r true s = behind_space r s.
Proof.
  intros HU. unfold skip_ws_before_if_required. destruct s as [|c s]; [|apply skip_behind]. unfold behind_space.
  destruct (read_while_classic_space_total r [] HU) as (s' & -> & [p E]). destruct p; [|discriminate]. destruct s'; [reflexivity|discriminate].
Qed.

(** Fields without width, precision and alignment: the longest white space is skipped, then one
    of the spellings must follow, and is all that is consumed.  Every source, whatever its bytes
    and segments. *)
Theorem C28_default : forall r s, units (s_enc r) s ->
  bool_default r s = (it <- behind_space r s ;; spelled (spellings true true word_true word_false) it).
Proof.
  intros r s HU. unfold bool_default, default_read. rewrite required_behind by exact HU.
  destruct (behind_space r s) as [it| | |]; try reflexivity. apply either_spelled.
Qed.
Theorem C28_plain : forall names r sp s, units (s_enc r) s -> plain_specs sp -> check_bool_type_specs sp = true -> localized sp = false ->
  bool_arg names r sp s = (it <- behind_space r s ;; spelled (spellings (fst (bool_options sp)) (snd (bool_options sp)) word_true word_false) it).
Proof.
  intros names r sp s HU HP HC HL. unfold bool_arg, arg_read_checked, bool_reader. cbn [rd_check rd_skip rd_specs]. rewrite HC, arg_read_plain, skip_behind by exact HP.
  destruct (behind_space r s) as [it| | |]; try reflexivity. cbn [bind]. unfold bool_specs. rewrite HL. destruct (bool_options sp). apply either_spelled.
Qed.
(** Every format-spec: it is an error, or one of the spellings stands in the consumed text. *)
Theorem C28_every_field : forall names r cf t fmt fmt' sp s, c_enc cf = s_enc r -> s_enc r <> U16 -> units (s_enc r) s ->
  parse_format_specs cf t fmt (SS specs_default false) = Ok (fmt', SS sp false) -> localized sp = false ->
  (exists e, bool_arg names r sp s = Err e)
  \/ exists b w pre post rest, bool_arg names r sp s = Ok (b, rest) /\ s = pre ++ w ++ post ++ rest
     /\ In (b, w) (spellings (fst (bool_options sp)) (snd (bool_options sp)) word_true word_false).
Proof.
  intros names r cf t fmt fmt' sp s Hcf He HU HF HL. unfold bool_arg, arg_read_checked, bool_reader. cbn [rd_check rd_skip rd_specs].
  destruct (check_bool_type_specs sp); [|left; eexists; reflexivity].
  assert (Hp := parse_parsed _ _ _ _ _ HF). cbn [ss_specs] in Hp. assert (Hf := parsed_fill_safe _ _ He Hp). assert (HP := p_prec _ Hp).
  assert (HB : forall r' v, bool_specs names r' sp v = spelled (spellings (fst (bool_options sp)) (snd (bool_options sp)) word_true word_false) v).
  { intros r' v. unfold bool_specs. rewrite HL. destruct (bool_options sp). apply either_spelled. }
  destruct (arg_read_total r sp true ltac:(lia) Hf _ (fun r' => bool_specs names r' sp)) with (s := s)
    as [[e E]|(x & rest & E & pre & value & post & v' & t' & H1 & H2 & _)]; try assumption.
  - intros v Hv. rewrite HB. assert (HE := spelled_err (spellings (fst (bool_options sp)) (snd (bool_options sp)) word_true word_false) v False).
    destruct (spelled _ v) as [[b l]|x| |] eqn:ES; try contradiction; [|left; eauto]. right. exists b, l. split; [reflexivity|].
    apply spelled_in in ES. destruct ES as (w & _ & ->). exists w. reflexivity.
  - left. exists e. exact E.
  - right. rewrite HB in H2. apply spelled_in in H2. destruct H2 as (w & Hw & Ev). apply app_inv_tail in Ev. subst value.
    exists x, w, pre, post, rest. auto.
Qed.
Print Assumptions C28_default.
Print Assumptions C28_plain.
Print Assumptions C28_every_field.
(** " \xfftrue": not white space, so not a boolean; "\xc2\x85 true\xff" after "{:_>7}". *)
Example C28_any_ex :
  bool_default string_src [32; 255; 116; 114; 117; 101] = Err InvalidScannedValue
  /\ bool_default string_src [32; 0xc2; 0x85; 116; 114; 117; 101; 255] = Ok (true, [255])
  /\ bool_default (Src U8 false (fun _ => 1%nat)) [32; 10; 48; 49] = Ok (false, [49])
  /\ bool_default string_src [32; 10] = Err EndOfInput
  /\ units U8 [32; 0xc2; 0x85; 116; 114; 117; 101; 255] /\ check_bool_type_specs specs_default = true /\ plain_specs specs_default
  /\ exists sp, parse_format_specs narrow BoolType [95; 62; 55; 115; 125] (SS specs_default false) = Ok ([125], SS sp false) /\ localized sp = false
     /\ bool_arg ([], []) string_src sp [95; 95; 95; 116; 114; 117; 101; 255] = Ok (true, [255]).
Proof.
  do 4 (split; [vm_compute; reflexivity|]). split; [repeat constructor; unfold is_byte; lia|]. split; [reflexivity|]. split; [repeat split|].
  eexists. split; [vm_compute; reflexivity|]. split; vm_compute; reflexivity.
Qed.

(** A pointer without a format-spec is read as an unsigned integer with "{:x}". *)
Theorem C31_default : forall sep sep' r s, units (s_enc r) s ->
  pointer_default sep r s = u64_arg sep' r (mean (s_enc r) (Desc None None None None false (Some (TyLetter 120)))) s.
Proof.
  intros sep sep' r s HU. unfold pointer_default, default_read. rewrite required_behind, <- skip_behind by exact HU.
  unfold u64_arg, arg_read_checked, int_reader. cbn [rd_check rd_skip rd_specs].
  change (check_int_type_specs (mean (s_enc r) (Desc None None None None false (Some (TyLetter 120))))) with true. cbv iota.
  rewrite arg_read_plain by (repeat split). destruct (skip_classic_whitespace r s false) as [it| | |]; reflexivity.
Qed.
Print Assumptions C31_default.
Example C31_default_ex :
  pointer_default 0 (Src U8 false (fun _ => 1%nat)) [32; 0xc2; 0x85; 48; 120; 102; 70; 255] = Ok (255, [255]) /\ units U8 [32; 0xc2; 0x85; 48; 120; 102; 70; 255].
Proof. split; [vm_compute; reflexivity|]. repeat constructor; unfold is_byte; lia. Qed.
