(** Proofs about what can follow a scanned value: integers.  src/scn/impl.h:3255-3658. *)
From Verif Require Import Prelude Tables BitsModel UnicodeModel UnicodeSpec ReadModel ReadProofs SpecsModel FormatModel FormatProofs ArgsModel VscanSpec
  CheckerProofs SpecsInvProofs IntModel IntSpec IntProofs WidthModel WidthSpec WidthProofs ArgReaderModel ArgReaderProofs ScalarModel
  ScalarSpec ScalarProofs EncodingProofs EncodingLoopProofs EncodingReadProofs FollowSpec FollowProofs.
Local Open Scope Z_scope.

(** The prefix of an integer in wide text. *)
Definition lettered (b : Z) (q : list Z) : option Z :=
  if ((b =? 16) || (b =? 0)) && pfx_match 120 q then Some 16
  else if ((b =? 2) || (b =? 0)) && pfx_match 98 q then Some 2
  else if ((b =? 8) || (b =? 0)) && pfx_match 111 q then Some 8
  else None.
Definition zeroed (b : Z) (q : list Z) : bool :=
  ((b =? 8) || (b =? 0)) && match q with c :: _ => c =? 48 | [] => false end.
Definition wide_prefix (b : Z) (sg : sign_type) (q : list Z) : prefix_result :=
  match lettered b q with
  | Some B => PR (if not_digit_of B (skipn 2 q) then q else skipn 2 q) B sg false
  | None =>
      if zeroed b q then
        if not_digit_of 8 (skipn 1 q) then PR q 8 sg true else PR (skipn 1 q) 8 sg false
      else PR q (if b =? 0 then 10 else b) sg false
  end.
Definition default_plus (sg : sign_type) : sign_type := match sg with DefaultSign => PlusSign | _ => sg end.
Lemma prefix_wide r s b : s_enc r = U32 -> b = 0 \/ base_ok b ->
  parse_integer_prefix r s b = ('(q, sg) <- parse_numeric_sign s ;; Ok (wide_prefix b (default_plus sg) q)).
Proof.
  intros E32 Hb. unfold parse_integer_prefix. destruct (parse_numeric_sign s) as [[q sg]| | |]; [|reflexivity..]. cbn [bind].
  fold (default_plus sg). set (g := default_plus sg). clearbody g. clear sg s.
  assert (N : forall L, L = 98 \/ L = 120 \/ L = 111 -> match read_matching_string_classic_nocase r [48; L] q with
     | inl it => pfx_match L q = true /\ it = skipn 2 q | inr _ => pfx_match L q = false end).
  { intros L HL. apply nocase_prefix; [exact HL|unfold enc_ok; congruence|unfold no_dle; congruence]. }
  assert (PX := N 120 ltac:(lia)). assert (PB := N 98 ltac:(lia)). assert (PO := N 111 ltac:(lia)). clear N.
  unfold parse_integer_base_prefix, parse_integer_base_prefix_for_detection, parse_integer_hex_base_prefix, parse_integer_bin_base_prefix, parse_integer_oct_base_prefix.
  unfold wide_prefix, lettered, zeroed.
  assert (SQ : forall B, (if not_digit_of B q then q else q) = q) by (intros B; destruct (not_digit_of B q); reflexivity).
  assert (Z48 : match read_matching_code_unit 48 q with inl it => q = 48 :: it | inr _ => match q with c :: _ => c =? 48 | [] => false end = false end).
  { unfold read_matching_code_unit. destruct q as [|c q']; [reflexivity|]. destruct (Z.eqb_spec c 48) as [->|]; reflexivity. }
  destruct (Z.eqb_spec b 2) as [->|N2].
  { cbn [Z.eqb Pos.eqb orb andb]. destruct (read_matching_string_classic_nocase r [48; 98] q).
    - destruct PB as [-> ->]. cbn. destruct (not_digit_of 2 (skipn 2 q)); reflexivity.
    - rewrite PB. cbn. rewrite SQ. reflexivity. }
  destruct (Z.eqb_spec b 8) as [->|N8].
  { cbn [Z.eqb Pos.eqb orb andb]. destruct (read_matching_string_classic_nocase r [48; 111] q).
    - destruct PO as [-> ->]. cbn. destruct (not_digit_of 8 (skipn 2 q)); reflexivity.
    - rewrite PO. destruct (read_matching_code_unit 48 q).
      + subst q. cbn. destruct (not_digit_of 8 l); reflexivity.
      + rewrite Z48. cbn. rewrite SQ. reflexivity. }
  destruct (Z.eqb_spec b 16) as [->|N16].
  { cbn [Z.eqb Pos.eqb orb andb]. destruct (read_matching_string_classic_nocase r [48; 120] q).
    - destruct PX as [-> ->]. cbn. destruct (not_digit_of 16 (skipn 2 q)); reflexivity.
    - rewrite PX. cbn. rewrite SQ. reflexivity. }
  destruct (Z.eqb_spec b 0) as [->|N0].
  - cbn [Z.eqb Pos.eqb orb andb]. destruct (read_matching_string_classic_nocase r [48; 120] q).
    { destruct PX as [-> ->]. cbn. destruct (not_digit_of 16 (skipn 2 q)); reflexivity. } rewrite PX.
    destruct (read_matching_string_classic_nocase r [48; 98] q).
    { destruct PB as [-> ->]. cbn. destruct (not_digit_of 2 (skipn 2 q)); reflexivity. } rewrite PB.
    destruct (read_matching_string_classic_nocase r [48; 111] q).
    { destruct PO as [-> ->]. cbn. destruct (not_digit_of 8 (skipn 2 q)); reflexivity. } rewrite PO.
    destruct (read_matching_code_unit 48 q).
    + subst q. cbn. destruct (not_digit_of 8 l); reflexivity.
    + rewrite Z48. cbn. rewrite SQ. reflexivity.
  - cbn [orb andb]. rewrite SQ. reflexivity.
Qed.
Lemma lettered_base b q B : lettered b q = Some B -> B = 16 \/ B = 2 \/ B = 8.
Proof. unfold lettered. repeat match goal with |- context [if ?c then _ else _] => destruct c end; intros [= <-]; auto. Qed.
Lemma lettered_shape b q B : lettered b q = Some B ->
  exists l q2, q = 48 :: l :: q2 /\ is_ws l = false /\ ~ is_digit B l /\ digit_value l <> None
    /\ forall q2', lettered b (48 :: l :: q2') = Some B.
Proof.
  intros H.
  assert (P : forall L, pfx_match L q = true -> exists l q2, q = 48 :: l :: q2 /\ (l = L \/ l = L - 32)).
  { intros L HP. destruct q as [|z [|l q2]]; try discriminate. cbn [pfx_match] in HP. unfold prefix_letter in HP.
    exists l, q2. split; [f_equal; lia|lia]. }
  assert (Q : exists L, pfx_match L q = true /\ (L = 120 /\ B = 16 \/ L = 98 /\ B = 2 \/ L = 111 /\ B = 8)).
  { unfold lettered in H. destruct (((b =? 16) || (b =? 0)) && pfx_match 120 q) eqn:E1.
    { apply andb_true_iff in E1 as [_ E1]. injection H as <-. exists 120. auto. }
    destruct (((b =? 2) || (b =? 0)) && pfx_match 98 q) eqn:E2.
    { apply andb_true_iff in E2 as [_ E2]. injection H as <-. exists 98. auto. }
    destruct (((b =? 8) || (b =? 0)) && pfx_match 111 q) eqn:E3; [|discriminate].
    apply andb_true_iff in E3 as [_ E3]. injection H as <-. exists 111. auto 6. }
  destruct Q as (L & HP & HL). destruct (P L HP) as (l & q2 & -> & Hl). exists l, q2. split; [reflexivity|].
  split; [destruct HL as [[-> _]|[[-> _]|[-> _]]], Hl as [->| ->]; reflexivity|].
  split; [intros (d & Hd & Hlt); destruct HL as [[-> ->]|[[-> ->]|[-> ->]]], Hl as [->| ->]; injection Hd as <-; lia|].
  split; [destruct HL as [[-> _]|[[-> _]|[-> _]]], Hl as [->| ->]; discriminate|].
  intros q2'. exact H.
Qed.
(** No prefix is decided by two characters. *)
Lemma lettered_ws b c w q : is_ws w = true -> lettered b (c :: w :: q) = None.
Proof.
  intros Hw. unfold lettered. cbn [pfx_match]. assert (P : forall L, L = 120 \/ L = 98 \/ L = 111 -> prefix_letter w L = false).
  { intros L HL. destruct (prefix_letter w L) eqn:EP; [|reflexivity]. unfold prefix_letter in EP. apply orb_true_iff in EP.
    exfalso. destruct HL as [->|[->| ->]], EP as [EP|EP]; apply Z.eqb_eq in EP; subst w; discriminate. }
  rewrite !P by auto. rewrite !andb_false_r. reflexivity.
Qed.
Lemma lettered_none b c q q' : lettered b (c :: q) = None -> (q' = [] \/ (exists d l l', q = d :: l /\ q' = d :: l') \/ exists w l', q' = w :: l' /\ is_ws w = true) -> lettered b (c :: q') = None.
Proof.
  intros H [->|[(d & l & l' & -> & ->)|(w & l' & -> & Hw)]]; [|exact H|apply lettered_ws, Hw]. unfold lettered. cbn. rewrite !andb_false_r. reflexivity.
Qed.
Lemma ws_no_digit w : is_ws w = true -> digit_value w = None.
Proof.
  unfold is_ws. intros H. apply existsb_exists in H. destruct H as (c & HI & HC). apply Z.eqb_eq in HC. subst c.
  repeat (destruct HI as [<-|HI]; [reflexivity|]). destruct HI.
Qed.

(** After the prefix. *)
Section Tail.
Context {R : list Z -> list Z -> Prop} {HR0 : gentle R}.
Variables (r : src) (t : inttype) (sep : Z) (loc : bool).
Hypothesis E32 : s_enc r = U32.
Hypothesis Hsep : loc = true -> digit_value sep = None.
(** What may be next after a number. *)
Definition next_like (rest rest' : list Z) : Prop :=
  rest' = [] \/ (exists c l l', rest = c :: l /\ rest' = c :: l') \/ exists w l', rest' = w :: l' /\ is_ws w = true /\ (loc = true -> w <> sep).
Lemma like_weak q q' : next_like q q' -> q' = [] \/ (exists d l l', q = d :: l /\ q' = d :: l') \/ exists w l', q' = w :: l' /\ is_ws w = true.
Proof. intros [->|[H|(w & l' & E & Hw & _)]]; eauto 6. Qed.
Definition int_tail (p : prefix_result) : outcome (Z * list Z) :=
  if pr_zero p then it <- next1 (pr_it p) ;; Ok (0, it)
  else if negb loc then read_digits r t p
  else
    '(_, nothsep, idx) <- parse_integer_digits_with_thsep sep (pr_it p) (pr_base p) ;;
    '(v, rest) <- parse_integer_value (s_enc r) t nothsep (pr_sign p) (pr_base p) ;;
    Ok (v, skipn (length nothsep - length rest + length idx) (pr_it p)).
Lemma next_no_digit B rest rest' : next_like rest rest' -> ~ starts_with_digit B rest -> ~ starts_with_digit B rest'.
Proof.
  intros [->|[(c & l & l' & -> & ->)|(w & l' & -> & Hw & _)]]; [auto|auto|]. intros _ (d & Hd & _). rewrite (ws_no_digit w Hw) in Hd. discriminate.
Qed.
Lemma mixed_exists B s : exists mixed rest, thsep_run sep B s mixed rest.
Proof.
  induction s as [|c s (mixed & rest & E & H1 & H2)].
  - exists [], []. split; [reflexivity|]. split; [constructor|exact I].
  - destruct (Z.eq_dec c sep) as [->|N].
    { exists (sep :: mixed), rest. split; [rewrite E; reflexivity|]. split; [constructor; auto|exact H2]. }
    destruct (digitb B c) eqn:ED.
    { exists (c :: mixed), rest. split; [rewrite E; reflexivity|]. split; [constructor; [right; apply digitb_is_digit, ED|exact H1]|exact H2]. }
    exists [], (c :: s). split; [reflexivity|]. split; [constructor|]. split; [exact N|]. rewrite <- digitb_is_digit. congruence.
Qed.
Lemma tail_local it B sg z v rest : base_ok B -> sg <> DefaultSign -> (it_signed t = false -> is_minus sg = false) ->
  int_tail (PR it B sg z) = Ok (v, rest) ->
  exists m, it = m ++ rest /\ m <> [] /\ (z = false -> Forall (fun c => is_digit B c \/ loc = true /\ c = sep) m) /\ (z = true -> exists c, m = [c])
    /\ forall rest', next_like rest rest' -> int_tail (PR (m ++ rest') B sg z) = Ok (v, rest').
Proof.
  intros HB Hsg Hm. assert (B36 : B <= 36) by (unfold base_ok in HB; lia). unfold int_tail. cbn [pr_zero pr_it pr_base pr_sign]. destruct z.
  { destruct it as [|c it]; [discriminate|]. intros [= <- <-]. exists [c]. split; [reflexivity|]. split; [discriminate|]. split; [discriminate|]. split; [eauto|]. intros rest' _. reflexivity. }
  destruct (negb loc) eqn:EL.
  - intros E. destruct (not_digit_of B it) eqn:EN.
    { rewrite read_digits_none in E; auto; [discriminate|]. cbn. rewrite <- not_digit_of_spec by exact B36. congruence. }
    apply not_digit_of_spec in EN; [|exact B36]. destruct (run_exists _ _ EN) as (ds & rs & HR). assert (HR' := HR). destruct HR' as (Es & Hne & Hds & Hr).
    rewrite (read_digits_value r t (PR it B sg false) ds rs) in E by (auto; unfold enc_ok; congruence). cbn [pr_sign pr_base] in E.
    destruct (parse_integer_value (s_enc r) t ds sg B) as [[v0 l0]| | |] eqn:EP; try discriminate. injection E as -> <-.
    exists ds. split; [exact Es|]. split; [exact Hne|]. split; [intros _; eapply Forall_impl; [|exact Hds]; auto|]. split; [discriminate|]. intros rest' HN.
    rewrite (read_digits_value r t (PR (ds ++ rest') B sg false) ds rest'); auto; [|unfold enc_ok; congruence|].
    + cbn [pr_sign pr_base]. rewrite EP. reflexivity.
    + cbn [pr_base pr_it]. split; [reflexivity|]. split; [exact Hne|]. split; [exact Hds|]. exact (next_no_digit B rs rest' HN Hr).
  - apply negb_false_iff in EL. intros E. destruct (mixed_exists B it) as (mixed & rs & Es & H1 & H2).
    unfold parse_integer_digits_with_thsep in *.
    destruct (thsep_loop_spec sep B mixed rs B36 H1 H2 0 [] [] false) as (idx & L1 & L2 & L3). rewrite Es, L1 in E. cbn [app orb] in E.
    destruct (negb (length (IntProofs.strip sep mixed) =? 0)%nat) eqn:E0; [|discriminate]. cbn [bind] in E.
    assert (HD := strip_digits sep B mixed H1).
    assert (NE : IntProofs.strip sep mixed <> []) by (intros X; rewrite X in E0; discriminate).
    assert (P := piv_app (s_enc r) t (IntProofs.strip sep mixed) [] sg B HB). rewrite app_nil_r in P.
    specialize (P ltac:(unfold enc_ok; congruence) NE HD (fun x => x)).
    destruct (parse_integer_value (s_enc r) t (IntProofs.strip sep mixed) sg B) as [[v0 l0]| | |] eqn:EP; try discriminate. cbn [with_rest] in P. injection P as ->. cbn [bind length] in E.
    rewrite Nat.sub_0_r in E. cbn [length] in L2.
    replace (length (IntProofs.strip sep mixed) + length idx)%nat with (length mixed) in E by lia. rewrite skipn_len_app in E. injection E as -> <-.
    exists mixed. split; [exact Es|]. split; [intros ->; apply NE; reflexivity|]. split; [intros _; eapply Forall_impl; [|exact H1]; cbn; intros c [->|Hc]; auto|]. split; [discriminate|].
    intros rest' HN.
    assert (H2' : match rest' with c :: _ => c <> sep /\ ~ is_digit B c | [] => True end).
    { destruct HN as [->|[(c & l & l' & -> & ->)|(w & l' & -> & Hw & Hs)]]; [exact I|exact H2|]. split; [exact (Hs EL)|].
      intros (d & Hd & _). rewrite (ws_no_digit w Hw) in Hd. discriminate. }
    destruct (thsep_loop_spec sep B mixed rest' B36 H1 H2' 0 [] [] false) as (idx' & L1' & L2' & _). rewrite L1'. cbn [app orb]. rewrite E0. cbn [bind].
    rewrite EP. cbn [bind length]. rewrite Nat.sub_0_r. cbn [length] in L2'.
    replace (length (IntProofs.strip sep mixed) + length idx')%nat with (length mixed) by lia. rewrite skipn_len_app. reflexivity.
Qed.
Lemma tail_zero B sg v : base_ok B -> int_tail (PR [48] B sg false) = Ok (v, []) -> v = 0.
Proof.
  intros HB. unfold int_tail. cbn [pr_zero pr_it pr_base pr_sign].
  assert (P : forall w l, parse_integer_value (s_enc r) t [48] sg B = Ok (w, l) -> w = 0).
  { intros w l. unfold parse_integer_value. destruct sg; [discriminate|..];
      (destruct (_ && _); [discriminate|]; destruct (B <=? 0); [discriminate|]; destruct (B <=? char_to_int 48); [discriminate|]; cbn; intros [= <- _]; reflexivity). }
  destruct loc; cbn [negb].
  - unfold parse_integer_digits_with_thsep. cbn [thsep_loop]. destruct (48 =? sep); [discriminate|].
    replace (B <=? char_to_int 48) with false; [|symmetry; apply char_to_int_is_digit; [unfold base_ok in HB; lia|apply digit_48; unfold base_ok in HB; lia]].
    cbn [thsep_loop bind app]. destruct (parse_integer_value (s_enc r) t [48] sg B) as [[w l]| | |]; try discriminate. cbn [bind]. intros [= <- _]. exact (P _ _ eq_refl).
  - rewrite (read_digits_value r t (PR [48] B sg false) [48] []).
    + cbn [pr_sign pr_base]. destruct (parse_integer_value (s_enc r) t [48] sg B) as [[w l]| | |]; try discriminate. cbn. intros [= <-]. exact (P _ _ eq_refl).
    + exact HB.
    + unfold enc_ok. congruence.
    + split; [reflexivity|]. split; [discriminate|]. split; [constructor; [apply digit_48; cbn; unfold base_ok in HB; lia|constructor]|exact (fun x => x)].
Qed.
Hypothesis Hnext : forall b b', R b b' -> next_like b b'.
(** The separator shows. *)
Definition dark_sep : Prop := loc = true -> is_ws sep = false.
Lemma digits_dark B m : dark_sep -> Forall (fun c => is_digit B c \/ loc = true /\ c = sep) m -> dark m.
Proof.
  intros HD. apply Forall_impl. intros c [(d & Hd & _)|[H1 ->]]; [|exact (HD H1)]. destruct (is_ws c) eqn:EW; [|reflexivity].
  rewrite (ws_no_digit c EW) in Hd. discriminate.
Qed.

Lemma plain_base b q B : lettered b q = Some B -> (b =? 8) = false -> (b =? 0) = false -> b = B.
Proof.
  intros EL N8 N0. unfold lettered in EL. rewrite N8, N0, !orb_false_r in EL. cbn [orb andb] in EL.
  destruct (Z.eqb_spec b 16) as [->|]; cbn [andb] in EL.
  { destruct (pfx_match 120 _); [congruence|]. cbn in EL. discriminate. }
  destruct (Z.eqb_spec b 2) as [->|]; cbn [andb] in EL; [|discriminate]. destruct (pfx_match 98 _); congruence.
Qed.
Lemma number_settles b sg q v rest : b = 0 \/ base_ok b -> sg <> DefaultSign -> (it_signed t = false -> is_minus sg = false) ->
  int_tail (wide_prefix b sg q) = Ok (v, rest) ->
  exists a, q = a ++ rest /\ a <> [] /\ (dark_sep -> dark a) /\ forall b', R rest b' -> int_tail (wide_prefix b sg (a ++ b')) = Ok (v, b').
Proof.
  intros Hb Hsg Hm E. unfold wide_prefix in E. destruct (lettered b q) as [B|] eqn:EL.
  - assert (HB : base_ok B) by (destruct (lettered_base _ _ _ EL) as [->|[->| ->]]; unfold base_ok; lia). assert (B36 : B <= 36) by (unfold base_ok in HB; lia).
    destruct (lettered_shape _ _ _ EL) as (l & q2 & -> & Hl & Hd & Hv & HL). cbn [skipn] in E. destruct (not_digit_of B q2) eqn:EN.
    + (* the letter is no prefix *)
      destruct (tail_local _ _ _ _ _ _ HB Hsg Hm E) as (m & Em & Hne & HF & _ & HT). specialize (HF eq_refl).
      assert (M1 : m = [48] /\ rest = l :: q2).
      { destruct m as [|c [|d m]]; [congruence|cbn in Em; injection Em as <- <-; auto|]. exfalso. cbn in Em. injection Em as <- <- _.
        inversion HF as [|? ? _ HF']; subst. inversion HF' as [|? ? [HX|[HX1 HX2]] _]; subst; [exact (Hd HX)|]. rewrite Hsep in Hv by exact HX1. congruence. }
      destruct M1 as [-> ->]. exists [48]. split; [reflexivity|]. split; [discriminate|]. split; [intros _; repeat constructor|]. intros b' HS. assert (HN := Hnext _ _ HS).
      assert (HT' := HT b' HN). cbn [app] in *. destruct (g_next _ _ HS) as [->|[(c & k & k' & Ek & -> & Hc & HS')|(w & k' & -> & Hw)]].
      * assert (V0 := tail_zero B sg v HB HT'). subst v. assert (L0 : lettered b [48] = None) by (apply (lettered_none b 48 []); [|left; reflexivity]; unfold lettered; cbn; rewrite !andb_false_r; reflexivity).
        unfold wide_prefix. rewrite L0. unfold zeroed. cbn [Z.eqb Pos.eqb]. rewrite andb_true_r. destruct ((b =? 8) || (b =? 0)) eqn:EB; [reflexivity|].
        apply orb_false_iff in EB as [N8 N0]. rewrite N0.
        assert (b = B) as ->; [|exact HT']. exact (plain_base _ _ _ EL N8 N0).
      * injection Ek as <- <-. unfold wide_prefix. rewrite HL. cbn [skipn].
        assert (EN' : not_digit_of B k' = true).
        { apply Hnext in HS'. destruct (not_digit_of B k') eqn:EK; [reflexivity|]. exfalso. apply not_digit_of_spec in EK; [|exact B36].
          refine (next_no_digit B _ _ HS' _ EK). rewrite <- not_digit_of_spec by exact B36. congruence. }
        rewrite EN'. exact HT'.
      * assert (V0 : v = 0).
        { assert (H0 := HT [] (or_introl eq_refl)). cbn [app] in H0. exact (tail_zero B sg v HB H0). }
        unfold wide_prefix. rewrite (lettered_ws b 48 w k' Hw). unfold zeroed. cbn [Z.eqb Pos.eqb skipn]. rewrite andb_true_r. destruct ((b =? 8) || (b =? 0)) eqn:EB.
        { assert (EN' : not_digit_of 8 (w :: k') = true).
          { destruct (not_digit_of 8 (w :: k')) eqn:EK; [reflexivity|]. exfalso. apply not_digit_of_spec in EK; [|lia]. destruct EK as (d & Hd' & _). rewrite (ws_no_digit w Hw) in Hd'. discriminate. }
          rewrite EN'. subst v. reflexivity. }
        apply orb_false_iff in EB as [N8 N0]. rewrite N0. assert (b = B) as ->; [|exact HT']. exact (plain_base _ _ _ EL N8 N0).
    + destruct (tail_local _ _ _ _ _ _ HB Hsg Hm E) as (m & -> & Hne & HF & _ & HT). exists (48 :: l :: m). split; [reflexivity|]. split; [discriminate|]. split; [intros HD; constructor; [reflexivity|]; constructor; [exact Hl|]; apply (digits_dark B); auto|].
      intros b' HS. unfold wide_prefix. cbn [app]. rewrite HL. cbn [skipn]. assert (EN' : not_digit_of B (m ++ b') = false) by (destruct m as [|d m]; [congruence|exact EN]).
      rewrite EN'. apply HT, Hnext, HS.
  - destruct (zeroed b q) eqn:EZ.
    + assert (HB : base_ok 8) by (unfold base_ok; lia). unfold zeroed in EZ. apply andb_true_iff in EZ as [EZ E48]. destruct q as [|c q]; [discriminate|]. apply Z.eqb_eq in E48. subst c.
      cbn [skipn] in E. destruct (not_digit_of 8 q) eqn:EN.
      * cbn in E. injection E as <- <-. exists [48]. split; [reflexivity|]. split; [discriminate|]. split; [intros _; repeat constructor|]. intros b' HS. assert (HN := Hnext _ _ HS).
        unfold wide_prefix. cbn [app]. rewrite (lettered_none b 48 q b' EL (like_weak _ _ HN)). unfold zeroed. rewrite EZ. cbn [andb Z.eqb Pos.eqb skipn].
        assert (EN' : not_digit_of 8 b' = true) by (destruct HN as [->|[(e & j & j' & -> & ->)|(w & j' & -> & Hw & _)]]; [reflexivity|exact EN|]; destruct (not_digit_of 8 (w :: j')) eqn:EK; [reflexivity|]; exfalso; apply not_digit_of_spec in EK; [|lia]; destruct EK as (d' & Hd' & _); rewrite (ws_no_digit w Hw) in Hd'; discriminate). rewrite EN'. reflexivity.
      * destruct (tail_local _ _ _ _ _ _ HB Hsg Hm E) as (m & -> & Hne & HF & _ & HT). exists (48 :: m). split; [reflexivity|]. split; [discriminate|]. split; [intros HD; constructor; [reflexivity|]; apply (digits_dark 8); auto|].
        intros b' HS. unfold wide_prefix. cbn [app]. destruct m as [|d m]; [congruence|]. cbn [app] in *. rewrite (lettered_none b 48 _ (d :: m ++ b') EL) by (right; left; eauto).
        unfold zeroed. rewrite EZ. cbn [andb Z.eqb Pos.eqb skipn]. assert (EN' : not_digit_of 8 (d :: m ++ b') = false) by exact EN. rewrite EN'. apply (HT b'), Hnext, HS.
    + assert (HB : base_ok (if b =? 0 then 10 else b)) by (destruct (Z.eqb_spec b 0); [unfold base_ok; lia|destruct Hb; [congruence|assumption]]).
      destruct (tail_local _ _ _ _ _ _ HB Hsg Hm E) as (m & -> & Hne & HF & _ & HT). exists m. split; [reflexivity|]. split; [exact Hne|]. split; [intros HD; eapply digits_dark; eauto|]. intros b' HS. assert (HN := Hnext _ _ HS).
      destruct m as [|c m]; [congruence|]. cbn [app] in *. unfold wide_prefix.
      assert (EL' : lettered b (c :: m ++ b') = None).
      { apply (lettered_none b c (m ++ rest)); [exact EL|]. destruct m as [|d m]; [exact (like_weak _ _ HN)|right; left; cbn; eauto]. }
      rewrite EL'. assert (EZ' : zeroed b (c :: m ++ b') = false) by exact EZ. rewrite EZ'. apply HT, HN.
Qed.
(** With a sign, if there is one. *)
Lemma signed_settles b negok s v rest : b = 0 \/ base_ok b -> (negok = true -> it_signed t = true) ->
  (p <- parse_integer_prefix r s b ;; if is_minus (pr_sign p) && negb negok then Err InvalidScannedValue else int_tail p) = Ok (v, rest) ->
  exists a, s = a ++ rest /\ a <> [] /\ (dark_sep -> dark a) /\ forall b', R rest b' ->
    (p <- parse_integer_prefix r (a ++ b') b ;; if is_minus (pr_sign p) && negb negok then Err InvalidScannedValue else int_tail p) = Ok (v, b').
Proof.
  intros Hb Hn E. rewrite prefix_wide in E by assumption. destruct s as [|c s]; [discriminate|].
  assert (SG : forall l, parse_numeric_sign (c :: l) = Ok (if (c =? 45) || (c =? 43) then (l, if c =? 45 then MinusSign else PlusSign) else (c :: l, DefaultSign))).
  { intros l. unfold parse_numeric_sign, read_one_of_code_unit. cbn [existsb]. destruct (Z.eqb_spec c 45) as [->|]; [reflexivity|]. destruct (Z.eqb_spec c 43) as [->|]; reflexivity. }
  rewrite SG in E. cbn [bind] in E.
  assert (W : forall sg q, pr_sign (wide_prefix b sg q) = sg).
  { intros sg q. unfold wide_prefix. destruct (lettered b q); [reflexivity|]. destruct (zeroed b q); [destruct (not_digit_of _ _)|]; reflexivity. }
  assert (M : forall sg, is_minus sg && negb negok = false -> it_signed t = false -> is_minus sg = false).
  { intros sg H HU. destruct (is_minus sg); [|reflexivity]. destruct negok; [rewrite (Hn eq_refl) in HU; discriminate|discriminate]. }
  destruct ((c =? 45) || (c =? 43)) eqn:ES; cbn [bind] in E.
  - set (sg := default_plus (if c =? 45 then MinusSign else PlusSign)) in *. rewrite W in E. destruct (is_minus sg && negb negok) eqn:EM; [discriminate|].
    apply number_settles in E; auto; [|unfold sg; destruct (c =? 45); discriminate].
    destruct E as (a & -> & Hne & HD & HA). exists (c :: a). split; [reflexivity|]. split; [discriminate|].
    split; [intros HX; constructor; [apply orb_true_iff in ES as [ES|ES]; apply Z.eqb_eq in ES; subst c; reflexivity|exact (HD HX)]|]. intros b' HS. rewrite prefix_wide by assumption.
    cbn [app]. rewrite SG. cbn [bind]. fold sg. rewrite W, EM. apply HA, HS.
  - change (default_plus DefaultSign) with PlusSign in E. rewrite W in E. cbn [is_minus andb] in E. apply number_settles in E; auto; [|discriminate].
    destruct E as (a & Ea & Hne & HD & HA). exists a. split; [exact Ea|]. split; [exact Hne|]. split; [exact HD|]. intros b' HS. rewrite prefix_wide by assumption.
    destruct a as [|d a]; [congruence|]. cbn [app] in *. injection Ea as <- _. rewrite SG. cbn [bind]. change (default_plus DefaultSign) with PlusSign. rewrite W. apply HA, HS.
Qed.
End Tail.

Definition int_takes_something (f : list Z -> outcome (Z * list Z)) : Prop := forall s x rem, f s = Ok (x, rem) -> rem <> s.
Lemma gentle_next {R} {HR : gentle R} loc sep : dark_sep sep loc -> forall b b', R b b' -> next_like sep loc b b'.
Proof.
  intros HD b b' H. destruct (g_next _ _ H) as [->|[(c & l & l' & -> & -> & _)|(w & l' & -> & Hw)]]; [left; reflexivity|right; left; eauto|].
  right. right. exists w, l'. split; [reflexivity|]. split; [exact Hw|]. intros HL ->. rewrite (HD HL) in Hw. discriminate.
Qed.
Lemma swap_next loc sep b b' : swap b b' -> next_like sep loc b b'.
Proof. intros H. destruct (swap_head _ _ H) as [->|(c & l & l' & -> & ->)]; [left; reflexivity|right; left; eauto]. Qed.
Lemma int_default_follows {R} {HR : gentle R} r t s v rest : s_enc r = U32 -> int_read_default r t s = Ok (v, rest) ->
  exists a, s = a ++ rest /\ a <> [] /\ dark a /\ forall b', R rest b' -> int_read_default r t (a ++ b') = Ok (v, b').
Proof.
  intros E32 E.
  assert (EQ : forall s, int_read_default r t s = (p <- parse_integer_prefix r s 10 ;; if is_minus (pr_sign p) && negb (it_signed t) then Err InvalidScannedValue else int_tail r t 0 false p)).
  { intros s0. unfold int_read_default. rewrite default_generic. reflexivity. }
  rewrite EQ in E. apply (signed_settles (R:=R)) in E; auto; try (right; unfold base_ok; lia); try (intros; discriminate).
  - destruct E as (a & Ea & Hne & HD & HA). exists a. split; [exact Ea|]. split; [exact Hne|]. split; [apply HD; discriminate|]. intros b' HS. rewrite EQ. apply HA, HS.
  - apply gentle_next. discriminate.
Qed.
Lemma default_int_settles {R} {HR : gentle R} r t s : s_enc r = U32 -> settles_by R (int_read_default r t) s /\ int_takes_something (int_read_default r t).
Proof.
  intros E32. split.
  - intros v b E. destruct (int_default_follows (R:=R) _ _ _ _ _ E32 E) as (a & Ea & _ & _ & HA). eauto.
  - intros s0 x rem E EQ'. destruct (int_default_follows (R:=R) _ _ _ _ _ E32 E) as (a & Ea & Hne & _). apply (f_equal (@length Z)) in Ea. rewrite app_length, EQ' in Ea. destruct a; [congruence|]. cbn in Ea. lia.
Qed.
(** A thousands separator that is no letter and no digit. *)
Definition plain_sep (sep : Z) : Prop := digit_value sep = None.
Lemma int_specs_follows {R} {HR : gentle R} r t sp sep s v rest : s_enc r = U32 -> plain_sep sep -> arbitrary_base sp = 0 ->
  (forall b b', R b b' -> next_like sep (localized sp) b b') -> int_read_specs r t sp sep s = Ok (v, rest) ->
  exists a, s = a ++ rest /\ a <> [] /\ (dark_sep sep (localized sp) -> dark a) /\ forall b', R rest b' -> int_read_specs r t sp sep (a ++ b') = Ok (v, b').
Proof.
  intros E32 Hsep HP HN E.
  destruct (get_base sp) as [b| | |] eqn:EB; [|unfold int_read_specs in E; rewrite EB in E; discriminate..].
  assert (Hb : b = 0 \/ base_ok b).
  { unfold get_base in EB. unfold base_ok. destruct (type sp); try discriminate; injection EB as <-; lia. }
  set (negok := it_signed t && negb (ptype_eqb (type sp) PIntUnsignedDecimal)).
  assert (EQ : forall s, int_read_specs r t sp sep s = (p <- parse_integer_prefix r s b ;; if is_minus (pr_sign p) && negb negok then Err InvalidScannedValue else int_tail r t sep (localized sp) p)).
  { intros s0. unfold int_read_specs, int_tail, negok. rewrite EB. cbn [bind]. destruct (parse_integer_prefix r s0 b); cbn [bind]; try reflexivity.
    rewrite negb_andb, negb_involutive. destruct (_ && _); [reflexivity|]. reflexivity. }
  rewrite EQ in E. apply (signed_settles (R:=R)) in E; auto; [|unfold negok; intros H; apply andb_true_iff in H; apply H].
  destruct E as (a & Ea & Hne & HD & HA). exists a. split; [exact Ea|]. split; [exact Hne|]. split; [exact HD|]. intros b' HS. rewrite EQ. apply HA, HS.
Qed.
Lemma specs_int_settles r t sp sep s : s_enc r = U32 -> plain_sep sep -> parsed sp ->
  settles (int_read_specs r t sp sep) s /\ int_takes_something (int_read_specs r t sp sep).
Proof.
  intros E32 Hsep HP. assert (K := fun s v rest => int_specs_follows (R:=swap) r t sp sep s v rest E32 Hsep (p_base _ HP) (swap_next _ _)). split.
  - intros v b0 E. destruct (K _ _ _ E) as (a & Ea & _ & _ & HA). eauto.
  - intros s0 x rem E EQ'. destruct (K _ _ _ E) as (a & Ea & Hne & _). apply (f_equal (@length Z)) in Ea. rewrite app_length, EQ' in Ea. destruct a; [congruence|]. cbn in Ea. lia.
Qed.

(** * Arguments *)
Theorem int_default_settles t r cps : s_enc r = U32 -> Forall scalar cps -> settles (int_default t r) cps.
Proof.
  intros E32 HS. apply default_settles; auto; [intros ds _; apply default_int_settles, E32|].
  intros c ds x rem _ _ _ E. exact (proj2 (default_int_settles r t [] E32) _ _ _ E).
Qed.
Theorem int_specs_settles t sep r sp cps : s_enc r = U32 -> plain_sep sep -> ascii_specs sp -> parsed sp -> Forall scalar cps ->
  settles (arg_read_checked r (int_reader t sep) sp) cps.
Proof.
  intros E32 Hsep HA HP HS. unfold arg_read_checked. cbn [int_reader rd_check rd_skip rd_specs]. destruct (check_int_type_specs sp); [|intros v b E; discriminate].
  apply arg_settles; auto.
  - intros r' ds E' _. apply specs_int_settles; auto.
  - intros _ r' c ds x rem E' _ _ _ E. exact (proj2 (specs_int_settles r' t sp sep [] E' Hsep HP) _ _ _ E).
Qed.
Lemma hex_parsed : parsed hex_specs.
Proof. constructor; cbn; try lia; auto; repeat constructor. Qed.
Theorem pointer_default_settles sep r cps : s_enc r = U32 -> plain_sep sep -> Forall scalar cps -> settles (pointer_default sep r) cps.
Proof.
  intros E32 Hsep HS. apply default_settles; auto; [intros ds _; apply specs_int_settles; auto; apply hex_parsed|].
  intros c ds x rem _ _ _ E. exact (proj2 (specs_int_settles r u64 hex_specs sep [] E32 Hsep hex_parsed) _ _ _ E).
Qed.
Theorem pointer_specs_settles sep r sp cps : s_enc r = U32 -> plain_sep sep -> ascii_specs sp -> parsed sp -> Forall scalar cps ->
  settles (arg_read_checked r (pointer_reader sep) sp) cps.
Proof.
  intros E32 Hsep HA HP HS. unfold arg_read_checked. cbn [pointer_reader rd_check rd_skip rd_specs]. destruct (check_pointer_type_specs sp); [|intros v b E; discriminate].
  apply arg_settles; auto.
  - intros r' ds E' _. apply specs_int_settles; auto; apply hex_parsed.
  - intros _ r' c ds x rem E' _ _ _ E. exact (proj2 (specs_int_settles r' u64 hex_specs sep [] E' Hsep hex_parsed) _ _ _ E).
Qed.
Theorem char_specs_settles k old sep r sp cps : s_enc r = U32 -> plain_sep sep -> ascii_specs sp -> parsed sp -> Forall scalar cps ->
  settles (arg_read_checked r (char_reader k old sep) sp) cps.
Proof.
  intros E32 Hsep HA HP HS. unfold arg_read_checked. cbn [char_reader rd_check rd_skip rd_specs]. destruct (char_check k sp); [|intros v b E; discriminate].
  apply arg_settles; auto; [|discriminate]. intros r' ds E' Hds. unfold char_specs.
  assert (C := char_settles k r' ds E' Hds).
  assert (I : forall t, settles (fun s => '(_, it) <- int_read_specs r' t sp sep s ;; Ok (old, it)) ds).
  { intros t v b E. destruct (int_read_specs r' t sp sep ds) as [[x l]| | |] eqn:EI; try discriminate. injection E as <- <-.
    destruct (proj1 (specs_int_settles r' t sp sep ds E' Hsep HP) _ _ EI) as (a & -> & HB). exists a. split; [reflexivity|]. intros b' HSw. rewrite (HB b' HSw). reflexivity. }
  destruct k; [destruct (type sp)|destruct (type sp)|]; auto; apply I.
Qed.
