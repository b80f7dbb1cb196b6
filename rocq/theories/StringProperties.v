(** Properties of string scanning: C23, C24, C25. *)
From Verif Require Import Prelude UnicodeModel UnicodeSpec UnicodeProofs WhitespaceModel WhitespaceSpec
  WhitespaceProofs ReadModel ReadProofs SpecsModel ArgsModel FormatModel FormatSpec FormatSpecProofs IntModel
  VscanSpec WidthModel WidthSpec WidthProofs ArgReaderModel ArgReaderProofs ArgReaderProperties
  StringModel StringSpec StringProofs SpecsInvProofs ArgSafeProofs StringSafeProofs.
Local Open Scope Z_scope.

(** ** Any string field: the portion of the text that its format-spec names, inside the
    frame of C27.  [rx], the regular expression engine, is not used. *)
Theorem C23_field_partial : forall rx dst r to d cps,
  (said_precision d = None -> skips_white_space (portion_of d) = true \/ said_width d <> 0 -> whole r cps) -> s_enc r <> U16 -> dest_ok dst (s_enc r) to -> string_type d -> numerals d ->
  fill_kept (s_enc r) d -> Forall scalar cps ->
  string_arg rx dst r (mean (s_enc r) d) (text (s_enc r) cps)
  = ('(v, l) <- field (said_align d) (said_fill d) (said_width d) (said_precision d)
                  (skips_white_space (portion_of d)) (take (portion_of d)) cps ;;
     Ok (text to v, text (s_enc r) l)).
Proof.
  intros rx dst r to d cps Hr He Hd Ht [Hnw Hnp] Hf Hc.
  assert (HP : forall c, d_type d = Some (TyLetter c) -> c = 99 -> precision (mean (s_enc r) d) <> 0).
  { intros c Ec ->. unfold string_type in Ht. rewrite Ec in Ht. destruct Ht as [|[_ Ht]]; [discriminate|].
    rewrite mean_precision. unfold said_precision in Ht. destruct (d_prec d) as [ds|]; [|congruence]. cbn [optv].
    destruct (Z.eqb_spec (number ds) 0); congruence. }
  destruct (mean_kind (s_enc r) d Ht HP) as [HK HS].
  unfold string_arg, arg_read_checked, string_reader. cbn [rd_check rd_skip rd_specs]. rewrite HK, HS.
  rewrite (arg_read_field r (mean (s_enc r) d) (said_fill d) (skips_white_space (portion_of d))
    (fun r' => string_specs rx dst r' (mean (s_enc r) d))
    (fun ds => '(v, l) <- take (portion_of d) ds ;; Ok (text to v, l))).
  - rewrite said_prec_of, mean_align, mean_width. rewrite field_map.
    destruct (field _ _ _ _ _ _ _) as [[v l]|x| |]; reflexivity.
  - rewrite mean_precision. destruct (d_prec d) as [w|] eqn:E; cbn [optv]; [apply number_nonneg; auto|lia].
  - intros _. rewrite mean_fill_eq. apply mean_fill_ok, Hf.
  - intros ds Hrds Hds. rewrite (string_specs_text rx dst r _ to d ds); try assumption.
    + unfold coded. destruct (take (portion_of d) ds) as [[v l]|x| |]; reflexivity.
    + destruct (precision (mean (s_enc r) d) =? 0); reflexivity.
    + intros EW. rewrite EW in Hrds. destruct (Z.eqb_spec (precision (mean (s_enc r) d)) 0); [auto|apply view_whole].
    + rewrite mean_fill_eq. apply mean_fill_ok, Hf.
  - intros ds x l. destruct (take (portion_of d) ds) as [[v l']|y| |] eqn:E; cbn [bind]; try discriminate.
    intros [= _ <-]. apply take_suffix in E. eauto.
  - intros E. rewrite mean_width. apply Hr, (said_no_precision (s_enc r)), E.
  - exact Hc.
Qed.
Print Assumptions C23_field_partial.

(** ** C23 *)
(** The word a text begins with, after white space; nothing in a blank text. *)
Definition word_of (cps : list Z) : outcome (list Z * list Z) :=
  let rest := after (lead is_ws cps) cps in
  match lead (fun c => negb (is_ws c)) rest with
  | [] => Err EndOfInput
  | w => Ok (w, after w rest)
  end.
Lemma field_unlimited {V} al f w skip (rc : list Z -> outcome (V * list Z)) cps pre rest x v l :
  before_value al f None skip cps = Ok pre -> cps = pre ++ rest -> rc rest = Ok (x, l) -> rest = v ++ l ->
  field al f w None skip rc cps
  = let post := after_value al f w None skip (cols pre + cols v) l in
    if cols pre + cols v + cols post <? w then Err LengthTooShort else Ok (x, after post l).
Proof.
  intros HB -> HR ->. unfold field. rewrite HB. cbn [bind limit less option_map].
  rewrite after_app, HR. cbn [bind].
  replace (firstn (length (v ++ l) - length l) (v ++ l)) with v.
  - rewrite after_app. reflexivity.
  - rewrite app_length. replace (length v + length l - length l)%nat with (length v) by lia.
    symmetry. apply firstn_len_app.
Qed.
Lemma lead_stop p m : match after (lead p m) m with c :: _ => p c = false | [] => True end.
Proof. unfold after. induction m as [|c m IH]; cbn [lead]; [exact I|]. destruct (p c) eqn:E; [exact IH|exact E]. Qed.
Lemma word_of_field f cps : field ANone f 0 None true (take Word) cps = word_of cps.
Proof.
  unfold word_of. assert (HA := lead_after is_ws cps). assert (HN := lead_stop is_ws cps).
  set (ws := lead is_ws cps) in *. set (rest := after ws cps) in *.
  assert (HB : before_value ANone f None true cps
    = if (length ws =? length cps)%nat then Err EndOfInput else Ok ws) by reflexivity.
  destruct (Nat.eqb_spec (length ws) (length cps)) as [E|E].
  - assert (rest = []) as ->. { apply length_zero_iff_nil. assert (HL := f_equal (@length Z) HA). rewrite app_length in HL. lia. }
    unfold field. rewrite HB. reflexivity.
  - destruct rest as [|c l] eqn:ER.
    { exfalso. apply E. rewrite <- HA, app_nil_r. reflexivity. }
    assert (HV := lead_after (fun c => negb (is_ws c)) (c :: l)).
    set (v := lead (fun c => negb (is_ws c)) (c :: l)) in *.
    rewrite (field_unlimited ANone f 0 true (take Word) cps ws (c :: l) v v (after v (c :: l)) HB);
      [|congruence|reflexivity|congruence].
    unfold after_value. cbn [negb andb]. cbv zeta. change (cols []) with 0.
    assert (HC := cols_nonneg ws). assert (HC2 := cols_nonneg v).
    destruct (Z.ltb_spec (cols ws + cols v + 0) 0); [lia|].
    assert (HW : exists w, v = c :: w).
    { unfold v. cbn [lead]. rewrite HN. cbn [negb]. eauto. }
    destruct HW as [w HW]. rewrite HW. reflexivity.
Qed.

(** Without a format-spec ("{}"). *)
Theorem C23_default_partial : forall dst r to cps,
  whole r cps -> dest_ok dst (s_enc r) to -> Forall scalar cps ->
  string_default dst r (text (s_enc r) cps)
  = ('(v, l) <- word_of cps ;; Ok (text to v, text (s_enc r) l)).
Proof.
  intros dst r to cps Hr Hd Hc. unfold string_default, default_read, skip_ws_before_if_required.
  destruct (text (s_enc r) cps) as [|u s] eqn:ET.
  { apply text_nil_iff in ET; [|exact Hc]. subst cps. reflexivity. }
  rewrite <- ET, skip_ws_text by assumption. cbn [negb andb]. unfold word_of.
  assert (HA := lead_after is_ws cps). destruct (scalars_lead is_ws cps Hc) as [_ HS].
  assert (HN : match after (lead is_ws cps) cps with c :: _ => is_ws c = false | [] => True end).
  { clear. unfold after. induction cps as [|c l IH]; cbn [lead]; [exact I|].
    destruct (is_ws c) eqn:E; [exact IH|exact E]. }
  set (ws := lead is_ws cps) in *. set (rest := after ws cps) in *.
  destruct (Nat.eqb_spec (length ws) (length cps)) as [E|E]; cbn [bind].
  - assert (rest = []) as ->; [|reflexivity].
    apply length_zero_iff_nil. assert (HL := f_equal (@length Z) HA). rewrite app_length in HL. lia.
  - assert (Hrr : whole r rest) by (rewrite <- HA in Hr; exact (whole_suffix r ws rest Hr)).
    rewrite (word_text dst r to) by assumption. unfold coded, take, taken. cbn [bind].
    destruct rest as [|c l] eqn:ER.
    { exfalso. apply E. rewrite <- HA, app_nil_r. reflexivity. }
    cbn [lead]. rewrite HN. reflexivity.
Qed.
Print Assumptions C23_default_partial.
(** With a format-spec saying no more than 's'. *)
Definition d_string (c : option Z) : desc := Desc None None None None false (option_map TyLetter c).
Theorem C23_plain_partial : forall rx dst r to c cps,
  whole r cps -> s_enc r <> U16 -> dest_ok dst (s_enc r) to -> Forall scalar cps ->
  c = None \/ c = Some 115 ->
  string_arg rx dst r (mean (s_enc r) (d_string c)) (text (s_enc r) cps)
  = ('(v, l) <- word_of cps ;; Ok (text to v, text (s_enc r) l)).
Proof.
  intros rx dst r to c cps Hr He Hd Hc H.
  rewrite (C23_field_partial rx dst r to); try assumption.
  - rewrite <- (word_of_field 32). destruct H as [-> | ->]; reflexivity.
  - intros _ _. exact Hr.
  - destruct H as [-> | ->]; cbn; auto.
  - split; intros w E; destruct c; discriminate.
  - intros f E. destruct c; discriminate.
Qed.
Print Assumptions C23_plain_partial.
(** A word is never empty, has no white space in it, and is followed by white space or
    the end (for these two formats). *)
Theorem C23_word : forall cps w l, word_of cps = Ok (w, l) ->
  exists ws, cps = ws ++ w ++ l /\ Forall (fun c => is_ws c = true) ws /\ w <> []
    /\ Forall (fun c => is_ws c = false) w
    /\ match l with c :: _ => is_ws c = true | [] => True end.
Proof.
  intros cps w l H. unfold word_of in H. exists (lead is_ws cps).
  assert (HA := lead_after is_ws cps). set (rest := after (lead is_ws cps) cps) in *.
  assert (HB := lead_after (fun c => negb (is_ws c)) rest).
  assert (HL : forall p m, Forall (fun c => p c = true) (lead p m)).
  { intros p m. induction m as [|c m IH]; cbn [lead]; [constructor|]. destruct (p c) eqn:E; constructor; auto. }
  assert (HN : forall p m, match after (lead p m) m with c :: _ => p c = false | [] => True end).
  { intros p m. unfold after. induction m as [|c m IH]; cbn [lead]; [exact I|]. destruct (p c) eqn:E; [exact IH|exact E]. }
  specialize (HN (fun c => negb (is_ws c)) rest). assert (HL2 := HL (fun c => negb (is_ws c)) rest).
  destruct (lead (fun c => negb (is_ws c)) rest) as [|c t] eqn:E; [discriminate|]. injection H as <- <-.
  split; [rewrite HB; symmetry; exact HA|]. split; [apply HL|]. split; [discriminate|].
  split; [eapply Forall_impl; [|exact HL2]; intros x Hx; cbn beta in Hx; destruct (is_ws x); [discriminate Hx|reflexivity]|].
  destruct (after (c :: t) rest) as [|x m]; [exact I|]. destruct (is_ws x); [reflexivity|discriminate].
Qed.
Print Assumptions C23_word.
(** Nor is it with a width or precision, unless alignment is asked for. *)
Theorem C23_nonempty_partial : forall rx dst r to d cps v rest,
  (said_precision d = None -> skips_white_space (portion_of d) = true \/ said_width d <> 0 -> whole r cps) -> s_enc r <> U16 -> dest_ok dst (s_enc r) to -> to <> U16 -> string_type d -> numerals d ->
  fill_kept (s_enc r) d -> Forall scalar cps -> portion_of d = Word -> said_align d = ANone ->
  string_arg rx dst r (mean (s_enc r) d) (text (s_enc r) cps) = Ok (v, rest) -> v <> [].
Proof.
  intros rx dst r to d cps v rest Hr He Hd Hto Ht Hn Hf Hc HP HA E.
  rewrite (C23_field_partial rx dst r to) in E by assumption. rewrite HP, HA in E.
  unfold field in E.
  destruct (before_value _ _ _ _ _) as [pre|x| |] eqn:EB; cbn [bind] in E; try discriminate.
  unfold before_value in EB. destruct (_ =? _)%nat eqn:EL; [discriminate|]. injection EB as EB.
  set (p := said_precision d) in *.
  destruct (match p with Some n => n <=? cols pre | None => false end) eqn:EP; [discriminate|].
  assert (HLIM : exists c l, limit (less p (cols pre)) (after pre cps) = c :: l /\ is_ws c = false /\ scalar c).
  { assert (HQ : exists q, cps = limit p cps ++ q).
    { destruct p; cbn [limit]; [apply take_cols_prefix|exists []; rewrite app_nil_r; reflexivity]. }
    destruct HQ as [q HQ].
    assert (H1 := lead_after is_ws (limit p cps)). rewrite EB in H1.
    assert (HN : match after pre (limit p cps) with c :: _ => is_ws c = false | [] => True end).
    { rewrite <- EB. clear. generalize (limit p cps). intros m. unfold after.
      induction m as [|c m IH]; cbn [lead]; [exact I|]. destruct (is_ws c) eqn:E; [exact IH|exact E]. }
    destruct (after pre (limit p cps)) as [|c l] eqn:EA.
    { apply Nat.eqb_neq in EL. exfalso. apply EL. rewrite EB. rewrite app_nil_r in H1. congruence. }
    assert (HE : limit (less p (cols pre)) (after pre cps) = c :: l).
    { rewrite HQ, <- H1. rewrite <- app_assoc, after_app.
      destruct p as [n|]; cbn [limit less option_map] in *.
      - assert (HC : cols (pre ++ c :: l) <= n).
        { rewrite H1. apply take_cols_fits. apply Z.leb_gt in EP. pose proof (cols_nonneg pre). lia. }
        rewrite cols_app in HC.
        assert (HT : take_cols n cps = pre ++ take_cols (n - cols pre) ((c :: l) ++ q)).
        { rewrite HQ at 1. rewrite <- H1, <- app_assoc. apply take_cols_app. pose proof (cols_nonneg (c :: l)). lia. }
        rewrite <- H1 in HT. apply app_inv_head in HT. symmetry. exact HT.
      - assert (q = []) as ->; [|apply app_nil_r].
        apply length_zero_iff_nil. assert (HL := f_equal (@length Z) HQ). rewrite app_length in HL. lia. }
    exists c, l. split; [exact HE|]. split; [exact HN|].
    rewrite HQ, <- H1 in Hc. apply scalars_app in Hc. destruct Hc as [Hc _]. apply scalars_app in Hc. destruct Hc as [_ Hc].
    inversion Hc; assumption. }
  destruct HLIM as (c & l & EQ & Hc1 & Hc2). rewrite EQ in E. cbn [take taken lead] in E. rewrite Hc1 in E.
  cbn [negb bind] in E. destruct (_ <? said_width d); [discriminate|]. cbn [bind] in E. injection E as <- _.
  cbn [text flat_map]. destruct (encode_lead to c Hc2) as (u & t & -> & _). discriminate.
Qed.
Print Assumptions C23_nonempty_partial.
Definition no_rx : regex_engine := fun _ _ _ => Err InvalidFormatString.
Definition str8 : dest := DString U8.
(** "  héllo w" into std::string, std::wstring and std::string_view *)
Example C23_ex :
  let s := text U8 [32; 9; 104; 0xe9; 108; 0x2028; 119] in
  whole string_src [32; 9; 104; 0xe9; 108; 0x2028; 119] /\ Forall scalar [32; 9; 104; 0xe9; 108; 0x2028; 119]
  /\ string_default str8 string_src s = Ok (text U8 [104; 0xe9; 108], text U8 [0x2028; 119])
  /\ string_default (DString U32) string_src s = Ok ([104; 0xe9; 108], text U8 [0x2028; 119])
  /\ string_default (DView U8 false) string_src s = Ok (text U8 [104; 0xe9; 108], text U8 [0x2028; 119])
  /\ string_arg no_rx str8 string_src (mean U8 (d_string (Some 115))) s = Ok (text U8 [104; 0xe9; 108], text U8 [0x2028; 119])
  /\ string_default str8 string_src [32; 10] = Err EndOfInput
  /\ dest_ok (DView U8 false) U8 U8 /\ dest_ok (DString U32) U8 U32.
Proof.
  cbv zeta. split; [apply contig_whole; reflexivity|]. split; [repeat constructor; unfold scalar; lia|].
  repeat split; try (vm_compute; reflexivity). right; split; discriminate.
Qed.

(** The same from a source in segments of three units, and from one whose only segment ends with the
    source. *)
Definition in_threes : src := Src U8 false (fun n => n mod 3)%nat.
Definition one_segment : src := Src U8 false (fun n => n).
Example C23_segments_ex :
  whole in_threes [32; 9; 32; 32; 104; 101; 108; 108; 111; 32; 119]
  /\ string_default str8 in_threes (text U8 [32; 9; 32; 32; 104; 101; 108; 108; 111; 32; 119]) = Ok ([104; 101; 108; 108; 111], [32; 119])
  /\ whole one_segment [32; 104; 0xe9; 0x2028; 119]
  /\ string_default str8 one_segment (text U8 [32; 104; 0xe9; 0x2028; 119]) = Ok (text U8 [104; 0xe9], text U8 [0x2028; 119]).
Proof.
  split; [apply ascii_whole; repeat constructor; lia|]. split; [vm_compute; reflexivity|].
  split; [|vm_compute; reflexivity]. intros _ _ a b _. exists b, []. rewrite app_nil_r. split; [reflexivity|apply firstn_all].
Qed.

(** With '>' white space that is not the fill ends the word before it begins: "{:>}" on
    "\tabc" gives an empty string. *)
Theorem C23_right_refuted : exists d s, d_align d = Some ARight /\ string_type d /\ numerals d /\ fill_kept U8 d
  /\ string_arg no_rx str8 string_src (mean U8 d) s = Ok ([], s) /\ s = [9; 97; 98; 99].
Proof.
  exists (d_fmt None (Some ARight) None None), [9; 97; 98; 99]. split; [reflexivity|]. split; [exact I|].
  split; [split; discriminate|]. split; [discriminate|]. split; [vm_compute|]; reflexivity.
Qed.
Print Assumptions C23_right_refuted.
(** The documentation has a fill end a string with '<' or '^' for no type specifier as for
    's'.  "{:*<s}" on "ab*c" gives "ab", but "{:*<}" gives all of it. *)
Theorem C23_left_refuted : exists d d' s, d_fill d = Some 42 /\ d_align d = Some ALeft /\ d_type d = None
  /\ d' = Desc (Some 42) (Some ALeft) None None false (Some (TyLetter 115))
  /\ string_arg no_rx str8 string_src (mean U8 d) s = Ok (s, [])
  /\ string_arg no_rx str8 string_src (mean U8 d') s = Ok ([97; 98], [99]).
Proof.
  exists (d_fmt (Some 42) (Some ALeft) None None), (Desc (Some 42) (Some ALeft) None None false (Some (TyLetter 115))),
    [97; 98; 42; 99].
  repeat (split; [reflexivity|]). split; vm_compute; reflexivity.
Qed.
Print Assumptions C23_left_refuted.

(** ** C24 *)
Lemma members_field f p cps : field ANone f 0 None false (take (Members p)) cps = take (Members p) cps.
Proof.
  destruct (take (Members p) cps) as [[v l]|x| |] eqn:E.
  - assert (EV := take_suffix _ _ _ _ E).
    rewrite (field_unlimited ANone f 0 false (take (Members p)) cps [] cps v v l eq_refl eq_refl E EV).
    unfold after_value. assert (HC := cols_nonneg v). change (cols []) with 0.
    destruct (Z.ltb_spec (0 + cols v) 0); [lia|]. cbn [negb andb orb]. cbv zeta. change (cols []) with 0.
    destruct (Z.ltb_spec (0 + cols v + 0) 0); [lia|]. reflexivity.
  - unfold field, before_value. cbn [bind limit less option_map]. change (after [] cps) with cps. rewrite E. reflexivity.
  - unfold field, before_value. cbn [bind limit less option_map]. change (after [] cps) with cps. rewrite E. reflexivity.
  - unfold field, before_value. cbn [bind limit less option_map]. change (after [] cps) with cps. rewrite E. reflexivity.
Qed.
(** From the text of the format-spec: it is parsed, and the scan takes the longest run
    of members of the set it describes. *)
Theorem C24_partial : forall rx dst r cf t to inv items tail cps,
  c_enc cf = s_enc r -> s_enc r <> U16 -> dest_ok dst (s_enc r) to ->
  wf_set inv items -> no_crossing items -> Forall scalar cps ->
  exists sp,
    parse_format_specs cf t (render_set (s_enc r) inv items ++ 125 :: tail) (SS specs_default false)
      = Ok (125 :: tail, SS sp false)
    /\ string_arg rx dst r sp (text (s_enc r) cps)
       = match lead (in_set inv items) cps with
         | [] => Err InvalidScannedValue
         | run => Ok (text to run, text (s_enc r) (after run cps))
         end.
Proof.
  intros rx dst r cf t to inv items tail cps Hcf He Hd Hwf Hnc Hc.
  set (d := Desc None None None None false (Some (TySet inv items))).
  exists (mean (s_enc r) d). split.
  - assert (HR : render_desc (s_enc r) d = render_set (s_enc r) inv items) by reflexivity. rewrite <- HR, <- Hcf.
    apply specs_render; [rewrite Hcf; exact He|]. unfold wf_desc. cbn.
    repeat split; try discriminate; try (intros ? [= <-]; cbn; auto).
  - rewrite (C23_field_partial rx dst r to); try assumption.
    + cbn [portion_of d_type d said_align said_fill said_width said_precision d_align d_fill d_width d_prec optv skips_white_space].
      rewrite members_field. cbn [take taken]. destruct (lead (in_set inv items) cps); reflexivity.
    + intros _ [|[]]; [discriminate|reflexivity].
    + split; discriminate.
    + discriminate.
Qed.
Print Assumptions C24_partial.

(** "{:[a-fé-ü_]}" and "{:[^]x]}" *)
Definition cf8 : config := Config U8 true false false true.
Example C24_ex :
  let items := [SRange 97 102; SRange 0xe9 0xfc; SOne 95] in
  wf_set false items /\ no_crossing items /\ wf_set true [SOne 93; SOne 120]
  /\ render_set U8 false items = [91; 97; 45; 102; 0xc3; 0xa9; 45; 0xc3; 0xbc; 95; 93]
  /\ (exists sp, parse_format_specs cf8 NarrowStringType (render_set U8 false items ++ [125]) (SS specs_default false)
        = Ok ([125], SS sp false)
      /\ string_arg no_rx str8 string_src sp (text U8 [97; 0xf6; 95; 0xe8; 102])
         = Ok (text U8 [97; 0xf6; 95], text U8 [0xe8; 102])
      /\ string_arg no_rx str8 string_src sp [103] = Err InvalidScannedValue)
  /\ (exists sp, parse_format_specs cf8 NarrowStringType [91; 94; 93; 120; 93; 125] (SS specs_default false)
        = Ok ([125], SS sp false)
      /\ string_arg no_rx str8 string_src sp [97; 32; 93] = Ok ([97; 32], [93])).
Proof.
  cbv zeta.
  assert (HS : forall c, 0 <= c < 0xd800 -> scalar c) by (unfold scalar; lia).
  split.
  { split; [split|].
    - repeat constructor; cbn; repeat split; try (apply HS; lia); lia.
    - cbn. repeat split; discriminate.
    - eexists _, _. split; [reflexivity|]. cbn. lia. }
  split; [repeat constructor; lia|]. split.
  { right. eexists. split; [reflexivity|]. split; [repeat constructor; cbn; try apply HS; lia|exact I]. }
  split; [vm_compute; reflexivity|].
  split; (eexists; split; [vm_compute; reflexivity|]).
  - split; vm_compute; reflexivity.
  - vm_compute; reflexivity.
Qed.
(** A range from ASCII to beyond loses its ASCII part: "[a-é]" does not contain 'b'. *)
Theorem C24_crossing_refuted : exists inv items sp c,
  wf_set inv items /\ in_set inv items c = true
  /\ parse_format_specs cf8 NarrowStringType (render_set U8 inv items ++ [125]) (SS specs_default false) = Ok ([125], SS sp false)
  /\ string_arg no_rx str8 string_src sp (text U8 [c]) = Err InvalidScannedValue.
Proof.
  exists false, [SRange 97 0xe9]. eexists. exists 98.
  split; [|split; [reflexivity|split; [vm_compute; reflexivity|vm_compute; reflexivity]]].
  split; [split; [|exact I]|eexists _, _; split; [reflexivity|cbn; lia]].
  repeat constructor; unfold scalar; lia.
Qed.
Print Assumptions C24_crossing_refuted.

(** ** C25 *)
Lemma take_cols_stop n cps : 0 <= n -> take_cols (n - cols (take_cols n cps)) (after (take_cols n cps) cps) = [].
Proof.
  intros Hn. revert n Hn. induction cps as [|c l IH]; intros n Hn; [reflexivity|]. cbn [take_cols].
  destruct (Z.leb_spec (col c) n) as [H|H].
  - cbn [cols]. unfold after in *. cbn [length skipn].
    replace (n - (col c + cols (take_cols (n - col c) l))) with (n - col c - cols (take_cols (n - col c) l)) by lia.
    apply IH. lia.
  - cbn [cols after length skipn take_cols]. unfold after. cbn [length skipn take_cols].
    destruct (Z.leb_spec (col c) (n - 0)); [lia|reflexivity].
Qed.
(** "{:W.Nc}": the first [N] columns, or as many as there are; too short if these are
    fewer than [W]. *)
Definition d_chars (w p : list Z) : desc := Desc None None (Some w) (Some p) false (Some (TyLetter 99)).
Theorem C25_partial : forall rx dst r to w p cps,
  s_enc r <> U16 -> dest_ok dst (s_enc r) to -> Forall scalar cps ->
  numeral w -> numeral p -> 0 < number p ->
  string_arg rx dst r (mean (s_enc r) (d_chars w p)) (text (s_enc r) cps)
  = let v := take_cols (number p) cps in
    if cols v <? number w then Err LengthTooShort
    else Ok (text to v, text (s_enc r) (after v cps)).
Proof.
  intros rx dst r to w p cps He Hd Hc Hw Hp Hpos.
  assert (HP : said_precision (d_chars w p) = Some (number p)).
  { unfold said_precision. cbn [d_chars d_prec]. destruct (Z.eqb_spec (number p) 0); [lia|reflexivity]. }
  rewrite (C23_field_partial rx dst r to).
  - rewrite HP. change (said_align (d_chars w p)) with ANone. change (said_width (d_chars w p)) with (number w).
    change (portion_of (d_chars w p)) with Everything. cbn [skips_white_space].
    unfold field, before_value. cbn [bind]. change (cols []) with 0. destruct (Z.leb_spec (number p) 0); [lia|].
    change (after [] cps) with cps. cbn [less option_map limit take taken]. rewrite Z.sub_0_r.
    set (v := take_cols (number p) cps). cbn [bind]. rewrite after_nil. cbn [length]. rewrite Nat.sub_0_r, firstn_all.
    assert (HS := take_cols_stop (number p) cps ltac:(lia)). fold v in HS.
    unfold after_value. cbn [negb andb less option_map limit]. rewrite Z.add_0_l, HS. cbn [lead].
    replace (if (cols v <? number w) || (cols v <? number p) then [] else []) with (@nil Z) by (destruct (_ || _); reflexivity).
    cbv zeta. change (cols []) with 0. rewrite Z.add_0_r. destruct (_ <? _); reflexivity.
  - rewrite HP. discriminate.
  - exact He.
  - exact Hd.
  - right. split; [reflexivity|]. rewrite HP. discriminate.
  - split; intros ? [= <-]; assumption.
  - discriminate.
  - exact Hc.
Qed.
Print Assumptions C25_partial.
(** "{:0.3c}" (no minimum) on " 漢b": two code points, three columns; on "a漢漢": the second
    would exceed three columns. *)
Example C25_ex :
  numeral [48] /\ numeral [51] /\ 0 < number [51]
  /\ string_arg no_rx str8 string_src (mean U8 (d_chars [48] [51])) (text U8 [32; han; 98])
     = Ok (text U8 [32; han], [98])
  /\ string_arg no_rx str8 string_src (mean U8 (d_chars [51] [51])) (text U8 [97; 98; han])
     = Err LengthTooShort
  /\ string_arg no_rx str8 string_src (mean U8 (d_chars [51] [51])) (text U8 [97; han; han])
     = Ok (text U8 [97; han], text U8 [han]).
Proof. repeat split; try (vm_compute; reflexivity); try discriminate; repeat constructor; lia. Qed.
(** Fewer characters are not an error unless a width is given: "{:.5c}" on "ab" gives "ab"
    and on "" gives "". *)
Theorem C25_fewer_refuted :
  let d := Desc None None None (Some [53]) false (Some (TyLetter 99)) in
  parse_format_specs cf8 NarrowStringType [46; 53; 99; 125] (SS specs_default false) = Ok ([125], SS (mean U8 d) false)
  /\ string_arg no_rx str8 string_src (mean U8 d) [97; 98] = Ok ([97; 98], [])
  /\ string_arg no_rx str8 string_src (mean U8 d) [] = Ok ([], []).
Proof. split; [|split]; vm_compute; reflexivity. Qed.
Print Assumptions C25_fewer_refuted.

(** ** C47 *)
(** Whatever format-spec is parsed and whatever the source contains: there is an error, or
    the value is a part of the source before the position that is left, in the encoding
    of the destination.  If no transcoding is needed it is that part itself. *)
Theorem C47 : forall rx dst r cf t fmt fmt' sp s,
  c_enc cf = s_enc r -> s_enc r <> U16 -> engine_ok rx -> units (s_enc r) s ->
  parse_format_specs cf t fmt (SS specs_default false) = Ok (fmt', SS sp false) ->
  (exists e, string_arg rx dst r sp s = Err e)
  \/ exists v rest pre part post, string_arg rx dst r sp s = Ok (v, rest)
     /\ s = pre ++ part ++ post ++ rest /\ validate_unicode (s_enc r) part = Ok true
     /\ match dst with
        | DString to => s_enc r <> to \/ v = part
        | DView to alloc => alloc = false /\ to = s_enc r /\ v = part
        end.
Proof.
  intros rx dst r cf t fmt fmt' sp s Hcf He Hrx Hu HP. apply string_arg_total; try assumption.
  - apply parse_parsed in HP. exact HP.
  - rewrite <- Hcf. eapply parse_set_again; exact HP.
Qed.
Print Assumptions C47.
Theorem C47_default : forall dst r s, units (s_enc r) s ->
  (exists e, string_default dst r s = Err e)
  \/ exists v rest pre part, string_default dst r s = Ok (v, rest) /\ s = pre ++ part ++ rest
     /\ validate_unicode (s_enc r) part = Ok true
     /\ match dst with
        | DString to => s_enc r <> to \/ v = part
        | DView to alloc => alloc = false /\ to = s_enc r /\ v = part
        end.
Proof. exact string_default_total. Qed.
Print Assumptions C47_default.
(** "{:\xff>20.30[^a]}" with malformed bytes in format and source, and a string_view that
    would need a copy. *)
Example C47_ex :
  engine_ok no_rx
  /\ parse_format_specs cf8 NarrowStringType [42; 94; 50; 46; 54; 91; 94; 97; 93; 125] (SS specs_default false)
     = Ok ([125], SS (mean U8 (Desc (Some 42) (Some ACenter) (Some [50]) (Some [54]) false (Some (TySet true [SOne 97])))) false)
  /\ string_arg no_rx str8 string_src
       (mean U8 (Desc (Some 42) (Some ACenter) (Some [50]) (Some [54]) false (Some (TySet true [SOne 97])))) [42; 98; 0xff; 97]
     = Err InvalidScannedValue
  /\ string_arg no_rx str8 string_src
       (mean U8 (Desc (Some 42) (Some ACenter) (Some [50]) (Some [54]) false (Some (TySet true [SOne 97])))) [42; 98; 99; 97; 0xff]
     = Ok ([98; 99], [97; 0xff])
  /\ string_default (DView U8 true) string_src [97] = Err InvalidFormatString
  /\ string_default str8 string_src [97; 0xff; 98; 32; 0xfe] = Err InvalidScannedValue.
Proof. split; [intros p f s; left; eexists; reflexivity|]. repeat split; vm_compute; reflexivity. Qed.

(** A word from any bytes: it is not empty, none of the code points in it (malformed
    ones included) is white space, and white space or the end follows. *)
Theorem C23_any_bytes : forall s v rest, bytes s ->
  string_default str8 string_src s = Ok (v, rest) ->
  exists ws, s = ws ++ v ++ rest
    /\ steps_while U8 is_cp_space s (v ++ rest)
    /\ steps_while U8 (fun cp => negb (is_cp_space cp)) (v ++ rest) rest /\ v <> []
    /\ (rest = [] \/ exists cp tl, get_next_code_point U8 rest = Ok (cp, tl) /\ is_cp_space cp = true).
Proof.
  intros s v rest Hb H. unfold string_default, default_read, skip_ws_before_if_required in H.
  destruct s as [|c s0]; [discriminate|]. set (s := c :: s0) in *. clearbody s.
  apply ok_bind in H. destruct H as (it & H1 & H).
  unfold skip_classic_whitespace in H1. apply ok_bind in H1. destruct H1 as (it2 & H1 & H2).
  destruct it2 as [|x it2]; [discriminate|]. injection H2 as <-.
  unfold read_while_classic_space in H1. cbn [s_enc s_contig string_src] in H1.
  destruct (find_classic_nonspace_spec s Hb) as (it3 & E & HA & HB). rewrite E in H1. injection H1 as ->.
  assert (HS : suffix (x :: it2) s) by (apply steps_while_suffix in HA; exact HA).
  unfold word_read in H. apply ok_bind in H. destruct H as (it & H1 & H).
  unfold read_until_classic_space in H1. cbn [s_enc s_contig string_src] in H1.
  assert (Hb2 : bytes (x :: it2)) by exact (suffix_bytes _ _ HS Hb).
  destruct (find_classic_space_spec (x :: it2) Hb2) as (it3 & E2 & HC & HD). rewrite E2 in H1. injection H1 as ->.
  assert (HS2 : suffix it (x :: it2)) by (apply steps_while_suffix in HC; exact HC).
  cbn [s_enc string_src] in H.
  destruct (store_stores str8 U8 (x :: it2) it HS2) as [[e HE]|(v' & part & it' & F1 & F2 & _ & F3)]; [congruence|].
  rewrite F1 in H. injection H as -> ->. destruct F3 as [F3|F3]; [congruence|]. subst part.
  destruct HS as [ws HS]. exists ws. rewrite <- F2. split; [exact HS|]. split.
  { clear - HA. induction HA; [constructor|]. econstructor; [eassumption| |assumption].
    cbn beta in *. destruct (is_cp_space cp); [reflexivity|discriminate]. }
  assert (E3 : it = rest).
  { unfold store in F1. apply ok_bind in F1. destruct F1 as (b & _ & F1). destruct (negb b); [discriminate|].
    apply ok_bind in F1. destruct F1 as (z & _ & F1). congruence. }
  subst it. split; [exact HC|]. split; [|exact HD].
  intros ->. cbn [app] in F2. subst rest.
  destruct HB as [HB|(cp & tl & G1 & G2)]; [discriminate|].
  destruct HD as [HD|(cp' & tl' & G3 & G4)]; [discriminate|]. rewrite G1 in G3. injection G3 as <- <-.
  cbn beta in G2. rewrite G4 in G2. discriminate.
Qed.
Print Assumptions C23_any_bytes.
Example C23_any_bytes_ex : bytes [32; 97; 0xc3; 0xa9; 32; 0xff]
  /\ string_default str8 string_src [32; 97; 0xc3; 0xa9; 32; 0xff] = Ok ([97; 0xc3; 0xa9], [32; 0xff]).
Proof. split; [repeat constructor; unfold is_byte; lia|vm_compute; reflexivity]. Qed.

(** ** C48 *)
(** "{:/q/flags}" with every slash in [q] written "\/": the engine is asked to match [q],
    with those flags, against all of the source, and what it matched is the value. *)
Lemma unescape_escape q : unescape_pattern (escape_slashes q) = q.
Proof.
  assert (HN : forall q, match escape_slashes q with 47 :: _ => False | _ => True end).
  { intros [|c l]; [exact I|]. unfold escape_slashes. cbn [flat_map]. destruct (Z.eqb_spec c 47) as [->|H]; [exact I|].
    cbn [app]. destruct c as [|p|p]; try exact I. do 6 (destruct p as [p|p|]; try exact I). congruence. }
  induction q as [|c q IH]; [reflexivity|]. change (escape_slashes (c :: q)) with ((if c =? 47 then [92; 47] else [c]) ++ escape_slashes q).
  destruct (Z.eqb_spec c 47) as [->|H].
  - cbn [app unescape_pattern]. change ((92 =? 92) && (47 =? 47)) with true. cbv iota. rewrite IH. reflexivity.
  - cbn [app unescape_pattern]. specialize (HN q). destruct (escape_slashes q) as [|d l] eqn:E.
    + rewrite <- IH. reflexivity.
    + destruct (Z.eqb_spec d 47) as [->|Hd]; [contradiction|]. rewrite andb_false_r. rewrite IH. reflexivity.
Qed.
Lemma no_slash q : existsb (Z.eqb 47) (escape_slashes q) = false -> escape_slashes q = q.
Proof.
  induction q as [|c q IH]; [reflexivity|]. change (escape_slashes (c :: q)) with ((if c =? 47 then [92; 47] else [c]) ++ escape_slashes q).
  destruct (Z.eqb_spec c 47) as [->|H]; [discriminate|]. cbn [app existsb]. destruct (47 =? c); [discriminate|].
  cbn [orb]. intros E. rewrite IH by exact E. reflexivity.
Qed.
Lemma escaped q : forall prev, (q = [] -> prev <> 92) -> last q 0 <> 92 -> slashes_escaped prev (escape_slashes q).
Proof.
  induction q as [|c q IH]; intros prev Hp Hl; [cbn; auto|].
  change (escape_slashes (c :: q)) with ((if c =? 47 then [92; 47] else [c]) ++ escape_slashes q).
  assert (HL : q <> [] -> last q 0 <> 92) by (destruct q; [congruence|intros _; exact Hl]).
  destruct (Z.eqb_spec c 47) as [->|H]; cbn [app slashes_escaped].
  - split; [discriminate|]. split; [reflexivity|]. destruct q as [|d q]; [cbn; discriminate|]. apply IH; [discriminate|apply HL; discriminate].
  - split; [contradiction|]. destruct q as [|d q]; [cbn in *; exact Hl|]. apply IH; [discriminate|apply HL; discriminate].
Qed.
Theorem C48_partial : forall rx dst r cf t q fl tail s,
  c_enc cf = s_enc r -> s_enc r <> U16 -> s_contig r = true ->
  (* the build supports these regular expressions and flags *)
  rb_on (rb_of cf) = true -> (c_regex_std cf = true -> ~ In 115 fl /\ (c_regex_multiline cf = false -> ~ In 109 fl)) ->
  NoDup fl -> incl fl regex_flag_letters ->
  q <> [] -> last q 0 <> 92 -> starts_align q = false ->
  exists sp,
    parse_format_specs cf t ([47] ++ escape_slashes q ++ [47] ++ fl ++ 125 :: tail) (SS specs_default false)
    = Ok (125 :: tail, SS sp false)
    /\ string_arg rx dst r sp s = (it <- rx q (flag_value fl) s ;; store dst (s_enc r) s it).
Proof.
  intros rx dst r cf t q fl tail s Hcf He Hr Hrb Hstd Hnd Hin Hq Hl Ha.
  set (d := Desc None None None None false (Some (TyRegex (escape_slashes q) fl))).
  exists (mean (s_enc r) d). split.
  - replace ([47] ++ escape_slashes q ++ [47] ++ fl ++ 125 :: tail) with (render_desc (c_enc cf) d ++ 125 :: tail).
    2:{ unfold d, render_desc. cbn [d_fill d_align d_width d_prec d_local d_type opt render_type app]. rewrite <- !app_assoc. reflexivity. }
    rewrite <- Hcf. apply specs_render; [congruence|]. unfold wf_desc. cbn [d_fill d_align d_width d_prec d_local d_type d].
    assert (HN : escape_slashes q <> []).
    { destruct q as [|c q]; [congruence|]. cbn. destruct (c =? 47); discriminate. }
    repeat split; try discriminate.
    + intros ty [= <-]. cbn. split; [exact Hrb|]. split; [exact HN|]. split; [apply escaped; [congruence|exact Hl]|].
      split; [exact Hnd|]. split; [exact Hin|exact Hstd].
    + intros p f [= <- _]. destruct q as [|c q]; [congruence|]. cbn. destruct (c =? 47) eqn:E; [reflexivity|exact Ha].
  - assert (HT : type (mean (s_enc r) d) = (if existsb (Z.eqb 47) (escape_slashes q) then PRegexEscaped else PRegex)) by reflexivity.
    unfold string_arg, arg_read_checked, string_reader. cbn [rd_check rd_skip rd_specs].
    assert (HC : check_string_type_specs (mean (s_enc r) d) = true) by (unfold check_string_type_specs; rewrite HT; destruct (existsb _ _); reflexivity).
    assert (HK : string_skip (mean (s_enc r) d) = false) by (unfold string_skip, string_kind_of; rewrite HT; destruct (existsb _ _); reflexivity).
    rewrite HC, HK. unfold arg_read.
    change (precision (mean (s_enc r) d)) with 0. change (0 =? 0) with true. cbn [negb].
    unfold impl_prefix. change (align (mean (s_enc r) d)) with ANone. cbv iota. cbn [bind].
    change (need_width (mean (s_enc r) d)) with false. cbv iota.
    assert (HS : string_specs rx dst r (mean (s_enc r) d) s = (it <- rx q (flag_value fl) s ;; store dst (s_enc r) s it)).
    { unfold string_specs, string_kind_of. rewrite HT. change (charset_string (mean (s_enc r) d)) with (escape_slashes q).
      change (regexp_flags (mean (s_enc r) d)) with (flag_value fl).
      destruct (existsb (Z.eqb 47) (escape_slashes q)) eqn:EX; unfold regex_read; rewrite Hr; cbn [negb].
      - rewrite unescape_escape. reflexivity.
      - rewrite no_slash by exact EX. reflexivity. }
    rewrite HS. destruct (rx q (flag_value fl) s) as [it|x| |]; cbn [bind]; try reflexivity.
    destruct (store dst (s_enc r) s it) as [[v it2]|x| |]; cbn [bind]; try reflexivity.
    destruct it2 as [|c it2]; cbn [bind]; unfold check_widths; change (width (mean (s_enc r) d)) with 0;
      change (precision (mean (s_enc r) d)) with 0; change (0 =? 0) with true; cbn [negb andb]; cbn [bind]; try reflexivity.
Qed.
Print Assumptions C48_partial.
(** A toy engine for the pattern "a/": it matches just that. *)
Definition toy_rx : regex_engine := fun p f s =>
  if list_eqb p [97; 47] && (f =? 4) && starts_with p s then Ok (skipn 2 s) else Err InvalidScannedValue.
Example C48_ex :
  rb_on (rb_of cf8) = true
  /\ (exists sp, parse_format_specs cf8 NarrowStringType ([47] ++ escape_slashes [97; 47] ++ [47] ++ [105] ++ [125]) (SS specs_default false)
        = Ok ([125], SS sp false)
      /\ escape_slashes [97; 47] = [97; 92; 47]
      /\ string_arg toy_rx str8 string_src sp [97; 47; 97] = Ok ([97; 47], [97])
      /\ string_arg toy_rx str8 string_src sp [97; 92; 47] = Err InvalidScannedValue).
Proof. split; [reflexivity|]. eexists. split; [vm_compute; reflexivity|]. repeat split; vm_compute; reflexivity. Qed.
(** The pattern of a single backslash, "\\", cannot be given: the slash behind it is taken for an
    escaped one.  "/\\/" is an error, and "/\\/i/" stands for another pattern. *)
Theorem C48_backslash_refuted : exists q sp sp',
  q = [92; 92]
  /\ parse_format_specs cf8 NarrowStringType ([47] ++ escape_slashes q ++ [47; 125]) (SS specs_default false) = Ok ([], SS sp true)
  /\ parse_format_specs cf8 NarrowStringType ([47] ++ escape_slashes q ++ [47; 105; 47; 125]) (SS specs_default false) = Ok ([125], SS sp' false)
  /\ (forall rx s, string_arg rx str8 string_src sp' s = (it <- rx [92; 47; 105] 0 s ;; store str8 U8 s it)).
Proof.
  exists [92; 92]. do 2 eexists. split; [reflexivity|]. split; [vm_compute; reflexivity|]. split; [vm_compute; reflexivity|].
  intros rx s. unfold string_arg, arg_read_checked, string_reader. cbn [rd_check rd_skip rd_specs].
  unfold arg_read. cbn [precision Z.eqb negb]. unfold impl_prefix. cbn [align string_skip string_kind_of type]. cbn [bind].
  unfold string_specs, regex_read. cbn [string_kind_of type charset_string regexp_flags]. cbn [s_contig string_src negb s_enc].
  change (unescape_pattern [92; 92; 47; 105]) with [92; 47; 105].
  destruct (rx [92; 47; 105] 0 s) as [it|x| |]; try reflexivity.
  cbn [bind]. destruct (store str8 U8 s it) as [[v it2]|x| |]; try reflexivity. destruct it2; reflexivity.
Qed.
Print Assumptions C48_backslash_refuted.
(** With a precision, whatever the pattern and the source, a regular expression is an
    error: a range limited to a width is not contiguous. *)
Theorem C48_precision : forall rx dst r cf t fmt fmt' sp s,
  c_enc cf = s_enc r -> s_enc r <> U16 -> engine_ok rx -> units (s_enc r) s ->
  parse_format_specs cf t fmt (SS specs_default false) = Ok (fmt', SS sp false) ->
  type sp = PRegex \/ type sp = PRegexEscaped -> precision sp <> 0 ->
  exists e, string_arg rx dst r sp s = Err e.
Proof.
  intros rx dst r cf t fmt fmt' sp s Hcf He Hrx Hu HF HT HP.
  destruct (C47 rx dst r cf t fmt fmt' sp s Hcf He Hrx Hu HF) as [H|(v & rest & pre & part & post & H & _)]; [exact H|].
  exfalso. revert H. unfold string_arg, arg_read_checked, string_reader. cbn [rd_check rd_skip rd_specs].
  destruct (check_string_type_specs sp); [|discriminate].
  unfold arg_read. destruct (Z.eqb_spec (precision sp) 0); [contradiction|]. cbn [negb].
  intros H. apply ok_bind in H. destruct H as ([it w] & _ & H). cbn beta iota in H.
  apply ok_bind in H. destruct H as (x & H & _). destruct (_ <=? _); [discriminate|].
  apply ok_bind in H. destruct H as (u & _ & H). apply ok_bind in H. destruct H as (y & H & _).
  revert H. unfold string_specs, string_kind_of. destruct HT as [-> | ->]; discriminate.
Qed.
Print Assumptions C48_precision.
Example C48_precision_ex : exists sp,
  parse_format_specs cf8 NarrowStringType [46; 53; 47; 97; 47; 125] (SS specs_default false) = Ok ([125], SS sp false)
  /\ type sp = PRegex /\ precision sp = 5 /\ string_arg toy_rx str8 string_src sp [97] = Err InvalidFormatString.
Proof. eexists. split; [vm_compute; reflexivity|]. repeat split; vm_compute; reflexivity. Qed.
