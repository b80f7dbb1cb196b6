(** Properties of fields with width, precision, fill and alignment: C26, C27, C43, C46. *)
From Verif Require Import Prelude UnicodeModel UnicodeSpec UnicodeProofs ReadModel SpecsModel IntModel IntSpec
  IntProofs FormatSpec FormatSpecProofs VscanSpec WidthModel WidthSpec WidthProofs ArgReaderModel
  IntTotalProofs IntAsciiProofs ArgReaderProofs.
Local Open Scope Z_scope.

Definition numerals (d : desc) : Prop :=
  (forall w, d_width d = Some w -> numeral w) /\ (forall p, d_prec d = Some p -> numeral p).
(** Fills the code stores faithfully (see C43). *)
Definition fill_kept (e : enc) (d : desc) : Prop :=
  forall f, d_fill d = Some f -> scalar f /\ match e with U8 => True | _ => f < 256 end.

Lemma number_nonneg ds : numeral ds -> 0 <= number ds.
Proof.
  intros (_ & H & _). unfold number.
  assert (G : forall v, 0 <= v -> 0 <= fold_left (fun v c => 10 * v + (c - 48)) ds v).
  { induction H as [|c ds Hc _ IH]; intros v Hv; cbn [fold_left]; [exact Hv|]. apply IH. lia. }
  apply G. lia.
Qed.
Lemma mean_width e d : width (mean e d) = said_width d.
Proof. unfold mean, said_width. destruct (d_type d) as [[c|i l|p fl]|]; reflexivity. Qed.
Lemma mean_precision e d : precision (mean e d) = optv 0 number (d_prec d).
Proof. unfold mean. destruct (d_type d) as [[c|i l|p fl]|]; reflexivity. Qed.
Lemma mean_align e d : align (mean e d) = said_align d.
Proof. unfold mean, said_align. destruct (d_type d) as [[c|i l|p fl]|]; reflexivity. Qed.
Lemma mean_fill_eq e d : fill (mean e d) = mean_fill e (d_fill d).
Proof. unfold mean. destruct (d_type d) as [[c|i l|p fl]|]; reflexivity. Qed.
Lemma mean_fill_ok e d : fill_kept e d -> fill_ok e (said_fill d) (mean_fill e (d_fill d)).
Proof.
  intros H. unfold said_fill. destruct (d_fill d) as [f|] eqn:E; cbn [optv mean_fill].
  - specialize (H f E). destruct H as [Hs He]. split; [exact Hs|]. destruct e.
    + split; [apply firstn_len_app|reflexivity].
    + assert (0 <= f) by (unfold scalar in Hs; lia). cbn [f_size f_data firstn]. rewrite Z.mod_small by lia. auto.
    + assert (0 <= f) by (unfold scalar in Hs; lia). cbn [f_size f_data firstn]. rewrite Z.mod_small by lia. auto.
  - split; [unfold scalar; lia|]. destruct e; cbn; repeat split; reflexivity || lia.
Qed.

(** The readers for the values: how the field is stored for them does not matter here. *)
Definition field_src (r : src) (d : desc) : src :=
  match said_precision d with None => r | Some _ => view_src r end.

Lemma said_prec_of e d : prec_of (mean e d) = said_precision d.
Proof.
  unfold prec_of. rewrite mean_precision. unfold said_precision.
  destruct (d_prec d) as [ds|]; cbn [optv]; [|reflexivity]. destruct (number ds =? 0); reflexivity.
Qed.
Lemma said_no_precision e d : precision (mean e d) = 0 -> said_precision d = None.
Proof. intros E. rewrite <- (said_prec_of e). unfold prec_of. rewrite E. reflexivity. Qed.
Lemma field_src_eq r d : field_src r d = if precision (mean (s_enc r) d) =? 0 then r else view_src r.
Proof.
  unfold field_src. rewrite <- (said_prec_of (s_enc r)). unfold prec_of.
  destruct (precision (mean (s_enc r) d) =? 0); reflexivity.
Qed.

(** ** C27: reading a field is finding the fill, the value and the fill again. *)
Theorem C27_field_partial : forall V r d skip (read : src -> list Z -> outcome (V * list Z)) cps,
  (said_precision d = None -> skip = true \/ said_width d <> 0 -> whole r cps) -> numerals d -> fill_kept (s_enc r) d -> Forall scalar cps ->
  whole_code_points (s_enc r) (read (field_src r d)) ->
  arg_read r (mean (s_enc r) d) skip read (text (s_enc r) cps)
  = ('(x, l) <- field (said_align d) (said_fill d) (said_width d) (said_precision d) skip
                  (on_text (s_enc r) (read (field_src r d))) cps ;;
     Ok (x, text (s_enc r) l)).
Proof.
  intros V r d skip read cps Hr [Hw Hp] Hf Hc Hread.
  rewrite <- (mean_align (s_enc r)), <- (mean_width (s_enc r)), <- (said_prec_of (s_enc r)).
  apply arg_read_field; try assumption.
  - rewrite mean_precision. destruct (d_prec d) as [w|] eqn:E; cbn [optv]; [apply number_nonneg; auto|lia].
  - intros _. rewrite mean_fill_eq. apply mean_fill_ok, Hf.
  - intros ds _ Hds. rewrite <- field_src_eq. apply on_text_read; assumption.
  - intros ds x l. apply on_text_suffix.
  - intros E. rewrite mean_width. apply Hr, (said_no_precision (s_enc r)), E.
Qed.
Print Assumptions C27_field_partial.

(** Integers qualify as values. *)
Lemma text_enc_ok e cps : Forall scalar cps -> enc_ok e (text e cps).
Proof.
  intros H ->. apply utf8_bytes, H.
Qed.
Theorem C27_integers : forall r t sp sep b, type_ok t -> get_base sp = Ok b -> b = 0 \/ 2 <= b <= 36 ->
  (localized sp = true -> 0 <= sep < 128) ->
  whole_code_points (s_enc r) (int_read_specs r t sp sep).
Proof.
  intros r t sp sep b Ht Hg Hb Hsep cps x rest Hc E.
  eapply int_specs_ascii in E; eauto using text_enc_ok.
  destruct E as (p & E & Hp). destruct (ascii_text _ _ Hp _ _ Hc E) as (l & -> & ->). eauto.
Qed.
Print Assumptions C27_integers.

Definition d_fmt fl al w p := Desc fl al w p false None.
Definition int_field (r : src) (d : desc) : list Z -> outcome (Z * list Z) :=
  arg_read r (mean (s_enc r) d) true (fun r' => int_read_specs r' i32 (mean (s_enc r) d) 0).
(** "{:中^9.9}" on "中中42中中!": the fills are two columns wide each. *)
Definition han := 0x4e2d.
Example C27_ex_hyps :
  let d := d_fmt (Some han) (Some ACenter) (Some [57]) (Some [57]) in
  (said_precision d = None -> whole string_src [han; han; 52; 50; han; han; 33]) /\ numerals d /\ fill_kept U8 d /\ Forall scalar [han; han; 52; 50; han; han; 33]
  /\ whole_code_points U8 (int_read_specs (field_src string_src d) i32 (mean U8 d) 0).
Proof.
  cbv zeta. split; [discriminate|]. split; [split; intros ? [= <-]; repeat split; repeat constructor; try discriminate; lia|].
  split; [intros ? [= <-]; split; [unfold scalar, han; lia|exact I]|].
  split; [repeat constructor; unfold scalar, han; lia|].
  apply (C27_integers (field_src string_src (d_fmt (Some han) (Some ACenter) (Some [57]) (Some [57]))) i32 _ 0 10);
    [unfold type_ok; cbn; auto|reflexivity|lia|discriminate].
Qed.
Example C27_ex :
  (* too short for nine columns, as only one more fill fits into the bound *)
  int_field string_src (d_fmt (Some han) (Some ACenter) (Some [57]) (Some [57])) (text U8 [han; han; 52; 50; han; han; 33])
    = Err LengthTooShort
  /\ int_field string_src (d_fmt (Some han) (Some ACenter) (Some [56]) (Some [57])) (text U8 [han; han; 52; 50; han; han; 33])
    = Ok (42, text U8 [han; 33])
  /\ int_field string_src (d_fmt (Some han) (Some ARight) None None) (text U8 [han; han; 52; 50; han; han; 33])
    = Ok (42, text U8 [han; han; 33])
  /\ int_field string_src (d_fmt (Some han) (Some ALeft) None None) (text U8 [52; 50; han; han; 33])
    = Ok (42, text U8 [33])
  /\ int_field string_src (d_fmt None (Some ARight) None (Some [51])) (text U8 [32; 32; 32; 52])
    = Err InvalidFill.
Proof. vm_compute. auto. Qed.

(** ** C26: precision. *)
(** Nothing beyond the first [n] columns has any influence. *)
Theorem C26_bound_partial : forall V r d skip (read : src -> list Z -> outcome (V * list Z)) n v q,
  numerals d -> fill_kept (s_enc r) d -> Forall scalar (v ++ q) ->
  whole_code_points (s_enc r) (read (field_src r d)) ->
  said_precision d = Some n -> take_cols n (v ++ q) = v ->
  arg_read r (mean (s_enc r) d) skip read (text (s_enc r) (v ++ q))
  = ('(x, l) <- arg_read r (mean (s_enc r) d) skip read (text (s_enc r) v) ;;
     Ok (x, l ++ text (s_enc r) q)).
Proof.
  intros V r d skip read n v q Hd Hf Hc Hread Hp Hv.
  assert (Hn : 0 <= n).
  { unfold said_precision in Hp. destruct (d_prec d) as [ds|] eqn:E; [|discriminate].
    destruct Hd as [_ Hd]. specialize (Hd ds E). apply number_nonneg in Hd.
    destruct (number ds =? 0); [discriminate|]. injection Hp as <-. exact Hd. }
  assert (Hvs : Forall scalar v) by (apply scalars_app in Hc; apply Hc).
  rewrite !C27_field_partial by (assumption || congruence). rewrite Hp.
  rewrite field_limited; [|exact Hn|intros ds y m; apply on_text_suffix|exact Hv].
  destruct (field _ _ _ _ _ _ v) as [[x l]|x| |]; cbn [bind]; try reflexivity.
  rewrite text_app. reflexivity.
Qed.
Print Assumptions C26_bound_partial.
(** What is consumed are whole code points, of at most [n] columns, and at least as many
    as the width asks for. *)
Theorem C26_consumed_partial : forall V r d skip (read : src -> list Z -> outcome (V * list Z)) cps x rest,
  (said_precision d = None -> skip = true \/ said_width d <> 0 -> whole r cps) -> numerals d -> fill_kept (s_enc r) d -> Forall scalar cps ->
  whole_code_points (s_enc r) (read (field_src r d)) ->
  arg_read r (mean (s_enc r) d) skip read (text (s_enc r) cps) = Ok (x, rest) ->
  exists a l, cps = a ++ l /\ rest = text (s_enc r) l /\ said_width d <= cols a
    /\ forall n, said_precision d = Some n -> cols a <= n.
Proof.
  intros V r d skip read cps x rest Hr Hd Hf Hc Hread E.
  rewrite C27_field_partial in E by assumption.
  destruct (field _ _ _ _ _ _ cps) as [[y l]|y| |] eqn:EF; cbn [bind] in E; try discriminate.
  injection E as <- <-. apply field_suffix in EF; [|intros ds z m; apply on_text_suffix].
  destruct EF as (a & -> & H1 & H2). exists a, l. repeat split; [exact H1|].
  intros n Hp. rewrite Hp in H2. apply H2.
  unfold said_precision in Hp. destruct (d_prec d) as [ds|] eqn:E; [|discriminate].
  destruct Hd as [_ Hd]. specialize (Hd ds E). apply number_nonneg in Hd.
  destruct (number ds =? 0); [discriminate|]. injection Hp as <-. exact Hd.
Qed.
Print Assumptions C26_consumed_partial.
Example C26_ex :
  int_field string_src (d_fmt None None None (Some [51])) (text U8 [52; 50; 49; 48; han]) = Ok (421, text U8 [48; han])
  /\ take_cols 3 [52; 50; 49; 48; han] = [52; 50; 49]
  /\ take_cols 3 [52; 50; han; 48] = [52; 50].
Proof. vm_compute. auto. Qed.
(** Text that is not well-formed is not bounded: "\xff\xff\xff\xff42" with "{:.3}" gives
    42 and uses up six characters. *)
Theorem C26_malformed_refuted : exists d s, said_precision d = Some 3 /\ numerals d
  /\ bytes s /\ length s = 6%nat /\ int_field string_src d s = Ok (42, []).
Proof.
  exists (d_fmt None None None (Some [51])), [255; 255; 255; 255; 52; 50].
  split; [reflexivity|]. split; [split; intros ? [= <-]; repeat split; repeat constructor; try discriminate; lia|].
  split; [repeat constructor; lia|]. split; [reflexivity|]. vm_compute. reflexivity.
Qed.
Print Assumptions C26_malformed_refuted.

(** ** C43 *)
(** The fill stored for a code point, as parsed from the format string (C18), makes the
    reader skip exactly that code point. *)
Theorem C43_partial : forall r f cps n want,
  scalar f -> match s_enc r with U8 => True | _ => f < 256 end -> Forall scalar cps -> 0 <= n ->
  let run := lead (Z.eqb f) (if n =? 0 then cps else take_cols n cps) in
  skip_fill r (text (s_enc r) cps) n (mean_fill (s_enc r) (Some f)) want
  = Ok (text (s_enc r) (after run cps), if want then cols run else 0).
Proof.
  intros r f cps n want Hf He Hc Hn run.
  rewrite (skip_fill_text r f); [|apply (mean_fill_ok _ (d_fmt (Some f) None None None)); intros ? [= <-]; auto|exact Hc].
  unfold efl, run. destruct (Z.eqb_spec n 0) as [->|]; [reflexivity|].
  destruct (Z.leb_spec n 0); [lia|]. reflexivity.
Qed.
Print Assumptions C43_partial.
Example C43_ex : skip_fill string_src (text U8 [han; han; 42]) 0 (mean_fill U8 (Some han)) true = Ok ([42], 4)
  /\ skip_fill string_src (text U8 [han; han; 42]) 3 (mean_fill U8 (Some han)) true = Ok (text U8 [han; 42], 2).
Proof. vm_compute. auto. Qed.
(** In wide format strings the fill is cut to a byte: "{:Ł>}" skips 'A's, and no Ł. *)
Definition wide_src : src := Src U32 true (fun _ => O).
Theorem C43_wide_refuted : exists f d, scalar f /\ d_fill d = Some f /\ d_align d = Some ARight
  /\ int_field wide_src d [f; f; 52; 50] = Err InvalidScannedValue
  /\ int_field wide_src d [65; 65; 52; 50] = Ok (42, []).
Proof.
  exists 0x141, (d_fmt (Some 0x141) (Some ARight) None None). split; [unfold scalar; lia|].
  split; [reflexivity|]. split; [reflexivity|]. vm_compute. auto.
Qed.
Print Assumptions C43_wide_refuted.
(** For every code point: what is skipped is the code point its lowest byte stands for. *)
Theorem C43_wide : forall r f cps n want,
  s_enc r <> U8 -> scalar f -> Forall scalar cps -> 0 <= n ->
  let run := lead (Z.eqb (f mod 256)) (if n =? 0 then cps else take_cols n cps) in
  skip_fill r (text (s_enc r) cps) n (mean_fill (s_enc r) (Some f)) want
  = Ok (text (s_enc r) (after run cps), if want then cols run else 0).
Proof.
  intros r f cps n want He Hf Hc Hn run.
  rewrite (skip_fill_text r (f mod 256)); [| |exact Hc].
  - unfold efl, run. destruct (Z.eqb_spec n 0) as [->|]; [reflexivity|].
    destruct (Z.leb_spec n 0); [lia|]. reflexivity.
  - assert (0 <= f mod 256 < 256) by (apply Z.mod_pos_bound; lia).
    split; [unfold scalar; lia|]. destruct (s_enc r); [congruence| |]; cbn; repeat split; trivial; lia.
Qed.
Print Assumptions C43_wide.
Example C43_wide_ex : (s_enc wide_src <> U8) /\ (scalar 0x141) /\
  skip_fill wide_src [65; 65; 52] 0 (mean_fill U32 (Some 0x141)) true = Ok ([52], 2).
Proof. split; [discriminate|]. split; [unfold scalar; lia|]. vm_compute. reflexivity. Qed.

(** ** C46 *)
(** White space before the value does count: with it "  123" is wide enough for "{:5}",
    which "123" is not; and "    123" has no value within "{:.3}". *)
Theorem C46_width_refuted : exists d ws s, said_width d = 5 /\ Forall (fun c => is_ws c = true) ws
  /\ int_field string_src d s = Err LengthTooShort /\ int_field string_src d (ws ++ s) = Ok (123, []).
Proof.
  exists (d_fmt None None (Some [53]) None), [32; 32], [49; 50; 51].
  split; [reflexivity|]. split; [repeat constructor|]. vm_compute. auto.
Qed.
Print Assumptions C46_width_refuted.
Theorem C46_precision_refuted : exists d ws s, said_precision d = Some 3 /\ Forall (fun c => is_ws c = true) ws
  /\ int_field string_src d s = Ok (123, []) /\ int_field string_src d (ws ++ s) = Err EndOfInput.
Proof.
  exists (d_fmt None None None (Some [51])), [32; 32; 32; 32], [49; 50; 51].
  split; [reflexivity|]. split; [repeat constructor|]. vm_compute. auto.
Qed.
Print Assumptions C46_precision_refuted.
(** Without width and precision it is skipped and of no consequence. *)
Theorem C46_plain_partial : forall V r d (read : src -> list Z -> outcome (V * list Z)) ws cps,
  whole r (ws ++ cps) -> d_align d = None -> d_width d = None -> d_prec d = None ->
  Forall scalar (ws ++ cps) -> Forall (fun c => is_ws c = true) ws ->
  whole_code_points (s_enc r) (read r) ->
  arg_read r (mean (s_enc r) d) true read (text (s_enc r) (ws ++ cps))
  = arg_read r (mean (s_enc r) d) true read (text (s_enc r) cps).
Proof.
  intros V r d read ws cps Hr Ha Hw Hp Hc Hws Hread.
  assert (Hcc : Forall scalar cps) by (apply scalars_app in Hc; apply Hc).
  assert (HP : prec_of (mean (s_enc r) d) = None) by (rewrite said_prec_of; unfold said_precision; rewrite Hp; reflexivity).
  assert (HA : align (mean (s_enc r) d) = ANone) by (rewrite mean_align; unfold said_align; rewrite Ha; reflexivity).
  assert (HW : width (mean (s_enc r) d) = 0) by (rewrite mean_width; unfold said_width; rewrite Hw; reflexivity).
  assert (HP0 : precision (mean (s_enc r) d) = 0) by (rewrite mean_precision, Hp; reflexivity).
  assert (HG : forall ds, whole r ds -> Forall scalar ds -> arg_read r (mean (s_enc r) d) true read (text (s_enc r) ds)
     = ('(x, l) <- field ANone 32 0 None true (on_text (s_enc r) (read r)) ds ;; Ok (x, text (s_enc r) l))).
  { intros ds Hrds Hds. rewrite <- HA, <- HW, <- HP. apply arg_read_field; try assumption; try lia; try congruence.
    - intros ds' _ Hds'. rewrite HP0. change (0 =? 0) with true. cbv iota. apply on_text_read; assumption.
    - intros ds' x l. apply on_text_suffix.
    - intros _ _. exact Hrds. }
  assert (Hrc := whole_suffix r ws cps Hr). rewrite !HG by assumption. clear Hr Hrc. unfold field, before_value. cbn [limit less option_map].
  assert (HL : lead is_ws (ws ++ cps) = ws ++ lead is_ws cps).
  { induction Hws as [|c l Hcw _ IH]; [reflexivity|]. cbn [app lead]. rewrite Hcw. f_equal. apply IH.
    inversion Hc; assumption. }
  rewrite HL, !app_length.
  replace (length ws + length (lead is_ws cps) =? length ws + length cps)%nat
    with (length (lead is_ws cps) =? length cps)%nat by (destruct (Nat.eqb_spec (length (lead is_ws cps)) (length cps)), (Nat.eqb_spec (length ws + length (lead is_ws cps)) (length ws + length cps)); lia).
  destruct (_ =? _)%nat; [reflexivity|]. cbn [bind].
  assert (EA : after (ws ++ lead is_ws cps) (ws ++ cps) = after (lead is_ws cps) cps).
  { unfold after. rewrite app_length. induction ws as [|c l IHl]; [reflexivity|]. cbn [app length Nat.add skipn]. apply IHl.
    - inversion Hc; assumption.
    - inversion Hws; assumption.
    - cbn [app lead] in HL. inversion Hws as [|? ? Hw1]; subst. rewrite Hw1 in HL. injection HL as HL. exact HL. }
  rewrite EA. destruct (on_text (s_enc r) (read r) _) as [[x l]|x| |]; cbn [bind]; try reflexivity.
  unfold after_value. cbn [negb andb cols]. rewrite !Z.add_0_r.
  set (v := firstn _ _). pose proof (cols_nonneg v). pose proof (cols_nonneg (ws ++ lead is_ws cps)).
  pose proof (cols_nonneg (lead is_ws cps)).
  destruct (Z.ltb_spec (cols (ws ++ lead is_ws cps) + cols v) 0), (Z.ltb_spec (cols (lead is_ws cps) + cols v) 0); lia || reflexivity.
Qed.
Print Assumptions C46_plain_partial.
Example C46_ex : int_field string_src (d_fmt None None None None) (text U8 [0x2028; 32; 52; 50]) = Ok (42, [])
  /\ Forall (fun c => is_ws c = true) [0x2028; 32].
Proof. split; [vm_compute; reflexivity|repeat constructor]. Qed.
