(** Reading the text of a date that is kept as it is: time zone names and fractions of a second. *)
From Verif Require Import Prelude UnicodeModel UnicodeSpec WhitespaceModel ReadModel ReadProofs ArgReaderModel SpecsModel ArgsModel FormatModel FormatSpec FormatSpecProofs
  VscanModel VscanSpec WidthModel WidthSpec WidthProofs StringModel StringSpec StringProofs StringSafeProofs VscanProofs VscanSpecProofs VscanProperties DocTypesRun StringProperties ChronoModel.
Local Open Scope list_scope.
Local Open Scope Z_scope.

Definition set_desc (items : list set_item) : desc := Desc None None None None false (Some (TySet false items)).
Definition ascii_items (items : list set_item) : Prop := wf_set false items /\ existsb item_nonascii items = false.

Lemma find_if_run p u s : Forall (fun c => p c = false) u -> match s with [] => True | c :: _ => p c = true end ->
  find_if p (u ++ s) = s.
Proof.
  induction 1 as [|c u Hc F IH]; intros Hs; cbn [app].
  - destruct s as [|c s]; [reflexivity|]. cbn. now rewrite Hs.
  - cbn. rewrite Hc. auto.
Qed.
Lemma ascii_text e u : Forall (fun c => 0 <= c < 128) u -> text e u = u.
Proof.
  induction 1 as [|c u H F IH]; [reflexivity|]. cbn [text flat_map]. unfold text in IH. rewrite IH.
  replace (encode e c) with [c]; [reflexivity|]. destruct e; cbn [encode]; unfold utf8_of, utf16_of; [| |reflexivity];
    match goal with |- context [?a <? ?b] => destruct (Z.ltb_spec a b) end; reflexivity || lia.
Qed.
Lemma set_run rx r items u next : s_enc r <> U16 -> ascii_items items -> u <> [] ->
  Forall (fun c => 0 <= c < 128 /\ in_items items c = true) u ->
  match next with [] => True | c :: _ => 0 <= c /\ in_items items c = false end ->
  string_arg rx (DString U8) r (mean (s_enc r) (set_desc items)) (u ++ next) = Ok (u, next).
Proof.
  intros He [Hw Ha] Hn Hu Hx.
  assert (Hu1 : Forall (fun c => 0 <= c < 128) u) by (eapply Forall_impl; [|exact Hu]; cbn; tauto).
  assert (Hsc : Forall scalar u).
  { eapply Forall_impl; [|exact Hu1]. cbn. unfold scalar. lia. }
  set (sp := mean (s_enc r) (set_desc items)).
  assert (HL : charset_literals sp = bytes_of (in_items items)) by reflexivity.
  assert (HS : set_source r sp (u ++ next) = Ok next).
  { unfold set_source. destruct (handle_nonascii_set (s_enc r) false items sp He Hw eq_refl) as (rs & -> & _).
    cbn [bind]. replace (charset_has_nonascii sp) with (existsb item_nonascii items) by reflexivity. rewrite Ha.
    replace (charset_is_inverted sp) with false by reflexivity. cbv zeta. cbn [bind].
    unfold read_while_code_unit, read_until_code_unit. rewrite HL. rewrite find_if_run.
    - rewrite app_length. destruct u as [|c u]; [congruence|]. cbn [length].
      destruct (Nat.eqb_spec (length next) (S (length u) + length next)); [lia|reflexivity].
    - eapply Forall_impl; [|exact Hu]. intros c [Hc Hm]. apply negb_false_iff. unfold on_ascii_only, is_ascii_char.
      rewrite (proj2 (Z.leb_le c 127)) by lia. cbn [negb]. rewrite in_literals_spec by lia. exact Hm.
    - destruct next as [|c next]; [trivial|]. apply negb_true_iff. destruct Hx as [Hc Hm]. unfold on_ascii_only, is_ascii_char.
      destruct (Z.leb_spec c 127); cbn [negb]; [|reflexivity]. rewrite in_literals_spec by lia. exact Hm. }
  assert (HST : store (DString U8) (s_enc r) (u ++ next) next = Ok (u, next)).
  { assert (HT := store_text (DString U8) (s_enc r) U8 u [] ltac:(split; [reflexivity|right; split; [exact He|discriminate]]) Hsc).
    unfold store in *. rewrite app_nil_r, (ascii_text (s_enc r)), (ascii_text U8) in HT by exact Hu1.
    rewrite app_length. replace (length u + length next - length next)%nat with (length u) by lia.
    rewrite firstn_len_app. change (text (s_enc r) []) with (@nil Z) in HT. cbn [length] in HT. rewrite Nat.sub_0_r, firstn_all in HT.
    destruct (validate_unicode (s_enc r) u) as [[|]| | |]; cbn [bind negb] in *; try discriminate HT.
    destruct (enc_eqb (s_enc r) U8); cbn [bind] in *; [reflexivity|].
    destruct (transcode_valid_to_string (s_enc r) U8 u); cbn [bind] in *; try discriminate HT. congruence. }
  unfold string_arg, arg_read_checked. cbn [string_reader rd_check rd_skip rd_specs].
  change (check_string_type_specs sp) with true. cbv iota. change (string_skip sp) with false.
  unfold arg_read. change (precision sp) with 0. change (negb (0 =? 0)) with false. cbv iota.
  unfold impl_prefix. change (align sp) with ANone. cbv iota. cbn [bind].
  unfold string_specs. change (string_kind_of sp) with KCharacterSet. cbv iota. unfold set_read. rewrite HS. cbn [bind].
  rewrite HST. cbn [bind]. change (need_width sp) with false. cbv iota. cbn [bind].
  assert (HP : match next with [] => Ok (next, 0) | _ :: _ => impl_postfix r sp false 0 0 next end = Ok (next, 0)).
  { destruct next; [reflexivity|]. unfold impl_postfix. change (align sp) with ANone. change (width sp) with 0.
    change (precision sp) with 0. reflexivity. }
  rewrite HP. cbn [bind]. unfold check_widths. change (width sp) with 0. change (precision sp) with 0. reflexivity.
Qed.

(** The whole scan *)
Lemma scan_set r cf items fmt u next : good_src r -> c_enc cf = s_enc r -> ascii_items items -> no_crossing items ->
  fmt = render (s_enc r) [Field None (Some (set_desc items))] -> u <> [] ->
  Forall (fun c => 0 <= c < 128 /\ in_items items c = true) u ->
  match next with [] => True | c :: _ => 0 <= c /\ in_items items c = false end ->
  units (s_enc r) (u ++ next) -> scan_string r cf fmt (u ++ next) = Ok (u, next).
Proof.
  intros Hr Hcf Hi Hnc -> Hn Hu Hx Hun. assert (He : s_enc r <> U16) by (destruct Hr as [->|[-> _]]; discriminate).
  unfold scan_string. cbv zeta. set (rx := fun _ _ _ => Err InvalidFormatString).
  set (a := Arg _ _ _ _ _ _).
  assert (E : vscan (list Z) r cf [a] (render (s_enc r) [Field None (Some (set_desc items))]) (u ++ next) = Ok ([(0, u)], next)).
  { apply tokens_success; try assumption.
    - cbn. lia.
    - constructor; [|constructor]. split; cbn [a ar_default ar_specs ar_type].
      + intros s v s' Hs E. destruct (string_default_total (DString U8) r s Hs) as [[x E']|(v' & rest & pre & part & E' & Es & _)]; [congruence|].
        rewrite E in E'. injection E' as _ <-. exists (pre ++ part). rewrite Es, app_assoc. reflexivity.
      + intros f f' sp s v s' EP Hs E.
        destruct (C47 rx (DString U8) r cf NarrowStringType f f' sp s Hcf He ltac:(intros; left; eexists; reflexivity) Hs EP)
          as [[x E']|(v' & rest & pre & part & post & E' & Es & _)]; [congruence|].
        rewrite E in E'. injection E' as _ <-. exists (pre ++ part ++ post). rewrite Es, <- !app_assoc. reflexivity.
    - constructor; [|constructor]. reflexivity.
    - constructor; [reflexivity|constructor].
    - left. intros id d [[= <- _]|[]]. reflexivity.
    - cbn [wf_gtokens]. split; [exact I|]. split; [|exact I]. intros d' [= <-] b EB. cbn in EB. injection EB as <-.
      split; [reflexivity|]. unfold wf_desc, set_desc. cbn. destruct Hi.
      repeat split; try discriminate; try (intros ? [= <-]; cbn; auto).
    - unfold expected, scan_spec. cbn [run]. cbn [existsb orb length Z.of_nat]. 
      change (Z.pos (Pos.of_succ_nat 0) <=? 0) with false. cbv iota. unfold meant, read_arg. cbn [option_map nth_error Z.to_nat a ar_specs].
      rewrite set_run by assumption. reflexivity. }
  rewrite E. reflexivity.
Qed.
Definition digit_items : list set_item := [SRange 48 57].
Definition zone_items : list set_item :=
  [SRange 97 122; SRange 65 90; SRange 48 57; SOne 45; SOne 43; SOne 95; SOne 47].
Lemma ascii_items_digits : ascii_items digit_items /\ no_crossing digit_items.
Proof.
  split; [split; [split; [split|]|]|]; try reflexivity.
  - repeat constructor; unfold scalar; lia.
  - eexists _, _. split; [reflexivity|]. cbn. lia.
  - repeat constructor; lia.
Qed.
Lemma ascii_items_zone : ascii_items zone_items /\ no_crossing zone_items.
Proof.
  split; [split; [split; [split|]|]|]; try reflexivity.
  - repeat constructor; unfold scalar; try lia.
  - cbn. repeat split; try discriminate.
  - eexists _, _. split; [reflexivity|]. cbn. lia.
  - repeat constructor; lia.
Qed.
Lemma digits_rendered e : digits_format = render e [Field None (Some (set_desc digit_items))].
Proof. destruct e; vm_compute; reflexivity. Qed.
Lemma zone_rendered e : tz_name_format = render e [Field None (Some (set_desc zone_items))].
Proof. destruct e; vm_compute; reflexivity. Qed.
