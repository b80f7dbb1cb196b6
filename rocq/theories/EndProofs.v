(** Proofs about when the end of the input is reported. *)
From Verif Require Import Prelude Tables BitsModel UnicodeModel WhitespaceModel UnicodeSpec UnicodeProofs ReadModel ReadProofs ArgsModel SpecsModel SpecsInvProofs FormatModel
  IntModel WidthModel ArgReaderModel ScalarModel StringModel FloatModel LocaleModel VscanSpec WidthSpec WidthProofs ArgReaderProofs ArgSafeProofs StringSafeProofs FormatProofs SpecsInvProofs VscanModel VscanProofs VscanProperties DocTypesRun EndSpec.
Local Open Scope Z_scope.

Definition quiet {A} (m : outcome A) : Prop := m <> Err EndOfInput.
Lemma quiet_bind {A B} (m : outcome A) (f : A -> outcome B) : quiet m -> (forall x, quiet (f x)) -> quiet (x <- m ;; f x).
Proof. unfold quiet. intros H1 H2. destruct m; cbn [bind]; auto; congruence. Qed.
Ltac quiet1 :=
  match goal with
  | |- quiet (bind _ _) => apply quiet_bind; [|intros]
  | |- quiet (match ?x with _ => _ end) => destruct x
  | |- quiet _ => solve [auto with quiet | unfold quiet; discriminate]
  end.
Ltac quiets := repeat quiet1.
Lemma quiet_ok {A} (x : A) : quiet (Ok x). Proof. unfold quiet. discriminate. Qed.
#[export] Hint Resolve quiet_ok : quiet.
Lemma quiet_decode e u : quiet (decode_cp e u).
Proof. unfold decode_cp, decode_utf8, decode_utf16. cbv zeta. quiets. Qed.
Lemma quiet_decode_valid e u : quiet (decode_cp_valid e u).
Proof. unfold decode_cp_valid, decode_utf8_valid, decode_utf16_valid. cbv zeta. quiets. Qed.
#[export] Hint Resolve quiet_decode quiet_decode_valid : quiet.
Lemma quiet_validate e s : quiet (validate_unicode e s).
Proof.
  unfold validate_unicode. generalize (length s) as n. intros n. revert s. induction n as [|n IH]; intros s; cbn [validate_unicode_loop]; cbv zeta; quiets.
Qed.
Lemma quiet_each e s : quiet (for_each_code_point e s).
Proof.
  unfold for_each_code_point. match goal with |- quiet (_ ?n _ _) => generalize n end. intros n. revert s.
  induction n as [|n IH]; intros s; cbn [for_each_code_point_loop]; unfold get_next_code_point; cbv zeta; quiets.
Qed.
Lemma quiet_each_valid e s : quiet (for_each_code_point_valid e s).
Proof.
  unfold for_each_code_point_valid. match goal with |- quiet (_ ?n _ _) => generalize n end. intros n. revert s.
  induction n as [|n IH]; intros s; cbn [for_each_code_point_valid_loop]; unfold get_next_code_point_valid; cbv zeta; quiets.
Qed.
#[export] Hint Resolve quiet_validate quiet_each quiet_each_valid : quiet.
Lemma quiet_into e s : s <> [] -> quiet (read_code_point_into e s).
Proof. unfold read_code_point_into. cbv zeta. destruct s; [congruence|]. intros _. quiets. Qed.
Lemma quiet_until e p s : quiet (read_until_code_point e p s).
Proof.
  unfold read_until_code_point. generalize (length s) as n. intros n. revert s. induction n as [|n IH]; intros s; cbn [read_until_code_point_loop]; destruct s as [|c s]; quiets.
  apply quiet_into. discriminate.
Qed.
#[export] Hint Resolve quiet_until : quiet.
Lemma quiet_inner cb n : forall fuel i it, quiet (find_classic_inner fuel cb n i it).
Proof. induction fuel as [|f IH]; intros i it; cbn [find_classic_inner]; unfold get_next_code_point; cbv zeta; quiets. Qed.
#[export] Hint Resolve quiet_inner : quiet.
Lemma quiet_find s a b : quiet (find_classic_impl s a b).
Proof.
  unfold find_classic_impl. generalize (length s) as n. intros n. revert s. induction n as [|n IH]; intros s; cbn [find_classic_loop]; unfold has_nonascii_char_64; cbv zeta; quiets.
Qed.
#[export] Hint Resolve quiet_find : quiet.
Lemma quiet_until_space r s : quiet (read_until_classic_space r s).
Proof. unfold read_until_classic_space, find_classic_space_narrow_fast. cbv zeta. quiets. Qed.
Lemma quiet_while_space r s : quiet (read_while_classic_space r s).
Proof. unfold read_while_classic_space, find_classic_nonspace_narrow_fast, read_while_code_point. cbv zeta. quiets. Qed.
#[export] Hint Resolve quiet_until_space quiet_while_space : quiet.
Lemma quiet_text_width e s : quiet (text_width e s).
Proof. unfold text_width. quiets. Qed.
#[export] Hint Resolve quiet_text_width : quiet.
Lemma quiet_width_at e s : quiet (width_at e s).
Proof. unfold width_at. quiets. Qed.
#[export] Hint Resolve quiet_width_at : quiet.
Lemma quiet_increment e a b s : quiet (increment e a b s).
Proof. unfold increment. quiets. Qed.
#[export] Hint Resolve quiet_increment : quiet.
Lemma quiet_take e s n : quiet (take_width e s n).
Proof. unfold take_width. generalize 0 as l. revert n. induction s as [|c s IH]; intros n l; cbn [tw_from]; unfold at_end; quiets. Qed.
Lemma quiet_count e s v rest n : quiet (view_count e s v rest n).
Proof.
  unfold view_count. generalize (length v - length rest)%nat as k. intros k. revert s n. generalize 0 as l. induction k as [|k IH]; intros l s n; destruct s as [|c s]; cbn [tw_count]; quiets.
Qed.
#[export] Hint Resolve quiet_take quiet_count : quiet.
Lemma quiet_units n s : quiet (read_while_code_units n s).
Proof. unfold read_while_code_units. generalize (length s) as f. intros f. revert s. induction f as [|f IH]; intros s; cbn [read_while_code_units_loop]; quiets. Qed.
#[export] Hint Resolve quiet_units : quiet.
Lemma quiet_fill r s n f w : quiet (skip_fill r s n f w).
Proof. unfold skip_fill. cbv zeta. quiets. Qed.
#[export] Hint Resolve quiet_fill : quiet.
Lemma quiet_postfix r sp skip a b s : quiet (impl_postfix r sp skip a b s).
Proof. unfold impl_postfix, skip_ws_within, skip_ws_all, skip_classic_whitespace. quiets. Qed.
Lemma quiet_widths sp a b c : quiet (check_widths sp a b c).
Proof. unfold check_widths. quiets. Qed.
#[export] Hint Resolve quiet_postfix quiet_widths : quiet.
(** Values *)
Lemma quiet_store d e s it : quiet (store d e s it).
Proof. unfold store, transcode_valid_to_string, transcode_valid_to32. cbv zeta. quiets. Qed.
#[export] Hint Resolve quiet_store : quiet.
Lemma quiet_set_cp e s : quiet (parse_set_code_point e s).
Proof. unfold parse_set_code_point. cbv zeta. quiets. Qed.
#[export] Hint Resolve quiet_set_cp : quiet.
Lemma quiet_set_literal e s st : quiet (parse_set_literal nonascii_handler e s st).
Proof. unfold parse_set_literal. cbn [nonascii_handler sh_single sh_range]. quiets. Qed.
#[export] Hint Resolve quiet_set_literal : quiet.
Lemma quiet_set_loop e : forall fuel s st, quiet (parse_set_loop fuel nonascii_handler e s st).
Proof. induction fuel as [|f IH]; intros s st; cbn [parse_set_loop]; quiets. Qed.
#[export] Hint Resolve quiet_set_loop : quiet.
Lemma quiet_nonascii e sp : quiet (handle_nonascii e sp).
Proof. unfold handle_nonascii, parse_presentation_set, finish_set. cbn [nonascii_handler sh_single]. quiets. Qed.
#[export] Hint Resolve quiet_nonascii : quiet.
Definition engine_quiet (rx : regex_engine) : Prop := forall p fl s, quiet (rx p fl s).
Lemma quiet_strings rx d r sp s : engine_quiet rx -> quiet (string_specs rx d r sp s).
Proof.
  intros HX. unfold string_specs, word_read, custom_word_read, character_read, set_read, set_source, regex_read, read_while_code_point. cbv zeta. quiets; apply HX.
Qed.
Lemma quiet_word d r s : quiet (word_read d r s).
Proof. unfold word_read. quiets. Qed.
Lemma quiet_bool tx nu custom s : (forall s, quiet (custom s)) -> quiet (bool_either tx nu custom s).
Proof.
  intros H. unfold bool_either. assert (N : quiet (if nu then bool_numeric s else Err InvalidScannedValue)) by (unfold bool_numeric; quiets).
  destruct (if nu then bool_numeric s else Err InvalidScannedValue) as [x|e| |]; [quiets| |quiets..]. destruct tx; [apply H|]. unfold quiet in *. congruence.
Qed.
Lemma quiet_table t i : quiet (table_get t i).
Proof. unfold table_get. quiets. Qed.
#[export] Hint Resolve quiet_table : quiet.
Lemma quiet_overflow t v n b neg : quiet (check_integer_overflow t v n b neg).
Proof. unfold check_integer_overflow, maxdigits_u64, min_safe_u64. quiets. Qed.
Lemma quiet_result t v neg : quiet (store_result t v neg).
Proof. unfold store_result. cbv zeta. quiets. Qed.
Lemma quiet_eights : forall fuel p v, quiet (loop_parse_if_eight_decimal_digits fuel p v).
Proof. induction fuel as [|f IH]; intros p v; cbn [loop_parse_if_eight_decimal_digits]; quiets. Qed.
#[export] Hint Resolve quiet_overflow quiet_result quiet_eights : quiet.
Lemma quiet_int_value e t s sg b : quiet (parse_integer_value e t s sg b).
Proof.
  unfold parse_integer_value, parse_decimal_integer_fast, parse_regular_integer, parse_decimal_integer_fast_impl, overflow_error. cbv zeta. quiets.
Qed.
#[export] Hint Resolve quiet_int_value : quiet.
Lemma quiet_while1 r s b : quiet (parse_integer_digits_without_thsep r s b).
Proof. unfold parse_integer_digits_without_thsep, read_while1_code_unit. cbv zeta. destruct (s_contig r); [quiets|]. destruct (_ =? _)%nat; quiets. Qed.
#[export] Hint Resolve quiet_while1 : quiet.
Lemma quiet_sign c s : quiet (parse_numeric_sign (c :: s)).
Proof. unfold parse_numeric_sign. cbn [read_one_of_code_unit]. destruct (existsb _ _); quiets. Qed.
Lemma quiet_prefix r c s b : quiet (parse_integer_prefix r (c :: s) b).
Proof. unfold parse_integer_prefix. apply quiet_bind; [apply quiet_sign|]. intros. quiets. Qed.
Lemma quiet_int r t sp sep c s : quiet (int_read_specs r t sp sep (c :: s)).
Proof.
  unfold int_read_specs, get_base, next1, read_digits, parse_integer_digits_with_thsep. apply quiet_bind; [quiets|]. intros b. apply quiet_bind; [apply quiet_prefix|]. intros. cbv zeta. quiets.
Qed.
Lemma quiet_int_default r t c s : quiet (int_read_default r t (c :: s)).
Proof.
  unfold int_read_default, int_read_default_with_base, next1, read_digits. apply quiet_bind; [apply quiet_prefix|]. intros. cbv zeta. quiets.
Qed.
Lemma quiet_significand q b s : quiet (read_significand q b s).
Proof. unfold read_significand, float_digits at 1, read_while1_code_unit. cbv zeta. destruct (_ =? _)%nat; cbn [map_parse_error]; quiets. Qed.
#[export] Hint Resolve quiet_significand : quiet.
Lemma quiet_do_source r o q f g s : (forall k s, quiet (f k s)) -> (forall k s, quiet (g k s)) -> quiet (do_read_source_impl r o q f g s).
Proof.
  intros Hf Hg. unfold do_read_source_impl. cbv zeta. destruct (read_inf r s) as [[it k]|]; [quiets|].
  assert (N : forall x, read_nan r s = Some x -> quiet x).
  { intros x. unfold read_nan. cbv zeta. destruct (read_matching_string_classic_nocase _ _ _); [|discriminate].
    destruct (read_matching_code_unit 40 l); [|intros [= <-]; quiets]. destruct (read_matching_code_unit 41 _); intros [= <-]; quiets. }
  destruct (read_nan r s) as [x|]; [apply N; reflexivity|]. unfold read_regular_float. cbv zeta. quiets.
Qed.
Lemma quiet_source r o q c s : quiet (read_source_impl r o q (c :: s)).
Proof.
  unfold read_source_impl. apply quiet_bind; [apply quiet_sign|]. intros [d sg]. cbv zeta.
  apply quiet_bind.
  - destruct (s_contig r && is_plain q); apply quiet_do_source; intros k u; try (destruct d); unfold read_regular_float, read_hexfloat; cbv zeta; quiets.
  - intros [[it k] n]. destruct (handle_separators _ _). quiets.
Qed.
Lemma quiet_float {V} (F : fp V) r o q c s : quiet (float_read_impl F r o q (c :: s)).
Proof.
  unfold float_read_impl. apply quiet_bind; [apply quiet_source|]. intros st. apply quiet_bind; [|intros; quiets].
  unfold parse_value. assert (HP : quiet (parse_value_impl F (s_enc r) o st)).
  { unfold parse_value_impl. assert (HD : quiet (dispatch_impl F (s_enc r) o (fs_kind st) (fs_payload st) (fs_buffer st))).
    { assert (HS : forall k b, quiet (strtod_impl F (s_enc r) o k b)).
      { intros k b. unfold strtod_impl, get_null_terminated_source. apply quiet_bind; [quiets|]. intros x.
        destruct (fp_strtod F x) as [[v n] er]. unfold check_error. destruct (fp_zero F v && (n =? 0)%nat); [quiets|].
        match goal with |- context[if ?b then Some InvalidScannedValue else _] => destruct b; [quiets|] end.
        destruct (er && fp_zero F v); [quiets|]. match goal with |- context[if ?b then Some ValuePositiveOverflow else _] => destruct b end; quiets. }
      unfold dispatch_impl, fast_float_impl. quiets. }
    unfold quiet in *. destruct (dispatch_impl F (s_enc r) o (fs_kind st) (fs_payload st) (fs_buffer st)) as [[v n]|e| |]; try discriminate. destruct e; try discriminate; try (destruct (is_minus _); discriminate). congruence. }
  destruct (fs_kind st); quiets.
Qed.
(** Fields *)
Lemma lead_all p cps : (length (lead p cps) =? length cps)%nat = true <-> Forall (fun c => p c = true) cps.
Proof.
  rewrite Nat.eqb_eq. induction cps as [|c cps IH]; cbn [lead]; [split; [constructor|reflexivity]|]. destruct (p c) eqn:E; cbn [length].
  - rewrite Nat.succ_inj_wd, IH. split; intros H; [constructor; assumption|now inversion H].
  - split; [discriminate|intros H; inversion H; congruence].
Qed.
Lemma lead_good p cps : Forall (fun c => p c = true) (lead p cps).
Proof. induction cps as [|c cps IH]; cbn [lead]; [constructor|]. destruct (p c) eqn:E; constructor; auto. Qed.
Lemma before_padding al f p skip cps pre : before_value al f p skip cps = Ok pre -> Forall (padding al f skip) pre.
Proof.
  unfold before_value, padding. destruct al.
  - destruct skip; [|intros [= <-]; constructor]. destruct (_ =? _)%nat; [discriminate|]. intros [= <-].
    eapply Forall_impl; [|apply lead_good]. auto.
  - intros [= <-]. constructor.
  - intros [= <-]. eapply Forall_impl; [|apply lead_good]. cbn. intros c H. apply Z.eqb_eq in H. auto.
  - intros [= <-]. eapply Forall_impl; [|apply lead_good]. cbn. intros c H. apply Z.eqb_eq in H. auto.
Qed.
Lemma before_error al f p skip cps e : before_value al f p skip cps = Err e -> e = EndOfInput /\ only_padding al f skip p cps.
Proof.
  unfold before_value, only_padding, padding. destruct al; try discriminate. destruct skip; [|discriminate].
  destruct (_ =? _)%nat eqn:E; [|discriminate]. intros [= <-]. apply lead_all in E. split; [reflexivity|]. eapply Forall_impl; [|exact E]. auto.
Qed.
Lemma quiet_finish {V} r sp skip (x : V) it pre val : quiet ('(it, postfix) <- (match it with [] => Ok (it, 0) | _ => impl_postfix r sp skip pre val it end) ;;
  _ <- check_widths sp pre val postfix ;; Ok (x, it)).
Proof. quiets. Qed.
Lemma bind_end {A B} (m : outcome A) (k : A -> outcome B) : (forall x, quiet (k x)) -> (x <- m ;; k x) = Err EndOfInput -> m = Err EndOfInput.
Proof. intros H E. destruct m as [a|e| |]; cbn [bind] in E; [exfalso; exact (H a E)|injection E as ->; reflexivity|discriminate..]. Qed.
Theorem arg_read_end {V} r sp f skip (read : src -> list Z -> outcome (V * list Z)) cps :
  (forall r' c s, quiet (read r' (c :: s))) -> 0 <= precision sp -> (align sp <> ANone -> fill_ok (s_enc r) f (fill sp)) ->
  (precision sp = 0 -> whole r cps) -> Forall scalar cps -> arg_read r sp skip read (text (s_enc r) cps) = Err EndOfInput ->
  only_padding (align sp) f skip (prec_of sp) cps.
Proof.
  intros HQ Hp Hf Hr HS. unfold arg_read, prec_of. destruct (Z.eqb_spec (precision sp) 0) as [E|E]; cbn [negb].
  - rewrite (prefix_unlimited r sp f skip Hf cps E (fun _ => Hr E) HS).
    destruct (before_value (align sp) f None skip cps) as [pre|e| |] eqn:EB; cbn [bind]; try discriminate; [|intros _; apply (before_error _ _ _ _ _ _ EB)].
    intros H. apply bind_end in H; [|intros [[x it] v]; apply quiet_finish]. 
    apply bind_end in H; [|intros [x it]; quiets].
    destruct (text (s_enc r) (after pre cps)) as [|u s] eqn:ET; [|exfalso; exact (HQ _ _ _ H)].
    destruct (before_prefix _ _ _ _ _ _ EB) as [b ->]. rewrite after_app in ET.
    apply scalars_app in HS. apply text_nil_iff in ET; [|apply HS]. subst b. rewrite app_nil_r. unfold only_padding. cbn [limit]. eapply before_padding, EB.
  - rewrite (prefix_limited r sp f skip read (fun _ => UB) Hp Hf cps E HS).
    destruct (before_value (align sp) f (Some (precision sp)) skip cps) as [pre|e| |] eqn:EB; cbn [bind]; try discriminate; [|intros _; apply (before_error _ _ _ _ _ _ EB)].
    destruct (precision sp <=? cols pre) eqn:EC; [discriminate|]. apply Z.leb_gt in EC. cbv zeta.
    destruct (before_prefix _ _ _ _ _ _ EB) as [b ->]. rewrite after_app.
    assert (HS' := HS). apply scalars_app in HS'. destruct HS' as [_ Hb]. rewrite take_width_text by (lia || assumption). cbn [bind].
    intros H. apply bind_end in H; [|intros [[x it] v]; apply quiet_finish].
    apply bind_end in H; [|intros [x it]; quiets].
    destruct (text (s_enc r) (take_cols (precision sp - cols pre) b)) as [|u s] eqn:ET; [|exfalso; exact (HQ _ _ _ H)].
    apply text_nil_iff in ET; [|apply take_cols_scalar, Hb]. unfold only_padding. cbn [limit].
    rewrite take_cols_app by lia. rewrite ET, app_nil_r. eapply before_padding, EB.
Qed.
Lemma as_end {F A} (g : A -> svalue F) x : as_value g x = Err EndOfInput <-> x = Err EndOfInput.
Proof. unfold as_value. destruct x as [[a l]|e| |]; cbn [bind]; split; intros H; try discriminate; injection H as ->; reflexivity. Qed.
Lemma quiet_char k r c s : quiet (char_default_read k r (c :: s)).
Proof.
  assert (P : forall e, quiet (code_point_read e (c :: s))).
  { intros e. unfold code_point_read. apply quiet_bind; [apply quiet_into; discriminate|]. intros [a b]. quiets. }
  unfold char_default_read, code_unit_read, wide_character_read. cbn [read_code_unit]. destruct k, (s_enc r); try apply P; quiets; try apply P.
Qed.
Section Scalars.
Context {F : Type}.
Variable rx : regex_engine.
Hypothesis HX : engine_quiet rx.
Lemma skip_over (t : scalar_type F) sp : match t with TString _ _ => check_string_type_specs sp = true | _ => True end ->
  match t with TInt _ _ | TBool | TPointer | TFloat _ _ => true | TChar _ _ _ => false | TString _ _ => string_skip sp end = over_space t sp.
Proof.
  destruct t; try reflexivity. cbn [over_space]. unfold string_skip, string_kind_of, check_string_type_specs. destruct (type sp); try reflexivity; try discriminate. destruct (align sp); reflexivity.
Qed.
Theorem specs_end r l (t : scalar_type F) sp f cps : 0 <= precision sp -> (align sp <> ANone -> fill_ok (s_enc r) f (fill sp)) ->
  (precision sp = 0 -> whole r cps) -> Forall scalar cps -> scalar_specs rx r l t sp (text (s_enc r) cps) = Err EndOfInput ->
  only_padding (align sp) f (over_space t sp) (prec_of sp) cps.
Proof using HX.
  intros Hp Hf Hr HS. destruct t as [t a| |k old a| |d a|g a]; cbn [scalar_specs]; unfold string_arg; rewrite as_end; unfold arg_read_checked;
    cbn [int_reader bool_reader char_reader pointer_reader string_reader float_reader rd_check rd_skip rd_specs].
  - destruct (check_int_type_specs sp); [|discriminate]. apply arg_read_end; try assumption. intros. apply quiet_int.
  - destruct (check_bool_type_specs sp); [|discriminate]. apply arg_read_end; try assumption. intros r' c s. unfold bool_specs. destruct (bool_options sp).
    apply quiet_bool. intros u. destruct (localized sp); unfold bool_textual_classic, bool_textual_custom; cbv zeta; quiets.
  - destruct (char_check k sp); [|discriminate]. apply arg_read_end; try assumption. intros r' c s. unfold char_specs.
    assert (Q := quiet_char k r' c s). destruct k; [destruct (type sp)..|]; try exact Q; apply quiet_bind; try apply quiet_int; intros; quiets.
  - destruct (check_pointer_type_specs sp); [|discriminate]. apply arg_read_end; try assumption. intros. apply quiet_int.
  - destruct (check_string_type_specs sp) eqn:EC; [|discriminate]. rewrite <- (skip_over (TString d a) sp EC). apply arg_read_end; try assumption. intros. apply quiet_strings, HX.
  - destruct (check_float_type_specs sp); [|discriminate]. apply arg_read_end; try assumption. intros r' c s. unfold float_read_specs. apply quiet_bind; [unfold get_options; quiets|]. intros. apply quiet_float.
Qed.
(** The converse, where white space is skipped; the format-spec must be one of the type. *)
Definition spec_fits (t : scalar_type F) (sp : specs) : bool :=
  match t with
  | TInt _ _ => check_int_type_specs sp | TBool => check_bool_type_specs sp | TChar k _ _ => char_check k sp
  | TPointer => check_pointer_type_specs sp | TString _ _ => check_string_type_specs sp | TFloat _ _ => check_float_type_specs sp
  end.
Lemma arg_read_blank {V} r sp (read : src -> list Z -> outcome (V * list Z)) cps : 0 <= precision sp -> align sp = ANone ->
  (precision sp = 0 -> whole r cps) -> Forall scalar cps -> only_padding ANone 0 true (prec_of sp) cps ->
  arg_read r sp true read (text (s_enc r) cps) = Err EndOfInput.
Proof.
  intros Hp Ha Hr HS HO.
  assert (Hf : align sp <> ANone -> fill_ok (s_enc r) 0 (fill sp)) by congruence.
  assert (HB : before_value (align sp) 0 (prec_of sp) true cps = Err EndOfInput).
  { unfold before_value. rewrite Ha. assert (E : (length (lead is_ws (limit (prec_of sp) cps)) =? length (limit (prec_of sp) cps))%nat = true).
    { apply lead_all. eapply Forall_impl; [|exact HO]. cbn. tauto. } rewrite E. reflexivity. }
  unfold arg_read. unfold prec_of in HB. destruct (Z.eqb_spec (precision sp) 0) as [E|E]; cbn [negb].
  - rewrite (prefix_unlimited r sp 0 true Hf cps E (fun _ => Hr E) HS), HB. reflexivity.
  - rewrite (prefix_limited r sp 0 true read (fun _ => UB) Hp Hf cps E HS), HB. reflexivity.
Qed.
Theorem blank_end r l (t : scalar_type F) sp cps : 0 <= precision sp -> align sp = ANone -> over_space t sp = true -> spec_fits t sp = true ->
  (precision sp = 0 -> whole r cps) -> Forall scalar cps -> only_padding ANone 0 true (prec_of sp) cps ->
  scalar_specs rx r l t sp (text (s_enc r) cps) = Err EndOfInput.
Proof using Type.
  intros Hp Ha Ho Hc Hr HS HO. destruct t as [t a| |k old a| |d a|g a]; cbn [spec_fits] in Hc; cbn [scalar_specs]; unfold string_arg; rewrite as_end; unfold arg_read_checked;
    cbn [int_reader bool_reader char_reader pointer_reader string_reader float_reader rd_check rd_skip rd_specs]; rewrite ?Hc; try (now apply arg_read_blank).
  - discriminate Ho.
  - rewrite (skip_over (TString d a) sp Hc), Ho. now apply arg_read_blank.
Qed.
(** Numbers behind fill *)
Lemma sign_nothing : parse_numeric_sign [] = Err EndOfInput. Proof. reflexivity. Qed.
Lemma number_nothing r l (t : scalar_type F) sp : numeric t -> spec_fits t sp = true -> parsed sp ->
  match t with
  | TInt t _ => int_read_specs r t sp (l_sep l) [] = Err EndOfInput
  | TPointer => pointer_read (l_sep l) r [] = Err EndOfInput
  | TFloat f _ => float_read_specs f r (number_options l) sp [] = Err EndOfInput
  | _ => True
  end.
Proof using Type.
  intros Hn Hc Hp. destruct t as [t a| |k old a| |d a|g a]; try exact I; cbn [spec_fits] in Hc.
  - unfold int_read_specs. destruct (get_base_ok sp Hp Hc) as (b & -> & _). reflexivity.
  - reflexivity.
  - unfold float_read_specs, get_options. unfold check_float_type_specs in Hc. destruct (type sp); try discriminate; reflexivity.
Qed.
Lemma arg_read_filled {V} r sp f skip (read : src -> list Z -> outcome (V * list Z)) cps : precision sp = 0 -> align sp <> ANone -> fill_ok (s_enc r) f (fill sp) ->
  (forall r', read r' [] = Err EndOfInput) -> Forall scalar cps -> only_padding (align sp) f skip None cps -> (skip = true -> whole r cps) ->
  arg_read r sp skip read (text (s_enc r) cps) = Err EndOfInput.
Proof.
  intros Hp Ha Hf H0 HS HO Hr. unfold arg_read. rewrite Hp. change (negb (0 =? 0)) with false. cbv iota.
  rewrite (prefix_unlimited r sp f skip (fun _ => Hf) cps Hp Hr HS).
  assert (HB : before_value (align sp) f None skip cps = Ok cps).
  { unfold before_value, only_padding, padding in *. cbn [limit] in *. destruct (align sp); [congruence| | |].
    - destruct cps as [|c cps]; [reflexivity|]. inversion HO; contradiction.
    - f_equal. clear HS Hr. induction HO as [|c cps -> HO IH]; cbn [lead]; [reflexivity|]. rewrite Z.eqb_refl. f_equal. exact IH.
    - f_equal. clear HS Hr. induction HO as [|c cps -> HO IH]; cbn [lead]; [reflexivity|]. rewrite Z.eqb_refl. f_equal. exact IH. }
  rewrite HB. cbn [bind]. replace (after cps cps) with (@nil Z) by (unfold after; now rewrite skipn_all). cbn [text flat_map]. rewrite H0. reflexivity.
Qed.
End Scalars.
(** No format-spec *)
Lemma default_end_spaced {V} r (read : list Z -> outcome (V * list Z)) cps : (forall c s, quiet (read (c :: s))) -> whole r cps -> Forall scalar cps ->
  default_read r true read (text (s_enc r) cps) = Err EndOfInput <-> Forall (fun c => is_ws c = true) cps.
Proof.
  intros HQ Hr HS. unfold default_read, skip_ws_before_if_required. destruct (text (s_enc r) cps) as [|u s] eqn:ET.
  { apply text_nil_iff in ET; [|exact HS]. subst cps. split; [constructor|reflexivity]. }
  rewrite <- ET, skip_ws_text by assumption. cbn [negb andb]. rewrite <- lead_all. destruct (_ =? _)%nat eqn:E; [cbn [bind]; tauto|]. cbn [bind]. split; [|discriminate].
  destruct (text (s_enc r) (after (lead is_ws cps) cps)) as [|u' s'] eqn:ET'; [|intros H; exfalso; exact (HQ _ _ H)].
  exfalso. apply text_nil_iff in ET'; [|apply (scalars_lead is_ws cps HS)]. assert (L := lead_after is_ws cps). rewrite ET', app_nil_r in L. rewrite L, Nat.eqb_refl in E. discriminate.
Qed.
Theorem default_end {F} r (t : scalar_type F) cps : whole r cps -> Forall scalar cps ->
  scalar_default r t (text (s_enc r) cps) = Err EndOfInput
  <-> match t with TChar _ _ _ => cps = [] | _ => Forall (fun c => is_ws c = true) cps end.
Proof.
  intros Hr HS. destruct t as [t a| |k old a| |d a|g a]; cbn [scalar_default]; rewrite as_end.
  - apply default_end_spaced; try assumption. intros. apply quiet_int_default.
  - apply default_end_spaced; try assumption. intros. apply quiet_bool. intros u. unfold bool_textual_classic. quiets.
  - unfold char_default, default_read, skip_ws_before_if_required. destruct (text (s_enc r) cps) as [|u s] eqn:ET.
    + apply text_nil_iff in ET; [|exact HS]. subst cps. split; reflexivity.
    + cbn [bind]. split; [intros H; exfalso; exact (quiet_char _ _ _ _ H)|]. intros ->. discriminate ET.
  - apply default_end_spaced; try assumption. intros. apply quiet_int.
  - apply default_end_spaced; try assumption. intros. apply quiet_word.
  - apply default_end_spaced; try assumption. intros. apply quiet_float.
Qed.

(** ** The parser of format strings reports no end of input *)
Lemma quiet_category t : quiet (get_category t).
Proof. unfold get_category. quiets. Qed.
Lemma quiet_assign e u f : quiet (fill_assign e u f).
Proof. unfold fill_assign. cbv zeta. quiets. Qed.
Lemma quiet_simple_int s : quiet (parse_simple_int s).
Proof. unfold parse_simple_int. quiets. Qed.
Lemma quiet_presentation c : quiet (parse_presentation_type c).
Proof. unfold parse_presentation_type. quiets. Qed.
Lemma quiet_set_point e s : quiet (parse_set_code_point e s).
Proof. unfold parse_set_code_point, get_next_code_point. cbv zeta. quiets. Qed.
#[export] Hint Resolve quiet_category quiet_assign quiet_simple_int quiet_presentation quiet_set_point : quiet.
Lemma quiet_range b e st : quiet (on_charset_range b e st).
Proof. unfold on_charset_range. cbv zeta. quiets. Qed.
Lemma quiet_localized t st : quiet (on_localized t st).
Proof. unfold on_localized. quiets. Qed.
Lemma quiet_align e s st : quiet (parse_align e s st).
Proof. unfold parse_align, on_fill. cbv zeta. quiets. Qed.
Lemma quiet_pwidth s st : quiet (parse_width s st).
Proof. unfold parse_width. cbv zeta. quiets. Qed.
Lemma quiet_precision s st : quiet (parse_precision s st).
Proof. unfold parse_precision. cbv zeta. quiets. Qed.
#[export] Hint Resolve quiet_range quiet_localized quiet_align quiet_pwidth quiet_precision : quiet.
Lemma quiet_pset_literal e s st : quiet (parse_set_literal specs_set_handler e s st).
Proof. unfold parse_set_literal. cbn [sh_range specs_set_handler]. cbv zeta. quiets. Qed.
#[export] Hint Resolve quiet_pset_literal : quiet.
Lemma quiet_pset_loop e : forall fuel s st, quiet (parse_set_loop fuel specs_set_handler e s st).
Proof. induction fuel as [|f IH]; intros s st; cbn [parse_set_loop]; cbv zeta; quiets. Qed.
#[export] Hint Resolve quiet_pset_loop : quiet.
Lemma quiet_pset e s st : quiet (parse_presentation_set specs_set_handler e s st).
Proof. unfold parse_presentation_set, finish_set. cbv zeta. quiets. Qed.
#[export] Hint Resolve quiet_pset : quiet.
Lemma quiet_pregex cf s st : quiet (parse_presentation_regex cf s st).
Proof. unfold parse_presentation_regex. cbv zeta. quiets. Qed.
#[export] Hint Resolve quiet_pregex : quiet.
Lemma quiet_pspecs cf t s st : quiet (parse_format_specs cf t s st).
Proof. unfold parse_format_specs, parse_specs_tail, do_presentation. cbv zeta. quiets. Qed.
#[export] Hint Resolve quiet_pspecs : quiet.
Section Loop.
Context {V : Type}.
Variables (r : src) (cf : config) (args : list (arg V)).
Notation H := (format_handler V r cf args).
Lemma quiet_first_space e s : quiet (is_first_char_space e s).
Proof. unfold is_first_char_space, get_next_code_point. cbv zeta. quiets. Qed.
Hint Resolve quiet_first_space : quiet.
Lemma quiet_lit : forall fuel lit st, quiet (literal_loop V r fuel lit st).
Proof. induction fuel as [|f IH]; intros lit st; destruct lit as [|c lit]; cbn [literal_loop]; quiets. Qed.
Lemma quiet_visited id st : quiet (set_arg_as_visited V args id st).
Proof. unfold set_arg_as_visited. cbv zeta. quiets. Qed.
Lemma quiet_visit id x st : quiet (finish_visit V id x st).
Proof. unfold finish_visit. quiets. Qed.
Hint Resolve quiet_lit quiet_visited quiet_visit : quiet.
Lemma quiet_next st : quiet (next_arg_id V st).
Proof. unfold next_arg_id. quiets. Qed.
Lemma quiet_check id st : quiet (check_arg_id V id st).
Proof. unfold check_arg_id. quiets. Qed.
Lemma quiet_pfield id b st : quiet (on_replacement_field V args id b st).
Proof. unfold on_replacement_field. quiets. Qed.
Lemma quiet_on_specs id b st : quiet (on_format_specs V cf args id b st).
Proof. unfold on_format_specs. cbv zeta. quiets. Qed.
Hint Resolve quiet_next quiet_check quiet_pfield quiet_on_specs : quiet.
Lemma quiet_arg_id s st : quiet (parse_arg_id H s st).
Proof. unfold parse_arg_id, do_parse_arg_id. cbn [h_error h_id h_auto_id format_handler]. quiets. Qed.
Hint Resolve quiet_arg_id : quiet.
Lemma quiet_replacement s st : quiet (parse_replacement_field H s st).
Proof. unfold parse_replacement_field. cbn [h_error h_id h_auto_id h_field h_specs h_literal format_handler]. unfold on_literal_text. quiets. Qed.
Hint Resolve quiet_replacement : quiet.
Lemma loop_no_end : forall fuel b it st, quiet (parse_loop fuel H b it st).
Proof.
  induction fuel as [|f IH]; intros b it st; destruct it as [|c it]; cbn [parse_loop h_literal h_error format_handler]; unfold on_literal_text; quiets.
Qed.
End Loop.
(** ** Formats: the end is reported only by a reader, at the place the scan has come to *)
Section Formats.
Context {V : Type}.
Variables (r : src) (cf : config) (args : list (arg V)).
Variables format source : list Z.
Hypothesis Hsrc : units (s_enc r) source.
(** What is successfully read leaves something that the source ends with. *)
Definition consuming (a : arg V) : Prop :=
  consumes r cf a /\ (forall f s, suffix (fst (ar_custom a f s)) f /\ forall v s', units (s_enc r) s -> snd (ar_custom a f s) = Ok (v, s') -> suffix s' s)
  /\ no_regex (ar_type a).
Hypothesis Hargs : Forall consuming args.
Definition ended_at (a : arg V) (s : list Z) : Prop :=
  ar_default a s = Err EndOfInput
  \/ (exists fmt fmt' sp, suffix fmt format /\ parse_format_specs cf (ar_type a) fmt (SS specs_default false) = Ok (fmt', SS sp false) /\ ar_specs a sp s = Err EndOfInput)
  \/ exists fmt, suffix fmt format /\ snd (ar_custom a fmt s) = Err EndOfInput.
Definition within (st : state V) : Prop := suffix (st_src st) source /\ suffix (st_pctx st) format.
Definition calm (st : state V) : Prop := st_error st <> Some EndOfInput /\ within st.
Definition justified (st : state V) : Prop :=
  within st /\ (st_error st = Some EndOfInput -> exists id a, get_arg V args id = Some a /\ ended_at a (st_src st)).
Notation H := (format_handler V r cf args).
Lemma calm_set st st' : st_error st' = st_error st -> suffix (st_src st') (st_src st) -> st_pctx st' = st_pctx st -> calm st -> calm st'.
Proof. unfold calm, within. intros -> HS -> (C1 & C2 & C3). split; [exact C1|]. split; [|exact C3]. eapply suffix_trans; eassumption. Qed.
Lemma calm_err e st : e <> EndOfInput -> within st -> calm (on_error V e st).
Proof. intros N S. split; [|exact S]. intros E. cbn in E. congruence. Qed.
Lemma calm_j st : calm st -> justified st.
Proof. intros [C S]. split; [exact S|]. intros E. contradiction. Qed.
Lemma calm_units st : calm st -> units (s_enc r) (st_src st).
Proof. intros [_ [S _]]. eapply units_suffix; eassumption. Qed.
Lemma calm_literal : forall fuel lit st st', calm st -> literal_loop V r fuel lit st = Ok st' -> calm st'.
Proof.
  induction fuel as [|f IH]; intros lit st st' J; destruct lit as [|c lit]; cbn [literal_loop]; try (intros [= <-]; exact J); try discriminate.
  assert (U := calm_units _ J). destruct (st_src st) as [|d src'] eqn:ES; [intros [= <-]; apply calm_err; [discriminate|apply J]|].
  destruct (is_first_char_space (s_enc r) (c :: lit)) as [[[after cp] space]| | |]; cbn [bind]; try discriminate.
  destruct (cp =? invalid_code_point); [intros [= <-]; apply calm_err; [discriminate|apply J]|]. destruct space.
  - destruct (read_while_classic_space_total r (d :: src') U) as (s' & -> & HS). cbn [bind]. destruct (read_while_classic_space _ after); cbn [bind]; try discriminate.
    apply IH. eapply calm_set; [| | |exact J]; [reflexivity| |reflexivity]. rewrite ES. exact HS.
  - destruct (negb (d =? c)); [intros [= <-]; apply calm_err; [discriminate|apply J]|]. apply IH. eapply calm_set; [| | |exact J]; [reflexivity| |reflexivity]. rewrite ES. exists [d]. reflexivity.
Qed.
Lemma calm_visited id st st' : calm st -> set_arg_as_visited V args id (note_missing V args id st) = Ok st' -> calm st'.
Proof.
  intros J. assert (J' : calm (note_missing V args id st)) by (unfold note_missing; destruct (get_arg V args id); [exact J|apply calm_err; [discriminate|apply J]]).
  revert J'. generalize (note_missing V args id st). clear st J. intros st J. unfold set_arg_as_visited. destruct (_ <=? id); [intros [= <-]; apply calm_err; [discriminate|apply J]|].
  destruct (id <? 64); cbv zeta.
  - destruct (Z.testbit _ _); intros [= <-]; [split; [intros E; discriminate E|apply J]|eapply calm_set; [| | |exact J]; [reflexivity|apply suffix_refl|reflexivity]].
  - destruct (nth_error _ _) as [b|]; [|discriminate]. destruct (set_nth _ _ _); [|discriminate].
    destruct (Z.testbit _ _); intros [= <-]; [split; [intros E; discriminate E|apply J]|eapply calm_set; [| | |exact J]; [reflexivity|apply suffix_refl|reflexivity]].
Qed.
Lemma j_finish id a x st st' : get_arg V args id = Some a -> (forall v s', x = Ok (v, s') -> suffix s' (st_src st)) -> (x = Err EndOfInput -> ended_at a (st_src st)) -> calm st -> finish_visit V id x st = Ok st' -> justified st'.
Proof.
  intros Ga Hs Hx [J S]. destruct x as [[v s']|e| |]; cbn [finish_visit]; intros [= <-].
  - apply calm_j. split; [exact J|]. split; [|apply S]. eapply suffix_trans; [exact (Hs _ _ eq_refl)|apply S].
  - split; [exact S|]. intros E. cbn in E. injection E as ->. cbn [st_src on_error]. eauto.
Qed.
Lemma get_consuming id a : get_arg V args id = Some a -> consuming a.
Proof. unfold get_arg. intros G. rewrite Forall_forall in Hargs. apply Hargs. eapply nth_error_In, G. Qed.
Lemma j_field id b st st' : calm st -> on_replacement_field V args id b st = Ok st' -> justified st'.
Proof.
  intros J. unfold on_replacement_field. destruct (set_arg_as_visited _ _ _ _) as [st1| | |] eqn:E; cbn [bind]; try discriminate.
  apply calm_visited in E; [|exact J]. destruct (failed V st1); [intros [= <-]; apply calm_j; exact E|]. destruct (get_arg V args id) as [a|] eqn:Ga; [|intros [= <-]; apply calm_j; exact E].
  apply (j_finish id a); auto; [|intros HE; left; exact HE].
  intros v s' ER. destruct (get_consuming id a Ga) as [[HC _] _]. exact (HC _ _ _ (calm_units _ E) ER).
Qed.
Lemma calm_pctx p st : suffix p format -> calm st -> calm (set_pctx V p st).
Proof. intros Hp (C1 & C2 & _). repeat split; assumption. Qed.
Lemma j_specs id b st p st' : suffix b format -> calm st -> on_format_specs V cf args id b st = Ok (p, st') -> justified st' /\ suffix p format.
Proof.
  intros Hb J. unfold on_format_specs. destruct (set_arg_as_visited _ _ _ _) as [st1| | |] eqn:E; cbn [bind]; try discriminate.
  apply calm_visited in E; [|exact J]. cbv zeta. destruct (arg_eqb _ CustomType).
  - assert (E' := calm_pctx b st1 Hb E).
    destruct (failed V _); [intros [= <- <-]; split; [apply calm_j; exact E'|exact Hb]|]. destruct (get_arg V args id) as [a|] eqn:Ga; [|intros [= <- <-]; split; [apply calm_j; exact E'|exact Hb]].
    destruct (st_mixed (set_pctx V b st1)).
    + cbn [finish_visit bind]. intros [= <- <-]. split; [|exact Hb]. apply calm_j, calm_err; [discriminate|]. apply calm_pctx; assumption.
    + destruct (ar_custom a b (st_src (set_pctx V b st1))) as [q x] eqn:EC.
      destruct (finish_visit V id x _) as [st2| | |] eqn:EF; cbn [bind]; try discriminate. intros [= <- <-].
      destruct (get_consuming id a Ga) as [_ [HC _]]. destruct (HC b (st_src st1)) as [HQ HC']. cbn [st_src set_pctx] in EC. rewrite EC in HQ, HC'. cbn [fst snd] in HQ, HC'.
      assert (Hq : suffix q format) by (eapply suffix_trans; eassumption). split; [|exact Hq].
      eapply (j_finish id a x); [exact Ga| | | |exact EF].
      * intros v s' ->. exact (HC' _ _ (calm_units _ E) eq_refl).
      * intros ->. right; right. exists b. split; [exact Hb|]. cbn [st_src set_pctx] in *. rewrite EC. reflexivity.
      * apply calm_pctx; [exact Hq|exact E'].
  - set (t := match get_arg V args id with Some a => ar_type a | None => NoneType end).
    assert (Ht : no_regex t).
    { unfold t. destruct (get_arg V args id) eqn:EA; [|split; discriminate]. apply (get_consuming _ _ EA). }
    destruct (parse_format_specs_safe cf t b (SS specs_default false) Ht) as (s & ss & EP & Hs). rewrite EP. cbn [bind].
    assert (Hsf : suffix s format) by (eapply suffix_trans; eassumption).
    assert (HP := proj2 (proj2 E)).
    destruct s as [|c s]; [intros [= <- <-]; split; [apply calm_j, calm_err; [discriminate|apply E]|exact HP]|].
    destruct (negb (c =? 125)); [intros [= <- <-]; split; [apply calm_j, calm_err; [discriminate|apply E]|exact HP]|].
    destruct (ss_err ss) eqn:EER; [intros [= <- <-]; split; [apply calm_j; exact E|exact HP]|].
    assert (E' := calm_pctx (c :: s) st1 Hsf E).
    destruct (failed V _); [intros [= <- <-]; split; [apply calm_j; exact E'|exact Hsf]|].
    destruct (get_arg V args id) as [a|] eqn:Ga; [|intros [= <- <-]; split; [apply calm_j; exact E'|exact Hsf]].
    destruct (finish_visit V id _ _) as [st2| | |] eqn:EF; cbn [bind]; try discriminate. intros [= <- <-]. split; [|exact Hsf].
    destruct ss as [sp er]. cbn [ss_err ss_specs] in *. subst er.
    eapply (j_finish id a _); [exact Ga| | |exact E'|exact EF].
    + intros v s' ER. destruct (get_consuming id a Ga) as [[_ HC] _]. exact (HC _ _ _ _ _ _ EP (calm_units _ E) ER).
    + intros HE. right; left. exists b, (c :: s), sp. split; [exact Hb|]. split; [exact EP|exact HE].
Qed.
Lemma calm_auto st p : calm st -> next_arg_id V st = Ok p -> calm (snd p).
Proof. unfold next_arg_id. intros C. destruct (_ <? _); intros [= <-]; exact C. Qed.
Lemma calm_id i st p : calm st -> check_arg_id V i st = Ok p -> calm (snd p).
Proof. unfold check_arg_id. intros C. destruct (_ <? _); intros [= <-]; exact C. Qed.
Lemma calm_arg_id s st q : calm st -> parse_arg_id H s st = Ok q -> calm (snd q).
Proof.
  intros C. unfold parse_arg_id. destruct s as [|c s]; [discriminate|]. destruct (_ && _).
  - unfold do_parse_arg_id. cbn [h_error h_id format_handler].
    destruct (_ || _); [intros [= <-]; apply calm_err; [discriminate|apply C]|].
    destruct (if negb (c =? 48) then _ else _) as [[idx s2]| | |]; cbn [bind]; try discriminate.
    destruct s2 as [|d s2]; [intros [= <-]; apply calm_err; [discriminate|apply C]|]. destruct (_ && _); [intros [= <-]; apply calm_err; [discriminate|apply C]|].
    destruct (check_arg_id V idx st) as [[id v]| | |] eqn:E; cbn [bind]; try discriminate. intros [= <-]. exact (calm_id _ _ _ C E).
  - cbn [h_auto_id format_handler]. destruct (next_arg_id V st) as [[id v]| | |] eqn:E; cbn [bind]; try discriminate. intros [= <-]. exact (calm_auto _ _ C E).
Qed.
Lemma arg_id_suffix s st q : parse_arg_id H s st = Ok q -> suffix (fst (fst q)) s.
Proof.
  unfold parse_arg_id. destruct s as [|c s]; [discriminate|]. destruct (_ && _).
  - unfold do_parse_arg_id. cbn [h_error h_id format_handler bind].
    destruct (_ || _); [intros [= <-]; apply suffix_refl|].
    assert (HN : forall idx s2, (if negb (c =? 48) then parse_simple_int (c :: s) else Ok (0, s)) = Ok (idx, s2) -> suffix s2 (c :: s)).
    { intros idx s2. destruct (negb (c =? 48)); [|intros [= _ <-]; exists [c]; reflexivity].
      unfold parse_simple_int. destruct (is_digit c); [|discriminate]. intros EL. injection EL as EL. eapply parse_simple_int_loop_suffix, EL. }
    destruct (if negb (c =? 48) then _ else _) as [[idx s2]| | |]; cbn [bind]; try discriminate. specialize (HN idx s2 eq_refl).
    destruct s2 as [|d s2]; [intros [= <-]; apply suffix_nil|]. destruct (_ && _); [intros [= <-]; exact HN|].
    destruct (check_arg_id V idx st) as [[id v]| | |]; cbn [bind]; try discriminate. intros [= <-]. exact HN.
  - cbn [h_auto_id format_handler]. destruct (next_arg_id V st) as [[id v]| | |]; cbn [bind]; try discriminate. intros [= <-]. apply suffix_refl.
Qed.
Lemma j_replacement s st q : suffix s format -> calm st -> parse_replacement_field H s st = Ok q -> justified (snd q) /\ suffix (fst q) format.
Proof.
  assert (HE : forall (x : list Z) st0 q0, suffix x format -> within st0 -> (st1 <- h_error H st0 ;; Ok (x, st1)) = Ok q0 -> justified (snd q0) /\ suffix (fst q0) format).
  { intros x st0 q0 Hx S. cbn [h_error format_handler bind]. intros [= <-]. split; [|exact Hx]. apply calm_j, calm_err; [discriminate|exact S]. }
  intros Hs C. unfold parse_replacement_field. destruct s as [|b s]; [discriminate|]. apply suffix_cons_inv in Hs. destruct s as [|c s]; [apply HE; [apply suffix_nil|apply C]|].
  assert (Hs' := suffix_cons_inv _ _ _ Hs).
  destruct (c =? 125).
  { cbn [h_auto_id format_handler]. destruct (next_arg_id V st) as [[id v]| | |] eqn:E; cbn [bind]; try discriminate. apply calm_auto in E; [|exact C].
    cbn [h_field format_handler]. destruct (on_replacement_field _ _ _ _ _) as [w| | |] eqn:EF; cbn [bind]; try discriminate. intros [= <-]. split; [exact (j_field _ _ _ _ E EF)|exact Hs']. }
  destruct (c =? 123).
  { cbn [h_literal format_handler]. destruct (on_literal_text _ _ _ _) as [w| | |] eqn:E; cbn [bind]; try discriminate. intros [= <-]. split; [|exact Hs']. apply calm_j. exact (calm_literal _ _ _ _ C E). }
  destruct (parse_arg_id H (c :: s) st) as [[[s1 id] v]| | |] eqn:E; cbn [bind]; try discriminate.
  assert (Hs1 : suffix s1 format) by (apply arg_id_suffix in E; eapply suffix_trans; [exact E|exact Hs]).
  apply calm_arg_id in E; [|exact C]. cbn [snd] in E.
  destruct s1 as [|d s1]; [apply HE; [apply suffix_nil|apply E]|]. assert (Hs1' := suffix_cons_inv _ _ _ Hs1). destruct (d =? 125).
  { cbn [h_field format_handler]. destruct (on_replacement_field _ _ _ _ _) as [w| | |] eqn:EF; cbn [bind]; try discriminate. intros [= <-]. split; [exact (j_field _ _ _ _ E EF)|exact Hs1']. }
  destruct (d =? 58); [|apply HE; [exact Hs1|apply E]]. destruct s1 as [|d1 s1]; [apply HE; [exact Hs1|apply E]|].
  cbn [h_specs format_handler]. destruct (on_format_specs _ _ _ _ _ _) as [[s2 w]| | |] eqn:EF; cbn [bind]; try discriminate. apply j_specs in EF; [|exact Hs1'|exact E]. destruct EF as [EF Hs2].
  destruct s2 as [|d2 s2]; [apply HE; [apply suffix_nil|apply EF]|]. destruct (negb _); [apply HE; [exact Hs2|apply EF]|]. intros [= <-]. split; [exact EF|]. exact (suffix_cons_inv _ _ _ Hs2).
Qed.
Lemma j_loop : forall fuel begin it st st', suffix it format -> calm st -> parse_loop fuel H begin it st = Ok st' -> justified st'.
Proof.
  induction fuel as [|f IH]; intros begin it st st' Hit C; (destruct it as [|ch it]; cbn [parse_loop]; [intros E; apply calm_j; exact (calm_literal _ _ _ _ C E)|]); [discriminate|].
  destruct (ch =? 123).
  - cbn [h_literal format_handler]. destruct (on_literal_text _ _ _ _) as [w| | |] eqn:E; cbn [bind]; try discriminate. apply calm_literal in E; [|exact C].
    destruct (parse_replacement_field _ _ _) as [[p v]| | |] eqn:ER; cbn [bind]; try discriminate. apply j_replacement in ER; [|exact Hit|exact E]. destruct ER as [ER Hp]. cbn [fst snd] in ER, Hp.
    cbn [h_failed format_handler]. unfold failed. destruct (st_error v) as [e|] eqn:EV; [intros [= <-]; exact ER|]. apply IH; [exact Hp|]. split; [congruence|apply ER].
  - destruct (ch =? 125); [|apply IH; [eapply suffix_cons_inv; exact Hit|exact C]]. destruct it as [|d it]; [intros [= <-]; apply calm_j, calm_err; [discriminate|apply C]|].
    destruct (negb _); [intros [= <-]; apply calm_j, calm_err; [discriminate|apply C]|].
    cbn [h_literal format_handler]. destruct (on_literal_text _ _ _ _) as [w| | |] eqn:E; cbn [bind]; try discriminate. apply IH; [do 2 eapply suffix_cons_inv; exact Hit|]. exact (calm_literal _ _ _ _ C E).
Qed.
Theorem vscan_end : Forall (fun a => forall s, ar_plain a s = ar_default a s) args ->
  vscan V r cf args format source = Err EndOfInput ->
  exists a s, In a args /\ suffix s source /\ ended_at a s.
Proof.
  intros Hpl. unfold vscan. destruct (is_simple format && _) eqn:ES.
  - unfold get_arg. destruct (nth_error args (Z.to_nat 0)) as [a|] eqn:Ga; cbn [scan_simple_single_argument]; [|discriminate].
    apply nth_error_In in Ga. assert (P := Hpl). rewrite Forall_forall in P. rewrite (P a Ga).
    destruct (ar_default a source) as [[v s]|e| |] eqn:E; cbn [bind]; try discriminate. intros [= ->]. exists a, source. split; [exact Ga|]. split; [apply suffix_refl|left; exact E].
  - unfold vscan_parse_format_string.
    destruct (parse_format_string_impl _ _ _ _) as [st| | |] eqn:EP; cbn [bind]; try discriminate.
    2: { intros [= ->]. exfalso. revert EP. apply loop_no_end. }
    assert (J : justified st). { eapply j_loop; [apply suffix_refl| |exact EP]. split; [intros E; discriminate E|split; apply suffix_refl]. }
    unfold check_args_exhausted. cbv zeta.
    assert (D : forall st', (match st_error st' with Some e => Err e | None => Ok (st_log st', st_src st') end) = Err EndOfInput -> st' = st -> exists a s, In a args /\ suffix s source /\ ended_at a s).
    { intros st' E ->. destruct (st_error st) as [e|] eqn:EE; [|discriminate]. injection E as ->. destruct J as [S J]. destruct (J EE) as (id & a & Ga & HA). exists a, (st_src st).
      split; [unfold get_arg in Ga; eapply nth_error_In; exact Ga|]. split; [apply S|exact HA]. }
    destruct (negb _); [discriminate|]. destruct (_ <? 64); [intros E; apply (D st E eq_refl)|].
    destruct (check_upper _ _) as [[|[p|p|]|p]|]; cbn [bind]; try discriminate. intros E; apply (D st E eq_refl).
Qed.
End Formats.
