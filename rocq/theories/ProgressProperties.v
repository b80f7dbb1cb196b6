(** Property C79: every value that is stored has used up some of the source, so scanning again and
    again comes to an end. *)
From Coq Require Import String.
From Verif Require Import Prelude UnicodeModel UnicodeSpec ReadModel ReadProofs ArgReaderModel SpecsModel SpecsInvProofs ArgsModel FormatModel
  VscanModel VscanSpec IntModel IntProofs ScalarModel StringModel RangesModel LocaleModel VscanProofs FormatProofs
  FloatModel FloatProofs FloatInstance WidthSpec WidthProofs ArgReaderProofs StringSpec StringProofs StringProperties VscanProperties LocaleProperties DocTypesRun LoopProofs ProgressSpec ProgressProofs.
Import Coq.Strings.String.StringSyntax.
Local Open Scope list_scope.
Local Open Scope Z_scope.

Definition run79 (ts : list (scalar_type exact)) (f s : list Z) := scan_with no_rx narrow classic None string_src (map TScalar ts) f s.
Lemma ones {A} (xs : list A) : list_sum (map (fun _ => 1%nat) xs) = List.length xs.
Proof. induction xs as [|x xs IH]; [reflexivity|]. cbn [map List.length list_sum fold_right]. fold (list_sum (map (fun _ : A => 1%nat) xs)). rewrite IH. reflexivity. Qed.
(** One call, with any format string, for any source: what is left is at the end of the source, and what was
    used up is at least as long as the values stored: one code unit for each scalar, also those in ranges and
    tuples, and all brackets and separators. *)
Theorem C79_ranges_partial : forall (F : Type) rx cf global l r (ts : list (target F)) format source log rest,
  s_enc r <> U16 -> units (s_enc r) source -> Forall (holds_scalars global l) ts ->
  scan_with rx cf global l r ts format source = Ok (log, rest) ->
  exists used, source = used ++ rest /\ (list_sum (map (fun x => at_least ts (fst x) (snd x)) log) <= List.length used)%nat.
Proof.
  intros F rx cf global l r ts format source log rest He Hu Ht E.
  apply (vscan_takes r cf _ source Hu (at_least ts)) in E.
  - destruct E as [[used ->] L]. exists used. split; [reflexivity|]. rewrite app_length in L. unfold total in L. lia.
  - apply target_takes; assumption.
  - rewrite Forall_map. eapply Forall_impl; [|exact Ht]. intros [t|sh|pa sc] H s; [reflexivity|reflexivity|destruct H].
Qed.
Print Assumptions C79_ranges_partial.
(** So a vector never has more elements than the source has code units for; here of scalars, read by any
    format string: two brackets, and a comma between any two elements. *)
Theorem C79_vector_partial : forall (F : Type) rx cf global l r max (t : scalar_type F) format source vs rest,
  s_enc r <> U16 -> units (s_enc r) source -> never_empty (get_locale global None) t ->
  scan_with rx cf global l r [TShape (vector_of max (SLeaf t))] format source = Ok ([(0, VSeq vs)], rest) ->
  exists used, source = used ++ rest /\ (2 + List.length vs + (List.length vs - 1) <= List.length used)%nat.
Proof.
  intros F rx cf global l r max t format source vs rest He Hu Ht E. apply C79_ranges_partial in E; [|assumption|assumption|constructor; [exact Ht|constructor]].
  destruct E as (used & -> & L). exists used. split; [reflexivity|]. revert L. cbn [map list_sum fold_right fst snd]. unfold at_least. cbn [Z.to_nat nth_error].
  unfold vector_of. cbn [least]. unfold around. cbn [seq_punct p_open p_close p_sep List.length]. rewrite map_length.
  replace (list_sum (map (fun _ => 1%nat) vs)) with (List.length vs); [lia|]. symmetry. apply ones.
Qed.
Print Assumptions C79_vector_partial.
(** At least one code unit for each value stored; ranges and tuples must have brackets. *)
Theorem C79_call_partial : forall (F : Type) rx cf global l r (ts : list (target F)) format source log rest,
  s_enc r <> U16 -> units (s_enc r) source -> Forall (holds_scalars global l) ts -> Forall bracketed ts ->
  scan_with rx cf global l r ts format source = Ok (log, rest) ->
  exists used, source = used ++ rest /\ (List.length log <= List.length used)%nat.
Proof.
  intros F rx cf global l r ts format source log rest He Hu Ht Hb E.
  apply (vscan_takes r cf _ source Hu (fun _ _ => 1%nat)) in E.
  - destruct E as [[used ->] L]. exists used. split; [reflexivity|]. rewrite app_length in L. unfold total in L.
    change (map _ log) with (map (fun _ : Z * value (svalue F) => 1%nat) log) in L. rewrite ones in L. lia.
  - intros id a. unfold get_arg. rewrite nth_error_map. destruct (nth_error ts _) as [t|] eqn:EN; [|discriminate]. intros [= <-].
    rewrite Forall_forall in Ht, Hb. apply target_takes_one; [exact He|apply Ht|apply Hb]; eapply nth_error_In, EN.
  - rewrite Forall_map. eapply Forall_impl; [|exact Ht]. intros [t|sh|pa sc] H s; [reflexivity|reflexivity|destruct H].
Qed.
Print Assumptions C79_call_partial.
(** One call after the other, each with types, format string and locale of its own: together they store no more
    values than the source has code units. *)
Theorem C79_calls_partial : forall (F : Type) rx cf global r source (vs : list (value (svalue F))) rest,
  s_enc r <> U16 -> units (s_enc r) source -> calls rx cf global r source vs rest ->
  exists used, source = used ++ rest /\ (List.length vs <= List.length used)%nat.
Proof.
  intros F rx cf global r source vs rest He Hu HC. induction HC as [s|l ts format s log s' vs rest Ht Hb E HC IH].
  - exists []. split; [reflexivity|cbn; lia].
  - apply C79_call_partial in E; try assumption. destruct E as (u1 & -> & L1). apply units_app in Hu. destruct (IH (proj2 Hu)) as (u2 & -> & L2).
    exists (u1 ++ u2). rewrite <- app_assoc. split; [reflexivity|]. rewrite !app_length, map_length. lia.
Qed.
Print Assumptions C79_calls_partial.
(** There is no endless loop: in no infinite sequence of calls does every call succeed with a value. *)
Theorem C79_ends_partial : forall (F : Type) rx cf global r (left : nat -> list Z),
  s_enc r <> U16 -> units (s_enc r) (left O) ->
  ~ (forall n, exists l (ts : list (target F)) format log,
       Forall (holds_scalars global l) ts /\ Forall bracketed ts /\ log <> []
       /\ scan_with rx cf global l r ts format (left n) = Ok (log, left (S n))).
Proof.
  intros F rx cf global r left He Hu HN.
  assert (HA : forall n, exists used, left O = used ++ left n /\ (n <= List.length used)%nat).
  { induction n as [|n (used & EU & LU)]; [exists []; split; [reflexivity|cbn; lia]|].
    destruct (HN n) as (l & ts & format & log & Ht & Hb & Hl & E). apply C79_call_partial in E; try assumption.
    - destruct E as (u & EL & LL). exists (used ++ u). rewrite <- app_assoc, <- EL. split; [exact EU|]. rewrite app_length. destruct log; [congruence|]. cbn [List.length] in LL. lia.
    - rewrite EU in Hu. apply units_app in Hu. apply Hu. }
  destruct (HA (S (List.length (left O)))) as (used & EU & LU). apply (f_equal (@List.length Z)) in EU. rewrite app_length in EU. lia.
Qed.
Print Assumptions C79_ends_partial.
(** Words, from text: the same. *)
Theorem C79_words_partial : forall (F : Type) rx cf global l r d to a cps log rest,
  whole r cps -> Forall scalar cps -> dest_ok d (s_enc r) to ->
  scan_with rx cf global l r [@TScalar F (TString d a)] (T "{}") (text (s_enc r) cps) = Ok (log, rest) ->
  exists used, text (s_enc r) cps = used ++ rest /\ used <> [].
Proof.
  intros F rx cf global l r d to a cps log rest Hr HS Hd. unfold scan_with, vscan. change (is_simple (T "{}") && _) with true. cbv iota. unfold get_arg.
  cbn [map Z.to_nat nth_error scan_simple_single_argument target_arg ar_plain scalar_default]. rewrite (C23_default_partial d r to) by assumption.
  destruct (word_of cps) as [[w tail]|e| |] eqn:E; cbn [bind as_value leaf_value]; try discriminate. intros [= _ <-].
  destruct (C23_word _ _ _ E) as (t & -> & _ & Hw & _). exists (text (s_enc r) (t ++ w)). rewrite app_assoc, text_app. split; [reflexivity|].
  rewrite text_app. destruct w as [|c w]; [congruence|].
  assert (Hc : scalar c) by (apply Forall_app in HS; destruct HS as [_ HS]; inversion HS; auto).
  destruct (encode_lead (s_enc r) c Hc) as (u & tl & EL & _). cbn [text flat_map]. rewrite EL. intros HE. apply app_eq_nil in HE. destruct HE as [_ HE]. discriminate.
Qed.
Print Assumptions C79_words_partial.

(** ... and from any contiguous source, or any source of wide characters, whether it is valid text or not. *)
Theorem C79_any_word : forall (F : Type) rx cf global l r d a source log rest,
  (s_enc r = U8 -> s_contig r = true) -> units (s_enc r) source ->
  scan_with rx cf global l r [@TScalar F (TString d a)] (T "{}") source = Ok (log, rest) ->
  exists used, source = used ++ rest /\ used <> [].
Proof.
  intros F rx cf global l r d a source log rest Hr Hu. unfold scan_with, vscan. change (is_simple (T "{}") && _) with true. cbv iota. unfold get_arg.
  cbn [map Z.to_nat nth_error scan_simple_single_argument target_arg ar_plain scalar_default].
  destruct (string_default d r source) as [[v s']|e| |] eqn:E; cbn [bind as_value leaf_value]; try discriminate. intros [= _ <-].
  apply word_short in E; [|exact Hr|exact Hu]. destruct E as [[used ->] L]. exists used. split; [reflexivity|]. intros ->. cbn in L. lia.
Qed.
Print Assumptions C79_any_word.
Example C79_any_word_ex : units U8 ([32; 97; 98; 9; 0xff] : list Z)
  /\ run79 [TString (DString U8) NarrowStringType] (T "{}") [32; 97; 98; 9; 0xff] = Ok ([(0, VLeaf (SVString [97; 98]))], [9; 0xff])
  /\ run79 [TString (DString U8) NarrowStringType] (T "{}") [9; 0xff] = Err InvalidScannedValue.
Proof. split; [repeat constructor; unfold is_byte; lia|]. split; vm_compute; reflexivity. Qed.
(** With a format-spec that has neither alignment nor precision ("{:s}", "{:8}", "{:8Ls}") likewise. *)
Theorem C79_word_spec : forall rx dst r sp s v rest,
  (s_enc r = U8 -> s_contig r = true) -> units (s_enc r) s ->
  type sp = PNone \/ type sp = PString -> align sp = ANone -> precision sp = 0 ->
  string_arg rx dst r sp s = Ok (v, rest) -> exists used, s = used ++ rest /\ used <> [].
Proof.
  intros rx dst r sp s v rest Hr Hu HT HA HP E. apply word_arg_short in E; try assumption.
  destruct E as [[used ->] L]. exists used. split; [reflexivity|]. intros ->. cbn in L. lia.
Qed.
Print Assumptions C79_word_spec.
Example C79_word_spec_ex : exists sp, parse_format_specs narrow NarrowStringType (T "3s}") (SS specs_default false) = Ok (T "}", SS sp false)
  /\ type sp = PString /\ align sp = ANone /\ precision sp = 0 /\ string_arg no_rx (DString U8) string_src sp (T " abc d") = Ok (T "abc", T " d").
Proof. eexists. split; [vm_compute; reflexivity|]. repeat split; vm_compute; reflexivity. Qed.
(** Sets of characters, whatever the rest of the format-spec, from any source. *)
Theorem C79_set : forall rx dst r cf t fmt fmt' sp s v rest,
  s_enc r <> U16 -> units (s_enc r) s ->
  parse_format_specs cf t fmt (SS specs_default false) = Ok (fmt', SS sp false) -> type sp = PStringSet ->
  string_arg rx dst r sp s = Ok (v, rest) -> exists used, s = used ++ rest /\ used <> [].
Proof.
  intros rx dst r cf t fmt fmt' sp s v rest He Hu HP HT E. apply parse_parsed in HP. apply set_arg_short in E; try assumption.
  destruct E as [[used ->] L]. exists used. split; [reflexivity|]. intros ->. cbn in L. lia.
Qed.
Print Assumptions C79_set.
Example C79_set_ex : exists sp, parse_format_specs narrow NarrowStringType (T "*^[a-c]}") (SS specs_default false) = Ok (T "}", SS sp false)
  /\ type sp = PStringSet /\ string_arg no_rx (DString U8) string_src sp (T "**ab**x") = Ok (T "ab", T "x").
Proof. eexists. split; [vm_compute; reflexivity|]. split; vm_compute; reflexivity. Qed.
(** A case: "{:x} {}" with an integer and a boolean, then "{}" with a vector of characters. *)
Example C79_ex :
  let ts := [TScalar (TInt i32 IntType); TScalar TBool] in let us := [TShape (vector_of 9 (SLeaf (TChar KChar 0 NarrowCharacterType)))] in
  Forall (@holds_scalars exact classic None) ts /\ Forall bracketed ts /\ Forall (@holds_scalars exact classic None) us /\ Forall bracketed us /\ units U8 (T " ff true[x]")
  /\ scan_with no_rx narrow classic None string_src ts (T "{:x} {}") (T " ff true[x]") = Ok ([(0, VLeaf (SVInt 255)); (1, VLeaf (SVBool true))], T "[x]")
  /\ scan_with no_rx narrow classic None string_src us (T "{}") (T "[x]") = Ok ([(0, VSeq [VLeaf (SVChar 120)])], [])
  /\ calls no_rx narrow classic string_src (T " ff true[x]") [VLeaf (SVInt 255); VLeaf (@SVBool exact true); VSeq [VLeaf (SVChar 120)]] [].
Proof.
  cbv zeta.
  assert (H1 : Forall (@holds_scalars exact classic None) [TScalar (TInt i32 IntType); TScalar TBool]) by (apply Forall_forall; intros t [<-|[<-|[]]]; cbn; [unfold type_ok; cbn; auto 10|split; discriminate]).
  assert (H2 : Forall (@holds_scalars exact classic None) [TShape (vector_of 9 (SLeaf (TChar KChar 0 NarrowCharacterType)))]) by (apply Forall_forall; intros t [<-|[]]; exact I).
  assert (B1 : Forall bracketed [TScalar (@TInt exact i32 IntType); TScalar TBool]) by (apply Forall_forall; intros t [<-|[<-|[]]]; exact I).
  assert (B2 : Forall bracketed [TShape (vector_of 9 (SLeaf (@TChar exact KChar 0 NarrowCharacterType)))]) by (apply Forall_forall; intros t [<-|[]]; discriminate).
  split; [exact H1|]. split; [exact B1|]. split; [exact H2|]. split; [exact B2|]. split; [repeat constructor; unfold is_byte; lia|]. split; [vm_compute; reflexivity|]. split; [vm_compute; reflexivity|].
  eapply (one_call no_rx narrow classic string_src None _ (T "{:x} {}") _ [(0, VLeaf (SVInt 255)); (1, VLeaf (SVBool true))] (T "[x]")); [exact H1|exact B1|vm_compute; reflexivity|].
  eapply (one_call no_rx narrow classic string_src None _ (T "{}") _ [(0, VSeq [VLeaf (SVChar 120)])] [] []); [exact H2|exact B2|vm_compute; reflexivity|]. constructor.
Qed.
Example C79_words_ex : whole string_src (T " caf!") /\ Forall scalar (T " caf!") /\ dest_ok (DString U8) U8 U8
  /\ run79 [TString (DString U8) NarrowStringType] (T "{}") (T " caf!") = Ok ([(0, VLeaf (SVString (T "caf!")))], []).
Proof. split; [apply contig_whole; reflexivity|]. split; [apply Forall_forall; intros c Hc; cbn in Hc; unfold scalar; repeat (destruct Hc as [<-|Hc]; [lia|]); destruct Hc|]. split; [cbn; auto|vm_compute; reflexivity]. Qed.

(** A map of integers to vectors of characters, then an integer: 14 + 1 code units at least. *)
Definition map79 : shape (scalar_type exact) := map_of 9 (SLeaf (TInt i32 IntType)) (vector_of 9 (SLeaf (TChar KChar 0 NarrowCharacterType))).
Example C79_ranges_ex :
  let ts := [TShape map79; TScalar (TInt i32 IntType)] in
  let v := VSeq [VTup [VLeaf (SVInt 1); VSeq [VLeaf (SVChar 97); VLeaf (SVChar 98)]]; VTup [VLeaf (SVInt 2); VSeq []]] in
  Forall (holds_scalars classic None) ts /\ units U8 (T " { 1:[a,b],2:[]} 7!")
  /\ scan_with no_rx narrow classic None string_src ts (T "{} {}") (T " { 1:[a,b],2:[]} 7!") = Ok ([(0, v); (1, VLeaf (SVInt 7))], T "!")
  /\ at_least ts 0 v = 14%nat /\ at_least ts 1 (VLeaf (@SVInt exact 7)) = 1%nat.
Proof.
  cbv zeta. split; [apply Forall_forall; intros t [<-|[<-|[]]]; cbn; unfold type_ok; cbn; auto 20|].
  split; [repeat constructor; unfold is_byte; lia|]. split; [vm_compute; reflexivity|]. split; reflexivity.
Qed.
Example C79_vector_ex : never_empty classic (@TInt exact i32 IntType) /\ units U8 (T "[ 1, ff ]")
  /\ scan_with no_rx narrow classic None string_src [TShape (vector_of 9 (SLeaf (@TInt exact i32 IntType)))] (T "{:x}") (T "[ 1, ff ]")
     = Ok ([(0, VSeq [VLeaf (SVInt 1); VLeaf (SVInt 255)])], []).
Proof. split; [cbn; unfold type_ok; cbn; auto 10|]. split; [repeat constructor; unfold is_byte; lia|vm_compute; reflexivity]. Qed.

(** What is not said.  An aligned string, a string matching a regular expression that matches nothing, and a
    boolean in a locale with an empty name can be read without using up anything: such a loop does not end. *)
Theorem C79_string_refuted : exists d a f s v, run79 [TString d a] f s = Ok ([(0, v)], s).
Proof. exists (DString U8), NarrowStringType, (T "{:*<}"), (T " x"), (VLeaf (SVString [])). vm_compute. reflexivity. Qed.
Theorem C79_regex_refuted : exists rx d a f s v,
  StringSafeProofs.engine_ok rx /\ scan_with rx narrow classic None string_src [@TScalar exact (TString d a)] f s = Ok ([(0, v)], s).
Proof.
  exists (fun _ _ s => Ok s), (DString U8), NarrowStringType, (T "{:/y*/}"), (T "x"), (VLeaf (SVString [])).
  split; [intros p fl s; right; exists s; split; [reflexivity|apply suffix_refl]|vm_compute; reflexivity].
Qed.
Theorem C79_empty_name_refuted : exists l f s v, scan_with no_rx narrow classic (Some l) string_src [@TScalar exact TBool] f s = Ok ([(0, v)], s).
Proof. exists (Locale (T "ja") [] [] 44 46), (T "{:L}"), (T "nein"), (VLeaf (SVBool false)). vm_compute. reflexivity. Qed.
Print Assumptions C79_string_refuted.
Print Assumptions C79_regex_refuted.
Print Assumptions C79_empty_name_refuted.
(** The other types that are covered, with the conversion of [FloatInstance]. *)
Example C79_types_ex : let ts := [TFloat (exact_fp true) DoubleType; TPointer] in
  Forall (never_empty classic) ts /\ units U8 (T "1.5e1 0x2a,")
  /\ run79 ts (T "{:g} {}") (T "1.5e1 0x2a,") = Ok ([(0, VLeaf (SVFloat (Fraction false 15 1))); (1, VLeaf (SVPointer 42))], T ",").
Proof.
  cbv zeta. split; [apply Forall_forall; intros t [<-|[<-|[]]]; [eexists; apply exact_converts|exact I]|].
  split; [repeat constructor; unfold is_byte; lia|]. vm_compute. reflexivity.
Qed.
(** A range whose scanner has been given empty brackets: its loop takes the closing bracket to be there. *)
Theorem C79_brackets_refuted : exists p e s, p_sep p <> [] /\ scalars (@never_empty exact classic) e
  /\ scan_with no_rx narrow classic None string_src [TShape (SSeq 9 p e)] (T "{}") s = Ok ([(0, VSeq [])], s).
Proof.
  exists (Punct [] [] (T ",")), (SLeaf (TInt i32 IntType)), (T "1,2"). split; [discriminate|]. split; [cbn; unfold type_ok; cbn; auto 10|]. vm_compute. reflexivity.
Qed.
Print Assumptions C79_brackets_refuted.
