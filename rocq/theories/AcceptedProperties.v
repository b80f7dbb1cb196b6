(** Properties C18, C19, C40 and C44 for every format string accepted at compile time,
    also those outside the documented grammar, with user types. *)
From Verif Require Import Prelude UnicodeModel ReadModel ReadProofs SpecsModel ArgsModel FormatModel FormatSpec
  VscanModel VscanSpec VscanProofs VscanSpecProofs CheckerProofs IntModel AcceptedProofs VscanProperties CheckedProperties.
Import Coq.Strings.String.StringSyntax.
Local Open Scope list_scope.
Local Open Scope Z_scope.

(** Fewer than 64 arguments, whose readers are total and consume a prefix of the source
    (none of them is a regex_matches); wide strings or contiguous narrow ones; user types
    parse at run time as at compile time; the format string is accepted. *)
Definition accepted {V} (r : src) (cf : config) (contiguous borrowed : bool) (args : list (arg V))
  (custom_parse : Z -> list Z -> outcome (list Z)) (format : list Z) : Prop :=
  (List.length args < 64)%nat /\ good_src r /\ c_enc cf = s_enc r
  /\ Forall (arg_ok V r cf) args /\ Forall (fun a => forall s, ar_plain a s = ar_default a s) args
  /\ parses_same V args custom_parse
  /\ check_format_string cf contiguous borrowed (map ar_type args) custom_parse format = Ok tt.
(** The format string consists of these tokens: the text of a format-spec is all that is
    parsed for its field; each field refers to another argument, and together they refer
    to all. *)
Definition consists {V} (r : src) (cf : config) (args : list (arg V))
  (custom_parse : Z -> list Z -> outcome (list Z)) (format : list Z) (ts : list (gtoken raw)) : Prop :=
  tokens_text r_text ts = format /\ uniform ts
  /\ index_ok (Z.of_nat (List.length args)) ts 0 [] = true
  /\ wf_gtokens r_text (s_enc r) (raw_ok cf (map ar_type args) custom_parse) ts 0.

(** Every accepted format string consists of tokens, provided its literals are ASCII (in
    narrow format strings) or code points (in wide ones). *)
Theorem C18_accepted_tokens_partial : forall V r cf contiguous borrowed args custom_parse format,
  @accepted V r cf contiguous borrowed args custom_parse format ->
  exists ts, tokens_text r_text ts = format
    /\ (Forall (lit_ok (s_enc r)) (literals ts) -> consists r cf args custom_parse format ts).
Proof.
  intros V r cf contiguous borrowed args custom_parse format (_ & _ & He & _ & _ & [Hs _] & HC).
  destruct (accepted_tokens cf contiguous borrowed (map ar_type args) custom_parse Hs format HC) as (ts & H1 & H2 & H3 & H4).
  rewrite map_length, He in *. exists ts. split; [exact H1|]. intros HL. repeat split; auto.
Qed.
Print Assumptions C18_accepted_tokens_partial.
Lemma literals_text {D} (txt : D -> list Z) (P : Z -> Prop) ts : Forall P (tokens_text txt ts) -> Forall P (literals ts).
Proof.
  induction ts as [|[c|id d] ts IH]; intros H; [constructor| |].
  - change (tokens_text txt (Lit c :: ts)) with (token_text txt (Lit c) ++ tokens_text txt ts) in H. apply Forall_app in H. destruct H as [H1 H2].
    cbn [literals flat_map app]. constructor; [|apply IH, H2]. cbn [token_text] in H1.
    destruct (Z.eqb_spec c 123) as [->|_]; [inversion H1; assumption|]. destruct (Z.eqb_spec c 125) as [->|_]; inversion H1; assumption.
  - change (tokens_text txt (Field id d :: ts)) with (token_text txt (Field id d) ++ tokens_text txt ts) in H. apply Forall_app in H. apply IH, H.
Qed.
(** In particular when the whole format string is ASCII, or wide. *)
Theorem C18_accepted_ascii_partial : forall V r cf contiguous borrowed args custom_parse format,
  @accepted V r cf contiguous borrowed args custom_parse format -> Forall (lit_ok (s_enc r)) format ->
  exists ts, consists r cf args custom_parse format ts.
Proof.
  intros V r cf contiguous borrowed args custom_parse format HA HF.
  destruct (C18_accepted_tokens_partial _ _ _ _ _ _ _ _ HA) as (ts & E & H). exists ts. apply H. eapply literals_text. rewrite E. exact HF.
Qed.
Print Assumptions C18_accepted_ascii_partial.

(** What the tokens ask for, by the code and by the documentation. *)
Definition code_does {V} (r : src) (cf : config) (args : list (arg V)) :=
  scan_spec V (s_enc r) (Z.of_nat (List.length args)) (field_read V cf args) false (code_fail V args).
Definition doc_says {V} (r : src) (cf : config) (args : list (arg V)) :=
  scan_doc V (s_enc r) (Z.of_nat (List.length args)) (field_read V cf args).
Definition fails_first {V} (r : src) (cf : config) (args : list (arg V)) :=
  scan_spec V (s_enc r) (Z.of_nat (List.length args)) (field_read V cf args) false (fun _ x => x).
Lemma accepted_agrees V r cf contiguous borrowed args custom_parse format ts source :
  @accepted V r cf contiguous borrowed args custom_parse format -> consists r cf args custom_parse format ts -> units (s_enc r) source ->
  agrees V [InvalidLiteral; InvalidFormatString] (vscan V r cf args format source) (code_does r cf args ts source).
Proof.
  intros (H1 & H2 & H3 & H4 & H5 & H6 & _) (<- & C2 & _ & C4) Hu.
  eapply vscan_agrees_any; try eassumption.
  - intros i a s EA. unfold field_read. rewrite EA. reflexivity.
  - intros i d rest HO. eapply raw_good; eassumption.
  - intros i d s v s' E Hus. eapply units_suffix; [|exact Hus]. eapply field_suffix; eassumption.
  - left. reflexivity.
  - left. right. left. reflexivity.
Qed.

(** A scan with an accepted format string succeeds with exactly the values and the rest
    its tokens ask for. *)
Theorem C18_accepted_partial : forall V r cf contiguous borrowed args custom_parse format ts source x,
  @accepted V r cf contiguous borrowed args custom_parse format -> consists r cf args custom_parse format ts -> units (s_enc r) source ->
  vscan V r cf args format source = Ok x <-> code_does r cf args ts source = Ok x.
Proof.
  intros V r cf contiguous borrowed args custom_parse format ts source x HA HT Hu.
  assert (HG := accepted_agrees V r cf contiguous borrowed args custom_parse format ts source HA HT Hu). unfold agrees in HG.
  destruct (code_does r cf args ts source) as [y|y| |]; rewrite ?HG; [reflexivity| |split; discriminate|split; discriminate].
  destruct HG as [-> |[_ (z & _ & ->)]]; split; discriminate.
Qed.
Print Assumptions C18_accepted_partial.
(** So every success is the documented one ... *)
Theorem C18_accepted_sound_partial : forall V r cf contiguous borrowed args custom_parse format ts source x,
  @accepted V r cf contiguous borrowed args custom_parse format -> consists r cf args custom_parse format ts -> units (s_enc r) source ->
  vscan V r cf args format source = Ok x -> doc_says r cf args ts source = Ok x.
Proof.
  intros V r cf contiguous borrowed args custom_parse format ts source x HA HT Hu E.
  apply (C18_accepted_partial _ _ _ _ _ _ _ _ _ _ x HA HT Hu) in E. eapply run_doc, E.
Qed.
Print Assumptions C18_accepted_sound_partial.
(** ... and what should succeed does, if it does not exhaust the source. *)
Theorem C18_accepted_complete_partial : forall V r cf contiguous borrowed args custom_parse format ts source log rest,
  @accepted V r cf contiguous borrowed args custom_parse format -> consists r cf args custom_parse format ts -> units (s_enc r) source ->
  rest <> [] -> doc_says r cf args ts source = Ok (log, rest) ->
  vscan V r cf args format source = Ok (log, rest).
Proof.
  intros V r cf contiguous borrowed args custom_parse format ts source log rest HA HT Hu Hr E.
  apply (C18_accepted_partial _ _ _ _ _ _ _ _ _ _ _ HA HT Hu).
  eapply doc_run; [|exact Hu|exact Hr|exact E]. intros i d s v s' Hs. eapply field_suffix; [|exact Hs]. apply HA.
Qed.
Print Assumptions C18_accepted_complete_partial.

(** An accepted format string gives invalid_format_string at run time only in place of
    the error of a literal or of a reader. *)
Theorem C40_accepted_partial : forall V r cf contiguous borrowed args custom_parse format ts source,
  @accepted V r cf contiguous borrowed args custom_parse format -> consists r cf args custom_parse format ts -> units (s_enc r) source ->
  vscan V r cf args format source = Err InvalidFormatString ->
  fails_first r cf args ts source = Err InvalidLiteral
  \/ exists id i d s x, In (Field id d) ts /\ field_read V cf args i d s = Err x /\ fails_first r cf args ts source = Err x.
Proof.
  intros V r cf contiguous borrowed args custom_parse format ts source HA HT Hu E.
  assert (HG := accepted_agrees V r cf contiguous borrowed args custom_parse format ts source HA HT Hu). rewrite E in HG.
  destruct HT as (_ & _ & HI & _). unfold agrees, code_does, fails_first, scan_spec in *.
  assert (HR := run_fail_rel V (s_enc r) (Z.of_nat (List.length args)) (field_read V cf args) (code_fail V args) ts false 0 [] false source []).
  cbv zeta in HR.
  destruct (run V (s_enc r) (Z.of_nat (List.length args)) (field_read V cf args) false (fun _ x => x) ts 0 [] false source []) as [y|y| |] eqn:EF;
    try (rewrite HR in HG; discriminate HG).
  destruct (index_error V (s_enc r) _ _ _ _ _ _ _ _ _ _ _ HI EF) as [->|(id & i & d & s & u & x & HIn & ER & ->)]; [left; reflexivity|].
  right. exists id, i, d, s, x. auto.
Qed.
Print Assumptions C40_accepted_partial.

(** The error reported is that of the first token that fails, or invalid_format_string. *)
Theorem C44_accepted_partial : forall V r cf contiguous borrowed args custom_parse format ts source x,
  @accepted V r cf contiguous borrowed args custom_parse format -> consists r cf args custom_parse format ts -> units (s_enc r) source ->
  fails_first r cf args ts source = Err x ->
  vscan V r cf args format source = Err x \/ vscan V r cf args format source = Err InvalidFormatString.
Proof.
  intros V r cf contiguous borrowed args custom_parse format ts source x HA HT Hu E.
  assert (HG := accepted_agrees V r cf contiguous borrowed args custom_parse format ts source HA HT Hu).
  assert (HR := run_fail_rel V (s_enc r) (Z.of_nat (List.length args)) (field_read V cf args) (code_fail V args) ts false 0 [] false source []).
  cbv zeta in HR. unfold agrees, code_does, fails_first, scan_spec in *. rewrite E in HR.
  destruct HR as [HR|[u HR]]; rewrite HR in HG.
  - destruct HG as [HG|(-> & y & [<-|[<-|[]]] & HG)]; auto.
  - unfold code_fail in HG. destruct (covers _ u).
    + destruct HG as [HG|(-> & y & [<-|[<-|[]]] & HG)]; auto.
    + destruct HG as [HG|(Hx & y & [<-|[<-|[]]] & HG)]; auto. discriminate.
Qed.
Print Assumptions C44_accepted_partial.

(** Format strings outside the documented grammar, with a user type: a closing brace as
    fill, a dot without a precision, and the user's "!". *)
Lemma mark_arg_ok : arg_ok Z string_src narrow mark_arg.
Proof.
  assert (HR : reader_ok Z string_src mark_scan).
  { intros [|c s] _; [right; eexists; reflexivity|]. left. exists c, s. split; [reflexivity|]. exists [c]. reflexivity. }
  split; [exact HR|]. split; [intros ? ? ? _; exact HR|]. split; [|split; discriminate].
  intros fmt s Hu. cbn [ar_custom mark_arg]. unfold mark_parse.
  assert (HS : (exists v s', mark_scan s = Ok (v, s') /\ suffix s' s) \/ exists e, mark_scan s = Err e) by (apply HR, Hu).
  assert (HX : forall p, suffix p fmt -> suffix (fst (p, mark_scan s)) fmt
       /\ ((exists v s', snd (p, mark_scan s) = Ok (v, s') /\ suffix s' s) \/ exists e, snd (p, mark_scan s) = Err e)) by (intros p Hp; auto).
  destruct fmt as [|c fmt]; [split; [apply suffix_refl|right; eexists; reflexivity]|].
  assert (HC : forall p, mark_parse (c :: fmt) = Ok p -> suffix p (c :: fmt)).
  { unfold mark_parse. intros p. destruct c as [|c|c]; try discriminate. repeat (destruct c as [c|c|]; try discriminate).
    - intros [= <-]. apply suffix_refl.
    - intros [= <-]. exists [33]. reflexivity. }
  fold (mark_parse (c :: fmt)). destruct (mark_parse (c :: fmt)) as [p|x| |] eqn:EM; [apply HX, HC; reflexivity| | |];
    (split; [apply suffix_refl|right; eexists; reflexivity]).
Qed.
Definition odd_args : list (arg Z) := [int_arg; mark_arg; int_arg].
Definition odd_format : list Z := T "{:}<5} {:!}{:.}".
Definition odd_tokens : list (gtoken raw) :=
  [Field None (Some (Raw (T "}<5") (T " {:!}{:.}"))); Lit 32; Field None (Some (Raw (T "!") (T "{:.}")));
   Field None (Some (Raw (T ".") []))].
Example C18_accepted_ex :
  let parse := fun _ => mark_parse in
  accepted string_src narrow true true odd_args parse odd_format
  /\ consists string_src narrow odd_args parse odd_format odd_tokens
  /\ Forall (lit_ok U8) odd_format
  /\ vscan Z string_src narrow odd_args odd_format (T "12  *7;") = Ok ([(0, 12); (1, 42); (2, 7)], T ";")
  /\ doc_says string_src narrow odd_args odd_tokens (T "12  *7;") = Ok ([(0, 12); (1, 42); (2, 7)], T ";")
  /\ fails_first string_src narrow odd_args odd_tokens (T "12  *x") = Err InvalidScannedValue
  /\ vscan Z string_src narrow odd_args odd_format (T "12  *x") = Err InvalidScannedValue
  /\ vscan Z string_src narrow odd_args odd_format (T "x") = Err InvalidFormatString.
Proof.
  cbv zeta. split; [|split; [|vm_compute; repeat split; repeat constructor; discriminate]].
  - split; [cbn; lia|]. split; [unfold good_src; cbn; auto|]. split; [reflexivity|].
    split; [exact (Forall_cons _ int_arg_ok (Forall_cons _ mark_arg_ok (Forall_cons _ int_arg_ok (Forall_nil _))))|]. split; [repeat constructor|].
    split; [|vm_compute; reflexivity]. split.
    + intros _ f p. unfold mark_parse. destruct f as [|c f]; [discriminate|].
      destruct c as [|c|c]; try discriminate. repeat (destruct c as [c|c|]; try discriminate).
      * intros [= <-]. apply suffix_refl.
      * intros [= <-]. exists [33]. reflexivity.
    + intros id a f p Ha Ht Hp s. destruct (Z.to_nat id) as [|[|[|k]]]; cbn in Ha; try (injection Ha as <-; try discriminate); [|destruct k; discriminate].
      cbn. rewrite Hp. reflexivity.
  - split; [vm_compute; reflexivity|]. split; [left; intros id d H; repeat destruct H as [H|H]; try discriminate; try contradiction; injection H as <- _; reflexivity|].
    split; [reflexivity|]. cbn [wf_gtokens odd_tokens]. 
    repeat match goal with
    | |- _ /\ _ => split
    | |- wf_id _ => exact I
    | |- lit_ok _ _ => cbn; lia
    | |- True => exact I
    | |- forall d', Some _ = Some d' -> _ => intros d' E; injection E as <-; split; [vm_compute; reflexivity|]; intros t Et; vm_compute in Et; injection Et as <-
    end; try (eexists; vm_compute; reflexivity); vm_compute; reflexivity.
Qed.
