(** Properties C17-C22, C40 and C44: format strings. *)
From Coq Require Import String Ascii.
From Verif Require Import Prelude UnicodeModel UnicodeSpec UnicodeProofs WhitespaceModel
  ReadModel ReadProofs SpecsModel IntModel ArgsModel FormatModel FormatProofs FormatSpec
  FormatSpecProofs VscanModel VscanSpec VscanProofs VscanSpecProofs ArgReaderModel
  CheckerProofs IntProofs IntTotalProofs SpecsInvProofs.
Local Open Scope list_scope.
Local Open Scope Z_scope.

(** ** Concrete arguments for the examples *)
Definition T (s : string) : list Z :=
  map (fun c => Z.of_nat (nat_of_ascii c)) (list_ascii_of_string s).
Definition narrow : config := Config U8 true false false true.
Definition wide : config := Config U32 true true false true.
Definition wide_src : src := Src U32 true (fun _ => O).
(** An [int] in a narrow string: default and formatted reading after whitespace; width,
    precision and fill are not looked at here. *)
Definition int_arg : arg Z :=
  let d := default_read string_src true (int_read_default string_src (IT true 32)) in
  Arg Z IntType d d
    (fun sp s => if check_int_type_specs sp
       then default_read string_src true (int_read_specs string_src (IT true 32) sp 44) s
       else Err InvalidFormatString)
    (fun f _ => (f, Err InvalidFormatString)).
(** A [std::string]: everything up to the next space. *)
Fixpoint word (s : list Z) : list Z * list Z :=
  match s with
  | c :: s' => if c =? 32 then ([], s) else let (w, t) := word s' in (c :: w, t)
  | [] => ([], [])
  end.
Definition str_arg : arg Z :=
  let d := default_read string_src true
             (fun s => Ok (Z.of_nat (length (fst (word s))), snd (word s))) in
  Arg Z NarrowStringType d d (fun _ => d) (fun f _ => (f, Err InvalidFormatString)).
Lemma default_read_ok {V} r skip (f : list Z -> outcome (V * list Z)) :
  reader_ok V r f -> reader_ok V r (default_read r skip f).
Proof.
  intros Hf s Hu. unfold default_read, skip_ws_before_if_required.
  destruct s as [|c s]; [right; eexists; reflexivity|].
  destruct skip; cbn [bind]; [|apply Hf, Hu].
  destruct (skip_classic_whitespace_total r (c :: s) false Hu) as [(s' & -> & Hs)| ->]; cbn [bind]; [|eauto].
  destruct (Hf s') as [(v & s2 & -> & H2)|[e ->]]; [eapply units_suffix; eassumption| |eauto].
  left. do 2 eexists. split; [reflexivity|]. eapply suffix_trans; eassumption.
Qed.
Lemma get_base_ok sp : parsed sp -> check_int_type_specs sp = true ->
  exists b, get_base sp = Ok b /\ (b = 0 \/ base_ok b).
Proof.
  intros [Hb _ _ _ _ _]. unfold check_int_type_specs, get_base, base_ok. rewrite Hb.
  destruct (type sp); cbn; try discriminate; intros _; eexists; (split; [reflexivity|]); lia.
Qed.
Lemma int_arg_ok : arg_ok Z string_src narrow int_arg.
Proof.
  assert (HU : forall s, units U8 s -> enc_ok U8 s) by (intros s H _; exact H).
  split; [|split; [|split; [|split; discriminate]]].
  - apply default_read_ok. intros s Hu.
    destruct (int_default_total string_src (IT true 32) s 10) as [(v & s' & E & Hs & _)|[e E]]; unfold type_ok, base_ok; cbn; auto; [lia| |];
      unfold int_read_default; rewrite E; eauto.
  - intros fmt fmt' sp HF s Hu. assert (Hp := parse_parsed _ _ _ _ _ HF). cbn [ar_specs int_arg ss_specs] in *. destruct (check_int_type_specs sp) eqn:EC; [|eauto].
    destruct (get_base_ok sp Hp EC) as (b & Eb & Hb). revert s Hu. apply default_read_ok. intros s Hu.
    destruct (int_specs_total string_src (IT true 32) sp 44 s b) as [(v & s' & E & Hs & _)|[e E]]; unfold type_ok; cbn; auto;
      rewrite E; eauto.
  - intros fmt s _. cbn. split; [apply suffix_refl|eauto].
Qed.
Definition vscan_ints n := vscan Z string_src narrow (repeat int_arg n).

(** ** C17 *)

(** At run time, for every format string and source, with fewer than 64 arguments none
    of which is a regex_matches, whose readers are themselves total: the scan ends, with
    a result or an error, reading nothing outside the format string. *)
Theorem C17_run_time_total_partial : forall V r cf args format source,
  (List.length args < 64)%nat -> Forall (arg_ok V r cf) args ->
  units (s_enc r) format -> units (s_enc r) source ->
  (exists log rest, vscan_parse_format_string V r cf args format source = Ok (log, rest)
     /\ suffix rest source)
  \/ exists e, vscan_parse_format_string V r cf args format source = Err e.
Proof.
  intros V r cf args format source H1 H2 H3 H4.
  destruct (vscan_general_total V r cf args H1 H2 format source H3 H4) as [(log & rest & H & Hs & _)|H]; [|right; exact H].
  left. eauto.
Qed.
Print Assumptions C17_run_time_total_partial.
(** What is missing: regex_matches arguments, and 64 arguments or more. *)
Theorem C17_regex_refuted : exists format,
  parse_format_specs narrow NarrowRegexMatchesType format (SS specs_default false) = UB
  /\ check_format_string narrow true true [NarrowRegexMatchesType] (fun _ s => Ok s)
       (T "{:" ++ format) = UB.
Proof. exists (T "L}"). split; vm_compute; reflexivity. Qed.
Print Assumptions C17_regex_refuted.
Theorem C17_many_args_refuted : exists (args : list (arg unit)) format,
  List.length args = 64%nat /\
  vscan unit string_src narrow args format [] = UB.
Proof.
  exists (repeat (Arg unit IntType (fun s => Ok (tt, s)) (fun s => Ok (tt, s)) (fun _ s => Ok (tt, s)) (fun f s => (f, Ok (tt, s)))) 64),
    (flat_map (fun _ => T "{}") (repeat 0 64)).
  split; vm_compute; reflexivity.
Qed.
Print Assumptions C17_many_args_refuted.

(** The compile-time checker, for every format string and every number of arguments:
    accepted or rejected. *)
Theorem C17_checker_total_partial : forall cf contiguous borrowed types custom_parse format,
  Forall (fun t => t <> NoneType /\ no_regex t) types ->
  (forall i s, (exists p, custom_parse i s = Ok p /\ suffix p s)
     \/ custom_parse i s = Err InvalidFormatString) ->
  let x := check_format_string cf contiguous borrowed types custom_parse format in
  x = Ok tt \/ x = Err InvalidFormatString.
Proof.
  intros cf c b types custom_parse format H1 H2.
  destruct (checker_decided cf c b types custom_parse H1 H2 format) as [[[] H]|H]; auto.
Qed.
Print Assumptions C17_checker_total_partial.

Example C17_ex :
  vscan_ints 2 (T "{:{{5.L[^") (T "1 2") = Err InvalidFormatString
  /\ check_format_string narrow true true [IntType; IntType] (fun _ s => Ok s) (T "{:[^")
     = Err InvalidFormatString
  /\ check_format_string narrow true true [IntType; IntType] (fun _ s => Ok s) (T "{1:x}a{0}}}")
     = Ok tt.
Proof. vm_compute. repeat split. Qed.

(** ** C18 *)

(** The format-spec written for a description means that description. *)
Theorem C18_specs_partial : forall cf t d rest, c_enc cf <> U16 ->
  wf_desc (rb_of cf) (c_enc cf) t d rest ->
  parse_format_specs cf t (render_desc (c_enc cf) d ++ 125 :: rest) (SS specs_default false)
  = Ok (125 :: rest, SS (mean (c_enc cf) d) false).
Proof. exact specs_render. Qed.
Print Assumptions C18_specs_partial.

(** What the tokens of a format string ask for.  [scan_spec] is given the reader of each
    argument; it is defined on tokens and knows nothing of the syntax.  Sources are wide
    strings, or contiguous narrow ones; fewer than 64 arguments; literals are ASCII
    (narrow) or any code points (wide); numbering is not mixed. *)
Definition setup {V} (r : src) (cf : config) (args : list (arg V)) (ts : list token)
  (source : list Z) : Prop :=
  (List.length args < 64)%nat /\ good_src r /\ c_enc cf = s_enc r
  /\ (forall i d s v s', units (s_enc r) s ->
        read_arg V args i (option_map (mean (s_enc r)) d) s = Ok (v, s') -> suffix s' s)
  /\ Forall (fun a => forall s, ar_plain a s = ar_default a s) args
  /\ uniform ts /\ wf_tokens (s_enc r) (spec_ok V r cf args) ts 0
  /\ units (s_enc r) source.
(** What the code does: whitespace fails at the end of the source, and the error of a
    failing field is replaced if arguments remain. *)
Definition expected {V} (r : src) (args : list (arg V)) :=
  scan_spec V (s_enc r) (Z.of_nat (List.length args)) (meant (s_enc r) (read_arg V args)) false
    (code_fail V args).
(** What the documentation says. *)
Definition documented {V} (r : src) (args : list (arg V)) :=
  scan_doc V (s_enc r) (Z.of_nat (List.length args)) (meant (s_enc r) (read_arg V args)).

Lemma setup_agrees V r cf args ts source : setup r cf args ts source ->
  agrees V [InvalidLiteral; InvalidFormatString] (vscan V r cf args (render (s_enc r) ts) source)
    (@expected V r args ts source).
Proof.
  intros (H1 & H2 & H3 & H4 & H5 & H6 & H7 & H8).
  apply vscan_agrees; try assumption; [|left; reflexivity|left; right; left; reflexivity].
  intros i d s v s' E Hu. eapply units_suffix; [|exact Hu]. eapply H4, E. exact Hu.
Qed.

(** A scan succeeds with exactly the values and the rest the tokens ask for. *)
Theorem C18_tokens_partial : forall V r cf args ts source x, setup r cf args ts source ->
  vscan V r cf args (render (s_enc r) ts) source = Ok x <-> @expected V r args ts source = Ok x.
Proof.
  intros V r cf args ts source x HS. assert (HA := setup_agrees V r cf args ts source HS). unfold agrees in HA.
  destruct (@expected V r args ts source) as [y|y| |]; rewrite ?HA; [reflexivity| |split; discriminate|split; discriminate].
  destruct HA as [-> |[_ (z & _ & ->)]]; split; discriminate.
Qed.
Print Assumptions C18_tokens_partial.
(** In particular every success is the documented one ... *)
Theorem C18_sound_partial : forall V r cf args ts source x, setup r cf args ts source ->
  vscan V r cf args (render (s_enc r) ts) source = Ok x -> @documented V r args ts source = Ok x.
Proof. intros V r cf args ts source x HS E. apply C18_tokens_partial in E; [|exact HS]. eapply run_doc, E. Qed.
Print Assumptions C18_sound_partial.
(** ... and what should succeed does, if it does not exhaust the source. *)
Theorem C18_complete_partial : forall V r cf args ts source log rest, setup r cf args ts source ->
  rest <> [] -> @documented V r args ts source = Ok (log, rest) ->
  vscan V r cf args (render (s_enc r) ts) source = Ok (log, rest).
Proof.
  intros V r cf args ts source log rest HS Hr E. apply C18_tokens_partial; [exact HS|].
  eapply doc_run; [apply HS|apply HS|exact Hr|exact E].
Qed.
Print Assumptions C18_complete_partial.

(** The hypotheses hold for any number (below 64) of int arguments and any bytes. *)
Lemma mean_parsed_base e d : arbitrary_base (mean e d) = 0.
Proof. unfold mean. destruct (d_type d) as [[c|inv items|p fl]|]; reflexivity. Qed.
Lemma int_args_read n i d s v s' : units U8 s -> read_arg Z (repeat int_arg n) i d s = Ok (v, s') ->
  (forall sp, d = Some sp -> arbitrary_base sp = 0) -> suffix s' s.
Proof.
  intros Hu. unfold read_arg. destruct (nth_error _ _) as [a|] eqn:E; [|discriminate].
  apply nth_error_In, repeat_spec in E. subst a. assert (HU : enc_ok U8 s) by (intros _; exact Hu).
  destruct int_arg_ok as (H1 & _). destruct d as [sp|]; intros ER Hd.
  - cbn [ar_specs int_arg] in ER. destruct (check_int_type_specs sp) eqn:EC; [|discriminate].
    assert (HB : exists b, get_base sp = Ok b /\ (b = 0 \/ base_ok b)).
    { specialize (Hd sp eq_refl). revert EC. unfold check_int_type_specs, get_base, base_ok. rewrite Hd.
      destruct (type sp); cbn; try discriminate; intros _; eexists; (split; [reflexivity|]); lia. }
    destruct HB as (b & Eb & Hb).
    assert (HR : reader_ok Z string_src (int_read_specs string_src (IT true 32) sp 44)).
    { intros t Ht. destruct (int_specs_total string_src (IT true 32) sp 44 t b) as [(v1 & s1 & E & Hs & _)|[e E]];
        unfold type_ok; cbn; auto; [intros _; exact Ht| |]; rewrite E; eauto. }
    apply (default_read_ok _ true) in HR. destruct (HR s Hu) as [(v1 & s1 & E & Hs)|[e E]]; [|congruence].
    rewrite E in ER. injection ER as _ <-. exact Hs.
  - destruct (H1 s Hu) as [(v1 & s1 & E & Hs)|[e E]]; [|congruence].
    rewrite E in ER. injection ER as _ <-. exact Hs.
Qed.
Lemma ints_setup n ts source : (n < 64)%nat -> uniform ts ->
  wf_tokens U8 (spec_ok Z string_src narrow (repeat int_arg n)) ts 0 -> bytes source ->
  setup string_src narrow (repeat int_arg n) ts source.
Proof.
  intros H1 H2 H3 H4. split; [rewrite repeat_length; exact H1|]. split; [unfold good_src; cbn; auto|]. split; [reflexivity|].
  split.
  - intros i d s v s' Hu E. eapply int_args_read; [exact Hu|exact E|].
    intros sp Esp. destruct d as [d|]; [|discriminate]. injection Esp as <-. apply mean_parsed_base.
  - split; [apply Forall_forall; intros a Ha; apply repeat_spec in Ha; subst a; reflexivity|].
    split; [exact H2|]. split; [exact H3|exact H4].
Qed.
Ltac wf_desc_tac := unfold wf_desc; cbn; repeat split; try discriminate; intros;
    repeat match goal with
    | H : Some _ = Some _ |- _ => injection H; clear H; intros; subst
    end; try discriminate; try (vm_compute; intuition congruence); cbn; repeat constructor; try (cbn; lia); try discriminate.
(** "{1:Ld} {{{0:x}" with two ints. *)
Definition ex_tokens : list token :=
  [ Field (Some (T "1")) (Some (Desc None None None None true (Some (TyLetter 100))));
    Lit 32; Lit 123; Field (Some (T "0")) (Some (Desc None None None None false (Some (TyLetter 120)))) ].
Example C18_ex_tokens :
  render U8 ex_tokens = T "{1:Ld} {{{0:x}"
  /\ setup string_src narrow (repeat int_arg 2) ex_tokens (T "12,345    {-0xffz")
  /\ vscan_ints 2 (T "{1:Ld} {{{0:x}") (T "12,345    {-0xffz") = Ok ([(1, 12345); (0, -255)], T "z")
  /\ @documented Z string_src (repeat int_arg 2) ex_tokens (T "12,345    {-0xffz")
     = Ok ([(1, 12345); (0, -255)], T "z").
Proof.
  split; [reflexivity|]. split; [|vm_compute; auto].
  apply ints_setup; [lia| | |].
  - right. intros id d H. repeat destruct H as [H|H]; try discriminate; try contradiction; injection H as <- _; discriminate.
  - cbn [wf_gtokens ex_tokens]. unfold wf_id, numeral.
    repeat match goal with
    | |- _ /\ _ => split
    | |- forall d', Some _ = Some d' -> _ =>
        intros d' E; injection E as <-; intros a Ha; injection Ha as <-; split; [reflexivity|wf_desc_tac]
    end; try (left; reflexivity); try (right; discriminate); try discriminate; try (cbn; lia);
    try exact I; try (apply Forall_forall; intros c Hc; repeat destruct Hc as [<-|Hc]; [..|destruct Hc]; cbn; lia).
  - vm_compute. repeat constructor; discriminate.
Qed.
Example C18_ex_specs :
  let d := Desc (Some 0x20ac) (Some ARight) (Some (T "5")) (Some (T "9")) false (Some (TyLetter 100)) in
  wf_desc (rb_of narrow) U8 IntType d (T ", {{{0}")
  /\ parse_format_specs narrow IntType (utf8_of 0x20ac ++ T ">5.9d}, {{{0}") (SS specs_default false)
     = Ok (T "}, {{{0}", SS (Specs 5 9 (Fill [0xe2; 0x82; 0xac; 0] 3) PIntDecimal (repeat 0 16)
                              false false [] 0 0 ARight false) false).
Proof. split; [wf_desc_tac|vm_compute; reflexivity]. Qed.

(** The rest of the grammar is not parsed to its meaning. *)
(** A regex that starts with '^', '<' or '>' is taken for a fill and an alignment. *)
Theorem C18_regex_refuted : exists p, 
  wf_type (rb_of narrow) U8 (TyRegex p []) /\
  let d := Desc None None None None false (Some (TyRegex p [])) in
  parse_format_specs narrow NarrowStringType (render_desc U8 d ++ T "}") (SS specs_default false)
  <> Ok (T "}", SS (mean U8 d) false).
Proof.
  exists (T "^a+"). split; [|vm_compute; discriminate].
  cbn. repeat split; try discriminate; try (intros H; discriminate H); try (intros x []); constructor.
Qed.
Print Assumptions C18_regex_refuted.
(** '[' cannot be the fill, although any code point but braces can. *)
Theorem C18_fill_refuted : exists f, scalar f /\ f <> 123 /\ f <> 125 /\
  let d := Desc (Some f) (Some ALeft) (Some (T "5")) None false None in
  parse_format_specs narrow IntType (render_desc U8 d ++ T "}") (SS specs_default false)
  <> Ok (T "}", SS (mean U8 d) false).
Proof. exists 91. repeat split; try (unfold scalar; lia); vm_compute; discriminate. Qed.
Print Assumptions C18_fill_refuted.
(** An empty format-spec followed by a literal '<', '>' or '^' is misread. *)
Theorem C18_empty_specs_refuted : exists rest,
  parse_format_specs narrow IntType (T "}" ++ rest) (SS specs_default false)
  <> Ok (T "}" ++ rest, SS specs_default false)
  /\ vscan_ints 1 (T "{:}" ++ rest) (T "1" ++ rest) = Err InvalidFormatString.
Proof. exists (T "<"). split; vm_compute; [discriminate|reflexivity]. Qed.
Print Assumptions C18_empty_specs_refuted.
(** With 64 arguments or more nothing is ever scanned, whatever the format string. *)
Theorem C18_many_args_refuted : forall V r cf args format source x, (64 <= List.length args)%nat ->
  vscan V r cf args format source <> Ok x.
Proof. intros V r cf args format source x H. apply many_never. lia. Qed.
Print Assumptions C18_many_args_refuted.

(** ** C19 *)

(** For every format string: nothing is stored twice, or into an argument that does not
    exist. *)
Theorem C19_in_range_once : forall V r cf args format source log rest,
  (List.length args < 64)%nat -> Forall (arg_ok V r cf) args ->
  units (s_enc r) format -> units (s_enc r) source ->
  vscan V r cf args format source = Ok (log, rest) ->
  NoDup (map fst log) /\ forall i, In i (map fst log) -> 0 <= i < Z.of_nat (List.length args).
Proof.
  intros V r cf args format source log rest H1 H2 H3 H4 E. unfold vscan, args_count in E.
  destruct (is_simple format && (Z.of_nat (List.length args) =? 1)) eqn:ES.
  - unfold scan_simple_single_argument in E. destruct (get_arg V args 0); [|discriminate].
    destruct (ar_plain a source) as [[v s]| | |]; try discriminate. cbn in E. injection E as <- _. cbn.
    split; [constructor; [intros []|constructor]|]. intros i [<-|[]]. lia.
  - destruct (vscan_general_total V r cf args H1 H2 format source H3 H4) as [(l & s & E' & _ & Hd & HF)|[x E']];
      rewrite E' in E; [|discriminate]. injection E as <- _. split; [exact Hd|].
    intros i Hi. rewrite Forall_forall in HF. apply HF, Hi.
Qed.
Print Assumptions C19_in_range_once.
(** When the numbering is not mixed and the format-specs are well formed, success means
    that every argument has been read exactly once (into the argument with the number
    written, by C18_tokens_partial). *)
Theorem C19_every_argument_partial : forall V r cf args ts source log rest,
  setup r cf args ts source ->
  vscan V r cf args (render (s_enc r) ts) source = Ok (log, rest) ->
  NoDup (map fst log) /\ forall i, In i (map fst log) <-> 0 <= i < Z.of_nat (List.length args).
Proof.
  intros V r cf args ts source log rest HS E. apply C18_tokens_partial in E; [|exact HS].
  destruct HS as (_ & _ & _ & _ & _ & _ & Hwf & _).
  refine (run_reads_all V (s_enc r) _ _ _ _ _ _ ts 0 [] false source [] log rest Hwf _ _ _ _ E); [lia|constructor|intros i []|reflexivity].
Qed.
Print Assumptions C19_every_argument_partial.
(** Conversely fields that break the rules are an error. *)
Lemma bad_index_run V {D} e n (read : Z -> option D -> list Z -> outcome (V * list Z)) ok fail ts x : forall next used ws s log,
  index_ok n ts next used = false -> run V e n read ok fail ts next used ws s log <> Ok x.
Proof.
  induction ts as [|[c|id d] ts IH]; intros next used ws s log; cbn [run index_ok].
  - unfold covers. intros ->. discriminate.
  - intros HI. destruct (is_ws c).
    + destruct ws; [apply IH, HI|]. destruct s; [destruct ok; [apply IH, HI|discriminate]|apply IH, HI].
    + destruct s as [|y s]; [discriminate|]. destruct (y =? c); [apply IH, HI|discriminate].
  - destruct (_ || _); [discriminate|]. intros HI. destruct (read _ _ s) as [[v s']|z| |]; try discriminate.
    apply IH, HI.
Qed.
Theorem C19_bad_index_partial : forall V r cf args ts source, setup r cf args ts source ->
  index_ok (Z.of_nat (List.length args)) ts 0 [] = false ->
  forall x, vscan V r cf args (render (s_enc r) ts) source <> Ok x.
Proof.
  intros V r cf args ts source HS HI x E. apply C18_tokens_partial in E; [|exact HS].
  eapply bad_index_run; [exact HI|exact E].
Qed.
Print Assumptions C19_bad_index_partial.
(** Mixed numbering is accepted at run time. *)
Theorem C19_mixed_refuted : exists format source x,
  format = T "{1} {}" /\ vscan_ints 2 format source = Ok x.
Proof. do 3 eexists. split; [reflexivity|]. instantiate (2 := T "5 6"). vm_compute. reflexivity. Qed.
Print Assumptions C19_mixed_refuted.
(** An argument is skipped: "{:d} {:L}" of an int, a string and an int succeeds without
    ever reading the string, and reads the last int from the first field. *)
Theorem C19_skipped_refuted : exists args format source log rest,
  args = [int_arg; str_arg; int_arg]
  /\ vscan Z string_src narrow args format source = Ok (log, rest)
  /\ ~ In 1 (map fst log).
Proof.
  exists [int_arg; str_arg; int_arg], (T "{:d} {:L}"), (T "1 2").
  do 2 eexists. split; [reflexivity|]. split; [vm_compute; reflexivity|]. cbn. intuition discriminate.
Qed.
Print Assumptions C19_skipped_refuted.

Example C19_ex :
  vscan_ints 2 (T "{0} {0}") (T "1 2") = Err InvalidFormatString
  /\ vscan_ints 2 (T "{0} {2}") (T "1 2") = Err InvalidFormatString
  /\ vscan_ints 2 (T "{}") (T "1 2") = Err InvalidFormatString
  /\ vscan_ints 1 (T "{} {}") (T "1 2") = Err InvalidFormatString
  /\ vscan_ints 2 (T "{1} {0}") (T "1 2 3") = Ok ([(1, 1); (0, 2)], T " 3").
Proof. vm_compute. repeat split. Qed.

(** ** C20 *)
Lemma lits_wf e ok t : Forall (lit_ok e) t -> forall next, wf_tokens e ok (map Lit t) next.
Proof. induction 1; intros next; cbn; auto. Qed.
Lemma lits_no_fields {D} t : no_fields (map (@Lit D) t).
Proof. intros id d H. apply in_map_iff in H. destruct H as (c & E & _). discriminate. Qed.

(** A format string of literal text only, without arguments. *)
Definition scan_text (r : src) (cf : config) (text source : list Z) : outcome (list (Z * unit) * list Z) :=
  vscan unit r cf [] (render (s_enc r) (map Lit text)) source.
Definition text_setup (r : src) (cf : config) (text source : list Z) : Prop :=
  good_src r /\ c_enc cf = s_enc r /\ Forall (lit_ok (s_enc r)) text /\ units (s_enc r) source.

Lemma text_agrees r cf text source : text_setup r cf text source ->
  agrees unit [InvalidLiteral] (scan_text r cf text source)
    (scan_spec unit (s_enc r) 0 (meant (s_enc r) (read_arg unit [])) false (code_fail unit []) (map Lit text) source).
Proof.
  intros (H1 & H2 & H3 & H4). apply (vscan_agrees unit r cf []); auto; try (cbn; lia).
  - intros i d s v s'. unfold read_arg. destruct (Z.to_nat i); discriminate.
  - left; reflexivity.
  - right. split; [reflexivity|]. apply lits_no_fields.
  - left. intros id d H. exfalso. eapply lits_no_fields, H.
  - apply lits_wf, H3.
Qed.
Lemma text_same_fail e fail t : forall ws s log,
  run unit e 0 (meant e (read_arg unit [])) false fail (map Lit t) 0 [] ws s log
  = run unit e 0 (meant e (read_arg unit [])) false (fun _ y => y) (map Lit t) 0 [] ws s log.
Proof.
  induction t as [|c t IH]; intros ws s log; cbn [map run]; [reflexivity|].
  destruct (is_ws c); [destruct ws; [apply IH|]; destruct s; [reflexivity|apply IH]|].
  destruct s as [|d s]; [reflexivity|]. destruct (d =? c); [apply IH|reflexivity].
Qed.

(** Success means the text matches. *)
Theorem C20_sound_partial : forall r cf text source log rest, text_setup r cf text source ->
  scan_text r cf text source = Ok (log, rest) -> log = [] /\ matches (s_enc r) text source rest.
Proof.
  intros r cf text source log rest HS E. assert (HA := text_agrees _ _ _ _ HS). rewrite E in HA.
  unfold agrees, scan_spec in HA. rewrite text_same_fail in HA.
  destruct (run unit (s_enc r) 0 (meant (s_enc r) (read_arg unit [])) false (fun _ y => y) (map Lit text) 0 [] false source []) as [x|y| |] eqn:ER;
    try discriminate; [|destruct HA as [HA|(_ & y' & _ & HA)]; discriminate].
  injection HA as <-. apply lits_matches in ER; [|discriminate]. destruct ER as (rest' & Ex & HM). injection Ex as <- <-. auto.
Qed.
Print Assumptions C20_sound_partial.
(** Matching text is scanned, if the source is not exhausted. *)
Theorem C20_complete_partial : forall r cf text source rest, text_setup r cf text source ->
  rest <> [] -> matches (s_enc r) text source rest -> scan_text r cf text source = Ok ([], rest).
Proof.
  intros r cf text source rest HS Hne HM. assert (HA := text_agrees _ _ _ _ HS).
  eapply matches_lits with (V := unit) (read := meant (s_enc r) (read_arg unit [])) (ws := false) (log := []) in HM; [|discriminate].
  apply doc_run with (fail := fun _ y => y) in HM; auto; [|intros i d s v s'; unfold meant, read_arg; destruct (Z.to_nat i); discriminate|apply HS].
  unfold scan_spec in HA. rewrite text_same_fail, HM in HA. exact HA.
Qed.
Print Assumptions C20_complete_partial.
(** Anything else is invalid_literal. *)
Theorem C20_error_partial : forall r cf text source, text_setup r cf text source ->
  (exists rest, scan_text r cf text source = Ok ([], rest))
  \/ scan_text r cf text source = Err InvalidLiteral.
Proof.
  intros r cf text source HS. assert (HA := text_agrees _ _ _ _ HS).
  destruct (scan_text r cf text source) as [[log rest]|x| |] eqn:E.
  - destruct (C20_sound_partial _ _ _ _ _ _ HS E) as [-> _]. eauto.
  - right. unfold agrees in HA. destruct (scan_spec _ _ _ _ _ _ _ _) as [y|y| |] eqn:ES; try discriminate.
    destruct HA as [HA|(_ & z & [<-|[]] & HA)]; [|exact HA]. injection HA as ->.
    unfold scan_spec in ES. rewrite text_same_fail in ES.
    destruct (lits_result unit (s_enc r) (meant (s_enc r) (read_arg unit [])) text false false source []) as [[x E1]|E1]; rewrite E1 in ES; congruence.
  - exfalso. unfold agrees, scan_spec in HA. rewrite text_same_fail in HA.
    destruct (lits_result unit (s_enc r) (meant (s_enc r) (read_arg unit [])) text false false source []) as [[x E1]|E1]; rewrite E1 in HA; [discriminate|].
    destruct HA as [HA|(_ & z & _ & HA)]; discriminate.
  - exfalso. unfold agrees, scan_spec in HA. rewrite text_same_fail in HA.
    destruct (lits_result unit (s_enc r) (meant (s_enc r) (read_arg unit [])) text false false source []) as [[x E1]|E1]; rewrite E1 in HA; [discriminate|].
    destruct HA as [HA|(_ & z & _ & HA)]; discriminate.
Qed.
Print Assumptions C20_error_partial.
Example C20_ex :
  text_setup string_src narrow (T "a  {b}") (T "a" ++ [9; 0xe2; 0x80; 0xa8; 10] ++ T "{b}c")
  /\ scan_text string_src narrow (T "a  {b}") (T "a" ++ [9; 0xe2; 0x80; 0xa8; 10] ++ T "{b}c") = Ok ([], T "c")
  /\ scan_text string_src narrow (T "a  {b}") (T "a{x}c") = Err InvalidLiteral
  /\ text_setup wide_src wide [0x20ac; 0x2028; 97] [0x20ac; 97; 98]
  /\ scan_text wide_src wide [0x20ac; 0x2028; 97] [0x20ac; 97; 98] = Ok ([], [98]).
Proof.
  split; [|split; [vm_compute; reflexivity|split; [vm_compute; reflexivity|split; [|vm_compute; reflexivity]]]].
  - split; [right; auto|]. split; [reflexivity|]. split; vm_compute; repeat constructor; discriminate.
  - split; [left; auto|]. split; [reflexivity|]. split; [|exact I]. cbn. unfold scalar. repeat constructor; lia.
Qed.
(** Whitespace in the format string fails at the end of the source. *)
Theorem C20_eof_refuted : exists text source,
  text_setup string_src narrow text source /\ matches U8 text source []
  /\ scan_text string_src narrow text source = Err InvalidLiteral.
Proof.
  exists (T "a "), (T "a"). split; [|split; [|vm_compute; reflexivity]].
  - split; [right; auto|]. split; [reflexivity|]. split; vm_compute; repeat constructor; discriminate.
  - apply m_char; [reflexivity|]. apply m_space; [reflexivity|]. apply m_nil.
Qed.
Print Assumptions C20_eof_refuted.
(** A literal outside ASCII in a narrow format string does not even match itself. *)
Theorem C20_nonascii_refuted : exists cp, scalar cp /\ is_ws cp = false /\
  vscan unit string_src narrow [] (utf8_of cp) (utf8_of cp ++ T "a") = Err InvalidFormatString.
Proof. exists 0xe9. split; [unfold scalar; lia|]. split; vm_compute; reflexivity. Qed.
Print Assumptions C20_nonascii_refuted.

(** ** C21 *)
Theorem C21_suffix : forall V r cf args format source log rest,
  (List.length args < 64)%nat -> Forall (arg_ok V r cf) args ->
  Forall (fun a => forall s, ar_plain a s = ar_default a s) args ->
  units (s_enc r) format -> units (s_enc r) source ->
  vscan V r cf args format source = Ok (log, rest) ->
  exists consumed, source = consumed ++ rest.
Proof.
  intros V r cf args format source log rest H1 H2 HP H3 H4 E. rewrite vscan_shortcut in E by exact HP.
  destruct (vscan_general_total V r cf args H1 H2 format source H3 H4) as [(l & s & E' & Hs & _)|[x E']];
    rewrite E' in E; [|discriminate]. injection E as _ <-. exact Hs.
Qed.
Print Assumptions C21_suffix.
Example C21_ex : Forall (arg_ok Z string_src narrow) [int_arg; int_arg]
  /\ vscan Z string_src narrow [int_arg; int_arg] (T "{}{1}") (T "12 -3x") = Ok ([(0, 12); (1, -3)], T "x").
Proof. split; [apply Forall_forall; intros a [<-|[<-|[]]]; apply int_arg_ok|vm_compute; reflexivity]. Qed.
(** Scanning in two steps: a format string followed by another one does to the source what
    the two do one after the other.  Automatic numbering. *)
Definition automatic {D} (ts : list (gtoken D)) : Prop := forall id d, In (Field id d) ts -> id = None.
Definition shift {V} (k : Z) (log : list (Z * V)) : list (Z * V) := map (fun p => (k + fst p, snd p)) log.
Section TwoSteps.
Variable V : Type.
Variable e : enc.
Variable n1 n2 : Z.
Context {D : Type}.
Variable read1 read2 readc : Z -> option D -> list Z -> outcome (V * list Z).
Variable f1 f2 fc : list Z -> err -> err.
Hypothesis Hn1 : 0 <= n1.
Hypothesis Hn2 : 0 <= n2.
Hypothesis H1 : forall i d s, 0 <= i < n1 -> readc i d s = read1 i d s.
Hypothesis H2 : forall i d s, 0 <= i < n2 -> readc (n1 + i) d s = read2 i d s.

Lemma covers_true n used : covers n used = true <-> forall i, 0 <= i < n -> In i used.
Proof.
  unfold covers. rewrite forallb_forall. split; intros H i Hi.
  - apply existsb_In, H, in_zseq. lia.
  - apply existsb_In, H. apply in_zseq in Hi. lia.
Qed.

Lemma run_first (ts1 ts2 : list (gtoken D)) : automatic ts1 -> forall next used ws s log log1 s1,
  0 <= next <= n1 -> (forall i, In i used <-> 0 <= i < next) -> (ws = true -> drop_space e s = s) ->
  run V e n1 read1 false f1 ts1 next used ws s log = Ok (log1, s1) ->
  exists ws1 used1, (ws1 = true -> drop_space e s1 = s1) /\ (forall i, In i used1 <-> 0 <= i < n1)
   /\ run V e (n1 + n2) readc false fc (ts1 ++ ts2) next used ws s log
      = run V e (n1 + n2) readc false fc ts2 n1 used1 ws1 s1 log1.
Proof.
  induction ts1 as [|[c|id d] ts IH]; intros Ha next used ws s log log1 s1 Hn Hu Hws; cbn [run app].
  - destruct (covers n1 used) eqn:EC; [|discriminate]. intros E. injection E as <- <-.
    assert (next = n1). { destruct (Z.eq_dec next n1); [assumption|]. exfalso. rewrite covers_true in EC.
      assert (HX := EC next ltac:(lia)). apply Hu in HX. lia. }
    subst next. exists ws, used. auto.
  - assert (Ha' : automatic ts) by (intros i x Hin; apply (Ha i x); right; exact Hin).
    destruct (is_ws c).
    + destruct ws; [apply IH; auto|]. destruct s as [|y s]; [discriminate|]. apply IH; auto. intros _. apply drop_space_idem.
    + destruct s as [|y s]; [discriminate|]. destruct (y =? c); [|discriminate]. apply IH; auto. discriminate.
  - assert (Ha' : automatic ts) by (intros i x Hin; apply (Ha i x); right; exact Hin).
    rewrite (Ha id d) by (left; reflexivity).
    destruct ((n1 <=? next) || existsb (Z.eqb next) used) eqn:EC; [discriminate|].
    apply orb_false_iff in EC. destruct EC as [EC1 EC2]. rewrite EC2.
    replace (n1 + n2 <=? next) with false by lia. cbn [orb]. rewrite H1 by lia.
    destruct (read1 next d s) as [[v s']|x| |]; try discriminate.
    apply IH; auto; [lia| |discriminate]. intros i. cbn. rewrite Hu. lia.
Qed.

Lemma run_second ts2 base log1 : automatic ts2 -> (forall i, In i base <-> 0 <= i < n1) ->
  forall next used ws ws' s log log2 s2, 0 <= next ->
  ws' = ws \/ (ws = false /\ ws' = true /\ drop_space e s = s) -> (ws = true -> drop_space e s = s) ->
  run V e n2 read2 false f2 ts2 next used ws s log = Ok (log2, s2) ->
  run V e (n1 + n2) readc false fc ts2 (n1 + next) (map (Z.add n1) used ++ base) ws' s (log1 ++ shift n1 log)
  = Ok (log1 ++ shift n1 log2, s2).
Proof.
  intros Ha Hb. induction ts2 as [|[c|id d] ts IH]; intros next used ws ws' s log log2 s2 Hn Hw Hws; cbn [run].
  - destruct (covers n2 used) eqn:EC; [|discriminate]. intros E. injection E as <- <-.
    replace (covers (n1 + n2) (map (Z.add n1) used ++ base)) with true; [reflexivity|]. symmetry.
    rewrite covers_true in *. intros i Hi. apply in_or_app. destruct (Z_lt_le_dec i n1); [right; apply Hb; lia|left].
    apply in_map_iff. exists (i - n1). split; [lia|]. apply EC. lia.
  - assert (Ha' : automatic ts) by (intros i x Hin; apply (Ha i x); right; exact Hin). specialize (IH Ha').
    destruct (is_ws c).
    + destruct ws.
      * destruct Hw as [-> |[? _]]; [|discriminate]. intros E. eapply IH; [exact Hn|left; reflexivity|exact Hws|exact E].
      * destruct s as [|y s]; [discriminate|]. destruct Hw as [-> |(_ & -> & Hd)]; intros E.
        -- eapply IH; [exact Hn|left; reflexivity|intros _; apply drop_space_idem|exact E].
        -- rewrite Hd in E. eapply IH; [exact Hn|left; reflexivity|intros _; exact Hd|exact E].
    + destruct s as [|y s]; [discriminate|]. destruct (y =? c); [|discriminate]. intros E.
      eapply IH; [exact Hn|left; reflexivity|discriminate|exact E].
  - assert (Ha' : automatic ts) by (intros i x Hin; apply (Ha i x); right; exact Hin). specialize (IH Ha').
    rewrite (Ha id d) by (left; reflexivity).
    destruct ((n2 <=? next) || existsb (Z.eqb next) used) eqn:EC; [discriminate|].
    apply orb_false_iff in EC. destruct EC as [EC1 EC2].
    replace ((n1 + n2 <=? n1 + next) || existsb (Z.eqb (n1 + next)) (map (Z.add n1) used ++ base)) with false.
    2:{ symmetry. apply orb_false_iff. split; [lia|]. apply not_true_iff_false. intros HX. apply existsb_In in HX.
        apply in_app_or in HX. destruct HX as [HX|HX].
        - apply in_map_iff in HX. destruct HX as (j & Ej & Hj). assert (j = next) by lia. subst j.
          apply existsb_In in Hj. congruence.
        - apply Hb in HX. lia. }
    rewrite H2 by lia. destruct (read2 next d s) as [[v s']|x| |]; try discriminate.
    intros E. replace (n1 + next + 1) with (n1 + (next + 1)) by lia.
    change (n1 + next :: map (Z.add n1) used ++ base) with (map (Z.add n1) (next :: used) ++ base).
    replace ((log1 ++ shift n1 log) ++ [(n1 + next, v)]) with (log1 ++ shift n1 (log ++ [(next, v)]))
      by (unfold shift; rewrite map_app, app_assoc; reflexivity).
    eapply IH; [lia|left; reflexivity|discriminate|exact E].
Qed.
End TwoSteps.

Theorem C21_two_steps_partial : forall V r cf args1 args2 ts1 ts2 source log1 rest1 log2 rest2,
  automatic ts1 -> automatic ts2 ->
  setup r cf args1 ts1 source -> setup r cf args2 ts2 rest1 -> setup r cf (args1 ++ args2) (ts1 ++ ts2) source ->
  vscan V r cf args1 (render (s_enc r) ts1) source = Ok (log1, rest1) ->
  vscan V r cf args2 (render (s_enc r) ts2) rest1 = Ok (log2, rest2) ->
  vscan V r cf (args1 ++ args2) (render (s_enc r) ts1 ++ render (s_enc r) ts2) source
  = Ok (log1 ++ shift (Z.of_nat (List.length args1)) log2, rest2).
Proof.
  intros V r cf args1 args2 ts1 ts2 source log1 rest1 log2 rest2 A1 A2 S1 S2 S3 E1 E2.
  replace (render (s_enc r) ts1 ++ render (s_enc r) ts2) with (render (s_enc r) (ts1 ++ ts2))
    by apply flat_map_app.
  apply C18_tokens_partial in E1; [|exact S1]. apply C18_tokens_partial in E2; [|exact S2].
  apply C18_tokens_partial; [exact S3|]. unfold expected, scan_spec in *. rewrite app_length, Nat2Z.inj_add.
  set (n1 := Z.of_nat (List.length args1)) in *. set (n2 := Z.of_nat (List.length args2)) in *.
  assert (R1 : forall i d s, 0 <= i < n1 -> meant (s_enc r) (read_arg V (args1 ++ args2)) i d s = meant (s_enc r) (read_arg V args1) i d s).
  { intros i d s Hi. unfold meant, read_arg. rewrite nth_error_app1 by lia. reflexivity. }
  assert (R2 : forall i d s, 0 <= i < n2 -> meant (s_enc r) (read_arg V (args1 ++ args2)) (n1 + i) d s = meant (s_enc r) (read_arg V args2) i d s).
  { intros i d s Hi. unfold meant, read_arg. rewrite nth_error_app2 by lia.
    replace (Z.to_nat (n1 + i) - List.length args1)%nat with (Z.to_nat i) by lia. reflexivity. }
  destruct (run_first V (s_enc r) n1 n2 (meant (s_enc r) (read_arg V args1)) (meant (s_enc r) (read_arg V args2)) (meant (s_enc r) (read_arg V (args1 ++ args2)))
    (code_fail V args1) (code_fail V args2) (code_fail V (args1 ++ args2)) ltac:(lia) R1 R2 ts1 ts2 A1 0 [] false source [] log1 rest1)
    as (ws1 & used1 & Hws & Hused & ->); [lia|intros i; cbn; lia|discriminate|exact E1|].
  assert (HX := run_second V (s_enc r) n1 n2 (meant (s_enc r) (read_arg V args1)) (meant (s_enc r) (read_arg V args2)) (meant (s_enc r) (read_arg V (args1 ++ args2)))
    (code_fail V args1) (code_fail V args2) (code_fail V (args1 ++ args2)) R1 R2 ts2 used1 log1 A2 Hused 0 [] false ws1 rest1 [] log2 rest2).
  cbn [map app shift] in HX. rewrite Z.add_0_r, app_nil_r in HX. apply HX; auto; [lia| |discriminate].
  destruct ws1; [right; auto|left; reflexivity].
Qed.
Print Assumptions C21_two_steps_partial.
Example C21_two_steps_ex :
  vscan_ints 1 (T "{},") (T "1,  2;x") = Ok ([(0, 1)], T "  2;x")
  /\ vscan_ints 1 (T "{};") (T "  2;x") = Ok ([(0, 2)], T "x")
  /\ vscan_ints 2 (T "{},{};") (T "1,  2;x") = Ok ([(0, 1); (1, 2)], T "x").
Proof. vm_compute. repeat split. Qed.

(** ** C22 *)
Theorem C22_same_partial : forall V r cf (a : arg V) source,
  (forall s, ar_plain a s = ar_default a s) ->
  vscan_value V a source = vscan V r cf [a] (T "{}") source
  /\ vscan V r cf [a] (T "{}") source = vscan_parse_format_string V r cf [a] (T "{}") source.
Proof.
  intros V r cf a source H. split; [reflexivity|]. apply vscan_shortcut. constructor; [exact H|constructor].
Qed.
Print Assumptions C22_same_partial.
Example C22_ex : (forall s, ar_plain int_arg s = ar_default int_arg s)
  /\ vscan_value Z int_arg (T " 12 3") = Ok ([(0, 12)], T " 3").
Proof. split; [reflexivity|vm_compute; reflexivity]. Qed.
(** A user-defined scanner for which the locale matters sees the default locale only. *)
Theorem C22_locale_refuted : exists a : arg Z, exists source,
  vscan Z string_src narrow [a] (T "{}") source
  <> vscan_parse_format_string Z string_src narrow [a] (T "{}") source.
Proof.
  exists (Arg Z CustomType (fun s => Ok (1, s)) (fun s => Ok (0, s)) (fun _ s => Ok (0, s)) (fun f s => (f, Ok (0, s)))), [].
  vm_compute. discriminate.
Qed.
Print Assumptions C22_locale_refuted.

(** ** C40 and C44 *)

(** The error of the first token that fails, by the documentation. *)
Definition first_error {V} (r : src) (args : list (arg V)) (ts : list token) (source : list Z) :=
  scan_spec V (s_enc r) (Z.of_nat (List.length args)) (meant (s_enc r) (read_arg V args)) false (fun _ x => x) ts source.

(** A format string accepted at compile time gives invalid_format_string at run time only
    in place of the error of a literal or of a reader. *)
Theorem C40_partial : forall V r cf args contiguous borrowed custom_parse ts source,
  setup r cf args ts source ->
  wf_tokens (s_enc r) (CheckerProofs.type_ok cf (map ar_type args)) ts 0 ->
  check_format_string cf contiguous borrowed (map ar_type args) custom_parse (render (s_enc r) ts) = Ok tt ->
  vscan V r cf args (render (s_enc r) ts) source = Err InvalidFormatString ->
  first_error r args ts source = Err InvalidLiteral
  \/ exists i d s x, read_arg V args i d s = Err x.
Proof.
  intros V r cf args contiguous borrowed custom_parse ts source HS Hwf HC E.
  assert (HA := setup_agrees V r cf args ts source HS). rewrite E in HA.
  assert (HI : index_ok (Z.of_nat (List.length args)) ts 0 [] = true).
  { destruct HS as (_ & Hg & Hcf & _ & _ & Hun & _).
    rewrite <- (map_length ar_type). rewrite <- Hcf in HC, Hwf.
    eapply checker_index; [|exact Hun|exact Hwf|exact HC].
    rewrite Hcf. destruct Hg as [-> |[-> _]]; discriminate. }
  unfold agrees, expected in HA. unfold first_error.
  destruct (scan_spec V (s_enc r) (Z.of_nat (List.length args)) (meant (s_enc r) (read_arg V args)) false (code_fail V args) ts source) as [x|x| |] eqn:ES;
    try discriminate.
  destruct HA as [HA|(-> & _)].
  - injection HA as <-. right. unfold scan_spec in ES. apply index_run in ES; [|exact HI].
    destruct ES as (i & d & s & u & x & ER & _). unfold meant in ER. eauto.
  - assert (HR := run_fail_rel V (s_enc r) (Z.of_nat (List.length args)) (meant (s_enc r) (read_arg V args)) (code_fail V args) ts false 0 [] false source []).
    cbv zeta in HR. unfold scan_spec in *. rewrite ES in HR.
    destruct (run V (s_enc r) (Z.of_nat (List.length args)) (meant (s_enc r) (read_arg V args)) false (fun _ x => x) ts 0 [] false source []) as [y|y| |]; try discriminate.
    destruct HR as [HR|[u HR]]; injection HR as HR; [left; congruence|].
    left. unfold code_fail in HR. destruct (covers _ u); congruence.
Qed.
Print Assumptions C40_partial.
Example C40_ex :
  setup string_src narrow (repeat int_arg 2) ex_tokens (T "1 {2")
  /\ wf_tokens U8 (CheckerProofs.type_ok narrow [IntType; IntType]) ex_tokens 0
  /\ check_format_string narrow true true [IntType; IntType] (fun _ s => Ok s) (render U8 ex_tokens) = Ok tt
  /\ vscan_ints 2 (render U8 ex_tokens) (T "1 {2") = Ok ([(1, 1); (0, 2)], [])
  /\ vscan_ints 2 (render U8 ex_tokens) (T "1 x") = Err InvalidFormatString
  /\ @first_error Z string_src (repeat int_arg 2) ex_tokens (T "1 x") = Err InvalidLiteral.
Proof.
  split; [|split; [|vm_compute; auto]].
  - apply ints_setup; [lia| | |].
    + right. intros id d H. repeat destruct H as [H|H]; try discriminate; try contradiction; injection H as <- _; discriminate.
    + cbn [wf_gtokens ex_tokens]. unfold wf_id, numeral.
      repeat match goal with
      | |- _ /\ _ => split
      | |- forall d', Some _ = Some d' -> _ =>
          intros d' E; injection E as <-; intros a Ha; injection Ha as <-; split; [reflexivity|wf_desc_tac]
      end; try (left; reflexivity); try (right; discriminate); try discriminate; try (cbn; lia);
      try exact I; try (apply Forall_forall; intros c Hc; repeat destruct Hc as [<-|Hc]; [..|destruct Hc]; cbn; lia).
    + vm_compute. repeat constructor; discriminate.
  - cbn [wf_gtokens ex_tokens]. unfold wf_id, numeral.
    repeat match goal with
    | |- _ /\ _ => split
    | |- forall d', Some _ = Some d' -> _ =>
        intros d' E; injection E as <-; intros a Ha; injection Ha as <-; split; [reflexivity|wf_desc_tac]
    end; try (left; reflexivity); try (right; discriminate); try discriminate; try (cbn; lia);
    try exact I; try (apply Forall_forall; intros c Hc; repeat destruct Hc as [<-|Hc]; [..|destruct Hc]; cbn; lia).
Qed.
(** "{} {}" is accepted, and gives invalid_format_string on "a". *)
Theorem C40_masked_refuted : exists format source,
  check_format_string narrow true true [IntType; IntType] (fun _ s => Ok s) format = Ok tt
  /\ vscan_ints 2 format source = Err InvalidFormatString.
Proof. exists (T "{} {}"), (T "a"). split; vm_compute; reflexivity. Qed.
Print Assumptions C40_masked_refuted.
(** So is a literal outside ASCII. *)
Theorem C40_literal_refuted : exists format source,
  check_format_string narrow true true [] (fun _ s => Ok s) format = Ok tt
  /\ vscan unit string_src narrow [] format source = Err InvalidFormatString.
Proof. exists [0xc3; 0xa9], [0xc3; 0xa9]. split; vm_compute; reflexivity. Qed.
Print Assumptions C40_literal_refuted.

(** The error reported is that of the first failing token, or invalid_format_string. *)
Theorem C44_first_error_partial : forall V r cf args ts source x, setup r cf args ts source ->
  @first_error V r args ts source = Err x ->
  vscan V r cf args (render (s_enc r) ts) source = Err x
  \/ vscan V r cf args (render (s_enc r) ts) source = Err InvalidFormatString.
Proof.
  intros V r cf args ts source x HS E. assert (HA := setup_agrees V r cf args ts source HS).
  assert (HR := run_fail_rel V (s_enc r) (Z.of_nat (List.length args)) (meant (s_enc r) (read_arg V args)) (code_fail V args) ts false 0 [] false source []).
  cbv zeta in HR. unfold first_error, scan_spec in E. rewrite E in HR. unfold agrees, expected, scan_spec in HA.
  destruct HR as [HR|[u HR]]; rewrite HR in HA.
  - destruct HA as [HA|(-> & y & [<-|[<-|[]]] & HA)]; auto.
  - unfold code_fail in HA. destruct (covers _ u).
    + destruct HA as [HA|(-> & y & [<-|[<-|[]]] & HA)]; auto.
    + destruct HA as [HA|(Hx & y & [<-|[<-|[]]] & HA)]; auto. discriminate.
Qed.
Print Assumptions C44_first_error_partial.
(** With a single argument the error of the reader is never lost. *)
Theorem C44_single_partial : forall V r cf a source x d,
  setup r cf [a] [Field None d] source ->
  read_arg V [a] 0 (option_map (mean (s_enc r)) d) source = Err x -> x <> InvalidLiteral ->
  vscan V r cf [a] (render (s_enc r) [Field None d]) source = Err x.
Proof.
  intros V r cf a source x d HS E Hx. assert (HA := setup_agrees V r cf [a] _ source HS).
  unfold expected, scan_spec in HA. cbn [run List.length] in HA. change (Z.of_nat 1 <=? 0) with false in HA.
  cbn [orb existsb] in HA. unfold meant in HA. rewrite E in HA.
  assert (EF : code_fail V [a] [0] x = x) by reflexivity. unfold agrees in HA.
  destruct HA as [HA|(HA & _)]; [exact HA|contradiction].
Qed.
Print Assumptions C44_single_partial.
Theorem C44_masked_refuted : exists args ts source x,
  setup string_src narrow args ts source
  /\ @first_error Z string_src args ts source = Err x /\ x <> InvalidFormatString
  /\ vscan Z string_src narrow args (render U8 ts) source = Err InvalidFormatString.
Proof.
  exists (repeat int_arg 2), [Field None None; Lit 32; Field None None], (T "a"), InvalidScannedValue.
  split; [|split; [vm_compute; reflexivity|split; [discriminate|vm_compute; reflexivity]]].
  apply ints_setup; [lia|left; intros id d H; repeat destruct H as [H|H]; try discriminate; try contradiction; injection H as <- _; reflexivity| |].
  - cbn. repeat split; try discriminate; lia.
  - vm_compute. repeat constructor; discriminate.
Qed.
Print Assumptions C44_masked_refuted.
Example C44_ex : vscan_ints 2 (T "{} {}") (T "1 x") = Err InvalidScannedValue
  /\ vscan_ints 2 (T "{} {}") (T "1 99999999999") = Err ValuePositiveOverflow
  /\ vscan_ints 1 (T "{}") (T "x") = Err InvalidScannedValue.
Proof. vm_compute. repeat split. Qed.
