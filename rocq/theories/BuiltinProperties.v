(** Property C49 with floating-point arguments. *)
From Coq Require Import String.
From Verif Require Import Prelude UnicodeModel ReadModel ReadProofs SpecsModel FormatModel IntModel ArgsModel
  VscanModel VscanProofs VscanProperties ArgReaderModel StringModel StringSafeProofs ScalarModel ScalarProperties.
From Verif Require Import FormatProofs FloatModel FloatSpec FloatProofs FloatTotal FloatInstance FloatProperties FloatLocaleProperties.
Import Coq.Strings.String.StringSyntax.
Local Open Scope string_scope.
Local Open Scope list_scope.
Local Open Scope Z_scope.

Section Builtin.
(** float, double and long double *)
Context {Vf Vd Vl : Type} (Ff : fp Vf) (Fd : fp Vd) (Fl : fp Vl).

Inductive any_builtin : Type := ASimple (b : builtin) | AFloat | ADouble | ALongDouble.
Inductive any_value : Type := VSimple (v : bvalue) | VFloat (v : Vf) | VDouble (v : Vd) | VLongDouble (v : Vl).

Definition relabel {A} (f : A -> any_value) (x : outcome (A * list Z)) : outcome (any_value * list Z) :=
  '(v, rest) <- x ;; Ok (f v, rest).
Definition float_arg {A} (F : fp A) (t : arg_type) (f : A -> any_value) (loc : fseps) (r : src) : arg any_value :=
  let d := fun s => relabel f (float_default F r s) in
  Arg any_value t d d (fun sp s => relabel f (arg_read_checked r (float_reader F loc) sp s))
    (fun fmt s => (fmt, Err InvalidFormatString)).
(** [loc]: separators of the locale *)
Definition any_arg (rx : regex_engine) (names : list Z * list Z) (sep : Z) (loc : fseps) (r : src) (b : any_builtin)
  : arg any_value :=
  match b with
  | ASimple b =>
      let a := builtin_arg rx names sep r b in
      Arg any_value (ar_type a) (fun s => relabel VSimple (ar_default a s)) (fun s => relabel VSimple (ar_default a s))
        (fun sp s => relabel VSimple (ar_specs a sp s)) (fun fmt s => (fmt, Err InvalidFormatString))
  | AFloat => float_arg Ff FloatType VFloat loc r
  | ADouble => float_arg Fd DoubleType VDouble loc r
  | ALongDouble => float_arg Fl LDoubleType VLongDouble loc r
  end.
Definition any_supported (e : enc) (b : any_builtin) : Prop :=
  match b with ASimple b => supported e b | _ => True end.

Lemma relabel_ok {A} r (f : A -> any_value) g : reader_ok A r g -> reader_ok any_value r (fun s => relabel f (g s)).
Proof.
  intros H s Hu. destruct (H s Hu) as [(v & s' & E & Hs)|[e E]]; unfold relabel; rewrite E; cbn [bind]; [left|right]; eauto.
Qed.
Lemma refuse_ok r fmt s : units (s_enc r) s ->
  suffix (fst ((fun f s : list Z => (f, @Err (any_value * list Z) InvalidFormatString)) fmt s)) fmt
  /\ ((exists v s', snd ((fun f s : list Z => (f, @Err (any_value * list Z) InvalidFormatString)) fmt s) = Ok (v, s') /\ suffix s' s)
      \/ exists e, snd ((fun f s : list Z => (f, @Err (any_value * list Z) InvalidFormatString)) fmt s) = Err e).
Proof. intros _. split; [apply suffix_refl|right; eexists; reflexivity]. Qed.

Lemma float_arg_ok {A} (F : fp A) (M : meaning A) t f loc r cf : converts F M -> c_enc cf = s_enc r -> s_enc r <> U16 ->
  no_regex t -> arg_ok any_value r cf (float_arg F t f loc r).
Proof.
  intros C Hcf He Ht. split; [|split; [|split; [apply refuse_ok|exact Ht]]]; cbn [float_arg ar_default ar_specs ar_type].
  - apply relabel_ok, (float_default_ok F M C).
  - intros fmt fmt' sp HF. apply relabel_ok. eapply checked_ok; [exact Hcf|exact He|exact HF|].
    cbn [float_reader rd_check rd_specs]. intros Hc r' _. apply (float_specs_ok F M C). exact Hc.
Qed.

Theorem C49_floats_partial Mf Md Ml rx names sep loc r cf bs format source :
  converts Ff Mf -> converts Fd Md -> converts Fl Ml ->
  c_enc cf = s_enc r -> s_enc r <> U16 -> engine_ok rx ->
  (List.length bs < 64)%nat -> Forall (any_supported (s_enc r)) bs ->
  units (s_enc r) format -> units (s_enc r) source ->
  (exists log rest, vscan_parse_format_string any_value r cf (map (any_arg rx names sep loc r) bs) format source = Ok (log, rest)
     /\ suffix rest source)
  \/ exists e, vscan_parse_format_string any_value r cf (map (any_arg rx names sep loc r) bs) format source = Err e.
Proof.
  intros Cf Cd Cl Hcf He Hrx Hl Hb Hf Hs. apply C17_run_time_total_partial; try assumption.
  - rewrite map_length. exact Hl.
  - rewrite Forall_map. eapply Forall_impl; [|exact Hb]. intros b Hsb. destruct b as [b| | |].
    + destruct (builtin_ok rx names sep r cf b Hcf He Hrx Hsb) as (H1 & H2 & _ & H4).
      split; [|split; [|split; [apply refuse_ok|exact H4]]]; cbn [any_arg ar_default ar_specs ar_type].
      * apply relabel_ok, H1.
      * intros fmt fmt' sp HF. apply relabel_ok. eapply H2, HF.
    + apply (float_arg_ok Ff Mf); auto. split; discriminate.
    + apply (float_arg_ok Fd Md); auto. split; discriminate.
    + apply (float_arg_ok Fl Ml); auto. split; discriminate.
Qed.
End Builtin.
Print Assumptions C49_floats_partial.
Arguments any_value : clear implicits.
(** An int, a double, a long double and a float *)
Example C49_floats_ex :
  let bs := [ASimple (BInt i32 IntType); ADouble; ALongDouble; AFloat] in
  let run := fun s => vscan_parse_format_string _ string_src narrow
       (map (any_arg (exact_fp false) (exact_fp false) (exact_fp true) no_rx ([], []) 0 english string_src) bs)
       (T "{}:{:*>6e};{:a}{:Lf}") s in
  Forall (any_supported U8) bs
  /\ run (T "42:**12e1; -0x1.8 1,0.5")
     = Ok ([(0, VSimple (VInteger 42)); (1, VDouble (Fraction false 120 1)); (2, VLongDouble (Fraction true 24 16));
            (3, VFloat (Fraction false 105 10))], [])
  /\ run (T "42:**12e1; 0x1 x") = Err InvalidScannedValue.
Proof.
  cbv zeta. split; [|vm_compute; auto].
  repeat (apply Forall_cons); try apply Forall_nil; cbn; unfold IntProofs.type_ok; cbn; auto 10.
Qed.
