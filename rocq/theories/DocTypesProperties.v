(** Property C67: the format strings accepted at compile time, and those that can be scanned
    with, are the documented ones. *)
From Coq Require Import String.
From Verif Require Import Prelude UnicodeModel UnicodeSpec ReadModel ReadProofs ArgReaderModel FloatModel SpecsModel ArgsModel FormatModel FormatSpec FormatSpecProofs
  VscanModel VscanSpec IntModel ScalarModel StringModel RangesModel LocaleModel VscanProofs VscanSpecProofs StringSafeProofs
  FloatSpec FloatProofs FloatInstance EncodingReadProofs VscanProperties ScalarProperties LocaleProperties DocTypesSpec DocTypesProofs DocTypesRun IntProofs.
Import Coq.Strings.String.StringSyntax.
Local Open Scope list_scope.
Local Open Scope Z_scope.

(** * At compile time *)
(** A format string of the grammar, for arguments of built-in types, is accepted exactly if
    its numbering is right and every field has a format-spec listed for the type of its
    argument, other than 'c' of integers and characters and "Lb" of integers, or an integer
    format for a code point; views and regular expressions need a source to refer to. *)
Theorem C67_partial : forall cf contiguous borrowed types custom_parse ts,
  c_enc cf <> U16 -> Forall (fun t => class_of t <> None) types -> wf_tok cf types ts 0 ->
  check_format_string cf contiguous borrowed types custom_parse (render (c_enc cf) ts) = Ok tt
  <-> uniform ts /\ index_ok (Z.of_nat (List.length types)) ts 0 [] = true
      /\ each_field types (accepted_field contiguous borrowed) ts 0 = true.
Proof. intros cf contiguous borrowed types custom_parse ts He Hb Hw. apply checker_iff; try assumption. lia. Qed.
Print Assumptions C67_partial.
(** Otherwise it is an invalid format string. *)
Theorem C67_error_partial : forall cf contiguous borrowed types custom_parse ts,
  c_enc cf <> U16 -> Forall (fun t => class_of t <> None) types -> wf_tok cf types ts 0 ->
  check_format_string cf contiguous borrowed types custom_parse (render (c_enc cf) ts) <> Ok tt ->
  check_format_string cf contiguous borrowed types custom_parse (render (c_enc cf) ts) = Err InvalidFormatString.
Proof.
  intros cf contiguous borrowed types custom_parse ts He Hb Hw HN. apply checker_err; try assumption; [lia|].
  intros HX. apply HN. apply C67_partial; assumption.
Qed.
Print Assumptions C67_error_partial.

Lemma each_field_impl types (P Q : arg_type -> option desc -> bool) ts : (forall id d t, In (Field id d) ts -> P t d = true -> Q t d = true) ->
  forall next, each_field types P ts next = true -> each_field types Q ts next = true.
Proof.
  induction ts as [|[c|id d] ts IH]; intros HI next; cbn [each_field]; [reflexivity|apply IH; intros id d t H; apply (HI id d t); right; exact H|].
  destruct (nth_error types _) as [t|]; [|discriminate]. intros E. apply andb_true_iff in E. destruct E as [E1 E2]. apply andb_true_iff. split.
  - apply (HI id d t); [left; reflexivity|exact E1].
  - apply IH; [|exact E2]. intros id' d' t' H. apply (HI id' d' t'). right. exact H.
Qed.
(** So documented format strings are accepted, if no field has the letter 'c' and no format-spec
    is localized ... *)
Theorem C67_complete_partial : forall cf contiguous borrowed types custom_parse ts,
  c_enc cf <> U16 -> Forall (fun t => class_of t <> None) types -> wf_tok cf types ts 0 ->
  (forall id d, In (Field id d) ts -> letter_of d <> Some 99 /\ is_local d = false) ->
  uniform ts -> index_ok (Z.of_nat (List.length types)) ts 0 [] = true ->
  each_field types (documented_field contiguous borrowed) ts 0 = true ->
  check_format_string cf contiguous borrowed types custom_parse (render (c_enc cf) ts) = Ok tt.
Proof.
  intros cf contiguous borrowed types custom_parse ts He Hb Hw HL HU HI HD. apply C67_partial; try assumption.
  split; [exact HU|]. split; [exact HI|]. revert HD. apply each_field_impl. intros id d t HF. destruct (HL id d HF) as [H1 H2].
  unfold documented_field, accepted_field. destruct (class_of t) as [k|]; [|discriminate]. intros E.
  apply andb_true_iff in E. destruct E as [-> ->]. unfold rejected. rewrite H2.
  assert (HC : forall c, letter_of d = Some c -> (c =? 99) = false) by (intros c EL; apply Z.eqb_neq; congruence).
  destruct k, (letter_of d) as [c|]; try reflexivity; rewrite (HC c eq_refl); reflexivity.
Qed.
Print Assumptions C67_complete_partial.
(** ... and accepted format strings are documented, if no code point has a letter. *)
Theorem C67_sound_partial : forall cf contiguous borrowed types custom_parse ts,
  c_enc cf <> U16 -> Forall (fun t => class_of t <> None) types -> wf_tok cf types ts 0 ->
  ((forall id d, In (Field id d) ts -> letter_of d = None) \/ ~ In CodePointType types) ->
  check_format_string cf contiguous borrowed types custom_parse (render (c_enc cf) ts) = Ok tt ->
  uniform ts /\ index_ok (Z.of_nat (List.length types)) ts 0 [] = true
  /\ each_field types (documented_field contiguous borrowed) ts 0 = true.
Proof.
  intros cf contiguous borrowed types custom_parse ts He Hb Hw HC E. apply C67_partial in E; try assumption.
  destruct E as (HU & HI & HA). split; [exact HU|]. split; [exact HI|]. revert HA.
  assert (G : forall ts next, (forall id d t, In (Field id d) ts -> In t types -> letter_of d = None \/ t <> CodePointType) ->
    each_field types (accepted_field contiguous borrowed) ts next = true -> each_field types (documented_field contiguous borrowed) ts next = true).
  { clear. induction ts as [|[c|id d] ts IH]; intros next HI; cbn [each_field]; [reflexivity|apply IH; intros id d t H; apply (HI id d t); right; exact H|].
    destruct (nth_error types _) as [t|] eqn:ET; [|discriminate]. intros E. apply andb_true_iff in E. destruct E as [E1 E2]. apply andb_true_iff.
    split; [|apply IH; [intros id' d' t' H; apply (HI id' d' t'); right; exact H|exact E2]].
    specialize (HI id d t (or_introl eq_refl) (nth_error_In _ _ ET)). revert E1. unfold accepted_field, documented_field.
    destruct (class_of t) as [k|] eqn:EK; [|discriminate]. intros E1. apply andb_true_iff in E1. destruct E1 as [E1 ->]. rewrite andb_true_r.
    apply orb_true_iff in E1. destruct E1 as [E1|E1]; [apply andb_true_iff in E1; apply E1|].
    unfold undocumented in E1. destruct HI as [HI|HI]; [rewrite HI in E1; destruct k; discriminate|].
    destruct k; try discriminate. destruct t; discriminate || congruence. }
  apply G. intros id d t HF HT. destruct HC as [HC|HC]; [left; eapply HC, HF|right; intros ->; apply HC, HT].
Qed.
Print Assumptions C67_sound_partial.
(** "{:>5d} {:[a-z]}|{:/a+b/}{:.3c}{:Lf} {:p}" for an int, a string, a view, a string, a double and a
    pointer.  Only the view and the regular expression need a source that can be borrowed. *)
Definition fld (fill : option Z) (align : option align_type) (width prec : option (list Z)) (local : bool) (ty : option type_syntax) : token :=
  Field None (Some (Desc fill align width prec local ty)).
Definition types1 : list arg_type := [IntType; NarrowStringType; NarrowStringViewType; NarrowStringType; DoubleType; PointerType].
Definition tokens1 : list token :=
  [fld None (Some ARight) (Some (T "5")) None false (Some (TyLetter 100)); Lit 32;
   fld None None None None false (Some (TySet false [SRange 97 122])); Lit 124;
   Field None None; fld None None None (Some (T "3")) false (Some (TyLetter 99));
   fld None None None None true (Some (TyLetter 102)); Lit 32; fld None None None None false (Some (TyLetter 112))].
Definition any_parse (i : Z) (f : list Z) : outcome (list Z) := Err InvalidFormatString.
Lemma wf_az t rest : wf_desc (rb_of narrow) U8 t (Desc None None None None false (Some (TySet false [SRange 97 122]))) rest.
Proof.
  unfold wf_desc. cbn [d_fill d_align d_width d_prec d_local d_type]. repeat split; try discriminate.
  - intros ty [= <-]. cbn [wf_type wf_set]. split; [split|].
    + split; [|exact I]. constructor; [|constructor]. cbn [wf_item]. unfold scalar. lia.
    + eexists; eexists; split; [reflexivity|discriminate].
    + constructor; [left; lia|constructor].
Qed.
Ltac doc_wf_tac :=
  repeat match goal with
  | |- _ /\ _ => split
  | |- forall d', Some _ = Some d' -> _ =>
      intros d' [= <-] t0 [= <-]; first [apply wf_az|wf_desc_tac]
  | |- forall d', None = Some d' -> _ => intros d'; discriminate
  end; try exact I; try (cbn; lia).
Example C67_ex :
  render U8 tokens1 = T "{:>5d} {:[a-z]}|{}{:.3c}{:Lf} {:p}"
  /\ Forall (fun t => class_of t <> None) types1 /\ wf_tok narrow types1 tokens1 0 /\ uniform tokens1
  /\ index_ok 6 tokens1 0 [] = true /\ each_field types1 (accepted_field true true) tokens1 0 = true
  /\ check_format_string narrow true true types1 any_parse (T "{:>5d} {:[a-z]}|{}{:.3c}{:Lf} {:p}") = Ok tt
  /\ check_format_string narrow false true types1 any_parse (T "{:>5d} {:[a-z]}|{}{:.3c}{:Lf} {:p}") = Err InvalidFormatString
  /\ check_format_string narrow true true types1 any_parse (T "{:>5f} {:[a-z]}|{}{:.3c}{:Lf} {:p}") = Err InvalidFormatString
  /\ check_format_string narrow true true types1 any_parse (T "{:>5d} {:[a-z]}|{}{:c}{:Lf} {:p}") = Err InvalidFormatString.
Proof.
  split; [vm_compute; reflexivity|]. split; [repeat constructor; discriminate|].
  split; [unfold wf_tok; cbn [wf_gtokens tokens1 fld]; unfold wf_id; doc_wf_tac|].
  split; [left; unfold tokens1, fld; cbn [In]; intros id d H; repeat (destruct H as [H|H]; [congruence|]); contradiction|].
  repeat split; vm_compute; reflexivity.
Qed.

(** * At run time *)
Lemma wf_weaken {D} (txt : D -> list Z) e (P Q : Z -> D -> list Z -> Prop) : (forall i d rest, P i d rest -> Q i d rest) ->
  forall ts next, wf_gtokens txt e P ts next -> wf_gtokens txt e Q ts next.
Proof.
  intros H. induction ts as [|[c|id d] ts IH]; intros next; cbn [wf_gtokens]; [trivial| |].
  - intros [H1 H2]. auto.
  - intros (H1 & H2 & H3). auto 10.
Qed.
Lemma named_builtin {F} (t : scalar_type F) : named t -> arg_eqb (scalar_arg_type t) CustomType = false.
Proof. intros [? a H| |? ? a H| |? a H|? a H]; cbn [scalar_arg_type]; try reflexivity; destruct a; try reflexivity; try destruct k; discriminate H. Qed.
Lemma scalar_tokens (F : Type) rx cf global l r (sts : list (scalar_type F)) ts : c_enc cf = s_enc r -> Forall named sts ->
  wf_tok cf (map scalar_arg_type sts) ts 0 -> wf_tokens (s_enc r) (spec_ok _ r cf (map (target_arg rx cf global l r) (map TScalar sts))) ts 0.
Proof.
  intros Hcf Hna HW. rewrite <- Hcf. refine (wf_weaken _ _ _ _ _ _ _ HW). intros i d rest HD a EA. rewrite arg_at in EA. rewrite type_at in HD.
  destruct (nth_error sts (Z.to_nat i)) as [t|] eqn:ET; [|discriminate]. injection EA as <-. cbn [target_arg ar_type]. split.
  - apply named_builtin. eapply (proj1 (Forall_forall _ _) Hna). eapply nth_error_In, ET.
  - rewrite <- Hcf. apply HD. reflexivity.
Qed.
(** C18 for all of these types: a scan succeeds with exactly the values and the rest that the
    tokens ask for. *)
Theorem C18_scalars_partial : forall (F : Type) rx cf global l r (sts : list (scalar_type F)) ts source x,
  (List.length sts < 64)%nat -> good_src r -> c_enc cf = s_enc r -> engine_ok rx ->
  Forall named sts -> Forall usual sts -> uniform ts -> wf_tok cf (map scalar_arg_type sts) ts 0 -> units (s_enc r) source ->
  scan_with rx cf global l r (map TScalar sts) (render (s_enc r) ts) source = Ok x
  <-> expected r (map (target_arg rx cf global l r) (map TScalar sts)) ts source = Ok x.
Proof.
  intros F rx cf global l r sts ts source x Hn Hr Hcf Hrx Hna Hus HU HW Hu.
  assert (He : s_enc r <> U16) by exact (He r Hr). unfold scan_with.
  apply tokens_success; try assumption.
  - rewrite !map_length. exact Hn.
  - rewrite !Forall_map. apply Forall_forall. intros t Ht. rewrite Forall_forall in Hna, Hus. apply scalar_consumes; auto.
  - rewrite !Forall_map. apply Forall_forall. reflexivity.
  - rewrite !Forall_map. apply Forall_forall. intros t Ht. rewrite Forall_forall in Hna. apply named_builtin, Hna, Ht.
  - apply scalar_tokens; assumption.
Qed.
Print Assumptions C18_scalars_partial.
(** If anything is scanned, the fields are as documented. *)
Theorem C67_run_partial : forall (F : Type) rx cf global l r (sts : list (scalar_type F)) ts source x,
  (List.length sts < 64)%nat -> good_src r -> c_enc cf = s_enc r -> engine_ok rx ->
  Forall named sts -> Forall usual sts -> uniform ts -> wf_tok cf (map scalar_arg_type sts) ts 0 -> units (s_enc r) source ->
  scan_with rx cf global l r (map TScalar sts) (render (s_enc r) ts) source = Ok x ->
  index_ok (Z.of_nat (List.length sts)) ts 0 [] = true /\ each_field (map scalar_arg_type sts) scanned_field ts 0 = true.
Proof.
  intros F rx cf global l r sts ts source x Hn Hr Hcf Hrx Hna Hus HU HW Hu E.
  apply C18_scalars_partial in E; try assumption. unfold expected, scan_spec in E. split.
  - destruct (index_ok _ ts 0 []) eqn:EI; [reflexivity|]. exfalso. refine (bad_index_run _ _ _ _ _ _ _ x 0 [] false source [] _ E).
    rewrite !map_length. exact EI.
  - eapply run_fields; try eassumption. apply scalar_tokens; assumption.
Qed.
Print Assumptions C67_run_partial.
(** "{:s} {:x} {:*<4d}{:e}" with a bool, a char, an int and a double (also for
    C18_scalars_partial). *)
Definition scalars1 : list (scalar_type FloatInstance.exact) := [TBool; TChar KChar 7 NarrowCharacterType; TInt i32 IntType; TFloat (exact_fp true) DoubleType].
Definition tokens2 : list token :=
  [fld None None None None false (Some (TyLetter 115)); Lit 32; fld None None None None false (Some (TyLetter 120)); Lit 32;
   fld (Some 42) (Some ALeft) (Some (T "4")) None false (Some (TyLetter 100)); fld None None None None false (Some (TyLetter 101))].
Example C67_run_ex :
  render U8 tokens2 = T "{:s} {:x} {:*<4d}{:e}"
  /\ good_src string_src /\ engine_ok no_rx
  /\ Forall named scalars1 /\ Forall usual scalars1 /\ uniform tokens2 /\ wf_tok narrow (map scalar_arg_type scalars1) tokens2 0
  /\ scan_with no_rx narrow classic None string_src (map TScalar scalars1) (T "{:s} {:x} {:*<4d}{:e}") (T "true  41 42**1.5e1!")
     = Ok ([(0, VLeaf (SVBool true)); (1, VLeaf (SVChar 7)); (2, VLeaf (SVInt 42)); (3, VLeaf (SVFloat (Fraction false 15 1)))], T "!")
  /\ scan_with no_rx narrow classic None string_src (map TScalar scalars1) (T "{:s} {:x} {:*<4e}{:e}") (T "true  41 42**1.5e1!") = Err InvalidFormatString.
Proof.
  split; [vm_compute; reflexivity|]. split; [unfold good_src; cbn; auto|]. split; [intros p f s; left; eexists; reflexivity|].
  split; [repeat (apply Forall_cons; [constructor; reflexivity|]); apply Forall_nil|].
  split.
  { repeat (apply Forall_cons; [cbn [usual]|]); try apply Forall_nil; try exact I; [unfold IntProofs.type_ok; cbn; auto 10|].
    exists exact_meaning. apply exact_converts. }
  split; [left; unfold tokens2, fld; cbn [In]; intros id d H; repeat (destruct H as [H|H]; [congruence|]); contradiction|].
  split; [unfold wf_tok; cbn [wf_gtokens tokens2 fld]; unfold wf_id; doc_wf_tac|].
  split; vm_compute; reflexivity.
Qed.

(** * Where the documentation and the code differ *)
Definition scan1 (t : scalar_type FloatInstance.exact) (format source : list Z) :=
  scan_with no_rx narrow classic None string_src [TScalar t] format source.
Definition compiles (t : arg_type) (format : list Z) : outcome unit := check_format_string narrow true true [t] any_parse format.
(** 'O' is listed for integers, characters and booleans, and is no type specifier at all. *)
Theorem C67_upper_octal_refuted : exists c,
  listed ClInt c = true /\ listed ClChar c = true /\ listed ClBool c = true
  /\ (forall t, In t [IntType; NarrowCharacterType; BoolType] -> compiles t ([123; 58] ++ [c] ++ [125]) = Err InvalidFormatString)
  /\ scan1 (TInt i32 IntType) ([123; 58] ++ [c] ++ [125]) (T "52") = Err InvalidFormatString.
Proof.
  exists 79. do 3 (split; [reflexivity|]). split; [intros t [<-|[<-|[<-|[]]]]; vm_compute; reflexivity|vm_compute; reflexivity].
Qed.
Print Assumptions C67_upper_octal_refuted.
(** 'c' is listed for integers, characters and code points.  It is rejected for integers and
    characters, and at compile time for code points, which can be scanned with it. *)
Theorem C67_character_refuted : exists d, doc_spec ClInt (Some d) = true /\ doc_spec ClChar (Some d) = true /\ doc_spec ClCodePoint (Some d) = true
  /\ render_desc U8 d = T "c"
  /\ (forall t, In t [IntType; NarrowCharacterType; CodePointType] -> compiles t (T "{:c}") = Err InvalidFormatString)
  /\ scan1 (TInt i32 IntType) (T "{:c}") (T "a") = Err InvalidFormatString
  /\ scan1 (TChar KChar 0 NarrowCharacterType) (T "{:c}") (T "a") = Err InvalidFormatString
  /\ scan1 (TChar KCodePoint 0 CodePointType) (T "{:c}") (T "a") = Ok ([(0, VLeaf (SVChar 97))], []).
Proof.
  exists (Desc None None None None false (Some (TyLetter 99))). do 4 (split; [reflexivity|]).
  split; [intros t [<-|[<-|[<-|[]]]]; vm_compute; reflexivity|]. repeat split; vm_compute; reflexivity.
Qed.
Print Assumptions C67_character_refuted.
(** A format string accepted at compile time that cannot scan anything: the letter of an
    integer for a code point.  Not documented either. *)
Theorem C67_code_point_refuted : exists d,
  doc_spec ClCodePoint (Some d) = false /\ compiles CodePointType (render U8 [Field None (Some d)]) = Ok tt
  /\ forall F rx global l s x, engine_ok rx -> bytes s ->
     scan_with (F := F) rx narrow global l string_src [TScalar (TChar KCodePoint 0 CodePointType)] (render U8 [Field None (Some d)]) s <> Ok x.
Proof.
  exists (Desc None None None None false (Some (TyLetter 100))). split; [reflexivity|]. split; [vm_compute; reflexivity|].
  intros F rx global l s x Hrx Hs E.
  refine (match C67_run_partial F rx narrow global l string_src [TChar KCodePoint 0 CodePointType] [Field None (Some _)] s x _ _ eq_refl Hrx _ _ _ _ Hs E with conj _ HF => _ end).
  - cbn. lia.
  - unfold good_src. cbn. auto.
  - constructor; [|constructor]. constructor. reflexivity.
  - constructor; [exact I|constructor].
  - left. intros id d [H|[]]. congruence.
  - unfold wf_tok. cbn [wf_gtokens]. unfold wf_id. doc_wf_tac.
  - cbv in HF. discriminate HF.
Qed.
Print Assumptions C67_code_point_refuted.
(** 'r' with a base (listed in the grammar) is not parsed. *)
Theorem C67_base_refuted : exists f, f = T "{:r16}" /\ compiles IntType f = Err InvalidFormatString
  /\ scan1 (TInt i32 IntType) f (T "ff") = Err InvalidFormatString.
Proof. eexists. split; [reflexivity|]. split; vm_compute; reflexivity. Qed.
Print Assumptions C67_base_refuted.
(** 'L' "has no effect" for other types than numbers and booleans: it is an error for strings,
    characters and pointers. *)
Theorem C67_localized_refuted : exists f, f = T "{:L}"
  /\ (forall t, In t [NarrowStringType; NarrowCharacterType; PointerType; CodePointType] -> compiles t f = Err InvalidFormatString)
  /\ compiles IntType f = Ok tt
  /\ scan1 (TString (DString U8) NarrowStringType) f (T "word") = Err InvalidFormatString
  /\ scan1 (TString (DString U8) NarrowStringType) (T "{}") (T "word") = Ok ([(0, VLeaf (SVString (T "word")))], []).
Proof.
  eexists. split; [reflexivity|]. split; [intros t [<-|[<-|[<-|[<-|[]]]]]; vm_compute; reflexivity|]. repeat split; vm_compute; reflexivity.
Qed.
Print Assumptions C67_localized_refuted.
(** Binary integers cannot be localized. *)
Theorem C67_binary_refuted : exists f, f = T "{:Lb}" /\ compiles IntType f = Err InvalidFormatString /\ compiles IntType (T "{:Lo}") = Ok tt
  /\ compiles IntType (T "{:b}") = Ok tt /\ scan1 (TInt i32 IntType) f (T "101") = Err InvalidFormatString.
Proof. eexists. split; [reflexivity|]. repeat split; vm_compute; reflexivity. Qed.
Print Assumptions C67_binary_refuted.
