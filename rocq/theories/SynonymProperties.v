(** Property C71: format-specs with the same documented meaning read the same. *)
From Coq Require Import String.
From Verif Require Import Prelude UnicodeModel UnicodeSpec ReadModel ReadProofs ArgReaderModel FloatModel SpecsModel SpecsInvProofs ArgsModel FormatModel FormatSpec FormatSpecProofs
  VscanModel VscanSpec IntModel WidthModel ScalarModel StringModel RangesModel LocaleModel VscanProofs VscanSpecProofs StringSafeProofs WidthSpec WidthProofs ArgReaderProofs
  FloatSpec FloatProofs FloatInstance EncodingReadProofs VscanProperties ScalarProperties LocaleProperties DocTypesSpec DocTypesProofs DocTypesRun DocTypesProperties DiscardProofs PrintedProofs RespaceProofs IntProofs SynonymSpec.
Import Coq.Strings.String.StringSyntax.
Local Open Scope list_scope.
Local Open Scope Z_scope.

(** ** Meanings *)
Lemma fill_same e a b : optv 32 (fun c => c) a = optv 32 (fun c => c) b -> mean_fill e a = mean_fill e b.
Proof.
  assert (D : mean_fill e (Some 32) = mean_fill e None) by (destruct e; reflexivity).
  destruct a as [x|], b as [y|]; cbn [optv]; intros H; subst; auto. 
Qed.
(** [mean] with its type put in. *)
Lemma mean_simple e d x : simple_type (d_type d) = Some x ->
  mean e d = Specs (optv 0 FormatSpec.number (d_width d)) (optv 0 FormatSpec.number (d_prec d)) (mean_fill e (d_fill d))
    (match x with Some c => optv PNone (fun t => t) (letter_type c) | None => PNone end) (repeat 0 16) false false [] 0 0 (optv ANone (fun a => a) (d_align d)) (d_local d).
Proof. unfold mean, simple_type. destruct (d_type d) as [[c|i s|p f]|]; intros [= <-]; reflexivity. Qed.
(** Types read in the same way. *)
Inductive alike_types (k : type_class) (al : align_type) : ptype -> ptype -> Prop :=
| At_same t : alike_types k al t t
| At_int : k = ClInt -> alike_types k al PNone PIntDecimal
| At_point : k = ClCodePoint -> alike_types k al PNone PCharacter
| At_bool a b : k = ClBool -> In a [PIntGeneric; PIntBinary; PIntDecimal; PIntHex; PIntOctal; PIntUnsignedDecimal] ->
    In b [PIntGeneric; PIntBinary; PIntDecimal; PIntHex; PIntOctal; PIntUnsignedDecimal] -> alike_types k al a b
| At_string : k = ClString -> al <> ALeft -> al <> ACenter -> alike_types k al PNone PString
| At_pointer : k = ClPointer -> alike_types k al PNone PPointer
| At_sym a b : alike_types k al a b -> alike_types k al b a.

Lemma arg_read_ext {V} r sp skip (f g : src -> list Z -> outcome (V * list Z)) s : (forall r s, f r s = g r s) -> arg_read r sp skip f s = arg_read r sp skip g s.
Proof.
  intros H. unfold arg_read. match goal with |- bind ?a _ = bind ?a _ => destruct a as [[it pre]| | |]; [|reflexivity..] end. cbn [bind].
  destruct (negb (precision sp =? 0)).
  - destruct (precision sp <=? pre); [reflexivity|]. cbv zeta. destruct (take_width (s_enc r) it (precision sp - pre)); [|reflexivity..]. cbn [bind]. rewrite H. reflexivity.
  - rewrite H. reflexivity.
Qed.
Lemma checked_types {V} r (rd : reader V) sp a b s :
  rd_check rd (set_type a sp) = rd_check rd (set_type b sp) -> rd_skip rd (set_type a sp) = rd_skip rd (set_type b sp) ->
  (forall r s, rd_check rd (set_type a sp) = true -> rd_specs rd r (set_type a sp) s = rd_specs rd r (set_type b sp) s) ->
  arg_read_checked r rd (set_type a sp) s = arg_read_checked r rd (set_type b sp) s.
Proof.
  intros H1 H2 H3. unfold arg_read_checked. rewrite <- H1. destruct (rd_check rd (set_type a sp)); [|reflexivity]. rewrite H2.
  transitivity (arg_read r (set_type b sp) (rd_skip rd (set_type b sp)) (fun r' => rd_specs rd r' (set_type a sp)) s); [reflexivity|].
  apply arg_read_ext. auto.
Qed.
(** Succeed alike. *)
Definition agree {A} (x y : outcome A) : Prop := forall v, x = Ok v <-> y = Ok v.
Lemma agree_eq {A} (x y : outcome A) : x = y -> agree x y.
Proof. intros -> v. reflexivity. Qed.
Lemma agree_trans {A} (x y z : outcome A) : agree x y -> agree y z -> agree x z.
Proof. intros H1 H2 v. rewrite (H1 v). apply H2. Qed.
Lemma agree_sym {A} (x y : outcome A) : agree x y -> agree y x.
Proof. intros H v. symmetry. apply H. Qed.
Section Values.
Context {F : Type}.
Variables (rx : regex_engine) (r : src) (lo : locale).
Lemma types_alike (t : scalar_type F) k sp a b s : named t -> class_of (scalar_arg_type t) = Some k -> alike_types k (align sp) a b ->
  scalar_specs rx r lo t (set_type a sp) s = scalar_specs rx r lo t (set_type b sp) s.
Proof.
  intros Hn Hk HA. induction HA as [x|E|E|x y E Hx Hy|E A1 A2|E|x y _ IH]; [reflexivity| | | | | |symmetry; exact IH];
    (destruct Hn as [t n Hn| |c old n Hn| |d n Hn|f n Hn]; cbn [scalar_arg_type] in Hk; rewrite ?Hn in Hk; try (injection Hk as Hk); try congruence; try (destruct c; congruence)); cbn [scalar_specs]; f_equal.
  - destruct c; try congruence; (apply checked_types; [reflexivity|reflexivity|intros; reflexivity]).
  - apply checked_types; try reflexivity.
    + cbn [bool_reader rd_check]. unfold check_bool_type_specs. cbn [set_type type]. cbn [In] in Hx, Hy. intuition (subst; reflexivity).
    + intros r0 s0 _. cbn [bool_reader rd_specs]. unfold bool_specs, bool_options. cbn [set_type type localized]. cbn [In] in Hx, Hy. intuition (subst; reflexivity).
  - unfold string_arg. apply checked_types; try reflexivity.
    + cbn [string_reader rd_skip]. unfold string_skip, string_kind_of. cbn [set_type type align]. destruct (align sp); reflexivity || congruence.
    + intros r0 s0 _. cbn [string_reader rd_specs]. unfold string_specs, string_kind_of. cbn [set_type type align]. destruct (align sp); reflexivity || congruence.
Qed.
(** No format-spec at all. *)
Lemma default_plain_eq (t : scalar_type F) s : (match t with TChar _ _ _ => s <> [] | _ => True end) -> scalar_default r t s = scalar_specs rx r lo t specs_default s.
Proof.
  assert (PD : plain_specs specs_default) by (repeat split). intros HC.
  destruct t; cbn [scalar_default scalar_specs]; f_equal; unfold string_arg, arg_read_checked; cbn [int_reader bool_reader char_reader pointer_reader string_reader float_reader rd_check rd_skip rd_specs].
  - change (check_int_type_specs specs_default) with true. cbv iota. rewrite arg_read_plain by exact PD. unfold int_default. rewrite default_skip.
    destruct (skip_classic_whitespace r s false) as [it| | |]; [|reflexivity..]. cbn [bind]. unfold int_read_default, int_read_default_with_base, int_read_specs. cbn [specs_default get_base type localized bind negb].
    destruct (parse_integer_prefix r it 10) as [p| | |]; [|reflexivity..]. cbn [bind ptype_eqb]. rewrite andb_comm, orb_false_r. reflexivity.
  - rewrite arg_read_plain by exact PD. unfold bool_default. rewrite default_skip. reflexivity.
  - replace (char_check k specs_default) with true by (destruct k; reflexivity). rewrite arg_read_plain by exact PD. cbn [bind]. unfold char_default, default_read.
    destruct s as [|c s]; [congruence|]. destruct k; reflexivity.
  - rewrite arg_read_plain by exact PD. unfold pointer_default. rewrite default_skip. reflexivity.
  - rewrite arg_read_plain by exact PD. unfold string_default. rewrite default_skip. reflexivity.
  - change (check_float_type_specs specs_default) with true. cbv iota. rewrite arg_read_plain by exact PD. unfold float_default. rewrite default_skip. reflexivity.
Qed.
Lemma default_plain (t : scalar_type F) s : agree (scalar_default r t s) (scalar_specs rx r lo t specs_default s).
Proof.
  destruct t as [t a| |k old a| |d a|f a]; try (apply agree_eq, default_plain_eq; exact I). destruct s as [|c s]; [|apply agree_eq, default_plain_eq; discriminate].
  intros x. split; [cbn; discriminate|]. cbn [scalar_specs]. unfold as_value, arg_read_checked. destruct (rd_check _ _); [|discriminate].
  rewrite arg_read_plain by (repeat split). intros E. exfalso. cbn [bind char_reader rd_skip rd_specs] in E. unfold char_specs in E. cbn [specs_default type] in E.
  assert (N : forall y, char_default_read k r [] <> Ok y) by (intros y; unfold char_default_read; destruct k, (s_enc r); discriminate).
  destruct k; destruct (char_default_read _ r []) as [y| | |]; try discriminate; eapply N; reflexivity.
Qed.
End Values.
Definition type_of (x : option Z) : ptype := match x with Some c => optv PNone (fun t => t) (letter_type c) | None => PNone end.
Lemma row_alike k al x y : same_row k x y -> (forall c, x = Some c \/ y = Some c -> letter_type c <> None) ->
  match k with
  | ClChar => match x, y with Some c, None | None, Some c => c =? 99 | _, _ => false end
  | ClString => match x, y with Some _, None | None, Some _ => match al with ALeft | ACenter => true | _ => false end | _, _ => false end
  | _ => false
  end = false -> alike_types k al (type_of x) (type_of y).
Proof.
  intros (row & HI & Hx & Hy) HL HD.
  assert (B : forall z, In z (map Some [98; 66; 100; 105; 111; 79; 117; 120; 88]) -> (forall c, z = Some c -> letter_type c <> None) ->
    In (type_of z) [PIntGeneric; PIntBinary; PIntDecimal; PIntHex; PIntOctal; PIntUnsignedDecimal]).
  { intros z Hz Hv. cbn [map In] in Hz. repeat (destruct Hz as [<-|Hz]; [try (cbn; auto 10; fail); exfalso; apply (Hv 79); reflexivity|]). contradiction. }
  destruct k; cbn [rows In] in HI.
  5: { destruct HI as [<-|[]]. apply At_bool; [reflexivity| |]; apply B; auto. }
  all: repeat (destruct HI as [<-|HI]; [cbn [In] in Hx, Hy; repeat (destruct Hx as [<-|Hx]; [|try contradiction]); repeat (destruct Hy as [<-|Hy]; [|try contradiction]);
    try apply At_same; try (exfalso; apply (HL 79); [auto; fail|reflexivity]); try discriminate HD;
    try (constructor; reflexivity); try (apply At_sym; constructor; reflexivity)|]); try contradiction.
  - apply At_string; [reflexivity|destruct al; discriminate..].
  - apply At_sym, At_string; [reflexivity|destruct al; discriminate..].
Qed.
Section Fields.
Context {F : Type}.
Variables (rx : regex_engine) (cf : config) (global : locale) (l : locale_ref) (r : src).
Lemma meaning_same (t : scalar_type F) k e a b s : named t -> class_of (scalar_arg_type t) = Some k -> same_meaning k a b -> differs k a b = false ->
  (forall c, letter_of a = Some c \/ letter_of b = Some c -> letter_type c <> None) ->
  agree match option_map (mean e) a with None => scalar_default r t s | Some sp => scalar_specs rx r (get_locale global l) t sp s end
    match option_map (mean e) b with None => scalar_default r t s | Some sp => scalar_specs rx r (get_locale global l) t sp s end.
Proof.
  intros Hn Hk HM HD HL.
  assert (G : forall x, agree match option_map (mean e) x with None => scalar_default r t s | Some sp => scalar_specs rx r (get_locale global l) t sp s end
    (scalar_specs rx r (get_locale global l) t (mean e (spelled_out x)) s)) by (intros [x|]; [apply agree_eq; reflexivity|]; apply default_plain).
  apply (agree_trans _ _ _ (G a)), agree_sym, (agree_trans _ _ _ (G b)), agree_sym, agree_eq. clear G. destruct HM as (M1 & M2 & M3 & M4 & M5 & M6). apply (fill_same e) in M2.
  destruct M6 as [M6|(x & y & Ex & Ey & HR)].
  - assert (E : mean e (spelled_out a) = mean e (spelled_out b)).
    { unfold mean. rewrite M1, M2, M3, M4, M5, M6. reflexivity. }
    rewrite E. reflexivity.
  - assert (LA : letter_of a = x).
    { unfold letter_of. destruct a as [d|]; cbn [spelled_out] in Ex; [|cbn in Ex; congruence]. unfold simple_type in Ex. destruct (d_type d) as [[]|]; congruence. }
    assert (LB : letter_of b = y).
    { unfold letter_of. destruct b as [d|]; cbn [spelled_out] in Ey; [|cbn in Ey; congruence]. unfold simple_type in Ey. destruct (d_type d) as [[]|]; congruence. }
    unfold differs in HD. rewrite LA, LB in HD. rewrite LA, LB in HL. rewrite (mean_simple e _ x Ex), (mean_simple e _ y Ey), <- M1, <- M2, <- M3, <- M4, <- M5.
    set (sp := Specs (optv 0 FormatSpec.number (d_width (spelled_out a))) (optv 0 FormatSpec.number (d_prec (spelled_out a))) (mean_fill e (d_fill (spelled_out a)))
      PNone (repeat 0 16) false false [] 0 0 (optv ANone (fun a => a) (d_align (spelled_out a))) (d_local (spelled_out a))).
    apply (types_alike rx r _ t k sp (type_of x) (type_of y) s Hn Hk). apply row_alike; [exact HR|exact HL|].
    cbn [sp align]. destruct k; try reflexivity; [exact HD|]. destruct x, y; try reflexivity; (destruct (d_align (spelled_out a)) as [[]|]; try discriminate HD; reflexivity).
Qed.

Lemma run_same (sts : list (scalar_type F)) e n fail : Forall named sts -> forall ts us next used ws s log,
  reworded (map scalar_arg_type sts) ts us next ->
  wf_tokens e (fun i d rest => forall t, nth_error (map scalar_arg_type sts) (Z.to_nat i) = Some t -> wf_desc (rb_of cf) e t d rest) ts next ->
  wf_tokens e (fun i d rest => forall t, nth_error (map scalar_arg_type sts) (Z.to_nat i) = Some t -> wf_desc (rb_of cf) e t d rest) us next ->
  agree (run _ e n (meant e (read_arg _ (map (target_arg rx cf global l r) (map TScalar sts)))) false fail ts next used ws s log)
    (run _ e n (meant e (read_arg _ (map (target_arg rx cf global l r) (map TScalar sts)))) false fail us next used ws s log).
Proof.
  intros Hna. induction ts as [|[c|id a] ts IH]; intros [|[d|id' b] us] next used ws s log HR W1 W2; cbn [reworded] in HR; try contradiction; [apply agree_eq; reflexivity| |].
  - destruct HR as [<- HR]. destruct W1 as [_ W1], W2 as [_ W2]. cbn [run]. destruct (is_ws c).
    + destruct ws; [apply IH; assumption|]. destruct s; [apply agree_eq; reflexivity|]. apply IH; assumption.
    + destruct s as [|x s]; [apply agree_eq; reflexivity|]. destruct (x =? c); [|apply agree_eq; reflexivity]. apply IH; assumption.
  - destruct HR as (<- & HM & HR). destruct W1 as (_ & V1 & W1), W2 as (_ & V2 & W2). cbn [run]. destruct (_ || _); [apply agree_eq; reflexivity|].
    set (i := match id with Some ds => FormatSpec.number ds | None => next end) in *.
    assert (E : agree (meant e (read_arg _ (map (target_arg rx cf global l r) (map TScalar sts))) i a s)
              (meant e (read_arg _ (map (target_arg rx cf global l r) (map TScalar sts))) i b s)).
    { unfold meant, read_arg. rewrite map_map. rewrite nth_error_map. rewrite nth_error_map in HM, V1, V2. destruct (nth_error sts (Z.to_nat i)) as [t|] eqn:ET; [|apply agree_eq; reflexivity].
      cbn [option_map] in *. assert (Hn : named t) by (rewrite Forall_forall in Hna; apply Hna; eapply nth_error_In, ET).
      destruct (class_of (scalar_arg_type t)) as [k|] eqn:EK.
      2: { exfalso. destruct Hn as [? ? H| |? ? ? H| |? ? H|? ? H]; cbn [scalar_arg_type] in EK; rewrite ?H in EK; discriminate. }
      destruct (HM _ k eq_refl EK) as [H1 H2].
      assert (HL : forall c, letter_of a = Some c \/ letter_of b = Some c -> letter_type c <> None).
      { assert (G : forall x, (forall d', x = Some d' -> forall t0, Some (scalar_arg_type t) = Some t0 -> exists rest, wf_desc (rb_of cf) e t0 d' rest) -> forall c, letter_of x = Some c -> letter_type c <> None).
        { intros [x|] HX c Hc; [|discriminate]. destruct (HX x eq_refl _ eq_refl) as (rest & _ & _ & _ & _ & _ & HT & _). cbn in Hc. destruct (d_type x) as [[c'| |]|] eqn:EX; try discriminate.
          injection Hc as ->. exact (HT _ eq_refl). }
        intros c [Hc|Hc]; (eapply G; [|exact Hc]); intros d' Ed t0 Et0; eexists; [apply V1|apply V2]; eassumption. }
      assert (M := meaning_same t k e a b s Hn EK H1 H2 HL). cbn [target_arg ar_default ar_specs].
      assert (LV : forall u v, agree u v -> agree (leaf_value (F:=F) u) (leaf_value v)).
      { intros u v H w. unfold leaf_value. destruct u as [[x m]| | |] eqn:EU.
        - rewrite (proj1 (H (x, m)) eq_refl). reflexivity.
        - destruct v as [y| | |]; [assert (X := proj2 (H y) eq_refl); discriminate|split; discriminate..].
        - destruct v as [y| | |]; [assert (X := proj2 (H y) eq_refl); discriminate|split; discriminate..].
        - destruct v as [y| | |]; [assert (X := proj2 (H y) eq_refl); discriminate|split; discriminate..]. }
      destruct (option_map (mean e) a), (option_map (mean e) b); apply LV, M. }
    destruct (meant _ _ i a s) as [[v s']| | |] eqn:EA.
    + rewrite (proj1 (E (v, s')) eq_refl). apply IH; assumption.
    + destruct (meant _ _ i b s) as [y| | |]; [assert (X := proj2 (E y) eq_refl); discriminate|intros w; split; discriminate..].
    + destruct (meant _ _ i b s) as [y| | |]; [assert (X := proj2 (E y) eq_refl); discriminate|intros w; split; discriminate..].
    + destruct (meant _ _ i b s) as [y| | |]; [assert (X := proj2 (E y) eq_refl); discriminate|intros w; split; discriminate..].
Qed.
(** A format string can be reworded: it succeeds on the same sources with the same values, and leaves
    the same characters. *)
Theorem C71_partial (sts : list (scalar_type F)) ts us source x :
  (List.length sts < 64)%nat -> good_src r -> c_enc cf = s_enc r -> engine_ok rx ->
  Forall named sts -> Forall usual sts -> uniform ts -> uniform us -> reworded (map scalar_arg_type sts) ts us 0 ->
  wf_tok cf (map scalar_arg_type sts) ts 0 -> wf_tok cf (map scalar_arg_type sts) us 0 -> units (s_enc r) source ->
  scan_with rx cf global l r (map TScalar sts) (render (s_enc r) ts) source = Ok x
  <-> scan_with rx cf global l r (map TScalar sts) (render (s_enc r) us) source = Ok x.
Proof.
  intros Hn Hr Hcf Hrx Hna Hus U1 U2 HR W1 W2 Hu. rewrite !(C18_scalars_partial F rx cf global l r sts) by assumption.
  unfold expected, scan_spec. unfold wf_tok in W1, W2. rewrite Hcf in W1, W2. apply (run_same sts (s_enc r)); assumption.
Qed.
End Fields.
Print Assumptions C71_partial.

(** ** At compile time *)
Lemma row_listed k x y : same_row k x y -> match x, y with Some c, Some d => listed k c = true /\ listed k d = true | Some c, None | None, Some c => listed k c = true | None, None => True end.
Proof.
  intros (row & HI & Hx & Hy). destruct k; cbn [rows In map] in HI; repeat (destruct HI as [<-|HI]; [cbn [In] in Hx, Hy;
    repeat (destruct Hx as [<-|Hx]; [|try contradiction]); repeat (destruct Hy as [<-|Hy]; [|try contradiction]); repeat split; reflexivity|]); contradiction.
Qed.
Lemma accepted_same contiguous borrowed t k a b : class_of t = Some k -> same_meaning k a b -> letter_of a <> Some 99 -> letter_of b <> Some 99 ->
  accepted_field contiguous borrowed t a = accepted_field contiguous borrowed t b.
Proof.
  intros Hk (M1 & M2 & M3 & M4 & M5 & M6) NA NB. unfold accepted_field. rewrite Hk.
  assert (TA : forall x, letter_of x = match d_type (spelled_out x) with Some (TyLetter c) => Some c | _ => None end) by (intros [x|]; reflexivity).
  assert (TL : forall x, is_local x = d_local (spelled_out x)) by (intros [x|]; reflexivity).
  assert (TR : forall x, uses_regex x = match d_type (spelled_out x) with Some (TyRegex _ _) => true | _ => false end) by (intros [x|]; reflexivity).
  assert (TD : forall x, doc_spec k x = match d_type (spelled_out x) with
      | None => match k with ClRegex => false | _ => true end
      | Some (TyLetter c) => listed k c && match k with ClString => negb (c =? 99) || (0 <? optv 0 FormatSpec.number (d_prec (spelled_out x))) | _ => true end
      | Some (TySet _ _) => match k with ClString => true | _ => false end
      | Some (TyRegex _ _) => match k with ClString | ClRegex => true | _ => false end end) by (intros [x|]; reflexivity).
  unfold source_ok, rejected, undocumented. rewrite !TA in *. rewrite !TL, !TR, !TD, <- M5, <- M4. clear TA TL TR TD.
  destruct M6 as [<-|(x & y & Ex & Ey & HR)]; [reflexivity|].
  assert (LR := row_listed k x y HR). unfold simple_type in Ex, Ey.
  assert (EX : match d_type (spelled_out a) with Some (TyLetter c) => Some c | _ => None end = x) by (destruct (d_type (spelled_out a)) as [[]|]; congruence).
  assert (EY : match d_type (spelled_out b) with Some (TyLetter c) => Some c | _ => None end = y) by (destruct (d_type (spelled_out b)) as [[]|]; congruence).
  rewrite EX in *. rewrite EY in *. destruct HR as (row & HI & Hx & Hy). destruct (d_type (spelled_out a)) as [[c| |]|]; try discriminate; destruct (d_type (spelled_out b)) as [[d| |]|]; try discriminate; subst x y; clear Ex Ey; f_equal;
    destruct k; cbn [rows In map] in HI; repeat (destruct HI as [<-|HI]; [cbn [In] in Hx, Hy; intuition (try congruence);
      repeat match goal with H : Some _ = Some _ |- _ => injection H as <- end; destruct (d_local (spelled_out a)); reflexivity|]); contradiction.
Qed.
Lemma reworded_uniform types ts : forall us next, reworded types ts us next -> uniform ts -> uniform us.
Proof.
  assert (G : forall ts us next, reworded types ts us next -> forall id d, In (Field id d) us -> exists d', In (Field id d') ts).
  { clear. induction ts as [|[c|i a] ts IH]; intros [|[d|i' b] us] next HR id x HI; cbn [reworded] in HR; try contradiction.
    - destruct HR as [_ HR]. destruct HI as [HI|HI]; [discriminate|]. destruct (IH us next HR id x HI) as [d' Hd]. exists d'. right. exact Hd.
    - destruct HR as (<- & _ & HR). destruct HI as [HI|HI]; [injection HI as <- <-; exists a; left; reflexivity|]. destruct (IH us _ HR id x HI) as [d' Hd]. exists d'. right. exact Hd. }
  intros us next HR [HU|HU]; [left|right]; intros id d HI; destruct (G ts us next HR id d HI) as [d' Hd]; eapply HU, Hd.
Qed.
Lemma reworded_checked contiguous borrowed types n : Forall (fun t => class_of t <> None) types -> forall ts us next used, reworded types ts us next ->
  (forall id d, In (Field id d) (ts ++ us) -> letter_of d <> Some 99) ->
  index_ok n ts next used = index_ok n us next used
  /\ each_field types (accepted_field contiguous borrowed) ts next = each_field types (accepted_field contiguous borrowed) us next.
Proof.
  intros HC. induction ts as [|[c|i a] ts IH]; intros [|[d|i' b] us] next used HR HN; cbn [reworded] in HR; try contradiction; cbn [index_ok each_field]; [auto| |].
  - destruct HR as [_ HR]. apply IH; [exact HR|]. intros id x HI. apply (HN id x). apply in_app_or in HI. apply in_or_app. destruct HI; [left|right]; right; assumption.
  - destruct HR as (<- & HM & HR). destruct (IH us (next + 1) (match i with Some ds => FormatSpec.number ds | None => next end :: used) HR) as [E1 E2].
    { intros id x HI. apply (HN id x). apply in_app_or in HI. apply in_or_app. destruct HI; [left|right]; right; assumption. }
    split; [destruct (_ || _); [reflexivity|exact E1]|]. destruct (nth_error types _) as [t|] eqn:ET; [|reflexivity].
    destruct (class_of t) as [k|] eqn:EK; [|exfalso; rewrite Forall_forall in HC; apply (HC t); [eapply nth_error_In, ET|exact EK]].
    destruct (HM t k eq_refl EK) as [H1 _]. rewrite E2. f_equal. eapply accepted_same; [exact EK|exact H1| |].
    + apply (HN i a). left. reflexivity.
    + apply (HN i b). apply in_or_app. right. left. reflexivity.
Qed.
Theorem C71_checked_partial : forall cf contiguous borrowed types custom_parse ts us,
  c_enc cf <> U16 -> Forall (fun t => class_of t <> None) types -> wf_tok cf types ts 0 -> wf_tok cf types us 0 -> reworded types ts us 0 ->
  (forall id d, In (Field id d) (ts ++ us) -> letter_of d <> Some 99) ->
  check_format_string cf contiguous borrowed types custom_parse (render (c_enc cf) ts) = Ok tt
  -> check_format_string cf contiguous borrowed types custom_parse (render (c_enc cf) us) = Ok tt.
Proof.
  intros cf contiguous borrowed types custom_parse ts us He HC W1 W2 HR HN E. apply C67_partial in E; try assumption. destruct E as (HU & HI & HA).
  apply C67_partial; try assumption. destruct (reworded_checked contiguous borrowed types (Z.of_nat (List.length types)) HC ts us 0 [] HR HN) as [E1 E2].
  rewrite <- E1, <- E2. split; [eapply reworded_uniform; eassumption|]. split; assumption.
Qed.
Print Assumptions C71_checked_partial.

(** ** Example *)
Definition run71 (ts : list (scalar_type nat)) f s := scan_with no_rx narrow classic None string_src (map TScalar ts) (T f) (T s).
(** Two ints, a pointer and a bool. *)
Definition kinds71 : list (scalar_type nat) := [TInt i32 IntType; TInt i32 IntType; TPointer; TBool].
Definition tokens71 : list token :=
  [Field None None; Lit 124; fld None (Some ARight) (Some (T "5")) None false (Some (TyLetter 120)); Lit 124; Field None None; Lit 124; fld (Some 32) (Some ALeft) (Some (T "3")) None false (Some (TyLetter 100))].
Definition words71 : list token :=
  [fld None None None None false (Some (TyLetter 100)); Lit 124; fld (Some 32) (Some ARight) (Some (T "05")) None false (Some (TyLetter 88)); Lit 124;
   fld None None None None false (Some (TyLetter 112)); Lit 124; fld None (Some ALeft) (Some (T "3")) None false (Some (TyLetter 105))].
Example C71_ex :
  render U8 tokens71 = T "{}|{:>5x}|{}|{: <3d}" /\ render U8 words71 = T "{:d}|{: >05X}|{:p}|{:<3i}"
  /\ Forall named kinds71 /\ Forall usual kinds71 /\ uniform tokens71 /\ uniform words71
  /\ reworded (map scalar_arg_type kinds71) tokens71 words71 0
  /\ wf_tok narrow (map scalar_arg_type kinds71) tokens71 0 /\ wf_tok narrow (map scalar_arg_type kinds71) words71 0
  /\ run71 kinds71 "{}|{:>5x}|{}|{: <3d}" " 12|   1f|0xff|1  !" = Ok ([(0, VLeaf (SVInt 12)); (1, VLeaf (SVInt 31)); (2, VLeaf (SVPointer 0xff)); (3, VLeaf (SVBool true))], T "!")
  /\ run71 kinds71 "{:d}|{: >05X}|{:p}|{:<3i}" " 12|   1f|0xff|1  !" = Ok ([(0, VLeaf (SVInt 12)); (1, VLeaf (SVInt 31)); (2, VLeaf (SVPointer 0xff)); (3, VLeaf (SVBool true))], T "!").
Proof.
  split; [vm_compute; reflexivity|]. split; [vm_compute; reflexivity|]. split; [repeat constructor; discriminate|]. split; [unfold kinds71; repeat (apply Forall_cons; [cbn [usual]; unfold type_ok; cbn; auto 10; fail|]); apply Forall_nil|].
  split; [left; unfold tokens71, fld; cbn [In]; intros id d H; repeat (destruct H as [H|H]; [congruence|]); contradiction|].
  split; [left; unfold words71, fld; cbn [In]; intros id d H; repeat (destruct H as [H|H]; [congruence|]); contradiction|].
  split.
  { cbn [reworded tokens71 words71 fld map kinds71].
    repeat match goal with
    | |- _ /\ _ => split
    | |- forall t k, _ -> _ -> _ => intros t k Ht Hk; cbn in Ht; injection Ht as <-; cbn in Hk; injection Hk as <-
    | |- same_meaning _ _ _ => unfold same_meaning; cbn [spelled_out d_align d_fill d_width d_prec d_local d_type]
    | |- same_type _ _ _ => right; eexists; eexists; split; [reflexivity|split; [reflexivity|]]
    | |- same_row _ _ _ => unfold same_row; cbn [rows map];
        match goal with |- exists row, In row ?l /\ _ =>
          let rec go l := match l with ?h :: ?t => first [exists h; split; [cbn [In]; auto 20|split; cbn [In]; auto 20]; fail|go t] end in go l end
    end; try exact I; try reflexivity. }
  split; [unfold wf_tok; cbn [wf_gtokens tokens71 fld]; unfold wf_id; doc_wf_tac|].
  split; [unfold wf_tok; cbn [wf_gtokens words71 fld]; unfold wf_id; doc_wf_tac|].
  split; vm_compute; reflexivity.
Qed.

(** ** Where the documented meaning is not kept *)
(** "o, O": 'O' is refused. *)
Theorem C71_octal_refuted : exists (t : scalar_type nat) s x,
  class_of (scalar_arg_type t) = Some ClInt /\ same_row ClInt (Some 111) (Some 79)
  /\ run71 [t] "{:o}" s = Ok x /\ run71 [t] "{:O}" s = Err InvalidFormatString.
Proof.
  exists (TInt i32 IntType), "17"%string. eexists. split; [reflexivity|]. split; [eexists; split; [right; right; left; reflexivity|split; cbn; auto]|]. split; vm_compute; reflexivity.
Qed.
(** "none, c": 'c' is refused for characters. *)
Theorem C71_character_refuted : exists (t : scalar_type nat) s x,
  class_of (scalar_arg_type t) = Some ClChar /\ same_row ClChar None (Some 99)
  /\ run71 [t] "{}" s = Ok x /\ run71 [t] "{:c}" s = Err InvalidFormatString.
Proof.
  exists (TChar KChar 0 NarrowCharacterType), "a"%string. eexists. split; [reflexivity|]. split; [eexists; split; [left; reflexivity|split; cbn; auto]|]. split; vm_compute; reflexivity.
Qed.
(** "none, s": aligned to the left, the word read without a type takes the fill characters in. *)
Theorem C71_word_refuted : exists (t : scalar_type nat) s x y,
  class_of (scalar_arg_type t) = Some ClString /\ same_row ClString None (Some 115)
  /\ run71 [t] "{:*<5}" s = Ok x /\ run71 [t] "{:*<5s}" s = Ok y /\ x <> y.
Proof.
  exists (TString (DString U8) NarrowStringType), "ab***"%string. eexists. eexists. split; [reflexivity|]. split; [eexists; split; [left; reflexivity|split; cbn; auto]|].
  split; [vm_compute; reflexivity|]. split; [vm_compute; reflexivity|]. discriminate.
Qed.
(** No format-spec, and an empty one: at the end of the source a code point gives an error, or undefined behaviour. *)
Theorem C71_end_refuted : exists (t : scalar_type nat) s,
  class_of (scalar_arg_type t) = Some ClCodePoint /\ run71 [t] "{}" s = Err EndOfInput /\ run71 [t] "{:}" s = UB.
Proof. exists (TChar KCodePoint 0 CodePointType), ""%string. split; [reflexivity|]. split; vm_compute; reflexivity. Qed.
