(** Property C70, continued: any format string, ranges and tuples, any source. *)
From Coq Require Import String.
From Verif Require Import Prelude UnicodeModel UnicodeSpec WhitespaceModel ReadModel ReadProofs SpecsModel ArgsModel FormatModel FormatProofs FormatSpec FormatSpecProofs
  VscanModel VscanSpec IntModel ArgReaderModel ScalarModel StringModel FloatModel RangesModel RangesProofs LocaleModel VscanProofs VscanSpecProofs StringSafeProofs ScalarSpec ScalarProofs
  FloatSpec FloatProofs FloatInstance WidthSpec WidthProofs ArgReaderProofs EncodingLoopProofs EncodingReadProofs VscanProperties ScalarProperties LocaleProperties
  DocTypesSpec DocTypesProofs DocTypesRun DocTypesProperties FloatFieldProperties CaseSpec CaseProofs CaseFloatProofs CaseProperties FillProofs LockstepProofs IntProofs.
Import Coq.Strings.String.StringSyntax.
Local Open Scope list_scope.
Local Open Scope Z_scope.

(** Texts in lockstep. *)
Definition cased (e : enc) (s s' : list Z) : Prop := units e s /\ units e s' /\ same_case s s'.
Lemma cased_step {V} e (f : list Z -> outcome (V * list Z)) s s' :
  (forall s, units e s -> f (low s) = rest (f s)) -> (forall s v l, units e s -> f s = Ok (v, l) -> units e l) ->
  cased e s s' -> step (cased e) (f s) (f s').
Proof.
  intros H1 H2 (U & U' & HC). assert (H := alike f s s' (H1 s U) (H1 s' U') HC). unfold stepE.
  destruct (f s) as [[v l]| | |] eqn:E, (f s') as [[v' l']| | |] eqn:E'; try contradiction; cbn in *; auto.
  destruct H as [-> H]. split; [reflexivity|]. split; [apply (H2 s v' l U E)|]. split; [apply (H2 s' v' l' U' E')|exact H].
Qed.
Lemma step_result {V} e (x y : outcome (V * list Z)) : step (cased e) x y -> same_result x y.
Proof. unfold stepE. destruct x as [[v l]| | |], y as [[v' l']| | |]; cbn; try tauto. intros (-> & _ & _ & H). auto. Qed.
Lemma leaf_value_step {F} e (x y : outcome (svalue F * list Z)) : step (cased e) x y -> step (cased e) (leaf_value x) (leaf_value y).
Proof. unfold stepE. destruct x as [[v l]| | |], y as [[v' l']| | |]; cbn; try tauto. intros [-> H]. auto. Qed.
Lemma cased_empty e s : (cased e [] s -> s = []) /\ (cased e s [] -> s = []).
Proof. split; intros (_ & _ & H); destruct s; [reflexivity|discriminate H|reflexivity|discriminate H]. Qed.
Lemma cased_head e c d s d' s' : ~ letter c -> cased e (d :: s) (d' :: s') -> (d =? c) = (d' =? c) /\ (d = c -> cased e s s').
Proof.
  intros Hc (U & U' & H). injection H as H1 H2. rewrite <- (small_eq d c Hc), <- (small_eq d' c Hc), H1. split; [reflexivity|]. intros _.
  split; [eapply (units_suffix e s (d :: s)); [exists [d]; reflexivity|exact U]|]. split; [eapply (units_suffix e s' (d' :: s')); [exists [d']; reflexivity|exact U']|exact H2].
Qed.
Lemma cased_outcome e (f : list Z -> outcome (list Z)) s s' :
  (forall s, units e s -> f (low s) = lows (f s)) -> (forall s l, units e s -> f s = Ok l -> units e l) -> cased e s s' -> pair (cased e) (f s) (f s').
Proof.
  intros H1 H2 (U & U' & HC). assert (E := H1 s U). unfold same_case in HC. rewrite HC, (H1 s' U') in E. unfold keep, bind in E.
  destruct (f s) as [l| | |] eqn:E1, (f s') as [l'| | |] eqn:E2; try discriminate E; cbn; auto; try congruence.
  injection E as E. split; [apply (H2 s l U E1)|]. split; [apply (H2 s' l' U' E2)|]. symmetry. exact E.
Qed.
Lemma cased_space r s s' : cased (s_enc r) s s' -> pair (cased (s_enc r)) (read_while_classic_space r s) (read_while_classic_space r s').
Proof.
  apply cased_outcome.
  - intros t Ht. apply while_low, fit_units, Ht.
  - intros t l Ht E. destruct (read_while_classic_space_total r t Ht) as (l' & E' & HS). rewrite E' in E. injection E as <-. eapply units_suffix; eassumption.
Qed.
Lemma cased_skip r s s' : cased (s_enc r) s s' -> pair (cased (s_enc r)) (skip_classic_whitespace r s false) (skip_classic_whitespace r s' false).
Proof.
  apply (cased_outcome _ (fun t => skip_classic_whitespace r t false)).
  - intros t Ht. apply skip_low, fit_units, Ht.
  - intros t l Ht E. apply fit_units. eapply fit_skipped; [apply fit_units, Ht|exact E].
Qed.

(** Arguments whose reading is blind to case: numbers; ranges and tuples of them whose
    punctuation has no letters; types with scanners of their own which are. *)
Definition number_type {F} (t : scalar_type F) : Prop := numeric t /\ named t.
Inductive blind {F} (e : enc) : target F -> Prop :=
| Bl_scalar t : number_type t -> blind e (TScalar t)
| Bl_shape sh : shape_over (fun c => ~ letter c) number_type sh -> blind e (TShape sh)
| Bl_user parse scan : (forall f, suffix (parse f) f) ->
    (forall l f s s', units e s -> units e s' -> same_case s s' -> same_result (scan l f s) (scan l f s')) ->
    (forall l f s v s', units e s -> scan l f s = Ok (v, s') -> units e s') -> blind e (TUser parse scan).
Lemma number_no_regex {F} (t : scalar_type F) : number_type t -> no_regex (scalar_arg_type t) /\ scalar_arg_type t <> CustomType.
Proof. intros [H1 H2]. unfold no_regex. destruct H2 as [t a H| |k old a H| |d a H|f a H]; try contradiction; cbn; try (destruct a; try discriminate H); repeat split; discriminate. Qed.
Lemma scalar_step {F} rx r l (t : scalar_type F) sp s s' : number_type t -> plain_locale l -> fill_plain (fill sp) -> cased (s_enc r) s s' ->
  step (cased (s_enc r)) (scalar_specs rx r l t sp s) (scalar_specs rx r l t sp s').
Proof.
  intros [Ht _] HL HF. apply cased_step.
  - intros u Hu. apply scalar_specs_low; try assumption. apply fit_units, Hu.
  - intros u v m Hu E. apply fit_units. eapply scalar_specs_fit; try eassumption. apply fit_units, Hu.
Qed.
Lemma default_step {F} r (t : scalar_type F) s s' : number_type t -> cased (s_enc r) s s' -> step (cased (s_enc r)) (scalar_default r t s) (scalar_default r t s').
Proof.
  intros [Ht _]. apply cased_step.
  - intros u Hu. apply scalar_default_low; try assumption. apply fit_units, Hu.
  - intros u v m Hu E. apply fit_units. eapply scalar_default_fit; try eassumption. apply fit_units, Hu.
Qed.
Lemma custom_src_enc r : s_enc (custom_src r) = s_enc r.
Proof. unfold custom_src. destruct (s_contig r); reflexivity. Qed.
Lemma element_src_enc r sp s : s_enc (element_src r sp s) = s_enc r.
Proof. unfold element_src. destruct (s_contig r); [|reflexivity]. cbv zeta. destruct (_ || _); reflexivity. Qed.
Lemma element_src_case r sp s s' : same_case s s' -> element_src r sp s = element_src r sp s'.
Proof. intros H. unfold element_src. destruct s, s'; try discriminate H; reflexivity. Qed.
Lemma default_plain : fill_plain (fill specs_default).
Proof. split; [cbn; unfold letter; lia|repeat constructor; unfold letter; lia]. Qed.
(** A range or tuple from any source, with any specs whose fill is no letter. *)
Lemma shape_step {F} rx global r (sh : shape (scalar_type F)) sp s s' : shape_over (fun c => ~ letter c) number_type sh -> plain_locale (get_locale global None) -> fill_plain (fill sp) ->
  cased (s_enc r) s s' -> step (cased (s_enc r)) (shape_scan rx global r sh sp s) (shape_scan rx global r sh sp s').
Proof.
  intros HO HL HF HC. unfold shape_scan.
  apply (shape_same eq (@eq_refl err) (custom_src r) (custom_src r) (cased (s_enc r)) (fun c => ~ letter c)) with (okleaf := number_type) (SpOK := fun sp => fill_plain (fill sp)); try assumption.
  - apply cased_empty.
  - intros. eapply cased_head; eassumption.
  - intros a b Hab. rewrite <- custom_src_enc in *. apply cased_skip, Hab.
  - apply default_plain.
  - intros t q a b Ht Hq Hab. unfold element_scan. rewrite (element_src_case r q a b) by apply Hab.
    rewrite <- (element_src_enc r q b) in *. apply scalar_step; assumption.
Qed.
Theorem C70_ranges : forall (F : Type) rx global r (sh : shape (scalar_type F)) sp s s',
  shape_over (fun c => ~ letter c) number_type sh -> plain_locale (get_locale global None) ->
  ~ letter (get_code_unit (fill sp)) -> Forall (fun c => ~ letter c) (get_code_units (fill sp)) ->
  units (s_enc r) s -> units (s_enc r) s' -> same_case s s' ->
  same_result (shape_scan rx global r sh sp s) (shape_scan rx global r sh sp s').
Proof.
  intros F rx global r sh sp s s' HO HL F1 F2 U U' HC. apply (step_result (s_enc r)). apply shape_step; try assumption; [split; assumption|]. split; [|split]; assumption.
Qed.
Print Assumptions C70_ranges.

(** ** The format string *)
Lemma colon_split e : e <> U16 -> forall cps p t, Forall scalar cps -> text e cps = p ++ 58 :: t -> exists a b, cps = a ++ 58 :: b /\ t = text e b.
Proof.
  intros He. induction cps as [|c cps IH]; intros p t HS E; [destruct p; discriminate E|]. inversion HS as [|? ? Hc HS']; subst.
  assert (ET : text e (c :: cps) = encode e c ++ text e cps) by reflexivity.
  assert (HU : encode e c = [c] /\ (c < 128 \/ e = U32) \/ Forall (fun x => 128 <= x) (encode e c) /\ encode e c <> []).
  { destruct e; [|contradiction|left; split; [reflexivity|auto]]. cbn [encode]. unfold utf8_of, scalar in *. destruct (c <? 128) eqn:E1; [left; split; [reflexivity|left; lia]|right].
    assert (0 <= c / 64) by (apply Z.div_pos; lia). assert (0 <= c / 4096) by (apply Z.div_pos; lia). assert (0 <= c / 262144) by (apply Z.div_pos; lia).
    assert (D2 := Z.mod_pos_bound c 64 ltac:(lia)). assert (D3 := Z.mod_pos_bound (c / 64) 64 ltac:(lia)). assert (D4 := Z.mod_pos_bound (c / 4096) 64 ltac:(lia)).
    destruct (c <? 2048); [|destruct (c <? 65536)]; (split; [repeat constructor; lia|discriminate]). }
  rewrite ET in E. destruct HU as [[EE _]|[HH HN]].
  - rewrite EE in E. cbn [app] in E. destruct p as [|x p]; cbn [app] in E; injection E as E1 E2.
    + subst c. exists [], cps. auto.
    + destruct (IH p t HS' E2) as (a & b & -> & ->). exists (c :: a), b. auto.
  - revert p E HH. generalize (encode e c) as u. induction u as [|x u IHu]; intros p E HH; cbn [app] in E.
    + destruct (IH p t HS' E) as (a & b & -> & ->). exists (c :: a), b. auto.
    + inversion HH as [|? ? Hx HH']; subst. destruct p as [|y p]; cbn [app] in E; injection E as E1 E2; [lia|]. apply (IHu p E2 HH').
Qed.
Lemma specs_plain cf t fcps f p st : c_enc cf <> U16 -> Forall scalar fcps -> plain_fills (match c_enc cf with U8 => true | _ => false end) fcps ->
  suffix (58 :: f) (text (c_enc cf) fcps) -> parse_format_specs cf t f (SS specs_default false) = Ok (p, st) -> fill_plain (fill (ss_specs st)).
Proof.
  intros He HS HP [pre E] EP. destruct (colon_split _ He _ _ _ HS E) as (a & b & -> & ->). apply Forall_app in HS. destruct HS as [_ HS]. inversion HS as [|? ? _ HS']; subst.
  destruct (parse_fill_text cf t b p st He HS' EP) as [-> |(c & x & q & -> & HX & EF)]; [apply default_plain|].
  assert (HIn : In x [60; 62; 94]).
  { unfold check_align in HX. destruct (Z.eqb_spec x 60); [left; auto|]. destruct (Z.eqb_spec x 62); [right; left; auto|]. destruct (Z.eqb_spec x 94); [right; right; left; auto|]. contradiction HX; reflexivity. }
  assert (HC := HP a c x q eq_refl HIn). rewrite EF.
  assert (HD : plain_fill (c_enc cf) (Desc (Some c) None None None false None)).
  { intros d [= <-]. inversion HS' as [|? ? Hc _]; subst. split; [exact Hc|]. destruct (c_enc cf); exact HC. }
  apply mean_plain_fill in HD. exact HD.
Qed.
Lemma lits_both (P Q : Z -> Prop) : forall n f b, (List.length f <= n)%nat -> Forall Q f -> lits P b f -> lits (fun c => P c /\ Q c) b f.
Proof.
  induction n as [|n IH]; intros f b Hn HQ H; (destruct f as [|c f]; [exact I|cbn in Hn; try lia]). inversion HQ as [|? ? Hc HQ']; subst.
  cbn [lits] in *. destruct b; [apply IH; [lia|assumption..]|]. destruct (c =? 123).
  - destruct f as [|d f]; [exact I|]. cbn in Hn. inversion HQ' as [|? ? Hd HQ2]; subst. destruct (d =? 123); [split; [split; [apply H|exact Hd]|apply IH; [lia|assumption|apply H]]|apply IH; [cbn; lia|assumption..]].
  - split; [split; [apply H|exact Hc]|apply IH; [lia|assumption|apply H]].
Qed.

(** Any format string, valid or not, whose literal text and fills have no letters, with numbers,
    ranges and tuples of them, from any source: the outcomes differ at most in the case of the
    text left.  The same error comes of both, too. *)
Theorem C70_format : forall (F : Type) rx cf global l r (ts : list (target F)) fcps source source',
  c_enc cf = s_enc r -> s_enc r <> U16 -> plain_locale (get_locale global l) -> plain_locale (get_locale global None) ->
  Forall (blind (s_enc r)) ts ->
  Forall scalar fcps -> lits (fun c => ~ letter c) false (text (s_enc r) fcps) -> plain_fills (match s_enc r with U8 => true | _ => false end) fcps ->
  units (s_enc r) source -> units (s_enc r) source' -> same_case source source' ->
  same_result (scan_with rx cf global l r ts (text (s_enc r) fcps) source) (scan_with rx cf global l r ts (text (s_enc r) fcps) source').
Proof.
  intros F rx cf global l r ts fcps source source' Hcf He HL HL0 HB HS HLit HPF U U' HC. apply (step_result (s_enc r)). unfold scan_with.
  assert (HP : forall t f p st, suffix (58 :: f) (text (s_enc r) fcps) -> parse_format_specs cf t f (SS specs_default false) = Ok (p, st) -> fill_plain (fill (ss_specs st))).
  { intros t f p st. rewrite <- Hcf. apply specs_plain; rewrite ?Hcf; assumption. }
  assert (HSuf : forall t f p st, no_regex t -> suffix f (text (s_enc r) fcps) -> parse_format_specs cf t f (SS specs_default false) = Ok (p, st) -> suffix p (text (s_enc r) fcps)).
  { intros t f p st Ht Hf E. destruct (parse_format_specs_safe cf t f (SS specs_default false) Ht) as (p' & st' & E' & HSf). rewrite E' in E. injection E as <- <-. eapply suffix_trans; eassumption. }
  apply (vscan_same eq (@eq_refl err) r r cf (text (s_enc r) fcps) eq_refl (cased (s_enc r)) (fun c => ~ letter c /\ units (s_enc r) [c]) (fun c => ~ letter c /\ units (s_enc r) [c]) (fun sp => fill_plain (fill sp))).
  - apply (lits_both _ _ (List.length (text (s_enc r) fcps))); [apply Nat.le_refl| |exact HLit].
    assert (HU := text_units (s_enc r) fcps HS). revert HU. generalize (text (s_enc r) fcps) as u. destruct (s_enc r); cbn; intros u Hu; [|apply Forall_forall; intros; exact I..].
    eapply Forall_impl; [|exact Hu]. intros x Hx. constructor; [exact Hx|constructor].
  - intros t Ht. destruct (s_enc r); cbn in *; auto. eapply Forall_impl; [|exact Ht]. intros x [_ Hx]. inversion Hx; assumption.
  - apply cased_empty.
  - intros c t after cp sp Hc _ _. exact Hc.
  - intros c d s d' s' [Hc _]. apply cased_head, Hc.
  - apply cased_space.
  - (* arguments *)
    assert (HX : forall t : target F, blind (s_enc r) t -> steps eq (text (s_enc r) fcps) (cased (s_enc r)) (fun sp => fill_plain (fill sp)) (target_arg rx cf global l r t) (target_arg rx cf global l r t)).
    { intros t Ht. destruct Ht as [t Ht|sh Hsh|parse scan H1 H2 H3].
      - constructor; cbn [target_arg ar_type ar_default ar_plain ar_specs ar_custom]; auto.
        + intros s s' Hss. apply leaf_value_step, default_step; assumption.
        + intros s s' Hss. apply leaf_value_step, default_step; assumption.
        + intros _ sp s s' Hsp Hss. apply leaf_value_step, scalar_step; assumption.
        + intros E. apply number_no_regex in Ht. destruct Ht as [_ Ht]. contradiction.
      - constructor; cbn [target_arg ar_type ar_default ar_plain ar_specs ar_custom]; auto.
        + intros s s' Hss. apply shape_step; auto. apply default_plain.
        + intros s s' Hss. apply shape_step; auto. apply default_plain.
        + intros E. contradiction E; reflexivity.
        + intros _ f s s' Hf Hss. assert (Hf' := suffix_cons_inv _ _ _ Hf).
          assert (HT : forall a, shape_type sh = Some a -> no_regex a).
          { clear -Hsh. induction sh as [t|n p sh IH|p es IH] using shape_all; cbn in *; intros a E; [injection E as <-; apply number_no_regex, Hsh|apply IH; [apply Hsh|exact E]|discriminate E]. }
          unfold shape_parse. destruct (shape_type sh) as [a|]; [destruct f as [|c f]|].
          * cbn. split; [reflexivity|]. split; [exact Hf'|]. apply shape_step; auto. apply default_plain.
          * destruct (parse_format_specs cf a (c :: f) (SS specs_default false)) as [[p st]| | |] eqn:EP; cbn [bind fst snd].
            -- split; [reflexivity|]. split; [eapply HSuf; [apply HT; reflexivity|exact Hf'|exact EP]|]. apply shape_step; auto. eapply HP; eassumption.
            -- split; [reflexivity|]. split; [exact Hf'|reflexivity].
            -- split; [reflexivity|]. split; [exact Hf'|exact I].
            -- split; [reflexivity|]. split; [exact Hf'|exact I].
          * cbn. split; [reflexivity|]. split; [exact Hf'|]. apply shape_step; auto. apply default_plain.
      - assert (HRun : forall lo f s s', cased (s_enc r) s s' -> step (cased (s_enc r)) (leaf_value (as_value (F := F) SVUser (scan lo f s))) (leaf_value (as_value (F := F) SVUser (scan lo f s')))).
        { intros lo f s s' (A & B & C). apply leaf_value_step. assert (HR := H2 lo f s s' A B C). unfold stepE.
          destruct (scan lo f s) as [[v m]| | |] eqn:E1, (scan lo f s') as [[v' m']| | |] eqn:E2; cbn in *; try contradiction; auto.
          destruct HR as [-> HR]. split; [reflexivity|]. split; [eapply (H3 lo f s); eassumption|]. split; [eapply (H3 lo f s'); eassumption|exact HR]. }
        constructor; cbn [target_arg ar_type ar_default ar_plain ar_specs ar_custom]; auto.
        + intros E. contradiction E; reflexivity.
        + intros _ f s s' Hf Hss. cbn [fst snd]. split; [reflexivity|]. split; [|apply HRun, Hss].
          eapply suffix_trans; [apply H1|]. eapply suffix_cons_inv, Hf. }
    clear -HX HB. induction HB as [|t ts Ht _ IH]; cbn [map]; constructor; auto.
  - intros t Ht Hn f p st Hf EP. split; [|eapply HP; eassumption].
    eapply HSuf; [|eapply suffix_cons_inv, Hf|exact EP]. destruct Ht as [<-|Ht]; [split; discriminate|].
    rewrite map_map in Ht. apply in_map_iff in Ht. destruct Ht as (u & E & HIn). rewrite Forall_forall in HB. specialize (HB u HIn).
    destruct HB as [t' Ht'|sh Hsh|parse scan]; cbn in E; subst t; [apply number_no_regex, Ht'|contradiction Hn; reflexivity..].
  - split; [|split]; assumption.
Qed.
Print Assumptions C70_format.

(** ** A case: "{:x} - {:*^9} ; {}" with a vector of int, a pointer and a map to double *)
Definition targets70 : list (target FloatInstance.exact) :=
  [TShape (vector_of 5 (SLeaf (TInt i32 IntType))); TScalar TPointer;
   TShape (map_of 5 (SLeaf (TInt u8 UCharType)) (SLeaf (TFloat (exact_fp false) DoubleType)))].
Definition chunks : src := Src U8 false (fun n => if (n <? 7)%nat then 1%nat else 4%nat).
Ltac lits_tac := match goal with |- lits ?P ?b ?f => let v := eval vm_compute in f in change (lits P b v) end; cbn [lits Z.eqb Pos.eqb negb]; repeat (split; [unfold letter; lia|]); exact I.
Example C70_format_ex :
  (forall r, r = string_src \/ r = chunks ->
     scan_with no_rx narrow classic None r targets70 (T "{:x} - {:*^9} ; {}") (T "[0xAb, C] - *0XbeEF** ; {1: 1.5e3,2:iNF}Zz")
     = Ok ([(0, VSeq [VLeaf (SVInt 0xab); VLeaf (SVInt 0xc)]); (1, VLeaf (SVPointer 0xbeef));
            (2, VSeq [VTup [VLeaf (SVInt 1); VLeaf (SVFloat (Fraction false 1500 1))]; VTup [VLeaf (SVInt 2); VLeaf (SVFloat (Infinity false))]])], T "Zz")
     /\ scan_with no_rx narrow classic None r targets70 (T "{:x} - {:*^9} ; {}") (T "[0XaB, c] - *0xBEeF** ; {1: 1.5E3,2:InF}zZ")
     = Ok ([(0, VSeq [VLeaf (SVInt 0xab); VLeaf (SVInt 0xc)]); (1, VLeaf (SVPointer 0xbeef));
            (2, VSeq [VTup [VLeaf (SVInt 1); VLeaf (SVFloat (Fraction false 1500 1))]; VTup [VLeaf (SVInt 2); VLeaf (SVFloat (Infinity false))]])], T "zZ"))
  (* a format string which is not valid, and a source which does not fit *)
  /\ scan_with no_rx narrow classic None string_src targets70 (T "{:x} - {:Q} ;") (T "[0xAb, C] - *0XbeEF") = Err InvalidFormatString
  /\ scan_with no_rx narrow classic None string_src targets70 (T "{:x} - {:Q} ;") (T "[0xAB, c] - *0XBEEF") = Err InvalidFormatString
  /\ scan_with no_rx narrow classic None string_src targets70 (T "{:x} - {:*^9} ; {}") (T "[0xAb, C] - *0XbeEF** ; {1: X}") = Err InvalidScannedValue
  /\ scan_with no_rx narrow classic None string_src targets70 (T "{:x} - {:*^9} ; {}") (T "[0xAB, c] - *0XBEEF** ; {1: x}") = Err InvalidScannedValue
  /\ Forall (blind U8) targets70 /\ plain_locale (get_locale classic None)
  /\ lits (fun c => ~ letter c) false (T "{:x} - {:*^9} ; {}") /\ plain_fills true (T "{:x} - {:*^9} ; {}") /\ text U8 (T "{:x} - {:*^9} ; {}") = T "{:x} - {:*^9} ; {}"
  /\ lits (fun c => ~ letter c) false (T "{:x} - {:Q} ;").
Proof.
  split; [intros r [-> | ->]; split; vm_compute; reflexivity|].
  do 4 (split; [vm_compute; reflexivity|]).
  assert (NUM : forall (t : inttype) a, class_of a = Some ClInt -> number_type (F := FloatInstance.exact) (TInt t a)) by (intros t a H; split; [exact I|constructor; exact H]).
  assert (PP : forall p, p = seq_punct \/ p = set_punct \/ p = pair_punct -> punct_all (fun c => ~ letter c) p).
  { intros p [-> |[-> | ->]]; (split; [|split]); repeat (apply Forall_cons; [unfold letter; lia|]); apply Forall_nil. }
  split.
  { apply Forall_cons; [|apply Forall_cons; [|apply Forall_cons; [|apply Forall_nil]]].
    - apply Bl_shape. split; [apply PP; auto|apply NUM; reflexivity].
    - apply Bl_scalar. split; [exact I|constructor].
    - apply Bl_shape. split; [apply PP; auto|]. split; [apply PP; auto|]. split; [apply NUM; reflexivity|]. split; [|exact I]. split; [apply exact_blind|constructor; reflexivity]. }
  split; [split; cbn; unfold letter; lia|].
  assert (FILLS : forall f, f = T "{:x} - {:*^9} ; {}" -> plain_fills true f).
  { intros f Ef p c a q E HIn. subst f. do 20 (destruct p as [|? p]; [cbn in E; try discriminate E; injection E; intros; subst; cbn in HIn; try (exfalso; lia); unfold letter; lia|cbn in E; try discriminate E; injection E as _ E]). }
  split; [lits_tac|]. split; [apply FILLS; reflexivity|]. split; [vm_compute; reflexivity|].
  lits_tac.
Qed.
