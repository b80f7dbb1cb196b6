(** Property C69, continued: any format string, success and failure, ranges and tuples. *)
From Coq Require Import String.
From Verif Require Import Prelude UnicodeModel UnicodeSpec WhitespaceModel ReadModel ReadProofs SpecsModel SpecsInvProofs ArgsModel FormatModel FormatProofs FormatSpec FormatSpecProofs
  VscanModel VscanSpec IntModel ArgReaderModel ScalarModel StringModel FloatModel RangesModel RangesProofs LocaleModel VscanProofs VscanSpecProofs StringSafeProofs ScalarSpec ScalarProofs StringProofs
  FloatSpec FloatProofs FloatTotal FloatInstance WidthSpec WidthProofs ArgReaderProofs EncodingProofs EncodingLoopProofs EncodingReadProofs FollowSpec FollowProofs FollowIntProofs VscanProperties ScalarProperties LocaleProperties EncodingProperties FollowProperties
  DocTypesSpec DocTypesProofs DocTypesRun DocTypesProperties IntTotalProofs StringSafeProofs PrintedProofs DiscardProofs RespaceSpec RespaceProofs RespaceProperties CaseSpec CaseFormatProperties LockstepProofs EncodingRangeProperties IntProofs.
Import Coq.Strings.String.StringSyntax.
Local Open Scope list_scope.
Local Open Scope Z_scope.

(** ** Texts in lockstep *)
Definition lax : err -> err -> Prop := fun _ _ => True.
Lemma lax_refl e : lax e e. Proof. exact I. Qed.
Definition spaced (s s' : list Z) : Prop := Forall scalar s /\ respaced s s'.
Lemma spaced_empty s : (spaced [] s -> s = []) /\ (spaced s [] -> s = []).
Proof.
  split; intros [_ H]; destruct (respaced_next _ _ H) as [[E1 E2]|[(c & m & m' & E1 & E2 & _)|(w & m & w' & m' & E1 & E2 & _)]]; try discriminate; auto.
Qed.
Lemma spaced_head c d s d' s' : is_ws c = false -> spaced (d :: s) (d' :: s') -> (d =? c) = (d' =? c) /\ (d = c -> spaced s s').
Proof.
  intros Hc [HS H]. inversion HS as [|? ? _ HS']; subst. destruct (respaced_next _ _ H) as [[E1 E2]|[(x & m & m' & E1 & E2 & Hx & HR)|(w & m & w' & m' & E1 & E2 & Hw & Hw' & HR)]]; try discriminate.
  - injection E1 as <- <-. injection E2 as <- <-. split; [reflexivity|]. intros _. split; assumption.
  - injection E1 as <- <-. injection E2 as <- <-. destruct (Z.eqb_spec d c), (Z.eqb_spec d' c); subst; try congruence. split; [reflexivity|]. intros E. contradiction.
Qed.
Lemma spaced_behind s s' : spaced s s' -> spaced (behind s) (behind s').
Proof. intros [HS H]. split; [apply behind_scalar, HS|]. unfold respaced. rewrite !behind_squeeze. apply respaced_true, H. Qed.
Lemma spaced_space r s s' : s_enc r = U32 -> spaced s s' -> pairE lax spaced (read_while_classic_space r s) (read_while_classic_space r s').
Proof.
  intros E32 HR. assert (HS' := respaced_scalar _ _ (proj2 HR) (proj1 HR)).
  assert (H1 := while_space_text r s (wide_whole r s ltac:(congruence)) (proj1 HR)). assert (H2 := while_space_text r s' (wide_whole r s' ltac:(congruence)) HS').
  rewrite E32, !text32 in H1, H2. rewrite H1, H2. apply spaced_behind, HR.
Qed.
Lemma spaced_skip r s s' : s_enc r = U32 -> spaced s s' -> pairE lax spaced (skip_classic_whitespace r s false) (skip_classic_whitespace r s' false).
Proof.
  intros E32 HR. assert (HS' := respaced_scalar _ _ (proj2 HR) (proj1 HR)). assert (HB := spaced_behind _ _ HR).
  assert (SK : forall t, Forall scalar t -> skip_classic_whitespace r t false = match behind t with [] => Err EndOfInput | x => Ok x end).
  { intros t Ht. assert (H := skip_wide r (fun x => Ok (tt, x)) t E32 Ht). unfold skipping in H. destruct (skip_classic_whitespace r t false); cbn [bind] in H; destruct (behind t); congruence. }
  rewrite !SK by (assumption || apply HR). destruct (behind s) as [|x m] eqn:E1, (behind s') as [|y n] eqn:E2; [exact I|apply spaced_empty in HB; discriminate|apply spaced_empty in HB; discriminate|exact HB].
Qed.

(** ** One value *)
Definition lockstep {V} (f : list Z -> outcome (V * list Z)) : Prop := forall s s', spaced s s' -> stepE lax spaced (f s) (f s').
Lemma respacing_lockstep {V} r (f : list Z -> outcome (V * list Z)) : s_enc r = U32 -> respacing f -> reader_ok V r f -> lockstep f.
Proof.
  intros E32 HF HO s s' [HS HR]. assert (HS' := respaced_scalar _ _ HR HS). unfold stepE.
  assert (OK : forall t, (exists v b, f t = Ok (v, b)) \/ exists e, f t = Err e).
  { intros t. destruct (HO t) as [(v & b & E & _)|[e E]]; [rewrite E32; exact I|eauto|eauto]. }
  destruct (OK s) as [(v & b & E)|[e E]].
  - destruct (HF s s' v b HS (respaced_true _ _ HR) E) as (b' & E' & Hb & Hsb). rewrite E, E'. cbn. split; [reflexivity|]. split; assumption.
  - destruct (OK s') as [(v & b & E')|[e' E']]; [|rewrite E, E'; exact I].
    destruct (HF s' s v b HS' (respaced_true _ _ (respaced_sym _ _ HR)) E') as (b' & E2 & _). congruence.
Qed.
Section Values.
Context {F : Type}.
Variables (rx : regex_engine) (cf : config) (global : locale) (l : locale_ref).
Notation loc := (get_locale global l).
Definition clear_sep (lo : locale) : Prop := plain_sep (l_sep lo) /\ is_ws (l_sep lo) = false.
Hypothesis Hloc : clear_sep loc.
Variable r : src.
Hypothesis E32 : s_enc r = U32.
Definition spaced_type (t : scalar_type F) : Prop := apart global l t /\ usual t.
Definition plainly (sp : specs) : Prop := unbounded sp /\ parsed sp.
Lemma as_ok {A} (g : A -> svalue F) f : reader_ok A r f -> reader_ok (svalue F) r (fun s => as_value g (f s)).
Proof. intros H s Hu. destruct (H s Hu) as [(v & s' & E & Hs)|[e E]]; unfold as_value; rewrite E; cbn [bind]; [left|right]; eauto. Qed.
Lemma plain_ok {A} (rd : reader A) sp : plain_specs sp -> (rd_check rd sp = true -> reader_ok A r (rd_specs rd r sp)) -> reader_ok A r (arg_read_checked r rd sp).
Proof.
  intros HP HR s Hu. unfold arg_read_checked. destruct (rd_check rd sp); [|right; eexists; reflexivity]. rewrite arg_read_plain by exact HP.
  destruct (rd_skip rd sp); [|apply HR; [reflexivity|exact Hu]]. rewrite <- default_skip. apply default_read_ok; [apply HR; reflexivity|exact Hu].
Qed.
Lemma pointer_ok sep : reader_ok Z r (pointer_read sep r).
Proof.
  intros s Hu. destruct (int_specs_total r u64 hex_specs sep s 16) as [(v & s' & E & Hs & _)|[e E]]; unfold IntProofs.type_ok, base_ok; cbn; auto 10; try lia.
  - intros E. congruence.
  - left. eauto.
  - right. eauto.
Qed.
Lemma default_total t : spaced_type t -> reader_ok (svalue F) r (scalar_default r t).
Proof.
  intros [[[_ Ht] Hc] Hus]. destruct t; cbn [scalar_default]; try contradiction.
  - apply (as_ok SVInt). apply default_read_ok. intros s Hu.
    destruct (int_default_total r t s 10) as [(v & s' & E & Hs & _)|[e E]]; [exact Hus|intros E; congruence|right; unfold base_ok; lia| |]; [left|right]; unfold int_read_default; eauto.
  - apply (as_ok SVBool), default_read_ok, bool_either_ok, classic_ok.
  - apply (as_ok SVPointer), default_read_ok, pointer_ok.
  - apply (as_ok SVString). intros s Hu. destruct (string_default_total d r s Hu) as [H|(v & rest & pre & part & H & E & _)]; [right; exact H|].
    left. exists v, rest. split; [exact H|]. exists (pre ++ part). rewrite E, app_assoc. reflexivity.
  - destruct Hus as [M C]. apply (as_ok SVFloat), (float_default_ok f M C).
Qed.
Lemma specs_total t sp : spaced_type t -> plainly sp -> reader_ok (svalue F) r (scalar_specs rx r loc t sp).
Proof.
  intros [[[_ Ht] Hc] Hus] [(HP & N1 & N2 & N3 & _) Hp]. destruct t; cbn [scalar_specs]; try contradiction.
  - apply (as_ok SVInt), plain_ok; [exact HP|]. intros HC. apply int_read_ok; [exact Hus|exact Hp|left; exact HC].
  - apply (as_ok SVBool), plain_ok; [exact HP|]. intros _. cbn [bool_reader rd_specs]. unfold bool_specs. destruct (bool_options sp) as [tx nu].
    apply bool_either_ok. destruct (localized sp); [apply custom_ok|apply classic_ok].
  - apply (as_ok SVPointer), plain_ok; [exact HP|]. intros _. apply pointer_ok.
  - apply (as_ok SVString). intros s Hu. unfold string_arg, arg_read_checked. cbn [string_reader rd_check rd_skip rd_specs].
    destruct (check_string_type_specs sp); [|right; eexists; reflexivity]. rewrite arg_read_plain by exact HP. unfold string_skip, string_specs.
    assert (EP : precision sp = 0) by apply HP. destruct (string_kind_of sp) eqn:EK.
    + rewrite <- default_skip. change (default_read r true (word_read d r) s) with (string_default d r s).
      destruct (string_default_total d r s Hu) as [H|(v & rest & pre & part & H & E & _)]; [right; exact H|].
      left. exists v, rest. split; [exact H|]. exists (pre ++ part). rewrite E, app_assoc. reflexivity.
    + exfalso. unfold string_kind_of in EK. destruct HP as (HP & _). rewrite HP in EK. destruct (type sp); discriminate.
    + cbn [bind]. right. unfold character_read. rewrite EP. eexists. reflexivity.
    + exfalso. unfold string_kind_of in EK. destruct (type sp); try discriminate; try congruence; destruct (align sp); discriminate.
    + exfalso. unfold string_kind_of in EK. destruct (type sp); try discriminate; try congruence; destruct (align sp); discriminate.
    + exfalso. unfold string_kind_of in EK. destruct (type sp); try discriminate; try congruence; destruct (align sp); discriminate.
  - destruct Hus as [M C]. apply (as_ok SVFloat), plain_ok; [exact HP|]. cbn [float_reader rd_check rd_specs]. intros HC. apply (float_specs_ok f M C), HC.
Qed.
Lemma default_lockstep t : spaced_type t -> lockstep (scalar_default r t).
Proof. intros Ht. apply (respacing_lockstep r); [exact E32|apply (default_apart global l); [exact E32|apply Ht]|apply default_total, Ht]. Qed.
Lemma specs_lockstep t sp : spaced_type t -> plainly sp -> lockstep (scalar_specs rx r loc t sp).
Proof. intros Ht Hp. apply (respacing_lockstep r); [exact E32|destruct Hloc; apply (specs_apart rx global l); [assumption|assumption|exact E32|apply Ht|apply Hp]|apply specs_total; assumption]. Qed.
End Values.
Lemma leaf_lockstep {F} (f : list Z -> outcome (svalue F * list Z)) : lockstep f -> lockstep (fun s => leaf_value (f s)).
Proof. intros H s s' HR. assert (HF := H s s' HR). unfold stepE in *. destruct (f s) as [[v m]| | |], (f s') as [[v' m']| | |]; cbn in *; try tauto. destruct HF as [-> HF]. auto. Qed.
Lemma default_plainly : plainly specs_default.
Proof. split; [|apply parsed_default]. repeat split; discriminate. Qed.

(** ** Ranges and tuples *)
Definition solid (c : Z) : Prop := is_ws c = false.
Lemma element_src_spaced r sp s s' : spaced s s' -> element_src r sp s = element_src r sp s'.
Proof. intros H. unfold element_src. destruct s, s'; try reflexivity; apply spaced_empty in H; discriminate H. Qed.
Lemma shape_lockstep {F} rx global r (sh : shape (scalar_type F)) sp : s_enc r = U32 -> clear_sep (get_locale global None) ->
  shape_over solid (spaced_type global None) sh -> plainly sp -> lockstep (shape_scan rx global r sh sp).
Proof.
  intros E32 HL HO HP s s' HR. unfold shape_scan.
  assert (EC : s_enc (custom_src r) = U32) by (rewrite custom_src_enc; exact E32).
  apply (shape_same lax lax_refl (custom_src r) (custom_src r) spaced solid) with (okleaf := spaced_type global None) (SpOK := plainly); try assumption.
  - apply spaced_empty.
  - intros. eapply spaced_head; eassumption.
  - intros a b Hab. apply spaced_skip; assumption.
  - apply default_plainly.
  - intros t q a b Ht Hq Hab. unfold element_scan. rewrite (element_src_spaced r q a b Hab). apply specs_lockstep; auto. rewrite element_src_enc. exact E32.
Qed.

(** ** The format string *)
Lemma type_letter c t : parse_presentation_type c = Ok t -> t <> PStringSet /\ t <> PRegex /\ t <> PRegexEscaped.
Proof. unfold parse_presentation_type. repeat match goal with |- context [if ?b then _ else _] => destruct b end; intros [= <-]; repeat split; discriminate. Qed.
Definition fresh (sp : specs) : Prop := plain_specs sp /\ type sp <> PStringSet /\ type sp <> PRegex /\ type sp <> PRegexEscaped.
Lemma presentation_fresh cf c s st p st' : c <> 91 -> c <> 47 -> fresh (ss_specs st) -> do_presentation cf (c :: s) st = Ok (p, st') -> fresh (ss_specs st').
Proof.
  intros H1 H2 (HP & HT) H. unfold do_presentation in H. replace (c =? 91) with false in H by lia. replace (c =? 47) with false in H by lia.
  destruct (parse_presentation_type c) as [t| | |] eqn:ET; try discriminate. cbn [bind] in H. apply type_letter in ET.
  destruct t; injection H as <- <-; (split; [exact HP|]); try exact HT; exact ET.
Qed.
Lemma parse_fresh cf t f p st : c_enc cf = U32 -> 
  match f with [] => True | c :: u => ~ (48 <= c <= 57) /\ ~ In c [46; 47; 60; 62; 91; 94; 123] /\ match u with d :: _ => ~ In d [60; 62; 94] /\ (c = 76 -> ~ In d [47; 91]) | [] => True end end ->
  parse_format_specs cf t f (SS specs_default false) = Ok (p, st) -> fresh (ss_specs st).
Proof.
  assert (F0 : fresh specs_default) by (repeat split; discriminate).
  intros E32 HF H. unfold parse_format_specs in H. destruct f as [|c f]; [injection H as <- <-; exact F0|]. destruct HF as (HD & HI & HN). cbn [In] in HI.
  destruct (specs_shortcut (c :: f)); [eapply presentation_fresh; [| | |exact H]; [intros ->; apply HI; auto 10..|exact F0]|].
  assert (TAIL : forall st0, fresh (ss_specs st0) -> parse_specs_tail cf t (c :: f) st0 = Ok (p, st) -> fresh (ss_specs st)).
  { intros st0 H0 HT. unfold parse_specs_tail in HT. destruct (Z.eqb_spec c 76) as [Ec|Ec].
    - destruct (on_localized t st0) as [st1| | |] eqn:EL; try discriminate. cbn [bind] in HT.
      assert (H1 : fresh (ss_specs st1)).
      { unfold on_localized in EL. apply CheckerProofs.bind_ok in EL. destruct EL as (cat & _ & EL). destruct cat; inversion EL; subst; exact H0. }
      destruct f as [|d f]; [injection HT as <- <-; exact H1|]. destruct HN as [_ HN]. specialize (HN Ec). cbn [In] in HN.
      destruct (negb (d =? 125)).
      + destruct (do_presentation cf (d :: f) st1) as [[s2 st2]| | |] eqn:EP; try discriminate. cbn [bind] in HT.
        apply presentation_fresh in EP; [|intros ->; apply HN; auto|intros ->; apply HN; auto|exact H1]. destruct s2; injection HT as <- <-; exact EP.
      + cbn [bind] in HT. injection HT as <- <-. exact H1.
    - cbn [bind] in HT. destruct (negb (c =? 125)).
      + destruct (do_presentation cf (c :: f) st0) as [[s2 st2]| | |] eqn:EP; try discriminate. cbn [bind] in HT.
        apply presentation_fresh in EP; [|intros ->; apply HI; auto 10|intros ->; apply HI; auto 10|exact H0]. destruct s2; injection HT as <- <-; exact EP.
      + cbn [bind] in HT. injection HT as <- <-. exact H0. }
  assert (EA : parse_align (c_enc cf) (c :: f) (SS specs_default false) = Ok (c :: f, SS specs_default false)).
  { unfold parse_align. rewrite E32. cbn [code_point_length length Nat.eqb Nat.ltb Nat.leb orb skipn]. cbv zeta.
    destruct f as [|d f]; [reflexivity|]. destruct HN as [HN _]. cbn [In] in HN.
    assert (C1 : check_align d = ANone) by (unfold check_align; replace (d =? 60) with false by lia; replace (d =? 62) with false by lia; replace (d =? 94) with false by lia; reflexivity).
    assert (C2 : check_align c = ANone) by (unfold check_align; replace (c =? 60) with false by lia; replace (c =? 62) with false by lia; replace (c =? 94) with false by lia; reflexivity).
    replace (c =? 123) with false by lia. replace (c =? 91) with false by lia. cbn [andb]. rewrite C1, C2. reflexivity. }
  rewrite EA in H. cbn [bind] in H. unfold parse_width in H.
  assert (ED : FormatModel.is_digit c = false) by (unfold FormatModel.is_digit; lia). rewrite ED in H. cbn [bind] in H. replace (c =? 46) with false in H by lia. eapply TAIL; [|exact H]. exact F0.
Qed.

(** Arguments in whose reading white space is skipped: scalars other than characters, ranges and
    tuples of them whose punctuation has no white space, user types that do the same. *)
Inductive spaced_target {F} (global : locale) (l : locale_ref) : target F -> Prop :=
| Sp_scalar t : named t -> spaced_type global l t -> spaced_target global l (TScalar t)
| Sp_shape sh : shape_over solid (fun t => named t /\ spaced_type global None t) sh -> spaced_target global l (TShape sh)
| Sp_user parse scan : (forall f, suffix (parse f) f) ->
    (forall lo f s s', Forall scalar s -> respaced s s' -> same_but_space (scan lo f s) (scan lo f s')) ->
    (forall lo f s v rest, Forall scalar s -> scan lo f s = Ok (v, rest) -> Forall scalar rest) -> spaced_target global l (TUser parse scan).

Theorem C69_format : forall (F : Type) rx cf global l r (ts : list (target F)) format source source',
  c_enc cf = U32 -> s_enc r = U32 -> clear_sep (get_locale global l) -> clear_sep (get_locale global None) ->
  Forall (spaced_target global l) ts -> no_bounds format -> Forall scalar source -> respaced source source' ->
  same_but_space (scan_with rx cf global l r ts format source) (scan_with rx cf global l r ts format source').
Proof.
  intros F rx cf global l r ts format source source' Hcf E32 HL HL0 HT HB HS HR.
  assert (G : stepE lax spaced (scan_with rx cf global l r ts format source) (scan_with rx cf global l r ts format source')).
  2: { unfold stepE in G. destruct (scan_with rx cf global l r ts format source) as [[v m]| | |], (scan_with rx cf global l r ts format source') as [[v' m']| | |]; cbn in *; try tauto. destruct G as (-> & _ & G). auto. }
  unfold scan_with.
  assert (HP : forall t f p st, suffix (58 :: f) format -> parse_format_specs cf t f (SS specs_default false) = Ok (p, st) -> plainly (ss_specs st)).
  { intros t f p st [q Eq] EP. assert (HF := parse_fresh cf t f p st Hcf (HB q f Eq) EP). assert (HD := parse_parsed _ _ _ _ _ EP).
    split; [|exact HD]. destruct HF as (A & B & C & D). split; [exact A|]. repeat split; auto. apply HD. }
  assert (HSuf : forall t f p st, no_regex t -> suffix f format -> parse_format_specs cf t f (SS specs_default false) = Ok (p, st) -> suffix p format).
  { intros t f p st Ht Hf E. destruct (parse_format_specs_safe cf t f (SS specs_default false) Ht) as (p' & st' & E' & HSf). rewrite E' in E. injection E as <- <-. eapply suffix_trans; eassumption. }
  assert (NR : forall (t : scalar_type F), named t -> apart global l t \/ apart global None t -> no_regex (scalar_arg_type t) /\ scalar_arg_type t <> CustomType).
  { intros t Hn Ha. split; [destruct Ha as [[[Ha _] _]|[[Ha _] _]]; exact Ha|]. destruct Hn as [t a H| |k old a H| |d a H|f a H]; cbn; try (destruct a; try discriminate H); discriminate. }
  apply (vscan_same lax lax_refl r r cf format eq_refl spaced (fun _ => True) solid plainly).
  - clear. assert (G : forall n f b, (List.length f <= n)%nat -> lits (fun _ => True) b f).
    { induction n as [|n IH]; intros f b Hn; (destruct f as [|c f]; [exact I|cbn in Hn; try lia]). cbn [lits]. destruct b; [apply IH; lia|].
      destruct (c =? 123); [|split; [exact I|apply IH; lia]]. destruct f as [|d f]; [exact I|]. cbn in Hn. destruct (d =? 123); [split; [exact I|apply IH; lia]|apply IH; cbn; lia]. }
    apply (G (List.length format)), Nat.le_refl.
  - intros t _. rewrite E32. exact I.
  - apply spaced_empty.
  - intros c t after cp sp _ E Hsp. rewrite E32 in E. unfold is_first_char_space in E. apply CheckerProofs.bind_ok in E. destruct E as ([cp' rest] & E & E2). injection E2 as _ <- <-.
    rewrite <- is_ws_space in Hsp. unfold solid. destruct (is_ws c) eqn:EW; [|reflexivity]. exfalso. assert (HSc := ws_scalar c EW).
    rewrite (UnicodeProofs.next_cp_utf32 c t HSc) in E. injection E as <- <-. congruence.
  - intros c d s d' s' Hc. apply spaced_head, Hc.
  - intros s s' Hss. apply spaced_space; assumption.
  - assert (HX : forall t : target F, spaced_target global l t -> steps lax format spaced plainly (target_arg rx cf global l r t) (target_arg rx cf global l r t)).
    { intros t Ht. destruct Ht as [t Hn Ht|sh Hsh|parse scan H1 H2 H3].
      - constructor; cbn [target_arg ar_type ar_default ar_plain ar_specs ar_custom]; auto.
        + intros s s' Hss. apply (leaf_lockstep (scalar_default r t)); [eapply default_lockstep; eassumption|exact Hss].
        + intros s s' Hss. apply (leaf_lockstep (scalar_default r t)); [eapply default_lockstep; eassumption|exact Hss].
        + intros _ sp s s' Hsp Hss. apply (leaf_lockstep (scalar_specs rx r (get_locale global l) t sp)); [apply specs_lockstep; assumption|exact Hss].
        + intros E. exfalso. apply (NR t Hn); [left; apply Ht|exact E].
      - assert (HSH : forall sp, plainly sp -> lockstep (shape_scan rx global r sh sp)).
        { intros sp Hsp. apply shape_lockstep; try assumption. clear -Hsh. induction sh as [t|n p sh IH|p es IH] using shape_all; cbn [shape_over] in *.
          - apply Hsh.
          - split; [apply Hsh|apply IH, Hsh].
          - destruct Hsh as [Hp Hsh]. split; [exact Hp|]. clear Hp. induction IH as [|x es Hx HI IHes]; [exact I|]. destruct Hsh as [A B]. split; [apply Hx, A|apply IHes, B]. }
        constructor; cbn [target_arg ar_type ar_default ar_plain ar_specs ar_custom]; auto.
        + intros s s' Hss. apply HSH; auto. apply default_plainly.
        + intros s s' Hss. apply HSH; auto. apply default_plainly.
        + intros E. contradiction E; reflexivity.
        + intros _ f s s' Hf Hss. assert (Hf' := suffix_cons_inv _ _ _ Hf).
          assert (HTy : forall a, shape_type sh = Some a -> no_regex a).
          { clear -Hsh NR. induction sh as [t|n p sh IH|p es IH] using shape_all; cbn in *; intros a E; [injection E as <-; apply (NR t); [apply Hsh|right; apply Hsh]|apply IH; [apply Hsh|exact E]|discriminate E]. }
          unfold shape_parse. destruct (shape_type sh) as [a|]; [destruct f as [|c f]|].
          * cbn. split; [reflexivity|]. split; [exact Hf'|]. apply HSH; auto. apply default_plainly.
          * destruct (parse_format_specs cf a (c :: f) (SS specs_default false)) as [[p st]| | |] eqn:EP; cbn [bind fst snd].
            -- split; [reflexivity|]. split; [eapply HSuf; [apply HTy; reflexivity|exact Hf'|exact EP]|]. apply HSH; auto. eapply HP; eassumption.
            -- split; [reflexivity|]. split; [exact Hf'|exact I].
            -- split; [reflexivity|]. split; [exact Hf'|exact I].
            -- split; [reflexivity|]. split; [exact Hf'|exact I].
          * cbn. split; [reflexivity|]. split; [exact Hf'|]. apply HSH; auto. apply default_plainly.
      - assert (HRun : forall lo f, lockstep (fun s => leaf_value (as_value (F := F) SVUser (scan lo f s)))).
        { intros lo f. apply (leaf_lockstep (fun s => as_value SVUser (scan lo f s))). intros s s' [A B]. assert (HQ := H2 lo f s s' A B). unfold stepE.
          destruct (scan lo f s) as [[v m]| | |] eqn:E1, (scan lo f s') as [[v' m']| | |] eqn:E2; cbn in *; try contradiction; auto.
          destruct HQ as [-> HQ]. split; [reflexivity|]. split; [eapply (H3 lo f s); eassumption|exact HQ]. }
        constructor; cbn [target_arg ar_type ar_default ar_plain ar_specs ar_custom]; auto.
        + intros s s' Hss. apply HRun, Hss.
        + intros s s' Hss. apply HRun, Hss.
        + intros E. contradiction E; reflexivity.
        + intros _ f s s' Hf Hss. cbn [fst snd]. split; [reflexivity|]. split; [|apply HRun, Hss].
          eapply suffix_trans; [apply H1|]. eapply suffix_cons_inv, Hf. }
    clear -HX HT. induction HT as [|t ts Ht _ IH]; cbn [map]; constructor; auto.
  - intros t Ht Hn f p st Hf EP. split; [|eapply HP; eassumption].
    eapply HSuf; [|eapply suffix_cons_inv, Hf|exact EP]. destruct Ht as [<-|Ht]; [split; discriminate|].
    rewrite map_map in Ht. apply in_map_iff in Ht. destruct Ht as (u & E & HIn). rewrite Forall_forall in HT. specialize (HT u HIn).
    destruct HT as [t' Hn' Ht'|sh Hsh|parse scan]; cbn in E; subst t; [apply (NR t' Hn'); left; apply Ht'|contradiction Hn; reflexivity..].
  - split; assumption.
Qed.
Print Assumptions C69_format.

(** The same, of narrow strings. *)
Definition same_text {X} (x y : outcome (X * list Z)) : Prop :=
  match x, y with
  | Ok (v, b), Ok (v', b') => v = v' /\ exists d d', b = text U8 d /\ b' = text U8 d' /\ respaced d d'
  | Err _, Err _ | UB, UB | OutOfFuel, OutOfFuel => True
  | _, _ => False
  end.
Theorem C69_format_narrow : forall (F : Type) rx8 rx32 cf8 cf32 global l (ts8 ts32 : list (target F)) format cps cps',
  same_config cf8 cf32 -> same_engine rx8 rx32 ->
  ascii_locale (get_locale global l) -> ascii_locale (get_locale global None) -> clear_sep (get_locale global l) -> clear_sep (get_locale global None) ->
  Forall2 (same_any global l) ts8 ts32 -> Forall (spaced_target global l) ts32 -> ascii_str format -> no_bounds format -> good cps -> good cps' -> respaced cps cps' ->
  same_text (scan_with rx8 cf8 global l string_src ts8 format (text U8 cps)) (scan_with rx8 cf8 global l string_src ts8 format (text U8 cps')).
Proof.
  intros F rx8 rx32 cf8 cf32 global l ts8 ts32 format cps cps' Hcf Hrx A1 A2 S1 S2 HT HS HA HB HG HG' HR.
  rewrite !(C60_any_partial rx8 rx32 cf8 cf32 global l Hcf Hrx A1 A2 ts8 ts32 format) by assumption.
  assert (E32 : c_enc cf32 = U32) by apply Hcf.
  assert (H := C69_format F rx32 cf32 global l wide_src ts32 format cps cps' E32 eq_refl S1 S2 HS HB (good_scalar _ HG) HR). revert H.
  destruct (scan_with rx32 cf32 global l wide_src ts32 format cps) as [[v b]| | |], (scan_with rx32 cf32 global l wide_src ts32 format cps') as [[v' b']| | |]; cbn; try tauto.
  intros [-> H]. split; [reflexivity|]. exists b, b'. auto.
Qed.
Print Assumptions C69_format_narrow.

(** "{}={} ;{:x}" with a map from int to string, a vector of double and an int. *)
Definition targets69 : list (target FloatInstance.exact) := [map60; dbls60; TScalar (TInt i32 IntType)].
Definition left69 : list Z := T "{1: a , 2:" ++ [233] ++ T " }=[1.5, 2] ; 0xff end".
Definition right69 : list Z := T "{1:" ++ [10; 9] ++ T "a" ++ [0x2028] ++ T ", 2:" ++ [233] ++ [10] ++ T "}=[1.5," ++ [13; 10] ++ T "2]" ++ [9] ++ T ";" ++ [133] ++ T "0xff  end".
Ltac no_bounds_tac := let p := fresh "p" in let f := fresh "f" in let E := fresh "E" in
  intros p f E; repeat (destruct p as [|? p]; cbn in E; [first [discriminate E | injection E; intros; subst; cbn; repeat split; lia]|first [discriminate E | injection E as _ E]]).
Example C69_format_ex :
  (forall r, r = wide_src \/ r = Src U32 false (fun n => if (n <? 9)%nat then 1%nat else 5%nat) ->
    scan_with rest_engine wide classic None r targets69 (T "{}={} ;{:x}") left69
      = Ok ([(0, VSeq [VTup [VLeaf (SVInt 1); VLeaf (SVString (T "a"))]; VTup [VLeaf (SVInt 2); VLeaf (SVString [195; 169])]]);
             (1, VSeq [VLeaf (SVFloat (Fraction false 15 10)); VLeaf (SVFloat (Fraction false 2 1))]); (2, VLeaf (SVInt 255))], T " end")
    /\ scan_with rest_engine wide classic None r targets69 (T "{}={} ;{:x}") right69
      = Ok ([(0, VSeq [VTup [VLeaf (SVInt 1); VLeaf (SVString (T "a"))]; VTup [VLeaf (SVInt 2); VLeaf (SVString [195; 169])]]);
             (1, VSeq [VLeaf (SVFloat (Fraction false 15 10)); VLeaf (SVFloat (Fraction false 2 1))]); (2, VLeaf (SVInt 255))], T "  end")
    /\ (exists e e', scan_with rest_engine wide classic None r targets69 (T "{} {} ;{:q}") left69 = Err e /\ scan_with rest_engine wide classic None r targets69 (T "{} {} ;{:q}") right69 = Err e'))
  /\ respaced left69 right69 /\ no_bounds (T "{}={} ;{:x}") /\ no_bounds (T "{} {} ;{:q}") /\ Forall scalar left69
  /\ Forall (spaced_target classic None) targets69 /\ Forall2 (same_any classic None) targets69 targets69
  /\ clear_sep (get_locale classic None) /\ good left69 /\ good right69.
Proof.
  split.
  { intros r [-> | ->]; (split; [vm_compute; reflexivity|]); (split; [vm_compute; reflexivity|]); do 2 eexists; split; vm_compute; reflexivity. }
  split; [vm_compute; reflexivity|]. split; [no_bounds_tac|]. split; [no_bounds_tac|]. split; [apply good_scalar, good_check; reflexivity|].
  assert (N : forall a, a <> NarrowRegexMatchesType -> a <> WideRegexMatchesType -> no_regex a) by (intros a H1 H2; split; assumption).
  assert (A : forall s, forallb (fun c => (0 <=? c) && (c <? 128)) s = true -> ascii_str s).
  { intros s H. apply Forall_forall. intros c Hc. rewrite forallb_forall in H. specialize (H c Hc). unfold ascii. lia. }
  assert (PA : forall p, p = seq_punct \/ p = set_punct \/ p = pair_punct -> punct_all ascii p).
  { intros p [-> |[-> | ->]]; (split; [|split]); apply A; reflexivity. }
  assert (PS : forall p, p = seq_punct \/ p = set_punct \/ p = pair_punct -> punct_all solid p).
  { intros p [-> |[-> | ->]]; (split; [|split]); repeat (apply Forall_cons; [reflexivity|]); apply Forall_nil. }
  assert (HI : named (F := FloatInstance.exact) (TInt i32 IntType) /\ spaced_type (F := FloatInstance.exact) classic None (TInt i32 IntType)).
  { split; [constructor; reflexivity|]. split; [|cbn [usual]; unfold type_ok; cbn; auto 10]. split; [|exact I]. split; [apply N; discriminate|exact I]. }
  split.
  { apply Forall_cons; [|apply Forall_cons; [|apply Forall_cons; [|apply Forall_nil]]].
    - apply Sp_shape. split; [apply PS; auto|]. split; [apply PS; auto|]. split; [exact HI|]. split; [|exact I].
      split; [constructor; reflexivity|]. split; [|exact I]. split; [|exact I]. split; [apply N; discriminate|exact I].
    - apply Sp_shape. split; [apply PS; auto|]. split; [constructor; reflexivity|]. split; [|exists exact_meaning; apply exact_converts]. split; [|exact I].
      split; [apply N; discriminate|]. split; [reflexivity|]. exists exact_meaning. apply exact_converts.
    - apply Sp_scalar; apply HI. }
  split.
  { apply Forall2_cons; [|apply Forall2_cons; [|apply Forall2_cons; [|apply Forall2_nil]]].
    - apply same_shape. split; [apply PA; auto|]. split; [apply PA; auto|]. split; [split; [apply N; discriminate|exact I]|]. split; [|exact I]. split; [apply N; discriminate|discriminate].
    - apply same_shape. split; [apply PA; auto|]. split; [apply N; discriminate|]. split; [reflexivity|]. exists exact_meaning. apply exact_converts.
    - apply same_simple, same_scalar. split; [apply N; discriminate|exact I]. }
  split; [split; reflexivity|]. split; apply good_check; reflexivity.
Qed.
