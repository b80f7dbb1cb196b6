(** Every format string accepted at compile time is a list of tokens. *)
From Verif Require Import Prelude UnicodeModel ReadModel ReadProofs SpecsModel ArgsModel FormatModel FormatProofs FormatSpec
  GrammarProofs VscanModel VscanSpec VscanProofs VscanSpecProofs CheckerProofs.
Local Open Scope Z_scope.

(** A format-spec as it is written, and the format string after the brace that closes
    its field. *)
Record raw : Type := Raw { r_text : list Z; r_after : list Z }.
Definition r_all (d : raw) : list Z := r_text d ++ 125 :: r_after d.
Definition literals {D} (ts : list (gtoken D)) : list Z :=
  flat_map (fun t => match t with Lit c => [c] | Field _ _ => [] end) ts.

Section Accept.
Variable cf : config.
Variable contiguous borrowed : bool.
Variable types : list arg_type.
Variable custom_parse : Z -> list Z -> outcome (list Z).
Hypothesis Hsuf : forall i s p, custom_parse i s = Ok p -> suffix p s.
Notation e := (c_enc cf).
Notation n := (Z.of_nat (length types)).
Notation h := (ct_handler cf contiguous borrowed types custom_parse).
(** The text is a format-spec for the argument and ends before the closing brace. *)
Definition raw_ok (i : Z) (d : raw) (rest : list Z) : Prop :=
  rest = r_after d /\ forall t, nth_error types (Z.to_nat i) = Some t ->
    if arg_eqb t CustomType then custom_parse i (r_all d) = Ok (125 :: rest)
    else exists sp, parse_format_specs cf t (r_all d) (SS specs_default false)
         = Ok (125 :: rest, SS sp false).

Lemma accept_specs i f c rest c' : ct_format_specs cf contiguous borrowed types custom_parse i f c = Ok (125 :: rest, c') ->
  exists d, f = r_text d ++ 125 :: rest /\ raw_ok i d rest /\ set_arg_as_read types i c = Ok c'.
Proof.
  unfold ct_format_specs. intros E. apply bind_ok in E. destruct E as (c1 & E1 & E).
  destruct (nth_error types (Z.to_nat i)) as [t|] eqn:ET; [|discriminate]. apply bind_ok in E. destruct E as (u & _ & E).
  destruct (arg_eqb t CustomType) eqn:EC.
  - apply bind_ok in E. destruct E as (p & E2 & E). injection E as -> <-. destruct (Hsuf _ _ _ E2) as [w ->].
    exists (Raw w rest). split; [reflexivity|]. split; [|exact E1]. split; [reflexivity|]. intros t' Et. injection (eq_trans (eq_sym Et) ET) as ->. rewrite EC. exact E2.
  - apply bind_ok in E. destruct E as ([p sp] & E2 & E). injection E as -> <-. unfold ct_parse_builtin in E2.
    destruct f as [|ch f]; [discriminate|]. apply bind_ok in E2. destruct E2 as ([q ss] & E2 & E3).
    destruct ss as [sp1 er]. cbn [ss_err ss_specs] in E3. destruct er; [discriminate|]. apply bind_ok in E3. destruct E3 as (ok & _ & E3).
    destruct (negb ok); [discriminate|]. destruct (_ && _) in E3; [discriminate|]. injection E3 as -> ->.
    destruct (specs_only _ _ _ _ _ E2) as (w & _ & _ & _ & _ & _ & _ & EW & _). rewrite EW in *.
    exists (Raw w rest). split; [reflexivity|]. split; [|exact E1]. split; [reflexivity|]. intros t' Et. injection (eq_trans (eq_sym Et) ET) as ->. rewrite EC. exists sp. exact E2.
Qed.

(** Numbers of fields *)
Definition numbered (id : option (list Z)) (c c1 : cstate) : Prop :=
  cs_visited c1 = cs_visited c /\
  match id with
  | Some ds => cs_next c <= 0 /\ cs_next c1 = -1
  | None => 0 <= cs_next c /\ cs_next c1 = cs_next c + 1
  end.
Definition index (id : option (list Z)) (next : Z) : Z := match id with Some ds => number ds | None => next end.
Lemma accept_auto c i c1 : ct_next_arg_id types c = Ok (i, c1) -> i = cs_next c /\ numbered None c c1.
Proof.
  unfold ct_next_arg_id, reject. destruct (Z.ltb_spec (cs_next c) 0); [discriminate|]. destruct (_ <=? _); [discriminate|].
  intros [= <- <-]. repeat split. lia.
Qed.
Lemma accept_id s c s' i c1 : parse_arg_id h s c = Ok (s', i, c1) ->
  exists id, s = opt (fun ds => ds) id ++ s' /\ wf_id id /\ i = index id (cs_next c) /\ numbered id c c1
    /\ (id = None -> exists x s2, s = x :: s2 /\ (x = 125 \/ x = 58)).
Proof.
  unfold parse_arg_id. destruct s as [|ch s]; [discriminate|]. destruct (negb (ch =? 125) && negb (ch =? 58)) eqn:EB.
  - unfold do_parse_arg_id. destruct (_ || _) eqn:ED; [discriminate|]. intros E. apply bind_ok in E. destruct E as ([idx s3] & E1 & E).
    destruct s3 as [|d s3]; [discriminate|]. destruct (negb (d =? 125) && negb (d =? 58)) eqn:EX; [discriminate|].
    apply bind_ok in E. destruct E as ([j c2] & E2 & E). injection E as <- <- <-. cbn [h_id ct_handler] in E2.
    unfold ct_check_arg_id, reject in E2. destruct (Z.ltb_spec 0 (cs_next c)); [discriminate|]. destruct (_ <=? idx); [discriminate|]. injection E2 as <- <-.
    assert (HN : exists ds, ch :: s = ds ++ d :: s3 /\ wf_id (Some ds) /\ idx = number ds).
    { destruct (negb (ch =? 48)) eqn:EZ.
      - assert (HM : idx <> -1).
        { intros ->. unfold parse_simple_int in E1. destruct (is_digit ch) eqn:EI; [|discriminate].
          assert (E4 : parse_simple_int_loop (ch :: s) 0 = (-1, d :: s3)) by congruence.
          apply simple_int_nonneg in E4; [|lia]. destruct E4 as [E4|(x & y & E4 & E5)]; [lia|]. injection E4 as <- _. unfold is_digit in E5. lia. }
        destruct (simple_int_num _ _ _ E1 HM) as (ds & H1 & H2 & H3). exists ds. split; [exact H1|]. split; [|exact H3]. split; [exact H2|].
        right. destruct ds as [|x ds]; [destruct H2; congruence|]. injection H1 as <- _. cbn. lia.
      - assert (ch = 48) by lia. subst ch. injection E1 as <- ->. exists [48]. split; [reflexivity|]. split; [|reflexivity].
        split; [|left; reflexivity]. split; [discriminate|]. split; [repeat constructor; lia|]. cbn. lia. }
    destruct HN as (ds & H1 & H2 & H3). exists (Some ds). split; [exact H1|]. split; [exact H2|]. split; [exact H3|]. split; [|discriminate].
    repeat split; cbn; lia.
  - intros E. apply bind_ok in E. destruct E as ([j c2] & E1 & E). injection E as <- <- <-. cbn [h_auto_id ct_handler] in E1.
    apply accept_auto in E1. destruct E1 as [-> HN]. exists None. split; [reflexivity|]. split; [exact I|]. split; [reflexivity|]. split; [exact HN|].
    intros _. do 2 eexists. split; [reflexivity|]. lia.
Qed.
Lemma accept_literal t c c' : h_literal h t c = Ok c' -> c' = c.
Proof. cbn [h_literal ct_handler]. unfold ct_literal, reject. intros E. apply bind_ok in E. destruct E as (ok & _ & E). destruct ok; congruence. Qed.
Lemma accept_plain i t c c' : ct_replacement_field contiguous borrowed types custom_parse i t c = Ok c' -> set_arg_as_read types i c = Ok c'.
Proof.
  unfold ct_replacement_field. intros E. apply bind_ok in E. destruct E as (c1 & E1 & E). rewrite E1. f_equal.
  destruct (nth_error types _); [|discriminate]. apply bind_ok in E. destruct E as (u & _ & E). destruct (is_regex_type _); [discriminate|].
  destruct (arg_eqb _ _); [apply bind_ok in E; destruct E as (? & _ & E)|]; congruence.
Qed.
Lemma accept_field s c p c' : parse_replacement_field h (123 :: s) c = Ok (p, c') ->
  (s = 123 :: p /\ c' = c) \/
  exists id d c1, 123 :: s = field_text r_text id d ++ p /\ wf_id id /\ numbered id c c1
    /\ (forall d', d = Some d' -> raw_ok (index id (cs_next c)) d' p)
    /\ set_arg_as_read types (index id (cs_next c)) c1 = Ok c'.
Proof.
  cbn [parse_replacement_field]. destruct s as [|ch s]; [discriminate|]. destruct (Z.eqb_spec ch 125) as [->|_].
  { intros E. apply bind_ok in E. destruct E as ([i c1] & E1 & E). apply bind_ok in E. destruct E as (c2 & E2 & E). injection E as <- <-.
    cbn [h_auto_id h_field ct_handler] in *. apply accept_auto in E1. destruct E1 as [-> HN]. apply accept_plain in E2.
    right. exists None, None, c1. split; [reflexivity|]. split; [exact I|]. split; [exact HN|]. split; [discriminate|exact E2]. }
  destruct (Z.eqb_spec ch 123) as [->|_].
  { intros E. apply bind_ok in E. destruct E as (c1 & E1 & E). injection E as <- <-. apply accept_literal in E1. left. auto. }
  intros E. apply bind_ok in E. destruct E as ([[s1 i] c1] & E1 & E). apply accept_id in E1. destruct E1 as (id & H1 & H2 & -> & H3 & _).
  right. rewrite H1. destruct s1 as [|d s1]; [discriminate|]. destruct (Z.eqb_spec d 125) as [->|_].
  { apply bind_ok in E. destruct E as (c2 & E2 & E). injection E as <- <-. cbn [h_field ct_handler] in E2. apply accept_plain in E2.
    exists id, None, c1. split; [unfold field_text; cbn [opt]; rewrite <- !app_assoc; reflexivity|]. split; [exact H2|]. split; [exact H3|]. split; [discriminate|exact E2]. }
  destruct (Z.eqb_spec d 58) as [->|_]; [|discriminate]. destruct s1 as [|d1 s1]; [discriminate|].
  apply bind_ok in E. destruct E as ([s2 c2] & E2 & E). cbn [h_specs h_error ct_handler] in *.
  destruct s2 as [|d2 s2]; [discriminate|]. destruct (Z.eqb_spec d2 125) as [->|_]; [|discriminate]. cbn [negb] in E. injection E as <- <-.
  apply accept_specs in E2. destruct E2 as (dd & E3 & E4 & E5). rewrite E3.
  exists id, (Some dd), c1. split; [unfold field_text; cbn [opt app]; rewrite <- !app_assoc; cbn [app]; rewrite <- !app_assoc; reflexivity|].
  split; [exact H2|]. split; [exact H3|]. split; [|exact E5]. intros d' [= <-]. exact E4.
Qed.

(** Fields agree with the numbering that has been chosen *)
Definition mode (k : Z) (ts : list (gtoken raw)) : Prop :=
  uniform ts /\ (0 < k -> forall id d, In (Field id d) ts -> id = None) /\ (k < 0 -> forall id d, In (Field id d) ts -> id <> None).
Lemma mode_lit k c ts : mode k ts -> mode k (Lit c :: ts).
Proof.
  assert (HL : forall (P : option (list Z) -> Prop), (forall id d, In (Field id d) ts -> P id) -> forall id (d : option raw), In (Field id d) (Lit c :: ts) -> P id).
  { intros P HP id d [HX|HX]; [discriminate|eapply HP, HX]. }
  intros (HU & H1 & H2). split; [|split].
  - destruct HU as [HU|HU]; [left; apply (HL (fun id => id = None))|right; apply (HL (fun id => id <> None))]; exact HU.
  - intros Hk. apply (HL (fun id => id = None)). exact (H1 Hk).
  - intros Hk. apply (HL (fun id => id <> None)). exact (H2 Hk).
Qed.
Lemma mode_field c c1 id d ts : numbered id c c1 -> mode (cs_next c1) ts -> mode (cs_next c) (Field id d :: ts).
Proof.
  intros [_ HN] (HU & H1 & H2). destruct id as [ds|]; destruct HN as [HN1 HN2]; rewrite HN2 in *.
  - assert (HA : forall id d', In (Field id d') (Field (Some ds) d :: ts) -> id <> None).
    { intros id d' [HX|HX]; [injection HX as <- _; discriminate|]. eapply H2; [lia|exact HX]. }
    split; [right; exact HA|]. split; [lia|auto].
  - assert (HA : forall id d', In (Field id d') (Field None d :: ts) -> id = None).
    { intros id d' [HX|HX]; [injection HX as <- _; reflexivity|]. eapply H1; [lia|exact HX]. }
    split; [left; exact HA|]. split; [auto|lia].
Qed.
Lemma accept_loop : forall fuel begin it c c', parse_loop fuel h begin it c = Ok c' -> ct_check_args_exhausted types c' = Ok tt ->
  exists ts, tokens_text r_text ts = it /\ mode (cs_next c) ts /\
   forall next, (0 <= cs_next c -> next = cs_next c) ->
     (Forall (lit_ok e) (literals ts) -> wf_gtokens r_text e raw_ok ts next) /\ index_ok n ts next (cs_visited c) = true.
Proof.
  induction fuel as [|f IH]; intros begin it c c' E HX.
  - destruct it; [|discriminate]. apply accept_literal in E. subst c'. exists []. split; [reflexivity|]. split; [split; [left; intros ? ? []|split; intros _ ? ? []]|].
    intros next _. split; [intros _; exact I|]. unfold ct_check_args_exhausted in HX. cbn [index_ok]. unfold covers, num_args, reject in *. rewrite Nat2Z.id.
    destruct (n =? 0) eqn:E0; [replace (length types) with 0%nat by lia; reflexivity|]. destruct (forallb _ _); [reflexivity|discriminate].
  - destruct it as [|ch it].
    { apply (IH begin [] c c'); [|exact HX]. cbn [parse_loop] in E |- *. destruct f; exact E. }
    cbn [parse_loop] in E. destruct (Z.eqb_spec ch 123) as [->|N1].
    + apply bind_ok in E. destruct E as (c1 & E1 & E). apply accept_literal in E1. subst c1.
      apply bind_ok in E. destruct E as ([p c2] & E1 & E). cbn [h_failed ct_handler] in E.
      destruct (IH _ _ _ _ E HX) as (ts & H1 & H2 & H3). apply accept_field in E1. destruct E1 as [[-> ->]|(id & d & c1 & H4 & H5 & H6 & H7 & H8)].
      * exists (Lit 123 :: ts). split; [cbn [tokens_text flat_map token_text]; rewrite <- H1; reflexivity|]. split; [apply mode_lit, H2|].
        intros next Hn. destruct (H3 next Hn) as [H9 H10]. split; [|exact H10]. cbn [literals flat_map app wf_gtokens]. intros HF. inversion HF; subst. auto.
      * exists (Field id d :: ts). split; [rewrite H4, <- H1; reflexivity|].
        unfold set_arg_as_read, reject in H8. destruct (_ <=? _) eqn:EL; [discriminate|]. destruct (existsb _ _) eqn:EX; [discriminate|]. injection H8 as <-.
        cbn [cs_next cs_visited] in *. split; [eapply mode_field; eassumption|].
        intros next Hn. assert (HI : index id (cs_next c) = index id next).
        { destruct id; [reflexivity|]. cbn. destruct H6 as [_ [H6 _]]. symmetry. apply Hn. exact H6. }
        destruct (H3 (next + 1)) as [H9 H10].
        { destruct H6 as [_ H6]. destruct id; destruct H6 as [H6 H11]; rewrite H11; [lia|]. intros _. rewrite Hn by exact H6. reflexivity. }
        rewrite HI in *. destruct H6 as [H6 _]. rewrite H6 in *. split.
        -- intros HF. cbn [wf_gtokens]. split; [exact H5|]. split; [|apply H9, HF]. rewrite H1. exact H7.
        -- cbn [index_ok]. fold (index id next). unfold num_args in EL. rewrite EL, EX. exact H10.
    + destruct (Z.eqb_spec ch 125) as [->|N2].
      * destruct it as [|d it]; [discriminate|]. destruct (Z.eqb_spec d 125) as [->|_]; [|discriminate]. cbn [negb] in E.
        apply bind_ok in E. destruct E as (c1 & E1 & E). apply accept_literal in E1. subst c1.
        destruct (IH _ _ _ _ E HX) as (ts & H1 & H2 & H3). exists (Lit 125 :: ts). split; [rewrite <- H1; reflexivity|]. split; [apply mode_lit, H2|].
        intros next Hn. destruct (H3 next Hn) as [H9 H10]. split; [|exact H10]. cbn [literals flat_map app wf_gtokens]. intros HF. inversion HF; subst. auto.
      * destruct (IH _ _ _ _ E HX) as (ts & H1 & H2 & H3). exists (Lit ch :: ts).
        split; [cbn [tokens_text flat_map token_text]; replace (ch =? 123) with false by lia; replace (ch =? 125) with false by lia; rewrite <- H1; reflexivity|].
        split; [apply mode_lit, H2|].
        intros next Hn. destruct (H3 next Hn) as [H9 H10]. split; [|exact H10]. cbn [literals flat_map app wf_gtokens]. intros HF. inversion HF; subst. auto.
Qed.
Theorem accepted_tokens format : check_format_string cf contiguous borrowed types custom_parse format = Ok tt ->
  exists ts, tokens_text r_text ts = format /\ uniform ts /\ index_ok n ts 0 [] = true
    /\ (Forall (lit_ok e) (literals ts) -> wf_gtokens r_text e raw_ok ts 0).
Proof.
  unfold check_format_string, parse_format_string_impl. intros E. apply bind_ok in E. destruct E as (c & E & HX).
  destruct (accept_loop _ _ _ _ _ E HX) as (ts & H1 & (H2 & _) & H3). exists ts. destruct (H3 0 (fun _ => eq_refl)). auto.
Qed.
End Accept.

(** * Scanning with an accepted format string *)
Section Scan.
Variable V : Type.
Variable r : src.
Variable cf : config.
Variable args : list (arg V).
(** What a field asks for: without a format-spec, the default reading; else what is
    parsed from the format-spec. *)
Definition field_read (i : Z) (d : option raw) (s : list Z) : outcome (V * list Z) :=
  match nth_error args (Z.to_nat i) with
  | None => UB
  | Some a =>
      match d with
      | None => ar_default a s
      | Some d =>
          if arg_eqb (ar_type a) CustomType then snd (ar_custom a (r_all d) s)
          else match parse_format_specs cf (ar_type a) (r_all d) (SS specs_default false) with
               | Ok (_, SS sp false) => ar_specs a sp s
               | _ => Err InvalidFormatString
               end
      end
  end.
Variable custom_parse : Z -> list Z -> outcome (list Z).
(** The scanner of a user type parses the format string at run time as it has done at
    compile time. *)
Definition parses_same : Prop :=
  (forall i f p, custom_parse i f = Ok p -> suffix p f)
  /\ forall i a f p, nth_error args (Z.to_nat i) = Some a -> ar_type a = CustomType ->
     custom_parse i f = Ok p -> forall s, fst (ar_custom a f s) = p.
Hypothesis Hcustom : parses_same.
Hypothesis Hargs : Forall (arg_ok V r cf) args.
Lemma arg_is_custom t : arg_eqb t CustomType = true -> t = CustomType.
Proof. destruct t; cbn; congruence. Qed.
Lemma raw_good i d rest : raw_ok cf (map ar_type args) custom_parse i d rest -> spec_good V cf args r_text field_read i d rest.
Proof.
  intros [-> Hok] a EA. specialize (Hok (ar_type a)). rewrite nth_error_map, EA in Hok. specialize (Hok eq_refl). fold (r_all d).
  unfold field_read. rewrite EA. destruct (arg_eqb (ar_type a) CustomType) eqn:EC.
  - apply arg_is_custom in EC. assert (HF := proj2 Hcustom i a (r_all d) _ EA EC Hok). intros s. rewrite <- (HF s). apply surjective_pairing.
  - destruct Hok as [sp Hok]. exists sp. split; [exact Hok|]. intros s. rewrite Hok. reflexivity.
Qed.
Lemma field_suffix i d s v s' : units (s_enc r) s -> field_read i d s = Ok (v, s') -> suffix s' s.
Proof.
  intros Hu. unfold field_read. destruct (nth_error args (Z.to_nat i)) as [a|] eqn:EA; [|discriminate].
  assert (Ha : arg_ok V r cf a) by (eapply Forall_forall; [exact Hargs|eapply nth_error_In, EA]). destruct Ha as (H1 & H2 & H3 & _).
  destruct d as [d|].
  - destruct (arg_eqb _ _).
    + destruct (H3 (r_all d) s Hu) as [_ [(x & y & -> & Hs)|[x ->]]]; [|discriminate]. intros [= <- <-]. exact Hs.
    + destruct (parse_format_specs _ _ _ _) as [[p [sp [|]]]| | |] eqn:EP; try discriminate. intros E.
      destruct (H2 _ _ _ EP s Hu) as [(x & y & EX & Hs)|[x EX]]; [|congruence]. rewrite E in EX. injection EX as _ <-. exact Hs.
  - intros E. destruct (H1 s Hu) as [(x & y & EX & Hs)|[x EX]]; [|congruence]. rewrite E in EX. injection EX as _ <-. exact Hs.
Qed.
End Scan.

(** When the numbering is right, only literals and readers fail. *)
Lemma index_error V {D} e n (read : Z -> option D -> list Z -> outcome (V * list Z)) ok fail ts y : forall next used ws s log,
  index_ok n ts next used = true -> run V e n read ok fail ts next used ws s log = Err y ->
  y = InvalidLiteral \/ exists id i d s' u x, In (Field id d) ts /\ read i d s' = Err x /\ y = fail u x.
Proof.
  induction ts as [|[c|id d] ts IH]; intros next used ws s log HI; cbn [run index_ok] in *.
  - rewrite HI. discriminate.
  - assert (HL : forall ws s, run V e n read ok fail ts next used ws s log = Err y ->
      y = InvalidLiteral \/ exists id i d s' u x, In (Field id d) (Lit c :: ts) /\ read i d s' = Err x /\ y = fail u x).
    { intros ws' s' E. destruct (IH _ _ _ _ _ HI E) as [->|(id & i & d & t & u & x & H1 & H2)]; [left; reflexivity|].
      right. exists id, i, d, t, u, x. split; [right; exact H1|exact H2]. }
    destruct (is_ws c).
    + destruct ws; [apply HL|]. destruct s; [|apply HL]. destruct ok; [apply HL|]. intros [= <-]. left. reflexivity.
    + destruct s as [|d s]; [intros [= <-]; left; reflexivity|]. destruct (d =? c); [apply HL|]. intros [= <-]. left. reflexivity.
  - destruct (_ || _); [discriminate|]. destruct (read _ _ s) as [[v s']|x| |] eqn:ER; try discriminate.
    + intros E. destruct (IH _ _ _ _ _ HI E) as [->|(id' & i & d' & t & u & x & H1 & H2)]; [left; reflexivity|].
      right. exists id', i, d', t, u, x. split; [right; exact H1|exact H2].
    + intros [= <-]. right. do 6 eexists. split; [left; reflexivity|]. split; [exact ER|reflexivity].
Qed.
