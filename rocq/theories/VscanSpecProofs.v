(** Format-driven scanning does what the tokens of the format string say. *)
From Verif Require Import Prelude UnicodeModel UnicodeSpec UnicodeProofs WhitespaceModel
  WhitespaceSpec WhitespaceProofs ReadModel ReadProofs SpecsModel ArgsModel FormatModel
  FormatProofs FormatSpec FormatSpecProofs VscanModel VscanSpec VscanProofs.
Local Open Scope Z_scope.
Ltac Zify.zify_post_hook ::= Z.div_mod_to_equations.

(** * Whitespace *)
Lemma is_ws_cp c : is_ws c = is_cp_space c.
Proof.
  apply eq_true_iff_eq. rewrite is_cp_space_spec. unfold is_ws. apply existsb_In.
Qed.

(** Sources whose whitespace is skipped code point by code point. *)
Definition good_src (r : src) : Prop :=
  s_enc r = U32 \/ (s_enc r = U8 /\ s_contig r = true).

Lemma drop_space_first_at e : forall fuel s, (length s <= fuel)%nat ->
  first_at e (fun cp => negb (is_cp_space cp)) s (drop_space_loop fuel e s).
Proof.
  induction fuel as [|f IH]; intros s HL; (destruct s as [|c s]; [split; [apply sw_refl|left; reflexivity]|]).
  - cbn [length] in HL. lia.
  - cbn [drop_space_loop].
    destruct (next_cp_progress e (c :: s)) as (cp & pre & rest & E & Hne & Heq); [discriminate|].
    rewrite E. rewrite is_ws_cp. destruct (is_cp_space cp) eqn:Esp.
    + destruct (IH rest) as [H1 H2].
      { destruct pre as [|x pre]; [contradiction|]. cbn in Heq. injection Heq as _ ->. cbn [length] in HL. rewrite app_length in HL. lia. }
      split; [|exact H2]. eapply sw_step; [exact E| |exact H1]. rewrite negb_involutive. exact Esp.
    + split; [apply sw_refl|]. right. do 2 eexists. split; [exact E|]. rewrite Esp. reflexivity.
Qed.
Lemma drop_space_suffix e s : suffix (drop_space e s) s.
Proof. eapply first_at_suffix, drop_space_first_at. lia. Qed.

Lemma read_while_u32 : forall fuel s, (length s <= fuel)%nat ->
  read_until_code_point_loop fuel U32 (fun cp => negb (is_cp_space cp)) s = Ok (drop_space_loop fuel U32 s).
Proof.
  induction fuel as [|f IH]; intros s HL; (destruct s as [|c s]; [reflexivity|]).
  - cbn [length] in HL. lia.
  - cbn [read_until_code_point_loop read_code_point_into cp_len bind skipn firstn decode_cp drop_space_loop].
    unfold get_next_code_point. cbn [cp_len length firstn skipn]. 
    change (S (length s) <? 1)%nat with false. cbn [decode_cp].
    assert (HX : exists v, (if invalid_code_point <=? c then Ok invalid_code_point else Ok c) = Ok v) by (destruct (_ <=? _); eauto).
    destruct HX as [v EV]. rewrite EV. cbn [bind]. rewrite is_ws_cp.
    destruct (is_cp_space v); cbn [negb]; [|reflexivity]. apply IH. cbn [length] in HL. lia.
Qed.

Lemma read_while_drop r s : good_src r -> units (s_enc r) s ->
  read_while_classic_space r s = Ok (drop_space (s_enc r) s).
Proof.
  intros Hg Hu. unfold read_while_classic_space, drop_space. destruct Hg as [E|[E Ec]]; rewrite E in *.
  - unfold read_while_code_point, read_until_code_point. apply read_while_u32. lia.
  - rewrite Ec. destruct (find_classic_nonspace_spec s Hu) as (f & Ef & Hf). rewrite Ef. f_equal.
    eapply first_at_unique; [exact Hf|]. apply drop_space_first_at. lia.
Qed.

Lemma next_lit e c rest : e <> U16 -> lit_ok e c -> get_next_code_point e (c :: rest) = Ok (c, rest).
Proof.
  intros He Hc. destruct e; [|congruence|apply next_cp_utf32, Hc]. cbn in Hc.
  assert (HS : scalar c) by (unfold scalar; lia).
  assert (H := next_cp_utf8_of c rest HS). unfold utf8_of in H. replace (c <? 0x80) with true in H by lia. exact H.
Qed.
Lemma lit_scalar e c : lit_ok e c -> scalar c.
Proof. destruct e; cbn; unfold scalar; lia. Qed.
Lemma first_char_lit e c rest : e <> U16 -> lit_ok e c ->
  is_first_char_space e (c :: rest) = Ok (rest, c, is_cp_space c) /\ (c =? invalid_code_point) = false.
Proof.
  intros He Hc. unfold is_first_char_space. rewrite next_lit by assumption. cbn [bind]. split; [reflexivity|].
  apply lit_scalar in Hc. unfold scalar in Hc. unfold invalid_code_point. lia.
Qed.

(** The shortcut for "{}" with one argument does the same as the general parser. *)
Lemma simple_agrees V r cf a source :
  vscan_parse_format_string V r cf [a] [123; 125] source
  = ('(v, s) <- ar_default a source ;; Ok ([(0, v)], s)).
Proof.
  unfold vscan_parse_format_string, parse_format_string_impl.
  assert (EF : exists f, vscan_fuel V [a] [123; 125] = S f) by (cbn; eauto). destruct EF as [f ->].
  cbn [parse_loop]. change (123 =? 123) with true. cbv iota.
  change (between [123; 125] [123; 125]) with (@nil Z). cbn [h_literal format_handler on_literal_text literal_loop bind length].
  cbn [parse_replacement_field]. change (125 =? 125) with true. cbv iota. cbn [h_auto_id format_handler].
  change (next_arg_id V (init_state V [a] [123; 125] source)) with (Ok (0, set_next V 1 (init_state V [a] [123; 125] source))).
  cbn [bind h_field format_handler]. unfold on_replacement_field.
  change (set_arg_as_visited V [a] 0 (note_missing V [a] 0 (set_next V 1 (init_state V [a] [123; 125] source))))
    with (Ok (St V None 1 [] 1 false [123; 125] source [])).
  cbn [bind failed st_error get_arg nth_error Z.to_nat st_src].
  destruct (ar_default a source) as [[v s]|x| |]; cbn [finish_visit bind]; try reflexivity.
  destruct f; reflexivity.
Qed.
Lemma vscan_shortcut V r cf args fmt source :
  Forall (fun a => forall s, ar_plain a s = ar_default a s) args ->
  vscan V r cf args fmt source = vscan_parse_format_string V r cf args fmt source.
Proof.
  intros HP. unfold vscan, args_count.
  destruct (is_simple fmt && (Z.of_nat (length args) =? 1)) eqn:E; [|reflexivity].
  apply andb_true_iff in E. destruct E as [E1 E2].
  unfold is_simple in E1. destruct fmt as [|x [|y [|? ?]]]; try discriminate.
  assert (Hab : x = 123 /\ y = 125) by lia. destruct Hab as [-> ->].
  destruct args as [|a [|? ?]]; cbn [length] in E2; try lia.
  inversion HP as [|? ? HP1 _]; subst. rewrite simple_agrees. cbn [get_arg nth_error Z.to_nat scan_simple_single_argument].
  rewrite HP1. reflexivity.
Qed.

Lemma id_nonneg id next : wf_id id -> 0 <= next -> 0 <= match id with Some ds => number ds | None => next end.
Proof.
  destruct id as [ds|]; [|auto]. intros [(Hne & Hds & HN) _] _. apply (number_nonneg _ Hds 0). lia.
Qed.

Section Spec.
Variable V : Type.
Variable r : src.
Variable cf : config.
Variable args : list (arg V).
Hypothesis Hcount : (length args < 64)%nat.
Hypothesis Hr : good_src r.
Hypothesis Hcf : c_enc cf = s_enc r.

Notation e := (s_enc r).
Notation n := (Z.of_nat (length args)).
Notation H := (format_handler V r cf args).

Lemma He : e <> U16.
Proof. destruct Hr as [->|[-> _]]; discriminate. Qed.

(** * Literal text *)
Fixpoint lit_run (t : list Z) (ws : bool) (s : list Z) : option (list Z * bool) :=
  match t with
  | [] => Some (s, ws)
  | c :: t' =>
      if is_ws c then
        if ws then lit_run t' true s
        else match s with [] => None | _ => lit_run t' true (drop_space e s) end
      else match s with
           | d :: s' => if d =? c then lit_run t' false s' else None
           | [] => None
           end
  end.
Lemma lit_run_app a b : forall ws s, lit_run (a ++ b) ws s
  = match lit_run a ws s with Some (s', ws') => lit_run b ws' s' | None => None end.
Proof.
  induction a as [|c a IH]; intros ws s; cbn [app lit_run]; [reflexivity|].
  destruct (is_ws c).
  - destruct ws; [apply IH|]. destruct s; [reflexivity|apply IH].
  - destruct s as [|d s]; [reflexivity|]. destruct (d =? c); [apply IH|reflexivity].
Qed.
(** After whitespace, further whitespace matches nothing. *)
Fixpoint skip_ascii_ws (t : list Z) : list Z :=
  match t with c :: t' => if is_ws c then skip_ascii_ws t' else t | [] => [] end.
Lemma lit_run_skip t : forall s, lit_run t true s = lit_run (skip_ascii_ws t) true s.
Proof. induction t as [|c t IH]; intros s; cbn [lit_run skip_ascii_ws]; [reflexivity|]. destruct (is_ws c) eqn:E; [apply IH|]. cbn [lit_run]. rewrite E. reflexivity. Qed.
Definition ascii (t : list Z) : Prop := Forall (lit_ok e) t.
Lemma skip_ascii_suffix t : suffix (skip_ascii_ws t) t.
Proof. induction t as [|c t IH]; cbn [skip_ascii_ws]; [apply suffix_refl|]. destruct (is_ws c); [apply suffix_cons, IH|apply suffix_refl]. Qed.
Lemma drop_space_ascii t : ascii t -> forall fuel, (length t <= fuel)%nat -> drop_space_loop fuel e t = skip_ascii_ws t.
Proof.
  induction 1 as [|c t Hc Ht IH]; intros fuel HL; [destruct fuel; reflexivity|].
  destruct fuel as [|f]; cbn [length] in HL; [lia|]. cbn [drop_space_loop].
  rewrite next_lit by (exact He || assumption). cbn [skip_ascii_ws].
  destruct (is_ws c); [apply IH; lia|reflexivity].
Qed.
Lemma ascii_units t : ascii t -> units e t.
Proof.
  unfold ascii. destruct Hr as [->|[-> _]]; cbn; [trivial|]. intros Ht.
  eapply Forall_impl; [|exact Ht]. intros c Hc. unfold is_byte. cbn in Hc. lia.
Qed.
Lemma small_lit c : 0 <= c < 128 -> lit_ok e c.
Proof. intros Hc. destruct Hr as [->|[-> _]]; cbn; unfold scalar; lia. Qed.
Lemma format_src_good : good_src (format_src r).
Proof. destruct Hr as [E|[E _]]; [left; exact E|right; split; [exact E|reflexivity]]. Qed.

(** The flag only matters at the first unit. *)
Lemma lit_run_flag t s : match t with c :: _ => is_ws c = false | [] => True end ->
  match lit_run t true s, lit_run t false s with
  | Some (a, _), Some (b, _) => a = b
  | None, None => True
  | _, _ => False
  end.
Proof.
  destruct t as [|c t]; cbn [lit_run]; intros Hc; [reflexivity|]. rewrite Hc.
  destruct s as [|d s]; [trivial|]. destruct (d =? c); [|trivial]. destruct (lit_run t false s) as [[? ?]|]; auto.
Qed.
Lemma skip_ascii_head t : match skip_ascii_ws t with c :: _ => is_ws c = false | [] => True end.
Proof. induction t as [|c t IH]; cbn [skip_ascii_ws]; [trivial|]. destruct (is_ws c) eqn:E; [exact IH|exact E]. Qed.

Lemma literal_spec : forall fuel t st, (length t <= fuel)%nat -> ascii t -> units e (st_src st) ->
  match lit_run t false (st_src st) with
  | Some (s, _) => literal_loop V r fuel t st = Ok (set_src V s st) /\ suffix s (st_src st)
  | None => exists s, literal_loop V r fuel t st = Ok (on_error V InvalidLiteral (set_src V s st)) /\ suffix s (st_src st)
  end.
Proof.
  induction fuel as [|f IH]; intros t st HL Ht Hu; (destruct t as [|c t];
    [split; [destruct st; reflexivity|apply suffix_refl]|]); cbn [length] in HL; [lia|].
  inversion Ht as [|? ? Hc Ht']; subst.
  destruct (first_char_lit e c t He Hc) as [EF EI].
  cbn [lit_run literal_loop]. rewrite EF. cbn [bind]. rewrite EI, is_ws_cp.
  destruct (st_src st) as [|d s] eqn:ES.
  - assert (EX : on_error V InvalidLiteral st = on_error V InvalidLiteral (set_src V [] st)).
    { unfold on_error, set_src. cbn. rewrite ES. reflexivity. }
    destruct (is_cp_space c); exists []; (split; [f_equal; exact EX|apply suffix_refl]).
  - destruct (is_cp_space c) eqn:Esp.
    + rewrite read_while_drop by assumption. cbn [bind].
      rewrite read_while_drop by (apply format_src_good || apply ascii_units, Ht'). cbn [bind].
      change (s_enc (format_src r)) with e.
      replace (drop_space e t) with (skip_ascii_ws t) by (symmetry; apply drop_space_ascii; assumption || lia).
      assert (HSk := skip_ascii_suffix t).
      specialize (IH (skip_ascii_ws t) (set_src V (drop_space e (d :: s)) st)).
      assert (Hdr := drop_space_suffix e (d :: s)).
      rewrite lit_run_skip.
      assert (HF := lit_run_flag (skip_ascii_ws t) (drop_space e (d :: s)) (skip_ascii_head t)).
      cbn [st_src set_src] in IH.
      destruct (lit_run (skip_ascii_ws t) true (drop_space e (d :: s))) as [[a wa]|],
               (lit_run (skip_ascii_ws t) false (drop_space e (d :: s))) as [[b wb]|]; try contradiction.
      * subst b. destruct IH as [E Hs].
        -- apply suffix_len in HSk. lia.
        -- eapply suffix_Forall; eassumption.
        -- eapply units_suffix; [exact Hdr|exact Hu].
        -- split; [rewrite E; reflexivity|eapply suffix_trans; eassumption].
      * destruct IH as (x & E & Hs).
        -- apply suffix_len in HSk. lia.
        -- eapply suffix_Forall; eassumption.
        -- eapply units_suffix; [exact Hdr|exact Hu].
        -- exists x. split; [rewrite E; reflexivity|eapply suffix_trans; eassumption].
    + destruct (d =? c) eqn:Ed; cbn [negb].
      * specialize (IH t (set_src V s st)). cbn [st_src set_src] in IH.
        assert (Hsu : suffix s (d :: s)) by auto with sfx.
        destruct (lit_run t false s) as [[a wa]|].
        -- destruct IH as [E Hs]; [lia|exact Ht'|eapply units_suffix; eassumption|].
           split; [rewrite E; reflexivity|eapply suffix_trans; eassumption].
        -- destruct IH as (x & E & Hs); [lia|exact Ht'|eapply units_suffix; eassumption|].
           exists x. split; [rewrite E; reflexivity|eapply suffix_trans; eassumption].
      * exists (d :: s). split; [|apply suffix_refl]. f_equal. unfold on_error, set_src. cbn. rewrite ES. reflexivity.
Qed.
Lemma on_literal_spec t st : ascii t -> units e (st_src st) ->
  match lit_run t false (st_src st) with
  | Some (s, _) => on_literal_text V r t st = Ok (set_src V s st) /\ suffix s (st_src st)
  | None => exists s, on_literal_text V r t st = Ok (on_error V InvalidLiteral (set_src V s st)) /\ suffix s (st_src st)
  end.
Proof. apply literal_spec. lia. Qed.

(** * Fields *)
(** Format-specs, how they are written, where they are permitted, and what is read. *)
Context {D : Type}.
Variable txt : D -> list Z.
Variable spec_ok : Z -> D -> list Z -> Prop.
Variable rd : Z -> option D -> list Z -> outcome (V * list Z).
Hypothesis Hplain : forall i a s, nth_error args (Z.to_nat i) = Some a -> rd i None s = ar_default a s.
(** Nothing is required if there is no such argument. *)
Definition spec_good (i : Z) (d : D) (rest : list Z) : Prop :=
  forall a, nth_error args (Z.to_nat i) = Some a ->
    if arg_eqb (ar_type a) CustomType
    then forall s, ar_custom a (txt d ++ 125 :: rest) s = (125 :: rest, rd i (Some d) s)
    else exists sp, parse_format_specs cf (ar_type a) (txt d ++ 125 :: rest) (SS specs_default false) = Ok (125 :: rest, SS sp false)
      /\ forall s, rd i (Some d) s = ar_specs a sp s.
Hypothesis Hspec : forall i d rest, spec_ok i d rest -> spec_good i d rest.
Hypothesis Hread : forall i d s v s', rd i d s = Ok (v, s') -> units e s -> units e s'.

Notation the_id id st := (match id with None => next_arg_id V st | Some ds => check_arg_id V (number ds) st end).
Lemma field_parse id d rest st : wf_id id ->
  parse_replacement_field H (field_text txt id d ++ rest) st =
  ('(i, st) <- the_id id st ;;
   match d with
   | None => st <- on_replacement_field V args i [] st ;; Ok (rest, st)
   | Some d =>
       '(s, st) <- on_format_specs V cf args i (txt d ++ 125 :: rest) st ;;
       match s with
       | [] => Ok ([], on_error V InvalidFormatString st)
       | x :: s2 => if negb (x =? 125) then Ok (s, on_error V InvalidFormatString st) else Ok (s2, st)
       end
   end).
Proof.
  intros Hid. unfold field_text. rewrite <- !app_assoc. cbn [app].
  assert (TAIL : forall id st, 
    match opt (fun d : D => 58 :: txt d) d ++ 125 :: rest with
    | [] => st <- h_error H st;; Ok ([], st)
    | c :: s' =>
       if c =? 125 then st <- h_field H id (opt (fun d : D => 58 :: txt d) d ++ 125 :: rest) st;; Ok (s', st)
       else if c =? 58 then
         match s' with
         | [] => st <- h_error H st;; Ok (opt (fun d : D => 58 :: txt d) d ++ 125 :: rest, st)
         | _ :: _ => ' (s, st) <- h_specs H id s' st;;
             match s with
             | [] => st <- h_error H st;; Ok ([], st)
             | d :: s2 => if negb (d =? 125) then st <- h_error H st;; Ok (s, st) else Ok (s2, st)
             end
         end
       else st <- h_error H st;; Ok (opt (fun d : D => 58 :: txt d) d ++ 125 :: rest, st)
    end = match d with
   | None => st <- on_replacement_field V args id [] st ;; Ok (rest, st)
   | Some d =>
       '(s, st) <- on_format_specs V cf args id (txt d ++ 125 :: rest) st ;;
       match s with
       | [] => Ok ([], on_error V InvalidFormatString st)
       | x :: s2 => if negb (x =? 125) then Ok (s, on_error V InvalidFormatString st) else Ok (s2, st)
       end
   end).
  { intros i st'. destruct d as [d|]; cbn [opt app].
    - change (58 =? 125) with false. change (58 =? 58) with true. cbn [app].
      destruct (txt d ++ 125 :: rest) eqn:ER; [destruct (txt d); discriminate|]. reflexivity.
    - reflexivity. }
  destruct id as [ds|]; cbn [opt].
  - destruct Hid as [Hn Hz]. destruct Hn as (Hne & Hds & HN).
    destruct ds as [|c ds]; [congruence|]. inversion Hds as [|? ? Hc Hds']; subst.
    set (T := opt (fun d : D => 58 :: txt d) d ++ 125 :: rest) in *.
    assert (HT : exists x T', T = x :: T' /\ (x = 125 \/ x = 58)).
    { unfold T. destruct d; cbn; eauto. }
    destruct HT as (x & T' & ET & Hx).
    cbn [app parse_replacement_field]. replace (c =? 125) with false by lia. replace (c =? 123) with false by lia.
    unfold parse_arg_id. replace (c =? 125) with false by lia. replace (c =? 58) with false by lia. cbn [negb andb].
    assert (EP : do_parse_arg_id H (c :: ds ++ T) st = ('(id, st) <- check_arg_id V (number (c :: ds)) st ;; Ok (T, id, st))).
    { unfold do_parse_arg_id. replace ((c <? 48) || (57 <? c)) with false by lia.
      assert (EI : (if negb (c =? 48) then parse_simple_int (c :: ds ++ T) else Ok (0, ds ++ T)) = Ok (number (c :: ds), T)).
      { destruct (c =? 48) eqn:E48; cbn [negb].
        - destruct Hz as [Hz|Hz]; [|cbn in Hz; lia]. injection Hz as -> ->. reflexivity.
        - destruct (parse_number (c :: ds) T) as (? & ? & _ & _ & E & _).
          + repeat split; assumption.
          + rewrite ET. unfold is_digit. destruct Hx as [-> | ->]; reflexivity.
          + exact E. }
      rewrite EI. cbn [bind]. rewrite ET.
      replace (negb (x =? 125) && negb (x =? 58)) with false by lia. reflexivity. }
    rewrite EP.
    destruct (check_arg_id V (number (c :: ds)) st) as [[i st']| | |]; cbn [bind]; try reflexivity. apply TAIL.
  - cbn [app]. destruct d as [d|].
    + cbn [opt app parse_replacement_field].
      change (58 =? 125) with false. change (58 =? 123) with false. cbn [parse_arg_id].
      change (negb (58 =? 125) && negb (58 =? 58)) with false. cbv iota.
      change (h_auto_id H st) with (next_arg_id V st).
      destruct (next_arg_id V st) as [[i st']| | |]; cbn [bind]; try reflexivity. exact (TAIL i st').
    + cbn [opt app parse_replacement_field]. change (125 =? 125) with true. reflexivity.
Qed.

(** The mask holds exactly the arguments used. *)
Definition masked (used : list Z) (st : state V) : Prop :=
  (forall i, 0 <= i < n -> Z.testbit (st_low st) i = existsb (Z.eqb i) used)
  /\ (forall i, n <= i -> Z.testbit (st_low st) i = false).
Record good (auto : bool) (used : list Z) (next : Z) (st : state V) : Prop := Good {
  g_mask : masked used st;
  g_next : if auto then st_next st = next else st_next st <= 0;
  g_pos : 0 <= next;
  g_units : units e (st_src st);
  g_mixed : st_mixed st = false }.

Definition bad (es : list err) (st : state V) : Prop := exists x, st_error st = Some x /\ In x es.

Lemma the_id_good auto used next st id : good auto used next st -> wf_id id -> (auto = match id with None => true | Some _ => false end) ->
  exists st', the_id id st = Ok (match id with Some ds => number ds | None => next end, st')
    /\ good auto used (next + 1) st' /\ st_src st' = st_src st /\ st_log st' = st_log st /\ st_error st' = st_error st.
Proof.
  intros [Hm Hn Hp Hu Hx] Hid ->. destruct id as [ds|].
  - unfold check_arg_id. replace (0 <? st_next st) with false by lia.
    eexists. split; [reflexivity|]. split; [|auto]. constructor; cbn; try assumption; lia.
  - unfold next_arg_id. rewrite Hn. replace (next <? 0) with false by lia.
    eexists. split; [reflexivity|]. split; [|auto]. constructor; cbn; try assumption; try lia.
Qed.

Lemma get_arg_range i : 0 <= i -> match get_arg V args i with Some _ => i < n | None => n <= i end.
Proof.
  intros Hi. unfold get_arg. destruct (nth_error args (Z.to_nat i)) eqn:E.
  - assert (HX : nth_error args (Z.to_nat i) <> None) by congruence. apply nth_error_Some in HX. lia.
  - apply nth_error_None in E. lia.
Qed.

(** What visiting an argument does to the state. *)
Lemma visit_good auto used next st i : good auto used next st -> st_error st = None -> 0 <= i ->
  exists st', set_arg_as_visited V args i (note_missing V args i st) = Ok st' /\
    (if (n <=? i) || existsb (Z.eqb i) used then st_error st' = Some InvalidFormatString
     else good auto (i :: used) next st' /\ st_error st' = None /\ st_src st' = st_src st /\ st_log st' = st_log st).
Proof.
  intros [[Hl Hh] Hn Hp Hu Hx] HE Hi. assert (HR := get_arg_range i Hi). unfold note_missing, set_arg_as_visited, args_count.
  destruct (get_arg V args i) as [a|].
  - replace (n <=? i) with false by lia. replace (i <? 64) with true by lia. cbn [orb].
    rewrite Hl by lia. destruct (existsb (Z.eqb i) used) eqn:EX.
    + eexists. split; [reflexivity|]. reflexivity.
    + eexists. split; [reflexivity|]. split; [|auto].
      constructor; cbn; try assumption. split; cbn.
      * intros j Hj. rewrite Z.lor_spec, Hl by lia. rewrite Z.shiftl_spec, orb_comm by lia. f_equal.
        destruct (j =? i) eqn:Eji.
        -- replace (j - i) with 0 by lia. reflexivity.
        -- destruct (Z.ltb_spec j i); [apply Z.testbit_neg_r; lia|]. apply Z.bits_above_log2; [lia|]. cbn. lia.
      * intros j Hj. rewrite Z.lor_spec, Hh by lia. cbn. rewrite Z.shiftl_spec by lia. apply Z.bits_above_log2; [lia|]. cbn. lia.
  - replace (n <=? i) with true by lia. cbn [orb]. eexists. split; [reflexivity|]. reflexivity.
Qed.
(** From a failed state. *)
Lemma visit_bad es st i : bad es st -> In InvalidFormatString es -> 0 <= i ->
  exists st', set_arg_as_visited V args i (note_missing V args i st) = Ok st' /\ bad es st'.
Proof.
  intros (x & Ex & Hx) HI Hi. assert (HR := get_arg_range i Hi). unfold note_missing, set_arg_as_visited, args_count.
  destruct (get_arg V args i) as [a|].
  - replace (n <=? i) with false by lia. replace (i <? 64) with true by lia.
    eexists. split; [reflexivity|]. destruct (Z.testbit (st_low st) i); [exists InvalidFormatString|exists x]; split; cbn; auto.
  - replace (n <=? i) with true by lia. eexists. split; [reflexivity|]. exists InvalidFormatString. split; cbn; auto.
Qed.
Lemma bad_failed es st : bad es st -> failed V st = true.
Proof. intros (x & E & _). unfold failed. rewrite E. reflexivity. Qed.

Lemma specs_any i d rest : 0 <= i -> spec_ok i d rest ->
  let t := match get_arg V args i with Some a => ar_type a | None => NoneType end in
  arg_eqb t CustomType = false ->
  exists s ss, parse_format_specs cf t (txt d ++ 125 :: rest) (SS specs_default false) = Ok (s, ss)
   /\ (get_arg V args i = None \/ exists a sp, get_arg V args i = Some a /\ s = 125 :: rest /\ ss = SS sp false
        /\ forall s, rd i (Some d) s = ar_specs a sp s).
Proof.
  intros Hi Hok t. apply Hspec in Hok. unfold t, spec_good, get_arg in *. destruct (nth_error args (Z.to_nat i)) as [a|].
  - specialize (Hok a eq_refl). intros HC. rewrite HC in Hok. destruct Hok as (sp & E & HR). rewrite E. do 2 eexists. split; [reflexivity|]. right. eauto 8.
  - intros _. destruct (parse_format_specs_safe cf NoneType (txt d ++ 125 :: rest) (SS specs_default false)) as (s & ss & E & _).
    + split; discriminate.
    + do 2 eexists. split; [exact E|]. auto.
Qed.
Lemma custom_any i d rest : spec_ok i d rest ->
  let t := match get_arg V args i with Some a => ar_type a | None => NoneType end in
  arg_eqb t CustomType = true ->
  exists a, get_arg V args i = Some a /\ forall s, ar_custom a (txt d ++ 125 :: rest) s = (125 :: rest, rd i (Some d) s).
Proof.
  intros Hok t. apply Hspec in Hok. unfold t, spec_good, get_arg in *. destruct (nth_error args (Z.to_nat i)) as [a|]; [|discriminate].
  specialize (Hok a eq_refl). intros HC. rewrite HC in Hok. eauto.
Qed.

(** Once failed, a field stays failed. *)
Lemma specs_bad es i d rest st st0 : spec_ok i d rest -> 0 <= i -> In InvalidFormatString es ->
  set_arg_as_visited V args i (note_missing V args i st) = Ok st0 -> bad es st0 ->
  exists p st', on_format_specs V cf args i (txt d ++ 125 :: rest) st = Ok (p, st') /\ bad es st'.
Proof.
  intros Hok Hi HI E0 Hb. unfold on_format_specs. rewrite E0. cbn [bind]. cbv zeta.
  destruct (arg_eqb _ CustomType) eqn:EC.
  { assert (HF : failed V (set_pctx V (txt d ++ 125 :: rest) st0) = true) by (apply (bad_failed es); exact Hb).
    rewrite HF. do 2 eexists. split; [reflexivity|exact Hb]. }
  destruct (specs_any i d rest Hi Hok EC) as (s & ss & -> & _). cbn [bind].
  assert (HB2 : bad es (on_error V InvalidFormatString st0)) by (exists InvalidFormatString; split; [reflexivity|exact HI]).
  destruct s as [|c s]; [do 2 eexists; split; [reflexivity|exact HB2]|].
  destruct (negb (c =? 125)); [do 2 eexists; split; [reflexivity|exact HB2]|].
  destruct (ss_err ss); [do 2 eexists; split; [reflexivity|exact Hb]|].
  assert (HF : failed V (set_pctx V (c :: s) st0) = true) by (apply (bad_failed es); exact Hb).
  rewrite HF. do 2 eexists. split; [reflexivity|exact Hb].
Qed.
Lemma field_tail_bad es st : bad es st -> In InvalidFormatString es -> forall s,
  exists p st', match s with
       | [] => Ok ([], on_error V InvalidFormatString st)
       | x :: s2 => if negb (x =? 125) then Ok (s, on_error V InvalidFormatString st) else Ok (s2, st)
       end = Ok (p, st') /\ bad es st'.
Proof.
  intros Hb HI s. assert (HB2 : bad es (on_error V InvalidFormatString st)) by (exists InvalidFormatString; split; [reflexivity|exact HI]).
  destruct s as [|x s]; [eauto|]. destruct (negb (x =? 125)); eauto.
Qed.

Lemma field_bad es id d rest st next auto used : wf_id id -> bad es st -> In InvalidFormatString es ->
  (auto = match id with None => true | Some _ => false end) -> good auto used next st ->
  (forall d', d = Some d' -> spec_ok (match id with Some ds => number ds | None => next end) d' rest) ->
  exists p st', parse_replacement_field H (field_text txt id d ++ rest) st = Ok (p, st') /\ bad es st'.
Proof.
  intros Hid Hb HI Ha Hg Hok. rewrite field_parse by exact Hid.
  destruct (the_id_good auto used next st id Hg Hid Ha) as (st1 & -> & Hg1 & _ & _ & EE). cbn [bind].
  set (i := match id with Some ds => number ds | None => next end) in *.
  assert (Hb1 : bad es st1) by (unfold bad; rewrite EE; exact Hb).
  assert (Hi : 0 <= i) by (apply id_nonneg; [exact Hid|apply Hg]).
  destruct (visit_bad es st1 i Hb1 HI Hi) as (st2 & E2 & Hb2).
  destruct d as [d|].
  - destruct (specs_bad es i d rest st1 st2 (Hok d eq_refl) Hi HI E2 Hb2) as (p & st3 & -> & Hb3). cbn [bind].
    apply field_tail_bad; assumption.
  - unfold on_replacement_field. rewrite E2. cbn [bind]. rewrite (bad_failed _ _ Hb2). cbn [bind]. eauto.
Qed.

Lemma field_good auto used next st id d rest : good auto used next st -> st_error st = None -> wf_id id ->
  (auto = match id with None => true | Some _ => false end) ->
  (forall d', d = Some d' -> spec_ok (match id with Some ds => number ds | None => next end) d' rest) ->
  let i := match id with Some ds => number ds | None => next end in
  if (n <=? i) || existsb (Z.eqb i) used then
    exists p st', parse_replacement_field H (field_text txt id d ++ rest) st = Ok (p, st') /\ st_error st' = Some InvalidFormatString
  else match rd i d (st_src st) with
       | Ok (v, s) => exists st', parse_replacement_field H (field_text txt id d ++ rest) st = Ok (rest, st')
           /\ good auto (i :: used) (next + 1) st' /\ st_error st' = None /\ st_src st' = s /\ st_log st' = st_log st ++ [(i, v)]
       | Err x => exists p st', parse_replacement_field H (field_text txt id d ++ rest) st = Ok (p, st')
           /\ st_error st' = Some x /\ masked (i :: used) st'
       | UB => parse_replacement_field H (field_text txt id d ++ rest) st = UB
       | OutOfFuel => parse_replacement_field H (field_text txt id d ++ rest) st = OutOfFuel
       end.
Proof.
  intros Hg HE Hid Ha Hok i. rewrite field_parse by exact Hid.
  assert (Hi : 0 <= i) by (apply id_nonneg; [exact Hid|apply Hg]).
  destruct (the_id_good auto used next st id Hg Hid Ha) as (st1 & -> & Hg1 & ES1 & EL1 & EE1). cbn [bind]. fold i.
  rewrite HE in EE1.
  destruct (visit_good auto used (next + 1) st1 i Hg1 EE1 Hi) as (st2 & E2 & H2).
  destruct ((n <=? i) || existsb (Z.eqb i) used) eqn:EC.
  - assert (Hb2 : bad [InvalidFormatString] st2) by (exists InvalidFormatString; split; [exact H2|left; reflexivity]).
    assert (HX : exists p st', match d with
       | None => st <- on_replacement_field V args i [] st1 ;; Ok (rest, st)
       | Some d => '(s, st) <- on_format_specs V cf args i (txt d ++ 125 :: rest) st1 ;;
           match s with
           | [] => Ok ([], on_error V InvalidFormatString st)
           | x :: s2 => if negb (x =? 125) then Ok (s, on_error V InvalidFormatString st) else Ok (s2, st)
           end
       end = Ok (p, st') /\ bad [InvalidFormatString] st').
    { destruct d as [d|].
      - destruct (specs_bad [InvalidFormatString] i d rest st1 st2 (Hok d eq_refl) Hi (or_introl eq_refl) E2 Hb2) as (p & st3 & -> & Hb3).
        cbn [bind]. apply field_tail_bad; [exact Hb3|left; reflexivity].
      - unfold on_replacement_field. rewrite E2. cbn [bind]. rewrite (bad_failed _ _ Hb2). cbn [bind]. eauto. }
    destruct HX as (p & st' & E & (x & Ex & [<-|[]])). eauto.
  - destruct H2 as (Hg2 & EE2 & ES2 & EL2).
    assert (HA : exists a, get_arg V args i = Some a).
    { assert (HR := get_arg_range i Hi). destruct (get_arg V args i) as [a|]; [eauto|]. apply orb_false_iff in EC. lia. }
    destruct HA as [a EA]. assert (HF : forall p, failed V (set_pctx V p st2) = false) by (intros p; unfold failed; cbn; rewrite EE2; reflexivity).
    assert (HF2 : failed V st2 = false) by exact (HF []).
    assert (ER : rd i None (st_src st) = ar_default a (st_src st)) by (apply Hplain; exact EA).
    assert (GOOD : forall v s p, rd i d (st_src st) = Ok (v, s) ->
      good auto (i :: used) (next + 1) (add_log V (i, v) (set_src V s (set_pctx V p st2)))
      /\ good auto (i :: used) (next + 1) (add_log V (i, v) (set_src V s st2))).
    { intros v s p E. assert (Hu : units e s). { eapply Hread; [exact E|apply Hg]. }
      destruct Hg2 as [? ? ? ? ?]. split; constructor; assumption. }
    assert (HM := g_mask _ _ _ _ Hg2).
    destruct d as [d|]; cbn [option_map] in *.
    + unfold on_format_specs. rewrite E2. cbn [bind]. cbv zeta.
      assert (DONE : forall p, match rd i (Some d) (st_src st) with
         | Ok (v, s) => exists st', finish_visit V i (rd i (Some d) (st_src st)) (set_pctx V p st2) = Ok st'
             /\ good auto (i :: used) (next + 1) st' /\ st_error st' = None /\ st_src st' = s /\ st_log st' = st_log st ++ [(i, v)]
         | Err x => exists st', finish_visit V i (rd i (Some d) (st_src st)) (set_pctx V p st2) = Ok st'
             /\ st_error st' = Some x /\ masked (i :: used) st'
         | UB => finish_visit V i (rd i (Some d) (st_src st)) (set_pctx V p st2) = UB
         | OutOfFuel => finish_visit V i (rd i (Some d) (st_src st)) (set_pctx V p st2) = OutOfFuel
         end).
      { intros p. destruct (rd i (Some d) (st_src st)) as [[v s]|x| |] eqn:EV; cbn [finish_visit]; try reflexivity.
        - eexists. split; [reflexivity|]. split; [apply GOOD; reflexivity|].
          split; [exact EE2|]. split; [reflexivity|]. cbn. rewrite EL2, EL1. reflexivity.
        - eexists. split; [reflexivity|]. split; [reflexivity|exact HM]. }
      destruct (arg_eqb _ CustomType) eqn:ET.
      * destruct (custom_any i d rest (Hok d eq_refl) ET) as (a' & EA' & HC). rewrite HF, EA'. cbn [set_pctx st_mixed st_src].
        rewrite (g_mixed _ _ _ _ Hg2), HC, ES2, ES1. specialize (DONE (125 :: rest)).
        change (set_pctx V (125 :: rest) (set_pctx V (txt d ++ 125 :: rest) st2)) with (set_pctx V (125 :: rest) st2).
        destruct (rd i (Some d) (st_src st)) as [[v s]|x| |].
        -- destruct DONE as (st' & -> & DONE). cbn [bind]. change (negb (125 =? 125)) with false. eauto.
        -- destruct DONE as (st' & -> & DONE). cbn [bind]. change (negb (125 =? 125)) with false. eauto.
        -- rewrite DONE. reflexivity.
        -- rewrite DONE. reflexivity.
      * destruct (specs_any i d rest Hi (Hok d eq_refl) ET) as (s & ss & -> & HS). cbn [bind].
        destruct HS as [HS|(a' & sp & EA' & -> & -> & HC)]; [congruence|]. change (negb (125 =? 125)) with false. cbn [ss_err]. rewrite HF, EA'. cbn [ss_specs].
        cbn [set_pctx st_src]. rewrite ES2, ES1, <- HC. specialize (DONE (125 :: rest)).
        change (St V _ _ _ _ _ _ _ _) with (set_pctx V (125 :: rest) st2).
        destruct (rd i (Some d) (st_src st)) as [[v s]|x| |].
        -- destruct DONE as (st' & -> & DONE). cbn [bind]. change (negb (125 =? 125)) with false. eauto.
        -- destruct DONE as (st' & -> & DONE). cbn [bind]. change (negb (125 =? 125)) with false. eauto.
        -- rewrite DONE. reflexivity.
        -- rewrite DONE. reflexivity.
    + unfold on_replacement_field. rewrite E2. cbn [bind]. rewrite HF2, EA, ES2, ES1, <- ER.
      destruct (rd i None (st_src st)) as [[v s]|x| |] eqn:EV; cbn [finish_visit bind]; try reflexivity.
      * eexists. split; [reflexivity|]. split; [exact (proj2 (GOOD v s [] eq_refl))|].
        split; [exact EE2|]. split; [reflexivity|]. cbn. rewrite EL2, EL1. reflexivity.
      * do 2 eexists. split; [reflexivity|]. split; [reflexivity|exact HM].
Qed.

(** * The end of the format string *)
Definition finish (x : outcome (state V)) : outcome (list (Z * V) * list Z) :=
  st <- x ;;
  st <- check_args_exhausted V args st ;;
  match st_error st with Some x => Err x | None => Ok (st_log st, st_src st) end.

Lemma masked_covers used st : masked used st -> (st_low st =? Z.shiftl 1 n - 1) = covers n used.
Proof.
  intros [Hl Hh]. replace (Z.shiftl 1 n - 1) with (Z.ones n) by (rewrite Z.ones_equiv, Z.shiftl_1_l; lia).
  apply eq_true_iff_eq. rewrite Z.eqb_eq. unfold covers. rewrite forallb_forall. split.
  - intros E i Hi. apply in_zseq in Hi. rewrite <- Hl by lia. rewrite E. apply Z.ones_spec_low. lia.
  - intros Hc. apply Z.bits_inj'. intros i Hi. destruct (Z.ltb_spec i n).
    + rewrite Hl, Z.ones_spec_low by lia. apply Hc. apply in_zseq. lia.
    + rewrite Hh, Z.ones_spec_high by lia. reflexivity.
Qed.
Lemma finish_masked used st : masked used st ->
  finish (Ok st) = if covers n used then match st_error st with Some x => Err x | None => Ok (st_log st, st_src st) end
                   else Err InvalidFormatString.
Proof.
  intros Hm. unfold finish. cbn [bind]. unfold check_args_exhausted, args_count. cbv zeta.
  replace (64 <=? n) with false by lia. replace (n =? 64) with false by lia. replace (n <? 64) with true by lia.
  rewrite (masked_covers used) by exact Hm. destruct (covers n used); reflexivity.
Qed.
Lemma finish_bad es st : bad es st -> In InvalidFormatString es -> exists x, finish (Ok st) = Err x /\ In x es.
Proof.
  intros (x & Ex & Hx) HI. unfold finish. cbn [bind]. unfold check_args_exhausted, args_count. cbv zeta.
  replace (64 <=? n) with false by lia. replace (n =? 64) with false by lia. replace (n <? 64) with true by lia.
  destruct (negb _); cbn [bind]; [|rewrite Ex; eauto]. cbn. eauto.
Qed.

(** * The loop *)
(** Errors a failed literal may lead to: [invalid_literal], and in a format string with
    fields or arguments also [invalid_format_string]. *)
Variable es : list err.
Hypothesis Hes : In InvalidLiteral es.
Definition no_fields (ts : list (gtoken D)) : Prop := forall id d, ~ In (Field id d) ts.
Definition simple_case (ts : list (gtoken D)) : Prop := In InvalidFormatString es \/ (args = [] /\ no_fields ts).
Lemma literal_bad auto used next acc st : ascii acc -> good auto used next st ->
  (bad es st \/ lit_run acc false (st_src st) = None) ->
  exists st', on_literal_text V r acc st = Ok st' /\ bad es st' /\ good auto used next st'.
Proof.
  intros Ha Hg Hb. assert (HL := on_literal_spec acc st Ha (g_units _ _ _ _ Hg)).
  destruct (lit_run acc false (st_src st)) as [[s ws]|].
  - destruct Hb as [Hb|Hb]; [|discriminate]. destruct HL as [-> Hs]. eexists. split; [reflexivity|]. split; [exact Hb|].
    destruct Hg as [? ? ? Hu ?]. constructor; try assumption. eapply units_suffix; eassumption.
  - destruct HL as (s & -> & Hs). eexists. split; [reflexivity|]. split.
    + exists InvalidLiteral. split; [reflexivity|exact Hes].
    + destruct Hg as [? ? ? Hu ?]. constructor; try assumption. eapply units_suffix; eassumption.
Qed.

Lemma between_app a b : between (a ++ b) b = a.
Proof.
  unfold between. rewrite app_length. replace (length a + length b - length b)%nat with (length a) by lia.
  rewrite firstn_app, Nat.sub_diag, firstn_all, firstn_O, app_nil_r. reflexivity.
Qed.

Definition same_mode (auto : bool) (ts : list (gtoken D)) : Prop :=
  forall id d, In (Field id d) ts -> auto = match id with None => true | Some _ => false end.

Lemma plain_step f acc c rest st : (c =? 123) = false -> (c =? 125) = false ->
  parse_loop (S f) H (acc ++ c :: rest) (c :: rest) st = parse_loop f H ((acc ++ [c]) ++ rest) rest st.
Proof. intros H1 H2. cbn [parse_loop]. rewrite H1, H2, <- app_assoc. reflexivity. Qed.
Lemma close_step f acc rest st :
  parse_loop (S f) H (acc ++ 125 :: 125 :: rest) (125 :: 125 :: rest) st
  = (st <- on_literal_text V r (acc ++ [125]) st ;; parse_loop f H rest rest st).
Proof.
  cbn [parse_loop]. change (125 =? 123) with false. change (125 =? 125) with true. cbn [negb].
  change (acc ++ 125 :: 125 :: rest) with (acc ++ [125] ++ 125 :: rest). rewrite app_assoc, between_app. reflexivity.
Qed.
Lemma open_step f acc rest st :
  parse_loop (S f) H (acc ++ 123 :: rest) (123 :: rest) st
  = (st <- on_literal_text V r acc st ;;
     '(p, st) <- parse_replacement_field H (123 :: rest) st ;;
     if failed V st then Ok st else parse_loop f H p p st).
Proof. cbn [parse_loop]. change (123 =? 123) with true. rewrite between_app. reflexivity. Qed.
Lemma ascii_snoc acc c : ascii acc -> lit_ok e c -> ascii (acc ++ [c]).
Proof. intros Ha Hc. apply Forall_app. split; [exact Ha|repeat constructor; exact Hc]. Qed.

Lemma good_next auto used next st : good auto used next st -> good auto used next (set_src V (st_src st) st).
Proof. intros [? ? ? ? ?]. constructor; assumption. Qed.

Lemma bad_loop : forall ts auto used next acc st fuel,
  (length (tokens_text txt ts) < fuel)%nat -> wf_gtokens txt e spec_ok ts next -> same_mode auto ts -> simple_case ts ->
  ascii acc -> good auto used next st ->
  (bad es st \/ lit_run acc false (st_src st) = None) ->
  exists st', parse_loop fuel H (acc ++ tokens_text txt ts) (tokens_text txt ts) st = Ok st' /\ bad es st' /\ (In InvalidFormatString es \/ masked used st').
Proof.
  induction ts as [|t ts IH]; intros auto used next acc st fuel HF Hwf Hm Hsc Ha Hg Hb.
  - cbn [tokens_text flat_map]. rewrite app_nil_r.
    destruct (literal_bad auto used next acc st Ha Hg Hb) as (st' & E & Hb' & Hg').
    exists st'. split; [destruct fuel; exact E|]. split; [exact Hb'|right; apply Hg'].
  - assert (Hm' : same_mode auto ts) by (intros id d Hin; apply (Hm id d); right; exact Hin).
    assert (Hsc' : simple_case ts) by (destruct Hsc as [Hsc|[Hsc1 Hsc2]]; [left; exact Hsc|right; split; [exact Hsc1|intros id d Hin; apply (Hsc2 id d); right; exact Hin]]).
    change (tokens_text txt (t :: ts)) with (token_text txt t ++ tokens_text txt ts) in *.
    rewrite app_length in HF. destruct fuel as [|f]; [lia|].
    destruct t as [c|id d]; cbn [token_text wf_gtokens] in *.
    + destruct Hwf as [Hc Hwf]. destruct (c =? 123) eqn:E1; [|destruct (c =? 125) eqn:E2]; cbn [app length] in *.
      * rewrite open_step.
        destruct (literal_bad auto used next acc st Ha Hg Hb) as (st1 & -> & Hb1 & Hg1). cbn [bind].
        cbn [parse_replacement_field]. change (123 =? 125) with false. change (123 =? 123) with true. cbv iota.
        change (h_literal H) with (on_literal_text V r).
        destruct (literal_bad auto used next [123] st1) as (st2 & -> & Hb2 & Hg2); [constructor; [apply small_lit; lia|constructor]|exact Hg1|left; exact Hb1|].
        cbn [bind]. rewrite (bad_failed _ _ Hb2). eexists. split; [reflexivity|]. split; [exact Hb2|right; apply Hg2].
      * rewrite close_step.
        assert (Ha' : ascii (acc ++ [125])) by (apply ascii_snoc; [exact Ha|apply small_lit; lia]).
        destruct (literal_bad auto used next (acc ++ [125]) st Ha' Hg) as (st1 & -> & Hb1 & Hg1).
        { destruct Hb as [Hb|Hb]; [left; exact Hb|right]. rewrite lit_run_app, Hb. reflexivity. }
        cbn [bind]. apply (IH auto used next [] st1 f); try assumption; [lia|constructor|left; exact Hb1].
      * rewrite plain_step by assumption. apply (IH auto used next); try assumption; [lia|apply ascii_snoc; assumption|].
        destruct Hb as [Hb|Hb]; [left; exact Hb|right]. rewrite lit_run_app, Hb. reflexivity.
    + destruct Hsc as [Hsc|[_ Hsc]]; [|exfalso; apply (Hsc id d); left; reflexivity].
      destruct Hwf as (Hid & Hok & Hwf).
      assert (ER : field_text txt id d ++ tokens_text txt ts = 123 :: tl (field_text txt id d ++ tokens_text txt ts)) by reflexivity.
      rewrite ER. rewrite open_step. rewrite <- ER.
      destruct (literal_bad auto used next acc st Ha Hg Hb) as (st1 & -> & Hb1 & Hg1). cbn [bind].
      destruct (field_bad es id d (tokens_text txt ts) st1 next auto used) as (p & st2 & -> & Hb2); try assumption.
      * apply (Hm id d). left; reflexivity.
      * cbn [bind]. rewrite (bad_failed _ _ Hb2). eauto 6.
Qed.

(** What the code reports when reading an argument fails. *)
Definition code_fail (used : list Z) (x : err) : err := if covers n used then x else InvalidFormatString.
Notation run_code := (run V e n rd false code_fail).
Definition agrees (a b : outcome (list (Z * V) * list Z)) : Prop :=
  match b with
  | Err x => a = Err x \/ (x = InvalidLiteral /\ exists y, In y es /\ a = Err y)
  | _ => a = b
  end.
Lemma lit_brace c ws s s' ws' : lit_run [c] ws s = Some (s', ws') -> c = 123 \/ c = 125 -> ws' = false.
Proof.
  cbn [lit_run]. intros E Hc. replace (is_ws c) with false in E by (destruct Hc as [-> | ->]; reflexivity).
  destruct s as [|d s]; [discriminate|]. destruct (d =? c); [|discriminate]. injection E as _ <-. reflexivity.
Qed.
Lemma run_lit c ts next used ws s log : run_code (Lit c :: ts) next used ws s log
  = match lit_run [c] ws s with Some (s', ws') => run_code ts next used ws' s' log | None => Err InvalidLiteral end.
Proof.
  cbn [run lit_run]. destruct (is_ws c).
  - destruct ws; [reflexivity|]. destruct s; reflexivity.
  - destruct s as [|d s]; [reflexivity|]. destruct (d =? c); reflexivity.
Qed.
Lemma bad_agrees ts used st : simple_case ts -> bad es st -> In InvalidFormatString es \/ masked used st ->
  agrees (finish (Ok st)) (Err InvalidLiteral).
Proof.
  intros Hsc Hb HM. right. split; [reflexivity|].
  assert (HX : In InvalidFormatString es \/ (args = [] /\ masked used st)) by (destruct Hsc as [?|[? _]], HM as [?|?]; auto).
  destruct HX as [HI|[HA HM']].
  - destruct (finish_bad _ _ Hb HI) as (x & -> & Hx). eauto.
  - rewrite (finish_masked used) by exact HM'. replace (covers n used) with true by (rewrite HA; reflexivity).
    destruct Hb as (x & -> & Hx). eauto.
Qed.

Lemma good_loop : forall ts auto used next ws acc s st fuel,
  (length (tokens_text txt ts) < fuel)%nat -> wf_gtokens txt e spec_ok ts next -> same_mode auto ts -> simple_case ts ->
  ascii acc -> good auto used next st -> st_error st = None ->
  lit_run acc false (st_src st) = Some (s, ws) ->
  agrees (finish (parse_loop fuel H (acc ++ tokens_text txt ts) (tokens_text txt ts) st))
         (run_code ts next used ws s (st_log st)).
Proof.
  induction ts as [|t ts IH]; intros auto used next ws acc s st fuel HF Hwf Hm Hsc Ha Hg HE Hlit.
  - cbn [tokens_text flat_map]. rewrite app_nil_r.
    assert (HL := on_literal_spec acc st Ha (g_units _ _ _ _ Hg)). rewrite Hlit in HL. destruct HL as [E Hs].
    replace (parse_loop fuel H acc [] st) with (Ok (set_src V s st)) by (destruct fuel; symmetry; exact E).
    rewrite (finish_masked used) by apply Hg. cbn [run st_error set_src st_log st_src]. rewrite HE.
    destruct (covers n used); [reflexivity|left; reflexivity].
  - assert (Hm' : same_mode auto ts) by (intros id d Hin; apply (Hm id d); right; exact Hin).
    assert (Hsc' : simple_case ts) by (destruct Hsc as [Hsc|[Hsc1 Hsc2]]; [left; exact Hsc|right; split; [exact Hsc1|intros id d Hin; apply (Hsc2 id d); right; exact Hin]]).
    change (tokens_text txt (t :: ts)) with (token_text txt t ++ tokens_text txt ts) in *.
    rewrite app_length in HF. destruct fuel as [|f]; [lia|].
    assert (Hlit' : on_literal_text V r acc st = Ok (set_src V s st) /\ good auto used next (set_src V s st)).
    { assert (HL := on_literal_spec acc st Ha (g_units _ _ _ _ Hg)). rewrite Hlit in HL. destruct HL as [E Hs].
      split; [exact E|]. destruct Hg as [? ? ? Hu ?]. constructor; try assumption. eapply units_suffix; eassumption. }
    destruct Hlit' as [Elit Hg1].
    destruct t as [c|id d]; cbn [token_text wf_gtokens] in *.
    + destruct Hwf as [Hc Hwf]. rewrite run_lit. destruct (c =? 123) eqn:E1; [|destruct (c =? 125) eqn:E2]; cbn [app length] in *.
      * assert (c = 123) by lia. subst c. rewrite open_step, Elit. cbn [bind parse_replacement_field].
        change (123 =? 125) with false. change (123 =? 123) with true. cbv iota.
        change (h_literal H) with (on_literal_text V r).
        assert (HL := on_literal_spec [123] (set_src V s st)). cbn [st_src set_src] in HL.
        change (lit_run [123] false s) with (lit_run [123] ws s) in HL.
        specialize (HL (Forall_cons _ (small_lit 123 ltac:(lia)) (Forall_nil _)) (g_units _ _ _ _ Hg1)).
        destruct (lit_run [123] ws s) as [[s' ws']|] eqn:E3.
        -- destruct HL as [-> Hs]. cbn [bind]. unfold failed. cbn [st_error set_src]. rewrite HE.
           assert (Hws : ws' = false) by (apply (lit_brace _ _ _ _ _ E3); auto). subst ws'.
           apply (IH auto used next false [] s' (set_src V s' (set_src V s st)) f); try assumption; try lia; [constructor| |reflexivity].
           destruct Hg1 as [? ? ? Hu ?]. constructor; try assumption. eapply units_suffix; eassumption.
        -- destruct HL as (s' & -> & Hs). cbn [bind].
           change (failed V (on_error V InvalidLiteral (set_src V s' (set_src V s st)))) with true. cbv iota.
           apply (bad_agrees ts used); [exact Hsc'|exists InvalidLiteral; split; [reflexivity|exact Hes]|right; apply Hg1].
      * assert (c = 125) by lia. subst c. rewrite close_step.
        assert (Ha' : ascii (acc ++ [125])) by (apply ascii_snoc; [exact Ha|apply small_lit; lia]).
        assert (HL := on_literal_spec (acc ++ [125]) st Ha' (g_units _ _ _ _ Hg)).
        rewrite lit_run_app, Hlit in HL.
        destruct (lit_run [125] ws s) as [[s' ws']|] eqn:E3.
        -- destruct HL as [-> Hs]. cbn [bind].
           assert (Hws : ws' = false) by (apply (lit_brace _ _ _ _ _ E3); auto). subst ws'.
           apply (IH auto used next false [] s' (set_src V s' st) f); try assumption; try lia; [constructor| |reflexivity].
           destruct Hg as [? ? ? Hu ?]. constructor; try assumption. eapply units_suffix; eassumption.
        -- destruct HL as (s' & -> & Hs). cbn [bind].
           destruct (bad_loop ts auto used next [] (on_error V InvalidLiteral (set_src V s' st)) f) as (st' & E & Hb & HM'); try assumption; try lia.
           ++ constructor.
           ++ destruct Hg as [? ? ? Hu ?]. constructor; try assumption. eapply units_suffix; eassumption.
           ++ left. exists InvalidLiteral. split; [reflexivity|exact Hes].
           ++ cbn [app] in E. rewrite E. apply (bad_agrees ts used); assumption.
      * rewrite plain_step by assumption.
        assert (HX : lit_run (acc ++ [c]) false (st_src st) = lit_run [c] ws s) by (rewrite lit_run_app, Hlit; reflexivity).
        destruct (lit_run [c] ws s) as [[s' ws']|] eqn:E3.
        -- apply (IH auto used next ws' (acc ++ [c]) s' st f); try assumption; [lia|apply ascii_snoc; assumption].
        -- destruct (bad_loop ts auto used next (acc ++ [c]) st f) as (st' & E & Hb & HM'); try assumption; [lia|apply ascii_snoc; assumption|right; exact HX|].
           rewrite E. apply (bad_agrees ts used); assumption.
    + destruct Hwf as (Hid & Hok & Hwf).
      assert (ER : field_text txt id d ++ tokens_text txt ts = 123 :: tl (field_text txt id d ++ tokens_text txt ts)) by reflexivity.
      rewrite ER. rewrite open_step. rewrite <- ER. rewrite Elit. cbn [bind].
      assert (HFG := field_good auto used next (set_src V s st) id d (tokens_text txt ts) Hg1 HE Hid (Hm id d (or_introl eq_refl)) Hok).
      cbv zeta in HFG. cbn [run].
      set (i := match id with Some ds => number ds | None => next end) in *.
      destruct ((n <=? i) || existsb (Z.eqb i) used) eqn:EC.
      * destruct HFG as (p & st2 & -> & Hb2). cbn [bind]. unfold failed. rewrite Hb2.
        destruct (finish_bad [InvalidFormatString] st2) as (x & -> & [<-|[]]).
        -- exists InvalidFormatString. split; [exact Hb2|left; reflexivity].
        -- left; reflexivity.
        -- left; reflexivity.
      * cbn [st_src set_src st_log] in HFG.
        destruct (rd i d s) as [[v s']|x| |].
        -- destruct HFG as (st2 & -> & Hg2 & HE2 & ES & EL). cbn [bind]. unfold failed. rewrite HE2, <- EL.
           apply (IH auto (i :: used) (next + 1) false [] s' st2 f); try assumption; [|constructor|rewrite ES; reflexivity].
           unfold field_text in HF. cbn [app length] in HF. lia.
        -- destruct HFG as (p & st2 & -> & HE2 & HM2). cbn [bind]. unfold failed. rewrite HE2.
           rewrite (finish_masked (i :: used)) by exact HM2. rewrite HE2. left. unfold code_fail.
           destruct (covers n (i :: used)); reflexivity.
        -- rewrite HFG. reflexivity.
        -- rewrite HFG. reflexivity.
Qed.

Lemma init_good auto fmt source : units e source -> good auto [] 0 (init_state V args fmt source).
Proof.
  intros Hu. unfold init_state. constructor; cbn [st_low st_next st_src st_mixed]; [|destruct auto; lia|lia|exact Hu|reflexivity].
  split; cbn [st_low]; intros i Hi; [rewrite Z.testbit_0_l; reflexivity|apply Z.testbit_0_l].
Qed.

Lemma general_agrees ts source : simple_case ts -> uniform ts -> wf_gtokens txt e spec_ok ts 0 -> units e source ->
  agrees (vscan_parse_format_string V r cf args (tokens_text txt ts) source)
         (scan_spec V e n rd false code_fail ts source).
Proof.
  intros Hsc Hun Hwf Hu. assert (Hm : exists auto, same_mode auto ts).
  { destruct Hun as [Hun|Hun]; [exists true|exists false]; intros id d Hin.
    - rewrite (Hun id d Hin). reflexivity.
    - destruct id; [reflexivity|]. exfalso. apply (Hun None d Hin). reflexivity. }
  destruct Hm as [auto Hm].
  change (vscan_parse_format_string V r cf args (tokens_text txt ts) source)
    with (finish (parse_loop (vscan_fuel V args (tokens_text txt ts)) H (tokens_text txt ts) (tokens_text txt ts) (init_state V args (tokens_text txt ts) source))).
  apply (good_loop ts auto [] 0 false [] source (init_state V args (tokens_text txt ts) source)); try assumption.
  - unfold vscan_fuel. nia.
  - constructor.
  - apply init_good, Hu.
  - reflexivity.
  - reflexivity.
Qed.

Lemma vscan_is_general fmt source : Forall (fun a => forall s, ar_plain a s = ar_default a s) args ->
  vscan V r cf args fmt source = vscan_parse_format_string V r cf args fmt source.
Proof. apply vscan_shortcut. Qed.

Theorem vscan_agrees_any ts source : Forall (fun a => forall s, ar_plain a s = ar_default a s) args -> simple_case ts -> uniform ts -> wf_gtokens txt e spec_ok ts 0 -> units e source ->
  agrees (vscan V r cf args (tokens_text txt ts) source)
         (scan_spec V e n rd false code_fail ts source).
Proof. intros. rewrite vscan_is_general by assumption. apply general_agrees; assumption. Qed.
End Spec.

(** * Format-specs of the grammar *)
Section Grammar.
Variable V : Type.
Variable r : src.
Variable cf : config.
Variable args : list (arg V).
Hypothesis Hcount : (length args < 64)%nat.
Hypothesis Hr : good_src r.
Hypothesis Hcf : c_enc cf = s_enc r.
Notation e := (s_enc r).
Definition read_arg (i : Z) (d : option specs) (s : list Z) : outcome (V * list Z) :=
  match nth_error args (Z.to_nat i) with
  | None => UB
  | Some a => match d with None => ar_default a s | Some sp => ar_specs a sp s end
  end.
(** A format-spec is permitted for an argument: it is not a user-defined type, and the
    format-spec is well-formed for its type.  Nothing is required if there is no such
    argument. *)
Definition spec_ok (i : Z) (d : desc) (rest : list Z) : Prop :=
  forall a, nth_error args (Z.to_nat i) = Some a ->
    arg_eqb (ar_type a) CustomType = false /\ wf_desc (rb_of cf) e (ar_type a) d rest.
Hypothesis Hread : forall i d s v s', read_arg i (option_map (mean e) d) s = Ok (v, s') -> units e s -> units e s'.
Lemma spec_ok_good i d rest : spec_ok i d rest -> spec_good V cf args (render_desc e) (meant e read_arg) i d rest.
Proof.
  intros Hok a EA. destruct (Hok a EA) as [-> Hwf]. exists (mean e d). split.
  - rewrite <- Hcf. apply specs_render; rewrite Hcf; [exact (He r Hr)|exact Hwf].
  - intros s. unfold meant, read_arg. rewrite EA. reflexivity.
Qed.
Theorem vscan_agrees es ts source : In InvalidLiteral es -> Forall (fun a => forall s, ar_plain a s = ar_default a s) args ->
  simple_case V args es ts -> uniform ts -> wf_tokens e spec_ok ts 0 -> units e source ->
  agrees V es (vscan V r cf args (render e ts) source)
         (scan_spec V e (Z.of_nat (length args)) (meant e read_arg) false (code_fail V args) ts source).
Proof.
  intros Hes HP Hsc Hun Hwf Hu. eapply vscan_agrees_any; try eassumption.
  - intros i a s EA. unfold meant, read_arg. rewrite EA. reflexivity.
  - apply spec_ok_good.
Qed.
End Grammar.

(** * Documented behaviour *)
Section Doc.
Variable V : Type.
Variable e : enc.
Variable nargs : Z.
Context {D : Type}.
Variable read : Z -> option D -> list Z -> outcome (V * list Z).
Variable fail : list Z -> err -> err.

(** Success with any reporting of errors is documented success. *)
Lemma run_doc ts : forall next used ws s log x,
  run V e nargs read false fail ts next used ws s log = Ok x ->
  run V e nargs read true (fun _ y => y) ts next used ws s log = Ok x.
Proof.
  induction ts as [|[c|id d] ts IH]; intros next used ws s log x; cbn [run]; [auto| |].
  - destruct (is_ws c).
    + destruct ws; [apply IH|]. destruct s; [discriminate|apply IH].
    + destruct s as [|y s]; [discriminate|]. destruct (y =? c); [apply IH|discriminate].
  - destruct (_ || _); [discriminate|].
    destruct (read _ _ s) as [[v s']|y| |]; try discriminate. apply IH.
Qed.

(** Documented success that leaves something unread is success. *)
Lemma run_rest_suffix ok f ts :
  (forall i d s v s', units e s -> read i d s = Ok (v, s') -> suffix s' s) ->
  forall next used ws s log log' s', units e s ->
  run V e nargs read ok f ts next used ws s log = Ok (log', s') -> suffix s' s.
Proof.
  intros Hs. induction ts as [|[c|id d] ts IH]; intros next used ws s log log' s' Hu; cbn [run].
  - destruct (covers nargs used); [|discriminate]. intros E. injection E as _ <-. apply suffix_refl.
  - destruct (is_ws c).
    + destruct ws; [apply IH, Hu|]. destruct s as [|y s]; [destruct ok; [apply IH, Hu|discriminate]|].
      intros E. eapply suffix_trans; [eapply IH, E|apply drop_space_suffix].
      eapply units_suffix; [apply drop_space_suffix|exact Hu].
    + destruct s as [|y s]; [discriminate|]. destruct (y =? c); [|discriminate].
      intros E. apply suffix_cons. eapply IH, E. eapply units_suffix; [|exact Hu]. apply suffix_cons, suffix_refl.
  - destruct (_ || _); [discriminate|].
    destruct (read _ _ s) as [[v s1]|y| |] eqn:ER; try discriminate.
    assert (H1 : suffix s1 s) by (eapply Hs, ER; exact Hu).
    intros E. eapply suffix_trans; [eapply IH, E|exact H1]. eapply units_suffix; eassumption.
Qed.
Lemma doc_run ts : (forall i d s v s', units e s -> read i d s = Ok (v, s') -> suffix s' s) ->
  forall next used ws s log log' s', units e s -> s' <> [] ->
  run V e nargs read true (fun _ y => y) ts next used ws s log = Ok (log', s') ->
  run V e nargs read false fail ts next used ws s log = Ok (log', s').
Proof.
  intros Hs. induction ts as [|[c|id d] ts IH]; intros next used ws s log log' s' Hu Hne; cbn [run]; [auto| |].
  - destruct (is_ws c).
    + destruct ws; [apply IH; assumption|]. destruct s as [|y s].
      * intros E. apply run_rest_suffix in E; [|exact Hs|exact Hu]. destruct E as [p E].
        destruct p; [|discriminate]. cbn in E. congruence.
      * apply IH; [|exact Hne]. eapply units_suffix; [apply drop_space_suffix|exact Hu].
    + destruct s as [|y s]; [discriminate|]. destruct (y =? c); [|discriminate].
      apply IH; [|exact Hne]. eapply units_suffix; [|exact Hu]. apply suffix_cons, suffix_refl.
  - destruct (_ || _); [discriminate|].
    destruct (read _ _ s) as [[v s1]|y| |] eqn:ER; try discriminate. apply IH; [|exact Hne].
    eapply units_suffix; [eapply Hs, ER; exact Hu|exact Hu].
Qed.
End Doc.

(** * Further facts about token runs *)
Lemma drop_space_idem e s : drop_space e (drop_space e s) = drop_space e s.
Proof.
  assert (H1 := drop_space_first_at e (length s) s ltac:(lia)). fold (drop_space e s) in H1. destruct H1 as [_ H1].
  assert (H2 := drop_space_first_at e (length (drop_space e s)) (drop_space e s) ltac:(lia)).
  eapply first_at_unique; [exact H2|]. split; [apply sw_refl|exact H1].
Qed.

Section More.
Variable V : Type.
Variable e : enc.
Variable nargs : Z.
Context {D : Type}.
Variable read : Z -> option D -> list Z -> outcome (V * list Z).

(** The error reported does not change anything else. *)
Lemma run_fail_rel fail ts : forall ok next used ws s log,
  let a := run V e nargs read ok fail ts next used ws s log in
  let b := run V e nargs read ok (fun _ x => x) ts next used ws s log in
  match b with
  | Err x => a = Err x \/ exists u, a = Err (fail u x)
  | _ => a = b
  end.
Proof.
  induction ts as [|[c|id d] ts IH]; intros ok next used ws s log; cbn [run]; cbv zeta in *.
  - destruct (covers nargs used); auto.
  - destruct (is_ws c).
    + destruct ws; [apply IH|]. destruct s; [destruct ok; [apply IH|auto]|apply IH].
    + destruct s as [|y s]; [auto|]. destruct (y =? c); [apply IH|auto].
  - destruct (_ || _); [auto|]. destruct (read _ _ s) as [[v s']|x| |]; [apply IH| |reflexivity|reflexivity].
    right. eauto.
Qed.

(** A successful run reads every argument exactly once. *)
Lemma run_reads_all (txt : D -> list Z) ok fail okd ts : forall next used ws s log log' s',
  wf_gtokens txt e okd ts next -> 0 <= next ->
  NoDup used -> (forall i, In i used -> 0 <= i < nargs) -> map fst log = rev used ->
  run V e nargs read ok fail ts next used ws s log = Ok (log', s') ->
  NoDup (map fst log') /\ forall i, In i (map fst log') <-> 0 <= i < nargs.
Proof.
  induction ts as [|[c|id d] ts IH]; intros next used ws s log log' s' Hwf Hn Hnd Hr Hlog; cbn [run wf_gtokens] in *.
  - destruct (covers nargs used) eqn:EC; [|discriminate]. intros E. injection E as <- _. rewrite Hlog.
    split; [apply NoDup_rev, Hnd|]. intros i. rewrite <- in_rev. split; [apply Hr|]. intros Hi.
    unfold covers in EC. rewrite forallb_forall in EC. apply existsb_In. apply EC. apply in_zseq. lia.
  - destruct Hwf as [_ Hwf]. destruct (is_ws c).
    + destruct ws; [eapply IH; eassumption|]. destruct s; [destruct ok; [eapply IH; eassumption|discriminate]|eapply IH; eassumption].
    + destruct s as [|y s]; [discriminate|]. destruct (y =? c); [eapply IH; eassumption|discriminate].
  - destruct Hwf as (Hid & _ & Hwf). set (i := match id with Some ds => number ds | None => next end).
    assert (Hi : 0 <= i) by (apply id_nonneg; assumption).
    destruct ((nargs <=? i) || existsb (Z.eqb i) used) eqn:EC; [discriminate|]. apply orb_false_iff in EC. destruct EC as [EC1 EC2].
    destruct (read _ _ s) as [[v s1]|x| |]; try discriminate. eapply IH; [exact Hwf|lia| | |].
    + constructor; [|exact Hnd]. intros HX. apply existsb_In in HX. congruence.
    + intros j [<-|Hj]; [lia|apply Hr, Hj].
    + rewrite map_app. cbn. rewrite Hlog. reflexivity.
Qed.
End More.

Lemma lits_matches V {D} e (read : Z -> option D -> list Z -> outcome (V * list Z)) t : forall ws s log x, (ws = true -> drop_space e s = s) ->
  run V e 0 read false (fun _ y => y) (map Lit t) 0 [] ws s log = Ok x ->
  exists rest, x = (log, rest) /\ matches e t s rest.
Proof.
  induction t as [|c t IH]; intros ws s log x Hws; cbn [map run].
  - intros E. injection E as <-. eexists. split; [reflexivity|constructor].
  - destruct (is_ws c) eqn:Ec.
    + destruct ws.
      * intros E. destruct (IH _ _ _ _ (fun _ => Hws eq_refl) E) as (rest & -> & HM). eexists. split; [reflexivity|].
        apply m_space; [exact Ec|]. rewrite Hws by reflexivity. exact HM.
      * destruct s as [|y s]; [discriminate|]. intros E.
        destruct (IH _ _ _ _ (fun _ => drop_space_idem e (y :: s)) E) as (rest & -> & HM). eexists. split; [reflexivity|].
        apply m_space; assumption.
    + destruct s as [|y s]; [discriminate|]. destruct (y =? c) eqn:Ey; [|discriminate]. assert (y = c) by lia. subst y.
      intros E. destruct (IH false _ _ _ ltac:(discriminate) E) as (rest & -> & HM). eexists. split; [reflexivity|].
      apply m_char; assumption.
Qed.
Lemma matches_lits V {D} e (read : Z -> option D -> list Z -> outcome (V * list Z)) t s rest : matches e t s rest -> forall ws log, (ws = true -> drop_space e s = s) ->
  run V e 0 read true (fun _ y => y) (map Lit t) 0 [] ws s log = Ok (log, rest).
Proof.
  induction 1 as [s|c t s rest Hc HM IH|c t s rest Hc HM IH]; intros ws log Hws; cbn [map run].
  - reflexivity.
  - rewrite Hc, Z.eqb_refl. apply IH. discriminate.
  - rewrite Hc. destruct ws.
    + specialize (Hws eq_refl). rewrite Hws in IH. apply IH. auto.
    + destruct s as [|y s]; [|apply IH; intros _; apply drop_space_idem]. apply IH. reflexivity.
Qed.
Lemma matches_suffix e t s rest : matches e t s rest -> suffix rest s.
Proof.
  induction 1; [apply suffix_refl|apply suffix_cons; assumption|]. eapply suffix_trans; [eassumption|apply drop_space_suffix].
Qed.
(** The result of matching literals: success or invalid_literal. *)
Lemma lits_result V {D} e (read : Z -> option D -> list Z -> outcome (V * list Z)) t : forall ok ws s log,
  (exists x, run V e 0 read ok (fun _ y => y) (map Lit t) 0 [] ws s log = Ok x)
  \/ run V e 0 read ok (fun _ y => y) (map Lit t) 0 [] ws s log = Err InvalidLiteral.
Proof.
  induction t as [|c t IH]; intros ok ws s log; cbn [map run]; [left; eexists; reflexivity|].
  destruct (is_ws c).
  - destruct ws; [apply IH|]. destruct s; [destruct ok; [apply IH|auto]|apply IH].
  - destruct s as [|y s]; [auto|]. destruct (y =? c); [apply IH|auto].
Qed.

(** Non-ASCII literals in a narrow format string. *)
Lemma continuation_invalid c t : 128 <= c < 192 -> exists rest, get_next_code_point U8 (c :: t) = Ok (invalid_code_point, rest).
Proof.
  intros Hc. unfold get_next_code_point.
  assert (E : cp_len U8 c = 0%nat).
  { assert (HB : is_byte c) by (unfold is_byte; lia). revert c HB Hc.
    assert (HS : forall c, is_byte c -> implb ((128 <=? c) && (c <? 192)) (cp_len U8 c =? 0)%nat = true)
      by (apply (sweep_byte (fun c => implb ((128 <=? c) && (c <? 192)) (cp_len U8 c =? 0)%nat)); vm_compute; reflexivity).
    intros c HB Hc. specialize (HS c HB). replace ((128 <=? c) && (c <? 192)) with true in HS by lia. cbn in HS.
    apply Nat.eqb_eq, HS. }
  rewrite E. cbn. eauto.
Qed.
