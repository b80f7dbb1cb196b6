(** Reading a field of any source, with any reader: nothing goes wrong and the value
    comes from one contiguous part of the source. *)
From Verif Require Import Prelude UnicodeModel UnicodeSpec UnicodeProofs WhitespaceModel WhitespaceSpec
  WhitespaceProofs ReadModel ReadProofs SpecsModel IntModel WidthModel ArgReaderModel.
Local Open Scope Z_scope.

Lemma units_prefix e a b : units e (a ++ b) -> units e a.
Proof. destruct e; cbn; auto. intros H. apply bytes_app in H. apply H. Qed.

(** Widths *)
Lemma text_width_total e s : exists w, text_width e s = Ok w.
Proof. unfold text_width. destruct (for_each_partition e s) as (l & _ & _ & ->). cbn [bind]. eauto. Qed.
Lemma cp_width_range cp : cp_width cp = 1 \/ cp_width cp = 2.
Proof. unfold cp_width. match goal with |- context[if ?b then 2 else 1] => destruct b end; auto. Qed.
Lemma firstn_full {A} n (l : list A) : (n <= length l)%nat -> length (firstn n l) = n.
Proof. intros H. rewrite firstn_length. lia. Qed.
Lemma width_at_total e c s : exists w, width_at e (c :: s) = Ok w /\ (w = 0 \/ w = 1 \/ w = 2).
Proof.
  unfold width_at. destruct (cp_len e c) as [|[|n]] eqn:EL.
  - eauto.
  - destruct (cp_width_range c) as [-> | ->]; eauto 6.
  - destruct (length (c :: s) <? S (S n))%nat eqn:E; [eauto|]. apply Nat.ltb_ge in E.
    unfold text_width, for_each_code_point. rewrite (firstn_full (S (S n)) (c :: s) E).
    assert (HN : exists cp, get_next_code_point e (firstn (S (S n)) (c :: s)) = Ok (cp, [])).
    { destruct (read_code_point_into_total e c s) as (rest & cps & HR & _ & HD).
      unfold read_code_point_into in HR. rewrite EL in HR.
      assert (HX : firstn (S (S n)) (c :: s) = cps) by congruence. rewrite <- HX in HD. clear HX HR.
      destruct HD as [HD|[cp HD]]; [discriminate|].
      assert (HL := firstn_full (S (S n)) (c :: s) E).
      assert (EF : firstn (S (S n)) (firstn (S (S n)) (c :: s)) = firstn (S (S n)) (c :: s)) by (rewrite firstn_firstn, Nat.min_id; reflexivity).
      assert (EC : firstn (S (S n)) (c :: s) = c :: firstn (S n) s) by reflexivity.
      set (L := firstn (S (S n)) (c :: s)) in *. clearbody L.
      exists cp. unfold get_next_code_point. rewrite EC at 1. rewrite EL, HL, Nat.ltb_irrefl, EF, HD. cbn [bind].
      rewrite skipn_all2; [reflexivity|lia]. }
    assert (EC : exists l, firstn (S (S n)) (c :: s) = c :: l) by (eexists; reflexivity). destruct EC as [l EC].
    destruct HN as [cp HN]. rewrite EC in *. cbn [for_each_code_point_loop]. rewrite HN. cbn [bind].
    destruct n; cbn [for_each_code_point_loop bind fold_right];
      destruct (cp_width_range cp) as [-> | ->]; eauto 6.
Qed.

Lemma tw_total e : forall s count left,
  exists v t, tw_from e count left s = Ok v /\ s = v ++ t
    /\ forall k, (k <= length v)%nat ->
       exists c, tw_count e count left s k = Ok c /\ c <= count /\ (0 <= count -> 0 <= c).
Proof.
  induction s as [|u s IH]; intros count left.
  - exists [], []. split; [reflexivity|]. split; [reflexivity|]. intros k Hk. exists count.
    destruct k; [|cbn in Hk; lia]. cbn. auto with zarith.
  - destruct (width_at_total e u s) as (w & HW & Hw).
    assert (HS : exists b, at_end e count left (u :: s) = Ok b
      /\ (b = false -> 0 <= count -> left = 0 -> 0 <= count - w)).
    { unfold at_end. destruct (Z.eqb_spec count 0) as [->|H0]; cbn [andb].
      - destruct (Z.eqb_spec left 0) as [->|H1]; cbn [andb]; eauto. exists true. split; [reflexivity|discriminate].
        eexists. split; [reflexivity|]. lia.
      - destruct (Z.eqb_spec count 1) as [->|H2]; cbn [andb].
        + destruct (Z.eqb_spec left 0) as [->|H1]; [rewrite HW; cbn [bind]|]; eexists; (split; [reflexivity|]); lia.
        + eexists. split; [reflexivity|]. lia. }
    destruct HS as (b & HB & Hb). cbn [tw_from]. rewrite HB. cbn [bind]. destruct b.
    + exists [], (u :: s). split; [reflexivity|]. split; [reflexivity|]. intros k Hk. cbn in Hk.
      destruct k; [|lia]. exists count. cbn. auto with zarith.
    + assert (HI : exists c' l', increment e count left (u :: s) = Ok (c', l') /\ c' <= count /\ (0 <= count -> 0 <= c')).
      { unfold increment. destruct (Z.eqb_spec left 0) as [->|H1].
        - rewrite HW. cbn [bind]. eexists _, _. split; [reflexivity|]. split; [lia|]. intros; apply Hb; auto.
        - eexists _, _. split; [reflexivity|]. lia. }
      destruct HI as (c' & l' & HI & H1 & H2). rewrite HI. cbn [bind].
      destruct (IH c' l') as (v & t & HV & -> & HK). rewrite HV. cbn [bind].
      exists (u :: v), t. split; [reflexivity|]. split; [reflexivity|]. intros [|k] Hk.
      * exists count. cbn. auto with zarith.
      * cbn [tw_count]. rewrite HI. cbn [bind]. cbn [length] in Hk.
        destruct (HK k) as (c & HC & H3 & H4); [lia|]. exists c. split; [exact HC|]. split; [lia|]. auto.
Qed.
Lemma take_width_total e s n : exists v t, take_width e s n = Ok v /\ s = v ++ t
  /\ forall rest, exists c, view_count e s v rest n = Ok c /\ c <= n /\ (0 <= n -> 0 <= c).
Proof.
  destruct (tw_total e s n 0) as (v & t & HV & HS & HK). exists v, t. split; [exact HV|]. split; [exact HS|].
  intros rest. apply HK. lia.
Qed.

(** Going back from a view to the range it limits. *)
Lemma firstn_drop {A} (p r : list A) : firstn (length (p ++ r) - length r) (p ++ r) = p.
Proof.
  rewrite app_length. replace (length p + length r - length r)%nat with (length p) by lia.
  rewrite firstn_app, Nat.sub_diag, firstn_all, firstn_O, app_nil_r. reflexivity.
Qed.
Lemma view_base_drop p r t : view_base ((p ++ r) ++ t) (p ++ r) r = r ++ t.
Proof.
  unfold view_base. rewrite app_length. replace (length p + length r - length r)%nat with (length p) by lia.
  rewrite <- app_assoc, skipn_app, Nat.sub_diag, skipn_all. reflexivity.
Qed.

(** Fill characters that a parsed format string can contain. *)
Definition fill_safe (e : enc) (f : fill_type) : Prop :=
  (f_size f <= unit_size e)%nat \/ (e = U8 /\ get_code_units f <> []).
Lemma while_units_total needle : needle <> [] -> forall fuel s, (length s <= fuel)%nat ->
  exists s', read_while_code_units_loop fuel needle s = Ok s' /\ suffix s' s.
Proof.
  intros Hn. induction fuel as [|f IH]; intros s Hl; cbn [read_while_code_units_loop].
  - destruct s; [|cbn in Hl; lia]. eauto with sfx.
  - destruct s as [|c s]; [eauto with sfx|].
    destruct (length (c :: s) <? length needle)%nat; [eauto with sfx|].
    destruct (negb (starts_with needle (c :: s))); [eauto with sfx|].
    destruct (IH (skipn (length needle) (c :: s))) as (s' & E & HS).
    + rewrite skipn_length. cbn [length] in *. destruct needle; [congruence|]. cbn [length]. lia.
    + exists s'. split; [exact E|]. eapply suffix_trans; [exact HS|apply suffix_skipn].
Qed.

(** A step that either fails or moves forward in the source and reports a width; with a
    limit other than zero, at most that width. *)
Definition moves (s : list Z) (x : outcome (list Z * Z)) : Prop :=
  (exists e, x = Err e) \/ exists s' w, x = Ok (s', w) /\ suffix s' s.
Definition moves_within (s : list Z) (n : Z) (x : outcome (list Z * Z)) : Prop :=
  (exists e, x = Err e) \/ exists s' w, x = Ok (s', w) /\ suffix s' s /\ (0 < n -> 0 <= w <= n).

Lemma skip_fill_total r s n f want : fill_safe (s_enc r) f ->
  moves_within s n (skip_fill r s n f want).
Proof.
  intros Hf. right. unfold skip_fill.
  assert (HR : forall v, exists v', (if (f_size f <=? unit_size (s_enc r))%nat
    then Ok (read_while_code_unit (fun c => c =? get_code_unit f) v)
    else match s_enc r with U8 => read_while_code_units (get_code_units f) v | _ => UB end) = Ok v' /\ suffix v' v).
  { intros v. destruct (f_size f <=? unit_size (s_enc r))%nat eqn:E.
    - eexists. split; [reflexivity|]. apply find_if_suffix.
    - destruct Hf as [Hf|[-> Hf]]; [apply Nat.leb_gt in E; lia|]. apply while_units_total; [exact Hf|lia]. }
  cbv zeta. destruct (Z.eqb_spec n 0) as [->|Hn].
  - destruct (HR s) as (s' & -> & HS). cbn [bind]. destruct want.
    + destruct (f_size f <=? unit_size (s_enc r))%nat.
      * eexists _, _. split; [reflexivity|]. split; [exact HS|lia].
      * destruct (text_width_total (s_enc r) (get_code_units f)) as [w ->]. cbn [bind].
        eexists _, _. split; [reflexivity|]. split; [exact HS|lia].
    + eexists _, _. split; [reflexivity|]. split; [exact HS|lia].
  - destruct (take_width_total (s_enc r) s n) as (v & t & -> & -> & HC). cbn [bind].
    destruct (HR v) as (v' & -> & [p ->]). cbn [bind].
    destruct (HC v') as (c & -> & H1 & H2). cbn [bind]. rewrite view_base_drop.
    eexists _, _. split; [reflexivity|]. split; [exists p; symmetry; apply app_assoc|]. destruct want; lia.
Qed.
Lemma skip_ws_within_total r s n b : units (s_enc r) s -> moves_within s n (skip_ws_within r s n b).
Proof.
  intros Hu. unfold skip_ws_within.
  destruct (take_width_total (s_enc r) s n) as (v & t & -> & -> & HC). cbn [bind].
  destruct (skip_classic_whitespace_total (view_src r) v b) as [(v' & -> & [p ->])| ->].
  - exact (units_prefix _ _ _ Hu).
  - right. cbn [bind]. destruct (HC v') as (c & -> & H1 & H2). cbn [bind]. rewrite view_base_drop.
    eexists _, _. split; [reflexivity|]. split; [exists p; symmetry; apply app_assoc|]. lia.
  - left; eexists; reflexivity.
Qed.
Lemma skip_ws_all_total r s want b : units (s_enc r) s -> moves_within s 0 (skip_ws_all r s want b).
Proof.
  intros Hu. unfold skip_ws_all. destruct (skip_classic_whitespace_total r s b Hu) as [(s' & -> & HS)| ->]; [right|left; eexists; reflexivity].
  cbn [bind]. destruct want.
  - destruct (text_width_total (s_enc r) (firstn (length s - length s') s)) as [w ->]. cbn [bind].
    eexists _, _. split; [reflexivity|]. split; [exact HS|lia].
  - eexists _, _. split; [reflexivity|]. split; [exact HS|lia].
Qed.

Section ArgRead.
Variables (r : src) (sp : specs) (skip : bool).
Hypothesis Hprec : 0 <= precision sp.
Hypothesis Hfill : fill_safe (s_enc r) (fill sp).

Lemma prefix_moves r' s : s_enc r' = s_enc r -> units (s_enc r) s ->
  moves_within s (precision sp) (impl_prefix r' sp skip s).
Proof using Hprec Hfill.
  intros He Hu. unfold impl_prefix.
  assert (HI : forall n, 0 <= n -> moves_within s n (Ok (s, 0))).
  { intros n Hn. right. exists s, 0. split; [reflexivity|]. split; [apply suffix_refl|lia]. }
  destruct (align sp).
  - destruct skip; [|apply HI, Hprec]. destruct (Z.eqb_spec (precision sp) 0) as [E|E]; cbn [negb].
    + rewrite E. apply skip_ws_all_total. rewrite He. exact Hu.
    + apply skip_ws_within_total. rewrite He. exact Hu.
  - apply HI, Hprec.
  - apply skip_fill_total. rewrite He. exact Hfill.
  - apply skip_fill_total. rewrite He. exact Hfill.
Qed.

Lemma postfix_moves it prefix value : units (s_enc r) it ->
  precision sp = 0 \/ prefix + value <= precision sp ->
  (exists e, impl_postfix r sp skip prefix value it = Err e)
  \/ exists it' w, impl_postfix r sp skip prefix value it = Ok (it', w) /\ suffix it' it
     /\ (precision sp <> 0 -> prefix + value + w <= precision sp).
Proof using Hprec Hfill.
  intros Hu Hv. unfold impl_postfix.
  assert (HI : (exists e, Ok (it, 0) = Err e :> outcome (list Z * Z)) \/ exists it' w,
     Ok (it, 0) = Ok (it', w) :> outcome (list Z * Z) /\ suffix it' it /\ (precision sp <> 0 -> prefix + value + w <= precision sp)).
  { right. exists it, 0. split; [reflexivity|]. split; [apply suffix_refl|lia]. }
  assert (HF : forall b, (exists e, skip_fill r it (precision sp - value - prefix) (fill sp) b = Err e) \/
     precision sp <> 0 /\ precision sp - value - prefix = 0 \/ exists it' w,
     skip_fill r it (precision sp - value - prefix) (fill sp) b = Ok (it', w) /\ suffix it' it
     /\ (precision sp <> 0 -> prefix + value + w <= precision sp)).
  { intros b. destruct (Z.eq_dec (precision sp) 0) as [E|E].
    - destruct (skip_fill_total r it (precision sp - value - prefix) (fill sp) b Hfill) as [H|(s' & w & H1 & H2 & _)]; [auto|].
      right; right. exists s', w. split; [exact H1|]. split; [exact H2|]. congruence.
    - destruct (Z.eq_dec (precision sp - value - prefix) 0) as [E0|E0]; [auto|].
      destruct (skip_fill_total r it (precision sp - value - prefix) (fill sp) b Hfill) as [H|(s' & w & H1 & H2 & H3)]; [auto|].
      right; right. exists s', w. split; [exact H1|]. split; [exact H2|]. lia. }
  destruct (align sp); try exact HI.
  - destruct (negb skip && _); [|exact HI]. destruct (Z.eqb_spec (precision sp) 0) as [E|E]; cbn [negb].
    + destruct (skip_ws_all_total r it (need_width sp) true Hu) as [H|(s' & w & H1 & H2 & _)]; [auto|].
      right. exists s', w. split; [exact H1|]. split; [exact H2|]. congruence.
    + destruct (Z.eq_dec (precision sp - prefix - value) 0) as [E0|E0].
      * rewrite E0. unfold skip_ws_within. destruct (take_width_total (s_enc r) it 0) as (v & t & -> & -> & HC). cbn [bind].
        destruct (skip_classic_whitespace_total (view_src r) v true) as [(v' & -> & [p ->])| ->].
        -- exact (units_prefix _ _ _ Hu).
        -- right. cbn [bind]. destruct (HC v') as (c & -> & H1 & H2). cbn [bind]. rewrite view_base_drop.
           eexists _, _. split; [reflexivity|]. split; [exists p; symmetry; apply app_assoc|]. lia.
        -- left; eexists; reflexivity.
      * destruct (skip_ws_within_total r it (precision sp - prefix - value) true Hu) as [H|(s' & w & H1 & H2 & H3)]; [auto|].
        right. exists s', w. split; [exact H1|]. split; [exact H2|]. lia.
  - destruct (Z.eqb_spec (precision sp) 0) as [E|E]; cbn [negb andb].
    + destruct (HF (need_width sp)) as [H|[H|H]]; auto. lia.
    + destruct (Z.eqb_spec (precision sp - value - prefix) 0); [exact HI|].
      destruct (HF (need_width sp)) as [H|[H|H]]; auto. lia.
  - destruct (Z.eqb_spec (precision sp) 0) as [E|E]; cbn [negb andb].
    + destruct (HF (need_width sp)) as [H|[H|H]]; auto. lia.
    + destruct (Z.eqb_spec (precision sp - value - prefix) 0); [exact HI|].
      destruct (HF (need_width sp)) as [H|[H|H]]; auto. lia.
Qed.

(** The last two steps. *)
Lemma finish_total {V} (x : V) it prefix value : units (s_enc r) it ->
  precision sp = 0 \/ prefix + value <= precision sp ->
  let m := '(it, postfix) <- (match it with [] => Ok (it, 0) | _ => impl_postfix r sp skip prefix value it end) ;;
           _ <- check_widths sp prefix value postfix ;; Ok (x, it) in
  (exists e, m = Err e) \/ exists post rest, m = Ok (x, rest) /\ it = post ++ rest.
Proof using Hprec Hfill.
  intros Hu Hv m. unfold m.
  assert (HP : (exists e, (match it with [] => Ok (it, 0) | _ => impl_postfix r sp skip prefix value it end) = Err e)
    \/ exists it' w, (match it with [] => Ok (it, 0) | _ => impl_postfix r sp skip prefix value it end) = Ok (it', w)
      /\ suffix it' it /\ (precision sp <> 0 -> prefix + value + w <= precision sp)).
  { destruct it as [|c it'] eqn:EI; [|apply postfix_moves; assumption].
    right. exists [], 0. split; [reflexivity|]. split; [apply suffix_refl|lia]. }
  destruct HP as [[e ->]|(it' & w & -> & [post ->] & HW)]; [left; exists e; reflexivity|]. cbn [bind].
  unfold check_widths. destruct (_ && _); [left; eexists; reflexivity|].
  destruct (Z.eqb_spec (precision sp) 0) as [E|E]; cbn [negb andb].
  - right. exists post, it'. split; reflexivity.
  - specialize (HW E). destruct (Z.ltb_spec (precision sp) (prefix + value + w)); [lia|].
    right. exists post, it'. split; reflexivity.
Qed.

Variable V : Type.
Variable read : src -> list Z -> outcome (V * list Z).
(** The source as the reader sees it. *)
Definition seen : src := if precision sp =? 0 then r else view_src r.
Hypothesis Hread : forall v, units (s_enc r) v ->
  (exists e, read seen v = Err e) \/ exists x v', read seen v = Ok (x, v') /\ suffix v' v.

(** Reading a field fails with an error, or gives what the reader gave for a part of the
    source, leaving a later part. *)
Definition field_parts (s : list Z) (x : V) (rest : list Z) : Prop :=
  exists pre value post v' t,
    s = pre ++ value ++ post ++ rest
    /\ read seen (value ++ v') = Ok (x, v') /\ v' ++ t = post ++ rest.

Theorem arg_read_total s : units (s_enc r) s ->
  (exists e, arg_read r sp skip read s = Err e)
  \/ exists x rest, arg_read r sp skip read s = Ok (x, rest) /\ field_parts s x rest.
Proof using Hprec Hfill Hread.
  intros Hu. unfold arg_read, field_parts, seen in *. destruct (Z.eqb_spec (precision sp) 0) as [E|E]; cbn [negb].
  - destruct (prefix_moves r s eq_refl Hu) as [[e ->]|(it & w & -> & [pre ->] & _)]; [left; exists e; reflexivity|].
    cbn [bind]. assert (Hi : units (s_enc r) it) by (eapply units_suffix; [exists pre; reflexivity|exact Hu]).
    destruct (Hread it Hi) as [[e ->]|(x & it' & HR & [value ->])]; [left; exists e; reflexivity|].
    rewrite HR. cbn [bind].
    assert (Hj : units (s_enc r) it') by (eapply units_suffix; [exists value; reflexivity|exact Hi]).
    assert (HW : exists wv, (if need_width sp then w <- text_width (s_enc r) (firstn (length (value ++ it') - length it') (value ++ it')) ;; Ok (x, it', w)
        else Ok (x, it', 0)) = Ok (x, it', wv)).
    { destruct (need_width sp); [|eauto].
      destruct (text_width_total (s_enc r) (firstn (length (value ++ it') - length it') (value ++ it'))) as [wv ->]. cbn [bind]. eauto. }
    destruct HW as [wv ->]. cbn [bind].
    destruct (finish_total x it' w wv Hj (or_introl E)) as [[e H]|(post & rest & H & ->)]; [left; exists e; exact H|].
    right. exists x, rest. split; [exact H|]. exists pre, value, post, (post ++ rest), []. rewrite app_nil_r. auto.
  - destruct (take_width_total (s_enc r) s (precision sp)) as (v & t & -> & -> & _). cbn [bind].
    assert (Hv : units (s_enc r) v) by exact (units_prefix _ _ _ Hu).
    destruct (prefix_moves (view_src r) v eq_refl Hv) as [[e ->]|(v1 & w & -> & [pre ->] & Hw)]; [left; exists e; reflexivity|].
    cbn [bind]. rewrite view_base_drop. specialize (Hw ltac:(lia)).
    destruct (Z.leb_spec (precision sp) w) as [Hle|Hlt]; [left; eexists; reflexivity|].
    destruct (take_width_total (s_enc r) (v1 ++ t) (precision sp - w)) as (v2 & t2 & HT & ES & HC). rewrite HT. cbn [bind].
    assert (Hi : units (s_enc r) (v1 ++ t)).
    { eapply units_suffix; [|exact Hu]. exists pre. symmetry. apply app_assoc. }
    assert (H2 : units (s_enc r) v2) by (rewrite ES in Hi; exact (units_prefix _ _ _ Hi)).
    destruct (Hread v2 H2) as [[e ->]|(x & v' & HR & [value ->])]; [left; exists e; reflexivity|].
    rewrite HR. cbn [bind]. destruct (HC v') as (c & -> & Hc1 & Hc2). cbn [bind]. rewrite ES, view_base_drop.
    assert (Hj : units (s_enc r) (v' ++ t2)).
    { eapply units_suffix; [|exact Hi]. rewrite ES. exists value. symmetry. apply app_assoc. }
    destruct (finish_total x (v' ++ t2) w (precision sp - w - c) Hj) as [[e H]|(post & rest & H & Ep)];
      [right; lia|left; exists e; exact H|].
    right. exists x, rest. split; [exact H|]. exists pre, value, post, v', t2.
    split; [|split; [exact HR|exact Ep]]. rewrite <- app_assoc, ES, <- Ep, <- app_assoc. reflexivity.
Qed.
End ArgRead.
