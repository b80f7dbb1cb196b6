(** Proofs for property C67. *)
From Verif Require Import Prelude UnicodeModel UnicodeSpec ReadModel ArgReaderModel FloatModel SpecsModel ArgsModel FormatModel FormatSpec FormatSpecProofs VscanModel VscanSpec
  IntModel ScalarModel StringModel LocaleModel VscanSpecProofs CheckerProofs StringSpec StringProofs WidthSpec DocTypesSpec.
Local Open Scope Z_scope.

(** * One field *)
Lemma letter_cases (P : Z -> Prop) c : letter_type c <> None ->
  Forall P [97; 65; 98; 66; 99; 100; 101; 69; 102; 70; 103; 71; 105; 111; 112; 115; 117; 120; 88] -> P c.
Proof.
  intros H HF. unfold letter_type in H. destruct (find _ _) as [[x y]|] eqn:E; [|contradiction H; reflexivity].
  apply find_some in E. destruct E as [HI HE]. cbn [fst] in HE. apply Z.eqb_eq in HE. subst x.
  rewrite Forall_forall in HF. apply HF. cbn in HI. repeat destruct HI as [HI|HI]; try contradiction; injection HI as <- _; cbn; tauto.
Qed.

Section Field.
Variable cf : config.
Notation e := (c_enc cf).
Lemma type_checked t k d : class_of t = Some k -> (forall ty, d_type d = Some ty -> wf_type (rb_of cf) e ty) ->
  0 <= optv 0 number (d_prec d) ->
  check_type_specs t (mean e d) = Ok ((doc_spec k (Some d) && negb (rejected k (Some d))) || undocumented k (Some d)).
Proof.
  intros Hk Hwf Hp0. destruct d as [fl al w p lo ty]. cbn [d_type d_prec] in Hwf, Hp0.
  destruct ty as [[c|inv items|pat fls]|].
  - specialize (Hwf _ eq_refl). cbn [wf_type] in Hwf. pattern c. apply (letter_cases _ c Hwf).
    repeat constructor; destruct t; cbn in Hk; try discriminate Hk; injection Hk as <-; destruct lo; cbn; try reflexivity;
      destruct (optv 0 number p) eqn:EP; cbn; try reflexivity; lia.
  - destruct t; cbn in Hk; try discriminate Hk; injection Hk as <-; destruct lo; cbn; try reflexivity.
  - specialize (Hwf _ eq_refl). destruct Hwf as (_ & Hp & _).
    destruct t; cbn in Hk; try discriminate Hk; injection Hk as <-; destruct lo; cbn [check_type_specs mean d_type];
      unfold check_bool_type_specs, check_int_type_specs, check_char_type_specs, check_float_type_specs, check_string_type_specs, check_pointer_type_specs, check_regex_type_specs;
      cbn [type charset_string localized]; destruct (existsb (Z.eqb 47) pat); cbn; try reflexivity; destruct pat; try contradiction; reflexivity.
  - destruct t; cbn in Hk; try discriminate Hk; injection Hk as <-; destruct lo; cbn; reflexivity.
Qed.
Lemma prec_nonneg t d rest : wf_desc (rb_of cf) e t d rest -> 0 <= optv 0 number (d_prec d).
Proof.
  intros (_ & _ & _ & Hp & _). destruct (d_prec d) as [p|]; [|cbn; lia]. destruct (Hp p eq_refl) as [(_ & Hd & _) _]. cbn.
  apply (number_nonneg _ Hd 0). lia.
Qed.

Variable contiguous borrowed : bool.
Hypothesis He : e <> U16.
Definition yes {A} (b : bool) (a : A) : outcome A := if b then Ok a else reject.
Lemma builtin_checked t d rest : class_of t <> None -> wf_desc (rb_of cf) e t d rest ->
  (_ <- check_arg_can_be_read contiguous borrowed t ;; ct_parse_builtin cf contiguous borrowed t (render_desc e d ++ 125 :: rest))
  = yes (accepted_field contiguous borrowed t (Some d)) (125 :: rest, mean e d).
Proof.
  intros Hk Hwf. destruct (class_of t) as [k|] eqn:EK; [|contradiction]. unfold ct_parse_builtin.
  destruct (render_desc e d ++ 125 :: rest) eqn:ED; [destruct (render_desc e d); discriminate|]. rewrite <- ED.
  rewrite (specs_render cf t d rest He Hwf). cbn [bind ss_err ss_specs]. rewrite (type_checked t k d EK); [|apply Hwf|eapply prec_nonneg, Hwf].
  cbn [bind]. unfold accepted_field. rewrite EK. unfold source_ok.
  assert (ER : (ptype_eqb (type (mean e d)) PRegex || ptype_eqb (type (mean e d)) PRegexEscaped) = uses_regex (Some d)).
  { destruct Hwf as (_ & _ & _ & _ & _ & Hty & _). destruct d as [fl al w p lo [[c|inv items|pat fls]|]]; cbn [d_type] in Hty; try reflexivity.
    - specialize (Hty _ eq_refl). cbn [wf_type] in Hty. pattern c. apply (letter_cases _ c Hty). repeat constructor.
    - unfold mean. cbn [d_type type uses_regex]. destruct (existsb _ pat); reflexivity. }
  rewrite ER. destruct (_ || undocumented k (Some d)) eqn:EO.
  - unfold check_arg_can_be_read, reject, yes. cbn [negb].
    destruct t; cbn in EK; try discriminate EK; injection EK as <-; cbn [is_view_type is_regex_type is_view andb orb];
      destruct (uses_regex (Some d)) eqn:EU, contiguous, borrowed; cbn; try reflexivity;
      exfalso; destruct d as [fl al w p lo [[c|inv items|pat fls]|]]; cbn in EO, EU; rewrite ?andb_false_r in EO; discriminate.
  - unfold check_arg_can_be_read, reject, yes. cbn [negb andb]. destruct (is_view_type t && negb contiguous); [reflexivity|]. destruct (is_view_type t && negb borrowed); [reflexivity|].
    destruct (is_regex_type t && negb contiguous); reflexivity.
Qed.
Lemma plain_checked t : class_of t <> None ->
  (_ <- check_arg_can_be_read contiguous borrowed t ;; if is_regex_type t then reject else Ok tt)
  = yes (accepted_field contiguous borrowed t None) tt.
Proof. destruct t; cbn; try congruence; intros _; destruct contiguous, borrowed; reflexivity. Qed.
End Field.

(** * The whole format string *)
Lemma between_first (a b : list Z) : between (a ++ b) b = a.
Proof. unfold between. rewrite app_length. replace (_ + _ - _)%nat with (length a) by lia. rewrite firstn_app, Nat.sub_diag, firstn_all, firstn_O, app_nil_r. reflexivity. Qed.
Section Tokens.
Variable cf : config.
Variable contiguous borrowed : bool.
Variable types : list arg_type.
Variable custom_parse : Z -> list Z -> outcome (list Z).
Notation e := (c_enc cf).
Notation n := (Z.of_nat (length types)).
Notation h := (ct_handler cf contiguous borrowed types custom_parse).
Notation ok := (accepted_field contiguous borrowed).
Hypothesis He : e <> U16.
Hypothesis Hbuiltin : Forall (fun t => class_of t <> None) types.
Hypothesis Hmany : (0 <= n).

Definition visit (i next' : Z) (d : option desc) (used : list Z) : option cstate :=
  if (n <=? i) || existsb (Z.eqb i) used then None
  else match nth_error types (Z.to_nat i) with
       | Some t => if ok t d then Some (CS next' (i :: used)) else None
       | None => None
       end.
Definition step (id : option (list Z)) (d : option desc) (st : cstate) : option cstate :=
  match id with
  | None => if cs_next st <? 0 then None else visit (cs_next st) (cs_next st + 1) d (cs_visited st)
  | Some ds => if 0 <? cs_next st then None else visit (number ds) (-1) d (cs_visited st)
  end.
Lemma visit_next i nx d used st : visit i nx d used = Some st -> cs_next st = nx.
Proof.
  unfold visit. destruct ((n <=? i) || _); [discriminate|]. destruct (nth_error _ _) as [t|]; [|discriminate]. destruct (ok t d); [|discriminate].
  intros [= <-]. reflexivity.
Qed.
Fixpoint go (ts : list token) (st : cstate) : option cstate :=
  match ts with
  | [] => Some st
  | Lit _ :: ts' => go ts' st
  | Field id d :: ts' => match step id d st with Some st' => go ts' st' | None => None end
  end.
Definition out (p : list Z) (x : option cstate) : outcome (list Z * cstate) := match x with Some st => Ok (p, st) | None => reject end.

Lemma builtin_at i t : nth_error types i = Some t -> class_of t <> None /\ arg_eqb t CustomType = false.
Proof.
  intros E. apply nth_error_In in E. rewrite Forall_forall in Hbuiltin. assert (H := Hbuiltin t E). split; [exact H|].
  destruct t; try reflexivity. contradiction H. reflexivity.
Qed.
Lemma specs_step i next' used d rest : 0 <= i -> (forall t, nth_error types (Z.to_nat i) = Some t -> wf_desc (rb_of cf) e t d rest) ->
  ct_format_specs cf contiguous borrowed types custom_parse i (render_desc e d ++ 125 :: rest) (CS next' used)
  = out (125 :: rest) (visit i next' (Some d) used).
Proof.
  intros Hi Hwf. unfold ct_format_specs, set_arg_as_read, visit, num_args. cbn [cs_visited cs_next].
  destruct (n <=? i) eqn:EN; [reflexivity|]. destruct (existsb _ used) eqn:EX; [reflexivity|]. cbn [bind orb].
  destruct (nth_error types (Z.to_nat i)) as [t|] eqn:ET; [|apply nth_error_None in ET; lia].
  destruct (builtin_at _ _ ET) as [HK HC]. rewrite HC. assert (HB := builtin_checked cf contiguous borrowed He t d rest HK (Hwf t eq_refl)).
  destruct (check_arg_can_be_read contiguous borrowed t) as [u|x| |] eqn:EA; cbn [bind] in HB |- *.
  - rewrite HB. destruct (ok t (Some d)); reflexivity.
  - destruct (ok t (Some d)); cbn in HB; [discriminate|]. injection HB as ->. reflexivity.
  - destruct (ok t (Some d)); discriminate.
  - destruct (ok t (Some d)); discriminate.
Qed.
Lemma plain_step i next' used s : 0 <= i ->
  ct_replacement_field contiguous borrowed types custom_parse i s (CS next' used)
  = match visit i next' None used with Some st => Ok st | None => reject end.
Proof.
  intros Hi. unfold ct_replacement_field, set_arg_as_read, visit, num_args. cbn [cs_visited cs_next].
  destruct (n <=? i) eqn:EN; [reflexivity|]. destruct (existsb _ used) eqn:EX; [reflexivity|]. cbn [bind orb].
  destruct (nth_error types (Z.to_nat i)) as [t|] eqn:ET; [|apply nth_error_None in ET; lia].
  destruct (builtin_at _ _ ET) as [HK HC]. rewrite HC. assert (HB := plain_checked contiguous borrowed t HK).
  destruct (check_arg_can_be_read contiguous borrowed t) as [u|x| |] eqn:EA; cbn [bind] in HB |- *.
  - destruct (is_regex_type t), (ok t None); cbn in HB; unfold reject in HB; try discriminate; reflexivity.
  - destruct (ok t None); cbn in HB; [discriminate|]. injection HB as ->. reflexivity.
  - destruct (ok t None); discriminate.
  - destruct (ok t None); discriminate.
Qed.

Definition tail_text (d : option desc) (rest : list Z) : list Z := opt (fun d : desc => 58 :: render_desc e d) d ++ 125 :: rest.
Lemma arg_id_step ds d rest st : wf_id (Some ds) ->
  parse_arg_id h (ds ++ tail_text d rest) st
  = (' (i, st') <- ct_check_arg_id types (number ds) st ;; Ok (tail_text d rest, i, st')).
Proof.
  intros [Hn Hz]. destruct Hn as (Hne' & Hds & HN).
  destruct ds as [|c ds]; [congruence|]. inversion Hds as [|? ? Hc Hds']; subst.
  set (T := tail_text d rest).
  assert (HT : exists x T', T = x :: T' /\ (x = 125 \/ x = 58)) by (unfold T, tail_text; destruct d; cbn; eauto).
  destruct HT as (x & T' & ET & Hx). cbn [app]. unfold parse_arg_id.
  replace (c =? 125) with false by lia. replace (c =? 58) with false by lia. cbn [negb andb].
  unfold do_parse_arg_id. replace ((c <? 48) || (57 <? c)) with false by lia.
  assert (EI : (if negb (c =? 48) then parse_simple_int (c :: ds ++ T) else Ok (0, ds ++ T)) = Ok (number (c :: ds), T)).
  { destruct (c =? 48) eqn:E48; cbn [negb].
    - destruct Hz as [Hz|Hz]; [|cbn in Hz; lia]. injection Hz as -> ->. reflexivity.
    - destruct (parse_number (c :: ds) T) as (? & ? & _ & _ & E & _).
      + repeat split; assumption.
      + rewrite ET. unfold is_digit. destruct Hx as [-> | ->]; reflexivity.
      + exact E. }
  rewrite EI. cbn [bind]. rewrite ET. replace (negb (x =? 125) && negb (x =? 58)) with false by lia. reflexivity.
Qed.

Lemma tail_step i next' used d rest : 0 <= i -> (forall d', d = Some d' -> forall t, nth_error types (Z.to_nat i) = Some t -> wf_desc (rb_of cf) e t d' rest) ->
  match tail_text d rest with
  | [] => st <- h_error h (CS next' used);; Ok ([], st)
  | c :: s' =>
     if c =? 125 then st <- h_field h i (tail_text d rest) (CS next' used);; Ok (s', st)
     else if c =? 58 then
       match s' with
       | [] => st <- h_error h (CS next' used);; Ok (tail_text d rest, st)
       | _ :: _ => ' (s, st) <- h_specs h i s' (CS next' used);;
           match s with
           | [] => st <- h_error h st;; Ok ([], st)
           | d :: s2 => if negb (d =? 125) then st <- h_error h st;; Ok (s, st) else Ok (s2, st)
           end
       end
     else st <- h_error h (CS next' used);; Ok (tail_text d rest, st)
  end = out rest (visit i next' d used).
Proof.
  intros Hi Hwf. destruct d as [d|]; unfold tail_text; cbn [opt app].
  - change (58 =? 125) with false. change (58 =? 58) with true. cbv iota.
    destruct (render_desc e d ++ 125 :: rest) eqn:ED; [destruct (render_desc e d); discriminate|]. rewrite <- ED.
    cbn [h_specs ct_handler]. rewrite (specs_step i next' used d rest Hi (Hwf d eq_refl)). destruct (visit i next' (Some d) used); reflexivity.
  - change (125 =? 125) with true. cbv iota. cbn [h_field ct_handler]. rewrite (plain_step _ _ _ _ Hi). destruct (visit i next' None used); reflexivity.
Qed.

Lemma field_step id d rest st : wf_id id ->
  (forall d', d = Some d' -> forall t, nth_error types (Z.to_nat (match id with Some ds => number ds | None => cs_next st end)) = Some t -> wf_desc (rb_of cf) e t d' rest) ->
  parse_replacement_field h (field_text (render_desc e) id d ++ rest) st = out rest (step id d st).
Proof.
  intros Hid Hwf. destruct st as [next used]. unfold field_text. rewrite <- !app_assoc. cbn [app].
  change (opt (fun d0 : desc => 58 :: render_desc e d0) d ++ 125 :: rest) with (tail_text d rest).
  destruct id as [ds|]; cbn [opt].
  - assert (HA := arg_id_step ds d rest (CS next used) Hid).
    destruct Hid as [Hn Hz]. destruct Hn as (Hne & Hds & HN). destruct ds as [|c ds]; [congruence|]. inversion Hds as [|? ? Hc Hds']; subst.
    cbn [app parse_replacement_field]. replace (c =? 125) with false by lia. replace (c =? 123) with false by lia.
    cbn [app] in HA. rewrite HA. cbn [step cs_next cs_visited] in *. unfold ct_check_arg_id, num_args. cbn [cs_next cs_visited].
    destruct (0 <? next); [reflexivity|]. destruct (n <=? number (c :: ds)) eqn:EN; [unfold visit; rewrite EN; reflexivity|]. cbn [bind].
    apply tail_step; [|exact Hwf]. apply (number_nonneg _ Hds 0). lia.
  - cbn [app step cs_next cs_visited] in *. destruct d as [d|].
    + assert (HT := fun nx H0 => tail_step next nx used (Some d) rest H0 Hwf).
      unfold tail_text in *. cbn [opt app parse_replacement_field] in *.
      change (58 =? 125) with false in *. change (58 =? 123) with false. cbn [parse_arg_id].
      change (negb (58 =? 125) && negb (58 =? 58)) with false. cbv iota in *.
      cbn [h_auto_id ct_handler]. unfold ct_next_arg_id, num_args. cbn [cs_next cs_visited].
      destruct (next <? 0) eqn:E0; [reflexivity|]. destruct (n <=? next) eqn:EN; [unfold visit; rewrite EN; reflexivity|]. cbn [bind].
      apply HT. lia.
    + unfold tail_text. cbn [opt app parse_replacement_field]. change (125 =? 125) with true. cbv iota.
      cbn [h_auto_id h_field ct_handler]. unfold ct_next_arg_id, num_args. cbn [cs_next cs_visited].
      destruct (next <? 0) eqn:E0; [reflexivity|]. destruct (n <=? next) eqn:EN; [unfold visit; rewrite EN; reflexivity|]. cbn [bind].
      rewrite plain_step by lia. destruct (visit next (next + 1) None used); reflexivity.
Qed.

Lemma literal_fine l st : Forall (lit_ok e) l -> ct_literal cf l st = Ok st.
Proof.
  intros HF. unfold ct_literal. replace (validate_unicode e l) with (@Ok bool true); [reflexivity|]. symmetry.
  assert (ET : text e l = l /\ Forall scalar l).
  { clear - HF He. induction HF as [|c l Hc HF IH]; [split; [reflexivity|constructor]|]. destruct IH as [IH1 IH2].
    unfold text in *. cbn [flat_map]. rewrite IH1. destruct e; cbn [lit_ok] in Hc.
    - cbn [encode]. unfold utf8_of. replace (c <? 0x80) with true by lia. split; [reflexivity|constructor; [unfold scalar; lia|exact IH2]].
    - congruence.
    - split; [reflexivity|constructor; assumption]. }
  destruct ET as [ET HS]. rewrite <- ET at 1. apply validate_text, HS.
Qed.

Definition wf_tok := wf_tokens e (fun i d rest => forall t, nth_error types (Z.to_nat i) = Some t -> wf_desc (rb_of cf) e t d rest).
Lemma loop_go : forall ts k acc st fuel, wf_tok ts k -> (0 <= cs_next st -> cs_next st = k) -> Forall (lit_ok e) acc ->
  (length (render e ts) < fuel)%nat ->
  parse_loop fuel h (acc ++ render e ts) (render e ts) st = match go ts st with Some st' => Ok st' | None => reject end.
Proof.
  unfold wf_tok. induction ts as [|t ts IH]; intros k acc st fuel Hwf Hk Ha HF.
  - cbn [tokens_text flat_map go]. rewrite app_nil_r. transitivity (ct_literal cf acc st); [destruct fuel; reflexivity|]. apply literal_fine, Ha.
  - change (render e (t :: ts)) with (token_text (render_desc e) t ++ render e ts) in *.
    destruct t as [c|id d]; cbn [token_text wf_gtokens go] in *.
    + destruct Hwf as [Hc Hwf].
      destruct (c =? 123) eqn:E1; [|destruct (c =? 125) eqn:E2]; cbn [app] in *; (destruct fuel as [|f]; [cbn [length] in HF; lia|]); cbn [parse_loop length] in HF |- *.
      * change (123 =? 123) with true. cbv iota. cbn [h_literal ct_handler]. rewrite between_first. rewrite literal_fine by exact Ha. cbn [bind parse_replacement_field].
        change (123 =? 125) with false. change (123 =? 123) with true. cbv iota. cbn [h_literal ct_handler].
        rewrite literal_fine by (constructor; [destruct e; cbn; unfold scalar; lia|constructor]). cbn [bind h_failed ct_handler].
        apply (IH k []); trivial. lia.
      * change (125 =? 123) with false. change (125 =? 125) with true. cbv iota. cbn [negb h_literal ct_handler].
        change (acc ++ 125 :: 125 :: render e ts) with (acc ++ [125] ++ 125 :: render e ts). rewrite app_assoc, between_first.
        rewrite literal_fine. { cbn [bind]. apply (IH k []); trivial. lia. }
        apply Forall_app. split; [exact Ha|]. constructor; [destruct e; cbn; unfold scalar; lia|constructor].
      * rewrite E1, E2. rewrite <- (IH k (acc ++ [c]) st f); trivial; [rewrite <- app_assoc; reflexivity| |lia].
        apply Forall_app. split; [exact Ha|constructor; [exact Hc|constructor]].
    + destruct Hwf as (Hid & Hok & Hwf).
      assert (ER : field_text (render_desc e) id d ++ render e ts = 123 :: tl (field_text (render_desc e) id d ++ render e ts)) by reflexivity.
      assert (EL : (length (render e ts) < length (field_text (render_desc e) id d ++ render e ts))%nat) by (rewrite app_length; unfold field_text; cbn [app length]; lia).
      destruct fuel as [|f]; [lia|]. rewrite ER. cbn [parse_loop]. change (123 =? 123) with true. cbv iota. rewrite <- ER.
      cbn [h_literal ct_handler]. rewrite between_first. rewrite literal_fine by exact Ha. cbn [bind].
      destruct (match id with None => cs_next st <? 0 | Some _ => false end) eqn:EM.
      { destruct id; [discriminate|]. destruct st as [next used]. cbn [cs_next] in *. unfold field_text. cbn [opt app step cs_next]. rewrite EM.
        destruct d as [d|]; cbn [opt app parse_replacement_field].
        - change (58 =? 125) with false. change (58 =? 123) with false. cbn [parse_arg_id].
          change (negb (58 =? 125) && negb (58 =? 58)) with false. cbv iota. cbn [h_auto_id ct_handler]. unfold ct_next_arg_id. cbn [cs_next]. rewrite EM. reflexivity.
        - change (125 =? 125) with true. cbv iota. cbn [h_auto_id ct_handler]. unfold ct_next_arg_id. cbn [cs_next]. rewrite EM. reflexivity. }
      rewrite (field_step id d (render e ts) st Hid).
      * destruct (step id d st) as [st'|] eqn:ES; [|reflexivity]. cbn [out bind h_failed ct_handler].
        apply (IH (k + 1) []); trivial; [|lia]. intros Hn.
        destruct id as [ds|]; cbn [step] in ES.
        -- destruct (0 <? cs_next st); [discriminate|]. apply visit_next in ES. lia.
        -- destruct (cs_next st <? 0) eqn:E0; [discriminate|]. apply visit_next in ES. lia.
      * intros d' -> t ET. apply (Hok d' eq_refl). destruct id; [exact ET|]. rewrite <- Hk; [exact ET|]. lia.
Qed.

(** * What it comes to *)
Definition exhausted (st : cstate) : bool := covers n (cs_visited st).
Lemma exhausted_ok st : ct_check_args_exhausted types st = yes (exhausted st) tt.
Proof.
  unfold ct_check_args_exhausted, exhausted, covers, num_args, yes. rewrite Nat2Z.id. destruct (n =? 0) eqn:E.
  - replace (length types) with 0%nat by lia. reflexivity.
  - reflexivity.
Qed.
Definition mode (next : Z) (ts : list token) : Prop :=
  (0 < next -> forall id d, In (Field id d) ts -> id = None) /\ (next < 0 -> forall id d, In (Field id d) ts -> id <> None).
Lemma go_spec : forall ts k st, wf_tok ts k -> (0 <= cs_next st -> cs_next st = k) -> 0 <= k ->
  (exists st', go ts st = Some st' /\ exhausted st' = true)
  <-> uniform ts /\ mode (cs_next st) ts /\ index_ok n ts k (cs_visited st) = true /\ each_field types ok ts k = true.
Proof.
  unfold wf_tok. induction ts as [|[c|id d] ts IH]; intros k st Hwf Hk Hk0; cbn [go index_ok each_field wf_gtokens] in *.
  - split.
    + intros (st' & [= <-] & HX). repeat split; try (intros; contradiction); [left; intros ? ? []|exact HX].
    + intros (_ & _ & HX & _). exists st. split; [reflexivity|exact HX].
  - destruct Hwf as [_ Hwf]. rewrite (IH k st Hwf Hk Hk0).
    assert (HI : forall id (d : option desc), In (Field id d) (Lit c :: ts) <-> In (Field id d) ts).
    { intros id d. split; [intros [HX|HX]; [discriminate|exact HX]|intros HX; right; exact HX]. }
    unfold uniform, mode. setoid_rewrite HI. reflexivity.
  - destruct Hwf as (Hid & _ & Hwf).
    assert (HN : match id with Some ds => 0 <= number ds | None => True end).
    { destruct id as [ds|]; [|exact I]. destruct Hid as [(_ & Hd & _) _]. apply (number_nonneg _ Hd 0). lia. }
    set (i := match id with Some ds => number ds | None => k end). fold i.
    assert (Hi : 0 <= i) by (destruct id; assumption).
    assert (HV : forall next', visit i next' d (cs_visited st) =
              if (n <=? i) || existsb (Z.eqb i) (cs_visited st) then None
              else match nth_error types (Z.to_nat i) with Some t => if ok t d then Some (CS next' (i :: cs_visited st)) else None | None => None end) by reflexivity.
    assert (STEP : step id d st = if match id with None => cs_next st <? 0 | Some _ => 0 <? cs_next st end then None
              else visit i (match id with None => k + 1 | Some _ => -1 end) d (cs_visited st)).
    { unfold step, i. destruct id; [reflexivity|]. destruct (cs_next st <? 0) eqn:E0; [reflexivity|]. rewrite Hk by lia. reflexivity. }
    rewrite STEP. destruct (match id with None => cs_next st <? 0 | Some _ => 0 <? cs_next st end) eqn:EM.
    { split; [intros (? & ? & _); discriminate|]. intros (_ & [HM1 HM2] & _). exfalso. destruct id as [ds|].
      - specialize (HM1 ltac:(lia) (Some ds) d (or_introl eq_refl)). discriminate.
      - apply (HM2 ltac:(lia) None d (or_introl eq_refl)). reflexivity. }
    rewrite HV. destruct ((n <=? i) || existsb (Z.eqb i) (cs_visited st)) eqn:EI.
    { split; [intros (? & ? & _); discriminate|]. intros (_ & _ & HX & _). discriminate. }
    destruct (nth_error types (Z.to_nat i)) as [t|] eqn:ET.
    2:{ split; [intros (? & ? & _); discriminate|]. intros (_ & _ & _ & HX). discriminate. }
    destruct (ok t d) eqn:EO; cbn [andb].
    2:{ split; [intros (? & ? & _); discriminate|]. intros (_ & _ & _ & HX). discriminate. }
    rewrite (IH (k + 1) _ Hwf); [|cbn; destruct id; lia|lia]. cbn [cs_next cs_visited].
    assert (HU : uniform ts /\ mode (match id with None => k + 1 | Some _ => -1 end) ts <-> uniform (Field id d :: ts) /\ mode (cs_next st) (Field id d :: ts)).
    { destruct id as [ds|].
      - assert (HA : uniform (Field (Some ds) d :: ts) <-> forall id d, In (Field id d) ts -> id <> None).
        { split.
          - intros [HU|HU]; [specialize (HU (Some ds) d (or_introl eq_refl)); discriminate|]. intros id' d' HI. apply (HU id' d'). right. exact HI.
          - intros HU. right. intros id' d' [HI|HI]; [injection HI as <- _; discriminate|apply (HU id' d' HI)]. }
        rewrite HA. split.
        + intros [_ [_ HM]]. split; [exact (HM ltac:(lia))|]. split; [lia|]. intros _ id' d' [HI|HI]; [injection HI as <- _; discriminate|apply (HM ltac:(lia) id' d' HI)].
        + intros [HU _]. split; [right; exact HU|]. split; [lia|]. intros _. exact HU.
      - assert (HA : uniform (Field None d :: ts) <-> forall id d, In (Field id d) ts -> id = None).
        { split.
          - intros [HU|HU]; [|contradiction (HU None d (or_introl eq_refl)); reflexivity]. intros id' d' HI. apply (HU id' d'). right. exact HI.
          - intros HU. left. intros id' d' [HI|HI]; [injection HI as <- _; reflexivity|apply (HU id' d' HI)]. }
        rewrite HA. split.
        + intros [_ [HM _]]. split; [exact (HM ltac:(lia))|]. split; [|lia]. intros _ id' d' [HI|HI]; [injection HI as <- _; reflexivity|apply (HM ltac:(lia) id' d' HI)].
        + intros [HU _]. split; [left; exact HU|]. split; [|lia]. intros _. exact HU. }
    rewrite !(and_assoc (uniform _) (mode _ _)) in HU || idtac. tauto.
Qed.

Theorem checker_exact ts : wf_tok ts 0 ->
  check_format_string cf contiguous borrowed types custom_parse (render e ts)
  = yes (match go ts (CS 0 []) with Some st => exhausted st | None => false end) tt.
Proof.
  intros Hwf. unfold check_format_string, parse_format_string_impl. 
  assert (HL := loop_go ts 0 [] (CS 0 []) (length (render e ts) + 1) Hwf (fun _ => eq_refl) (Forall_nil _) ltac:(lia)). cbn [app] in HL. rewrite HL.
  destruct (go ts (CS 0 [])) as [st|]; [|reflexivity]. cbn [bind]. apply exhausted_ok.
Qed.
Theorem checker_iff ts : wf_tok ts 0 ->
  check_format_string cf contiguous borrowed types custom_parse (render e ts) = Ok tt
  <-> uniform ts /\ index_ok n ts 0 [] = true /\ each_field types ok ts 0 = true.
Proof.
  intros Hwf. rewrite (checker_exact ts Hwf).
  assert (H := go_spec ts 0 (CS 0 []) Hwf (fun _ => eq_refl) ltac:(lia)). cbn [cs_next cs_visited] in H.
  assert (HM : mode 0 ts) by (split; lia).
  destruct (go ts (CS 0 [])) as [st|] eqn:EG.
  - destruct (exhausted st) eqn:EX.
    + cbn [yes]. split; [|reflexivity]. intros _. assert (H1 := proj1 H (ex_intro _ st (conj eq_refl EX))). tauto.
    + cbn [yes reject]. split; [discriminate|]. intros HH. destruct (proj2 H) as (st' & E1 & E2); [tauto|]. injection E1 as <-. congruence.
  - cbn [yes reject]. split; [discriminate|]. intros HH. destruct (proj2 H) as (st' & E1 & E2); [tauto|]. discriminate.
Qed.
Theorem checker_err ts : wf_tok ts 0 -> ~ (uniform ts /\ index_ok n ts 0 [] = true /\ each_field types ok ts 0 = true) ->
  check_format_string cf contiguous borrowed types custom_parse (render e ts) = Err InvalidFormatString.
Proof.
  intros Hwf HN. rewrite <- (checker_iff ts Hwf) in HN. rewrite (checker_exact ts Hwf) in *.
  destruct (match go ts (CS 0 []) with Some st => exhausted st | None => false end); [contradiction HN; reflexivity|reflexivity].
Qed.
End Tokens.

(** * At run time *)
Section Run.
Context {F : Type}.
Variable rx : regex_engine.
Variable cf : config.
Notation e := (c_enc cf).
Lemma named_class (t : scalar_type F) : named t -> class_of (scalar_arg_type t) <> None.
Proof. intros H. inversion H; subst; cbn; congruence. Qed.
(** The check the reader makes. *)
Definition run_check (t : scalar_type F) (sp : specs) : bool :=
  match t with
  | TInt _ _ => check_int_type_specs sp
  | TBool => check_bool_type_specs sp
  | TChar k _ _ => char_check k sp
  | TPointer => check_pointer_type_specs sp
  | TString _ _ => check_string_type_specs sp
  | TFloat _ _ => check_float_type_specs sp
  end.
Lemma check_scanned t d rest : named t -> wf_desc (rb_of cf) e (scalar_arg_type t) d rest ->
  run_check t (mean e d) = scanned_field (scalar_arg_type t) (Some d).
Proof.
  intros Ht Hwf. assert (HP := prec_nonneg cf _ d rest Hwf).
  destruct Hwf as (_ & _ & _ & _ & _ & Hty & _).
  assert (HX : forall b k, class_of (scalar_arg_type t) = Some k -> check_type_specs (scalar_arg_type t) (mean e d) = Ok b ->
     k <> ClCodePoint -> b = scanned_field (scalar_arg_type t) (Some d)).
  { intros b k HK HB Hne. rewrite (type_checked cf _ k d HK Hty HP) in HB. injection HB as <-. unfold scanned_field. rewrite HK.
    destruct k; try contradiction; cbn [undocumented]; rewrite orb_false_r; reflexivity. }
  destruct t as [it a|  |k old a| |ds a|f a]; cbn [scalar_arg_type run_check] in *; inversion Ht; subst;
    try (eapply HX; [eassumption| |discriminate]; destruct a; cbn in *; congruence || reflexivity);
    try (eapply HX; [reflexivity|reflexivity|discriminate]).
  destruct k; try (eapply HX; [eassumption| |discriminate]; destruct a; cbn in *; congruence || reflexivity).
  match goal with H : class_of a = _ |- _ => unfold scanned_field; rewrite H end. cbn [char_check]. destruct d as [fl al w p lo ty]. cbn [d_type] in *.
  destruct ty as [[c|inv items|pat fls]|]; cbn [doc_spec d_type].
  - specialize (Hty _ eq_refl). cbn [wf_type] in Hty. pattern c. apply (letter_cases _ c Hty). repeat constructor.
  - reflexivity.
  - unfold check_code_point_type_specs, mean. cbn [d_type type]. destruct (existsb _ pat); reflexivity.
  - reflexivity.
Qed.
Lemma specs_checked (r : src) l t sp s : run_check t sp = false -> scalar_specs rx r l t sp s = Err InvalidFormatString.
Proof.
  destruct t; cbn [run_check scalar_specs]; intros E; unfold string_arg, arg_read_checked;
    cbn [rd_check int_reader bool_reader char_reader pointer_reader string_reader float_reader]; rewrite E; reflexivity.
Qed.

Variable global : locale.
Variable l : locale_ref.
Variable r : src.
Variable sts : list (scalar_type F).
Hypothesis Hcf : c_enc cf = s_enc r.
Hypothesis Hnamed : Forall named sts.
Notation V := (RangesModel.value (svalue F)).
Notation args := (map (target_arg rx cf global l r) (map TScalar sts)).
Notation types := (map scalar_arg_type sts).
Notation n := (Z.of_nat (length args)).
Lemma type_at i : nth_error types i = option_map scalar_arg_type (nth_error sts i).
Proof. apply nth_error_map. Qed.
Lemma arg_at i : nth_error args i = option_map (fun t => target_arg rx cf global l r (TScalar t)) (nth_error sts i).
Proof. rewrite !nth_error_map. destruct (nth_error sts i); reflexivity. Qed.
Lemma run_fields fail : forall ts next used ws s log x, wf_tokens (s_enc r) (spec_ok V r cf args) ts next -> 
  run V (s_enc r) n (meant (s_enc r) (read_arg V args)) false fail ts next used ws s log = Ok x ->
  each_field types scanned_field ts next = true.
Proof.
  induction ts as [|[c|id d] ts IH]; intros next used ws s log x Hwf; cbn [run each_field wf_gtokens] in *; [reflexivity| |].
  - destruct Hwf as [_ Hwf]. destruct (is_ws c).
    + destruct ws; [apply IH, Hwf|]. destruct s; [discriminate|]. apply IH, Hwf.
    + destruct s as [|y s]; [discriminate|]. destruct (y =? c); [apply IH, Hwf|discriminate].
  - destruct Hwf as (_ & Hok & Hwf). set (i := match id with Some ds => number ds | None => next end) in *.
    destruct ((n <=? i) || existsb (Z.eqb i) used); [discriminate|].
    destruct (meant (s_enc r) (read_arg V args) i d s) as [[v s']| | |] eqn:ER; try discriminate.
    intros E. apply (IH _ _ _ _ _ _ Hwf) in E. unfold meant, read_arg in ER. rewrite arg_at in ER.
    rewrite type_at. destruct (nth_error sts (Z.to_nat i)) as [t|] eqn:ET; [|discriminate]. cbn [option_map] in *. rewrite E, andb_true_r.
    assert (HN : named t) by (apply nth_error_In in ET; rewrite Forall_forall in Hnamed; auto).
    destruct d as [d|]; cbn [option_map] in ER.
    + assert (Hw : wf_desc (rb_of cf) e (scalar_arg_type t) d (render (s_enc r) ts)).
      { rewrite Hcf. apply (Hok d eq_refl (target_arg rx cf global l r (TScalar t))). rewrite arg_at, ET. reflexivity. }
      rewrite <- (check_scanned t d _ HN Hw). cbn [target_arg ar_specs] in ER.
      destruct (run_check t (mean e d)) eqn:EC; [reflexivity|]. rewrite <- Hcf in ER. rewrite (specs_checked r _ t _ s EC) in ER. discriminate.
    + unfold scanned_field. destruct HN as [? ? HK| |k ? ? HK| |? ? HK|? ? HK]; cbn [scalar_arg_type class_of doc_spec rejected letter_of andb negb]; rewrite ?HK; try reflexivity.
      destruct k; reflexivity.
Qed.
End Run.
