(** The format-spec parser on text written according to the grammar. *)
From Verif Require Import Prelude UnicodeModel UnicodeSpec UnicodeProofs SpecsModel ArgsModel
  FormatModel FormatSpec.
Local Open Scope Z_scope.
Ltac Zify.zify_post_hook ::= Z.div_mod_to_equations.
Arguments Z.shiftr : simpl never.
Arguments Z.land : simpl never.
Arguments Z.lor : simpl never.
Arguments Z.pow : simpl never.

(** * Encoded code points *)
Lemma encode_head e cp : e <> U16 -> scalar cp ->
  exists c tl, encode e cp = c :: tl
   /\ cp_len e c = length (encode e cp) /\ code_point_length e c = length (encode e cp)
   /\ (length (encode e cp) <= 4)%nat
   /\ (c < 128 -> c = cp /\ tl = []) /\ (128 <= c -> 128 <= cp).
Proof.
  intros He H. destruct e; [|congruence|].
  - destruct (utf8_of_lead cp H) as (a & tl & E & Ha & HL). cbn [encode cp_len code_point_length].
    exists a, tl. rewrite E in *. split; [reflexivity|]. split; [exact HL|]. split; [exact HL|].
    split; [rewrite <- HL; apply utf8_cp_len_le4|].
    unfold utf8_of in E. unfold scalar in H.
    destruct (cp <? 0x80) eqn:E1; [injection E as <- <-; split; [auto|lia]|].
    destruct (cp <? 0x800) eqn:E2; [injection E as <- <-; split; lia|].
    destruct (cp <? 0x10000) eqn:E3; injection E as <- <-; split; lia.
  - exists cp, []. cbn. repeat (split; [auto; lia|]). lia.
Qed.

Lemma decode_encode e cp : e <> U16 -> scalar cp -> decode_cp e (encode e cp) = Ok cp.
Proof.
  intros He H. destruct e; [apply decode_utf8_of, H|congruence|].
  cbn. unfold invalid_code_point. unfold scalar in H. replace (0x110000 <=? cp) with false by lia. reflexivity.
Qed.

Lemma set_code_point_encode e cp rest : e <> U16 -> scalar cp ->
  parse_set_code_point e (encode e cp ++ rest) = Ok (Some (cp, rest)).
Proof.
  intros He H. destruct (encode_head e cp He H) as (c & tl & E & HL & _ & _).
  unfold parse_set_code_point. rewrite E. cbn [app]. cbv zeta. rewrite HL.
  assert (HN : length (encode e cp) = S (length tl)) by (rewrite E; reflexivity).
  rewrite HN at 1. cbn [Nat.eqb orb].
  change (c :: tl ++ rest) with ((c :: tl) ++ rest). rewrite <- E.
  replace (_ <? _)%nat with false by (symmetry; apply Nat.ltb_ge; rewrite app_length; lia).
  rewrite firstn_len_app, skipn_len_app, (decode_encode e cp He H). cbn [bind].
  unfold invalid_code_point. unfold scalar in H. replace (0x110000 <=? cp) with false by lia. reflexivity.
Qed.

Lemma render_item_nonempty e i : e <> U16 -> wf_item i ->
  exists c t, render_item e i = c :: t /\ c <> 93.
Proof.
  intros He Hi. destruct i as [x|a b]; cbn in *.
  - destruct Hi as [Hx H93]. destruct (encode_head e x He Hx) as (c & tl & -> & _ & _ & _ & Hc & _).
    do 2 eexists. split; [reflexivity|lia].
  - destruct Hi as (Ha & _ & H93 & _). destruct (encode_head e a He Ha) as (c & tl & -> & _ & _ & _ & Hc & _).
    do 2 eexists. split; [reflexivity|lia].
Qed.

(** * Character sets, for any handler whose callbacks always succeed *)
Section SetParser.
Context {St : Type} (h : set_handler St) (step : set_item -> St -> St).
Hypothesis Hone : forall x st, scalar x -> sh_single h x st = Ok (step (SOne x) st).
Hypothesis Hrange : forall a b st, scalar a -> scalar b -> a <= b ->
  sh_range h a (b + 1) st = Ok (step (SRange a b) st).
Hypothesis Hfail : forall i st, sh_failed h (step i st) = sh_failed h st.
Hypothesis Hinv : forall st, sh_failed h (sh_inverted h st) = sh_failed h st.

Definition run_set (items : list set_item) (st : St) : St :=
  fold_left (fun st i => step i st) items st.
Lemma run_set_failed items : forall st, sh_failed h (run_set items st) = sh_failed h st.
Proof. induction items as [|i items IH]; intros st; cbn; [reflexivity|]. etransitivity; [apply IH|apply Hfail]. Qed.

Lemma set_literal_item e i items rest st : e <> U16 ->
  wf_item i -> separated (i :: items) ->
  parse_set_literal h e (render_item e i ++ render_items e items ++ 93 :: rest) st
  = Ok (render_items e items ++ 93 :: rest, step i st).
Proof.
  intros He Hi Hs. unfold parse_set_literal. destruct i as [x|a b]; cbn [render_item wf_item] in *.
  - destruct Hi as [Hx Hx93]. rewrite set_code_point_encode by assumption. cbn [bind].
    assert (HD : forall d c t, render_items e items ++ 93 :: rest = d :: c :: t -> (d =? 45) && negb (c =? 93) = false).
    { intros d c t EQ. destruct items as [|i2 items]; cbn [render_items flat_map app] in EQ.
      - injection EQ as <- _. reflexivity.
      - cbn [separated] in Hs. destruct Hs as [Hs _].
        destruct (d =? 45) eqn:Ed; [|reflexivity]. cbn [andb].
        assert (Hf : first_cp i2 = 45).
        { (* the first unit is '-' *)
          assert (HX : exists cp tl, render_item e i2 = encode e cp ++ tl /\ cp = first_cp i2).
          { destruct i2 as [y|a b]; cbn [render_item first_cp].
            - exists y, []. rewrite app_nil_r. auto.
            - do 2 eexists. split; reflexivity. }
          destruct HX as (cp & tl & EX & ->). rewrite EX in EQ.
          assert (Hsc : d = 45 -> scalar (first_cp i2) -> first_cp i2 = 45).
          { intros -> Hsc. destruct (encode_head e _ He Hsc) as (c0 & tl0 & E0 & _ & _ & _ & H0 & _).
            rewrite E0 in EQ. cbn [app] in EQ. injection EQ as -> _. destruct H0 as [H0 _]; lia. }
          destruct (Z.eq_dec (first_cp i2) 45) as [|Hne]; [assumption|exfalso].
          (* unencodable first code points do not start with '-' either *)
          assert (HU : forall y, y <> 45 -> hd 0 (encode e y) <> 45).
          { intros y Hy. destruct e; cbn [encode hd]; [|congruence|congruence].
            unfold utf8_of. destruct (y <? 128) eqn:E1; cbn [hd]; [exact Hy|].
            destruct (y <? 2048) eqn:E2; cbn [hd]; [lia|]. destruct (y <? 65536) eqn:E3; cbn [hd]; lia. }
          apply (HU _ Hne). 
          assert (HNE : encode e (first_cp i2) <> []).
          { destruct e; cbn; [apply utf8_of_nonempty|congruence|discriminate]. }
          destruct (encode e (first_cp i2)) as [|u us]; [congruence|]. cbn [hd]. cbn [app] in EQ. injection EQ as -> _. lia. }
        destruct (Hs Hf) as [-> ->]. cbn [render_items flat_map render_item] in EQ.
        assert (E45 : encode e 45 = [45]) by (destruct e; reflexivity).
        rewrite E45 in EQ. cbn [app] in EQ. injection EQ as <- <- _. reflexivity. }
    destruct (render_items e items ++ 93 :: rest) as [|d [|c t]] eqn:EQ.
    + rewrite Hone by exact Hx. reflexivity.
    + rewrite Hone by exact Hx. reflexivity.
    + rewrite (HD d c t eq_refl). rewrite Hone by exact Hx. reflexivity.
  - destruct Hi as (Ha & Hb & Ha93 & Hb93 & Hab).
    rewrite <- !app_assoc. rewrite set_code_point_encode by assumption. cbn [bind app].
    destruct (encode_head e b He Hb) as (c & tl & E & _ & _ & _ & Hc & _).
    rewrite E at 1. cbn [app]. change (45 =? 45) with true. cbn [andb].
    replace (c =? 93) with false by lia. cbn [negb].
    rewrite app_comm_cons, <- E. rewrite set_code_point_encode by assumption. cbn [bind].
    replace (b <? a) with false by lia. rewrite Hrange by assumption. reflexivity.
Qed.

Lemma set_loop_items e : e <> U16 -> forall items fuel rest st, wf_items items -> sh_failed h st = false ->
  (length (render_items e items) <= fuel)%nat ->
  parse_set_loop fuel h e (render_items e items ++ 93 :: rest) st
  = Ok (rest, run_set items st, true).
Proof.
  intros He. induction items as [|i items IH]; intros fuel rest st [Hwf Hsep] Hst HL; cbn [render_items flat_map app] in *.
  - destruct fuel; cbn [parse_set_loop]; rewrite Hst; reflexivity.
  - inversion Hwf as [|? ? Hi Hwf']; subst.
    destruct (render_item_nonempty e i He Hi) as (c & t & E & Hc93).
    fold (render_items e items) in *.
    rewrite E in HL. rewrite app_length in HL. cbn [length] in HL.
    destruct fuel as [|f]; [lia|]. rewrite <- app_assoc. 
    rewrite E. cbn [app parse_set_loop]. rewrite Hst. replace (c =? 93) with false by lia.
    rewrite app_comm_cons, <- E. rewrite set_literal_item by assumption. cbn [bind].
    rewrite IH; [reflexivity| |rewrite Hfail; exact Hst|lia].
    split; [exact Hwf'|]. destruct i, items; cbn [separated] in Hsep; tauto.
Qed.

Lemma finish_set_items e s items rest st : e <> U16 -> wf_items items -> sh_failed h st = false ->
  (exists pre, s = pre ++ render_items e items ++ 93 :: rest) ->
  finish_set h e s (render_items e items ++ 93 :: rest) st
  = Ok (rest, run_set items st, firstn (length s - length rest) s).
Proof.
  intros He Hwf Hst _. unfold finish_set. rewrite set_loop_items; [reflexivity|exact He|exact Hwf|exact Hst|].
  rewrite app_length. lia.
Qed.

Lemma presentation_set e inv items rest st : e <> U16 -> wf_set inv items -> sh_failed h st = false ->
  parse_presentation_set h e (render_set e inv items ++ rest) st
  = Ok (rest, run_set items (if inv then sh_inverted h st else st), render_set e inv items).
Proof.
  intros He Hwf Hst. unfold render_set.
  assert (HFN : forall (a b : list Z), firstn (length (a ++ b) - length b) (a ++ b) = a).
  { intros a b. rewrite app_length, Nat.add_sub. apply firstn_len_app. }
  destruct inv; cbn [wf_set] in Hwf.
  - assert (Hst' : sh_failed h (sh_inverted h st) = false) by (rewrite Hinv; exact Hst).
    rewrite <- !app_assoc. cbn [app]. unfold parse_presentation_set. change (94 =? 94) with true. cbv iota zeta.
    destruct Hwf as [[Hne Hwf]|(tl & -> & Hwf)].
    + destruct items as [|i items]; [congruence|].
      assert (Hi : wf_item i) by (destruct Hwf as [Hwf _]; inversion Hwf; assumption).
      destruct (render_item_nonempty e i He Hi) as (c & t & E & Hc).
      set (whole := 91 :: 94 :: render_items e (i :: items) ++ 93 :: rest).
      assert (EW : exists u us, render_items e (i :: items) ++ 93 :: rest = u :: us /\ u <> 93).
      { exists c. cbn [render_items flat_map]. rewrite E. cbn [app]. eexists. split; [reflexivity|exact Hc]. }
      destruct EW as (u & us & EW & Hu). rewrite EW. replace (u =? 93) with false by lia. rewrite <- EW.
      rewrite finish_set_items; [|exact He|exact Hwf|exact Hst'|].
      2:{ exists [91; 94]. reflexivity. }
      f_equal. f_equal. unfold whole.
      replace (91 :: 94 :: render_items e (i :: items) ++ 93 :: rest)
        with ((91 :: 94 :: render_items e (i :: items) ++ [93]) ++ rest)
        by (cbn [app]; rewrite <- app_assoc; reflexivity).
      apply HFN.
    + assert (E93 : encode e 93 = [93]) by (destruct e; reflexivity).
      cbn [render_items flat_map render_item]. rewrite E93. cbn [app]. change (93 =? 93) with true. cbv iota.
      rewrite Hone by (unfold scalar; lia). cbn [bind]. fold (render_items e tl).
      rewrite finish_set_items; [|exact He|exact Hwf|rewrite Hfail; exact Hst'|].
      2:{ exists [91; 94; 93]. reflexivity. }
      f_equal. f_equal.
      replace (91 :: 94 :: 93 :: render_items e tl ++ 93 :: rest)
        with ((91 :: 94 :: 93 :: render_items e tl ++ [93]) ++ rest)
        by (cbn [app]; rewrite <- app_assoc; reflexivity).
      apply HFN.
  - destruct Hwf as [Hwf (i & tl & -> & H94)].
    assert (Hi : wf_item i) by (destruct Hwf as [Hwf _]; inversion Hwf; assumption).
    rewrite <- !app_assoc. cbn [app]. unfold parse_presentation_set.
    assert (EW : exists u us, render_items e (i :: tl) ++ 93 :: rest = u :: us /\ u <> 93 /\ u <> 94).
    { assert (Hsc : scalar (first_cp i)) by (destruct i; cbn in *; tauto).
      assert (H93 : first_cp i <> 93) by (destruct i; cbn in *; tauto).
      destruct (encode_head e _ He Hsc) as (c & t & E & _ & _ & _ & Hc & _).
      exists c. cbn [render_items flat_map].
      destruct i as [x|a b]; cbn [render_item first_cp] in *; rewrite E; cbn [app]; eexists;
        (split; [reflexivity|]); lia. }
    destruct EW as (u & us & EW & Hu & Hu'). rewrite EW. replace (u =? 94) with false by lia.
    replace (u =? 93) with false by lia. rewrite <- EW.
    rewrite finish_set_items; [|exact He|exact Hwf|exact Hst|].
    2:{ exists [91]. reflexivity. }
    f_equal. f_equal.
    replace (91 :: render_items e (i :: tl) ++ 93 :: rest)
      with ((91 :: render_items e (i :: tl) ++ [93]) ++ rest)
      by (cbn [app]; rewrite <- app_assoc; reflexivity).
    apply HFN.
Qed.
End SetParser.

(** * The bit set of ASCII members *)
Lemma byte_of_ext P Q i : (forall j, 0 <= j < 8 -> P (8 * i + j) = Q (8 * i + j)) ->
  byte_of P i = byte_of Q i.
Proof. intros H. unfold byte_of. cbv zeta. rewrite !H by lia. reflexivity. Qed.
Lemma zseq_map_ext (f g : Z -> Z) n : forall s, (forall i, s <= i < s + Z.of_nat n -> f i = g i) ->
  map f (zseq s n) = map g (zseq s n).
Proof.
  induction n as [|n IH]; intros s H; cbn; [reflexivity|]. f_equal; [apply H; lia|apply IH; intros; apply H; lia].
Qed.
Lemma bytes_of_ext P Q : (forall c, 0 <= c < 128 -> P c = Q c) -> bytes_of P = bytes_of Q.
Proof.
  intros H. apply zseq_map_ext. intros i Hi. apply byte_of_ext. intros j Hj. apply H. lia.
Qed.
Lemma bytes_of_empty : bytes_of (fun _ => false) = repeat 0 16.
Proof. reflexivity. Qed.

(** Setting one bit of a byte. *)
Lemma lor_byte (b0 b1 b2 b3 b4 b5 b6 b7 : bool) (j : Z) : 0 <= j < 8 ->
  let B b k := if (b : bool) then 2 ^ k else 0 in
  let S (b : bool) k := if b || (k =? j) then 2 ^ k else 0 in
  Z.lor (B b0 0 + B b1 1 + B b2 2 + B b3 3 + B b4 4 + B b5 5 + B b6 6 + B b7 7) (Z.shiftl 1 j)
  = S b0 0 + S b1 1 + S b2 2 + S b3 3 + S b4 4 + S b5 5 + S b6 6 + S b7 7.
Proof.
  intros Hj. cbv zeta.
  assert (HJ : In j [0;1;2;3;4;5;6;7]) by (cbn; lia).
  cbn in HJ. repeat (destruct HJ as [HJ|HJ]; [subst j; destruct b0, b1, b2, b3, b4, b5, b6, b7; reflexivity|]).
  destruct HJ.
Qed.
Lemma lits_set_zseq P v n : forall i, 8 * i <= v < 8 * (i + Z.of_nat n) ->
  lits_set (map (byte_of P) (zseq i n)) (v - 8 * i)
  = map (byte_of (fun c => P c || (c =? v))) (zseq i n).
Proof.
  induction n as [|n IH]; intros i Hv; [lia|]. cbn [zseq map lits_set].
  destruct (v - 8 * i <? 8) eqn:E.
  - f_equal.
    + unfold byte_of. cbv zeta.
      rewrite (lor_byte (P (8*i+0)) (P (8*i+1)) (P (8*i+2)) (P (8*i+3)) (P (8*i+4)) (P (8*i+5)) (P (8*i+6)) (P (8*i+7)) (v - 8 * i)) by lia.
      replace (8 * i + 0 =? v) with (0 =? v - 8 * i) by lia.
      replace (8 * i + 1 =? v) with (1 =? v - 8 * i) by lia.
      replace (8 * i + 2 =? v) with (2 =? v - 8 * i) by lia.
      replace (8 * i + 3 =? v) with (3 =? v - 8 * i) by lia.
      replace (8 * i + 4 =? v) with (4 =? v - 8 * i) by lia.
      replace (8 * i + 5 =? v) with (5 =? v - 8 * i) by lia.
      replace (8 * i + 6 =? v) with (6 =? v - 8 * i) by lia.
      replace (8 * i + 7 =? v) with (7 =? v - 8 * i) by lia.
      reflexivity.
    + apply zseq_map_ext. intros k Hk. apply byte_of_ext. intros j Hj.
      replace (8 * k + j =? v) with false by lia. rewrite orb_false_r. reflexivity.
  - f_equal.
    + apply byte_of_ext. intros j Hj. replace (8 * i + j =? v) with false by lia. rewrite orb_false_r. reflexivity.
    + replace (v - 8 * i - 8) with (v - 8 * (i + 1)) by lia. apply IH. lia.
Qed.
Lemma lits_set_spec P v : 0 <= v < 128 -> lits_set (bytes_of P) v = bytes_of (fun c => P c || (c =? v)).
Proof.
  intros H. unfold bytes_of. rewrite <- (lits_set_zseq P v 16 0) by lia. f_equal. lia.
Qed.
Lemma lits_set_range n : forall P b, 0 <= b -> b + Z.of_nat n <= 128 ->
  fold_left lits_set (zseq b n) (bytes_of P)
  = bytes_of (fun c => P c || ((b <=? c) && (c <? b + Z.of_nat n))).
Proof.
  induction n as [|n IH]; intros P b Hb Hn; cbn [zseq fold_left].
  - apply bytes_of_ext. intros c Hc. replace ((b <=? c) && (c <? b + Z.of_nat 0)) with false by lia. rewrite orb_false_r. reflexivity.
  - rewrite lits_set_spec by lia. rewrite IH by lia. apply bytes_of_ext. intros c Hc.
    destruct (P c); cbn [orb]; [reflexivity|]. lia.
Qed.

(** * What the specs setter makes of a set *)
Definition item_nonascii (i : set_item) : bool :=
  match i with SOne x => 127 <? x | SRange _ b => 126 <? b end.
Definition specs_step (i : set_item) (st : sstate) : sstate :=
  match i with
  | SOne x => on_charset_single x st
  | SRange a b => if b + 1 <=? 127
      then s_upd (fun s => set_literals (fold_left lits_set (zseq a (Z.to_nat (b + 1 - a))) (charset_literals s)) s) st
      else s_upd set_has_nonascii st
  end.
Lemma specs_range a b st : scalar a -> scalar b -> a <= b ->
  on_charset_range a (b + 1) st = Ok (specs_step (SRange a b) st).
Proof.
  intros Ha Hb Hab. unfold on_charset_range. replace (a <? b + 1) with true by lia. cbn [negb specs_step].
  destruct (_ <=? _); reflexivity.
Qed.
Lemma specs_step_err i st : ss_err (specs_step i st) = ss_err st.
Proof.
  destruct i as [x|a b]; cbn [specs_step]; [unfold on_charset_single|]; destruct (_ <=? _); reflexivity.
Qed.

(** The set fields of a specs record. *)
Definition with_set (lits : list Z) (na inv : bool) (s : specs) : specs :=
  Specs (width s) (precision s) (fill s) (type s) lits na inv (charset_string s)
        (regexp_flags s) (arbitrary_base s) (align s) (localized s).
Lemma specs_run items : forall P na inv s err,
  Forall wf_item items -> no_crossing items ->
  run_set specs_step items (SS (with_set (bytes_of P) na inv s) err)
  = SS (with_set (bytes_of (fun c => P c || in_items items c)) (na || existsb item_nonascii items) inv s) err.
Proof.
  induction items as [|i items IH]; intros P na inv s err Hwf Hnc; cbn [run_set fold_left existsb in_items].
  - rewrite orb_false_r. f_equal. f_equal. apply bytes_of_ext. intros. rewrite orb_false_r. reflexivity.
  - inversion Hwf as [|? ? Hi Hwf']; subst. inversion Hnc as [|? ? Hc Hnc']; subst.
    assert (HS : specs_step i (SS (with_set (bytes_of P) na inv s) err)
      = SS (with_set (bytes_of (fun c => P c || in_item c i)) (na || item_nonascii i) inv s) err).
    { destruct i as [x|a b]; cbn [specs_step wf_item item_nonascii in_item] in *.
      - unfold on_charset_single. destruct Hi as [Hx _]. unfold scalar in Hx.
        destruct (x <=? 127) eqn:E.
        + unfold s_upd, with_set, set_literals; cbn [ss_specs ss_err].
          cbn [width precision fill type charset_literals charset_has_nonascii charset_is_inverted charset_string regexp_flags arbitrary_base align localized].
          rewrite lits_set_spec by lia. replace (127 <? x) with false by lia. rewrite orb_false_r. reflexivity.
        + replace (127 <? x) with true by lia. rewrite orb_true_r.
          unfold s_upd, with_set, set_has_nonascii; cbn. f_equal. f_equal. apply bytes_of_ext.
          intros c Hc'. replace (c =? x) with false by lia. rewrite orb_false_r. reflexivity.
      - destruct Hi as (Ha & Hb & _ & _ & Hab). unfold scalar in *.
        destruct (b + 1 <=? 127) eqn:E.
        + unfold s_upd, with_set, set_literals; cbn [ss_specs ss_err].
          cbn [width precision fill type charset_literals charset_has_nonascii charset_is_inverted charset_string regexp_flags arbitrary_base align localized].
          rewrite lits_set_range by lia. replace (126 <? b) with false by lia. rewrite orb_false_r.
          f_equal. f_equal. apply bytes_of_ext. intros c Hc'. f_equal. lia.
        + replace (126 <? b) with true by lia. rewrite orb_true_r.
          unfold s_upd, with_set, set_has_nonascii; cbn. f_equal. f_equal. apply bytes_of_ext.
          intros c Hc'. replace ((a <=? c) && (c <=? b)) with false by lia. rewrite orb_false_r. reflexivity. }
    rewrite HS. etransitivity; [apply IH; assumption|]. f_equal. f_equal.
    + apply bytes_of_ext. intros c _. rewrite orb_assoc. reflexivity.
    + rewrite orb_assoc. reflexivity.
Qed.

(** * Numbers *)
Lemma number_acc ds : forall v, fold_left (fun v c => 10 * v + (c - 48)) ds v = v * 10 ^ Z.of_nat (length ds) + number ds.
Proof.
  unfold number. induction ds as [|d ds IH]; intros v; cbn [fold_left length].
  - change (Z.of_nat 0) with 0. lia.
  - rewrite IH, (IH (10 * 0 + (d - 48))). rewrite Nat2Z.inj_succ, Z.pow_succ_r by lia. ring.
Qed.
Lemma number_nonneg ds : Forall (fun c => 48 <= c <= 57) ds -> forall v, 0 <= v ->
  v <= fold_left (fun v c => 10 * v + (c - 48)) ds v.
Proof.
  induction 1 as [|d ds Hd Hds IH]; intros v Hv; cbn [fold_left]; [lia|].
  specialize (IH (10 * v + (d - 48))). lia.
Qed.
Lemma simple_int_number ds : Forall (fun c => 48 <= c <= 57) ds -> forall v rest, 0 <= v ->
  fold_left (fun v c => 10 * v + (c - 48)) ds v <= 0x7fffffff ->
  match rest with [] => True | c :: _ => is_digit c = false end ->
  parse_simple_int_loop (ds ++ rest) v = (fold_left (fun v c => 10 * v + (c - 48)) ds v, rest).
Proof.
  induction 1 as [|d ds Hd Hds IH]; intros v rest Hv HN Hr; cbn [fold_left app] in *.
  - destruct rest as [|c rest]; cbn [parse_simple_int_loop]; [reflexivity|]. rewrite Hr. reflexivity.
  - cbn [parse_simple_int_loop]. assert (HD : is_digit d = true) by (unfold is_digit; lia). rewrite HD.
    cbv zeta. assert (HN2 := number_nonneg ds Hds (10 * v + (d - 48))).
    replace (v * 10 + (d - 48)) with (10 * v + (d - 48)) by lia.
    replace (0x7fffffff <? 10 * v + (d - 48)) with false by lia. apply IH; [lia|exact HN|exact Hr].
Qed.
Lemma parse_number ds rest : numeral ds ->
  match rest with [] => True | c :: _ => is_digit c = false end ->
  exists c t, ds ++ rest = c :: t /\ is_digit c = true /\ parse_simple_int (ds ++ rest) = Ok (number ds, rest) /\ 0 <= number ds.
Proof.
  intros (Hne & Hds & HN) Hr. destruct ds as [|d ds]; [congruence|].
  assert (HD : is_digit d = true) by (inversion Hds; subst; unfold is_digit; lia).
  exists d, (ds ++ rest). split; [reflexivity|]. split; [exact HD|]. split.
  - cbn [app parse_simple_int]. rewrite HD. f_equal. change (d :: ds ++ rest) with ((d :: ds) ++ rest).
    apply simple_int_number; [exact Hds|lia|exact HN|exact Hr].
  - apply (number_nonneg _ Hds 0). lia.
Qed.

(** * Type specifiers *)
Lemma letter_presentation c t rest st cf : letter_type c = Some t ->
  do_presentation cf (c :: rest) st = Ok (rest, s_upd (set_type t) st)
  /\ is_ascii_letter c = true /\ c <> 76.
Proof.
  intros H. assert (HIn : In (c, t) letter_table).
  { unfold letter_type in H. destruct (find _ letter_table) as [[a b]|] eqn:E; [|discriminate].
    apply find_some in E. destruct E as [HI HE]. cbn [fst] in HE. cbn in H. injection H as <-.
    apply Z.eqb_eq in HE. subst a. exact HI. }
  unfold letter_table in HIn.
  repeat (destruct HIn as [HIn|HIn]; [injection HIn as <- <-; repeat split; try reflexivity; lia|]).
  destruct HIn.
Qed.

Lemma regex_end_pattern p : forall prev rest t, slashes_escaped prev p ->
  regex_end prev (p ++ 47 :: rest) t
  = (47 :: rest, if existsb (Z.eqb 47) p then PRegexEscaped else t).
Proof.
  induction p as [|c p IH]; intros prev rest t H; cbn [slashes_escaped app regex_end existsb] in *.
  - change (47 =? 47) with true. cbv iota. replace (prev =? 92) with false by lia. reflexivity.
  - destruct H as [H1 H2]. destruct (c =? 47) eqn:E.
    + replace (prev =? 92) with true by lia. cbn [negb]. rewrite IH by exact H2.
      replace (47 =? c) with true by lia. cbn [orb]. destruct (existsb _ p); reflexivity.
    + rewrite IH by exact H2. replace (47 =? c) with false by lia. reflexivity.
Qed.

Definition rb_of (cf : config) : regex_build :=
  RB (c_regex cf && (c_regex_wide cf || match c_enc cf with U8 => true | _ => false end))
     (c_regex_std cf) (c_regex_multiline cf).

Lemma regex_flags_spec cf rest st : forall fl acc,
  NoDup fl -> incl fl regex_flag_letters ->
  (forall c, In c fl -> exists k, regex_flag c = Some k /\ Z.land acc k = 0) ->
  (c_regex_std cf = true -> ~ In 115 fl /\ (c_regex_multiline cf = false -> ~ In 109 fl)) ->
  regex_flags_loop cf (fl ++ 125 :: rest) acc st
  = (125 :: rest, st, Some (fold_left (fun a c => Z.lor a (optv 0 (fun k => k) (regex_flag c))) fl acc)).
Proof.
  induction fl as [|c fl IH]; intros acc Hnd Hin Hacc Hstd; cbn [app regex_flags_loop fold_left].
  - reflexivity.
  - inversion Hnd as [|? ? Hc Hnd']; subst.
    destruct (Hacc c (or_introl eq_refl)) as (k & Hk & Hak).
    assert (HcL : In c regex_flag_letters) by (apply Hin; left; reflexivity).
    assert (Hc125 : (c =? 125) = false) by (cbn in HcL; lia).
    rewrite Hc125, Hk, Hak. change (negb (0 =? 0)) with false. cbv iota zeta.
    replace (c_regex_std cf && ((c =? 115) || ((c =? 109) && negb (c_regex_multiline cf)))) with false.
    2:{ destruct (c_regex_std cf) eqn:ES; [|reflexivity]. destruct (Hstd eq_refl) as [H1 H2].
        assert (c <> 115) by (intros ->; apply H1; left; reflexivity).
        destruct (c_regex_multiline cf) eqn:EM; cbn [negb andb]; [lia|].
        assert (c <> 109) by (intros ->; apply (H2 eq_refl); left; reflexivity). lia. }
    cbn [optv]. apply IH.
    + exact Hnd'.
    + intros x Hx. apply Hin. right. exact Hx.
    + intros c' Hc'. destruct (Hacc c' (or_intror Hc')) as (k' & Hk' & Hak'). exists k'. split; [exact Hk'|].
      rewrite Z.land_lor_distr_l, Hak'. rewrite Z.lor_0_l.
      assert (HcL' : In c' regex_flag_letters) by (apply Hin; right; exact Hc').
      assert (c <> c') by (intros ->; contradiction).
      cbn in HcL, HcL'. unfold regex_flag in Hk, Hk'.
      destruct HcL as [<-|[<-|[<-|[<-|[]]]]]; destruct HcL' as [<-|[<-|[<-|[<-|[]]]]]; try congruence;
        cbn in Hk, Hk'; injection Hk as <-; injection Hk' as <-; reflexivity.
    + intros ES. destruct (Hstd ES) as [H1 H2]. split; [intros HX; apply H1; right; exact HX|].
      intros EM HX. apply (H2 EM). right. exact HX.
Qed.

(** Subsets of four flags: checked exhaustively. *)
Fixpoint arrangements (n : nat) (l : list Z) : list (list Z) :=
  match n with
  | O => [[]]
  | S n' => [] :: flat_map (fun x => map (cons x) (arrangements n' l)) l
  end.
Lemma in_arrangements l : forall fl n, (length fl <= n)%nat -> incl fl l -> In fl (arrangements n l).
Proof.
  induction fl as [|x fl IH]; intros n Hn Hin.
  - destruct n; cbn; auto.
  - destruct n as [|n]; cbn [length] in Hn; [lia|]. cbn [arrangements]. right.
    apply in_flat_map. exists x. split; [apply Hin; left; reflexivity|]. apply in_map. apply IH; [lia|].
    intros y Hy. apply Hin. right. exact Hy.
Qed.
Lemma flag_value_spec fl : NoDup fl -> incl fl regex_flag_letters ->
  fold_left (fun a c => Z.lor a (optv 0 (fun k => k) (regex_flag c))) fl 0 = flag_value fl.
Proof.
  intros Hnd Hin. assert (HL : (length fl <= 4)%nat) by (apply (NoDup_incl_length Hnd Hin)).
  assert (HA := in_arrangements _ fl 4 HL Hin).
  apply Z.eqb_eq. revert fl HA Hnd Hin HL.
  assert (HB : forallb (fun fl => fold_left (fun a c => Z.lor a (optv 0 (fun k => k) (regex_flag c))) fl 0 =? flag_value fl)
                 (arrangements 4 regex_flag_letters) = true) by (vm_compute; reflexivity).
  rewrite forallb_forall in HB. intros fl HA _ _ _. exact (HB fl HA).
Qed.

Lemma regex_presentation cf p fl rest st : rb_on (rb_of cf) = true -> p <> [] -> slashes_escaped 47 p -> NoDup fl ->
  incl fl regex_flag_letters ->
  (c_regex_std cf = true -> ~ In 115 fl /\ (c_regex_multiline cf = false -> ~ In 109 fl)) ->
  do_presentation cf ([47] ++ p ++ [47] ++ fl ++ 125 :: rest) st
  = Ok (125 :: rest, s_upd (fun s => set_flags (flag_value fl) (set_string p
           (set_type (if existsb (Z.eqb 47) p then PRegexEscaped else PRegex) s))) st).
Proof.
  intros Hr Hp Hsl Hnd Hin Hstd. cbn [rb_on rb_of] in Hr. apply andb_true_iff in Hr. destruct Hr as [Hr Hw].
  cbn [app do_presentation]. change (47 =? 91) with false. change (47 =? 47) with true. cbv iota.
  unfold parse_presentation_regex. rewrite Hr. cbn [negb].
  replace (negb (c_regex_wide cf) && negb (match c_enc cf with U8 => true | _ => false end)) with false
    by (destruct (c_regex_wide cf), (c_enc cf); cbn in *; congruence).
  destruct p as [|c p]; [congruence|]. cbn [app].
  change (c :: p ++ 47 :: fl ++ 125 :: rest) with ((c :: p) ++ 47 :: fl ++ 125 :: rest).
  rewrite regex_end_pattern by exact Hsl. cbv zeta.
  replace (length ((c :: p) ++ 47%Z :: fl ++ 125%Z :: rest) - length (47%Z :: fl ++ 125%Z :: rest))%nat
    with (length (c :: p)) by (rewrite app_length; lia).
  rewrite firstn_len_app.
  destruct (fl ++ 125 :: rest) as [|x xs] eqn:EX; [destruct fl; discriminate|]. rewrite <- EX. clear EX x xs.
  rewrite regex_flags_spec; [|exact Hnd|exact Hin| |exact Hstd].
  2:{ intros x Hx. apply Hin in Hx. cbn in Hx. destruct Hx as [<-|[<-|[<-|[<-|[]]]]]; eexists; split; reflexivity. }
  rewrite flag_value_spec by assumption. reflexivity.
Qed.

(** * The whole format-spec *)
Definition mean_st (e : enc) (d : desc) : sstate := SS (mean e d) false.

Lemma check_align_char a : a <> ANone -> exists c, align_char a = [c] /\ check_align c = a /\ is_align c = true.
Proof. destruct a; [congruence| | |]; intros _; eexists; (split; [reflexivity|split; reflexivity]). Qed.
Lemma check_align_none c : is_align c = false -> check_align c = ANone.
Proof. unfold is_align, check_align. intros H. destruct (c =? 60) eqn:E1; [lia|]. destruct (c =? 62) eqn:E2; [lia|]. destruct (c =? 94) eqn:E3; [lia|reflexivity]. Qed.

(** Alignment prefix: fill and align present. *)
Lemma align_fill e f a rest st : e <> U16 -> scalar f -> f <> 123 -> f <> 91 -> a <> ANone ->
  parse_align e (encode e f ++ align_char a ++ rest) (SS st false)
  = (fl <- fill_assign e (encode e f) (fill st) ;; Ok (rest, SS (set_align a (set_fill fl st)) false)).
Proof.
  intros He Hf H123 H91 Ha. destruct (encode_head e f He Hf) as (c & tl & E & _ & HL & _ & Hc & _).
  destruct (check_align_char a Ha) as (ac & Eac & Hac & _). rewrite Eac.
  assert (HP : (1 <= length (encode e f))%nat) by (rewrite E; cbn; lia).
  unfold parse_align. rewrite E at 1. cbn [app]. cbv zeta.
  rewrite HL. rewrite app_length. cbn [length].
  replace (length (encode e f) =? 0)%nat with false by (symmetry; apply Nat.eqb_neq; lia). cbn [orb].
  replace (_ <? _)%nat with false by (symmetry; apply Nat.ltb_ge; lia).
  rewrite skipn_len_app, firstn_len_app, Hac.
  replace ((length (encode e f) =? 1)%nat && (c =? 123)) with false.
  2:{ destruct (c =? 123) eqn:E1; [|rewrite andb_false_r; reflexivity]. destruct Hc as [Hc _]; lia. }
  replace ((length (encode e f) =? 1)%nat && (c =? 91)) with false.
  2:{ destruct (c =? 91) eqn:E1; [|rewrite andb_false_r; reflexivity]. destruct Hc as [Hc _]; lia. }
  unfold on_fill. cbn [ss_specs]. destruct a; [congruence| | |]; destruct (fill_assign e (encode e f) (fill st)); reflexivity.
Qed.
Lemma align_only e a rest st : a <> ANone -> rest <> [] -> starts_align rest = false ->
  parse_align e (align_char a ++ rest) (SS st false) = Ok (rest, SS (set_align a st) false).
Proof.
  intros Ha Hne Hr. destruct rest as [|r rest]; [congruence|]. cbn [starts_align] in Hr.
  assert (HL : forall c, is_align c = true -> code_point_length e c = 1%nat).
  { intros c Hc. assert (HC : c = 60 \/ c = 62 \/ c = 94) by (unfold is_align in Hc; lia).
    destruct e; cbn; [|reflexivity|reflexivity]. destruct HC as [->|[->| ->]]; reflexivity. }
  destruct (check_align_char a Ha) as (ac & Eac & Hac & Hia). rewrite Eac. cbn [app].
  unfold parse_align. cbv zeta. rewrite (HL ac Hia). cbn [Nat.eqb orb length].
  replace (S (S (length rest)) <? 1)%nat with false by (symmetry; apply Nat.ltb_ge; lia).
  cbn [skipn]. rewrite (check_align_none r Hr), Hac. cbn [andb].
  replace (ac =? 123) with false by (unfold is_align in Hia; lia).
  replace (ac =? 91) with false by (unfold is_align in Hia; lia).
  destruct a; [congruence|reflexivity|reflexivity|reflexivity].
Qed.
(** No alignment: the first two units are not taken for one. *)
Lemma align_none e c rest st : code_point_length e c = 1%nat -> c <> 123 -> is_align c = false ->
  (c = 91 \/ starts_align rest = false) ->
  parse_align e (c :: rest) (SS st false) = Ok (c :: rest, SS st false).
Proof.
  intros HL H123 Hc Hr. unfold parse_align. cbv zeta. rewrite HL. cbn [Nat.eqb orb length].
  replace (S (length rest) <? 1)%nat with false by (symmetry; apply Nat.ltb_ge; lia).
  cbn [skipn]. destruct rest as [|r rest]; [reflexivity|]. replace (c =? 123) with false by lia. cbn [andb].
  destruct (c =? 91) eqn:E91; [reflexivity|].
  destruct Hr as [Hr|Hr]; [lia|]. cbn [starts_align] in Hr.
  rewrite (check_align_none r Hr), (check_align_none c Hc). reflexivity.
Qed.

(** Effect of a type specifier on specs whose set fields are untouched. *)
Definition add_type (e : enc) (ty : type_syntax) (s : specs) : specs :=
  match ty with
  | TyLetter c => set_type (optv PNone (fun t => t) (letter_type c)) s
  | TySet inv items =>
      set_type PStringSet (set_string (render_set e inv items)
        (with_set (bytes_of (in_items items)) (existsb item_nonascii items) inv s))
  | TyRegex p fl =>
      set_flags (flag_value fl) (set_string p
        (set_type (if existsb (Z.eqb 47) p then PRegexEscaped else PRegex) s))
  end.

Lemma render_set_length e inv items : e <> U16 -> wf_set inv items -> (3 <= length (render_set e inv items))%nat.
Proof.
  intros He Hwf. unfold render_set. rewrite !app_length. cbn [length].
  assert (HX : (1 <= length (render_items e items) + length (if inv then [94%Z] else []))%nat).
  { destruct inv; cbn [length]; [lia|]. destruct Hwf as [[Hwf _] (i & tl & -> & _)].
    inversion Hwf; subst. destruct (render_item_nonempty e i He H1) as (c & t & E & _).
    cbn [render_items flat_map]. rewrite E. cbn. lia. }
  lia.
Qed.

Lemma wf_set_items inv items : wf_set inv items -> Forall (fun i => wf_item i \/ i = SOne 93) items.
Proof.
  intros H. destruct inv; cbn in H.
  - destruct H as [[_ [H _]]|(tl & -> & [H _])].
    + eapply Forall_impl; [|exact H]. auto.
    + constructor; [auto|]. eapply Forall_impl; [|exact H]. auto.
  - destruct H as [[H _] _]. eapply Forall_impl; [|exact H]. auto.
Qed.

(** [specs_run] also holds when an item is ']'. *)
Lemma specs_run_set inv items P na i s err : wf_set inv items -> no_crossing items ->
  run_set specs_step items (SS (with_set (bytes_of P) na i s) err)
  = SS (with_set (bytes_of (fun c => P c || in_items items c)) (na || existsb item_nonascii items) i s) err.
Proof.
  intros Hwf Hnc. destruct inv; cbn in Hwf.
  - destruct Hwf as [[_ [H _]]|(tl & -> & [H _])]; [apply specs_run; assumption|].
    inversion Hnc; subst. change (run_set specs_step (SOne 93 :: tl) (SS (with_set (bytes_of P) na i s) err))
      with (run_set specs_step tl (specs_step (SOne 93) (SS (with_set (bytes_of P) na i s) err))).
    assert (HS : specs_step (SOne 93) (SS (with_set (bytes_of P) na i s) err)
      = SS (with_set (bytes_of (fun c => P c || (c =? 93))) na i s) err).
    { cbn [specs_step]. unfold on_charset_single. change (93 <=? 127) with true. cbv iota.
      unfold s_upd, with_set, set_literals; cbn [ss_specs ss_err].
      cbn [width precision fill type charset_literals charset_has_nonascii charset_is_inverted charset_string regexp_flags arbitrary_base align localized].
      rewrite lits_set_spec by lia. reflexivity. }
    rewrite HS, specs_run by assumption. cbn [existsb item_nonascii in_items in_item].
    change (127 <? 93) with false. cbn [orb]. f_equal. f_equal. apply bytes_of_ext. intros c _.
    rewrite orb_assoc. reflexivity.
  - destruct Hwf as [[H _] _]. apply specs_run; assumption.
Qed.

Lemma type_presentation cf ty rest s : c_enc cf <> U16 -> wf_type (rb_of cf) (c_enc cf) ty ->
  charset_literals s = repeat 0 16 -> charset_has_nonascii s = false -> charset_is_inverted s = false ->
  do_presentation cf (render_type (c_enc cf) ty ++ 125 :: rest) (SS s false)
  = Ok (125 :: rest, SS (add_type (c_enc cf) ty s) false).
Proof.
  intros He Hwf Hl Hn Hi. destruct ty as [c|inv items|p fl]; cbn [wf_type render_type add_type] in *.
  - destruct (letter_type c) as [t|] eqn:E; [|congruence].
    cbn [app]. rewrite (proj1 (letter_presentation c t _ _ cf E)). reflexivity.
  - destruct Hwf as [Hwf Hnc].
    assert (EH : exists t, render_set (c_enc cf) inv items = 91 :: t) by (eexists; reflexivity).
    unfold do_presentation. destruct EH as [t EH]. rewrite EH at 1. cbn [app]. change (91 =? 91) with true. cbv iota.
    rewrite (presentation_set specs_set_handler specs_step);
      [|reflexivity|exact specs_range|exact specs_step_err|reflexivity|exact He|exact Hwf|reflexivity].
    cbn [bind]. assert (HL := render_set_length _ _ _ He Hwf).
    replace (length (render_set (c_enc cf) inv items) <=? 2)%nat with false by (symmetry; apply Nat.leb_gt; lia).
    f_equal. f_equal.
    assert (HS : (if inv then sh_inverted specs_set_handler (SS s false) else SS s false)
       = SS (with_set (bytes_of (fun _ => false)) false inv s) false) .
    { rewrite bytes_of_empty, <- Hl. destruct s; cbn in *. subst. destruct inv; reflexivity. }
    rewrite HS. rewrite (specs_run_set inv) by assumption. reflexivity.
  - destruct Hwf as (H1 & H2 & H3 & H4 & H5 & H6).
    rewrite <- !app_assoc. rewrite regex_presentation by assumption. reflexivity.
Qed.

Lemma type_head e ty rb : e <> U16 -> wf_type rb e ty -> exists c t, render_type e ty = c :: t
  /\ ((is_ascii_letter c = true /\ c <> 76) \/ c = 91 \/ c = 47).
Proof.
  intros He H. destruct ty as [c|inv items|p fl]; cbn [wf_type render_type] in *.
  - destruct (letter_type c) as [t|] eqn:E; [|congruence]. exists c, []. split; [reflexivity|]. left.
    apply (letter_presentation c t [] (SS specs_default false) (Config U8 true true true true) E).
  - exists 91. eexists. split; [reflexivity|auto].
  - exists 47. eexists. split; [reflexivity|auto].
Qed.

Lemma localized_ok t s : localizable t = true ->
  on_localized t (SS s false) = Ok (SS (set_localized s) false).
Proof. destruct t; intros H; try discriminate H; reflexivity. Qed.

Definition set_default (s : specs) : Prop :=
  charset_literals s = repeat 0 16 /\ charset_has_nonascii s = false /\ charset_is_inverted s = false.

Definition add_tail (e : enc) (loc : bool) (ty : option type_syntax) (s : specs) : specs :=
  optv (fun s => s) (add_type e) ty (if loc then set_localized s else s).
Definition render_tail (e : enc) (loc : bool) (ty : option type_syntax) : list Z :=
  (if loc then [76] else []) ++ opt (render_type e) ty.

Lemma specs_tail cf t loc ty rest s : c_enc cf <> U16 -> (loc = true -> localizable t = true) ->
  (forall x, ty = Some x -> wf_type (rb_of cf) (c_enc cf) x) -> set_default s ->
  parse_specs_tail cf t (render_tail (c_enc cf) loc ty ++ 125 :: rest) (SS s false)
  = Ok (125 :: rest, SS (add_tail (c_enc cf) loc ty s) false).
Proof.
  intros He Hloc Hty (H1 & H2 & H3).
  assert (HT : forall s2, set_default s2 -> 
     match opt (render_type (c_enc cf)) ty ++ 125 :: rest with
      | [] => Ok ([], s_error (SS s2 false))
      | c :: _ =>
          '(s, st) <- (if negb (c =? 125) then do_presentation cf (opt (render_type (c_enc cf)) ty ++ 125 :: rest) (SS s2 false)
                       else Ok (opt (render_type (c_enc cf)) ty ++ 125 :: rest, (SS s2 false))) ;;
          match s with
          | [] => Ok ([], s_error st)
          | _ => Ok (s, st)
          end
      end = Ok (125 :: rest, SS (optv (fun s => s) (add_type (c_enc cf)) ty s2) false)).
  { intros s2 (D1 & D2 & D3). destruct ty as [x|]; cbn [opt optv].
    - specialize (Hty x eq_refl). destruct (type_head _ _ _ He Hty) as (c & tl & E & Hc).
      rewrite type_presentation by assumption.
      rewrite E. cbn [app]. replace (c =? 125) with false by (unfold is_ascii_letter in Hc; lia).
      reflexivity.
    - reflexivity. }
  unfold render_tail, add_tail. destruct loc; cbn [app].
  - unfold parse_specs_tail. change (76 =? 76) with true. cbv iota. rewrite localized_ok by auto. cbn [bind].
    rewrite HT; [reflexivity|]. repeat split; assumption.
  - specialize (HT s (conj H1 (conj H2 H3))).
    destruct ty as [x|]; cbn [opt optv] in *.
    + specialize (Hty x eq_refl). destruct (type_head _ _ _ He Hty) as (c & tl & E & Hc).
      unfold parse_specs_tail. rewrite E at 1. cbn [app].
      replace (c =? 76) with false by (unfold is_ascii_letter in Hc; lia). cbn [bind]. exact HT.
    + unfold parse_specs_tail. cbn [app]. change (125 =? 76) with false. cbn [bind]. exact HT.
Qed.

(** Heads of the remaining text. *)
Definition plain (c : Z) : Prop := 0 <= c < 128 /\ is_align c = false /\ c <> 123.
Lemma tail_head e rb loc ty rest : e <> U16 -> (forall x, ty = Some x -> wf_type rb e x) ->
  exists c t, render_tail e loc ty ++ 125 :: rest = c :: t /\ plain c /\ is_digit c = false /\ c <> 46.
Proof.
  intros He Hty. unfold render_tail, plain. destruct loc; cbn [app].
  - do 2 eexists. split; [reflexivity|]. unfold is_align, is_digit. lia.
  - destruct ty as [x|]; cbn [opt].
    + destruct (type_head _ _ _ He (Hty x eq_refl)) as (c & t & -> & Hc). cbn [app].
      do 2 eexists. split; [reflexivity|]. unfold is_ascii_letter, is_align, is_digit in *. lia.
    + do 2 eexists. split; [reflexivity|]. unfold is_align, is_digit. lia.
Qed.

Definition render_pt (e : enc) (p : option (list Z)) (loc : bool) (ty : option type_syntax) : list Z :=
  opt (fun p => 46 :: p) p ++ render_tail e loc ty.
Lemma pt_head e rb p loc ty rest : e <> U16 -> (forall x, ty = Some x -> wf_type rb e x) ->
  exists c t, render_pt e p loc ty ++ 125 :: rest = c :: t /\ plain c /\ is_digit c = false.
Proof.
  intros He Hty. unfold render_pt. destruct p as [p|]; cbn [opt app].
  - do 2 eexists. split; [reflexivity|]. unfold plain, is_align, is_digit. lia.
  - destruct (tail_head e rb loc ty rest He Hty) as (c & t & -> & H1 & H2 & _). eauto.
Qed.

(** From the width on. *)
Lemma width_step w rest s c t : numeral w -> rest = c :: t -> is_digit c = false -> precision s = 0 ->
  parse_width (w ++ rest) (SS s false) = Ok (rest, SS (set_width (number w) s) false).
Proof.
  intros Hw -> Hc Hp. destruct (parse_number w (c :: t) Hw Hc) as (d & tl & E & Hd & HN & H0).
  unfold parse_width. rewrite E. rewrite Hd. rewrite <- E, HN. cbn [bind].
  replace (number w =? -1) with false by lia. unfold on_width. cbn [ss_specs]. rewrite Hp.
  change (negb (0 =? 0)) with false. reflexivity.
Qed.
Lemma precision_step p rest s c t : numeral p -> rest = c :: t -> is_digit c = false -> width s <= number p ->
  parse_precision (p ++ rest) (SS s false) = Ok (rest, SS (set_precision (number p) s) false).
Proof.
  intros Hw -> Hc Hp. destruct (parse_number p (c :: t) Hw Hc) as (d & tl & E & Hd & HN & H0).
  unfold parse_precision. rewrite E. rewrite Hd. rewrite <- E, HN. cbn [bind].
  replace (number p =? -1) with false by lia. unfold on_precision. cbn [ss_specs].
  replace (number p <? width s) with false by lia. reflexivity.
Qed.

Definition add_rest (e : enc) (d : desc) (s : specs) : specs :=
  add_tail e (d_local d) (d_type d)
    (optv (fun s => s) (fun p => set_precision (number p)) (d_prec d)
      (optv (fun s => s) (fun w => set_width (number w)) (d_width d) s)).
Definition render_rest (e : enc) (d : desc) : list Z :=
  opt (fun w => w) (d_width d) ++ render_pt e (d_prec d) (d_local d) (d_type d).
Definition parse_rest (cf : config) (t : arg_type) (s : list Z) (st : sstate) : outcome (list Z * sstate) :=
  match s with
  | [] => Ok ([], s_error st)
  | _ =>
      '(s, st) <- parse_width s st ;;
      match s with
      | [] => Ok ([], s_error st)
      | c :: s' =>
          if c =? 46 then
            match s' with
            | [] => Ok ([], s_error st)
            | _ =>
                '(s, st) <- parse_precision s' st ;;
                match s with
                | [] => Ok ([], s_error st)
                | _ => parse_specs_tail cf t s st
                end
            end
          else parse_specs_tail cf t s st
      end
  end.

Lemma rest_step cf t d rest s : c_enc cf <> U16 -> wf_desc (rb_of cf) (c_enc cf) t d rest ->
  set_default s -> width s = 0 -> precision s = 0 ->
  parse_rest cf t (render_rest (c_enc cf) d ++ 125 :: rest) (SS s false)
  = Ok (125 :: rest, SS (add_rest (c_enc cf) d s) false).
Proof.
  intros He (_ & _ & Hw & Hp & Hloc & Hty & _) Hs Hw0 Hp0.
  unfold render_rest, add_rest. rewrite <- app_assoc.
  destruct (pt_head (c_enc cf) (rb_of cf) (d_prec d) (d_local d) (d_type d) rest He Hty) as (c & tl & E & Hpl & Hdig).
  destruct (tail_head (c_enc cf) (rb_of cf) (d_local d) (d_type d) rest He Hty) as (c2 & tl2 & E2 & Hpl2 & Hdig2 & H46).
  set (s1 := optv (fun s => s) (fun w => set_width (number w)) (d_width d) s).
  assert (HS1 : set_default s1) by (unfold s1; destruct (d_width d); exact Hs).
  assert (HW1 : width s1 = optv 0 number (d_width d)) by (unfold s1; destruct (d_width d); [reflexivity|exact Hw0]).
  (* after the width *)
  assert (HP : forall c' t', render_pt (c_enc cf) (d_prec d) (d_local d) (d_type d) ++ 125 :: rest = c' :: t' ->
    (if c' =? 46 then
       match t' with
       | [] => Ok ([], s_error (SS s1 false))
       | _ =>
           '(s, st) <- parse_precision t' (SS s1 false) ;;
           match s with
           | [] => Ok ([], s_error st)
           | _ => parse_specs_tail cf t s st
           end
       end
     else parse_specs_tail cf t (c' :: t') (SS s1 false))
     = Ok (125 :: rest, SS (add_tail (c_enc cf) (d_local d) (d_type d)
           (optv (fun s => s) (fun p => set_precision (number p)) (d_prec d) s1)) false)).
  { intros c' t' EQ. unfold render_pt in EQ. destruct (d_prec d) as [p|] eqn:EP; cbn [opt optv app] in *.
    - injection EQ as <- <-. change (46 =? 46) with true. cbv iota.
      destruct (Hp p eq_refl) as [Hnum Hle]. rewrite <- app_assoc.
      assert (HNE : p ++ render_tail (c_enc cf) (d_local d) (d_type d) ++ 125 :: rest <> []) by (destruct Hnum as [Hx _]; destruct p; [congruence|discriminate]).
      destruct (p ++ render_tail (c_enc cf) (d_local d) (d_type d) ++ 125 :: rest) as [|x xs] eqn:EX; [congruence|].
      rewrite <- EX. rewrite (precision_step p _ s1 c2 tl2 Hnum E2 Hdig2) by lia. cbn [bind].
      rewrite E2 at 1. apply specs_tail; auto.
    - rewrite EQ in E2. injection E2 as -> ->. replace (c2 =? 46) with false by lia.
      rewrite <- EQ. apply specs_tail; auto. }
  unfold parse_rest. destruct (d_width d) as [w|] eqn:EW; cbn [opt optv app] in *.
  - assert (Hnum := Hw w eq_refl).
    assert (HNE : w ++ render_pt (c_enc cf) (d_prec d) (d_local d) (d_type d) ++ 125 :: rest <> []) by (destruct Hnum as [Hx _]; destruct w; [congruence|discriminate]).
    destruct (w ++ _) as [|x xs] eqn:EX; [congruence|]. rewrite <- EX.
    rewrite (width_step w _ s c tl Hnum E Hdig Hp0). cbn [bind]. rewrite E. fold s1. apply HP. exact E.
  - assert (EPW : parse_width (render_pt (c_enc cf) (d_prec d) (d_local d) (d_type d) ++ 125 :: rest) (SS s false)
       = Ok (render_pt (c_enc cf) (d_prec d) (d_local d) (d_type d) ++ 125 :: rest, SS s false)).
    { rewrite E. unfold parse_width. rewrite Hdig. reflexivity. }
    rewrite EPW. rewrite E at 1. cbn [bind]. rewrite E. apply HP. exact E.
Qed.

Lemma parse_specs_unfold cf t s st : specs_shortcut s = false -> s <> [] ->
  parse_format_specs cf t s st
  = ('(s, st) <- parse_align (c_enc cf) s st ;; parse_rest cf t s st).
Proof. intros H Hs. unfold parse_format_specs. rewrite H. destruct s; [congruence|]. reflexivity. Qed.

Lemma render_desc_split e d : render_desc e d
  = opt (encode e) (d_fill d) ++ opt align_char (d_align d) ++ render_rest e d.
Proof. reflexivity. Qed.

Lemma rest_head cf t d rest : c_enc cf <> U16 -> wf_desc (rb_of cf) (c_enc cf) t d rest ->
  exists c tl, render_rest (c_enc cf) d ++ 125 :: rest = c :: tl /\ plain c.
Proof.
  intros He (_ & _ & Hw & _ & _ & Hty & _). unfold render_rest. rewrite <- app_assoc.
  destruct (d_width d) as [w|]; cbn [opt app].
  - destruct (Hw w eq_refl) as (Hne & Hds & _). destruct w as [|x w]; [congruence|]. cbn [app].
    inversion Hds; subst. do 2 eexists. split; [reflexivity|]. unfold plain, is_align. lia.
  - destruct (pt_head (c_enc cf) (rb_of cf) (d_prec d) (d_local d) (d_type d) rest He Hty) as (c & tl & -> & H & _). eauto.
Qed.

Lemma plain_align_none e c rest st : plain c -> (c = 91 \/ starts_align rest = false) ->
  parse_align e (c :: rest) (SS st false) = Ok (c :: rest, SS st false).
Proof.
  intros (H1 & H2 & H3) Hr. apply align_none; auto.
  destruct e; cbn [code_point_length]; [|reflexivity|reflexivity].
  rewrite utf8_cp_len_class by (unfold is_byte; lia). unfold utf8_len_class. replace (c <? 0x80) with true by lia. reflexivity.
Qed.

Lemma fill_mean e f : e <> U16 -> scalar f -> fill_assign e (encode e f) fill_default = Ok (mean_fill e (Some f)).
Proof.
  intros He Hf. destruct (encode_head e f He Hf) as (c & tl & E & _ & _ & HL & _).
  destruct e; [|congruence|].
  - cbn [encode mean_fill fill_assign] in *. rewrite E in *. cbn [length] in *.
    replace ((S (length tl) =? 0)%nat || (4 <? S (length tl))%nat) with false by lia.
    f_equal. f_equal. f_equal. cbn [fill_default f_data skipn].
    destruct tl as [|a [|b [|d [|? ?]]]]; cbn [length] in *; reflexivity.
  - cbn [encode mean_fill fill_assign f_size fill_default].
    rewrite !Z.shiftr_div_pow2 by lia. reflexivity.
Qed.

Theorem specs_render cf t d rest : c_enc cf <> U16 -> wf_desc (rb_of cf) (c_enc cf) t d rest ->
  parse_format_specs cf t (render_desc (c_enc cf) d ++ 125 :: rest) (SS specs_default false)
  = Ok (125 :: rest, SS (mean (c_enc cf) d) false).
Proof.
  intros He Hwf. assert (Hwf0 := Hwf).
  destruct Hwf as (Hfill & Hal & Hw & Hp & Hloc & Hty & Hempty & Hregex).
  assert (HD : set_default specs_default) by (repeat split).
  destruct (rest_head cf t d rest He Hwf0) as (c & tl & ER & Hpl).
  rewrite render_desc_split. rewrite <- !app_assoc.
  assert (HREST : forall s, set_default s -> width s = 0 -> precision s = 0 ->
     parse_rest cf t (c :: tl) (SS s false) = Ok (125 :: rest, SS (add_rest (c_enc cf) d s) false)).
  { intros s H1 H2 H3. rewrite <- ER. apply rest_step; assumption. }
  assert (HFIN : forall s, s = Specs 0 0 (mean_fill (c_enc cf) (d_fill d)) PNone (repeat 0 16) false false [] 0 0
       (optv ANone (fun a => a) (d_align d)) false -> add_rest (c_enc cf) d s = mean (c_enc cf) d).
  { intros s ->. unfold add_rest, add_tail, mean. destruct d as [fi al w p loc ty]; cbn [d_fill d_align d_width d_prec d_local d_type] in *.
    destruct w as [w|], p as [p|], loc, ty as [[lc|inv items|pat fl]|]; reflexivity. }
  destruct (d_fill d) as [f|] eqn:EF.
  - destruct (Hfill f eq_refl) as (Hsc & H123 & H125 & H91 & Hal2).
    destruct (d_align d) as [a|] eqn:EA; [|congruence]. cbn [opt].
    assert (Ha : a <> ANone) by congruence.
    destruct (encode_head (c_enc cf) f He Hsc) as (u & us & EU & HLU & _ & _ & Hu & Hu2).
    destruct (check_align_char a Ha) as (ac & Eac & _ & Hia).
    rewrite parse_specs_unfold.
    + rewrite align_fill by assumption. change (fill specs_default) with fill_default.
      rewrite fill_mean by assumption. cbn [bind]. rewrite ER.
      rewrite HREST; [|repeat split|reflexivity|reflexivity]. f_equal. f_equal. f_equal. apply HFIN. reflexivity.
    + rewrite EU, Eac. cbn [app]. destruct us as [|u2 us]; cbn [app specs_shortcut].
      * unfold is_align in Hia. replace (ac =? 125) with false by lia. reflexivity.
      * destruct (is_ascii_letter u) eqn:EL; [|rewrite andb_false_r; reflexivity].
        unfold is_ascii_letter in EL. destruct Hu as [_ Hu]; [lia|discriminate Hu].
    + rewrite EU. discriminate.
  - destruct (d_align d) as [a|] eqn:EA; cbn [opt app].
    + assert (Ha : a <> ANone) by congruence.
      destruct (check_align_char a Ha) as (ac & Eac & _ & Hia).
      rewrite parse_specs_unfold.
      * rewrite align_only; [|exact Ha|rewrite ER; discriminate|rewrite ER; apply Hpl]. cbn [bind]. rewrite ER.
        rewrite HREST; [|repeat split|reflexivity|reflexivity]. f_equal. f_equal. f_equal. apply HFIN. reflexivity.
      * rewrite Eac, ER. cbn [app specs_shortcut]. unfold is_align in Hia. unfold is_ascii_letter.
        replace (((97 <=? ac) && (ac <=? 122)) || ((65 <=? ac) && (ac <=? 90))) with false by lia.
        rewrite andb_false_r. reflexivity.
      * rewrite Eac. discriminate.
    + rewrite ER.
      (* a lone type letter takes the shortcut *)
      destruct (specs_shortcut (c :: tl)) eqn:ESC.
      { unfold specs_shortcut in ESC. destruct tl as [|c2 tl]; [discriminate|].
        assert (HLt : is_ascii_letter c = true /\ c <> 76 /\ c2 = 125).
        { apply andb_true_iff in ESC. destruct ESC as [ESC H76]. apply andb_true_iff in ESC. destruct ESC as [E125 EL].
          repeat split; [exact EL|lia|lia]. }
        destruct HLt as (HLet & H76 & ->).
        destruct d as [fi al w p loc ty]; cbn [d_fill d_align d_width d_prec d_local d_type] in *. subst fi al.
        unfold render_rest, render_pt, render_tail in ER. cbn [d_fill d_align d_width d_prec d_local d_type] in *.
        unfold is_ascii_letter in HLet.
        destruct w as [w|].
        { exfalso. destruct (Hw w eq_refl) as (Hne & Hds & _). destruct w as [|x w]; [congruence|].
          inversion Hds; subst. cbn [opt app] in ER. injection ER as -> _. lia. }
        destruct p as [p|]; [exfalso; cbn [opt app] in ER; injection ER as <- _; lia|].
        destruct loc; [exfalso; cbn [opt app] in ER; injection ER as <- _; lia|].
        cbn [opt app] in ER. destruct ty as [ty|]; [|cbn [opt app] in ER; injection ER as <- _; lia].
        cbn [opt] in ER. assert (Hwt := Hty ty eq_refl).
        destruct ty as [lc|inv items|pat fl].
        - cbn [render_type app] in ER. injection ER as -> ER'. rewrite <- ER'.
          unfold parse_format_specs. rewrite ER'.
          assert (ESC' : specs_shortcut (c :: 125 :: tl) = true).
          { cbn [specs_shortcut]. unfold is_ascii_letter. lia. }
          rewrite ESC', <- ER'. 
          change (c :: 125 :: rest) with (render_type (c_enc cf) (TyLetter c) ++ 125 :: rest).
          rewrite type_presentation by (assumption || reflexivity). reflexivity.
        - exfalso. unfold render_type, render_set in ER. cbn [app] in ER. injection ER as <- _. lia.
        - exfalso. cbn [render_type app] in ER. injection ER as <- _. lia. }
      rewrite parse_specs_unfold; [|exact ESC|discriminate].
      rewrite plain_align_none; [|exact Hpl|].
      * cbn [bind]. rewrite HREST; [|repeat split|reflexivity|reflexivity]. f_equal. f_equal. f_equal. apply HFIN. reflexivity.
      * (* what follows the first unit *)
        destruct d as [fi al w p loc ty]; cbn [d_fill d_align d_width d_prec d_local d_type] in *. subst fi al.
        unfold render_rest in ER. rewrite <- app_assoc in ER. cbn [d_width d_prec d_local d_type] in ER.
        destruct (pt_head (c_enc cf) (rb_of cf) p loc ty rest He Hty) as (c1 & tl1 & E1 & Hpl1 & _).
        destruct (tail_head (c_enc cf) (rb_of cf) loc ty rest He Hty) as (c2 & tl2 & E2 & Hpl2 & _ & _).
        assert (Hdig : forall x, 48 <= x <= 57 -> is_align x = false) by (intros; unfold is_align; lia).
        destruct w as [w|]; cbn [opt] in ER.
        { right. destruct (Hw w eq_refl) as (Hne & Hds & _). destruct w as [|x [|y w]]; [congruence| |].
          - cbn [app] in ER. injection ER as -> <-. rewrite E1. apply Hpl1.
          - cbn [app] in ER. injection ER as -> <-. inversion Hds as [|? ? _ Hds2]; subst. inversion Hds2; subst. cbn. auto. }
        cbn [app] in ER. unfold render_pt in ER.
        destruct p as [p|]; cbn [opt app] in ER.
        { right. destruct (Hp p eq_refl) as [(Hne & Hds & _) _]. destruct p as [|x p]; [congruence|].
          cbn [app] in ER. injection ER as <- <-. inversion Hds; subst. cbn. auto. }
        unfold render_tail in ER. destruct loc; cbn [app] in ER.
        { right. injection ER as <- <-. destruct ty as [ty|]; cbn [opt app]; [|reflexivity].
          destruct (type_head _ _ _ He (Hty ty eq_refl)) as (x & xs & -> & Hx). cbn [app starts_align].
          unfold is_ascii_letter in Hx. unfold is_align. lia. }
        destruct ty as [ty|]; cbn [opt app] in ER.
        2:{ right. injection ER as <- <-. apply Hempty. reflexivity. }
        destruct ty as [lc|inv items|pat fl]; cbn [render_type] in ER.
        { right. cbn [app] in ER. injection ER as <- <-. reflexivity. }
        { left. unfold render_set in ER. cbn [app] in ER. injection ER as <- _. reflexivity. }
        { right. rewrite <- !app_assoc in ER. cbn [app] in ER. injection ER as <- <-.
          assert (HR := Hregex pat fl eq_refl). destruct (Hty _ eq_refl) as (_ & Hne & _).
          destruct pat as [|x pat]; [congruence|]. exact HR. }
Qed.
