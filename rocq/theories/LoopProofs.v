(** Lemmas about loops that read one value per call. *)
From Verif Require FloatProofs.
From Verif Require Import Prelude UnicodeModel UnicodeSpec UnicodeProofs ReadModel ReadProofs ArgsModel SpecsModel FormatModel
  IntModel IntSpec IntProofs IntTotalProofs VscanModel VscanSpec VscanProofs VscanProperties WidthSpec WidthProofs ArgReaderModel ArgReaderProofs
  ArgReaderProperties ScalarModel ScalarProperties
  StringModel StringSpec ArgSafeProofs StringProofs StringSafeProofs RangesProofs RangesIntProofs BufferModel BufferProofs BufferProperties
  SegmentModel SegmentSpec SegmentProofs SegmentRunProofs SegmentProperties StringProperties LoopModel LoopSpec.
Local Open Scope Z_scope.

Lemma range_step {V} r cf (a : arg V) s :
  scan_range r cf a (Chars s) = ('(v, rest) <- ar_plain a s ;; Ok ([v], Chars (skipn (length s - length rest) s))).
Proof.
  unfold scan_range, vscan. cbn. destruct (ar_plain a s) as [[v rest]| | |]; reflexivity.
Qed.
Lemma suffix_skip {A} (rest s : list A) : (exists p, s = p ++ rest) -> skipn (length s - length rest) s = rest.
Proof. intros [p ->]. rewrite app_length. replace (length p + length rest - length rest)%nat with (length p) by lia. apply skipn_all2' || (rewrite skipn_app, skipn_all, Nat.sub_diag; reflexivity). Qed.
Lemma loop_ok {V} r cf (a : arg V) fuel s v rest : ar_plain a s = Ok (v, rest) -> suffix rest s ->
  scan_loop r cf a (S fuel) (Chars s) = ('(ws, e, z) <- scan_loop r cf a fuel (Chars rest) ;; Ok (v :: ws, e, z)).
Proof.
  intros E H. cbn [scan_loop]. rewrite range_step, E. cbn [bind]. rewrite (suffix_skip rest s H). reflexivity.
Qed.
Lemma loop_err {V} r cf (a : arg V) fuel s e : ar_plain a s = Err e ->
  scan_loop r cf a (S fuel) (Chars s) = Ok ([], e, Chars s).
Proof. intros E. cbn [scan_loop]. rewrite range_step, E. reflexivity. Qed.

(** * Words *)
Lemma lead_white p t l : Forall (fun c => p c = true) t -> match l with c :: _ => p c = false | [] => True end -> lead p (t ++ l) = t.
Proof.
  intros H Hl. induction H as [|c t Hc Ht IH]; cbn [app lead].
  - destruct l as [|c l]; [reflexivity|]. cbn [lead]. rewrite Hl. reflexivity.
  - rewrite Hc, IH. reflexivity.
Qed.
Lemma divide : forall cps, exists ws tail, divided cps ws tail.
Proof.
  intros cps. remember (length cps) as n eqn:En. assert (Hn : (length cps <= n)%nat) by lia. clear En. revert cps Hn.
  induction n as [|n IH]; intros cps Hn.
  { destruct cps; [|cbn in Hn; lia]. exists [], []. constructor. constructor. }
  destruct (word_of cps) as [[w l]|e| |] eqn:E.
  - destruct (C23_word _ _ _ E) as (t & -> & Ht & Hw & Hf & Hl).
    destruct (IH l) as (ws & tail & D).
    { rewrite !app_length in Hn. destruct w; [congruence|]. cbn [length] in Hn. lia. }
    exists (w :: ws), tail. now constructor.
  - exists [], cps. constructor. unfold word_of in E. assert (A := lead_after is_ws cps).
    assert (S := lead_stop is_ws cps). destruct (after (lead is_ws cps) cps) as [|c l] eqn:Ea.
    + rewrite app_nil_r in A. rewrite <- A. clear. induction cps as [|c l IH]; cbn [lead]; [constructor|]. destruct (is_ws c) eqn:E; constructor; auto.
    + cbn [lead] in E. rewrite S in E. discriminate.
  - unfold word_of in E. destruct (lead _ (after _ _)); discriminate.
  - unfold word_of in E. destruct (lead _ (after _ _)); discriminate.
Qed.
Lemma word_first t w l : Forall (fun c => is_ws c = true) t -> w <> [] -> Forall (fun c => is_ws c = false) w ->
  match l with c :: _ => is_ws c = true | [] => True end -> word_of (t ++ w ++ l) = Ok (w, l).
Proof.
  intros Ht Hw Hf Hl. unfold word_of. rewrite lead_white; [|exact Ht|destruct w; [congruence|]; inversion Hf; auto].
  rewrite after_app. rewrite (lead_white (fun c => negb (is_ws c)) w l).
  - destruct w; [congruence|]. rewrite after_app. reflexivity.
  - eapply Forall_impl; [|exact Hf]. intros c Hc. cbn beta. rewrite Hc. reflexivity.
  - destruct l; [exact I|]. rewrite Hl. reflexivity.
Qed.
Lemma word_none t : Forall (fun c => is_ws c = true) t -> word_of t = Err EndOfInput.
Proof.
  intros H. unfold word_of. rewrite <- (app_nil_r t) at 1 2. rewrite lead_white by auto. rewrite app_nil_r, after_nil. reflexivity.
Qed.
Lemma words_loop r to dst cf a cps ws tail : whole r cps -> dest_ok dst (s_enc r) to -> ar_plain a = string_default dst r ->
  divided cps ws tail -> Forall scalar cps -> forall fuel, (length (text (s_enc r) cps) < fuel)%nat ->
  scan_loop r cf a fuel (Chars (text (s_enc r) cps)) = Ok (map (text to) ws, EndOfInput, Chars (text (s_enc r) tail)).
Proof.
  intros Hr Hd Ha D. induction D as [t Ht|t w l ws tail Ht Hw Hf Hl D IH]; intros Hs fuel HF; (destruct fuel as [|fuel]; [lia|]).
  - cbn [map]. apply loop_err. rewrite Ha, (C23_default_partial dst r to) by assumption. rewrite word_none by exact Ht. reflexivity.
  - rewrite (loop_ok r cf a fuel _ (text to w) (text (s_enc r) l)).
    + rewrite IH; [reflexivity| | |].
      * rewrite app_assoc in Hr. exact (whole_suffix r (t ++ w) l Hr).
      * apply Forall_app in Hs. destruct Hs as [_ Hs]. apply Forall_app in Hs. apply Hs.
      * rewrite !text_app, !app_length in HF. destruct w as [|c w]; [congruence|].
        assert (Hc : scalar c) by (apply Forall_app in Hs; destruct Hs as [_ Hs]; inversion Hs; auto).
        destruct (encode_lead (s_enc r) c Hc) as (d & tl & E & _). cbn [text flat_map] in HF. rewrite E in HF.
        cbn [app length] in HF. unfold text in *. lia.
    + rewrite Ha, (C23_default_partial dst r to) by assumption. rewrite word_first by assumption. reflexivity.
    + exists (text (s_enc r) (t ++ w)). rewrite !text_app, <- app_assoc. reflexivity.
Qed.

(** * Integers *)
Definition no_more (tail : list Z) : Prop := match tail with c :: _ => ~ 48 <= c <= 57 | [] => True end.
Lemma no_more_units e tail : e <> U16 -> Forall scalar tail -> no_more tail -> ~ starts_with_digit 10 (text e tail).
Proof.
  intros He Hs Hn. destruct tail as [|c l]; [intros []|]. inversion Hs as [|? ? Hc Hl]; subst. cbn [text flat_map no_more] in *.
  destruct (encode_units e c He Hc) as [[H1 H2]|[H1 H2]].
  - rewrite H2. cbn [app starts_with_digit]. intros H. apply FloatProofs.digit10_iff in H. tauto.
  - destruct (encode_lead e c Hc) as (d & tl & E & _). rewrite E in *. cbn [app starts_with_digit]. intros H. apply FloatProofs.digit10_iff in H.
    inversion H2; subst. lia.
Qed.
Lemma ascii_scalar l : Forall (fun c => 0 <= c < 128) l -> Forall scalar l.
Proof. intros H. eapply Forall_impl; [|exact H]. intros c Hc. cbn beta in Hc. unfold scalar. lia. Qed.
Lemma printed_shape (plus : bool) v : let p := (if plus && (0 <=? v) then [43] else []) ++ print_signed false 10 v in
  Forall (fun c => 0 <= c < 128) p /\ p <> [] /\ Forall (fun c => is_ws c = false) p.
Proof.
  destruct (print_signed_shape false 10 v ltac:(unfold base_ok; lia)) as (sg & ds & E & Hne & Hds & _ & Hsg & _).
  cbv zeta. rewrite E.
  assert (Hd : Forall (fun c => 48 <= c <= 57) ds) by (eapply Forall_impl; [|exact Hds]; intros c; apply FloatProofs.digit10_iff).
  assert (HW : forall c, 43 <= c <= 57 -> is_ws c = false).
  { intros c Hc. destruct (is_ws c) eqn:W; [exfalso|reflexivity]. unfold is_ws in W. apply existsb_exists in W.
    destruct W as (x & Hi & Hx). apply Z.eqb_eq in Hx. subst x. vm_compute in Hi.
    repeat (destruct Hi as [Hi|Hi]; [lia|]). exact Hi. }
  assert (HA : Forall (fun c => 43 <= c <= 57) ((if plus && (0 <=? v) then [43] else []) ++ sg ++ ds)).
  { apply Forall_app. split; [destruct (plus && (0 <=? v)); repeat constructor; lia|]. apply Forall_app.
    split; [rewrite Hsg; destruct (v <? 0); repeat constructor; lia|]. eapply Forall_impl; [|exact Hd]. intros; cbn beta in *; lia. }
  split; [eapply Forall_impl; [|exact HA]; intros; cbn beta in *; lia|].
  split; [|eapply Forall_impl; [|exact HA]; auto].
  intros H. apply app_eq_nil in H. destruct H as [_ H]. apply app_eq_nil in H. tauto.
Qed.
Lemma int_once r t ws plus v tail : whole r (written (ws, plus, v) ++ tail) -> s_enc r <> U16 -> type_ok t -> in_range (it_signed t) (it_bits t) v ->
  Forall scalar ws -> Forall (fun c => is_ws c = true) ws -> Forall scalar tail -> no_more tail ->
  int_default t r (text (s_enc r) (written (ws, plus, v) ++ tail)) = Ok (v, text (s_enc r) tail).
Proof.
  intros Hr He Ht Hv Hs Hw Hst Hn. unfold written, int_default, default_read, skip_ws_before_if_required in *.
  destruct (printed_shape plus v) as (PA & PN & PW). set (p := (if plus && (0 <=? v) then [43] else []) ++ print_signed false 10 v) in *.
  assert (HS : Forall scalar ((ws ++ p) ++ tail)) by (apply Forall_app; split; [apply Forall_app; split; [assumption|apply ascii_scalar; assumption]|assumption]).
  destruct (text (s_enc r) ((ws ++ p) ++ tail)) as [|u s] eqn:ET.
  { apply text_nil_iff in ET; [|exact HS]. apply app_eq_nil in ET. destruct ET as [ET _]. apply app_eq_nil in ET. tauto. }
  rewrite <- ET. rewrite skip_ws_text by assumption. rewrite <- app_assoc.
  assert (EL : lead is_ws (ws ++ p ++ tail) = ws).
  { apply lead_white; [exact Hw|]. destruct p; [congruence|]. inversion PW; auto. }
  rewrite EL, after_app.
  replace (length ws =? length (ws ++ p ++ tail))%nat with false
    by (symmetry; apply Nat.eqb_neq; rewrite !app_length; destruct p; [congruence|]; cbn [length]; lia).
  cbn [negb andb bind]. rewrite text_app, (text_ascii _ p He PA). unfold int_read_default, p. rewrite <- app_assoc.
  apply round_trip; auto.
  - unfold base_ok; lia.
  - apply no_more_units; assumption.
  - apply text_enc_ok. exact Hst.
  - intros _ L HL. unfold prefix_of in HL. lia.
Qed.
Lemma text_positive e c l : scalar c -> (length (text e l) < length (text e (c :: l)))%nat.
Proof.
  intros H. destruct (encode_lead e c H) as (d & tl & E & _). cbn [text flat_map]. rewrite E, app_length. cbn [length]. unfold text. lia.
Qed.
Lemma ints_loop r t cf a xs tail : whole r (flat_map written xs ++ tail) -> s_enc r <> U16 -> type_ok t -> ar_plain a = int_default t r ->
  Forall (fun '(ws, _, v) => in_range (it_signed t) (it_bits t) v /\ Forall scalar ws /\ Forall (fun c => is_ws c = true) ws) xs ->
  separated xs -> Forall scalar tail -> no_more tail ->
  forall fuel, scan_loop r cf a (length xs + fuel) (Chars (text (s_enc r) (flat_map written xs ++ tail)))
  = ('(vs, e, z) <- scan_loop r cf a fuel (Chars (text (s_enc r) tail)) ;; Ok (map number xs ++ vs, e, z)).
Proof.
  intros Hr He Ht Ha HX HSep Hst Hn fuel. induction xs as [|[[ws plus] v] xs IH]; cbn [flat_map length Nat.add map app].
  - destruct (scan_loop r cf a fuel _) as [[[? ?] ?]| | |]; reflexivity.
  - inversion HX as [|? ? HX0 HX']; subst. destruct HX0 as (Hv & Hs & Hw). cbn [flat_map] in Hr. rewrite <- app_assoc in *.
    assert (NM : no_more (flat_map written xs ++ tail)).
    { destruct xs as [|[[ws' plus'] v'] xs]; [exact Hn|]. cbn [separated] in HSep. inversion HSep as [|? ? H1 _]; subst.
      inversion HX' as [|? ? HX1 _]; subst. destruct HX1 as (_ & _ & Hw'). destruct ws' as [|c ws']; [congruence|]. inversion Hw' as [|? ? Hc _]; subst.
      cbn. intros HD. assert (E := ws_no_digit c Hc). unfold no_digit in E. assert (D : is_digit 10 c) by (apply FloatProofs.digit10_iff, HD).
      destruct D as (d & D & _). congruence. }
    assert (SX : Forall scalar (flat_map written xs ++ tail)).
    { apply Forall_app. split; [|exact Hst]. clear -HX'. induction xs as [|[[w p] n] xs IH]; [constructor|].
      inversion HX' as [|? ? HX1 H]; subst. destruct HX1 as (_ & Hs & _). cbn [flat_map]. apply Forall_app. split; [|apply IH, H].
      unfold written. apply Forall_app. split; [exact Hs|]. apply ascii_scalar, printed_shape. }
    rewrite (loop_ok r cf a _ _ v (text (s_enc r) (flat_map written xs ++ tail))).
    + rewrite IH; [|exact (whole_suffix r _ _ Hr)|exact HX'|].
      * destruct (scan_loop r cf a fuel _) as [[[? ?] ?]| | |]; reflexivity.
      * destruct xs; [exact I|]. cbn [separated] in *. inversion HSep; assumption.
    + rewrite Ha. now apply int_once.
    + exists (text (s_enc r) (written (ws, plus, v))). apply text_app.
Qed.
Lemma ints_end r t cf a tail fuel : whole r tail -> ar_plain a = int_default t r -> Forall scalar tail -> Forall (fun c => is_ws c = true) tail ->
  scan_loop r cf a (S fuel) (Chars (text (s_enc r) tail)) = Ok ([], EndOfInput, Chars (text (s_enc r) tail)).
Proof.
  intros Hr Ha Hs Hw. apply loop_err. rewrite Ha. unfold int_default, default_read, skip_ws_before_if_required.
  destruct (text (s_enc r) tail) as [|u s] eqn:ET; [reflexivity|]. rewrite <- ET. rewrite skip_ws_text by assumption.
  replace (lead is_ws tail) with tail; [rewrite Nat.eqb_refl; reflexivity|].
  symmetry. rewrite <- (app_nil_r tail) at 1. apply lead_white; auto.
Qed.

(** * Any bytes *)
Lemma skip_suffix s it : skip_ws_before_if_required string_src true s = Ok it -> units U8 s -> suffix it s.
Proof.
  intros E Hu. assert (H := default_read_ok string_src true (fun s => Ok (tt, s))).
  destruct (H ltac:(intros y _; left; exists tt, y; split; [reflexivity|apply suffix_refl]) s Hu) as [(v & s' & E1 & Hs)|[e E1]];
    unfold default_read in E1; rewrite E in E1; cbn [bind] in E1; [|discriminate]. injection E1 as _ <-. exact Hs.
Qed.
Lemma int_progress t s v rest : type_ok t -> bytes s -> int_read_default string_src t s = Ok (v, rest) -> (length rest < length s)%nat.
Proof.
  intros Ht Hb. unfold int_read_default, int_read_default_with_base.
  destruct (prefix_total string_src s 10) as [(p & -> & H1 & H2 & H3 & H4)|[e ->]]; [right; unfold base_ok; lia| |discriminate]; cbn [bind].
  destruct (negb (it_signed t) && is_minus (pr_sign p)) eqn:EM; [discriminate|].
  apply suffix_len in H1 as HL.
  destruct (pr_zero p).
  - specialize (H4 eq_refl). destruct (pr_it p) as [|c l]; [congruence|]. cbn. intros [= _ <-]. cbn [length] in HL. lia.
  - assert (He : enc_ok (s_enc string_src) (pr_it p)) by (eapply enc_ok_suffix; [exact H1|intros _; exact Hb]).
    destruct (starts_dec (pr_base p) (pr_it p)) as [Hx|Hx]; [|rewrite read_digits_none; [discriminate|assumption..|intros E; rewrite E in EM; exact EM]].
    destruct (run_exists _ _ Hx) as (ds & rs & Hr).
    destruct (read_digits_run string_src t p ds rs Ht H2 He Hr H3) as (_ & _ & [H|[_ H]]); [|rewrite H; discriminate|].
    + intros E. rewrite E in EM. exact EM.
    + rewrite H. intros [= _ <-]. destruct Hr as (E & Hne & _). rewrite E, app_length in HL. destruct ds; [congruence|]. cbn [length] in HL. lia.
Qed.
Lemma progress k s v rest : kind_ok k -> k <> FChar32 -> bytes s -> from_string k s = Ok (v, rest) -> (length rest < length s)%nat.
Proof.
  intros HK Hk HB. destruct k as [t| | | |]; cbn [from_string kind_ok] in *; intros E; try congruence;
    apply with_result_ok in E; destruct E as (a & E & _).
  - unfold int_default, default_read in E. destruct (skip_ws_before_if_required string_src true s) as [it| | |] eqn:ES; try discriminate.
    cbn [bind] in E. assert (HS := skip_suffix s it ES HB). assert (L := suffix_len _ _ HS).
    apply int_progress in E; [lia|exact HK|eapply (units_suffix U8); eassumption].
  - destruct (C23_any_bytes s a rest HB E) as (ws & -> & _ & _ & Hne & _). rewrite !app_length. destruct a; [congruence|]. cbn [length]. lia.
  - unfold bool_default, default_read in E. destruct (skip_ws_before_if_required string_src true s) as [it| | |] eqn:ES; try discriminate.
    cbn [bind] in E. assert (HS := skip_suffix s it ES HB). assert (L := suffix_len _ _ HS).
    cut (length rest < length it)%nat; [lia|]. clear -E. revert E.
    unfold bool_either, bool_numeric, bool_textual_classic, read_matching_code_unit, read_matching_string. destruct it as [|c it]; [discriminate|].
    destruct (c =? 48); [intros [= _ <-]; cbn [length]; lia|]. destruct (c =? 49); [intros [= _ <-]; cbn [length]; lia|].
    repeat match goal with |- context [if ?b then _ else _] => destruct b eqn:? end; intros H; try discriminate;
      apply (f_equal (fun x => match x with Ok (_, s) => length s | _ => O end)) in H; cbv beta iota in H; rewrite skipn_length in H;
      cbn [length] in *; lia.
  - unfold char_default, default_read, skip_ws_before_if_required, char_default_read in E. destruct s as [|c s]; [discriminate|].
    cbn in E. injection E as _ <-. cbn [length]. lia.
Qed.
Lemma kind_total k s : kind_ok k -> k <> FChar32 -> bytes s ->
  (exists v rest, from_string k s = Ok (v, rest)) \/ exists e, from_string k s = Err e.
Proof.
  intros HK Hk HB.
  assert (R : forall A (g : A -> scanned) f, reader_ok A string_src f ->
            (exists v rest, with_result g (f s) = Ok (v, rest)) \/ exists e, with_result g (f s) = Err e).
  { intros A g f H. destruct (H s HB) as [(v & s' & -> & _)|[e ->]]; cbn; eauto. }
  destruct k as [t| | | |]; cbn [from_string kind_ok] in *; try congruence.
  - apply R, default_read_ok. intros y Hy.
    destruct (int_default_total string_src t y 10) as [(v1 & s1 & E1 & Hs & _)|[e E1]];
      try (unfold base_ok; lia); auto; [intros _; exact Hy| |]; unfold int_read_default; rewrite E1; eauto.
  - destruct (string_default_total (DString U8) string_src s HB) as [[e ->]|(v1 & r1 & pre & part & -> & _)]; cbn; eauto.
  - apply R, default_read_ok, bool_either_ok, classic_ok.
  - apply R, default_read_ok, code_unit_ok.
Qed.

(** * Ranges that are not contiguous *)
Lemma forward_step n k s : ascii s -> (length s < n)%nat ->
  scan_forward n k s = ('(v, rest) <- from_string k s ;; Ok ([v], rest)).
Proof.
  intros HA Hn. unfold scan_forward. cbn [scan_pieces]. destruct n as [|n]; [lia|].
  change (literal_text (S n) [] 0 (forward_buffer s)) with (@Ok (nat * buffer) (O, forward_buffer s)). cbn [bind].
  assert (F : fine s 0 (forward_buffer s)) by (apply fresh_fine; [constructor|exact I]).
  assert (H := read_field_ok s (S n) k 0 (forward_buffer s) HA F ltac:(lia) (or_introl (fresh_safe s s _ (fresh_forward s)))).
  cbn [skipn] in H. destruct (from_string k s) as [[v rest]| | |]; cbn [same bind] in *.
  - destruct H as (q & b' & -> & -> & _ & _). cbn [bind].
    change (literal_text (S n) [] q b') with (@Ok (nat * buffer) (q, b')). reflexivity.
  - rewrite H. reflexivity.
  - rewrite H. reflexivity.
  - rewrite H. reflexivity.
Qed.
