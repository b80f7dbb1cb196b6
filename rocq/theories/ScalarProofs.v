(** Proofs about the readers for booleans, characters and pointers. *)
From Verif Require Import Prelude UnicodeModel UnicodeSpec UnicodeProofs ReadModel ReadProofs SpecsModel FormatModel
  IntModel FormatSpec FormatSpecProofs WidthModel WidthSpec WidthProofs ArgReaderModel
  ArgReaderProofs ArgSafeProofs ScalarModel ScalarSpec.
Local Open Scope Z_scope.

Lemma starts_with_cancel p a b : starts_with (p ++ a) (p ++ b) = starts_with a b.
Proof. induction p as [|c p IH]; cbn; [reflexivity|]. rewrite Z.eqb_refl. exact IH. Qed.
Lemma starts_with_len n s : starts_with n s = true -> (length n <= length s)%nat.
Proof. intros H. apply starts_with_inv in H. destruct H as [t ->]. rewrite app_length. lia. Qed.

Lemma strip_text e w : Forall scalar w -> forall cps, Forall scalar cps ->
  match strip w cps with
  | Some rest => cps = w ++ rest
  | None => starts_with (text e w) (text e cps) = false
  end.
Proof.
  induction 1 as [|c w Hc Hw IH]; intros cps Hs; cbn [strip]; [reflexivity|].
  destruct cps as [|d cps].
  { cbn [text flat_map]. destruct (encode_lead e c Hc) as (u & tl & -> & _). reflexivity. }
  inversion Hs as [|? ? Hd Hs']; subst. specialize (IH cps Hs').
  destruct (Z.eqb_spec c d) as [<-|N].
  - destruct (strip w cps) as [rest|]; [cbn; f_equal; exact IH|].
    cbn [text flat_map]. rewrite starts_with_cancel. exact IH.
  - destruct (starts_with (text e (c :: w)) (text e (d :: cps))) eqn:E; [|reflexivity].
    apply starts_with_inv in E. destruct E as [t E]. cbn [text flat_map] in E. rewrite <- app_assoc in E.
    assert (H1 := encode_next e d (flat_map (encode e) cps) Hd). rewrite E, encode_next in H1 by exact Hc. congruence.
Qed.
(** Matching a string is stripping it. *)
Lemma match_text e w cps : Forall scalar w -> Forall scalar cps ->
  read_matching_string (text e w) (text e cps)
  = match strip w cps with
    | Some rest => inl (text e rest)
    | None => if (length (text e cps) <? length (text e w))%nat then inr PEof else inr PError
    end.
Proof.
  intros Hw Hs. assert (H := strip_text e w Hw cps Hs). unfold read_matching_string.
  destruct (strip w cps) as [rest|] eqn:ES.
  - subst cps. rewrite text_app, app_length. destruct (Nat.ltb_spec (length (text e w) + length (text e rest)) (length (text e w))); [lia|].
    rewrite starts_with_app, skipn_len_app. reflexivity.
  - rewrite H. reflexivity.
Qed.
Lemma match_unit e u cps : scalar u -> encode e u = [u] -> Forall scalar cps ->
  match read_matching_code_unit u (text e cps) with
  | inl it => exists rest, strip [u] cps = Some rest /\ it = text e rest
  | inr _ => strip [u] cps = None
  end.
Proof.
  intros Hu Eu Hs. unfold read_matching_code_unit.
  destruct cps as [|d cps]; [reflexivity|]. inversion Hs as [|? ? Hd Hs']; subst.
  cbn [strip text flat_map]. destruct (encode_lead e d Hd) as (c & tl & E & HL). rewrite E. cbn [app].
  destruct (Z.eqb_spec c u) as [->|N].
  - assert (H1 := encode_next e d (flat_map (encode e) cps) Hd).
    assert (H2 := encode_next e u (tl ++ flat_map (encode e) cps) Hu).
    rewrite Eu in H2. rewrite E in H1. cbn [app] in *. rewrite H1 in H2. injection H2 as E1 E2. subst d.
    rewrite Z.eqb_refl. exists cps. split; [reflexivity|]. symmetry. exact E2.
  - destruct (Z.eqb_spec u d) as [<-|]; [congruence|reflexivity].
Qed.
Lemma ascii_text_enc e w : Forall (fun c => 0 <= c < 128) w -> text e w = w.
Proof.
  induction 1 as [|c w Hc Hw IH]; [reflexivity|]. cbn [text flat_map]. fold (text e w). rewrite IH.
  destruct e; cbn [encode]; [unfold utf8_of; destruct (Z.ltb_spec c 0x80); [|lia]|unfold utf16_of; destruct (Z.ltb_spec c 0x10000); [|lia]|]; reflexivity.
Qed.

Definition txt (e : enc) (x : outcome (bool * list Z)) : outcome (bool * list Z) :=
  '(b, l) <- x ;; Ok (b, text e l).
Lemma numeric_text e cps : Forall scalar cps ->
  bool_numeric (text e cps) = txt e (spelled [(false, [48]); (true, [49])] cps).
Proof.
  intros H. unfold bool_numeric, spelled.
  assert (H0 := match_unit e 48 cps). assert (H1 := match_unit e 49 cps).
  specialize (H0 ltac:(unfold scalar; lia) ltac:(destruct e; reflexivity) H).
  specialize (H1 ltac:(unfold scalar; lia) ltac:(destruct e; reflexivity) H).
  destruct (read_matching_code_unit 48 _) as [it|]; [destruct H0 as (rest & -> & ->); reflexivity|]. rewrite H0.
  destruct (read_matching_code_unit 49 _) as [it|]; [destruct H1 as (rest & -> & ->); reflexivity|]. rewrite H1. reflexivity.
Qed.
Lemma two_text e b1 w1 b2 w2 cps : Forall scalar w1 -> Forall scalar w2 -> Forall scalar cps ->
  match read_matching_string (text e w1) (text e cps) with
  | inl it => Ok (b1, it)
  | inr _ => match read_matching_string (text e w2) (text e cps) with
             | inl it => Ok (b2, it)
             | inr _ => Err InvalidScannedValue
             end
  end = txt e (spelled [(b1, w1); (b2, w2)] cps).
Proof.
  intros H1 H2 H. rewrite !match_text by assumption. unfold spelled.
  destruct (strip w1 cps); [reflexivity|]. destruct (length (text e cps) <? length (text e w1))%nat;
  (destruct (strip w2 cps); [reflexivity|]; destruct (length (text e cps) <? length (text e w2))%nat; reflexivity).
Qed.
Lemma spelled_err l cps b : match spelled l cps with Ok _ => True | Err e => e = InvalidScannedValue | _ => b end.
Proof. induction l as [|[x w] l IH]; cbn [spelled]; [reflexivity|]. destruct (strip w cps); [exact I|exact IH]. Qed.
Lemma spelled_app l1 l2 cps : spelled (l1 ++ l2) cps
  = match spelled l1 cps with Ok x => Ok x | _ => spelled l2 cps end.
Proof. induction l1 as [|[b w] l1 IH]; cbn [app spelled]; [reflexivity|]. destruct (strip w cps); [reflexivity|exact IH]. Qed.

(** With distinct spellings their order does not matter: exactly the text beginning with
    one of them is accepted. *)
Lemma strip_iff w cps rest : strip w cps = Some rest <-> cps = w ++ rest.
Proof.
  revert cps. induction w as [|c w IH]; intros cps; cbn [strip app]; [split; congruence|].
  destruct cps as [|d cps]; [split; discriminate|]. destruct (Z.eqb_spec c d) as [<-|N].
  - rewrite IH. split; congruence.
  - split; [discriminate|]. congruence.
Qed.
Lemma spelled_in l cps b rest : spelled l cps = Ok (b, rest) -> exists w, In (b, w) l /\ cps = w ++ rest.
Proof.
  induction l as [|[x w] l IH]; cbn [spelled]; [discriminate|]. destruct (strip w cps) as [t|] eqn:E.
  - intros [= <- <-]. apply strip_iff in E. exists w. split; [left; reflexivity|exact E].
  - intros H. destruct (IH H) as (w' & Hin & Ew). exists w'. split; [right; exact Hin|exact Ew].
Qed.
Lemma spelled_exact l cps b rest : distinct l ->
  spelled l cps = Ok (b, rest) <-> exists w, In (b, w) l /\ cps = w ++ rest.
Proof.
  intros HD. split; [apply spelled_in|]. intros (w & Hin & ->).
  assert (G : forall m, incl m l -> In (b, w) m -> spelled m (w ++ rest) = Ok (b, rest)).
  { induction m as [|[x v] m IH]; intros Hm Hi; [destruct Hi|]. cbn [spelled].
    destruct (strip v (w ++ rest)) as [t|] eqn:E.
    - assert (EQ : (x, v) = (b, w)) by (apply (HD (x, v) (b, w) rest); [apply Hm; left; reflexivity|exact Hin|cbn [snd]; congruence]).
      injection EQ as -> ->. assert (E2 : strip w (w ++ rest) = Some rest) by (apply strip_iff; reflexivity). congruence.
    - destruct Hi as [Hi|Hi].
      + injection Hi as -> ->. assert (E2 : strip w (w ++ rest) = Some rest) by (apply strip_iff; reflexivity). congruence.
      + apply IH; [|exact Hi]. intros y Hy. apply Hm. right. exact Hy. }
  apply G; [apply incl_refl|exact Hin].
Qed.
Lemma spelled_swap b1 w1 b2 w2 cps : strip w1 w2 = None -> strip w2 w1 = None ->
  spelled [(b1, w1); (b2, w2)] cps = spelled [(b2, w2); (b1, w1)] cps.
Proof.
  intros H1 H2. cbn [spelled]. destruct (strip w1 cps) as [r1|] eqn:E1; destruct (strip w2 cps) as [r2|] eqn:E2; try reflexivity.
  exfalso. apply strip_iff in E1. apply strip_iff in E2. subst cps. revert w2 E2 H1 H2. clear.
  induction w1 as [|c w1 IH]; intros w2 E H1 H2; [discriminate|].
  destruct w2 as [|d w2]; [discriminate|]. cbn [app] in E. injection E as <- E. cbn [strip] in *. rewrite Z.eqb_refl in *.
  eapply IH; eassumption.
Qed.

Lemma either_text e txtl txtm numeric cps yes no : Forall scalar cps ->
  (txtl = true -> txtm (text e cps) = txt e (spelled [(true, yes); (false, no)] cps)) ->
  bool_either txtl numeric txtm (text e cps) = txt e (spelled (spellings txtl numeric yes no) cps).
Proof.
  intros H Ht. unfold bool_either, spellings. rewrite spelled_app. destruct numeric.
  - rewrite numeric_text by exact H.
    assert (HE := spelled_err [(false, [48]); (true, [49])] cps False). fold word_true.
    destruct (spelled [(false, [48]); (true, [49])] cps) as [[b l]|x| |]; try contradiction; [reflexivity|]. subst x. cbn [txt bind].
    destruct txtl; [apply Ht; reflexivity|reflexivity].
  - cbn [spelled]. destruct txtl; [apply Ht; reflexivity|reflexivity].
Qed.
Lemma classic_text e cps : Forall scalar cps ->
  bool_textual_classic (text e cps) = txt e (spelled [(true, word_true); (false, word_false)] cps).
Proof.
  intros H. unfold bool_textual_classic.
  assert (HA : forall w, Forall (fun c => 0 <= c < 128) w -> Forall scalar w).
  { intros w Hw. eapply Forall_impl; [|exact Hw]. intros c Hc. unfold scalar. cbn beta in Hc. lia. }
  assert (H1 : Forall (fun c => 0 <= c < 128) word_true) by (repeat constructor; lia).
  assert (H2 : Forall (fun c => 0 <= c < 128) word_false) by (repeat constructor; lia).
  rewrite <- two_text by auto. rewrite (ascii_text_enc e word_true), (ascii_text_enc e word_false) by assumption. reflexivity.
Qed.
Lemma custom_text e yes no cps : Forall scalar yes -> Forall scalar no -> Forall scalar cps ->
  strip yes no = None -> strip no yes = None ->
  bool_textual_custom (text e yes) (text e no) (text e cps) = txt e (spelled [(true, yes); (false, no)] cps).
Proof.
  intros Hy Hn H H1 H2. unfold bool_textual_custom. destruct (_ <=? _)%nat; cbn [negb].
  - apply two_text; assumption.
  - rewrite two_text by assumption. f_equal. apply spelled_swap; assumption.
Qed.

Lemma spelled_suffix l cps b rest : spelled l cps = Ok (b, rest) -> exists a, cps = a ++ rest.
Proof. intros H. apply spelled_in in H. destruct H as (w & _ & ->). exists w. reflexivity. Qed.

(** ** The value read does not matter to the frame. *)
Lemma arg_read_map {V W} r sp skip (read : src -> list Z -> outcome (V * list Z)) (g : V -> W) s :
  arg_read r sp skip (fun r' v => '(x, it) <- read r' v ;; Ok (g x, it)) s
  = ('(x, it) <- arg_read r sp skip read s ;; Ok (g x, it)).
Proof.
  unfold arg_read. match goal with |- bind ?m _ = bind (bind ?m _) _ => destruct m as [[it w]| | |] end; cbn [bind]; try reflexivity.
  destruct (negb (precision sp =? 0)).
  - destruct (_ <=? _); [reflexivity|]. destruct (take_width _ _ _) as [v| | |]; cbn [bind]; try reflexivity.
    destruct (read _ _) as [[x rest]| | |]; cbn [bind]; try reflexivity.
    destruct (view_count _ _ _ _ _) as [c| | |]; cbn [bind]; try reflexivity.
    destruct (match view_base it v rest with [] => _ | _ => _ end) as [[it2 w2]| | |]; cbn [bind]; try reflexivity.
    destruct (check_widths _ _ _ _); reflexivity.
  - destruct (read _ _) as [[x rest]| | |]; cbn [bind]; try reflexivity.
    destruct (need_width sp).
    + destruct (text_width _ _) as [c| | |]; cbn [bind]; try reflexivity.
      destruct (match rest with [] => _ | _ => _ end) as [[it2 w2]| | |]; cbn [bind]; try reflexivity.
      destruct (check_widths _ _ _ _); reflexivity.
    + cbn [bind]. destruct (match rest with [] => _ | _ => _ end) as [[it2 w2]| | |]; cbn [bind]; try reflexivity.
      destruct (check_widths _ _ _ _); reflexivity.
Qed.
Lemma arg_read_ext {V} r sp skip (f g : src -> list Z -> outcome (V * list Z)) s :
  (forall r' v, f r' v = g r' v) -> arg_read r sp skip f s = arg_read r sp skip g s.
Proof.
  intros H. unfold arg_read. match goal with |- bind ?m _ = bind ?m _ => destruct m as [[it w]| | |] end; cbn [bind]; try reflexivity.
  destruct (negb (precision sp =? 0)).
  - destruct (_ <=? _); [reflexivity|]. destruct (take_width _ _ _) as [v| | |]; cbn [bind]; try reflexivity. rewrite H. reflexivity.
  - rewrite H. reflexivity.
Qed.
Lemma arg_read_cong {V} r sp sp' skip (f : src -> list Z -> outcome (V * list Z)) s :
  fill sp = fill sp' -> align sp = align sp' -> width sp = width sp' -> precision sp = precision sp' ->
  arg_read r sp skip f s = arg_read r sp' skip f s.
Proof.
  intros H1 H2 H3 H4. unfold arg_read, impl_prefix, impl_postfix, check_widths, need_width. rewrite H1, H2, H3, H4. reflexivity.
Qed.

(** ** Code points *)
Lemma decode_valid_agrees e cps cp : decode_cp e cps = Ok cp -> cp < invalid_code_point -> decode_cp_valid e cps = Ok cp.
Proof.
  unfold decode_cp, decode_cp_valid, invalid_code_point. destruct e.
  - unfold decode_utf8, decode_utf8_valid, invalid_code_point.
    destruct cps as [|a [|b [|c [|d [|x l]]]]]; try discriminate; intros H Hc.
    + destruct (Z.leb_spec 0x80 a); [injection H as <-; lia|]. destruct (Z.ltb_spec a 0x80); [exact H|lia].
    + destruct (Z.land a 0xe0 =? 0xc0); cbn [negb andb] in *; [|injection H as <-; lia].
      destruct (is_trailing b); cbn [negb andb] in *; [exact H|injection H as <-; lia].
    + destruct (Z.land a 0xf0 =? 0xe0); cbn [negb andb] in *; [|injection H as <-; lia].
      destruct (is_trailing b); cbn [negb andb orb] in *; [|injection H as <-; lia].
      destruct (is_trailing c); cbn [negb andb orb] in *; [exact H|injection H as <-; lia].
    + destruct (Z.land a 0xf8 =? 0xf0); cbn [negb andb] in *; [|injection H as <-; lia].
      destruct (Z.ltb_spec 0xf4 a); [injection H as <-; lia|]. destruct (Z.leb_spec a 0xf4); [|lia]. cbn [andb].
      destruct (is_trailing b); cbn [negb andb orb] in *; [|injection H as <-; lia].
      destruct (is_trailing c); cbn [negb andb orb] in *; [|injection H as <-; lia].
      destruct (is_trailing d); cbn [negb andb orb] in *; [exact H|injection H as <-; lia].
  - unfold decode_utf16, decode_utf16_valid, invalid_code_point. destruct cps as [|a [|b [|c l]]]; try discriminate; intros H Hc; [exact H|].
    destruct (Z.ltb_spec a 0xd800); cbn [orb] in H; [injection H as <-; lia|].
    destruct (Z.ltb_spec 0xdbff a); cbn [orb] in H; [injection H as <-; lia|].
    destruct (Z.ltb_spec b 0xdc00); cbn [orb] in H; [injection H as <-; lia|].
    destruct (Z.ltb_spec 0xdfff b); cbn [orb] in H; [injection H as <-; lia|].
    destruct (Z.leb_spec 0xd800 a); [|lia]. destruct (Z.leb_spec a 0xdbff); [|lia].
    destruct (Z.leb_spec 0xdc00 b); [|lia]. destruct (Z.leb_spec b 0xdfff); [|lia]. exact H.
  - destruct cps as [|c [|d l]]; try discriminate. intros H Hc. destruct (0x110000 <=? c) eqn:E; [injection H as <-; lia|exact H].
Qed.
Lemma code_point_text e cp l : scalar cp -> code_point_read e (encode e cp ++ l) = Ok (cp, l).
Proof.
  intros H. unfold code_point_read. destruct (read_into_encode e cp l H) as [-> HD]. cbn [bind].
  destruct (encode_lead e cp H) as (c & tl & E & _). rewrite E in *.
  rewrite (decode_valid_agrees e (c :: tl) cp HD); [reflexivity|]. unfold scalar, invalid_code_point in *. lia.
Qed.
Lemma code_points_text e cps : Forall scalar cps ->
  code_point_read e (text e cps) = ('(c, l) <- first_code_point cps ;; Ok (c, text e l)).
Proof.
  destruct 1 as [|c l Hc Hl]; [reflexivity|]. cbn [text flat_map first_code_point bind]. apply code_point_text, Hc.
Qed.
