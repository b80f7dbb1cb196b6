(** The argument readers on well-formed text. *)
From Verif Require Import Prelude UnicodeModel UnicodeSpec UnicodeProofs WhitespaceModel WhitespaceSpec
  WhitespaceProofs ReadModel ReadProofs SpecsModel FormatSpec VscanSpec WidthModel WidthSpec WidthProofs
  ArgReaderModel.
Local Open Scope Z_scope.
Ltac Zify.zify_post_hook ::= Z.div_mod_to_equations.

Lemma lead_after p cps : lead p cps ++ after (lead p cps) cps = cps.
Proof.
  unfold after. induction cps as [|c l IH]; cbn [lead]; [reflexivity|]. destruct (p c); cbn; [|reflexivity].
  f_equal. exact IH.
Qed.
Lemma after_app a b : after a (a ++ b) = b.
Proof. apply skipn_len_app. Qed.
Lemma after_drop p cps : after (lead p cps) cps = drop_until (fun c => negb (p c)) cps.
Proof.
  unfold after. induction cps as [|c l IH]; cbn [lead drop_until]; [reflexivity|].
  destruct (p c); cbn; [exact IH|reflexivity].
Qed.
Lemma lead_ext p q cps : (forall c, p c = q c) -> lead p cps = lead q cps.
Proof. intros H. induction cps as [|c l IH]; cbn; [reflexivity|]. rewrite H, IH. reflexivity. Qed.
Lemma is_ws_space cp : is_ws cp = is_cp_space cp.
Proof.
  destruct (is_cp_space cp) eqn:E.
  - apply is_cp_space_spec in E. unfold is_ws. apply existsb_exists. exists cp. split; [exact E|apply Z.eqb_refl].
  - destruct (is_ws cp) eqn:E2; [|reflexivity]. unfold is_ws in E2. apply existsb_exists in E2.
    destruct E2 as (x & H & Hx). apply Z.eqb_eq in Hx. subst x. apply is_cp_space_spec in H. congruence.
Qed.

(** Decoding the next code point. *)
Lemma read_into_encode e cp rest : scalar cp ->
  read_code_point_into e (encode e cp ++ rest) = Ok (rest, encode e cp)
  /\ decode_cp e (encode e cp) = Ok cp.
Proof.
  intros H. destruct (encode_lead e cp H) as (c & tl & E & HL).
  assert (HN := encode_next e cp rest H). unfold get_next_code_point in HN. unfold read_code_point_into.
  rewrite E in *. cbn [app length] in *. rewrite HL in *.
  rewrite app_length in HN. destruct (Nat.ltb_spec (S (length tl + length rest)) (S (length tl))); [lia|].
  change (c :: tl ++ rest) with ((c :: tl) ++ rest) in *. change (S (length tl)) with (length (c :: tl)) in *.
  rewrite firstn_len_app, skipn_len_app in *. split; [reflexivity|].
  destruct (decode_cp e (c :: tl)); cbn [bind] in HN; congruence.
Qed.
Lemma read_until_text e p cps : Forall scalar cps ->
  read_until_code_point e p (text e cps) = Ok (text e (drop_until p cps)).
Proof.
  intros H. unfold read_until_code_point.
  assert (G : forall fuel, (length (text e cps) <= fuel)%nat ->
     read_until_code_point_loop fuel e p (text e cps) = Ok (text e (drop_until p cps))).
  { induction H as [|cp cps H Hs IH]; intros fuel Hf; [destruct fuel; reflexivity|].
    cbn [text flat_map drop_until] in *. fold (text e cps) in *.
    destruct (encode_lead e cp H) as (c & tl & E & _).
    destruct (read_into_encode e cp (text e cps) H) as [H1 H2].
    rewrite app_length in Hf. rewrite E in *. cbn [length app] in *.
    destruct fuel as [|fuel]; [lia|]. cbn [read_until_code_point_loop]. rewrite H1. cbn [bind]. rewrite H2. cbn [bind].
    destruct (p cp); [cbn [text flat_map]; rewrite E; reflexivity|]. apply IH. lia. }
  apply G. lia.
Qed.

(** Sources in which no code point of the text is cut by a segment boundary: in a narrow source that is not
    contiguous the contiguous beginning ends between two code points, wherever reading starts. *)
Definition whole (r : src) (cps : list Z) : Prop :=
  s_enc r = U8 -> s_contig r = false -> forall a b, cps = a ++ b ->
  exists c d, b = c ++ d /\ firstn (s_seg r (length (text U8 b))) (text U8 b) = text U8 c.
Lemma view_whole r cps : whole (view_src r) cps.
Proof. intros _ _ a b _. exists [], b. split; reflexivity. Qed.
Lemma contig_whole r cps : s_contig r = true -> whole r cps.
Proof. unfold whole. congruence. Qed.
Lemma wide_whole r cps : s_enc r <> U8 -> whole r cps.
Proof. unfold whole. congruence. Qed.
Lemma whole_suffix r a b : whole r (a ++ b) -> whole r b.
Proof. intros H He Hc a' b' ->. apply (H He Hc (a ++ a') b'). apply app_assoc. Qed.
Lemma ascii_whole r cps : Forall (fun c => 0 <= c < 128) cps -> whole r cps.
Proof.
  intros H _ _ a b ->. apply Forall_app in H. destruct H as [_ H].
  assert (E : forall l, Forall (fun c => 0 <= c < 128) l -> text U8 l = l).
  { induction 1 as [|c l Hc _ IH]; [reflexivity|]. cbn [text flat_map encode]. unfold text in IH. rewrite IH.
    unfold utf8_of. replace (c <? 0x80) with true by lia. reflexivity. }
  set (n := s_seg r _). exists (firstn n b), (skipn n b). split; [symmetry; apply firstn_skipn|].
  rewrite !E; [reflexivity| |exact H].
  rewrite <- (firstn_skipn n b) in H. apply Forall_app in H. apply H.
Qed.

Lemma text_utf8 cps : text U8 cps = utf8 cps.
Proof. reflexivity. Qed.
Lemma drop_until_app p c d : drop_until p (c ++ d) = match drop_until p c with [] => drop_until p d | l => l ++ d end.
Proof.
  induction c as [|x c IH]; [reflexivity|]. cbn [app drop_until]. destruct (p x); [reflexivity|exact IH].
Qed.
Lemma drop_until_suffix p c : exists a, c = a ++ drop_until p c.
Proof. induction c as [|x c [a IH]]; cbn [drop_until]; [exists []; reflexivity|]. destruct (p x); [exists []; reflexivity|]. exists (x :: a). cbn [app]. congruence. Qed.
Lemma cut_skip p c d : skipn (length (text U8 c) - length (text U8 (drop_until p c))) (text U8 (c ++ d)) = text U8 (drop_until p c ++ d).
Proof.
  destruct (drop_until_suffix p c) as [a E]. set (l := drop_until p c) in *. clearbody l. subst c.
  rewrite <- app_assoc, !text_app, app_length. replace (_ - _)%nat with (length (text U8 a)) by lia.
  rewrite skipn_app, skipn_all, Nat.sub_diag. reflexivity.
Qed.
Lemma skip_ws_text r cps allow : whole r cps -> Forall scalar cps ->
  skip_classic_whitespace r (text (s_enc r) cps) allow
  = if negb allow && (length (lead is_ws cps) =? length cps)%nat then Err EndOfInput
    else Ok (text (s_enc r) (after (lead is_ws cps) cps)).
Proof.
  intros Hw H. unfold skip_classic_whitespace.
  assert (E : read_while_classic_space r (text (s_enc r) cps)
     = Ok (text (s_enc r) (after (lead is_ws cps) cps))).
  { rewrite (lead_ext is_ws is_cp_space) by exact is_ws_space. rewrite after_drop.
    unfold read_while_classic_space, whole in *. destruct (s_enc r); try (apply read_until_text, H).
    destruct (s_contig r) eqn:EC; [rewrite text_utf8; apply find_classic_nonspace_utf8, H|].
    destruct (Hw eq_refl eq_refl [] cps eq_refl) as (c & d & Ecd & Eseg).
    unfold contiguous_beginning. rewrite EC, Eseg.
    assert (Hcd : Forall scalar c) by (rewrite Ecd in H; apply Forall_app in H; apply H).
    rewrite (text_utf8 c), (find_classic_nonspace_utf8 c Hcd). cbn [bind].
    assert (HSk := cut_skip (fun cp => negb (is_cp_space cp)) c d). rewrite <- Ecd in HSk.
    rewrite (text_utf8 c), (text_utf8 (drop_until _ c)) in HSk.
    destruct (utf8 (drop_until (fun cp => negb (is_cp_space cp)) c)) as [|u t] eqn:ED; [apply read_until_text, H|].
    rewrite HSk. do 2 f_equal. rewrite Ecd, drop_until_app.
    destruct (drop_until _ c); [discriminate|reflexivity]. }
  rewrite E. cbn [bind]. destruct allow; [reflexivity|]. cbn [negb andb].
  assert (HL := f_equal (@length Z) (lead_after is_ws cps)). rewrite app_length in HL.
  destruct (Nat.eqb_spec (length (lead is_ws cps)) (length cps)) as [E1|E1].
  - replace (after (lead is_ws cps) cps) with (@nil Z); [reflexivity|].
    symmetry. apply length_zero_iff_nil. lia.
  - destruct (after (lead is_ws cps) cps) as [|cp l] eqn:EA; [cbn in HL; lia|].
    assert (HS : scalar cp). { rewrite <- (lead_after is_ws cps), EA in H. apply scalars_app in H. destruct H as [_ H]. inversion H; assumption. }
    cbn [text flat_map]. destruct (encode_lead (s_enc r) cp HS) as (c & tl & -> & _). reflexivity.
Qed.

(** The fill character. *)
Definition fill_ok (e : enc) (f : Z) (ft : fill_type) : Prop :=
  scalar f /\ match e with
              | U8 => firstn (f_size ft) (f_data ft) = utf8_of f /\ f_size ft = length (utf8_of f)
              | _ => f < 256 /\ f_size ft = 1%nat /\ firstn 1 (f_data ft) = [f]
              end.

Lemma encode_inj e a b : scalar a -> scalar b -> encode e a = encode e b -> a = b.
Proof.
  intros Ha Hb E. assert (H1 := encode_next e a [] Ha). assert (H2 := encode_next e b [] Hb). rewrite E in H1. congruence.
Qed.
Lemma single_read e f u cps : scalar f -> encode e f = [u] -> Forall scalar cps ->
  read_while_code_unit (fun c => c =? u) (text e cps) = text e (after (lead (Z.eqb f) cps) cps).
Proof.
  intros Hf Eu H. rewrite after_drop. unfold read_while_code_unit, read_until_code_unit.
  induction H as [|cp cps H Hs IH]; [reflexivity|].
  cbn [text flat_map drop_until]. fold (text e cps).
  destruct (encode_lead e cp H) as (c & tl & E & HL). destruct (encode_lead e f Hf) as (u' & tl' & E' & HL').
  destruct (Z.eqb_spec f cp) as [<-|Hne].
  - rewrite Eu. cbn [app find_if negb]. rewrite Z.eqb_refl. exact IH.
  - rewrite E. cbn [app find_if negb].
    destruct (Z.eqb_spec c u) as [->|Hc]; [|cbn [negb text flat_map]; rewrite E; reflexivity].
    exfalso. rewrite Eu in *. injection E' as <- <-. rewrite HL' in HL. cbn [length] in HL. rewrite E in HL.
    destruct tl; [|discriminate]. apply Hne. apply (encode_inj e); congruence.
Qed.

Lemma starts_with_app n s : starts_with n (n ++ s) = true.
Proof. induction n as [|c n IH]; cbn; [reflexivity|]. rewrite Z.eqb_refl, IH. reflexivity. Qed.
Lemma starts_with_inv n s : starts_with n s = true -> exists t, s = n ++ t.
Proof.
  revert s. induction n as [|c n IH]; intros s H; [exists s; reflexivity|].
  destruct s as [|d s]; [discriminate|]. cbn in H. destruct (Z.eqb_spec c d) as [<-|]; [|discriminate].
  destruct (IH s H) as [t ->]. exists t. reflexivity.
Qed.
Lemma multi_read e f cps : scalar f -> Forall scalar cps ->
  read_while_code_units (encode e f) (text e cps) = Ok (text e (after (lead (Z.eqb f) cps) cps)).
Proof.
  intros Hf H. unfold read_while_code_units. rewrite after_drop.
  assert (HP : (1 <= length (encode e f))%nat).
  { destruct (encode_lead e f Hf) as (c & tl & -> & _). cbn; lia. }
  assert (G : forall fuel, (length (text e cps) <= fuel)%nat ->
    read_while_code_units_loop fuel (encode e f) (text e cps) = Ok (text e (drop_until (fun c => negb (f =? c)) cps))).
  { induction H as [|cp cps H Hs IH]; intros fuel Hfu; [destruct fuel; reflexivity|].
    cbn [text flat_map drop_until] in *. fold (text e cps) in *.
    assert (HNE : exists c tl, encode e cp ++ text e cps = c :: tl).
    { destruct (encode_lead e cp H) as (c & tl & -> & _). cbn [app]. eauto. }
    destruct (Z.eqb_spec f cp) as [<-|Hne]; cbn [negb].
    - assert (HS := starts_with_app (encode e f) (text e cps)).
      assert (HK := skipn_len_app (encode e f) (text e cps)).
      assert (HL := app_length (encode e f) (text e cps)).
      destruct HNE as (c & tl & E). rewrite E in *.
      destruct fuel as [|fuel]; [cbn in Hfu; lia|].
      cbn [read_while_code_units_loop]. destruct (Nat.ltb_spec (length (c :: tl)) (length (encode e f))); [lia|].
      rewrite HS, HK. cbn [negb]. apply IH. lia.
    - assert (E : (length (encode e cp ++ text e cps) <? length (encode e f))%nat = true
         \/ starts_with (encode e f) (encode e cp ++ text e cps) = false).
      { destruct (starts_with (encode e f) (encode e cp ++ text e cps)) eqn:ES; [|auto].
        exfalso. apply starts_with_inv in ES. destruct ES as [t ES].
        assert (H1 := encode_next e cp (text e cps) H). assert (H2 := encode_next e f t Hf). rewrite ES in H1. congruence. }
      cbn [text flat_map]. fold (text e cps).
      destruct HNE as (c & tl & EQ). rewrite EQ in *.
      destruct fuel as [|fuel]; [cbn in Hfu; lia|]. cbn [read_while_code_units_loop].
      destruct E as [-> | ->]; [reflexivity|]. destruct (_ <? _)%nat; reflexivity. }
  apply G. lia.
Qed.

(** One reading step of skip_fill. *)
Definition fill_read (e : enc) (ft : fill_type) (v : list Z) : outcome (list Z) :=
  if (f_size ft <=? unit_size e)%nat
  then Ok (read_while_code_unit (fun c => c =? get_code_unit ft) v)
  else match e with U8 => read_while_code_units (get_code_units ft) v | _ => UB end.
Lemma fill_unit e f ft : fill_ok e f ft -> (f_size ft <= unit_size e)%nat ->
  encode e f = [get_code_unit ft] /\ get_code_unit ft = f.
Proof.
  intros [Hf H] Hs. unfold get_code_unit. destruct e; cbn [unit_size encode] in *.
  - destruct H as [H1 H2]. rewrite H1. unfold utf8_of in *. unfold scalar in Hf.
    destruct (f <? 0x80) eqn:E; [cbn; rewrite Z.add_0_r; auto|].
    exfalso. repeat destruct (_ <? _) in H2; cbn in H2; lia.
  - destruct H as (H1 & H2 & H3). rewrite H2, H3. unfold utf16_of. replace (f <? 0x10000) with true by lia. cbn. rewrite Z.add_0_r. auto.
  - destruct H as (H1 & H2 & H3). rewrite H2, H3. cbn. rewrite Z.add_0_r. auto.
Qed.
Lemma fill_read_text e f ft cps : fill_ok e f ft -> Forall scalar cps ->
  fill_read e ft (text e cps) = Ok (text e (after (lead (Z.eqb f) cps) cps)).
Proof.
  intros Hok H. unfold fill_read. destruct (Nat.leb_spec (f_size ft) (unit_size e)) as [Hs|Hs].
  - destruct (fill_unit e f ft Hok Hs) as [E1 _]. f_equal. apply single_read; [apply Hok|exact E1|exact H].
  - destruct Hok as [Hf Hok]. destruct e; cbn [unit_size] in Hs; try lia.
    destruct Hok as [H1 H2]. unfold get_code_units. rewrite H1. change (utf8_of f) with (encode U8 f). apply multi_read; assumption.
Qed.

Lemma lead_repeat f cps : lead (Z.eqb f) cps = repeat f (length (lead (Z.eqb f) cps)).
Proof.
  induction cps as [|c l IH]; cbn [lead]; [reflexivity|]. destruct (Z.eqb_spec f c) as [<-|]; [|reflexivity].
  cbn [length repeat]. f_equal. exact IH.
Qed.
Lemma cols_repeat f n : cols (repeat f n) = col f * Z.of_nat n.
Proof. induction n as [|n IH]; cbn [repeat cols]; lia. Qed.
Lemma text_repeat_len e f n : length (text e (repeat f n)) = (length (encode e f) * n)%nat.
Proof. induction n as [|n IH]; cbn [repeat text flat_map length]; [lia|]. rewrite app_length. fold (text e (repeat f n)). lia. Qed.

Lemma text_drop_len e p cps :
  (length (text e cps) - length (text e (after (lead p cps) cps)) = length (text e (lead p cps)))%nat.
Proof.
  assert (E := f_equal (fun l => length (text e l)) (lead_after p cps)). cbn beta in E.
  rewrite text_app, app_length in E. lia.
Qed.

(** Limits: 0 and negative numbers stand for none. *)
Definition efl (n : Z) (cps : list Z) : list Z := if n <=? 0 then cps else take_cols n cps.
Lemma efl_prefix n cps : exists r, cps = efl n cps ++ r.
Proof. unfold efl. destruct (n <=? 0); [exists []; rewrite app_nil_r; reflexivity|apply take_cols_prefix]. Qed.

Lemma after_prefix p a b : after (lead p a) (a ++ b) = after (lead p a) a ++ b.
Proof.
  unfold after. rewrite skipn_app. f_equal.
  assert (HL := f_equal (@length Z) (lead_after p a)). rewrite app_length in HL.
  replace (length (lead p a) - length a)%nat with O by lia. reflexivity.
Qed.

Lemma skip_fill_text r f ft cps n want : fill_ok (s_enc r) f ft -> Forall scalar cps ->
  let l := lead (Z.eqb f) (efl n cps) in
  skip_fill r (text (s_enc r) cps) n ft want
  = Ok (text (s_enc r) (after l cps), if want then cols l else 0).
Proof.
  intros Hok H l. subst l. unfold skip_fill.
  assert (HF := fun c Hc => fill_read_text (s_enc r) f ft c Hok Hc). unfold fill_read in HF.
  destruct (Z.eqb_spec n 0) as [->|Hn].
  - unfold efl. change (0 <=? 0) with true. cbv iota. rewrite (HF _ H). cbn [bind].
    destruct want; [|reflexivity].
    rewrite text_drop_len. rewrite lead_repeat, text_repeat_len, cols_repeat. set (k := length (lead (Z.eqb f) cps)).
    destruct (Nat.leb_spec (f_size ft) (unit_size (s_enc r))) as [Hs|Hs].
    + destruct (fill_unit _ _ _ Hok Hs) as [E1 E2]. rewrite E1, E2, cp_width_col. cbn [length]. rewrite Nat.mul_1_l. reflexivity.
    + destruct Hok as [Hf Hok]. destruct (s_enc r); cbn [unit_size] in Hs; try lia.
      destruct Hok as [H1 H2]. unfold get_code_units. rewrite H1.
      assert (HW := text_width_text U8 [f]). cbn [text flat_map cols] in HW. rewrite app_nil_r, Z.add_0_r in HW.
      cbn [encode] in HW. rewrite HW by (constructor; [exact Hf|constructor]). cbn [bind encode].
      assert (HL := utf8_of_length_pos f Hf).
      replace (col f * Z.of_nat (length (utf8_of f) * k)) with (col f * Z.of_nat k * Z.of_nat (length (utf8_of f))) by lia.
      rewrite Z.div_mul by lia. reflexivity.
  - rewrite take_width_gen by exact H. cbn [bind].
    assert (EQ : eff n cps = efl n cps) by (unfold eff, efl; destruct (Z.ltb_spec n 0), (Z.leb_spec n 0); reflexivity || lia).
    rewrite EQ. destruct (efl_prefix n cps) as [rest Er]. set (v := efl n cps) in *.
    assert (Hv : Forall scalar v) by (rewrite Er in H; apply scalars_app in H; apply H).
    rewrite (HF _ Hv). cbn [bind].
    assert (HL := lead_after (Z.eqb f) v). set (a := lead (Z.eqb f) v) in *. set (b := after a v) in *.
    assert (Ha : Forall scalar a) by (rewrite <- HL in Hv; apply scalars_app in Hv; apply Hv).
    assert (HC := view_count_text (s_enc r) a b (text (s_enc r) rest) n Ha). rewrite HL in HC.
    assert (HB := view_base_text (s_enc r) a b (text (s_enc r) rest)). rewrite HL in HB.
    rewrite Er, text_app, HC, HB. cbn [bind].
    assert (EA : after a (v ++ rest) = b ++ rest) by (apply after_prefix).
    rewrite EA, text_app. do 2 f_equal. destruct want; [lia|reflexivity].
Qed.

Lemma text_nil_iff e cps : Forall scalar cps -> text e cps = [] -> cps = [].
Proof.
  destruct 1 as [|cp l H _]; [reflexivity|]. cbn [text flat_map].
  destruct (encode_lead e cp H) as (c & tl & -> & _). discriminate.
Qed.
Lemma scalars_lead p cps : Forall scalar cps -> Forall scalar (lead p cps) /\ Forall scalar (after (lead p cps) cps).
Proof. intros H. rewrite <- (lead_after p cps) in H at 1. apply scalars_app, H. Qed.
Lemma firstn_text_lead e p cps :
  firstn (length (text e cps) - length (text e (after (lead p cps) cps))) (text e cps) = text e (lead p cps).
Proof.
  rewrite text_drop_len. rewrite <- (lead_after p cps) at 2. rewrite text_app. apply firstn_len_app.
Qed.

Lemma skip_ws_within_text r cps n allow : 0 <= n -> Forall scalar cps ->
  let v := take_cols n cps in let ws := lead is_ws v in
  skip_ws_within r (text (s_enc r) cps) n allow
  = if negb allow && (length ws =? length v)%nat then Err EndOfInput
    else Ok (text (s_enc r) (after ws cps), cols ws).
Proof.
  intros Hn H v ws. unfold skip_ws_within. rewrite take_width_text by assumption. cbn [bind]. fold v.
  assert (Hv : Forall scalar v) by apply take_cols_scalar, H.
  assert (HW := skip_ws_text (view_src r) v allow (view_whole r _) Hv). cbn [s_enc view_src] in HW. rewrite HW.
  fold ws. destruct (negb allow && _); [reflexivity|]. cbn [bind].
  destruct (take_cols_prefix n cps) as [rest Er]. fold v in Er.
  assert (HL := lead_after is_ws v). fold ws in HL. destruct (scalars_lead is_ws v Hv) as [Ha _]. fold ws in Ha.
  assert (HC := view_count_text (s_enc r) ws (after ws v) (text (s_enc r) rest) n Ha). rewrite HL in HC.
  assert (HB := view_base_text (s_enc r) ws (after ws v) (text (s_enc r) rest)). rewrite HL in HB.
  rewrite Er, text_app, HC, HB. cbn [bind].
  assert (EA : after ws (v ++ rest) = after ws v ++ rest) by (apply after_prefix).
  rewrite EA, text_app. do 2 f_equal. lia.
Qed.
Lemma skip_ws_all_text r cps want allow : whole r cps -> Forall scalar cps ->
  let ws := lead is_ws cps in
  skip_ws_all r (text (s_enc r) cps) want allow
  = if negb allow && (length ws =? length cps)%nat then Err EndOfInput
    else Ok (text (s_enc r) (after ws cps), if want then cols ws else 0).
Proof.
  intros Hw H ws. unfold skip_ws_all. rewrite skip_ws_text by assumption. fold ws.
  destruct (negb allow && _); [reflexivity|]. cbn [bind]. destruct want; [|reflexivity].
  unfold ws. rewrite firstn_text_lead, text_width_text by (apply scalars_lead, H). reflexivity.
Qed.

Lemma lead_prefix p n cps : exists b, cps = lead p (limit n cps) ++ b.
Proof.
  assert (HL : exists q, cps = limit n cps ++ q).
  { destruct n; cbn [limit]; [apply take_cols_prefix|exists []; rewrite app_nil_r; reflexivity]. }
  destruct HL as [q EQ]. exists (after (lead p (limit n cps)) (limit n cps) ++ q). rewrite app_assoc, lead_after. exact EQ.
Qed.
Lemma cols_lead_limit p n cps : 0 <= n -> cols (lead p (limit (Some n) cps)) <= n.
Proof.
  intros Hn. cbn [limit]. pose proof (take_cols_fits n cps Hn) as HF.
  assert (HL := f_equal cols (lead_after p (take_cols n cps))). rewrite cols_app in HL.
  pose proof (cols_nonneg (after (lead p (take_cols n cps)) (take_cols n cps))). lia.
Qed.
Lemma before_prefix al f skip p cps pre : before_value al f p skip cps = Ok pre -> exists b, cps = pre ++ b.
Proof.
  unfold before_value. destruct al.
  - destruct skip; [|intros [= <-]; exists cps; reflexivity].
    destruct (_ =? _)%nat; [discriminate|]. intros [= <-]. apply lead_prefix.
  - intros [= <-]; exists cps; reflexivity.
  - intros [= <-]. apply lead_prefix.
  - intros [= <-]. apply lead_prefix.
Qed.
Lemma after_value_prefix al f skip w p u cps : exists b, cps = after_value al f w p skip u cps ++ b.
Proof.
  unfold after_value. destruct al.
  - destruct (negb skip && _); [apply lead_prefix|exists cps; reflexivity].
  - apply lead_prefix.
  - exists cps; reflexivity.
  - apply lead_prefix.
Qed.
Lemma after_value_fits al f skip w n u cps : 0 <= n - u -> cols (after_value al f w (Some n) skip u cps) <= n - u.
Proof.
  intros H. unfold after_value. cbn [less option_map]. destruct al; try (apply cols_lead_limit; assumption); cbn [cols]; try lia.
  destruct (negb skip && _); [apply cols_lead_limit; assumption|cbn [cols]; lia].
Qed.

(** The limit that the specification works with. *)
Definition prec_of (sp : specs) : option Z := if precision sp =? 0 then None else Some (precision sp).

Section Field.
Context {V : Type}.
Variables (r : src) (sp : specs) (f : Z) (skip : bool).
Variable read : src -> list Z -> outcome (V * list Z).
Variable rc : list Z -> outcome (V * list Z).
Hypothesis Hw : 0 <= width sp.
Hypothesis Hp : 0 <= precision sp.
Hypothesis Hf : align sp <> ANone -> fill_ok (s_enc r) f (fill sp).

Lemma prefix_unlimited cps : precision sp = 0 -> (skip = true -> whole r cps) -> Forall scalar cps ->
  impl_prefix r sp skip (text (s_enc r) cps)
  = (pre <- before_value (align sp) f None skip cps ;;
     Ok (text (s_enc r) (after pre cps), if need_width sp then cols pre else 0)).
Proof.
  intros E Hr H. unfold impl_prefix, before_value. rewrite E. change (negb (0 =? 0)) with false. cbv iota.
  destruct (align sp) eqn:EA; cbn [bind limit].
  - destruct skip; [|cbn [bind]; destruct (need_width sp); reflexivity].
    rewrite skip_ws_all_text by auto. cbn [negb andb]. destruct (_ =? _)%nat; reflexivity.
  - destruct (need_width sp); reflexivity.
  - rewrite (skip_fill_text r f) by (try apply Hf; congruence || assumption). reflexivity.
  - rewrite (skip_fill_text r f) by (try apply Hf; congruence || assumption). reflexivity.
Qed.
Lemma prefix_limited cps : precision sp <> 0 -> Forall scalar cps ->
  (v <- take_width (s_enc r) (text (s_enc r) cps) (precision sp) ;;
   '(rest, w) <- impl_prefix (view_src r) sp skip v ;; Ok (view_base (text (s_enc r) cps) v rest, w))
  = (pre <- before_value (align sp) f (Some (precision sp)) skip cps ;;
     Ok (text (s_enc r) (after pre cps), cols pre)).
Proof.
  intros E H. rewrite take_width_text by assumption. cbn [bind].
  set (P := precision sp) in *. destruct (take_cols_prefix P cps) as [rest Er].
  assert (Hv : Forall scalar (take_cols P cps)) by apply take_cols_scalar, H.
  assert (HI := take_cols_idem P cps Hp). set (v := take_cols P cps) in *.
  assert (EN : need_width sp = true) by (unfold need_width; fold P; destruct (Z.eqb_spec P 0); [contradiction|apply orb_true_r]).
  assert (EP : negb (P =? 0) = true) by (destruct (Z.eqb_spec P 0); [contradiction|reflexivity]).
  assert (HB : forall a, (exists b, v = a ++ b) ->
     view_base (text (s_enc r) cps) (text (s_enc r) v) (text (s_enc r) (after a v)) = text (s_enc r) (after a cps)).
  { intros a [b Eb]. clearbody v. subst v cps. rewrite <- app_assoc, !after_app.
    rewrite app_assoc, text_app, view_base_text, <- text_app. reflexivity. }
  assert (HL : forall p, exists b, v = lead p v ++ b) by (intros p; eexists; symmetry; apply lead_after).
  unfold impl_prefix, before_value. fold P. rewrite EN, EP. cbn [limit]. fold v.
  destruct (align sp) eqn:EA; cbn [bind].
  - destruct skip.
    + assert (HS := skip_ws_within_text (view_src r) v P false Hp Hv). cbn [s_enc view_src negb andb] in HS.
      rewrite HS. clear HS. rewrite HI. destruct (_ =? _)%nat; [reflexivity|]. cbn [bind]. rewrite HB by apply HL. reflexivity.
    + cbn [bind]. change v with (after [] v) at 2. rewrite HB by (exists v; reflexivity). reflexivity.
  - change v with (after [] v) at 2. rewrite HB by (exists v; reflexivity). reflexivity.
  - assert (HS := skip_fill_text (view_src r) f (fill sp) v P true). cbn [s_enc view_src] in HS.
    rewrite HS by (try apply Hf; congruence || assumption). cbn [bind].
    unfold efl. destruct (Z.leb_spec P 0); [lia|]. rewrite HI. rewrite HB by apply HL. reflexivity.
  - assert (HS := skip_fill_text (view_src r) f (fill sp) v P true). cbn [s_enc view_src] in HS.
    rewrite HS by (try apply Hf; congruence || assumption). cbn [bind].
    unfold efl. destruct (Z.leb_spec P 0); [lia|]. rewrite HI. rewrite HB by apply HL. reflexivity.
Qed.

Definition nonneg (x : Z) : Prop := 0 <= x.
Lemma postfix_text cps pre val : (precision sp = 0 -> width sp <> 0 -> whole r cps) -> Forall scalar cps ->
  (precision sp <> 0 -> pre + val <= precision sp) -> 0 <= pre -> 0 <= val ->
  let shown x := if need_width sp then x else 0 in
  let post := after_value (align sp) f (width sp) (prec_of sp) skip (pre + val) cps in
  impl_postfix r sp skip (shown pre) (shown val) (text (s_enc r) cps)
  = Ok (text (s_enc r) (after post cps), shown (cols post)).
Proof.
  intros Hr H HP H1 H2 shown post. unfold impl_postfix, post, after_value, prec_of, shown.
  destruct (Z.eqb_spec (precision sp) 0) as [E|E]; cbn [negb andb].
  - unfold need_width. rewrite E. change (0 =? 0) with true. cbn [negb]. rewrite !orb_false_r.
    destruct (align sp) eqn:EA; cbn [less option_map limit].
    + destruct skip; cbn [negb andb]; [cbn [cols]; destruct (width sp =? 0); reflexivity|].
      destruct (Z.eqb_spec (width sp) 0) as [->|EW]; cbn [negb andb orb].
      * replace (pre + val <? 0) with false by lia. reflexivity.
      * destruct (pre + val <? width sp); [|reflexivity].
        rewrite skip_ws_all_text by auto. reflexivity.
    + rewrite (skip_fill_text r f) by (try apply Hf; congruence || assumption).
      unfold efl. idtac. match goal with |- context [?a <=? 0] => assert (EL : (a <=? 0) = true) by (apply Z.leb_le; destruct (width sp =? 0); cbn [negb orb]; lia); rewrite EL end. reflexivity.
    + destruct (width sp =? 0); reflexivity.
    + rewrite (skip_fill_text r f) by (try apply Hf; congruence || assumption).
      unfold efl. idtac. match goal with |- context [?a <=? 0] => assert (EL : (a <=? 0) = true) by (apply Z.leb_le; destruct (width sp =? 0); cbn [negb orb]; lia); rewrite EL end. reflexivity.
  - assert (EN : need_width sp = true) by (unfold need_width; destruct (Z.eqb_spec (precision sp) 0); [contradiction|apply orb_true_r]).
    rewrite EN. specialize (HP E). cbn [less option_map limit].
    assert (HZ : forall l, take_cols 0 l = []) by (intros [|c l]; cbn; [reflexivity|]; pose proof (col_pos c); replace (col c <=? 0) with false by lia; reflexivity).
    destruct (align sp) eqn:EA.
    + destruct skip; cbn [negb andb]; [reflexivity|].
      assert (EC : (negb (width sp =? 0) && (pre + val <? width sp) || (pre + val <? precision sp))
                   = ((pre + val <? width sp) || (pre + val <? precision sp))).
      { destruct (Z.eqb_spec (width sp) 0) as [->|]; cbn [negb andb]; [|reflexivity]. replace (pre + val <? 0) with false by lia. reflexivity. }
      rewrite EC. clear EC. destruct (_ || _); [|reflexivity].
      rewrite skip_ws_within_text by (lia || assumption). cbv zeta. cbn [negb andb].
      replace (precision sp - (pre + val)) with (precision sp - pre - val) by lia. reflexivity.
    + replace (precision sp - val - pre) with (precision sp - (pre + val)) by lia.
      destruct (Z.eqb_spec (precision sp - (pre + val)) 0) as [E0|E0]; [rewrite E0, HZ; reflexivity|].
      rewrite (skip_fill_text r f) by (try apply Hf; congruence || assumption).
      unfold efl. destruct (Z.leb_spec (precision sp - (pre + val)) 0); [lia|]. reflexivity.
    + reflexivity.
    + replace (precision sp - val - pre) with (precision sp - (pre + val)) by lia.
      destruct (Z.eqb_spec (precision sp - (pre + val)) 0) as [E0|E0]; [rewrite E0, HZ; reflexivity|].
      rewrite (skip_fill_text r f) by (try apply Hf; congruence || assumption).
      unfold efl. destruct (Z.leb_spec (precision sp - (pre + val)) 0); [lia|]. reflexivity.
Qed.

Let r' := if precision sp =? 0 then r else view_src r.
(** [read] need only be known on the parts of the text. *)
Definition within (ds cps : list Z) : Prop := exists a b, cps = a ++ ds ++ b.
Theorem arg_read_field_in cps :
  (forall ds, within ds cps -> (precision sp = 0 -> skip = true \/ width sp <> 0 -> whole r ds) -> Forall scalar ds ->
    read r' (text (s_enc r) ds) = ('(x, l) <- rc ds ;; Ok (x, text (s_enc r) l))) ->
  (forall ds x l, within ds cps -> rc ds = Ok (x, l) -> exists a, ds = a ++ l) ->
  (precision sp = 0 -> skip = true \/ width sp <> 0 -> whole r cps) -> Forall scalar cps ->
  arg_read r sp skip read (text (s_enc r) cps)
  = ('(x, l) <- field (align sp) f (width sp) (prec_of sp) skip rc cps ;; Ok (x, text (s_enc r) l)).
Proof.
  intros Hread Hsfx Hr H. unfold arg_read, field.
  set (pfx := if negb (precision sp =? 0) then _ else impl_prefix r sp skip _).
  assert (E1 : pfx = (pre <- before_value (align sp) f (prec_of sp) skip cps ;;
     Ok (text (s_enc r) (after pre cps), if need_width sp then cols pre else 0))).
  { unfold pfx, prec_of. destruct (Z.eqb_spec (precision sp) 0) as [E|E]; cbn [negb].
    - apply prefix_unlimited; auto.
    - rewrite prefix_limited by assumption. unfold need_width. destruct (Z.eqb_spec (precision sp) 0); [contradiction|].
      cbn [negb]. rewrite orb_true_r. reflexivity. }
  rewrite E1. clear E1 pfx.
  destruct (before_value _ _ _ _ _) as [pre|x| |] eqn:EB; cbn [bind]; try reflexivity.
  destruct (before_prefix _ _ _ _ _ _ EB) as [b Eb].
  assert (Hb : Forall scalar b) by (rewrite Eb in H; apply scalars_app in H; apply H).
  assert (EAft : after pre cps = b) by (rewrite Eb; apply after_app). rewrite EAft.
  pose proof (cols_nonneg pre) as Hpre.
  unfold prec_of in *. destruct (Z.eqb_spec (precision sp) 0) as [E|E]; cbn [negb less option_map limit].
  - unfold r' in Hread. specialize (Hr E). assert (Hrb : skip = true \/ width sp <> 0 -> whole r b) by (intros HQ; specialize (Hr HQ); rewrite Eb in Hr; exact (whole_suffix r pre b Hr)). assert (Wb : within b cps) by (exists pre, []; rewrite app_nil_r; exact Eb). rewrite (Hread b Wb (fun _ => Hrb) Hb). destruct (rc b) as [[x l]|x| |] eqn:ER; cbn [bind]; try reflexivity.
    destruct (Hsfx _ _ _ Wb ER) as [a Ea].
    assert (Ha : Forall scalar a /\ Forall scalar l) by (rewrite Ea in Hb; apply scalars_app in Hb; apply Hb).
    destruct Ha as [Ha Hl].
    assert (EF : firstn (length b - length l) b = a).
    { rewrite Ea, app_length. replace (_ - _)%nat with (length a) by lia. apply firstn_len_app. }
    assert (EFT : firstn (length (text (s_enc r) b) - length (text (s_enc r) l)) (text (s_enc r) b) = text (s_enc r) a).
    { rewrite Ea, text_app, app_length. replace (_ - _)%nat with (length (text (s_enc r) a)) by lia. apply firstn_len_app. }
    rewrite EF, EFT. assert (EA2 : after a b = l) by (rewrite Ea; apply after_app). rewrite EA2.
    rewrite text_width_text by exact Ha. cbn [bind].
    set (shown := fun x => if need_width sp then x else 0).
    replace (if need_width sp then Ok (x, text (s_enc r) l, cols a) else Ok (x, text (s_enc r) l, 0))
      with (Ok (x, text (s_enc r) l, shown (cols a))) by (unfold shown; destruct (need_width sp); reflexivity).
    cbn [bind].
    assert (EPO : (match text (s_enc r) l with
       | [] => Ok (text (s_enc r) l, 0)
       | _ :: _ => impl_postfix r sp skip (if need_width sp then cols pre else 0) (shown (cols a)) (text (s_enc r) l)
       end) = let post := after_value (align sp) f (width sp) None skip (cols pre + cols a) l in
              Ok (text (s_enc r) (after post l), shown (cols post))).
    { assert (Hrl : width sp <> 0 -> whole r l) by (intros HQ; specialize (Hrb (or_intror HQ)); rewrite Ea in Hrb; exact (whole_suffix r a l Hrb)).
      assert (HP := postfix_text l (cols pre) (cols a) (fun _ => Hrl) Hl). unfold prec_of in HP. rewrite E in HP.
      change (0 =? 0) with true in HP. cbv zeta iota in HP. fold (shown (cols a)) in HP.
      destruct (text (s_enc r) l) as [|c t] eqn:ET.
      - apply text_nil_iff in ET; [|exact Hl]. subst l. cbv zeta.
        assert (EN : after_value (align sp) f (width sp) None skip (cols pre + cols a) [] = []).
        { destruct (after_value_prefix (align sp) f skip (width sp) None (cols pre + cols a) []) as [q Eq]. symmetry in Eq. apply app_eq_nil in Eq. apply Eq. }
        rewrite EN. unfold shown. destruct (need_width sp); reflexivity.
      - apply HP; auto using cols_nonneg. lia. }
    rewrite EPO. cbv zeta. cbn [bind].
    set (post := after_value _ _ _ _ _ _ _).
    unfold check_widths. rewrite E. change (negb (0 =? 0)) with false. cbn [andb].
    assert (EW : (negb (width sp =? 0) && ((if need_width sp then cols pre else 0) + shown (cols a) + shown (cols post) <? width sp))
       = (cols pre + cols a + cols post <? width sp)).
    { unfold shown, need_width. rewrite E. change (negb (0 =? 0)) with false. rewrite orb_false_r.
      pose proof (cols_nonneg a). pose proof (cols_nonneg post).
      destruct (Z.eqb_spec (width sp) 0) as [->|]; cbn [negb andb]; [|reflexivity].
      symmetry. apply Z.ltb_ge. lia. }
    rewrite EW. clear EW. destruct (_ <? _); reflexivity.
  - assert (EN : need_width sp = true) by (unfold need_width; destruct (Z.eqb_spec (precision sp) 0); [contradiction|apply orb_true_r]).
    rewrite EN. destruct (Z.leb_spec (precision sp) (cols pre)) as [HLE|HLT]; [reflexivity|].
    set (n := precision sp - cols pre) in *. assert (Hn : 0 <= n) by lia.
    rewrite take_width_text by assumption. cbn [bind]. destruct (take_cols_prefix n b) as [rest Er].
    assert (Hfit := take_cols_fits n b Hn). assert (Hv : Forall scalar (take_cols n b)) by apply take_cols_scalar, Hb.
    set (v := take_cols n b) in *.
    unfold r' in Hread. assert (Wv : within v cps) by (exists pre, rest; rewrite <- Er; exact Eb). rewrite (Hread v Wv (fun E0 => False_ind _ (E E0)) Hv). destruct (rc v) as [[x l]|x| |] eqn:ER; cbn [bind]; try reflexivity.
    destruct (Hsfx _ _ _ Wv ER) as [a Ea].
    assert (Ha : Forall scalar a /\ Forall scalar l) by (rewrite Ea in Hv; apply scalars_app in Hv; apply Hv).
    destruct Ha as [Ha Hl].
    assert (EF : firstn (length v - length l) v = a).
    { rewrite Ea, app_length. replace (_ - _)%nat with (length a) by lia. apply firstn_len_app. }
    rewrite EF.
    assert (EA2 : after a b = l ++ rest) by (rewrite Er, Ea, <- app_assoc; apply after_app). rewrite EA2.
    assert (Hlr : Forall scalar (l ++ rest)).
    { apply scalars_app. split; [exact Hl|]. rewrite Er in Hb. apply scalars_app in Hb. apply Hb. }
    assert (HC : view_count (s_enc r) (text (s_enc r) b) (text (s_enc r) v) (text (s_enc r) l) n = Ok (n - cols a)).
    { rewrite Er, text_app, Ea. apply view_count_text, Ha. }
    assert (HB : view_base (text (s_enc r) b) (text (s_enc r) v) (text (s_enc r) l) = text (s_enc r) (l ++ rest)).
    { rewrite Er, (text_app _ v rest), Ea, view_base_text, <- text_app. reflexivity. }
    rewrite HC, HB. cbn [bind]. replace (n - (n - cols a)) with (cols a) by lia.
    assert (Hfa : cols a <= n) by (rewrite Ea, cols_app in Hfit; pose proof (cols_nonneg l); lia).
    pose proof (cols_nonneg a) as Hca.
    assert (EPO : (match text (s_enc r) (l ++ rest) with
       | [] => Ok (text (s_enc r) (l ++ rest), 0)
       | _ :: _ => impl_postfix r sp skip (cols pre) (cols a) (text (s_enc r) (l ++ rest))
       end) = let post := after_value (align sp) f (width sp) (Some (precision sp)) skip (cols pre + cols a) (l ++ rest) in
              Ok (text (s_enc r) (after post (l ++ rest)), cols post)).
    { assert (HP := postfix_text (l ++ rest) (cols pre) (cols a) (fun E0 => False_ind _ (E E0)) Hlr). unfold prec_of in HP. rewrite EN in HP.
      destruct (Z.eqb_spec (precision sp) 0) in HP; [contradiction|]. cbv zeta iota in HP.
      destruct (text (s_enc r) (l ++ rest)) as [|c t] eqn:ET.
      - apply text_nil_iff in ET; [|exact Hlr]. rewrite ET. cbv zeta.
        assert (EN0 : after_value (align sp) f (width sp) (Some (precision sp)) skip (cols pre + cols a) [] = []).
        { destruct (after_value_prefix (align sp) f skip (width sp) (Some (precision sp)) (cols pre + cols a) []) as [q Eq]. symmetry in Eq. apply app_eq_nil in Eq. apply Eq. }
        rewrite EN0. reflexivity.
      - apply HP; auto. intros _. lia. }
    rewrite EPO. cbv zeta. cbn [bind]. set (post := after_value _ _ _ _ _ _ _).
    assert (Hpost : cols post <= precision sp - (cols pre + cols a)) by (apply after_value_fits; lia).
    unfold check_widths. destruct (Z.eqb_spec (precision sp) 0); [contradiction|]. cbn [negb andb].
    destruct (Z.ltb_spec (precision sp) (cols pre + cols a + cols post)); [lia|].
    assert (EW : (negb (width sp =? 0) && (cols pre + cols a + cols post <? width sp)) = (cols pre + cols a + cols post <? width sp)).
    { pose proof (cols_nonneg post). destruct (Z.eqb_spec (width sp) 0) as [->|]; cbn [negb andb]; [|reflexivity]. symmetry. apply Z.ltb_ge. lia. }
    rewrite EW. clear EW. destruct (_ <? width sp); reflexivity.
Qed.
Hypothesis Hread : forall ds, (precision sp = 0 -> skip = true \/ width sp <> 0 -> whole r ds) -> Forall scalar ds ->
  read r' (text (s_enc r) ds) = ('(x, l) <- rc ds ;; Ok (x, text (s_enc r) l)).
Hypothesis Hsfx : forall ds x l, rc ds = Ok (x, l) -> exists a, ds = a ++ l.
Theorem arg_read_field cps : (precision sp = 0 -> skip = true \/ width sp <> 0 -> whole r cps) -> Forall scalar cps ->
  arg_read r sp skip read (text (s_enc r) cps)
  = ('(x, l) <- field (align sp) f (width sp) (prec_of sp) skip rc cps ;; Ok (x, text (s_enc r) l)).
Proof. apply arg_read_field_in; eauto. Qed.
End Field.

(** ** Readers of encoded text as readers of code points *)
Lemma cut_app e a l : Forall scalar a -> cut e (length (text e l)) (a ++ l) = l.
Proof.
  induction 1 as [|c a Hc _ IH]; cbn [app].
  - destruct l as [|d l]; cbn [cut]; [reflexivity|]. rewrite Nat.leb_refl. reflexivity.
  - cbn [cut]. destruct (encode_lead e c Hc) as (u & tl & E & _).
    destruct (Nat.leb_spec (length (text e (c :: a ++ l))) (length (text e l))) as [H|_]; [|exact IH].
    exfalso. change (c :: a ++ l) with ([c] ++ a ++ l) in H. rewrite !text_app in H.
    cbn [text flat_map] in H. rewrite E in H. rewrite !app_length in H. cbn in H. lia.
Qed.
Lemma on_text_read {V} e (read : list Z -> outcome (V * list Z)) ds :
  whole_code_points e read -> Forall scalar ds ->
  read (text e ds) = ('(x, l) <- on_text e read ds ;; Ok (x, text e l)).
Proof.
  intros H Hds. unfold on_text. destruct (read (text e ds)) as [[x rest]|x| |] eqn:E; cbn [bind]; try reflexivity.
  destruct (H ds x rest Hds E) as (a & l & -> & ->). apply scalars_app in Hds.
  rewrite cut_app by apply Hds. reflexivity.
Qed.
Lemma cut_suffix e n ds : exists a, ds = a ++ cut e n ds.
Proof.
  induction ds as [|d ds [a IH]]; cbn [cut].
  - destruct (_ <=? n)%nat; exists []; reflexivity.
  - destruct (_ <=? n)%nat; [exists []; reflexivity|]. exists (d :: a). cbn [app]. rewrite <- IH. reflexivity.
Qed.
Lemma on_text_suffix {V} e (read : list Z -> outcome (V * list Z)) ds x l :
  on_text e read ds = Ok (x, l) -> exists a, ds = a ++ l.
Proof.
  unfold on_text. destruct (read (text e ds)) as [[y rest]|y| |]; cbn [bind]; try discriminate.
  intros [= _ <-]. apply cut_suffix.
Qed.

(** ** A limited field only sees the text inside the limit *)
Lemma field_suffix_in {V} al f w p skip (rc : list Z -> outcome (V * list Z)) cps x l :
  (forall ds y m, within ds cps -> rc ds = Ok (y, m) -> exists a, ds = a ++ m) ->
  field al f w p skip rc cps = Ok (x, l) ->
  exists a, cps = a ++ l /\ w <= cols a /\ match p with Some n => 0 <= n -> cols a <= n | None => True end.
Proof.
  intros Hrc. unfold field.
  destruct (before_value al f p skip cps) as [pre|y| |] eqn:EB; cbn [bind]; try discriminate.
  destruct (before_prefix al f skip p cps pre EB) as [b Eb].
  destruct (match p with Some n => _ | None => false end) eqn:EP; [discriminate|].
  assert (EAft : after pre cps = b) by (rewrite Eb; apply after_app). rewrite EAft. clear EAft.
  assert (HL : exists q, b = limit (less p (cols pre)) b ++ q).
  { destruct p; cbn [less option_map limit]; [apply take_cols_prefix|exists []; rewrite app_nil_r; reflexivity]. }
  destruct HL as [q Eq]. set (lim := limit (less p (cols pre)) b) in *.
  destruct (rc lim) as [[y rem]|y| |] eqn:ER; cbn [bind]; try discriminate.
  destruct (Hrc _ _ _ (ex_intro _ pre (ex_intro _ q (eq_trans Eb (f_equal (app pre) Eq)))) ER) as [a Ea].
  assert (EF : firstn (length lim - length rem) lim = a).
  { rewrite Ea, app_length. replace (_ - _)%nat with (length a) by lia. apply firstn_len_app. }
  rewrite EF. assert (EA : after a b = rem ++ q) by (rewrite Eq, Ea, <- app_assoc; apply after_app). rewrite EA.
  destruct (after_value_prefix al f skip w p
              (cols pre + cols a) (rem ++ q)) as [t Et]. 
  set (post := after_value al f w p skip (cols pre + cols a) (rem ++ q)) in *.
  destruct (Z.ltb_spec (cols pre + cols a + cols post) w) as [|HW]; [discriminate|].
  intros [= <- <-]. exists (pre ++ a ++ post).
  split; [|split].
  - rewrite Eb, <- !app_assoc. f_equal. rewrite Eq, Ea, <- app_assoc. f_equal. rewrite Et at 1. f_equal. rewrite Et, after_app. reflexivity.
  - rewrite !cols_app. lia.
  - destruct p as [n|]; [|exact I]. intros Hn. rewrite !cols_app.
    cbn [less option_map limit] in lim. assert (HF := take_cols_fits (n - cols pre) b). fold lim in HF.
    assert (HF' : cols lim <= n - cols pre) by (apply HF; lia).
    rewrite Ea, cols_app in HF'. pose proof (cols_nonneg rem).
    assert (HP := after_value_fits al f skip w n (cols pre + cols a) (rem ++ q)).
    fold post in HP. lia.
Qed.
Lemma field_suffix {V} al f w p skip (rc : list Z -> outcome (V * list Z)) cps x l :
  (forall ds y m, rc ds = Ok (y, m) -> exists a, ds = a ++ m) ->
  field al f w p skip rc cps = Ok (x, l) ->
  exists a, cps = a ++ l /\ w <= cols a /\ match p with Some n => 0 <= n -> cols a <= n | None => True end.
Proof. intros H. apply field_suffix_in. intros ds y m _. apply H. Qed.

Lemma take_cols_pre n a b : cols a <= n -> take_cols n (a ++ b) = a ++ take_cols (n - cols a) b.
Proof. apply take_cols_app. Qed.

Lemma field_limited {V} al f w n skip (rc : list Z -> outcome (V * list Z)) v q : 0 <= n ->
  (forall ds y m, rc ds = Ok (y, m) -> exists a, ds = a ++ m) ->
  take_cols n (v ++ q) = v ->
  field al f w (Some n) skip rc (v ++ q)
  = ('(x, l) <- field al f w (Some n) skip rc v ;; Ok (x, l ++ q)).
Proof.
  intros Hn Hrc Hv.
  assert (HC : cols v <= n) by (rewrite <- Hv; apply take_cols_fits, Hn).
  assert (Hvv : take_cols n v = v) by (apply take_cols_all, HC).
  assert (HT : forall a b, v = a ++ b -> take_cols (n - cols a) (b ++ q) = b /\ take_cols (n - cols a) b = b).
  { intros a b E. rewrite E, cols_app in HC. pose proof (cols_nonneg b).
    split; [|apply take_cols_all; lia]. rewrite E, <- app_assoc, take_cols_app in Hv by lia.
    apply app_inv_head in Hv. exact Hv. }
  unfold field.
  assert (EB : before_value al f (Some n) skip (v ++ q) = before_value al f (Some n) skip v).
  { unfold before_value. cbn [limit]. rewrite Hv, Hvv. reflexivity. }
  rewrite EB. destruct (before_value al f (Some n) skip v) as [pre|y| |] eqn:EB'; cbn [bind]; try reflexivity.
  destruct (before_prefix al f skip (Some n) v pre EB') as [b Eb].
  destruct (n <=? cols pre); [reflexivity|].
  cbn [less option_map limit]. rewrite Eb, <- app_assoc, !after_app.
  destruct (HT pre b Eb) as [HT1 HT2]. rewrite HT1, HT2.
  destruct (rc b) as [[y rem]|y| |] eqn:ER; cbn [bind]; try reflexivity.
  destruct (Hrc _ _ _ ER) as [a Ea].
  assert (EF : firstn (length b - length rem) b = a).
  { rewrite Ea, app_length. replace (_ - _)%nat with (length a) by lia. apply firstn_len_app. }
  rewrite EF. rewrite Ea, <- app_assoc, !after_app.
  assert (E2 : v = (pre ++ a) ++ rem) by (rewrite <- app_assoc, <- Ea; exact Eb).
  destruct (HT _ _ E2) as [HT3 HT4]. rewrite cols_app in HT3, HT4.
  assert (EV : after_value al f w (Some n) skip (cols pre + cols a) (rem ++ q)
               = after_value al f w (Some n) skip (cols pre + cols a) rem).
  { unfold after_value. cbn [less option_map limit]. rewrite HT3, HT4. reflexivity. }
  rewrite EV.
  destruct (after_value_prefix al f skip w (Some n)
              (cols pre + cols a) rem) as [t Et]. 
  set (post := after_value al f w (Some n) skip (cols pre + cols a) rem) in *.
  destruct (_ <? w); [reflexivity|]. cbn [bind].
  rewrite Et, <- app_assoc, !after_app. reflexivity.
Qed.
