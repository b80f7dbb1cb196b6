(** The string readers on well-formed text. *)
From Verif Require Import Prelude BitsModel UnicodeModel UnicodeSpec UnicodeProofs WhitespaceModel
  WhitespaceSpec WhitespaceProofs ReadModel SpecsModel FormatModel FormatSpec FormatSpecProofs IntModel
  VscanSpec WidthModel WidthSpec WidthProofs ArgReaderModel ArgReaderProofs StringModel StringSpec.
Local Open Scope Z_scope.
Ltac Zify.zify_post_hook ::= Z.div_mod_to_equations.

(** * Encoded text *)
Lemma encode_units e cp : e <> U16 -> scalar cp ->
  (cp < 128 /\ encode e cp = [cp]) \/ (128 <= cp /\ Forall (fun u => 128 <= u) (encode e cp)).
Proof.
  intros He H. unfold scalar in H. destruct e; [|congruence|].
  - cbn [encode]. unfold utf8_of. destruct (cp <? 0x80) eqn:E1; [left; split; [lia|reflexivity]|right].
    split; [lia|]. destruct (cp <? 0x800) eqn:E2; [|destruct (cp <? 0x10000) eqn:E3]; repeat constructor; lia.
  - cbn [encode]. destruct (Z.ltb_spec cp 128); [left; auto|right]. split; [lia|]. repeat constructor. lia.
Qed.
Lemma find_if_app_none p a b : Forall (fun c => p c = false) a -> find_if p (a ++ b) = find_if p b.
Proof. induction 1 as [|c a H _ IH]; cbn [app find_if]; [reflexivity|]. rewrite H. exact IH. Qed.

(** A predicate on units that singles out ASCII ones. *)
Lemma until_unit_text e p cps : e <> U16 -> (forall u, 128 <= u -> p u = false) -> Forall scalar cps ->
  read_until_code_unit p (text e cps) = text e (drop_until p cps).
Proof.
  intros He Hp. unfold read_until_code_unit. induction 1 as [|cp cps H Hs IH]; [reflexivity|].
  cbn [text flat_map drop_until]. fold (text e cps).
  destruct (encode_units e cp He H) as [[H1 E]|[H1 E]].
  - rewrite E. cbn [app find_if]. destruct (p cp) eqn:EP; [|exact IH].
    cbn [text flat_map]. rewrite E. reflexivity.
  - rewrite (Hp cp H1). rewrite find_if_app_none; [exact IH|].
    eapply Forall_impl; [|exact E]. exact Hp.
Qed.
Lemma while_unit_text e p cps : e <> U16 -> (forall u, 128 <= u -> p u = false) -> Forall scalar cps ->
  read_while_code_unit p (text e cps) = text e (after (lead p cps) cps).
Proof.
  intros He Hp H. rewrite after_drop. unfold read_while_code_unit, read_until_code_unit.
  induction H as [|cp cps H Hs IH]; [reflexivity|].
  cbn [text flat_map drop_until]. fold (text e cps).
  destruct (encode_units e cp He H) as [[H1 E]|[H1 E]].
  - rewrite E. cbn [app find_if]. destruct (negb (p cp)) eqn:EP; [|exact IH].
    cbn [text flat_map]. rewrite E. reflexivity.
  - rewrite (Hp cp H1). cbn [negb text flat_map]. destruct (encode_lead e cp H) as (c & tl & E' & _). rewrite E' in *.
    inversion E as [|? ? Hc]; subst. cbn [app find_if]. rewrite (Hp c Hc). reflexivity.
Qed.
(** A single unit, and several. *)
Lemma until_single e f cps : e <> U16 -> scalar f -> encode e f = [f] -> Forall scalar cps ->
  read_until_code_unit (fun c => c =? f) (text e cps) = text e (drop_until (fun c => c =? f) cps).
Proof.
  intros He Hf E H. destruct e; [|congruence|].
  - apply until_unit_text; [discriminate| |exact H]. intros u Hu.
    destruct (encode_units U8 f He Hf) as [[H1 _]|[H1 E1]]; [lia|].
    exfalso. unfold scalar in Hf. cbn [encode] in E. unfold utf8_of in E. destruct (f <? 0x80) eqn:E2; [lia|].
    destruct (f <? 0x800); [discriminate|]. destruct (f <? 0x10000); discriminate.
  - unfold read_until_code_unit. induction H as [|cp cps H Hs IH]; [reflexivity|].
    cbn [text flat_map encode app find_if drop_until] in *. destruct (cp =? f); [|exact IH]. reflexivity.
Qed.
Lemma until_units_skip needle a b : needle <> [] -> Forall (fun u => hd 0 needle <> u) a ->
  read_until_code_units needle (a ++ b) = read_until_code_units needle b.
Proof.
  intros Hn. induction 1 as [|u a H _ IH]; cbn [app read_until_code_units]; [reflexivity|].
  destruct needle as [|n needle]; [congruence|]. cbn [starts_with hd] in *.
  destruct (Z.eqb_spec n u); [congruence|]. cbn [andb]. exact IH.
Qed.
Lemma utf8_tail cp : scalar cp -> Forall (fun u => 128 <= u < 192) (tl (utf8_of cp)).
Proof.
  intros H. unfold scalar in H. unfold utf8_of.
  destruct (cp <? 0x80); [constructor|]. destruct (cp <? 0x800); [cbn [tl]; repeat constructor; lia|].
  destruct (cp <? 0x10000); cbn [tl]; repeat constructor; lia.
Qed.
Lemma utf8_head cp : scalar cp -> hd 0 (utf8_of cp) < 128 \/ 192 <= hd 0 (utf8_of cp).
Proof.
  intros H. unfold scalar in H. unfold utf8_of.
  destruct (cp <? 0x80) eqn:E; [cbn [hd]; lia|]. destruct (cp <? 0x800) eqn:E1; [cbn [hd]; lia|].
  destruct (cp <? 0x10000) eqn:E2; cbn [hd]; lia.
Qed.
Lemma until_units_text f cps : scalar f -> Forall scalar cps ->
  read_until_code_units (utf8_of f) (text U8 cps) = text U8 (drop_until (fun c => c =? f) cps).
Proof.
  intros Hf. assert (Hn : utf8_of f <> []).
  { destruct (utf8_of_lead f Hf) as (a & t & -> & _). discriminate. }
  induction 1 as [|cp cps H Hs IH]; [reflexivity|]. cbn [text flat_map drop_until encode]. fold (text U8 cps).
  assert (HT := utf8_tail cp H). assert (HH := utf8_head f Hf).
  assert (HE : starts_with (utf8_of f) (utf8_of cp ++ text U8 cps) = (cp =? f)).
  { destruct (Z.eqb_spec cp f) as [->|Hne]; [apply starts_with_app|].
    destruct (starts_with _ _) eqn:ES; [|reflexivity]. apply starts_with_inv in ES. destruct ES as [t ES].
    assert (H1 := encode_next U8 cp (text U8 cps) H). assert (H2 := encode_next U8 f t Hf).
    cbn [encode] in H1, H2. rewrite ES in H1. congruence. }
  destruct (utf8_of cp) as [|u t] eqn:EU; [destruct (utf8_of_lead cp H) as (a & t & EE & _); congruence|].
  cbn [app read_until_code_units tl] in *. rewrite HE. destruct (cp =? f).
  - cbn [text flat_map encode]. rewrite EU. reflexivity.
  - rewrite until_units_skip; [exact IH|exact Hn|]. eapply Forall_impl; [|exact HT]. intros v Hv. cbn beta in Hv. lia.
Qed.

(** * Storing *)
Lemma validate_text e cps : Forall scalar cps -> validate_unicode e (text e cps) = Ok true.
Proof.
  intros H. unfold validate_unicode.
  assert (G : forall fuel, (length (text e cps) <= fuel)%nat -> validate_unicode_loop fuel e (text e cps) = Ok true).
  { induction H as [|cp cps H Hs IH]; intros fuel Hf; [destruct fuel; reflexivity|].
    cbn [text flat_map] in *. fold (text e cps) in *.
    destruct (encode_lead e cp H) as (c & t & E & HL). destruct (read_into_encode e cp (text e cps) H) as [_ HD].
    assert (HF := firstn_len_app (encode e cp) (text e cps)). assert (HK := skipn_len_app (encode e cp) (text e cps)).
    rewrite app_length in Hf. assert (HA := app_length (encode e cp) (text e cps)).
    rewrite E in *. cbn [length app] in *. destruct fuel as [|fuel]; [lia|]. cbn [validate_unicode_loop].
    rewrite HL. cbn [length]. destruct (Nat.ltb_spec (S (length (t ++ text e cps))) (S (length t))); [lia|].
    rewrite HF, HK, HD. cbn [bind]. unfold invalid_code_point. unfold scalar in H.
    replace (0x110000 <=? cp) with false by lia. apply IH. lia. }
  apply G. lia.
Qed.

(** Destinations that can take the text. *)
Definition dest_ok (d : dest) (e to : enc) : Prop :=
  match d with
  | DString t => t = to /\ (e = to \/ e <> U16 /\ to <> U16)
  | DView t alloc => t = to /\ e = to /\ alloc = false
  end.
Lemma enc_eqb_refl e : enc_eqb e e = true.
Proof. destruct e; reflexivity. Qed.
Lemma text32 cps : text U32 cps = cps.
Proof. induction cps as [|c l IH]; [reflexivity|]. cbn [text flat_map encode app]. f_equal. exact IH. Qed.
Lemma store_text d e to a l : dest_ok d e to -> Forall scalar a ->
  store d e (text e (a ++ l)) (text e l) = Ok (text to a, text e l).
Proof.
  intros Hd Ha. unfold store. rewrite text_app, app_length.
  replace (length (text e a) + length (text e l) - length (text e l))%nat with (length (text e a)) by lia.
  rewrite firstn_len_app. destruct d as [t|t alloc]; cbn [dest_ok] in Hd.
  - destruct Hd as [-> Hd]. rewrite validate_text by exact Ha. cbn [bind negb].
    destruct Hd as [->|[H1 H2]]; [rewrite enc_eqb_refl; reflexivity|].
    destruct (roundtrip_8_32 a Ha) as (_ & _ & E1 & E2).
    destruct e, to; try congruence; cbn [enc_eqb bind]; try reflexivity.
    + change (text U8 a) with (utf8 a). rewrite E1. cbn [bind]. rewrite text32. reflexivity.
    + rewrite text32, E2. reflexivity.
  - destruct Hd as (-> & -> & ->). rewrite enc_eqb_refl. cbn [negb]. rewrite validate_text by exact Ha. reflexivity.
Qed.
Lemma store_lead d e to p cps : dest_ok d e to -> Forall scalar cps ->
  store d e (text e cps) (text e (after (lead p cps) cps))
  = Ok (text to (lead p cps), text e (after (lead p cps) cps)).
Proof.
  intros Hd H. rewrite <- (lead_after p cps) at 1. apply store_text; [exact Hd|]. apply scalars_lead, H.
Qed.
Lemma drop_lead p cps : drop_until p cps = after (lead (fun c => negb (p c)) cps) cps.
Proof.
  rewrite after_drop. induction cps as [|c l IH]; cbn [drop_until]; [reflexivity|].
  destruct (p c); cbn [negb]; [reflexivity|exact IH].
Qed.

(** * Sets *)
Lemma odd_bits b0 b1 b2 b3 b4 b5 b6 b7 j : 0 <= j < 8 ->
  let bit (b : bool) k := if b then 2 ^ k else 0 in
  Z.odd (Z.shiftr (bit b0 0 + bit b1 1 + bit b2 2 + bit b3 3 + bit b4 4 + bit b5 5 + bit b6 6 + bit b7 7) j)
  = nth (Z.to_nat j) [b0; b1; b2; b3; b4; b5; b6; b7] false.
Proof.
  intros Hj. assert (HJ : In j (zseq 0 8)) by (apply in_zseq; lia). cbn [zseq In] in HJ.
  repeat (destruct HJ as [<-|HJ]; [destruct b0, b1, b2, b3, b4, b5, b6, b7; reflexivity|]). destruct HJ.
Qed.
Lemma in_literals_spec P c : 0 <= c < 128 -> in_literals (bytes_of P) c = P c.
Proof.
  intros H. unfold in_literals, bytes_of.
  assert (HN : nth (Z.to_nat (c / 8)) (map (byte_of P) (zseq 0 16)) 0 = byte_of P (c / 8)).
  { assert (HI : In (c / 8) (zseq 0 16)) by (apply in_zseq; lia). cbn [zseq In] in HI.
    repeat (destruct HI as [<-|HI]; [reflexivity|]). destruct HI. }
  rewrite HN. unfold byte_of. rewrite odd_bits by lia.
  assert (HJ : In (c mod 8) (zseq 0 8)) by (apply in_zseq; lia). cbn [zseq In] in HJ.
  repeat (destruct HJ as [HJ|HJ]; [rewrite <- HJ; match goal with |- nth (Z.to_nat ?k) _ _ = _ => let k' := eval vm_compute in (Z.to_nat k) in change (Z.to_nat k) with k' end; cbn [nth]; f_equal; lia|]).
  destruct HJ.
Qed.

Definition ordered (rs : list (Z * Z)) : Prop := Forall (fun '(a, b) => a <= b) rs.
Lemma merge_range_spec b e : b <= e -> forall rs rs', ordered rs -> merge_range b e rs = Some rs' ->
  ordered rs' /\ forall c, in_extra_ranges rs' c = in_extra_ranges rs c || ((b <=? c) && (c <? e)).
Proof.
  intros Hbe. induction rs as [|[x y] rs IH]; intros rs' Ho; cbn [merge_range]; [discriminate|].
  inversion Ho as [|? ? Hxy Ho']; subst.
  destruct (Z.eqb_spec x e) as [->|_].
  - intros [= <-]. split; [constructor; [lia|exact Ho']|]. intros c. cbn [in_extra_ranges existsb].
    destruct (existsb _ rs); rewrite ?orb_true_r, ?orb_false_r; lia.
  - destruct (Z.eqb_spec y b) as [->|_].
    + intros [= <-]. split; [constructor; [lia|exact Ho']|]. intros c. cbn [in_extra_ranges existsb].
      destruct (existsb _ rs); rewrite ?orb_true_r, ?orb_false_r; lia.
    + destruct (merge_range b e rs) as [rs1|] eqn:E; [|discriminate]. intros [= <-].
      destruct (IH rs1 Ho' eq_refl) as [H1 H2]. split; [constructor; assumption|].
      intros c. unfold in_extra_ranges in *. cbn [existsb]. rewrite H2, orb_assoc. reflexivity.
Qed.
Definition na_step (i : set_item) (st : nstate) : nstate :=
  match i with SOne x => na_range x (x + 1) st | SRange a b => na_range a (b + 1) st end.
Lemma na_range_spec b e st : b <= e -> ordered (ns_ranges st) ->
  ordered (ns_ranges (na_range b e st)) /\ ns_err (na_range b e st) = ns_err st
  /\ forall c, 128 <= c -> in_extra_ranges (ns_ranges (na_range b e st)) c
       = in_extra_ranges (ns_ranges st) c || ((b <=? c) && (c <? e)).
Proof.
  intros Hbe Ho. unfold na_range. destruct (Z.leb_spec e 127).
  - split; [exact Ho|]. split; [reflexivity|]. intros c Hc. replace ((b <=? c) && (c <? e)) with false by lia.
    rewrite orb_false_r. reflexivity.
  - destruct (merge_range b e (ns_ranges st)) as [rs|] eqn:E; cbn [ns_ranges ns_err].
    + destruct (merge_range_spec b e Hbe _ _ Ho E) as [H1 H2]. auto.
    + split; [apply Forall_app; split; [exact Ho|repeat constructor; exact Hbe]|]. split; [reflexivity|].
      intros c _. unfold in_extra_ranges. rewrite existsb_app. cbn [existsb]. rewrite orb_false_r. reflexivity.
Qed.
Lemma na_range_err b e st : ns_err (na_range b e st) = ns_err st.
Proof. unfold na_range. destruct (_ <=? _); [reflexivity|]. destruct (merge_range _ _ _); reflexivity. Qed.
Lemma na_run items : Forall (fun i => match i with SOne _ => True | SRange a b => a <= b end) items ->
  forall st, ordered (ns_ranges st) ->
  ordered (ns_ranges (run_set na_step items st))
  /\ forall c, 128 <= c -> in_extra_ranges (ns_ranges (run_set na_step items st)) c
       = in_extra_ranges (ns_ranges st) c || in_items items c.
Proof.
  induction 1 as [|i items H _ IH]; intros st Ho; cbn [run_set fold_left in_items existsb].
  - split; [exact Ho|]. intros. rewrite orb_false_r. reflexivity.
  - assert (HS : ordered (ns_ranges (na_step i st)) /\ forall c, 128 <= c ->
      in_extra_ranges (ns_ranges (na_step i st)) c = in_extra_ranges (ns_ranges st) c || in_item c i).
    { destruct i as [x|a b]; cbn [na_step in_item].
      - destruct (na_range_spec x (x + 1) st ltac:(lia) Ho) as (H1 & _ & H3). split; [exact H1|].
        intros c Hc. rewrite H3 by exact Hc. f_equal. lia.
      - destruct (na_range_spec a (b + 1) st ltac:(lia) Ho) as (H1 & _ & H3). split; [exact H1|].
        intros c Hc. rewrite H3 by exact Hc. f_equal. lia. }
    destruct HS as [H1 H2]. destruct (IH _ H1) as [H3 H4]. split; [exact H3|].
    intros c Hc. change (fold_left (fun st i => na_step i st) items (na_step i st)) with (run_set na_step items (na_step i st)).
    rewrite H4, H2 by exact Hc. rewrite orb_assoc. reflexivity.
Qed.
Lemma wf_set_ranges inv items : wf_set inv items ->
  Forall (fun i => match i with SOne _ => True | SRange a b => a <= b end) items.
Proof.
  assert (G : forall l, Forall wf_item l -> Forall (fun i => match i with SOne _ => True | SRange a b => a <= b end) l).
  { intros l. apply Forall_impl. intros [x|a b]; cbn; [auto|]. tauto. }
  destruct inv; cbn [wf_set].
  - intros [[_ [H _]]|(t & -> & [H _])]; [auto|]. constructor; [exact I|auto].
  - intros [[H _] _]. auto.
Qed.
Lemma list_eqb_refl l : list_eqb l l = true.
Proof. induction l as [|c l IH]; [reflexivity|]. cbn [list_eqb]. rewrite Z.eqb_refl. exact IH. Qed.

(** The set a reader has been given. *)
Lemma handle_nonascii_set e inv items sp : e <> U16 -> wf_set inv items ->
  charset_string sp = render_set e inv items ->
  exists rs, handle_nonascii e sp = Ok rs
    /\ (charset_has_nonascii sp = true -> forall c, 128 <= c -> in_extra_ranges rs c = in_items items c).
Proof.
  intros He Hwf Hs. unfold handle_nonascii. destruct (charset_has_nonascii sp); cbn [negb].
  2:{ exists []. split; [reflexivity|discriminate]. }
  rewrite Hs. assert (HP := presentation_set nonascii_handler na_step
    (fun x st _ => eq_refl) (fun a b st _ _ _ => eq_refl)).
  specialize (HP ltac:(intros [x|a b] st; apply na_range_err) ltac:(reflexivity) e inv items [] (NS [] false) He Hwf eq_refl).
  rewrite app_nil_r in HP. rewrite HP. cbn [bind].
  assert (Ho : ordered (ns_ranges (if inv then sh_inverted nonascii_handler (NS [] false) else NS [] false)))
    by (destruct inv; constructor).
  destruct (na_run items (wf_set_ranges _ _ Hwf) _ Ho) as [_ H2].
  assert (HE : ns_err (run_set na_step items (if inv then sh_inverted nonascii_handler (NS [] false) else NS [] false)) = false).
  { assert (G := run_set_failed nonascii_handler na_step). cbn [sh_failed nonascii_handler] in G.
    rewrite G; [destruct inv; reflexivity|]. intros [x|a b] st; apply na_range_err. }
  rewrite HE, list_eqb_refl. eexists. split; [reflexivity|].
  intros _ c Hc. rewrite H2 by exact Hc. destruct inv; reflexivity.
Qed.

(** * The readers *)
Lemma scalars_drop p cps : Forall scalar cps -> Forall scalar (drop_until p cps).
Proof. intros H. destruct (drop_until_suffix p cps) as [a E]. rewrite E in H. apply Forall_app in H. apply H. Qed.
(** A reader on text as a reader on code points. *)
Definition coded (e to : enc) (rc : list Z -> outcome (list Z * list Z)) (cps : list Z)
  : outcome (list Z * list Z) :=
  '(v, l) <- rc cps ;; Ok (text to v, text e l).

Lemma after_nil (cps : list Z) : after cps cps = [].
Proof. unfold after. induction cps; [reflexivity|assumption]. Qed.
Lemma until_space_text r cps : whole r cps -> Forall scalar cps ->
  read_until_classic_space r (text (s_enc r) cps)
  = Ok (text (s_enc r) (after (lead (fun c => negb (is_ws c)) cps) cps)).
Proof.
  intros Hw H.
  assert (EL : drop_until is_cp_space cps = after (lead (fun c => negb (is_ws c)) cps) cps).
  { rewrite drop_lead. rewrite (lead_ext _ (fun c => negb (is_ws c))); [reflexivity|]. intros c. rewrite is_ws_space. reflexivity. }
  rewrite <- EL. unfold read_until_classic_space, whole in *. destruct (s_enc r); try (apply read_until_text, H).
  destruct (s_contig r) eqn:EC; [apply find_classic_space_utf8, H|].
  destruct (Hw eq_refl eq_refl [] cps eq_refl) as (c & d & Ecd & Eseg).
  unfold contiguous_beginning. rewrite EC, Eseg.
  rewrite Ecd in H. apply Forall_app in H. destruct H as [Hc Hd].
  rewrite (text_utf8 c), (find_classic_space_utf8 c Hc). cbn [bind].
  assert (HSk := cut_skip is_cp_space c d). rewrite (text_utf8 c), (text_utf8 (drop_until _ c)) in HSk. rewrite Ecd.
  destruct (utf8 (drop_until is_cp_space c)) as [|u t] eqn:ED.
  - apply (text_nil_iff U8) in ED; [|apply scalars_drop, Hc].
    rewrite <- (text_utf8 c), text_app, skipn_app, skipn_all, Nat.sub_diag. cbn [app skipn].
    rewrite drop_until_app, ED. apply read_until_text, Hd.
  - rewrite HSk. do 2 f_equal. rewrite drop_until_app. destruct (drop_until is_cp_space c); [discriminate|reflexivity].
Qed.
Lemma word_text d r to cps : whole r cps -> dest_ok d (s_enc r) to -> Forall scalar cps ->
  word_read d r (text (s_enc r) cps) = coded (s_enc r) to (take Word) cps.
Proof.
  intros Hw Hd H. unfold word_read. rewrite until_space_text by assumption. cbn [bind].
  rewrite (store_lead d (s_enc r) to) by assumption. reflexivity.
Qed.
Lemma custom_word_text d r to f ft cps : s_enc r <> U16 -> dest_ok d (s_enc r) to -> fill_ok (s_enc r) f ft ->
  Forall scalar cps ->
  custom_word_read d r ft (text (s_enc r) cps) = coded (s_enc r) to (take (Until f)) cps.
Proof.
  intros He Hd Hok H. unfold custom_word_read, coded, take, taken.
  assert (HS := store_lead d (s_enc r) to (fun c => negb (c =? f)) cps Hd H).
  assert (HD := drop_lead (fun c => c =? f) cps).
  destruct (Nat.leb_spec (f_size ft) (unit_size (s_enc r))) as [HU|HU].
  - destruct (fill_unit _ _ _ Hok HU) as [E1 E2]. rewrite E2 in *.
    rewrite until_single by (assumption || apply Hok). rewrite HD, HS. reflexivity.
  - destruct Hok as [Hf Hok]. destruct (s_enc r); cbn [unit_size] in HU; try lia.
    destruct Hok as [H1 H2]. unfold get_code_units. rewrite H1, until_units_text by assumption.
    rewrite HD, HS. reflexivity.
Qed.
Lemma character_text d r to sp cps : precision sp <> 0 -> dest_ok d (s_enc r) to -> Forall scalar cps ->
  character_read d r sp (text (s_enc r) cps) = coded (s_enc r) to (take Everything) cps.
Proof.
  intros Hp Hd H. unfold character_read. destruct (Z.eqb_spec (precision sp) 0); [contradiction|].
  assert (HS := store_text d (s_enc r) to cps [] Hd H). rewrite app_nil_r in HS.
  change (@nil Z) with (text (s_enc r) []) at 1. rewrite HS.
  unfold coded, take, taken. cbn [bind]. rewrite after_nil. reflexivity.
Qed.

Lemma lead_len_eq p cps : length (after (lead p cps) cps) = length cps -> lead p cps = [].
Proof.
  intros E. assert (HL := f_equal (@length Z) (lead_after p cps)). rewrite app_length in HL.
  apply length_zero_iff_nil. lia.
Qed.
Lemma text_len_eq e p cps : Forall scalar cps ->
  (length (text e (after (lead p cps) cps)) =? length (text e cps))%nat
  = match lead p cps with [] => true | _ => false end.
Proof.
  intros H. destruct (lead p cps) as [|c l] eqn:E.
  - unfold after. cbn [length skipn]. apply Nat.eqb_refl.
  - apply Nat.eqb_neq. assert (HL := text_drop_len e p cps). rewrite E in HL.
    destruct (scalars_lead p cps H) as [HS _]. rewrite E in HS. inversion HS as [|? ? Hc]; subst.
    cbn [text flat_map] in HL. destruct (encode_lead e c Hc) as (u & t & EU & _). rewrite EU in HL. cbn [app length] in HL. lia.
Qed.
Lemma lead_ext_in p q cps : (forall c, In c cps -> p c = q c) -> lead p cps = lead q cps.
Proof.
  induction cps as [|c l IH]; intros H; cbn [lead]; [reflexivity|].
  rewrite (H c) by (left; reflexivity). destruct (q c); [|reflexivity]. f_equal. apply IH. intros d Hd. apply H. right. exact Hd.
Qed.
Lemma item_bound items c : existsb item_nonascii items = false -> 128 <= c -> in_items items c = false.
Proof.
  intros H Hc. induction items as [|i items IH]; [reflexivity|]. cbn [existsb in_items] in *.
  destruct (item_nonascii i) eqn:E; [discriminate|]. cbn [orb] in H. unfold in_items in IH. rewrite IH by exact H. rewrite orb_false_r.
  destruct i as [x|a b]; cbn [item_nonascii in_item] in *; lia.
Qed.
Lemma set_text d r to sp inv items cps : s_enc r <> U16 -> dest_ok d (s_enc r) to -> wf_set inv items ->
  charset_literals sp = bytes_of (in_items items) -> charset_has_nonascii sp = existsb item_nonascii items ->
  charset_is_inverted sp = inv -> charset_string sp = render_set (s_enc r) inv items ->
  Forall scalar cps ->
  set_read d r sp (text (s_enc r) cps) = coded (s_enc r) to (take (Members (in_set inv items))) cps.
Proof.
  intros He Hd Hwf HL HN HI HS H.
  set (q := fun c => xorb inv (in_items items c)).
  assert (Hq : forall c, q c = in_set inv items c) by reflexivity.
  assert (HSRC : set_source r sp (text (s_enc r) cps)
     = match lead q cps with
       | [] => Err InvalidScannedValue
       | _ => Ok (text (s_enc r) (after (lead q cps) cps))
       end).
  { unfold set_source. destruct (handle_nonascii_set (s_enc r) inv items sp He Hwf HS) as (rs & -> & Hrs). cbn [bind].
    assert (HR : (if charset_has_nonascii sp then
           let cb := on_classic_with_extra_ranges (charset_literals sp) rs in
           if charset_is_inverted sp then read_until_code_point (s_enc r) cb (text (s_enc r) cps)
           else read_while_code_point (s_enc r) cb (text (s_enc r) cps)
         else
           let cb := on_ascii_only (charset_literals sp) in
           Ok (if charset_is_inverted sp then read_until_code_unit cb (text (s_enc r) cps)
               else read_while_code_unit cb (text (s_enc r) cps)))
       = Ok (text (s_enc r) (after (lead q cps) cps))).
    { destruct (charset_has_nonascii sp) eqn:EN; cbv zeta.
      - set (cb := on_classic_with_extra_ranges _ rs).
        assert (HC : forall c, In c cps -> cb c = in_items items c).
        { intros c Hc. rewrite Forall_forall in H. specialize (H c Hc). unfold cb, on_classic_with_extra_ranges, is_ascii_char.
          destruct (Z.leb_spec c 127); cbn [negb].
          - rewrite HL. apply in_literals_spec. unfold scalar in H. lia.
          - apply Hrs; [reflexivity|lia]. }
        rewrite HI. destruct inv; unfold read_while_code_point; rewrite read_until_text by exact H; rewrite drop_lead; do 3 f_equal.
        + apply lead_ext_in. intros c Hc. rewrite HC by exact Hc. reflexivity.
        + apply lead_ext_in. intros c Hc. rewrite negb_involutive, HC by exact Hc. unfold q. rewrite xorb_false_l. reflexivity.
      - set (cb := on_ascii_only _).
        assert (HC : forall c, In c cps -> cb c = in_items items c).
        { intros c Hc. rewrite Forall_forall in H. specialize (H c Hc). unfold cb, on_ascii_only, is_ascii_char.
          destruct (Z.leb_spec c 127); cbn [negb].
          - rewrite HL. apply in_literals_spec. unfold scalar in H. lia.
          - symmetry. apply item_bound; [congruence|lia]. }
        assert (HU : forall u, 128 <= u -> cb u = false).
        { intros u Hu. unfold cb, on_ascii_only, is_ascii_char. destruct (Z.leb_spec u 127); [lia|reflexivity]. }
        rewrite HI. f_equal. destruct inv.
        + rewrite until_unit_text by assumption. rewrite drop_lead. do 2 f_equal.
          apply lead_ext_in. intros c Hc. rewrite HC by exact Hc. reflexivity.
        + rewrite while_unit_text by assumption. do 2 f_equal.
          apply lead_ext_in. intros c Hc. rewrite HC by exact Hc. unfold q. rewrite xorb_false_l. reflexivity. }
    cbv zeta in HR |- *. rewrite HR. cbn [bind]. rewrite text_len_eq by exact H. destruct (lead q cps); reflexivity. }
  unfold set_read. rewrite HSRC. unfold coded, take, taken. change (in_set inv items) with q.
  assert (HST := store_lead d (s_enc r) to q cps Hd H).
  destruct (lead q cps) as [|c l] eqn:E; [reflexivity|]. cbn [bind]. rewrite HST. reflexivity.
Qed.

(** The portion named by the format-spec. *)
Lemma lead_suffix p cps : exists a, cps = a ++ after (lead p cps) cps.
Proof. exists (lead p cps). symmetry. apply lead_after. Qed.
Lemma take_suffix h cps v l : take h cps = Ok (v, l) -> cps = v ++ l.
Proof.
  unfold take, taken. destruct h.
  - intros [= <- <-]. symmetry. apply lead_after.
  - intros [= <- <-]. symmetry. apply lead_after.
  - intros [= <- <-]. rewrite after_nil, app_nil_r. reflexivity.
  - destruct (lead p cps) eqn:E; [discriminate|]. intros [= <- <-]. rewrite <- E. symmetry. apply lead_after.
Qed.

Lemma mean_kind e d : string_type d -> (forall c, d_type d = Some (TyLetter c) -> c = 99 -> precision (mean e d) <> 0) ->
  check_string_type_specs (mean e d) = true /\ string_skip (mean e d) = skips_white_space (portion_of d).
Proof.
  intros Ht Hp. unfold string_type in Ht. unfold check_string_type_specs, string_skip, string_kind_of, portion_of.
  destruct (d_type d) as [[c|inv items|p fl]|] eqn:E; try contradiction.
  - destruct Ht as [-> | [-> _]].
    + unfold mean, said_align. rewrite E. cbn. destruct (optv _ _ _); auto.
    + specialize (Hp 99 eq_refl eq_refl). revert Hp. unfold mean. rewrite E. cbn. intros Hp.
      destruct (Z.eqb_spec (optv 0 number (d_prec d)) 0); [contradiction|]. auto.
  - unfold mean. rewrite E. auto.
  - unfold mean. rewrite E. auto.
Qed.
Lemma string_specs_text rx dst r r' to d cps :
  s_enc r' = s_enc r -> (portion_of d = Word -> whole r' cps) -> s_enc r <> U16 -> dest_ok dst (s_enc r) to -> string_type d ->
  fill_ok (s_enc r) (said_fill d) (fill (mean (s_enc r) d)) ->
  (forall c, d_type d = Some (TyLetter c) -> c = 99 -> precision (mean (s_enc r) d) <> 0) ->
  Forall scalar cps ->
  string_specs rx dst r' (mean (s_enc r) d) (text (s_enc r) cps)
  = coded (s_enc r) to (take (portion_of d)) cps.
Proof.
  intros Hr' Hw He Hd Ht Hf Hp H. rewrite <- Hr' in *. unfold string_type in Ht.
  unfold string_specs, string_kind_of, portion_of in *.
  destruct (d_type d) as [[c|inv items|p fl]|] eqn:E; try contradiction.
  - destruct Ht as [-> | [-> _]].
    + assert (ET : type (mean (s_enc r') d) = PString) by (unfold mean; rewrite E; reflexivity).
      assert (EA : align (mean (s_enc r') d) = said_align d) by (unfold mean; rewrite E; reflexivity).
      rewrite ET, EA. destruct (said_align d);
        first [apply word_text; auto; fail | apply custom_word_text; assumption].
    + assert (ET : type (mean (s_enc r') d) = PCharacter) by (unfold mean; rewrite E; reflexivity).
      rewrite ET. apply character_text; [apply (Hp 99); reflexivity|assumption|assumption].
  - assert (ET : type (mean (s_enc r') d) = PStringSet) by (unfold mean; rewrite E; reflexivity).
    rewrite ET. apply set_text; try assumption; unfold mean; rewrite E; reflexivity.
  - assert (ET : type (mean (s_enc r') d) = PNone) by (unfold mean; rewrite E; reflexivity).
    rewrite ET. apply word_text; auto.
Qed.

(** [field] for a reader with a value mapped afterwards. *)
Lemma field_map {V W} (g : V -> W) al f w p skip (rc : list Z -> outcome (V * list Z)) cps :
  field al f w p skip (fun ds => '(x, l) <- rc ds ;; Ok (g x, l)) cps
  = ('(x, l) <- field al f w p skip rc cps ;; Ok (g x, l)).
Proof.
  unfold field. destruct (before_value _ _ _ _ _) as [pre|x| |]; cbn [bind]; try reflexivity.
  destruct (match p with Some n => _ | None => false end); [reflexivity|].
  destruct (rc _) as [[x rem]|x| |]; cbn [bind]; try reflexivity.
  destruct (_ <? w); reflexivity.
Qed.
