(** Safety of string scanning on any source with any format-spec that parses. *)
From Verif Require Import Prelude BitsModel UnicodeModel UnicodeSpec UnicodeProofs WhitespaceModel WhitespaceSpec
  WhitespaceProofs ReadModel ReadProofs SpecsModel ArgsModel FormatModel FormatProofs SpecsInvProofs IntModel
  WidthModel ArgReaderModel ArgSafeProofs StringModel.
Local Open Scope Z_scope.

(** ** Storing *)
Lemma decode_same e u cp : decode_cp e u = Ok cp -> cp < invalid_code_point -> decode_cp_valid e u = Ok cp.
Proof.
  unfold invalid_code_point. destruct e; cbn [decode_cp decode_cp_valid].
  - destruct u as [|a [|b [|c [|d [|x u]]]]]; cbn [decode_utf8 decode_utf8_valid]; try discriminate;
      unfold invalid_code_point.
    + destruct (Z.leb_spec 0x80 a); intros [= <-] Hc; [lia|]. destruct (Z.ltb_spec a 0x80); [reflexivity|lia].
    + destruct (_ =? _); cbn [negb andb]; [|intros [= <-]; lia].
      destruct (is_trailing b); cbn [negb]; intros [= <-] Hc; [reflexivity|lia].
    + destruct (_ =? _); cbn [negb andb]; [|intros [= <-]; lia].
      destruct (is_trailing b); cbn [negb orb andb]; [|intros [= <-]; lia].
      destruct (is_trailing c); cbn [negb]; intros [= <-] Hc; [reflexivity|lia].
    + destruct (_ =? _); cbn [negb andb]; [|intros [= <-]; lia].
      destruct (Z.ltb_spec 0xf4 a); [intros [= <-]; lia|]. destruct (Z.leb_spec a 0xf4); [cbn [andb]|lia].
      destruct (is_trailing b); cbn [negb orb andb]; [|intros [= <-]; lia].
      destruct (is_trailing c); cbn [negb orb andb]; [|intros [= <-]; lia].
      destruct (is_trailing d); cbn [negb]; intros [= <-] Hc; [reflexivity|lia].
  - destruct u as [|a [|b [|x u]]]; cbn [decode_utf16 decode_utf16_valid]; try discriminate; [auto|].
    destruct (Z.ltb_spec a 0xd800); cbn [orb]; [intros [= <-]; unfold invalid_code_point; lia|].
    destruct (Z.ltb_spec 0xdbff a); cbn [orb]; [intros [= <-]; unfold invalid_code_point; lia|].
    destruct (Z.ltb_spec b 0xdc00); cbn [orb]; [intros [= <-]; unfold invalid_code_point; lia|].
    destruct (Z.ltb_spec 0xdfff b); [intros [= <-]; unfold invalid_code_point; lia|].
    intros HD _. rewrite HD.
    destruct (Z.leb_spec 0xd800 a); [|lia]. destruct (Z.leb_spec a 0xdbff); [|lia].
    destruct (Z.leb_spec 0xdc00 b); [|lia]. destruct (Z.leb_spec b 0xdfff); [reflexivity|lia].
  - destruct u as [|a [|b u]]; try discriminate. unfold invalid_code_point.
    destruct (Z.leb_spec 0x110000 a); intros [= <-] Hc; [lia|reflexivity].
Qed.
Lemma validated_decodes e : forall fuel s, validate_unicode_loop fuel e s = Ok true ->
  forall fuel', (length s <= fuel')%nat ->
  exists cps, for_each_code_point_valid_loop fuel' e s = Ok cps /\ Forall (fun c => c < invalid_code_point) cps.
Proof.
  induction fuel as [|f IH]; intros [|c s] H fuel' Hl; cbn [validate_unicode_loop] in H; try discriminate;
    try (exists []; destruct fuel'; split; [reflexivity|constructor|reflexivity|constructor]).
  destruct (cp_len e c) as [|n] eqn:EL; [discriminate|].
  destruct (length (c :: s) <? S n)%nat eqn:EN; [discriminate|].
  apply ok_bind in H. destruct H as (cp & HD & H).
  destruct (Z.leb_spec invalid_code_point cp); [discriminate|].
  destruct fuel' as [|f']; [cbn in Hl; lia|]. cbn [for_each_code_point_valid_loop].
  unfold get_next_code_point_valid. rewrite EL, EN, (decode_same _ _ _ HD) by assumption. cbn [bind].
  destruct (IH _ H f') as (cps & -> & HF).
  - rewrite skipn_length. cbn [length] in *. lia.
  - cbn [bind]. eauto.
Qed.
Lemma validated_to32 e s : validate_unicode e s = Ok true -> exists v, transcode_valid_to32 e s = Ok v.
Proof.
  intros H. destruct (validated_decodes e _ s H (length s) (le_n _)) as (cps & HC & HF).
  unfold transcode_valid_to32, for_each_code_point_valid. rewrite HC. cbn [bind].
  assert (G : forallb (fun cp => cp <? invalid_code_point) cps = true).
  { apply forallb_forall. intros x Hx. rewrite Forall_forall in HF. apply Z.ltb_lt, HF, Hx. }
  rewrite G. eauto.
Qed.
Lemma store_total d e s it : suffix it s ->
  (exists x, store d e s it = Err x)
  \/ exists v part, store d e s it = Ok (v, it) /\ s = part ++ it
     /\ validate_unicode e part = Ok true
     /\ match d with DString to => e <> to \/ v = part | DView to alloc => alloc = false /\ to = e /\ v = part end.
Proof.
  intros [p ->]. unfold store. rewrite firstn_drop. destruct d as [to|to alloc].
  - destruct (validate_loop_total e (length p) p (le_n _)) as [b Hb].
    unfold validate_unicode. rewrite Hb. cbn [bind]. destruct b; cbn [negb]; [|left; eexists; reflexivity].
    right. destruct (enc_eqb e to) eqn:EE; cbn [bind].
    { exists p, p. repeat split; auto. }
    destruct (validated_to32 e p Hb) as [t Ht].
    assert (HT : exists v, transcode_valid_to_string e to p = Ok v).
    { unfold transcode_valid_to_string, validate_unicode. rewrite Hb. cbn [bind negb].
      destruct e, to; try discriminate EE; rewrite ?Ht; cbn [bind]; eauto. }
    destruct HT as [v ->]. cbn [bind]. exists v, p. repeat split; auto. left. intros ->. destruct to; discriminate EE.
  - destruct alloc; [left; eexists; reflexivity|].
    destruct (enc_eqb e to) eqn:EE; cbn [negb]; [|left; eexists; reflexivity].
    destruct (validate_loop_total e (length p) p (le_n _)) as [b Hb].
    unfold validate_unicode. rewrite Hb. cbn [bind]. destruct b; cbn [negb]; [|left; eexists; reflexivity].
    right. exists p, p. repeat split; auto. destruct e, to; try discriminate; reflexivity.
Qed.

(** ** Parsing a set again *)
Lemma ascii_units_one e : cp_len e 93 = 1%nat.
Proof. destruct e; reflexivity. Qed.
Lemma set_cp_step e s cp s' : parse_set_code_point e s = Ok (Some (cp, s')) ->
  exists a n, s = a ++ s' /\ length a = S n
    /\ forall t, parse_set_code_point e (a ++ t) = Ok (Some (cp, t)).
Proof.
  unfold parse_set_code_point. destruct s as [|c s]; [discriminate|].
  destruct (cp_len e c) as [|n] eqn:EL; [discriminate|]. cbn [Nat.eqb orb].
  destruct (length (c :: s) <? S n)%nat eqn:EN; [discriminate|]. apply Nat.ltb_ge in EN.
  intros H. apply ok_bind in H. destruct H as (cp' & HD & H).
  destruct (invalid_code_point <=? cp') eqn:EI; [discriminate|].
  assert (HS : s' = skipn (S n) (c :: s)) by congruence. assert (cp' = cp) as -> by congruence. clear H. subst s'.
  assert (HL : length (firstn (S n) (c :: s)) = S n) by (apply firstn_full; exact EN).
  exists (firstn (S n) (c :: s)), n. split; [symmetry; apply firstn_skipn|]. split; [exact HL|].
  intros t. assert (EC : firstn (S n) (c :: s) = c :: firstn n s) by reflexivity.
  set (a := firstn (S n) (c :: s)) in *. clearbody a. rewrite EC at 1. cbn [app]. rewrite EL. cbn [Nat.eqb orb].
  rewrite <- HL, app_length.
  destruct (length a + length t <? length a)%nat eqn:EN2; [apply Nat.ltb_lt in EN2; lia|].
  rewrite firstn_app, Nat.sub_diag, firstn_all, firstn_O, app_nil_r, HD. cbn [bind]. rewrite EI.
  rewrite skipn_app, Nat.sub_diag, skipn_all. reflexivity.
Qed.
Lemma app_same_tail {A} (a b t : list A) : a ++ t = b ++ t -> a = b.
Proof. apply app_inv_tail. Qed.

(** One item parses in the same way whatever follows the closing bracket and whoever
    handles it. *)
Lemma set_literal_again e u tail s1 stA stA' stN :
  parse_set_literal specs_set_handler e (u ++ 93 :: tail) stA = Ok (s1, stA') -> ss_err stA' = false ->
  (exists w, s1 = w ++ 93 :: tail) ->
  exists u1 stN', s1 = u1 ++ 93 :: tail /\ (length u1 < length u)%nat
    /\ parse_set_literal nonascii_handler e (u ++ [93]) stN = Ok (u1 ++ [93], stN') /\ ns_err stN' = ns_err stN.
Proof.
  intros H HE [w Hw]. unfold parse_set_literal in H. apply ok_bind in H. destruct H as (x & HX & H).
  destruct x as [[first s']|]; [|injection H as <- <-; discriminate HE].
  destruct (set_cp_step _ _ _ _ HX) as (a & n & Ha & HL & Hsame).
  assert (HR : forall (b u : list Z) (s' : list Z), u ++ 93 :: tail = b ++ s' -> (exists z, s' = z ++ w ++ 93 :: tail) ->
    exists u', u = b ++ u' /\ s' = u' ++ 93 :: tail).
  { intros b v t E [z ->]. exists (z ++ w). rewrite app_assoc in E. rewrite app_assoc in E |- *.
    split; [|rewrite <- !app_assoc; reflexivity]. apply (app_same_tail _ _ (93 :: tail)).
    rewrite E, <- !app_assoc. reflexivity. }
  assert (HN : forall t, parse_set_literal nonascii_handler e (a ++ t) stN
    = match t with
      | d :: c :: s2 =>
          if (d =? 45) && negb (c =? 93) then
            r <- parse_set_code_point e (c :: s2) ;;
            match r with
            | None => Ok (c :: s2, sh_error nonascii_handler stN)
            | Some (second, s'') =>
                if second <? first then Ok (s'', sh_error nonascii_handler stN)
                else st <- sh_range nonascii_handler first (second + 1) stN ;; Ok (s'', st)
            end
          else st <- sh_single nonascii_handler first stN ;; Ok (t, st)
      | _ => st <- sh_single nonascii_handler first stN ;; Ok (t, st)
      end).
  { intros t. unfold parse_set_literal. rewrite Hsame. cbn [bind]. destruct t as [|d [|c t]]; reflexivity. }
  assert (HErr : forall b f st, ns_err (na_range b f st) = ns_err st).
  { intros b f st. unfold na_range. destruct (f <=? 127); [reflexivity|]. destruct (merge_range _ _ _); reflexivity. }
  (* a single code point *)
  assert (HS : s1 = s' -> match s' with d :: c :: _ => (d =? 45) && negb (c =? 93) = false | _ => True end ->
    exists u1 stN', s1 = u1 ++ 93 :: tail /\ (length u1 < length u)%nat
      /\ parse_set_literal nonascii_handler e (u ++ [93]) stN = Ok (u1 ++ [93], stN') /\ ns_err stN' = ns_err stN).
  { intros E1 HNo. subst s'. destruct (HR a u s1 Ha) as (u' & -> & Es); [exists []; exact Hw|].
    exists u', (na_range first (first + 1) stN). split; [exact Es|].
    split; [rewrite app_length; lia|]. split; [|apply HErr]. rewrite <- app_assoc, HN.
    rewrite Es in HNo. destruct u' as [|d [|c u']]; cbn [app] in *; try rewrite HNo; reflexivity. }
  destruct s' as [|d [|c s2]].
  - apply ok_bind in H. destruct H as (st & _ & H). injection H as <- _. apply HS; auto.
  - apply ok_bind in H. destruct H as (st & _ & H). injection H as <- _. apply HS; auto.
  - destruct ((d =? 45) && negb (c =? 93)) eqn:ED.
    2:{ apply ok_bind in H. destruct H as (st & _ & H). injection H as <- _. apply HS; auto. }
    apply andb_prop in ED. destruct ED as [E45 E93]. apply Z.eqb_eq in E45. subst d.
    apply ok_bind in H. destruct H as (y & HY & H).
    destruct y as [[second s'']|]; [|injection H as <- <-; discriminate HE].
    destruct (second <? first) eqn:EO; [injection H as <- <-; discriminate HE|].
    apply ok_bind in H. destruct H as (st & _ & H). injection H as <- _.
    destruct (set_cp_step _ _ _ _ HY) as (b & m & Hb & HLb & Hsame2).
    rewrite Hb in Ha. destruct (HR (a ++ 45 :: b) u s'') as (u' & -> & Es).
    { rewrite Ha, <- app_assoc. reflexivity. }
    { exists []. exact Hw. }
    exists u', (na_range first (second + 1) stN). split; [exact Es|].
    split; [rewrite !app_length; cbn [length]; lia|]. split; [|apply HErr].
    rewrite <- !app_assoc, HN. cbn [app].
    destruct b as [|c' b]; [discriminate HLb|]. cbn [app]. cbn [app] in Hb. injection Hb as <- _.
    rewrite E93. cbn [Z.eqb andb]. change (45 =? 45) with true. cbn [andb].
    change (c :: b ++ u' ++ [93]) with ((c :: b) ++ u' ++ [93]). rewrite Hsame2. cbn [bind]. rewrite EO. reflexivity.
Qed.
Lemma set_literal_suffix {St} (h : set_handler St) e s st q st' :
  parse_set_literal h e s st = Ok (q, st') -> suffix q s.
Proof.
  intros HL. unfold parse_set_literal in HL. apply ok_bind in HL. destruct HL as (x & HX & HL).
  destruct x as [[first s']|]; [|injection HL as <- _; apply suffix_refl].
  destruct (set_cp_step _ _ _ _ HX) as (a & n & -> & _).
  assert (G : suffix q s').
  { destruct s' as [|d [|c' s2]].
    - apply ok_bind in HL. destruct HL as (? & _ & HL). injection HL as <- _. apply suffix_refl.
    - apply ok_bind in HL. destruct HL as (? & _ & HL). injection HL as <- _. apply suffix_refl.
    - destruct (_ && _).
      + apply ok_bind in HL. destruct HL as (y & HY & HL).
        destruct y as [[second s'']|]; [|injection HL as <- _; apply suffix_cons, suffix_refl].
        destruct (set_cp_step _ _ _ _ HY) as (b & m & -> & _).
        apply suffix_cons. destruct (second <? first).
        * injection HL as <- _. exists b. reflexivity.
        * apply ok_bind in HL. destruct HL as (? & _ & HL). injection HL as <- _. exists b. reflexivity.
      + apply ok_bind in HL. destruct HL as (? & _ & HL). injection HL as <- _. apply suffix_refl. }
  eapply suffix_trans; [exact G|]. exists a. reflexivity.
Qed.
Lemma set_loop_found e : forall fuel s st t st', parse_set_loop fuel specs_set_handler e s st = Ok (t, st', true) ->
  (exists w, s = w ++ 93 :: t) /\ ss_err st = false.
Proof.
  induction fuel as [|f IH]; intros [|c s] st t st' H; cbn [parse_set_loop] in H; try discriminate;
    cbn [sh_failed specs_set_handler sh_error] in H; destruct (ss_err st) eqn:EE; try discriminate;
    destruct (Z.eqb_spec c 93) as [->|Hc]; try discriminate.
  - injection H as <- _. split; [exists []; reflexivity|reflexivity].
  - injection H as <- _. split; [exists []; reflexivity|reflexivity].
  - apply ok_bind in H. destruct H as ([s2 st2] & HL & H). apply IH in H. destruct H as [[w ->] _].
    split; [|reflexivity]. apply set_literal_suffix in HL. destruct HL as [p ->]. exists (p ++ w). rewrite app_assoc. reflexivity.
Qed.
Lemma set_loop_again e tail : forall fuel u stA stA',
  parse_set_loop fuel specs_set_handler e (u ++ 93 :: tail) stA = Ok (tail, stA', true) ->
  forall stN fuel', ns_err stN = false -> (length u <= fuel')%nat ->
  exists stN', parse_set_loop fuel' nonascii_handler e (u ++ [93]) stN = Ok ([], stN', true) /\ ns_err stN' = false.
Proof.
  induction fuel as [|f IH]; intros u stA stA' H stN fuel' HN HF.
  - destruct u as [|c u]; cbn [app parse_set_loop sh_failed specs_set_handler sh_error] in H; destruct (ss_err stA); try discriminate.
    + exists stN. split; [|exact HN]. destruct fuel'; cbn [app parse_set_loop sh_failed nonascii_handler]; rewrite HN; reflexivity.
    + destruct (c =? 93); [|discriminate]. exfalso. injection H as H _. apply (f_equal (@length Z)) in H.
      rewrite app_length in H. cbn [length] in H. lia.
  - destruct u as [|c u].
    + exists stN. split; [|exact HN]. destruct fuel'; cbn [app parse_set_loop sh_failed nonascii_handler]; rewrite HN; reflexivity.
    + cbn [app parse_set_loop sh_failed specs_set_handler sh_error] in H. destruct (ss_err stA); try discriminate.
      destruct (c =? 93) eqn:E93.
      { exfalso. injection H as H _. apply (f_equal (@length Z)) in H.
        rewrite app_length in H. cbn [length] in H. lia. }
      apply ok_bind in H. destruct H as ([s2 st2] & HL & H). cbn beta iota in H.
      destruct (set_loop_found _ _ _ _ _ _ H) as [Hw He2].
      destruct (set_literal_again e (c :: u) tail s2 stA st2 stN HL He2 Hw) as (u1 & stN' & -> & HLen & HL2 & HE2).
      destruct fuel' as [|f']; [cbn in HF; lia|]. cbn [app parse_set_loop sh_failed nonascii_handler]. rewrite HN, E93.
      change (c :: u ++ [93]) with ((c :: u) ++ [93]). rewrite HL2. cbn [bind].
      apply (IH u1 st2 stA' H); [congruence|]. cbn [length] in *. lia.
Qed.
Lemma finish_split e s s2 st s3 st' set : suffix s2 s ->
  finish_set specs_set_handler e s s2 st = Ok (s3, st', set) -> set <> [] -> ss_err st = false ->
  exists p u, s = p ++ s2 /\ s2 = u ++ 93 :: s3 /\ set = p ++ u ++ [93]
    /\ forall stN, ns_err stN = false ->
       exists stN', finish_set nonascii_handler e set (u ++ [93]) stN = Ok ([], stN', set) /\ ns_err stN' = false.
Proof.
  intros [p ->] H Hne He. unfold finish_set in H. apply ok_bind in H. destruct H as ([[t st2] b] & HL & H).
  cbn beta iota in H. destruct b; [|injection H as _ _ <-; contradiction].
  destruct (set_loop_found _ _ _ _ _ _ HL) as [HW _].
  destruct HW as [u ->].
  assert (H2 : s3 = t) by congruence. assert (HS : set = firstn (length (p ++ u ++ 93 :: t) - length t) (p ++ u ++ 93 :: t)) by congruence.
  clear H. subst s3.
  replace (p ++ u ++ 93 :: t) with ((p ++ u ++ [93]) ++ t) in HS by (rewrite <- !app_assoc; reflexivity).
  rewrite firstn_drop in HS. exists p, u. split; [reflexivity|]. split; [reflexivity|]. split; [exact HS|].
  intros stN HN. unfold finish_set.
  destruct (set_loop_again e t _ _ _ _ HL stN (length (u ++ [93])) HN) as (stN' & -> & HE); [rewrite app_length; lia|].
  cbn [bind]. exists stN'. split; [|exact HE]. cbn [length]. rewrite Nat.sub_0_r, firstn_all. reflexivity.
Qed.
Lemma presentation_again e s st s' st' set :
  parse_presentation_set specs_set_handler e s st = Ok (s', st', set) -> ss_err st = false ->
  (2 < length set)%nat ->
  exists stN, parse_presentation_set nonascii_handler e set (NS [] false) = Ok ([], stN, set) /\ ns_err stN = false.
Proof.
  intros H He HL. assert (Hne : set <> []) by (intros ->; cbn in HL; lia).
  unfold parse_presentation_set in H. destruct s as [|c s]; [discriminate|].
  destruct (Z.eq_dec c 91) as [->|Hc].
  2:{ exfalso. revert H. destruct c as [|q|q]; try discriminate. 
      do 7 (destruct q as [q|q|]; try discriminate). congruence. }
  destruct s as [|c s2]; [injection H as _ _ <-; contradiction|].
  destruct (Z.eqb_spec c 94) as [->|Hn94].
  - destruct s2 as [|d s3]; [injection H as _ _ <-; contradiction|].
    destruct (Z.eqb_spec d 93) as [->|Hn93].
    + cbn [sh_single specs_set_handler bind] in H.
      apply finish_split in H; [|exists [91; 94; 93]; reflexivity|exact Hne|].
      2:{ unfold on_charset_single. cbn. exact He. }
      destruct H as (p & u & H1 & H2 & -> & H3). destruct (H3 (na_range 93 94 (NS [] false)) eq_refl) as (stN & H4 & H5).
      assert (p = [91; 94; 93]) as -> by (apply (app_inv_tail s3); symmetry; exact H1).
      exists stN. split; [exact H4|exact H5].
    + apply finish_split in H; [|exists [91; 94]; reflexivity|exact Hne|exact He].
      destruct H as (p & u & H1 & H2 & -> & H3). destruct (H3 (NS [] false) eq_refl) as (stN & H4 & H5).
      assert (p = [91; 94]) as -> by (apply (app_inv_tail (d :: s3)); symmetry; exact H1).
      exists stN. split; [|exact H5]. cbn [app] in H4 |- *.
      destruct u as [|d' u].
      { cbn [app] in H2. injection H2 as H2. contradiction. }
      cbn [app] in *. injection H2 as <- _. unfold parse_presentation_set. change (94 =? 94) with true. cbv iota.
      destruct (Z.eqb_spec d 93); [contradiction|]. exact H4.
  - destruct (Z.eqb_spec c 93) as [->|Hn93]; [injection H as _ _ <-; cbn in HL; lia|].
    apply finish_split in H; [|exists [91]; reflexivity|exact Hne|exact He].
    destruct H as (p & u & H1 & H2 & -> & H3). destruct (H3 (NS [] false) eq_refl) as (stN & H4 & H5).
    assert (p = [91]) as -> by (apply (app_inv_tail (c :: s2)); symmetry; exact H1).
    exists stN. split; [|exact H5]. cbn [app] in H4 |- *.
    destruct u as [|c' u].
    { cbn [app] in H2. injection H2 as H2. contradiction. }
    cbn [app] in *. injection H2 as <- _. unfold parse_presentation_set.
    destruct (Z.eqb_spec c 94); [contradiction|]. destruct (Z.eqb_spec c 93); [contradiction|]. exact H4.
Qed.

(** The set in a parsed format-spec can be parsed again. *)
Definition set_again (e : enc) (sp : specs) : Prop :=
  type sp = PStringSet -> exists st, parse_presentation_set nonascii_handler e (charset_string sp) (NS [] false)
    = Ok ([], st, charset_string sp) /\ ns_err st = false.
Definition no_set (sp : specs) : Prop := type sp = PNone.
Lemma presentation_set_again cf s st s' st' :
  do_presentation cf s st = Ok (s', st') -> ss_err st' = false -> no_set (ss_specs st) -> set_again (c_enc cf) (ss_specs st').
Proof.
  intros H HE Hno. unfold do_presentation in H. destruct s as [|c s]; [discriminate|].
  destruct (c =? 91).
  - apply ok_bind in H. destruct H as ([[s2 st2] set] & HP & H). cbn beta iota in H.
    destruct (Nat.leb_spec (length set) 2); [injection H as <- <-; discriminate HE|].
    injection H as <- <-. intros _. cbn [on_character_set_string s_upd ss_specs charset_string set_type set_string].
    cbn in HE. assert (HE0 : ss_err st = false).
    { destruct (ss_err st) eqn:ES; [|reflexivity]. exfalso.
      assert (G : forall s, match parse_presentation_set specs_set_handler (c_enc cf) s st with Ok (_, x, _) => ss_err x = true | _ => True end); [|specialize (G (c :: s)); rewrite HP in G; congruence].
      assert (GF : forall s s2 st, ss_err st = true -> match finish_set specs_set_handler (c_enc cf) s s2 st with Ok (_, x, _) => ss_err x = true | _ => True end).
      { intros q q2 sx Hx. unfold finish_set. destruct q2 as [|y q2]; cbn [length parse_set_loop sh_failed specs_set_handler sh_error bind]; [reflexivity|].
        rewrite Hx. reflexivity. }
      clear - ES GF. intros s. unfold parse_presentation_set. destruct s as [|c s]; [exact I|].
      destruct (Z.eq_dec c 91) as [->|Hc].
      2:{ destruct c as [|q|q]; try exact I. do 7 (destruct q as [q|q|]; try exact I). congruence. }
      destruct s as [|c s]; [reflexivity|]. destruct (c =? 94).
      - destruct s as [|d s]; [reflexivity|]. destruct (d =? 93); cbn [sh_single specs_set_handler bind]; apply GF; exact ES.
      - destruct (c =? 93); [exact ES|apply GF, ES]. }
    eapply presentation_again; [exact HP|exact HE0|lia].
  - destruct (c =? 47).
    + intros HT. exfalso. revert HT. unfold parse_presentation_regex in H. destruct (negb (c_regex cf)); [injection H as <- <-; discriminate HE|].
      destruct s as [|d s].
      { destruct (Z.eq_dec c 47) as [->|]; [|destruct c as [|q|q]; try discriminate; do 6 (destruct q as [q|q|]; try discriminate); congruence].
        destruct (negb (c_regex_wide cf) && _); injection H as <- <-; discriminate HE. }
      assert (HX : forall x, regex_end 47 (d :: s) PRegex = x -> snd x <> PStringSet).
      { intros x <-. generalize 47 as prev. assert (HG : PRegex <> PStringSet) by discriminate. revert HG. generalize PRegex as t.
        generalize (d :: s). intros l. induction l as [|z l IH]; intros t Ht prev; cbn [regex_end]; [exact Ht|].
        destruct (z =? 47); [destruct (negb (prev =? 92)); [exact Ht|apply IH; discriminate]|apply IH, Ht]. }
      destruct (Z.eq_dec c 47) as [->|]; [|destruct c as [|q|q]; try discriminate; do 6 (destruct q as [q|q|]; try discriminate); congruence].
      destruct (negb (c_regex_wide cf) && _); [injection H as <- <-; discriminate HE|].
      destruct (regex_end 47 (d :: s) PRegex) as [s2 t] eqn:ER. specialize (HX _ eq_refl). cbn [snd] in HX.
      destruct s2 as [|e2 s3]; [injection H as <- <-; discriminate HE|].
      destruct (firstn _ _) as [|p0 p1]; [injection H as <- <-; discriminate HE|].
      destruct s3 as [|e3 s3]; [injection H as <- <-; discriminate HE|].
      assert (HF : forall l fl st s4 st4 o, regex_flags_loop cf l fl st = (s4, st4, o) -> ss_specs st4 = ss_specs st).
      { induction l as [|z l IH]; intros fl sx s4 st4 o; cbn [regex_flags_loop].
        - intros [= _ <- _]. reflexivity.
        - destruct (z =? 125); [intros [= _ <- _]; reflexivity|]. destruct (regex_flag z); [|intros [= _ <- _]; reflexivity].
          destruct (negb _); [intros [= _ <- _]; reflexivity|]. intros E. apply IH in E. rewrite E. destruct (_ && _); reflexivity. }
      destruct (regex_flags_loop _ _ _ _) as [[s4 st4] o] eqn:EF. apply HF in EF. cbn [s_upd ss_specs] in EF.
      destruct o as [f|].
      * destruct s4 as [|e4 s4]; injection H as <- <-; [discriminate HE|]. cbn [s_upd ss_specs type set_flags]. rewrite EF. exact HX.
      * injection H as <- <-. rewrite EF. exact HX.
    + apply ok_bind in H. destruct H as (t & HT & H).
      intros HT2. exfalso. destruct t; injection H as <- <-; cbn in HT2; try discriminate.
      unfold parse_presentation_type in HT. revert HT. clear. 
      repeat match goal with |- (if ?b then _ else _) = _ -> _ => destruct b; [discriminate|] end; try discriminate.
Qed.

(** Everything before the presentation type leaves the type alone. *)
Lemma parse_set_again cf t s s' sp :
  parse_format_specs cf t s (SS specs_default false) = Ok (s', SS sp false) -> set_again (c_enc cf) sp.
Proof.
  intros H.
  assert (HT : forall s st s' sp, no_set (ss_specs st) -> parse_specs_tail cf t s st = Ok (s', SS sp false) -> set_again (c_enc cf) sp).
  { clear. intros s st s' sp Hn H. unfold parse_specs_tail in H. destruct s as [|c s]; [discriminate|].
    apply ok_bind in H. destruct H as ([s1 st1] & E & H). cbn beta iota in H.
    assert (Hn1 : no_set (ss_specs st1)).
    { destruct (c =? 76); [|injection E as _ <-; exact Hn]. apply ok_bind in E. destruct E as (x & E & E2).
      injection E2 as _ <-. unfold on_localized in E. apply ok_bind in E. destruct E as (cat & _ & E).
      destruct cat; injection E as <-; exact Hn. }
    destruct s1 as [|c1 s1]; [discriminate|].
    apply ok_bind in H. destruct H as ([s2 st2] & E2 & H). cbn beta iota in H.
    destruct s2 as [|c2 s2]; [discriminate|]. injection H as _ ->.
    destruct (negb (c1 =? 125)).
    - change sp with (ss_specs (SS sp false)). eapply presentation_set_again; [exact E2|reflexivity|exact Hn1].
    - injection E2 as _ _ Es. rewrite Es in Hn1. intros HX. unfold no_set in Hn1. cbn [ss_specs] in Hn1. rewrite HX in Hn1. discriminate Hn1. }
  unfold parse_format_specs in H. destruct (specs_shortcut s).
  { change sp with (ss_specs (SS sp false)). eapply presentation_set_again; [exact H|reflexivity|reflexivity]. }
  destruct s as [|c s]; [discriminate|].
  apply ok_bind in H. destruct H as ([s1 st1] & E1 & H). cbn beta iota in H.
  assert (H1 : no_set (ss_specs st1)).
  { clear H. unfold parse_align in E1. cbv zeta in E1. destruct (_ || _); [injection E1 as _ <-; reflexivity|].
    destruct (skipn _ _) as [|a after]; [injection E1 as _ <-; reflexivity|].
    destruct (_ && _); [injection E1 as _ <-; reflexivity|]. destruct (_ && _); [injection E1 as _ <-; reflexivity|].
    destruct (check_align a); try (apply ok_bind in E1; destruct E1 as (st2 & E2 & E1); injection E1 as _ <-;
      unfold on_fill in E2; apply ok_bind in E2; destruct E2 as (f & _ & E2); injection E2 as <-; reflexivity).
    destruct (check_align c); injection E1 as _ <-; reflexivity. }
  destruct s1 as [|c1 s1]; [discriminate|].
  apply ok_bind in H. destruct H as ([s2 st2] & E2 & H). cbn beta iota in H.
  assert (H2 : no_set (ss_specs st2)).
  { clear H. unfold parse_width in E2. destruct (is_digit c1); [|injection E2 as _ <-; exact H1].
    apply ok_bind in E2. destruct E2 as ([w x] & _ & E2). cbn beta iota in E2. destruct (w =? -1); injection E2 as _ <-; [exact H1|].
    unfold on_width. destruct (_ && _); exact H1. }
  destruct s2 as [|c2 s2]; [discriminate|]. destruct (c2 =? 46).
  - destruct s2 as [|c3 s2]; [discriminate|].
    apply ok_bind in H. destruct H as ([s3 st3] & E3 & H). cbn beta iota in H.
    assert (H3 : no_set (ss_specs st3)).
    { clear H. unfold parse_precision in E3. destruct (is_digit c3); [|injection E3 as _ <-; exact H2].
      apply ok_bind in E3. destruct E3 as ([w x] & _ & E3). cbn beta iota in E3. destruct (w =? -1); injection E3 as _ <-; [exact H2|].
      unfold on_precision. destruct (_ <? _); exact H2. }
    destruct s3 as [|c4 s3]; [discriminate|]. eapply HT; [exact H3|exact H].
  - eapply HT; [exact H2|exact H].
Qed.

(** ** The readers *)
(** An external engine matches a prefix, or fails. *)
Definition engine_ok (rx : regex_engine) : Prop := forall p f s,
  (exists e, rx p f s = Err e) \/ exists s', rx p f s = Ok s' /\ suffix s' s.

(** What has been stored is the part of the source that was read. *)
Definition stored (d : dest) (e : enc) (v part : list Z) : Prop :=
  validate_unicode e part = Ok true
  /\ match d with DString to => e <> to \/ v = part | DView to alloc => alloc = false /\ to = e /\ v = part end.
Definition stores (d : dest) (e : enc) (s : list Z) (x : outcome (list Z * list Z)) : Prop :=
  (exists err, x = Err err) \/ exists v part it, x = Ok (v, it) /\ s = part ++ it /\ stored d e v part.
Lemma store_stores d e s it : suffix it s -> stores d e s (store d e s it).
Proof.
  intros H. destruct (store_total d e s it H) as [HE|(v & part & H1 & H2 & H3 & H4)]; [left; exact HE|].
  right. exists v, part, it. unfold stored. auto.
Qed.
Lemma until_units_suffix needle s : suffix (read_until_code_units needle s) s.
Proof. induction s as [|c s IH]; cbn [read_until_code_units]; [apply suffix_refl|]. destruct (starts_with _ _); auto with sfx. Qed.

Lemma string_specs_total rx d r sp s : engine_ok rx -> units (s_enc r) s ->
  fill_safe (s_enc r) (fill sp) -> set_again (s_enc r) sp ->
  stores d (s_enc r) s (string_specs rx d r sp s).
Proof.
  intros Hrx Hu Hf Hset. unfold string_specs.
  assert (HRX : forall p f, stores d (s_enc r) s (regex_read rx d r p f s)).
  { intros p f. unfold regex_read. destruct (negb _); [left; eexists; reflexivity|].
    destruct (Hrx p f s) as [[e ->]|(s' & -> & Hs)]; [left; eexists; reflexivity|]. cbn [bind]. apply store_stores, Hs. }
  destruct (string_kind_of sp) eqn:EK; try apply HRX.
  - unfold word_read. destruct (read_until_classic_space_total r s Hu) as (s' & -> & Hs). cbn [bind]. apply store_stores, Hs.
  - unfold custom_word_read. destruct (f_size (fill sp) <=? unit_size (s_enc r))%nat eqn:E.
    + apply store_stores, find_if_suffix.
    + destruct Hf as [Hf|[-> Hf]]; [apply Nat.leb_gt in E; lia|]. apply store_stores, until_units_suffix.
  - unfold character_read. destruct (_ =? _); [left; eexists; reflexivity|]. apply store_stores, suffix_nil.
  - unfold set_read, set_source.
    assert (HT : type sp = PStringSet).
    { unfold string_kind_of in EK. destruct (type sp); try discriminate; [|reflexivity]. destruct (align sp); discriminate. }
    destruct (Hset HT) as (st & HP & HE).
    assert (HN : exists rs, handle_nonascii (s_enc r) sp = Ok rs).
    { unfold handle_nonascii. destruct (negb _); [eauto|]. rewrite HP. cbn [bind]. rewrite HE.
      assert (HQ : forall l, list_eqb l l = true).
      { induction l as [|x l IH]; cbn [list_eqb]; [reflexivity|]. rewrite Z.eqb_refl. exact IH. }
      rewrite HQ. eauto. }
    destruct HN as [rs ->]. cbn [bind].
    match goal with |- context[bind (if ?c then ?a else ?b) _] => assert (HR : exists it, (if c then a else b) = Ok it /\ suffix it s) end.
    { destruct (charset_has_nonascii sp); cbv zeta.
      - destruct (charset_is_inverted sp); [apply read_until_code_point_total|apply read_while_code_point_total].
      - eexists. split; [reflexivity|]. destruct (charset_is_inverted sp); apply find_if_suffix. }
    destruct HR as (it & -> & Hs). cbn [bind]. destruct (_ =? _)%nat; [left; eexists; reflexivity|].
    cbn [bind]. apply store_stores, Hs.
Qed.

Lemma parsed_fill_safe e sp : e <> U16 -> parsed sp -> fill_safe e (fill sp).
Proof.
  intros He [_ _ _ _ [H1 H2] _]. destruct e; [|congruence|left; cbn; lia].
  right. split; [reflexivity|]. unfold get_code_units. intros E. apply (f_equal (@length Z)) in E.
  rewrite firstn_length, H1 in E. cbn [length] in E. lia.
Qed.
Theorem string_arg_total rx d r sp s : s_enc r <> U16 -> engine_ok rx -> units (s_enc r) s ->
  parsed sp -> set_again (s_enc r) sp ->
  (exists e, string_arg rx d r sp s = Err e)
  \/ exists v rest pre part post, string_arg rx d r sp s = Ok (v, rest) /\ s = pre ++ part ++ post ++ rest
     /\ stored d (s_enc r) v part.
Proof.
  intros He Hrx Hu Hp Hset. unfold string_arg, arg_read_checked, string_reader. cbn [rd_check rd_skip rd_specs].
  destruct (check_string_type_specs sp); [|left; eexists; reflexivity].
  assert (Hf := parsed_fill_safe _ _ He Hp). assert (HP := p_prec _ Hp).
  assert (HS : forall v, units (s_enc r) v -> stores d (s_enc r) v (string_specs rx d (seen r sp) sp v)).
  { intros v Hv. assert (EQ : s_enc (seen r sp) = s_enc r) by (unfold seen; destruct (_ =? _); reflexivity).
    rewrite <- EQ. apply string_specs_total; rewrite ?EQ; assumption. }
  destruct (arg_read_total r sp (string_skip sp) ltac:(lia) Hf _ (fun r' => string_specs rx d r' sp)) with (s := s)
    as [[e ->]|(x & rest & -> & pre & value & post & v' & t & H1 & H2 & H3)].
  - intros v Hv. destruct (HS v Hv) as [H|(w & part & it & H1 & H2 & _)]; [left; exact H|].
    right. exists w, it. split; [exact H1|exists part; exact H2].
  - exact Hu.
  - left. eexists; reflexivity.
  - right. exists x, rest, pre, value, post. split; [reflexivity|]. split; [exact H1|].
    assert (Hv : units (s_enc r) (value ++ v')).
    { assert (units (s_enc r) (value ++ v' ++ t)).
      { eapply units_suffix; [|exact Hu]. exists pre. rewrite H1, H3. reflexivity. }
      rewrite app_assoc in H. exact (units_prefix _ _ _ H). }
    destruct (HS _ Hv) as [[e HE]|(w & part & it & E1 & E2 & E3)]; [congruence|].
    rewrite H2 in E1. injection E1 as <- <-. apply app_inv_tail in E2. subst part. exact E3.
Qed.
Theorem string_default_total d r s : units (s_enc r) s ->
  (exists e, string_default d r s = Err e)
  \/ exists v rest pre part, string_default d r s = Ok (v, rest) /\ s = pre ++ part ++ rest
     /\ stored d (s_enc r) v part.
Proof.
  intros Hu. unfold string_default, default_read, skip_ws_before_if_required.
  destruct s as [|c s]; [left; eexists; reflexivity|].
  destruct (skip_classic_whitespace_total r (c :: s) false Hu) as [(it & -> & Hs)| ->]; [|left; eexists; reflexivity].
  cbn [bind]. unfold word_read.
  destruct (read_until_classic_space_total r it) as (s' & -> & Hs'); [eapply units_suffix; eassumption|].
  cbn [bind]. destruct (store_stores d (s_enc r) it s' Hs') as [H|(v & part & it' & H1 & H2 & H3)]; [left; exact H|].
  right. destruct Hs as [pre Hs]. exists v, it', pre, part. split; [exact H1|]. split; [rewrite Hs, H2; reflexivity|exact H3].
Qed.
