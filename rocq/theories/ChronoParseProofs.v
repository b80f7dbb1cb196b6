(** Proofs about the parser of chrono formats. *)
From Coq Require Import String Ascii.
From Verif Require Import Prelude UnicodeModel UnicodeSpec FormatSpec VscanSpec FormatSpecProofs
  SpecsInvProofs ChronoModel ChronoSpec.
Import Coq.Strings.String.StringSyntax.
Local Open Scope string_scope.
Local Open Scope list_scope.
Local Open Scope Z_scope.

(** What the parser takes a token for: the same but for %OW. *)
Definition taken (l : string) : option event :=
  if (l =? "OW")%string then Some (OnConv Dec1Weekday AltO) else meaning l.

Definition all_letters : list string := "%" :: "n" :: "t" :: map fst conversions.
Lemma meaning_letters l ev : meaning l = Some ev -> In l all_letters.
Proof.
  unfold meaning, all_letters.
  destruct (l =? "%")%string eqn:E1; [apply String.eqb_eq in E1; subst; intros; now left|].
  destruct (l =? "n")%string eqn:E2; [apply String.eqb_eq in E2; subst; intros; right; now left|].
  destruct (l =? "t")%string eqn:E3; [apply String.eqb_eq in E3; subst; intros; right; right; now left|].
  cbn [orb]. destruct (find _ _) as [x|] eqn:F; [|discriminate].
  intros _. apply find_some in F. destruct F as [F Hx]. apply String.eqb_eq in Hx. subst l.
  right; right; right. now apply in_map.
Qed.

(** What the parser does on the letters of a conversion specifier *)
Lemma conv_all : Forall (fun l => forall St (on : event -> St -> outcome St) p st,
  match taken l with
  | Some ev => parse_conv St on (codes l ++ p) st
               = (st' <- on ev st ;; Ok (Some (p, st'), (p, st')))
  | None => False
  end) all_letters.
Proof.
  unfold all_letters, conversions, map, fst.
  repeat (apply Forall_cons; [intros St on p st|]); [..|apply Forall_nil];
    (match goal with |- context [taken ?l] =>
       let v := eval vm_compute in (taken l) in change (taken l) with v end;
     match goal with |- context [codes ?l] =>
       let v := eval vm_compute in (codes l) in change (codes l) with v end;
     cbn [app parse_conv on_conv Z.eqb Pos.eqb orb plain_conv e_conv o_conv]; reflexivity).
Qed.
Lemma conv_taken St (on : event -> St -> outcome St) l ev p st :
  meaning l <> None -> taken l = Some ev ->
  parse_conv St on (codes l ++ p) st = (st' <- on ev st ;; Ok (Some (p, st'), (p, st'))).
Proof.
  intros M H. destruct (meaning l) as [x|] eqn:E; [|congruence].
  apply meaning_letters in E. pose proof (proj1 (Forall_forall _ _) conv_all l E St on p st) as G.
  now rewrite H in G.
Qed.
Lemma taken_some l : meaning l <> None -> exists ev, taken l = Some ev.
Proof.
  unfold taken. destruct (l =? "OW")%string; [eauto|].
  destruct (meaning l); [eauto|congruence].
Qed.
Lemma taken_meaning l : l <> "OW" -> taken l = meaning l.
Proof. intros H. unfold taken. now destruct (String.eqb_spec l "OW"). Qed.

(** [calls] with the meaning the parser gives *)
Fixpoint made_calls (e : enc) (u : list Z) (ts : list token) : list (event * bool) :=
  match ts with
  | [] => as_text u
  | TLit cp :: ts' => made_calls e (u ++ encode e cp) ts'
  | TSpace cp :: ts' => as_text u ++ (OnWhitespace, false) :: made_calls e [] ts'
  | TConv l :: ts' =>
      as_text u ++ (match taken l with Some ev => [(ev, true)] | None => [(OnError, true)] end)
      ++ made_calls e [] ts'
  end.
Lemma made_calls_eq e ts : Forall (fun tk => tk <> TConv "OW") ts -> forall u,
  made_calls e u ts = calls e u ts.
Proof.
  induction 1 as [|tk ts N F IH]; intros u; [reflexivity|].
  destruct tk; cbn [made_calls calls]; rewrite ?IH; trivial.
  rewrite taken_meaning by congruence. reflexivity.
Qed.

Lemma space_cases cp : is_ws cp = true -> In cp pattern_white_space.
Proof.
  unfold is_ws. intros H. apply existsb_exists in H. destruct H as [x [I E]].
  apply Z.eqb_eq in E. now subst.
Qed.

Section Agree.
Variable St : Type.
Variable on : event -> St -> outcome St.
Variable fine : St -> bool.
Hypothesis on_nothing : forall st, on (OnText []) st = Ok st.
Definition agree (rest : list Z) (p : outcome (list Z * St)) (d : outcome (bool * St)) : Prop :=
  match d with
  | Ok (b, st') => exists q, p = Ok (q, st') /\ (b = true -> q = rest)
  | Err x => p = Err x
  | UB => p = UB
  | OutOfFuel => p = OutOfFuel
  end.
Lemma drive_app a b st : drive on fine (a ++ b) st =
  ('(go, st) <- drive on fine a st ;; if go then drive on fine b st else Ok (false, st)).
Proof.
  revert st. induction a as [|[ev chk] a IH]; intros st; cbn [app drive]; [cbn; now destruct (drive _ _ b st)|].
  destruct (on ev st) as [st'|x| |]; cbn [bind]; try reflexivity.
  destruct (chk && negb (fine st')); cbn; [reflexivity|apply IH].
Qed.
Lemma drive_text u st : drive on fine (as_text u) st = (st <- on (OnText u) st ;; Ok (true, st)).
Proof.
  destruct u; cbn [as_text drive]; [now rewrite on_nothing|].
  destruct (on _ _); reflexivity.
Qed.
Lemma agree_bind rest (x : outcome St) p d :
  (forall st, x = Ok st -> agree rest (p st) (d st)) -> agree rest (st <- x ;; p st) (st <- x ;; d st).
Proof. destruct x; cbn; auto. Qed.
Lemma text_bind u st (k : St -> outcome (list Z * St)) :
  (st' <- (match u with [] => Ok st | _ => on (OnText u) st end) ;; k st')
  = (st' <- on (OnText u) st ;; k st').
Proof. destruct u; [now rewrite on_nothing|reflexivity]. Qed.

(** Tokens as the parser sees them *)
Definition seen (e : enc) (tk : token) : Prop :=
  match tk with
  | TLit cp => encode e cp = [cp] /\ cp_len e cp = 1%nat /\ simple_space cp = false /\ cp <> 37 /\ cp <> 125
  | TSpace cp => is_ws cp = true /\ (cp < 128 \/ (1 < length (encode e cp))%nat)
  | TConv l => meaning l <> None
  end.
Lemma write_length e tk : seen e tk -> (1 <= length (write e tk))%nat.
Proof.
  destruct tk; cbn; [now intros (-> & _)| |lia].
  intros (W & _). apply space_cases in W.
  destruct e; cbn in W; repeat destruct W as [W|W]; try contradiction; subst; vm_compute; lia.
Qed.

Lemma loop_agrees e rest : e <> U16 -> at_end rest -> forall ts, Forall (seen e) ts ->
  forall fuel text st, (length (flat_map (write e) ts ++ rest) < fuel)%nat ->
  agree rest (parse_loop St on fine fuel e text (flat_map (write e) ts ++ rest) st)
        (drive on fine (made_calls e text ts ++ [(OnVerify, false)]) st).
Proof.
  intros He Hr ts F. induction F as [|tk ts Hs F IH]; intros fuel text st Hf.
  - destruct fuel as [|fuel]; [lia|]. cbn [flat_map app made_calls parse_loop].
    assert (G : agree rest (finish St on text rest st)
                  (drive on fine (as_text text ++ [(OnVerify, false)]) st)).
    { rewrite drive_app, drive_text. unfold finish. rewrite text_bind.
      destruct (on (OnText text) st) as [st1|x| |]; cbn [bind drive]; try reflexivity.
      destruct (on OnVerify st1) as [st2|x| |]; cbn; try reflexivity. eauto. }
    destruct rest as [|c rest]; [exact G|]. cbn in Hr. subst c. cbn [Z.eqb Pos.eqb]. exact G.
  - pose proof (write_length e tk Hs) as HL.
    assert (Hf' : (length (flat_map (write e) ts ++ rest) < pred fuel)%nat)
      by (cbn [flat_map] in Hf; rewrite !app_length in *; lia).
    destruct fuel as [|fuel]; [lia|]. cbn [pred] in Hf'.
    cbn [flat_map]. rewrite <- app_assoc. set (p := flat_map (write e) ts ++ rest) in *.
    destruct tk as [cp|cp|l]; cbn [seen write made_calls] in *.
    + destruct Hs as (E & L & S1 & N1 & N2). rewrite E. cbn [app parse_loop].
      rewrite (proj2 (Z.eqb_neq cp 125)), (proj2 (Z.eqb_neq cp 37)) by assumption.
      cbn [negb]. rewrite S1, L. cbn [Nat.eqb Nat.ltb Nat.leb]. apply IH; exact Hf'.
    + rewrite <- app_assoc, drive_app, drive_text. cbn [app].
      assert (G : parse_loop St on fine (S fuel) e text (encode e cp ++ p) st
                  = (st <- on (OnText text) st ;; st <- on OnWhitespace st ;;
                     parse_loop St on fine fuel e [] p st)).
      { destruct Hs as [W Hc]. apply space_cases in W. cbn in W.
        destruct e; [|congruence|]; repeat destruct W as [W|W]; try contradiction; subst;
          try (destruct Hc as [Hc|Hc]; vm_compute in Hc; (discriminate || lia)); try reflexivity. }
      rewrite G. destruct (on (OnText text) st) as [st1|x| |]; cbn [bind drive]; try reflexivity.
      apply agree_bind. intros st2 _. apply IH. exact Hf'.
    + rewrite <- !app_assoc, drive_app, drive_text. cbn [app parse_loop Z.eqb Pos.eqb negb].
      rewrite text_bind.
      destruct (on (OnText text) st) as [st1|x| |]; cbn [bind]; try reflexivity.
      destruct (taken_some l Hs) as [ev Ev]. rewrite Ev, (conv_taken _ _ _ _ _ _ Hs Ev).
      rewrite drive_app. cbn [drive].
      destruct (on ev st1) as [st2|x| |]; cbn [bind]; try reflexivity.
      destruct (fine st2); cbn [andb negb bind]; [apply IH; exact Hf'|].
      cbn. eexists; split; [reflexivity|discriminate].
Qed.
Lemma parse_agrees e loc ts rest st : e <> U16 -> at_end rest -> Forall (seen e) ts ->
  starts_with_conv ts ->
  agree rest (parse_chrono_format_specs St on fine e (write_format e loc ts ++ rest) st)
        (drive on fine ((if loc then [(OnLocalized, false)] else []) ++ made_calls e [] ts
                        ++ [(OnVerify, false)]) st).
Proof.
  intros He Hr F Hc. destruct ts as [|[cp|cp|l] ts]; try contradiction.
  unfold write_format, parse_chrono_format_specs. cbn [flat_map write].
  destruct loc; cbn [app Z.eqb Pos.eqb drive].
  - apply agree_bind. intros st' _.
    pose proof (loop_agrees e rest He Hr _ F (S (length (37 :: codes l ++ flat_map (write e) ts ++ rest)))
                  [] st') as G.
    cbn [flat_map write] in G. rewrite <- app_assoc in G. cbn [app] in G.
    rewrite <- app_assoc. apply G. lia.
  - pose proof (loop_agrees e rest He Hr _ F (S (length (37 :: codes l ++ flat_map (write e) ts ++ rest)))
                  [] st) as G.
    cbn [flat_map write] in G. rewrite <- app_assoc in G. cbn [app] in G.
    rewrite <- app_assoc. apply G. lia.
Qed.
End Agree.

Lemma simple_seen e tk : wf_token tk -> simple_token e tk -> e <> U16 -> seen e tk.
Proof.
  destruct tk as [cp|cp|l]; cbn; intros W S0 He; [|tauto|tauto].
  destruct W as (Sc & W & N1 & N2).
  assert (E : encode e cp = [cp] /\ cp_len e cp = 1%nat).
  { destruct e; [|congruence|split; reflexivity]. cbn in *. unfold utf8_of in *.
    destruct (Z.ltb_spec cp 128); [|repeat destruct (_ <? _); discriminate].
    split; [reflexivity|].
    assert (0 <= cp) by (destruct Sc; lia).
    unfold utf8_cp_len. change (Z.shiftr 0x80 0) with 128.
    revert W N1 N2 Sc S0. pattern cp. clear He.
    assert (A : forallb (fun c => (utf8_cp_len c =? 1)%nat) (map Z.of_nat (seq 0 128)) = true)
      by (vm_compute; reflexivity).
    rewrite forallb_forall in A. intros. apply Nat.eqb_eq, A.
    apply in_map_iff. exists (Z.to_nat cp). split; [lia|]. apply in_seq. lia. }
  destruct E as [E L]. repeat split; trivial.
  unfold is_ws, pattern_white_space in W. cbn [existsb] in W. unfold simple_space. lia.
Qed.
