(** Integer reading is total: a value and a position inside the source, or an error. *)
From Verif Require Import Prelude Tables BitsModel UnicodeModel UnicodeProofs ReadModel ReadProofs
  SpecsModel IntModel IntSpec IntProofs.
Local Open Scope Z_scope.

(** A value in range and a position in the source, or an error. *)
Definition sound_result (t : inttype) (s : list Z) (x : outcome (Z * list Z)) : Prop :=
  (exists v s', x = Ok (v, s') /\ suffix s' s /\ in_range (it_signed t) (it_bits t) v)
  \/ exists e, x = Err e.

Lemma nocase_suffix r str s it : read_matching_string_classic_nocase r str s = inl it -> suffix it s.
Proof.
  unfold read_matching_string_classic_nocase. destruct (_ <? _)%nat; [discriminate|].
  destruct (match s_enc r with U8 => _ | _ => _ end); [|discriminate]. intros [= <-]. apply suffix_skipn.
Qed.
Lemma code_unit_suffix c s it : read_matching_code_unit c s = inl it -> s = c :: it.
Proof.
  destruct s as [|d s]; [discriminate|]. cbn. destruct (Z.eqb_spec d c); [|discriminate].
  intros [= <-]. congruence.
Qed.
Lemma oct_suffix r s it z : parse_integer_oct_base_prefix r s = (inl it, z) ->
  suffix it s /\ (z = true -> s <> []).
Proof.
  unfold parse_integer_oct_base_prefix.
  destruct (read_matching_string_classic_nocase r [48; 111] s) eqn:E.
  - intros [= <- <-]. split; [eapply nocase_suffix, E|discriminate].
  - destruct (read_matching_code_unit 48 s) eqn:F; [|discriminate]. apply code_unit_suffix in F.
    intros [= <- <-]. subst s. split; [apply suffix_cons, suffix_refl|discriminate].
Qed.

Lemma base_prefix_total r s b it b' z : b = 0 \/ base_ok b ->
  parse_integer_base_prefix r s b = (it, b', z) ->
  suffix it s /\ base_ok b' /\ (z = true -> s <> []).
Proof.
  unfold base_ok. intros Hb. unfold parse_integer_base_prefix.
  destruct (Z.eqb_spec b 2) as [->|].
  { intros [= <- <- <-]. split; [|split; [lia|discriminate]].
    unfold apply_opt. destruct (parse_integer_bin_base_prefix r s) eqn:E; [eapply nocase_suffix, E|apply suffix_refl]. }
  destruct (Z.eqb_spec b 8) as [->|].
  { destruct (parse_integer_oct_base_prefix r s) as [x z0] eqn:E. intros [= <- <- <-]. destruct x as [l|q].
    - apply oct_suffix in E. cbn [apply_opt]. intuition lia.
    - cbn [apply_opt]. split; [apply suffix_refl|]. split; [lia|].
      unfold parse_integer_oct_base_prefix in E.
      destruct (read_matching_string_classic_nocase r [48; 111] s); [discriminate|].
      destruct (read_matching_code_unit 48 s); [discriminate|]. injection E as _ <-. discriminate. }
  destruct (Z.eqb_spec b 16) as [->|].
  { intros [= <- <- <-]. split; [|split; [lia|discriminate]].
    unfold apply_opt. destruct (parse_integer_hex_base_prefix r s) eqn:E; [eapply nocase_suffix, E|apply suffix_refl]. }
  destruct (Z.eqb_spec b 0) as [->|].
  2:{ intros [= <- <- <-]. split; [apply suffix_refl|]. split; [lia|discriminate]. }
  unfold parse_integer_base_prefix_for_detection.
  destruct (parse_integer_hex_base_prefix r s) eqn:E1.
  { intros [= <- <- <-]. split; [eapply nocase_suffix, E1|]. split; [lia|discriminate]. }
  destruct (parse_integer_bin_base_prefix r s) eqn:E2.
  { intros [= <- <- <-]. split; [eapply nocase_suffix, E2|]. split; [lia|discriminate]. }
  destruct (parse_integer_oct_base_prefix r s) as [[l|q] z0] eqn:E3.
  { intros [= <- <- <-]. apply oct_suffix in E3. intuition lia. }
  intros [= <- <- <-]. split; [apply suffix_refl|]. split; [lia|discriminate].
Qed.

Lemma prefix_total r s b : b = 0 \/ base_ok b ->
  (exists p, parse_integer_prefix r s b = Ok p /\ suffix (pr_it p) s /\ base_ok (pr_base p)
     /\ pr_sign p <> DefaultSign /\ (pr_zero p = true -> pr_it p <> []))
  \/ exists e, parse_integer_prefix r s b = Err e.
Proof.
  intros Hb. unfold parse_integer_prefix.
  destruct (parse_numeric_sign s) as [[text sg]|e| |] eqn:E; cbn [bind]; [|eauto| |].
  2,3: exfalso; revert E; unfold parse_numeric_sign; destruct s as [|c s]; [cbn; discriminate|];
       cbn [read_one_of_code_unit existsb]; destruct (c =? 43); cbn [orb]; destruct (c =? 45); cbn [orb]; discriminate.
  apply sign_suffix in E. destruct E as [_ [k ->]]. left.
  destruct (parse_integer_base_prefix r (skipn k s) b) as [[it b'] z] eqn:E.
  apply base_prefix_total in E; [|exact Hb]. destruct E as (H1 & H2 & H3).
  assert (HS : (match sg with DefaultSign => PlusSign | _ => sg end) <> DefaultSign) by (destruct sg; discriminate).
  assert (H4 : suffix it s) by (eapply suffix_trans; [exact H1|apply suffix_skipn]).
  destruct z.
  - destruct (not_digit_of 8 it); eexists; (split; [reflexivity|]); cbn [pr_it pr_base pr_sign pr_zero];
      (split; [auto using suffix_skipn|split; [exact H2|split; [exact HS|auto; discriminate]]]).
  - eexists. split; [reflexivity|]. cbn [pr_it pr_base pr_sign pr_zero].
    split; [destruct (not_digit_of b' it); auto using suffix_skipn|]. split; [exact H2|split; [exact HS|discriminate]].
Qed.

Lemma enc_ok_suffix e a b : suffix a b -> enc_ok e b -> enc_ok e a.
Proof. intros [p ->] H. apply enc_ok_app in H. apply H. Qed.


Lemma starts_dec b s : starts_with_digit b s \/ ~ starts_with_digit b s.
Proof.
  destruct s as [|c s]; [right; intros []|]. cbn [starts_with_digit].
  destruct (digitb b c) eqn:E; [left; apply digitb_is_digit, E|right].
  intros H. apply digitb_is_digit in H. congruence.
Qed.

Lemma read_digits_total r t p : type_ok t -> base_ok (pr_base p) -> enc_ok (s_enc r) (pr_it p) ->
  pr_sign p <> DefaultSign -> (it_signed t = false -> is_minus (pr_sign p) = false) ->
  sound_result t (pr_it p) (read_digits r t p).
Proof.
  intros Ht Hb He Hd Hs. destruct (starts_dec (pr_base p) (pr_it p)) as [Hx|Hx].
  - destruct (run_exists _ _ Hx) as (ds & rest & Hr).
    destruct (read_digits_run r t p ds rest Ht Hb He Hr Hd Hs) as (_ & _ & [H|[H1 H2]]); [right; eauto|].
    left. do 2 eexists. split; [exact H2|]. split; [destruct Hr as (-> & _); exists ds; reflexivity|].
    apply limit_fits; try assumption. apply wrap64_range.
  - right. rewrite read_digits_none by assumption. eauto.
Qed.

Lemma range_0 t : type_ok t -> in_range (it_signed t) (it_bits t) 0.
Proof. intros Ht. unfold in_range. on_types t Ht; pows; lia. Qed.

Lemma sound_suffix t a b x : suffix a b -> sound_result t a x -> sound_result t b x.
Proof.
  intros H [(v & s' & E & H1 & H2)|H1]; [left|right; exact H1].
  exists v, s'. split; [exact E|]. split; [eapply suffix_trans; eassumption|exact H2].
Qed.

Lemma next1_total t s : type_ok t -> s <> [] ->
  sound_result t s (it <- next1 s ;; Ok (0, it)).
Proof.
  intros Ht Hs. destruct s as [|c s]; [contradiction|]. left. exists 0, s. split; [reflexivity|].
  split; [apply suffix_cons, suffix_refl|apply range_0, Ht].
Qed.

Theorem int_default_total r t s b : type_ok t -> enc_ok (s_enc r) s -> b = 0 \/ base_ok b ->
  sound_result t s (int_read_default_with_base r t s b).
Proof.
  intros Ht He Hb. unfold int_read_default_with_base.
  destruct (prefix_total r s b Hb) as [(p & -> & H1 & H2 & H3 & H4)|[e ->]]; cbn [bind]; [|right; eauto].
  destruct (negb (it_signed t) && is_minus (pr_sign p)) eqn:EM; [right; eauto|].
  apply (sound_suffix t (pr_it p)); [exact H1|].
  destruct (pr_zero p); [apply next1_total; auto|].
  apply read_digits_total; auto; [eapply enc_ok_suffix; eassumption|].
  intros E. rewrite E in EM. exact EM.
Qed.

Lemma thsep_loop_units sep b s : forall i out idx m it out' idx' m',
  thsep_loop sep b s i out idx m = (it, out', idx', m') ->
  exists ds, out' = out ++ ds /\ (forall P : Z -> Prop, Forall P s -> Forall P ds)
    /\ (m' = true -> m = true \/ ds <> []).
Proof.
  induction s as [|c s IH]; intros i out idx m it out' idx' m'; cbn [thsep_loop].
  - intros [= <- <- <- <-]. exists []. rewrite app_nil_r. auto.
  - destruct (c =? sep).
    + intros E. apply IH in E. destruct E as (ds & E1 & E2 & E3). exists ds. split; [exact E1|]. split; [|exact E3].
      intros P HP. apply E2. inversion HP; assumption.
    + destruct (b <=? char_to_int c).
      * intros [= <- <- <- <-]. exists []. rewrite app_nil_r. auto.
      * intros E. apply IH in E. destruct E as (ds & E1 & E2 & E3). exists (c :: ds).
        rewrite <- app_assoc in E1. split; [exact E1|]. split; [|right; discriminate].
        intros P HP. inversion HP; subst. constructor; auto.
Qed.

Lemma piv_total e t s sign b : type_ok t -> base_ok b -> enc_ok e s -> s <> [] ->
  sign <> DefaultSign -> (it_signed t = false -> is_minus sign = false) ->
  sound_result t s (parse_integer_value e t s sign b).
Proof.
  intros Ht Hb He Hne Hd Hs. destruct (starts_dec b s) as [Hx|Hx].
  - destruct (run_exists _ _ Hx) as (ds & rest & Hr).
    destruct (piv_run e t s ds rest sign b Ht Hb He Hr Hd Hs) as (_ & _ & [H|[H1 H2]]); [right; eauto|].
    left. do 2 eexists. split; [exact H2|]. split; [destruct Hr as (-> & _); exists ds; reflexivity|].
    apply limit_fits; try assumption. apply wrap64_range.
  - right. destruct s as [|c s]; [contradiction|]. rewrite piv_no_digit by assumption. eauto.
Qed.

Theorem int_specs_total r t sp sep s b : type_ok t -> enc_ok (s_enc r) s ->
  get_base sp = Ok b -> b = 0 \/ base_ok b ->
  sound_result t s (int_read_specs r t sp sep s).
Proof.
  intros Ht He Hg Hb. unfold int_read_specs. rewrite Hg. cbn [bind].
  destruct (prefix_total r s b Hb) as [(p & -> & H1 & H2 & H3 & H4)|[e ->]]; cbn [bind]; [|right; eauto].
  destruct (is_minus (pr_sign p) && (negb (it_signed t) || ptype_eqb (type sp) PIntUnsignedDecimal)) eqn:EM;
    [right; eauto|].
  assert (HM : it_signed t = false -> is_minus (pr_sign p) = false).
  { intros E. rewrite E in EM. cbn [negb orb] in EM. rewrite andb_true_r in EM. exact EM. }
  assert (HE : enc_ok (s_enc r) (pr_it p)) by (eapply enc_ok_suffix; eassumption).
  apply (sound_suffix t (pr_it p)); [exact H1|].
  destruct (pr_zero p); [apply next1_total; auto|].
  destruct (localized sp); cbn [negb]; [|apply read_digits_total; auto].
  unfold parse_integer_digits_with_thsep.
  destruct (thsep_loop sep (pr_base p) (pr_it p) 0 [] [] false) as [[[it out] idx] m] eqn:EL.
  destruct m; cbn [bind]; [|right; eauto].
  apply thsep_loop_units in EL. destruct EL as (ds & -> & HF & HN). cbn [app].
  assert (HD : ds <> []) by (destruct (HN eq_refl); [discriminate|assumption]).
  destruct (piv_total (s_enc r) t ds (pr_sign p) (pr_base p)) as [(v & s' & E & _ & Hr)|[e E]];
    auto; [intros Eq; apply HF, HE, Eq| |]; rewrite E; cbn [bind]; [left|right; eauto].
  do 2 eexists. split; [reflexivity|]. split; [apply suffix_skipn|exact Hr].
Qed.

(** ** C45 *)
Theorem C45_default : forall r t s b, type_ok t -> enc_ok (s_enc r) s -> b = 0 \/ 2 <= b <= 36 ->
  (exists v rest, int_read_default_with_base r t s b = Ok (v, rest)
     /\ (exists consumed, s = consumed ++ rest) /\ in_range (it_signed t) (it_bits t) v)
  \/ exists e, int_read_default_with_base r t s b = Err e.
Proof. exact int_default_total. Qed.
Print Assumptions C45_default.
Theorem C45_specs : forall r t sp sep s b, type_ok t -> enc_ok (s_enc r) s ->
  get_base sp = Ok b -> b = 0 \/ 2 <= b <= 36 ->
  (exists v rest, int_read_specs r t sp sep s = Ok (v, rest)
     /\ (exists consumed, s = consumed ++ rest) /\ in_range (it_signed t) (it_bits t) v)
  \/ exists e, int_read_specs r t sp sep s = Err e.
Proof. exact int_specs_total. Qed.
Print Assumptions C45_specs.
(** Including the byte 0x10, which the case-insensitive comparison takes for '0'. *)
Example C45_ex :
  int_read_default_with_base string_src (IT true 32) [0x10; 120; 49; 50; 0xff] 0 = Ok (18, [0xff])
  /\ int_read_default_with_base string_src (IT true 32) [48] 8 = Ok (0, [])
  /\ (exists e, int_read_default_with_base string_src (IT true 32) [45] 10 = Err e)
  /\ (exists e, int_read_default_with_base string_src (IT true 32) [] 0 = Err e).
Proof. vm_compute. eauto 6. Qed.
