(** Floats are read or refused, whatever the text and the separators are (C32, C49, C51). *)
From Coq Require Import String.
From Verif Require Import Prelude Tables UnicodeModel ReadModel SpecsModel FormatModel IntModel IntSpec ReadProofs.
From Verif Require Import ArgReaderModel VscanModel VscanProofs VscanProperties ArgReaderProofs ArgReaderProperties.
From Verif Require Import FloatModel FloatSpec FloatProofs IntAsciiProofs.
Local Open Scope list_scope.
Local Open Scope Z_scope.

(** ** Where numbers end *)

(** Separators that are ASCII characters. *)
Definition low_seps (q : fseps) : Prop := ascii (sep_point q) /\ ascii (sep_thousands q).
Lemma signed_low n t : signed n t -> Forall ascii t.
Proof. intros []; repeat constructor; unfold ascii; lia. Qed.
Lemma low_digit b c : b <= 36 -> (char_to_int c <? b) = true -> ascii c.
Proof. intros Hb Hc. apply (IntAsciiProofs.digit_ascii b c). apply digitP; assumption. Qed.
Lemma significand_parts q b s : match read_significand q b s with
  | Ok it => exists c t, s = (c :: t) ++ it /\ (b <= 36 -> low_seps q -> Forall ascii (c :: t))
  | Err _ => True
  | _ => False
  end.
Proof.
  unfold read_significand, float_digits.
  match goal with |- context [read_while1_code_unit ?p s] => destruct (while1_split p s) as [(c & pre & it & -> & -> & HP & _)|[-> _]] end; [|exact I].
  assert (A : forall p x, exists t, x = t ++ apply_opt (read_while1_code_unit p x) x /\ Forall (fun c => p c = true) t).
  { intros p x. destruct (while1_split p x) as [(c' & pre' & it' & -> & -> & H' & _)|[-> _]]; cbn [apply_opt].
    - exists (c' :: pre'). auto.
    - exists []. auto. }
  assert (B : exists t, it = t ++ apply_opt (read_matching_code_unit (sep_point q) it) it /\ Forall (eq (sep_point q)) t).
  { unfold read_matching_code_unit. destruct it as [|x it']; [exists []; auto|]. destruct (Z.eqb_spec x (sep_point q)) as [-> |]; [exists [sep_point q]|exists []]; auto. }
  destruct B as (t2 & E2 & H2). set (it1 := apply_opt _ it) in *. clearbody it1. subst it.
  match goal with |- context [read_while1_code_unit ?p it1] => destruct (A p it1) as (t3 & E3 & H3) end.
  exists c, (pre ++ t2 ++ t3). split; [cbn [app]; rewrite <- !app_assoc, <- E3; reflexivity|]. intros Hb [L1 L2].
  change (c :: pre ++ t2 ++ t3) with ((c :: pre) ++ t2 ++ t3). rewrite !Forall_app. split; [|split].
  - eapply Forall_impl; [|exact HP]. cbn beta. intros x Hx. apply orb_prop in Hx. destruct Hx as [Hx|Hx]; [eapply low_digit; eauto|]. apply andb_prop in Hx. destruct Hx as [_ Hx]. apply Z.eqb_eq in Hx. subst x. exact L2.
  - eapply Forall_impl; [|exact H2]. cbn beta. intros x <-. exact L1.
  - eapply Forall_impl; [|exact H3]. cbn beta. intros x Hx. apply orb_prop in Hx. destruct Hx as [Hx|Hx]; [eapply low_digit; eauto|]. apply andb_prop in Hx. destruct Hx as [_ Hx]. apply Z.eqb_eq in Hx. subst x. exact L2.
Qed.
Lemma exponent_parts l s : exists t, s = t ++ read_exponent l s /\ (Forall ascii l -> Forall ascii t).
Proof.
  unfold read_exponent, read_one_of_code_unit. destruct s as [|c s]; [exists []; auto|].
  destruct (existsb _ l) eqn:EX; [|exists []; auto].
  assert (A : exists t, s = t ++ match parse_numeric_sign s with Ok (x, _) => x | _ => s end /\ Forall ascii t).
  { destruct s as [|x s]; [exists []; auto|]. destruct (sign_split (x :: s)) as (neg & sg & u & sign & E & Hs & -> & _); [discriminate|]. exists sg. split; [exact E|eapply signed_low, Hs]. }
  destruct A as (t & Et & Ht). set (it := match parse_numeric_sign s with Ok (x, _) => x | _ => s end) in *. clearbody it.
  destruct (while1_split (fun ch => char_to_int ch <? 10) it) as [(c' & pre' & it' & -> & -> & HP & _)|[-> _]]; [|exists []; auto].
  exists (c :: t ++ c' :: pre'). split; [rewrite Et; cbn [app]; rewrite <- app_assoc; reflexivity|]. intros Hl.
  apply existsb_exists in EX. destruct EX as (x & Hx & Ex). apply Z.eqb_eq in Ex. subst x. rewrite Forall_forall in Hl.
  constructor; [apply Hl, Hx|]. apply Forall_app. split; [exact Ht|]. eapply Forall_impl; [|exact HP]. cbn beta. intros x. apply low_digit. lia.
Qed.

(** What delimiting yields: the position behind a number which is not empty, or behind one
    of the words, whose length is known. *)
Definition numeric (k : fkind) : Prop :=
  match k with KTbd | KInfShort | KInfLong | KNan | KNanPayload => False | _ => True end.
Definition word_length (k : fkind) (payload : nat) : option nat :=
  match k with
  | KInfShort | KNan => Some 3%nat
  | KInfLong => Some 8%nat
  | KNanPayload => Some (5 + payload)%nat
  | _ => None
  end.
Definition delimited (all : bool) (q : fseps) (o : foptions) (u it : list Z) (k : fkind) (payload : nat) : Prop :=
  exists t, u = t ++ it /\ (all = false -> low_seps q -> Forall ascii t)
    /\ (word_length k payload = Some (length t)
        \/ numeric k /\ t <> [] /\ (match k with KHexWith | KHexWithout => True | _ => o_fixed o || o_scientific o = true end)).

Lemma any_case_low w t : Forall (fun l => 97 <= l <= 122) w -> any_case w t -> Forall ascii t.
Proof.
  intros Hw H. induction H as [|l c w t Hc _ IH]; [constructor|]. inversion Hw; subst.
  constructor; [unfold ascii; lia|auto].
Qed.
Lemma nan_low t : not_a_number t -> Forall ascii t.
Proof.
  assert (L3 : Forall (fun l => 97 <= l <= 122) word_nan) by (repeat constructor; lia).
  intros [H|(n & p & -> & Hn & Hp)]; [eapply any_case_low; eauto|].
  apply Forall_app. split; [eapply any_case_low; eauto|]. constructor; [unfold ascii; lia|].
  apply Forall_app. split; [|repeat constructor; unfold ascii; lia].
  eapply Forall_impl; [|exact Hp]. unfold payload_char, ascii. intros. lia.
Qed.
Lemma code_case_low r a : code_case r [48; 120] a -> Forall ascii a.
Proof.
  assert (A : Forall2 (fun l c => ascii_tolower c = l) [48; 120] a -> Forall ascii a).
  { intros F. inversion F as [|? c ? a' Hc F']; subst. inversion F' as [|? x ? a'' Hx F'']; subst. inversion F''; subst.
    unfold ascii_tolower in *. constructor; [unfold ascii; destruct ((c <? 65) || (90 <? c)) eqn:E; lia|].
    constructor; [unfold ascii; destruct ((x <? 65) || (90 <? x)) eqn:E; lia|constructor]. }
  unfold code_case. destruct (s_enc r), (s_contig r); auto. intros F. inversion F as [|? c ? a' Hc F']; subst. inversion F' as [|? x ? a'' Hx F'']; subst. inversion F''; subst.
  change (Z.lxor 48 32) with 16 in Hc. change (Z.lxor 120 32) with 88 in Hx. constructor; [unfold ascii; lia|]. constructor; [unfold ascii; lia|constructor].
Qed.
Lemma do_read_source_total r o q all u :
  o_hex o || o_fixed o || o_scientific o = true ->
  match do_read_source_impl r o q (if all : bool then all_of u else fun _ => read_regular_float o q)
          (if all then all_of u else read_hexfloat q) u with
  | Ok (it, k, payload) => delimited all q o u it k payload
  | Err _ => True
  | _ => False
  end.
Proof.
  intros Ho. unfold do_read_source_impl.
  destruct (inf_ok r u) as [(t & rest & k & -> & -> & HI & Hk & _)|[-> _]].
  { exists t. split; [reflexivity|]. split; [intros _ _; destruct HI as [HI|HI]; eapply any_case_low; try exact HI; repeat constructor; lia|]. left. destruct Hk as [[-> ->]|[-> ->]]; reflexivity. }
  destruct (nan_ok r u) as [(t & rest & k & n & -> & -> & HN & Hk & _)|[(-> & _)|[-> _]]]; [|exact I|].
  { exists t. split; [reflexivity|]. split; [intros _ _; eapply nan_low, HN|]. left. destruct Hk as [[-> ->]|[-> ->]]; reflexivity. }
  assert (All : all = true -> forall k x, numeric k -> match k with KHexWith | KHexWithout => True | _ => o_fixed o || o_scientific o = true end ->
     match ('(it, k) <- all_of u k x ;; Ok (it, k, O)) with Ok (it, k, payload) => delimited all q o u it k payload | Err _ => True | _ => False end).
  { intros Hall k x Hk Hf. unfold all_of. destruct u as [|c u]; [exact I|]. cbn [bind]. exists (c :: u). rewrite app_nil_r. split; [reflexivity|]. split; [congruence|].
    right. split; [exact Hk|]. split; [discriminate|exact Hf]. }
  assert (Hexf : forall k pre x, (k = KHexWith \/ k = KHexWithout) -> u = pre ++ x -> Forall ascii pre ->
     match ('(it, k) <- read_hexfloat q k x ;; Ok (it, k, O)) with Ok (it, k, payload) => delimited all q o u it k payload | Err _ => True | _ => False end).
  { intros k pre x Hk Ex Hpre. unfold read_hexfloat. assert (S := significand_parts q 16 x). destruct (read_significand q 16 x) as [it|e| |]; try contradiction; [|exact I].
    destruct S as (c & t & Et & Ht). cbn [bind]. destruct (exponent_parts [112; 80] it) as (t2 & E2 & H2). exists (pre ++ (c :: t) ++ t2).
    split; [rewrite Ex, Et, <- !app_assoc; do 2 f_equal; exact E2|].
    split; [intros _ HS; rewrite !Forall_app; split; [exact Hpre|]; split; [apply Ht; [lia|exact HS]|apply H2; repeat constructor; unfold ascii; lia]|]. right. split; [destruct Hk as [-> | ->]; exact I|].
    split; [destruct pre; discriminate|]. destruct Hk as [-> | ->]; exact I. }
  assert (Reg : o_fixed o || o_scientific o = true ->
     match ('(it, k) <- read_regular_float o q u ;; Ok (it, k, O)) with Ok (it, k, payload) => delimited all q o u it k payload | Err _ => True | _ => False end).
  { intros Hf. unfold read_regular_float. assert (S := significand_parts q 10 u). destruct (read_significand q 10 u) as [it|e| |]; try contradiction; [|exact I].
    destruct S as (c & t & Et & Ht). cbn [bind].
    set (it2 := if o_scientific o then read_exponent [101; 69] it else it).
    assert (E2 : exists t2, it = t2 ++ it2 /\ Forall ascii t2).
    { unfold it2; destruct (o_scientific o); [|exists []; auto]. destruct (exponent_parts [101; 69] it) as (t2 & E2 & H2). exists t2. split; [exact E2|]. apply H2. repeat constructor; unfold ascii; lia. }
    destruct E2 as (t2 & E2 & H2). clearbody it2. destruct (_ && _); [exact I|]. cbn [bind]. exists ((c :: t) ++ t2).
    split; [rewrite Et, <- app_assoc; f_equal; exact E2|].
    split; [intros _ HS; rewrite !Forall_app; split; [apply Ht; [lia|exact HS]|exact H2]|]. right. split; [destruct (_ =? _)%nat; exact I|]. split; [discriminate|].
    destruct (_ =? _)%nat; exact Hf. }
  assert (Pre : (exists pre x, u = pre ++ x /\ Forall ascii pre /\ read_hex_prefix r u = inl x) \/ exists e, read_hex_prefix r u = inr e).
  { destruct (nocase_ok r [48; 120] u) as [(a & rest & E & Ha & E')|[E _]]; [left|right; exact E]. exists a, rest. split; [exact E|]. split; [eapply code_case_low, Ha|exact E']. }
  assert (Ho' : forall b, (o_scientific o || o_fixed o = b) -> o_fixed o || o_scientific o = b) by (intros b <-; apply orb_comm).
  destruct all; cbn [negb].
  - destruct (o_hex o) eqn:Eh, (o_scientific o || o_fixed o) eqn:Ef; cbn [andb negb].
    + destruct Pre as [(pre & x & _ & _ & ->)|[e ->]]; apply All; cbn; auto.
    + destruct Pre as [(pre & x & _ & _ & ->)|[e ->]]; apply All; cbn; auto.
    + apply Reg. auto.
    + rewrite orb_comm in Ef. cbn [orb] in Ho. rewrite Ef in Ho. discriminate.
  - destruct (o_hex o) eqn:Eh, (o_scientific o || o_fixed o) eqn:Ef; cbn [andb negb].
    + destruct Pre as [(pre & x & Ex & Hx & ->)|[e ->]]; [eapply Hexf; eauto|]. apply Reg. auto.
    + destruct Pre as [(pre & x & Ex & Hx & ->)|[e ->]]; [eapply Hexf; eauto|]. apply (Hexf _ []); auto.
    + apply Reg. auto.
    + rewrite orb_comm in Ef. cbn [orb] in Ho. rewrite Ef in Ho. discriminate.
Qed.

(** ** The buffer *)

(** [n]: the separators which were removed. *)
Definition held (b : fbuffer) (t : list Z) (n : nat) : Prop :=
  exists text, (fb_string b = Some text \/ fb_string b = None /\ fb_view b = text /\ text = t)
    /\ (fb_view b = text \/ exists junk, fb_view b = text ++ 0 :: junk)
    /\ (length text + n = length t)%nat
    /\ (t <> [] -> fb_view b <> []).

Lemma filter_len {A} (g : A -> bool) l : (length (filter g l) <= length l)%nat.
Proof. induction l as [|x l IH]; cbn [filter length]; [lia|]. destruct (g x); cbn [length]; lia. Qed.
Lemma filter_same {A} (g : A -> bool) l : length (filter g l) = length l -> filter g l = l.
Proof.
  induction l as [|x l IH]; cbn [filter length]; [reflexivity|]. assert (H := filter_len g l).
  destruct (g x); cbn [length]; intros E; [f_equal; apply IH; lia|lia].
Qed.

Lemma separators_total q b t : fb_view b = t -> fb_string b = None \/ fb_string b = Some t ->
  let (b', n) := handle_separators q b in held b' t n.
Proof.
  intros Hv Hs. unfold handle_separators. destruct (is_plain q).
  { exists t. split; [destruct Hs as [Hs|Hs]; auto|]. split; [auto|]. split; [lia|]. rewrite Hv. auto. }
  replace (match fb_string b with Some x => x | None => fb_view b end) with t by (destruct Hs as [-> | ->]; auto).
  set (str1 := map _ t). assert (L1 : length str1 = length t) by apply map_length.
  assert (H1 : held (FBuf str1 (Some str1)) t 0).
  { exists str1. cbn [fb_string fb_view]. split; [auto|]. split; [auto|]. split; [lia|]. intros Ht. destruct t; [congruence|]. destruct str1; discriminate. }
  destruct (sep_thousands q =? 0); [exact H1|].
  set (str2 := filter _ str1). assert (L2 : (length str2 <= length str1)%nat) by apply filter_len.
  destruct (length str1 - length str2 =? 0)%nat; [exact H1|].
  exists str2. cbn [fb_string fb_view]. split; [auto|]. split; [right; eexists; reflexivity|]. split; [lia|]. intros _. destruct str2; discriminate.
Qed.

(** ** Conversion *)
Section Total.
Context {V : Type} (F : fp V) (M : meaning V) (C : converts F M).

Lemma strtod_total e o k b t n : held b t n -> units e t -> numeric k -> starts_with_digit 10 (fb_view b) ->
  (exists er, strtod_impl F e o k b = Err er) \/ exists v m, strtod_impl F e o k b = Ok (v, m) /\ (m + n <= length t)%nat.
Proof.
  intros (text & Hs & Hv & Hl & _) Hu Hk Hd. unfold strtod_impl.
  assert (Ht : starts_with_digit 10 text).
  { destruct text as [|c text]; [|destruct Hv as [Hv|[junk Hv]]; rewrite Hv in Hd; exact Hd].
    destruct Hv as [Hv|[junk Hv]]; rewrite Hv in Hd; [exact Hd|]. cbn [app starts_with_digit] in Hd. apply digit10_iff in Hd. lia. }
  assert (Src : exists p w, text = p ++ w /\ stops w
    /\ get_null_terminated_source e k b = Ok (match k with KHexWithout => 48 :: 120 :: p | _ => p end)).
  { destruct b as [view str]. cbn [fb_string fb_view] in *. destruct Hs as [-> |(-> & -> & ->)].
    - unfold get_null_terminated_source. cbn [fb_string bind].
      destruct (c_string_cut text) as (w & E & Hw). exists (c_string text), w. split; [exact E|]. split; [exact Hw|].
      destruct k; try reflexivity. rewrite !c_string_cons by lia. reflexivity.
    - apply source_ok; auto. }
  destruct Src as (p & w & -> & Hw & ->). cbn [bind].
  assert (Hp : starts_with_digit 10 p).
  { destruct p as [|c p]; [|exact Ht]. cbn [app] in Ht. destruct w as [|c w]; cbn in *; [contradiction|]. exfalso. apply Hw. eapply digit_solid; [|exact Ht]; lia. }
  set (source := match k with KHexWithout => 48 :: 120 :: p | _ => p end).
  assert (Hso : starts_with_digit 10 source) by (unfold source; destruct k; try exact Hp; apply digit10_iff; lia).
  assert (X := cv_strtod F M C source Hso). destruct (fp_strtod F source) as [[v m] er].
  destruct X as (t' & rest & E & Em & _). destruct (check_error F o k m er v); [left; eauto|right]. do 2 eexists. split; [reflexivity|].
  assert (Lm : (m <= length source)%nat) by (rewrite E, app_length; lia).
  assert (Lp : (1 <= length p)%nat) by (destruct p; [contradiction|cbn; lia]).
  rewrite app_length in Hl. unfold source in Lm. destruct k; try contradiction; try lia.
  cbn [length] in Lm. destruct (2 <=? m)%nat eqn:E2; [|apply Nat.leb_gt in E2]; lia.
Qed.

Lemma dispatch_total e o k b t n : held b t n -> units e t -> numeric k -> t <> [] ->
  match k with KHexWith | KHexWithout => True | _ => o_fixed o || o_scientific o = true end ->
  (exists er, dispatch_impl F e o k 0 b = Err er) \/ exists v m, dispatch_impl F e o k 0 b = Ok (v, m) /\ (m + n <= length t)%nat.
Proof.
  intros Hb Hu Hk Ht Ho. assert (Hne : fb_view b <> []) by (destruct Hb as (text & _ & _ & _ & Hb); auto).
  assert (Nw : match k with KInfShort | KInfLong | KNan | KNanPayload => False | _ => True end) by (destruct k; exact I || exact Hk).
  destruct b as [[|c view] str]; [cbn in Hne; congruence|].
  assert (Dec : is_digit 10 c \/ ~ is_digit 10 c) by (rewrite digit10_iff; lia). destruct Dec as [Dec|Dec].
  2:{ left. rewrite dispatch_nodigit by assumption. eauto. }
  rewrite dispatch_digit by assumption.
  assert (St := strtod_total e o k (FBuf (c :: view) str) t n Hb Hu Hk Dec). destruct (fp_long F); [exact St|].
  unfold fast_float_impl. destruct (match k with KHexWith | KHexWithout => true | _ => false end) eqn:Eh; [destruct k; try discriminate; exact St|].
  replace (match k with KHexWithout | KHexWith => _ | _ => _ end) with
    (match fp_fast F (o_fixed o) (o_scientific o) (c :: view) with FFInvalid => Err InvalidScannedValue
     | FFRange => strtod_impl F e o k (FBuf (c :: view) str) | FFOk v n => Ok (v, n) end) by (destruct k; try discriminate; reflexivity).
  assert (Ho' : o_fixed o || o_scientific o = true) by (destruct k; try discriminate; exact Ho).
  assert (X := cv_fast F M C (o_fixed o) (o_scientific o) (c :: view) Ho' Dec).
  destruct (fp_fast F (o_fixed o) (o_scientific o) (c :: view)) as [| |v m]; [left; eauto|exact St|]. right. do 2 eexists. split; [reflexivity|].
  destruct X as (t' & rest & E & <- & [HL _] & _). destruct Hb as (text & _ & Hv & Hl & _). cbn [fb_view] in Hv. rewrite E in Hv.
  assert (LE : (length t' <= length text)%nat); [|lia].
  destruct Hv as [<-|[junk Hv]]; [rewrite app_length; lia|].
  eapply (run_longest solid t' rest text (0 :: junk) Hv); [now apply decimal_solid in HL|unfold solid; lia].
Qed.

Theorem float_impl_low r o q s : units (s_enc r) s -> o_hex o || o_fixed o || o_scientific o = true ->
  (exists v s', float_read_impl F r o q s = Ok (v, s') /\ exists t, s = t ++ s' /\ (s_contig r && is_plain q = false -> low_seps q -> Forall ascii t)) \/ exists e, float_read_impl F r o q s = Err e.
Proof.
  intros Hu Ho. destruct s as [|c0 s0]; [right; eexists; reflexivity|].
  set (s := c0 :: s0) in *. assert (Hs : s <> []) by discriminate. clearbody s.
  destruct (sign_split s Hs) as (neg & sg & u & sign & E & Hsg & Ep & _ & Hl & _).
  unfold float_read_impl, read_source_impl. rewrite Ep. cbn [bind]. fold (all_of u).
  assert (D := do_read_source_total r o q (s_contig r && is_plain q) u Ho).
  replace (if s_contig r && is_plain q then do_read_source_impl r o q (all_of u) (all_of u) u
           else do_read_source_impl r o q (fun _ => read_regular_float o q) (read_hexfloat q) u)
    with (do_read_source_impl r o q (if s_contig r && is_plain q then all_of u else fun _ => read_regular_float o q)
            (if s_contig r && is_plain q then all_of u else read_hexfloat q) u) by (destruct (s_contig r && is_plain q); reflexivity).
  destruct (do_read_source_impl _ _ _ _ _ _) as [[[it k] payload]|e| |]; try contradiction; [|right; cbn [bind]; eauto].
  cbn [bind]. destruct D as (t & Eu & HA & Hk).
  set (b := match k with KInfShort | KInfLong | KNan | KNanPayload => FBuf [] None | _ => fill_buffer r u it end).
  destruct (handle_separators q b) as [b' n] eqn:Eb. cbn [bind].
  assert (LS : length s = (length sg + length t + length it)%nat) by (rewrite E, Eu, !app_length; lia).
  assert (Fin : forall d, d = dispatch_impl F (s_enc r) o k payload b' -> k <> KTbd ->
     ((exists er, d = Err er) \/ exists v m, d = Ok (v, m) /\ (m + n <= length t)%nat) ->
     (exists v s', ('(v, n0) <- parse_value F (s_enc r) o (FState sign k payload b' n) ;; if (length s <? n0)%nat then UB else Ok (v, skipn n0 s)) = Ok (v, s')
        /\ exists t, s = t ++ s' /\ (s_contig r && is_plain q = false -> low_seps q -> Forall ascii t))
     \/ exists e, ('(v, n0) <- parse_value F (s_enc r) o (FState sign k payload b' n) ;; if (length s <? n0)%nat then UB else Ok (v, skipn n0 s)) = Err e).
  { intros d -> Hk' Hd. unfold parse_value. cbn [fs_kind fs_sign fs_thseps].
    replace (match k with KTbd => UB | _ => _ end) with
      ('(v, n0) <- parse_value_impl F (s_enc r) o (FState sign k payload b' n) ;; Ok (v, (n0 + match sign with DefaultSign => 0 | _ => 1 end + n)%nat))
      by (destruct k; [congruence|reflexivity..]).
    unfold parse_value_impl. cbn [fs_kind fs_sign fs_payload fs_buffer].
    destruct Hd as [[er ->]|(v & m & -> & Hm)]; [right; destruct er; cbn [bind]; eauto|left]. cbn [bind].
    rewrite <- Hl. replace (length s <? m + length sg + n)%nat with false by (symmetry; apply Nat.ltb_ge; lia).
    do 2 eexists. split; [reflexivity|]. exists (firstn (m + length sg + n) s). split; [symmetry; apply firstn_skipn|]. intros H1 H2.
    assert (Hall : Forall ascii (sg ++ t)) by (apply Forall_app; split; [eapply signed_low, Hsg|apply HA; assumption]).
    rewrite E, Eu, app_assoc. rewrite firstn_app. replace (m + length sg + n - length (sg ++ t))%nat with O by (rewrite app_length; lia). rewrite app_nil_r.
    rewrite <- (firstn_skipn (m + length sg + n) (sg ++ t)) in Hall. apply Forall_app in Hall. apply Hall. }
  apply (Fin _ eq_refl).
  - intros ->. destruct Hk as [Hk|[Hk _]]; [discriminate|exact Hk].
  - destruct Hk as [Hk|(Hk & Ht & Hf)].
    + right. assert (b = FBuf [] None) as Eb0 by (unfold b; destruct k; try discriminate; reflexivity). rewrite Eb0 in Eb.
      assert (n = O) as ->.
      { unfold handle_separators in Eb. cbn [fb_string fb_view map filter length Nat.sub Nat.eqb] in Eb. destruct (is_plain q), (sep_thousands q =? 0); congruence. }
      destruct k; try discriminate; injection Hk as Hk; cbn [dispatch_impl]; do 2 eexists; (split; [reflexivity|lia]).
    + assert (b = fill_buffer r (t ++ it) it) as Eb0 by (unfold b; rewrite <- Eu; destruct k; try contradiction; reflexivity).
      destruct (fill_ok r t it) as (str & Ef & Hstr). rewrite Ef in Eb0.
      assert (Hb := separators_total q b t). rewrite Eb, Eb0 in Hb. cbn [fb_view fb_string] in Hb. specialize (Hb eq_refl Hstr).
      assert (Hut : units (s_enc r) t) by (rewrite E, Eu in Hu; apply units_app in Hu; destruct Hu as [_ Hu]; now apply units_app in Hu).
      assert (Ep0 : dispatch_impl F (s_enc r) o k payload b' = dispatch_impl F (s_enc r) o k 0 b') by (destruct k; try contradiction; reflexivity).
      rewrite Ep0. apply dispatch_total; auto.
Qed.

Theorem float_impl_total r o q s : units (s_enc r) s -> o_hex o || o_fixed o || o_scientific o = true ->
  (exists v s', float_read_impl F r o q s = Ok (v, s') /\ suffix s' s) \/ exists e, float_read_impl F r o q s = Err e.
Proof.
  intros Hu Ho. destruct (float_impl_low r o q s Hu Ho) as [(v & s' & E & t & Et & _)|H]; [left|right; exact H]. exists v, s'. split; [exact E|]. exists t. exact Et.
Qed.
Lemma float_specs_ok r loc sp : check_float_type_specs sp = true -> reader_ok V r (float_read_specs F r loc sp).
Proof.
  intros Hc s Hu. unfold float_read_specs.
  assert (Hg : exists o, get_options sp = Ok o /\ o_hex o || o_fixed o || o_scientific o = true).
  { unfold check_float_type_specs, get_options in *. destruct (type sp); cbn in Hc; try discriminate; eexists; (split; [reflexivity|reflexivity]). }
  destruct Hg as (o & -> & Ho). cbn [bind]. apply float_impl_total; assumption.
Qed.
Lemma float_default_ok r : reader_ok V r (float_default F r).
Proof. apply default_read_ok. intros s Hu. apply float_impl_total; [exact Hu|reflexivity]. Qed.
End Total.
