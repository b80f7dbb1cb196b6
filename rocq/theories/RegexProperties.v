(** Properties of scanning regular expressions with the three engines: C52. *)
From Coq Require Import String.
From Verif Require Import Prelude UnicodeModel UnicodeSpec UnicodeProofs WhitespaceModel WhitespaceSpec
  WhitespaceProofs ReadModel ReadProofs SpecsModel ArgsModel FormatModel FormatSpec FormatSpecProofs IntModel
  VscanSpec WidthModel WidthSpec WidthProofs ArgReaderModel ArgReaderProofs ArgReaderProperties
  StringModel StringSpec StringProofs SpecsInvProofs ArgSafeProofs StringSafeProofs StringProperties VscanProperties
  RegexModel RegexSpec.
Import Coq.Strings.String.StringSyntax.
Local Open Scope string_scope.
Local Open Scope list_scope.
Local Open Scope Z_scope.

Lemma list_eqb_eq a : forall b, list_eqb a b = true <-> a = b.
Proof.
  induction a as [|x a IH]; intros [|y b]; cbn; split; intros H; try congruence; auto.
  - apply andb_prop in H. destruct H as [E H]. apply Z.eqb_eq in E. apply IH in H. congruence.
  - injection H as -> ->. rewrite Z.eqb_refl. apply IH. reflexivity.
Qed.

(** The flags of a format-spec, as they reach make_regex_flags. *)
Lemma flag_bits fl :
  has_flag (flag_value fl) 1 = existsb (Z.eqb 109) fl
  /\ has_flag (flag_value fl) 2 = existsb (Z.eqb 115) fl
  /\ has_flag (flag_value fl) 4 = existsb (Z.eqb 105) fl
  /\ has_flag (flag_value fl) 8 = existsb (Z.eqb 110) fl.
Proof.
  unfold flag_value. destruct (existsb (Z.eqb 109) fl), (existsb (Z.eqb 115) fl), (existsb (Z.eqb 105) fl),
    (existsb (Z.eqb 110) fl); vm_compute; auto.
Qed.

(** The fields here: "{:/q/flags}" with every slash of [q] written "\/". *)
Definition regex_field (q fl : list Z) : list Z := [47] ++ escape_slashes q ++ [47] ++ fl.
Definition field_ok (cf : config) (q fl : list Z) : Prop :=
  rb_on (rb_of cf) = true
  /\ (c_regex_std cf = true -> ~ In 115 fl /\ (c_regex_multiline cf = false -> ~ In 109 fl))
  /\ NoDup fl /\ incl fl regex_flag_letters
  /\ q <> [] /\ last q 0 <> 92 /\ starts_align q = false.

Lemma field_parse cf t q fl tail : c_enc cf <> U16 -> field_ok cf q fl ->
  exists sp,
    parse_format_specs cf t (regex_field q fl ++ 125 :: tail) (SS specs_default false) = Ok (125 :: tail, SS sp false)
    /\ sp = mean (c_enc cf) (Desc None None None None false (Some (TyRegex (escape_slashes q) fl))).
Proof.
  intros He (Hrb & Hstd & Hnd & Hin & Hq & Hl & Ha).
  set (d := Desc None None None None false (Some (TyRegex (escape_slashes q) fl))).
  exists (mean (c_enc cf) d). split; [|reflexivity].
  replace (regex_field q fl ++ 125 :: tail) with (render_desc (c_enc cf) d ++ 125 :: tail).
  2:{ unfold d, render_desc, regex_field. cbn [d_fill d_align d_width d_prec d_local d_type opt render_type app]. reflexivity. }
  apply specs_render; [exact He|]. unfold wf_desc. cbn [d_fill d_align d_width d_prec d_local d_type d].
  assert (HN : escape_slashes q <> []).
  { destruct q as [|c q]; [congruence|]. cbn. destruct (c =? 47); discriminate. }
  repeat split; try discriminate.
  + intros ty [= <-]. cbn. split; [exact Hrb|]. split; [exact HN|]. split; [apply escaped; [congruence|exact Hl]|].
    split; [exact Hnd|]. split; [exact Hin|exact Hstd].
  + intros p f [= <- _]. destruct q as [|c q]; [congruence|]. cbn. destruct (c =? 47) eqn:E; [reflexivity|exact Ha].
Qed.

Lemma field_read bk en r q fl s :
  q <> [] -> s_contig r = true ->
  regex_matches_arg bk en r (mean (s_enc r) (Desc None None None None false (Some (TyRegex (escape_slashes q) fl)))) s
  = (it <- skip_classic_whitespace r s false ;; read_regex_matches bk en q (flag_value fl) it).
Proof.
  intros Hq Hr. set (d := Desc None None None None false (Some (TyRegex (escape_slashes q) fl))).
  assert (HN : escape_slashes q <> []).
  { destruct q as [|c q']; [congruence|]. cbn. destruct (c =? 47); discriminate. }
  assert (HT : type (mean (s_enc r) d) = (if existsb (Z.eqb 47) (escape_slashes q) then PRegexEscaped else PRegex)) by reflexivity.
  assert (HS : charset_string (mean (s_enc r) d) = escape_slashes q) by reflexivity.
  unfold regex_matches_arg. rewrite HS. destruct (escape_slashes q) as [|x l] eqn:EQ; [congruence|].
  unfold arg_read_checked, regex_matches_reader. cbn [rd_check rd_skip rd_specs].
  assert (HC : check_regex_type_specs (mean (s_enc r) d) = true).
  { unfold check_regex_type_specs. rewrite HT, HS. cbn [length]. destruct (existsb _ _); reflexivity. }
  rewrite HC. unfold arg_read. change (precision (mean (s_enc r) d)) with 0. change (0 =? 0) with true. cbn [negb].
  unfold impl_prefix. change (align (mean (s_enc r) d)) with ANone. cbv iota.
  change (precision (mean (s_enc r) d)) with 0. change (0 =? 0) with true. cbn [negb]. unfold skip_ws_all.
  change (need_width (mean (s_enc r) d)) with false. cbv iota.
  destruct (skip_classic_whitespace r s false) as [it|x0| |]; cbn [bind]; try reflexivity.
  assert (HR : regex_matches_specs bk en r (mean (s_enc r) d) it = read_regex_matches bk en q (flag_value fl) it).
  { unfold regex_matches_specs. rewrite Hr, HT, HS. cbn [negb].
    change (regexp_flags (mean (s_enc r) d)) with (flag_value fl). rewrite <- EQ.
    destruct (existsb (Z.eqb 47) (escape_slashes q)) eqn:EX; cbn [ptype_eqb]; unfold ptype_eqb; cbn.
    - rewrite unescape_escape. reflexivity.
    - rewrite no_slash by exact EX. reflexivity. }
  rewrite HR. destruct (read_regex_matches bk en q (flag_value fl) it) as [[v it2]|x0| |]; cbn [bind]; try reflexivity.
  destruct it2 as [|c it2]; cbn [bind]; unfold check_widths; change (width (mean (s_enc r) d)) with 0;
    change (precision (mean (s_enc r) d)) with 0; change (0 =? 0) with true; cbn [negb andb bind]; reflexivity.
Qed.

Lemma skip_leading r ws rest : whole r (ws ++ rest) -> Forall scalar (ws ++ rest) -> Forall (fun c => is_ws c = true) ws ->
  match rest with c :: _ => is_ws c = false | [] => False end ->
  skip_classic_whitespace r (text (s_enc r) (ws ++ rest)) false = Ok (text (s_enc r) rest).
Proof.
  intros Hw Hs HW HR. rewrite skip_ws_text by assumption.
  assert (HL : lead is_ws (ws ++ rest) = ws).
  { clear -HW HR. induction HW as [|c ws Hc _ IH]; cbn [app lead].
    - destruct rest as [|c l]; [contradiction|]. cbn [lead]. rewrite HR. reflexivity.
    - rewrite Hc, IH. reflexivity. }
  rewrite HL. destruct (Nat.eqb_spec (length ws) (length (ws ++ rest))) as [E|E].
  - rewrite app_length in E. destruct rest; [contradiction|]. cbn in E. lia.
  - cbn [negb andb]. f_equal. f_equal. unfold after. rewrite skipn_app, skipn_all, Nat.sub_diag. reflexivity.
Qed.

Lemma whole_of (w rest : list Z) : firstn (length (w ++ rest) - length rest) (w ++ rest) = w.
Proof.
  rewrite app_length, Nat.add_sub, firstn_app, Nat.sub_diag, firstn_all. cbn [firstn]. apply app_nil_r.
Qed.

Lemma std_reported groups : Forall (fun g : group => snd g = None) groups -> map std_capture groups = map reported groups.
Proof.
  induction 1 as [|[[t|] n] gs Hn _ IH]; cbn in *; [reflexivity|subst n|]; rewrite IH; reflexivity.
Qed.

(** ** std::regex *)
Theorem C52_std_partial : forall en r cf ml q fl tail ws rest,
  c_enc cf = s_enc r -> s_enc r <> U16 -> s_contig r = true ->
  (* the build is one with std::regex *)
  c_regex_std cf = true -> c_regex_multiline cf = ml -> field_ok cf q fl -> sound en -> nameless en ->
  Forall scalar (ws ++ rest) -> Forall (fun c => is_ws c = true) ws ->
  match rest with c :: _ => is_ws c = false | [] => False end ->
  exists sp,
    parse_format_specs cf NarrowRegexMatchesType (regex_field q fl ++ 125 :: tail) (SS specs_default false)
    = Ok (125 :: tail, SS sp false)
    /\ reports (text (s_enc r) rest) (en (asked q fl) (text (s_enc r) rest))
         (regex_matches_arg (Std ml) en r sp (text (s_enc r) (ws ++ rest))).
Proof.
  intros en r cf ml q fl tail ws rest Hcf He Hr Hstd Hml Hf Hsd Hnl Hs HW HR.
  destruct (field_parse cf NarrowRegexMatchesType q fl tail) as (sp & HP & ->); [congruence|exact Hf|].
  eexists. split; [exact HP|]. rewrite Hcf. destruct Hf as (_ & Hb & _ & _ & Hq & _).
  rewrite field_read by assumption. rewrite skip_leading by (try apply contig_whole; assumption). cbn [bind].
  unfold read_regex_matches, make_request. destruct (flag_bits fl) as (-> & -> & -> & ->).
  destruct (Hb Hstd) as [Hns Hnm].
  assert (E1 : existsb (Z.eqb 109) fl && negb ml = false).
  { destruct (existsb (Z.eqb 109) fl) eqn:E; [|reflexivity]. destruct ml; [reflexivity|]. exfalso.
    apply existsb_exists in E. destruct E as (x & Hx & E). apply Z.eqb_eq in E. subst x. exact (Hnm Hml Hx). }
  assert (E2 : existsb (Z.eqb 115) fl = false).
  { destruct (existsb (Z.eqb 115) fl) eqn:E; [|reflexivity]. exfalso.
    apply existsb_exists in E. destruct E as (x & Hx & E). apply Z.eqb_eq in E. subst x. exact (Hns Hx). }
  rewrite E1. unfold asked. rewrite E2. cbn [bind].
  set (rq := Request q _ _ _ _). set (s := text (s_enc r) rest).
  destruct (en rq s) as [| | |s' gs] eqn:EN; try constructor.
  destruct (Hsd _ _ _ _ EN) as (w & Ew). assert (HN := Hnl _ _ _ _ EN). cbn [bind].
  rewrite Ew, whole_of, <- Ew. rewrite std_reported by (constructor; [reflexivity|exact HN]). cbn [map reported].
  apply R_match. exact Ew.
Qed.
Print Assumptions C52_std_partial.

(** ** Boost.Regex *)
Lemma starts_self a b : starts_with a (a ++ b) = true.
Proof. induction a as [|c a IH]; cbn; [reflexivity|]. rewrite Z.eqb_refl. exact IH. Qed.
Lemma take_until_app c n post : ~ In c n -> take_until c (n ++ c :: post) = Some n.
Proof.
  induction n as [|x n IH]; intros H; cbn [app take_until]; [rewrite Z.eqb_refl; reflexivity|].
  destruct (Z.eqb_spec x c) as [->|]; [exfalso; apply H; left; reflexivity|].
  rewrite IH by (intros X; apply H; right; exact X). reflexivity.
Qed.
Lemma not_escaped prev : hd 0 prev <> 92 -> escaped_here prev = false.
Proof.
  destruct prev as [|c prev]; [reflexivity|]. cbn [hd]. intros H. unfold escaped_here.
  destruct c as [|p|p]; try reflexivity. do 7 (destruct p as [p|p|]; try reflexivity). congruence.
Qed.
Lemma boost_names_written pre post name : forall prev,
  escaped_here (rev pre ++ prev) = false -> ~ In 62 name ->
  In name (boost_names prev (pre ++ [40; 63; 60] ++ name ++ 62 :: post)).
Proof.
  induction pre as [|c pre IH]; intros prev Hp Hn; cbn [app boost_names].
  - apply in_or_app. left. cbn [rev app] in Hp. rewrite Hp.
    change (starts_with [40; 63; 60] (40 :: 63 :: 60 :: name ++ 62 :: post)) with (starts_with [40; 63; 60] ([40; 63; 60] ++ name ++ 62 :: post)).
    rewrite starts_self. cbn [negb andb]. cbn [skipn]. rewrite take_until_app by exact Hn. left. reflexivity.
  - apply in_or_app. right. apply (IH (c :: prev)); [|exact Hn]. cbn [rev] in Hp. rewrite <- app_assoc in Hp. exact Hp.
Qed.
Lemma written_found q name : written q name -> In name (boost_names [] q).
Proof.
  intros (pre & post & -> & Hn & Hl). apply boost_names_written; [|exact Hn]. rewrite app_nil_r.
  destruct Hl as [Hl|(pre' & ->)]; [|rewrite rev_app_distr; reflexivity].
  destruct pre as [|c pre] using rev_ind; [reflexivity|]. rewrite last_last in Hl. rewrite rev_app_distr. apply not_escaped. exact Hl.
Qed.

Lemma sub_named_in groups name t : sub_named groups name = Some t -> In (Some t, Some name) groups.
Proof.
  unfold sub_named. destruct (find (names_it name) groups) as [[t' n']|] eqn:E; [|discriminate]. intros ->.
  apply find_some in E. destruct E as [Hi E]. unfold names_it in E. destruct n' as [n'|]; [|discriminate].
  apply list_eqb_eq in E. subst n'. exact Hi.
Qed.
Lemma sub_named_some groups name t : In (Some t, Some name) groups -> exists t', sub_named groups name = Some t'.
Proof.
  intros Hi. unfold sub_named. destruct (find (names_it name) groups) as [[t' n']|] eqn:E.
  - apply find_some in E. destruct E as [_ E]. unfold names_it in E. destruct t' as [t'|]; [eauto|discriminate].
  - exfalso. apply (find_none _ _ E) in Hi. unfold names_it in Hi. assert (list_eqb name name = true) by (apply list_eqb_eq; reflexivity). congruence.
Qed.
Lemma same_text_eq t u : same_text t (Some u) = true -> t = u.
Proof. apply list_eqb_eq. Qed.
Lemma boost_reported q w groups g :
  (forall n t, In (Some t, Some n) groups -> written q n) -> told_apart w groups ->
  In g ((Some w, None) :: groups) ->
  boost_capture (boost_names [] q) groups g = reported g.
Proof.
  intros HW HT Hi. destruct g as [[t|] n]; [|reflexivity]. unfold boost_capture, reported. cbn [fst]. f_equal. f_equal.
  set (P := fun m => same_text t (sub_named groups m)).
  assert (HP : forall m, P m = true -> n = Some m).
  { intros m Hm. unfold P in Hm. destruct (sub_named groups m) as [u|] eqn:E; [|discriminate].
    apply same_text_eq in Hm. subst u. apply sub_named_in in E. destruct (HT _ _ E) as (Hw & Hn & _).
    destruct Hi as [[= -> <-]|Hi]; [congruence|]. apply Hn. exact Hi. }
  destruct (find P (boost_names [] q)) as [m|] eqn:E.
  - apply find_some in E. destruct E as [_ E]. symmetry. apply HP. exact E.
  - destruct n as [m|]; [|reflexivity]. exfalso.
    destruct Hi as [E'|Hi]; [discriminate|]. destruct (HT _ _ Hi) as (_ & _ & Hu).
    destruct (sub_named_some _ _ _ Hi) as (t' & Et). assert (t' = t) by (apply Hu, sub_named_in, Et). subst t'.
    assert (HF := find_none _ _ E m (written_found _ _ (HW _ _ Hi))). unfold P in HF. rewrite Et in HF. cbn in HF.
    assert (list_eqb t t = true) by (apply list_eqb_eq; reflexivity). congruence.
Qed.

Theorem C52_boost_partial : forall en r cf q fl tail ws rest,
  c_enc cf = s_enc r -> s_enc r <> U16 -> s_contig r = true -> c_regex_std cf = false ->
  field_ok cf q fl -> sound en ->
  (* with the flag s, or '.' not in the pattern: whether it matches a newline does not matter *)
  (In 115 fl
   \/ forall s d, en (Request q (existsb (Z.eqb 109) fl) d (existsb (Z.eqb 105) fl) (existsb (Z.eqb 110) fl)) s
                  = en (asked q fl) s) ->
  (* names are written "(?<name>", and what they name can be told apart by its text *)
  (forall s rest groups, en (asked q fl) s = Match rest groups ->
     (forall n t, In (Some t, Some n) groups -> written q n)
     /\ forall w, s = w ++ rest -> told_apart w groups) ->
  Forall scalar (ws ++ rest) -> Forall (fun c => is_ws c = true) ws ->
  match rest with c :: _ => is_ws c = false | [] => False end ->
  exists sp,
    parse_format_specs cf NarrowRegexMatchesType (regex_field q fl ++ 125 :: tail) (SS specs_default false)
    = Ok (125 :: tail, SS sp false)
    /\ reports (text (s_enc r) rest) (en (asked q fl) (text (s_enc r) rest))
         (regex_matches_arg Boost en r sp (text (s_enc r) (ws ++ rest))).
Proof.
  intros en r cf q fl tail ws rest Hcf He Hr Hstd Hf Hsd Hdot Hnm Hs HW HR.
  destruct (field_parse cf NarrowRegexMatchesType q fl tail) as (sp & HP & ->); [congruence|exact Hf|].
  eexists. split; [exact HP|]. rewrite Hcf. destruct Hf as (_ & Hb & _ & _ & Hq & _).
  rewrite field_read by assumption. rewrite skip_leading by (try apply contig_whole; assumption). cbn [bind].
  unfold read_regex_matches, make_request. destruct (flag_bits fl) as (E1 & E2 & E3 & E4). rewrite ?E1, ?E2, ?E3, ?E4. cbn [bind].
  set (s := text (s_enc r) rest).
  replace (en (Request q (existsb (Z.eqb 109) fl) true (existsb (Z.eqb 105) fl) (existsb (Z.eqb 110) fl)) s)
    with (en (asked q fl) s).
  2:{ destruct Hdot as [Hi|Hd]; [|symmetry; apply Hd]. unfold asked.
      replace (existsb (Z.eqb 115) fl) with true; [reflexivity|]. symmetry. apply existsb_exists. exists 115. auto. }
  destruct (en (asked q fl) s) as [| | |s' gs] eqn:EN; try constructor.
  destruct (Hsd _ _ _ _ EN) as (w & Ew). destruct (Hnm _ _ _ EN) as [HA HB]. specialize (HB w Ew). cbn [bind].
  rewrite Ew, whole_of, <- Ew.
  replace (map (boost_capture (boost_names [] q) gs) ((Some w, None) :: gs)) with (map reported ((Some w, None) :: gs)).
  { cbn [map reported]. apply R_match. exact Ew. }
  apply map_ext_in. intros g Hg. symmetry. apply (boost_reported q w); assumption.
Qed.
Print Assumptions C52_boost_partial.

(** ** RE2 *)
Lemma re2_reported groups : Forall (fun g : group => snd g <> None -> fst g <> None) groups ->
  re2_captures groups = Ok (map reported groups).
Proof.
  induction 1 as [|[[t|] n] gs Hn _ IH]; cbn [re2_captures map reported bind]; [reflexivity| |].
  - rewrite IH. reflexivity.
  - destruct n as [n|]; [exfalso; apply Hn; cbn; congruence|]. cbn [bind]. rewrite IH. reflexivity.
Qed.
Theorem C52_re2_partial : forall en r cf q fl tail ws rest,
  c_enc cf = s_enc r -> s_enc r = U8 -> s_contig r = true -> c_regex_std cf = false ->
  field_ok cf q fl -> sound en ->
  (* '^' and '$' not in the pattern: whether they match at ends of lines does not matter *)
  (forall s m, en (Request q m (existsb (Z.eqb 115) fl) (existsb (Z.eqb 105) fl) (existsb (Z.eqb 110) fl)) s
     = en (asked q fl) s) ->
  (* named subexpressions always take part in a match *)
  (forall s rest groups, en (asked q fl) s = Match rest groups ->
     Forall (fun g => snd g <> None -> fst g <> None) groups) ->
  Forall scalar (ws ++ rest) -> Forall (fun c => is_ws c = true) ws ->
  match rest with c :: _ => is_ws c = false | [] => False end ->
  exists sp,
    parse_format_specs cf NarrowRegexMatchesType (regex_field q fl ++ 125 :: tail) (SS specs_default false)
    = Ok (125 :: tail, SS sp false)
    /\ reports (text (s_enc r) rest) (en (asked q fl) (text (s_enc r) rest))
         (regex_matches_arg Re2 en r sp (text (s_enc r) (ws ++ rest))).
Proof.
  intros en r cf q fl tail ws rest Hcf He Hr Hstd Hf Hsd Hml Hnm Hs HW HR.
  destruct (field_parse cf NarrowRegexMatchesType q fl tail) as (sp & HP & ->); [congruence|exact Hf|].
  eexists. split; [exact HP|]. rewrite Hcf. destruct Hf as (_ & Hb & _ & _ & Hq & _).
  rewrite field_read by assumption. rewrite skip_leading by (try apply contig_whole; assumption). cbn [bind].
  unfold read_regex_matches, make_request. destruct (flag_bits fl) as (E1 & E2 & E3 & E4). rewrite ?E1, ?E2, ?E3, ?E4. cbn [bind].
  rewrite Hml. set (s := text (s_enc r) rest).
  destruct (en (asked q fl) s) as [| | |s' gs] eqn:EN; try constructor.
  destruct (Hsd _ _ _ _ EN) as (w & Ew). assert (HN := Hnm _ _ _ EN). cbn [bind].
  rewrite re2_reported by exact HN. cbn [bind]. rewrite Ew, whole_of, <- Ew.
  apply R_match. exact Ew.
Qed.
Print Assumptions C52_re2_partial.

(** ** Strings: the same engines and flags (C48 leaves both open). *)
Lemma read_string_sound bk en : sound en -> engine_ok (read_regex_string bk en).
Proof.
  intros Hs p f s. unfold read_regex_string, make_request.
  assert (H : forall rq, (exists e, match en rq s with Invalid | Throws => Err InvalidFormatString | NoMatch => Err InvalidScannedValue
                                    | Match rest _ => Ok rest end = Err e)
     \/ exists s', match en rq s with Invalid | Throws => Err InvalidFormatString | NoMatch => Err InvalidScannedValue
                   | Match rest _ => Ok rest end = Ok s' /\ suffix s' s).
  { intros rq. destruct (en rq s) as [| | |s' gs] eqn:E; eauto. right. exists s'. split; [reflexivity|]. exact (Hs _ _ _ _ E). }
  destruct bk as [ml| |]; [|apply H|apply H].
  destruct (_ && _); [left; eexists; reflexivity|]. destruct (has_flag f 2); [left; eexists; reflexivity|]. apply H.
Qed.
(** So strings are read safely with any engine that matches a beginning of the text (C47). *)
Theorem C52_strings : forall bk en dst r cf t fmt fmt' sp s,
  c_enc cf = s_enc r -> s_enc r <> U16 -> sound en -> units (s_enc r) s ->
  parse_format_specs cf t fmt (SS specs_default false) = Ok (fmt', SS sp false) ->
  (exists e, string_arg (read_regex_string bk en) dst r sp s = Err e)
  \/ exists v rest, string_arg (read_regex_string bk en) dst r sp s = Ok (v, rest) /\ suffix rest s.
Proof.
  intros bk en dst r cf t fmt fmt' sp s Hcf He Hs Hu HF.
  destruct (C47 (read_regex_string bk en) dst r cf t fmt fmt' sp s Hcf He (read_string_sound bk en Hs) Hu HF)
    as [H|(v & rest & pre & part & post & H & E & _)]; [left; exact H|].
  right. exists v, rest. split; [exact H|]. exists (pre ++ part ++ post). rewrite E, <- !app_assoc. reflexivity.
Qed.
Print Assumptions C52_strings.

(** Strings are read by asking the engine for the pattern with the flags given; what matches is the
    value.  Missing: backends for which a flag means something else (see below), and matches
    that end within a code point. *)
Theorem C52_string_partial : forall bk en dst to r cf t q fl tail cps,
  c_enc cf = s_enc r -> s_enc r <> U16 -> s_contig r = true -> dest_ok dst (s_enc r) to ->
  (* the format string is parsed for the backend *)
  match bk with Std ml => c_regex_std cf = true /\ c_regex_multiline cf = ml | _ => c_regex_std cf = false end ->
  field_ok cf q fl -> Forall scalar cps ->
  (forall rest groups, en (asked q fl) (text (s_enc r) cps) = Match rest groups ->
     exists a b, cps = a ++ b /\ rest = text (s_enc r) b) ->
  (* what matches does not depend on whether subexpressions are stored; with Boost '.', with RE2 '^' and
     '$' not in the pattern *)
  (forall m d n s, (bk = Re2 \/ m = existsb (Z.eqb 109) fl) -> (bk = Boost \/ d = existsb (Z.eqb 115) fl) ->
     extent (en (Request q m d (existsb (Z.eqb 105) fl) n) s) = extent (en (asked q fl) s)) ->
  exists sp,
    parse_format_specs cf t (regex_field q fl ++ 125 :: tail) (SS specs_default false)
    = Ok (125 :: tail, SS sp false)
    /\ string_reports (s_enc r) to cps (en (asked q fl) (text (s_enc r) cps))
         (string_arg (read_regex_string bk en) dst r sp (text (s_enc r) cps)).
Proof.
  intros bk en dst to r cf t q fl tail cps Hcf He Hr Hd Hbk Hf Hs Hw Hx.
  destruct Hf as (Hrb & Hb & Hnd & Hin & Hq & Hl & Ha).
  destruct (C48_partial (read_regex_string bk en) dst r cf t q fl tail (text (s_enc r) cps) Hcf He Hr Hrb Hb Hnd Hin Hq Hl Ha)
    as (sp & HP & HA).
  exists sp. split.
  { rewrite <- HP. f_equal. unfold regex_field. rewrite <- !app_assoc. reflexivity. }
  rewrite HA. clear HA HP. set (s := text (s_enc r) cps) in *.
  assert (HQ : exists m d n, (bk = Re2 \/ m = existsb (Z.eqb 109) fl) /\ (bk = Boost \/ d = existsb (Z.eqb 115) fl) /\
    read_regex_string bk en q (flag_value fl) s =
      match extent (en (Request q m d (existsb (Z.eqb 105) fl) n) s) with
      | Invalid | Throws => Err InvalidFormatString
      | NoMatch => Err InvalidScannedValue
      | Match rest _ => Ok rest
      end).
  { unfold read_regex_string, make_request, no_subs. destruct (flag_bits fl) as (-> & -> & -> & _).
    destruct bk as [ml| |]; cbn [bind rq_pattern rq_multiline rq_dot_newline rq_icase].
    - destruct Hbk as [Hstd Hml]. destruct (Hb Hstd) as [Hns Hnm].
      assert (E1 : existsb (Z.eqb 109) fl && negb ml = false).
      { destruct (existsb (Z.eqb 109) fl) eqn:E; [|reflexivity]. destruct ml; [reflexivity|]. exfalso.
        apply existsb_exists in E. destruct E as (x & Hx' & E). apply Z.eqb_eq in E. subst x. exact (Hnm Hml Hx'). }
      assert (E2 : existsb (Z.eqb 115) fl = false).
      { destruct (existsb (Z.eqb 115) fl) eqn:E; [|reflexivity]. exfalso.
        apply existsb_exists in E. destruct E as (x & Hx' & E). apply Z.eqb_eq in E. subst x. exact (Hns Hx'). }
      rewrite E1, E2. cbn [bind rq_pattern rq_multiline rq_dot_newline rq_icase]. exists (existsb (Z.eqb 109) fl), false, true.
      split; [right; reflexivity|]. split; [right; reflexivity|]. (match goal with |- context [extent ?x] => destruct x; reflexivity end).
    - exists (existsb (Z.eqb 109) fl), true, true. split; [right; reflexivity|]. split; [left; reflexivity|]. (match goal with |- context [extent ?x] => destruct x; reflexivity end).
    - exists (negb (existsb (Z.eqb 109) fl)), (existsb (Z.eqb 115) fl), true. split; [left; reflexivity|]. split; [right; reflexivity|]. (match goal with |- context [extent ?x] => destruct x; reflexivity end). }
  destruct HQ as (m & d & n & Hm & Hdd & ->). rewrite (Hx m d n s Hm Hdd).
  destruct (en (asked q fl) s) as [| | |rest gs] eqn:EN; cbn [extent bind]; try constructor.
  destruct (Hw _ _ eq_refl) as (a & b & E & ->). unfold s. rewrite E.
  rewrite (store_text dst (s_enc r) to a b); [|exact Hd|].
  - apply SR_match. reflexivity.
  - rewrite E in Hs. apply Forall_app in Hs. apply Hs.
Qed.
Print Assumptions C52_string_partial.

(** ** Concrete engines, each knowing a single pattern *)
Definition toy (q : list Z) (f : request -> list Z -> answer) : engine :=
  fun rq s => if list_eqb (rq_pattern rq) q then f rq s else Invalid.
Definition std8 : config := Config U8 true true true false.
Definition digit (c : Z) : bool := (48 <=? c) && (c <=? 57).
Definition letter (c : Z) : bool := (97 <=? c) && (c <=? 122).
Definition subs (rq : request) (gs : list group) : list group := if rq_nosubs rq then [] else gs.

(** "([a-z])([0-9])?" and "([a-z])(?<n>[0-9])?" *)
Definition pair_engine (q : list Z) (n : option (list Z)) : engine := toy q (fun rq s =>
  match s with
  | c :: s' =>
      if letter c then
        match s' with
        | d :: s'' => if digit d then Match s'' (subs rq [(Some [c], None); (Some [d], n)])
                      else Match s' (subs rq [(Some [c], None); (None, n)])
        | [] => Match [] (subs rq [(Some [c], None); (None, n)])
        end
      else NoMatch
  | [] => NoMatch
  end).
Definition plain_pattern : list Z := T "([a-z])([0-9])?".
Definition named_pattern : list Z := T "([a-z])(?<n>[0-9])?".
Lemma pair_sound q n : sound (pair_engine q n).
Proof.
  intros rq s rest gs. unfold pair_engine, toy. destruct (list_eqb _ _); [|discriminate].
  destruct s as [|c s]; [discriminate|]. destruct (letter c); [|discriminate].
  destruct s as [|d s]; [intros [= <- _]; exists [c]; reflexivity|].
  destruct (digit d); intros [= <- _]; [exists [c; d]|exists [c]]; reflexivity.
Qed.

Ltac field_is_ok :=
  unfold field_ok; split; [reflexivity|]; split; [cbn; intuition discriminate|];
  split; [repeat constructor; cbn; intuition discriminate|]; split; [cbv [incl]; cbn; intuition|];
  split; [discriminate|]; split; [vm_compute; discriminate|reflexivity].
Example C52_std_ex :
  field_ok std8 plain_pattern [105] /\ sound (pair_engine plain_pattern None) /\ nameless (pair_engine plain_pattern None)
  /\ exists sp, parse_format_specs std8 NarrowRegexMatchesType (regex_field plain_pattern [105] ++ [125]) (SS specs_default false) = Ok ([125], SS sp false)
     /\ regex_matches_arg (Std false) (pair_engine plain_pattern None) string_src sp (T " a1b")
        = Ok ([Some (T "a1", None); Some (T "a", None); Some (T "1", None)], T "b")
     /\ regex_matches_arg (Std false) (pair_engine plain_pattern None) string_src sp (T "ab")
        = Ok ([Some (T "a", None); Some (T "a", None); None], T "b")
     /\ regex_matches_arg (Std false) (pair_engine plain_pattern None) string_src sp (T "1") = Err InvalidScannedValue.
Proof.
  split; [field_is_ok|].
  split; [apply pair_sound|]. split.
  { intros rq s rest gs. unfold pair_engine, toy. destruct (list_eqb _ _); [|discriminate].
    destruct s as [|c s]; [discriminate|]. destruct (letter c); [|discriminate]. unfold subs.
    destruct s as [|d s]; [|destruct (digit d)]; intros [= _ <-]; destruct (rq_nosubs rq); repeat constructor. }
  eexists. split; [vm_compute; reflexivity|]. repeat split; vm_compute; reflexivity.
Qed.

Example C52_boost_ex :
  field_ok narrow named_pattern []
  /\ (forall s d, pair_engine named_pattern (Some (T "n")) (Request named_pattern false d false false) s
        = pair_engine named_pattern (Some (T "n")) (asked named_pattern []) s)
  /\ (forall s rest groups, pair_engine named_pattern (Some (T "n")) (asked named_pattern []) s = Match rest groups ->
        (forall n t, In (Some t, Some n) groups -> written named_pattern n)
        /\ forall w, s = w ++ rest -> told_apart w groups)
  /\ exists sp, parse_format_specs narrow NarrowRegexMatchesType (regex_field named_pattern [] ++ [125]) (SS specs_default false) = Ok ([125], SS sp false)
     /\ regex_matches_arg Boost (pair_engine named_pattern (Some (T "n"))) string_src sp (T "a1b")
        = Ok ([Some (T "a1", None); Some (T "a", None); Some (T "1", Some (T "n"))], T "b")
     /\ regex_matches_arg Boost (pair_engine named_pattern (Some (T "n"))) string_src sp (T "ab")
        = Ok ([Some (T "a", None); Some (T "a", None); None], T "b").
Proof.
  split; [field_is_ok|].
  split; [reflexivity|]. split.
  { intros s rest gs. unfold pair_engine, toy, asked. cbn [rq_pattern].
    replace (list_eqb named_pattern named_pattern) with true by reflexivity.
    destruct s as [|c s]; [discriminate|]. destruct (letter c) eqn:EL; [|discriminate]. unfold subs. cbn [rq_nosubs existsb].
    assert (H1 : forall w, told_apart w [(Some [c], None); (None, Some (T "n"))]).
    { intros w t n [E|[E|[]]]; discriminate. }
    destruct s as [|d s]; [|destruct (digit d) eqn:ED]; intros [= <- <-].
    1,3: split; [intros n t [E|[E|[]]]; discriminate|intros w _; apply H1].
    split.
    - intros n t [E|[E|[]]]; [discriminate|]. injection E as _ <-. exists (T "([a-z])"), (T "[0-9])?").
      split; [reflexivity|]. split; [|left; vm_compute; discriminate]. cbn. intros [E'|[]]. discriminate.
    - intros w Ew. change (c :: d :: s) with ([c; d] ++ s) in Ew. apply app_inv_tail in Ew. subst w.
      intros t n [E|[E|[]]]; [discriminate|]. injection E as <- <-.
      assert (HD : c <> d).
      { intros ->. unfold letter, digit in *. apply andb_prop in EL, ED. destruct EL as [EL _], ED as [_ ED].
        apply Z.leb_le in EL, ED. lia. }
      split; [discriminate|]. split.
      + intros n' [E|[E|[]]]; [congruence|]. injection E as <-. reflexivity.
      + intros t' [E|[E|[]]]; [discriminate|]. injection E as <-. reflexivity. }
  eexists. split; [vm_compute; reflexivity|]. repeat split; vm_compute; reflexivity.
Qed.

(** "(?<n>[a-z])" *)
Definition one_pattern : list Z := T "(?<n>[a-z])".
Definition one_engine : engine := toy one_pattern (fun rq s =>
  match s with c :: s' => if letter c then Match s' (subs rq [(Some [c], Some (T "n"))]) else NoMatch | [] => NoMatch end).
Example C52_re2_ex :
  field_ok narrow one_pattern [109] /\ sound one_engine
  /\ (forall s m, one_engine (Request one_pattern m false false false) s = one_engine (asked one_pattern [109]) s)
  /\ (forall s rest groups, one_engine (asked one_pattern [109]) s = Match rest groups ->
        Forall (fun g => snd g <> None -> fst g <> None) groups)
  /\ exists sp, parse_format_specs narrow NarrowRegexMatchesType (regex_field one_pattern [109] ++ [125]) (SS specs_default false) = Ok ([125], SS sp false)
     /\ regex_matches_arg Re2 one_engine string_src sp (T "ab") = Ok ([Some (T "a", None); Some (T "a", Some (T "n"))], T "b").
Proof.
  split; [field_is_ok|].
  split.
  { intros rq s rest gs. unfold one_engine, toy. destruct (list_eqb _ _); [|discriminate].
    destruct s as [|c s]; [discriminate|]. destruct (letter c); [|discriminate]. intros [= <- _]. exists [c]. reflexivity. }
  split; [reflexivity|]. split.
  { intros s rest gs. unfold one_engine, toy, asked, subs. cbn [rq_pattern rq_nosubs existsb].
    replace (list_eqb one_pattern one_pattern) with true by reflexivity.
    destruct s as [|c s]; [discriminate|]. destruct (letter c); [|discriminate]. intros [= _ <-].
    repeat constructor. cbn. intros _. discriminate. }
  eexists. split; [vm_compute; reflexivity|]. vm_compute; reflexivity.
Qed.
Example C52_strings_ex : sound one_engine /\ exists sp,
  parse_format_specs narrow NarrowStringType (regex_field one_pattern [] ++ [125]) (SS specs_default false) = Ok ([125], SS sp false)
  /\ string_arg (read_regex_string Boost one_engine) str8 string_src sp (T "ab") = Ok (T "a", T "b").
Proof. split; [apply C52_re2_ex|]. eexists. split; [vm_compute; reflexivity|]. vm_compute; reflexivity. Qed.

(** "a" without regard to case *)
Definition case_engine : engine := toy (T "a") (fun rq s =>
  match s with c :: s' => if (c =? 97) || rq_icase rq && (c =? 65) then Match s' [] else NoMatch | [] => NoMatch end).
Example C52_string_ex :
  field_ok narrow (T "a") [105]
  /\ (forall rest groups, case_engine (asked (T "a") [105]) (text U8 [65; 0xe9]) = Match rest groups ->
        exists a b, [65; 0xe9] = a ++ b /\ rest = text U8 b)
  /\ (forall m d n s, extent (case_engine (Request (T "a") m d true n) s) = extent (case_engine (asked (T "a") [105]) s))
  /\ exists sp, parse_format_specs narrow NarrowStringType (regex_field (T "a") [105] ++ [125]) (SS specs_default false) = Ok ([125], SS sp false)
     /\ string_arg (read_regex_string Re2 case_engine) str8 string_src sp (text U8 [65; 0xe9]) = Ok ([65], text U8 [0xe9]).
Proof.
  split; [field_is_ok|]. split; [intros rest gs [= <- _]; exists [65], [0xe9]; split; reflexivity|].
  split; [reflexivity|]. eexists. split; [vm_compute; reflexivity|]. vm_compute; reflexivity.
Qed.

(** ** What is not as documented *)
Definition misreports (bk : backend) (cf : config) (en : engine) (q fl s : list Z) : Prop :=
  sound en /\ field_ok cf q fl
  /\ exists sp, parse_format_specs cf NarrowRegexMatchesType (regex_field q fl ++ [125]) (SS specs_default false) = Ok ([125], SS sp false)
     /\ ~ reports s (en (asked q fl) s) (regex_matches_arg bk en string_src sp s).

(** White space before the match is skipped, whatever the pattern, although it is the
    regular expression that decides (scan.h:8145-8154, 8230-8240), and as is the case for
    strings: *)
Definition word_engine : engine := toy (T "[a-z]") (fun _ s =>
  match s with c :: s' => if letter c then Match s' [] else NoMatch | [] => NoMatch end).
Theorem C52_space_refuted : exists en q s,
  misreports (Std false) std8 en q [] s
  /\ exists sp, parse_format_specs std8 NarrowStringType (regex_field q [] ++ [125]) (SS specs_default false) = Ok ([125], SS sp false)
     /\ string_arg (read_regex_string (Std false) en) str8 string_src sp s = Err InvalidScannedValue
     /\ regex_matches_arg (Std false) en string_src sp s = Ok ([Some (T "a", None)], []).
Proof.
  exists word_engine, (T "[a-z]"), (T " a"). split.
  - split; [|split; [field_is_ok|]].
    + intros rq s rest gs. unfold word_engine, toy. destruct (list_eqb _ _); [|discriminate].
      destruct s as [|c s]; [discriminate|]. destruct (letter c); [|discriminate]. intros [= <- _]. exists [c]. reflexivity.
    + eexists. split; [vm_compute; reflexivity|]. vm_compute. intros H. inversion H.
  - eexists. split; [vm_compute; reflexivity|]. split; vm_compute; reflexivity.
Qed.
Print Assumptions C52_space_refuted.

(** A pattern that matches nothing at all is not even tried at the end of the source. *)
Definition empty_engine : engine := toy (T "a*") (fun _ s =>
  match s with [] => Match [] [] | _ => NoMatch end).
Theorem C52_empty_refuted : exists en q, misreports (Std false) std8 en q [] [].
Proof.
  exists empty_engine, (T "a*"). split; [|split; [field_is_ok|]].
  - intros rq s rest gs. unfold empty_engine, toy. destruct (list_eqb _ _); [|discriminate].
    destruct s; [|discriminate]. intros [= <- _]. exists []. reflexivity.
  - eexists. split; [vm_compute; reflexivity|]. vm_compute. intros H. inversion H.
Qed.
Print Assumptions C52_empty_refuted.

(** Boost: a subexpression without a name gets one if it matched the same text as a named
    one. *)
Definition twice_pattern : list Z := T "([a-z])(?<n>[a-z])".
Definition twice_engine : engine := toy twice_pattern (fun rq s =>
  match s with
  | c :: d :: s' => if letter c && letter d then Match s' (subs rq [(Some [c], None); (Some [d], Some (T "n"))]) else NoMatch
  | _ => NoMatch
  end).
Lemma twice_sound : sound twice_engine.
Proof.
  intros rq s rest gs. unfold twice_engine, toy. destruct (list_eqb _ _); [|discriminate].
  destruct s as [|c [|d s]]; try discriminate. destruct (_ && _); [|discriminate]. intros [= <- _]. exists [c; d]. reflexivity.
Qed.
Theorem C52_boost_names_refuted : exists en q s,
  misreports Boost narrow en q [] s
  /\ exists sp, parse_format_specs narrow NarrowRegexMatchesType (regex_field q [] ++ [125]) (SS specs_default false) = Ok ([125], SS sp false)
     /\ regex_matches_arg Boost en string_src sp (T "ab")
        = Ok ([Some (T "ab", None); Some (T "a", None); Some (T "b", Some (T "n"))], [])
     /\ regex_matches_arg Boost en string_src sp s
        = Ok ([Some (T "aa", None); Some (T "a", Some (T "n")); Some (T "a", Some (T "n"))], []).
Proof.
  exists twice_engine, twice_pattern, (T "aa"). split.
  - split; [apply twice_sound|split; [field_is_ok|]].
    eexists. split; [vm_compute; reflexivity|]. vm_compute. intros H. inversion H.
  - eexists. split; [vm_compute; reflexivity|]. split; vm_compute; reflexivity.
Qed.
Print Assumptions C52_boost_names_refuted.

(** Boost: '.' matches a newline without the flag s, too. *)
Definition dot_engine : engine := toy (T ".") (fun rq s =>
  match s with c :: s' => if (c =? 10) && negb (rq_dot_newline rq) then NoMatch else Match s' [] | [] => NoMatch end).
Theorem C52_boost_dot_refuted : exists en q,
  sound en /\ field_ok narrow q []
  /\ exists sp, parse_format_specs narrow NarrowStringType (regex_field q [] ++ [125]) (SS specs_default false) = Ok ([125], SS sp false)
     /\ en (asked q []) [10] = NoMatch
     /\ string_arg (read_regex_string Boost en) str8 string_src sp [10] = Ok ([10], []).
Proof.
  exists dot_engine, (T "."). split; [|split; [field_is_ok|]].
  - intros rq s rest gs. unfold dot_engine, toy. destruct (list_eqb _ _); [|discriminate].
    destruct s as [|c s]; [discriminate|]. destruct (_ && _); [discriminate|]. intros [= <- _]. exists [c]. reflexivity.
  - eexists. split; [vm_compute; reflexivity|]. split; vm_compute; reflexivity.
Qed.
Print Assumptions C52_boost_dot_refuted.

(** RE2: '$' matches at the end of a line exactly without the flag m. *)
Definition line_engine : engine := toy (T "a$") (fun rq s =>
  match s with
  | 97 :: s' => match s' with
                | [] => Match [] []
                | c :: _ => if (c =? 10) && rq_multiline rq then Match s' [] else NoMatch
                end
  | _ => NoMatch
  end).
Lemma line_sound : sound line_engine.
Proof.
  intros rq s rest gs. unfold line_engine, toy. destruct (list_eqb _ _); [|discriminate].
  assert (H : forall s', match s' with [] => Match [] [] | c :: _ => if (c =? 10) && rq_multiline rq then Match s' [] else NoMatch end
                         = Match rest gs -> exists w, 97 :: s' = w ++ rest).
  { intros [|c s']; [intros [= <- _]; exists [97]; reflexivity|]. destruct (_ && _); [|discriminate].
    intros [= <- _]. exists [97]. reflexivity. }
  destruct s as [|[|p|p] s]; try discriminate. do 7 (destruct p as [p|p|]; try discriminate). apply H.
Qed.
Theorem C52_re2_lines_refuted : exists en q s,
  misreports Re2 narrow en q [109] s /\ misreports Re2 narrow en q [] s.
Proof.
  exists line_engine, (T "a$"), [97; 10; 98].
  split; (split; [apply line_sound|split; [field_is_ok|]]);
    (eexists; split; [vm_compute; reflexivity|]); vm_compute; intros H; inversion H.
Qed.
Print Assumptions C52_re2_lines_refuted.

(** RE2: a named subexpression that takes no part in the match is undefined behaviour. *)
Theorem C52_re2_group_refuted : exists en q s,
  misreports Re2 narrow en q [] s
  /\ exists sp, parse_format_specs narrow NarrowRegexMatchesType (regex_field q [] ++ [125]) (SS specs_default false) = Ok ([125], SS sp false)
     /\ regex_matches_arg Re2 en string_src sp s = UB.
Proof.
  exists (pair_engine named_pattern (Some (T "n"))), named_pattern, (T "ab"). split.
  - split; [apply pair_sound|split; [field_is_ok|]].
    eexists. split; [vm_compute; reflexivity|]. vm_compute. intros H. inversion H.
  - eexists. split; [vm_compute; reflexivity|]. vm_compute; reflexivity.
Qed.
Print Assumptions C52_re2_group_refuted.

(** A format-spec without a regular expression, as "{:5}", is rejected when it is checked
    at compile time, but undefined behaviour if the format string is given at run time. *)
Theorem C52_no_pattern_refuted : exists format sp,
  parse_format_specs narrow NarrowRegexMatchesType format (SS specs_default false) = Ok ([125], SS sp false)
  /\ check_regex_type_specs sp = false
  /\ forall bk en s, regex_matches_arg bk en string_src sp s = UB.
Proof. exists (T "5}"). eexists. split; [vm_compute; reflexivity|]. split; reflexivity. Qed.
Print Assumptions C52_no_pattern_refuted.

(** ** Sources in several pieces *)
(** Files and ranges that are not contiguous cannot be matched: whatever the engine, the
    pattern and the flags are, a format-spec that is accepted gives an error, for matches and
    for strings. *)
Theorem C52_segmented : forall bk en dst r cf t q fl tail cps,
  c_enc cf = s_enc r -> s_enc r <> U16 -> s_contig r = false -> whole r cps -> field_ok cf q fl -> Forall scalar cps ->
  exists sp,
    parse_format_specs cf t (regex_field q fl ++ 125 :: tail) (SS specs_default false) = Ok (125 :: tail, SS sp false)
    /\ regex_matches_arg bk en r sp (text (s_enc r) cps)
       = Err (if forallb is_ws cps then EndOfInput else InvalidFormatString)
    /\ string_arg (read_regex_string bk en) dst r sp (text (s_enc r) cps) = Err InvalidFormatString.
Proof.
  intros bk en dst r cf t q fl tail cps Hcf He Hr Hw Hf Hs.
  destruct (field_parse cf t q fl tail) as (sp & HP & ->); [congruence|exact Hf|].
  eexists. split; [exact HP|]. rewrite Hcf. destruct Hf as (_ & _ & _ & _ & Hq & _).
  set (d := Desc None None None None false (Some (TyRegex (escape_slashes q) fl))).
  assert (HN : escape_slashes q <> []).
  { destruct q as [|c q']; [congruence|]. cbn. destruct (c =? 47); discriminate. }
  assert (HT : type (mean (s_enc r) d) = (if existsb (Z.eqb 47) (escape_slashes q) then PRegexEscaped else PRegex)) by reflexivity.
  assert (HS : charset_string (mean (s_enc r) d) = escape_slashes q) by reflexivity.
  split.
  - unfold regex_matches_arg. rewrite HS. destruct (escape_slashes q) as [|x l] eqn:EQ; [congruence|].
    unfold arg_read_checked, regex_matches_reader. cbn [rd_check rd_skip rd_specs].
    assert (HC : check_regex_type_specs (mean (s_enc r) d) = true).
    { unfold check_regex_type_specs. rewrite HT, HS. cbn [length]. destruct (existsb _ _); reflexivity. }
    rewrite HC. unfold arg_read. change (precision (mean (s_enc r) d)) with 0. change (0 =? 0) with true. cbn [negb].
    unfold impl_prefix. change (align (mean (s_enc r) d)) with ANone. cbv iota.
    change (precision (mean (s_enc r) d)) with 0. change (0 =? 0) with true. cbn [negb]. unfold skip_ws_all.
    change (need_width (mean (s_enc r) d)) with false. cbv iota.
    rewrite skip_ws_text by assumption. cbn [negb andb].
    assert (L : (length (lead is_ws cps) =? length cps)%nat = forallb is_ws cps).
    { clear. induction cps as [|c cps IH]; [reflexivity|]. cbn [lead forallb]. destruct (is_ws c); [exact IH|reflexivity]. }
    rewrite L. destruct (forallb is_ws cps); [reflexivity|]. cbn [bind].
    unfold regex_matches_specs. rewrite Hr. reflexivity.
  - unfold string_arg, arg_read_checked, string_reader. cbn [rd_check rd_skip rd_specs].
    assert (HC : check_string_type_specs (mean (s_enc r) d) = true) by (unfold check_string_type_specs; rewrite HT; destruct (existsb _ _); reflexivity).
    assert (HK : string_skip (mean (s_enc r) d) = false) by (unfold string_skip, string_kind_of; rewrite HT; destruct (existsb _ _); reflexivity).
    rewrite HC, HK. unfold arg_read.
    change (precision (mean (s_enc r) d)) with 0. change (0 =? 0) with true. cbn [negb].
    unfold impl_prefix. change (align (mean (s_enc r) d)) with ANone. cbv iota. cbn [bind].
    change (need_width (mean (s_enc r) d)) with false. cbv iota.
    unfold string_specs, string_kind_of. rewrite HT.
    destruct (existsb (Z.eqb 47) (escape_slashes q)); unfold regex_read; rewrite Hr; reflexivity.
Qed.
Print Assumptions C52_segmented.
Example C52_segmented_ex : let r := Src U8 false (fun n => n) in
  s_contig r = false /\ field_ok narrow (T "a") [105] /\ Forall scalar (T " a") /\
  exists sp, parse_format_specs narrow NarrowRegexMatchesType (T "/a/i}") (SS specs_default false) = Ok ([125], SS sp false)
    /\ (forall en, regex_matches_arg (Std true) en r sp (T " a") = Err InvalidFormatString)
    /\ (forall en, regex_matches_arg (Std true) en r sp (T "  ") = Err EndOfInput).
Proof.
  split; [reflexivity|]. split.
  - unfold field_ok. split; [reflexivity|]. split; [discriminate|]. split; [constructor; [easy|constructor]|].
    split; [intros x [<-|[]]; cbn; tauto|]. split; [discriminate|]. split; [discriminate|reflexivity].
  - split; [repeat constructor; cbn; lia|]. eexists. split; [vm_compute; reflexivity|]. split; intros en; vm_compute; reflexivity.
Qed.
