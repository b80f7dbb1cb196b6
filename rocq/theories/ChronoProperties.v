(** Properties of date and time scanning: C34, C35, C36, C37, C50.
    In all theorems about scanning: [D], [scan_double], [in_unit]: floating-point numbers, their
    conversion from text and the interval [0, 1); [time_get], [point]: the locale.  They are
    arbitrary. *)
From Coq Require Import String Ascii.
From Verif Require VscanSpecProofs.
From Verif Require Import Prelude UnicodeModel UnicodeSpec ReadModel ReadProofs FormatModel FormatSpec IntModel
  VscanSpec VscanProperties SpecsInvProofs ChronoModel ChronoSpec ChronoParseProofs ChronoInvProofs ChronoRuleProofs
  ChronoRoundProofs ChronoDateProofs ChronoTripProofs ChronoSoundProofs.
Import Coq.Strings.String.StringSyntax.
Local Open Scope string_scope.
Local Open Scope list_scope.
Local Open Scope Z_scope.

(** A scan from a narrow string in a locale that reads nothing, for the examples *)
Definition sample (t : target) (f s : list Z) : outcome (datetime Z * list Z) :=
  chrono_arg Z (fun _ => Ok 5) (fun _ => true) (fun _ _ => None) 46 string_src narrow t f s.
Definition seen_fields (o : outcome (datetime Z * list Z)) : outcome (list (option Z) * list Z) :=
  match o with
  | Ok (d, rest) => Ok (map (dt_int Z d) [Sec; Min; Hour; Mday; Mon; Year; Wday; Yday; Tz], rest)
  | Err e => Err e
  | UB => UB
  | OutOfFuel => OutOfFuel
  end.

(** * C34: formats *)
(** A format of single-unit literals, white space and conversion specifiers, up to '}' or the
    end, makes exactly the calls it stands for, until an error. *)
Theorem C34_partial : forall St (on : event -> St -> outcome St) fine e loc ts rest st,
  (forall st, on (OnText []) st = Ok st) -> e <> U16 -> at_end rest ->
  Forall wf_token ts -> Forall (simple_token e) ts -> starts_with_conv ts ->
  match drive on fine (format_calls e loc ts) st with
  | Ok (b, st') => exists q, parse_chrono_format_specs St on fine e (write_format e loc ts ++ rest) st = Ok (q, st')
                             /\ (b = true -> q = rest)
  | Err x => parse_chrono_format_specs St on fine e (write_format e loc ts ++ rest) st = Err x
  | UB => parse_chrono_format_specs St on fine e (write_format e loc ts ++ rest) st = UB
  | OutOfFuel => parse_chrono_format_specs St on fine e (write_format e loc ts ++ rest) st = OutOfFuel
  end.
Proof.
  intros St on fine e loc ts rest st Hn He Hr W S0 Hc.
  assert (Sn : Forall (seen e) ts).
  { rewrite Forall_forall in *. intros tk I. apply simple_seen; auto. }
  assert (NW : Forall (fun tk => tk <> TConv "OW") ts).
  { rewrite Forall_forall in *. intros tk I ->. apply (S0 _ I). reflexivity. }
  pose proof (parse_agrees St on fine Hn e loc ts rest st He Hr Sn Hc) as A.
  rewrite made_calls_eq in A by assumption. exact A.
Qed.
Print Assumptions C34_partial.

(** "%Y-%m %H}", with a handler that keeps the calls *)
Definition ts_ex : list token := [TConv "Y"; TLit 45; TConv "m"; TSpace 32; TConv "H"].
Example C34_ex :
  Forall wf_token ts_ex /\ Forall (simple_token U8) ts_ex /\ starts_with_conv ts_ex /\
  parse_chrono_format_specs (list event) (fun ev st => Ok (match ev with OnText [] => st | _ => st ++ [ev] end))
    (fun _ => true) U8 (T "%Y-%m %H}tail") []
  = Ok (T "}tail", [OnConv FullYear Std; OnText [45]; OnConv DecMonth Std; OnWhitespace; OnConv Hour24 Std; OnVerify]).
Proof.
  repeat split; try (repeat constructor; cbn; try discriminate; lia); vm_compute; reflexivity.
Qed.

(** Checking a format always ends, in an end position, an error or undefined behaviour. *)
Theorem C34_ends : forall t e f,
  (exists p fmt, chrono_parse t e f = Ok (p, fmt)) \/
  chrono_parse t e f = Err InvalidFormatString \/ chrono_parse t e f = UB.
Proof. exact parse_ends. Qed.
Print Assumptions C34_ends.
Example C34_ends_ex : chrono_parse Tm U8 (T "%Y}x") = Ok (T "}x", T "%Y").
Proof. vm_compute. reflexivity. Qed.

(** An ASCII format is never undefined behaviour, and if it is accepted, it is a sequence of
    literals, white space and documented conversion specifiers, up to '}' or the end. *)
Theorem C34_ascii : forall t e f, Forall ascii f ->
  chrono_parse t e f = Err InvalidFormatString \/
  exists loc ts p, Forall wf_token ts /\ Forall plain_token ts /\ starts_with_conv ts /\ at_end p /\
    f = write_format e loc ts ++ p /\ chrono_parse t e f = Ok (p, write_format e loc ts).
Proof. exact format_sound. Qed.
Print Assumptions C34_ascii.
Example C34_ascii_ex : Forall ascii (T "L%Ex %H:%M}x") /\
  chrono_parse Tm U8 (T "L%Ex %H:%M}x") = Ok (T "}x", T "L%Ex %H:%M") /\
  chrono_parse Tm U8 (T "%E!") = Err InvalidFormatString.
Proof. split; [repeat constructor; cbn; lia|]. split; vm_compute; reflexivity. Qed.

(** A literal of several units takes the character after it with it: the '%' of the next
    conversion specifier, or the '}' that ends the format. *)
Theorem C34_literal_refuted : exists ts f s,
  Forall wf_token ts /\ starts_with_conv ts /\ f = write_format U8 false ts ++ [125] /\
  ts = [TConv "Y"; TLit 233; TConv "m"] /\
  seen_fields (sample Tm f (T "2024" ++ [195; 169] ++ T "05")) = Err InvalidFormatString /\
  seen_fields (sample Tm f s) = Ok ([None; None; None; None; None; Some 124; None; None; None], [])
  /\ s = T "2024" ++ [195; 169] ++ T "%m".
Proof.
  eexists. eexists. eexists. split; [|split; [|split; [reflexivity|split; [reflexivity|]]]].
  - repeat constructor; cbn; try discriminate; try lia.
  - exact I.
  - split; [vm_compute; reflexivity|]. split; [|reflexivity]. vm_compute. reflexivity.
Qed.
Print Assumptions C34_literal_refuted.
Theorem C34_brace_refuted : exists f, f = T "%Y" ++ [195; 169] ++ T "} {" /\
  chrono_parse Tm U8 f = Ok ([], f).
Proof. eexists. split; [reflexivity|]. vm_compute. reflexivity. Qed.
Print Assumptions C34_brace_refuted.
(** ... and at the end of the format string, the parser reads behind it. *)
Theorem C34_end_refuted : exists f, f = T "%Y" ++ [195; 169] /\ chrono_parse Tm U8 f = UB.
Proof. eexists. split; [reflexivity|]. vm_compute. reflexivity. Qed.
Print Assumptions C34_end_refuted.
(** %OW, a week number, is taken for a weekday: it is accepted, unlike %W. *)
Theorem C34_week_refuted :
  chrono_parse Tm U8 (T "%W}") = Err InvalidFormatString /\
  chrono_parse Tm U8 (T "%OW}") = Ok (T "}", T "%OW") /\
  seen_fields (sample Tm (T "%OW}") (T "3")) = Ok ([None; None; None; None; None; None; Some 2; None; None], []).
Proof. split; [|split]; vm_compute; reflexivity. Qed.
Print Assumptions C34_week_refuted.
(** In wide formats, white space other than ASCII is a literal. *)
Theorem C34_wide_space_refuted : is_ws 8232 = true /\
  parse_chrono_format_specs (list event) (fun ev st => Ok (match ev with OnText [] => st | _ => st ++ [ev] end))
    (fun _ => true) U32 (T "%Y" ++ [8232] ++ T "%m}") []
  = Ok (T "}", [OnConv FullYear Std; OnText [8232]; OnConv DecMonth Std; OnVerify]) /\
  parse_chrono_format_specs (list event) (fun ev st => Ok (match ev with OnText [] => st | _ => st ++ [ev] end))
    (fun _ => true) U8 (T "%Y" ++ encode U8 8232 ++ T "%m}") []
  = Ok (T "}", [OnConv FullYear Std; OnWhitespace; OnConv DecMonth Std; OnVerify]).
Proof. split; [|split]; vm_compute; reflexivity. Qed.
Print Assumptions C34_wide_space_refuted.

(** * C50: a date that is written in a format is read back *)
(** [written]: the text [s] shows the values [vs] in the format [ts], followed by [tail].
    The fields are the date these make, and exactly the text is consumed.  %Z, %.S and the 'L'
    flag: C50_text_partial.  Not covered: %u (C35_weekday_exact), %c, literals of several
    units. *)
Theorem C50_partial : forall D scan_double in_unit time_get point r cf t ts rest sp s vs tail,
  s_enc r <> U16 -> at_end rest -> Forall wf_token ts ->
  Forall (simple_token (s_enc r)) ts -> starts_with_conv ts -> Forall (fun tk => tk <> TConv "u") ts ->
  coherent (format_parts false ts) -> written (s_enc r) ts vs s tail -> Forall (good_value t) vs ->
  Forall ascii_ws sp -> no_space_next s -> s <> [] -> units (s_enc r) (sp ++ s) ->
  exists d, chrono_arg D scan_double in_unit time_get point r cf t
              (write_format (s_enc r) false ts ++ rest) (sp ++ s) = Ok (d, tail)
    /\ (forall f, dt_int D d f = date t vs f) /\ dt_subsec D d = None /\ dt_tzname D d = None.
Proof. exact trip. Qed.
Print Assumptions C50_partial.

(** "%d %b %I:%M %p" *)
Definition ts_date : list token :=
  [TConv "d"; TSpace 32; TConv "b"; TSpace 32; TConv "I"; TLit 58; TConv "M"; TSpace 32; TConv "p"].
Definition vs_date : values := [(PMday, 7); (PMon, 5); (PHour12, 12); (PMin, 30); (PAmPm, 0)].
Ltac show := eapply pr_cons.
Example C50_ex :
  Forall wf_token ts_date /\ Forall (simple_token U8) ts_date /\ starts_with_conv ts_date /\
  Forall (fun tk => tk <> TConv "u") ts_date /\ coherent (format_parts false ts_date) /\
  written U8 ts_date vs_date (T "7 May 12:30 a.M.!") (T "!") /\
  Forall (good_value Tm) vs_date /\
  seen_fields (sample Tm (T "%d %b %I:%M %p}") (T "  7 May 12:30 a.M.!"))
  = Ok ([None; Some 30; Some 0; Some 7; Some 4; None; None; None; None], T "!").
Proof.
  split; [repeat constructor; cbn; try discriminate; lia|].
  split; [repeat constructor; cbn; try discriminate; lia|].
  split; [exact I|]. split; [repeat constructor; discriminate|].
  split.
  { split; [repeat (apply NoDup_cons; [cbn; intuition congruence|]); apply NoDup_nil|].
    unfold no_clock_mix, no_year_mix, no_zone_mix, one_day_part. cbn. intuition (try discriminate; auto 10). }
  split.
  { unfold written.
    apply (pr_cons _ _ _ (T "7") (T " May 12:30 a.M.!") [(PMday, 7)]).
    { eapply (sh_number _ DayOfMonth); [reflexivity|repeat constructor; cbn; lia|cbn; lia|right; cbn; unfold digit; lia|cbn; lia]. }
    apply (pr_cons _ _ _ (T " ") (T "May 12:30 a.M.!") []).
    { apply sh_space; [repeat constructor; cbn; lia|cbn; split; [lia|reflexivity]]. }
    apply (pr_cons _ _ _ (T "May") (T " 12:30 a.M.!") [(PMon, 5)]).
    { apply (sh_month _ _ _ "may"); [cbn; tauto|reflexivity]. }
    apply (pr_cons _ _ _ (T " ") (T "12:30 a.M.!") []).
    { apply sh_space; [repeat constructor; cbn; lia|cbn; split; [lia|reflexivity]]. }
    apply (pr_cons _ _ _ (T "12") (T ":30 a.M.!") [(PHour12, 12)]).
    { eapply (sh_number _ Hour12); [reflexivity|repeat constructor; cbn; lia|cbn; lia|now left|cbn; lia]. }
    apply (pr_cons _ _ _ (T ":") (T "30 a.M.!") []).
    { apply sh_text. }
    apply (pr_cons _ _ _ (T "30") (T " a.M.!") [(PMin, 30)]).
    { eapply (sh_number _ Minute); [reflexivity|repeat constructor; cbn; lia|cbn; lia|now left|cbn; lia]. }
    apply (pr_cons _ _ _ (T " ") (T "a.M.!") []).
    { apply sh_space; [repeat constructor; cbn; lia|cbn; split; [lia|reflexivity]]. }
    apply (pr_cons _ _ _ (T "a.M.") (T "!") [(PAmPm, 0)]).
    { apply (sh_ampm _ _ _ "a.m."); [cbn; tauto|reflexivity]. }
    apply pr_nil. }
  split; [repeat constructor; discriminate|vm_compute; reflexivity].
Qed.

(** With names of time zones and fractions of a second, and with the 'L' flag if the format has
    only specifiers that look the same in every locale: also the name of the zone is the text,
    and the fraction the number that "0." and its digits are read as. *)
Theorem C50_text_partial : forall D scan_double in_unit time_get point r cf t loc ts rest sp s vs xs tail,
  s_enc r <> U16 -> at_end rest -> Forall wf_token ts ->
  Forall (simple_token (s_enc r)) ts -> starts_with_conv ts -> Forall (fun tk => tk <> TConv "u") ts ->
  (loc = true -> Forall locale_free ts) -> (xs <> [] -> VscanSpecProofs.good_src r /\ c_enc cf = s_enc r) ->
  coherent (format_parts loc ts) -> written_text (s_enc r) ts vs xs s tail -> Forall (good_value t) vs ->
  Forall (good_text scan_double in_unit t) xs ->
  Forall ascii_ws sp -> no_space_next s -> s <> [] -> units (s_enc r) (sp ++ s) ->
  exists d, chrono_arg D scan_double in_unit time_get point r cf t
              (write_format (s_enc r) loc ts ++ rest) (sp ++ s) = Ok (d, tail)
    /\ (forall f, dt_int D d f = date t vs f)
    /\ match text_of xs PSubsec with
       | Some fr => exists x, scan_double (T "0." ++ fr) = Ok x /\ dt_subsec D d = Some x
       | None => dt_subsec D d = None
       end
    /\ dt_tzname D d = text_of xs PTzName.
Proof. exact trip_text. Qed.
Print Assumptions C50_text_partial.
(** "L%H:%M:%.S %Z" *)
Definition ts_zone : list token := [TConv "H"; TLit 58; TConv "M"; TLit 58; TConv ".S"; TSpace 32; TConv "Z"].
Definition vs_zone : values := [(PHour24, 23); (PMin, 5); (PSec, 7)].
Definition xs_zone : texts := [(PSubsec, T "250"); (PTzName, T "Europe/Helsinki")].
Example C50_text_ex :
  Forall wf_token ts_zone /\ Forall (simple_token U8) ts_zone /\ starts_with_conv ts_zone /\
  Forall (fun tk => tk <> TConv "u") ts_zone /\ Forall locale_free ts_zone /\ coherent (format_parts true ts_zone) /\
  written_text U8 ts_zone vs_zone xs_zone (T "23:05:7.250 Europe/Helsinki!") (T "!") /\
  Forall (good_value Components) vs_zone /\
  Forall (good_text (fun _ => Ok 5) (fun _ => true) Components) xs_zone /\
  seen_fields (sample Components (T "L%H:%M:%.S %Z}") (T "23:05:7.250 Europe/Helsinki!"))
  = Ok ([Some 7; Some 5; Some 23; None; None; None; None; None; None], T "!").
Proof.
  split; [repeat constructor; cbn; try discriminate; lia|].
  split; [repeat constructor; cbn; try discriminate; lia|].
  split; [exact I|]. split; [repeat constructor; discriminate|].
  split; [repeat (constructor; [cbn; intuition discriminate|]); constructor|].
  split.
  { split; [repeat (apply NoDup_cons; [cbn; intuition congruence|]); apply NoDup_nil|].
    unfold no_clock_mix, no_year_mix, no_zone_mix, one_day_part. cbn. intuition (try discriminate; auto 10). }
  split.
  { unfold written_text.
    apply (pt_cons _ _ _ (T "23") (T ":05:7.250 Europe/Helsinki!") [(PHour24, 23)] _ []).
    { apply st_value. eapply (sh_number _ Hour24); [reflexivity|repeat constructor; cbn; lia|cbn; lia|now left|cbn; lia]. }
    apply (pt_cons _ _ _ (T ":") (T "05:7.250 Europe/Helsinki!") [] _ []).
    { apply st_value, sh_text. }
    apply (pt_cons _ _ _ (T "05") (T ":7.250 Europe/Helsinki!") [(PMin, 5)] _ []).
    { apply st_value. eapply (sh_number _ Minute); [reflexivity|repeat constructor; cbn; lia|cbn; lia|now left|cbn; lia]. }
    apply (pt_cons _ _ _ (T ":") (T "7.250 Europe/Helsinki!") [] _ []).
    { apply st_value, sh_text. }
    apply (pt_cons _ _ _ (T "7.250") (T " Europe/Helsinki!") [(PSec, 7)] _ [(PSubsec, T "250")]).
    { apply (st_fraction _ _ (T "7") (T "250")); [repeat constructor; cbn; lia|cbn; lia|cbn; lia|discriminate|repeat constructor; cbn; lia|cbn; unfold digit; lia]. }
    apply (pt_cons _ _ _ (T " ") (T "Europe/Helsinki!") [] _ []).
    { apply st_value, sh_space; [repeat constructor; cbn; lia|cbn; split; [lia|reflexivity]]. }
    apply (pt_cons _ _ _ (T "Europe/Helsinki") (T "!") [] _ [(PTzName, T "Europe/Helsinki")]).
    { apply st_zone; [discriminate|apply Forall_forall; intros c I; cbn in I; unfold zone_char, digit; lia|cbn; unfold zone_char, digit; lia]. }
    apply pt_nil. }
  split; [repeat constructor; discriminate|].
  split; [repeat constructor; cbn; try discriminate; exists 5; auto|vm_compute; reflexivity].
Qed.
(** With the 'L' flag, a name is looked for where the scan began, not where the preceding
    specifiers ended: in a locale that knows "jan", day and month are read in one order only. *)
Definition jan_locale (fmt s : list Z) : option (tmv * list Z) :=
  match s with
  | 106 :: 97 :: 110 :: s' => Some (TMV 0 0 0 0 0 0 0, s')
  | _ => None
  end.
Definition in_jan (f s : list Z) : outcome (datetime Z * list Z) :=
  chrono_arg Z (fun _ => Ok 5) (fun _ => true) jan_locale 46 string_src narrow Tm f s.
Theorem C50_localized_refuted :
  seen_fields (in_jan (T "L%b %d}") (T "jan 5")) = Ok ([None; None; None; Some 5; Some 0; None; None; None; None], []) /\
  seen_fields (in_jan (T "L%d %b}") (T "5 jan")) = Err InvalidScannedValue /\
  seen_fields (in_jan (T "%d %b}") (T "5 jan")) = Ok ([None; None; None; Some 5; Some 0; None; None; None; None], []).
Proof. split; [|split]; vm_compute; reflexivity. Qed.
Print Assumptions C50_localized_refuted.

(** * C35: ranges *)
(** Whatever the format, the source and the locale are: the fields that are set are in their
    ranges. *)
Theorem C35_ranges_partial : forall D scan_double in_unit time_get point r cf t f s d s',
  chrono_arg D scan_double in_unit time_get point r cf t f s = Ok (d, s') ->
  (forall g v, dt_int D d g = Some v -> field_range t g v)
  /\ (forall x, dt_subsec D d = Some x -> in_unit x = true).
Proof.
  intros D sd iu tg pt r cf t f s d s' E. unfold chrono_arg in E. apply ok_bind in E.
  destruct E as ([p fmt] & _ & E). eapply ranges_hold. exact E.
Qed.
Print Assumptions C35_ranges_partial.
Example C35_ranges_ex :
  seen_fields (sample Components (T "%T %z}") (T "23:59:60 -05:30 x"))
  = Ok ([Some 60; Some 59; Some 23; None; None; None; None; None; Some (-330)], T " x") /\
  seen_fields (sample Components (T "%T}") (T "23:59:61")) = Err InvalidScannedValue.
Proof. split; vm_compute; reflexivity. Qed.

(** Each number of a conversion specifier that is in the range is accepted and set. *)
Theorem C35_accepts_partial : forall D scan_double in_unit time_get point r cf t l c sys p lo hi a b u rest,
  s_enc r <> U16 -> at_end rest -> meaning l = Some (OnConv c sys) ->
  numeric c = Some (p, (lo, hi), (a, b)) -> l <> "u"%string ->
  Forall digit u -> (lo <= length u <= hi)%nat -> a <= decimal u <= b ->
  good_value t (p, part_value c (decimal u)) ->
  exists d, chrono_arg D scan_double in_unit time_get point r cf t (37 :: codes l ++ rest) u = Ok (d, [])
    /\ forall f, dt_int D d f = date t [(p, part_value c (decimal u))] f.
Proof.
  intros D sd iu tg pt r cf t l c sys p lo hi a b u rest He Hr M N Nu Hu Hl Hv G.
  assert (Wr : written (s_enc r) [TConv l] [(p, part_value c (decimal u))] u []).
  { unfold written, events. cbn [calls as_text app]. rewrite M. cbn [map fst flat_map app expand].
    assert (Cn : composed c = None) by (destruct c; try discriminate N; reflexivity).
    rewrite Cn. cbn [app].
    assert (S1 : shows [] (OnConv c sys) u [(p, part_value c (decimal u))]).
    { eapply sh_number; try eassumption. right. exact I. }
    pose proof (pr_cons [] _ _ _ _ _ _ S1 (pr_nil [])) as P. rewrite !app_nil_r in P. exact P. }
  assert (Nw : l <> "OW"%string).
  { intros ->. cbn in M. injection M as <- <-. discriminate N. }
  assert (U0 : exists x u', u = x :: u' /\ digit x).
  { destruct u as [|x u']; [|exists x, u'; split; [trivial|now inversion Hu]].
    destruct c; try discriminate N; injection N as <- <- <- <- <-; cbn in Hl; lia. }
  destruct U0 as (x & u' & -> & Hx). unfold digit in Hx.
  destruct (trip D sd iu tg pt r cf t [TConv l] rest [] (x :: u') [(p, part_value c (decimal (x :: u')))] [])
    as (d & E & F & _); trivial.
  - constructor; [cbn; congruence|constructor].
  - constructor; [exact Nw|constructor].
  - exact I.
  - constructor; [congruence|constructor].
  - unfold format_parts. cbn. rewrite M.
    destruct c; try discriminate N; cbn;
      (split; [repeat (apply NoDup_cons; [cbn; intuition congruence|]); apply NoDup_nil|];
       unfold no_clock_mix, no_year_mix, no_zone_mix, one_day_part; cbn; intuition (try discriminate; auto 10)).
  - constructor; [exact G|constructor].
  - cbn. split; [lia|]. unfold is_ws, pattern_white_space. cbn [existsb]. lia.
  - discriminate.
  - destruct (s_enc r); cbn; trivial. eapply Forall_impl; [|exact Hu]. unfold digit, is_byte. intros; lia.
  - exists d. split; [|exact F]. cbn [app] in E. unfold write_format in E. cbn [flat_map write app] in E.
    rewrite app_nil_r in E. exact E.
Qed.
Print Assumptions C35_accepts_partial.
Example C35_accepts_ex : meaning "OS" = Some (OnConv Second AltO) /\ numeric Second = Some (PSec, (1, 2)%nat, (0, 60)) /\
  Forall digit (T "60") /\ 0 <= decimal (T "60") <= 60 /\ good_value Components (PSec, 60).
Proof.
  split; [reflexivity|]. split; [reflexivity|]. split; [repeat constructor; cbn; lia|].
  split; [cbn; lia|]. intros _. cbn. repeat split; discriminate.
Qed.
(** The days of the week as %u counts them, Monday being 1, are stored wrongly: Sunday, which
    std::tm has as 0, becomes 6. *)
Theorem C35_weekday_refuted :
  seen_fields (sample Tm (T "%u}") (T "1")) = Ok ([None; None; None; None; None; None; Some 0; None; None], []) /\
  seen_fields (sample Tm (T "%a}") (T "Mon")) = Ok ([None; None; None; None; None; None; Some 1; None; None], []) /\
  seen_fields (sample Tm (T "%u}") (T "7")) = Ok ([None; None; None; None; None; None; Some 6; None; None], []) /\
  seen_fields (sample Tm (T "%a}") (T "Sun")) = Ok ([None; None; None; None; None; None; Some 0; None; None], []).
Proof. repeat split; vm_compute; reflexivity. Qed.
Print Assumptions C35_weekday_refuted.
(** What %u takes and stores: the digits 0 to 7, where 0 and 7 are the same day. *)
Theorem C35_weekday_exact : forall t c, digit c ->
  seen_fields (sample t (T "%u}") [c])
  = if c <=? 55 then Ok ([None; None; None; None; None; None; Some ((c - 48 + 6) mod 7); None; None], []) else Err InvalidScannedValue.
Proof.
  intros t c Hc. unfold digit in Hc. assert (HC : In c [48; 49; 50; 51; 52; 53; 54; 55; 56; 57]) by (cbn; lia). clear Hc.
  destruct t; repeat (destruct HC as [<-|HC]; [vm_compute; reflexivity|]); destruct HC.
Qed.
Print Assumptions C35_weekday_exact.
(** datetime_components has days of the year from 0 to 365, but scans only the first seven. *)
Theorem C35_yday_refuted :
  field_range Components Yday 99 /\
  seen_fields (sample Components (T "%j}") (T "100")) = Err InvalidScannedValue /\
  seen_fields (sample Tm (T "%j}") (T "100")) = Ok ([None; None; None; None; None; None; None; Some 99; None], []).
Proof. split; [cbn; lia|]. split; vm_compute; reflexivity. Qed.
Print Assumptions C35_yday_refuted.

(** * C36: the 12-hour clock, centuries and short years *)
(** In any format and text as in C50 that gives an hour of the 12-hour clock and AM or PM, in
    any order. *)
Theorem C36_hours : forall D scan_double in_unit time_get point r cf t ts rest sp s vs tail h pm,
  s_enc r <> U16 -> at_end rest -> Forall wf_token ts ->
  Forall (simple_token (s_enc r)) ts -> starts_with_conv ts -> Forall (fun tk => tk <> TConv "u") ts ->
  coherent (format_parts false ts) -> written (s_enc r) ts vs s tail -> Forall (good_value t) vs ->
  Forall ascii_ws sp -> no_space_next s -> s <> [] -> units (s_enc r) (sp ++ s) ->
  value vs PHour12 = Some h -> value vs PAmPm = Some pm ->
  exists d, chrono_arg D scan_double in_unit time_get point r cf t
              (write_format (s_enc r) false ts ++ rest) (sp ++ s) = Ok (d, tail)
    /\ dt_int D d Hour = Some (if h =? 12 then 12 * pm else h + 12 * pm).
Proof.
  intros D sd iu tg pt r cf t ts rest sp s vs tail h pm He Hr W S0 Hc Nu Co Wr Gv Hsp Hs Hn Hb Vh Vp.
  destruct (trip D sd iu tg pt r cf t ts rest sp s vs tail) as (d & E & F & _); trivial.
  exists d. split; [trivial|]. rewrite F. unfold date, made. rewrite Vh, Vp.
  assert (N24 : value vs PHour24 = None).
  { apply value_none. intros I. pose proof (written_parts _ _ _ _ _ Wr) as Pm.
    destruct Co as (_ & [Ck _] & _).
    apply Ck; [eapply Permutation.Permutation_in; eassumption|].
    eapply Permutation.Permutation_in; [exact Pm|]. eapply value_in; eassumption. }
  rewrite N24. cbn [option_map]. f_equal. replace (offset t Hour) with 0 by (destruct t; reflexivity).
  assert (R : Forall in_range vs) by (eapply prints_range; exact Wr).
  rewrite Forall_forall in R. destruct (R _ (value_pair _ _ _ Vh)) as [R1 _]. specialize (R1 eq_refl). cbn in R1.
  unfold hour_24. destruct (Z.eqb_spec h 12) as [->|]; [clear; lia|]. clear Vh Vp E F; rewrite Z.mod_small; lia.
Qed.
Print Assumptions C36_hours.
Example C36_hours_ex : value vs_date PHour12 = Some 12 /\ value vs_date PAmPm = Some 0 /\
  seen_fields (sample Components (T "%p %I}") (T "pm 11"))
  = Ok ([None; None; Some 23; None; None; None; None; None; None], []).
Proof. repeat split; vm_compute; reflexivity. Qed.

(** ... and for std::tm, for a century or a short year or both, in any order. *)
Theorem C36_years_partial : forall D scan_double in_unit time_get point r cf t ts rest sp s vs tail y,
  t <> Components -> s_enc r <> U16 -> at_end rest -> Forall wf_token ts ->
  Forall (simple_token (s_enc r)) ts -> starts_with_conv ts -> Forall (fun tk => tk <> TConv "u") ts ->
  coherent (format_parts false ts) -> written (s_enc r) ts vs s tail ->
  Forall ascii_ws sp -> no_space_next s -> s <> [] -> units (s_enc r) (sp ++ s) ->
  year_of (value vs PCentury) (value vs PShortYear) = Some y ->
  exists d, chrono_arg D scan_double in_unit time_get point r cf t
              (write_format (s_enc r) false ts ++ rest) (sp ++ s) = Ok (d, tail)
    /\ dt_int D d Year = Some (y - 1900).
Proof.
  intros D sd iu tg pt r cf t ts rest sp s vs tail y Ht He Hr W S0 Hc Nu Co Wr Hsp Hs Hn Hb Vy.
  destruct (trip D sd iu tg pt r cf t ts rest sp s vs tail) as (d & E & F & _); trivial.
  { apply Forall_forall. intros x _ Hc0. contradiction. }
  exists d. split; [trivial|]. rewrite F. unfold date, made.
  assert (Ny : value vs PYear = None).
  { apply value_none. intros I. pose proof (written_parts _ _ _ _ _ Wr) as Pm.
    destruct Co as (_ & _ & Ym & _).
    assert (I' : In PYear (format_parts false ts)) by (eapply Permutation.Permutation_in; eassumption).
    apply Ym in I'. destruct I' as [N1 N2]. unfold year_of in Vy.
    destruct (value vs PCentury) eqn:X.
    - apply N1. eapply Permutation.Permutation_in; [exact Pm|]. eapply value_in; eassumption.
    - destruct (value vs PShortYear) eqn:Y; [|discriminate].
      apply N2. eapply Permutation.Permutation_in; [exact Pm|]. eapply value_in; eassumption. }
  rewrite Ny, Vy. cbn. f_equal. destruct t; try reflexivity. congruence.
Qed.
Print Assumptions C36_years_partial.
Example C36_years_ex :
  seen_fields (sample Tm (T "%y %C}") (T "69 20")) = Ok ([None; None; None; None; None; Some 169; None; None; None], []) /\
  seen_fields (sample Tm (T "%y}") (T "69")) = Ok ([None; None; None; None; None; Some 69; None; None; None], []) /\
  seen_fields (sample Tm (T "%y}") (T "68")) = Ok ([None; None; None; None; None; Some 168; None; None; None], []) /\
  seen_fields (sample Tm (T "%C}") (T "20")) = Ok ([None; None; None; None; None; Some 100; None; None; None], []).
Proof. repeat split; vm_compute; reflexivity. Qed.
(** datetime_components: the year is lost. *)
Theorem C36_components_refuted :
  seen_fields (sample Components (T "%y}") (T "95")) = Ok ([None; None; None; None; None; Some 2000; None; None; None], []) /\
  seen_fields (sample Components (T "%C%y}") (T "1995")) = Ok ([None; None; None; None; None; Some 0; None; None; None], []) /\
  year_of (Some 19) (Some 95) = Some 1995 /\ year_of None (Some 95) = Some 1995.
Proof. repeat split; vm_compute; reflexivity. Qed.
Print Assumptions C36_components_refuted.

(** * C37: rules for formats *)
(** A format with which a scan succeeds sets no field twice, does not mix 12-hour and 24-hour
    clocks, full years with centuries and short years, or zone names and offsets, has AM and PM
    only together with a 12-hour clock, and not exactly two of the day of the week, of the month
    and of the year. *)
Theorem C37_partial : forall D scan_double in_unit time_get point r cf t loc ts rest s d s',
  s_enc r <> U16 -> at_end rest -> Forall wf_token ts -> Forall (simple_token (s_enc r)) ts ->
  starts_with_conv ts ->
  chrono_arg D scan_double in_unit time_get point r cf t (write_format (s_enc r) loc ts ++ rest) s = Ok (d, s') ->
  let ps := format_parts loc ts in
  NoDup ps /\ no_clock_mix ps /\ no_year_mix ps /\ no_zone_mix ps
  /\ (one_day_part ps \/ In PWday ps /\ In PMday ps /\ In PYday ps).
Proof. intros D sd iu tg pt r cf t. exact (rules D sd iu tg pt r cf t). Qed.
Print Assumptions C37_partial.
Example C37_ex :
  seen_fields (sample Tm (T "%H:%M %I}") (T "1:2 3")) = Err InvalidFormatString /\
  seen_fields (sample Tm (T "%b %m}") (T "May 5")) = Err InvalidFormatString /\
  seen_fields (sample Tm (T "%H:%M}") (T "1:2 3")) =
    Ok ([None; Some 2; Some 1; None; None; None; None; None; None], T " 3").
Proof. repeat split; vm_compute; reflexivity. Qed.
(** All three together are not rejected. *)
Theorem C37_days_refuted : ~ one_day_part (format_parts false [TConv "a"; TSpace 32; TConv "d"; TSpace 32; TConv "j"]) /\
  seen_fields (sample Tm (write_format U8 false [TConv "a"; TSpace 32; TConv "d"; TSpace 32; TConv "j"] ++ [125])
                 (T "Mon 3 200"))
  = Ok ([None; None; None; Some 3; None; None; Some 1; Some 199; None], []).
Proof. split; [cbn; intros [H _]; apply H; cbn; tauto|vm_compute; reflexivity]. Qed.
Print Assumptions C37_days_refuted.
(** A format for a single component that does not set it is not rejected, and the component
    that is not there is returned. *)
Theorem C37_component_refuted : exists f s,
  f = T "%H}" /\ s = T "12" /\
  component_arg Z (fun _ => Ok 5) (fun _ => true) (fun _ _ => None) 46 string_src narrow CDay f s = UB.
Proof. exists (T "%H}"), (T "12"). repeat split; vm_compute; reflexivity. Qed.
Print Assumptions C37_component_refuted.
(** Some conflicts are only found when scanning, not when the format is checked. *)
Theorem C37_check_refuted :
  chrono_parse Tm U8 (T "%b %m}") = Ok (T "}", T "%b %m") /\
  chrono_parse Components U8 (T "%S %.S}") = Ok (T "}", T "%S %.S").
Proof. split; vm_compute; reflexivity. Qed.
Print Assumptions C37_check_refuted.
(** %c is documented, but a scan with it never succeeds: its own day of the week and of the
    month conflict. *)
Theorem C37_datetime_refuted : forall D scan_double in_unit time_get point r cf t rest s d s',
  s_enc r <> U16 -> at_end rest ->
  chrono_arg D scan_double in_unit time_get point r cf t (T "%c" ++ rest) s = Ok (d, s') -> False.
Proof.
  intros D sd iu tg pt r cf t rest s d s' He Hr E.
  destruct (rules D sd iu tg pt r cf t false [TConv "c"] rest s d s') as (_ & _ & _ & _ & H); trivial.
  - constructor; [discriminate|constructor].
  - constructor; [discriminate|constructor].
  - exact I.
  - destruct H as [H|(_ & _ & H)].
    + destruct H as (H & _). apply H. cbn. tauto.
    + cbn in H. intuition discriminate.
Qed.
Print Assumptions C37_datetime_refuted.

(** A component whose field the format sets, as in C50, is returned. *)
Theorem C37_component_partial : forall D scan_double in_unit time_get point r cf c ts rest sp s vs tail zs,
  s_enc r <> U16 -> at_end rest -> Forall wf_token ts ->
  Forall (simple_token (s_enc r)) ts -> starts_with_conv ts -> Forall (fun tk => tk <> TConv "u") ts ->
  coherent (format_parts false ts) -> written (s_enc r) ts vs s tail -> Forall (good_value Components) vs ->
  Forall ascii_ws sp -> no_space_next s -> s <> [] -> units (s_enc r) (sp ++ s) ->
  map (made vs) (component_fields c) = map Some zs ->
  component_arg D scan_double in_unit time_get point r cf c
    (write_format (s_enc r) false ts ++ rest) (sp ++ s) = Ok (zs, tail).
Proof.
  intros D sd iu tg pt r cf c ts rest sp s vs tail zs He Hr W S0 Hc Nu Co Wr Gv Hsp Hs Hn Hb Mf.
  destruct (trip D sd iu tg pt r cf Components ts rest sp s vs tail) as (d & E & F & _); trivial.
  unfold component_arg. rewrite E. cbn [bind].
  assert (G : forall fs zs, map (made vs) fs = map Some zs -> get_fields fs (dt_int D d) = Ok zs).
  { induction fs as [|f fs IH]; intros [|z zs0] M; cbn in M; try discriminate; [reflexivity|].
    injection M as M1 M2. cbn [get_fields]. rewrite F. unfold date. rewrite M1. cbn [option_map offset].
    rewrite Z.sub_0_r, (IH _ M2). reflexivity. }
  rewrite (G _ _ Mf). reflexivity.
Qed.
Print Assumptions C37_component_partial.
Example C37_component_ex :
  component_arg Z (fun _ => Ok 5) (fun _ => true) (fun _ _ => None) 46 string_src narrow CMonthDay
    (T "%d %b}") (T "7 May!") = Ok ([5; 7], T "!").
Proof. vm_compute. reflexivity. Qed.
