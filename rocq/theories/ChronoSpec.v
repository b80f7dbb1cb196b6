(** Specification of chrono formats (documentation in include/scn/chrono.h:253-330, and the
    conversion specifiers of strptime and std::format): how they are written, which fields
    they set, and how a date is written in them. *)
From Coq Require Import String Ascii.
From Verif Require Import Prelude UnicodeModel UnicodeSpec FormatSpec VscanSpec ChronoModel.
Local Open Scope Z_scope.
Import Coq.Strings.String.StringSyntax.
Local Open Scope string_scope.
Local Open Scope list_scope.
Local Open Scope Z_scope.

Definition codes (s : string) : list Z :=
  map (fun c => Z.of_nat (nat_of_ascii c)) (list_ascii_of_string s).

(** ** Formats *)
(** The conversion specifiers, by what follows the '%'. *)
Definition conversions : list (string * (conv * numsys)) :=
  [("Y", (FullYear, Std)); ("EY", (FullYear, AltE)); ("y", (ShortYear, Std));
   ("Oy", (ShortYear, AltO)); ("Ey", (LocOffsetYear, Std)); ("C", (Century, Std));
   ("EC", (Century, AltE)); ("G", (IsoYear, Std)); ("g", (IsoShortYear, Std));
   ("b", (MonthName, Std)); ("B", (MonthName, Std)); ("h", (MonthName, Std));
   ("m", (DecMonth, Std)); ("Om", (DecMonth, AltO)); ("U", (Dec0Week, Std));
   ("OU", (Dec0Week, AltO)); ("W", (Dec1Week, Std)); ("OW", (Dec1Week, AltO));
   ("V", (IsoWeek, Std)); ("j", (DayOfYear, Std)); ("d", (DayOfMonth, Std));
   ("e", (DayOfMonth, Std)); ("Od", (DayOfMonth, AltO)); ("Oe", (DayOfMonth, AltO));
   ("a", (WeekdayName, Std)); ("A", (WeekdayName, Std)); ("w", (Dec0Weekday, Std));
   ("Ow", (Dec0Weekday, AltO)); ("u", (Dec1Weekday, Std)); ("H", (Hour24, Std));
   ("k", (Hour24, Std)); ("OH", (Hour24, AltO)); ("Ok", (Hour24, AltO));
   ("I", (Hour12, Std)); ("l", (Hour12, Std)); ("OI", (Hour12, AltO)); ("Ol", (Hour12, AltO));
   ("M", (Minute, Std)); ("OM", (Minute, AltO)); ("S", (Second, Std)); ("OS", (Second, AltO));
   (".S", (Subsecond, Std)); (".ES", (Subsecond, AltE)); (".OS", (Subsecond, AltE));
   ("z", (TzOffset, Std)); ("Ez", (TzOffset, AltE)); ("Oz", (TzOffset, AltO));
   ("Z", (TzName, Std)); ("c", (LocDatetime, Std)); ("Ec", (LocDatetime, AltE));
   ("x", (LocDate, Std)); ("Ex", (LocDate, AltE)); ("X", (LocTime, Std)); ("EX", (LocTime, AltE));
   ("D", (UsDate, Std)); ("F", (IsoDate, Std)); ("r", (Loc12HourTime, Std)); ("R", (Time24, Std));
   ("T", (IsoTime, Std)); ("p", (AmPm, Std)); ("P", (AmPm, Std)); ("s", (EpochOffset, Std));
   ("Q", (DurationTicks, Std)); ("q", (DurationSuffix, Std))]%string.

(** A format is a sequence of literal characters, white space and conversion specifiers. *)
Inductive token : Type := TLit (cp : Z) | TSpace (cp : Z) | TConv (l : string).
Definition meaning (l : string) : option event :=
  if (l =? "%")%string then Some (OnText [37])
  else if (l =? "n")%string || (l =? "t")%string then Some OnWhitespace
  else option_map (fun x => OnConv (fst (snd x)) (snd (snd x)))
         (find (fun x => String.eqb (fst x) l) conversions).
Definition write (e : enc) (tk : token) : list Z :=
  match tk with
  | TLit cp | TSpace cp => encode e cp
  | TConv l => 37 :: codes l
  end.
Definition write_format (e : enc) (loc : bool) (ts : list token) : list Z :=
  (if loc then [76] else []) ++ flat_map (write e) ts.
(** A token is well formed if ... *)
Definition wf_token (tk : token) : Prop :=
  match tk with
  | TLit cp => scalar cp /\ is_ws cp = false /\ cp <> 37 /\ cp <> 125
  | TSpace cp => is_ws cp = true
  | TConv l => meaning l <> None
  end.
(** What it stands for: a run of literal characters is one text.  The flag tells whether
    the handler is asked for an error afterwards. *)
Definition as_text (u : list Z) : list (event * bool) :=
  match u with [] => [] | _ => [(OnText u, false)] end.
Fixpoint calls (e : enc) (u : list Z) (ts : list token) : list (event * bool) :=
  match ts with
  | [] => as_text u
  | TLit cp :: ts' => calls e (u ++ encode e cp) ts'
  | TSpace cp :: ts' => as_text u ++ (OnWhitespace, false) :: calls e [] ts'
  | TConv l :: ts' =>
      as_text u ++ (match meaning l with Some ev => [(ev, true)] | None => [(OnError, true)] end)
      ++ calls e [] ts'
  end.
Definition format_calls (e : enc) (loc : bool) (ts : list token) : list (event * bool) :=
  (if loc then [(OnLocalized, false)] else []) ++ calls e [] ts ++ [(OnVerify, false)].
(** Calling a handler so, up to the first error; [true]: all calls were made *)
Fixpoint drive {St} (on : event -> St -> outcome St) (fine : St -> bool)
  (evs : list (event * bool)) (st : St) : outcome (bool * St) :=
  match evs with
  | [] => Ok (true, st)
  | (ev, chk) :: evs' =>
      st <- on ev st ;;
      if chk && negb (fine st) then Ok (false, st) else drive on fine evs' st
  end.
Definition starts_with_conv (ts : list token) : Prop :=
  match ts with TConv _ :: _ => True | _ => False end.
(** The tokens the parser treats as they are meant. *)
Definition simple_token (e : enc) (tk : token) : Prop :=
  match tk with
  | TLit cp => length (encode e cp) = 1%nat
  | TSpace cp => cp < 128 \/ (1 < length (encode e cp))%nat
  | TConv l => l <> "OW"%string
  end.
Definition ascii (c : Z) : Prop := 0 <= c < 128.
Definition plain_token (tk : token) : Prop :=
  match tk with TLit cp | TSpace cp => ascii cp | TConv _ => True end.
(** The format ends at the end of the string or before a '}'. *)
Definition at_end (p : list Z) : Prop :=
  match p with [] => True | c :: _ => c = 125 end.

(** ** Fields *)
Inductive part : Type :=
| PSubsec | PSec | PMin | PHour24 | PHour12 | PAmPm | PMday | PMon | PYear | PCentury
| PShortYear | PWday | PYday | PTz | PTzName.
Definition part_eqb (a b : part) : bool :=
  match a, b with
  | PSubsec, PSubsec | PSec, PSec | PMin, PMin | PHour24, PHour24 | PHour12, PHour12
  | PAmPm, PAmPm | PMday, PMday | PMon, PMon | PYear, PYear | PCentury, PCentury
  | PShortYear, PShortYear | PWday, PWday | PYday, PYday | PTz, PTz | PTzName, PTzName => true
  | _, _ => false
  end.
(** The ones a conversion specifier sets; [None]: not implemented.  With the 'L' flag the
    locale decides what a time with %r and a date with %c look like. *)
Definition sets (loc : bool) (c : conv) : option (list part) :=
  match c with
  | FullYear => Some [PYear] | ShortYear => Some [PShortYear] | Century => Some [PCentury]
  | MonthName | DecMonth => Some [PMon]
  | DayOfYear => Some [PYday] | DayOfMonth => Some [PMday]
  | WeekdayName | Dec0Weekday | Dec1Weekday => Some [PWday]
  | Hour24 => Some [PHour24] | Hour12 => Some [PHour12] | AmPm => Some [PAmPm]
  | Minute => Some [PMin] | Second => Some [PSec] | Subsecond => Some [PSec; PSubsec]
  | TzOffset => Some [PTz] | TzName => Some [PTzName]
  | LocDatetime => Some ((if loc then [] else [PWday]) ++ [PMon; PMday; PHour24; PMin; PSec; PYear])
  | LocDate | IsoDate => Some [PMon; PMday; PYear]
  | UsDate => Some [PMon; PMday; PShortYear]
  | LocTime | IsoTime => Some [PHour24; PMin; PSec]
  | Time24 => Some [PHour24; PMin]
  | Loc12HourTime => Some (if loc then [PHour24; PMin; PSec] else [PHour12; PMin; PSec; PAmPm])
  | _ => None
  end.
Definition format_parts (loc : bool) (ts : list token) : list part :=
  flat_map (fun tk => match tk with
                      | TConv l => match meaning l with
                                   | Some (OnConv c _) => match sets loc c with Some ps => ps | None => [] end
                                   | _ => []
                                   end
                      | _ => []
                      end) ts.
(** The field that a part is a part of *)
Definition field_of (p : part) : option field :=
  match p with
  | PSec => Some Sec | PMin => Some Min | PHour24 | PHour12 => Some Hour | PMday => Some Mday | PMon => Some Mon
  | PYear | PCentury | PShortYear => Some Year | PWday => Some Wday | PYday => Some Yday | PTz => Some Tz
  | PSubsec | PAmPm | PTzName => None
  end.
(** The rules for using them together, on the list of all parts a format sets. *)
Definition has (ps : list part) (p : part) : bool := existsb (part_eqb p) ps.
Definition no_clock_mix (ps : list part) : Prop :=
  (In PHour24 ps -> ~ In PHour12 ps) /\ (In PAmPm ps -> In PHour12 ps).
Definition no_year_mix (ps : list part) : Prop :=
  In PYear ps -> ~ In PCentury ps /\ ~ In PShortYear ps.
Definition no_zone_mix (ps : list part) : Prop := In PTz ps -> ~ In PTzName ps.
Definition one_day_part (ps : list part) : Prop :=
  ~ (In PWday ps /\ In PMday ps) /\ ~ (In PWday ps /\ In PYday ps) /\
  ~ (In PMday ps /\ In PYday ps).
Definition coherent (ps : list part) : Prop :=
  NoDup ps /\ no_clock_mix ps /\ no_year_mix ps /\ no_zone_mix ps /\ one_day_part ps.

(** The documented ranges, chrono.h:278-301 and std::tm *)
Definition field_range (t : target) (f : field) (v : Z) : Prop :=
  match f with
  | Sec => 0 <= v <= 60 | Min => 0 <= v <= 59 | Hour => 0 <= v <= 23
  | Mday => 1 <= v <= 31
  | Mon => match t with Components => 1 <= v <= 12 | _ => 0 <= v <= 11 end
  | Wday => 0 <= v <= 6 | Yday => 0 <= v <= 365
  | Year | Tz => True
  end.

(** ** Dates as text *)
(** A part with its value as the text gives it *)
Definition values : Type := list (part * Z).
Definition value (vs : values) (p : part) : option Z :=
  option_map snd (find (fun x => part_eqb p (fst x)) vs).
(** The date they make *)
Definition hour_24 (h pm : Z) : Z := h mod 12 + 12 * pm.
Definition year_of (century short : option Z) : option Z :=
  match century, short with
  | Some c, Some y => Some (100 * c + y)
  | None, Some y => Some (if y <=? 68 then 2000 + y else 1900 + y)
  | Some c, None => Some (100 * c)
  | None, None => None
  end.
Definition offset (t : target) (f : field) : Z :=
  match t, f with
  | Components, _ => 0
  | _, Mon => 1
  | _, Year => 1900
  | _, _ => 0
  end.
Definition made (vs : values) (f : field) : option Z :=
  match f with
  | Sec => value vs PSec | Min => value vs PMin
  | Hour =>
      match value vs PHour24, value vs PHour12, value vs PAmPm with
      | Some h, _, _ => Some h
      | None, Some h, Some pm => Some (hour_24 h pm)
      | None, Some h, None => Some h
      | None, None, _ => None
      end
  | Mday => value vs PMday | Mon => value vs PMon
  | Year =>
      match value vs PYear with
      | Some y => Some y
      | None => year_of (value vs PCentury) (value vs PShortYear)
      end
  | Wday => value vs PWday | Yday => value vs PYday | Tz => value vs PTz
  end.
Definition date (t : target) (vs : values) (f : field) : option Z :=
  option_map (fun v => v - offset t f) (made vs f).

(** The conversion specifiers that are short for others: %m/%d/%Y, %H:%M:%S, %m/%d/%y,
    %Y-%m-%d, %I:%M:%S %p, %H:%M, %a %b %d %H:%M:%S %Y *)
Definition composed (c : conv) : option (list token) :=
  let time h := [TConv h; TLit 58; TConv "M"; TLit 58; TConv "S"] in
  let date y := [TConv "m"; TLit 47; TConv "d"; TLit 47; TConv y] in
  match c with
  | LocDate => Some (date "Y") | UsDate => Some (date "y")
  | IsoDate => Some [TConv "Y"; TLit 45; TConv "m"; TLit 45; TConv "d"]
  | LocTime | IsoTime => Some (time "H")
  | Loc12HourTime => Some (time "I" ++ [TSpace 32; TConv "p"])
  | Time24 => Some [TConv "H"; TLit 58; TConv "M"]
  | LocDatetime =>
      Some ([TConv "a"; TSpace 32; TConv "b"; TSpace 32; TConv "d"; TSpace 32] ++ time "H" ++
            [TSpace 32; TConv "Y"])
  | _ => None
  end.
Definition events (e : enc) (ts : list token) : list event := map fst (calls e [] ts).
Definition expand (e : enc) (ev : event) : list event :=
  match ev with
  | OnConv c _ => match composed c with Some ts => events e ts | None => [ev] end
  | _ => [ev]
  end.
(** Numbers: fewest and most digits, lowest and highest value *)
Definition numeric (c : conv) : option (part * (nat * nat) * (Z * Z)) :=
  match c with
  | FullYear => Some (PYear, (4, 4)%nat, (0, 9999))
  | ShortYear => Some (PShortYear, (2, 2)%nat, (0, 99))
  | Century => Some (PCentury, (2, 2)%nat, (0, 99))
  | DecMonth => Some (PMon, (1, 2)%nat, (1, 12))
  | DayOfYear => Some (PYday, (1, 3)%nat, (1, 366))
  | DayOfMonth => Some (PMday, (1, 2)%nat, (1, 31))
  | Dec0Weekday => Some (PWday, (1, 1)%nat, (0, 6))
  | Dec1Weekday => Some (PWday, (1, 1)%nat, (1, 7))
  | Hour24 => Some (PHour24, (1, 2)%nat, (0, 23))
  | Hour12 => Some (PHour12, (1, 2)%nat, (1, 12))
  | Minute => Some (PMin, (1, 2)%nat, (0, 59))
  | Second => Some (PSec, (1, 2)%nat, (0, 60))
  | _ => None
  end.
(** Value of the part for the number that is written: days of the year count from 0 and
    Sunday is 0. *)
Definition part_value (c : conv) (n : Z) : Z :=
  match c with DayOfYear => n - 1 | Dec1Weekday => n mod 7 | _ => n end.
Definition digit (c : Z) : Prop := 48 <= c <= 57.
Definition decimal (ds : list Z) : Z := fold_left (fun a c => a * 10 + (c - 48)) ds 0.
(** Names, in any case *)
Definition month_names : list (string * Z) :=
  [("january", 1); ("february", 2); ("march", 3); ("april", 4); ("may", 5); ("june", 6);
   ("july", 7); ("august", 8); ("september", 9); ("october", 10); ("november", 11);
   ("december", 12)]%string.
Definition day_names : list (string * Z) :=
  [("sunday", 0); ("monday", 1); ("tuesday", 2); ("wednesday", 3); ("thursday", 4);
   ("friday", 5); ("saturday", 6)]%string.
Definition ampm_names : list (string * Z) :=
  [("am", 0); ("a.m.", 0); ("pm", 1); ("p.m.", 1)]%string.
Definition lower (c : Z) : Z := if (65 <=? c) && (c <=? 90) then c + 32 else c.
Definition spelled (u : list Z) (w : list Z) : Prop := map lower u = w.
(** Abbreviated to three letters: what follows must not complete the name. *)
Definition completes (w next : list Z) : Prop :=
  exists u rest, next = u ++ rest /\ spelled u (skipn 3 w).

Definition no_digit_next (next : list Z) : Prop :=
  match next with [] => True | c :: _ => ~ digit c end.
(** [c :: next] does not begin with white space *)
Definition no_space_next (next : list Z) : Prop :=
  match next with [] => True | c :: _ => 0 <= c < 128 /\ is_ws c = false end.

(** [shows next ev u vs]: [u], followed by [next], is what is written for [ev] when the parts
    have the values [vs]. *)
Inductive shows (next : list Z) : event -> list Z -> values -> Prop :=
| sh_text u : shows next (OnText u) u []
| sh_space u :
    Forall (fun c => 0 <= c < 128 /\ is_ws c = true) u -> no_space_next next ->
    shows next OnWhitespace u []
| sh_number c sys p lo hi a b u :
    numeric c = Some (p, (lo, hi), (a, b)) -> Forall digit u ->
    (lo <= length u <= hi)%nat -> (length u = hi \/ no_digit_next next) ->
    a <= decimal u <= b ->
    shows next (OnConv c sys) u [(p, part_value c (decimal u))]
| sh_month sys u w v :
    In (w, v) month_names -> spelled u (codes w) ->
    shows next (OnConv MonthName sys) u [(PMon, v)]
| sh_month_abbr sys u w v :
    In (w, v) month_names -> spelled u (firstn 3 (codes w)) -> ~ completes (codes w) next ->
    shows next (OnConv MonthName sys) u [(PMon, v)]
| sh_day sys u w v :
    In (w, v) day_names -> spelled u (codes w) ->
    shows next (OnConv WeekdayName sys) u [(PWday, v)]
| sh_day_abbr sys u w v :
    In (w, v) day_names -> spelled u (firstn 3 (codes w)) -> ~ completes (codes w) next ->
    shows next (OnConv WeekdayName sys) u [(PWday, v)]
| sh_ampm sys u w v :
    In (w, v) ampm_names -> spelled u (codes w) ->
    shows next (OnConv AmPm sys) u [(PAmPm, v)]
| sh_zone sys sign colon h m :
    (sign = [] \/ sign = [43] \/ sign = [45]) -> (colon = [] \/ colon = [58]) ->
    Forall digit h -> length h = 2%nat -> Forall digit m -> length m = 2%nat ->
    (sys = Std \/ colon = [58]) ->
    shows next (OnConv TzOffset sys) (sign ++ h ++ colon ++ m)
      [(PTz, (if (match sign with [45] => true | _ => false end) then -1 else 1)
             * (decimal h * 60 + decimal m))]
| sh_zone_hours sys sign h :
    (sign = [] \/ sign = [43] \/ sign = [45]) ->
    Forall digit h -> length h = 2%nat ->
    match next with [] => True | c :: _ => ~ digit c /\ c <> 58 end ->
    shows next (OnConv TzOffset sys) (sign ++ h)
      [(PTz, (if (match sign with [45] => true | _ => false end) then -1 else 1)
             * (decimal h * 60))].

(** [prints evs s vs rest]: [s] is the text for all of [evs] and then [rest]. *)
Inductive prints (rest : list Z) : list event -> list Z -> values -> Prop :=
| pr_nil : prints rest [] rest []
| pr_cons ev evs u s vs vs' :
    shows s ev u vs -> prints rest evs s vs' -> prints rest (ev :: evs) (u ++ s) (vs ++ vs').
(** White space before the date *)
Definition ascii_ws (c : Z) : Prop := 0 <= c < 128 /\ is_ws c = true.
(** [s] is text in the format [ts], giving the values [vs]. *)
Definition written (e : enc) (ts : list token) (vs : values) (s rest : list Z) : Prop :=
  prints rest (flat_map (expand e) (events e ts)) s vs.
(** The values that datetime_components can hold: no century or short year, and only the first
    seven days of a year. *)
Definition good_value (t : target) (x : part * Z) : Prop :=
  t = Components -> fst x <> PCentury /\ fst x <> PShortYear /\ (fst x = PYday -> snd x <= 6).

(** ** Text that is kept as it is: names of time zones, fractions of a second *)
Definition texts : Type := list (part * list Z).
Definition text_of (xs : texts) (p : part) : option (list Z) :=
  option_map snd (find (fun x => part_eqb p (fst x)) xs).
Definition zone_char (c : Z) : Prop :=
  97 <= c <= 122 \/ 65 <= c <= 90 \/ digit c \/ c = 45 \/ c = 43 \/ c = 95 \/ c = 47.
Definition not_next (P : Z -> Prop) (next : list Z) : Prop :=
  match next with [] => True | c :: _ => 0 <= c /\ ~ P c end.
(** [shows_text next ev u vs xs]: as [shows], giving also the texts [xs] *)
Inductive shows_text (next : list Z) : event -> list Z -> values -> texts -> Prop :=
| st_value ev u vs : shows next ev u vs -> shows_text next ev u vs []
| st_zone sys u :
    u <> [] -> Forall zone_char u -> not_next zone_char next ->
    shows_text next (OnConv TzName sys) u [] [(PTzName, u)]
| st_fraction sys sec fr :
    Forall digit sec -> (1 <= length sec <= 2)%nat -> decimal sec <= 60 ->
    fr <> [] -> Forall digit fr -> not_next digit next ->
    shows_text next (OnConv Subsecond sys) (sec ++ 46 :: fr) [(PSec, decimal sec)] [(PSubsec, fr)].
Inductive prints_text (rest : list Z) : list event -> list Z -> values -> texts -> Prop :=
| pt_nil : prints_text rest [] rest [] []
| pt_cons ev evs u s vs vs' xs xs' :
    shows_text s ev u vs xs -> prints_text rest evs s vs' xs' ->
    prints_text rest (ev :: evs) (u ++ s) (vs ++ vs') (xs ++ xs').
Definition written_text (e : enc) (ts : list token) (vs : values) (xs : texts) (s rest : list Z) : Prop :=
  prints_text rest (flat_map (expand e) (events e ts)) s vs xs.
(** The texts a destination can hold: std::tm no name of a time zone, and only
    datetime_components a fraction of a second, which is read as a number below one. *)
Definition good_text {D} (scan_double : list Z -> outcome D) (in_unit : D -> bool) (t : target)
  (x : part * list Z) : Prop :=
  (fst x = PTzName -> t <> Tm) /\
  (fst x = PSubsec -> t = Components /\
     exists d, scan_double (48 :: 46 :: snd x) = Ok d /\ in_unit d = true).
(** Specifiers that look the same in every locale, as written with the 'L' flag *)
Definition same_in_locales (ev : event) : Prop :=
  match ev with
  | OnConv c sys =>
      (sys = Std \/ c = TzOffset) /\
      ~ In c [MonthName; WeekdayName; LocDatetime; LocDate; LocTime; Loc12HourTime]
  | _ => True
  end.
Definition locale_free (tk : token) : Prop :=
  match tk with
  | TConv l => match meaning l with Some ev => same_in_locales ev | None => True end
  | _ => True
  end.
