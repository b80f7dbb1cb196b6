(** Model of date and time scanning.  include/scn/chrono.h:253-330, 338-343, 372-1698;
    src/scn/impl.cpp:2035-3595.
    Not modelled: time points (chrono.h:345-370, 1700-1724), the setters for single
    components (impl.cpp:2503-2696; no function uses them).  std::tm has tm_gmtoff. *)
From Verif Require Import Prelude UnicodeModel ReadModel SpecsModel ArgsModel FormatModel
  VscanModel StringModel.
Local Open Scope Z_scope.

(** chrono.h:338-343 *)
Inductive numsys : Type := Std | AltE | AltO.
(** The handler functions for conversion specifiers, chrono.h:1017-1164 *)
Inductive conv : Type :=
| FullYear | ShortYear | Century | IsoYear | IsoShortYear | LocOffsetYear
| MonthName | DecMonth | Dec0Week | Dec1Week | IsoWeek | DayOfYear | DayOfMonth
| WeekdayName | Dec0Weekday | Dec1Weekday | Hour24 | Hour12 | Minute | Second | Subsecond
| TzOffset | TzName | LocDatetime | LocDate | LocTime | UsDate | IsoDate | Loc12HourTime
| Time24 | IsoTime | AmPm | EpochOffset | DurationTicks | DurationSuffix.
(** A call of a handler function *)
Inductive event : Type :=
| OnLocalized | OnText (t : list Z) | OnWhitespace | OnConv (c : conv) (sys : numsys) | OnError
| OnVerify.

(** chrono.h:453-703: the letter after '%' *)
Definition plain_conv (ch : Z) : option conv :=
  match ch with
  | 89 => Some FullYear | 121 => Some ShortYear | 67 => Some Century
  | 71 => Some IsoYear | 103 => Some IsoShortYear
  | 98 | 66 | 104 => Some MonthName | 109 => Some DecMonth
  | 85 => Some Dec0Week | 87 => Some Dec1Week | 86 => Some IsoWeek
  | 106 => Some DayOfYear | 100 | 101 => Some DayOfMonth
  | 97 | 65 => Some WeekdayName | 119 => Some Dec0Weekday | 117 => Some Dec1Weekday
  | 72 | 107 => Some Hour24 | 73 | 108 => Some Hour12 | 77 => Some Minute | 83 => Some Second
  | 122 => Some TzOffset | 90 => Some TzName
  | 99 => Some LocDatetime | 120 => Some LocDate | 88 => Some LocTime
  | 68 => Some UsDate | 70 => Some IsoDate | 114 => Some Loc12HourTime | 82 => Some Time24
  | 84 => Some IsoTime | 112 | 80 => Some AmPm
  | 115 => Some EpochOffset | 81 => Some DurationTicks | 113 => Some DurationSuffix
  | _ => None
  end.
(** 615-642, 654-697: after 'E' and 'O' *)
Definition e_conv (ch : Z) : option conv :=
  match ch with
  | 99 => Some LocDatetime | 67 => Some Century | 120 => Some LocDate | 88 => Some LocTime
  | 121 => Some LocOffsetYear | 89 => Some FullYear | 122 => Some TzOffset
  | _ => None
  end.
Definition o_conv (ch : Z) : option conv :=
  match ch with
  | 100 | 101 => Some DayOfMonth | 72 | 107 => Some Hour24 | 73 | 108 => Some Hour12
  | 109 => Some DecMonth | 77 => Some Minute | 83 => Some Second | 85 => Some Dec0Week
  | 119 => Some Dec0Weekday | 87 => Some Dec1Weekday | 121 => Some ShortYear
  | 122 => Some TzOffset
  | _ => None
  end.

Section Parse.
(** A handler: its state, its functions, get_error (true: no error) *)
Variable St : Type.
Variable on : event -> St -> outcome St.
Variable fine : St -> bool.

Definition stop (p : list Z) (st : St) : outcome (list Z * St) :=
  st <- on OnError st ;; Ok (p, st).
Definition on_conv (c : option conv) (sys : numsys) (p : list Z) (st : St)
  : outcome (option (list Z * St) * (list Z * St)) :=
  match c with
  | Some c => st <- on (OnConv c sys) st ;; Ok (Some (p, st), (p, st))
  | None => st <- on OnError st ;; Ok (None, (p, st))
  end.
(** 444-703: one conversion specifier, after '%'.  First component [None]: the parser
    returns with the second one. *)
Definition parse_conv (p : list Z) (st : St)
  : outcome (option (list Z * St) * (list Z * St)) :=
  let fail p := st <- on OnError st ;; Ok (None, (p, st)) in
  match p with
  | [] => fail []
  | ch :: p1 =>
      if ch =? 37 then st <- on (OnText [37]) st ;; Ok (Some (p1, st), (p1, st))
      else if (ch =? 110) || (ch =? 116) then
        st <- on OnWhitespace st ;; Ok (Some (p1, st), (p1, st))
      else if ch =? 46 then
        match p1 with
        | [] => fail []
        | c :: p2 =>
            if (c =? 69) || (c =? 79) then
              match p2 with
              | [] => fail []
              | c' :: p3 => if c' =? 83 then on_conv (Some Subsecond) AltE p3 st else fail p2
              end
            else if c =? 83 then on_conv (Some Subsecond) Std p2 st else fail p1
        end
      else if ch =? 69 then
        match p1 with [] => fail [] | c :: p2 => on_conv (e_conv c) (if c =? 121 then Std else AltE) p2 st end
      else if ch =? 79 then
        match p1 with [] => fail [] | c :: p2 => on_conv (o_conv c) AltO p2 st end
      else on_conv (plain_conv ch) Std p1 st
  end.

(** 710-714 *)
Definition finish (text p : list Z) (st : St) : outcome (list Z * St) :=
  st <- (match text with [] => Ok st | _ => on (OnText text) st end) ;;
  st <- on OnVerify st ;; Ok (p, st).
Definition simple_space (ch : Z) : bool := (ch =? 32) || ((9 <=? ch) && (ch <=? 13)).
(** 398-714.  [text]: the characters from [begin] to [p].  [UB]: line 438 moves past the
    end. *)
Fixpoint parse_loop (fuel : nat) (e : enc) (text p : list Z) (st : St)
  : outcome (list Z * St) :=
  match fuel with
  | O => OutOfFuel
  | S fuel =>
      match p with
      | [] => finish text [] st
      | ch :: p1 =>
          if ch =? 125 then finish text p st
          else if negb (ch =? 37) then
            if simple_space ch then
              st <- on (OnText text) st ;; st <- on OnWhitespace st ;;
              parse_loop fuel e [] p1 st
            else
              let n := cp_len e ch in
              if (n =? 0)%nat then stop p st
              else if (1 <? n)%nat then
                if (length p <? n)%nat then stop [] st
                else
                  cp <- decode_cp e (firstn n p) ;;
                  if is_cp_space cp then
                    st <- on (OnText text) st ;; st <- on OnWhitespace st ;;
                    parse_loop fuel e [] (skipn n p) st
                  else match skipn n p with
                       | [] => UB
                       | c :: p2 => parse_loop fuel e (text ++ firstn n p ++ [c]) p2 st
                       end
              else parse_loop fuel e (text ++ [ch]) p1 st
          else
            st <- (match text with [] => Ok st | _ => on (OnText text) st end) ;;
            '(go, ret) <- parse_conv p1 st ;;
            match go with
            | None => Ok ret
            | Some (p2, st) => if fine st then parse_loop fuel e [] p2 st else Ok (p2, st)
            end
      end
  end.
(** 372-396 *)
Definition parse_chrono_format_specs (e : enc) (f : list Z) (st : St)
  : outcome (list Z * St) :=
  let from (p : list Z) (st : St) :=
    match p with
    | 37 :: _ => parse_loop (S (length p)) e [] p st
    | _ => stop p st
    end in
  match f with
  | [] => stop f st
  | c :: f' =>
      if c =? 125 then stop f st
      else if c =? 76 then st <- on OnLocalized st ;; from f' st
      else from f st
  end.
End Parse.

(** setter_state, 717-836.  The flags that are never set (epoch_ticks, duration_ticks,
    duration_suffix) are left out. *)
Inductive flag : Type :=
| FSubsec | FSec | FMin | FHour24 | FHour12 | FMday | FMon | FFullYear | FCentury
| FShortYear | FWday | FYday | FTzoff | FTzname | FAmPm.
Definition flag_eqb (a b : flag) : bool :=
  match a, b with
  | FSubsec, FSubsec | FSec, FSec | FMin, FMin | FHour24, FHour24 | FHour12, FHour12
  | FMday, FMday | FMon, FMon | FFullYear, FFullYear | FCentury, FCentury
  | FShortYear, FShortYear | FWday, FWday | FYday, FYday | FTzoff, FTzoff
  | FTzname, FTzname | FAmPm, FAmPm => true
  | _, _ => false
  end.
Definition flagset : Type := flag -> bool.
Definition mark (f : flag) (s : flagset) : flagset := fun g => flag_eqb f g || s g.
(** 797-836: does verify report an error? *)
Definition conflict (s : flagset) : bool :=
  if s FHour24 && s FHour12 then true
  else if s FAmPm && negb (s FHour12) then true
  else if s FAmPm && s FHour24 then true
  else if s FFullYear && (s FCentury || s FShortYear) then true
  else if s FTzoff && s FTzname then true
  else (s FWday || s FMday || s FYday) && negb (xorb (xorb (s FWday) (s FMday)) (s FYday)).

(** The destination types chrono_scan_impl is instantiated for, impl.cpp:3594-3611 *)
Inductive target : Type := Tm | TmTz | Components.
(** always_supports_field, 902-925, for the types of [target] *)
Definition supports (t : target) (c : conv) : bool :=
  match t, c with
  | Tm, (Subsecond | TzName) | TmTz, Subsecond => false
  | _, _ => true
  end.

(** tm_format_checker, 1172-1487.  All its errors are invalid_format_string. *)
Record cstate : Type := CState { ck_fine : bool; ck_set : flagset }.
Definition ck_error (st : cstate) : cstate := CState false (ck_set st).
Definition ck_mark (f : flag) (st : cstate) : cstate :=
  CState (ck_fine st && negb (ck_set st f)) (mark f (ck_set st)).
(** The flags a conversion specifier sets in the checker; [None]: unimplemented *)
Definition ck_flags (c : conv) : option (list flag) :=
  match c with
  | FullYear => Some [FFullYear] | ShortYear => Some [FShortYear] | Century => Some [FCentury]
  | MonthName => Some [] | DecMonth => Some [FMon]
  | DayOfYear => Some [FYday] | DayOfMonth => Some [FMday]
  | WeekdayName | Dec0Weekday | Dec1Weekday => Some [FWday]
  | Hour24 => Some [FHour24] | Hour12 => Some [FHour12] | Minute => Some [FMin]
  | Second => Some [FSec] | Subsecond => Some [FSubsec]
  | TzOffset => Some [FTzoff] | TzName => Some [FTzname]
  | LocDatetime => Some [FFullYear; FMon; FMday; FHour24; FMin; FSec]
  | LocDate | IsoDate => Some [FFullYear; FMon; FMday]
  | LocTime | Loc12HourTime | IsoTime => Some [FHour24; FMin; FSec]
  | UsDate => Some [FMon; FMday; FShortYear]
  | Time24 => Some [FHour24; FMin]
  | AmPm => Some [FAmPm]
  | IsoYear | IsoShortYear | LocOffsetYear | Dec0Week | Dec1Week | IsoWeek
  | EpochOffset | DurationTicks | DurationSuffix => None
  end.
Definition ck_on (t : target) (ev : event) (st : cstate) : outcome cstate :=
  match ev with
  | OnLocalized | OnText _ | OnWhitespace => Ok st
  | OnError => Ok (ck_error st)
  | OnConv c _ =>
      let st := if supports t c then st else ck_error st in
      match ck_flags c with
      | None => Ok (ck_error st)
      | Some fs => Ok (fold_left (fun st f => ck_mark f st) fs st)
      end
  | OnVerify => Ok (if conflict (ck_set st) then ck_error st else st)
  end.
Definition ck_init : cstate := CState true (fun _ => false).
(** chrono_parse_impl, 1489-1512: the position where the format ends, and the format *)
Definition chrono_parse (t : target) (e : enc) (f : list Z) : outcome (list Z * list Z) :=
  match f with
  | [] => Err InvalidFormatString
  | c :: _ =>
      if c =? 125 then Err InvalidFormatString
      else '(p, st) <- parse_chrono_format_specs cstate (ck_on t) ck_fine e f ck_init ;;
           if ck_fine st then Ok (p, firstn (length f - length p) f) else Err InvalidFormatString
  end.

(** The fields of std::tm and of datetime_components (278-301, 333-336) that are integers,
    as they are stored; [None]: not assigned.  tz_offset is in minutes here. *)
Inductive field : Type := Sec | Min | Hour | Mday | Mon | Year | Wday | Yday | Tz.
Definition field_eqb (a b : field) : bool :=
  match a, b with
  | Sec, Sec | Min, Min | Hour, Hour | Mday, Mday | Mon, Mon | Year, Year | Wday, Wday
  | Yday, Yday | Tz, Tz => true
  | _, _ => false
  end.

(** What std::time_get::get yields *)
Record tmv : Type := TMV {
  tm_sec : Z; tm_min : Z; tm_hour : Z; tm_mday : Z; tm_mon : Z; tm_year : Z; tm_wday : Z }.

Section Reader.
(** double; its conversion from text, scan<double>(.., "{}"); whether it is in [0, 1) *)
Variable D : Type.
Variable scan_double : list Z -> outcome D.
Variable in_unit : D -> bool.
(** std::time_get::get on a format and an input, and the decimal point of the locale *)
Variable time_get : list Z -> list Z -> option (tmv * list Z).
Variable decimal_point : Z.
(** How the source is stored, and the configuration of its character type *)
Variable r : src.
Variable cf : config.
Variable t : target.

(** tm_reader, impl.cpp:2698-3560: m_range.begin(), m_begin, m_error, m_st, m_tm *)
Record rstate : Type := RS {
  rs_start : list Z; rs_src : list Z; rs_err : option err; rs_set : flagset;
  rs_loc : bool; rs_pm : bool; rs_short : Z; rs_cent : Z;
  rs_int : field -> option Z; rs_subsec : option D; rs_tzname : option (list Z) }.
Definition set_error (e : err) (st : rstate) : rstate :=
  RS (rs_start st) (rs_src st) (match rs_err st with None => Some e | x => x end) (rs_set st)
     (rs_loc st) (rs_pm st) (rs_short st) (rs_cent st) (rs_int st) (rs_subsec st) (rs_tzname st).
Definition with_src (s : list Z) (st : rstate) : rstate :=
  RS (rs_start st) s (rs_err st) (rs_set st)
     (rs_loc st) (rs_pm st) (rs_short st) (rs_cent st) (rs_int st) (rs_subsec st) (rs_tzname st).
Definition with_set (fs : flagset) (st : rstate) : rstate :=
  RS (rs_start st) (rs_src st) (rs_err st) fs
     (rs_loc st) (rs_pm st) (rs_short st) (rs_cent st) (rs_int st) (rs_subsec st) (rs_tzname st).
Definition with_int (f : field) (v : Z) (st : rstate) : rstate :=
  RS (rs_start st) (rs_src st) (rs_err st) (rs_set st)
     (rs_loc st) (rs_pm st) (rs_short st) (rs_cent st)
     (fun g => if field_eqb f g then Some v else rs_int st g) (rs_subsec st) (rs_tzname st).
Definition with_years (short cent : Z) (st : rstate) : rstate :=
  RS (rs_start st) (rs_src st) (rs_err st) (rs_set st)
     (rs_loc st) (rs_pm st) short cent (rs_int st) (rs_subsec st) (rs_tzname st).
Definition with_mode (loc pm : bool) (st : rstate) : rstate :=
  RS (rs_start st) (rs_src st) (rs_err st) (rs_set st)
     loc pm (rs_short st) (rs_cent st) (rs_int st) (rs_subsec st) (rs_tzname st).
Definition with_subsec (d : D) (st : rstate) : rstate :=
  RS (rs_start st) (rs_src st) (rs_err st) (rs_set st)
     (rs_loc st) (rs_pm st) (rs_short st) (rs_cent st) (rs_int st) (Some d) (rs_tzname st).
Definition with_tzname (n : list Z) (st : rstate) : rstate :=
  RS (rs_start st) (rs_src st) (rs_err st) (rs_set st)
     (rs_loc st) (rs_pm st) (rs_short st) (rs_cent st) (rs_int st) (rs_subsec st) (Some n).
Definition rd_fine (st : rstate) : bool :=
  match rs_err st with None => true | Some _ => false end.

(** setter_state::set_..., chrono.h:765-774 *)
Definition set_flag (f : flag) (st : rstate) : rstate :=
  let st := if rs_set st f then set_error InvalidFormatString st else st in
  with_set (mark f (rs_set st)) st.
(** datetime_setter, impl.cpp:2146-2500.  The sums in [set_century] and [set_short_year] can
    only overflow with years near 2^31 read through the locale; this is not modelled. *)
Definition set_ranged (f : field) (fl : flag) (lo hi off v : Z) (st : rstate) : rstate :=
  if (v <? lo) || (hi <? v) then set_error InvalidScannedValue st
  else set_flag fl (with_int f (v - off) st).
Definition set_sec := set_ranged Sec FSec 0 60 0.
Definition set_min := set_ranged Min FMin 0 59 0.
Definition set_hour24 := set_ranged Hour FHour24 0 23 0.
Definition set_hour12 := set_ranged Hour FHour12 1 12 0.
Definition set_mday := set_ranged Mday FMday 1 31 0.
Definition set_mon := set_ranged Mon FMon 1 12 (match t with Components => 0 | _ => 1 end).
Definition set_full_year (y : Z) (st : rstate) : rstate :=
  match t with
  | Components => set_flag FFullYear (with_int Year y st)
  | _ => if y <? - 2 ^ 31 + 1900 then set_error InvalidScannedValue st
         else set_flag FFullYear (with_int Year (y - 1900) st)
  end.
Definition set_century (c : Z) (st : rstate) : rstate :=
  match t with
  | Components =>
      set_flag FCentury
        (with_int Year (match rs_int st Year with None => c * 100 | Some y => y + c * 100 end) st)
  | _ => set_flag FCentury (with_years (rs_short st) (c mod 256) st)
  end.
Definition set_short_year (y : Z) (st : rstate) : rstate :=
  match t with
  | Components =>
      set_flag FShortYear
        (with_int Year (match rs_int st Year with None => y | Some z => z + y end) st)
  | _ => if (y <? 0) || (99 <? y) then set_error InvalidScannedValue st
         else set_flag FShortYear (with_years y (rs_cent st) st)
  end.
Definition set_wday := set_ranged Wday FWday 0 6 0.
Definition set_yday := set_ranged Yday FYday 0 (match t with Components => 6 | _ => 365 end) 0.
Definition set_subsec (d : D) (st : rstate) : outcome rstate :=
  match t with
  | Components => if in_unit d then Ok (set_flag FSubsec (with_subsec d st)) else UB
  | _ => Ok (set_error InvalidFormatString st)
  end.
Definition set_tz_offset (o : Z) (st : rstate) : rstate :=
  match t with
  | Components => set_flag FTzoff (with_int Tz o st)
  | _ => with_int Tz o st
  end.
Definition set_tz_name (n : list Z) (st : rstate) : rstate :=
  match t with
  | Tm => set_error InvalidFormatString st
  | _ => set_flag FTzname (with_tzname n st)
  end.

(** impl.cpp:3376-3400, read_classic_unsigned_integer *)
Fixpoint read_digits (n : nat) (acc : Z) (s : list Z) : nat * Z * list Z :=
  match n, s with
  | S n', ch :: s' =>
      if (ch <? 48) || (57 <? ch) then (O, acc, s)
      else let '(k, v, s'') := read_digits n' (acc * 10 + (ch - 48)) s' in (S k, v, s'')
  | _, _ => (O, acc, s)
  end.
Definition read_int (lo hi : nat) (st : rstate) : Z * rstate :=
  let '(k, v, s) := read_digits hi 0 (rs_src st) in
  let st := with_src s st in
  if (k <? lo)%nat then (-1, set_error InvalidScannedValue st) else (v, st).
(** 3402-3413, consume_ch *)
Definition consume_ch (ch : Z) (st : rstate) : bool * rstate :=
  match rs_src st with
  | c :: s => if c =? ch then (true, with_src s st) else (false, st)
  | [] => (false, st)
  end.
(** 3415-3449, try_one_of_str_nocase.  [live]: the first options_available options; rotate
    keeps their order.  Line 3433 indexes a string_view with its size, which reads the
    terminating zero of the literal and has no effect. *)
Definition nocase_eq (a b : Z) : bool := (Z.lxor a b =? 0) || (Z.lxor a b =? 32).
Fixpoint one_of_loop (live : list (list Z * Z)) (k : nat) (s : list Z) : option (Z * list Z) :=
  match live with
  | [] => None
  | (w, v) :: others =>
      if (k <? length w)%nat then
        match s with
        | [] => None
        | ch :: s' =>
            one_of_loop
              (filter (fun o => match nth_error (fst o) k with
                                | None => false
                                | Some c => nocase_eq ch c
                                end) live) (S k) s'
        end
      else match others with [] => Some (v, s) | _ => None end
  end.
Definition try_one_of (options : list (list Z * Z)) (st : rstate) : option Z * rstate :=
  match one_of_loop options 0 (rs_src st) with
  | Some (v, s) => (Some v, with_src s st)
  | None => (None, st)
  end.
(** "January", ..., "Jan", ..., "Sunday", ..., "Sun", ..., "am", ... *)
Definition long_months : list (list Z * Z) :=
  [([74; 97; 110; 117; 97; 114; 121], 1); ([70; 101; 98; 114; 117; 97; 114; 121], 2);
   ([77; 97; 114; 99; 104], 3); ([65; 112; 114; 105; 108], 4); ([77; 97; 121], 5);
   ([74; 117; 110; 101], 6); ([74; 117; 108; 121], 7); ([65; 117; 103; 117; 115; 116], 8);
   ([83; 101; 112; 116; 101; 109; 98; 101; 114], 9); ([79; 99; 116; 111; 98; 101; 114], 10);
   ([78; 111; 118; 101; 109; 98; 101; 114], 11); ([68; 101; 99; 101; 109; 98; 101; 114], 12)].
Definition short_months : list (list Z * Z) :=
  [([74; 97; 110], 1); ([70; 101; 98], 2); ([77; 97; 114], 3); ([65; 112; 114], 4);
   ([74; 117; 110], 6); ([74; 117; 108], 7); ([65; 117; 103], 8); ([83; 101; 112], 9);
   ([79; 99; 116], 10); ([78; 111; 118], 11); ([68; 101; 99], 12)].
Definition long_days : list (list Z * Z) :=
  [([83; 117; 110; 100; 97; 121], 0); ([77; 111; 110; 100; 97; 121], 1);
   ([84; 117; 101; 115; 100; 97; 121], 2); ([87; 101; 100; 110; 101; 115; 100; 97; 121], 3);
   ([84; 104; 117; 114; 115; 100; 97; 121], 4); ([70; 114; 105; 100; 97; 121], 5);
   ([83; 97; 116; 117; 114; 100; 97; 121], 6)].
Definition short_days : list (list Z * Z) :=
  [([83; 117; 110], 0); ([77; 111; 110], 1); ([84; 117; 101], 2); ([87; 101; 100], 3);
   ([84; 104; 117], 4); ([70; 114; 105], 5); ([83; 97; 116], 6)].
Definition am_pm_names : list (list Z * Z) :=
  [([97; 109], 0); ([97; 46; 109; 46], 0); ([112; 109], 1); ([112; 46; 109; 46], 1)].

(** 3493-3521, do_read_localized: the facet reads from m_range.begin() *)
Definition localized (fmt : list Z) (st : rstate) : option tmv * rstate :=
  match time_get fmt (rs_start st) with
  | None => (None, set_error InvalidScannedValue st)
  | Some (tm, s) => (Some tm, with_src s st)
  end.
(** Signed addition in int *)
Definition add_int (a b : Z) : outcome Z :=
  if (- 2 ^ 31 <=? a + b) && (a + b <? 2 ^ 31) then Ok (a + b) else UB.
Definition from_locale (fmt : list Z) (k : tmv -> rstate -> outcome rstate) (st : rstate)
  : outcome rstate :=
  match localized fmt st with
  | (Some tm, st) => k tm st
  | (None, st) => Ok st
  end.
Definition alt (sys : numsys) (st : rstate) : bool :=
  rs_loc st && match sys with Std => false | _ => true end.
(** The common shape of on_full_year ... on_second, 2740-2994 *)
Definition number (lo hi : nat) (set : Z -> rstate -> rstate) (st : rstate) : outcome rstate :=
  let '(v, st) := read_int lo hi st in Ok (set v st).

(** 2713-2725, on_text *)
Fixpoint rd_text (txt : list Z) (st : rstate) : rstate :=
  match txt with
  | [] => st
  | c :: txt' =>
      match rs_src st with
      | [] => set_error EndOfInput st
      | d :: s => if c =? d then rd_text txt' (with_src s st)
                  else set_error InvalidFormatString st
      end
  end.
(** 2726-2737, on_whitespace *)
Definition rd_whitespace (st : rstate) : outcome rstate :=
  match skip_classic_whitespace r (rs_src st) true with
  | Ok s => Ok (with_src s st)
  | Err e => Ok (set_error e st)
  | UB => UB
  | OutOfFuel => OutOfFuel
  end.

(** scan<std::string>(subrange{m_begin, m_range.end()}, fmt), 3034, 3158 *)
Definition scan_string (fmt s : list Z) : outcome (list Z * list Z) :=
  let rx : regex_engine := fun _ _ _ => Err InvalidFormatString in
  let d := string_default (DString U8) r in
  let a := Arg (list Z) NarrowStringType d d (string_arg rx (DString U8) r)
             (fun f _ => (f, Err InvalidFormatString)) in
  '(log, rest) <- vscan (list Z) r cf [a] fmt s ;;
  match log with
  | [(_, v)] => Ok (v, rest)
  | _ => UB
  end.

(** 3110-3153, on_tz_offset *)
Definition is_digit (c : Z) : bool := (48 <=? c) && (c <=? 57).
Definition rd_tz_offset (sys : numsys) (st : rstate) : rstate :=
  match rs_src st with
  | [] => set_error EndOfInput st
  | c :: s =>
      let minus := c =? 45 in
      let st := if (c =? 43) || (c =? 45) then with_src s st else st in
      match rs_src st with
      | [] => set_error EndOfInput st
      | _ =>
          let '(hour, st) := match sys with Std => read_int 2 2 st | _ => read_int 1 2 st end in
          let '(minute, st) :=
            match rs_src st with
            | [] => (0, st)
            | c1 :: s1 =>
                let colon := c1 =? 58 in
                let after := if colon then s1 else c1 :: s1 in
                if negb colon && match sys with Std => false | _ => true end then (0, st)
                else match after with
                     | [] => (0, st)
                     | c2 :: _ => if is_digit c2 then read_int 2 2 (with_src after st) else (0, st)
                     end
            end in
          set_tz_offset ((if minus then -1 else 1) * (hour * 60 + minute)) st
      end
  end.
(** 3155-3173, on_tz_name.  [UB]: res->begin() of an error. *)
Definition tz_name_format : list Z :=
  [123; 58; 91; 97; 45; 122; 65; 45; 90; 48; 45; 57; 45; 43; 95; 47; 93; 125].
Definition rd_tz_name (st : rstate) : outcome rstate :=
  match scan_string tz_name_format (rs_src st) with
  | Ok (n, s) => Ok (with_src s (set_tz_name n st))
  | Err _ => UB
  | UB => UB
  | OutOfFuel => OutOfFuel
  end.
(** 2996-3059, on_subsecond *)
Definition digits_format : list Z := [123; 58; 91; 48; 45; 57; 93; 125].
Definition rd_subsecond (sys : numsys) (st : rstate) : outcome rstate :=
  let '(whole, st) := read_int 1 2 st in
  let st := set_sec whole st in
  let '(ok, st) := consume_ch (if alt sys st then decimal_point else 46) st in
  if negb ok then Ok (set_error InvalidScannedValue st)
  else
    match scan_string digits_format (rs_src st) with
    | Err e => Ok (set_error e st)
    | UB => UB
    | OutOfFuel => OutOfFuel
    | Ok (digits, s) =>
        if (length s =? length (rs_src st))%nat then Ok (set_error InvalidScannedValue st)
        else
          let st := with_src s st in
          match scan_double (48 :: 46 :: digits) with
          | Err e => Ok (set_error e st)
          | UB => UB
          | OutOfFuel => OutOfFuel
          | Ok d => set_subsec d st
          end
    end.

(** 2740-2994: conversion specifiers that are not composed of others.  Formats for the
    facet: "%EY", "%Ey", "%EC", "%b", "%Om", "%Od", "%a", "%Ow", "%OH", "%OI", "%OM", "%OS". *)
Definition named (long short : list (list Z * Z)) (set : Z -> rstate -> rstate) (st : rstate)
  : rstate :=
  match try_one_of long st with
  | (Some v, st) => set v st
  | (None, st) => match try_one_of short st with
                  | (Some v, st) => set v st
                  | (None, st) => set_error InvalidScannedValue st
                  end
  end.
Definition adjust_wday (d : Z) : Z := if d =? 0 then 6 else d - 1.
Definition rd_basic (c : conv) (sys : numsys) (st : rstate) : outcome rstate :=
  match c with
  | FullYear =>
      if alt sys st
      then from_locale [37; 69; 89] (fun tm st => y <- add_int (tm_year tm) 1900 ;; Ok (set_full_year y st)) st
      else number 4 4 set_full_year st
  | ShortYear =>
      if alt sys st
      then from_locale [37; 69; 121]
             (fun tm st => y <- add_int (tm_year tm) 1900 ;; Ok (set_short_year (Z.rem y 100) st)) st
      else number 2 2 set_short_year st
  | Century =>
      if alt sys st
      then from_locale [37; 69; 67]
             (fun tm st => y <- add_int (tm_year tm) 1900 ;; Ok (set_century (Z.quot y 100) st)) st
      else number 2 2 set_century st
  | MonthName =>
      if rs_loc st
      then from_locale [37; 98] (fun tm st => m <- add_int (tm_mon tm) 1 ;; Ok (set_mon m st)) st
      else Ok (named long_months short_months set_mon st)
  | DecMonth =>
      if alt sys st
      then from_locale [37; 79; 109] (fun tm st => m <- add_int (tm_mon tm) 1 ;; Ok (set_mon m st)) st
      else number 1 2 set_mon st
  | DayOfYear => number 1 3 (fun v => set_yday (v - 1)) st
  | DayOfMonth =>
      if alt sys st then from_locale [37; 79; 100] (fun tm st => Ok (set_mday (tm_mday tm) st)) st
      else number 1 2 set_mday st
  | WeekdayName =>
      if rs_loc st then from_locale [37; 97] (fun tm st => Ok (set_wday (tm_wday tm) st)) st
      else Ok (named long_days short_days set_wday st)
  | Dec0Weekday =>
      if alt sys st then from_locale [37; 79; 119] (fun tm st => Ok (set_wday (tm_wday tm) st)) st
      else number 1 1 set_wday st
  | Dec1Weekday =>
      if alt sys st
      then from_locale [37; 79; 119]
             (fun tm st => if tm_wday tm =? - 2 ^ 31 then UB
                           else Ok (set_wday (adjust_wday (tm_wday tm)) st)) st
      else number 1 1 (fun v => set_wday (adjust_wday v)) st
  | Hour24 =>
      if alt sys st then from_locale [37; 79; 72] (fun tm st => Ok (set_hour24 (tm_hour tm) st)) st
      else number 1 2 set_hour24 st
  | Hour12 =>
      if alt sys st then from_locale [37; 79; 73] (fun tm st => Ok (set_hour12 (tm_hour tm) st)) st
      else number 1 2 set_hour12 st
  | Minute =>
      if alt sys st then from_locale [37; 79; 77] (fun tm st => Ok (set_min (tm_min tm) st)) st
      else number 1 2 set_min st
  | Second =>
      if alt sys st then from_locale [37; 79; 83] (fun tm st => Ok (set_sec (tm_sec tm) st)) st
      else number 1 2 set_sec st
  | Subsecond => rd_subsecond sys st
  | TzOffset => Ok (rd_tz_offset sys st)
  | TzName => rd_tz_name st
  | AmPm =>
      match try_one_of am_pm_names st with
      | (Some b, st) => Ok (set_flag FAmPm (with_mode (rs_loc st) (b =? 1) st))
      | (None, st) => Ok (set_error InvalidScannedValue st)
      end
  | _ => Ok (set_error InvalidFormatString st)
  end.

(** 3175-3310: the composed ones, in the classic locale *)
Definition parts (c : conv) : option (list event) :=
  let date := [OnConv DecMonth Std; OnText [47]; OnConv DayOfMonth Std; OnText [47]] in
  let time h := [OnConv h Std; OnText [58]; OnConv Minute Std; OnText [58]; OnConv Second Std] in
  match c with
  | LocDatetime =>
      Some ([OnConv WeekdayName Std; OnWhitespace; OnConv MonthName Std; OnWhitespace;
             OnConv DayOfMonth Std; OnWhitespace] ++ time Hour24 ++
            [OnWhitespace; OnConv FullYear Std])
  | LocDate => Some (date ++ [OnConv FullYear Std])
  | LocTime | IsoTime => Some (time Hour24)
  | UsDate => Some (date ++ [OnConv ShortYear Std])
  | IsoDate =>
      Some [OnConv FullYear Std; OnText [45]; OnConv DecMonth Std; OnText [45];
            OnConv DayOfMonth Std]
  | Loc12HourTime => Some (time Hour12 ++ [OnWhitespace; OnConv AmPm Std])
  | Time24 => Some [OnConv Hour24 Std; OnText [58]; OnConv Minute Std]
  | _ => None
  end.
Definition set_date (tm : tmv) (st : rstate) : outcome rstate :=
  y <- add_int (tm_year tm) 1900 ;;
  m <- add_int (tm_mon tm) 1 ;;
  Ok (set_mday (tm_mday tm) (set_mon m (set_full_year y st))).
Definition set_time (tm : tmv) (st : rstate) : rstate :=
  set_sec (tm_sec tm) (set_min (tm_min tm) (set_hour24 (tm_hour tm) st)).
(** ... and with the 'L' flag: "%c"/"%Ec", "%x"/"%Ex", "%X"/"%EX", "%r" *)
Definition rd_localized_parts (c : conv) (sys : numsys) (st : rstate)
  : option (outcome rstate) :=
  if negb (rs_loc st) then None
  else
    let f l := match sys with Std => [37; l] | _ => [37; 69; l] end in
    match c with
    | LocDatetime =>
        Some (from_locale (f 99) (fun tm st => st <- set_date tm st ;; Ok (set_time tm st)) st)
    | LocDate => Some (from_locale (f 120) set_date st)
    | LocTime => Some (from_locale (f 88) (fun tm st => Ok (set_time tm st)) st)
    | Loc12HourTime => Some (from_locale [37; 114] (fun tm st => Ok (set_time tm st)) st)
    | _ => None
    end.
Definition rd_step (ev : event) (st : rstate) : outcome rstate :=
  match ev with
  | OnText txt => Ok (rd_text txt st)
  | OnWhitespace => rd_whitespace st
  | OnConv c sys => rd_basic c sys st
  | _ => Ok st
  end.
Definition rd_conv (c : conv) (sys : numsys) (st : rstate) : outcome rstate :=
  match rd_localized_parts c sys st with
  | Some x => x
  | None =>
      match parts c with
      | Some evs => fold_left (fun o ev => st <- o ;; rd_step ev st) evs (Ok st)
      | None => rd_basic c sys st
      end
  end.

(** chrono.h:838-882, handle_am_pm and handle_short_year_and_century; impl.cpp:2293-2301,
    2462-2474 *)
Definition handle_am_pm (st : rstate) : outcome rstate :=
  match rs_int st Hour with
  | None => UB
  | Some h =>
      if negb (rs_set st FHour12) || (12 <? h) then UB
      else Ok (if rs_pm st then (if h =? 12 then st else with_int Hour (h + 12) st)
               else (if h =? 12 then with_int Hour 0 st else st))
  end.
Definition handle_years (st : rstate) : outcome rstate :=
  let off := match t with Components => 0 | _ => 1900 end in
  if match t, rs_int st Year with Components, None => true | _, _ => false end then UB
  else if rs_set st FFullYear then UB
  else if rs_set st FShortYear && rs_set st FCentury
       then Ok (with_int Year (rs_cent st * 100 + rs_short st - off) st)
  else if rs_set st FShortYear
       then Ok (with_int Year ((if 69 <=? rs_short st then 1900 else 2000) + rs_short st - off) st)
  else if rs_set st FCentury then Ok (with_int Year (100 * rs_cent st - off) st)
  else Ok st.
(** impl.cpp:3341-3351, verify *)
Definition rd_verify (st : rstate) : outcome rstate :=
  let st := if conflict (rs_set st) then set_error InvalidFormatString st else st in
  st <- (if rs_set st FAmPm && rs_set st FHour12 then handle_am_pm st else Ok st) ;;
  if negb (rs_set st FFullYear) && (rs_set st FShortYear || rs_set st FCentury)
  then handle_years st else Ok st.

Definition rd_on (ev : event) (st : rstate) : outcome rstate :=
  match ev with
  | OnLocalized => Ok (with_mode true (rs_pm st) st)
  | OnText txt => Ok (rd_text txt st)
  | OnWhitespace => rd_whitespace st
  | OnConv c sys => rd_conv c sys st
  | OnError => Ok (set_error InvalidFormatString st)
  | OnVerify => rd_verify st
  end.
Definition rd_init (s : list Z) : rstate :=
  RS s s None (fun _ => false) false false 0 0 (fun _ => None) None None.

(** What a scan leaves behind: the fields of the destination. *)
Record datetime : Type := DT {
  dt_int : field -> option Z; dt_subsec : option D; dt_tzname : option (list Z) }.
(** impl.cpp:3548-3568, chrono_scan_inner_impl *)
Definition chrono_scan (fmt s : list Z) : outcome (datetime * list Z) :=
  s <- skip_classic_whitespace r s false ;;
  '(_, st) <- parse_chrono_format_specs rstate rd_on rd_fine (s_enc r) fmt (rd_init s) ;;
  match rs_err st with
  | Some e => Err e
  | None => Ok (DT (rs_int st) (rs_subsec st) (rs_tzname st), rs_src st)
  end.
(** chrono_datetime_scanner, chrono.h:1518-1549, called by parse_custom_arg and
    scan_custom_arg (scan.h:5549-5583, 5619-5650) with the rest [f] of the format string *)
Definition chrono_arg (f s : list Z) : outcome (datetime * list Z) :=
  '(_, fmt) <- chrono_parse t (s_enc r) f ;; chrono_scan fmt s.
End Reader.

(** The scanners for single components, chrono.h:1551-1698: the format is checked for
    datetime_components.  [UB]: the dereferenced optional is empty. *)
Inductive component : Type := CWeekday | CDay | CMonth | CYear | CMonthDay | CYearMonth | CYearMonthDay.
Definition component_fields (c : component) : list field :=
  match c with
  | CWeekday => [Wday] | CDay => [Mday] | CMonth => [Mon] | CYear => [Year]
  | CMonthDay => [Mon; Mday] | CYearMonth => [Year; Mon] | CYearMonthDay => [Year; Mon; Mday]
  end.
Fixpoint get_fields (fs : list field) (get : field -> option Z) : outcome (list Z) :=
  match fs with
  | [] => Ok []
  | f :: fs' => match get f with
                | None => UB
                | Some v => vs <- get_fields fs' get ;; Ok (v :: vs)
                end
  end.
Definition component_arg (D : Type) scan_double in_unit time_get point (r : src) (cf : config)
  (c : component) (f s : list Z) : outcome (list Z * list Z) :=
  '(d, s') <- chrono_arg D scan_double in_unit time_get point r cf Components f s ;;
  vs <- get_fields (component_fields c) (dt_int D d) ;; Ok (vs, s').
