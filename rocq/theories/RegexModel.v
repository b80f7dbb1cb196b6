(** Regular expression scanning: what is asked of the three regular expression engines,
    and the scanning of regex_matches. *)
From Verif Require Import Prelude UnicodeModel ReadModel SpecsModel ArgsModel FormatModel ArgReaderModel
  StringModel.
Local Open Scope Z_scope.

(** SCN_REGEX_BACKEND, and for std::regex SCN_HAS_STD_REGEX_MULTILINE
    (include/scn/fwd.h:745-756). *)
Inductive backend : Type := Std (multiline : bool) | Boost | Re2.

(** What an engine is asked for: to match [rq_pattern] at the start of a text, with '^' and
    '$' also matching at ends of lines, with '.' also matching a newline, without regard to
    case, without storing subexpressions. *)
Record request : Type := Request {
  rq_pattern : list Z;
  rq_multiline : bool;
  rq_dot_newline : bool;
  rq_icase : bool;
  rq_nosubs : bool }.

(** What an engine answers: the pattern is no regular expression; it gave up (an exception
    of std::regex_search or boost::regex_search); no match; or a match, with the text
    remaining after it and for every subexpression the text it matched, if it did, and its
    name, if it has one.  The engines themselves are not modelled. *)
Definition group : Type := option (list Z) * option (list Z).
Inductive answer : Type :=
| Invalid
| Throws
| NoMatch
| Match (rest : list Z) (groups : list group).
Definition engine : Type := request -> list Z -> answer.

(** include/scn/scan.h:6851-6858, regex_flags *)
Definition has_flag (flags bit : Z) : bool := negb (Z.land flags bit =? 0).

(** src/scn/impl.h:4300-4370, make_regex_flags, together with the meaning the documentation
    of the engines gives to the options set:
    - std::regex: '.' never matches a newline; '^' and '$' match at ends of lines exactly
      with regex_constants::multiline;
    - Boost.Regex: '^' and '$' match at ends of lines unless no_mod_m is set; '.' matches a
      newline unless no_mod_s or match_not_dot_newline is set, which the code never does, and
      mod_s asks for what is the default;
    - RE2: '^' and '$' match at ends of lines if the pattern starts with "(?m)" (which the
      code puts there), '.' matches a newline exactly with dot_nl. *)
Definition make_request (bk : backend) (pattern : list Z) (flags : Z) : outcome request :=
  let m := has_flag flags 1 in let s := has_flag flags 2 in
  let i := has_flag flags 4 in let n := has_flag flags 8 in
  match bk with
  | Std ml =>
      if m && negb ml then Err InvalidFormatString
      else if s then Err InvalidFormatString
      else Ok (Request pattern m false i n)
  | Boost => Ok (Request pattern m true i n)
  | Re2 => Ok (Request pattern (negb m) s i n)
  end.
Definition no_subs (rq : request) : request :=
  Request (rq_pattern rq) (rq_multiline rq) (rq_dot_newline rq) (rq_icase rq) true.

(** src/scn/impl.h:4372-4481, read_regex_string_impl *)
Definition read_regex_string (bk : backend) (en : engine) : regex_engine :=
  fun pattern flags input =>
    rq <- make_request bk pattern flags ;;
    match en (no_subs rq) input with
    | Invalid | Throws => Err InvalidFormatString
    | NoMatch => Err InvalidScannedValue
    | Match rest _ => Ok rest
    end.

(** A basic_regex_match (include/scn/regex.h:158-205): text and name; in a regex_matches
    there may be none. *)
Definition capture : Type := list Z * option (list Z).

(** src/scn/impl.h:4529-4554: the names in a pattern, for Boost.  [prev]: the characters
    before, the last first.  Occurrences of "(?<" cannot overlap, and where no '>' follows
    one none follows a later one, so going on by a single character, as here, finds the
    same names. *)
Fixpoint take_until (c : Z) (s : list Z) : option (list Z) :=
  match s with
  | [] => None
  | x :: s' => if x =? c then Some [] else option_map (cons x) (take_until c s')
  end.
Definition escaped_here (prev : list Z) : bool :=
  match prev with
  | 92 :: 92 :: _ => false
  | 92 :: _ => true
  | _ => false
  end.
Fixpoint boost_names (prev s : list Z) : list (list Z) :=
  match s with
  | [] => []
  | c :: s' =>
      (if starts_with [40; 63; 60] s && negb (escaped_here prev) then
         match take_until 62 (skipn 3 s) with Some n => [n] | None => [] end
       else [])
      ++ boost_names (c :: prev) s'
  end.
(** boost::match_results::operator[](name): the first of the groups of that name that
    matched, if any did. *)
Definition names_it (name : list Z) (g : group) : bool :=
  match g with (Some _, Some n) => list_eqb n name | _ => false end.
Definition sub_named (groups : list group) (name : list Z) : option (list Z) :=
  match find (names_it name) groups with Some (t, _) => t | None => None end.
(** impl.h:4592-4609: [match == matches[name]] compares the texts *)
Definition same_text (text : list Z) (sub : option (list Z)) : bool :=
  match sub with Some t => list_eqb text t | None => false end.
Definition boost_capture (names : list (list Z)) (groups : list group) (g : group)
  : option capture :=
  match fst g with
  | None => None
  | Some text => Some (text, find (fun n => same_text text (sub_named groups n)) names)
  end.

(** impl.h:4514-4522, for std::regex *)
Definition std_capture (g : group) : option capture :=
  match fst g with None => None | Some text => Some (text, None) end.

(** impl.h:4643-4664, for RE2.  [UB]: value[i]->get() where value[i] is empty. *)
Fixpoint re2_captures (groups : list group) : outcome (list (option capture)) :=
  match groups with
  | [] => Ok []
  | (t, n) :: gs =>
      x <- (match t, n with
            | Some text, _ => Ok (Some (text, n))
            | None, None => Ok None
            | None, Some _ => UB
            end) ;;
      xs <- re2_captures gs ;; Ok (x :: xs)
  end.

(** src/scn/impl.h:4483-4668, read_regex_matches_impl *)
Definition read_regex_matches (bk : backend) (en : engine) (pattern : list Z) (flags : Z)
  (input : list Z) : outcome (list (option capture) * list Z) :=
  rq <- make_request bk pattern flags ;;
  match en rq input with
  | Invalid | Throws => Err InvalidFormatString
  | NoMatch => Err InvalidScannedValue
  | Match rest groups =>
      let whole := firstn (length input - length rest) input in
      vs <- (match bk with
             | Std _ => Ok (map std_capture ((Some whole, None) :: groups))
             | Boost => Ok (map (boost_capture (boost_names [] pattern) groups) ((Some whole, None) :: groups))
             | Re2 => xs <- re2_captures groups ;; Ok (Some (whole, None) :: xs)
             end) ;;
      Ok (vs, rest)
  end.

(** src/scn/impl.h:4693-4782, regex_matches_reader, for a source of the character type of
    the value, supported by the backend; skip_ws_before_read is reader_base's (3149-3152).
    [UB]: the SCN_EXPECT in check_specs_impl. *)
Definition regex_matches_specs (bk : backend) (en : engine) (r : src) (sp : specs) (s : list Z)
  : outcome (list (option capture) * list Z) :=
  if negb (s_contig r) then Err InvalidFormatString
  else
    read_regex_matches bk en
      (if ptype_eqb (type sp) PRegexEscaped then unescape_pattern (charset_string sp) else charset_string sp)
      (regexp_flags sp) s.
Definition regex_matches_reader (bk : backend) (en : engine) : reader (list (option capture)) :=
  Reader _ (fun _ => true) check_regex_type_specs (regex_matches_specs bk en).
Definition regex_matches_arg (bk : backend) (en : engine) (r : src) (sp : specs) (s : list Z)
  : outcome (list (option capture) * list Z) :=
  match charset_string sp with
  | [] => UB
  | _ => arg_read_checked r (regex_matches_reader bk en) sp s
  end.
Definition regex_matches_default (r : src) (s : list Z)
  : outcome (list (option capture) * list Z) :=
  default_read r true (fun _ => Err InvalidFormatString) s.
