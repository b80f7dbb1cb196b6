(** What a "/…/" field asks of the regular expression engine and what a regex_matches then
    holds, from the documentation in include/scn/regex.h and include/scn/scan.h.
    Independent of RegexModel except for the types of requests, answers and captures. *)
From Verif Require Import Prelude UnicodeModel UnicodeSpec WidthSpec ArgsModel RegexModel.
Local Open Scope Z_scope.

(** include/scn/regex.h:100-152: m, s, i and n. *)
Definition asked (q fl : list Z) : request :=
  Request q (existsb (Z.eqb 109) fl) (existsb (Z.eqb 115) fl) (existsb (Z.eqb 105) fl)
    (existsb (Z.eqb 110) fl).

(** A subexpression that matched is there with its text and its name; one that did not is
    an empty optional. *)
Definition reported (g : group) : option capture :=
  match g with
  | (Some t, n) => Some (t, n)
  | (None, _) => None
  end.

(** The answer of the engine as the result of scanning [s]: the entire match, then the
    subexpressions. *)
Inductive reports (s : list Z) : answer -> outcome (list (option capture) * list Z) -> Prop :=
| R_invalid : reports s Invalid (Err InvalidFormatString)
| R_throws : reports s Throws (Err InvalidFormatString)
| R_none : reports s NoMatch (Err InvalidScannedValue)
| R_match : forall whole rest groups, s = whole ++ rest ->
    reports s (Match rest groups) (Ok (Some (whole, None) :: map reported groups, rest)).

(** Engines match a beginning of the text. *)
Definition sound (en : engine) : Prop := forall rq s rest groups,
  en rq s = Match rest groups -> exists whole, s = whole ++ rest.

(** std::regex knows no names. *)
Definition nameless (en : engine) : Prop := forall rq s rest groups,
  en rq s = Match rest groups -> Forall (fun g => snd g = None) groups.

(** A name written into a pattern as "(?<name>", where a backslash before it is itself
    escaped. *)
Definition written (q name : list Z) : Prop := exists pre post,
  q = pre ++ [40; 63; 60] ++ name ++ 62 :: post /\ ~ In 62 name
  /\ (last pre 0 <> 92 \/ exists pre', pre = pre' ++ [92; 92]).

(** The named subexpressions that matched matched texts unlike those of all others. *)
Definition told_apart (whole : list Z) (groups : list group) : Prop :=
  (forall t n, In (Some t, Some n) groups ->
     t <> whole
     /\ (forall n', In (Some t, n') groups -> n' = Some n)
     /\ (forall t', In (Some t', Some n) groups -> t' = t)).

(** What matched, without the subexpressions. *)
Definition extent (a : answer) : answer :=
  match a with Match rest _ => Match rest [] | _ => a end.
(** The answer of the engine as the result of scanning the code points [cps] of encoding [e]
    into a string of encoding [to]. *)
Inductive string_reports (e to : enc) (cps : list Z) : answer -> outcome (list Z * list Z) -> Prop :=
| SR_invalid : string_reports e to cps Invalid (Err InvalidFormatString)
| SR_throws : string_reports e to cps Throws (Err InvalidFormatString)
| SR_none : string_reports e to cps NoMatch (Err InvalidScannedValue)
| SR_match : forall a b groups, cps = a ++ b ->
    string_reports e to cps (Match (text e b) groups) (Ok (text to a, text e b)).
