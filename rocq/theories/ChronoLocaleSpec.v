(** Specification of what a locale reads for the conversion specifiers of dates and times. *)
From Coq Require Import String Ascii.
From Verif Require Import Prelude ChronoModel ChronoSpec.
Import Coq.Strings.String.StringSyntax.
Local Open Scope string_scope.
Local Open Scope list_scope.
Local Open Scope Z_scope.

(** The conversion specifiers that the locale has a say in, what std::time_get is to read for
    them (POSIX: %b, %B and %h are the same for reading, as are %a and %A, and %Od and %Oe; %k
    and %l are %H and %I), and the parts of the date this gives. *)
Definition by_locale : list (string * (string * list part)) :=
  let date := [PYear; PMon; PMday] in
  let time := [PHour24; PMin; PSec] in
  [("c", ("%c", (date ++ time)%list)); ("Ec", ("%Ec", (date ++ time)%list)); ("x", ("%x", date)); ("Ex", ("%Ex", date));
   ("X", ("%X", time)); ("EX", ("%EX", time)); ("r", ("%r", time)); ("EY", ("%EY", [PYear]));
   ("b", ("%b", [PMon])); ("B", ("%b", [PMon])); ("h", ("%b", [PMon])); ("Om", ("%Om", [PMon]));
   ("Od", ("%Od", [PMday])); ("Oe", ("%Od", [PMday])); ("a", ("%a", [PWday])); ("A", ("%a", [PWday]));
   ("Ow", ("%Ow", [PWday])); ("OH", ("%OH", [PHour24])); ("Ok", ("%OH", [PHour24]));
   ("OI", ("%OI", [PHour12])); ("Ol", ("%OI", [PHour12])); ("OM", ("%OM", [PMin])); ("OS", ("%OS", [PSec]))]%string.
(** The parts of a std::tm *)
Definition shown (tm : tmv) (p : part) : Z :=
  match p with
  | PYear => tm_year tm + 1900 | PMon => tm_mon tm + 1 | PMday => tm_mday tm | PWday => tm_wday tm
  | PHour24 | PHour12 => tm_hour tm | PMin => tm_min tm | PSec => tm_sec tm
  | _ => 0
  end.
Definition as_read (tm : tmv) (ps : list part) : values := map (fun p => (p, shown tm p)) ps.
(** Their ranges *)
Definition within (p : part) (v : Z) : bool :=
  let between a b := (a <=? v) && (v <=? b) in
  match p with
  | PMon => between 1 12 | PMday => between 1 31 | PWday => between 0 6 | PHour24 => between 0 23
  | PHour12 => between 1 12 | PMin => between 0 59 | PSec => between 0 60
  | _ => true
  end.
(** The year and the month number can be computed in int. *)
Definition computable (tm : tmv) : Prop :=
  - 2 ^ 31 <= tm_year tm < 2 ^ 31 - 1900 /\ - 2 ^ 31 <= tm_mon tm < 2 ^ 31 - 1.
