(** Property C19 for every format string that is accepted at compile time. *)
From Coq Require Import Permutation.
From Verif Require Import Prelude UnicodeModel ReadModel SpecsModel ArgsModel FormatModel VscanModel IntModel
  CheckedProofs VscanProperties.
Import Coq.Strings.String.StringSyntax.
Local Open Scope Z_scope.

(** A format string accepted at compile time reads every argument exactly once, whatever
    the source, the arguments and the scanners of user types (which parse at run time
    what they have parsed at compile time), or the scan fails. *)
Theorem C19_checked : forall V r cf contiguous borrowed args custom_parse format source log rest,
  parses_alike V args custom_parse ->
  check_format_string cf contiguous borrowed (map ar_type args) custom_parse format = Ok tt ->
  vscan V r cf args format source = Ok (log, rest) ->
  Permutation (map fst log) (zseq 0 (List.length args)).
Proof. intros V r cf contiguous borrowed args custom_parse format source log rest HP HC E. eapply checked_reads; eassumption. Qed.
Print Assumptions C19_checked.

(** A user type: an optional "!" in the field, one code unit in the source. *)
Definition mark_parse (f : list Z) : outcome (list Z) :=
  match f with
  | 33 :: f' => Ok f'
  | 125 :: _ => Ok f
  | _ => Err InvalidFormatString
  end.
Definition mark_scan (s : list Z) : outcome (Z * list Z) :=
  match s with c :: s' => Ok (c, s') | [] => Err EndOfInput end.
Definition mark_arg : arg Z :=
  Arg Z CustomType mark_scan mark_scan (fun _ => mark_scan)
    (fun f s => match mark_parse f with Ok p => (p, mark_scan s) | _ => (f, Err InvalidFormatString) end).
Example C19_checked_ex :
  let args := [int_arg; mark_arg; int_arg] in let parse := fun _ => mark_parse in
  parses_alike Z args parse
  /\ check_format_string narrow true true (map ar_type args) parse (T "{:d}{:!} {:x}") = Ok tt
  /\ vscan Z string_src narrow args (T "{:d}{:!} {:x}") (T "12* ff;") = Ok ([(0, 12); (1, 42); (2, 255)], T ";")
  /\ check_format_string narrow true true (map ar_type args) parse (T "{2} {1:!} {0:L}") = Ok tt
  /\ vscan Z string_src narrow args (T "{2} {1:!} {0:L}") (T "7 *8") = Ok ([(2, 7); (1, 42); (0, 8)], [])
  /\ check_format_string narrow true true (map ar_type args) parse (T "{:d}{:L}") = Err InvalidFormatString
  /\ check_format_string narrow true true (map ar_type args) parse (T "{0}{2}") = Err InvalidFormatString.
Proof.
  split; [|vm_compute; repeat split].
  intros id a f p q v s s' Ha Ht Hp. destruct (Z.to_nat id) as [|[|[|k]]]; cbn in Ha; try discriminate Ha.
  - injection Ha as <-. discriminate.
  - injection Ha as <-. cbn. rewrite Hp. intros [= <-]. reflexivity.
  - injection Ha as <-. discriminate.
  - destruct k; discriminate Ha.
Qed.
