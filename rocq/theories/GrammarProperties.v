(** C18, the other direction: nothing but the documented grammar is accepted. *)
From Verif Require Import Prelude UnicodeModel UnicodeSpec SpecsModel ArgsModel FormatModel FormatSpec FormatSpecProofs
  VscanProperties GrammarSpec GrammarProofs.
Import Coq.Strings.String.StringSyntax.
Local Open Scope Z_scope.

(** Whatever is accepted as the format-spec of a replacement field is one of the grammar
    (GrammarSpec): every part in its place, numbers in range, the precision not below the
    width, 'L' only for types that can be localised, sets closed and ranges not reversed,
    regular expressions closed and not empty, with distinct known flags, and no other
    letters.  Weaker than the documentation in two points, for which see below. *)
Theorem C18_only_partial : forall cf t s s' sp,
  parse_format_specs cf t s (SS specs_default false) = Ok (s', SS sp false) ->
  exists u fl al w p loc ty, s = u ++ s' /\ specs_text (rb_of cf) (c_enc cf) t u fl al w p loc ty.
Proof. exact specs_only. Qed.
Print Assumptions C18_only_partial.
Example C18_only_ex :
  (exists sp, parse_format_specs narrow NarrowStringType (T "*<5.10[^]a-z]}x") (SS specs_default false) = Ok (T "}x", SS sp false))
  /\ parse_format_specs narrow NarrowStringType (T "//}") (SS specs_default false) = Ok (T "/}", SS (set_type PRegex specs_default) true)
  /\ (forall s' sp, parse_format_specs narrow NarrowStringType (T "[z-a]}") (SS specs_default false) <> Ok (s', SS sp false))
  /\ (forall s' sp, parse_format_specs narrow NarrowStringType (T "5.4}") (SS specs_default false) <> Ok (s', SS sp false)).
Proof.
  split; [eexists; vm_compute; reflexivity|]. split; [vm_compute; reflexivity|].
  split; intros s' sp; vm_compute; discriminate.
Qed.
(** A precision needs digits, and '}' cannot be the fill: both are accepted. *)
Theorem C18_dot_refuted : exists s sp,
  parse_format_specs narrow IntType s (SS specs_default false) = Ok (T "}", SS sp false) /\ s = T ".}".
Proof. do 2 eexists. split; [|reflexivity]. vm_compute. reflexivity. Qed.
Print Assumptions C18_dot_refuted.
Theorem C18_brace_refuted : exists s sp,
  parse_format_specs narrow IntType s (SS specs_default false) = Ok (T "}", SS sp false) /\ s = T "}<}".
Proof. do 2 eexists. split; [|reflexivity]. vm_compute. reflexivity. Qed.
Print Assumptions C18_brace_refuted.
