(** Property C33: type-erased argument lists. *)
From Verif Require Import Prelude BitsModel ArgsModel ArgsProofs.
Local Open Scope Z_scope.

(** Any list of argument types (2^62 is the limit of the size field), in the packed
    and in the unpacked representation, on every compiler: the right count, the type
    and slot of every index, an empty argument elsewhere, never UB. *)
Theorem C33_args : forall apple ts, Forall (fun t => t <> NoneType) ts ->
  Z.of_nat (length ts) < 2 ^ 62 ->
  exists a, make_args apple ts = Ok a
    /\ args_size a = Z.of_nat (length ts)
    /\ forall id, args_get a (Z.of_nat id)
       = Ok (match nth_error ts id with Some t => Some (t, Z.of_nat id) | None => None end).
Proof. exact args_ok. Qed.
Print Assumptions C33_args.

Example C33_ex_packed : exists a, make_args false [IntType; CustomType; WideStringType] = Ok a
  /\ args_size a = 3 /\ args_get a 2 = Ok (Some (WideStringType, 2)) /\ args_get a 3 = Ok None
  /\ args_get a 11 = Ok None.
Proof. eexists. repeat split; vm_compute; reflexivity. Qed.
Example C33_ex_unpacked : exists a, make_args false (repeat DoubleType 12) = Ok a
  /\ args_size a = 12 /\ args_get a 11 = Ok (Some (DoubleType, 11)) /\ args_get a 12 = Ok None.
Proof. eexists. repeat split; vm_compute; reflexivity. Qed.
