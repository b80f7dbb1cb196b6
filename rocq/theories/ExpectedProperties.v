(** Properties of scn::expected and scan_error: C63, C64. *)
From Verif Require Import Prelude ExpectedModel ExpectedSpec ExpectedProofs.

Section C63.
Context {V E : Type} (tr : traits).
Context (left_v : bool -> V -> V) (left_e : bool -> E -> E) (spoil_v : V -> V -> V) (spoil_e : E -> E -> E) (zero : V).
Let exec p t := run tr left_v left_e spoil_v spoil_e zero p (start t).
(** What a variable shows: has_value(), value(), error(). *)
Definition shows (x : other V E) (c : content V E) : Prop :=
  match c with
  | inl v => o_has x = true /\ value x = Some v
  | inr e => o_has x = false /\ error x = Some e
  end.
Lemma holds_shows x c : holds x c -> shows x c.
Proof. destruct c; intros ->; split; reflexivity. Qed.
Lemma all_shows xs l : Forall2 holds xs l -> Forall2 shows xs l.
Proof. induction 1; constructor; auto using holds_shows. Qed.

(** Any program, with any of the operations of T throwing; E as scan_error (copies do not throw,
    and the destructor is trivial).  It is defined; no object with a destructor is lost; and
    the variables show what those of std::expected would.  It may be ended only by a default
    constructor of T that throws, or the copy of a T. *)
Theorem C63_partial : forall p t,
  e_copy tr = true -> e_move tr = true -> e_assign tr = true -> e_trivial tr = true ->
  Forall (allowed tr) p ->
  match exec p t with
  | Ran threw w => w_lost w = [] /\ exists l, std_run zero p [] threw l /\ Forall2 shows (vars w) l
  | RTerminates => Exists (may_end tr) p
  | RUndefined | RUncompiled => False
  end.
Proof.
  intros p t H1 H2 H3 H4 HA.
  assert (H := run_ok tr left_v left_e spoil_v spoil_e zero p (start t) [] (conj H1 (conj H2 H3)) (or_intror H4) HA
                 (conj eq_refl (Forall2_nil _))).
  unfold exec. destruct (run _ _ _ _ _ _ p (start t)) as [bs w| | |]; try exact H. destruct H as (l & HR & HL & HV). split; [exact HL|].
  exists l. split; [exact HR|]. apply all_shows. exact HV.
Qed.
(** The same for any E that does not throw, if copies and moves of T do not. *)
Theorem C63_errors_partial : forall p t,
  e_copy tr = true -> e_move tr = true -> e_assign tr = true -> t_copy tr = true -> t_move tr = true ->
  Forall (allowed tr) p ->
  match exec p t with
  | Ran threw w => w_lost w = [] /\ exists l, std_run zero p [] threw l /\ Forall2 shows (vars w) l
  | RTerminates => Exists (may_end tr) p
  | RUndefined | RUncompiled => False
  end.
Proof.
  intros p t H1 H2 H3 H4 H5 HA.
  assert (H := run_ok tr left_v left_e spoil_v spoil_e zero p (start t) [] (conj H1 (conj H2 H3)) (or_introl (conj H4 H5)) HA
                 (conj eq_refl (Forall2_nil _))).
  unfold exec. destruct (run _ _ _ _ _ _ p (start t)) as [bs w| | |]; try exact H. destruct H as (l & HR & HL & HV). split; [exact HL|].
  exists l. split; [exact HR|]. apply all_shows. exact HV.
Qed.
End C63.
Print Assumptions C63_partial.
Print Assumptions C63_errors_partial.

(** expected<T, scan_error>, of a T as std::string: copies may throw, moves do not. *)
Definition string_result : traits := Traits false true false true false false false true true true true true true.
(** Of a T whose moves may throw too, as std::deque of libstdc++. *)
Definition deque_result : traits := Traits false false false false false false false true true true true true true.
(** Of an E as std::string. *)
Definition string_error : traits := Traits false true false true false false false true false true false false false.
(** The int 0 stands for an object moved from, -1 for one whose assignment threw. *)
Definition go tr p t := run (V := Z) (E := Z) tr (fun b v => if b then v else 0%Z) (fun b v => if b then v else 0%Z) (fun _ _ => (-1)%Z) (fun _ _ => (-1)%Z) 100%Z p (start t).
(** Variables: the value 5, the error 7 and a copy of the first; the first is assigned to the
    second and moved to a fourth; assigning to the third throws; all end. *)
Example C63_ex :
  let p := [FromValue 5; FromError 7; FromCopy 0; AssignCopy 1 0; FromMove 0; AssignError 0 8; AssignCopy 2 1; Drop; Drop]%Z in
  Forall (allowed string_result) p
  /\ go string_result p [false; false; false; true]
     = Ran [false; false; false; false; false; false; true; false; false]
           (World [Other (LiveE 8%Z) false; Other (LiveV 5%Z) true] [] [])
  /\ std_run 100%Z p [] [false; false; false; false; false; false; true; false; false] [inr 8%Z; inl 5%Z].
Proof.
  cbv zeta. split; [repeat constructor|]. split; [vm_compute; reflexivity|].
  do 4 (eapply std_then; [cbn; reflexivity|]).
  eapply std_then; [exists (inl 0%Z); split; [exact I|cbn; reflexivity]|].
  eapply std_then; [cbn; reflexivity|].
  eapply std_then; [exists (inl (-1)%Z); split; [exact I|]; split; [cbn; tauto|cbn; reflexivity]|].
  eapply std_then; [split; cbn; reflexivity|]. eapply std_then; [split; cbn; reflexivity|]. apply std_done.
Qed.
(** A move that throws over an error puts the error back. *)
Example C63_move_ex :
  go deque_result [FromError 7; FromValue 5; AssignMove 0 1]%Z [false; true]
  = Ran [false; false; true] (World [Other (LiveE 7%Z) false; Other (LiveV 5%Z) true] [] []).
Proof. vm_compute. reflexivity. Qed.

(** Assigning a value by copy to an expected that holds an error ends the program, if the copy
    throws. *)
Theorem C63_copy_refuted : exists p t, Forall (allowed string_result) p
  /\ go string_result p t = RTerminates /\ t_default string_result = true.
Proof. exists [FromError 7; FromValue 5; AssignCopy 0 1]%Z, [false; true]. split; [repeat constructor|]. vm_compute. auto. Qed.
Print Assumptions C63_copy_refuted.
(** Assigning a value that cannot be constructed returns as if it were assigned: the error
    stays, and no exception is thrown. *)
Theorem C63_swallowed_refuted : exists p t, go string_result p t
  = Ran [false; false] (World [Other (LiveE 7%Z) false] [] []) /\ p = [FromError 7; AssignValue 0 5]%Z.
Proof. exists [FromError 7; AssignValue 0 5]%Z, [true]. vm_compute. auto. Qed.
Print Assumptions C63_swallowed_refuted.
(** emplace that throws, over a value: it is destroyed twice. *)
Theorem C63_emplace_refuted : exists p t,
  go string_result p t = Ran [false; true] (World [Other Raw true] [] [])
  /\ go string_result (p ++ [Drop]) t = RUndefined.
Proof. exists [FromValue 5; Emplace 0 6]%Z, [false; true]. vm_compute. auto. Qed.
Print Assumptions C63_emplace_refuted.
(** Over an error: the error is no longer there to be read. *)
Theorem C63_emplace_error_refuted : exists p t,
  go string_result p t = Ran [false; true] (World [Other Raw false] [] [])
  /\ go string_result (p ++ [FromCopy 0]) t = RUndefined /\ error (@Other Z Z Raw false) = None.
Proof. exists [FromError 7; Emplace 0 6]%Z, [true]. vm_compute. auto. Qed.
Print Assumptions C63_emplace_error_refuted.
(** Without throwing, over an error with a destructor: it is not destroyed. *)
Theorem C63_emplace_lost_refuted : exists p, w_lost
  (match go string_error p [] with Ran _ w => w | _ => start [] end) = [inr 7%Z].
Proof. exists [FromError 7; Emplace 0 6; Drop]%Z. vm_compute. reflexivity. Qed.
Print Assumptions C63_emplace_lost_refuted.
(** Conversion from another expected: the T made by default is not destroyed. *)
Theorem C63_convert_lost_refuted : exists p t, w_lost
  (match go string_result p t with Ran _ w => w | _ => start [] end) = [inl 100%Z; inl 100%Z].
Proof. exists [Convert (inl 5%Z); Convert (inr 7%Z); Drop; Drop], []. vm_compute. reflexivity. Qed.
Print Assumptions C63_convert_lost_refuted.
(** And if the conversion throws, a T that is not there is destroyed. *)
Theorem C63_convert_refuted : exists p t, go string_result p t = RUndefined.
Proof. exists [Convert (inl 5%Z)], [true]. vm_compute. reflexivity. Qed.
Print Assumptions C63_convert_refuted.
(** The default constructor ends the program if that of T throws. *)
Theorem C63_default_refuted : exists p t, go deque_result p t = RTerminates.
Proof. exists [Default], [true]. vm_compute. reflexivity. Qed.
Print Assumptions C63_default_refuted.
(** Copy assignment does not compile if T can be copied, but neither copied nor moved without
    throwing. *)
Theorem C63_uncompiled_refuted : exists p, go deque_result p [] = RUncompiled.
Proof. exists [FromError 7; FromValue 5; AssignCopy 0 1]%Z. vm_compute. reflexivity. Qed.
Print Assumptions C63_uncompiled_refuted.
(** An E whose copies throw: the value is destroyed twice; or an E that is not there. *)
Theorem C63_throwing_error_refuted :
  (exists p t, go string_error p t = RUndefined /\ p = [FromValue 5; AssignError 0 7; Drop]%Z)
  /\ (exists p t, go string_error p t = RUndefined /\ p = [FromValue 5; FromCopy 0]%Z).
Proof.
  split.
  - exists [FromValue 5; AssignError 0 7; Drop]%Z, [false; true]. vm_compute. auto.
  - exists [FromValue 5; FromCopy 0]%Z, [false; true]. vm_compute. auto.
Qed.
Print Assumptions C63_throwing_error_refuted.

(** * C64: and_then and the like. *)
Section C64.
Context {V E : Type}.
Implicit Types (x : other V E) (c : content V E).
(** The function is called once, with the value (error), if there is one, else not at all. *)
Theorem C64_once : forall x c, shows x c ->
  (forall W (f : V -> other W E), exists y calls, and_then x f = Some (y, calls)
     /\ calls = match c with inl v => [v] | inr _ => [] end
     /\ match c with inl v => y = f v | inr e => shows y (inr e) end)
  /\ (forall F (f : E -> other V F), exists y calls, or_else x f = Some (y, calls)
     /\ calls = match c with inl _ => [] | inr e => [e] end
     /\ match c with inl v => shows y (inl v) | inr e => y = f e end)
  /\ (forall W (f : V -> W), exists y calls, transform x f = Some (y, calls)
     /\ calls = match c with inl v => [v] | inr _ => [] end
     /\ shows y match c with inl v => inl (f v) | inr e => inr e end)
  /\ (forall F (f : E -> F), exists y calls, transform_error x f = Some (y, calls)
     /\ calls = match c with inl _ => [] | inr e => [e] end
     /\ shows y match c with inl v => inl v | inr e => inr (f e) end)
  /\ (forall v, value_or x v = Some match c with inl v' => v' | inr _ => v end)
  /\ (forall e, error_or x e = Some match c with inl _ => e | inr e' => e' end).
Proof.
  intros x [v|e] [H1 H2]; unfold and_then, or_else, transform, transform_error, value_or, error_or; rewrite H1, ?H2; cbn;
    repeat split; intros; try (eexists; eexists; split; [reflexivity|]; repeat split; reflexivity); auto.
Qed.
End C64.
Print Assumptions C64_once.
Example C64_ex :
  let half v := if (v mod 2 =? 0)%Z then fresh (inl (v / 2)%Z) else fresh (inr v) in
  shows (fresh (inl 6%Z)) (inl 6%Z : content Z Z) /\ shows (fresh (inr 3%Z)) (inr 3%Z : content Z Z)
  /\ and_then (fresh (inl 6%Z)) half = Some (fresh (inl 3%Z), [6%Z]) /\ and_then (fresh (inl 3%Z)) half = Some (fresh (inr 3%Z), [3%Z])
  /\ and_then (fresh (inr 4%Z)) half = Some (fresh (inr 4%Z), [])
  /\ transform (fresh (inl 6%Z) : other Z Z) (Z.mul 2) = Some (fresh (inl 12%Z), [6%Z])
  /\ transform_error (fresh (inr 6%Z) : other Z Z) (Z.mul 2) = Some (fresh (inr 12%Z), [6%Z])
  /\ value_or (fresh (inr 6%Z)) 1%Z = Some 1%Z.
Proof. cbv zeta. repeat split; vm_compute; reflexivity. Qed.
(** Errors as std::errc: always defined; out of range for the overflows and underflows, an I/O
    error for that of the source.  Equality is that of the codes. *)
Theorem C64_errc : forall c msg, exists r, to_errc (ScanError msg (code_number c)) = Some r
  /\ (r = ResultOutOfRange <-> In c [ValuePositiveOverflow; ValueNegativeOverflow; ValuePositiveUnderflow; ValueNegativeUnderflow])
  /\ (r = IoError <-> c = InvalidSourceState).
Proof.
  intros c msg. destruct c; eexists; (split; [reflexivity|]); split; split; try discriminate; auto; cbn; intuition discriminate.
Qed.
Print Assumptions C64_errc.
Theorem C64_equal : forall c c' msg msg',
  (error_eq (ScanError msg (code_number c)) (ScanError msg' (code_number c')) = true <-> c = c')
  /\ (error_is (ScanError msg (code_number c)) c' = true <-> c = c').
Proof.
  assert (H : forall c c', (code_number c =? code_number c')%Z = true <-> c = c').
  { intros c c'. split; [|intros ->; apply Z.eqb_refl]. destruct c, c'; intros H; try reflexivity; discriminate. }
  intros. split; apply H.
Qed.
Print Assumptions C64_equal.
Example C64_errc_ex : to_errc (ScanError [] (code_number ValuePositiveOverflow)) = Some ResultOutOfRange
  /\ to_errc (ScanError [] (code_number LengthTooShort)) = Some InvalidArgument.
Proof. split; reflexivity. Qed.
