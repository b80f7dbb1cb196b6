(** Properties of the locale given to scan: C57. *)
From Coq Require Import String.
From Verif Require Import Prelude UnicodeModel ReadModel ReadProofs SpecsModel WidthModel FormatModel FormatProofs ArgsModel
  SpecsInvProofs IntModel ArgReaderModel ScalarModel StringModel FloatModel RangesModel VscanModel VscanProperties
  LocaleModel LocaleSpec LocaleProofs.
Import Coq.Strings.String.StringSyntax.
Local Open Scope string_scope.
Local Open Scope list_scope.
Local Open Scope Z_scope.

Section C57.
Context {F : Type} (rx : regex_engine) (cf : config).
(** The type in the type-erased argument is one a scalar can have: not that of the results of
    a regular expression. *)
Definition scannable (t : target F) : Prop :=
  match t with
  | TScalar t => no_regex (scalar_arg_type t)
  | TShape sh => match shape_type sh with Some a => no_regex a | None => True end
  | TUser _ _ => True
  end.
Definition is_shape (t : target F) : bool := match t with TShape _ => true | _ => false end.
Definition is_user (t : target F) : bool := match t with TUser _ _ => true | _ => false end.

Lemma given_agree global global' loc l' r t simple : scannable t -> is_shape t = false ->
  (simple = true -> is_user t = false) -> get_locale global' l' = loc ->
  agree _ cf (fun _ => True) (fun _ => True) simple
    (target_arg rx cf global (Some loc) r t) (target_arg rx cf global' l' r t).
Proof.
  intros Ht Hs Hu <-. destruct t as [t|sh|p u]; [|discriminate|]; unfold agree;
    cbn [target_arg ar_type ar_default ar_plain ar_specs ar_custom get_locale].
  - repeat split; try apply Ht; reflexivity.
  - repeat split; try discriminate. intros E. discriminate (Hu E).
Qed.
Lemma given_same global global' loc l' r ts format s : Forall scannable ts -> Forall (fun t => is_shape t = false) ts ->
  (format = [123; 125] -> Forall (fun t => is_user t = false) ts) -> get_locale global' l' = loc ->
  scan_with rx cf global (Some loc) r ts format s = scan_with rx cf global' l' r ts format s.
Proof.
  intros H1 H2 H3 HG. unfold scan_with.
  apply (vscan_agree _ r cf (fun _ => True) ltac:(auto) (fun _ => True) ltac:(auto) (is_simple format)); auto.
  assert (H3' : is_simple format = true -> Forall (fun t => is_user t = false) ts).
  { intros E. apply H3. unfold is_simple in E. destruct format as [|a [|b [|c f]]]; try discriminate. f_equal; [lia|]. f_equal. lia. }
  clear H3. induction H1 as [|t ts Ht _ IH]; cbn [map]; constructor.
  - inversion H2; subst. apply given_agree; try assumption; [|exact eq_refl]. intros E. apply H3' in E. inversion E; assumption.
  - inversion H2; subst. apply IH; [assumption|]. intros E. apply H3' in E. inversion E; assumption.
Qed.

(** With a locale given, the global locale has no influence: arguments are scalars, or of
    types with a scanner of the user's, which may use the locale of the context; the latter
    not with the format string "{}". *)
Theorem C57_given_partial : forall global global' loc r ts format s,
  Forall scannable ts -> Forall (fun t => is_shape t = false) ts ->
  (format = [123; 125] -> Forall (fun t => is_user t = false) ts) ->
  scan_with rx cf global (Some loc) r ts format s = scan_with rx cf global' (Some loc) r ts format s.
Proof. intros. apply given_same; auto. Qed.
(** It is as if the locale given were the global one, and none were given. *)
Theorem C57_as_global_partial : forall global loc r ts format s,
  Forall scannable ts -> Forall (fun t => is_shape t = false) ts ->
  (format = [123; 125] -> Forall (fun t => is_user t = false) ts) ->
  scan_with rx cf global (Some loc) r ts format s = scan_with rx cf loc None r ts format s.
Proof. intros. apply given_same; auto. Qed.
(** Without the flag 'L' no locale has any influence, on scalars or on ranges. *)
Theorem C57_opt_in : forall global global' l l' r ts format s,
  Forall scannable ts -> Forall (fun t => is_user t = false) ts ->
  units (c_enc cf) format -> no_local_field (c_enc cf) format ->
  scan_with rx cf global l r ts format s = scan_with rx cf global' l' r ts format s.
Proof.
  intros global global' l l' r ts format s H1 H2 Hu Hf. unfold scan_with.
  apply (vscan_agree _ r cf (fun f => units (c_enc cf) f /\ no_local_field (c_enc cf) f))
    with (S := fun f => units (c_enc cf) f /\ plain_start (c_enc cf) f) (simple := is_simple format); auto.
  - intros a b Hs [Ha Hb]. split; [eapply units_suffix|eapply no_local_suffix]; eassumption.
  - intros ds c t [Ha Hb] Hds. split; [|eapply no_local_start; eassumption]. eapply units_suffix; [|exact Ha].
    exists (123 :: ds ++ [58]). rewrite <- app_comm_cons, <- app_assoc. reflexivity.
  - clear s. induction H1 as [|t ts Ht _ IH]; cbn [map]; constructor; inversion H2; subst; [|auto].
    apply target_agree. destruct t; try discriminate; exact Ht.
Qed.
(** A locale without grouping has no thousands separator, whatever its facet says. *)
Theorem C57_no_grouping : forall global t f g sep sep' p r (ts : list (target F)) format s, Forall (fun t => is_user t = false) ts ->
  scan_with rx cf global (Some (Locale t f g sep p)) r ts format s
  = scan_with rx cf global (Some (Locale t f g (match g with [] => sep' | _ :: _ => sep end) p)) r ts format s.
Proof.
  intros global t f g sep sep' p r ts format s H. unfold scan_with. f_equal. apply map_ext_Forall. eapply Forall_impl; [|exact H].
  intros [st|sh|ps u]; [| |discriminate]; intros _; [destruct g, st|]; reflexivity.
Qed.
End C57.
Print Assumptions C57_given_partial.
Print Assumptions C57_as_global_partial.
Print Assumptions C57_opt_in.
Print Assumptions C57_no_grouping.

(** The classic locale, and one with "." between groups and "," before the fraction. *)
Definition classic : locale := Locale (T "true") (T "false") [] 44 46.
Definition finnish : locale := Locale (T "tosi") (T "ei") [3] 46 44.
Definition no_rx : regex_engine := fun _ _ _ => Err InvalidFormatString.
Definition int32 : scalar_type nat := TInt i32 IntType.
Definition run57 (global : locale) (l : locale_ref) (ts : list (target nat)) f s := scan_with no_rx narrow global l string_src ts (T f) (T s).
(** "{:L} {:L}" for int and bool. *)
Example C57_given_ex :
  run57 classic (Some finnish) [TScalar int32; TScalar TBool] "{:L} {:L}" "1.234 ei"
    = Ok ([(0, VLeaf (SVInt 1234)); (1, VLeaf (SVBool false))], [])
  /\ run57 finnish None [TScalar int32; TScalar TBool] "{:L} {:L}" "1.234 ei"
    = Ok ([(0, VLeaf (SVInt 1234)); (1, VLeaf (SVBool false))], [])
  /\ run57 finnish (Some classic) [TScalar int32] "{:L}" "1.234" = Ok ([(0, VLeaf (SVInt 1))], T ".234")
  /\ Forall (@scannable nat) [TScalar int32; TScalar TBool]
  /\ Forall (fun t => is_shape t = false) [TScalar int32; TScalar (@TBool nat)].
Proof. split; [vm_compute; reflexivity|]. split; [vm_compute; reflexivity|]. split; [vm_compute; reflexivity|].
  split; repeat constructor; discriminate. Qed.
(** "Length: {:d}" has no field with 'L', though an 'L' outside; "{:*>8L}" has one. *)
Example C57_opt_in_ex :
  run57 finnish (Some finnish) [TScalar int32] "Length: {:d}" "Length: 1.234" = Ok ([(0, VLeaf (SVInt 1))], T ".234")
  /\ run57 classic None [TScalar int32] "Length: {:d}" "Length: 1.234" = Ok ([(0, VLeaf (SVInt 1))], T ".234")
  /\ no_local_field U8 (T "Length: {:d}")
  /\ ~ no_local_field U8 (T "{:*>8L}")
  /\ run57 classic (Some finnish) [TScalar int32] "{:*>8L}" "***1.234" = Ok ([(0, VLeaf (SVInt 1234))], []).
Proof.
  split; [vm_compute; reflexivity|]. split; [vm_compute; reflexivity|]. split; [|split; [|vm_compute; reflexivity]].
  - intros a ds c s E Hds. set (f := T "Length: {:d}") in E. vm_compute in f. subst f.
    do 8 (destruct a as [|? a]; [discriminate|]; cbn [app] in E; injection E as _ E).
    destruct a as [|x a]; [|exfalso; cbn [app] in E; injection E as _ E; repeat (destruct a as [|? a]; [discriminate|cbn [app] in E; injection E as _ E]); destruct a; discriminate].
    cbn [app] in E. injection E as E. destruct ds as [|d ds].
    + cbn [app] in E. injection E as <- <-. split; [exact I|]. cbn. intuition discriminate.
    + exfalso. cbn [app] in E. injection E as <- _. inversion Hds. lia.
  - intros H. destruct (H [] [] 42 (T ">8L}") eq_refl (Forall_nil _)) as [_ HN]. apply HN. vm_compute. auto.
Qed.

(** The elements of a range are read in the global locale, not in the one given: scanned
    alone the same text with the same format-spec is accepted, as an element it is not; and
    the locale given does not matter at all. *)
Theorem C57_elements_refuted : exists global loc f s,
  run57 global (Some loc) [TScalar int32] f s = Ok ([(0, VLeaf (SVInt 1234))], T "]")
  /\ run57 global (Some loc) [TShape (vector_of 100 (SLeaf int32))] f ("[" ++ s) = Err InvalidScannedValue
  /\ run57 loc None [TShape (vector_of 100 (SLeaf int32))] f ("[" ++ s) = Ok ([(0, VSeq [VLeaf (SVInt 1234)])], []).
Proof. exists classic, finnish, "{:L}", "1.234]". vm_compute. auto. Qed.
Print Assumptions C57_elements_refuted.
Theorem C57_elements_global : forall F rx cf global l l' r (ts : list (target F)) format s,
  Forall (fun t => is_shape t = true) ts ->
  scan_with rx cf global l r ts format s = scan_with rx cf global l' r ts format s.
Proof.
  intros F rx cf global l l' r ts format s H. unfold scan_with. f_equal.
  apply map_ext_Forall. eapply Forall_impl; [|exact H]. intros [t|sh|p u]; try discriminate. reflexivity.
Qed.
Print Assumptions C57_elements_global.
(** A scanner of the user's that reads the name for true: with the format string "{}" it is
    not given the locale, with "{}!" it is. *)
Definition reads_name (l : locale) (f s : list Z) : outcome (Z * list Z) :=
  match expect (l_true l) s with Ok rest => Ok (1, rest) | _ => Err InvalidScannedValue end.
Theorem C57_simple_refuted : exists global loc s,
  run57 global (Some loc) [TUser (fun f => f) reads_name : target nat] "{}" s = Err InvalidScannedValue
  /\ run57 global (Some loc) [TUser (fun f => f) reads_name : target nat] "{}!" s = Ok ([(0, VLeaf (SVUser 1))], [])
  /\ run57 loc None [TUser (fun f => f) reads_name : target nat] "{}" s = Ok ([(0, VLeaf (SVUser 1))], T "!").
Proof. exists classic, finnish, "tosi!". vm_compute. auto. Qed.
Print Assumptions C57_simple_refuted.
