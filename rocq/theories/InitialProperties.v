(** Properties of scans with initial values: C76. *)
From Coq Require Import String.
From Verif Require Import Prelude UnicodeModel ReadModel SpecsModel FormatModel ArgsModel
  IntModel ArgReaderModel ScalarModel StringModel FloatModel RangesModel RangesSpec RangesCollectProofs RangesProperties VscanModel VscanProperties
  LocaleModel LocaleProperties ValueMapProofs InitialModel InitialProofs.
Import Coq.Strings.String.StringSyntax.
Local Open Scope string_scope.
Local Open Scope list_scope.
Local Open Scope Z_scope.

Section C76.
Context {F : Type} (rx : regex_engine) (cf : config) (fzero : F).
Notation object := (RangesModel.value (svalue F)).
Notation otype := (otype F).

(** What an object is in the end that was [old], if a scan without initial values reads [v]:
    a scalar is [v]; a container has the elements of [old] and those of [v], see [holds] for
    the kinds of containers; a tuple likewise, component by component. *)
Fixpoint becomes (o : otype) (old v new : object) {struct o} : Prop :=
  match o, old, v with
  | ORange k _ _ e, VSeq c, VSeq vs =>
      exists vs' c', Forall2 (becomes e (new_object fzero e)) vs vs'
        /\ new = VSeq c' /\ holds (ct_key k) (ct_less k) (ct_kind k) c vs' c'
  | OTuple _ es, VTup olds, VTup vs =>
      exists news, new = VTup news
        /\ (fix go (es : list otype) (olds vs news : list object) : Prop :=
              match es, olds, vs, news with
              | e :: es', old :: olds', v :: vs', new :: news' => becomes e old v new /\ go es' olds' vs' news'
              | _, _, _, _ => news = vs
              end) es olds vs news
  | _, _, _ => new = v
  end.
(** The object is of the type, sets and maps are in the order of their keys.  Characters are 0,
    as new ones; char32_t are not bound. *)
Fixpoint initial (o : otype) (old : object) {struct o} : Prop :=
  match o, old with
  | OLeaf t, VLeaf x =>
      match t with
      | TChar KCodePoint _ _ => True
      | TChar _ z _ => z = 0 /\ x = SVChar 0
      | _ => True
      end
  | ORange k _ _ e, VSeq c =>
      initial e (new_object fzero e) /\ ordered (ct_key k) (ct_less k) (ct_kind k) c
  | OTuple _ es, VTup olds =>
      (fix go (es : list otype) (olds : list object) : Prop :=
         match es, olds with
         | [], [] => True
         | e :: es', old :: olds' => initial e old /\ go es' olds'
         | _, _ => False
         end) es olds
  | _, _ => False
  end.
Lemma initial_new : forall o old, initial o old -> chars_new fzero o old.
Proof.
  fix IH 1. intros [t|k max p e|p es] [x|c|olds]; cbn [initial chars_new]; try tauto.
  - intros [H _]. apply IH. exact H.
  - revert olds. induction es as [|e es IHes]; intros [|old olds]; try tauto. intros [H1 H2]. split; [apply IH; exact H1|apply IHes; exact H2].
Qed.
Lemma collect_holds {E K} (key : E -> K) lt k c vs : ordered key lt k c -> holds key lt k c vs (collect key lt k c vs).
Proof.
  destruct k; cbn [holds ordered].
  - intros _. apply collect_sequence.
  - intros [Ho Hc]. now apply collect_unique.
  - intros [Ho Hc]. now apply collect_equal.
Qed.
Lemma added_becomes : forall o old v, initial o old -> becomes o old v (added fzero o old v).
Proof.
  fix IH 1. intros [t|k max p e|p es] [x|c|olds] v; cbn [initial becomes added]; try tauto.
  - intros [H1 H2]. destruct v as [x|vs|vs]; try reflexivity. do 2 eexists. split; [|split; [reflexivity|apply collect_holds; exact H2]].
    induction vs as [|v vs IHvs]; constructor; [apply IH; exact H1|exact IHvs].
  - destruct v as [x|vs|vs]; try reflexivity. intros H. eexists. split; [reflexivity|]. revert olds vs H.
    induction es as [|e es IHes]; intros [|old olds] [|v vs] H; try contradiction; try reflexivity. destruct H as [H1 H2]. split; [apply IH; exact H1|apply IHes; exact H2].
Qed.
(** scan with initial values: exactly as scan without, but for the elements in the ranges. *)
Theorem C76_partial : forall global l r objects format source,
  Forall (fun '(o, old) => initial o old) objects ->
  let into := scan_into rx cf fzero global l r objects format source in
  match scan_with rx cf global l r (map (fun '(o, _) => target_of o) objects) format source with
  | Ok (log, rest) =>
      exists log', into = Ok (log', rest)
      /\ Forall2 (fun '(i, v) '(j, new) => j = i /\ forall o old, nth_error objects (Z.to_nat i) = Some (o, old) -> becomes o old v new) log log'
  | Err e => into = Err e | UB => into = UB | OutOfFuel => into = OutOfFuel
  end.
Proof.
  intros global l r objects format source H into. unfold into. rewrite into_map.
  2: { eapply Forall_impl; [|exact H]. intros [o old]. apply initial_new. }
  replace (map (fun x => target_of (fst x)) objects) with (map (fun '(o, _) => target_of o) objects) by (apply map_ext; intros []; reflexivity).
  destruct (scan_with _ _ _ _ _ _ _ _) as [[log rest]| | |]; try reflexivity. cbn [omap fst snd]. eexists. split; [reflexivity|].
  induction log as [|[i v] log IH]; constructor; [|exact IH]. cbn [fst snd]. split; [reflexivity|]. intros o old E. unfold added_at. rewrite E.
  apply added_becomes. exact (proj1 (Forall_forall _ _) H _ (nth_error_In _ _ E)).
Qed.
(** Values of scalars alone, other than char and wchar_t: the initial values have no effect. *)
Theorem C76_scalars : forall global l r ts format source,
  Forall (fun '(t, _) => match t with TChar KChar _ _ | TChar KWchar _ _ => False | _ => True end) ts ->
  scan_into rx cf fzero global l r (map (fun '(t, x) => (OLeaf t, VLeaf x)) ts) format source
  = scan_with rx cf global l r (map (fun '(t, _) => TScalar t) ts) format source.
Proof.
  intros global l r ts format source H. rewrite into_map.
  - rewrite map_map. replace (map (fun x => target_of (fst (let '(t, x0) := x in (OLeaf t, VLeaf x0)))) ts) with (map (fun '(t, _) => @TScalar F t) ts) by (apply map_ext; intros []; reflexivity).
    destruct (scan_with _ _ _ _ _ _ _ _) as [[log rest]| | |]; try reflexivity. unfold ValueMapProofs.omap; cbn [bind fst snd]. f_equal. f_equal.
    rewrite <- (map_id log) at 2. apply map_ext. intros [i v]. cbn [fst snd]. unfold added_at. rewrite nth_error_map. destruct (nth_error ts (Z.to_nat i)) as [[t x]|]; reflexivity.
  - apply Forall_map. eapply Forall_impl; [|exact H]. intros [t x] Ht. cbn. destruct t as [| |[] z a| | |]; cbn; tauto.
Qed.
End C76.
Print Assumptions C76_partial.
Print Assumptions C76_scalars.

(** * Examples *)
Definition run76 (r : src) (objects : list (otype nat * RangesModel.value (svalue nat))) (f s : list Z) :=
  scan_into no_rx narrow 0%nat classic None r objects f s.
Definition vector_type (e : otype nat) : otype nat := ORange (Container Sequence (fun x => x) (fun _ _ => false)) 10 seq_punct e.
Definition int_of (a : RangesModel.value (svalue nat)) : Z := match a with VLeaf (SVInt x) => x | _ => 0 end.
Definition int_less (a b : RangesModel.value (svalue nat)) : bool := int_of a <? int_of b.
Definition set_type : otype nat := ORange (Container UniqueKeys (fun x => x) int_less) 10 set_punct (OLeaf int32).
Definition vint (z : Z) : RangesModel.value (svalue nat) := VLeaf (SVInt z).
Definition string8 : otype nat := OLeaf (TString (DString U8) NarrowStringType).
Lemma int_weak_order : weak_order int_less.
Proof. unfold weak_order, same_key, int_less. repeat split; intros; lia. Qed.
(** A vector of vectors, a set and a string, a pair of an int and a vector; all with values. *)
Example C76_ex :
  let objects :=
    [(vector_type (vector_type (OLeaf int32)), VSeq [VSeq [vint 1; vint 2]]);
     (set_type, VSeq [vint 3; vint 7]);
     (string8, VLeaf (SVString (T "old")));
     (OTuple tup_punct [OLeaf int32; vector_type (OLeaf int32)], VTup [vint 5; VSeq [vint 6]])] in
  Forall (fun '(o, old) => initial 0%nat o old) objects
  /\ run76 string_src objects (T "{} {} {} {}") (T "[[8], []] {9, 3, 1} abc (4, [2])!")
     = Ok ([(0, VSeq [VSeq [vint 1; vint 2]; VSeq [vint 8]; VSeq []]);
            (1, VSeq [vint 1; vint 3; vint 7; vint 9]);
            (2, VLeaf (SVString (T "abc")));
            (3, VTup [vint 4; VSeq [vint 6; vint 2]])], T "!").
Proof.
  cbv zeta. split; [|vm_compute; reflexivity].
  repeat (constructor; [cbn; repeat split; try exact I; try apply int_weak_order; repeat constructor|]). constructor.
Qed.
Example C76_scalars_ex :
  scan_into no_rx narrow 0%nat classic None wide_src [(OLeaf int32, vint 12); (string8, VLeaf (SVString (T "old")))] (T "{:x} {}") (T "ff new")
  = Ok ([(0, vint 255); (1, VLeaf (SVString (T "new")))], []).
Proof. vm_compute. reflexivity. Qed.

(** A char read as a number keeps its initial value. *)
Theorem C76_char_refuted : exists a c f s,
  c <> 0
  /\ scan_with no_rx narrow classic None string_src [@TScalar nat (TChar KChar 0 a)] f s = Ok ([(0, VLeaf (SVChar 0))], [])
  /\ run76 string_src [(OLeaf (TChar KChar 0 a), VLeaf (SVChar c))] f s = Ok ([(0, VLeaf (SVChar c))], []).
Proof. exists NarrowCharacterType, 65, (T "{:d}"), (T "42"). split; [discriminate|]. split; vm_compute; reflexivity. Qed.
Print Assumptions C76_char_refuted.
