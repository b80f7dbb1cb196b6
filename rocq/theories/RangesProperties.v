(** Properties of scanning ranges and tuples: C38. *)
From Verif Require Import Prelude UnicodeModel UnicodeSpec ReadModel ReadProofs SpecsModel FormatModel
  IntModel IntSpec IntProofs IntProperties FormatSpec FormatSpecProofs VscanModel VscanProofs VscanSpec VscanSpecProofs
  VscanProperties WidthSpec ArgsModel ArgReaderModel ArgReaderProperties StringModel StringSafeProofs ScalarModel ScalarProperties
  RangesModel RangesSpec RangesProofs RangesIntProofs RangesCollectProofs.
Import Coq.Strings.String.StringSyntax.
Local Open Scope Z_scope.

(** ** Round trip *)

(** A value of a type made of integers, vectors, sets, maps and tuples, written with the
    default brackets and separators and any white space [ws] around all elements, after
    any white space [w0], is read back, and the position is right after the closing
    bracket.  [sp]: format-specs of the elements, reaching those of vectors and sets only.
    An integer alone must be followed by the end, white space or a character that is not
    a letter or digit. *)
Theorem C38_partial : forall r sep t v sp b ws w0 rest,
  s_enc r <> U16 -> spaces r ws -> spaces r w0 ->
  Forall IntProofs.type_ok (int_types t) -> fits t v -> base_spec sp b ->
  (match t with TInt _ => follows r no_digit rest | _ => True end) ->
  units (s_enc r) rest ->
  scan_shape r (int_leaf r sep) (shape_of t) sp (enc_text r w0 ++ show (enc_text r ws) b t v ++ rest)
  = Ok (v, rest).
Proof.
  intros r sep t v sp b ws w0 rest He Hws Hw0 Ht Hf Hb Hr Hu.
  destruct (show_wrote r He ws Hws t Ht sp b v Hb Hf) as [W S].
  assert (HB : begins r [] (show (enc_text r ws) b t v)) by (apply starts_begins; [trivial|trivial|now left]).
  destruct (back_all r He (int_leaf r sep) int_text no_digit (int_back r sep He)) as [BA _].
  apply (BA _ _ _ _ W w0 rest rest); trivial.
  - now apply begins_app.
  - apply units_spaces; trivial. apply units_app; trivial. apply show_units; trivial. apply (base_of sp b Hb).
  - destruct (shape_of t); trivial.
  - destruct t; cbn [shape_of remains]; try reflexivity. split; [exact Hr|reflexivity].
Qed.
Print Assumptions C38_partial.
(** std::map<int, std::vector<int>> between other text, with a line separator around the
    elements; a std::vector<std::tuple<>> like nest; hexadecimal elements. *)
Example C38_ex :
  scan_shape string_src (int_leaf string_src 0) (shape_of (TMap 100 (TInt i32) (TVec 100 (TInt i32)))) specs_default
    (T " {1:[2, 3] , -4 :[]}tail")
  = Ok (VSeq [VTup [VLeaf 1; VSeq [VLeaf 2; VLeaf 3]]; VTup [VLeaf (-4); VSeq []]], T "tail")
  /\ fits (TMap 100 (TInt i32) (TVec 100 (TInt i32)))
       (VSeq [VTup [VLeaf 1; VSeq [VLeaf 2; VLeaf 3]]; VTup [VLeaf (-4); VSeq []]])
  /\ scan_shape string_src (int_leaf string_src 0) (shape_of (TTup [TInt i8; TSet 5 (TInt u64)])) specs_default
       (T "(-128,{ 7})") = Ok (VTup [VLeaf (-128); VSeq [VLeaf 7]], [])
  /\ show (enc_text string_src [0x2028; 32]) 16 (TVec 9 (TInt i16)) (VSeq [VLeaf (-255); VLeaf 16])
     = T "[" ++ utf8 [0x2028] ++ T " -ff" ++ utf8 [0x2028] ++ T " ," ++ utf8 [0x2028] ++ T " 10" ++ utf8 [0x2028] ++ T " ]"
  /\ spaces string_src [0x2028; 32].
Proof.
  split; [vm_compute; reflexivity|]. split; [cbn; unfold in_range; cbn; intuition (try lia; repeat constructor; cbn; try lia)|].
  split; [vm_compute; reflexivity|]. split; [vm_compute; reflexivity|].
  repeat constructor; try reflexivity; try (left; left; reflexivity); unfold scalar; lia.
Qed.

(** The same for any layout (other white space in each place, other brackets and
    separators, upper case digits, plus signs, trailing white space before punctuation) and
    any leaf types whose scanner reads back the texts [leaf_text] when the source goes on
    with white space or a character of [stop]. *)
Theorem C38_layout_partial : forall (L X : Type) r (leaf : L -> specs -> list Z -> outcome (X * list Z))
    (leaf_text : L -> specs -> X -> list Z -> Prop) (stop : Z -> Prop) sp sh v t ws rest out,
  s_enc r <> U16 ->
  (forall l sp x t ws tail, leaf_text l sp x t -> begins r [] t -> spaces r ws ->
     follows r stop tail -> units (s_enc r) (enc_text r ws ++ t ++ tail) ->
     leaf l sp (enc_text r ws ++ t ++ tail) = Ok (x, tail)) ->
  wrote r leaf_text stop sp sh v t -> begins r [] t -> spaces r ws ->
  units (s_enc r) (enc_text r ws ++ t ++ rest) -> remains r stop sh rest out ->
  scan_shape r leaf sh sp (enc_text r ws ++ t ++ rest) = Ok (v, out).
Proof.
  intros L X r leaf lt stop sp sh v t ws rest out He HB W Hb Hw Hu HR.
  destruct (back_all r He leaf lt stop HB) as [BA _]. apply (BA _ _ _ _ W); trivial; [now apply begins_app|].
  destruct sh; trivial.
Qed.
Print Assumptions C38_layout_partial.
Theorem C38_integers_read_back : forall r sep, s_enc r <> U16 ->
  forall t sp v txt ws tail, int_text t sp v txt -> begins r [] txt -> spaces r ws ->
  follows r no_digit tail -> units (s_enc r) (enc_text r ws ++ txt ++ tail) ->
  int_leaf r sep t sp (enc_text r ws ++ txt ++ tail) = Ok (v, tail).
Proof. exact int_back. Qed.
Print Assumptions C38_integers_read_back.
(** A sequence written "<1; +2>". *)
Example C38_layout_ex :
  let p := Punct (T "<") (T ">") (T ";") in
  wrote string_src int_text no_digit specs_default (SSeq 9 p (SLeaf i32)) (VSeq [VLeaf 1; VLeaf 2]) (T "<1; +2>")
  /\ scan_shape string_src (int_leaf string_src 0) (SSeq 9 p (SLeaf i32)) specs_default (T "  <1; +2>>")
     = Ok (VSeq [VLeaf 1; VLeaf 2], T ">").
Proof.
  split; [|vm_compute; reflexivity].
  assert (M : forall c, In c [60; 62; 59] -> mark no_digit [c]).
  { intros c [<-|[<-|[<-|[]]]]; apply mark_one; try reflexivity; lia. }
  assert (IT : forall v txt, 0 <= v < 10 -> txt = [48 + v] \/ txt = [43; 48 + v] -> int_text i32 specs_default v txt).
  { intros v txt Hv Ht. split; [right; right; left; reflexivity|]. split; [cbn; lia|]. exists 10, false.
    assert (P : print_signed false 10 v = [48 + v]).
    { assert (In v [0;1;2;3;4;5;6;7;8;9]) as I by (cbn; lia). cbn in I. destruct I as [<-|[<-|[<-|[<-|[<-|[<-|[<-|[<-|[<-|[<-|[]]]]]]]]]]]; reflexivity. }
    rewrite P. destruct Ht as [->| ->]; [exists false|exists true]; (split; [apply base_default|]); cbn [andb app]; trivial.
    replace (0 <=? v) with true by lia. reflexivity. }
  assert (B : forall avoid c t, In avoid [[]; [62]] -> In c [49; 43] -> begins string_src avoid (c :: t)).
  { intros avoid c t Ha Hc. exists c, t. split; [split; [left; destruct Hc as [<-|[<-|[]]]; lia|left; left; reflexivity]|].
    split; [destruct Hc as [<-|[<-|[]]]; reflexivity|]. split; [destruct Hc as [<-|[<-|[]]]; reflexivity|].
    intros c0 a E. destruct Ha as [<-|[<-|[]]]; [discriminate|]. injection E as <- _. cbn. destruct Hc as [<-|[<-|[]]]; lia. }
  set (p := Punct (T "<") (T ">") (T ";")).
  apply (w_seq string_src int_text no_digit specs_default 9 p (SLeaf i32) [VLeaf 1; VLeaf 2] (T "1; +2")).
  - right. exists 60, []. repeat split; lia.
  - apply M. cbn. auto.
  - apply M. cbn. auto.
  - vm_compute. congruence.
  - cbn. lia.
  - apply (wi_some string_src int_text no_digit _ _ _ (SLeaf i32) [SLeaf i32] (VLeaf 1) [VLeaf 2] [] [] (T "1") (T "; +2"));
      try constructor; [apply IT; [lia|left; reflexivity]|apply B; cbn; auto|].
    apply (wm_some string_src int_text no_digit (T ";") _ (SLeaf i32) [] (VLeaf 2) [] [32] [] (T "+2") []);
      try constructor; [split; [split; [left; lia|left; left; reflexivity]|reflexivity]|constructor|apply IT; [lia|right; reflexivity]|apply B; cbn; auto].
Qed.

(** ** Containers *)

(** What the container holds in the end, given that it held [c] before and [vs] are the
    elements written: a sequence all of them in order; a set or map for every key the first
    element with that key, in the order of the keys; a multiset or multimap all of them in
    the order of the keys and, for each key, of the text. *)
Definition holds {E K} (key : E -> K) (lt : K -> K -> bool) (k : range_kind) (c vs c' : list E) : Prop :=
  match k with
  | Sequence => c' = c ++ vs
  | UniqueKeys => in_order key lt true c' /\ forall x, with_key key lt x c' = first_of (with_key key lt x (c ++ vs))
  | EqualKeys => in_order key lt false c' /\ forall x, with_key key lt x c' = with_key key lt x (c ++ vs)
  end.
Definition ordered {E K} (key : E -> K) (lt : K -> K -> bool) (k : range_kind) (c : list E) : Prop :=
  match k with
  | Sequence => True
  | UniqueKeys => weak_order lt /\ in_order key lt true c
  | EqualKeys => weak_order lt /\ in_order key lt false c
  end.
Theorem C38_containers_partial : forall E K (key : E -> K) lt as_elem k c r sep t vs sp b ws w0 rest,
  ordered key lt k c ->
  s_enc r <> U16 -> spaces r ws -> spaces r w0 ->
  Forall IntProofs.type_ok (int_types t) -> fits t (VSeq vs) -> base_spec sp b -> units (s_enc r) rest ->
  exists c', scan_container key lt as_elem r (int_leaf r sep) k (shape_of t) sp c
               (enc_text r w0 ++ show (enc_text r ws) b t (VSeq vs) ++ rest) = Ok (c', rest)
             /\ holds key lt k c (map as_elem vs) c'.
Proof.
  intros E K key lt as_elem k c r sep t vs sp b ws w0 rest Ho He Hws Hw0 Ht Hf Hb Hu.
  unfold scan_container. rewrite (C38_partial r sep t (VSeq vs) sp b ws w0 rest); trivial.
  2: { destruct t; trivial. contradiction. }
  cbn [bind]. eexists. split; [reflexivity|]. destruct k; cbn [holds ordered] in *.
  - apply collect_sequence.
  - destruct Ho as [Ho Hc]. now apply collect_unique.
  - destruct Ho as [Ho Hc]. now apply collect_equal.
Qed.
Print Assumptions C38_containers_partial.
(** A std::map<int, int> that has a value for 5; the text has two for 1. *)
Definition int_pair (v : value Z) : Z * Z := match v with VTup [VLeaf a; VLeaf b] => (a, b) | _ => (0, 0) end.
Example C38_containers_ex :
  ordered fst Z.ltb UniqueKeys [(5, 50)]
  /\ scan_container fst Z.ltb int_pair string_src (int_leaf string_src 0) UniqueKeys
       (shape_of (TMap 100 (TInt i32) (TInt i32))) specs_default [(5, 50)] (T "{7:1, 1:2, 5:3, 1:4}!")
     = Ok ([(1, 2); (5, 50); (7, 1)], T "!").
Proof.
  split; [|vm_compute; reflexivity]. split; [|cbn; auto].
  split; [intros; lia|]. split; [intros; lia|]. unfold same_key. intros; lia.
Qed.

(** ** Safety *)

(** Any nest of ranges and tuples of built-in types, with brackets and separators of at
    most one unit, from any source, malformed or not: an error or a value and a later
    position; never undefined behaviour.  The error is "end of input", "invalid scanned
    value" or that of an element.  [spec_for]: the specs come from a format string that
    parses without error for the element type. *)
Definition spec_for (rx : regex_engine) names sep r (cf : config) (b : builtin) (sp : specs) : Prop :=
  exists fmt fmt', parse_format_specs cf (ar_type (builtin_arg rx names sep r b)) fmt (SS specs_default false)
                   = Ok (fmt', SS sp false).
Definition element (r : src) : Type := {b : builtin | supported (s_enc r) b}.
Definition element_spec rx names sep r cf (l : element r) (sp : specs) : Prop :=
  spec_for rx names sep r cf (proj1_sig l) sp.
Definition element_leaf rx names sep r (l : element r) (sp : specs) (s : list Z) : outcome (bvalue * list Z) :=
  ar_specs (builtin_arg rx names sep (element_src r sp s) (proj1_sig l)) sp s.

Lemma default_spec cf t : c_enc cf <> U16 -> parse_format_specs cf t [125] (SS specs_default false) = Ok ([125], SS specs_default false).
Proof. destruct cf as [[] ? ? ? ?]; intros H; try congruence; destruct t; reflexivity. Qed.
Lemma element_default rx names sep r cf l : c_enc cf = s_enc r -> s_enc r <> U16 -> element_spec rx names sep r cf l specs_default.
Proof. intros Hc He. exists [125], [125]. apply default_spec. congruence. Qed.
Lemma element_safe rx names sep r cf : c_enc cf = s_enc r -> s_enc r <> U16 -> engine_ok rx ->
  forall l sp s, element_spec rx names sep r cf l sp -> units (s_enc r) s ->
  (exists x s', element_leaf rx names sep r l sp s = Ok (x, s') /\ suffix s' s)
  \/ exists er, element_leaf rx names sep r l sp s = Err er.
Proof.
  intros Hc He Hrx [b Hb] sp s (fmt & fmt' & E) Hu. unfold element_leaf. cbn [proj1_sig] in *.
  assert (EE : s_enc (element_src r sp s) = s_enc r).
  { unfold element_src. destruct (s_contig r); [|reflexivity]. destruct (_ || _); reflexivity. }
  rewrite <- EE in *. destruct (builtin_ok rx names sep (element_src r sp s) cf b Hc He Hrx Hb) as (_ & H & _).
  assert (ET : forall r', ar_type (builtin_arg rx names sep r' b) = ar_type (builtin_arg rx names sep r b)) by (intros r'; destruct b; reflexivity).
  rewrite ET in H. exact (H fmt fmt' sp E s Hu).
Qed.

Theorem C38_total : forall rx names sep r cf sh sp s,
  c_enc cf = s_enc r -> s_enc r <> U16 -> engine_ok rx -> short sh ->
  specs_for (element_spec rx names sep r cf) sh sp -> units (s_enc r) s ->
  (exists v s', scan_shape r (element_leaf rx names sep r) sh sp s = Ok (v, s') /\ suffix s' s)
  \/ exists er, scan_shape r (element_leaf rx names sep r) sh sp s = Err er
       /\ (er = EndOfInput \/ er = InvalidScannedValue
           \/ exists l sp s, element_leaf rx names sep r l sp s = Err er).
Proof.
  intros rx names sep r cf sh sp s Hc He Hrx Hsh Hsp Hu.
  exact (scan_shape_total r (element_leaf rx names sep r) (element_spec rx names sep r cf)
    (fun l => element_default rx names sep r cf l Hc He) (element_safe rx names sep r cf Hc He Hrx) sh Hsh sp s Hsp Hu).
Qed.
Print Assumptions C38_total.

Definition no_engine : regex_engine := fun _ _ _ => Err InvalidFormatString.
Definition int_element : element string_src := exist _ (BInt i32 IntType) (conj (or_intror (or_intror (or_introl eq_refl))) (or_intror (or_intror (or_introl eq_refl)))).
Definition scan_ints := scan_shape string_src (element_leaf no_engine ([], []) 0 string_src)
  (vector_of 9 (SLeaf int_element)) specs_default.
(** Some sources: a list, a trailing and a missing separator, no closing bracket, malformed
    bytes in an element. *)
Example C38_total_ex :
  engine_ok no_engine /\ short (vector_of 9 (SLeaf int_element))
  /\ specs_for (element_spec no_engine ([], []) 0 string_src narrow) (vector_of 9 (SLeaf int_element)) specs_default
  /\ scan_ints (T "[1 ,2] x") = Ok (VSeq [VLeaf (VInteger 1); VLeaf (VInteger 2)], T " x")
  /\ scan_ints (T "[1,]") = Err InvalidScannedValue /\ scan_ints (T "[1 2]") = Err InvalidScannedValue
  /\ scan_ints (T "[1, 2") = Err EndOfInput /\ scan_ints [91; 0xe2; 0x82] = Err InvalidScannedValue.
Proof.
  split; [intros ? ? ?; left; eexists; reflexivity|]. split; [unfold vector_of, short, short_punct; cbn; lia|].
  split; [apply element_default; [reflexivity|discriminate]|]. repeat split; vm_compute; reflexivity.
Qed.

(** ** Accepted syntax *)

(** From a string or wide string: exactly the documented syntax is accepted: white space
    then the opening bracket; elements with separators between them; white space then the
    closing bracket; white space before every separator.  Everything else is an error. *)
Theorem C38_syntax : forall rx names sep r cf sh sp s,
  c_enc cf = s_enc r -> good_src r -> engine_ok rx -> short sh ->
  specs_for (element_spec rx names sep r cf) sh sp -> units (s_enc r) s ->
  let scan := scan_shape r (element_leaf rx names sep r) sh sp s in
  (forall v s', scan = Ok (v, s') <-> reads (s_enc r) (element_leaf rx names sep r) sp sh v s s')
  /\ ((forall v s', ~ reads (s_enc r) (element_leaf rx names sep r) sp sh v s s') <-> exists er, scan = Err er).
Proof.
  intros rx names sep r cf sh sp s Hc Hg Hrx Hsh Hsp Hu scan.
  assert (He : s_enc r <> U16) by (destruct Hg as [E|[E _]]; congruence).
  assert (D := fun l => element_default rx names sep r cf l Hc He). assert (S := element_safe rx names sep r cf Hc He Hrx).
  assert (A : forall v s', scan = Ok (v, s') <-> reads (s_enc r) (element_leaf rx names sep r) sp sh v s s').
  { intros v s'. split.
    - intros E. eapply (scan_shape_reads r _ _ D S Hg); eassumption.
    - intros R. destruct (reads_scan r _ _ D S Hg) as [RS _]. now apply RS. }
  split; [exact A|]. split.
  - intros N. destruct (C38_total rx names sep r cf sh sp s Hc He Hrx Hsh Hsp Hu) as [(v & s' & E & _)|(er & E & _)]; [|eauto].
    exfalso. apply (N v s'), A, E.
  - intros [er E] v s' R. apply A in R. congruence.
Qed.
Print Assumptions C38_syntax.

(** "[1 ,2] x" is in the syntax, so it is read; "[1,]" is not, for it is an error. *)
Example C38_syntax_ex :
  reads U8 (element_leaf no_engine ([], []) 0 string_src) specs_default (vector_of 9 (SLeaf int_element))
    (VSeq [VLeaf (VInteger 1); VLeaf (VInteger 2)]) (T "[1 ,2] x") (T " x")
  /\ forall v s', ~ reads U8 (element_leaf no_engine ([], []) 0 string_src) specs_default (vector_of 9 (SLeaf int_element))
       v (T "[1,]") s'.
Proof.
  assert (H : forall s, bytes s -> _) by (intros s Hs; exact (C38_syntax no_engine ([], []) 0 string_src narrow
    (vector_of 9 (SLeaf int_element)) specs_default s eq_refl (or_intror (conj eq_refl eq_refl))
    (proj1 C38_total_ex) (proj1 (proj2 C38_total_ex)) (proj1 (proj2 (proj2 C38_total_ex))) Hs)).
  split.
  - apply H; [repeat constructor; unfold is_byte; lia|]. vm_compute. reflexivity.
  - apply H; [repeat constructor; unfold is_byte; lia|]. eexists. vm_compute. reflexivity.
Qed.

(** ** Violations *)

(** A separator of two characters is compared past the end of the source. *)
Theorem C38_long_separator_refuted : exists sh s,
  bytes s /\ scan_shape string_src (int_leaf string_src 0) sh specs_default s = UB.
Proof.
  exists (SSeq 9 (Punct (T "[") (T "]") (T "->")) (SLeaf i32)), (T "[1-").
  split; [repeat constructor; unfold is_byte; lia|vm_compute; reflexivity].
Qed.
Print Assumptions C38_long_separator_refuted.

(** Without brackets no element is ever read. *)
Theorem C38_no_brackets_refuted : exists sh s,
  bytes s /\ scan_shape string_src (int_leaf string_src 0) sh specs_default s = Ok (VSeq [], s) /\ s = T "1, 2".
Proof.
  exists (SSeq 9 (Punct [] [] (T ",")) (SLeaf i32)), (T "1, 2").
  split; [repeat constructor; unfold is_byte; lia|split; vm_compute; reflexivity].
Qed.
Print Assumptions C38_no_brackets_refuted.

(** A range with a max_size() is given more elements than that. *)
Theorem C38_max_size_refuted : exists member s vs,
  bytes s /\ member < Z.of_nat (List.length vs)
  /\ scan_shape string_src (int_leaf string_src 0)
       (SSeq (Z.to_nat (range_max_size (Some member))) seq_punct (SLeaf i32)) specs_default s = Ok (VSeq vs, []).
Proof.
  exists 2, (T "[1, 2, 3]"), [VLeaf 1; VLeaf 2; VLeaf 3].
  split; [repeat constructor; unfold is_byte; lia|]. split; [cbn; lia|].
  apply scan_seq_more with (n := 4%nat); [vm_compute; reflexivity|cbn; lia|].
  unfold range_max_size, has_max_size. lia.
Qed.
Print Assumptions C38_max_size_refuted.

(** Words swallow the separator; characters do not skip the white space. *)
Definition str_leaf (_ : unit) (sp : specs) (s : list Z) := string_arg no_engine (DString U8) (element_src string_src sp s) sp s.
Definition chr_leaf (_ : unit) (sp : specs) (s : list Z) := char_arg KChar 0 0 (element_src string_src sp s) sp s.
Theorem C38_strings_refuted : exists s, bytes s /\ s = T "[abc, def]"
  /\ exists er, scan_shape string_src str_leaf (vector_of 9 (SLeaf tt)) specs_default s = Err er.
Proof.
  exists (T "[abc, def]"). split; [repeat constructor; unfold is_byte; lia|]. split; [reflexivity|].
  eexists. vm_compute. reflexivity.
Qed.
Print Assumptions C38_strings_refuted.
Theorem C38_chars_refuted : exists s, bytes s /\ s = T "[a, b]"
  /\ exists er, scan_shape string_src chr_leaf (vector_of 9 (SLeaf tt)) specs_default s = Err er.
Proof.
  exists (T "[a, b]"). split; [repeat constructor; unfold is_byte; lia|]. split; [reflexivity|].
  eexists. vm_compute. reflexivity.
Qed.
Print Assumptions C38_chars_refuted.
