(** Property C66: printed text is scanned back by the format string it was printed with. *)
From Verif Require Import Prelude UnicodeModel UnicodeSpec ReadModel ReadProofs RangesSpec SpecsModel FormatModel FormatSpec FormatSpecProofs ArgsModel IntModel
  VscanModel VscanSpec VscanSpecProofs VscanProperties WidthSpec ScalarModel ScalarSpec StringModel StringProofs FloatModel FloatSpec FloatInstance
  LocaleModel LocaleProperties PrintedSpec PrintedRangeProofs PrintedProofs IntSpec IntProofs RangesModel.
Import Coq.Strings.String.StringSyntax.
Local Open Scope Z_scope.

(** The values printed in the fields of a format string, padded as the fields ask, between
    its literal text, are scanned back from the text by the same format string; what was
    behind is left.  For every list of arguments of scalar types, and ranges and tuples of
    numbers, bools and pointers in fields without format-spec, in any locale; from strings.
    Missing: the text must be [clear], see below for what happens if it is not; precision,
    signs, '#', '0' and nested fields, which one of the libraries does not have or gives
    another meaning; format-specs of ranges. *)
Theorem C66_partial : forall {F} rx cf global l r (items : list (target F * RangesModel.value (svalue F) * list Z)) ts rest,
  good_src r -> s_contig r = true -> c_enc cf = s_enc r -> (List.length items < 64)%nat ->
  Forall (fun i => printable (fst (fst i))) items ->
  uniform ts -> wf_tokens (s_enc r) (writable (s_enc r) items (rb_of cf)) ts 0 ->
  index_ok (Z.of_nat (List.length items)) ts 0 [] = true ->
  Forall scalar rest -> clear (s_enc r) items rest ts 0 false ->
  scan_with rx cf global l r (map (fun i => fst (fst i)) items)
    (render (s_enc r) ts) (text (s_enc r) (printed items rest ts 0))
  = Ok (values items ts 0, text (s_enc r) rest).
Proof. intros F rx cf global l r items ts rest H1 H2 H3 H4 H5 H6 H7 H8 H9 H10. apply scanned; assumption. Qed.
Print Assumptions C66_partial.

(** * Examples *)
Notation numbers := FloatInstance.exact.
Notation items_list := (list (target numbers * RangesModel.value (svalue numbers) * list Z)).
Definition scan_back (rx : regex_engine) (items : items_list) (ts : list token) (rest : list Z) :=
  scan_with rx narrow classic None string_src (map (fun i => fst (fst i)) items) (render U8 ts) (text U8 (printed items rest ts 0)).
Notation Spec := (fun fill al w ty => Field None (Some (Desc fill al w None false ty))).
Notation str := (TString (DString U8) NarrowStringType).
Notation int := (TInt i32 IntType).
Notation Leaf := RangesModel.VLeaf.

(** Words, numbers and their padding; floating-point numbers as in [FloatInstance]. *)
Definition ts1 : list token :=
  [Spec (Some 42) (Some ALeft) (Some (T "12")) (Some (TyLetter 115)); Lit 58; Spec None (Some ARight) (Some (T "6")) None; Lit 32;
   Field None None; Lit 32; Spec (Some 35) (Some ACenter) (Some (T "9")) (Some (TyLetter 120)); Lit 47;
   Spec None None None (Some (TyLetter 102))].
Definition items1 : items_list :=
  [(TScalar str, Leaf (SVString (T "two words")), T "two words"); (TScalar int, Leaf (SVInt (-42)), T "-42"); (TScalar TBool, Leaf (SVBool true), T "true");
   (TScalar int, Leaf (SVInt 48879), T "beef"); (TScalar (TFloat (exact_fp true) DoubleType), Leaf (SVFloat (Fraction true 25 10)), T "-2.5")].
Ltac no := let H := fresh in intros H; vm_compute in H; first [discriminate H|exact H].
Ltac clear_tac ends :=
  match goal with |- clear_field ?t ?d ?x ?b ?ws ?ts ?s =>
    let v := eval vm_compute in s in change s with v; unfold clear_field;
    let v := eval vm_compute in (padding t d b) in change (padding t d b) with v
  end; cbv beta iota;
  split; [intros d' Ed; first [discriminate Ed|injection Ed as <-]; repeat split|];
  split; [ends|];
  split; [intros d' Ed HA; first [discriminate Ed|injection Ed as <-]; first [no|destruct HA; discriminate]|];
  split; [left; no|];
  split; [intros d' Ed HA; first [exact I|discriminate Ed|injection Ed as <-; discriminate HA]|first [no|intros _; no]].
Example C66_ex rx :
  uniform ts1 /\ wf_tokens U8 (writable U8 items1 (rb_of narrow)) ts1 0 /\ index_ok 5 ts1 0 [] = true
  /\ clear U8 items1 (T "!") ts1 0 false
  /\ printed items1 (T "!") ts1 0 = T "two words***:   -42 true ##beef###/-2.5!"
  /\ render U8 ts1 = T "{:*<12s}:{:>6} {} {:#^9x}/{:f}"
  /\ scan_back rx items1 ts1 (T "!")
     = Ok ([(0, Leaf (SVString (T "two words"))); (1, Leaf (SVInt (-42))); (2, Leaf (SVBool true)); (3, Leaf (SVInt 48879));
            (4, Leaf (SVFloat (Fraction true 25 10)))], T "!").
Proof.
  split; [left; cbn; intros id d H; repeat (destruct H as [H|H]; [congruence|]); contradiction|].
  split; [|split; [reflexivity|split; [|split; [vm_compute; reflexivity|split; vm_compute; reflexivity]]]].
  - cbn [wf_gtokens ts1]. unfold wf_id.
    repeat match goal with
    | |- _ /\ _ => split
    | |- forall d', Some _ = Some d' -> _ =>
        intros d' E; injection E as <-; intros a x b Ha; injection Ha as <- <- <-; split; [reflexivity|split; [wf_desc_tac|left; reflexivity]]
    | |- forall d', None = Some d' -> _ => intros d' E; discriminate E
    end; try exact I; cbn; lia.
  - cbn [clear ts1]. cbv [item index items1 nth_error Z.to_nat Pos.to_nat Pos.iter_op Init.Nat.add Z.add Pos.add Pos.succ].
    split.
    { apply (pr_string U8 (DString U8) NarrowStringType (Some 115) U8 (T "two words")); [auto|split; [reflexivity|left; reflexivity]| |discriminate].
      apply Forall_forall. intros c Hc. unfold scalar. cbn in Hc. repeat (destruct Hc as [<-|Hc]; [lia|]). destruct Hc. }
    split; [clear_tac ltac:(cbn; split; [intros H; repeat (destruct H as [H|H]; [discriminate H|]); destruct H|right; reflexivity])|].
    split.
    { replace (T "-42") with (print_signed false 10 (-42)) by (vm_compute; reflexivity). apply pr_int; [reflexivity|unfold type_ok; cbn; auto 10|unfold in_range; cbn; lia]. }
    split; [clear_tac ltac:(cbn [ends letter]; intros base [= <-]; split; [intros (q & E & _); discriminate E|discriminate])|].
    split; [apply (pr_bool U8 None true); auto|].
    split; [clear_tac ltac:(exact I)|].
    split.
    { replace (T "beef") with (print_signed false 16 48879) by (vm_compute; reflexivity). apply pr_int; [reflexivity|unfold type_ok; cbn; auto 10|unfold in_range; cbn; lia]. }
    split; [clear_tac ltac:(cbn [ends letter]; intros base [= <-]; split; [intros (q & E & _); discriminate E|discriminate])|].
    split.
    { assert (HS : significand 10 (T "2.5")).
      { exists (T "2"), (T "5"). split; [right; reflexivity|]. split; [|split; [|discriminate]]; (constructor; [|constructor]);
          [exists 2|exists 5]; split; [reflexivity|lia|reflexivity|lia]. }
      apply (pr_float U8 (exact_fp true) DoubleType (Some 102) exact_meaning Fixed true (T "-") (T "2.5")).
      - apply exact_converts.
      - left. reflexivity.
      - constructor.
      - right. right. left. auto.
      - left. exists 2. split; [reflexivity|lia].
      - assert (E : number_outcome exact_meaning true (T "2.5") = Ok (Fraction true 25 10)) by (vm_compute; reflexivity). rewrite <- E.
        apply reads_decimal with true false; [discriminate|left; auto]. }
    split; [clear_tac ltac:(cbn [ends]; unfold float_char, payload_char; cbn; lia)|].
    discriminate.
Qed.

(** * Texts which are not clear *)
Ltac scalars_tac := apply Forall_forall; intros c Hc; unfold scalar; cbn in Hc; repeat (destruct Hc as [<-|Hc]; [lia|]); destruct Hc.
(** std::format aligns words to the left: what it prints for "{:5}" is not scanned by it. *)
Theorem C66_natural_refuted : exists w, prints (F := numbers) U8 str None (SVString w) w /\
  let items : items_list := [(TScalar str, Leaf (SVString w), w)] in let ts := [Spec None None (Some (T "5")) None] in
  render U8 ts = T "{:5}" /\ printed items [] ts 0 = T "abc  " /\ forall rx, scan_back rx items ts [] = Err LengthTooShort.
Proof.
  exists (T "abc"). split; [apply (pr_string U8 (DString U8) NarrowStringType None U8 (T "abc")); [auto|split; [reflexivity|left; reflexivity]|scalars_tac|discriminate]|].
  repeat split; vm_compute; reflexivity.
Qed.
(** White space in the format string takes the padding of the field behind it with it. *)
Theorem C66_space_refuted : exists v, prints (F := numbers) U8 int None (SVInt v) (print_signed false 10 v) /\
  let items : items_list := [(TScalar int, Leaf (SVInt 1), T "1"); (TScalar int, Leaf (SVInt v), print_signed false 10 v)] in
  let ts := [Field None None; Lit 32; Spec None None (Some (T "5")) None] in
  render U8 ts = T "{} {:5}" /\ printed items [] ts 0 = T "1    42" /\ forall rx, scan_back rx items ts [] = Err LengthTooShort.
Proof.
  exists 42. split; [apply pr_int; [reflexivity|unfold type_ok; cbn; auto 10|unfold in_range; cbn; lia]|].
  repeat split; vm_compute; reflexivity.
Qed.
(** Without 's', a word is not ended by its fill; with it, it is. *)
Theorem C66_letter_refuted : exists w, prints (F := numbers) U8 str None (SVString w) w /\
  let items : items_list := [(TScalar str, Leaf (SVString w), w)] in let ts ty := [Spec (Some 42) (Some ALeft) (Some (T "8")) ty] in
  render U8 (ts None) = T "{:*<8}" /\ printed items [] (ts None) 0 = T "abc*****"
  /\ forall rx, scan_back rx items (ts None) [] = Ok ([(0, Leaf (SVString (T "abc*****")))], [])
     /\ scan_back rx items (ts (Some (TyLetter 115))) [] = Ok ([(0, Leaf (SVString w))], []).
Proof.
  exists (T "abc"). split; [apply (pr_string U8 (DString U8) NarrowStringType None U8 (T "abc")); [auto|split; [reflexivity|left; reflexivity]|scalars_tac|discriminate]|].
  repeat split; vm_compute; reflexivity.
Qed.
(** A value which begins with the fill. *)
Theorem C66_fill_refuted : exists v, prints (F := numbers) U8 int None (SVInt v) (print_signed false 10 v) /\
  let items : items_list := [(TScalar int, Leaf (SVInt v), print_signed false 10 v)] in
  let ts := [Spec (Some 48) (Some ARight) (Some (T "5")) None] in
  render U8 ts = T "{:0>5}" /\ printed items [] ts 0 = T "00000"
  /\ forall rx x, scan_back rx items ts [] <> Ok x.
Proof.
  exists 0. split; [apply pr_int; [reflexivity|unfold type_ok; cbn; auto 10|unfold in_range; cbn; lia]|].
  repeat split; try (vm_compute; reflexivity). intros rx x H. vm_compute in H. discriminate H.
Qed.
(** 'c', which both libraries document for characters, is rejected for char. *)
Theorem C66_char_refuted : exists u, scalar u /\
  let items : items_list := [(TScalar (TChar KChar 0 NarrowCharacterType), Leaf (SVChar u), [u])] in
  let ts := [Spec None None None (Some (TyLetter 99))] in
  render U8 ts = T "{:c}" /\ printed items [] ts 0 = [u]
  /\ forall rx, scan_back rx items ts [] = Err InvalidFormatString.
Proof. exists 97. split; [unfold scalar; lia|]. repeat split; vm_compute; reflexivity. Qed.
Print Assumptions C66_natural_refuted.
Print Assumptions C66_space_refuted.
Print Assumptions C66_letter_refuted.
Print Assumptions C66_fill_refuted.
Print Assumptions C66_char_refuted.

(** * Ranges of numbers, bools and pointers *)
(** The written form of a range or tuple, with any brackets, separators and white space, is
    read back; the specs, a letter, reach the elements of vectors and sets.  From strings.
    (C38_partial: ranges of integers, from any source.)  Missing: strings and characters,
    which read the separators. *)
Theorem C38_elements_partial : forall {F} rx global r (sh : shape (scalar_type F)) sp v t ws rest out,
  s_enc r <> U16 -> s_contig r = true ->
  wrote (custom_src r) (element_text (s_enc r)) delimiter sp sh v t -> begins (custom_src r) [] t -> spaces (custom_src r) ws ->
  units (s_enc r) (enc_text r ws ++ t ++ rest) -> remains (custom_src r) delimiter sh rest out ->
  shape_scan rx global r sh sp (enc_text r ws ++ t ++ rest) = Ok (v, out).
Proof. intros F rx global r sh sp v t ws rest out H1 H2 H3 H4 H5 H6 H7. apply shape_back; assumption. Qed.
Print Assumptions C38_elements_partial.
(** What std::format prints for a range is read back. *)
Theorem C38_printed : forall {F} rx global r (sh : shape (scalar_type F)) v b rest,
  s_enc r <> U16 -> s_contig r = true -> bracketed sh -> shows (s_enc r) sh v b -> units (s_enc r) (b ++ rest) ->
  shape_scan rx global r sh specs_default (b ++ rest) = Ok (v, rest).
Proof. intros F rx global r sh v b rest H1 H2 H3 H4 H5. apply shape_reads; assumption. Qed.
Print Assumptions C38_printed.

(** A std::map<int, std::vector<double>> and a std::tuple<bool, void*>. *)
Notation double := (TFloat (exact_fp true) DoubleType).
Definition map1 : shape (scalar_type numbers) := map_of 100 (SLeaf int) (vector_of 100 (SLeaf double)).
Definition tuple1 : shape (scalar_type numbers) := tuple_of [SLeaf TBool; SLeaf TPointer].
Definition mv1 : value (svalue numbers) :=
  VSeq [VTup [VLeaf (SVInt 1); VSeq [VLeaf (SVFloat (Fraction true 25 10)); VLeaf (SVFloat (Fraction false 5 1))]];
        VTup [VLeaf (SVInt (-7)); VSeq []]].
Definition tv1 : value (svalue numbers) := VTup [VLeaf (SVBool true); VLeaf (SVPointer 48879)].
Lemma prints_double neg sg t v : signed neg sg -> starts_with_digit 10 t -> significand 10 t ->
  number_outcome exact_meaning neg t = Ok v -> prints (F := numbers) U8 double None (SVFloat v) (sg ++ t).
Proof.
  intros H1 H2 H3 H4. apply (pr_float U8 (exact_fp true) DoubleType None exact_meaning Any neg sg t); trivial.
  - apply exact_converts.
  - reflexivity.
  - right. right. left. left. auto.
  - left. exact H2.
  - rewrite <- H4. apply reads_decimal with true true; [discriminate|left; auto].
Qed.
Ltac some_digits := constructor; [eexists; split; [vm_compute; reflexivity|lia]|try constructor].
Lemma map1_shown : shows U8 map1 mv1 (T "{1: [-2.5, 5], -7: []}").
Proof.
  assert (HS : significand 10 (T "2.5")).
  { exists (T "2"), (T "5"). split; [right; reflexivity|]. split; [some_digits|split; [some_digits|discriminate]]. }
  assert (HI : significand 10 (T "5")).
  { exists (T "5"), []. split; [left; auto|]. split; [some_digits|split; [constructor|discriminate]]. }
  assert (D1 : prints (F := numbers) U8 double None (SVFloat (Fraction true 25 10)) (T "-" ++ T "2.5")).
  { apply (prints_double true); [constructor|exists 2; split; [reflexivity|lia]|exact HS|vm_compute; reflexivity]. }
  assert (D2 : prints (F := numbers) U8 double None (SVFloat (Fraction false 5 1)) ([] ++ T "5")).
  { apply (prints_double false); [constructor|exists 5; split; [reflexivity|lia]|exact HI|vm_compute; reflexivity]. }
  assert (I : forall v, in_range true 32 v -> shows (F := numbers) U8 (SLeaf int) (VLeaf (SVInt v)) (print_signed false 10 v)).
  { intros v Hv. apply sh_element; [exact I|]. apply pr_int; [reflexivity|unfold type_ok; cbn; auto 10|exact Hv]. }
  assert (I1 : in_range true 32 1) by (unfold in_range; cbn; lia). assert (I7 : in_range true 32 (-7)) by (unfold in_range; cbn; lia).
  assert (V : shows (F := numbers) U8 (vector_of 100 (SLeaf double)) (VSeq [VLeaf (SVFloat (Fraction true 25 10)); VLeaf (SVFloat (Fraction false 5 1))]) (T "[-2.5, 5]")).
  { apply (sh_vector U8 100 (SLeaf double) _ [T "-" ++ T "2.5"; [] ++ T "5"]); [cbn; lia|]. repeat constructor; assumption. }
  assert (E : shows (F := numbers) U8 (vector_of 100 (SLeaf double)) (VSeq []) (T "[]")).
  { apply (sh_vector U8 100 (SLeaf double) [] []); [cbn; lia|constructor]. }
  apply (sh_map U8 100 (SLeaf int) (vector_of 100 (SLeaf double)) _ [print_signed false 10 1 ++ [58; 32] ++ T "[-2.5, 5]"; print_signed false 10 (-7) ++ [58; 32] ++ T "[]"]);
    [cbn; lia|].
  constructor; [apply I, I1|exact V|]. constructor; [apply I, I7|exact E|]. constructor.
Qed.
Lemma tuple1_shown : shows U8 tuple1 tv1 (T "(true, 0xbeef)").
Proof.
  exact (sh_tuple U8 [SLeaf TBool; SLeaf TPointer] _ _
    (sa_cons U8 _ _ _ _ _ _ (sh_element U8 TBool _ _ I (pr_bool U8 None true (or_introl eq_refl)))
      (sa_cons U8 _ _ _ _ _ _ (sh_element U8 TPointer _ _ I (pr_pointer U8 None 48879 false (or_introl eq_refl) ltac:(lia))) (sa_nil U8)))).
Qed.
Example C38_printed_ex : forall rx,
  (bracketed map1 /\ shows U8 map1 mv1 (T "{1: [-2.5, 5], -7: []}"))
  /\ shape_scan rx classic string_src map1 specs_default (T "{1: [-2.5, 5], -7: []}!") = Ok (mv1, T "!")
  /\ shape_scan rx classic string_src tuple1 specs_default (T "(true, 0xbeef)!") = Ok (tv1, T "!").
Proof.
  intros rx. split; [split; [exact I|exact map1_shown]|].
  split; vm_compute; reflexivity.
Qed.
(** Hexadecimal ints are read with 'x', in any layout: "<beef ;-1>". *)
Example C38_elements_ex : forall rx,
  let p := Punct (T "<") (T ">") (T ";") in let sp := mean U8 (Desc None None None None false (Some (TyLetter 120))) in
  wrote (custom_src string_src) (element_text (F := numbers) U8) delimiter sp (SSeq 9 p (SLeaf int)) (VSeq [VLeaf (SVInt 48879); VLeaf (SVInt (-1))]) (T "<beef ;-1>")
  /\ shape_scan (F := numbers) rx classic string_src (SSeq 9 p (SLeaf int)) sp (T "<beef ;-1>>")
     = Ok (VSeq [VLeaf (SVInt 48879); VLeaf (SVInt (-1))], T ">").
Proof.
  intros rx p sp. split; [|vm_compute; reflexivity].
  assert (IT : forall v, in_range true 32 v -> wrote (custom_src string_src) (element_text (F := numbers) U8) delimiter sp (SLeaf int) (VLeaf (SVInt v)) (print_signed false 16 v)).
  { intros v Hv. constructor. split; [exact I|]. exists (Some 120). split; [repeat split|]. apply pr_int; [reflexivity|unfold type_ok; cbn; auto 10|exact Hv]. }
  assert (B : forall a c t, In a [[]; [62]] -> In c [98; 45] -> begins (custom_src string_src) a (c :: t)).
  { intros a c t Ha Hc. exists c, t. assert (Hc' : c = 98 \/ c = 45) by (cbn in Hc; lia).
    repeat split.
    - unfold scalar. lia.
    - right. lia.
    - destruct Hc' as [->| ->]; reflexivity.
    - destruct Hc' as [->| ->]; reflexivity.
    - intros c0 a0 ->. cbn in Ha. destruct Ha as [Ha|[Ha|[]]]; [discriminate|]. injection Ha as <- _. cbn. lia. }
  apply (w_seq (custom_src string_src) (element_text (F := numbers) U8) delimiter sp 9 p (SLeaf int) _ (T "beef ;-1")).
  - right. exists 60, []. repeat split; lia.
  - exists 62, []. repeat split; try lia. unfold delimiter, float_char, payload_char. lia.
  - exists 59, []. repeat split; try lia. unfold delimiter, float_char, payload_char. lia.
  - discriminate.
  - cbn. lia.
  - assert (W1 : spaces (custom_src string_src) [32]) by (constructor; [|constructor]; split; [split; [unfold scalar; lia|right; lia]|reflexivity]).
    apply (wi_some (custom_src string_src) (element_text (F := numbers) U8) delimiter (T ";") (T ">") sp _ _ _ _ [] [32] (T "beef") (T ";-1")); trivial.
    + constructor.
    + apply (IT 48879). unfold in_range; cbn; lia.
    + apply B; cbn; auto.
    + apply (wm_some (custom_src string_src) (element_text (F := numbers) U8) delimiter (T ";") sp _ _ _ _ [] [] (T "-1") []); [constructor|constructor| | |constructor].
      * apply (IT (-1)). unfold in_range; cbn; lia.
      * apply B; cbn; auto.
Qed.
(** In a format string: "m: {};{}{:>4}". *)
Definition ts2 : list token := [Lit 109; Lit 58; Lit 32; Field None None; Lit 59; Field None None; Spec None (Some ARight) (Some (T "4")) None].
Definition items2 : items_list :=
  [(TShape map1, mv1, T "{1: [-2.5, 5], -7: []}"); (TShape tuple1, tv1, T "(true, 0xbeef)"); (TScalar int, Leaf (SVInt (-42)), T "-42")].
Example C66_ranges_ex : forall rx,
  uniform ts2 /\ wf_tokens U8 (writable U8 items2 (rb_of narrow)) ts2 0
  /\ index_ok 3 ts2 0 [] = true /\ Forall (fun i => printable (fst (fst i))) items2 /\ clear U8 items2 (T "!") ts2 0 false
  /\ render U8 ts2 = T "m: {};{}{:>4}"
  /\ printed items2 (T "!") ts2 0 = T "m: {1: [-2.5, 5], -7: []};(true, 0xbeef) -42!"
  /\ scan_back rx items2 ts2 (T "!") = Ok ([(0, mv1); (1, tv1); (2, Leaf (SVInt (-42)))], T "!").
Proof.
  intros rx.
  split; [left; cbn; intros id d H; repeat (destruct H as [H|H]; [congruence|]); contradiction|].
  split; [|split; [reflexivity|split; [repeat constructor|split; [|split; [vm_compute; reflexivity|split; vm_compute; reflexivity]]]]].
  - cbn [wf_gtokens ts2]. unfold wf_id.
    repeat match goal with
    | |- _ /\ _ => split
    | |- forall d', Some _ = Some d' -> _ =>
        intros d' E; injection E as <-; intros a x b Ha; injection Ha as <- <- <-; split; [reflexivity|split; [wf_desc_tac|left; reflexivity]]
    | |- forall d', None = Some d' -> _ => intros d' E; discriminate E
    end; try exact I; cbn; lia.
  - cbn [clear ts2]. cbv [item index items2 nth_error Z.to_nat Pos.to_nat Pos.iter_op Init.Nat.add Z.add Pos.add Pos.succ].
    split; [reflexivity|]. split; [exact I|]. split; [exact map1_shown|].
    split; [reflexivity|]. split; [exact I|]. split; [exact tuple1_shown|].
    split.
    { replace (T "-42") with (print_signed false 10 (-42)) by (vm_compute; reflexivity). apply pr_int; [reflexivity|unfold type_ok; cbn; auto 10|unfold in_range; cbn; lia]. }
    split; [clear_tac ltac:(cbn [ends letter]; intros base [= <-]; split; [intros (q & E & _); discriminate E|discriminate])|].
    discriminate.
Qed.
