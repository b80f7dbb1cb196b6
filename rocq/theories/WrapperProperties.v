(** Properties of scanners that derive from other scanners: C75; of discarded ranges and user
    types: C59. *)
From Coq Require Import String.
From Verif Require Import Prelude UnicodeModel ReadModel ReadProofs SpecsModel WidthModel FormatModel FormatProofs ArgsModel
  SpecsInvProofs IntModel ArgReaderModel ScalarModel StringModel FloatModel RangesModel VscanModel VscanProperties
  LocaleModel LocaleSpec LocaleProofs LocaleProperties DiscardProofs DiscardProperties ValueMapProofs WrapperModel WrapperProofs.
Import Coq.Strings.String.StringSyntax.
Local Open Scope string_scope.
Local Open Scope list_scope.
Local Open Scope Z_scope.

Section C75.
Context {F U : Type} (rx : regex_engine) (cf : config).
Notation items := (list (item F U)).
(** The same arguments, each of the type whose scanner is derived from. *)
Definition unwrapped (its : items) : items :=
  map (fun it => match it with
                 | Own t | Wraps t _ => Own t
                 | User sc | WrapsUser sc _ => User sc
                 end) its.
(** What the derived scanners make of the values. *)
Definition wrapped (its : items) (l : list (Z * (svalue F + U))) : list (Z * (svalue F + U)) :=
  map (fun '(i, v) => (i, match nth_error its (Z.to_nat i), v with
                          | Some (Wraps _ w), inl x => inr (w x)
                          | Some (WrapsUser _ w), inr x => inr (w x)
                          | _, _ => v
                          end)) l.
(** Only scanners of characters of the type of the source, integers, floats and strings can be
    derived from (others do not link); a user scanner must parse the same at compile time and
    at run time, and within the format string. *)
Definition derivable (e : enc) (it : item F U) : Prop :=
  match it with
  | Wraps (TInt _ _) _ | Wraps (TString _ _) _ | Wraps (TFloat _ _) _ => True
  | Wraps (TChar k old _) _ => (if enc_eqb e U8 then k = KChar else k = KWchar) /\ old = 0
  | Wraps _ _ => False
  | Own _ => True
  | User sc | WrapsUser sc _ =>
      forall f p, sc_check sc f = Ok p -> (exists a, f = a ++ p) /\ exists o, sc_parse sc f = Ok (p, o)
  end.
Definition builtin_typed (it : item F U) : Prop :=
  match it with
  | Own t | Wraps t _ => ~ In (scalar_arg_type t) [NoneType; CustomType; NarrowRegexMatchesType; WideRegexMatchesType]
  | _ => True
  end.
Definition no_lone_width_in (its : items) (format : list Z) : Prop :=
  forall f t w p sp, spec_at format f -> In (Wraps t w) its ->
  parse_format_specs cf (scalar_arg_type t) f (SS specs_default false) = Ok (p, SS sp false) -> width sp = 0 \/ precision sp <> 0.
(** Success, with the same characters read and the same values, wrapped; or failure with the
    same error, except that invalid_literal may be invalid_format_string. *)
Definition as_if_unwrapped (its : items) (x y : outcome (list (Z * (svalue F + U)) * list Z)) : Prop :=
  match x with
  | Ok (l, rest) => y = Ok (wrapped its l, rest)
  | Err InvalidLiteral => y = Err InvalidLiteral \/ y = Err InvalidFormatString
  | Err e => y = Err e
  | UB => y = UB
  | OutOfFuel => y = OutOfFuel
  end.

Lemma derivable_ok e its : Forall (derivable e) its -> Forall builtin_typed its -> Forall (item_ok e) its.
Proof.
  intros H1 H2. induction H1 as [|it its H _ IH]; [constructor|]. inversion H2 as [|? ? Hs Hr]; subst. constructor; [|auto]. clear - H Hs.
  assert (HB : forall t : scalar_type F, ~ In (scalar_arg_type t) [NoneType; CustomType; NarrowRegexMatchesType; WideRegexMatchesType] -> scalar_arg_type t <> CustomType /\ scalar_typed t).
  { intros t Ht. cbn [In] in Ht. unfold scalar_typed, no_regex. intuition congruence. }
  destruct it as [t|t w|sc|sc w]; cbn [item_ok builtin_typed] in *; auto.
  - destruct (HB t Hs) as [Hc Ht]. split; [exact Hc|]. split; [exact Ht|].
    destruct t as [t a| |k old a| |d a|f a]; cbn [derivable discardable] in *; try tauto. destruct e; cbn [enc_eqb] in H; destruct H as [-> ->]; split; congruence.
Qed.
Lemma unwrapped_bare its : unwrapped its = map bare its.
Proof. apply map_ext. intros []; reflexivity. Qed.
Lemma wrapped_wrap its l : wrapped its l = map (fun q => (fst q, wrap_at its (fst q) (snd q))) l.
Proof.
  apply map_ext. intros [i v]. unfold wrap_at, wrap. cbn [fst snd]. destruct (nth_error its (Z.to_nat i)) as [[]|], v; reflexivity.
Qed.

(** scan with derived types, of a format string that is accepted for the types they derive
    from: as with these.  Without a locale, or with one if no field has 'L'; from a source that
    is not contiguous, or with no width without a precision. *)
Theorem C75_partial : forall contiguous borrowed global l r its format source,
  Forall (derivable (s_enc r)) its -> Forall builtin_typed its ->
  check_items rx cf contiguous borrowed global r (unwrapped its) format = Ok tt ->
  l = None \/ (units (c_enc cf) format /\ no_local_field (c_enc cf) format) ->
  s_contig r = false \/ no_lone_width_in its format ->
  as_if_unwrapped its (scan_items rx cf contiguous borrowed global l r (unwrapped its) format source)
    (scan_items rx cf contiguous borrowed global l r its format source).
Proof.
  intros contiguous borrowed global l r its format source H1 H2 HC HL HW. rewrite unwrapped_bare in *.
  assert (HR := wrapped_vscan rx cf contiguous borrowed global l r its format (derivable_ok _ _ H1 H2)).
  assert (HR' : follows_result (wrap_at its) (scan_items rx cf contiguous borrowed global l r (map bare its) format source)
    (scan_items rx cf contiguous borrowed global l r its format source)).
  { apply HR; [| |exact HC].
    - destruct HL as [->|HL]; [left; reflexivity|right; exact HL].
    - destruct HW as [HW|HW]; [congruence|]. intros _ f t w p sp (a & ds & EF & Hds) Hin EP. apply (HW f t w p sp); auto.
      exists a, ds. split; [exact EF|]. eapply Forall_impl; [|exact Hds]. unfold is_digit. lia. }
  unfold follows_result in HR'. unfold as_if_unwrapped.
  destruct (scan_items rx cf contiguous borrowed global l r (map bare its) format source) as [[lg rest]|[]| |]; auto.
Qed.
(** Compile-time checking accepts the same format strings with derived types, unless a field
    without format-spec is followed by '<', '>' or '^', or string_view is derived from and could
    not be read. *)
Theorem C75_checked_partial : forall contiguous borrowed global r its format e,
  Forall (derivable e) its -> Forall builtin_typed its ->
  Forall (fun it => match it with Own _ | Wraps _ _ => True | _ => False end) its ->
  (forall c f, close_at format (c :: f) -> ~ In c [60; 62; 94]) ->
  contiguous && borrowed = true \/ Forall (fun it => match it with Wraps t _ => is_view_type (scalar_arg_type t) = false | _ => True end) its ->
  check_items rx cf contiguous borrowed global r its format = check_items rx cf contiguous borrowed global r (unwrapped its) format.
Proof.
  intros contiguous borrowed global r its format e H1 H2 H3 HF HV.
  set (d := fun it : item F U => match it with Wraps t _ => DiscardModel.Discard t | Own t => DiscardModel.Keep t | _ => DiscardModel.Keep TBool end).
  assert (HD := C59_checked_partial cf (map d its) format contiguous borrowed e).
  assert (E : forall js, Forall (fun it => match it with Own _ | Wraps _ _ => True | _ => False end) js ->
    check_items rx cf contiguous borrowed global r js format = DiscardModel.check_items cf contiguous borrowed (map d js) format).
  { intros js Hj. unfold check_items, DiscardModel.check_items.
    replace (map DiscardModel.item_type (map d js)) with (map item_type js) by (rewrite map_map; apply map_ext_in; intros it Hin; assert (X := proj1 (Forall_forall _ _) Hj it Hin); destruct it; try contradiction; reflexivity).
    apply check_ext. intros id f. unfold item_parse, DiscardModel.item_parse. rewrite nth_error_map. destruct (nth_error js (Z.to_nat id)) as [it|] eqn:EN; [|reflexivity].
    assert (X := proj1 (Forall_forall _ _) Hj it (nth_error_In _ _ EN)). destruct it; try contradiction; reflexivity. }
  rewrite E by exact H3. rewrite E.
  - rewrite HD.
    + f_equal. unfold undiscarded, unwrapped. rewrite !map_map. apply map_ext_in. intros it Hin. assert (X := proj1 (Forall_forall _ _) H3 it Hin). destruct it; try contradiction; reflexivity.
    + apply Forall_map. eapply Forall_impl; [|exact H1]. intros [t|t w|sc|sc w] H; cbn [d linkable]; try exact I. exact H.
    + apply Forall_map. rewrite Forall_forall in *. intros it Hin. assert (X := H3 it Hin). assert (Y := H2 it Hin). destruct it; try contradiction; exact Y.
    + exact HF.
    + destruct HV as [HV|HV]; [left; exact HV|right]. apply Forall_map. eapply Forall_impl; [|exact HV]. intros [t|t w|sc|sc w] H; cbn [d]; try exact I. exact H.
  - unfold unwrapped. apply Forall_map. eapply Forall_impl; [|exact H3]. intros [] H; auto.
Qed.
(** Scanners derived from those of ranges, tuples, dates, times and user types: for any format
    string, accepted or not, any source and locale, errors included. *)
Theorem C75_user : forall contiguous borrowed global l r its format source,
  (forall t w, ~ In (Wraps t w) its) ->
  scan_items rx cf contiguous borrowed global l r its format source
  = ('(log, rest) <- scan_items rx cf contiguous borrowed global l r (unwrapped its) format source ;; Ok (wrapped its log, rest)).
Proof.
  intros contiguous borrowed global l r its format source H. rewrite unwrapped_bare, user_map.
  - destruct (scan_items rx cf contiguous borrowed global l r (map bare its) format source) as [[lg rest]| | |]; try reflexivity.
    cbn [omap bind fst snd]. rewrite wrapped_wrap. reflexivity.
  - apply Forall_forall. intros [] Hin; auto. exact (H _ _ Hin).
Qed.
(** They are accepted at compile time with the same format strings. *)
Theorem C75_user_checked : forall contiguous borrowed global r its format,
  (forall t w, ~ In (Wraps t w) its) ->
  check_items rx cf contiguous borrowed global r its format = check_items rx cf contiguous borrowed global r (unwrapped its) format.
Proof.
  intros contiguous borrowed global r its format H. unfold check_items.
  assert (HP : forall id f, item_parse rx cf contiguous borrowed global r its id f = item_parse rx cf contiguous borrowed global r (unwrapped its) id f).
  { intros id f. unfold item_parse, unwrapped. rewrite nth_error_map. destruct (nth_error its (Z.to_nat id)) as [[]|] eqn:E; try reflexivity.
    exfalso. eapply H. eapply nth_error_In. exact E. }
  assert (HT : map item_type (unwrapped its) = map item_type its).
  { unfold unwrapped. rewrite map_map. apply map_ext_in. intros [] Hin; try reflexivity. exfalso. exact (H _ _ Hin). }
  rewrite HT. apply check_ext. exact HP.
Qed.
End C75.

(** discard of ranges, of tuples, of dates and times and of user types: exactly as if the value
    were not discarded. *)
Section C59.
Context {F V : Type} (rx : regex_engine) (cf : config).
Definition kept_or_not (d : bool) (sc : scanner V) : item F (option V) :=
  if d then WrapsUser (derived Some sc) (fun _ => None) else User (derived Some sc).
Definition discarding (args : list (scalar_type F + bool * scanner V)) : list (item F (option V)) :=
  map (fun a => match a with inl t => Own t | inr (d, sc) => kept_or_not d sc end) args.
Definition keeping (args : list (scalar_type F + bool * scanner V)) : list (item F (option V)) :=
  map (fun a => match a with inl t => Own t | inr (d, sc) => kept_or_not false sc end) args.
Definition dropped (args : list (scalar_type F + bool * scanner V)) (l : list (Z * (svalue F + option V))) : list (Z * (svalue F + option V)) :=
  map (fun '(i, v) => (i, match nth_error args (Z.to_nat i), v with Some (inr (true, _)), inr _ => inr None | _, _ => v end)) l.
Theorem C59_ranges : forall contiguous borrowed global l r args format source,
  scan_items rx cf contiguous borrowed global l r (discarding args) format source
  = ('(log, rest) <- scan_items rx cf contiguous borrowed global l r (keeping args) format source ;; Ok (dropped args log, rest))
  /\ check_items rx cf contiguous borrowed global r (discarding args) format = check_items rx cf contiguous borrowed global r (keeping args) format.
Proof.
  intros contiguous borrowed global l r args format source.
  assert (HN : forall t w, ~ In (Wraps t w) (discarding args)).
  { intros t w Hin. apply in_map_iff in Hin. destruct Hin as ([?|[[|] ?]] & E & _); discriminate. }
  assert (EU : unwrapped (discarding args) = keeping args).
  { unfold unwrapped, discarding, keeping. rewrite map_map. apply map_ext. intros [?|[[|] ?]]; reflexivity. }
  rewrite (C75_user rx cf contiguous borrowed global l r _ format source HN), (C75_user_checked rx cf contiguous borrowed global r _ format HN), EU.
  split; [|reflexivity]. destruct (scan_items _ _ _ _ _ _ _ (keeping args) _ _) as [[lg rest]| | |]; try reflexivity. cbn [bind]. f_equal. f_equal.
  unfold wrapped, dropped. apply map_ext. intros [i v]. unfold discarding. rewrite nth_error_map. destruct (nth_error args (Z.to_nat i)) as [[?|[[|] ?]]|], v; reflexivity.
Qed.
(** The scanner of a range of scalars is one that parses the same at both times. *)
Theorem C75_range_scanner : forall contiguous borrowed global r (sh : shape (scalar_type F)) f p,
  (forall t, shape_type sh = Some t -> t <> NarrowRegexMatchesType /\ t <> WideRegexMatchesType) ->
  sc_check (range_scanner rx cf contiguous borrowed global r sh) f = Ok p ->
  (exists a, f = a ++ p) /\ exists o, sc_parse (range_scanner rx cf contiguous borrowed global r sh) f = Ok (p, o).
Proof. exact (range_parses rx cf). Qed.
End C59.
Print Assumptions C75_partial.
Print Assumptions C75_checked_partial.
Print Assumptions C75_user.
Print Assumptions C75_user_checked.
Print Assumptions C75_range_scanner.
Print Assumptions C59_ranges.

(** * Examples *)
Definition item75 := item nat (value (svalue nat)).
Definition run75 (global : locale) (l : locale_ref) (r : src) (its : list item75) (f s : list Z) :=
  scan_items no_rx narrow true true global l r its f s.
(** integer_wrapper; a type that holds a vector and two more values. *)
Definition integer_wrapper : item75 := Wraps int32 (fun v => VTup [VLeaf v]).
Definition ints (global : locale) (r : src) : scanner (value (svalue nat)) :=
  range_scanner no_rx narrow true true global r (vector_of 10 (SLeaf int32)).
Definition vector_wrapper (global : locale) (r : src) : item75 := WrapsUser (ints global r) (fun v => VTup [v; v]).
Example C75_ex :
  let its := [integer_wrapper; Own int32; vector_wrapper classic string_src] in
  let f := T "{:x}, {} {:o}" in
  Forall (derivable U8) its /\ Forall builtin_typed its
  /\ check_items no_rx narrow true true classic string_src (unwrapped its) f = Ok tt
  /\ no_lone_width_in narrow its f
  /\ run75 classic None string_src (unwrapped its) f (T "ff, 7 [10, 11]!")
     = Ok ([(0, inl (SVInt 255)); (1, inl (SVInt 7)); (2, inr (VSeq [VLeaf (SVInt 8); VLeaf (SVInt 9)]))], T "!")
  /\ run75 classic None string_src its f (T "ff, 7 [10, 11]!")
     = Ok ([(0, inr (VTup [VLeaf (SVInt 255)])); (1, inl (SVInt 7));
            (2, inr (VTup [VSeq [VLeaf (SVInt 8); VLeaf (SVInt 9)]; VSeq [VLeaf (SVInt 8); VLeaf (SVInt 9)]]))], T "!")
  /\ run75 classic None string_src its f (T "gg, 7 [10, 11]!") = run75 classic None string_src (unwrapped its) f (T "gg, 7 [10, 11]!").
Proof.
  cbv zeta. split; [|split; [repeat constructor; cbn; intuition discriminate|split; [vm_compute; reflexivity|split; [|repeat split; vm_compute; reflexivity]]]].
  - constructor; [exact I|]. constructor; [exact I|]. constructor; [|constructor]. intros f p H. apply (C75_range_scanner no_rx narrow true true classic string_src (vector_of 10 (SLeaf int32))); try exact H; intros t [= <-]; split; discriminate.
  - intros f t w p sp Hf Ht. apply specs_in_all in Hf. vm_compute in Hf. cbn [In] in Ht.
    destruct Ht as [Ht|[Ht|[Ht|[]]]]; inversion Ht; subst t; destruct Hf as [<-|[<-|[]]]; vm_compute; intros E; inversion E; auto; right; discriminate.
Qed.
Example C75_checked_ex :
  let its := [integer_wrapper; Own int32] in
  check_items no_rx narrow false false classic string_src its (T "{:i}; {}") = Ok tt
  /\ check_items no_rx narrow false false classic string_src its (T "{:s}; {}") = Err InvalidFormatString
  /\ forall c f, close_at (T "{:i}; {}") (c :: f) -> ~ In c [60; 62; 94].
Proof.
  cbv zeta. split; [vm_compute; reflexivity|]. split; [vm_compute; reflexivity|]. intros c f (a & ds & E & _) Hc.
  assert (HI : In c (T "{:i}; {}")) by (rewrite E; apply in_or_app; right; right; apply in_or_app; right; right; left; reflexivity).
  vm_compute in HI. cbn [In] in Hc. intuition congruence.
Qed.
(** With a format string that compile-time checking would refuse. *)
Example C75_user_ex :
  let its := [vector_wrapper finnish wide_src; Own int32] in
  (forall t w, ~ In (Wraps t w) its)
  /\ run75 finnish (Some classic) wide_src its (T "{1:x} {0:L}") (T "ff [1.234]")
     = Ok ([(1, inl (SVInt 255)); (0, inr (VTup [VSeq [VLeaf (SVInt 1234)]; VSeq [VLeaf (SVInt 1234)]]))], []).
Proof. cbv zeta. split; [|vm_compute; reflexivity]. intros t w [H|[H|[]]]; discriminate. Qed.
Example C59_ranges_ex :
  let a := [inr (true, ints classic string_src); inl int32; inr (false, ints classic string_src)] in
  scan_items no_rx narrow true true classic None string_src (discarding a) (T "{} {} {}") (T "[1,2] 3 [4]")
  = Ok ([(0, inr None); (1, inl (SVInt 3)); (2, inr (Some (VSeq [VLeaf (SVInt 4)])))], []).
Proof. vm_compute. reflexivity. Qed.

(** The locale of the call is not that of the wrapper: less is read. *)
Theorem C75_locale_refuted : exists global loc f s rest,
  rest <> []
  /\ run75 global (Some loc) string_src (unwrapped [integer_wrapper]) f s = Ok ([(0, inl (SVInt 1234))], [])
  /\ run75 global (Some loc) string_src [integer_wrapper] f s = Ok ([(0, inr (VTup [VLeaf (SVInt 1)]))], rest).
Proof. exists classic, finnish, (T "{:L}"), (T "1.234"), (T ".234"). split; [discriminate|]. repeat split; vm_compute; reflexivity. Qed.
(** With a width: the byte 0x10 again. *)
Theorem C75_width_refuted : exists f s,
  check_items no_rx narrow true true classic string_src [integer_wrapper] f = Ok tt
  /\ run75 classic None string_src (unwrapped [integer_wrapper]) f s = Ok ([(0, inl (SVInt 18))], [])
  /\ run75 classic None string_src [integer_wrapper] f s = Err InvalidScannedValue.
Proof. exists (T "{:4i}"), (16 :: T "x12"). repeat split; vm_compute; reflexivity. Qed.
(** "{}<" is accepted at compile time for int, but not for the wrapper. *)
Theorem C75_align_refuted : exists f s,
  check_items no_rx narrow true true classic string_src (unwrapped [integer_wrapper]) f = Ok tt
  /\ check_items no_rx narrow true true classic string_src [integer_wrapper] f = Err InvalidFormatString
  /\ run75 classic None string_src [integer_wrapper] f s = Ok ([(0, inr (VTup [VLeaf (SVInt 5)]))], []).
Proof. exists (T "{}<"), (T "5<"). repeat split; vm_compute; reflexivity. Qed.
Print Assumptions C75_locale_refuted.
Print Assumptions C75_width_refuted.
Print Assumptions C75_align_refuted.
