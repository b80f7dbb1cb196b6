(** The ways to read one integer agree: C58. *)
From Verif Require Import Prelude UnicodeModel UnicodeSpec ReadModel ReadProofs SpecsModel FormatModel
  IntModel IntSpec IntProofs IntProperties VscanModel VscanProperties ArgsModel ArgReaderModel ScalarModel
  StringModel ScalarProperties RangesSpec RangesIntProofs.
Import Coq.Strings.String.StringSyntax.
Local Open Scope Z_scope.

(** Format strings and the base they stand for: documented types b, B, o, d, x, X; i: any
    base, told by the prefix. *)
Definition spelled : list (list Z * Z) :=
  [(T "{}", 10); (T "{:d}", 10); (T "{:x}", 16); (T "{:X}", 16); (T "{:o}", 8); (T "{:b}", 2); (T "{:B}", 2); (T "{:i}", 0);
   (T "{0}", 10); (T "{0:d}", 10); (T "{0:x}", 16); (T "{0:X}", 16); (T "{0:o}", 8); (T "{0:b}", 2); (T "{0:B}", 2); (T "{0:i}", 0)].
Definition spelled_unsigned : list (list Z * Z) := [(T "{:u}", 10); (T "{0:u}", 10)].
Definition int_types : list arg_type :=
  [SCharType; ShortType; IntType; LongType; LLongType; UCharType; UShortType; UIntType; ULongType; ULLongType].

Definition of_base (ty : ptype) : specs :=
  Specs 0 0 fill_default ty (charset_literals specs_default) false false [] 0 0 ANone false.

Definition letters : list (Z * ptype) :=
  [(100, PIntDecimal); (120, PIntHex); (88, PIntHex); (111, PIntOctal); (98, PIntBinary); (66, PIntBinary); (105, PIntGeneric);
   (117, PIntUnsignedDecimal)].
Section Formats.
Context {V : Type} (cf : config) (Hc : c_enc cf = U8).
Definition one (x : outcome (V * list Z)) : outcome (list (Z * V) * list Z) := '(v, s) <- x ;; Ok ([(0, v)], s).

(** One step of the parser at the start of a field. *)
Lemma loop_field {St} f (h : handler St) begin it st :
  parse_loop (S f) h begin (123 :: it) st
  = (st <- h_literal h (between begin (123 :: it)) st ;;
     '(p, st) <- parse_replacement_field h (123 :: it) st ;;
     if h_failed h st then Ok st else parse_loop f h p p st).
Proof. reflexivity. Qed.
Definition close {St} (h : handler St) (x : list Z * St) : outcome (list Z * St) :=
  let '(s, st) := x in
  match s with
  | [] => st <- h_error h st ;; Ok ([], st)
  | d :: s2 => if negb (d =? 125) then st <- h_error h st ;; Ok (s, st) else Ok (s2, st)
  end.
Lemma auto_field {St} (h : handler St) c s st :
  parse_replacement_field h (123 :: 58 :: c :: s) st
  = ('(id, st) <- h_auto_id h st ;; x <- h_specs h id (c :: s) st ;; close h x).
Proof. unfold parse_replacement_field. cbn [Z.eqb Pos.eqb]. unfold parse_arg_id. cbn [Z.eqb Pos.eqb negb andb].
  destruct (h_auto_id h st) as [[id st']| | |]; reflexivity. Qed.
Lemma zero_field {St} (h : handler St) c s st :
  parse_replacement_field h (123 :: 48 :: 58 :: c :: s) st
  = ('(id, st) <- h_id h 0 st ;; x <- h_specs h id (c :: s) st ;; close h x).
Proof. unfold parse_replacement_field. cbn [Z.eqb Pos.eqb]. unfold parse_arg_id, do_parse_arg_id. cbn [Z.eqb Pos.eqb negb andb orb Z.ltb Z.compare Pos.compare Pos.compare_cont bind].
  destruct (h_id h 0 st) as [[id st']| | |]; reflexivity. Qed.

Lemma specs_visit (a : arg V) c ty pctx nx s : In (ar_type a) int_types ->
  In (c, ty) letters ->
  on_format_specs V cf [a] 0 [c; 125] (St V None 0 [] nx false pctx s [])
  = (st <- finish_visit V 0 (ar_specs a (of_base ty) s) (St V None 1 [] nx false [125] s []) ;; Ok ([125], st)).
Proof.
  intros Ht Hf. unfold on_format_specs.
  assert (E1 : set_arg_as_visited V [a] 0 (note_missing V [a] 0 (St V None 0 [] nx false pctx s [])) = Ok (St V None 1 [] nx false pctx s [])) by reflexivity.
  rewrite E1. cbn [bind].
  assert (E2 : parse_format_specs cf (ar_type a) [c; 125] (SS specs_default false) = Ok ([125], SS (of_base ty) false)).
  { destruct cf as [e ? ? ? ?]. cbn in Hc. subst e. cbn [In int_types letters] in Ht, Hf.
    repeat (destruct Hf as [Hf|Hf]; [injection Hf as <- <-|]); [..|contradiction];
      repeat (destruct Ht as [<-|Ht]; [vm_compute; reflexivity|]); contradiction. }
  assert (E3 : get_arg V [a] 0 = Some a) by reflexivity. rewrite E3.
  assert (E4 : arg_eqb (ar_type a) CustomType = false).
  { cbn [In int_types] in Ht. repeat (destruct Ht as [<-|Ht]; [reflexivity|]). contradiction. }
  rewrite E4, E2. reflexivity.
Qed.
Lemma vscan_spec (a : arg V) (c : Z) (explicit : bool) ty s : In (ar_type a) int_types ->
  In (c, ty) letters ->
  vscan V string_src cf [a] (123 :: (if explicit then [48] else []) ++ [58; c; 125]) s = one (ar_specs a (of_base ty) s).
Proof.
  intros Ht Hf. unfold vscan.
  replace (is_simple _) with false by (destruct explicit; reflexivity). cbn [andb].
  unfold vscan_parse_format_string, parse_format_string_impl.
  set (x := ar_specs a (of_base ty) s).
  assert (HS : forall pctx nx, on_format_specs V cf [a] 0 [c; 125] (St V None 0 [] nx false pctx s []) = _) by (intros; apply specs_visit; eassumption).
  fold x in HS.
  destruct explicit; cbn [app]; change (vscan_fuel V [a] _) with (S (pred (vscan_fuel V [a] (123 :: 58 :: c :: 125 :: nil)))) || change (vscan_fuel V [a] _) with (S (pred (vscan_fuel V [a] (123 :: 48 :: 58 :: c :: 125 :: nil))));
  rewrite loop_field; cbn [h_literal format_handler]; unfold between; rewrite Nat.sub_diag; cbn [firstn on_literal_text length literal_loop bind];
  [rewrite zero_field|rewrite auto_field]; cbn [h_id h_auto_id format_handler check_arg_id next_arg_id st_next init_state Z.ltb Z.compare bind h_specs];
  unfold on_literal_text; cbn [List.length literal_loop bind];
  match goal with |- context [on_format_specs _ _ _ _ _ ?st] => change st with (St V None 0 [] (-1) false (123 :: 48 :: 58 :: c :: 125 :: nil) s []) || change st with (St V None 0 [] 1 false (123 :: 58 :: c :: 125 :: nil) s []) end;
  rewrite HS; destruct x as [[v rest]| | |]; reflexivity.
Qed.
Lemma vscan_zero (a : arg V) s : (forall s, ar_plain a s = ar_default a s) ->
  vscan V string_src cf [a] (T "{0}") s = vscan V string_src cf [a] (T "{}") s.
Proof.
  intros Hp. change (vscan V string_src cf [a] (T "{}") s) with (one (ar_plain a s)). rewrite Hp.
  unfold vscan. change (is_simple (T "{0}")) with false. cbn [andb].
  unfold vscan_parse_format_string, parse_format_string_impl.
  change (T "{0}") with [123; 48; 125].
  change (vscan_fuel V [a] _) with (S (pred (vscan_fuel V [a] (123 :: 48 :: 125 :: nil)))).
  rewrite loop_field. change (h_literal _ _ _) with (Ok (init_state V [a] [123; 48; 125] s)). cbn [bind].
  match goal with |- context [parse_replacement_field ?h ?l ?q] =>
    change (parse_replacement_field h l q)
      with (st <- finish_visit V 0 (ar_default a s) (St V None 1 [] (-1) false [123; 48; 125] s []) ;; Ok (@nil Z, st)) end.
  destruct (ar_default a s) as [[v rest]| | |]; reflexivity.
Qed.
End Formats.

(** What the specs read, and what scan_int reads. *)
Lemma specs_scan_int t sep ty b s :
  In (ty, b) [(PIntDecimal, 10); (PIntHex, 16); (PIntOctal, 8); (PIntBinary, 2); (PIntGeneric, 0); (PIntUnsignedDecimal, 10)] ->
  (ty = PIntUnsignedDecimal -> it_signed t = false) ->
  arg_read_checked string_src (int_reader t sep) (of_base ty) s = scan_int t s b.
Proof.
  intros Hb Hu. unfold arg_read_checked.
  assert (E1 : rd_check (int_reader t sep) (of_base ty) = true).
  { cbn [In] in Hb. repeat (destruct Hb as [Hb|Hb]; [injection Hb as <- <-; reflexivity|]). contradiction. }
  assert (E2 : get_base (of_base ty) = Ok b).
  { cbn [In] in Hb. repeat (destruct Hb as [Hb|Hb]; [injection Hb as <- <-; reflexivity|]). contradiction. }
  rewrite E1. cbn [int_reader rd_skip rd_specs]. unfold arg_read. cbn [of_base precision Z.eqb negb].
  unfold impl_prefix. cbn [of_base align precision Z.eqb negb]. unfold skip_ws_all, need_width. cbn [of_base width precision Z.eqb negb orb].
  unfold scan_int. destruct (skip_classic_whitespace string_src s false) as [beg| | |]; [|reflexivity..]. cbn [bind].
  assert (E3 : int_read_specs string_src t (of_base ty) sep beg = int_read_default_with_base string_src t beg b).
  { unfold int_read_specs, int_read_default_with_base. rewrite E2. cbn [bind]. destruct (parse_integer_prefix string_src beg b) as [p| | |]; [|reflexivity..].
    cbn [bind]. replace (is_minus (pr_sign p) && _) with (negb (it_signed t) && is_minus (pr_sign p)); [reflexivity|].
    cbn [of_base type]. destruct (ptype_eqb ty PIntUnsignedDecimal) eqn:E.
    - rewrite Hu by (destruct ty; try discriminate; reflexivity). cbn. now rewrite andb_true_r.
    - rewrite orb_false_r. apply andb_comm. }
  rewrite E3. destruct (int_read_default_with_base string_src t beg b) as [[v it]| | |]; [|reflexivity..]. cbn [bind].
  unfold impl_postfix. cbn [of_base align width precision negb Z.eqb andb orb]. unfold check_widths. cbn [of_base width precision Z.eqb negb andb].
  destruct it; reflexivity.
Qed.

(** ** C58 *)
(** Any integer type, any bytes: scan<T> with a format string naming the base, and scan_int
    with that base, give the same value and rest, or the same error.  [a]: the code for the
    type; [cf], [rx], [names], [sep]: configuration, regular expression engine, locale. *)
Theorem C58_format : forall cf rx names sep t a fmt base source,
  c_enc cf = U8 -> In a int_types ->
  In (fmt, base) spelled \/ (In (fmt, base) spelled_unsigned /\ it_signed t = false) ->
  vscan bvalue string_src cf [builtin_arg rx names sep string_src (BInt t a)] fmt source
  = ('(v, rest) <- scan_int t source base ;; Ok ([(0, VInteger v)], rest)).
Proof.
  intros cf rx names sep t a fmt base source Hc Ha Hf.
  set (A := builtin_arg rx names sep string_src (BInt t a)).
  assert (HD : vscan bvalue string_src cf [A] (T "{}") source = ('(v, rest) <- scan_int t source 10 ;; Ok ([(0, VInteger v)], rest))).
  { change (vscan bvalue string_src cf [A] (T "{}") source) with ('(v, s) <- ar_plain A source ;; Ok ([(0, v)], s)).
    subst A. cbn [builtin_arg ar_plain]. unfold int_default, default_read, skip_ws_before_if_required, scan_int, int_read_default.
    destruct source as [|c source']; [reflexivity|].
    destruct (skip_classic_whitespace string_src (c :: source') false) as [beg| | |]; [|reflexivity..]. cbn [bind].
    destruct (int_read_default_with_base string_src t beg 10) as [[v rest]| | |]; reflexivity. }
  assert (HZ : vscan bvalue string_src cf [A] (T "{0}") source = vscan bvalue string_src cf [A] (T "{}") source).
  { apply vscan_zero. reflexivity. }
  assert (HL : forall c ty b ex, In (c, ty) letters ->
    In (ty, b) [(PIntDecimal, 10); (PIntHex, 16); (PIntOctal, 8); (PIntBinary, 2); (PIntGeneric, 0); (PIntUnsignedDecimal, 10)] ->
    (ty = PIntUnsignedDecimal -> it_signed t = false) ->
    vscan bvalue string_src cf [A] (123 :: (if ex : bool then [48] else []) ++ [58; c; 125]) source
    = ('(v, rest) <- scan_int t source b ;; Ok ([(0, VInteger v)], rest))).
  { intros c ty b ex H1 H2 H3. rewrite (vscan_spec cf Hc A c ex ty source Ha H1). subst A. cbn [builtin_arg ar_specs].
    rewrite (specs_scan_int t sep ty b source H2 H3). unfold one, tag. destruct (scan_int t source b) as [[v rest]| | |]; reflexivity. }
  assert (HL' : forall c ty b, In (c, ty) letters ->
    In (ty, b) [(PIntDecimal, 10); (PIntHex, 16); (PIntOctal, 8); (PIntBinary, 2); (PIntGeneric, 0); (PIntUnsignedDecimal, 10)] ->
    (ty = PIntUnsignedDecimal -> it_signed t = false) -> In (fmt, base) [([123; 58; c; 125], b); ([123; 48; 58; c; 125], b)] ->
    vscan bvalue string_src cf [A] fmt source = ('(v, rest) <- scan_int t source base ;; Ok ([(0, VInteger v)], rest))).
  { intros c ty b H1 H2 H3 [H|[H|[]]]; injection H as <- <-; [apply (HL c ty b false)|apply (HL c ty b true)]; assumption. }
  destruct Hf as [Hf|[Hf Hu]]; cbn [In spelled spelled_unsigned] in Hf;
  repeat (destruct Hf as [Hf|Hf];
    [first [injection Hf as <- <-; first [exact HD|rewrite HZ; exact HD]
           |eapply HL'; [..|cbn [In]; (left; exact Hf) || (right; left; exact Hf)]; cbn [In letters]; [tauto|tauto|try discriminate; auto]]|]);
  contradiction.
Qed.
Print Assumptions C58_format.
(** scan_value reads as scan_int in base 10. *)
Theorem C58_value : forall rx names sep t a source,
  vscan_value bvalue (builtin_arg rx names sep string_src (BInt t a)) source
  = ('(v, rest) <- scan_int t source 10 ;; Ok ([(0, VInteger v)], rest)).
Proof.
  intros rx names sep t a source. unfold vscan_value, scan_simple_single_argument. cbn [builtin_arg ar_plain].
  unfold int_default, default_read, skip_ws_before_if_required, scan_int, int_read_default.
  destruct source as [|c source']; [reflexivity|].
  destruct (skip_classic_whitespace string_src (c :: source') false) as [beg| | |]; [|reflexivity..]. cbn [bind].
  destruct (int_read_default_with_base string_src t beg 10) as [[v rest]| | |]; reflexivity.
Qed.
Print Assumptions C58_value.
Example C58_ex :
  let scan := vscan bvalue string_src narrow [builtin_arg (fun _ _ _ => UB) ([], []) 44 string_src (BInt (IT true 16) ShortType)] in
  In (T "{:x}", 16) spelled
  /\ scan_int (IT true 16) (T " -0x7fffg") 16 = Ok (-32767, T "g") /\ scan (T "{:x}") (T " -0x7fffg") = Ok ([(0, VInteger (-32767))], T "g")
  /\ scan_int (IT true 16) (T "0x8000") 16 = Err ValuePositiveOverflow /\ scan (T "{0:X}") (T "0x8000") = Err ValuePositiveOverflow
  /\ scan_int (IT true 16) (T "017x") 0 = Ok (15, T "x") /\ scan (T "{:i}") (T "017x") = Ok ([(0, VInteger 15)], T "x")
  /\ scan_int (IT true 16) (T "017x") 10 = Ok (17, T "x") /\ scan (T "{0}") (T "017x") = Ok ([(0, VInteger 17)], T "x").
Proof. split; [cbn [In spelled]; tauto|]. vm_compute. repeat split. Qed.
(** For signed types, u differs from base 10 on a minus sign; no format string names the
    other bases scan_int takes, r being rejected. *)
Theorem C58_unsigned_refuted : exists source,
  vscan bvalue string_src narrow [builtin_arg (fun _ _ _ => UB) ([], []) 44 string_src (BInt (IT true 32) IntType)] (T "{:u}") source
  <> ('(v, rest) <- scan_int (IT true 32) source 10 ;; Ok ([(0, VInteger v)], rest)).
Proof. exists (T "-1"). vm_compute. discriminate. Qed.
Print Assumptions C58_unsigned_refuted.
Theorem C58_arbitrary_base_refuted : exists source v,
  scan_int (IT true 32) source 36 = Ok (v, [])
  /\ vscan bvalue string_src narrow [builtin_arg (fun _ _ _ => UB) ([], []) 44 string_src (BInt (IT true 32) IntType)] (T "{:r36}") source
     = Err InvalidFormatString.
Proof. exists (T "zz"), 1295. split; vm_compute; reflexivity. Qed.
Print Assumptions C58_arbitrary_base_refuted.
