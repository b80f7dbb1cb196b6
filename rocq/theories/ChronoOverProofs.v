(** Scanning a date or time from two initial values. *)
From Verif Require Import Prelude UnicodeModel ReadModel SpecsModel FormatModel ChronoModel ChronoOverModel.
Local Open Scope Z_scope.

(** Outcomes related by [R]. *)
Definition rel {A B} (R : A -> B -> Prop) (x : outcome A) (y : outcome B) : Prop :=
  match x, y with
  | Ok a, Ok b => R a b
  | Err a, Err b => a = b
  | UB, UB | OutOfFuel, OutOfFuel => True
  | _, _ => False
  end.
Lemma rel_bind {A B A' B'} (R : A -> B -> Prop) (R' : A' -> B' -> Prop) x y f g :
  rel R x y -> (forall a b, R a b -> rel R' (f a) (g b)) -> rel R' (bind x f) (bind y g).
Proof. intros H HF. destruct x, y; cbn in *; try contradiction; auto. Qed.
Lemma rel_weaken {A B} (R R' : A -> B -> Prop) x y : (forall a b, R a b -> R' a b) -> rel R x y -> rel R' x y.
Proof. intros HW H. destruct x, y; cbn in *; auto. Qed.

(** ** The parser keeps a relation that the handler keeps *)
Section Parser.
Variable S1 S2 : Type.
Variable on1 : event -> S1 -> outcome S1.
Variable on2 : event -> S2 -> outcome S2.
Variable fine1 : S1 -> bool.
Variable fine2 : S2 -> bool.
(** [W] during the run, [F] at its end. *)
Variable W F : S1 -> S2 -> Prop.
(** After a conversion specifier the parser stops if there is an error. *)
Definition W' (a : S1) (b : S2) : Prop := W a b \/ (fine1 a = false /\ fine2 b = false /\ F a b).
Definition plain (ev : event) : bool := match ev with OnText _ | OnWhitespace | OnLocalized => true | _ => false end.
Hypothesis HW : forall ev a b, plain ev = true -> W a b -> rel W (on1 ev a) (on2 ev b).
Hypothesis HC : forall c sys a b, W a b -> rel W' (on1 (OnConv c sys) a) (on2 (OnConv c sys) b).
Hypothesis HE : forall a b, W a b -> rel F (on1 OnError a) (on2 OnError b).
Hypothesis HV : forall a b, W a b -> rel F (on1 OnVerify a) (on2 OnVerify b).
Hypothesis HF : forall a b, W a b -> fine1 a = fine2 b.
Hypothesis HN : forall a b, W a b -> fine1 a = false -> F a b.
Definition posn (R : S1 -> S2 -> Prop) (a : list Z * S1) (b : list Z * S2) : Prop := fst a = fst b /\ R (snd a) (snd b).

Lemma stop_rel p a b : W a b -> rel (posn F) (stop S1 on1 p a) (stop S2 on2 p b).
Proof. intros H. unfold stop. eapply rel_bind; [apply HE, H|]. intros x y HR. split; [reflexivity|exact HR]. Qed.
Lemma finish_rel text p a b : W a b -> rel (posn F) (finish S1 on1 text p a) (finish S2 on2 text p b).
Proof.
  intros H. unfold finish. eapply rel_bind with (R := W); [destruct text; [exact H|apply HW; [reflexivity|exact H]]|].
  intros x y HR. eapply rel_bind; [apply HV, HR|]. intros x' y' HR'. split; [reflexivity|exact HR'].
Qed.
Definition conv_rel (a : option (list Z * S1) * (list Z * S1)) (b : option (list Z * S2) * (list Z * S2)) : Prop :=
  match fst a, fst b with
  | Some x, Some y => posn W' x y
  | None, None => posn F (snd a) (snd b)
  | _, _ => False
  end.
Lemma on_conv_rel c sys p a b : W a b -> rel conv_rel (on_conv S1 on1 c sys p a) (on_conv S2 on2 c sys p b).
Proof.
  intros H. unfold on_conv. destruct c.
  - eapply rel_bind; [apply HC, H|]. intros x y HR. split; [reflexivity|exact HR].
  - eapply rel_bind; [apply HE, H|]. intros x y HR. split; [reflexivity|exact HR].
Qed.
Lemma parse_conv_rel p a b : W a b -> rel conv_rel (parse_conv S1 on1 p a) (parse_conv S2 on2 p b).
Proof.
  intros H. assert (HFail : forall q, rel conv_rel (st <- on1 OnError a ;; Ok (None, (q, st))) (st <- on2 OnError b ;; Ok (None, (q, st)))).
  { intros q. eapply rel_bind; [apply HE, H|]. intros x y HR. split; [reflexivity|exact HR]. }
  assert (HGo : forall ev q, plain ev = true -> rel conv_rel (st <- on1 ev a ;; Ok (Some (q, st), (q, st))) (st <- on2 ev b ;; Ok (Some (q, st), (q, st)))).
  { intros ev q Hev. eapply rel_bind; [apply HW; [exact Hev|exact H]|]. intros x y HR. split; [reflexivity|left; exact HR]. }
  unfold parse_conv. cbv zeta.
  repeat match goal with
  | |- rel _ (match ?l with [] => _ | _ :: _ => _ end) _ => destruct l
  | |- rel _ (if ?c then _ else _) _ => destruct c
  end; auto using on_conv_rel.
Qed.
Lemma loop_rel e : forall fuel text p a b, W a b ->
  rel (posn F) (parse_loop S1 on1 fine1 fuel e text p a) (parse_loop S2 on2 fine2 fuel e text p b).
Proof.
  induction fuel as [|fuel IH]; intros text p a b H; [exact I|]. cbn [parse_loop].
  assert (HT : forall rest, rel (posn F)
     (st <- on1 (OnText text) a ;; st <- on1 OnWhitespace st ;; parse_loop S1 on1 fine1 fuel e [] rest st)
     (st <- on2 (OnText text) b ;; st <- on2 OnWhitespace st ;; parse_loop S2 on2 fine2 fuel e [] rest st)).
  { intros rest. eapply rel_bind; [apply HW; [reflexivity|exact H]|]. intros x y HR. eapply rel_bind; [apply HW; [reflexivity|exact HR]|]. intros x' y' HR'. apply IH, HR'. }
  destruct p as [|ch p1]; [apply finish_rel, H|]. destruct (ch =? 125); [apply finish_rel, H|].
  destruct (negb (ch =? 37)).
  - destruct (simple_space ch); [apply HT|]. cbv zeta. destruct (_ =? 0)%nat; [apply stop_rel, H|].
    destruct (1 <? _)%nat; [|apply IH, H]. destruct (_ <? _)%nat; [apply stop_rel, H|].
    destruct (decode_cp e _) as [cp|x| |]; cbn [bind]; [|reflexivity|exact I|exact I].
    destruct (is_cp_space cp); [apply HT|]. destruct (skipn _ _); [exact I|apply IH, H].
  - eapply rel_bind with (R := W); [destruct text; [exact H|apply HW; [reflexivity|exact H]]|]. intros x y HR.
    eapply rel_bind; [apply parse_conv_rel, HR|]. intros [g1 r1] [g2 r2] HX. unfold conv_rel in HX. cbn [fst snd] in HX. cbv beta iota.
    destruct g1 as [[p2 x2]|], g2 as [[p2' y2]|]; try contradiction; [|exact HX].
    destruct HX as [Hp HX]. cbn [fst snd] in Hp, HX. subst p2'. destruct HX as [HX|(F1 & F2 & HX)].
    + rewrite (HF _ _ HX). destruct (fine2 y2) eqn:EF; [apply IH, HX|].
      split; [reflexivity|]. apply HN; [exact HX|]. cbn [snd]. rewrite (HF _ _ HX). exact EF.
    + rewrite F1, F2. split; [reflexivity|exact HX].
Qed.
Lemma parse_rel e f a b : W a b ->
  rel (posn F) (parse_chrono_format_specs S1 on1 fine1 e f a) (parse_chrono_format_specs S2 on2 fine2 e f b).
Proof.
  intros H. unfold parse_chrono_format_specs.
  assert (G : forall p a b, W a b -> rel (posn F)
     (match p with 37 :: _ => parse_loop S1 on1 fine1 (S (length p)) e [] p a | _ => stop S1 on1 p a end)
     (match p with 37 :: _ => parse_loop S2 on2 fine2 (S (length p)) e [] p b | _ => stop S2 on2 p b end)).
  { clear a b H. intros p a b H. destruct p as [|c p]; [apply stop_rel, H|]. destruct (Z.eq_dec c 37) as [->|]; [apply loop_rel, H|].
    replace (match c with 37 => _ | _ => stop S1 on1 (c :: p) a end) with (stop S1 on1 (c :: p) a)
      by (destruct c as [|q|q]; try reflexivity; repeat (destruct q as [q|q|]; try reflexivity); lia).
    replace (match c with 37 => _ | _ => stop S2 on2 (c :: p) b end) with (stop S2 on2 (c :: p) b)
      by (destruct c as [|q|q]; try reflexivity; repeat (destruct q as [q|q|]; try reflexivity); lia).
    apply stop_rel, H. }
  destruct f as [|c f]; [apply stop_rel, H|]. destruct (c =? 125); [apply stop_rel, H|].
  destruct (c =? 76); [|apply (G (c :: f)), H].
  eapply rel_bind; [apply HW; [reflexivity|exact H]|]. intros x y HR. apply G, HR.
Qed.
End Parser.

(** ** The reader *)
Definition over {A} (x y : option A) : option A := match x with Some v => Some v | None => y end.

Section Reader.
Variable D : Type.
Variable scan_double : list Z -> outcome D.
Variable in_unit : D -> bool.
Variable time_get : list Z -> list Z -> option (tmv * list Z).
Variable decimal_point : Z.
Variable r : src.
Variable cf : config.
Variable t : target.
(** The initial value. *)
Variable d : datetime D.
Notation rstate := (rstate D).

(** The year while it is put together from a century and a short year: verify will set it. *)
Definition year_due (fs : flagset) (y g : option Z) : Prop :=
  t = Components /\ fs FFullYear = false /\ (fs FShortYear || fs FCentury = true) /\ y <> None /\ g <> None.
Definition year_same (fs : flagset) (y g : option Z) : Prop :=
  g = over y (dt_int D d Year) /\ (fs FFullYear = true -> y <> None)
  /\ (t = Components -> fs FFullYear = false -> fs FShortYear || fs FCentury = false).
Definition laid (st : rstate) (g : field -> option Z) : rstate :=
  RS D (rs_start D st) (rs_src D st) (rs_err D st) (rs_set D st) (rs_loc D st) (rs_pm D st) (rs_short D st) (rs_cent D st)
     g (over (rs_subsec D st) (dt_subsec D d)) (over (rs_tzname D st) (dt_tzname D d)).
Definition inv (fs : flagset) (i g : field -> option Z) : Prop :=
  (forall f, f <> Year -> g f = over (i f) (dt_int D d f)) /\ (fs FHour12 = true -> i Hour <> None)
  /\ (year_same fs (i Year) (g Year) \/ year_due fs (i Year) (g Year)).
Definition W (st st' : rstate) : Prop := exists g, st' = laid st g /\ inv (rs_set D st) (rs_int D st) g.
Definition Fin (st st' : rstate) : Prop := exists g, st' = laid st g
  /\ (rs_err D st = None -> forall f, g f = over (rs_int D st f) (dt_int D d f)).

Ltac same := intros (g & -> & H); exists g; split; [reflexivity|exact H].
Lemma W_error e a b : W a b -> W (set_error D e a) (set_error D e b).
Proof. same. Qed.
Lemma W_src s a b : W a b -> W (with_src D s a) (with_src D s b).
Proof. same. Qed.
Lemma W_years x y a b : W a b -> W (with_years D x y a) (with_years D x y b).
Proof. same. Qed.
Lemma W_mode x y a b : W a b -> W (with_mode D x y a) (with_mode D x y b).
Proof. same. Qed.
Lemma W_subsec x a b : W a b -> W (with_subsec D x a) (with_subsec D x b).
Proof. same. Qed.
Lemma W_tzname x a b : W a b -> W (with_tzname D x a) (with_tzname D x b).
Proof. same. Qed.
Lemma field_eqb_eq f g : field_eqb f g = true <-> f = g.
Proof. destruct f, g; cbn; split; congruence. Qed.
Lemma field_eqb_refl f : field_eqb f f = true.
Proof. destruct f; reflexivity. Qed.
Definition put (f : field) (v : Z) (g : field -> option Z) : field -> option Z := fun h => if field_eqb f h then Some v else g h.
Lemma flag_int f (a : rstate) : rs_int D (set_flag D f a) = rs_int D a.
Proof. unfold set_flag. destruct (rs_set D a f); reflexivity. Qed.
Lemma flag_set f (a : rstate) : rs_set D (set_flag D f a) = mark f (rs_set D a).
Proof. unfold set_flag. destruct (rs_set D a f); reflexivity. Qed.
Lemma flag_laid f (a : rstate) g : set_flag D f (laid a g) = laid (set_flag D f a) g.
Proof. unfold set_flag. cbn [laid rs_set]. destruct (rs_set D a f); reflexivity. Qed.
Lemma W_int f v a b : f <> Year -> W a b -> W (with_int D f v a) (with_int D f v b).
Proof.
  intros Hf (g & -> & H1 & H0 & H2). exists (put f v g).
  assert (EY : field_eqb f Year = false) by (destruct f; try reflexivity; congruence).
  split; [reflexivity|]. unfold inv, put. cbn [rs_int with_int rs_set]. rewrite EY. split; [|split].
  - intros h Hh. destruct (field_eqb f h); [reflexivity|]. apply H1, Hh.
  - intros K. destruct (field_eqb f Hour); [discriminate|]. apply H0, K.
  - exact H2.
Qed.
Lemma W_flag f a b : f <> FFullYear -> (f = FHour12 -> rs_int D a Hour <> None) ->
  (t = Components -> f <> FShortYear /\ f <> FCentury) -> W a b -> W (set_flag D f a) (set_flag D f b).
Proof.
  intros Hf Hh Ht (g & -> & H1 & H0 & H2). exists g. split; [apply flag_laid|]. unfold inv. rewrite flag_int, flag_set.
  split; [exact H1|]. split.
  - unfold mark. intros K. apply orb_true_iff in K. destruct K as [K|K]; [|auto]. apply Hh. destruct f; try discriminate; reflexivity.
  - assert (EF : flag_eqb f FFullYear = false) by (destruct f; try reflexivity; congruence).
    unfold year_same, year_due in *. unfold mark. rewrite EF. cbn [orb].
    destruct H2 as [(K1 & K2 & K3)|(K1 & K2 & K3 & K4)]; [left|right].
    + split; [exact K1|]. split; [exact K2|]. intros HC HX. destruct (Ht HC) as [L1 L2].
      replace (flag_eqb f FShortYear) with false by (destruct f; try reflexivity; congruence).
      replace (flag_eqb f FCentury) with false by (destruct f; try reflexivity; congruence). apply K3; assumption.
    + split; [exact K1|]. split; [exact K2|]. split; [|exact K4].
      apply orb_true_iff in K3. destruct K3 as [-> | ->]; rewrite ?orb_true_r; reflexivity.
Qed.
(** A year of four digits replaces everything. *)
Lemma W_full v a b : W a b -> W (set_flag D FFullYear (with_int D Year v a)) (set_flag D FFullYear (with_int D Year v b)).
Proof.
  intros (g & -> & H1 & H0 & H2). exists (put Year v g).
  split; [exact (flag_laid FFullYear (with_int D Year v a) (put Year v g))|]. unfold inv. rewrite flag_int, flag_set. split; [|split].
  - intros h Hh. cbn [rs_int with_int put]. unfold put. destruct (field_eqb Year h) eqn:E; [reflexivity|apply H1, Hh].
  - exact H0.
  - left. split; [reflexivity|]. split; [discriminate|]. intros _ K. discriminate K.
Qed.
(** A century or short year of datetime_components. *)
Lemma W_add f k a b : t = Components -> f = FCentury \/ f = FShortYear -> W a b ->
  W (set_flag D f (with_int D Year (match rs_int D a Year with None => k | Some y => y + k end) a))
    (set_flag D f (with_int D Year (match rs_int D b Year with None => k | Some y => y + k end) b)).
Proof.
  intros Ht Hf (g & -> & H1 & H0 & H2). cbn [laid rs_int].
  set (x := match rs_int D a Year with None => k | Some y => y + k end). set (y := match g Year with None => k | Some y => y + k end).
  exists (put Year y g). split; [exact (flag_laid f (with_int D Year x a) (put Year y g))|]. unfold inv. rewrite flag_int, flag_set. split; [|split].
  - intros h Hh. cbn [rs_int with_int]. unfold put. destruct (field_eqb Year h) eqn:E; [apply field_eqb_eq in E; congruence|apply H1, Hh].
  - destruct Hf as [-> | ->]; exact H0.
  - unfold year_same, year_due. cbn [rs_int rs_set with_int field_eqb put over].
    assert (EF : flag_eqb f FFullYear = false) by (destruct Hf as [-> | ->]; reflexivity). unfold mark. rewrite EF. cbn [orb].
    destruct (rs_set D a FFullYear) eqn:EY.
    + left. split; [|split; discriminate]. destruct H2 as [(H2 & H3 & _)|(_ & H2 & _)]; [|congruence]. subst x y. specialize (H3 EY). rewrite H2.
      destruct (rs_int D a Year); [reflexivity|congruence].
    + right. split; [exact Ht|]. split; [reflexivity|]. split; [|split; discriminate].
      destruct Hf as [-> | ->]; cbn [flag_eqb orb]; rewrite ?orb_true_r; reflexivity.
Qed.

Lemma W_ranged f fl lo hi off v a b : f <> Year -> fl <> FFullYear -> fl <> FShortYear -> fl <> FCentury -> (fl = FHour12 -> f = Hour) ->
  W a b -> W (set_ranged D f fl lo hi off v a) (set_ranged D f fl lo hi off v b).
Proof.
  intros Hf Hfl H1 H2 H3 H. unfold set_ranged. destruct (_ || _); [apply W_error, H|]. apply W_flag; auto; [|apply W_int; assumption].
  intros K. rewrite (H3 K). cbn [rs_int with_int field_eqb]. discriminate.
Qed.
Lemma W_full_year y a b : W a b -> W (set_full_year D t y a) (set_full_year D t y b).
Proof.
  intros H. unfold set_full_year. destruct t eqn:Et; try (destruct (_ <? _); [apply W_error, H|]); apply W_full, H.
Qed.
Lemma W_obs a b : W a b -> rs_src D b = rs_src D a /\ rs_start D b = rs_start D a /\ rs_err D b = rs_err D a /\ rs_set D b = rs_set D a
  /\ rs_loc D b = rs_loc D a /\ rs_pm D b = rs_pm D a /\ rs_short D b = rs_short D a /\ rs_cent D b = rs_cent D a.
Proof. intros (g & -> & _). repeat split; reflexivity. Qed.
Ltac obs H := let K := fresh in pose proof (W_obs _ _ H) as K;
  destruct K as (?Esrc & ?Estart & ?Eerr & ?Eset & ?Eloc & ?Epm & ?Eshort & ?Ecent).
Lemma W_century y a b : W a b -> W (set_century D t y a) (set_century D t y b).
Proof.
  intros H. unfold set_century. obs H. rewrite Eshort. destruct t eqn:Et; try (apply W_flag; [discriminate|discriminate|congruence|apply W_years, H]).
  apply W_add; auto.
Qed.
Lemma W_short_year y a b : W a b -> W (set_short_year D t y a) (set_short_year D t y b).
Proof.
  intros H. unfold set_short_year. obs H. rewrite Ecent.
  destruct t eqn:Et; try (destruct (_ || _); [apply W_error, H|]; apply W_flag; [discriminate|discriminate|congruence|apply W_years, H]).
  apply W_add; auto.
Qed.
Ltac ranged := intros; apply W_ranged; try discriminate; auto.
Lemma W_sec v a b : W a b -> W (set_sec D v a) (set_sec D v b).
Proof. ranged. Qed.
Lemma W_min v a b : W a b -> W (set_min D v a) (set_min D v b).
Proof. ranged. Qed.
Lemma W_hour24 v a b : W a b -> W (set_hour24 D v a) (set_hour24 D v b).
Proof. ranged. Qed.
Lemma W_hour12 v a b : W a b -> W (set_hour12 D v a) (set_hour12 D v b).
Proof. ranged. Qed.
Lemma W_mday v a b : W a b -> W (set_mday D v a) (set_mday D v b).
Proof. ranged. Qed.
Lemma W_mon v a b : W a b -> W (set_mon D t v a) (set_mon D t v b).
Proof. ranged. Qed.
Lemma W_wday v a b : W a b -> W (set_wday D v a) (set_wday D v b).
Proof. ranged. Qed.
Lemma W_yday v a b : W a b -> W (set_yday D t v a) (set_yday D t v b).
Proof. ranged. Qed.
Lemma W_set_subsec v a b : W a b -> rel W (set_subsec D in_unit t v a) (set_subsec D in_unit t v b).
Proof.
  intros H. unfold set_subsec. destruct t eqn:Et; try (apply W_error, H). destruct (in_unit v); [|exact I].
  apply W_flag; try discriminate; [split; discriminate|]. apply W_subsec, H.
Qed.
Lemma W_tz_offset v a b : W a b -> W (set_tz_offset D t v a) (set_tz_offset D t v b).
Proof.
  intros H. unfold set_tz_offset. destruct t eqn:Et; try (apply W_int; [discriminate|exact H]).
  apply W_flag; try discriminate; [split; discriminate|]. apply W_int; [discriminate|exact H].
Qed.
Lemma W_set_tz_name v a b : W a b -> W (set_tz_name D t v a) (set_tz_name D t v b).
Proof.
  intros H. unfold set_tz_name. destruct t eqn:Et; try (apply W_error, H);
  (apply W_flag; try discriminate; [split; discriminate|]; apply W_tzname, H).
Qed.

(** ** Reading *)
Lemma W_read_int lo hi a b : W a b -> fst (read_int D lo hi a) = fst (read_int D lo hi b) /\ W (snd (read_int D lo hi a)) (snd (read_int D lo hi b)).
Proof.
  intros H. obs H. unfold read_int. rewrite Esrc. destruct (read_digits hi 0 (rs_src D a)) as [[k v] s].
  destruct (k <? lo)%nat; cbn [fst snd]; split; auto using W_error, W_src.
Qed.
Lemma W_number lo hi set a b : (forall v x y, W x y -> W (set v x) (set v y)) -> W a b -> rel W (number D lo hi set a) (number D lo hi set b).
Proof.
  intros HS H. unfold number. pose proof (W_read_int lo hi _ _ H) as [K1 K2].
  destruct (read_int D lo hi a) as [v x], (read_int D lo hi b) as [v' y]. cbn [fst snd] in *. subst v'. apply HS, K2.
Qed.
Lemma W_consume c a b : W a b -> fst (consume_ch D c a) = fst (consume_ch D c b) /\ W (snd (consume_ch D c a)) (snd (consume_ch D c b)).
Proof.
  intros H. obs H. unfold consume_ch. rewrite Esrc. destruct (rs_src D a) as [|x s]; [split; auto|]. destruct (x =? c); cbn [fst snd]; auto using W_src.
Qed.
Lemma W_try o a b : W a b -> fst (try_one_of D o a) = fst (try_one_of D o b) /\ W (snd (try_one_of D o a)) (snd (try_one_of D o b)).
Proof.
  intros H. obs H. unfold try_one_of. rewrite Esrc. destruct (one_of_loop o 0 (rs_src D a)) as [[v s]|]; cbn [fst snd]; auto using W_src.
Qed.
Lemma W_text txt : forall a b, W a b -> W (rd_text D txt a) (rd_text D txt b).
Proof.
  induction txt as [|c txt IH]; intros a b H; [exact H|]. obs H. cbn [rd_text]. rewrite Esrc.
  destruct (rs_src D a); [apply W_error, H|]. destruct (c =? z); [apply IH, W_src, H|apply W_error, H].
Qed.
Lemma W_whitespace a b : W a b -> rel W (rd_whitespace D r a) (rd_whitespace D r b).
Proof.
  intros H. obs H. unfold rd_whitespace. rewrite Esrc. destruct (skip_classic_whitespace r (rs_src D a) true); cbn [rel]; auto using W_src, W_error.
Qed.
Lemma W_from_locale fmt k k' a b : (forall tm x y, W x y -> rel W (k tm x) (k' tm y)) -> W a b ->
  rel W (from_locale D time_get fmt k a) (from_locale D time_get fmt k' b).
Proof.
  intros HK H. obs H. unfold from_locale, localized. rewrite Estart. destruct (time_get fmt (rs_start D a)) as [[tm s]|].
  - apply HK, W_src, H.
  - apply W_error, H.
Qed.
Lemma W_alt sys a b : W a b -> alt D sys b = alt D sys a.
Proof. intros H. obs H. unfold alt. rewrite Eloc. reflexivity. Qed.
Lemma W_rd_tz_offset sys a b : W a b -> W (rd_tz_offset D t sys a) (rd_tz_offset D t sys b).
Proof.
  intros H. obs H. unfold rd_tz_offset. rewrite Esrc. destruct (rs_src D a) as [|c s] eqn:ES; [apply W_error, H|].
  assert (H1 : W (if (c =? 43) || (c =? 45) then with_src D s a else a) (if (c =? 43) || (c =? 45) then with_src D s b else b))
    by (destruct (_ || _); auto using W_src).
  remember (if (c =? 43) || (c =? 45) then with_src D s a else a) as a1. remember (if (c =? 43) || (c =? 45) then with_src D s b else b) as b1.
  clear Heqa1 Heqb1. pose proof (W_obs _ _ H1) as (E1 & _). rewrite E1. destruct (rs_src D a1); [apply W_error, H1|].
  assert (H2 : fst (match sys with Std => read_int D 2 2 a1 | _ => read_int D 1 2 a1 end) = fst (match sys with Std => read_int D 2 2 b1 | _ => read_int D 1 2 b1 end)
    /\ W (snd (match sys with Std => read_int D 2 2 a1 | _ => read_int D 1 2 a1 end)) (snd (match sys with Std => read_int D 2 2 b1 | _ => read_int D 1 2 b1 end)))
    by (destruct sys; apply W_read_int, H1).
  destruct (match sys with Std => read_int D 2 2 a1 | _ => read_int D 1 2 a1 end) as [h a2].
  destruct (match sys with Std => read_int D 2 2 b1 | _ => read_int D 1 2 b1 end) as [h' b2]. cbn [fst snd] in H2. destruct H2 as [<- H2].
  pose proof (W_obs _ _ H2) as (E2 & _). rewrite E2. destruct (rs_src D a2) as [|c1 s1]; [apply W_tz_offset, H2|].
  destruct (negb (c1 =? 58) && _); [apply W_tz_offset, H2|].
  destruct (if c1 =? 58 then s1 else c1 :: s1) as [|c2 s2]; [apply W_tz_offset, H2|]. destruct (is_digit c2); [|apply W_tz_offset, H2].
  pose proof (W_read_int 2 2 _ _ (W_src (c2 :: s2) _ _ H2)) as [K1 K2].
  destruct (read_int D 2 2 (with_src D (c2 :: s2) a2)) as [m a3], (read_int D 2 2 (with_src D (c2 :: s2) b2)) as [m' b3]. cbn [fst snd] in *. subst m'.
  apply W_tz_offset, K2.
Qed.
Strategy 1000 [scan_string].
Lemma W_rd_tz_name a b : W a b -> rel W (rd_tz_name D r cf t a) (rd_tz_name D r cf t b).
Proof.
  intros H. obs H. unfold rd_tz_name. rewrite Esrc. destruct (scan_string r cf tz_name_format (rs_src D a)) as [[n s]|e| |]; cbn [rel]; auto.
  apply W_src, W_set_tz_name, H.
Qed.
Lemma W_subsecond sys a b : W a b ->
  rel W (rd_subsecond D scan_double in_unit decimal_point r cf t sys a) (rd_subsecond D scan_double in_unit decimal_point r cf t sys b).
Proof.
  intros H. unfold rd_subsecond. pose proof (W_read_int 1 2 _ _ H) as [K1 K2].
  destruct (read_int D 1 2 a) as [w a1], (read_int D 1 2 b) as [w' b1]. cbn [fst snd] in *. subst w'. clear H.
  apply (W_sec w) in K2. rewrite (W_alt sys _ _ K2). remember (set_sec D w a1) as a2. remember (set_sec D w b1) as b2. clear Heqa2 Heqb2.
  remember (if alt D sys a2 then decimal_point else 46) as c.
  pose proof (W_consume c _ _ K2) as [L1 L2]. destruct (consume_ch D c a2) as [o a3], (consume_ch D c b2) as [o' b3]. cbn [fst snd] in *. subst o'.
  destruct (negb o); [apply W_error, L2|]. pose proof (W_obs _ _ L2) as (E & _). rewrite E.
  destruct (scan_string r cf digits_format (rs_src D a3)) as [[n s]|e| |]; cbn [rel]; auto using W_error.
  destruct (_ =? _)%nat; [apply W_error, L2|]. destruct (scan_double _); cbn [rel]; auto using W_error, W_src. apply W_set_subsec, W_src, L2.
Qed.
Lemma W_named l1 l2 set a b : (forall v x y, W x y -> W (set v x) (set v y)) -> W a b -> W (named D l1 l2 set a) (named D l1 l2 set b).
Proof.
  intros HS H. unfold named. pose proof (W_try l1 _ _ H) as [K1 K2].
  destruct (try_one_of D l1 a) as [o a1], (try_one_of D l1 b) as [o' b1]. cbn [fst snd] in *. subst o'. destruct o; [apply HS, K2|].
  pose proof (W_try l2 _ _ K2) as [L1 L2].
  destruct (try_one_of D l2 a1) as [o a2], (try_one_of D l2 b1) as [o' b2]. cbn [fst snd] in *. subst o'. destruct o; [apply HS, L2|apply W_error, L2].
Qed.
Notation basic := (rd_basic D scan_double in_unit time_get decimal_point r cf t).
Lemma rel_add (x y : Z) (k k' : Z -> rstate) : (forall z, W (k z) (k' z)) -> rel W (z <- add_int x y ;; Ok (k z)) (z <- add_int x y ;; Ok (k' z)).
Proof. intros H. unfold add_int. destruct (_ && _); cbn [bind rel]; auto. Qed.
Lemma W_basic c sys a b : W a b -> rel W (basic c sys a) (basic c sys b).
Proof.
  intros H. pose proof (W_alt sys _ _ H) as EA. obs H. unfold rd_basic. rewrite EA, Eloc.
  destruct c; try (apply W_error, H);
    try (destruct (alt D sys a); [apply W_from_locale; [|exact H]; intros tm x y HX|apply W_number; [|exact H]; intros v x y HX]);
    try (apply rel_add; intros z);
    try (cbn [rel]; auto using W_full_year, W_short_year, W_century, W_mon, W_mday, W_wday, W_yday, W_hour24, W_hour12, W_min, W_sec, W_rd_tz_offset; fail).
  - destruct (rs_loc D a); [apply W_from_locale; [|exact H]; intros tm x y HX; apply rel_add; intros z; apply W_mon, HX|].
    apply W_named; [|exact H]. intros; apply W_mon; assumption.
  - apply W_number; [|exact H]. intros; apply W_yday; assumption.
  - destruct (rs_loc D a); [apply W_from_locale; [|exact H]; intros tm x y HX; apply W_wday, HX|].
    apply W_named; [|exact H]. intros; apply W_wday; assumption.
  - destruct (_ =? _); [exact I|apply W_wday, HX].
  - apply W_subsecond, H.
  - apply W_rd_tz_name, H.
  - pose proof (W_try am_pm_names _ _ H) as [K1 K2].
    destruct (try_one_of D am_pm_names a) as [o a1], (try_one_of D am_pm_names b) as [o' b1]. cbn [fst snd] in *. subst o'.
    destruct o; [|apply W_error, K2]. pose proof (W_obs _ _ K2) as (_ & _ & _ & _ & EL & _). rewrite EL.
    apply W_flag; try discriminate; [split; discriminate|]. apply W_mode, K2.
Qed.
Lemma W_date tm a b : W a b -> rel W (set_date D t tm a) (set_date D t tm b).
Proof.
  intros H. unfold set_date. unfold add_int. destruct (_ && _); cbn [bind]; [|exact I]. destruct (_ && _); cbn [bind]; [|exact I].
  apply W_mday, W_mon, W_full_year, H.
Qed.
Lemma W_time tm a b : W a b -> W (set_time D tm a) (set_time D tm b).
Proof. intros H. apply W_sec, W_min, W_hour24, H. Qed.
Lemma W_parts evs : forall x y, rel W x y ->
  rel W (fold_left (fun o ev => st <- o ;; rd_step D scan_double in_unit time_get decimal_point r cf t ev st) evs x)
        (fold_left (fun o ev => st <- o ;; rd_step D scan_double in_unit time_get decimal_point r cf t ev st) evs y).
Proof.
  induction evs as [|ev evs IH]; intros x y H; [exact H|]. cbn [fold_left]. apply IH. eapply rel_bind; [exact H|]. intros a b HR.
  destruct ev; cbn [rd_step]; auto using W_whitespace, W_basic; try exact HR. apply W_text, HR.
Qed.
Lemma W_conv c sys a b : W a b ->
  rel W (rd_conv D scan_double in_unit time_get decimal_point r cf t c sys a) (rd_conv D scan_double in_unit time_get decimal_point r cf t c sys b).
Proof.
  intros H. assert (HG : rel W (match parts c with Some evs => fold_left (fun o ev => st <- o ;; rd_step D scan_double in_unit time_get decimal_point r cf t ev st) evs (Ok a) | None => basic c sys a end)
     (match parts c with Some evs => fold_left (fun o ev => st <- o ;; rd_step D scan_double in_unit time_get decimal_point r cf t ev st) evs (Ok b) | None => basic c sys b end)).
  { destruct (parts c); [apply W_parts, H|apply W_basic, H]. }
  obs H. unfold rd_conv, rd_localized_parts. rewrite Eloc. destruct (negb (rs_loc D a)); [exact HG|].
  destruct c; try exact HG; (apply W_from_locale; [|exact H]); intros tm x y HX.
  - eapply rel_bind; [apply W_date, HX|]. intros; apply W_time; assumption.
  - apply W_date, HX.
  - apply W_time, HX.
  - apply W_time, HX.
Qed.
Notation on := (rd_on D scan_double in_unit time_get decimal_point r cf t).
Lemma on_W ev a b : plain ev = true -> W a b -> rel W (on ev a) (on ev b).
Proof.
  intros Hev H. destruct ev; try discriminate; cbn [rd_on rel]; auto using W_whitespace, W_text.
  obs H. rewrite Epm. apply W_mode, H.
Qed.
Lemma on_error_F a b : W a b -> rel Fin (on OnError a) (on OnError b).
Proof.
  intros (g & -> & H). cbn [rd_on rel]. exists g. split; [reflexivity|]. intros K. cbn [set_error rs_err] in K. destruct (rs_err D a); discriminate.
Qed.
Lemma fine_same a b : W a b -> rd_fine D a = rd_fine D b.
Proof. intros H. obs H. unfold rd_fine. rewrite Eerr. reflexivity. Qed.
Lemma not_fine_F a b : W a b -> rd_fine D a = false -> Fin a b.
Proof.
  intros (g & -> & H) HF. exists g. split; [reflexivity|]. intros K. unfold rd_fine in HF. rewrite K in HF. discriminate.
Qed.
Lemma W_am_pm a b : W a b -> rs_set D a FHour12 = true -> rel W (handle_am_pm D a) (handle_am_pm D b).
Proof.
  intros H HS. obs H. assert (EH : rs_int D b Hour = rs_int D a Hour /\ rs_int D a Hour <> None).
  { destruct H as (g & -> & H1 & H0 & _). specialize (H0 HS). split; [|exact H0]. cbn [laid rs_int]. rewrite (H1 Hour) by discriminate.
    destruct (rs_int D a Hour); [reflexivity|congruence]. }
  destruct EH as [EH EN]. unfold handle_am_pm. rewrite EH, Eset, Epm, HS. destruct (rs_int D a Hour) as [h|]; [|congruence]. cbn [negb orb].
  destruct (12 <? h); [exact I|]. cbn [rel]. destruct (rs_pm D a), (h =? 12); auto; apply W_int; auto; discriminate.
Qed.
Lemma F_year v a b : W a b -> Fin (with_int D Year v a) (with_int D Year v b).
Proof.
  intros (g & -> & H1 & _). exists (put Year v g). split; [reflexivity|]. intros _ f. cbn [rs_int with_int]. unfold put.
  destruct (field_eqb Year f) eqn:E; [reflexivity|]. apply H1. intros ->. discriminate.
Qed.
Lemma on_verify_F a b : W a b -> rel Fin (on OnVerify a) (on OnVerify b).
Proof.
  intros H. cbn [rd_on]. unfold rd_verify. obs H. rewrite Eset.
  assert (H1 : W (if conflict (rs_set D a) then set_error D InvalidFormatString a else a) (if conflict (rs_set D a) then set_error D InvalidFormatString b else b))
    by (destruct (conflict _); auto using W_error).
  remember (if conflict (rs_set D a) then set_error D InvalidFormatString a else a) as a1.
  remember (if conflict (rs_set D a) then set_error D InvalidFormatString b else b) as b1. clear - H1.
  pose proof (W_obs _ _ H1) as (_ & _ & _ & ES & _). rewrite ES.
  eapply rel_bind with (R := W).
  { destruct (rs_set D a1 FAmPm && rs_set D a1 FHour12) eqn:E; [|exact H1]. apply andb_true_iff in E. apply W_am_pm; [exact H1|apply E]. }
  clear. intros a b H. obs H. rewrite Eset. destruct (negb _ && _) eqn:E.
  - apply andb_true_iff in E. destruct E as [E1 E2]. apply negb_true_iff in E1.
    assert (EU : match t, rs_int D a Year with Components, None => true | _, _ => false end = false
              /\ match t, rs_int D b Year with Components, None => true | _, _ => false end = false).
    { destruct H as (g & -> & _ & _ & [(_ & _ & K)|(_ & _ & _ & K1 & K2)]).
      - destruct t eqn:Et; [auto|auto|]. specialize (K eq_refl E1). congruence.
      - cbn [laid rs_int]. destruct t, (rs_int D a Year), (g Year); auto; congruence. }
    destruct EU as [U1 U2]. unfold handle_years. rewrite U1, U2, Eset, Eshort, Ecent, E1.
    destruct (rs_set D a FShortYear), (rs_set D a FCentury); cbn [andb]; try (apply F_year, H). discriminate.
  - cbn [rel]. destruct H as (g & -> & H1 & _ & H2). exists g. split; [reflexivity|]. intros _ f.
    destruct (field_eqb f Year) eqn:EY; [|apply H1; intros ->; discriminate]. apply field_eqb_eq in EY. subst f.
    destruct H2 as [(K & _)|(_ & K1 & K2 & _)]; [exact K|]. rewrite K1, K2 in E. discriminate.
Qed.
Lemma run_over fmt s1 :
  rel (fun x y => posn _ _ Fin x y)
    (parse_chrono_format_specs _ on (rd_fine D) (s_enc r) fmt (rd_init D s1))
    (parse_chrono_format_specs _ on (rd_fine D) (s_enc r) fmt (rd_init_over D d s1)).
Proof.
  apply (parse_rel _ _ on on (rd_fine D) (rd_fine D) W Fin on_W) with (b := rd_init_over D d s1); auto using on_error_F, on_verify_F, fine_same, not_fine_F.
  - intros c sys a b H. eapply rel_weaken; [|apply W_conv, H]. intros x y K. left. exact K.
  - exists (dt_int D d). split; [reflexivity|]. split; [reflexivity|]. split; [discriminate|]. left. split; [reflexivity|]. split; [discriminate|reflexivity].
Qed.
End Reader.
