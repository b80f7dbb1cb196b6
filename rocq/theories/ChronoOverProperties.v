(** Dates and times: what a scan assigns, and scanning over an initial value. *)
From Coq Require Import String Ascii.
From Verif Require Import Prelude UnicodeModel UnicodeSpec ReadModel FormatModel FormatSpec IntModel
  VscanSpec VscanProperties ChronoModel ChronoSpec ChronoOverModel ChronoFieldProofs ChronoOverProofs ChronoYearProofs ChronoProperties.
Import Coq.Strings.String.StringSyntax.
Local Open Scope string_scope.
Local Open Scope list_scope.
Local Open Scope Z_scope.

(** * C73: scanning over an initial value *)
(** The locale reads years of at most four digits. *)
Definition four_digit_years (time_get : list Z -> list Z -> option (tmv * list Z)) : Prop :=
  forall fmt s tm s', time_get fmt s = Some (tm, s') -> -10000 < tm_year tm + 1900 < 10000.
(** A year that is in an object of datetime_components is not at the ends of int. *)
Definition not_extreme {D} (d : datetime D) : Prop :=
  match dt_int D d Year with Some y => Z.abs y <= 2 ^ 31 - 40000 | None => True end.
(** [x] if there is one, or [y] *)
Definition or_else {A} (x y : option A) : option A := match x with Some v => Some v | None => y end.
(** Into an object with the value [d], a scan fails or stops as into a new one, and leaves what
    it assigns to a new one and otherwise what [d] has. *)
Theorem C73_partial : forall D scan_double in_unit time_get point r cf t (d : datetime D) f s,
  (t = Components -> four_digit_years time_get /\ not_extreme d) ->
  match chrono_arg D scan_double in_unit time_get point r cf t f s with
  | Ok (new, rest) => exists d',
      chrono_arg_over D scan_double in_unit time_get point r cf t d f s = Ok (d', rest)
      /\ (forall x, dt_int D d' x = or_else (dt_int D new x) (dt_int D d x))
      /\ dt_subsec D d' = or_else (dt_subsec D new) (dt_subsec D d)
      /\ dt_tzname D d' = or_else (dt_tzname D new) (dt_tzname D d)
  | Err e => chrono_arg_over D scan_double in_unit time_get point r cf t d f s = Err e
  | UB => chrono_arg_over D scan_double in_unit time_get point r cf t d f s = UB
  | OutOfFuel => chrono_arg_over D scan_double in_unit time_get point r cf t d f s = OutOfFuel
  end.
Proof.
  intros D sd iu tg pt r cf t d f s H. unfold chrono_arg, chrono_arg_over.
  destruct (chrono_parse t (s_enc r) f) as [[p fmt]|e| |]; cbn [bind]; try reflexivity.
  assert (HY : year_in_range t d).
  { unfold year_in_range. destruct t; try exact I. destruct (H eq_refl) as [_ HY]. exact HY. }
  pose proof (scan_over D sd iu tg pt r cf t d fmt s (fun E => proj1 (H E)) HY) as K.
  destruct (chrono_scan D sd iu tg pt r cf t fmt s) as [[new rest]|e| |], (chrono_scan_over D sd iu tg pt r cf t d fmt s) as [[d' rest']|e'| |];
    cbn [rel] in K; try contradiction; try reflexivity; [|congruence].
  cbn [fst snd] in K. destruct K as (-> & K). exists d'. split; [reflexivity|exact K].
Qed.
Print Assumptions C73_partial.
Definition moonlanding : datetime Z :=
  DT Z (fun f => match f with Year => Some 69 | Mon => Some 6 | Mday => Some 20 | Hour => Some 20 | Min => Some 17 | Sec => Some 40 | _ => None end) None None.
Definition sample_over (t : target) (d : datetime Z) (f s : list Z) : outcome (datetime Z * list Z) :=
  chrono_arg_over Z (fun _ => Ok 5) (fun _ => true) (fun _ _ => None) 46 string_src
    narrow t d f s.
Example C73_ex :
  four_digit_years (fun _ _ => None) /\ not_extreme moonlanding /\
  seen_fields (sample Tm (T "%H:%M}") (T "21:5!")) = Ok ([None; Some 5; Some 21; None; None; None; None; None; None], T "!") /\
  seen_fields (sample_over Tm moonlanding (T "%H:%M}") (T "21:5!"))
    = Ok ([Some 40; Some 5; Some 21; Some 20; Some 6; Some 69; None; None; None], T "!") /\
  seen_fields (sample_over Components moonlanding (T "%d.%m.%y}") (T "1.2.24!"))
    = seen_fields (sample_over Components (DT Z (fun f => match f with Hour => Some 20 | Min => Some 17 | Sec => Some 40 | _ => None end) None None)
                     (T "%d.%m.%y}") (T "1.2.24!")).
Proof.
  split; [discriminate|]. split; [vm_compute; discriminate|]. repeat split; vm_compute; reflexivity.
Qed.
(** A century is added to the year that an object of datetime_components has: for the last years
    of an int the sum overflows. *)
Theorem C73_century_refuted : exists d f s,
  seen_fields (sample Components f s) = Ok ([None; None; None; None; None; Some 0; None; None; None], []) /\
  sample_over Components d f s = UB.
Proof.
  exists (DT Z (fun f => match f with Year => Some (2 ^ 31 - 1) | _ => None end) None None), (T "%C}"), (T "20").
  split; vm_compute; reflexivity.
Qed.
Print Assumptions C73_century_refuted.

(** * C74: which fields a scan assigns *)
(** Those that the conversion specifiers of the format are about, and no others. *)
Theorem C74_partial : forall D scan_double in_unit time_get point r cf t loc ts rest s d s',
  s_enc r <> U16 -> at_end rest -> Forall wf_token ts -> Forall (simple_token (s_enc r)) ts ->
  starts_with_conv ts ->
  chrono_arg D scan_double in_unit time_get point r cf t (write_format (s_enc r) loc ts ++ rest) s = Ok (d, s') ->
  (forall f, dt_int D d f <> None <-> exists p, In p (format_parts loc ts) /\ field_of p = Some f)
  /\ (dt_subsec D d <> None <-> In PSubsec (format_parts loc ts))
  /\ (dt_tzname D d <> None <-> In PTzName (format_parts loc ts)).
Proof. intros D sd iu tg pt r cf t. exact (assigned D sd iu tg pt r cf t). Qed.
Print Assumptions C74_partial.
Example C74_ex :
  Forall wf_token ts_zone /\ Forall (simple_token U8) ts_zone /\ starts_with_conv ts_zone /\
  format_parts false ts_zone = [PHour24; PMin; PSec; PSubsec; PTzName] /\
  exists d, sample Components (write_format U8 false ts_zone ++ T "}") (T "23:05:7.250 UTC!") = Ok (d, T "!") /\
    dt_int Z d Hour = Some 23 /\ dt_int Z d Year = None /\ dt_subsec Z d = Some 5 /\ dt_tzname Z d = Some (T "UTC").
Proof.
  split; [repeat constructor; cbn; try discriminate; lia|].
  split; [repeat constructor; cbn; try discriminate; lia|].
  split; [exact I|]. split; [reflexivity|].
  eexists. split; [vm_compute; reflexivity|]. repeat split.
Qed.
(** Together: scanning over a value replaces these fields, whatever they were, and leaves the
    others as they were. *)
Theorem C73_fields_partial : forall D scan_double in_unit time_get point r cf t loc ts rest s d d',
  (t = Components -> four_digit_years time_get /\ not_extreme d) ->
  s_enc r <> U16 -> at_end rest -> Forall wf_token ts -> Forall (simple_token (s_enc r)) ts ->
  starts_with_conv ts ->
  forall s', chrono_arg_over D scan_double in_unit time_get point r cf t d (write_format (s_enc r) loc ts ++ rest) s = Ok (d', s') ->
  exists new, chrono_arg D scan_double in_unit time_get point r cf t (write_format (s_enc r) loc ts ++ rest) s = Ok (new, s') /\
  forall f, (~ (exists p, In p (format_parts loc ts) /\ field_of p = Some f) -> dt_int D d' f = dt_int D d f)
    /\ ((exists p, In p (format_parts loc ts) /\ field_of p = Some f) -> dt_int D d' f = dt_int D new f).
Proof.
  intros D sd iu tg pt r cf t loc ts rest s d d' HC He Hr W S0 Hc s' E.
  pose proof (C73_partial D sd iu tg pt r cf t d (write_format (s_enc r) loc ts ++ rest) s HC) as K.
  destruct (chrono_arg D sd iu tg pt r cf t (write_format (s_enc r) loc ts ++ rest) s) as [[new rest']|e| |] eqn:EA; try congruence.
  destruct K as (d2 & E2 & K & _). rewrite E in E2. injection E2 as <- <-. exists new. split; [reflexivity|].
  destruct (C74_partial D sd iu tg pt r cf t loc ts rest s new s' He Hr W S0 Hc EA) as (A & _).
  intros f. rewrite K. specialize (A f). destruct (dt_int D new f); cbn [or_else]; split; intros H; auto.
  - exfalso. apply H, A. discriminate.
  - apply A in H. congruence.
Qed.
Print Assumptions C73_fields_partial.
