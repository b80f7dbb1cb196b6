(** Model of scanning a date or time into an object that already has a value: scan with
    initial values, include/scn/scan.h:9721-9743, which moves them into the result and
    scans into that. *)
From Verif Require Import Prelude ReadModel SpecsModel FormatModel ChronoModel.
Local Open Scope Z_scope.

Section Over.
Variable D : Type.
Variable scan_double : list Z -> outcome D.
Variable in_unit : D -> bool.
Variable time_get : list Z -> list Z -> option (tmv * list Z).
Variable decimal_point : Z.
Variable r : src.
Variable cf : config.
Variable t : target.

(** tm_reader, src/scn/impl.cpp:2698-2712: the state of a reader that begins with the object
    [d]; the flags of what is set are all clear, whatever [d] has. *)
Definition rd_init_over (d : datetime D) (s : list Z) : rstate D :=
  RS D s s None (fun _ => false) false false 0 0 (dt_int D d) (dt_subsec D d) (dt_tzname D d).
(** impl.cpp:2400-2426: a century or a short year is added to the year that datetime_components
    has, which is an int.  No event makes two such sums, so the year is out of range after one
    of them exactly if the sum overflows, which is undefined. *)
Definition rd_on_over (ev : event) (st : rstate D) : outcome (rstate D) :=
  st <- rd_on D scan_double in_unit time_get decimal_point r cf t ev st ;;
  match t, rs_int D st Year with
  | Components, Some y => if (- 2 ^ 31 <=? y) && (y <? 2 ^ 31) then Ok st else UB
  | _, _ => Ok st
  end.
(** src/scn/impl.cpp:3548-3568, chrono_scan_inner_impl: as [chrono_scan], from [d]. *)
Definition chrono_scan_over (d : datetime D) (fmt s : list Z) : outcome (datetime D * list Z) :=
  s <- skip_classic_whitespace r s false ;;
  '(_, st) <- parse_chrono_format_specs (rstate D)
                rd_on_over (rd_fine D) (s_enc r) fmt
                (rd_init_over d s) ;;
  match rs_err D st with
  | Some e => Err e
  | None => Ok (DT D (rs_int D st) (rs_subsec D st) (rs_tzname D st), rs_src D st)
  end.
Definition chrono_arg_over (d : datetime D) (f s : list Z) : outcome (datetime D * list Z) :=
  '(_, fmt) <- chrono_parse t (s_enc r) f ;; chrono_scan_over d fmt s.
End Over.
