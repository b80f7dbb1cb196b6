(** Model of the source ranges and of the ranges returned, and of the program that scans a
    source one value after the other, each time from the range the call before has returned. *)
From Verif Require Import Prelude ReadModel ArgsModel FormatModel VscanModel BufferModel SegmentModel.
Local Open Scope Z_scope.

(** A source of contiguous characters: a string, a string_view or a subrange; or an array. *)
Inductive range : Type := Chars (s : list Z) | Array (a : list Z).
(** include/scn/scan.h:5269-5335, make_scan_buffer: of an array the characters before the last one
    are scanned, which is the null character if the array is a string literal. *)
Definition scanned_chars (x : range) : list Z :=
  match x with
  | Chars s => s
  | Array a => firstn (length a - 1) a
  end.
(** include/scn/scan.h:6698-6727, make_vscan_result_range_end and make_vscan_result_range: from
    begin + n to the end, which for an array is before its last element *)
Definition result_range (x : range) (n : nat) : range :=
  match x with
  | Chars s => Chars (skipn n s)
  | Array a => Chars (skipn n (firstn (length a - 1) a))
  end.

Section Loop.
Context {V : Type}.
Variable r : src.
Variable cf : config.
Variable a : arg V.

(** include/scn/scan.h:9418-9431, vscan_generic, and 9700-9720, scan<T>(source, "{}"): the values
    stored and the range *)
Definition scan_range (x : range) : outcome (list V * range) :=
  '(log, rest) <- vscan V r cf [a] [123; 125] (scanned_chars x) ;;
  Ok (map snd log, result_range x (length (scanned_chars x) - length rest)).

(** docs/pages/guide.md:144-154, README.md:125-136, examples/example_3.cpp:28-33:
      while (auto result = scn::scan<T>(input, "{}")) { use(result->value()); input = result->range(); }
    The values, the error of the last call, and the input then.  At most [fuel] calls. *)
Fixpoint scan_loop (fuel : nat) (x : range) : outcome (list V * err * range) :=
  match fuel with
  | O => OutOfFuel
  | S fuel =>
      match scan_range x with
      | Ok (vs, y) => '(ws, e, z) <- scan_loop fuel y ;; Ok (vs ++ ws, e, z)
      | Err e => Ok ([], e, x)
      | UB => UB
      | OutOfFuel => OutOfFuel
      end
  end.
End Loop.

(** The same for a range that is not contiguous (include/scn/scan.h:5354-5376, a new
    scan_forward_buffer each time; 6712-6719: the returned range begins [n] steps further).  [n] bounds the
    steps of the loops in one call. *)
Definition scan_forward (n : nat) (k : kind) (s : list Z) : outcome (list scanned * list Z) :=
  '(vs, q, _) <- scan_pieces n [Text []; Braces k; Text []] 0 (forward_buffer s) ;;
  Ok (vs, skipn q s).
Fixpoint forward_loop (n fuel : nat) (k : kind) (s : list Z) : outcome (list scanned * err * list Z) :=
  match fuel with
  | O => OutOfFuel
  | S fuel =>
      match scan_forward n k s with
      | Ok (vs, y) => '(ws, e, z) <- forward_loop n fuel k y ;; Ok (vs ++ ws, e, z)
      | Err e => Ok ([], e, s)
      | UB => UB
      | OutOfFuel => OutOfFuel
      end
  end.
