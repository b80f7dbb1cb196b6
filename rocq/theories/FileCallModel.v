(** Model of a call of scn::scan on a FILE: a new buffer for the file, the scan, and the
    synchronisation of the file with what was consumed.  Format strings as in [SegmentModel]. *)
From Verif Require Import Prelude BufferModel SegmentModel.
Local Open Scope Z_scope.

(** src/scn/impl.cpp:1873-1879, vscan_impl on a scan_buffer, with include/scn/scan.h:5188-5191
    (make_file_scan_buffer); scn::input, impl.cpp:1820-1839, is the same on stdin.  The file after a
    scan that fails is not part of the result: what sync_after_vscan does then is C15. *)
Definition scan_file (fuel : nat) (ps : list piece) (f : stream) : outcome (list scanned * stream) :=
  '(vs, q, b) <- scan_pieces fuel ps 0 (file_buffer f) ;;
  '(r, b) <- sync_after_vscan b (inl q) ;;
  match r, source b with
  | inl _, File f => Ok (vs, f)
  | inr e, _ => Err e
  | _, _ => UB
  end.
(** The same for files without direct access to their get area *)
Definition scan_getc (fuel : nat) (ps : list piece) (f : gstream) : outcome (list scanned * gstream) :=
  '(vs, q, b) <- scan_pieces fuel ps 0 (getc_buffer f) ;;
  '(r, b) <- sync_after_vscan b (inl q) ;;
  match r, source b with
  | inl _, Getc f => Ok (vs, f)
  | inr e, _ => Err e
  | _, _ => UB
  end.

(** Successive calls, one value each: the type of the value, the literal text that follows it in
    the format string, and how many characters ungetc accepts during the call (a place taken
    is free again when the character has been read, so this is not a sum over the calls) *)
Definition call : Type := kind * list Z * nat.
Fixpoint file_calls (fuel : nat) (cs : list call) (f : stream) : outcome (list scanned * stream) :=
  match cs with
  | [] => Ok ([], f)
  | (k, last, n) :: cs' =>
      '(vs, f) <- scan_file fuel [Text []; Braces k; Text last] (Stream (area f) (reads f) n) ;;
      '(ws, f) <- file_calls fuel cs' f ;;
      Ok (vs ++ ws, f)
  end.
Fixpoint getc_calls (fuel : nat) (cs : list call) (f : gstream) : outcome (list scanned * gstream) :=
  match cs with
  | [] => Ok ([], f)
  | (k, last, n) :: cs' =>
      '(vs, f) <- scan_getc fuel [Text []; Braces k; Text last] (GStream (chars f) n) ;;
      '(ws, f) <- getc_calls fuel cs' f ;;
      Ok (vs ++ ws, f)
  end.
