(** Model of scanning through [operator>>]: include/scn/istream.h:59-209.
    The source range is the list of its characters (BufferProperties, C14); iterators are
    positions in it.  Characters are narrow, so that no character equals [traits::eof()]. *)
From Verif Require Import Prelude.
Local Open Scope Z_scope.

(** 140-144: m_begin, m_begin_prev, m_ch ([None]: eof), m_has_put_back *)
Record sbuf : Type := SBuf { sb_begin : nat; sb_prev : nat; sb_ch : option Z; sb_back : bool }.
(** 74-77 *)
Definition streambuf : sbuf := SBuf 0 0 None false.

(** 95-110 *)
Definition underflow (s : list Z) (b : sbuf) : option Z * sbuf :=
  match sb_ch b with
  | Some c => (Some c, b)
  | None => match nth_error s (sb_begin b) with
            | None => (None, b)
            | Some c => (Some c, SBuf (S (sb_begin b)) (sb_begin b) (Some c) (sb_back b))
            end
  end.
(** 112-119 *)
Definition uflow (s : list Z) (b : sbuf) : option Z * sbuf :=
  match underflow s b with
  | (None, b') => (None, b')
  | (Some c, b') => (Some c, SBuf (sb_begin b') (sb_prev b') None (sb_back b'))
  end.
(** 126-138.  [c]: the character to put back, [None] for unget; the result is whether the
    call succeeded. *)
Definition pbackfail (s : list Z) (c : option Z) (b : sbuf) : outcome (bool * sbuf) :=
  match c with
  | Some _ => UB
  | None => if sb_back b then UB
            else Ok ((sb_prev b <? length s)%nat, SBuf (sb_prev b) (sb_prev b) (sb_ch b) true)
  end.

(** What [operator>>] does with the stream: every operation of std::istream goes through
    sgetc, sbumpc, sungetc and sputbackc, which call these functions because the stream
    buffer has no get area. *)
Inductive sop : Type := Peek | Get | Unget | Putback (c : Z).
Inductive sobs : Type := Got (c : option Z) | Done (ok : bool).
Definition sstep (s : list Z) (o : sop) (b : sbuf) : outcome (sobs * sbuf) :=
  match o with
  | Peek => let (c, b') := underflow s b in Ok (Got c, b')
  | Get => let (c, b') := uflow s b in Ok (Got c, b')
  | Unget => '(r, b') <- pbackfail s None b ;; Ok (Done r, b')
  | Putback c => '(r, b') <- pbackfail s (Some c) b ;; Ok (Done r, b')
  end.
Fixpoint srun (s : list Z) (ops : list sop) (b : sbuf) : outcome (list sobs * sbuf) :=
  match ops with
  | [] => Ok ([], b)
  | o :: ops' =>
      '(x, b1) <- sstep s o b ;;
      '(xs, b2) <- srun s ops' b1 ;;
      Ok (x :: xs, b2)
  end.

(** Flags of the stream after [stream >> val] *)
Record flags : Type := Flags { f_fail : bool; f_eof : bool; f_bad : bool }.
(** 179-208: the position returned *)
Definition istream_scan (fl : flags) (b : sbuf) : outcome nat :=
  if f_fail fl || f_bad fl then
    if f_eof fl then Err EndOfInput
    else if f_bad fl then Err InvalidSourceState
    else Err InvalidScannedValue
  else match sb_ch b with
       | None => Ok (sb_begin b)
       | Some _ => Ok (sb_prev b)
       end.
