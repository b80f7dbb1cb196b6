(** Model of the buffers that non-contiguous sources are read through.
    include/scn/scan.h:4325-5166, src/scn/impl.h:1132-1229.
    Positions are [nat]; overflow of [ptrdiff_t] is not modelled.  An iterator is its
    position: the buffer it belongs to is the state passed around. *)
From Verif Require Import Prelude.
Local Open Scope Z_scope.

(** A C stream with direct access to its get area: include/scn/scan.h:4925-5032 and the
    parts of stdio used there.
    [area]: the unread part of the get area ([None]: no get area yet, the pointers are
    null); [reads]: what the operating system delivers on each later
    refill, the empty list being end of file or an error at that time;
    [room]: how many characters ungetc still accepts (ISO C guarantees one). *)
Record stream : Type := Stream { area : option (list Z); reads : list (list Z); room : nat }.
(** 4968-4972, buffer *)
Definition get_area (f : stream) : list Z := match area f with Some a => a | None => [] end.
(** 4973-4978, unsafe_advance_n; SCN_EXPECT of a get area and of enough characters *)
Definition unsafe_advance_n (n : nat) (f : stream) : outcome stream :=
  match area f with
  | None => UB
  | Some a => if (length a <? n)%nat then UB
              else Ok (Stream (Some (skipn n a)) (reads f) (room f))
  end.
(** 4979-4984, fill_buffer: __uflow refills the get area and takes one character, which is
    given back.  Called with an empty get area only. *)
Definition fill_buffer (f : stream) : stream :=
  match reads f with
  | [] => Stream (Some []) [] (room f)
  | l :: ls => Stream (Some l) ls (room f)
  end.
(** 4959-4962, putback: ungetc *)
Definition ungetc (c : Z) (f : stream) : option stream :=
  match room f with
  | O => None
  | S n => Some (Stream (Some (c :: get_area f)) (reads f) n)
  end.

(** A C stream read with fgetc: include/scn/scan.h:4881-4923.  [chars]: results of the
    later calls, [None] being EOF. *)
Record gstream : Type := GStream { chars : list (option Z); groom : nat }.
Definition read_one (f : gstream) : option Z * gstream :=
  match chars f with
  | [] => (None, f)
  | c :: cs => (c, GStream cs (groom f))
  end.
Definition gungetc (c : Z) (f : gstream) : option gstream :=
  match groom f with
  | O => None
  | S n => Some (GStream (Some c :: chars f) n)
  end.

(** Where a buffer gets its data from.
    [Forward rest]: basic_scan_forward_buffer_impl (4744-4797), [rest] being
    [m_cursor, end); [File f]: basic_scan_file_buffer with has_buffering;
    [Getc f]: the same without; [Ref b start prop]: basic_scan_ref_buffer (5120-5165) on
    the buffer [b], [prop] being m_fill_needs_to_propagate. *)
Inductive origin : Type :=
| Forward (rest : list Z)
| File (f : stream)
| Getc (f : gstream)
| Ref (b : buffer) (start : nat) (prop : bool)
(** basic_scan_buffer, 4325-4438: put-back buffer and current view *)
with buffer : Type :=
| Buffer (putback view : list Z) (o : origin).

Definition putback (b : buffer) : list Z := let (p, _, _) := b in p.
Definition view (b : buffer) : list Z := let (_, v, _) := b in v.
Definition source (b : buffer) : origin := let (_, _, o) := b in o.

(** 4355-4358 *)
Definition chars_available (b : buffer) : nat := (length (putback b) + length (view b))%nat.
(** 4374-4384 *)
Definition get_segment_starting_at (pos : nat) (b : buffer) : outcome (list Z) :=
  if (pos <? length (putback b))%nat then Ok (skipn pos (putback b))
  else let start := (pos - length (putback b))%nat in
       if (length (view b) <? start)%nat then UB else Ok (skipn start (view b)).
(** 4386-4395 *)
Definition get_character_at (pos : nat) (b : buffer) : outcome Z :=
  if (pos <? length (putback b))%nat then
    match nth_error (putback b) pos with Some c => Ok c | None => UB end
  else match nth_error (view b) (pos - length (putback b)) with
       | Some c => Ok c
       | None => UB
       end.

(** fill: 4769-4790 (forward), impl.h:1148-1177 (file), 5140-5159 (reference).
    The recursion follows the chain of reference buffers. *)
Fixpoint fill (b : buffer) : outcome (bool * buffer) :=
  match b with
  | Buffer p v o =>
      match o with
      | Forward [] => Ok (false, b)
      | Forward (c :: rest) => Ok (true, Buffer (p ++ v) [c] (Forward rest))
      | File f =>
          let p' := p ++ v in
          f1 <- (match v with [] => Ok f | _ => unsafe_advance_n (length v) f end) ;;
          let f2 := match get_area f1 with [] => fill_buffer f1 | _ => f1 end in
          let v' := get_area f2 in
          Ok (match v' with [] => false | _ => true end, Buffer p' v' (File f2))
      | Getc f =>
          let p' := p ++ v in
          match read_one f with
          | (None, f') => Ok (false, Buffer p' [] (Getc f'))
          | (Some c, f') => Ok (true, Buffer p' [c] (Getc f'))
          end
      | Ref other start true =>
          '(ret, other') <- fill other ;;
          (* std::basic_string::substr throws when start is past the end *)
          if (length (putback other') <? start)%nat then UB
          else Ok (ret, Buffer (skipn start (putback other')) (view other')
                               (Ref other' start true))
      | Ref other start false =>
          Ok (true, Buffer v (view other) (Ref other start true))
      end
  end.

(** 5125-5133, the constructor of basic_scan_ref_buffer on a non-contiguous buffer.  The
    comparison of segment ends is a comparison of addresses: put-back buffer and current
    view are different objects. *)
Definition make_ref (b : buffer) (pos : nat) : outcome buffer :=
  v <- get_segment_starting_at pos b ;;
  let prop := match putback b with [] => true | _ => (pos <? length (putback b))%nat end in
  Ok (Buffer [] v (Ref b pos prop)).

(** New buffers: 4761-4767; impl.h:1134-1140 *)
Definition forward_buffer (s : list Z) : buffer := Buffer [] [] (Forward s).
Definition file_buffer (f : stream) : buffer := Buffer [] [] (File f).
Definition getc_buffer (f : gstream) : buffer := Buffer [] [] (Getc f).

(** 4581-4599, read_at_position *)
Fixpoint read_at_loop (fuel : nat) (pos : nat) (b : buffer) : outcome (bool * buffer) :=
  if (pos <? chars_available b)%nat then Ok (true, b)
  else match fuel with
       | O => OutOfFuel
       | S fuel' =>
           '(ok, b') <- fill b ;;
           if ok : bool then read_at_loop fuel' pos b' else Ok (false, b')
       end.
Definition read_at_position (pos : nat) (b : buffer) : outcome (bool * buffer) :=
  read_at_loop (S (S (pos - chars_available b))) pos b.

(** Operations of forward_iterator: 4502-4507 [++], 4516-4529 [*], 4601-4610 comparison
    with the sentinel, 4488-4496 contiguous_segment. *)
Inductive op : Type := Deref (p : nat) | Next (p : nat) | AtEnd (p : nat) | Segment (p : nat).
Inductive obs : Type := Char (c : Z) | Moved | End (b : bool) | Seg (l : list Z).
Definition step (o : op) (b : buffer) : outcome (obs * buffer) :=
  match o with
  | Deref p => '(ok, b') <- read_at_position p b ;;
               if ok : bool then c <- get_character_at p b' ;; Ok (Char c, b') else UB
  | Next p => '(_, b') <- read_at_position (S p) b ;; Ok (Moved, b')
  | AtEnd p => '(ok, b') <- read_at_position p b ;; Ok (End (negb ok), b')
  | Segment p => l <- get_segment_starting_at p b ;; Ok (Seg l, b)
  end.
Fixpoint run (ops : list op) (b : buffer) : outcome (list obs * buffer) :=
  match ops with
  | [] => Ok ([], b)
  | o :: ops' =>
      '(x, b1) <- step o b ;;
      '(xs, b2) <- run ops' b1 ;;
      Ok (x :: xs, b2)
  end.

(** [for (auto it = begin; it != end; ++it) out.push_back( *it)], src/scn/impl.h:1761-1765 *)
Fixpoint collect (fuel : nat) (p : nat) (b : buffer) : outcome (list Z * buffer) :=
  match fuel with
  | O => OutOfFuel
  | S fuel' =>
      '(ok, b1) <- read_at_position p b ;;
      if ok : bool then
        '(ok2, b2) <- read_at_position p b1 ;;
        if ok2 : bool then
          c <- get_character_at p b2 ;;
          '(_, b3) <- read_at_position (S p) b2 ;;
          '(l, b4) <- collect fuel' (S p) b3 ;;
          Ok (c :: l, b4)
        else UB
      else Ok ([], b1)
  end.

(** src/scn/impl.h:1179-1229, basic_scan_file_buffer::sync.  prepare_putback and
    finalize_putback (locking) are left out. *)
Fixpoint putback_all (l : list Z) (f : stream) : bool * stream :=
  match l with
  | [] => (true, f)
  | c :: l' => match ungetc c f with
               | None => (false, f)
               | Some f' => putback_all l' f'
               end
  end.
Definition sync_file (pos : nat) (p : list Z) (f : stream) : outcome (bool * stream) :=
  if (pos <? length p)%nat then Ok (putback_all (rev (skipn pos p)) f)
  else f' <- unsafe_advance_n (pos - length p) f ;; Ok (true, f').
Fixpoint gputback_all (l : list Z) (f : gstream) : bool * gstream :=
  match l with
  | [] => (true, f)
  | c :: l' => match gungetc c f with
               | None => (false, f)
               | Some f' => gputback_all l' f'
               end
  end.
Definition sync_getc (pos : nat) (p v : list Z) (f : gstream) : outcome (bool * gstream) :=
  if (pos =? length p + length v)%nat then Ok (true, f)
  else match v with
       | [c] =>
           (* the result of this call is not checked *)
           let f1 := match gungetc c f with Some f1 => f1 | None => f end in
           if (length p <? pos)%nat then UB
           else Ok (gputback_all (rev (skipn pos p)) f1)
       | _ => UB
       end.
(** 4344-4348: other buffers have nothing to synchronise *)
Definition sync (pos : nat) (b : buffer) : outcome (bool * buffer) :=
  match source b with
  | File f => '(ok, f') <- sync_file pos (putback b) f ;;
              Ok (ok, Buffer (putback b) (view b) (File f'))
  | Getc f => '(ok, f') <- sync_getc pos (putback b) (view b) f ;;
              Ok (ok, Buffer (putback b) (view b) (Getc f'))
  | _ => Ok (true, b)
  end.
(** src/scn/impl.cpp:1845-1866, sync_after_vscan (also vinput, 1820-1839): [result] is the
    position reached or the error of the scan *)
Definition sync_after_vscan (b : buffer) (result : nat + err)
  : outcome ((nat + err) * buffer) :=
  '(ok, b') <- sync (match result with inl n => n | inr _ => O end) b ;;
  Ok (if ok : bool then result else inr InvalidSourceState, b').
