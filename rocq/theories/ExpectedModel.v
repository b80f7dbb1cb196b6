(** Model of scn::expected<T, E>, the type returned by scan (scan_expected<T> is
    expected<T, scan_error>): include/scn/scan.h:335-384 (unexpected), 391-412 (construct_at,
    destroy_at), 417-840 (storage), 842-1170 (copy and move), 1173-1309 (deleted members),
    1342-1508 (and_then and the like), 1520-2070 (the class). *)
From Verif Require Import Prelude.

(** What the type traits say of T and E.  Copies, moves and assignments of T and E may throw
    where the trait does not exclude it.
    [t_make]: std::is_nothrow_constructible_v<T, Args&&...> for the arguments of emplace and of
    operator=(U&&); [t_assign]: std::is_nothrow_assignable_v<T, ...>, of copies, moves and of
    U&& alike; [t_trivial]: std::is_trivially_destructible_v<T>; [t_plain]:
    std::is_trivially_copyable_v<T>; [u_self]: the operand of operator=(U&&) can be
    constructed from itself without throwing (scan.h:2026-2028).
    expected<void, E> is expected<T, E> for a T without contents: all traits of T are true. *)
Record traits := Traits {
  t_copy : bool; t_move : bool; t_make : bool; t_default : bool; t_assign : bool; t_trivial : bool; t_plain : bool;
  u_self : bool;
  e_copy : bool; e_move : bool; e_assign : bool; e_trivial : bool; e_plain : bool
}.

Section Expected.
Context {V E : Type} (tr : traits).
(** What a move leaves behind, and what an assignment that throws leaves in its target
    ("valid but unspecified"): any functions. *)
Context (left_v : bool -> V -> V) (left_e : bool -> E -> E) (spoil_v : V -> V -> V) (spoil_e : E -> E -> E).
(** The value of T{}. *)
Context (zero : V).

(** The object living in the storage (m_value and m_unexpected of the union, scan.h:514-518, or
    m_memory, 745), and m_has_value. *)
Inductive cell := Raw | LiveV (v : V) | LiveE (e : E).
(** The state of one operation.  [lost]: objects with a destructor that is not trivial, whose
    storage was reused without running it.  [tape]: which of the operations of T and E that
    may throw do. *)
Record state := State { cl : cell; has_value : bool; lost : list (V + E); tape : list bool }.
Inductive result := Returns (s : state) | Throws (s : state) | Undefined | Terminates | Uncompiled.
Definition then_ (x : result) (k : state -> result) : result :=
  match x with Returns s => k s | _ => x end.
(** try { x } catch (...) { k } *)
Definition catch_ (x : result) (k : state -> result) : result :=
  match x with Throws s => k s | _ => x end.
(** A function that is noexcept. *)
Definition noexcept_ (b : bool) (x : result) : result :=
  match x with Throws s => if b then Terminates else x | _ => x end.
(** throw; in a catch block. *)
Definition rethrow (x : result) : result :=
  match x with Returns s => Throws s | _ => x end.

Definition with_cell (c : cell) (s : state) : state := State c (has_value s) (lost s) (tape s).
(** Does the next operation, of the trait [nothrow], throw? *)
Definition throws (nothrow : bool) (s : state) : bool * state :=
  if nothrow then (false, s)
  else match tape s with
       | b :: t => (b, State (cl s) (has_value s) (lost s) t)
       | [] => (false, s)
       end.
(** An operation on objects elsewhere, as temporaries. *)
Definition elsewhere (nothrow : bool) (s : state) : result :=
  let '(b, s) := throws nothrow s in if b then Throws s else Returns s.

(** Reuse of the storage, scan.h:391-398: ::new ends the lifetime of what is there. *)
Definition reuse (s : state) : state :=
  let l := match cl s with
           | LiveV v => if t_trivial tr then lost s else inl v :: lost s
           | LiveE e => if e_trivial tr then lost s else inr e :: lost s
           | Raw => lost s
           end in
  State Raw (has_value s) l (tape s).
(** construct, construct_unexpected: scan.h:493-507, 690-704. *)
Definition construct (nothrow : bool) (v : V) (s : state) : result :=
  then_ (elsewhere nothrow (reuse s)) (fun s => Returns (State (LiveV v) true (lost s) (tape s))).
Definition construct_unexpected (nothrow : bool) (e : E) (s : state) : result :=
  then_ (elsewhere nothrow (reuse s)) (fun s => Returns (State (LiveE e) false (lost s) (tape s))).
(** The storage of scan.h:422-520 (and 522-598) is for types with trivial destructors. *)
Definition trivial_storage : bool := t_trivial tr && e_trivial tr.
(** destroy_value, destroy_unexpected: scan.h:509-511, 706-713.  A trivial destructor has no
    effect, on whatever is there. *)
Definition destroy_value (s : state) : result :=
  if trivial_storage then Returns s
  else match cl s with
       | LiveV _ => Returns (with_cell Raw s)
       | _ => if t_trivial tr then Returns s else Undefined
       end.
Definition destroy_unexpected (s : state) : result :=
  if trivial_storage then Returns s
  else match cl s with
       | LiveE _ => Returns (with_cell Raw s)
       | _ => if e_trivial tr then Returns s else Undefined
       end.
(** scan.h:641-649: the destructor. *)
Definition destructor (s : state) : result :=
  if trivial_storage then Returns (with_cell Raw s)
  else if has_value s then destroy_value s else destroy_unexpected s.
(** get_value and get_unexpected, scan.h:452-486 and 651-683, for reading: of what the storage does not
    hold, undefined. *)
Definition get_value (s : state) (k : V -> result) : result :=
  match cl s with LiveV v => k v | _ => Undefined end.
Definition get_unexpected (s : state) (k : E -> result) : result :=
  match cl s with LiveE e => k e | _ => Undefined end.
(** this->get_value() = v, scan.h:963-970 and 2030-2033; get_unexpected() = e, scan.h:972-979 and
    2062-2065. *)
Definition assign_to_value (v : V) (s : state) : result :=
  get_value s (fun old =>
    let '(b, s) := throws (t_assign tr) s in
    if b then Throws (with_cell (LiveV (spoil_v old v)) s) else Returns (with_cell (LiveV v) s)).
Definition assign_to_unexpected (e : E) (s : state) : result :=
  get_unexpected s (fun old =>
    let '(b, s) := throws (e_assign tr) s in
    if b then Throws (with_cell (LiveE (spoil_e old e)) s) else Returns (with_cell (LiveE e) s)).

(** The other operand of a copy or move, as it is. *)
Record other := Other { o_cell : cell; o_has : bool }.
Definition other_value (o : other) (k : V -> result) : result :=
  match o_cell o with LiveV v => k v | _ => Undefined end.
Definition other_error (o : other) (k : E -> result) : result :=
  match o_cell o with LiveE e => k e | _ => Undefined end.

(** construct_common, scan.h:910-925, in the body of the copy (move: [mv]) constructor of
    scan.h:867-880: if it throws, the storage, already constructed with deferred_init_tag
    (scan.h:616-619), is destroyed. *)
Definition copy_construct (mv : bool) (o : other) (s : state) : result :=
  let n_t := if mv then t_move tr else t_copy tr in
  let n_e := if mv then e_move tr else e_copy tr in
  let s := State Raw false (lost s) (tape s) in
  catch_
    (if o_has o then other_value o (fun v => construct n_t v s)
     else other_error o (fun e => construct_unexpected n_e e s))
    (fun s => rethrow (destructor s)).

(** scan.h:982-1009: a value over an error, by copy.  The third branch does not compile
    (get_unexpecetd, other.get()). *)
Definition copy_over_unexpected (v : V) (s : state) : result :=
  noexcept_ (t_copy tr || t_move tr)
    (if t_copy tr then then_ (destroy_unexpected s) (construct (t_copy tr) v)
     else if t_move tr then
       then_ (elsewhere (t_copy tr) s) (fun s => then_ (destroy_unexpected s) (construct (t_move tr) v))
     else Uncompiled).
(** scan.h:1011-1031: a value over an error, by move. *)
Definition move_over_unexpected (v : V) (s : state) : result :=
  noexcept_ (t_move tr)
    (if t_move tr then then_ (destroy_unexpected s) (construct (t_move tr) v)
     else get_unexpected s (fun tmp =>
       then_ (elsewhere (e_move tr) s) (fun s =>
       then_ (destroy_unexpected s) (fun s =>
       catch_ (construct (t_move tr) v s)
         (fun s => rethrow (construct_unexpected (e_move tr) tmp s)))))).
(** scan.h:1040-1048. *)
Definition unexpected_over_value (nothrow : bool) (e : E) (s : state) : result :=
  then_ (destroy_value s) (construct_unexpected nothrow e).
(** operator= by copy (move: [mv]): scan.h:882-905, assign_common 927-961. *)
Definition assign_common (mv : bool) (o : other) (s : state) : result :=
  noexcept_ (t_assign tr && e_assign tr && (if mv then t_move tr else t_copy tr || t_move tr)
             && (if mv then e_move tr else e_copy tr))
    (if has_value s then
       if o_has o then other_value o (fun v => assign_to_value v s)
       else other_error o (fun e => unexpected_over_value (if mv then e_move tr else e_copy tr) e s)
     else
       if o_has o then other_value o (fun v => if mv then move_over_unexpected v s else copy_over_unexpected v s)
       else other_error o (fun e => assign_to_unexpected e s)).

(** operator=(U&&): scan.h:2024-2055 (with exceptions enabled). *)
Definition assign_value (v : V) (s : state) : result :=
  noexcept_ (u_self tr && t_assign tr)
    (if has_value s then assign_to_value v s
     else if t_make tr then then_ (destroy_unexpected s) (construct (t_make tr) v)
     else get_unexpected s (fun tmp =>
       then_ (elsewhere (e_move tr) s) (fun s =>
       then_ (destroy_unexpected s) (fun s =>
       catch_ (construct (t_make tr) v s) (construct_unexpected (e_move tr) tmp))))).
(** operator=(unexpected_type): scan.h:2057-2069; noexcept only if E can be constructed from
    unexpected<E>. *)
Definition assign_unexpected (e : E) (s : state) : result :=
  if negb (has_value s) then assign_to_unexpected e s
  else then_ (destroy_value s) (construct_unexpected (e_copy tr) e).
(** emplace: scan.h:1724-1735 and emplace_impl, 1992-2022. *)
Definition emplace (v : V) (s : state) : result :=
  noexcept_ (t_make tr)
    (if has_value s then then_ (destroy_value s) (construct (t_make tr) v)
     else if t_make tr then
       get_unexpected s (fun tmp =>
       then_ (elsewhere (e_move tr) s) (fun s =>
       then_ (destroy_unexpected s) (fun s =>
       catch_ (construct (t_make tr) v s) (fun s => rethrow (construct_unexpected (e_move tr) tmp s)))))
     else construct (t_make tr) v s).

(** The default constructor: scan.h:424-428, and 611-614, which is noexcept whatever T is. *)
Definition default_construct (s : state) : result :=
  noexcept_ (t_default tr || negb trivial_storage)
    (construct (t_default tr) zero (State Raw true (lost s) (tape s))).
(** From a value, or from an error in place: scan.h:435-450, 621-639. *)
Definition value_construct (v : V) (s : state) : result :=
  construct (t_make tr) v (State Raw true (lost s) (tape s)).
Definition error_construct (e : E) (s : state) : result :=
  construct_unexpected (e_copy tr) e (State Raw false (lost s) (tape s)).
(** From an expected<U, G>: scan.h:1628-1702, the value or the error converted to [c]: the
    default constructor of the base runs first.  If the body throws, the base is destroyed. *)
Definition convert_construct (c : V + E) (s : state) : result :=
  then_ (default_construct s) (fun s =>
    catch_
      (match c with
       | inl v => construct (t_make tr) v s
       | inr e => construct_unexpected (e_copy tr) e s
       end)
      (fun s => rethrow (destructor s))).

(** * Programs: variables of the type, and statements on them; an exception is caught after the
    statement, which then has no further effect. *)
Inductive op :=
| Default | FromValue (v : V) | FromError (e : E) | FromCopy (j : nat) | FromMove (j : nat) | Convert (c : V + E)
| AssignCopy (i j : nat) | AssignMove (i j : nat) | AssignValue (i : nat) (v : V) | AssignError (i : nat) (e : E)
| Emplace (i : nat) (v : V)
| Drop.  (** the end of life of the variable made last *)
Definition set {A} (i : nat) (a : A) (l : list A) : list A :=
  firstn i l ++ match skipn i l with [] => [] | _ :: t => a :: t end.
(** The variables, what is lost, and the tape. *)
Record world := World { vars : list other; w_lost : list (V + E); w_tape : list bool }.
Inductive step_result := Completed (threw : bool) (w : world) | SUndefined | STerminates | SUncompiled.
Definition blank (w : world) : state := State Raw false (w_lost w) (w_tape w).
Definition loaded (o : other) (w : world) : state := State (o_cell o) (o_has o) (w_lost w) (w_tape w).
Definition packed (s : state) : other := Other (cl s) (has_value s).
(** A new variable: none if its constructor throws, and its storage goes away. *)
Definition declare (w : world) (x : result) : step_result :=
  match x with
  | Returns s => Completed false (World (vars w ++ [packed s]) (lost s) (tape s))
  | Throws s => Completed true (World (vars w) (lost (reuse s)) (tape s))
  | Undefined => SUndefined | Terminates => STerminates | Uncompiled => SUncompiled
  end.
Definition update (w : world) (i : nat) (x : result) : step_result :=
  match x with
  | Returns s => Completed false (World (set i (packed s) (vars w)) (lost s) (tape s))
  | Throws s => Completed true (World (set i (packed s) (vars w)) (lost s) (tape s))
  | Undefined => SUndefined | Terminates => STerminates | Uncompiled => SUncompiled
  end.
(** What a move leaves in its operand, if it was reached. *)
Definition moved_from (threw : bool) (o : other) : other :=
  Other (match o_cell o with
         | LiveV v => LiveV (left_v threw v) | LiveE e => LiveE (left_e threw e) | Raw => Raw end) (o_has o).
Definition leave (j : nat) (x : step_result) : step_result :=
  match x with
  | Completed b w => match nth_error (vars w) j with
                     | Some o => Completed b (World (set j (moved_from b o) (vars w)) (w_lost w) (w_tape w))
                     | None => x
                     end
  | _ => x
  end.
(** A statement on a variable that does not exist has no effect.  scan.h:848-856: if T and E are
    trivially copyable, copies and moves copy the bytes. *)
Definition step (o : op) (w : world) : step_result :=
  let on i k := match nth_error (vars w) i with Some x => k x | None => Completed false w end in
  let plain := t_plain tr && e_plain tr in
  match o with
  | Default => declare w (default_construct (blank w))
  | FromValue v => declare w (value_construct v (blank w))
  | FromError e => declare w (error_construct e (blank w))
  | Convert c => declare w (convert_construct c (blank w))
  | FromCopy j => on j (fun y => if plain then declare w (Returns (loaded y w)) else declare w (copy_construct false y (blank w)))
  | FromMove j => on j (fun y => if plain then declare w (Returns (loaded y w)) else leave j (declare w (copy_construct true y (blank w))))
  | AssignCopy i j => on i (fun x => on j (fun y =>
      if plain then update w i (Returns (loaded y w)) else update w i (assign_common false y (loaded x w))))
  | AssignMove i j => on i (fun x => on j (fun y =>
      if plain then update w i (Returns (loaded y w)) else leave j (update w i (assign_common true y (loaded x w)))))
  | AssignValue i v => on i (fun x => update w i (assign_value v (loaded x w)))
  | AssignError i e => on i (fun x => update w i (assign_unexpected e (loaded x w)))
  | Emplace i v => on i (fun x => update w i (emplace v (loaded x w)))
  | Drop => match rev (vars w) with
            | [] => Completed false w
            | x :: _ => match destructor (loaded x w) with
                        | Returns s => Completed false (World (removelast (vars w)) (lost (reuse s)) (tape s))
                        | Throws s => Completed true (World (removelast (vars w)) (lost (reuse s)) (tape s))
                        | Undefined => SUndefined | Terminates => STerminates | Uncompiled => SUncompiled
                        end
            end
  end.
(** A program: which of its statements threw, and the world at the end. *)
Inductive run_result := Ran (threw : list bool) (w : world) | RUndefined | RTerminates | RUncompiled.
Fixpoint run (p : list op) (w : world) : run_result :=
  match p with
  | [] => Ran [] w
  | o :: p =>
      match step o w with
      | Completed b w => match run p w with Ran bs w => Ran (b :: bs) w | x => x end
      | SUndefined => RUndefined | STerminates => RTerminates | SUncompiled => RUncompiled
      end
  end.
Definition start (t : list bool) : world := World [] [] t.
End Expected.
Arguments cell : clear implicits.
Arguments other : clear implicits.
Arguments state : clear implicits.
Arguments result : clear implicits.
Arguments world : clear implicits.
Arguments op : clear implicits.
Arguments run_result : clear implicits.
Arguments step_result : clear implicits.

(** * Reading an expected, and and_then and the like, scan.h:1353-1508 and 1737-1990, on
    expected& and const expected&.  (On expected&&, what is left in the operand differs.)
    None: undefined, of a failed SCN_EXPECT or of an object that is not there.  The functions
    given are called by trivial_invoke (1343-1351); [calls] are the arguments they were called
    with. *)
Section Reading.
Context {V E : Type}.
(** scan.h:1744-1818: error(), value(), operator*, operator->. *)
Definition value (x : other V E) : option V :=
  if o_has x then match o_cell x with LiveV v => Some v | _ => None end else None.
Definition error (x : other V E) : option E :=
  if negb (o_has x) then match o_cell x with LiveE e => Some e | _ => None end else None.
(** scan.h:1820-1873. *)
Definition value_or (x : other V E) (d : V) : option V := if o_has x then value x else Some d.
Definition error_or (x : other V E) (d : E) : option E := if negb (o_has x) then error x else Some d.
(** A new expected, by scan.h:1559-1578 and 1613-1621. *)
Definition fresh {A B} (c : A + B) : other A B :=
  match c with inl a => Other (LiveV a) true | inr b => Other (LiveE b) false end.
Definition called {A B C} (calls : list C) (x : option (other A B)) : option (other A B * list C) :=
  match x with Some y => Some (y, calls) | None => None end.
(** scan.h:1355-1387. *)
Definition and_then {W} (x : other V E) (f : V -> other W E) : option (other W E * list V) :=
  if o_has x then match value x with Some v => Some (f v, [v]) | None => None end
  else match error x with Some e => Some (fresh (inr e), []) | None => None end.
(** scan.h:1391-1406.  Ret(exp) is a conversion, here of the same type. *)
Definition or_else {F} (x : other V E) (f : E -> other V F) : option (other V F * list E) :=
  if o_has x then match value x with Some v => Some (fresh (inl v), []) | None => None end
  else match error x with Some e => Some (f e, [e]) | None => None end.
(** scan.h:1410-1451. *)
Definition transform {W} (x : other V E) (f : V -> W) : option (other W E * list V) :=
  if o_has x then match value x with Some v => Some (fresh (inl (f v)), [v]) | None => None end
  else match error x with Some e => Some (fresh (inr e), []) | None => None end.
(** scan.h:1455-1508. *)
Definition transform_error {F} (x : other V E) (f : E -> F) : option (other V F * list E) :=
  if o_has x then match value x with Some v => Some (fresh (inl v), []) | None => None end
  else match error x with Some e => Some (fresh (inr (f e)), [e]) | None => None end.
End Reading.

(** * scan_error, scan.h:3682-3819. *)
(** enum code, scan.h:3689-3732: numbered from 0. *)
Definition code_number (c : err) : Z :=
  match c with
  | EndOfInput => 0 | InvalidFormatString => 1 | InvalidScannedValue => 2 | InvalidLiteral => 3 | InvalidFill => 4
  | LengthTooShort => 5 | InvalidSourceState => 6 | ValuePositiveOverflow => 7 | ValueNegativeOverflow => 8
  | ValuePositiveUnderflow => 9 | ValueNegativeUnderflow => 10
  end%Z.
(** scan.h:3738-3789: a code and a message. *)
Record scan_error := ScanError { m_msg : list Z; m_code : Z }.
Inductive errc := InvalidArgument | IoError | ResultOutOfRange.
(** scan.h:3761-3785: to_errc; None: SCN_UNREACHABLE. *)
Definition to_errc (x : scan_error) : option errc :=
  match m_code x with
  | 0 | 1 | 2 | 3 | 4 | 5 => Some InvalidArgument
  | 6 => Some IoError
  | 7 | 8 | 9 | 10 => Some ResultOutOfRange
  | _ => None
  end%Z.
(** scan.h:3791-3817: operator==, of errors and of an error and a code. *)
Definition error_eq (a b : scan_error) : bool := (m_code a =? m_code b)%Z.
Definition error_is (a : scan_error) (c : err) : bool := (m_code a =? code_number c)%Z.
