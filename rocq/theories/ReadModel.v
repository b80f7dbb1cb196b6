(** Model of the range reading algorithms.  src/scn/impl.h:775-1126, 1918-2395,
    3061-3077. *)
From Verif Require Import Prelude Tables UnicodeModel WhitespaceModel.
Local Open Scope Z_scope.

(** How a source range is stored.  A position in a range is the list of units from
    there to the end of the range.
    - [s_contig]: contiguous, sized range (const CharT* pair).  Otherwise a range of
      forward_iterators of a scan buffer or of counted_width_iterators.
    - [s_seg n]: size of get_contiguous_beginning (impl.h:1021-1045) of the range
      starting where [n] units are left; 0 for a take_width_view.  Values above [n]
      are clipped by [firstn].  The real segment also depends on what has been
      buffered so far; being arbitrary, [s_seg] covers every such history in which
      the segment at a position does not change while a reader runs. *)
Record src : Type := Src { s_enc : enc; s_contig : bool; s_seg : nat -> nat }.

(** make_contiguous_buffer(range).view(), contiguous beginning *)
Definition contiguous_beginning (r : src) (s : list Z) : list Z :=
  if s_contig r then s else firstn (s_seg r (length s)) s.

(** src/scn/impl.h:803-843: parse_expected.  [inl]: value. *)
Inductive perr : Type := PEof | PError.
Definition pexp (A : Type) : Type := (A + perr)%type.

(** src/scn/impl.h:1941-1950, read_code_unit *)
Definition read_code_unit (s : list Z) : pexp (list Z) :=
  match s with [] => inr PEof | _ :: s' => inl s' end.

(** src/scn/impl.h:1952-1979, read_exactly_n_code_units.  All three variants stop
    at the end of the range.  [UB]: SCN_EXPECT(count >= 0). *)
Definition read_exactly_n_code_units (s : list Z) (count : Z)
  : outcome (pexp (list Z)) :=
  if count <? 0 then UB
  else if Z.of_nat (length s) <? count then Ok (inr PEof)
  else Ok (inl (skipn (Z.to_nat count) s)).

(** src/scn/impl.h:1981-2017, read_code_point_into: position after the code point
    and the units of the code point (empty: invalid).  A code point cut off by the
    end of the range is returned truncated. *)
Definition read_code_point_into (e : enc) (s : list Z)
  : outcome (list Z * list Z) :=
  match s with
  | [] => UB
  | c :: s' =>
      match cp_len e c with
      | O => Ok (get_start_for_next_code_point e s', [])
      | len => Ok (skipn len s, firstn len s)
      end
  end.

(** src/scn/impl.h:2019-2023, read_code_point *)
Definition read_code_point (e : enc) (s : list Z) : outcome (list Z) :=
  '(rest, _) <- read_code_point_into e s ;; Ok rest.

(** src/scn/impl.h:2025-2049, read_exactly_n_code_points *)
Fixpoint read_n_code_points_loop (e : enc) (n : nat) (s : list Z)
  : outcome (pexp (list Z)) :=
  match n with
  | O => Ok (inl s)
  | S n' => match s with
            | [] => Ok (inr PEof)
            | _ => s' <- read_code_point e s ;; read_n_code_points_loop e n' s'
            end
  end.
Definition read_exactly_n_code_points (e : enc) (s : list Z) (count : Z)
  : outcome (pexp (list Z)) :=
  if count <? 0 then UB else read_n_code_points_loop e (Z.to_nat count) s.

(** src/scn/impl.h:2051-2100: read_until_code_unit, read_while_code_unit,
    read_while1_code_unit *)
Definition read_until_code_unit (p : Z -> bool) (s : list Z) : list Z := find_if p s.
Definition read_while_code_unit (p : Z -> bool) (s : list Z) : list Z :=
  read_until_code_unit (fun c => negb (p c)) s.
Definition read_while1_code_unit (p : Z -> bool) (s : list Z) : pexp (list Z) :=
  let it := read_while_code_unit p s in
  if (length it =? length s)%nat then inr PError else inl it.
Definition read_until1_code_unit (p : Z -> bool) (s : list Z) : pexp (list Z) :=
  let it := read_until_code_unit p s in
  if (length it =? length s)%nat then inr PError else inl it.

(** Does [s] start with [needle]? *)
Fixpoint starts_with (needle s : list Z) : bool :=
  match needle, s with
  | [], _ => true
  | n :: needle', c :: s' => (n =? c) && starts_with needle' s'
  | _ :: _, [] => false
  end.

(** src/scn/impl.h:2132-2154, read_while_code_units.  An empty needle does not occur
    (fill characters); it would loop forever in the source, here [OutOfFuel]. *)
Fixpoint read_while_code_units_loop (fuel : nat) (needle s : list Z)
  : outcome (list Z) :=
  match s with
  | [] => Ok []
  | _ =>
      if (length s <? length needle)%nat then Ok s
      else if negb (starts_with needle s) then Ok s
      else match fuel with
           | O => OutOfFuel
           | S f => read_while_code_units_loop f needle (skipn (length needle) s)
           end
  end.
Definition read_while_code_units (needle s : list Z) : outcome (list Z) :=
  read_while_code_units_loop (length s) needle s.

(** src/scn/impl.h:2156-2175, read_until_code_point *)
Fixpoint read_until_code_point_loop (fuel : nat) (e : enc) (p : Z -> bool)
  (s : list Z) : outcome (list Z) :=
  match s with
  | [] => Ok []
  | _ =>
      match fuel with
      | O => OutOfFuel
      | S f =>
          '(rest, cps) <- read_code_point_into e s ;;
          match cps with
          | [] => read_until_code_point_loop f e p rest
          | _ => cp <- decode_cp e cps ;;
                 if p cp then Ok s else read_until_code_point_loop f e p rest
          end
      end
  end.
Definition read_until_code_point (e : enc) (p : Z -> bool) (s : list Z)
  : outcome (list Z) :=
  read_until_code_point_loop (length s) e p s.

(** src/scn/impl.h:2177-2182, read_while_code_point *)
Definition read_while_code_point (e : enc) (p : Z -> bool) (s : list Z)
  : outcome (list Z) :=
  read_until_code_point e (fun cp => negb (p cp)) s.

(** src/scn/impl.h:2184-2211, read_until_classic_space *)
Definition read_until_classic_space (r : src) (s : list Z) : outcome (list Z) :=
  match s_enc r, s_contig r with
  | U8, true => find_classic_space_narrow_fast s
  | U8, false =>
      let seg := contiguous_beginning r s in
      f <- find_classic_space_narrow_fast seg ;;
      match f with
      | [] => read_until_code_point U8 is_cp_space (skipn (length seg) s)
      | _ => Ok (skipn (length seg - length f) s)
      end
  | e, _ => read_until_code_point e is_cp_space s
  end.

(** src/scn/impl.h:2213-2240, read_while_classic_space.  In the last step the source
    restarts from [range], not from [it]. *)
Definition read_while_classic_space (r : src) (s : list Z) : outcome (list Z) :=
  match s_enc r, s_contig r with
  | U8, true => find_classic_nonspace_narrow_fast s
  | U8, false =>
      let seg := contiguous_beginning r s in
      f <- find_classic_nonspace_narrow_fast seg ;;
      match f with
      | [] => read_while_code_point U8 is_cp_space s
      | _ => Ok (skipn (length seg - length f) s)
      end
  | e, _ => read_while_code_point e is_cp_space s
  end.

(** src/scn/impl.h:2242-2257, read_matching_code_unit *)
Definition read_matching_code_unit (ch : Z) (s : list Z) : pexp (list Z) :=
  match s with
  | [] => inr PEof
  | c :: s' => if c =? ch then inl s' else inr PError
  end.

(** src/scn/impl.h:2274-2315, read_matching_string / read_matching_string_classic *)
Definition read_matching_string (str s : list Z) : pexp (list Z) :=
  if (length s <? length str)%nat then inr PEof
  else if starts_with str s then inl (skipn (length str) s)
  else inr PError.

(** src/scn/impl.h:2317-2325, fast_streq_nocase on the first [len] units *)
Fixpoint running_diff (a b : list Z) : Z :=
  match a, b with
  | x :: a', y :: b' => Z.lor (Z.lxor x y) (running_diff a' b')
  | _, _ => 0
  end.
Definition fast_streq_nocase (a b : list Z) : bool :=
  let d := running_diff a b in (d =? 0) || (d =? 32).

(** src/scn/impl.h:2344-2350, ascii_tolower *)
Definition ascii_tolower (ch : Z) : Z :=
  if (ch <? 65) || (90 <? ch) then ch else ch + 32.

(** std::equal with the predicate of impl.h:2356-2361 on the first units of [s]. *)
Fixpoint equal_nocase (str s : list Z) : bool :=
  match str, s with
  | [], _ => true
  | n :: str', c :: s' => (ascii_tolower c =? n) && equal_nocase str' s'
  | _ :: _, [] => false
  end.

(** src/scn/impl.h:2327-2366, read_matching_string_classic_nocase *)
Definition read_matching_string_classic_nocase (r : src) (str s : list Z)
  : pexp (list Z) :=
  if (length s <? length str)%nat then inr PEof
  else
    let eq := match s_enc r, s_contig r with
              | U8, true => fast_streq_nocase (firstn (length str) s) str
              | _, _ => equal_nocase str s
              end in
    if eq then inl (skipn (length str) s) else inr PError.

(** src/scn/impl.h:2368-2383, read_one_of_code_unit *)
Definition read_one_of_code_unit (str s : list Z) : pexp (list Z) :=
  match s with
  | [] => inr PEof
  | c :: s' => if existsb (Z.eqb c) str then inl s' else inr PError
  end.

(** src/scn/impl.h:2385-2395, apply_opt *)
Definition apply_opt (x : pexp (list Z)) (s : list Z) : list Z :=
  match x with inl it => it | inr _ => s end.

(** src/scn/impl.h:3061-3077, skip_classic_whitespace, with the eof error mapped by
    make_eof_scan_error (impl.h:795-799), as all callers do. *)
Definition skip_classic_whitespace (r : src) (s : list Z) (allow_exhaustion : bool)
  : outcome (list Z) :=
  it <- read_while_classic_space r s ;;
  if allow_exhaustion then Ok it
  else match it with [] => Err EndOfInput | _ => Ok it end.

(** src/scn/impl.h:5832-5844, skip_ws_before_if_required *)
Definition skip_ws_before_if_required (r : src) (required : bool) (s : list Z)
  : outcome (list Z) :=
  match s with
  | [] => Err EndOfInput
  | _ => if required then skip_classic_whitespace r s false else Ok s
  end.
