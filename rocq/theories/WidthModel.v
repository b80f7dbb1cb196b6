(** Model of text width and width-limited ranges.  src/scn/impl.h:2396-2950. *)
From Verif Require Import Prelude UnicodeModel.
Local Open Scope Z_scope.

(** src/scn/impl.h:2400-2424, calculate_text_width_for_fmt_v10 *)
Definition cp_width (cp : Z) : Z :=
  if (0x1100 <=? cp)
     && ((cp <=? 0x115f) || (cp =? 0x2329) || (cp =? 0x232a)
         || ((0x2e80 <=? cp) && (cp <=? 0xa4cf) && negb (cp =? 0x303f))
         || ((0xac00 <=? cp) && (cp <=? 0xd7a3))
         || ((0xf900 <=? cp) && (cp <=? 0xfaff))
         || ((0xfe10 <=? cp) && (cp <=? 0xfe19))
         || ((0xfe30 <=? cp) && (cp <=? 0xfe6f))
         || ((0xff00 <=? cp) && (cp <=? 0xff60))
         || ((0xffe0 <=? cp) && (cp <=? 0xffe6))
         || ((0x20000 <=? cp) && (cp <=? 0x2fffd))
         || ((0x30000 <=? cp) && (cp <=? 0x3fffd))
         || ((0x1f300 <=? cp) && (cp <=? 0x1f64f))
         || ((0x1f900 <=? cp) && (cp <=? 0x1f9ff)))
  then 2 else 1.

(** src/scn/impl.h:2447-2455, calculate_text_width of a string *)
Definition text_width (e : enc) (s : list Z) : outcome Z :=
  cps <- for_each_code_point e s ;;
  Ok (fold_right (fun cp n => cp_width cp + n) 0 cps).

(** src/scn/impl.h:2729-2754: _get_cp_length_at_current and
    _get_width_at_current_cp_start; [s]: from the current position to the end of the
    underlying range, not empty.  For a one-unit code point the unit itself is taken for
    the code point (units of char are below 128 there). *)
Definition width_at (e : enc) (s : list Z) : outcome Z :=
  match s with
  | [] => UB
  | c :: _ =>
      match cp_len e c with
      | O => Ok 0
      | S O => Ok (cp_width c)
      | len => if (length s <? len)%nat then Ok 0 else text_width e (firstn len s)
      end
  end.

(** src/scn/impl.h:2756-2768, _increment_current: count and multibyte_left *)
Definition increment (e : enc) (count left : Z) (s : list Z) : outcome (Z * Z) :=
  if left =? 0 then
    w <- width_at e s ;;
    Ok (count - w, match s with [] => 0 | c :: _ => Z.of_nat (cp_len e c) - 1 end)
  else Ok (count, left - 1).

(** src/scn/impl.h:2869-2875, comparison with the sentinel of take_width_view; [s] not
    empty (y.base() != m_end).  2514-2519: is_current_double_wide. *)
Definition at_end (e : enc) (count left : Z) (s : list Z) : outcome bool :=
  if (count =? 0) && (left =? 0) then Ok true
  else if (count =? 1) && (left =? 0) then w <- width_at e s ;; Ok (w =? 2)
  else Ok false.

(** src/scn/impl.h:2847-2930, take_width_view: the units from an iterator with the given
    count and multibyte_left to the end of the view. *)
Fixpoint tw_from (e : enc) (count left : Z) (s : list Z) : outcome (list Z) :=
  match s with
  | [] => Ok []
  | c :: s' =>
      stop <- at_end e count left s ;;
      if stop : bool then Ok []
      else
        '(count, left) <- increment e count left s ;;
        l <- tw_from e count left s' ;; Ok (c :: l)
  end.
Definition take_width (e : enc) (s : list Z) (n : Z) : outcome (list Z) := tw_from e n 0 s.

(** count() of the iterator [k] units into the view *)
Fixpoint tw_count (e : enc) (count left : Z) (s : list Z) (k : nat) : outcome Z :=
  match k, s with
  | S k', _ :: s' =>
      '(count, left) <- increment e count left s ;; tw_count e count left s' k'
  | _, _ => Ok count
  end.

(** Having read the view [v] of [s] up to its suffix [rest]: base() and count() of the
    iterator. *)
Definition view_base (s v rest : list Z) : list Z := skipn (length v - length rest) s.
Definition view_count (e : enc) (s v rest : list Z) (n : Z) : outcome Z :=
  tw_count e n 0 s (length v - length rest).
