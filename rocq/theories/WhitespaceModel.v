(** Model of the whitespace finders of contiguous narrow sources.
    src/scn/impl.cpp:126-158, 196-221. *)
From Verif Require Import Prelude Tables BitsModel UnicodeModel.
Local Open Scope Z_scope.

(** std::find_if: the suffix at the first match, or the empty list (end). *)
Fixpoint find_if (p : Z -> bool) (s : list Z) : list Z :=
  match s with
  | [] => []
  | c :: s' => if p c then s else find_if p s'
  end.

(** src/scn/impl.cpp:145-156: the inner for loop.  [n] = sv.size(), [i] the loop
    counter, [it] the remaining source.  [inl]: returned position; [inr]: position
    when the loop ends.  [fuel] bounds the iterations. *)
Fixpoint find_classic_inner (fuel : nat) (cp_cb : Z -> bool) (n i : nat)
  (it : list Z) : outcome (list Z + list Z) :=
  if (i <? n)%nat then
    match fuel with
    | O => OutOfFuel
    | S fuel' =>
        '(cp, rest) <- get_next_code_point U8 it ;;
        if cp_cb cp then Ok (inl it)
        else find_classic_inner fuel' cp_cb n
               (S (i + (length it - length rest))) rest
    end
  else Ok (inr it).

(** src/scn/impl.cpp:126-158, find_classic_impl.  Positions are suffixes. *)
Fixpoint find_classic_loop (fuel : nat) (cu_cb cp_cb : Z -> bool) (it : list Z)
  : outcome (list Z) :=
  match it with
  | [] => Ok []
  | _ =>
      match fuel with
      | O => OutOfFuel
      | S fuel' =>
          let sv := firstn 8 it in
          nonascii <- has_nonascii_char_64 sv ;;
          if negb nonascii then
            match find_if cu_cb sv with
            | [] => find_classic_loop fuel' cu_cb cp_cb (skipn (length sv) it)
            | found => Ok (skipn (length sv - length found) it)
            end
          else
            r <- find_classic_inner (length sv) cp_cb (length sv) 0 it ;;
            match r with
            | inl found => Ok found
            | inr it' => find_classic_loop fuel' cu_cb cp_cb it'
            end
      end
  end.
Definition find_classic_impl (source : list Z) (cu_cb cp_cb : Z -> bool)
  : outcome (list Z) :=
  find_classic_loop (length source) cu_cb cp_cb source.

(** src/scn/impl.cpp:202-208 *)
Definition find_classic_space_narrow_fast (source : list Z) : outcome (list Z) :=
  find_classic_impl source is_ascii_space is_cp_space.

(** src/scn/impl.cpp:210-216 *)
Definition find_classic_nonspace_narrow_fast (source : list Z) : outcome (list Z) :=
  find_classic_impl source (fun ch => negb (is_ascii_space ch))
                    (fun cp => negb (is_cp_space cp)).

(** src/scn/impl.cpp:196-201, 218-222, find_nondecimal_digit_narrow_fast *)
Definition find_nondecimal_digit_narrow_fast (source : list Z) : list Z :=
  find_if (fun ch => negb (is_decimal_digit ch)) source.
