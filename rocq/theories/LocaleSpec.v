(** Specification: format strings none of whose fields has the flag 'L'. *)
From Verif Require Import Prelude UnicodeModel.
Local Open Scope Z_scope.

Fixpoint before_brace (s : list Z) : list Z :=
  match s with [] => [] | c :: s' => if c =? 125 then [] else c :: before_brace s' end.
(** Units in the character that begins with [c]. *)
Definition character_length (e : enc) (c : Z) : nat :=
  match e with
  | U8 => if c <? 0x80 then 1%nat else if c <? 0xc0 then 0%nat else if c <? 0xe0 then 2%nat
          else if c <? 0xf0 then 3%nat else if c <? 0xf8 then 4%nat else 0%nat
  | _ => 1%nat
  end.
(** The format-spec beginning here: up to the next closing brace, which the first character
    is not, as it may be the fill; the units after the first of it do not matter. *)
Definition spec_start (e : enc) (s : list Z) : list Z :=
  match s with [] => [] | c :: t => c :: before_brace (skipn (character_length e c - 1) t) end.
(** It does not have 'L'; '{', which cannot be the fill, does not begin it. *)
Definition plain_start (e : enc) (s : list Z) : Prop :=
  match s with 123 :: _ => False | _ => True end /\ ~ In 76 (spec_start e s).
(** So for what follows each opening brace, digits and colon. *)
Definition no_local_field (e : enc) (format : list Z) : Prop :=
  forall a ds c s, format = a ++ 123 :: ds ++ 58 :: c :: s -> Forall (fun d => 48 <= d <= 57) ds ->
  plain_start e (c :: s).
