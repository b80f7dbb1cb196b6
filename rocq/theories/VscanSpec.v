(** Specification of scanning with a format string given as a list of tokens
    (documentation in include/scn/scan.h:8023-8412). *)
From Verif Require Import Prelude UnicodeModel UnicodeSpec SpecsModel FormatSpec.
Local Open Scope Z_scope.

(** Skip leading whitespace, code point by code point. *)
Definition is_ws (cp : Z) : bool := existsb (Z.eqb cp) pattern_white_space.
Fixpoint drop_space_loop (fuel : nat) (e : enc) (s : list Z) : list Z :=
  match fuel, s with
  | S f, _ :: _ =>
      match get_next_code_point e s with
      | Ok (cp, rest) => if is_ws cp then drop_space_loop f e rest else s
      | _ => s
      end
  | _, _ => s
  end.
Definition drop_space (e : enc) (s : list Z) : list Z := drop_space_loop (length s) e s.

Section Run.
Variable V : Type.
Context {D : Type}.
Variable e : enc.
(** Number of arguments, and reading the argument with the given index, without or with
    a format-spec. *)
Variable nargs : Z.
Variable read : Z -> option D -> list Z -> outcome (V * list Z).
(** Does whitespace in the format match when the source is exhausted?  The
    documentation says so ([true]). *)
Variable eof_ok : bool.
(** The error reported when reading the last of the given arguments fails with the given
    error.  By the documentation it is that error. *)
Variable fail : list Z -> err -> err.
Definition covers (used : list Z) : bool :=
  forallb (fun i => existsb (Z.eqb i) used) (zseq 0 (Z.to_nat nargs)).

(** [next]: number of the next automatic field.  [used]: arguments scanned so far.
    [ws]: the previous token was whitespace. *)
Fixpoint run (ts : list (gtoken D)) (next : Z) (used : list Z) (ws : bool) (s : list Z)
  (log : list (Z * V)) : outcome (list (Z * V) * list Z) :=
  match ts with
  | [] =>
      if covers used then Ok (log, s) else Err InvalidFormatString
  | Lit c :: ts' =>
      if is_ws c then
        if ws then run ts' next used true s log
        else match s with
             | [] => if eof_ok then run ts' next used true s log else Err InvalidLiteral
             | _ => run ts' next used true (drop_space e s) log
             end
      else match s with
           | d :: s' => if d =? c then run ts' next used false s' log else Err InvalidLiteral
           | [] => Err InvalidLiteral
           end
  | Field id d :: ts' =>
      let i := match id with Some ds => number ds | None => next end in
      if (nargs <=? i) || existsb (Z.eqb i) used then Err InvalidFormatString
      else
        match read i d s with
        | Ok (v, s') => run ts' (next + 1) (i :: used) false s' (log ++ [(i, v)])
        | Err x => Err (fail (i :: used) x)
        | UB => UB
        | OutOfFuel => OutOfFuel
        end
  end.
Definition scan_spec (ts : list (gtoken D)) (s : list Z) : outcome (list (Z * V) * list Z) :=
  run ts 0 [] false s [].
End Run.

(** The documented behaviour. *)
Definition scan_doc V {D} e nargs (read : Z -> option D -> list Z -> outcome (V * list Z)) :=
  scan_spec V e nargs read true (fun _ x => x).
(** Format-specs of the grammar are read as what they mean. *)
Definition meant {V} (e : enc) (read : Z -> option specs -> list Z -> outcome (V * list Z))
  : Z -> option desc -> list Z -> outcome (V * list Z) :=
  fun i d => read i (option_map (mean e) d).

(** Tokens that can be written: automatic and manual numbering not mixed, ids without
    leading zeros; literals are ASCII, or any code point in a wide format string. *)
Definition lit_ok (e : enc) (c : Z) : Prop :=
  match e with U32 => scalar c | _ => 0 <= c < 128 end.
Definition wf_id (id : option (list Z)) : Prop :=
  match id with
  | None => True
  | Some ds => numeral ds /\ (ds = [48] \/ hd 0 ds <> 48)
  end.
Definition uniform {D} (ts : list (gtoken D)) : Prop :=
  (forall id d, In (Field id d) ts -> id = None)
  \/ (forall id d, In (Field id d) ts -> id <> None).
(** [ok i d rest]: the format-spec [d] is permitted for argument [i] before [rest]. *)
Fixpoint wf_gtokens {D} (txt : D -> list Z) (e : enc) (ok : Z -> D -> list Z -> Prop)
  (ts : list (gtoken D)) (next : Z) : Prop :=
  match ts with
  | [] => True
  | Lit c :: ts' => lit_ok e c /\ wf_gtokens txt e ok ts' next
  | Field id d :: ts' =>
      wf_id id
      /\ (forall d', d = Some d' ->
            ok (match id with Some ds => number ds | None => next end) d' (tokens_text txt ts'))
      /\ wf_gtokens txt e ok ts' (next + 1)
  end.
Notation wf_tokens e := (wf_gtokens (render_desc e) e).

(** The indexing rules: every field refers to an existing argument not referred to
    before, and together they refer to all [n] arguments. *)
Fixpoint index_ok {D} (n : Z) (ts : list (gtoken D)) (next : Z) (used : list Z) : bool :=
  match ts with
  | [] => covers n used
  | Lit _ :: ts' => index_ok n ts' next used
  | Field id _ :: ts' =>
      let i := match id with Some ds => number ds | None => next end in
      if (n <=? i) || existsb (Z.eqb i) used then false
      else index_ok n ts' (next + 1) (i :: used)
  end.

(** Literal text matched against the source; the last argument is what remains. *)
Inductive matches (e : enc) : list Z -> list Z -> list Z -> Prop :=
| m_nil s : matches e [] s s
| m_char c t s rest : is_ws c = false -> matches e t s rest -> matches e (c :: t) (c :: s) rest
| m_space c t s rest : is_ws c = true -> matches e t (drop_space e s) rest ->
    matches e (c :: t) s rest.
