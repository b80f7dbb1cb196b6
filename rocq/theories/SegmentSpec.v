(** Scanning a string with a format string of [{}] fields: what a source behind a buffer is compared with. *)
From Verif Require Import Prelude UnicodeModel ReadModel SpecsModel ArgsModel FormatModel FormatSpec IntModel
  ScalarModel VscanModel VscanSpec SegmentModel.
Local Open Scope Z_scope.

(** A format string with such fields: the literal text before each field [{}] and the type
    of the argument; [last] is the text after the last field. *)
Definition fields := list (list Z * kind).
Definition pieces (fs : fields) (last : list Z) : list piece :=
  flat_map (fun '(l, k) => [Text l; Braces k]) fs ++ [Text last].
Definition tokens (fs : fields) (last : list Z) : list token :=
  flat_map (fun '(l, _) => map Lit l ++ [Field None None]) fs ++ map Lit last.
Definition layout (fs : fields) (last : list Z) : list Z := render U8 (tokens fs last).

(** Scanning a string with it. *)
Definition type_of (k : kind) : arg_type :=
  match k with
  | FInt _ => IntType | FWord => NarrowStringType | FBool => BoolType
  | FChar => NarrowCharacterType | FChar32 => CodePointType
  end.
Definition argument (k : kind) : arg scanned :=
  let d := from_string k in
  Arg scanned (type_of k) d d (fun _ _ => Err InvalidFormatString) (fun f _ => (f, Err InvalidFormatString)).
Definition string_scan (fs : fields) (last : list Z) (s : list Z)
  : outcome (list (Z * scanned) * list Z) :=
  vscan scanned string_src (Config U8 true false false true) (map (fun '(_, k) => argument k) fs)
    (layout fs last) s.
(** The values, numbered *)
Definition numbered (vs : list scanned) : list (Z * scanned) := combine (zseq 0 (length vs)) vs.

(** Literal text against a string; [ws]: the previous literal character was white space *)
Fixpoint literal (ws : bool) (l : list Z) (s : list Z) : option (list Z) :=
  match l with
  | [] => Some s
  | c :: l' =>
      if is_ws c then
        if ws then literal true l' s
        else match s with [] => None | _ => literal true l' (drop_space U8 s) end
      else match s with
           | d :: s' => if d =? c then literal false l' s' else None
           | [] => None
           end
  end.
(** Where the fields start: what is left of the string before each of them *)
Fixpoint starts (fs : fields) (s : list Z) : list (list Z) :=
  match fs with
  | [] => []
  | (l, k) :: fs' =>
      match literal false l s with
      | None => []
      | Some s1 =>
          s1 :: match from_string k s1 with
                | Ok (_, s2) => starts fs' s2
                | _ => []
                end
      end
  end.
(** The field that starts at [s] follows white space in [D]. *)
Definition follows_space (D s : list Z) : Prop :=
  exists h w, is_ws w = true /\ D = h ++ w :: s.
