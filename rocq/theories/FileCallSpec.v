(** What successive scans of a file are compared with: successive scans of a string, each
    one of what the one before has left. *)
From Verif Require Import Prelude VscanSpec SegmentModel SegmentSpec FileCallModel.
Local Open Scope Z_scope.

Fixpoint string_calls (cs : list call) (s : list Z) : option (list scanned * list Z) :=
  match cs with
  | [] => Some ([], s)
  | (k, last, _) :: cs' =>
      match string_scan [([], k)] last s with
      | Ok (log, rest) =>
          match string_calls cs' rest with
          | Some (vs, rest) => Some (map snd log ++ vs, rest)
          | None => None
          end
      | _ => None
      end
  end.
(** How many characters have to be given back at most: one if the call reads a word or ends in
    literal white space, none otherwise *)
Definition needs (k : kind) (last : list Z) : nat :=
  match k with FWord => 1 | _ => if existsb is_ws last then 1 else 0 end.
