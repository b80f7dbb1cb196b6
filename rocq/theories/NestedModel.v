(** Model of a user-defined scanner that scans its parts with a nested scan, as in
    docs/pages/guide.md:303-335. *)
From Verif Require Import Prelude ReadModel SpecsModel ArgsModel FormatModel VscanModel.
Local Open Scope Z_scope.

(** The values of the arguments, in the order of the arguments: result->values(). *)
Definition stored {V : Type} (n : nat) (log : list (Z * V)) : list V :=
  flat_map (fun i => map snd (filter (fun p => fst p =? i) log)) (zseq 0 n).
(** scn::scan(ctx.range(), format), and the new position result->begin(); include/scn/scan.h:
    9417-9430 (vscan_generic), 5249-5267 (make_scan_buffer), 5119-5165 (basic_scan_ref_buffer).
    The source of the nested scan is what is left of the outer one: of a string the rest of
    the view (5256), of any other source a buffer on its buffer, which delivers the rest
    (theorems of C16) and is taken here to be in pieces as the outer one is.  Nothing is
    written back but the position: the sync of 1846-1863 in src/scn/impl.cpp does nothing for
    such a buffer.  The locale of the outer scan does not reach the nested one.
    [build]: makes the object from the parts.  The parse of the scanner does not move
    (guide.md:303-306), the outer parser then wants a closing brace; [ar_specs] is for
    built-in types only. *)
Definition nested_read (V : Type) (r : src) (cf : config) (parts : list (arg V)) (format : list Z)
  (build : list V -> V) (source : list Z) : outcome (V * list Z) :=
  '(log, rest) <- vscan V r cf parts format source ;; Ok (build (stored (length parts) log), rest).
Definition nested_arg (V : Type) (r : src) (cf : config) (parts : list (arg V)) (format : list Z)
  (build : list V -> V) : arg V :=
  let d := nested_read V r cf parts format build in
  Arg V CustomType d d (fun _ _ => UB)
    (fun f s => (f, d s)).
