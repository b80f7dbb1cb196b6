(** What a field may have passed over when it says that the input has ended, on code points. *)
From Verif Require Import Prelude UnicodeSpec SpecsModel VscanSpec WidthSpec IntModel ScalarModel StringModel ArgsModel LocaleModel.
Local Open Scope Z_scope.

(** Types of value before which white space is skipped: all but characters, and strings read
    otherwise than as words (docs of include/scn/scan.h:8181-8240). *)
Definition over_space {F} (t : scalar_type F) (sp : specs) : bool :=
  match t with
  | TChar _ _ _ => false
  | TString _ _ =>
      match type sp with
      | PNone => true
      | PString => match align sp with ALeft | ACenter => false | _ => true end
      | _ => false
      end
  | _ => true
  end.
(** White space in front of such a value, or the fill in front of a value aligned to the right
    or centred. *)
Definition padding (al : align_type) (f : Z) (skip : bool) (c : Z) : Prop :=
  match al with
  | ANone => skip = true /\ is_ws c = true
  | ALeft => False
  | ARight | ACenter => c = f
  end.
(** The columns the field may use hold only that. *)
Definition only_padding (al : align_type) (f : Z) (skip : bool) (columns : option Z) (cps : list Z) : Prop :=
  Forall (padding al f skip) (limit columns cps).
(** Numbers. *)
Definition numeric {F} (t : scalar_type F) : Prop :=
  match t with TInt _ _ | TPointer | TFloat _ _ => True | _ => False end.
