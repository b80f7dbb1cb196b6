(** The written form of lists, sets, maps and tuples, and the syntax that is read. *)
From Verif Require Import Prelude UnicodeModel UnicodeSpec ReadModel SpecsModel FormatSpec
  VscanSpec WidthSpec RangesModel.
Local Open Scope Z_scope.

(** A source whose white space is found wherever its segments end. *)
Definition unsplit (r : src) : Prop :=
  match s_enc r with
  | U8 => s_contig r = true \/ (forall n, s_seg r n = O) \/ (forall n, (n <= s_seg r n)%nat)
  | _ => True
  end.
(** White space that may be written: any Unicode white space, or the ASCII ones if the
    source is split into segments. *)
Definition plain (r : src) (cp : Z) : Prop := scalar cp /\ (unsplit r \/ cp < 128).
Definition spaces (r : src) (ws : list Z) : Prop :=
  Forall (fun cp => plain r cp /\ is_ws cp = true) ws.
Definition enc_text (r : src) (cps : list Z) : list Z := text (s_enc r) cps.

(** [t] begins with a visible character whose first unit is not that of [avoid]. *)
Definition begins (r : src) (avoid t : list Z) : Prop :=
  exists cp t', plain r cp /\ is_ws cp = false /\ t = encode (s_enc r) cp ++ t'
    /\ (forall c a, avoid = c :: a -> hd c t <> c).

(** Punctuation: a visible ASCII character followed by anything, or nothing. *)
Definition mark (stop : Z -> Prop) (str : list Z) : Prop :=
  exists c str', str = c :: str' /\ 0 <= c < 128 /\ is_ws c = false /\ stop c.
Definition mark_opt (stop : Z -> Prop) (str : list Z) : Prop := str = [] \/ mark stop str.
(** The source goes on with white space or punctuation, or ends. *)
Definition follows (r : src) (stop : Z -> Prop) (s : list Z) : Prop :=
  s = [] \/ exists cp s', scalar cp /\ s = encode (s_enc r) cp ++ s'
                          /\ (is_ws cp = true \/ (0 <= cp < 128 /\ stop cp)).

Section Written.
Context {L X : Type}.
Variable r : src.
(** The written forms of a leaf value, and the characters that end them. *)
Variable leaf_text : L -> specs -> X -> list Z -> Prop.
Variable stop : Z -> Prop.

(** [wrote sp sh v t]: [t] is a written form of [v]: opening bracket, elements with
    separators between them, closing bracket, white space around the elements. *)
Inductive wrote : specs -> shape L -> value X -> list Z -> Prop :=
| w_leaf sp l x t : leaf_text l sp x t -> wrote sp (SLeaf l) (VLeaf x) t
| w_seq sp n p e vs t :
    mark_opt (fun _ => True) (p_open p) -> mark stop (p_close p) -> mark stop (p_sep p) ->
    hd 0 (p_sep p) <> hd 0 (p_close p) -> (length vs <= n)%nat ->
    wrote_items (p_sep p) (p_close p) sp (map (fun _ => e) vs) vs t ->
    wrote sp (SSeq n p e) (VSeq vs) (p_open p ++ t ++ p_close p)
| w_tup sp p es vs t :
    mark_opt (fun _ => True) (p_open p) -> mark_opt stop (p_close p) -> mark stop (p_sep p) ->
    wrote_items (p_sep p) [] specs_default es vs t ->
    wrote sp (STup p es) (VTup vs) (p_open p ++ t ++ p_close p)
with wrote_items : list Z -> list Z -> specs -> list (shape L) -> list (value X)
                   -> list Z -> Prop :=
| wi_none sep avoid sp w : spaces r w -> wrote_items sep avoid sp [] [] (enc_text r w)
| wi_some sep avoid sp e es v vs w1 w2 t ts :
    spaces r w1 -> spaces r w2 -> wrote sp e v t -> begins r avoid t ->
    wrote_more sep sp es vs ts ->
    wrote_items sep avoid sp (e :: es) (v :: vs) (enc_text r w1 ++ t ++ enc_text r w2 ++ ts)
with wrote_more : list Z -> specs -> list (shape L) -> list (value X) -> list Z -> Prop :=
| wm_none sep sp : wrote_more sep sp [] [] []
| wm_some sep sp e es v vs w1 w2 t ts :
    spaces r w1 -> spaces r w2 -> wrote sp e v t -> begins r [] t ->
    wrote_more sep sp es vs ts ->
    wrote_more sep sp (e :: es) (v :: vs) (sep ++ enc_text r w1 ++ t ++ enc_text r w2 ++ ts).

(** What may follow the written form, and what is left of it: a leaf needs a stop
    character, a closing bracket nothing; without closing bracket the white space up to
    the next punctuation is skipped as well. *)
Definition remains (sh : shape L) (tail out : list Z) : Prop :=
  match sh with
  | SLeaf _ => follows r stop tail /\ out = tail
  | SSeq _ p _ | STup p _ =>
      match p_close p with
      | [] => exists w, spaces r w /\ tail = enc_text r w ++ out /\ mark stop out
      | _ :: _ => out = tail
      end
  end.
End Written.

(** Brackets and separators of at most one unit. *)
Definition short_punct (p : punct) : Prop :=
  (length (p_open p) <= 1)%nat /\ (length (p_close p) <= 1)%nat /\ (length (p_sep p) <= 1)%nat.
Fixpoint short {L} (sh : shape L) : Prop :=
  match sh with
  | SLeaf _ => True
  | SSeq _ p sh' => short_punct p /\ short sh'
  | STup p es => short_punct p
      /\ (fix go es := match es with [] => True | x :: es' => short x /\ go es' end) es
  end.
(** The specs suit the leaf type they reach. *)
Fixpoint specs_for {L} (okspec : L -> specs -> Prop) (sh : shape L) (sp : specs) : Prop :=
  match sh with
  | SLeaf l => okspec l sp
  | SSeq _ _ sh' => specs_for okspec sh' sp
  | STup _ _ => True
  end.

(** The syntax that is accepted. *)
Section Syntax.
Context {L X : Type}.
Variable e0 : enc.
Variable leaf : L -> specs -> list Z -> outcome (X * list Z).

(** After white space the source begins with [str]. *)
Definition token (str s s' : list Z) : Prop :=
  drop_space e0 s = str ++ s' /\ drop_space e0 s <> [].

Inductive reads : specs -> shape L -> value X -> list Z -> list Z -> Prop :=
| r_leaf sp l x s s' : leaf l sp s = Ok (x, s') -> reads sp (SLeaf l) (VLeaf x) s s'
| r_seq sp n p e vs s s1 s2 s3 :
    token (p_open p) s s1 ->
    reads_items (p_sep p) (p_close p) sp n e true vs s1 s2 ->
    token (p_close p) s2 s3 -> reads sp (SSeq n p e) (VSeq vs) s s3
| r_tup sp p es vs s s1 s2 s3 :
    token (p_open p) s s1 -> reads_each (p_sep p) es true vs s1 s2 ->
    token (p_close p) s2 s3 -> reads sp (STup p es) (VTup vs) s s3
(** At most [n] elements, the closing bracket comes first wherever it can. *)
with reads_items : list Z -> list Z -> specs -> nat -> shape L -> bool
                   -> list (value X) -> list Z -> list Z -> Prop :=
| ri_nil sep close sp n e (first : bool) s : n = O \/ (exists s', token close s s') ->
    reads_items sep close sp n e first [] s s
| ri_cons sep close sp n e (first : bool) v vs s s1 s2 s3 :
    ~ (exists s', token close s s') ->
    (if first then s1 = s else token sep s s1) ->
    reads sp e v s1 s2 -> reads_items sep close sp n e false vs s2 s3 ->
    reads_items sep close sp (S n) e first (v :: vs) s s3
with reads_each : list Z -> list (shape L) -> bool -> list (value X)
                  -> list Z -> list Z -> Prop :=
| re_nil sep (first : bool) s : reads_each sep [] first [] s s
| re_cons sep (first : bool) e es v vs s s1 s2 s3 :
    (if first then s1 = s else token sep s s1) ->
    reads specs_default e v s1 s2 -> reads_each sep es false vs s2 s3 ->
    reads_each sep (e :: es) first (v :: vs) s s3.
End Syntax.

(** ** Types made of integers, and a printer for their values *)
From Verif Require Import IntModel IntSpec.
Inductive stype : Type :=
| TInt (t : inttype)
| TVec (max : nat) (e : stype)
| TSet (max : nat) (e : stype)
| TMap (max : nat) (k v : stype)
| TTup (es : list stype).
Fixpoint shape_of (t : stype) : shape inttype :=
  match t with
  | TInt i => SLeaf i
  | TVec n e => vector_of n (shape_of e)
  | TSet n e => set_of n (shape_of e)
  | TMap n k v => map_of n (shape_of k) (shape_of v)
  | TTup es => tuple_of (map shape_of es)
  end.
(** The value belongs to the type. *)
Fixpoint fits (t : stype) (v : RangesModel.value Z) {struct t} : Prop :=
  match t, v with
  | TInt i, VLeaf x => in_range (it_signed i) (it_bits i) x
  | TVec n e, VSeq vs | TSet n e, VSeq vs => (length vs <= n)%nat /\ Forall (fits e) vs
  | TMap n k w, VSeq vs =>
      (length vs <= n)%nat
      /\ Forall (fun v => match v with VTup [a; b] => fits k a /\ fits w b | _ => False end) vs
  | TTup es, VTup vs =>
      (fix go es vs := match es, vs with
                       | [], [] => True
                       | e :: es', v :: vs' => fits e v /\ go es' vs'
                       | _, _ => False
                       end) es vs
  | _, _ => False
  end.
(** Elements separated by [sep], with [ws] before and after each. *)
Fixpoint join (sep ws : list Z) (ts : list (list Z)) : list Z :=
  match ts with
  | [] => []
  | t :: ts' => ws ++ t ++ ws ++ (match ts' with [] => [] | _ => sep end) ++ join sep ws ts'
  end.
(** Decimal, or the base of the format for the elements of a vector or set. *)
Fixpoint show (ws : list Z) (base : Z) (t : stype) (v : RangesModel.value Z) {struct t} : list Z :=
  match t, v with
  | TInt _, VLeaf x => print_signed false base x
  | TVec _ e, VSeq vs => [91] ++ join [44] ws (map (show ws base e) vs) ++ [93]
  | TSet _ e, VSeq vs => [123] ++ join [44] ws (map (show ws base e) vs) ++ [125]
  | TMap _ k w, VSeq vs =>
      [123] ++ join [44] ws
        (map (fun v => match v with
                       | VTup [a; b] => show ws 10 k a ++ ws ++ [58] ++ ws ++ show ws 10 w b
                       | _ => []
                       end) vs) ++ [125]
  | TTup es, VTup vs =>
      [40] ++ join [44] ws
        ((fix go es vs := match es, vs with
                          | e :: es', v :: vs' => show ws 10 e v :: go es' vs'
                          | _, _ => []
                          end) es vs) ++ [41]
  | _, _ => []
  end.
Fixpoint int_types (t : stype) : list inttype :=
  match t with
  | TInt i => [i]
  | TVec _ e | TSet _ e => int_types e
  | TMap _ k v => int_types k ++ int_types v
  | TTup es => flat_map int_types es
  end.
(** Format-specs that select a base and nothing else. *)
Definition base_spec (sp : specs) (b : Z) : Prop :=
  width sp = 0 /\ precision sp = 0 /\ align sp = ANone /\ localized sp = false
  /\ In (type sp, b) [(PNone, 10); (PIntDecimal, 10); (PIntHex, 16); (PIntOctal, 8); (PIntBinary, 2)].

(** ** Containers *)
Section Keys.
Context {E K : Type} (key : E -> K) (lt : K -> K -> bool).
(** A strict weak order, as the containers demand. *)
Definition same_key (a b : K) : bool := negb (lt a b) && negb (lt b a).
Definition weak_order : Prop :=
  (forall a, lt a a = false) /\ (forall a b c, lt a b = true -> lt b c = true -> lt a c = true)
  /\ (forall a b c, same_key a b = true -> same_key b c = true -> same_key a c = true).
(** The elements with a key: in the order of the container or text. *)
Definition with_key (k : K) (l : list E) : list E := filter (fun x => same_key (key x) k) l.
Definition first_of {A} (l : list A) : list A := firstn 1 l.
(** In order: no element has a smaller key than an earlier one; strictly: nor the same. *)
Fixpoint in_order (strict : bool) (l : list E) : Prop :=
  match l with
  | [] => True
  | x :: l' => Forall (fun y => if strict then lt (key x) (key y) = true else lt (key y) (key x) = false) l'
               /\ in_order strict l'
  end.
End Keys.
