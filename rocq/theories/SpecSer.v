(** Which values belong to a mapped type and which names and layouts are
    considered when they are written; independent of the model's functions. *)
From Coq Require Import List NArith ZArith Bool.
From Verif Require Import Base Mem SpecNum SpecText SpecJson SpecUnicode SpecTyped HashModel ValueModel SerModel StrEncodeProofs.
Import ListNotations.
Local Open Scope N_scope.

(** A name that needs no escapes: no control character, quote or backslash. *)
Definition plain_name (k : list N) : Prop := Forall (fun c => 32 <= c < 256 /\ c <> 34 /\ c <> 92) k.

(** The bytes are the UTF-8 of a Unicode string. *)
Definition unicode (s : list N) : Prop := exists cps, Forall scalar cps /\ s = encode cps.

(** The types that can be told by the kind of their text: all but variants and
    custom types that are not strings (C80). *)
Fixpoint alternative (t : ty) : bool :=
  match t with
  | TVariant _ | TIntrusive _ _ _ _ _ | TCustom CuLiteral | TCustom CuAny => false
  | TNullable t => alternative t
  | _ => true
  end.

(** [belongs t x]: [x] is a value of type [t].  Strings are Unicode, a nullable
    does not directly contain a nullable (which JSON cannot tell apart), the
    mapped names are distinct and plain, and the lowest 32 bit integer is left
    out as it cannot be read (C04).  Arrays of keys and values are not empty
    (C78).  The text of a custom type is that of a number, true or false, or the
    body of a string that is not empty and does not start with a bracket (C79).
    No alternative of a variant before that of the value is of the same kind and
    the alternative is not null (C80).  A variant with an embedded tag is a class
    with the tag among its members. *)
Fixpoint belongs (t : ty) (x : val) {struct t} : Prop :=
  match t with
  | TUInt w _ => int_size w /\ exists z, x = VInt z /\ (0 <= z < 2^(Z.of_N w))%Z
  | TInt w _ => int_size w /\ exists z, x = VInt z /\
      (- 2^(Z.of_N w - 1) <= z < 2^(Z.of_N w - 1))%Z /\ ~ (w = 32 /\ z = (- 2^31)%Z)
  | TBool => exists b, x = VBool b
  | TStr => exists s, x = VStr s /\ unicode s
  | TNullable t => is_nullable t = false /\ (x = VNone \/ exists y, x = VSome y /\ belongs t y)
  | TArr t => exists xs, x = VArr xs /\ Forall (belongs t) xs
  | TMap t => exists kxs, x = VMap kxs /\ Forall (fun kx => unicode (fst kx) /\ belongs t (snd kx)) kxs
  | TClass _ mm => NoDup (map fst mm) /\ Forall plain_name (map fst mm) /\ exists xs, x = VClass xs /\
      (fix members (mm : list (list N * ty)) (xs : list val) : Prop :=
         match mm, xs with
         | [], [] => True
         | (_, t) :: mm', y :: xs' => belongs t y /\ members mm' xs'
         | _, _ => False
         end) mm xs
  | TTuple _ ts => exists xs, x = VTuple xs /\
      (fix elements (ts : list ty) (xs : list val) : Prop :=
         match ts, xs with
         | [], [] => True
         | t :: ts', y :: xs' => belongs t y /\ elements ts' xs'
         | _, _ => False
         end) ts xs
  | TKvArr _ kn tk vn tv => plain_name kn /\ plain_name vn /\ kn <> vn /\ exists xs, x = VArr xs /\ xs <> [] /\
      Forall (fun y => exists a b, y = VClass [a; b] /\ belongs tk a /\ belongs tv b) xs
  | TCustom k => exists s, x = VStr s /\
      match k with
      | CuString => rfc_body s /\ is_bytes s /\ exists c r, s = c :: r /\ c <> 91 /\ c <> 123
      | CuLiteral => jnum s \/ s = [116; 114; 117; 101] \/ s = [102; 97; 108; 115; 101]
      | CuAny => False
      end
  | TVariant alts => exists i y, x = VVariant i y /\ y <> VNone /\
      (fix choose (alts : list ty) (i : nat) : Prop :=
         match alts, i with
         | t :: _, O => alternative t = true /\ belongs t y
         | t :: alts', S i' => (forall v, meant_for t v && meant_for (nth i' alts' TBool) v = false) /\ choose alts' i'
         | [], _ => False
         end) alts i
  | TIntrusive exact tag tg switch alts => exists i z, x = VVariant i z /\
      (fix choose (alts : list ty) (j : nat) : Prop :=
         match alts, j with
         | t :: _, O => belongs t z /\
             exists ex m1 m2 xs1 y xs2, t = TClass ex (m1 ++ (tag, tg) :: m2) /\ z = VClass (xs1 ++ y :: xs2) /\
               length m1 = length xs1 /\ switch y = i /\
               Forall (fun k => name_hash false k <> name_hash false tag) (map fst (m1 ++ m2)) /\
               (exact = true -> m1 ++ m2 = [])
         | _ :: alts', S j' => choose alts' j'
         | [], _ => False
         end) alts i
  end.

(** The layouts there are: any indentation made of blanks and tabs, and line
    ends. *)
Definition layout (o : sopt) : Prop := ws (o_indent o) /\ ws (o_newline o).
