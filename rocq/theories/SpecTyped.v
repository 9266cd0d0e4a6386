(** What a document value means at a mapped type; independent of the parser.
    Only the type descriptions ([ty]) and parsed values ([val]) are taken from
    the model. *)
From Coq Require Import List NArith ZArith Bool.
From Verif Require Import SpecNum SpecText SpecJson SpecUnicode ValueModel.
Import ListNotations.
Local Open Scope N_scope.

(** The member called [k] *)
Fixpoint lookup (k : list N) (l : list (list N * jv)) : option jv :=
  match l with
  | [] => None
  | (k', v) :: r => if list_eq_dec N.eq_dec k' k then Some v else lookup k r
  end.

Definition int_size (w : N) : Prop := w = 8 \/ w = 16 \/ w = 32 \/ w = 64.

(** No name of [names] is repeated in the document. *)
Definition no_repeat (names : list (list N)) (js : list (list N * jv)) : Prop :=
  forall k, In k names -> (count_occ (list_eq_dec N.eq_dec) (map fst js) k <= 1)%nat.

Definition not_array (v : jv) : Prop := match v with JArr _ => False | _ => True end.

(** The alternative of a variant a document value is meant for: the first whose
    JSON type is that of the value.  A custom type counts as a string.  Nothing is
    meant for [null]. *)
Fixpoint meant_for (t : ty) (v : jv) : bool :=
  match t, v with
  | (TUInt _ _ | TInt _ _), JNum _ => true
  | TBool, (JTrue | JFalse) => true
  | (TStr | TCustom _), JStr _ => true
  | (TArr _ | TTuple _ _ | TKvArr _ _ _ _ _), JArr _ => true
  | (TMap _ | TClass _ _), JObj _ => true
  | TNullable t, v => meant_for t v
  | _, _ => false
  end.

(** The text of a number, true or false *)
Definition literal (v : jv) (s : list N) : Prop :=
  match v with
  | JTrue => s = [116; 114; 117; 101]
  | JFalse => s = [102; 97; 108; 115; 101]
  | JNum n => s = n
  | _ => False
  end.

(** Custom types that are given numbers, true and false as they are written *)
Fixpoint takes_text (t : ty) : bool :=
  match t with TCustom CuLiteral | TCustom CuAny => true | TNullable t => takes_text t | _ => false end.

Section Typed.
  (** [nc names k]: the name [k] of a document is one the lookup is asked to
      handle when the mapped names are [names]. *)
  Context (nc : list (list N) -> list N -> Prop).

  (** [typed t v x]: at type [t] the document value [v] stands for [x].

      Integers are written without exponent, fraction and superfluous zeros and
      are in range, and not the lowest value of a 32 bit integer (C04).  Strings
      denote their bytes.  A nullable is absent or the value.  Arrays, maps and
      tuples are taken in order.  A class takes for every mapped name the member
      of that name, whatever the position; a member that is not there is only
      possible for a nullable.  Mapped names are not repeated (C27).

      Of an array of keys and values every element is an object that is read like
      a class with these two members; the empty one is not covered (C78).  A
      custom type is given the text of the value, of a string what is between the
      quotes, which may not be empty or start with a bracket; a type that takes
      anything is given a string with the opening quote only (C79).  A variant is
      the first alternative of the kind of the value, a variant with an embedded
      tag the one its tag selects. *)
  Fixpoint typed (t : ty) (v : jv) (x : val) {struct t} : Prop :=
    match t with
    | TUInt w _ => exists ds, v = JNum ds /\ canonical ds /\ int_size w /\ dec_val ds < 2^w /\ x = VInt (Z.of_N (dec_val ds))
    | TInt w _ => exists tx z, v = JNum tx /\ canonical_int z tx /\ int_size w /\
        (- 2^(Z.of_N w - 1) <= z < 2^(Z.of_N w - 1))%Z /\ ~ (w = 32 /\ z = (- 2^31)%Z) /\ x = VInt z
    | TBool => v = JTrue /\ x = VBool true \/ v = JFalse /\ x = VBool false
    | TStr => exists b s, v = JStr b /\ denotes b s /\ x = VStr s
    | TNullable t => v = JNull /\ x = VNone \/ v <> JNull /\ exists y, typed t v y /\ x = VSome y
    | TArr t => exists es xs, v = JArr es /\ x = VArr xs /\ Forall2 (typed t) es xs
    | TMap t => exists ms kxs, v = JObj ms /\ x = VMap kxs /\
        Forall2 (fun m kx => denotes (fst m) (fst kx) /\ typed t (snd m) (snd kx)) ms kxs
    | TClass exact mm => exists js xs, v = JObj js /\ x = VClass xs /\
        NoDup (map fst mm) /\ no_repeat (map fst mm) js /\ Forall (nc (map fst mm)) (map fst js) /\
        (exact = true -> forall k, In k (map fst js) -> In k (map fst mm)) /\
        (fix members (mm : list (list N * ty)) (xs : list val) : Prop :=
           match mm, xs with
           | [], [] => True
           | (nm, t) :: mm', y :: xs' =>
               match lookup nm js with
               | Some v' => typed t v' y
               | None => is_nullable t = true /\ y = VNone
               end /\ members mm' xs'
           | _, _ => False
           end) mm xs
    | TTuple exact ts => exists es xs es2, v = JArr (es ++ es2) /\ x = VTuple xs /\
        (exact = true -> es2 = []) /\ (forall e, hd_error es2 = Some e -> not_array e) /\
        (fix elements (ts : list ty) (es : list jv) (xs : list val) : Prop :=
           match ts, es, xs with
           | [], [], [] => True
           | t :: ts', v' :: es', y :: xs' => typed t v' y /\ elements ts' es' xs'
           | _, _, _ => False
           end) ts es xs
    | TKvArr exact kn tk vn tv => exists es xs, v = JArr es /\ x = VArr xs /\ kn <> vn /\ es <> [] /\
        Forall2 (fun e y => exists js a b, e = JObj js /\ y = VClass [a; b] /\
          no_repeat [kn; vn] js /\ Forall (nc [kn; vn]) (map fst js) /\
          (exact = true -> forall k, In k (map fst js) -> In k [kn; vn]) /\
          match lookup kn js with Some v' => typed tk v' a | None => is_nullable tk = true /\ a = VNone end /\
          match lookup vn js with Some v' => typed tv v' b | None => is_nullable tv = true /\ b = VNone end) es xs
    | TCustom k => exists s, x = VStr s /\
        match k with
        | CuString => v = JStr s /\ exists c r, s = c :: r /\ c <> 91 /\ c <> 123
        | CuLiteral => literal v s
        | CuAny => literal v s \/ exists b, v = JStr b /\ s = 34 :: b
        end
    | TVariant alts => exists i y, x = VVariant i y /\
        (fix choose (alts : list ty) (i : nat) : Prop :=
           match alts, i with
           | t :: _, O => meant_for t v = true /\ typed t v y
           | t :: alts', S i' => meant_for t v = false /\ choose alts' i'
           | [], _ => False
           end) alts i
    | TIntrusive exact tag t switch alts => exists js y z, v = JObj js /\ x = VVariant (switch y) z /\
        no_repeat [tag] js /\ Forall (nc [tag]) (map fst js) /\
        (exact = true -> forall k, In k (map fst js) -> In k [tag]) /\
        match lookup tag js with Some v' => typed t v' y | None => is_nullable t = true /\ y = VNone end /\
        (fix choose (alts : list ty) (i : nat) : Prop :=
           match alts, i with
           | t :: _, O => typed t v z
           | _ :: alts', S i' => choose alts' i'
           | [], _ => False
           end) alts (switch y)
    end.
End Typed.
