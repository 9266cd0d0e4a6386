(** JSON Schema, draft 2020-12, as far as the keywords that are used go;
    independent of the model.  Names are compared as they are written. *)
From Coq Require Import String.
From Coq Require Import List NArith ZArith QArith Bool.
From Verif Require Import Base SpecNum SpecText SpecJson SpecTyped ValueModel SpecSer.
From Verif Require SpecReal.
Import ListNotations.
Local Open Scope N_scope.

Definition is_key (k : list N) (s : string) : bool := if list_eq_dec N.eq_dec k (bytes s) then true else false.

(** A number without fractional part; [1.0] and [1e2] are such numbers. *)
Definition integral (n : list N) : Prop := exists q z, SpecReal.denotes n q /\ (q == inject_Z z)%Q.

(** The keyword type *)
Definition has_type (name : list N) (v : jv) : Prop :=
  match v with
  | JNull => name = bytes "null"
  | JTrue | JFalse => name = bytes "boolean"
  | JNum n => name = bytes "number" \/ name = bytes "integer" /\ integral n
  | JStr _ => name = bytes "string"
  | JArr _ => name = bytes "array"
  | JObj _ => name = bytes "object"
  end.

(** The keyword minimum *)
Definition at_least (m : list N) (v : jv) : Prop :=
  match v with
  | JNum n => exists a b, SpecReal.denotes m a /\ SpecReal.denotes n b /\ (a <= b)%Q
  | _ => True
  end.

(** The keyword required *)
Definition has_all (names : list jv) (v : jv) : Prop :=
  match v with JObj js => forall k, In (JStr k) names -> In k (map fst js) | _ => True end.

(** The names the keyword properties of a schema lists *)
Definition listed (ms : list (list N * jv)) : list (list N) :=
  match lookup (bytes "properties") ms with Some (JObj ps) => map fst ps | _ => [] end.

(** [valid s v]: [v] is valid against the schema [s].  A keyword that is not listed
    here has no effect.  The array form of the keyword items, where every element
    has a schema of its own, is that of the drafts before 2020-12. *)
Fixpoint valid (s v : jv) {struct s} : Prop :=
  match s with
  | JTrue => True
  | JObj ms =>
      (fix keywords (l : list (list N * jv)) : Prop :=
         match l with
         | [] => True
         | (k, a) :: r =>
             (if is_key k "type" then match a with JStr n => has_type n v | _ => False end
              else if is_key k "minimum" then match a with JNum m => at_least m v | _ => False end
              else if is_key k "required" then match a with JArr names => has_all names v | _ => False end
              else if is_key k "properties" then
                match a with
                | JObj ps =>
                    (fix properties (ps : list (list N * jv)) : Prop :=
                       match ps with
                       | [] => True
                       | (n, s') :: ps' =>
                           match v with JObj js => forall e, In (n, e) js -> valid s' e | _ => True end /\ properties ps'
                       end) ps
                | _ => False
                end
              else if is_key k "additionalProperties" then
                match v with JObj js => forall n e, In (n, e) js -> ~ In n (listed ms) -> valid a e | _ => True end
              else if is_key k "items" then
                match a with
                | JArr ss =>
                    match v with
                    | JArr es =>
                        (fix positions (ss : list jv) (es : list jv) : Prop :=
                           match ss, es with
                           | s' :: ss', e :: es' => valid s' e /\ positions ss' es'
                           | _, _ => True
                           end) ss es
                    | _ => True
                    end
                | _ => match v with JArr es => forall e, In e es -> valid a e | _ => True end
                end
              else if is_key k "oneOf" then
                match a with
                | JArr ss =>
                    (fix exactly (n : nat) (ss : list jv) : Prop :=
                       match ss with
                       | [] => n = 1%nat
                       | s' :: ss' => valid s' v /\ exactly (S n) ss' \/ ~ valid s' v /\ exactly n ss'
                       end) O ss
                | _ => False
                end
              else True) /\ keywords r
         end) ms
  | _ => False
  end.

(** The keywords have values of the form the draft asks for: what its meta-schema
    says of them.  No keyword is repeated. *)
Definition simple_type (n : list N) : Prop :=
  In n (map bytes ["null"; "boolean"; "object"; "array"; "number"; "string"; "integer"]%string).
Fixpoint schema_2020 (s : jv) : Prop :=
  match s with
  | JTrue | JFalse => True
  | JObj ms => NoDup (map fst ms) /\
      (fix keywords (l : list (list N * jv)) : Prop :=
         match l with
         | [] => True
         | (k, a) :: r =>
             (if is_key k "type" then match a with JStr n => simple_type n | _ => False end
              else if is_key k "minimum" then match a with JNum _ => True | _ => False end
              else if is_key k "required" then match a with JArr names => NoDup names /\ Forall (fun n => exists k, n = JStr k) names | _ => False end
              else if is_key k "properties" then
                match a with
                | JObj ps => NoDup (map fst ps) /\
                    (fix properties (ps : list (list N * jv)) : Prop :=
                       match ps with [] => True | (_, s') :: ps' => schema_2020 s' /\ properties ps' end) ps
                | _ => False
                end
              else if is_key k "additionalProperties" || is_key k "items" then schema_2020 a
              else if is_key k "oneOf" then
                match a with
                | JArr ss => ss <> [] /\
                    (fix all (ss : list jv) : Prop := match ss with [] => True | s' :: ss' => schema_2020 s' /\ all ss' end) ss
                | _ => False
                end
              else if is_key k "$schema" || is_key k "$id" || is_key k "title" then match a with JStr _ => True | _ => False end
              else True) /\ keywords r
         end) ms
  | _ => False
  end.

(** No null in a value *)
Fixpoint null_free (v : jv) : Prop :=
  match v with
  | JNull => False
  | JArr es => (fix all (es : list jv) : Prop := match es with [] => True | e :: r => null_free e /\ all r end) es
  | JObj ms => (fix all (ms : list (list N * jv)) : Prop := match ms with [] => True | (_, e) :: r => null_free e /\ all r end) ms
  | _ => True
  end.

(** [Q] holds of a type and of all the types it is made of.  The type of an embedded
    tag is not looked at, as no schema is written for it. *)
Fixpoint everywhere (Q : ty -> Prop) (t : ty) : Prop := Q t /\
  match t with
  | TNullable t | TArr t | TMap t => everywhere Q t
  | TClass _ mm => (fix all (mm : list (list N * ty)) : Prop := match mm with [] => True | (_, t) :: r => everywhere Q t /\ all r end) mm
  | TTuple _ ts | TVariant ts | TIntrusive _ _ _ _ ts =>
      (fix all (ts : list ty) : Prop := match ts with [] => True | t :: r => everywhere Q t /\ all r end) ts
  | TKvArr _ kn tk vn tv => everywhere Q tk /\ everywhere Q tv
  | TUInt _ _ | TInt _ _ | TBool | TStr | TCustom _ => True
  end.

(** The types schemas are written for: the names of every class are distinct and
    satisfy [P], and custom types are strings. *)
Definition mapped (P : list N -> Prop) : ty -> Prop := everywhere (fun t =>
  match t with
  | TClass _ mm => NoDup (map fst mm) /\ Forall P (map fst mm)
  | TKvArr _ kn tk vn tv => kn <> vn /\ P kn /\ P vn
  | TCustom k => k = CuString
  | _ => True
  end).

Fixpoint no_members (t : ty) : bool := match t with TClass _ [] => true | TNullable t => no_members t | _ => false end.

(** There are no tuples, and every variant has an alternative. *)
Definition no_tuples : ty -> Prop := everywhere (fun t =>
  match t with
  | TTuple _ _ => False
  | TVariant ts | TIntrusive _ _ _ _ ts => ts <> []
  | _ => True
  end).

(** [t1] can be told from [t2] by what the schema of [t2] says: they are of different
    kinds, or classes where the second requires a name the first does not have. *)
Definition told (t1 t2 : ty) : Prop :=
  no_members t2 = false /\ alternative t2 = true /\ (forall v, meant_for t1 v && meant_for t2 v = false) \/
  exists e1 mm1 e2 mm2 k t, t1 = TClass e1 mm1 /\ t2 = TClass e2 mm2 /\ In (k, t) mm2 /\ is_nullable t = false /\ ~ In k (map fst mm1).

(** The alternatives of all variants can be told apart. *)
Definition apart : ty -> Prop := everywhere (fun t =>
  match t with
  | TVariant ts | TIntrusive _ _ _ _ ts =>
      forall i j t1 t2, nth_error ts i = Some t1 -> nth_error ts j = Some t2 -> i <> j -> told t1 t2
  | _ => True
  end).

(** [num] holds of all numbers of a value, [str] of all strings and [names] of the
    names of every object. *)
Fixpoint made_of (num str : list N -> Prop) (names : list (list N) -> Prop) (v : jv) : Prop :=
  match v with
  | JNum n => num n
  | JStr b => str b
  | JArr es => (fix all (es : list jv) : Prop := match es with [] => True | e :: r => made_of num str names e /\ all r end) es
  | JObj ms => names (map fst ms) /\
      (fix all (ms : list (list N * jv)) : Prop := match ms with [] => True | (_, e) :: r => made_of num str names e /\ all r end) ms
  | _ => True
  end.

(** The text of an integer of less than [b], as C++ would write it *)
Definition small_int (b : Z) (n : list N) : Prop := exists z, canonical_int z n /\ (- b < z < b)%Z.

(** The types whose schemas say all there is to say, but for the size of integers:
    there are no tuples, arrays of keys and values, custom types and embedded
    tags, classes have members and ignore unknown names, and the alternatives of
    variants are of different kinds.  The names of every class are in [nl] and all
    integer types hold what is less than [b]. *)
Definition open (b : Z) (nl : list (list (list N))) : ty -> Prop := everywhere (fun t =>
  match t with
  | TUInt w _ => int_size w /\ (b <= 2 ^ Z.of_N w)%Z
  | TInt w _ => int_size w /\ (b <= 2 ^ (Z.of_N w - 1))%Z
  | TClass exact mm => exact = false /\ mm <> [] /\ NoDup (map fst mm) /\ In (map fst mm) nl
  | TTuple _ _ | TKvArr _ _ _ _ _ | TCustom _ | TIntrusive _ _ _ _ _ => False
  | TVariant ts => Forall (fun t => alternative t = true /\ no_members t = false) ts /\
      forall i j t1 t2, nth_error ts i = Some t1 -> nth_error ts j = Some t2 -> (i < j)%nat -> forall v, meant_for t1 v && meant_for t2 v = false
  | _ => True
  end).
