(** Specification of what a JSON value means at a type, independent of the model. *)
From Coq Require Import List NArith ZArith Bool.
From Verif Require Import SpecNum SpecText SpecJson SpecUnicode SpecTyped ValueModel SpecLax.
Import ListNotations.
Local Open Scope N_scope.

(** [means t v x]: the JSON value [v] means [x] at the type [t].  A number is an
    integer without fraction and exponent; that it is read exactly is only asked of
    numbers that fit (not of the least one of 32 bits, C04).  Missing elements of a tuple
    mean nothing where the type is optional, and so do missing members of a class;
    members that are not mapped mean nothing. *)
Inductive means : ty -> jv -> val -> Prop :=
| mn_uint : forall w rc ds z, digits ds -> ds <> [] -> (w <= 64 -> dec_val ds < 2^w -> z = Z.of_N (dec_val ds)) -> means (TUInt w rc) (JNum ds) (VInt z)
| mn_int : forall w rc (neg : bool) ds z, digits ds -> ds <> [] ->
    (In w [8; 16; 32; 64] -> (- 2^(Z.of_N w - 1) <= with_sign neg ds < 2^(Z.of_N w - 1))%Z -> ~ (w = 32 /\ with_sign neg ds = (- 2^31)%Z) -> z = with_sign neg ds) ->
    means (TInt w rc) (JNum ((if neg then [45] else []) ++ ds)) (VInt z)
| mn_true : means TBool JTrue (VBool true)
| mn_false : means TBool JFalse (VBool false)
| mn_str : forall b s, stands b s -> means TStr (JStr b) (VStr s)
| mn_null : forall t, means (TNullable t) JNull VNone
| mn_some : forall t v x, v <> JNull -> means t v x -> means (TNullable t) v (VSome x)
| mn_arr : forall t vs xs, means_all t vs xs -> means (TArr t) (JArr vs) (VArr xs)
| mn_map : forall t ms kxs, means_map t ms kxs -> means (TMap t) (JObj ms) (VMap kxs)
| mn_tuple : forall ts vs xs, means_each ts vs xs -> means (TTuple true ts) (JArr vs) (VTuple xs)
| mn_class : forall exact ms js xs, means_members ms js xs -> means (TClass exact ms) (JObj js) (VClass xs)
with means_all : ty -> list jv -> list val -> Prop :=
| ma_nil : forall t, means_all t [] []
| ma_cons : forall t v x vs xs, means t v x -> means_all t vs xs -> means_all t (v :: vs) (x :: xs)
with means_map : ty -> list (list N * jv) -> list (list N * val) -> Prop :=
| mm_nil : forall t, means_map t [] []
| mm_cons : forall t b k v x ms kxs, stands b k -> means t v x -> means_map t ms kxs -> means_map t ((b, v) :: ms) ((k, x) :: kxs)
with means_each : list ty -> list jv -> list val -> Prop :=
| me_nil : means_each [] [] []
| me_cons : forall t ts v x vs xs, means t v x -> means_each ts vs xs -> means_each (t :: ts) (v :: vs) (x :: xs)
| me_absent : forall t ts xs, means_each ts [] xs -> means_each (TNullable t :: ts) [] (VNone :: xs)
with means_members : list (list N * ty) -> list (list N * jv) -> list val -> Prop :=
| mc_nil : forall js, means_members [] js []
| mc_there : forall n t ms js v x xs, lookup n js = Some v -> means t v x -> means_members ms js xs -> means_members ((n, t) :: ms) js (x :: xs)
| mc_absent : forall n t ms js xs, lookup n js = None -> means_members ms js xs -> means_members ((n, TNullable t) :: ms) js (VNone :: xs).

(** The types of the claim about classes *)
Fixpoint class_type (t : ty) : bool :=
  match t with
  | TUInt _ _ | TInt _ _ | TBool | TStr => true
  | TNullable t | TArr t | TMap t => class_type t
  | TTuple exact ts => exact && forallb lax_type ts
  | TClass _ ms => forallb (fun m => class_type (snd m)) ms
  | _ => false
  end.

(** Before the member [k] not all of the members mapped before it have been there *)
Definition overtaking (names : list (list N)) (js : list (list N * jv)) (k : list N) : Prop :=
  exists a v b pos m nm, js = a ++ (k, v) :: b /\ (pos < m)%nat /\ nth_error names pos = Some nm /\ nth_error names m = Some k /\
    (lookup nm a = None \/ lookup nm a = Some JNull).

Section Tidy.
  Context (nc : list (list N) -> list N -> Prop).

  (** The objects that are read as classes: mapped names are not repeated (C27),
      names are such that the lookup can tell them apart (C35), and members that come
      before one that is mapped earlier are of the mapped type (C73); of the other
      members the value may be anything. *)
  Fixpoint tidy (t : ty) (v : jv) {struct t} : Prop :=
    match t with
    | TNullable t => tidy t v
    | TArr t => match v with JArr vs => Forall (tidy t) vs | _ => True end
    | TMap t => match v with JObj ms => Forall (fun m => tidy t (snd m)) ms | _ => True end
    | TClass exact mm =>
        match v with
        | JObj js =>
            NoDup (map fst mm) /\ no_repeat (map fst mm) js /\ Forall (nc (map fst mm)) (map fst js) /\
            (exact = true -> forall k, In k (map fst js) -> In k (map fst mm)) /\
            (fix members (ms : list (list N * ty)) : Prop :=
               match ms with
               | [] => True
               | (nm, t) :: ms' =>
                   match lookup nm js with
                   | Some v' => tidy t v' /\ (overtaking (map fst mm) js nm -> v' <> JNull -> exists x, typed nc t v' x)
                   | None => True
                   end /\ members ms'
               end) mm
        | _ => True
        end
    | _ => True
    end.
End Tidy.
