(** What is asked of documents that are read without checks. *)
From Coq Require Import List NArith.
From Verif Require Import Base ValueModel.
Import ListNotations.

(** Nothing is missing: no value of an optional type is empty. *)
Fixpoint none_free (x : val) : Prop :=
  match x with
  | VInt _ | VBool _ | VStr _ => True
  | VNone => False
  | VSome y | VVariant _ y => none_free y
  | VArr ys | VClass ys | VTuple ys =>
      (fix all (ys : list val) : Prop := match ys with [] => True | y :: r => none_free y /\ all r end) ys
  | VMap kys =>
      (fix all (kys : list (list N * val)) : Prop := match kys with [] => True | (_, y) :: r => none_free y /\ all r end) kys
  end.

(** The tags of intrusive variants are numbers, booleans or strings. *)
Fixpoint simple_tags (t : ty) : Prop :=
  match t with
  | TUInt _ _ | TInt _ _ | TBool | TStr | TCustom _ => True
  | TNullable t | TArr t | TMap t => simple_tags t
  | TClass _ mm => (fix all (mm : list (list N * ty)) : Prop := match mm with [] => True | (_, t) :: r => simple_tags t /\ all r end) mm
  | TTuple _ ts | TVariant ts => (fix all (ts : list ty) : Prop := match ts with [] => True | t :: r => simple_tags t /\ all r end) ts
  | TKvArr _ _ tk _ tv => simple_tags tk /\ simple_tags tv
  | TIntrusive _ _ t _ ts =>
      match t with TUInt _ _ | TInt _ _ | TBool | TStr => True | _ => False end /\
      (fix all (ts : list ty) : Prop := match ts with [] => True | t :: r => simple_tags t /\ all r end) ts
  end.
