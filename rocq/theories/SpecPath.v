(** Paths into a value, and their text as documented: member names separated by
    dots, array indices in square brackets. *)
From Coq Require Import List NArith Bool.
From Verif Require Import SpecNum SpecJson SpecValue.
Import ListNotations.
Local Open Scope N_scope.

Inductive step : Set :=
| SName (k : list N)
| SIndex (i : nat).

(** The path leads from one value to another, through objects that satisfy [ok]. *)
Inductive leads (ok : jv -> Prop) : jv -> list step -> jv -> Prop :=
| l_here : forall v, leads ok v [] v
| l_name : forall js k i w path x, ok (JObj js) -> first_named k js i -> nth_error js i = Some (k, w) ->
    leads ok w path x -> leads ok (JObj js) (SName k :: path) x
| l_index : forall es i w path x, nth_error es i = Some w -> leads ok w path x ->
    leads ok (JArr es) (SIndex i :: path) x.

(** Names that need no escaping *)
Definition simple (k : list N) : Prop := k <> [] /\ Forall (fun c => c <> 46 /\ c <> 91 /\ c <> 93 /\ c <> 92) k.

(** The text of the steps after the first *)
Inductive rest_text : list step -> list N -> Prop :=
| rt_end : rest_text [] []
| rt_name : forall k path t, simple k -> rest_text path t -> rest_text (SName k :: path) (46 :: k ++ t)
| rt_index : forall i ds path t, canonical ds -> dec_val ds = N.of_nat i -> rest_text path t ->
    rest_text (SIndex i :: path) (91 :: ds ++ 93 :: t).

Definition path_text (path : list step) (t : list N) : Prop :=
  match path with
  | SName k :: path => exists r, t = k ++ r /\ simple k /\ rest_text path r
  | _ => rest_text path t
  end.

(** The path leads nowhere: at some point the name is not a member, the value is
    not an object at all, or the index is past the end of the array. *)
Inductive dead (ok : jv -> Prop) : jv -> list step -> Prop :=
| d_name : forall js k path, ok (JObj js) -> ~ In k (map fst js) -> dead ok (JObj js) (SName k :: path)
| d_kind : forall v k path, (forall js, v <> JObj js) -> dead ok v (SName k :: path)
| d_index : forall es i path, (length es <= i)%nat -> N.of_nat i < 2^64 -> dead ok (JArr es) (SIndex i :: path)
| d_in_name : forall js k i w path, ok (JObj js) -> first_named k js i -> nth_error js i = Some (k, w) ->
    dead ok w path -> dead ok (JObj js) (SName k :: path)
| d_in_index : forall es i w path, nth_error es i = Some w -> dead ok w path -> dead ok (JArr es) (SIndex i :: path).
