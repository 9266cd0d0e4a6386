(** Where the values of a document are, independent of the code. *)
From Coq Require Import List NArith Bool.
From Verif Require Import Base Mem SpecNum SpecText SpecJson SpecPath.
Import ListNotations.
Local Open Scope N_scope.

(** The text of elements and of members in front of another one, each with the comma
    behind it *)
Inductive lead_elems : list jv -> list N -> Prop :=
| le_none : lead_elems [] []
| le_one : forall v t w1 w2 vs r, jtext str_body v t -> ws w1 -> ws w2 -> lead_elems vs r ->
    lead_elems (v :: vs) (t ++ w1 ++ 44 :: w2 ++ r).
Inductive lead_members : list (list N * jv) -> list N -> Prop :=
| lm_none : lead_members [] []
| lm_one : forall k v t w1 w2 w3 w4 ms r, ws w1 -> ws w2 -> jtext str_body v t -> ws w3 -> ws w4 -> lead_members ms r ->
    lead_members ((k, v) :: ms) ((34 :: k ++ 34 :: w1 ++ 58 :: w2) ++ t ++ w3 ++ 44 :: w4 ++ r).

(** [spot buf v i path w k]: in the text of [v] at [i] the path leads to [w], whose
    text is at [k]. *)
Inductive spot (buf : list N) : jv -> nat -> list step -> jv -> nat -> Prop :=
| sp_here : forall w i, spot buf w i [] w i
| sp_elem : forall a x b i w0 r t path w k, ws w0 -> lead_elems a r -> jtext str_body x t -> sub_at buf i (91 :: w0 ++ r ++ t) ->
    spot buf x (i + length (91 :: w0 ++ r)) path w k ->
    spot buf (JArr (a ++ x :: b)) i (SIndex (length a) :: path) w k
| sp_member : forall a key x b i w0 r w1 w2 t path w k, ws w0 -> lead_members a r -> ws w1 -> ws w2 -> jtext str_body x t ->
    sub_at buf i (123 :: w0 ++ r ++ 34 :: key ++ 34 :: w1 ++ 58 :: w2 ++ t) ->
    spot buf x (i + length (123 :: w0 ++ r ++ 34 :: key ++ 34 :: w1 ++ 58 :: w2)) path w k ->
    spot buf (JObj (a ++ (key, x) :: b)) i (SName key :: path) w k.

(** The location [loc] is in the text of the scalar [w] at [k], a closing quote left
    out. *)
Definition within (w : jv) (k loc : nat) : Prop :=
  match w with
  | JTrue => (k <= loc < k + 4)%nat
  | JFalse => (k <= loc < k + 5)%nat
  | JNum n => (k <= loc < k + length n)%nat
  | JStr b => (k <= loc <= k + length b)%nat
  | _ => False
  end.
