(** Values inside a document, independent of the json_value code. *)
From Coq Require Import List NArith ZArith Bool.
From Verif Require Import Base Mem SpecNum SpecText SpecJson SkipProofs SkipSafe ValueModel NameProofs.
Import ListNotations.
Local Open Scope N_scope.

(** [p] stands at a text of [v], followed by whitespace and then the end or a
    byte that ends a value. *)
Definition value_at (buf : list N) (v : jv) (p : ps) : Prop :=
  wf buf p /\ exists t j, jtext str_body v t /\ sub_at buf (first p) t /\
    followed true buf (first p + length t) j (last p) /\ (v = JNull -> (first p + 4 < last p)%nat).

Definition container (v : jv) : Prop := match v with JArr _ | JObj _ => True | _ => False end.

Definition named (m : list N * jv) : option (list N) * jv := (Some (fst m), snd m).
Definition unnamed (v : jv) : option (list N) * jv := (None, v).

(** The members of an object, the elements of an array *)
Definition members (v : jv) : list (option (list N) * jv) :=
  match v with
  | JObj js => map named js
  | JArr es => map unnamed es
  | _ => []
  end.

(** Names the parser delimits (see [name_ok]) *)
Definition names_ok (g : cfg) (v : jv) : Prop :=
  match v with JObj js => Forall (fun m => name_ok g (fst m)) js | _ => True end.

(** [i] is the position of the first member with name [name]. *)
Definition first_named (name : list N) (js : list (list N * jv)) (i : nat) : Prop :=
  exists a v b, js = a ++ (name, v) :: b /\ length a = i /\ ~ In name (map fst a).
