(** What an event parser is to report, independent of its code. *)
From Coq Require Import List NArith ZArith Bool.
From Verif Require Import Base SpecJson SpecValue EventModel.
Import ListNotations.
Local Open Scope N_scope.

(** What happens on a walk through a value *)
Inductive happening :=
| HValue (n : option (list N)) (v : jv)
| HStart (v : jv)
| HEnd (v : jv)
| HScalar (v : jv).

(** The pre-order walk *)
Fixpoint walk (n : option (list N)) (v : jv) : list happening :=
  HValue n v ::
  match v with
  | JArr es => HStart v :: flat_map (walk None) es ++ [HEnd v]
  | JObj js => HStart v :: flat_map (fun m => let '(k, w) := m in walk (Some k) w) js ++ [HEnd v]
  | _ => [HScalar v]
  end.

(** A call that reports a happening *)
Definition reports (buf : list N) (e : event) (x : happening) : Prop :=
  match x, e with
  | HValue n v, EValue m p => n = m /\ value_at buf v p
  | HStart (JArr es), EArrayStart p => value_at buf (JArr es) p
  | HStart (JObj js), EClassStart p => value_at buf (JObj js) p
  | HEnd (JArr _), EArrayEnd => True
  | HEnd (JObj _), EClassEnd => True
  | HScalar JNull, ENull p => value_at buf JNull p
  | HScalar JTrue, EBool p => value_at buf JTrue p
  | HScalar JFalse, EBool p => value_at buf JFalse p
  | HScalar (JNum n), ENumber p => value_at buf (JNum n) p
  | HScalar (JStr b), EString p => value_at buf (JStr b) p
  | _, _ => False
  end.

(** [w] is [v] or a value somewhere inside it. *)
Inductive inside (w : jv) : jv -> Prop :=
| in_here : inside w w
| in_array : forall e es, In e es -> inside w e -> inside w (JArr es)
| in_object : forall k e js, In (k, e) js -> inside w e -> inside w (JObj js).

Definition is_end (e : event) : bool := match e with EArrayEnd | EClassEnd => true | _ => false end.
Definition is_start (e : event) : bool := match e with EArrayStart _ | EClassStart _ => true | _ => false end.

(** Skipping at the end of a container asks for nothing more. *)
Definition goes_on (d : decision) (e : event) : bool :=
  match d with Continue => true | SkipClassArray => is_end e | Complete => false end.

(** The calls up to the first answer of [h] that is not to go on, with that
    answer; the latest call first.  Nothing if every answer is to go on. *)
Fixpoint first_stop (h : handler) (past all : list event) : option (list event * decision) :=
  match all with
  | [] => None
  | e :: r => if goes_on (h (e :: past)) e then first_stop h (e :: past) r else Some (e :: past, h (e :: past))
  end.

(** Containers started and not ended *)
Fixpoint open_now (past : list event) : Z :=
  match past with
  | [] => 0
  | e :: r => (open_now r + (if is_start e then 1 else if is_end e then -1 else 0))%Z
  end.

(** Values and closing brackets the parser comes to after the outermost value *)
Fixpoint turns (v : jv) : nat :=
  match v with
  | JArr es => S (list_sum (map (fun e => S (turns e)) es))
  | JObj js => S (list_sum (map (fun m => let '(_, w) := m in S (turns w)) js))
  | _ => O
  end.

(** How the run of a parser ends that is told to stop at the latest call of
    [past]: it throws, unless everything started is also ended; told to skip
    outside of every container it has no container to skip. *)
Definition stop_outcome (past : list event) (d : decision) : res unit :=
  match d with
  | Continue => Ok tt
  | Complete => if (open_now past =? 0)%Z then Ok tt else Err InvalidEndOfValue
  | SkipClassArray => if (open_now (tl past) =? 0)%Z then UB else Err InvalidEndOfValue
  end.
