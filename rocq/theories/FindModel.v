(** Model of find_json_path_stack_to and find_json_path_to (daw_json_find_path.h).

    Pointers into the document are indices.  The document is the bytes before its
    terminating zero.  Neither pointer is null and the location is not before the
    document (:114-119 give an empty path otherwise).  Configuration as in
    [JValueModel], with exceptions. *)
From Coq Require Import String.
From Coq Require Import List NArith ZArith Bool Arith.
From Verif Require Import Base PolicyModel IntModel ValueModel JValueModel PathModel EventModel.
Import ListNotations.
Local Open Scope N_scope.

(** json_path_node: daw_json_find_path.h:49-87 *)
Record fnode := mkfnode { f_name : list N; f_start : option nat; f_index : Z; f_type : base_type }.
Definition no_node : fnode := mkfnode [] None (-1) BNone.

(** The members of handler_t (:121-129), the top of the stack first.  [f_bad]: a
    call had undefined behaviour. *)
Record fstate := mkfstate { f_stack : list fnode; f_popped : option fnode; f_state : fnode; f_bad : bool }.
Definition start_state : fstate := mkfstate [] None no_node false.

(** child_of: daw_json_find_path.h:131-136 *)
Definition child_of (s : fstate) : base_type := match f_stack s with [] => BNone | n :: _ => f_type n end.

(** handle_on_value: daw_json_find_path.h:138-157.  [last] is the location plus one
    (:264).  type() may throw before last_popped is reset; an exception ends the
    run as Complete does, nothing is called afterwards. *)
Definition handle_on_value (buf : list N) (last : nat) (s : fstate) (n : option (list N)) (v : ps) : fstate * decision :=
  if negb (has_more v) || (last <=? first v)%nat then (s, Complete)
  else
    let name_index :=
      match child_of s with
      | BClass => match n with Some k => Some (k, (-1)%Z) | None => None end
      | BArray => Some ([], (f_index (f_state s) + 1)%Z)
      | _ => Some ([], (-1)%Z)
      end in
    match name_index with
    | None => (mkfstate (f_stack s) (f_popped s) (f_state s) true, Complete)
    | Some (k, i) =>
        match jtype buf v with
        | Ok t => (mkfstate (f_stack s) None (mkfnode k (Some (first v)) i t) (f_bad s), Continue)
        | Err _ => (mkfstate (f_stack s) (f_popped s) (mkfnode k (Some (first v)) i (f_type (f_state s))) (f_bad s), Complete)
        | UB | Fuel => (mkfstate (f_stack s) (f_popped s) (f_state s) true, Complete)
        end
    end.

(** handle_on_array_start, handle_on_class_start: daw_json_find_path.h:159-163, :174-178 *)
Definition handle_on_start (s : fstate) : fstate := mkfstate (f_state s :: f_stack s) (f_popped s) no_node (f_bad s).
(** handle_on_array_end, handle_on_class_end: daw_json_find_path.h:165-172, :180-187 *)
Definition handle_on_end (s : fstate) : fstate :=
  match f_stack s with
  | [] => s
  | n :: r => mkfstate r (Some n) n (f_bad s)
  end.

(** handle_on_number, handle_on_bool, handle_on_string, handle_on_null, all the same:
    daw_json_find_path.h:189-263.  The view of a null range is at no place: its
    data() is null, and no pointer is at most null. *)
Definition handle_on_scalar (g : cfg) (buf : list N) (last_ : nat) (s : fstate) (v : ps) : fstate * decision :=
  let here := (mkfstate (f_state s :: f_stack s) (f_popped s) (f_state s) (f_bad s), Complete) in
  match skip_val g buf v with
  | Ok (r, _) => if negb (isnull r) && (first r <=? last_)%nat && (last_ <=? last r)%nat then here else (s, Continue)
  | Err _ => here
  | UB | Fuel => (mkfstate (f_stack s) (f_popped s) (f_state s) true, Complete)
  end.

(** A call of the handler.  There is no handle_on_error. *)
Definition find_step (g : cfg) (buf : list N) (loc : nat) (s : fstate) (e : event) : fstate * decision :=
  match e with
  | EValue n v => handle_on_value buf (loc + 1) s n v
  | EArrayStart _ | EClassStart _ => (handle_on_start s, Continue)
  | EArrayEnd | EClassEnd => (handle_on_end s, Continue)
  | ENumber v | EBool v | EString v | ENull v => handle_on_scalar g buf (loc + 1) s v
  | EError _ => (s, Continue)
  end.

(** The handler's members after the calls, the latest first, and its answer *)
Fixpoint find_after (g : cfg) (buf : list N) (loc : nat) (past : list event) : fstate :=
  match past with
  | [] => start_state
  | e :: past => fst (find_step g buf loc (find_after g buf loc past) e)
  end.
Definition find_handler (g : cfg) (buf : list N) (loc : nat) : handler := fun past =>
  match past with
  | [] => Continue
  | e :: past => snd (find_step g buf loc (find_after g buf loc past) e)
  end.

(** find_json_path_stack_to: daw_json_find_path.h:107-286.  Exceptions are caught. *)
Definition find_json_path_stack_to (fuel : nat) (g : cfg) (doc : list N) (loc : nat) : res (list fnode) :=
  match jvalue doc (restate (new_ps 0 (length doc))) with
  | Ok v =>
      let '(s, o) := json_event_parser fuel g (find_handler g doc loc) doc v in
      match o with
      | Ok _ | Err _ =>
          let f := find_after g doc loc (calls s) in
          if f_bad f then UB
          else Ok (rev (f_stack f) ++ match f_popped f with Some n => [n] | None => [] end)
      | UB => UB
      | Fuel => Fuel
      end
  | Err _ => Ok []
  | UB => UB
  | Fuel => Fuel
  end.

(** find_json_path_to: daw_json_find_path.h:288-298 *)
Definition find_json_path_to (fuel : nat) (g : cfg) (doc : list N) (loc : nat) : res (list N) :=
  st <- find_json_path_stack_to fuel g doc loc ;;
  Ok (to_json_path_string (map (fun n => mknode (f_name n) (f_index n)) st)).
