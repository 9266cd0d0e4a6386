(** Model of json_event_parser (daw_json_event_parser.h).

    The handler is any function from the calls made so far, the latest first, to
    what the latest call answers.  It has every member, a member that is left
    out is one that answers Continue (handle_on_*, :155-270).  Modelled
    configuration: that of [JValueModel].  The parser runs until its stack is
    empty, here with fuel, one unit for each value or closing bracket. *)
From Coq Require Import String.
From Coq Require Import List NArith ZArith Bool Arith.
From Verif Require Import Base PolicyModel IntModel ValueModel JValueModel.
Import ListNotations.
Local Open Scope N_scope.

(** json_parse_handler_result: daw_json_event_parser.h:29-36 *)
Inductive decision := Continue | SkipClassArray | Complete.

(** The calls of the handler: daw_json_event_parser.h:155-270 *)
Inductive event :=
| EValue (n : option (list N)) (v : ps)
| EArrayStart (v : ps)
| EArrayEnd
| EClassStart (v : ps)
| EClassEnd
| ENumber (v : ps)
| EBool (v : ps)
| EString (v : ps)
| ENull (v : ps)
| EError (v : ps).

Definition handler := list event -> decision.

(** StackParseStateType: daw_json_event_parser.h:274 *)
Inductive skind := KClass | KArray.

(** The local variables of json_event_parser (:332-341) and the calls made.  The
    end iterator of a stack entry is always [null_state] (end,
    daw_json_value.h:409-416), an entry is its kind and its first iterator. *)
Record est := mkest {
  calls : list event;
  stack : list (skind * ps);
  class_depth : Z;
  array_depth : Z }.

Definition set_stack (s : est) (k : list (skind * ps)) : est := mkest (calls s) k (class_depth s) (array_depth s).
Definition add_class (s : est) (d : Z) : est := mkest (calls s) (stack s) (class_depth s + d) (array_depth s).
Definition add_array (s : est) (d : Z) : est := mkest (calls s) (stack s) (class_depth s) (array_depth s + d).

(** A step leaves a state, also when it throws. *)
Definition lift {A : Type} (s : est) (r : res A) (k : A -> est * res unit) : est * res unit :=
  match r with
  | Ok a => k a
  | Err e => (s, Err e)
  | UB => (s, UB)
  | Fuel => (s, Fuel)
  end.

(** move_to_last: daw_json_event_parser.h:343-345.  [back()] of an empty vector
    is undefined. *)
Definition move_to_last (s : est) : est * res unit :=
  match stack s with
  | [] => (s, UB)
  | (k, _) :: r => (set_stack s ((k, null_state) :: r), Ok tt)
  end.

(** A call of the handler and the switch on its result, repeated after every
    call in process_value: daw_json_event_parser.h:349-359 and :366-375,
    :383-392, :399-408, :412-421, :425-434, :438-447, :452-461 *)
Definition tell (h : handler) (s : est) (e : event) (k : est -> est * res unit) : est * res unit :=
  let s := mkest (e :: calls s) (stack s) (class_depth s) (array_depth s) in
  match h (calls s) with
  | Complete => (set_stack s [], Ok tt)
  | SkipClassArray => move_to_last s
  | Continue => k s
  end.

(** process_value: daw_json_event_parser.h:347-465 *)
Definition process_value (h : handler) (buf : list N) (s : est) (n : option (list N)) (v : ps) : est * res unit :=
  tell h s (EValue n v) (fun s =>
  lift s (jtype buf v) (fun t =>
  match t with
  | BArray =>
      tell h (add_array s 1) (EArrayStart v) (fun s =>
      lift s (it_begin buf v) (fun p => (set_stack s ((KArray, p) :: stack s), Ok tt)))
  | BClass =>
      tell h (add_class s 1) (EClassStart v) (fun s =>
      lift s (it_begin buf v) (fun p => (set_stack s ((KClass, p) :: stack s), Ok tt)))
  | BNumber => tell h s (ENumber v) (fun s => (s, Ok tt))
  | BBool => tell h s (EBool v) (fun s => (s, Ok tt))
  | BString => tell h s (EString v) (fun s => (s, Ok tt))
  | BNull => tell h s (ENull v) (fun s => (s, Ok tt))
  | BNone => tell h s (EError v) (fun s => (s, Ok tt))
  end)).

(** The call at the end of a container and its switch:
    daw_json_event_parser.h:482-490, :499-507 *)
Definition tell_end (h : handler) (s : est) (e : event) : est * res unit :=
  let s := mkest (e :: calls s) (stack s) (class_depth s) (array_depth s) in
  match h (calls s) with
  | Complete => (set_stack s [], Ok tt)
  | SkipClassArray | Continue => (s, Ok tt)
  end.

(** [v.value.first.get_raw_state( ).has_more( ) and ...front( ) == c] *)
Definition ends_with (buf : list N) (p : ps) (c : N) : res bool :=
  if has_more p then b <- front buf p ;; Ok (b =? c) else Ok false.

(** process_range: daw_json_event_parser.h:467-511 *)
Definition process_range (g : cfg) (h : handler) (buf : list N) (s : est) (k : skind) (p : ps) : est * res unit :=
  lift s (it_eq buf p null_state) (fun stop =>
  if negb stop then
    lift s (it_deref g buf p) (fun m =>
    lift s (it_next g buf p) (fun q =>
    process_value h buf (set_stack s ((k, q) :: stack s)) (fst m) (snd m)))
  else
    match k with
    | KClass =>
        lift s (ends_with buf p c_rbrace) (fun b =>
        lift s (ensure ((0 <? class_depth s)%Z && b) InvalidEndOfValue) (fun _ =>
        tell_end h (add_class s (-1)) EClassEnd))
    | KArray =>
        lift s (ends_with buf p c_rbrack) (fun b =>
        lift s (ensure ((0 <? array_depth s)%Z && b) InvalidEndOfValue) (fun _ =>
        tell_end h (add_array s (-1)) EArrayEnd))
    end).

(** The loop and the check after it: daw_json_event_parser.h:515-521 *)
Fixpoint events_loop (fuel : nat) (g : cfg) (h : handler) (buf : list N) (s : est) : est * res unit :=
  match fuel with
  | O => (s, Fuel)
  | S fuel =>
      match stack s with
      | [] => (s, ensure ((class_depth s =? 0)%Z && (array_depth s =? 0)%Z) InvalidEndOfValue)
      | (k, p) :: r =>
          let '(s, o) := process_range g h buf (set_stack s r) k p in
          lift s o (fun _ => events_loop fuel g h buf s)
      end
  end.

(** json_event_parser on a json_value: daw_json_event_parser.h:316-522 *)
Definition json_event_parser (fuel : nat) (g : cfg) (h : handler) (buf : list N) (v : ps) : est * res unit :=
  let '(s, o) := process_value h buf (mkest [] [] 0 0) None v in
  lift s o (fun _ => events_loop fuel g h buf s).
