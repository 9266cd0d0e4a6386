(** Model of basic_json_value and its iterator (daw_json_value.h).

    A json_value is its parse state, an iterator is the state it has reached.
    Modelled configuration: checked input, no comments, not zero-terminated, not
    minified, expect_long off, no allocator. *)
From Coq Require Import String.
From Coq Require Import List NArith ZArith Bool Arith.
From Verif Require Import Base PolicyModel IntModel Loop StrScanModel SkipModel ValueModel.
Import ListNotations.
Local Open Scope N_scope.

(** JsonBaseParseTypes: daw_json_enums.h *)
Inductive base_type := BNone | BNumber | BBool | BString | BNull | BClass | BArray.

Definition base_type_eqb (a b : base_type) : bool :=
  match a, b with
  | BNone, BNone | BNumber, BNumber | BBool, BBool | BString, BString
  | BNull, BNull | BClass, BClass | BArray, BArray => true
  | _, _ => false
  end.

(** A default constructed parse state, all pointers null:
    daw_json_parse_policy.h:154-158 *)
Definition null_state : ps := mkps 0 0 None None 0 true.

(** [*m_state.class_first == c]: is_array and is_class, daw_json_value.h:223-231 *)
Definition class_is (buf : list N) (p : ps) (c : N) : res bool :=
  match cfirst p with
  | None => UB
  | Some i => b <- rd buf i ;; Ok (b =? c)
  end.

(** good: daw_json_value.h:235-265 *)
Definition good (buf : list N) (p : ps) : res bool :=
  if negb (has_more p) || isnull p then Ok false
  else
    c <- front buf p ;;
    if (c =? c_lbrack) || (c =? c_lbrace) || (c =? c_quote) || (c =? c_minus)
       || ((48 <=? c) && (c <=? 57)) || (c =? c_t) || (c =? c_f) || (c =? c_n)
    then Ok true
    else if (c =? c_rbrace) || (c =? c_rbrack) then Ok false
    else Err ExpectedTokenNotFound.

(** operator==: daw_json_value.h:283-293 *)
Definition it_eq (buf : list N) (p q : ps) : res bool :=
  a <- good buf p ;;
  b <- good buf q ;;
  if a then Ok (b && (first p =? first q)%nat)
  else Ok (negb b).

(** Constructor of basic_json_value: daw_json_value.h:361-367 *)
Definition jvalue (buf : list N) (p : ps) : res ps := trim_left_checked buf p.

(** [ParseState( first, last, first, last )] *)
Definition restate (p : ps) : ps :=
  if isnull p then null_state else mkps (first p) (last p) (Some (first p)) (Some (last p)) 0 false.

(** name: daw_json_value.h:150-157 *)
Definition it_name (g : cfg) (buf : list N) (p : ps) : res (option (list N)) :=
  a <- class_is buf p c_lbrack ;;
  if a : bool then Ok None
  else '(n, _) <- parse_name g buf p ;; Ok (Some n).

(** operator*: daw_json_value.h:177-193 *)
Definition it_deref (g : cfg) (buf : list N) (p : ps) : res (option (list N) * ps) :=
  a <- class_is buf p c_lbrack ;;
  if a : bool then v <- jvalue buf (restate p) ;; Ok (None, v)
  else
    '(n, q) <- parse_name g buf p ;;
    v <- jvalue buf (restate q) ;; Ok (Some n, v).

(** operator++: daw_json_value.h:205-214 *)
Definition it_next (g : cfg) (buf : list N) (p : ps) : res ps :=
  ok <- good buf p ;;
  if ok : bool then
    c <- class_is buf p c_lbrace ;;
    p <- (if c : bool then '(_, p) <- parse_name g buf p ;; Ok p else Ok p) ;;
    '(_, p) <- skip_val g buf p ;;
    move_next buf p
  else Ok p.

(** begin: daw_json_value.h:400-407 *)
Definition it_begin (buf : list N) (v : ps) : res ps :=
  trim_left_checked buf (remove_prefix (restate v) 1).

(** [for( auto jp : v )]: the pairs an iteration sees *)
Definition iter_body (g : cfg) (buf : list N) (s : ps * list (option (list N) * ps))
  : res ((ps * list (option (list N) * ps)) + (ps * list (option (list N) * ps))) :=
  let '(p, seen) := s in
  stop <- it_eq buf p null_state ;;
  if stop : bool then Ok (inr (p, seen))
  else
    m <- it_deref g buf p ;;
    p <- it_next g buf p ;;
    Ok (inl (p, seen ++ [m])).

Definition iterate (g : cfg) (buf : list N) (v : ps) : res (ps * list (option (list N) * ps)) :=
  b <- it_begin buf v ;;
  loop (iter_body g buf) (S (length buf)) (b, []).

(** type: daw_json_value.h:561-608 *)
Definition jtype (buf : list N) (v : ps) : res base_type :=
  if negb (has_more v) then Ok BNone
  else
    c <- front buf v ;;
    if c =? c_quote then Ok BString
    else if c =? c_lbrace then Ok BClass
    else if c =? c_lbrack then Ok BArray
    else if (c =? c_minus) || ((48 <=? c) && (c <=? 57)) then Ok BNumber
    else if c =? c_t then
      b <- starts_with buf v (bytes "true") ;; Ok (if b : bool then BBool else BNone)
    else if c =? c_f then
      b <- starts_with buf v (bytes "false") ;; Ok (if b : bool then BBool else BNone)
    else if c =? c_n then
      b <- starts_with buf v (bytes "null") ;; _ <- ensure b InvalidNull ;; Ok BNull
    else Ok BNone.

(** get_state: daw_json_value.h:612-620.  The subtraction is made after the
    string was skipped, so [first] is at least one. *)
Definition get_state (g : cfg) (buf : list N) (v : ps) : res ps :=
  '(r, _) <- skip_val g buf v ;;
  t <- jtype buf v ;;
  Ok (if base_type_eqb t BString then set_last (set_first r (first r - 1)) (last r + 1) else r).

(** get_string_view: daw_json_value.h:625-629.  A null range has no bytes. *)
Definition get_string_view (g : cfg) (buf : list N) (v : ps) : res (list N) :=
  '(r, _) <- skip_val g buf v ;; Ok (view buf (first r) (last r)).

(** ** Lookup *)

(** The comparison of find_class_member when the name has a backslash:
    daw_json_value.h:431-448 *)
Fixpoint esc_match (name key : list N) : bool :=
  match name, key with
  | [], [] => true
  | c :: name', k :: key' =>
      if c =? c_bslash then esc_match name' key
      else if c =? k then esc_match name' key' else false
  | _, _ => false
  end.

Fixpoint eqb_bytes (a b : list N) : bool :=
  match a, b with
  | [], [] => true
  | x :: a', y :: b' => (x =? y) && eqb_bytes a' b'
  | _, _ => false
  end.

(** The predicate given to find_if: daw_json_value.h:426-457.  Of an array
    element, which has no name, the first reads an empty optional. *)
Definition name_pred (name : list N) (n : option (list N)) : res bool :=
  if existsb (fun c => c =? c_bslash) name then
    match n with None => UB | Some k => Ok (esc_match name k) end
  else
    match n with None => Ok false | Some k => Ok (eqb_bytes k name) end.

(** daw::algorithm::find_if (header_libraries) over the members *)
Definition find_if_body (g : cfg) (buf : list N) (pred : option (list N) -> res bool) (p : ps)
  : res (ps + ps) :=
  stop <- it_eq buf p null_state ;;
  if stop : bool then Ok (inr p)
  else
    '(n, _) <- it_deref g buf p ;;
    b <- pred n ;;
    if b : bool then Ok (inr p)
    else p <- it_next g buf p ;; Ok (inl p).

(** find_class_member: daw_json_value.h:419-465 *)
Definition jv_find_class_member (g : cfg) (buf : list N) (v : ps) (name : list N) : res ps :=
  t <- jtype buf v ;;
  if negb (base_type_eqb t BClass) then Ok null_state
  else
    b <- it_begin buf v ;;
    pos <- loop (find_if_body g buf (name_pred name)) (S (length buf)) b ;;
    e <- it_eq buf pos null_state ;;
    if e : bool then Ok null_state
    else '(_, r) <- it_deref g buf pos ;; Ok r.

(** find_element: daw_json_value.h:540-552.  nsc_and evaluates both sides. *)
Fixpoint element_loop (g : cfg) (buf : list N) (index : nat) (p : ps) : res (nat * ps) :=
  e <- it_eq buf p null_state ;;
  match index with
  | O => Ok (O, p)
  | S i => if e : bool then Ok (index, p)
           else p <- it_next g buf p ;; element_loop g buf i p
  end.

Definition find_element (g : cfg) (buf : list N) (v : ps) (index : nat) : res ps :=
  b <- it_begin buf v ;;
  '(i, p) <- element_loop g buf index b ;;
  match i with
  | O => '(_, r) <- it_deref g buf p ;; Ok r
  | S _ => Ok null_state
  end.

(** [as<T>]: from_json( json_value ), daw_from_json.h:378-402 *)
Definition jv_as (g : cfg) (t : ty) (buf : list N) (v : ps) : res val :=
  '(x, _) <- parse_value g t false buf (mkps (first v) (last v) (cfirst v) (clast v) 0 (isnull v)) ;; Ok x.
