(** Model of JSON paths: find_member (daw_json_value.h), to_json_path_string
    (daw_json_find_path.h), pop_json_path and find_range
    (daw_json_parse_name.h).

    A path is a string of its own, given as its bytes.  Same configuration as
    JValueModel. *)
From Coq Require Import String.
From Coq Require Import List NArith ZArith Bool Arith.
From Verif Require Import Base PolicyModel IntModel Loop StrScanModel SkipModel ValueModel JValueModel.
Import ListNotations.
Local Open Scope N_scope.

Definition c_dot : N := 46.

(** string_view::pop_front_until( c ) of header_libraries: the part before the
    first [c], which is dropped; everything when there is none. *)
Fixpoint pop_until_byte (c : N) (path : list N) : list N * list N :=
  match path with
  | [] => ([], [])
  | x :: r => if x =? c then ([], r) else let '(m, r') := pop_until_byte c r in (x :: m, r')
  end.

(** pop_front_until( escaped_any_of<'.', '['>{ }, nodiscard ) of
    header_libraries: up to the first dot or bracket that no backslash precedes,
    which stays. *)
Fixpoint pop_until_sep (esc : bool) (path : list N) : list N * list N :=
  match path with
  | [] => ([], [])
  | x :: r =>
      if negb esc && ((x =? c_dot) || (x =? c_lbrack)) then ([], path)
      else let '(m, r') := pop_until_sep (negb esc && (x =? c_bslash)) r in (x :: m, r')
  end.

(** [if( not path.empty( ) and path.front( ) == '.' ) path.remove_prefix( )] *)
Definition strip_dot (path : list N) : list N :=
  match path with x :: r => if x =? c_dot then r else path | [] => [] end.

(** unsigned_parser over the text between the brackets, bounds known, no range
    check: daw_json_value.h:482-488 *)
Definition path_index (text : list N) : res N :=
  '(i, _) <- unsigned_parser_known 64 false text (new_ps 0 (length text)) ;; Ok i.

(** find_element of an index of 64 bits.  A walk has fewer steps than the
    document has bytes, larger indices are cut to keep the model computable. *)
Definition find_element64 (g : cfg) (buf : list N) (v : ps) (index : N) : res ps :=
  find_element g buf v (N.to_nat (N.min index (N.of_nat (S (S (length buf)))))).

(** One turn of find_member: daw_json_value.h:469-497.  [member.front( )] of an
    empty member reads the dot that follows it in the path. *)
Definition path_body (g : cfg) (buf : list N) (s : list N * ps) : res ((list N * ps) + ps) :=
  let '(path, v) := s in
  match path with
  | [] => Ok (inr v)
  | c :: _ =>
      t <- jtype buf v ;;
      if base_type_eqb t BNone then Ok (inr v)
      else
        let '(member, path) := if c =? c_lbrack then pop_until_byte c_rbrack path else pop_until_sep false path in
        let path := strip_dot path in
        match member with
        | x :: text =>
            if x =? c_lbrack then
              i <- path_index text ;;
              v <- find_element64 g buf v i ;;
              Ok (inl (strip_dot path, v))
            else v <- jv_find_class_member g buf v member ;; Ok (inl (path, v))
        | [] => v <- jv_find_class_member g buf v member ;; Ok (inl (path, v))
        end
  end.

(** find_member: daw_json_value.h:467-499 *)
Definition find_member (g : cfg) (buf : list N) (v : ps) (path : list N) : res ps :=
  loop (path_body g buf) (S (length path)) (path, v).

(** ** Rendering *)

(** json_path_node, as far as rendered: daw_json_find_path.h:49-87.  The index
    is negative for members of classes. *)
Record path_node := mknode { n_name : list N; n_index : Z }.

(** std::to_string of a number that is not negative *)
Fixpoint dec_digits (fuel : nat) (n : N) (acc : list N) : list N :=
  match fuel with
  | O => acc
  | S f => let acc := (48 + n mod 10) :: acc in if n / 10 =? 0 then acc else dec_digits f (n / 10) acc
  end.
Definition to_string (n : N) : list N := dec_digits 20 n [].

(** to_json_path_string: daw_json_find_path.h:91-106 *)
Definition to_json_path_string (stack : list path_node) : list N :=
  fold_left (fun state sv =>
    if (0 <=? n_index sv)%Z then state ++ [c_lbrack] ++ to_string (Z.to_N (n_index sv)) ++ [c_rbrack]
    else match n_name sv with [] => state | _ => state ++ [c_dot] ++ n_name sv end) stack [].

(** ** find_range *)

(** The scan of pop_json_path: daw_json_parse_name.h:83-103.  The byte found is
    dropped from the path and returned, 0 if there is none. *)
Fixpoint pop_path_scan (esc : bool) (path : list N) : list N * N * list N :=
  match path with
  | [] => ([], 0, [])
  | x :: r =>
      if esc then let '(m, c, r') := pop_path_scan false r in (x :: m, c, r')
      else if x =? c_bslash then let '(m, c, r') := pop_path_scan true r in (x :: m, c, r')
      else if (x =? c_dot) || (x =? c_lbrack) || (x =? c_rbrack) then ([], x, r)
      else let '(m, c, r') := pop_path_scan false r in (x :: m, c, r')
  end.

(** pop_json_path: daw_json_parse_name.h:74-104 *)
Definition pop_json_path (path : list N) : list N * N * list N := pop_path_scan false (strip_dot path).

Definition strip_bslash (t : list N) : list N :=
  match t with x :: r => if x =? c_bslash then r else t | [] => [] end.

(** The loop of json_path_compare: daw_json_parse_name.h:112-122 *)
Fixpoint path_compare_loop (fuel : nat) (item name : list N) : bool :=
  match fuel with
  | O => false
  | S f =>
      match item, name with
      | x :: item', y :: name' => if x =? y then path_compare_loop f (strip_bslash item') name' else false
      | _, _ => (length item =? length name)%nat
      end
  end.

(** json_path_compare: daw_json_parse_name.h:106-124.  Every turn takes a byte of
    the name. *)
Definition json_path_compare (item name : list N) : bool :=
  path_compare_loop (S (length name)) (strip_bslash item) name.

(** parse_unsigned_int of a size_t: daw_json_parse_name.h:126-142.  The bytes are
    not tested to be digits; char is signed.  At most 64 bytes are taken. *)
Fixpoint parse_unsigned_loop (count : nat) (t : list N) (acc : N) : res N :=
  match t, count with
  | [], _ => Ok acc
  | _, O => Err InvalidNumber
  | x :: r, S count =>
      let val := if x <? 128 then (x + 2^64 - 48) mod 2^64 else (x + 2^64 - 256 - 48) mod 2^64 in
      parse_unsigned_loop count r ((acc * 10 + val) mod 2^64)
  end.
Definition parse_unsigned_int (t : list N) : res N :=
  match t with
  | [] => UB
  | x :: _ => _ <- ensure (negb (x =? c_minus)) InvalidNumber ;; parse_unsigned_loop 64 t 0
  end.

(** The elements skipped for an index: daw_json_parse_name.h:172-182.  None: the
    function returns false.  The index is 64 bits; [fuel] turns are enough as
    every turn but the last takes a byte. *)
Fixpoint skip_elements (fuel : nat) (g : cfg) (buf : list N) (idx : N) (p : ps) : res (option ps) :=
  match fuel with
  | O => Fuel
  | S f =>
      if idx =? 0 then Ok (Some p)
      else
        let idx := idx - 1 in
        '(_, p) <- skip_val g buf p ;;
        p <- trim_left_checked buf p ;;
        stop <- (if has_more p then c <- front buf p ;; Ok ((0 <? idx) && negb (c =? c_comma)) else Ok false) ;;
        if stop : bool then Ok None
        else p <- move_next buf p ;; skip_elements f g buf idx p
  end.

(** The members skipped for a name: daw_json_parse_name.h:190-198 *)
Fixpoint skip_to_name (fuel : nat) (g : cfg) (buf : list N) (item name : list N) (p : ps) : res (option ps) :=
  match fuel with
  | O => Fuel
  | S f =>
      if json_path_compare item name then Ok (Some p)
      else
        '(_, p) <- skip_val g buf p ;;
        p <- move_next buf p ;;
        if ps_empty p then Ok None
        else
          c <- front buf p ;;
          if c =? c_quote then '(name, p) <- parse_name g buf p ;; skip_to_name f g buf item name p
          else Ok None
  end.

(** find_range2: daw_json_parse_name.h:157-200.  The outcome is the state and
    whether the path was found; when it was not, the state is not used by the
    callers and the one before the step is given. *)
Fixpoint find_range2_loop (fuel : nat) (g : cfg) (buf : list N) (current : list N) (found : N) (path : list N) (p : ps)
  : res (ps * bool) :=
  match fuel with
  | O => Fuel
  | S f =>
      match current with
      | [] => Ok (p, true)
      | _ =>
          r <- (if found =? c_rbrack then
                  b <- is_at buf p c_lbrack ;; _ <- ensure b InvalidJSONPath ;;
                  p <- trim_left_unchecked buf (remove_prefix p 1) ;;
                  idx <- parse_unsigned_int current ;;
                  skip_elements (S (S (length buf))) g buf idx p
                else
                  b <- is_at buf p c_lbrace ;; _ <- ensure b InvalidJSONPath ;;
                  p <- trim_left_unchecked buf (remove_prefix p 1) ;;
                  '(name, p) <- parse_name g buf p ;;
                  skip_to_name (S (length buf)) g buf current name p) ;;
          match r with
          | None => Ok (p, false)
          | Some p => let '(current, found, path) := pop_json_path path in find_range2_loop f g buf current found path p
          end
      end
  end.

Definition find_range2 (g : cfg) (buf : list N) (p : ps) (path : list N) : res (ps * bool) :=
  let '(current, found, path) := pop_json_path path in find_range2_loop (S (S (length path))) g buf current found path p.

(** find_range: daw_json_parse_name.h:202-214 *)
Definition find_range (g : cfg) (buf : list N) (path : list N) : res (ps * bool) :=
  p <- trim_left_checked buf (new_ps 0 (length buf)) ;;
  match path with
  | [] => Ok (p, true)
  | _ => if has_more p then find_range2 g buf p path else Ok (p, true)
  end.

(** from_json with a path: daw_from_json.h:188-251, KnownBounds false.  A nullable
    type is empty when nothing is found. *)
Definition from_json_path (g : cfg) (verify : bool) (t : ty) (doc path : list N) : res val :=
  _ <- ensure (negb (length doc =? 0)%nat) EmptyJSONDocument ;;
  z <- rd doc (length doc - 1) ;;
  let l := if z =? 0 then (length doc - 1)%nat else length doc in
  v <- jvalue doc (new_ps 0 l) ;;
  v <- find_member g doc v path ;;
  k <- jtype doc v ;;
  if base_type_eqb k BNone then
    if is_nullable t then Ok VNone else Err JSONPathNotFound
  else
    '(x, p) <- parse_value g t false doc v ;;
    if verify then
      p <- trim_left_checked doc p ;;
      _ <- ensure (ps_empty p) InvalidEndOfValue ;;
      Ok x
    else Ok x.
