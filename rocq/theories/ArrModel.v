(** Model of from_json_array, from_json_alloc and of from_json on a json_value
    (daw_from_json.h). *)
From Coq Require Import List NArith ZArith Bool Arith.
From Verif Require Import Base PolicyModel StrScanModel SkipModel ValueModel JValueModel PathModel.
Import ListNotations.
Local Open Scope N_scope.

(** The end of all of these: daw_from_json.h:540-551, 147-157.  [verify] is
    MustVerifyEndOfDataIsValid. *)
Definition verified (verify : bool) (doc : list N) (r : res (val * ps)) : res val :=
  '(x, p) <- r ;;
  if verify then
    p <- trim_left_checked doc p ;;
    _ <- ensure (ps_empty p) InvalidEndOfValue ;;
    Ok x
  else Ok x.

(** What from_json_array does at the start of the array: daw_from_json.h:534-551 and
    642-659.  The whitespace is skipped without looking at the end. *)
Definition array_from (g : cfg) (verify : bool) (t : ty) (doc : list N) (p : ps) : res val :=
  p <- trim_left_unchecked doc p ;;
  b <- is_at doc p c_lbrack ;;
  _ <- ensure b InvalidArrayStart ;;
  verified verify doc (parse_value_array (parse_value g t) doc p).

(** from_json_array without a path: daw_from_json.h:496-553.  A terminating zero in
    the range is not dropped. *)
Definition from_json_array (g : cfg) (verify : bool) (t : ty) (doc : list N) : res val :=
  _ <- ensure (negb (length doc =? 0)%nat) EmptyJSONDocument ;;
  array_from g verify t doc (new_ps 0 (length doc)).

(** from_json_array with a path: daw_from_json.h:588-661.  Here it is dropped. *)
Definition from_json_array_path (g : cfg) (verify : bool) (t : ty) (doc path : list N) : res val :=
  _ <- ensure (negb (length doc =? 0)%nat) EmptyJSONDocument ;;
  z <- rd doc (length doc - 1) ;;
  let l := if z =? 0 then (length doc - 1)%nat else length doc in
  v <- jvalue doc (new_ps 0 l) ;;
  v <- find_member g doc v path ;;
  k <- jtype doc v ;;
  if base_type_eqb k BNone then Err JSONPathNotFound
  else array_from g verify t doc v.

(** from_json_alloc without a path: daw_from_json.h:113-158.  A terminating zero in
    the range is not dropped. *)
Definition from_json_alloc (g : cfg) (verify : bool) (t : ty) (doc : list N) : res val :=
  _ <- ensure (negb (length doc =? 0)%nat) EmptyJSONDocument ;;
  verified verify doc (parse_value g t false doc (new_ps 0 (length doc))).

(** from_json of a json_value: daw_from_json.h:369-394 (the end is not verified),
    with a path 424-462. *)
Definition from_json_value (g : cfg) (t : ty) (doc : list N) (v : ps) : res val :=
  '(x, _) <- parse_value g t false doc v ;; Ok x.
Definition from_json_value_path (g : cfg) (t : ty) (doc : list N) (v : ps) (path : list N) : res val :=
  v <- jvalue doc v ;;
  v <- find_member g doc v path ;;
  k <- jtype doc v ;;
  if base_type_eqb k BNone then
    if is_nullable t then Ok VNone else Err JSONPathNotFound
  else from_json_value g t doc v.
