(** Model of to_json_schema (daw_json_schema.h) for the types of [ValueModel.ty].

    A writer gives the bytes it appends to the output, as in [SerModel]. *)
From Coq Require Import String.
From Coq Require Import List NArith Bool Arith.
From Verif Require Import Base StrEncodeModel ValueModel SerModel.
Import ListNotations.
Local Open Scope N_scope.

Definition in_quotes (s : list N) : list N := 34 :: s ++ [34].

(** output_kv: daw_json_schema.h:23-30.  [key] is without its quotes. *)
Definition output_kv (o : sopt) (key : string) (value : list N) : list N :=
  in_quotes (bytes key) ++ 58 :: space o ++ value.

(** What the overloads for Bool, Custom, StringEscaped, Signed and Unsigned put
    around their members: daw_json_schema.h:32-51, 53-75, 122-141, 143-162,
    185-205.  [root]: the braces are written by to_json_schema itself. *)
Definition scalar (o : sopt) (root : bool) (lvl : nat) (body : list N) : list N :=
  if root then body ++ next_member o lvl
  else 123 :: next_member o (S lvl) ++ body ++ next_member o lvl ++ [125].

(** The same of the overloads for Tuple, Array, KeyValue, KeyValueArray, Variant
    and VariantIntrusive: daw_json_schema.h:493-551, 553-575, 593-616, 618-641,
    670-695, 722-748 *)
Definition block (o : sopt) (root : bool) (lvl : nat) (body : list N) : list N :=
  if root then next_member o lvl ++ body ++ next_member o lvl
  else 123 :: next_member o (S lvl) ++ body ++ next_member o lvl ++ [125].

(** output_member_type for every member in turn: daw_json_schema.h:341-367 *)
Fixpoint property_types (o : sopt) (lvl : nat) (ms : list (list N * res (list N))) : res (list N) :=
  match ms with
  | [] => Ok []
  | (name, schema) :: r =>
      t <- schema ;;
      rest <- property_types o lvl r ;;
      Ok (in_quotes name ++ 58 :: space o ++ t ++ (match r with [] => [] | _ => 44 :: next_member o lvl end) ++ rest)
  end.

(** output_required_member for every member in turn: daw_json_schema.h:369-384,
    407-413.  The names of those that are not nullable. *)
Fixpoint required_members (o : sopt) (lvl : nat) (is_first : bool) (ms : list (list N * bool)) : res (list N) :=
  match ms with
  | [] => Ok []
  | (name, nullable) :: r =>
      if nullable : bool then required_members o lvl is_first r
      else
        n <- copy_raw (o_7bit o) name ;;
        rest <- required_members o lvl false r ;;
        Ok ((if is_first then [] else [44]) ++ next_member o lvl ++ in_quotes n ++ rest)
  end.

(** json_class_processor::process for a json_member_list without dependent
    members: daw_json_schema.h:286-309.  [lvl] is the level of its own members.
    The schemas of the members are computed for level [S lvl]. *)
Definition class_schema (o : sopt) (lvl : nat) (ms : list (list N * (bool * res (list N)))) : res (list N) :=
  props <- property_types o (S lvl) (map (fun m => (fst m, snd (snd m))) ms) ;;
  req <- required_members o (S lvl) true (map (fun m => (fst m, fst (snd m))) ms) ;;
  Ok (output_kv o "type" (in_quotes (bytes "object")) ++ 44 :: next_member o lvl ++
      output_kv o "properties" [123] ++
      (match ms with [] => [] | _ => next_member o (S lvl) ++ props ++ next_member o lvl end) ++ [125; 44] ++ next_member o lvl ++
      output_kv o "required" [91] ++ (match ms with [] => [] | _ => req ++ next_member o lvl end) ++ [93]).

(** The overload for Class: daw_json_schema.h:467-490 *)
Definition class_block (o : sopt) (root : bool) (lvl : nat) (ms : nat -> list (list N * (bool * res (list N)))) : res (list N) :=
  let l := if root then lvl else S lvl in
  body <- (match ms (S l) with [] => Ok [] | _ => c <- class_schema o l (ms (S l)) ;; Ok (next_member o l ++ c) end) ;;
  Ok (if root then body else 123 :: body ++ next_member o lvl ++ [125]).

(** Schemas in an array, one after the other: daw_json_schema.h:505-532, 643-668 *)
Fixpoint schema_list (o : sopt) (lvl : nat) (is_first : bool) (ss : list (res (list N))) : res (list N) :=
  match ss with
  | [] => Ok []
  | s :: r =>
      t <- s ;;
      rest <- schema_list o lvl false r ;;
      Ok ((if is_first then [] else [44]) ++ next_member o lvl ++ t ++ rest)
  end.
Definition schema_array (o : sopt) (lvl : nat) (ss : list (res (list N))) : res (list N) :=
  body <- schema_list o (S lvl) true ss ;;
  Ok (91 :: body ++ (match ss with [] => [] | _ => next_member o lvl end) ++ [93]).

(** to_json_schema by the kind of the type, daw_json_schema.h:31-748.  Custom types
    that are not strings do not compile (line 59). *)
Fixpoint type_schema (o : sopt) (t : ty) (root : bool) (lvl : nat) {struct t} : res (list N) :=
  let l := if root then lvl else S lvl in
  match t with
  | TBool => Ok (scalar o root lvl (output_kv o "type" (in_quotes (bytes "boolean"))))
  | TStr | TCustom _ => Ok (scalar o root lvl (output_kv o "type" (in_quotes (bytes "string"))))
  | TInt _ _ => Ok (scalar o root lvl (output_kv o "type" (in_quotes (bytes "integer"))))
  | TUInt _ _ =>
      Ok (scalar o root lvl (output_kv o "type" (in_quotes (bytes "integer")) ++ 44 :: next_member o l ++ output_kv o "minimum" [48]))
  (* Null: daw_json_schema.h:577-583 *)
  | TNullable t => type_schema o t root lvl
  | TArr t =>
      e <- type_schema o t false l ;;
      Ok (block o root lvl (output_kv o "type" (in_quotes (bytes "array") ++ [44]) ++ next_member o l ++ output_kv o "items" e))
  | TMap t =>
      e <- type_schema o t false l ;;
      Ok (block o root lvl (output_kv o "type" (in_quotes (bytes "object")) ++ 44 :: next_member o l ++ output_kv o "additionalProperties" e))
  | TKvArr _ kn tk vn tv =>
      e <- class_block o false l (fun l' => [(kn, (is_nullable tk, type_schema o tk false l')); (vn, (is_nullable tv, type_schema o tv false l'))]) ;;
      Ok (block o root lvl (output_kv o "type" (in_quotes (bytes "array") ++ [44]) ++ next_member o l ++ output_kv o "items" e))
  | TClass _ mm => class_block o root lvl (fun l' => map (fun m => (fst m, (is_nullable (snd m), type_schema o (snd m) false l'))) mm)
  | TTuple _ ts =>
      a <- schema_array o l (map (fun t => type_schema o t false (S l)) ts) ;;
      Ok (block o root lvl (output_kv o "type" (in_quotes (bytes "array") ++ [44]) ++ next_member o l ++ output_kv o "items" a))
  | TVariant alts | TIntrusive _ _ _ _ alts =>
      a <- schema_array o l (map (fun t => type_schema o t false (S l)) alts) ;;
      Ok (block o root lvl (output_kv o "oneOf" a))
  end.

(** to_json_schema: daw_json_schema.h:759-800 *)
Definition to_json_schema (o : sopt) (t : ty) (id title : list N) : res (list N) :=
  i <- copy_raw (o_7bit o) id ;;
  n <- copy_raw (o_7bit o) title ;;
  body <- type_schema o t true 1 ;;
  Ok (123 :: next_member o 1 ++ output_kv o "$schema" (in_quotes (bytes "https://json-schema.org/draft/2020-12/schema") ++ [44]) ++
      next_member o 1 ++ output_kv o "$id" (34 :: i ++ [34; 44]) ++
      next_member o 1 ++ output_kv o "title" (34 :: n ++ [34; 44]) ++
      body ++ next_member o 0 ++ [125]).
