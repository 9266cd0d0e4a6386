(** Model of serialisation for the types of [ValueModel.ty].

    A writer gives the bytes it appends to the output; that every kind of output
    receives these bytes is C55.  Reals and dates are modelled elsewhere. *)
From Coq Require Import List NArith ZArith Bool Arith.
From Verif Require Import Base IntModel IntSerModel StrEncodeModel ValueModel.
Import ListNotations.
Local Open Scope N_scope.

(** The serialisation policy: daw_json_serialize_policy.h:77-100.  [o_indent] is
    the text of one level (generate_indent, daw_json_serialize_policy_details.h:250-291)
    and [o_newline] the line end (daw_json_serialize_policy.h:131-132). *)
Record sopt := mksopt {
  o_pretty : bool; o_indent : list N; o_newline : list N; o_trailing : bool;
  o_7bit : bool; o_errutf8 : bool }.
Definition minified : sopt := mksopt false [] [10] false false false.

(** The indentations there are: daw_json_serialize_policy_details.h:253-291 *)
Definition indents : list (list N) :=
  [9] :: map (fun n => repeat 32 n) [1; 2; 3; 4; 5; 8; 10]%nat.

(** next_member, output_newline, output_indent, space:
    daw_json_serialize_policy.h:114-150 *)
Fixpoint indent (o : sopt) (lvl : nat) : list N :=
  match lvl with O => [] | S n => o_indent o ++ indent o n end.
Definition next_member (o : sopt) (lvl : nat) : list N :=
  if o_pretty o then o_newline o ++ indent o lvl else [].
Definition space (o : sopt) : list N := if o_pretty o then [32] else [].

Definition null_text : list N := [110; 117; 108; 108].

(** to_json_string_bool: to_daw_json_string.h:461-480 *)
Definition to_json_string_bool (b : bool) : list N :=
  if b then [116; 114; 117; 101] else [102; 97; 108; 115; 101].

Definition trailing (o : sopt) (has_elements : bool) : list N :=
  if o_trailing o && has_elements then [44] else [].

(** The loop of to_json_string_array: to_daw_json_string.h:1096-1106; [pre] is
    what next_member writes *)
Fixpoint array_elems (pre : list N) (w : val -> res (list N)) (xs : list val) : res (list N) :=
  match xs with
  | [] => Ok []
  | x :: r =>
      t <- w x ;;
      rest <- array_elems pre w r ;;
      Ok (pre ++ t ++ (match r with [] => [] | _ => [44] end) ++ rest)
  end.

(** to_json_string_array: to_daw_json_string.h:1065-1120 *)
Definition to_json_string_array (o : sopt) (lvl : nat) (w : val -> res (list N)) (xs : list val) : res (list N) :=
  body <- array_elems (next_member o (S lvl)) w xs ;;
  let has := match xs with [] => false | _ => true end in
  Ok (91 :: body ++ trailing o has ++ (if has then next_member o lvl else []) ++ [93]).

(** The loop of to_json_string_kv: to_daw_json_string.h:1217-1231.  Keys are
    strings. *)
Fixpoint map_elems (o : sopt) (pre : list N) (w : val -> res (list N)) (kxs : list (list N * val)) : res (list N) :=
  match kxs with
  | [] => Ok []
  | (k, x) :: r =>
      kt <- write_string_escaped (o_errutf8 o) (o_7bit o) k ;;
      t <- w x ;;
      rest <- map_elems o pre w r ;;
      Ok (pre ++ kt ++ 58 :: space o ++ t ++ (match r with [] => [] | _ => [44] end) ++ rest)
  end.

(** to_json_string_kv: to_daw_json_string.h:1205-1245 *)
Definition to_json_string_kv (o : sopt) (lvl : nat) (w : val -> res (list N)) (kxs : list (list N * val)) : res (list N) :=
  body <- map_elems o (next_member o (S lvl)) w kxs ;;
  let has := match kxs with [] => false | _ => true end in
  Ok (123 :: body ++ trailing o has ++ (if has then next_member o lvl else []) ++ [125]).

(** One element of to_json_string_kv_array: to_daw_json_string.h:1162-1190.  The
    pair of key and value is [VClass [a; b]]; [wk] and [wv] write at the level of
    the members. *)
Definition kv_pair (o : sopt) (lvl : nat) (kn vn : list N) (wk wv : val -> res (list N)) (x : val) : res (list N) :=
  match x with
  | VClass [a; b] =>
      ta <- wk a ;;
      tb <- wv b ;;
      Ok (123 :: next_member o (S lvl) ++ (34 :: kn ++ [34; 58]) ++ space o ++ ta ++ 44 ::
          next_member o (S lvl) ++ (34 :: vn ++ [34; 58]) ++ space o ++ tb ++
          trailing o true ++ next_member o lvl ++ [125])
  | _ => UB (* an element is a pair *)
  end.

(** to_json_string_kv_array: to_daw_json_string.h:1140-1203 *)
Definition to_json_string_kv_array (o : sopt) (lvl : nat) (kn vn : list N) (wk wv : val -> res (list N)) (xs : list val) : res (list N) :=
  body <- array_elems (next_member o (S lvl)) (kv_pair o (S lvl) kn vn wk wv) xs ;;
  let has := match xs with [] => false | _ => true end in
  Ok (91 :: body ++ trailing o has ++ (if has then next_member o lvl else []) ++ [93]).

(** to_json_string_custom: to_daw_json_string.h:954-980.  The text the converter
    gives is the value; it is copied without escapes. *)
Definition to_json_string_custom (k : custom) (s : list N) : list N :=
  match k with CuLiteral => s | CuString | CuAny => 34 :: s ++ [34] end.

(** JsonNullable: daw_json_enums.h:82-92 *)
Inductive nullkind := NotNullable | Nullable | NullVisible.

Record wmember := mkwm { wm_name : list N; wm_null : nullkind; wm_write : val -> res (list N) }.

(** nullable_value_has_value: concepts/daw_nullable_value_fwd.h:125-127 *)
Definition has_value (x : val) : bool := match x with VNone => false | _ => true end.

(** to_json_str for each member in turn: to_daw_json_string.h:1408-1437.  An empty
    nullable is left out, whether it is NullVisible or not.  Tag members
    (to_daw_json_string.h:1348-1406) are those of tagged variants. *)
Fixpoint class_members (o : sopt) (pre : list N) (is_first : bool) (visited : list (list N))
  (ms : list wmember) (xs : list val) : res (list N) :=
  match ms, xs with
  | [], [] => Ok []
  | m :: ms, x :: xs =>
      if existsb (fun n => if list_eq_dec N.eq_dec n (wm_name m) then true else false) visited
      then class_members o pre is_first visited ms xs
      else
        let visited := visited ++ [wm_name m] in
        let skip := match wm_null m with NotNullable => false | Nullable | NullVisible => negb (has_value x) end in
        if skip then class_members o pre is_first visited ms xs
        else
          t <- wm_write m x ;;
          rest <- class_members o pre false visited ms xs ;;
          Ok ((if is_first then [] else [44]) ++ pre ++ 34 :: wm_name m ++ [34; 58] ++ space o ++ t ++ rest)
  | _, _ => UB (* values of a class have its members *)
  end.

(** serialize_json_class: daw_json_serialize_impl.h:88-144 *)
Definition serialize_json_class (o : sopt) (lvl : nat) (ms : list wmember) (xs : list val) : res (list N) :=
  body <- class_members o (next_member o (S lvl)) true [] ms xs ;;
  let some := match ms with [] => false | _ => true end in
  Ok (123 :: body ++ trailing o some ++ (if some then next_member o lvl else []) ++ [125]).

(** to_daw_json_string_tuple: to_daw_json_string.h:982-1013 *)
Fixpoint tuple_elems (pre : list N) (ws : list (val -> res (list N))) (xs : list val) : res (list N) :=
  match ws, xs with
  | [], [] => Ok []
  | w :: ws, x :: xs =>
      t <- w x ;;
      rest <- tuple_elems pre ws xs ;;
      Ok (t ++ (match ws with [] => [] | _ => 44 :: pre end) ++ rest)
  | _, _ => UB (* values of a tuple have its elements *)
  end.

(** to_json_string_tuple: to_daw_json_string.h:1015-1058 *)
Definition to_json_string_tuple (o : sopt) (lvl : nat) (ws : list (val -> res (list N))) (xs : list val) : res (list N) :=
  body <- tuple_elems (next_member o (S lvl)) ws xs ;;
  let some := match ws with [] => false | _ => true end in
  Ok (91 :: next_member o (S lvl) ++ body ++ trailing o some ++ (if some then next_member o lvl else []) ++ [93]).

(** to_json_ordered_str for each member in turn: to_daw_json_string.h:1439-1469.
    A member may have an index, before which null is written for the missing
    positions. *)
Fixpoint null_gap (pre : list N) (n : nat) : list N :=
  match n with O => [] | S n => pre ++ null_text ++ [44] ++ pre ++ null_gap pre n end.
Fixpoint ordered_elems (pre : list N) (size idx : nat) (ms : list (option nat * (val -> res (list N)))) (xs : list val) : res (list N) :=
  match ms, xs with
  | [], [] => Ok []
  | (k, w) :: ms, x :: xs =>
      let n := match k with Some j => (j - idx)%nat | None => O end in
      let idx := (idx + n + 1)%nat in
      t <- w x ;;
      rest <- ordered_elems pre size idx ms xs ;;
      Ok (null_gap pre n ++ t ++ (if (idx <? size)%nat then 44 :: pre else []) ++ rest)
  | _, _ => UB (* values of a class have its members *)
  end.

(** serialize_ordered_json_class: daw_json_serialize_impl.h:146-180 *)
Definition serialize_ordered_json_class (o : sopt) (lvl : nat) (ms : list (option nat * (val -> res (list N)))) (xs : list val) : res (list N) :=
  body <- ordered_elems (next_member o (S lvl)) (length ms) 0 ms xs ;;
  let some := match ms with [] => false | _ => true end in
  Ok (91 :: next_member o (S lvl) ++ body ++ trailing o some ++ (if some then next_member o lvl else []) ++ [93]).

(** The member kind of a type of the model *)
Definition null_of (t : ty) : nullkind := if is_nullable t then Nullable else NotNullable.

(** to_daw_json_string: to_daw_json_string.h:1247-1297; nullable values
    to_daw_json_string.h:526-555.  A value that does not belong to the type
    cannot be passed in C++. *)
Fixpoint to_json_string (o : sopt) (t : ty) (lvl : nat) (x : val) {struct t} : res (list N) :=
  match t, x with
  | TUInt w _, VInt z => to_json_string_unsigned LSNever w (Z.to_N z)
  | TInt w _, VInt z => to_json_string_signed LSNever w z
  | TBool, VBool b => Ok (to_json_string_bool b)
  | TStr, VStr s => write_string_escaped (o_errutf8 o) (o_7bit o) s
  | TNullable t, VNone => Ok null_text
  | TNullable t, VSome y => to_json_string o t lvl y
  | TArr t, VArr xs => to_json_string_array o lvl (to_json_string o t (S lvl)) xs
  | TMap t, VMap kxs => to_json_string_kv o lvl (to_json_string o t (S lvl)) kxs
  | TClass _ mm, VClass xs =>
      serialize_json_class o lvl
        (map (fun m => mkwm (fst m) (null_of (snd m)) (to_json_string o (snd m) (S lvl))) mm) xs
  | TTuple _ ts, VTuple xs =>
      to_json_string_tuple o lvl (map (fun t => to_json_string o t (S lvl)) ts) xs
  | TKvArr _ kn tk vn tv, VArr xs =>
      to_json_string_kv_array o lvl kn vn (to_json_string o tk (S (S lvl))) (to_json_string o tv (S (S lvl))) xs
  | TCustom k, VStr s => Ok (to_json_string_custom k s)
  (* to_variant_string: to_daw_json_string.h:482-524 *)
  | (TVariant alts | TIntrusive _ _ _ _ alts), VVariant i y =>
      (fix to_variant_string (alts : list ty) (i : nat) : res (list N) :=
         match alts, i with
         | t :: _, O => to_json_string o t lvl y
         | _ :: alts', S i' => to_variant_string alts' i'
         | [], _ => UB
         end) alts i
  | _, _ => UB
  end.

(** to_json: daw_to_json.h:52-88; serialisation starts at level 0
    (daw_json_serialize_policy.h:65) *)
Definition to_json (o : sopt) (t : ty) (x : val) : res (list N) := to_json_string o t 0 x.
