(** Model of the classes that are read from arrays, json_tuple_member_list
    (daw_json_link_types.h:262-335), and of arrays that are read into a std::array.
    Checked input, bounds of the range given.  The member list MSVC needs
    (DAW_JSON_BUGFIX_MSVC_EVAL_ORDER_002) and pinned types are left out. *)
From Coq Require Import List NArith Bool Arith.
From Verif Require Import Base PolicyModel SkipModel ValueModel SerModel.
Import ListNotations.
Local Open Scope N_scope.

(** A member: its position if it is a json_tuple_member
    (daw_json_link_types.h:238-251), whether it is nullable, its parser. *)
Record omember := mkomember { om_index : option nat; om_nullable : bool; om_parse : parser }.

(** The loop of maybe_skip_members: daw_json_parse_value.h:923-931.  [n] is how far
    the position is from the desired one, the result what is left of it.  Both
    operands of [&] are evaluated: the byte is read in any case. *)
Fixpoint skip_members (g : cfg) (buf : list N) (p : ps) (n : nat) : res (ps * nat) :=
  c <- front buf p ;;
  match n with
  | O => Ok (p, O)
  | S n' =>
      if c =? c_rbrack then Ok (p, n)
      else
        '(_, p) <- skip_val g buf p ;;
        p <- move_next buf p ;;
        _ <- ensure (has_more p) UnexpectedEndOfData ;;
        skip_members g buf p n'
  end.

(** maybe_skip_members: daw_json_parse_value.h:912-932.  Gives the new position. *)
Definition maybe_skip_members (g : cfg) (buf : list N) (p : ps) (current desired : nat) : res (ps * nat) :=
  _ <- ensure (current <=? desired)%nat OutOfOrderOrderedMembers ;;
  '(p, n) <- skip_members g buf p (desired - current) ;;
  Ok (p, (desired - n)%nat).

(** parse_ordered_class_member: daw_json_parse_class.h:45-80 *)
Definition parse_ordered_class_member (g : cfg) (m : omember) (idx : nat) (buf : list N) (p : ps) : res (val * ps * nat) :=
  p <- move_next buf p ;;
  '(p, idx) <-
    match om_index m with
    | Some k => maybe_skip_members g buf p idx k
    | None => _ <- ensure (has_more p) UnexpectedEndOfData ;; Ok (p, idx)
    end ;;
  c <- front buf p ;;
  if c =? c_rbrack then
    if om_nullable m then '(v, _) <- om_parse m true buf no_loc ;; Ok (v, p, S idx)
    else Err MemberNotFound
  else '(v, p) <- om_parse m false buf p ;; Ok (v, p, S idx).

(** The members one after the other: daw_json_parse_class.h:324-331 *)
Fixpoint parse_ordered_members (g : cfg) (ms : list omember) (idx : nat) (buf : list N) (p : ps) : res (list val * ps) :=
  match ms with
  | [] => Ok ([], p)
  | m :: r =>
      '(v, p, idx) <- parse_ordered_class_member g m idx buf p ;;
      '(vs, p) <- parse_ordered_members g r idx buf p ;;
      Ok (v :: vs, p)
  end.

(** parse_json_tuple_class: daw_json_parse_class.h:284-347 *)
Definition parse_json_tuple_class (g : cfg) (exact : bool) (ms : list omember) (buf : list N) (p : ps) : res (val * ps) :=
  p <- trim_left_checked buf p ;;
  b <- is_at buf p c_lbrack ;;
  _ <- ensure b InvalidArrayStart ;;
  let old := (cfirst p, clast p) in
  let p := set_class p (Some (first p)) (Some (last p)) in
  p <- trim_left_checked buf (remove_prefix p 1) ;;
  '(vs, p) <- parse_ordered_members g ms 0 buf p ;;
  p <- (if exact then
          p <- trim_left_checked buf p ;;
          c <- front buf p ;;
          _ <- ensure (c =? c_rbrack) UnknownMember ;;
          trim_left_checked buf (remove_prefix p 1)
        else '(_, p) <- skip_array CNone true (c_ex g) buf p ;; Ok p) ;;
  Ok (VClass vs, set_class p (fst old) (snd old)).

(** parse_value_class for such a class: daw_json_parse_value.h:583-611 *)
Definition parse_value_ordered (g : cfg) (exact : bool) (ms : list omember) (known : bool) (buf : list N) (p : ps) : res (val * ps) :=
  _ <- ensure (has_more p) UnexpectedEndOfData ;;
  '(v, p) <- parse_json_tuple_class g exact ms buf p ;;
  if known then Ok (v, p) else p <- trim_left_checked buf p ;; Ok (v, p).

(** ** std::array *)

(** construct_array: daw_json_default_constuctor.h:44-67.  The elements one after the
    other; [live] says that the iterator is not equal to the default one, [d] is T{ }.
    Reading an element and the increment are as in [array_body], which puts the element
    behind those it is given. *)
Fixpoint fixed_elems (parse : parser) (d : val) (buf : list N) (n : nat) (live : bool) (p : ps) : res (list val * ps) :=
  match n with
  | O => Ok ([], p)
  | S n =>
      if live then
        s <- array_body parse buf (p, []) ;;
        match s with
        | inl (p, v) => '(vs, p) <- fixed_elems parse d buf n true p ;; Ok (v ++ vs, p)
        | inr (p, v) => '(vs, p) <- fixed_elems parse d buf n false p ;; Ok (v ++ vs, p)
        end
      else '(vs, p) <- fixed_elems parse d buf n false p ;; Ok (d :: vs, p)
  end.

(** parse_value_array for a std::array: daw_json_parse_value.h:672-689.  What the
    constructor leaves of the elements is not skipped. *)
Definition parse_value_fixed (parse : parser) (d : val) (n : nat) (buf : list N) (p : ps) : res (val * ps) :=
  p <- trim_left_checked buf p ;;
  b <- is_at buf p c_lbrack ;;
  _ <- ensure b InvalidArrayStart ;;
  p <- trim_left_unchecked buf (remove_prefix p 1) ;;
  c <- front buf p ;;
  '(vs, p) <-
    (if c =? c_rbrack then p <- end_of_array buf p ;; fixed_elems parse d buf n false p
     else fixed_elems parse d buf n true p) ;;
  Ok (VArr vs, p).

(** Types with such classes anywhere inside; the other constructors are as in [ty]
    (a class [OClass] is one with named members); [OFixed] is a std::array of [n]
    elements, [d] the value that is default constructed. *)
Inductive oty :=
| OTy (t : ty)
| ONullable (t : oty)
| OArr (t : oty)
| OMap (t : oty)
| OClass (exact : bool) (ms : list (list N * oty))
| OTuple (exact : bool) (ts : list oty)
| OOrdered (exact : bool) (ms : list (option nat * oty))
| OFixed (n : nat) (d : val) (t : oty).

Definition o_nullable (t : oty) : bool :=
  match t with OTy t => is_nullable t | ONullable _ => true | _ => false end.

(** parse_value: daw_json_parse_value.h:1176-1225 *)
Fixpoint parse_o (g : cfg) (t : oty) : parser :=
  fun known buf p =>
  match t with
  | OTy t => parse_value g t known buf p
  | ONullable t => parse_value_null (parse_o g t) known buf p
  | OArr t => parse_value_array (parse_o g t) buf p
  | OMap t => parse_value_keyvalue g (parse_o g t) buf p
  | OClass exact ms =>
      parse_value_class g exact (map (fun m => mkmember (fst m) (o_nullable (snd m)) (parse_o g (snd m))) ms) known buf p
  | OTuple exact ts => parse_tuple g exact (map (parse_o g) ts) buf p
  | OOrdered exact ms =>
      parse_value_ordered g exact (map (fun m => mkomember (fst m) (o_nullable (snd m)) (parse_o g (snd m))) ms) known buf p
  | OFixed n d t => parse_value_fixed (parse_o g t) d n buf p
  end.

(** from_json: daw_from_json.h:37-84, as in ValueModel *)
Definition from_json_o (g : cfg) (verify : bool) (t : oty) (doc : list N) : res val :=
  _ <- ensure (negb (length doc =? 0)%nat) EmptyJSONDocument ;;
  z <- rd doc (length doc - 1) ;;
  let l := if z =? 0 then (length doc - 1)%nat else length doc in
  '(v, p) <- parse_o g t false doc (new_ps 0 l) ;;
  if verify then
    p <- trim_left_checked doc p ;;
    _ <- ensure (ps_empty p) InvalidEndOfValue ;;
    Ok v
  else Ok v.

(** to_daw_json_string: to_daw_json_string.h:1247-1299 *)
Fixpoint to_json_string_o (o : sopt) (t : oty) (lvl : nat) (x : val) {struct t} : res (list N) :=
  match t, x with
  | OTy t, x => to_json_string o t lvl x
  | ONullable t, VNone => Ok null_text
  | ONullable t, VSome y => to_json_string_o o t lvl y
  | OArr t, VArr xs => to_json_string_array o lvl (to_json_string_o o t (S lvl)) xs
  | OMap t, VMap kxs => to_json_string_kv o lvl (to_json_string_o o t (S lvl)) kxs
  | OClass _ mm, VClass xs =>
      serialize_json_class o lvl
        (map (fun m => mkwm (fst m) (if o_nullable (snd m) then Nullable else NotNullable) (to_json_string_o o (snd m) (S lvl))) mm) xs
  | OTuple _ ts, VTuple xs => to_json_string_tuple o lvl (map (fun t => to_json_string_o o t (S lvl)) ts) xs
  | OOrdered _ ms, VClass xs =>
      serialize_ordered_json_class o lvl (map (fun m => (fst m, to_json_string_o o (snd m) (S lvl))) ms) xs
  | OFixed _ _ t, VArr xs => to_json_string_array o lvl (to_json_string_o o t (S lvl)) xs
  | _, _ => UB
  end.
Definition to_json_o (o : sopt) (t : oty) (x : val) : res (list N) := to_json_string_o o t 0 x.
