(** Model of the serialisation of classes that have members which depend on
    another one: variants with a tag, arrays with a size; and members that keep
    their text. *)
From Coq Require Import List NArith ZArith Bool Arith.
From Verif Require Import Base ValueModel SerModel TagModel.
Import ListNotations.
Local Open Scope N_scope.

(** The value of the member [name]: find_names_in_pack, to_daw_json_string.h:1315-1346
    and get, to_daw_json_string.h:1402.  Without such a member the C++ does not
    compile. *)
Fixpoint pack_value (name : list N) (mm : list (list N * mty)) (xs : list val) : res val :=
  match mm, xs with
  | m :: mm, x :: xs => if list_eq_dec N.eq_dec (fst m) name then Ok x else pack_value name mm xs
  | _, _ => UB
  end.

(** The member another one depends on, its type and its value: dependent_member_t
    with has_switcher_v, to_daw_json_string.h:1393-1403.  [untag] is the switcher of
    the member with that name, applied to the class. *)
Definition dependent (untag : list N -> list val -> val) (mm : list (list N * mty)) (xs : list val) (m : list N * mty)
  : option (list N * ty * res val) :=
  match snd m with
  | MTagged _ tag t _ _ => Some (tag, t, Ok (untag (fst m) xs))
  | MSized name sz _ => Some (name, sz, pack_value name mm xs)
  | MPlain _ | MRaw => None
  end.

Definition is_visited (k : list N) (visited : list (list N)) : bool :=
  existsb (fun n => if list_eq_dec N.eq_dec n k then true else false) visited.

(** dependent_member_to_json_str for each member in turn:
    to_daw_json_string.h:1348-1406.  Gives the text, whether nothing was written
    yet, and the names written. *)
Fixpoint dependent_members (o : sopt) (lvl : nat) (is_first : bool) (visited : list (list N))
  (ds : list (option (list N * ty * res val))) : res (list N * bool * list (list N)) :=
  match ds with
  | [] => Ok ([], is_first, visited)
  | None :: ds => dependent_members o lvl is_first visited ds
  | Some (d, t, s) :: ds =>
      if is_visited d visited then dependent_members o lvl is_first visited ds
      else
        v <- s ;;
        tx <- to_json_string o t lvl v ;;
        '(rest, f, vs) <- dependent_members o lvl false (visited ++ [d]) ds ;;
        Ok ((if is_first then [] else [44]) ++ next_member o lvl ++ 34 :: d ++ [34; 58] ++ space o ++ tx ++ rest, f, vs)
  end.

(** The values of these members: tagged variants to_daw_json_string.h:508-515,
    sized arrays to_daw_json_string.h:1122-1126, raw members
    to_daw_json_string.h:912-917.  A sized array is held with its size, as it is
    read. *)
Definition write_mty (o : sopt) (m : mty) (lvl : nat) (x : val) : res (list N) :=
  match m, x with
  | MPlain t, _ => to_json_string o t lvl x
  | MTagged _ _ _ _ alts, VVariant i y =>
      match nth_error alts i with Some t => to_json_string o t lvl y | None => UB end
  | MSized _ _ t, VTuple [_; VArr es] => to_json_string_array o lvl (to_json_string o t (S lvl)) es
  | MRaw, VStr s => Ok s
  | _, _ => UB (* no value of the type *)
  end.

Definition wmembers (o : sopt) (lvl : nat) (mm : list (list N * mty)) : list wmember :=
  map (fun m => mkwm (fst m) (if mty_nullable (snd m) then Nullable else NotNullable) (write_mty o (snd m) lvl)) mm.

(** serialize_json_class: daw_json_serialize_impl.h:88-144 *)
Definition serialize_mclass (o : sopt) (lvl : nat) (untag : list N -> list val -> val) (mm : list (list N * mty)) (xs : list val)
  : res (list N) :=
  '(front, is_first, visited) <- dependent_members o (S lvl) true [] (map (dependent untag mm xs) mm) ;;
  body <- class_members o (next_member o (S lvl)) is_first visited (wmembers o (S lvl) mm) xs ;;
  let some := match mm with [] => false | _ => true end in
  Ok (123 :: front ++ body ++ trailing o some ++ (if some then next_member o lvl else []) ++ [125]).

(** to_json: daw_to_json.h:52-88 *)
Definition to_json_mclass (o : sopt) (untag : list N -> list val -> val) (mm : list (list N * mty)) (xs : list val) : res (list N) :=
  serialize_mclass o 0 untag mm xs.
