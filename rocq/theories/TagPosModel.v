(** Variants in an array whose tag is another element of the array:
    json_tagged_variant with a json_tuple_member as its tag
    (daw_json_link_types.h:1024-1086), as an element of a tuple or of a class that is
    read from an array.  Checked input. *)
From Coq Require Import List NArith Bool Arith.
From Verif Require Import Base PolicyModel SkipModel ValueModel OrdModel PosModel.
Import ListNotations.
Local Open Scope N_scope.

(** find_index: daw_json_parse_value.h:824-850, for a tag that is an element.  [tag] is
    the one member of the tuple the tag is read with.  The state is that of the array,
    [class_first, class_last); as in TagModel the pointers may be null. *)
Definition find_index_pos (g : cfg) (exact : bool) (tag : omember) (switch : val -> nat) (buf : list N) (p : ps) : res nat :=
  match cfirst p, clast p with
  | Some a, Some b =>
      let p2 := new_ps a b in
      ok <- is_at buf p2 c_lbrack ;;
      _ <- ensure ok InvalidArrayStart ;;
      '(v, _) <- parse_tuple_pos g exact [tag] buf p2 ;;
      match v with
      | VTuple [y] => Ok (switch y)
      | _ => Fuel
      end
  | None, Some _ => UB
  | _, None => Err InvalidArrayStart
  end.

(** parse_value_variant_tagged: daw_json_parse_value.h:852-860 *)
Definition parse_variant_pos (g : cfg) (exact : bool) (tag : omember) (switch : val -> nat) (alts : list parser)
  (buf : list N) (p : ps) : res (val * ps) :=
  i <- find_index_pos g exact tag switch buf p ;;
  parse_visit i alts buf p.

(** The types of the elements.  [exact] is about the tuple the tag is read with, [k]
    the place of the tag. *)
Inductive pty : Type :=
| PPlain (t : oty)
| PTagged (exact : bool) (k : nat) (t : oty) (switch : val -> nat) (alts : list oty).

Definition p_nullable (m : pty) : bool := match m with PPlain t => o_nullable t | PTagged _ _ _ _ _ => false end.

(** parse_value of these types: daw_json_parse_value.h:1176-1260 *)
Definition parse_pty (g : cfg) (m : pty) : parser :=
  fun known buf p =>
  match m with
  | PPlain t => parse_o g t known buf p
  | PTagged exact k t switch alts =>
      parse_variant_pos g exact (mkomember (Some k) (o_nullable t) (parse_o g t)) switch (map (parse_o g) alts) buf p
  end.

Definition pmember (g : cfg) (m : option nat * pty) : omember :=
  mkomember (fst m) (p_nullable (snd m)) (parse_pty g (snd m)).

(** A class that is read from an array with such elements (OrdModel), and a tuple
    (PosModel) *)
Inductive shape := AClass | ATuple.
Definition parse_shape (g : cfg) (s : shape) (exact : bool) (ms : list (option nat * pty)) (buf : list N) (p : ps) : res (val * ps) :=
  match s with
  | AClass => parse_value_ordered g exact (map (pmember g) ms) false buf p
  | ATuple => parse_tuple_pos g exact (map (pmember g) ms) buf p
  end.

(** from_json: daw_from_json.h:37-84, as in ValueModel *)
Definition from_json_shape (g : cfg) (verify : bool) (s : shape) (exact : bool) (ms : list (option nat * pty)) (doc : list N) : res val :=
  _ <- ensure (negb (length doc =? 0)%nat) EmptyJSONDocument ;;
  z <- rd doc (length doc - 1) ;;
  let l := if z =? 0 then (length doc - 1)%nat else length doc in
  '(v, p) <- parse_shape g s exact ms doc (new_ps 0 l) ;;
  if verify then
    p <- trim_left_checked doc p ;;
    _ <- ensure (ps_empty p) InvalidEndOfValue ;;
    Ok v
  else Ok v.
