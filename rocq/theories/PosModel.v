(** Tuples some of whose members name their place in the array, json_tuple_member
    (daw_json_link_types.h:238-251).  Checked input, bounds of the range given.  The
    variant MSVC needs (DAW_JSON_BUGFIX_MSVC_EVAL_ORDER_002) and pinned types are left
    out. *)
From Coq Require Import List NArith Bool Arith.
From Verif Require Import Base PolicyModel SkipModel ValueModel OrdModel.
Import ListNotations.
Local Open Scope N_scope.

(** parse_value_help, one member after the other: daw_json_parse_value.h:1035-1037 and 1073-1096.
    [idx] is class_idx. *)
Fixpoint parse_pos (g : cfg) (ms : list omember) (idx : nat) (buf : list N) (p : ps) : res (list val * ps) :=
  match ms with
  | [] => Ok ([], p)
  | m :: r =>
      '(p, idx) <-
        match om_index m with
        | Some k => maybe_skip_members g buf p idx k
        | None => _ <- ensure (has_more p) UnexpectedEndOfData ;; Ok (p, idx)
        end ;;
      '(v, p) <- om_parse m false buf p ;;
      p <- move_next buf p ;;
      '(vs, p) <- parse_pos g r (S idx) buf p ;;
      Ok (v :: vs, p)
  end.

(** parse_tuple_value: daw_json_parse_value.h:1005-1148 *)
Definition parse_tuple_pos (g : cfg) (exact : bool) (ms : list omember) (buf : list N) (p : ps) : res (val * ps) :=
  p <- trim_left_checked buf p ;;
  b <- is_at buf p c_lbrack ;;
  _ <- ensure b InvalidArrayStart ;;
  let old := (cfirst p, clast p) in
  let p := set_class p (Some (first p)) (Some (last p)) in
  p <- move_next buf (remove_prefix p 1) ;;
  p <- trim_left_checked buf p ;;
  '(vs, p) <- parse_pos g ms 0 buf p ;;
  p <- (if exact then
          p <- trim_left_checked buf p ;;
          c <- front buf p ;;
          _ <- ensure (c =? c_rbrack) UnknownMember ;;
          trim_left_checked buf (remove_prefix p 1)
        else '(_, p) <- skip_array CNone true (c_ex g) buf p ;; Ok p) ;;
  Ok (VTuple vs, set_class p (fst old) (snd old)).

(** The members: their place if they name one, and their type *)
Definition pos_members (g : cfg) (ms : list (option nat * oty)) : list omember :=
  map (fun m => mkomember (fst m) (o_nullable (snd m)) (parse_o g (snd m))) ms.

(** from_json: daw_from_json.h:37-84, as in ValueModel *)
Definition from_json_pos (g : cfg) (verify exact : bool) (ms : list (option nat * oty)) (doc : list N) : res val :=
  _ <- ensure (negb (length doc =? 0)%nat) EmptyJSONDocument ;;
  z <- rd doc (length doc - 1) ;;
  let l := if z =? 0 then (length doc - 1)%nat else length doc in
  '(v, p) <- parse_tuple_pos g exact (pos_members g ms) doc (new_ps 0 l) ;;
  if verify then
    p <- trim_left_checked doc p ;;
    _ <- ensure (ps_empty p) InvalidEndOfValue ;;
    Ok v
  else Ok v.
