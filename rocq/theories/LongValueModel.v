(** Reading a class with ExpectLongNames: the functions of ValueModel that reach the
    search for the end of a name (LongModel), and those that call them.  The others do
    not ask for ExpectLongNames and are used as they are. *)
From Coq Require Import List NArith ZArith Bool Arith.
From Verif Require Import Base PolicyModel IntModel Loop StrScanModel SkipModel HashModel StrDecodeModel ValueModel LongModel.
Import ListNotations.
Local Open Scope N_scope.

(** parse_nq of names: daw_json_parse_name.h:43-66 with the null pointer of memchr
    (daw_json_string_util.h:84-107, daw_json_parse_policy_no_comments.h:137-154) *)
Definition parse_name_nq_xl (g : cfg) (buf : list N) (p : ps) : res (list N * ps) :=
  if c_escnames g then parse_name_nq g buf p
  else
    j <- memchr_long c_quote buf (first p) (last p) ;;
    let q := set_first p j in
    ok <- is_at buf q c_quote ;;
    ok <- (if ok : bool then
             match j with O => UB | S i => b <- rd buf i ;; Ok (negb (b =? c_bslash)) end
           else Ok false) ;;
    _ <- ensure ok InvalidString ;;
    let name := view buf (first p) j in
    q <- trim_end_of_name buf (remove_prefix q 1) ;;
    Ok (name, q).

(** parse_name: daw_json_parse_name.h:144-156 *)
Definition parse_name_xl (g : cfg) (buf : list N) (p : ps) : res (list N * ps) :=
  q <- is_at buf p c_quote ;;
  _ <- ensure q InvalidMemberName ;;
  parse_name_nq_xl g buf (remove_prefix p 1).

(** The loop of find_class_member: daw_json_location_info.h:218-272, with the hash for
    long names *)
Definition find_body_xl (g : cfg) (exact : bool) (names : list (list N)) (pos : nat)
  (buf : list N) (s : ps * list ps) : res ((ps * list ps) + (ps * list ps)) :=
  let '(p, locs) := s in
  go <- (if isnull (nth pos locs no_loc) then
           if ps_empty p then Ok false
           else c <- front buf p ;; Ok (negb (c =? c_rbrace))
         else Ok false) ;;
  if negb go then Ok (inr (p, locs))
  else
    '(name, p) <- parse_name_xl g buf p ;;
    let k := find_name (c_force g) true names pos name in
    if (length names <=? k)%nat then
      if exact then Err UnknownMember
      else
        '(_, p) <- skip_val g buf p ;;
        p <- move_next buf p ;;
        Ok (inl (p, locs))
    else if (k =? pos)%nat then Ok (inr (p, set_nth locs pos p))
    else
      '(r, p) <- skip_val g buf p ;;
      p <- move_next buf p ;;
      Ok (inl (p, set_nth locs k r)).

(** find_class_member: daw_json_location_info.h:198-288 *)
Definition find_class_member_xl (g : cfg) (exact : bool) (names : list (list N)) (pos : nat)
  (nullable : bool) (buf : list N) (p : ps) (locs : list ps) : res (ps * list ps * bool) :=
  let missing l := isnull (nth pos l no_loc) in
  brace <- is_at buf p c_rbrace ;;
  _ <- ensure (nullable || negb (missing locs) || negb brace) MemberNotFound ;;
  p <- trim_left_unchecked buf p ;;
  let known := negb (missing locs) in
  '(p, locs) <- loop (find_body_xl g exact names pos buf) (S (length buf)) (p, locs) ;;
  Ok (p, locs, known || missing locs).

(** parse_class_member: daw_json_parse_class.h:94-151 *)
Definition parse_class_member_xl (g : cfg) (exact : bool) (names : list (list N)) (pos : nat)
  (nullable : bool) (parse : parser) (buf : list N) (p : ps) (locs : list ps)
  : res (val * ps * list ps) :=
  p <- move_next buf p ;;
  ok <- (if ps_empty p then Ok false
         else c <- front buf p ;; Ok ((c =? c_quote) || (c =? c_rbrace))) ;;
  _ <- ensure ok MissingMemberNameOrEndOfClass ;;
  '(p, locs, known) <- find_class_member_xl g exact names pos nullable buf p locs ;;
  let loc := nth pos locs no_loc in
  if negb known then
    '(v, p) <- parse false buf p ;; Ok (v, p, locs)
  else if isnull loc then
    if nullable then Ok (VNone, p, locs) else Err MemberNotFound
  else
    '(v, _) <- parse true buf loc ;; Ok (v, p, locs).

(** move_to_next_of for the quote and the closing brace:
    daw_json_parse_policy_no_comments.h:93-135; outside of constant evaluation strpbrk *)
Definition move_to_next_class_member_xl (g : cfg) (buf : list N) (p : ps) : res ps :=
  match c_ex g with
  | ExConstexpr => move_to_next_class_member g buf p
  | _ => move_to_next_class_member_long buf p
  end.

(** class_cleanup_now: daw_json_parse_class.h:153-175 *)
Definition class_cleanup_now_xl (g : cfg) (exact : bool) (old : option nat * option nat)
  (buf : list N) (p : ps) : res ps :=
  _ <- ensure (has_more p) UnexpectedEndOfData ;;
  p <- move_next buf p ;;
  p <- move_to_next_class_member_xl g buf p ;;
  p <- (if exact then
          c <- front buf p ;;
          _ <- ensure (c =? c_rbrace) UnknownMember ;;
          Ok (remove_prefix p 1)
        else '(_, p) <- skip_class CNone true (c_ex g) buf p ;; Ok p) ;;
  p <- trim_left_checked buf p ;;
  Ok (set_class p (fst old) (snd old)).

(** The members are parsed in mapping order: daw_json_parse_class.h:235-278. *)
Fixpoint parse_members_xl (g : cfg) (exact : bool) (names : list (list N)) (pos : nat)
  (ms : list member) (buf : list N) (p : ps) (locs : list ps) : res (list val * ps) :=
  match ms with
  | [] => Ok ([], p)
  | m :: r =>
      '(v, p, locs) <- parse_class_member_xl g exact names pos (m_nullable m) (m_parse m) buf p locs ;;
      '(vs, p) <- parse_members_xl g exact names (S pos) r buf p locs ;;
      Ok (v :: vs, p)
  end.

(** parse_json_class: daw_json_parse_class.h:184-281 *)
Definition parse_json_class_xl (g : cfg) (exact : bool) (ms : list member) (buf : list N) (p : ps)
  : res (val * ps) :=
  p <- trim_left_checked buf p ;;
  b <- is_at buf p c_lbrace ;;
  _ <- ensure b InvalidClassStart ;;
  let old := (cfirst p, clast p) in
  let p := set_class p (Some (first p)) (Some (last p)) in
  p <- trim_left_checked buf (remove_prefix p 1) ;;
  '(vs, p) <- parse_members_xl g exact (map m_name ms) 0 ms buf p (map (fun _ => no_loc) ms) ;;
  p <- class_cleanup_now_xl g exact old buf p ;;
  Ok (VClass vs, p).

(** parse_value_class: daw_json_parse_value.h:583-611 *)
Definition parse_value_class_xl (g : cfg) (exact : bool) (ms : list member) (known : bool)
  (buf : list N) (p : ps) : res (val * ps) :=
  _ <- ensure (has_more p) UnexpectedEndOfData ;;
  '(v, p) <- parse_json_class_xl g exact ms buf p ;;
  if known then Ok (v, p) else p <- trim_left_checked buf p ;; Ok (v, p).

(** parse_value: daw_json_parse_value.h:1176-1225 *)
Fixpoint parse_value_xl (g : cfg) (t : ty) : parser :=
  fun known buf p =>
  match t with
  | TUInt _ _ | TInt _ _ | TBool | TStr | TCustom _ => parse_value g t known buf p
  | TNullable t => parse_value_null (parse_value_xl g t) known buf p
  | TArr t => parse_value_array (parse_value_xl g t) buf p
  | TMap t => parse_value_keyvalue g (parse_value_xl g t) buf p
  | TClass exact ms =>
      parse_value_class_xl g exact
        (map (fun m => mkmember (fst m) (is_nullable (snd m)) (parse_value_xl g (snd m))) ms) known buf p
  | TTuple exact ts => parse_tuple g exact (map (parse_value_xl g) ts) buf p
  | TKvArr exact kn tk vn tv =>
      parse_value_keyvalue_array
        (parse_value_class_xl g exact
           [mkmember kn (is_nullable tk) (parse_value_xl g tk); mkmember vn (is_nullable tv) (parse_value_xl g tv)]) buf p
  | TVariant alts => parse_value_variant (map (fun t => (base_kind t, parse_value_xl g t)) alts) known buf p
  | TIntrusive exact tag t switch alts =>
      parse_value_variant_intrusive
        (parse_value_class_xl g exact [mkmember tag (is_nullable t) (parse_value_xl g t)]) switch
        (map (parse_value_xl g) alts) buf p
  end.

(** from_json: daw_from_json.h:37-84 without a path, with ExpectLongNames *)
Definition from_json_xl (g : cfg) (verify : bool) (t : ty) (doc : list N) : res val :=
  _ <- ensure (negb (length doc =? 0)%nat) EmptyJSONDocument ;;
  z <- rd doc (length doc - 1) ;;
  let l := if z =? 0 then (length doc - 1)%nat else length doc in
  '(v, p) <- parse_value_xl g t false doc (new_ps 0 l) ;;
  if verify then
    p <- trim_left_checked doc p ;;
    _ <- ensure (ps_empty p) InvalidEndOfValue ;;
    Ok v
  else Ok v.
