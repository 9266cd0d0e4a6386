(** Model of typed parsing with a comment policy or of minified documents.

    Modelled configuration: checked input, not zero-terminated,
    expect_long off, and one of the three comment policies [cp], or the default one
    with MinifiedDocument.  The functions are
    those of ValueModel with the policy's own skipping of whitespace and of
    brackets in place of the default's; what does not depend on the policy is taken
    from there. *)
From Coq Require Import List NArith ZArith Bool Arith.
From Verif Require Import Base PolicyModel IntModel Loop StrScanModel SkipModel HashModel StrDecodeModel ValueModel.
Import ListNotations.
Local Open Scope N_scope.

Section Policy.
Context (cp : pol).

(** trim_left_checked / trim_left_unchecked: daw_json_parse_policy.h:390-396;
    nothing is skipped in minified documents:
    daw_json_parse_policy_no_comments.h:34-35, 68-69 *)
Definition trim_c (buf : list N) (p : ps) : res ps :=
  match cp with Com k => trim_left_cp k true buf p | Min => Ok p end.
Definition trim_unchecked_c (buf : list N) (p : ps) : res ps :=
  match cp with Com k => trim_left_cp k false buf p | Min => Ok p end.

(** skip_true, skip_false: daw_json_skip.h:75-117 *)
Definition skip_bool_c (rest : list N) (r : reason) (val : N) (buf : list N) (p : ps) : res (ps * ps) :=
  q <- skip_word true rest r buf p ;;
  let result := set_last p (first q) in
  q <- trim_c buf q ;;
  _ <- check_after_literal true InvalidEndOfValue buf q ;;
  Ok (set_counter result val, q).

(** skip_null: daw_json_skip.h:119-141 *)
Definition skip_null_c (buf : list N) (p : ps) : res (ps * ps) :=
  q <- skip_word true [117; 108; 108] InvalidNull buf p ;;
  _ <- ensure (has_more q) UnexpectedEndOfData ;;
  q <- trim_c buf q ;;
  _ <- check_after_literal true UnexpectedEndOfData buf q ;;
  Ok (null_of q, q).

(** skip_literal: daw_json_skip.h:403-438 *)
Definition skip_literal_c (buf : list N) (p : ps) : res (ps * ps) :=
  _ <- ensure (has_more p) UnexpectedEndOfData ;;
  let p := set_counter p 0 in
  c <- front buf p ;;
  if c =? c_t then skip_bool_c [114; 117; 101] InvalidTrue 1 buf p
  else if c =? c_f then skip_bool_c [97; 108; 115; 101] InvalidFalse 0 buf p
  else if c =? c_n then skip_null_c buf p
  else if (c =? c_minus) || ((48 <=? c) && (c <=? 57)) then skip_number true buf p
  else Err InvalidStartOfValue.

(** skip_value: daw_json_skip.h:318-361 *)
Definition skip_val_c (g : cfg) (buf : list N) (p : ps) : res (ps * ps) :=
  _ <- ensure (has_more p) UnexpectedEndOfData ;;
  let p := set_counter p 0 in
  c <- front buf p ;;
  if c =? c_quote then skip_string true (c_ex g) (c_excl g) false buf p
  else if c =? c_lbrack then skip_array (brk cp) true (c_ex g) buf p
  else if c =? c_lbrace then skip_class (brk cp) true (c_ex g) buf p
  else if c =? c_t then skip_bool_c [114; 117; 101] InvalidTrue 1 buf p
  else if c =? c_f then skip_bool_c [97; 108; 115; 101] InvalidFalse 0 buf p
  else if c =? c_n then skip_null_c buf p
  else if (c =? c_minus) || ((48 <=? c) && (c <=? 57)) then skip_number true buf p
  else Err InvalidStartOfValue.

(** move_next_member_or_end, checked: daw_json_parse_policy.h:440-454 *)
Definition move_next_c (buf : list N) (p : ps) : res ps :=
  p <- trim_c buf p ;;
  c <- is_at buf p c_comma ;;
  if c then trim_c buf (remove_prefix p 1) else Ok p.

(** ** Member names *)

(** trim_end_of_name: daw_json_parse_name.h:33-41 *)
Definition trim_end_of_name_c (buf : list N) (p : ps) : res ps :=
  p <- trim_c buf p ;;
  _ <- ensure (has_more p) UnexpectedEndOfData ;;
  c <- front buf p ;;
  _ <- ensure (c =? c_colon) InvalidMemberName ;;
  trim_c buf (remove_prefix p 1).

(** parse_nq of names: daw_json_parse_name.h:43-66.  The byte before the quote is
    always inside the document: the opening quote, at least. *)
Definition parse_name_nq_c (g : cfg) (buf : list N) (p : ps) : res (list N * ps) :=
  if c_escnames g then
    '(r, p) <- skip_string_nq true (c_ex g) (c_excl g) buf p ;;
    p <- trim_end_of_name_c buf p ;;
    Ok (view buf (first r) (last r), p)
  else
    j <- memchr_checked c_quote buf (first p) (last p) ;;
    let q := set_first p j in
    ok <- is_at buf q c_quote ;;
    ok <- (if ok : bool then
             match j with O => UB | S i => b <- rd buf i ;; Ok (negb (b =? c_bslash)) end
           else Ok false) ;;
    _ <- ensure ok InvalidString ;;
    let name := view buf (first p) j in
    q <- trim_end_of_name_c buf (remove_prefix q 1) ;;
    Ok (name, q).

(** parse_name: daw_json_parse_name.h:144-156 *)
Definition parse_name_c (g : cfg) (buf : list N) (p : ps) : res (list N * ps) :=
  q <- is_at buf p c_quote ;;
  _ <- ensure q InvalidMemberName ;;
  parse_name_nq_c g buf (remove_prefix p 1).

(** ** Class members *)

(** The loop of find_class_member: daw_json_location_info.h:218-272.  The state
    is the parser's and the locations. *)
Definition find_body_c (g : cfg) (exact : bool) (names : list (list N)) (pos : nat)
  (buf : list N) (s : ps * list ps) : res ((ps * list ps) + (ps * list ps)) :=
  let '(p, locs) := s in
  go <- (if isnull (nth pos locs no_loc) then
           if ps_empty p then Ok false
           else c <- front buf p ;; Ok (negb (c =? c_rbrace))
         else Ok false) ;;
  if negb go then Ok (inr (p, locs))
  else
    '(name, p) <- parse_name_c g buf p ;;
    let k := find_name (c_force g) false names pos name in
    if (length names <=? k)%nat then
      if exact then Err UnknownMember
      else
        '(_, p) <- skip_val_c g buf p ;;
        p <- move_next_c buf p ;;
        Ok (inl (p, locs))
    else if (k =? pos)%nat then Ok (inr (p, set_nth locs pos p))
    else
      '(r, p) <- skip_val_c g buf p ;;
      p <- move_next_c buf p ;;
      Ok (inl (p, set_nth locs k r)).

(** find_class_member: daw_json_location_info.h:198-288.  Returns the parser
    state, the locations and whether the range was known. *)
Definition find_class_member_c (g : cfg) (exact : bool) (names : list (list N)) (pos : nat)
  (nullable : bool) (buf : list N) (p : ps) (locs : list ps) : res (ps * list ps * bool) :=
  let missing l := isnull (nth pos l no_loc) in
  brace <- is_at buf p c_rbrace ;;
  _ <- ensure (nullable || negb (missing locs) || negb brace) MemberNotFound ;;
  p <- trim_unchecked_c buf p ;;
  let known := negb (missing locs) in
  '(p, locs) <- loop (find_body_c g exact names pos buf) (S (length buf)) (p, locs) ;;
  Ok (p, locs, known || missing locs).

(** parse_class_member: daw_json_parse_class.h:94-151.  The restoring of the
    class position after a member is not modelled: the values modelled here
    leave it as they found it. *)
Definition parse_class_member_c (g : cfg) (exact : bool) (names : list (list N)) (pos : nat)
  (nullable : bool) (parse : parser) (buf : list N) (p : ps) (locs : list ps)
  : res (val * ps * list ps) :=
  p <- move_next_c buf p ;;
  ok <- (if ps_empty p then Ok false
         else c <- front buf p ;; Ok ((c =? c_quote) || (c =? c_rbrace))) ;;
  _ <- ensure ok MissingMemberNameOrEndOfClass ;;
  '(p, locs, known) <- find_class_member_c g exact names pos nullable buf p locs ;;
  let loc := nth pos locs no_loc in
  if negb known then
    '(v, p) <- parse false buf p ;; Ok (v, p, locs)
  else if isnull loc then
    if nullable then Ok (VNone, p, locs) else Err MemberNotFound
  else
    '(v, _) <- parse true buf loc ;; Ok (v, p, locs).

(** move_to_next_of of the comment policies:
    daw_json_parse_policy_cpp_comments.h:127-141,
    daw_json_parse_policy_hash_comments.h:87-101.  The byte is read before the end
    is looked for. *)
Definition move_to_next_of_c (skip : list N -> nat -> nat -> res nat) (buf : list N) (p : ps) : res ps :=
  i <- skip buf (first p) (last p) ;;
  _ <- ensure (i <? last p)%nat UnexpectedEndOfData ;;
  i <- loop (fun i =>
    c <- rd buf i ;;
    if (c =? c_quote) || (c =? c_rbrace) then Ok (inr i)
    else _ <- ensure (i <? last p)%nat UnexpectedEndOfData ;; j <- skip buf (S i) (last p) ;; Ok (inl j))
    (S (S (last p - i))) i ;;
  Ok (set_first p i).

(** move_to_next_class_member: daw_json_parse_policy.h:473-475 *)
Definition move_to_next_class_member_c (g : cfg) (buf : list N) (p : ps) : res ps :=
  match cp with
  | Com CCpp => move_to_next_of_c cpp_comments_checked buf p
  | Com CHash => move_to_next_of_c hash_comments_checked buf p
  | _ => move_to_next_class_member g buf p
  end.

(** class_cleanup_now: daw_json_parse_class.h:153-175 *)
Definition class_cleanup_now_c (g : cfg) (exact : bool) (old : option nat * option nat)
  (buf : list N) (p : ps) : res ps :=
  _ <- ensure (has_more p) UnexpectedEndOfData ;;
  p <- move_next_c buf p ;;
  p <- move_to_next_class_member_c g buf p ;;
  p <- (if exact then
          c <- front buf p ;;
          _ <- ensure (c =? c_rbrace) UnknownMember ;;
          Ok (remove_prefix p 1)
        else '(_, p) <- skip_class (brk cp) true (c_ex g) buf p ;; Ok p) ;;
  p <- trim_c buf p ;;
  Ok (set_class p (fst old) (snd old)).

(** The members are parsed in mapping order: daw_json_parse_class.h:235-278. *)
Fixpoint parse_members_c (g : cfg) (exact : bool) (names : list (list N)) (pos : nat)
  (ms : list member) (buf : list N) (p : ps) (locs : list ps) : res (list val * ps) :=
  match ms with
  | [] => Ok ([], p)
  | m :: r =>
      '(v, p, locs) <- parse_class_member_c g exact names pos (m_nullable m) (m_parse m) buf p locs ;;
      '(vs, p) <- parse_members_c g exact names (S pos) r buf p locs ;;
      Ok (v :: vs, p)
  end.

(** parse_json_class: daw_json_parse_class.h:184-281 *)
Definition parse_json_class_c (g : cfg) (exact : bool) (ms : list member) (buf : list N) (p : ps)
  : res (val * ps) :=
  p <- trim_c buf p ;;
  b <- is_at buf p c_lbrace ;;
  _ <- ensure b InvalidClassStart ;;
  let old := (cfirst p, clast p) in
  let p := set_class p (Some (first p)) (Some (last p)) in
  p <- trim_c buf (remove_prefix p 1) ;;
  '(vs, p) <- parse_members_c g exact (map m_name ms) 0 ms buf p (map (fun _ => no_loc) ms) ;;
  p <- class_cleanup_now_c g exact old buf p ;;
  Ok (VClass vs, p).

(** parse_value_class: daw_json_parse_value.h:583-611 *)
Definition parse_value_class_c (g : cfg) (exact : bool) (ms : list member) (known : bool)
  (buf : list N) (p : ps) : res (val * ps) :=
  _ <- ensure (has_more p) UnexpectedEndOfData ;;
  '(v, p) <- parse_json_class_c g exact ms buf p ;;
  if known then Ok (v, p) else p <- trim_c buf p ;; Ok (v, p).

(** ** Arrays *)

(** After the closing bracket: daw_json_parse_array_iterator.h:95-102 and 141-147
    (the iterator is never the one for known bounds, can_be_random_iterator_v is
    false: daw_json_traits.h:391) *)
Definition end_of_array_c (buf : list N) (p : ps) : res ps :=
  trim_c buf (remove_prefix p 1).

(** Element and increment: daw_json_parse_array_iterator.h:112-168.  A container
    is filled from the iterator until it equals the default one. *)
Definition array_body_c (parse : parser) (buf : list N) (s : ps * list val)
  : res ((ps * list val) + (ps * list val)) :=
  let '(p, vs) := s in
  _ <- ensure (has_more p) UnexpectedEndOfData ;;
  '(v, p) <- parse false buf p ;;
  p <- trim_c buf p ;;
  ok <- (if has_more p then c <- front buf p ;; Ok ((c =? c_comma) || (c =? c_rbrack)) else Ok false) ;;
  _ <- ensure ok UnexpectedEndOfData ;;
  p <- move_next_c buf p ;;
  _ <- ensure (has_more p) UnexpectedEndOfData ;;
  c <- front buf p ;;
  if c =? c_rbrack then p <- end_of_array_c buf p ;; Ok (inr (p, vs ++ [v]))
  else Ok (inl (p, vs ++ [v])).

(** parse_value_array: daw_json_parse_value.h:672-689.  The whitespace after the
    bracket is skipped without looking at the end, and the iterator's constructor
    (daw_json_parse_array_iterator.h:93-105) reads the next byte. *)
Definition parse_value_array_c (parse : parser) (buf : list N) (p : ps) : res (val * ps) :=
  p <- trim_c buf p ;;
  b <- is_at buf p c_lbrack ;;
  _ <- ensure b InvalidArrayStart ;;
  p <- trim_unchecked_c buf (remove_prefix p 1) ;;
  c <- front buf p ;;
  if c =? c_rbrack then p <- end_of_array_c buf p ;; Ok (VArr [], p)
  else
    '(p, vs) <- loop (array_body_c parse buf) (S (length buf)) (p, []) ;;
    Ok (VArr vs, p).

(** ** Maps: objects whose names are keys *)

(** Element and increment: daw_json_parse_kv_class_iterator.h:112-160 *)
Definition map_body_c (g : cfg) (parse : parser) (buf : list N) (s : ps * list (list N * val))
  : res ((ps * list (list N * val)) + (ps * list (list N * val))) :=
  let '(p, kvs) := s in
  _ <- ensure (has_more p) UnexpectedEndOfData ;;
  '(k, p) <- parse_value_string_escaped true false (c_ex g) true buf p ;;
  p <- trim_end_of_name_c buf p ;;
  '(v, p) <- parse false buf p ;;
  p <- move_next_c buf p ;;
  _ <- ensure (has_more p) UnexpectedEndOfData ;;
  c <- front buf p ;;
  if c =? c_rbrace then p <- trim_c buf (remove_prefix p 1) ;; Ok (inr (p, kvs ++ [(k, v)]))
  else Ok (inl (p, kvs ++ [(k, v)])).

(** parse_value_keyvalue: daw_json_parse_value.h:621-641 and the iterator's
    constructor, daw_json_parse_kv_class_iterator.h:93-107.  The result is the
    sequence of pairs handed to the container. *)
Definition parse_value_keyvalue_c (g : cfg) (parse : parser) (buf : list N) (p : ps) : res (val * ps) :=
  b <- is_at buf p c_lbrace ;;
  _ <- ensure b ExpectedKeyValueToStartWithBrace ;;
  p <- trim_c buf (remove_prefix p 1) ;;
  _ <- ensure (negb (ps_empty p)) UnexpectedEndOfData ;;
  c <- front buf p ;;
  if c =? c_rbrace then p <- trim_c buf (remove_prefix p 1) ;; Ok (VMap [], p)
  else
    '(p, kvs) <- loop (map_body_c g parse buf) (S (length buf)) (p, []) ;;
    Ok (VMap kvs, p).

(** ** Tuples *)

(** parse_value_help for members without an index: daw_json_parse_value.h:1087-1110 *)
Fixpoint parse_elements_c (ps_ : list parser) (buf : list N) (p : ps) : res (list val * ps) :=
  match ps_ with
  | [] => Ok ([], p)
  | parse :: r =>
      _ <- ensure (has_more p) UnexpectedEndOfData ;;
      '(v, p) <- parse false buf p ;;
      p <- move_next_c buf p ;;
      '(vs, p) <- parse_elements_c r buf p ;;
      Ok (v :: vs, p)
  end.

(** parse_tuple_value: daw_json_parse_value.h:1005-1148 *)
Definition parse_tuple_c (g : cfg) (exact : bool) (ps_ : list parser) (buf : list N) (p : ps)
  : res (val * ps) :=
  p <- trim_c buf p ;;
  b <- is_at buf p c_lbrack ;;
  _ <- ensure b InvalidArrayStart ;;
  let old := (cfirst p, clast p) in
  let p := set_class p (Some (first p)) (Some (last p)) in
  p <- move_next_c buf (remove_prefix p 1) ;;
  p <- trim_c buf p ;;
  '(vs, p) <- parse_elements_c ps_ buf p ;;
  p <- (if exact then
          p <- trim_c buf p ;;
          c <- front buf p ;;
          _ <- ensure (c =? c_rbrack) UnknownMember ;;
          trim_c buf (remove_prefix p 1)
        else '(_, p) <- skip_array (brk cp) true (c_ex g) buf p ;; Ok p) ;;
  Ok (VTuple vs, set_class p (fst old) (snd old)).

(** ** Scalars *)

(** parse_value_signed: daw_json_parse_value.h:177-233 (checked mode) *)
Definition parse_value_signed_c (known : bool) (w : N) (rc : bool) (buf : list N) (p : ps) : res (Z * ps) :=
  if known then
    b <- front buf p ;;
    _ <- ensure (is_number_start b) InvalidNumberStart ;;
    '(sign, p) <- validate_signed_first buf p ;;
    '(u, p) <- unsigned_parser true w rc buf p ;;
    v <- to_signed w u sign ;;
    Ok (v, p)
  else
    _ <- ensure (has_more p) UnexpectedEndOfData ;;
    '(sign, p) <- validate_signed_first buf p ;;
    '(u, p) <- unsigned_parser false w rc buf p ;;
    v <- to_signed w u sign ;;
    p <- trim_c buf p ;;
    e <- end_of_item_ok buf p ;;
    _ <- ensure e InvalidEndOfValue ;;
    Ok (v, p).

(** parse_value_bool: daw_json_parse_value.h:372-431 (not quoted) *)
Definition parse_value_bool_c (known : bool) (buf : list N) (p : ps) : res (val * ps) :=
  if known then
    c <- front buf p ;;
    if c =? c_t then Ok (VBool true, p)
    else if c =? c_f then Ok (VBool false, p)
    else Err InvalidLiteral
  else
    t <- starts_with buf p [116; 114; 117; 101] ;;
    '(b, p) <-
      (if t : bool then Ok (true, remove_prefix p 4)
       else
         f <- starts_with buf p [102; 97; 108; 115; 101] ;;
         if f : bool then Ok (false, remove_prefix p 5) else Err InvalidLiteral) ;;
    p <- trim_c buf p ;;
    e <- end_of_item_ok buf p ;;
    _ <- ensure e InvalidEndOfValue ;;
    Ok (VBool b, p).

(** parse_value_null: daw_json_parse_value.h:293-370 *)
Definition parse_value_null_c (parse : parser) (known : bool) (buf : list N) (p : ps) : res (val * ps) :=
  let base (k : bool) := '(v, p) <- parse k buf p ;; Ok (VSome v, p) in
  if known then if isnull p then Ok (VNone, p) else base true
  else
    none <- (if has_more p then c <- front buf p ;; Ok (is_token_after_value c) else Ok true) ;;
    if none : bool then Ok (VNone, p)
    else
      n <- starts_with buf p [110; 117; 108; 108] ;;
      if n : bool then
        let p := remove_prefix p 4 in
        e <- end_of_item_ok buf p ;;
        _ <- ensure e InvalidLiteral ;;
        p <- trim_c buf p ;;
        Ok (VNone, p)
      else base false.

(** ** Arrays of objects with a key and a value *)

(** parse_value_keyvalue_array: daw_json_parse_value.h:651-670, and the
    iterator's constructor, daw_json_parse_kv_array_iterator.h:79-91: whitespace
    after the bracket is not skipped and the next byte is read without looking at
    the end.  Element and increment, daw_json_parse_kv_array_iterator.h:104-153,
    do what the array iterator does; [parse] reads the class with the key and the
    value.  The result is the sequence of pairs handed to the container. *)
Definition parse_value_keyvalue_array_c (parse : parser) (buf : list N) (p : ps) : res (val * ps) :=
  b <- is_at buf p c_lbrack ;;
  _ <- ensure b ExpectedKeyValueArrayToStartWithBracket ;;
  let p := remove_prefix p 1 in
  c <- front buf p ;;
  if c =? c_rbrack then p <- end_of_array_c buf p ;; Ok (VArr [], p)
  else
    '(p, vs) <- loop (array_body_c parse buf) (S (length buf)) (p, []) ;;
    Ok (VArr vs, p).

(** ** Custom types *)

(** parse_value_custom: daw_json_parse_value.h:538-581.  The converter is given
    the text and is not modelled: the value is that text. *)
Definition parse_value_custom_c (g : cfg) (k : custom) (known : bool) (buf : list N) (p : ps) : res (val * ps) :=
  '(r, p) <-
    match k with
    | CuString => if known then Ok (p, p) else skip_string true (c_ex g) (c_excl g) false buf p
    | CuLiteral => if known then Ok (p, p) else skip_literal_c buf p
    | CuAny =>
        if known then
          match first p with
          | O => UB
          | S i => b <- rd buf i ;; Ok (if b =? c_quote then set_first p i else p, p)
          end
        else
          c <- front buf p ;;
          if c =? c_quote then
            '(r, p) <- skip_string true (c_ex g) (c_excl g) false buf p ;; Ok (set_first r (first r - 1), p)
          else skip_val_c g buf p
    end ;;
  ok <- (if has_more r then c <- front buf r ;; Ok (negb ((c =? c_lbrack) || (c =? c_lbrace))) else Ok false) ;;
  _ <- ensure ok InvalidStartOfValue ;;
  Ok (VStr (view buf (first r) (last r)), p).

(** parse_value: daw_json_parse_value.h:1176-1225 *)
Fixpoint parse_value_c (g : cfg) (t : ty) : parser :=
  fun known buf p =>
  match t with
  | TUInt w rc => '(v, p) <- parse_value_unsigned known LSNever w rc buf p ;; Ok (VInt (Z.of_N v), p)
  | TInt w rc => '(v, p) <- parse_value_signed_c known w rc buf p ;; Ok (VInt v, p)
  | TBool => parse_value_bool_c known buf p
  | TStr => '(s, p) <- parse_value_string_escaped true known (c_ex g) true buf p ;; Ok (VStr s, p)
  | TNullable t => parse_value_null_c (parse_value_c g t) known buf p
  | TArr t => parse_value_array_c (parse_value_c g t) buf p
  | TMap t => parse_value_keyvalue_c g (parse_value_c g t) buf p
  | TClass exact ms =>
      parse_value_class_c g exact
        (map (fun m => mkmember (fst m) (is_nullable (snd m)) (parse_value_c g (snd m))) ms) known buf p
  | TTuple exact ts => parse_tuple_c g exact (map (parse_value_c g) ts) buf p
  | TKvArr exact kn tk vn tv =>
      parse_value_keyvalue_array_c
        (parse_value_class_c g exact
           [mkmember kn (is_nullable tk) (parse_value_c g tk); mkmember vn (is_nullable tv) (parse_value_c g tv)]) buf p
  | TCustom k => parse_value_custom_c g k known buf p
  | TVariant alts => parse_value_variant (map (fun t => (base_kind t, parse_value_c g t)) alts) known buf p
  | TIntrusive exact tag t switch alts =>
      parse_value_variant_intrusive
        (parse_value_class_c g exact [mkmember tag (is_nullable t) (parse_value_c g t)]) switch
        (map (parse_value_c g) alts) buf p
  end.

(** from_json: daw_from_json.h:37-84 without a path.  A terminating zero that is
    part of the range is dropped; [verify] is MustVerifyEndOfDataIsValid. *)
Definition from_json_c (g : cfg) (verify : bool) (t : ty) (doc : list N) : res val :=
  _ <- ensure (negb (length doc =? 0)%nat) EmptyJSONDocument ;;
  z <- rd doc (length doc - 1) ;;
  let l := if z =? 0 then (length doc - 1)%nat else length doc in
  '(v, p) <- parse_value_c g t false doc (new_ps 0 l) ;;
  if verify then
    p <- trim_c doc p ;;
    _ <- ensure (ps_empty p) InvalidEndOfValue ;;
    Ok v
  else Ok v.

End Policy.
