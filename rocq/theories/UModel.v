(** Model of the typed parser for unchecked input (CheckedParseMode::no).

    ParseState::is_unchecked_input turns daw_json_assert_weak into nothing
    (daw_json_assert.h) and chooses functions that do not compare with the end;
    daw_json_ensure and daw_json_error stay.  The option combines with
    is_zero_terminated_string, which from_json sets for a std::basic_string: the
    functions below take it as [z].

    Modelled configuration: no comments, not minified, expect_long off, constexpr
    execution mode (the default; [c_ex] is not looked at).  ExcludeSpecialEscapes
    is not looked at by the unchecked string scan.  DAW_UNREACHABLE and writing
    behind an array are [UB], as is reading behind the memory. *)
From Coq Require Import List NArith ZArith Bool Arith.
From Verif Require Import Base PolicyModel IntModel Loop StrScanModel SkipModel HashModel StrDecodeModel ValueModel ZModel.
Import ListNotations.
Local Open Scope N_scope.

(** ** Parse policy *)

(** trim_left: daw_json_parse_policy.h:429-435 *)
Definition trim_u (buf : list N) (p : ps) : res ps := trim_left_unchecked buf p.

(** trim_left_checked, where it is called by name:
    daw_json_parse_policy_no_comments.h:31-64 *)
Definition trim_end_u (z : bool) (buf : list N) (p : ps) : res ps :=
  if z then trim_left_z buf p else trim_left_checked buf p.

(** empty: daw_json_parse_policy.h:293-302 *)
Definition empty_u (z : bool) (buf : list N) (p : ps) : res bool :=
  if z then empty_z buf p else Ok (ps_empty p).

(** move_next_member_or_end: daw_json_parse_policy.h:437-443, 456-462 *)
Definition move_next_u (buf : list N) (p : ps) : res ps := move_next_member_or_end_unchecked buf p.

(** move_next_member: daw_json_parse_policy.h:464-470 and
    daw_json_parse_policy_no_comments.h:82-89 *)
Definition move_member_u (buf : list N) (p : ps) : res ps :=
  j <- memchr_unchecked c_quote buf (first p) ;; Ok (set_first p j).

(** ** Integers *)

(** unsigned_parser_known: daw_json_parse_unsigned_int.h:191-252 *)
Definition unsigned_known_u (z : bool) (w : N) (rc : bool) (buf : list N) (p : ps) : res (N * ps) :=
  if z then unsigned_parser_known_z w rc buf p else unsigned_parser_known w rc buf p.

(** unsigned_parser_not_known: daw_json_parse_unsigned_int.h:255-334 *)
Definition unsigned_not_known_u (z : bool) (w : N) (rc : bool) (buf : list N) (p : ps) : res (N * ps) :=
  let l := last p in
  let i0 := first p in
  has_eight <- has_eight_at buf i0 l ;;
  '(i, acc, has_eight) <-
     (if has_eight && (16 <=? l - i0)%nat then
        has_sixteen <- is_made_of_eight_digits buf (i0 + 8) ;;
        if has_sixteen : bool then not_known16 (S (l - i0)) buf i0 l 0
        else Ok (i0, 0, has_eight)
      else Ok (i0, 0, has_eight)) ;;
  '(i, acc) <-
     (if has_eight : bool then
        v <- parse_8_digits buf i ;; Ok ((i + 8)%nat, accum acc 100000000 v)
      else Ok (i, acc)) ;;
  '(i, acc) <- (if z then digits_z (S (length buf)) buf i acc else not_known1 (S (l - i)) buf i l acc) ;;
  let p' := set_first p i in
  if rc then
    _ <- ensure (i - i0 <=? 20)%nat NumberOutOfRange ;;
    v <- narrow_cast_u w acc ;;
    Ok (v, p')
  else Ok (cast_u w acc, p').

(** unsigned_parser: daw_json_parse_unsigned_int.h:450-462 *)
Definition unsigned_parser_u (z known : bool) (w : N) (rc : bool) (buf : list N) (p : ps) : res (N * ps) :=
  if known then unsigned_known_u z w rc buf p else unsigned_not_known_u z w rc buf p.

(** validate_signed_first: daw_json_parse_policy_policy_details.h:76-107 *)
Definition validate_signed_u (buf : list N) (p : ps) : res (Z * ps) :=
  c <- front buf p ;;
  if c =? c_minus then Ok ((-1)%Z, remove_prefix p 1)
  else if (48 <=? c) && (c <=? 57) then Ok (1%Z, p)
  else Err InvalidNumberStart.

(** parse_value_signed: daw_json_parse_value.h:177-233, not quoted *)
Definition parse_value_signed_u (z known : bool) (w : N) (rc : bool) (buf : list N) (p : ps) : res (Z * ps) :=
  '(sign, p) <- validate_signed_u buf p ;;
  '(u, p) <- unsigned_parser_u z known w rc buf p ;;
  v <- to_signed w u sign ;;
  if known then Ok (v, p) else p <- trim_u buf p ;; Ok (v, p).

(** parse_value_unsigned: daw_json_parse_value.h:235-291, not quoted.
    validate_unsigned_first (daw_json_parse_policy_policy_details.h:51-68) does
    nothing. *)
Definition parse_value_unsigned_u (z known : bool) (w : N) (rc : bool) (buf : list N) (p : ps) : res (N * ps) :=
  unsigned_parser_u z known w rc buf p.

(** ** Strings *)

(** skip_string_nq: daw_json_skip.h:38-50 *)
Definition skip_string_nq_u (buf : list N) (p : ps) : res (ps * ps) :=
  '(cnt, p') <- parse_nq_uncheck ExConstexpr buf p ;;
  Ok (set_last (set_counter p cnt) (first p'), remove_prefix p' 1).

(** skip_string: daw_json_skip.h:55-73 (KeepQuotes = false) *)
Definition skip_string_u (z : bool) (buf : list N) (p : ps) : res (ps * ps) :=
  e <- empty_u z buf p ;;
  if e : bool then Ok (p, p)
  else
    c <- front buf p ;;
    _ <- ensure (c =? c_quote) InvalidString ;;
    skip_string_nq_u buf (remove_prefix p 1).

(** parse_value_string_escaped: daw_json_parse_value.h:477-524 *)
Definition parse_value_string_u (z known : bool) (buf : list N) (p : ps) : res (list N * ps) :=
  _ <- (if known then Ok tt
        else e <- empty_u z buf p ;; ensure (negb e) UnexpectedNull) ;;
  '(p2, p) <- (if known then Ok (p, p) else skip_string_u z buf p) ;;
  if needs_slow_path p2 then
    s <- parse_string_known_stdstring false ExConstexpr true buf p2 ;; Ok (s, p)
  else if (last p2 <=? length buf)%nat
       then Ok (firstn (last p2 - first p2) (skipn (first p2) buf), p) else UB.

(** ** Skipping *)

(** Exponent part of skip_number: daw_json_skip.h:270-304 *)
Definition skip_exponent_u (z : bool) (buf : list N) (i last : nat) : res (option nat * nat) :=
  dig <- (if z || (i <? last)%nat then b <- rd buf i ;; Ok (parse_digit b) else Ok 0) ;;
  if (dig =? parse_digit c_e) || (dig =? parse_digit c_E) then
    let exp := i in
    let i := S i in
    b <- rd buf i ;;
    let dig := parse_digit b in
    let i := if (dig =? parse_digit c_plus) || (dig =? parse_digit c_minus) then S i else i in
    i <- skip_digits_if false buf i last ;;
    Ok (Some exp, i)
  else Ok (None, i).

(** skip_number: daw_json_skip.h:219-310 *)
Definition skip_number_u (z : bool) (buf : list N) (p : ps) : res (ps * ps) :=
  c <- front buf p ;;
  let i := if c =? c_minus then S (first p) else first p in
  i <- skip_digits_if false buf i (last p) ;;
  '(decimal, i) <- skip_fraction false buf i (last p) ;;
  '(exp, i) <- skip_exponent_u z buf i (last p) ;;
  Ok (set_class (set_last p i) decimal exp, set_first p i).

(** skip_literal: daw_json_skip.h:403-438.  The last [UB] is DAW_UNREACHABLE. *)
Definition skip_literal_u (z : bool) (buf : list N) (p : ps) : res (ps * ps) :=
  let p := set_counter p 0 in
  c <- front buf p ;;
  if c =? c_t then skip_true CNone false buf p
  else if c =? c_f then skip_false CNone false buf p
  else if c =? c_n then skip_null CNone false buf p
  else if (c =? c_minus) || ((48 <=? c) && (c <=? 57)) then skip_number_u z buf p
  else if c =? 0 then Err InvalidStartOfValue else UB.

(** skip_value: daw_json_skip.h:318-361.  The last [UB] is DAW_UNREACHABLE. *)
Definition skip_val_u (z : bool) (buf : list N) (p : ps) : res (ps * ps) :=
  let p := set_counter p 0 in
  c <- front buf p ;;
  if c =? c_quote then skip_string_u z buf p
  else if c =? c_lbrack then skip_array CNone false ExConstexpr buf p
  else if c =? c_lbrace then skip_class CNone false ExConstexpr buf p
  else if c =? c_t then skip_true CNone false buf p
  else if c =? c_f then skip_false CNone false buf p
  else if c =? c_n then skip_null CNone false buf p
  else if (c =? c_minus) || ((48 <=? c) && (c <=? 57)) then skip_number_u z buf p
  else if c =? 0 then Err InvalidStartOfValue else UB.

(** ** Member names *)

(** trim_end_of_name: daw_json_parse_name.h:33-41 *)
Definition trim_end_of_name_u (buf : list N) (p : ps) : res ps :=
  p <- trim_u buf p ;;
  trim_u buf (remove_prefix p 1).

(** parse_nq of names: daw_json_parse_name.h:43-66 *)
Definition parse_name_nq_u (g : cfg) (buf : list N) (p : ps) : res (list N * ps) :=
  if c_escnames g then
    '(r, p) <- skip_string_nq_u buf p ;;
    p <- trim_end_of_name_u buf p ;;
    Ok (view buf (first r) (last r), p)
  else
    j <- memchr_unchecked c_quote buf (first p) ;;
    p' <- trim_end_of_name_u buf (remove_prefix (set_first p j) 1) ;;
    Ok (view buf (first p) j, p').

(** parse_name: daw_json_parse_name.h:144-156 *)
Definition parse_name_u (g : cfg) (buf : list N) (p : ps) : res (list N * ps) :=
  parse_name_nq_u g buf (remove_prefix p 1).

(** ** Class members *)

(** The loop of find_class_member: daw_json_location_info.h:218-272.  A class
    whose members must all be known has no test for an unknown name: the
    location is written behind the array. *)
Definition find_body_u (z : bool) (g : cfg) (exact : bool) (names : list (list N)) (pos : nat)
  (buf : list N) (s : ps * list ps) : res ((ps * list ps) + (ps * list ps)) :=
  let '(p, locs) := s in
  go <- (if isnull (nth pos locs no_loc) then
           e <- empty_u z buf p ;;
           if e : bool then Ok false
           else c <- front buf p ;; Ok (negb (c =? c_rbrace))
         else Ok false) ;;
  if negb go then Ok (inr (p, locs))
  else
    '(name, p) <- parse_name_u g buf p ;;
    let k := find_name (c_force g) false names pos name in
    if (length names <=? k)%nat then
      if exact then UB
      else
        '(_, p) <- skip_val_u z buf p ;;
        p <- move_next_u buf p ;;
        Ok (inl (p, locs))
    else if (k =? pos)%nat then Ok (inr (p, set_nth locs pos p))
    else
      '(r, p) <- skip_val_u z buf p ;;
      p <- (if (k + 1 <? length names)%nat then move_member_u buf p else move_next_u buf p) ;;
      Ok (inl (p, set_nth locs k r)).

(** find_class_member: daw_json_location_info.h:198-288 *)
Definition find_class_member_u (z : bool) (g : cfg) (exact : bool) (names : list (list N)) (pos : nat)
  (buf : list N) (p : ps) (locs : list ps) : res (ps * list ps * bool) :=
  let missing l := isnull (nth pos l no_loc) in
  p <- trim_left_unchecked buf p ;;
  let known := negb (missing locs) in
  '(p, locs) <- loop (find_body_u z g exact names pos buf) (S (length buf)) (p, locs) ;;
  Ok (p, locs, known || missing locs).

(** parse_class_member: daw_json_parse_class.h:94-151.  The restoring of the
    class position after a member is not modelled: the values modelled here
    leave it as they found it. *)
Definition parse_class_member_u (z : bool) (g : cfg) (exact : bool) (names : list (list N)) (pos : nat)
  (nullable : bool) (parse : parser) (buf : list N) (p : ps) (locs : list ps)
  : res (val * ps * list ps) :=
  p <- move_next_u buf p ;;
  '(p, locs, known) <- find_class_member_u z g exact names pos buf p locs ;;
  let loc := nth pos locs no_loc in
  if negb known then
    '(v, p) <- parse false buf p ;; Ok (v, p, locs)
  else if isnull loc then
    if nullable then Ok (VNone, p, locs) else Err MemberNotFound
  else
    '(v, _) <- parse true buf loc ;; Ok (v, p, locs).

(** move_to_next_of for the quote and the closing brace:
    daw_json_parse_policy_no_comments.h:91-133.  The loop has no end but a quote
    or a brace. *)
Definition move_to_next_class_member_u (buf : list N) (p : ps) : res ps :=
  i <- loop (fun i =>
    c <- rd buf i ;;
    Ok (if (c =? c_quote) || (c =? c_rbrace) then inr i else inl (S i)))
    (S (length buf)) (first p) ;;
  Ok (set_first p i).

(** class_cleanup_now: daw_json_parse_class.h:153-175 *)
Definition class_cleanup_now_u (z exact : bool) (old : option nat * option nat)
  (buf : list N) (p : ps) : res ps :=
  p <- move_next_u buf p ;;
  p <- move_to_next_class_member_u buf p ;;
  p <- (if exact then Ok (remove_prefix p 1)
        else '(_, p) <- skip_class CNone false ExConstexpr buf p ;; Ok p) ;;
  p <- trim_end_u z buf p ;;
  Ok (set_class p (fst old) (snd old)).

(** The members are parsed in mapping order: daw_json_parse_class.h:235-278. *)
Fixpoint parse_members_u (z : bool) (g : cfg) (exact : bool) (names : list (list N)) (pos : nat)
  (ms : list member) (buf : list N) (p : ps) (locs : list ps) : res (list val * ps) :=
  match ms with
  | [] => Ok ([], p)
  | m :: r =>
      '(v, p, locs) <- parse_class_member_u z g exact names pos (m_nullable m) (m_parse m) buf p locs ;;
      '(vs, p) <- parse_members_u z g exact names (S pos) r buf p locs ;;
      Ok (v :: vs, p)
  end.

(** parse_json_class: daw_json_parse_class.h:184-281 *)
Definition parse_json_class_u (z : bool) (g : cfg) (exact : bool) (ms : list member) (buf : list N) (p : ps)
  : res (val * ps) :=
  p <- trim_u buf p ;;
  let old := (cfirst p, clast p) in
  let p := set_class p (Some (first p)) (Some (last p)) in
  p <- trim_u buf (remove_prefix p 1) ;;
  '(vs, p) <- parse_members_u z g exact (map m_name ms) 0 ms buf p (map (fun _ => no_loc) ms) ;;
  p <- class_cleanup_now_u z exact old buf p ;;
  Ok (VClass vs, p).

(** parse_value_class: daw_json_parse_value.h:583-611 *)
Definition parse_value_class_u (z : bool) (g : cfg) (exact : bool) (ms : list member) (known : bool)
  (buf : list N) (p : ps) : res (val * ps) :=
  '(v, p) <- parse_json_class_u z g exact ms buf p ;;
  if known then Ok (v, p) else p <- trim_end_u z buf p ;; Ok (v, p).

(** ** Arrays *)

(** After the closing bracket: daw_json_parse_array_iterator.h:95-102 and 141-147 *)
Definition end_of_array_u (z : bool) (buf : list N) (p : ps) : res ps :=
  trim_end_u z buf (remove_prefix p 1).

(** Element and increment: daw_json_parse_array_iterator.h:112-168.  A container
    is filled from the iterator until it equals the default one. *)
Definition array_body_u (z : bool) (parse : parser) (buf : list N) (s : ps * list val)
  : res ((ps * list val) + (ps * list val)) :=
  let '(p, vs) := s in
  '(v, p) <- parse false buf p ;;
  p <- trim_u buf p ;;
  p <- move_next_u buf p ;;
  c <- front buf p ;;
  if c =? c_rbrack then p <- end_of_array_u z buf p ;; Ok (inr (p, vs ++ [v]))
  else Ok (inl (p, vs ++ [v])).

(** parse_value_array: daw_json_parse_value.h:672-689, and the iterator's
    constructor, daw_json_parse_array_iterator.h:93-105 *)
Definition parse_value_array_u (z : bool) (parse : parser) (buf : list N) (p : ps) : res (val * ps) :=
  p <- trim_u buf p ;;
  p <- trim_left_unchecked buf (remove_prefix p 1) ;;
  c <- front buf p ;;
  if c =? c_rbrack then p <- end_of_array_u z buf p ;; Ok (VArr [], p)
  else
    '(p, vs) <- loop (array_body_u z parse buf) (S (length buf)) (p, []) ;;
    Ok (VArr vs, p).

(** ** Maps: objects whose names are keys *)

(** Element and increment: daw_json_parse_kv_class_iterator.h:112-160 *)
Definition map_body_u (z : bool) (parse : parser) (buf : list N) (s : ps * list (list N * val))
  : res ((ps * list (list N * val)) + (ps * list (list N * val))) :=
  let '(p, kvs) := s in
  '(k, p) <- parse_value_string_u z false buf p ;;
  p <- trim_end_of_name_u buf p ;;
  '(v, p) <- parse false buf p ;;
  p <- move_next_u buf p ;;
  c <- front buf p ;;
  if c =? c_rbrace then p <- trim_end_u z buf (remove_prefix p 1) ;; Ok (inr (p, kvs ++ [(k, v)]))
  else Ok (inl (p, kvs ++ [(k, v)])).

(** parse_value_keyvalue: daw_json_parse_value.h:621-641 and the iterator's
    constructor, daw_json_parse_kv_class_iterator.h:93-107 *)
Definition parse_value_keyvalue_u (z : bool) (parse : parser) (buf : list N) (p : ps) : res (val * ps) :=
  p <- trim_u buf (remove_prefix p 1) ;;
  e <- empty_u z buf p ;;
  _ <- ensure (negb e) UnexpectedEndOfData ;;
  c <- front buf p ;;
  if c =? c_rbrace then p <- trim_end_u z buf (remove_prefix p 1) ;; Ok (VMap [], p)
  else
    '(p, kvs) <- loop (map_body_u z parse buf) (S (length buf)) (p, []) ;;
    Ok (VMap kvs, p).

(** ** Tuples *)

(** parse_value_help for members without an index: daw_json_parse_value.h:1087-1110 *)
Fixpoint parse_elements_u (ps_ : list parser) (buf : list N) (p : ps) : res (list val * ps) :=
  match ps_ with
  | [] => Ok ([], p)
  | parse :: r =>
      '(v, p) <- parse false buf p ;;
      p <- move_next_u buf p ;;
      '(vs, p) <- parse_elements_u r buf p ;;
      Ok (v :: vs, p)
  end.

(** parse_tuple_value: daw_json_parse_value.h:1005-1148 *)
Definition parse_tuple_u (exact : bool) (ps_ : list parser) (buf : list N) (p : ps) : res (val * ps) :=
  p <- trim_u buf p ;;
  let old := (cfirst p, clast p) in
  let p := set_class p (Some (first p)) (Some (last p)) in
  p <- move_next_u buf (remove_prefix p 1) ;;
  p <- trim_u buf p ;;
  '(vs, p) <- parse_elements_u ps_ buf p ;;
  p <- (if exact then
          p <- trim_u buf p ;;
          trim_u buf (remove_prefix p 1)
        else '(_, p) <- skip_array CNone false ExConstexpr buf p ;; Ok p) ;;
  Ok (VTuple vs, set_class p (fst old) (snd old)).

(** ** Scalars *)

(** parse_value_bool: daw_json_parse_value.h:372-431 (not quoted).  A skipped
    value's counter tells true from false; everything that does not begin with t
    is false. *)
Definition parse_value_bool_u (known : bool) (buf : list N) (p : ps) : res (val * ps) :=
  if known then Ok (VBool (negb (counter p =? 0)), p)
  else
    c <- front buf p ;;
    p <- trim_u buf (remove_prefix p (if c =? c_t then 4 else 5)) ;;
    Ok (VBool (c =? c_t), p).

(** parse_value_null: daw_json_parse_value.h:293-336.  The byte behind a null and
    its spaces is dropped. *)
Definition parse_value_null_u (parse : parser) (known : bool) (buf : list N) (p : ps) : res (val * ps) :=
  let base (k : bool) := '(v, p) <- parse k buf p ;; Ok (VSome v, p) in
  if known then if isnull p then Ok (VNone, p) else base true
  else
    none <- (if has_more p then c <- front buf p ;; Ok (is_token_after_value c) else Ok true) ;;
    if none : bool then Ok (VNone, p)
    else
      c <- front buf p ;;
      if c =? c_n then
        p <- trim_left_unchecked buf (remove_prefix p 4) ;;
        Ok (VNone, remove_prefix p 1)
      else base false.

(** ** Arrays of objects with a key and a value *)

(** parse_value_keyvalue_array: daw_json_parse_value.h:651-670, and the
    iterator's constructor, daw_json_parse_kv_array_iterator.h:79-91.  Element and
    increment, daw_json_parse_kv_array_iterator.h:104-153, do what the array
    iterator does. *)
Definition parse_value_keyvalue_array_u (z : bool) (parse : parser) (buf : list N) (p : ps) : res (val * ps) :=
  let p := remove_prefix p 1 in
  c <- front buf p ;;
  if c =? c_rbrack then p <- end_of_array_u z buf p ;; Ok (VArr [], p)
  else
    '(p, vs) <- loop (array_body_u z parse buf) (S (length buf)) (p, []) ;;
    Ok (VArr vs, p).

(** ** Custom types *)

(** parse_value_custom: daw_json_parse_value.h:538-581 *)
Definition parse_value_custom_u (z : bool) (k : custom) (known : bool) (buf : list N) (p : ps) : res (val * ps) :=
  '(r, p) <-
    match k with
    | CuString => if known then Ok (p, p) else skip_string_u z buf p
    | CuLiteral => if known then Ok (p, p) else skip_literal_u z buf p
    | CuAny =>
        if known then
          match first p with
          | O => UB
          | S i => b <- rd buf i ;; Ok (if b =? c_quote then set_first p i else p, p)
          end
        else
          c <- front buf p ;;
          if c =? c_quote then
            '(r, p) <- skip_string_u z buf p ;; Ok (set_first r (first r - 1), p)
          else skip_val_u z buf p
    end ;;
  Ok (VStr (view buf (first r) (last r)), p).

(** ** Variants *)

(** parse_value_variant: daw_json_parse_value.h:750-795.  The last [UB] is
    DAW_UNREACHABLE. *)
Definition parse_value_variant_u (alts : list (option kind * parser)) (known : bool)
  (buf : list N) (p : ps) : res (val * ps) :=
  quoted <- (if known then
               match first p with O => UB | S i => b <- rd buf i ;; Ok (b =? c_quote) end
             else Ok false) ;;
  if quoted : bool then parse_variant_value KString alts known buf p
  else
    c <- front buf p ;;
    if c =? c_lbrace then parse_variant_value KClass alts known buf p
    else if c =? c_lbrack then parse_variant_value KArray alts known buf p
    else if (c =? c_t) || (c =? c_f) then parse_variant_value KBool alts known buf p
    else if c =? c_quote then parse_variant_value KString alts known buf p
    else if ((48 <=? c) && (c <=? 57)) || (c =? c_plus) || (c =? c_minus)
    then parse_variant_value KNumber alts known buf p
    else UB.

(** parse_visit: daw_json_parse_value.h:797-822.  [UB] is DAW_UNREACHABLE. *)
Definition parse_visit_u (idx : nat) (alts : list parser) (buf : list N) (p : ps) : res (val * ps) :=
  match nth_error alts idx with
  | Some parse => '(v, p) <- parse false buf p ;; Ok (VVariant idx v, p)
  | None => UB
  end.

(** parse_value_variant_intrusive: daw_json_parse_value.h:862-884 *)
Definition parse_value_variant_intrusive_u (tag : parser) (switch : val -> nat) (alts : list parser)
  (buf : list N) (p : ps) : res (val * ps) :=
  '(v, _) <- tag false buf p ;;
  match v with
  | VClass [y] => parse_visit_u (switch y) alts buf p
  | _ => Fuel
  end.

(** ** Types *)

(** parse_value: daw_json_parse_value.h:1176-1225 *)
Fixpoint parse_value_u (z : bool) (g : cfg) (t : ty) : parser :=
  fun known buf p =>
  match t with
  | TUInt w rc => '(v, p) <- parse_value_unsigned_u z known w rc buf p ;; Ok (VInt (Z.of_N v), p)
  | TInt w rc => '(v, p) <- parse_value_signed_u z known w rc buf p ;; Ok (VInt v, p)
  | TBool => parse_value_bool_u known buf p
  | TStr => '(s, p) <- parse_value_string_u z known buf p ;; Ok (VStr s, p)
  | TNullable t => parse_value_null_u (parse_value_u z g t) known buf p
  | TArr t => parse_value_array_u z (parse_value_u z g t) buf p
  | TMap t => parse_value_keyvalue_u z (parse_value_u z g t) buf p
  | TClass exact ms =>
      parse_value_class_u z g exact
        (map (fun m => mkmember (fst m) (is_nullable (snd m)) (parse_value_u z g (snd m))) ms) known buf p
  | TTuple exact ts => parse_tuple_u exact (map (parse_value_u z g) ts) buf p
  | TKvArr exact kn tk vn tv =>
      parse_value_keyvalue_array_u z
        (parse_value_class_u z g exact
           [mkmember kn (is_nullable tk) (parse_value_u z g tk); mkmember vn (is_nullable tv) (parse_value_u z g tv)]) buf p
  | TCustom k => parse_value_custom_u z k known buf p
  | TVariant alts => parse_value_variant_u (map (fun t => (base_kind t, parse_value_u z g t)) alts) known buf p
  | TIntrusive exact tag t switch alts =>
      parse_value_variant_intrusive_u
        (parse_value_class_u z g exact [mkmember tag (is_nullable t) (parse_value_u z g t)]) switch
        (map (parse_value_u z g) alts) buf p
  end.

(** from_json with CheckedParseMode::no: daw_from_json.h:37-84 without a path.
    [mem] is the memory from the document's first byte on and [n] the size of the
    document: the rest is what lies behind it, for a std::basic_string one zero. *)
Definition from_json_u (z : bool) (g : cfg) (verify : bool) (t : ty) (mem : list N) (n : nat) : res val :=
  _ <- ensure (negb (n =? 0)%nat) EmptyJSONDocument ;;
  c <- rd mem (n - 1) ;;
  let l := if c =? 0 then (n - 1)%nat else n in
  '(v, p) <- parse_value_u z g t false mem (new_ps 0 l) ;;
  if verify then
    p <- trim_u mem p ;;
    e <- empty_u z mem p ;;
    _ <- ensure e InvalidEndOfValue ;;
    Ok v
  else Ok v.
