(** Model of the typed parser for zero-terminated documents.

    from_json sets ParseState::is_zero_terminated_string when the document is a
    std::basic_string (daw_from_json.h:55-63, daw_json_traits.h:226-250): many
    comparisons with the end are then left out, and the terminating zero is to
    stop the loops.  The document is modelled as the bytes of the string followed
    by one zero; reading behind that zero is [UB].

    Modelled configuration: checked input, no comments, not minified, expect_long
    off, constexpr execution mode (the default; [c_ex] is not looked at).
    Functions that do not depend on the option are those of the other models. *)
From Coq Require Import List NArith ZArith Bool Arith.
From Verif Require Import Base PolicyModel IntModel Loop StrScanModel SkipModel HashModel StrDecodeModel ValueModel.
Import ListNotations.
Local Open Scope N_scope.

(** ** Parse policy *)

(** NoCommentSkippingPolicy::trim_left_checked:
    daw_json_parse_policy_no_comments.h:45-52.  The zero is not a space; [last]
    is not looked at. *)
Definition trim_left_z (buf : list N) (p : ps) : res ps :=
  i <- trim_loop_unchecked (S (length buf)) buf (first p) ;;
  Ok (set_first p i).

(** empty: daw_json_parse_policy.h:293-302 *)
Definition empty_z (buf : list N) (p : ps) : res bool :=
  if ps_empty p then Ok true else c <- front buf p ;; Ok (c =? 0).

(** move_next_member_or_end_checked: daw_json_parse_policy.h:440-454 *)
Definition move_next_z (buf : list N) (p : ps) : res ps :=
  p <- trim_left_z buf p ;;
  c <- front buf p ;;
  if c =? c_comma then trim_left_z buf (remove_prefix p 1) else Ok p.

(** ** Integers *)

(** Byte loop of unsigned_parser_known and unsigned_parser_not_known:
    daw_json_parse_unsigned_int.h:221-229, 298-306 *)
Fixpoint digits_z (fuel : nat) (buf : list N) (i : nat) (acc : N) : res (nat * N) :=
  match fuel with
  | O => Fuel
  | S f =>
      b <- rd buf i ;;
      if 10 <=? parse_digit b then Ok (i, acc)
      else digits_z f buf (S i) (accum acc 10 (parse_digit b))
  end.

(** unsigned_parser_known: daw_json_parse_unsigned_int.h:191-252 *)
Definition unsigned_parser_known_z (w : N) (rc : bool) (buf : list N) (p : ps) : res (N * ps) :=
  let l := last p in
  '(i, acc) <- known16 (S (l - first p)) buf (first p) l 0 ;;
  '(i, acc) <-
     (if (8 <=? l - i)%nat then
        v <- parse_8_digits buf i ;; Ok ((i + 8)%nat, accum acc 100000000 v)
      else Ok (i, acc)) ;;
  '(i, acc) <- digits_z (S (length buf)) buf i acc ;;
  let p' := set_first p i in
  if rc then
    let count := (20 + 2^64 - N.of_nat (ps_size p)) mod 2^64 in
    _ <- ensure ((acc <=? umax 64) && (0 <=? count)) NumberOutOfRange ;;
    v <- narrow_cast_u w acc ;;
    Ok (v, p')
  else Ok (cast_u w acc, p').

(** unsigned_parser_not_known: daw_json_parse_unsigned_int.h:255-334 *)
Definition unsigned_parser_not_known_z (w : N) (rc : bool) (buf : list N) (p : ps) : res (N * ps) :=
  _ <- ensure (has_more p) UnexpectedEndOfData ;;
  let l := last p in
  let i0 := first p in
  has_eight <- has_eight_at buf i0 l ;;
  '(i, acc, has_eight) <-
     (if has_eight && (16 <=? l - i0)%nat then
        has_sixteen <- is_made_of_eight_digits buf (i0 + 8) ;;
        if has_sixteen : bool then not_known16 (S (l - i0)) buf i0 l 0
        else Ok (i0, 0, has_eight)
      else Ok (i0, 0, has_eight)) ;;
  '(i, acc) <-
     (if has_eight : bool then
        v <- parse_8_digits buf i ;; Ok ((i + 8)%nat, accum acc 100000000 v)
      else Ok (i, acc)) ;;
  '(i, acc) <- digits_z (S (length buf)) buf i acc ;;
  let p' := set_first p i in
  if rc then
    _ <- ensure (i - i0 <=? 20)%nat NumberOutOfRange ;;
    v <- narrow_cast_u w acc ;;
    Ok (v, p')
  else Ok (cast_u w acc, p').

(** unsigned_parser: daw_json_parse_unsigned_int.h:450-462 *)
Definition unsigned_parser_z (known : bool) (w : N) (rc : bool) (buf : list N) (p : ps) : res (N * ps) :=
  if known then unsigned_parser_known_z w rc buf p else unsigned_parser_not_known_z w rc buf p.

(** parse_value_signed: daw_json_parse_value.h:177-233, not quoted; the end is
    looked at by validate_signed_first
    (daw_json_parse_policy_policy_details.h:76-107) alone. *)
Definition parse_value_signed_z (known : bool) (w : N) (rc : bool) (buf : list N) (p : ps) : res (Z * ps) :=
  if known then
    b <- front buf p ;;
    _ <- ensure (is_number_start b) InvalidNumberStart ;;
    '(sign, p) <- validate_signed_first buf p ;;
    '(u, p) <- unsigned_parser_z true w rc buf p ;;
    v <- to_signed w u sign ;;
    Ok (v, p)
  else
    '(sign, p) <- validate_signed_first buf p ;;
    '(u, p) <- unsigned_parser_z false w rc buf p ;;
    v <- to_signed w u sign ;;
    p <- trim_left_z buf p ;;
    e <- end_of_item_ok buf p ;;
    _ <- ensure e InvalidEndOfValue ;;
    Ok (v, p).

(** parse_value_unsigned: daw_json_parse_value.h:235-291, not quoted *)
Definition parse_value_unsigned_z (known : bool) (w : N) (rc : bool) (buf : list N) (p : ps) : res (N * ps) :=
  if known then
    _ <- validate_unsigned_first buf p ;;
    unsigned_parser_z true w rc buf p
  else
    b <- front buf p ;;
    _ <- ensure (is_number b) InvalidNumber ;;
    '(v, p) <- unsigned_parser_z false w rc buf p ;;
    e <- end_of_item_ok buf p ;;
    _ <- ensure e InvalidEndOfValue ;;
    Ok (v, p).

(** ** Strings *)

(** Inner loop of the byte scan: daw_json_parse_string_quote.h:190-193 *)
Definition plain_loop_z (buf : list N) (i : nat) : res nat :=
  loop (fun i =>
    c <- rd buf i ;;
    Ok (if negb (c =? 0) && negb (c =? c_quote) && negb (c =? c_bslash) then inl (S i) else inr i))
    (S (length buf)) i.

(** Byte scan: daw_json_parse_string_quote.h:189-203.  The two bytes of an escape
    are stepped over without looking at the second. *)
Definition nq_body_z (buf : list N) (start : nat) (s : nat * Z) : res ((nat * Z) + (nat * Z)) :=
  let '(i, nsp) := s in
  c <- rd buf i ;;
  if (c =? 0) || (c =? c_quote) then Ok (inr (i, nsp))
  else
    i <- plain_loop_z buf i ;;
    c <- rd buf i ;;
    if c =? c_bslash then Ok (inl ((i + 2)%nat, note_escape nsp start i))
    else Ok (inr (i, nsp)).

(** Byte scan with ExcludeSpecialEscapes: daw_json_parse_string_quote.h:158-187 *)
Definition nq_body_excl_z (buf : list N) (start last : nat) (s : nat * Z) : res ((nat * Z) + (nat * Z)) :=
  let '(i, nsp) := s in
  c <- rd buf i ;;
  if c =? 0 then Ok (inr (i, nsp))
  else
    _ <- ensure (32 <=? c) InvalidString ;;
    if c =? c_bslash then
      _ <- ensure (1 <? last - i)%nat InvalidString ;;
      d <- rd buf (S i) ;;
      _ <- ensure (special_escape d) InvalidString ;;
      Ok (inl ((i + 2)%nat, note_escape nsp start i))
    else if c =? c_quote then Ok (inr (i, nsp))
    else Ok (inl (S i, nsp)).

(** parse_nq_check: daw_json_parse_string_quote.h:137-268 *)
Definition parse_nq_z (excl : bool) (buf : list N) (p : ps) : res (N * ps) :=
  match clast p with
  | None => UB
  | Some cl =>
      '(i, nsp) <-
        (if excl then
           loop (nq_body_excl_z buf (first p) cl) (S (length buf)) (first p, (-1)%Z)
         else
           i <- (if (8 <=? last p - first p)%nat then skip_to_first8 buf (first p) (last p)
                 else if (4 <=? cl - first p)%nat then skip_to_first4 buf (first p) (last p)
                 else Ok (first p)) ;;
           loop (nq_body_z buf (first p)) (S (length buf)) (i, (-1)%Z)) ;;
      c <- rd buf i ;;
      _ <- ensure (c =? c_quote) InvalidString ;;
      Ok (to_size nsp, set_first p i)
  end.

(** skip_string_nq: daw_json_skip.h:38-50 *)
Definition skip_string_nq_z (excl : bool) (buf : list N) (p : ps) : res (ps * ps) :=
  '(cnt, p') <- parse_nq_z excl buf p ;;
  c <- front buf p' ;;
  _ <- ensure (c =? c_quote) InvalidString ;;
  Ok (set_last (set_counter p cnt) (first p'), remove_prefix p' 1).

(** skip_string: daw_json_skip.h:55-73 (KeepQuotes = false) *)
Definition skip_string_z (excl : bool) (buf : list N) (p : ps) : res (ps * ps) :=
  e <- empty_z buf p ;;
  if e : bool then Ok (p, p)
  else
    c <- front buf p ;;
    _ <- ensure (c =? c_quote) InvalidString ;;
    let p := remove_prefix p 1 in
    _ <- ensure (has_more p) InvalidString ;;
    skip_string_nq_z excl buf p.

(** parse_value_string_escaped: daw_json_parse_value.h:477-524 *)
Definition parse_value_string_z (known : bool) (buf : list N) (p : ps) : res (list N * ps) :=
  _ <- (if known then Ok tt
        else e <- empty_z buf p ;; ensure (negb e) UnexpectedNull) ;;
  '(p2, p) <- (if known then Ok (p, p) else skip_string_z false buf p) ;;
  if needs_slow_path p2 then
    s <- parse_string_known_stdstring true ExConstexpr true buf p2 ;; Ok (s, p)
  else if (last p2 <=? length buf)%nat
       then Ok (firstn (last p2 - first p2) (skipn (first p2) buf), p) else UB.

(** ** Skipping *)

(** skip_true / skip_false: daw_json_skip.h:75-117.  The letters are stepped
    over. *)
Definition skip_bool_z (n : nat) (val : N) (buf : list N) (p : ps) : res (ps * ps) :=
  let q := remove_prefix p n in
  let result := set_last p (first q) in
  q <- trim_left_z buf q ;;
  _ <- check_after_literal true InvalidEndOfValue buf q ;;
  Ok (set_counter result val, q).

(** skip_null: daw_json_skip.h:119-141 *)
Definition skip_null_z (buf : list N) (p : ps) : res (ps * ps) :=
  let q := remove_prefix p 4 in
  _ <- ensure (has_more q) UnexpectedEndOfData ;;
  q <- trim_left_z buf q ;;
  _ <- check_after_literal true UnexpectedEndOfData buf q ;;
  Ok (null_of q, q).

(** Exponent part of skip_number: daw_json_skip.h:270-304 *)
Definition skip_exponent_z (buf : list N) (i last : nat) : res (option nat * nat) :=
  b <- rd buf i ;;
  let dig := parse_digit b in
  if (dig =? parse_digit c_e) || (dig =? parse_digit c_E) then
    let exp := i in
    let i := S i in
    _ <- ensure (i <? last)%nat UnexpectedEndOfData ;;
    b <- rd buf i ;;
    let dig := parse_digit b in
    let i := if (dig =? parse_digit c_plus) || (dig =? parse_digit c_minus) then S i else i in
    ok <- (if (i <? last)%nat then b <- rd buf i ;; Ok (parse_digit b <? 10) else Ok false) ;;
    _ <- ensure ok InvalidNumber ;;
    i <- skip_digits_if false buf i last ;;
    Ok (Some exp, i)
  else Ok (None, i).

(** skip_number: daw_json_skip.h:219-310.  The digits and the decimal point are
    looked for as in unchecked input. *)
Definition skip_number_z (buf : list N) (p : ps) : res (ps * ps) :=
  _ <- ensure (has_more p) UnexpectedEndOfData ;;
  c <- front buf p ;;
  let i := if c =? c_minus then S (first p) else first p in
  i <- skip_digits_if false buf i (last p) ;;
  '(decimal, i) <- skip_fraction false buf i (last p) ;;
  '(exp, i) <- skip_exponent_z buf i (last p) ;;
  Ok (set_class (set_last p i) decimal exp, set_first p i).

(** skip_literal: daw_json_skip.h:403-438 *)
Definition skip_literal_z (buf : list N) (p : ps) : res (ps * ps) :=
  _ <- ensure (has_more p) UnexpectedEndOfData ;;
  let p := set_counter p 0 in
  c <- front buf p ;;
  if c =? c_t then skip_bool_z 4 1 buf p
  else if c =? c_f then skip_bool_z 5 0 buf p
  else if c =? c_n then skip_null_z buf p
  else if (c =? c_minus) || ((48 <=? c) && (c <=? 57)) then skip_number_z buf p
  else Err InvalidStartOfValue.

(** skip_value: daw_json_skip.h:318-361 *)
Definition skip_val_z (g : cfg) (buf : list N) (p : ps) : res (ps * ps) :=
  _ <- ensure (has_more p) UnexpectedEndOfData ;;
  let p := set_counter p 0 in
  c <- front buf p ;;
  if c =? c_quote then skip_string_z (c_excl g) buf p
  else if c =? c_lbrack then skip_array CNone true ExConstexpr buf p
  else if c =? c_lbrace then skip_class CNone true ExConstexpr buf p
  else if c =? c_t then skip_bool_z 4 1 buf p
  else if c =? c_f then skip_bool_z 5 0 buf p
  else if c =? c_n then skip_null_z buf p
  else if (c =? c_minus) || ((48 <=? c) && (c <=? 57)) then skip_number_z buf p
  else Err InvalidStartOfValue.

(** ** Member names *)

(** trim_end_of_name: daw_json_parse_name.h:33-41 *)
Definition trim_end_of_name_z (buf : list N) (p : ps) : res ps :=
  p <- trim_left_z buf p ;;
  _ <- ensure (has_more p) UnexpectedEndOfData ;;
  c <- front buf p ;;
  _ <- ensure (c =? c_colon) InvalidMemberName ;;
  trim_left_z buf (remove_prefix p 1).

(** parse_nq of names: daw_json_parse_name.h:43-66.  The byte before the quote is
    always inside the document: the opening quote, at least. *)
Definition parse_name_nq_z (g : cfg) (buf : list N) (p : ps) : res (list N * ps) :=
  if c_escnames g then
    '(r, p) <- skip_string_nq_z (c_excl g) buf p ;;
    p <- trim_end_of_name_z buf p ;;
    Ok (view buf (first r) (last r), p)
  else
    j <- memchr_checked c_quote buf (first p) (last p) ;;
    let q := set_first p j in
    ok <- is_at buf q c_quote ;;
    ok <- (if ok : bool then
             match j with O => UB | S i => b <- rd buf i ;; Ok (negb (b =? c_bslash)) end
           else Ok false) ;;
    _ <- ensure ok InvalidString ;;
    let name := view buf (first p) j in
    q <- trim_end_of_name_z buf (remove_prefix q 1) ;;
    Ok (name, q).

(** parse_name: daw_json_parse_name.h:144-156 *)
Definition parse_name_z (g : cfg) (buf : list N) (p : ps) : res (list N * ps) :=
  q <- is_at buf p c_quote ;;
  _ <- ensure q InvalidMemberName ;;
  parse_name_nq_z g buf (remove_prefix p 1).

(** ** Class members *)

(** The loop of find_class_member: daw_json_location_info.h:218-272.  The state
    is the parser's and the locations. *)
Definition find_body_z (g : cfg) (exact : bool) (names : list (list N)) (pos : nat)
  (buf : list N) (s : ps * list ps) : res ((ps * list ps) + (ps * list ps)) :=
  let '(p, locs) := s in
  go <- (if isnull (nth pos locs no_loc) then
           e <- empty_z buf p ;;
           if e : bool then Ok false
           else c <- front buf p ;; Ok (negb (c =? c_rbrace))
         else Ok false) ;;
  if negb go then Ok (inr (p, locs))
  else
    '(name, p) <- parse_name_z g buf p ;;
    let k := find_name (c_force g) false names pos name in
    if (length names <=? k)%nat then
      if exact then Err UnknownMember
      else
        '(_, p) <- skip_val_z g buf p ;;
        p <- move_next_z buf p ;;
        Ok (inl (p, locs))
    else if (k =? pos)%nat then Ok (inr (p, set_nth locs pos p))
    else
      '(r, p) <- skip_val_z g buf p ;;
      p <- move_next_z buf p ;;
      Ok (inl (p, set_nth locs k r)).

(** find_class_member: daw_json_location_info.h:198-288.  Returns the parser
    state, the locations and whether the range was known. *)
Definition find_class_member_z (g : cfg) (exact : bool) (names : list (list N)) (pos : nat)
  (nullable : bool) (buf : list N) (p : ps) (locs : list ps) : res (ps * list ps * bool) :=
  let missing l := isnull (nth pos l no_loc) in
  brace <- is_at buf p c_rbrace ;;
  _ <- ensure (nullable || negb (missing locs) || negb brace) MemberNotFound ;;
  p <- trim_left_unchecked buf p ;;
  let known := negb (missing locs) in
  '(p, locs) <- loop (find_body_z g exact names pos buf) (S (length buf)) (p, locs) ;;
  Ok (p, locs, known || missing locs).

(** parse_class_member: daw_json_parse_class.h:94-151.  The restoring of the
    class position after a member is not modelled: the values modelled here
    leave it as they found it. *)
Definition parse_class_member_z (g : cfg) (exact : bool) (names : list (list N)) (pos : nat)
  (nullable : bool) (parse : parser) (buf : list N) (p : ps) (locs : list ps)
  : res (val * ps * list ps) :=
  p <- move_next_z buf p ;;
  e <- empty_z buf p ;;
  ok <- (if e : bool then Ok false
         else c <- front buf p ;; Ok ((c =? c_quote) || (c =? c_rbrace))) ;;
  _ <- ensure ok MissingMemberNameOrEndOfClass ;;
  '(p, locs, known) <- find_class_member_z g exact names pos nullable buf p locs ;;
  let loc := nth pos locs no_loc in
  if negb known then
    '(v, p) <- parse false buf p ;; Ok (v, p, locs)
  else if isnull loc then
    if nullable then Ok (VNone, p, locs) else Err MemberNotFound
  else
    '(v, _) <- parse true buf loc ;; Ok (v, p, locs).

(** move_to_next_of for the quote and the closing brace:
    daw_json_parse_policy_no_comments.h:115-124.  The loop has no end but a quote
    or a brace. *)
Definition move_to_next_class_member_z (buf : list N) (p : ps) : res ps :=
  ok <- (if has_more p then c <- front buf p ;; Ok (negb (c =? 0)) else Ok false) ;;
  _ <- ensure ok UnexpectedEndOfData ;;
  i <- loop (fun i =>
    c <- rd buf i ;;
    Ok (if (c =? c_quote) || (c =? c_rbrace) then inr i else inl (S i)))
    (S (length buf)) (first p) ;;
  Ok (set_first p i).

(** class_cleanup_now: daw_json_parse_class.h:153-175 *)
Definition class_cleanup_now_z (exact : bool) (old : option nat * option nat)
  (buf : list N) (p : ps) : res ps :=
  _ <- ensure (has_more p) UnexpectedEndOfData ;;
  p <- move_next_z buf p ;;
  p <- move_to_next_class_member_z buf p ;;
  p <- (if exact then
          c <- front buf p ;;
          _ <- ensure (c =? c_rbrace) UnknownMember ;;
          Ok (remove_prefix p 1)
        else '(_, p) <- skip_class CNone true ExConstexpr buf p ;; Ok p) ;;
  p <- trim_left_z buf p ;;
  Ok (set_class p (fst old) (snd old)).

(** The members are parsed in mapping order: daw_json_parse_class.h:235-278. *)
Fixpoint parse_members_z (g : cfg) (exact : bool) (names : list (list N)) (pos : nat)
  (ms : list member) (buf : list N) (p : ps) (locs : list ps) : res (list val * ps) :=
  match ms with
  | [] => Ok ([], p)
  | m :: r =>
      '(v, p, locs) <- parse_class_member_z g exact names pos (m_nullable m) (m_parse m) buf p locs ;;
      '(vs, p) <- parse_members_z g exact names (S pos) r buf p locs ;;
      Ok (v :: vs, p)
  end.

(** parse_json_class: daw_json_parse_class.h:184-281 *)
Definition parse_json_class_z (g : cfg) (exact : bool) (ms : list member) (buf : list N) (p : ps)
  : res (val * ps) :=
  p <- trim_left_z buf p ;;
  b <- is_at buf p c_lbrace ;;
  _ <- ensure b InvalidClassStart ;;
  let old := (cfirst p, clast p) in
  let p := set_class p (Some (first p)) (Some (last p)) in
  p <- trim_left_z buf (remove_prefix p 1) ;;
  '(vs, p) <- parse_members_z g exact (map m_name ms) 0 ms buf p (map (fun _ => no_loc) ms) ;;
  p <- class_cleanup_now_z exact old buf p ;;
  Ok (VClass vs, p).

(** parse_value_class: daw_json_parse_value.h:583-611 *)
Definition parse_value_class_z (g : cfg) (exact : bool) (ms : list member) (known : bool)
  (buf : list N) (p : ps) : res (val * ps) :=
  _ <- ensure (has_more p) UnexpectedEndOfData ;;
  '(v, p) <- parse_json_class_z g exact ms buf p ;;
  if known then Ok (v, p) else p <- trim_left_z buf p ;; Ok (v, p).

(** ** Arrays *)

(** After the closing bracket: daw_json_parse_array_iterator.h:95-102 and 141-147
    (the iterator is never the one for known bounds, can_be_random_iterator_v is
    false: daw_json_traits.h:391) *)
Definition end_of_array_z (buf : list N) (p : ps) : res ps :=
  trim_left_z buf (remove_prefix p 1).

(** Element and increment: daw_json_parse_array_iterator.h:112-168.  A container
    is filled from the iterator until it equals the default one. *)
Definition array_body_z (parse : parser) (buf : list N) (s : ps * list val)
  : res ((ps * list val) + (ps * list val)) :=
  let '(p, vs) := s in
  _ <- ensure (has_more p) UnexpectedEndOfData ;;
  '(v, p) <- parse false buf p ;;
  p <- trim_left_z buf p ;;
  ok <- (if has_more p then c <- front buf p ;; Ok ((c =? c_comma) || (c =? c_rbrack)) else Ok false) ;;
  _ <- ensure ok UnexpectedEndOfData ;;
  p <- move_next_z buf p ;;
  _ <- ensure (has_more p) UnexpectedEndOfData ;;
  c <- front buf p ;;
  if c =? c_rbrack then p <- end_of_array_z buf p ;; Ok (inr (p, vs ++ [v]))
  else Ok (inl (p, vs ++ [v])).

(** parse_value_array: daw_json_parse_value.h:672-689.  The whitespace after the
    bracket is skipped without looking at the end, and the iterator's constructor
    (daw_json_parse_array_iterator.h:93-105) reads the next byte. *)
Definition parse_value_array_z (parse : parser) (buf : list N) (p : ps) : res (val * ps) :=
  p <- trim_left_z buf p ;;
  b <- is_at buf p c_lbrack ;;
  _ <- ensure b InvalidArrayStart ;;
  p <- trim_left_unchecked buf (remove_prefix p 1) ;;
  c <- front buf p ;;
  if c =? c_rbrack then p <- end_of_array_z buf p ;; Ok (VArr [], p)
  else
    '(p, vs) <- loop (array_body_z parse buf) (S (length buf)) (p, []) ;;
    Ok (VArr vs, p).

(** ** Maps: objects whose names are keys *)

(** Element and increment: daw_json_parse_kv_class_iterator.h:112-160 *)
Definition map_body_z (parse : parser) (buf : list N) (s : ps * list (list N * val))
  : res ((ps * list (list N * val)) + (ps * list (list N * val))) :=
  let '(p, kvs) := s in
  _ <- ensure (has_more p) UnexpectedEndOfData ;;
  '(k, p) <- parse_value_string_z false buf p ;;
  p <- trim_end_of_name_z buf p ;;
  '(v, p) <- parse false buf p ;;
  p <- move_next_z buf p ;;
  _ <- ensure (has_more p) UnexpectedEndOfData ;;
  c <- front buf p ;;
  if c =? c_rbrace then p <- trim_left_z buf (remove_prefix p 1) ;; Ok (inr (p, kvs ++ [(k, v)]))
  else Ok (inl (p, kvs ++ [(k, v)])).

(** parse_value_keyvalue: daw_json_parse_value.h:621-641 and the iterator's
    constructor, daw_json_parse_kv_class_iterator.h:93-107.  The result is the
    sequence of pairs handed to the container. *)
Definition parse_value_keyvalue_z (parse : parser) (buf : list N) (p : ps) : res (val * ps) :=
  b <- is_at buf p c_lbrace ;;
  _ <- ensure b ExpectedKeyValueToStartWithBrace ;;
  p <- trim_left_z buf (remove_prefix p 1) ;;
  e <- empty_z buf p ;;
  _ <- ensure (negb e) UnexpectedEndOfData ;;
  c <- front buf p ;;
  if c =? c_rbrace then p <- trim_left_z buf (remove_prefix p 1) ;; Ok (VMap [], p)
  else
    '(p, kvs) <- loop (map_body_z parse buf) (S (length buf)) (p, []) ;;
    Ok (VMap kvs, p).

(** ** Tuples *)

(** parse_value_help for members without an index: daw_json_parse_value.h:1087-1110 *)
Fixpoint parse_elements_z (ps_ : list parser) (buf : list N) (p : ps) : res (list val * ps) :=
  match ps_ with
  | [] => Ok ([], p)
  | parse :: r =>
      _ <- ensure (has_more p) UnexpectedEndOfData ;;
      '(v, p) <- parse false buf p ;;
      p <- move_next_z buf p ;;
      '(vs, p) <- parse_elements_z r buf p ;;
      Ok (v :: vs, p)
  end.

(** parse_tuple_value: daw_json_parse_value.h:1005-1148 *)
Definition parse_tuple_z (exact : bool) (ps_ : list parser) (buf : list N) (p : ps)
  : res (val * ps) :=
  p <- trim_left_z buf p ;;
  b <- is_at buf p c_lbrack ;;
  _ <- ensure b InvalidArrayStart ;;
  let old := (cfirst p, clast p) in
  let p := set_class p (Some (first p)) (Some (last p)) in
  p <- move_next_z buf (remove_prefix p 1) ;;
  p <- trim_left_z buf p ;;
  '(vs, p) <- parse_elements_z ps_ buf p ;;
  p <- (if exact then
          p <- trim_left_z buf p ;;
          c <- front buf p ;;
          _ <- ensure (c =? c_rbrack) UnknownMember ;;
          trim_left_z buf (remove_prefix p 1)
        else '(_, p) <- skip_array CNone true ExConstexpr buf p ;; Ok p) ;;
  Ok (VTuple vs, set_class p (fst old) (snd old)).

(** ** Scalars *)

(** parse_value_bool: daw_json_parse_value.h:372-431 (not quoted) *)
Definition parse_value_bool_z (known : bool) (buf : list N) (p : ps) : res (val * ps) :=
  if known then
    c <- front buf p ;;
    if c =? c_t then Ok (VBool true, p)
    else if c =? c_f then Ok (VBool false, p)
    else Err InvalidLiteral
  else
    t <- starts_with buf p [116; 114; 117; 101] ;;
    '(b, p) <-
      (if t : bool then Ok (true, remove_prefix p 4)
       else
         f <- starts_with buf p [102; 97; 108; 115; 101] ;;
         if f : bool then Ok (false, remove_prefix p 5) else Err InvalidLiteral) ;;
    p <- trim_left_z buf p ;;
    e <- end_of_item_ok buf p ;;
    _ <- ensure e InvalidEndOfValue ;;
    Ok (VBool b, p).

(** parse_value_null: daw_json_parse_value.h:293-370 *)
Definition parse_value_null_z (parse : parser) (known : bool) (buf : list N) (p : ps) : res (val * ps) :=
  let base (k : bool) := '(v, p) <- parse k buf p ;; Ok (VSome v, p) in
  if known then if isnull p then Ok (VNone, p) else base true
  else
    none <- (if has_more p then c <- front buf p ;; Ok (is_token_after_value c) else Ok true) ;;
    if none : bool then Ok (VNone, p)
    else
      n <- starts_with buf p [110; 117; 108; 108] ;;
      if n : bool then
        let p := remove_prefix p 4 in
        e <- end_of_item_ok buf p ;;
        _ <- ensure e InvalidLiteral ;;
        p <- trim_left_z buf p ;;
        Ok (VNone, p)
      else base false.

(** ** Arrays of objects with a key and a value *)

(** parse_value_keyvalue_array: daw_json_parse_value.h:651-670, and the
    iterator's constructor, daw_json_parse_kv_array_iterator.h:79-91: whitespace
    after the bracket is not skipped and the next byte is read without looking at
    the end.  Element and increment, daw_json_parse_kv_array_iterator.h:104-153,
    do what the array iterator does; [parse] reads the class with the key and the
    value.  The result is the sequence of pairs handed to the container. *)
Definition parse_value_keyvalue_array_z (parse : parser) (buf : list N) (p : ps) : res (val * ps) :=
  b <- is_at buf p c_lbrack ;;
  _ <- ensure b ExpectedKeyValueArrayToStartWithBracket ;;
  let p := remove_prefix p 1 in
  c <- front buf p ;;
  if c =? c_rbrack then p <- end_of_array_z buf p ;; Ok (VArr [], p)
  else
    '(p, vs) <- loop (array_body_z parse buf) (S (length buf)) (p, []) ;;
    Ok (VArr vs, p).

(** ** Custom types *)

(** parse_value_custom: daw_json_parse_value.h:538-581.  The converter is given
    the text and is not modelled: the value is that text. *)
Definition parse_value_custom_z (g : cfg) (k : custom) (known : bool) (buf : list N) (p : ps) : res (val * ps) :=
  '(r, p) <-
    match k with
    | CuString => if known then Ok (p, p) else skip_string_z (c_excl g) buf p
    | CuLiteral => if known then Ok (p, p) else skip_literal_z buf p
    | CuAny =>
        if known then
          match first p with
          | O => UB
          | S i => b <- rd buf i ;; Ok (if b =? c_quote then set_first p i else p, p)
          end
        else
          c <- front buf p ;;
          if c =? c_quote then
            '(r, p) <- skip_string_z (c_excl g) buf p ;; Ok (set_first r (first r - 1), p)
          else skip_val_z g buf p
    end ;;
  ok <- (if has_more r then c <- front buf r ;; Ok (negb ((c =? c_lbrack) || (c =? c_lbrace))) else Ok false) ;;
  _ <- ensure ok InvalidStartOfValue ;;
  Ok (VStr (view buf (first r) (last r)), p).

(** ** Types *)

(** parse_value: daw_json_parse_value.h:1176-1225.  The choice of an alternative
    of a variant does not depend on the option. *)
Fixpoint parse_value_z (g : cfg) (t : ty) : parser :=
  fun known buf p =>
  match t with
  | TUInt w rc => '(v, p) <- parse_value_unsigned_z known w rc buf p ;; Ok (VInt (Z.of_N v), p)
  | TInt w rc => '(v, p) <- parse_value_signed_z known w rc buf p ;; Ok (VInt v, p)
  | TBool => parse_value_bool_z known buf p
  | TStr => '(s, p) <- parse_value_string_z known buf p ;; Ok (VStr s, p)
  | TNullable t => parse_value_null_z (parse_value_z g t) known buf p
  | TArr t => parse_value_array_z (parse_value_z g t) buf p
  | TMap t => parse_value_keyvalue_z (parse_value_z g t) buf p
  | TClass exact ms =>
      parse_value_class_z g exact
        (map (fun m => mkmember (fst m) (is_nullable (snd m)) (parse_value_z g (snd m))) ms) known buf p
  | TTuple exact ts => parse_tuple_z exact (map (parse_value_z g) ts) buf p
  | TKvArr exact kn tk vn tv =>
      parse_value_keyvalue_array_z
        (parse_value_class_z g exact
           [mkmember kn (is_nullable tk) (parse_value_z g tk); mkmember vn (is_nullable tv) (parse_value_z g tv)]) buf p
  | TCustom k => parse_value_custom_z g k known buf p
  | TVariant alts => parse_value_variant (map (fun t => (base_kind t, parse_value_z g t)) alts) known buf p
  | TIntrusive exact tag t switch alts =>
      parse_value_variant_intrusive
        (parse_value_class_z g exact [mkmember tag (is_nullable t) (parse_value_z g t)]) switch
        (map (parse_value_z g) alts) buf p
  end.

(** from_json for a std::string: daw_from_json.h:37-84 without a path.  [s] is
    what the string holds; a zero at its end is dropped, and the string's own
    terminator follows. *)
Definition from_json_z (g : cfg) (verify : bool) (t : ty) (s : list N) : res val :=
  let buf := s ++ [0] in
  _ <- ensure (negb (length s =? 0)%nat) EmptyJSONDocument ;;
  z <- rd buf (length s - 1) ;;
  let l := if z =? 0 then (length s - 1)%nat else length s in
  '(v, p) <- parse_value_z g t false buf (new_ps 0 l) ;;
  if verify then
    p <- trim_left_z buf p ;;
    e <- empty_z buf p ;;
    _ <- ensure e InvalidEndOfValue ;;
    Ok v
  else Ok v.
