(** Model of whitespace/comment skipping and of skipping whole values.

    Modelled configuration: not zero-terminated, not minified, expect_long off;
    the three comment policies; compile-time and runtime execution mode, and
    simd where the input is checked. *)
From Coq Require Import List NArith ZArith Bool Arith.
From Verif Require Import Base PolicyModel IntModel Loop StrScanModel.
Import ListNotations.
Local Open Scope N_scope.

(** BasicParsePolicy::CommentPolicy: daw_json_parse_policy.h:148-152 *)
Inductive cpol := CNone | CCpp | CHash.

(** The comment policy together with MinifiedDocument, which concerns whitespace of
    the default policy only: daw_json_parse_policy.h:122-124,
    daw_json_parse_policy_no_comments.h:34, 68 *)
Inductive pol := Com (cp : cpol) | Min.
Coercion Com : cpol >-> pol.
(** The policy for skipping brackets *)
Definition brk (cp : pol) : cpol := match cp with Com k => k | Min => CNone end.

(** memchr_checked: daw_json_string_util.h:115-119 *)
Definition memchr_checked (c : N) (buf : list N) (i last : nat) : res nat :=
  loop (fun i =>
    if (i <? last)%nat then
      b <- rd buf i ;;
      Ok (if negb (b =? c) then inl (S i) else inr i)
    else Ok (inr i)) (S (last - i)) i.

(** memchr_unchecked: daw_json_string_util.h:66-70 *)
Definition memchr_unchecked (c : N) (buf : list N) (i : nat) : res nat :=
  loop (fun i =>
    b <- rd buf i ;;
    Ok (if negb (b =? c) then inl (S i) else inr i)) (S (length buf - i)) i.

(** CppCommentSkippingPolicy::skip_comments_checked, inside a block comment:
    daw_json_parse_policy_cpp_comments.h:73-85 *)
Definition block_comment_checked (buf : list N) (i last : nat) : res nat :=
  loop (fun i =>
    if (i <? last)%nat then
      j <- memchr_checked c_star buf i last ;;
      let j := if (j <? last)%nat then S j else j in
      if (j <? last)%nat then
        b <- rd buf j ;;
        Ok (if b =? c_slash then inr (S j) else inl (S j))
      else Ok (inr j)
    else Ok (inr i)) (S (last - i)) i.

(** CppCommentSkippingPolicy::skip_comments_checked:
    daw_json_parse_policy_cpp_comments.h:57-91 *)
Definition cpp_comments_checked (buf : list N) (i last : nat) : res nat :=
  loop (fun i =>
    if (i <? last)%nat then
      b <- rd buf i ;;
      if b =? c_slash then
        d <- rd buf (S i) ;;
        if d =? c_slash then
          j <- memchr_checked c_nl buf i last ;;
          Ok (inl (if (j <? last)%nat then S j else j))
        else if d =? c_star then
          j <- block_comment_checked buf (i + 2) last ;; Ok (inl j)
        else Ok (inr i)
      else Ok (inr i)
    else Ok (inr i)) (S (last - i)) i.

(** CppCommentSkippingPolicy::skip_comments_unchecked:
    daw_json_parse_policy_cpp_comments.h:29-54 *)
Definition block_comment_unchecked (buf : list N) (i : nat) : res nat :=
  loop (fun i =>
    j <- memchr_unchecked c_star buf i ;;
    b <- rd buf (S j) ;;
    Ok (if b =? c_slash then inr (j + 2)%nat else inl (j + 2)%nat)) (S (length buf - i)) i.

Definition cpp_comments_unchecked (buf : list N) (i : nat) : res nat :=
  loop (fun i =>
    b <- rd buf i ;;
    if b =? c_slash then
      d <- rd buf (S i) ;;
      if d =? c_slash then j <- memchr_unchecked c_nl buf i ;; Ok (inl (S j))
      else if d =? c_star then j <- block_comment_unchecked buf (i + 2) ;; Ok (inl j)
      else Ok (inr i)
    else Ok (inr i)) (S (length buf - i)) i.

(** HashCommentSkippingPolicy::skip_comments_checked:
    daw_json_parse_policy_hash_comments.h:41-51.  [front] after the search is
    read without looking at [last]. *)
Definition hash_comments_checked (buf : list N) (i last : nat) : res nat :=
  loop (fun i =>
    if (i <? last)%nat then
      b <- rd buf i ;;
      if b =? c_hash then
        j <- memchr_checked c_nl buf (S i) last ;;
        d <- rd buf j ;;
        Ok (inl (if d =? c_nl then S j else j))
      else Ok (inr i)
    else Ok (inr i)) (S (last - i)) i.

(** HashCommentSkippingPolicy::skip_comments_unchecked:
    daw_json_parse_policy_hash_comments.h:30-38 *)
Definition hash_comments_unchecked (buf : list N) (i : nat) : res nat :=
  loop (fun i =>
    b <- rd buf i ;;
    if b =? c_hash then j <- memchr_unchecked c_nl buf (S i) ;; Ok (inl (S j))
    else Ok (inr i)) (S (length buf - i)) i.

(** Space loops of the two comment policies:
    daw_json_parse_policy_cpp_comments.h:102-121,
    daw_json_parse_policy_hash_comments.h:63-82.  The unchecked version looks
    for comments only once, before the whitespace. *)
Definition comment_trim_checked (skip : list N -> nat -> nat -> res nat)
  (buf : list N) (i last : nat) : res nat :=
  i <- skip buf i last ;;
  loop (fun i =>
    if (i <? last)%nat then
      b <- rd buf i ;;
      if is_space b then j <- skip buf (S i) last ;; Ok (inl j) else Ok (inr i)
    else Ok (inr i)) (S (last - i)) i.

Definition comment_trim_unchecked (skip : list N -> nat -> res nat)
  (buf : list N) (i : nat) : res nat :=
  i <- skip buf i ;; trim_loop_unchecked (S (length buf)) buf i.

(** trim_left for a comment policy: daw_json_parse_policy.h:390-396, 424-430 *)
Definition trim_left_cp (cp : cpol) (checked : bool) (buf : list N) (p : ps) : res ps :=
  match cp, checked with
  | CNone, _ => trim_left checked buf p
  | CCpp, true => i <- comment_trim_checked cpp_comments_checked buf (first p) (last p) ;; Ok (set_first p i)
  | CCpp, false => i <- comment_trim_unchecked cpp_comments_unchecked buf (first p) ;; Ok (set_first p i)
  | CHash, true => i <- comment_trim_checked hash_comments_checked buf (first p) (last p) ;; Ok (set_first p i)
  | CHash, false => i <- comment_trim_unchecked hash_comments_unchecked buf (first p) ;; Ok (set_first p i)
  end.

(** ** Literals *)

(** [not has_more( ) or is_at_token_after_value( )], checked mode only *)
Definition check_after_literal (checked : bool) (r : reason) (buf : list N) (p : ps) : res unit :=
  if checked then
    if has_more p then c <- front buf p ;; ensure (is_token_after_value c) r else Ok tt
  else Ok tt.

(** The opening of skip_true, skip_false and skip_null: checked input compares
    the rest of the word, unchecked input steps over it. *)
Definition skip_word (checked : bool) (rest : list N) (r : reason) (buf : list N) (p : ps) : res ps :=
  if checked then
    let p := remove_prefix p 1 in
    ok <- starts_with buf p rest ;;
    _ <- ensure ok r ;;
    Ok (remove_prefix p (length rest))
  else Ok (remove_prefix p (1 + length rest)).

(** skip_true / skip_false: daw_json_skip.h:75-117.  Every skip function
    returns the delimited range and the advanced state. *)
Definition skip_bool (cp : cpol) (checked : bool) (rest : list N) (r : reason) (val : N)
  (buf : list N) (p : ps) : res (ps * ps) :=
  q <- skip_word checked rest r buf p ;;
  let result := set_last p (first q) in
  q <- trim_left_cp cp checked buf q ;;
  _ <- check_after_literal checked InvalidEndOfValue buf q ;;
  Ok (set_counter result val, q).

Definition skip_true (cp : cpol) (checked : bool) (buf : list N) (p : ps) : res (ps * ps) :=
  skip_bool cp checked [114; 117; 101] InvalidTrue 1 buf p.
Definition skip_false (cp : cpol) (checked : bool) (buf : list N) (p : ps) : res (ps * ps) :=
  skip_bool cp checked [97; 108; 115; 101] InvalidFalse 0 buf p.

(** skip_null: daw_json_skip.h:119-141.  The result's pointers are null. *)
Definition null_of (p : ps) : ps := mkps 0 0 (cfirst p) (clast p) (counter p) true.
Definition skip_null (cp : cpol) (checked : bool) (buf : list N) (p : ps) : res (ps * ps) :=
  q <- skip_word checked [117; 108; 108] InvalidNull buf p ;;
  _ <- (if checked then ensure (has_more q) UnexpectedEndOfData else Ok tt) ;;
  q <- trim_left_cp cp checked buf q ;;
  _ <- check_after_literal checked UnexpectedEndOfData buf q ;;
  Ok (null_of q, q).

(** ** Numbers *)

(** skip_digits: daw_json_skip.h:143-158 *)
Definition skip_digits (checked : bool) (buf : list N) (i last : nat) : res nat :=
  b <- rd buf i ;;
  '(i, _) <- loop (fun s : nat * N =>
    let '(i, dig) := s in
    if dig <? 10 then
      let i := S i in
      if checked && (last <=? i)%nat then Ok (inr (i, dig))
      else b <- rd buf i ;; Ok (inl (i, parse_digit b))
    else Ok (inr (i, dig))) (S (length buf - i)) (i, parse_digit b) ;;
  Ok i.

(** [if( first < last ) first = skip_digits( first, last )] *)
Definition skip_digits_if (checked : bool) (buf : list N) (i last : nat) : res nat :=
  if (i <? last)%nat then skip_digits checked buf i last else Ok i.

(** Exponent part of skip_number: daw_json_skip.h:270-304.  The digit test
    reads only inside [last]. *)
Definition skip_exponent (checked : bool) (buf : list N) (i last : nat)
  : res (option nat * nat) :=
  dig <- (if (i <? last)%nat then b <- rd buf i ;; Ok (parse_digit b) else Ok 0) ;;
  if (dig =? parse_digit c_e) || (dig =? parse_digit c_E) then
    let exp := i in
    let i := S i in
    _ <- (if checked then ensure (i <? last)%nat UnexpectedEndOfData else Ok tt) ;;
    b <- rd buf i ;;
    let dig := parse_digit b in
    let i := if (dig =? parse_digit c_plus) || (dig =? parse_digit c_minus) then S i else i in
    _ <- (if checked then
            ok <- (if (i <? last)%nat then b <- rd buf i ;; Ok (parse_digit b <? 10) else Ok false) ;;
            ensure ok InvalidNumber
          else Ok tt) ;;
    i <- skip_digits_if checked buf i last ;;
    Ok (Some exp, i)
  else Ok (None, i).

(** Fraction part of skip_number: daw_json_skip.h:255-268 *)
Definition skip_fraction (checked : bool) (buf : list N) (i last : nat)
  : res (option nat * nat) :=
  dot <- (if negb checked || (i <? last)%nat then b <- rd buf i ;; Ok (b =? c_dot) else Ok false) ;;
  if dot then j <- skip_digits_if checked buf (S i) last ;; Ok (Some i, j)
  else Ok (None, i).

(** skip_number: daw_json_skip.h:219-310.  allow_leading_zero_plus is the
    constant true (daw_json_parse_policy.h:134), so only the minus branch of the
    start exists. *)
Definition skip_number (checked : bool) (buf : list N) (p : ps) : res (ps * ps) :=
  _ <- (if checked then ensure (has_more p) UnexpectedEndOfData else Ok tt) ;;
  c <- front buf p ;;
  let i := if c =? c_minus then S (first p) else first p in
  i <- skip_digits_if checked buf i (last p) ;;
  '(decimal, i) <- skip_fraction checked buf i (last p) ;;
  '(exp, i) <- skip_exponent checked buf i (last p) ;;
  Ok (set_class (set_last p i) decimal exp, set_first p i).

(** ** Brackets *)

(** [true] is an object, [false] an array *)
Definition left_of (obj : bool) : N := if obj then c_lbrace else c_lbrack.
Definition right_of (obj : bool) : N := if obj then c_rbrace else c_rbrack.

(** mem_skip_until_end_of_string, selected by ParseState::exec_tag *)
Definition skip_str (checked : bool) (ex : exec_mode) (buf : list N) (i last : nat) : res nat :=
  match ex with
  | ExConstexpr => cx_skip checked buf i last
  | ExRuntime => rt_skip checked buf i last
  | ExSimd => if checked then ('(j, _) <- simd_skip_escape buf i last 0 ;; Ok j)
              else rt_skip checked buf i last
  end.

(** State of the bracket scan: position, separators seen, and the two 32-bit
    bracket counters. *)
Record bs := mkbs { b_i : nat; b_cnt : N; b_prime : N; b_second : N }.
Definition at_i (s : bs) (i : nat) : bs := mkbs i (b_cnt s) (b_prime s) (b_second s).

Definition w32 (x : N) : N := x mod 2^32.

(** Comment handling inside the bracket scan.  Returns the position from which
    the closing [++ptr_first] continues, or the position itself ([inr]) for
    [continue].
    C++, checked: daw_json_parse_policy_cpp_comments.h:200-224 *)
Definition br_cpp_checked (buf : list N) (i last : nat) : res nat :=
  let i := S i in
  _ <- ensure (i <? last)%nat UnexpectedEndOfData ;;
  b <- rd buf i ;;
  if b =? c_slash then
    loop (fun i =>
      if (1 <? last - i)%nat then
        b <- rd buf i ;; Ok (if negb (b =? c_nl) then inl (S i) else inr i)
      else Ok (inr i)) (S (last - i)) (S i)
  else if b =? c_star then
    loop (fun i =>
      if (3 <=? last - i)%nat then
        b <- rd buf i ;;
        if negb (b =? c_star) then
          d <- rd buf (S i) ;; Ok (if negb (d =? c_slash) then inl (S i) else inr i)
        else Ok (inr i)
      else Ok (inr i)) (S (last - i)) (S i)
  else Ok (S i).

(** C++, unchecked: daw_json_parse_policy_cpp_comments.h:294-313 *)
Definition br_cpp_unchecked (buf : list N) (i : nat) : res nat :=
  let i := S i in
  b <- rd buf i ;;
  if b =? c_slash then memchr_unchecked c_nl buf (S i)
  else if b =? c_star then
    loop (fun i =>
      b <- rd buf i ;;
      if negb (b =? c_star) then
        d <- rd buf (S i) ;; Ok (if negb (d =? c_slash) then inl (S i) else inr i)
      else Ok (inr i)) (S (length buf - i)) (S i)
  else Ok (S i).

(** skip_bracketed_item_checked / _unchecked, one turn of the loop.
    No comments: daw_json_parse_policy_no_comments.h:143-278.
    C++ comments: daw_json_parse_policy_cpp_comments.h:145-318.
    Hash comments: daw_json_parse_policy_hash_comments.h:106-254. *)
Definition br_body (cp : cpol) (checked : bool) (ex : exec_mode) (obj : bool)
  (buf : list N) (last : nat) (s : bs) : res (bs + nat * N) :=
  let i := b_i s in
  if negb checked || (i <? last)%nat then
    c <- rd buf i ;;
    if c =? c_bslash then Ok (inl (at_i s (i + 2)))
    else if c =? c_quote then
      j <- skip_str checked ex buf (S i) last ;;
      _ <- (if checked then
              match cp with
              | CNone => ok <- (if (j <? last)%nat then b <- rd buf j ;; Ok (b =? c_quote) else Ok false) ;;
                         ensure ok UnexpectedEndOfData
              | _ => ensure (j <? last)%nat UnexpectedEndOfData
              end
            else Ok tt) ;;
      Ok (inl (at_i s (S j)))
    else if c =? c_comma then
      Ok (inl (mkbs (S i)
        (if (b_prime s =? 1) && (b_second s =? 0) then (b_cnt s + 1) mod 2^64 else b_cnt s)
        (b_prime s) (b_second s)))
    else if c =? left_of obj then
      Ok (inl (mkbs (S i) (b_cnt s) (w32 (b_prime s + 1)) (b_second s)))
    else if c =? right_of obj then
      let prime := w32 (b_prime s + 2^32 - 1) in
      if prime =? 0 then
        _ <- (if checked then ensure (b_second s =? 0) InvalidBracketing else Ok tt) ;;
        Ok (inr (S i, b_cnt s))
      else Ok (inl (mkbs (S i) (b_cnt s) prime (b_second s)))
    else if c =? left_of (negb obj) then
      Ok (inl (mkbs (S i) (b_cnt s) (b_prime s) (w32 (b_second s + 1))))
    else if c =? right_of (negb obj) then
      Ok (inl (mkbs (S i) (b_cnt s) (b_prime s) (w32 (b_second s + 2^32 - 1))))
    else
      match cp with
      | CNone => Ok (inl (at_i s (S i)))
      | CCpp =>
          if c =? c_slash then
            j <- (if checked then br_cpp_checked buf i last else br_cpp_unchecked buf i) ;;
            Ok (inl (at_i s (S j)))
          else Ok (inl (at_i s (S i)))
      | CHash =>
          if c =? c_hash then
            if checked then
              j <- memchr_checked c_nl buf (S i) last ;;
              Ok (inl (at_i s (if (j <? last)%nat then j else S j)))
            else j <- memchr_unchecked c_nl buf (S i) ;; Ok (inl (at_i s (S j)))
          else Ok (inl (at_i s (S i)))
      end
  else
    _ <- ensure ((b_prime s =? 0) && (b_second s =? 0)) InvalidBracketing ;;
    Ok (inr (i, b_cnt s)).

Definition skip_bracketed (cp : cpol) (checked : bool) (ex : exec_mode) (obj : bool)
  (buf : list N) (p : ps) : res (ps * ps) :=
  if checked && (last p <=? first p)%nat then Ok (p, p)
  else
    c <- front buf p ;;
    let i := if c =? left_of obj then S (first p) else first p in
    '(j, cnt) <- loop (br_body cp checked ex obj buf (last p)) (S (S (length buf))) (mkbs i 0 1 0) ;;
    Ok (set_counter (set_last p j) cnt, set_first p j).

(** skip_class / skip_array: daw_json_parse_policy.h:503-517 *)
Definition skip_class cp checked ex := skip_bracketed cp checked ex true.
Definition skip_array cp checked ex := skip_bracketed cp checked ex false.

(** skip_value: daw_json_skip.h:318-361.  [UB] at the end is DAW_UNREACHABLE. *)
Definition skip_value (cp : cpol) (checked : bool) (ex : exec_mode) (excl keep : bool)
  (buf : list N) (p : ps) : res (ps * ps) :=
  _ <- (if checked then ensure (has_more p) UnexpectedEndOfData else Ok tt) ;;
  let p := set_counter p 0 in
  c <- front buf p ;;
  if c =? c_quote then skip_string checked ex excl keep buf p
  else if c =? c_lbrack then skip_array cp checked ex buf p
  else if c =? c_lbrace then skip_class cp checked ex buf p
  else if c =? c_t then skip_true cp checked buf p
  else if c =? c_f then skip_false cp checked buf p
  else if c =? c_n then skip_null cp checked buf p
  else if (c =? c_minus) || ((48 <=? c) && (c <=? 57)) then skip_number checked buf p
  else if checked then Err InvalidStartOfValue
  else if c =? 0 then Err InvalidStartOfValue else UB.

(** skip_literal: daw_json_skip.h:403-438 *)
Definition skip_literal (cp : cpol) (checked : bool) (buf : list N) (p : ps) : res (ps * ps) :=
  _ <- (if checked then ensure (has_more p) UnexpectedEndOfData else Ok tt) ;;
  let p := set_counter p 0 in
  c <- front buf p ;;
  if c =? c_t then skip_true cp checked buf p
  else if c =? c_f then skip_false cp checked buf p
  else if c =? c_n then skip_null cp checked buf p
  else if (c =? c_minus) || ((48 <=? c) && (c <=? 57)) then skip_number checked buf p
  else if checked then Err InvalidStartOfValue
  else if c =? 0 then Err InvalidStartOfValue else UB.
