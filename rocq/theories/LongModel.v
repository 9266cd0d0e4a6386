(** What ExpectLongNames changes: searching for one byte is left to std::memchr, and
    for one of two to std::strpbrk (daw_json_string_util.h).  Names without
    AllowEscapedNames, for every comment policy, checked and unchecked; at run time.
    The hash of names is in HashModel. *)
From Coq Require Import List NArith Bool Arith.
From Verif Require Import Base PolicyModel Loop StrScanModel SkipModel ValueModel NameModel.
Import ListNotations.
Local Open Scope N_scope.

(** std::memchr( first, '\x22', last - first ): the first quote, or a null pointer. *)
Definition libc_quote (buf : list N) (i last : nat) : res (option nat) :=
  loop (fun i =>
    if (i <? last)%nat then
      b <- rd buf i ;;
      Ok (if b =? c_quote then inr (Some i) else inl (S i))
    else Ok (inr None)) (S (last - i)) i.

(** memchr_unchecked and memchr_checked with expect_long: daw_json_string_util.h:37-57,
    84-107.  The byte looked for is the quote, whatever [c] is.  Every caller adds to
    the pointer or reads from it before it compares it with anything but [last], so
    that a null pointer is undefined behaviour. *)
Definition memchr_long (c : N) (buf : list N) (i last : nat) : res nat :=
  r <- libc_quote buf i last ;; match r with Some j => Ok j | None => UB end.

(** CppCommentSkippingPolicy::skip_comments_checked:
    daw_json_parse_policy_cpp_comments.h:55-89, as in SkipModel *)
Definition block_comment_checked_long (buf : list N) (i last : nat) : res nat :=
  loop (fun i =>
    if (i <? last)%nat then
      j <- memchr_long c_star buf i last ;;
      let j := if (j <? last)%nat then S j else j in
      if (j <? last)%nat then
        b <- rd buf j ;;
        Ok (if b =? c_slash then inr (S j) else inl (S j))
      else Ok (inr j)
    else Ok (inr i)) (S (last - i)) i.
Definition cpp_comments_checked_long (buf : list N) (i last : nat) : res nat :=
  loop (fun i =>
    if (i <? last)%nat then
      b <- rd buf i ;;
      if b =? c_slash then
        d <- rd buf (S i) ;;
        if d =? c_slash then
          j <- memchr_long c_nl buf i last ;;
          Ok (inl (if (j <? last)%nat then S j else j))
        else if d =? c_star then
          j <- block_comment_checked_long buf (i + 2) last ;; Ok (inl j)
        else Ok (inr i)
      else Ok (inr i)
    else Ok (inr i)) (S (last - i)) i.

(** skip_comments_unchecked: daw_json_parse_policy_cpp_comments.h:28-53 *)
Definition block_comment_unchecked_long (buf : list N) (i last : nat) : res nat :=
  loop (fun i =>
    j <- memchr_long c_star buf i last ;;
    b <- rd buf (S j) ;;
    Ok (if b =? c_slash then inr (j + 2)%nat else inl (j + 2)%nat)) (S (length buf - i)) i.
Definition cpp_comments_unchecked_long (buf : list N) (i last : nat) : res nat :=
  loop (fun i =>
    b <- rd buf i ;;
    if b =? c_slash then
      d <- rd buf (S i) ;;
      if d =? c_slash then j <- memchr_long c_nl buf i last ;; Ok (inl (S j))
      else if d =? c_star then j <- block_comment_unchecked_long buf (i + 2) last ;; Ok (inl j)
      else Ok (inr i)
    else Ok (inr i)) (S (length buf - i)) i.

(** HashCommentSkippingPolicy: daw_json_parse_policy_hash_comments.h:29-49 *)
Definition hash_comments_checked_long (buf : list N) (i last : nat) : res nat :=
  loop (fun i =>
    if (i <? last)%nat then
      b <- rd buf i ;;
      if b =? c_hash then
        j <- memchr_long c_nl buf (S i) last ;;
        d <- rd buf j ;;
        Ok (inl (if d =? c_nl then S j else j))
      else Ok (inr i)
    else Ok (inr i)) (S (last - i)) i.
Definition hash_comments_unchecked_long (buf : list N) (i last : nat) : res nat :=
  loop (fun i =>
    b <- rd buf i ;;
    if b =? c_hash then j <- memchr_long c_nl buf (S i) last ;; Ok (inl (S j))
    else Ok (inr i)) (S (length buf - i)) i.

(** trim_left: daw_json_parse_policy.h:390-396, 424-430 *)
Definition trim_left_long (cp : cpol) (checked : bool) (buf : list N) (p : ps) : res ps :=
  match cp, checked with
  | CNone, _ => trim_left checked buf p
  | CCpp, true => i <- comment_trim_checked cpp_comments_checked_long buf (first p) (last p) ;; Ok (set_first p i)
  | CCpp, false => i <- comment_trim_unchecked (fun buf i => cpp_comments_unchecked_long buf i (last p)) buf (first p) ;; Ok (set_first p i)
  | CHash, true => i <- comment_trim_checked hash_comments_checked_long buf (first p) (last p) ;; Ok (set_first p i)
  | CHash, false => i <- comment_trim_unchecked (fun buf i => hash_comments_unchecked_long buf i (last p)) buf (first p) ;; Ok (set_first p i)
  end.

(** trim_end_of_name: daw_json_parse_name.h:33-41 *)
Definition trim_end_of_name_long (cp : cpol) (checked : bool) (buf : list N) (p : ps) : res ps :=
  p <- trim_left_long cp checked buf p ;;
  _ <- (if checked then
          _ <- ensure (has_more p) UnexpectedEndOfData ;;
          c <- front buf p ;;
          ensure (c =? c_colon) InvalidMemberName
        else Ok tt) ;;
  trim_left_long cp checked buf (remove_prefix p 1).

(** parse_nq: daw_json_parse_name.h:50-66 *)
Definition parse_nq_long (cp : cpol) (checked : bool) (buf : list N) (p : ps) : res (list N * ps) :=
  j <- memchr_long c_quote buf (first p) (last p) ;;
  let q := set_first p j in
  _ <- (if checked then
          ok <- is_at buf q c_quote ;;
          ok <- (if ok : bool then
                   match j with O => UB | S i => b <- rd buf i ;; Ok (negb (b =? c_bslash)) end
                 else Ok false) ;;
          ensure ok InvalidString
        else Ok tt) ;;
  let name := view buf (first p) j in
  q <- trim_end_of_name_long cp checked buf (remove_prefix q 1) ;;
  Ok (name, q).

(** parse_name: daw_json_parse_name.h:144-156 *)
Definition parse_name_long (cp : cpol) (checked : bool) (buf : list N) (p : ps) : res (list N * ps) :=
  _ <- (if checked then q <- is_at buf p c_quote ;; ensure q InvalidMemberName else Ok tt) ;;
  parse_nq_long cp checked buf (remove_prefix p 1).

(** move_to_next_of for the quote and the closing brace, runtime and simd mode:
    std::strpbrk, which ends at a zero byte with a null pointer
    (daw_json_parse_policy_no_comments.h:101-107, daw_json_string_util.h:123-151,
    197-209; with NDEBUG the pointer is not checked).  parse_class calls skip_class or
    front with it. *)
Definition move_to_next_class_member_long (buf : list N) (p : ps) : res ps :=
  i <- loop (fun i =>
    c <- rd buf i ;;
    if c =? 0 then UB else Ok (if (c =? c_quote) || (c =? c_rbrace) then inr i else inl (S i)))
    (S (length buf - first p)) (first p) ;;
  Ok (set_first p i).
