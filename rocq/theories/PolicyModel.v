(** Model of the whitespace and token helpers of the parse policy.

    Modelled configuration: not zero-terminated, not minified.  [char] is taken
    to be signed (x86 and AArch64-Apple ABIs), which matters in
    [at_end_of_item]. *)
From Coq Require Import List NArith ZArith Bool Arith.
From Verif Require Import Base.
Import ListNotations.

(** [static_cast<unsigned>(static_cast<unsigned char>(c)) - 1U <= 0x1FU],
    32-bit wrap-around: daw_json_parse_policy_no_comments.h:48-49, 56-57, 74-75
    and daw_json_parse_policy.h:402-406. *)
Definition is_space (b : N) : bool := ((b + 2^32 - 1) mod 2^32 <=? 31)%N.

(** NoCommentSkippingPolicy::trim_left_checked loop:
    daw_json_parse_policy_no_comments.h:54-59 *)
Fixpoint trim_loop (fuel : nat) (buf : list N) (i last : nat) : res nat :=
  match fuel with
  | O => Fuel
  | S f =>
      if i <? last then
        b <- rd buf i ;;
        if is_space b then trim_loop f buf (S i) last else Ok i
      else Ok i
  end.

Definition trim_left_checked (buf : list N) (p : ps) : res ps :=
  i <- trim_loop (S (last p - first p)) buf (first p) (last p) ;;
  Ok (set_first p i).

(** NoCommentSkippingPolicy::trim_left_unchecked:
    daw_json_parse_policy_no_comments.h:67-81.  The fuel covers every index of
    the document, the loop ends by reading a non-space or by [UB]. *)
Fixpoint trim_loop_unchecked (fuel : nat) (buf : list N) (i : nat) : res nat :=
  match fuel with
  | O => Fuel
  | S f =>
      b <- rd buf i ;;
      if is_space b then trim_loop_unchecked f buf (S i) else Ok i
  end.

Definition trim_left_unchecked (buf : list N) (p : ps) : res ps :=
  i <- trim_loop_unchecked (S (length buf)) buf (first p) ;;
  Ok (set_first p i).

(** trim_left: daw_json_parse_policy.h:424-430 *)
Definition trim_left (checked : bool) (buf : list N) (p : ps) : res ps :=
  if checked then trim_left_checked buf p else trim_left_unchecked buf p.

(** remove_prefix: daw_json_parse_policy.h:363-369 *)
Definition remove_prefix (p : ps) (n : nat) : ps := set_first p (first p + n).

(** move_next_member_or_end_checked: daw_json_parse_policy.h:440-454 *)
Definition move_next_member_or_end_checked (buf : list N) (p : ps) : res ps :=
  p <- trim_left_checked buf p ;;
  c <- is_at buf p c_comma ;;
  if c then trim_left_checked buf (remove_prefix p 1) else Ok p.

(** move_next_member_or_end_unchecked: daw_json_parse_policy.h:432-438 *)
Definition move_next_member_or_end_unchecked (buf : list N) (p : ps) : res ps :=
  p <- trim_left_unchecked buf p ;;
  b <- front buf p ;;
  if (b =? c_comma)%N then trim_left_unchecked buf (remove_prefix p 1) else Ok p.

Definition move_next_member_or_end (checked : bool) (buf : list N) (p : ps) : res ps :=
  if checked then move_next_member_or_end_checked buf p
  else move_next_member_or_end_unchecked buf p.

(** at_end_of_item: daw_json_parse_policy_policy_details.h:29-36.
    [c <= 0x20] on a signed char also holds for bytes 0x80..0xFF. *)
Definition at_end_of_item (b : N) : bool :=
  ((b =? c_comma) || (b =? c_rbrace) || (b =? c_rbrack) || (b =? c_colon)
   || (b <=? 32) || (128 <=? b))%N.

(** is_number: daw_json_parse_policy_policy_details.h:38-42.  The subtraction
    is done in [int], the conversion to unsigned wraps negative results. *)
Definition is_number (b : N) : bool := ((b + 2^32 - c_0) mod 2^32 <? 10)%N.

(** is_at_token_after_value: daw_json_parse_policy.h:485-487 *)
Definition is_token_after_value (b : N) : bool :=
  ((b =? c_comma) || (b =? c_rbrace) || (b =? c_rbrack))%N.

(** starts_with: daw_json_parse_policy.h:308-319.  All bytes are read. *)
Fixpoint eq_bytes (buf : list N) (i : nat) (t : list N) : res bool :=
  match t with
  | [] => Ok true
  | c :: t' =>
      b <- rd buf i ;;
      r <- eq_bytes buf (S i) t' ;;
      Ok ((b =? c)%N && r)
  end.

Definition starts_with (buf : list N) (p : ps) (t : list N) : res bool :=
  if ps_size p <? length t then Ok false else eq_bytes buf (first p) t.

(** parse_digit: daw_json_parse_digit.h:18-23 *)
Definition parse_digit (b : N) : N := ((b + 256 - c_0) mod 256)%N.

(** is_number_start: daw_json_parse_policy_policy_details.h:109-127 *)
Definition is_number_start (b : N) : bool :=
  ((c_0 <=? b) && (b <=? 57) || (b =? c_minus))%N.

(** validate_unsigned_first: daw_json_parse_policy_policy_details.h:44-69
    (checked mode) *)
Definition validate_unsigned_first (buf : list N) (p : ps) : res unit :=
  c <- front buf p ;;
  if ((49 <=? c) && (c <=? 57))%N then Ok tt
  else if (c =? c_0)%N then
    if 1 <? ps_size p then
      d <- rd buf (first p + 1) ;;
      ensure (is_number d) InvalidNumberStart
    else Ok tt
  else Err InvalidNumberStart.

(** validate_signed_first: daw_json_parse_policy_policy_details.h:76-107
    (checked mode).  Returns the sign and the advanced state. *)
Definition validate_signed_first (buf : list N) (p : ps) : res (Z * ps) :=
  _ <- ensure (has_more p) UnexpectedEndOfData ;;
  c <- front buf p ;;
  if (c =? c_minus)%N then Ok ((-1)%Z, remove_prefix p 1)
  else if ((49 <=? c) && (c <=? 57))%N then Ok (1%Z, p)
  else if (c =? c_0)%N then
    if 1 <? ps_size p then
      d <- rd buf (first p + 1) ;;
      _ <- ensure (10 <=? (d + 2^32 - c_0) mod 2^32)%N InvalidNumberStart ;;
      Ok (1%Z, p)
    else Ok (1%Z, p)
  else Err InvalidNumberStart.
