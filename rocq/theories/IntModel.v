(** Model of the integer parsers.

    [daw::UInt64] arithmetic wraps modulo 2^64.  [daw::to_uint64_buffer] (from
    daw header_libraries, not in /repo) reads eight bytes little-endian. *)
From Coq Require Import List NArith ZArith Bool Arith.
From Verif Require Import Base PolicyModel.
Import ListNotations.

Definition u64 (x : N) : N := (x mod 2^64)%N.

(** Little-endian load of eight bytes (to_uint64_buffer, and the loop of
    daw_json_parse_unsigned_int.h:73-76). *)
Definition le64 (b0 b1 b2 b3 b4 b5 b6 b7 : N) : N :=
  (b0 + 2^8 * (b1 + 2^8 * (b2 + 2^8 * (b3 + 2^8 * (b4 + 2^8 * (b5
   + 2^8 * (b6 + 2^8 * b7)))))))%N.

Definition rd64 (buf : list N) (i : nat) : res N :=
  b0 <- rd buf i ;; b1 <- rd buf (i + 1) ;; b2 <- rd buf (i + 2) ;;
  b3 <- rd buf (i + 3) ;; b4 <- rd buf (i + 4) ;; b5 <- rd buf (i + 5) ;;
  b6 <- rd buf (i + 6) ;; b7 <- rd buf (i + 7) ;;
  Ok (le64 b0 b1 b2 b3 b4 b5 b6 b7).

(** is_made_of_eight_digits_cx: daw_json_parse_unsigned_int.h:62-81 *)
Definition eight_digits_word (val : N) : bool :=
  (N.lor (N.land val 0xF0F0F0F0F0F0F0F0)
         (N.shiftr (N.land (u64 (val + 0x0606060606060606))
                           0xF0F0F0F0F0F0F0F0) 4)
   =? 0x3333333333333333)%N.

Definition is_made_of_eight_digits (buf : list N) (i : nat) : res bool :=
  v <- rd64 buf i ;; Ok (eight_digits_word v).

(** parse_8_digits: daw_json_parse_unsigned_int.h:93-117 *)
Definition parse_8_word (chunk : N) : N :=
  let lower_digits := N.shiftr (N.land chunk 0x0F000F000F000F00) 8 in
  let upper_digits := u64 (N.land chunk 0x000F000F000F000F * 10) in
  let chunk2 := u64 (lower_digits + upper_digits) in
  let lower_digits2 := N.shiftr (N.land chunk2 0x00FF000000FF0000) 16 in
  let upper_digits2 := u64 (N.land chunk2 0x000000FF000000FF * 100) in
  let chunk3 := u64 (lower_digits2 + upper_digits2) in
  let lower_digits3 := N.shiftr (N.land chunk3 0x0000FFFF00000000) 32 in
  let upper_digits3 := u64 (N.land chunk3 0x000000000000FFFF * 10000) in
  let chunk4 := u64 (lower_digits3 + upper_digits3) in
  N.land chunk4 0xFFFFFFFF.

Definition parse_8_digits (buf : list N) (i : nat) : res N :=
  v <- rd64 buf i ;; Ok (parse_8_word v).

(** parse_16_digits: daw_json_parse_unsigned_int.h:122-126 *)
Definition parse_16_digits (buf : list N) (i : nat) : res N :=
  upper <- parse_8_digits buf i ;;
  lower <- parse_8_digits buf (i + 8) ;;
  Ok (u64 (u64 (upper * 100000000) + lower)).

(** [result *= m; result += d;] *)
Definition accum (result m d : N) : N := u64 (u64 (result * m) + d).

(** unsigned_parser_known, 16-digit loop: daw_json_parse_unsigned_int.h:211-215 *)
Fixpoint known16 (fuel : nat) (buf : list N) (i last : nat) (acc : N)
  : res (nat * N) :=
  match fuel with
  | O => Fuel
  | S f =>
      if 16 <=? last - i then
        v <- parse_16_digits buf i ;;
        known16 f buf (i + 16) last (accum acc 10000000000000000 v)
      else Ok (i, acc)
  end.

(** unsigned_parser_known, byte loop: daw_json_parse_unsigned_int.h:230-234 *)
Fixpoint known1 (fuel : nat) (buf : list N) (i last : nat) (acc : N)
  : res (nat * N) :=
  match fuel with
  | O => Fuel
  | S f =>
      if i <? last then
        b <- rd buf i ;;
        known1 f buf (S i) last (accum acc 10 (parse_digit b))
      else Ok (i, acc)
  end.

(** Maximum of an unsigned type of [w] bits. *)
Definition umax (w : N) : N := (2^w - 1)%N.

(** narrow_cast<Unsigned>( UInt64 ): daw_json_parse_unsigned_int.h:176-184.
    [w] is the number of value bits of the target (8, 16, 32 or 64). *)
Definition narrow_cast_u (w : N) (value : N) : res N :=
  if (64 <=? w)%N then Ok value
  else if (value <=? umax w)%N then Ok value else Err NumberOutOfRange.

(** [static_cast<Unsigned>( result )] *)
Definition cast_u (w : N) (value : N) : N := (value mod 2^w)%N.

(** unsigned_parser_known: daw_json_parse_unsigned_int.h:191-252.
    [rc]: RangeChecked != Never.  In the range check, result_t is UInt64, so
    [result <= max] always holds; [count] is unsigned, so [count >= 0] always
    holds: the check on lines 236-244 never fails. *)
Definition unsigned_parser_known (w : N) (rc : bool) (buf : list N) (p : ps)
  : res (N * ps) :=
  let l := last p in
  '(i, acc) <- known16 (S (l - first p)) buf (first p) l 0%N ;;
  '(i, acc) <-
     (if 8 <=? l - i then
        v <- parse_8_digits buf i ;; Ok (i + 8, accum acc 100000000 v)
      else Ok (i, acc)) ;;
  '(i, acc) <- known1 (S (l - i)) buf i l acc ;;
  let p' := set_first p i in
  if rc then
    let count := ((20 + 2^64 - N.of_nat (ps_size p)) mod 2^64)%N in
    _ <- ensure ((acc <=? umax 64) && (0 <=? count))%N NumberOutOfRange ;;
    v <- narrow_cast_u w acc ;;
    Ok (v, p')
  else Ok (cast_u w acc, p').

(** [last - first >= 8 ? is_made_of_eight_digits_cx( first ) : false] *)
Definition has_eight_at (buf : list N) (i last : nat) : res bool :=
  if 8 <=? last - i then is_made_of_eight_digits buf i else Ok false.

(** unsigned_parser_not_known, 16-digit loop:
    daw_json_parse_unsigned_int.h:281-291.  Returns also [has_eight]. *)
Fixpoint not_known16 (fuel : nat) (buf : list N) (i last : nat) (acc : N)
  : res (nat * N * bool) :=
  match fuel with
  | O => Fuel
  | S f =>
      v <- parse_16_digits buf i ;;
      let acc := accum acc 10000000000000000 v in
      let i := i + 16 in
      has_eight <- has_eight_at buf i last ;;
      has_sixteen <-
        (if has_eight then
           if 16 <=? last - i then is_made_of_eight_digits buf (i + 8) else Ok false
         else Ok false) ;;
      if has_sixteen then not_known16 f buf i last acc
      else Ok (i, acc, has_eight)
  end.

(** unsigned_parser_not_known, byte loop: daw_json_parse_unsigned_int.h:307-315 *)
Fixpoint not_known1 (fuel : nat) (buf : list N) (i last : nat) (acc : N)
  : res (nat * N) :=
  match fuel with
  | O => Fuel
  | S f =>
      if i <? last then
        b <- rd buf i ;;
        if (10 <=? parse_digit b)%N then Ok (i, acc)
        else not_known1 f buf (S i) last (accum acc 10 (parse_digit b))
      else Ok (i, acc)
  end.

(** unsigned_parser_not_known: daw_json_parse_unsigned_int.h:255-334 *)
Definition unsigned_parser_not_known (w : N) (rc : bool) (buf : list N) (p : ps)
  : res (N * ps) :=
  _ <- ensure (has_more p) UnexpectedEndOfData ;;
  let l := last p in
  let i0 := first p in
  has_eight <- has_eight_at buf i0 l ;;
  '(i, acc, has_eight) <-
     (if has_eight && (16 <=? l - i0) then
        has_sixteen <- is_made_of_eight_digits buf (i0 + 8) ;;
        if has_sixteen then not_known16 (S (l - i0)) buf i0 l 0%N
        else Ok (i0, 0%N, has_eight)
      else Ok (i0, 0%N, has_eight)) ;;
  '(i, acc) <-
     (if has_eight then
        v <- parse_8_digits buf i ;; Ok (i + 8, accum acc 100000000 v)
      else Ok (i, acc)) ;;
  '(i, acc) <- not_known1 (S (l - i)) buf i l acc ;;
  let p' := set_first p i in
  if rc then
    _ <- ensure (i - i0 <=? 20) NumberOutOfRange ;;
    v <- narrow_cast_u w acc ;;
    Ok (v, p')
  else Ok (cast_u w acc, p').

(** unsigned_parser: daw_json_parse_unsigned_int.h:450-462 *)
Definition unsigned_parser (known : bool) (w : N) (rc : bool) (buf : list N) (p : ps)
  : res (N * ps) :=
  if known then unsigned_parser_known w rc buf p
  else unsigned_parser_not_known w rc buf p.

(** [static_cast<Signed>( u )]: two's complement (C++20, and every compiler
    before). *)
Definition cast_s (w : N) (u : Z) : Z :=
  let m := (u mod 2 ^ Z.of_N w)%Z in
  if (m <? 2 ^ (Z.of_N w - 1))%Z then m else (m - 2 ^ Z.of_N w)%Z.

(** to_signed: daw_json_parse_unsigned_int.h:42-60.
    - w = 64: special case for 2^63, then a product in the 64-bit type;
    - w = 32: product in [int], overflow of [-1 * INT_MIN] is undefined;
    - w < 32: product in [int] after promotion, then converted back. *)
Definition to_signed (w : N) (u : N) (sign : Z) : res Z :=
  let s := cast_s w (Z.of_N u) in
  if (64 <=? w)%N then
    if (u =? 2^63)%N then Ok s
    else
      let r := (sign * s)%Z in
      if ((- 2^63 <=? r) && (r <? 2^63))%Z then Ok r else UB
  else if (w =? 32)%N then
    let r := (sign * s)%Z in
    if ((- 2^31 <=? r) && (r <? 2^31))%Z then Ok r else UB
  else Ok (cast_s w (sign * s)).

(** skip_quote_when_literal_as_string: daw_json_parse_value.h:54-72 *)
Inductive literal_as_string := LSNever | LSMaybe | LSAlways.

Definition skip_quote_when_literal_as_string (o : literal_as_string)
  (buf : list N) (p : ps) : res ps :=
  match o with
  | LSNever => Ok p
  | LSAlways =>
      q <- is_at buf p c_quote ;;
      _ <- ensure q InvalidNumberUnexpectedQuoting ;;
      Ok (remove_prefix p 1)
  | LSMaybe =>
      _ <- ensure (has_more p) UnexpectedEndOfData ;;
      b <- front buf p ;;
      if (b =? c_quote)%N then Ok (remove_prefix p 1) else Ok p
  end.

(** [not has_more or at_end_of_item( front )] *)
Definition end_of_item_ok (buf : list N) (p : ps) : res bool :=
  if has_more p then (b <- front buf p ;; Ok (at_end_of_item b)) else Ok true.

(** parse_value_signed: daw_json_parse_value.h:177-233 (checked mode) *)
Definition parse_value_signed (known : bool) (o : literal_as_string) (w : N)
  (rc : bool) (buf : list N) (p : ps) : res (Z * ps) :=
  if known then
    b <- front buf p ;;
    _ <- ensure (is_number_start b) InvalidNumberStart ;;
    '(sign, p) <- validate_signed_first buf p ;;
    '(u, p) <- unsigned_parser true w rc buf p ;;
    v <- to_signed w u sign ;;
    Ok (v, p)
  else
    p <- (match o with
          | LSNever => _ <- ensure (has_more p) UnexpectedEndOfData ;; Ok p
          | _ => skip_quote_when_literal_as_string o buf p
          end) ;;
    '(sign, p) <- validate_signed_first buf p ;;
    '(u, p) <- unsigned_parser false w rc buf p ;;
    v <- to_signed w u sign ;;
    p <- skip_quote_when_literal_as_string o buf p ;;
    p <- trim_left_checked buf p ;;
    e <- end_of_item_ok buf p ;;
    _ <- ensure e InvalidEndOfValue ;;
    Ok (v, p).

(** parse_value_unsigned: daw_json_parse_value.h:235-291 (checked mode) *)
Definition parse_value_unsigned (known : bool) (o : literal_as_string) (w : N)
  (rc : bool) (buf : list N) (p : ps) : res (N * ps) :=
  if known then
    _ <- validate_unsigned_first buf p ;;
    unsigned_parser true w rc buf p
  else
    p <- skip_quote_when_literal_as_string o buf p ;;
    _ <- ensure (has_more p) UnexpectedEndOfData ;;
    b <- front buf p ;;
    _ <- ensure (is_number b) InvalidNumber ;;
    '(v, p) <- unsigned_parser false w rc buf p ;;
    p <- (match o with
          | LSNever => Ok p
          | _ =>
              p <- skip_quote_when_literal_as_string o buf p ;;
              _ <- ensure (has_more p) UnexpectedEndOfData ;;
              Ok p
          end) ;;
    e <- end_of_item_ok buf p ;;
    _ <- ensure e InvalidEndOfValue ;;
    Ok (v, p).
