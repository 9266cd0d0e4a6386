(** Calendar conversion and ISO 8601 timestamps.

    Time points have millisecond resolution, the default of [json_date]
    (../daw_json_link_types.h:737-747); a time point is the number of
    milliseconds since 1970-01-01 as a [Z].  Signed 32-bit overflow is [UB]. *)
From Coq Require Import List NArith ZArith Bool Arith.
From Verif Require Import Base PolicyModel IntModel IntSerModel.
Import ListNotations.
Local Open Scope Z_scope.

(** a result of [std::int32_t] arithmetic *)
Definition i32 (x : Z) : res Z :=
  if (- 2 ^ 31 <=? x) && (x <? 2 ^ 31) then Ok x else UB.
(** conversion to [std::int32_t], [std::uint32_t], [std::uint64_t] *)
Definition to_i32 (x : Z) : Z := (x + 2 ^ 31) mod 2 ^ 32 - 2 ^ 31.
Definition to_u32 (x : Z) : Z := x mod 2 ^ 32.
Definition to_u64 (x : Z) : Z := x mod 2 ^ 64.

(** The day count inside [civil_to_time_point]
    (impl/daw_json_parse_iso8601_utils.h:105-119).  [m] and [d] are small, only
    the year can overflow. *)
Definition civil_to_days (y m d : Z) : res Z :=
  y <- i32 (y - (if m <=? 2 then 1 else 0)) ;;
  yy <- (if 0 <=? y then Ok y else i32 (y - 399)) ;;
  let era := Z.quot yy 400 in
  let yoe := to_u32 (y - era * 400) in
  let doy := to_u32 (Z.quot (153 * (m + (if 2 <? m then -3 else 9)) + 2) 5 + d - 1) in
  let doe := to_u32 (yoe * 365 + yoe / 4 - yoe / 100 + doy) in
  Ok (era * 146097 + doe - 719468).

(** [civil_to_time_point] (impl/daw_json_parse_iso8601_utils.h:93-164): the
    hour, minute and second are unsigned 32-bit numbers, the fraction is
    rounded down to milliseconds. *)
Definition civil_to_time_point (y m d h mn s ns : Z) : res Z :=
  days <- civil_to_days y m d ;;
  Ok ((((to_i32 days * 24 + to_u32 h) * 60 + to_u32 mn) * 60 + to_u32 s) * 1000
      + ns / 1000000).

(** [struct ymdhms] (impl/daw_json_parse_iso8601_utils.h:302-310) *)
Record ymdhms := mkc {
  c_year : Z; c_month : Z; c_day : Z; c_hour : Z; c_minute : Z; c_second : Z; c_nano : Z
}.

(** The date part of [time_point_to_civil]
    (impl/daw_json_parse_iso8601_utils.h:320-335, 349). *)
Definition days_to_civil (z : Z) : res (Z * Z * Z) :=
  z <- i32 (z + 719468) ;;
  zz <- (if 0 <=? z then Ok z else i32 (z - 146096)) ;;
  let era := Z.quot zz 146097 in
  let doe := to_u32 (z - era * 146097) in
  let yoe := (doe - doe / 1460 + doe / 36524 - doe / 146096) / 365 in
  y <- i32 (yoe + era * 400) ;;
  let doy := to_u32 (doe - (365 * yoe + yoe / 4 - yoe / 100)) in
  let mp := (5 * doy + 2) / 153 in
  let d := to_u32 (doy - (153 * mp + 2) / 5 + 1) in
  let m := to_u32 (mp + (if mp <? 10 then 3 else -9)) in
  y <- i32 (y + (if m <=? 2 then 1 else 0)) ;;
  Ok (y, m, d).

(** [time_point_to_civil] (impl/daw_json_parse_iso8601_utils.h:312-356).
    [duration_cast] truncates toward zero; the parts are converted to unsigned. *)
Definition time_point_to_civil (tp : Z) : res ymdhms :=
  let days := to_i32 (Z.quot tp 86400000) in
  '(y, m, d) <- days_to_civil days ;;
  let r := tp - days * 86400000 in
  let hrs := Z.quot r 3600000 in
  let r := r - hrs * 3600000 in
  let min := Z.quot r 60000 in
  let r := r - min * 60000 in
  let sec := Z.quot r 1000 in
  let r := r - sec * 1000 in
  Ok (mkc y m d (to_u32 hrs) (to_u32 min) (to_u32 sec) (to_u64 (r * 1000000))).

(** [short_day_of_week] (impl/daw_json_parse_iso8601_utils.h:391-416), the index
    into Sun..Sat.  [long] is 64 bits. *)
Definition day_of_week (tp : Z) : res Z :=
  let z := Z.quot tp 86400000 in
  let dow := if -4 <=? z then Z.rem (z + 4) 7 else Z.rem (z + 5) 7 + 6 in
  if (0 <=? dow) && (dow <=? 6) then Ok dow else Err InvalidTimestamp.

(** ** Text *)

(** A [daw::string_view] into the document: offset and size. *)
Record sv := mksv { v_off : nat; v_len : nat }.

(** [string_view] operations (external, modelled from their documentation):
    [front]/[back] and removing from an empty view are [UB]; popping more than
    there is pops all. *)
Definition v_front (buf : list N) (v : sv) : res N :=
  if (v_len v =? 0)%nat then UB else rd buf (v_off v).
Definition v_back (buf : list N) (v : sv) : res N :=
  if (v_len v =? 0)%nat then UB else rd buf (v_off v + v_len v - 1).
Definition v_remove_prefix (v : sv) : res sv :=
  if (v_len v =? 0)%nat then UB else Ok (mksv (S (v_off v)) (v_len v - 1)).
Definition v_remove_suffix (v : sv) : res sv :=
  if (v_len v =? 0)%nat then UB else Ok (mksv (v_off v) (v_len v - 1)).
Definition v_pop_front (v : sv) (n : nat) : sv * sv :=
  let n := Nat.min n (v_len v) in
  (mksv (v_off v) n, mksv (v_off v + n) (v_len v - n)).
Definition v_pop_back (v : sv) (n : nat) : sv * sv :=
  let n := Nat.min n (v_len v) in
  (mksv (v_off v + v_len v - n) n, mksv (v_off v) (v_len v - n)).
Fixpoint v_find (f : N -> bool) (buf : list N) (off len : nat) : res nat :=
  match len with
  | O => Ok O
  | S l => b <- rd buf off ;;
           if f b then Ok O else n <- v_find f buf (S off) l ;; Ok (S n)
  end.
(** [pop_front_until]: the part before the delimiter is returned; [drop] tells
    whether the delimiter itself is removed too.  The overload for a string
    removes it.  So does the one for a predicate unless the tag [nodiscard] is
    given: [pop_json_path] (impl/daw_json_parse_name.h:84-102) relies on it and
    impl/daw_json_value.h:474 passes the tag to avoid it.  The library is not on
    disk, so the claims about timestamps are stated for both. *)
Definition v_pop_until (drop : bool) (f : N -> bool) (buf : list N) (v : sv) : res (sv * sv) :=
  n <- v_find f buf (v_off v) (v_len v) ;;
  let k := if drop && (n <? v_len v)%nat then S n else n in
  Ok (mksv (v_off v) n, mksv (v_off v + k) (v_len v - k)).

(** [parse_utils::is_number] (impl/daw_json_parse_iso8601_utils.h:59-61) *)
Definition is_num (b : N) : bool := (parse_digit b <? 10)%N.

(** [parse_utils::parse_unsigned<Result, count>]
    (impl/daw_json_parse_iso8601_utils.h:31-44): reads from a pointer, stops at
    the first byte that is no digit. *)
Fixpoint parse_unsigned_n (count : nat) (buf : list N) (off : nat) (acc : N) : res N :=
  match count with
  | O => Ok acc
  | S c => b <- rd buf off ;;
           if (10 <=? parse_digit b)%N then Ok acc
           else parse_unsigned_n c buf (S off) (acc * 10 + parse_digit b)%N
  end.
Definition two_digits (buf : list N) (v : sv) : res Z :=
  n <- parse_unsigned_n 2 buf (v_off v) 0 ;; Ok (Z.of_N n).

(** The digit loop of [parse_number]
    (impl/daw_json_parse_iso8601_utils.h:82-87); [chk] is the result type's
    arithmetic. *)
Fixpoint parse_number_loop (chk : Z -> res Z) (len : nat) (buf : list N) (off : nat) (acc : Z) : res Z :=
  match len with
  | O => Ok acc
  | S l => b <- rd buf off ;;
           _ <- ensure (parse_digit b <? 10)%N InvalidNumber ;;
           a <- chk (acc * 10) ;;
           a <- chk (a + Z.of_N (parse_digit b)) ;;
           parse_number_loop chk l buf (S off) a
  end.
(** [parse_number<Result>] (impl/daw_json_parse_iso8601_utils.h:67-89); for an
    unsigned result type a minus sign is skipped. *)
Definition parse_number (sgn : bool) (chk : Z -> res Z) (buf : list N) (v : sv) : res Z :=
  _ <- ensure (negb (v_len v =? 0)%nat) InvalidNumber ;;
  c <- v_front buf v ;;
  '(sign, v) <- (if (c =? c_minus)%N then
                   v <- v_remove_prefix v ;; Ok ((if sgn then -1 else 1), v)
                 else if (c =? c_plus)%N then v <- v_remove_prefix v ;; Ok (1, v)
                 else Ok (1, v)) ;;
  r <- parse_number_loop chk (v_len v) buf (v_off v) 0 ;;
  chk (r * sign).
(** [std::uint64_t] arithmetic wraps *)
Definition wrap64 (x : Z) : res Z := Ok (to_u64 x).

(** [parse_iso_8601_date] (impl/daw_json_parse_iso8601_utils.h:172-193) *)
Definition parse_iso_8601_date (buf : list N) (v : sv) : res (Z * Z * Z) :=
  let '(dv, v) := v_pop_back v 2 in
  day <- two_digits buf dv ;;
  _ <- ensure ((1 <=? day) && (day <=? 31)) InvalidTimestamp ;;
  b <- v_back buf v ;;
  v <- (if is_num b then Ok v else v_remove_suffix v) ;;
  let '(mv, v) := v_pop_back v 2 in
  month <- two_digits buf mv ;;
  _ <- ensure ((1 <=? month) && (month <=? 12)) InvalidTimestamp ;;
  b <- v_back buf v ;;
  v <- (if is_num b then Ok v else v_remove_suffix v) ;;
  year <- parse_number true i32 buf v ;;
  Ok (year, month, day).

(** [parse_iso_8601_time] (impl/daw_json_parse_iso8601_utils.h:202-239).  With
    more than nine fraction digits the exponent [9 - size] wraps around; what
    the external [pow10] does then is not modelled ([UB]). *)
Definition parse_iso_8601_time (buf : list N) (v : sv) : res (Z * Z * Z * Z) :=
  let '(hv, v) := v_pop_front v 2 in
  hour <- two_digits buf hv ;;
  _ <- ensure (hour <=? 24) InvalidTimestamp ;;
  b <- v_front buf v ;;
  v <- (if is_num b then Ok v else v_remove_prefix v) ;;
  let '(mv, v) := v_pop_front v 2 in
  minute <- two_digits buf mv ;;
  _ <- ensure (minute <=? 59) InvalidTimestamp ;;
  if (v_len v =? 0)%nat then Ok (hour, minute, 0, 0)
  else
    b <- v_front buf v ;;
    v <- (if is_num b then Ok v else v_remove_prefix v) ;;
    let '(snd, v) := v_pop_front v 2 in
    second <- two_digits buf snd ;;
    _ <- ensure (second <=? 60) InvalidTimestamp ;;
    if (v_len v =? 0)%nat then Ok (hour, minute, second, 0)
    else
      b <- v_front buf v ;;
      v <- (if is_num b then Ok v else v_remove_prefix v) ;;
      ns <- parse_number false wrap64 buf (mksv (v_off v) (Nat.min (v_len v) 9)) ;;
      if (v_len v <=? 9)%nat
      then Ok (hour, minute, second, to_u64 (ns * 10 ^ Z.of_nat (9 - v_len v)))
      else UB.

(** [parse_iso8601_timestamp] (impl/daw_json_parse_iso8601_utils.h:241-301).
    After the hours of the offset the view is not advanced, so the minutes are
    read from the same place. *)
Definition parse_iso8601_timestamp (drop : bool) (buf : list N) (ts : sv) : res Z :=
  '(date_str, ts) <- v_pop_until true (fun b => (b =? 84)%N) buf ts ;;
  if (v_len ts =? 0)%nat then Err InvalidTimestamp
  else
    '(y, m, d) <- parse_iso_8601_date buf date_str ;;
    '(time_str, ts) <- v_pop_until drop
       (fun b => negb (is_num b || (b =? c_colon)%N || (b =? c_dot)%N)) buf ts ;;
    '(h, mn, s, ns) <- parse_iso_8601_time buf time_str ;;
    utc <- (if (v_len ts =? 0)%nat then Ok true
            else b <- v_front buf ts ;; Ok (b =? 90)%N) ;;
    '(h, mn) <-
      (if utc : bool then Ok (h, mn)
       else
         _ <- ensure ((v_len ts =? 5)%nat || (v_len ts =? 6)%nat) InvalidTimestamp ;;
         b <- v_front buf ts ;;
         sign <- (if (b =? c_plus)%N then Ok true
                  else if (b =? c_minus)%N then Ok false
                  else Err InvalidTimestamp) ;;
         ts <- v_remove_prefix ts ;;
         ho <- two_digits buf ts ;;
         _ <- ensure (ho <=? 24) InvalidTimestamp ;;
         b <- v_front buf ts ;;
         ts <- (if (b =? c_colon)%N then v_remove_prefix ts else Ok ts) ;;
         mo <- two_digits buf ts ;;
         _ <- ensure (mo <=? 61) InvalidTimestamp ;;
         if sign : bool then Ok (to_u32 (h - ho), to_u32 (mn - mo))
         else Ok (to_u32 (h + ho), to_u32 (mn + mo))) ;;
    civil_to_time_point y m d h mn s ns.

(** ** Output *)

(** [utils::integer_to_string] (impl/to_daw_json_string.h:800-812), 32-bit
    unsigned field with its leading zero
    (impl/to_daw_json_string.h:877-880 and the like) *)
Definition out2 (x : Z) : res (list N) :=
  t <- to_json_string_unsigned LSNever 32 (Z.to_N x) ;;
  Ok (if x <? 10 then c_0 :: t else t).

(** dropping trailing zeros of the nanoseconds
    (impl/to_daw_json_string.h:902-904); 20 rounds cover every 64-bit value *)
Fixpoint strip_zeros (fuel : nat) (n : N) : res N :=
  match fuel with
  | O => Fuel
  | S f => if negb (n =? 0)%N && (n mod 10 =? 0)%N then strip_zeros f (n / 10)%N else Ok n
  end.

(** [to_json_string_date] (impl/to_daw_json_string.h:859-910), for a value that
    is not null *)
Definition to_json_string_date (tp : Z) : res (list N) :=
  c <- time_point_to_civil tp ;;
  y <- to_json_string_signed LSNever 32 (c_year c) ;;
  mo <- out2 (c_month c) ;;
  d <- out2 (c_day c) ;;
  h <- out2 (c_hour c) ;;
  mi <- out2 (c_minute c) ;;
  s <- out2 (c_second c) ;;
  frac <- (if 0 <? c_nano c then
             n <- strip_zeros 20 (Z.to_N (c_nano c)) ;;
             t <- to_json_string_unsigned LSNever 64 n ;; Ok (c_dot :: t)
           else Ok []) ;;
  Ok ([c_quote] ++ y ++ [c_minus] ++ mo ++ [c_minus] ++ d ++ [84%N] ++ h ++ [c_colon]
      ++ mi ++ [c_colon] ++ s ++ frac ++ [90%N; c_quote]).
