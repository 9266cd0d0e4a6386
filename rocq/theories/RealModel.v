(** Model of parse_real (daw_json_parse_real.h) up to the final scaling step, and
    of parse_value_real.

    Result is double or float: the significand is a [std::uint64_t], the exponent
    a [std::int64_t].  [kd] is [max_exponent::value], numeric_limits<Result>::
    max_digits10 + 1: 18 for double and 10 for float.  [precise] is
    ParseState::precise_ieee754.  Modelled configuration: checked input, not
    zero-terminated. *)
From Coq Require Import String.
From Coq Require Import List NArith ZArith Bool Arith.
From Verif Require Import Base PolicyModel IntModel Loop StrScanModel SkipModel.
Import ListNotations.
Local Open Scope N_scope.

(** What is handed to [sign * power10( significand, exponent )], and whether
    parse_with_strtod is used in its place *)
Record real := mkreal { r_sign : Z; r_sig : N; r_exp : Z; r_strtod : bool }.

(** max_storage_digits: numeric_limits<std::uint64_t>::digits10 *)
Definition storage_digits : nat := 19.

(** [value *= 10U; value += dig;] in std::uint64_t *)
Definition push_digit (acc dig : N) : N := ((acc * 10) mod 2^64 + dig) mod 2^64.

(** parse_digits_until_last, checked: daw_json_parse_real.h:34-56.  [n] is
    [last - first] *)
Fixpoint digits_until_last (n : nat) (buf : list N) (i : nat) (acc : N) : res N :=
  match n with
  | O => Ok acc
  | S n => b <- rd buf i ;; digits_until_last n buf (S i) (push_digit acc (parse_digit b))
  end.

(** parse_digits_while_number, checked: daw_json_parse_real.h:58-91.  [n] is
    [last - first] *)
Fixpoint digits_while_number (n : nat) (buf : list N) (i : nat) (acc : N) : res (nat * N) :=
  match n with
  | O => Ok (i, acc)
  | S n =>
      b <- rd buf i ;;
      if parse_digit b <? 10 then digits_while_number n buf (S i) (push_digit acc (parse_digit b))
      else Ok (i, acc)
  end.

(** The digits of the exponent in parse_real_known: daw_json_parse_real.h:234-250 *)
Definition known_exponent_digits (buf : list N) (i last : nat) : res N :=
  '(_, v) <- digits_while_number (last - i) buf i 0 ;; Ok v.

Definition in_int64 (z : Z) : bool := ((- 2^63 <=? z) && (z <? 2^63))%Z.

(** The tests for the fallback: daw_json_parse_real.h:254-271, :460-474 *)
Definition fall_back (precise strtod : bool) (e : Z) (sig : N) : bool :=
  precise && (strtod || (22 <? e)%Z || (e <? -22)%Z || (9007199254740992 <? sig)).

(** [exp_sign] and [exponent += ...]: daw_json_parse_real.h:205-253.  The addition
    is one of std::int64_t: it is undefined when it overflows. *)
Definition known_exponent (buf : list N) (i last : nat) (e : Z) : res Z :=
  if (i <? last)%nat then
    c <- rd buf i ;;
    '(sgn, i) <-
       (if c =? c_minus then _ <- ensure (S i <? last)%nat InvalidNumber ;; Ok ((-1)%Z, S i)
        else if c =? c_plus then _ <- ensure (i <? last)%nat InvalidNumber ;; Ok (1%Z, S i)
        else Ok (1%Z, i)) ;;
    u <- known_exponent_digits buf i last ;;
    x <- to_signed 64 u sgn ;;
    if in_int64 (e + x) then Ok (e + x)%Z else UB
  else Ok e.

(** parse_real_known: daw_json_parse_real.h:119-276.  [class_first] is the
    position of the point, [class_last] that of the letter of the exponent, both
    as left by skip_number. *)
Definition parse_real_known (kd : nat) (precise : bool) (buf : list N) (p : ps) : res real :=
  _ <- ensure (has_more p) InvalidNumberStart ;;
  c <- front buf p ;;
  _ <- ensure (is_number_start c) InvalidNumberStart ;;
  let whole_last := match cfirst p, clast p with
                    | Some d, _ => d
                    | None, Some e => e
                    | None, None => last p
                    end in
  let fract := match cfirst p with
               | Some d => Some (S d, match clast p with Some e => e | None => last p end)
               | None => None
               end in
  let fract_len := match fract with Some (a, b) => (b - a)%nat | None => O end in
  let strtod := (storage_digits <? (whole_last - first p) + fract_len)%nat in
  let '(sign, whole_first) := if c =? c_minus then ((-1)%Z, S (first p)) else (1%Z, first p) in
  let whole_len := (whole_last - whole_first)%nat in
  let '(whole_take, fract_take, e, strtod) :=
    if (kd <? whole_len)%nat then (kd, O, Z.of_nat (whole_len - kd), strtod)
    else
      let room := (kd - whole_len)%nat in
      let take := Nat.min room fract_len in
      (whole_len, take, (- Z.of_nat take)%Z, strtod || (room <? fract_len)%nat) in
  sig <- digits_until_last whole_take buf whole_first 0 ;;
  sig <- (match fract with
          | Some (a, _) => digits_until_last fract_take buf a sig
          | None => Ok sig
          end) ;;
  e <- (match clast p with
        | Some x => known_exponent buf (S x) (last p) e
        | None => Ok e
        end) ;;
  Ok (mkreal sign sig e (fall_back precise strtod e sig)).

(** exponent_p2: daw_json_parse_real.h:386-426 *)
Definition unknown_exponent (buf : list N) (i last : nat) : res (Z * nat) :=
  b <- (if (i <? last)%nat then rd buf i else Ok 0) ;;
  if (i <? last)%nat && (N.lor b 32 =? c_e) then
    let i := S i in
    _ <- ensure (i <? last)%nat UnexpectedEndOfData ;;
    c <- rd buf i ;;
    '(sgn, i) <-
       (if (c =? c_plus) || (c =? c_minus) then
          let i := S i in
          ok <- (if (i <? last)%nat then d <- rd buf i ;; Ok (parse_digit d <? 10) else Ok false) ;;
          _ <- ensure ok InvalidNumber ;;
          Ok (if c =? c_plus then 1%Z else (-1)%Z, i)
        else
          _ <- ensure (is_number c) InvalidNumber ;;
          Ok (1%Z, i)) ;;
    _ <- ensure (i <? last)%nat UnexpectedEndOfData ;;
    '(i, u) <- digits_while_number (last - i) buf i 0 ;;
    x <- to_signed 64 u sgn ;;
    Ok (x, i)
  else Ok (0%Z, i).

(** exponent: daw_json_parse_real.h:427-457 *)
Definition saturating_sum (p1 p2 : Z) : Z :=
  if negb (Bool.eqb (p1 <? 0)%Z (p2 <? 0)%Z) then (p1 + p2)%Z
  else if (p1 <? 0)%Z then if (p2 <? - 2^63 - p1)%Z then (- 2^63)%Z else (p1 + p2)%Z
  else if (2^63 - 1 <? p1 + p2)%Z then (2^63 - 1)%Z else (p1 + p2)%Z.

(** The fraction: daw_json_parse_real.h:346-384.  [start] is parse_state.first,
    [fract_last] may lie before [first] there, which reads nothing, as a
    difference of zero does here. *)
Definition unknown_fraction (kd : nat) (buf : list N) (start i last : nat) (sig : N) (e1 : Z)
  : res (N * Z * nat * bool) :=
  dot <- (if (i <? last)%nat then b <- rd buf i ;; Ok (b =? c_dot) else Ok false) ;;
  if dot : bool then
    let i := S i in
    if negb (e1 =? 0)%Z then
      i <- skip_digits_if true buf i last ;; Ok (sig, e1, i, false)
    else
      let n := Nat.min (last - i) (kd - (i - start)) in
      '(j, sig) <- digits_while_number n buf i sig ;;
      let e1 := (e1 - Z.of_nat (j - i))%Z in
      if (i + n <=? j)%nat && (j <? last)%nat then
        k <- skip_digits true buf j last ;; Ok (sig, e1, k, (j <? k)%nat)
      else Ok (sig, e1, j, false)
  else Ok (sig, e1, i, false).

(** parse_real_unknown: daw_json_parse_real.h:278-478 *)
Definition parse_real_unknown (kd : nat) (precise : bool) (buf : list N) (p : ps) : res (real * ps) :=
  _ <- ensure (has_more p) InvalidNumberStart ;;
  c <- front buf p ;;
  _ <- ensure (is_number_start c) InvalidNumberStart ;;
  '(sign, p) <- validate_signed_first buf p ;;
  let n := Nat.min (last p - first p) kd in
  '(i, sig) <- digits_while_number n buf (first p) 0 ;;
  let strtod := (storage_digits <? i - first p)%nat in
  '(i, e1, strtod) <-
     (if (first p + n <=? i)%nat then
        j <- skip_digits true buf i (last p) ;;
        Ok (j, if sig =? 0 then 0%Z else Z.of_nat (j - i), true)
      else Ok (i, 0%Z, strtod)) ;;
  '(sig, e1, i, more) <- unknown_fraction kd buf (first p) i (last p) sig e1 ;;
  '(e2, i) <- unknown_exponent buf i (last p) ;;
  let e := saturating_sum e1 e2 in
  Ok (mkreal sign sig e (fall_back precise (strtod || more) e sig), set_first p i).

(** parse_value_real, literal_as_string Never: daw_json_parse_value.h:74-175 *)
Definition parse_value_real (known : bool) (kd : nat) (precise : bool) (buf : list N) (p : ps) : res (real * ps) :=
  if known then r <- parse_real_known kd precise buf p ;; Ok (r, p)
  else
    _ <- ensure (has_more p) InvalidNumberStart ;;
    c <- front buf p ;;
    _ <- ensure (is_number_start c) InvalidNumberStart ;;
    '(r, p) <- parse_real_unknown kd precise buf p ;;
    e <- end_of_item_ok buf p ;;
    _ <- ensure e InvalidEndOfValue ;;
    Ok (r, p).
