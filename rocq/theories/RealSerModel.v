(** Model of writing real numbers.

    The shortest decimal significand and exponent of a finite value are computed
    by the dragonbox algorithm; the model takes them as given ([sig], [exp] and the
    sign bit) and covers everything that happens to them afterwards.  [dbl] tells
    double (64-bit significand) from float (32-bit significand).  A char array is a
    list; writing or reading outside of it is [UB]. *)
From Coq Require Import String.
From Coq Require Import List NArith ZArith Bool Arith.
From Verif Require Import Base IntModel IntSerModel.
Import ListNotations.
Local Open Scope N_scope.

(** options::FPOutputFormat: impl/daw_json_type_options.h:97-104 *)
Inductive fp_format := FPAuto | FPScientific | FPDecimal.

(** options::JsonNumberErrors: impl/daw_json_type_options.h:72-81 *)
Inductive number_errors := NEnone | NEallowNaN | NEallowInf | NEallowNanInf.

(** The value to write *)
Inductive fp := FNaN | FInf (neg : bool) | FFin (neg : bool) (sig : N) (exp : Z).

(** decimal_length: third_party/dragonbox/dragonbox.h:69-140.  The asserted
    precondition (below 10^9 / 10^17) is a hypothesis of the theorems. *)
Fixpoint length_from (v : N) (thresholds : list (N * N)) : N :=
  match thresholds with
  | [] => 1
  | (t, n) :: r => if t <=? v then n else length_from v r
  end.
Definition decimal_length (dbl : bool) (v : N) : N :=
  let low := [(100000000, 9); (10000000, 8); (1000000, 7); (100000, 6); (10000, 5); (1000, 4); (100, 3); (10, 2)] in
  if dbl then
    length_from v ([(10000000000000000, 17); (1000000000000000, 16); (100000000000000, 15); (10000000000000, 14);
                    (1000000000000, 13); (100000000000, 12); (10000000000, 11); (1000000000, 10)] ++ low)
  else length_from v low.

(** radix_100_table[k]: dragonbox.h:40-67, the 100 numerals 00 to 99 *)
Definition radix_100_table (k : N) : res N :=
  if k <? 200 then Ok ((if N.even k then k / 2 / 10 else k / 2 mod 10) + c_0) else UB.

(** [buffer[pos] = c] *)
Definition wr (l : list N) (pos : Z) (c : N) : res (list N) :=
  if ((0 <=? pos) && (pos <? Z.of_nat (length l)))%Z then Ok (upd l (Z.to_nat pos) c) else UB.

(** [copy_n( radix_100_table + k, buffer + pos, 2 )] *)
Definition copy2 (k : N) (l : list N) (pos : Z) : res (list N) :=
  a <- radix_100_table k ;;
  b <- radix_100_table (k + 1) ;;
  l <- wr l pos a ;;
  wr l (pos + 1) b.

(** The cut of eight digits: dragonbox.h:163-190.  [olength - i] is [o]. *)
Definition cut8 (o : Z) (output : N) (l : list N) : res (list N * N) :=
  let q := output / 100000000 in
  let output2 := (output mod 2^32 + 2^32 - 100000000 * (q mod 2^32) mod 2^32) mod 2^32 in
  let c := output2 mod 10000 in
  let output2 := output2 / 10000 in
  let d := output2 mod 10000 in
  l <- copy2 (2 * (c mod 100)) l (o - 1) ;;
  l <- copy2 (2 * (c / 100)) l (o - 3) ;;
  l <- copy2 (2 * (d mod 100)) l (o - 5) ;;
  l <- copy2 (2 * (d / 100)) l (o - 7) ;;
  Ok (l, q).

(** The loop over four digits at a time: dragonbox.h:194-209 *)
Fixpoint loop4 (fuel : nat) (olength i : Z) (output2 : N) (l : list N) : res (list N * N * Z) :=
  match fuel with
  | O => Fuel
  | S fuel =>
      if 10000 <=? output2 then
        let c := output2 mod 10000 in
        l <- copy2 (2 * (c mod 100)) l (olength - i - 1) ;;
        l <- copy2 (2 * (c / 100)) l (olength - i - 3) ;;
        loop4 fuel olength (i + 4) (output2 / 10000) l
      else Ok (l, output2, i)
  end.

(** The digits of the significand: dragonbox.h:157-226 *)
Definition write_significand (dbl : bool) (output : N) (olength : Z) (l : list N) : res (list N) :=
  '(l, output, i) <-
    (if dbl && negb (output / 2^32 =? 0) then
       '(l, q) <- cut8 olength output l ;; Ok (l, q, 8%Z)
     else Ok (l, output, 0%Z)) ;;
  '(l, output2, i) <- loop4 4 olength i (output mod 2^32) l ;;
  '(l, output2, i) <-
    (if 100 <=? output2 then
       l <- copy2 (2 * (output2 mod 100)) l (olength - i - 1) ;; Ok (l, output2 / 100, (i + 2)%Z)
     else Ok (l, output2, i)) ;;
  if 10 <=? output2 then
    a <- radix_100_table (2 * output2 + 1) ;;
    l <- wr l (olength - i) a ;;
    b <- radix_100_table (2 * output2) ;;
    wr l 0 b
  else wr l 0 (c_0 + output2).

(** The exponent: dragonbox.h:236-276, [pos] where it starts; the result ends at
    the returned position. *)
Definition write_exponent (dbl : bool) (exp : Z) (l : list N) (pos : Z) : res (list N * Z) :=
  l <- wr l pos 101 ;;
  let pos := (pos + 1)%Z in
  '(l, pos, exp) <- (if (exp <? 0)%Z then l <- wr l pos c_minus ;; Ok (l, (pos + 1)%Z, (- exp)%Z) else Ok (l, pos, exp)) ;;
  let e := Z.to_N exp in
  if dbl && (100 <=? e) then
    l <- copy2 (2 * (e / 10)) l pos ;;
    l <- wr l (pos + 2) (c_0 + e mod 10) ;;
    Ok (l, (pos + 3)%Z)
  else if 10 <=? e then
    l <- copy2 (2 * e) l pos ;;
    Ok (l, (pos + 2)%Z)
  else
    l <- wr l pos (c_0 + e) ;;
    Ok (l, (pos + 1)%Z).

(** to_chars_impl into a char[50]: dragonbox.h:142-279, called with the digit count
    already known (never zero); the text copied out is the buffer up to the position
    returned (to_daw_json_string.h:1500-1506). *)
Definition to_chars_scientific (dbl : bool) (sig : N) (exp : Z) (digits : N) : res (list N) :=
  let olength := Z.of_N digits in
  l <- write_significand dbl sig olength (repeat 0 50) ;;
  '(l, pos) <- (if 1 <? digits then l <- wr l 1 c_dot ;; Ok (l, (olength + 1)%Z) else Ok (l, 1%Z)) ;;
  '(l, pos) <- write_exponent dbl (exp + olength - 1) l pos ;;
  Ok (firstn (Z.to_nat pos) l).

(** Number of decimal digits of [v], at most [fuel] *)
Fixpoint digit_count (fuel : nat) (v : N) : N :=
  match fuel with
  | O => 0
  | S fuel => if v =? 0 then 0 else 1 + digit_count fuel (v / 10)
  end.

(** daw::cxmath::count_digits is part of an external library; [cd0] is its result
    for zero. *)
Definition count_digits (cd0 : Z) (v : N) : Z :=
  if v =? 0 then cd0 else Z.of_N (digit_count 20 v).

(** Decimal output: to_daw_json_string.h:1518-1558.  pow10 is an external library
    function, ten to the given power; [extra_zeros] is a signed int. *)
Definition to_chars_decimal (cd0 : Z) (sig : N) (exp : Z) (whole_dig : Z) : res (list N) :=
  if (exp <? 0)%Z then
    if (whole_dig <? 0)%Z then
      t <- to_json_string_unsigned LSNever 64 sig ;;
      Ok ([c_0; c_dot] ++ repeat c_0 (Z.to_nat (- whole_dig)) ++ t)
    else
      let p1pow := 10 ^ Z.to_N (- exp) in
      let p1val := sig / p1pow in
      t1 <- to_json_string_unsigned LSNever 64 p1val ;;
      if p1pow =? 1 then Ok t1
      else
        let p2val := sig - p1val * p1pow in
        let extra_zeros := (count_digits cd0 sig - (count_digits cd0 p2val + count_digits cd0 p1val))%Z in
        t2 <- to_json_string_unsigned LSNever 64 p2val ;;
        Ok (t1 ++ [c_dot] ++ repeat c_0 (Z.to_nat extra_zeros) ++ t2)
  else
    t <- to_json_string_unsigned LSNever 64 sig ;;
    Ok (t ++ repeat c_0 (Z.to_nat exp)).

(** to_chars: to_daw_json_string.h:1472-1559 *)
Definition to_chars (cd0 : Z) (dbl : bool) (fmt : fp_format) (neg : bool) (sig : N) (exp : Z) : res (list N) :=
  let digits := decimal_length dbl sig in
  let whole_dig := (Z.of_N digits + exp)%Z in
  if sig =? 0 then Ok [c_0]
  else
    body <-
      match fmt with
      | FPScientific => to_chars_scientific dbl sig exp digits
      | FPAuto =>
          if ((whole_dig <? -4) || (6 <? whole_dig))%Z then to_chars_scientific dbl sig exp digits
          else to_chars_decimal cd0 sig exp whole_dig
      | FPDecimal => to_chars_decimal cd0 sig exp whole_dig
      end ;;
    Ok ((if neg then [c_minus] else []) ++ body).

(** to_json_string_real: to_daw_json_string.h:557-614 (floating point types) *)
Definition to_json_string_real (cd0 : Z) (dbl : bool) (o : literal_as_string) (ne : number_errors) (fmt : fp_format)
    (v : fp) : res (list N) :=
  match v with
  | FNaN =>
      match o, ne with
      | LSNever, _ | _, NEnone | _, NEallowInf => Err NumberIsNaN
      | _, _ => Ok (bytes """NaN""")
      end
  | FInf neg =>
      match o, ne with
      | LSNever, _ | _, NEnone | _, NEallowNaN => Err NumberIsInf
      | _, _ => Ok (if neg then bytes """-Infinity""" else bytes """Infinity""")
      end
  | FFin neg sig exp =>
      t <- to_chars cd0 dbl fmt neg sig exp ;;
      Ok (quote_if o ++ t ++ quote_if o)
  end.
