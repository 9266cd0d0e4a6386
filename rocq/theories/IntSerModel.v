(** Model of integer output.

    The local buffer [buff] is a list that may grow up to its capacity
    [digits10 + 10]; writing beyond it is [UB].  The in-place [reverse]
    (to_daw_json_string.h:637-652) is modelled swap by swap. *)
From Coq Require Import List NArith ZArith Bool Arith.
From Verif Require Import Base IntModel.
Import ListNotations.

(** make_digits100 / digits100: to_daw_json_string.h:624-635.
    Indexing outside the table is [UB]. *)
Definition digits100 (n : N) : res (N * N) :=
  if (n <? 100)%N then Ok ((n mod 10 + c_0)%N, (n / 10 + c_0)%N) else UB.

(** [*ptr++ = c] into a buffer of capacity [cap] *)
Definition push (cap : nat) (l : list N) (c : N) : res (list N) :=
  if length l <? cap then Ok (l ++ [c]) else UB.

(** reverse: to_daw_json_string.h:637-652, on the elements [lpos, rpos) *)
Fixpoint upd (l : list N) (i : nat) (x : N) : list N :=
  match l, i with
  | [], _ => []
  | _ :: r, O => x :: r
  | y :: r, S i' => y :: upd r i' x
  end.

Fixpoint reverse_loop (fuel : nat) (l : list N) (lpos rpos : nat) : res (list N) :=
  match fuel with
  | O => Fuel
  | S f =>
      if lpos <? rpos then
        let rpos := rpos - 1 in
        a <- rd l lpos ;;
        b <- rd l rpos ;;
        reverse_loop f (upd (upd l lpos b) rpos a) (S lpos) rpos
      else Ok l
  end.

Definition reverse_from (l : list N) (start : nat) : res (list N) :=
  reverse_loop (S (length l)) l start (length l).

(** The two-digit loop: to_daw_json_string.h:700-706 and 764-770.
    20 rounds cover every 64-bit value. *)
Fixpoint digit_loop (fuel : nat) (cap : nat) (v : N) (l : list N)
  : res (N * list N) :=
  match fuel with
  | O => Fuel
  | S f =>
      if (10 <=? v)%N then
        '(d0, d1) <- digits100 (v mod 100) ;;
        l <- push cap l d0 ;;
        l <- push cap l d1 ;;
        digit_loop f cap (v / 100) l
      else Ok (v, l)
  end.

(** numeric_limits<T>::digits10 for the integer types of [w] bits *)
Definition digits10 (w : N) (sgn : bool) : nat :=
  if (w =? 8)%N then 2
  else if (w =? 16)%N then 4
  else if (w =? 32)%N then 9
  else if sgn then 18 else 19.

Definition quote_if (o : literal_as_string) : list N :=
  match o with LSAlways => [c_quote] | _ => [] end.

(** to_json_string_unsigned: to_daw_json_string.h:733-786
    (integral, not bool) *)
Definition to_json_string_unsigned (o : literal_as_string) (w : N) (v : N)
  : res (list N) :=
  body <-
    (if (v =? 0)%N then Ok [c_0]
     else
       let cap := digits10 w false + 10 in
       '(v, l) <- digit_loop 20 cap v [] ;;
       l <- (if (0 <? v)%N then push cap l (c_0 + v)%N else Ok l) ;;
       reverse_from l 0) ;;
  Ok (quote_if o ++ body ++ quote_if o).

(** to_json_string_signed: to_daw_json_string.h:654-731 (integral).
    C++ [/] and [%] truncate toward zero: [Z.quot] and [Z.rem].
    [-static_cast<size_t>( v % 10 )] wraps modulo 2^64 twice. *)
Definition to_json_string_signed (o : literal_as_string) (w : N) (v : Z)
  : res (list N) :=
  let cap := digits10 w true + 10 in
  let buff := quote_if o in
  let finish (v : N) (l : list N) (num_start : nat) : res (list N) :=
    l <- (if (v =? 0)%N then push cap l c_0 else Ok l) ;;
    '(v, l) <- digit_loop 20 cap v l ;;
    l <- (if (0 <? v)%N then push cap l (c_0 + v)%N else Ok l) ;;
    l <- reverse_from l num_start ;;
    match o with LSAlways => push cap l c_quote | _ => Ok l end in
  if (v <? 0)%Z then
    l <- push cap buff c_minus ;;
    let num_start := S (length buff) in
    let tmp := ((2^64 - (Z.to_N (Z.rem v 10 mod 2^64))) mod 2^64)%N in
    let v := Z.to_N (Z.quot v (-10)) in
    '(d0, _) <- digits100 tmp ;;
    l <- push cap l d0 ;;
    if (v =? 0)%N then
      match o with LSAlways => push cap l c_quote | _ => Ok l end
    else finish v l num_start
  else finish (Z.to_N v) buff (length buff).
