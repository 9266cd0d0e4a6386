(** Model of writing strings.

    Modelled: output appended to a growing string (the trait for resizable
    containers).  Outside the repository, from their documentation: the
    iterator of utf8cpp ([utf8::unchecked::iterator]) and [daw::string_view],
    which is taken to denote exactly the characters it is given. *)
From Coq Require Import List NArith ZArith Bool Arith.
From Verif Require Import Base PolicyModel IntModel Loop.
Import ListNotations.
Local Open Scope N_scope.

(** to_nibble_char: to_daw_json_string.h:207-217 *)
Definition to_nibble_char (c : N) : res N :=
  let u := c mod 256 in
  _ <- ensure (u <? 16) InvalidUTFEscape ;;
  Ok (if u <? 10 then u + 48 else u - 10 + 65).

(** output_hex: to_daw_json_string.h:219-232; the argument is a uint16. *)
Definition output_hex (c : N) : res (list N) :=
  let c := c mod 2^16 in
  n3 <- to_nibble_char (N.land (N.shiftr c 12) 15) ;;
  n2 <- to_nibble_char (N.land (N.shiftr c 8) 15) ;;
  n1 <- to_nibble_char (N.land (N.shiftr c 4) 15) ;;
  n0 <- to_nibble_char (N.land c 15) ;;
  Ok [92; 117; n3; n2; n1; n0].

(** utf32_to_utf8: to_daw_json_string.h:234-265 *)
Definition utf32_to_utf8 (cp : N) : res (list N) :=
  let c x := x mod 256 in
  let tail x := c (N.lor (N.land x 63) 128) in
  if cp <=? 127 then Ok [c cp]
  else if cp <=? 2047 then Ok [c (N.lor (N.shiftr cp 6) 192); tail cp]
  else if cp <=? 65535 then Ok [c (N.lor (N.shiftr cp 12) 224); tail (N.shiftr cp 6); tail cp]
  else if cp <=? 1114111 then
    Ok [c (N.lor (N.shiftr cp 18) 240); tail (N.shiftr cp 12); tail (N.shiftr cp 6); tail cp]
  else Err InvalidUTFCodepoint.

(** utf8::internal::sequence_length (utf8cpp, external) *)
Definition seq_len (lead : N) : nat :=
  if lead <? 128 then 1
  else if N.shiftr lead 5 =? 6 then 2
  else if N.shiftr lead 4 =? 14 then 3
  else if N.shiftr lead 3 =? 30 then 4
  else 0.

(** utf8::unchecked::next (utf8cpp, external): the code point at [i] *)
Definition next_cp (s : list N) (i : nat) : res N :=
  b0 <- rd s i ;;
  match seq_len b0 with
  | 2%nat => b1 <- rd s (i + 1) ;; Ok (N.land (N.shiftl b0 6) 2047 + N.land b1 63)
  | 3%nat => b1 <- rd s (i + 1) ;; b2 <- rd s (i + 2) ;;
      Ok (N.land (N.shiftl b0 12) 65535 + N.land (N.shiftl b1 6) 4095 + N.land b2 63)
  | 4%nat => b1 <- rd s (i + 1) ;; b2 <- rd s (i + 2) ;; b3 <- rd s (i + 3) ;;
      Ok (N.land (N.shiftl b0 18) 2097151 + N.land (N.shiftl b1 12) 262143
          + N.land (N.shiftl b2 6) 4095 + N.land b3 63)
  | _ => Ok b0
  end.

(** The switch on a code point: to_daw_json_string.h:304-353 and 378-422 *)
Definition escape_cp (restrict_high : bool) (cp : N) : res (list N) :=
  if cp =? 34 then Ok [92; 34]
  else if cp =? 92 then Ok [92; 92]
  else if cp =? 8 then Ok [92; 98]
  else if cp =? 12 then Ok [92; 102]
  else if cp =? 10 then Ok [92; 110]
  else if cp =? 13 then Ok [92; 114]
  else if cp =? 9 then Ok [92; 116]
  else if cp <? 32 then output_hex cp
  else if restrict_high && (127 <=? cp) && (cp <=? 65535) then output_hex cp
  else if restrict_high && (65535 <? cp) then
    a <- output_hex (55232 + N.shiftr cp 10) ;;
    b <- output_hex (56320 + N.land cp 1023) ;;
    Ok (a ++ b)
  else utf32_to_utf8 cp.

(** One round for a container: to_daw_json_string.h:288-354.  [err_invalid] is
    the policy ErrorInvalidUTF8.  [first != last] compares positions. *)
Definition esc_body (err_invalid restrict_high : bool) (s : list N) (st : nat * list N)
  : res ((nat * list N) + list N) :=
  let '(i, out) := st in
  if (i =? length s)%nat then Ok (inr out)
  else
    cp <- next_cp s i ;;
    b0 <- rd s i ;;
    let j := (i + seq_len b0)%nat in
    j <- (if (i =? j)%nat then
            if err_invalid then Err InvalidStringHighASCII else Ok (S i)
          else Ok j) ;;
    e <- escape_cp restrict_high cp ;;
    Ok (inl (j, out ++ e)).

(** copy_to_iterator<true> for a container: to_daw_json_string.h:269-354 *)
Definition copy_escaped (err_invalid restrict_high : bool) (s : list N) : res (list N) :=
  loop (esc_body err_invalid restrict_high s) (S (length s)) (O, []).

(** copy_to_iterator<true> for a zero-terminated string: to_daw_json_string.h:369-424.
    [s] is the text with its terminating zero. *)
Definition cstr_body (restrict_high : bool) (s : list N) (st : nat * list N)
  : res ((nat * list N) + list N) :=
  let '(i, out) := st in
  c <- rd s i ;;
  if c =? 0 then Ok (inr out)
  else
    cp <- next_cp s i ;;
    e <- escape_cp restrict_high cp ;;
    Ok (inl ((i + seq_len c)%nat, out ++ e)).
Definition copy_escaped_cstr (restrict_high : bool) (s : list N) : res (list N) :=
  loop (cstr_body restrict_high s) (S (length s)) (O, []).

(** copy_to_iterator<false>: to_daw_json_string.h:355-365 *)
Fixpoint copy_raw (restrict_high : bool) (s : list N) : res (list N) :=
  match s with
  | [] => Ok []
  | c :: r =>
      _ <- (if restrict_high then ensure ((32 <=? c) && (c <=? 127)) InvalidStringHighASCII else Ok tt) ;;
      out <- copy_raw restrict_high r ;;
      Ok (c :: out)
  end.

(** to_json_string_string_escaped: to_daw_json_string.h:835-846 *)
Definition write_string_escaped (err_invalid restrict_high : bool) (s : list N) : res (list N) :=
  t <- copy_escaped err_invalid restrict_high s ;;
  Ok (34 :: t ++ [34]).

(** to_json_string_string_raw: to_daw_json_string.h:816-833 *)
Definition write_string_raw (restrict_high : bool) (s : list N) : res (list N) :=
  t <- (if (0 <? length s)%nat then copy_raw restrict_high s else Ok []) ;;
  Ok (34 :: t ++ [34]).
