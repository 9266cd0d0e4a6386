(** Model of decoding escaped strings.

    Modelled: results that are [std::string] (the fast path, and the same
    function for other string types).  The output buffer is a list together with
    its capacity; writing beyond the capacity is [UB]. *)
From Coq Require Import List NArith ZArith Bool Arith.
From Verif Require Import Base PolicyModel IntModel Loop StrScanModel.
Import ListNotations.
Local Open Scope N_scope.

(** to_nibble: daw_json_parse_std_string.h:31-40.  [>> 31] of an int gives all
    ones when negative. *)
Definition to_nibble (b : N) : N :=
  let maskLetter := if 57 <? b then 7 else 0 in
  let maskSmall := if 90 <? b then 32 else 0 in
  let offset := 48 + maskLetter + maskSmall in
  (b + 256 - offset) mod 256.

(** byte_from_nibbles: daw_json_parse_std_string.h:42-51.  The check is made for
    unchecked input only. *)
Definition byte_from_nibbles (checked : bool) (buf : list N) (i : nat) : res N :=
  b0 <- rd buf i ;; b1 <- rd buf (S i) ;;
  let n0 := to_nibble b0 in
  let n1 := to_nibble b1 in
  _ <- (if checked then Ok tt else ensure ((n0 <? 16) && (n1 <? 16)) InvalidUTFEscape) ;;
  Ok (N.lor (N.shiftl n0 4) n1 mod 2^16).

(** The output: bytes written so far, newest last, and the room there is. *)
Record outb := mkout { o_bytes : list N; o_cap : nat }.
Definition put (o : outb) (bs : list N) : res outb :=
  if (length (o_bytes o) + length bs <=? o_cap o)%nat
  then Ok (mkout (o_bytes o ++ bs) (o_cap o)) else UB.

(** u32toC: daw_json_parse_std_string.h:53-55 *)
Definition u32toC (x : N) : N := x mod 256.

(** UTF-32 to UTF-8 part of decode_utf16: daw_json_parse_std_string.h:70-74, 94-131 *)
Definition enc_utf8 (cp : N) : list N :=
  let c6 x := u32toC (N.lor (N.land x 63) 128) in
  if 65536 <=? cp then
    [u32toC (N.lor (N.shiftr cp 18) 240); c6 (N.shiftr cp 12); c6 (N.shiftr cp 6); c6 cp]
  else if 2048 <=? cp then
    [u32toC (N.lor (N.shiftr cp 12) 224); c6 (N.shiftr cp 6); c6 cp]
  else [u32toC (N.lor (N.shiftr cp 6) 192); c6 cp].

(** decode_utf16: daw_json_parse_std_string.h:57-132; the parser stands on the
    letter u.  The character before the second u is not looked at. *)
Definition decode_utf16 (checked : bool) (buf : list N) (i last : nat) (o : outb) : res (nat * outb) :=
  _ <- (if checked then ensure (5 <=? last - i)%nat UnexpectedEndOfData else Ok tt) ;;
  hi <- byte_from_nibbles checked buf (S i) ;;
  lo <- byte_from_nibbles checked buf (i + 3) ;;
  let cp := N.lor (N.shiftl hi 8) lo in
  let f := (i + 5)%nat in
  if cp <=? 127 then
    o <- put o [cp] ;; Ok (f, o)
  else
    '(cp, f) <-
      (if (55296 <=? cp) && (cp <=? 56319) then
         let cp := (cp - 55296) * 1024 in
         let f := S f in
         _ <- (if checked then
                 ok <- (if (5 <=? last - f)%nat then c <- rd buf f ;; Ok (c =? c_u) else Ok false) ;;
                 ensure ok InvalidUTFEscape
               else Ok tt) ;;
         hi <- byte_from_nibbles checked buf (S f) ;;
         lo <- byte_from_nibbles checked buf (f + 3) ;;
         let trailing := (N.lor (N.shiftl hi 8) lo + (2^32 - 56320)) mod 2^32 in
         Ok (((cp + trailing) mod 2^32 + 65536) mod 2^32, (f + 5)%nat)
       else Ok (cp, f)) ;;
    o <- put o (enc_utf8 cp) ;; Ok (f, o).

(** is_space_unchecked: daw_json_parse_policy.h:402-406 *)
Definition spacelike (b : N) : bool := (1 <=? b) && (b <=? 32).

(** One round of the decoding loop: daw_json_parse_std_string.h:229-314.
    [bnd] is the end of the string ([parse_state.last]), [hq] whether it started
    with a quote. *)
Definition dec_body (checked : bool) (ex : exec_mode) (allow_high hq : bool) (buf : list N) (bnd : nat)
  (s : nat * outb) : res ((nat * outb) + (nat * outb)) :=
  let '(i, o) := s in
  go <- (if checked && negb (i <? bnd)%nat then Ok false
         else c <- rd buf i ;; Ok (negb (c =? c_quote))) ;;
  if negb go then Ok (inr (i, o))
  else
    j <- (match ex with
          | ExConstexpr => plain_loop_unchecked buf i
          | _ => move_to_quote_or_slash checked buf i bnd
          end) ;;
    o <- (if checked then
            _ <- ensure (j - i <=? o_cap o - length (o_bytes o))%nat UnexpectedEndOfData ;; Ok o
          else Ok o) ;;
    o <- put o (firstn (j - i) (skipn i buf)) ;;
    c <- rd buf j ;;
    '(i, o) <-
      (if c =? c_bslash then
         let i := S j in
         e <- rd buf i ;;
         _ <- (if checked then ensure (negb (spacelike e)) InvalidUTFCodepoint else Ok tt) ;;
         let one b := o <- put o [b] ;; Ok (S i, o) in
         if e =? 98 then one 8
         else if e =? 102 then one 12
         else if e =? 110 then one 10
         else if e =? 114 then one 13
         else if e =? 116 then one 9
         else if e =? c_u then decode_utf16 checked buf i bnd o
         else if (e =? c_slash) || (e =? c_bslash) || (e =? c_quote) then one e
         else
           _ <- (if checked && negb allow_high then
                   ensure (negb (spacelike e) && (e <=? 127)) InvalidStringHighASCII
                 else Ok tt) ;;
           one e
       else
         _ <- (if checked then ensure (negb hq || ((j <? bnd)%nat && (c =? c_quote))) InvalidString
               else Ok tt) ;;
         Ok (j, o)) ;;
    _ <- (if checked then ensure (negb hq || (i <? bnd)%nat) UnexpectedEndOfData else Ok tt) ;;
    Ok (inl (i, o)).

(** The signed view of the counter *)
Definition signed64 (n : N) : Z :=
  if (n <? 2^63)%N then Z.of_N n else (Z.of_N n - 2^64)%Z.

(** parse_string_known_stdstring: daw_json_parse_std_string.h:200-330.  The bytes
    before the first escape are copied at once. *)
Definition parse_string_known_stdstring (checked : bool) (ex : exec_mode) (allow_high : bool)
  (buf : list N) (p : ps) : res (list N) :=
  let o := mkout [] (ps_size p + 1) in
  c <- front buf p ;;
  let hq := c =? c_quote in
  let i := if hq then S (first p) else first p in
  let fs := (signed64 (counter p) - 1)%Z in
  '(i, o) <-
    (if (1 <? fs)%Z then
       let n := Z.to_nat fs in
       if (i + n <=? length buf)%nat then
         o <- put o (firstn n (skipn i buf)) ;; Ok ((i + n)%nat, o)
       else UB
     else Ok (i, o)) ;;
  '(i, o) <- loop (dec_body checked ex allow_high hq buf (last p)) (S (length buf)) (i, o) ;;
  Ok (o_bytes o).

(** needs_slow_path: daw_json_parse_string_need_slow.h:22-25 *)
Definition needs_slow_path (p : ps) : bool := (0 <=? signed64 (counter p))%Z.

(** parse_value_string_escaped: daw_json_parse_value.h:477-524.  Returns the
    string and the advanced state. *)
Definition parse_value_string_escaped (checked known : bool) (ex : exec_mode) (allow_high : bool)
  (buf : list N) (p : ps) : res (list N * ps) :=
  _ <- (if known then Ok tt else ensure (negb (ps_empty p)) UnexpectedNull) ;;
  '(p2, p) <- (if known then Ok (p, p) else skip_string checked ex false false buf p) ;;
  if negb allow_high || needs_slow_path p2 then
    s <- parse_string_known_stdstring checked ex allow_high buf p2 ;; Ok (s, p)
  else if (last p2 <=? length buf)%nat
       then Ok (firstn (last p2 - first p2) (skipn (first p2) buf), p) else UB.
