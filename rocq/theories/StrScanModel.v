(** Model of finding the end of a string.

    Modelled: not zero-terminated documents; constexpr, runtime and simd
    execution modes; checked and unchecked input; with and without
    ExcludeSpecialEscapes.

    Pointers are indices.  Forming a pointer one past [last] (as [first += 2]
    on a final backslash does) is not treated as undefined, only reading is. *)
From Coq Require Import List NArith ZArith Bool Arith.
From Verif Require Import Base PolicyModel IntModel Loop.
Import ListNotations.

Definition npos : N := (2^64 - 1)%N.
(** [static_cast<std::size_t>( ptrdiff_t )] *)
Definition to_size (z : Z) : N := Z.to_N (z mod 2^64).

(** test_at_byte<n, c>( UInt64 ): daw_json_parse_string_quote.h:25-31.
    The subtraction wraps modulo 2^64. *)
Definition test_at_byte64 (n : N) (c : N) (b : N) : bool :=
  (u64 (N.land b (u64 (N.shiftl 255 (n * 8))) + (2^64 - N.shiftl c (n * 8))) =? 0)%N.

Definition any_at_byte64 (c : N) (b : N) : bool :=
  existsb (fun n => test_at_byte64 n c b) [0;1;2;3;4;5;6;7]%N.

(** test_at_byte<n, c>( UInt32 ): daw_json_parse_string_quote.h:33-39 *)
Definition u32 (x : N) : N := (x mod 2^32)%N.
Definition test_at_byte32 (n : N) (c : N) (b : N) : bool :=
  (u32 (N.land b (u32 (N.shiftl 255 (n * 8))) + (2^32 - N.shiftl c (n * 8))) =? 0)%N.

Definition any_at_byte32 (c : N) (b : N) : bool :=
  existsb (fun n => test_at_byte32 n c b) [0;1;2;3]%N.

(** daw::to_uint32_buffer: four bytes, little-endian *)
Definition rd32 (buf : list N) (i : nat) : res N :=
  b0 <- rd buf i ;; b1 <- rd buf (i + 1) ;; b2 <- rd buf (i + 2) ;; b3 <- rd buf (i + 3) ;;
  Ok (b0 + 2^8 * (b1 + 2^8 * (b2 + 2^8 * b3)))%N.

(** [first -= *( first - 1 ) == '\\' ? 1 : 0]: daw_json_parse_string_quote.h:68, 89 *)
Definition back_off (buf : list N) (i : nat) : res nat :=
  match i with
  | O => UB
  | S i' => c <- rd buf i' ;; Ok (if (c =? c_bslash)%N then i' else i)
  end.

(** skip_to_first8: daw_json_parse_string_quote.h:42-69 *)
Definition skip_to_first8 (buf : list N) (i last : nat) : res nat :=
  i <- (if 8 <=? last - i then
          loop (fun i =>
            w <- rd64 buf i ;;
            let keep := negb (any_at_byte64 c_quote w || any_at_byte64 c_bslash w)
                        && (16 <=? last - i) in
            Ok (if keep then inl (i + 8) else inr i)) (S (last - i)) i
        else Ok i) ;;
  back_off buf i.

(** skip_to_first4: daw_json_parse_string_quote.h:72-90 *)
Definition skip_to_first4 (buf : list N) (i last : nat) : res nat :=
  i <- (if 4 <=? last - i then
          loop (fun i =>
            w <- rd32 buf i ;;
            let keep := negb (any_at_byte32 c_quote w || any_at_byte32 c_bslash w)
                        && (8 <=? last - i) in
            Ok (if keep then inl (i + 4) else inr i)) (S (last - i)) i
        else Ok i) ;;
  back_off buf i.

(** [need_slow_path < 0 ? here : unchanged] *)
Definition note_escape (nsp : Z) (start i : nat) : Z :=
  if (nsp <? 0)%Z then (Z.of_nat i - Z.of_nat start)%Z else nsp.

(** Inner loop of the checked byte scan: daw_json_parse_string_quote.h:242-245 *)
Definition plain_loop_checked (buf : list N) (last i : nat) : res nat :=
  loop (fun i =>
    if i <? last then
      c <- rd buf i ;;
      Ok (if (negb (c =? c_quote) && negb (c =? c_bslash))%N then inl (S i) else inr i)
    else Ok (inr i)) (S (last - i)) i.

(** Checked byte scan: daw_json_parse_string_quote.h:241-255 *)
Definition nq_body_checked (buf : list N) (start last : nat) (s : nat * Z)
  : res ((nat * Z) + (nat * Z)) :=
  let '(i, nsp) := s in
  if i <? last then
    c <- rd buf i ;;
    if (c =? c_quote)%N then Ok (inr (i, nsp))
    else
      i <- plain_loop_checked buf last i ;;
      if i <? last then
        c <- rd buf i ;;
        if (c =? c_bslash)%N then Ok (inl (i + 2, note_escape nsp start i))
        else Ok (inr (i, nsp))
      else Ok (inr (i, nsp))
  else Ok (inr (i, nsp)).

(** Is this character allowed after a backslash:
    daw_json_parse_string_quote.h:221-234 *)
Definition special_escape (c : N) : bool :=
  existsb (N.eqb c) [34; 92; 47; 98; 102; 110; 114; 116; 117]%N.

(** Checked byte scan with ExcludeSpecialEscapes:
    daw_json_parse_string_quote.h:209-239 *)
Definition nq_body_excl (buf : list N) (start last : nat) (s : nat * Z)
  : res ((nat * Z) + (nat * Z)) :=
  let '(i, nsp) := s in
  if i <? last then
    c <- rd buf i ;;
    _ <- ensure (32 <=? c)%N InvalidString ;;
    if (c =? c_bslash)%N then
      _ <- ensure (1 <? last - i) InvalidString ;;
      d <- rd buf (S i) ;;
      _ <- ensure (special_escape d) InvalidString ;;
      Ok (inl (i + 2, note_escape nsp start i))
    else if (c =? c_quote)%N then Ok (inr (i, nsp))
    else Ok (inl (S i, nsp))
  else Ok (inr (i, nsp)).

(** Unchecked byte scan: daw_json_parse_string_quote.h:117-131.  The fuel covers
    every index of the document. *)
Definition plain_loop_unchecked (buf : list N) (i : nat) : res nat :=
  loop (fun i =>
    c <- rd buf i ;;
    Ok (if (negb (c =? c_quote) && negb (c =? c_bslash))%N then inl (S i) else inr i))
    (S (length buf - i)) i.

Definition nq_body_unchecked (buf : list N) (start : nat) (s : nat * Z)
  : res ((nat * Z) + (nat * Z)) :=
  let '(i, nsp) := s in
  c <- rd buf i ;;
  if (c =? c_quote)%N then Ok (inr (i, nsp))
  else
    i <- plain_loop_unchecked buf i ;;
    c <- rd buf i ;;
    if (c =? c_bslash)%N then Ok (inl (i + 2, note_escape nsp start i))
    else Ok (inr (i, nsp)).

(** ** Runtime execution mode *)

(** mem_move_to_next_of( runtime ) for backslash and quote:
    daw_not_const_ex_functions.h:346-371 *)
Definition move_to_quote_or_slash (checked : bool) (buf : list N) (i last : nat) : res nat :=
  loop (fun i =>
    if negb checked || (i <? last) then
      c <- rd buf i ;;
      Ok (if ((c =? c_bslash) || (c =? c_quote))%N then inr i else inl (S i))
    else Ok (inr i)) (S (length buf - i)) i.

(** mem_skip_until_end_of_string( runtime, ..., first_escape ):
    daw_not_const_ex_functions.h:451-482.
    [first_first - first] is the negated offset of the escape. *)
Definition rt_body (checked : bool) (buf : list N) (start last : nat) (s : nat * Z)
  : res ((nat * Z) + (nat * Z)) :=
  let '(i, fe) := s in
  if negb checked || (i <? last) then
    c <- rd buf i ;;
    if (c =? c_quote)%N then Ok (inr (i, fe))
    else
      let '(i, fe) :=
        if (c =? c_bslash)%N then
          (if checked then i + (if last =? i then 0 else 1) else S i,
           if (fe <? 0)%Z then (Z.of_nat start - Z.of_nat i)%Z else fe)
        else (i, fe) in
      i <- move_to_quote_or_slash checked buf (S i) last ;;
      Ok (inl (i, fe))
  else Ok (inr (i, fe)).

Definition rt_skip_escape (checked : bool) (buf : list N) (first last : nat) (fe : Z)
  : res (nat * Z) :=
  _ <- (if checked then ensure (first <? last) UnexpectedEndOfData else Ok tt) ;;
  i <- move_to_quote_or_slash checked buf first last ;;
  loop (rt_body checked buf first last) (S (length buf - first)) (i, fe).

(** mem_skip_until_end_of_string( runtime ), without the escape position:
    daw_not_const_ex_functions.h:381-403 *)
Definition rt_skip (checked : bool) (buf : list N) (first last : nat) : res nat :=
  _ <- (if checked then ensure (first <? last) UnexpectedEndOfData else Ok tt) ;;
  i <- move_to_quote_or_slash checked buf first last ;;
  loop (fun i =>
    if negb checked || (i <? last) then
      c <- rd buf i ;;
      if (c =? c_quote)%N then Ok (inr i)
      else
        i <- move_to_quote_or_slash checked buf (if (c =? c_bslash)%N then S (S i) else S i) last ;;
        Ok (inl i)
    else Ok (inr i)) (S (length buf - first)) i.

(** mem_skip_until_end_of_string( constexpr ): daw_not_const_ex_functions.h:405-449 *)
Definition cx_skip (checked : bool) (buf : list N) (first last : nat) : res nat :=
  if first =? last then Ok first
  else
    fast <- (if checked then
               c <- (match last with O => UB | S l => rd buf l end) ;;
               Ok (negb (c =? c_bslash)%N)
             else Ok true) ;;
    loop (fun i =>
      if negb checked || (i <? last) then
        c <- rd buf i ;;
        if (c =? c_quote)%N then Ok (inr i)
        else if (c =? c_bslash)%N then
          if fast then Ok (inl (i + 2))
          else if S i <? last then Ok (inl (i + 2)) else Ok (inr last)
        else Ok (inl (S i))
      else Ok (inr i)) (S (length buf - first)) first.

(** ** simd execution mode *)

(** _mm_movemask_epi8( _mm_cmpeq_epi8( block, c ) ): bit j set iff byte j = c *)
Fixpoint eq_mask (c : N) (block : list N) : N :=
  match block with
  | [] => 0
  | b :: r => (if (b =? c)%N then 1 else 0) + 2 * eq_mask c r
  end%N.

Definition not32 (x : N) : N := (2^32 - 1 - x)%N.

(** find_escaped_branchless: daw_not_const_ex_functions.h:208-227 *)
Definition find_escaped_branchless (prev_escaped backslashes : N) : N * N :=
  let backslashes := N.land backslashes (not32 prev_escaped) in
  let follow_escape := N.lor (u32 (N.shiftl backslashes 1)) prev_escaped in
  let even_bits := 0x55555555%N in
  let odd_seq_start := N.land (N.land backslashes (not32 even_bits)) (not32 follow_escape) in
  let r := u32 (odd_seq_start + backslashes) in
  let seq_start_on_even_bits := N.land 0x0000FFFF r in
  let prev := N.shiftr r 16 in
  let invert_mask := u32 (N.shiftl seq_start_on_even_bits 1) in
  (prev, N.land (N.lxor even_bits invert_mask) follow_escape).

(** find_lsb_set: daw_not_const_ex_functions.h:71-89, for a nonzero value *)
Fixpoint lsb (p : positive) : nat :=
  match p with
  | xO q => S (lsb q)
  | _ => O
  end.

Fixpoint rd_block (buf : list N) (i : nat) (n : nat) : res (list N) :=
  match n with
  | O => Ok []
  | S n => b <- rd buf i ;; r <- rd_block buf (S i) n ;; Ok (b :: r)
  end.

(** 16-byte loop of mem_skip_until_end_of_string( simd, ..., first_escape ):
    daw_not_const_ex_functions.h:289-314.  Leaves with [inl] when the quote was
    found, [inr] when fewer than 16 bytes remain.  prefix_xor( quotes ) is
    nonzero iff quotes is, with the same lowest set bit. *)
Definition simd_block (buf : list N) (last : nat) (s : nat * N * Z)
  : res ((nat * N * Z) + (nat * Z + nat * Z)) :=
  let '(i, prev, fe) := s in
  if 16 <=? last - i then
    block <- rd_block buf i 16 ;;
    let backslashes := eq_mask c_bslash block in
    let fe := match backslashes with
              | N0 => fe
              | Npos b => if (fe <? 0)%Z then Z.of_nat (lsb b) else fe
              end in
    let '(prev, escaped) := find_escaped_branchless prev backslashes in
    match N.land (eq_mask c_quote block) (not32 escaped) with
    | N0 => Ok (inl (i + 16, prev, fe))
    | Npos q => Ok (inr (inl (i + lsb q, fe)))
    end
  else Ok (inr (inr (i, fe))).

(** tail loop: daw_not_const_ex_functions.h:315-343 (checked) *)
Definition simd_tail (buf : list N) (start last : nat) (s : nat * Z)
  : res ((nat * Z) + (nat * Z)) :=
  let '(i, fe) := s in
  if i <? last then
    c <- rd buf i ;;
    if (c =? c_quote)%N then Ok (inr (i, fe))
    else
      i <- plain_loop_checked buf last i ;;
      if last <=? i then Ok (inr (last, fe))
      else
        c <- rd buf i ;;
        if (c =? c_quote)%N then Ok (inr (i, fe))
        else Ok (inl (i + 2, if (fe <? 0)%Z then (Z.of_nat start - Z.of_nat i)%Z else fe))
  else Ok (inr (last, fe)).

Definition simd_skip_escape (buf : list N) (first last : nat) (fe : Z) : res (nat * Z) :=
  r <- loop (simd_block buf last) (S (last - first)) (first, 0%N, fe) ;;
  match r with
  | inl found => Ok found
  | inr (i, fe) => loop (simd_tail buf first last) (S (last - i)) (i, fe)
  end.

(** ** parse_nq *)

Inductive exec_mode := ExConstexpr | ExRuntime | ExSimd.

(** parse_nq_check: daw_json_parse_string_quote.h:137-268.
    The scan is bounded by class_last; the word-at-a-time part by last. *)
Definition parse_nq_check (ex : exec_mode) (excl : bool) (buf : list N) (p : ps)
  : res (N * ps) :=
  match clast p with
  | None => UB
  | Some cl =>
      '(i, nsp) <-
        (match ex with
         | ExRuntime => rt_skip_escape true buf (first p) cl (-1)%Z
         | ExSimd => simd_skip_escape buf (first p) cl (-1)%Z
         | ExConstexpr =>
             if excl then
               loop (nq_body_excl buf (first p) cl) (S (cl - first p)) (first p, (-1)%Z)
             else
               i <- (if 8 <=? last p - first p then skip_to_first8 buf (first p) (last p)
                     else if 4 <=? cl - first p then skip_to_first4 buf (first p) (last p)
                     else Ok (first p)) ;;
               loop (nq_body_checked buf (first p) cl) (S (cl - i)) (i, (-1)%Z)
         end) ;;
      ok <- (if i <? cl then (c <- rd buf i ;; Ok (c =? c_quote)%N) else Ok false) ;;
      _ <- ensure ok InvalidString ;;
      Ok (to_size nsp, set_first p i)
  end.

(** parse_nq_uncheck: daw_json_parse_string_quote.h:93-135 (the simd mode is
    not modelled unchecked) *)
Definition parse_nq_uncheck (ex : exec_mode) (buf : list N) (p : ps) : res (N * ps) :=
  '(i, nsp) <-
    (match ex with
     | ExConstexpr =>
         i <- (if 8 <=? last p - first p then skip_to_first8 buf (first p) (last p)
               else if 4 <=? last p - first p then skip_to_first4 buf (first p) (last p)
               else Ok (first p)) ;;
         loop (nq_body_unchecked buf (first p)) (S (length buf - i)) (i, (-1)%Z)
     | _ => rt_skip_escape false buf (first p) (last p) (-1)%Z
     end) ;;
  Ok (to_size nsp, set_first p i).

(** parse_nq: daw_json_parse_string_quote.h:270-278 *)
Definition parse_nq (checked : bool) (ex : exec_mode) (excl : bool) (buf : list N) (p : ps)
  : res (N * ps) :=
  if checked then parse_nq_check ex excl buf p else parse_nq_uncheck ex buf p.

(** skip_string_nq: daw_json_skip.h:38-50.  Returns the string's range and the
    advanced state. *)
Definition skip_string_nq (checked : bool) (ex : exec_mode) (excl : bool)
  (buf : list N) (p : ps) : res (ps * ps) :=
  '(cnt, p') <- parse_nq checked ex excl buf p ;;
  _ <- (if checked then c <- front buf p' ;; ensure (c =? c_quote)%N InvalidString
        else Ok tt) ;;
  Ok (set_last (set_counter p cnt) (first p'), remove_prefix p' 1).

(** skip_string: daw_json_skip.h:55-73 (KeepQuotes = false unless [keep]) *)
Definition skip_string (checked : bool) (ex : exec_mode) (excl keep : bool)
  (buf : list N) (p : ps) : res (ps * ps) :=
  if ps_empty p then Ok (p, p)
  else
    c <- front buf p ;;
    _ <- ensure (c =? c_quote)%N InvalidString ;;
    let p := remove_prefix p 1 in
    _ <- (if checked then ensure (has_more p) InvalidString else Ok tt) ;;
    '(r, p) <- skip_string_nq checked ex excl buf p ;;
    Ok (if keep then set_last (set_first r (first r - 1)) (last r + 1) else r, p).
