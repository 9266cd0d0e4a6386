(** Model of the errors as they are reported: json_exception, daw_json_error and
    to_formatted_string (daw_json_exception.h, impl/daw_json_assert.h), and of
    count_digits (impl/daw_count_digits.h). *)
From Coq Require Import String.
From Coq Require Import List NArith ZArith Bool Arith.
From Verif Require Import Base PolicyModel IntModel ValueModel PathModel.
Import ListNotations.
Local Open Scope N_scope.

(** ** json_exception *)

(** The union data_t of json_exception: daw_json_exception.h:204-212.  Of the
    pointer the model has the memory from it on, nothing for a null pointer. *)
Inductive exdata := XPointer (mem : option (list N)) | XToken (c : N).

(** json_exception: daw_json_exception.h:202-214.  The location is an index into
    the document. *)
Record exn := mkexn { x_reason : reason; x_data : exdata; x_loc : option nat }.

(** The constructors: daw_json_exception.h:219-243.  The view of a missing member's
    name keeps its start only; a name that begins with the byte 7 is replaced
    (missing_member, :26-35). *)
Definition exn_reason (r : reason) (loc : option nat) : exn := mkexn r (XPointer None) loc.
Definition missing_member (mem : list N) : list N :=
  match mem with 7 :: _ => bytes "no_name" ++ [0] | _ => mem end.
Definition exn_member (mem : list N) (loc : option nat) : exn := mkexn MemberNotFound (XPointer (Some (missing_member mem))) loc.
Definition exn_token (c : N) (loc : option nat) : exn := mkexn ExpectedTokenNotFound (XToken c) loc.

(** daw_json_error with a place: daw_json_assert.h:80-93, :106-150.  The place of a
    reason or of a missing token is where the parser stands, or the start of the
    class; that of a missing member is the start of the class. *)
Definition first_of (p : ps) : option nat := if isnull p then None else Some (first p).
Definition error_place (p : ps) : option nat :=
  match first_of p with Some i => Some i | None => cfirst p end.
Definition member_place (p : ps) : option nat :=
  match cfirst p, first_of p with Some c, Some _ => Some c | _, _ => None end.
Definition daw_json_error (r : reason) (p : ps) : exn := exn_reason r (error_place p).
Definition daw_json_error_member (mem : list N) (p : ps) : exn := exn_member mem (member_place p).
Definition daw_json_error_token (c : N) (p : ps) : exn := exn_token c (error_place p).

(** reason_message: daw_json_exception.h:93-193, the reasons of the model *)
Definition reason_message (r : reason) : list N :=
  bytes match r with
  | UnexpectedEndOfData => "Unexpected end of data"
  | InvalidNumber => "Invalid Number"
  | InvalidNumberStart => "Invalid Number started, expected a ""0123456789-"""
  | InvalidNumberUnexpectedQuoting => "Unexpected double quote prior to number"
  | InvalidTimestamp => "Invalid Timestamp"
  | InvalidUTFEscape => "Invalid UTF Escape"
  | InvalidUTFCodepoint => "Invalid UTF Codepoint"
  | InvalidEndOfValue => "Did not find \"",}]"" at end of value"
  | InvalidLiteral => "Literal data was corrupt"
  | InvalidString => "Invalid or corrupt string"
  | InvalidStringHighASCII => "String support limited to 0x20 < chr <= 0x7F when DisallowHighEightBit or InvalidStringHighASCII is true"
  | ExpectedKeyValueToStartWithBrace => "Expected key/value's JSON type to be of class type and beginning with '{'"
  | ExpectedKeyValueArrayToStartWithBracket => "Expected key/value's JSON type to be of array type and beginning with '['"
  | InvalidArrayStart => "Expected array type to begin with '['"
  | InvalidClassStart => "Expected class type to begin with '{'"
  | InvalidStartOfValue => "Unexpected character data at start of value"
  | InvalidTrue => "Expected true not found"
  | InvalidFalse => "Expected false not found"
  | InvalidNull => "Expected null not found"
  | UnexpectedNull => "An unexpected null value was encountered while serializing"
  | NumberIsNaN => "NaN encountered while serializing to JSON Number literal"
  | NumberIsInf => "Infinity encountered while serializing to JSON Number literal"
  | NumberOutOfRange => "Number is outside of the representable range"
  | EmptyJSONDocument => "Attempt to parse an empty JSON document"
  | JSONPathNotFound => "JSON Path specified not found in document"
  | InvalidJSONPath => "Invalid JSON Path specified"
  | OutputError => "General error while performing output"
  | MissingMemberNameOrEndOfClass => "Missing member name or end of class"
  | MissingMemberName => "Missing member name"
  | InvalidMemberName => "Member names must be JSON strings"
  | ExpectedArrayOrClassStart => "Expected start of a JSON class or array"
  | UnknownMember => "Could not find member in JSON class"
  | InvalidBracketing => "Invalid Bracketing"
  | AttemptToAccessPastEndOfValue => "A value of known size was accessed past the end"
  | MemberNotFound => "Expected member not found"
  | TagMemberNotFound => "Expected tag member not found, they are required for tagged Variants"
  | ExpectedMemberNotFound => "Expected member missing"
  | ExpectedTokenNotFound => "Expected token missing"
  | UnexpectedJSONVariantType => "Unexpected JSON Variant Type"
  | TrailingComma => "Trailing comma"
  | OutOfOrderOrderedMembers => "Order of ordered members must be ascending"
  end.

(** std::string of a char const *: up to the zero, which has to be there *)
Fixpoint c_string (mem : list N) : res (list N) :=
  match mem with
  | [] => UB
  | 0 :: _ => Ok []
  | c :: r => s <- c_string r ;; Ok (c :: s)
  end.

(** reason: daw_json_exception.h:249-272.  Of a union only the member that was
    written is read; a string is not made of a null pointer. *)
Definition reason_text (x : exn) : res (list N) :=
  match x_reason x with
  | MemberNotFound =>
      match x_data x with
      | XPointer (Some mem) => s <- c_string mem ;; Ok (bytes "Could not find required class member '" ++ s ++ bytes "'")
      | _ => UB
      end
  | ExpectedTokenNotFound =>
      match x_data x with
      | XToken c => Ok (bytes "Could not find expected parse token '" ++ [c] ++ bytes "'")
      | _ => UB
      end
  | r => Ok (reason_message r)
  end.

(** what: daw_json_exception.h:278-281 *)
Definition what (x : exn) : list N := reason_message (x_reason x).

(** ** to_formatted_string *)

(** The last newline before the location: the accumulation of
    daw_json_exception.h:302-311, as an index *)
Fixpoint last_newline (l : list N) (i : nat) (found : option nat) : option nat :=
  match l with
  | [] => found
  | c :: r => last_newline r (S i) (if c =? 10 then Some i else found)
  end.
Definition count_lines (l : list N) : N := fold_left (fun count c => if c =? 10 then (count + 1) mod 2^64 else count) l 1.

(** Bytes of the document at indices that may be before it *)
Definition rdz (doc : list N) (i : Z) : res N := if (i <? 0)%Z then UB else rd doc (Z.to_nat i).
Fixpoint slice (doc : list N) (i : Z) (n : nat) : res (list N) :=
  match n with
  | O => Ok []
  | S n => c <- rdz doc i ;; r <- slice doc (i + 1) n ;; Ok (c :: r)
  end.

(** What is shown of the excerpt: daw_json_exception.h:328-345, [colour] unless
    DAW_JSON_NO_COLOUR is defined *)
Fixpoint shown (colour : bool) (l : list N) : list N :=
  match l with
  | [] => []
  | c :: r =>
      if (c =? 10) || (c =? 13) then shown colour r
      else if negb colour && (c =? 34) then 92 :: c :: shown colour r
      else c :: shown colour r
  end.

(** to_formatted_string: daw_json_exception.h:294-351.  [base] is the address of the
    document: without a newline before the location a null pointer is subtracted
    from it (:312-313), which the standard leaves undefined and gives the address
    where pointers are numbers.  [doc]: nothing for a null pointer; the bytes are
    those that may be read. *)
Definition to_formatted_string (colour : bool) (base : N) (x : exn) (doc : option (list N)) : res (list N) :=
  t <- reason_text x ;;
  let result := bytes "reason: " ++ t in
  match doc, x_loc x with
  | Some doc, Some loc =>
      if (length doc <? loc)%nat then UB
      else
        let before := firstn loc doc in
        let line_no := count_lines before in
        let col_no := match last_newline before 0 None with
                      | Some k => (N.of_nat loc - N.of_nat k + 1) mod 2^64
                      | None => (base + N.of_nat loc + 1) mod 2^64
                      end in
        let previous := Nat.min 50 (loc + 1) in
        loc_data <- slice doc (Z.of_nat loc - Z.of_nat previous) (previous + 1) ;;
        Ok (result ++ bytes " " ++ [10] ++ bytes "location: near line: " ++ to_string line_no ++ bytes " col: " ++ to_string col_no ++ [10; 34]
            ++ (if colour then 27 :: bytes "[1m" else []) ++ shown colour loc_data ++ (if colour then 27 :: bytes "[0m" else []) ++ [34; 10])
  | _, _ => Ok result
  end.

(** ** count_digits *)

(** is_digit: daw_count_digits.h:22-30 *)
Definition digit_mark (c : N) : N := if (c + 2^32 - 48) mod 2^32 <? 10 then 0 else 255.

(** The bytes of a number, the last the highest (DAW_BIT_CAST on a little endian
    machine) *)
Definition of_bytes (l : list N) : N := fold_right (fun b a => b + 256 * a) 0 l.

(** daw::cxmath::count_leading_zeroes of a number of [w] bits that is not zero *)
Definition count_leading_zeroes (w v : N) : N := w - 1 - N.log2 v.

(** count_4digits: daw_count_digits.h:32-45.  As written: the third byte is tested
    twice, the first not at all. *)
Definition count_4digits (c0 c1 c2 c3 : N) : option nat :=
  let v := of_bytes [digit_mark c3; digit_mark c2; digit_mark c2; digit_mark c1] in
  if negb (v =? 0) then Some (N.to_nat (count_leading_zeroes 32 v / 8)) else None.

(** count_8digits: daw_count_digits.h:47-62 *)
Definition count_8digits (c0 c1 c2 c3 c4 c5 c6 c7 : N) : option nat :=
  let v := of_bytes [digit_mark c7; digit_mark c6; digit_mark c5; digit_mark c4; digit_mark c3; digit_mark c2; digit_mark c1; digit_mark c0] in
  if negb (v =? 0) then Some (N.to_nat (count_leading_zeroes 64 v / 8)) else None.

(** The three loops of count_digits: daw_count_digits.h:64-93, the number of bytes
    passed.  char is signed in the last one (:83-85). *)
Fixpoint count_1 (l : list N) : nat :=
  match l with
  | [] => O
  | c :: r => if ((if c <? 128 then c else c + 2^32 - 256) + 2^32 - 48) mod 2^32 <? 10 then S (count_1 r) else O
  end.
Fixpoint count_4 (fuel : nat) (l : list N) : nat :=
  match fuel, l with
  | S fuel, c0 :: c1 :: c2 :: c3 :: r =>
      match count_4digits c0 c1 c2 c3 with Some n => n | None => (4 + count_4 fuel r)%nat end
  | _, _ => count_1 l
  end.
Fixpoint count_8 (fuel : nat) (l : list N) : nat :=
  match fuel, l with
  | S fuel, c0 :: c1 :: c2 :: c3 :: c4 :: c5 :: c6 :: c7 :: r =>
      match count_8digits c0 c1 c2 c3 c4 c5 c6 c7 with Some n => n | None => (8 + count_8 fuel r)%nat end
  | _, _ => count_4 (length l) l
  end.
Definition count_digits (l : list N) : nat := count_8 (length l) l.
