(** Outcomes, memory and parser state shared by all model files.

    A document is a [list N] of bytes; a pointer into it is an index ([nat]).
    Reading outside of the document is the distinct outcome [UB], never a
    default value. *)
From Coq Require Import List NArith ZArith Bool Lia Arith String Ascii.
Import ListNotations.

(** Reasons used in [daw_json_error]/[daw_json_ensure]
    (include/daw/json/daw_json_exception.h:45-91; only the ones needed). *)
Inductive reason : Set :=
| UnexpectedEndOfData | InvalidNumber | InvalidNumberStart
| InvalidNumberUnexpectedQuoting | InvalidTimestamp | InvalidUTFEscape
| InvalidUTFCodepoint | InvalidEndOfValue | InvalidLiteral | InvalidString
| InvalidStringHighASCII | InvalidArrayStart | InvalidClassStart
| InvalidStartOfValue | InvalidTrue | InvalidFalse | InvalidNull
| UnexpectedNull | NumberOutOfRange | EmptyJSONDocument | JSONPathNotFound
| InvalidJSONPath | OutputError | MissingMemberName | InvalidMemberName
| ExpectedArrayOrClassStart | UnknownMember | InvalidBracketing
| AttemptToAccessPastEndOfValue | MissingMemberNameOrEndOfClass
| MemberNotFound | ExpectedMemberNotFound | ExpectedTokenNotFound
| TrailingComma | UnexpectedJSONVariantType | NumberIsNaN | NumberIsInf
| ExpectedKeyValueToStartWithBrace | ExpectedKeyValueArrayToStartWithBracket
| TagMemberNotFound | OutOfOrderOrderedMembers.

(** Outcome of running a piece of code.
    [UB]: undefined behaviour (read outside the document, signed overflow...).
    [Fuel]: the model's loop bound was too small; theorems exclude it. *)
Inductive res (A : Type) : Type :=
| Ok (a : A)
| Err (r : reason)
| UB
| Fuel.
Arguments Ok {A} a.
Arguments Err {A} r.
Arguments UB {A}.
Arguments Fuel {A}.

Definition bind {A B} (x : res A) (f : A -> res B) : res B :=
  match x with
  | Ok a => f a
  | Err r => Err r
  | UB => UB
  | Fuel => Fuel
  end.

Declare Scope res_scope.
Delimit Scope res_scope with res.
Notation "x <- e ;; k" := (bind e (fun x => k))
  (at level 61, e at next level, right associativity) : res_scope.
Notation "' p <- e ;; k" := (bind e (fun x => match x with p => k end))
  (at level 61, p pattern, e at next level, right associativity) : res_scope.
Open Scope res_scope.

(** [daw_json_ensure]/[daw_json_assert_weak] in checked mode
    (include/daw/json/impl/daw_json_assert.h). *)
Definition ensure (b : bool) (r : reason) : res unit :=
  if b then Ok tt else Err r.

(** [*p] *)
Definition rd (buf : list N) (i : nat) : res N :=
  match nth_error buf i with
  | Some b => Ok b
  | None => UB
  end.

Definition is_ok {A} (x : res A) : bool :=
  match x with Ok _ => true | _ => false end.

(** Text literals as bytes, for constants of the code and for examples. *)
Fixpoint bytes (s : string) : list N :=
  match s with
  | EmptyString => []
  | String c s' => N_of_ascii c :: bytes s'
  end.

Definition chr (s : string) : N :=
  match s with
  | EmptyString => 0%N
  | String c _ => N_of_ascii c
  end.

(** Character constants that occur in the code. *)
Definition c_quote : N := 34.
Definition c_bslash : N := 92.
Definition c_comma : N := 44.
Definition c_colon : N := 58.
Definition c_lbrace : N := 123.
Definition c_rbrace : N := 125.
Definition c_lbrack : N := 91.
Definition c_rbrack : N := 93.
Definition c_minus : N := 45.
Definition c_plus : N := 43.
Definition c_dot : N := 46.
Definition c_0 : N := 48.
Definition c_e : N := 101.
Definition c_E : N := 69.
Definition c_slash : N := 47.
Definition c_star : N := 42.
Definition c_hash : N := 35.
Definition c_nl : N := 10.
Definition c_t : N := 116.
Definition c_f : N := 102.
Definition c_n : N := 110.
Definition c_u : N := 117.

(** BasicParsePolicy's data members
    (include/daw/json/impl/daw_json_parse_policy.h:154-158).
    [class_first]/[class_last] may be null ([None]): skip_number stores the
    position of the decimal point and exponent in them.  The null [first] that
    skip_null returns is modelled by [isnull]. *)
Record ps : Set := mkps {
  first : nat;
  last : nat;
  cfirst : option nat;
  clast : option nat;
  counter : N;
  isnull : bool
}.

Definition set_first (p : ps) (i : nat) : ps :=
  mkps i (last p) (cfirst p) (clast p) (counter p) (isnull p).
Definition set_last (p : ps) (i : nat) : ps :=
  mkps (first p) i (cfirst p) (clast p) (counter p) (isnull p).
Definition set_counter (p : ps) (n : N) : ps :=
  mkps (first p) (last p) (cfirst p) (clast p) n (isnull p).
Definition set_class (p : ps) (f l : option nat) : ps :=
  mkps (first p) (last p) f l (counter p) (isnull p).

(** BasicParsePolicy( f, l ): daw_json_parse_policy.h:166-170 *)
Definition new_ps (f l : nat) : ps := mkps f l (Some f) (Some l) 0 false.

(** has_more: daw_json_parse_policy.h:304 *)
Definition has_more (p : ps) : bool := first p <? last p.

(** empty: daw_json_parse_policy.h:293-302 (not zero-terminated) *)
Definition ps_empty (p : ps) : bool := isnull p || (last p <=? first p).

(** size: daw_json_parse_policy.h:354-357 *)
Definition ps_size (p : ps) : nat := last p - first p.

(** front: daw_json_parse_policy.h:344 *)
Definition front (buf : list N) (p : ps) : res N := rd buf (first p).

(** [first < last and *first == c]: daw_json_parse_policy.h:408-422 *)
Definition is_at (buf : list N) (p : ps) (c : N) : res bool :=
  if has_more p then (b <- front buf p ;; Ok (b =? c)%N) else Ok false.
