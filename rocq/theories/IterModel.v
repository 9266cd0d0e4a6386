(** Model of the iterators over the elements of an array and over the values of a
    JSON Lines document: daw_json_iterator.h, daw_json_lines_iterator.h, with
    skip_known_value of daw_json_skip.h.  Same configuration as ValueModel.

    Copies of an iterator share nothing, so a call is a function from the state of
    the iterator before to its result and the state after. *)
From Coq Require Import List NArith ZArith Bool Arith.
From Verif Require Import Base PolicyModel IntModel Loop StrScanModel SkipModel ValueModel PathModel TagModel.
Import ListNotations.
Local Open Scope N_scope.

(** JsonElement: a mapped type, or json_value, whose value is the text. *)
Inductive elem := EType (t : ty) | ERaw.

Definition elem_parse (g : cfg) (e : elem) : parser :=
  match e with EType t => parse_value g t | ERaw => parse_value_unknown g end.

(** Skipping of a string, daw_json_skip.h:371-381: the state after it *)
Definition skip_known_string (g : cfg) (buf : list N) (p : ps) : res ps :=
  c <- front buf p ;;
  _ <- ensure (c =? c_quote) InvalidString ;;
  '(_, p) <- skip_string_nq true (c_ex g) (c_excl g) buf (remove_prefix p 1) ;;
  Ok p.

(** skip_known_value: daw_json_skip.h:367-401.  The state after the value. *)
Definition skip_known_value (g : cfg) (e : elem) (buf : list N) (p : ps) : res ps :=
  _ <- ensure (has_more p) UnexpectedEndOfData ;;
  match e with
  | EType (TStr | TCustom _) => skip_known_string g buf p
  | EType (TUInt _ _ | TInt _ _ | TBool | TNullable _) => '(_, p) <- skip_number true buf p ;; Ok p
  | EType (TArr _) =>
      b <- is_at buf p c_lbrack ;;
      _ <- ensure b InvalidArrayStart ;;
      '(_, p) <- skip_array CNone true (c_ex g) buf p ;; Ok p
  | EType (TClass _ _) =>
      b <- is_at buf p c_lbrace ;;
      _ <- ensure b InvalidClassStart ;;
      '(_, p) <- skip_class CNone true (c_ex g) buf p ;; Ok p
  | _ => '(_, p) <- skip_val g buf p ;; Ok p
  end.

(** ** Iterators *)

(** m_state and m_can_skip: daw_json_iterator.h:83-88, daw_json_lines_iterator.h:56-61 *)
Record iter := mkiter { it_state : ps; it_skip : option nat }.

(** The default constructed iterator *)
Definition it_end : iter := mkiter no_loc None.

(** Constructor over the text: daw_json_iterator.h:93-102 *)
Definition array_iter (doc : list N) : res iter :=
  p <- trim_left_checked doc (new_ps 0 (length doc)) ;;
  b <- is_at doc p c_lbrack ;;
  _ <- ensure b InvalidArrayStart ;;
  p <- trim_left_checked doc (remove_prefix p 1) ;;
  Ok (mkiter p None).

(** get_range: daw_json_iterator.h:62-71.  front does not look at the end. *)
Definition get_range (g : cfg) (doc path : list N) : res ps :=
  '(p, found) <- find_range g doc path ;;
  _ <- ensure found JSONPathNotFound ;;
  c <- front doc p ;;
  _ <- ensure (c =? c_lbrack) InvalidArrayStart ;;
  Ok p.

(** Constructor with a path: daw_json_iterator.h:104-114 *)
Definition array_iter_path (g : cfg) (doc path : list N) : res iter :=
  p <- get_range g doc path ;;
  p <- trim_left_checked doc p ;;
  b <- is_at doc p c_lbrack ;;
  _ <- ensure b InvalidArrayStart ;;
  p <- trim_left_checked doc (remove_prefix p 1) ;;
  Ok (mkiter p None).

(** Constructor over lines: daw_json_lines_iterator.h:66-71 *)
Definition lines_iter (doc : list N) : res iter :=
  p <- trim_left_checked doc (new_ps 0 (length doc)) ;;
  Ok (mkiter p None).

(** [m_state.has_more( ) and m_state.front( ) != ']']; lines ([arr] is false) have
    no closing bracket. *)
Definition at_element (arr : bool) (doc : list N) (p : ps) : res bool :=
  if has_more p then
    if arr then c <- front doc p ;; Ok (negb (c =? c_rbrack)) else Ok true
  else Ok false.

(** operator*: daw_json_iterator.h:129-140, daw_json_lines_iterator.h:76-87.
    Where the parser stopped is kept. *)
Definition deref (arr : bool) (parse : parser) (doc : list N) (it : iter) : res (val * iter) :=
  b <- at_element arr doc (it_state it) ;;
  _ <- ensure b UnexpectedEndOfData ;;
  '(v, p) <- parse false doc (it_state it) ;;
  Ok (v, mkiter (it_state it) (Some (first p))).

(** operator++: daw_json_iterator.h:155-166, daw_json_lines_iterator.h:100-111 *)
Definition incr (arr : bool) (skip : list N -> ps -> res ps) (doc : list N) (it : iter) : res iter :=
  b <- at_element arr doc (it_state it) ;;
  _ <- ensure b UnexpectedEndOfData ;;
  p <- match it_skip it with
       | Some i => Ok (set_first (it_state it) i)
       | None => skip doc (it_state it)
       end ;;
  p <- move_next doc p ;;
  Ok (mkiter p None).

(** good: daw_json_iterator.h:179-182, daw_json_lines_iterator.h:120-122 *)
Definition good (arr : bool) (doc : list N) (it : iter) : res bool :=
  if isnull (it_state it) then Ok false else at_element arr doc (it_state it).

(** operator== and operator!=: daw_json_iterator.h:193-216, daw_json_lines_iterator.h:133-156 *)
Definition it_eq (arr : bool) (doc : list N) (a b : iter) : res bool :=
  ga <- good arr doc a ;;
  gb <- good arr doc b ;;
  Ok (if negb ga then negb gb else if negb gb then false else (first (it_state a) =? first (it_state b))%nat).
Definition it_neq (arr : bool) (doc : list N) (a b : iter) : res bool :=
  ga <- good arr doc a ;;
  gb <- good arr doc b ;;
  Ok (if negb ga then gb else if negb gb then true else negb (first (it_state a) =? first (it_state b))%nat).

(** ** What programs do with them *)

(** [n] times operator* *)
Fixpoint deref_times (n : nat) (arr : bool) (parse : parser) (doc : list N) (it : iter) : res (list val * iter) :=
  match n with
  | O => Ok ([], it)
  | S n =>
      '(v, it) <- deref arr parse doc it ;;
      '(vs, it) <- deref_times n arr parse doc it ;;
      Ok (v :: vs, it)
  end.

(** [for( i = 0; it != end; ++it, ++i )], the element looked at [times i] times:
    what every turn saw.  [times] is 1 for a range based for, 0 for std::distance.
    [Fuel]: there are more turns. *)
Fixpoint walk (fuel : nat) (arr : bool) (parse : parser) (skip : list N -> ps -> res ps) (times : nat -> nat) (i : nat)
  (doc : list N) (it : iter) : res (list (list val)) :=
  match fuel with
  | O => Fuel
  | S f =>
      more <- it_neq arr doc it it_end ;;
      if more : bool then
        '(vs, it) <- deref_times (times i) arr parse doc it ;;
        it <- incr arr skip doc it ;;
        r <- walk f arr parse skip times (S i) doc it ;;
        Ok (vs :: r)
      else Ok []
  end.

(** Over json_array_range, daw_json_iterator.h:363-402 *)
Definition walk_array (g : cfg) (e : elem) (times : nat -> nat) (fuel : nat) (doc : list N) : res (list (list val)) :=
  it <- array_iter doc ;; walk fuel true (elem_parse g e) (skip_known_value g e) times 0 doc it.

(** Over json_array_range with a path, daw_json_iterator.h:377-381 *)
Definition walk_array_path (g : cfg) (e : elem) (times : nat -> nat) (fuel : nat) (doc path : list N) : res (list (list val)) :=
  it <- array_iter_path g doc path ;; walk fuel true (elem_parse g e) (skip_known_value g e) times 0 doc it.

(** Over json_lines_range, daw_json_lines_iterator.h:167-204 *)
Definition walk_lines (g : cfg) (e : elem) (times : nat -> nat) (fuel : nat) (doc : list N) : res (list (list val)) :=
  it <- lines_iter doc ;; walk fuel false (elem_parse g e) (skip_known_value g e) times 0 doc it.

(** ** json_array_iterator_once *)

(** operator*, daw_json_iterator.h:288-295: the state is moved *)
Definition once_deref (parse : parser) (doc : list N) (p : ps) : res (val * ps) :=
  b <- at_element true doc p ;;
  _ <- ensure b UnexpectedEndOfData ;;
  parse false doc p.

(** operator++: daw_json_iterator.h:301-306 *)
Definition once_incr (doc : list N) (p : ps) : res ps :=
  b <- at_element true doc p ;;
  _ <- ensure b UnexpectedEndOfData ;;
  move_next doc p.

Definition once_good (doc : list N) (p : ps) : res bool :=
  if isnull p then Ok false else at_element true doc p.

(** operator== and operator!=: daw_json_iterator.h:333-357 *)
Definition once_eq (doc : list N) (a b : ps) : res bool :=
  ga <- once_good doc a ;;
  gb <- once_good doc b ;;
  Ok (if negb ga then gb else if negb gb then false else (first a =? first b)%nat).
Definition once_neq (doc : list N) (a b : ps) : res bool :=
  ga <- once_good doc a ;;
  gb <- once_good doc b ;;
  Ok (if negb ga then negb gb else if negb gb then true else negb (first a =? first b)%nat).

(** A range based for over json_array_range_once, daw_json_iterator.h:405-443 *)
Fixpoint once_walk (fuel : nat) (parse : parser) (doc : list N) (p : ps) : res (list val) :=
  match fuel with
  | O => Fuel
  | S f =>
      more <- once_neq doc p no_loc ;;
      if more : bool then
        '(v, p) <- once_deref parse doc p ;;
        p <- once_incr doc p ;;
        r <- once_walk f parse doc p ;;
        Ok (v :: r)
      else Ok []
  end.
Definition walk_once (g : cfg) (e : elem) (fuel : nat) (doc : list N) : res (list val) :=
  it <- array_iter doc ;; once_walk fuel (elem_parse g e) doc (it_state it).
