(** Model of member names, of classes and of typed values.

    Modelled configuration: checked input, no comments, not zero-terminated, not
    minified, expect_long off.  [c_ex] is the execution mode, [c_excl]
    ExcludeSpecialEscapes, [c_force] ForceFullNameCheck, [c_escnames]
    AllowEscapedNames. *)
From Coq Require Import List NArith ZArith Bool Arith.
From Verif Require Import Base PolicyModel IntModel Loop StrScanModel SkipModel HashModel StrDecodeModel.
Import ListNotations.
Local Open Scope N_scope.

Record cfg := mkcfg { c_ex : exec_mode; c_excl : bool; c_force : bool; c_escnames : bool }.
(** The default policy *)
Definition default_cfg : cfg := mkcfg ExConstexpr false false false.

Definition skip_val (g : cfg) (buf : list N) (p : ps) : res (ps * ps) :=
  skip_value CNone true (c_ex g) (c_excl g) false buf p.
Definition move_next (buf : list N) (p : ps) : res ps := move_next_member_or_end true buf p.

(** ** Member names *)

(** trim_end_of_name: daw_json_parse_name.h:33-41 *)
Definition trim_end_of_name (buf : list N) (p : ps) : res ps :=
  p <- trim_left_checked buf p ;;
  _ <- ensure (has_more p) UnexpectedEndOfData ;;
  c <- front buf p ;;
  _ <- ensure (c =? c_colon) InvalidMemberName ;;
  trim_left_checked buf (remove_prefix p 1).

Definition view (buf : list N) (i j : nat) : list N := firstn (j - i) (skipn i buf).

(** parse_nq of names: daw_json_parse_name.h:43-66.  The byte before the quote is
    always inside the document: the opening quote, at least. *)
Definition parse_name_nq (g : cfg) (buf : list N) (p : ps) : res (list N * ps) :=
  if c_escnames g then
    '(r, p) <- skip_string_nq true (c_ex g) (c_excl g) buf p ;;
    p <- trim_end_of_name buf p ;;
    Ok (view buf (first r) (last r), p)
  else
    j <- memchr_checked c_quote buf (first p) (last p) ;;
    let q := set_first p j in
    ok <- is_at buf q c_quote ;;
    ok <- (if ok : bool then
             match j with O => UB | S i => b <- rd buf i ;; Ok (negb (b =? c_bslash)) end
           else Ok false) ;;
    _ <- ensure ok InvalidString ;;
    let name := view buf (first p) j in
    q <- trim_end_of_name buf (remove_prefix q 1) ;;
    Ok (name, q).

(** parse_name: daw_json_parse_name.h:144-156 *)
Definition parse_name (g : cfg) (buf : list N) (p : ps) : res (list N * ps) :=
  q <- is_at buf p c_quote ;;
  _ <- ensure q InvalidMemberName ;;
  parse_name_nq g buf (remove_prefix p 1).

(** ** Values *)

(** What parsing yields.  [VNone]/[VSome] are an empty and a filled nullable,
    [VVariant i v] is a variant that holds the alternative [i]. *)
Inductive val : Set :=
| VInt (z : Z)
| VBool (b : bool)
| VStr (s : list N)
| VNone
| VSome (v : val)
| VArr (vs : list val)
| VClass (vs : list val)
| VTuple (vs : list val)
| VMap (kvs : list (list N * val))
| VVariant (i : nat) (v : val).

(** A parser for one type: with known or unknown bounds. *)
Definition parser : Type := bool -> list N -> ps -> res (val * ps).

(** ** Class members *)

(** location_info_t without a range: daw_json_location_info.h:38-43 *)
Definition no_loc : ps := mkps 0 0 None None 0 true.

Fixpoint set_nth (l : list ps) (i : nat) (x : ps) : list ps :=
  match l, i with
  | [], _ => []
  | _ :: r, O => x :: r
  | y :: r, S i' => y :: set_nth r i' x
  end.

(** The loop of find_class_member: daw_json_location_info.h:218-272.  The state
    is the parser's and the locations. *)
Definition find_body (g : cfg) (exact : bool) (names : list (list N)) (pos : nat)
  (buf : list N) (s : ps * list ps) : res ((ps * list ps) + (ps * list ps)) :=
  let '(p, locs) := s in
  go <- (if isnull (nth pos locs no_loc) then
           if ps_empty p then Ok false
           else c <- front buf p ;; Ok (negb (c =? c_rbrace))
         else Ok false) ;;
  if negb go then Ok (inr (p, locs))
  else
    '(name, p) <- parse_name g buf p ;;
    let k := find_name (c_force g) false names pos name in
    if (length names <=? k)%nat then
      if exact then Err UnknownMember
      else
        '(_, p) <- skip_val g buf p ;;
        p <- move_next buf p ;;
        Ok (inl (p, locs))
    else if (k =? pos)%nat then Ok (inr (p, set_nth locs pos p))
    else
      '(r, p) <- skip_val g buf p ;;
      p <- move_next buf p ;;
      Ok (inl (p, set_nth locs k r)).

(** find_class_member: daw_json_location_info.h:198-288.  Returns the parser
    state, the locations and whether the range was known. *)
Definition find_class_member (g : cfg) (exact : bool) (names : list (list N)) (pos : nat)
  (nullable : bool) (buf : list N) (p : ps) (locs : list ps) : res (ps * list ps * bool) :=
  let missing l := isnull (nth pos l no_loc) in
  brace <- is_at buf p c_rbrace ;;
  _ <- ensure (nullable || negb (missing locs) || negb brace) MemberNotFound ;;
  p <- trim_left_unchecked buf p ;;
  let known := negb (missing locs) in
  '(p, locs) <- loop (find_body g exact names pos buf) (S (length buf)) (p, locs) ;;
  Ok (p, locs, known || missing locs).

(** parse_class_member: daw_json_parse_class.h:94-151.  The restoring of the
    class position after a member is not modelled: the values modelled here
    leave it as they found it. *)
Definition parse_class_member (g : cfg) (exact : bool) (names : list (list N)) (pos : nat)
  (nullable : bool) (parse : parser) (buf : list N) (p : ps) (locs : list ps)
  : res (val * ps * list ps) :=
  p <- move_next buf p ;;
  ok <- (if ps_empty p then Ok false
         else c <- front buf p ;; Ok ((c =? c_quote) || (c =? c_rbrace))) ;;
  _ <- ensure ok MissingMemberNameOrEndOfClass ;;
  '(p, locs, known) <- find_class_member g exact names pos nullable buf p locs ;;
  let loc := nth pos locs no_loc in
  if negb known then
    '(v, p) <- parse false buf p ;; Ok (v, p, locs)
  else if isnull loc then
    if nullable then Ok (VNone, p, locs) else Err MemberNotFound
  else
    '(v, _) <- parse true buf loc ;; Ok (v, p, locs).

(** move_to_next_of for the quote and the closing brace:
    daw_json_parse_policy_no_comments.h:93-135.  Outside of constant evaluation
    mempbrk is called, which does not look at the end even for checked input:
    daw_json_string_util.h:197-209. *)
Definition move_to_next_class_member (g : cfg) (buf : list N) (p : ps) : res ps :=
  match c_ex g with
  | ExConstexpr =>
      _ <- ensure (has_more p) UnexpectedEndOfData ;;
      i <- loop (fun i =>
        c <- rd buf i ;;
        if (c =? c_quote) || (c =? c_rbrace) then Ok (inr i)
        else _ <- ensure (S i <? last p)%nat UnexpectedEndOfData ;; Ok (inl (S i)))
        (S (last p - first p)) (first p) ;;
      Ok (set_first p i)
  | _ =>
      i <- loop (fun i =>
        c <- rd buf i ;;
        Ok (if (c =? c_quote) || (c =? c_rbrace) then inr i else inl (S i)))
        (S (length buf - first p)) (first p) ;;
      Ok (set_first p i)
  end.

(** class_cleanup_now: daw_json_parse_class.h:153-175 *)
Definition class_cleanup_now (g : cfg) (exact : bool) (old : option nat * option nat)
  (buf : list N) (p : ps) : res ps :=
  _ <- ensure (has_more p) UnexpectedEndOfData ;;
  p <- move_next buf p ;;
  p <- move_to_next_class_member g buf p ;;
  p <- (if exact then
          c <- front buf p ;;
          _ <- ensure (c =? c_rbrace) UnknownMember ;;
          Ok (remove_prefix p 1)
        else '(_, p) <- skip_class CNone true (c_ex g) buf p ;; Ok p) ;;
  p <- trim_left_checked buf p ;;
  Ok (set_class p (fst old) (snd old)).

(** A mapped member: its name, whether it is nullable, its parser. *)
Record member := mkmember { m_name : list N; m_nullable : bool; m_parse : parser }.

(** The members are parsed in mapping order: daw_json_parse_class.h:235-278. *)
Fixpoint parse_members (g : cfg) (exact : bool) (names : list (list N)) (pos : nat)
  (ms : list member) (buf : list N) (p : ps) (locs : list ps) : res (list val * ps) :=
  match ms with
  | [] => Ok ([], p)
  | m :: r =>
      '(v, p, locs) <- parse_class_member g exact names pos (m_nullable m) (m_parse m) buf p locs ;;
      '(vs, p) <- parse_members g exact names (S pos) r buf p locs ;;
      Ok (v :: vs, p)
  end.

(** parse_json_class: daw_json_parse_class.h:184-281 *)
Definition parse_json_class (g : cfg) (exact : bool) (ms : list member) (buf : list N) (p : ps)
  : res (val * ps) :=
  p <- trim_left_checked buf p ;;
  b <- is_at buf p c_lbrace ;;
  _ <- ensure b InvalidClassStart ;;
  let old := (cfirst p, clast p) in
  let p := set_class p (Some (first p)) (Some (last p)) in
  p <- trim_left_checked buf (remove_prefix p 1) ;;
  '(vs, p) <- parse_members g exact (map m_name ms) 0 ms buf p (map (fun _ => no_loc) ms) ;;
  p <- class_cleanup_now g exact old buf p ;;
  Ok (VClass vs, p).

(** parse_value_class: daw_json_parse_value.h:583-611 *)
Definition parse_value_class (g : cfg) (exact : bool) (ms : list member) (known : bool)
  (buf : list N) (p : ps) : res (val * ps) :=
  _ <- ensure (has_more p) UnexpectedEndOfData ;;
  '(v, p) <- parse_json_class g exact ms buf p ;;
  if known then Ok (v, p) else p <- trim_left_checked buf p ;; Ok (v, p).

(** ** Arrays *)

(** After the closing bracket: daw_json_parse_array_iterator.h:95-102 and 141-147
    (the iterator is never the one for known bounds, can_be_random_iterator_v is
    false: daw_json_traits.h:391) *)
Definition end_of_array (buf : list N) (p : ps) : res ps :=
  trim_left_checked buf (remove_prefix p 1).

(** Element and increment: daw_json_parse_array_iterator.h:112-168.  A container
    is filled from the iterator until it equals the default one. *)
Definition array_body (parse : parser) (buf : list N) (s : ps * list val)
  : res ((ps * list val) + (ps * list val)) :=
  let '(p, vs) := s in
  _ <- ensure (has_more p) UnexpectedEndOfData ;;
  '(v, p) <- parse false buf p ;;
  p <- trim_left_checked buf p ;;
  ok <- (if has_more p then c <- front buf p ;; Ok ((c =? c_comma) || (c =? c_rbrack)) else Ok false) ;;
  _ <- ensure ok UnexpectedEndOfData ;;
  p <- move_next buf p ;;
  _ <- ensure (has_more p) UnexpectedEndOfData ;;
  c <- front buf p ;;
  if c =? c_rbrack then p <- end_of_array buf p ;; Ok (inr (p, vs ++ [v]))
  else Ok (inl (p, vs ++ [v])).

(** parse_value_array: daw_json_parse_value.h:672-689.  The whitespace after the
    bracket is skipped without looking at the end, and the iterator's constructor
    (daw_json_parse_array_iterator.h:93-105) reads the next byte. *)
Definition parse_value_array (parse : parser) (buf : list N) (p : ps) : res (val * ps) :=
  p <- trim_left_checked buf p ;;
  b <- is_at buf p c_lbrack ;;
  _ <- ensure b InvalidArrayStart ;;
  p <- trim_left_unchecked buf (remove_prefix p 1) ;;
  c <- front buf p ;;
  if c =? c_rbrack then p <- end_of_array buf p ;; Ok (VArr [], p)
  else
    '(p, vs) <- loop (array_body parse buf) (S (length buf)) (p, []) ;;
    Ok (VArr vs, p).

(** ** Maps: objects whose names are keys *)

(** Element and increment: daw_json_parse_kv_class_iterator.h:112-160 *)
Definition map_body (g : cfg) (parse : parser) (buf : list N) (s : ps * list (list N * val))
  : res ((ps * list (list N * val)) + (ps * list (list N * val))) :=
  let '(p, kvs) := s in
  _ <- ensure (has_more p) UnexpectedEndOfData ;;
  '(k, p) <- parse_value_string_escaped true false (c_ex g) true buf p ;;
  p <- trim_end_of_name buf p ;;
  '(v, p) <- parse false buf p ;;
  p <- move_next buf p ;;
  _ <- ensure (has_more p) UnexpectedEndOfData ;;
  c <- front buf p ;;
  if c =? c_rbrace then p <- trim_left_checked buf (remove_prefix p 1) ;; Ok (inr (p, kvs ++ [(k, v)]))
  else Ok (inl (p, kvs ++ [(k, v)])).

(** parse_value_keyvalue: daw_json_parse_value.h:621-641 and the iterator's
    constructor, daw_json_parse_kv_class_iterator.h:93-107.  The result is the
    sequence of pairs handed to the container. *)
Definition parse_value_keyvalue (g : cfg) (parse : parser) (buf : list N) (p : ps) : res (val * ps) :=
  b <- is_at buf p c_lbrace ;;
  _ <- ensure b ExpectedKeyValueToStartWithBrace ;;
  p <- trim_left_checked buf (remove_prefix p 1) ;;
  _ <- ensure (negb (ps_empty p)) UnexpectedEndOfData ;;
  c <- front buf p ;;
  if c =? c_rbrace then p <- trim_left_checked buf (remove_prefix p 1) ;; Ok (VMap [], p)
  else
    '(p, kvs) <- loop (map_body g parse buf) (S (length buf)) (p, []) ;;
    Ok (VMap kvs, p).

(** ** Tuples *)

(** parse_value_help for members without an index: daw_json_parse_value.h:1087-1110 *)
Fixpoint parse_elements (ps_ : list parser) (buf : list N) (p : ps) : res (list val * ps) :=
  match ps_ with
  | [] => Ok ([], p)
  | parse :: r =>
      _ <- ensure (has_more p) UnexpectedEndOfData ;;
      '(v, p) <- parse false buf p ;;
      p <- move_next buf p ;;
      '(vs, p) <- parse_elements r buf p ;;
      Ok (v :: vs, p)
  end.

(** parse_tuple_value: daw_json_parse_value.h:1005-1148 *)
Definition parse_tuple (g : cfg) (exact : bool) (ps_ : list parser) (buf : list N) (p : ps)
  : res (val * ps) :=
  p <- trim_left_checked buf p ;;
  b <- is_at buf p c_lbrack ;;
  _ <- ensure b InvalidArrayStart ;;
  let old := (cfirst p, clast p) in
  let p := set_class p (Some (first p)) (Some (last p)) in
  p <- move_next buf (remove_prefix p 1) ;;
  p <- trim_left_checked buf p ;;
  '(vs, p) <- parse_elements ps_ buf p ;;
  p <- (if exact then
          p <- trim_left_checked buf p ;;
          c <- front buf p ;;
          _ <- ensure (c =? c_rbrack) UnknownMember ;;
          trim_left_checked buf (remove_prefix p 1)
        else '(_, p) <- skip_array CNone true (c_ex g) buf p ;; Ok p) ;;
  Ok (VTuple vs, set_class p (fst old) (snd old)).

(** ** Scalars *)

(** parse_value_bool: daw_json_parse_value.h:372-431 (not quoted) *)
Definition parse_value_bool (known : bool) (buf : list N) (p : ps) : res (val * ps) :=
  if known then
    c <- front buf p ;;
    if c =? c_t then Ok (VBool true, p)
    else if c =? c_f then Ok (VBool false, p)
    else Err InvalidLiteral
  else
    t <- starts_with buf p [116; 114; 117; 101] ;;
    '(b, p) <-
      (if t : bool then Ok (true, remove_prefix p 4)
       else
         f <- starts_with buf p [102; 97; 108; 115; 101] ;;
         if f : bool then Ok (false, remove_prefix p 5) else Err InvalidLiteral) ;;
    p <- trim_left_checked buf p ;;
    e <- end_of_item_ok buf p ;;
    _ <- ensure e InvalidEndOfValue ;;
    Ok (VBool b, p).

(** parse_value_null: daw_json_parse_value.h:293-370 *)
Definition parse_value_null (parse : parser) (known : bool) (buf : list N) (p : ps) : res (val * ps) :=
  let base (k : bool) := '(v, p) <- parse k buf p ;; Ok (VSome v, p) in
  if known then if isnull p then Ok (VNone, p) else base true
  else
    none <- (if has_more p then c <- front buf p ;; Ok (is_token_after_value c) else Ok true) ;;
    if none : bool then Ok (VNone, p)
    else
      n <- starts_with buf p [110; 117; 108; 108] ;;
      if n : bool then
        let p := remove_prefix p 4 in
        e <- end_of_item_ok buf p ;;
        _ <- ensure e InvalidLiteral ;;
        p <- trim_left_checked buf p ;;
        Ok (VNone, p)
      else base false.

(** ** Arrays of objects with a key and a value *)

(** parse_value_keyvalue_array: daw_json_parse_value.h:651-670, and the
    iterator's constructor, daw_json_parse_kv_array_iterator.h:79-91: whitespace
    after the bracket is not skipped and the next byte is read without looking at
    the end.  Element and increment, daw_json_parse_kv_array_iterator.h:104-153,
    do what the array iterator does; [parse] reads the class with the key and the
    value.  The result is the sequence of pairs handed to the container. *)
Definition parse_value_keyvalue_array (parse : parser) (buf : list N) (p : ps) : res (val * ps) :=
  b <- is_at buf p c_lbrack ;;
  _ <- ensure b ExpectedKeyValueArrayToStartWithBracket ;;
  let p := remove_prefix p 1 in
  c <- front buf p ;;
  if c =? c_rbrack then p <- end_of_array buf p ;; Ok (VArr [], p)
  else
    '(p, vs) <- loop (array_body parse buf) (S (length buf)) (p, []) ;;
    Ok (VArr vs, p).

(** ** Custom types *)

(** options::JsonCustomTypes: daw_json_type_options.h:233-245 *)
Inductive custom := CuString | CuLiteral | CuAny.

(** parse_value_custom: daw_json_parse_value.h:538-581.  The converter is given
    the text and is not modelled: the value is that text. *)
Definition parse_value_custom (g : cfg) (k : custom) (known : bool) (buf : list N) (p : ps) : res (val * ps) :=
  '(r, p) <-
    match k with
    | CuString => if known then Ok (p, p) else skip_string true (c_ex g) (c_excl g) false buf p
    | CuLiteral => if known then Ok (p, p) else skip_literal CNone true buf p
    | CuAny =>
        if known then
          match first p with
          | O => UB
          | S i => b <- rd buf i ;; Ok (if b =? c_quote then set_first p i else p, p)
          end
        else
          c <- front buf p ;;
          if c =? c_quote then
            '(r, p) <- skip_string true (c_ex g) (c_excl g) false buf p ;; Ok (set_first r (first r - 1), p)
          else skip_val g buf p
    end ;;
  ok <- (if has_more r then c <- front buf r ;; Ok (negb ((c =? c_lbrack) || (c =? c_lbrace))) else Ok false) ;;
  _ <- ensure ok InvalidStartOfValue ;;
  Ok (VStr (view buf (first r) (last r)), p).

(** ** Variants *)

(** JsonBaseParseTypes: daw_json_enums.h:52-60 *)
Inductive kind := KNumber | KBool | KString | KClass | KArray.

Definition kind_eqb (a b : kind) : bool :=
  match a, b with
  | KNumber, KNumber | KBool, KBool | KString, KString | KClass, KClass | KArray, KArray => true
  | _, _ => false
  end.

(** base_map of a variant: daw_json_link_types.h:928-967 with find_json_element,
    daw_json_link_types_fwd.h:520-530: the first alternative of a base type (at
    most one of each, :946-948). *)
Fixpoint base_map (k : kind) (i : nat) (alts : list (option kind * parser)) : option (nat * parser) :=
  match alts with
  | [] => None
  | (Some k', parse) :: r => if kind_eqb k k' then Some (i, parse) else base_map k (S i) r
  | (None, _) :: r => base_map k (S i) r
  end.

(** parse_variant_value: daw_json_parse_value.h:729-748 *)
Definition parse_variant_value (k : kind) (alts : list (option kind * parser)) (known : bool)
  (buf : list N) (p : ps) : res (val * ps) :=
  match base_map k 0 alts with
  | Some (i, parse) => '(v, p) <- parse known buf p ;; Ok (VVariant i v, p)
  | None => Err UnexpectedJSONVariantType
  end.

(** parse_value_variant: daw_json_parse_value.h:750-795.  front does not look at
    the end of the data. *)
Definition parse_value_variant (alts : list (option kind * parser)) (known : bool)
  (buf : list N) (p : ps) : res (val * ps) :=
  quoted <- (if known then
               match first p with O => UB | S i => b <- rd buf i ;; Ok (b =? c_quote) end
             else Ok false) ;;
  if quoted : bool then parse_variant_value KString alts known buf p
  else
    c <- front buf p ;;
    if c =? c_lbrace then parse_variant_value KClass alts known buf p
    else if c =? c_lbrack then parse_variant_value KArray alts known buf p
    else if (c =? c_t) || (c =? c_f) then parse_variant_value KBool alts known buf p
    else if c =? c_quote then parse_variant_value KString alts known buf p
    else if ((48 <=? c) && (c <=? 57)) || (c =? c_plus) || (c =? c_minus)
    then parse_variant_value KNumber alts known buf p
    else Err InvalidStartOfValue.

(** parse_visit: daw_json_parse_value.h:797-822.  The bounds are never known. *)
Definition parse_visit (idx : nat) (alts : list parser) (buf : list N) (p : ps) : res (val * ps) :=
  match nth_error alts idx with
  | Some parse => '(v, p) <- parse false buf p ;; Ok (VVariant idx v, p)
  | None => Err MissingMemberNameOrEndOfClass
  end.

(** parse_value_variant_intrusive: daw_json_parse_value.h:862-884.  [tag] reads
    the class that has the tag as its only member, [switch] is the user's
    function from the tag to the index. *)
Definition parse_value_variant_intrusive (tag : parser) (switch : val -> nat) (alts : list parser)
  (buf : list N) (p : ps) : res (val * ps) :=
  '(v, _) <- tag false buf p ;;
  match v with
  | VClass [y] => parse_visit (switch y) alts buf p
  | _ => Fuel
  end.

(** ** Types *)

(** The mapped types.  [rc] is the range check of integers, [exact] whether
    unmapped members are refused; for an array of keys and values and for an
    intrusive variant this is about the classes that are used to read the pair
    and the tag (daw_json_link_types.h:1509-1590, 1659-1735), and set by
    UseExactMappingsByDefault alone. *)
Inductive ty : Type :=
| TUInt (w : N) (rc : bool)
| TInt (w : N) (rc : bool)
| TBool
| TStr
| TNullable (t : ty)
| TArr (t : ty)
| TMap (t : ty)
| TClass (exact : bool) (ms : list (list N * ty))
| TTuple (exact : bool) (ts : list ty)
| TKvArr (exact : bool) (kn : list N) (k : ty) (vn : list N) (v : ty)
| TCustom (k : custom)
| TVariant (alts : list ty)
| TIntrusive (exact : bool) (tag : list N) (t : ty) (switch : val -> nat) (alts : list ty).

(** is_json_nullable_v *)
Definition is_nullable (t : ty) : bool := match t with TNullable _ => true | _ => false end.

(** underlying_json_type of the types in daw_json_link_types.h.  A
    custom type counts as a string whatever it accepts; variants have no base
    type. *)
Fixpoint base_kind (t : ty) : option kind :=
  match t with
  | TUInt _ _ | TInt _ _ => Some KNumber
  | TBool => Some KBool
  | TStr | TCustom _ => Some KString
  | TNullable t => base_kind t
  | TMap _ | TClass _ _ => Some KClass
  | TArr _ | TTuple _ _ | TKvArr _ _ _ _ _ => Some KArray
  | TVariant _ | TIntrusive _ _ _ _ _ => None
  end.

(** parse_value: daw_json_parse_value.h:1176-1225 *)
Fixpoint parse_value (g : cfg) (t : ty) : parser :=
  fun known buf p =>
  match t with
  | TUInt w rc => '(v, p) <- parse_value_unsigned known LSNever w rc buf p ;; Ok (VInt (Z.of_N v), p)
  | TInt w rc => '(v, p) <- parse_value_signed known LSNever w rc buf p ;; Ok (VInt v, p)
  | TBool => parse_value_bool known buf p
  | TStr => '(s, p) <- parse_value_string_escaped true known (c_ex g) true buf p ;; Ok (VStr s, p)
  | TNullable t => parse_value_null (parse_value g t) known buf p
  | TArr t => parse_value_array (parse_value g t) buf p
  | TMap t => parse_value_keyvalue g (parse_value g t) buf p
  | TClass exact ms =>
      parse_value_class g exact
        (map (fun m => mkmember (fst m) (is_nullable (snd m)) (parse_value g (snd m))) ms) known buf p
  | TTuple exact ts => parse_tuple g exact (map (parse_value g) ts) buf p
  | TKvArr exact kn tk vn tv =>
      parse_value_keyvalue_array
        (parse_value_class g exact
           [mkmember kn (is_nullable tk) (parse_value g tk); mkmember vn (is_nullable tv) (parse_value g tv)]) buf p
  | TCustom k => parse_value_custom g k known buf p
  | TVariant alts => parse_value_variant (map (fun t => (base_kind t, parse_value g t)) alts) known buf p
  | TIntrusive exact tag t switch alts =>
      parse_value_variant_intrusive
        (parse_value_class g exact [mkmember tag (is_nullable t) (parse_value g t)]) switch
        (map (parse_value g) alts) buf p
  end.

(** from_json: daw_from_json.h:37-84 without a path.  A terminating zero that is
    part of the range is dropped; [verify] is MustVerifyEndOfDataIsValid. *)
Definition from_json (g : cfg) (verify : bool) (t : ty) (doc : list N) : res val :=
  _ <- ensure (negb (length doc =? 0)%nat) EmptyJSONDocument ;;
  z <- rd doc (length doc - 1) ;;
  let l := if z =? 0 then (length doc - 1)%nat else length doc in
  '(v, p) <- parse_value g t false doc (new_ps 0 l) ;;
  if verify then
    p <- trim_left_checked doc p ;;
    _ <- ensure (ps_empty p) InvalidEndOfValue ;;
    Ok v
  else Ok v.
