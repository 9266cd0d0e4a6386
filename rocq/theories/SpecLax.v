(** Specification of what the library accepts, independent of the model: a grammar
    that is wider than JSON in the places named below.  A text of the grammar comes
    with the value it stands for. *)
From Coq Require Import List NArith ZArith Bool.
From Verif Require Import SpecNum SpecText SpecJson SpecUnicode ValueModel.
Import ListNotations.
Local Open Scope N_scope.

(** Whitespace: any byte from 1 to 32 *)
Definition blanks (w : list N) : Prop := Forall (fun c => 1 <= c <= 32) w.

Definition not_at (c : N) (r : list N) : Prop := match r with [] => True | d :: _ => d <> c end.

(** A comma that may be left out, with whitespace; a comma that is there is taken *)
Definition sep (s r : list N) : Prop := (blanks s /\ not_at 44 r) \/ (exists w1 w2, blanks w1 /\ blanks w2 /\ s = w1 ++ 44 :: w2).

(** The value of a sign and digits *)
Definition with_sign (neg : bool) (ds : list N) : Z := if neg then (- Z.of_N (dec_val ds))%Z else Z.of_N (dec_val ds).

(** What is between the quotes stands for what JSON says it denotes; nothing is said
    of the escapes to which JSON gives no meaning (C12, C13). *)
Definition stands (b s : list N) : Prop := forall s', SpecUnicode.denotes b s' -> s = s'.

(** Only arrays and tuples may have whitespace in front *)
Definition skips_blanks (t : ty) : bool := match t with TArr _ | TTuple _ _ => true | _ => false end.

(** What may follow a number, true, false and null, and what may follow nothing *)
Definition ends_value (r : list N) : Prop := match r with [] => True | c :: _ => c <= 32 \/ 128 <= c \/ In c [44; 58; 93; 125] end.
Definition ends_nothing (r : list N) : Prop := match r with [] => True | c :: _ => In c [44; 93; 125] end.

(** [lax t x tx r]: the text [tx], followed by [r], stands for [x] at the type [t].

    Wider than JSON: leading zeros; a minus sign without digits; numbers that do not
    fit, modulo their type; nothing in place of null; a comma behind the last element
    of an array; commas left out between the members of a map and the elements of a
    tuple, or superfluous in front of and behind them; whitespace, and bytes above
    127 behind a number or word.  Strings are anything between quotes. *)
Inductive lax : ty -> val -> list N -> list N -> Prop :=
| lx_uint : forall w rc ds r, digits ds -> ds <> [] -> ends_value r -> lax (TUInt w rc) (VInt (Z.of_N ((dec_val ds mod 2^64) mod 2^w))) ds r
| lx_int : forall w rc (neg : bool) ds z r, digits ds -> (neg = false -> ds <> []) -> ends_value r ->
    (In w [8; 16; 32; 64] -> (- 2^(Z.of_N w - 1) <= with_sign neg ds < 2^(Z.of_N w - 1))%Z -> ~ (w = 32 /\ with_sign neg ds = (- 2^31)%Z) ->
      z = with_sign neg ds) ->
    lax (TInt w rc) (VInt z) ((if neg then [45] else []) ++ ds) r
| lx_true : forall r, ends_value r -> lax TBool (VBool true) [116; 114; 117; 101] r
| lx_false : forall r, ends_value r -> lax TBool (VBool false) [102; 97; 108; 115; 101] r
| lx_str : forall b s r, str_body b -> stands b s -> lax TStr (VStr s) (34 :: b ++ [34]) r
| lx_null : forall t r, ends_value r -> lax (TNullable t) VNone [110; 117; 108; 108] r
| lx_nothing : forall t r, ends_nothing r -> lax (TNullable t) VNone [] r
| lx_some : forall t x tx r, lax t x tx r -> ~ ends_nothing (tx ++ r) -> (forall u, tx ++ r <> [110; 117; 108; 108] ++ u) -> lax (TNullable t) (VSome x) tx r
| lx_arr0 : forall t w r, blanks w -> lax (TArr t) (VArr []) (91 :: w ++ [93]) r
| lx_arr : forall t xs w tx r, blanks w -> lelems t xs tx (93 :: r) -> not_at 93 (tx ++ 93 :: r) -> lax (TArr t) (VArr xs) (91 :: w ++ tx ++ [93]) r
| lx_map0 : forall t w r, blanks w -> lax (TMap t) (VMap []) (123 :: w ++ [125]) r
| lx_map : forall t kxs w tx r, blanks w -> lpairs t kxs tx (125 :: r) -> lax (TMap t) (VMap kxs) (123 :: w ++ tx ++ [125]) r
| lx_tuple : forall ts xs s w tx w' r, sep s (w ++ tx ++ w' ++ 93 :: r) -> blanks w -> ltuple ts xs tx (w' ++ 93 :: r) -> blanks w' ->
    lax (TTuple true ts) (VTuple xs) (91 :: s ++ w ++ tx ++ w' ++ [93]) r
| lx_front : forall t x w tx r, skips_blanks t = true -> blanks w -> lax t x tx r -> lax t x (w ++ tx) r
| lx_behind : forall t x tx w r, lax t x tx (w ++ r) -> blanks w -> lax t x (tx ++ w) r
with lelems : ty -> list val -> list N -> list N -> Prop :=
| le_last : forall t x tx r, lax t x tx r -> lelems t [x] tx r
| le_trailing : forall t x tx w r, lax t x tx (44 :: w ++ r) -> blanks w -> lelems t [x] (tx ++ 44 :: w) r
| le_cons : forall t x tx w xs tx' r, lax t x tx (44 :: w ++ tx' ++ r) -> blanks w -> lelems t xs tx' r -> not_at 93 (tx' ++ r) -> lelems t (x :: xs) (tx ++ 44 :: w ++ tx') r
with lpairs : ty -> list (list N * val) -> list N -> list N -> Prop :=
| lp_one : forall t b k w1 w2 x tx s r, str_body b -> stands b k -> blanks w1 -> blanks w2 -> lax t x tx (s ++ r) -> sep s r ->
    lpairs t [(k, x)] ((34 :: b ++ [34]) ++ w1 ++ 58 :: w2 ++ tx ++ s) r
| lp_cons : forall t b k w1 w2 x tx s kxs tx' r, str_body b -> stands b k -> blanks w1 -> blanks w2 -> lax t x tx (s ++ tx' ++ r) -> sep s (tx' ++ r) ->
    lpairs t kxs tx' r -> lpairs t ((k, x) :: kxs) ((34 :: b ++ [34]) ++ w1 ++ 58 :: w2 ++ tx ++ s ++ tx') r
with ltuple : list ty -> list val -> list N -> list N -> Prop :=
| lt_nil : forall r, ltuple [] [] [] r
| lt_cons : forall t ts x xs tx s tx' r, lax t x tx (s ++ tx' ++ r) -> sep s (tx' ++ r) -> ltuple ts xs tx' r ->
    ltuple (t :: ts) (x :: xs) (tx ++ s ++ tx') r.

Scheme lax_mut := Induction for lax Sort Prop
  with lelems_mut := Induction for lelems Sort Prop
  with lpairs_mut := Induction for lpairs Sort Prop
  with ltuple_mut := Induction for ltuple Sort Prop.
Combined Scheme lax_ind4 from lax_mut, lelems_mut, lpairs_mut, ltuple_mut.

(** The types of the claim *)
Fixpoint lax_type (t : ty) : bool :=
  match t with
  | TUInt _ _ | TInt _ _ | TBool | TStr => true
  | TNullable t | TArr t | TMap t => lax_type t
  | TTuple exact ts => exact && forallb lax_type ts
  | _ => false
  end.
