(** What iterating over an array or over JSON Lines is to give; independent of the
    iterators. *)
From Coq Require Import List NArith Bool.
From Verif Require Import SpecText SpecJson SpecTyped ValueModel IterModel PropertiesSkip.
Import ListNotations.
Local Open Scope N_scope.

(** Every element in turn, the [i]-th as often as it was looked at *)
Fixpoint seen (times : nat -> nat) (i : nat) (xs : list val) : list (list val) :=
  match xs with
  | [] => []
  | x :: xs => repeat x (times i) :: seen times (S i) xs
  end.

(** Texts of values, each ended by a line feed; the last line may be without.
    Whitespace and empty lines do not matter. *)
Inductive json_lines : list (jv * list N) -> list N -> Prop :=
| jl_end w : ws w -> json_lines [] w
| jl_last w v t w' : ws w -> jtext str_body v t -> ws w' -> json_lines [(v, t)] (w ++ t ++ w')
| jl_line w v t w' ls r : ws w -> jtext str_body v t -> ws w' -> json_lines ls r ->
    json_lines ((v, t) :: ls) (w ++ t ++ w' ++ 10 :: r).

(** The types a line is read as: not signed numbers and booleans; custom types that
    are given strings. *)
Fixpoint line_type (t : ty) : bool :=
  match t with
  | TInt _ _ | TBool | TCustom (CuLiteral | CuAny) => false
  | TNullable t => line_type t
  | TVariant alts | TIntrusive _ _ _ _ alts => forallb line_type alts
  | _ => true
  end.

(** The types whose elements can be passed over without looking at them *)
Definition passed (t : ty) : bool :=
  match t with TBool | TNullable _ | TCustom (CuLiteral | CuAny) => false | _ => true end.

(** The types whose values take at least a byte: not those an absent value is read
    as; arrays and variants are left out. *)
Fixpoint advances (t : ty) : bool :=
  match t with
  | TNullable _ | TArr _ | TKvArr _ _ _ _ _ | TVariant _ => false
  | TIntrusive _ _ _ _ alts => forallb advances alts
  | _ => true
  end.

(** What a line stands for; lines taken as they are may not be words. *)
Definition line_value (nc : list (list N) -> list N -> Prop) (e : elem) (l : jv * list N) (x : val) : Prop :=
  match e with
  | EType t => typed nc t (fst l) x /\ line_type t = true
  | ERaw => is_word (fst l) = false /\ x = VStr (snd l)
  end.
Definition line_passed (e : elem) : bool :=
  match e with EType (TVariant _) => false | EType t => passed t | ERaw => true end.
