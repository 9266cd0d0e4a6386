(** Specification of comments in documents, independent of the model: which texts
    are comments, and what a document is once its comments are replaced by
    spaces. *)
From Coq Require Import List NArith Bool.
From Verif Require Import SpecNum SpecText SpecJson SkipModel.
Import ListNotations.
Local Open Scope N_scope.

(** A comment of the policy: a hash or two slashes up to and including the end of
    the line; or a block with neither stars nor slashes in it.  The number says how
    many bytes of whitespace have to follow it. *)
Inductive comment : pol -> list N -> nat -> Prop :=
| co_hash : forall b, ~ In 10 b -> comment CHash (35 :: b ++ [10]) 0
| co_line : forall b, ~ In 10 b -> comment CCpp (47 :: 47 :: b ++ [10]) 0
| co_block : forall b, ~ In 42 b -> ~ In 47 b -> comment CCpp (47 :: 42 :: b ++ [42; 47]) 2.

(** The byte a comment starts with *)
Definition opens (cp : pol) (c : N) : bool :=
  match cp with Com CCpp => c =? 47 | Com CHash => c =? 35 | _ => false end.

(** What the library takes for whitespace *)
Definition ws_byte (c : N) : bool := (1 <=? c) && (c <=? 32).

(** What may not stand outside of strings and comments: in minified documents,
    whitespace *)
Definition opening (cp : pol) (c : N) : bool :=
  match cp with Min => ws_byte c | _ => opens cp c end.

(** Where comments may stand.  [Ended]: just behind a digit or behind the letter l
    that ends null, where they may not.  [Opened]: behind an opening bracket, and
    comments.  [Spaced]: behind that and whitespace, where they may not. *)
Inductive place := Anywhere | Ended | Opened | Spaced.

Definition after (x : place) (c : N) : place :=
  if c =? 91 then Opened
  else if ws_byte c then match x with Opened | Spaced => Spaced | _ => Anywhere end
  else if ((48 <=? c) && (c <=? 57)) || (c =? 108) then Ended
  else Anywhere.

Definition allowed (x : place) : bool := match x with Anywhere | Opened => true | _ => false end.

(** [blanked cp x doc doc']: [doc'] is [doc] with every comment replaced by as many
    spaces; what looks like a comment inside a string is none. *)
Inductive blanked (cp : pol) : place -> list N -> list N -> Prop :=
| bl_end : forall x, blanked cp x [] []
| bl_byte : forall x c d d', c <> 34 -> c <> 92 -> opening cp c = false ->
    blanked cp (after x c) d d' -> blanked cp x (c :: d) (c :: d')
| bl_str : forall x s d d', str_body s -> blanked cp Anywhere d d' ->
    blanked cp x ((34 :: s ++ [34]) ++ d) ((34 :: s ++ [34]) ++ d')
| bl_com : forall x k n w d d', allowed x = true -> comment cp k n -> ws w -> length w = n ->
    blanked cp x (w ++ d) (w ++ d') -> blanked cp x (k ++ w ++ d) (repeat 32 (length k) ++ w ++ d').
