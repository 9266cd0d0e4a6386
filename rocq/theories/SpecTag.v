(** What the members of a document mean for members that depend on another one:
    variants with a tag and arrays with a size. *)
From Coq Require Import List NArith ZArith Bool.
From Verif Require Import SpecNum SpecText SpecJson SpecPath ValueModel TagModel SpecTyped.
Import ListNotations.
Local Open Scope N_scope.

(** The names mapped before [k] *)
Fixpoint before (k : list N) (names : list (list N)) : list (list N) :=
  match names with
  | [] => []
  | n :: r => if list_eq_dec N.eq_dec n k then [] else n :: before k r
  end.

(** When the member [k] comes, those mapped before it have been there, and were
    not null. *)
Definition in_turn (names : list (list N)) (js : list (list N * jv)) (k : list N) : Prop :=
  forall a v b, js = a ++ (k, v) :: b -> forall n, In n (before k names) -> exists w, lookup n a = Some w /\ w <> JNull.

(** Objects, arrays, true and false *)
Definition no_text (v : jv) : Prop := match v with JObj _ | JArr _ | JTrue | JFalse => True | _ => False end.

Section Means.
  Context (nc : list (list N) -> list N -> Prop).

  (** A member that is there, or missing and nullable *)
  Definition has (k : list N) (t : ty) (js : list (list N * jv)) (y : val) : Prop :=
    match lookup k js with Some v => typed nc t v y | None => is_nullable t = true /\ y = VNone end.

  Definition member_means (names : list (list N)) (js : list (list N * jv)) (nm : list N) (m : mty) (y : val) : Prop :=
    match m with
    | MPlain t => has nm t js y
    | MTagged exact tag t switch alts => exists v s z a,
        lookup nm js = Some v /\ v <> JNull /\
        no_repeat [tag] js /\ Forall (nc [tag]) (map fst js) /\ (exact = true -> forall k, In k (map fst js) -> In k [tag]) /\
        has tag t js s /\ nth_error alts (switch s) = Some a /\ typed nc a v z /\ y = VVariant (switch s) z /\
        (no_text v \/ in_turn names js nm)
    | MSized name sz t => exists v n z xs,
        lookup nm js = Some v /\ simple name /\ lookup name js = Some n /\
        typed nc sz n (VInt z) /\ typed nc (TArr t) v (VArr xs) /\ y = VTuple [VInt (z mod 2^64); VArr xs] /\
        in_turn names js nm
    | MRaw => False
    end.

  Definition class_means (exact : bool) (mm : list (list N * mty)) (js : list (list N * jv)) (xs : list val) : Prop :=
    NoDup (map fst mm) /\ no_repeat (map fst mm) js /\ Forall (nc (map fst mm)) (map fst js) /\
    (exact = true -> forall k, In k (map fst js) -> In k (map fst mm)) /\
    Forall2 (fun m y => member_means (map fst mm) js (fst m) (snd m) y) mm xs.
End Means.

(** The document: whitespace, the object, whitespace, and possibly a terminating
    zero. *)
Definition object_document (js : list (list N * jv)) (doc : list N) : Prop :=
  exists w0 tx w z, ws w0 /\ jtext str_body (JObj js) tx /\ ws w /\ (z = [] \/ z = [0]) /\ doc = w0 ++ tx ++ w ++ z.
