(** What a document means at a type with classes that are written as arrays;
    independent of the parser. *)
From Coq Require Import List NArith ZArith Bool.
From Verif Require Import Base SpecNum SpecText SpecJson SpecUnicode ValueModel SpecTyped SerModel SpecSer OrdModel.
Import ListNotations.
Local Open Scope N_scope.

(** The place of a member of such a class in the array: the one it names, or the
    one behind that of the member before it *)
Definition place (k : option nat) (next : nat) : nat := match k with Some i => i | None => next end.
(** The place behind the last member *)
Fixpoint past (ks : list (option nat)) (next : nat) : nat :=
  match ks with [] => next | k :: ks => past ks (S (place k next)) end.
(** Every member is placed behind the one before it. *)
Fixpoint ascending (ks : list (option nat)) (next : nat) : Prop :=
  match ks with [] => True | k :: ks => (next <= place k next)%nat /\ ascending ks (S (place k next)) end.

Section Means.
  Context (nc : list (list N) -> list N -> Prop).

  (** As [typed].  A class of the last kind takes for every member the element at
      its place.  An element that is not there is only possible for a nullable; no
      element behind the last member is possible if the class is exact.  A std::array
      takes as many elements as it has, or fewer, and is filled up with [d]. *)
  Fixpoint o_means (t : oty) (v : jv) (x : val) {struct t} : Prop :=
    match t with
    | OTy t => typed nc t v x
    | ONullable t => v = JNull /\ x = VNone \/ v <> JNull /\ exists y, o_means t v y /\ x = VSome y
    | OArr t => exists es xs, v = JArr es /\ x = VArr xs /\ Forall2 (o_means t) es xs
    | OMap t => exists ms kxs, v = JObj ms /\ x = VMap kxs /\
        Forall2 (fun m kx => SpecUnicode.denotes (fst m) (fst kx) /\ o_means t (snd m) (snd kx)) ms kxs
    | OClass exact mm => exists js xs, v = JObj js /\ x = VClass xs /\
        NoDup (map fst mm) /\ no_repeat (map fst mm) js /\ Forall (nc (map fst mm)) (map fst js) /\
        (exact = true -> forall k, In k (map fst js) -> In k (map fst mm)) /\
        (fix members (mm : list (list N * oty)) (xs : list val) : Prop :=
           match mm, xs with
           | [], [] => True
           | (nm, t) :: mm', y :: xs' =>
               match lookup nm js with
               | Some v' => o_means t v' y
               | None => o_nullable t = true /\ y = VNone
               end /\ members mm' xs'
           | _, _ => False
           end) mm xs
    | OTuple exact ts => exists es xs es2, v = JArr (es ++ es2) /\ x = VTuple xs /\
        (exact = true -> es2 = []) /\ (forall e, hd_error es2 = Some e -> not_array e) /\
        (fix elements (ts : list oty) (es : list jv) (xs : list val) : Prop :=
           match ts, es, xs with
           | [], [], [] => True
           | t :: ts', v' :: es', y :: xs' => o_means t v' y /\ elements ts' es' xs'
           | _, _, _ => False
           end) ts es xs
    | OOrdered exact ms => exists es xs, v = JArr es /\ x = VClass xs /\ ms <> [] /\ ascending (map fst ms) 0 /\
        (exact = true -> (length es <= past (map fst ms) 0)%nat) /\
        (fix members (ms : list (option nat * oty)) (next : nat) (xs : list val) : Prop :=
           match ms, xs with
           | [], [] => True
           | (k, t) :: ms', y :: xs' =>
               match nth_error es (place k next) with
               | Some v' => o_means t v' y
               | None => o_nullable t = true /\ y = VNone
               end /\ members ms' (S (place k next)) xs'
           | _, _ => False
           end) ms 0%nat xs
    | OFixed n d t => exists es xs, v = JArr es /\ x = VArr (xs ++ repeat d (n - length es)) /\ (length es <= n)%nat /\ Forall2 (o_means t) es xs
    end.
End Means.

(** Every member but the last is placed before the position that is the number of
    members minus one. *)
Fixpoint close_by (size : nat) (ks : list (option nat)) (next : nat) : Prop :=
  match ks with
  | [] | [_] => True
  | k :: ks => (S (place k next) < size)%nat /\ close_by size ks (S (place k next))
  end.

(** As [belongs]; the names of members are written as they are. *)
Fixpoint o_belongs (t : oty) (x : val) {struct t} : Prop :=
  match t with
  | OTy t => belongs t x
  | ONullable t => o_nullable t = false /\ (x = VNone \/ exists y, x = VSome y /\ o_belongs t y)
  | OArr t => exists xs, x = VArr xs /\ Forall (o_belongs t) xs
  | OMap t => exists kxs, x = VMap kxs /\ Forall (fun kx => unicode (fst kx) /\ o_belongs t (snd kx)) kxs
  | OClass _ mm => NoDup (map fst mm) /\ Forall plain_name (map fst mm) /\ exists xs, x = VClass xs /\
      (fix members (mm : list (list N * oty)) (xs : list val) : Prop :=
         match mm, xs with
         | [], [] => True
         | (_, t) :: mm', y :: xs' => o_belongs t y /\ members mm' xs'
         | _, _ => False
         end) mm xs
  | OTuple _ ts => exists xs, x = VTuple xs /\
      (fix elements (ts : list oty) (xs : list val) : Prop :=
         match ts, xs with
         | [], [] => True
         | t :: ts', y :: xs' => o_belongs t y /\ elements ts' xs'
         | _, _ => False
         end) ts xs
  | OOrdered _ ms => ms <> [] /\ ascending (map fst ms) 0 /\ close_by (length ms) (map fst ms) 0 /\ exists xs, x = VClass xs /\
      (fix members (ms : list (option nat * oty)) (xs : list val) : Prop :=
         match ms, xs with
         | [], [] => True
         | (_, t) :: ms', y :: xs' => o_belongs t y /\ members ms' xs'
         | _, _ => False
         end) ms xs
  | OFixed n _ t => exists xs, x = VArr xs /\ length xs = n /\ Forall (o_belongs t) xs
  end.
