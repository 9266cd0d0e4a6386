(** Which values a class with dependent members has, and which of them can be
    read back; independent of the writing functions. *)
From Coq Require Import List NArith ZArith Bool.
From Verif Require Import Base Mem SpecText SpecJson SpecCompact SpecPath HashModel ValueModel TagModel SpecTag SpecSer.
Import ListNotations.
Local Open Scope N_scope.

Section Values.
  (** The tag the class gives for each of its variants *)
  Context (untag : list N -> list val -> val).
  Context (mm : list (list N * mty)) (xs : list val).

  Definition names : list (list N) := map fst mm.
  Definition member_is (nm : list N) (m : mty) (x : val) : Prop := In ((nm, m), x) (combine mm xs).

  (** The member [nm] of type [m] depends on [d], which is of type [t] and has the
      value [s]. *)
  Definition depends (nm : list N) (m : mty) (d : list N) (t : ty) (s : val) : Prop :=
    match m with
    | MTagged _ tag t' _ _ => d = tag /\ t = t' /\ s = untag nm xs
    | MSized name sz _ => d = name /\ t = sz /\ member_is name (MPlain sz) s
    | MPlain _ | MRaw => False
    end.

  Definition member_belongs (nm : list N) (m : mty) (x : val) : Prop :=
    match m with
    | MPlain t => belongs t x
    | MTagged _ _ _ switch alts => exists y a, x = VVariant (switch (untag nm xs)) y /\
        nth_error alts (switch (untag nm xs)) = Some a /\ belongs a y /\ y <> VNone
    | MSized name sz t => simple name /\ exists z es, x = VTuple [VInt (z mod 2^64); VArr es] /\
        Forall (belongs t) es /\ member_is name (MPlain sz) (VInt z)
    | MRaw => exists v, x = VStr (compact v) /\ legal rfc_body v /\ is_bytes (compact v)
    end.

  (** The names written *)
  Definition written (k : list N) : Prop := In k names \/ exists nm m t s, In (nm, m) mm /\ depends nm m k t s.

  (** A value of the class.  A tag that is a member itself has the value that the
      class gives, and likewise if there are several that depend on it.  The
      names are distinct and told apart by their hashes. *)
  Definition class_value : Prop :=
    length mm = length xs /\ NoDup names /\ Forall plain_name names /\
    (forall nm m x, member_is nm m x -> member_belongs nm m x) /\
    (forall nm m d t s, In (nm, m) mm -> depends nm m d t s -> plain_name d /\ belongs t s /\
       (forall nm' m' t' s', In (nm', m') mm -> depends nm' m' d t' s' -> t' = t /\ s' = s) /\
       (forall m' x, member_is d m' x -> m' = MPlain t /\ x = s)).

  Definition told_apart : Prop := forall k k', written k -> written k' -> name_hash false k = name_hash false k' -> k = k'.

  (** Values between brackets, true and false *)
  Definition braced (y : val) : Prop :=
    match y with VBool _ | VArr _ | VMap _ | VClass _ | VTuple _ => True | _ => False end.

  (** None of the members mapped before is missing. *)
  Definition all_before (nm : list N) : Prop := forall n m x, In n (before nm names) -> member_is n m x -> x <> VNone.

  (** A value that can be read back *)
  Definition readable (exact : bool) : Prop :=
    (exact = true -> forall k, written k -> In k names) /\
    forall nm m x, member_is nm m x ->
      match m with
      | MPlain _ => True
      | MTagged ex _ _ _ _ => ex = false /\ ((exists i y, x = VVariant i y /\ braced y) \/ all_before nm)
      | MSized _ _ _ => all_before nm
      | MRaw => False
      end.
End Values.
