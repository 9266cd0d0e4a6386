(** Objects that are read into a std::map or std::unordered_map.  ValueModel stops at
    the sequence of pairs that the constructor of the container is given; here it is
    called. *)
From Coq Require Import List NArith Bool.
From Verif Require Import Base ValueModel.
Import ListNotations.
Local Open Scope N_scope.

(** Whether a key is in the container *)
Fixpoint has_key (k : list N) (m : list (list N * val)) : bool :=
  match m with
  | [] => false
  | (k', _) :: m => (if list_eq_dec N.eq_dec k' k then true else false) || has_key k m
  end.

(** The constructor of the container from a range of pairs, called at
    daw_json_default_constuctor.h:206-214 (std::unordered_map; std::map is built the
    same way by daw_json_default_constuctor_fwd.h:39-60).  The pairs are inserted one after the
    other, and inserting a key that is there does nothing: what libstdc++, libc++ and
    the library of MSVC do; the standard leaves open which of equal keys stays.  The
    order of the result is that of insertion, a std::unordered_map has another one: what
    is proved does not depend on it. *)
Fixpoint insert_all (kvs m : list (list N * val)) : list (list N * val) :=
  match kvs with
  | [] => m
  | (k, v) :: kvs => insert_all kvs (if has_key k m then m else m ++ [(k, v)])
  end.
Definition construct_map (kvs : list (list N * val)) : list (list N * val) := insert_all kvs [].

(** from_json of such a map: daw_from_json.h:37-84 *)
Definition from_json_map (g : cfg) (verify : bool) (t : ty) (doc : list N) : res (list (list N * val)) :=
  v <- from_json g verify (TMap t) doc ;;
  match v with
  | VMap kvs => Ok (construct_map kvs)
  | _ => Fuel
  end.
