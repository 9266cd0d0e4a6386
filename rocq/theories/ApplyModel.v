(** Model of json_apply (daw_json_apply.h).  The callable is a function of the list
    of its arguments; [ts] are the types of its parameters, as deduced from its
    signature.  Functions without parameters are left out. *)
From Coq Require Import List NArith Bool.
From Verif Require Import Base ValueModel PathModel.
Import ListNotations.

(** The type from_json is called with: daw_json_apply.h:39-49.  std::tuple is read by
    json_tuple, which is not exact unless the document says so. *)
Definition apply_type (ts : list ty) : ty := match ts with [t] => t | _ => TTuple false ts end.
(** The call: daw_json_apply.h:40-43, and std::apply in 45-48 *)
Definition apply_call {A : Type} (ts : list ty) (f : list val -> A) (x : val) : res A :=
  match ts with
  | [_] => Ok (f [x])
  | _ => match x with VTuple xs => Ok (f xs) | _ => UB end
  end.

(** json_apply( json_doc, callable ) and json_apply( json_doc, flags, callable ):
    daw_json_apply.h:68-71, 140-146 *)
Definition json_apply {A : Type} (g : cfg) (verify : bool) (ts : list ty) (f : list val -> A) (doc : list N) : res A :=
  x <- from_json g verify (apply_type ts) doc ;; apply_call ts f x.
(** json_apply( json_doc, json_path, callable ), also with flags:
    daw_json_apply.h:89-93, 114-120 *)
Definition json_apply_path {A : Type} (g : cfg) (verify : bool) (ts : list ty) (f : list val -> A) (doc path : list N) : res A :=
  x <- from_json_path g verify (apply_type ts) doc path ;; apply_call ts f x.
