(** Model of basic_stateful_json_value (daw_json_value_state.h): a json_value
    and the members found so far.

    The member functions change the locations even when they throw, so they
    return the locations next to the outcome.  at( Integer ), name_of and
    contains( size_t ) are not modelled: their bodies do not compile when
    instantiated ([location->value( )] calls an object, [m_locs[i].name( )]
    likewise, [size( m_locs )] finds the member function without parameters). *)
From Coq Require Import List NArith ZArith Bool Arith.
From Verif Require Import Base PolicyModel IntModel Loop StrScanModel SkipModel HashModel ValueModel JValueModel.
Import ListNotations.
Local Open Scope N_scope.

(** basic_stateful_json_value_state: daw_json_value_state.h:36-48.  The hash is
    a function of the name, it is recomputed here. *)
Definition loc : Type := list N * ps.
Definition locs : Type := list loc.

(** is_match with the hash: daw_json_value_state.h:54-60 *)
Definition is_match (name : list N) (m : loc) : bool :=
  (name_hash false name =? name_hash false (fst m)) && eqb_bytes (fst m) name.

(** First cached location that matches: daw_json_value_state.h:95-101 *)
Fixpoint match_index (name : list N) (ls : locs) : option nat :=
  match ls with
  | [] => None
  | m :: r => if is_match name m then Some O else option_map S (match_index name r)
  end.

(** The position the scan continues from: daw_json_value_state.h:103-110, 135-142 *)
Definition resume_at (g : cfg) (buf : list N) (v : ps) (ls : locs) : res ps :=
  match rev ls with
  | [] => it_begin buf v
  | (_, p) :: _ => it_next g buf p
  end.

(** An outcome that is no value, at another type *)
Definition failed {A B : Type} (r : res A) (a : B) : res B :=
  match r with Ok _ => Ok a | Err e => Err e | UB => UB | Fuel => Fuel end.

(** The loop of move_to by name: daw_json_value_state.h:112-122 *)
Fixpoint scan_name (g : cfg) (buf : list N) (name : list N) (fuel : nat) (ls : locs) (it : res ps) : locs * res nat :=
  match fuel with
  | O => (ls, Fuel)
  | S f =>
      match it with
      | Ok p =>
          match it_eq buf p null_state with
          | Ok true => (ls, Ok (length ls))
          | Ok false =>
              match it_name g buf p with
              | Ok None => (ls, Err MissingMemberName)
              | Ok (Some n) =>
                  let ls' := ls ++ [(n, p)] in
                  if eqb_bytes n name then (ls', Ok (length ls))
                  else scan_name g buf name f ls' (it_next g buf p)
              | r => (ls, failed r O)
              end
          | r => (ls, failed r O)
          end
      | r => (ls, failed r O)
      end
  end.

(** move_to( json_member_name ): daw_json_value_state.h:94-124.  Every location
    has cost a unit of fuel. *)
Definition move_to_name (g : cfg) (buf : list N) (v : ps) (ls : locs) (name : list N) : locs * res nat :=
  match match_index name ls with
  | Some i => (ls, Ok i)
  | None => scan_name g buf name (S (S (length buf)) - length ls) ls (resume_at g buf v ls)
  end.

(** The loop of move_to by index: daw_json_value_state.h:144-159 *)
Fixpoint scan_index (g : cfg) (buf : list N) (index : N) (fuel : nat) (ls : locs) (it : res ps) : locs * res nat :=
  match fuel with
  | O => (ls, Fuel)
  | S f =>
      match it with
      | Ok p =>
          match it_eq buf p null_state with
          | Ok true => (ls, Ok (length ls))
          | Ok false =>
              match it_name g buf p with
              | Ok o =>
                  let ls' := ls ++ [(match o with Some n => n | None => [] end, p)] in
                  if N.of_nat (length ls) =? index then (ls', Ok (length ls))
                  else scan_index g buf index f ls' (it_next g buf p)
              | r => (ls, failed r O)
              end
          | r => (ls, failed r O)
          end
      | r => (ls, failed r O)
      end
  end.

(** move_to( std::size_t ): daw_json_value_state.h:131-161 *)
Definition move_to_index (g : cfg) (buf : list N) (v : ps) (ls : locs) (index : N) : locs * res nat :=
  if index <? N.of_nat (length ls) then (ls, Ok (N.to_nat index))
  else scan_index g buf index (S (S (length buf)) - length ls) ls (resume_at g buf v ls).

(** size: daw_json_value_state.h:238-252 *)
Definition state_size (g : cfg) (buf : list N) (v : ps) (ls : locs) : locs * res nat :=
  match jtype buf v with
  | Ok BArray | Ok BClass => move_to_index g buf v ls (2^64 - 1)
  | r => (ls, failed r O)
  end.

(** [m_locs[pos].location->value] *)
Definition value_of (g : cfg) (buf : list N) (ls : locs) (pos : nat) : res ps :=
  match nth_error ls pos with
  | None => UB
  | Some (_, p) => '(_, r) <- it_deref g buf p ;; Ok r
  end.

Inductive query : Set :=
| QGet (name : list N)       (* operator[] by name *)
| QAt (name : list N)        (* at by name *)
| QIndexOf (name : list N)
| QContains (name : list N)
| QSize
| QNth (index : Z).          (* operator[] of a 64 bit integer *)

Inductive answer : Set :=
| AValue (v : ps)
| AIndex (n : nat)
| ABool (b : bool).

Definition lift (f : ps -> answer) (r : res ps) : res answer := v <- r ;; Ok (f v).

(** One query: operator[] 197-216, at 223-231, index_of 260-263, contains
    270-273, size, operator[]( Integer ) 324-343 of daw_json_value_state.h.  In
    contains C++ leaves it open which side of the comparison is evaluated first;
    here it is the left one (see [contains_right_first]). *)
Definition ask (g : cfg) (buf : list N) (v : ps) (ls : locs) (q : query) : locs * res answer :=
  match q with
  | QGet name =>
      let '(ls, r) := move_to_name g buf v ls name in
      (ls, pos <- r ;; _ <- ensure (pos <? length ls)%nat UnknownMember ;; lift AValue (value_of g buf ls pos))
  | QAt name =>
      let '(ls, r) := move_to_name g buf v ls name in
      (ls, pos <- r ;; if (pos <? length ls)%nat then lift AValue (value_of g buf ls pos) else Ok (AValue null_state))
  | QIndexOf name =>
      let '(ls, r) := move_to_name g buf v ls name in (ls, pos <- r ;; Ok (AIndex pos))
  | QContains name =>
      let '(ls, r) := move_to_name g buf v ls name in (ls, pos <- r ;; Ok (ABool (pos <? length ls)%nat))
  | QSize => let '(ls, r) := state_size g buf v ls in (ls, n <- r ;; Ok (AIndex n))
  | QNth index =>
      if (index <? 0)%Z then
        if (index =? - 2^63)%Z then (ls, UB)
        else
          let '(ls, r) := state_size g buf v ls in
          (ls, sz <- r ;; let i := Z.to_nat (- index) in
               _ <- ensure (i <? sz)%nat UnknownMember ;; lift AValue (value_of g buf ls (sz - i)))
      else
        let '(ls, r) := move_to_index g buf v ls (Z.to_N index) in
        (ls, pos <- r ;; _ <- ensure (pos <? length ls)%nat UnknownMember ;; lift AValue (value_of g buf ls pos))
  end.

(** contains when the right side of the comparison is evaluated first *)
Definition contains_right_first (g : cfg) (buf : list N) (v : ps) (ls : locs) (name : list N) : locs * res answer :=
  let '(ls', r) := move_to_name g buf v ls name in (ls', pos <- r ;; Ok (ABool (pos <? length ls)%nat)).

(** A history of queries: the locations after it *)
Definition after (g : cfg) (buf : list N) (v : ps) (h : list query) : locs :=
  fold_left (fun ls q => fst (ask g buf v ls q)) h [].
