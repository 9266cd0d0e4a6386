(** Member name hashing and lookup. *)
From Coq Require Import List NArith Bool Arith.
From Verif Require Import Base.
Import ListNotations.
Local Open Scope N_scope.

(** [UInt32] arithmetic wraps. *)
Definition u32 (x : N) : N := x mod 2 ^ 32.

(** One step of FNV-1a, [hash ^= byte; hash *= 0x01000193]
    (impl/daw_murmur3.h:39-40 and 65-66). *)
Definition fnv_step (hash c : N) : N := u32 (N.lxor hash c * 16777619).

Definition fnv_basis : N := 2166136261.

(** [fnv1a_32_N<N>] (impl/daw_murmur3.h:35-43): exactly [N] bytes from [first]. *)
Definition fnv1a_32_N (n : nat) (first : list N) (hash : N) : N :=
  fold_left fnv_step (firstn n first) hash.

(** the [while( len >= 8 )] loop (impl/daw_murmur3.h:53-57) *)
Fixpoint fnv_blocks (key : list N) (hash : N) : list N * N :=
  match key with
  | a :: b :: c :: d :: e :: f :: g :: h :: r =>
      fnv_blocks r (fnv1a_32_N 8 [a; b; c; d; e; f; g; h] hash)
  | _ => (key, hash)
  end.

(** [fnv1a_32<expect_long_strings>] (impl/daw_murmur3.h:45-69) *)
Definition fnv1a_32 (expect_long : bool) (key : list N) : N :=
  let '(key, hash) :=
    if expect_long then
      let '(key, hash) := fnv_blocks key fnv_basis in
      if Nat.leb 4 (length key)
      then (skipn 4 key, fnv1a_32_N 4 key hash)
      else (key, hash)
    else (key, fnv_basis) in
  fold_left fnv_step key hash.

(** [name_hash] (impl/daw_murmur3.h:71-85) *)
Definition name_hash (expect_long : bool) (key : list N) : N :=
  if Nat.leb (length key) 4
  then u32 (fold_left (fun r c => N.lor (u32 (N.shiftl r 8)) c) key 0 * 3432918353)
  else fnv1a_32 expect_long key.

(** The hashes of the mapped names, [make_locations_info]
    (impl/daw_json_location_info.h:166-193): always the short-name
    configuration. *)
Definition hashes (names : list (list N)) : list N := map (name_hash false) names.

(** [do_hashes_collide] (impl/daw_json_location_info.h:152-162).  The code
    sorts and looks for equal neighbours; here every pair is compared. *)
Fixpoint has_dup (hs : list N) : bool :=
  match hs with
  | [] => false
  | h :: r => existsb (N.eqb h) r || has_dup r
  end.
Definition do_hashes_collide (names : list (list N)) : bool := has_dup (hashes names).

(** [do_full_name_match] (impl/daw_json_location_info.h:178-180); [force] is
    ForceFullNameCheck. *)
Definition full_name_match (force : bool) (names : list (list N)) : bool :=
  force || do_hashes_collide names.

(** equality of two [string_view]s *)
Fixpoint bytes_eqb (a b : list N) : bool :=
  match a, b with
  | [], [] => true
  | x :: a', y :: b' => N.eqb x y && bytes_eqb a' b'
  | _, _ => false
  end.

(** The loop of [find_name] from member [n] on: [names] are the remaining
    mapped names (impl/daw_json_location_info.h:135-146). *)
Fixpoint find_from (full : bool) (hash : N) (key : list N) (names : list (list N))
  (n : nat) : nat :=
  match names with
  | [] => n
  | nm :: r =>
      if N.eqb (name_hash false nm) hash
      then if full && negb (bytes_eqb key nm)
           then find_from full hash key r (S n) else n
      else find_from full hash key r (S n)
  end.

(** [find_name<expect_long_strings, start_pos>]
    (impl/daw_json_location_info.h:127-147); [length names] when not found. *)
Definition find_name (force expect_long : bool) (names : list (list N)) (start : nat)
  (key : list N) : nat :=
  find_from (full_name_match force names) (name_hash expect_long key) key
    (skipn start names) (Nat.min start (length names)).
