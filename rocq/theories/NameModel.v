(** Member names for every comment policy, checked and unchecked. *)
From Coq Require Import List NArith Bool Arith.
From Verif Require Import Base PolicyModel Loop StrScanModel SkipModel ValueModel.
Import ListNotations.
Local Open Scope N_scope.

(** trim_end_of_name: daw_json_parse_name.h:33-41.  daw_json_assert_weak does not
    evaluate its condition for unchecked input: daw_json_assert.h:168-175. *)
Definition trim_end_of_name_cp (cp : cpol) (checked : bool) (buf : list N) (p : ps) : res ps :=
  p <- trim_left_cp cp checked buf p ;;
  _ <- (if checked then
          _ <- ensure (has_more p) UnexpectedEndOfData ;;
          c <- front buf p ;;
          ensure (c =? c_colon) InvalidMemberName
        else Ok tt) ;;
  trim_left_cp cp checked buf (remove_prefix p 1).

(** parse_nq without AllowEscapedNames: daw_json_parse_name.h:50-66;
    move_to_next_of: daw_json_parse_policy.h:322-333 *)
Definition parse_nq_cp (cp : cpol) (checked : bool) (buf : list N) (p : ps) : res (list N * ps) :=
  j <- (if checked then memchr_checked c_quote buf (first p) (last p) else memchr_unchecked c_quote buf (first p)) ;;
  let q := set_first p j in
  _ <- (if checked then
          ok <- is_at buf q c_quote ;;
          ok <- (if ok : bool then
                   match j with O => UB | S i => b <- rd buf i ;; Ok (negb (b =? c_bslash)) end
                 else Ok false) ;;
          ensure ok InvalidString
        else Ok tt) ;;
  let name := view buf (first p) j in
  q <- trim_end_of_name_cp cp checked buf (remove_prefix q 1) ;;
  Ok (name, q).

(** parse_name: daw_json_parse_name.h:144-156 *)
Definition parse_name_cp (cp : cpol) (checked : bool) (buf : list N) (p : ps) : res (list N * ps) :=
  _ <- (if checked then q <- is_at buf p c_quote ;; ensure q InvalidMemberName else Ok tt) ;;
  parse_nq_cp cp checked buf (remove_prefix p 1).
