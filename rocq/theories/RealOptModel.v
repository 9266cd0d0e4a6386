(** Model of parse_value_real with every LiteralAsString and JsonNumberErrors
    option: daw_json_parse_value.h:74-175.  Checked mode, default comment policy. *)
From Coq Require Import String.
From Coq Require Import List NArith ZArith Bool Arith.
From Verif Require Import Base Mem PolicyModel IntModel SkipModel RealModel RealSerModel.
Import ListNotations.
Local Open Scope N_scope.

(** What is read: the parts of a number, an infinity or not a number *)
Inductive real_value := RNum (r : real) | RInf (neg : bool) | RNaN.

Definition allows_inf (ne : number_errors) : bool := match ne with NEallowInf | NEallowNanInf => true | _ => false end.
Definition allows_nan (ne : number_errors) : bool := match ne with NEallowNaN | NEallowNanInf => true | _ => false end.

(** The check after a special value: daw_json_parse_value.h:107-115 and 130-138 *)
Definition special_end (known : bool) (buf : list N) (p : ps) : res unit :=
  if known then ensure (ps_empty p) InvalidNumber
  else
    e <- (if ps_empty p then Ok true else b <- front buf p ;; Ok (at_end_of_item b)) ;;
    ensure e InvalidEndOfValue.

(** Infinity: daw_json_parse_value.h:86-122.  [None]: not an infinity. *)
Definition parse_inf (known : bool) (buf : list N) (p : ps) : res (option (real_value * ps)) :=
  b <- front buf p ;;
  let neg := b =? c_minus in
  let q := if neg then remove_prefix p 1 else p in
  s <- (if (4 <=? ps_size q)%nat then starts_with buf q (bytes "Inf") else Ok false) ;;
  if s then
    let q := remove_prefix q 3 in
    b <- front buf q ;;
    q <- (if b =? c_quote then Ok (remove_prefix q 1)
          else
            s <- (if (6 <=? ps_size q)%nat then starts_with buf q (bytes "inity""") else Ok false) ;;
            if s then Ok (remove_prefix q 6) else Err InvalidString) ;;
    _ <- special_end known buf q ;;
    Ok (Some (RInf neg, q))
  else Ok None.

(** NaN: daw_json_parse_value.h:123-142 *)
Definition parse_nan (known : bool) (buf : list N) (p : ps) : res (option (real_value * ps)) :=
  s <- starts_with buf p (bytes "NaN") ;;
  if s then
    j <- memchr_checked c_quote buf (first p) (last p) ;;
    let q := remove_prefix (set_first p j) 1 in
    _ <- special_end known buf q ;;
    Ok (Some (RNaN, q))
  else Ok None.

(** parse_value_real: daw_json_parse_value.h:74-175 *)
Definition parse_value_real_opt (known : bool) (o : literal_as_string) (ne : number_errors) (kd : nat) (precise : bool)
    (buf : list N) (p : ps) : res (real_value * ps) :=
  '(p, special) <-
    match o with
    | LSNever => Ok (p, None)
    | _ =>
        p <- (if known then Ok p else skip_quote_when_literal_as_string o buf p) ;;
        s <- (if allows_inf ne then parse_inf known buf p else Ok None) ;;
        s <- (match s with
              | Some _ => Ok s
              | None => if allows_nan ne then parse_nan known buf p else Ok None
              end) ;;
        Ok (p, s)
    end ;;
  match special with
  | Some r => Ok r
  | None =>
      match known, o with
      | true, LSNever => r <- parse_real_known kd precise buf p ;; Ok (RNum r, p)
      | _, _ =>
          _ <- ensure (has_more p) InvalidNumberStart ;;
          b <- front buf p ;;
          _ <- ensure (is_number_start b) InvalidNumberStart ;;
          '(r, p) <- parse_real_unknown kd precise buf p ;;
          p <- (if known then Ok p else skip_quote_when_literal_as_string o buf p) ;;
          e <- (if ps_empty p then Ok true else b <- front buf p ;; Ok (at_end_of_item b)) ;;
          _ <- ensure e InvalidEndOfValue ;;
          Ok (RNum r, p)
      end
  end.
