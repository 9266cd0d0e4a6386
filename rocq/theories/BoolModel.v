(** Booleans with the option LiteralAsString: reading and writing. *)
From Coq Require Import List NArith Bool Arith.
From Verif Require Import Base PolicyModel IntModel ValueModel.
Import ListNotations.
Local Open Scope N_scope.

(** skip_quote_when_literal_as_string: daw_json_parse_value.h:54-72.  For unchecked
    input daw_json_assert_weak is nothing (daw_json_assert.h:166-175). *)
Definition skip_quote (checked : bool) (o : literal_as_string) (buf : list N) (p : ps) : res ps :=
  if checked then skip_quote_when_literal_as_string o buf p
  else
    match o with
    | LSNever => Ok p
    | LSAlways => Ok (remove_prefix p 1)
    | LSMaybe => b <- front buf p ;; Ok (if b =? c_quote then remove_prefix p 1 else p)
    end.

(** parse_value_bool: daw_json_parse_value.h:372-431.  The counter of a member that was
    skipped is the one of skip_true and skip_false, or of skip_string. *)
Definition parse_value_bool_opt (checked : bool) (o : literal_as_string) (known : bool) (buf : list N) (p : ps)
  : res (val * ps) :=
  if known then
    if checked then
      c <- front buf p ;;
      if c =? c_t then Ok (VBool true, p)
      else if c =? c_f then Ok (VBool false, p)
      else Err InvalidLiteral
    else Ok (VBool (negb (counter p =? 0)), p)
  else
    p <- skip_quote checked o buf p ;;
    '(b, p) <-
      (if checked then
         t <- starts_with buf p [116; 114; 117; 101] ;;
         if t : bool then Ok (true, remove_prefix p 4)
         else
           f <- starts_with buf p [102; 97; 108; 115; 101] ;;
           if f : bool then Ok (false, remove_prefix p 5) else Err InvalidLiteral
       else
         c <- front buf p ;;
         Ok (if c =? c_t then (true, remove_prefix p 4) else (false, remove_prefix p 5))) ;;
    p <- skip_quote checked o buf p ;;
    p <- trim_left checked buf p ;;
    _ <- (if checked then e <- end_of_item_ok buf p ;; ensure e InvalidEndOfValue else Ok tt) ;;
    Ok (VBool b, p).

(** to_json_string_bool: to_daw_json_string.h:461-484 *)
Definition to_json_string_bool (o : literal_as_string) (b : bool) : list N :=
  match o with
  | LSAlways =>
      if b then [34; 116; 114; 117; 101; 34] else [34; 102; 97; 108; 115; 101; 34]
  | _ => if b then [116; 114; 117; 101] else [102; 97; 108; 115; 101]
  end.
