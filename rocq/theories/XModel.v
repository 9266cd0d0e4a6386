(** Real numbers and dates as members of other types: the parse functions of the
    containers with parse_value_real and parse_value_date for their members, and
    the same for writing.  Sources as for ValueModel and SerModel. *)
From Coq Require Import List NArith ZArith Bool.
From Coq Require Import SpecFloat.
From Verif Require Import Base Mem Loop PolicyModel IntModel StrScanModel SkipModel StrDecodeModel StrEncodeModel IntSerModel
  HashModel ValueModel SerModel RealModel FloatModel RealSerModel DateModel.
Import ListNotations.
Local Open Scope N_scope.

(** A double as a value: sign, significand and exponent.  [val] has no case for
    reals, so it is kept as a tuple, which no other type of [xty] below a [XReal]
    can be mistaken for since values are only looked at along their type. *)
Definition real_val (d : spec_float) : val :=
  match d with
  | S754_zero s => VTuple [VBool s; VInt 0; VInt 0]
  | S754_infinity s => VTuple [VBool s]
  | S754_nan => VTuple []
  | S754_finite s m e => VTuple [VBool s; VInt (Zpos m); VInt e]
  end.

Definition val_real (x : val) : option spec_float :=
  match x with
  | VTuple [VBool s; VInt 0%Z; VInt 0%Z] => Some (S754_zero s)
  | VTuple [VBool s] => Some (S754_infinity s)
  | VTuple [] => Some S754_nan
  | VTuple [VBool s; VInt (Zpos m); VInt e] => Some (S754_finite s m e)
  | _ => None
  end.

(** json_number<double> is json_base::json_number with a floating point type
    (daw_json_link_types.h:424-480), json_date is json_base::json_date
    (daw_json_link_types.h:741-787); the other constructors are as in [ty]. *)
Inductive xty :=
| XTy (t : ty)
| XReal
| XDate
| XNullable (t : xty)
| XArr (t : xty)
| XMap (t : xty)
| XClass (exact : bool) (ms : list (list N * xty))
| XTuple (exact : bool) (ts : list xty).

Definition x_nullable (t : xty) : bool :=
  match t with XTy t => is_nullable t | XNullable _ => true | _ => false end.

Section Parse.
  (** std::from_chars, whether the evaluation is at run time, IEEE754Precise, and
      whether DAW_DATE drops the Z: parameters as in FloatModel and DateModel *)
  Context (fc : from_chars_t) (rt precise drop : bool).

  (** parse_value_real for a double with LiteralAsStringOpt::Never:
      daw_json_parse_value.h:73-175 *)
  Definition parse_value_double : parser := fun known buf p =>
    if known then '(f, p) <- parse_float fc rt true precise Double buf p ;; Ok (real_val f, p)
    else
      _ <- ensure (has_more p) InvalidNumberStart ;;
      c <- front buf p ;;
      _ <- ensure (is_number_start c) InvalidNumberStart ;;
      '(f, p) <- parse_float fc rt false precise Double buf p ;;
      e <- end_of_item_ok buf p ;;
      _ <- ensure e InvalidEndOfValue ;;
      Ok (real_val f, p).

  (** parse_value_date: daw_json_parse_value.h:525-536 with
      construct_from_iso8601_timestamp: daw_json_link_types_iso8601.h:25-37 *)
  Definition parse_value_date (g : cfg) : parser := fun known buf p =>
    _ <- ensure (has_more p) UnexpectedEndOfData ;;
    '(str, p) <- (if known then Ok (p, p) else skip_string true (c_ex g) (c_excl g) false buf p) ;;
    tp <- parse_iso8601_timestamp drop buf (mksv (first str) (last str - first str)) ;;
    Ok (VInt tp, p).

  (** parse_value: daw_json_parse_value.h:1176-1225 *)
  Fixpoint parse_x (g : cfg) (t : xty) : parser :=
    fun known buf p =>
    match t with
    | XTy t => parse_value g t known buf p
    | XReal => parse_value_double known buf p
    | XDate => parse_value_date g known buf p
    | XNullable t => parse_value_null (parse_x g t) known buf p
    | XArr t => parse_value_array (parse_x g t) buf p
    | XMap t => parse_value_keyvalue g (parse_x g t) buf p
    | XClass exact ms =>
        parse_value_class g exact
          (map (fun m => mkmember (fst m) (x_nullable (snd m)) (parse_x g (snd m))) ms) known buf p
    | XTuple exact ts => parse_tuple g exact (map (parse_x g) ts) buf p
    end.

  (** from_json: daw_from_json.h:37-84, as in ValueModel *)
  Definition from_json_x (g : cfg) (verify : bool) (t : xty) (doc : list N) : res val :=
    _ <- ensure (negb (length doc =? 0)%nat) EmptyJSONDocument ;;
    z <- rd doc (length doc - 1) ;;
    let l := if z =? 0 then (length doc - 1)%nat else length doc in
    '(v, p) <- parse_x g t false doc (new_ps 0 l) ;;
    if verify then
      p <- trim_left_checked doc p ;;
      _ <- ensure (ps_empty p) InvalidEndOfValue ;;
      Ok v
    else Ok v.
End Parse.

Section Write.
  (** [db] is jkj::dragonbox::to_decimal for a finite double that is not zero: the
      significand and the exponent of ten; [cd0] and [fmt] as in RealSerModel. *)
  Context (db : spec_float -> N * Z) (cd0 : Z) (fmt : fp_format).

  (** The tests for NaN and infinity and to_decimal: to_daw_json_string.h:557-600,
      1472-1500 *)
  Definition fp_of (d : spec_float) : fp :=
    match d with
    | S754_nan => FNaN
    | S754_infinity s => FInf s
    | S754_zero s => FFin s 0 0
    | S754_finite s _ _ => FFin s (fst (db d)) (snd (db d))
    end.

  (** to_daw_json_string: to_daw_json_string.h:1247-1299 *)
  Fixpoint to_json_string_x (o : sopt) (t : xty) (lvl : nat) (x : val) {struct t} : res (list N) :=
    match t, x with
    | XTy t, x => to_json_string o t lvl x
    (* to_json_string_real: to_daw_json_string.h:557-614 *)
    | XReal, x => match val_real x with Some d => to_json_string_real cd0 true LSNever NEnone fmt (fp_of d) | None => UB end
    (* to_json_string_date: to_daw_json_string.h:859-910 *)
    | XDate, VInt tp => to_json_string_date tp
    | XNullable t, VNone => Ok null_text
    | XNullable t, VSome y => to_json_string_x o t lvl y
    | XArr t, VArr xs => to_json_string_array o lvl (to_json_string_x o t (S lvl)) xs
    | XMap t, VMap kxs => to_json_string_kv o lvl (to_json_string_x o t (S lvl)) kxs
    | XClass _ mm, VClass xs =>
        serialize_json_class o lvl
          (map (fun m => mkwm (fst m) (if x_nullable (snd m) then Nullable else NotNullable) (to_json_string_x o (snd m) (S lvl))) mm) xs
    | XTuple _ ts, VTuple xs =>
        to_json_string_tuple o lvl (map (fun t => to_json_string_x o t (S lvl)) ts) xs
    | _, _ => UB
    end.

  Definition to_json_x (o : sopt) (t : xty) (x : val) : res (list N) := to_json_string_x o t 0 x.
End Write.
