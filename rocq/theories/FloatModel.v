(** Model of the last step of parse_real: scaling by a power of ten in binary
    floating point, and the fallback to the standard library
    (daw_json_parse_real_power10.h, daw_fp_fallback.h).

    Numbers are those of Coq's [SpecFloat]: sign, mantissa and exponent, rounded to
    nearest, ties to even.  Simplification: every operation is carried out in the
    precision of Result (FLT_EVAL_METHOD 0) in the default rounding mode. *)
From Coq Require Import String.
From Coq Require Import List NArith ZArith Bool Arith.
From Coq Require Import SpecFloat.
From Verif Require Import Base PolicyModel IntModel RealModel.
Import ListNotations.
Local Open Scope Z_scope.

(** Result: [double] or [float] *)
Inductive fmt := Double | Single.

(** Digits of the significand and exponent bound: IEEE 754 binary64 and binary32 *)
Definition f_prec (r : fmt) : Z := match r with Double => 53 | Single => 24 end.
Definition f_emax (r : fmt) : Z := match r with Double => 1024 | Single => 128 end.

(** numeric_limits<Result>::max_exponent and ::min_exponent *)
Definition max_exponent (r : fmt) : Z := match r with Double => 1024 | Single => 128 end.
Definition min_exponent (r : fmt) : Z := match r with Double => -1021 | Single => -125 end.

(** max_exp: daw_json_parse_real_power10.h:59-76 *)
Definition max_exp (r : fmt) : Z := match r with Double => 308 | Single => 38 end.

(** max_exponent::value of parse_real, max_digits10 + 1 *)
Definition f_digits (r : fmt) : nat := match r with Double => 18%nat | Single => 10%nat end.

(** The conversion of an integer to Result *)
Definition f_of_Z (r : fmt) (z : Z) : spec_float := binary_normalize (f_prec r) (f_emax r) z 0 false.

Definition f_mul (r : fmt) : spec_float -> spec_float -> spec_float := SFmul (f_prec r) (f_emax r).
Definition f_div (r : fmt) : spec_float -> spec_float -> spec_float := SFdiv (f_prec r) (f_emax r).

(** dpow10_tbl: daw_json_parse_real_power10.h:26-57.  The literal [1eN] is the
    double nearest to that power. *)
Definition dpow10 (k : Z) : spec_float := f_of_Z Double (10 ^ k).

(** [static_cast<Result>( dpow10_tbl[k] )] *)
Definition pow10_tbl (r : fmt) (k : Z) : spec_float :=
  match r with
  | Double => dpow10 k
  | Single => match dpow10 k with
             | S754_finite s m e => binary_round 24 128 s m e
             | f => f
             end
  end.

(** [for( ; p > max_exp; p -= max_exp ) exp2 *= max_v;]:
    daw_json_parse_real_power10.h:96-98 *)
Fixpoint scale_up (fuel : nat) (r : fmt) (exp2 : spec_float) (p : Z) : res (spec_float * Z) :=
  match fuel with
  | O => Fuel
  | S n => if max_exp r <? p then scale_up n r (f_mul r exp2 (pow10_tbl r (max_exp r))) (p - max_exp r)
           else Ok (exp2, p)
  end.

(** [for( ; p < -max_exp; p += max_exp ) result /= max_v;]:
    daw_json_parse_real_power10.h:113-115 *)
Fixpoint scale_down (fuel : nat) (r : fmt) (v : spec_float) (p : Z) : res (spec_float * Z) :=
  match fuel with
  | O => Fuel
  | S n => if p <? - max_exp r then scale_down n r (f_div r v (pow10_tbl r (max_exp r))) (p + max_exp r)
           else Ok (v, p)
  end.

(** power10, constexpr_exec_tag: daw_json_parse_real_power10.h:78-127.  The
    exponent bounds leave room for at most four rounds of the loops. *)
Definition power10 (r : fmt) (v : spec_float) (p : Z) : res spec_float :=
  let max_v := pow10_tbl r (max_exp r) in
  if max_exp r <? p then
    if max_exponent r <? p then Ok (S754_infinity false)
    else
      '(exp2, p) <- scale_up 5 r max_v (p - max_exp r) ;;
      Ok (f_mul r v (f_mul r exp2 (pow10_tbl r p)))
  else if p <? - max_exp r then
    if p <? min_exponent r then Ok (S754_zero false)
    else
      '(v, p) <- scale_down 5 r v (p + max_exp r) ;;
      Ok (f_div r (f_div r v (pow10_tbl r (- p))) max_v)
  else if p <? 0 then Ok (f_div r v (pow10_tbl r (- p)))
  else Ok (f_mul r v (pow10_tbl r p)).

(** [static_cast<std::int32_t>( p )] *)
Definition to_int32 (p : Z) : Z := (p + 2^31) mod 2^32 - 2^31.

(** power10, runtime_exec_tag for double and float:
    daw_json_parse_real_power10.h:129-142.  [runtime] selects the overload. *)
Definition power10_tag (runtime : bool) (r : fmt) (v : spec_float) (p : Z) : res spec_float :=
  power10 r v (if runtime then to_int32 p else p).

(** [sign * power10<Result>( exec_tag, static_cast<Result>( significant_digits ),
    exponent )]: daw_json_parse_real.h:273-275, :475-477 *)
Definition scale (runtime : bool) (r : fmt) (x : real) : res spec_float :=
  v <- power10_tag runtime r (f_of_Z r (Z.of_N (r_sig x))) (r_exp x) ;;
  Ok (f_mul r (f_of_Z r (r_sign x)) v).

(** What std::from_chars reports: a value, result_out_of_range or invalid_argument *)
Inductive fc_result := FcOk (f : spec_float) | FcRange | FcInvalid.

(** The standard library on the text it is given *)
Definition from_chars_t := list N -> fc_result.

(** parse_with_strtod without DAW_JSON_USE_STRTOD: daw_fp_fallback.h:48-59 *)
Definition parse_with_strtod (from_chars : from_chars_t) (buf : list N) (i last : nat) : res spec_float :=
  match from_chars (firstn (last - i) (skipn i buf)) with
  | FcRange => c <- rd buf i ;; Ok (S754_infinity (c =? c_minus)%N)
  | FcInvalid => Err InvalidNumber
  | FcOk f => Ok f
  end.

(** The return of parse_real_known and parse_real_unknown:
    daw_json_parse_real.h:254-276, :460-478.  [i] is the start of the number, [last]
    that of the range before it was read. *)
Definition finish_real (from_chars : from_chars_t) (runtime : bool) (r : fmt) (buf : list N) (i last : nat) (x : real) : res spec_float :=
  if r_strtod x then parse_with_strtod from_chars buf i last else scale runtime r x.

(** parse_real: daw_json_parse_real.h:480-489 *)
Definition parse_float (from_chars : from_chars_t) (runtime known precise : bool) (r : fmt) (buf : list N) (p : ps) : res (spec_float * ps) :=
  if known then
    x <- parse_real_known (f_digits r) precise buf p ;;
    f <- finish_real from_chars runtime r buf (first p) (last p) x ;; Ok (f, p)
  else
    '(x, q) <- parse_real_unknown (f_digits r) precise buf p ;;
    f <- finish_real from_chars runtime r buf (first p) (last p) x ;; Ok (f, q).
