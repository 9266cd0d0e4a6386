(** What it means for a double to be the number nearest to a real number,
    independent of the model: IEEE 754 round to nearest, ties to even, as defined by
    Flocq. *)
From Coq Require Import ZArith Reals QArith Qreals.
From Coq Require Import SpecFloat.
From Flocq Require Import Core BinarySingleNaN.
Local Open Scope R_scope.

(** The value of [x] rounded to 53 bits with exponents from -1074 *)
Definition rnd (x : R) : R := round radix2 (FLT_exp (-1074) 53) ZnearestE x.

(** [f] is the double nearest to [x], with the sign bit [neg]: infinite when the
    rounded value is 2^1024 or more. *)
Definition nearest_double (neg : bool) (x : R) (f : spec_float) : Prop :=
  (Rabs (rnd x) < bpow radix2 1024 -> SF2R radix2 f = rnd x /\ is_finite_SF f = true /\ sign_SF f = neg /\ valid_binary 53 1024 f = true) /\
  (bpow radix2 1024 <= Rabs (rnd x) -> f = S754_infinity neg).

(** [q] is too large for a double. *)
Definition overflows (x : R) : Prop := bpow radix2 1024 <= Rabs (rnd x).
