(** The rational number a decimal text denotes, independent of the model. *)
From Coq Require Import List NArith ZArith QArith Lia.
From Verif Require Import SpecNum SpecJson.
Import ListNotations.
Local Open Scope Q_scope.

Definition ten_pow (e : Z) : Q := (10 # 1) ^ e.

(** [m] times ten to the [e] *)
Definition decimal (m e : Z) : Q := inject_Z m * ten_pow e.

Definition q_of_N (n : N) : Q := inject_Z (Z.of_N n).

Definition sign_of (sg : list N) : Z := match sg with [] => 1%Z | _ => (-1)%Z end.

(** The exponent an exponent part denotes *)
Inductive exp_val : list N -> Z -> Prop :=
| ev_none : exp_val [] 0
| ev_plain : forall e ds, (e = 101 \/ e = 69)%N -> digits ds -> ds <> [] -> exp_val (e :: ds) (Z.of_N (dec_val ds))
| ev_plus : forall e ds, (e = 101 \/ e = 69)%N -> digits ds -> ds <> [] -> exp_val (e :: 43%N :: ds) (Z.of_N (dec_val ds))
| ev_minus : forall e ds, (e = 101 \/ e = 69)%N -> digits ds -> ds <> [] -> exp_val (e :: 45%N :: ds) (- Z.of_N (dec_val ds)).

(** The digits of a fraction part *)
Definition fract_digits (f : list N) : list N := tl f.

(** Absolute value of a number with whole part [i], fraction [f] and exponent [x] *)
Definition magnitude (i f : list N) (x : Z) : Q :=
  (q_of_N (dec_val i) + q_of_N (dec_val (fract_digits f)) / ten_pow (Z.of_nat (length (fract_digits f)))) * ten_pow x.

(** [t] is a JSON number that denotes [q]. *)
Inductive denotes : list N -> Q -> Prop :=
| den : forall sg i f e x, sg = [] \/ sg = [45%N] -> int_part i -> frac_part f -> exp_val e x ->
    denotes (sg ++ i ++ f ++ e) (inject_Z (sign_of sg) * magnitude i f x).
