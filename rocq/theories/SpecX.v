(** What a document means at a type with real numbers and dates inside,
    independent of the parser. *)
From Coq Require Import List NArith ZArith QArith Qreals Reals.
From Coq Require Import SpecFloat.
From Verif Require Import Base SpecNum SpecText SpecJson SpecUnicode SpecReal SpecDouble SpecDate HashModel ValueModel SpecTyped SerModel SpecSer XModel PropertiesRealSer.
Import ListNotations.
Local Open Scope N_scope.

(** [t] is a number that is to be read as the double [d]: the one nearest to it.
    The exponent written is below 2^62 in size.  Without IEEE754Precise only
    numbers of up to 15 digits are covered whose last digit stands for a power of
    ten from -22 to 22. *)
Inductive real_text (precise : bool) : list N -> spec_float -> Prop :=
| real_of : forall sg i f e x d, sg = [] \/ sg = [45] -> int_part i -> frac_part f -> exp_val e x -> (Z.abs x < 2^62)%Z ->
    (precise = false -> (length i + length (fract_digits f) <= 15)%nat /\
       (-22 <= x - Z.of_nat (length (fract_digits f)) <= 22)%Z) ->
    nearest_double (match sg with [] => false | _ => true end) (Q2R (inject_Z (sign_of sg) * magnitude i f x)) d ->
    real_text precise (sg ++ i ++ f ++ e) d.

(** [t] is a field of two digits. *)
Definition field (t : list N) (z : Z) : Prop := digits t /\ length t = 2%nat /\ z = Z.of_N (dec_val t).

(** [t] is empty, or a point and up to nine digits that stand for [ns] nanoseconds. *)
Definition fraction (t : list N) (ns : Z) : Prop :=
  t = [] /\ ns = 0%Z \/
  exists ds, t = 46 :: ds /\ digits ds /\ (1 <= length ds <= 9)%nat /\ ns = (Z.of_N (dec_val ds) * 10 ^ Z.of_nat (9 - length ds))%Z.

(** [t] is a date and time in UTC as in RFC 3339, [tp] the milliseconds from
    1970-01-01T00:00:00Z to it. *)
Inductive date_text : list N -> Z -> Prop :=
| date_of : forall Y M D h mi s fr m d hh mm ss ns k,
    digits Y -> Y <> [] -> field M m -> field D d -> field h hh -> field mi mm -> field s ss -> fraction fr ns ->
    (Z.of_N (dec_val Y) < 2^31)%Z -> valid_date (Z.of_N (dec_val Y)) m d -> valid_time hh mm ss ->
    day_no (Z.of_N (dec_val Y), m, d) k -> (Z.abs k < 2^31)%Z ->
    date_text (Y ++ 45 :: M ++ 45 :: D ++ 84 :: h ++ 58 :: mi ++ 58 :: s ++ fr ++ [90])
      ((((k * 24 + hh) * 60 + mm) * 60 + ss) * 1000 + ns / 1000000).

Section Means.
  Context (precise : bool) (nc : list (list N) -> list N -> Prop).

  (** As [typed], with doubles and dates. *)
  Fixpoint means (t : xty) (v : jv) (x : val) {struct t} : Prop :=
    match t with
    | XTy t => typed nc t v x
    | XReal => exists tx d, v = JNum tx /\ real_text precise tx d /\ x = real_val d
    | XDate => exists b tp, v = JStr b /\ date_text b tp /\ x = VInt tp
    | XNullable t => v = JNull /\ x = VNone \/ v <> JNull /\ exists y, means t v y /\ x = VSome y
    | XArr t => exists es xs, v = JArr es /\ x = VArr xs /\ Forall2 (means t) es xs
    | XMap t => exists ms kxs, v = JObj ms /\ x = VMap kxs /\
        Forall2 (fun m kx => SpecUnicode.denotes (fst m) (fst kx) /\ means t (snd m) (snd kx)) ms kxs
    | XClass exact mm => exists js xs, v = JObj js /\ x = VClass xs /\
        NoDup (map fst mm) /\ no_repeat (map fst mm) js /\ Forall (nc (map fst mm)) (map fst js) /\
        (exact = true -> forall k, In k (map fst js) -> In k (map fst mm)) /\
        (fix members (mm : list (list N * xty)) (xs : list val) : Prop :=
           match mm, xs with
           | [], [] => True
           | (nm, t) :: mm', y :: xs' =>
               match lookup nm js with
               | Some v' => means t v' y
               | None => x_nullable t = true /\ y = VNone
               end /\ members mm' xs'
           | _, _ => False
           end) mm xs
    | XTuple exact ts => exists es xs es2, v = JArr (es ++ es2) /\ x = VTuple xs /\
        (exact = true -> es2 = []) /\ (forall e, hd_error es2 = Some e -> not_array e) /\
        (fix elements (ts : list xty) (es : list jv) (xs : list val) : Prop :=
           match ts, es, xs with
           | [], [], [] => True
           | t :: ts', v' :: es', y :: xs' => means t v' y /\ elements ts' es' xs'
           | _, _, _ => False
           end) ts es xs
    end.
End Means.

(** A number that is not just digits *)
Definition with_point (t : list N) : Prop := exists b, In b t /\ (b = 46 \/ b = 101 \/ b = 69).

(** A whole number that is to be read as a real must not be the whole document. *)
Fixpoint root_ok (t : xty) (v : jv) : Prop :=
  match t with
  | XReal => match v with JNum n => with_point n | _ => True end
  | XNullable t => root_ok t v
  | _ => True
  end.

(** A double that is written and read back: finite and not the negative zero,
    whose sign is not written (C72) *)
Definition writable (d : spec_float) : Prop :=
  d = S754_zero false \/ exists s m e, d = S754_finite s m e /\ valid_binary 53 1024 d = true.

(** The time points that are written and read back: from 1970 on, with whole
    seconds or a fraction of 100 milliseconds or more (C43) *)
Definition datable (tp : Z) : Prop :=
  (0 <= tp < 86400000 * (2 ^ 31 - 719468))%Z /\ (tp mod 1000 = 0 \/ 100 <= tp mod 1000)%Z.

(** [x] is a value of type [t] that is written and read back, as [belongs]. *)
Fixpoint x_belongs (t : xty) (x : val) {struct t} : Prop :=
  match t with
  | XTy t => belongs t x
  | XReal => exists d, x = real_val d /\ writable d
  | XDate => exists tp, x = VInt tp /\ datable tp
  | XNullable t => x_nullable t = false /\ (x = VNone \/ exists y, x = VSome y /\ x_belongs t y)
  | XArr t => exists xs, x = VArr xs /\ Forall (x_belongs t) xs
  | XMap t => exists kxs, x = VMap kxs /\ Forall (fun kx => unicode (fst kx) /\ x_belongs t (snd kx)) kxs
  | XClass _ mm => NoDup (map fst mm) /\ Forall plain_name (map fst mm) /\ exists xs, x = VClass xs /\
      (fix members (mm : list (list N * xty)) (xs : list val) : Prop :=
         match mm, xs with
         | [], [] => True
         | (_, t) :: mm', y :: xs' => x_belongs t y /\ members mm' xs'
         | _, _ => False
         end) mm xs
  | XTuple _ ts => exists xs, x = VTuple xs /\
      (fix elements (ts : list xty) (xs : list val) : Prop :=
         match ts, xs with
         | [], [] => True
         | t :: ts', y :: xs' => x_belongs t y /\ elements ts' xs'
         | _, _ => False
         end) ts xs
  end.

(** What jkj::dragonbox::to_decimal is relied on for: a decimal of up to 17 digits
    that is nearest to the double. *)
Definition dragonbox (db : spec_float -> N * Z) : Prop :=
  forall s m e, valid_binary 53 1024 (S754_finite s m e) = true ->
    let (v, x) := db (S754_finite s m e) in
    v <> 0 /\ fp_parts true v x /\ nearest_double s (Q2R (fp_value s v x)) (S754_finite s m e).
