(** A reference reader of decimal texts that is exact, to show that what C74 and C77
    assume of std::from_chars can be met.  It is not a model of any code. *)
From Coq Require Import List NArith ZArith Reals QArith Qreals Bool Lia Lra ZifyBool ZifyN ZifyNat.
From Coq Require Import SpecFloat.
From Flocq Require Import Core BinarySingleNaN.
From Verif Require Import Base SpecNum SpecText SpecJson SpecReal RealProofs PropertiesReal FloatModel SpecDouble FloatProofs PropertiesFloat.
Import ListNotations.
Local Open Scope N_scope.

Definition digb (b : N) : bool := (48 <=? b) && (b <=? 57).

Fixpoint span (l : list N) : list N * list N :=
  match l with
  | b :: r => if digb b then let '(d, r') := span r in (b :: d, r') else ([], l)
  | [] => ([], [])
  end.

Definition is_e (b : N) : bool := (b =? 101) || (b =? 69).

Definition read_exponent (l : list N) : Z :=
  match l with
  | b :: r =>
      if is_e b then
        match r with
        | c :: r' => if c =? 43 then Z.of_N (dec_val (fst (span r')))
                     else if c =? 45 then (- Z.of_N (dec_val (fst (span r'))))%Z
                     else Z.of_N (dec_val (fst (span r)))
        | [] => 0%Z
        end
      else 0%Z
  | [] => 0%Z
  end.

(** Sign, significand and exponent *)
Definition read_text (l : list N) : bool * N * Z :=
  let '(neg, l) := match l with b :: r => if b =? 45 then (true, r) else (false, l) | [] => (false, []) end in
  let '(i, l) := span l in
  let '(f, l) := match l with b :: r => if b =? 46 then span r else ([], l) | [] => ([], []) end in
  (neg, dec_val (i ++ f), (read_exponent l - Z.of_nat (length f))%Z).

(** The quotient of two integers, rounded once *)
Definition divide (neg : bool) (a b : positive) : spec_float :=
  let '(m, e, l) := SFdiv_core_binary 53 1024 (Zpos a) 0 (Zpos b) 0 in SpecFloat.binary_round_aux 53 1024 neg m e l.

Definition round_decimal (neg : bool) (n : N) (e : Z) : spec_float :=
  match n with
  | N0 => S754_zero neg
  | Npos p => divide neg (p * Z.to_pos (10 ^ Z.max e 0)) (Z.to_pos (10 ^ Z.max (- e) 0))
  end.

Definition ref_from_chars : from_chars_t := fun l =>
  let '(neg, n, e) := read_text l in
  match round_decimal neg n e with
  | S754_infinity _ => FcRange
  | f => FcOk f
  end.

Lemma span_ok : forall ds rest, digits ds -> (forall b r, rest = b :: r -> ~ is_dig b) -> span (ds ++ rest) = (ds, rest).
Proof.
  induction ds as [|d ds IH]; intros rest HD HR; cbn [app span].
  - destruct rest as [|b r]; [reflexivity|]. specialize (HR b r eq_refl). cbn. unfold is_dig, digb in *. replace ((48 <=? b) && (b <=? 57)) with false by lia. reflexivity.
  - inversion HD; subst. unfold is_dig in *. unfold digb. replace ((48 <=? d) && (d <=? 57)) with true by lia. rewrite IH; auto.
Qed.

Lemma ends_dig : forall rest, ends rest -> forall b r, rest = b :: r -> ~ is_dig b.
Proof. intros rest H b r ->. apply H. Qed.

Lemma read_exponent_ok : forall e x rest, exp_val e x -> ends rest -> read_exponent (e ++ rest) = x.
Proof.
  intros e x rest HX HR. destruct HX as [|b ds He HD NE|b ds He HD NE|b ds He HD NE].
  - cbn [app]. destruct rest as [|b r]; [reflexivity|]. destruct HR as (_ & _ & A & B). cbn. unfold is_e. replace ((b =? 101) || (b =? 69)) with false by lia. reflexivity.
  - cbn [app read_exponent]. replace (is_e b) with true by (unfold is_e; lia). destruct ds as [|d ds]; [congruence|]. cbn [app]. inversion HD; subst. unfold is_dig in *.
    replace (d =? 43) with false by lia. replace (d =? 45) with false by lia. rewrite (app_comm_cons ds rest d). rewrite span_ok; auto. apply ends_dig; auto.
  - cbn [app read_exponent]. replace (is_e b) with true by (unfold is_e; lia). cbn [N.eqb Pos.eqb]. rewrite span_ok; auto. apply ends_dig; auto.
  - cbn [app read_exponent]. replace (is_e b) with true by (unfold is_e; lia). cbn [N.eqb Pos.eqb]. rewrite span_ok; auto. apply ends_dig; auto.
Qed.

Lemma exp_ends : forall e x rest, exp_val e x -> ends rest -> forall b r, e ++ rest = b :: r -> ~ is_dig b /\ b <> 46.
Proof.
  intros e x rest HX HR b r E. destruct HX as [|c ds He|c ds He|c ds He]; cbn [app] in E; [subst rest; destruct HR as (A & B & _); auto|..]; injection E as <- _; unfold is_dig; lia.
Qed.

Lemma read_text_ok : forall sg i f e x rest, sg = [] \/ sg = [45] -> int_part i -> frac_part f -> exp_val e x -> ends rest ->
  read_text ((sg ++ i ++ f ++ e) ++ rest) = ((sign_of sg <? 0)%Z, dec_val (i ++ fract_digits f), (x - Z.of_nat (length (fract_digits f)))%Z).
Proof.
  intros sg i f e x rest Hsg (HD & NI & _) HF HX HR. unfold read_text. rewrite <- !app_assoc.
  assert (S : match sg ++ i ++ f ++ e ++ rest with b :: r => if b =? 45 then (true, r) else (false, sg ++ i ++ f ++ e ++ rest) | [] => (false, []) end
    = ((sign_of sg <? 0)%Z, i ++ f ++ e ++ rest)).
  { destruct Hsg as [-> | ->]; [|reflexivity]. destruct i as [|d i]; [congruence|]. cbn [app]. inversion HD; subst. unfold is_dig in *. replace (d =? 45) with false by lia. reflexivity. }
  rewrite S. clear S. rewrite span_ok; auto.
  2:{ intros b r E. destruct HF as [|ds DD DN]; cbn [app] in E; [eapply exp_ends; eauto|]. injection E as <- _. unfold is_dig. lia. }
  destruct HF as [|ds DD DN].
  - cbn [app fract_digits tl length]. destruct (e ++ rest) as [|b r] eqn:ER.
    + rewrite <- (read_exponent_ok e x rest HX HR), ER. reflexivity.
    + pose proof (exp_ends e x rest HX HR b r ER) as (_ & N46). replace (b =? 46) with false by lia. rewrite <- ER, (read_exponent_ok e x rest HX HR). reflexivity.
  - cbn [app fract_digits tl N.eqb Pos.eqb]. rewrite span_ok; auto; [|intros b r E; eapply exp_ends; eauto]. rewrite (read_exponent_ok e x rest HX HR). reflexivity.
Qed.

Lemma divide_ok : forall neg a b, nearest_double neg (IZR (cond_Zopp neg (Zpos a)) / IZR (Zpos b)) (divide neg a b).
Proof.
  intros neg a b. pose proof (Bdiv_correct_aux 53 1024 _ _ mode_NE neg a 0 false b 0) as C. cbv zeta in C.
  unfold divide. destruct (SFdiv_core_binary 53 1024 (Zpos a) 0 (Zpos b) 0) as [[m e] l]. rewrite round_aux_equiv. rewrite xorb_false_r in C.
  replace (F2R {| Fnum := cond_Zopp neg (Zpos a); Fexp := 0 |}) with (IZR (cond_Zopp neg (Zpos a))) in C by (unfold F2R; cbn [Fnum Fexp bpow]; ring).
  replace (F2R {| Fnum := cond_Zopp false (Zpos b); Fexp := 0 |}) with (IZR (Zpos b)) in C by (unfold F2R; cbn [Fnum Fexp bpow cond_Zopp]; ring).
  change (round radix2 (fexp 53 1024) (round_mode mode_NE)) with rnd in C.
  destruct C as (V & C). set (q := (IZR (cond_Zopp neg (Zpos a)) / IZR (Zpos b))%R) in *. split; intros L.
  - rewrite Rlt_bool_true in C by exact L. destruct C as (C1 & C2 & C3). auto.
  - rewrite Rlt_bool_false in C by exact L. rewrite C. reflexivity.
Qed.

Lemma round_decimal_ok : forall neg n e, nearest_double neg (dec_R (if neg then - Z.of_N n else Z.of_N n)%Z e) (round_decimal neg n e).
Proof.
  intros neg [|p] e.
  - replace (dec_R (if neg then - Z.of_N 0 else Z.of_N 0) e) with 0%R by (unfold dec_R; destruct neg, (e <? 0)%Z; cbn; unfold Rdiv; ring).
    unfold nearest_double. rewrite rnd_0. split; intros L; [repeat split|].
    rewrite Rabs_R0 in L. pose proof (bpow_gt_0 radix2 1024). lra.
  - cbn [round_decimal]. assert (P : forall z, (0 <= z)%Z -> Zpos (Z.to_pos (10 ^ z)) = (10 ^ z)%Z) by (intros z H; apply Z2Pos.id, Z.pow_pos_nonneg; lia).
    pose proof (divide_ok neg (p * Z.to_pos (10 ^ Z.max e 0)) (Z.to_pos (10 ^ Z.max (- e) 0))) as D.
    replace (dec_R (if neg then - Z.of_N (N.pos p) else Z.of_N (N.pos p)) e) with
      (IZR (cond_Zopp neg (Zpos (p * Z.to_pos (10 ^ Z.max e 0)))) / IZR (Zpos (Z.to_pos (10 ^ Z.max (- e) 0))))%R; [exact D|]. clear D.
    rewrite Pos2Z.inj_mul, !P by lia. unfold dec_R. cbn [Z.of_N].
    replace (cond_Zopp neg (Zpos p * 10 ^ Z.max e 0)) with (cond_Zopp neg (Zpos p) * 10 ^ Z.max e 0)%Z by (destruct neg; unfold cond_Zopp; ring).
    change (if neg then (- Zpos p)%Z else Zpos p) with (cond_Zopp neg (Zpos p)). rewrite mult_IZR.
    destruct (Z.ltb_spec e 0).
    + rewrite Z.max_r by lia. rewrite Z.max_l by lia. change (10 ^ 0)%Z with 1%Z. rewrite Rmult_1_r. reflexivity.
    + rewrite (Z.max_l e 0) by lia. rewrite (Z.max_r (- e) 0) by lia. change (10 ^ 0)%Z with 1%Z. field.
Qed.

(** What is assumed of std::from_chars can be met. *)
Theorem ref_from_chars_exact : from_chars_exact ref_from_chars.
Proof.
  intros t q rest HT HR. destruct HT as [sg i f e x Hsg HI HF HX].
  unfold ref_from_chars. rewrite (read_text_ok sg i f e x rest Hsg HI HF HX HR).
  set (n := dec_val (i ++ fract_digits f)). set (y := (x - Z.of_nat (length (fract_digits f)))%Z).
  pose proof (round_decimal_ok (sign_of sg <? 0)%Z n y) as D.
  assert (Q : Q2R (inject_Z (sign_of sg) * magnitude i f x) = dec_R (if (sign_of sg <? 0)%Z then - Z.of_N n else Z.of_N n)%Z y).
  { rewrite <- Q2R_decimal. apply Qeq_eqR. rewrite magnitude_digits. fold n. fold y. unfold decimal.
    destruct Hsg as [-> | ->]; cbn [sign_of Z.ltb Z.compare]; [change (inject_Z 1) with 1%Q; ring|rewrite inject_Z_opp; change (inject_Z (-1)) with (-(1))%Q; ring]. }
  rewrite Q. rewrite (neg_sign sg i (f ++ e) Hsg HI).
  set (v := round_decimal (sign_of sg <? 0)%Z n y) in *. destruct v; try exact D.
  destruct (fits_dec (dec_R (if (sign_of sg <? 0)%Z then - Z.of_N n else Z.of_N n)%Z y)) as [L|L]; [|exact L].
  destruct D as (D & _). destruct (D L) as (_ & X & _). discriminate X.
Qed.
Print Assumptions ref_from_chars_exact.
