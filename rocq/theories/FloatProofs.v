(** Proofs about the scaling step: each operation rounds once. *)
From Coq Require Import List NArith ZArith Reals QArith Qreals Qpower Lia Lra Bool ZifyBool ZifyN.
From Coq Require Import SpecFloat.
From Flocq Require Import Core BinarySingleNaN Relative.
From Verif Require Import Base IntModel RealModel FloatModel SpecReal SpecDouble.
Import ListNotations.
Local Open Scope Z_scope.

#[global] Instance Hprec53 : Prec_gt_0 53 := eq_refl.
#[global] Instance Hmax1024 : Prec_lt_emax 53 1024 := eq_refl.

Lemma round_ne_equiv : forall s m l, round_nearest_even m l = choice_mode mode_NE s m l.
Proof. intros s m l. case l; [reflexivity|intro c]. case c; [|reflexivity..]. simpl. unfold Round.cond_incr. now case Z.even. Qed.

Lemma round_aux_equiv : forall prec emax sx mx ex lx,
  SpecFloat.binary_round_aux prec emax sx mx ex lx = binary_round_aux prec emax mode_NE sx mx ex lx.
Proof.
  intros. unfold SpecFloat.binary_round_aux, binary_round_aux. set (mrse' := shr_fexp _ _ _).
  case mrse'; intros mrs' e'; simpl. now rewrite (round_ne_equiv sx).
Qed.

Lemma round_equiv : forall prec emax s m e, SpecFloat.binary_round prec emax s m e = binary_round prec emax mode_NE s m e.
Proof.
  intros. unfold SpecFloat.binary_round, binary_round, shl_align_fexp. set (mez := shl_align _ _ _). case mez as [mz ez]. apply round_aux_equiv.
Qed.

Lemma of_Z_equiv : forall z, f_of_Z Double z = B2SF (binary_normalize 53 1024 _ _ mode_NE z 0 false).
Proof.
  intros z. unfold f_of_Z. cbn [f_prec f_emax]. case z as [|p|p].
  - reflexivity.
  - simpl; rewrite B2SF_SF2B; apply round_equiv.
  - simpl; rewrite B2SF_SF2B; apply round_equiv.
Qed.

Lemma mul_equiv : forall x y : binary_float 53 1024, f_mul Double (B2SF x) (B2SF y) = B2SF (Bmult mode_NE x y).
Proof.
  intros x y. unfold f_mul. cbn [f_prec f_emax]. case x as [sx|sx| |sx mx ex Bx]; case y as [sy|sy| |sy my ey By]; [now trivial..|].
  simpl. rewrite B2SF_SF2B. apply round_aux_equiv.
Qed.

Lemma div_equiv : forall x y : binary_float 53 1024, f_div Double (B2SF x) (B2SF y) = B2SF (Bdiv mode_NE x y).
Proof.
  intros x y. unfold f_div. cbn [f_prec f_emax].
  case x as [sx|sx| |sx mx ex Bx]; case y as [sy|sy| |sy my ey By]; [now (trivial || simpl; case Bool.eqb)..|].
  simpl. rewrite B2SF_SF2B. set (melz := SFdiv_core_binary _ _ _ _ _ _). case melz as [[mz ez] lz]. apply round_aux_equiv.
Qed.

(** [f] is the finite double of value [x] and sign bit [s]. *)
Definition is_double (f : spec_float) (s : bool) (x : R) : Prop :=
  exists b : binary_float 53 1024, f = B2SF b /\ is_finite b = true /\ B2R b = x /\ Bsign b = s.

Definition fits (x : R) : Prop := (Rabs (rnd x) < bpow radix2 1024)%R.

Lemma fits_dec : forall x, fits x \/ overflows x.
Proof. intros x. unfold fits, overflows. destruct (Rlt_or_le (Rabs (rnd x)) (bpow radix2 1024)); auto. Qed.

Lemma of_Z_ok : forall z, fits (IZR z) -> is_double (f_of_Z Double z) (z <? 0) (rnd (IZR z)).
Proof.
  intros z F. exists (binary_normalize 53 1024 _ _ mode_NE z 0 false). split; [apply of_Z_equiv|].
  pose proof (binary_normalize_correct 53 1024 _ _ mode_NE z 0 false) as C. cbv zeta in C.
  replace (F2R {| Fnum := z; Fexp := 0 |}) with (IZR z) in C by (unfold F2R; simpl; ring).
  change (round radix2 (fexp 53 1024) (round_mode mode_NE) (IZR z)) with (rnd (IZR z)) in C.
  rewrite Rlt_bool_true in C by exact F. destruct C as (C1 & C2 & C3). split; [auto|]. split; [auto|].
  rewrite C3. destruct (Rcompare_spec (IZR z) 0) as [H|H|H].
  - apply lt_IZR in H. lia.
  - apply eq_IZR in H. subst. reflexivity.
  - apply lt_IZR in H. lia.
Qed.

Lemma finite_not_nan : forall b : binary_float 53 1024, is_finite b = true -> is_nan b = false.
Proof. intros [| | |]; cbn; auto; discriminate. Qed.

Lemma mul_ok : forall f g s t x y, is_double f s x -> is_double g t y -> fits (x * y) -> is_double (f_mul Double f g) (xorb s t) (rnd (x * y)).
Proof.
  intros f g s t x y (b & -> & Fb & Xb & Sb) (c & -> & Fc & Xc & Sc) F. exists (Bmult mode_NE b c). split; [apply mul_equiv|].
  pose proof (Bmult_correct 53 1024 _ _ mode_NE b c) as C. rewrite Xb, Xc in C.
  change (round radix2 (fexp 53 1024) (round_mode mode_NE) (x * y)) with (rnd (x * y)) in C.
  rewrite Rlt_bool_true in C by exact F. destruct C as (C1 & C2 & C3). rewrite Fb, Fc in C2. rewrite Sb, Sc in C3.
  repeat split; auto. apply C3, finite_not_nan, C2.
Qed.

Lemma mul_over : forall f g s t x y, is_double f s x -> is_double g t y -> overflows (x * y) -> f_mul Double f g = S754_infinity (xorb s t).
Proof.
  intros f g s t x y (b & -> & Fb & Xb & Sb) (c & -> & Fc & Xc & Sc) F. rewrite mul_equiv.
  pose proof (Bmult_correct 53 1024 _ _ mode_NE b c) as C. rewrite Xb, Xc in C.
  change (round radix2 (fexp 53 1024) (round_mode mode_NE) (x * y)) with (rnd (x * y)) in C.
  rewrite Rlt_bool_false in C by exact F. rewrite C, Sb, Sc. reflexivity.
Qed.

Lemma div_ok : forall f g s t x y, is_double f s x -> is_double g t y -> y <> 0%R -> fits (x / y) -> is_double (f_div Double f g) (xorb s t) (rnd (x / y)).
Proof.
  intros f g s t x y (b & -> & Fb & Xb & Sb) (c & -> & Fc & Xc & Sc) NZ F. exists (Bdiv mode_NE b c). split; [apply div_equiv|].
  pose proof (Bdiv_correct 53 1024 _ _ mode_NE b c ltac:(rewrite Xc; auto)) as C. rewrite Xb, Xc in C.
  change (round radix2 (fexp 53 1024) (round_mode mode_NE) (x / y)) with (rnd (x / y)) in C.
  rewrite Rlt_bool_true in C by exact F. destruct C as (C1 & C2 & C3). rewrite Fb in C2. rewrite Sb, Sc in C3.
  repeat split; auto. apply C3, finite_not_nan, C2.
Qed.

Lemma is_double_format : forall f s x, is_double f s x -> rnd x = x.
Proof.
  intros f s x (b & _ & _ & <- & _). unfold rnd. apply round_generic; auto with typeclass_instances.
  change (FLT_exp (-1074) 53) with (SpecFloat.fexp 53 1024). apply generic_format_B2R.
Qed.

Lemma is_double_fits : forall f s x, is_double f s x -> fits x.
Proof.
  intros f s x H. unfold fits. rewrite (is_double_format f s x H). destruct H as (b & _ & _ & <- & _).
  apply abs_B2R_lt_emax.
Qed.

Lemma is_double_nearest : forall f s x, is_double f s (rnd x) -> nearest_double s x f.
Proof.
  intros f s x H. pose proof (is_double_format _ _ _ H) as E. pose proof (is_double_fits _ _ _ H) as F. unfold fits in F. rewrite E in F.
  destruct H as (b & -> & Fb & Xb & Sb). split; intros L; [|lra].
  rewrite <- Xb, <- Sb. rewrite SF2R_B2SF, is_finite_SF_B2SF, valid_binary_B2SF. repeat split; auto.
  destruct b; reflexivity.
Qed.

Lemma rnd_opp : forall x, rnd (- x) = (- rnd x)%R.
Proof. intros. unfold rnd. apply round_NE_opp. Qed.

Lemma rnd_0 : rnd 0 = 0%R.
Proof. unfold rnd. apply round_0. auto with typeclass_instances. Qed.

(** *** Integers that are doubles *)

Lemma IZR_pow2 : forall e, 0 <= e -> IZR (2 ^ e) = bpow radix2 e.
Proof. intros e H. exact (IZR_Zpower radix2 e H). Qed.

Lemma rnd_int : forall m e, Z.abs m <= 2^53 -> 0 <= e -> rnd (IZR (m * 2^e)) = IZR (m * 2^e).
Proof.
  intros m e B E. unfold rnd. apply round_generic; auto with typeclass_instances.
  destruct (Z.eq_dec (Z.abs m) (2^53)) as [EQ|NE].
  - apply generic_format_FLT. exists (Float radix2 (Z.sgn m) (e + 53)).
    + rewrite mult_IZR. unfold F2R. cbn [Fnum Fexp]. rewrite bpow_plus. rewrite (IZR_pow2 e) by auto.
      replace (IZR m) with (IZR (Z.sgn m) * IZR (Z.abs m))%R by (rewrite <- mult_IZR; f_equal; lia).
      rewrite EQ. rewrite (IZR_pow2 53) by lia. ring.
    + cbn [Fnum]. change (radix2 ^ 53) with (2^53). lia.
    + cbn [Fexp]. lia.
  - apply generic_format_FLT. exists (Float radix2 m e).
    + rewrite mult_IZR. unfold F2R. cbn [Fnum Fexp]. rewrite (IZR_pow2 e) by auto. reflexivity.
    + cbn [Fnum]. change (radix2 ^ 53) with (2^53). lia.
    + cbn [Fexp]. lia.
Qed.

Lemma rnd_small : forall m, Z.abs m <= 2^53 -> rnd (IZR m) = IZR m.
Proof. intros m H. rewrite <- (Z.mul_1_r m). change 1 with (2^0). apply rnd_int; lia. Qed.

Lemma rnd_pow10 : forall k, 0 <= k <= 22 -> rnd (IZR (10^k)) = IZR (10^k).
Proof.
  intros k H. replace (10^k) with (5^k * 2^k) by (rewrite <- Z.pow_mul_l; reflexivity). apply rnd_int; [|lia].
  rewrite Z.abs_eq by (apply Z.pow_nonneg; lia). etransitivity; [apply Z.pow_le_mono_r with (c := 22); lia|]. now compute.
Qed.

Lemma rnd_le : forall x y, (x <= y)%R -> (rnd x <= rnd y)%R.
Proof. intros. unfold rnd. apply round_le; auto with typeclass_instances. Qed.

(** A number of at most 2^1023 in size fits. *)
Lemma fits_small : forall x, (Rabs x <= bpow radix2 1023)%R -> fits x.
Proof.
  intros x H. unfold fits. apply Rle_lt_trans with (bpow radix2 1023); [|apply bpow_lt; lia].
  unfold rnd. rewrite <- (round_generic radix2 (FLT_exp (-1074) 53) ZnearestE (bpow radix2 1023)).
  - rewrite <- round_NE_abs by auto with typeclass_instances. apply rnd_le, H.
  - apply generic_format_FLT. exists (Float radix2 1 1023); [unfold F2R; cbn [Fnum Fexp]; ring|cbn; lia|cbn; lia].
Qed.

(** *** The value of a decimal *)

Definition dec_R (m e : Z) : R := if e <? 0 then (IZR m / IZR (10 ^ (- e)))%R else (IZR m * IZR (10 ^ e))%R.

Lemma Q2R_inject : forall z, Q2R (inject_Z z) = IZR z.
Proof. intros z. unfold Q2R, inject_Z. cbn. field. Qed.

Lemma pow10_pos : forall e, 0 <= e -> 0 < 10 ^ e.
Proof. intros. apply Z.pow_pos_nonneg; lia. Qed.

Lemma Q2R_decimal : forall m e, Q2R (decimal m e) = dec_R m e.
Proof.
  intros m e. unfold decimal, dec_R, ten_pow. rewrite Q2R_mult, Q2R_inject. destruct (Z.ltb_spec e 0) as [L|G].
  - assert (E : ((10 # 1) ^ e == / inject_Z (10 ^ (- e)))%Q).
    { rewrite Zpower_Qpower by lia. change (inject_Z 10) with (10 # 1)%Q. rewrite Qpower_opp. rewrite Qinv_involutive. reflexivity. }
    rewrite (Qeq_eqR _ _ E). rewrite Q2R_inv, Q2R_inject; [reflexivity|].
    intros X. pose proof (pow10_pos (- e) ltac:(lia)). unfold Qeq, inject_Z in X. cbn in X. lia.
  - assert (E : ((10 # 1) ^ e == inject_Z (10 ^ e))%Q) by (rewrite Zpower_Qpower by lia; reflexivity).
    rewrite (Qeq_eqR _ _ E), Q2R_inject. reflexivity.
Qed.

Lemma dec_R_opp : forall m e, dec_R (- m) e = (- dec_R m e)%R.
Proof. intros m e. unfold dec_R. rewrite opp_IZR. destruct (e <? 0); unfold Rdiv; ring. Qed.

(** *** The fast path of the precise mode *)

Lemma tbl_exact : forall k, 0 <= k <= 22 -> is_double (pow10_tbl Double k) false (IZR (10 ^ k)).
Proof.
  intros k H. pose proof (rnd_pow10 k H) as E. pose proof (pow10_pos k ltac:(lia)) as P.
  replace false with (10 ^ k <? 0) by lia. rewrite <- E. apply of_Z_ok. apply fits_small.
  rewrite Rabs_pos_eq by (apply IZR_le; lia). apply Rle_trans with (IZR (10 ^ 22)).
  - apply IZR_le, Z.pow_le_mono_r; lia.
  - apply Rle_trans with (bpow radix2 100); [|apply bpow_le; lia]. rewrite <- IZR_pow2 by lia. apply IZR_le. now compute.
Qed.

Lemma to_int32_small : forall p, - 2^31 <= p < 2^31 -> to_int32 p = p.
Proof. intros p H. unfold to_int32. rewrite Z.mod_small; lia. Qed.

Lemma sig_ok : forall n, Z.of_N n <= 2^53 -> is_double (f_of_Z Double (Z.of_N n)) false (IZR (Z.of_N n)).
Proof.
  intros n H. rewrite <- (rnd_small (Z.of_N n)) by lia. replace false with (Z.of_N n <? 0) by lia. apply of_Z_ok, fits_small.
  rewrite Rabs_pos_eq by (apply IZR_le; lia). apply Rle_trans with (bpow radix2 53); [|apply bpow_le; lia].
  rewrite <- IZR_pow2 by lia. apply IZR_le. exact H.
Qed.

Lemma dec_R_bound : forall m e, 0 <= m <= 2^53 -> -22 <= e <= 22 -> (0 <= dec_R m e <= bpow radix2 1023)%R.
Proof.
  intros m e M E. unfold dec_R.
  assert (B : (IZR m <= bpow radix2 53)%R) by (rewrite <- IZR_pow2 by lia; apply IZR_le, M).
  assert (M0 : (0 <= IZR m)%R) by (apply IZR_le; lia).
  destruct (Z.ltb_spec e 0) as [L|G].
  - pose proof (pow10_pos (- e) ltac:(lia)) as P. assert (P1 : (1 <= IZR (10 ^ (- e)))%R) by (apply IZR_le; lia).
    assert (I : (0 < / IZR (10 ^ (- e)) <= 1)%R).
    { split; [apply Rinv_0_lt_compat; lra|]. rewrite <- Rinv_1. apply Rinv_le; lra. }
    unfold Rdiv. split; [apply Rmult_le_pos; lra|]. apply Rle_trans with (IZR m * 1)%R; [apply Rmult_le_compat_l; lra|].
    rewrite Rmult_1_r. apply Rle_trans with (1 := B). apply bpow_le. lia.
  - pose proof (pow10_pos e G) as P. split; [apply Rmult_le_pos; [auto|apply IZR_le; lia]|].
    replace 1023 with (53 + 970) by reflexivity. rewrite bpow_plus. apply Rmult_le_compat; auto.
    + apply IZR_le; lia.
    + apply Rle_trans with (IZR (10 ^ 22)); [apply IZR_le, Z.pow_le_mono_r; lia|].
      apply Rle_trans with (bpow radix2 100); [|apply bpow_le; lia]. rewrite <- IZR_pow2 by lia. apply IZR_le. now compute.
Qed.

Lemma power10_fast : forall rt n e, Z.of_N n <= 2^53 -> -22 <= e <= 22 ->
  exists v, power10_tag rt Double (f_of_Z Double (Z.of_N n)) e = Ok v /\ is_double v false (rnd (dec_R (Z.of_N n) e)).
Proof.
  intros rt n e N E. unfold power10_tag.
  replace (if rt then to_int32 e else e) with e by (destruct rt; auto; rewrite to_int32_small; lia).
  pose proof (dec_R_bound (Z.of_N n) e ltac:(lia) E) as B.
  assert (F : fits (dec_R (Z.of_N n) e)) by (apply fits_small; rewrite Rabs_pos_eq; lra).
  unfold power10. cbn [max_exp].
  replace (308 <? e) with false by lia. replace (e <? - (308)) with false by lia.
  unfold dec_R in *. destruct (Z.ltb_spec e 0) as [L|G].
  - eexists. split; [reflexivity|]. change false with (xorb false false). apply div_ok; auto.
    + apply sig_ok, N.
    + apply tbl_exact. lia.
    + pose proof (pow10_pos (- e) ltac:(lia)). apply IZR_neq. lia.
  - eexists. split; [reflexivity|]. change false with (xorb false false). apply mul_ok; auto.
    + apply sig_ok, N.
    + apply tbl_exact. lia.
Qed.

(** Multiplying by the sign is exact. *)
Lemma sign_ok : forall z v s x, z = 1 \/ z = -1 -> is_double v s x -> is_double (f_mul Double (f_of_Z Double z) v) (xorb (z <? 0) s) (IZR z * x).
Proof.
  intros z v s x Hz H. pose proof (is_double_format _ _ _ H) as E. pose proof (is_double_fits _ _ _ H) as F.
  assert (Z1 : is_double (f_of_Z Double z) (z <? 0) (IZR z)).
  { rewrite <- (rnd_small z) by lia. apply of_Z_ok, fits_small. rewrite <- abs_IZR. replace (Z.abs z) with 1 by lia.
    change 1%R with (bpow radix2 0). apply bpow_le. lia. }
  assert (RE : rnd (IZR z * x) = (IZR z * x)%R).
  { destruct Hz as [-> | ->]; [rewrite !Rmult_1_l; exact E|]. replace (-1 * x)%R with (- x)%R by ring. rewrite rnd_opp, E. reflexivity. }
  rewrite <- RE. apply mul_ok; auto. unfold fits in *. rewrite RE. rewrite E in F. rewrite Rabs_mult, <- abs_IZR. replace (Z.abs z) with 1 by lia.
  rewrite Rmult_1_l. exact F.
Qed.

Lemma scale_fast : forall rt s n e b, s = 1 \/ s = -1 -> Z.of_N n <= 2^53 -> -22 <= e <= 22 ->
  exists v, scale rt Double (mkreal s n e b) = Ok v /\ nearest_double (s <? 0) (dec_R (s * Z.of_N n) e) v.
Proof.
  intros rt s n e b Hs N E. destruct (power10_fast rt n e N E) as (v & P & D).
  unfold scale. cbn [r_sig r_exp r_sign]. rewrite P. cbn [bind]. eexists. split; [reflexivity|].
  apply is_double_nearest. replace (s <? 0) with (xorb (s <? 0) false) by apply xorb_false_r.
  replace (rnd (dec_R (s * Z.of_N n) e)) with (IZR s * rnd (dec_R (Z.of_N n) e))%R; [apply sign_ok; auto|].
  destruct Hs as [-> | ->]; [now rewrite Rmult_1_l, Z.mul_1_l|].
  replace (-1 * Z.of_N n) with (- Z.of_N n) by lia. rewrite dec_R_opp, rnd_opp. ring.
Qed.

(** *** Error of the scaling in general *)

Definition ulp1 : R := bpow radix2 (-53).

(** [x] is [y] up to [k] times 2^-53 of [y]. *)
Definition near (k x y : R) : Prop := (0 < y /\ y * (1 - k * ulp1) <= x <= y * (1 + k * ulp1))%R.

Lemma ulp1_bound : (0 < ulp1 <= / 1000000000)%R.
Proof.
  unfold ulp1. split; [apply bpow_gt_0|]. change (-53) with (- (53)). rewrite bpow_opp. apply Rinv_le; [lra|].
  rewrite <- IZR_pow2 by lia. apply IZR_le. now compute.
Qed.

Lemma near_pos : forall k x y, (0 <= k <= 10)%R -> near k x y -> (0 < x)%R.
Proof. intros k x y K (Y & L & H). pose proof ulp1_bound. apply Rlt_le_trans with (2 := L). apply Rmult_lt_0_compat; auto. nra. Qed.

Lemma near_mul : forall a b x y s t, (0 <= a <= 10)%R -> (0 <= b <= 10)%R -> near a x y -> near b s t -> near (a + b + /1000) (x * s) (y * t).
Proof.
  intros a b x y s t A B NX NS. pose proof (near_pos a x y A NX) as PX. pose proof (near_pos b s t B NS) as PS.
  destruct NX as (PY & LX & HX), NS as (PT & LT & HT). pose proof ulp1_bound as U.
  assert (A1 : (0 <= 1 - a * ulp1)%R) by nra. assert (B1 : (0 <= 1 - b * ulp1)%R) by nra.
  assert (U0 : (0 <= a * ulp1 <= /100000)%R) by nra. assert (U1 : (0 <= b * ulp1 <= / 100000)%R) by nra.
  assert (PYT : (0 < y * t)%R) by (apply Rmult_lt_0_compat; auto).
  split; [auto|split].
  - apply Rle_trans with ((y * (1 - a * ulp1)) * (t * (1 - b * ulp1)))%R.
    + replace ((y * (1 - a * ulp1)) * (t * (1 - b * ulp1)))%R with ((y * t) * ((1 - a * ulp1) * (1 - b * ulp1)))%R by ring.
      apply Rmult_le_compat_l; [lra|]. nra.
    + apply Rmult_le_compat; auto; apply Rmult_le_pos; lra.
  - apply Rle_trans with ((y * (1 + a * ulp1)) * (t * (1 + b * ulp1)))%R.
    + apply Rmult_le_compat; lra.
    + replace ((y * (1 + a * ulp1)) * (t * (1 + b * ulp1)))%R with ((y * t) * ((1 + a * ulp1) * (1 + b * ulp1)))%R by ring.
      apply Rmult_le_compat_l; [lra|].
      assert (a * ulp1 * (b * ulp1) <= / 1000 * ulp1)%R by (replace (a * ulp1 * (b * ulp1))%R with ((a * (b * ulp1)) * ulp1)%R by ring; apply Rmult_le_compat_r; nra).
      lra.
Qed.

Lemma near_inv : forall b s t, (0 <= b <= 10)%R -> near b s t -> near (b + /1000) (/ s) (/ t).
Proof.
  intros b s t B NS. pose proof (near_pos b s t B NS) as PS. destruct NS as (PT & LT & HT). pose proof ulp1_bound as U.
  assert (U1 : (0 <= b * ulp1 <= / 100000)%R) by nra.
  assert (U2 : (b * ulp1 * (b * ulp1) <= / 10000 * ulp1)%R) by (replace (b * ulp1 * (b * ulp1))%R with ((b * (b * ulp1)) * ulp1)%R by ring; apply Rmult_le_compat_r; nra).
  split; [apply Rinv_0_lt_compat; auto|].
  assert (E : forall c, (/ t * c = / (t * / c))%R -> True) by auto. clear E.
  split.
  - apply Rmult_le_reg_r with (r := (s * t)%R); [apply Rmult_lt_0_compat; auto|].
    replace (/ t * (1 - (b + / 1000) * ulp1) * (s * t))%R with (s * (1 - (b + / 1000) * ulp1))%R by (field; lra).
    replace (/ s * (s * t))%R with t by (field; lra).
    apply Rle_trans with (t * (1 + b * ulp1) * (1 - (b + / 1000) * ulp1))%R; [apply Rmult_le_compat_r; [nra|auto]|].
    replace t with (t * 1)%R at 2 by ring. rewrite Rmult_assoc. apply Rmult_le_compat_l; [lra|]. nra.
  - apply Rmult_le_reg_r with (r := (s * t)%R); [apply Rmult_lt_0_compat; auto|].
    replace (/ t * (1 + (b + / 1000) * ulp1) * (s * t))%R with (s * (1 + (b + / 1000) * ulp1))%R by (field; lra).
    replace (/ s * (s * t))%R with t by (field; lra).
    apply Rle_trans with (t * (1 - b * ulp1) * (1 + (b + / 1000) * ulp1))%R; [|apply Rmult_le_compat_r; [nra|auto]].
    replace t with (t * 1)%R at 1 by ring. rewrite Rmult_assoc. apply Rmult_le_compat_l; [lra|].
    assert (b * ulp1 * (/ 1000 * ulp1) <= / 1000000 * ulp1)%R by (rewrite <- Rmult_assoc; apply Rmult_le_compat_r; nra).
    nra.
Qed.

Lemma near_weaken : forall a b x y, (a <= b)%R -> near a x y -> near b x y.
Proof.
  intros a b x y L (P & A & B). pose proof ulp1_bound. assert (a * ulp1 <= b * ulp1)%R by (apply Rmult_le_compat_r; lra).
  split; auto. split.
  - apply Rle_trans with (2 := A). apply Rmult_le_compat_l; lra.
  - apply Rle_trans with (1 := B). apply Rmult_le_compat_l; lra.
Qed.

(** One rounding of a number in the normal range *)
Lemma rnd_near : forall x, (bpow radix2 (-1022) <= x)%R -> near 1 (rnd x) x.
Proof.
  intros x H. pose proof (bpow_gt_0 radix2 (-1022)) as P. assert (PX : (0 < x)%R) by lra.
  pose proof (relative_error_N_FLT radix2 (-1074) 53 ltac:(lia) (fun n => negb (Z.even n)) x) as E.
  change (-1074 + 53 - 1) with (-1022) in E. rewrite (Rabs_pos_eq x) in E by lra. specialize (E H).
  change (- (53) + 1) with (-53 + 1) in E.
  replace (/ 2 * bpow radix2 (-53 + 1))%R with ulp1 in E.
  2:{ unfold ulp1. rewrite bpow_plus. change (bpow radix2 1) with 2%R. field. }
  change (round radix2 (FLT_exp (-1074) 53) (Znearest (fun n => negb (Z.even n))) x) with (rnd x) in E. apply Rabs_le_inv in E. split; auto. split; lra.
Qed.

Lemma near_refl : forall x, (0 < x)%R -> near 0 x x.
Proof. intros x H. split; auto. split; lra. Qed.

Lemma near_trans : forall a b x y z, near a x y -> near b y z -> (0 <= a <= 10)%R -> (0 <= b <= 10)%R -> near (a + b + / 1000) x z.
Proof.
  intros a b x y z NX NY A B. pose proof (near_pos b y z B NY) as PY.
  assert (Q : near a (x / y) 1).
  { destruct NX as (_ & L & H). split; [lra|]. split.
    - apply Rmult_le_reg_r with (r := y); auto. replace (x / y * y)%R with x by (field; lra). lra.
    - apply Rmult_le_reg_r with (r := y); auto. replace (x / y * y)%R with x by (field; lra). lra. }
  pose proof (near_mul a b (x / y) 1 y z A B Q NY) as R. replace (x / y * y)%R with x in R by (field; lra). rewrite Rmult_1_l in R. exact R.
Qed.

(** The largest double *)
Definition max_double : R := IZR ((2^53 - 1) * 2^971).

Lemma fits_max : forall x, (0 <= x <= max_double)%R -> fits x.
Proof.
  intros x (P & H). unfold fits. assert (E : rnd max_double = max_double) by (apply rnd_int; now compute).
  assert (N : (0 <= rnd x)%R) by (rewrite <- rnd_0; apply rnd_le, P).
  rewrite Rabs_pos_eq by exact N. apply rnd_le in H. rewrite E in H. apply Rle_lt_trans with (1 := H).
  unfold max_double. rewrite <- IZR_pow2 by lia. apply IZR_lt. now compute.
Qed.

Lemma tbl_ok : forall k, 0 <= k <= 308 -> is_double (pow10_tbl Double k) false (rnd (IZR (10 ^ k))).
Proof.
  intros k H. pose proof (pow10_pos k ltac:(lia)) as P. replace false with (10 ^ k <? 0) by lia. apply of_Z_ok, fits_max.
  split; [apply IZR_le; lia|]. unfold max_double. apply IZR_le. etransitivity; [apply Z.pow_le_mono_r with (c := 308); lia|]. now compute.
Qed.

Lemma one_le_min : forall z, 1 <= z -> (bpow radix2 (-1022) <= IZR z)%R.
Proof. intros z H. apply Rle_trans with (bpow radix2 0); [apply bpow_le; lia|]. change (bpow radix2 0) with (IZR 1). apply IZR_le, H. Qed.

Lemma tbl_near : forall k, 0 <= k -> near 1 (rnd (IZR (10 ^ k))) (IZR (10 ^ k)).
Proof. intros k H. apply rnd_near, one_le_min. pose proof (pow10_pos k H). lia. Qed.

Lemma sig_any : forall n, (1 <= n < 2^64)%N -> is_double (f_of_Z Double (Z.of_N n)) false (rnd (IZR (Z.of_N n))) /\ near 1 (rnd (IZR (Z.of_N n))) (IZR (Z.of_N n)).
Proof.
  intros n H. change (2^64)%N with 18446744073709551616%N in H. split.
  - replace false with (Z.of_N n <? 0) by lia. apply of_Z_ok, fits_max. split; [apply IZR_le; lia|]. unfold max_double. apply IZR_le.
    transitivity (2^64); [change (2^64) with 18446744073709551616; lia|now compute].
  - apply rnd_near, one_le_min. lia.
Qed.

Definition min_normal2 : R := bpow radix2 (-1021).

Lemma near_bounds : forall k x y, near k x y -> (0 <= k <= 10)%R -> (y / 2 <= x <= y * (1 + / 100000000))%R.
Proof. intros k x y (P & L & H) K. pose proof ulp1_bound. assert (k * ulp1 <= / 100000000)%R by (apply Rle_trans with (10 * ulp1)%R; [apply Rmult_le_compat_r|]; lra). assert (0 <= k * ulp1)%R by nra. split.
  - apply Rle_trans with (2 := L). unfold Rdiv. apply Rmult_le_compat_l; lra.
  - apply Rle_trans with (1 := H). apply Rmult_le_compat_l; lra.
Qed.

Lemma big_ok : (IZR (10 ^ 308) * (1 + / 100000000) <= max_double)%R.
Proof.
  unfold max_double. apply Rmult_le_reg_r with (IZR 100000000); [apply IZR_lt; lia|].
  replace (IZR (10 ^ 308) * (1 + / 100000000) * IZR 100000000)%R with (IZR (10 ^ 308 * 100000001)).
  - rewrite <- mult_IZR. apply IZR_le. now compute.
  - rewrite mult_IZR. generalize (IZR (10 ^ 308)). intros r. replace 100000001 with (100000000 + 1) by lia. rewrite plus_IZR. field.
Qed.

Lemma half_normal : (min_normal2 / 2 = bpow radix2 (-1022))%R.
Proof. unfold min_normal2. change (-1021) with (-1022 + 1). rewrite bpow_plus. change (bpow radix2 1) with 2%R. field. Qed.

(** A number in the normal range is scaled with an error of less than 6 units of
    2^-53. *)
Lemma power10_near : forall n e, (1 <= n < 2^64)%N -> (min_normal2 <= dec_R (Z.of_N n) e <= IZR (10 ^ 308))%R ->
  exists v x, power10 Double (f_of_Z Double (Z.of_N n)) e = Ok v /\ is_double v false x /\ near 6 x (dec_R (Z.of_N n) e) /\ -400 <= e <= 308.
Proof.
  intros n e N (LO & HI). destruct (sig_any n N) as (D0 & N0). set (m := Z.of_N n) in *. assert (M1 : 1 <= m) by lia.
  assert (M64 : m < 2^64) by (unfold m; change (2^64)%N with 18446744073709551616%N in N; change (2^64) with 18446744073709551616; lia).
  set (v0 := f_of_Z Double m) in *. set (x0 := rnd (IZR m)) in *. clearbody v0 x0 m. clear n N.
  assert (M1R : (1 <= IZR m)%R) by (apply IZR_le, M1). pose proof ulp1_bound as U.
  unfold power10. cbn [max_exp max_exponent min_exponent].
  unfold dec_R in *. destruct (Z.ltb_spec e 0) as [L|G].
  - assert (P := pow10_pos (- e) ltac:(lia)). assert (PR : (0 < IZR (10 ^ (- e)))%R) by (apply IZR_lt, P).
    replace (308 <? e) with false by lia. destruct (Z.ltb_spec e (- (308))) as [LL|GG].
    + assert (E400 : - e < 400).
      { destruct (Z_lt_le_dec (- e) 400) as [|H]; auto. exfalso.
        assert (IZR (10 ^ 400) <= IZR (10 ^ (- e)))%R by (apply IZR_le, Z.pow_le_mono_r; lia).
        assert (min_normal2 * IZR (10 ^ (- e)) <= IZR m)%R.
        { apply Rmult_le_reg_r with (/ IZR (10 ^ (- e)))%R; [apply Rinv_0_lt_compat; auto|]. rewrite Rmult_assoc, Rinv_r, Rmult_1_r by lra. exact LO. }
        assert (min_normal2 * IZR (10 ^ 400) <= IZR (2 ^ 64))%R.
        { apply Rle_trans with (min_normal2 * IZR (10 ^ (- e)))%R; [apply Rmult_le_compat_l; [apply bpow_ge_0|auto]|].
          apply Rle_trans with (IZR m); auto. apply IZR_le. lia. }
        assert (BAD : (IZR (10 ^ 400) <= IZR (2 ^ 64 * 2 ^ 1021))%R).
        { rewrite mult_IZR. rewrite (IZR_pow2 1021) by lia. unfold min_normal2 in *. pose proof (bpow_gt_0 radix2 1021).
          apply Rmult_le_reg_l with (bpow radix2 (-1021)); [apply bpow_gt_0|].
          replace (bpow radix2 (-1021) * (IZR (2 ^ 64) * bpow radix2 1021))%R with (IZR (2 ^ 64) * (bpow radix2 (-1021) * bpow radix2 1021))%R by ring.
          rewrite <- bpow_plus. change (bpow radix2 (-1021 + 1021)) with 1%R. lra. }
        apply le_IZR in BAD. revert BAD. apply Z.lt_nge. now compute. }
      replace (e <? -1021) with false by lia.
      cbn [scale_down max_exp]. replace (e + 308 <? - (308)) with false by lia. cbn [bind].
      set (k := - (e + 308)). assert (K : 1 <= k <= 92) by lia.
      assert (Tk := tbl_ok k ltac:(lia)). assert (Nk := tbl_near k ltac:(lia)).
      assert (T308 := tbl_ok 308 ltac:(lia)). assert (N308 := tbl_near 308 ltac:(lia)).
      assert (PK : (0 < IZR (10 ^ k))%R) by (apply IZR_lt, pow10_pos; lia). assert (P308 : (0 < IZR (10 ^ 308))%R) by (apply IZR_lt, pow10_pos; lia).
      assert (PTk := near_pos 1 _ _ ltac:(lra) Nk). assert (PT308 := near_pos 1 _ _ ltac:(lra) N308).
      assert (SPLIT : (IZR m / IZR (10 ^ (- e)) = (IZR m * / IZR (10 ^ k)) * / IZR (10 ^ 308))%R).
      { replace (- e) with (k + 308) by lia. rewrite Z.pow_add_r by lia. rewrite mult_IZR. field. lra. }
      rewrite SPLIT in *. set (t := rnd (IZR (10 ^ k))) in *. set (T := rnd (IZR (10 ^ 308))) in *.
      assert (Na : near (1 + (1 + /1000) + /1000) (x0 * / t) (IZR m * / IZR (10 ^ k))) by (apply near_mul; try lra; auto; apply near_inv; auto; lra).
      assert (LB : (min_normal2 * 1 <= IZR m * / IZR (10 ^ k))%R).
      { apply Rle_trans with ((IZR m * / IZR (10 ^ k)) * 1)%R.
        - rewrite !Rmult_1_r. apply Rle_trans with (1 := LO). rewrite <- (Rmult_1_r (IZR m * / IZR (10 ^ k))) at 2. apply Rmult_le_compat_l.
          + apply Rmult_le_pos; [lra|]. left. apply Rinv_0_lt_compat; auto.
          + rewrite <- Rinv_1. apply Rinv_le; [lra|]. apply IZR_le. pose proof (pow10_pos 308). lia.
        - lra. }
      assert (UB1 : (IZR m * / IZR (10 ^ k) <= IZR (2^64))%R).
      { rewrite <- (Rmult_1_r (IZR (2^64))). apply Rmult_le_compat; [lra|left; apply Rinv_0_lt_compat; auto|apply IZR_le; lia|].
        rewrite <- Rinv_1. apply Rinv_le; [lra|]. apply IZR_le. pose proof (pow10_pos k). lia. }
      assert (Ba := near_bounds _ _ _ Na ltac:(lra)). assert (MX : (IZR (2^64) * (1 + / 100000000) <= max_double)%R).
      { apply Rle_trans with (IZR (10^308) * (1 + / 100000000))%R; [|apply big_ok]. apply Rmult_le_compat_r; [lra|]. apply IZR_le. now compute. }
      assert (F1 : fits (x0 / t)) by (apply fits_max; unfold Rdiv; split; [|nra]; apply Rle_trans with (2 := proj1 Ba); pose proof (bpow_gt_0 radix2 (-1021)); unfold min_normal2 in *; lra).
      assert (D1 := div_ok _ _ _ _ _ _ D0 Tk ltac:(lra) F1). unfold Rdiv in D1 at 1.
      assert (R1 : near 1 (rnd (x0 * / t)) (x0 * / t)) by (apply rnd_near; rewrite <- half_normal; lra).
      set (x1 := rnd (x0 * / t)) in *.
      assert (Nb := near_trans _ _ _ _ _ R1 Na ltac:(lra) ltac:(lra)).
      assert (Nc : near (1 + (1 + (1 + / 1000) + / 1000) + / 1000 + (1 + / 1000) + / 1000) (x1 * / T) ((IZR m * / IZR (10 ^ k)) * / IZR (10 ^ 308)))
        by (apply near_mul; try lra; auto; apply near_inv; auto; lra).
      assert (Bc := near_bounds _ _ _ Nc ltac:(lra)).
      assert (F2 : fits (x1 / T)).
      { apply fits_max. unfold Rdiv. split; [pose proof (bpow_gt_0 radix2 (-1021)); unfold min_normal2 in *; lra|]. apply Rle_trans with (1 := proj2 Bc).
        apply Rle_trans with (IZR (10 ^ 308) * (1 + / 100000000))%R; [|apply big_ok]. apply Rmult_le_compat_r; [lra|auto]. }
      assert (D2 := div_ok _ _ _ _ _ _ D1 T308 ltac:(lra) F2). unfold Rdiv in D2.
      assert (R2 : near 1 (rnd (x1 * / T)) (x1 * / T)) by (apply rnd_near; rewrite <- half_normal; lra).
      assert (Nd := near_trans _ _ _ _ _ R2 Nc ltac:(lra) ltac:(lra)).
      eexists _, _. split; [reflexivity|]. split; [exact D2|]. split; [|lia]. eapply near_weaken; [|exact Nd]. lra.
    + assert (Tk := tbl_ok (- e) ltac:(lia)). assert (Nk := tbl_near (- e) ltac:(lia)). assert (PT := near_pos 1 _ _ ltac:(lra) Nk).
      set (t := rnd (IZR (10 ^ (- e)))) in *.
      assert (Na : near (1 + (1 + /1000) + /1000) (x0 * / t) (IZR m / IZR (10 ^ (- e)))) by (apply near_mul; try lra; auto; apply near_inv; auto; lra).
      assert (Ba := near_bounds _ _ _ Na ltac:(lra)).
      assert (F1 : fits (x0 / t)).
      { apply fits_max. unfold Rdiv at 1 2. split; [pose proof (bpow_gt_0 radix2 (-1021)); unfold min_normal2 in *; lra|]. apply Rle_trans with (1 := proj2 Ba).
        apply Rle_trans with (IZR (10 ^ 308) * (1 + / 100000000))%R; [|apply big_ok]. apply Rmult_le_compat_r; [lra|auto]. }
      assert (D1 := div_ok _ _ _ _ _ _ D0 Tk ltac:(lra) F1).
      assert (R1 : near 1 (rnd (x0 / t)) (x0 * / t)) by (apply rnd_near; rewrite <- half_normal; lra).
      assert (Nb := near_trans _ _ _ _ _ R1 Na ltac:(lra) ltac:(lra)).
      eexists _, _. split; [reflexivity|]. split; [exact D1|]. split; [|lia]. eapply near_weaken; [|exact Nb]. lra.
  - assert (P := pow10_pos e G). assert (PR : (0 < IZR (10 ^ e))%R) by (apply IZR_lt, P).
    assert (E308 : e <= 308).
    { destruct (Z_le_gt_dec e 308) as [|H]; auto. exfalso.
      assert (IZR (10 ^ 309) <= IZR (10 ^ e))%R by (apply IZR_le, Z.pow_le_mono_r; lia).
      assert (BAD : (IZR (10 ^ 309) <= IZR (10 ^ 308))%R).
      { apply Rle_trans with (2 := HI). apply Rle_trans with (1 * IZR (10 ^ e))%R; [lra|]. apply Rmult_le_compat_r; lra. }
      apply le_IZR in BAD. revert BAD. apply Z.lt_nge. now compute. }
    replace (308 <? e) with false by lia. replace (e <? - (308)) with false by lia.
    assert (Tk := tbl_ok e ltac:(lia)). assert (Nk := tbl_near e ltac:(lia)). set (t := rnd (IZR (10 ^ e))) in *.
    assert (Na : near (1 + 1 + /1000) (x0 * t) (IZR m * IZR (10 ^ e))) by (apply near_mul; try lra; auto).
    assert (Ba := near_bounds _ _ _ Na ltac:(lra)).
    assert (F1 : fits (x0 * t)).
    { apply fits_max. split; [pose proof (bpow_gt_0 radix2 (-1021)); unfold min_normal2 in *; lra|]. apply Rle_trans with (1 := proj2 Ba).
      apply Rle_trans with (IZR (10 ^ 308) * (1 + / 100000000))%R; [|apply big_ok]. apply Rmult_le_compat_r; [lra|auto]. }
    assert (D1 := mul_ok _ _ _ _ _ _ D0 Tk F1).
    assert (R1 : near 1 (rnd (x0 * t)) (x0 * t)) by (apply rnd_near; rewrite <- half_normal; lra).
    assert (Nb := near_trans _ _ _ _ _ R1 Na ltac:(lra) ltac:(lra)).
    eexists _, _. split; [reflexivity|]. split; [exact D1|]. split; [|lia]. eapply near_weaken; [|exact Nb]. lra.
Qed.

Lemma scale_near : forall rt s n e b, s = 1 \/ s = -1 -> (1 <= n < 2^64)%N -> (min_normal2 <= dec_R (Z.of_N n) e <= IZR (10 ^ 308))%R ->
  exists v x, scale rt Double (mkreal s n e b) = Ok v /\ is_double v (s <? 0) (IZR s * x) /\ near 6 x (dec_R (Z.of_N n) e).
Proof.
  intros rt s n e b Hs N B. destruct (power10_near n e N B) as (v & x & P & D & NR & E).
  unfold scale, power10_tag. cbn [r_sig r_exp r_sign].
  replace (if rt then to_int32 e else e) with e by (destruct rt; auto; rewrite to_int32_small; lia).
  rewrite P. cbn [bind]. exists (f_mul Double (f_of_Z Double s) v), x. split; [reflexivity|]. split; [|exact NR].
  replace (s <? 0) with (xorb (s <? 0) false) by apply xorb_false_r. apply sign_ok; auto.
Qed.
