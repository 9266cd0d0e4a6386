(** Seventeen digits tell every double: what is assumed of
    jkj::dragonbox::to_decimal can be met.  [ref_db] is no model of dragonbox, which
    finds the shortest such decimal. *)
From Coq Require Import List NArith ZArith QArith Qreals Reals Bool Lia Lra.
From Coq Require Import SpecFloat.
From Flocq Require Import Core BinarySingleNaN.
From Verif Require Import Base RealModel SpecReal SpecDouble RealProofs PropertiesReal FloatModel FloatProofs RealSerModel PropertiesRealSer XModel SpecX.
Import ListNotations.
Local Open Scope Z_scope.

(** m * 2^e / 10^k as a fraction *)
Definition sc_num (m : positive) (e k : Z) : Z := Zpos m * 2 ^ Z.max e 0 * 10 ^ Z.max (- k) 0.
Definition sc_den (e k : Z) : Z := 2 ^ Z.max (- e) 0 * 10 ^ Z.max k 0.

Definition in_decade (m : positive) (e k : Z) : bool :=
  (10 ^ 16 * sc_den e k <=? sc_num m e k) && (sc_num m e k <? 10 ^ 17 * sc_den e k).

Definition ref_db (d : spec_float) : N * Z :=
  match d with
  | S754_finite _ m e =>
      match find (in_decade m e) (map (fun i => Z.of_nat i - 360) (seq 0 700)) with
      | Some k =>
          let v := (2 * sc_num m e k + sc_den e k) / (2 * sc_den e k) in
          if v =? 10 ^ 17 then (Z.to_N (10 ^ 16), k + 1) else (Z.to_N v, k)
      | None => (1%N, 0)
      end
  | _ => (1%N, 0)
  end.

Definition ten : radix := Build_radix 10 eq_refl.

Lemma bpow_split : forall (r : radix) z, bpow r z = (IZR (r ^ Z.max z 0) / IZR (r ^ Z.max (- z) 0))%R.
Proof.
  intros r z. rewrite !IZR_Zpower by lia. unfold Rdiv. rewrite <- bpow_opp, <- bpow_plus. f_equal. lia.
Qed.

Lemma pow_pos : forall b z, 0 < b -> 0 < b ^ Z.max z 0.
Proof. intros. apply Z.pow_pos_nonneg; lia. Qed.

Lemma dec_R_bpow : forall v k, dec_R v k = (IZR v * bpow ten k)%R.
Proof.
  intros v k. unfold dec_R. destruct (Z.ltb_spec k 0).
  - change 10 with (radix_val ten). rewrite IZR_Zpower by lia. unfold Rdiv. rewrite <- bpow_opp. f_equal. f_equal. lia.
  - change 10 with (radix_val ten). now rewrite IZR_Zpower by lia.
Qed.

Lemma sc_value : forall m e k, (IZR (Zpos m) * bpow radix2 e * IZR (sc_den e k) = IZR (sc_num m e k) * bpow ten k)%R.
Proof.
  intros m e k. rewrite (bpow_split radix2 e), (bpow_split ten k). change (radix_val radix2) with 2. change (radix_val ten) with 10.
  unfold sc_den, sc_num. rewrite !mult_IZR.
  pose proof (pow_pos 2 (- e) eq_refl) as A. pose proof (pow_pos 10 (- k) eq_refl) as B.
  apply IZR_lt in A, B. field. lra.
Qed.

Lemma den_pos : forall e k, 0 < sc_den e k.
Proof. intros. unfold sc_den. apply Z.mul_pos_pos; apply pow_pos; lia. Qed.

(** The fraction compared with an integer *)
Lemma sc_le : forall m e k z, z * sc_den e k <= sc_num m e k <-> (IZR z * bpow ten k <= IZR (Zpos m) * bpow radix2 e)%R.
Proof.
  intros m e k z. pose proof (sc_value m e k) as V. pose proof (IZR_lt _ _ (den_pos e k)) as D. pose proof (bpow_gt_0 ten k) as P.
  set (x := (IZR (Zpos m) * bpow radix2 e)%R) in *. split; intros H.
  - apply IZR_le in H. rewrite mult_IZR in H. apply (Rmult_le_compat_r (bpow ten k)) in H; [|lra]. rewrite <- V in H.
    apply (Rmult_le_reg_r (IZR (sc_den e k))); [lra|]. lra.
  - apply le_IZR. rewrite mult_IZR. apply (Rmult_le_reg_r (bpow ten k)); [lra|]. rewrite <- V.
    apply (Rmult_le_compat_r (IZR (sc_den e k))) in H; lra.
Qed.

Lemma sc_lt : forall m e k z, sc_num m e k < z * sc_den e k <-> (IZR (Zpos m) * bpow radix2 e < IZR z * bpow ten k)%R.
Proof.
  intros m e k z. pose proof (sc_le m e k z) as H. split; intros L.
  - apply Rnot_le_lt. intros X. apply H in X. lia.
  - apply Z.nle_gt. intros X. apply H in X. lra.
Qed.

(** A number that is near enough to a double is rounded to it. *)
Lemma near_double : forall x y, generic_format radix2 (FLT_exp (-1074) 53) x -> (0 < x)%R -> (Rabs (y - x) < x * bpow radix2 (-54))%R -> rnd y = x.
Proof.
  intros x y F X0 H. apply Rabs_def2 in H as [H1 H2]. set (M := mag_val _ _ (mag radix2 x)).
  assert (XM : (bpow radix2 (M - 1) <= x < bpow radix2 M)%R).
  { pose proof (bpow_mag_gt radix2 x) as A. pose proof (bpow_mag_le radix2 x ltac:(lra)) as B. rewrite Rabs_pos_eq in A, B by lra. split; assumption. }
  assert (U : ulp radix2 (FLT_exp (-1074) 53) x = bpow radix2 (FLT_exp (-1074) 53 M)) by (rewrite ulp_neq_0 by lra; reflexivity).
  assert (U1 : (x * bpow radix2 (-53) < ulp radix2 (FLT_exp (-1074) 53) x)%R).
  { rewrite U. apply Rlt_le_trans with (bpow radix2 M * bpow radix2 (-53))%R.
    - apply Rmult_lt_compat_r; [apply bpow_gt_0|apply XM].
    - rewrite <- bpow_plus. apply bpow_le. unfold FLT_exp. lia. }
  assert (E : (x * bpow radix2 (-53) = 2 * (x * bpow radix2 (-54)))%R).
  { replace (-53) with (1 + -54) by lia. rewrite bpow_plus. change (bpow radix2 1) with 2%R. ring. }
  apply Rle_antisym; unfold rnd.
  - apply round_N_le_midp; [apply FLT_exp_valid; reflexivity|exact F|]. rewrite succ_eq_pos by lra. lra.
  - apply round_N_ge_midp; [apply FLT_exp_valid; reflexivity|exact F|]. rewrite pred_eq_pos by lra. unfold pred_pos.
    destruct (Req_bool_spec x (bpow radix2 (mag radix2 x - 1))) as [EX|_]; [|lra].
    assert (G : (x * bpow radix2 (-53) <= bpow radix2 (FLT_exp (-1074) 53 (mag radix2 x - 1)))%R).
    { rewrite EX at 1. rewrite <- bpow_plus. apply bpow_le. unfold FLT_exp. lia. }
    lra.
Qed.

Lemma decade : forall m e, (bpow ten (-324) <= IZR (Zpos m) * bpow radix2 e < bpow ten 309)%R ->
  exists k, In k (map (fun i => Z.of_nat i - 360) (seq 0 700)) /\ in_decade m e k = true.
Proof.
  intros m e [L U]. set (x := (IZR (Zpos m) * bpow radix2 e)%R) in *. pose proof (bpow_gt_0 ten (-324)) as P0.
  set (K := mag_val _ _ (mag ten x)).
  assert (XM : (bpow ten (K - 1) <= x < bpow ten K)%R).
  { pose proof (bpow_mag_gt ten x) as A. pose proof (bpow_mag_le ten x ltac:(lra)) as B. rewrite Rabs_pos_eq in A, B by lra. split; assumption. }
  assert (K1 : K - 1 < 309) by (apply (lt_bpow ten); lra). assert (K2 : -324 < K) by (apply (lt_bpow ten); lra).
  exists (K - 17). split.
  - apply in_map_iff. exists (Z.to_nat (K - 17 + 360)). split; [lia|]. apply in_seq. lia.
  - unfold in_decade. apply andb_true_intro. split.
    + apply Z.leb_le. apply sc_le. fold x. change 10 with (radix_val ten). rewrite IZR_Zpower, <- bpow_plus by lia. replace (16 + (K - 17)) with (K - 1) by lia. lra.
    + apply Z.ltb_lt. apply sc_lt. fold x. change 10 with (radix_val ten). rewrite IZR_Zpower, <- bpow_plus by lia. replace (17 + (K - 17)) with K by lia. lra.
Qed.

Lemma ten_low : (bpow ten (-324) <= bpow radix2 (-1074))%R.
Proof.
  change (-324) with (- (324)). change (-1074) with (- (1074)). rewrite !bpow_opp. apply Rinv_le; [apply bpow_gt_0|].
  rewrite <- !IZR_Zpower by lia. apply IZR_le. apply Z.leb_le. vm_compute. reflexivity.
Qed.
Lemma ten_high : (bpow radix2 1024 <= bpow ten 309)%R.
Proof. rewrite <- !IZR_Zpower by lia. apply IZR_le. apply Z.leb_le. vm_compute. reflexivity. Qed.

Theorem ref_db_ok : dragonbox ref_db.
Proof.
  intros s m e HV. cbn [valid_binary] in HV. pose proof (canonical_bounded 53 1024 false m e HV) as C. pose proof (bounded_lt_emax 53 1024 m e HV) as LT.
  cbn [cond_Zopp] in C. apply generic_format_canonical in C. unfold F2R in C, LT. cbn [Fnum Fexp] in C, LT.
  set (x := (IZR (Zpos m) * bpow radix2 e)%R) in *. change (SpecFloat.fexp 53 1024) with (FLT_exp (-1074) 53) in C.
  assert (E0 : -1074 <= e).
  { unfold bounded in HV. apply andb_prop in HV as [HV _]. unfold canonical_mantissa in HV. apply Zeq_bool_eq in HV. unfold SpecFloat.fexp, emin in HV. lia. }
  assert (M1 : (1 <= IZR (Zpos m))%R) by (apply IZR_le; lia).
  assert (XL : (bpow radix2 (-1074) <= x)%R).
  { apply Rle_trans with (bpow radix2 e); [now apply bpow_le|]. unfold x. pose proof (bpow_gt_0 radix2 e). rewrite <- (Rmult_1_l (bpow radix2 e)) at 1. apply Rmult_le_compat_r; lra. }
  pose proof ten_low as TL. pose proof ten_high as TH. pose proof (bpow_gt_0 radix2 (-1074)) as B0.
  unfold ref_db. destruct (find (in_decade m e) _) as [k|] eqn:EF.
  2:{ exfalso. destruct (decade m e) as (k & IK & DK); [fold x; lra|]. pose proof (find_none _ _ EF k IK). congruence. }
  apply find_some in EF as [IK DK]. apply in_map_iff in IK as (i & <- & IS). apply in_seq in IS. set (k := Z.of_nat i - 360) in *.
  unfold in_decade in DK. apply andb_prop in DK as [D1 D2]. apply Z.leb_le in D1. apply Z.ltb_lt in D2.
  set (n := sc_num m e k) in *. set (d := sc_den e k) in *. assert (DP : 0 < d) by apply den_pos.
  set (v := (2 * n + d) / (2 * d)).
  assert (V1 : 2 * d * v <= 2 * n + d < 2 * d * v + 2 * d).
  { unfold v. pose proof (Z.div_mod (2 * n + d) (2 * d) ltac:(lia)). pose proof (Z.mod_pos_bound (2 * n + d) (2 * d) ltac:(lia)). lia. }
  assert (VB : 10 ^ 16 <= v <= 10 ^ 17).
  { change (10^16) with 10000000000000000 in *. change (10^17) with 100000000000000000 in *. clearbody n d v. clear - DP D1 D2 V1. split; nia. }
  (* the decimal is near the double *)
  pose proof (bpow_gt_0 ten k) as P0.
  assert (N1 : (Rabs (IZR v * bpow ten k - x) <= bpow ten k / 2)%R).
  { pose proof (sc_value m e k) as SV. fold x n d in SV. pose proof (IZR_lt _ _ DP) as DR. destruct V1 as [V1 V2].
    apply IZR_le in V1. apply IZR_lt in V2. repeat (rewrite plus_IZR in V1 || rewrite mult_IZR in V1). repeat (rewrite plus_IZR in V2 || rewrite mult_IZR in V2).
    apply (Rmult_le_compat_r (bpow ten k)) in V1; [|lra]. apply (Rmult_lt_compat_r (bpow ten k)) in V2; [|lra].
    set (D := IZR d) in *. set (P := bpow ten k) in *. set (W := IZR v) in *. set (NN := IZR n) in *. clearbody D P W NN x. clear - SV DR V1 V2.
    apply Rabs_le. split; apply (Rmult_le_reg_r D); try exact DR; lra. }
  assert (X16 : (IZR (10 ^ 16) * bpow ten k <= x)%R) by (apply sc_le; exact D1).
  assert (NEAR : rnd (IZR v * bpow ten k) = x).
  { apply near_double; [exact C|lra|]. eapply Rle_lt_trans; [exact N1|].
    assert (B : (IZR (10 ^ 16) * bpow radix2 (-54) * 2 > 1)%R).
    { change (-54) with (- (54)). rewrite bpow_opp, <- IZR_Zpower by lia. change (radix_val radix2 ^ 54) with 18014398509481984. change (10 ^ 16) with 10000000000000000. lra. }
    pose proof (bpow_gt_0 radix2 (-54)) as B1. apply (Rmult_le_compat_r (bpow radix2 (-54))) in X16; [|lra]. nra. }
  assert (ND : forall w q, (IZR w * bpow ten q = IZR v * bpow ten k)%R -> 0 <= w ->
    nearest_double s (Q2R (fp_value s (Z.to_N w) q)) (S754_finite s m e)).
  { intros w q EQ W0. unfold fp_value. rewrite Q2R_decimal, dec_R_bpow. rewrite Z2N.id by lia.
    assert (R : rnd (IZR (if s then - w else w) * bpow ten q) = (if s then - x else x)%R).
    { destruct s; [|now rewrite EQ]. rewrite opp_IZR, Ropp_mult_distr_l_reverse, rnd_opp, EQ, NEAR. reflexivity. }
    unfold nearest_double. rewrite R. assert (RA : Rabs (if s then - x else x)%R = x) by (destruct s; [rewrite Rabs_Ropp|]; apply Rabs_pos_eq; lra). rewrite RA. split; [|lra].
    intros _. split; [|split; [reflexivity|split; [reflexivity|exact HV]]]. cbn [SF2R]. unfold F2R. cbn [Fnum Fexp].
    destruct s; cbn [cond_Zopp]; [rewrite opp_IZR; unfold x; ring|reflexivity]. }
  destruct (Z.eqb_spec v (10 ^ 17)) as [EV|NV].
  - split; [discriminate|]. split; [split; [reflexivity|unfold k in *; lia]|]. apply ND; [|lia].
    rewrite EV. change (10 ^ 17) with (10 ^ 16 * 10). rewrite mult_IZR, bpow_plus. change (bpow ten 1) with 10%R. ring.
  - change (10^16) with 10000000000000000 in *. change (10^17) with 100000000000000000 in *.
    split; [lia|]. split; [split; [change (10^17)%N with 100000000000000000%N; lia|unfold k in *; lia]|]. apply ND; [reflexivity|lia].
Qed.
Print Assumptions ref_db_ok.
