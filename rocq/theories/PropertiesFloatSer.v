(** C77: doubles written and read back with IEEE754Precise. *)
From Coq Require Import String.
From Coq Require Import List NArith ZArith Reals QArith Qreals Bool Lia Lra Arith ZifyBool ZifyNat ZifyN.
From Coq Require Import SpecFloat.
From Flocq Require Import Core BinarySingleNaN.
From Verif Require Import Base Mem Loop PolicyModel IntModel SkipModel SpecNum SpecText SpecJson SkipProofs RealModel SpecReal RealProofs PropertiesReal
  RealSerModel RealSerProofs RealSerProofs2 PropertiesRealSer FloatModel SpecDouble FloatProofs PropertiesFloat FloatRef.
Import ListNotations.
Local Open Scope N_scope.

(** At most one double is nearest. *)
Lemma nearest_unique : forall neg x f g, nearest_double neg x f -> nearest_double neg x g -> f = g.
Proof.
  intros neg x f g (F1 & F2) (G1 & G2). destruct (fits_dec x) as [L|L].
  - destruct (F1 L) as (FX & FF & FS & FV), (G1 L) as (GX & GF & GS & GV).
    assert (E : SF2B f FV = SF2B g GV).
    { apply B2R_Bsign_inj; rewrite ?is_finite_SF2B, ?B2R_SF2B, ?Bsign_SF2B; auto; congruence. }
    rewrite <- (B2SF_SF2B 53 1024 f FV), <- (B2SF_SF2B 53 1024 g GV), E. reflexivity.
  - rewrite (F2 L), (G2 L). reflexivity.
Qed.

(** C77 asks for: every finite double written by to_json is read back as the same
    double with IEEE754Precise.  [v] and [exp] are the decimal significand and
    exponent chosen for [d] by dragonbox; all that is asked of them is that [d] is
    the double nearest to them.  Proved for all doubles but zero (C72), formats and
    modes; partial: given that std::from_chars is exact. *)
Theorem C77_unknown_partial : forall fc rt cd0 fmt neg v exp d t buf p, from_chars_exact fc -> (0 <= cd0 <= 1)%Z ->
  fp_parts true v exp -> v <> 0 -> nearest_double neg (Q2R (fp_value neg v exp)) d ->
  to_chars cd0 true fmt neg v exp = Ok t -> followed buf p t ->
  exists p', parse_float fc rt false true Double buf p = Ok (d, p').
Proof.
  intros fc rt cd0 fmt neg v exp d t buf p FC HC (HV & HE) V0 ND ET (HB & LB & L32 & HS & LT & NE).
  destruct (decimal_length_ok true v ltac:(lia) HV) as (o & EO & _).
  destruct (to_chars_parts cd0 true fmt neg v exp o HC ltac:(lia) HV HE EO) as (i & f & e & x & ET' & HI & HF & HX & BX & HM & _).
  rewrite ET in ET'. injection ET' as ->. set (sg := if neg then [45] else []) in *.
  assert (NA : number_at buf p sg i f e x).
  { unfold number_at. split; auto. split; auto. split; auto. split; [unfold sg; destruct neg; auto|]. split; auto. split; auto. split; auto. split; auto. change (2^62)%Z with 4611686018427387904%Z. lia. }
  destruct (C74_unknown_partial fc rt buf p sg i f e x FC NA) as (w & p' & E & NR).
  { unfold delimited. rewrite !app_length in *. lia. }
  assert (SG : sg = [] \/ sg = [45]) by (unfold sg; destruct neg; auto).
  rewrite (neg_sign sg i (f ++ e) SG HI) in NR. replace (sign_of sg <? 0)%Z with neg in NR by (unfold sg; destruct neg; reflexivity).
  assert (EQ : (inject_Z (sign_of sg) * magnitude i f x == fp_value neg v exp)%Q) by (rewrite HM; apply sign_decimal).
  rewrite (Qeq_eqR _ _ EQ) in NR. exists p'. rewrite E. do 2 f_equal. exact (nearest_unique _ _ _ _ NR ND).
Qed.
Print Assumptions C77_unknown_partial.

Theorem C77_known_partial : forall fc rt cd0 fmt neg v exp d t buf p, from_chars_exact fc -> (0 <= cd0 <= 1)%Z ->
  fp_parts true v exp -> v <> 0 -> nearest_double neg (Q2R (fp_value neg v exp)) d ->
  to_chars cd0 true fmt neg v exp = Ok t -> followed buf p t ->
  exists w p', skip_number true buf p = Ok (w, p') /\ parse_float fc rt true true Double buf w = Ok (d, w).
Proof.
  intros fc rt cd0 fmt neg v exp d t buf p FC HC (HV & HE) V0 ND ET (HB & LB & L32 & HS & LT & NE).
  destruct (decimal_length_ok true v ltac:(lia) HV) as (o & EO & _).
  destruct (to_chars_parts cd0 true fmt neg v exp o HC ltac:(lia) HV HE EO) as (i & f & e & x & ET' & HI & HF & HX & BX & HM & _).
  rewrite ET in ET'. injection ET' as ->. set (sg := if neg then [45] else []) in *.
  assert (NA : number_at buf p sg i f e x).
  { unfold number_at. split; auto. split; auto. split; auto. split; [unfold sg; destruct neg; auto|]. split; auto. split; auto. split; auto. split; auto. change (2^62)%Z with 4611686018427387904%Z. lia. }
  destruct (C74_known_partial fc rt buf p sg i f e x FC NA) as (w & p' & v' & SK & E & NR).
  assert (SG : sg = [] \/ sg = [45]) by (unfold sg; destruct neg; auto).
  rewrite (neg_sign sg i (f ++ e) SG HI) in NR. replace (sign_of sg <? 0)%Z with neg in NR by (unfold sg; destruct neg; reflexivity).
  assert (EQ : (inject_Z (sign_of sg) * magnitude i f x == fp_value neg v exp)%Q) by (rewrite HM; apply sign_decimal).
  rewrite (Qeq_eqR _ _ EQ) in NR. exists w, p'. split; [exact SK|]. rewrite E. do 2 f_equal. exact (nearest_unique _ _ _ _ NR ND).
Qed.
Print Assumptions C77_known_partial.

(** The rounded value from its mantissa and exponent *)
Lemma rnd_by : forall x m e, (-1074 <= e)%Z -> (bpow radix2 (e + 52) <= x < bpow radix2 (e + 53))%R -> (Rabs (x * bpow radix2 (- e) - IZR m) < / 2)%R ->
  rnd x = (IZR m * bpow radix2 e)%R.
Proof.
  intros x m e HE HX HM. unfold rnd, round, scaled_mantissa, cexp.
  rewrite (mag_unique_pos radix2 x (e + 53)) by (replace (e + 53 - 1)%Z with (e + 52)%Z by lia; exact HX).
  replace (FLT_exp (-1074) 53 (e + 53)) with e by (unfold FLT_exp; lia).
  rewrite (Znearest_imp _ _ m HM). reflexivity.
Qed.

(** In the default mode 0.1 + 0.2 does not survive: it comes back as another double. *)
Theorem C77_default_refuted : exists v exp d t, fp_parts true v exp /\ v <> 0 /\
  nearest_double false (Q2R (fp_value false v exp)) d /\ to_chars 1 true FPAuto false v exp = Ok t /\ followed (t ++ [93]) (whole (t ++ [93])) t /\
  forall fc rt, exists p' g, parse_float fc rt false false Double (t ++ [93]) (whole (t ++ [93])) = Ok (g, p') /\ g <> d.
Proof.
  exists 30000000000000004, (-17)%Z, (S754_finite false 5404319552844596 (-54)), (on "0.30000000000000004").
  split; [vm_compute; repeat split; discriminate|]. split; [discriminate|]. split.
  { assert (E : rnd (Q2R (fp_value false 30000000000000004 (-17))) = (IZR 5404319552844596 * bpow radix2 (-54))%R).
    { unfold fp_value. rewrite Q2R_decimal. unfold dec_R. cbn [Z.ltb Z.compare]. change (- -17)%Z with 17%Z. change (Z.of_N 30000000000000004) with 30000000000000004%Z.
      change (10 ^ 17)%Z with 100000000000000000%Z. apply rnd_by; [lia| |].
      - change (-54 + 52)%Z with (- (2))%Z. change (-54 + 53)%Z with (- (1))%Z. rewrite !bpow_opp, <- !IZR_pow2 by lia. change (2 ^ 2)%Z with 4%Z. change (2 ^ 1)%Z with 2%Z. lra.
      - change (- -54)%Z with 54%Z. rewrite <- IZR_pow2 by lia. change (2 ^ 54)%Z with 18014398509481984%Z. apply Rabs_lt. lra. }
    unfold nearest_double. rewrite E. split; intros L.
    - split; [reflexivity|]. split; [reflexivity|]. split; reflexivity.
    - exfalso. revert L. apply Rlt_not_le. rewrite Rabs_pos_eq by (apply Rmult_le_pos; [lra|apply bpow_ge_0]).
      apply Rlt_trans with (bpow radix2 53 * bpow radix2 (-54))%R; [apply Rmult_lt_compat_r; [apply bpow_gt_0|]; rewrite <- IZR_pow2 by lia; apply IZR_lt; reflexivity|].
      rewrite <- bpow_plus. apply bpow_lt. lia. }
  split; [vm_compute; reflexivity|]. split.
  { split; [vm_compute; repeat constructor|]. split; [vm_compute; lia|]. split; [reflexivity|]. split; [vm_compute; repeat split|]. split; [vm_compute; lia|].
    split; [vm_compute; lia|]. right. exists 93. vm_compute. repeat split; try discriminate. intros [_ H]. apply H. reflexivity. }
  intros fc rt. exists (set_first (whole (on "0.30000000000000004" ++ [93])) 19), (S754_finite false 5404319552844595 (-54)). split; [destruct rt; vm_compute; reflexivity|discriminate].
Qed.
Print Assumptions C77_default_refuted.

(** The hypotheses can be met: the smallest double, with a reader that is exact. *)
Example C77_nonvacuous : from_chars_exact ref_from_chars /\ fp_parts true 5 (-324) /\ to_chars 1 true FPAuto false 5 (-324) = Ok (on "5e-324") /\
  followed (on "5e-324]") (whole (on "5e-324]")) (on "5e-324") /\
  exists p', parse_float ref_from_chars true false true Double (on "5e-324]") (whole (on "5e-324]")) = Ok (S754_finite false 1 (-1074), p').
Proof.
  split; [exact ref_from_chars_exact|]. split; [vm_compute; repeat split; discriminate|]. split; [vm_compute; reflexivity|]. split.
  { split; [vm_compute; repeat constructor|]. split; [vm_compute; lia|]. split; [reflexivity|]. split; [vm_compute; repeat split|]. split; [vm_compute; lia|].
    split; [vm_compute; lia|]. right. exists 93. vm_compute. repeat split; try discriminate. intros [_ H]. apply H. reflexivity. }
  eexists. vm_compute. reflexivity.
Qed.
