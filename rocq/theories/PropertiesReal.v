(** Properties of reading real numbers: C08, C64 to C68. *)
From Coq Require Import String.
From Coq Require Import List NArith ZArith QArith Qpower Qfield Bool Lia Arith ZifyBool ZifyNat ZifyN.
From Verif Require Import Base Mem Loop PolicyModel IntModel IntProofs SkipModel SpecNum SpecText SpecJson SkipProofs SkipSafe RealModel SpecReal RealProofs RealSafe.
Import ListNotations.
Local Open Scope N_scope.

(** *** Rational arithmetic *)

Lemma ten_nz : ~ (10 # 1 == 0)%Q.
Proof. discriminate. Qed.

Lemma ten_pow_plus : forall a b, (ten_pow (a + b) == ten_pow a * ten_pow b)%Q.
Proof. intros. apply Qpower_plus, ten_nz. Qed.

Lemma ten_pow_pos : forall a, (0 < ten_pow a)%Q.
Proof.
  intros a. apply Qnot_le_lt. intros H.
  assert (P : (0 <= ten_pow a)%Q) by (apply Qpower_pos; discriminate).
  assert (E : (ten_pow a == 0)%Q) by (apply Qle_antisym; auto).
  exact (Qpower_not_0 _ a ten_nz E).
Qed.

Lemma ten_pow_N : forall n, (ten_pow (Z.of_nat n) == q_of_N (10 ^ N.of_nat n))%Q.
Proof.
  intros n. unfold ten_pow, q_of_N. rewrite N2Z.inj_pow, nat_N_Z.
  change (10 # 1) with (inject_Z 10). rewrite Zpower_Qpower by lia. reflexivity.
Qed.

Lemma q_of_N_add : forall a b, (q_of_N (a + b) == q_of_N a + q_of_N b)%Q.
Proof. intros. unfold q_of_N. rewrite N2Z.inj_add. rewrite inject_Z_plus. reflexivity. Qed.

Lemma q_of_N_mul : forall a b, (q_of_N (a * b) == q_of_N a * q_of_N b)%Q.
Proof. intros. unfold q_of_N. rewrite N2Z.inj_mul. rewrite inject_Z_mult. reflexivity. Qed.

Lemma magnitude_digits : forall i f x,
  (magnitude i f x == decimal (Z.of_N (dec_val (i ++ fract_digits f))) (x - Z.of_nat (length (fract_digits f))))%Q.
Proof.
  intros i f x. unfold magnitude, decimal. set (fs := fract_digits f). fold (q_of_N (dec_val (i ++ fs))).
  rewrite dec_val_app, q_of_N_add, q_of_N_mul, <- ten_pow_N.
  set (n := Z.of_nat (length fs)). replace x with ((x - n) + n)%Z at 1 by lia. rewrite ten_pow_plus.
  assert (NZ : ~ (ten_pow n == 0)%Q) by (apply Qpower_not_0, ten_nz). field. exact NZ.
Qed.

(** A number truncated after some of its digits *)
Lemma truncated : forall i f x K R y, digits R -> i ++ fract_digits f = K ++ R ->
  y = (x - Z.of_nat (length (fract_digits f)) + Z.of_nat (length R))%Z ->
  (decimal (Z.of_N (dec_val K)) y <= magnitude i f x < decimal (Z.of_N (dec_val K) + 1) y)%Q /\
  (R = [] -> magnitude i f x == decimal (Z.of_N (dec_val K)) y)%Q.
Proof.
  intros i f x K R y HR E ->. set (z := (x - Z.of_nat (length (fract_digits f)))%Z).
  assert (M : (magnitude i f x == (q_of_N (dec_val K) * ten_pow (Z.of_nat (length R)) + q_of_N (dec_val R)) * ten_pow z)%Q).
  { rewrite magnitude_digits, E, dec_val_app. unfold decimal. fold (q_of_N (dec_val K * 10 ^ N.of_nat (length R) + dec_val R)).
    rewrite q_of_N_add, q_of_N_mul, <- ten_pow_N. reflexivity. }
  assert (A : (decimal (Z.of_N (dec_val K)) (z + Z.of_nat (length R)) == q_of_N (dec_val K) * ten_pow (Z.of_nat (length R)) * ten_pow z)%Q).
  { unfold decimal. fold (q_of_N (dec_val K)). rewrite ten_pow_plus. ring. }
  assert (B : (decimal (Z.of_N (dec_val K) + 1) (z + Z.of_nat (length R)) == (q_of_N (dec_val K) * ten_pow (Z.of_nat (length R)) + ten_pow (Z.of_nat (length R))) * ten_pow z)%Q).
  { unfold decimal. rewrite inject_Z_plus. fold (q_of_N (dec_val K)). rewrite ten_pow_plus. ring. }
  rewrite M, A, B. pose proof (ten_pow_pos z) as PZ.
  assert (R0 : (0 <= q_of_N (dec_val R))%Q) by (unfold q_of_N, Qle; cbn; lia).
  assert (R1 : (q_of_N (dec_val R) < ten_pow (Z.of_nat (length R)))%Q).
  { rewrite ten_pow_N. unfold q_of_N. rewrite <- Zlt_Qlt. pose proof (dec_val_lt R HR). lia. }
  split; [split|].
  - apply Qmult_le_compat_r; [|apply Qlt_le_weak; auto]. rewrite <- (Qplus_0_r (q_of_N (dec_val K) * _)) at 1.
    apply Qplus_le_compat; [apply Qle_refl|auto].
  - apply Qmult_lt_compat_r; auto. rewrite Qplus_comm, (Qplus_comm _ (ten_pow _)). apply Qplus_lt_le_compat; [auto|apply Qle_refl].
  - intros ->. change (q_of_N (dec_val [])) with 0%Q. ring.
Qed.

(** The digits kept are a prefix of all digits. *)
Lemma kept_prefix : forall kd i f, (1 <= kd)%nat -> digits i -> frac_part f -> exists R, digits R /\ i ++ fract_digits f = kept kd i f ++ R /\
  (Z.of_nat (length i - kd) - Z.of_nat (length (kept_fraction kd i f)) = Z.of_nat (length R) - Z.of_nat (length (fract_digits f)))%Z.
Proof.
  intros kd i f HK HD HF. assert (DF := fract_digits_ok f HF). unfold kept, kept_whole, kept_fraction.
  destruct (Nat.le_gt_cases kd (length i)) as [G|G].
  - exists (skipn kd i ++ fract_digits f). split; [apply Forall_app; split; auto; apply digits_skipn; auto|].
    replace (kd - 1 - length i)%nat with O by lia. cbn [firstn]. rewrite app_nil_r, app_assoc, firstn_skipn. split; auto.
    rewrite app_length, skipn_length. cbn [length]. lia.
  - exists (skipn (kd - 1 - length i) (fract_digits f)). split; [apply digits_skipn; auto|].
    rewrite (firstn_all2 i) by lia. rewrite <- app_assoc, firstn_skipn. split; auto.
    rewrite firstn_length, skipn_length. lia.
Qed.

Lemma kept_known_prefix : forall kd i f, digits i -> frac_part f -> exists R, digits R /\ i ++ fract_digits f = kept_known kd i f ++ R /\
  (Z.of_nat (length i - kd) - Z.of_nat (length (kept_known_fraction kd i f)) = Z.of_nat (length R) - Z.of_nat (length (fract_digits f)))%Z.
Proof.
  intros kd i f HD HF. assert (DF := fract_digits_ok f HF). unfold kept_known, kept_whole, kept_known_fraction.
  destruct (Nat.le_gt_cases kd (length i)) as [G|G].
  - exists (skipn kd i ++ fract_digits f). split; [apply Forall_app; split; auto; apply digits_skipn; auto|].
    replace (kd - length i)%nat with O by lia. cbn [firstn]. rewrite app_nil_r, app_assoc, firstn_skipn. split; auto.
    rewrite app_length, skipn_length. cbn [length]. lia.
  - exists (skipn (kd - length i) (fract_digits f)). split; [apply digits_skipn; auto|].
    rewrite (firstn_all2 i) by lia. rewrite <- app_assoc, firstn_skipn. split; auto.
    rewrite firstn_length, skipn_length. lia.
Qed.

(** Signed value handed to the scaling step *)
Definition handed (r : real) : Q := decimal (r_sign r * Z.of_N (r_sig r)) (r_exp r).

Lemma handed_sign : forall s sig e b, (handed (mkreal s sig e b) == inject_Z s * decimal (Z.of_N sig) e)%Q.
Proof. intros. unfold handed, decimal. cbn. rewrite inject_Z_mult. ring. Qed.

(** *** What it means to read a number text *)

(** [t] is the number text of the given parts at the start of [p], followed by
    something that ends it; the exponent is below 2^62 and the document below
    4 GiB. *)
Definition number_at (buf : list N) (p : ps) (sg i f e : list N) (x : Z) : Prop :=
  is_bytes buf /\ (last p <= length buf)%nat /\ N.of_nat (length buf) < 2^32 /\
  (sg = [] \/ sg = [45]) /\ int_part i /\ frac_part f /\ exp_val e x /\ (Z.abs x < 2^62)%Z /\
  sub_at buf (first p) (sg ++ i ++ f ++ e) /\ num_end true buf (first p + length (sg ++ i ++ f ++ e)) (last p).

(** The number is more than a whole part that runs to the end of the range. *)
Definition delimited (p : ps) (sg i : list N) : Prop := (first p + length (sg ++ i) < last p)%nat.

(** C08 asks for: forall texts of at most 19 digits the parts handed over denote
    the number written.  Proved: exact below [kd] digits ([kd] = 18 for double, 10
    for float), or at [kd] digits without fraction; the digits are those before the
    exponent, leading zeros included.  Refuted beyond, and when a whole part runs
    to the end of the range. *)
Theorem C08_exact_partial : forall kd precise buf p sg i f e x, (1 <= kd <= 19)%nat ->
  number_at buf p sg i f e x -> delimited p sg i ->
  (length i + length (fract_digits f) < kd \/ f = [] /\ length i <= kd)%nat ->
  exists r, parse_real_unknown kd precise buf p = Ok (r, set_first p (first p + length (sg ++ i ++ f ++ e))) /\
    (handed r == inject_Z (sign_of sg) * magnitude i f x)%Q.
Proof.
  intros kd precise buf p sg i f e x HK (HB & LB & L32 & Hsg & HI & HF & HX & BX & HS & NE) DL LEN.
  destruct (unknown_parts kd precise sg i f e x buf p) as (more & E & _); auto.
  eexists. split; [exact E|]. rewrite handed_sign.
  destruct (kept_prefix kd i f ltac:(lia) ltac:(destruct HI; auto) HF) as (R & DR & ER & LR).
  destruct (truncated i f x (kept kd i f) R (x + Z.of_nat (length i - kd) - Z.of_nat (length (kept_fraction kd i f)))%Z DR ER ltac:(lia)) as (_ & EX).
  rewrite EX; [reflexivity|]. destruct R as [|r0 R]; auto. exfalso.
  pose proof (f_equal (@length N) ER) as X. rewrite !app_length in X. unfold kept, kept_whole, kept_fraction in X. rewrite app_length, !firstn_length in X. cbn [length] in X.
  destruct LEN as [LEN|(-> & LEN)]; [lia|]. cbn in X. lia.
Qed.
Print Assumptions C08_exact_partial.

(** In general the number is cut off after the digits kept. *)
Theorem C08_truncated_partial : forall kd precise buf p sg i f e x, (1 <= kd <= 19)%nat ->
  number_at buf p sg i f e x -> delimited p sg i ->
  exists r, parse_real_unknown kd precise buf p = Ok (r, set_first p (first p + length (sg ++ i ++ f ++ e))) /\
    r_sign r = sign_of sg /\
    (decimal (Z.of_N (r_sig r)) (r_exp r) <= magnitude i f x < decimal (Z.of_N (r_sig r) + 1) (r_exp r))%Q.
Proof.
  intros kd precise buf p sg i f e x HK (HB & LB & L32 & Hsg & HI & HF & HX & BX & HS & NE) DL.
  destruct (unknown_parts kd precise sg i f e x buf p) as (more & E & _); auto.
  eexists. split; [exact E|]. split; [reflexivity|]. cbn [r_sig r_exp].
  destruct (kept_prefix kd i f ltac:(lia) ltac:(destruct HI; auto) HF) as (R & DR & ER & LR).
  exact (proj1 (truncated i f x (kept kd i f) R (x + Z.of_nat (length i - kd) - Z.of_nat (length (kept_fraction kd i f)))%Z DR ER ltac:(lia))).
Qed.
Print Assumptions C08_truncated_partial.

(** After skip_number, up to [kd] digits in all are exact. *)
Theorem C08_known_partial : forall kd precise buf p sg i f e x, (1 <= kd <= 19)%nat ->
  number_at buf p sg i f e x -> (length i + length (fract_digits f) <= kd)%nat ->
  exists v p' r, skip_number true buf p = Ok (v, p') /\ parse_real_known kd precise buf v = Ok r /\
    (handed r == inject_Z (sign_of sg) * magnitude i f x)%Q.
Proof.
  intros kd precise buf p sg i f e x HK (HB & LB & L32 & Hsg & HI & HF & HX & BX & HS & NE) LEN.
  assert (HI' := HI). destruct HI' as (HD & NI & _).
  eexists _, _. 
  rewrite (skip_number_ok true sg i f e) by (auto; eapply exp_val_part; eauto).
  destruct (known_parts kd precise sg i f e x buf (set_class (set_last p (first p + length (sg ++ i ++ f ++ e)))
       (match f with [] => None | _ => Some (first p + length (sg ++ i))%nat end)
       (match e with [] => None | _ => Some (first p + length (sg ++ i ++ f))%nat end))) as (more & E & _); auto.
  { cbn. destruct NE. lia. }
  { unfold known_number. cbn. auto. }
  eexists. split; [reflexivity|]. split; [exact E|]. rewrite handed_sign.
  destruct (kept_known_prefix kd i f HD HF) as (R & DR & ER & LR).
  destruct (truncated i f x (kept_known kd i f) R (x + Z.of_nat (length i - kd) - Z.of_nat (length (kept_known_fraction kd i f)))%Z DR ER ltac:(lia)) as (_ & EX).
  rewrite EX; [reflexivity|]. destruct R as [|r0 R]; auto. exfalso.
  pose proof (f_equal (@length N) ER) as X. rewrite !app_length in X. unfold kept_known, kept_whole, kept_known_fraction in X. rewrite app_length, !firstn_length in X. cbn [length] in X.
  lia.
Qed.
Print Assumptions C08_known_partial.

(** ** Refutations *)

Definition on (s : string) : list N := bytes s.
Definition whole (buf : list N) : ps := new_ps 0 (length buf).

Ltac digs := vm_compute; repeat (constructor; [split; discriminate|]); constructor.
Ltac number_tac :=
  unfold number_at; split; [vm_compute; repeat constructor|]; split; [vm_compute; lia|]; split; [reflexivity|]; split; [vm_compute; auto|];
  split; [split; [digs|split; [discriminate|intros ? E; vm_compute in E; congruence]]|];
  split; [first [exact fp_none|change (frac_part (46 :: tl (on "."))); constructor; [digs|discriminate]
         |match goal with |- frac_part ?f => let g := eval vm_compute in f in change (frac_part g) end; constructor; [digs|discriminate]]|];
  split; [constructor|]; split; [reflexivity|]; split; [vm_compute; repeat split|];
  split; [vm_compute; lia|]; right; exists 93; vm_compute; repeat split; try discriminate; intros [_ H]; apply H; reflexivity.

(** Seventeen significant digits, the precision of a double, lose the last one. *)
Theorem C08_digits_refuted : exists buf sg i f e x r p', number_at buf (whole buf) sg i f e x /\ delimited (whole buf) sg i /\
  (length i + length (fract_digits f) = 18)%nat /\ parse_real_unknown 18 false buf (whole buf) = Ok (r, p') /\
  ~ (handed r == inject_Z (sign_of sg) * magnitude i f x)%Q /\ buf = on "0.12345678901234567]".
Proof.
  exists (on "0.12345678901234567]"), [], (on "0"), (on ".12345678901234567"), [], 0%Z. do 2 eexists.
  split; [number_tac|].
  split; [vm_compute; lia|]. split; [reflexivity|]. split; [vm_compute; reflexivity|]. split; [|reflexivity]. vm_compute. discriminate.
Qed.
Print Assumptions C08_digits_refuted.

(** Leading zeros count as digits: 1e-17 written without exponent is read as zero. *)
Theorem C08_zero_refuted : exists buf sg i f e x r p', number_at buf (whole buf) sg i f e x /\ delimited (whole buf) sg i /\
  parse_real_unknown 18 false buf (whole buf) = Ok (r, p') /\
  (handed r == 0)%Q /\ ~ (inject_Z (sign_of sg) * magnitude i f x == 0)%Q /\ buf = on "0.00000000000000001]".
Proof.
  exists (on "0.00000000000000001]"), [], (on "0"), (on ".00000000000000001"), [], 0%Z. do 2 eexists.
  split; [number_tac|].
  split; [vm_compute; lia|]. split; [vm_compute; reflexivity|]. split; [reflexivity|]. split; [vm_compute; discriminate|reflexivity].
Qed.
Print Assumptions C08_zero_refuted.

(** For float it takes nine decimals. *)
Theorem C08_float_zero_refuted : exists buf sg i f e x r p', number_at buf (whole buf) sg i f e x /\ delimited (whole buf) sg i /\
  parse_real_unknown 10 false buf (whole buf) = Ok (r, p') /\
  (handed r == 0)%Q /\ ~ (inject_Z (sign_of sg) * magnitude i f x == 0)%Q /\ buf = on "0.000000009]".
Proof.
  exists (on "0.000000009]"), [], (on "0"), (on ".000000009"), [], 0%Z. do 2 eexists.
  split; [number_tac|].
  split; [vm_compute; lia|]. split; [vm_compute; reflexivity|]. split; [reflexivity|]. split; [vm_compute; discriminate|reflexivity].
Qed.
Print Assumptions C08_float_zero_refuted.

Lemma one_magnitude : forall x h, (0 < x)%Z -> (h == 1)%Q -> ~ (h == inject_Z (sign_of []) * magnitude [49%N] [] x)%Q.
Proof.
  intros x h HX H1 H. rewrite H1 in H. unfold magnitude in H. cbn [fract_digits tl length sign_of] in H.
  assert (P : (ten_pow x == 1)%Q).
  { rewrite H. change (q_of_N (dec_val [49%N])) with 1%Q. change (q_of_N (dec_val []) / ten_pow (Z.of_nat 0))%Q with 0%Q. change (inject_Z 1) with 1%Q. ring. }
  unfold ten_pow in P. change (10 # 1) with (inject_Z 10) in P. rewrite <- Zpower_Qpower in P by lia.
  change 1%Q with (inject_Z 1) in P. apply (proj1 (inject_Z_injective _ _)) in P.
  assert (L : (10 ^ 1 <= 10 ^ x)%Z) by (apply Z.pow_le_mono_r; lia). rewrite P in L. apply L. reflexivity.
Qed.

(** The exponent is taken modulo 2^64: 1e18446744073709551616 is read as 1. *)
Theorem C08_exponent_refuted : exists q, denotes (on "1e18446744073709551616") q /\
  exists r p', parse_real_unknown 18 false (on "1e18446744073709551616]") (whole (on "1e18446744073709551616]")) = Ok (r, p') /\
    (handed r == 1)%Q /\ ~ (handed r == q)%Q.
Proof.
  exists (inject_Z (sign_of []) * magnitude [49%N] [] (Z.of_N (dec_val (on "18446744073709551616"))))%Q. split.
  { apply (den [] [49] [] (101 :: on "18446744073709551616")); auto.
    - split; [digs|]. split; [discriminate|]. congruence.
    - constructor.
    - apply ev_plain; auto; [digs|discriminate]. }
  do 2 eexists. split; [vm_compute; reflexivity|]. split; [reflexivity|]. apply one_magnitude; [reflexivity|reflexivity].
Qed.
Print Assumptions C08_exponent_refuted.

(** ** C66: reading at once and reading after skipping give the same number *)

(** Partial: below [kd] digits.  Refuted at 18 digits for double. *)
Theorem C66_partial : forall kd precise buf p sg i f e x, (1 <= kd <= 19)%nat ->
  number_at buf p sg i f e x -> delimited p sg i -> (length i + length (fract_digits f) < kd)%nat ->
  exists v p' r r', skip_number true buf p = Ok (v, p') /\ parse_real_known kd precise buf v = Ok r /\
    parse_real_unknown kd precise buf p = Ok (r', p') /\ r_sign r = r_sign r' /\ r_sig r = r_sig r' /\ r_exp r = r_exp r'.
Proof.
  intros kd precise buf p sg i f e x HK (HB & LB & L32 & Hsg & HI & HF & HX & BX & HS & NE) DL LEN.
  assert (HI' := HI). destruct HI' as (HD & NI & _).
  destruct (unknown_parts kd precise sg i f e x buf p) as (more & E & _); auto.
  rewrite (skip_number_ok true sg i f e) by (auto; eapply exp_val_part; eauto).
  destruct (known_parts kd precise sg i f e x buf (set_class (set_last p (first p + length (sg ++ i ++ f ++ e)))
       (match f with [] => None | _ => Some (first p + length (sg ++ i))%nat end)
       (match e with [] => None | _ => Some (first p + length (sg ++ i ++ f))%nat end))) as (more' & E' & _); auto.
  { cbn. destruct NE. lia. }
  { unfold known_number. cbn. auto. }
  assert (KE : kept_known_fraction kd i f = kept_fraction kd i f).
  { unfold kept_known_fraction, kept_fraction. rewrite !firstn_all2 by lia. reflexivity. }
  do 4 eexists. split; [reflexivity|]. split; [exact E'|]. split; [exact E|]. cbn [r_sign r_sig r_exp]. unfold kept_known, kept. rewrite KE. auto.
Qed.
Print Assumptions C66_partial.

Theorem C66_refuted : exists buf sg i f e x v p' r r', number_at buf (whole buf) sg i f e x /\
  skip_number true buf (whole buf) = Ok (v, p') /\ parse_real_known 18 false buf v = Ok r /\
  parse_real_unknown 18 false buf (whole buf) = Ok (r', p') /\ ~ (handed r == handed r')%Q /\
  (handed r == inject_Z (sign_of sg) * magnitude i f x)%Q.
Proof.
  exists (on "0.12345678901234567]"), [], (on "0"), (on ".12345678901234567"), [], 0%Z. do 4 eexists.
  split; [number_tac|]. split; [vm_compute; reflexivity|]. split; [vm_compute; reflexivity|]. split; [vm_compute; reflexivity|].
  split; [vm_compute; discriminate|vm_compute; reflexivity].
Qed.
Print Assumptions C66_refuted.

(** ** C67: the relative error before rounding *)

Lemma canonical_lower : forall i, canonical i -> i <> [48] -> forall ds, (exists r, digits r /\ exists n, ds = firstn (S n) i ++ r) -> 10 ^ N.of_nat (length ds - 1) <= dec_val ds.
Proof.
  intros i (HD & NE & HC) N0 ds (r & HR & n & ->). destruct i as [|d i]; [congruence|]. cbn [firstn app length].
  inversion HD; subst. assert (d <> 48) by (intros ->; apply N0; now rewrite (HC i eq_refl)).
  unfold dec_val. cbn [dec_acc]. rewrite dec_acc_lin. replace (S (length (firstn n i ++ r)) - 1)%nat with (length (firstn n i ++ r)) by lia.
  unfold is_dig in *. assert (H10 : 1 <= 0 * 10 + (d - 48)) by lia. pose proof (N.mul_le_mono_r 1 (0 * 10 + (d - 48)) (10 ^ N.of_nat (length (firstn n i ++ r))) H10). lia.
Qed.

(** Partial: the whole part is not zero; then less than one part in 10^(kd-2) is
    lost: 10^-16 for double, 10^-8 for float. *)
Theorem C67_partial : forall kd precise buf p sg i f e x, (2 <= kd <= 19)%nat ->
  number_at buf p sg i f e x -> delimited p sg i -> i <> [48] ->
  exists r p', parse_real_unknown kd precise buf p = Ok (r, p') /\
    (0 <= magnitude i f x - decimal (Z.of_N (r_sig r)) (r_exp r) <= magnitude i f x / ten_pow (Z.of_nat (kd - 2)))%Q.
Proof.
  intros kd precise buf p sg i f e x HK (HB & LB & L32 & Hsg & HI & HF & HX & BX & HS & NE) DL NZ.
  destruct (unknown_parts kd precise sg i f e x buf p) as (more & E & _); auto; [lia|].
  do 2 eexists. split; [exact E|]. cbn [r_sig r_exp]. assert (HC := HI). destruct HI as (HD & NI & _).
  destruct (kept_prefix kd i f ltac:(lia) HD HF) as (R & DR & ER & LR).
  set (K := kept kd i f) in *. set (y := (x + Z.of_nat (length i - kd) - Z.of_nat (length (kept_fraction kd i f)))%Z).
  destruct (truncated i f x K R y DR ER ltac:(unfold y; lia)) as ((T1 & T2) & T3).
  assert (P0 : (0 <= decimal (Z.of_N (dec_val K)) y)%Q).
  { unfold decimal. apply Qmult_le_0_compat; [unfold Qle; cbn; lia|apply Qlt_le_weak, ten_pow_pos]. }
  assert (PT := ten_pow_pos (Z.of_nat (kd - 2))).
  destruct R as [|r0 R].
  - rewrite T3 by auto. split.
    + unfold Qminus. rewrite Qplus_opp_r. apply Qle_refl.
    + unfold Qminus. rewrite Qplus_opp_r. apply Qle_shift_div_l; auto. rewrite Qmult_0_l. exact P0.
  - assert (LK : (kd - 1 <= length K)%nat).
    { pose proof (f_equal (@length N) ER) as X. rewrite !app_length in X. unfold K, kept, kept_whole, kept_fraction in *. rewrite app_length, !firstn_length in *. cbn [length] in X. lia. }
    assert (LOW : 10 ^ N.of_nat (kd - 2) <= dec_val K).
    { etransitivity; [|apply (canonical_lower i HC NZ K)].
      - apply N.pow_le_mono_r; lia.
      - unfold K, kept, kept_whole. destruct kd; [lia|]. exists (kept_fraction (S kd) i f). split; [apply digits_firstn, fract_digits_ok; auto|]. exists kd. reflexivity. }
    split.
    + rewrite <- (Qplus_opp_r (decimal (Z.of_N (dec_val K)) y)). apply Qplus_le_compat; [exact T1|apply Qle_refl].
    + apply Qle_shift_div_l; auto.
      apply Qle_trans with (decimal (Z.of_N (dec_val K)) y); [|exact T1].
      apply Qle_trans with (ten_pow y * ten_pow (Z.of_nat (kd - 2)))%Q.
      * apply Qmult_le_compat_r; [|apply Qlt_le_weak; auto]. apply Qlt_le_weak. apply (Qplus_lt_l _ _ (decimal (Z.of_N (dec_val K)) y)).
        ring_simplify. eapply Qlt_le_trans; [exact T2|]. unfold decimal. rewrite inject_Z_plus.
        change (inject_Z 1) with 1%Q. ring_simplify. apply Qle_refl.
      * unfold decimal. rewrite Qmult_comm. apply Qmult_le_compat_r; [|apply Qlt_le_weak, ten_pow_pos].
        rewrite ten_pow_N. unfold q_of_N. rewrite <- Zle_Qle. lia.
Qed.
Print Assumptions C67_partial.

Theorem C67_refuted : exists buf sg i f e x r p', number_at buf (whole buf) sg i f e x /\ delimited (whole buf) sg i /\
  parse_real_unknown 18 false buf (whole buf) = Ok (r, p') /\ r_sig r = 0 /\ (0 < magnitude i f x)%Q.
Proof.
  exists (on "0.000000000000000099]"), [], (on "0"), (on ".000000000000000099"), [], 0%Z. do 2 eexists.
  split; [number_tac|].
  split; [vm_compute; lia|]. split; [vm_compute; reflexivity|]. split; [reflexivity|]. vm_compute. reflexivity.
Qed.
Print Assumptions C67_refuted.

(** ** C68: with IEEE754Precise the fast path is exact *)

(** For double: whenever strtod is not used, the parts denote the number written,
    the significand is at most 2^53 and the exponent at most 22 in size, so that
    one correctly rounded operation remains. *)
Theorem C68_unknown_partial : forall buf p sg i f e x, number_at buf p sg i f e x -> delimited p sg i ->
  exists r p', parse_real_unknown 18 true buf p = Ok (r, p') /\
    (r_strtod r = false -> (handed r == inject_Z (sign_of sg) * magnitude i f x)%Q /\ r_sig r <= 2^53 /\ (-22 <= r_exp r <= 22)%Z).
Proof.
  intros buf p sg i f e x (HB & LB & L32 & Hsg & HI & HF & HX & BX & HS & NE) DL.
  destruct (unknown_parts 18 true sg i f e x buf p) as (more & E & M); auto; [lia|].
  do 2 eexists. split; [exact E|]. cbn [r_strtod r_sig r_exp]. unfold fall_back. cbn [andb]. intros F.
  rewrite !orb_false_iff in F. destruct F as (((F1 & F2) & F3) & F4). destruct (M F1) as (KE & LI).
  split; [|change (2^53) with 9007199254740992; lia]. rewrite handed_sign.
  destruct (kept_prefix 18 i f ltac:(lia) ltac:(destruct HI; auto) HF) as (R & DR & ER & LR).
  destruct (truncated i f x (kept 18 i f) R (x + Z.of_nat (length i - 18) - Z.of_nat (length (kept_fraction 18 i f)))%Z DR ER ltac:(lia)) as (_ & EX).
  rewrite EX; [reflexivity|]. rewrite KE in ER. rewrite <- (app_nil_r (i ++ fract_digits f)) in ER at 1. apply app_inv_head in ER. auto.
Qed.
Print Assumptions C68_unknown_partial.

Theorem C68_known_partial : forall buf p sg i f e x, number_at buf p sg i f e x ->
  exists v p' r, skip_number true buf p = Ok (v, p') /\ parse_real_known 18 true buf v = Ok r /\
    (r_strtod r = false -> (handed r == inject_Z (sign_of sg) * magnitude i f x)%Q /\ r_sig r <= 2^53 /\ (-22 <= r_exp r <= 22)%Z).
Proof.
  intros buf p sg i f e x (HB & LB & L32 & Hsg & HI & HF & HX & BX & HS & NE).
  assert (HC := HI). destruct HI as (HD & NI & HZ).
  rewrite (skip_number_ok true sg i f e) by (auto; eapply exp_val_part; eauto).
  destruct (known_parts 18 true sg i f e x buf (set_class (set_last p (first p + length (sg ++ i ++ f ++ e)))
       (match f with [] => None | _ => Some (first p + length (sg ++ i))%nat end)
       (match e with [] => None | _ => Some (first p + length (sg ++ i ++ f))%nat end))) as (more & E & M); auto.
  { lia. }
  { cbn. destruct NE. lia. }
  { unfold known_number. cbn. auto. }
  do 3 eexists. split; [reflexivity|]. split; [exact E|]. cbn [r_strtod r_sig r_exp]. unfold fall_back. cbn [andb]. intros F.
  rewrite !orb_false_iff in F. destruct F as (((F1 & F2) & F3) & F4).
  split; [|change (2^53) with 9007199254740992; lia]. rewrite handed_sign.
  assert (LI : (length i <= 18)%nat).
  { destruct (Nat.le_gt_cases (length i) 18) as [|G]; auto. exfalso.
    assert (LOW : 10 ^ N.of_nat 17 <= dec_val (kept_known 18 i f)).
    { assert (EKK : kept_known 18 i f = firstn 18 i) by (unfold kept_known, kept_whole, kept_known_fraction; replace (18 - length i)%nat with O by lia; cbn [firstn]; now rewrite app_nil_r).
      rewrite EKK. assert (L18 : length (firstn 18 i) = 18%nat) by (rewrite firstn_length; lia).
      assert (CL : 10 ^ N.of_nat (length (firstn 18 i) - 1) <= dec_val (firstn 18 i)).
      { apply (canonical_lower i HC); [intros ->; cbn in G; lia|]. exists []. split; [constructor|]. exists 17%nat. now rewrite app_nil_r. }
      rewrite L18 in CL. exact CL. }
    change (10 ^ N.of_nat 17) with 100000000000000000 in LOW. lia. }
  specialize (M F1 LI).
  destruct (kept_known_prefix 18 i f HD HF) as (R & DR & ER & LR).
  destruct (truncated i f x (kept_known 18 i f) R (x + Z.of_nat (length i - 18) - Z.of_nat (length (kept_known_fraction 18 i f)))%Z DR ER ltac:(lia)) as (_ & EX).
  rewrite EX; [reflexivity|]. rewrite M in ER. rewrite <- (app_nil_r (i ++ fract_digits f)) in ER at 1. apply app_inv_head in ER. auto.
Qed.
Print Assumptions C68_known_partial.

(** For float a digit is lost on the fast path, and the significand and power of
    ten are far beyond what a float holds exactly. *)
Theorem C68_float_refuted : exists buf sg i f e x v p' r, number_at buf (whole buf) sg i f e x /\
  skip_number true buf (whole buf) = Ok (v, p') /\ parse_real_known 10 true buf v = Ok r /\
  r_strtod r = false /\ ~ (handed r == inject_Z (sign_of sg) * magnitude i f x)%Q /\ 2^24 < r_sig r.
Proof.
  exists (on "12345678901]"), [], (on "12345678901"), [], [], 0%Z. do 3 eexists.
  split; [number_tac|]. split; [vm_compute; reflexivity|]. split; [vm_compute; reflexivity|]. split; [vm_compute; reflexivity|].
  split; [vm_compute; discriminate|reflexivity].
Qed.
Print Assumptions C68_float_refuted.

(** ** C64: what is accepted as a real is a JSON number *)

(** Partial: what is accepted has the form of a number except that a point need
    not be followed by digits and that any digits, or none, may follow a minus. *)
Theorem C64_form_partial : forall kd precise buf p, (1 <= kd)%nat -> is_bytes buf -> (first p <= last p <= length buf)%nat ->
  (stops buf p \/ kd + 1 < last p - first p)%nat ->
  forall r p', parse_value_real false kd precise buf p = Ok (r, p') ->
  exists t, loose_real t /\ sub_at buf (first p) t /\ p' = set_first p (first p + length t) /\
    ((first p' < last p)%nat -> exists b, nth_error buf (first p') = Some b /\ at_end_of_item b = true).
Proof.
  intros kd precise buf p HK HB HL ST r p' E. unfold parse_value_real in E.
  destruct (has_more p) eqn:HM; cbn [ensure bind] in E; [|discriminate].
  destruct (front buf p) as [c| | |]; cbn [bind] in E; try discriminate.
  destruct (is_number_start c); cbn [ensure bind] in E; [|discriminate].
  pose proof (unknown_safe kd precise buf p HK HB HL ST) as X.
  destruct (parse_real_unknown kd precise buf p) as [[r1 p1]| | |]; cbn [bind outcome_ok snd] in *; try discriminate.
  destruct X as (t & T1 & T2 & T3 & ->).
  destruct (end_of_item_ok buf (set_first p (first p + length t))) as [eo| | |] eqn:EO; cbn [bind] in E; try discriminate.
  destruct eo; cbn [ensure bind] in E; [|discriminate]. injection E as <- <-.
  exists t. split; auto. split; auto. split; auto. cbn [first set_first]. intros L.
  unfold end_of_item_ok, has_more, front in EO. cbn [first last set_first] in EO. destruct (Nat.ltb_spec (first p + length t) (last p)); [|lia].
  destruct (rd_in buf (first p + length t)) as (b & Hb); [lia|]. rewrite (rd_some _ _ _ Hb) in EO. cbn [bind] in EO. exists b. split; auto. congruence.
Qed.
Print Assumptions C64_form_partial.

(** [1.], [-.5], [-] and [-01] are no JSON numbers and are read as 1, -0.5, 0 and -1. *)
Definition value_of_text (s : string) (r : real) : Prop := exists p', parse_value_real false 18 false (on s) (whole (on s)) = Ok (r, p').
Theorem C64_refuted :
  value_of_text "1.]" (mkreal 1 1 0 false) /\ value_of_text "-.5]" (mkreal (-1) 5 (-1) false) /\
  value_of_text "-]" (mkreal (-1) 0 0 false) /\ value_of_text "-01]" (mkreal (-1) 1 0 false) /\ value_of_text "1.e5]" (mkreal 1 1 5 false).
Proof. repeat split; eexists; vm_compute; reflexivity. Qed.
Print Assumptions C64_refuted.

(** ** C65: reading a real stays inside the document *)

(** Partial: something that is no digit stands in the range, as in every array or
    object, or more than [kd] + 1 bytes are left. *)
Theorem C65_unknown_partial : forall kd precise buf p, (1 <= kd)%nat -> is_bytes buf -> (first p <= last p <= length buf)%nat ->
  (stops buf p \/ kd + 1 < last p - first p)%nat ->
  outcome_ok (fun x => (first p <= first (snd x) <= last p)%nat /\ last (snd x) = last p) (parse_value_real false kd precise buf p).
Proof.
  intros kd precise buf p HK HB HL ST. unfold parse_value_real.
  destruct (has_more p) eqn:HM; cbn [ensure bind outcome_ok]; auto. unfold has_more in HM.
  unfold front. destruct (rd_in buf (first p)) as (c & Hc); [lia|]. rewrite (rd_some _ _ _ Hc). cbn [bind].
  destruct (is_number_start c); cbn [ensure bind outcome_ok]; auto.
  apply outcome_ok_bind with (1 := unknown_safe kd precise buf p HK HB HL ST).
  intros [r p'] (t & T1 & T2 & T3 & EP). cbn [snd] in EP. subst p'.
  unfold end_of_item_ok, has_more, front. cbn [first last set_first]. destruct (Nat.ltb_spec (first p + length t) (last p)).
  - destruct (rd_in buf (first p + length t)) as (b & Hb); [lia|]. rewrite (rd_some _ _ _ Hb). cbn [bind].
    destruct (at_end_of_item b); cbn [ensure bind outcome_ok snd first last set_first]; auto. lia.
  - cbn [ensure bind outcome_ok snd first last set_first]. lia.
Qed.
Print Assumptions C65_unknown_partial.

(** After skip_number on any bytes, with exponents below 2^62 *)
Theorem C65_known_partial : forall kd precise buf p, (kd <= 19)%nat -> is_bytes buf -> (first p <= last p <= length buf)%nat -> N.of_nat (length buf) < 2^32 ->
  outcome_ok (fun x => (forall sg n f e z, known_number sg n f e (fst x) -> sub_at buf (first p) (sg ++ n ++ f ++ e) -> exp_val e z -> (Z.abs z < 2^62)%Z) ->
     outcome_ok (fun _ => True) (parse_real_known kd precise buf (fst x))) (skip_number true buf p).
Proof.
  intros kd precise buf p HK HB HL L32. eapply outcome_ok_weaken; [|apply (skip_number_parts buf p HB HL)].
  intros [v p'] (sg & n & f & e & P1 & P2 & P3 & P4 & P5 & P6 & P7 & P8) HX. cbn [fst] in *.
  apply (known_safe kd precise sg n f e); auto.
  - destruct P8 as (-> & _). lia.
  - intros z HZ. apply (HX sg n f e z); auto.
  - now rewrite P7.
Qed.
Print Assumptions C65_known_partial.

(** A whole number that is all of the document is read past its end; in a view
    into a larger buffer the digits there become part of the number. *)
Theorem C65_past_end_refuted :
  parse_value_real false 18 false (on "1") (whole (on "1")) = UB /\
  (exists p', parse_value_real false 18 false (on "12") (new_ps 0 1) = Ok (mkreal 1 1 1 false, p') /\ first p' = 2%nat).
Proof. split; [vm_compute; reflexivity|]. eexists. split; [vm_compute; reflexivity|reflexivity]. Qed.
Print Assumptions C65_past_end_refuted.

(** An exponent near -2^63 after a fraction overflows. *)
Theorem C65_overflow_refuted : exists v p', skip_number true (on "0.1e-9223372036854775808]") (whole (on "0.1e-9223372036854775808]")) = Ok (v, p') /\
  parse_real_known 18 false (on "0.1e-9223372036854775808]") v = UB.
Proof. do 2 eexists. split; [vm_compute; reflexivity|vm_compute; reflexivity]. Qed.
Print Assumptions C65_overflow_refuted.

(** The hypotheses can be met. *)
Example C08_nonvacuous : number_at (on "-12.5e3]") (whole (on "-12.5e3]")) [45] (on "12") (on ".5") (on "e3") 3 /\ delimited (whole (on "-12.5e3]")) [45] (on "12") /\
  exists r p', parse_real_unknown 18 false (on "-12.5e3]") (whole (on "-12.5e3]")) = Ok (r, p') /\ (handed r == inject_Z (-12500))%Q.
Proof.
  split; [|split].
  - unfold number_at. split; [vm_compute; repeat constructor|]. split; [vm_compute; lia|]. split; [reflexivity|]. split; [auto|].
    split; [split; [digs|split; [discriminate|intros ? E; vm_compute in E; congruence]]|].
    split; [change (on ".5") with [46; 53]; constructor; [digs|discriminate]|].
    split; [change (on "e3") with [101; 51]; change 3%Z with (Z.of_N (dec_val [51])); apply ev_plain; auto; [digs|discriminate]|].
    split; [reflexivity|]. split; [vm_compute; repeat split|]. split; [vm_compute; lia|]. right. exists 93. vm_compute. repeat split; try discriminate. intros [_ H]. apply H. reflexivity.
  - vm_compute. lia.
  - do 2 eexists. split; [vm_compute; reflexivity|]. vm_compute. reflexivity.
Qed.
Example C65_nonvacuous : stops (on "1]") (whole (on "1]")).
Proof. exists 1%nat, 93. split; [vm_compute; lia|]. split; [reflexivity|]. intros [_ H]. apply H. reflexivity. Qed.
