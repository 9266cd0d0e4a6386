(** The decimal format and the parts of a written real number. *)
From Coq Require Import List NArith ZArith QArith Qpower Qfield Bool Lia Arith ZifyBool ZifyNat ZifyN.
From Verif Require Import Base Mem IntModel IntSerModel SpecNum SpecJson IntProofs IntSerProofs SpecReal RealModel RealProofs PropertiesReal
  PropertiesInt RealSerModel RealSerProofs.
Import ListNotations.
Local Open Scope N_scope.

Lemma digit_count_ok : forall fuel v, 0 < v -> v < 10 ^ N.of_nat fuel ->
  exists d, digit_count fuel v = N.of_nat d /\ (1 <= d)%nat /\ 10 ^ N.of_nat (d - 1) <= v /\ v < 10 ^ N.of_nat d.
Proof.
  induction fuel; intros v V0 HV; [change (10 ^ N.of_nat 0) with 1 in HV; lia|]. cbn [digit_count].
  replace (v =? 0) with false by lia.
  destruct (N.le_gt_cases 10 v) as [G|G].
  - assert (1 <= v / 10) by (apply N.div_le_lower_bound; lia).
    destruct (IHfuel (v / 10)) as (d & E & LD & L & U); [lia| |].
    { apply N.div_lt_upper_bound; [lia|]. rewrite Nat2N.inj_succ, N.pow_succ_r' in HV. exact HV. }
    exists (S d). rewrite E. split; [lia|]. split; [lia|].
    pose proof (N.div_mod v 10 ltac:(lia)) as DM. pose proof (N.mod_lt v 10 ltac:(lia)).
    replace (S d - 1)%nat with (S (d - 1)) by lia. rewrite !Nat2N.inj_succ, !N.pow_succ_r'. lia.
  - exists 1%nat. replace (v / 10) with 0 by (symmetry; apply N.div_small; auto).
    replace (digit_count fuel 0) with 0 by (destruct fuel; reflexivity).
    split; [reflexivity|]. split; [lia|]. change (10 ^ N.of_nat (1 - 1)) with 1. change (10 ^ N.of_nat 1) with 10. lia.
Qed.

Lemma canonical_bounds : forall t, canonical t -> 0 < dec_val t ->
  10 ^ N.of_nat (length t - 1) <= dec_val t /\ dec_val t < 10 ^ N.of_nat (length t).
Proof.
  intros t (D & NE & Z) P. split; [|apply dec_val_lt; auto].
  destruct t as [|c t]; [congruence|]. replace (length (c :: t) - 1)%nat with (length t) by (cbn [length]; lia).
  change (c :: t) with ([c] ++ t). rewrite dec_val_app. change (dec_val [c]) with (0 * 10 + (c - 48)).
  inversion D as [|? ? DC DT]; subst. unfold is_dig in DC.
  assert (c <> 48). { intros ->. rewrite (Z t eq_refl) in P. vm_compute in P. discriminate. }
  assert (1 * 10 ^ N.of_nat (length t) <= (c - 48) * 10 ^ N.of_nat (length t)) by (apply N.mul_le_mono_r; lia). lia.
Qed.

Lemma exp_unique : forall a b v, 10 ^ N.of_nat (a - 1) <= v -> v < 10 ^ N.of_nat a -> 10 ^ N.of_nat (b - 1) <= v -> v < 10 ^ N.of_nat b ->
  (1 <= a)%nat -> (1 <= b)%nat -> a = b.
Proof.
  intros a b v A1 A2 B1 B2 HA HB. pose proof (pow_lt_exp (a - 1) b v A1 B2). pose proof (pow_lt_exp (b - 1) a v B1 A2). lia.
Qed.

Lemma canonical_length : forall t d, canonical t -> 0 < dec_val t -> (1 <= d)%nat -> 10 ^ N.of_nat (d - 1) <= dec_val t -> dec_val t < 10 ^ N.of_nat d ->
  length t = d.
Proof.
  intros t d C P HD L U. destruct (canonical_bounds t C P) as (L' & U').
  apply (exp_unique _ _ (dec_val t)); auto. destruct C as (_ & NE & _). destruct t; [congruence|cbn [length]; lia].
Qed.

Lemma count_digits_ok : forall cd0 t, canonical t -> 0 < dec_val t -> dec_val t < 10 ^ 20 -> count_digits cd0 (dec_val t) = Z.of_nat (length t).
Proof.
  intros cd0 t C P HB. unfold count_digits. replace (dec_val t =? 0) with false by lia.
  destruct (digit_count_ok 20 (dec_val t) P HB) as (d & E & LD & L & U). rewrite E, (canonical_length t d); auto. lia.
Qed.

Lemma zeros_ok : forall n, digits (repeat 48 n).
Proof. induction n; cbn [repeat]; [apply Forall_nil|apply Forall_cons; [unfold is_dig; lia|auto]]. Qed.

Lemma zeros_val : forall n, dec_val (repeat 48 n) = 0.
Proof.
  induction n; auto.
Qed.

Lemma zeros_front : forall n t, dec_val (repeat 48 n ++ t) = dec_val t.
Proof. intros. rewrite dec_val_app, zeros_val. lia. Qed.

Lemma canonical_zeros : forall t n, canonical t -> 0 < dec_val t -> canonical (t ++ repeat 48 n).
Proof.
  intros t n (D & NE & Z) P. split; [apply Forall_app; split; auto; apply zeros_ok|]. split; [destruct t; [congruence|discriminate]|].
  intros r E. destruct t as [|c t]; [congruence|]. cbn [app] in E. injection E as -> <-.
  rewrite (Z t eq_refl) in P. vm_compute in P. discriminate.
Qed.

Lemma decimal_shift : forall m n e, (decimal (m * 10 ^ Z.of_nat n) e == decimal m (e + Z.of_nat n))%Q.
Proof.
  intros. unfold decimal. rewrite ten_pow_plus, inject_Z_mult.
  replace (inject_Z (10 ^ Z.of_nat n)) with (q_of_N (10 ^ N.of_nat n)) by (unfold q_of_N; f_equal; rewrite N2Z.inj_pow, nat_N_Z; reflexivity).
  rewrite <- ten_pow_N. ring.
Qed.

(** The digits written before the exponent, in the decimal format *)
Definition decimal_digits (o : nat) (exp : Z) : nat :=
  if (exp <? 0)%Z then
    if (Z.of_nat o + exp <=? 0)%Z then (1 + Z.to_nat (- (Z.of_nat o + exp)) + o)%nat else o
  else (o + Z.to_nat exp)%nat.

Lemma decimal_ok : forall cd0 v exp o, (0 <= cd0 <= 1)%Z -> (1 <= o <= 17)%nat -> 10 ^ N.of_nat (o - 1) <= v -> v < 10 ^ N.of_nat o ->
  exists i f, to_chars_decimal cd0 v exp (Z.of_nat o + exp) = Ok (i ++ f) /\ int_part i /\ frac_part f /\
    (magnitude i f 0 == decimal (Z.of_N v) exp)%Q /\
    (v mod 10 <> 0 -> (length i + length (fract_digits f) = decimal_digits o exp)%nat).
Proof.
  intros cd0 v exp o HC HO LV HV. unfold to_chars_decimal, decimal_digits.
  assert (V0 : 0 < v) by (pose proof (N.pow_nonzero 10 (N.of_nat (o - 1)) ltac:(lia)); lia).
  assert (V17 : v < 10 ^ 17). { apply (N.lt_le_trans _ _ _ HV). apply N.pow_le_mono_r; lia. }
  assert (V64 : v < 2 ^ 64) by (apply (N.lt_trans _ _ _ V17); reflexivity).
  assert (W64 : int_width 64) by (right; right; right; reflexivity).
  destruct (C05_unsigned_canonical 64 v W64 V64) as (t & ET & CT & VT).
  assert (LT : length t = o) by (apply canonical_length; auto; lia). rewrite ET. cbn [bind].
  assert (DT : digits t) by (destruct CT; auto).
  destruct (exp <? 0)%Z eqn:EN.
  - destruct (Z.of_nat o + exp <? 0)%Z eqn:EW.
    + exists [48], (46 :: repeat 48 (Z.to_nat (- (Z.of_nat o + exp))) ++ t). split; [reflexivity|]. split; [|split; [|split]].
      * split; [repeat constructor; discriminate|]. split; [discriminate|]. intros r E. injection E. auto.
      * constructor; [apply Forall_app; split; auto; apply zeros_ok|]. intros E. apply app_eq_nil in E as [_ ->]. cbn in LT. lia.
      * rewrite magnitude_digits. change (fract_digits (46 :: ?q)) with q. cbn [fract_digits tl].
        change ([48] ++ ?q) with (repeat 48 1 ++ q). rewrite zeros_front, zeros_front, VT, app_length, repeat_length, LT.
        replace (0 - Z.of_nat (Z.to_nat (- (Z.of_nat o + exp)) + o))%Z with exp by lia. reflexivity.
      * intros _. replace (Z.of_nat o + exp <=? 0)%Z with true by lia. cbn [fract_digits tl length]. rewrite app_length, repeat_length. lia.
    + set (n := Z.to_nat (- exp)). replace (Z.to_N (- exp)) with (N.of_nat n) by lia.
      assert (HN : (1 <= n <= o)%nat) by lia. set (P := 10 ^ N.of_nat n).
      assert (P10 : 10 <= P). { unfold P. change 10 with (10 ^ 1) at 1. apply N.pow_le_mono_r; lia. }
      set (p1 := v / P). set (p2 := v - p1 * P).
      assert (F : v = P * p1 + p2 /\ p2 < P /\ (v mod 10 <> 0 -> p2 <> 0) /\ (v < P -> p1 = 0) /\
        ((n < o)%nat -> 10 ^ N.of_nat (o - n - 1) <= p1 /\ p1 < 10 ^ N.of_nat (o - n))).
      { assert (EV : v = P * p1 + v mod P) by (apply N.div_mod; lia). assert (ML : v mod P < P) by (apply N.mod_lt; lia).
        assert (E2 : p2 = v mod P) by (unfold p2; lia). rewrite E2. split; [exact EV|]. split; [exact ML|]. split; [|split].
        - intros NT Z0. apply NT. replace (v mod 10) with (v mod P mod 10); [rewrite Z0; reflexivity|].
          unfold P. clear - HN. replace n with (S (n - 1)) by lia. rewrite Nat2N.inj_succ, N.pow_succ_r'. apply mod_sub; nz.
        - apply N.div_small.
        - clear - LV HV HN P P10. intros LT. split.
          + apply N.div_le_lower_bound; [lia|]. unfold P. rewrite <- N.pow_add_r. replace (N.of_nat n + N.of_nat (o - n - 1)) with (N.of_nat (o - 1)) by lia. auto.
          + apply N.div_lt_upper_bound; [lia|]. unfold P. rewrite <- N.pow_add_r. replace (N.of_nat n + N.of_nat (o - n)) with (N.of_nat o) by lia. auto. }
      change (v / P * P) with (p1 * P) in p2. clearbody p1 p2. destruct F as (EV & ML & FT & FS & FP).
      assert (L1 : p1 <= v) by nia.
      assert (L2 : p2 <= v) by lia.
      destruct (C05_unsigned_canonical 64 p1 W64 ltac:(lia)) as (t1 & ET1 & CT1 & VT1).
      destruct (C05_unsigned_canonical 64 p2 W64 ltac:(lia)) as (t2 & ET2 & CT2 & VT2).
      rewrite ET1. cbn [bind]. replace (P =? 1) with false by lia. rewrite ET2. cbn [bind].
      set (x := Z.to_nat (count_digits cd0 v - (count_digits cd0 p2 + count_digits cd0 p1))).
      assert (X : 0 < p2 -> (x + length t2 = n)%nat).
      { intros P2. unfold x. rewrite <- VT at 1. rewrite count_digits_ok; auto; [|lia|rewrite VT; apply (N.lt_trans _ _ _ V17); reflexivity].
        rewrite <- VT2 at 1. rewrite count_digits_ok; auto; [|lia|rewrite VT2; apply (N.le_lt_trans _ _ _ L2); apply (N.lt_trans _ _ _ V17); reflexivity].
        assert (D2 : (length t2 <= n)%nat).
        { destruct (canonical_bounds t2 CT2) as (B1 & B2); [lia|]. rewrite VT2 in B1. pose proof (pow_lt_exp _ n p2 B1 ltac:(fold P; lia)). lia. }
        destruct (N.eq_dec p1 0) as [Z1|NZ1].
        - unfold count_digits at 1. rewrite Z1. cbn [N.eqb]. assert (EP : v = p2) by lia.
          assert (EL : length t2 = o) by (apply canonical_length; auto; rewrite ?VT2, <- ?EP; auto; lia). lia.
        - rewrite <- VT1. rewrite count_digits_ok; auto; [|lia|rewrite VT1; apply (N.le_lt_trans _ _ _ L1); apply (N.lt_trans _ _ _ V17); reflexivity].
          assert (EL : (length t1 + n = o)%nat); [|lia].
          destruct (canonical_bounds t1 CT1) as (B1 & B2); [lia|]. rewrite VT1 in B1, B2.
          assert (1 <= length t1)%nat by (destruct CT1 as (_ & NE & _); destruct t1; [congruence|cbn [length]; lia]).
          apply (exp_unique _ _ v); [| |exact LV|exact HV|clear - H HN; lia|clear - HO; lia].
          + replace (length t1 + n - 1)%nat with (n + (length t1 - 1))%nat by (clear - H HN; lia). rewrite Nat2N.inj_add, N.pow_add_r. fold P.
            pose proof (N.mul_le_mono_l _ _ P B1). lia.
          + rewrite Nat2N.inj_add, N.pow_add_r. fold P. pose proof (N.mul_le_mono_r (p1 + 1) (10 ^ N.of_nat (length t1)) P ltac:(lia)). lia. }
      assert (D2 : digits t2) by (destruct CT2; auto). assert (N2 : t2 <> []) by (destruct CT2 as (_ & ? & _); auto).
      exists t1, (46 :: repeat 48 x ++ t2). split; [rewrite <- ?app_assoc; reflexivity|]. split; auto. split; [|split].
      * constructor; [apply Forall_app; split; auto; apply zeros_ok|]. intros E. apply app_eq_nil in E as [_ E]. auto.
      * unfold magnitude, decimal. change (fract_digits (46 :: repeat 48 x ++ t2)) with (repeat 48 x ++ t2).
        rewrite zeros_front, VT1, VT2, app_length, repeat_length. fold (q_of_N v).
        rewrite EV at 1. rewrite q_of_N_add, q_of_N_mul. unfold P. rewrite <- ten_pow_N.
        replace exp with (- Z.of_nat n)%Z by (clear - EN; lia).
        assert (NZ : ~ (ten_pow (Z.of_nat n) == 0)%Q) by (apply Qpower_not_0, ten_nz).
        assert (ON : (ten_pow (- Z.of_nat n) == / ten_pow (Z.of_nat n))%Q) by (unfold ten_pow; apply Qpower_opp).
        rewrite ON. change (ten_pow 0) with 1%Q.
        destruct (N.eq_dec p2 0) as [->|NZ2].
        -- change (q_of_N 0) with 0%Q. assert (NZ' : ~ (ten_pow (Z.of_nat (x + length t2)) == 0)%Q) by (apply Qpower_not_0, ten_nz). field. auto.
        -- rewrite X by lia. field. auto.
      * intros NT. cbn [fract_digits tl]. rewrite app_length, repeat_length.
        assert (P2 : 0 < p2) by (specialize (FT NT); lia).
        rewrite X by auto. destruct (Z.of_nat o + exp <=? 0)%Z eqn:EZ.
        -- assert (n = o) by lia. assert (p1 = 0) as Z1 by (apply FS; unfold P; rewrite H; auto).
           rewrite Z1 in ET1. vm_compute in ET1. injection ET1 as <-. cbn [length]. lia.
        -- assert (NO : (n < o)%nat) by lia. destruct (FP NO) as (F1 & F2).
           assert (NZ1 : 0 < p1) by (pose proof (N.pow_nonzero 10 (N.of_nat (o - n - 1)) ltac:(lia)); lia).
           assert (EL : length t1 = (o - n)%nat) by (apply canonical_length; auto; rewrite ?VT1; auto; clear - NO; lia).
           clear - EL NO HN. lia.
  - exists (t ++ repeat 48 (Z.to_nat exp)), []. split; [rewrite app_nil_r; reflexivity|]. split; [apply canonical_zeros; auto; lia|].
    split; [constructor|]. split.
    + rewrite magnitude_digits. cbn [fract_digits tl length]. rewrite app_nil_r, dec_val_app, repeat_length, zeros_val, VT.
      replace (Z.of_N (v * 10 ^ N.of_nat (Z.to_nat exp) + 0)) with (Z.of_N v * 10 ^ Z.of_nat (Z.to_nat exp))%Z
        by (rewrite N.add_0_r, N2Z.inj_mul, N2Z.inj_pow, nat_N_Z; reflexivity).
      rewrite decimal_shift. replace (0 - Z.of_nat 0 + Z.of_nat (Z.to_nat exp))%Z with exp by lia. reflexivity.
    + intros _. cbn [fract_digits tl length]. rewrite app_length, repeat_length. lia.
Qed.

Lemma scientific_parts : forall (dbl : bool) v exp o, (1 <= o <= 17)%nat -> 10 ^ N.of_nat (o - 1) <= v -> v < 10 ^ N.of_nat o ->
  (dbl = false -> v < 2^32) -> (Z.abs (exp + Z.of_nat o - 1) < if dbl then 1000 else 100)%Z ->
  exists i f e x, to_chars_scientific dbl v exp (N.of_nat o) = Ok (i ++ f ++ e) /\ int_part i /\ frac_part f /\ exp_val e x /\
    x = (exp + Z.of_nat o - 1)%Z /\ (magnitude i f x == decimal (Z.of_N v) exp)%Q /\ (length i + length (fract_digits f) = o)%nat.
Proof.
  intros dbl v exp o HO LV HV FL HE. destruct (scientific_ok dbl v exp o HO LV HV FL HE) as (ds & E & D1 & D2 & D3).
  do 3 eexists. exists (exp + Z.of_nat o - 1)%Z. split; [exact E|]. split; [|split; [|split; [|split; [|split]]]].
  - split; [constructor; [apply digit_at_ok|constructor]|]. split; [discriminate|]. intros r R. injection R. auto.
  - destruct o as [|[|o]]; [lia|constructor|]. constructor; [apply low_digits_ok|]. intros R.
    apply (f_equal (@length N)) in R. rewrite low_digits_length in R. cbn in R. lia.
  - destruct (exp + Z.of_nat o - 1 <? 0)%Z eqn:EN; cbn [app].
    + replace (exp + Z.of_nat o - 1)%Z with (- Z.of_N (dec_val ds))%Z by lia. constructor; auto.
    + replace (exp + Z.of_nat o - 1)%Z with (Z.of_N (dec_val ds))%Z by lia. constructor; auto.
  - reflexivity.
  - rewrite magnitude_digits. set (F := match o with 1%nat => [] | _ => _ end).
    assert (EF : fract_digits F = low_digits v (o - 1)) by (unfold F; destruct o as [|[|o]]; reflexivity).
    rewrite EF, low_digits_length. change ([digit_at v (o - 1)] ++ low_digits v (o - 1)) with (low_digits v (S (o - 1))).
    rewrite low_digits_val. replace (S (o - 1)) with o by lia. rewrite N.mod_small by auto.
    replace (exp + Z.of_nat o - 1 - Z.of_nat (o - 1))%Z with exp by lia. reflexivity.
  - destruct o as [|[|o]]; [lia|reflexivity|]. cbn [fract_digits tl length]. rewrite low_digits_length. lia.
Qed.

(** Whether the text has an exponent *)
Definition scientific (fmt : fp_format) (o : nat) (exp : Z) : bool :=
  match fmt with
  | FPScientific => true
  | FPDecimal => false
  | FPAuto => ((Z.of_nat o + exp <? -4) || (6 <? Z.of_nat o + exp))%Z
  end.

Lemma to_chars_parts : forall cd0 (dbl : bool) fmt neg v exp o, (0 <= cd0 <= 1)%Z -> 0 < v -> v < (if dbl then 10^17 else 10^9) ->
  ((if dbl then -999 else -99) <= exp <= (if dbl then 983 else 91))%Z -> decimal_length dbl v = N.of_nat o ->
  exists i f e x, to_chars cd0 dbl fmt neg v exp = Ok ((if neg : bool then [45] else []) ++ i ++ f ++ e) /\ int_part i /\ frac_part f /\ exp_val e x /\
    (Z.abs x < 1000)%Z /\ (magnitude i f x == decimal (Z.of_N v) exp)%Q /\
    (v mod 10 <> 0 -> (length i + length (fract_digits f) = if scientific fmt o exp then o else decimal_digits o exp)%nat).
Proof.
  intros cd0 dbl fmt neg v exp o HC V0 HV HE EO.
  destruct (decimal_length_ok dbl v V0 HV) as (o' & EO' & HO & LV & UV). rewrite EO in EO'. assert (o' = o) as -> by lia.
  assert (O9 : dbl = false -> (o <= 9)%nat).
  { intros ->. assert (o - 1 < 9)%nat; [|lia]. apply (pow_lt_exp _ _ v); auto. }
  assert (FL : dbl = false -> v < 2^32). { intros ->. apply (N.lt_trans _ _ _ HV). reflexivity. }
  assert (HS : (Z.abs (exp + Z.of_nat o - 1) < if dbl then 1000 else 100)%Z) by (destruct dbl; [lia|specialize (O9 eq_refl); lia]).
  unfold to_chars. rewrite EO. replace (v =? 0) with false by lia. replace (Z.of_N (N.of_nat o)) with (Z.of_nat o) by lia.
  destruct (scientific_parts dbl v exp o HO LV UV FL HS) as (i & f & e & x & ES & I1 & I2 & I3 & I4 & I5 & I6).
  destruct (decimal_ok cd0 v exp o HC HO LV UV) as (i' & f' & ED & J1 & J2 & J3 & J4).
  assert (C : match fmt with
      | FPAuto => if ((Z.of_nat o + exp <? -4) || (6 <? Z.of_nat o + exp))%Z then to_chars_scientific dbl v exp (N.of_nat o)
                  else to_chars_decimal cd0 v exp (Z.of_nat o + exp)
      | FPScientific => to_chars_scientific dbl v exp (N.of_nat o)
      | FPDecimal => to_chars_decimal cd0 v exp (Z.of_nat o + exp) end =
    if scientific fmt o exp then Ok (i ++ f ++ e) else Ok (i' ++ f' ++ [])).
  { rewrite <- ES, app_nil_r, <- ED. destruct fmt; reflexivity. }
  rewrite C. destruct (scientific fmt o exp); cbn [bind].
  - exists i, f, e, x. split; [reflexivity|]. split; auto. split; auto. split; auto. split; [destruct dbl; lia|]. split; auto.
  - exists i', f', [], 0%Z. split; [reflexivity|]. split; auto. split; auto. split; [constructor|]. split; [reflexivity|]. split; auto.
Qed.
