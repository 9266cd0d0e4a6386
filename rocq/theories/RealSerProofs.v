(** Proofs about writing real numbers. *)
From Coq Require Import List NArith ZArith Bool Lia Arith ZifyBool ZifyNat ZifyN.
From Verif Require Import Base Mem IntModel IntSerModel SpecNum SpecJson IntProofs IntSerProofs RealSerModel.
Import ListNotations.
Local Open Scope N_scope.

Ltac nz := first [apply N.pow_nonzero; lia | lia].

(** The [k]-th decimal digit of [v], counted from the right, as a character *)
Definition digit_at (v : N) (k : nat) : N := 48 + v / 10 ^ N.of_nat k mod 10.

(** The last [n] digits of [v] *)
Fixpoint low_digits (v : N) (n : nat) : list N :=
  match n with O => [] | S k => digit_at v k :: low_digits v k end.

Lemma low_digits_length : forall v n, length (low_digits v n) = n.
Proof. induction n; cbn [low_digits length]; lia. Qed.

Lemma digit_at_ok : forall v k, is_dig (digit_at v k).
Proof.
  intros. unfold is_dig, digit_at. pose proof (N.mod_lt (v / 10 ^ N.of_nat k) 10 ltac:(lia)) as H.
  set (x := _ mod _) in *. clearbody x. lia.
Qed.

Lemma low_digits_ok : forall v n, digits (low_digits v n).
Proof. induction n; cbn [low_digits]; constructor; auto. apply digit_at_ok. Qed.

Lemma low_digits_val : forall v n, dec_val (low_digits v n) = v mod 10 ^ N.of_nat n.
Proof.
  intros v. induction n; cbn [low_digits].
  - change (N.of_nat 0) with 0. rewrite N.pow_0_r, N.mod_1_r. reflexivity.
  - change (digit_at v n :: low_digits v n) with ([digit_at v n] ++ low_digits v n).
    rewrite dec_val_app, low_digits_length, IHn.
    change (dec_val [digit_at v n]) with (0 * 10 + (digit_at v n - 48)). unfold digit_at.
    rewrite Nat2N.inj_succ, N.pow_succ_r', (N.mul_comm 10), N.mod_mul_r by nz.
    set (x := v / _ mod 10). set (y := v mod _). clearbody x y. lia.
Qed.

Lemma low_digits_nth : forall v n j, (j < n)%nat -> nth j (low_digits v n) 0 = digit_at v (n - 1 - j).
Proof.
  induction n; intros j H; [lia|]. cbn [low_digits]. destruct j; cbn [nth].
  - f_equal. lia.
  - rewrite IHn by lia. f_equal. lia.
Qed.

(** *** The char array *)

Lemma upd_length : forall l i x, length (upd l i x) = length l.
Proof. induction l; intros; destruct i; cbn [upd length]; auto. Qed.

Lemma nth_upd_same : forall l i x d, (i < length l)%nat -> nth i (upd l i x) d = x.
Proof. induction l; intros i x d H; destruct i; cbn [upd nth length] in *; auto; try lia. apply IHl. lia. Qed.

Lemma nth_upd_other : forall l i j x d, i <> j -> nth j (upd l i x) d = nth j l d.
Proof.
  induction l; intros i j x d H; destruct i, j; cbn [upd nth]; auto; try congruence.
Qed.

Lemma wr_ok : forall l pos c, (pos < length l)%nat -> wr l (Z.of_nat pos) c = Ok (upd l pos c).
Proof.
  intros. unfold wr. replace ((0 <=? Z.of_nat pos) && (Z.of_nat pos <? Z.of_nat (length l)))%Z with true by lia.
  now rewrite Nat2Z.id.
Qed.

Lemma radix_tens : forall v, v < 100 -> radix_100_table (2 * v) = Ok (v / 10 + 48).
Proof.
  intros v H. unfold radix_100_table. replace (2 * v <? 200) with true by lia.
  rewrite N.even_mul. cbn [N.even orb]. rewrite (N.mul_comm 2), N.div_mul by lia. reflexivity.
Qed.

Lemma radix_units : forall v, v < 100 -> radix_100_table (2 * v + 1) = Ok (v mod 10 + 48).
Proof.
  intros v H. unfold radix_100_table. replace (2 * v + 1 <? 200) with true by lia.
  rewrite N.even_add, N.even_mul. cbn [N.even orb Bool.eqb].
  replace ((2 * v + 1) / 2) with v by (apply (N.div_unique _ _ _ 1); lia). reflexivity.
Qed.

Lemma copy2_ok : forall l v pos, v < 100 -> (S pos < length l)%nat ->
  copy2 (2 * v) l (Z.of_nat pos) = Ok (upd (upd l pos (v / 10 + 48)) (S pos) (v mod 10 + 48)).
Proof.
  intros l v pos HV HL. unfold copy2. rewrite radix_tens, radix_units by auto. cbn [bind].
  rewrite wr_ok by lia. cbn [bind]. replace (Z.of_nat pos + 1)%Z with (Z.of_nat (S pos)) by lia.
  rewrite wr_ok by (rewrite upd_length; lia). reflexivity.
Qed.

(** The last [i] digits of [v] end at position [o]. *)
Definition holds (v : N) (o i : nat) (l : list N) : Prop :=
  length l = 50%nat /\ forall k, (k < i)%nat -> nth (o - k) l 0 = digit_at v k.

Lemma copy_step : forall v o i l pos x, (o < 50)%nat -> (i + 2 <= o)%nat -> holds v o i l ->
  x = v / 10 ^ N.of_nat i mod 100 -> pos = (Z.of_nat o - Z.of_nat i - 1)%Z ->
  exists l', copy2 (2 * x) l pos = Ok l' /\ holds v o (i + 2) l'.
Proof.
  intros v o i l pos x HO HI (HL & HH) EX EP.
  assert (X100 : x < 100) by (rewrite EX; apply N.mod_lt; lia).
  replace pos with (Z.of_nat (o - i - 1)) by lia. eexists. split; [apply copy2_ok; [auto|lia]|].
  split; [rewrite !upd_length; auto|]. intros k HK.
  assert (D : x = v / 10 ^ N.of_nat i mod (10 * 10)) by (rewrite EX; reflexivity).
  rewrite N.mod_mul_r in D by lia.
  pose proof (N.mod_lt (v / 10 ^ N.of_nat i) 10 ltac:(lia)).
  destruct (Nat.eq_dec k i) as [->|N1]; [|destruct (Nat.eq_dec k (S i)) as [->|N2]].
  - replace (S (o - i - 1)) with (o - i)%nat by lia. rewrite nth_upd_same by (rewrite upd_length; lia).
    unfold digit_at. rewrite N.add_comm. f_equal. rewrite D.
    rewrite (N.mul_comm 10), N.mod_add by lia. apply N.mod_small. lia.
  - rewrite nth_upd_other by lia. replace (o - S i)%nat with (o - i - 1)%nat by lia. rewrite nth_upd_same by lia.
    unfold digit_at. rewrite N.add_comm. f_equal. rewrite D. rewrite Nat2N.inj_succ, N.pow_succ_r', (N.mul_comm 10 (10 ^ _)).
    rewrite <- N.div_div by nz. rewrite (N.mul_comm 10), N.div_add by lia. rewrite N.div_small by lia. lia.
  - rewrite nth_upd_other by lia. rewrite nth_upd_other by lia. apply HH. lia.
Qed.

Lemma pow_lt_exp : forall a b v, 10 ^ N.of_nat a <= v -> v < 10 ^ N.of_nat b -> (a < b)%nat.
Proof.
  intros a b v H1 H2. assert (10 ^ N.of_nat a < 10 ^ N.of_nat b) by lia.
  apply N.pow_lt_mono_r_iff in H; lia.
Qed.

Lemma div_ge : forall v i m, m <= v / 10 ^ N.of_nat i -> m * 10 ^ N.of_nat i <= v.
Proof.
  intros v i m H. pose proof (N.mul_div_le v (10 ^ N.of_nat i) ltac:(apply N.pow_nonzero; lia)).
  apply (N.le_trans _ (v / 10 ^ N.of_nat i * 10 ^ N.of_nat i)); [apply N.mul_le_mono_r; auto|lia].
Qed.

Lemma digits_left : forall v o i m, v < 10 ^ N.of_nat o -> 10 ^ N.of_nat m <= v / 10 ^ N.of_nat i -> (i + m < o)%nat.
Proof.
  intros v o i m H1 H2. apply div_ge in H2. apply (pow_lt_exp _ _ v); auto.
  rewrite Nat2N.inj_add, N.pow_add_r. lia.
Qed.

Lemma div_pow_add : forall v i n, v / 10 ^ N.of_nat i / 10 ^ N.of_nat n = v / 10 ^ N.of_nat (i + n).
Proof.
  intros. rewrite N.div_div by (apply N.pow_nonzero; lia). rewrite <- N.pow_add_r. do 2 f_equal. lia.
Qed.

Lemma mod_sub : forall x a b, a <> 0 -> b <> 0 -> x mod (a * b) mod a = x mod a.
Proof.
  intros x a b HA HB. rewrite N.mod_mul_r by auto. rewrite (N.mul_comm a), N.mod_add by auto.
  apply N.mod_mod; auto.
Qed.

Lemma mod_div : forall x a b, a <> 0 -> b <> 0 -> x mod (a * b) / a = x / a mod b.
Proof.
  intros x a b HA HB. rewrite N.mod_mul_r by auto. rewrite (N.mul_comm a), N.div_add by auto.
  rewrite N.div_small by (apply N.mod_lt; auto). lia.
Qed.

Lemma loop4_ok : forall fuel v o i l, (o < 50)%nat -> v < 10 ^ N.of_nat o -> holds v o i l ->
  v / 10 ^ N.of_nat i < 10000 ^ N.of_nat fuel -> (1 <= fuel)%nat ->
  exists l' i', loop4 fuel (Z.of_nat o) (Z.of_nat i) (v / 10 ^ N.of_nat i) l = Ok (l', v / 10 ^ N.of_nat i', Z.of_nat i') /\
    holds v o i' l' /\ v / 10 ^ N.of_nat i' < 10000 /\ (i <= i')%nat /\ (i = i' \/ 0 < v / 10 ^ N.of_nat i').
Proof.
  induction fuel; intros v o i l HO HV HH HF HP; [lia|]. cbn [loop4].
  destruct (10000 <=? v / 10 ^ N.of_nat i) eqn:E.
  - assert (LO : (i + 4 < o)%nat) by (apply (digits_left v); auto; change (10 ^ N.of_nat 4) with 10000; lia).
    set (x := v / 10 ^ N.of_nat i) in *.
    destruct (copy_step v o i l (Z.of_nat o - Z.of_nat i - 1) (x mod 10000 mod 100)) as (l1 & E1 & H1);
      [lia|lia|assumption| |lia|].
    { fold x. apply (mod_sub x 100 100); discriminate. }
    rewrite E1. cbn [bind].
    destruct (copy_step v o (i + 2) l1 (Z.of_nat o - Z.of_nat i - 3) (x mod 10000 / 100)) as (l2 & E2 & H2);
      [lia|lia|assumption| |lia|].
    { rewrite <- div_pow_add. fold x. change (10 ^ N.of_nat 2) with 100. apply (mod_div x 100 100); discriminate. }
    rewrite E2. cbn [bind].
    assert (Q : x / 10000 = v / 10 ^ N.of_nat (i + 4)) by (rewrite <- div_pow_add; reflexivity).
    rewrite Q. replace (Z.of_nat i + 4)%Z with (Z.of_nat (i + 4)) by lia.
    assert (LT : v / 10 ^ N.of_nat (i + 4) < 10000 ^ N.of_nat fuel).
    { rewrite <- Q. apply N.div_lt_upper_bound; [lia|]. rewrite Nat2N.inj_succ, N.pow_succ_r' in HF. exact HF. }
    assert (1 <= v / 10 ^ N.of_nat (i + 4)) by (rewrite <- Q; apply N.div_le_lower_bound; lia).
    destruct (IHfuel v o (i + 4)%nat l2) as (l' & i' & E' & H' & B' & LE & NZ); auto.
    { replace (i + 4)%nat with (i + 2 + 2)%nat by lia. auto. }
    { destruct fuel; [|lia]. change (10000 ^ N.of_nat 0) with 1 in LT. lia. }
    exists l', i'. split; auto. split; auto. split; auto. split; [lia|]. right. destruct NZ as [<-|NZ]; lia.
  - exists l, i. split; auto. split; auto. split; [lia|]. split; auto.
Qed.

Lemma cut8_ok : forall v o l, (8 < o < 50)%nat -> v < 10 ^ N.of_nat o -> holds v o 0 l ->
  exists l', cut8 (Z.of_nat o) v l = Ok (l', v / 10 ^ N.of_nat 8) /\ holds v o 8 l'.
Proof.
  intros v o l HO HV HH. unfold cut8.
  set (q := v / 100000000).
  assert (E2 : (v mod 2^32 + 2^32 - 100000000 * (q mod 2^32) mod 2^32) mod 2^32 = v mod 100000000).
  { pose proof (N.div_mod v 100000000 ltac:(lia)) as DM. fold q in DM.
    pose proof (N.mod_lt v 100000000 ltac:(lia)) as ML. set (r := v mod 100000000) in *.
    rewrite N.mul_mod_idemp_r by lia.
    pose proof (N.mod_lt (100000000 * q) (2^32) ltac:(lia)).
    pose proof (N.div_mod v (2^32) ltac:(lia)) as D1. pose proof (N.div_mod (100000000 * q) (2^32) ltac:(lia)) as D2.
    set (a := v mod 2^32) in *. set (b := (100000000 * q) mod 2^32) in *.
    set (A := v / 2^32) in *. set (B := (100000000 * q) / 2^32) in *. clearbody a b A B.
    change (2^32) with 4294967296 in *. symmetry.
    apply (N.mod_unique _ _ (B + 1 - A)); [clear - ML; lia|].
    assert (AB : A <= B + 1) by lia. lia. }
  rewrite E2. clear E2. set (r := v mod 100000000).
  assert (P0 : v / 10 ^ N.of_nat 0 = v) by (change (10 ^ N.of_nat 0) with 1; apply N.div_1_r).
  assert (R2 : forall n m, n * m = 100000000 -> n <> 0 -> m <> 0 -> r mod n = v mod n).
  { intros n m NM N0 M0. unfold r. rewrite <- NM. apply mod_sub; auto. }
  assert (RD : r / 10000 = v / 10000 mod 10000) by (apply (mod_div v 10000 10000); discriminate).
  destruct (copy_step v o 0 l (Z.of_nat o - 1) (r mod 10000 mod 100)) as (l1 & E1 & H1);
    [lia|lia|assumption| |lia|].
  { rewrite P0, (R2 10000 10000) by (discriminate || reflexivity). apply (mod_sub v 100 100); discriminate. }
  rewrite E1. cbn [bind].
  destruct (copy_step v o 2 l1 (Z.of_nat o - 3) (r mod 10000 / 100)) as (l2 & E3 & H2);
    [lia|lia|assumption| |lia|].
  { rewrite (R2 10000 10000) by (discriminate || reflexivity). apply (mod_div v 100 100); discriminate. }
  rewrite E3. cbn [bind].
  destruct (copy_step v o 4 l2 (Z.of_nat o - 5) (r / 10000 mod 10000 mod 100)) as (l3 & E4 & H3);
    [lia|lia|assumption| |lia|].
  { rewrite RD. rewrite N.mod_mod by discriminate. apply (mod_sub (v / 10000) 100 100); discriminate. }
  rewrite E4. cbn [bind].
  destruct (copy_step v o 6 l3 (Z.of_nat o - 7) (r / 10000 mod 10000 / 100)) as (l4 & E5 & H4);
    [lia|lia|assumption| |lia|].
  { rewrite RD. rewrite N.mod_mod by discriminate. change (v / 10000 mod 10000) with (v / 10000 mod (100 * 100)).
    rewrite (mod_div (v / 10000) 100 100) by discriminate. rewrite N.div_div by discriminate. reflexivity. }
  rewrite E5. cbn [bind]. exists l4. split; auto.
Qed.

(** After the significand is written its leading digit is at position 0, the other
    digits end at position [o]. *)
Lemma write_significand_ok : forall dbl v o, (1 <= o <= 17)%nat -> 10 ^ N.of_nat (o - 1) <= v -> v < 10 ^ N.of_nat o ->
  (dbl = false -> v < 2^32) ->
  exists l, write_significand dbl v (Z.of_nat o) (repeat 0 50) = Ok l /\ length l = 50%nat /\
    nth 0 l 0 = digit_at v (o - 1) /\ (forall k, (k < o - 1)%nat -> nth (o - k) l 0 = digit_at v k).
Proof.
  intros dbl v o HO LV HV FL. unfold write_significand.
  assert (H0 : holds v o 0 (repeat 0 50)) by (split; [reflexivity|intros; lia]).
  assert (P0 : v / 10 ^ N.of_nat 0 = v) by (change (10 ^ N.of_nat 0) with 1; apply N.div_1_r).
  assert (A : exists l i, (if dbl && negb (v / 2 ^ 32 =? 0) then '(l, q) <- cut8 (Z.of_nat o) v (repeat 0 50) ;; Ok (l, q, 8%Z)
      else Ok (repeat 0 50, v, 0%Z)) = Ok (l, v / 10 ^ N.of_nat i, Z.of_nat i) /\ holds v o i l /\
      0 < v / 10 ^ N.of_nat i /\ v / 10 ^ N.of_nat i < 2^32).
  { assert (V0 : 0 < v) by (pose proof (N.pow_nonzero 10 (N.of_nat (o - 1)) ltac:(lia)); lia).
    destruct (dbl && negb (v / 2 ^ 32 =? 0)) eqn:E.
    - assert (BIG : 2^32 <= v).
      { destruct (N.le_gt_cases (2^32) v); auto. rewrite N.div_small in E by auto. rewrite andb_false_r in E. discriminate. }
      change (2^32) with 4294967296 in *.
      assert (LO : (9 < o)%nat) by (apply (pow_lt_exp _ _ v); auto; change (10 ^ N.of_nat 9) with 1000000000; lia).
      destruct (cut8_ok v o (repeat 0 50)) as (l & E8 & H8); auto; try lia.
      exists l, 8%nat. rewrite E8. cbn [bind]. split; auto. split; auto. change (10 ^ N.of_nat 8) with 100000000. split.
      + assert (42 <= v / 100000000) by (apply N.div_le_lower_bound; lia). lia.
      + apply N.div_lt_upper_bound; [lia|]. assert (10 ^ N.of_nat o <= 10 ^ 17) by (apply N.pow_le_mono_r; lia).
        change (10 ^ 17) with 100000000000000000 in *. lia.
    - exists (repeat 0 50), O. rewrite P0. split; auto. split; auto. split; auto.
      apply andb_false_iff in E as [->|E]; auto. apply negb_false_iff, N.eqb_eq in E.
      apply N.div_small_iff in E; lia. }
  destruct A as (l1 & i1 & E1 & H1 & NZ1 & B1). rewrite E1. cbn [bind]. rewrite N.mod_small by auto.
  destruct (loop4_ok 4 v o i1 l1) as (l2 & i2 & E2 & H2 & B2 & _ & NZ2); [lia|assumption|assumption| |lia|].
  { eapply N.lt_trans; [exact B1|reflexivity]. }
  rewrite E2. cbn [bind]. assert (NZ : 0 < v / 10 ^ N.of_nat i2) by (destruct NZ2 as [<-|]; auto). clear NZ2 NZ1 B1 E1 E2 H1.
  assert (A : exists l i, (if 100 <=? v / 10 ^ N.of_nat i2 then
       l <- copy2 (2 * (v / 10 ^ N.of_nat i2 mod 100)) l2 (Z.of_nat o - Z.of_nat i2 - 1) ;; Ok (l, v / 10 ^ N.of_nat i2 / 100, (Z.of_nat i2 + 2)%Z)
     else Ok (l2, v / 10 ^ N.of_nat i2, Z.of_nat i2)) = Ok (l, v / 10 ^ N.of_nat i, Z.of_nat i) /\ holds v o i l /\
      0 < v / 10 ^ N.of_nat i /\ v / 10 ^ N.of_nat i < 100).
  { destruct (100 <=? v / 10 ^ N.of_nat i2) eqn:E.
    - assert (LO : (i2 + 2 < o)%nat) by (apply (digits_left v); auto; change (10 ^ N.of_nat 2) with 100; lia).
      destruct (copy_step v o i2 l2 (Z.of_nat o - Z.of_nat i2 - 1) (v / 10 ^ N.of_nat i2 mod 100)) as (l & EC & HC);
        [lia|lia|assumption|reflexivity|lia|].
      exists l, (i2 + 2)%nat. rewrite EC. cbn [bind]. rewrite <- div_pow_add. change (10 ^ N.of_nat 2) with 100.
      replace (Z.of_nat (i2 + 2)) with (Z.of_nat i2 + 2)%Z by lia. split; auto. split; auto. split.
      + assert (1 <= v / 10 ^ N.of_nat i2 / 100) by (apply N.div_le_lower_bound; lia). lia.
      + apply N.div_lt_upper_bound; lia.
    - exists l2, i2. split; auto. split; auto. split; auto. lia. }
  destruct A as (l3 & i3 & E3 & (L3 & H3) & NZ3 & B3). rewrite E3. cbn [bind]. clear NZ E3.
  set (x := v / 10 ^ N.of_nat i3) in *.
  destruct (10 <=? x) eqn:E10.
  - assert (LO : (i3 + 1 < o)%nat) by (apply (digits_left v); auto; change (10 ^ N.of_nat 1) with 10; fold x; lia).
    assert (HI : (o - 1 < i3 + 2)%nat).
    { apply (pow_lt_exp _ _ v); auto. apply N.lt_le_trans with ((x + 1) * 10 ^ N.of_nat i3).
      - pose proof (N.mul_succ_div_gt v (10 ^ N.of_nat i3) ltac:(apply N.pow_nonzero; lia)). fold x in H. lia.
      - rewrite Nat2N.inj_add, N.pow_add_r. change (10 ^ N.of_nat 2) with 100. rewrite (N.mul_comm (10 ^ _)). apply N.mul_le_mono_r. lia. }
    assert (EO : i3 = (o - 2)%nat) by lia.
    rewrite radix_units by auto. cbn [bind]. replace (Z.of_nat o - Z.of_nat i3)%Z with (Z.of_nat (o - i3)) by lia.
    rewrite wr_ok by lia. cbn [bind]. rewrite radix_tens by auto. cbn [bind]. change 0%Z with (Z.of_nat 0).
    rewrite wr_ok by (rewrite upd_length; lia). eexists. split; [reflexivity|]. split; [rewrite !upd_length; auto|]. split.
    + rewrite nth_upd_same by (rewrite upd_length; lia). unfold digit_at. replace (o - 1)%nat with (i3 + 1)%nat by lia.
      rewrite <- div_pow_add. fold x. change (10 ^ N.of_nat 1) with 10. rewrite (N.mod_small (x / 10)); [lia|].
      apply N.div_lt_upper_bound; lia.
    + intros k HK. rewrite nth_upd_other by lia. destruct (Nat.eq_dec k i3) as [->|NE].
      * rewrite nth_upd_same by lia. unfold digit_at. fold x. lia.
      * rewrite nth_upd_other by lia. apply H3. lia.
  - assert (LO : (i3 + 0 < o)%nat) by (apply (digits_left v); auto; change (10 ^ N.of_nat 0) with 1; fold x; lia).
    assert (HI : (o - 1 < i3 + 1)%nat).
    { apply (pow_lt_exp _ _ v); auto. apply N.lt_le_trans with ((x + 1) * 10 ^ N.of_nat i3).
      - pose proof (N.mul_succ_div_gt v (10 ^ N.of_nat i3) ltac:(apply N.pow_nonzero; lia)). fold x in H. lia.
      - rewrite Nat2N.inj_add, N.pow_add_r. change (10 ^ N.of_nat 1) with 10. rewrite (N.mul_comm (10 ^ _)). apply N.mul_le_mono_r. lia. }
    assert (EO : i3 = (o - 1)%nat) by lia. change 0%Z with (Z.of_nat 0).
    rewrite wr_ok by lia. eexists. split; [reflexivity|]. split; [rewrite upd_length; auto|]. split.
    + rewrite nth_upd_same by lia. unfold digit_at. rewrite <- EO. fold x. rewrite N.mod_small by lia. reflexivity.
    + intros k HK. rewrite nth_upd_other by lia. apply H3. lia.
Qed.

(** *** Writing at the end of what is there *)

Lemma wr_end : forall A b B c, wr (A ++ b :: B) (Z.of_nat (length A)) c = Ok ((A ++ [c]) ++ B).
Proof.
  intros. rewrite wr_ok by (rewrite app_length; cbn [length]; lia). rewrite upd_app, <- app_assoc. reflexivity.
Qed.

Lemma wr_end' : forall A B c pos, (0 < length B)%nat -> pos = Z.of_nat (length A) ->
  exists B', wr (A ++ B) pos c = Ok ((A ++ [c]) ++ B') /\ length B' = (length B - 1)%nat.
Proof.
  intros A B c pos HB ->. destruct B as [|b B]; [cbn in HB; lia|]. exists B. split; [apply wr_end|]. cbn [length]. lia.
Qed.

Lemma copy2_end : forall A B v pos, v < 100 -> (1 < length B)%nat -> pos = Z.of_nat (length A) ->
  exists B', copy2 (2 * v) (A ++ B) pos = Ok ((A ++ [v / 10 + 48; v mod 10 + 48]) ++ B') /\ length B' = (length B - 2)%nat.
Proof.
  intros A B v pos HV HB EP. unfold copy2. rewrite radix_tens, radix_units by auto. cbn [bind].
  destruct (wr_end' A B (v / 10 + 48) pos) as (B1 & E1 & L1); auto; try lia. rewrite E1. cbn [bind].
  destruct (wr_end' (A ++ [v / 10 + 48]) B1 (v mod 10 + 48) (pos + 1)) as (B2 & E2 & L2); try lia.
  { rewrite app_length. cbn [length]. lia. }
  rewrite E2, <- (app_assoc A). exists B2. split; [reflexivity|lia].
Qed.

Lemma dig48 : forall v, v < 10 -> is_dig (v + 48).
Proof. intros. unfold is_dig. lia. Qed.

Lemma div_lt10 : forall v m, m <> 0 -> v < m * 10 -> v / m < 10.
Proof. intros. apply N.div_lt_upper_bound; auto. Qed.

(** The exponent part: e, a minus sign if negative, the digits *)
Lemma write_exponent_ok : forall (dbl : bool) exp A B, (Z.abs exp < if dbl then 1000 else 100)%Z -> (4 < length B)%nat ->
  exists ds B', write_exponent dbl exp (A ++ B) (Z.of_nat (length A)) =
     Ok (((A ++ 101 :: (if (exp <? 0)%Z then [45] else []) ++ ds) ++ B')%list,
         Z.of_nat (length (A ++ 101 :: (if (exp <? 0)%Z then [45] else []) ++ ds))) /\
    digits ds /\ ds <> [] /\ dec_val ds = Z.to_N (Z.abs exp).
Proof.
  intros dbl exp A B HE HB. unfold write_exponent.
  destruct (wr_end' A B 101 (Z.of_nat (length A))) as (B1 & E1 & L1); auto; try lia. rewrite E1. cbn [bind].
  assert (S : exists sg B2, (if (exp <? 0)%Z
      then l <- wr ((A ++ [101]) ++ B1) (Z.of_nat (length A) + 1) c_minus ;; Ok (l, (Z.of_nat (length A) + 1 + 1)%Z, (- exp)%Z)
      else Ok ((A ++ [101]) ++ B1, (Z.of_nat (length A) + 1)%Z, exp)) =
      Ok (((A ++ 101 :: sg) ++ B2)%list, Z.of_nat (length (A ++ 101 :: sg)), Z.abs exp) /\ sg = (if (exp <? 0)%Z then [45] else []) /\ (2 < length B2)%nat).
  { destruct (exp <? 0)%Z eqn:E.
    - destruct (wr_end' (A ++ [101]) B1 c_minus (Z.of_nat (length A) + 1)) as (B2 & E2 & L2); try lia.
      { rewrite app_length. cbn [length]. lia. }
      exists [45], B2. rewrite E2. cbn [bind]. split; [|split; [auto|lia]].
      f_equal. f_equal; [f_equal|]; [| |lia].
      + rewrite <- (app_assoc A). reflexivity.
      + rewrite app_length. cbn [length]. lia.
    - exists [], B1. split; [|split; [auto|lia]]. f_equal. f_equal; [f_equal|]; [|lia].
      rewrite app_length. cbn [length]. lia. }
  destruct S as (sg & B2 & ES & Esg & L2). rewrite ES. cbn [bind]. rewrite <- Esg. clear ES E1 Esg.
  set (P := A ++ 101 :: sg). set (e := Z.to_N (Z.abs exp)).
  assert (AP : forall ds, A ++ 101 :: sg ++ ds = P ++ ds) by (intros; unfold P; rewrite <- app_assoc; reflexivity).
  assert (B1000 : e < 1000) by (destruct dbl; lia).
  destruct (dbl && (100 <=? e)) eqn:E100.
  - assert (E10 : e / 10 < 100) by (apply N.div_lt_upper_bound; lia).
    destruct (copy2_end P B2 (e / 10) (Z.of_nat (length P))) as (B3 & E3 & L3); auto; try lia. rewrite E3. cbn [bind].
    destruct (wr_end' (P ++ [e / 10 / 10 + 48; e / 10 mod 10 + 48]) B3 (c_0 + e mod 10) (Z.of_nat (length P) + 2)) as (B4 & E4 & L4); try lia.
    { rewrite app_length. cbn [length]. lia. }
    rewrite E4. cbn [bind]. exists ([e / 10 / 10 + 48; e / 10 mod 10 + 48; c_0 + e mod 10]), B4.
    rewrite AP. split; [|split; [|split]].
    + rewrite <- (app_assoc P). cbn [app]. repeat f_equal. rewrite app_length. cbn [length]. lia.
    + repeat (apply Forall_cons || apply Forall_nil); [apply dig48; apply div_lt10; lia|apply dig48; apply N.mod_lt; lia|].
      change (c_0 + e mod 10) with (48 + e mod 10). rewrite N.add_comm. apply dig48, N.mod_lt. lia.
    + discriminate.
    + unfold dec_val. cbn [dec_acc]. change c_0 with 48.
      pose proof (N.div_mod e 10 ltac:(lia)). pose proof (N.div_mod (e / 10) 10 ltac:(lia)). lia.
  - assert (B100 : e < 100) by (destruct dbl; cbn [andb] in E100; lia).
    destruct (10 <=? e) eqn:E10.
    + destruct (copy2_end P B2 e (Z.of_nat (length P))) as (B3 & E3 & L3); auto; try lia. rewrite E3. cbn [bind].
      exists [e / 10 + 48; e mod 10 + 48], B3. rewrite AP. split; [|split; [|split]].
      * repeat f_equal. rewrite app_length. cbn [length]. lia.
      * repeat (apply Forall_cons || apply Forall_nil); [apply dig48; apply div_lt10; lia|apply dig48; apply N.mod_lt; lia].
      * discriminate.
      * unfold dec_val. cbn [dec_acc]. pose proof (N.div_mod e 10 ltac:(lia)). lia.
    + destruct (wr_end' P B2 (c_0 + e) (Z.of_nat (length P))) as (B3 & E3 & L3); auto; try lia. rewrite E3. cbn [bind].
      exists [c_0 + e], B3. rewrite AP. split; [|split; [|split]].
      * repeat f_equal. rewrite app_length. cbn [length]. lia.
      * repeat (apply Forall_cons || apply Forall_nil). change (c_0 + e) with (48 + e). rewrite N.add_comm. apply dig48. lia.
      * discriminate.
      * unfold dec_val. cbn [dec_acc]. change c_0 with 48. lia.
Qed.

(** The whole scientific text *)
Lemma scientific_ok : forall (dbl : bool) v exp o, (1 <= o <= 17)%nat -> 10 ^ N.of_nat (o - 1) <= v -> v < 10 ^ N.of_nat o ->
  (dbl = false -> v < 2^32) -> (Z.abs (exp + Z.of_nat o - 1) < if dbl then 1000 else 100)%Z ->
  exists ds, to_chars_scientific dbl v exp (N.of_nat o) =
      Ok ([digit_at v (o - 1)] ++ (match o with 1%nat => [] | _ => 46 :: low_digits v (o - 1) end) ++
          101 :: (if (exp + Z.of_nat o - 1 <? 0)%Z then [45] else []) ++ ds) /\
    digits ds /\ ds <> [] /\ dec_val ds = Z.to_N (Z.abs (exp + Z.of_nat o - 1)).
Proof.
  intros dbl v exp o HO LV HV FL HE. unfold to_chars_scientific. replace (Z.of_N (N.of_nat o)) with (Z.of_nat o) by lia.
  destruct (write_significand_ok dbl v o HO LV HV FL) as (l & E1 & L1 & H0 & HD). rewrite E1. cbn [bind].
  assert (S : exists B, (if 1 <? N.of_nat o then l <- wr l 1 c_dot ;; Ok (l, (Z.of_nat o + 1)%Z) else Ok (l, 1%Z)) =
     Ok ((([digit_at v (o - 1)] ++ (match o with 1%nat => [] | _ => 46 :: low_digits v (o - 1) end)) ++ B)%list,
         Z.of_nat (length ([digit_at v (o - 1)] ++ (match o with 1%nat => [] | _ => 46 :: low_digits v (o - 1) end)))) /\
     (4 < length B)%nat).
  { destruct (1 <? N.of_nat o) eqn:E.
    - change 1%Z with (Z.of_nat 1). rewrite wr_ok by lia. cbn [bind].
      replace (match o with 1%nat => [] | _ => 46 :: low_digits v (o - 1) end) with (46 :: low_digits v (o - 1)) by (destruct o as [|[|]]; auto; lia).
      exists (skipn (o + 1) (upd l 1 c_dot)). split; [|rewrite skipn_length, upd_length; lia].
      f_equal. f_equal; [|cbn [app length]; rewrite low_digits_length; lia].
      rewrite <- (firstn_skipn (o + 1) (upd l 1 c_dot)) at 1. f_equal.
      apply (nth_ext _ _ 0 0).
      + rewrite firstn_length, upd_length. cbn [app length]. rewrite low_digits_length. lia.
      + intros n Hn. rewrite firstn_length, upd_length in Hn.
        assert (NF : forall A (q : list A) d a b, (b < a)%nat -> nth b (firstn a q) d = nth b q d).
        { clear. induction q as [|y q IHq]; intros d a b H; destruct a, b; cbn; auto; try lia. apply IHq. lia. }
        rewrite NF by lia. destruct n as [|[|n]].
        * rewrite nth_upd_other by lia. exact H0.
        * rewrite nth_upd_same by lia. reflexivity.
        * rewrite nth_upd_other by lia. cbn [app nth]. rewrite low_digits_nth by lia.
          replace (S (S n)) with (o - (o - 1 - 1 - n))%nat by lia. apply HD. lia.
    - assert (o = 1%nat) as -> by lia. exists (skipn 1 l). split; [|rewrite skipn_length; lia].
      f_equal. f_equal. destruct l as [|x l]; [cbn in L1; lia|]. cbn [nth] in H0. rewrite H0. reflexivity. }
  destruct S as (B & ES & LB). rewrite ES. cbn [bind].
  destruct (write_exponent_ok dbl (exp + Z.of_nat o - 1) ([digit_at v (o - 1)] ++ (match o with 1%nat => [] | _ => 46 :: low_digits v (o - 1) end)) B HE LB) as (ds & B' & EE & D1 & D2 & D3).
  rewrite EE. cbn [bind]. exists ds. split; auto. f_equal. rewrite Nat2Z.id, firstn_app, Nat.sub_diag, firstn_O, app_nil_r.
  rewrite firstn_all. cbn [app]. rewrite <- ?app_assoc. reflexivity.
Qed.

Lemma decimal_length_ok : forall (dbl : bool) v, 0 < v -> v < (if dbl then 10 ^ 17 else 10 ^ 9) ->
  exists o, decimal_length dbl v = N.of_nat o /\ (1 <= o <= 17)%nat /\ 10 ^ N.of_nat (o - 1) <= v /\ v < 10 ^ N.of_nat o.
Proof.
  intros dbl v V0 HV. exists (N.to_nat (decimal_length dbl v)). rewrite N2Nat.id. split; auto.
  assert (forall n, n <> 0 -> N.of_nat (N.to_nat n - 1) = n - 1) as EN by lia.
  assert (decimal_length dbl v <> 0 /\ decimal_length dbl v <= 17 /\ 10 ^ (decimal_length dbl v - 1) <= v /\ v < 10 ^ decimal_length dbl v) as (A & B & C & D).
  { unfold decimal_length. change (10 ^ 17) with 100000000000000000 in HV. change (10 ^ 9) with 1000000000 in HV.
    destruct dbl; cbn [app length_from];
    repeat match goal with |- context [if ?t <=? v then _ else _] => destruct (t <=? v) eqn:?E; [repeat split; try lia; rewrite ?N.ltb_lt; vm_compute N.pow; lia|] end;
    repeat split; try lia; vm_compute N.pow; lia. }
  rewrite EN by auto. repeat split; auto; lia.
Qed.
