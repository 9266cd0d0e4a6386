(** Proofs about timestamp text (see DateModel). *)
From Coq Require Import String.
From Coq Require Import List NArith ZArith Bool Arith Lia ZifyBool ZifyNat ZifyN.
From Verif Require Import Base Mem SpecNum PolicyModel IntModel IntProofs IntSerModel PropertiesInt
  SpecDate DateModel DateProofs PropertiesDate.
Import ListNotations.
Local Open Scope Z_scope.
Ltac Zify.zify_post_hook ::= Z.to_euclidean_division_equations.

Lemma v_find_hit : forall (f : N -> bool) (buf : list N) t c off len,
  sub_at buf off (t ++ [c]) -> Forall (fun b => f b = false) t -> f c = true ->
  (length t < len)%nat -> v_find f buf off len = Ok (length t).
Proof.
  intros f buf t. induction t as [|b t IH]; intros c off len S F Hc Hl.
  - destruct len; [cbn in Hl; lia|]. cbn [v_find]. destruct S as [S _].
    rewrite (rd_some _ _ _ S). cbn [bind]. rewrite Hc. reflexivity.
  - destruct len; [cbn in Hl; lia|]. cbn [v_find]. destruct S as [S S2].
    inversion F; subst. rewrite (rd_some _ _ _ S). cbn [bind]. rewrite H1.
    rewrite (IH c); auto. cbn in Hl. lia.
Qed.

Definition two (x : Z) (a b : N) : Prop :=
  is_dig a /\ is_dig b /\ x = Z.of_N ((a - 48) * 10 + (b - 48)).

Lemma two_digits_ok : forall (buf : list N) off len x a b,
  nth_error buf off = Some a -> nth_error buf (S off) = Some b -> two x a b ->
  two_digits buf (mksv off len) = Ok x.
Proof.
  intros buf off len x a b Ha Hb (Da & Db & E). unfold two_digits. cbn [v_off parse_unsigned_n].
  rewrite (rd_some _ _ _ Ha). cbn [bind]. rewrite (parse_digit_dig a Da).
  unfold is_dig in Da, Db.
  replace (10 <=? a - 48)%N with false by lia.
  rewrite (rd_some _ _ _ Hb). cbn [bind]. rewrite (parse_digit_dig b Db).
  replace (10 <=? b - 48)%N with false by lia. cbn [bind]. f_equal. lia.
Qed.

Definition out2_row (x : nat) : bool :=
  match out2 (Z.of_nat x) with
  | Ok [a; b] => is_digb a && is_digb b && (Z.of_nat x =? Z.of_N ((a - 48) * 10 + (b - 48)))
  | _ => false
  end.
Lemma out2_rows : forallb out2_row (seq 0 100) = true.
Proof. vm_compute. reflexivity. Qed.
Lemma out2_ok : forall x, 0 <= x < 100 -> exists a b, out2 x = Ok [a; b] /\ two x a b.
Proof.
  intros x H. pose proof (proj1 (forallb_forall _ _) out2_rows (Z.to_nat x)) as R.
  specialize (R ltac:(apply in_seq; lia)). unfold out2_row in R.
  rewrite Z2Nat.id in R by lia. destruct (out2 x) as [[|a [|b [|]]]| | | ]; try discriminate.
  exists a, b. split; [reflexivity|]. apply andb_true_iff in R. destruct R as [R R3].
  apply andb_true_iff in R. destruct R as [R1 R2].
  split; [now apply is_digb_spec|]. split; [now apply is_digb_spec|]. lia.
Qed.

Lemma dig_is_num : forall b, is_dig b -> is_num b = true.
Proof. intros b H. unfold is_num. rewrite parse_digit_dig by exact H. unfold is_dig in H. lia. Qed.

Lemma parse_number_loop_ok : forall (chk : Z -> res Z) lim t (buf : list N) off acc,
  (forall x, 0 <= x <= lim -> chk x = Ok x) ->
  digits t -> sub_at buf off t -> 0 <= acc -> Z.of_N (dec_acc (Z.to_N acc) t) <= lim ->
  parse_number_loop chk (length t) buf off acc = Ok (Z.of_N (dec_acc (Z.to_N acc) t)).
Proof.
  intros chk lim t. induction t as [|d t IH]; intros buf off acc C D S Ha L.
  - cbn. f_equal. lia.
  - cbn [length parse_number_loop]. destruct S as [S1 S2]. inversion D as [|? ? Dd D']; subst.
    rewrite (rd_some _ _ _ S1). cbn [bind]. rewrite (parse_digit_dig d Dd).
    unfold is_dig in Dd.
    assert (G : (Z.of_N (dec_acc (Z.to_N acc) (d :: t)) >= acc * 10 + Z.of_N (d - 48))).
    { cbn [dec_acc]. rewrite dec_acc_lin.
      assert (1 <= 10 ^ N.of_nat (length t))%N by (apply N.lt_pred_le; cbn; apply N.neq_0_lt_0, N.pow_nonzero; lia).
      set (q := (10 ^ N.of_nat (length t))%N) in *. clearbody q. nia. }
    replace (d - 48 <? 10)%N with true by lia. cbn [ensure bind].
    rewrite C by lia. cbn [bind]. rewrite C by lia. cbn [bind].
    cbn [dec_acc] in *.
    replace (Z.to_N acc * 10 + (d - 48))%N with (Z.to_N (acc * 10 + Z.of_N (d - 48))) in * by lia.
    apply IH; auto. lia.
Qed.

Lemma parse_number_ok : forall sgn (chk : Z -> res Z) lim t (buf : list N) off,
  (forall x, 0 <= x <= lim -> chk x = Ok x) ->
  digits t -> t <> [] -> sub_at buf off t -> Z.of_N (dec_val t) <= lim ->
  parse_number sgn chk buf (mksv off (length t)) = Ok (Z.of_N (dec_val t)).
Proof.
  intros sgn chk lim t buf off C D Hne S L. unfold parse_number. cbn [v_len].
  destruct t as [|d t]; [congruence|]. cbn [length Nat.eqb negb ensure bind].
  unfold v_front. cbn [v_len v_off Nat.eqb]. pose proof S as S'. destruct S as [S1 S2].
  rewrite (rd_some _ _ _ S1). cbn [bind]. inversion D as [|? ? Dd D']; subst. unfold is_dig in Dd.
  replace (d =? c_minus)%N with false by (unfold c_minus; lia).
  replace (d =? c_plus)%N with false by (unfold c_plus; lia). cbn [bind v_len v_off].
  change (S (length t)) with (length (d :: t)).
  rewrite (parse_number_loop_ok chk lim); auto; [|lia].
  cbn [bind]. change (Z.to_N 0) with 0%N. fold (dec_val (d :: t)).
  rewrite Z.mul_1_r. apply C. split; [lia|exact L].
Qed.

Lemma i32_chk : forall x, 0 <= x <= 2 ^ 31 - 1 -> i32 x = Ok x.
Proof. intros. apply i32_ok. lia. Qed.
Lemma wrap64_chk : forall x, 0 <= x <= 2 ^ 64 - 1 -> wrap64 x = Ok x.
Proof. intros. unfold wrap64, to_u64. rewrite Z.mod_small by lia. reflexivity. Qed.

(** date text: year, month, day *)
Lemma parse_date_ok : forall (buf : list N) off Y m1 m2 d1 d2 m d,
  sub_at buf off (Y ++ [45; m1; m2; 45; d1; d2]%N) ->
  digits Y -> Y <> [] -> Z.of_N (dec_val Y) < 2 ^ 31 ->
  two m m1 m2 -> two d d1 d2 -> 1 <= m <= 12 -> 1 <= d <= 31 ->
  parse_iso_8601_date buf (mksv off (length Y + 6)) = Ok (Z.of_N (dec_val Y), m, d).
Proof.
  intros buf off Y m1 m2 d1 d2 m d S DY NY LY Tm Td Hm Hd.
  apply sub_at_app in S. destruct S as [SY S]. cbn [sub_at] in S.
  destruct S as (S0 & S1 & S2 & S3 & S4 & S5 & _).
  unfold parse_iso_8601_date, v_pop_back. cbn [v_off v_len].
  replace (Nat.min 2 (length Y + 6)) with 2%nat by lia.
  replace (off + (length Y + 6) - 2)%nat with (S (S (S (S (off + length Y))))) by lia.
  rewrite (two_digits_ok _ _ _ d d1 d2 S4 S5 Td). cbn [bind].
  replace ((1 <=? d) && (d <=? 31)) with true by lia. cbn [ensure bind].
  unfold v_back, v_remove_suffix. cbn [v_len v_off].
  replace (length Y + 6 - 2 =? 0)%nat with false by lia.
  replace (off + (length Y + 6 - 2) - 1)%nat with (S (S (S (off + length Y)))) by lia.
  rewrite (rd_some _ _ _ S3). cbn [bind]. change (is_num 45) with false. cbn [bind v_len v_off].
  replace (Nat.min 2 (length Y + 6 - 2 - 1)) with 2%nat by lia.
  replace (off + (length Y + 6 - 2 - 1) - 2)%nat with (S (off + length Y)) by lia.
  rewrite (two_digits_ok _ _ _ m m1 m2 S1 S2 Tm). cbn [bind].
  replace ((1 <=? m) && (m <=? 12)) with true by lia. cbn [ensure bind v_len v_off].
  replace (length Y + 6 - 2 - 1 - 2 =? 0)%nat with false by lia.
  replace (off + (length Y + 6 - 2 - 1 - 2) - 1)%nat with (off + length Y)%nat by lia.
  rewrite (rd_some _ _ _ S0). cbn [bind]. change (is_num 45) with false. cbn [bind v_len v_off].
  replace (length Y + 6 - 2 - 1 - 2 - 1)%nat with (length Y) by lia.
  rewrite (parse_number_ok true i32 (2 ^ 31 - 1) Y); auto; [exact i32_chk|lia].
Qed.

(** the fraction: empty, or a point and digits *)
Definition frac_text (fr : list N) (ns : Z) : Prop :=
  (fr = [] /\ ns = 0) \/
  (exists t, fr = c_dot :: t /\ digits t /\ (1 <= length t <= 9)%nat /\
     ns = Z.of_N (dec_val t) * 10 ^ Z.of_nat (9 - length t)).

Lemma parse_time_ok : forall (buf : list N) off h1 h2 n1 n2 s1 s2 fr h mn s ns,
  sub_at buf off ([h1; h2; 58; n1; n2; 58; s1; s2]%N ++ fr) ->
  two h h1 h2 -> two mn n1 n2 -> two s s1 s2 -> 0 <= h <= 24 -> 0 <= mn <= 59 -> 0 <= s <= 60 ->
  frac_text fr ns ->
  parse_iso_8601_time buf (mksv off (8 + length fr)) = Ok (h, mn, s, ns).
Proof.
  intros buf off h1 h2 n1 n2 s1 s2 fr h mn s ns S Th Tm Ts Hh Hm Hs F.
  cbn [app sub_at] in S. destruct S as (S0 & S1 & S2 & S3 & S4 & S5 & S6 & S7 & SF).
  unfold parse_iso_8601_time, v_pop_front. cbn [v_off v_len].
  replace (Nat.min 2 (8 + length fr)) with 2%nat by lia.
  rewrite (two_digits_ok _ _ _ h h1 h2 S0 S1 Th). cbn [bind].
  replace (h <=? 24) with true by lia. cbn [ensure bind].
  unfold v_front, v_remove_prefix. cbn [v_len v_off].
  replace (8 + length fr - 2 =? 0)%nat with false by lia.
  replace (off + 2)%nat with (Datatypes.S (Datatypes.S off)) by lia.
  rewrite (rd_some _ _ _ S2). cbn [bind]. change (is_num 58) with false. cbn [bind v_len v_off].
  replace (Nat.min 2 (8 + length fr - 2 - 1)) with 2%nat by lia.
  rewrite (two_digits_ok _ _ _ mn n1 n2 S3 S4 Tm). cbn [bind].
  replace (mn <=? 59) with true by lia. cbn [ensure bind v_len v_off].
  replace (8 + length fr - 2 - 1 - 2 =? 0)%nat with false by lia.
  replace (Datatypes.S (Datatypes.S (Datatypes.S off)) + 2)%nat
    with (Datatypes.S (Datatypes.S (Datatypes.S (Datatypes.S (Datatypes.S off))))) by lia.
  rewrite (rd_some _ _ _ S5). cbn [bind]. change (is_num 58) with false. cbn [bind v_len v_off].
  replace (Nat.min 2 (8 + length fr - 2 - 1 - 2 - 1)) with 2%nat by lia.
  rewrite (two_digits_ok _ _ _ s s1 s2 S6 S7 Ts). cbn [bind].
  replace (s <=? 60) with true by lia. cbn [ensure bind v_len v_off].
  replace (8 + length fr - 2 - 1 - 2 - 1 - 2)%nat with (length fr) by lia.
  destruct F as [[-> ->]|(t & -> & Dt & Lt & ->)].
  - reflexivity.
  - cbn [length Nat.eqb]. cbn [sub_at] in SF. destruct SF as [SF0 SF].
    match goal with |- context [rd buf ?i] => replace i with
      (Datatypes.S (Datatypes.S (Datatypes.S (Datatypes.S (Datatypes.S (Datatypes.S (Datatypes.S (Datatypes.S off)))))))) by lia end.
    rewrite (rd_some _ _ _ SF0). cbn [bind]. change (is_num c_dot) with false. cbn [bind v_len v_off].
    replace (Datatypes.S (length t) - 1)%nat with (length t) by lia.
    replace (Nat.min (length t) 9) with (length t) by lia.
    match goal with |- context [mksv (Datatypes.S ?i) _] => replace i with
      (Datatypes.S (Datatypes.S (Datatypes.S (Datatypes.S (Datatypes.S (Datatypes.S (Datatypes.S (Datatypes.S off)))))))) by lia end.
    pose proof (dec_val_lt t Dt) as B.
    assert (B2 : (10 ^ N.of_nat (length t) <= 10 ^ 9)%N) by (apply N.pow_le_mono_r; lia).
    rewrite (parse_number_ok false wrap64 (2 ^ 64 - 1) t); auto.
    + cbn [bind]. replace (length t <=? 9)%nat with true by lia.
      unfold to_u64. rewrite Z.mod_small; [reflexivity|].
      assert (B3 : 0 < 10 ^ Z.of_nat (9 - length t) <= 10 ^ 9).
      { split; [apply Z.pow_pos_nonneg; lia|apply Z.pow_le_mono_r; lia]. }
      set (p := 10 ^ Z.of_nat (9 - length t)) in *. clearbody p.
      assert (Z.of_N (dec_val t) < 10 ^ 9) by (change (10 ^ 9) with (Z.of_N (10 ^ 9)); lia).
      split; [nia|]. change (2 ^ 64) with 18446744073709551616.
      change (10 ^ 9) with 1000000000 in *. nia.
    + exact wrap64_chk.
    + intros ->. cbn in Lt. lia.
    + change (10 ^ 9)%N with 1000000000%N in B2. lia.
Qed.

(** a whole UTC timestamp *)
Lemma parse_utc_ok : forall drop (buf : list N) off Y m1 m2 d1 d2 h1 h2 n1 n2 s1 s2 fr m d h mn s ns tp,
  sub_at buf off (Y ++ [45; m1; m2; 45; d1; d2; 84; h1; h2; 58; n1; n2; 58; s1; s2]%N ++ fr ++ [90]%N) ->
  digits Y -> Y <> [] -> Z.of_N (dec_val Y) < 2 ^ 31 ->
  two m m1 m2 -> two d d1 d2 -> two h h1 h2 -> two mn n1 n2 -> two s s1 s2 ->
  1 <= m <= 12 -> 1 <= d <= 31 -> 0 <= h <= 24 -> 0 <= mn <= 59 -> 0 <= s <= 60 ->
  frac_text fr ns ->
  civil_to_time_point (Z.of_N (dec_val Y)) m d h mn s ns = tp ->
  parse_iso8601_timestamp drop buf (mksv off (length Y + 15 + length fr + 1)) = tp.
Proof.
  intros drop buf off Y m1 m2 d1 d2 h1 h2 n1 n2 s1 s2 fr m d h mn s ns tp
    S DY NY LY Tm Td Th Tn Ts Hm Hd Hh Hn Hs F <-.
  assert (SD : sub_at buf off (Y ++ [45; m1; m2; 45; d1; d2]%N)).
  { apply sub_at_app in S. destruct S as [SY S]. apply sub_at_app. split; [exact SY|].
    cbn [app sub_at] in S |- *. tauto. }
  assert (ST : sub_at buf (off + (length Y + 7)) ([h1; h2; 58; n1; n2; 58; s1; s2]%N ++ fr)).
  { apply sub_at_app in S. destruct S as [_ S].
    replace (off + (length Y + 7))%nat with (off + length Y + 7)%nat by lia.
    assert (E : ([45; m1; m2; 45; d1; d2; 84; h1; h2; 58; n1; n2; 58; s1; s2]%N ++ fr ++ [90]%N) =
      [45; m1; m2; 45; d1; d2; 84]%N ++ (([h1; h2; 58; n1; n2; 58; s1; s2]%N ++ fr) ++ [90]%N))
      by (cbn [app]; reflexivity).
    rewrite E in S. apply sub_at_app in S. destruct S as [_ S]. apply sub_at_app in S. apply S. }
  assert (SZ : sub_at buf (off + (length Y + 7)) (([h1; h2; 58; n1; n2; 58; s1; s2]%N ++ fr) ++ [90%N])).
  { apply sub_at_app in S. destruct S as [_ S].
    replace (off + (length Y + 7))%nat with (off + length Y + 7)%nat by lia.
    assert (E : ([45; m1; m2; 45; d1; d2; 84; h1; h2; 58; n1; n2; 58; s1; s2]%N ++ fr ++ [90]%N) =
      [45; m1; m2; 45; d1; d2; 84]%N ++ (([h1; h2; 58; n1; n2; 58; s1; s2]%N ++ fr) ++ [90]%N))
      by (cbn [app]; reflexivity).
    rewrite E in S. apply sub_at_app in S. apply S. }
  assert (ST84 : sub_at buf off ((Y ++ [45; m1; m2; 45; d1; d2]%N) ++ [84%N])).
  { rewrite <- app_assoc. apply sub_at_app in S. destruct S as [SY S]. apply sub_at_app. split; [exact SY|].
    cbn [app sub_at] in S |- *. tauto. }
  clear S.
  pose proof (fun x a b (T : two x a b) => proj1 T) as P1.
  pose proof (fun x a b (T : two x a b) => proj1 (proj2 T)) as P2.
  unfold parse_iso8601_timestamp, v_pop_until at 1. cbn [v_off v_len].
  rewrite (v_find_hit _ buf (Y ++ [45; m1; m2; 45; d1; d2]%N) 84%N); auto.
  2:{ apply Forall_app. split.
      - eapply Forall_impl; [|exact DY]. intros b Hb. unfold is_dig in Hb. cbn beta. lia.
      - pose proof (P1 _ _ _ Tm). pose proof (P2 _ _ _ Tm). pose proof (P1 _ _ _ Td). pose proof (P2 _ _ _ Td).
        unfold is_dig in *. repeat constructor; lia. }
  2:{ rewrite app_length. cbn [length]. lia. }
  rewrite app_length. cbn [length bind andb].
  replace (length Y + 6 <? length Y + 15 + length fr + 1)%nat with true by lia. cbn [v_len v_off bind].
  replace (length Y + 15 + length fr + 1 - Datatypes.S (length Y + 6))%nat with (9 + length fr)%nat by lia.
  cbn [Nat.add Nat.eqb].
  rewrite (parse_date_ok buf off Y m1 m2 d1 d2 m d SD); auto. cbn [bind].
  unfold v_pop_until. cbn [v_off v_len].
  replace (off + Datatypes.S (length Y + 6))%nat with (off + (length Y + 7))%nat by lia.
  rewrite (v_find_hit _ buf ([h1; h2; 58; n1; n2; 58; s1; s2]%N ++ fr) 90%N); auto.
  2:{ apply Forall_app. split.
      - repeat (apply Forall_cons; [first [reflexivity | rewrite dig_is_num; [reflexivity|eauto]]|]).
        apply Forall_nil.
      - destruct F as [[-> _]|(t & -> & Dt & _)]; [constructor|].
        constructor; [reflexivity|]. eapply Forall_impl; [|exact Dt].
        intros b Hb. rewrite (dig_is_num b Hb). reflexivity. }
  rewrite app_length. cbn [length bind].
  change (8 + length fr)%nat with (8 + length fr)%nat.
  assert (Etime : parse_iso_8601_time buf (mksv (off + (length Y + 7)) (8 + length fr)) = Ok (h, mn, s, ns))
    by (eapply parse_time_ok; eauto).
  cbn [Nat.add] in Etime |- *.
  rewrite Etime. cbn [bind v_len v_off].
  assert (SZ90 : nth_error buf (off + (length Y + 7) + (8 + length fr)) = Some 90%N).
  { apply sub_at_app in SZ. destruct SZ as [_ SZ]. rewrite app_length in SZ. cbn [length] in SZ. apply SZ. }
  replace (Datatypes.S (Datatypes.S (Datatypes.S (Datatypes.S (Datatypes.S (Datatypes.S (Datatypes.S (Datatypes.S (length fr)))))))) <?
    Datatypes.S (Datatypes.S (Datatypes.S (Datatypes.S (Datatypes.S (Datatypes.S (Datatypes.S (Datatypes.S (Datatypes.S (length fr))))))))))%nat with true by lia.
  destruct drop; cbn [andb].
  - rewrite Nat.sub_diag. cbn [Nat.eqb bind]. reflexivity.
  - match goal with |- context [(?a - ?b =? 0)%nat] => replace (a - b)%nat with 1%nat by lia end.
    cbn [Nat.eqb]. unfold v_front. cbn [v_len v_off Nat.eqb].
    cbn [Nat.add] in SZ90. rewrite (rd_some _ _ _ SZ90). reflexivity.
Qed.
