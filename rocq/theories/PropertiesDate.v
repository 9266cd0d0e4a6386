(** C43 (timestamp round trip), C44 (calendar conversion), C45 (UTC offsets),
    C46 (impossible dates), C47 (day of the week). *)
From Coq Require Import String.
From Coq Require Import List NArith ZArith Bool Arith Lia ZifyBool ZifyNat ZifyN.
From Verif Require Import Base Mem SpecNum PolicyModel IntModel IntProofs IntSerModel PropertiesInt
  SpecDate DateModel DateProofs.
Import ListNotations.
Local Open Scope Z_scope.
Ltac Zify.zify_post_hook ::= Z.to_euclidean_division_equations.

(** ** C44 *)

(** The day count is the number of days, counted one by one from 1970-01-01. *)
Theorem C44_days_of_date : forall y m d k,
  valid_date y m d -> - 2 ^ 31 + 400 <= y < 2 ^ 31 ->
  (civil_to_days y m d = Ok k <-> day_no (y, m, d) k).
Proof.
  intros y m d k V Hy. rewrite (day_no_iff y m d k V).
  rewrite civil_to_days_ok.
  - split; [now intros [= ->]|now intros ->].
  - exact Hy.
  - apply V.
  - destruct V as [Hm Hd]. unfold month_len in Hd.
    destruct (m =? 2); [destruct (leap y)|destruct (_ || _)]; lia.
Qed.

(** Every day has exactly one date and every date exactly one number. *)
Theorem C44_calendar_bijection :
  (forall k, exists y m d, valid_date y m d /\ day_no (y, m, d) k) /\
  (forall y m d, valid_date y m d -> exists k, day_no (y, m, d) k) /\
  (forall t k k', day_no t k -> day_no t k' -> k = k') /\
  (forall t t' k, day_no t k -> day_no t' k -> t = t').
Proof.
  split; [|split; [|split]].
  - intro k. pose proof (cfd_facts k) as F. pose proof (day_no_cfd k) as D.
    destruct (cfd k) as [[y m] d]. exists y, m, d. split; [apply F|exact D].
  - intros y m d V. exists (dfc y m d). now apply day_no_iff.
  - intros [[y m] d] k k' H H'. apply day_no_valid in H, H'. destruct H, H'. congruence.
  - intros [[y m] d] [[y' m'] d'] k H H'. apply day_no_valid in H, H'.
    destruct H as [V E], H' as [V' E']. rewrite <- (cfd_dfc _ _ _ V), <- (cfd_dfc _ _ _ V'). congruence.
Qed.

Lemma dfc_year : forall y m d k, valid_date y m d -> dfc y m d = k ->
  - 2 ^ 31 <= k < 2 ^ 31 -> - 2 ^ 31 + 400 <= y < 2 ^ 31.
Proof.
  intros y m d k [Hm Hd] E Hk. unfold dfc in E.
  assert (Hd31 : 1 <= d <= 31).
  { unfold month_len in Hd. destruct (m =? 2); [destruct (leap y)|destruct (_ || _)]; lia. }
  assert (Hmo : 0 <= moff m <= 337) by (clear -Hm; unfold moff; destruct (2 <? m) eqn:?; lia).
  set (q := moff m) in *. clearbody q. clear Hd.
  assert (H1 : y - 1 <= y - (if m <=? 2 then 1 else 0) <= y) by (destruct (m <=? 2); lia).
  set (y' := y - (if m <=? 2 then 1 else 0)) in *. clearbody y'.
  unfold before_year in E. lia.
Qed.

(** Date and time of day to time point (milliseconds since 1970-01-01), for
    every date whose day number [k] fits the 32-bit day count. *)
Theorem C44_to_time_point : forall y m d h mn s ns k,
  valid_date y m d -> valid_time h mn s -> 0 <= ns < 1000000000 ->
  day_no (y, m, d) k -> - 2 ^ 31 <= k < 2 ^ 31 ->
  civil_to_time_point y m d h mn s ns =
  Ok ((((k * 24 + h) * 60 + mn) * 60 + s) * 1000 + ns / 1000000).
Proof.
  intros y m d h mn s ns k V [Hh [Hmn Hs]] Hns D Hk.
  unfold civil_to_time_point.
  pose proof (proj1 (day_no_iff y m d k V) D) as E.
  pose proof (dfc_year y m d k V E Hk) as Hy.
  rewrite (proj2 (C44_days_of_date y m d k V Hy) D). cbn [bind].
  unfold to_i32, to_u32.
  rewrite !(Z.mod_small) by lia. f_equal. lia.
Qed.

(** A year so large that the day number does not fit is silently taken for
    another one. *)
Theorem C44_huge_year_refuted : exists y tp,
  civil_to_time_point y 1 1 0 0 0 0 = Ok tp /\ 1970 < y /\ tp < 0.
Proof. exists 6000000. eexists. split; [vm_compute; reflexivity|]. split; reflexivity. Qed.

(** Back: the date and time of day of any non-negative time point. *)
Theorem C44_from_time_point : forall tp, 0 <= tp < 86400000 * (2 ^ 31 - 719468) ->
  exists y m d h mn s ms k,
    time_point_to_civil tp = Ok (mkc y m d h mn s (ms * 1000000)) /\
    valid_date y m d /\ day_no (y, m, d) k /\ valid_time h mn s /\ 0 <= ms < 1000 /\
    tp = (((k * 24 + h) * 60 + mn) * 60 + s) * 1000 + ms.
Proof.
  intros tp H.
  set (k := tp / 86400000). set (r := tp mod 86400000).
  assert (Hk : 0 <= k < 2 ^ 31 - 719468) by (unfold k; lia).
  assert (Hr : 0 <= r < 86400000) by (unfold r; lia).
  assert (Et : tp = k * 86400000 + r) by (unfold k, r; lia).
  clearbody k r. subst tp. clear H.
  pose proof (cfd_facts k) as F. pose proof (day_no_cfd k) as D.
  unfold time_point_to_civil.
  replace (Z.quot (k * 86400000 + r) 86400000) with k by lia.
  assert (Ek : to_i32 k = k) by (unfold to_i32; rewrite Z.mod_small; lia). rewrite Ek.
  rewrite days_to_civil_ok by lia. cbn [bind].
  destruct (cfd k) as [[y m] d]. destruct F as [V _].
  replace (k * 86400000 + r - k * 86400000) with r by lia.
  rewrite ?Z.quot_div_nonneg by lia.
  set (h := r / 3600000). assert (Hh : 0 <= h < 24 /\ 0 <= r - h * 3600000 < 3600000) by (unfold h; lia).
  set (r1 := r - h * 3600000) in *. assert (E1 : r = h * 3600000 + r1) by lia. clearbody h.
  clearbody r1. subst r.
  rewrite ?Z.quot_div_nonneg by lia.
  set (mn := r1 / 60000). assert (Hm : 0 <= mn < 60 /\ 0 <= r1 - mn * 60000 < 60000) by (unfold mn; lia).
  set (r2 := r1 - mn * 60000) in *. assert (E2 : r1 = mn * 60000 + r2) by lia.
  clearbody mn. clearbody r2. subst r1.
  rewrite ?Z.quot_div_nonneg by lia.
  set (s := r2 / 1000). assert (Hs : 0 <= s < 60 /\ 0 <= r2 - s * 1000 < 1000) by (unfold s; lia).
  set (ms := r2 - s * 1000) in *. assert (E3 : r2 = s * 1000 + ms) by lia.
  clearbody s. clearbody ms. subst r2.
  exists y, m, d, h, mn, s, ms, k.
  split; [|split; [exact V|split; [exact D|split; [unfold valid_time; lia|split; lia]]]].
  unfold to_u32, to_u64. rewrite !Z.mod_small by lia. reflexivity.
Qed.

(** To a time point and back. *)
Theorem C44_round_trip : forall y m d h mn s ms k,
  valid_date y m d -> valid_time h mn s -> 0 <= ms < 1000 ->
  day_no (y, m, d) k -> 0 <= k < 2 ^ 31 - 719468 ->
  exists tp, civil_to_time_point y m d h mn s (ms * 1000000) = Ok tp /\
    time_point_to_civil tp = Ok (mkc y m d h mn s (ms * 1000000)).
Proof.
  intros y m d h mn s ms k V T Hms D Hk.
  exists ((((k * 24 + h) * 60 + mn) * 60 + s) * 1000 + ms).
  split.
  - rewrite (C44_to_time_point y m d h mn s (ms * 1000000) k); auto; try lia.
    rewrite Z.div_mul by lia. reflexivity.
  - destruct T as [Hh [Hmn Hs]].
    destruct (C44_from_time_point ((((k * 24 + h) * 60 + mn) * 60 + s) * 1000 + ms)) as
      (y' & m' & d' & h' & mn' & s' & ms' & k' & E & V' & D' & T' & Hms' & Et); [lia|].
    destruct T' as [Hh' [Hmn' Hs']].
    assert (k' = k /\ h' = h /\ mn' = mn /\ s' = s /\ ms' = ms) as (-> & -> & -> & -> & ->) by lia.
    rewrite E. destruct C44_calendar_bijection as (_ & _ & _ & I).
    specialize (I _ _ _ D D'). injection I as <- <- <-. reflexivity.
Qed.

Example C44_example :
  valid_date 2024 2 29 /\ ~ valid_date 2023 2 29 /\ ~ valid_date 1900 2 29 /\
  day_no (1970, 1, 2) 1 /\ day_no (1969, 12, 31) (-1) /\
  civil_to_time_point 2024 9 2 1 14 54 0 = Ok 1725239694000.
Proof.
  split; [unfold valid_date; cbn; lia|]. split; [unfold valid_date; cbn; lia|].
  split; [unfold valid_date; cbn; lia|].
  split; [exact (dn_next _ _ dn_epoch)|].
  split; [apply (dn_prev 1969 12 31 0); [unfold valid_date; cbn; lia|exact dn_epoch]|].
  vm_compute. reflexivity.
Qed.

(** ** C47 *)

Lemma weekday_formula : forall k w, weekday k w <-> w = (k + 4) mod 7.
Proof.
  assert (A : forall k w, weekday k w -> w = (k + 4) mod 7).
  { intros k w H. induction H as [|k w H IH|k w Hw H IH].
    - reflexivity.
    - unfold next_weekday. destruct (w =? 6) eqn:?; lia.
    - unfold next_weekday in IH. destruct (w =? 6) eqn:?; lia. }
  assert (B : forall n, weekday (Z.of_nat n) ((Z.of_nat n + 4) mod 7)).
  { induction n as [|n IH]; [exact wd_epoch|].
    replace (Z.of_nat (S n)) with (Z.of_nat n + 1) by lia.
    replace ((Z.of_nat n + 1 + 4) mod 7) with (next_weekday ((Z.of_nat n + 4) mod 7))
      by (unfold next_weekday; destruct (_ =? 6) eqn:?; lia).
    now apply wd_next. }
  assert (C : forall n, weekday (- Z.of_nat n) ((- Z.of_nat n + 4) mod 7)).
  { induction n as [|n IH]; [exact wd_epoch|].
    replace (- Z.of_nat (S n)) with (- Z.of_nat n - 1) by lia.
    apply wd_prev; [lia|].
    replace (next_weekday ((- Z.of_nat n - 1 + 4) mod 7)) with ((- Z.of_nat n + 4) mod 7)
      by (unfold next_weekday; destruct (_ =? 6) eqn:?; lia).
    exact IH. }
  intros k w. split; [apply A|]. intros ->.
  destruct (Z_le_gt_dec 0 k).
  - specialize (B (Z.to_nat k)). rewrite Z2Nat.id in B by lia. exact B.
  - specialize (C (Z.to_nat (- k))). rewrite Z2Nat.id, Z.opp_involutive in C by lia. exact C.
Qed.

Lemma day_of_week_at : forall tp k w, Z.quot tp 86400000 = k -> weekday k w -> day_of_week tp = Ok w.
Proof.
  intros tp k w E H. apply weekday_formula in H. unfold day_of_week. rewrite E.
  destruct (-4 <=? k) eqn:?.
  - replace (Z.rem (k + 4) 7) with w by lia.
    replace ((0 <=? w) && (w <=? 6)) with true by lia. reflexivity.
  - replace (Z.rem (k + 5) 7 + 6) with w by lia.
    replace ((0 <=? w) && (w <=? 6)) with true by lia. reflexivity.
Qed.

(** Full statement: [forall tp w, weekday (tp / 86400000) w -> day_of_week tp = Ok w].
    Missing: times of day other than midnight before 1970 (refuted below). *)
Theorem C47_day_of_week_partial : forall tp w,
  0 <= tp \/ tp mod 86400000 = 0 ->
  weekday (tp / 86400000) w -> day_of_week tp = Ok w.
Proof.
  intros tp w H W. apply day_of_week_at with (k := tp / 86400000); [|exact W].
  destruct H; lia.
Qed.
(** In terms of dates. *)
Theorem C47_date_partial : forall y m d k w,
  valid_date y m d -> day_no (y, m, d) k -> - 2 ^ 31 <= k < 2 ^ 31 -> weekday k w ->
  exists tp, civil_to_time_point y m d 0 0 0 0 = Ok tp /\ day_of_week tp = Ok w.
Proof.
  intros y m d k w V D Hk W. exists (k * 86400000). split.
  - rewrite (C44_to_time_point y m d 0 0 0 0 k); auto; try lia.
    + f_equal. change (0 / 1000000) with 0. lia.
    + unfold valid_time. lia.
  - apply day_of_week_at with (k := k); [lia|exact W].
Qed.
Theorem C47_before_1970_refuted : exists tp w,
  weekday (tp / 86400000) w /\ day_of_week tp <> Ok w.
Proof. exists (-1), 3. split; [apply weekday_formula; reflexivity|vm_compute; discriminate]. Qed.
Example C47_example : weekday 19968 1 /\ day_of_week (19968 * 86400000 + 5) = Ok 1.
Proof. split; [apply weekday_formula; reflexivity|vm_compute; reflexivity]. Qed.

Print Assumptions C44_days_of_date.
Print Assumptions C44_calendar_bijection.
Print Assumptions C44_to_time_point.
Print Assumptions C44_huge_year_refuted.
Print Assumptions C44_from_time_point.
Print Assumptions C44_round_trip.
Print Assumptions C47_day_of_week_partial.
Print Assumptions C47_date_partial.
Print Assumptions C47_before_1970_refuted.
