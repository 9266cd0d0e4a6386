(** Proofs about calendar conversion (see DateModel, SpecDate). *)
From Coq Require Import List NArith ZArith Bool Arith Lia ZifyBool ZifyNat ZifyN.
From Verif Require Import Base PolicyModel IntModel IntSerModel SpecDate DateModel.
Import ListNotations.
Local Open Scope Z_scope.
Ltac Zify.zify_post_hook ::= Z.to_euclidean_division_equations.

(** the day number of a date, without wrap-around *)
Definition before_year (y : Z) : Z := 365 * y + y / 4 - y / 100 + y / 400.
Definition moff (m : Z) : Z := (153 * (m + (if 2 <? m then -3 else 9)) + 2) / 5.
Definition dfc (y m d : Z) : Z :=
  before_year (y - (if m <=? 2 then 1 else 0)) + moff m + d - 1 - 719468.

Lemma i32_ok : forall x, - 2 ^ 31 <= x < 2 ^ 31 -> i32 x = Ok x.
Proof. intros x H. unfold i32. replace ((- 2 ^ 31 <=? x) && (x <? 2 ^ 31)) with true by lia. reflexivity. Qed.

Lemma civil_to_days_ok : forall y m d,
  - 2 ^ 31 + 400 <= y < 2 ^ 31 -> 1 <= m <= 12 -> 1 <= d <= 31 ->
  civil_to_days y m d = Ok (dfc y m d).
Proof.
  intros y m d Hy Hm Hd. unfold civil_to_days, dfc.
  rewrite i32_ok by (destruct (m <=? 2); lia). cbn [bind].
  set (y' := y - (if m <=? 2 then 1 else 0)).
  assert (Hy' : - 2 ^ 31 + 399 <= y' < 2 ^ 31) by (unfold y'; destruct (m <=? 2); lia).
  clearbody y'. clear Hy y.
  assert (E : (if 0 <=? y' then Ok y' else i32 (y' - 399)) =
              Ok (if 0 <=? y' then y' else y' - 399)).
  { destruct (0 <=? y') eqn:?; [reflexivity|apply i32_ok; lia]. }
  rewrite E. cbn [bind]. f_equal.
  assert (Hera : Z.quot (if 0 <=? y' then y' else y' - 399) 400 = y' / 400)
    by (destruct (0 <=? y') eqn:?; lia).
  rewrite Hera.
  assert (Hyoe : to_u32 (y' - y' / 400 * 400) = y' mod 400)
    by (unfold to_u32; rewrite Z.mod_small; lia).
  rewrite Hyoe.
  assert (Hmo : Z.quot (153 * (m + (if 2 <? m then -3 else 9)) + 2) 5 = moff m)
    by (unfold moff; destruct (2 <? m) eqn:?; lia).
  rewrite Hmo.
  assert (Hmb : 0 <= moff m <= 337) by (unfold moff; destruct (2 <? m) eqn:?; lia).
  assert (Hdoy : to_u32 (moff m + d - 1) = moff m + d - 1)
    by (unfold to_u32; rewrite Z.mod_small; lia).
  rewrite Hdoy. unfold before_year, to_u32. set (q := moff m) in *. clearbody q.
  clear -Hmb Hd Hm.
  rewrite (Z.mod_small (y' mod 400 * 365 + _ - _ + _)).
  - lia.
  - lia.
Qed.

Lemma before_year_next : forall y,
  before_year y - before_year (y - 1) = 365 + (if leap y then 1 else 0).
Proof.
  intro y. unfold before_year, leap.
  destruct (y mod 4 =? 0) eqn:?; destruct (y mod 100 =? 0) eqn:?;
    destruct (y mod 400 =? 0) eqn:?; cbn [andb negb orb]; lia.
Qed.

Lemma twelve : forall m, 1 <= m <= 12 ->
  m = 1 \/ m = 2 \/ m = 3 \/ m = 4 \/ m = 5 \/ m = 6 \/ m = 7 \/ m = 8 \/ m = 9 \/
  m = 10 \/ m = 11 \/ m = 12.
Proof. lia. Qed.

Lemma next_day_valid : forall y m d, valid_date y m d ->
  let '(y', m', d') := next_day (y, m, d) in valid_date y' m' d'.
Proof.
  intros y m d [Hm Hd]. unfold next_day. destruct (d <? month_len y m) eqn:E.
  - split; lia.
  - destruct (m <? 12) eqn:E2.
    + split; [lia|]. unfold month_len. destruct (leap y);
        destruct (m + 1 =? 2); try lia;
        destruct ((m + 1 =? 4) || (m + 1 =? 6) || (m + 1 =? 9) || (m + 1 =? 11)); lia.
    + split; [lia|]. cbn. lia.
Qed.

Lemma dfc_next : forall y m d, valid_date y m d ->
  let '(y', m', d') := next_day (y, m, d) in dfc y' m' d' = dfc y m d + 1.
Proof.
  intros y m d [Hm Hd]. unfold next_day. destruct (d <? month_len y m) eqn:E.
  - unfold dfc. lia.
  - pose proof (before_year_next y) as Hb.
    destruct (twelve m Hm) as [->|[->|[->|[->|[->|[->|[->|[->|[->|[->|[->| ->]]]]]]]]]]];
    unfold month_len in *; cbn [Z.eqb Pos.eqb orb] in *; unfold dfc;
      cbn [Z.ltb Z.leb Z.add Z.compare Pos.compare Pos.compare_cont Pos.add Pos.succ].
    all: try (change (y + 1 - 1) with (y + 1 - 1); replace (y + 1 - 1) with (y - 0) by lia).
    all: repeat match goal with |- context [moff ?k] =>
           let v := eval vm_compute in (moff k) in change (moff k) with v end.
    all: try lia.
    all: destruct (leap y); replace (y - 0) with y by lia; lia.
Qed.

(** ** The inverse *)

Definition g (y : Z) : Z := 365 * y + y / 4 - y / 100.
Definition ylen (yoe : Z) : Z :=
  365 + (if ((yoe + 1) mod 4 =? 0) && negb ((yoe + 1) mod 100 =? 0) || (yoe + 1 =? 400) then 1 else 0).
Definition f (doe : Z) : Z := doe - doe / 1460 + doe / 36524 - doe / 146096.

Lemma g_step : forall y, 0 <= y < 399 -> g (y + 1) = g y + ylen y.
Proof.
  intros y H. unfold g, ylen.
  destruct ((y + 1) mod 4 =? 0) eqn:?; destruct ((y + 1) mod 100 =? 0) eqn:?;
  destruct (y + 1 =? 400) eqn:?; cbn [andb negb orb]; lia.
Qed.

Lemma f_mono : forall a b, 0 <= a <= b -> b < 146096 -> f a <= f b.
Proof. intros a b H Hb. unfold f. lia. Qed.

Definition f_row (y : Z) : bool :=
  (365 * y <=? f (g y)) &&
  (f (if y =? 399 then 146095 else g y + ylen y - 1) <? 365 * y + 365).
Lemma f_rows : forallb f_row (map Z.of_nat (seq 0 400)) = true.
Proof. vm_compute. reflexivity. Qed.

Lemma yoe_of_doe : forall yoe doy, 0 <= yoe < 400 -> 0 <= doy < ylen yoe ->
  f (g yoe + doy) / 365 = yoe.
Proof.
  intros y d Hy Hd.
  assert (R : f_row y = true).
  { pose proof (proj1 (forallb_forall _ _) f_rows) as F. apply F.
    apply in_map_iff. exists (Z.to_nat y). split; [lia|]. apply in_seq. lia. }
  unfold f_row in R. apply andb_true_iff in R. destruct R as [R1 R2].
  destruct (y =? 399) eqn:E9.
  - assert (y = 399) by lia. subst y. clear E9.
    assert (Hg : g 399 = 145731) by (vm_compute; reflexivity).
    change (ylen 399) with 366 in Hd. rewrite Hg in *.
    destruct (Z.eq_dec d 365) as [->|Hn].
    + vm_compute. reflexivity.
    + pose proof (f_mono 145731 (145731 + d)) as M1.
      pose proof (f_mono (145731 + d) 146095) as M2.
      set (z := f (145731 + d)) in *. clearbody z. lia.
  - assert (Hl : g y + ylen y <= 146096).
    { clear -Hy E9. unfold g, ylen.
      destruct (((y + 1) mod 4 =? 0) && negb ((y + 1) mod 100 =? 0) || (y + 1 =? 400)); lia. }
    assert (Hg : 0 <= g y) by (clear -Hy; unfold g; lia).
    pose proof (f_mono (g y) (g y + d)) as M1.
    pose proof (f_mono (g y + d) (g y + ylen y - 1)) as M2.
    set (z := f (g y + d)) in *. clearbody z.
    set (p := f (g y)) in *. clearbody p.
    set (q := f (g y + ylen y - 1)) in *. clearbody q.
    set (gy := g y) in *. clearbody gy. set (l := ylen y) in *. clearbody l.
    lia.
Qed.

Lemma year_split_upto : forall n doe, Z.of_nat n <= 399 ->
  0 <= doe < g (Z.of_nat n) + ylen (Z.of_nat n) ->
  exists yoe doy, 0 <= yoe < 400 /\ 0 <= doy < ylen yoe /\ doe = g yoe + doy.
Proof.
  induction n as [|n IH]; intros doe Hn H.
  - exists 0, doe. change (g (Z.of_nat 0)) with 0 in H. change (Z.of_nat 0) with 0 in H.
    change (g 0) with 0. lia.
  - rewrite Nat2Z.inj_succ in *. unfold Z.succ in *.
    destruct (Z_lt_le_dec doe (g (Z.of_nat n + 1))) as [Hlt|Hge].
    + apply IH; [lia|]. rewrite g_step in Hlt by lia. lia.
    + exists (Z.of_nat n + 1), (doe - g (Z.of_nat n + 1)).
      split; [lia|]. split; [|lia].
      set (l := ylen (Z.of_nat n + 1)) in *. clearbody l.
      set (k := g (Z.of_nat n + 1)) in *. clearbody k. lia.
Qed.

Lemma year_split : forall doe, 0 <= doe <= 146096 ->
  exists yoe doy, 0 <= yoe < 400 /\ 0 <= doy < ylen yoe /\ doe = g yoe + doy.
Proof.
  intros doe H. apply (year_split_upto 399); [lia|].
  change (Z.of_nat 399) with 399. change (g 399) with 145731. change (ylen 399) with 366. lia.
Qed.

(** the date of a day number, without wrap-around *)
Definition cfd (z0 : Z) : Z * Z * Z :=
  let z := z0 + 719468 in
  let era := z / 146097 in
  let doe := z mod 146097 in
  let yoe := f doe / 365 in
  let doy := doe - g yoe in
  let mp := (5 * doy + 2) / 153 in
  let d := doy - (153 * mp + 2) / 5 + 1 in
  let m := mp + (if mp <? 10 then 3 else -9) in
  (yoe + era * 400 + (if m <=? 2 then 1 else 0), m, d).

Lemma leap_ylen : forall era yoe, 0 <= yoe < 400 ->
  ylen yoe = 365 + (if leap (era * 400 + yoe + 1) then 1 else 0).
Proof.
  intros era yoe H. unfold ylen, leap.
  replace ((era * 400 + yoe + 1) mod 4) with ((yoe + 1) mod 4) by lia.
  replace ((era * 400 + yoe + 1) mod 100) with ((yoe + 1) mod 100) by lia.
  assert (E : ((era * 400 + yoe + 1) mod 400 =? 0) = (yoe + 1 =? 400)) by lia.
  rewrite E. reflexivity.
Qed.

Lemma ylen_bound : forall y, 365 <= ylen y <= 366.
Proof. intro y. unfold ylen. destruct (_ || _); lia. Qed.

Lemma before_year_era : forall era yoe, 0 <= yoe < 400 ->
  before_year (era * 400 + yoe) = era * 146097 + g yoe.
Proof. intros. unfold before_year, g. lia. Qed.

Lemma cfd_eq : forall era yoe doy, 0 <= yoe < 400 -> 0 <= doy < ylen yoe ->
  cfd (era * 146097 + g yoe + doy - 719468) =
  let mp := (5 * doy + 2) / 153 in
  let m := mp + (if mp <? 10 then 3 else -9) in
  (yoe + era * 400 + (if m <=? 2 then 1 else 0), m, doy - (153 * mp + 2) / 5 + 1).
Proof.
  intros era yoe doy Hy Hd. unfold cfd.
  assert (Hg : 0 <= g yoe /\ g yoe + ylen yoe <= 146097).
  { clear -Hy. pose proof (ylen_bound yoe) as B.
    destruct (Z.eq_dec yoe 399) as [->|n]; [vm_compute; split; discriminate|].
    unfold g. set (l := ylen yoe) in *. clearbody l. lia. }
  replace (era * 146097 + g yoe + doy - 719468 + 719468) with (era * 146097 + (g yoe + doy)) by lia.
  rewrite (yoe_of_doe yoe doy Hy Hd) || idtac.
  assert (E1 : (era * 146097 + (g yoe + doy)) / 146097 = era)
    by (set (l := ylen yoe) in *; clearbody l; set (k := g yoe) in *; clearbody k; lia).
  assert (E2 : (era * 146097 + (g yoe + doy)) mod 146097 = g yoe + doy)
    by (set (l := ylen yoe) in *; clearbody l; set (k := g yoe) in *; clearbody k; lia).
  rewrite E1, E2, (yoe_of_doe yoe doy Hy Hd).
  replace (g yoe + doy - g yoe) with doy by lia. reflexivity.
Qed.

Lemma day_split : forall z, exists era yoe doy,
  0 <= yoe < 400 /\ 0 <= doy < ylen yoe /\ z = era * 146097 + g yoe + doy - 719468.
Proof.
  intro z. destruct (year_split ((z + 719468) mod 146097)) as [yoe [doy [H1 [H2 H3]]]]; [lia|].
  exists ((z + 719468) / 146097), yoe, doy. split; [exact H1|]. split; [exact H2|].
  set (k := g yoe) in *. clearbody k. clear H1 H2. lia.
Qed.

Lemma cfd_facts : forall z, let '(y, m, d) := cfd z in valid_date y m d /\ dfc y m d = z.
Proof.
  intro z. destruct (day_split z) as [era [yoe [doy [Hy [Hd Ez]]]]].
  rewrite Ez, (cfd_eq era yoe doy Hy Hd). cbv zeta.
  pose proof (leap_ylen era yoe Hy) as HL. pose proof (before_year_era era yoe Hy) as HB.
  rewrite HL in Hd. clear HL. clear Ez z.
  set (L := leap (era * 400 + yoe + 1)) in *.
  assert (Hmp : 0 <= (5 * doy + 2) / 153 <= 11) by (destruct L; lia).
  set (mp := (5 * doy + 2) / 153) in *.
  assert (Hdoy : (153 * mp + 2) / 5 <= doy < (153 * (mp + 1) + 2) / 5) by (unfold mp; lia).
  assert (HLm : doy <= 364 + (if L then 1 else 0)) by lia.
  clearbody mp.
  assert (Cs : mp = 0 \/ mp = 1 \/ mp = 2 \/ mp = 3 \/ mp = 4 \/ mp = 5 \/ mp = 6 \/ mp = 7 \/
          mp = 8 \/ mp = 9 \/ mp = 10 \/ mp = 11) by lia.
  unfold dfc.
  destruct Cs as [->|[->|[->|[->|[->|[->|[->|[->|[->|[->|[->| ->]]]]]]]]]]];
    match goal with |- context [?k + (if ?k <? 10 then 3 else -9)] =>
           let v := eval vm_compute in (k + (if k <? 10 then 3 else -9)) in
           change (k + (if k <? 10 then 3 else -9)) with v end;
    cbn [Z.leb Z.compare Pos.compare Pos.compare_cont];
    repeat match goal with
    | |- context [moff ?k] => let v := eval vm_compute in (moff k) in change (moff k) with v
    | H : context [(153 * ?k + 2) / 5] |- _ =>
      let v := eval vm_compute in ((153 * k + 2) / 5) in change ((153 * k + 2) / 5) with v in H
    | |- context [(153 * ?k + 2) / 5] =>
      let v := eval vm_compute in ((153 * k + 2) / 5) in change ((153 * k + 2) / 5) with v
    end.
  all: split.
  all: try (replace (yoe + era * 400 + 0 - 0) with (era * 400 + yoe) by lia; rewrite HB; lia).
  all: try (replace (yoe + era * 400 + 1 - 1) with (era * 400 + yoe) by lia; rewrite HB; lia).
  all: split; [lia|]; unfold month_len; cbn [Z.eqb Pos.eqb orb].
  all: try lia.
  replace (yoe + era * 400 + 1) with (era * 400 + yoe + 1) by lia. fold L. destruct L; lia.
Qed.

Lemma cfd_dfc : forall y m d, valid_date y m d -> cfd (dfc y m d) = (y, m, d).
Proof.
  intros y m d [Hm Hd]. unfold dfc.
  set (y' := y - (if m <=? 2 then 1 else 0)).
  assert (Hy : 0 <= y' mod 400 < 400) by lia.
  pose proof (before_year_era (y' / 400) (y' mod 400) Hy) as HB.
  pose proof (leap_ylen (y' / 400) (y' mod 400) Hy) as HL.
  replace (y' / 400 * 400 + y' mod 400) with y' in HB, HL by lia.
  rewrite HB.
  replace (y' / 400 * 146097 + g (y' mod 400) + moff m + d - 1 - 719468)
    with (y' / 400 * 146097 + g (y' mod 400) + (moff m + d - 1) - 719468) by lia.
  rewrite cfd_eq; [|exact Hy|].
  - cbv zeta.
    assert (Ey : y' mod 400 + y' / 400 * 400 = y') by lia. rewrite Ey.
    clear HB HL Hy Ey. unfold y'. clear y'.
    unfold month_len in Hd.
    destruct (twelve m Hm) as [->|[->|[->|[->|[->|[->|[->|[->|[->|[->|[->| ->]]]]]]]]]]];
      cbn [Z.eqb Pos.eqb orb] in Hd;
      match goal with |- context [moff ?k] =>
        let v := eval vm_compute in (moff k) in change (moff k) with v end;
      cbn [Z.leb Z.compare Pos.compare Pos.compare_cont].
    all: match goal with |- context [(5 * ?e + 2) / 153] =>
           first [ assert (E : (5 * e + 2) / 153 = 0) by (destruct (leap y); lia)
                 | assert (E : (5 * e + 2) / 153 = 1) by lia
                 | assert (E : (5 * e + 2) / 153 = 2) by lia
                 | assert (E : (5 * e + 2) / 153 = 3) by lia
                 | assert (E : (5 * e + 2) / 153 = 4) by lia
                 | assert (E : (5 * e + 2) / 153 = 5) by lia
                 | assert (E : (5 * e + 2) / 153 = 6) by lia
                 | assert (E : (5 * e + 2) / 153 = 7) by lia
                 | assert (E : (5 * e + 2) / 153 = 8) by lia
                 | assert (E : (5 * e + 2) / 153 = 9) by lia
                 | assert (E : (5 * e + 2) / 153 = 10) by lia
                 | assert (E : (5 * e + 2) / 153 = 11) by (destruct (leap y); lia) ] end;
         rewrite E; clear E.
    all: match goal with |- context [(153 * ?k + 2) / 5] =>
           let v := eval vm_compute in ((153 * k + 2) / 5) in change ((153 * k + 2) / 5) with v end.
    all: match goal with |- context [?k + (if ?k <? 10 then 3 else -9)] =>
           let v := eval vm_compute in (k + (if k <? 10 then 3 else -9)) in
           change (k + (if k <? 10 then 3 else -9)) with v end.
    all: cbn [Z.leb Z.compare Pos.compare Pos.compare_cont].
    all: f_equal; [f_equal|]; lia.
  - rewrite HL. unfold month_len in Hd. unfold y'. clear HB HL Hy y'.
    destruct (twelve m Hm) as [->|[->|[->|[->|[->|[->|[->|[->|[->|[->|[->| ->]]]]]]]]]]];
      cbn [Z.eqb Pos.eqb orb] in Hd;
      match goal with |- context [moff ?k] =>
        let v := eval vm_compute in (moff k) in change (moff k) with v end;
      cbn [Z.leb Z.compare Pos.compare Pos.compare_cont].
    2: replace (y - 1 + 1) with y by lia.
    all: try (destruct (leap y); lia).
    all: match goal with |- context [leap ?k] => destruct (leap k) end; lia.
Qed.

(** [day_no] is the relation of [dfc] *)
Lemma day_no_valid : forall t k, day_no t k ->
  let '(y, m, d) := t in valid_date y m d /\ dfc y m d = k.
Proof.
  intros t k H. induction H as [|[[y m] d] k H IH|y m d k V H IH].
  - split; [unfold valid_date; cbn; lia|]. vm_compute. reflexivity.
  - destruct IH as [V E]. pose proof (next_day_valid y m d V) as NV.
    pose proof (dfc_next y m d V) as ND. destruct (next_day (y, m, d)) as [[y2 m2] d2].
    split; [exact NV|lia].
  - split; [exact V|]. pose proof (dfc_next y m d V) as ND.
    destruct (next_day (y, m, d)) as [[y2 m2] d2]. lia.
Qed.

Lemma cfd_next : forall z, next_day (cfd z) = cfd (z + 1).
Proof.
  intro z. pose proof (cfd_facts z) as F. destruct (cfd z) as [[y m] d]. destruct F as [V E].
  pose proof (next_day_valid y m d V) as NV. pose proof (dfc_next y m d V) as ND.
  destruct (next_day (y, m, d)) as [[y2 m2] d2].
  rewrite <- E, <- ND. symmetry. apply cfd_dfc. exact NV.
Qed.

Lemma day_no_cfd_nonneg : forall n, day_no (cfd (Z.of_nat n)) (Z.of_nat n).
Proof.
  induction n as [|n IH]; [apply dn_epoch|].
  rewrite Nat2Z.inj_succ. unfold Z.succ. rewrite <- cfd_next. apply dn_next. exact IH.
Qed.
Lemma day_no_cfd_neg : forall n, day_no (cfd (- Z.of_nat n)) (- Z.of_nat n).
Proof.
  induction n as [|n IH]; [apply dn_epoch|].
  replace (- Z.of_nat (S n)) with (- Z.of_nat n - 1) by lia.
  pose proof (cfd_next (- Z.of_nat n - 1)) as E.
  replace (- Z.of_nat n - 1 + 1) with (- Z.of_nat n) in E by lia.
  pose proof (cfd_facts (- Z.of_nat n - 1)) as F.
  destruct (cfd (- Z.of_nat n - 1)) as [[y m] d]. destruct F as [V _].
  apply dn_prev; [exact V|]. rewrite E. exact IH.
Qed.
Lemma day_no_cfd : forall z, day_no (cfd z) z.
Proof.
  intro z. destruct (Z_le_gt_dec 0 z) as [H|H].
  - pose proof (day_no_cfd_nonneg (Z.to_nat z)) as D. rewrite Z2Nat.id in D by lia. exact D.
  - pose proof (day_no_cfd_neg (Z.to_nat (- z))) as D. rewrite Z2Nat.id in D by lia.
    replace (- - z) with z in D by lia. exact D.
Qed.
Lemma day_no_iff : forall y m d k, valid_date y m d -> (day_no (y, m, d) k <-> dfc y m d = k).
Proof.
  intros y m d k V. split.
  - intro H. apply (day_no_valid (y, m, d) k H).
  - intros <-. rewrite <- (cfd_dfc y m d V) at 1. apply day_no_cfd.
Qed.

Lemma days_to_civil_ok : forall z, - 2 ^ 31 <= z < 2 ^ 31 - 719468 ->
  -2 ^ 31 + 146096 <= z + 719468 ->
  days_to_civil z = Ok (cfd z).
Proof.
  intros z Hz Hl. unfold days_to_civil, cfd. rewrite i32_ok by lia. cbn [bind].
  set (z' := z + 719468) in *.
  assert (E : (if 0 <=? z' then Ok z' else i32 (z' - 146096)) =
              Ok (if 0 <=? z' then z' else z' - 146096)).
  { destruct (0 <=? z') eqn:?; [reflexivity|apply i32_ok; lia]. }
  rewrite E. cbn [bind].
  assert (Hera : Z.quot (if 0 <=? z' then z' else z' - 146096) 146097 = z' / 146097)
    by (destruct (0 <=? z') eqn:?; lia).
  rewrite Hera.
  assert (Hdoe : to_u32 (z' - z' / 146097 * 146097) = z' mod 146097)
    by (unfold to_u32; rewrite Z.mod_small; lia).
  rewrite Hdoe. fold (f (z' mod 146097)).
  destruct (year_split (z' mod 146097)) as [yoe [doy [Hy [Hd Ed]]]]; [lia|].
  pose proof (yoe_of_doe yoe doy Hy Hd) as Ey. rewrite <- Ed in Ey. rewrite Ey.
  assert (Hb : -15000 <= z' / 146097 <= 15000) by lia.
  rewrite i32_ok by lia. cbn [bind]. fold (g yoe).
  pose proof (ylen_bound yoe) as B.
  assert (Hdoy : to_u32 (z' mod 146097 - g yoe) = doy).
  { rewrite Ed. replace (g yoe + doy - g yoe) with doy by lia. unfold to_u32. rewrite Z.mod_small; lia. }
  rewrite Hdoy.
  assert (Ed2 : z' mod 146097 - g yoe = doy) by (rewrite Ed; set (k := g yoe); clearbody k; lia).
  rewrite Ed2.
  assert (Hd366 : 0 <= doy < 366) by lia. clear Hd B Ey Ed Ed2 Hdoy Hdoe E Hera.
  set (mp := (5 * doy + 2) / 153).
  assert (Hmp : 0 <= mp <= 11) by (unfold mp; lia).
  assert (Hdd : 0 <= doy - (153 * mp + 2) / 5 <= 30) by (unfold mp; lia).
  clearbody mp.
  assert (E1 : to_u32 (doy - (153 * mp + 2) / 5 + 1) = doy - (153 * mp + 2) / 5 + 1)
    by (unfold to_u32; rewrite Z.mod_small; lia).
  assert (E2 : to_u32 (mp + (if mp <? 10 then 3 else -9)) = mp + (if mp <? 10 then 3 else -9))
    by (unfold to_u32; rewrite Z.mod_small; destruct (mp <? 10) eqn:?; lia).
  rewrite E1, E2.
  rewrite i32_ok; [reflexivity|]. destruct (_ <=? 2); lia.
Qed.
