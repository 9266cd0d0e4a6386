(** C43 (timestamp round trip), C45 (UTC offsets), C46 (impossible dates). *)
From Coq Require Import String.
From Coq Require Import List NArith ZArith Bool Arith Lia ZifyBool ZifyNat ZifyN.
From Verif Require Import Base Mem SpecNum PolicyModel IntModel IntProofs IntSerModel IntSerProofs IntValueProofs PropertiesInt
  SpecDate DateModel DateProofs PropertiesDate DateTextProofs.
Import ListNotations.
Local Open Scope Z_scope.
Ltac Zify.zify_post_hook ::= Z.to_euclidean_division_equations.

(** ** C43 *)

(** the sub-second parts whose text is right: none, or three digits *)
Definition frac_row (ms : nat) : bool :=
  match strip_zeros 20 (Z.to_N (Z.of_nat ms * 1000000)) with
  | Ok n => match to_json_string_unsigned LSNever 64 n with
            | Ok t => forallb is_digb t && (1 <=? length t)%nat && (length t <=? 9)%nat &&
                      (dec_val t * 10 ^ N.of_nat (9 - length t) =? N.of_nat ms * 1000000)%N
            | _ => false
            end
  | _ => false
  end.
Lemma frac_rows : forallb frac_row (seq 100 900) = true.
Proof. vm_compute. reflexivity. Qed.

Lemma frac_ok : forall ms, ms = 0 \/ 100 <= ms < 1000 -> exists fr,
  (if 0 <? ms * 1000000 then
     n <- strip_zeros 20 (Z.to_N (ms * 1000000)) ;;
     t <- to_json_string_unsigned LSNever 64 n ;; Ok (c_dot :: t)
   else Ok []) = Ok fr /\ frac_text fr (ms * 1000000).
Proof.
  intros ms [->|H].
  - exists []. split; [reflexivity|]. left. split; reflexivity.
  - replace (0 <? ms * 1000000) with true by lia.
    pose proof (proj1 (forallb_forall _ _) frac_rows (Z.to_nat ms)) as R.
    specialize (R ltac:(apply in_seq; lia)). unfold frac_row in R.
    rewrite Z2Nat.id in R by lia.
    destruct (strip_zeros 20 (Z.to_N (ms * 1000000))) as [n| | | ]; try discriminate. cbn [bind].
    destruct (to_json_string_unsigned LSNever 64 n) as [t| | | ]; try discriminate. cbn [bind].
    exists (c_dot :: t). split; [reflexivity|]. right. exists t. split; [reflexivity|].
    apply andb_true_iff in R. destruct R as [R R4].
    apply andb_true_iff in R. destruct R as [R R3].
    apply andb_true_iff in R. destruct R as [R1 R2].
    split; [|split; [lia|]].
    + apply Forall_forall. intros x Hx. apply is_digb_spec. eapply forallb_forall in R1; eauto.
    + apply N.eqb_eq in R4.
      assert (E : Z.of_N (dec_val t * 10 ^ N.of_nat (9 - length t)) = Z.of_N (N.of_nat (Z.to_nat ms) * 1000000))
        by (now rewrite R4).
      rewrite N2Z.inj_mul, N2Z.inj_pow in E.
      replace (Z.of_N (N.of_nat (9 - length t))) with (Z.of_nat (9 - length t)) in E by lia.
      change (Z.of_N 10) with 10 in E. rewrite E. lia.
Qed.

(** Full statement: for every [tp] from year 0 to year 9999 (in fact as long as
    the day number fits) the text written parses back to [tp], wherever it stands
    in a document.  Missing: time points before 1970 and those with 1 to 99
    milliseconds in the second, for both of which it is false (below). *)
Theorem C43_round_trip_partial : forall drop tp,
  0 <= tp < 86400000 * (2 ^ 31 - 719468) ->
  tp mod 1000 = 0 \/ 100 <= tp mod 1000 ->
  exists t, to_json_string_date tp = Ok ([34%N] ++ t ++ [34%N]) /\
    forall pre post, parse_iso8601_timestamp drop (pre ++ t ++ post) (mksv (length pre) (length t)) = Ok tp.
Proof.
  intros drop tp Htp Hms.
  destruct (C44_from_time_point tp Htp) as
    (y & m & d & h & mn & s & ms & k & E & V & D & T & Hm & Et).
  assert (Ems : tp mod 1000 = ms) by lia. rewrite Ems in Hms.
  assert (Hk : 0 <= k < 2 ^ 31) by (destruct T as [? [? ?]]; lia).
  pose proof (proj1 (day_no_iff y m d k V) D) as Ek.
  assert (Hk' : - 2 ^ 31 <= k < 2 ^ 31) by lia.
  pose proof (dfc_year y m d k V Ek Hk') as Hy.
  assert (Hd31 : 1 <= m <= 12 /\ 1 <= d <= 31).
  { destruct V as [Hmm Hd]. split; [exact Hmm|]. unfold month_len in Hd.
    destruct (m =? 2); [destruct (leap y)|destruct (_ || _)]; lia. }
  assert (Hy0 : 0 <= y).
  { clear -Ek Hk Hd31. unfold dfc, before_year in Ek.
    assert (Hmo : 0 <= moff m <= 337) by (unfold moff; destruct (2 <? m) eqn:?; lia).
    set (q := moff m) in *. clearbody q. destruct (m <=? 2); lia. }
  destruct T as [Hh [Hmn Hs]]. destruct Hd31 as [Hm12 Hd31].
  unfold to_json_string_date. rewrite E. cbn [bind c_year c_month c_day c_hour c_minute c_second c_nano].
  assert (R32 : in_range 32 y) by (unfold in_range; change (2 ^ (32 - 1))%N with 2147483648%N; lia).
  assert (W32 : int_width 32) by (unfold int_width; auto).
  destruct (C05_signed_canonical 32 y W32 R32) as (Y & EY & CY).
  unfold canonical_int in CY. replace (y <? 0) with false in CY by lia.
  destruct CY as [(DY & NY & _) VY].
  destruct (out2_ok m) as (m1 & m2 & E1 & T1); [lia|].
  destruct (out2_ok d) as (d1 & d2 & E2 & T2); [lia|].
  destruct (out2_ok h) as (h1 & h2 & E3 & T3); [lia|].
  destruct (out2_ok mn) as (n1 & n2 & E4 & T4); [lia|].
  destruct (out2_ok s) as (s1 & s2 & E5 & T5); [lia|].
  destruct (frac_ok ms) as (fr & E6 & T6); [lia|].
  rewrite EY, E1, E2, E3, E4, E5, E6. cbn [bind].
  exists (Y ++ [45; m1; m2; 45; d1; d2; 84; h1; h2; 58; n1; n2; 58; s1; s2]%N ++ fr ++ [90]%N).
  split.
  - f_equal. cbn [app]. unfold c_quote, c_minus, c_colon. rewrite <- !app_assoc. cbn [app].
    rewrite <- app_assoc. reflexivity.
  - intros pre post.
    replace (length (Y ++ [45; m1; m2; 45; d1; d2; 84; h1; h2; 58; n1; n2; 58; s1; s2]%N ++ fr ++ [90]%N))
      with (length Y + 15 + length fr + 1)%nat by (rewrite !app_length; cbn [length]; lia).
    eapply parse_utc_ok; [apply sub_at_mid| | | | eassumption..| | | | | | | ]; try eassumption; try lia.
    rewrite VY. rewrite (C44_to_time_point y m d h mn s (ms * 1000000) k); auto; try lia.
    + rewrite Z.div_mul by lia. f_equal. lia.
    + split; [lia|split; lia].
Qed.

(** 1970-01-01T00:00:00.005 is written with the fraction .5 and read back as
    half a second. *)
Theorem C43_small_fraction_refuted : forall drop, exists tp t,
  to_json_string_date tp = Ok ([34%N] ++ t ++ [34%N]) /\
  parse_iso8601_timestamp drop t (mksv 0 (length t)) <> Ok tp.
Proof.
  intro drop. exists 5, (bytes "1970-01-01T00:00:00.5Z").
  split; [vm_compute; reflexivity|]. destruct drop; vm_compute; discriminate.
Qed.
(** One second before 1970 is written with the wrong date and a second of
    4294967295, which the parser rejects or misreads. *)
Theorem C43_before_1970_refuted : forall drop, exists tp t,
  to_json_string_date tp = Ok ([34%N] ++ t ++ [34%N]) /\
  parse_iso8601_timestamp drop t (mksv 0 (length t)) <> Ok tp.
Proof.
  intro drop. exists (-1000), (bytes "1970-01-01T00:00:4294967295Z").
  split; [vm_compute; reflexivity|]. destruct drop; vm_compute; discriminate.
Qed.
Example C43_example :
  to_json_string_date 1725239694250 = Ok (bytes """2024-09-02T01:14:54.25Z""") /\
  parse_iso8601_timestamp true (bytes """2024-09-02T01:14:54.25Z""") (mksv 1 23) = Ok 1725239694250.
Proof. split; vm_compute; reflexivity. Qed.

(** ** C45 *)

(** A timestamp with an offset does not denote local time minus offset. *)
Theorem C45_offset_refuted : forall drop, exists local tp offset_minutes,
  let utc := local ++ bytes "Z" in
  let off := local ++ bytes "+05:30" in
  offset_minutes = 5 * 60 + 30 /\
  parse_iso8601_timestamp drop utc (mksv 0 (length utc)) = Ok tp /\
  parse_iso8601_timestamp drop off (mksv 0 (length off)) <> Ok (tp - offset_minutes * 60000).
Proof.
  intro drop. exists (bytes "2020-01-01T12:30:00"), 1577881800000, 330.
  cbv zeta. split; [reflexivity|].
  split; [destruct drop; vm_compute; reflexivity|destruct drop; vm_compute; discriminate].
Qed.
(** If [pop_front_until] keeps the delimiter, an offset reaching back over
    midnight moves the instant by some 490,000 years. *)
Theorem C45_wrap_refuted : exists tp,
  parse_iso8601_timestamp false (bytes "2020-01-02T02:00:00+05:00") (mksv 0 25) = Ok tp /\
  tp > 15000000000000000.
Proof. eexists. split; [vm_compute; reflexivity|reflexivity]. Qed.

(** If it drops it, every timestamp with an offset is refused: [d] is any date
    text, [t] any time text, [sg] the sign, [o0] the first digit of the offset. *)
Theorem C45_offset_never_accepted : forall (pre d t o post : list N) sg o0 tp,
  Forall (fun b => b <> 84%N) d ->
  Forall (fun b => is_dig b \/ b = 58%N \/ b = 46%N) t ->
  sg = 43%N \/ sg = 45%N -> is_dig o0 ->
  let text := (d ++ [84%N] ++ t ++ [sg; o0] ++ o)%list in
  parse_iso8601_timestamp true (pre ++ text ++ post) (mksv (length pre) (length text)) <> Ok tp.
Proof.
  intros pre d t o post sg o0 tp Hd Ht Hsg Ho text.
  pose proof (sub_at_mid pre text post) as S.
  set (buf := (pre ++ text ++ post)%list) in *. clearbody buf.
  set (p := length pre) in *. clearbody p.
  unfold parse_iso8601_timestamp, v_pop_until at 1. cbn [v_off v_len].
  assert (Ltext : length text = (length d + 1 + length t + 2 + length o)%nat)
    by (unfold text; rewrite !app_length; cbn [length]; lia).
  assert (S1 : sub_at buf p (d ++ [84%N])).
  { unfold text in S. rewrite app_assoc in S. apply sub_at_app in S. apply S. }
  assert (S2 : sub_at buf (p + length d + 1) (t ++ [sg; o0] ++ o)).
  { unfold text in S. rewrite app_assoc in S. apply sub_at_app in S. rewrite app_length in S.
    cbn [length] in S. replace (p + length d + 1)%nat with (p + (length d + 1))%nat by lia. apply S. }
  clear S. clearbody text.
  rewrite (v_find_hit _ buf d 84%N); auto.
  2:{ eapply Forall_impl; [|exact Hd]. cbn beta. intros b Hb. lia. }
  2:{ lia. }
  cbn [bind]. replace (length d <? length text)%nat with true by lia. cbn [andb v_len v_off].
  replace (length text - Datatypes.S (length d))%nat with (length t + 2 + length o)%nat by lia.
  replace (length t + 2 + length o =? 0)%nat with false by lia.
  destruct (parse_iso_8601_date buf _) as [[[y m] dd]| | | ]; cbn [bind]; try discriminate.
  unfold v_pop_until. cbn [v_off v_len].
  replace (p + Datatypes.S (length d))%nat with (p + length d + 1)%nat by lia.
  assert (S3 : sub_at buf (p + length d + 1) (t ++ [sg])).
  { change ([sg; o0] ++ o)%list with ([sg] ++ (o0 :: o))%list in S2. rewrite app_assoc in S2.
    apply sub_at_app in S2. apply S2. }
  assert (S4 : nth_error buf (p + length d + 1 + Datatypes.S (length t)) = Some o0).
  { apply sub_at_app in S2. destruct S2 as [_ S2]. cbn [app sub_at] in S2.
    replace (p + length d + 1 + Datatypes.S (length t))%nat with (Datatypes.S (p + length d + 1 + length t)) by lia.
    apply S2. }
  rewrite (v_find_hit _ buf t sg); auto.
  2:{ eapply Forall_impl; [|exact Ht]. cbn beta. intros b [Hb|[-> | ->]].
      - rewrite (dig_is_num b Hb). reflexivity.
      - reflexivity.
      - reflexivity. }
  2:{ destruct Hsg as [-> | ->]; reflexivity. }
  2:{ lia. }
  cbn [bind]. replace (length t <? length t + 2 + length o)%nat with true by lia. cbn [andb].
  destruct (parse_iso_8601_time buf _) as [[[[hh mn] ss] ns]| | | ]; cbn [bind]; try discriminate.
  cbn [v_len v_off].
  replace (length t + 2 + length o - Datatypes.S (length t))%nat with (1 + length o)%nat by lia.
  cbn [Nat.add Nat.eqb]. unfold v_front. cbn [v_len v_off Nat.eqb].
  rewrite (rd_some _ _ _ S4). cbn [bind]. unfold is_dig in Ho.
  replace (o0 =? 90)%N with false by lia.
  destruct (ensure _ _); cbn [bind]; try discriminate.
  replace (o0 =? c_plus)%N with false by (unfold c_plus; lia).
  replace (o0 =? c_minus)%N with false by (unfold c_minus; lia).
  discriminate.
Qed.
Example C45_example :
  parse_iso8601_timestamp true (bytes "2020-01-01T12:30:00+05:00") (mksv 0 25) = Err InvalidTimestamp.
Proof. vm_compute. reflexivity. Qed.

(** ** C46 *)

(** Full statement: a date or time accepted satisfies [valid_date], [valid_time].
    Missing: the length of the month, hour 24 and second 60 (refuted below). *)
Theorem C46_fields_partial : forall (buf : list N) v,
  (forall y m d, parse_iso_8601_date buf v = Ok (y, m, d) -> 1 <= m <= 12 /\ 1 <= d <= 31) /\
  (forall h mn s ns, parse_iso_8601_time buf v = Ok (h, mn, s, ns) ->
     0 <= h <= 24 /\ 0 <= mn <= 59 /\ 0 <= s <= 60).
Proof.
  intros buf v.
  assert (P : forall w x, two_digits buf w = Ok x -> 0 <= x).
  { intros w x H. unfold two_digits in H. destruct (parse_unsigned_n _ _ _ _); try discriminate.
    cbn [bind] in H. injection H as <-. lia. }
  split.
  - intros y m d H. unfold parse_iso_8601_date in H.
    destruct (v_pop_back v 2) as [dv v1].
    destruct (two_digits buf dv) as [dd| | | ]; try discriminate. cbn [bind] in H.
    destruct ((1 <=? dd) && (dd <=? 31)) eqn:Hd; [|discriminate]. cbn [ensure bind] in H.
    destruct (v_back buf v1); try discriminate. cbn [bind] in H.
    match type of H with bind ?e _ = _ => destruct e as [v2| | | ]; try discriminate end. cbn [bind] in H.
    destruct (v_pop_back v2 2) as [mv v3].
    destruct (two_digits buf mv) as [mm| | | ]; try discriminate. cbn [bind] in H.
    destruct ((1 <=? mm) && (mm <=? 12)) eqn:Hm; [|discriminate]. cbn [ensure bind] in H.
    destruct (v_back buf v3); try discriminate. cbn [bind] in H.
    match type of H with bind ?e _ = _ => destruct e as [v4| | | ]; try discriminate end. cbn [bind] in H.
    destruct (parse_number true i32 buf v4); try discriminate. cbn [bind] in H.
    injection H as <- <- <-. lia.
  - intros h mn s ns H. unfold parse_iso_8601_time in H.
    destruct (v_pop_front v 2) as [hv v1].
    destruct (two_digits buf hv) as [hh| | | ] eqn:Eh; try discriminate. cbn [bind] in H.
    destruct (hh <=? 24) eqn:Hh; [|discriminate]. cbn [ensure bind] in H.
    destruct (v_front buf v1); try discriminate. cbn [bind] in H.
    match type of H with bind ?e _ = _ => destruct e as [v2| | | ]; try discriminate end. cbn [bind] in H.
    destruct (v_pop_front v2 2) as [mv v3].
    destruct (two_digits buf mv) as [mm| | | ] eqn:Em; try discriminate. cbn [bind] in H.
    destruct (mm <=? 59) eqn:Hm; [|discriminate]. cbn [ensure bind] in H.
    pose proof (P _ _ Eh). pose proof (P _ _ Em).
    destruct (v_len v3 =? 0)%nat; [injection H as <- <- <- <-; lia|].
    destruct (v_front buf v3); try discriminate. cbn [bind] in H.
    match type of H with bind ?e _ = _ => destruct e as [v4| | | ]; try discriminate end. cbn [bind] in H.
    destruct (v_pop_front v4 2) as [sv5 v5].
    destruct (two_digits buf sv5) as [ss| | | ] eqn:Es; try discriminate. cbn [bind] in H.
    destruct (ss <=? 60) eqn:Hs; [|discriminate]. cbn [ensure bind] in H.
    pose proof (P _ _ Es).
    destruct (v_len v5 =? 0)%nat; [injection H as <- <- <- <-; lia|].
    destruct (v_front buf v5); try discriminate. cbn [bind] in H.
    match type of H with bind ?e _ = _ => destruct e as [v6| | | ]; try discriminate end. cbn [bind] in H.
    match type of H with bind ?e _ = _ => destruct e as [nn| | | ]; try discriminate end. cbn [bind] in H.
    destruct (v_len v6 <=? 9)%nat; [injection H as <- <- <- <-; lia|discriminate].
Qed.

Theorem C46_no_such_day_refuted : forall drop, exists t y m d,
  ~ valid_date y m d /\ parse_iso_8601_date t (mksv 0 10) = Ok (y, m, d) /\
  is_ok (parse_iso8601_timestamp drop t (mksv 0 (length t))) = true.
Proof.
  intro drop. exists (bytes "2021-02-31T00:00:00Z"), 2021, 2, 31.
  split; [unfold valid_date; cbn; lia|]. split; [vm_compute; reflexivity|].
  destruct drop; vm_compute; reflexivity.
Qed.
Theorem C46_no_such_time_refuted : forall drop, exists t h mn s,
  ~ valid_time h mn s /\ parse_iso_8601_time t (mksv 11 8) = Ok (h, mn, s, 0) /\
  is_ok (parse_iso8601_timestamp drop t (mksv 0 (length t))) = true.
Proof.
  intro drop. exists (bytes "2021-02-03T24:59:00Z"), 24, 59, 0.
  split; [unfold valid_time; lia|]. split; [vm_compute; reflexivity|].
  destruct drop; vm_compute; reflexivity.
Qed.
(** A missing digit is no obstacle either: the month 1x is read as January. *)
Theorem C46_malformed_field_refuted : forall drop, exists t,
  nth_error t 6 = Some (chr "x") /\
  is_ok (parse_iso8601_timestamp drop t (mksv 0 (length t))) = true.
Proof.
  intro drop. exists (bytes "2021-1x-03T04:59:00Z").
  split; [vm_compute; reflexivity|]. destruct drop; vm_compute; reflexivity.
Qed.
Example C46_example :
  parse_iso8601_timestamp true (bytes "2021-13-03T04:59:00Z") (mksv 0 20) = Err InvalidTimestamp /\
  parse_iso8601_timestamp true (bytes "2021-12-32T04:59:00Z") (mksv 0 20) = Err InvalidTimestamp /\
  parse_iso8601_timestamp true (bytes "2021-12-03T04:60:00Z") (mksv 0 20) = Err InvalidTimestamp.
Proof. repeat split; vm_compute; reflexivity. Qed.

Print Assumptions C43_round_trip_partial.
Print Assumptions C43_small_fraction_refuted.
Print Assumptions C43_before_1970_refuted.
Print Assumptions C45_offset_refuted.
Print Assumptions C45_wrap_refuted.
Print Assumptions C45_offset_never_accepted.
Print Assumptions C46_fields_partial.
Print Assumptions C46_no_such_day_refuted.
Print Assumptions C46_no_such_time_refuted.
Print Assumptions C46_malformed_field_refuted.
