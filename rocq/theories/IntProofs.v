From Coq Require Import List NArith ZArith Bool Lia Arith ZifyBool ZifyNat ZifyN.
From Verif Require Import Base Mem Bits PolicyModel IntModel SpecNum.
Import ListNotations.
Ltac Zify.zify_post_hook ::= Z.div_mod_to_equations.
Local Open Scope N_scope.

Lemma le64_lanes : forall b0 b1 b2 b3 b4 b5 b6 b7,
  le64 b0 b1 b2 b3 b4 b5 b6 b7 = lanes 8 [b0;b1;b2;b3;b4;b5;b6;b7].
Proof. intros. unfold le64. cbn [lanes]. lia. Qed.

(** ** Word-at-a-time digit test *)

(* one byte lane: high nibble of the byte, and high nibble of byte+6+carry *)
Definition lane_test (b c : N) : N :=
  N.lor (N.land b 0xF0) (N.land ((b + 6 + c) mod 256) 0xF0 / 16).

Lemma lane_ok : all_below 256 (fun b =>
  (Bool.eqb (lane_test b 0 =? 0x33) (is_digb b)) &&
  (implb (lane_test b 1 =? 0x33) ((48 <=? b) && (b <=? 57))) &&
  (implb (lane_test b 0 =? 0x33) (b + 6 <? 256)) && 
  (implb (lane_test b 1 =? 0x33) (b + 7 <? 256)))%bool = true.
Proof. vm_compute. reflexivity. Qed.

Lemma land_lt256 : forall a b, a < 256 -> N.land a b < 256.
Proof. intros. change 256 with (2^8). now apply land_lt. Qed.

Lemma land_F0_div : all_below 256 (fun b => (N.land b 0xF0 mod 16 =? 0) && (N.land b 0xF0 / 16 <? 16)) = true.
Proof. vm_compute. reflexivity. Qed.

Lemma lanes_shiftr4 : forall l, Forall (fun x => x < 256) l ->
  N.shiftr (lanes 8 (map (fun x => N.land x 0xF0) l)) 4 =
  lanes 8 (map (fun x => N.land x 0xF0 / 16) l).
Proof.
  intros l H. rewrite N.shiftr_div_pow2. change (2^4) with 16.
  assert (E : lanes 8 (map (fun x => N.land x 0xF0) l) =
              lanes 8 (map (fun x => N.land x 0xF0 / 16) l) * 16).
  { induction H as [|x l Hx Hl IH]; cbn [lanes map]; [lia|].
    sweep land_F0_div x Hx as T. lia. }
  rewrite E. now apply N.div_mul.
Qed.

(* carries of val + 0x0606..: the list of per-lane results *)
Fixpoint addc (l : list N) (c : N) : list N :=
  match l with
  | [] => []
  | x :: r => (x + 6 + c) mod 256 :: addc r ((x + 6 + c) / 256)
  end.

Lemma addc_length : forall l c, length (addc l c) = length l.
Proof. induction l; intros; cbn; auto. Qed.

Lemma addc_bytes : forall l c, Forall (fun x => x < 256) (addc l c).
Proof. induction l; intros; cbn [addc]; constructor; auto. apply N.mod_lt; lia. Qed.

Lemma addc_spec : forall l c,
  lanes 8 (addc l c) = (lanes 8 l + lanes 8 (map (fun _ => 6) l) + c)
                       mod 2^(8 * N.of_nat (length l)).
Proof.
  induction l as [|x l IH]; intros c.
  - cbn. now rewrite N.mod_1_r.
  - cbn [addc lanes map length]. rewrite IH.
    rewrite Nnat.Nat2N.inj_succ, N.mul_succ_r.
    rewrite N.pow_add_r. change (2^8) with 256.
    set (q := 2 ^ (8 * N.of_nat (length l))).
    assert (Hq : q <> 0) by (apply N.pow_nonzero; lia).
    set (A := lanes 8 l). set (B := lanes 8 (map (fun _ => 6) l)).
    replace (x + 256 * A + (6 + 256 * B) + c) with (x + 6 + c + 256 * (A + B)) by lia.
    rewrite (N.mul_comm q 256).
    rewrite N.mod_mul_r by lia.
    f_equal.
    + rewrite N.mul_comm, N.mod_add by lia. reflexivity.
    + f_equal. rewrite (N.mul_comm 256 (A + B)), N.div_add by lia.
      f_equal. lia.
Qed.

Lemma lanes_repeat_eq : forall l, Forall (fun x => x < 256) l ->
  length l = 8%nat ->
  (lanes 8 l =? 0x3333333333333333) = forallb (fun x => x =? 0x33) l.
Proof.
  intros l H L.
  change 0x3333333333333333 with (lanes 8 (repeat 0x33 8)).
  destruct (forallb (fun x => x =? 0x33) l) eqn:E.
  - apply N.eqb_eq. f_equal. rewrite <- L. clear H L. induction l; cbn in *; auto.
    apply andb_true_iff in E as [E1 E2]. apply N.eqb_eq in E1. subst. f_equal; auto.
  - apply N.eqb_neq. intros Eq. apply lanes_inj in Eq.
    + subst l. vm_compute in E. discriminate.
    + rewrite repeat_length; auto.
    + exact H.
    + repeat constructor.
Qed.

Lemma combine_test : forall l c, Forall (fun x => x < 256) l -> c <= 1 ->
  forallb (fun x => x =? 0x33)
    (map (fun p => N.lor (fst p) (snd p))
       (combine (map (fun x => N.land x 0xF0) l)
                (map (fun x => N.land x 0xF0 / 16) (addc l c))))
  = match l with
    | [] => true
    | x :: r => (lane_test x c =? 0x33) && forallb is_digb r
    end.
Proof.
  induction l as [|x l IH]; intros c H Hc; [reflexivity|].
  inversion H; subst.
  cbn [map combine addc forallb fst snd].
  fold (lane_test x c).
  destruct (lane_test x c =? 0x33) eqn:E; [|reflexivity].
  cbn [andb].
  assert (Hc0 : (x + 6 + c) / 256 = 0).
  { sweep lane_ok x H2 as T.
    apply N.div_small.
    assert (c = 0 \/ c = 1) as [-> | ->] by lia; rewrite E in T; lia. }
  rewrite Hc0, IH by (auto; lia).
  destruct l as [|y l]; [reflexivity|].
  inversion H3; subst.
  sweep lane_ok y H4 as T.
  rewrite !andb_true_iff in T. destruct T as [[[T _] _] _].
  apply Bool.eqb_prop in T. rewrite T. reflexivity.
Qed.

Lemma eight_digits_word_spec : forall l, length l = 8%nat ->
  Forall (fun x => x < 256) l ->
  eight_digits_word (lanes 8 l) = forallb is_digb l.
Proof.
  intros l L H. unfold eight_digits_word, u64.
  replace (lanes 8 l + 0x0606060606060606) with (lanes 8 l + lanes 8 (map (fun _ => 6) l) + 0).
  2:{ destruct l as [|? [|? [|? [|? [|? [|? [|? [|? [|]]]]]]]]]; try discriminate.
      cbn [map]. change (lanes 8 [6;6;6;6;6;6;6;6]) with 0x0606060606060606. lia. }
  change (2^64) with (2^(8 * N.of_nat 8)). rewrite <- L, <- addc_spec.
  replace 0xF0F0F0F0F0F0F0F0 with (lanes 8 (repeat 0xF0 8)) by reflexivity.
  assert (M : forall k, length k = 8%nat -> Forall (fun x => x < 256) k ->
     N.land (lanes 8 k) (lanes 8 (repeat 0xF0 8)) = lanes 8 (map (fun x => N.land x 0xF0) k)).
  { intros k Lk Hk. rewrite land_lanes; [|rewrite repeat_length; auto|exact Hk|repeat constructor].
    f_equal. destruct k as [|? [|? [|? [|? [|? [|? [|? [|? [|]]]]]]]]]; try discriminate. reflexivity. }
  rewrite (M l L H), M by (rewrite ?addc_length; auto using addc_bytes).
  rewrite lanes_shiftr4 by apply addc_bytes.
  rewrite lor_lanes.
  - rewrite lanes_repeat_eq.
    + rewrite combine_test by (auto; lia).
      destruct l as [|x l]; [discriminate|].
      inversion H; subst. cbn [forallb].
      sweep lane_ok x H2 as T.
      rewrite !andb_true_iff in T. destruct T as [[[T _] _] _].
      apply Bool.eqb_prop in T. now rewrite T.
    + apply Forall_forall. intros y Hy. apply in_map_iff in Hy as ([u v] & <- & Hin).
      cbn [fst snd]. change 256 with (2^8). apply lor_lt.
      * apply in_combine_l, in_map_iff in Hin as (z & <- & Hz).
        apply land_lt. rewrite Forall_forall in H. now apply H.
      * apply in_combine_r, in_map_iff in Hin as (z & <- & Hz).
        pose proof (addc_bytes l 0) as Hb. rewrite Forall_forall in Hb. apply Hb in Hz.
        sweep land_F0_div z Hz as T. change (2^8) with 256. lia.
    + rewrite map_length, combine_length, !map_length, addc_length, L. reflexivity.
  - rewrite !map_length, addc_length. reflexivity.
  - apply Forall_map. eapply Forall_impl; [|exact H]. intros a Ha. now apply land_lt.
  - apply Forall_map. eapply Forall_impl; [|apply (addc_bytes l 0)]. intros a Ha.
    sweep land_F0_div a Ha as T. change (2^8) with 256. cbv beta in *. lia.
Qed.

(** ** Word-at-a-time digit conversion *)

Lemma land_0F : all_below 256 (fun b => implb (is_digb b) (N.land b 0x0F =? b - 48)) = true.
Proof. vm_compute. reflexivity. Qed.

Lemma dig_land : forall b, is_dig b -> N.land b 0x0F = b - 48.
Proof.
  intros b H. assert (Hb : b < 256) by (unfold is_dig in H; lia).
  sweep land_0F b Hb as T. apply is_digb_spec in H. rewrite H in T. cbn in T. lia.
Qed.

Lemma small_land_255 : forall p, p < 256 -> N.land p 255 = p.
Proof. intros p H. change 255 with (N.ones 8). rewrite N.land_ones. now apply N.mod_small. Qed.

Lemma small_land_65535 : forall p, p < 65536 -> N.land p 65535 = p.
Proof. intros p H. change 65535 with (N.ones 16). rewrite N.land_ones. now apply N.mod_small. Qed.

Lemma parse_8_word_spec : forall l, length l = 8%nat -> digits l ->
  parse_8_word (lanes 8 l) = dec_val l.
Proof.
  intros l L H.
  destruct l as [|b0 [|b1 [|b2 [|b3 [|b4 [|b5 [|b6 [|b7 [|]]]]]]]]]; try discriminate.
  unfold digits in H. repeat match goal with
  | H : Forall is_dig (_ :: _) |- _ => inversion H; subst; clear H
  | H : Forall is_dig [] |- _ => clear H
  end.
  assert (HB : Forall (fun x => x < 2^8) [b0;b1;b2;b3;b4;b5;b6;b7]).
  { repeat constructor; unfold is_dig in *; change (2^8) with 256; lia. }
  unfold parse_8_word.
  replace 0x0F000F000F000F00 with (lanes 8 [0;15;0;15;0;15;0;15]) by reflexivity.
  replace 0x000F000F000F000F with (lanes 8 [15;0;15;0;15;0;15;0]) by reflexivity.
  rewrite !land_lanes by (auto; repeat constructor).
  cbn [combine map fst snd]. rewrite !N.land_0_r, !dig_land by assumption.
  set (x0 := b0 - 48); set (x1 := b1 - 48); set (x2 := b2 - 48); set (x3 := b3 - 48);
  set (x4 := b4 - 48); set (x5 := b5 - 48); set (x6 := b6 - 48); set (x7 := b7 - 48).
  assert (B0 : x0 <= 9) by (unfold is_dig in *; lia).
  assert (B1 : x1 <= 9) by (unfold is_dig in *; lia).
  assert (B2 : x2 <= 9) by (unfold is_dig in *; lia).
  assert (B3 : x3 <= 9) by (unfold is_dig in *; lia).
  assert (B4 : x4 <= 9) by (unfold is_dig in *; lia).
  assert (B5 : x5 <= 9) by (unfold is_dig in *; lia).
  assert (B6 : x6 <= 9) by (unfold is_dig in *; lia).
  assert (B7 : x7 <= 9) by (unfold is_dig in *; lia).
  assert (V : dec_val [b0;b1;b2;b3;b4;b5;b6;b7] =
    x0 * 10000000 + x1 * 1000000 + x2 * 100000 + x3 * 10000 + x4 * 1000 + x5 * 100 + x6 * 10 + x7).
  { unfold dec_val; cbn [dec_acc]. fold x0 x1 x2 x3 x4 x5 x6 x7. lia. }
  rewrite V. clear V HB. clearbody x0 x1 x2 x3 x4 x5 x6 x7.
  set (p0 := 10 * x0 + x1). set (p1 := 10 * x2 + x3).
  set (p2 := 10 * x4 + x5). set (p3 := 10 * x6 + x7).
  assert (E2 : u64 (N.shiftr (lanes 8 [0; x1; 0; x3; 0; x5; 0; x7]) 8
       + u64 (lanes 8 [x0; 0; x2; 0; x4; 0; x6; 0] * 10)) = lanes 16 [p0;p1;p2;p3]).
  { rewrite N.shiftr_div_pow2. cbn [lanes]. rewrite (horner_div 8 0) by lia.
    unfold u64. change (2^8) with 256. change (2^16) with 65536. change (2^64) with 18446744073709551616.
    rewrite !N.mod_small by lia. unfold p0, p1, p2, p3. lia. }
  rewrite E2. clear E2.
  assert (P0 : p0 <= 99) by (unfold p0; lia).
  assert (P1 : p1 <= 99) by (unfold p1; lia).
  assert (P2 : p2 <= 99) by (unfold p2; lia).
  assert (P3 : p3 <= 99) by (unfold p3; lia).
  assert (HB : Forall (fun x => x < 2^16) [p0;p1;p2;p3]).
  { repeat constructor; change (2^16) with 65536; lia. }
  replace 0x00FF000000FF0000 with (lanes 16 [0;255;0;255]) by reflexivity.
  replace 0x000000FF000000FF with (lanes 16 [255;0;255;0]) by reflexivity.
  rewrite !(land_lanes 16) by (auto; repeat constructor).
  cbn [combine map fst snd]. rewrite !N.land_0_r, !small_land_255 by lia.
  set (q0 := 100 * p0 + p1). set (q1 := 100 * p2 + p3).
  assert (E3 : u64 (N.shiftr (lanes 16 [0; p1; 0; p3]) 16
       + u64 (lanes 16 [p0; 0; p2; 0] * 100)) = lanes 32 [q0;q1]).
  { rewrite N.shiftr_div_pow2. cbn [lanes]. rewrite (horner_div 16 0) by lia.
    unfold u64. change (2^32) with 4294967296. change (2^16) with 65536. change (2^64) with 18446744073709551616.
    rewrite !N.mod_small by lia. unfold q0, q1. lia. }
  rewrite E3. clear E3 HB.
  assert (Q0 : q0 <= 9999) by (unfold q0; lia).
  assert (Q1 : q1 <= 9999) by (unfold q1; lia).
  assert (HB : Forall (fun x => x < 2^32) [q0;q1]).
  { repeat constructor; change (2^32) with 4294967296; lia. }
  replace 0x0000FFFF00000000 with (lanes 32 [0;65535]) by reflexivity.
  replace 0x000000000000FFFF with (lanes 32 [65535;0]) by reflexivity.
  rewrite !(land_lanes 32) by (auto; repeat constructor).
  cbn [combine map fst snd]. rewrite !N.land_0_r, !small_land_65535 by lia.
  rewrite N.shiftr_div_pow2. cbn [lanes]. rewrite (horner_div 32 0) by lia.
  change 0xFFFFFFFF with (N.ones 32). rewrite N.land_ones.
  unfold u64. change (2^32) with 4294967296. change (2^64) with 18446744073709551616.
  rewrite !N.mod_small by lia. unfold q0, q1, p0, p1, p2, p3. lia.
Qed.

(** ** Reading words *)

Lemma rd64_at : forall buf i l, length l = 8%nat -> sub_at buf i l ->
  rd64 buf i = Ok (lanes 8 l).
Proof.
  intros buf i l L H.
  destruct l as [|b0 [|b1 [|b2 [|b3 [|b4 [|b5 [|b6 [|b7 [|]]]]]]]]]; try discriminate.
  cbn [sub_at] in H. decompose [and] H. unfold rd64.
  rewrite !Nat.add_succ_r, !Nat.add_0_r.
  repeat (erewrite rd_some by eassumption; cbn [bind]).
  now rewrite le64_lanes.
Qed.

Lemma parse_8_digits_at : forall buf i ds, length ds = 8%nat -> digits ds ->
  sub_at buf i ds -> parse_8_digits buf i = Ok (dec_val ds).
Proof.
  intros. unfold parse_8_digits. erewrite rd64_at by eassumption. cbn [bind].
  now rewrite parse_8_word_spec.
Qed.

Lemma digits_firstn : forall n ds, digits ds -> digits (firstn n ds).
Proof. intros n ds H. rewrite <- (firstn_skipn n ds) in H. now apply Forall_app in H. Qed.
Lemma digits_skipn : forall n ds, digits ds -> digits (skipn n ds).
Proof. intros n ds H. rewrite <- (firstn_skipn n ds) in H. now apply Forall_app in H. Qed.

Lemma parse_16_digits_at : forall buf i ds, length ds = 16%nat -> digits ds ->
  sub_at buf i ds -> parse_16_digits buf i = Ok (dec_val ds).
Proof.
  intros buf i ds L H S. unfold parse_16_digits.
  rewrite <- (firstn_skipn 8 ds) in S. apply sub_at_app in S as [S1 S2].
  rewrite firstn_length, L in S2. change (Nat.min 8 16) with 8%nat in S2.
  assert (L1 : length (firstn 8 ds) = 8%nat) by (rewrite firstn_length; lia).
  assert (L2 : length (skipn 8 ds) = 8%nat) by (rewrite skipn_length; lia).
  rewrite (parse_8_digits_at _ _ (firstn 8 ds)) by auto using digits_firstn. cbn [bind].
  rewrite (parse_8_digits_at _ _ (skipn 8 ds)) by auto using digits_skipn. cbn [bind].
  pose proof (dec_val_lt _ (digits_firstn 8 _ H)) as B1. rewrite L1 in B1.
  pose proof (dec_val_lt _ (digits_skipn 8 _ H)) as B2. rewrite L2 in B2.
  change (10 ^ N.of_nat 8) with 100000000 in *.
  rewrite <- (firstn_skipn 8 ds) at 3. rewrite dec_val_app, L2.
  change (10 ^ N.of_nat 8) with 100000000.
  unfold u64. change (2^64) with 18446744073709551616. rewrite !N.mod_small by lia. reflexivity.
Qed.

(** ** The digit loops *)

Lemma u64_idem : forall x, u64 (u64 x) = u64 x.
Proof. intros. unfold u64. now rewrite N.mod_mod. Qed.

Lemma accum_u64 : forall a m d, accum (u64 a) m d = u64 (a * m + d).
Proof.
  intros. unfold accum, u64. rewrite N.mul_mod_idemp_l by lia.
  now rewrite N.add_mod_idemp_l by lia.
Qed.

Lemma parse_digit_dig : forall b, is_dig b -> parse_digit b = b - 48.
Proof. intros b H. unfold parse_digit, is_dig, c_0 in *. lia. Qed.

Lemma parse_digit_nondig : forall b, b < 256 -> ~ is_dig b -> (10 <=? parse_digit b) = true.
Proof. intros b Hb H. unfold parse_digit, is_dig, c_0 in *. lia. Qed.

Lemma dec_acc_chunk : forall n m acc ds, length ds = n -> 10 ^ N.of_nat n = m ->
  u64 (acc * m + dec_val ds) = u64 (dec_acc acc ds).
Proof. intros n m acc ds <- <-. now rewrite <- dec_acc_lin. Qed.

Lemma sub_at_firstn : forall n t buf p, sub_at buf p t -> sub_at buf p (firstn n t).
Proof. intros n t buf p H. rewrite <- (firstn_skipn n t) in H. now apply sub_at_app in H. Qed.

Lemma sub_at_skipn' : forall n t buf p, (n <= length t)%nat -> sub_at buf p t -> sub_at buf (p + n) (skipn n t).
Proof.
  intros n t buf p Hn H. rewrite <- (firstn_skipn n t) in H. apply sub_at_app in H as [_ H].
  rewrite firstn_length, Nat.min_l in H by lia. exact H.
Qed.

Lemma known16_spec : forall fuel buf ds i acc, digits ds -> sub_at buf i ds ->
  (length ds < fuel)%nat ->
  exists ds1 ds2, ds = ds1 ++ ds2 /\ (length ds2 < 16)%nat /\
    known16 fuel buf i (i + length ds) (u64 acc) = Ok ((i + length ds1)%nat, u64 (dec_acc acc ds1)).
Proof.
  induction fuel as [|f IH]; intros buf ds i acc H S L; [lia|].
  cbn [known16]. destruct (Nat.leb_spec 16 (i + length ds - i)) as [G|G].
  - assert (L16 : length (firstn 16 ds) = 16%nat) by (rewrite firstn_length; lia).
    rewrite (parse_16_digits_at _ _ (firstn 16 ds)) by (auto using digits_firstn, sub_at_firstn).
    cbn [bind]. rewrite accum_u64.
    rewrite (dec_acc_chunk 16) by auto.
    destruct (IH buf (skipn 16 ds) (i + 16)%nat (dec_acc acc (firstn 16 ds))) as (d1 & d2 & E & L2 & K).
    { now apply digits_skipn. } { apply sub_at_skipn'; auto; lia. } { rewrite skipn_length; lia. }
    rewrite skipn_length in K.
    replace (i + 16 + (length ds - 16))%nat with (i + length ds)%nat in K by lia.
    exists (firstn 16 ds ++ d1), d2. repeat split.
    + rewrite <- app_assoc, <- E. now rewrite firstn_skipn.
    + exact L2.
    + rewrite K, dec_acc_app, app_length, L16. do 2 f_equal. lia.
  - exists [], ds. cbn [app length dec_acc]. repeat split; [lia|].
    now rewrite Nat.add_0_r.
Qed.

Lemma known1_spec : forall fuel buf ds i acc, digits ds -> sub_at buf i ds ->
  (length ds < fuel)%nat ->
  known1 fuel buf i (i + length ds) (u64 acc) = Ok ((i + length ds)%nat, u64 (dec_acc acc ds)).
Proof.
  induction fuel as [|f IH]; intros buf ds i acc H S L; [lia|].
  cbn [known1]. destruct ds as [|d r].
  - cbn [length dec_acc]. rewrite Nat.add_0_r, Nat.ltb_irrefl. reflexivity.
  - cbn [length] in *. destruct S as [S1 S2]. inversion H; subst.
    destruct (Nat.ltb_spec i (i + Datatypes.S (length r))); [|lia].
    rewrite (rd_some _ _ _ S1). cbn [bind]. rewrite accum_u64, parse_digit_dig by assumption.
    replace (i + Datatypes.S (length r))%nat with (Datatypes.S i + length r)%nat by lia.
    rewrite IH by (auto; lia). reflexivity.
Qed.

(** The 64-bit accumulation of the delimited parser. *)
Lemma unsigned_parser_known_acc : forall w rc buf p ds, digits ds ->
  sub_at buf (first p) ds -> last p = (first p + length ds)%nat ->
  unsigned_parser_known w rc buf p =
  (let v := u64 (dec_val ds) in
   if rc then x <- narrow_cast_u w v ;; Ok (x, set_first p (last p))
   else Ok (cast_u w v, set_first p (last p))).
Proof.
  intros w rc buf p ds H S L. unfold unsigned_parser_known.
  rewrite L. set (i := first p) in *.
  destruct (known16_spec (Datatypes.S (i + length ds - i)) buf ds i 0) as (d1 & d2 & E & L2 & K); auto; try lia.
  change (u64 0) with 0 in K. rewrite K. cbn [bind].
  rewrite E in S. apply sub_at_app in S as [S1 S2].
  rewrite E in H. apply Forall_app in H as [H1 H2].
  assert (LE : length ds = (length d1 + length d2)%nat) by (rewrite E, app_length; lia).
  assert (FIN : (let v := u64 (dec_val ds) in
   if rc then x <- narrow_cast_u w v ;; Ok (x, set_first p (i + length ds))
   else Ok (cast_u w v, set_first p (i + length ds))) =
   (if rc then _ <- ensure ((u64 (dec_val ds) <=? umax 64) && (0 <=? (20 + 2^64 - N.of_nat (ps_size p)) mod 2^64))%N NumberOutOfRange ;;
      v <- narrow_cast_u w (u64 (dec_val ds)) ;; Ok (v, set_first p (i + length ds))
    else Ok (cast_u w (u64 (dec_val ds)), set_first p (i + length ds)))).
  { cbv zeta. destruct rc; [|reflexivity].
    replace (u64 (dec_val ds) <=? umax 64) with true.
    2:{ symmetry. apply N.leb_le. unfold u64, umax. pose proof (N.mod_lt (dec_val ds) (2^64)). lia. }
    replace (0 <=? (20 + 2 ^ 64 - N.of_nat (ps_size p)) mod 2 ^ 64) with true
      by (symmetry; apply N.leb_le; lia).
    reflexivity. }
  etransitivity; [|symmetry; exact FIN]. clear FIN.
  destruct (Nat.leb_spec 8 (i + length ds - (i + length d1))) as [G|G].
  - assert (L8 : length (firstn 8 d2) = 8%nat) by (rewrite firstn_length; lia).
    rewrite (parse_8_digits_at _ _ (firstn 8 d2)) by auto using digits_firstn, sub_at_firstn.
    cbn [bind]. rewrite accum_u64. rewrite (dec_acc_chunk 8) by auto.
    pose proof (known1_spec (Datatypes.S (i + length ds - (i + length d1 + 8))) buf (skipn 8 d2)
        (i + length d1 + 8) (dec_acc (dec_acc 0 d1) (firstn 8 d2))) as K1.
    rewrite skipn_length in K1.
    replace (i + length d1 + 8 + (length d2 - 8))%nat with (i + length ds)%nat in K1 by lia.
    rewrite K1; [|now apply digits_skipn | apply sub_at_skipn'; auto; lia | lia].
    cbn [bind]. rewrite <- !dec_acc_app, firstn_skipn, <- E. reflexivity.
  - cbn [bind].
    pose proof (known1_spec (Datatypes.S (i + length ds - (i + length d1))) buf d2
        (i + length d1) (dec_acc 0 d1)) as K1.
    replace (i + length d1 + length d2)%nat with (i + length ds)%nat in K1 by lia.
    rewrite K1 by (auto; lia). cbn [bind]. rewrite <- !dec_acc_app, <- E. reflexivity.
Qed.

(** The run of digits [ds] at [i] ends at [last] or at a non-digit. *)
Definition run_ends (buf : list N) (j last : nat) : Prop :=
  (j <= last)%nat /\ (j = last \/ exists b, nth_error buf j = Some b /\ ~ is_dig b).

Lemma forallb_digits : forall l, forallb is_digb l = true <-> digits l.
Proof.
  intros. unfold digits. rewrite forallb_forall, Forall_forall.
  split; intros H x Hx; [apply is_digb_spec|apply is_digb_spec]; auto.
Qed.

Lemma sub_at_window : forall buf i n, (i + n <= length buf)%nat ->
  exists l, length l = n /\ sub_at buf i l.
Proof.
  intros buf i n H. exists (firstn n (skipn i buf)). split.
  - rewrite firstn_length, skipn_length. lia.
  - apply sub_at_firstn, sub_at_skipn.
Qed.

Lemma sub_at_bytes : forall t buf i, is_bytes buf -> sub_at buf i t -> is_bytes t.
Proof.
  induction t as [|c t IH]; intros buf i HB S; constructor.
  - destruct S as [S _]. eapply is_bytes_nth; eauto.
  - destruct S as [_ S]. eapply IH; eauto.
Qed.

Lemma sub_at_agree : forall a b buf i k, sub_at buf i a -> sub_at buf i b ->
  (k < length a)%nat -> (k < length b)%nat -> nth_error a k = nth_error b k.
Proof.
  intros a b buf i k Ha Hb La Lb.
  destruct (rd_in a k La) as [x Hx]. destruct (rd_in b k Lb) as [y Hy].
  pose proof (sub_at_nth _ _ _ _ _ Ha Hx) as E1.
  pose proof (sub_at_nth _ _ _ _ _ Hb Hy) as E2. congruence.
Qed.

Lemma made_of_eight_at : forall buf i last ds, is_bytes buf -> (last <= length buf)%nat ->
  digits ds -> sub_at buf i ds -> run_ends buf (i + length ds) last ->
  (8 <= last - i)%nat ->
  is_made_of_eight_digits buf i = Ok (8 <=? length ds)%nat.
Proof.
  intros buf i last ds HB HL HD S [R1 R2] G.
  destruct (sub_at_window buf i 8) as (l & Ll & Sl); [lia|].
  unfold is_made_of_eight_digits. rewrite (rd64_at _ _ l) by assumption. cbn [bind].
  assert (Hl : is_bytes l) by (eapply sub_at_bytes; eauto).
  rewrite eight_digits_word_spec by assumption. f_equal.
  destruct (Nat.leb_spec 8 (length ds)) as [C|C].
  - apply forallb_digits. apply Forall_forall. intros x Hx.
    apply In_nth_error in Hx as [k Hk].
    assert (k < 8)%nat by (rewrite <- Ll; apply nth_error_Some; congruence).
    rewrite (sub_at_agree l ds buf i k) in Hk by (auto; lia).
    apply nth_error_In in Hk. unfold digits in HD. rewrite Forall_forall in HD. auto.
  - apply Bool.not_true_is_false. intros T. apply forallb_digits in T.
    destruct R2 as [R2|(b & Hb & Nb)]; [lia|].
    destruct (rd_in l (length ds)) as [x Hx]; [lia|].
    pose proof (sub_at_nth _ _ _ _ _ Sl Hx) as E. rewrite Hb in E. injection E as ->.
    apply nth_error_In in Hx. unfold digits in T. rewrite Forall_forall in T. auto.
Qed.

Lemma has_eight_at_spec : forall buf i last ds, is_bytes buf -> (last <= length buf)%nat ->
  digits ds -> sub_at buf i ds -> run_ends buf (i + length ds) last ->
  has_eight_at buf i last = Ok (8 <=? length ds)%nat.
Proof.
  intros. unfold has_eight_at. destruct (Nat.leb_spec 8 (last - i)).
  - eapply made_of_eight_at; eauto.
  - destruct H3. f_equal. symmetry. apply Nat.leb_gt. lia.
Qed.

Lemma not_known16_spec : forall fuel buf last ds i acc, is_bytes buf -> (last <= length buf)%nat ->
  digits ds -> sub_at buf i ds -> run_ends buf (i + length ds) last ->
  (16 <= length ds)%nat -> (length ds < fuel)%nat ->
  exists ds1 ds2, ds = ds1 ++ ds2 /\ (length ds2 < 16)%nat /\
    not_known16 fuel buf i last (u64 acc)
    = Ok ((i + length ds1)%nat, u64 (dec_acc acc ds1), (8 <=? length ds2)%nat).
Proof.
  induction fuel as [|f IH]; intros buf last ds i acc HB HL H S R G L; [lia|].
  cbn [not_known16].
  assert (L16 : length (firstn 16 ds) = 16%nat) by (rewrite firstn_length; lia).
  rewrite (parse_16_digits_at _ _ (firstn 16 ds)) by (auto using digits_firstn, sub_at_firstn).
  cbn [bind]. rewrite accum_u64.
  rewrite (dec_acc_chunk 16) by auto.
  set (r := skipn 16 ds).
  assert (Hr : digits r) by now apply digits_skipn.
  assert (Sr : sub_at buf (i + 16) r) by (apply sub_at_skipn'; auto; lia).
  assert (Lr : length r = (length ds - 16)%nat) by apply skipn_length.
  assert (Rr : run_ends buf (i + 16 + length r) last).
  { replace (i + 16 + length r)%nat with (i + length ds)%nat by lia. exact R. }
  rewrite (has_eight_at_spec buf (i + 16) last r) by auto. cbn [bind].
  assert (SX : (if (8 <=? length r)%nat
      then if (16 <=? last - (i + 16))%nat then is_made_of_eight_digits buf (i + 16 + 8) else Ok false
      else Ok false) = Ok (16 <=? length r)%nat).
  { destruct (Nat.leb_spec 8 (length r)).
    - destruct (Nat.leb_spec 16 (last - (i + 16))).
      + rewrite (made_of_eight_at buf (i + 16 + 8) last (skipn 8 r)); auto.
        * rewrite skipn_length. f_equal.
          destruct (Nat.leb_spec 8 (length r - 8)), (Nat.leb_spec 16 (length r)); auto; lia.
        * now apply digits_skipn.
        * apply sub_at_skipn'; auto.
        * rewrite skipn_length. replace (i + 16 + 8 + (length r - 8))%nat with (i + 16 + length r)%nat by lia. exact Rr.
        * lia.
      + destruct Rr. f_equal. symmetry. apply Nat.leb_gt. lia.
    - f_equal. symmetry. apply Nat.leb_gt. lia. }
  rewrite SX. cbn [bind].
  assert (SPL : ds = firstn 16 ds ++ r) by (symmetry; apply firstn_skipn).
  destruct (Nat.leb_spec 16 (length r)) as [C|C].
  - destruct (IH buf last r (i + 16)%nat (dec_acc acc (firstn 16 ds))) as (d1 & d2 & E & L2 & K); auto; try lia.
    exists (firstn 16 ds ++ d1), d2. repeat split; auto.
    + rewrite <- app_assoc, <- E. exact SPL.
    + rewrite K, dec_acc_app, app_length, L16. do 3 f_equal. lia.
  - exists (firstn 16 ds), r. repeat split; auto. now rewrite L16.
Qed.

Lemma not_known1_spec : forall fuel buf last ds i acc, is_bytes buf ->
  digits ds -> sub_at buf i ds -> run_ends buf (i + length ds) last -> (length ds < fuel)%nat ->
  not_known1 fuel buf i last (u64 acc) = Ok ((i + length ds)%nat, u64 (dec_acc acc ds)).
Proof.
  induction fuel as [|f IH]; intros buf last ds i acc HB H S R L; [lia|].
  cbn [not_known1]. destruct ds as [|d r].
  - cbn [length dec_acc] in *. rewrite Nat.add_0_r in *.
    destruct R as [R1 [->|(b & Hb & Nb)]].
    + now rewrite Nat.ltb_irrefl.
    + destruct (Nat.ltb_spec i last); [|reflexivity].
      rewrite (rd_some _ _ _ Hb). cbn [bind].
      rewrite parse_digit_nondig; auto. eapply is_bytes_nth; eauto.
  - cbn [length] in *. destruct S as [S1 S2]. inversion H; subst.
    pose proof R as [R1 _].
    destruct (Nat.ltb_spec i last); [|lia].
    rewrite (rd_some _ _ _ S1). cbn [bind]. rewrite parse_digit_dig by assumption.
    destruct (N.leb_spec 10 (d - 48)); [unfold is_dig in *; lia|].
    rewrite accum_u64.
    rewrite (IH buf last r) by (auto; try lia;
      replace (Datatypes.S i + length r)%nat with (i + Datatypes.S (length r))%nat by lia; auto).
    cbn [dec_acc]. do 2 f_equal. lia.
Qed.

(** The 64-bit accumulation of the open-ended parser. *)
Lemma unsigned_parser_not_known_acc : forall w rc buf p ds, is_bytes buf ->
  (last p <= length buf)%nat -> ds <> [] -> digits ds ->
  sub_at buf (first p) ds -> run_ends buf (first p + length ds) (last p) ->
  unsigned_parser_not_known w rc buf p =
  (let v := u64 (dec_val ds) in
   let p' := set_first p (first p + length ds) in
   if rc then
     _ <- ensure (length ds <=? 20)%nat NumberOutOfRange ;;
     x <- narrow_cast_u w v ;; Ok (x, p')
   else Ok (cast_u w v, p')).
Proof.
  intros w rc buf p ds HB HL NE H S R. unfold unsigned_parser_not_known.
  assert (P : (0 < length ds)%nat) by (destruct ds; [congruence|cbn; lia]).
  pose proof R as [R1 _].
  unfold has_more. destruct (Nat.ltb_spec (first p) (last p)); [|lia]. cbn [ensure bind].
  set (i := first p) in *. set (l := last p) in *.
  rewrite (has_eight_at_spec buf i l ds) by auto. cbn [bind].
  assert (K : exists ds1 ds2, ds = ds1 ++ ds2 /\
    (if (8 <=? length ds)%nat && (16 <=? l - i)%nat
     then has_sixteen <- is_made_of_eight_digits buf (i + 8) ;;
          (if has_sixteen then not_known16 (Datatypes.S (l - i)) buf i l 0 else Ok (i, 0, (8 <=? length ds)%nat))
     else Ok (i, 0, (8 <=? length ds)%nat))
    = Ok ((i + length ds1)%nat, u64 (dec_acc 0 ds1), (8 <=? length ds2)%nat)).
  { destruct (Nat.leb_spec 8 (length ds)); cbn [andb].
    - destruct (Nat.leb_spec 16 (l - i)).
      + rewrite (made_of_eight_at buf (i + 8) l (skipn 8 ds)); auto.
        * cbn [bind]. rewrite skipn_length.
          destruct (Nat.leb_spec 8 (length ds - 8)).
          -- destruct (not_known16_spec (Datatypes.S (l - i)) buf l ds i 0) as (d1 & d2 & E & L2 & K); auto; try lia.
             exists d1, d2. split; auto.
          -- exists [], ds. cbn [app length dec_acc]. rewrite Nat.add_0_r.
             split; [reflexivity|]. do 2 f_equal. symmetry; now apply Nat.leb_le.
        * now apply digits_skipn.
        * apply sub_at_skipn'; auto.
        * rewrite skipn_length. replace (i + 8 + (length ds - 8))%nat with (i + length ds)%nat by lia. exact R.
        * lia.
      + exists [], ds. cbn [app length dec_acc]. rewrite Nat.add_0_r.
        split; [reflexivity|]. do 2 f_equal. symmetry; now apply Nat.leb_le.
    - exists [], ds. cbn [app length dec_acc]. rewrite Nat.add_0_r.
      split; [reflexivity|]. do 2 f_equal. symmetry; now apply Nat.leb_gt. }
  destruct K as (d1 & d2 & E & K). rewrite K. clear K. cbn [bind].
  assert (LE : length ds = (length d1 + length d2)%nat) by (rewrite E, app_length; lia).
  pose proof S as S0. rewrite E in S0. apply sub_at_app in S0 as [S1 S2].
  pose proof H as HX. rewrite E in HX. apply Forall_app in HX as [H1 H2].
  assert (R2 : run_ends buf (i + length d1 + length d2) l).
  { replace (i + length d1 + length d2)%nat with (i + length ds)%nat by lia. exact R. }
  assert (K1 : exists j acc, 
    (if (8 <=? length d2)%nat then v <- parse_8_digits buf (i + length d1) ;; Ok ((i + length d1 + 8)%nat, accum (u64 (dec_acc 0 d1)) 100000000 v)
     else Ok ((i + length d1)%nat, u64 (dec_acc 0 d1))) = Ok (j, acc) /\
    not_known1 (Datatypes.S (l - j)) buf j l acc = Ok ((i + length ds)%nat, u64 (dec_val ds))).
  { destruct (Nat.leb_spec 8 (length d2)).
    - assert (L8 : length (firstn 8 d2) = 8%nat) by (rewrite firstn_length; lia).
      rewrite (parse_8_digits_at _ _ (firstn 8 d2)) by auto using digits_firstn, sub_at_firstn.
      cbn [bind]. rewrite accum_u64. rewrite (dec_acc_chunk 8) by auto. do 2 eexists. split; [reflexivity|].
      rewrite (not_known1_spec _ buf l (skipn 8 d2)); auto.
      + rewrite skipn_length, <- !dec_acc_app, firstn_skipn, <- E. do 2 f_equal. lia.
      + now apply digits_skipn.
      + apply sub_at_skipn'; auto.
      + rewrite skipn_length. replace (i + length d1 + 8 + (length d2 - 8))%nat with (i + length d1 + length d2)%nat by lia. exact R2.
      + rewrite skipn_length. lia.
    - do 2 eexists. split; [reflexivity|].
      rewrite (not_known1_spec _ buf l d2) by (auto; lia).
      rewrite <- !dec_acc_app, <- E. do 2 f_equal. lia. }
  destruct K1 as (j & acc & K1 & K2). rewrite K1. cbn [bind]. rewrite K2. cbn [bind].
  replace (i + length ds - i)%nat with (length ds) by lia. reflexivity.
Qed.
