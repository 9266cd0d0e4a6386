(** The integer loops of the zero-terminated parser, in closed form: the copies
    of the lemmas about the checked loops. *)
From Coq Require Import List NArith ZArith Bool Arith Lia.
From Coq Require Import ZifyBool ZifyNat ZifyN.
From Verif Require Import Base Mem PolicyModel IntModel SpecNum IntProofs ZModel.
Import ListNotations.
Local Open Scope N_scope.

Lemma digits_z_spec : forall fuel buf ds i acc, is_bytes buf -> digits ds -> sub_at buf i ds ->
  (exists b, nth_error buf (i + length ds) = Some b /\ ~ is_dig b) -> (length ds < fuel)%nat ->
  digits_z fuel buf i (u64 acc) = Ok ((i + length ds)%nat, u64 (dec_acc acc ds)).
Proof.
  induction fuel as [|f IH]; intros buf ds i acc HB H S (b & Hb & Nb) L; [lia|].
  cbn [digits_z]. destruct ds as [|d r].
  - cbn [length dec_acc] in *. rewrite Nat.add_0_r in *. rewrite (rd_some _ _ _ Hb). cbn [bind].
    rewrite parse_digit_nondig; auto. eapply is_bytes_nth; eauto.
  - cbn [length] in *. destruct S as [S1 S2]. inversion H; subst.
    rewrite (rd_some _ _ _ S1). cbn [bind]. rewrite parse_digit_dig by assumption.
    destruct (N.leb_spec 10 (d - 48)); [unfold is_dig in *; lia|].
    rewrite accum_u64. rewrite (IH buf r); auto; [cbn [dec_acc]; do 2 f_equal; lia| |lia].
    exists b. split; auto. now replace (Datatypes.S i + length r)%nat with (i + Datatypes.S (length r))%nat by lia.
Qed.

(** The 64-bit accumulation of the open-ended parser, the run may be empty. *)
Lemma not_known_run : forall w rc buf p ds, is_bytes buf ->
  (last p <= length buf)%nat -> (first p < last p)%nat -> digits ds ->
  sub_at buf (first p) ds -> run_ends buf (first p + length ds) (last p) ->
  unsigned_parser_not_known w rc buf p =
  (let v := u64 (dec_val ds) in
   let p' := set_first p (first p + length ds) in
   if rc then
     _ <- ensure (length ds <=? 20)%nat NumberOutOfRange ;;
     x <- narrow_cast_u w v ;; Ok (x, p')
   else Ok (cast_u w v, p')).
Proof.
  intros w rc buf p ds HB HL NE H S R. unfold unsigned_parser_not_known.
  pose proof R as [R1 _].
  unfold has_more. destruct (Nat.ltb_spec (first p) (last p)); [|lia]. cbn [ensure bind].
  set (i := first p) in *. set (l := last p) in *.
  rewrite (has_eight_at_spec buf i l ds) by auto. cbn [bind].
  assert (K : exists ds1 ds2, ds = ds1 ++ ds2 /\
    (if (8 <=? length ds)%nat && (16 <=? l - i)%nat
     then has_sixteen <- is_made_of_eight_digits buf (i + 8) ;;
          (if has_sixteen then not_known16 (Datatypes.S (l - i)) buf i l 0 else Ok (i, 0, (8 <=? length ds)%nat))
     else Ok (i, 0, (8 <=? length ds)%nat))
    = Ok ((i + length ds1)%nat, u64 (dec_acc 0 ds1), (8 <=? length ds2)%nat)).
  { destruct (Nat.leb_spec 8 (length ds)); cbn [andb].
    - destruct (Nat.leb_spec 16 (l - i)).
      + rewrite (made_of_eight_at buf (i + 8) l (skipn 8 ds)); auto.
        * cbn [bind]. rewrite skipn_length.
          destruct (Nat.leb_spec 8 (length ds - 8)).
          -- destruct (not_known16_spec (Datatypes.S (l - i)) buf l ds i 0) as (d1 & d2 & E & L2 & K); auto; try lia.
             exists d1, d2. split; auto.
          -- exists [], ds. cbn [app length dec_acc]. rewrite Nat.add_0_r.
             split; [reflexivity|]. do 2 f_equal. symmetry; now apply Nat.leb_le.
        * now apply digits_skipn.
        * apply sub_at_skipn'; auto.
        * rewrite skipn_length. replace (i + 8 + (length ds - 8))%nat with (i + length ds)%nat by lia. exact R.
        * lia.
      + exists [], ds. cbn [app length dec_acc]. rewrite Nat.add_0_r.
        split; [reflexivity|]. do 2 f_equal. symmetry; now apply Nat.leb_le.
    - exists [], ds. cbn [app length dec_acc]. rewrite Nat.add_0_r.
      split; [reflexivity|]. do 2 f_equal. symmetry; now apply Nat.leb_gt. }
  destruct K as (d1 & d2 & E & K). rewrite K. clear K. cbn [bind].
  assert (LE : length ds = (length d1 + length d2)%nat) by (rewrite E, app_length; lia).
  pose proof S as S0. rewrite E in S0. apply sub_at_app in S0 as [S1 S2].
  pose proof H as HX. rewrite E in HX. apply Forall_app in HX as [H1 H2].
  assert (R2 : run_ends buf (i + length d1 + length d2) l).
  { replace (i + length d1 + length d2)%nat with (i + length ds)%nat by lia. exact R. }
  assert (K1 : exists j acc, 
    (if (8 <=? length d2)%nat then v <- parse_8_digits buf (i + length d1) ;; Ok ((i + length d1 + 8)%nat, accum (u64 (dec_acc 0 d1)) 100000000 v)
     else Ok ((i + length d1)%nat, u64 (dec_acc 0 d1))) = Ok (j, acc) /\
    not_known1 (Datatypes.S (l - j)) buf j l acc = Ok ((i + length ds)%nat, u64 (dec_val ds))).
  { destruct (Nat.leb_spec 8 (length d2)).
    - assert (L8 : length (firstn 8 d2) = 8%nat) by (rewrite firstn_length; lia).
      rewrite (parse_8_digits_at _ _ (firstn 8 d2)) by auto using digits_firstn, sub_at_firstn.
      cbn [bind]. rewrite accum_u64. rewrite (dec_acc_chunk 8) by auto. do 2 eexists. split; [reflexivity|].
      rewrite (not_known1_spec _ buf l (skipn 8 d2)); auto.
      + rewrite skipn_length, <- !dec_acc_app, firstn_skipn, <- E. do 2 f_equal. lia.
      + now apply digits_skipn.
      + apply sub_at_skipn'; auto.
      + rewrite skipn_length. replace (i + length d1 + 8 + (length d2 - 8))%nat with (i + length d1 + length d2)%nat by lia. exact R2.
      + rewrite skipn_length. lia.
    - do 2 eexists. split; [reflexivity|].
      rewrite (not_known1_spec _ buf l d2) by (auto; lia).
      rewrite <- !dec_acc_app, <- E. do 2 f_equal. lia. }
  destruct K1 as (j & acc & K1 & K2). rewrite K1. cbn [bind]. rewrite K2. cbn [bind].
  replace (i + length ds - i)%nat with (length ds) by lia. reflexivity.
Qed.

Lemma not_known_z_run : forall w rc buf p ds, is_bytes buf ->
  (last p <= length buf)%nat -> (first p < last p)%nat -> digits ds ->
  sub_at buf (first p) ds -> run_ends buf (first p + length ds) (last p) ->
  (exists b, nth_error buf (first p + length ds) = Some b /\ ~ is_dig b) ->
  unsigned_parser_not_known_z w rc buf p =
  (let v := u64 (dec_val ds) in
   let p' := set_first p (first p + length ds) in
   if rc then
     _ <- ensure (length ds <=? 20)%nat NumberOutOfRange ;;
     x <- narrow_cast_u w v ;; Ok (x, p')
   else Ok (cast_u w v, p')).
Proof.
  intros w rc buf p ds HB HL NE H S R (bz & Bz & Dz).
  assert (BL : (first p + length ds < length buf)%nat) by (apply nth_error_Some; congruence). unfold unsigned_parser_not_known_z.
  pose proof R as [R1 _].
  unfold has_more. destruct (Nat.ltb_spec (first p) (last p)); [|lia]. cbn [ensure bind].
  set (i := first p) in *. set (l := last p) in *.
  rewrite (has_eight_at_spec buf i l ds) by auto. cbn [bind].
  assert (K : exists ds1 ds2, ds = ds1 ++ ds2 /\
    (if (8 <=? length ds)%nat && (16 <=? l - i)%nat
     then has_sixteen <- is_made_of_eight_digits buf (i + 8) ;;
          (if has_sixteen then not_known16 (Datatypes.S (l - i)) buf i l 0 else Ok (i, 0, (8 <=? length ds)%nat))
     else Ok (i, 0, (8 <=? length ds)%nat))
    = Ok ((i + length ds1)%nat, u64 (dec_acc 0 ds1), (8 <=? length ds2)%nat)).
  { destruct (Nat.leb_spec 8 (length ds)); cbn [andb].
    - destruct (Nat.leb_spec 16 (l - i)).
      + rewrite (made_of_eight_at buf (i + 8) l (skipn 8 ds)); auto.
        * cbn [bind]. rewrite skipn_length.
          destruct (Nat.leb_spec 8 (length ds - 8)).
          -- destruct (not_known16_spec (Datatypes.S (l - i)) buf l ds i 0) as (d1 & d2 & E & L2 & K); auto; try lia.
             exists d1, d2. split; auto.
          -- exists [], ds. cbn [app length dec_acc]. rewrite Nat.add_0_r.
             split; [reflexivity|]. do 2 f_equal. symmetry; now apply Nat.leb_le.
        * now apply digits_skipn.
        * apply sub_at_skipn'; auto.
        * rewrite skipn_length. replace (i + 8 + (length ds - 8))%nat with (i + length ds)%nat by lia. exact R.
        * lia.
      + exists [], ds. cbn [app length dec_acc]. rewrite Nat.add_0_r.
        split; [reflexivity|]. do 2 f_equal. symmetry; now apply Nat.leb_le.
    - exists [], ds. cbn [app length dec_acc]. rewrite Nat.add_0_r.
      split; [reflexivity|]. do 2 f_equal. symmetry; now apply Nat.leb_gt. }
  destruct K as (d1 & d2 & E & K). rewrite K. clear K. cbn [bind].
  assert (LE : length ds = (length d1 + length d2)%nat) by (rewrite E, app_length; lia).
  pose proof S as S0. rewrite E in S0. apply sub_at_app in S0 as [S1 S2].
  pose proof H as HX. rewrite E in HX. apply Forall_app in HX as [H1 H2].
  assert (R2 : run_ends buf (i + length d1 + length d2) l).
  { replace (i + length d1 + length d2)%nat with (i + length ds)%nat by lia. exact R. }
  assert (K1 : exists j acc, 
    (if (8 <=? length d2)%nat then v <- parse_8_digits buf (i + length d1) ;; Ok ((i + length d1 + 8)%nat, accum (u64 (dec_acc 0 d1)) 100000000 v)
     else Ok ((i + length d1)%nat, u64 (dec_acc 0 d1))) = Ok (j, acc) /\
    digits_z (Datatypes.S (length buf)) buf j acc = Ok ((i + length ds)%nat, u64 (dec_val ds))).
  { destruct (Nat.leb_spec 8 (length d2)).
    - assert (L8 : length (firstn 8 d2) = 8%nat) by (rewrite firstn_length; lia).
      rewrite (parse_8_digits_at _ _ (firstn 8 d2)) by auto using digits_firstn, sub_at_firstn.
      cbn [bind]. rewrite accum_u64. rewrite (dec_acc_chunk 8) by auto. do 2 eexists. split; [reflexivity|].
      rewrite (digits_z_spec _ buf (skipn 8 d2)); auto.
      + rewrite skipn_length, <- !dec_acc_app, firstn_skipn, <- E. do 2 f_equal. lia.
      + now apply digits_skipn.
      + apply sub_at_skipn'; auto.
      + exists bz. split; auto. rewrite skipn_length. replace (i + length d1 + 8 + (length d2 - 8))%nat with (i + length ds)%nat by lia. exact Bz.
      + rewrite skipn_length. lia.
    - do 2 eexists. split; [reflexivity|].
      rewrite (digits_z_spec _ buf d2); auto; [|exists bz; split; auto; replace (i + length d1 + length d2)%nat with (i + length ds)%nat by lia; exact Bz|lia].
      rewrite <- !dec_acc_app, <- E. do 2 f_equal. lia. }
  destruct K1 as (j & acc & K1 & K2). rewrite K1. cbn [bind]. rewrite K2. cbn [bind].
  replace (i + length ds - i)%nat with (length ds) by lia. reflexivity.
Qed.

Lemma known_z_run : forall w rc buf p ds, digits ds ->
  sub_at buf (first p) ds -> last p = (first p + length ds)%nat -> is_bytes buf ->
  (exists b, nth_error buf (first p + length ds) = Some b /\ ~ is_dig b) ->
  unsigned_parser_known_z w rc buf p =
  (let v := u64 (dec_val ds) in
   if rc then x <- narrow_cast_u w v ;; Ok (x, set_first p (last p))
   else Ok (cast_u w v, set_first p (last p))).
Proof.
  intros w rc buf p ds H S L HB (bz & Bz & Dz).
  assert (BL : (first p + length ds < length buf)%nat) by (apply nth_error_Some; congruence). unfold unsigned_parser_known_z.
  rewrite L. set (i := first p) in *.
  destruct (known16_spec (Datatypes.S (i + length ds - i)) buf ds i 0) as (d1 & d2 & E & L2 & K); auto; try lia.
  change (u64 0) with 0 in K. rewrite K. cbn [bind].
  rewrite E in S. apply sub_at_app in S as [S1 S2].
  rewrite E in H. apply Forall_app in H as [H1 H2].
  assert (LE : length ds = (length d1 + length d2)%nat) by (rewrite E, app_length; lia).
  assert (FIN : (let v := u64 (dec_val ds) in
   if rc then x <- narrow_cast_u w v ;; Ok (x, set_first p (i + length ds))
   else Ok (cast_u w v, set_first p (i + length ds))) =
   (if rc then _ <- ensure ((u64 (dec_val ds) <=? umax 64) && (0 <=? (20 + 2^64 - N.of_nat (ps_size p)) mod 2^64))%N NumberOutOfRange ;;
      v <- narrow_cast_u w (u64 (dec_val ds)) ;; Ok (v, set_first p (i + length ds))
    else Ok (cast_u w (u64 (dec_val ds)), set_first p (i + length ds)))).
  { cbv zeta. destruct rc; [|reflexivity].
    replace (u64 (dec_val ds) <=? umax 64) with true.
    2:{ symmetry. apply N.leb_le. unfold u64, umax. pose proof (N.mod_lt (dec_val ds) (2^64)). lia. }
    replace (0 <=? (20 + 2 ^ 64 - N.of_nat (ps_size p)) mod 2 ^ 64) with true
      by (symmetry; apply N.leb_le; lia).
    reflexivity. }
  etransitivity; [|symmetry; exact FIN]. clear FIN.
  destruct (Nat.leb_spec 8 (i + length ds - (i + length d1))) as [G|G].
  - assert (L8 : length (firstn 8 d2) = 8%nat) by (rewrite firstn_length; lia).
    rewrite (parse_8_digits_at _ _ (firstn 8 d2)) by auto using digits_firstn, sub_at_firstn.
    cbn [bind]. rewrite accum_u64. rewrite (dec_acc_chunk 8) by auto.
    rewrite (digits_z_spec _ buf (skipn 8 d2)); [|exact HB|now apply digits_skipn | apply sub_at_skipn'; auto; lia | |rewrite skipn_length; lia].
    2:{ exists bz. split; auto. rewrite skipn_length. replace (i + length d1 + 8 + (length d2 - 8))%nat with (i + length ds)%nat by lia. exact Bz. }
    rewrite skipn_length. replace (i + length d1 + 8 + (length d2 - 8))%nat with (i + length ds)%nat by lia.
    cbn [bind]. rewrite <- !dec_acc_app, firstn_skipn, <- E. reflexivity.
  - cbn [bind].
    rewrite (digits_z_spec _ buf d2); [|exact HB|exact H2|exact S2| |lia].
    2:{ exists bz. split; auto. replace (i + length d1 + length d2)%nat with (i + length ds)%nat by lia. exact Bz. }
    replace (i + length d1 + length d2)%nat with (i + length ds)%nat by lia.
     cbn [bind]. rewrite <- !dec_acc_app, <- E. reflexivity.
Qed.
