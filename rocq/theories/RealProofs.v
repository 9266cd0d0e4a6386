(** parse_real on number texts. *)
From Coq Require Import List NArith ZArith QArith Bool Lia Arith ZifyBool ZifyNat ZifyN.
From Verif Require Import Base Mem Loop PolicyModel IntModel IntProofs IntValueProofs SkipModel SpecNum SpecText SpecJson SkipProofs SkipSafe RealModel SpecReal.
Import ListNotations.
Local Open Scope N_scope.

Lemma push_digit_small : forall acc d, acc * 10 + d < 2^64 -> push_digit acc d = acc * 10 + d.
Proof. intros acc d H. unfold push_digit. rewrite (N.mod_small (acc * 10)) by lia. now apply N.mod_small. Qed.

Lemma dec_acc_ge : forall ds acc, acc <= dec_acc acc ds.
Proof.
  induction ds as [|d ds IH]; intros acc; cbn [dec_acc]; [lia|]. etransitivity; [|apply IH]. lia.
Qed.

Lemma digit_byte : forall b, is_dig b -> parse_digit b = b - 48.
Proof. intros b H. unfold parse_digit, is_dig, c_0 in *. lia. Qed.

Lemma nondigit_byte : forall b, b < 256 -> ~ is_dig b -> (parse_digit b <? 10) = false.
Proof. intros b H N. unfold parse_digit, is_dig, c_0 in *. lia. Qed.

Lemma until_ok : forall ds buf i acc, digits ds -> sub_at buf i ds -> dec_acc acc ds < 2^64 ->
  digits_until_last (length ds) buf i acc = Ok (dec_acc acc ds).
Proof.
  induction ds as [|d ds IH]; intros buf i acc HD HS HL; [reflexivity|]. cbn [length digits_until_last dec_acc] in *.
  destruct HS as [S1 S2]. inversion HD; subst. rewrite (rd_some _ _ _ S1). cbn [bind]. rewrite digit_byte by auto.
  rewrite push_digit_small by (pose proof (dec_acc_ge ds (acc * 10 + (d - 48))); lia). apply IH; auto.
Qed.

(** [n] is either used up, or a byte that is no digit follows. *)
Lemma while_ok : forall ds buf n i acc, is_bytes buf -> digits ds -> sub_at buf i ds -> dec_acc acc ds < 2^64 -> (length ds <= n)%nat ->
  (n = length ds \/ exists b, nth_error buf (i + length ds) = Some b /\ ~ is_dig b) ->
  digits_while_number n buf i acc = Ok ((i + length ds)%nat, dec_acc acc ds).
Proof.
  induction ds as [|d ds IH]; intros buf n i acc HB HD HS HL LN HE.
  - cbn [length] in *. rewrite Nat.add_0_r in *. destruct n as [|n]; [reflexivity|]. cbn [digits_while_number].
    destruct HE as [HE|(b & Hb & ND)]; [discriminate|]. rewrite (rd_some _ _ _ Hb). cbn [bind].
    rewrite nondigit_byte; auto. eapply is_bytes_nth; eauto.
  - cbn [length dec_acc] in *. destruct n as [|n]; [lia|]. cbn [digits_while_number]. destruct HS as [S1 S2]. inversion HD; subst.
    rewrite (rd_some _ _ _ S1). cbn [bind].
    assert (PD : (parse_digit d <? 10) = true) by (rewrite digit_byte by auto; unfold is_dig in *; lia). rewrite PD, digit_byte by auto.
    rewrite push_digit_small by (pose proof (dec_acc_ge ds (acc * 10 + (d - 48))); lia).
    rewrite (IH buf n (S i)); auto; [do 2 f_equal; lia|lia|]. destruct HE as [HE|HE]; [left; lia|right].
    replace (S i + length ds)%nat with (i + S (length ds))%nat by lia. exact HE.
Qed.

Lemma skip_digits_none : forall buf i last b, b < 256 -> nth_error buf i = Some b -> ~ is_dig b -> skip_digits true buf i last = Ok i.
Proof.
  intros buf i last b HB Hb ND. unfold skip_digits. rewrite (rd_some _ _ _ Hb). cbn [bind].
  cbn [loop]. rewrite nondigit_byte by auto. reflexivity.
Qed.

(** Digits from [i] on, a byte that is no digit or the end after them *)
Lemma skip_all : forall ds buf i last, is_bytes buf -> digits ds -> sub_at buf i ds -> (i + length ds <= last)%nat ->
  (i + length ds < last \/ ds <> [])%nat ->
  ((i + length ds < last)%nat -> exists b, nth_error buf (i + length ds) = Some b /\ ~ is_dig b) ->
  skip_digits true buf i last = Ok (i + length ds)%nat.
Proof.
  intros ds buf i last HB HD HS LL HI HE. destruct ds as [|d ds].
  - cbn [length] in *. rewrite Nat.add_0_r in *. destruct HI as [HI|HI]; [|congruence]. destruct (HE HI) as (b & Hb & ND).
    eapply skip_digits_none; eauto. eapply is_bytes_nth; eauto.
  - apply skip_digits_ok; auto; [discriminate|]. split; [exact LL|].
    destruct (Nat.eq_dec (i + length (d :: ds)) last); [left; auto|right]. apply HE. lia.
Qed.

Lemma to_signed_small : forall u s, u < 2^62 -> s = 1%Z \/ s = (-1)%Z -> to_signed 64 u s = Ok (s * Z.of_N u)%Z.
Proof.
  intros u s H HS. change (2^62) with 4611686018427387904 in H.
  unfold to_signed, cast_s. change (64 <=? 64) with true. cbn iota. change (2^63) with 9223372036854775808.
  rewrite (proj2 (N.eqb_neq _ _)) by lia. change (Z.of_N 64) with 64%Z. change (2 ^ (64 - 1))%Z with 9223372036854775808%Z.
  change (2^64)%Z with 18446744073709551616%Z. rewrite Z.mod_small by lia. change (- 2^63)%Z with (-9223372036854775808)%Z. change (2^63)%Z with 9223372036854775808%Z.
  rewrite (proj2 (Z.ltb_lt _ _)) by lia.
  match goal with |- (if ?b then _ else _) = _ => replace b with true by lia end. reflexivity.
Qed.

(** What follows a part of a number: the end of the range, or a byte that is no digit *)
Definition after_digits (buf : list N) (j last : nat) : Prop :=
  (j <= last)%nat /\ ((j < last)%nat -> exists b, nth_error buf j = Some b /\ ~ is_dig b).

Lemma sub_at_head : forall buf i c r, sub_at buf i (c :: r) -> nth_error buf i = Some c.
Proof. intros buf i c r [H _]. exact H. Qed.

Lemma num_end_after : forall buf j last, num_end true buf j last -> after_digits buf j last.
Proof. intros buf j last (L & [[_ E]|(b & Hb & N1 & _)]); split; auto; [lia|eauto]. Qed.

Lemma exp_after : forall e buf j last, exp_part e -> sub_at buf j e -> num_end true buf (j + length e) last -> after_digits buf j last.
Proof.
  intros e buf j last HE HS NE. destruct (exp_part_head e HE) as [->|(c & r & -> & C)].
  - cbn in NE. rewrite Nat.add_0_r in NE. now apply num_end_after.
  - split; [destruct NE; cbn in *; lia|]. intros _. exists c. split; [eapply sub_at_head; eauto|]. unfold is_dig. lia.
Qed.

Lemma frac_after : forall f e buf j last, frac_part f -> exp_part e -> sub_at buf j (f ++ e) -> num_end true buf (j + length (f ++ e)) last ->
  after_digits buf j last.
Proof.
  intros f e buf j last HF HE HS NE. destruct HF as [|ds D1 D2].
  - eapply exp_after; eauto.
  - split; [destruct NE; cbn in *; lia|]. intros _. exists 46. split; [eapply sub_at_head; eauto|]. unfold is_dig. lia.
Qed.

Lemma lor_e : forall b, b < 256 -> b <> 101 -> b <> 69 -> (N.lor b 32 =? c_e) = false.
Proof.
  assert (X : forallb (fun b => negb (negb (b =? 101) && negb (b =? 69)) || negb (N.lor b 32 =? c_e)) (map N.of_nat (seq 0 256)) = true) by (vm_compute; reflexivity).
  intros b HB H1 H2. rewrite forallb_forall in X. specialize (X b).
  assert (I : In b (map N.of_nat (seq 0 256))). { apply in_map_iff. exists (N.to_nat b). split; [lia|]. apply in_seq. lia. }
  specialize (X I). lia.
Qed.

(** *** The exponent *)

Lemma exp_val_part : forall e x, exp_val e x -> exp_part e.
Proof. destruct 1; [constructor|apply (ep_some e [] ds)|apply (ep_some e [43] ds)|apply (ep_some e [45] ds)]; auto. Qed.

Lemma unknown_exponent_ok : forall e x buf i last, is_bytes buf -> exp_val e x -> sub_at buf i e -> num_end true buf (i + length e) last ->
  (Z.abs x < 2^62)%Z -> unknown_exponent buf i last = Ok (x, (i + length e)%nat).
Proof.
  intros e x buf i last HB HE HS NE HX. unfold unknown_exponent.
  assert (G : forall s sgn ds, (s = [] /\ sgn = 1%Z \/ s = [43] /\ sgn = 1%Z \/ s = [45] /\ sgn = (-1)%Z) -> digits ds -> ds <> [] ->
     dec_val ds < 2^62 -> sub_at buf (S i) (s ++ ds) -> num_end true buf (S i + length (s ++ ds)) last ->
     (let i := S i in
    _ <- ensure (i <? last)%nat UnexpectedEndOfData ;;
    c <- rd buf i ;;
    '(sgn, i) <-
       (if (c =? c_plus) || (c =? c_minus) then
          let i := S i in
          ok <- (if (i <? last)%nat then d <- rd buf i ;; Ok (parse_digit d <? 10) else Ok false) ;;
          _ <- ensure ok InvalidNumber ;;
          Ok (if c =? c_plus then 1%Z else (-1)%Z, i)
        else
          _ <- ensure (is_number c) InvalidNumber ;;
          Ok (1%Z, i)) ;;
    _ <- ensure (i <? last)%nat UnexpectedEndOfData ;;
    '(i, u) <- digits_while_number (last - i) buf i 0 ;;
    x <- to_signed 64 u sgn ;;
    Ok (x, i)) = Ok ((sgn * Z.of_N (dec_val ds))%Z, (S i + length (s ++ ds))%nat)).
  { clear - HB. intros s sgn ds Hs HD ND HV HS NE. cbv zeta. rewrite app_length in *. destruct NE as (LL & NE).
    assert (NDL : (0 < length ds)%nat) by (destruct ds; [congruence|cbn; lia]).
    destruct (Nat.ltb_spec (S i) last); [|lia]. cbn [ensure bind].
    apply sub_at_app in HS as [SS SD].
    destruct (dig_first _ _ _ SD ND HD) as (d & r & Eds & Hd & Dd).
    assert (SG : exists c, rd buf (S i) = Ok c /\ (if (c =? c_plus) || (c =? c_minus) then
          ok <- (if (S (S i) <? last)%nat then d <- rd buf (S (S i)) ;; Ok (parse_digit d <? 10) else Ok false) ;;
          _ <- ensure ok InvalidNumber ;;
          Ok (if c =? c_plus then 1%Z else (-1)%Z, S (S i))
        else
          _ <- ensure (is_number c) InvalidNumber ;;
          Ok (1%Z, S i)) = Ok (sgn, (S i + length s)%nat)).
    { destruct Hs as [(-> & ->)|[(-> & ->)|(-> & ->)]]; cbn [length] in *.
      - rewrite Nat.add_0_r in *. exists d. split; [apply rd_some; auto|]. unfold is_dig, c_plus, c_minus in *.
        replace ((d =? 43) || (d =? 45)) with false by lia.
        unfold is_number, c_0. change (2^32) with 4294967296. replace ((d + 4294967296 - 48) mod 4294967296 <? 10) with true by lia. reflexivity.
      - destruct SS as (S1 & _). exists 43. split; [apply rd_some; auto|]. cbn [N.eqb orb c_plus c_minus]. change (43 =? c_plus) with true. cbn [orb].
        destruct (Nat.ltb_spec (S (S i)) last); [|lia]. replace (S i + 1)%nat with (S (S i)) in * by lia.
        rewrite (rd_some _ _ _ Hd). cbn [bind]. replace (parse_digit d <? 10) with true by (unfold parse_digit, is_dig, c_0 in *; lia). reflexivity.
      - destruct SS as (S1 & _). exists 45. split; [apply rd_some; auto|]. change (45 =? c_plus) with false. change (45 =? c_minus) with true. cbn [orb].
        destruct (Nat.ltb_spec (S (S i)) last); [|lia]. replace (S i + 1)%nat with (S (S i)) in * by lia.
        rewrite (rd_some _ _ _ Hd). cbn [bind]. replace (parse_digit d <? 10) with true by (unfold parse_digit, is_dig, c_0 in *; lia). reflexivity. }
    destruct SG as (c & E1 & E2). rewrite E1. cbn [bind]. rewrite E2. cbn [bind].
    destruct (Nat.ltb_spec (S i + length s) last); [|lia]. cbn [ensure bind].
    change (2^62) with 4611686018427387904 in HV.
    rewrite while_ok with (ds := ds); auto.
    - cbn [bind]. fold (dec_val ds). rewrite to_signed_small; [|change (2^62) with 4611686018427387904; lia|lia].
      cbn [bind]. do 2 f_equal. lia.
    - fold (dec_val ds). change (2^64) with 18446744073709551616. lia.
    - lia.
    - destruct NE as [[_ E]|(b & Hb & NDb & _)]; [left; lia|right; exists b; split; auto].
      rewrite <- Hb. f_equal. lia. }
  inversion HE; subst; cbn [length] in *.
  - rewrite Nat.add_0_r in *.
    destruct (Nat.ltb_spec i last); [|reflexivity].
    destruct NE as (_ & [[_ E]|(b & Hb & N1 & N2 & N3 & N4)]); [lia|]. rewrite (rd_some _ _ _ Hb). cbn [bind andb].
    rewrite lor_e; auto. eapply is_bytes_nth; eauto.
  - destruct HS as [S1 S2]. assert (LL : (i < last)%nat) by (destruct NE; lia).
    destruct (Nat.ltb_spec i last); [|lia]. rewrite (rd_some _ _ _ S1). cbn [bind andb].
    replace (N.lor e0 32 =? c_e) with true by (destruct H; subst; reflexivity).
    specialize (G [] 1%Z ds). cbn [app] in G. change (2^62)%Z with 4611686018427387904%Z in HX.
    replace (i + S (length ds))%nat with (S i + length ds)%nat in * by lia.
    etransitivity; [apply G; auto|f_equal; f_equal; lia]. change (2^62) with 4611686018427387904. lia.
  - destruct HS as [S1 S2]. assert (LL : (i < last)%nat) by (destruct NE; lia).
    destruct (Nat.ltb_spec i last); [|lia]. rewrite (rd_some _ _ _ S1). cbn [bind andb].
    replace (N.lor e0 32 =? c_e) with true by (destruct H; subst; reflexivity).
    specialize (G [43] 1%Z ds). cbn [app length] in G. change (2^62)%Z with 4611686018427387904%Z in HX.
    replace (i + S (S (length ds)))%nat with (S i + S (length ds))%nat in * by lia.
    etransitivity; [apply G; auto|f_equal; f_equal; lia]. change (2^62) with 4611686018427387904. lia.
  - destruct HS as [S1 S2]. assert (LL : (i < last)%nat) by (destruct NE; lia).
    destruct (Nat.ltb_spec i last); [|lia]. rewrite (rd_some _ _ _ S1). cbn [bind andb].
    replace (N.lor e0 32 =? c_e) with true by (destruct H; subst; reflexivity).
    specialize (G [45] (-1)%Z ds). cbn [app length] in G. change (2^62)%Z with 4611686018427387904%Z in HX.
    replace (i + S (S (length ds)))%nat with (S i + S (length ds))%nat in * by lia.
    etransitivity; [apply G; auto|f_equal; f_equal; lia]. change (2^62) with 4611686018427387904. lia.
Qed.

(** *** The fraction *)

(** Digits of the fraction that parse_real_unknown keeps *)
Definition kept_fraction (kd : nat) (i f : list N) : list N := firstn (kd - 1 - length i) (fract_digits f).

Lemma dec_acc_prefix : forall ds n acc, dec_acc acc (firstn n ds) <= dec_acc acc ds.
Proof. intros ds n acc. rewrite <- (firstn_skipn n ds) at 2. rewrite dec_acc_app. apply dec_acc_ge. Qed.

Lemma unknown_fraction_ok : forall kd i f e buf start last sig e1, is_bytes buf -> frac_part f -> exp_part e ->
  sub_at buf (start + length i) (f ++ e) -> num_end true buf (start + length i + length (f ++ e)) last -> (last <= length buf)%nat ->
  dec_acc sig (kept_fraction kd i f) < 2^64 -> (e1 = 0%Z \/ (kd <= length i)%nat) ->
  exists more, unknown_fraction kd buf start (start + length i) last sig e1 =
    Ok (dec_acc sig (kept_fraction kd i f), (e1 - Z.of_nat (length (kept_fraction kd i f)))%Z, (start + length i + length f)%nat, more) /\
    (more = false -> length i < kd -> kept_fraction kd i f = fract_digits f)%nat.
Proof.
  intros kd i f e buf start last sig e1 HB HF HE HS NE LB HV HK. unfold unknown_fraction. set (j := (start + length i)%nat) in *.
  assert (AF := frac_after f e buf j last HF HE HS NE). apply sub_at_app in HS as [SF SE].
  rewrite app_length in NE.
  assert (AE : after_digits buf (j + length f) last).
  { eapply exp_after; eauto. replace (j + length f + length e)%nat with (j + (length f + length e))%nat by lia. exact NE. }
  destruct HF as [|ds HD ND].
  - unfold kept_fraction in *. cbn [fract_digits tl length app] in *. rewrite firstn_nil in *. cbn [length dec_acc] in *.
    rewrite Nat.add_0_r in *. exists false.
    assert (X : (if (j <? last)%nat then b <- rd buf j ;; Ok (b =? c_dot) else Ok false) = Ok false).
    { destruct (Nat.ltb_spec j last) as [L|L]; [|reflexivity]. destruct (exp_part_head e HE) as [->|(c & r & -> & C)].
      - cbn [length] in NE. rewrite Nat.add_0_r in NE.
        destruct NE as (_ & [[_ E]|(b & Hb & N1 & N2 & _)]); [lia|]. rewrite (rd_some _ _ _ Hb). cbn [bind]. f_equal. unfold c_dot. lia.
      - rewrite (rd_some _ _ _ (sub_at_head _ _ _ _ SE)). cbn [bind]. f_equal. unfold c_dot. lia. }
    rewrite X. cbn [bind]. split; [do 4 f_equal; lia|auto].
  - destruct SF as [SD SF]. cbn [length] in *. unfold kept_fraction in *. cbn [fract_digits tl] in *.
    destruct (Nat.ltb_spec j last) as [L|L]; [|destruct AE; lia]. rewrite (rd_some _ _ _ SD). cbn [bind]. change (46 =? c_dot) with true. cbn iota. cbv zeta.
    replace (j + S (length ds))%nat with (S j + length ds)%nat in * by lia.
    assert (NDL : (0 < length ds)%nat) by (destruct ds; [congruence|cbn; lia]).
    destruct (Z.eqb_spec e1 0) as [->|Z1]; cbn [negb].
    + set (m := Nat.min (length ds) (kd - 1 - length i)). set (n := Nat.min (last - S j) (kd - (S j - start))).
      set (K := firstn (kd - 1 - length i) ds) in *.
      assert (LK : length K = m) by (unfold K, m; rewrite firstn_length; lia).
      destruct AE as (AL & AE).
      assert (LN : (m <= n)%nat) by (unfold m, n, j; lia).
      assert (EW : (n = m \/ n > m /\ m = length ds /\ S j + length ds < last)%nat) by (unfold m, n, j in *; lia).
      rewrite (while_ok K); auto; [|apply digits_firstn; auto|apply sub_at_firstn; auto|lia|].
      2:{ destruct EW as [EW|(EW & EM & EL)]; [left; lia|right]. rewrite LK, EM. auto. }
      cbn [bind]. rewrite LK. replace (S j + m - S j)%nat with m by lia.
      replace (S j + n <=? S j + m)%nat with (n =? m)%nat by lia.
      destruct (Nat.ltb_spec (S j + m) last) as [L2|L2].
      * rewrite andb_true_r. destruct (Nat.eqb_spec n m) as [EQ|EQ].
        -- assert (DS : ds = K ++ skipn (kd - 1 - length i) ds) by (unfold K; now rewrite firstn_skipn).
           assert (LS : length ds = (m + length (skipn (kd - 1 - length i) ds))%nat) by (rewrite DS at 1; rewrite app_length; lia).
           pose proof SF as SF'. rewrite DS in SF'. apply sub_at_app in SF' as [_ SF']. rewrite LK in SF'.
           rewrite (skip_all (skipn (kd - 1 - length i) ds)); auto using digits_skipn.
           ++ cbn [bind]. eexists. split; [do 2 f_equal; f_equal; lia|]. intros ML _.
              destruct (skipn (kd - 1 - length i) ds) as [|d' r'] eqn:ESK; [rewrite app_nil_r in DS; auto|cbn [length] in ML; lia].
           ++ lia.
           ++ destruct (skipn (kd - 1 - length i) ds); [left; cbn [length] in *; lia|right; discriminate].
           ++ replace (S j + m + length (skipn (kd - 1 - length i) ds))%nat with (S j + length ds)%nat by lia. exact AE.
        -- assert (m = length ds) by lia. eexists. split; [do 2 f_equal; f_equal; lia|]. intros _ _. unfold K. apply firstn_all2. unfold m in *. lia.
      * rewrite andb_false_r. eexists. split; [do 2 f_equal; f_equal; unfold m in *; lia|]. intros _ _. unfold K. apply firstn_all2. unfold m in *. lia.
    + destruct HK as [HK|HK]; [congruence|]. replace (kd - 1 - length i)%nat with O in * by lia. cbn [firstn length dec_acc] in *.
      unfold skip_digits_if. destruct AE as (AL & AE). destruct (Nat.ltb_spec (S j) last); [|lia].
      rewrite (skip_all ds); auto. cbn [bind]. eexists. split; [do 3 f_equal; f_equal; lia|lia].
Qed.

(** *** parse_real_unknown *)

Definition kept_whole (kd : nat) (i : list N) : list N := firstn kd i.
Definition kept (kd : nat) (i f : list N) : list N := kept_whole kd i ++ kept_fraction kd i f.

Lemma canonical_pos : forall i n, canonical i -> (1 <= n)%nat -> (1 < length i)%nat -> dec_val (firstn n i) <> 0.
Proof.
  intros i n (HD & NE & HC) Hn HL. destruct i as [|d i]; [congruence|]. destruct n; [lia|]. cbn [firstn]. unfold dec_val. cbn [dec_acc].
  inversion HD; subst. assert (d <> 48). { intros ->. specialize (HC i eq_refl). subst. cbn in HL. lia. }
  pose proof (dec_acc_ge (firstn n i) (0 * 10 + (d - 48))). unfold is_dig in *. lia.
Qed.

Lemma pow10_19 : forall n, (n <= 19)%nat -> 10 ^ N.of_nat n < 2^64.
Proof.
  intros n H. apply N.le_lt_trans with (10 ^ 19); [apply N.pow_le_mono_r; lia|]. reflexivity.
Qed.

Lemma dec_val_19 : forall ds, digits ds -> (length ds <= 19)%nat -> dec_val ds < 2^64.
Proof. intros ds HD HL. eapply N.lt_trans; [apply dec_val_lt; auto|]. now apply pow10_19. Qed.

Lemma fract_digits_ok : forall f, frac_part f -> digits (fract_digits f).
Proof. destruct 1; [constructor|auto]. Qed.

Lemma length_kept : forall kd i f, (1 <= kd)%nat -> (length (kept kd i f) <= kd)%nat.
Proof.
  intros kd i f H. unfold kept, kept_whole, kept_fraction. rewrite app_length, !firstn_length. lia.
Qed.

Lemma digits_kept : forall kd i f, digits i -> frac_part f -> digits (kept kd i f).
Proof. intros kd i f H1 H2. apply Forall_app. split; [apply digits_firstn; auto|apply digits_firstn, fract_digits_ok; auto]. Qed.

Lemma saturating_small : forall a b, (- 2^63 <= a + b < 2^63)%Z -> saturating_sum a b = (a + b)%Z.
Proof.
  intros a b H. unfold saturating_sum. change (2^63)%Z with 9223372036854775808%Z in *.
  destruct (negb (Bool.eqb (a <? 0)%Z (b <? 0)%Z)); auto. destruct (Z.ltb_spec a 0).
  - match goal with |- (if ?c then _ else _) = _ => replace c with false by lia end. reflexivity.
  - match goal with |- (if ?c then _ else _) = _ => replace c with false by lia end. reflexivity.
Qed.

Lemma unknown_parts : forall kd precise sg i f e x buf p, (1 <= kd <= 19)%nat -> is_bytes buf -> (last p <= length buf)%nat -> N.of_nat (length buf) < 2^32 ->
  sg = [] \/ sg = [45] -> int_part i -> frac_part f -> exp_val e x -> (Z.abs x < 2^62)%Z ->
  sub_at buf (first p) (sg ++ i ++ f ++ e) -> num_end true buf (first p + length (sg ++ i ++ f ++ e)) (last p) ->
  (first p + length (sg ++ i) < last p)%nat ->
  exists more,
  parse_real_unknown kd precise buf p =
    Ok (mkreal (sign_of sg) (dec_val (kept kd i f))
         (x + Z.of_nat (length i - kd) - Z.of_nat (length (kept_fraction kd i f)))
         (fall_back precise more (x + Z.of_nat (length i - kd) - Z.of_nat (length (kept_fraction kd i f))) (dec_val (kept kd i f))),
        set_first p (first p + length (sg ++ i ++ f ++ e))) /\
    (more = false -> kept kd i f = i ++ fract_digits f /\ length i < kd)%nat.
Proof.
  intros kd precise sg i f e x buf p HK HB LB L32 Hsg HI HF HX BX HS NE LT. unfold parse_real_unknown.
  change (2^32) with 4294967296 in L32. change (2^62)%Z with 4611686018427387904%Z in BX.
  assert (HE := exp_val_part _ _ HX). assert (HC := HI). destruct HI as (HD & NI & Z0).
  assert (LI : (0 < length i)%nat) by (destruct i; [congruence|cbn; lia]).
  rewrite !app_length in *.
  assert (LL : (first p + (length sg + (length i + (length f + length e))) <= last p)%nat) by (destruct NE; auto).
  pose proof HS as HS0. apply sub_at_app in HS as [SG HS]. pose proof HS as HSI. apply sub_at_app in HS as [SI SFE].
  assert (AF : after_digits buf (first p + length sg + length i) (last p)).
  { eapply frac_after with (f := f) (e := e); eauto. rewrite app_length.
    replace (first p + length sg + length i + (length f + length e))%nat with (first p + (length sg + (length i + (length f + length e))))%nat by lia. exact NE. }
  assert (NB : exists b, nth_error buf (first p + length sg + length i) = Some b /\ ~ is_dig b) by (apply AF; lia).
  unfold has_more. destruct (Nat.ltb_spec (first p) (last p)); [|lia]. cbn [ensure bind].
  assert (FR : exists c, front buf p = Ok c /\ is_number_start c = true).
  { unfold front. destruct Hsg as [->| ->].
    - destruct (dig_first buf (first p) i) as (d & r & Eds & Hd & Dd); auto.
      { cbn in SI. rewrite Nat.add_0_r in SI. exact SI. }
      exists d. split; [apply rd_some; auto|]. unfold is_number_start, is_dig, c_0 in *. lia.
    - exists 45. split; [apply rd_some; destruct SG; auto|]. reflexivity. }
  destruct FR as (c & FR1 & FR2). rewrite FR1. cbn [bind]. rewrite FR2. cbn [ensure bind].
  assert (VS : validate_signed_first buf p = Ok (sign_of sg, set_first p (first p + length sg))).
  { assert (exists neg : bool, sg = sign_text neg /\ sign_of sg = (if neg then -1 else 1)%Z) as (neg & -> & ->).
    { destruct Hsg as [->| ->]; [exists false|exists true]; split; reflexivity. }
    apply validate_signed_first_ok with (ds := i); auto.
    - apply sub_at_app. split; auto.
    - rewrite app_length. lia.
    - rewrite app_length. split; [lia|right]. replace (first p + (length (sign_text neg) + length i))%nat with (first p + length (sign_text neg) + length i)%nat by lia. exact NB. }
  rewrite VS. cbn [bind]. set (st := (first p + length sg)%nat) in *. cbn [first last set_first].
  set (n := Nat.min (last p - st) kd).
  assert (LKW : length (kept_whole kd i) = Nat.min (length i) kd) by (unfold kept_whole; rewrite firstn_length; lia).
  assert (VK : dec_val (kept kd i f) < 2^64).
  { apply dec_val_19; [apply digits_kept; auto|]. pose proof (length_kept kd i f). lia. }
  assert (VW : dec_val (kept_whole kd i) < 2^64).
  { apply dec_val_19; [apply digits_firstn; auto|]. lia. }
  rewrite (while_ok (kept_whole kd i)); auto; [|apply digits_firstn; auto|apply sub_at_firstn; auto|unfold n; lia|].
  2:{ destruct (Nat.le_gt_cases kd (length i)); [left; unfold n; lia|right]. rewrite LKW, Nat.min_l by lia. exact NB. }
  cbn [bind]. rewrite LKW. fold (dec_val (kept_whole kd i)).
  assert (W : exists more,
    (if (st + n <=? st + Nat.min (length i) kd)%nat then
        j <- skip_digits true buf (st + Nat.min (length i) kd) (last p) ;;
        Ok (j, if dec_val (kept_whole kd i) =? 0 then 0%Z else Z.of_nat (j - (st + Nat.min (length i) kd)), true)
      else Ok ((st + Nat.min (length i) kd)%nat, 0%Z, (storage_digits <? st + Nat.min (length i) kd - st)%nat))
    = Ok ((st + length i)%nat, Z.of_nat (length i - kd), more) /\ (more = false -> length i < kd)%nat).
  { destruct (Nat.le_gt_cases kd (length i)) as [G|G].
    - rewrite Nat.min_r by lia. replace (st + n <=? st + kd)%nat with true by (unfold n; lia).
      assert (LS : length i = (kd + length (skipn kd i))%nat) by (rewrite skipn_length; lia).
      rewrite (skip_all (skipn kd i)); auto using digits_skipn.
      + cbn [bind]. exists true. replace (st + kd + length (skipn kd i))%nat with (st + length i)%nat by lia.
        destruct (N.eqb_spec (dec_val (kept_whole kd i)) 0) as [Z1|Z1].
        * assert (length i = kd). { destruct (Nat.eq_dec (length i) kd); auto. exfalso. apply (canonical_pos i kd HC); auto; lia. }
          split; [do 3 f_equal; lia|discriminate].
        * split; [do 3 f_equal; lia|discriminate].
      + apply sub_at_skipn'; auto.
      + lia.
      + left. lia.
      + intros _. replace (st + kd + length (skipn kd i))%nat with (st + length i)%nat by lia. exact NB.
    - rewrite Nat.min_l by lia. replace (st + n <=? st + length i)%nat with false by (unfold n; lia). exists (storage_digits <? st + length i - st)%nat. split; [do 3 f_equal; lia|auto]. }
  destruct W as (more1 & W & M1). rewrite W. cbn [bind].
  assert (KA : dec_acc (dec_val (kept_whole kd i)) (kept_fraction kd i f) = dec_val (kept kd i f)).
  { unfold kept, dec_val. now rewrite dec_acc_app. }
  destruct (unknown_fraction_ok kd i f e buf st (last p) (dec_val (kept_whole kd i)) (Z.of_nat (length i - kd))) as (more2 & UF & M2); auto.
  { rewrite app_length. replace (st + length i + (length f + length e))%nat with (first p + (length sg + (length i + (length f + length e))))%nat by (unfold st; lia). exact NE. }
  { rewrite KA. exact VK. }
  { lia. }
  rewrite UF. cbn [bind]. rewrite KA.
  rewrite (unknown_exponent_ok e x); auto.
  2:{ apply sub_at_app in SFE as [_ SE]. exact SE. }
  2:{ replace (st + length i + length f + length e)%nat with (first p + (length sg + (length i + (length f + length e))))%nat by (unfold st; lia). exact NE. }
  cbn [bind]. rewrite saturating_small.
  2:{ change (2^63)%Z with 9223372036854775808%Z. assert (length (kept_fraction kd i f) <= kd)%nat by (unfold kept_fraction; rewrite firstn_length; lia). lia. }
  exists (more1 || more2). split; [do 2 f_equal|].
  3:{ intros M. apply orb_false_iff in M as [MA MB]. specialize (M1 MA). split; auto. unfold kept, kept_whole. rewrite M2 by auto. now rewrite firstn_all2 by lia. }
  - replace (Z.of_nat (length i - kd) - Z.of_nat (length (kept_fraction kd i f)) + x)%Z with (x + Z.of_nat (length i - kd) - Z.of_nat (length (kept_fraction kd i f)))%Z by lia. reflexivity.
  - unfold set_first. destruct p; cbn. f_equal. unfold st. cbn. lia.
Qed.

(** *** parse_real_known *)

(** Digits of the fraction that parse_real_known keeps *)
Definition kept_known_fraction (kd : nat) (i f : list N) : list N := firstn (kd - length i) (fract_digits f).
Definition kept_known (kd : nat) (i f : list N) : list N := kept_whole kd i ++ kept_known_fraction kd i f.

(** The state skip_number leaves for a number text at [first p] *)
Definition known_number (sg i f e : list N) (p : ps) : Prop :=
  last p = (first p + length (sg ++ i ++ f ++ e))%nat /\
  cfirst p = match f with [] => None | _ => Some (first p + length (sg ++ i))%nat end /\
  clast p = match e with [] => None | _ => Some (first p + length (sg ++ i ++ f))%nat end.

Lemma known_exponent_ok : forall e x c r buf i last e1, exp_val e x -> e = c :: r -> sub_at buf i e -> last = (i + length e)%nat -> is_bytes buf ->
  (Z.abs x < 2^62)%Z -> (Z.abs e1 < 2^62)%Z -> known_exponent buf (S i) last e1 = Ok (e1 + x)%Z.
Proof.
  intros e x c r buf i last e1 HE EC HS HL HB BX BE. change (2^62)%Z with 4611686018427387904%Z in *.
  unfold known_exponent.
  assert (G : forall s sgn ds, (s = [] /\ sgn = 1%Z \/ s = [43] /\ sgn = 1%Z \/ s = [45] /\ sgn = (-1)%Z) -> digits ds -> ds <> [] ->
     sub_at buf (S i) (s ++ ds) -> last = (S i + length (s ++ ds))%nat -> x = (sgn * Z.of_N (dec_val ds))%Z ->
     (if (S i <? last)%nat then
    c <- rd buf (S i) ;;
    '(sgn, i) <-
       (if c =? c_minus then _ <- ensure (S (S i) <? last)%nat InvalidNumber ;; Ok ((-1)%Z, S (S i))
        else if c =? c_plus then _ <- ensure (S i <? last)%nat InvalidNumber ;; Ok (1%Z, S (S i))
        else Ok (1%Z, S i)) ;;
    u <- known_exponent_digits buf i last ;;
    x <- to_signed 64 u sgn ;;
    if in_int64 (e1 + x) then Ok (e1 + x)%Z else UB
  else Ok e1) = Ok (e1 + x)%Z).
  { clear HS HL HE EC. intros s sgn ds Hs HD ND HS HL HX. rewrite app_length in *. 
    assert (NDL : (0 < length ds)%nat) by (destruct ds; [congruence|cbn; lia]).
    destruct (Nat.ltb_spec (S i) last) as [LT|LT]; [|lia].
    apply sub_at_app in HS as [SS SD].
    destruct (dig_first _ _ _ SD ND HD) as (d & r' & Eds & Hd & Dd).
    assert (SG : exists c, rd buf (S i) = Ok c /\
      (if c =? c_minus then _ <- ensure (S (S i) <? last)%nat InvalidNumber ;; Ok ((-1)%Z, S (S i))
        else if c =? c_plus then _ <- ensure true InvalidNumber ;; Ok (1%Z, S (S i))
        else Ok (1%Z, S i)) = Ok (sgn, (S i + length s)%nat)).
    { destruct Hs as [(-> & ->)|[(-> & ->)|(-> & ->)]]; cbn [length] in *.
      - rewrite Nat.add_0_r in *. exists d. split; [apply rd_some; auto|]. unfold is_dig, c_plus, c_minus in *.
        replace (d =? 45) with false by lia. replace (d =? 43) with false by lia. reflexivity.
      - destruct SS as (S1 & _). exists 43. split; [apply rd_some; auto|]. change (43 =? c_minus) with false. change (43 =? c_plus) with true.
        cbn. do 2 f_equal. lia.
      - destruct SS as (S1 & _). exists 45. split; [apply rd_some; auto|]. change (45 =? c_minus) with true.
        destruct (Nat.ltb_spec (S (S i)) last); [|lia]. cbn. do 2 f_equal. lia. }
    destruct SG as (c' & E1 & E2). rewrite E1. cbn [bind]. rewrite E2. cbn [bind]. unfold known_exponent_digits.
    assert (HV : dec_val ds < 2^62) by (change (2^62) with 4611686018427387904; lia).
    rewrite while_ok with (ds := ds); auto; [|fold (dec_val ds); change (2^62) with 4611686018427387904 in HV; change (2^64) with 18446744073709551616; lia|lia|left; lia].
    cbn [bind]. fold (dec_val ds). rewrite to_signed_small; auto; [|lia]. cbn [bind]. rewrite <- HX.
    unfold in_int64. change (2^63)%Z with 9223372036854775808%Z.
    match goal with |- (if ?c then _ else _) = _ => replace c with true by lia end. reflexivity. }
  inversion HE; subst; try discriminate; cbn [length] in *; destruct HS as [S1 S2];
    match goal with H : _ :: _ = c :: r |- _ => injection H as -> <- end; cbn [length] in *.
  - apply (G [] 1%Z ds); auto; cbn [app length]; lia.
  - apply (G [43] 1%Z ds); auto; cbn [app length]; lia.
  - apply (G [45] (-1)%Z ds); auto; cbn [app length]; lia.
Qed.

Lemma known_parts : forall kd precise sg i f e x buf p, (1 <= kd <= 19)%nat -> is_bytes buf -> (last p <= length buf)%nat -> N.of_nat (length buf) < 2^32 ->
  sg = [] \/ sg = [45] -> int_part i -> frac_part f -> exp_val e x -> (Z.abs x < 2^62)%Z ->
  sub_at buf (first p) (sg ++ i ++ f ++ e) -> known_number sg i f e p ->
  exists more,
  parse_real_known kd precise buf p =
    Ok (mkreal (sign_of sg) (dec_val (kept_known kd i f))
         (x + Z.of_nat (length i - kd) - Z.of_nat (length (kept_known_fraction kd i f)))
         (fall_back precise more (x + Z.of_nat (length i - kd) - Z.of_nat (length (kept_known_fraction kd i f))) (dec_val (kept_known kd i f)))) /\
    (more = false -> length i <= kd -> kept_known kd i f = i ++ fract_digits f)%nat.
Proof.
  intros kd precise sg i f e x buf p HK HB LB L32 Hsg HI HF HX BX HS (KL & KF & KE). unfold parse_real_known.
  change (2^32) with 4294967296 in L32.
  assert (HE := exp_val_part _ _ HX). assert (HC := HI). destruct HI as (HD & NI & Z0).
  assert (LI : (0 < length i)%nat) by (destruct i; [congruence|cbn; lia]).
  rewrite !app_length in *.
  pose proof HS as HS0. apply sub_at_app in HS as [SG HS]. apply sub_at_app in HS as [SI SFE]. apply sub_at_app in SFE as [SF SE].
  unfold has_more. destruct (Nat.ltb_spec (first p) (last p)); [|lia]. cbn [ensure bind].
  assert (FR : exists c, front buf p = Ok c /\ is_number_start c = true /\
     (if c =? c_minus then ((-1)%Z, S (first p)) else (1%Z, first p)) = (sign_of sg, (first p + length sg)%nat)).
  { unfold front. destruct Hsg as [->| ->].
    - destruct (dig_first buf (first p) i) as (d & r & Eds & Hd & Dd); auto.
      { cbn in SI. rewrite Nat.add_0_r in SI. exact SI. }
      exists d. split; [apply rd_some; auto|]. unfold is_number_start, is_dig, c_0, c_minus in *. split; [lia|].
      replace (d =? 45) with false by lia. cbn. now rewrite Nat.add_0_r.
    - exists 45. split; [apply rd_some; destruct SG; auto|]. split; [reflexivity|]. cbn. f_equal. lia. }
  destruct FR as (c & FR1 & FR2 & FR3). rewrite FR1. cbn [bind]. rewrite FR2. cbn [ensure bind]. cbv zeta. rewrite FR3.
  set (st := (first p + length sg)%nat) in *.
  assert (WL : match cfirst p, clast p with Some d, _ => d | None, Some e => e | None, None => last p end = (st + length i)%nat).
  { rewrite KF, KE, KL. unfold st. destruct f; destruct e; cbn [length] in *; lia. }
  assert (FL : match cfirst p with
               | Some d => Some (S d, match clast p with Some e => e | None => last p end)
               | None => None
               end = match f with [] => None | _ => Some (S (st + length i), (st + length i + length f)%nat) end).
  { rewrite KF, KE, KL. unfold st. destruct f; [reflexivity|]. destruct e; cbn [length] in *; do 2 f_equal; lia. }
  rewrite WL, FL. replace (st + length i - st)%nat with (length i) by lia.
  assert (FN : match match f with [] => None | _ => Some (S (st + length i), (st + length i + length f)%nat) end with
               | Some (a, b) => (b - a)%nat | None => O end = length (fract_digits f)).
  { destruct HF; cbn [fract_digits tl length]; lia. }
  rewrite FN.
  assert (DF := fract_digits_ok f HF).
  assert (LKF : length (kept_known_fraction kd i f) = Nat.min (kd - length i) (length (fract_digits f))) by (unfold kept_known_fraction; now rewrite firstn_length).
  assert (LKW : length (kept_whole kd i) = Nat.min kd (length i)) by (unfold kept_whole; now rewrite firstn_length).
  assert (SFD : f <> [] -> sub_at buf (S (st + length i)) (fract_digits f)).
  { intros NF. destruct HF; [congruence|]. destruct SF as [_ SF]. exact SF. }
  assert (SPLIT : exists strtod', (if (kd <? length i)%nat then (kd, O, Z.of_nat (length i - kd), (storage_digits <? st + length i - first p + length (fract_digits f))%nat)
    else
      (length i, Nat.min (kd - length i) (length (fract_digits f)), (- Z.of_nat (Nat.min (kd - length i) (length (fract_digits f))))%Z,
       (storage_digits <? st + length i - first p + length (fract_digits f))%nat || (kd - length i <? length (fract_digits f))%nat))
    = (length (kept_whole kd i), length (kept_known_fraction kd i f), (Z.of_nat (length i - kd) - Z.of_nat (length (kept_known_fraction kd i f)))%Z, strtod') /\
      (strtod' = false -> length i <= kd -> length (fract_digits f) <= kd - length i)%nat).
  { rewrite LKW, LKF. destruct (Nat.ltb_spec kd (length i)); eexists; (split; [apply (f_equal2 pair); [|reflexivity]; (apply (f_equal2 pair); [apply (f_equal2 pair)|]); lia|]); lia. }
  destruct SPLIT as (strtod' & SPLIT & MS). rewrite SPLIT.
  assert (VK : dec_val (kept_known kd i f) < 2^64).
  { apply dec_val_19; [apply Forall_app; split; apply digits_firstn; auto|]. unfold kept_known. rewrite app_length. lia. }
  assert (VK' : dec_acc (dec_val (kept_whole kd i)) (kept_known_fraction kd i f) = dec_val (kept_known kd i f)).
  { unfold kept_known, dec_val. now rewrite dec_acc_app. }
  assert (VW : dec_val (kept_whole kd i) < 2^64).
  { eapply N.le_lt_trans; [|exact VK]. rewrite <- VK'. apply dec_acc_ge. }
  rewrite (until_ok (kept_whole kd i)); auto; [|apply digits_firstn; auto|apply sub_at_firstn; auto].
  cbn [bind]. fold (dec_val (kept_whole kd i)).
  assert (FS : match match f with [] => None | _ => Some (S (st + length i), (st + length i + length f)%nat) end with
      | Some (a, _) => digits_until_last (length (kept_known_fraction kd i f)) buf a (dec_val (kept_whole kd i))
      | None => Ok (dec_val (kept_whole kd i)) end = Ok (dec_val (kept_known kd i f))).
  { rewrite <- VK'. destruct f as [|f0 f'].
    - unfold kept_known_fraction. cbn. now rewrite firstn_nil.
    - apply until_ok; [apply digits_firstn; auto|apply sub_at_firstn; apply SFD; discriminate|]. rewrite VK'. exact VK. }
  rewrite FS. cbn [bind].
  assert (ES : match clast p with
        | Some xx => known_exponent buf (S xx) (last p) (Z.of_nat (length i - kd) - Z.of_nat (length (kept_known_fraction kd i f)))
        | None => Ok (Z.of_nat (length i - kd) - Z.of_nat (length (kept_known_fraction kd i f)))%Z
        end = Ok (x + Z.of_nat (length i - kd) - Z.of_nat (length (kept_known_fraction kd i f)))%Z).
  { rewrite KE, KL. destruct e as [|e0 e'].
    - inversion HX; subst. reflexivity.
    - erewrite known_exponent_ok with (x := x); eauto.
      + f_equal. lia.
      + replace (first p + (length sg + (length i + length f)))%nat with (st + length i + length f)%nat by (unfold st; lia). exact SE.
      + lia.
      + change (2^62)%Z with 4611686018427387904%Z. lia. }
  rewrite ES. cbn [bind]. exists strtod'. split; [reflexivity|]. intros M LE. unfold kept_known, kept_whole, kept_known_fraction.
  rewrite (firstn_all2 i) by lia. now rewrite firstn_all2 by auto.
Qed.
