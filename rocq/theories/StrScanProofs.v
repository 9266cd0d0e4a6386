From Coq Require Import List NArith ZArith Bool Lia Arith ZifyBool ZifyNat ZifyN.
From Verif Require Import Base Mem Bits Loop PolicyModel IntModel IntProofs StrScanModel SpecNum SpecText SpecJson.
Import ListNotations.
Ltac Zify.zify_post_hook ::= Z.div_mod_to_equations.

(** ** Word-at-a-time test *)

Lemma land_shifted_byte : forall w k, N.land w (N.shiftl 255 k) = N.shiftl (N.land (N.shiftr w k) 255) k.
Proof.
  intros. rewrite N.shiftl_land. apply N.bits_inj. intro i.
  rewrite !N.land_spec. destruct (N.lt_ge_cases i k).
  - rewrite !N.shiftl_spec_low by assumption. now rewrite !andb_false_r.
  - rewrite !N.shiftl_spec_high' by assumption. rewrite N.shiftr_spec'.
    replace (i - k + k)%N with i by lia. reflexivity.
Qed.

Lemma land255 : forall x, N.land x 255 = (x mod 256)%N.
Proof. intros. change 255%N with (N.ones 8). now rewrite N.land_ones. Qed.

Lemma test64 : forall n c w, (n < 8)%N -> (c < 256)%N ->
  test_at_byte64 n c w = ((w / 2^(8*n)) mod 256 =? c)%N.
Proof.
  intros n c w Hn Hc. unfold test_at_byte64.
  assert (u64 (N.shiftl 255 (n * 8)) = N.shiftl 255 (n * 8)) as ->.
  { unfold u64. apply N.mod_small. rewrite N.shiftl_mul_pow2.
    assert (2 ^ (n*8) <= 2^56)%N by (apply N.pow_le_mono_r; lia).
    change (2^56)%N with 72057594037927936%N in *. change (2^64)%N with 18446744073709551616%N. lia. }
  rewrite land_shifted_byte, land255, N.shiftr_div_pow2, !N.shiftl_mul_pow2.
  rewrite (N.mul_comm n 8).
  set (x := ((w / 2^(8*n)) mod 256)%N).
  assert (x < 256)%N by (apply N.mod_lt; lia). clearbody x.
  assert (exists j, (2^(8*n) = j /\ j <= 72057594037927936 /\ 1 <= j)%N) as (j & -> & J1 & J2).
  { eexists; split; [reflexivity|]. split.
    - change 72057594037927936%N with (2^56)%N. apply N.pow_le_mono_r; lia.
    - change 1%N with (2^0)%N. apply N.pow_le_mono_r; lia. }
  unfold u64. change (2^64)%N with 18446744073709551616%N.
  assert (c * j <= 18374686479671623680)%N by nia.
  assert (x * j <= 18374686479671623680)%N by nia.
  destruct (N.eqb_spec x c) as [->|NE].
  - replace (c * j + (18446744073709551616 - c * j))%N with 18446744073709551616%N by lia. reflexivity.
  - apply N.eqb_neq. assert (x * j <> c * j)%N by nia. lia.
Qed.

Lemma test32 : forall n c w, (n < 4)%N -> (c < 256)%N ->
  test_at_byte32 n c w = ((w / 2^(8*n)) mod 256 =? c)%N.
Proof.
  intros n c w Hn Hc. unfold test_at_byte32.
  assert (u32 (N.shiftl 255 (n * 8)) = N.shiftl 255 (n * 8)) as ->.
  { unfold u32. apply N.mod_small. rewrite N.shiftl_mul_pow2.
    assert (2 ^ (n*8) <= 2^24)%N by (apply N.pow_le_mono_r; lia).
    change (2^24)%N with 16777216%N in *. change (2^32)%N with 4294967296%N. lia. }
  rewrite land_shifted_byte, land255, N.shiftr_div_pow2, !N.shiftl_mul_pow2.
  rewrite (N.mul_comm n 8).
  set (x := ((w / 2^(8*n)) mod 256)%N).
  assert (x < 256)%N by (apply N.mod_lt; lia). clearbody x.
  assert (exists j, (2^(8*n) = j /\ j <= 16777216 /\ 1 <= j)%N) as (j & -> & J1 & J2).
  { eexists; split; [reflexivity|]. split.
    - change 16777216%N with (2^24)%N. apply N.pow_le_mono_r; lia.
    - change 1%N with (2^0)%N. apply N.pow_le_mono_r; lia. }
  unfold u32. change (2^32)%N with 4294967296%N.
  assert (c * j <= 4278190080)%N by nia.
  assert (x * j <= 4278190080)%N by nia.
  destruct (N.eqb_spec x c) as [->|NE].
  - replace (c * j + (4294967296 - c * j))%N with 4294967296%N by lia. reflexivity.
  - apply N.eqb_neq. assert (x * j <> c * j)%N by nia. lia.
Qed.

Lemma lanes_nth : forall l n, is_bytes l -> (n < length l)%nat ->
  ((lanes 8 l / 2^(8 * N.of_nat n)) mod 256 = nth n l 0)%N.
Proof.
  induction l as [|x l IH]; intros n HB Hn; [cbn in Hn; lia|].
  inversion HB; subst. cbn [lanes]. destruct n as [|n].
  - cbn [nth]. change (8 * N.of_nat 0)%N with 0%N. rewrite N.pow_0_r, N.div_1_r.
    apply (horner_mod 8). assumption.
  - cbn [nth length] in *. rewrite <- IH by (auto; lia).
    replace (8 * N.of_nat (S n))%N with (8 + 8 * N.of_nat n)%N by lia.
    rewrite N.pow_add_r, <- N.div_div by (apply N.pow_nonzero; lia).
    now rewrite horner_div by assumption.
Qed.

Lemma any64 : forall c l, (c < 256)%N -> is_bytes l -> length l = 8 ->
  any_at_byte64 c (lanes 8 l) = existsb (N.eqb c) l.
Proof.
  intros c l Hc HB L. unfold any_at_byte64. cbn [existsb].
  rewrite !test64 by (auto; lia).
  pose proof (lanes_nth l 0 HB ltac:(lia)). pose proof (lanes_nth l 1 HB ltac:(lia)).
  pose proof (lanes_nth l 2 HB ltac:(lia)). pose proof (lanes_nth l 3 HB ltac:(lia)).
  pose proof (lanes_nth l 4 HB ltac:(lia)). pose proof (lanes_nth l 5 HB ltac:(lia)).
  pose proof (lanes_nth l 6 HB ltac:(lia)). pose proof (lanes_nth l 7 HB ltac:(lia)).
  cbn [N.of_nat Pos.of_succ_nat Pos.succ] in *.
  repeat match goal with H : _ = nth _ _ _ |- _ => rewrite H; clear H end.
  destruct l as [|b0 [|b1 [|b2 [|b3 [|b4 [|b5 [|b6 [|b7 [|]]]]]]]]]; try discriminate.
  cbn [nth existsb]. rewrite !(N.eqb_sym c). reflexivity.
Qed.

Lemma any32 : forall c l, (c < 256)%N -> is_bytes l -> length l = 4 ->
  any_at_byte32 c (lanes 8 l) = existsb (N.eqb c) l.
Proof.
  intros c l Hc HB L. unfold any_at_byte32. cbn [existsb].
  rewrite !test32 by (auto; lia).
  pose proof (lanes_nth l 0 HB ltac:(lia)). pose proof (lanes_nth l 1 HB ltac:(lia)).
  pose proof (lanes_nth l 2 HB ltac:(lia)). pose proof (lanes_nth l 3 HB ltac:(lia)).
  cbn [N.of_nat Pos.of_succ_nat Pos.succ] in *.
  repeat match goal with H : _ = nth _ _ _ |- _ => rewrite H; clear H end.
  destruct l as [|b0 [|b1 [|b2 [|b3 [|]]]]]; try discriminate.
  cbn [nth existsb]. rewrite !(N.eqb_sym c). reflexivity.
Qed.

(** ** Runs of plain characters *)

Definition plain (c : N) : Prop := c <> 34%N /\ c <> 92%N.
Definition plain_run (buf : list N) (i j : nat) : Prop :=
  i <= j /\ forall k, i <= k < j -> exists c, nth_error buf k = Some c /\ plain c.

Lemma plain_run_refl : forall buf i, plain_run buf i i.
Proof. split; [lia|]. intros; lia. Qed.

Lemma plain_run_trans : forall buf a b c, plain_run buf a b -> plain_run buf b c -> plain_run buf a c.
Proof.
  intros buf a b c [L1 H1] [L2 H2]. split; [lia|]. intros k Hk.
  destruct (Nat.lt_ge_cases k b); [apply H1|apply H2]; lia.
Qed.

Lemma plain_run_list : forall buf i l, sub_at buf i l ->
  existsb (N.eqb 34) l = false -> existsb (N.eqb 92) l = false -> plain_run buf i (i + length l).
Proof.
  intros buf i l S H1 H2. split; [lia|]. intros k Hk.
  destruct (nth_error l (k - i)) as [c|] eqn:E.
  - exists c. pose proof (sub_at_nth _ _ _ _ _ S E). replace (i + (k - i)) with k in H by lia. split; auto.
    apply nth_error_In in E. split; intros ->.
    + assert (X : existsb (N.eqb 34) l = true) by (apply existsb_exists; eexists; split; eauto). congruence.
    + assert (X : existsb (N.eqb 92) l = true) by (apply existsb_exists; eexists; split; eauto). congruence.
  - apply nth_error_None in E. lia.
Qed.

Lemma rd32_at : forall buf i l, length l = 4 -> sub_at buf i l -> rd32 buf i = Ok (lanes 8 l).
Proof.
  intros buf i l L H.
  destruct l as [|b0 [|b1 [|b2 [|b3 [|]]]]]; try discriminate.
  cbn [sub_at] in H. decompose [and] H. unfold rd32.
  rewrite !Nat.add_succ_r, !Nat.add_0_r.
  repeat (erewrite rd_some by eassumption; cbn [bind]).
  cbn [lanes]. f_equal. lia.
Qed.

(** The fast skip ends after some plain characters, within [last]. *)
Lemma skip8_ok : forall buf i last, is_bytes buf -> last <= length buf -> 0 < i ->
  (exists c, nth_error buf (i - 1) = Some c /\ c <> 92%N) -> i <= last ->
  exists j, skip_to_first8 buf i last = Ok j /\ plain_run buf i j /\ j <= last.
Proof.
  intros buf i l HB HL Hi Hprev Hle. unfold skip_to_first8.
  set (body := fun i0 : nat => w <- rd64 buf i0;; _).
  assert (BO : forall j, plain_run buf i j -> j <= l -> exists j', back_off buf j = Ok j' /\ plain_run buf i j' /\ j' <= l).
  { intros j PR JL. destruct j; [destruct PR; lia|]. cbn [back_off].
    destruct (Nat.eq_dec i (S j)) as [E|NE].
    - destruct Hprev as (c & Hc & Nc). replace (i - 1) with j in Hc by lia.
      rewrite (rd_some _ _ _ Hc). cbn [bind]. exists (S j). replace (c =? c_bslash)%N with false by (unfold c_bslash; lia). auto.
    - destruct PR as [PL PR]. destruct (PR j) as (c & Hc & [_ Nc]); [lia|].
      rewrite (rd_some _ _ _ Hc). cbn [bind]. exists (S j). replace (c =? c_bslash)%N with false by (unfold c_bslash; lia).
      repeat split; auto. }
  destruct (Nat.leb_spec 8 (l - i)) as [G|G].
  2:{ cbn [bind]. apply BO; auto. apply plain_run_refl. }
  assert (LOOP : yields (fun j => plain_run buf i j /\ j <= l) (loop body (S (l - i)) i)).
  { apply (loop_inv_ok body (fun s => l - s) (fun s => plain_run buf i s /\ s <= l /\ 8 <= l - s)).
    - intros s (PR & SL & S8). subst body. cbv beta.
      destruct (sub_at_window buf s 8) as (w & LW & SW); [lia|].
      rewrite (rd64_at buf s w LW SW). cbn [bind].
      pose proof (sub_at_bytes _ _ _ HB SW) as HBw.
      rewrite !any64 by (auto; reflexivity). eexists; split; [reflexivity|].
      destruct (existsb (N.eqb c_quote) w) eqn:E1; cbn [orb negb andb]; auto.
      destruct (existsb (N.eqb c_bslash) w) eqn:E2; cbn [orb negb andb]; auto.
      destruct (Nat.leb_spec 16 (l - s)); auto.
      split; [|lia]. split; [|lia]. eapply plain_run_trans; [exact PR|].
      rewrite <- LW. now apply plain_run_list.
    - split; [apply plain_run_refl|lia].
    - lia. }
  destruct LOOP as (j & -> & PR & JL). cbn [bind]. apply BO; auto.
Qed.

Lemma skip4_ok : forall buf i last, is_bytes buf -> last <= length buf -> 0 < i ->
  (exists c, nth_error buf (i - 1) = Some c /\ c <> 92%N) -> i <= last ->
  exists j, skip_to_first4 buf i last = Ok j /\ plain_run buf i j /\ j <= last.
Proof.
  intros buf i l HB HL Hi Hprev Hle. unfold skip_to_first4.
  set (body := fun i0 : nat => w <- rd32 buf i0;; _).
  assert (BO : forall j, plain_run buf i j -> j <= l -> exists j', back_off buf j = Ok j' /\ plain_run buf i j' /\ j' <= l).
  { intros j PR JL. destruct j; [destruct PR; lia|]. cbn [back_off].
    destruct (Nat.eq_dec i (S j)) as [E|NE].
    - destruct Hprev as (c & Hc & Nc). replace (i - 1) with j in Hc by lia.
      rewrite (rd_some _ _ _ Hc). cbn [bind]. exists (S j). replace (c =? c_bslash)%N with false by (unfold c_bslash; lia). auto.
    - destruct PR as [PL PR]. destruct (PR j) as (c & Hc & [_ Nc]); [lia|].
      rewrite (rd_some _ _ _ Hc). cbn [bind]. exists (S j). replace (c =? c_bslash)%N with false by (unfold c_bslash; lia).
      repeat split; auto. }
  destruct (Nat.leb_spec 4 (l - i)) as [G|G].
  2:{ cbn [bind]. apply BO; auto. apply plain_run_refl. }
  assert (LOOP : yields (fun j => plain_run buf i j /\ j <= l) (loop body (S (l - i)) i)).
  { apply (loop_inv_ok body (fun s => l - s) (fun s => plain_run buf i s /\ s <= l /\ 4 <= l - s)).
    - intros s (PR & SL & S8). subst body. cbv beta.
      destruct (sub_at_window buf s 4) as (w & LW & SW); [lia|].
      rewrite (rd32_at buf s w LW SW). cbn [bind].
      pose proof (sub_at_bytes _ _ _ HB SW) as HBw.
      rewrite !any32 by (auto; reflexivity). eexists; split; [reflexivity|].
      destruct (existsb (N.eqb c_quote) w) eqn:E1; cbn [orb negb andb]; auto.
      destruct (existsb (N.eqb c_bslash) w) eqn:E2; cbn [orb negb andb]; auto.
      destruct (Nat.leb_spec 8 (l - s)); auto.
      split; [|lia]. split; [|lia]. eapply plain_run_trans; [exact PR|].
      rewrite <- LW. now apply plain_run_list.
    - split; [apply plain_run_refl|lia].
    - lia. }
  destruct LOOP as (j & -> & PR & JL). cbn [bind]. apply BO; auto.
Qed.

(** ** The byte loops on a well-formed body *)

Lemma str_body_split : forall t, str_body t -> exists u r, t = u ++ r /\ Forall plain u /\
  (r = [] \/ exists c t', r = 92%N :: c :: t' /\ str_body t').
Proof.
  induction 1.
  - exists [], []. auto.
  - destruct IHstr_body as (u & r & -> & PU & R). exists (c :: u), r. repeat split; auto.
    constructor; auto. split; auto.
  - exists [], (92%N :: c :: t). repeat split; auto. right. eauto.
Qed.

Lemma escape_offset_plain : forall u r, Forall plain u ->
  escape_offset (u ++ r) = option_map (fun k => length u + k) (escape_offset r).
Proof.
  induction 1; cbn [app length escape_offset].
  - destruct (escape_offset r); reflexivity.
  - destruct H as [_ H]. replace (x =? 92)%N with false by lia. rewrite IHForall.
    destruct (escape_offset r); reflexivity.
Qed.

(** What the recorded escape position becomes. *)
Definition nsp_after (nsp : Z) (start i : nat) (t : list N) : Z :=
  if (nsp <? 0)%Z then
    match escape_offset t with Some k => (Z.of_nat (i + k) - Z.of_nat start)%Z | None => nsp end
  else nsp.

Lemma plain_loop_checked_ok : forall u buf i last, Forall plain u -> sub_at buf i u ->
  i + length u <= last ->
  (i + length u = last \/ exists c, nth_error buf (i + length u) = Some c /\ ~ plain c) ->
  plain_loop_checked buf last i = Ok (i + length u).
Proof.
  intros u buf i last HP HS HL HE. unfold plain_loop_checked.
  set (body := fun i0 : nat => if i0 <? last then _ else _).
  apply (loop_exit body (fun s => last - s)) with (s' := i + length u); [| |lia].
  - clear HE. revert i HS HL. induction HP as [|c u Hc HP IH]; intros i HS HL.
    + rewrite Nat.add_0_r. constructor.
    + destruct HS as [S1 S2]. cbn [length] in *. apply runs_step with (s1 := S i).
      * subst body. cbv beta. destruct (Nat.ltb_spec i last); [|lia].
        rewrite (rd_some _ _ _ S1). cbn [bind]. destruct Hc.
        replace (negb (c =? c_quote)%N && negb (c =? c_bslash)%N) with true by (unfold c_quote, c_bslash; lia).
        reflexivity.
      * lia.
      * replace (i + S (length u)) with (S i + length u) by lia. apply IH; auto. lia.
  - subst body. cbv beta. destruct HE as [->|(c & Hc & NP)].
    + now rewrite Nat.ltb_irrefl.
    + destruct (Nat.ltb_spec (i + length u) last); auto. rewrite (rd_some _ _ _ Hc). cbn [bind].
      unfold plain in NP.
      replace (negb (c =? c_quote)%N && negb (c =? c_bslash)%N) with false by (unfold c_quote, c_bslash; lia).
      reflexivity.
Qed.

Lemma nq_checked_ok : forall n t buf start last i nsp, length t <= n -> str_body t ->
  sub_at buf i (t ++ [34%N]) -> i + length t < last -> start <= i ->
  forall f, last - i < f ->
  loop (nq_body_checked buf start last) f (i, nsp) = Ok (i + length t, nsp_after nsp start i t).
Proof.
  induction n as [n IH] using (well_founded_induction lt_wf).
  intros t buf start last i nsp Hn HB HS HL Hst f Hf.
  destruct (str_body_split t HB) as (u & r & -> & PU & R).
  destruct f; [lia|]. cbn [loop]. unfold nq_body_checked at 1.
  destruct (Nat.ltb_spec i last); [|lia].
  rewrite app_length in *.
  destruct R as [->|(c & t' & -> & HB')].
  - (* no escape left *)
    rewrite app_nil_r in *. apply sub_at_app in HS as [SU [SQ _]]. cbn [length] in *.
    assert (HNS : nsp_after nsp start i u = nsp).
    { unfold nsp_after. rewrite <- (app_nil_r u), escape_offset_plain by auto. cbn. destruct (nsp <? 0)%Z; auto. }
    rewrite HNS, Nat.add_0_r in *.
    destruct u as [|c u].
    + cbn [length] in *. rewrite Nat.add_0_r in *. rewrite (rd_some _ _ _ SQ). cbn [bind].
      change (34 =? c_quote)%N with true. reflexivity.
    + destruct SU as [S1 S2]. rewrite (rd_some _ _ _ S1). cbn [bind]. inversion PU; subst. destruct H2.
      replace (c =? c_quote)%N with false by (unfold c_quote; lia).
      rewrite plain_loop_checked_ok with (u := c :: u); auto; try lia.
      * cbn [bind]. destruct (Nat.ltb_spec (i + length (c :: u)) last); [|lia].
        rewrite (rd_some _ _ _ SQ). reflexivity.
      * cbn; auto.
      * right. exists 34%N. split; auto. unfold plain. lia.
  - rewrite <- app_assoc in HS. apply sub_at_app in HS as [SU [SB [SC SR]]]. cbn [length app] in *.
    assert (GO : (i0 <- plain_loop_checked buf last i;;
       (if i0 <? last then c0 <- rd buf i0;;
          (if (c0 =? c_bslash)%N then Ok (inl (i0 + 2, note_escape nsp start i0)) else Ok (inr (i0, nsp)))
        else Ok (inr (i0, nsp)))) = Ok (inl (i + length u + 2, note_escape nsp start (i + length u)))).
    { rewrite plain_loop_checked_ok with (u := u); auto; try lia.
      - cbn [bind]. destruct (Nat.ltb_spec (i + length u) last); [|lia].
        rewrite (rd_some _ _ _ SB). reflexivity.
      - right. exists 92%N. split; auto. unfold plain. lia. }
    assert (FST : exists b, nth_error buf i = Some b /\ b <> 34%N).
    { destruct u as [|b u].
      - rewrite Nat.add_0_r in SB. exists 92%N. split; auto. lia.
      - destruct SU. inversion PU; subst. destruct H4. eauto. }
    destruct FST as (b & Hb & Nb). rewrite (rd_some _ _ _ Hb). cbn [bind].
    replace (b =? c_quote)%N with false by (unfold c_quote; lia). rewrite GO. cbn [bind].
    rewrite (IH (length t')) with (t := t'); auto; try lia.
    + f_equal. f_equal; [lia|].
      unfold nsp_after at 2. rewrite escape_offset_plain by auto. cbn [escape_offset N.eqb Pos.eqb option_map].
      unfold nsp_after, note_escape. destruct (Z.ltb_spec nsp 0).
      * replace (Z.of_nat (i + length u) - Z.of_nat start <? 0)%Z with false by lia. f_equal. f_equal. lia.
      * replace (nsp <? 0)%Z with false by lia. reflexivity.
    + replace (i + length u + 2) with (S (S (i + length u))) by lia. exact SR.
Qed.

(** ** The byte loops on arbitrary input *)

Lemma str_body_app : forall a b, str_body a -> str_body b -> str_body (a ++ b).
Proof. induction 1; intros; cbn [app]; [assumption|apply sb_plain; auto|apply sb_esc; auto]. Qed.

Lemma str_body_plain : forall u, Forall plain u -> str_body u.
Proof. induction 1; [constructor|]. apply sb_plain; auto; apply H. Qed.

Lemma escape_offset_app : forall a b, escape_offset (a ++ b) =
  match escape_offset a with Some k => Some k | None => option_map (fun k => length a + k) (escape_offset b) end.
Proof.
  induction a as [|x a IH]; intros b; cbn [app escape_offset length].
  - destruct (escape_offset b); reflexivity.
  - destruct (x =? 92)%N; auto. rewrite IH. destruct (escape_offset a); auto. destruct (escape_offset b); reflexivity.
Qed.

Lemma plain_run_text : forall buf i j, plain_run buf i j ->
  exists u, Forall plain u /\ sub_at buf i u /\ j = i + length u.
Proof.
  intros buf i j [L H]. remember (j - i) as n. revert i L H Heqn.
  induction n; intros i L H E.
  - exists []. cbn. repeat split; auto; lia.
  - destruct (H i) as (c & Hc & Pc); [lia|].
    destruct (IHn (S i)) as (u & PU & SU & EU); try lia.
    + intros k Hk. apply H. lia.
    + exists (c :: u). cbn. repeat split; auto. lia.
Qed.

Lemma plain_loop_checked_safe : forall buf i last, last <= length buf ->
  exists j, plain_loop_checked buf last i = Ok j /\ plain_run buf i j /\ (i <= last -> j <= last) /\
    (j < last -> exists c, nth_error buf j = Some c /\ ~ plain c).
Proof.
  intros buf i last HL. unfold plain_loop_checked.
  set (body := fun i0 : nat => if i0 <? last then _ else _).
  pose proof (loop_inv_ok body (fun s => last - s) (fun s => plain_run buf i s /\ (i <= last -> s <= last))
    (fun j => plain_run buf i j /\ (i <= last -> j <= last) /\
    (j < last -> exists c, nth_error buf j = Some c /\ ~ plain c))) as X.
  destruct X with (f := S (last - i)) (s := i) as (j & E & Y); try lia.
  - intros s [PR SL]. subst body. cbv beta. destruct (Nat.ltb_spec s last).
    + destruct (rd_in buf s) as (c & Hc); [lia|]. rewrite (rd_some _ _ _ Hc). cbn [bind].
      eexists; split; [reflexivity|].
      destruct (negb (c =? c_quote)%N && negb (c =? c_bslash)%N) eqn:E; unfold c_quote, c_bslash in E.
      * split; [|lia]. split; [|lia]. eapply plain_run_trans; [exact PR|]. split; [lia|]. intros k Hk.
        assert (k = s) by lia; subst. exists c. split; auto. unfold plain. lia.
      * split; auto. split; auto. intros _. exists c. split; auto. unfold plain. lia.
    + eexists; split; [reflexivity|]. split; auto. split; auto. lia.
  - split; [apply plain_run_refl|auto].
  - exists j. auto.
Qed.

(** State reached by the scan: the text so far is a string body. *)
Definition scanned (buf : list N) (start last : nat) (s : nat * Z) : Prop :=
  let '(i, nsp) := s in
  last < i \/ exists t, str_body t /\ sub_at buf start t /\ i = start + length t /\ i <= last /\
    nsp = nsp_after (-1) start start t.

Definition scan_result (buf : list N) (start last : nat) (s : nat * Z) : Prop :=
  let '(i, nsp) := s in
  i < last -> exists t, str_body t /\ sub_at buf start (t ++ [34%N]) /\ i = start + length t /\
    nsp = nsp_after (-1) start start t.

Lemma nsp_after_app : forall start u r, Forall plain u ->
  forall t, nsp_after (-1) start start (t ++ u ++ r) = 
    nsp_after (nsp_after (-1) start start t) start (start + length t + length u) r.
Proof.
  intros start u r PU t. unfold nsp_after. cbn [Z.ltb Z.compare].
  rewrite escape_offset_app. destruct (escape_offset t).
  - replace (Z.of_nat (start + n) - Z.of_nat start <? 0)%Z with false by lia. reflexivity.
  - cbn [Z.ltb Z.compare]. rewrite escape_offset_plain by auto. destruct (escape_offset r); cbn [option_map]; auto. f_equal. f_equal. lia.
Qed.

Lemma nsp_after_nil : forall nsp start i, nsp_after nsp start i [] = nsp.
Proof. intros. unfold nsp_after. cbn. destruct (nsp <? 0)%Z; auto. Qed.

Lemma nq_checked_safe : forall buf start last i, last <= length buf -> plain_run buf start i ->
  forall f, last - i < f ->
  yields (scan_result buf start last) (loop (nq_body_checked buf start last) f (i, (-1)%Z)).
Proof.
  intros buf start last i0 HL PR0 f Hf.
  apply (loop_inv_ok (nq_body_checked buf start last) (fun s => last - fst s) (scanned buf start last)).
  - intros [i nsp] HI. unfold nq_body_checked.
    destruct (Nat.ltb_spec i last) as [L|L].
    2:{ eexists; split; [reflexivity|]. cbn. lia. }
    destruct HI as [HI|(t & HB & HS & EI & _ & EN)]; [lia|].
    destruct (rd_in buf i) as (c & Hc); [lia|]. rewrite (rd_some _ _ _ Hc). cbn [bind].
    destruct (N.eqb_spec c c_quote) as [->|NQ].
    { eexists; split; [reflexivity|]. cbn [scan_result]. intros _. exists t. repeat split; auto.
      apply sub_at_app. split; auto. cbn. split; auto. now rewrite <- EI. }
    destruct (plain_loop_checked_safe buf i last HL) as (j & -> & PR & JL & JE). cbn [bind].
    specialize (JL ltac:(lia)).
    destruct (plain_run_text _ _ _ PR) as (u & PU & SU & EJ).
    assert (HU : sub_at buf start (t ++ u)) by (apply sub_at_app; split; auto; now rewrite <- EI).
    destruct (Nat.ltb_spec j last) as [LJ|LJ].
    2:{ eexists; split; [reflexivity|]. cbn. lia. }
    destruct (JE LJ) as (d & Hd & ND). rewrite (rd_some _ _ _ Hd). cbn [bind].
    destruct (N.eqb_spec d c_bslash) as [->|NB].
    + eexists; split; [reflexivity|]. cbn [fst]. split; [|lia].
      destruct (Nat.le_gt_cases (j + 2) last) as [L2|L2]; [|left; lia]. right.
      destruct (rd_in buf (S j)) as (e & He); [lia|].
      exists (t ++ u ++ [c_bslash; e]). repeat split.
      * apply str_body_app; auto. apply str_body_app; [now apply str_body_plain|]. apply sb_esc. constructor.
      * rewrite app_assoc. apply sub_at_app. split; auto. rewrite app_length. cbn.
        rewrite Nat.add_assoc, <- EI, <- EJ. auto.
      * rewrite !app_length. cbn. lia.
      * lia.
      * rewrite nsp_after_app by auto. rewrite <- EN, <- EI, <- EJ. unfold note_escape, nsp_after.
        cbn [escape_offset]. change (c_bslash =? 92)%N with true. cbn iota.
        rewrite Nat.add_0_r. reflexivity.
    + eexists; split; [reflexivity|]. cbn [scan_result]. intros _. exists (t ++ u).
      assert (d = 34%N) as -> by (unfold plain in ND; unfold c_bslash in NB; lia). repeat split.
      * apply str_body_app; auto. now apply str_body_plain.
      * apply sub_at_app. split; auto. cbn. split; auto. rewrite app_length.
        replace (start + (length t + length u)) with j by lia. auto.
      * rewrite app_length. lia.
      * pose proof (nsp_after_app start u [] PU t) as X. rewrite app_nil_r, nsp_after_nil in X. congruence.
  - cbn [scanned]. destruct (Nat.lt_ge_cases last i0); [now left|right].
    destruct (plain_run_text _ _ _ PR0) as (u & PU & SU & EU). exists u.
    split; [now apply str_body_plain|]. repeat split; auto.
    pose proof (nsp_after_app start u [] PU []) as X. rewrite app_nil_r, !nsp_after_nil in X. cbn [app] in X. congruence.
  - cbn. lia.
Qed.

(** ** parse_nq_check, constexpr mode *)

Definition esc_size (t : list N) : N :=
  match escape_offset t with Some k => N.of_nat k | None => npos end.

Lemma to_size_after : forall start t, (N.of_nat (length t) < 2^64)%N ->
  to_size (nsp_after (-1) start start t) = esc_size t.
Proof.
  intros start t HL. unfold nsp_after, esc_size. cbn [Z.ltb Z.compare].
  assert (HK : forall k, escape_offset t = Some k -> k < length t).
  { clear. induction t as [|c t IH]; cbn; intros k H; [discriminate|].
    destruct (c =? 92)%N; [injection H as <-; lia|]. destruct (escape_offset t); [|discriminate].
    injection H as <-. specialize (IH n eq_refl). lia. }
  destruct (escape_offset t) as [k|] eqn:E.
  - specialize (HK k eq_refl). unfold to_size. rewrite Z.mod_small.
    + lia.
    + change (2^64)%N with 18446744073709551616%N in HL. change (2^64)%Z with 18446744073709551616%Z. lia.
  - reflexivity.
Qed.

(** A parse state just inside a string: after an opening quote. *)
Definition in_string (buf : list N) (p : ps) (cl : nat) : Prop :=
  is_bytes buf /\ 0 < first p /\ nth_error buf (first p - 1) = Some 34%N /\
  clast p = Some cl /\ last p <= length buf /\ cl <= length buf /\ first p <= last p.

Lemma fast_skip_ok : forall buf p cl, in_string buf p cl ->
  exists j, (if 8 <=? last p - first p then skip_to_first8 buf (first p) (last p)
             else if 4 <=? cl - first p then skip_to_first4 buf (first p) (last p)
             else Ok (first p)) = Ok j /\ plain_run buf (first p) j /\ j <= last p.
Proof.
  intros buf p cl (HB & HF & HQ & HC & HL & HCL & HFL).
  assert (exists c, nth_error buf (first p - 1) = Some c /\ c <> 92%N) by (exists 34%N; split; auto; lia).
  destruct (8 <=? last p - first p); [apply skip8_ok; auto|].
  destruct (4 <=? cl - first p); [apply skip4_ok; auto|].
  exists (first p). repeat split; auto; intros; lia.
Qed.

Lemma parse_nq_cx_ok : forall buf p cl t, in_string buf p cl -> str_body t ->
  sub_at buf (first p) (t ++ [34%N]) -> first p + length t < cl -> (N.of_nat (length t) < 2^64)%N ->
  parse_nq true ExConstexpr false buf p = Ok (esc_size t, set_first p (first p + length t)).
Proof.
  intros buf p cl t HI HB HS HL H64. unfold parse_nq, parse_nq_check.
  destruct (fast_skip_ok _ _ _ HI) as (j & EJ & PR & JL).
  pose proof HI as (HBy & HF & HQ & HC & HLb & HCL & HFL). rewrite HC, EJ. cbn [bind].
  destruct (plain_run_text _ _ _ PR) as (u & PU & SU & EU).
  (* the plain prefix is a prefix of t *)
  assert (exists r, t = u ++ r /\ str_body r) as (r & -> & HBr).
  { clear - HB HS PU SU. revert u PU SU. remember (first p) as i. clear Heqi. revert i HS.
    induction HB; intros i HS u PU SU.
    - destruct u as [|x u]; [exists []; split; auto; constructor|].
      destruct HS, SU. inversion PU as [|? ? [P1 P2] PU']; subst. congruence.
    - destruct u as [|x u]; [exists (c :: t); split; auto; constructor; auto|].
      destruct HS as [HS1 HS2], SU as [SU1 SU2]. inversion PU; subst. assert (x = c) by congruence. subst.
      destruct (IHHB (S i) HS2 u) as (r & -> & Hr); auto. exists r. auto.
    - destruct u as [|x u]; [exists (92%N :: c :: t); split; auto; apply sb_esc; auto|].
      destruct HS, SU. inversion PU as [|? ? [P1 P2] PU']; subst. congruence. }
  rewrite <- app_assoc in HS. apply sub_at_app in HS as [_ HS].
  rewrite app_length in *.
  rewrite nq_checked_ok with (n := length r) (t := r); auto; try lia.
  2:{ now rewrite EU. }
  cbn [bind].
  assert (HQE : nth_error buf (j + length r) = Some 34%N).
  { apply sub_at_app in HS as [_ [HS _]]. now rewrite EU. }
  replace (j + length r) with (first p + (length u + length r)) in * by lia.
  destruct (Nat.ltb_spec (first p + (length u + length r)) cl); [|lia].
  rewrite (rd_some _ _ _ HQE). cbn [bind]. change (34 =? c_quote)%N with true. cbn [ensure bind].
  f_equal. f_equal.
  rewrite <- to_size_after with (start := first p) by (rewrite app_length; lia).
  f_equal. pose proof (nsp_after_app (first p) u r PU []) as X. cbn [app length] in X. rewrite X.
  rewrite nsp_after_nil. f_equal. lia.
Qed.

(** Any input: the scan stays in bounds, and success means a closing quote. *)
Lemma parse_nq_cx_safe : forall buf p cl, in_string buf p cl ->
  outcome_ok (fun r => exists t, str_body t /\ sub_at buf (first p) (t ++ [34%N]) /\
      first p + length t < cl /\ snd r = set_first p (first p + length t) /\
      fst r = to_size (nsp_after (-1) (first p) (first p) t))
    (parse_nq true ExConstexpr false buf p).
Proof.
  intros buf p cl HI. unfold parse_nq, parse_nq_check.
  destruct (fast_skip_ok _ _ _ HI) as (j & EJ & PR & JL).
  pose proof HI as (HBy & HF & HQ & HC & HLb & HCL & HFL). rewrite HC, EJ. cbn [bind].
  destruct (nq_checked_safe buf (first p) cl j HCL PR (S (cl - j))) as ([i nsp] & E & R); [lia|].
  rewrite E. cbn [bind]. cbn [scan_result] in R.
  destruct (Nat.ltb_spec i cl) as [LI|LI]; cbn [bind]; [|cbn; auto].
  destruct (R LI) as (t & HB & HS & EI & EN).
  assert (HQE : nth_error buf i = Some 34%N) by (rewrite EI; apply sub_at_app in HS as [_ [HS _]]; auto).
  rewrite (rd_some _ _ _ HQE). cbn [bind]. change (34 =? c_quote)%N with true. cbn [ensure bind outcome_ok fst snd].
  exists t. subst. repeat split; auto.
Qed.
