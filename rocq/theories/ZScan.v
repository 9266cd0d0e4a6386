(** The byte scan of the zero-terminated parser on a string that ends with a
    quote. *)
From Coq Require Import List NArith ZArith Bool Arith Lia.
From Coq Require Import ZifyBool ZifyNat ZifyN.
From Verif Require Import Base Mem PolicyModel IntModel Loop SpecText SpecJson StrScanModel StrScanProofs ZModel.
Import ListNotations.

Lemma plain_loop_z_ok : forall u buf i, Forall plain u -> Forall (fun c => c <> 0%N) u -> sub_at buf i u ->
  (exists c, nth_error buf (i + length u) = Some c /\ (c = 0 \/ c = 34 \/ c = 92)%N) ->
  plain_loop_z buf i = Ok (i + length u).
Proof.
  intros u buf i HP HZ HS (c & Hc & NP). unfold plain_loop_z.
  assert (LB : i + length u < length buf) by (apply nth_error_Some; congruence).
  set (body := fun i0 : nat => _).
  apply (loop_exit body (fun s => length buf - s)) with (s' := i + length u); [| |lia].
  - clear Hc NP. revert i HS LB. induction HP as [|b u Hb HP IH]; intros i HS LB.
    + rewrite Nat.add_0_r. constructor.
    + destruct HS as [S1 S2]. cbn [length] in *. inversion HZ; subst. apply runs_step with (s1 := S i).
      * subst body. cbv beta. rewrite (rd_some _ _ _ S1). cbn [bind]. destruct Hb.
        replace (negb (b =? 0)%N && negb (b =? c_quote)%N && negb (b =? c_bslash)%N) with true by (unfold c_quote, c_bslash; lia).
        reflexivity.
      * lia.
      * replace (i + S (length u)) with (S i + length u) by lia. apply IH; auto. lia.
  - subst body. cbv beta. rewrite (rd_some _ _ _ Hc). cbn [bind].
    replace (negb (c =? 0)%N && negb (c =? c_quote)%N && negb (c =? c_bslash)%N) with false by (unfold c_quote, c_bslash; lia).
    reflexivity.
Qed.

Lemma nq_z_ok : forall n t buf start i nsp, length t <= n -> str_body t -> Forall (fun c => c <> 0%N) t ->
  sub_at buf i (t ++ [34%N]) -> start <= i ->
  forall f, length t < f ->
  loop (nq_body_z buf start) f (i, nsp) = Ok (i + length t, nsp_after nsp start i t).
Proof.
  induction n as [n IH] using (well_founded_induction lt_wf).
  intros t buf start i nsp Hn HB HZ HS Hst f Hf.
  destruct (str_body_split t HB) as (u & r & -> & PU & R).
  destruct f; [lia|]. cbn [loop]. unfold nq_body_z at 1.
  apply Forall_app in HZ as [HZu HZr]. rewrite app_length in *.
  destruct R as [->|(c & t' & -> & HB')].
  - (* no escape left *)
    rewrite app_nil_r in *. apply sub_at_app in HS as [SU [SQ _]]. cbn [length] in *.
    assert (HNS : nsp_after nsp start i u = nsp).
    { unfold nsp_after. rewrite <- (app_nil_r u), escape_offset_plain by auto. cbn. destruct (nsp <? 0)%Z; auto. }
    rewrite HNS, Nat.add_0_r in *.
    destruct u as [|c u].
    + cbn [length] in *. rewrite Nat.add_0_r in *. rewrite (rd_some _ _ _ SQ). cbn [bind].
      change ((34 =? 0)%N || (34 =? c_quote)%N) with true. reflexivity.
    + destruct SU as [S1 S2]. rewrite (rd_some _ _ _ S1). cbn [bind]. pose proof (Forall_inv PU) as [Pq Pb].
      assert (c <> 0)%N by (inversion HZu; auto).
      replace ((c =? 0)%N || (c =? c_quote)%N) with false by (unfold c_quote; lia).
      rewrite plain_loop_z_ok with (u := c :: u); auto.
      * cbn [bind]. rewrite (rd_some _ _ _ SQ). reflexivity.
      * cbn; auto.
      * exists 34%N. split; auto.
  - rewrite <- app_assoc in HS. apply sub_at_app in HS as [SU [SB [SC SR]]]. cbn [length app] in *.
    assert (GO : (i0 <- plain_loop_z buf i;;
       c0 <- rd buf i0;;
          (if (c0 =? c_bslash)%N then Ok (inl (i0 + 2, note_escape nsp start i0)) else Ok (inr (i0, nsp))))
         = Ok (inl (i + length u + 2, note_escape nsp start (i + length u)))).
    { rewrite plain_loop_z_ok with (u := u); auto.
      - cbn [bind]. rewrite (rd_some _ _ _ SB). reflexivity.
      - exists 92%N. split; auto. }
    assert (FST : exists b, nth_error buf i = Some b /\ b <> 34%N /\ b <> 0%N).
    { destruct u as [|b u].
      - rewrite Nat.add_0_r in SB. exists 92%N. repeat split; auto; lia.
      - destruct SU. pose proof (Forall_inv PU) as [Pq Pb]. pose proof (Forall_inv HZu). eauto. }
    destruct FST as (b & Hb & Nb & Nz). rewrite (rd_some _ _ _ Hb). cbn [bind].
    replace ((b =? 0)%N || (b =? c_quote)%N) with false by (unfold c_quote; lia). rewrite GO. cbn [bind].
    rewrite (IH (length t')) with (t := t'); auto; try lia.
    + f_equal. f_equal; [lia|].
      unfold nsp_after at 2. rewrite escape_offset_plain by auto. cbn [escape_offset N.eqb Pos.eqb option_map].
      unfold nsp_after, note_escape. destruct (Z.ltb_spec nsp 0).
      * replace (Z.of_nat (i + length u) - Z.of_nat start <? 0)%Z with false by lia. f_equal. f_equal. lia.
      * replace (nsp <? 0)%Z with false by lia. reflexivity.
    + exact (Forall_inv_tail (Forall_inv_tail HZr)).
    + replace (i + length u + 2) with (S (S (i + length u))) by lia. exact SR.
Qed.

Lemma parse_nq_z_ok : forall buf p cl t, in_string buf p cl -> str_body t -> Forall (fun c => c <> 0%N) t ->
  sub_at buf (first p) (t ++ [34%N]) -> (N.of_nat (length t) < 2^64)%N ->
  parse_nq_z false buf p = Ok (esc_size t, set_first p (first p + length t)).
Proof.
  intros buf p cl t HI HB HZ HS H64. unfold parse_nq_z.
  destruct (fast_skip_ok _ _ _ HI) as (j & EJ & PR & JL).
  pose proof HI as (HBy & HF & HQ & HC & HLb & HCL & HFL). rewrite HC, EJ. cbn [bind].
  destruct (plain_run_text _ _ _ PR) as (u & PU & SU & EU).
  (* the plain prefix is a prefix of t *)
  assert (exists r, t = u ++ r /\ str_body r) as (r & -> & HBr).
  { clear - HB HS PU SU. revert u PU SU. remember (first p) as i. clear Heqi. revert i HS.
    induction HB; intros i HS u PU SU.
    - destruct u as [|x u]; [exists []; split; auto; constructor|].
      destruct HS, SU. inversion PU as [|? ? [P1 P2] PU']; subst. congruence.
    - destruct u as [|x u]; [exists (c :: t); split; auto; constructor; auto|].
      destruct HS as [HS1 HS2], SU as [SU1 SU2]. inversion PU; subst. assert (x = c) by congruence. subst.
      destruct (IHHB (S i) HS2 u) as (r & -> & Hr); auto. exists r. auto.
    - destruct u as [|x u]; [exists (92%N :: c :: t); split; auto; apply sb_esc; auto|].
      destruct HS, SU. inversion PU as [|? ? [P1 P2] PU']; subst. congruence. }
  rewrite <- app_assoc in HS. apply sub_at_app in HS as [_ HS].
  apply Forall_app in HZ as [HZu HZr]. rewrite app_length in *.
  assert (LB : first p + length u + length r < length buf).
  { apply nth_error_Some. apply sub_at_app in HS as [_ [HS _]]. congruence. }
  rewrite nq_z_ok with (n := length r) (t := r); auto; try lia.
  2:{ now rewrite EU. }
  cbn [bind].
  assert (HQE : nth_error buf (j + length r) = Some 34%N).
  { apply sub_at_app in HS as [_ [HS _]]. now rewrite EU. }
  replace (j + length r) with (first p + (length u + length r)) in * by lia.
  rewrite (rd_some _ _ _ HQE). cbn [bind]. change (34 =? c_quote)%N with true. cbn [ensure bind].
  f_equal. f_equal.
  rewrite <- to_size_after with (start := first p) by (rewrite app_length; lia).
  f_equal. pose proof (nsp_after_app (first p) u r PU []) as X. cbn [app length] in X. rewrite X.
  rewrite nsp_after_nil. f_equal. lia.
Qed.
