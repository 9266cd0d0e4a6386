(** Lane-wise behaviour of masks and shifts on machine words seen as
    little-endian sums [a + 2^k * b]. *)
From Coq Require Import NArith Bool Lia List.
Import ListNotations.
Local Open Scope N_scope.

Lemma horner_mod : forall k a b, a < 2^k -> (a + 2^k * b) mod 2^k = a.
Proof.
  intros k a b H. rewrite N.mul_comm, N.mod_add by (apply N.pow_nonzero; lia).
  now apply N.mod_small.
Qed.

Lemma horner_div : forall k a b, a < 2^k -> (a + 2^k * b) / 2^k = b.
Proof.
  intros k a b H. rewrite N.mul_comm, N.div_add by (apply N.pow_nonzero; lia).
  rewrite N.div_small by assumption. lia.
Qed.

Lemma testbit_horner : forall k a b i, a < 2^k ->
  N.testbit (a + 2^k * b) i =
  if i <? k then N.testbit a i else N.testbit b (i - k).
Proof.
  intros k a b i H. destruct (N.ltb_spec i k) as [L|L].
  - rewrite <- (N.mod_pow2_bits_low (a + 2^k * b) k i L).
    now rewrite horner_mod by assumption.
  - replace i with (i - k + k) at 1 by lia.
    rewrite <- N.div_pow2_bits. now rewrite horner_div by assumption.
Qed.

Lemma testbit_high : forall k a i, a < 2^k -> k <= i -> N.testbit a i = false.
Proof.
  intros k a i H L. rewrite <- (N.mod_small a (2^k)) by assumption.
  now apply N.mod_pow2_bits_high.
Qed.

Lemma land_lt : forall k a b, a < 2^k -> N.land a b < 2^k.
Proof.
  intros k a b H.
  destruct (N.eq_dec (N.land a b) 0) as [->|NZ]; [pose proof (N.pow_nonzero 2 k); lia|].
  apply N.log2_lt_pow2; [lia|].
  destruct (N.eq_dec a 0) as [->|Ha]; [rewrite N.land_0_l in NZ; congruence|].
  eapply N.le_lt_trans; [apply N.log2_land|].
  apply N.log2_lt_pow2 in H; lia.
Qed.

Lemma lor_lt : forall k a b, a < 2^k -> b < 2^k -> N.lor a b < 2^k.
Proof.
  intros k a b H1 H2.
  destruct (N.eq_dec (N.lor a b) 0) as [->|NZ]; [pose proof (N.pow_nonzero 2 k); lia|].
  apply N.log2_lt_pow2; [lia|]. rewrite N.log2_lor.
  apply N.max_lub_lt.
  - destruct (N.eq_dec a 0) as [->|Ha]; [|apply N.log2_lt_pow2 in H1; lia].
    change (N.log2 0) with 0. destruct (N.eq_dec k 0) as [->|]; [|lia].
    cbn in H1, H2. assert (b = 0) by lia; subst. cbn in NZ; congruence.
  - destruct (N.eq_dec b 0) as [->|Hb]; [|apply N.log2_lt_pow2 in H2; lia].
    change (N.log2 0) with 0. destruct (N.eq_dec k 0) as [->|]; [|lia].
    cbn in H1, H2. assert (a = 0) by lia; subst. cbn in NZ; congruence.
Qed.

Lemma land_horner : forall k a b m n, a < 2^k -> m < 2^k ->
  N.land (a + 2^k * b) (m + 2^k * n) = N.land a m + 2^k * N.land b n.
Proof.
  intros k a b m n Ha Hm. apply N.bits_inj. intro i.
  rewrite N.land_spec, !testbit_horner by (auto using land_lt).
  destruct (i <? k); now rewrite N.land_spec.
Qed.

Lemma lor_horner : forall k a b m n, a < 2^k -> m < 2^k ->
  N.lor (a + 2^k * b) (m + 2^k * n) = N.lor a m + 2^k * N.lor b n.
Proof.
  intros k a b m n Ha Hm. apply N.bits_inj. intro i.
  rewrite N.lor_spec, !testbit_horner by (auto using lor_lt).
  destruct (i <? k); now rewrite N.lor_spec.
Qed.

(** A word made of 8-bit lanes, least significant first. *)
Fixpoint lanes (k : N) (l : list N) : N :=
  match l with
  | [] => 0
  | x :: r => x + 2^k * lanes k r
  end.

Lemma lanes_lt : forall k l, Forall (fun x => x < 2^k) l ->
  lanes k l < 2^(k * N.of_nat (length l)).
Proof.
  induction l as [|x l IH]; intros H.
  - cbn [lanes length]. change (N.of_nat 0) with 0. rewrite N.mul_0_r. cbn. lia.
  - inversion H; subst. cbn [lanes length].
    rewrite Nnat.Nat2N.inj_succ, N.mul_succ_r, N.pow_add_r.
    specialize (IH H3). remember (2^k) as p. remember (2^(k * N.of_nat (length l))) as q.
    nia.
Qed.

Lemma land_lanes : forall k l m, length l = length m ->
  Forall (fun x => x < 2^k) l -> Forall (fun x => x < 2^k) m ->
  N.land (lanes k l) (lanes k m) =
  lanes k (map (fun p => N.land (fst p) (snd p)) (combine l m)).
Proof.
  induction l as [|x l IH]; intros m Hl H1 H2; destruct m as [|y m]; try discriminate.
  - reflexivity.
  - inversion H1; inversion H2; subst. cbn [lanes combine map fst snd].
    rewrite land_horner by assumption. rewrite IH by (auto; cbn in Hl; lia). reflexivity.
Qed.

Lemma lor_lanes : forall k l m, length l = length m ->
  Forall (fun x => x < 2^k) l -> Forall (fun x => x < 2^k) m ->
  N.lor (lanes k l) (lanes k m) =
  lanes k (map (fun p => N.lor (fst p) (snd p)) (combine l m)).
Proof.
  induction l as [|x l IH]; intros m Hl H1 H2; destruct m as [|y m]; try discriminate.
  - reflexivity.
  - inversion H1; inversion H2; subst. cbn [lanes combine map fst snd].
    rewrite lor_horner by assumption. rewrite IH by (auto; cbn in Hl; lia). reflexivity.
Qed.

Lemma lanes_inj : forall k l m, length l = length m ->
  Forall (fun x => x < 2^k) l -> Forall (fun x => x < 2^k) m ->
  lanes k l = lanes k m -> l = m.
Proof.
  induction l as [|x l IH]; intros m Hl H1 H2 E; destruct m as [|y m]; try discriminate; auto.
  inversion H1; inversion H2; subst. cbn [lanes] in E.
  assert (x = y).
  { rewrite <- (horner_mod k x (lanes k l)), <- (horner_mod k y (lanes k m)) by assumption.
    now rewrite E. }
  assert (lanes k l = lanes k m).
  { rewrite <- (horner_div k x (lanes k l)), <- (horner_div k y (lanes k m)) by assumption.
    now rewrite E. }
  f_equal; auto.
Qed.

(** Finite sweep over all bytes. *)
Definition all_below (n : nat) (f : N -> bool) : bool :=
  forallb f (map N.of_nat (seq 0 n)).

Lemma all_below_spec : forall n f, all_below n f = true ->
  forall x, x < N.of_nat n -> f x = true.
Proof.
  intros n f H x Hx. unfold all_below in H. rewrite forallb_forall in H.
  apply H. apply in_map_iff. exists (N.to_nat x).
  split; [apply Nnat.N2Nat.id|]. apply in_seq. lia.
Qed.

Tactic Notation "sweep" constr(lem) constr(x) constr(H) "as" ident(T) :=
  pose proof (all_below_spec _ _ lem x H) as T; cbv beta in T.
