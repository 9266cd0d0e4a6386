(** Specification of decimal numerals, independent of the model. *)
From Coq Require Import List NArith ZArith Bool Lia.
Import ListNotations.
Local Open Scope N_scope.

(** ASCII decimal digit *)
Definition is_dig (b : N) : Prop := 48 <= b <= 57.
Definition is_digb (b : N) : bool := (48 <=? b) && (b <=? 57).
Definition digits (ds : list N) : Prop := Forall is_dig ds.

(** The number a digit string denotes. *)
Fixpoint dec_acc (acc : N) (ds : list N) : N :=
  match ds with
  | [] => acc
  | d :: r => dec_acc (acc * 10 + (d - 48)) r
  end.
Definition dec_val (ds : list N) : N := dec_acc 0 ds.

(** Canonical decimal text: no superfluous leading zero. *)
Definition canonical (ds : list N) : Prop :=
  digits ds /\ ds <> [] /\ (forall r, ds = 48 :: r -> r = []).

(** Canonical text of a signed integer. *)
Definition canonical_int (z : Z) (t : list N) : Prop :=
  if (z <? 0)%Z then
    exists ds, t = 45 :: ds /\ canonical ds /\ Z.of_N (dec_val ds) = (- z)%Z
  else canonical t /\ Z.of_N (dec_val t) = z.

Lemma is_digb_spec : forall b, is_digb b = true <-> is_dig b.
Proof. intros b; unfold is_digb, is_dig. rewrite andb_true_iff, !N.leb_le. tauto. Qed.

Lemma dec_acc_app : forall a b acc, dec_acc acc (a ++ b) = dec_acc (dec_acc acc a) b.
Proof. induction a; intros; cbn; auto. Qed.

Lemma dec_acc_lin : forall ds acc,
  dec_acc acc ds = acc * 10 ^ N.of_nat (length ds) + dec_val ds.
Proof.
  unfold dec_val. induction ds as [|d r IH]; intros acc.
  - cbn. lia.
  - cbn [dec_acc length]. rewrite IH, (IH (0 * 10 + _)).
    rewrite Nnat.Nat2N.inj_succ, N.pow_succ_r'. lia.
Qed.

Lemma dec_val_app : forall a b,
  dec_val (a ++ b) = dec_val a * 10 ^ N.of_nat (length b) + dec_val b.
Proof. intros. unfold dec_val at 1. rewrite dec_acc_app, dec_acc_lin. reflexivity. Qed.

Lemma dec_val_lt : forall ds, digits ds -> dec_val ds < 10 ^ N.of_nat (length ds).
Proof.
  intros ds. induction ds as [|d r IH] using rev_ind; intros H.
  - cbn. lia.
  - apply Forall_app in H as [H1 H2]. inversion H2; subst. unfold is_dig in H3.
    rewrite dec_val_app, app_length. cbn [length].
    replace (length r + 1)%nat with (S (length r)) by lia.
    rewrite (Nnat.Nat2N.inj_succ (length r)), N.pow_succ_r'.
    specialize (IH H1). change (10 ^ N.of_nat 1) with 10.
    change (dec_val [d]) with (0 * 10 + (d - 48)).
    remember (10 ^ N.of_nat (length r)) as q. lia.
Qed.
