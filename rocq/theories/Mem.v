(** Facts about text located in a document. *)
From Coq Require Import List NArith Bool Lia Arith.
From Verif Require Import Base.
Import ListNotations.

(** [sub_at buf p t]: the bytes of [buf] from index [p] on start with [t]. *)
Fixpoint sub_at (buf : list N) (p : nat) (t : list N) : Prop :=
  match t with
  | [] => True
  | c :: t' => nth_error buf p = Some c /\ sub_at buf (S p) t'
  end.

Definition byteb (b : N) : bool := (b <? 256)%N.
Definition is_bytes (l : list N) : Prop := Forall (fun b => (b < 256)%N) l.

Lemma rd_some : forall (buf : list N) i b, nth_error buf i = Some b -> rd buf i = Ok b.
Proof. intros buf i b H; unfold rd; now rewrite H. Qed.

Lemma rd_in : forall (buf : list N) i, i < length buf -> exists b, nth_error buf i = Some b.
Proof.
  intros buf i H. destruct (nth_error buf i) eqn:E; eauto.
  apply nth_error_None in E; lia.
Qed.

Lemma rd_ok_lt : forall buf i b, rd buf i = Ok b -> i < length buf.
Proof.
  intros buf i b H. unfold rd in H.
  destruct (nth_error buf i) eqn:E; try discriminate.
  apply nth_error_Some; congruence.
Qed.

Lemma rd_ok_nth : forall buf i b, rd buf i = Ok b -> nth_error buf i = Some b.
Proof.
  intros buf i b H. unfold rd in H.
  destruct (nth_error buf i) eqn:E; congruence.
Qed.

Lemma sub_at_app : forall t1 t2 buf p,
  sub_at buf p (t1 ++ t2) <-> sub_at buf p t1 /\ sub_at buf (p + length t1) t2.
Proof.
  induction t1 as [|c t1 IH]; intros t2 buf p; cbn [app sub_at length].
  - rewrite Nat.add_0_r. tauto.
  - rewrite IH. replace (p + S (length t1)) with (S p + length t1) by lia. tauto.
Qed.

Lemma sub_at_nth : forall t buf p k c,
  sub_at buf p t -> nth_error t k = Some c -> nth_error buf (p + k) = Some c.
Proof.
  induction t as [|x t IH]; intros buf p k c H Hk.
  - destruct k; discriminate.
  - destruct H as [H1 H2]. destruct k as [|k]; cbn in Hk.
    + rewrite Nat.add_0_r. congruence.
    + replace (p + S k) with (S p + k) by lia. eauto.
Qed.

Lemma sub_at_mid : forall (pre : list N) t post, sub_at (pre ++ t ++ post) (length pre) t.
Proof.
  intros pre t post. revert pre.
  induction t as [|c t IH]; intros pre; cbn [sub_at]; auto.
  split.
  - rewrite nth_error_app2 by lia. now rewrite Nat.sub_diag.
  - replace (pre ++ (c :: t) ++ post) with ((pre ++ [c]) ++ t ++ post)
      by (rewrite <- app_assoc; reflexivity).
    replace (S (length pre)) with (length (pre ++ [c]))
      by (rewrite app_length; cbn; lia).
    apply IH.
Qed.

Lemma sub_at_length : forall t buf p,
  sub_at buf p t -> t <> [] -> p + length t <= length buf.
Proof.
  induction t as [|c t IH]; intros buf p H Hne; [congruence|].
  destruct H as [H1 H2]. cbn [length].
  destruct t as [|c' t].
  - assert (p < length buf) by (apply nth_error_Some; congruence). cbn; lia.
  - apply IH in H2; [cbn in *; lia | discriminate].
Qed.

Lemma sub_at_split : forall t buf p, sub_at buf p t -> p <= length buf ->
  exists pre post, buf = pre ++ t ++ post /\ length pre = p.
Proof.
  induction t as [|c t IH]; intros buf p H Hp.
  - exists (firstn p buf), (skipn p buf). cbn. rewrite firstn_skipn, firstn_length. split; auto; lia.
  - destruct H as [H1 H2].
    assert (p < length buf) by (apply nth_error_Some; congruence).
    destruct (IH buf (S p) H2) as (pre & post & E & L); [lia|].
    destruct pre as [|x pre] using rev_ind; [cbn in L; lia|].
    rewrite app_length in L; cbn in L.
    exists pre, post. split; [|lia].
    rewrite E, <- app_assoc. cbn. f_equal.
    rewrite E, <- app_assoc in H1. rewrite nth_error_app2 in H1 by lia.
    replace (p - length pre) with 0 in H1 by lia. cbn in H1. congruence.
Qed.

Lemma sub_at_skipn : forall (buf : list N) p, sub_at buf p (skipn p buf).
Proof.
  intros buf p. destruct (Nat.le_gt_cases p (length buf)).
  - pose proof (sub_at_mid (firstn p buf) (skipn p buf) []) as H0.
    rewrite app_nil_r, firstn_skipn, firstn_length in H0.
    now rewrite Nat.min_l in H0 by lia.
  - rewrite skipn_all2 by lia. exact I.
Qed.

Lemma is_bytes_nth : forall (buf : list N) i b, is_bytes buf -> nth_error buf i = Some b -> (b < 256)%N.
Proof.
  intros buf i b H E. eapply Forall_forall in H; [exact H|]. eapply nth_error_In; eauto.
Qed.
