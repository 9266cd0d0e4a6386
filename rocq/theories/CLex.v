(** A document with comments beside the document with spaces in their place: the
    positions at which both can be cut, and the skipping of whitespace. *)
From Coq Require Import List NArith ZArith Bool Lia Arith ZifyBool ZifyNat ZifyN.
From Verif Require Import Base Mem Loop PolicyModel IntModel StrScanModel SkipModel SpecNum SpecText SpecJson SpecC
  IntProofs IntValueProofs StrScanProofs StrScanProofs2 SkipProofs SkipSafe GapProofs.
Import ListNotations.
Local Open Scope N_scope.

Set Default Proof Using "All".

(** Two documents of the same length *)
Definition two (cp : pol) (D B : list N) : Prop :=
  length D = length B /\ is_bytes D /\ is_bytes B /\ cp <> CNone /\ N.of_nat (length B) + 1 < 2^32 /\ (cp = Min -> D = B).

Lemma blanked_min : forall cp x d d', blanked cp x d d' -> cp = Min -> d = d'.
Proof.
  induction 1 as [x|x c d d' N1 N2 O H IH|x s d d' HS H IH|x k n w d d' A C W LW H IH]; intros EM.
  - reflexivity.
  - now rewrite IH.
  - now rewrite IH.
  - subst cp. inversion C.
Qed.

Section Two.
  Context (cp : pol) (D B : list N).
  Hypothesis T : two cp D B.

  (** One byte, one string or one comment *)
  Inductive step : place -> nat -> place -> nat -> Prop :=
  | s_byte : forall x i b, nth_error D i = Some b -> nth_error B i = Some b -> b <> 34 -> b <> 92 -> opening cp b = false ->
      step x i (after x b) (S i)
  | s_str : forall x i s, str_body s -> sub_at D i (34 :: s ++ [34]) -> sub_at B i (34 :: s ++ [34]) ->
      step x i Anywhere (i + length s + 2)
  | s_com : forall x i k n w, allowed x = true -> comment cp k n -> ws w -> length w = n -> sub_at D i (k ++ w) ->
      sub_at B i (repeat 32 (length k) ++ w) -> step x i x (i + length k).

  Inductive reach : place -> nat -> place -> nat -> Prop :=
  | r_here : forall x i, reach x i x i
  | r_step : forall x i y j z k, step x i y j -> reach y j z k -> reach x i z k.

  Lemma comment_len : forall k w, comment cp k w -> (2 <= length k)%nat.
  Proof. intros k w H. inversion H; subst; cbn [length]; rewrite app_length; cbn [length]; lia. Qed.

  Lemma step_lt : forall x i y j, step x i y j -> (i < j)%nat.
  Proof. intros x i y j H. inversion H as [| |? ? k n w A C]; subst; try lia. pose proof (comment_len _ _ C). lia. Qed.

  Lemma reach_le : forall x i y j, reach x i y j -> (i <= j)%nat.
  Proof. induction 1; auto. pose proof (step_lt _ _ _ _ H). lia. Qed.

  Lemma reach_trans : forall x i y j z k, reach x i y j -> reach y j z k -> reach x i z k.
  Proof. induction 1; intros; auto. econstructor; eauto. Qed.

  Lemma reach_one : forall x i y j, step x i y j -> reach x i y j.
  Proof. intros. econstructor; eauto. constructor. Qed.

  Lemma comment_head : forall k w, comment cp k w -> exists c r, k = c :: r /\ opens cp c = true.
  Proof. intros k w H. inversion H; subst; cbn [opens]; do 2 eexists; (split; [reflexivity|reflexivity]). Qed.

  Lemma opening_spec : forall c, opens cp c = true -> c = 35 \/ c = 47.
  Proof. intros c H. clear T. destruct cp as [[| |]|]; cbn [opens] in H; [discriminate|right|left|discriminate]; lia. Qed.

  Lemma opens_opening : forall c, opens cp c = true -> opening cp c = true.
  Proof. intros c H. clear T. destruct cp as [[| |]|]; cbn [opens opening] in *; auto; discriminate. Qed.

  Lemma comment_opening : forall k w, comment cp k w -> exists c r, k = c :: r /\ opening cp c = true.
  Proof. intros k w H. destruct (comment_head _ _ H) as (c & r & E & O). apply opens_opening in O. eauto. Qed.

  Lemma repeat_at : forall n i k, sub_at B i (repeat 32 n) -> (i <= k < i + n)%nat -> nth_error B k = Some 32.
  Proof.
    intros n i k H HK. replace k with (i + (k - i))%nat by lia. eapply sub_at_nth; [exact H|]. rewrite nth_error_repeat; [reflexivity|lia].
  Qed.

  (** The quote before a position *)
  Definition prev (i : nat) : Prop :=
    match i with O => True | S k => forall b d, nth_error B k = Some b -> nth_error D k = Some d -> (b = 34 <-> d = 34) end.

  Lemma comment_last : forall k w, comment cp k w -> exists r c, k = r ++ [c] /\ c <> 34.
  Proof.
    intros k w H. inversion H; subst.
    - exists (35 :: b), 10. split; [reflexivity|lia].
    - exists (47 :: 47 :: b), 10. split; [reflexivity|lia].
    - exists (47 :: 42 :: b ++ [42]), 47. split; [cbn; now rewrite <- app_assoc|lia].
  Qed.

  Lemma step_prev : forall x i y j, step x i y j -> prev j.
  Proof.
    intros x i y j H. inversion H as [x' i' b E1 E2 N1 N2 O|x' i' s HS S1 S2|x' i' k n w A C W LW S1 S2]; subst.
    - cbn [prev]. intros b0 d F1 F2. rewrite E1 in F2. rewrite E2 in F1. injection F1 as <-. injection F2 as <-. tauto.
    - replace (i + length s + 2)%nat with (S (i + S (length s))) by lia. cbn [prev]. intros b d E1 E2.
      assert (N : nth_error (34 :: s ++ [34]) (S (length s)) = Some 34) by (cbn [nth_error]; rewrite nth_error_app2, Nat.sub_diag by lia; reflexivity).
      rewrite (sub_at_nth _ _ _ _ _ S1 N) in E2. rewrite (sub_at_nth _ _ _ _ _ S2 N) in E1. injection E1 as <-. injection E2 as <-. tauto.
    - apply sub_at_app in S1 as [S1 _]. apply sub_at_app in S2 as [S2 _].
      destruct (comment_last _ _ C) as (r & c & E & NC). rewrite E, app_length. cbn [length].
      replace (i + (length r + 1))%nat with (S (i + length r)) by lia. cbn [prev]. intros b d E1 E2.
      assert (N : nth_error k (length r) = Some c) by (rewrite E, nth_error_app2, Nat.sub_diag by lia; reflexivity).
      rewrite (sub_at_nth _ _ _ _ _ S1 N) in E2.
      rewrite (repeat_at _ _ _ S2) in E1 by (rewrite E, app_length; cbn [length]; lia). injection E1 as <-. injection E2 as <-. split; lia.
  Qed.

  Lemma reach_prev : forall x i y j, reach x i y j -> prev i -> prev j.
  Proof. induction 1; intros; auto. apply IHreach. eapply step_prev; eauto. Qed.

  (** The two bytes at a position *)
  Definition same (b d : N) : Prop := d = b \/ (b = 32 /\ opens cp d = true).

  Lemma step_same : forall x i y j, step x i y j -> exists b d, nth_error B i = Some b /\ nth_error D i = Some d /\ same b d.
  Proof.
    intros x i y j H. inversion H as [x' i' b E1 E2 N1 N2 O|x' i' s HS S1 S2|x' i' k n w A C W LW S1 S2]; subst.
    - exists b, b. repeat split; auto. now left.
    - exists 34, 34. destruct S1 as [S1 _]. destruct S2 as [S2 _]. repeat split; auto. now left.
    - apply sub_at_app in S1 as [S1 _]. apply sub_at_app in S2 as [S2 _].
      destruct (comment_head _ _ C) as (c & r & E & O). exists 32, c. rewrite E in S1. destruct S1 as [S1 _]. repeat split; auto.
      + apply (repeat_at _ _ _ S2). rewrite E. cbn [length]. lia.
      + right. auto.
  Qed.

  Lemma same_eqb : forall b d x, same b d -> x <> 32 -> x <> 35 -> x <> 47 -> (d =? x) = (b =? x).
  Proof. intros b d x [->|[-> O]] N1 N2 N3; auto. apply opening_spec in O. lia. Qed.

  Lemma same_digit : forall b d, same b d -> is_dig b <-> is_dig d.
  Proof. intros b d [->|[-> O]]; [tauto|]. apply opening_spec in O. unfold is_dig. split; lia. Qed.

  (** A byte that is neither a space nor a quote is itself. *)
  Lemma step_byte : forall x i y j b, step x i y j -> nth_error B i = Some b -> b <> 32 -> b <> 34 ->
    nth_error D i = Some b /\ j = S i /\ y = after x b /\ b <> 92 /\ opening cp b = false.
  Proof.
    intros x i y j b0 H HB M1 M2. inversion H as [x' i' b E1 E2 N1 N2 O|x' i' s HS S1 S2|x' i' k n w A C W LW S1 S2]; subst.
    - rewrite E2 in HB. injection HB as ->. auto.
    - destruct S2 as [S2 _]. congruence.
    - apply sub_at_app in S2 as [S2 _]. rewrite (repeat_at _ _ _ S2) in HB; [congruence|]. pose proof (comment_len _ _ C). lia.
  Qed.

  Lemma step_quote : forall x i y j, step x i y j -> nth_error B i = Some 34 ->
    exists s, str_body s /\ sub_at D i (34 :: s ++ [34]) /\ sub_at B i (34 :: s ++ [34]) /\ y = Anywhere /\ j = (i + length s + 2)%nat.
  Proof.
    intros x i y j H HB. inversion H as [x' i' b E1 E2 N1 N2 O|x' i' s HS S1 S2|x' i' k n w A C W LW S1 S2]; subst.
    - congruence.
    - eauto 8.
    - apply sub_at_app in S2 as [S2 _]. rewrite (repeat_at _ _ _ S2) in HB; [congruence|]. pose proof (comment_len _ _ C). lia.
  Qed.

  (** ** From the specification *)

  Lemma blanked_length : forall x d d', blanked cp x d d' -> length d = length d'.
  Proof. induction 1; cbn [length app] in *; rewrite ?app_length, ?repeat_length in *; cbn [length] in *; lia. Qed.

  Lemma blanked_reach : forall x d d', blanked cp x d d' -> forall pre pre', D = pre ++ d -> B = pre' ++ d' -> length pre = length pre' ->
    exists y, reach x (length pre) y (length D).
  Proof.
    induction 1; intros pre pre' ED EB EL.
    - exists x. rewrite ED, app_nil_r. constructor.
    - destruct (IHblanked (pre ++ [c]) (pre' ++ [c])) as (y & R); [now rewrite <- app_assoc|now rewrite <- app_assoc|rewrite !app_length; cbn; lia|].
      exists y. rewrite app_length in R. cbn [length] in R. replace (length pre + 1)%nat with (S (length pre)) in R by lia.
      econstructor; [|exact R]. apply s_byte; auto.
      + rewrite ED, nth_error_app2, Nat.sub_diag by lia. reflexivity.
      + rewrite EB, EL, nth_error_app2, Nat.sub_diag by lia. reflexivity.
    - destruct (IHblanked (pre ++ 34 :: s ++ [34]) (pre' ++ 34 :: s ++ [34])) as (y & R); [now rewrite <- app_assoc|now rewrite <- app_assoc|rewrite !app_length; cbn; lia|].
      exists y. econstructor; [apply (s_str x (length pre) s); auto|].
      + rewrite ED. apply sub_at_mid.
      + rewrite EB, EL. apply sub_at_mid.
      + rewrite app_length in R. cbn [length] in R. rewrite app_length in R. cbn [length] in R.
        replace (length pre + S (length s + 1))%nat with (length pre + length s + 2)%nat in R by lia. exact R.
    - destruct (IHblanked (pre ++ k) (pre' ++ repeat 32 (length k))) as (y & R); [now rewrite <- app_assoc|now rewrite <- app_assoc|rewrite !app_length, repeat_length; lia|].
      exists y. econstructor; [apply (s_com x (length pre) k n w); auto|].
      + rewrite ED, (app_assoc k). apply sub_at_mid.
      + rewrite EB, EL, (app_assoc _ w). apply sub_at_mid.
      + rewrite app_length in R. exact R.
  Qed.

  Lemma reach_drop : forall x i y l, reach x i y (S l) -> nth_error B l = Some 0 -> (i <= l)%nat -> exists z, reach x i z l.
  Proof.
    intros x i y l H. remember (S l) as k eqn:EK. induction H as [|x i y j z k ST R IH]; intros HB HL; [lia|].
    destruct (Nat.le_gt_cases j l) as [LE|GT].
    - destruct (IH EK HB LE) as (z' & R'). exists z'. econstructor; eauto.
    - pose proof (reach_le _ _ _ _ R). assert (j = S l) by lia. subst j. inversion ST as [x' i' b E1 E2 N1 N2 O|x' i' s HS S1 S2|x' i' k' n w A C W LW S1 S2]; subst.
      + exists x. apply r_here.
      + exfalso. assert (N : nth_error (34 :: s ++ [34]) (S (length s)) = Some 34) by (cbn [nth_error]; rewrite nth_error_app2, Nat.sub_diag by lia; reflexivity).
        replace l with (i + S (length s))%nat in HB by lia. rewrite (sub_at_nth _ _ _ _ _ S2 N) in HB. discriminate.
      + exfalso. pose proof (comment_len _ _ C). apply sub_at_app in S2 as [S2 _]. rewrite (repeat_at _ _ l S2) in HB by lia. discriminate.
  Qed.
End Two.
