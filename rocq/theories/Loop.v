(** A generic bounded loop and its two proof rules: following a run, and an
    invariant with a decreasing measure. *)
From Coq Require Import List Arith Lia.
From Verif Require Import Base.

(** [body s] continues with a new state ([inl]) or leaves the loop ([inr]). *)
Fixpoint loop {S A : Type} (body : S -> res (S + A)) (fuel : nat) (s : S) : res A :=
  match fuel with
  | O => Fuel
  | Datatypes.S f =>
      r <- body s ;;
      match r with
      | inl s' => loop body f s'
      | inr a => Ok a
      end
  end.

Section Runs.
  Context {S A : Type} (body : S -> res (S + A)) (m : S -> nat).

  (** [s'] is reached from [s]; the measure pays for every step. *)
  Inductive runs : S -> S -> Prop :=
  | runs_refl : forall s, runs s s
  | runs_step : forall s s1 s', body s = Ok (inl s1) -> m s1 < m s -> runs s1 s' -> runs s s'.

  Lemma runs_trans : forall a b c, runs a b -> runs b c -> runs a c.
  Proof. induction 1; intros; auto. eapply runs_step; eauto. Qed.

  Lemma runs_one : forall s s', body s = Ok (inl s') -> m s' < m s -> runs s s'.
  Proof. intros. eapply runs_step; eauto. constructor. Qed.

  Lemma runs_measure : forall a b, runs a b -> m b <= m a.
  Proof. induction 1; lia. Qed.

  Lemma loop_runs : forall s s', runs s s' -> forall f, m s < f ->
    exists f', m s' < f' /\ loop body f s = loop body f' s'.
  Proof.
    induction 1; intros f Hf.
    - exists f. auto.
    - destruct f; [lia|]. cbn [loop]. rewrite H. cbn [bind].
      apply IHruns. lia.
  Qed.

  Lemma loop_exit : forall s s' a f, runs s s' -> body s' = Ok (inr a) -> m s < f ->
    loop body f s = Ok a.
  Proof.
    intros s s' a f R E F. destruct (loop_runs _ _ R _ F) as (f' & F' & ->).
    destruct f'; [lia|]. cbn [loop]. now rewrite E.
  Qed.

  Lemma loop_err : forall s s' r f, runs s s' -> body s' = Err r -> m s < f ->
    loop body f s = Err r.
  Proof.
    intros s s' a f R E F. destruct (loop_runs _ _ R _ F) as (f' & F' & ->).
    destruct f'; [lia|]. cbn [loop]. now rewrite E.
  Qed.

  (** Invariant rule.  [Q] describes the result when the loop is left normally;
      [U] says whether undefined behaviour is possible. *)
  Definition outcome_ok {B} (Q : B -> Prop) (r : res B) : Prop :=
    match r with Ok b => Q b | Err _ => True | UB => False | Fuel => False end.

  Lemma loop_inv : forall (I : S -> Prop) (Q : A -> Prop),
    (forall s, I s -> outcome_ok (fun r => match r with
                                   | inl s' => I s' /\ m s' < m s
                                   | inr a => Q a
                                   end) (body s)) ->
    forall f s, I s -> m s < f -> outcome_ok Q (loop body f s).
  Proof.
    intros I Q HB. induction f; intros s HI HF; [lia|]. cbn [loop].
    specialize (HB s HI). destruct (body s) as [[s'|a]| | |]; cbn [bind] in *; auto.
    destruct HB. apply IHf; auto. lia.
  Qed.

  (** The same when no error can occur either. *)
  Definition yields {B} (Q : B -> Prop) (r : res B) : Prop := exists b, r = Ok b /\ Q b.

  Lemma loop_inv_ok : forall (I : S -> Prop) (Q : A -> Prop),
    (forall s, I s -> yields (fun r => match r with
                               | inl s' => I s' /\ m s' < m s
                               | inr a => Q a
                               end) (body s)) ->
    forall f s, I s -> m s < f -> yields Q (loop body f s).
  Proof.
    intros I Q HB. induction f; intros s HI HF; [lia|]. cbn [loop].
    destruct (HB s HI) as ([s'|a] & E & X); rewrite E; cbn [bind].
    - destruct X. apply IHf; auto. lia.
    - exists a. auto.
  Qed.

  (** Every terminating run can be traced back: if the loop leaves normally then
      there is a run to a state whose body exits. *)
  Lemma loop_ok_inv : (forall s s', body s = Ok (inl s') -> m s' < m s) ->
    forall f s a, loop body f s = Ok a -> exists s', runs s s' /\ body s' = Ok (inr a).
  Proof.
    intros HM. induction f; intros s a H; [discriminate|]. cbn [loop] in H.
    destruct (body s) as [[s1|a1]| | |] eqn:E; cbn [bind] in H; try discriminate.
    - destruct (IHf _ _ H) as (s' & R & X). exists s'. split; auto. eapply runs_step; eauto.
    - injection H as <-. exists s. split; auto. constructor.
  Qed.
End Runs.

Lemma outcome_ok_bind : forall A B (x : res A) (k : A -> res B) (P : A -> Prop) (Q : B -> Prop),
  outcome_ok P x -> (forall a, P a -> outcome_ok Q (k a)) -> outcome_ok Q (bind x k).
Proof. intros A B [a| | |] k P Q H K; cbn in *; auto. Qed.

Lemma outcome_ok_weaken : forall A (P Q : A -> Prop) r,
  (forall a, P a -> Q a) -> outcome_ok P r -> outcome_ok Q r.
Proof. intros A P Q [a| | |] W H; cbn in *; auto. Qed.

Lemma outcome_ok_ensure : forall b r (Q : unit -> Prop), (b = true -> Q tt) -> outcome_ok Q (ensure b r).
Proof. intros [] r Q H; cbn; auto. Qed.
