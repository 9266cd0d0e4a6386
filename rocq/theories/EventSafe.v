(** The event parser on arbitrary bytes: it ends, and reads only the document. *)
From Coq Require Import List NArith ZArith Bool Lia Arith ZifyBool ZifyNat ZifyN.
From Verif Require Import Base Mem Loop PolicyModel IntModel StrScanModel SkipModel SpecNum SpecText SpecJson
  SkipProofs SkipSafe ValueModel JValueModel SpecValue JValueProofs RawValueProofs StateModel StateProofs StateProofs2 EventModel SpecEvent EventProofs.
Import ListNotations.
Local Open Scope N_scope.

(** The handler does not ask to skip where there is no container to skip. *)
Definition skips_inside (h : handler) : Prop :=
  forall past e, h (e :: past) = SkipClassArray -> is_end e = true \/ (0 < open_now past)%Z.

Section Safe.
  Context (g : cfg) (h : handler) (buf : list N) (l : nat).
  Hypothesis HS : skips_inside h.

  Definition entry (x : skind * ps) : Prop := exists f, (f < l)%nat /\ raw buf f l (snd x).

  Definition weight (x : skind * ps) : nat := (3 ^ (S l - first (snd x)))%nat.
  Definition weights (k : list (skind * ps)) : nat := list_sum (map weight k).

  Lemma weight_pos : forall x, (0 < weight x)%nat.
  Proof. intros x. unfold weight. apply Nat.neq_0_lt_0. apply Nat.pow_nonzero. discriminate. Qed.

  (** The state after a step: finished, about to throw, or one that goes on. *)
  Definition settled (s : est) : Prop :=
    stack s = [] \/ exists k r, stack s = (k, null_state) :: r.

  Definition running (s : est) : Prop := level s /\ Forall entry (stack s).

  Lemma moved_to_last : forall e s, calls s = e :: tl (calls s) -> is_end e = false -> h (calls s) = SkipClassArray ->
    Z.of_nat (length (stack s)) = open_now (tl (calls s)) ->
    exists s', move_to_last s = (s', Ok tt) /\ settled s'.
  Proof.
    intros e s EC NE EH D. unfold move_to_last. rewrite EC in EH. destruct (HS _ _ EH) as [X|X]; [congruence|].
    destruct (stack s) as [|[k p] r] eqn:ES; [cbn [length] in D; lia|]. eexists. split; [reflexivity|]. right. eexists _, _. reflexivity.
  Qed.

  Definition step_ok (P : est -> Prop) (x : est * res unit) : Prop :=
    match snd x with
    | Ok _ => settled (fst x) \/ P (fst x)
    | Err _ => True
    | UB | Fuel => False
    end.

  Lemma tell_ok : forall P e s k, is_end e = false -> Z.of_nat (length (stack s)) = open_now (calls s) ->
    step_ok P (k (mkest (e :: calls s) (stack s) (class_depth s) (array_depth s))) ->
    step_ok P (tell h s e k).
  Proof.
    intros P e s k NE D HK. unfold tell. cbn [calls]. destruct (h (e :: calls s)) eqn:EH.
    - exact HK.
    - destruct (moved_to_last e (mkest (e :: calls s) (stack s) (class_depth s) (array_depth s))) as (s' & -> & ST); auto.
      left. exact ST.
    - left. left. reflexivity.
  Qed.

  Lemma lift_ok : forall A P Q s (r : res A) k, outcome_ok Q r -> (forall a, Q a -> step_ok P (k a)) -> step_ok P (lift s r k).
  Proof. intros A P Q s [a| | |] k H HK; cbn [lift outcome_ok] in *; auto; contradiction || exact I. Qed.

  Lemma jtype_raw : forall v, raw_value buf l v ->
    outcome_ok (fun t => match t with BArray | BClass => (first v < l)%nat | _ => True end) (jtype buf v).
  Proof.
    intros v HV. pose proof HV as (A & B & C & D). pose proof (jtype_safe buf v) as JT. rewrite B in JT. specialize (JT HV).
    destruct (jtype buf v) as [t| | |] eqn:ET; cbn [outcome_ok] in *; auto. unfold jtype, has_more in ET. rewrite B in ET.
    destruct (Nat.ltb_spec (first v) l); [destruct t; auto|]. cbn [negb] in ET. injection ET as <-. exact I.
  Qed.

  Definition after_value (v : ps) (k : list (skind * ps)) (s : est) : Prop :=
    level s /\ (stack s = k \/ exists x, stack s = x :: k /\ entry x /\ (first v < first (snd x))%nat).

  Lemma process_value_safe : forall s n v, level s -> raw_value buf l v ->
    step_ok (after_value v (stack s)) (process_value h buf s n v).
  Proof.
    intros s n v LV HV. pose proof LV as (A & B & C & D). unfold process_value. apply tell_ok; [reflexivity|exact D|].
    apply lift_ok with (1 := jtype_raw v HV). intros t Ht.
    destruct t; try (apply tell_ok; [reflexivity|cbn [stack calls open_now is_start is_end]; lia|];
      right; split; [repeat split|left; reflexivity]; cbn [fst stack calls class_depth array_depth open_now is_start is_end]; lia).
    all: (apply tell_ok; [reflexivity|cbn [stack calls add_array add_class open_now is_start is_end]; lia|]);
      pose proof (it_begin_raw buf v) as IB; (assert (EL : last v = l) by apply HV); rewrite EL in IB; specialize (IB HV);
      apply lift_ok with (1 := IB); intros p HP; right; (split;
        [repeat split; cbn [fst set_stack stack calls add_array add_class class_depth array_depth open_now is_start is_end length]; lia|]);
      right; eexists; (split; [reflexivity|]); (split; [exists (first v); auto|]); cbn [snd]; apply HP.
  Qed.

  Lemma weights_push : forall p q x k r, (first p < l)%nat -> (first p < first q)%nat -> (first p < first (snd x))%nat ->
    (weights (x :: (k, q) :: r) < weights ((k, p) :: r))%nat.
  Proof.
    intros p q x k r L LQ LX. unfold weights, list_sum. cbn [map fold_right]. unfold weight. cbn [snd].
    set (m := (l - first p)%nat). assert (E : (S l - first p)%nat = S m) by lia. rewrite E. cbn [Nat.pow].
    assert (M1 : (3 ^ (S l - first (snd x)) <= 3 ^ m)%nat) by (apply Nat.pow_le_mono_r; lia).
    assert (M2 : (3 ^ (S l - first q) <= 3 ^ m)%nat) by (apply Nat.pow_le_mono_r; lia).
    assert (M3 : (0 < 3 ^ m)%nat) by (apply Nat.neq_0_lt_0; apply Nat.pow_nonzero; discriminate). lia.
  Qed.

  Lemma weights_move : forall p q k r, (first p < l)%nat -> (first p < first q)%nat ->
    (weights ((k, q) :: r) < weights ((k, p) :: r))%nat.
  Proof.
    intros p q k r L LQ. pose proof (weights_push p q (k, q) k r L LQ LQ) as X. unfold weights, list_sum in *. cbn [map fold_right] in *. lia.
  Qed.

  Lemma process_range_safe : forall s k p, level s -> stack s = (k, p) :: tl (stack s) -> Forall entry (stack s) ->
    step_ok (fun s' => running s' /\ (weights (stack s') < weights (stack s))%nat) (process_range g h buf (set_stack s (tl (stack s))) k p).
  Proof.
    intros s k p LV ES HF. pose proof LV as (A & B & C & D). rewrite ES in HF, D. inversion HF as [|? ? (f & LF & HR) HT]; subst. cbn [snd] in HR.
    assert (LL : (l <= length buf)%nat /\ last p = l) by (split; apply HR).
    unfold process_range. pose proof (it_eq_raw _ _ _ _ HR) as EQ.
    destruct (it_eq buf p null_state) as [[]| | |] eqn:ST; cbn [outcome_ok lift negb] in *; auto; try contradiction; [|].
    - (* the end of a container *)
      assert (EW : forall c, outcome_ok (fun _ => True) (ends_with buf p c)).
      { intros c. unfold ends_with, has_more. destruct (Nat.ltb_spec (first p) (last p)); [|exact I].
        unfold front. destruct (rd_in buf (first p)) as (b & Hb); [lia|]. rewrite (rd_some _ _ _ Hb). exact I. }
      assert (W0 : (weights (tl (stack s)) < weights (stack s))%nat).
      { rewrite ES at 2. unfold weights, list_sum. cbn [map fold_right]. pose proof (weight_pos (k, p)). lia. }
      cbn [length] in D.
      destruct k; (apply lift_ok with (1 := EW _)); intros b _; cbn [set_stack class_depth array_depth];
        (match goal with |- step_ok _ (lift _ (ensure ?b _) _) => destruct b eqn:EB end; cbn [ensure lift]; [|exact I]);
        unfold tell_end; cbn [add_class add_array calls stack class_depth array_depth set_stack];
        (destruct (h _); [| |left; left; reflexivity]); right; (split; [|exact W0]);
        (split; [|exact HT]); repeat split; cbn [fst class_depth array_depth calls stack open_now is_start is_end]; lia.
    - destruct (walk_step g buf f l p HR LF ST) as [LP WS].
      apply lift_ok with (1 := it_deref_raw g buf f l p HR LF). intros [n v] [RV LE]. cbn [fst snd] in *.
      apply lift_ok with (1 := WS). intros q [RQ LQ].
      assert (LV1 : level (set_stack (set_stack s (tl (stack s))) ((k, q) :: stack (set_stack s (tl (stack s)))))).
      { repeat split; cbn [set_stack stack calls class_depth array_depth length] in *; auto. }
      pose proof (process_value_safe _ n v LV1 RV) as PV.
      assert (EQn : entry (k, q)) by (exists f; auto).
      unfold step_ok in *. destruct (process_value _ _ _ _ _) as [s' [u| | |]]; cbn [fst snd] in *; auto.
      destruct PV as [PV|[LV2 [ES2|(x & ES2 & EX & LX)]]]; [auto|right|right].
      + split; [split; [exact LV2|rewrite ES2; constructor; auto]|]. rewrite ES2. rewrite ES at 3. cbn [set_stack stack]. now apply weights_move.
      + split; [split; [exact LV2|rewrite ES2; constructor; [exact EX|constructor; auto]]|]. rewrite ES2. rewrite ES at 3. cbn [set_stack stack].
        apply weights_push; auto. lia.
  Qed.

  Lemma settled_ends : forall s fuel, settled s -> outcome_ok (fun _ => True) (snd (events_loop (S fuel) g h buf s)).
  Proof.
    intros s fuel [ES|(k & r & ES)]; cbn [events_loop]; rewrite ES.
    - cbn [snd]. destruct (_ && _); exact I.
    - unfold process_range, it_eq. rewrite good_null. cbn [bind lift negb].
      destruct k; unfold ends_with; cbn [has_more null_state first last Nat.ltb Nat.leb lift]; rewrite andb_false_r; exact I.
  Qed.

  Lemma running_ends : forall fuel s, running s -> (weights (stack s) < fuel)%nat ->
    outcome_ok (fun _ => True) (snd (events_loop fuel g h buf s)).
  Proof.
    induction fuel as [|fuel IH]; intros s [LV HF] HW; [lia|].
    destruct (stack s) as [|[k p] r] eqn:ES; [apply settled_ends; left; exact ES|].
    cbn [events_loop]. rewrite ES.
    pose proof (process_range_safe s k p LV) as PR. rewrite ES in PR. cbn [tl] in PR. specialize (PR eq_refl HF).
    destruct (process_range g h buf (set_stack s r) k p) as [s' [u| | |]]; unfold step_ok in PR; cbn [fst snd lift] in *; auto.
    destruct PR as [ST|[RN WL]].
    - destruct fuel as [|fuel]; [|now apply settled_ends]. exfalso. unfold weights, list_sum in HW. cbn [map fold_right] in HW.
      pose proof (weight_pos (k, p)). lia.
    - apply IH; auto. lia.
  Qed.

  Theorem event_parser_safe : forall v fuel, raw_value buf l v -> (3 ^ l < fuel)%nat ->
    outcome_ok (fun _ => True) (snd (json_event_parser fuel g h buf v)).
  Proof.
    intros v fuel HV HF. unfold json_event_parser.
    assert (LV : level (mkest [] [] 0 0)) by (repeat split; reflexivity || (cbn; lia)).
    pose proof (process_value_safe _ None v LV HV) as PV.
    assert (P3 : (0 < 3 ^ l)%nat) by (apply Nat.neq_0_lt_0; apply Nat.pow_nonzero; discriminate).
    destruct (process_value _ _ _ _ _) as [s' [u| | |]]; unfold step_ok in PV; cbn [fst snd lift] in *; auto.
    destruct PV as [ST|[LV2 [ES|(x & ES & EX & LX)]]].
    - destruct fuel as [|fuel]; [lia|]. now apply settled_ends.
    - apply running_ends; [split; auto; rewrite ES; constructor|]. rewrite ES. cbn. lia.
    - cbn [stack] in ES. apply running_ends; [split; auto; rewrite ES; constructor; auto|]. rewrite ES. unfold weights, list_sum. cbn [map fold_right]. unfold weight.
      assert (M : (3 ^ (S l - first (snd x)) <= 3 ^ l)%nat) by (apply Nat.pow_le_mono_r; lia). lia.
  Qed.
End Safe.
