(** The parser's state on the document with comments and on the one with spaces in
    their place. *)
From Coq Require Import List NArith ZArith Bool Lia Arith ZifyBool ZifyNat ZifyN.
From Verif Require Import Base Mem Loop PolicyModel IntModel StrScanModel SkipModel SpecNum SpecText SpecJson SpecC
  IntProofs IntValueProofs StrScanProofs StrScanProofs2 SkipProofs SkipSafe GapProofs PropertiesStr PropertiesSkip ClassProofs
  ZInt CModel CLex CTrim.
Import ListNotations.
Local Open Scope N_scope.
Set Default Proof Using "All".

(** Where the first succeeds the second gives the same. *)
Definition simP {A} (Q : A -> Prop) (x y : res A) : Prop := forall a, x = Ok a -> y = Ok a /\ Q a.

Lemma sp_ok : forall A (Q : A -> Prop) a, Q a -> simP Q (Ok a) (Ok a).
Proof. intros A Q a H b E. injection E as <-. auto. Qed.

Lemma sp_err : forall A (Q : A -> Prop) r y, simP Q (Err r) y.
Proof. intros A Q r y a E. discriminate. Qed.

Lemma sp_bind : forall A A' (P : A -> Prop) (Q : A' -> Prop) x y f g, simP P x y -> (forall a, P a -> simP Q (f a) (g a)) -> simP Q (bind x f) (bind y g).
Proof.
  intros A A' P Q x y f g H K b E. destruct x as [a| | |]; cbn [bind] in E; try discriminate.
  destruct (H a eq_refl) as [-> PA]. cbn [bind]. exact (K a PA b E).
Qed.

Lemma sp_ensure : forall A (Q : A -> Prop) b r f g, (b = true -> simP Q (f tt) (g tt)) -> simP Q (bind (ensure b r) f) (bind (ensure b r) g).
Proof. intros A Q [] r f g H a E; cbn [ensure bind] in *; [exact (H eq_refl a E)|discriminate]. Qed.

Lemma sp_same : forall A (Q : A -> Prop) x y, x = y -> (forall a, x = Ok a -> Q a) -> simP Q x y.
Proof. intros A Q x y <- H a E. auto. Qed.

Lemma sp_weaken : forall A (P Q : A -> Prop) x y, simP P x y -> (forall a, P a -> Q a) -> simP Q x y.
Proof. intros A P Q x y H K a E. destruct (H a E). auto. Qed.

Lemma sp_loop : forall S R (I : S -> Prop) (Q : R -> Prop) (f g : S -> res (S + R)),
  (forall s, I s -> simP (fun r => match r with inl s => I s | inr r => Q r end) (f s) (g s)) ->
  forall n s, I s -> simP Q (loop f n s) (loop g n s).
Proof.
  intros S R I Q f g H. induction n as [|n IH]; intros s HI a E; cbn [loop] in *; [discriminate|].
  destruct (f s) as [[s'|r]| | |] eqn:EF; cbn [bind] in E; try discriminate; destruct (H s HI _ EF) as [-> K]; cbn [bind].
  - exact (IH s' K a E).
  - injection E as <-. auto.
Qed.

Lemma ps_eq : forall p q, first p = first q -> last p = last q -> cfirst p = cfirst q -> clast p = clast q -> counter p = counter q -> isnull p = isnull q -> p = q.
Proof. intros [] []; cbn; intros; now subst. Qed.

Section Two.
  Context (cp : pol) (D B : list N).
  Hypothesis T : two cp D B.

  Local Notation step := (step cp D B).
  Local Notation reach := (reach cp D B).
  Local Notation repeat_at := (repeat_at cp D B T).
  Local Notation comment_head := (comment_head cp D B T).
  Local Notation comment_len := (comment_len cp D B T).
  Local Notation reach_le := (reach_le cp D B T).
  Local Notation reach_trans := (reach_trans cp D B T).
  Local Notation reach_one := (reach_one cp D B T).
  Local Notation step_lt := (step_lt cp D B T).
  Local Notation step_byte := (step_byte cp D B T).
  Local Notation step_quote := (step_quote cp D B T).
  Local Notation reach_prev := (reach_prev cp D B T).
  Local Notation step_same := (step_same cp D B T).
  Local Notation same := (same cp).
  Local Notation same_eqb := (same_eqb cp D B T).
  Local Notation same_digit := (same_digit cp D B T).
  Local Notation step_prev := (step_prev cp D B T).
  Local Notation prev := (prev D B).
  Local Notation plainly := (plainly cp D B).
  Local Notation spaces := (spaces B).
  Local Notation trim_run := (trim_run cp D B T).
  Local Notation trimu_run := (trimu_run cp D B T).
  Local Notation step_plainly := (step_plainly cp D B T).
  Local Notation opening_spec := (opening_spec cp D B T).

  Lemma LEN : length D = length B. Proof. apply T. Qed.
  Lemma HBD : is_bytes D. Proof. apply T. Qed.
  Lemma HBBt : is_bytes B. Proof. apply T. Qed.
  Lemma NCPt : cp <> CNone. Proof. apply T. Qed.
  Lemma H32 : N.of_nat (length B) < 2^32. Proof. destruct T as (_ & _ & _ & _ & H). lia. Qed.

  Definition both (i : nat) : Prop := exists b d, nth_error B i = Some b /\ nth_error D i = Some d /\ same b d.

  Lemma both_at : forall x i y l, reach x i y l -> (i < l)%nat -> both i.
  Proof. intros x i y l H LT. inversion H as [|? ? z j ? ? ST HR]; subst; [lia|]. exact (step_same _ _ _ _ ST). Qed.

  Lemma same_pd : forall b d c, same b d -> b < 256 -> d < 256 -> c = c_e \/ c = c_E \/ c = c_plus \/ c = c_minus ->
    (parse_digit d =? parse_digit c) = (parse_digit b =? parse_digit c).
  Proof.
    intros b d c [->|[-> O]] HB HD HC; auto. apply opening_spec in O. destruct HC as [->|[->|[->| ->]]]; destruct O as [->| ->]; reflexivity.
  Qed.

  (** The end of a range *)
  Definition fin (l : nat) : Prop :=
    (l <= length B)%nat /\ (l = length B \/ both l) /\
    (l = length B \/ nth_error B l = Some 0 \/ exists k b, l = S k /\ nth_error B k = Some b /\ is_space b = false /\ b <> 91).

  Definition st (p : ps) : Prop :=
    isnull p = false /\ prev (first p) /\ fin (last p) /\ (exists x y, reach x (first p) y (last p)) /\
    (exists cl, clast p = Some cl /\ (last p <= cl <= length B)%nat).

  Lemma st_le : forall p, st p -> (first p <= last p <= length B)%nat.
  Proof. intros p (_ & _ & (L & _) & (x & y & R) & _). apply reach_le in R. lia. Qed.

  Lemma st_wf : forall p, st p -> wf B p /\ wf D p.
  Proof.
    intros p H. pose proof (st_le _ H) as L. pose proof LEN as LD. destruct H as (N & _ & _ & _ & cl & C1 & C2).
    split; (split; [first [exact HBBt|exact HBD]|]); (split; [exact N|]); (split; [lia|]); exists cl; split; auto; lia.
  Qed.

  Lemma st_moved : forall p q x y, st p -> moved p q -> reach x (first p) y (first q) -> (exists z, reach y (first q) z (last p)) -> st q.
  Proof.
    intros p q x y (N & PV & F & _ & CL) (M1 & M2 & M3 & M4) R1 (z & R2). unfold st. rewrite M1, M3, M4.
    split; [exact N|]. split; [eapply reach_prev; eauto|]. split; [exact F|]. split; [eauto|exact CL].
  Qed.

  Lemma st_counter : forall p n, st p -> st (set_counter p n).
  Proof. intros p n H. exact H. Qed.

  Lemma st_both : forall p, st p -> first p = length B \/ both (first p).
  Proof.
    intros p (_ & _ & (_ & F & _) & (x & y & R) & _). destruct (Nat.eq_dec (first p) (last p)) as [->|NE]; auto.
    right. eapply both_at; eauto. apply reach_le in R. lia.
  Qed.

  (** Reading the byte at the front *)
  Lemma sp_front : forall A (Q : A -> Prop) p f g, st p ->
    (forall b d, nth_error B (first p) = Some b -> nth_error D (first p) = Some d -> same b d -> b < 256 -> d < 256 -> simP Q (f b) (g d)) ->
    simP Q (bind (front B p) f) (bind (front D p) g).
  Proof.
    intros A Q p f g H K a E. unfold front in *. destruct (st_both _ H) as [EL|(b & d & Hb & Hd & SM)].
    - unfold rd in E. rewrite EL, (proj2 (nth_error_None B (length B)) (le_n _)) in E. discriminate.
    - rewrite (rd_some _ _ _ Hb) in E. rewrite (rd_some _ _ _ Hd). cbn [bind] in *.
      exact (K b d Hb Hd SM (is_bytes_nth _ _ _ HBBt Hb) (is_bytes_nth _ _ _ HBD Hd) a E).
  Qed.

  Lemma sp_is_at : forall A (Q : A -> Prop) p c f g, st p -> c <> 32 -> c <> 35 -> c <> 47 ->
    (forall r, (r = true -> (first p < last p)%nat /\ nth_error B (first p) = Some c) -> simP Q (f r) (g r)) ->
    simP Q (bind (is_at B p c) f) (bind (is_at D p c) g).
  Proof.
    intros A Q p c f g H N1 N2 N3 K. unfold is_at, has_more. destruct (Nat.ltb_spec (first p) (last p)) as [LT|].
    - assert (simP (fun r => r = true -> (first p < last p)%nat /\ nth_error B (first p) = Some c)
        (b <- front B p ;; Ok (b =? c)) (b <- front D p ;; Ok (b =? c))) as X; [|eapply sp_bind; [exact X|exact K]].
      apply sp_front; auto. intros b d Hb Hd SM _ _. rewrite (same_eqb _ _ _ SM N1 N2 N3). apply sp_ok.
      intros E. assert (b = c) by lia. subst. auto.
    - cbn [bind]. apply K. discriminate.
  Qed.

  (** ** Whitespace *)

  Lemma trim_spaces : forall p q, (first p <= last p <= length B)%nat -> trim_left_checked B p = Ok q -> q = set_first p (first q) /\ spaces (first p) (first q) (last p).
  Proof.
    intros p q L E. unfold trim_left_checked in E.
    destruct (trim_loop_safe (S (last p - first p)) B (first p) (last p)) as (j & t & E' & EJ & HS & HF & LE & HN); [lia|lia|].
    rewrite E' in E. cbn [bind] in E. injection E as <-. cbn [first set_first]. split; [reflexivity|]. split; [specialize (LE ltac:(lia)); lia|]. split.
    - intros k K. destruct (nth_error t (k - first p)) as [b|] eqn:E; [|apply nth_error_None in E; lia].
      exists b. split; [replace k with (first p + (k - first p))%nat by lia; eapply sub_at_nth; eauto|].
      rewrite Forall_forall in HF. apply HF. eapply nth_error_In; eauto.
    - destruct (Nat.eq_dec j (last p)); auto. right. apply HN. specialize (LE ltac:(lia)). lia.
  Qed.

  (** There are no spaces outside of strings in minified documents. *)
  Lemma min_here : forall x y i e l, cp = Min -> reach x i y l -> spaces i e l -> e = i.
  Proof.
    intros x y i e l EM R (L & SP & _). destruct (Nat.eq_dec e i) as [|NE]; auto. exfalso. destruct (SP i ltac:(lia)) as (b & Hb & S).
    inversion R as [x0 i0 E1 E2 E3 E4|x0 i0 z j y0 l0 ST HR]; [lia|]. destruct (min_plainly cp D B T _ _ _ _ EM ST) as (b' & Hb' & _ & O). assert (b' = b) by congruence. subst b'.
    rewrite EM in O. cbn [opening] in O. rewrite is_space_spec in S by (eapply is_bytes_nth; [apply HBBt|eauto]). unfold ws_byte in O. congruence.
  Qed.

  Lemma trim_c_run : forall p e x y, reach x (first p) y (last p) -> spaces (first p) e (last p) ->
    comment_trim_checked (skipf cp) D (first p) (last p) = Ok e -> trim_c cp D p = Ok (set_first p e).
  Proof.
    intros p e x y R SP E. unfold trim_c, trim_left_cp. destruct (pol_cases cp D B T) as [EM|[EM|EM]].
    - pose proof (min_here _ _ _ _ _ EM R SP) as ->. rewrite EM. destruct p; reflexivity.
    - rewrite EM in *. cbn [skipf] in E. rewrite E. reflexivity.
    - rewrite EM in *. cbn [skipf] in E. rewrite E. reflexivity.
  Qed.

  (** What trimming gives *)
  Definition after_trim (p q : ps) : Prop :=
    st q /\ q = set_first p (first q) /\ (first p <= first q)%nat /\ ((first q < last q)%nat -> plainly (first q)) /\
    spaces (first p) (first q) (last p).

  Lemma sp_trim : forall p, st p -> simP (after_trim p) (trim_left_checked B p) (trim_c cp D p).
  Proof.
    intros p H q E. pose proof (st_le _ H) as L. pose proof LEN as LD. destruct (trim_spaces _ _ L E) as [EQ SP]. pose proof H as (_ & _ & _ & (x & y & R) & _).
    destruct (trim_run y (first q) (last p) ltac:(lia) x (first p) R SP) as (ET & z & R1 & R2 & PL).
    rewrite (trim_c_run _ _ _ _ R SP ET). rewrite <- EQ. split; [reflexivity|].
    assert (M : moved p q) by (rewrite EQ; repeat split).
    assert (LQ : last q = last p) by (rewrite EQ; reflexivity).
    split; [eapply st_moved; eauto|]. split; [exact EQ|]. split; [apply SP|]. split; [rewrite LQ; exact PL|exact SP].
  Qed.

  (** One byte forward *)
  Lemma st_step : forall p b, st p -> (first p < last p)%nat -> nth_error B (first p) = Some b -> b <> 32 -> b <> 34 ->
    st (remove_prefix p 1) /\ nth_error D (first p) = Some b /\ exists x y, reach (after x b) (S (first p)) y (last p).
  Proof.
    intros p b H LT Hb N1 N2. pose proof H as (_ & _ & _ & (x & y & R) & _). inversion R as [|? ? z j ? ? ST HR]; subst; [lia|].
    destruct (step_byte _ _ _ _ _ ST Hb N1 N2) as (Hd & -> & -> & _).
    split; [|split; [exact Hd|exists x, y; exact HR]].
    eapply (st_moved p _ x (after x b)); [exact H|repeat split| |]; unfold remove_prefix; cbn [first set_first]; rewrite Nat.add_1_r; [apply reach_one; exact ST|eauto].
  Qed.

  (** Several bytes forward *)
  Definition nb (c : N) : Prop := c <> 32 /\ c <> 34.

  Lemma run_bytes : forall u x i y l, reach x i y l -> sub_at B i u -> Forall nb u -> (i + length u <= l)%nat ->
    sub_at D i u /\ exists z, reach x i z (i + length u) /\ reach z (i + length u) y l /\ (forall r c, u = r ++ [c] -> exists x', z = after x' c).
  Proof.
    induction u as [|c u IH]; intros x i y l R HS HF HL.
    - split; [exact I|]. cbn [length]. rewrite Nat.add_0_r. exists x. split; [constructor|]. split; auto. intros r c E. destruct r; discriminate.
    - cbn [length] in HL. inversion R as [|? ? z j ? ? ST HR]; subst; [lia|]. destruct HS as [Hb HS]. inversion HF as [|? ? [N1 N2] HF']; subst.
      destruct (step_byte _ _ _ _ _ ST Hb N1 N2) as (Hd & -> & -> & _).
      destruct (IH (after x c) (S i) y l HR HS HF' ltac:(lia)) as (SD & z & Z1 & Z2 & Z3).
      split; [split; auto|]. exists z. cbn [length]. replace (i + S (length u))%nat with (S i + length u)%nat by lia.
      split; [econstructor; eauto|]. split; auto. intros r c' E. destruct r as [|c0 r].
      + injection E as -> ->. inversion Z1; subst; [eauto|]. cbn [length] in *. exfalso. apply reach_le in H0. apply step_lt in H. lia.
      + injection E as -> E. eauto.
  Qed.

  Lemma st_bytes : forall p u, st p -> sub_at B (first p) u -> Forall nb u -> (first p + length u <= last p)%nat ->
    st (set_first p (first p + length u)) /\ sub_at D (first p) u /\
    exists z y, reach z (first p + length u) y (last p) /\ (forall r c, u = r ++ [c] -> exists x', z = after x' c).
  Proof.
    intros p u H HS HF HL. pose proof H as (_ & _ & _ & (x & y & R) & _).
    destruct (run_bytes u x (first p) y (last p) R HS HF HL) as (SD & z & Z1 & Z2 & Z3). split; [|split; [exact SD|exists z, y; auto]].
    eapply (st_moved p _ x z); [exact H|repeat split|exact Z1|eauto].
  Qed.

  (** Where no comment may stand the bytes are the same. *)
  Lemma ended_plainly : forall y j l, reach Ended j y l -> (j < l)%nat -> plainly j.
  Proof.
    intros y j l R LT. inversion R as [|? ? z k ? ? ST HR]; subst; [lia|].
    destruct (step_plainly _ _ _ _ ST) as [PL|(k' & n & w & _ & A & _)]; auto. discriminate.
  Qed.

  (** Comparing with a word *)
  Lemma eq_both : forall w x i y l, (l <= length B)%nat -> reach x i y l -> Forall (fun c => nb c /\ c <> 35 /\ c <> 47) w -> (i + length w <= l)%nat ->
    exists r, eq_bytes B i w = Ok r /\ eq_bytes D i w = Ok r /\ (r = true -> sub_at B i w).
  Proof.
    intros w x i y l LB R HF HL. pose proof LEN as LD.
    destruct (eq_bytes_safe w B i) as (r & E & HT); [lia|]. destruct (eq_bytes_safe w D i) as (r' & E' & HT'); [lia|].
    exists r. split; auto. split; auto. rewrite E'. f_equal.
    enough (r' = true <-> r = true) by (destruct r, r'; intuition).
    assert (YES : forall buf v j, sub_at buf j v -> eq_bytes buf j v = Ok true).
    { intros buf. induction v as [|c v IH]; intros j HS; [reflexivity|]. destruct HS as [S1 S2]. cbn [eq_bytes]. rewrite (rd_some _ _ _ S1). cbn [bind]. rewrite (IH _ S2). cbn [bind]. now rewrite N.eqb_refl. }
    split; intros X; subst.
    - specialize (HT' eq_refl). enough (HS : sub_at B i w) by (rewrite (YES _ _ _ HS) in E; now injection E).
      clear - T R HF HL HT'. revert x i R HL HT'. induction w as [|c w IH]; intros x i R HL HT'; [exact I|].
      inversion HF as [|? ? [[N1 N2] [N3 N4]] HF']; subst. destruct HT' as [Hd HT']. cbn [length] in HL.
      inversion R as [|? ? z j ? ? ST HR]; subst; [lia|]. destruct (step_same _ _ _ _ ST) as (b & d & Hb & Hd' & SM).
      rewrite Hd in Hd'. injection Hd' as <-. assert (b = c).
      { destruct SM as [->|[_ O]]; auto. apply opening_spec in O. lia. }
      subst. destruct (step_byte _ _ _ _ _ ST Hb N1 N2) as (_ & -> & -> & _). split; auto. eapply IH; eauto. lia.
    - specialize (HT eq_refl). destruct (run_bytes w x i y l R HT) as (SD & _); auto.
      { eapply Forall_impl; [|exact HF]. cbn. tauto. }
      rewrite (YES _ _ _ SD) in E'. now injection E'.
  Qed.

  Lemma sp_starts : forall A (Q : A -> Prop) p w f g, st p -> Forall (fun c => nb c /\ c <> 35 /\ c <> 47) w ->
    (forall r, (r = true -> (first p + length w <= last p)%nat /\ sub_at B (first p) w) -> simP Q (f r) (g r)) ->
    simP Q (bind (starts_with B p w) f) (bind (starts_with D p w) g).
  Proof.
    intros A Q p w f g H HF K. pose proof (st_le _ H) as L. unfold starts_with, ps_size. destruct (Nat.ltb_spec (last p - first p) (length w)) as [LT|GE].
    - cbn [bind]. apply K. discriminate.
    - pose proof H as (_ & _ & _ & (x & y & R) & _).
      destruct (eq_both w x (first p) y (last p)) as (r & E1 & E2 & HT); auto; try lia. rewrite E1, E2. cbn [bind]. apply K.
      intros ->. split; auto. lia.
  Qed.

  (** The byte behind a value *)
  Lemma sp_after : forall A (Q : A -> Prop) (h : N -> bool) p f g, st p -> ((first p < last p)%nat -> plainly (first p)) ->
    (forall r, simP Q (f r) (g r)) ->
    simP Q (bind (if has_more p then c <- front B p ;; Ok (h c) else Ok true) f) (bind (if has_more p then c <- front D p ;; Ok (h c) else Ok true) g).
  Proof.
    intros A Q h p f g H PL K. unfold has_more, front. destruct (Nat.ltb_spec (first p) (last p)) as [LT|].
    - destruct (PL LT) as (b & Hb & Hd & _). rewrite (rd_some _ _ _ Hb), (rd_some _ _ _ Hd). cbn [bind]. apply K.
    - cbn [bind]. apply K.
  Qed.
End Two.
