(** Classes on the document with comments and on the one with spaces in
    their place. *)
From Coq Require Import List NArith ZArith Bool Lia Arith ZifyBool ZifyNat ZifyN.
From Verif Require Import Base Mem Loop PolicyModel IntModel StrScanModel SkipModel HashModel SpecNum SpecText SpecJson SpecC
  IntProofs IntValueProofs StrScanProofs StrScanProofs2 SkipProofs SkipSafe GapProofs PropertiesStr PropertiesSkip ClassProofs
  StrDecodeModel StrDecodeProofs StrDecodeSafe ValueModel ZInt CModel CLex CTrim CState CSkip CBracket CScalar CScalar2.
Import ListNotations.
Local Open Scope N_scope.
Set Default Proof Using "All".

Lemma nth_set_other : forall l k j x, k <> j -> nth j (set_nth l k x) no_loc = nth j l no_loc.
Proof. induction l as [|y l IH]; intros [|k] [|j] x H; cbn; auto; try congruence. Qed.

Lemma nth_set_cases : forall l k x, nth k (set_nth l k x) no_loc = x \/ nth k (set_nth l k x) no_loc = no_loc.
Proof. induction l as [|y l IH]; intros [|k] x; cbn; auto. Qed.

Section Two.
  Context (cp : pol) (D B : list N).
  Hypothesis T : two cp D B.

  Local Notation step := (step cp D B).
  Local Notation reach := (reach cp D B).
  Local Notation repeat_at := (repeat_at cp D B T).
  Local Notation comment_head := (comment_opening cp D B T).
  Local Notation comment_len := (comment_len cp D B T).
  Local Notation reach_le := (reach_le cp D B T).
  Local Notation reach_trans := (reach_trans cp D B T).
  Local Notation reach_one := (reach_one cp D B T).
  Local Notation step_lt := (step_lt cp D B T).
  Local Notation step_byte := (step_byte cp D B T).
  Local Notation step_quote := (step_quote cp D B T).
  Local Notation reach_prev := (reach_prev cp D B T).
  Local Notation step_same := (step_same cp D B T).
  Local Notation same := (same cp).
  Local Notation same_eqb := (same_eqb cp D B T).
  Local Notation same_digit := (same_digit cp D B T).
  Local Notation step_prev := (step_prev cp D B T).
  Local Notation prev := (prev D B).
  Local Notation plainly := (plainly cp D B).
  Local Notation spaces := (spaces B).
  Local Notation step_plainly := (step_plainly cp D B T).
  Local Notation opening_spec := (opening_spec cp D B T).
  Local Notation LEN := (LEN cp D B T).
  Local Notation HBD := (HBD cp D B T).
  Local Notation HBBt := (HBBt cp D B T).
  Local Notation NCPt := (NCPt cp D B T).
  Local Notation H32 := (H32 cp D B T).
  Local Notation both := (both cp D B).
  Local Notation both_at := (both_at cp D B T).
  Local Notation same_pd := (same_pd cp D B T).
  Local Notation fin := (fin cp D B).
  Local Notation st := (st cp D B).
  Local Notation st_le := (st_le cp D B T).
  Local Notation st_wf := (st_wf cp D B T).
  Local Notation st_moved := (st_moved cp D B T).
  Local Notation st_both := (st_both cp D B T).
  Local Notation sp_front := (sp_front cp D B T).
  Local Notation sp_is_at := (sp_is_at cp D B T).
  Local Notation after_trim := (after_trim cp D B).
  Local Notation sp_trim := (sp_trim cp D B T).
  Local Notation st_step := (st_step cp D B T).
  Local Notation run_bytes := (run_bytes cp D B T).
  Local Notation st_bytes := (st_bytes cp D B T).
  Local Notation ended_plainly := (ended_plainly cp D B T).
  Local Notation sp_starts := (sp_starts cp D B T).
  Local Notation sp_after := (sp_after cp D B T).

  Local Notation agree := (agree D B).
  Local Notation rng := (rng cp D B).
  Local Notation skipped := (skipped cp D B).
  Local Notation sp_number := (sp_number cp D B T).
  Local Notation sp_bool := (sp_bool cp D B T).
  Local Notation sp_null := (sp_null cp D B T).
  Local Notation sp_string := (sp_string cp D B T).
  Local Notation st_quote := (st_quote cp D B T).
  Local Notation moved_trim := (moved_trim cp D B T).
  Local Notation instr := (instr D B).
  Local Notation sp_string_in := (sp_string_in cp D B T).
  Local Notation digits_c := (digits_c cp D B T).
  Local Notation sp_bracketed := (sp_bracketed cp D B T).
  Local Notation sp_skip_value := (sp_skip_value cp D B T).
  Local Notation sp_skip_literal := (sp_skip_literal cp D B T).
  Local Notation known_string := (known_string cp D B T).
  Local Notation here_string := (here_string cp D B T).
  Local Notation view_same := (view_same cp D B T).
  Local Notation rd_same := (rd_same cp D B T).
  Local Notation sub_agree := (sub_agree cp D B T).
  Local Notation agree_sub := (agree_sub cp D B T).
  Local Notation instr_agree := (instr_agree cp D B T).
  Local Notation notq := (notq B).
  Local Notation loc := (loc cp D B).
  Local Notation here := (here cp D B).
  Local Notation there := (there cp D B).
  Local Notation there_cases := (there_cases cp D B T).
  Local Notation sp_name := (sp_name cp D B T).
  Local Notation sp_end_of_name := (sp_end_of_name cp D B T).
  Local Notation str_quoted := (str_quoted cp D B T).
  Local Notation skip_run := (skip_run cp D B T).
  Local Notation skipu_run := (skipu_run cp D B T).
  Local Notation trimu_run := (trimu_run cp D B T).

  (** The parsers for both documents *)
  Definition psim (P Pc : parser) : Prop := here (P false) (Pc false) /\
    (forall r, loc r -> isnull r = false -> simP (fun _ => True) (P true B r) (Pc true D r)).

  Lemma loc_none : loc no_loc.
  Proof. apply g_null; cbn; auto. Qed.

  Lemma sp_next : forall p, st p -> simP (fun q => st q /\ moved p q) (move_next B p) (move_next_c cp D p).
  Proof.
    intros p H. unfold move_next, move_next_member_or_end, move_next_member_or_end_checked, move_next_c. eapply sp_bind; [apply (sp_trim p H)|]. intros q AT. pose proof AT as (H1 & _).
    apply sp_is_at; [exact H1|vm_compute; discriminate|vm_compute; discriminate|vm_compute; discriminate|]. intros r HR. destruct r.
    - destruct (HR eq_refl) as [LT Hb]. destruct (st_step q _ H1 LT Hb) as (H2 & _); [vm_compute; discriminate|vm_compute; discriminate|].
      eapply sp_weaken; [apply (sp_trim _ H2)|]. intros q2 AT2. pose proof AT2 as (H3 & _). split; [exact H3|].
      eapply moved_trans; [eapply moved_trim; exact AT|]. eapply moved_trans; [|eapply moved_trim; exact AT2]. repeat split.
    - apply sp_ok. split; [exact H1|eapply moved_trim; exact AT].
  Qed.

  Lemma spaces_ex : forall i l, (i <= l <= length B)%nat -> exists e, spaces i e l.
  Proof.
    intros i l L. destruct (trim_loop_safe (S (l - i)) B i l) as (j & t & E' & EJ & HS & HF & LE & HN); [lia|lia|]. exists j. split; [specialize (LE ltac:(lia)); lia|]. split.
    - intros k K. destruct (nth_error t (k - i)) as [b|] eqn:E; [|apply nth_error_None in E; lia].
      exists b. split; [replace k with (i + (k - i))%nat by lia; eapply sub_at_nth; eauto|].
      rewrite Forall_forall in HF. apply HF. eapply nth_error_In; eauto.
    - destruct (Nat.eq_dec j l) as [->|NE]; [now left|]. right. specialize (LE ltac:(lia)). apply HN. lia.
  Qed.

  (** ** Finding a member *)

  Section Find.
    Context (g : cfg) (HG : covered_c g) (exact : bool) (names : list (list N)) (pos : nat) (p0 : ps) (locs0 : list ps).

    Definition f_inv (s : ps * list ps) : Prop := st (fst s) /\ moved p0 (fst s) /\ (forall j, (pos <= j)%nat -> loc (nth j (snd s) no_loc)) /\ nth pos (snd s) no_loc = nth pos locs0 no_loc.
    Definition f_end (s : ps * list ps) : Prop := st (fst s) /\ moved p0 (fst s) /\ (forall j, (pos < j)%nat -> loc (nth j (snd s) no_loc)) /\
      (loc (nth pos (snd s) no_loc) \/ isnull (nth pos locs0 no_loc) = true /\ isnull (nth pos (snd s) no_loc) = false).

    Lemma find_sim : forall s, f_inv s -> simP (fun r => match r with inl s => f_inv s | inr r => f_end r end) (find_body g exact names pos B s) (find_body_c cp g exact names pos D s).
    Proof.
      intros [p locs] (H & M & LO & EQ). cbn [fst snd] in *. unfold find_body, find_body_c.
      apply (sp_bind _ _ (fun go => go = true -> isnull (nth pos locs0 no_loc) = true)).
      - rewrite EQ. destruct (isnull (nth pos locs0 no_loc)); [|apply sp_ok; discriminate]. destruct (ps_empty p); [apply sp_ok; auto|]. apply sp_front; [exact H|]. intros b d _ _ SM _ _.
        rewrite (same_eqb _ _ _ SM) by (vm_compute; discriminate). apply sp_ok. auto.
      - intros go GO. destruct go; cbn [negb].
        2:{ apply sp_ok. cbn [fst snd]. split; [exact H|]. split; [exact M|]. split; [intros j J; apply LO; lia|left; apply LO; lia]. }
        specialize (GO eq_refl). eapply sp_bind; [apply (sp_name g p HG H)|]. intros [name p1] (H1 & M1 & NQ). cbn [snd] in *. cbv zeta.
        set (k := find_name (c_force g) false names pos name). destruct HG as [GX GE].
        assert (SK : simP (skipped notq p1) (skip_val g B p1) (skip_val_c cp g D p1)).
        { unfold skip_val, skip_val_c. rewrite GX, GE. apply (sp_skip_value notq false p1 eq_refl H1 NQ). }
        assert (MM : moved p0 p1) by (eapply moved_trans; eauto).
        destruct (length names <=? k)%nat.
        + destruct exact; [apply sp_err|]. eapply sp_bind; [exact SK|]. intros [r p2] (R2 & H2 & M2). cbn [fst snd] in *. eapply sp_bind; [apply (sp_next p2 H2)|]. intros p3 (H3 & M3).
          apply sp_ok. split; [exact H3|]. split; [eapply moved_trans; [exact MM|eapply moved_trans; eauto]|]. auto.
        + destruct (Nat.eqb_spec k pos) as [->|NK].
          * apply sp_ok. split; [exact H1|]. split; [exact MM|]. cbn [fst snd]. split; [intros j J; rewrite nth_set_other by lia; apply LO; lia|].
            destruct (nth_set_cases locs pos p1) as [E|E]; rewrite E; [right; split; [exact GO|apply H1]|left; apply loc_none].
          * eapply sp_bind; [exact SK|]. intros [r p2] (R2 & H2 & M2). cbn [fst snd] in *. eapply sp_bind; [apply (sp_next p2 H2)|]. intros p3 (H3 & M3).
            apply sp_ok. split; [exact H3|]. split; [eapply moved_trans; [exact MM|eapply moved_trans; eauto]|]. cbn [fst snd]. split.
            -- intros j J. destruct (Nat.eq_dec k j) as [<-|NE]; [|rewrite nth_set_other by exact NE; now apply LO]. destruct (nth_set_cases locs k r) as [E|E]; rewrite E; [exact R2|apply loc_none].
            -- now rewrite nth_set_other by exact NK.
    Qed.
  End Find.

  Lemma unchecked_here : forall p c, st p -> (first p < last p)%nat -> nth_error B (first p) = Some c -> is_space c = false ->
    trim_left_unchecked B p = Ok p /\ trim_unchecked_c cp D p = Ok p.
  Proof.
    intros p c H LT Hc NS. pose proof (st_le _ H) as L. pose proof LEN as LD. pose proof H as (_ & _ & _ & (x & y & R) & _).
    assert (SP : spaces (first p) (first p) (last p)).
    { split; [lia|]. split; [intros k K; lia|]. right. eauto. }
    assert (SELF : forall q, set_first q (first q) = q) by (intros []; reflexivity).
    split.
    - unfold trim_left_unchecked. cbn [trim_loop_unchecked]. rewrite (rd_some _ _ _ Hc). cbn [bind]. rewrite NS. cbn [bind]. now rewrite SELF.
    - destruct (skipu_run y (first p) (last p) ltac:(lia) x (first p) R SP LT) as (j & E & J & _ & _ & (b & Hb & Hd & _)). assert (j = first p) by lia. subst j.
      assert (X : comment_trim_unchecked (skipu cp) D (first p) = Ok (first p)).
      { unfold comment_trim_unchecked. rewrite E. cbn [bind trim_loop_unchecked]. rewrite (rd_some _ _ _ Hd). cbn [bind]. assert (b = c) by congruence. subst b. now rewrite NS. }
      unfold trim_unchecked_c, trim_left_cp. destruct (pol_cases cp D B T) as [EM|[EM|EM]]; rewrite EM in *; cbn [skipu] in X; [reflexivity| |]; rewrite X; cbn [bind]; now rewrite SELF.
  Qed.

  Lemma sp_find : forall g exact names pos nullable p locs c, covered_c g -> st p -> (first p < last p)%nat -> nth_error B (first p) = Some c -> is_space c = false ->
    (forall j, (pos <= j)%nat -> loc (nth j locs no_loc)) ->
    simP (fun r => st (fst (fst r)) /\ moved p (fst (fst r)) /\ (forall j, (pos < j)%nat -> loc (nth j (snd (fst r)) no_loc)) /\ (snd r = true -> loc (nth pos (snd (fst r)) no_loc)))
      (find_class_member g exact names pos nullable B p locs) (find_class_member_c cp g exact names pos nullable D p locs).
  Proof.
    intros g exact names pos nullable p locs c HG H LT Hc NS LO. unfold find_class_member, find_class_member_c.
    apply sp_is_at; [exact H|vm_compute; discriminate|vm_compute; discriminate|vm_compute; discriminate|]. intros r _. apply sp_ensure. intros _.
    destruct (unchecked_here p c H LT Hc NS) as [E1 E2]. rewrite E1, E2. cbn [bind]. rewrite LEN.
    eapply sp_bind; [apply (sp_loop _ _ (f_inv pos p locs) (f_end pos p locs)); [apply (find_sim g HG)|split; [exact H|split; [apply moved_refl|split; [exact LO|reflexivity]]]]|].
    intros [p1 locs1] (H1 & M1 & LO1 & LP). cbn [fst snd] in *. apply sp_ok. cbn [fst snd]. split; [exact H1|]. split; [exact M1|]. split; [exact LO1|].
    intros K. destruct LP as [LP|[N1 N2]]; [exact LP|]. rewrite N1, N2 in K. discriminate.
  Qed.

  Lemma sp_member : forall g exact names pos nullable P Pc p locs, covered_c g -> psim P Pc -> st p -> (forall j, (pos <= j)%nat -> loc (nth j locs no_loc)) ->
    simP (fun r => st (snd (fst r)) /\ moved p (snd (fst r)) /\ (forall j, (S pos <= j)%nat -> loc (nth j (snd r) no_loc)))
      (parse_class_member g exact names pos nullable P B p locs) (parse_class_member_c cp g exact names pos nullable Pc D p locs).
  Proof.
    intros g exact names pos nullable P Pc p locs HG [HP HK] H LO. unfold parse_class_member, parse_class_member_c.
    eapply sp_bind; [apply (sp_next p H)|]. intros p1 (H1 & M1).
    apply (sp_bind _ _ (fun ok => ok = true -> (first p1 < last p1)%nat /\ exists c, nth_error B (first p1) = Some c /\ is_space c = false)).
    { unfold ps_empty. pose proof H1 as (NN & _). rewrite NN. destruct (Nat.leb_spec (last p1) (first p1)); cbn [orb]; [apply sp_ok; discriminate|]. apply sp_front; [exact H1|]. intros b d Hb _ SM _ _.
      rewrite !(same_eqb _ _ _ SM) by (vm_compute; discriminate). apply sp_ok. intros X. split; [exact H0|]. exists b. split; [exact Hb|].
      apply orb_true_iff in X as [X|X]; apply N.eqb_eq in X; subst b; reflexivity. }
    intros ok HOK. apply sp_ensure. intros ->. destruct (HOK eq_refl) as (LT & c & Hc & NS).
    eapply sp_bind; [apply (sp_find g exact names pos nullable p1 locs c HG H1 LT Hc NS LO)|]. intros [[p2 locs2] known] (H2 & M2 & LO2 & KN). cbn [fst snd] in *.
    assert (MM : moved p p2) by (eapply moved_trans; eauto).
    destruct known; cbn [negb].
    - destruct (isnull (nth pos locs2 no_loc)) eqn:EN.
      + destruct nullable; [|apply sp_err]. apply sp_ok. cbn [fst snd]. split; [exact H2|]. split; [exact MM|]. intros j J. apply LO2. lia.
      + eapply sp_bind; [apply (HK _ (KN eq_refl) EN)|]. intros [v q] _. apply sp_ok. cbn [fst snd]. split; [exact H2|]. split; [exact MM|]. intros j J. apply LO2. lia.
    - eapply sp_bind; [apply (HP p2 H2)|]. intros [v q] (H3 & M3). cbn [snd] in *. apply sp_ok. cbn [fst snd]. split; [exact H3|]. split; [eapply moved_trans; eauto|]. intros j J. apply LO2. lia.
  Qed.

  Definition msim (m mc : member) : Prop := m_name m = m_name mc /\ m_nullable m = m_nullable mc /\ psim (m_parse m) (m_parse mc).

  Lemma sp_members : forall g exact names ms mc, covered_c g -> Forall2 msim ms mc -> forall pos p locs, st p -> (forall j, (pos <= j)%nat -> loc (nth j locs no_loc)) ->
    simP (fun r => st (snd r) /\ moved p (snd r)) (parse_members g exact names pos ms B p locs) (parse_members_c cp g exact names pos mc D p locs).
  Proof.
    intros g exact names ms mc HG F. induction F as [|m c ms mc (E1 & E2 & E3) F IH]; intros pos p locs H LO.
    - apply sp_ok. split; [exact H|apply moved_refl].
    - cbn [parse_members parse_members_c]. rewrite <- E2. eapply sp_bind; [apply (sp_member g exact names pos (m_nullable m) _ _ p locs HG E3 H LO)|].
      intros [[v p1] locs1] (H1 & M1 & LO1). cbn [fst snd] in *. eapply sp_bind; [apply (IH (S pos) p1 locs1 H1 LO1)|]. intros [vs p2] (H2 & M2). cbn [snd] in *.
      apply sp_ok. cbn [snd]. split; [exact H2|eapply moved_trans; eauto].
  Qed.

  (** ** The end of a class *)

  Definition stop (c : N) : bool := (c =? c_quote) || (c =? c_rbrace).

  Lemma seek_found : forall l fuel i j,
    loop (fun i => c <- rd B i ;; if (c =? c_quote) || (c =? c_rbrace) then Ok (inr i) else _ <- ensure (S i <? l)%nat UnexpectedEndOfData ;; Ok (inl (S i))) fuel i = Ok j ->
    (i < l)%nat -> (i <= j < l)%nat /\ (exists c, nth_error B j = Some c /\ stop c = true) /\ (forall k, (i <= k < j)%nat -> exists c, nth_error B k = Some c /\ stop c = false).
  Proof.
    intros l. induction fuel as [|f IH]; intros i j E L; [discriminate|]. cbn [loop] in E. destruct (rd B i) as [c| | |] eqn:EC; cbn [bind] in E; try discriminate. apply rd_ok_nth in EC.
    destruct ((c =? c_quote) || (c =? c_rbrace)) eqn:ES.
    - cbn [bind] in E. injection E as <-. split; [lia|]. split; [exists c; auto|]. intros k K. lia.
    - destruct (Nat.ltb_spec (S i) l) as [LT|]; cbn [ensure bind] in E; [|discriminate]. destruct (IH (S i) j E LT) as (J & C & K). split; [lia|]. split; [exact C|].
      intros k KK. destruct (Nat.eq_dec k i) as [->|NE]; [exists c; auto|]. apply K. lia.
  Qed.

  Lemma seek_D : forall y l j, (l <= length D)%nat -> (j < l)%nat -> (exists c, nth_error B j = Some c /\ stop c = true) ->
    forall n i x f, (j - i <= n)%nat -> (n < f)%nat -> (i <= j)%nat -> reach x i y l -> plainly i ->
    (forall k, (i <= k < j)%nat -> exists c, nth_error B k = Some c /\ stop c = false) ->
    loop (fun i => c <- rd D i ;; if (c =? c_quote) || (c =? c_rbrace) then Ok (inr i) else _ <- ensure (i <? l)%nat UnexpectedEndOfData ;; j <- skipf cp D (S i) l ;; Ok (inl j)) f i = Ok j /\
    exists z, reach x i z j /\ reach z j y l.
  Proof.
    intros y l j HL JL (cj & Cj & Sj). induction n as [|n IH]; intros i x f M F L R PL NS.
    - assert (i = j) by lia. subst i. destruct f as [|f]; [lia|]. cbn [loop]. destruct PL as (b & Hb & Hd & _). assert (b = cj) by congruence. subst b. rewrite (rd_some _ _ _ Hd). cbn [bind].
      unfold stop in Sj. rewrite Sj. cbn [bind]. split; [reflexivity|]. exists x. split; [constructor|exact R].
    - destruct (Nat.eq_dec i j) as [->|NE].
      { destruct f as [|f]; [lia|]. cbn [loop]. destruct PL as (b & Hb & Hd & _). assert (b = cj) by congruence. subst b. rewrite (rd_some _ _ _ Hd). cbn [bind].
        unfold stop in Sj. rewrite Sj. cbn [bind]. split; [reflexivity|]. exists x. split; [constructor|exact R]. }
      destruct f as [|f]; [lia|]. cbn [loop]. destruct (NS i ltac:(lia)) as (c & Hc & Sc). destruct PL as (b & Hb & Hd & OP). assert (b = c) by congruence. subst b.
      rewrite (rd_some _ _ _ Hd). cbn [bind]. unfold stop in Sc. rewrite Sc. replace (i <? l)%nat with true by lia. cbn [ensure bind].
      inversion R as [|? ? z k ? ? ST HR]; subst; [lia|].
      assert (KE : k = S i).
      { inversion ST as [x' i' b' E1 E2 N1 N2 O|x' i' s HS S1 S2|x' i' kk nn w A C W LW S1 S2]; subst; [reflexivity| |].
        - exfalso. destruct S2 as [S2 _]. assert (c = 34) by congruence. subst c. discriminate.
        - exfalso. destruct (comment_head _ _ C) as (hd & tl & -> & HO). destruct S1 as [S1 _]. congruence. }
      subst k. destruct (spaces_ex (S i) l ltac:(rewrite LEN in HL; lia)) as (e & SP).
      destruct (skip_run y e l HL z (S i) HR SP) as (j' & E & J' & R1 & R2 & PL'). rewrite E. cbn [bind].
      assert (EJ : (e <= j)%nat).
      { destruct (Nat.le_gt_cases e j) as [|GT]; auto. exfalso. destruct SP as (_ & SP & _). destruct (SP j ltac:(lia)) as (b' & Hb' & IS). assert (b' = cj) by congruence. subst b'.
        unfold stop in Sj. apply orb_true_iff in Sj as [X|X]; apply N.eqb_eq in X; subst cj; discriminate. }
      destruct (IH j' z f ltac:(lia) ltac:(lia) ltac:(lia) R2 (PL' ltac:(lia))) as (EL & z' & Z1 & Z2). { intros q Q. apply NS. lia. }
      split; [exact EL|]. exists z'. split; [|exact Z2]. eapply reach_trans; [apply reach_one; exact ST|]. eapply reach_trans; [exact R1|exact Z1].
  Qed.

  Lemma sp_seek : forall g p, covered_c g -> st p ->
    simP (fun q => st q /\ moved p q /\ (first q < last q)%nat) (move_to_next_class_member g B p) (move_to_next_class_member_c cp g D p).
  Proof.
    intros g p [GX GE] H q E. pose proof (st_le _ H) as L. pose proof LEN as LD. pose proof H as (_ & _ & _ & (x & y & R) & _).
    pose proof E as E0. unfold move_to_next_class_member in E. rewrite GX in E. unfold has_more in E. destruct (Nat.ltb_spec (first p) (last p)) as [LT|]; cbn [ensure bind] in E; [|discriminate].
    match type of E with bind ?l _ = _ => destruct l as [j| | |] eqn:EL; cbn [bind] in E; try discriminate end. injection E as <-.
    destruct (seek_found (last p) _ _ _ EL LT) as (J & SJ & NS).
    destruct (spaces_ex (first p) (last p) ltac:(lia)) as (e & SP). destruct (skip_run y e (last p) ltac:(lia) x (first p) R SP) as (i & ES & I1 & R1 & R2 & PL).
    assert (EJ : (e <= j)%nat).
    { destruct (Nat.le_gt_cases e j) as [|GT]; auto. exfalso. destruct SP as (_ & SP & _). destruct (SP j ltac:(lia)) as (b' & Hb' & IS). destruct SJ as (cj & Cj & Sj). assert (b' = cj) by congruence. subst b'.
      unfold stop in Sj. apply orb_true_iff in Sj as [X|X]; apply N.eqb_eq in X; subst cj; discriminate. }
    destruct (seek_D y (last p) j ltac:(lia) ltac:(lia) SJ (last p - i) i x (S (S (last p - i))) ltac:(lia) ltac:(lia) ltac:(lia) R2 (PL ltac:(lia))) as (ED & z & Z1 & Z2).
    { intros k K. apply NS. lia. }
    assert (X : move_to_next_of_c (skipf cp) D p = Ok (set_first p j)).
    { unfold move_to_next_of_c. rewrite ES. cbn [bind]. replace (i <? last p)%nat with true by lia. cbn [ensure bind]. rewrite ED. reflexivity. }
    split.
    - unfold move_to_next_class_member_c. destruct (pol_cases cp D B T) as [EM|[EM|EM]]; [pose proof T as (_ & _ & _ & _ & _ & ED0); rewrite (ED0 EM); rewrite EM; exact E0| |]; rewrite EM in *; exact X.
    - split; [|split; [repeat split|cbn [first last set_first]; lia]]. eapply (st_moved p _ x z); [exact H|repeat split| |]; cbn [first set_first]; [eapply reach_trans; eauto|eauto].
  Qed.

  Lemma st_class : forall p c n, st p -> (last p <= n <= length B)%nat -> st (set_class p c (Some n)).
  Proof. intros p c n (N & PV & F & R & _) L. split; [exact N|]. split; [exact PV|]. split; [exact F|]. split; [exact R|]. exists n. split; [reflexivity|exact L]. Qed.

  Lemma sp_cleanup : forall g exact p0 p, covered_c g -> st p0 -> st p -> last p = last p0 -> isnull p = isnull p0 ->
    simP (fun q => st q /\ moved p0 q) (class_cleanup_now g exact (cfirst p0, clast p0) B p) (class_cleanup_now_c cp g exact (cfirst p0, clast p0) D p).
  Proof.
    intros g exact p0 p HG H0 H EL EN. unfold class_cleanup_now, class_cleanup_now_c. apply sp_ensure. intros _.
    eapply sp_bind; [apply (sp_next p H)|]. intros p1 (H1 & M1). eapply sp_bind; [apply (sp_seek g p1 HG H1)|]. intros p2 (H2 & M2 & LT).
    apply (sp_bind _ _ (fun q => st q /\ moved p2 q)).
    - destruct exact.
      + apply sp_front; [exact H2|]. intros b d Hb _ SM _ _. rewrite (same_eqb _ _ _ SM) by (vm_compute; discriminate). apply sp_ensure. intros HC. apply N.eqb_eq in HC. subst b.
        apply sp_ok. destruct (st_step p2 _ H2 LT Hb) as (H3 & _); [vm_compute; discriminate|vm_compute; discriminate|]. split; [exact H3|repeat split].
      + destruct HG as [GX _]. rewrite GX. eapply sp_bind; [apply (sp_bracketed true p2 H2)|]. intros [r q] (H3 & M3 & _). cbn [snd] in *. apply sp_ok. auto.
    - intros p3 (H3 & M3). eapply sp_bind; [apply (sp_trim p3 H3)|]. intros q AT. pose proof AT as (H4 & _). apply sp_ok.
      assert (MV : moved p q).
      { eapply moved_trans; [exact M1|]. eapply moved_trans; [exact M2|]. eapply moved_trans; [exact M3|eapply moved_trim; exact AT]. }
      destruct MV as (V1 & V2 & V3 & V4). pose proof H0 as (_ & _ & _ & _ & cl & CL & LCL).
      cbn [fst snd]. rewrite CL. split; [apply st_class; [exact H4|lia]|]. split; [cbn [set_class last]; congruence|]. split; [reflexivity|]. split; [cbn [set_class clast]; congruence|cbn [set_class isnull]; congruence].
  Qed.

  Lemma names_eq : forall ms mc, Forall2 msim ms mc -> map m_name ms = map m_name mc /\ map (fun _ => no_loc) ms = map (fun _ : member => no_loc) mc.
  Proof. induction 1 as [|m c ms mc (E1 & _) F [IH1 IH2]]; cbn; [auto|]. now rewrite E1, IH1, IH2. Qed.

  Lemma sp_class : forall g exact ms mc p, covered_c g -> Forall2 msim ms mc -> st p ->
    simP (fun vq => st (snd vq) /\ moved p (snd vq)) (parse_json_class g exact ms B p) (parse_json_class_c cp g exact mc D p).
  Proof.
    intros g exact ms mc p HG F H. unfold parse_json_class, parse_json_class_c. eapply sp_bind; [apply (sp_trim p H)|]. intros p1 AT. pose proof AT as (H1 & _).
    apply sp_is_at; [exact H1|vm_compute; discriminate|vm_compute; discriminate|vm_compute; discriminate|]. intros r HR. apply sp_ensure. intros ->. destruct (HR eq_refl) as [LT Hb]. cbv zeta.
    destruct (st_step p1 _ H1 LT Hb) as (H2 & _); [vm_compute; discriminate|vm_compute; discriminate|]. pose proof (st_le _ H1) as L1.
    assert (H3 : st (remove_prefix (set_class p1 (Some (first p1)) (Some (last p1))) 1)).
    { change (remove_prefix (set_class p1 (Some (first p1)) (Some (last p1))) 1) with (set_class (remove_prefix p1 1) (Some (first p1)) (Some (last p1))). apply st_class; [exact H2|]. unfold remove_prefix. cbn [last set_first]. lia. }
    eapply sp_bind; [apply (sp_trim _ H3)|]. intros p4 AT4. pose proof AT4 as (H4 & _). destruct (names_eq ms mc F) as [E1 E2]. rewrite <- E1, <- E2.
    eapply sp_bind; [apply (sp_members g exact (map m_name ms) ms mc HG F 0%nat p4 _ H4)|].
    { intros j _. clear - T. revert j. induction ms as [|m ms IH]; intros [|j]; cbn; try apply loc_none. apply IH. }
    intros [vs p5] (H5 & M5). cbn [snd] in *. pose proof (moved_trim _ _ AT4) as M4. destruct (moved_trans _ _ _ M4 M5) as (V1 & V2 & V3 & V4). cbn [remove_prefix set_first set_class last isnull] in V1, V4.
    eapply sp_bind; [apply (sp_cleanup g exact p1 p5 HG H1 H5 V1 V4)|]. intros q (H6 & M6). apply sp_ok. cbn [snd]. split; [exact H6|]. eapply moved_trans; [eapply moved_trim; exact AT|exact M6].
  Qed.

  Lemma here_class : forall g exact ms mc, covered_c g -> Forall2 msim ms mc -> here (parse_value_class g exact ms false) (parse_value_class_c cp g exact mc false).
  Proof.
    intros g exact ms mc HG F p H. unfold parse_value_class, parse_value_class_c. apply sp_ensure. intros _. eapply sp_bind; [apply (sp_class g exact ms mc p HG F H)|].
    intros [v q] (H1 & M1). cbn [snd] in *. eapply sp_bind; [apply (sp_trim q H1)|]. intros q2 AT. pose proof AT as (H2 & _). apply sp_ok. cbn [snd]. split; [exact H2|].
    eapply moved_trans; [exact M1|eapply moved_trim; exact AT].
  Qed.

  (** A value in brackets at a range: where the text is a scalar's, the start is missing. *)
  Lemma there_struct : forall P Pc, here P Pc ->
    (forall r b a, isnull r = false -> (first r < last r <= length B)%nat -> nth_error B (first r) = Some b -> is_space b = false -> b <> 91 -> b <> 123 -> P B r <> Ok a) -> there P Pc.
  Proof.
    intros P Pc HP HN. apply there_cases.
    - intros r b N Q L A Hb S1 S2 S3 S4 a E. exfalso. eapply HN; eauto.
    - intros r b HS Q LT Hb HB. eapply sp_weaken; [apply (HP r HS)|]. auto.
  Qed.

  Lemma trim_none : forall r b, (first r < last r)%nat -> nth_error B (first r) = Some b -> is_space b = false -> trim_left_checked B r = Ok r.
  Proof.
    intros r b L Hb NS. unfold trim_left_checked. destruct (last r - first r)%nat eqn:E; [lia|]. cbn [trim_loop]. replace (first r <? last r)%nat with true by lia.
    rewrite (rd_some _ _ _ Hb). cbn [bind]. rewrite NS. cbn [bind]. destruct r; reflexivity.
  Qed.

  Lemma not_at : forall r b c, (first r < last r)%nat -> nth_error B (first r) = Some b -> b <> c -> is_at B r c = Ok false.
  Proof.
    intros r b c L Hb NE. unfold is_at, has_more, front. replace (first r <? last r)%nat with true by lia. rewrite (rd_some _ _ _ Hb). cbn [bind]. f_equal. now apply N.eqb_neq.
  Qed.

  Lemma there_class : forall g exact ms mc, covered_c g -> Forall2 msim ms mc -> there (parse_value_class g exact ms true) (parse_value_class_c cp g exact mc true).
  Proof.
    intros g exact ms mc HG F. apply there_struct.
    - intros p H. unfold parse_value_class, parse_value_class_c. apply sp_ensure. intros _. eapply sp_bind; [apply (sp_class g exact ms mc p HG F H)|]. intros [v q] X. apply sp_ok. exact X.
    - intros r b a N L Hb NS N1 N2 E. unfold parse_value_class, has_more in E. replace (first r <? last r)%nat with true in E by lia. cbn [ensure bind] in E. unfold parse_json_class in E.
      rewrite (trim_none r b) in E by (auto; lia). cbn [bind] in E. rewrite (not_at r b c_lbrace) in E by (auto; lia). discriminate.
  Qed.
End Two.
