(** Arrays, maps, tuples and variants on the document with comments and on the one with spaces in
    their place. *)
From Coq Require Import List NArith ZArith Bool Lia Arith ZifyBool ZifyNat ZifyN.
From Verif Require Import Base Mem Loop PolicyModel IntModel StrScanModel SkipModel HashModel SpecNum SpecText SpecJson SpecC
  IntProofs IntValueProofs StrScanProofs StrScanProofs2 SkipProofs SkipSafe GapProofs PropertiesStr PropertiesSkip ClassProofs
  StrDecodeModel StrDecodeProofs StrDecodeSafe ValueModel ZInt CModel CLex CTrim CState CSkip CBracket CScalar CScalar2 CClass.
Import ListNotations.
Local Open Scope N_scope.
Set Default Proof Using "All".

Section Two.
  Context (cp : pol) (D B : list N).
  Hypothesis T : two cp D B.

  Local Notation step := (step cp D B).
  Local Notation reach := (reach cp D B).
  Local Notation repeat_at := (repeat_at cp D B T).
  Local Notation comment_head := (comment_head cp D B T).
  Local Notation comment_len := (comment_len cp D B T).
  Local Notation reach_le := (reach_le cp D B T).
  Local Notation reach_trans := (reach_trans cp D B T).
  Local Notation reach_one := (reach_one cp D B T).
  Local Notation step_lt := (step_lt cp D B T).
  Local Notation step_byte := (step_byte cp D B T).
  Local Notation step_quote := (step_quote cp D B T).
  Local Notation reach_prev := (reach_prev cp D B T).
  Local Notation step_same := (step_same cp D B T).
  Local Notation same := (same cp).
  Local Notation same_eqb := (same_eqb cp D B T).
  Local Notation same_digit := (same_digit cp D B T).
  Local Notation step_prev := (step_prev cp D B T).
  Local Notation prev := (prev D B).
  Local Notation plainly := (plainly cp D B).
  Local Notation spaces := (spaces B).
  Local Notation step_plainly := (step_plainly cp D B T).
  Local Notation opening_spec := (opening_spec cp D B T).
  Local Notation LEN := (LEN cp D B T).
  Local Notation HBD := (HBD cp D B T).
  Local Notation HBBt := (HBBt cp D B T).
  Local Notation NCPt := (NCPt cp D B T).
  Local Notation H32 := (H32 cp D B T).
  Local Notation both := (both cp D B).
  Local Notation both_at := (both_at cp D B T).
  Local Notation same_pd := (same_pd cp D B T).
  Local Notation fin := (fin cp D B).
  Local Notation st := (st cp D B).
  Local Notation st_le := (st_le cp D B T).
  Local Notation st_wf := (st_wf cp D B T).
  Local Notation st_moved := (st_moved cp D B T).
  Local Notation st_both := (st_both cp D B T).
  Local Notation sp_front := (sp_front cp D B T).
  Local Notation sp_is_at := (sp_is_at cp D B T).
  Local Notation after_trim := (after_trim cp D B).
  Local Notation sp_trim := (sp_trim cp D B T).
  Local Notation st_step := (st_step cp D B T).
  Local Notation run_bytes := (run_bytes cp D B T).
  Local Notation st_bytes := (st_bytes cp D B T).
  Local Notation ended_plainly := (ended_plainly cp D B T).
  Local Notation sp_starts := (sp_starts cp D B T).
  Local Notation sp_after := (sp_after cp D B T).

  Local Notation agree := (agree D B).
  Local Notation rng := (rng cp D B).
  Local Notation skipped := (skipped cp D B).
  Local Notation sp_number := (sp_number cp D B T).
  Local Notation sp_bool := (sp_bool cp D B T).
  Local Notation sp_null := (sp_null cp D B T).
  Local Notation sp_string := (sp_string cp D B T).
  Local Notation st_quote := (st_quote cp D B T).
  Local Notation moved_trim := (moved_trim cp D B T).
  Local Notation instr := (instr D B).
  Local Notation sp_string_in := (sp_string_in cp D B T).
  Local Notation digits_c := (digits_c cp D B T).
  Local Notation sp_bracketed := (sp_bracketed cp D B T).
  Local Notation sp_skip_value := (sp_skip_value cp D B T).
  Local Notation sp_skip_literal := (sp_skip_literal cp D B T).
  Local Notation known_string := (known_string cp D B T).
  Local Notation here_string := (here_string cp D B T).
  Local Notation view_same := (view_same cp D B T).
  Local Notation rd_same := (rd_same cp D B T).
  Local Notation sub_agree := (sub_agree cp D B T).
  Local Notation agree_sub := (agree_sub cp D B T).
  Local Notation instr_agree := (instr_agree cp D B T).
  Local Notation notq := (notq B).
  Local Notation loc := (loc cp D B).
  Local Notation here := (here cp D B).
  Local Notation there := (there cp D B).
  Local Notation there_cases := (there_cases cp D B T).
  Local Notation sp_name := (sp_name cp D B T).
  Local Notation sp_end_of_name := (sp_end_of_name cp D B T).
  Local Notation str_quoted := (str_quoted cp D B T).
  Local Notation skip_run := (skip_run cp D B T).
  Local Notation skipu_run := (skipu_run cp D B T).
  Local Notation trimu_run := (trimu_run cp D B T).
  Local Notation psim := (psim cp D B).
  Local Notation msim := (msim cp D B).
  Local Notation loc_none := (loc_none cp D B T).
  Local Notation sp_next := (sp_next cp D B T).
  Local Notation spaces_ex := (spaces_ex cp D B T).
  Local Notation unchecked_here := (unchecked_here cp D B T).
  Local Notation sp_members := (sp_members cp D B T).
  Local Notation sp_class := (sp_class cp D B T).
  Local Notation here_class := (here_class cp D B T).
  Local Notation there_class := (there_class cp D B T).
  Local Notation there_struct := (there_struct cp D B T).
  Local Notation trim_none := (trim_none cp D B T).
  Local Notation not_at := (not_at cp D B T).
  Local Notation st_class := (st_class cp D B T).
  Local Notation here_unsigned := (here_unsigned cp D B T).
  Local Notation there_unsigned := (there_unsigned cp D B T).
  Local Notation here_signed := (here_signed cp D B T).
  Local Notation there_signed := (there_signed cp D B T).
  Local Notation here_bool := (here_bool cp D B T).
  Local Notation there_bool := (there_bool cp D B T).
  Local Notation here_null := (here_null cp D B T).
  Local Notation here_custom := (here_custom cp D B T).
  Local Notation there_custom := (there_custom cp D B T).
  Local Notation notq_trim := (notq_trim cp D B T).

  Ltac plainb := first [exact T|vm_compute; discriminate].

  (** ** Arrays *)

  Lemma unchecked_spaces : forall f i e, trim_loop_unchecked f B i = Ok e ->
    (i <= e)%nat /\ (forall k, (i <= k < e)%nat -> exists b, nth_error B k = Some b /\ is_space b = true) /\ exists b, nth_error B e = Some b /\ is_space b = false.
  Proof.
    induction f as [|f IH]; intros i e E; [discriminate|]. cbn [trim_loop_unchecked] in E. destruct (rd B i) as [b| | |] eqn:Eb; cbn [bind] in E; try discriminate. apply rd_ok_nth in Eb.
    destruct (is_space b) eqn:ES.
    - destruct (IH _ _ E) as (L & K & X). split; [lia|]. split; [|exact X]. intros k KK. destruct (Nat.eq_dec k i) as [->|NE]; [eauto|]. apply K. lia.
    - injection E as <-. split; [lia|]. split; [intros k KK; lia|eauto].
  Qed.

  Lemma sp_open : forall p q, st p -> (first p < last p)%nat -> nth_error B (first p) = Some 91 -> trim_left_unchecked B (remove_prefix p 1) = Ok q ->
    last q = last p /\ ((first q < last p)%nat -> trim_unchecked_c cp D (remove_prefix p 1) = Ok q /\ st q /\ moved p q) /\ ((last p <= first q)%nat -> nth_error B (first q) = Some 0).
  Proof.
    intros p q H LT Hb E. unfold trim_left_unchecked in E. destruct (trim_loop_unchecked _ _ _) as [e| | |] eqn:EL in E; cbn [bind] in E; try discriminate. injection E as <-.
    unfold remove_prefix in *. cbn [first last set_first] in *. rewrite Nat.add_1_r in *. destruct (unchecked_spaces _ _ _ EL) as (L & K & (b & Hbe & NS)). split; [reflexivity|].
    destruct (st_step p 91 H LT Hb) as (H1 & _ & x & y & R); [discriminate|discriminate|]. pose proof LEN as LD. pose proof (st_le _ H) as LP. split.
    - intros LE. assert (SP : spaces (S (first p)) e (last p)). { split; [lia|]. split; [exact K|right; eauto]. }
      destruct (trimu_run y e (last p) ltac:(lia) (S (first p)) R SP LE) as (ET & z & R1 & R2 & _).
      assert (X : trim_unchecked_c cp D (set_first p (S (first p))) = Ok (set_first (set_first p (S (first p))) e)).
      { unfold trim_unchecked_c, trim_left_cp. cbn [first set_first]. destruct (pol_cases cp D B T) as [EM|[EM|EM]]; [pose proof (min_here cp D B T _ _ _ _ _ EM R SP) as ->; rewrite EM; destruct p; reflexivity| |]; rewrite EM in *; cbn [skipu] in ET; rewrite ET; reflexivity. }
      split; [exact X|]. split; [|repeat split]. unfold remove_prefix in H1. rewrite Nat.add_1_r in H1. eapply (st_moved _ _ Opened z H1); cbn [first last set_first]; [repeat split|exact R1|eauto].
    - intros LE. pose proof H as (_ & _ & (F1 & F2 & F3) & _). destruct F3 as [F3|[F3|(k & b' & F3 & Hk & NK & N91)]].
      + exfalso. assert (nth_error B e = None) by (apply nth_error_None; lia). congruence.
      + destruct (Nat.eq_dec e (last p)) as [->|NE]; [exact F3|]. exfalso. destruct (K (last p) ltac:(lia)) as (b' & Hb' & IS). assert (b' = 0) by congruence. subst b'. discriminate.
      + exfalso. destruct (Nat.eq_dec k (first p)) as [->|NE]; [congruence|]. destruct (K k ltac:(lia)) as (b2 & Hb2 & IS). congruence.
  Qed.

  Lemma sp_end_of_array : forall p, st p -> (first p < last p)%nat -> nth_error B (first p) = Some 93 ->
    simP (fun q => st q /\ moved p q) (end_of_array B p) (end_of_array_c cp D p).
  Proof.
    intros p H LT Hb. unfold end_of_array, end_of_array_c. destruct (st_step p 93 H LT Hb) as (H1 & _); [discriminate|discriminate|].
    eapply sp_weaken; [apply (sp_trim _ H1)|]. intros q AT. pose proof AT as (H2 & _). split; [exact H2|]. eapply moved_trans; [|eapply moved_trim; exact AT]. repeat split.
  Qed.

  Definition at_s {A : Type} (p0 : ps) (s : ps * A) : Prop := st (fst s) /\ moved p0 (fst s).

  Lemma sp_array_body : forall P Pc p0, here (P false) (Pc false) -> forall s, at_s p0 s ->
    simP (fun r => match r with inl s => at_s p0 s | inr s => at_s p0 s end) (array_body P B s) (array_body_c cp Pc D s).
  Proof.
    intros P Pc p0 HP [p vs] (H & M). cbn [fst] in *. unfold array_body, array_body_c. apply sp_ensure. intros _. eapply sp_bind; [apply (HP p H)|].
    intros [v p1] (H1 & M1). cbn [snd] in *. eapply sp_bind; [apply (sp_trim p1 H1)|]. intros p2 AT. pose proof AT as (H2 & _). pose proof (moved_trim _ _ AT) as M2.
    apply (sp_bind _ _ (fun _ => True)).
    { destruct (has_more p2); [|apply sp_ok; auto]. apply sp_front; [exact H2|]. intros b d _ _ SM _ _. rewrite !(same_eqb _ _ _ SM) by plainb. apply sp_ok. auto. }
    intros ok _. apply sp_ensure. intros _. eapply sp_bind; [apply (sp_next p2 H2)|]. intros p3 (H3 & M3). apply sp_ensure. intros HM. unfold has_more in HM. apply Nat.ltb_lt in HM.
    assert (M4 : moved p0 p3). { eapply moved_trans; [exact M|]. eapply moved_trans; [exact M1|]. eapply moved_trans; [exact M2|exact M3]. }
    apply sp_front; [exact H3|]. intros b d Hb _ SM _ _. rewrite (same_eqb _ _ _ SM) by plainb. destruct (b =? c_rbrack) eqn:EB.
    - apply N.eqb_eq in EB. subst b. eapply sp_bind; [apply (sp_end_of_array p3 H3 HM Hb)|]. intros q (HQ & MQ). apply sp_ok. split; [exact HQ|eapply moved_trans; eauto].
    - apply sp_ok. split; [exact H3|exact M4].
  Qed.

  Lemma sp_elements : forall P Pc p0 p, here (P false) (Pc false) -> st p -> moved p0 p ->
    simP (fun vq : val * ps => st (snd vq) /\ moved p0 (snd vq)) ('(p, vs) <- loop (array_body P B) (S (length B)) (p, []) ;; Ok (VArr vs, p)) ('(p, vs) <- loop (array_body_c cp Pc D) (S (length D)) (p, []) ;; Ok (VArr vs, p)).
  Proof.
    intros P Pc p0 p HP H M. rewrite LEN. eapply sp_bind; [apply (sp_loop _ _ (at_s p0) (at_s p0)); [apply (sp_array_body P Pc p0 HP)|split; [exact H|exact M]]|].
    intros [q vs] (HQ & MQ). apply sp_ok. cbn [fst snd] in *. auto.
  Qed.

  Lemma here_array : forall P Pc, here (P false) (Pc false) -> here (parse_value_array P) (parse_value_array_c cp Pc).
  Proof.
    intros P Pc HP p H. unfold parse_value_array, parse_value_array_c. eapply sp_bind; [apply (sp_trim p H)|]. intros p1 AT. pose proof AT as (H1 & _). pose proof (moved_trim _ _ AT) as M1.
    apply sp_is_at; [exact H1|plainb|plainb|plainb|]. intros r HR. apply sp_ensure. intros ->. destruct (HR eq_refl) as [LT Hb]. intros a E.
    destruct (trim_left_unchecked B (remove_prefix p1 1)) as [q| | |] eqn:ET; cbn [bind] in E; try discriminate. destruct (sp_open p1 q H1 LT Hb ET) as (EL & YES & NO).
    destruct (Nat.lt_ge_cases (first q) (last p1)) as [LQ|GE].
    - destruct (YES LQ) as (EC & HQ & MQ). rewrite EC. cbn [bind]. revert a E. assert (MM : moved p q) by (eapply moved_trans; eauto).
      match goal with |- forall a, _ = Ok a -> _ => change (simP (fun vq : val * ps => st (snd vq) /\ moved p (snd vq))
        (c <- front B q ;; if c =? c_rbrack then p <- end_of_array B q ;; Ok (VArr [], p) else '(p, vs) <- loop (array_body P B) (S (length B)) (q, []) ;; Ok (VArr vs, p))
        (c <- front D q ;; if c =? c_rbrack then p <- end_of_array_c cp D q ;; Ok (VArr [], p) else '(p, vs) <- loop (array_body_c cp Pc D) (S (length D)) (q, []) ;; Ok (VArr vs, p))) end.
      apply sp_front; [exact HQ|]. intros b d Hbq _ SM _ _. rewrite (same_eqb _ _ _ SM) by plainb. destruct (b =? c_rbrack) eqn:EB.
      + apply N.eqb_eq in EB. subst b. eapply sp_bind; [apply (sp_end_of_array q HQ ltac:(lia) Hbq)|]. intros q2 (HQ2 & MQ2). apply sp_ok. cbn [snd]. split; [exact HQ2|eapply moved_trans; eauto].
      + apply (sp_elements P Pc p q HP HQ MM).
    - exfalso. specialize (NO GE). unfold front in E. rewrite (rd_some _ _ _ NO) in E. cbn [bind] in E. change (0 =? c_rbrack) with false in E. cbn [loop array_body] in E.
      unfold has_more in E. replace (first q <? last q)%nat with false in E by lia. discriminate.
  Qed.

  Lemma here_kv_array : forall P Pc, here (P false) (Pc false) -> here (parse_value_keyvalue_array P) (parse_value_keyvalue_array_c cp Pc).
  Proof.
    intros P Pc HP p H. unfold parse_value_keyvalue_array, parse_value_keyvalue_array_c.
    apply sp_is_at; [exact H|plainb|plainb|plainb|]. intros r HR. apply sp_ensure. intros ->. destruct (HR eq_refl) as [LT Hb]. cbv zeta.
    destruct (st_step p _ H LT Hb) as (H1 & _); [plainb|plainb|].
    apply sp_front; [exact H1|]. intros b d Hb1 _ SM _ _. rewrite (same_eqb _ _ _ SM) by plainb. destruct (b =? c_rbrack) eqn:EB.
    - apply N.eqb_eq in EB. subst b. unfold remove_prefix in Hb1. cbn [first set_first] in Hb1. rewrite Nat.add_1_r in Hb1.
      assert (L1 : (S (first p) < last p)%nat).
      { destruct (Nat.eq_dec (last p) (S (first p))) as [EQ|]; [|lia]. exfalso. pose proof H as (_ & _ & (F1 & _ & F3) & _). destruct F3 as [F3|[F3|(k & b' & F3 & Hk & NK & N91)]].
        - assert (nth_error B (S (first p)) = None) by (apply nth_error_None; lia). congruence.
        - rewrite EQ, Hb1 in F3. discriminate.
        - assert (k = first p) by lia. subst k. rewrite Hb in Hk. injection Hk as <-. now apply N91. }
      eapply sp_bind; [apply (sp_end_of_array _ H1)|].
      + unfold remove_prefix. cbn [first last set_first]. lia.
      + unfold remove_prefix. cbn [first set_first]. rewrite Nat.add_1_r. exact Hb1.
      + intros q2 (HQ2 & MQ2). apply sp_ok. cbn [snd]. split; [exact HQ2|]. eapply moved_trans; [|exact MQ2]. repeat split.
    - apply (sp_elements P Pc p _ HP H1). repeat split.
  Qed.

  (** ** Maps *)

  Lemma sp_close : forall p, st p -> (first p < last p)%nat -> nth_error B (first p) = Some 125 ->
    simP (fun q => st q /\ moved p q) (trim_left_checked B (remove_prefix p 1)) (trim_c cp D (remove_prefix p 1)).
  Proof.
    intros p H LT Hb. destruct (st_step p 125 H LT Hb) as (H1 & _); [discriminate|discriminate|].
    eapply sp_weaken; [apply (sp_trim _ H1)|]. intros q AT. pose proof AT as (H2 & _). split; [exact H2|]. eapply moved_trans; [|eapply moved_trim; exact AT]. repeat split.
  Qed.

  Lemma sp_map_body : forall g P Pc p0, covered_c g -> here (P false) (Pc false) -> forall s, at_s p0 s ->
    simP (fun r => match r with inl s => at_s p0 s | inr s => at_s p0 s end) (map_body g P B s) (map_body_c cp g Pc D s).
  Proof.
    intros g P Pc p0 [GX GE] HP [p vs] (H & M). cbn [fst] in *. unfold map_body, map_body_c. rewrite GX. apply sp_ensure. intros _. eapply sp_bind; [apply (here_string p H)|].
    intros [k p1] (H1 & M1). cbn [snd] in *. eapply sp_bind; [apply (sp_end_of_name p1 H1)|]. intros p2 (H2 & M2 & _).
    eapply sp_bind; [apply (HP p2 H2)|]. intros [v p3] (H3 & M3). cbn [snd] in *. eapply sp_bind; [apply (sp_next p3 H3)|]. intros p4 (H4 & M4).
    apply sp_ensure. intros HM. unfold has_more in HM. apply Nat.ltb_lt in HM.
    assert (MM : moved p0 p4). { eapply moved_trans; [exact M|]. eapply moved_trans; [exact M1|]. eapply moved_trans; [exact M2|]. eapply moved_trans; [exact M3|exact M4]. }
    apply sp_front; [exact H4|]. intros b d Hb _ SM _ _. rewrite (same_eqb _ _ _ SM) by plainb. destruct (b =? c_rbrace) eqn:EB.
    - apply N.eqb_eq in EB. subst b. eapply sp_bind; [apply (sp_close p4 H4 HM Hb)|]. intros q (HQ & MQ). apply sp_ok. split; [exact HQ|eapply moved_trans; eauto].
    - apply sp_ok. split; [exact H4|exact MM].
  Qed.

  Lemma here_map : forall g P Pc, covered_c g -> here (P false) (Pc false) -> here (parse_value_keyvalue g P) (parse_value_keyvalue_c cp g Pc).
  Proof.
    intros g P Pc HG HP p H. unfold parse_value_keyvalue, parse_value_keyvalue_c.
    apply sp_is_at; [exact H|plainb|plainb|plainb|]. intros r HR. apply sp_ensure. intros ->. destruct (HR eq_refl) as [LT Hb].
    destruct (st_step p _ H LT Hb) as (H1 & _); [plainb|plainb|].
    eapply sp_bind; [apply (sp_trim _ H1)|]. intros p1 AT. pose proof AT as (H2 & _). pose proof (moved_trim _ _ AT) as M1.
    assert (MM : moved p p1). { eapply moved_trans; [|exact M1]. repeat split. }
    apply sp_ensure. intros NE. assert (LT1 : (first p1 < last p1)%nat) by (unfold ps_empty in NE; destruct H2 as (NN & _); rewrite NN in NE; cbn [orb] in NE; lia).
    apply sp_front; [exact H2|]. intros b d Hb1 _ SM _ _. rewrite (same_eqb _ _ _ SM) by plainb. destruct (b =? c_rbrace) eqn:EB.
    - apply N.eqb_eq in EB. subst b. eapply sp_bind; [apply (sp_close p1 H2 LT1 Hb1)|]. intros q (HQ & MQ). apply sp_ok. split; [exact HQ|eapply moved_trans; eauto].
    - rewrite LEN. eapply sp_bind; [apply (sp_loop _ _ (at_s p) (at_s p)); [apply (sp_map_body g P Pc p HG HP)|split; [exact H2|exact MM]]|].
      intros [q vs] (HQ & MQ). apply sp_ok. cbn [fst snd] in *. auto.
  Qed.

  (** ** Tuples *)

  Lemma sp_tuple_elements : forall Ps Pcs, Forall2 psim Ps Pcs -> forall p, st p ->
    simP (fun vq => st (snd vq) /\ moved p (snd vq)) (parse_elements Ps B p) (parse_elements_c cp Pcs D p).
  Proof.
    induction 1 as [|P Pc Ps Pcs HP F IH]; intros p H; [apply sp_ok; split; [exact H|apply moved_refl]|]. cbn [parse_elements parse_elements_c]. apply sp_ensure. intros _.
    eapply sp_bind; [apply (proj1 HP p H)|]. intros [v p1] (H1 & M1). cbn [snd] in *. eapply sp_bind; [apply (sp_next p1 H1)|]. intros p2 (H2 & M2).
    eapply sp_bind; [apply (IH p2 H2)|]. intros [vs p3] (H3 & M3). cbn [snd] in *. apply sp_ok. cbn [snd]. split; [exact H3|]. eapply moved_trans; [exact M1|]. eapply moved_trans; eauto.
  Qed.

  (** The end of the range is not passed, which reading a tuple does not check. *)
  Definition parse_tuple_in (g : cfg) (exact : bool) (Ps : list parser) (buf : list N) (p : ps) : res (val * ps) :=
    '(v, q) <- parse_tuple g exact Ps buf p ;; if (first q <=? last q)%nat then Ok (v, q) else Err InvalidNumber.

  Lemma here_tuple : forall g exact Ps Pcs, covered_c g -> Forall2 psim Ps Pcs -> here (parse_tuple_in g exact Ps) (parse_tuple_c cp g exact Pcs).
  Proof.
    intros g exact Ps Pcs [GX GE] F p H a E. unfold parse_tuple_in in E. destruct (parse_tuple g exact Ps B p) as [[v q]| | |] eqn:ET; cbn [bind] in E; try discriminate.
    destruct (Nat.leb_spec (first q) (last q)) as [LQ|]; [|discriminate]. injection E as <-. cbn [snd].
    unfold parse_tuple in ET. unfold parse_tuple_c. rewrite GX in *.
    destruct (trim_left_checked B p) as [p1| | |] eqn:E1; cbn [bind] in ET; try discriminate. destruct (sp_trim p H p1 E1) as [D1 AT]. rewrite D1. cbn [bind]. pose proof AT as (H1 & _).
    pose proof (moved_trim _ _ AT) as M1.
    enough (X : simP (fun vq : val * ps => (first (snd vq) <= last (snd vq))%nat -> st (snd vq) /\ moved p1 (snd vq))
      (b <- is_at B p1 c_lbrack ;; _ <- ensure b InvalidArrayStart ;;
       let old := (cfirst p1, clast p1) in let p := set_class p1 (Some (first p1)) (Some (last p1)) in
       p <- move_next B (remove_prefix p 1) ;; p <- trim_left_checked B p ;; '(vs, p) <- parse_elements Ps B p ;;
       p <- (if exact then p <- trim_left_checked B p ;; c <- front B p ;; _ <- ensure (c =? c_rbrack) UnknownMember ;;
               r <- trim_left_checked B (remove_prefix p 1) ;; (if (first r <=? last r)%nat then Ok r else Err InvalidNumber)
             else '(_, p) <- skip_array CNone true ExConstexpr B p ;; Ok p) ;;
       Ok (VTuple vs, set_class p (fst old) (snd old)))
      (b <- is_at D p1 c_lbrack ;; _ <- ensure b InvalidArrayStart ;;
       let old := (cfirst p1, clast p1) in let p := set_class p1 (Some (first p1)) (Some (last p1)) in
       p <- move_next_c cp D (remove_prefix p 1) ;; p <- trim_c cp D p ;; '(vs, p) <- parse_elements_c cp Pcs D p ;;
       p <- (if exact then p <- trim_c cp D p ;; c <- front D p ;; _ <- ensure (c =? c_rbrack) UnknownMember ;;
               trim_c cp D (remove_prefix p 1)
             else '(_, p) <- skip_array (brk cp) true ExConstexpr D p ;; Ok p) ;;
       Ok (VTuple vs, set_class p (fst old) (snd old)))).
    { destruct (X (v, q)) as [X1 X2].
      - destruct (is_at B p1 c_lbrack) as [b| | |]; cbn [bind] in *; try discriminate. destruct (ensure b _); cbn [bind] in *; try discriminate. cbv zeta in *.
        destruct (move_next B _) as [p2| | |]; cbn [bind] in *; try discriminate. destruct (trim_left_checked B p2) as [p3| | |]; cbn [bind] in *; try discriminate.
        destruct (parse_elements Ps B p3) as [[vs p4]| | |]; cbn [bind] in *; try discriminate. destruct exact; [|exact ET].
        destruct (trim_left_checked B p4) as [p5| | |]; cbn [bind] in *; try discriminate. destruct (front B p5) as [c| | |]; cbn [bind] in *; try discriminate.
        destruct (ensure (c =? c_rbrack) _); cbn [bind] in *; try discriminate. destruct (trim_left_checked B (remove_prefix p5 1)) as [p6| | |]; cbn [bind] in *; try discriminate.
        injection ET as <- <-. cbn [first last set_class] in LQ. replace (first p6 <=? last p6)%nat with true by lia. reflexivity.
      - split; [exact X1|]. destruct (X2 LQ) as [X3 X4]. split; [exact X3|eapply moved_trans; eauto]. }
    apply sp_is_at; [exact H1|plainb|plainb|plainb|]. intros r HR. apply sp_ensure. intros ->. destruct (HR eq_refl) as [LT Hb]. cbv zeta.
    destruct (st_step p1 _ H1 LT Hb) as (H2 & _); [plainb|plainb|]. pose proof (st_le _ H1) as L1.
    assert (H3 : st (remove_prefix (set_class p1 (Some (first p1)) (Some (last p1))) 1)).
    { change (remove_prefix (set_class p1 (Some (first p1)) (Some (last p1))) 1) with (set_class (remove_prefix p1 1) (Some (first p1)) (Some (last p1))). apply st_class; [exact H2|]. unfold remove_prefix. cbn [last set_first]. lia. }
    eapply sp_bind; [apply (sp_next _ H3)|]. intros p4 (H4 & M4). eapply sp_bind; [apply (sp_trim p4 H4)|]. intros p5 AT5. pose proof AT5 as (H5 & _). pose proof (moved_trim _ _ AT5) as M5.
    eapply sp_bind; [apply (sp_tuple_elements Ps Pcs F p5 H5)|]. intros [vs p6] (H6 & M6). cbn [snd] in *.
    apply (sp_bind _ _ (fun q => st q /\ moved p6 q)).
    - destruct exact.
      + eapply sp_bind; [apply (sp_trim p6 H6)|]. intros p7 AT7. pose proof AT7 as (H7 & _). pose proof (moved_trim _ _ AT7) as M7.
        apply sp_front; [exact H7|]. intros b d Hb7 _ SM _ _. rewrite (same_eqb _ _ _ SM) by plainb. apply sp_ensure. intros EB. apply N.eqb_eq in EB. subst b.
        destruct (Nat.lt_ge_cases (first p7) (last p7)) as [L7|G7].
        * destruct (st_step p7 _ H7 L7 Hb7) as (H8 & _); [plainb|plainb|]. intros r Er.
          destruct (trim_left_checked B (remove_prefix p7 1)) as [r'| | |] eqn:E8; cbn [bind] in Er; try discriminate. destruct (first r' <=? last r')%nat; [|discriminate]. injection Er as <-.
          destruct (sp_trim _ H8 r' E8) as [D8 AT8]. split; [exact D8|]. pose proof AT8 as (H9 & _). split; [exact H9|].
          eapply moved_trans; [exact M7|]. eapply moved_trans; [|eapply moved_trim; exact AT8]. repeat split.
        * intros r Er. exfalso. unfold trim_left_checked, remove_prefix in Er. cbn [first last set_first] in Er.
          assert (X : trim_loop (S (last p7 - (first p7 + 1))) B (first p7 + 1) (last p7) = Ok (first p7 + 1)%nat).
          { cbn [trim_loop]. replace (first p7 + 1 <? last p7)%nat with false by lia. reflexivity. }
          rewrite X in Er. cbn [bind first last set_first] in Er. replace (first p7 + 1 <=? last p7)%nat with false in Er by lia. discriminate.
      + unfold skip_array. eapply sp_bind; [apply (sp_bracketed false p6 H6)|]. intros [r q2] (H7 & M7 & _). cbn [snd] in *. apply sp_ok. auto.
    - intros q2 (H7 & M7). apply sp_ok. cbn [fst snd]. intros _.
      destruct (moved_trans _ _ _ (moved_trans _ _ _ (moved_trans _ _ _ M4 M5) M6) M7) as (V1 & V2 & V3 & V4). cbn [remove_prefix set_first set_class last isnull] in V1, V4.
      pose proof H1 as (_ & _ & _ & _ & cl & CL & LCL). rewrite CL. split; [apply st_class; [exact H7|lia]|].
      split; [cbn [set_class last]; congruence|]. split; [reflexivity|]. split; [cbn [set_class clast]; congruence|cbn [set_class isnull]; congruence].
  Qed.

  (** ** Variants *)

  Definition asim (x y : option kind * parser) : Prop := fst x = fst y /\ psim (snd x) (snd y).

  Lemma pick_sim : forall k Ps Pcs, Forall2 asim Ps Pcs -> forall i,
    match base_map k i Ps with Some (j, P) => exists Pc, base_map k i Pcs = Some (j, Pc) /\ psim P Pc | None => base_map k i Pcs = None end.
  Proof.
    induction 1 as [|[o P] [o' Pc] Ps Pcs [E HP] F IH]; intros i; [reflexivity|]. cbn [fst snd] in *. subst o'. cbn [base_map]. destruct o as [k'|]; [|apply IH].
    destruct (kind_eqb k k'); [eauto|apply IH].
  Qed.

  Lemma here_pick : forall k Ps Pcs p, Forall2 asim Ps Pcs -> st p ->
    simP (fun vq => st (snd vq) /\ moved p (snd vq)) (parse_variant_value k Ps false B p) (parse_variant_value k Pcs false D p).
  Proof.
    intros k Ps Pcs p F H. unfold parse_variant_value. pose proof (pick_sim k Ps Pcs F 0%nat) as S. destruct (base_map k 0 Ps) as [[j P]|]; [|rewrite S; apply sp_err].
    destruct S as (Pc & -> & HP). eapply sp_bind; [apply (proj1 HP p H)|]. intros [v q] X. apply sp_ok. exact X.
  Qed.

  Lemma there_pick : forall k Ps Pcs r, Forall2 asim Ps Pcs -> loc r -> isnull r = false ->
    simP (fun _ => True) (parse_variant_value k Ps true B r) (parse_variant_value k Pcs true D r).
  Proof.
    intros k Ps Pcs r F H NN. unfold parse_variant_value. pose proof (pick_sim k Ps Pcs F 0%nat) as S. destruct (base_map k 0 Ps) as [[j P]|]; [|rewrite S; apply sp_err].
    destruct S as (Pc & -> & HP). eapply sp_bind; [apply (proj2 HP r H NN)|]. intros [v q] X. apply sp_ok. exact I.
  Qed.

  Lemma kind_same : forall A (Q : A -> Prop) b d (f1 f2 f3 f4 f5 g1 g2 g3 g4 g5 : res A), same b d -> simP Q f1 g1 -> simP Q f2 g2 -> simP Q f3 g3 -> simP Q f4 g4 -> simP Q f5 g5 ->
    simP Q (if b =? c_lbrace then f1 else if b =? c_lbrack then f2 else if (b =? c_t) || (b =? c_f) then f3 else if b =? c_quote then f4
            else if ((48 <=? b) && (b <=? 57)) || (b =? c_plus) || (b =? c_minus) then f5 else Err InvalidStartOfValue)
           (if d =? c_lbrace then g1 else if d =? c_lbrack then g2 else if (d =? c_t) || (d =? c_f) then g3 else if d =? c_quote then g4
            else if ((48 <=? d) && (d <=? 57)) || (d =? c_plus) || (d =? c_minus) then g5 else Err InvalidStartOfValue).
  Proof.
    intros A Q b d f1 f2 f3 f4 f5 g1 g2 g3 g4 g5 SM S1 S2 S3 S4 S5. destruct SM as [->|[-> _]]; [|intros a E; discriminate].
    destruct (b =? c_lbrace); [auto|]. destruct (b =? c_lbrack); [auto|]. destruct ((b =? c_t) || (b =? c_f)); [auto|]. destruct (b =? c_quote); [auto|].
    destruct (((48 <=? b) && (b <=? 57)) || (b =? c_plus) || (b =? c_minus)); [auto|apply sp_err].
  Qed.

  Lemma psim_variant : forall Ps Pcs, Forall2 asim Ps Pcs -> psim (parse_value_variant Ps) (parse_value_variant Pcs).
  Proof.
    intros Ps Pcs F. split.
    - intros p H. unfold parse_value_variant. cbn [bind]. apply sp_front; [exact H|]. intros b d _ _ SM _ _. apply kind_same; [exact SM| | | | |]; now apply here_pick.
    - intros r HL NN. unfold parse_value_variant. pose proof HL as HL0.
      assert (UN : notq (first r) -> prev (first r) -> simP (fun _ => True)
        (c <- front B r ;; if c =? c_lbrace then parse_variant_value KClass Ps true B r else if c =? c_lbrack then parse_variant_value KArray Ps true B r
          else if (c =? c_t) || (c =? c_f) then parse_variant_value KBool Ps true B r else if c =? c_quote then parse_variant_value KString Ps true B r
          else if ((48 <=? c) && (c <=? 57)) || (c =? c_plus) || (c =? c_minus) then parse_variant_value KNumber Ps true B r else Err InvalidStartOfValue)
        (c <- front D r ;; if c =? c_lbrace then parse_variant_value KClass Pcs true D r else if c =? c_lbrack then parse_variant_value KArray Pcs true D r
          else if (c =? c_t) || (c =? c_f) then parse_variant_value KBool Pcs true D r else if c =? c_quote then parse_variant_value KString Pcs true D r
          else if ((48 <=? c) && (c <=? 57)) || (c =? c_plus) || (c =? c_minus) then parse_variant_value KNumber Pcs true D r else Err InvalidStartOfValue) ->
        simP (fun _ => True) (parse_value_variant Ps true B r) (parse_value_variant Pcs true D r)).
      { intros (k & b & E & Hb & NB) PV X. unfold parse_value_variant. rewrite E in *. rewrite (rd_some _ _ _ Hb). cbn [bind].
        assert (LK : (k < length D)%nat) by (rewrite LEN; apply nth_error_Some; congruence).
        destruct (nth_error D k) as [d|] eqn:Hd; [|apply nth_error_None in Hd; lia]. rewrite (rd_some _ _ _ Hd). cbn [bind].
        destruct (PV b d Hb Hd) as [_ PV2]. replace (b =? c_quote) with false by (symmetry; now apply N.eqb_neq).
        replace (d =? c_quote) with false; [exact X|]. symmetry. apply N.eqb_neq. intros ED. apply NB. now apply PV2. }
      destruct HL as [X _|X|b N Q PV L A Hb SP N1 N2 N3|b Q HS LT Hb HB]; [congruence| | |].
      + destruct X as (i & s & _ & F1 & _ & _ & [D0 _] & [B0 _] & _). rewrite F1. rewrite (rd_some _ _ _ B0), (rd_some _ _ _ D0). cbn [bind]. change (34 =? c_quote) with true. cbv iota. now apply there_pick.
      + apply UN; [exact Q|exact PV|]. unfold front. rewrite (rd_same (first r) (last r) (first r)) by (auto; lia). rewrite (rd_some _ _ _ Hb). cbn [bind].
        apply kind_same; [now left| | | | |]; now apply there_pick.
      + apply UN; [exact Q|apply HS|]. apply sp_front; [exact HS|]. intros b' d _ _ SM _ _. apply kind_same; [exact SM| | | | |]; now apply there_pick.
  Qed.

  Lemma here_intrusive : forall P Pc switch Ps Pcs, here (P false) (Pc false) -> Forall2 psim Ps Pcs ->
    here (parse_value_variant_intrusive P switch Ps) (parse_value_variant_intrusive Pc switch Pcs).
  Proof.
    intros P Pc switch Ps Pcs HP F p H. unfold parse_value_variant_intrusive. eapply sp_bind; [apply (HP p H)|]. intros [v q] _.
    destruct v as [| | | | | |vs| | |]; try (intros a E; discriminate). destruct vs as [|y [|]]; try (intros a E; discriminate). unfold parse_visit.
    assert (X : match nth_error Ps (switch y) with Some P => exists Pc, nth_error Pcs (switch y) = Some Pc /\ psim P Pc | None => nth_error Pcs (switch y) = None end).
    { generalize (switch y). clear - F T. induction F as [|P Pc Ps Pcs HP F IH]; intros [|i]; cbn [nth_error]; auto; [eauto|apply IH]. }
    destruct (nth_error Ps (switch y)) as [Q|]; [|rewrite X; apply sp_err]. destruct X as (Qc & -> & HQ).
    eapply sp_bind; [apply (proj1 HQ p H)|]. intros [v q2] Y. apply sp_ok. exact Y.
  Qed.

  (** ** In brackets *)

  Lemma there_array : forall P Pc, here (P false) (Pc false) -> there (parse_value_array P) (parse_value_array_c cp Pc).
  Proof.
    intros P Pc HP. apply there_struct; [now apply here_array|]. intros r b a N L Hb NS N1 N2 E. unfold parse_value_array in E. rewrite (trim_none r b) in E by (auto; lia). cbn [bind] in E.
    rewrite (not_at r b c_lbrack) in E by (auto; lia). discriminate.
  Qed.

  Lemma there_kv_array : forall P Pc, here (P false) (Pc false) -> there (parse_value_keyvalue_array P) (parse_value_keyvalue_array_c cp Pc).
  Proof.
    intros P Pc HP. apply there_struct; [now apply here_kv_array|]. intros r b a N L Hb NS N1 N2 E. unfold parse_value_keyvalue_array in E.
    rewrite (not_at r b c_lbrack) in E by (auto; lia). discriminate.
  Qed.

  Lemma there_map : forall g P Pc, covered_c g -> here (P false) (Pc false) -> there (parse_value_keyvalue g P) (parse_value_keyvalue_c cp g Pc).
  Proof.
    intros g P Pc HG HP. apply there_struct; [now apply here_map|]. intros r b a N L Hb NS N1 N2 E. unfold parse_value_keyvalue in E.
    rewrite (not_at r b c_lbrace) in E by (auto; lia). discriminate.
  Qed.

  Lemma there_tuple : forall g exact Ps Pcs, covered_c g -> Forall2 psim Ps Pcs -> there (parse_tuple_in g exact Ps) (parse_tuple_c cp g exact Pcs).
  Proof.
    intros g exact Ps Pcs HG HP. apply there_struct; [now apply here_tuple|]. intros r b a N L Hb NS N1 N2 E. unfold parse_tuple_in, parse_tuple in E. rewrite (trim_none r b) in E by (auto; lia). cbn [bind] in E.
    rewrite (not_at r b c_lbrack) in E by (auto; lia). discriminate.
  Qed.

  Lemma there_intrusive : forall g exact ms mc switch Ps Pcs, covered_c g -> Forall2 msim ms mc -> Forall2 psim Ps Pcs ->
    there (parse_value_variant_intrusive (parse_value_class g exact ms) switch Ps) (parse_value_variant_intrusive (parse_value_class_c cp g exact mc) switch Pcs).
  Proof.
    intros g exact ms mc switch Ps Pcs HG HM HP. apply there_struct; [apply here_intrusive; [now apply here_class|exact HP]|]. intros r b a N L Hb NS N1 N2 E. unfold parse_value_variant_intrusive, parse_value_class in E.
    unfold has_more in E. replace (first r <? last r)%nat with true in E by lia. cbn [ensure bind] in E. unfold parse_json_class in E.
    rewrite (trim_none r b) in E by (auto; lia). cbn [bind] in E. rewrite (not_at r b c_lbrace) in E by (auto; lia). discriminate.
  Qed.
End Two.
