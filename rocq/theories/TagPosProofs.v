(** Variants whose tag is another element of the array: the tag is found, and the
    elements are read (as in OrdProofs, for parsers that look at the array they are in). *)
From Coq Require Import List NArith ZArith Bool Lia Arith ZifyBool ZifyNat ZifyN.
From Verif Require Import Base Mem Loop PolicyModel IntModel StrScanModel SkipModel SpecNum SpecText SpecJson SpecUnicode
  IntProofs IntSerProofs IntValueProofs StrScanProofs StrScanProofs2 StrScanProofs3 SkipProofs BracketProofs SkipSafe
  PropertiesStr PropertiesSkip StrDecodeModel StrDecodeProofs HashModel PropertiesHash ValueModel SpecTyped
  NameProofs ClassProofs ClassProofs2 ScalarProofs ArrayProofs VariantProofs TypedProofs ZReads SerModel LaxProofs OrdModel SpecOrd OrdProofs OrdRead PosModel PosProofs TagPosModel.
Import ListNotations.
Local Open Scope N_scope.

Section Cfg.
  Context (g : cfg).
  Hypothesis HX : c_ex g = ExConstexpr.
  Hypothesis HE : c_excl g = false.

  Section At.
  (** What is known of the states: kept while the parser moves on. *)
  Context (C : list N -> ps -> Prop).
  Hypothesis HC : forall buf p q, moved p q -> C buf p -> C buf q.

  Definition reads_at (P : parser) (v : jv) (x : val) : Prop :=
    forall buf p t j, wf buf p -> C buf p -> N.of_nat (length buf) < 2^32 -> jtext str_body v t -> sub_at buf (first p) t ->
      followed true buf (first p + length t) j (last p) -> (first p + length t < last p)%nat ->
      exists q, P false buf p = Ok (x, q) /\ moved p q /\ (first p + length t <= first q <= j)%nat.

  Definition picks_at (m : omember) (o : option jv) (x : val) : Prop :=
    match o with
    | Some v => reads_at (om_parse m) v x
    | None => om_nullable m = true /\ forall buf, exists q, om_parse m true buf no_loc = Ok (x, q)
    end.
  Fixpoint picks_all_at (es : list jv) (ms : list omember) (next : nat) (xs : list val) : Prop :=
    match ms, xs with
    | [], [] => True
    | m :: ms', x :: xs' => (next <= place (om_index m) next)%nat /\ picks_at m (nth_error es (place (om_index m) next)) x /\
        picks_all_at es ms' (S (place (om_index m) next)) xs'
    | _, _ => False
    end.

  Lemma member_ok_at : forall buf e l, N.of_nat (length buf) < 2^32 -> (e < l)%nat ->
    forall es m p idx next x, wf buf p -> C buf p -> last p = l -> between buf (first p) e (skipn next es) -> (first p <= e)%nat ->
      (idx <= next)%nat -> (idx = next \/ skipn next es = []) ->
      (next <= place (om_index m) next)%nat -> picks_at m (nth_error es (place (om_index m) next)) x ->
      exists q idx', parse_ordered_class_member g m idx buf p = Ok (x, q, idx') /\ moved p q /\ (first q <= e)%nat /\
        (rem_e buf (first q) e (skipn (S (place (om_index m) next)) es) \/ first q = e /\ skipn (S (place (om_index m) next)) es = [] /\ nth_error buf e = Some 93) /\
        (idx' <= S (place (om_index m) next))%nat /\ (idx' = S (place (om_index m) next) \/ (length es <= place (om_index m) next)%nat).
  Proof.
    intros buf e l H32 HL es m p idx next x HW HCl HLp HBt FE LI OI PL PK. pose proof HW as (HB & HN & HLp' & cl & HC' & HCL).
    unfold parse_ordered_class_member. destruct (between_next g buf p e _ HB HBt) as (i & EM & Li & AI); [lia|]. rewrite EM. cbn [bind].
    set (p1 := set_first p i). assert (M1 : moved p p1) by repeat split.
    assert (W1 : wf buf p1) by (eapply moved_wf; [exact M1|exact HW|]; unfold p1; cbn [first last set_first]; lia).
    set (k := place (om_index m) next) in *.
    (* the state at the place *)
    assert (X : exists q idx1, (match om_index m with
        | Some k => maybe_skip_members g buf p1 idx k
        | None => _ <- ensure (has_more p1) UnexpectedEndOfData ;; Ok (p1, idx) end) = Ok (q, idx1) /\ moved p1 q /\
        at_elem buf (first q) e (skipn k es) /\ (idx1 <= k)%nat /\ (idx1 = k \/ skipn k es = [])).
    { destruct (om_index m) as [d|] eqn:EI; cbn [place] in k; subst k.
      - unfold maybe_skip_members. replace (idx <=? d)%nat with true by lia. cbn [ensure bind].
        destruct (skip_members_ok g HX HE buf e l H32 HL (d - idx) (skipn next es) p1 W1) as (q & EQ & MQ & AQ).
        { unfold p1. cbn [last set_first]. exact HLp. } { exact AI. }
        rewrite EQ. cbn [bind]. exists q. eexists. split; [reflexivity|]. split; [exact MQ|].
        rewrite (skipn_twice g) in AQ. destruct OI as [->|Z].
        + replace (d - next + next)%nat with d in AQ by lia. split; [exact AQ|]. split; [lia|].
          rewrite skipn_length. destruct (Nat.le_gt_cases (length es) d) as [G|G]; [right; now apply skipn_all2|left; lia].
        + assert (LZ : (length es <= next)%nat). { apply (f_equal (@length jv)) in Z. rewrite skipn_length in Z. cbn [length] in Z. lia. }
          rewrite skipn_all2 in AQ by lia. rewrite (skipn_all2 es (n := d)) by lia. split; [exact AQ|]. split; [lia|now right].
      - replace (has_more p1) with true by (symmetry; apply Nat.ltb_lt; unfold p1; cbn [first last set_first]; lia). cbn [ensure bind].
        exists p1, idx. split; [reflexivity|]. split; [apply moved_refl|]. split; [exact AI|]. split; [exact LI|exact OI]. }
    destruct X as (q & idx1 & -> & MQ & AQ & LK & OK). cbn [bind].
    destruct (at_elem_byte _ _ _ _ AQ) as (b & Hb & Eb). pose proof (at_elem_end _ _ _ _ AQ) as [LE BE].
    unfold front. rewrite (rd_some _ _ _ Hb). cbn [bind].
    assert (MPQ : moved p q) by exact (moved_trans _ _ _ M1 MQ). assert (LQl : last q = last p) by apply MPQ.
    assert (LZ : skipn k es = [] -> (length es <= k)%nat).
    { intros Z. apply (f_equal (@length jv)) in Z. rewrite skipn_length in Z. cbn [length] in Z. lia. }
    rewrite nth_skipn in PK. rewrite skipn_one. destruct (skipn k es) as [|v rest]; cbn [hd_error picks_at] in PK.
    - subst b. change (93 =? c_rbrack) with true. cbn iota. destruct PK as [NU PK]. rewrite NU. destruct (PK buf) as (q' & ->). cbn [bind].
      destruct AQ as [AQ _]. exists q, (S idx1). split; [reflexivity|]. split; [exact MPQ|]. split; [exact LE|].
      split; [right; auto|]. split; [lia|right; auto].
    - replace (b =? c_rbrack) with false by (unfold starter, c_rbrack in *; lia).
      destruct (at_elem_cons _ _ _ _ _ AQ) as (t & Ht & HS & HRem).
      destruct (rem_e_followed _ _ _ _ (last q) HRem ltac:(lia)) as (j1 & FJ & JE & JB & RJ). pose proof (followed_le _ _ _ _ _ FJ) as FL.
      assert (WQ : wf buf q) by (eapply moved_wf; [exact MPQ|exact HW|]; lia).
      destruct (PK buf q t j1 WQ (HC _ _ _ MPQ HCl) H32 Ht HS FJ) as (q2 & E2 & M2 & L2); [lia|]. rewrite E2. cbn [bind].
      exists q2, (S idx1). split; [reflexivity|]. split; [eapply moved_trans; eauto|]. split; [lia|].
      split; [left; apply RJ; lia|]. split; [lia|]. destruct OK as [->|]; [now left|discriminate].
  Qed.

  Lemma members_at : forall buf e l, N.of_nat (length buf) < 2^32 -> (e < l)%nat ->
    forall es ms2 ms p idx next xs, wf buf p -> C buf p -> last p = l -> between buf (first p) e (skipn next es) -> (first p <= e)%nat ->
      (idx <= next)%nat -> (idx = next \/ (length es < next)%nat) -> picks_all_at es ms next xs ->
      exists q idx', parse_ordered_members g (ms ++ ms2) idx buf p =
          ('(vs, r) <- parse_ordered_members g ms2 idx' buf q ;; Ok (xs ++ vs, r)) /\
        moved p q /\ (first q <= e)%nat /\ between buf (first q) e (skipn (past (map om_index ms) next) es) /\
        (ms = [] -> q = p) /\ (ms <> [] -> done buf (first q) e (skipn (past (map om_index ms) next) es)) /\
        (idx' <= past (map om_index ms) next)%nat /\ (idx' = past (map om_index ms) next \/ (length es < past (map om_index ms) next)%nat).
  Proof.
    intros buf e l H32 HL es ms2. induction ms as [|m ms IH]; intros p idx next xs HW HCl HLp HBt FE LI OI HP; destruct xs as [|x xs]; try contradiction.
    - exists p, idx. cbn [map past app]. split; [destruct (parse_ordered_members g ms2 idx buf p) as [[? ?]| | |]; reflexivity|].
      split; [apply moved_refl|]. split; [exact FE|]. split; [exact HBt|]. split; [reflexivity|]. split; [congruence|]. split; [exact LI|exact OI].
    - destruct HP as (PL & PK & HP). cbn [app parse_ordered_members map past].
      destruct (member_ok_at buf e l H32 HL es m p idx next x HW HCl HLp HBt FE LI) as (q & idx' & EQ & MQ & FQ & DQ & LQ & OQ); auto.
      { destruct OI as [->|Z]; [now left|right; apply skipn_all2; lia]. }
      rewrite EQ. cbn [bind]. fold (done buf (first q) e (skipn (S (place (om_index m) next)) es)) in DQ.
      assert (LQl : last q = last p) by apply MQ.
      destruct (IH q idx' (S (place (om_index m) next)) xs) as (q2 & i2 & E2 & M2 & F2 & B2 & D1 & D2 & L2 & O2); auto.
      + eapply moved_wf; [exact MQ|exact HW|]. lia.
      + exact (HC _ _ _ MQ HCl).
      + lia.
      + now apply done_between.
      + destruct OQ as [->|Z]; [now left|right; lia].
      + exists q2, i2. rewrite E2. split; [destruct (parse_ordered_members g ms2 i2 buf q2) as [[? ?]| | |]; reflexivity|].
        split; [exact (moved_trans _ _ _ MQ M2)|]. split; [exact F2|]. split; [exact B2|]. split; [discriminate|]. split; [|split; [exact L2|exact O2]].
        intros _. destruct ms as [|m2 ms]; [|apply D2; discriminate]. rewrite D1 by reflexivity. exact DQ.
  Qed.

  Lemma members_all_at : forall buf e l, N.of_nat (length buf) < 2^32 -> (e < l)%nat ->
    forall es ms p xs, wf buf p -> C buf p -> last p = l -> between buf (first p) e es -> (first p <= e)%nat -> picks_all_at es ms 0 xs ->
      exists q, parse_ordered_members g ms 0 buf p = Ok (xs, q) /\ moved p q /\ (first q <= e)%nat /\
        (ms <> [] -> done buf (first q) e (skipn (past (map om_index ms) 0) es)).
  Proof.
    intros buf e l H32 HL es ms p xs HW HCl HLp HBt FE HP.
    destruct (members_at buf e l H32 HL es [] ms p 0 0 xs HW HCl HLp HBt FE) as (q & idx' & EQ & MQ & FQ & _ & _ & DQ & _); auto.
    rewrite app_nil_r in EQ. cbn [parse_ordered_members bind] in EQ. rewrite app_nil_r in EQ. exists q. auto.
  Qed.

  (** A tuple gets its elements; it ends where it should unless an array follows. *)
  Lemma tuple_at : forall exact ms es xs, Forall none_ok ms -> ms <> [] -> picks_all_at es ms 0 xs ->
    (exact = true -> (length es <= past (map om_index ms) 0)%nat) ->
    forall buf p t j, wf buf p -> (forall p1, last p1 = last p -> cfirst p1 = Some (first p) -> clast p1 = Some (last p) -> C buf p1) ->
      N.of_nat (length buf) < 2^32 -> jtext str_body (JArr es) t -> sub_at buf (first p) t ->
      ws_run buf (first p + length t) j (last p) ->
      exists q, parse_tuple_pos g exact ms buf p = Ok (VTuple xs, q) /\
        ((exact = true \/ forall v, nth_error es (past (map om_index ms) 0) = Some v -> no_array v) ->
         moved p q /\ (first p + length t <= first q <= j)%nat).
  Proof.
    intros exact ms es xs NO NE HP HEx buf p t j HW HCs H32 HT HS HF. pose proof (ws_run_le _ _ _ _ HF) as FL.
    pose proof HW as (HB & HN & HLp & cl & HCl0 & HCL).
    destruct (array_start buf (first p) _ t HT HS) as (w & c & S0 & W & S1 & C1 & C2 & LW & HA).
    unfold parse_tuple_pos. rewrite (trim_here buf p 91) by (auto; lia). cbn [bind].
    rewrite is_at_yes by (auto; lia). cbn [ensure bind].
    set (p0 := remove_prefix (set_class p (Some (first p)) (Some (last p))) 1).
    assert (F0 : first p0 = S (first p)) by (unfold p0, remove_prefix; cbn [first set_first set_class]; lia).
    assert (L0 : last p0 = last p) by reflexivity.
    assert (EM : move_next buf p0 = Ok (set_first p0 (S (first p) + length w))).
    { unfold move_next, move_next_member_or_end, move_next_member_or_end_checked.
      rewrite (trim_to buf p0 w c); auto; [|rewrite F0; exact S1|rewrite F0, L0; lia]. cbn [bind]. rewrite F0.
      apply sub_at_app in S1 as [_ [S1 _]].
      rewrite (is_at_no buf _ c) by (cbn [first set_first]; auto). reflexivity. }
    rewrite EM. cbn [bind]. set (p1 := set_first p0 (S (first p) + length w)) in *.
    apply sub_at_app in S1 as [_ [S1 _]].
    rewrite (trim_here buf p1 c) by (auto; unfold p1; cbn [first set_first]; auto). cbn [bind].
    set (e := (first p + length t - 1)%nat) in *.
    assert (FE : ws_run buf (S e) j (last p)) by (replace (S e) with (first p + length t)%nat by (unfold e; lia); exact HF).
    pose proof (at_elem_end _ _ _ _ HA) as [LE BE].
    assert (EL : (e < last p)%nat) by (unfold e; lia).
    assert (W1 : wf buf p1).
    { split; auto. split; auto. split; [unfold p1, p0; cbn [first last set_first remove_prefix set_class]; lia|].
      exists (last p). split; [reflexivity|]. change (last p1) with (last p). lia. }
    destruct (members_all_at buf e (last p) H32 EL es ms p1 xs W1 (HCs p1 eq_refl eq_refl eq_refl) eq_refl) as (q0 & EQ0 & MQ0 & FQ0 & DQ0); auto; [now left|].
    specialize (DQ0 NE). assert (LQ0 : last q0 = last p) by apply MQ0.
    destruct (between_next g buf q0 e _ HB (done_between _ _ _ _ DQ0) ltac:(lia)) as (i & E2 & LI & AQ).
    pose proof (pos_follows g ms NO 0%nat buf p1 p1 xs q0 _ EQ0 (move_next_elem g buf p1 e es HB HA) E2) as EQ.
    rewrite EQ. cbn [bind]. set (q := set_first q0 i) in *.
    assert (MQ : moved p1 q) by (eapply moved_trans; [exact MQ0|repeat split]).
    change i with (first q) in AQ. assert (FQ : (first q <= e)%nat) by (unfold q; cbn [first set_first]; lia).
    set (es2 := skipn (past (map om_index ms) 0) es) in *.
    assert (HEx' : exact = true -> es2 = []) by (intros X; apply skipn_all2, HEx, X).
    assert (HNA' : (forall v, nth_error es (past (map om_index ms) 0) = Some v -> no_array v) -> forall v, hd_error es2 = Some v -> no_array v)
      by (intros HNA v X; apply HNA; rewrite nth_skipn by exact g; exact X).
    assert (LQ : last q = last p) by apply MQ. assert (NQ : isnull q = isnull p) by apply MQ.
    assert (FIN : forall q', last q' = last q -> isnull q' = isnull q -> (first p + length t <= first q' <= j)%nat ->
      exists q0, Ok (VTuple xs, set_class q' (fst (cfirst p, clast p)) (snd (cfirst p, clast p))) = Ok (VTuple xs, q0) /\
        ((exact = true \/ forall v, nth_error es (past (map om_index ms) 0) = Some v -> no_array v) -> moved p q0 /\ (first p + length t <= first q0 <= j)%nat)).
    { intros q' Q1 Q2 Q3. eexists. split; [reflexivity|]. intros _. split; [|exact Q3]. cbn [fst snd]. split; [cbn [last set_class]; congruence|]. split; [reflexivity|]. split; [reflexivity|]. cbn [isnull set_class]. congruence. }
    destruct (at_elem_byte _ _ _ _ AQ) as (b & Hb & SB).
    destruct exact.
    - rewrite (HEx' eq_refl) in *. subst b. rewrite (trim_here buf q 93) by (auto; lia). cbn [bind]. unfold front. rewrite (rd_some _ _ _ Hb). cbn [bind].
      change (93 =? c_rbrack) with true. cbn [ensure bind]. destruct AQ as [AQ _].
      rewrite (trim_left_run buf (remove_prefix q 1) j HB).
      2:{ unfold remove_prefix. cbn [first last set_first]. rewrite LQ, AQ. now replace (e + 1)%nat with (S e) by lia. }
      cbn [bind]. apply FIN; auto. cbn [first set_first]. lia.
    - rewrite HX.
      assert (AR : (exists a r, es2 = JArr a :: r) \/ (forall v, hd_error es2 = Some v -> no_array v)).
      { destruct es2 as [|v r]; [right; discriminate|]. destruct v; try (right; intros ? [= <-]; exact I). left; eauto. }
      destruct AR as [(a & r & ER)|NA].
      { rewrite ER in AQ. destruct (at_elem_cons _ _ _ _ _ AQ) as (tv & Htv & HSv & HRem).
        destruct (rem_e_followed _ _ _ _ (last q) HRem ltac:(lia)) as (j1 & FJ & JE & _ & _). pose proof (followed_le _ _ _ _ _ FJ) as FL1.
        destruct (C18_array_count CNone true ExConstexpr buf q a tv) as (r1 & q1 & E1 & _); auto; [discriminate|lia|lia|lia|].
        rewrite E1. cbn [bind]. eexists. split; [reflexivity|]. intros [?|N]; [discriminate|].
        exfalso. specialize (HNA' N (JArr a)). rewrite ER in HNA'. exact (HNA' eq_refl). }
      clear HNA'. rename NA into HNA'. unfold skip_array.
      assert (LB32 : N.of_nat (length buf) < 4294967296) by exact H32.
      clearbody es2.
      assert (T : exists tm n, sub_at buf (first q) (tm ++ [right_of false]) /\ e = (first q + length tm)%nat /\
        forall s, sub_at buf (b_i s) tm -> roomy (last q) s (length tm) ->
          runs (br_body CNone true ExConstexpr false buf (last q)) (fun s => (length buf - b_i s)%nat) s (add_cnt s n (b_i s + length tm))).
      { destruct es2 as [|m es2].
        - destruct AQ as [AQ1 AQ2]. exists [], O. split; [split; [exact AQ2|exact I]|]. split; [cbn [length]; lia|]. intros s _ _. rewrite add_cnt_0. cbn [length]. rewrite Nat.add_0_r. destruct s; constructor.
        - destruct AQ as (c' & tm & HM & _ & HSq & EE). exists (c' :: tm), (length (m :: es2) - 1)%nat. split; [exact HSq|]. split; [exact EE|].
          intros s HSs RM. apply (proj1 (proj2 (run_values CNone true ExConstexpr false buf (last q) ltac:(discriminate) ltac:(lia)))); auto. }
      destruct T as (tm & n & TS & TE & RUN).
      assert (LBE : (e < length buf)%nat) by (apply nth_error_Some; congruence).
      destruct (skip_bracketed_inside CNone true ExConstexpr false buf q tm n b) as (r & ES); auto; try lia.
      { discriminate. }
      { cbn [left_of]. change c_lbrack with 91. destruct es2 as [|m es2]; [subst b; discriminate|].
        destruct (at_elem_cons _ _ _ _ _ AQ) as (tv & Htv & HSv & _). destruct (no_array_head g m tv Htv (HNA' m eq_refl)) as (c' & r' & -> & NC).
        destruct HSv as [HSv _]. congruence. }
      rewrite ES. cbn [bind]. apply FIN; auto. cbn [first set_first]. lia.
  Qed.

  Lemma class_start_at : forall exact ms es buf p t, wf buf p -> jtext str_body (JArr es) t -> sub_at buf (first p) t -> (first p + length t <= last p)%nat ->
    let e := (first p + length t - 1)%nat in
    exists p1, wf buf p1 /\ last p1 = last p /\ isnull p1 = isnull p /\ cfirst p1 = Some (first p) /\ clast p1 = Some (last p) /\ at_elem buf (first p1) e es /\ (first p1 <= e)%nat /\ (e < last p)%nat /\ nth_error buf e = Some 93 /\
      parse_json_tuple_class g exact ms buf p =
      ('(vs, q) <- parse_ordered_members g ms 0 buf p1 ;;
       q <- (if exact then
               q <- trim_left_checked buf q ;;
               c <- front buf q ;;
               _ <- ensure (c =? c_rbrack) UnknownMember ;;
               trim_left_checked buf (remove_prefix q 1)
             else '(_, q) <- skip_array CNone true (c_ex g) buf q ;; Ok q) ;;
       Ok (VClass vs, set_class q (cfirst p) (clast p))).
  Proof.
    intros exact ms es buf p t HW HT HS FL e. pose proof HW as (HB & HN & HLp & cl & HCl0 & HCL).
    destruct (array_start buf (first p) _ t HT HS) as (w & c & S0 & W & S1 & C1 & C2 & LW & HA).
    fold e in HA. pose proof (at_elem_end _ _ _ _ HA) as [LE BE].
    unfold parse_json_tuple_class. rewrite (trim_here buf p 91) by (auto; lia). cbn [bind].
    rewrite is_at_yes by (auto; lia). cbn [ensure bind].
    set (p0 := remove_prefix (set_class p (Some (first p)) (Some (last p))) 1).
    assert (F0 : first p0 = S (first p)) by (unfold p0, remove_prefix; cbn [first set_first set_class]; lia).
    assert (L0 : last p0 = last p) by reflexivity.
    rewrite (trim_to buf p0 w c); auto; [|rewrite F0; exact S1|rewrite F0, L0; lia]. cbn [bind]. rewrite F0.
    exists (set_first p0 (S (first p) + length w)).
    assert (EL : (e < last p)%nat) by (unfold e; lia).
    split. { split; auto. split; auto. split; [unfold p0; cbn [first last set_first remove_prefix set_class]; lia|].
      exists (last p). split; [reflexivity|]. cbn [last set_first]. rewrite L0. lia. }
    split; [reflexivity|]. split; [reflexivity|]. split; [reflexivity|]. split; [reflexivity|]. split; [exact HA|]. split; [exact LE|]. split; [exact EL|]. split; [exact BE|reflexivity].
  Qed.

  Lemma class_at : forall exact ms es xs, ms <> [] -> picks_all_at es ms 0 xs -> (exact = true -> (length es <= past (map om_index ms) 0)%nat) ->
    forall buf p t j, wf buf p -> (forall p1, last p1 = last p -> cfirst p1 = Some (first p) -> clast p1 = Some (last p) -> C buf p1) ->
      N.of_nat (length buf) < 2^32 -> jtext str_body (JArr es) t -> sub_at buf (first p) t ->
      ws_run buf (first p + length t) j (last p) ->
      exists q, parse_json_tuple_class g exact ms buf p = Ok (VClass xs, q) /\ moved p q /\ (first p + length t <= first q <= j)%nat.
  Proof.
    intros exact ms es xs NE HP HEx buf p t j HW HCs H32 HT HS HF. pose proof (ws_run_le _ _ _ _ HF) as FL.
    pose proof HW as (HB & HN & HLp & cl & HCl0 & HCL).
    destruct (class_start_at exact ms es buf p t HW HT HS ltac:(lia)) as (p1 & W1 & L1 & N1 & R1 & R2 & A1 & F1 & EL & BE & ->).
    set (e := (first p + length t - 1)%nat) in *.
    assert (LT : (0 < length t)%nat) by (destruct (jtext_head _ _ _ HT) as (? & ? & -> & _); cbn [length]; lia).
    assert (FE : ws_run buf (S e) j (last p)) by (replace (S e) with (first p + length t)%nat by (unfold e; lia); exact HF).
    destruct (members_all_at buf e (last p) H32 EL es ms p1 xs W1 (HCs p1 L1 R1 R2) L1) as (q & EQ & MQ & FQ & DQ); auto; [now left|].
    rewrite EQ. cbn [bind]. specialize (DQ NE).
    assert (LQ : last q = last p) by (rewrite <- L1; apply MQ). assert (NQ : isnull q = isnull p) by (rewrite <- N1; apply MQ).
    assert (FIN : forall q', last q' = last q -> isnull q' = isnull q -> (first p + length t <= first q' <= j)%nat ->
      exists q0, Ok (VClass xs, set_class q' (cfirst p) (clast p)) = Ok (VClass xs, q0) /\ moved p q0 /\ (first p + length t <= first q0 <= j)%nat).
    { intros q' Q1 Q2 Q3. eexists. split; [reflexivity|]. split; [|exact Q3]. split; [cbn [last set_class]; congruence|]. split; [reflexivity|]. split; [reflexivity|]. cbn [isnull set_class]. congruence. }
    destruct exact.
    - rewrite skipn_all2 in DQ by (apply HEx; reflexivity).
      assert (TR : trim_left_checked buf q = Ok (set_first q e)).
      { destruct DQ as [(w' & W' & S' & E')|(E' & _ & B')].
        - rewrite E'. apply (trim_to buf q w' 93); auto; lia.
        - rewrite (trim_here buf q 93); [rewrite <- E'; destruct q; reflexivity|exact HB|rewrite E'; exact B'|lia]. }
      rewrite TR. cbn [bind]. unfold front. cbn [first set_first]. rewrite (rd_some _ _ _ BE). cbn [bind].
      change (93 =? c_rbrack) with true. cbn [ensure bind].
      rewrite (trim_left_run buf (remove_prefix (set_first q e) 1) j HB).
      2:{ unfold remove_prefix. cbn [first last set_first]. rewrite LQ. now replace (e + 1)%nat with (S e) by lia. }
      cbn [bind]. apply FIN; auto. cbn [first set_first]. lia.
    - rewrite HX. destruct (skip_rest g buf q e _ H32 HB ltac:(lia) ltac:(lia) FQ DQ) as (r & ->). cbn [bind]. apply FIN; auto. cbn [first set_first]. lia.
  Qed.

  End At.

  (** ** The tag, and the variant *)

  Definition here (buf : list N) (a b : nat) (buf' : list N) (p : ps) : Prop := buf' = buf /\ cfirst p = Some a /\ clast p = Some b.
  Lemma here_moved : forall buf a b buf' p q, moved p q -> here buf a b buf' p -> here buf a b buf' q.
  Proof. intros buf a b buf' p q (_ & M1 & M2 & _) (E & H1 & H2). split; [exact E|]. split; congruence. Qed.

  Lemma picks_always : forall m o x, picks g m o x -> picks_at (fun _ _ => True) m o x.
  Proof. intros m [v|] x H; cbn [picks picks_at] in *; [|exact H]. intros buf p t j HW _. exact (proj1 H buf p t j HW). Qed.

  Lemma tag_found : forall exact k t switch es y buf a b tx j p, is_bytes buf -> (a <= b <= length buf)%nat -> N.of_nat (length buf) < 2^32 ->
    jtext str_body (JArr es) tx -> sub_at buf a tx -> ws_run buf (a + length tx) j b ->
    picks g (mkomember (Some k) (o_nullable t) (parse_o g t)) (nth_error es k) y -> (exact = true -> (length es <= S k)%nat) ->
    here buf a b buf p -> find_index_pos g exact (mkomember (Some k) (o_nullable t) (parse_o g t)) switch buf p = Ok (switch y).
  Proof.
    intros exact k t switch es y buf a b tx j p HB HL H32 HT HS HF HP HEx (_ & C1 & C2). unfold find_index_pos. rewrite C1, C2.
    pose proof (ws_run_le _ _ _ _ HF) as FL.
    destruct (array_start buf a _ tx HT HS) as (w & c & S0 & W & S1 & _ & _ & LW & HA). pose proof (at_elem_end _ _ _ _ HA) as [LE _].
    rewrite is_at_yes by (cbn [first last new_ps]; auto; lia). cbn [ensure bind].
    assert (WF : wf buf (new_ps a b)).
    { split; [exact HB|]. split; [reflexivity|]. split; [exact HL|]. exists b. split; [reflexivity|]. cbn [last new_ps]. lia. }
    destruct (tuple_at (fun _ _ => True) (fun _ _ _ _ _ => I) exact [mkomember (Some k) (o_nullable t) (parse_o g t)] es [y]) with (buf := buf) (p := new_ps a b) (t := tx) (j := j) as (q & EQ & _); auto.
    - exact (none_ok_members g [(Some k, t)]).
    - discriminate.
    - cbn [picks_all_at om_index place]. split; [lia|]. split; [now apply picks_always|exact I].
    - rewrite EQ. reflexivity.
  Qed.

  (** ** What the elements give *)

  Section Spec.
  Context (nc : list (list N) -> list N -> Prop).
  Hypothesis HNC : forall names k, nc names k -> name_ok g k /\ tells g names k.

  Definition taken (t : oty) (o : option jv) (x : val) : Prop :=
    match o with Some v => o_means nc t v x | None => o_nullable t = true /\ x = VNone end.

  (** A member of a type, at the place [o], in an array with the elements [es] *)
  Definition p_takes (es : list jv) (m : pty) (o : option jv) (x : val) : Prop :=
    match m with
    | PPlain t => taken t o x
    | PTagged exact k t switch alts => exists v y a z, o = Some v /\ taken t (nth_error es k) y /\ (exact = true -> (length es <= S k)%nat) /\
        nth_error alts (switch y) = Some a /\ o_means nc a v z /\ x = VVariant (switch y) z
    end.
  Fixpoint p_members (es : list jv) (ms : list (option nat * pty)) (next : nat) (xs : list val) : Prop :=
    match ms, xs with
    | [], [] => True
    | (k, m) :: ms, x :: xs => (next <= place k next)%nat /\ p_takes es m (nth_error es (place k next)) x /\ p_members es ms (S (place k next)) xs
    | _, _ => False
    end.

  Lemma taken_picks : forall i t o x, taken t o x -> picks g (mkomember i (o_nullable t) (parse_o g t)) o x.
  Proof.
    intros i t [v|] x H; cbn [taken picks om_parse om_nullable] in *.
    - apply reads_reads_inside; auto. now apply (o_means_reads g HX HE nc HNC).
    - destruct H as [HN ->]. split; [exact HN|]. intros buf. now apply parse_o_null.
  Qed.

  Lemma p_members_picks : forall es buf a b tx j, is_bytes buf -> (a <= b <= length buf)%nat -> N.of_nat (length buf) < 2^32 ->
    jtext str_body (JArr es) tx -> sub_at buf a tx -> ws_run buf (a + length tx) j b ->
    forall ms next xs, p_members es ms next xs -> picks_all_at (here buf a b) es (map (pmember g) ms) next xs.
  Proof.
    intros es buf a b tx j HB HL H32 HT HS HF. induction ms as [|[k m] ms IH]; intros next [|x xs] H; try contradiction; [exact I|].
    destruct H as (H1 & H2 & H3). cbn [map picks_all_at pmember om_index fst snd]. split; [exact H1|]. split; [|now apply IH].
    destruct m as [t|exact k' t switch alts]; cbn [p_takes] in H2.
    - pose proof (taken_picks k t _ _ H2) as X. destruct (nth_error es (place k next)) as [v|]; cbn [picks picks_at om_parse om_nullable p_nullable pmember fst snd] in *; [|exact X].
      intros buf' p t' j' HW _. exact (proj1 X buf' p t' j' HW).
    - destruct H2 as (v & y & alt & z & -> & HY & HEx & HA & HZ & ->). cbn [picks_at om_parse pmember fst snd].
      intros buf' p t' j' HW HH H32' Ht' HS' HF' HL'. pose proof HH as (-> & _ & _). cbn [parse_pty]. unfold parse_variant_pos.
      rewrite (tag_found exact k' t switch es y buf a b tx j p HB HL H32 HT HS HF (taken_picks (Some k') t _ _ HY) HEx HH). cbn [bind].
      unfold parse_visit. rewrite nth_error_map, HA. cbn [option_map].
      destruct (proj1 (reads_reads_inside g _ _ _ (o_means_reads g HX HE nc HNC alt v z HZ)) buf p t' j' HW H32' Ht' HS' HF' HL') as (q & EQ & MQ & LQ).
      rewrite EQ. cbn [bind]. eauto.
  Qed.
  End Spec.

  (** ** Whole documents *)
  Lemma document_start : forall P, (forall buf p c w, is_bytes buf -> ws w -> sub_at buf (first p) (w ++ [c]) -> 32 < c ->
      (first p + length w < last p)%nat -> P buf p = P buf (set_first p (first p + length w))) ->
    forall (verify : bool) v doc, is_bytes doc -> pos_document v doc ->
    exists p tx, wf doc p /\ jtext str_body v tx /\ sub_at doc (first p) tx /\ SkipProofs.followed true doc (first p + length tx) (last p) (last p) /\
      (_ <- ensure (negb (length doc =? 0)%nat) EmptyJSONDocument ;;
       z <- rd doc (length doc - 1) ;;
       let l := if z =? 0 then (length doc - 1)%nat else length doc in
       '(v, p) <- P doc (new_ps 0 l) ;;
       if verify then
         p <- trim_left_checked doc p ;;
         _ <- ensure (ps_empty p) InvalidEndOfValue ;;
         Ok v
       else Ok v) =
       ('(x, q) <- P doc p ;;
        if verify then
          q <- trim_left_checked doc q ;;
          _ <- ensure (ps_empty q) InvalidEndOfValue ;;
          Ok x
        else Ok x : res val).
  Proof.
    intros P HLd verify v doc HB (w0 & tx & w & z & W0 & HT & W & HZ & ->).
    replace (w0 ++ tx ++ w ++ z) with ((w0 ++ tx ++ w) ++ z) in * by (rewrite <- !app_assoc; reflexivity).
    destruct (jtext_head _ _ _ HT) as (c0 & r0 & ET & ST). destruct (jtext_last _ _ _ HT) as (rl & cl & EL & NL).
    set (buf := (w0 ++ tx ++ w) ++ z) in *. set (l := length (w0 ++ tx ++ w)).
    assert (LL : l = (length w0 + length tx + length w)%nat) by (unfold l; rewrite !app_length; lia).
    assert (LB : (l <= length buf)%nat) by (unfold buf; rewrite app_length; fold l; lia).
    assert (STX : sub_at buf (length w0) tx).
    { unfold buf. replace ((w0 ++ tx ++ w) ++ z) with (w0 ++ tx ++ (w ++ z)) by (rewrite <- !app_assoc; reflexivity). apply sub_at_mid. }
    assert (LT : (0 < length tx)%nat) by (rewrite ET; cbn; lia).
    set (p := set_first (new_ps 0 l) (length w0)).
    assert (WF : wf buf p) by (apply wf_doc; auto; lia).
    exists p, tx. split; [exact WF|]. split; [exact HT|]. split; [exact STX|]. split.
    { exists w. split; [exact W|]. unfold p. cbn [first last set_first new_ps]. split; [|split; [lia|split; [lia|left; auto]]].
      unfold buf. replace ((w0 ++ tx ++ w) ++ z) with ((w0 ++ tx) ++ w ++ z) by (rewrite <- !app_assoc; reflexivity).
      rewrite <- app_length. apply sub_at_mid. }
    replace (length buf =? 0)%nat with false by lia. cbn [negb ensure bind].
    assert (ER : exists b, nth_error buf (length buf - 1) = Some b /\ (if b =? 0 then (length buf - 1)%nat else length buf) = l).
    { destruct HZ as [-> | ->].
      - assert (LE : length buf = l) by (unfold buf; rewrite app_nil_r; reflexivity).
        destruct (ws_last rl cl w NL W) as (r' & c' & E' & N'). exists c'. split; [|replace (c' =? 0) with false by lia; exact LE].
        unfold buf. rewrite app_nil_r, EL. replace (length (w0 ++ (rl ++ [cl]) ++ w)) with (length w0 + S (length r'))%nat
          by (rewrite E', !app_length; cbn [length]; lia). rewrite E'. rewrite nth_error_app2 by lia.
        replace (length w0 + S (length r') - 1 - length w0)%nat with (length r') by lia. rewrite nth_error_app2, Nat.sub_diag by lia. reflexivity.
      - exists 0. assert (LE : length buf = S l) by (unfold buf; rewrite app_length; cbn [length]; fold l; lia).
        split; [|cbn [N.eqb]; lia]. rewrite LE. replace (S l - 1)%nat with l by lia. unfold buf. rewrite nth_error_app2 by (fold l; lia). fold l. rewrite Nat.sub_diag. reflexivity. }
    destruct ER as (b & Eb & EL'). rewrite (rd_some _ _ _ Eb). cbn [bind]. cbv zeta. rewrite EL'.
    rewrite (HLd buf (new_ps 0 l) c0 w0 HB W0); cbn [first last new_ps]; [reflexivity| | |lia].
    - unfold buf. rewrite <- app_assoc. rewrite ET.
      replace (w0 ++ ((c0 :: r0) ++ w) ++ z) with ((w0 ++ [c0]) ++ (r0 ++ w) ++ z) by (rewrite <- !app_assoc; reflexivity). apply sub_at_0.
    - unfold starter in ST. lia.
  Qed.

  Lemma shape_leading : forall s exact ms buf p c w, is_bytes buf -> ws w -> sub_at buf (first p) (w ++ [c]) -> 32 < c ->
    (first p + length w < last p)%nat -> parse_shape g s exact ms buf p = parse_shape g s exact ms buf (set_first p (first p + length w)).
  Proof.
    intros s exact ms buf p c w HB W HS HC HL. destruct s; cbn [parse_shape]; [|now apply (pos_leading g exact _ buf p c HB w)].
    unfold parse_value_ordered, has_more. cbn [first last set_first]. replace (first p <? last p)%nat with true by lia.
    replace (first p + length w <? last p)%nat with true by lia. cbn [ensure bind].
    assert (T1 : trim_left_checked buf p = Ok (set_first p (first p + length w))) by (apply (trim_to buf p w c); auto; lia).
    set (p' := set_first p (first p + length w)) in *.
    assert (T2 : trim_left_checked buf p' = Ok p').
    { pose proof HS as HS'. apply sub_at_app in HS' as [_ [HS' _]]. now apply (trim_here buf p' c). }
    unfold parse_json_tuple_class. now rewrite T1, T2.
  Qed.

  Lemma none_ok_p : forall ms, Forall none_ok (map (pmember g) ms).
  Proof.
    induction ms as [|[k m] ms IH]; cbn [map]; constructor; auto. destruct m as [t|]; [|intros H; discriminate H].
    exact (Forall_inv (none_ok_members g [(k, t)])).
  Qed.

  Definition of_shape (s : shape) (xs : list val) : val := match s with AClass => VClass xs | ATuple => VTuple xs end.

  Theorem shape_reads : forall nc : list (list N) -> list N -> Prop, (forall names k, nc names k -> name_ok g k /\ tells g names k) ->
    forall verify s exact ms es xs doc, is_bytes doc -> N.of_nat (length doc) < 2^32 -> pos_document (JArr es) doc -> ms <> [] ->
    p_members nc es ms 0 xs -> (exact = true -> (length es <= past (map fst ms) 0)%nat) ->
    (s = ATuple -> forall v, nth_error es (past (map fst ms) 0) = Some v -> no_array v) ->
    from_json_shape g verify s exact ms doc = Ok (of_shape s xs).
  Proof.
    intros nc HNC verify s exact ms es xs doc HB H32 HD NE HM HEx HNA. unfold from_json_shape.
    destruct (document_start (parse_shape g s exact ms) (shape_leading s exact ms) verify (JArr es) doc HB HD) as (p & tx & WF & HT & HS & HFl & ED). etransitivity; [exact ED|]. clear ED.
    assert (MI : map om_index (map (pmember g) ms) = map fst ms) by (rewrite map_map; reflexivity).
    assert (HR : ws_run doc (first p + length tx) (last p) (last p)) by (destruct HFl as (w & W & S1 & E1 & E2 & _); exists w; auto 7).
    pose proof (followed_le _ _ _ _ _ HFl) as FL. pose proof WF as (_ & _ & HLp & _).
    assert (PA : picks_all_at (here doc (first p) (last p)) es (map (pmember g) ms) 0 xs) by (eapply p_members_picks; eauto).
    assert (NE' : map (pmember g) ms <> []) by (destruct ms; [congruence|discriminate]).
    assert (X : exists q, parse_shape g s exact ms doc p = Ok (of_shape s xs, q) /\ moved p q /\ (first p + length tx <= first q <= last p)%nat).
    { assert (LT : (0 < length tx)%nat) by (destruct (jtext_head _ _ _ HT) as (? & ? & -> & _); cbn [length]; lia).
      destruct s; cbn [parse_shape of_shape].
      - destruct (class_at (here doc (first p) (last p)) (here_moved doc (first p) (last p)) exact (map (pmember g) ms) es xs) with (buf := doc) (p := p) (t := tx) (j := last p) as (q & EQ & MQ & LQ); auto.
        + now rewrite MI.
        + intros p1 _ A B. repeat split; auto.
        + unfold parse_value_ordered, has_more. replace (first p <? last p)%nat with true by lia. cbn [ensure bind]. rewrite EQ. cbn [bind].
          assert (LQl : last q = last p) by apply MQ.
          rewrite (trim_followed doc q (last p) HB) by (rewrite LQl; eapply followed_from; [exact HFl|exact LQ]). cbn [bind].
          eexists. split; [reflexivity|]. split; [eapply moved_trans; [exact MQ|repeat split]|]. cbn [first set_first]. lia.
      - destruct (tuple_at (here doc (first p) (last p)) (here_moved doc (first p) (last p)) exact (map (pmember g) ms) es xs) with (buf := doc) (p := p) (t := tx) (j := last p) as (q & EQ & MQ); auto.
        + apply none_ok_p.
        + now rewrite MI.
        + intros p1 _ A B. repeat split; auto.
        + exists q. split; [exact EQ|]. apply MQ. right. rewrite MI. now apply HNA. }
    destruct X as (q & -> & MQ & LQ). cbn [bind]. destruct verify; [|reflexivity].
    assert (LQl : last q = last p) by apply MQ.
    rewrite (trim_followed doc q (last p) HB) by (rewrite LQl; eapply followed_from; [exact HFl|exact LQ]).
    cbn [bind]. unfold ps_empty. cbn [isnull first last set_first]. rewrite LQl, Nat.leb_refl, orb_true_r. reflexivity.
  Qed.
End Cfg.

