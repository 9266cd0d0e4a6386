(** Classes that are read from arrays: the parser returns what the document means. *)
From Coq Require Import List NArith ZArith Bool Lia Arith ZifyBool ZifyNat ZifyN.
From Verif Require Import Base Mem Loop PolicyModel IntModel StrScanModel SkipModel SpecNum SpecText SpecJson SpecUnicode
  IntProofs IntSerProofs IntValueProofs StrScanProofs StrScanProofs2 StrScanProofs3 SkipProofs BracketProofs SkipSafe
  PropertiesStr PropertiesSkip StrDecodeModel StrDecodeProofs HashModel PropertiesHash ValueModel SpecTyped
  NameProofs ClassProofs ClassProofs2 ScalarProofs ArrayProofs VariantProofs TypedProofs ZReads SerModel OrdModel SpecOrd.
Import ListNotations.
Local Open Scope N_scope.

Section Cfg.
  Context (g : cfg).
  Hypothesis HX : c_ex g = ExConstexpr.
  Hypothesis HE : c_excl g = false.

  (** ** Skipping to a place *)

  Lemma skip_members_ok : forall buf e l, N.of_nat (length buf) < 2^32 -> (e < l)%nat ->
    forall n rest p, wf buf p -> last p = l -> at_elem buf (first p) e rest ->
      exists q, skip_members g buf p n = Ok (q, (n - length rest)%nat) /\ moved p q /\ at_elem buf (first q) e (skipn n rest).
  Proof.
    intros buf e l H32 HL. induction n as [|n IH]; intros rest p HW HLp HA.
    - destruct (at_elem_byte _ _ _ _ HA) as (b & Hb & Eb). cbn [skip_members]. unfold front. rewrite (rd_some _ _ _ Hb). cbn [bind].
      exists p. split; [reflexivity|]. split; [apply moved_refl|exact HA].
    - destruct (at_elem_byte _ _ _ _ HA) as (b & Hb & Eb). cbn [skip_members]. unfold front. rewrite (rd_some _ _ _ Hb). cbn [bind].
      pose proof (at_elem_end _ _ _ _ HA) as [LE BE]. pose proof HW as (HB & HN & HLp' & cl & HC & HCL).
      destruct rest as [|v rest].
      + subst b. change (93 =? c_rbrack) with true. cbn iota. exists p. split; [f_equal; f_equal; cbn [length]; lia|]. split; [apply moved_refl|]. now rewrite skipn_nil.
      + assert (NB : b =? c_rbrack = false) by (unfold starter, c_rbrack in *; lia). rewrite NB.
        destruct (at_elem_cons _ _ _ _ _ HA) as (t & Ht & HS & HRem).
        destruct (rem_e_followed _ _ _ _ (last p) HRem ltac:(lia)) as (j1 & FJ & JE & JB & RJ). pose proof (followed_le _ _ _ _ _ FJ) as FL.
        assert (HNull : v = JNull -> (first p + 4 < last p)%nat).
        { intros ->. assert (L4 : length t = 4%nat) by (inversion Ht; reflexivity). lia. }
        destruct (skip_here g HX HE buf p v t j1 HW H32 Ht HS FJ HNull) as (r & q & EQ & MQ & LQ & _). rewrite EQ. cbn [bind].
        assert (LQl : last q = last p) by apply MQ.
        destruct (move_next_rem_e buf q e rest HB) as (i & EM & LI & AI); [apply RJ; lia|lia|]. rewrite EM. cbn [bind].
        pose proof (at_elem_end _ _ _ _ AI) as [LIE _].
        assert (MM : moved p (set_first q i)) by (eapply moved_trans; [exact MQ|repeat split]).
        replace (has_more (set_first q i)) with true by (symmetry; apply Nat.ltb_lt; cbn [first last set_first]; lia). cbn [ensure bind].
        destruct (IH rest (set_first q i)) as (q2 & E2 & M2 & A2); auto.
        * eapply moved_wf; [exact MM|exact HW|]. cbn [first last set_first]. lia.
        * cbn [last set_first]. lia.
        * exists q2. cbn [length skipn]. split; [exact E2|]. split; [eapply moved_trans; eauto|exact A2].
  Qed.

  (** ** Members *)

  (** Between members: at an element or behind one *)
  Definition between (buf : list N) (i e : nat) (rest : list jv) : Prop := at_elem buf i e rest \/ rem_e buf i e rest.

  Lemma between_next : forall buf p e rest, is_bytes buf -> between buf (first p) e rest -> (e < last p)%nat ->
    exists i, move_next buf p = Ok (set_first p i) /\ (first p <= i <= e)%nat /\ at_elem buf i e rest.
  Proof.
    intros buf p e rest HB [HA|HR] HL.
    - exists (first p). rewrite (move_next_elem g buf p e rest HB HA). split; [destruct p; reflexivity|]. pose proof (at_elem_end _ _ _ _ HA). split; [lia|exact HA].
    - destruct (move_next_rem_e buf p e rest HB HR HL) as (i & EM & LI & AI). exists i. split; [exact EM|]. pose proof (at_elem_end _ _ _ _ AI). split; [lia|exact AI].
  Qed.

  (** The member gets what it should from the elements from place [c] on. *)
  Definition picks (m : omember) (o : option jv) (x : val) : Prop :=
    match o with
    | Some v => reads_inside g (om_parse m) v x
    | None => om_nullable m = true /\ forall buf, exists q, om_parse m true buf no_loc = Ok (x, q)
    end.

  Fixpoint picks_all (es : list jv) (ms : list omember) (next : nat) (xs : list val) : Prop :=
    match ms, xs with
    | [], [] => True
    | m :: ms', x :: xs' => (next <= place (om_index m) next)%nat /\ picks m (nth_error es (place (om_index m) next)) x /\
        picks_all es ms' (S (place (om_index m) next)) xs'
    | _, _ => False
    end.

  Lemma skipn_one : forall (A : Type) n (l : list A), skipn (S n) l = match skipn n l with [] => [] | _ :: r => r end.
  Proof. induction n as [|n IH]; intros [|a l]; try reflexivity. cbn [skipn] in *. now rewrite <- IH. Qed.
  Lemma nth_skipn : forall (A : Type) n (l : list A), nth_error l n = hd_error (skipn n l).
  Proof. induction n as [|n IH]; intros [|a l]; try reflexivity. cbn [nth_error skipn]. apply IH. Qed.
  Lemma skipn_twice : forall (A : Type) a b (l : list A), skipn a (skipn b l) = skipn (a + b) l.
  Proof.
    induction b as [|b IH]; intros l; [now rewrite Nat.add_0_r|]. destruct l as [|x l]; [now rewrite !skipn_nil|].
    replace (a + S b)%nat with (S (a + b)) by lia. cbn [skipn]. apply IH.
  Qed.

  Lemma member_ok : forall buf e l, N.of_nat (length buf) < 2^32 -> (e < l)%nat ->
    forall es m p idx next x, wf buf p -> last p = l -> between buf (first p) e (skipn next es) -> (first p <= e)%nat ->
      (idx <= next)%nat -> (idx = next \/ skipn next es = []) ->
      (next <= place (om_index m) next)%nat -> picks m (nth_error es (place (om_index m) next)) x ->
      exists q idx', parse_ordered_class_member g m idx buf p = Ok (x, q, idx') /\ moved p q /\ (first q <= e)%nat /\
        (rem_e buf (first q) e (skipn (S (place (om_index m) next)) es) \/ first q = e /\ skipn (S (place (om_index m) next)) es = [] /\ nth_error buf e = Some 93) /\
        (idx' <= S (place (om_index m) next))%nat /\ (idx' = S (place (om_index m) next) \/ (length es <= place (om_index m) next)%nat).
  Proof.
    intros buf e l H32 HL es m p idx next x HW HLp HBt FE LI OI PL PK. pose proof HW as (HB & HN & HLp' & cl & HC & HCL).
    unfold parse_ordered_class_member. destruct (between_next buf p e _ HB HBt) as (i & EM & Li & AI); [lia|]. rewrite EM. cbn [bind].
    set (p1 := set_first p i). assert (M1 : moved p p1) by repeat split.
    assert (W1 : wf buf p1) by (eapply moved_wf; [exact M1|exact HW|]; unfold p1; cbn [first last set_first]; lia).
    set (k := place (om_index m) next) in *.
    (* the state at the place *)
    assert (X : exists q idx1, (match om_index m with
        | Some k => maybe_skip_members g buf p1 idx k
        | None => _ <- ensure (has_more p1) UnexpectedEndOfData ;; Ok (p1, idx) end) = Ok (q, idx1) /\ moved p1 q /\
        at_elem buf (first q) e (skipn k es) /\ (idx1 <= k)%nat /\ (idx1 = k \/ skipn k es = [])).
    { destruct (om_index m) as [d|] eqn:EI; cbn [place] in k; subst k.
      - unfold maybe_skip_members. replace (idx <=? d)%nat with true by lia. cbn [ensure bind].
        destruct (skip_members_ok buf e l H32 HL (d - idx) (skipn next es) p1 W1) as (q & EQ & MQ & AQ).
        { unfold p1. cbn [last set_first]. exact HLp. } { exact AI. }
        rewrite EQ. cbn [bind]. exists q. eexists. split; [reflexivity|]. split; [exact MQ|].
        rewrite skipn_twice in AQ. destruct OI as [->|Z].
        + replace (d - next + next)%nat with d in AQ by lia. split; [exact AQ|]. split; [lia|].
          rewrite skipn_length. destruct (Nat.le_gt_cases (length es) d) as [G|G]; [right; now apply skipn_all2|left; lia].
        + assert (LZ : (length es <= next)%nat). { apply (f_equal (@length jv)) in Z. rewrite skipn_length in Z. cbn [length] in Z. lia. }
          rewrite skipn_all2 in AQ by lia. rewrite (skipn_all2 es (n := d)) by lia. split; [exact AQ|]. split; [lia|now right].
      - replace (has_more p1) with true by (symmetry; apply Nat.ltb_lt; unfold p1; cbn [first last set_first]; lia). cbn [ensure bind].
        exists p1, idx. split; [reflexivity|]. split; [apply moved_refl|]. split; [exact AI|]. split; [exact LI|exact OI]. }
    destruct X as (q & idx1 & -> & MQ & AQ & LK & OK). cbn [bind].
    destruct (at_elem_byte _ _ _ _ AQ) as (b & Hb & Eb). pose proof (at_elem_end _ _ _ _ AQ) as [LE BE].
    unfold front. rewrite (rd_some _ _ _ Hb). cbn [bind].
    assert (MPQ : moved p q) by exact (moved_trans _ _ _ M1 MQ). assert (LQl : last q = last p) by apply MPQ.
    assert (LZ : skipn k es = [] -> (length es <= k)%nat).
    { intros Z. apply (f_equal (@length jv)) in Z. rewrite skipn_length in Z. cbn [length] in Z. lia. }
    rewrite nth_skipn in PK. rewrite skipn_one. destruct (skipn k es) as [|v rest]; cbn [hd_error picks] in PK.
    - subst b. change (93 =? c_rbrack) with true. cbn iota. destruct PK as [NU PK]. rewrite NU. destruct (PK buf) as (q' & ->). cbn [bind].
      destruct AQ as [AQ _]. exists q, (S idx1). split; [reflexivity|]. split; [exact MPQ|]. split; [exact LE|].
      split; [right; auto|]. split; [lia|right; auto].
    - replace (b =? c_rbrack) with false by (unfold starter, c_rbrack in *; lia).
      destruct (at_elem_cons _ _ _ _ _ AQ) as (t & Ht & HS & HRem).
      destruct (rem_e_followed _ _ _ _ (last q) HRem ltac:(lia)) as (j1 & FJ & JE & JB & RJ). pose proof (followed_le _ _ _ _ _ FJ) as FL.
      assert (WQ : wf buf q) by (eapply moved_wf; [exact MPQ|exact HW|]; lia).
      destruct (proj1 PK buf q t j1 WQ H32 Ht HS FJ) as (q2 & E2 & M2 & L2); [lia|]. rewrite E2. cbn [bind].
      exists q2, (S idx1). split; [reflexivity|]. split; [eapply moved_trans; eauto|]. split; [lia|].
      split; [left; apply RJ; lia|]. split; [lia|]. destruct OK as [->|]; [now left|discriminate].
  Qed.

  (** The end of the members: behind one, or at the bracket *)
  Definition done (buf : list N) (i e : nat) (rest : list jv) : Prop :=
    rem_e buf i e rest \/ i = e /\ rest = [] /\ nth_error buf e = Some 93.

  Lemma done_between : forall buf i e rest, done buf i e rest -> between buf i e rest.
  Proof. intros buf i e rest [H|(-> & -> & H)]; [now right|left]. split; auto. Qed.

  Lemma members_prefix : forall buf e l, N.of_nat (length buf) < 2^32 -> (e < l)%nat ->
    forall es ms2 ms p idx next xs, wf buf p -> last p = l -> between buf (first p) e (skipn next es) -> (first p <= e)%nat ->
      (idx <= next)%nat -> (idx = next \/ (length es < next)%nat) -> picks_all es ms next xs ->
      exists q idx', parse_ordered_members g (ms ++ ms2) idx buf p =
          ('(vs, r) <- parse_ordered_members g ms2 idx' buf q ;; Ok (xs ++ vs, r)) /\
        moved p q /\ (first q <= e)%nat /\ between buf (first q) e (skipn (past (map om_index ms) next) es) /\
        (ms = [] -> q = p) /\ (ms <> [] -> done buf (first q) e (skipn (past (map om_index ms) next) es)) /\
        (idx' <= past (map om_index ms) next)%nat /\ (idx' = past (map om_index ms) next \/ (length es < past (map om_index ms) next)%nat).
  Proof.
    intros buf e l H32 HL es ms2. induction ms as [|m ms IH]; intros p idx next xs HW HLp HBt FE LI OI HP; destruct xs as [|x xs]; try contradiction.
    - exists p, idx. cbn [map past app]. split; [destruct (parse_ordered_members g ms2 idx buf p) as [[? ?]| | |]; reflexivity|].
      split; [apply moved_refl|]. split; [exact FE|]. split; [exact HBt|]. split; [reflexivity|]. split; [congruence|]. split; [exact LI|exact OI].
    - destruct HP as (PL & PK & HP). cbn [app parse_ordered_members map past].
      destruct (member_ok buf e l H32 HL es m p idx next x HW HLp HBt FE LI) as (q & idx' & EQ & MQ & FQ & DQ & LQ & OQ); auto.
      { destruct OI as [->|Z]; [now left|right; apply skipn_all2; lia]. }
      rewrite EQ. cbn [bind]. fold (done buf (first q) e (skipn (S (place (om_index m) next)) es)) in DQ.
      assert (LQl : last q = last p) by apply MQ.
      destruct (IH q idx' (S (place (om_index m) next)) xs) as (q2 & i2 & E2 & M2 & F2 & B2 & D1 & D2 & L2 & O2); auto.
      + eapply moved_wf; [exact MQ|exact HW|]. lia.
      + lia.
      + now apply done_between.
      + destruct OQ as [->|Z]; [now left|right; lia].
      + exists q2, i2. rewrite E2. split; [destruct (parse_ordered_members g ms2 i2 buf q2) as [[? ?]| | |]; reflexivity|].
        split; [exact (moved_trans _ _ _ MQ M2)|]. split; [exact F2|]. split; [exact B2|]. split; [discriminate|]. split; [|split; [exact L2|exact O2]].
        intros _. destruct ms as [|m2 ms]; [|apply D2; discriminate]. rewrite D1 by reflexivity. exact DQ.
  Qed.

  Lemma members_ok : forall buf e l, N.of_nat (length buf) < 2^32 -> (e < l)%nat ->
    forall es ms p xs, wf buf p -> last p = l -> between buf (first p) e es -> (first p <= e)%nat -> picks_all es ms 0 xs ->
      exists q, parse_ordered_members g ms 0 buf p = Ok (xs, q) /\ moved p q /\ (first q <= e)%nat /\
        (ms <> [] -> done buf (first q) e (skipn (past (map om_index ms) 0) es)).
  Proof.
    intros buf e l H32 HL es ms p xs HW HLp HBt FE HP.
    destruct (members_prefix buf e l H32 HL es [] ms p 0 0 xs HW HLp HBt FE) as (q & idx' & EQ & MQ & FQ & _ & _ & DQ & _); auto.
    rewrite app_nil_r in EQ. cbn [parse_ordered_members bind] in EQ. rewrite app_nil_r in EQ. exists q. auto.
  Qed.

  (** A member that is missing, and one whose place is before the one reached *)
  Lemma members_missing : forall buf e l, N.of_nat (length buf) < 2^32 -> (e < l)%nat ->
    forall es ms m ms2 p xs, wf buf p -> last p = l -> between buf (first p) e es -> (first p <= e)%nat -> picks_all es ms 0 xs ->
      (past (map om_index ms) 0 <= place (om_index m) (past (map om_index ms) 0))%nat ->
      (length es <= place (om_index m) (past (map om_index ms) 0))%nat -> om_nullable m = false ->
      parse_ordered_members g (ms ++ m :: ms2) 0 buf p = Err MemberNotFound.
  Proof.
    intros buf e l H32 HL es ms m ms2 p xs HW HLp HBt FE HP PL HM HN.
    destruct (members_prefix buf e l H32 HL es (m :: ms2) ms p 0 0 xs HW HLp HBt FE) as (q & idx' & EQ & MQ & FQ & BQ & _ & _ & LQ & OQ); auto.
    rewrite EQ. cbn [parse_ordered_members]. set (next := past (map om_index ms) 0) in *. clear EQ.
    assert (WQ : wf buf q) by (eapply moved_wf; [exact MQ|exact HW|]; destruct HW as (_ & _ & ? & _); assert (last q = last p) by apply MQ; lia).
    assert (LQl : last q = last p) by apply MQ.
    unfold parse_ordered_class_member. destruct (between_next buf q e _ (proj1 HW) BQ) as (i & EM & Li & AI); [lia|]. rewrite EM. cbn [bind].
    set (p1 := set_first q i).
    assert (X : exists r idx1, (match om_index m with
        | Some k => maybe_skip_members g buf p1 idx' k
        | None => _ <- ensure (has_more p1) UnexpectedEndOfData ;; Ok (p1, idx') end) = Ok (r, idx1) /\ at_elem buf (first r) e []).
    { destruct (om_index m) as [d|] eqn:EI; cbn [place] in *.
      - unfold maybe_skip_members. replace (idx' <=? d)%nat with true by lia. cbn [ensure bind].
        destruct (skip_members_ok buf e l H32 HL (d - idx') (skipn next es) p1) as (r & ER & MR & AR).
        { eapply moved_wf; [exact (moved_first q i)|exact WQ|]. unfold p1. cbn [first last set_first]. lia. }
        { unfold p1. cbn [last set_first]. lia. } { exact AI. }
        rewrite ER. cbn [bind]. exists r. eexists. split; [reflexivity|]. rewrite skipn_twice in AR. rewrite skipn_all2 in AR by lia. exact AR.
      - replace (has_more p1) with true by (symmetry; apply Nat.ltb_lt; unfold p1; cbn [first last set_first]; lia). cbn [ensure bind].
        exists p1, idx'. split; [reflexivity|]. rewrite skipn_all2 in AI by lia. exact AI. }
    destruct X as (r & idx1 & -> & [A1 A2]). cbn [bind]. unfold front. rewrite (rd_some _ _ _ A2). cbn [bind].
    change (93 =? c_rbrack) with true. cbn iota. rewrite HN. reflexivity.
  Qed.

  Lemma members_disordered : forall buf e l, N.of_nat (length buf) < 2^32 -> (e < l)%nat ->
    forall es ms m ms2 p xs k, wf buf p -> last p = l -> between buf (first p) e es -> (first p <= e)%nat -> picks_all es ms 0 xs ->
      (past (map om_index ms) 0 <= length es)%nat -> om_index m = Some k -> (k < past (map om_index ms) 0)%nat ->
      parse_ordered_members g (ms ++ m :: ms2) 0 buf p = Err OutOfOrderOrderedMembers.
  Proof.
    intros buf e l H32 HL es ms m ms2 p xs k HW HLp HBt FE HP HLen HK LK.
    destruct (members_prefix buf e l H32 HL es (m :: ms2) ms p 0 0 xs HW HLp HBt FE) as (q & idx' & EQ & MQ & FQ & BQ & _ & _ & LQ & OQ); auto.
    rewrite EQ. cbn [parse_ordered_members]. clear EQ. assert (LQl : last q = last p) by apply MQ.
    unfold parse_ordered_class_member. destruct (between_next buf q e _ (proj1 HW) BQ) as (i & EM & Li & AI); [lia|]. rewrite EM. cbn [bind].
    rewrite HK. unfold maybe_skip_members. replace (idx' <=? k)%nat with false by lia. reflexivity.
  Qed.

  (** What is left of the array is skipped. *)
  Lemma skip_rest : forall buf q e rest, N.of_nat (length buf) < 2^32 -> is_bytes buf -> (last q <= length buf)%nat -> (e < last q)%nat ->
    (first q <= e)%nat -> done buf (first q) e rest ->
    exists r, skip_array CNone true ExConstexpr buf q = Ok (r, set_first q (S e)).
  Proof.
    intros buf q e rest H32 HB HLb HL FE HD. unfold skip_array.
    assert (LB32 : N.of_nat (length buf) < 4294967296) by exact H32.
    assert (T : exists tm n b, sub_at buf (first q) (tm ++ [right_of false]) /\ e = (first q + length tm)%nat /\ nth_error buf (first q) = Some b /\ b <> 91 /\
      forall s, sub_at buf (b_i s) tm -> roomy (last q) s (length tm) ->
        runs (br_body CNone true ExConstexpr false buf (last q)) (fun s => (length buf - b_i s)%nat) s (add_cnt s n (b_i s + length tm))).
    { destruct HD as [HR|(EQ & -> & HQ)].
      - assert (HEAD : forall w c z, ws w -> sub_at buf (first q) (w ++ c :: z) -> c <> 91 -> exists b, nth_error buf (first q) = Some b /\ b <> 91).
        { intros [|a w] c z W HS NC; destruct HS as [HS _]; [now exists c|]. exists a. split; [exact HS|]. inversion W as [|? ? Wa _]; subst. unfold json_ws in Wa. lia. }
        destruct rest as [|m rest].
        + destruct HR as (w & HW & HS & ->). destruct (HEAD w 93 [] HW HS ltac:(lia)) as (b & Hb & NB). exists w, O, b. split; [exact HS|]. split; [lia|]. split; [exact Hb|]. split; [exact NB|].
          intros s HSs RM. rewrite add_cnt_0. apply run_inert; auto; [now apply ws_inert|apply RM].
        + destruct HR as (w & tm & HW & HM & HS & ->). destruct (HEAD w 44 _ HW HS ltac:(lia)) as (b & Hb & NB).
          exists (w ++ 44 :: tm), (length (m :: rest)), b. split; [rewrite <- app_assoc; exact HS|]. split; [rewrite app_length; cbn [length]; lia|]. split; [exact Hb|]. split; [exact NB|].
          intros s HSs RM. rewrite app_length in *. cbn [length] in RM |- *. apply sub_at_app in HSs as [S1 [S2 S3]]. pose proof RM as (R0 & R1 & R2 & R3 & R4).
          eapply runs_trans; [apply (run_inert CNone true ExConstexpr false buf (last q) HLb w); [now apply ws_inert|exact S1|lia]|].
          eapply runs_trans; [apply run_comma; cbn [b_i b_cnt at_i]; [exact HLb|exact S2|lia|lia]|]. cbn [b_i at_i b_prime b_second b_cnt].
          match goal with |- runs _ _ ?s0 _ => set (s1 := s0) end.
          assert (B1 : b_i s1 = S (b_i s + length w)) by reflexivity.
          assert (RM1 : roomy (last q) s1 (length tm)).
          { unfold roomy. rewrite B1. unfold s1. cbn [b_prime b_second b_cnt]. destruct (at_top (b_prime s) (b_second s)); repeat split; lia. }
          pose proof (proj1 (proj2 (run_values CNone true ExConstexpr false buf (last q) ltac:(discriminate) ltac:(lia))) _ _ HM s1 ltac:(rewrite B1; exact S3) RM1) as RUN.
          match type of RUN with runs _ _ _ ?x => match goal with |- runs _ _ _ ?y => replace y with x; [exact RUN|] end end.
          unfold add_cnt. rewrite B1. unfold s1. cbn [b_prime b_second b_cnt length]. f_equal; [lia|]. destruct (at_top (b_prime s) (b_second s)); auto. lia.
      - exists [], O, 93. rewrite <- EQ in HQ. split; [cbn; auto|]. split; [cbn; lia|]. split; [exact HQ|]. split; [lia|].
        intros s _ _. rewrite add_cnt_0. cbn [length]. rewrite Nat.add_0_r. destruct s; constructor. }
    destruct T as (tm & n & b & TS & TE & Hb & NB & RUN).
    assert (LBE : (e < length buf)%nat) by lia.
    destruct (skip_bracketed_inside CNone true ExConstexpr false buf q tm n b) as (r & ES); auto; try lia; [discriminate|].
    exists r. rewrite ES. f_equal. f_equal. f_equal. lia.
  Qed.

  (** The start of the array *)
  Lemma class_start : forall exact ms es buf p t, wf buf p -> jtext str_body (JArr es) t -> sub_at buf (first p) t -> (first p + length t <= last p)%nat ->
    let e := (first p + length t - 1)%nat in
    exists p1, wf buf p1 /\ last p1 = last p /\ isnull p1 = isnull p /\ at_elem buf (first p1) e es /\ (first p1 <= e)%nat /\ (e < last p)%nat /\ nth_error buf e = Some 93 /\
      parse_json_tuple_class g exact ms buf p =
      ('(vs, q) <- parse_ordered_members g ms 0 buf p1 ;;
       q <- (if exact then
               q <- trim_left_checked buf q ;;
               c <- front buf q ;;
               _ <- ensure (c =? c_rbrack) UnknownMember ;;
               trim_left_checked buf (remove_prefix q 1)
             else '(_, q) <- skip_array CNone true (c_ex g) buf q ;; Ok q) ;;
       Ok (VClass vs, set_class q (cfirst p) (clast p))).
  Proof.
    intros exact ms es buf p t HW HT HS FL e. pose proof HW as (HB & HN & HLp & cl & HC & HCL).
    destruct (array_start buf (first p) _ t HT HS) as (w & c & S0 & W & S1 & C1 & C2 & LW & HA).
    fold e in HA. pose proof (at_elem_end _ _ _ _ HA) as [LE BE].
    unfold parse_json_tuple_class. rewrite (trim_here buf p 91) by (auto; lia). cbn [bind].
    rewrite is_at_yes by (auto; lia). cbn [ensure bind].
    set (p0 := remove_prefix (set_class p (Some (first p)) (Some (last p))) 1).
    assert (F0 : first p0 = S (first p)) by (unfold p0, remove_prefix; cbn [first set_first set_class]; lia).
    assert (L0 : last p0 = last p) by reflexivity.
    rewrite (trim_to buf p0 w c); auto; [|rewrite F0; exact S1|rewrite F0, L0; lia]. cbn [bind]. rewrite F0.
    exists (set_first p0 (S (first p) + length w)).
    assert (EL : (e < last p)%nat) by (unfold e; lia).
    split. { split; auto. split; auto. split; [unfold p0; cbn [first last set_first remove_prefix set_class]; lia|].
      exists (last p). split; [reflexivity|]. cbn [last set_first]. rewrite L0. lia. }
    split; [reflexivity|]. split; [reflexivity|]. split; [exact HA|]. split; [exact LE|]. split; [exact EL|]. split; [exact BE|reflexivity].
  Qed.

  Lemma ordered_inside : forall exact ms es xs, ms <> [] -> picks_all es ms 0 xs -> (exact = true -> (length es <= past (map om_index ms) 0)%nat) ->
    forall buf p t j, wf buf p -> N.of_nat (length buf) < 2^32 -> jtext str_body (JArr es) t -> sub_at buf (first p) t ->
      ws_run buf (first p + length t) j (last p) ->
      exists q, parse_json_tuple_class g exact ms buf p = Ok (VClass xs, q) /\ moved p q /\ (first p + length t <= first q <= j)%nat.
  Proof.
    intros exact ms es xs NE HP HEx buf p t j HW H32 HT HS HF. pose proof (ws_run_le _ _ _ _ HF) as FL.
    pose proof HW as (HB & HN & HLp & cl & HC & HCL).
    destruct (class_start exact ms es buf p t HW HT HS ltac:(lia)) as (p1 & W1 & L1 & N1 & A1 & F1 & EL & BE & ->).
    set (e := (first p + length t - 1)%nat) in *.
    assert (LT : (0 < length t)%nat) by (destruct (jtext_head _ _ _ HT) as (? & ? & -> & _); cbn [length]; lia).
    assert (FE : ws_run buf (S e) j (last p)) by (replace (S e) with (first p + length t)%nat by (unfold e; lia); exact HF).
    destruct (members_ok buf e (last p) H32 EL es ms p1 xs W1 L1) as (q & EQ & MQ & FQ & DQ); auto; [now left|].
    rewrite EQ. cbn [bind]. specialize (DQ NE).
    assert (LQ : last q = last p) by (rewrite <- L1; apply MQ). assert (NQ : isnull q = isnull p) by (rewrite <- N1; apply MQ).
    assert (FIN : forall q', last q' = last q -> isnull q' = isnull q -> (first p + length t <= first q' <= j)%nat ->
      exists q0, Ok (VClass xs, set_class q' (cfirst p) (clast p)) = Ok (VClass xs, q0) /\ moved p q0 /\ (first p + length t <= first q0 <= j)%nat).
    { intros q' Q1 Q2 Q3. eexists. split; [reflexivity|]. split; [|exact Q3]. split; [cbn [last set_class]; congruence|]. split; [reflexivity|]. split; [reflexivity|]. cbn [isnull set_class]. congruence. }
    destruct exact.
    - rewrite skipn_all2 in DQ by (apply HEx; reflexivity).
      assert (TR : trim_left_checked buf q = Ok (set_first q e)).
      { destruct DQ as [(w' & W' & S' & E')|(E' & _ & B')].
        - rewrite E'. apply (trim_to buf q w' 93); auto; lia.
        - rewrite (trim_here buf q 93); [rewrite <- E'; destruct q; reflexivity|exact HB|rewrite E'; exact B'|lia]. }
      rewrite TR. cbn [bind]. unfold front. cbn [first set_first]. rewrite (rd_some _ _ _ BE). cbn [bind].
      change (93 =? c_rbrack) with true. cbn [ensure bind].
      rewrite (trim_left_run buf (remove_prefix (set_first q e) 1) j HB).
      2:{ unfold remove_prefix. cbn [first last set_first]. rewrite LQ. now replace (e + 1)%nat with (S e) by lia. }
      cbn [bind]. apply FIN; auto. cbn [first set_first]. lia.
    - rewrite HX. destruct (skip_rest buf q e _ H32 HB ltac:(lia) ltac:(lia) FQ DQ) as (r & ->). cbn [bind]. apply FIN; auto. cbn [first set_first]. lia.
  Qed.

  (** Elements that are left over at an exact class *)
  Lemma ordered_extra : forall ms es xs, ms <> [] -> picks_all es ms 0 xs -> (past (map om_index ms) 0 < length es)%nat ->
    forall buf p t, wf buf p -> N.of_nat (length buf) < 2^32 -> jtext str_body (JArr es) t -> sub_at buf (first p) t -> (first p + length t <= last p)%nat ->
      parse_json_tuple_class g true ms buf p = Err UnknownMember.
  Proof.
    intros ms es xs NE HP HL buf p t HW H32 HT HS FL.
    destruct (class_start true ms es buf p t HW HT HS FL) as (p1 & W1 & L1 & N1 & A1 & F1 & EL & BE & ->).
    set (e := (first p + length t - 1)%nat) in *.
    destruct (members_ok buf e (last p) H32 EL es ms p1 xs W1 L1) as (q & EQ & MQ & FQ & DQ); auto; [now left|].
    rewrite EQ. cbn [bind]. specialize (DQ NE). assert (LQ : last q = last p) by (rewrite <- L1; apply MQ).
    destruct (skipn (past (map om_index ms) 0) es) as [|v rest] eqn:ES.
    { apply (f_equal (@length jv)) in ES. rewrite skipn_length in ES. cbn [length] in ES. lia. }
    destruct DQ as [(w & tm & W & HM & S' & E')|(_ & Y & _)]; [|discriminate].
    change (w ++ 44 :: tm ++ [93]) with (w ++ [44] ++ tm ++ [93]) in S'. rewrite app_assoc in S'. apply sub_at_app in S' as [S' _].
    rewrite (trim_to buf q w 44); [|apply HW|exact W|exact S'|lia|lia]. cbn [bind]. apply sub_at_app in S' as [_ [S' _]].
    unfold front. cbn [first set_first]. rewrite (rd_some _ _ _ S'). reflexivity.
  Qed.

  Lemma ordereds : forall exact ms es xs, ms <> [] -> picks_all es ms 0 xs -> (exact = true -> (length es <= past (map om_index ms) 0)%nat) ->
    reads g (parse_value_ordered g exact ms) (JArr es) (VClass xs).
  Proof.
    intros exact ms es xs NE HP HEx. apply reads_bracketed; auto; [left; eauto|]. intros known buf p t j HW H32 HT HS HF.
    pose proof (followed_le _ _ _ _ _ HF) as FL. unfold parse_value_ordered.
    destruct (ordered_inside exact ms es xs NE HP HEx buf p t j HW H32 HT HS (followed_ws_run _ _ _ _ HF)) as (q & E & M & F).
    destruct (jtext_head _ _ _ HT) as (c & r & -> & _). cbn [length] in *.
    unfold has_more. replace (first p <? last p)%nat with true by lia. cbn [ensure bind].
    rewrite E. cbn [bind]. destruct known.
    - exists q. split; [reflexivity|]. split; [exact M|]. lia.
    - assert (LQ : last q = last p) by apply M.
      rewrite (trim_followed buf q j (proj1 HW)) by (rewrite LQ; eapply followed_from; [exact HF|exact F]). cbn [bind].
      eexists. split; [reflexivity|]. split; [eapply moved_trans; [exact M|repeat split]|]. cbn [first set_first]. lia.
  Qed.
End Cfg.
