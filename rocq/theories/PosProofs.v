(** Tuples whose members name their place: what they take is what the class with the
    same members takes. *)
From Coq Require Import List NArith ZArith Bool Lia Arith ZifyBool ZifyNat ZifyN.
From Verif Require Import Base Mem Loop PolicyModel IntModel StrScanModel SkipModel SpecNum SpecText SpecJson SpecUnicode
  IntProofs IntSerProofs IntValueProofs StrScanProofs StrScanProofs2 StrScanProofs3 SkipProofs BracketProofs SkipSafe
  PropertiesStr PropertiesSkip StrDecodeModel StrDecodeProofs HashModel PropertiesHash ValueModel SpecTyped
  NameProofs ClassProofs ClassProofs2 ScalarProofs ArrayProofs VariantProofs TypedProofs ZReads SerModel LaxProofs OrdModel SpecOrd OrdProofs OrdRead PosModel.
Import ListNotations.
Local Open Scope N_scope.

Section Cfg.
  Context (g : cfg).
  Hypothesis HX : c_ex g = ExConstexpr.
  Hypothesis HE : c_excl g = false.

  (** A nullable gives nothing at a bracket, and where there is no value. *)
  Definition none_ok (m : omember) : Prop := om_nullable m = true ->
    (forall buf p, nth_error buf (first p) = Some 93 -> om_parse m false buf p = Ok (VNone, p)) /\
    (forall buf v q, om_parse m true buf no_loc = Ok (v, q) -> v = VNone).

  Lemma pos_follows : forall ms, Forall none_ok ms -> forall idx buf p p1 vs q q1,
    parse_ordered_members g ms idx buf p = Ok (vs, q) -> move_next buf p = Ok p1 -> move_next buf q = Ok q1 ->
    parse_pos g ms idx buf p1 = Ok (vs, q1).
  Proof.
    intros ms F. induction F as [|m ms HM F IH]; intros idx buf p p1 vs q q1 H E1 E2.
    - cbn in H. injection H as <- <-. cbn. congruence.
    - cbn [parse_ordered_members parse_pos] in *. unfold parse_ordered_class_member in H. rewrite E1 in H. cbn [bind] in H.
      set (x := match om_index m with Some k => maybe_skip_members g buf p1 idx k | None => _ end) in *.
      destruct x as [[p2 i2]|?| |]; cbn [bind] in *; try discriminate.
      unfold front, rd in H. destruct (nth_error buf (first p2)) as [c|] eqn:EC; cbn [bind] in H; [|discriminate].
      assert (NX : forall p3 vs' q', parse_ordered_members g ms (S i2) buf p3 = Ok (vs', q') -> q' = q ->
        exists p4, move_next buf p3 = Ok p4 /\ parse_pos g ms (S i2) buf p4 = Ok (vs', q1)).
      { intros p3 vs' q' H' ->. assert (exists p4, move_next buf p3 = Ok p4) as (p4 & E4).
        { clear IH F. destruct ms as [|m2 ms]; [cbn in H'; injection H' as <- <-; eauto|].
          cbn [parse_ordered_members] in H'. unfold parse_ordered_class_member in H'. destruct (move_next buf p3); cbn in H'; try discriminate. eauto. }
        exists p4. split; [exact E4|]. eapply IH; eauto. }
      destruct (c =? c_rbrack) eqn:EB.
      + apply N.eqb_eq in EB. unfold c_rbrack in EB. subst c. destruct (om_nullable m) eqn:EN; [|discriminate]. destruct (HM EN) as [N1 N2].
        destruct (om_parse m true buf no_loc) as [[v r]|?| |] eqn:EP; cbn [bind] in H; try discriminate. apply N2 in EP. subst v.
        destruct (parse_ordered_members g ms (S i2) buf p2) as [[vs' q']|?| |] eqn:ER; cbn [bind] in H; try discriminate. injection H as <- <-.
        rewrite (N1 _ _ EC). cbn [bind]. destruct (NX p2 vs' q' ER eq_refl) as (p4 & -> & E5). cbn [bind]. rewrite E5. reflexivity.
      + destruct (om_parse m false buf p2) as [[v p3]|?| |] eqn:EP; cbn [bind] in *; try discriminate.
        destruct (parse_ordered_members g ms (S i2) buf p3) as [[vs' q']|?| |] eqn:ER; cbn [bind] in H; try discriminate. injection H as <- <-.
        destruct (NX p3 vs' q' ER eq_refl) as (p4 & -> & E5). cbn [bind]. rewrite E5. reflexivity.
  Qed.

  Lemma tuple_pos_inside : forall exact ms es xs, Forall none_ok ms -> ms <> [] -> picks_all g es ms 0 xs ->
    (exact = true -> (length es <= past (map om_index ms) 0)%nat) ->
    (forall v, nth_error es (past (map om_index ms) 0) = Some v -> no_array v) ->
    forall buf p t j, wf buf p -> N.of_nat (length buf) < 2^32 -> jtext str_body (JArr es) t -> sub_at buf (first p) t ->
      ws_run buf (first p + length t) j (last p) ->
      exists q, parse_tuple_pos g exact ms buf p = Ok (VTuple xs, q) /\ moved p q /\ (first p + length t <= first q <= j)%nat.
  Proof.
    intros exact ms es xs NO NE HP HEx HNA buf p t j HW H32 HT HS HF. pose proof (ws_run_le _ _ _ _ HF) as FL.
    pose proof HW as (HB & HN & HLp & cl & HC & HCL).
    destruct (array_start buf (first p) _ t HT HS) as (w & c & S0 & W & S1 & C1 & C2 & LW & HA).
    unfold parse_tuple_pos. rewrite (trim_here buf p 91) by (auto; lia). cbn [bind].
    rewrite is_at_yes by (auto; lia). cbn [ensure bind].
    set (p0 := remove_prefix (set_class p (Some (first p)) (Some (last p))) 1).
    assert (F0 : first p0 = S (first p)) by (unfold p0, remove_prefix; cbn [first set_first set_class]; lia).
    assert (L0 : last p0 = last p) by reflexivity.
    assert (EM : move_next buf p0 = Ok (set_first p0 (S (first p) + length w))).
    { unfold move_next, move_next_member_or_end, move_next_member_or_end_checked.
      rewrite (trim_to buf p0 w c); auto; [|rewrite F0; exact S1|rewrite F0, L0; lia]. cbn [bind]. rewrite F0.
      apply sub_at_app in S1 as [_ [S1 _]].
      rewrite (is_at_no buf _ c) by (cbn [first set_first]; auto). reflexivity. }
    rewrite EM. cbn [bind]. set (p1 := set_first p0 (S (first p) + length w)) in *.
    apply sub_at_app in S1 as [_ [S1 _]].
    rewrite (trim_here buf p1 c) by (auto; unfold p1; cbn [first set_first]; auto). cbn [bind].
    set (e := (first p + length t - 1)%nat) in *.
    assert (FE : ws_run buf (S e) j (last p)) by (replace (S e) with (first p + length t)%nat by (unfold e; lia); exact HF).
    pose proof (at_elem_end _ _ _ _ HA) as [LE BE].
    assert (EL : (e < last p)%nat) by (unfold e; lia).
    assert (W1 : wf buf p1).
    { split; auto. split; auto. split; [unfold p1, p0; cbn [first last set_first remove_prefix set_class]; lia|].
      exists (last p). split; [reflexivity|]. change (last p1) with (last p). lia. }
    destruct (members_ok g HX HE buf e (last p) H32 EL es ms p1 xs W1 eq_refl) as (q0 & EQ0 & MQ0 & FQ0 & DQ0); auto; [now left|].
    specialize (DQ0 NE). assert (LQ0 : last q0 = last p) by apply MQ0.
    destruct (between_next g buf q0 e _ HB (done_between _ _ _ _ DQ0) ltac:(lia)) as (i & E2 & LI & AQ).
    pose proof (pos_follows ms NO 0%nat buf p1 p1 xs q0 _ EQ0 (move_next_elem g buf p1 e es HB HA) E2) as EQ.
    rewrite EQ. cbn [bind]. set (q := set_first q0 i) in *.
    assert (MQ : moved p1 q) by (eapply moved_trans; [exact MQ0|repeat split]).
    change i with (first q) in AQ. assert (FQ : (first q <= e)%nat) by (unfold q; cbn [first set_first]; lia).
    set (es2 := skipn (past (map om_index ms) 0) es) in *.
    assert (HEx' : exact = true -> es2 = []) by (intros X; apply skipn_all2, HEx, X).
    assert (HNA' : forall v, hd_error es2 = Some v -> no_array v) by (intros v X; apply HNA; rewrite nth_skipn; exact X).
    assert (LQ : last q = last p) by apply MQ. assert (NQ : isnull q = isnull p) by apply MQ.
    assert (FIN : forall q', last q' = last q -> isnull q' = isnull q -> (first p + length t <= first q' <= j)%nat ->
      exists q0, Ok (VTuple xs, set_class q' (fst (cfirst p, clast p)) (snd (cfirst p, clast p))) = Ok (VTuple xs, q0) /\ moved p q0 /\ (first p + length t <= first q0 <= j)%nat).
    { intros q' Q1 Q2 Q3. eexists. split; [reflexivity|]. split; [|exact Q3]. cbn [fst snd]. split; [cbn [last set_class]; congruence|]. split; [reflexivity|]. split; [reflexivity|]. cbn [isnull set_class]. congruence. }
    destruct (at_elem_byte _ _ _ _ AQ) as (b & Hb & SB).
    destruct exact.
    - rewrite (HEx' eq_refl) in *. subst b. rewrite (trim_here buf q 93) by (auto; lia). cbn [bind]. unfold front. rewrite (rd_some _ _ _ Hb). cbn [bind].
      change (93 =? c_rbrack) with true. cbn [ensure bind]. destruct AQ as [AQ _].
      rewrite (trim_left_run buf (remove_prefix q 1) j HB).
      2:{ unfold remove_prefix. cbn [first last set_first]. rewrite LQ, AQ. now replace (e + 1)%nat with (S e) by lia. }
      cbn [bind]. apply FIN; auto. cbn [first set_first]. lia.
    - rewrite HX. unfold skip_array.
      assert (LB32 : N.of_nat (length buf) < 4294967296) by exact H32.
      clearbody es2.
      assert (T : exists tm n, sub_at buf (first q) (tm ++ [right_of false]) /\ e = (first q + length tm)%nat /\
        forall s, sub_at buf (b_i s) tm -> roomy (last q) s (length tm) ->
          runs (br_body CNone true ExConstexpr false buf (last q)) (fun s => (length buf - b_i s)%nat) s (add_cnt s n (b_i s + length tm))).
      { destruct es2 as [|m es2].
        - destruct AQ as [AQ1 AQ2]. exists [], O. split; [split; [exact AQ2|exact I]|]. split; [cbn [length]; lia|]. intros s _ _. rewrite add_cnt_0. cbn [length]. rewrite Nat.add_0_r. destruct s; constructor.
        - destruct AQ as (c' & tm & HM & _ & HSq & EE). exists (c' :: tm), (length (m :: es2) - 1)%nat. split; [exact HSq|]. split; [exact EE|].
          intros s HSs RM. apply (proj1 (proj2 (run_values CNone true ExConstexpr false buf (last q) ltac:(discriminate) ltac:(lia)))); auto. }
      destruct T as (tm & n & TS & TE & RUN).
      assert (LBE : (e < length buf)%nat) by (apply nth_error_Some; congruence).
      destruct (skip_bracketed_inside CNone true ExConstexpr false buf q tm n b) as (r & ES); auto; try lia.
      { discriminate. }
      { cbn [left_of]. change c_lbrack with 91. destruct es2 as [|m es2]; [subst b; discriminate|].
        destruct (at_elem_cons _ _ _ _ _ AQ) as (tv & Htv & HSv & _). destruct (no_array_head g m tv Htv (HNA' m eq_refl)) as (c' & r' & -> & NC).
        destruct HSv as [HSv _]. congruence. }
      rewrite ES. cbn [bind]. apply FIN; auto. cbn [first set_first]. lia.
  Qed.

  Lemma tuple_pos_extra : forall ms es xs, Forall none_ok ms -> ms <> [] -> picks_all g es ms 0 xs ->
    (past (map om_index ms) 0 < length es)%nat ->
    forall buf p t j, wf buf p -> N.of_nat (length buf) < 2^32 -> jtext str_body (JArr es) t -> sub_at buf (first p) t ->
      ws_run buf (first p + length t) j (last p) ->
      parse_tuple_pos g true ms buf p = Err UnknownMember.
  Proof.
    intros ms es xs NO NE HP HX2 buf p t j HW H32 HT HS HF. pose proof (ws_run_le _ _ _ _ HF) as FL.
    pose proof HW as (HB & HN & HLp & cl & HC & HCL).
    destruct (array_start buf (first p) _ t HT HS) as (w & c & S0 & W & S1 & C1 & C2 & LW & HA).
    unfold parse_tuple_pos. rewrite (trim_here buf p 91) by (auto; lia). cbn [bind].
    rewrite is_at_yes by (auto; lia). cbn [ensure bind].
    set (p0 := remove_prefix (set_class p (Some (first p)) (Some (last p))) 1).
    assert (F0 : first p0 = S (first p)) by (unfold p0, remove_prefix; cbn [first set_first set_class]; lia).
    assert (L0 : last p0 = last p) by reflexivity.
    assert (EM : move_next buf p0 = Ok (set_first p0 (S (first p) + length w))).
    { unfold move_next, move_next_member_or_end, move_next_member_or_end_checked.
      rewrite (trim_to buf p0 w c); auto; [|rewrite F0; exact S1|rewrite F0, L0; lia]. cbn [bind]. rewrite F0.
      apply sub_at_app in S1 as [_ [S1 _]].
      rewrite (is_at_no buf _ c) by (cbn [first set_first]; auto). reflexivity. }
    rewrite EM. cbn [bind]. set (p1 := set_first p0 (S (first p) + length w)) in *.
    apply sub_at_app in S1 as [_ [S1 _]].
    rewrite (trim_here buf p1 c) by (auto; unfold p1; cbn [first set_first]; auto). cbn [bind].
    set (e := (first p + length t - 1)%nat) in *.
    assert (FE : ws_run buf (S e) j (last p)) by (replace (S e) with (first p + length t)%nat by (unfold e; lia); exact HF).
    pose proof (at_elem_end _ _ _ _ HA) as [LE BE].
    assert (EL : (e < last p)%nat) by (unfold e; lia).
    assert (W1 : wf buf p1).
    { split; auto. split; auto. split; [unfold p1, p0; cbn [first last set_first remove_prefix set_class]; lia|].
      exists (last p). split; [reflexivity|]. change (last p1) with (last p). lia. }
    destruct (members_ok g HX HE buf e (last p) H32 EL es ms p1 xs W1 eq_refl) as (q0 & EQ0 & MQ0 & FQ0 & DQ0); auto; [now left|].
    specialize (DQ0 NE). assert (LQ0 : last q0 = last p) by apply MQ0.
    destruct (between_next g buf q0 e _ HB (done_between _ _ _ _ DQ0) ltac:(lia)) as (i & E2 & LI & AQ).
    pose proof (pos_follows ms NO 0%nat buf p1 p1 xs q0 _ EQ0 (move_next_elem g buf p1 e es HB HA) E2) as EQ.
    rewrite EQ. cbn [bind]. set (q := set_first q0 i) in *.
    assert (MQ : moved p1 q) by (eapply moved_trans; [exact MQ0|repeat split]).
    change i with (first q) in AQ. assert (FQ : (first q <= e)%nat) by (unfold q; cbn [first set_first]; lia).
    set (es2 := skipn (past (map om_index ms) 0) es) in *.
    destruct (at_elem_byte _ _ _ _ AQ) as (b & Hb & SB).
    assert (NZ : es2 <> []) by (unfold es2; intros X; apply (f_equal (@length _)) in X; rewrite skipn_length in X; cbn [length] in X; lia).
    assert (SB2 : starter b /\ b <> 93) by (destruct es2; [congruence|]; split; [exact SB|unfold starter in SB; lia]). destruct SB2 as [SB1 SB2].
    rewrite (trim_here buf q b) by (auto; unfold starter in SB1; lia). cbn [bind]. unfold front. rewrite (rd_some _ _ _ Hb). cbn [bind].
    replace (b =? c_rbrack) with false by (unfold c_rbrack; lia). reflexivity.
  Qed.

  (** ** Whole documents *)

  Lemma none_ok_members : forall ms, Forall none_ok (pos_members g ms).
  Proof.
    induction ms as [|[k t] ms IH]; cbn [pos_members map]; constructor; auto. intros HN. cbn [om_nullable om_parse fst snd] in *.
    assert (P : forall f, (forall buf p, nth_error buf (first p) = Some 93 -> parse_value_null f false buf p = Ok (VNone, p)) /\
      forall buf v q, parse_value_null f true buf no_loc = Ok (v, q) -> v = VNone).
    { intros f. split.
      - intros buf p E. unfold parse_value_null. destruct (has_more p); [|reflexivity]. unfold front. rewrite (rd_some _ _ _ E). reflexivity.
      - intros buf v q E. cbn in E. now injection E as <- _. }
    destruct t as [t|t|t|t|e mm|e ts|e ms'|n d t]; try discriminate HN; cbn [parse_o o_nullable] in *; [|apply P].
    destruct t; try discriminate HN. cbn [parse_value]. apply P.
  Qed.

  Lemma pos_leading : forall exact ms buf p c, is_bytes buf -> forall w, ws w -> sub_at buf (first p) (w ++ [c]) -> 32 < c ->
    (first p + length w < last p)%nat ->
    parse_tuple_pos g exact ms buf p = parse_tuple_pos g exact ms buf (set_first p (first p + length w)).
  Proof.
    intros exact ms buf p c HB w W HS HC HL.
    assert (T1 : trim_left_checked buf p = Ok (set_first p (first p + length w))) by (apply (trim_to buf p w c); auto; lia).
    set (p' := set_first p (first p + length w)) in *.
    assert (T2 : trim_left_checked buf p' = Ok p').
    { pose proof HS as HS'. apply sub_at_app in HS' as [_ [HS' _]]. now apply (trim_here buf p' c). }
    unfold parse_tuple_pos. now rewrite T1, T2.
  Qed.

  (** Whitespace, the text, whitespace, and possibly a terminating zero *)
  Definition pos_document (v : jv) (doc : list N) : Prop :=
    exists w0 tx w z, ws w0 /\ jtext str_body v tx /\ ws w /\ (z = [] \/ z = [0]) /\ doc = w0 ++ tx ++ w ++ z.

  Lemma pos_document_start : forall verify exact ms v doc, is_bytes doc -> pos_document v doc ->
    exists p tx, wf doc p /\ jtext str_body v tx /\ sub_at doc (first p) tx /\ SkipProofs.followed true doc (first p + length tx) (last p) (last p) /\
      from_json_pos g verify exact ms doc =
       ('(x, q) <- parse_tuple_pos g exact (pos_members g ms) doc p ;;
        if verify then
          q <- trim_left_checked doc q ;;
          _ <- ensure (ps_empty q) InvalidEndOfValue ;;
          Ok x
        else Ok x).
  Proof.
    intros verify exact ms v doc HB (w0 & tx & w & z & W0 & HT & W & HZ & ->).
    replace (w0 ++ tx ++ w ++ z) with ((w0 ++ tx ++ w) ++ z) in * by (rewrite <- !app_assoc; reflexivity).
    destruct (jtext_head _ _ _ HT) as (c0 & r0 & ET & ST). destruct (jtext_last _ _ _ HT) as (rl & cl & EL & NL).
    set (buf := (w0 ++ tx ++ w) ++ z) in *. set (l := length (w0 ++ tx ++ w)).
    assert (LL : l = (length w0 + length tx + length w)%nat) by (unfold l; rewrite !app_length; lia).
    assert (LB : (l <= length buf)%nat) by (unfold buf; rewrite app_length; fold l; lia).
    assert (STX : sub_at buf (length w0) tx).
    { unfold buf. replace ((w0 ++ tx ++ w) ++ z) with (w0 ++ tx ++ (w ++ z)) by (rewrite <- !app_assoc; reflexivity). apply sub_at_mid. }
    assert (LT : (0 < length tx)%nat) by (rewrite ET; cbn; lia).
    set (p := set_first (new_ps 0 l) (length w0)).
    assert (WF : wf buf p) by (apply wf_doc; auto; lia).
    exists p, tx. split; [exact WF|]. split; [exact HT|]. split; [exact STX|]. split.
    { exists w. split; [exact W|]. unfold p. cbn [first last set_first new_ps]. split; [|split; [lia|split; [lia|left; auto]]].
      unfold buf. replace ((w0 ++ tx ++ w) ++ z) with ((w0 ++ tx) ++ w ++ z) by (rewrite <- !app_assoc; reflexivity).
      rewrite <- app_length. apply sub_at_mid. }
    unfold from_json_pos.
    replace (length buf =? 0)%nat with false by lia. cbn [negb ensure bind].
    assert (ER : exists b, nth_error buf (length buf - 1) = Some b /\ (if b =? 0 then (length buf - 1)%nat else length buf) = l).
    { destruct HZ as [-> | ->].
      - assert (LE : length buf = l) by (unfold buf; rewrite app_nil_r; reflexivity).
        destruct (ws_last rl cl w NL W) as (r' & c' & E' & N'). exists c'. split; [|replace (c' =? 0) with false by lia; exact LE].
        unfold buf. rewrite app_nil_r, EL. replace (length (w0 ++ (rl ++ [cl]) ++ w)) with (length w0 + S (length r'))%nat
          by (rewrite E', !app_length; cbn [length]; lia). rewrite E'. rewrite nth_error_app2 by lia.
        replace (length w0 + S (length r') - 1 - length w0)%nat with (length r') by lia. rewrite nth_error_app2, Nat.sub_diag by lia. reflexivity.
      - exists 0. assert (LE : length buf = S l) by (unfold buf; rewrite app_length; cbn [length]; fold l; lia).
        split; [|cbn [N.eqb]; lia]. rewrite LE. replace (S l - 1)%nat with l by lia. unfold buf. rewrite nth_error_app2 by (fold l; lia). fold l. rewrite Nat.sub_diag. reflexivity. }
    destruct ER as (b & Eb & EL'). rewrite (rd_some _ _ _ Eb). cbn [bind]. cbv zeta. rewrite EL'.
    rewrite (pos_leading exact (pos_members g ms) buf (new_ps 0 l) c0 HB w0 W0); cbn [first last new_ps]; [reflexivity| | |lia].
    - unfold buf. rewrite <- app_assoc. rewrite ET.
      replace (w0 ++ ((c0 :: r0) ++ w) ++ z) with ((w0 ++ [c0]) ++ (r0 ++ w) ++ z) by (rewrite <- !app_assoc; reflexivity). apply sub_at_0.
    - unfold starter in ST. lia.
  Qed.
End Cfg.
