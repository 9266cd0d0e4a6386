(** Exact mappings refuse members that are not mapped; elements of an array are
    separated by commas. *)
From Coq Require Import List NArith ZArith Bool Lia Arith ZifyBool ZifyNat ZifyN.
From Verif Require Import Base Mem Loop PolicyModel IntModel StrScanModel SkipModel SpecNum SpecText SpecJson SpecUnicode
  IntProofs IntSerProofs IntValueProofs StrScanProofs StrScanProofs2 StrScanProofs3 SkipProofs BracketProofs SkipSafe
  PropertiesInt PropertiesStr PropertiesSkip StrDecodeModel StrDecodeProofs HashModel PropertiesHash ValueModel SpecTyped
  NameProofs ClassProofs ClassProofs2 ScalarProofs ArrayProofs TypedProofs RejectProofs.
Import ListNotations.
Local Open Scope N_scope.

Section Exact.
  Context (g : cfg).
  Hypothesis HX : c_ex g = ExConstexpr.
  Hypothesis HE : c_excl g = false.
  Context (names : list (list N)).
  Hypothesis NDN : NoDup names.
  Context (buf : list N).
  Hypothesis H32 : N.of_nat (length buf) < 2^32.

  Definition mapped (js : list (list N * jv)) : Prop := forall k, In k (map fst js) -> In k names.

  Definition find_post (pos e : nat) (passed rest : list (list N * jv)) (p : ps) (r : res (ps * list ps)) : Prop :=
    r = Err UnknownMember \/
    exists p' locs', r = Ok (p', locs') /\
      moved p p' /\ (first p <= first p' <= e)%nat /\
      ((exists d, mapped d /\ found_at g names buf pos e (passed ++ d) p' locs' (passed ++ rest)) \/
       (mapped rest /\ at_member buf (first p') e [] /\ isnull (nth pos locs' no_loc) = true /\ locs_ok g names buf pos (passed ++ rest) locs')).

  Lemma find_loop_exact : forall pos e, (pos < length names)%nat ->
    forall rest p locs passed fuel, (length rest < fuel)%nat ->
    wf buf p -> (e < last p)%nat -> at_member buf (first p) e rest -> rest_ok g names false pos passed rest -> locs_ok g names buf pos passed locs ->
    isnull (nth pos locs no_loc) = true ->
    find_post pos e passed rest p (loop (find_body g true names pos buf) fuel (p, locs)).
  Proof.
    intros pos e HP. induction rest as [|[k v] rest IH]; intros p locs passed fuel HF HW HL HA HR HLo HM; (destruct fuel as [|fuel]; [lia|]); cbn [loop].
    - unfold find_body. rewrite HM. pose proof HW as (HB & HN & HLp & _).
      assert (PE : ps_empty p = false).
      { unfold ps_empty. rewrite HN. cbn [orb]. destruct HA as [-> _]. lia. }
      rewrite PE, (front_member buf p e []) by exact HA. cbn [bind]. change (125 =? c_rbrace) with true. cbn [negb bind].
      right. exists p, locs. split; [reflexivity|]. split; [apply moved_refl|]. destruct HA as [-> HA].
      split; [lia|]. right. split; [intros ? []|]. rewrite app_nil_r. split; [split; [reflexivity|assumption]|]. auto.
    - unfold find_body at 1. rewrite HM. pose proof HW as (HB & HN & HLp & cl & HC & HCL).
      pose proof (at_member_end _ _ _ _ HA) as [LE _].
      assert (PE : ps_empty p = false).
      { unfold ps_empty. rewrite HN. cbn [orb]. lia. }
      rewrite PE, (front_member buf p e ((k, v) :: rest)) by exact HA. cbn [bind]. change (34 =? c_rbrace) with false. cbn [negb bind].
      destruct (at_member_cons _ _ _ _ _ _ HA) as (w2 & w3 & t & Hk & H2 & H3 & Ht & HS & HRem).
      destruct (jtext_head _ _ _ Ht) as (c & tr & Et & SC).
      pose proof (rem_end _ _ _ _ HRem) as [RL _].
      set (i1 := (first p + length k + length w2 + length w3 + 3)%nat) in *.
      destruct HR as (ND & FO & EX).
      pose proof (Forall_inv FO) as [NOk TK]. cbn [fst] in NOk, TK.
      assert (S1 : sub_at buf (first p) (34 :: k ++ 34 :: w2 ++ 58 :: w3 ++ [c]) /\ sub_at buf i1 t).
      { split.
        - subst t. replace (34 :: k ++ 34 :: w2 ++ 58 :: w3 ++ c :: tr) with ((34 :: k ++ 34 :: w2 ++ 58 :: w3 ++ [c]) ++ tr) in HS
            by (repeat (rewrite <- ?app_assoc; cbn [app]); reflexivity).
          apply sub_at_app in HS. apply HS.
        - replace (34 :: k ++ 34 :: w2 ++ 58 :: w3 ++ t) with ((34 :: k ++ 34 :: w2 ++ 58 :: w3) ++ t) in HS
            by (repeat (rewrite <- ?app_assoc; cbn [app]); reflexivity).
          apply sub_at_app in HS as [_ HS]. unfold i1. len.
          match goal with H : sub_at buf ?a t |- sub_at buf ?b _ => now replace b with a by lia end. }
      destruct S1 as [SN ST].
      assert (LBK : N.of_nat (length k) < 2^64).
      { change (2^64) with 18446744073709551616. change (2^32) with 4294967296 in H32. lia. }
      rewrite (parse_name_ok g buf p k w2 w3 c HX HE HW NOk H2 H3 SN (proj1 SC)); [|unfold i1 in RL; lia|exact LBK].
      fold i1. cbn [bind].
      assert (W1 : wf buf (set_first p i1)).
      { apply (moved_wf buf p); [apply moved_first|exact HW|]. cbn [first last set_first]. lia. }
      destruct (rem_followed _ _ _ _ (last p) HRem HL) as (j & FJ & JE & RJ).
      assert (SKIP : exists r q, skip_val g buf (set_first p i1) = Ok (r, q) /\ moved p q /\ (i1 + length t <= first q <= j)%nat /\
        (v = JNull -> isnull r = true) /\ (v <> JNull -> isnull r = false /\ located g buf v r)).
      { destruct (skip_here g HX HE buf (set_first p i1) v t j W1 H32 Ht ST FJ) as (r & q & A & B & C & D & F).
        - intros ->. assert (L4 : length t = 4%nat) by (inversion Ht; reflexivity). cbn [first last set_first]. lia.
        - exists r, q. repeat split; auto; try apply B; try apply C; apply F; auto.
          cbn [first set_first]. unfold i1.
          replace (34 :: k ++ 34 :: w2 ++ 58 :: w3 ++ [c]) with ((34 :: k ++ 34 :: w2) ++ 58 :: w3 ++ [c]) in SN
            by (repeat (rewrite <- ?app_assoc; cbn [app]); reflexivity).
          apply behind_ok in SN; auto. len.
          match goal with H : behind buf ?a |- behind buf ?b => now replace b with a by lia end. }
      assert (NEXT : forall q, moved p q -> (i1 + length t <= first q <= j)%nat ->
        exists q', move_next buf q = Ok q' /\ moved p q' /\ (first p <= first q' <= e)%nat /\ at_member buf (first q') e rest /\ wf buf q').
      { intros q MQ LQ. destruct (move_next_rem buf q e rest HB) as (i2 & E2 & L2 & A2).
        - apply RJ. exact LQ.
        - rewrite (proj1 MQ). exact HL.
        - exists (set_first q i2). split; [exact E2|]. assert (MQ' : moved p (set_first q i2)) by (eapply moved_trans; [exact MQ|apply moved_first]).
          split; [exact MQ'|]. pose proof (at_member_end _ _ _ _ A2) as [L3 _]. cbn [first set_first]. split; [unfold i1 in *; lia|]. split; [exact A2|].
          apply (moved_wf buf p); auto. cbn [first last set_first]. rewrite (proj1 MQ). lia. }
      assert (ST2 : rest_ok g names false pos (passed ++ [(k, v)]) rest).
      { apply rest_ok_step. split; [exact ND|]. split; [exact FO|exact EX]. }
      assert (ASK : forall nm, assoc nm (passed ++ [(k, v)]) = match assoc nm passed with Some y => Some y | None => if list_eq_dec N.eq_dec k nm then Some v else None end).
      { intros nm. rewrite assoc_app. destruct (assoc nm passed); auto. }
      set (kk := find_name (c_force g) false names pos k).
      destruct (Nat.leb_spec (length names) kk) as [OUT|INN]; [left; reflexivity|].
      + assert (Enk : nth_error names kk = Some k).
        { destruct (nth_error names kk) as [nm|] eqn:E; [|apply nth_error_None in E; lia]. f_equal.
          destruct (find_name_hash _ _ _ _ _ _ E) as (A & B & C).
          destruct TK as [TK|TK]; [symmetry; auto|apply TK; auto; eapply nth_error_In; eauto]. }
        assert (GE : (pos <= kk)%nat) by (eapply find_name_hash; exact Enk).
        assert (AK : assoc k passed = None).
        { apply assoc_none. apply (once_mid names passed k v rest ND). eapply nth_error_In; eauto. }
        destruct HLo as [LL HLo].
        destruct (Nat.eqb_spec kk pos) as [EQ|NE].
        * (* the member looked for *)
          cbn [bind]. right. eexists. eexists. split; [reflexivity|]. split; [apply moved_first|]. cbn [first set_first]. split; [unfold i1 in *; lia|].
          left. exists []. split; [intros ? []|]. rewrite app_nil_r. exists k, v, t, rest. split; [now rewrite <- EQ|]. split; [reflexivity|]. split; [exact Ht|]. split; [exact ST|].
          split; [exact HRem|]. split.
          -- rewrite (set_nth_same g buf H32) by lia. exact HN.
          -- split; [now rewrite set_nth_length|]. intros m nm Hm Enm. rewrite (set_nth_other g buf H32) by lia. rewrite ASK.
             specialize (HLo m nm ltac:(lia) Enm). destruct (assoc nm passed); auto.
             destruct (list_eq_dec N.eq_dec k nm) as [<-|_]; auto.
             exfalso. rewrite NoDup_nth_error in NDN. assert (kk = m); [apply NDN; [lia|congruence]|lia].
        * (* another mapped member *)
          destruct SKIP as (r & q & E1 & MQ & LQ & RN & RV). rewrite E1. cbn [bind].
          destruct (NEXT q MQ LQ) as (q' & E2 & MQ' & LQ' & A2 & WQ'). rewrite E2. cbn [bind].
          assert (MK : forall d, mapped d -> mapped ((k, v) :: d)).
          { intros d Hd k0 [<-|H0]; [eapply nth_error_In; exact Enk|now apply Hd]. }
          destruct (IH q' (set_nth locs kk r) (passed ++ [(k, v)]) fuel) as [EL|(p' & locs' & EL & MP & LP & RES)]; auto.
          -- cbn [length] in HF. lia.
          -- rewrite (proj1 MQ'). exact HL.
          -- split; [now rewrite set_nth_length|]. intros m nm Hm Enm. rewrite ASK. specialize (HLo m nm Hm Enm).
             destruct (Nat.eq_dec m kk) as [->|Nm].
             ++ assert (nm = k) by congruence. subst nm. rewrite AK. destruct (list_eq_dec N.eq_dec k k); [|congruence].
                rewrite (set_nth_same g buf H32) by lia. auto.
             ++ rewrite (set_nth_other g buf H32) by lia. destruct (assoc nm passed); auto.
                destruct (list_eq_dec N.eq_dec k nm) as [<-|_]; auto.
                exfalso. apply Nm. rewrite NoDup_nth_error in NDN. apply NDN; [apply nth_error_Some; congruence|congruence].
          -- rewrite (set_nth_other g buf H32) by lia. exact HM.
          -- left. exact EL.
          -- right. exists p', locs'. split; [exact EL|]. split; [eapply moved_trans; eauto|]. split; [lia|].
             rewrite <- app_assoc in RES. destruct RES as [(d & MD & RES)|(MR & RES)]; [left; exists ((k, v) :: d); split; [now apply MK|]|right; split; [now apply MK|exact RES]].
          rewrite <- app_assoc in RES. exact RES.
  Qed.

  Lemma parse_member_exact : forall pos e passed rest p locs m x, nth_error names pos = Some (m_name m) ->
    inv g names false buf pos e passed rest p locs -> mapped passed -> gets g m (passed ++ rest) x ->
    parse_class_member g true names pos (m_nullable m) (m_parse m) buf p locs = Err UnknownMember \/
    exists p' locs' passed' rest', parse_class_member g true names pos (m_nullable m) (m_parse m) buf p locs = Ok (x, p', locs') /\
      moved p p' /\ (first p <= first p' <= e)%nat /\ passed' ++ rest' = passed ++ rest /\ mapped passed' /\ inv g names false buf (S pos) e passed' rest' p' locs'.
  Proof.
    intros pos e passed rest p locs m x Hn (HW & HL & HA & HR & HLo) MP HG. unfold parse_class_member.
    pose proof HW as (HB & HN & HLp & cl & HC & HCL).
    assert (X : exists i, move_next buf p = Ok (set_first p i) /\ (first p <= i)%nat /\ at_member buf i e rest).
    { destruct HA as [HA|HA].
      - exists (first p). split; [|split; [lia|exact HA]]. rewrite (move_next_here buf p e rest HB HA). destruct p; reflexivity.
      - apply move_next_rem; auto. }
    clear HA. destruct X as (i & E1 & L1 & HA). rewrite E1. cbn [bind].
    set (p1 := set_first p i) in *.
    pose proof (at_member_end _ _ _ _ HA) as [LE BE].
    assert (M1 : moved p p1) by apply moved_first.
    assert (W1 : wf buf p1) by (apply (moved_wf buf p); auto; unfold p1; cbn [first last set_first]; lia).
    assert (PE : ps_empty p1 = false).
    { unfold ps_empty, p1. cbn [isnull first last set_first]. rewrite HN. cbn [orb]. lia. }
    change i with (first p1) in HA. change (last p) with (last p1) in HL.
    rewrite PE, (front_member buf p1 e rest HA). cbn [bind].
    replace ((match rest with [] => 125 | _ => 34 end =? c_quote) || (match rest with [] => 125 | _ => 34 end =? c_rbrace)) with true
      by (destruct rest; reflexivity).
    cbn [ensure bind]. unfold find_class_member.
    assert (PL : (pos < length names)%nat) by (apply nth_error_Some; congruence).
    assert (BR : is_at buf p1 c_rbrace = Ok (match rest with [] => true | _ => false end)).
    { destruct (at_member_byte _ _ _ _ HA) as (b & Hb & Eb). unfold is_at, has_more, front. replace (first p1 <? last p1)%nat with true by (cbn [first] in *; unfold p1 in *; cbn [first last set_first] in *; lia).
      rewrite (rd_some _ _ _ Hb). cbn [bind]. subst b. destruct rest; reflexivity. }
    rewrite BR. cbn [bind].
    assert (EN : m_nullable m || negb (isnull (nth pos locs no_loc)) || negb (match rest with [] => true | _ => false end) = true).
    { destruct rest; [|apply orb_true_r]. rewrite app_nil_r in HG. unfold gets in HG. destruct HLo as [_ HLo]. specialize (HLo pos _ (le_n _) Hn).
      destruct (assoc (m_name m) passed) as [v|].
      - destruct (isnull (nth pos locs no_loc)) eqn:I; [|now rewrite orb_true_r].
        assert (v = JNull) as ->.
        { destruct HLo as [_ HLo]. destruct v; auto; exfalso; (destruct HLo as [Y _]; [discriminate|congruence]). }
        destruct HG as [_ HG]. destruct (HG eq_refl) as [-> _]. reflexivity.
      - destruct HG as [-> _]. reflexivity. }
    rewrite EN. cbn [ensure bind].
    assert (TU : trim_left_unchecked buf p1 = Ok p1).
    { destruct (at_member_byte _ _ _ _ HA) as (b & Hb & Eb). apply (trim_unchecked_here buf p1 b); auto. destruct rest; lia. }
    rewrite TU. cbn [bind].
    destruct (isnull (nth pos locs no_loc)) eqn:I.
    - (* not seen yet *)
      assert (RLn : (length rest < S (length buf))%nat).
      { destruct rest as [|? ?]; [cbn; lia|]. destruct HA as (tm & HM & _ & HS & _). apply jmembers_length in HM. apply sub_at_length in HS; [|intros Y; apply app_eq_nil in Y as [_ Y]; discriminate].
        rewrite app_length in HS. cbn [length] in *. lia. }
      destruct (find_loop_exact pos e PL rest p1 locs passed _ RLn W1 HL HA HR HLo I) as [EL|(p2 & locs2 & EL & M2 & L2 & RES)];
        rewrite EL; cbn [bind negb orb]; [left; reflexivity|]. right.
      destruct RES as [(d & MD & FA)|(MR & A2 & I2 & LO2)].
      + destruct FA as (nm & v & t & rest' & En & EA & Ht & HS & HRem & I2 & LO2).
        assert (nm = m_name m) as -> by congruence.
        rewrite I2. cbn [negb].
        destruct (rem_followed _ _ _ _ (last p2) HRem) as (j & FJ & JE & RJ); [rewrite (proj1 M2); exact HL|].
        assert (W2 : wf buf p2) by (apply (moved_wf buf p1); auto; rewrite (proj1 M2); lia).
        assert (HV : reads g (m_parse m) v x).
        { unfold gets in HG. rewrite <- EA in HG. rewrite (assoc_mid names) in HG; [apply HG| |eapply nth_error_In; eauto]. rewrite EA. apply HR. }
        destruct (proj1 HV buf p2 t j W2 H32 Ht HS FJ) as (q & EQ & MQ & LQ). rewrite EQ. cbn [bind].
        exists q, locs2, ((passed ++ d) ++ [(m_name m, v)]), rest'. split; [reflexivity|].
        assert (MM : moved p q) by (eapply moved_trans; [exact M1|]; eapply moved_trans; eauto).
        split; [exact MM|]. split; [unfold p1 in L2; cbn [first set_first] in L2; lia|]. split; [now rewrite <- app_assoc|].
        split; [intros k0 Hk0; rewrite !map_app in Hk0; apply in_app_or in Hk0 as [Hk0|[<-|[]]]; [apply in_app_or in Hk0 as [Hk0|Hk0]; auto|eapply nth_error_In; exact Hn]|].
        split; [apply (moved_wf buf p); auto; rewrite (proj1 MM); unfold p1 in HL; cbn [last set_first] in HL; lia|].
        split; [rewrite (proj1 MM); exact HL|]. split; [right; apply RJ; exact LQ|].
        split; [|exact LO2].
        assert (NI : ~ In (m_name m) (map fst rest')).
        { destruct HR as (ND & _). rewrite <- EA in ND. apply (once_mid names _ _ _ _ ND). eapply nth_error_In; eauto. }
        assert (ER : rest = (d ++ [(m_name m, v)]) ++ rest').
        { rewrite <- app_assoc in EA. apply app_inv_head in EA. rewrite <- app_assoc. auto. }
        eapply (rest_ok_next g names false buf H32); [exact Hn| |exact NI]. rewrite ER in HR. apply rest_ok_suffix in HR. now rewrite app_assoc in HR.
      + rewrite I2. cbn [negb orb].
        assert (NV : m_nullable m = true /\ x = VNone).
        { unfold gets in HG. destruct LO2 as [_ LO2]. specialize (LO2 pos _ (le_n _) Hn). destruct (assoc (m_name m) (passed ++ rest)) as [v|]; auto.
          apply HG. destruct v; auto; exfalso; (destruct LO2 as [_ LO2]; destruct LO2 as [Y _]; [discriminate|congruence]). }
        destruct NV as [-> ->]. exists p2, locs2, (passed ++ rest), []. split; [reflexivity|].
        assert (MM : moved p p2) by (eapply moved_trans; [exact M1|exact M2]).
        split; [exact MM|]. split; [unfold p1 in L2; cbn [first set_first] in L2; lia|]. split; [now rewrite app_nil_r|].
        split; [intros k0 Hk0; rewrite map_app in Hk0; apply in_app_or in Hk0 as [Hk0|Hk0]; auto|].
        split; [apply (moved_wf buf p); auto; rewrite (proj1 MM); unfold p1 in HL; cbn [last set_first] in HL; lia|].
        split; [rewrite (proj1 MM); exact HL|]. split; [left; exact A2|]. split; [|now apply (locs_ok_weaken g names buf H32 (fun _ => located g buf))].
        destruct HR as (Y1 & Y2 & Y3). split; [now rewrite app_nil_r|]. split; [constructor|]. intros _ k [].
    - (* seen before *)
      assert (EL : loop (find_body g true names pos buf) (S (length buf)) (p1, locs) = Ok (p1, locs)).
      { cbn [loop]. unfold find_body. rewrite I. reflexivity. }
      rewrite EL. cbn [bind negb orb]. rewrite I.
      pose proof HLo as [LL HLo']. specialize (HLo' pos _ (le_n _) Hn).
      destruct (assoc (m_name m) passed) as [v|] eqn:EV; [|congruence].
      assert (NJ : v <> JNull) by (intros ->; destruct HLo' as [Y _]; specialize (Y eq_refl); congruence).
      destruct (proj2 HLo' NJ) as [_ LOC].
      unfold gets in HG. rewrite assoc_app, EV in HG. destruct HG as [[_ HV] _].
      destruct (HV NJ buf _ H32 LOC) as (q & EQ). rewrite EQ. cbn [bind].
      right. exists p1, locs, passed, rest. split; [reflexivity|]. split; [exact M1|]. unfold p1 at 1 2. cbn [first set_first]. split; [cbn [first] in LE; unfold p1 in LE; cbn in LE; lia|].
      split; [reflexivity|]. split; [exact MP|]. split; [exact W1|]. split; [exact HL|]. split; [left; exact HA|]. split; [|now apply (locs_ok_weaken g names buf H32 (fun _ => located g buf))].
      eapply (rest_ok_next g names false buf H32); eauto. apply assoc_some_in in EV. destruct HR as (ND & _).
      apply nth_error_In in Hn. specialize (ND _ Hn). rewrite map_app, count_occ_app in ND.
      apply (count_occ_In (list_eq_dec N.eq_dec)) in EV.
      intros Y. apply (count_occ_In (list_eq_dec N.eq_dec)) in Y. lia.
  Qed.

  Lemma parse_members_exact : forall ms xs pre e passed rest p locs, names = pre ++ map m_name ms ->
    inv g names false buf (length pre) e passed rest p locs -> mapped passed -> Forall2 (fun m x => gets g m (passed ++ rest) x) ms xs ->
    parse_members g true names (length pre) ms buf p locs = Err UnknownMember \/
    exists p' locs' passed' rest', parse_members g true names (length pre) ms buf p locs = Ok (xs, p') /\ moved p p' /\
      passed' ++ rest' = passed ++ rest /\ mapped passed' /\ inv g names false buf (length names) e passed' rest' p' locs'.
  Proof.
    induction ms as [|m ms IH]; intros xs pre e passed rest p locs EN HI HM HG; inversion HG as [|? x ? xs' G1 G2]; subst xs; cbn [parse_members].
    - right. exists p, locs, passed, rest. split; [reflexivity|]. split; [apply moved_refl|]. split; [reflexivity|]. split; [exact HM|].
      cbn [map] in EN. rewrite app_nil_r in EN. replace (length names) with (length pre) by now rewrite EN. exact HI.
    - destruct (parse_member_exact (length pre) e passed rest p locs m x) as [E1|(p1 & locs1 & pa1 & re1 & E1 & M1 & L1 & A1 & MM & I1)]; auto.
      { rewrite EN, nth_error_app2, Nat.sub_diag by lia. reflexivity. }
      { left. rewrite E1. reflexivity. }
      rewrite E1. cbn [bind].
      destruct (IH xs' (pre ++ [m_name m]) e pa1 re1 p1 locs1) as [E2|(p2 & locs2 & pa2 & re2 & E2 & M2 & A2 & MM2 & I2)].
      + rewrite EN, <- app_assoc. reflexivity.
      + rewrite app_length, Nat.add_comm. exact I1.
      + exact MM.
      + now rewrite A1.
      + left. rewrite app_length, Nat.add_comm in E2. cbn [length Nat.add] in E2. rewrite E2. reflexivity.
      + right. rewrite app_length, Nat.add_comm in E2. cbn [length Nat.add] in E2. rewrite E2. cbn [bind].
        exists p2, locs2, pa2, re2. split; [reflexivity|]. split; [eapply moved_trans; eauto|]. split; [congruence|]. split; [exact MM2|exact I2].
  Qed.

  Lemma cleanup_exact : forall e passed kv rest p locs old, inv g names false buf (length names) e passed (kv :: rest) p locs ->
    class_cleanup_now g true old buf p = Err UnknownMember.
  Proof.
    intros e passed kv rest p locs old (HW & HL & HA & HR & HLo). pose proof HW as (HB & HN & HLp & cl & HC & HCL).
    unfold class_cleanup_now.
    assert (LE0 : (first p <= e)%nat) by (destruct HA as [HA|HA]; [apply at_member_end in HA|apply rem_end in HA]; lia).
    unfold has_more. replace (first p <? last p)%nat with true by lia. cbn [ensure bind].
    assert (X : exists i, move_next buf p = Ok (set_first p i) /\ (first p <= i)%nat /\ at_member buf i e (kv :: rest)).
    { destruct HA as [HA|HA].
      - exists (first p). split; [|split; [lia|exact HA]]. rewrite (move_next_here buf p e _ HB HA). destruct p; reflexivity.
      - apply move_next_rem; auto. }
    clear HA. destruct X as (i & E1 & L1 & HA). rewrite E1. cbn [bind].
    pose proof (at_member_end _ _ _ _ HA) as [LE BE].
    destruct (at_member_byte _ _ _ _ HA) as (b & Hb & Eb). cbn in Eb. subst b.
    unfold move_to_next_class_member. rewrite HX. unfold has_more. cbn [first last set_first]. replace (i <? last p)%nat with true by lia.
    cbn [ensure bind loop]. rewrite (rd_some _ _ _ Hb). cbn [bind]. change ((34 =? c_quote) || (34 =? c_rbrace)) with true. cbn iota. cbn [bind].
    unfold front. cbn [first set_first]. rewrite (rd_some _ _ _ Hb). reflexivity.
  Qed.
End Exact.

(** The object has a member that is not mapped, and would be read by a class
    that ignores it. *)
Lemma class_exact : forall g ms js xs k, c_ex g = ExConstexpr -> c_excl g = false -> fits g false ms js xs ->
  In k (map fst js) -> ~ In k (map m_name ms) ->
  forall buf p t, wf buf p -> N.of_nat (length buf) < 2^32 -> jtext str_body (JObj js) t -> sub_at buf (first p) t ->
    (first p + length t <= last p)%nat ->
    parse_json_class g true ms buf p = Err UnknownMember.
Proof.
    intros g ms js xs k HX HE (ND & NDJ & FO & _ & HG) IK NK buf p t HW H32 HT HS HL. unfold parse_json_class.
    pose proof HW as (HB & HN & HLp & cl & HC & HCL).
    destruct (object_start g buf (first p) js t HT HS) as (w & c & S0 & W & S1 & C1 & LW & HA).
    rewrite (trim_here buf p 123) by (auto; lia). cbn [bind].
    rewrite is_at_yes by (auto; lia). cbn [ensure bind].
    set (p0 := remove_prefix (set_class p (Some (first p)) (Some (last p))) 1).
    assert (F0 : first p0 = S (first p)) by (unfold p0, remove_prefix; cbn [first set_first set_class]; lia).
    assert (L0 : last p0 = last p) by reflexivity.
    rewrite (trim_to buf p0 w c) by (auto; rewrite ?F0, ?L0; auto; lia). cbn [bind]. rewrite F0.
    set (p1 := set_first p0 (S (first p) + length w)) in *.
    set (e := (first p + length t - 1)%nat) in *.
    pose proof (at_member_end _ _ _ _ HA) as [LE BE].
    assert (W1 : wf buf p1).
    { split; auto. split; auto. split; [unfold p1, p0; cbn [first last set_first remove_prefix set_class]; lia|].
      exists (last p). split; [reflexivity|]. change (last p1) with (last p). lia. }
    assert (I0 : inv g (map m_name ms) false buf (length (@nil (list N))) e [] js p1 (map (fun _ => no_loc) ms)).
    { split; [exact W1|]. split; [change (last p1) with (last p); unfold e; lia|]. split; [left; exact HA|]. split.
      - split; [exact NDJ|]. split; [exact FO|]. discriminate.
      - split; [now rewrite !map_length|]. intros m nm _ _. cbn [assoc].
        destruct (nth_in_or_default m (map (fun _ : member => no_loc) ms) no_loc) as [Y| ->]; [|reflexivity].
        apply in_map_iff in Y as (? & <- & _). reflexivity. }
    assert (M0 : mapped (map m_name ms) []) by (intros ? []).
    destruct (parse_members_exact g HX HE (map m_name ms) ND buf H32 ms xs [] e [] js p1 _ eq_refl I0 M0 HG) as [E2|(p2 & locs2 & pa & re & E2 & M2 & A2 & MM & I2)];
      cbn [length] in E2; rewrite E2; cbn [bind]; [reflexivity|].
    destruct re as [|kv re].
    - exfalso. apply NK, MM. cbn [app] in A2. rewrite app_nil_r in A2. now rewrite A2.
    - now rewrite (cleanup_exact g HX (map m_name ms) buf H32 e pa kv re p2 locs2).
Qed.

(** ** What is not a comma between two elements *)

(** At [i] the elements [es] stand, each with a comma after it, then [v], and
    after its whitespace something that is neither a comma nor the end of the
    array. *)
Fixpoint broken (buf : list N) (i l : nat) (es : list jv) (v : jv) : Prop :=
  match es with
  | [] => exists t j b, jtext str_body v t /\ sub_at buf i t /\ then_garbage buf v (i + length t) j l /\
            nth_error buf j = Some b /\ b <> 44 /\ b <> 93
  | e :: es => exists t w w', jtext str_body e t /\ ws w /\ ws w' /\ sub_at buf i (t ++ w ++ 44 :: w') /\
            broken buf (i + length t + length w + 1 + length w') l es v
  end.

Lemma broken_start : forall buf i l es v, broken buf i l es v ->
  (i < l)%nat /\ exists c, nth_error buf i = Some c /\ starter c.
Proof.
  intros buf i l es. revert i. induction es as [|e es IH]; intros i v; cbn [broken].
  - intros (t & j & b & HT & HS & (HR & HJ & _) & _). apply ws_run_le in HR. split; [lia|].
    destruct (jtext_head _ _ _ HT) as (c & r & -> & ST). exists c. split; [apply HS|exact ST].
  - intros (t & w & w' & HT & _ & _ & HS & HB). apply IH in HB as [HB _]. split; [lia|].
    destruct (jtext_head _ _ _ HT) as (c & r & -> & ST). exists c. split; [apply HS|exact ST].
Qed.

Section Separators.
  Context (g : cfg).
  Hypothesis HX : c_ex g = ExConstexpr.
  Hypothesis HE : c_excl g = false.
  Context (nc : list (list N) -> list N -> Prop).
  Hypothesis HNC : forall names k, nc names k -> name_ok g k /\ tells g names k.
  Context (t : ty).
  Context (buf : list N).
  Hypothesis H32 : N.of_nat (length buf) < 2^32.

  Lemma array_broken_loop : forall es v x fuel p vs, Forall (fun e => exists y, typed nc t e y) es -> typed nc t v x -> (takes_text t = true -> forall s, ~ literal v s) ->
    (length es < fuel)%nat -> wf buf p -> broken buf (first p) (last p) es v ->
    exists e, loop (array_body (parse_value g t) buf) fuel (p, vs) = Err e.
  Proof.
    induction es as [|e0 es IH]; intros v x fuel p vs HF HT HTT HU HW HA; (destruct fuel as [|fuel]; [cbn in HU; lia|]);
      cbn [loop]; unfold array_body at 1; pose proof HW as (HB & HN & HLp & cl & HC & HCL);
      destruct (broken_start _ _ _ _ _ HA) as [LP _];
      (assert (HM : has_more p = true) by (unfold has_more; apply Nat.ltb_lt; lia)); rewrite HM; cbn [ensure bind]; cbn [broken] in HA.
    - destruct HA as (tx & j & b & HTx & HS & HG & Hb & N1 & N2).
      destruct (stops g HX HE nc HNC t v x HT HTT buf p tx j HW H32 HTx HS HG) as [(y & q & EQ & MQ & LQ)|(er & EQ)]; rewrite EQ; cbn [bind]; [|eauto].
      destruct HG as (HR & HJ & _). assert (LQl : last q = last p) by apply MQ.
      rewrite (trim_left_run buf q j HB) by (rewrite LQl; eapply ws_run_from; [exact HR|exact LQ]). cbn [bind].
      unfold has_more at 1. cbn [first last set_first]. rewrite LQl. replace (j <? last p)%nat with true by lia.
      unfold front at 1. cbn [first set_first]. rewrite (rd_some _ _ _ Hb). cbn [bind].
      replace ((b =? c_comma) || (b =? c_rbrack)) with false by (unfold c_comma, c_rbrack; lia). cbn [ensure bind]. eauto.
    - destruct HA as (tx & w & w' & HTx & W & W' & HS & HBr). destruct (broken_start _ _ _ _ _ HBr) as (LB & c & Hc & SC).
      inversion HF as [|? ? (y & HY) HF']; subst. apply sub_at_app in HS as [S1 S2].
      assert (S3 := S2). apply sub_at_app in S3 as [S3 [S4 S5]].
      set (j := (first p + length tx + length w)%nat) in *.
      assert (FJ : followed true buf (first p + length tx) j (last p)).
      { exists w. split; [exact W|]. split; [exact S3|]. split; [reflexivity|]. split; [lia|]. right. split; [lia|]. exists 44. split; [exact S4|]. unfold closer. lia. }
      destruct (proj1 (typed_reads g HX HE nc HNC t e0 y HY) buf p tx j HW H32 HTx S1 FJ) as (q & EQ & MQ & LQ). rewrite EQ. cbn [bind].
      assert (LQl : last q = last p) by apply MQ.
      rewrite (trim_followed buf q j HB) by (rewrite LQl; eapply followed_from; [exact FJ|exact LQ]). cbn [bind].
      unfold has_more at 1. cbn [first last set_first]. rewrite LQl. replace (j <? last p)%nat with true by lia.
      unfold front at 1. cbn [first set_first]. rewrite (rd_some _ _ _ S4). cbn [bind].
      change ((44 =? c_comma) || (44 =? c_rbrack)) with true. cbn [ensure bind].
      assert (EM : move_next buf (set_first q j) = Ok (set_first q (j + 1 + length w'))).
      { unfold move_next, move_next_member_or_end, move_next_member_or_end_checked.
        rewrite (trim_left_run buf (set_first q j) j HB).
        2:{ cbn [first last set_first]. apply ws_run_nil; [lia|]. right. exists 44. split; [exact S4|lia]. }
        cbn [bind]. rewrite is_at_yes by (cbn [first last set_first]; auto; lia). cbn [bind]. unfold remove_prefix. cbn [first set_first].
        rewrite (trim_to buf (set_first (set_first (set_first q j) j) (j + 1)) w' c); auto.
        - cbn [first set_first]. replace (j + 1)%nat with (S j) by lia. apply sub_at_app. split; [exact S5|]. cbn [sub_at]. split; [|exact I].
          replace (S j + length w')%nat with (j + 1 + length w')%nat by lia. exact Hc.
        - apply SC.
        - cbn [first last set_first]. lia. }
      rewrite EM. cbn [bind]. unfold has_more at 1. cbn [first last set_first]. rewrite LQl. replace (j + 1 + length w' <? last p)%nat with true by lia.
      cbn [ensure bind]. unfold front. cbn [first set_first]. rewrite (rd_some _ _ _ Hc). cbn [bind]. unfold starter in SC.
      replace (c =? c_rbrack) with false by (unfold c_rbrack; lia). cbn iota.
      assert (MM : moved p (set_first q (j + 1 + length w'))) by (eapply moved_trans; [exact MQ|apply moved_first]).
      apply (IH v x); auto.
      + cbn [length] in HU. lia.
      + eapply moved_wf; [exact MM|exact HW|]. cbn [first last set_first]. lia.
      + cbn [first last set_first]. rewrite LQl. exact HBr.
  Qed.

  Lemma broken_length : forall es v i l, broken buf i l es v -> (l <= length buf)%nat -> (length es + i < l)%nat.
  Proof.
    induction es as [|e es IH]; intros v i l H L.
    - apply broken_start in H as [H _]. cbn. lia.
    - cbn [broken] in H. destruct H as (tx & w & w' & _ & _ & _ & _ & H). apply IH in H; auto. cbn [length]. lia.
  Qed.

  Lemma array_broken : forall es v x known p w, Forall (fun e => exists y, typed nc t e y) es -> typed nc t v x -> (takes_text t = true -> forall s, ~ literal v s) ->
    wf buf p -> sub_at buf (first p) (91 :: w) -> ws w -> broken buf (first p + 1 + length w) (last p) es v ->
    exists e, parse_value g (TArr t) known buf p = Err e.
  Proof.
    intros es v x known p w HF HT HTT HW [S0 S1] W HBr. pose proof HW as (HB & HN & HLp & cl & HC & HCL).
    destruct (broken_start _ _ _ _ _ HBr) as (LB & c & Hc & SC). pose proof (broken_length _ _ _ _ HBr (proj2 HLp)) as BL.
    cbn [parse_value]. unfold parse_value_array. rewrite (trim_here buf p 91) by (auto; lia). cbn [bind].
    rewrite is_at_yes by (auto; lia). cbn [ensure bind].
    assert (F1 : first (remove_prefix p 1) = S (first p)) by (unfold remove_prefix; cbn [first set_first]; lia).
    assert (S2 : sub_at buf (S (first p)) (w ++ [c])).
    { apply sub_at_app. split; [exact S1|]. cbn [sub_at]. split; [|exact I]. now replace (S (first p) + length w)%nat with (first p + 1 + length w)%nat by lia. }
    unfold starter in SC.
    rewrite (trim_unchecked_to buf (remove_prefix p 1) w c) by (auto; rewrite ?F1; auto; lia). cbn [bind]. rewrite F1.
    replace (S (first p) + length w)%nat with (first p + 1 + length w)%nat by lia.
    unfold front. cbn [first set_first]. rewrite (rd_some _ _ _ Hc). cbn [bind]. replace (c =? c_rbrack) with false by (unfold c_rbrack; lia). cbn iota.
    set (p1 := set_first (remove_prefix p 1) (first p + 1 + length w)).
    assert (M1 : moved p p1) by (repeat split).
    destruct (array_broken_loop es v x (S (length buf)) p1 [] HF HT HTT) as (e & EL).
    - lia.
    - eapply moved_wf; [exact M1|exact HW|]. unfold p1. cbn [first last set_first remove_prefix]. lia.
    - exact HBr.
    - rewrite EL. cbn [bind]. eauto.
  Qed.
End Separators.

Lemma elems_broken : forall buf l v es t0, jelems str_body es t0 -> forall i es' w1, sub_at buf i (t0 ++ 44 :: w1) -> ws w1 ->
  broken buf (i + length t0 + 1 + length w1) l es' v ->
  exists w, ws w /\ sub_at buf i w /\ broken buf (i + length w) l (es ++ es') v.
Proof.
  intros buf l v es t0 H. induction H as [u1 e t u2 H1 Ht H2|u1 e t u2 es ts H1 Ht H2 HM IH]; intros i es' w1 HS W HB.
  - exists u1. split; [exact H1|]. rewrite <- app_assoc in HS. apply sub_at_app in HS as [S1 S2]. split; [exact S1|].
    cbn [app broken]. exists t, u2, w1. split; [exact Ht|]. split; [exact H2|]. split; [exact W|]. rewrite <- app_assoc in S2. split; [exact S2|]. len.
    match goal with H : broken buf ?a l es' v |- broken buf ?b l es' v => now replace b with a by lia end.
  - exists u1. split; [exact H1|]. rewrite <- app_assoc in HS. apply sub_at_app in HS as [S1 S2]. split; [exact S1|].
    replace ((t ++ u2 ++ 44 :: ts) ++ 44 :: w1) with ((t ++ u2 ++ [44]) ++ ts ++ 44 :: w1) in S2 by (repeat (rewrite <- ?app_assoc; cbn [app]); reflexivity).
    apply sub_at_app in S2 as [S2 S3].
    destruct (IH (i + length u1 + length (t ++ u2 ++ [44%N]))%nat es' w1 S3 W) as (w & Ww & Sw & Bw).
    { len. match goal with H : broken buf ?a l es' v |- broken buf ?b l es' v => now replace b with a by lia end. }
    cbn [app broken]. exists t, u2, w. split; [exact Ht|]. split; [exact H2|]. split; [exact Ww|]. split.
    + replace (t ++ u2 ++ 44 :: w) with ((t ++ u2 ++ [44]) ++ w) by (repeat (rewrite <- ?app_assoc; cbn [app]); reflexivity).
      apply sub_at_app. split; [exact S2|exact Sw].
    + len. match goal with H : broken buf ?a l (es ++ es') v |- broken buf ?b l (es ++ es') v => now replace b with a by lia end.
Qed.
