(** Parsing a whole class. *)
From Coq Require Import List NArith ZArith Bool Lia Arith ZifyBool ZifyNat ZifyN.
From Verif Require Import Base Mem Loop PolicyModel IntModel StrScanModel SkipModel SpecNum SpecText SpecJson
  IntValueProofs StrScanProofs StrScanProofs2 StrScanProofs3 SkipProofs BracketProofs SkipSafe PropertiesStr PropertiesSkip
  HashModel PropertiesHash ValueModel NameProofs ClassProofs.
Import ListNotations.
Local Open Scope N_scope.

(** skip_class and skip_array from inside of the brackets. *)
Lemma skip_bracketed_inside : forall cp checked ex obj buf p t n c, ex <> ExSimd -> (last p <= length buf)%nat ->
  sub_at buf (first p) (t ++ [right_of obj]) -> nth_error buf (first p) = Some c -> c <> left_of obj ->
  (first p + length t + 1 <= last p)%nat -> N.of_nat (length t) + 1 < 2^32 ->
  (forall s, sub_at buf (b_i s) t -> roomy (last p) s (length t) ->
     runs (br_body cp checked ex obj buf (last p)) (fun s => (length buf - b_i s)%nat) s (add_cnt s n (b_i s + length t))) ->
  exists r, skip_bracketed cp checked ex obj buf p = Ok (r, set_first p (first p + length t + 1)).
Proof.
  intros cp checked ex obj buf p t n c HX HLB HS Hc NL HL HN RUN. unfold skip_bracketed.
  replace (checked && (last p <=? first p)%nat) with false by (destruct checked; cbn [andb]; lia).
  unfold front. rewrite (rd_some _ _ _ Hc). cbn [bind]. replace (c =? left_of obj) with false by lia. cbv zeta.
  apply sub_at_app in HS as [S2 [S3 _]].
  rewrite (loop_exit _ (fun s => (length buf - b_i s)%nat)
     (mkbs (first p) 0 1 0) (add_cnt (mkbs (first p) 0 1 0) n (first p + length t)) ((first p + length t + 1)%nat, N.of_nat n)).
  - eexists. reflexivity.
  - apply RUN; [exact S2|]. unfold roomy. cbn [b_i b_prime b_second b_cnt]. change (2^64) with 18446744073709551616. change (2^32) with 4294967296 in *. repeat split; lia.
  - unfold br_body, add_cnt. cbn [b_i b_prime b_second b_cnt]. change (at_top 1 0) with true. cbn iota.
    rewrite more_ok by (intros; lia). rewrite (rd_some _ _ _ S3). cbn [bind].
    destruct obj; cbn [left_of right_of negb N.eqb Pos.eqb c_rbrace c_bslash c_quote c_comma c_lbrace c_rbrack c_lbrack]; unfold w32;
      change ((1 + 2^32 - 1) mod 2^32 =? 0) with true; cbn iota; (destruct checked; cbn [ensure bind N.eqb]; do 3 f_equal; lia).
  - cbn [b_i]. lia.
Qed.

Lemma ws_run_le : forall buf e j l, ws_run buf e j l -> (e <= j <= l)%nat.
Proof. intros buf e j l (t & -> & L & _). lia. Qed.

Section Cfg.
  Context (g : cfg).
  Hypothesis HX : c_ex g = ExConstexpr.
  Hypothesis HE : c_excl g = false.
  Context (names : list (list N)).
  Hypothesis NDN : NoDup names.
  Context (exact : bool).
  Context (buf : list N).
  Hypothesis H32 : N.of_nat (length buf) < 2^32.

  Definition inv_in (L : list N -> jv -> ps -> Prop) (pos e : nat) (passed rest : list (list N * jv)) (p : ps) (locs : list ps) : Prop :=
    wf buf p /\ (e < last p)%nat /\ (at_member buf (first p) e rest \/ rem buf (first p) e rest) /\
    rest_ok g names exact pos passed rest /\ locs_in names L pos passed locs.
  Definition inv : nat -> nat -> list (list N * jv) -> list (list N * jv) -> ps -> list ps -> Prop := inv_in (fun _ => located g buf).

  (** What member [m] gets from the members [all] of the document. *)
  Definition gets (m : member) (all : list (list N * jv)) (x : val) : Prop :=
    match assoc (m_name m) all with
    | Some v => reads g (m_parse m) v x /\ (v = JNull -> m_nullable m = true /\ x = VNone)
    | None => m_nullable m = true /\ x = VNone
    end.

  (** The same for a parser that reads the value where the state is [K] and the
      skipped value where the range is [L]. *)
  Definition reads_in (K : ps -> Prop) (L : jv -> ps -> Prop) (P : parser) (v : jv) (x : val) : Prop :=
    (forall p t j, K p -> wf buf p -> jtext str_body v t -> sub_at buf (first p) t ->
       followed true buf (first p + length t) j (last p) -> (first p + length t < last p)%nat ->
       exists q, P false buf p = Ok (x, q) /\ moved p q /\ (first p + length t <= first q <= j)%nat) /\
    (v <> JNull -> forall r, L v r -> exists q, P true buf r = Ok (x, q)).
  Definition gets_in (K : ps -> Prop) (L : list N -> jv -> ps -> Prop) (m : member) (all : list (list N * jv)) (x : val) : Prop :=
    match assoc (m_name m) all with
    | Some v => reads_in K (L (m_name m)) (m_parse m) v x /\ (v = JNull -> m_nullable m = true /\ x = VNone)
    | None => m_nullable m = true /\ x = VNone
    end.
  Definition gets_inside (m : member) (all : list (list N * jv)) (x : val) : Prop :=
    match assoc (m_name m) all with
    | Some v => reads_inside g (m_parse m) v x /\ (v = JNull -> m_nullable m = true /\ x = VNone)
    | None => m_nullable m = true /\ x = VNone
    end.
  Lemma gets_inside_in : forall (K : ps -> Prop) (L : list N -> jv -> ps -> Prop) m all x, (forall k v r, L k v r -> located g buf v r) -> gets_inside m all x -> gets_in K L m all x.
  Proof.
    intros K L m all x HL. unfold gets_inside, gets_in. destruct (assoc (m_name m) all) as [v|]; auto. intros [[A B] C]. split; auto. split.
    - intros p t j _ HW HT HS HF HI. apply (A buf p t j); auto.
    - intros NV r HR. apply (B NV buf r); auto. apply (HL (m_name m)). exact HR.
  Qed.
  Lemma gets_gets_in : forall (K : ps -> Prop) (L : list N -> jv -> ps -> Prop) m all x, (forall k v r, L k v r -> located g buf v r) -> gets m all x -> gets_in K L m all x.
  Proof.
    intros K L m all x HL. unfold gets, gets_in. destruct (assoc (m_name m) all) as [v|]; auto. intros [[A B] C]. split; auto. split.
    - intros p t j _ HW HT HS HF _. apply (A buf p t j); auto.
    - intros NV r HR. apply (B NV buf r); auto. apply (HL (m_name m)). exact HR.
  Qed.

  Lemma assoc_mid : forall k v a b, once names (a ++ (k, v) :: b) -> In k names -> assoc k (a ++ (k, v) :: b) = Some v.
  Proof.
    intros k v a b ND HK. rewrite assoc_app, assoc_none; cbn [assoc].
    - destruct (list_eq_dec N.eq_dec k k); congruence.
    - apply (once_mid names a k v b ND HK).
  Qed.

  Lemma locs_ok_weaken : forall (L : list N -> jv -> ps -> Prop) pos passed locs, locs_in names L pos passed locs -> locs_in names L (S pos) passed locs.
  Proof. intros L pos passed locs [A B]. split; auto. intros m nm Hm. apply B. lia. Qed.

  Lemma rest_ok_next : forall pos passed rest nm, nth_error names pos = Some nm -> rest_ok g names exact pos passed rest ->
    ~ In nm (map fst rest) -> rest_ok g names exact (S pos) passed rest.
  Proof.
    intros pos passed rest nm Hn (A & B & C) NI. split; [exact A|]. split; [exact B|]. intros HEx k Hk.
    destruct (C HEx k Hk) as (m & Hm & Em). exists m. split; auto.
    destruct (Nat.eq_dec m pos) as [->|]; [|lia]. exfalso. apply NI. now replace nm with k by congruence.
  Qed.

  Lemma rest_ok_suffix : forall pos a b c, rest_ok g names exact pos a (b ++ c) -> rest_ok g names exact pos (a ++ b) c.
  Proof.
    intros pos a b c (A & B & C). split; [now rewrite <- app_assoc|]. rewrite map_app in B, C. apply Forall_app in B. split; [apply B|].
    intros HEx k Hk. apply C; auto. apply in_or_app. now right.
  Qed.

  Context (all : list (list N * jv)) (K : ps -> Prop) (L : list N -> jv -> ps -> Prop).
  Hypothesis HK : forall p q, moved p q -> K p -> K q.
  Hypothesis HKL : forall p k v t j r q, overtakes names all k -> K p -> wf buf p -> jtext str_body v t -> sub_at buf (first p) t ->
    followed true buf (first p + length t) j (last p) -> skip_val g buf p = Ok (r, q) -> behind buf (first p) -> v <> JNull -> L k v r.

  Lemma parse_member_in : forall pos e passed rest p locs m x, passed ++ rest = all -> nth_error names pos = Some (m_name m) -> K p ->
    inv_in L pos e passed rest p locs -> gets_in K L m (passed ++ rest) x ->
    exists p' locs' passed' rest', parse_class_member g exact names pos (m_nullable m) (m_parse m) buf p locs = Ok (x, p', locs') /\
      moved p p' /\ (first p <= first p' <= e)%nat /\ passed' ++ rest' = passed ++ rest /\ inv_in L (S pos) e passed' rest' p' locs'.
  Proof.
    intros pos e passed rest p locs m x HA0 Hn KP (HW & HL & HA & HR & HLo) HG. unfold parse_class_member.
    pose proof HW as (HB & HN & HLp & cl & HC & HCL).
    assert (X : exists i, move_next buf p = Ok (set_first p i) /\ (first p <= i)%nat /\ at_member buf i e rest).
    { destruct HA as [HA|HA].
      - exists (first p). split; [|split; [lia|exact HA]]. rewrite (move_next_here buf p e rest HB HA). destruct p; reflexivity.
      - apply move_next_rem; auto. }
    clear HA. destruct X as (i & E1 & L1 & HA). rewrite E1. cbn [bind].
    set (p1 := set_first p i) in *.
    pose proof (at_member_end _ _ _ _ HA) as [LE BE].
    assert (M1 : moved p p1) by apply moved_first.
    assert (W1 : wf buf p1) by (apply (moved_wf buf p); auto; unfold p1; cbn [first last set_first]; lia).
    assert (PE : ps_empty p1 = false).
    { unfold ps_empty, p1. cbn [isnull first last set_first]. rewrite HN. cbn [orb]. lia. }
    change i with (first p1) in HA. change (last p) with (last p1) in HL.
    rewrite PE, (front_member buf p1 e rest HA). cbn [bind].
    replace ((match rest with [] => 125 | _ => 34 end =? c_quote) || (match rest with [] => 125 | _ => 34 end =? c_rbrace)) with true
      by (destruct rest; reflexivity).
    cbn [ensure bind]. unfold find_class_member.
    assert (PL : (pos < length names)%nat) by (apply nth_error_Some; congruence).
    assert (BR : is_at buf p1 c_rbrace = Ok (match rest with [] => true | _ => false end)).
    { destruct (at_member_byte _ _ _ _ HA) as (b & Hb & Eb). unfold is_at, has_more, front. replace (first p1 <? last p1)%nat with true by (cbn [first] in *; unfold p1 in *; cbn [first last set_first] in *; lia).
      rewrite (rd_some _ _ _ Hb). cbn [bind]. subst b. destruct rest; reflexivity. }
    rewrite BR. cbn [bind].
    assert (EN : m_nullable m || negb (isnull (nth pos locs no_loc)) || negb (match rest with [] => true | _ => false end) = true).
    { destruct rest; [|apply orb_true_r]. rewrite app_nil_r in HG. unfold gets_in in HG. destruct HLo as [_ HLo]. specialize (HLo pos _ (le_n _) Hn).
      destruct (assoc (m_name m) passed) as [v|].
      - destruct (isnull (nth pos locs no_loc)) eqn:I; [|now rewrite orb_true_r].
        assert (v = JNull) as ->.
        { destruct HLo as [_ HLo]. destruct v; auto; exfalso; (destruct HLo as [Y _]; [discriminate|congruence]). }
        destruct HG as [_ HG]. destruct (HG eq_refl) as [-> _]. reflexivity.
      - destruct HG as [-> _]. reflexivity. }
    rewrite EN. cbn [ensure bind].
    assert (TU : trim_left_unchecked buf p1 = Ok p1).
    { destruct (at_member_byte _ _ _ _ HA) as (b & Hb & Eb). apply (trim_unchecked_here buf p1 b); auto. destruct rest; lia. }
    rewrite TU. cbn [bind].
    destruct (isnull (nth pos locs no_loc)) eqn:I.
    - (* not seen yet *)
      assert (RLn : (length rest < S (length buf))%nat).
      { destruct rest as [|? ?]; [cbn; lia|]. destruct HA as (tm & HM & _ & HS & _). apply jmembers_length in HM. apply sub_at_length in HS; [|intros Y; apply app_eq_nil in Y as [_ Y]; discriminate].
        rewrite app_length in HS. cbn [length] in *. lia. }
      destruct (find_loop_in g HX HE names NDN exact buf H32 K L all HK HKL pos e PL rest p1 locs passed _ HA0 RLn (HK _ _ M1 KP) W1 HL HA HR HLo I) as (p2 & locs2 & EL & M2 & L2 & RES).
      rewrite EL. cbn [bind negb orb].
      destruct RES as [(d & FA)|(A2 & I2 & LO2)].
      + destruct FA as (nm & v & t & rest' & En & EA & Ht & HS & HRem & I2 & LO2).
        assert (nm = m_name m) as -> by congruence.
        rewrite I2. cbn [negb].
        destruct (rem_followed _ _ _ _ (last p2) HRem) as (j & FJ & JE & RJ); [rewrite (proj1 M2); exact HL|].
        assert (W2 : wf buf p2) by (apply (moved_wf buf p1); auto; rewrite (proj1 M2); lia).
        assert (HV : reads_in K (L (m_name m)) (m_parse m) v x).
        { unfold gets_in in HG. rewrite <- EA in HG. rewrite assoc_mid in HG; [apply HG| |eapply nth_error_In; eauto]. rewrite EA. apply HR. }
        destruct (proj1 HV p2 t j (HK _ _ M2 (HK _ _ M1 KP)) W2 Ht HS FJ) as (q & EQ & MQ & LQ);
          [pose proof (followed_le _ _ _ _ _ FJ); rewrite (proj1 M2) in *; lia|]. rewrite EQ. cbn [bind].
        exists q, locs2, ((passed ++ d) ++ [(m_name m, v)]), rest'. split; [reflexivity|].
        assert (MM : moved p q) by (eapply moved_trans; [exact M1|]; eapply moved_trans; eauto).
        split; [exact MM|]. split; [unfold p1 in L2; cbn [first set_first] in L2; lia|]. split; [now rewrite <- app_assoc|].
        split; [apply (moved_wf buf p); auto; rewrite (proj1 MM); unfold p1 in HL; cbn [last set_first] in HL; lia|].
        split; [rewrite (proj1 MM); exact HL|]. split; [right; apply RJ; exact LQ|].
        split; [|exact LO2].
        assert (NI : ~ In (m_name m) (map fst rest')).
        { destruct HR as (ND & _). rewrite <- EA in ND. apply (once_mid names _ _ _ _ ND). eapply nth_error_In; eauto. }
        assert (ER : rest = (d ++ [(m_name m, v)]) ++ rest').
        { rewrite <- app_assoc in EA. apply app_inv_head in EA. rewrite <- app_assoc. auto. }
        eapply rest_ok_next; [exact Hn| |exact NI]. rewrite ER in HR. apply rest_ok_suffix in HR. now rewrite app_assoc in HR.
      + rewrite I2. cbn [negb orb].
        assert (NV : m_nullable m = true /\ x = VNone).
        { unfold gets_in in HG. destruct LO2 as [_ LO2]. specialize (LO2 pos _ (le_n _) Hn). destruct (assoc (m_name m) (passed ++ rest)) as [v|]; auto.
          apply HG. destruct v; auto; exfalso; (destruct LO2 as [_ LO2]; destruct LO2 as [Y _]; [discriminate|congruence]). }
        destruct NV as [-> ->]. exists p2, locs2, (passed ++ rest), []. split; [reflexivity|].
        assert (MM : moved p p2) by (eapply moved_trans; [exact M1|exact M2]).
        split; [exact MM|]. split; [unfold p1 in L2; cbn [first set_first] in L2; lia|]. split; [now rewrite app_nil_r|].
        split; [apply (moved_wf buf p); auto; rewrite (proj1 MM); unfold p1 in HL; cbn [last set_first] in HL; lia|].
        split; [rewrite (proj1 MM); exact HL|]. split; [left; exact A2|]. split; [|now apply locs_ok_weaken].
        destruct HR as (Y1 & Y2 & Y3). split; [now rewrite app_nil_r|]. split; [constructor|]. intros _ k [].
    - (* seen before *)
      assert (EL : loop (find_body g exact names pos buf) (S (length buf)) (p1, locs) = Ok (p1, locs)).
      { cbn [loop]. unfold find_body. rewrite I. reflexivity. }
      rewrite EL. cbn [bind negb orb]. rewrite I.
      pose proof HLo as [LL HLo']. specialize (HLo' pos _ (le_n _) Hn).
      destruct (assoc (m_name m) passed) as [v|] eqn:EV; [|congruence].
      assert (NJ : v <> JNull) by (intros ->; destruct HLo' as [Y _]; specialize (Y eq_refl); congruence).
      destruct (proj2 HLo' NJ) as [_ LOC].
      unfold gets_in in HG. rewrite assoc_app, EV in HG. destruct HG as [[_ HV] _].
      destruct (HV NJ _ LOC) as (q & EQ). rewrite EQ. cbn [bind].
      exists p1, locs, passed, rest. split; [reflexivity|]. split; [exact M1|]. unfold p1 at 1 2. cbn [first set_first]. split; [cbn [first] in LE; unfold p1 in LE; cbn in LE; lia|].
      split; [reflexivity|]. split; [exact W1|]. split; [exact HL|]. split; [left; exact HA|]. split; [|now apply locs_ok_weaken].
      eapply rest_ok_next; eauto. apply assoc_some_in in EV. destruct HR as (ND & _).
      apply nth_error_In in Hn. specialize (ND _ Hn). rewrite map_app, count_occ_app in ND.
      apply (count_occ_In (list_eq_dec N.eq_dec)) in EV.
      intros Y. apply (count_occ_In (list_eq_dec N.eq_dec)) in Y. lia.
  Qed.

  Lemma parse_members_in : forall ms xs pre e passed rest p locs, passed ++ rest = all -> names = pre ++ map m_name ms -> K p ->
    inv_in L (length pre) e passed rest p locs -> Forall2 (fun m x => gets_in K L m (passed ++ rest) x) ms xs ->
    exists p' locs' passed' rest', parse_members g exact names (length pre) ms buf p locs = Ok (xs, p') /\ moved p p' /\ (first p <= first p')%nat /\ passed' ++ rest' = passed ++ rest /\ inv_in L (length names) e passed' rest' p' locs'.
  Proof.
    induction ms as [|m ms IH]; intros xs pre e passed rest p locs HA0 EN KP HI HG; inversion HG as [|? x ? xs' G1 G2]; subst xs; cbn [parse_members].
    - exists p, locs, passed, rest. split; [reflexivity|]. split; [apply moved_refl|]. split; [lia|]. split; [reflexivity|].
      cbn [map] in EN. rewrite app_nil_r in EN. now rewrite EN.
    - destruct (parse_member_in (length pre) e passed rest p locs m x) as (p1 & locs1 & pa1 & re1 & E1 & M1 & L1 & A1 & I1); auto.
      { rewrite EN, nth_error_app2, Nat.sub_diag by lia. reflexivity. }
      rewrite E1. cbn [bind].
      destruct (IH xs' (pre ++ [m_name m]) e pa1 re1 p1 locs1) as (p2 & locs2 & pa2 & re2 & E2 & M2 & L2 & A2 & I2).
      + congruence.
      + rewrite EN, <- app_assoc. reflexivity.
      + eapply HK; eauto.
      + rewrite app_length, Nat.add_comm. exact I1.
      + now rewrite A1.
      + rewrite app_length, Nat.add_comm in E2. cbn [length Nat.add] in E2. rewrite E2. cbn [bind].
        exists p2, locs2, pa2, re2. split; [reflexivity|]. split; [eapply moved_trans; eauto|]. split; [lia|]. split; [congruence|exact I2].
  Qed.

End Cfg.

Section Cleanup.
  Context (g : cfg).
  Hypothesis HX : c_ex g = ExConstexpr.
  Context (names : list (list N)) (exact : bool) (buf : list N).
  Hypothesis H32 : N.of_nat (length buf) < 2^32.
  Context (L : list N -> jv -> ps -> Prop).

  Lemma cleanup_ok : forall e passed rest p locs old j, inv_in g names exact buf L (length names) e passed rest p locs ->
    ws_run buf (S e) j (last p) ->
    exists q, class_cleanup_now g exact old buf p = Ok (set_class q (fst old) (snd old)) /\ last q = last p /\ isnull q = isnull p /\ first q = j.
  Proof.
    intros e passed rest p locs old j (HW & HL & HA & HR & HLo) HF. pose proof HW as (HB & HN & HLp & cl & HC & HCL).
    unfold class_cleanup_now.
    assert (LE0 : (first p <= e)%nat) by (destruct HA as [HA|HA]; [apply at_member_end in HA|apply rem_end in HA]; lia).
    unfold has_more. replace (first p <? last p)%nat with true by lia. cbn [ensure bind].
    assert (X : exists i, move_next buf p = Ok (set_first p i) /\ (first p <= i)%nat /\ at_member buf i e rest).
    { destruct HA as [HA|HA].
      - exists (first p). split; [|split; [lia|exact HA]]. rewrite (move_next_here buf p e rest HB HA). destruct p; reflexivity.
      - apply move_next_rem; auto. }
    clear HA. destruct X as (i & E1 & L1 & HA). rewrite E1. cbn [bind].
    pose proof (at_member_end _ _ _ _ HA) as [LE BE].
    destruct (at_member_byte _ _ _ _ HA) as (b & Hb & Eb).
    assert (MT : move_to_next_class_member g buf (set_first p i) = Ok (set_first p i)).
    { unfold move_to_next_class_member. rewrite HX. unfold has_more. cbn [first last set_first]. replace (i <? last p)%nat with true by lia.
      cbn [ensure bind loop]. rewrite (rd_some _ _ _ Hb). cbn [bind]. subst b. destruct rest; reflexivity. }
    rewrite MT. cbn [bind].
    assert (FIN : forall q, first q = S e -> last q = last p -> isnull q = isnull p ->
      exists q', (q0 <- trim_left_checked buf q ;; Ok (set_class q0 (fst old) (snd old))) = Ok (set_class q' (fst old) (snd old)) /\
        last q' = last p /\ isnull q' = isnull p /\ first q' = j).
    { intros q F1 F2 F3. rewrite <- F1, <- F2 in HF. rewrite (trim_left_run buf q j HB HF). cbn [bind]. exists (set_first q j). repeat split; auto. }
    destruct exact eqn:EX.
    - assert (rest = []) as ->.
      { destruct rest as [|[k v] rest]; auto. exfalso. destruct HR as (_ & _ & Y). destruct (Y eq_refl k) as (m & Hm & E); [now left|].
        apply (proj2 (nth_error_None names m)) in Hm. congruence. }
      destruct HA as [-> _]. unfold front. cbn [first set_first]. rewrite (rd_some _ _ _ Hb). cbn [bind]. subst b. change (125 =? c_rbrace) with true. cbn [ensure bind].
      apply FIN; auto. unfold remove_prefix. cbn [first set_first]. lia.
    - rewrite HX. unfold skip_class.
      assert (LB32 : N.of_nat (length buf) < 4294967296) by exact H32.
      assert (T : exists t n, sub_at buf i (t ++ [right_of true]) /\ e = (i + length t)%nat /\
        forall s, sub_at buf (b_i s) t -> roomy (last p) s (length t) ->
          runs (br_body CNone true ExConstexpr true buf (last p)) (fun s => (length buf - b_i s)%nat) s (add_cnt s n (b_i s + length t))).
      { destruct rest as [|m rest].
        - destruct HA as [-> HA]. exists [], O. split; [cbn; auto|]. split; [cbn; lia|]. intros s _ _. rewrite add_cnt_0. cbn [length]. rewrite Nat.add_0_r. destruct s; constructor.
        - destruct HA as (tm & HM & _ & HS & ->). exists tm, (length (m :: rest) - 1)%nat. split; [exact HS|]. split; [reflexivity|].
          intros s HSs RM. apply (proj2 (proj2 (run_values CNone true ExConstexpr true buf (last p) ltac:(discriminate) ltac:(lia)))); auto. }
      destruct T as (t & n & TS & TE & RUN).
      assert (LBE : (e < length buf)%nat) by (apply nth_error_Some; congruence).
      destruct (skip_bracketed_inside CNone true ExConstexpr true buf (set_first p i) t n b) as (r & ES); cbn [first last set_first]; auto; try lia.
      { discriminate. }
      { cbn [left_of]. destruct rest; subst b; discriminate. }
      rewrite ES. cbn [bind]. apply FIN; auto. cbn [first set_first]. lia.
  Qed.
End Cleanup.

Lemma parse_member_ok : forall g, c_ex g = ExConstexpr -> c_excl g = false -> forall names, NoDup names -> forall exact buf, N.of_nat (length buf) < 2^32 ->
  forall pos e passed rest p locs m x, nth_error names pos = Some (m_name m) ->
  inv g names exact buf pos e passed rest p locs -> gets g m (passed ++ rest) x ->
  exists p' locs' passed' rest', parse_class_member g exact names pos (m_nullable m) (m_parse m) buf p locs = Ok (x, p', locs') /\
    moved p p' /\ (first p <= first p' <= e)%nat /\ passed' ++ rest' = passed ++ rest /\ inv g names exact buf (S pos) e passed' rest' p' locs'.
Proof.
  intros g HX HE names ND exact buf H32 pos e passed rest p locs m x Hn HI HG.
  apply (parse_member_in g HX HE names ND exact buf H32 (passed ++ rest) (fun _ => True) (fun _ => located g buf)); auto.
  - intros q k v t j r q' _ _ W T S F E B _. exists q, t, j, q'. repeat split; auto; apply W.
  - apply (gets_gets_in g); auto.
Qed.

(** What the members of a class ask of a document. *)
Definition fits (g : cfg) (exact : bool) (ms : list member) (js : list (list N * jv)) (xs : list val) : Prop :=
  NoDup (map m_name ms) /\ once (map m_name ms) js /\
  Forall (fun k => name_ok g k /\ tells g (map m_name ms) k) (map fst js) /\
  (exact = true -> forall k, In k (map fst js) -> In k (map m_name ms)) /\
  Forall2 (fun m x => gets g m js x) ms xs.

(** The class that is being read, as the state has it *)
Definition in_class (a b : nat) (p : ps) : Prop := cfirst p = Some a /\ clast p = Some b /\ last p = b.

(** [r] was found by skipping a text of [v] inside of that class.  Of
    the members [js] those that come in the order of [names] are not skipped. *)
Definition located_in (g : cfg) (buf : list N) (a b : nat) (names : list (list N)) (js : list (list N * jv)) (k : list N) (v : jv) (r : ps) : Prop :=
  overtakes names js k /\ exists p t j q, in_class a b p /\ wf buf p /\ jtext str_body v t /\ sub_at buf (first p) t /\
    followed true buf (first p + length t) j (last p) /\ skip_val g buf p = Ok (r, q) /\ behind buf (first p).

Definition fits_in (g : cfg) (exact : bool) (buf : list N) (a b : nat) (ms : list member) (js : list (list N * jv)) (xs : list val) : Prop :=
  NoDup (map m_name ms) /\ once (map m_name ms) js /\
  Forall (fun k => name_ok g k /\ tells g (map m_name ms) k) (map fst js) /\
  (exact = true -> forall k, In k (map fst js) -> In k (map m_name ms)) /\
  Forall2 (fun m x => gets_in buf (in_class a b) (located_in g buf a b (map m_name ms) js) m js x) ms xs.

Lemma in_class_moved : forall a b p q, moved p q -> in_class a b p -> in_class a b q.
Proof. intros a b p q (A & B & C & _) (D & E & F). repeat split; congruence. Qed.

Lemma located_in_located : forall g buf a b names js k v r, located_in g buf a b names js k v r -> located g buf v r.
Proof. intros g buf a b names js k v r (_ & p & t & j & q & _ & H). exists p, t, j, q. exact H. Qed.

Lemma class_in : forall g exact ms js xs, c_ex g = ExConstexpr -> c_excl g = false ->
  forall buf p t j, fits_in g exact buf (first p) (last p) ms js xs -> wf buf p -> N.of_nat (length buf) < 2^32 -> jtext str_body (JObj js) t -> sub_at buf (first p) t ->
    ws_run buf (first p + length t) j (last p) ->
    exists q, parse_json_class g exact ms buf p = Ok (VClass xs, q) /\ moved p q /\ first q = j.
Proof.
  intros g exact ms js xs HX HE buf p t j (ND & NDJ & FO & EX & HG) HW H32 HT HS HF. unfold parse_json_class.
  pose proof HW as (HB & HN & HLp & cl & HC & HCL). pose proof (ws_run_le _ _ _ _ HF) as FL.
  assert (T : exists tm, t = 123 :: tm ++ [125] /\ (js = [] /\ ws tm \/ jmembers str_body js tm)).
  { inversion HT; subst; eauto. }
  destruct T as (tm & -> & TM). rewrite app_comm_cons in *. len. pose proof HS as HS0. apply sub_at_app in HS as [[S0 S1] [S2 _]]. len.
  rewrite (trim_here buf p 123) by (auto; lia). cbn [bind].
  rewrite is_at_yes by (auto; lia). cbn [ensure bind].
  set (e := (first p + S (length tm))%nat) in *.
  assert (TM' : exists w tm', ws w /\ tm = w ++ tm' /\ (js = [] /\ tm' = [] \/ jmembers str_body js tm' /\ nth_error tm' 0 = Some 34)).
  { destruct TM as [[-> W]|M].
    - exists tm, []. rewrite app_nil_r. auto.
    - destruct (jmembers_strip _ _ M) as (w & tm' & W & -> & M' & N0). exists w, tm'. auto. }
  destruct TM' as (w & tm' & W & -> & TM').
  assert (EE : e = (first p + S (length w + length tm'))%nat) by (unfold e; rewrite app_length; lia). clearbody e. rewrite app_length in FL, HF.
  set (p0 := remove_prefix (set_class p (Some (first p)) (Some (last p))) 1).
  assert (F0 : first p0 = S (first p)) by (unfold p0, remove_prefix; cbn [first set_first set_class]; lia).
  assert (L0 : last p0 = last p) by reflexivity.
  apply sub_at_app in S1 as [S1 S3].
  assert (HD : exists c, nth_error (tm' ++ [125]) 0 = Some c /\ 32 < c).
  { destruct TM' as [[_ ->]|[_ N0]]; [exists 125; split; [reflexivity|lia]|]. exists 34. destruct tm' as [|x tm']; [discriminate|]. split; [exact N0|lia]. }
  assert (SS : sub_at buf (S (first p) + length w) (tm' ++ [125])).
  { apply sub_at_app. split; [exact S3|]. cbn [sub_at]. split; [|auto]. rewrite EE in S2.
    match goal with H : nth_error buf ?a = Some 125 |- nth_error buf ?b = _ => now replace b with a by lia end. }
  destruct HD as (c & HD & HC32).
  assert (TR : trim_left_checked buf p0 = Ok (set_first p0 (first p0 + length w))).
  { apply (trim_to buf p0 w c); auto; rewrite F0; [|rewrite L0; lia].
    apply sub_at_app. split; [exact S1|]. destruct (tm' ++ [125]) as [|y r]; [discriminate|]. cbn in HD. injection HD as ->. destruct SS as [SS _]. cbn. auto. }
  rewrite TR. cbn [bind]. rewrite F0. set (p1 := set_first p0 (S (first p) + length w)) in *.
  assert (LE : (e < last p)%nat) by lia.
  assert (W1 : wf buf p1).
  { split; auto. split; auto. split; [unfold p1, p0; cbn [first last set_first remove_prefix set_class]; lia|].
    exists (last p). split; [reflexivity|]. change (last p1) with (last p). lia. }
  assert (A1 : at_member buf (first p1) e js).
  { destruct TM' as [[-> ->]|[M N0]].
    - cbn [length] in EE. split; [unfold p1; cbn [first set_first length]; lia|]. apply SS.
    - pose proof (jmembers_nonempty _ _ M) as NE. destruct js as [|m js]; [congruence|]. exists tm'. split; [exact M|]. split; [exact N0|].
      split; [exact SS|]. unfold p1; cbn [first set_first length]; lia. }
  assert (I0 : inv_in g (map m_name ms) exact buf (located_in g buf (first p) (last p) (map m_name ms) js) (length (@nil (list N))) e [] js p1 (map (fun _ => no_loc) ms)).
  { split; [exact W1|]. split; [exact LE|]. split; [left; exact A1|]. split.
    - split; [exact NDJ|]. split; [exact FO|]. intros HEx k Hk. apply EX in Hk; auto. apply In_nth_error in Hk as (m & Hm). exists m. split; [cbn; lia|exact Hm].
    - split; [now rewrite !map_length|]. intros m nm _ _. cbn [assoc].
      destruct (nth_in_or_default m (map (fun _ : member => no_loc) ms) no_loc) as [Y| ->]; [|reflexivity].
      apply in_map_iff in Y as (? & <- & _). reflexivity. }
  assert (HKL : forall p0 k v t j r q, overtakes (map m_name ms) js k -> in_class (first p) (last p) p0 -> wf buf p0 -> jtext str_body v t -> sub_at buf (first p0) t ->
    followed true buf (first p0 + length t) j (last p0) -> skip_val g buf p0 = Ok (r, q) -> behind buf (first p0) -> v <> JNull ->
    located_in g buf (first p) (last p) (map m_name ms) js k v r).
  { intros q0 k v t j0 r q' N0 KQ WQ T S F E B _. split; [exact N0|]. exists q0, t, j0, q'. repeat split; auto; try apply KQ; apply WQ. }
  destruct (parse_members_in g HX HE (map m_name ms) ND exact buf H32 js (in_class (first p) (last p)) (located_in g buf (first p) (last p) (map m_name ms) js)
    (in_class_moved _ _) HKL ms xs [] e [] js p1 _ eq_refl eq_refl ltac:(repeat split) I0 HG) as (p2 & locs2 & pa & re & E2 & M2 & L2 & A2 & I2).
  cbn [length] in E2. rewrite E2. cbn [bind].
  destruct (cleanup_ok g HX (map m_name ms) exact buf H32 (located_in g buf (first p) (last p) (map m_name ms) js) e pa re p2 locs2 (cfirst p, clast p) j I2) as (q & EQ & Q1 & Q2 & Q3).
  { rewrite (proj1 M2). change (last p1) with (last p).
    match goal with H : ws_run buf ?a j _ |- ws_run buf ?b j _ => now replace b with a by lia end. }
  rewrite EQ. cbn [bind]. eexists. split; [reflexivity|]. split; [|exact Q3].
  destruct M2 as (B1 & B2 & B3 & B4). split; [|split; [reflexivity|split; [reflexivity|]]].
  - cbn [last set_class]. rewrite Q1, B1. reflexivity.
  - cbn [isnull set_class]. rewrite Q2, B4. reflexivity.
Qed.

Lemma class_ok : forall g exact ms js xs, c_ex g = ExConstexpr -> c_excl g = false -> fits g exact ms js xs ->
  forall buf p t j, wf buf p -> N.of_nat (length buf) < 2^32 -> jtext str_body (JObj js) t -> sub_at buf (first p) t ->
    ws_run buf (first p + length t) j (last p) ->
    exists q, parse_json_class g exact ms buf p = Ok (VClass xs, q) /\ moved p q /\ first q = j.
Proof.
  intros g exact ms js xs HX HE (ND & NDJ & FO & EX & HG) buf p t j HW H32. apply class_in; auto. repeat split; auto.
  generalize (map m_name ms). clear - HG H32. intros n. induction HG; constructor; auto. apply (gets_gets_in g); auto. intros k v r. apply located_in_located.
Qed.

(** The same for parsers that want something behind the value *)
Definition fits_inside (g : cfg) (exact : bool) (ms : list member) (js : list (list N * jv)) (xs : list val) : Prop :=
  NoDup (map m_name ms) /\ once (map m_name ms) js /\
  Forall (fun k => name_ok g k /\ tells g (map m_name ms) k) (map fst js) /\
  (exact = true -> forall k, In k (map fst js) -> In k (map m_name ms)) /\
  Forall2 (fun m x => gets_inside g m js x) ms xs.

Lemma class_inside : forall g exact ms js xs, c_ex g = ExConstexpr -> c_excl g = false -> fits_inside g exact ms js xs ->
  forall buf p t j, wf buf p -> N.of_nat (length buf) < 2^32 -> jtext str_body (JObj js) t -> sub_at buf (first p) t ->
    ws_run buf (first p + length t) j (last p) ->
    exists q, parse_json_class g exact ms buf p = Ok (VClass xs, q) /\ moved p q /\ first q = j.
Proof.
  intros g exact ms js xs HX HE (ND & NDJ & FO & EX & HG) buf p t j HW H32. apply class_in; auto. repeat split; auto.
  generalize (map m_name ms). clear - HG H32. intros n. induction HG; constructor; auto. apply (gets_inside_in g); auto. intros k v r. apply located_in_located.
Qed.
