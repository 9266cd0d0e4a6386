(** What the document means at a type is read without checks too, when nothing
    is missing: the parser that refuses nulls and untidy ranges reads it, and so
    does the one it is followed by. *)
From Coq Require Import List NArith ZArith Bool Lia Arith ZifyBool ZifyNat ZifyN.
From Verif Require Import Base Mem Loop PolicyModel IntModel StrScanModel SkipModel SpecNum SpecText SpecJson SpecUnicode
  IntProofs IntSerProofs IntValueProofs StrScanProofs StrScanProofs2 StrScanProofs3 SkipProofs BracketProofs SkipSafe
  PropertiesStr PropertiesSkip StrDecodeModel StrDecodeProofs PropertiesUni HashModel PropertiesHash ValueModel SpecTyped
  NameProofs ClassProofs ClassProofs2 ScalarProofs ArrayProofs VariantProofs TypedProofs ZModel ZInt ZScan ZSim ZTyped ZReads
  UModel USim USim2 UTyped SpecU.
Import ListNotations.
Local Open Scope N_scope.

Section Cfg.
  Context (z : bool) (g : cfg).
  Hypothesis HX : c_ex g = ExConstexpr.
  Hypothesis HE : c_excl g = false.

  (** ** Strings *)

  Lemma string_here_u : forall buf p b s, wf buf p -> N.of_nat (length buf) < 2^32 -> sub_at buf (first p) (34 :: b ++ [34]) ->
    (first p + length b + 2 <= last p)%nat -> denotes b s ->
    parse_value_string_u z false buf p = Ok (s, set_first p (first p + length b + 2)).
  Proof.
    intros buf p b s (HB & HN & HLp & cl & HCl & HCL) H32 HS HL HD.
    assert (C : parse_value_string_escaped false false ExConstexpr true buf p = Ok (s, set_first p (first p + length b + 2))).
    { apply C12_decode; auto.
      split; [exact HB|]. split; [exact HN|]. split; [lia|]. split; [exact HS|]. split; [lia|]. split; [exists cl; split; [exact HCl|lia]|].
      change (2^32) with 4294967296 in H32. change (2^63) with 9223372036854775808. lia. }
    assert (NE : ps_empty p = false) by (unfold ps_empty; rewrite HN; cbn [orb]; apply Nat.leb_gt; lia).
    assert (EU : empty_u z buf p = Ok false).
    { unfold empty_u. destruct z; [|now rewrite NE]. unfold empty_z. rewrite NE. destruct HS as [S0 _]. unfold front. rewrite (rd_some _ _ _ S0). reflexivity. }
    unfold parse_value_string_escaped, skip_string in C. unfold parse_value_string_u, skip_string_u. rewrite NE in C. rewrite EU. cbn [negb ensure bind orb] in *.
    destruct (front buf p) as [c| | |]; cbn [bind] in *; try discriminate. destruct (ensure (c =? c_quote) InvalidString) as [u| | |]; cbn [bind] in *; try discriminate.
    unfold skip_string_nq_u. unfold skip_string_nq, parse_nq in C.
    destruct (parse_nq_uncheck ExConstexpr buf (remove_prefix p 1)) as [[n q]| | |]; cbn [bind] in *; try discriminate. exact C.
  Qed.

  Lemma string_here_s : forall buf p b s, wf buf p -> N.of_nat (length buf) < 2^32 -> sub_at buf (first p) (34 :: b ++ [34]) ->
    (first p + length b + 2 <= last p)%nat -> denotes b s ->
    parse_string_s z false buf p = Ok (s, set_first p (first p + length b + 2)).
  Proof.
    intros buf p b s HW H32 HS HL HD. unfold parse_string_s. rewrite (string_here buf p b s), (string_here_u buf p b s); auto. cbn [bind].
    destruct (list_eq_dec N.eq_dec s s); [reflexivity|congruence].
  Qed.

  Lemma any_string_s : forall b s, denotes b s -> reads g (fun known buf p => '(s, p) <- parse_string_s z known buf p ;; Ok (VStr s, p)) (JStr b) (VStr s).
  Proof.
    intros b s HD. split.
    - intros buf p t j HW H32 HT HS HF. pose proof (followed_le _ _ _ _ _ HF) as FL. inversion HT as [| | | |b' HB' E1 E2| | | |]; subst b' t.
      cbn [length] in *. rewrite app_length in *. cbn [length] in *.
      rewrite (string_here_s buf p b s) by (auto; lia). cbn [bind].
      eexists. split; [reflexivity|]. split; [apply moved_first|]. cbn [first set_first]. lia.
    - intros _ buf r H32 HLo. destruct (located_string g HX HE _ _ _ H32 HLo) as (HS & HL & HC).
      assert (C : forall checked, parse_value_string_escaped checked true ExConstexpr true buf r = Ok (s, r)).
      { intros checked. destruct (list_eq_dec N.eq_dec b []) as [->|NB].
        - inversion HD; subst s. unfold parse_value_string_escaped. cbn [bind negb orb].
          assert (NS : needs_slow_path r = false) by (unfold needs_slow_path; rewrite HC; reflexivity). rewrite NS. cbn [length app] in *.
          pose proof (sub_at_length _ _ _ HS ltac:(discriminate)) as LS. cbn [length] in LS.
          replace (last r <=? length buf)%nat with true by lia. replace (last r - first r)%nat with O by lia. reflexivity.
        - apply (C12_decode_located checked buf r b s HD NB HS HL); auto.
          pose proof (sub_at_length _ _ _ HS ltac:(destruct b; discriminate)). rewrite app_length in *.
          change (2^32) with 4294967296 in H32. change (2^63) with 9223372036854775808. lia. }
      unfold parse_string_s. change (parse_value_string_u z true buf r) with (parse_value_string_escaped false true ExConstexpr true buf r).
      rewrite !C. cbn [bind]. destruct (list_eq_dec N.eq_dec s s); [|congruence]. cbn [bind]. eauto.
  Qed.

  (** ** Nullable values that are there *)

  Lemma any_some_s : forall P v y, v <> JNull -> reads g P v y -> reads g (parse_null_s P) v (VSome y).
  Proof.
    intros P v y NV [R1 R2]. split.
    - intros buf p t j HW H32 HT HS HF. pose proof (followed_le _ _ _ _ _ HF) as FL.
      pose proof HW as (HB & _ & HL & cl & HCl & HCL). destruct (jtext_head _ _ _ HT) as (c & r & -> & ST). cbn [length] in *.
      pose proof HS as [HC _]. pose proof (jtext_not_n g v _ buf _ HT HS NV _ HC) as N110. unfold starter in ST.
      unfold parse_null_s. unfold has_more, front. replace (first p <? last p)%nat with true by lia.
      rewrite (rd_some _ _ _ HC). cbn [bind].
      replace (is_token_after_value c || (c =? c_n)) with false by (unfold is_token_after_value, c_comma, c_rbrace, c_rbrack, c_n; lia). cbn iota.
      destruct (R1 buf p _ j HW H32 HT HS HF) as (q & E & M & L). rewrite E. cbn [bind]. exists q. auto.
    - intros _ buf r H32 HLo. destruct (located_range g HX HE _ _ _ H32 HLo) as (p & t & j & q & _ & _ & _ & _ & _ & _ & NN & _).
      unfold parse_null_s. rewrite NN by auto.
      destruct (R2 NV buf r H32 HLo) as (q' & E). rewrite E. cbn [bind]. eauto.
  Qed.

  (** ** Maps and tuples *)

  Lemma map_loop_s : forall (P : parser) buf e j l, N.of_nat (length buf) < 2^32 -> (e < l)%nat -> ws_run buf (S e) j l ->
    forall ms m0 xs x0 fuel p vs, Forall2 (reads_member g P) (m0 :: ms) (x0 :: xs) ->
      (length (m0 :: ms) < fuel)%nat -> wf buf p -> last p = l -> at_member buf (first p) e (m0 :: ms) ->
      exists q, loop (map_body_s z P buf) fuel (p, vs) = Ok (q, vs ++ x0 :: xs) /\ moved p q /\ first q = j.
  Proof.
    intros P buf e j l H32 HL HF. induction ms as [|m1 ms IH]; intros [k v] xs [s x] fuel p vs HR HU HW HLp HA;
      (destruct fuel as [|fuel]; [cbn in HU; lia|]); cbn [loop]; unfold map_body_s at 1;
      pose proof (at_member_end _ _ _ _ HA) as [LE BE]; pose proof HW as (HB & HN & HLp' & cl & HC & HCL);
      (assert (HM : has_more p = true) by (unfold has_more; apply Nat.ltb_lt; lia)); rewrite HM; cbn [ensure bind];
      destruct (at_member_cons _ _ _ _ _ _ HA) as (w2 & w3 & t & Hk & W2 & W3 & Ht & HS & HRem);
      destruct (rem_followed _ _ _ _ l HRem HL) as (j1 & FJ & JE & RJ);
      inversion HR as [|? ? ? ? [D1 R1] R2]; subst; cbn [fst snd] in *;
      pose proof (followed_le _ _ _ _ _ FJ) as FL1;
      destruct (jtext_head _ _ _ Ht) as (c & r & ET & ST);
      (assert (S1 : sub_at buf (first p) (34 :: k ++ [34]))
        by (destruct HS as [A B]; split; [exact A|]; apply sub_at_app in B as [B1 [B2 _]]; apply sub_at_app; cbn; auto));
      rewrite (string_here_s buf p k s) by (auto; lia); cbn [bind];
      (assert (S2 : sub_at buf (first p + length k + 2) (w2 ++ 58 :: w3 ++ t))
        by (destruct HS as [_ B]; apply sub_at_app in B as [_ [_ B]];
            match goal with H : sub_at buf ?a _ |- sub_at buf ?b _ => now replace b with a by lia end));
      rewrite (trim_end_of_name_ok buf (set_first p (first p + length k + 2)) w2 w3 c); auto; cbn [first last set_first];
      try (unfold starter in ST; lia); try (subst t; len; lia);
      try (subst t; apply sub_at_app in S2 as [A [B C]]; apply sub_at_app in C as [C [D _]];
           apply sub_at_app; split; [exact A|]; cbn [sub_at]; split; [exact B|]; apply sub_at_app; cbn; auto; fail);
      cbn [bind];
      set (p1 := set_first (set_first p (first p + length k + 2)) (first p + length k + 2 + length w2 + 1 + length w3));
      (assert (M1 : moved p p1) by (repeat split));
      (assert (W1 : wf buf p1) by (apply (moved_wf buf p); auto; unfold p1; cbn [first last set_first]; lia));
      (assert (S3 : sub_at buf (first p1) t)
        by (apply sub_at_app in S2 as [_ [_ C]]; apply sub_at_app in C as [_ C]; unfold p1; cbn [first set_first];
            match goal with H : sub_at buf ?a t |- sub_at buf ?b t => now replace b with a by lia end));
      (assert (F1 : followed true buf (first p1 + length t) j1 (last p1))
        by (unfold p1; cbn [first last set_first];
            match goal with H : followed true buf ?a j1 _ |- followed true buf ?b j1 _ => now replace b with a by lia end));
      destruct (proj1 R1 buf p1 t j1 W1 H32 Ht S3 F1) as (q & EQ & MQ & LQ); rewrite EQ; cbn [bind];
      (assert (LQl : last q = last p) by apply MQ);
      (assert (MM : moved p q) by (eapply moved_trans; [exact M1|exact MQ]));
      (assert (RQ : rem buf (first q) e _) by (apply RJ; unfold p1 in LQ; cbn [first set_first] in LQ; lia));
      (assert (LQE : (e < last q)%nat) by lia);
      destruct (move_next_rem buf q e _ HB RQ LQE) as (i & EM & LI & AI); rewrite EM; cbn [bind];
      pose proof (at_member_end _ _ _ _ AI) as [LIE _];
      (assert (HM2 : has_more (set_first q i) = true) by (unfold has_more; cbn [first last set_first]; apply Nat.ltb_lt; lia));
      rewrite HM2; unfold front; cbn [first set_first ensure bind];
      destruct (at_member_byte _ _ _ _ AI) as (b & Hb & SB); rewrite (rd_some _ _ _ Hb); cbn [bind]; subst b.
    - change (125 =? c_rbrace) with true. cbn iota. destruct AI as [-> _].
      rewrite (trim_left_run buf (remove_prefix (set_first q e) 1) j HB).
      2:{ unfold remove_prefix. cbn [first last set_first]. rewrite LQl. now replace (e + 1)%nat with (S e) by lia. }
      cbn [bind]. inversion R2; subst. eexists. split; [reflexivity|]. split; [|reflexivity].
      eapply moved_trans; [exact MM|]. repeat split.
    - change (34 =? c_rbrace) with false. cbn iota.
      inversion R2 as [|? x1 ? xs1 R3 R4]; subst.
      assert (MM' : moved p (set_first q i)) by (eapply moved_trans; [exact MM|repeat split]).
      destruct (IH m1 xs1 x1 fuel (set_first q i) (vs ++ [(s, x)])) as (q2 & E2 & M2 & F2); auto.
      + cbn [length] in *. lia.
      + eapply moved_wf; [exact MM'|exact HW|]. cbn [first last set_first]. lia.
      + exists q2. rewrite <- app_assoc in E2. split; [exact E2|]. split; [eapply moved_trans; [exact MM'|exact M2]|exact F2].
  Qed.


  Lemma map_ok_s : forall (P : parser) ms xs, Forall2 (reads_member g P) ms xs ->
    forall buf p t j, wf buf p -> N.of_nat (length buf) < 2^32 -> jtext str_body (JObj ms) t -> sub_at buf (first p) t ->
      ws_run buf (first p + length t) j (last p) ->
      exists q, parse_keyvalue_s z P buf p = Ok (VMap xs, q) /\ moved p q /\ first q = j.
  Proof.
    intros P ms xs HR buf p t j HW H32 HT HS HF. pose proof (ws_run_le _ _ _ _ HF) as FL.
    pose proof HW as (HB & HN & HLp & cl & HC & HCL).
    destruct (object_start g buf (first p) ms t HT HS) as (w & c & S0 & W & S1 & C1 & LW & HA).
    unfold parse_keyvalue_s. rewrite is_at_yes by (auto; lia). cbn [ensure bind].
    assert (F1 : first (remove_prefix p 1) = S (first p)) by (unfold remove_prefix; cbn [first set_first]; lia).
    rewrite (trim_to buf (remove_prefix p 1) w c); auto; [|rewrite F1; exact S1|rewrite F1; cbn [last remove_prefix set_first]; lia]. cbn [bind]. rewrite F1.
    set (p1 := set_first (remove_prefix p 1) (S (first p) + length w)).
    set (e := (first p + length t - 1)%nat) in *.
    assert (M1 : moved p p1) by (repeat split).
    assert (FE : ws_run buf (S e) j (last p)) by (replace (S e) with (first p + length t)%nat by (unfold e; lia); exact HF).
    pose proof (at_member_end _ _ _ _ HA) as [LE BE]. destruct (at_member_byte _ _ _ _ HA) as (b & Hb & SB).
    assert (PE : ps_empty p1 = false).
    { unfold ps_empty, p1. cbn [isnull first last set_first remove_prefix]. rewrite HN. cbn [orb]. lia. }
    rewrite PE. cbn [negb ensure bind].
    unfold front. change (first p1) with (S (first p) + length w)%nat. rewrite (rd_some _ _ _ Hb). cbn [bind]. subst b.
    destruct ms as [|m0 ms].
    - change (125 =? c_rbrace) with true. cbn iota. inversion HR; subst.
      destruct HA as [HA _].
      rewrite (trim_left_run buf (remove_prefix p1 1) j HB).
      2:{ change (last (remove_prefix p1 1)) with (last p). unfold remove_prefix, p1. cbn [first set_first].
          replace (S (first p) + length w + 1)%nat with (S e) by lia. exact FE. }
      cbn [bind]. eexists. split; [reflexivity|]. split; [repeat split|reflexivity].
    - change (34 =? c_rbrace) with false. cbn iota.
      inversion HR as [|? x0 ? xs0 R1 R2]; subst.
      assert (W1 : wf buf p1) by (apply (moved_wf buf p); auto; unfold p1; cbn [first last set_first remove_prefix]; lia).
      destruct (map_loop_s P buf e j (last p) H32 ltac:(lia) FE ms m0 xs0 x0 (S (length buf)) p1 []) as (q & EQ & MQ & FQ); auto.
      { destruct HA as (tm & HM & _ & HS' & _). apply jmembers_length in HM. apply sub_at_length in HS'; [|intros Y; apply app_eq_nil in Y as [_ Y]; discriminate]. len. lia. }
      rewrite EQ. cbn [bind app]. exists q. split; [reflexivity|]. split; [eapply moved_trans; [exact M1|exact MQ]|exact FQ].
  Qed.


  Lemma tuple_ok_s : forall exact Ps es xs es2, Forall2 (fun P vx => reads g P (fst vx) (snd vx)) Ps (combine es xs) -> length es = length xs ->
    (exact = true -> es2 = []) -> (forall v, hd_error es2 = Some v -> no_array v) ->
    forall buf p t j, wf buf p -> N.of_nat (length buf) < 2^32 -> jtext str_body (JArr (es ++ es2)) t -> sub_at buf (first p) t ->
      ws_run buf (first p + length t) j (last p) ->
      exists q, parse_tuple_s g exact Ps buf p = Ok (VTuple xs, q) /\ moved p q /\ (first p + length t <= first q <= j)%nat.
  Proof.
    intros exact Ps es xs es2 HR HLen HEx HNA buf p t j HW H32 HT HS HF. pose proof (ws_run_le _ _ _ _ HF) as FL.
    pose proof HW as (HB & HN & HLp & cl & HC & HCL).
    destruct (array_start buf (first p) _ t HT HS) as (w & c & S0 & W & S1 & C1 & C2 & LW & HA).
    unfold parse_tuple_s. rewrite (trim_here buf p 91) by (auto; lia). cbn [bind].
    rewrite is_at_yes by (auto; lia). cbn [ensure bind].
    set (p0 := remove_prefix (set_class p (Some (first p)) (Some (last p))) 1).
    assert (F0 : first p0 = S (first p)) by (unfold p0, remove_prefix; cbn [first set_first set_class]; lia).
    assert (L0 : last p0 = last p) by reflexivity.
    assert (EM : move_next buf p0 = Ok (set_first p0 (S (first p) + length w))).
    { unfold move_next, move_next_member_or_end, move_next_member_or_end_checked.
      rewrite (trim_to buf p0 w c); auto; [|rewrite F0; exact S1|rewrite F0, L0; lia]. cbn [bind]. rewrite F0.
      apply sub_at_app in S1 as [_ [S1 _]].
      rewrite (is_at_no buf _ c) by (cbn [first set_first]; auto). reflexivity. }
    rewrite EM. cbn [bind]. set (p1 := set_first p0 (S (first p) + length w)) in *.
    apply sub_at_app in S1 as [_ [S1 _]].
    rewrite (trim_here buf p1 c) by (auto; unfold p1; cbn [first set_first]; auto). cbn [bind].
    set (e := (first p + length t - 1)%nat) in *.
    assert (FE : ws_run buf (S e) j (last p)) by (replace (S e) with (first p + length t)%nat by (unfold e; lia); exact HF).
    pose proof (at_elem_end _ _ _ _ HA) as [LE BE].
    assert (EL : (e < last p)%nat) by (unfold e; lia).
    assert (W1 : wf buf p1).
    { split; auto. split; auto. split; [unfold p1, p0; cbn [first last set_first remove_prefix set_class]; lia|].
      exists (last p). split; [reflexivity|]. change (last p1) with (last p). lia. }
    destruct (elements_ok g buf e (last p) H32 EL Ps es xs es2 p1 HR HLen W1 eq_refl HA) as (q & EQ & MQ & FQ & AQ).
    rewrite EQ. cbn [bind].
    assert (LQ : last q = last p) by apply MQ. assert (NQ : isnull q = isnull p) by apply MQ.
    assert (FIN : forall q', last q' = last q -> isnull q' = isnull q -> (first p + length t <= first q' <= j)%nat ->
      exists q0, Ok (VTuple xs, set_class q' (fst (cfirst p, clast p)) (snd (cfirst p, clast p))) = Ok (VTuple xs, q0) /\ moved p q0 /\ (first p + length t <= first q0 <= j)%nat).
    { intros q' Q1 Q2 Q3. eexists. split; [reflexivity|]. split; [|exact Q3]. cbn [fst snd]. split; [cbn [last set_class]; congruence|]. split; [reflexivity|]. split; [reflexivity|]. cbn [isnull set_class]. congruence. }
    destruct (at_elem_byte _ _ _ _ AQ) as (b & Hb & SB).
    destruct exact.
    - rewrite (HEx eq_refl) in *. subst b. rewrite (trim_here buf q 93) by (auto; lia). cbn [bind]. unfold front. rewrite (rd_some _ _ _ Hb). cbn [bind].
      change (93 =? c_rbrack) with true. cbn [ensure bind]. destruct AQ as [AQ _].
      rewrite (trim_left_run buf (remove_prefix q 1) j HB).
      2:{ unfold remove_prefix. cbn [first last set_first]. rewrite LQ, AQ. now replace (e + 1)%nat with (S e) by lia. }
      cbn [bind]. apply FIN; auto. cbn [first set_first]. lia.
    - replace (has_more q) with true by (unfold has_more; symmetry; apply Nat.ltb_lt; pose proof (at_elem_end _ _ _ _ AQ); lia). cbn [ensure bind]. rewrite HX. unfold skip_array.
      assert (LB32 : N.of_nat (length buf) < 4294967296) by exact H32.
      assert (T : exists tm n, sub_at buf (first q) (tm ++ [right_of false]) /\ e = (first q + length tm)%nat /\
        forall s, sub_at buf (b_i s) tm -> roomy (last q) s (length tm) ->
          runs (br_body CNone true ExConstexpr false buf (last q)) (fun s => (length buf - b_i s)%nat) s (add_cnt s n (b_i s + length tm))).
      { destruct es2 as [|m es2].
        - destruct AQ as [AQ1 AQ2]. exists [], O. split; [cbn; auto|]. split; [cbn; lia|]. intros s _ _. rewrite add_cnt_0. cbn [length]. rewrite Nat.add_0_r. destruct s; constructor.
        - destruct AQ as (c' & tm & HM & _ & HSq & EE). exists (c' :: tm), (length (m :: es2) - 1)%nat. split; [exact HSq|]. split; [exact EE|].
          intros s HSs RM. apply (proj1 (proj2 (run_values CNone true ExConstexpr false buf (last q) ltac:(discriminate) ltac:(lia)))); auto. }
      destruct T as (tm & n & TS & TE & RUN).
      assert (LBE : (e < length buf)%nat) by (apply nth_error_Some; congruence).
      destruct (skip_bracketed_inside CNone true ExConstexpr false buf q tm n b) as (r & ES); auto; try lia.
      { discriminate. }
      { cbn [left_of]. change c_lbrack with 91. destruct es2 as [|m es2]; [subst b; discriminate|].
        destruct (at_elem_cons _ _ _ _ _ AQ) as (tv & Htv & HSv & _). destruct (no_array_head g m tv Htv (HNA m eq_refl)) as (c' & r' & -> & NC).
        destruct HSv as [HSv _]. congruence. }
      rewrite ES. cbn [bind]. apply FIN; auto. cbn [first set_first]. lia.
  Qed.



  Lemma any_map_s : forall P ms xs, Forall2 (reads_member g P) ms xs -> reads g (fun _ => parse_keyvalue_s z P) (JObj ms) (VMap xs).
  Proof.
    intros P ms xs HR. apply reads_bracketed; auto; [right; eauto|]. intros known buf p t j HW H32 HT HS HF.
    pose proof (followed_le _ _ _ _ _ HF) as FL.
    destruct (map_ok_s _ _ _ HR buf p t j HW H32 HT HS (followed_ws_run _ _ _ _ HF)) as (q & E & M & F). exists q. split; [exact E|]. split; [exact M|]. lia.
  Qed.

  Lemma any_tuple_s : forall exact Ps es xs es2, Forall2 (fun P vx => reads g P (fst vx) (snd vx)) Ps (combine es xs) ->
    length es = length xs -> (exact = true -> es2 = []) -> (forall v, hd_error es2 = Some v -> no_array v) ->
    reads g (fun _ => parse_tuple_s g exact Ps) (JArr (es ++ es2)) (VTuple xs).
  Proof.
    intros exact Ps es xs es2 HR HLen HEx HNA. apply reads_bracketed; auto; [left; eauto|]. intros known buf p t j HW H32 HT HS HF.
    eapply tuple_ok_s; eauto using followed_ws_run.
  Qed.

  Lemma reads_guard_u : forall t P v x, reads g P v x ->
    (v <> JNull -> forall buf r, N.of_nat (length buf) < 2^32 -> located g buf v r -> tidy_u t buf r = true) ->
    reads g (fun known buf p => if known && negb (tidy_u t buf p) then Err InvalidNumber else P known buf p) v x.
  Proof.
    intros t P v x [R1 R2] HT. split; [exact R1|]. intros NV buf r H32 HL. cbn [andb]. rewrite (HT NV buf r H32 HL). cbn [negb]. now apply R2.
  Qed.

  Lemma tidy_bool : forall v buf r, v = JTrue \/ v = JFalse -> N.of_nat (length buf) < 2^32 -> located g buf v r -> tidy_u TBool buf r = true.
  Proof.
    intros v buf r HV H32 HL. destruct (located_range g HX HE _ _ _ H32 HL) as (p & t & j & q & HW & HT & HS & _ & _ & D & _).
    cbn [tidy_u]. unfold counted. destruct HV as [-> | ->]; (destruct D as [[D1 _] D2]; [discriminate|]); inversion HT; subst t; rewrite D1;
      destruct HS as [HS _]; rewrite HS, D2; reflexivity.
  Qed.

  (** ** Main theorem *)
  Context (nc : list (list N) -> list N -> Prop).
  Hypothesis HNC : forall names k, nc names k -> name_ok g k /\ tells g names k.

  Theorem strict_reads_u : forall t v x, typed nc t v x -> none_free x -> simple_tags t -> reads g (parse_value_us z g t) v x.
  Proof.
    fix IH 1. intros t v x H NF ST. destruct t as [w rc|w rc| | |t|t|t|exact mm|exact ts|exact kn tk vn tv|k|alts|exact tag t switch alts]; cbn [typed] in H; cbn [parse_value_us].
    - destruct H as (ds & -> & HC & W & LT & ->). apply (reads_guard_u (TUInt w rc) (fun known buf p => '(v, p) <- parse_value_unsigned known LSNever w rc buf p ;; Ok (VInt (Z.of_N v), p))).
      + exact (reads_unsigned g HX HE w rc ds W HC LT).
      + intros _ buf r H32 HL. apply (tidy_number g HX HE w rc ds); auto. apply HC.
    - destruct H as (tx & y & -> & HC & W & R & N & ->). apply (reads_guard_u (TInt w rc) (fun known buf p => '(v, p) <- parse_value_signed known LSNever w rc buf p ;; Ok (VInt v, p))).
      + exact (reads_signed g HX HE w rc tx y W HC R N).
      + intros _ buf r H32 HL. now apply (tidy_integer g HX HE w rc y tx).
    - apply (reads_guard_u TBool (fun known buf p => parse_value_bool known buf p)).
      + destruct H as [[-> ->]|[-> ->]]; apply (reads_bool g HX HE); auto.
      + intros _ buf r H32 HL. apply (tidy_bool v); auto. tauto.
    - apply (reads_guard_u TStr (fun known buf p => '(s, p) <- parse_string_s z known buf p ;; Ok (VStr s, p))); [|reflexivity].
      destruct H as (b & s & -> & D & ->). now apply any_string_s.
    - apply (reads_guard_u (TNullable t) (fun known buf p => parse_null_s (parse_value_us z g t) known buf p)); [|reflexivity].
      destruct H as [[-> ->]|(NV & y & H & ->)]; [contradiction NF|]. apply (any_some_s (parse_value_us z g t)); auto.
    - destruct H as (es & xs & -> & -> & H). apply (reads_guard_u (TArr t) (fun _ => parse_value_array (parse_value_us z g t))).
      + apply (any_array g HX HE). cbn [none_free] in NF. cbn [simple_tags] in ST. revert H NF. clear - IH HX HE HNC ST. induction 1; intros NF; constructor; [apply IH; tauto|tauto].
      + intros _ buf r H32 HL. apply (tidy_bracket g HX HE (TArr t) (JArr es)); eauto; exact I.
    - destruct H as (ms & kxs & -> & -> & H). apply (reads_guard_u (TMap t) (fun _ => parse_keyvalue_s z (parse_value_us z g t))).
      + apply any_map_s. cbn [none_free] in NF. cbn [simple_tags] in ST. revert H NF. clear - IH HX HE HNC ST.
        induction 1 as [|m [k y] ms kxs [D H] _ IHl]; intros NF; constructor; [split; [exact D|apply IH; tauto]|tauto].
      + intros _ buf r H32 HL. apply (tidy_bracket g HX HE (TMap t) (JObj ms)); eauto; exact I.
    - destruct H as (js & xs & -> & -> & ND & NDJ & FN & EX & H).
      apply (reads_guard_u (TClass exact mm) (fun known buf p => parse_value_class g exact (map (fun m => mkmember (fst m) false (parse_value_us z g (snd m))) mm) known buf p));
        [|intros _ buf r H32 HL; apply (tidy_bracket g HX HE (TClass exact mm) (JObj js)); eauto; exact I].
      apply (any_class g HX HE exact).
      assert (EN : map m_name (map (fun m => mkmember (fst m) false (parse_value_us z g (snd m))) mm) = map fst mm)
        by (rewrite map_map; reflexivity).
      split; [now rewrite EN|]. rewrite EN. split; [exact NDJ|]. split; [|split].
      + revert FN. apply Forall_impl. intros k. apply HNC.
      + exact EX.
      + clear EX FN ND NDJ EN. cbn [none_free] in NF. cbn [simple_tags] in ST.
        revert xs H NF. induction mm as [|[nm t] mm IHm]; intros [|y xs] H NF; try contradiction; [constructor|].
        destruct H as [H1 H2]. destruct NF as [NF1 NF2]. destruct ST as [ST1 ST2]. cbn [map fst snd]. constructor; [|now apply IHm].
        unfold gets. cbn [m_name m_nullable m_parse]. rewrite <- lookup_assoc.
        destruct (lookup nm js) as [v'|]; [|destruct H1 as [_ ->]; contradiction NF1]. split; [now apply IH|].
        intros ->. apply typed_null in H1 as [_ ->]. contradiction NF1.
    - destruct H as (es & xs & es2 & -> & -> & EX & NA & H).
      apply (reads_guard_u (TTuple exact ts) (fun _ => parse_tuple_s g exact (map (parse_value_us z g) ts)));
        [|intros _ buf r H32 HL; apply (tidy_bracket g HX HE (TTuple exact ts) (JArr (es ++ es2))); eauto; exact I].
      assert (FL : length es = length xs /\ Forall2 (fun P vx => reads g P (fst vx) (snd vx)) (map (parse_value_us z g) ts) (combine es xs)).
      { clear EX NA. cbn [none_free] in NF. cbn [simple_tags] in ST. revert es xs H NF.
        induction ts as [|t ts IHt]; intros [|e es] [|y xs] H NF; try contradiction; [split; constructor|].
        destruct H as [H1 H2]. destruct NF as [NF1 NF2]. destruct ST as [ST1 ST2]. destruct (IHt ST2 _ _ H2 NF2) as [L F].
        cbn [length map combine]. split; [lia|]. constructor; [cbn [fst snd]; now apply IH|exact F]. }
      destruct FL as [L F]. apply any_tuple_s; auto.
    - destruct H as (es & xs & -> & -> & NK & NE & H).
      apply (reads_guard_u (TKvArr exact kn tk vn tv) (fun _ => parse_value_keyvalue_array (parse_value_class g exact
           [mkmember kn false (parse_value_us z g tk); mkmember vn false (parse_value_us z g tv)])));
        [|intros _ buf r H32 HL; apply (tidy_bracket g HX HE (TKvArr exact kn tk vn tv) (JArr es)); eauto; exact I].
      apply (any_kv g HX HE); auto. cbn [none_free] in NF. cbn [simple_tags] in ST. destruct ST as [ST1 ST2]. clear NE. revert H NF. clear - IH HX HE HNC NK ST1 ST2.
      induction 1 as [|e y es xs (js & a & b & -> & -> & NR & FN & EX & HA & HB) _ IHl]; intros NF; constructor; [|apply IHl; apply NF].
      cbn [none_free] in NF. destruct NF as [(NFa & NFb & _) _].
      apply (any_class g HX HE). split; [now apply no_dup_2|]. split; [exact NR|]. split; [revert FN; apply Forall_impl; intros k; apply HNC|]. split; [exact EX|].
      constructor; [|constructor; [|constructor]]; unfold gets; cbn [m_name m_nullable m_parse]; rewrite <- lookup_assoc.
      + destruct (lookup kn js) as [v'|]; [|destruct HA as [_ ->]; contradiction NFa]. split; [now apply IH|]. intros ->. apply typed_null in HA as [_ ->]. contradiction NFa.
      + destruct (lookup vn js) as [v'|]; [|destruct HB as [_ ->]; contradiction NFb]. split; [now apply IH|]. intros ->. apply typed_null in HB as [_ ->]. contradiction NFb.
    - apply (reads_guard_u (TCustom k) (fun known buf p => parse_value_custom g k known buf p)); [|reflexivity].
      destruct H as (s & -> & H). destruct k.
      + destruct H as [-> H]. now apply (reads_custom_string g HX HE).
      + apply (reads_literal g HX HE); auto.
      + destruct H as [H|(b & -> & ->)]; [apply (reads_literal g HX HE); auto|now apply (reads_custom_any g HX HE)].
    - apply (reads_guard_u (TVariant alts) (fun known buf p => parse_value_variant (map (fun t => (base_kind t, parse_value_us z g t)) alts) known buf p)); [|reflexivity].
      destruct H as (i & y & -> & H). cbn [none_free] in NF. cbn [simple_tags] in ST.
      assert (G : exists t, chosen v alts i t /\ reads g (parse_value_us z g t) v y).
      { revert i H. induction alts as [|t alts IHa]; intros i H; [destruct i; contradiction|]. destruct ST as [ST1 ST2]. destruct i as [|i]; destruct H as [H1 H2].
        - exists t. split; [split; [exact H1|reflexivity]|now apply IH].
        - destruct (IHa ST2 i H2) as (t' & C & R). exists t'. split; [split; [exact H1|exact C]|exact R]. }
      destruct G as (t & C & R). eapply (any_variant g HX HE (parse_value_us z g)); eauto.
    - destruct H as (js & y & x' & -> & -> & NR & FN & EX & HY & HZ).
      apply (reads_guard_u (TIntrusive exact tag t switch alts) (fun _ => parse_value_variant_intrusive
         (parse_value_class g exact [mkmember tag false (parse_value_us z g t)]) switch (map (parse_value_us z g) alts)));
        [|intros _ buf r H32 HL; apply (tidy_bracket g HX HE (TIntrusive exact tag t switch alts) (JObj js)); eauto; exact I].
      cbn [none_free] in NF. cbn [simple_tags] in ST. destruct ST as [STt ST].
      assert (G : exists P, nth_error (map (parse_value_us z g) alts) (switch y) = Some P /\ reads g P (JObj js) x').
      { generalize (switch y) HZ. clear HZ HY. induction alts as [|t' alts IHa]; intros i H; [destruct i; contradiction|]. destruct ST as [ST1 ST2]. destruct i as [|i].
        - exists (parse_value_us z g t'). split; [reflexivity|now apply IH].
        - cbn [map nth_error]. now apply IHa. }
      destruct G as (P & HP & RP). apply (any_intrusive g HX HE) with (P := P); auto.
      apply (any_class g HX HE). split; [apply no_dup_1|]. split; [exact NR|]. split; [revert FN; apply Forall_impl; intros k; apply HNC|]. split; [exact EX|].
      constructor; [|constructor]. unfold gets; cbn [m_name m_nullable m_parse]; rewrite <- lookup_assoc.
      assert (NY : forall v', typed nc t v' y -> none_free y).
      { intros v' H. destruct t; try contradiction STt; cbn [typed] in H; [destruct H as (ds & _ & _ & _ & _ & ->)|destruct H as (tx & zz & _ & _ & _ & _ & _ & ->)|
          destruct H as [[_ ->]|[_ ->]]|destruct H as (b & s & _ & _ & ->)]; exact I. }
      assert (SY : simple_tags t) by (destruct t; try contradiction STt; exact I).
      destruct (lookup tag js) as [v'|]; [|destruct HY as [NU _]; destruct t; try contradiction STt; discriminate NU]. split; [apply IH; eauto|].
      intros ->. pose proof (NY _ HY) as NFy. apply typed_null in HY as [_ ->]. contradiction NFy.
  Qed.

  (** ** Whole documents *)

  Lemma strict_leading_u : forall t buf p c, is_bytes buf -> trims t = true -> forall w, ws w -> sub_at buf (first p) (w ++ [c]) -> 32 < c ->
    (first p + length w < last p)%nat ->
    parse_value_us z g t false buf p = parse_value_us z g t false buf (set_first p (first p + length w)).
  Proof.
    intros t buf p c HB HT w W HS HC HL.
    assert (T1 : trim_left_checked buf p = Ok (set_first p (first p + length w))) by (apply (trim_to buf p w c); auto; lia).
    set (p' := set_first p (first p + length w)) in *.
    assert (T2 : trim_left_checked buf p' = Ok p').
    { apply sub_at_app in HS as [_ [HS _]]. now apply (trim_here buf p' c). }
    destruct t; try discriminate HT; cbn [parse_value_us andb].
    - unfold parse_value_array. now rewrite T1, T2.
    - unfold parse_value_class. unfold has_more. change (last p') with (last p). change (first p') with (first p + length w)%nat.
      replace (first p <? last p)%nat with true by lia. replace (first p + length w <? last p)%nat with true by lia. cbn [ensure bind].
      unfold parse_json_class. now rewrite T1, T2.
    - unfold parse_tuple_s. now rewrite T1, T2.
  Qed.

  (** The text of a document has no zero byte unless a string has one. *)
  Theorem from_json_u_typed : forall verify t v x s, is_bytes s -> ~ In 0 s -> N.of_nat (length s) < 2^31 - 1 ->
    document t v s -> typed nc t v x -> none_free x -> simple_tags t -> from_json_u z g verify t (s ++ [0]) (length s) = Ok x.
  Proof.
    intros verify t v x s HB NZ H31 (w0 & tx & w & zz & W0 & TR & HT & W & HZ & ES) HTy NF STg.
    assert (zz = []) as ->. { destruct HZ as [->| ->]; auto. exfalso. apply NZ. rewrite ES, !in_app_iff. right. right. right. now left. }
    rewrite app_nil_r in ES.
    destruct (jtext_head _ _ _ HT) as (c0 & r0 & ET & ST). destruct (jtext_last _ _ _ HT) as (rl & cl & EL & NL).
    destruct (ws_last rl cl w NL W) as (r' & c' & E' & N').
    assert (LS : exists r, s = r ++ [c']). { exists (w0 ++ r'). rewrite ES, EL, E'. now rewrite app_assoc. }
    destruct LS as (rs & LS). unfold from_json_u.
    replace (length s =? 0)%nat with false by (rewrite LS, app_length; cbn; lia). cbn [negb ensure bind].
    set (buf := s ++ [0]). set (l := length s).
    assert (RD : nth_error buf (l - 1) = Some c').
    { unfold buf, l. rewrite LS, app_length. cbn [length]. replace (length rs + 1 - 1)%nat with (length rs) by lia. rewrite <- app_assoc.
      rewrite nth_error_app2, Nat.sub_diag by lia. reflexivity. }
    rewrite (rd_some _ _ _ RD). cbn [bind]. replace (c' =? 0) with false by lia. cbv zeta.
    assert (LB : length buf = S l) by (unfold buf, l; rewrite app_length; cbn; lia).
    assert (HBb : is_bytes buf) by (unfold buf; apply Forall_app; split; [exact HB|repeat constructor]).
    assert (ZD : zdoc buf l).
    { split; [exact HBb|]. split; [exact LB|]. split; [unfold buf, l; rewrite nth_error_app2, Nat.sub_diag by lia; reflexivity|].
      split; [|unfold l in LB; change (2^31) with 2147483648 in *; lia].
      intros i LI E. unfold buf in E. rewrite nth_error_app1 in E by exact LI. apply NZ. eapply nth_error_In; eauto. }
    assert (LL : l = (length w0 + length tx + length w)%nat) by (unfold l; rewrite ES, !app_length; lia).
    assert (STX : sub_at buf (length w0) tx).
    { unfold buf. rewrite ES. replace ((w0 ++ tx ++ w) ++ [0]) with (w0 ++ tx ++ (w ++ [0])) by (rewrite <- !app_assoc; reflexivity). apply sub_at_mid. }
    assert (LT : (0 < length tx)%nat) by (rewrite ET; cbn; lia).
    set (p := set_first (new_ps 0 l) (length w0)).
    assert (H32 : N.of_nat (length buf) < 2^32) by (unfold l in LB; change (2^31) with 2147483648 in *; change (2^32) with 4294967296; lia).
    assert (WF : wf buf p) by (apply wf_doc; auto; lia).
    assert (EP : parse_value_us z g t false buf (new_ps 0 l) = parse_value_us z g t false buf p).
    { destruct (trims t) eqn:TT.
      - apply (strict_leading_u t buf (new_ps 0 l) c0 HBb TT w0 W0); cbn [first last new_ps].
        + unfold buf. rewrite ES, ET. rewrite <- app_assoc.
          replace (w0 ++ ((c0 :: r0) ++ w) ++ [0]) with ((w0 ++ [c0]) ++ (r0 ++ w) ++ [0]) by (rewrite <- !app_assoc; reflexivity). apply sub_at_0.
        + unfold starter in ST. lia.
        + lia.
      - unfold p. rewrite (TR eq_refl). reflexivity. }
    assert (HF : followed true buf (first p + length tx) l (last p)).
    { exists w. split; [exact W|]. unfold p. cbn [first last set_first new_ps]. split; [|split; [lia|split; [lia|left; auto]]].
      unfold buf. rewrite ES. replace ((w0 ++ tx ++ w) ++ [0]) with ((w0 ++ tx) ++ w ++ [0]) by (rewrite <- !app_assoc; reflexivity).
      rewrite <- app_length. apply sub_at_mid. }
    destruct (proj1 (strict_reads_u t v x HTy NF STg) buf p tx l WF H32 HT STX HF) as (q & EQ & MQ & LQ).
    assert (GP : good buf l (new_ps 0 l)).
    { split; [reflexivity|]. split; [left; reflexivity|]. split; [cbn; lia|]. exists l. split; [reflexivity|lia]. }
    destruct (proj1 (sim_value_u buf l z g ZD HX HE t) _ _ (rel_refl buf l ZD _ GP) (x, q)) as ([x' q'] & EZ & EV & RQ); [now rewrite EP|].
    cbn [fst snd] in EV, RQ. subst x'. rewrite EZ. cbn [bind]. destruct verify; [|reflexivity].
    assert (LQl : last q = l) by (rewrite (proj1 MQ); reflexivity).
    assert (TQ : trim_left_checked buf q = Ok (set_first q l)).
    { apply (trim_followed buf q l HBb). rewrite LQl. change (last p) with l in HF. eapply followed_from; [exact HF|exact LQ]. }
    destruct (sim_trim_u buf l ZD _ _ RQ _ TQ) as (u & EU & RU). rewrite EU. cbn [bind].
    rewrite (rel_empty_u buf l z ZD _ _ RU). cbn [bind]. unfold ps_empty. cbn [isnull first last set_first]. rewrite LQl, Nat.leb_refl, orb_true_r. reflexivity.
  Qed.
End Cfg.
