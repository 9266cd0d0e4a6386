(** What the document means at a type is read from zero-terminated text too:
    the parser that refuses untidy ranges reads it, and so does the one it is
    followed by. *)
From Coq Require Import List NArith ZArith Bool Lia Arith ZifyBool ZifyNat ZifyN.
From Verif Require Import Base Mem Loop PolicyModel IntModel StrScanModel SkipModel SpecNum SpecText SpecJson SpecUnicode
  IntProofs IntSerProofs IntValueProofs StrScanProofs StrScanProofs2 StrScanProofs3 SkipProofs BracketProofs SkipSafe
  PropertiesStr PropertiesSkip StrDecodeModel StrDecodeProofs HashModel PropertiesHash ValueModel SpecTyped
  NameProofs ClassProofs ClassProofs2 ScalarProofs ArrayProofs VariantProofs TypedProofs ZModel ZInt ZScan ZSim ZTyped.
Import ListNotations.
Local Open Scope N_scope.

Section Cfg.
  Context (g : cfg).
  Hypothesis HX : c_ex g = ExConstexpr.
  Hypothesis HE : c_excl g = false.

  Lemma any_null : forall P, reads g (parse_value_null P) JNull VNone.
  Proof.
    intros P. split; [|congruence]. intros buf p t j HW H32 HT HS HF. pose proof (followed_le _ _ _ _ _ HF) as FL.
    pose proof HW as (HB & _ & HL & cl & HCl & HCL). inversion HT; subst t. cbn [length] in *.
    unfold parse_value_null. unfold has_more, front. replace (first p <? last p)%nat with true by lia.
    rewrite (rd_some buf (first p) 110) by apply HS. cbn [bind]. change (is_token_after_value 110) with false. cbn iota.
    rewrite starts_with_yes by (cbn [length]; auto; lia). cbn [bind].
    rewrite (end_here buf (remove_prefix p 4) j) by exact HF. cbn [ensure bind].
    rewrite (trim_followed buf (remove_prefix p 4) j) by (auto; exact HF). cbn [bind].
    eexists. split; [reflexivity|]. split; [repeat split|]. cbn [first set_first]. lia.
  Qed.

  Lemma any_some : forall P v y, v <> JNull -> reads g P v y -> reads g (parse_value_null P) v (VSome y).
  Proof.
    intros P v y NV [R1 R2]. split.
    - intros buf p t j HW H32 HT HS HF. pose proof (followed_le _ _ _ _ _ HF) as FL.
      pose proof HW as (HB & _ & HL & cl & HCl & HCL). destruct (jtext_head _ _ _ HT) as (c & r & -> & ST). cbn [length] in *.
      pose proof HS as [HC _]. pose proof (jtext_not_n g v _ buf _ HT HS NV _ HC) as N110. unfold starter in ST.
      unfold parse_value_null. unfold has_more, front. replace (first p <? last p)%nat with true by lia.
      rewrite (rd_some _ _ _ HC). cbn [bind].
      replace (is_token_after_value c) with false by (unfold is_token_after_value, c_comma, c_rbrace, c_rbrack; lia). cbn iota.
      rewrite (starts_with_no buf p _ c 110) by (auto; lia). cbn [bind].
      destruct (R1 buf p _ j HW H32 HT HS HF) as (q & E & M & L). rewrite E. cbn [bind]. exists q. auto.
    - intros _ buf r H32 HLo. destruct (located_range g HX HE _ _ _ H32 HLo) as (p & t & j & q & _ & _ & _ & _ & _ & _ & NN & _).
      unfold parse_value_null. rewrite NN by auto.
      destruct (R2 NV buf r H32 HLo) as (q' & E). rewrite E. cbn [bind]. eauto.
  Qed.

  Lemma any_array : forall P es xs, Forall2 (reads g P) es xs -> reads g (fun _ => parse_value_array P) (JArr es) (VArr xs).
  Proof.
    intros P es xs HR. apply reads_bracketed; auto; [left; eauto|]. intros known buf p t j HW H32 HT HS HF.
    pose proof (followed_le _ _ _ _ _ HF) as FL.
    destruct (array_ok g _ _ _ HR buf p t j HW H32 HT HS (followed_ws_run _ _ _ _ HF)) as (q & E & M & F). exists q. split; [exact E|]. split; [exact M|]. lia.
  Qed.

  Lemma any_map : forall P ms xs, Forall2 (reads_member g P) ms xs -> reads g (fun _ => parse_value_keyvalue g P) (JObj ms) (VMap xs).
  Proof.
    intros P ms xs HR. apply reads_bracketed; auto; [right; eauto|]. intros known buf p t j HW H32 HT HS HF.
    pose proof (followed_le _ _ _ _ _ HF) as FL.
    destruct (map_ok g HX _ _ _ HR buf p t j HW H32 HT HS (followed_ws_run _ _ _ _ HF)) as (q & E & M & F). exists q. split; [exact E|]. split; [exact M|]. lia.
  Qed.

  Lemma any_class : forall exact ms js xs, fits g exact ms js xs -> reads g (parse_value_class g exact ms) (JObj js) (VClass xs).
  Proof.
    intros exact ms js xs HFit. apply reads_bracketed; auto; [right; eauto|]. intros known buf p t j HW H32 HT HS HF.
    pose proof (followed_le _ _ _ _ _ HF) as FL. unfold parse_value_class.
    destruct (class_ok g exact _ js xs HX HE HFit buf p t j HW H32 HT HS (followed_ws_run _ _ _ _ HF)) as (q & E & M & F).
    destruct (jtext_head _ _ _ HT) as (c & r & -> & _). cbn [length] in *.
    unfold has_more. replace (first p <? last p)%nat with true by lia. cbn [ensure bind].
    rewrite E. cbn [bind]. destruct known.
    - exists q. split; [reflexivity|]. split; [exact M|]. lia.
    - assert (LQ : last q = last p) by apply M.
      rewrite (trim_followed buf q j (proj1 HW)) by (rewrite F, LQ; eapply followed_at_j; eauto). cbn [bind].
      eexists. split; [reflexivity|]. split; [eapply moved_trans; [exact M|repeat split]|]. cbn [first set_first]. lia.
  Qed.

  Lemma any_tuple : forall exact Ps es xs es2, Forall2 (fun P vx => reads g P (fst vx) (snd vx)) Ps (combine es xs) ->
    length es = length xs -> (exact = true -> es2 = []) -> (forall v, hd_error es2 = Some v -> no_array v) ->
    reads g (fun _ => parse_tuple g exact Ps) (JArr (es ++ es2)) (VTuple xs).
  Proof.
    intros exact Ps es xs es2 HR HLen HEx HNA. apply reads_bracketed; auto; [left; eauto|]. intros known buf p t j HW H32 HT HS HF.
    eapply tuple_ok; eauto using followed_ws_run.
  Qed.

  Lemma any_map_chosen : forall (Fp : ty -> parser) v k alts i t n, kind_of v = Some k -> chosen v alts i t ->
    base_map k n (map (fun t => (base_kind t, Fp t)) alts) = Some ((n + i)%nat, Fp t).
  Proof.
    intros Fp v k. induction alts as [|t' alts IH]; intros i t n HK HC; [destruct i; contradiction|].
    cbn [map base_map]. destruct i as [|i]; cbn [chosen] in HC.
    - destruct HC as [HM ->]. rewrite meant_for_kind, HK in HM. destruct (base_kind t') as [k'|]; [|discriminate].
      apply kind_eqb_eq in HM. subst k'. replace (kind_eqb k k) with true by (symmetry; now apply kind_eqb_eq). now rewrite Nat.add_0_r.
    - destruct HC as [HM HC]. rewrite meant_for_kind, HK in HM. specialize (IH i t (S n) HK HC).
      replace (n + S i)%nat with (S n + i)%nat by lia. destruct (base_kind t') as [k'|]; [|exact IH].
      replace (kind_eqb k k') with false; [exact IH|]. destruct (kind_eqb k k') eqn:E; auto. apply kind_eqb_eq in E. subst k'.
      replace (kind_eqb k k) with true in HM by (symmetry; now apply kind_eqb_eq). discriminate.
  Qed.

  Lemma any_variant : forall (Fp : ty -> parser) alts i t v y, chosen v alts i t -> reads g (Fp t) v y ->
    reads g (parse_value_variant (map (fun t => (base_kind t, Fp t)) alts)) v (VVariant i y).
  Proof.
    intros Fp alts i ty v y HC [R1 R2]. destruct (chosen_kind _ _ _ _ HC) as (k & HK).
    pose proof (any_map_chosen Fp v k alts i ty 0 HK HC) as BM. cbn [Nat.add] in BM. split.
    - intros buf p t j HW H32 HT HS HF. unfold parse_value_variant. cbn [bind].
      rewrite (variant_head g _ false buf p v t k HT HS HK). unfold parse_variant_value. rewrite BM.
      destruct (R1 buf p t j HW H32 HT HS HF) as (q & E & M & L). rewrite E. cbn [bind]. eauto.
    - intros NV buf r H32 HLo. destruct (R2 NV buf r H32 HLo) as (q & E).
      destruct (located_range g HX HE _ _ _ H32 HLo) as (p & t & j & q' & HW & HT & HS & HF & _ & D & _ & HB). specialize (D NV).
      unfold parse_value_variant. exists q.
      assert (G : parse_variant_value k (map (fun t => (base_kind t, Fp t)) alts) true buf r = Ok (VVariant i y, q)).
      { unfold parse_variant_value. rewrite BM, E. reflexivity. }
      assert (S : (exists b, v = JStr b) \/ first r = first p) by (destruct v; try (right; apply D); [congruence|left; eauto]).
      destruct S as [(b & ->)|F].
      + inversion HT as [| | | |b' HB' E1 E2| | | |]; subst b' t. destruct D as [[D1 _] _]. rewrite D1. pose proof HS as [S0 _].
        rewrite (rd_some _ _ _ S0). cbn [bind]. change (34 =? c_quote) with true. cbn iota. cbn in HK. injection HK as <-. exact G.
      + destruct HB as (i' & b & Ei & Hb & NB). rewrite F, Ei, (rd_some _ _ _ Hb). cbn [bind].
        replace (b =? c_quote) with false by (unfold c_quote; lia). cbn iota.
        rewrite (variant_head g _ true buf r v t k HT); auto. now rewrite F.
  Qed.

  Lemma any_intrusive : forall C switch Ps js y z P, reads g C (JObj js) (VClass [y]) ->
    nth_error Ps (switch y) = Some P -> reads g P (JObj js) z ->
    reads g (fun _ => parse_value_variant_intrusive C switch Ps) (JObj js) (VVariant (switch y) z).
  Proof.
    intros C switch Ps js y z P [R1 _] HN [R2 _]. apply reads_bracketed; auto; [right; eauto|].
    intros known buf p t j HW H32 HT HS HF.  unfold parse_value_variant_intrusive.
    destruct (R1 buf p t j HW H32 HT HS HF) as (q1 & E1 & _). rewrite E1. cbn [bind].
    unfold parse_visit. rewrite HN. destruct (R2 buf p t j HW H32 HT HS HF) as (q2 & E2 & M2 & L2). rewrite E2. cbn [bind]. eauto.
  Qed.

  Lemma any_kv_ok : forall exact ms es xs, es <> [] ->
    Forall2 (reads g (parse_value_class g exact ms)) es xs ->
    forall buf p t j, wf buf p -> N.of_nat (length buf) < 2^32 -> jtext str_body (JArr es) t -> sub_at buf (first p) t ->
      ws_run buf (first p + length t) j (last p) ->
      exists q, parse_value_keyvalue_array (parse_value_class g exact ms) buf p = Ok (VArr xs, q) /\ moved p q /\ (first p + length t <= first q <= j)%nat.
  Proof.
    intros exact ms es xs NE HR buf p t j HW H32 HT HS HF'. pose proof (ws_run_le _ _ _ _ HF') as FL.
    pose proof HW as (HB & HN & HLp & cl & HC & HCL).
    destruct (array_start buf (first p) es t HT HS) as (w & c & S0 & W & S1 & C1 & C2 & LW & HA).
    unfold parse_value_keyvalue_array.
    set (C := parse_value_class g exact ms) in *.
    rewrite is_at_yes by (auto; lia). cbn [ensure bind].
    set (p0 := remove_prefix p 1).
    assert (F0 : first p0 = S (first p)) by (unfold p0, remove_prefix; cbn [first set_first]; lia).
    assert (L0 : last p0 = last p) by reflexivity.
    set (p1 := set_first p0 (first p0 + length w)).
    assert (F1 : first p1 = (S (first p) + length w)%nat) by (unfold p1; cbn [first set_first]; lia).
    set (e := (first p + length t - 1)%nat) in *.
    assert (FE : ws_run buf (S e) j (last p)) by (replace (S e) with (first p + length t)%nat by (unfold e; lia); exact HF').
    destruct es as [|v0 es]; [congruence|]. inversion HR as [|? x0 ? xs0 R1 R2]; subst.
    destruct (at_elem_byte _ _ _ _ HA) as (b & Hb & SB).
    assert (BC : b = c).
    { apply sub_at_app in S1 as [_ [S1 _]]. congruence. }
    subst b. unfold starter in SB.
    assert (FB : exists b, nth_error buf (first p0) = Some b /\ b <> 93).
    { rewrite F0. destruct w as [|x w]; [exists c; split; [apply S1|lia]|]. exists x. split; [apply S1|].
      inversion W as [|? ? D _]; subst. unfold json_ws in D. lia. }
    destruct FB as (b0 & Hb0 & Nb0). unfold front. rewrite (rd_some _ _ _ Hb0). cbn [bind].
    replace (b0 =? c_rbrack) with false by (unfold c_rbrack; lia).
    pose proof (at_elem_end _ _ _ _ HA) as [LE BE].
    assert (EQ : loop (array_body C buf) (S (length buf)) (p0, []) = loop (array_body C buf) (S (length buf)) (p1, [])).
    { cbn [loop]. replace (array_body C buf (p0, [])) with (array_body C buf (p1, [])); [reflexivity|]. unfold array_body.
      replace (has_more p0) with true by (unfold has_more; rewrite F0, L0; symmetry; apply Nat.ltb_lt; lia).
      replace (has_more p1) with true by (unfold has_more; rewrite F1; change (last p1) with (last p); symmetry; apply Nat.ltb_lt; lia).
      cbn [ensure bind]. unfold C. rewrite (class_leading g exact _ false buf p0 w c); auto; [now rewrite F0|]. rewrite F0, L0. lia. }
    rewrite EQ.
    assert (W1 : wf buf p1) by (apply (moved_wf buf p); [repeat split|exact HW|rewrite F1; change (last p1) with (last p); lia]).
    destruct (array_loop g C buf e j (last p) H32 ltac:(lia) FE es v0 xs0 x0 (S (length buf)) p1 []) as (q & EL & MQ & FQ); auto.
    { destruct HA as (c0 & tm & HM & _ & HS' & _). apply jelems_length in HM. apply sub_at_length in HS'; [|discriminate]. len. lia. }
    { rewrite F1. exact HA. }
    rewrite EL. cbn [bind app]. exists q. split; [reflexivity|]. split; [eapply moved_trans; [|exact MQ]; repeat split|]. lia.
  Qed.

  Lemma any_kv : forall exact ms es xs, es <> [] ->
    Forall2 (reads g (parse_value_class g exact ms)) es xs ->
    reads g (fun _ => parse_value_keyvalue_array (parse_value_class g exact ms)) (JArr es) (VArr xs).
  Proof.
    intros exact ms es xs NE HR. apply reads_bracketed; auto; [left; eauto|]. intros known buf p t j HW H32 HT HS HF.
    pose proof (followed_ws_run _ _ _ _ HF) as HF'. now apply (any_kv_ok exact ms es xs NE HR buf p t j).
  Qed.

  (** ** Skipped values are tidy *)

  Lemma digits_all : forall (buf ds : list N) i, sub_at buf i ds -> digits ds -> all_digits buf i (i + length ds) = true.
  Proof.
    intros buf ds i HS HD. unfold all_digits. pose proof (view_at buf i ds HS) as V. unfold view in V. rewrite V. now apply forallb_digits.
  Qed.

  Lemma reads_guard : forall t P v x, reads g P v x ->
    (v <> JNull -> forall buf r, N.of_nat (length buf) < 2^32 -> located g buf v r -> tidy t buf r = true) ->
    reads g (fun known buf p => if known && negb (tidy t buf p) then Err InvalidNumber else P known buf p) v x.
  Proof.
    intros t P v x [R1 R2] HT. split; [exact R1|]. intros NV buf r H32 HL. cbn [andb]. rewrite (HT NV buf r H32 HL). cbn [negb]. now apply R2.
  Qed.

  Lemma tidy_number : forall w rc ds buf r, digits ds -> N.of_nat (length buf) < 2^32 -> located g buf (JNum ds) r -> tidy (TUInt w rc) buf r = true.
  Proof.
    intros w rc ds buf r HD H32 HL. destruct (located_range g HX HE _ _ _ H32 HL) as (p & t & j & q & HW & HT & HS & _ & _ & D & _).
    destruct D as [[D1 D2] _]; [discriminate|]. inversion HT; subst. cbn [tidy]. rewrite D1, D2. now apply digits_all.
  Qed.

  Lemma tidy_integer : forall w rc z tx buf r, canonical_int z tx -> N.of_nat (length buf) < 2^32 -> located g buf (JNum tx) r -> tidy (TInt w rc) buf r = true.
  Proof.
    intros w rc z tx buf r HC H32 HL. destruct (located_range g HX HE _ _ _ H32 HL) as (p & t & j & q & HW & HT & HS & _ & _ & D & _).
    destruct D as [[D1 D2] _]; [discriminate|]. inversion HT; subst t. cbn [tidy]. rewrite D1, D2.
    unfold canonical_int in HC. destruct (z <? 0)%Z; [destruct HC as (ds & E & (HD & NE & _) & _); subst tx|destruct HC as [(HD & _) _]; now rewrite digits_all].
    - apply orb_true_iff. right. destruct HS as [HS1 HS2]. rewrite HS1. cbn [length]. rewrite <- plus_n_Sm, <- plus_Sn_m, digits_all; auto.
      destruct ds; [congruence|]. cbn [length]. rewrite andb_true_r. change (45 =? 45) with true. cbn [andb]. apply Nat.ltb_lt. lia.
  Qed.

  Lemma tidy_bracket : forall t v buf r, (exists es, v = JArr es) \/ (exists ms, v = JObj ms) -> N.of_nat (length buf) < 2^32 -> located g buf v r ->
    match t with TArr _ | TMap _ | TClass _ _ | TTuple _ _ | TKvArr _ _ _ _ _ | TIntrusive _ _ _ _ _ => True | _ => False end -> tidy t buf r = true.
  Proof.
    intros t v buf r HV H32 HL HT. destruct (located_range g HX HE _ _ _ H32 HL) as (p & tx & j & q & HW & HTx & HS & _ & _ & D & _).
    assert (E : exists u, (0 < length u)%nat /\ (tx = u ++ [93] \/ tx = u ++ [125])).
    { destruct HV as [(es & ->)|(ms & ->)]; inversion HTx; subst.
      - exists (91 :: w). split; [cbn; lia|now left].
      - exists (91 :: t0). split; [cbn; lia|now left].
      - exists (123 :: w). split; [cbn; lia|now right].
      - exists (123 :: t0). split; [cbn; lia|now right]. }
    destruct E as (u & LU & E).
    assert (DD : first r = first p /\ last r = (first p + length tx)%nat).
    { destruct HV as [(es & ->)|(ms & ->)]; apply D; discriminate. }
    destruct DD as [D1 D2].
    assert (G : (first r <? last r)%nat && match nth_error buf (last r - 1) with Some c => (c =? 93) || (c =? 125) | None => false end = true).
    { destruct E as [-> | ->]; rewrite app_length in D2; cbn [length] in D2; apply sub_at_app in HS as [_ [HS _]];
        replace (last r - 1)%nat with (first p + length u)%nat by lia; rewrite HS; cbn [N.eqb Pos.eqb orb]; rewrite andb_true_r; apply Nat.ltb_lt; lia. }
    destruct t; try contradiction; exact G.
  Qed.

  (** ** Main theorem *)
  Context (nc : list (list N) -> list N -> Prop).
  Hypothesis HNC : forall names k, nc names k -> name_ok g k /\ tells g names k.

  Theorem strict_reads : forall t v x, typed nc t v x -> reads g (parse_value_s g t) v x.
  Proof.
    fix IH 1. intros t v x H. destruct t as [w rc|w rc| | |t|t|t|exact mm|exact ts|exact kn tk vn tv|k|alts|exact tag t switch alts]; cbn [typed] in H; cbn [parse_value_s].
    - destruct H as (ds & -> & HC & W & LT & ->). apply (reads_guard (TUInt w rc) (fun known buf p => '(v, p) <- parse_value_unsigned known LSNever w rc buf p ;; Ok (VInt (Z.of_N v), p))).
      + exact (reads_unsigned g HX HE w rc ds W HC LT).
      + intros _ buf r H32 HL. apply (tidy_number w rc ds); auto. apply HC.
    - destruct H as (tx & z & -> & HC & W & R & N & ->). apply (reads_guard (TInt w rc) (fun known buf p => '(v, p) <- parse_value_signed known LSNever w rc buf p ;; Ok (VInt v, p))).
      + exact (reads_signed g HX HE w rc tx z W HC R N).
      + intros _ buf r H32 HL. now apply (tidy_integer w rc z tx).
    - apply (reads_guard TBool (fun known buf p => parse_value_bool known buf p)); [|reflexivity].
      destruct H as [[-> ->]|[-> ->]]; apply (reads_bool g HX HE); auto.
    - apply (reads_guard TStr (fun known buf p => '(s, p) <- parse_value_string_escaped true known (c_ex g) true buf p ;; Ok (VStr s, p))); [|reflexivity].
      destruct H as (b & s & -> & D & ->). now apply (reads_string g HX HE).
    - apply (reads_guard (TNullable t) (fun known buf p => parse_value_null (parse_value_s g t) known buf p)); [|reflexivity].
      destruct H as [[-> ->]|(NV & y & H & ->)]; [apply any_null|apply any_some; auto].
    - destruct H as (es & xs & -> & -> & H). apply (reads_guard (TArr t) (fun _ => parse_value_array (parse_value_s g t))).
      + apply any_array. revert H. clear - IH HX HE HNC. induction 1; constructor; auto.
      + intros _ buf r H32 HL. apply (tidy_bracket (TArr t) (JArr es)); eauto; exact I.
    - destruct H as (ms & kxs & -> & -> & H). apply (reads_guard (TMap t) (fun _ => parse_value_keyvalue g (parse_value_s g t))).
      + apply any_map. revert H. clear - IH HX HE HNC. induction 1 as [|m kx ms kxs [D H] _ IHl]; constructor; auto. split; auto.
      + intros _ buf r H32 HL. apply (tidy_bracket (TMap t) (JObj ms)); eauto; exact I.
    - destruct H as (js & xs & -> & -> & ND & NDJ & FN & EX & H).
      apply (reads_guard (TClass exact mm) (fun known buf p => parse_value_class g exact (map (fun m => mkmember (fst m) (is_nullable (snd m)) (parse_value_s g (snd m))) mm) known buf p));
        [|intros _ buf r H32 HL; apply (tidy_bracket (TClass exact mm) (JObj js)); eauto; exact I].
      apply (any_class exact).
      assert (EN : map m_name (map (fun m => mkmember (fst m) (is_nullable (snd m)) (parse_value_s g (snd m))) mm) = map fst mm)
        by (rewrite map_map; reflexivity).
      split; [now rewrite EN|]. rewrite EN. split; [exact NDJ|]. split; [|split].
      + revert FN. apply Forall_impl. intros k. apply HNC.
      + exact EX.
      + clear EX FN ND NDJ EN. revert xs H. induction mm as [|[nm t] mm IHm]; intros [|y xs] H; try contradiction; [constructor|].
        destruct H as [H1 H2]. cbn [map fst snd]. constructor; [|now apply IHm].
        unfold gets. cbn [m_name m_nullable m_parse]. rewrite <- lookup_assoc.
        destruct (lookup nm js) as [v'|]; [|exact H1]. split; [now apply IH|]. intros ->. eapply typed_null; eauto.
    - destruct H as (es & xs & es2 & -> & -> & EX & NA & H).
      apply (reads_guard (TTuple exact ts) (fun _ => parse_tuple g exact (map (parse_value_s g) ts)));
        [|intros _ buf r H32 HL; apply (tidy_bracket (TTuple exact ts) (JArr (es ++ es2))); eauto; exact I].
      assert (FL : length es = length xs /\ Forall2 (fun P vx => reads g P (fst vx) (snd vx)) (map (parse_value_s g) ts) (combine es xs)).
      { clear EX NA. revert es xs H. induction ts as [|t ts IHt]; intros [|e es] [|y xs] H; try contradiction; [split; constructor|].
        destruct H as [H1 H2]. destruct (IHt _ _ H2) as [L F]. cbn [length map combine]. split; [lia|]. constructor; [cbn [fst snd]; now apply IH|exact F]. }
      destruct FL as [L F]. apply any_tuple; auto.
    - destruct H as (es & xs & -> & -> & NK & NE & H).
      apply (reads_guard (TKvArr exact kn tk vn tv) (fun _ => parse_value_keyvalue_array (parse_value_class g exact
           [mkmember kn (is_nullable tk) (parse_value_s g tk); mkmember vn (is_nullable tv) (parse_value_s g tv)])));
        [|intros _ buf r H32 HL; apply (tidy_bracket (TKvArr exact kn tk vn tv) (JArr es)); eauto; exact I].
      apply any_kv; auto. clear NE. revert H. clear - IH HX HE HNC NK.
      induction 1 as [|e y es xs (js & a & b & -> & -> & NR & FN & EX & HA & HB) _ IHl]; constructor; [|exact IHl].
      apply any_class. split; [now apply no_dup_2|]. split; [exact NR|]. split; [revert FN; apply Forall_impl; intros k; apply HNC|]. split; [exact EX|].
      constructor; [|constructor; [|constructor]]; unfold gets; cbn [m_name m_nullable m_parse]; rewrite <- lookup_assoc.
      + destruct (lookup kn js) as [v'|]; [|exact HA]. split; [now apply IH|]. intros ->. eapply typed_null; eauto.
      + destruct (lookup vn js) as [v'|]; [|exact HB]. split; [now apply IH|]. intros ->. eapply typed_null; eauto.
    - apply (reads_guard (TCustom k) (fun known buf p => parse_value_custom g k known buf p)); [|reflexivity].
      destruct H as (s & -> & H). destruct k.
      + destruct H as [-> H]. now apply (reads_custom_string g HX HE).
      + apply (reads_literal g HX HE); auto.
      + destruct H as [H|(b & -> & ->)]; [apply (reads_literal g HX HE); auto|now apply (reads_custom_any g HX HE)].
    - apply (reads_guard (TVariant alts) (fun known buf p => parse_value_variant (map (fun t => (base_kind t, parse_value_s g t)) alts) known buf p)); [|reflexivity].
      destruct H as (i & y & -> & H).
      assert (G : exists t, chosen v alts i t /\ reads g (parse_value_s g t) v y).
      { revert i H. induction alts as [|t alts IHa]; intros i H; [destruct i; contradiction|]. destruct i as [|i]; destruct H as [H1 H2].
        - exists t. split; [split; [exact H1|reflexivity]|now apply IH].
        - destruct (IHa i H2) as (t' & C & R). exists t'. split; [split; [exact H1|exact C]|exact R]. }
      destruct G as (t & C & R). eapply (any_variant (parse_value_s g)); eauto.
    - destruct H as (js & y & z & -> & -> & NR & FN & EX & HY & HZ).
      apply (reads_guard (TIntrusive exact tag t switch alts) (fun _ => parse_value_variant_intrusive
         (parse_value_class g exact [mkmember tag (is_nullable t) (parse_value_s g t)]) switch (map (parse_value_s g) alts)));
        [|intros _ buf r H32 HL; apply (tidy_bracket (TIntrusive exact tag t switch alts) (JObj js)); eauto; exact I].
      assert (G : exists P, nth_error (map (parse_value_s g) alts) (switch y) = Some P /\ reads g P (JObj js) z).
      { generalize (switch y) HZ. clear HZ HY. induction alts as [|t' alts IHa]; intros i H; [destruct i; contradiction|]. destruct i as [|i].
        - exists (parse_value_s g t'). split; [reflexivity|now apply IH].
        - cbn [map nth_error]. now apply IHa. }
      destruct G as (P & HP & RP). apply any_intrusive with (P := P); auto.
      apply any_class. split; [apply no_dup_1|]. split; [exact NR|]. split; [revert FN; apply Forall_impl; intros k; apply HNC|]. split; [exact EX|].
      constructor; [|constructor]. unfold gets; cbn [m_name m_nullable m_parse]; rewrite <- lookup_assoc.
      destruct (lookup tag js) as [v'|]; [|exact HY]. split; [now apply IH|]. intros ->. eapply typed_null; eauto.
  Qed.

  (** ** Whole documents *)

  Lemma strict_leading : forall t buf p c, is_bytes buf -> trims t = true -> forall w, ws w -> sub_at buf (first p) (w ++ [c]) -> 32 < c ->
    (first p + length w < last p)%nat ->
    parse_value_s g t false buf p = parse_value_s g t false buf (set_first p (first p + length w)).
  Proof.
    intros t buf p c HB HT w W HS HC HL.
    assert (T1 : trim_left_checked buf p = Ok (set_first p (first p + length w))) by (apply (trim_to buf p w c); auto; lia).
    set (p' := set_first p (first p + length w)) in *.
    assert (T2 : trim_left_checked buf p' = Ok p').
    { apply sub_at_app in HS as [_ [HS _]]. now apply (trim_here buf p' c). }
    destruct t; try discriminate HT; cbn [parse_value_s andb].
    - unfold parse_value_array. now rewrite T1, T2.
    - unfold parse_value_class. unfold has_more. change (last p') with (last p). change (first p') with (first p + length w)%nat.
      replace (first p <? last p)%nat with true by lia. replace (first p + length w <? last p)%nat with true by lia. cbn [ensure bind].
      unfold parse_json_class. now rewrite T1, T2.
    - unfold parse_tuple. now rewrite T1, T2.
  Qed.

  (** The text of a document has no zero byte unless a string has one. *)
  Theorem from_json_z_typed : forall verify t v x s, is_bytes s -> ~ In 0 s -> N.of_nat (length s) < 2^31 - 1 ->
    document t v s -> typed nc t v x -> from_json_z g verify t s = Ok x.
  Proof.
    intros verify t v x s HB NZ H31 (w0 & tx & w & z & W0 & TR & HT & W & HZ & ES) HTy.
    assert (z = []) as ->. { destruct HZ as [->| ->]; auto. exfalso. apply NZ. rewrite ES, !in_app_iff. right. right. right. now left. }
    rewrite app_nil_r in ES.
    destruct (jtext_head _ _ _ HT) as (c0 & r0 & ET & ST). destruct (jtext_last _ _ _ HT) as (rl & cl & EL & NL).
    destruct (ws_last rl cl w NL W) as (r' & c' & E' & N').
    assert (LS : exists r, s = r ++ [c']). { exists (w0 ++ r'). rewrite ES, EL, E'. now rewrite app_assoc. }
    destruct LS as (rs & LS). unfold from_json_z.
    replace (length s =? 0)%nat with false by (rewrite LS, app_length; cbn; lia). cbn [negb ensure bind].
    set (buf := s ++ [0]). set (l := length s).
    assert (RD : nth_error buf (l - 1) = Some c').
    { unfold buf, l. rewrite LS, app_length. cbn [length]. replace (length rs + 1 - 1)%nat with (length rs) by lia. rewrite <- app_assoc.
      rewrite nth_error_app2, Nat.sub_diag by lia. reflexivity. }
    rewrite (rd_some _ _ _ RD). cbn [bind]. replace (c' =? 0) with false by lia. cbv zeta.
    assert (LB : length buf = S l) by (unfold buf, l; rewrite app_length; cbn; lia).
    assert (HBb : is_bytes buf) by (unfold buf; apply Forall_app; split; [exact HB|repeat constructor]).
    assert (ZD : zdoc buf l).
    { split; [exact HBb|]. split; [exact LB|]. split; [unfold buf, l; rewrite nth_error_app2, Nat.sub_diag by lia; reflexivity|].
      split; [|unfold l in LB; change (2^31) with 2147483648 in *; lia].
      intros i LI E. unfold buf in E. rewrite nth_error_app1 in E by exact LI. apply NZ. eapply nth_error_In; eauto. }
    assert (LL : l = (length w0 + length tx + length w)%nat) by (unfold l; rewrite ES, !app_length; lia).
    assert (STX : sub_at buf (length w0) tx).
    { unfold buf. rewrite ES. replace ((w0 ++ tx ++ w) ++ [0]) with (w0 ++ tx ++ (w ++ [0])) by (rewrite <- !app_assoc; reflexivity). apply sub_at_mid. }
    assert (LT : (0 < length tx)%nat) by (rewrite ET; cbn; lia).
    set (p := set_first (new_ps 0 l) (length w0)).
    assert (H32 : N.of_nat (length buf) < 2^32) by (unfold l in LB; change (2^31) with 2147483648 in *; change (2^32) with 4294967296; lia).
    assert (WF : wf buf p) by (apply wf_doc; auto; lia).
    assert (EP : parse_value_s g t false buf (new_ps 0 l) = parse_value_s g t false buf p).
    { destruct (trims t) eqn:TT.
      - apply (strict_leading t buf (new_ps 0 l) c0 HBb TT w0 W0); cbn [first last new_ps].
        + unfold buf. rewrite ES, ET. rewrite <- app_assoc.
          replace (w0 ++ ((c0 :: r0) ++ w) ++ [0]) with ((w0 ++ [c0]) ++ (r0 ++ w) ++ [0]) by (rewrite <- !app_assoc; reflexivity). apply sub_at_0.
        + unfold starter in ST. lia.
        + lia.
      - unfold p. rewrite (TR eq_refl). reflexivity. }
    assert (HF : followed true buf (first p + length tx) l (last p)).
    { exists w. split; [exact W|]. unfold p. cbn [first last set_first new_ps]. split; [|split; [lia|split; [lia|left; auto]]].
      unfold buf. rewrite ES. replace ((w0 ++ tx ++ w) ++ [0]) with ((w0 ++ tx) ++ w ++ [0]) by (rewrite <- !app_assoc; reflexivity).
      rewrite <- app_length. apply sub_at_mid. }
    destruct (proj1 (strict_reads t v x HTy) buf p tx l WF H32 HT STX HF) as (q & EQ & MQ & LQ).
    assert (GP : good buf l (new_ps 0 l)).
    { split; [reflexivity|]. split; [left; reflexivity|]. split; [cbn; lia|]. exists l. split; [reflexivity|lia]. }
    destruct (proj1 (sim_value buf l g ZD HX HE t) _ _ (rel_refl buf l ZD _ GP) (x, q)) as ([x' q'] & EZ & EV & RQ); [now rewrite EP|].
    cbn [fst snd] in EV, RQ. subst x'. rewrite EZ. cbn [bind]. destruct verify; [|reflexivity].
    assert (LQl : last q = l) by (rewrite (proj1 MQ); reflexivity).
    assert (TQ : trim_left_checked buf q = Ok (set_first q l)).
    { apply (trim_followed buf q l HBb). rewrite LQl. change (last p) with l in HF. eapply followed_from; [exact HF|exact LQ]. }
    destruct (sim_trim buf l ZD _ _ RQ _ TQ) as (u & EU & RU). rewrite EU. cbn [bind].
    rewrite (rel_empty buf l ZD _ _ RU). cbn [bind]. unfold ps_empty. cbn [isnull first last set_first]. rewrite LQl, Nat.leb_refl, orb_true_r. reflexivity.
  Qed.
End Cfg.
