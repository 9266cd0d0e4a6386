(** Classes with members that look at the class. *)
From Coq Require Import List NArith ZArith Bool Lia Arith ZifyBool ZifyNat ZifyN.
From Verif Require Import Base Mem Loop PolicyModel IntModel StrScanModel SkipModel SpecNum SpecText SpecJson SpecUnicode SpecValue SpecPath
  IntValueProofs StrScanProofs StrScanProofs2 StrScanProofs3 SkipProofs BracketProofs SkipSafe PropertiesStr PropertiesSkip
  StrDecodeModel HashModel ValueModel PathModel TagModel SpecTyped SpecTag NameProofs ClassProofs ClassProofs2 ScalarProofs ArrayProofs VariantProofs
  TypedProofs PathProofs PathProofs2.
Import ListNotations.
Local Open Scope N_scope.

Lemma before_in : forall names pos m nm k, NoDup names -> (pos < m)%nat -> nth_error names pos = Some nm -> nth_error names m = Some k -> In nm (before k names).
Proof.
  induction names as [|n names IH]; intros pos m nm k ND L E1 E2; [destruct pos; discriminate|]. inversion ND as [|? ? NI ND']; subst.
  destruct m as [|m]; [lia|]. cbn [nth_error] in E2. cbn [before].
  destruct (list_eq_dec N.eq_dec n k) as [->|NE]; [exfalso; apply NI; eapply nth_error_In; eauto|].
  destruct pos as [|pos]; [injection E1 as ->; now left|]. right. apply (IH pos m); auto; lia.
Qed.

Lemma in_turn_stays : forall names js k, NoDup names -> in_turn names js k -> ~ overtakes names js k.
Proof.
  intros names js k ND IT (a & v & b & pos & m & nm & E & L & E1 & E2 & H).
  destruct (IT a v b E nm (before_in _ _ _ _ _ ND L E1 E2)) as (w & LW & NW). rewrite lookup_assoc in LW. destruct H; congruence.
Qed.

Section Cfg.
  Context (g : cfg).
  Hypothesis HX : c_ex g = ExConstexpr.
  Hypothesis HE : c_excl g = false.
  Context (nc : list (list N) -> list N -> Prop).
  Hypothesis HNC : forall names k, nc names k -> name_ok g k /\ tells g names k.

  (** A skipped object, array, true or false knows its class. *)
  Lemma skip_class_pos : forall buf p v t r q, skip_val g buf p = Ok (r, q) -> jtext str_body v t -> sub_at buf (first p) t -> no_text v ->
    cfirst r = cfirst p /\ clast r = clast p.
  Proof.
    intros buf p v t r q ES HT HS NT. unfold skip_val, skip_value in ES. destruct (has_more p); cbn [ensure bind] in ES; [|discriminate].
    unfold front in ES. cbn [first set_counter] in ES.
    assert (BR : forall obj p0, skip_bracketed CNone true (c_ex g) obj buf p0 = Ok (r, q) -> cfirst r = cfirst p0 /\ clast r = clast p0).
    { intros obj p0 E. unfold skip_bracketed in E. destruct (true && (last p0 <=? first p0)%nat); [injection E as <- <-; auto|].
      destruct (front buf p0) as [c| | |]; cbn [bind] in E; try discriminate.
      match type of E with (bind ?e _ = _) => destruct e as [[j cnt]| | |]; cbn [bind] in E; try discriminate end.
      injection E as <- <-. auto. }
    assert (BO : forall rest rs n p0, skip_bool CNone true rest rs n buf p0 = Ok (r, q) -> cfirst r = cfirst p0 /\ clast r = clast p0).
    { intros rest rs n p0 E. unfold skip_bool in E. destruct (skip_word true rest rs buf p0) as [q0| | |]; cbn [bind] in E; try discriminate.
      destruct (trim_left_cp CNone true buf q0) as [q1| | |]; cbn [bind] in E; try discriminate.
      destruct (check_after_literal true InvalidEndOfValue buf q1) as [u| | |]; cbn [bind] in E; try discriminate. injection E as <- <-. auto. }
    destruct HT as [| | | | |w W|es t HM|w W|ms t HM]; cbn in NT; try contradiction; pose proof HS as [H0 _]; rewrite (rd_some _ _ _ H0) in ES; cbn in ES;
      try (apply BO in ES; exact ES); apply BR in ES; exact ES.
  Qed.

  Section Class.
    Context (buf : list N).
    Hypothesis H32 : N.of_nat (length buf) < 2^32.
    Context (a b : nat) (js : list (list N * jv)) (tx : list N) (je : nat).
    Hypothesis HW : wf buf (new_ps a b).
    Hypothesis HT : jtext str_body (JObj js) tx.
    Hypothesis HS : sub_at buf a tx.
    Hypothesis HF : followed true buf (a + length tx) je b.

    Lemma located_keeps : forall names k v r, located_in g buf a b names js k v r -> no_text v ->
      cfirst r = Some a /\ clast r = Some b /\ wf buf r /\
      exists t, jtext str_body v t /\ sub_at buf (first r) t /\ followed true buf (first r + length t) (first r + length t) (last r).
    Proof.
      intros names k v r HL NT. pose proof (located_in_located _ _ _ _ _ _ _ _ _ HL) as HL'.
      destruct HL as (_ & p & t & j & q & (C1 & C2 & C3) & W & T & S & F & ES & BH).
      destruct (skip_class_pos buf p v t r q ES T S NT) as [E1 E2].
      assert (NV : v <> JNull) by (intros ->; exact NT).
      assert (D : delimits false v (first p) (first p + length t) r /\ isnull r = false).
      { pose proof (followed_le _ _ _ _ _ F) as FL. split.
        - assert (LT : N.of_nat (length t) < 2^32) by (destruct W as (_ & _ & HL & _); lia).
          destruct (C17_skip_value_partial CNone true ExConstexpr false buf p v t j ltac:(discriminate) W T S LT F) as (r' & E & D); [congruence|].
          unfold skip_val in ES. rewrite HX, HE in ES. congruence.
        - rewrite (skip_isnull g buf p r _ ES); [apply W|]. eapply jtext_not_n; eauto. }
      destruct D as [D NR]. assert (DD : first r = first p /\ last r = (first p + length t)%nat) by (destruct v; cbn in NT; try contradiction; apply D).
      destruct DD as [D1 D2]. pose proof (followed_le _ _ _ _ _ F) as FL. destruct W as (WB & WN & WL & cl & WC & WCL).
      split; [congruence|]. split; [congruence|]. split.
      - split; [exact WB|]. split; [exact NR|]. rewrite D1, D2. split; [lia|]. exists cl. split; [congruence|lia].
      - exists t. rewrite D1, D2. split; [exact T|]. split; [exact S|]. exists []. cbn [length sub_at]. rewrite Nat.add_0_r. repeat split; auto.
    Qed.

    (** The tag *)
    Lemma index_found : forall exact tag t switch s p, no_repeat [tag] js -> Forall (nc [tag]) (map fst js) ->
      (exact = true -> forall k, In k (map fst js) -> In k [tag]) -> has nc tag t js s -> cfirst p = Some a -> clast p = Some b ->
      find_index (parse_value_class g exact [mkmember tag (is_nullable t) (parse_value g t)]) switch buf p = Ok (switch s).
    Proof.
      intros exact tag t switch s p NR FN EX HH C1 C2. unfold find_index. rewrite C1, C2.
      assert (R : reads g (parse_value g (TClass exact [(tag, t)])) (JObj js) (VClass [s])).
      { apply (typed_reads g HX HE nc HNC). cbn [typed]. exists js, [s]. split; [reflexivity|]. split; [reflexivity|]. split; [apply no_dup_1|].
        split; [exact NR|]. split; [exact FN|]. split; [exact EX|]. split; [exact HH|exact I]. }
      destruct (proj1 R buf (new_ps a b) tx je HW H32 HT HS HF) as (q & E & _). cbn [parse_value map fst snd] in E.
      pose proof (followed_le _ _ _ _ _ HF) as FL.
      assert (B : is_at buf (new_ps a b) c_lbrace = Ok true).
      { apply is_at_yes; [|inversion HT; subst; cbn [first last new_ps length] in *; lia]. inversion HT; subst; apply HS. }
      rewrite B. cbn [ensure bind]. rewrite E. reflexivity.
    Qed.

    Lemma reads_tagged : forall names k exact tag t switch alts s v z al, NoDup names ->
      no_repeat [tag] js -> Forall (nc [tag]) (map fst js) -> (exact = true -> forall k, In k (map fst js) -> In k [tag]) -> has nc tag t js s ->
      nth_error alts (switch s) = Some al -> typed nc al v z -> no_text v \/ in_turn names js k ->
      reads_in buf (in_class a b) (located_in g buf a b names js k) (parse_mty g (MTagged exact tag t switch alts)) v (VVariant (switch s) z).
    Proof.
      intros names k exact tag t switch alts s v z al ND NR FN EX HH NA TV OR.
      assert (R := typed_reads g HX HE nc HNC al v z TV).
      assert (V : forall p q, parse_value g al false buf p = Ok (z, q) -> parse_visit (switch s) (map (parse_value g) alts) buf p = Ok (VVariant (switch s) z, q)).
      { intros p q E. unfold parse_visit. rewrite nth_error_map, NA. cbn [option_map]. rewrite E. reflexivity. }
      split.
      - intros p t0 j (C1 & C2 & C3) W T S F _. cbn [parse_mty]. unfold parse_value_variant_tagged.
        rewrite (index_found exact tag t switch s p NR FN EX HH C1 C2). cbn [bind].
        destruct (proj1 R buf p t0 j W H32 T S F) as (q & E & M & L). exists q. rewrite (V p q E). auto.
      - intros NV r HL. destruct OR as [NT|IT].
        + destruct (located_keeps _ _ _ _ HL NT) as (C1 & C2 & W & t0 & T & S & F). cbn [parse_mty]. unfold parse_value_variant_tagged.
          rewrite (index_found exact tag t switch s r NR FN EX HH C1 C2). cbn [bind].
          destruct (proj1 R buf r t0 _ W H32 T S F) as (q & E & M & L). exists q. apply V. exact E.
        + exfalso. destruct HL as [O _]. exact (in_turn_stays names js k ND IT O).
    Qed.

    (** The size *)
    Lemma lookup_first : forall k l n, lookup k l = Some n -> exists i, first_named k l i /\ nth_error l i = Some (k, n).
    Proof.
      induction l as [|[k' v] l IH]; intros n E; [discriminate|]. cbn [lookup] in E. destruct (list_eq_dec N.eq_dec k' k) as [->|NE].
      - injection E as <-. exists O. split; [|reflexivity]. exists [], v, l. repeat split; auto.
      - destruct (IH n E) as (i & (a0 & v0 & b0 & -> & L & NI) & N). exists (S i). split; [|exact N]. exists ((k', v) :: a0), v0, b0. cbn [app length map fst In].
        split; [reflexivity|]. split; [lia|]. intros [Y|Y]; [congruence|tauto].
    Qed.

    Lemma size_found : forall name n, simple name -> Forall (name_ok g) (map fst js) -> lookup name js = Some n ->
      exists q, find_in_class g buf a b name = Ok (q, true) /\ value_at buf n q.
    Proof.
      intros name n SN FN LN. destruct (lookup_first _ _ _ LN) as (i & FI & NI). unfold find_in_class.
      pose proof (followed_le _ _ _ _ _ HF) as FL.
      assert (H0 : nth_error buf a = Some 123) by (inversion HT; subst; apply HS).
      rewrite (trim_here buf (new_ps a b) 123); [|apply HW|exact H0|lia]. cbn [bind].
      destruct name as [|c nm'] eqn:EN; [destruct SN; congruence|]. rewrite <- EN in *.
      assert (HM : has_more (new_ps a b) = true) by (unfold has_more; cbn [first last new_ps]; inversion HT; subst; cbn [length] in *; lia).
      rewrite HM. unfold find_range2.
      destruct (pop_name name [] [] SN rt_end) as (c' & r' & E & PO). rewrite app_nil_r in E.
      assert (EP : pop_json_path name = (name, c', r')).
      { unfold pop_json_path. replace (strip_dot name) with name; [exact E|]. destruct SN as [_ SN]. rewrite EN. cbn [strip_dot].
        rewrite EN in SN. apply Forall_inv in SN. unfold c_dot. now rewrite (proj2 (N.eqb_neq c 46)). }
      rewrite EP. eapply (find_range2_ok g HX HE buf H32 (JObj js) [SName name] n); eauto.
      - eapply l_name; [|exact FI|exact NI|constructor]. cbn [names_ok]. clear - FN. induction js as [|m l IH]; cbn [map] in FN; constructor; inversion FN; auto.
      - cbn [lone]. exact I.
      - split; [exact HW|]. exists tx, je. repeat split; auto. discriminate.
      - cbn [length]. lia.
        Unshelve. exact false.
    Qed.

    Lemma reads_sized : forall names k name sz t v n z xs, NoDup names -> simple name -> Forall (name_ok g) (map fst js) -> lookup name js = Some n ->
      typed nc sz n (VInt z) -> typed nc (TArr t) v (VArr xs) -> in_turn names js k ->
      reads_in buf (in_class a b) (located_in g buf a b names js k) (parse_mty g (MSized name sz t)) v (VTuple [VInt (z mod 2^64); VArr xs]).
    Proof.
      intros names k name sz t v n z xs ND SN FN LN TS TV IT. split.
      - intros p t0 j (C1 & C2 & C3) W T S F _. cbn [parse_mty]. unfold parse_value_sz_array. rewrite C1, C3.
        destruct (size_found name n SN FN LN) as (q2 & E2 & (W2 & t2 & j2 & T2 & S2 & F2 & _)). rewrite E2. cbn [bind ensure].
        destruct (proj1 (typed_reads g HX HE nc HNC sz n _ TS) buf q2 t2 j2 W2 H32 T2 S2 F2) as (q3 & E3 & _). rewrite E3. cbn [bind].
        destruct (proj1 (typed_reads g HX HE nc HNC (TArr t) v _ TV) buf p t0 j W H32 T S F) as (q & E & M & L). cbn [parse_value] in E.
        rewrite E. cbn [bind]. exists q. auto.
      - intros NV r HL. exfalso. destruct HL as [O _]. exact (in_turn_stays names js k ND IT O).
    Qed.
  End Class.

  (** ** The class *)
  Lemma mclass_ok : forall exact mm js xs, class_means nc exact mm js xs ->
    reads g (parse_mclass g exact mm) (JObj js) (VClass xs).
  Proof.
    intros exact mm js xs (ND & NR & FN & EX & HM). apply reads_bracketed; auto; [right; eauto|]. intros known buf p t j HW H32 HT HS HF.
    pose proof (followed_le _ _ _ _ _ HF) as FL. unfold parse_mclass, parse_value_class.
    assert (EN : map m_name (map (mmember g) mm) = map fst mm) by (rewrite map_map; reflexivity).
    assert (WC : wf buf (new_ps (first p) (last p))).
    { destruct HW as (B & _ & L & _). split; [exact B|]. split; [reflexivity|]. cbn [first last clast new_ps]. split; [exact L|]. exists (last p). split; [reflexivity|lia]. }
    assert (FI : fits_in g exact buf (first p) (last p) (map (mmember g) mm) js xs).
    { unfold fits_in. rewrite EN. split; [exact ND|]. split; [exact NR|]. split; [revert FN; apply Forall_impl; intros k; apply HNC|]. split; [exact EX|].
      assert (FNO : Forall (name_ok g) (map fst js)) by (revert FN; apply Forall_impl; intros k H; apply (HNC _ _ H)).
      revert HM. generalize (map fst mm) as names, ND. clear ND NR FN EX EN. intros names ND HM.
      induction HM as [|[nm m] y mm xs H1 _ IH]; cbn [map]; constructor; auto. clear IH. cbn [fst snd] in H1.
      unfold mmember. cbn [fst snd]. destruct m as [t0|ex tag t0 switch alts|name sz t0|]; cbn [member_means] in H1; [| | |contradiction].
      - apply (gets_gets_in g buf H32); [intros k v r; apply located_in_located|]. unfold gets. cbn [m_name m_nullable m_parse mty_nullable]. unfold has in H1. rewrite lookup_assoc in H1.
        destruct (assoc nm js) as [v|]; [|exact H1]. split; [apply (typed_reads g HX HE nc HNC); exact H1|]. intros ->. eapply typed_null; eauto.
      - destruct H1 as (v & s & z & al & LN & NV & NR & FN & EX & HH & NA & TV & -> & OR). unfold gets_in. cbn [m_name m_nullable m_parse]. rewrite lookup_assoc in LN. rewrite LN.
        split; [|congruence]. apply (reads_tagged buf H32 (first p) (last p) js t j WC HT HS HF) with (al := al); auto.
      - destruct H1 as (v & n & z & vs & LN & SN & LS & TS & TV & -> & IT). unfold gets_in. cbn [m_name m_nullable m_parse]. rewrite lookup_assoc in LN. rewrite LN.
        split; [|intros ->; cbn [typed] in TV; destruct TV as (es & xs0 & E & _); discriminate].
        apply (reads_sized buf H32 (first p) (last p) js t j WC HT HS HF) with (n := n); auto. }
    destruct (class_in g exact _ js xs HX HE buf p t j FI HW H32 HT HS (followed_ws_run _ _ _ _ HF)) as (q & E & M & F).
    destruct (jtext_head _ _ _ HT) as (c & r & -> & _). cbn [length] in *.
    unfold has_more. replace (first p <? last p)%nat with true by lia. cbn [ensure bind].
    rewrite E. cbn [bind]. destruct known.
    - exists q. split; [reflexivity|]. split; [exact M|]. lia.
    - assert (LQ : last q = last p) by apply M.
      rewrite (trim_followed buf q j (proj1 HW)) by (rewrite F, LQ; eapply followed_at_j; eauto). cbn [bind].
      eexists. split; [reflexivity|]. split; [eapply moved_trans; [exact M|repeat split]|]. cbn [first set_first]. lia.
  Qed.

  (** ** Documents *)
  Theorem from_json_means : forall verify exact mm js xs doc, is_bytes doc -> N.of_nat (length doc) < 2^32 ->
    object_document js doc -> class_means nc exact mm js xs -> from_json_mclass g verify exact mm doc = Ok (VClass xs).
  Proof.
    intros verify exact mm js xs doc HB H32 (w0 & tx & w & z & W0 & HT & W & HZ & ->) HM.
    replace (w0 ++ tx ++ w ++ z) with ((w0 ++ tx ++ w) ++ z) in * by (rewrite <- !app_assoc; reflexivity).
    destruct (jtext_head _ _ _ HT) as (c0 & r0 & ET & ST). destruct (jtext_last _ _ _ HT) as (rl & cl & EL & NL).
    set (body := w0 ++ tx ++ w) in *.
    assert (LT : (0 < length tx)%nat) by (rewrite ET; cbn; lia).
    assert (LL : length body = (length w0 + length tx + length w)%nat) by (unfold body; rewrite !app_length; lia).
    unfold from_json_mclass. set (buf := body ++ z) in *.
    assert (LB : (length body <= length buf)%nat) by (unfold buf; rewrite app_length; lia).
    replace (length buf =? 0)%nat with false by lia. cbn [negb ensure bind].
    assert (RD : exists x, rd buf (length buf - 1) = Ok x /\ (if x =? 0 then (length buf - 1)%nat else length buf) = length body).
    { destruct HZ as [->| ->].
      - assert (LE : exists r c, body = r ++ [c] /\ c <> 0).
        { unfold body. rewrite EL. destruct (ws_last rl cl w NL W) as (r' & c' & E' & N'). exists (w0 ++ r'), c'. rewrite E', <- app_assoc. auto. }
        destruct LE as (r & c & Eb & NC). exists c. unfold buf. rewrite app_nil_r. split.
        + apply rd_some. rewrite Eb, app_length. cbn [length]. replace (length r + 1 - 1)%nat with (length r) by lia. rewrite nth_error_app2, Nat.sub_diag by lia. reflexivity.
        + replace (c =? 0) with false by lia. reflexivity.
      - exists 0. unfold buf. split.
        + apply rd_some. rewrite app_length. cbn [length]. replace (length body + 1 - 1)%nat with (length body) by lia. rewrite nth_error_app2, Nat.sub_diag by lia. reflexivity.
        + cbn [N.eqb]. rewrite app_length. cbn [length]. lia. }
    destruct RD as (x & -> & EQL). cbn [bind]. rewrite EQL. clear EQL x. set (l := length body) in *.
    assert (STX : sub_at buf (length w0) tx).
    { unfold buf, body. replace ((w0 ++ tx ++ w) ++ z) with (w0 ++ tx ++ (w ++ z)) by (rewrite <- !app_assoc; reflexivity). apply sub_at_mid. }
    set (p := set_first (new_ps 0 l) (length w0)).
    assert (WF : wf buf p) by (apply wf_doc; auto; lia).
    assert (EP : parse_mclass g exact mm false buf (new_ps 0 l) = parse_mclass g exact mm false buf p).
    { unfold parse_mclass, parse_value_class, has_more, p. cbn [first last set_first new_ps].
      replace (0 <? l)%nat with true by lia. replace (length w0 <? l)%nat with true by lia. cbn [ensure bind]. unfold parse_json_class.
      rewrite (trim_to buf (new_ps 0 l) w0 c0 HB W0); cbn [first last new_ps]; try lia.
      - rewrite (trim_here buf (set_first (new_ps 0 l) (length w0)) c0); [reflexivity|exact HB|cbn [first set_first]; rewrite ET in STX; apply STX|unfold starter in ST; lia].
      - unfold buf, body. rewrite ET. replace ((w0 ++ (c0 :: r0) ++ w) ++ z) with ((w0 ++ [c0]) ++ (r0 ++ w) ++ z) by (repeat (rewrite <- ?app_assoc; cbn [app]); reflexivity). apply sub_at_0.
      - unfold starter in ST. lia. }
    rewrite EP.
    assert (HF : followed true buf (first p + length tx) l (last p)).
    { exists w. split; [exact W|]. unfold p. cbn [first last set_first new_ps]. split; [|split; [lia|split; [lia|left; auto]]].
      unfold buf, body. replace ((w0 ++ tx ++ w) ++ z) with ((w0 ++ tx) ++ w ++ z) by (rewrite <- !app_assoc; reflexivity).
      rewrite <- app_length. apply sub_at_mid. }
    destruct (proj1 (mclass_ok exact mm js xs HM) buf p tx l WF H32 HT STX HF) as (q & EQ & MQ & LQ).
    rewrite EQ. cbn [bind]. destruct verify; [|reflexivity].
    assert (LQl : last q = l) by (rewrite (proj1 MQ); reflexivity).
    rewrite (trim_followed buf q l HB).
    2:{ rewrite LQl. change (last p) with l in HF. eapply followed_from; [exact HF|exact LQ]. }
    cbn [bind]. unfold ps_empty. cbn [isnull first last set_first]. rewrite LQl, Nat.leb_refl, orb_true_r. reflexivity.
  Qed.
End Cfg.
