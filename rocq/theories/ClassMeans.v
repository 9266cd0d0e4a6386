(** Classes inside of arrays, maps, optional values and classes: what is read from a
    JSON text is what its value means. *)
From Coq Require Import List NArith ZArith Bool Lia Arith ZifyBool ZifyNat ZifyN.
From Verif Require Import Base Mem Loop PolicyModel IntModel StrScanModel SkipModel SpecNum SpecText SpecJson SpecUnicode IntValueProofs
  SkipProofs SkipSafe ScalarProofs HashModel ValueModel NameProofs ClassProofs ClassProofs2 ArrayProofs
  SpecTyped TypedProofs TypedSafe UniqueProofs SpecLax LaxProofs SpecMeans MeansProofs RightProofs.
Import ListNotations.
Local Open Scope N_scope.

Lemma lax_class_type : forall t, lax_type t = true -> class_type t = true.
Proof. induction t using ty_nested; intros HT; cbn [lax_type class_type] in *; auto; discriminate. Qed.

Lemma hex4_fun : forall ds u ds' u' t t', hex4 ds u -> hex4 ds' u' -> ds ++ t = ds' ++ t' -> u = u' /\ t = t'.
Proof.
  intros ds u ds' u' t t' (a & b & c & d & -> & _ & _ & _ & _ & ->) (a' & b' & c' & d' & -> & _ & _ & _ & _ & ->) E.
  cbn [app] in E. injection E as -> -> -> -> ->. auto.
Qed.

Lemma denotes_fun : forall b s, SpecUnicode.denotes b s -> forall s', SpecUnicode.denotes b s' -> s = s'.
Proof.
  assert (ESC : forall e c c', In (e, c) simple_escapes -> In (e, c') simple_escapes -> c = c').
  { intros e c c' H H'. cbn [simple_escapes In] in H, H'.
    repeat match goal with H : _ \/ _ |- _ => destruct H as [H|H] | H : False |- _ => destruct H end; congruence. }
  assert (NU : forall c, ~ In (117, c) simple_escapes).
  { intros c H. cbn [simple_escapes In] in H. repeat destruct H as [H|H]; try discriminate; auto. }
  induction 1 as [|c t s N1 N2 D IH|e c t s I D IH|ds u t s H S D IH|ds1 u1 ds2 u2 t s H1 H2 R1 R2 D IH]; intros s' D'; inversion D'; subst; try congruence.
  - f_equal. auto.
  - f_equal; auto. eapply ESC; eauto.
  - exfalso. eapply NU; eauto.
  - exfalso. eapply NU; eauto.
  - exfalso. eapply NU; eauto.
  - match goal with A : hex4 ?d ?w, B : ?d ++ ?y = ds ++ t |- _ => destruct (hex4_fun _ _ _ _ _ _ H A (eq_sym B)) as [-> ->] end. f_equal. auto.
  - match goal with A : hex4 ?d ?w, B : ?d ++ 92 :: ?y = ds ++ t |- _ => destruct (hex4_fun _ _ _ _ _ _ H A (eq_sym B)) as [-> ->] end. unfold scalar in S. lia.
  - exfalso. eapply NU; eauto.
  - match goal with A : hex4 ?d ?w, B : ?d ++ ?y = ds1 ++ _ |- _ => destruct (hex4_fun _ _ _ _ _ _ H1 A (eq_sym B)) as [-> E] end. unfold scalar in *. lia.
  - match goal with A : hex4 ?d ?w, B : ?d ++ ?y = ds1 ++ _ |- _ => destruct (hex4_fun _ _ _ _ _ _ H1 A (eq_sym B)) as [-> E] end. injection E as E.
    match goal with A : hex4 ?d ?w, B : _ = ?d ++ _ |- _ => destruct (hex4_fun _ _ _ _ _ _ H2 A B) as [-> ->] end. f_equal. auto.
Qed.

Lemma denotes_stands : forall b s, SpecUnicode.denotes b s -> stands b s.
Proof. intros b s D s' D'. exact (denotes_fun _ _ D _ D'). Qed.

Section Cfg.
  Context (g : cfg).
  Hypothesis HX : c_ex g = ExConstexpr.
  Hypothesis HE : c_excl g = false.
  Context (nc : list (list N) -> list N -> Prop).
  Hypothesis HNC : forall names k, nc names k -> name_ok g k /\ tells g names k.
  Set Default Proof Using "All".


  (** What C29 says a value stands for is what it means *)
  Lemma typed_means : forall t, class_type t = true -> forall v x, typed nc t v x -> means t v x.
  Proof.
    clear. induction t as [w rc|w rc| | |t IH|t IH|t IH|e ms IH|e ts IH|e kn tk vn tv IH1 IH2|k|ts IH|e tag t sw ts IH1 IH2] using ty_nested;
      intros HT v x H; cbn [class_type] in HT; try discriminate; cbn [typed] in H.
    - destruct H as (ds & -> & (D & NE & _) & _ & _ & ->). constructor; auto.
    - destruct H as (tx & z & -> & HC & _ & _ & _ & ->). unfold canonical_int in HC. destruct (z <? 0)%Z eqn:Z0.
      + destruct HC as (ds & -> & (D & NE & _) & EZ). change (45 :: ds) with ((if true then [45] else []) ++ ds). apply mn_int; auto. unfold with_sign. intros. lia.
      + destruct HC as ((D & NE & _) & EZ). change tx with ((if false then [45] else []) ++ tx). apply mn_int; auto.
    - destruct H as [[-> ->]|[-> ->]]; constructor.
    - destruct H as (b & s & -> & D & ->). constructor. now apply denotes_stands.
    - destruct H as [[-> ->]|(NV & y & H & ->)]; constructor; auto.
    - destruct H as (es & xs & -> & -> & H). constructor. induction H; constructor; auto.
    - destruct H as (ms & kxs & -> & -> & H). constructor. induction H as [|[k v] [s x] ms kxs [D H] _ IHl]; constructor; auto. now apply denotes_stands.
    - destruct H as (js & xs & -> & -> & _ & _ & _ & _ & H). constructor. revert xs H.
      induction ms as [|[nm t] ms IHm]; intros [|y xs] H; try contradiction; [constructor|]. cbn [forallb snd] in HT. apply andb_prop in HT as [HT1 HT2].
      destruct H as [H1 H2]. pose proof (Forall_inv IH) as IH1. cbn [snd] in IH1. specialize (IHm (Forall_inv_tail IH) HT2 _ H2).
      destruct (lookup nm js) as [v'|] eqn:EL; [eapply mc_there; eauto|]. destruct H1 as [NU ->]. destruct t; try discriminate NU. now apply mc_absent.
    - apply andb_prop in HT as [-> HT]. destruct H as (es & xs & es2 & -> & -> & EX & _ & H). rewrite (EX eq_refl), app_nil_r. clear EX es2. constructor. revert es xs H.
      induction ts as [|t ts IHt]; intros [|e es] [|y xs] H; try contradiction; [constructor|]. cbn [forallb] in HT. apply andb_prop in HT as [HT1 HT2].
      destruct H as [H1 H2]. constructor; [|now apply (IHt (Forall_inv_tail IH))]. apply (Forall_inv IH); [now apply lax_class_type|exact H1].
  Qed.

  Section Buf.
    Context (buf : list N) (L : nat).
    Hypothesis HYP : is_bytes buf /\ (L <= length buf)%nat /\ (nth_error buf L = None \/ nth_error buf L = Some 0) /\ N.of_nat (length buf) < 2^32.

    Lemma other_start : forall v t p c, jtext str_body v t -> sub_at buf (first p) t -> sound L p -> (first p < L)%nat ->
      trim_left_checked buf p = Ok p /\ (~ kind_char v c -> is_at buf p c = Ok false).
    Proof.
      intros v t p c HT HS (S1 & S2 & S3 & S4) LT. destruct HYP as (HB & HL & _). destruct (text_head _ _ HT) as (d & r & -> & K & SO & _). destruct HS as [HS _].
      split; [apply (trim_here buf p d); auto; try lia|].
      - cbn [length] in *. destruct (jtext_head _ _ _ HT) as (d' & r' & EQ & ST). injection EQ as <- <-. unfold starter in ST. lia.
      - intros NK. apply (is_at_no buf p d c); auto. intros ->. auto.
    Qed.

    Lemma right_value : forall t, class_type t = true -> forall v, tidy nc t v -> right buf L (parse_value g t) v (means t v).
    Proof.
      pose proof HYP as (HB & HL & _ & H32).
      assert (BASE : forall t, lax_type t = true -> forall v, right buf L (parse_value g t) v (means t v)) by (intros; now apply (right_lax buf L g HYP HX HE)).
      induction t as [w rc|w rc| | |t IH|t IH|t IH|e ms IH|e ts IH|e kn tk vn tv IH1 IH2|k|ts IH|e tag t sw ts IH1 IH2] using ty_nested;
        intros HT v TD; cbn [class_type] in HT; try discriminate; try (apply BASE; auto; fail).
      - (* optional *) cbn [tidy] in TD. intros p t0 j x q SP JT HS HF E. pose proof (followed_le _ _ _ _ _ HF) as FL. pose proof SP as (S1 & S2 & S3 & S4).
        assert (D : v = JNull \/ v <> JNull) by (destruct v; auto; right; discriminate). destruct D as [->|NV].
        + destruct (proj1 (reads_null g t) buf p t0 j) as (q' & E' & M & LQ); auto; [now apply (sound_wf buf L g HYP HX HE)|rewrite S2; exact HF|].
          rewrite E in E'. injection E' as -> ->. split; [constructor|]. split; [|lia]. apply (sound_moved buf L g HYP HX HE p); auto. lia.
        + destruct (jtext_head _ _ _ JT) as (c & r & -> & ST). cbn [length] in *.
          pose proof HS as [HC _]. pose proof (jtext_not_n g v _ buf _ JT HS NV _ HC) as N110. unfold starter in ST.
          cbn [parse_value] in E. unfold parse_value_null in E. unfold has_more, front in E. replace (first p <? last p)%nat with true in E by lia.
          rewrite (rd_some _ _ _ HC) in E. cbn [bind] in E.
          replace (is_token_after_value c) with false in E by (unfold is_token_after_value, c_comma, c_rbrace, c_rbrack; lia). cbn iota in E.
          rewrite (starts_with_no buf p _ c 110) in E by (auto; lia). cbn [bind] in E.
          destruct (parse_value g t false buf p) as [[y q']| | |] eqn:EP; cbn [bind] in E; try discriminate E. injection E as <- <-.
          destruct (IH HT v TD p (c :: r) j y q') as (MY & SQ & LQ); auto. split; [constructor; auto|auto].
      - (* arrays *) intros p t0 j x q SP JT HS HF E. pose proof (followed_le _ _ _ _ _ HF) as FL.
        destruct (text_head _ _ JT) as (c & r & EC & K & _). assert (LT : (first p < L)%nat) by (subst t0; cbn [length] in FL; lia).
        destruct (other_start v t0 p 91 JT HS SP LT) as (TR & NO). cbn [parse_value] in E.
        assert (D : (exists vs, v = JArr vs) \/ ~ kind_char v 91).
        { destruct v; cbn [kind_char]; eauto; right; unfold SpecTokens.numc; lia. }
        destruct D as [(vs & ->)|NK].
        + cbn [tidy] in TD. destruct (array_right buf L g HYP HX HE (parse_value g t) (means t) vs p t0 j x q) as (xs & -> & FX & SQ & FQ); auto.
          * rewrite Forall_forall in *. intros v IN. apply IH; auto.
          * eapply followed_ws_run; eauto.
          * split; [|split; [exact SQ|lia]]. constructor. clear - FX. induction FX; constructor; auto.
        + exfalso. unfold parse_value_array in E. rewrite TR in E. cbn [bind] in E. unfold c_lbrack in E. rewrite (NO NK) in E. discriminate E.
      - (* maps *) intros p t0 j x q SP JT HS HF E. pose proof (followed_le _ _ _ _ _ HF) as FL.
        destruct (text_head _ _ JT) as (c & r & EC & K & _). assert (LT : (first p < L)%nat) by (subst t0; cbn [length] in FL; lia).
        destruct (other_start v t0 p 123 JT HS SP LT) as (TR & NO). cbn [parse_value] in E.
        assert (D : (exists ms, v = JObj ms) \/ ~ kind_char v 123).
        { destruct v; cbn [kind_char]; eauto; right; unfold SpecTokens.numc; lia. }
        destruct D as [(ms & ->)|NK].
        + cbn [tidy] in TD. destruct (map_right buf L g HYP HX HE (parse_value g t) (means t) ms p t0 j x q) as (xs & -> & FX & SQ & FQ); auto.
          * rewrite Forall_forall in *. intros m IN. apply IH; auto.
          * eapply followed_ws_run; eauto.
          * split; [|split; [exact SQ|lia]]. constructor. clear - FX. induction FX as [|[k v] [s x] ? ? [A B]]; constructor; auto.
        + exfalso. unfold parse_value_keyvalue in E. unfold c_lbrace in E. rewrite (NO NK) in E. discriminate E.
      - (* classes *) intros p t0 j x q SP JT HS HF E. pose proof (followed_le _ _ _ _ _ HF) as FL. pose proof SP as (S1 & S2 & S3 & S4).
        destruct (text_head _ _ JT) as (c & r & EC & K & _). assert (LT : (first p < L)%nat) by (subst t0; cbn [length] in FL; lia).
        destruct (other_start v t0 p 123 JT HS SP LT) as (TR & NO). cbn [parse_value] in E. unfold parse_value_class in E.
        unfold has_more in E. replace (first p <? last p)%nat with true in E by lia. cbn [ensure bind] in E.
        assert (D : (exists js, v = JObj js) \/ ~ kind_char v 123).
        { destruct v; cbn [kind_char]; eauto; right; unfold SpecTokens.numc; lia. }
        destruct D as [(js & ->)|NK].
        2:{ exfalso. unfold parse_json_class in E. rewrite TR in E. cbn [bind] in E. unfold c_lbrace in E. rewrite (NO NK) in E. discriminate E. }
        cbn [tidy] in TD. destruct TD as (ND & NR & FN & EX & TM).
        set (mk := fun m : list N * ty => (mkmember (fst m) (is_nullable (snd m)) (parse_value g (snd m)), means (snd m))).
        assert (EMS : map (fun m => mkmember (fst m) (is_nullable (snd m)) (parse_value g (snd m))) ms = map fst (map mk ms)) by (rewrite map_map; reflexivity).
        assert (ENM : map m_name (map fst (map mk ms)) = map fst ms) by (rewrite !map_map; reflexivity).
        rewrite EMS in E. destruct (parse_json_class g e (map fst (map mk ms)) buf p) as [[y q1]| | |] eqn:EP; cbn [bind] in E; try discriminate E.
        destruct (class_right buf L g HYP HX HE e (map mk ms) js p t0 j y q1) as (xs & -> & FX & SQ & FQ); auto.
        + unfold object_fits. rewrite ENM. split; [exact ND|]. split; [exact NR|]. split; [|exact EX]. revert FN. apply Forall_impl. intros k. apply HNC.
        + rewrite ENM. revert TM. clear - IH HT HNC HX HE HYP H32. generalize (map fst ms) at 1 2 as names. intros names. induction ms as [|[nm t] ms IHm]; intros TM; [constructor|].
          cbn [forallb snd] in HT. apply andb_prop in HT as [HT1 HT2]. destruct TM as [TM1 TM2]. cbn [map].
          constructor; [|now apply (IHm (Forall_inv_tail IH))]. unfold able, mk. cbn [fst snd m_name m_nullable m_parse]. rewrite <- lookup_assoc.
          intros v EL. rewrite EL in TM1. destruct TM1 as [TD OV]. split; [apply (Forall_inv IH); auto|]. split.
          * intros -> NU. destruct t; try discriminate NU. constructor.
          * intros (a & v' & b & pos & m & n & A1 & A2 & A3 & A4 & A5) NV r x q LO EQ.
            destruct OV as (y & TY); auto; [exists a, v', b, pos, m, n; rewrite !lookup_assoc; auto 10|].
            destruct (proj2 (typed_reads g HX HE nc HNC t v y TY) NV buf r H32 LO) as (q' & EQ'). rewrite EQ in EQ'. injection EQ' as -> ->. now apply typed_means.
        + eapply followed_ws_run; eauto.
        + assert (TQ : trim_left_checked buf q1 = Ok q1).
          { rewrite (trim_followed buf q1 j HB).
            - f_equal. rewrite <- FQ. destruct q1; reflexivity.
            - rewrite FQ. replace (last q1) with L by (symmetry; apply SQ). eapply followed_from; [exact HF|lia]. }
          rewrite TQ in E. cbn [bind] in E. injection E as <- <-. split; [|split; [exact SQ|lia]]. constructor.
          clear - FX HX HE HNC. revert xs FX. induction ms as [|[nm t] ms IHm]; intros xs FX; inversion FX as [|? y ? ys G1 G2]; subst; [constructor|].
          unfold got, mk in G1. cbn [fst snd m_name m_nullable] in G1. rewrite <- lookup_assoc in G1. specialize (IHm _ G2).
          destruct (lookup nm js) as [v|] eqn:EL; [eapply mc_there; eauto|]. destruct G1 as [NU ->]. destruct t; try discriminate NU. now apply mc_absent.
    Qed.
  End Buf.

  Theorem from_json_means : forall verify t v x doc, class_type t = true -> is_bytes doc -> N.of_nat (length doc) < 2^32 ->
    document t v doc -> tidy nc t v -> from_json g verify t doc = Ok x -> means t v x.
  Proof.
    intros verify t v x doc HC HB H32 (w0 & tx & w & z & W0 & TR & HT & W & HZ & ->) TD E.
    replace (w0 ++ tx ++ w ++ z) with ((w0 ++ tx ++ w) ++ z) in * by (rewrite <- !app_assoc; reflexivity).
    destruct (jtext_head _ _ _ HT) as (c0 & r0 & ET & ST). destruct (jtext_last _ _ _ HT) as (rl & cl & EL & NL).
    rewrite from_json_len in E; auto.
    2:{ subst tx. intros Y. apply app_eq_nil in Y as [_ Y]. discriminate. }
    2:{ rewrite EL. destruct (ws_last rl cl w NL W) as (r' & c' & E' & N'). rewrite E'. exists (w0 ++ r'), c'. rewrite <- app_assoc. auto. }
    set (buf := (w0 ++ tx ++ w) ++ z) in *. set (l := length (w0 ++ tx ++ w)) in *.
    assert (LL : l = (length w0 + length tx + length w)%nat) by (unfold l; rewrite !app_length; lia).
    assert (LB : (l <= length buf)%nat) by (unfold buf; rewrite app_length; fold l; lia).
    assert (HYP : is_bytes buf /\ (l <= length buf)%nat /\ (nth_error buf l = None \/ nth_error buf l = Some 0) /\ N.of_nat (length buf) < 2^32).
    { split; [exact HB|]. split; [exact LB|]. split; [|exact H32]. unfold buf, l. rewrite nth_error_app2, Nat.sub_diag by lia. destruct HZ as [->| ->]; [now left|now right]. }
    assert (STX : sub_at buf (length w0) tx).
    { unfold buf. replace ((w0 ++ tx ++ w) ++ z) with (w0 ++ tx ++ (w ++ z)) by (rewrite <- !app_assoc; reflexivity). apply sub_at_mid. }
    assert (LT : (0 < length tx)%nat) by (rewrite ET; cbn; lia).
    set (p := set_first (new_ps 0 l) (length w0)).
    assert (EP : parse_value g t false buf (new_ps 0 l) = parse_value g t false buf p).
    { destruct (trims t) eqn:TT.
      - apply (trims_leading g t false buf (new_ps 0 l) c0 HB TT w0 W0); cbn [first last new_ps].
        + unfold buf. rewrite <- app_assoc. rewrite ET.
          replace (w0 ++ ((c0 :: r0) ++ w) ++ z) with ((w0 ++ [c0]) ++ (r0 ++ w) ++ z) by (rewrite <- !app_assoc; reflexivity). apply sub_at_0.
        + unfold starter in ST. lia.
        + lia.
      - unfold p. rewrite (TR eq_refl). reflexivity. }
    rewrite EP in E. destruct (parse_value g t false buf p) as [[y q]| | |] eqn:EV; cbn [bind] in E; try discriminate E.
    assert (x = y) as ->.
    { destruct verify; [|congruence]. destruct (trim_left_checked buf q) as [q'| | |]; cbn [bind] in E; try discriminate E. destruct (ps_empty q'); cbn [ensure bind] in E; congruence. }
    apply (right_value buf l HYP t HC v TD p tx l y q).
    - repeat split. cbn [first set_first p]. lia.
    - exact HT.
    - exact STX.
    - exists w. split; [exact W|]. cbn [first set_first p]. split; [|split; [lia|split; [lia|left; auto]]].
      unfold buf. replace ((w0 ++ tx ++ w) ++ z) with ((w0 ++ tx) ++ w ++ z) by (rewrite <- !app_assoc; reflexivity).
      replace (length w0 + length tx)%nat with (length (w0 ++ tx)) by apply app_length. apply sub_at_mid.
    - exact EV.
  Qed.
End Cfg.
