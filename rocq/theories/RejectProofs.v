(** What is refused: documents with something after the value, and objects
    without a required member. *)
From Coq Require Import List NArith ZArith Bool Lia Arith ZifyBool ZifyNat ZifyN.
From Verif Require Import Base Mem Loop PolicyModel IntModel StrScanModel SkipModel SpecNum SpecText SpecJson SpecUnicode
  IntProofs IntSerProofs IntValueProofs StrScanProofs StrScanProofs2 StrScanProofs3 SkipProofs BracketProofs SkipSafe
  PropertiesInt PropertiesStr PropertiesSkip StrDecodeModel StrDecodeProofs HashModel PropertiesHash ValueModel SpecTyped
  NameProofs ClassProofs ClassProofs2 ScalarProofs ArrayProofs VariantProofs TypedProofs.
Import ListNotations.
Local Open Scope N_scope.

(** ** Something after the value *)

Lemma ws_run_from : forall buf e j l k, ws_run buf e j l -> (e <= k <= j)%nat -> ws_run buf k j l.
Proof.
  intros buf e j l k (w & -> & L & S & W & E) HK. exists (skipn (k - e) w). split; [|split; [|split; [|split]]]; auto.
  - rewrite skipn_length. lia.
  - rewrite <- (firstn_skipn (k - e) w) in S. apply sub_at_app in S as [_ S].
    rewrite firstn_length in S. now replace (e + Nat.min (k - e) (length w))%nat with k in S by lia.
  - apply Forall_forall. intros y Hy. rewrite Forall_forall in W. apply W.
    rewrite <- (firstn_skipn (k - e) w). apply in_or_app. now right.
Qed.

Lemma end_of_item_some : forall buf p, (last p <= length buf)%nat -> exists b, end_of_item_ok buf p = Ok b.
Proof.
  intros buf p HL. unfold end_of_item_ok, has_more. destruct (Nat.ltb_spec (first p) (last p)) as [L|L]; [|eauto].
  destruct (rd_in buf (first p)) as (b & Hb); [lia|]. unfold front. rewrite (rd_some _ _ _ Hb). cbn [bind]. eauto.
Qed.

Definition outcome {A} (i j : nat) (p : ps) (r : res (A * ps)) : Prop :=
  (exists x q, r = Ok (x, q) /\ moved p q /\ (i <= first q <= j)%nat) \/ exists e, r = Err e.

Lemma outcome_end : forall A (x : A) buf i j p q, (last q <= length buf)%nat -> moved p q -> (i <= first q <= j)%nat ->
  outcome i j p (e <- end_of_item_ok buf q ;; _ <- ensure e InvalidEndOfValue ;; Ok (x, q)).
Proof.
  intros A x buf i j p q HL HM HI. destruct (end_of_item_some buf q HL) as ([|] & ->); cbn [ensure bind].
  - left. eauto.
  - right. eauto.
Qed.

Lemma outcome_map : forall A B (f : A -> B) i j p r, outcome i j p r -> outcome i j p ('(v, q) <- r ;; Ok (f v, q)).
Proof. intros A B f i j p r [(x & q & -> & H)|(e & ->)]; [left|right]; cbn [bind]; eauto. Qed.

Section Cfg.
  Context (g : cfg).
  Hypothesis HX : c_ex g = ExConstexpr.
  Hypothesis HE : c_excl g = false.
  Context (nc : list (list N) -> list N -> Prop).
  Hypothesis HNC : forall names k, nc names k -> name_ok g k /\ tells g names k.

  (** The text of [v] is followed by whitespace up to [j], where some other byte
      stands.  (A digit would continue a number.) *)
  Definition then_garbage (buf : list N) (v : jv) (e j l : nat) : Prop :=
    ws_run buf e j l /\ (j < l)%nat /\ match v with JNum _ => no_digit_at buf e l | _ => True end.

  Lemma meant_string : forall t v, takes_text t = true -> meant_for t v = true -> exists b, v = JStr b.
  Proof. induction t; intros v HT HM; try discriminate; [now apply IHt|]. destruct v; try discriminate; eauto. Qed.

  (** A custom type would take what continues the text, so only strings are
      considered for it. *)
  Lemma stops : forall t v x, typed nc t v x -> (takes_text t = true -> forall s, ~ literal v s) ->
    forall buf p tx j, wf buf p -> N.of_nat (length buf) < 2^32 -> jtext str_body v tx -> sub_at buf (first p) tx ->
      then_garbage buf v (first p + length tx) j (last p) ->
      outcome (first p + length tx) j p (parse_value g t false buf p).
  Proof.
    fix IH 1. intros t v x H HTT buf p tx j HW H32 HT HS (HG & HJ & HD).
    destruct t as [w rc|w rc| | |t|t|t|exact mm|exact ts|exact kn tk vn tv|k|alts|exact tag t switch alts];
      pose proof (ws_run_le _ _ _ _ HG) as FL; pose proof HW as (HB & HN & HLp & cl & HC & HCL).
    - cbn [typed] in H. destruct H as (ds & -> & HCa & W & LT & ->). inversion HT; subst tx. pose proof HCa as (HDs & NE & _).
      cbn [parse_value]. apply outcome_map.
      destruct (dig_first _ _ _ HS NE HDs) as (d & r & -> & Hd & Dd).
      unfold parse_value_unsigned. cbn [skip_quote_when_literal_as_string bind].
      unfold has_more. cbn [length] in FL. replace (first p <? last p)%nat with true by lia. cbn [ensure bind]. unfold front. rewrite (rd_some _ _ _ Hd). cbn [bind].
      rewrite is_number_dig by auto. cbn [ensure bind].
      assert (U : unsigned_parser false w rc buf p = Ok (dec_val (d :: r), set_first p (first p + length (d :: r)))).
      { assert (L64 : dec_val (d :: r) < 2^64) by (eapply N.lt_le_trans; [exact LT|now apply width_le]).
        destruct rc.
        - rewrite unsigned_parser_checked with (ds := d :: r); auto; [|lia]. replace (dec_val (d :: r) <? 2^w) with true by lia.
          replace (length (d :: r) <=? 20)%nat with true by (symmetry; apply Nat.leb_le; now apply canonical_size).
          now rewrite orb_true_r.
        - rewrite unsigned_parser_exact with (ds := d :: r); auto; [|lia].
          rewrite (N.mod_small (dec_val (d :: r)) (2^64)) by auto. now rewrite N.mod_small. }
      rewrite U. cbn [bind]. apply outcome_end; [cbn [last set_first]; lia|apply moved_first|cbn [first set_first length]; lia].
    - cbn [typed] in H. destruct H as (ts & z & -> & HCa & W & R & NZ & ->). inversion HT; subst tx.
      destruct (canonical_int_split _ _ HCa) as (neg & ds & -> & HC' & HZ).
      cbn [parse_value]. apply outcome_map. unfold parse_value_signed.
      pose proof HC' as (HDs & NE & _).
      assert (LE : (0 < length (sign_text neg ++ ds))%nat) by (destruct ds; [congruence|rewrite app_length; cbn; lia]).
      unfold has_more. replace (first p <? last p)%nat with true by lia. cbn [ensure bind].
      rewrite (validate_signed_first_ok buf p neg ds) by (auto; lia). cbn [bind].
      set (q := set_first p (first p + length (sign_text neg))).
      assert (HSq : sub_at buf (first q) ds) by (apply sub_at_app in HS as [_ HS]; exact HS).
      assert (EQ : (first q + length ds)%nat = (first p + length (sign_text neg ++ ds))%nat) by (unfold q; rewrite app_length; cbn; lia).
      rewrite <- HZ in *.
      destruct (to_signed_exact w neg (dec_val ds) W R NZ) as [HM HTS]. fold (signed_val neg ds) in HTS.
      pose proof (width_le w W) as WL.
      assert (U : unsigned_parser false w rc buf q = Ok (dec_val ds, set_first q (first q + length ds))).
      { assert (L64 : dec_val ds < 2^64) by lia.
        assert (ND : num_at false buf q (length ds)) by (unfold num_at; rewrite EQ; exact HD).
        destruct rc.
        - rewrite unsigned_parser_checked with (ds := ds); auto; [|unfold q; cbn [last set_first]; lia].
          replace (dec_val ds <? 2^w) with true by lia.
          replace (length ds <=? 20)%nat with true by (symmetry; apply Nat.leb_le; now apply canonical_size).
          now rewrite orb_true_r.
        - rewrite unsigned_parser_exact with (ds := ds); auto; [|unfold q; cbn [last set_first]; lia].
          rewrite (N.mod_small (dec_val ds) (2^64)) by auto. now rewrite N.mod_small. }
      rewrite U. cbn [bind]. rewrite HTS. cbn [bind skip_quote_when_literal_as_string].
      rewrite EQ. rewrite (trim_left_run buf _ j HB) by exact HG. cbn [bind].
      apply outcome_end; [unfold q; cbn [last set_first]; lia|repeat split|cbn [first set_first length]; lia].
    - cbn [parse_value]. unfold parse_value_bool. cbn [typed] in H.
      assert (LB : (last p <= length buf)%nat) by lia.
      assert (FIN : forall b n, (first p + n = first p + length tx)%nat ->
        outcome (first p + length tx) j p (q0 <- trim_left_checked buf (remove_prefix p n) ;; e <- end_of_item_ok buf q0 ;; _ <- ensure e InvalidEndOfValue ;; Ok (VBool b, q0))).
      { intros b n EN. rewrite (trim_left_run buf _ j HB) by (unfold remove_prefix; cbn [first last set_first]; rewrite EN; exact HG). cbn [bind].
        apply outcome_end; [unfold remove_prefix; cbn [last set_first]; lia|repeat split|cbn [first set_first]; lia]. }
      destruct H as [[-> ->]|[-> ->]]; inversion HT; subst tx.
      + rewrite starts_with_yes by (cbn [length] in *; auto; lia). cbn [bind]. apply FIN. reflexivity.
      + rewrite (starts_with_no buf p _ 102 116); [|lia|apply HS|discriminate]. cbn [bind].
        rewrite starts_with_yes by (cbn [length] in *; auto; lia). cbn [bind]. apply FIN. reflexivity.
    - cbn [typed] in H. destruct H as (b & s & -> & D & ->). inversion HT as [| | | |b' HB' E1 E2| | | |]; subst b' tx.
      cbn [length] in *. rewrite app_length in *. cbn [length] in *. cbn [parse_value]. rewrite HX.
      rewrite (string_here buf p b s) by (auto; lia). cbn [bind]. left. do 2 eexists. split; [reflexivity|]. split; [apply moved_first|]. cbn [first set_first]. lia.
    - cbn [typed] in H. destruct H as [[-> ->]|(NV & y & H & ->)].
      + inversion HT; subst tx. cbn [length] in *.
        cbn [parse_value]. unfold parse_value_null. unfold has_more, front. replace (first p <? last p)%nat with true by lia.
        rewrite (rd_some buf (first p) 110) by apply HS. cbn [bind]. change (is_token_after_value 110) with false. cbn iota.
        rewrite starts_with_yes by (cbn [length]; auto; lia). cbn [bind].
        destruct (end_of_item_some buf (remove_prefix p 4)) as ([|] & EI); [unfold remove_prefix; cbn [last set_first]; lia| |]; rewrite EI; cbn [ensure bind]; [|right; eauto].
        rewrite (trim_left_run buf (remove_prefix p 4) j HB) by exact HG. cbn [bind].
        left. do 2 eexists. split; [reflexivity|]. split; [repeat split|]. cbn [first set_first]. lia.
      + pose proof (IH t v y H HTT buf p tx j HW H32 HT HS (conj HG (conj HJ HD))) as IHt.
        destruct (jtext_head _ _ _ HT) as (c & r & -> & ST). cbn [length] in *.
        pose proof HS as [HC0 _]. pose proof (jtext_not_n g v _ buf _ HT HS NV _ HC0) as N110. unfold starter in ST.
        cbn [parse_value]. unfold parse_value_null. unfold has_more, front. replace (first p <? last p)%nat with true by lia.
        rewrite (rd_some _ _ _ HC0). cbn [bind].
        replace (is_token_after_value c) with false by (unfold is_token_after_value, c_comma, c_rbrace, c_rbrack; lia). cbn iota.
        rewrite (starts_with_no buf p _ c 110) by (auto; lia). cbn [bind]. now apply outcome_map.
    - assert (HR := typed_reads g HX HE nc HNC). cbn [typed] in H. destruct H as (es & xs & -> & -> & H). left.
      assert (HR' : Forall2 (reads g (parse_value g t)) es xs) by (revert H; clear - HR; induction 1; constructor; auto).
      destruct (array_ok g _ _ _ HR' buf p tx j HW H32 HT HS HG) as (q & E & M & F). cbn [parse_value]. do 2 eexists. split; [exact E|]. split; [exact M|]. lia.
    - assert (HR := typed_reads g HX HE nc HNC). cbn [typed] in H. destruct H as (ms & kxs & -> & -> & H). left.
      assert (HR' : Forall2 (reads_member g (parse_value g t)) ms kxs).
      { revert H; clear - HR; induction 1 as [|m kx ms kxs [D H] _ IHl]; constructor; auto. split; auto. }
      destruct (map_ok g HX _ _ _ HR' buf p tx j HW H32 HT HS HG) as (q & E & M & F). cbn [parse_value]. do 2 eexists. split; [exact E|]. split; [exact M|]. lia.
    - left. destruct (class_fits g HX HE nc HNC exact mm v x H) as (js & xs & -> & -> & HFit).
      destruct (class_ok g exact _ js xs HX HE HFit buf p tx j HW H32 HT HS HG) as (q & E & M & F).
      cbn [parse_value]. unfold parse_value_class. unfold has_more. replace (first p <? last p)%nat with true by lia. cbn [ensure bind].
      rewrite E. cbn [bind]. assert (LQ : last q = last p) by apply M.
      rewrite (trim_left_run buf q j HB) by (rewrite F, LQ; eapply ws_run_from; [exact HG|lia]). cbn [bind].
      do 2 eexists. split; [reflexivity|]. split; [eapply moved_trans; [exact M|repeat split]|]. cbn [first set_first]. lia.
    - left. destruct (tuple_fits g HX HE nc HNC exact ts v x H) as (es & xs & es2 & -> & -> & EX & NA & L & F).
      destruct (tuple_ok g HX exact _ es xs es2 F L EX NA buf p tx j HW H32 HT HS HG) as (q & E & M & FQ).
      cbn [parse_value]. do 2 eexists. split; [exact E|]. split; [exact M|exact FQ].
    - cbn [typed] in H. destruct H as (es & xs & -> & -> & NK & NE & H). left.
      assert (HR' : Forall2 (reads g (parse_value g (TClass exact [(kn, tk); (vn, tv)]))) es xs).
      { revert H. clear - HX HE HNC NK. induction 1 as [|e y es xs (js & a & b & -> & -> & NR & FN & EX & HA & HB) _ IHl]; constructor; [|exact IHl].
        apply (typed_reads g HX HE nc HNC). cbn [typed]. exists js, [a; b]. split; [reflexivity|]. split; [reflexivity|]. split; [now apply no_dup_2|].
        split; [exact NR|]. split; [exact FN|]. split; [exact EX|]. auto. }
      destruct (kv_ok g exact kn tk vn tv es xs NE HR' false buf p tx j HW H32 HT HS HG) as (q & E & M & L). eauto.
    - cbn [typed] in H. destruct H as (s & -> & H). left. cbn [parse_value].
      assert (ST : forall b, v = JStr b -> sub_at buf (first p) (34 :: b ++ [34]) /\ str_body b /\ length tx = (length b + 2)%nat).
      { intros b ->. inversion HT as [| | | |b' HB' E1 E2| | | |]; subst b' tx. split; [exact HS|]. split; [exact HB'|]. cbn [length]. rewrite app_length. cbn [length]. lia. }
      destruct k.
      + destruct H as [-> H]. destruct (ST _ eq_refl) as (S0 & SB & LT).
        exists (VStr s), (set_first p (first p + length s + 2)). split; [apply (custom_string_here g HX HE); auto; lia|]. split; [apply moved_first|cbn [first set_first]; lia].
      + exfalso. eapply HTT; eauto.
      + destruct H as [H|(b & -> & ->)]; [exfalso; eapply HTT; eauto|]. destruct (ST _ eq_refl) as (S0 & SB & LT).
        exists (VStr (34 :: b)), (set_first p (first p + length b + 2)). split; [apply (custom_any_here g HX HE); auto; lia|]. split; [apply moved_first|cbn [first set_first]; lia].
    - cbn [typed] in H. destruct H as (i & y & -> & H).
      assert (G : exists t, chosen v alts i t /\ outcome (first p + length tx) j p (parse_value g t false buf p)).
      { revert i H. induction alts as [|t alts IHa]; intros i H; [destruct i; contradiction|]. destruct i as [|i]; destruct H as [H1 H2].
        - exists t. split; [split; [exact H1|reflexivity]|]. apply (IH t v y H2); auto.
          + intros TT s HL. destruct (meant_string t v TT H1) as (b & ->). exact HL.
          + split; [exact HG|split; [exact HJ|exact HD]].
        - destruct (IHa HTT i H2) as (t' & C & R). exists t'. split; [split; [exact H1|exact C]|exact R]. }
      destruct G as (t & C & R). destruct (chosen_kind _ _ _ _ C) as (k & HK).
      pose proof (base_map_chosen g v k alts i t 0 HK C) as BM. cbn [Nat.add] in BM.
      cbn [parse_value]. unfold parse_value_variant. cbn [bind]. rewrite (variant_head g _ false buf p v tx k HT HS HK).
      unfold parse_variant_value. rewrite BM. now apply (outcome_map _ _ (VVariant i)).
    - cbn [typed] in H. destruct H as (js & y & z & -> & -> & NR & FN & EX & HY & HZ).
      assert (HT1 : typed nc (TClass exact [(tag, t)]) (JObj js) (VClass [y])).
      { cbn [typed]. exists js, [y]. split; [reflexivity|]. split; [reflexivity|]. split; [apply no_dup_1|]. split; [exact NR|]. split; [exact FN|]. split; [exact EX|]. auto. }
      destruct (class_fits g HX HE nc HNC exact [(tag, t)] (JObj js) (VClass [y]) HT1) as (js' & xs' & EJ & EXS & HFit). injection EJ as <-. injection EXS as <-.
      destruct (class_ok g exact _ js [y] HX HE HFit buf p tx j HW H32 HT HS HG) as (q & E & M & F).
      cbn [parse_value]. unfold parse_value_variant_intrusive. unfold parse_value_class. unfold has_more. replace (first p <? last p)%nat with true by lia. cbn [ensure bind].
      cbn [map fst snd] in E. rewrite E. cbn [bind]. assert (LQ : last q = last p) by apply M.
      rewrite (trim_left_run buf q j HB) by (rewrite F, LQ; eapply ws_run_from; [exact HG|lia]). cbn [bind].
      assert (G : exists P, nth_error (map (parse_value g) alts) (switch y) = Some P /\ outcome (first p + length tx) j p (P false buf p)).
      { generalize (switch y) HZ. clear HZ HY HT1 HFit E HTT. induction alts as [|t' alts IHa]; intros i H; [destruct i; contradiction|]. destruct i as [|i].
        - exists (parse_value g t'). split; [reflexivity|]. apply (IH t' (JObj js) z H); auto. split; [exact HG|split; [exact HJ|exact HD]].
        - cbn [map nth_error]. apply IHa. exact H. }
      destruct G as (P & HP & RP). unfold parse_visit. rewrite HP. now apply (outcome_map _ _ (VVariant (switch y))).
  Qed.

  Theorem from_json_garbage : forall t v x w0 tx w c rest, is_bytes (w0 ++ tx ++ w ++ c :: rest) ->
    N.of_nat (length (w0 ++ tx ++ w ++ c :: rest)) < 2^32 ->
    typed nc t v x -> (takes_text t = true -> forall s, ~ literal v s) ->
    jtext str_body v tx -> ws w0 -> (trims t = false -> w0 = []) -> ws w -> 32 < c ->
    (match v with JNum _ => w <> [] \/ ~ is_dig c | _ => True end) ->
    exists e, from_json g true t (w0 ++ tx ++ w ++ c :: rest) = Err e.
  Proof.
    intros t v x w0 tx w c rest HB H32 HTy HTT HT W0 TR W HC HD.
    destruct (jtext_head _ _ _ HT) as (c0 & r0 & ET & ST).
    set (buf := w0 ++ tx ++ w ++ c :: rest) in *.
    assert (LB : length buf = (length w0 + length tx + length w + 1 + length rest)%nat) by (unfold buf; len; lia).
    assert (LT : (0 < length tx)%nat) by (rewrite ET; cbn; lia).
    unfold from_json. replace (length buf =? 0)%nat with false by lia. cbn [negb ensure bind].
    assert (SC : nth_error buf (length w0 + length tx + length w) = Some c).
    { unfold buf. replace (w0 ++ tx ++ w ++ c :: rest) with ((w0 ++ tx ++ w) ++ [c] ++ rest) by (rewrite <- !app_assoc; reflexivity).
      pose proof (sub_at_mid (w0 ++ tx ++ w) [c] rest) as [Y _]. len.
      match goal with H : nth_error _ ?a = _ |- nth_error _ ?b = _ => now replace b with a by lia end. }
    destruct (rd_in buf (length buf - 1)) as (zb & Hz); [lia|]. rewrite (rd_some _ _ _ Hz). cbn [bind].
    set (l := if zb =? 0 then (length buf - 1)%nat else length buf).
    assert (LL : (length w0 + length tx + length w < l <= length buf)%nat).
    { unfold l. destruct (N.eqb_spec zb 0) as [->|]; [|lia]. split; [|lia].
      assert (length w0 + length tx + length w <> length buf - 1)%nat; [|lia]. intros Y. rewrite <- Y in Hz. rewrite SC in Hz. injection Hz as ->. lia. }
    clearbody l.
    set (p := set_first (new_ps 0 l) (length w0)).
    assert (WF : wf buf p) by (apply wf_doc; auto; lia).
    assert (STX : sub_at buf (length w0) tx) by (unfold buf; apply sub_at_mid).
    assert (EP : parse_value g t false buf (new_ps 0 l) = parse_value g t false buf p).
    { destruct (trims t) eqn:TT.
      - apply (trims_leading g t false buf (new_ps 0 l) c0 HB TT w0 W0); cbn [first last new_ps].
        + unfold buf. rewrite ET.
          replace (w0 ++ (c0 :: r0) ++ w ++ c :: rest) with ((w0 ++ [c0]) ++ r0 ++ w ++ c :: rest) by (rewrite <- !app_assoc; reflexivity). apply sub_at_0.
        + unfold starter in ST. lia.
        + lia.
      - unfold p. rewrite (TR eq_refl). reflexivity. }
    rewrite EP. set (j := (length w0 + length tx + length w)%nat) in *.
    assert (SW : sub_at buf (length w0 + length tx) w).
    { unfold buf. replace (w0 ++ tx ++ w ++ c :: rest) with ((w0 ++ tx) ++ w ++ c :: rest) by (rewrite <- !app_assoc; reflexivity).
      rewrite <- app_length. apply sub_at_mid. }
    assert (HG : then_garbage buf v (first p + length tx) j (last p)).
    { unfold p. cbn [first last set_first new_ps]. split; [|split; [lia|]].
      - exists w. split; [reflexivity|]. split; [lia|]. split; [exact SW|]. split; [exact W|]. right. eauto.
      - destruct v; auto. split; [lia|]. right. destruct w as [|cw w].
        + exists c. split; [unfold j in SC; cbn [length] in SC; now rewrite Nat.add_0_r in SC|]. destruct HD as [HD|HD]; [congruence|exact HD].
        + exists cw. destruct SW as [SW _]. split; [exact SW|]. unfold ws in W. inversion W as [|? ? D _]; subst. unfold json_ws in D. unfold is_dig. lia. }
    destruct (stops t v x HTy HTT buf p tx j WF H32 HT STX HG) as [(y & q & EQ & MQ & LQ)|(e & EQ)]; rewrite EQ; cbn [bind]; [|eauto].
    destruct HG as (HG & HJ & _). assert (LQl : last q = last p) by apply MQ.
    rewrite (trim_left_run buf q j HB) by (rewrite LQl; eapply ws_run_from; [exact HG|exact LQ]). cbn [bind].
    unfold ps_empty. cbn [isnull first last set_first]. rewrite LQl. rewrite (proj2 (proj2 (proj2 MQ))).
    change (isnull p) with false. cbn [orb]. replace (last p <=? j)%nat with false by lia. cbn [ensure bind]. eauto.
  Qed.

  (** ** A required member is not there *)

  (** Some member is required and absent; the ones before it are fine. *)
  Inductive lacks (js : list (list N * jv)) : list member -> Prop :=
  | lk_here : forall m ms, assoc (m_name m) js = None -> m_nullable m = false -> lacks js (m :: ms)
  | lk_next : forall m ms x, gets g m js x -> lacks js ms -> lacks js (m :: ms).

  Section Names.
  Context (names : list (list N)).
  Hypothesis NDN : NoDup names.
  Context (exact : bool).
  Context (buf : list N).
  Hypothesis H32 : N.of_nat (length buf) < 2^32.

  Lemma parse_member_missing : forall pos e passed rest p locs m, nth_error names pos = Some (m_name m) ->
    inv g names exact buf pos e passed rest p locs -> assoc (m_name m) (passed ++ rest) = None -> m_nullable m = false ->
    parse_class_member g exact names pos (m_nullable m) (m_parse m) buf p locs = Err MemberNotFound.
  Proof.
    intros pos e passed rest p locs m Hn (HW & HL & HA & HR & HLo) HG HNu. unfold parse_class_member.
    pose proof HW as (HB & HN & HLp & cl & HC & HCL).
    assert (X : exists i, move_next buf p = Ok (set_first p i) /\ (first p <= i)%nat /\ at_member buf i e rest).
    { destruct HA as [HA|HA].
      - exists (first p). split; [|split; [lia|exact HA]]. rewrite (move_next_here buf p e rest HB HA). destruct p; reflexivity.
      - apply move_next_rem; auto. }
    clear HA. destruct X as (i & E1 & L1 & HA). rewrite E1. cbn [bind].
    set (p1 := set_first p i) in *.
    pose proof (at_member_end _ _ _ _ HA) as [LE BE].
    assert (M1 : moved p p1) by apply moved_first.
    assert (W1 : wf buf p1) by (apply (moved_wf buf p); auto; unfold p1; cbn [first last set_first]; lia).
    assert (PE : ps_empty p1 = false).
    { unfold ps_empty, p1. cbn [isnull first last set_first]. rewrite HN. cbn [orb]. lia. }
    change i with (first p1) in HA. change (last p) with (last p1) in HL.
    rewrite PE, (front_member buf p1 e rest HA). cbn [bind].
    replace ((match rest with [] => 125 | _ => 34 end =? c_quote) || (match rest with [] => 125 | _ => 34 end =? c_rbrace)) with true
      by (destruct rest; reflexivity).
    cbn [ensure bind]. unfold find_class_member.
    assert (PL : (pos < length names)%nat) by (apply nth_error_Some; congruence).
    assert (BR : is_at buf p1 c_rbrace = Ok (match rest with [] => true | _ => false end)).
    { destruct (at_member_byte _ _ _ _ HA) as (b & Hb & Eb). unfold is_at, has_more, front. replace (first p1 <? last p1)%nat with true by (unfold p1 in *; cbn [first last set_first] in *; lia).
      rewrite (rd_some _ _ _ Hb). cbn [bind]. subst b. destruct rest; reflexivity. }
    rewrite BR. cbn [bind].
    assert (NP : assoc (m_name m) passed = None).
    { rewrite assoc_app in HG. destruct (assoc (m_name m) passed); [discriminate|reflexivity]. }
    pose proof HLo as [LL HLo']. pose proof (HLo' pos _ (le_n _) Hn) as I. rewrite NP in I. rewrite I, HNu. cbn [orb negb].
    destruct rest as [|kv rest]; [reflexivity|]. cbn [negb ensure bind].
    assert (TU : trim_left_unchecked buf p1 = Ok p1).
    { destruct (at_member_byte _ _ _ _ HA) as (b & Hb & Eb). apply (trim_unchecked_here buf p1 b); auto. lia. }
    rewrite TU. cbn [bind].
    assert (RLn : (length (kv :: rest) < S (length buf))%nat).
    { destruct HA as (tm & HM & _ & HS & _). apply jmembers_length in HM. apply sub_at_length in HS; [|intros Y; apply app_eq_nil in Y as [_ Y]; discriminate].
      rewrite app_length in HS. cbn [length] in *. lia. }
    destruct (find_loop g HX HE names NDN exact buf H32 pos e PL (kv :: rest) p1 locs passed _ RLn W1 HL HA HR HLo I) as (p2 & locs2 & EL & M2 & L2 & RES).
    rewrite EL. cbn [bind negb orb].
    destruct RES as [(d & FA)|(A2 & I2 & LO2)].
    - exfalso. destruct FA as (nm & v & t & rest' & En & EA & _). assert (nm = m_name m) as -> by congruence.
      rewrite <- EA in HG. rewrite assoc_app in HG. destruct (assoc (m_name m) (passed ++ d)); [discriminate|]. cbn [assoc] in HG.
      destruct (list_eq_dec N.eq_dec (m_name m) (m_name m)); congruence.
    - rewrite I2. reflexivity.
  Qed.

  Lemma parse_members_missing : forall ms pre e passed rest p locs, names = pre ++ map m_name ms ->
    inv g names exact buf (length pre) e passed rest p locs -> lacks (passed ++ rest) ms ->
    parse_members g exact names (length pre) ms buf p locs = Err MemberNotFound.
  Proof.
    induction ms as [|m ms IH]; intros pre e passed rest p locs EN HI HLa; [inversion HLa|]. cbn [parse_members].
    assert (Hn : nth_error names (length pre) = Some (m_name m)).
    { rewrite EN, nth_error_app2, Nat.sub_diag by lia. reflexivity. }
    inversion HLa as [m' ms' HA HNu|m' ms' x HG HLa']; subst m' ms'.
    - rewrite (parse_member_missing _ e passed rest) by auto. reflexivity.
    - destruct (parse_member_ok g HX HE names NDN exact buf H32 (length pre) e passed rest p locs m x) as (p1 & locs1 & pa1 & re1 & E1 & M1 & L1 & A1 & I1); auto.
      rewrite E1. cbn [bind].
      assert (E2 : parse_members g exact names (length (pre ++ [m_name m])) ms buf p1 locs1 = Err MemberNotFound).
      { apply (IH (pre ++ [m_name m]) e pa1 re1 p1 locs1).
        + rewrite EN, <- app_assoc. reflexivity.
        + rewrite app_length, Nat.add_comm. exact I1.
        + now rewrite A1. }
      rewrite app_length, Nat.add_comm in E2. cbn [length Nat.add] in E2. rewrite E2. reflexivity.
  Qed.
  End Names.

  Lemma class_missing : forall exact ms js, NoDup (map m_name ms) -> once (map m_name ms) js ->
    Forall (fun k => name_ok g k /\ tells g (map m_name ms) k) (map fst js) ->
    (exact = true -> forall k, In k (map fst js) -> In k (map m_name ms)) -> lacks js ms ->
    forall buf p t, wf buf p -> N.of_nat (length buf) < 2^32 -> jtext str_body (JObj js) t -> sub_at buf (first p) t ->
      (first p + length t <= last p)%nat ->
      parse_json_class g exact ms buf p = Err MemberNotFound.
  Proof.
    intros exact ms js ND NDJ FO EX HLa buf p t HW H32 HT HS HL. unfold parse_json_class.
    pose proof HW as (HB & HN & HLp & cl & HC & HCL).
    destruct (object_start g buf (first p) js t HT HS) as (w & c & S0 & W & S1 & C1 & LW & HA).
    rewrite (trim_here buf p 123) by (auto; lia). cbn [bind].
    rewrite is_at_yes by (auto; lia). cbn [ensure bind].
    set (p0 := remove_prefix (set_class p (Some (first p)) (Some (last p))) 1).
    assert (F0 : first p0 = S (first p)) by (unfold p0, remove_prefix; cbn [first set_first set_class]; lia).
    assert (L0 : last p0 = last p) by reflexivity.
    rewrite (trim_to buf p0 w c) by (auto; rewrite ?F0, ?L0; auto; lia). cbn [bind]. rewrite F0.
    set (p1 := set_first p0 (S (first p) + length w)) in *.
    set (e := (first p + length t - 1)%nat) in *.
    pose proof (at_member_end _ _ _ _ HA) as [LE BE].
    assert (W1 : wf buf p1).
    { split; auto. split; auto. split; [unfold p1, p0; cbn [first last set_first remove_prefix set_class]; lia|].
      exists (last p). split; [reflexivity|]. change (last p1) with (last p). lia. }
    assert (I0 : inv g (map m_name ms) exact buf (length (@nil (list N))) e [] js p1 (map (fun _ => no_loc) ms)).
    { split; [exact W1|]. split; [change (last p1) with (last p); unfold e; lia|]. split; [left; exact HA|]. split.
      - split; [exact NDJ|]. split; [exact FO|]. intros HEx k Hk. apply EX in Hk; auto. apply In_nth_error in Hk as (m & Hm). exists m. split; [cbn; lia|exact Hm].
      - split; [now rewrite !map_length|]. intros m nm _ _. cbn [assoc].
        destruct (nth_in_or_default m (map (fun _ : member => no_loc) ms) no_loc) as [Y| ->]; [|reflexivity].
        apply in_map_iff in Y as (? & <- & _). reflexivity. }
    pose proof (parse_members_missing (map m_name ms) ND exact buf H32 ms [] e [] js p1 _ eq_refl I0 HLa) as E2.
    cbn [length] in E2. rewrite E2. reflexivity.
  Qed.
End Cfg.
