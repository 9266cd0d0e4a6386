(** Iterating over well-formed arrays and JSON Lines. *)
From Coq Require Import List NArith ZArith Bool Lia Arith ZifyBool ZifyNat ZifyN.
From Verif Require Import Base Mem Loop PolicyModel IntModel StrScanModel SkipModel SpecNum SpecText SpecJson SpecValue SpecUnicode
  IntProofs IntSerProofs IntValueProofs StrScanProofs StrScanProofs2 StrScanProofs3 SkipProofs BracketProofs SkipSafe
  PropertiesInt PropertiesStr PropertiesSkip StrDecodeModel StrDecodeProofs PropertiesUni HashModel PropertiesHash ValueModel SpecTyped
  NameProofs ClassProofs ClassProofs2 ScalarProofs ArrayProofs VariantProofs TypedProofs RejectProofs PathModel TagModel IterModel SpecIter.
Import ListNotations.
Local Open Scope N_scope.

(** A value of a line: whitespace or the end of the data comes next. *)
Definition line_end (buf : list N) (e j l : nat) : Prop := ws_run buf e j l /\ (e = l \/ (e < j)%nat).

Lemma line_end_ws : forall buf e j l, line_end buf e j l -> e = l \/ exists b, nth_error buf e = Some b /\ json_ws b.
Proof.
  intros buf e j l [(w & -> & L & S & W & _) [E|E]]; auto. right. destruct w as [|c w]; [cbn in E; lia|]. exists c. split; [apply S|now inversion W].
Qed.

Lemma line_end_ends : forall buf e j l, line_end buf e j l -> value_ends_at buf e l.
Proof.
  intros buf e j l H. pose proof (ws_run_le _ _ _ _ (proj1 H)) as L. split; [lia|].
  destruct (line_end_ws _ _ _ _ H) as [E|(b & Hb & W)]; auto. right. exists b. split; auto. now left.
Qed.

Lemma line_end_num : forall buf e j l, line_end buf e j l -> num_end true buf e l.
Proof.
  intros buf e j l H. pose proof (ws_run_le _ _ _ _ (proj1 H)) as L. split; [lia|].
  destruct (line_end_ws _ _ _ _ H) as [E|(b & Hb & W)]; auto. right. exists b. split; auto. unfold json_ws, is_dig in *. lia.
Qed.

Lemma followed_num : forall buf e j l, followed true buf e j l -> num_end true buf e l.
Proof.
  intros buf e j l (w & W & S & -> & L & E). split; [lia|]. destruct w as [|x w]; cbn [length] in *.
  - rewrite Nat.add_0_r in *. destruct E as [E|(_ & b & Hb & Cb)]; auto. right. exists b. split; auto. unfold closer, is_dig in *. lia.
  - right. exists x. destruct S as [S _]. split; auto. inversion W as [|? ? Wx _]; subst. unfold json_ws, is_dig in *. lia.
Qed.

Lemma num_text : forall sb n t, jtext sb (JNum n) t -> t = n /\ jnum n.
Proof. intros sb n t H. inversion H; subst. auto. Qed.

Lemma bracket_text : forall (obj : bool) v t, jtext str_body v t -> (if obj then exists ms, v = JObj ms else exists es, v = JArr es) ->
  exists r, t = left_of obj :: r.
Proof. intros obj v t HT HO. destruct obj; destruct HO as [x ->]; inversion HT; subst; cbn [left_of]; eauto. Qed.

Section Cfg.
  Context (g : cfg).
  Hypothesis HX : c_ex g = ExConstexpr.
  Hypothesis HE : c_excl g = false.
  Context (nc : list (list N) -> list N -> Prop).
  Hypothesis HNC : forall names k, nc names k -> name_ok g k /\ tells g names k.

  (** ** What follows a value *)

  Definition ending := list N -> nat -> nat -> nat -> Prop.

  (** [P] reads the text [t] of [v] as [x], whatever comes next according to [K]. *)
  Definition takes (K : ending) (P : parser) (v : jv) (t : list N) (x : val) : Prop :=
    forall buf p j, wf buf p -> N.of_nat (length buf) < 2^32 -> jtext str_body v t -> sub_at buf (first p) t ->
      K buf (first p + length t)%nat j (last p) ->
      exists q, P false buf p = Ok (x, q) /\ moved p q /\ (first p + length t <= first q <= j)%nat.

  (** [S] moves over the text [t] of [v]. *)
  Definition passes (K : ending) (S : list N -> ps -> res ps) (v : jv) (t : list N) : Prop :=
    forall buf p j, wf buf p -> N.of_nat (length buf) < 2^32 -> jtext str_body v t -> sub_at buf (first p) t ->
      K buf (first p + length t)%nat j (last p) ->
      exists q, S buf p = Ok q /\ moved p q /\ (first p + length t <= first q <= j)%nat.

  (** ** Skipping *)

  Lemma skip_number_here : forall buf p n t, wf buf p -> jtext str_body (JNum n) t -> sub_at buf (first p) t ->
    num_end true buf (first p + length t) (last p) ->
    exists r, skip_number true buf p = Ok (r, set_first p (first p + length t)) /\ first r = first p /\ last r = (first p + length t)%nat.
  Proof.
    intros buf p n t HW HT HS HN. destruct HW as (HB & _ & HL & cl & _ & HCL). destruct (num_text _ _ _ HT) as [-> HJ].
    clear HT. destruct HJ as [sg i f e Hsg (Di & Ni & _) Hf He].
    rewrite (skip_number_ok true sg i f e buf p); auto; [|lia]. eexists. split; [reflexivity|]. split; reflexivity.
  Qed.

  Lemma skip_brackets : forall (obj : bool) buf p v t, wf buf p -> N.of_nat (length buf) < 2^32 -> jtext str_body v t -> sub_at buf (first p) t ->
    (first p + length t <= last p)%nat -> (if obj then exists ms, v = JObj ms else exists es, v = JArr es) ->
    exists r, skip_bracketed CNone true (c_ex g) obj buf p = Ok (r, set_first p (first p + length t)) /\
      first r = first p /\ last r = (first p + length t)%nat.
  Proof.
    intros obj buf p v t HW H32 HT HS HL HV. destruct HW as (HB & HN & HLp & cl & HC & HCL). rewrite HX.
    rewrite (skip_bracketed_ok CNone true ExConstexpr obj buf p v t); auto; try discriminate; try lia.
    eexists. split; [reflexivity|]. split; reflexivity.
  Qed.

  Lemma skip_string_pass : forall buf p b, wf buf p -> N.of_nat (length buf) < 2^32 -> str_body b -> sub_at buf (first p) (34 :: b ++ [34]) ->
    (first p + length b + 2 <= last p)%nat -> skip_known_string g buf p = Ok (set_first p (first p + length b + 2)).
  Proof.
    intros buf p b HW H32 HB HS HL. destruct (skip_string_here g HX HE buf p b HW H32 HB HS HL) as (r & E & _).
    unfold skip_string, ps_empty in E. destruct HW as (_ & HN & _). rewrite HN in E. cbn [orb] in E.
    destruct (Nat.leb_spec (last p) (first p)); [lia|]. unfold skip_known_string.
    destruct (front buf p) as [c| | |] eqn:EF; cbn [bind] in E |- *; try discriminate E.
    destruct (ensure (c =? c_quote) InvalidString) as [[]| | |]; cbn [bind] in E |- *; try discriminate E.
    destruct (ensure (has_more (remove_prefix p 1)) InvalidString) as [[]| | |]; cbn [bind] in E |- *; try discriminate E.
    destruct (skip_string_nq true (c_ex g) (c_excl g) buf (remove_prefix p 1)) as [[r1 q1]| | |]; cbn [bind] in E |- *; try discriminate E.
    injection E as _ ->. reflexivity.
  Qed.

  (** Values that are not words, with what is delimited *)
  Lemma skip_plain : forall keep buf p v t, wf buf p -> N.of_nat (length buf) < 2^32 -> jtext str_body v t -> sub_at buf (first p) t ->
    num_end true buf (first p + length t) (last p) -> is_word v = false ->
    exists r q, skip_value CNone true (c_ex g) (c_excl g) keep buf p = Ok (r, q) /\ moved p q /\ first q = (first p + length t)%nat /\
      (keep = true -> first r = first p /\ last r = (first p + length t)%nat).
  Proof.
    intros keep buf p v t HW H32 HT HS HN WV. pose proof (proj1 HN) as HL. unfold skip_value.
    assert (HW0 : wf buf (set_counter p 0)) by exact HW.
    destruct (jtext_head _ _ _ HT) as (c & r & ET & ST).
    assert (HM : has_more p = true) by (unfold has_more; apply Nat.ltb_lt; rewrite ET in HL; cbn [length] in HL; lia).
    rewrite HM. cbn [ensure bind]. unfold front. cbn [first set_counter].
    assert (HC : nth_error buf (first p) = Some c) by (rewrite ET in HS; apply HS). rewrite (rd_some _ _ _ HC). cbn [bind].
    assert (BR : forall obj : bool, (if obj then exists ms, v = JObj ms else exists es, v = JArr es) ->
      exists r0 q, skip_bracketed CNone true (c_ex g) obj buf (set_counter p 0) = Ok (r0, q) /\ moved p q /\ first q = (first p + length t)%nat /\
        (keep = true -> first r0 = first p /\ last r0 = (first p + length t)%nat)).
    { intros obj HV. destruct (skip_brackets obj buf (set_counter p 0) v t HW0 H32 HT HS HL HV) as (r0 & E & R1 & R2).
      exists r0. eexists. split; [exact E|]. split; [repeat split|]. split; [reflexivity|]. intros _. split; assumption. }
    destruct v as [| | |n|b|es|ms]; try discriminate WV.
    - destruct (num_text _ _ _ HT) as [TN HJ].
      assert (CN : c = 45 \/ 48 <= c <= 57).
      { destruct (number_head n HJ) as (c' & r' & E & H). rewrite TN, E in ET. injection ET as -> _. exact H. }
      replace (c =? c_quote) with false by (unfold c_quote; lia). replace (c =? c_lbrack) with false by (unfold c_lbrack; lia).
      replace (c =? c_lbrace) with false by (unfold c_lbrace; lia). replace (c =? c_t) with false by (unfold c_t; lia).
      replace (c =? c_f) with false by (unfold c_f; lia). replace (c =? c_n) with false by (unfold c_n; lia).
      replace ((c =? c_minus) || ((48 <=? c) && (c <=? 57))) with true by (unfold c_minus; lia).
      destruct (skip_number_here buf (set_counter p 0) n t HW0 HT HS HN) as (r0 & E & R1 & R2). exists r0. eexists. split; [exact E|].
      split; [repeat split|]. split; [reflexivity|]. intros _. split; assumption.
    - inversion HT as [| | | |b' HB' E1 E2| | | |]; subst b'. rewrite <- E2 in *. cbn [length] in *. rewrite app_length in *. cbn [length] in *.
      injection ET as <- _. change (34 =? c_quote) with true. cbn iota. rewrite HX, HE.
      destruct (skip_string_ok true ExConstexpr keep buf (set_counter p 0) b) as (r0 & E & R & _); auto; [discriminate|cbn [first last set_counter]; lia| |].
      { destruct HW as (_ & _ & HLb & cl & _ & HCL). change (2^32) with 4294967296 in H32. change (2^64) with 18446744073709551616. lia. }
      exists r0. eexists. split; [exact E|]. split; [repeat split|]. cbn [first set_counter set_first] in *. split; [lia|].
      intros ->. destruct R as [R1 R2]. split; [exact R1|lia].
    - assert (EC : c = 91) by (destruct (bracket_text false _ t HT) as (r' & ET'); [eauto|cbv [left_of c_lbrack c_lbrace] in ET'; congruence]). subst c.
      change (91 =? c_quote) with false. change (91 =? c_lbrack) with true. cbn iota. apply (BR false). eauto.
    - assert (EC : c = 123) by (destruct (bracket_text true _ t HT) as (r' & ET'); [eauto|cbv [left_of c_lbrack c_lbrace] in ET'; congruence]). subst c.
      change (123 =? c_quote) with false. change (123 =? c_lbrack) with false. change (123 =? c_lbrace) with true. cbn iota. apply (BR true). eauto.
  Qed.

  (** skip_known_value moves over every value of the type. *)
  Lemma known_passes : forall (K : ending) t v x tx, (forall buf e j l, K buf e j l -> (e <= j)%nat /\ num_end true buf e l) ->
    ((exists alts, t = TVariant alts) -> forall buf e j l, K buf e j l -> followed true buf e j l) ->
    typed nc t v x -> passed t = true -> passes K (skip_known_value g (EType t)) v tx.
  Proof.
    intros K t v x tx HK HV HTy HP buf p j HW H32 HT HS HF. destruct (HK _ _ _ _ HF) as [HJ HN]. pose proof (proj1 HN) as HL.
    destruct (jtext_head _ _ _ HT) as (c & r & ET & ST).
    assert (HM : has_more p = true) by (unfold has_more; apply Nat.ltb_lt; rewrite ET in HL; cbn [length] in HL; lia).
    assert (LT : (first p < last p)%nat) by (rewrite ET in HL; cbn [length] in HL; lia).
    assert (HC : nth_error buf (first p) = Some c) by (rewrite ET in HS; apply HS).
    unfold skip_known_value. rewrite HM. cbn [ensure bind].
    assert (NUM : forall n, v = JNum n -> exists q, ('(_, p0) <- skip_number true buf p ;; Ok p0) = Ok q /\ moved p q /\ (first p + length tx <= first q <= j)%nat).
    { intros n ->.
      destruct (skip_number_here buf p n tx HW HT HS HN) as (r0 & E & _). rewrite E. cbn [bind]. eexists. split; [reflexivity|]. split; [apply moved_first|].
      cbn [first set_first]. lia. }
    assert (STR : forall b, v = JStr b -> exists q, skip_known_string g buf p = Ok q /\ moved p q /\ (first p + length tx <= first q <= j)%nat).
    { intros b ->. inversion HT as [| | | |b' HB' E1 E2| | | |]; subst b'. rewrite <- E2 in *. cbn [length] in *. rewrite app_length in *. cbn [length] in *.
      rewrite (skip_string_pass buf p b) by (auto; lia). eexists. split; [reflexivity|]. split; [apply moved_first|]. cbn [first set_first]. lia. }
    assert (BR : forall obj : bool, (if obj then exists ms, v = JObj ms else exists es, v = JArr es) ->
      c = left_of obj /\ exists q, ('(_, p0) <- skip_bracketed CNone true (c_ex g) obj buf p ;; Ok p0) = Ok q /\ moved p q /\ (first p + length tx <= first q <= j)%nat).
    { intros obj HO. split.
      - destruct (bracket_text obj v tx HT HO) as (r' & ET'). congruence.
      - destruct (skip_brackets obj buf p v tx HW H32 HT HS HL HO) as (r0 & E & _). rewrite E. cbn [bind]. eexists. split; [reflexivity|].
        split; [apply moved_first|]. cbn [first set_first]. lia. }
    assert (PL : is_word v = false -> exists q, ('(_, p0) <- skip_val g buf p ;; Ok p0) = Ok q /\ moved p q /\ (first p + length tx <= first q <= j)%nat).
    { intros WV. unfold skip_val. destruct (skip_plain false buf p v tx HW H32 HT HS HN WV) as (r0 & q & E & M & F & _). rewrite E. cbn [bind].
      exists q. split; [reflexivity|]. split; [exact M|]. lia. }
    destruct t as [w rc|w rc| | |t|t|t|exact mm|exact ts|exact kn tk vn tv|k|alts|exact tag t switch alts]; try discriminate HP; cbn [typed] in HTy.
    - destruct HTy as (ds & -> & _). eapply NUM; reflexivity.
    - destruct HTy as (ds & z & -> & _). eapply NUM; reflexivity.
    - destruct HTy as (b & s & -> & _). eapply STR; reflexivity.
    - destruct HTy as (es & xs & -> & _). destruct (BR false) as (-> & Q); [eauto|]. rewrite is_at_yes by auto. cbn [ensure bind]. exact Q.
    - destruct HTy as (ms & xs & -> & _). now apply PL.
    - destruct HTy as (ms & xs & -> & _). destruct (BR true) as (-> & Q); [eauto|]. rewrite is_at_yes by auto. cbn [ensure bind]. exact Q.
    - destruct HTy as (es & xs & es2 & -> & _). now apply PL.
    - destruct HTy as (es & xs & -> & _). now apply PL.
    - destruct k; try discriminate HP. destruct HTy as (s & _ & -> & _). eapply STR; reflexivity.
    - destruct HTy as (i & y & _ & HCh). destruct (typed_chosen _ _ _ _ _ HCh) as (t & _ & CH & _).
      assert (NV : v <> JNull).
      { intros ->. destruct (chosen_kind _ _ _ _ CH) as (k & KK). discriminate KK. }
      destruct (skip_delimits g HX HE buf p v tx j HW H32 HT HS) as (r0 & q & E & M & L & _); [apply HV; eauto|exact NV|].
      rewrite E. cbn [bind]. eauto.
    - destruct HTy as (js & y & z & -> & _). now apply PL.
  Qed.

  (** ** Reading a line *)

  Lemma line_reads : forall t v x tx, typed nc t v x -> line_type t = true -> takes line_end (parse_value g t) v tx x.
  Proof.
    fix IH 1. intros t v x tx HTy HL. pose proof HTy as HTy0.
    intros buf p j HW H32 HT HS HF. pose proof (ws_run_le _ _ _ _ (proj1 HF)) as FL. pose proof HW as (HB & HN & HLp & cl & HC & HCL).
    destruct t as [w rc|w rc| | |t|t|t|exact mm|exact ts|exact kn tk vn tv|k|alts|exact tag t switch alts]; try discriminate HL; cbn [typed] in HTy.
    - destruct HTy as (ds & -> & HCa & W & LT & ->). assert (TN : tx = ds) by (inversion HT; reflexivity). subst tx.
      pose proof HCa as (HD & NE & _). pose proof (width_le w W) as WL.
      assert (L64 : dec_val ds < 2^64) by (eapply N.lt_le_trans; eassumption).
      assert (HU : unsigned_here false buf p ds).
      { split; [exact HB|]. split; [lia|]. split; [exact NE|]. split; [exact HD|]. split; [exact HS|]. eapply line_end_ends; eauto. }
      cbn [parse_value]. assert (G : parse_value_unsigned false LSNever w rc buf p = Ok (dec_val ds, set_first p (first p + length ds))).
      { destruct rc; [|now apply C01_unsigned_exact_width].
        rewrite (C02_unsigned_range_check_partial false w buf p ds) by auto. replace (dec_val ds <? 2^w) with true by lia.
        replace (length ds <=? 20)%nat with true by (symmetry; apply Nat.leb_le; now apply canonical_size).
        now rewrite orb_true_r. }
      rewrite G. cbn [bind]. eexists. split; [reflexivity|]. split; [apply moved_first|]. cbn [first set_first]. lia.
    - destruct HTy as (b & s & -> & D & ->). inversion HT as [| | | |b' HB' E1 E2| | | |]; subst b'. rewrite <- E2 in *.
      cbn [length] in *. rewrite app_length in *. cbn [length] in *.
      cbn [parse_value]. rewrite HX. rewrite (string_here buf p b s) by (auto; lia). cbn [bind].
      eexists. split; [reflexivity|]. split; [apply moved_first|]. cbn [first set_first]. lia.
    - cbn [line_type] in HL. destruct HTy as [[-> ->]|(NV & y & HTy & ->)].
      + assert (ETX : tx = [110; 117; 108; 108]) by (inversion HT; reflexivity). subst tx. cbn [length] in *.
        cbn [parse_value]. unfold parse_value_null. unfold has_more, front. replace (first p <? last p)%nat with true by lia.
        rewrite (rd_some buf (first p) 110) by apply HS. cbn [bind]. change (is_token_after_value 110) with false. cbn iota.
        rewrite starts_with_yes by (cbn [length]; auto; lia). cbn [bind].
        rewrite end_of_item_ends by (apply (line_end_ends _ _ j); exact HF). cbn [ensure bind].
        rewrite (trim_left_run buf (remove_prefix p 4) j HB) by exact (proj1 HF). cbn [bind].
        eexists. split; [reflexivity|]. split; [repeat split|]. cbn [first set_first]. lia.
      + destruct (jtext_head _ _ _ HT) as (c & r & ET & ST). assert (LT : (0 < length tx)%nat) by (rewrite ET; cbn; lia).
        assert (H0 : nth_error buf (first p) = Some c) by (rewrite ET in HS; apply HS).
        pose proof (jtext_not_n g v _ buf _ HT HS NV _ H0) as N110. unfold starter in ST.
        cbn [parse_value]. unfold parse_value_null. unfold has_more, front. replace (first p <? last p)%nat with true by lia.
        rewrite (rd_some _ _ _ H0). cbn [bind].
        replace (is_token_after_value c) with false by (unfold is_token_after_value, c_comma, c_rbrace, c_rbrack; lia). cbn iota.
        rewrite (starts_with_no buf p _ c 110) by (auto; lia). cbn [bind].
        destruct (IH t v y tx HTy HL buf p j HW H32 HT HS HF) as (q & E & M & L). rewrite E. cbn [bind]. exists q. auto.
    - destruct HTy as (es & xs & -> & -> & HTy). cbn [parse_value].
      destruct (array_ok g (parse_value g t) es xs) with (buf := buf) (p := p) (t := tx) (j := j) as (q & E & M & F); auto.
      + revert HTy. clear - HX HE HNC. induction 1; constructor; auto. now apply (typed_reads g HX HE nc HNC).
      + exact (proj1 HF).
      + exists q. split; [exact E|]. split; [exact M|]. lia.
    - destruct HTy as (ms & kxs & -> & -> & HTy). cbn [parse_value].
      destruct (map_ok g HX (parse_value g t) ms kxs) with (buf := buf) (p := p) (t := tx) (j := j) as (q & E & M & F); auto.
      + revert HTy. clear - HX HE HNC. induction 1 as [|m kx ms kxs [D H] _ IHl]; constructor; auto. split; auto. now apply (typed_reads g HX HE nc HNC).
      + exact (proj1 HF).
      + exists q. split; [exact E|]. split; [exact M|]. lia.
    - destruct (class_fits g HX HE nc HNC exact mm v x HTy0) as (js & xs & -> & -> & FT).
      cbn [parse_value]. unfold parse_value_class.
      destruct (class_ok g exact _ js xs HX HE FT buf p tx j HW H32 HT HS (proj1 HF)) as (q & E & M & F).
      destruct (jtext_head _ _ _ HT) as (c & r & ET & _). assert (LT : (0 < length tx)%nat) by (rewrite ET; cbn; lia).
      unfold has_more. replace (first p <? last p)%nat with true by lia. cbn [ensure bind]. rewrite E. cbn [bind].
      rewrite (trim_left_run buf q j HB).
      2:{ rewrite F, (proj1 M). apply (ws_run_from _ (first p + length tx)%nat); [exact (proj1 HF)|lia]. }
      cbn [bind]. eexists. split; [reflexivity|]. split; [eapply moved_trans; [exact M|repeat split]|]. cbn [first set_first]. lia.
    - destruct (tuple_fits g HX HE nc HNC exact ts v x HTy0) as (es & xs & es2 & -> & -> & EX & NA & LE & FT).
      cbn [parse_value]. destruct (tuple_ok g HX exact (map (parse_value g) ts) es xs es2) with (buf := buf) (p := p) (t := tx) (j := j) as (q & E & M & F); auto.
      + exact (proj1 HF).
      + exists q. split; [exact E|]. split; [exact M|]. lia.
    - destruct HTy as (es & xs & -> & -> & NK & NE & HTy).
      apply (kv_ok g exact kn tk vn tv es xs NE); auto; [|exact (proj1 HF)]. clear - HX HE HNC NK HTy.
      induction HTy as [|e y es xs (js & a & b & -> & -> & NR & FN & EX & HA & HB) _ IHl]; constructor; [|exact IHl].
      apply (typed_reads g HX HE nc HNC). cbn [typed]. exists js, [a; b]. split; [reflexivity|]. split; [reflexivity|].
      cbn [map fst]. split; [now apply no_dup_2|]. split; [exact NR|]. split; [exact FN|]. split; [exact EX|]. auto.
    - destruct k; try discriminate HL. destruct HTy as (s & -> & -> & HN').
      inversion HT as [| | | |b' HB' E1 E2| | | |]; subst b'. rewrite <- E2 in *. cbn [length] in *. rewrite app_length in *. cbn [length] in *.
      cbn [parse_value]. rewrite (custom_string_here g HX HE buf p s) by (auto; lia). eexists. split; [reflexivity|]. split; [apply moved_first|].
      cbn [first set_first]. lia.
    - destruct HTy as (i & y & -> & HTy). cbn [line_type] in HL.
      assert (G : exists t, chosen v alts i t /\ takes line_end (parse_value g t) v tx y).
      { clear HTy0. revert i HTy. induction alts as [|t alts IHa]; intros i HTy; [destruct i; contradiction|].
        cbn [forallb] in HL. apply andb_prop in HL as [HL1 HL2]. destruct i as [|i]; destruct HTy as [H1 H2].
        - exists t. split; [split; [exact H1|reflexivity]|]. exact (IH t v y tx H2 HL1).
        - destruct (IHa HL2 i H2) as (t' & C & R). exists t'. split; [split; [exact H1|exact C]|exact R]. }
      destruct G as (t & CH & R). destruct (chosen_kind _ _ _ _ CH) as (k & HK).
      pose proof (base_map_chosen g v k alts i t 0 HK CH) as BM. cbn [Nat.add] in BM.
      cbn [parse_value]. unfold parse_value_variant. cbn [bind].
      rewrite (variant_head g _ false buf p v tx k HT HS HK). unfold parse_variant_value. rewrite BM.
      destruct (R buf p j HW H32 HT HS HF) as (q & E & M & L). rewrite E. cbn [bind]. eauto.
    - cbn [line_type] in HL. destruct HTy as (js & y & z & -> & -> & NR & FN & EX & HY & HZ).
      assert (G : exists P, nth_error (map (parse_value g) alts) (switch y) = Some P /\ takes line_end P (JObj js) tx z).
      { generalize (switch y) HZ. clear HZ HY HTy0. induction alts as [|t' alts IHa]; intros i H; [destruct i; contradiction|].
        cbn [forallb] in HL. apply andb_prop in HL as [HL1 HL2]. destruct i as [|i].
        - exists (parse_value g t'). split; [reflexivity|]. exact (IH t' (JObj js) z tx H HL1).
        - cbn [map nth_error]. now apply IHa. }
      destruct G as (P & HP & RP).
      assert (TC : typed nc (TClass exact [(tag, t)]) (JObj js) (VClass [y])).
      { cbn [typed]. exists js, [y]. split; [reflexivity|]. split; [reflexivity|]. cbn [map fst]. split; [apply no_dup_1|]. split; [exact NR|].
        split; [exact FN|]. split; [exact EX|]. auto. }
      destruct (class_fits g HX HE nc HNC exact [(tag, t)] (JObj js) (VClass [y]) TC) as (js' & xs & EJ & EY & FT). injection EJ as <-. injection EY as <-.
      cbn [parse_value]. unfold parse_value_variant_intrusive, parse_value_class.
      destruct (class_ok g exact _ js [y] HX HE FT buf p tx j HW H32 HT HS (proj1 HF)) as (q & E & M & F).
      cbn [map fst snd] in E.
      destruct (jtext_head _ _ _ HT) as (c & r & ET & _). assert (LT : (0 < length tx)%nat) by (rewrite ET; cbn; lia).
      unfold has_more. replace (first p <? last p)%nat with true by lia. cbn [ensure bind]. rewrite E. cbn [bind].
      rewrite (trim_left_run buf q j HB).
      2:{ rewrite F, (proj1 M). apply (ws_run_from _ (first p + length tx)%nat); [exact (proj1 HF)|lia]. }
      cbn [bind]. unfold parse_visit. rewrite HP. destruct (RP buf p j HW H32 HT HS HF) as (q2 & E2 & M2 & L2). rewrite E2. cbn [bind]. eauto.
  Qed.

  Lemma raw_reads : forall (K : ending) v tx, (forall buf e j l, K buf e j l -> (e <= j)%nat /\ num_end true buf e l) -> is_word v = false ->
    takes K (parse_value_unknown g) v tx (VStr tx) /\ passes K (skip_known_value g ERaw) v tx.
  Proof.
    intros K v tx HK WV. split; intros buf p j HW H32 HT HS HF; destruct (HK _ _ _ _ HF) as [HJ HN].
    - destruct (skip_plain true buf p v tx HW H32 HT HS HN WV) as (r & q & E & M & F & R). destruct (R eq_refl) as [R1 R2].
      unfold parse_value_unknown. rewrite E. cbn [bind]. rewrite R1, R2, view_at by exact HS. exists q. split; [reflexivity|]. split; [exact M|lia].
    - unfold skip_known_value. destruct (jtext_head _ _ _ HT) as (c & r0 & ET & _). assert (LT : (0 < length tx)%nat) by (rewrite ET; cbn; lia).
      pose proof (proj1 HN). unfold has_more. replace (first p <? last p)%nat with true by lia. cbn [ensure bind].
      unfold skip_val. destruct (skip_plain false buf p v tx HW H32 HT HS HN WV) as (r & q & E & M & F & _). rewrite E. cbn [bind].
      exists q. split; [reflexivity|]. split; [exact M|lia].
  Qed.

  (** ** Walking *)

  Lemma it_neq_end : forall arr doc it, it_neq arr doc it it_end = good arr doc it.
  Proof. intros arr doc it. unfold it_neq. destruct (good arr doc it) as [[]| | |]; reflexivity. Qed.

  (** One turn of the loop *)
  Lemma turn : forall (K : ending) arr P S v t x n buf p j, wf buf p -> N.of_nat (length buf) < 2^32 ->
    at_element arr buf p = Ok true -> jtext str_body v t -> sub_at buf (first p) t -> K buf (first p + length t)%nat j (last p) ->
    takes K P v t x -> (n <> O \/ passes K S v t) ->
    exists it q, deref_times n arr P buf (mkiter p None) = Ok (repeat x n, it) /\
      incr arr S buf it = (p' <- move_next buf q ;; Ok (mkiter p' None)) /\ moved p q /\ (first p + length t <= first q <= j)%nat.
  Proof.
    intros K arr P S v t x n buf p j HW H32 HA HT HS HK HP HN. destruct n as [|n].
    - destruct HN as [HN|HN]; [congruence|]. destruct (HN buf p j HW H32 HT HS HK) as (q & E & M & L).
      exists (mkiter p None), q. split; [reflexivity|]. split; [|auto]. unfold incr. cbn [it_state it_skip]. rewrite HA. cbn [ensure bind]. rewrite E. reflexivity.
    - destruct (HP buf p j HW H32 HT HS HK) as (q & E & M & L). exists (mkiter p (Some (first q))), (set_first p (first q)).
      assert (D : forall o, deref arr P buf (mkiter p o) = Ok (x, mkiter p (Some (first q)))).
      { intros o. unfold deref. cbn [it_state]. rewrite HA. cbn [ensure bind]. rewrite E. reflexivity. }
      assert (DT : forall n, deref_times n arr P buf (mkiter p (Some (first q))) = Ok (repeat x n, mkiter p (Some (first q)))).
      { clear n HN. induction n as [|n IHn]; [reflexivity|]. cbn [deref_times repeat]. rewrite D. cbn [bind]. rewrite IHn. reflexivity. }
      split; [|split; [|split]].
      + cbn [deref_times repeat]. rewrite D. cbn [bind]. rewrite DT. reflexivity.
      + unfold incr. cbn [it_state it_skip]. rewrite HA. reflexivity.
      + apply moved_first.
      + exact L.
  Qed.

  Definition each (K : ending) (P : parser) (S : list N -> ps -> res ps) (times : nat -> nat) (v : jv) (x : val) : Prop :=
    forall t, takes K P v t x /\ ((forall n, times n <> O) \/ passes K S v t).

  Lemma walk_elements : forall P S times buf e l, N.of_nat (length buf) < 2^32 -> (e < l)%nat ->
    forall es xs fuel i p, Forall2 (each (followed true) P S times) es xs -> (length es < fuel)%nat -> wf buf p -> last p = l ->
      at_elem buf (first p) e es ->
      walk fuel true P S times i buf (mkiter p None) = Ok (seen times i xs).
  Proof.
    intros P S times buf e l H32 HL. induction es as [|v es IH]; intros xs fuel i p HR HU HW HLp HA;
      (destruct fuel as [|fuel]; [cbn in HU; lia|]); cbn [walk]; rewrite it_neq_end; unfold good; cbn [it_state];
      pose proof HW as (HB & HN & HLp' & cl & HC & HCL); rewrite HN; pose proof (at_elem_end _ _ _ _ HA) as [LE BE];
      destruct (at_elem_byte _ _ _ _ HA) as (b & Hb & SB);
      (assert (AE : at_element true buf p = Ok (negb (b =? c_rbrack)))
         by (unfold at_element, has_more, front; replace (first p <? last p)%nat with true by lia; rewrite (rd_some _ _ _ Hb); reflexivity)); rewrite AE; cbn [bind].
    - subst b. change (93 =? c_rbrack) with true. cbn [negb]. inversion HR; subst. reflexivity.
    - unfold starter in SB. replace (b =? c_rbrack) with false in * by (unfold c_rbrack; lia). cbn [negb] in *.
      inversion HR as [|? x ? xs' R1 R2]; subst.
      destruct (at_elem_cons _ _ _ _ _ HA) as (t & Ht & HS & HRem).
      destruct (rem_e_followed _ _ _ _ (last p) HRem HL) as (j1 & FJ & JE & JB & RJ). destruct (R1 t) as [RT RP].
      destruct (turn (followed true) true P S v t x (times i) buf p j1 HW H32 AE Ht HS FJ RT) as (it & q & E1 & E2 & M & L).
      { destruct RP as [RP|RP]; [left; apply RP|right; exact RP]. }
      rewrite E1. cbn [bind]. rewrite E2.
      assert (LQl : last q = last p) by apply M.
      destruct (move_next_rem_e buf q e es HB) as (k & EM & LI & AI); [apply RJ; lia|lia|].
      rewrite EM. cbn [bind]. pose proof (at_elem_end _ _ _ _ AI) as [LIE _].
      assert (MM : moved p (set_first q k)) by (eapply moved_trans; [exact M|repeat split]).
      rewrite (IH xs'); auto.
      + cbn [length] in HU. lia.
      + eapply moved_wf; [exact MM|exact HW|]. cbn [first last set_first]. lia.
  Qed.

  (** The text of an array, and anything after it *)
  Lemma array_iter_ok : forall w es t rest, ws w -> jtext str_body (JArr es) t -> is_bytes (w ++ t ++ rest) ->
    exists i, array_iter (w ++ t ++ rest) = Ok (mkiter (set_first (new_ps 0 (length (w ++ t ++ rest))) i) None) /\
      at_elem (w ++ t ++ rest) i (length w + length t - 1) es /\ (length w + length t <= length (w ++ t ++ rest))%nat.
  Proof.
    intros w es t rest W HT HB. set (buf := w ++ t ++ rest) in *.
    assert (HS : sub_at buf (length w) t) by apply sub_at_mid.
    assert (LB : length buf = (length w + length t + length rest)%nat) by (unfold buf; rewrite !app_length; lia).
    destruct (array_start buf (length w) es t HT HS) as (w1 & c & S0 & W1 & S1 & C1 & C2 & LW & HA).
    exists (S (length w) + length w1)%nat. split; [|split; [exact HA|lia]]. unfold array_iter.
    assert (SB : sub_at buf 0 (w ++ [91])).
    { destruct (bracket_text false (JArr es) t HT) as (r & ET); [eauto|]. unfold buf. rewrite ET. cbn [left_of]. unfold c_lbrack.
      replace (w ++ (91 :: r) ++ rest) with ((w ++ [91]) ++ (r ++ rest)) by (rewrite <- app_assoc; reflexivity). apply sub_at_0. }
    rewrite (trim_to buf (new_ps 0 (length buf)) w 91) by (cbn [first last new_ps]; auto; lia).
    cbn [bind first new_ps Nat.add]. rewrite is_at_yes by (cbn [first last set_first new_ps]; auto; lia). cbn [ensure bind].
    rewrite (trim_to buf _ w1 c); auto; unfold remove_prefix; cbn [first last set_first new_ps].
    - cbn [bind]. replace (length w + 1 + length w1)%nat with (S (length w) + length w1)%nat by lia. reflexivity.
    - replace (length w + 1)%nat with (S (length w)) by lia. exact S1.
    - lia.
  Qed.

  Theorem walk_array_ok : forall t times fuel w es xs tx rest, is_bytes (w ++ tx ++ rest) -> N.of_nat (length (w ++ tx ++ rest)) < 2^32 ->
    ws w -> jtext str_body (JArr es) tx -> Forall2 (typed nc t) es xs -> (passed t = true \/ forall n, times n <> O) ->
    (length es < fuel)%nat -> walk_array g (EType t) times fuel (w ++ tx ++ rest) = Ok (seen times 0 xs).
  Proof.
    intros t times fuel w es xs tx rest HB H32 W HT HTy HP HU.
    destruct (array_iter_ok w es tx rest W HT HB) as (i & E & A & L). set (buf := w ++ tx ++ rest) in *.
    unfold walk_array. rewrite E. cbn [bind elem_parse].
    destruct (at_elem_end _ _ _ _ A) as [LE BE].
    assert (LT : (0 < length tx)%nat) by (destruct (jtext_head _ _ _ HT) as (c & r & -> & _); cbn; lia).
    apply (walk_elements _ _ times buf (length w + length tx - 1) (length buf) H32 ltac:(lia) es); auto.
    - revert HTy. clear - HP HX HE HNC. induction 1 as [|v x es xs H _ IHl]; constructor; auto. intros tx. split.
      + intros buf p j HW H32 HT HS HF. now apply (proj1 (typed_reads g HX HE nc HNC t v x H) buf p tx j).
      + destruct HP as [HP|HP]; [right|now left]. apply (known_passes (followed true) t v x); auto.
        intros buf e j l HF. split; [apply (followed_le _ _ _ _ _ HF)|eapply followed_num; eauto].
    - apply wf_doc; auto. lia.
  Qed.

  (** At an array found by its path *)
  Lemma elements_at : forall t times fuel buf p es xs, N.of_nat (length buf) < 2^32 -> value_at buf (JArr es) p ->
    Forall2 (typed nc t) es xs -> (passed t = true \/ forall n, times n <> O) -> (length es < fuel)%nat ->
    (it <- (p <- trim_left_checked buf p ;; b <- is_at buf p c_lbrack ;; _ <- ensure b InvalidArrayStart ;;
            p <- trim_left_checked buf (remove_prefix p 1) ;; Ok (mkiter p None)) ;;
     walk fuel true (parse_value g t) (skip_known_value g (EType t)) times 0 buf it) = Ok (seen times 0 xs).
  Proof.
    intros t times fuel buf p es xs H32 (HW & tx & j & HT & HS & FJ & _) HTy HP HU.
    pose proof HW as (HB & HN & HLp & cl & HC & HCL).
    pose proof (followed_le _ _ _ _ _ FJ) as FL.
    destruct (array_start buf (first p) es tx HT HS) as (w1 & c & S0 & W1 & S1 & C1 & C2 & LW & HA).
    rewrite (trim_to buf p [] 91); auto; [|exact (Forall_nil _)|split; [exact S0|exact I]|lia|cbn [length]; lia].
    cbn [bind length]. rewrite Nat.add_0_r.
    rewrite is_at_yes by (cbn [first last set_first]; auto; lia). cbn [ensure bind].
    rewrite (trim_to buf _ w1 c); auto; unfold remove_prefix; cbn [first last set_first].
    2:{ replace (first p + 1)%nat with (S (first p)) by lia. exact S1. }
    2:{ lia. }
    cbn [bind]. destruct (at_elem_end _ _ _ _ HA) as [LE BE].
    apply (walk_elements _ _ times buf (first p + length tx - 1) (last p) H32 ltac:(lia) es); auto.
    - revert HTy. clear - HP HX HE HNC. induction 1 as [|v x es xs H _ IHl]; constructor; auto. intros tx. split.
      + intros buf p j HW H32 HT HS HF. now apply (proj1 (typed_reads g HX HE nc HNC t v x H) buf p tx j).
      + destruct HP as [HP|HP]; [right|now left]. apply (known_passes (followed true) t v x); auto.
        intros buf e j l HF. split; [apply (followed_le _ _ _ _ _ HF)|eapply followed_num; eauto].
    - split; [exact HB|]. split; [exact HN|]. cbn [first last clast set_first]. split; [lia|]. exists cl. auto.
    - cbn [first set_first]. replace (first p + 1 + length w1)%nat with (S (first p) + length w1)%nat by lia. exact HA.
  Qed.

  (** ** Lines *)

  Fixpoint at_lines (buf : list N) (i l : nat) (ls : list (jv * list N)) : Prop :=
    match ls with
    | [] => i = l
    | (v, t) :: r => jtext str_body v t /\ sub_at buf i t /\ exists j, line_end buf (i + length t) j l /\ at_lines buf j l r
    end.

  Lemma json_ws_run : forall a w r, ws w -> match r with [] => True | c :: _ => 32 < c end ->
    ws_run (a ++ w ++ r) (length a) (length a + length w) (length (a ++ w ++ r)).
  Proof.
    intros a w r W R. exists w. split; [lia|]. rewrite !app_length. split; [lia|]. split; [apply sub_at_mid|]. split; [exact W|].
    destruct r as [|c r]; [left; cbn; lia|]. right. exists c. split; [|exact R]. rewrite app_assoc, nth_error_app2, app_length by (rewrite app_length; lia).
    now replace (length a + length w - (length a + length w))%nat with O by lia.
  Qed.

  Lemma lines_head : forall ls d, json_lines ls d -> exists w r, d = w ++ r /\ ws w /\ match r with [] => ls = [] | c :: _ => ls <> [] /\ 32 < c end.
  Proof.
    intros ls d H. destruct H as [w W|w v t w' W HT W'|w v t w' ls r W HT W' _].
    - exists w, []. rewrite app_nil_r. auto.
    - destruct (jtext_head _ _ _ HT) as (c & r & -> & ST). exists w, ((c :: r) ++ w'). split; [reflexivity|]. split; [exact W|]. split; [discriminate|apply ST].
    - destruct (jtext_head _ _ _ HT) as (c & r0 & -> & ST). exists w, ((c :: r0) ++ w' ++ 10 :: r). split; [reflexivity|]. split; [exact W|].
      split; [discriminate|apply ST].
  Qed.

  Lemma lines_at : forall ls d, json_lines ls d -> forall a w r, d = w ++ r -> ws w -> match r with [] => ls = [] | c :: _ => ls <> [] /\ 32 < c end ->
    at_lines (a ++ d) (length a + length w) (length (a ++ d)) ls.
  Proof.
    assert (UNIQ : forall w1 w2 r1 r2, ws w1 -> ws w2 -> w1 ++ r1 = w2 ++ r2 -> match r1 with [] => True | c :: _ => 32 < c end ->
      match r2 with [] => True | c :: _ => 32 < c end -> w1 = w2 /\ r1 = r2).
    { induction w1 as [|x w1 IH]; intros [|y w2] r1 r2 W1 W2 E R1 R2; cbn in E.
      - auto.
      - exfalso. subst r1. inversion W2 as [|? ? Wy _]; subst. unfold json_ws in Wy. lia.
      - exfalso. subst r2. inversion W1 as [|? ? Wy _]; subst. unfold json_ws in Wy. lia.
      - injection E as -> E. inversion W1; inversion W2; subst. destruct (IH w2 r1 r2) as [-> ->]; auto. }
    induction 1 as [w0 W0|w0 v t w' W0 HT W'|w0 v t w' ls rest W0 HT W' HR IH]; intros a w r E W HH.
    - destruct r as [|c r]; [|exfalso; apply (proj1 HH); reflexivity]. rewrite app_nil_r in E. subst w0. cbn [at_lines]. rewrite app_length. lia.
    - destruct r as [|c r]; [discriminate HH|]. destruct HH as [_ HC]. destruct (jtext_head _ _ _ HT) as (c0 & r0 & ET & ST).
      destruct (UNIQ w0 w (t ++ w') (c :: r)) as [E1 E2]; auto; [rewrite ET; apply ST|]. subst w. clear E.
      cbn [at_lines]. split; [exact HT|]. split.
      + rewrite <- app_length, app_assoc. replace ((a ++ w0) ++ t ++ w') with ((a ++ w0) ++ t ++ w') by reflexivity. apply sub_at_mid.
      + pose proof (json_ws_run (a ++ w0 ++ t) w' [] W' I) as R. rewrite app_nil_r in R. rewrite <- !app_assoc in R.
        rewrite !app_length in *. exists (length a + length w0 + length t + length w')%nat. split; [|lia].
        split; [|destruct w'; cbn [length]; lia].
        replace (length a + length w0 + length t)%nat with (length a + (length w0 + length t))%nat by lia. exact R.
    - destruct r as [|c r]; [discriminate HH|]. destruct HH as [_ HC]. destruct (jtext_head _ _ _ HT) as (c0 & r0 & ET & ST).
      destruct (UNIQ w0 w (t ++ w' ++ 10 :: rest) (c :: r)) as [E1 E2]; auto; [rewrite ET; apply ST|]. subst w. clear E.
      destruct (lines_head _ _ HR) as (w2 & r2 & E3 & W2 & H2).
      cbn [at_lines]. split; [exact HT|]. split; [rewrite <- app_length, app_assoc; apply sub_at_mid|].
      specialize (IH (a ++ w0 ++ t ++ w' ++ [10]) w2 r2 E3 W2 H2).
      replace ((a ++ w0 ++ t ++ w' ++ [10]) ++ rest) with (a ++ w0 ++ t ++ w' ++ 10 :: rest) in IH by (rewrite <- !app_assoc; reflexivity).
      exists (length (a ++ w0 ++ t ++ w' ++ [10%N]) + length w2)%nat. split; [|exact IH]. rewrite !app_length in *. cbn [length] in *. split; [|lia].
      assert (W3 : ws (w' ++ 10 :: w2)) by (apply Forall_app; split; [exact W'|constructor; [unfold json_ws; lia|exact W2]]).
      pose proof (json_ws_run (a ++ w0 ++ t) (w' ++ 10 :: w2) r2 W3) as R.
      replace ((a ++ w0 ++ t) ++ (w' ++ 10 :: w2) ++ r2) with (a ++ w0 ++ t ++ w' ++ 10 :: rest) in R by (rewrite E3, <- !app_assoc; reflexivity).
      rewrite !app_length in R. cbn [length] in R.
      match type of R with _ -> ws_run _ ?a ?b ?c => match goal with |- ws_run _ ?a' ?b' ?c' =>
        replace a' with a by lia; replace b' with b by lia; replace c' with c by lia end end. apply R. destruct r2; [exact I|apply H2].
  Qed.

  (** An element [v] written as [t] *)
  Definition each_line (P : parser) (S : list N -> ps -> res ps) (times : nat -> nat) (l : jv * list N) (x : val) : Prop :=
    takes line_end P (fst l) (snd l) x /\ ((forall n, times n <> O) \/ passes line_end S (fst l) (snd l)).

  Lemma walk_at_lines : forall P S times buf l, N.of_nat (length buf) < 2^32 ->
    forall ls xs fuel i p, Forall2 (each_line P S times) ls xs -> (length ls < fuel)%nat -> wf buf p -> last p = l ->
      at_lines buf (first p) l ls -> walk fuel false P S times i buf (mkiter p None) = Ok (seen times i xs).
  Proof.
    intros P S times buf l H32. induction ls as [|[v t] ls IH]; intros xs fuel i p HR HU HW HLp HA;
      (destruct fuel as [|fuel]; [cbn in HU; lia|]); cbn [walk]; rewrite it_neq_end; unfold good; cbn [it_state];
      pose proof HW as (HB & HN & HLp' & cl & HC & HCL); rewrite HN; cbn [at_lines] in HA.
    - unfold at_element, has_more. replace (first p <? last p)%nat with false by lia. inversion HR; subst. reflexivity.
    - destruct HA as (HT & HS & j & HF & HA). pose proof (ws_run_le _ _ _ _ (proj1 HF)) as FL.
      assert (LT : (0 < length t)%nat) by (destruct (jtext_head _ _ _ HT) as (c & r & -> & _); cbn; lia).
      assert (AE : at_element false buf p = Ok true) by (unfold at_element, has_more; replace (first p <? last p)%nat with true by lia; reflexivity).
      rewrite AE. cbn [bind]. inversion HR as [|? x ? xs' [RT RP] R2]; subst. cbn [fst snd] in *.
      destruct (turn line_end false P S v t x (times i) buf p j HW H32 AE HT HS HF RT) as (it & q & E1 & E2 & M & L).
      { destruct RP as [RP|RP]; [left; apply RP|right; exact RP]. }
      rewrite E1. cbn [bind]. rewrite E2. assert (LQl : last q = last p) by apply M.
      unfold move_next, move_next_member_or_end, move_next_member_or_end_checked.
      rewrite (trim_left_run buf q j HB).
      2:{ rewrite LQl. apply (ws_run_from _ (first p + length t)%nat); [exact (proj1 HF)|lia]. }
      cbn [bind]. replace (is_at buf (set_first q j) c_comma) with (@Ok bool false).
      2:{ symmetry. destruct ls as [|[v1 t1] ls]; cbn [at_lines] in HA.
          - unfold is_at, has_more. cbn [first last set_first]. replace (j <? last q)%nat with false by lia. reflexivity.
          - destruct HA as (HT1 & HS1 & _). destruct (jtext_head _ _ _ HT1) as (c & r & -> & ST). unfold starter in ST.
            apply (is_at_no buf _ c); [apply HS1|unfold c_comma; lia]. }
      cbn [bind]. assert (MM : moved p (set_first q j)) by (eapply moved_trans; [exact M|repeat split]).
      rewrite (IH xs'); auto.
      + cbn [length] in HU. lia.
      + eapply moved_wf; [exact MM|exact HW|]. cbn [first last set_first]. lia.
  Qed.

  Theorem walk_lines_ok : forall e times fuel ls xs doc, is_bytes doc -> N.of_nat (length doc) < 2^32 -> json_lines ls doc ->
    Forall2 (line_value nc e) ls xs -> (line_passed e = true \/ forall n, times n <> O) -> (length ls < fuel)%nat ->
    walk_lines g e times fuel doc = Ok (seen times 0 xs).
  Proof.
    intros e times fuel ls xs doc HB H32 HL HV HP HU.
    destruct (lines_head _ _ HL) as (w & r & ED & W & HH).
    pose proof (lines_at _ _ HL [] w r ED W HH) as HA. cbn [app length Nat.add] in HA.
    assert (R0 : match r with [] => True | c :: _ => 32 < c end) by (destruct r; [exact I|apply HH]).
    pose proof (json_ws_run [] w r W R0) as RW. cbn [app length Nat.add] in RW. rewrite <- ED in RW.
    pose proof (ws_run_le _ _ _ _ RW) as LW.
    unfold walk_lines, lines_iter. rewrite (trim_left_run doc (new_ps 0 (length doc)) (length w) HB) by exact RW. cbn [bind].
    apply (walk_at_lines _ _ times doc (length doc) H32 ls); auto.
    - clear - HV HP HX HE HNC. induction HV as [|[v t] x ls xs H _ IHl]; constructor; auto.
      assert (LE : forall buf e j l, line_end buf e j l -> (e <= j)%nat /\ num_end true buf e l)
        by (intros buf0 e0 j0 l0 HF; split; [apply (ws_run_le _ _ _ _ (proj1 HF))|eapply line_end_num; eauto]).
      unfold each_line. cbn [fst snd]. destruct e as [ty|]; cbn [line_value fst snd] in H; destruct H as [H1 H2].
      + split; [now apply line_reads|]. destruct HP as [HP|HP]; [right|now left]. cbn [line_passed] in HP.
        apply (known_passes line_end ty v x); auto; [|destruct ty; auto; discriminate HP]. intros [alts ->]. discriminate HP.
      + subst x. destruct (raw_reads line_end v t LE H1) as [A B]. split; [exact A|right; exact B].
    - apply wf_doc; auto. lia.
  Qed.
End Cfg.
