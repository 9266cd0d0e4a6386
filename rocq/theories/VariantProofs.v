(** Custom types, variants and arrays of keys and values on well-formed text. *)
From Coq Require Import List NArith ZArith Bool Lia Arith ZifyBool ZifyNat ZifyN.
From Verif Require Import Base Mem Loop PolicyModel IntModel StrScanModel SkipModel SpecNum SpecText SpecJson SpecUnicode
  IntValueProofs StrScanProofs StrScanProofs2 StrScanProofs3 SkipProofs BracketProofs SkipSafe PropertiesStr PropertiesSkip
  StrDecodeModel StrDecodeProofs HashModel PropertiesHash ValueModel SpecTyped NameProofs ClassProofs ClassProofs2 ScalarProofs ArrayProofs.
Import ListNotations.
Local Open Scope N_scope.

(** The kind of a document value *)
Definition kind_of (v : jv) : option kind :=
  match v with
  | JNull => None
  | JTrue | JFalse => Some KBool
  | JNum _ => Some KNumber
  | JStr _ => Some KString
  | JArr _ => Some KArray
  | JObj _ => Some KClass
  end.

Lemma kind_eqb_eq : forall a b, kind_eqb a b = true <-> a = b.
Proof. intros [] []; cbn; split; congruence. Qed.

Lemma meant_for_kind : forall t v, meant_for t v = match base_kind t, kind_of v with Some a, Some b => kind_eqb a b | _, _ => false end.
Proof.
  induction t; intros v; try (destruct v; reflexivity).
  cbn [base_kind]. rewrite <- IHt. reflexivity.
Qed.

Lemma number_head : forall n, jnum n -> exists c r, n = c :: r /\ (c = 45 \/ 48 <= c <= 57).
Proof.
  intros n HJ. inversion HJ as [sg i f e Hsg (Di & Ni & _) Hf He E]. destruct Hsg as [->| ->].
  - destruct i as [|d i]; [congruence|]. inversion Di as [|? ? D _]; subst. unfold is_dig in D. cbn. eauto.
  - cbn. eauto.
Qed.

Section Cfg.
  Context (g : cfg).
  Hypothesis HX : c_ex g = ExConstexpr.
  Hypothesis HE : c_excl g = false.

  (** ** Custom types *)

  Lemma custom_text : forall buf (r q : ps) i s, first r = i -> last r = (i + length s)%nat -> sub_at buf i s ->
    (exists c l, s = c :: l /\ c <> 91 /\ c <> 123) ->
    (ok <- (if has_more r then c <- front buf r ;; Ok (negb ((c =? c_lbrack) || (c =? c_lbrace))) else Ok false) ;;
     _ <- ensure ok InvalidStartOfValue ;;
     Ok (VStr (view buf (first r) (last r)), q)) = Ok (VStr s, q).
  Proof.
    intros buf r q i s F L HS (c & l & -> & N1 & N2). unfold has_more, front. rewrite F, L. cbn [length].
    replace (i <? i + S (length l))%nat with true by lia. pose proof HS as [H0 _]. rewrite (rd_some _ _ _ H0). cbn [bind].
    replace (negb ((c =? c_lbrack) || (c =? c_lbrace))) with true by (unfold c_lbrack, c_lbrace; lia). cbn [ensure bind].
    change (S (length l)) with (length (c :: l)). now rewrite view_at.
  Qed.

  (** The texts of true, false and numbers *)
  Lemma literal_text : forall v s t, literal v s -> jtext str_body v t -> t = s /\ v <> JNull /\
    exists c l, s = c :: l /\ (c = 116 \/ c = 102 \/ c = 45 \/ 48 <= c <= 57).
  Proof.
    intros v s t HL HT. destruct HT as [| | |n HJ| | | | |]; cbn in HL; try contradiction; subst s.
    - repeat split; try discriminate; eauto 8.
    - repeat split; try discriminate; eauto 8.
    - repeat split; try discriminate. destruct (number_head n HJ) as (c & r & -> & H). exists c, r. split; [reflexivity|]. lia.
  Qed.

  Lemma skip_literal_val : forall buf p c, nth_error buf (first p) = Some c -> c = 116 \/ c = 102 \/ c = 45 \/ 48 <= c <= 57 ->
    skip_literal CNone true buf p = skip_val g buf p.
  Proof.
    intros buf p c HC HV. unfold skip_literal, skip_val, skip_value. destruct (ensure (has_more p) UnexpectedEndOfData); try reflexivity.
    cbn [bind]. unfold front. cbn [first set_counter]. rewrite (rd_some _ _ _ HC). cbn [bind].
    replace (c =? c_quote) with false by (unfold c_quote; lia). replace (c =? c_lbrack) with false by (unfold c_lbrack; lia).
    replace (c =? c_lbrace) with false by (unfold c_lbrace; lia). reflexivity.
  Qed.

  (** Skipping a value, with what it delimits *)
  Lemma skip_delimits : forall buf p v t j, wf buf p -> N.of_nat (length buf) < 2^32 -> jtext str_body v t -> sub_at buf (first p) t ->
    followed true buf (first p + length t) j (last p) -> v <> JNull ->
    exists r q, skip_val g buf p = Ok (r, q) /\ moved p q /\ (first p + length t <= first q <= j)%nat /\ delimits false v (first p) (first p + length t) r.
  Proof.
    intros buf p v t j HW H32 HT HS HF NV. pose proof (followed_le _ _ _ _ _ HF) as FL.
    assert (LT : N.of_nat (length t) < 2^32) by (destruct HW as (_ & _ & HL & _); lia).
    destruct (C17_skip_value_partial CNone true ExConstexpr false buf p v t j ltac:(discriminate) HW HT HS LT HF ltac:(congruence)) as (r & E & D).
    exists r. eexists. unfold skip_val. rewrite HX, HE. split; [exact E|]. split; [repeat split|]. split; [|exact D].
    cbn [first set_first]. unfold stands. destruct (is_word v); lia.
  Qed.

  Lemma reads_literal : forall k v s, k = CuLiteral \/ k = CuAny -> literal v s -> reads g (parse_value g (TCustom k)) v (VStr s).
  Proof.
    intros k v s HK HL. split.
    - intros buf p t j HW H32 HT HS HF. destruct (literal_text _ _ _ HL HT) as (-> & NV & c & l & -> & HC).
      destruct (skip_delimits buf p v _ j HW H32 HT HS HF NV) as (r & q & E & M & L & D).
      assert (DD : first r = first p /\ last r = (first p + length (c :: l))%nat) by (destruct v; cbn in HL; try contradiction; apply D).
      destruct DD as [D1 D2]. cbn [parse_value]. unfold parse_value_custom. exists q. split; [|split; [exact M|exact L]].
      assert (FIN := custom_text buf r q (first p) (c :: l) D1 D2 HS).
      destruct HK as [->| ->].
      + rewrite (skip_literal_val buf p c) by (auto; apply HS). rewrite E. cbn [bind]. apply FIN. exists c, l. repeat split; lia.
      + unfold front at 1. pose proof HS as [S0 _]. rewrite (rd_some _ _ _ S0). cbn [bind].
        replace (c =? c_quote) with false by (unfold c_quote; lia). rewrite E. cbn [bind]. apply FIN. exists c, l. repeat split; lia.
    - intros NV buf r H32 HLo. destruct (located_range g HX HE _ _ _ H32 HLo) as (p & t & j & q & HW & HT & HS & HF & _ & D & _ & HB).
      destruct (literal_text _ _ _ HL HT) as (-> & _ & c & l & -> & HC). specialize (D NV).
      assert (DD : first r = first p /\ last r = (first p + length (c :: l))%nat) by (destruct v; cbn in HL; try contradiction; apply D).
      destruct DD as [D1 D2]. cbn [parse_value]. unfold parse_value_custom. exists r.
      assert (FIN := custom_text buf r r (first p) (c :: l) D1 D2 HS).
      destruct HK as [->| ->]; cbn [bind].
      + apply FIN. exists c, l. repeat split; lia.
      + destruct HB as (i & b & Ei & Hb & NB). rewrite D1, Ei. rewrite (rd_some _ _ _ Hb). cbn [bind].
        replace (b =? c_quote) with false by (unfold c_quote; lia). cbn iota. apply FIN. exists c, l. repeat split; lia.
  Qed.

  Lemma skip_string_here : forall buf p b, wf buf p -> N.of_nat (length buf) < 2^32 -> str_body b -> sub_at buf (first p) (34 :: b ++ [34]) ->
    (first p + length b + 2 <= last p)%nat ->
    exists r, skip_string true (c_ex g) (c_excl g) false buf p = Ok (r, set_first p (first p + length b + 2)) /\
      first r = S (first p) /\ last r = (S (first p) + length b)%nat.
  Proof.
    intros buf p b HW H32 HB HS HL. rewrite HX, HE.
    destruct (skip_string_ok true ExConstexpr false buf p b) as (r & E & [R1 R2] & _); auto; [discriminate| |].
    - destruct HW as (_ & _ & HLb & cl & _ & HCL). change (2^32) with 4294967296 in H32. change (2^64) with 18446744073709551616. lia.
    - exists r. split; [exact E|]. split; [exact R1|lia].
  Qed.

  Lemma custom_string_here : forall buf p b, wf buf p -> N.of_nat (length buf) < 2^32 -> str_body b -> sub_at buf (first p) (34 :: b ++ [34]) ->
    (first p + length b + 2 <= last p)%nat -> (exists c r, b = c :: r /\ c <> 91 /\ c <> 123) ->
    parse_value_custom g CuString false buf p = Ok (VStr b, set_first p (first p + length b + 2)).
  Proof.
    intros buf p b HW H32 HB' HS HL HN. destruct (skip_string_here buf p b HW H32 HB' HS HL) as (r & E & R1 & R2).
    unfold parse_value_custom. rewrite E. cbn [bind].
    apply (custom_text buf r _ (S (first p)) b R1 R2); [|exact HN]. destruct HS as [_ HS]. apply sub_at_app in HS. apply HS.
  Qed.

  Lemma custom_any_here : forall buf p b, wf buf p -> N.of_nat (length buf) < 2^32 -> str_body b -> sub_at buf (first p) (34 :: b ++ [34]) ->
    (first p + length b + 2 <= last p)%nat ->
    parse_value_custom g CuAny false buf p = Ok (VStr (34 :: b), set_first p (first p + length b + 2)).
  Proof.
    intros buf p b HW H32 HB' HS HL. destruct (skip_string_here buf p b HW H32 HB' HS HL) as (r & E & R1 & R2).
    pose proof HS as [S0 S1]. unfold parse_value_custom, front at 1. rewrite (rd_some _ _ _ S0). cbn [bind].
    change (34 =? c_quote) with true. cbn iota. rewrite E. cbn [bind].
    apply (custom_text buf _ _ (first p) (34 :: b)); cbn [first last set_first length]; [lia|lia| |].
    - split; [exact S0|]. apply sub_at_app in S1. apply S1.
    - exists 34, b. repeat split; discriminate.
  Qed.

  Lemma reads_custom_string : forall b, (exists c r, b = c :: r /\ c <> 91 /\ c <> 123) -> reads g (parse_value g (TCustom CuString)) (JStr b) (VStr b).
  Proof.
    intros b HN. split.
    - intros buf p t j HW H32 HT HS HF. pose proof (followed_le _ _ _ _ _ HF) as FL. inversion HT as [| | | |b' HB' E1 E2| | | |]; subst b' t.
      cbn [length] in *. rewrite app_length in *. cbn [length] in *.
      exists (set_first p (first p + length b + 2)). split; [|split; [apply moved_first|cbn [first set_first]; lia]].
      cbn [parse_value]. apply custom_string_here; auto. lia.
    - intros _ buf r H32 HLo. destruct (located_string g HX HE _ _ _ H32 HLo) as (HS & HL & _). cbn [parse_value]. unfold parse_value_custom. cbn [bind].
      exists r. apply (custom_text buf r r (first r) b eq_refl HL); [|exact HN]. apply sub_at_app in HS. apply HS.
  Qed.

  Lemma reads_custom_any : forall b, reads g (parse_value g (TCustom CuAny)) (JStr b) (VStr (34 :: b)).
  Proof.
    intros b. split.
    - intros buf p t j HW H32 HT HS HF. pose proof (followed_le _ _ _ _ _ HF) as FL. inversion HT as [| | | |b' HB' E1 E2| | | |]; subst b' t.
      cbn [length] in *. rewrite app_length in *. cbn [length] in *.
      exists (set_first p (first p + length b + 2)). split; [|split; [apply moved_first|cbn [first set_first]; lia]].
      cbn [parse_value]. apply custom_any_here; auto. lia.
    - assert (HN : exists c r, 34 :: b = c :: r /\ c <> 91 /\ c <> 123) by (exists 34, b; repeat split; discriminate).
      intros _ buf r H32 HLo. destruct (located_range g HX HE _ _ _ H32 HLo) as (p & t & j & q & HW & HT & HS & HF & _ & D & _ & _).
      inversion HT as [| | | |b' HB' E1 E2| | | |]; subst b' t. destruct D as [[D1 D2] _]; [discriminate|].
      cbn [length] in D2. rewrite app_length in D2. cbn [length] in D2. pose proof HS as [S0 S1].
      cbn [parse_value]. unfold parse_value_custom. rewrite D1. rewrite (rd_some _ _ _ S0). cbn [bind]. change (34 =? c_quote) with true. cbn iota.
      exists r. apply (custom_text buf _ r (first p) (34 :: b)); cbn [first last set_first length]; [reflexivity|lia| |exact HN].
      split; [exact S0|]. apply sub_at_app in S1. apply S1.
  Qed.

  (** ** Variants *)

  (** The alternative at [i] is the first one [v] is meant for. *)
  Fixpoint chosen (v : jv) (alts : list ty) (i : nat) (t : ty) : Prop :=
    match alts, i with
    | t' :: _, O => meant_for t' v = true /\ t = t'
    | t' :: alts', S i' => meant_for t' v = false /\ chosen v alts' i' t
    | [], _ => False
    end.

  Lemma base_map_chosen : forall v k alts i t n, kind_of v = Some k -> chosen v alts i t ->
    base_map k n (map (fun t => (base_kind t, parse_value g t)) alts) = Some ((n + i)%nat, parse_value g t).
  Proof.
    intros v k. induction alts as [|t' alts IH]; intros i t n HK HC; [destruct i; contradiction|].
    cbn [map base_map]. destruct i as [|i]; cbn [chosen] in HC.
    - destruct HC as [HM ->]. rewrite meant_for_kind, HK in HM. destruct (base_kind t') as [k'|]; [|discriminate].
      apply kind_eqb_eq in HM. subst k'. replace (kind_eqb k k) with true by (symmetry; now apply kind_eqb_eq). now rewrite Nat.add_0_r.
    - destruct HC as [HM HC]. rewrite meant_for_kind, HK in HM. specialize (IH i t (S n) HK HC).
      replace (n + S i)%nat with (S n + i)%nat by lia. destruct (base_kind t') as [k'|]; [|exact IH].
      replace (kind_eqb k k') with false; [exact IH|]. destruct (kind_eqb k k') eqn:E; auto. apply kind_eqb_eq in E. subst k'.
      replace (kind_eqb k k) with true in HM by (symmetry; now apply kind_eqb_eq). discriminate.
  Qed.

  Lemma chosen_kind : forall v alts i t, chosen v alts i t -> exists k, kind_of v = Some k.
  Proof.
    induction alts as [|t' alts IH]; intros i t HC; [destruct i; contradiction|]. destruct i as [|i]; cbn [chosen] in HC.
    - destruct HC as [HM _]. rewrite meant_for_kind in HM. destruct (base_kind t'), (kind_of v); try discriminate. eauto.
    - destruct HC as [_ HC]. eauto.
  Qed.

  (** The first byte tells the kind. *)
  Lemma variant_head : forall alts known buf p v t k, jtext str_body v t -> sub_at buf (first p) t -> kind_of v = Some k ->
    (c <- front buf p ;;
     if c =? c_lbrace then parse_variant_value KClass alts known buf p
     else if c =? c_lbrack then parse_variant_value KArray alts known buf p
     else if (c =? c_t) || (c =? c_f) then parse_variant_value KBool alts known buf p
     else if c =? c_quote then parse_variant_value KString alts known buf p
     else if ((48 <=? c) && (c <=? 57)) || (c =? c_plus) || (c =? c_minus)
     then parse_variant_value KNumber alts known buf p
     else Err InvalidStartOfValue) = parse_variant_value k alts known buf p.
  Proof.
    intros alts known buf p v t k HT HS HK. unfold front.
    destruct HT as [| | |n HJ|b _|w _|es t _|w _|ms t _]; cbn in HK; try discriminate; injection HK as <-; try (pose proof HS as [H0 _]; rewrite (rd_some _ _ _ H0); reflexivity).
    destruct (number_head n HJ) as (c & r & -> & HC). pose proof HS as [H0 _]. rewrite (rd_some _ _ _ H0). cbn [bind].
    unfold c_lbrace, c_lbrack, c_t, c_f, c_quote, c_plus, c_minus.
    replace (c =? 123) with false by lia. replace (c =? 91) with false by lia. replace ((c =? 116) || (c =? 102)) with false by lia.
    replace (c =? 34) with false by lia. replace ((48 <=? c) && (c <=? 57) || (c =? 43) || (c =? 45)) with true by lia. reflexivity.
  Qed.

  Lemma reads_variant : forall alts i t v y, chosen v alts i t -> reads g (parse_value g t) v y ->
    reads g (parse_value g (TVariant alts)) v (VVariant i y).
  Proof.
    intros alts i ty v y HC [R1 R2]. destruct (chosen_kind _ _ _ _ HC) as (k & HK).
    pose proof (base_map_chosen v k alts i ty 0 HK HC) as BM. cbn [Nat.add] in BM. split.
    - intros buf p t j HW H32 HT HS HF. cbn [parse_value]. unfold parse_value_variant. cbn [bind].
      rewrite (variant_head _ false buf p v t k HT HS HK). unfold parse_variant_value. rewrite BM.
      destruct (R1 buf p t j HW H32 HT HS HF) as (q & E & M & L). rewrite E. cbn [bind]. eauto.
    - intros NV buf r H32 HLo. destruct (R2 NV buf r H32 HLo) as (q & E).
      destruct (located_range g HX HE _ _ _ H32 HLo) as (p & t & j & q' & HW & HT & HS & HF & _ & D & _ & HB). specialize (D NV).
      cbn [parse_value]. unfold parse_value_variant. exists q.
      assert (G : parse_variant_value k (map (fun t => (base_kind t, parse_value g t)) alts) true buf r = Ok (VVariant i y, q)).
      { unfold parse_variant_value. rewrite BM, E. reflexivity. }
      assert (S : (exists b, v = JStr b) \/ first r = first p) by (destruct v; try (right; apply D); [congruence|left; eauto]).
      destruct S as [(b & ->)|F].
      + inversion HT as [| | | |b' HB' E1 E2| | | |]; subst b' t. destruct D as [[D1 _] _]. rewrite D1. pose proof HS as [S0 _].
        rewrite (rd_some _ _ _ S0). cbn [bind]. change (34 =? c_quote) with true. cbn iota. cbn in HK. injection HK as <-. exact G.
      + destruct HB as (i' & b & Ei & Hb & NB). rewrite F, Ei, (rd_some _ _ _ Hb). cbn [bind].
        replace (b =? c_quote) with false by (unfold c_quote; lia). cbn iota.
        rewrite (variant_head _ true buf r v t k HT); auto. now rewrite F.
  Qed.

  Lemma reads_intrusive : forall exact tag t switch alts js y z P, reads g (parse_value g (TClass exact [(tag, t)])) (JObj js) (VClass [y]) ->
    nth_error (map (parse_value g) alts) (switch y) = Some P -> reads g P (JObj js) z ->
    reads g (parse_value g (TIntrusive exact tag t switch alts)) (JObj js) (VVariant (switch y) z).
  Proof.
    intros exact tag ty switch alts js y z P [R1 _] HN [R2 _]. apply reads_bracketed; auto; [right; eauto|].
    intros known buf p t j HW H32 HT HS HF. cbn [parse_value]. unfold parse_value_variant_intrusive.
    destruct (R1 buf p t j HW H32 HT HS HF) as (q1 & E1 & _). cbn [parse_value map fst snd] in E1. rewrite E1. cbn [bind].
    unfold parse_visit. rewrite HN. destruct (R2 buf p t j HW H32 HT HS HF) as (q2 & E2 & M2 & L2). rewrite E2. cbn [bind]. eauto.
  Qed.

  (** ** Arrays of keys and values *)

  Lemma class_leading : forall exact ms known buf p w c, is_bytes buf -> ws w -> sub_at buf (first p) (w ++ [c]) -> 32 < c ->
    (first p + length w < last p)%nat ->
    parse_value_class g exact ms known buf p = parse_value_class g exact ms known buf (set_first p (first p + length w)).
  Proof.
    intros exact ms known buf p w c HB W HS HC HL.
    assert (T1 : trim_left_checked buf p = Ok (set_first p (first p + length w))) by (apply (trim_to buf p w c); auto; lia).
    set (p' := set_first p (first p + length w)) in *.
    assert (T2 : trim_left_checked buf p' = Ok p').
    { apply sub_at_app in HS as [_ [HS _]]. now apply (trim_here buf p' c). }
    unfold parse_value_class. unfold has_more. change (last p') with (last p). change (first p') with (first p + length w)%nat.
    replace (first p <? last p)%nat with true by lia. replace (first p + length w <? last p)%nat with true by lia. cbn [ensure bind].
    unfold parse_json_class. now rewrite T1, T2.
  Qed.

  Lemma kv_ok : forall exact kn tk vn tv es xs, es <> [] ->
    Forall2 (reads g (parse_value g (TClass exact [(kn, tk); (vn, tv)]))) es xs ->
    forall known buf p t j, wf buf p -> N.of_nat (length buf) < 2^32 -> jtext str_body (JArr es) t -> sub_at buf (first p) t ->
      ws_run buf (first p + length t) j (last p) ->
      exists q, parse_value g (TKvArr exact kn tk vn tv) known buf p = Ok (VArr xs, q) /\ moved p q /\ (first p + length t <= first q <= j)%nat.
  Proof.
    intros exact kn tk vn tv es xs NE HR known buf p t j HW H32 HT HS HF'. pose proof (ws_run_le _ _ _ _ HF') as FL.
    pose proof HW as (HB & HN & HLp & cl & HC & HCL).
    destruct (array_start buf (first p) es t HT HS) as (w & c & S0 & W & S1 & C1 & C2 & LW & HA).
    cbn [parse_value]. unfold parse_value_keyvalue_array.
    set (C := parse_value_class g exact _).
    rewrite is_at_yes by (auto; lia). cbn [ensure bind].
    set (p0 := remove_prefix p 1).
    assert (F0 : first p0 = S (first p)) by (unfold p0, remove_prefix; cbn [first set_first]; lia).
    assert (L0 : last p0 = last p) by reflexivity.
    set (p1 := set_first p0 (first p0 + length w)).
    assert (F1 : first p1 = (S (first p) + length w)%nat) by (unfold p1; cbn [first set_first]; lia).
    set (e := (first p + length t - 1)%nat) in *.
    assert (FE : ws_run buf (S e) j (last p)) by (replace (S e) with (first p + length t)%nat by (unfold e; lia); exact HF').
    destruct es as [|v0 es]; [congruence|]. inversion HR as [|? x0 ? xs0 R1 R2]; subst.
    destruct (at_elem_byte _ _ _ _ HA) as (b & Hb & SB).
    assert (BC : b = c).
    { apply sub_at_app in S1 as [_ [S1 _]]. congruence. }
    subst b. unfold starter in SB.
    assert (FB : exists b, nth_error buf (first p0) = Some b /\ b <> 93).
    { rewrite F0. destruct w as [|x w]; [exists c; split; [apply S1|lia]|]. exists x. split; [apply S1|].
      inversion W as [|? ? D _]; subst. unfold json_ws in D. lia. }
    destruct FB as (b0 & Hb0 & Nb0). unfold front. rewrite (rd_some _ _ _ Hb0). cbn [bind].
    replace (b0 =? c_rbrack) with false by (unfold c_rbrack; lia).
    pose proof (at_elem_end _ _ _ _ HA) as [LE BE].
    assert (EQ : loop (array_body C buf) (S (length buf)) (p0, []) = loop (array_body C buf) (S (length buf)) (p1, [])).
    { cbn [loop]. replace (array_body C buf (p0, [])) with (array_body C buf (p1, [])); [reflexivity|]. unfold array_body.
      replace (has_more p0) with true by (unfold has_more; rewrite F0, L0; symmetry; apply Nat.ltb_lt; lia).
      replace (has_more p1) with true by (unfold has_more; rewrite F1; change (last p1) with (last p); symmetry; apply Nat.ltb_lt; lia).
      cbn [ensure bind]. unfold C. rewrite (class_leading exact _ false buf p0 w c); auto; [now rewrite F0|]. rewrite F0, L0. lia. }
    rewrite EQ.
    assert (W1 : wf buf p1) by (apply (moved_wf buf p); [repeat split|exact HW|rewrite F1; change (last p1) with (last p); lia]).
    destruct (array_loop g C buf e j (last p) H32 ltac:(lia) FE es v0 xs0 x0 (S (length buf)) p1 []) as (q & EL & MQ & FQ); auto.
    { destruct HA as (c0 & tm & HM & _ & HS' & _). apply jelems_length in HM. apply sub_at_length in HS'; [|discriminate]. len. lia. }
    { rewrite F1. exact HA. }
    rewrite EL. cbn [bind app]. exists q. split; [reflexivity|]. split; [eapply moved_trans; [|exact MQ]; repeat split|]. lia.
  Qed.

  Lemma reads_kv : forall exact kn tk vn tv es xs, es <> [] ->
    Forall2 (reads g (parse_value g (TClass exact [(kn, tk); (vn, tv)]))) es xs ->
    reads g (parse_value g (TKvArr exact kn tk vn tv)) (JArr es) (VArr xs).
  Proof.
    intros exact kn tk vn tv es xs NE HR. apply reads_bracketed; auto; [left; eauto|]. intros known buf p t j HW H32 HT HS HF.
    pose proof (followed_ws_run _ _ _ _ HF) as HF'. now apply (kv_ok exact kn tk vn tv es xs NE HR known buf p t j).
  Qed.
End Cfg.
