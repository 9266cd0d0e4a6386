(** Arrays, maps and tuples on well-formed text. *)
From Coq Require Import List NArith ZArith Bool Lia Arith ZifyBool ZifyNat ZifyN.
From Verif Require Import Base Mem Loop PolicyModel IntModel StrScanModel SkipModel SpecNum SpecText SpecJson SpecUnicode
  IntValueProofs StrScanProofs StrScanProofs2 StrScanProofs3 SkipProofs BracketProofs SkipSafe PropertiesStr PropertiesSkip
  StrDecodeModel StrDecodeProofs HashModel PropertiesHash ValueModel NameProofs ClassProofs ClassProofs2 ScalarProofs.
Import ListNotations.
Local Open Scope N_scope.

(** ** The remaining elements *)

(** [i] is the position after an element, [e] that of the closing bracket. *)
Definition rem_e (buf : list N) (i e : nat) (rest : list jv) : Prop :=
  match rest with
  | [] => exists w, ws w /\ sub_at buf i (w ++ [93]) /\ e = (i + length w)%nat
  | _ => exists w tm, ws w /\ jelems str_body rest tm /\ sub_at buf i (w ++ 44 :: tm ++ [93]) /\
           e = (i + length w + 1 + length tm)%nat
  end.

(** [i] is the position of the next element, or of the closing bracket. *)
Definition at_elem (buf : list N) (i e : nat) (rest : list jv) : Prop :=
  match rest with
  | [] => i = e /\ nth_error buf i = Some 93
  | _ => exists c tm, jelems str_body rest (c :: tm) /\ starter c /\ sub_at buf i ((c :: tm) ++ [93]) /\
           e = (i + length (c :: tm))%nat
  end.

Lemma jelems_strip : forall es tm, jelems str_body es tm ->
  exists w c tm', ws w /\ tm = w ++ c :: tm' /\ jelems str_body es (c :: tm') /\ starter c.
Proof.
  intros es tm H. destruct H as [w1 v t w2 H1 Ht H2|w1 v t w2 es ts H1 Ht H2 HM].
  - destruct (jtext_head _ _ _ Ht) as (c & r & -> & ST). exists w1, c, (r ++ w2). split; [assumption|]. split; [reflexivity|]. split; [|assumption].
    apply (e_one str_body [] v (c :: r) w2); auto. constructor.
  - destruct (jtext_head _ _ _ Ht) as (c & r & -> & ST). exists w1, c, (r ++ w2 ++ 44 :: ts). split; [assumption|]. split; [reflexivity|]. split; [|assumption].
    apply (e_cons str_body [] v (c :: r) w2); auto. constructor.
Qed.

Lemma jelems_length : forall es tm, jelems str_body es tm -> (length es <= length tm)%nat.
Proof.
  induction 1 as [w1 v t w2 H1 Ht H2|w1 v t w2 es ts H1 Ht H2 HM IH]; len; [|lia].
  destruct (jtext_head _ _ _ Ht) as (c & r & -> & ST). cbn [length]. lia.
Qed.

Lemma jelems_nonempty : forall es tm, jelems str_body es tm -> es <> [].
Proof. destruct 1; discriminate. Qed.

Lemma at_elem_cons : forall buf i e v rest, at_elem buf i e (v :: rest) ->
  exists t, jtext str_body v t /\ sub_at buf i t /\ rem_e buf (i + length t) e rest.
Proof.
  intros buf i e v rest (c & tm & HM & HC & HS & HE).
  assert (NW : forall w x, ws w -> w ++ x = c :: tm -> w = []).
  { intros w x W E. eapply ws_head; eauto. apply HC. }
  inversion HM as [w1 v' t w2 H1 Ht H2 E1 E2|w1 v' t w2 es ts H1 Ht H2 HM' E1 E2]; subst.
  - rewrite (NW _ _ H1 E2) in E2. cbn [app] in E2. rewrite <- E2 in *.
    rewrite <- app_assoc in HS. apply sub_at_app in HS as [HS1 HS2]. exists t. split; [assumption|]. split; [assumption|].
    cbn [rem_e]. exists w2. split; auto. split; auto. len. lia.
  - rewrite (NW _ _ H1 E2) in E2. cbn [app] in E2. rewrite <- E2 in *.
    rewrite <- app_assoc in HS. apply sub_at_app in HS as [HS1 HS2]. exists t. split; [assumption|]. split; [assumption|].
    unfold rem_e. destruct rest as [|m rest]; [inversion HM'|]. exists w2, ts. split; [assumption|]. split; [assumption|]. len.
    split; [|lia]. rewrite <- app_assoc in HS2. exact HS2.
Qed.

Lemma rem_e_end : forall buf i e rest, rem_e buf i e rest -> (i <= e)%nat /\ nth_error buf e = Some 93.
Proof.
  intros buf i e [|m rest].
  - intros (w & _ & HS & ->). split; [lia|]. apply sub_at_app in HS as [_ [HS _]]. exact HS.
  - intros (w & tm & _ & _ & HS & ->). split; [lia|].
    replace (w ++ 44 :: tm ++ [93]) with ((w ++ 44 :: tm) ++ [93]) in HS by (rewrite <- app_assoc; reflexivity).
    apply sub_at_app in HS as [_ [HS _]]. len.
    match goal with H : nth_error buf ?a = _ |- nth_error buf ?b = _ => now replace b with a by lia end.
Qed.

Lemma at_elem_end : forall buf i e rest, at_elem buf i e rest -> (i <= e)%nat /\ nth_error buf e = Some 93.
Proof.
  intros buf i e [|m rest].
  - intros (<- & H). split; [lia|exact H].
  - intros (c & tm & _ & _ & HS & ->). split; [lia|]. apply sub_at_app in HS as [_ [HS _]]. exact HS.
Qed.

Lemma at_elem_byte : forall buf i e rest, at_elem buf i e rest ->
  exists b, nth_error buf i = Some b /\ match rest with [] => b = 93 | _ => starter b end.
Proof.
  intros buf i e [|m rest].
  - intros (_ & H). eauto.
  - intros (c & tm & _ & H0 & HS & _). exists c. split; [apply HS|exact H0].
Qed.

Lemma rem_e_followed : forall buf i e rest l, rem_e buf i e rest -> (e < l)%nat ->
  exists j, followed true buf i j l /\ (j <= e)%nat /\ nth_error buf j = Some (match rest with [] => 93 | _ => 44 end) /\
    forall k, (i <= k <= j)%nat -> rem_e buf k e rest.
Proof.
  intros buf i e rest l HR HL.
  assert (X : exists w x, ws w /\ sub_at buf i (w ++ x :: []) /\ closer x /\ x = match rest with [] => 93 | _ => 44 end /\ (i + length w <= e)%nat /\
     forall k, (i <= k <= i + length w)%nat -> rem_e buf k e rest).
  { assert (SK : forall w k z, ws w -> sub_at buf i (w ++ z) -> (i <= k <= i + length w)%nat ->
       exists w', ws w' /\ sub_at buf k (w' ++ z) /\ (k + length w' = i + length w)%nat).
    { intros w k z HW HS HK. exists (skipn (k - i) w). split; [|split].
      - unfold ws in *; apply Forall_forall. intros y Hy. rewrite Forall_forall in HW. apply HW.
        rewrite <- (firstn_skipn (k - i) w). apply in_or_app. now right.
      - rewrite <- (firstn_skipn (k - i) w), <- app_assoc in HS. apply sub_at_app in HS as [_ HS].
        rewrite firstn_length in HS. now replace (i + Nat.min (k - i) (length w))%nat with k in HS by lia.
      - rewrite skipn_length. lia. }
    destruct rest as [|m rest].
    - destruct HR as (w & HW & HS & ->). exists w, 93. split; [assumption|]. split; [assumption|]. split; [unfold closer; lia|]. split; [reflexivity|].
      split; [lia|]. intros k HK. destruct (SK w k [93] HW HS HK) as (w' & W1 & W2 & W3). exists w'. repeat split; auto.
    - destruct HR as (w & tm & HW & HM & HS & ->). exists w, 44. split; [assumption|].
      assert (S' := HS). apply sub_at_app in S' as [S1 [S2 _]].
      split; [apply sub_at_app; cbn; auto|]. split; [unfold closer; lia|]. split; [reflexivity|]. split; [lia|].
      intros k HK. destruct (SK w k _ HW HS HK) as (w' & W1 & W2 & W3). exists w', tm. split; [assumption|]. split; [assumption|]. split; [assumption|]. lia. }
  destruct X as (w & x & HW & HS & HC & Hx & HE & HK). exists (i + length w)%nat.
  apply sub_at_app in HS as [S1 [S2 _]]. split; [|split; [lia|split; [congruence|exact HK]]].
  exists w. repeat split; auto; [lia|]. right. split; [lia|]. eauto.
Qed.

Lemma move_next_rem_e : forall buf p e rest, is_bytes buf -> rem_e buf (first p) e rest -> (e < last p)%nat ->
  exists i, move_next buf p = Ok (set_first p i) /\ (first p <= i)%nat /\ at_elem buf i e rest.
Proof.
  intros buf p e rest HB HR HL. unfold move_next, move_next_member_or_end, move_next_member_or_end_checked.
  destruct rest as [|m rest].
  - destruct HR as (w & HW & HS & ->). rewrite (trim_to buf p w 93 HB HW HS ltac:(lia) ltac:(lia)). cbn [bind].
    apply sub_at_app in HS as [_ [HS _]].
    rewrite (is_at_no buf _ 93) by (cbn [first set_first]; auto; discriminate). cbn [bind].
    exists (first p + length w)%nat. split; [reflexivity|]. split; [lia|]. split; auto.
  - destruct HR as (w & tm & HW & HM & HS & ->). apply sub_at_app in HS as [S1 [S2 S3]].
    rewrite (trim_to buf p w 44 HB HW) by (try lia; apply sub_at_app; cbn; auto). cbn [bind].
    rewrite is_at_yes by (cbn [first last set_first]; auto; lia). cbn [bind].
    destruct (jelems_strip _ _ HM) as (w' & c & r & HW' & -> & HM' & H0).
    rewrite <- app_assoc in S3. len.
    assert (S4 : sub_at buf (S (first p + length w)) (w' ++ [c])).
    { apply sub_at_app in S3 as [A [B _]]. apply sub_at_app. cbn. auto. }
    unfold remove_prefix. cbn [first set_first].
    rewrite (trim_to buf (set_first (set_first p (first p + length w)) (first p + length w + 1)) w' c); auto; cbn [first last set_first]; try lia.
    2:{ now replace (first p + length w + 1)%nat with (S (first p + length w)) by lia. }
    2:{ apply H0. }
    exists (first p + length w + 1 + length w')%nat. split; [reflexivity|]. split; [lia|].
    exists c, r. split; [assumption|]. split; [assumption|]. apply sub_at_app in S3 as [_ S3]. split; [|cbn [length]; lia].
    now replace (first p + length w + 1 + length w')%nat with (S (first p + length w) + length w')%nat by lia.
Qed.

(** The start of the elements *)
Lemma array_start : forall buf i es t, jtext str_body (JArr es) t -> sub_at buf i t ->
  exists w c, nth_error buf i = Some 91 /\ ws w /\ sub_at buf (S i) (w ++ [c]) /\ 32 < c /\ c <> 44 /\
    (i + 1 + length w < i + length t)%nat /\ at_elem buf (S i + length w) (i + length t - 1) es.
Proof.
  intros buf i es t HT HS.
  assert (T : exists tm, t = 91 :: tm ++ [93] /\ (es = [] /\ ws tm \/ jelems str_body es tm)) by (inversion HT; subst; eauto).
  destruct T as (tm & -> & TM). destruct HS as [S0 S1]. cbn [length]. rewrite app_length. cbn [length].
  destruct TM as [[-> W]|M].
  - exists tm, 93. split; [exact S0|]. split; [exact W|]. split; [exact S1|]. split; [lia|]. split; [lia|]. split; [lia|].
    apply sub_at_app in S1 as [_ [S1 _]]. split; [lia|exact S1].
  - destruct (jelems_strip _ _ M) as (w & c & r & W & -> & M' & ST). rewrite <- app_assoc in S1. apply sub_at_app in S1 as [S1 S2].
    exists w, c. split; [exact S0|]. split; [exact W|]. split; [apply sub_at_app; split; [exact S1|split; [apply S2|exact I]]|].
    unfold starter in ST. split; [lia|]. split; [lia|]. len. split; [lia|].
    pose proof (jelems_nonempty _ _ M') as NE. destruct es as [|v es]; [congruence|]. exists c, r. split; [exact M'|]. split; [exact ST|].
    split; [exact S2|]. cbn [length]. lia.
Qed.

Section Cfg.
  Context (g : cfg).
  Hypothesis HX : c_ex g = ExConstexpr.
  Hypothesis HE : c_excl g = false.

  (** ** Arrays *)

  Lemma array_loop_in : forall (P : parser) buf e j l, N.of_nat (length buf) < 2^32 -> (e < l)%nat -> ws_run buf (S e) j l ->
    forall es v0 xs x0 fuel p vs, Forall2 (reads_inside g P) (v0 :: es) (x0 :: xs) ->
      (length (v0 :: es) < fuel)%nat -> wf buf p -> last p = l -> at_elem buf (first p) e (v0 :: es) ->
      exists q, loop (array_body P buf) fuel (p, vs) = Ok (q, vs ++ x0 :: xs) /\ moved p q /\ first q = j.
  Proof.
    intros P buf e j l H32 HL HF. induction es as [|v1 es IH]; intros v0 xs x0 fuel p vs HR HU HW HLp HA;
      (destruct fuel as [|fuel]; [cbn in HU; lia|]); cbn [loop]; unfold array_body at 1;
      pose proof (at_elem_end _ _ _ _ HA) as [LE BE]; pose proof HW as (HB & HN & HLp' & cl & HC & HCL);
      (assert (HM : has_more p = true) by (unfold has_more; apply Nat.ltb_lt; lia)); rewrite HM; cbn [ensure bind];
      destruct (at_elem_cons _ _ _ _ _ HA) as (t & Ht & HS & HRem);
      destruct (rem_e_followed _ _ _ _ l HRem HL) as (j1 & FJ & JE & JB & RJ);
      inversion HR as [|? ? ? ? R1 R2]; subst;
      (assert (IL : (first p + length t < last p)%nat) by (pose proof (followed_le _ _ _ _ _ FJ); lia));
      destruct (proj1 R1 buf p t j1 HW H32 Ht HS FJ IL) as (q & EQ & MQ & LQ); rewrite EQ; cbn [bind];
      (assert (LQl : last q = last p) by apply MQ);
      (assert (FQ : followed true buf (first q) j1 (last q)) by (rewrite LQl; eapply followed_from; eauto));
      rewrite (trim_followed buf q j1 HB FQ); cbn [bind];
      (assert (HM1 : has_more (set_first q j1) = true) by (unfold has_more; cbn [first last set_first]; apply Nat.ltb_lt; lia));
      rewrite HM1; unfold front at 1; cbn [first set_first]; rewrite (rd_some _ _ _ JB); cbn [bind].
    - change ((93 =? c_comma) || (93 =? c_rbrack)) with true. cbn [ensure bind].
      destruct (move_next_rem_e buf (set_first q j1) e [] HB) as (i & EM & LI & AI); [cbn [first set_first]; apply RJ; lia|cbn [last set_first]; lia|].
      rewrite EM. cbn [bind]. destruct AI as [-> AI].
      assert (HM2 : has_more (set_first (set_first q j1) e) = true) by (unfold has_more; cbn [first last set_first]; apply Nat.ltb_lt; lia).
      rewrite HM2. unfold front. cbn [first set_first ensure bind]. rewrite (rd_some _ _ _ AI). cbn [bind]. change (93 =? c_rbrack) with true. cbn iota.
      unfold end_of_array. rewrite (trim_left_run buf (remove_prefix (set_first (set_first q j1) e) 1) j HB).
      2:{ unfold remove_prefix. cbn [first last set_first]. rewrite LQl. now replace (e + 1)%nat with (S e) by lia. }
      cbn [bind]. inversion R2; subst. eexists. split; [reflexivity|]. split; [|reflexivity].
      eapply moved_trans; [exact MQ|]. repeat split.
    - change ((44 =? c_comma) || (44 =? c_rbrack)) with true. cbn [ensure bind].
      destruct (move_next_rem_e buf (set_first q j1) e (v1 :: es) HB) as (i & EM & LI & AI); [cbn [first set_first]; apply RJ; lia|cbn [last set_first]; lia|].
      rewrite EM. cbn [bind]. pose proof (at_elem_end _ _ _ _ AI) as [LIE _].
      assert (HM2 : has_more (set_first (set_first q j1) i) = true) by (unfold has_more; cbn [first last set_first]; apply Nat.ltb_lt; lia).
      rewrite HM2. unfold front. cbn [first set_first ensure bind].
      destruct (at_elem_byte _ _ _ _ AI) as (b & Hb & SB). rewrite (rd_some _ _ _ Hb). cbn [bind]. unfold starter in SB.
      replace (b =? c_rbrack) with false by (unfold c_rbrack; lia). cbn iota.
      inversion R2 as [|? x1 ? xs1 R3 R4]; subst.
      assert (MM : moved p (set_first (set_first q j1) i)) by (eapply moved_trans; [exact MQ|repeat split]).
      destruct (IH v1 xs1 x1 fuel (set_first (set_first q j1) i) (vs ++ [x0])) as (q2 & E2 & M2 & F2); auto.
      + cbn [length] in *. lia.
      + eapply moved_wf; [exact MM|exact HW|]. cbn [first last set_first]. lia.
      + exists q2. rewrite <- app_assoc in E2. split; [exact E2|]. split; [eapply moved_trans; [exact MM|exact M2]|exact F2].
  Qed.

  Lemma array_inside : forall (P : parser) es xs, Forall2 (reads_inside g P) es xs ->
    forall buf p t j, wf buf p -> N.of_nat (length buf) < 2^32 -> jtext str_body (JArr es) t -> sub_at buf (first p) t ->
      ws_run buf (first p + length t) j (last p) ->
      exists q, parse_value_array P buf p = Ok (VArr xs, q) /\ moved p q /\ first q = j.
  Proof.
    intros P es xs HR buf p t j HW H32 HT HS HF. pose proof (ws_run_le _ _ _ _ HF) as FL.
    pose proof HW as (HB & HN & HLp & cl & HC & HCL).
    destruct (array_start buf (first p) es t HT HS) as (w & c & S0 & W & S1 & C1 & C2 & LW & HA).
    unfold parse_value_array. rewrite (trim_here buf p 91) by (auto; lia). cbn [bind].
    rewrite is_at_yes by (auto; lia). cbn [ensure bind].
    assert (F1 : first (remove_prefix p 1) = S (first p)) by (unfold remove_prefix; cbn [first set_first]; lia).
    rewrite (trim_unchecked_to buf (remove_prefix p 1) w c) by (auto; rewrite F1; exact S1). cbn [bind]. rewrite F1.
    set (p1 := set_first (remove_prefix p 1) (S (first p) + length w)).
    set (e := (first p + length t - 1)%nat) in *.
    assert (M1 : moved p p1) by (repeat split).
    assert (FE : ws_run buf (S e) j (last p)) by (replace (S e) with (first p + length t)%nat by (unfold e; lia); exact HF).
    pose proof (at_elem_end _ _ _ _ HA) as [LE BE]. destruct (at_elem_byte _ _ _ _ HA) as (b & Hb & SB).
    unfold front. change (first p1) with (S (first p) + length w)%nat. rewrite (rd_some _ _ _ Hb). cbn [bind].
    destruct es as [|v0 es].
    - subst b. change (93 =? c_rbrack) with true. cbn iota. inversion HR; subst.
      destruct HA as [HA _]. unfold end_of_array.
      rewrite (trim_left_run buf (remove_prefix p1 1) j HB).
      2:{ change (last (remove_prefix p1 1)) with (last p). unfold remove_prefix, p1. cbn [first set_first].
          replace (S (first p) + length w + 1)%nat with (S e) by lia. exact FE. }
      cbn [bind]. eexists. split; [reflexivity|]. split; [repeat split|reflexivity].
    - unfold starter in SB. replace (b =? c_rbrack) with false by (unfold c_rbrack; lia).
      inversion HR as [|? x0 ? xs0 R1 R2]; subst.
      assert (W1 : wf buf p1) by (apply (moved_wf buf p); auto; unfold p1; cbn [first last set_first remove_prefix]; lia).
      destruct (array_loop_in P buf e j (last p) H32 ltac:(lia) FE es v0 xs0 x0 (S (length buf)) p1 []) as (q & EQ & MQ & FQ); auto.
      { destruct HA as (c0 & tm & HM & _ & HS' & _). apply jelems_length in HM. apply sub_at_length in HS'; [|discriminate]. len. lia. }
      rewrite EQ. cbn [bind app]. exists q. split; [reflexivity|]. split; [eapply moved_trans; [exact M1|exact MQ]|exact FQ].
  Qed.

  Lemma all_inside : forall P es xs, Forall2 (reads g P) es xs -> Forall2 (reads_inside g P) es xs.
  Proof. intros P es xs. induction 1; constructor; auto. now apply reads_reads_inside. Qed.

  Lemma array_loop : forall (P : parser) buf e j l, N.of_nat (length buf) < 2^32 -> (e < l)%nat -> ws_run buf (S e) j l ->
    forall es v0 xs x0 fuel p vs, Forall2 (reads g P) (v0 :: es) (x0 :: xs) ->
      (length (v0 :: es) < fuel)%nat -> wf buf p -> last p = l -> at_elem buf (first p) e (v0 :: es) ->
      exists q, loop (array_body P buf) fuel (p, vs) = Ok (q, vs ++ x0 :: xs) /\ moved p q /\ first q = j.
  Proof. intros P buf e j l H32 HL HF es v0 xs x0 fuel p vs HR. apply (array_loop_in P buf e j l); auto. now apply all_inside. Qed.

  Lemma array_ok : forall (P : parser) es xs, Forall2 (reads g P) es xs ->
    forall buf p t j, wf buf p -> N.of_nat (length buf) < 2^32 -> jtext str_body (JArr es) t -> sub_at buf (first p) t ->
      ws_run buf (first p + length t) j (last p) ->
      exists q, parse_value_array P buf p = Ok (VArr xs, q) /\ moved p q /\ first q = j.
  Proof. intros P es xs HR. apply array_inside. now apply all_inside. Qed.

  Lemma reads_array : forall t es xs, Forall2 (reads g (parse_value g t)) es xs -> reads g (parse_value g (TArr t)) (JArr es) (VArr xs).
  Proof.
    intros ty es xs HR. apply reads_bracketed; auto; [left; eauto|]. intros known buf p t j HW H32 HT HS HF. cbn [parse_value].
    pose proof (followed_le _ _ _ _ _ HF) as FL.
    destruct (array_ok _ _ _ HR buf p t j HW H32 HT HS (followed_ws_run _ _ _ _ HF)) as (q & E & M & F). exists q. split; [exact E|]. split; [exact M|]. lia.
  Qed.

  (** ** Maps *)

  Definition reads_member (P : parser) (m : list N * jv) (kx : list N * val) : Prop :=
    denotes (fst m) (fst kx) /\ reads g P (snd m) (snd kx).
  Definition member_inside (P : parser) (m : list N * jv) (kx : list N * val) : Prop :=
    denotes (fst m) (fst kx) /\ reads_inside g P (snd m) (snd kx).

  Lemma map_loop_in : forall (P : parser) buf e j l, N.of_nat (length buf) < 2^32 -> (e < l)%nat -> ws_run buf (S e) j l ->
    forall ms m0 xs x0 fuel p vs, Forall2 (member_inside P) (m0 :: ms) (x0 :: xs) ->
      (length (m0 :: ms) < fuel)%nat -> wf buf p -> last p = l -> at_member buf (first p) e (m0 :: ms) ->
      exists q, loop (map_body g P buf) fuel (p, vs) = Ok (q, vs ++ x0 :: xs) /\ moved p q /\ first q = j.
  Proof.
    intros P buf e j l H32 HL HF. induction ms as [|m1 ms IH]; intros [k v] xs [s x] fuel p vs HR HU HW HLp HA;
      (destruct fuel as [|fuel]; [cbn in HU; lia|]); cbn [loop]; unfold map_body at 1;
      pose proof (at_member_end _ _ _ _ HA) as [LE BE]; pose proof HW as (HB & HN & HLp' & cl & HC & HCL);
      (assert (HM : has_more p = true) by (unfold has_more; apply Nat.ltb_lt; lia)); rewrite HM; cbn [ensure bind];
      destruct (at_member_cons _ _ _ _ _ _ HA) as (w2 & w3 & t & Hk & W2 & W3 & Ht & HS & HRem);
      destruct (rem_followed _ _ _ _ l HRem HL) as (j1 & FJ & JE & RJ);
      inversion HR as [|? ? ? ? [D1 R1] R2]; subst; cbn [fst snd] in *;
      pose proof (followed_le _ _ _ _ _ FJ) as FL1;
      destruct (jtext_head _ _ _ Ht) as (c & r & ET & ST);
      (assert (S1 : sub_at buf (first p) (34 :: k ++ [34]))
        by (destruct HS as [A B]; split; [exact A|]; apply sub_at_app in B as [B1 [B2 _]]; apply sub_at_app; cbn; auto));
      rewrite HX, (string_here buf p k s) by (auto; lia); cbn [bind];
      (assert (S2 : sub_at buf (first p + length k + 2) (w2 ++ 58 :: w3 ++ t))
        by (destruct HS as [_ B]; apply sub_at_app in B as [_ [_ B]];
            match goal with H : sub_at buf ?a _ |- sub_at buf ?b _ => now replace b with a by lia end));
      rewrite (trim_end_of_name_ok buf (set_first p (first p + length k + 2)) w2 w3 c); auto; cbn [first last set_first];
      try (unfold starter in ST; lia); try (subst t; len; lia);
      try (subst t; apply sub_at_app in S2 as [A [B C]]; apply sub_at_app in C as [C [D _]];
           apply sub_at_app; split; [exact A|]; cbn [sub_at]; split; [exact B|]; apply sub_at_app; cbn; auto; fail);
      cbn [bind];
      set (p1 := set_first (set_first p (first p + length k + 2)) (first p + length k + 2 + length w2 + 1 + length w3));
      (assert (M1 : moved p p1) by (repeat split));
      (assert (W1 : wf buf p1) by (apply (moved_wf buf p); auto; unfold p1; cbn [first last set_first]; lia));
      (assert (S3 : sub_at buf (first p1) t)
        by (apply sub_at_app in S2 as [_ [_ C]]; apply sub_at_app in C as [_ C]; unfold p1; cbn [first set_first];
            match goal with H : sub_at buf ?a t |- sub_at buf ?b t => now replace b with a by lia end));
      (assert (F1 : followed true buf (first p1 + length t) j1 (last p1))
        by (unfold p1; cbn [first last set_first];
            match goal with H : followed true buf ?a j1 _ |- followed true buf ?b j1 _ => now replace b with a by lia end));
      (assert (IL : (first p1 + length t < last p1)%nat) by (pose proof (followed_le _ _ _ _ _ F1); change (last p1) with (last p) in *; lia));
      destruct (proj1 R1 buf p1 t j1 W1 H32 Ht S3 F1 IL) as (q & EQ & MQ & LQ); rewrite EQ; cbn [bind];
      (assert (LQl : last q = last p) by apply MQ);
      (assert (MM : moved p q) by (eapply moved_trans; [exact M1|exact MQ]));
      (assert (RQ : rem buf (first q) e _) by (apply RJ; unfold p1 in LQ; cbn [first set_first] in LQ; lia));
      (assert (LQE : (e < last q)%nat) by lia);
      destruct (move_next_rem buf q e _ HB RQ LQE) as (i & EM & LI & AI); rewrite EM; cbn [bind];
      pose proof (at_member_end _ _ _ _ AI) as [LIE _];
      (assert (HM2 : has_more (set_first q i) = true) by (unfold has_more; cbn [first last set_first]; apply Nat.ltb_lt; lia));
      rewrite HM2; unfold front; cbn [first set_first ensure bind];
      destruct (at_member_byte _ _ _ _ AI) as (b & Hb & SB); rewrite (rd_some _ _ _ Hb); cbn [bind]; subst b.
    - change (125 =? c_rbrace) with true. cbn iota. destruct AI as [-> _].
      rewrite (trim_left_run buf (remove_prefix (set_first q e) 1) j HB).
      2:{ unfold remove_prefix. cbn [first last set_first]. rewrite LQl. now replace (e + 1)%nat with (S e) by lia. }
      cbn [bind]. inversion R2; subst. eexists. split; [reflexivity|]. split; [|reflexivity].
      eapply moved_trans; [exact MM|]. repeat split.
    - change (34 =? c_rbrace) with false. cbn iota.
      inversion R2 as [|? x1 ? xs1 R3 R4]; subst.
      assert (MM' : moved p (set_first q i)) by (eapply moved_trans; [exact MM|repeat split]).
      destruct (IH m1 xs1 x1 fuel (set_first q i) (vs ++ [(s, x)])) as (q2 & E2 & M2 & F2); auto.
      + cbn [length] in *. lia.
      + eapply moved_wf; [exact MM'|exact HW|]. cbn [first last set_first]. lia.
      + exists q2. rewrite <- app_assoc in E2. split; [exact E2|]. split; [eapply moved_trans; [exact MM'|exact M2]|exact F2].
  Qed.

  (** The start of the members *)
  Lemma object_start : forall buf i js t, jtext str_body (JObj js) t -> sub_at buf i t ->
    exists w c, nth_error buf i = Some 123 /\ ws w /\ sub_at buf (S i) (w ++ [c]) /\ 32 < c /\
      (i + 1 + length w < i + length t)%nat /\ at_member buf (S i + length w) (i + length t - 1) js.
  Proof.
    intros buf i js t HT HS.
    assert (T : exists tm, t = 123 :: tm ++ [125] /\ (js = [] /\ ws tm \/ jmembers str_body js tm)) by (inversion HT; subst; eauto).
    destruct T as (tm & -> & TM). destruct HS as [S0 S1]. cbn [length]. rewrite app_length. cbn [length].
    destruct TM as [[-> W]|M].
    - exists tm, 125. split; [exact S0|]. split; [exact W|]. split; [exact S1|]. split; [lia|]. split; [lia|].
      apply sub_at_app in S1 as [_ [S1 _]]. split; [lia|exact S1].
    - destruct (jmembers_strip _ _ M) as (w & tm' & W & -> & M' & N0). rewrite <- app_assoc in S1. apply sub_at_app in S1 as [S1 S2].
      assert (TM : exists r, tm' = 34 :: r) by (destruct tm' as [|x r]; [discriminate|cbn in N0; injection N0 as ->; eauto]).
      destruct TM as (r & ->).
      exists w, 34. split; [exact S0|]. split; [exact W|]. split; [apply sub_at_app; split; [exact S1|split; [apply S2|exact I]]|].
      split; [lia|]. len. split; [lia|].
      pose proof (jmembers_nonempty _ _ M') as NE. destruct js as [|v js]; [congruence|]. exists (34 :: r). split; [exact M'|]. split; [exact N0|].
      split; [exact S2|]. cbn [length]. lia.
  Qed.

  Lemma map_inside : forall (P : parser) ms xs, Forall2 (member_inside P) ms xs ->
    forall buf p t j, wf buf p -> N.of_nat (length buf) < 2^32 -> jtext str_body (JObj ms) t -> sub_at buf (first p) t ->
      ws_run buf (first p + length t) j (last p) ->
      exists q, parse_value_keyvalue g P buf p = Ok (VMap xs, q) /\ moved p q /\ first q = j.
  Proof.
    intros P ms xs HR buf p t j HW H32 HT HS HF. pose proof (ws_run_le _ _ _ _ HF) as FL.
    pose proof HW as (HB & HN & HLp & cl & HC & HCL).
    destruct (object_start buf (first p) ms t HT HS) as (w & c & S0 & W & S1 & C1 & LW & HA).
    unfold parse_value_keyvalue. rewrite is_at_yes by (auto; lia). cbn [ensure bind].
    assert (F1 : first (remove_prefix p 1) = S (first p)) by (unfold remove_prefix; cbn [first set_first]; lia).
    rewrite (trim_to buf (remove_prefix p 1) w c); auto; [|rewrite F1; exact S1|rewrite F1; cbn [last remove_prefix set_first]; lia]. cbn [bind]. rewrite F1.
    set (p1 := set_first (remove_prefix p 1) (S (first p) + length w)).
    set (e := (first p + length t - 1)%nat) in *.
    assert (M1 : moved p p1) by (repeat split).
    assert (FE : ws_run buf (S e) j (last p)) by (replace (S e) with (first p + length t)%nat by (unfold e; lia); exact HF).
    pose proof (at_member_end _ _ _ _ HA) as [LE BE]. destruct (at_member_byte _ _ _ _ HA) as (b & Hb & SB).
    assert (PE : ps_empty p1 = false).
    { unfold ps_empty, p1. cbn [isnull first last set_first remove_prefix]. rewrite HN. cbn [orb]. lia. }
    rewrite PE. cbn [negb ensure bind].
    unfold front. change (first p1) with (S (first p) + length w)%nat. rewrite (rd_some _ _ _ Hb). cbn [bind]. subst b.
    destruct ms as [|m0 ms].
    - change (125 =? c_rbrace) with true. cbn iota. inversion HR; subst.
      destruct HA as [HA _].
      rewrite (trim_left_run buf (remove_prefix p1 1) j HB).
      2:{ change (last (remove_prefix p1 1)) with (last p). unfold remove_prefix, p1. cbn [first set_first].
          replace (S (first p) + length w + 1)%nat with (S e) by lia. exact FE. }
      cbn [bind]. eexists. split; [reflexivity|]. split; [repeat split|reflexivity].
    - change (34 =? c_rbrace) with false. cbn iota.
      inversion HR as [|? x0 ? xs0 R1 R2]; subst.
      assert (W1 : wf buf p1) by (apply (moved_wf buf p); auto; unfold p1; cbn [first last set_first remove_prefix]; lia).
      destruct (map_loop_in P buf e j (last p) H32 ltac:(lia) FE ms m0 xs0 x0 (S (length buf)) p1 []) as (q & EQ & MQ & FQ); auto.
      { destruct HA as (tm & HM & _ & HS' & _). apply jmembers_length in HM. apply sub_at_length in HS'; [|intros Y; apply app_eq_nil in Y as [_ Y]; discriminate]. len. lia. }
      rewrite EQ. cbn [bind app]. exists q. split; [reflexivity|]. split; [eapply moved_trans; [exact M1|exact MQ]|exact FQ].
  Qed.

  Lemma map_ok : forall (P : parser) ms xs, Forall2 (reads_member P) ms xs ->
    forall buf p t j, wf buf p -> N.of_nat (length buf) < 2^32 -> jtext str_body (JObj ms) t -> sub_at buf (first p) t ->
      ws_run buf (first p + length t) j (last p) ->
      exists q, parse_value_keyvalue g P buf p = Ok (VMap xs, q) /\ moved p q /\ first q = j.
  Proof. intros P ms xs HR. apply map_inside. clear - HR. induction HR as [|m kx ms xs [A B] _ IH]; constructor; auto. split; [exact A|now apply reads_reads_inside]. Qed.

  Lemma reads_map : forall t ms xs, Forall2 (reads_member (parse_value g t)) ms xs -> reads g (parse_value g (TMap t)) (JObj ms) (VMap xs).
  Proof.
    intros ty ms xs HR. apply reads_bracketed; auto; [right; eauto|]. intros known buf p t j HW H32 HT HS HF. cbn [parse_value].
    pose proof (followed_le _ _ _ _ _ HF) as FL.
    destruct (map_ok _ _ _ HR buf p t j HW H32 HT HS (followed_ws_run _ _ _ _ HF)) as (q & E & M & F). exists q. split; [exact E|]. split; [exact M|]. lia.
  Qed.

  (** ** Classes *)

  Lemma reads_class : forall exact mm js xs,
    fits g exact (map (fun m => mkmember (fst m) (is_nullable (snd m)) (parse_value g (snd m))) mm) js xs ->
    reads g (parse_value g (TClass exact mm)) (JObj js) (VClass xs).
  Proof.
    intros exact mm js xs HFit. apply reads_bracketed; auto; [right; eauto|]. intros known buf p t j HW H32 HT HS HF. cbn [parse_value].
    pose proof (followed_le _ _ _ _ _ HF) as FL. unfold parse_value_class.
    destruct (class_ok g exact _ js xs HX HE HFit buf p t j HW H32 HT HS (followed_ws_run _ _ _ _ HF)) as (q & E & M & F).
    destruct (jtext_head _ _ _ HT) as (c & r & -> & _). cbn [length] in *.
    unfold has_more. replace (first p <? last p)%nat with true by lia. cbn [ensure bind].
    rewrite E. cbn [bind]. destruct known.
    - exists q. split; [reflexivity|]. split; [exact M|]. lia.
    - assert (LQ : last q = last p) by apply M.
      rewrite (trim_followed buf q j (proj1 HW)) by (rewrite F, LQ; eapply followed_at_j; eauto). cbn [bind].
      eexists. split; [reflexivity|]. split; [eapply moved_trans; [exact M|repeat split]|]. cbn [first set_first]. lia.
  Qed.

  (** ** Tuples *)

  Lemma move_next_elem : forall buf p e rest, is_bytes buf -> at_elem buf (first p) e rest -> move_next buf p = Ok p.
  Proof.
    intros buf p e rest HB HA. destruct (at_elem_byte _ _ _ _ HA) as (b & Hb & Eb).
    assert (32 < b /\ b <> 44) as [B1 B2] by (destruct rest; unfold starter in *; lia).
    unfold move_next, move_next_member_or_end, move_next_member_or_end_checked.
    rewrite (trim_here buf p b) by auto. cbn [bind].
    rewrite (is_at_no buf p b) by auto. reflexivity.
  Qed.

  Lemma elements_inside : forall buf e l, N.of_nat (length buf) < 2^32 -> (e < l)%nat ->
    forall Ps es xs es2 p, Forall2 (fun P vx => reads_inside g P (fst vx) (snd vx)) Ps (combine es xs) -> length es = length xs ->
      wf buf p -> last p = l -> at_elem buf (first p) e (es ++ es2) ->
      exists q, parse_elements Ps buf p = Ok (xs, q) /\ moved p q /\ (first q <= e)%nat /\ at_elem buf (first q) e es2.
  Proof.
    intros buf e l H32 HL. induction Ps as [|P Ps IH]; intros es xs es2 p HR HLen HW HLp HA.
    - destruct es as [|v es]; destruct xs as [|x xs]; try discriminate HLen; [|inversion HR].
      cbn [parse_elements app] in *. exists p. split; [reflexivity|]. split; [apply moved_refl|]. split; [apply (at_elem_end _ _ _ _ HA)|exact HA].
    - destruct es as [|v es]; destruct xs as [|x xs]; try discriminate HLen; [inversion HR|].
      cbn [combine] in HR. inversion HR as [|? ? ? ? R1 R2]; subst. cbn [fst snd] in R1. cbn [parse_elements app] in *.
      pose proof (at_elem_end _ _ _ _ HA) as [LE BE]. pose proof HW as (HB & HN & HLp' & cl & HC & HCL).
      assert (HM : has_more p = true) by (unfold has_more; apply Nat.ltb_lt; lia). rewrite HM. cbn [ensure bind].
      destruct (at_elem_cons _ _ _ _ _ HA) as (t & Ht & HS & HRem).
      destruct (rem_e_followed _ _ _ _ (last p) HRem HL) as (j1 & FJ & JE & JB & RJ).
      destruct (proj1 R1 buf p t j1 HW H32 Ht HS FJ) as (q & EQ & MQ & LQ); [pose proof (followed_le _ _ _ _ _ FJ); lia|]. rewrite EQ. cbn [bind].
      assert (LQl : last q = last p) by apply MQ.
      destruct (move_next_rem_e buf q e (es ++ es2) HB) as (i & EM & LI & AI); [apply RJ; lia|lia|].
      rewrite EM. cbn [bind]. pose proof (at_elem_end _ _ _ _ AI) as [LIE _].
      assert (MM : moved p (set_first q i)) by (eapply moved_trans; [exact MQ|repeat split]).
      destruct (IH es xs es2 (set_first q i)) as (q2 & E2 & M2 & F2 & A2); auto.
      + eapply moved_wf; [exact MM|exact HW|]. cbn [first last set_first]. lia.
      + rewrite E2. cbn [bind]. exists q2. split; [reflexivity|]. split; [eapply moved_trans; [exact MM|exact M2]|]. auto.
  Qed.

  Definition no_array (v : jv) : Prop := match v with JArr _ => False | _ => True end.

  Lemma no_array_head : forall v t, jtext str_body v t -> no_array v -> exists c r, t = c :: r /\ c <> 91.
  Proof.
    intros v t HT NA. destruct (jtext_head _ _ _ HT) as (c & r & -> & _). exists c, r. split; [reflexivity|]. intros ->.
    inversion HT as [| | |n HJ| | | | |]; subst; try exact NA.
    inversion HJ as [sg i f e Hsg (Di & Ni & _) Hf He E].
    destruct Hsg as [->| ->]; cbn in E; [|discriminate]. destruct i as [|d i]; [congruence|]. cbn in E. injection E as -> _.
    inversion Di; subst. unfold is_dig in *. lia.
  Qed.

  Lemma tuple_inside : forall exact Ps es xs es2, Forall2 (fun P vx => reads_inside g P (fst vx) (snd vx)) Ps (combine es xs) -> length es = length xs ->
    (exact = true -> es2 = []) -> (forall v, hd_error es2 = Some v -> no_array v) ->
    forall buf p t j, wf buf p -> N.of_nat (length buf) < 2^32 -> jtext str_body (JArr (es ++ es2)) t -> sub_at buf (first p) t ->
      ws_run buf (first p + length t) j (last p) ->
      exists q, parse_tuple g exact Ps buf p = Ok (VTuple xs, q) /\ moved p q /\ (first p + length t <= first q <= j)%nat.
  Proof.
    intros exact Ps es xs es2 HR HLen HEx HNA buf p t j HW H32 HT HS HF. pose proof (ws_run_le _ _ _ _ HF) as FL.
    pose proof HW as (HB & HN & HLp & cl & HC & HCL).
    destruct (array_start buf (first p) _ t HT HS) as (w & c & S0 & W & S1 & C1 & C2 & LW & HA).
    unfold parse_tuple. rewrite (trim_here buf p 91) by (auto; lia). cbn [bind].
    rewrite is_at_yes by (auto; lia). cbn [ensure bind].
    set (p0 := remove_prefix (set_class p (Some (first p)) (Some (last p))) 1).
    assert (F0 : first p0 = S (first p)) by (unfold p0, remove_prefix; cbn [first set_first set_class]; lia).
    assert (L0 : last p0 = last p) by reflexivity.
    assert (EM : move_next buf p0 = Ok (set_first p0 (S (first p) + length w))).
    { unfold move_next, move_next_member_or_end, move_next_member_or_end_checked.
      rewrite (trim_to buf p0 w c); auto; [|rewrite F0; exact S1|rewrite F0, L0; lia]. cbn [bind]. rewrite F0.
      apply sub_at_app in S1 as [_ [S1 _]].
      rewrite (is_at_no buf _ c) by (cbn [first set_first]; auto). reflexivity. }
    rewrite EM. cbn [bind]. set (p1 := set_first p0 (S (first p) + length w)) in *.
    apply sub_at_app in S1 as [_ [S1 _]].
    rewrite (trim_here buf p1 c) by (auto; unfold p1; cbn [first set_first]; auto). cbn [bind].
    set (e := (first p + length t - 1)%nat) in *.
    assert (FE : ws_run buf (S e) j (last p)) by (replace (S e) with (first p + length t)%nat by (unfold e; lia); exact HF).
    pose proof (at_elem_end _ _ _ _ HA) as [LE BE].
    assert (EL : (e < last p)%nat) by (unfold e; lia).
    assert (W1 : wf buf p1).
    { split; auto. split; auto. split; [unfold p1, p0; cbn [first last set_first remove_prefix set_class]; lia|].
      exists (last p). split; [reflexivity|]. change (last p1) with (last p). lia. }
    destruct (elements_inside buf e (last p) H32 EL Ps es xs es2 p1 HR HLen W1 eq_refl HA) as (q & EQ & MQ & FQ & AQ).
    rewrite EQ. cbn [bind].
    assert (LQ : last q = last p) by apply MQ. assert (NQ : isnull q = isnull p) by apply MQ.
    assert (FIN : forall q', last q' = last q -> isnull q' = isnull q -> (first p + length t <= first q' <= j)%nat ->
      exists q0, Ok (VTuple xs, set_class q' (fst (cfirst p, clast p)) (snd (cfirst p, clast p))) = Ok (VTuple xs, q0) /\ moved p q0 /\ (first p + length t <= first q0 <= j)%nat).
    { intros q' Q1 Q2 Q3. eexists. split; [reflexivity|]. split; [|exact Q3]. cbn [fst snd]. split; [cbn [last set_class]; congruence|]. split; [reflexivity|]. split; [reflexivity|]. cbn [isnull set_class]. congruence. }
    destruct (at_elem_byte _ _ _ _ AQ) as (b & Hb & SB).
    destruct exact.
    - rewrite (HEx eq_refl) in *. subst b. rewrite (trim_here buf q 93) by (auto; lia). cbn [bind]. unfold front. rewrite (rd_some _ _ _ Hb). cbn [bind].
      change (93 =? c_rbrack) with true. cbn [ensure bind]. destruct AQ as [AQ _].
      rewrite (trim_left_run buf (remove_prefix q 1) j HB).
      2:{ unfold remove_prefix. cbn [first last set_first]. rewrite LQ, AQ. now replace (e + 1)%nat with (S e) by lia. }
      cbn [bind]. apply FIN; auto. cbn [first set_first]. lia.
    - rewrite HX. unfold skip_array.
      assert (LB32 : N.of_nat (length buf) < 4294967296) by exact H32.
      assert (T : exists tm n, sub_at buf (first q) (tm ++ [right_of false]) /\ e = (first q + length tm)%nat /\
        forall s, sub_at buf (b_i s) tm -> roomy (last q) s (length tm) ->
          runs (br_body CNone true ExConstexpr false buf (last q)) (fun s => (length buf - b_i s)%nat) s (add_cnt s n (b_i s + length tm))).
      { destruct es2 as [|m es2].
        - destruct AQ as [AQ1 AQ2]. exists [], O. split; [cbn; auto|]. split; [cbn; lia|]. intros s _ _. rewrite add_cnt_0. cbn [length]. rewrite Nat.add_0_r. destruct s; constructor.
        - destruct AQ as (c' & tm & HM & _ & HSq & EE). exists (c' :: tm), (length (m :: es2) - 1)%nat. split; [exact HSq|]. split; [exact EE|].
          intros s HSs RM. apply (proj1 (proj2 (run_values CNone true ExConstexpr false buf (last q) ltac:(discriminate) ltac:(lia)))); auto. }
      destruct T as (tm & n & TS & TE & RUN).
      assert (LBE : (e < length buf)%nat) by (apply nth_error_Some; congruence).
      destruct (skip_bracketed_inside CNone true ExConstexpr false buf q tm n b) as (r & ES); auto; try lia.
      { discriminate. }
      { cbn [left_of]. change c_lbrack with 91. destruct es2 as [|m es2]; [subst b; discriminate|].
        destruct (at_elem_cons _ _ _ _ _ AQ) as (tv & Htv & HSv & _). destruct (no_array_head m tv Htv (HNA m eq_refl)) as (c' & r' & -> & NC).
        destruct HSv as [HSv _]. congruence. }
      rewrite ES. cbn [bind]. apply FIN; auto. cbn [first set_first]. lia.
  Qed.

  Lemma list_inside : forall Ps l, Forall2 (fun P vx => reads g P (fst vx) (snd vx)) Ps l -> Forall2 (fun P vx => reads_inside g P (fst vx) (snd vx)) Ps l.
  Proof. intros Ps l. induction 1; constructor; auto. now apply reads_reads_inside. Qed.

  Lemma elements_ok : forall buf e l, N.of_nat (length buf) < 2^32 -> (e < l)%nat ->
    forall Ps es xs es2 p, Forall2 (fun P vx => reads g P (fst vx) (snd vx)) Ps (combine es xs) -> length es = length xs ->
      wf buf p -> last p = l -> at_elem buf (first p) e (es ++ es2) ->
      exists q, parse_elements Ps buf p = Ok (xs, q) /\ moved p q /\ (first q <= e)%nat /\ at_elem buf (first q) e es2.
  Proof. intros buf e l H32 HL Ps es xs es2 p HR. apply (elements_inside buf e l); auto. now apply list_inside. Qed.

  Lemma tuple_ok : forall exact Ps es xs es2, Forall2 (fun P vx => reads g P (fst vx) (snd vx)) Ps (combine es xs) -> length es = length xs ->
    (exact = true -> es2 = []) -> (forall v, hd_error es2 = Some v -> no_array v) ->
    forall buf p t j, wf buf p -> N.of_nat (length buf) < 2^32 -> jtext str_body (JArr (es ++ es2)) t -> sub_at buf (first p) t ->
      ws_run buf (first p + length t) j (last p) ->
      exists q, parse_tuple g exact Ps buf p = Ok (VTuple xs, q) /\ moved p q /\ (first p + length t <= first q <= j)%nat.
  Proof. intros exact Ps es xs es2 HR. apply tuple_inside. now apply list_inside. Qed.

  Lemma reads_tuple : forall exact ts es xs es2, Forall2 (fun P vx => reads g P (fst vx) (snd vx)) (map (parse_value g) ts) (combine es xs) ->
    length es = length xs -> (exact = true -> es2 = []) -> (forall v, hd_error es2 = Some v -> no_array v) ->
    reads g (parse_value g (TTuple exact ts)) (JArr (es ++ es2)) (VTuple xs).
  Proof.
    intros exact ts es xs es2 HR HLen HEx HNA. apply reads_bracketed; auto; [left; eauto|]. intros known buf p t j HW H32 HT HS HF.
    cbn [parse_value]. eapply tuple_ok; eauto using followed_ws_run.
  Qed.
End Cfg.
