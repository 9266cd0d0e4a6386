(** Parsing the members of a class: correctness on well-formed objects, for any
    order of the members. *)
From Coq Require Import List NArith ZArith Bool Lia Arith ZifyBool ZifyNat ZifyN.
From Verif Require Import Base Mem Loop PolicyModel IntModel StrScanModel SkipModel SpecNum SpecText SpecJson
  IntValueProofs StrScanProofs StrScanProofs2 StrScanProofs3 SkipProofs BracketProofs SkipSafe PropertiesStr PropertiesSkip
  HashModel PropertiesHash ValueModel NameProofs.
Import ListNotations.
Local Open Scope N_scope.

(** Everything but the position and the counter is as before. *)
Definition moved (p q : ps) : Prop :=
  last q = last p /\ cfirst q = cfirst p /\ clast q = clast p /\ isnull q = isnull p.

Lemma moved_refl : forall p, moved p p.
Proof. repeat split. Qed.
Lemma moved_trans : forall p q r, moved p q -> moved q r -> moved p r.
Proof. unfold moved. intros p q r (A & B & C & D) (E & F & G & H). repeat split; congruence. Qed.
Lemma moved_first : forall p i, moved p (set_first p i).
Proof. repeat split. Qed.
Lemma moved_wf : forall buf p q, moved p q -> wf buf p -> (first q <= last q)%nat -> wf buf q.
Proof.
  intros buf p q (A & B & C & D) (HB & HN & HL & cl & HC & HCL) L. split; auto. split; [congruence|]. split; [lia|].
  exists cl. split; [congruence|lia].
Qed.

Lemma followed_le : forall c buf e j l, followed c buf e j l -> (e <= j <= l)%nat.
Proof. intros c buf e j l (t & _ & _ & -> & L & _). lia. Qed.

(** ** The remaining members *)

(** [i] is the position after a member's value, [e] that of the closing brace. *)
Definition rem (buf : list N) (i e : nat) (rest : list (list N * jv)) : Prop :=
  match rest with
  | [] => exists w, ws w /\ sub_at buf i (w ++ [125]) /\ e = (i + length w)%nat
  | _ => exists w tm, ws w /\ jmembers str_body rest tm /\ sub_at buf i (w ++ 44 :: tm ++ [125]) /\
           e = (i + length w + 1 + length tm)%nat
  end.

(** [i] is the position of the next member's name, or of the closing brace. *)
Definition at_member (buf : list N) (i e : nat) (rest : list (list N * jv)) : Prop :=
  match rest with
  | [] => i = e /\ nth_error buf i = Some 125
  | _ => exists tm, jmembers str_body rest tm /\ nth_error tm 0 = Some 34 /\ sub_at buf i (tm ++ [125]) /\
           e = (i + length tm)%nat
  end.

Lemma jmembers_strip : forall ms tm, jmembers str_body ms tm ->
  exists w tm', ws w /\ tm = w ++ tm' /\ jmembers str_body ms tm' /\ nth_error tm' 0 = Some 34.
Proof.
  intros ms tm H. destruct H as [w1 k w2 w3 v t w4 H1 Hk H2 H3 Ht H4|w1 k w2 w3 v t w4 ms ts H1 Hk H2 H3 Ht H4 HM].
  - exists w1, ((34 :: k ++ [34]) ++ w2 ++ 58 :: w3 ++ t ++ w4). repeat split; auto.
    apply (m_one str_body [] k w2 w3 v t w4); auto. constructor.
  - exists w1, ((34 :: k ++ [34]) ++ w2 ++ 58 :: w3 ++ t ++ w4 ++ 44 :: ts). repeat split; auto.
    apply (m_cons str_body [] k w2 w3 v t w4); auto. constructor.
Qed.

Lemma jmembers_length : forall ms tm, jmembers str_body ms tm -> (length ms <= length tm)%nat.
Proof. induction 1; len; lia. Qed.

Lemma jmembers_nonempty : forall ms tm, jmembers str_body ms tm -> ms <> [].
Proof. destruct 1; discriminate. Qed.

Lemma ws_head : forall w c r x, ws w -> w ++ x = c :: r -> 32 < c -> w = [].
Proof.
  intros [|d w] c r x H E G; auto. cbn in E. injection E as -> _. inversion H as [|? ? W _]; subst. unfold json_ws in W. lia.
Qed.

Lemma at_member_cons : forall buf i e k v rest, at_member buf i e ((k, v) :: rest) ->
  exists w2 w3 t, str_body k /\ ws w2 /\ ws w3 /\ jtext str_body v t /\
    sub_at buf i (34 :: k ++ 34 :: w2 ++ 58 :: w3 ++ t) /\
    rem buf (i + length k + length w2 + length w3 + 3 + length t) e rest.
Proof.
  intros buf i e k v rest (tm & HM & H0 & HS & HE).
  inversion HM as [w1 k' w2 w3 v' t w4 H1 Hk H2 H3 Ht H4 E1 E2|w1 k' w2 w3 v' t w4 ms ts H1 Hk H2 H3 Ht H4 HM' E1 E2]; subst.
  - assert (w1 = []) as ->.
    { destruct w1 as [|d w1]; auto. cbn in H0. injection H0 as ->. inversion H1 as [|? ? W _]; subst. unfold json_ws in W. lia. }
    exists w2, w3, t. repeat split; auto.
    + destruct HS; auto.
    + destruct HS as [_ HS]. cbn [app] in HS.
      replace (((k ++ [34]) ++ w2 ++ 58 :: w3 ++ t ++ w4) ++ [125]) with ((k ++ 34 :: w2 ++ 58 :: w3 ++ t) ++ w4 ++ [125]) in HS
        by (repeat (rewrite <- ?app_assoc; cbn [app]); reflexivity).
      apply sub_at_app in HS. apply HS.
    + cbn [rem]. exists w4. split; auto.
      replace ([] ++ (34 :: k ++ [34]) ++ w2 ++ 58 :: w3 ++ t ++ w4) with ((34 :: k ++ 34 :: w2 ++ 58 :: w3 ++ t) ++ w4) in *
        by (repeat (rewrite <- ?app_assoc; cbn [app]); reflexivity).
      rewrite <- app_assoc in HS. apply sub_at_app in HS as [_ HS]. len.
      split; [|lia].
      match goal with H : sub_at buf ?a _ |- sub_at buf ?b _ => now replace b with a by lia end.
  - assert (w1 = []) as ->.
    { destruct w1 as [|d w1]; auto. cbn in H0. injection H0 as ->. inversion H1 as [|? ? W _]; subst. unfold json_ws in W. lia. }
    replace ([] ++ (34 :: k ++ [34]) ++ w2 ++ 58 :: w3 ++ t ++ w4 ++ 44 :: ts) with ((34 :: k ++ 34 :: w2 ++ 58 :: w3 ++ t) ++ w4 ++ 44 :: ts) in *
        by (repeat (rewrite <- ?app_assoc; cbn [app]); reflexivity).
    rewrite <- app_assoc in HS. apply sub_at_app in HS as [HS1 HS2].
    exists w2, w3, t. split; [assumption|]. split; [assumption|]. split; [assumption|]. split; [assumption|]. split; [assumption|].
    unfold rem. destruct rest as [|m rest]; [inversion HM'|]. exists w4, ts. split; [assumption|]. split; [assumption|]. len.
    split; [|lia].
    rewrite <- app_assoc in HS2. cbn [app] in HS2.
    match goal with H : sub_at buf ?a (w4 ++ _) |- sub_at buf ?b _ => now replace b with a by lia end.
Qed.

Lemma rem_end : forall buf i e rest, rem buf i e rest -> (i <= e)%nat /\ nth_error buf e = Some 125.
Proof.
  intros buf i e [|m rest].
  - intros (w & _ & HS & ->). split; [lia|]. apply sub_at_app in HS as [_ [HS _]]. exact HS.
  - intros (w & tm & _ & _ & HS & ->). split; [lia|].
    replace (w ++ 44 :: tm ++ [125]) with ((w ++ 44 :: tm) ++ [125]) in HS by (rewrite <- app_assoc; reflexivity).
    apply sub_at_app in HS as [_ [HS _]]. len.
    match goal with H : nth_error buf ?a = _ |- nth_error buf ?b = _ => now replace b with a by lia end.
Qed.

Lemma at_member_end : forall buf i e rest, at_member buf i e rest -> (i <= e)%nat /\ nth_error buf e = Some 125.
Proof.
  intros buf i e [|m rest].
  - intros (<- & H). split; [lia|exact H].
  - intros (tm & _ & _ & HS & ->). split; [lia|]. apply sub_at_app in HS as [_ [HS _]]. exact HS.
Qed.

Lemma at_member_byte : forall buf i e rest, at_member buf i e rest ->
  exists b, nth_error buf i = Some b /\ b = match rest with [] => 125 | _ => 34 end.
Proof.
  intros buf i e [|m rest].
  - intros (_ & H). eauto.
  - intros (tm & _ & H0 & HS & _). exists 34. split; [|reflexivity]. destruct tm as [|x tm]; [discriminate|]. cbn in H0. injection H0 as ->. apply HS.
Qed.

(** What follows a value inside an object. *)
Lemma rem_followed : forall buf i e rest l, rem buf i e rest -> (e < l)%nat ->
  exists j, followed true buf i j l /\ (j <= e)%nat /\ forall k, (i <= k <= j)%nat -> rem buf k e rest.
Proof.
  intros buf i e rest l HR HL.
  assert (X : exists w x, ws w /\ sub_at buf i (w ++ x :: []) /\ closer x /\ (i + length w <= e)%nat /\
     forall k, (i <= k <= i + length w)%nat -> rem buf k e rest).
  { assert (SK : forall w k z, ws w -> sub_at buf i (w ++ z) -> (i <= k <= i + length w)%nat ->
       exists w', ws w' /\ sub_at buf k (w' ++ z) /\ (k + length w' = i + length w)%nat).
    { intros w k z HW HS HK. exists (skipn (k - i) w). split; [|split].
      - unfold ws in *; apply Forall_forall. intros y Hy. rewrite Forall_forall in HW. apply HW.
        rewrite <- (firstn_skipn (k - i) w). apply in_or_app. now right.
      - rewrite <- (firstn_skipn (k - i) w), <- app_assoc in HS. apply sub_at_app in HS as [_ HS].
        rewrite firstn_length in HS. now replace (i + Nat.min (k - i) (length w))%nat with k in HS by lia.
      - rewrite skipn_length. lia. }
    destruct rest as [|m rest].
    - destruct HR as (w & HW & HS & ->). exists w, 125. split; [assumption|]. split; [assumption|]. split; [unfold closer; lia|].
      split; [lia|]. intros k HK. destruct (SK w k [125] HW HS HK) as (w' & W1 & W2 & W3). exists w'. repeat split; auto.
    - destruct HR as (w & tm & HW & HM & HS & ->). exists w, 44. split; [assumption|].
      assert (S' := HS). apply sub_at_app in S' as [S1 [S2 _]].
      split; [apply sub_at_app; cbn; auto|]. split; [unfold closer; lia|]. split; [lia|].
      intros k HK. destruct (SK w k _ HW HS HK) as (w' & W1 & W2 & W3). exists w', tm. split; [assumption|]. split; [assumption|]. split; [assumption|]. lia. }
  destruct X as (w & x & HW & HS & HC & HE & HK). exists (i + length w)%nat. split; [|split; [lia|exact HK]].
  apply sub_at_app in HS as [S1 [S2 _]]. exists w. repeat split; auto; [lia|]. right. split; [lia|]. eauto.
Qed.

Lemma move_next_rem : forall buf p e rest, is_bytes buf -> rem buf (first p) e rest -> (e < last p)%nat ->
  exists i, move_next buf p = Ok (set_first p i) /\ (first p <= i)%nat /\ at_member buf i e rest.
Proof.
  intros buf p e rest HB HR HL. unfold move_next, move_next_member_or_end, move_next_member_or_end_checked.
  destruct rest as [|m rest].
  - destruct HR as (w & HW & HS & ->). rewrite (trim_to buf p w 125 HB HW HS ltac:(lia) ltac:(lia)). cbn [bind].
    apply sub_at_app in HS as [_ [HS _]].
    rewrite (is_at_no buf _ 125) by (cbn [first set_first]; auto; discriminate). cbn [bind].
    exists (first p + length w)%nat. split; [reflexivity|]. split; [lia|]. split; auto.
  - destruct HR as (w & tm & HW & HM & HS & ->). apply sub_at_app in HS as [S1 [S2 S3]].
    rewrite (trim_to buf p w 44 HB HW) by (try lia; apply sub_at_app; cbn; auto). cbn [bind].
    rewrite is_at_yes by (cbn [first last set_first]; auto; lia). cbn [bind].
    destruct (jmembers_strip _ _ HM) as (w' & tm' & HW' & -> & HM' & H0).
    assert (TM : exists r, tm' = 34 :: r) by (destruct tm' as [|x r]; [discriminate|cbn in H0; injection H0 as ->; eauto]).
    destruct TM as (r & ->). rewrite <- app_assoc in S3. len.
    assert (S4 : sub_at buf (S (first p + length w)) (w' ++ [34])).
    { apply sub_at_app in S3 as [A [B _]]. apply sub_at_app. cbn. auto. }
    unfold remove_prefix. cbn [first set_first].
    rewrite (trim_to buf (set_first (set_first p (first p + length w)) (first p + length w + 1)) w' 34); auto; cbn [first last set_first]; try lia.
    2:{ now replace (first p + length w + 1)%nat with (S (first p + length w)) by lia. }
    exists (first p + length w + 1 + length w')%nat. split; [reflexivity|]. split; [lia|].
    exists (34 :: r). split; [assumption|]. split; [reflexivity|]. apply sub_at_app in S3 as [_ S3]. split; [|cbn [length]; lia].
    now replace (first p + length w + 1 + length w')%nat with (S (first p + length w) + length w')%nat by lia.
Qed.

Lemma move_next_here : forall buf p e rest, is_bytes buf -> at_member buf (first p) e rest ->
  move_next buf p = Ok p.
Proof.
  intros buf p e rest HB HA. destruct (at_member_byte _ _ _ _ HA) as (b & Hb & Eb).
  unfold move_next, move_next_member_or_end, move_next_member_or_end_checked.
  rewrite (trim_here buf p b) by (auto; destruct rest; lia). cbn [bind].
  rewrite (is_at_no buf p b) by (auto; unfold c_comma; destruct rest; lia). reflexivity.
Qed.

(** No mapped name is repeated. *)
Definition once (names : list (list N)) (js : list (list N * jv)) : Prop :=
  forall k, In k names -> (count_occ (list_eq_dec N.eq_dec) (map fst js) k <= 1)%nat.

Lemma once_mid : forall names a k v b, once names (a ++ (k, v) :: b) -> In k names -> ~ In k (map fst a) /\ ~ In k (map fst b).
Proof.
  intros names a k v b HO HK. specialize (HO k HK). rewrite map_app, count_occ_app in HO. cbn [map fst] in HO.
  rewrite count_occ_cons_eq in HO by reflexivity.
  split; intros HI; apply (count_occ_In (list_eq_dec N.eq_dec)) in HI; lia.
Qed.

(** ** Ranges of skipped members *)

Section Cfg.
  Context (g : cfg).
  Hypothesis HX : c_ex g = ExConstexpr.
  Hypothesis HE : c_excl g = false.

  (** [i] is not at the start of the document and not behind a quote. *)
  Definition behind (buf : list N) (i : nat) : Prop :=
    exists k b, i = S k /\ nth_error buf k = Some b /\ b <> 34.

  Lemma behind_ok : forall buf i a w c, sub_at buf i (a ++ 58 :: w ++ [c]) -> ws w -> behind buf (i + length a + 1 + length w).
  Proof.
    intros buf i a w c HS W. destruct w as [|x w] using rev_ind.
    - exists (i + length a)%nat, 58. split; [cbn; lia|]. split; [|discriminate]. apply sub_at_app in HS as [_ [HS _]]. exact HS.
    - clear IHw. exists (i + length a + 1 + length w)%nat, x. split; [len; lia|].
      replace (a ++ 58 :: (w ++ [x]) ++ [c]) with ((a ++ 58 :: w) ++ x :: [c]) in HS by (repeat (rewrite <- ?app_assoc; cbn [app]); reflexivity).
      apply sub_at_app in HS as [_ [HS _]]. unfold ws in W. apply Forall_app in W as [_ W]. inversion W as [|? ? D _]; subst. unfold json_ws in D.
      split; [|lia]. len. match goal with H : nth_error buf ?a = _ |- nth_error buf ?b = _ => now replace b with a by lia end.
  Qed.

  (** [r] is the range found by skipping a text of [v] that follows a member
      name. *)
  Definition located (buf : list N) (v : jv) (r : ps) : Prop :=
    exists p t j q, wf buf p /\ jtext str_body v t /\ sub_at buf (first p) t /\
      followed true buf (first p + length t) j (last p) /\ skip_val g buf p = Ok (r, q) /\ behind buf (first p).

  (** What is asked of the parser of one type, for a document value [v] that
      stands for [x]. *)
  Definition reads (P : parser) (v : jv) (x : val) : Prop :=
    (forall buf p t j, wf buf p -> N.of_nat (length buf) < 2^32 -> jtext str_body v t -> sub_at buf (first p) t ->
       followed true buf (first p + length t) j (last p) ->
       exists q, P false buf p = Ok (x, q) /\ moved p q /\ (first p + length t <= first q <= j)%nat) /\
    (v <> JNull -> forall buf r, N.of_nat (length buf) < 2^32 -> located buf v r -> exists q, P true buf r = Ok (x, q)).

  (** The same where the value is not the last thing in the range *)
  Definition reads_inside (P : parser) (v : jv) (x : val) : Prop :=
    (forall buf p t j, wf buf p -> N.of_nat (length buf) < 2^32 -> jtext str_body v t -> sub_at buf (first p) t ->
       followed true buf (first p + length t) j (last p) -> (first p + length t < last p)%nat ->
       exists q, P false buf p = Ok (x, q) /\ moved p q /\ (first p + length t <= first q <= j)%nat) /\
    (v <> JNull -> forall buf r, N.of_nat (length buf) < 2^32 -> located buf v r -> exists q, P true buf r = Ok (x, q)).

  Lemma reads_reads_inside : forall P v x, reads P v x -> reads_inside P v x.
  Proof. intros P v x [A B]. split; auto. Qed.

  Ltac inv H := match type of H with
    | bind ?e _ = Ok _ => let E := fresh "E" in destruct e eqn:E; cbn [bind] in H; try discriminate H
    end.

  Lemma skip_isnull : forall buf p r q, skip_val g buf p = Ok (r, q) ->
    (forall c, nth_error buf (first p) = Some c -> c <> 110) -> isnull r = isnull p.
  Proof.
    intros buf p r q H NN. unfold skip_val, skip_value in H. inv H. unfold front in H. cbn [first set_counter] in H. inv H.
    apply rd_ok_nth in E0. specialize (NN _ E0).
    destruct (a0 =? c_quote).
    { unfold skip_string in H. destruct (ps_empty (set_counter p 0)); [injection H as <- _; reflexivity|].
      inv H. inv H. inv H. inv H. destruct a4 as [r' q']. injection H as <- _. unfold skip_string_nq in E4. inv E4. destruct a4 as [n s].
      inv E4. injection E4 as <- _. reflexivity. }
    assert (BR : forall o, skip_bracketed CNone true (c_ex g) o buf (set_counter p 0) = Ok (r, q) -> isnull r = isnull p).
    { intros o HB. unfold skip_bracketed in HB.
      destruct (true && (last (set_counter p 0) <=? first (set_counter p 0))%nat); [injection HB as <- _; reflexivity|].
      inv HB. inv HB. destruct a2. injection HB as <- _. reflexivity. }
    destruct (a0 =? c_lbrack); [eapply BR; exact H|]. destruct (a0 =? c_lbrace); [eapply BR; exact H|].
    assert (BO : forall rest rs vl, skip_bool CNone true rest rs vl buf (set_counter p 0) = Ok (r, q) -> isnull r = isnull p).
    { intros rest rs vl HB. unfold skip_bool in HB. inv HB. inv HB. inv HB. injection HB as <- _. reflexivity. }
    destruct (a0 =? c_t); [eapply BO; exact H|]. destruct (a0 =? c_f); [eapply BO; exact H|].
    replace (a0 =? c_n) with false in H by (unfold c_n; lia).
    destruct ((a0 =? c_minus) || ((48 <=? a0) && (a0 <=? 57))); [|discriminate].
    unfold skip_number in H. inv H. inv H. inv H. inv H. destruct a4 as [d i]. inv H. destruct a4 as [x y]. injection H as <- _. reflexivity.
  Qed.

  Lemma jtext_not_n : forall v t buf i, jtext str_body v t -> sub_at buf i t -> v <> JNull ->
    forall c, nth_error buf i = Some c -> c <> 110.
  Proof.
    intros v t buf i HT HS NV c Hc.
    assert (X : exists r, t = c :: r).
    { destruct t as [|x r]; [destruct (jtext_head _ _ _ HT) as (? & ? & ? & _); discriminate|]. destruct HS. exists r. congruence. }
    destruct X as (r & ->). inversion HT as [| | |n HJ| | | | |]; subst; try discriminate; try congruence.
    inversion HJ as [sg i' f e Hsg (Di & Ni & _) Hf He E].
    assert (c = 45 \/ is_dig c); [|unfold is_dig in *; lia].
    destruct Hsg as [->| ->]; cbn in E; [|injection E as <- _; auto]. destruct i' as [|d i']; [congruence|]. cbn in E. injection E as <- _.
    inversion Di; auto.
  Qed.

  Lemma skip_here : forall buf p v t j, wf buf p -> N.of_nat (length buf) < 2^32 -> jtext str_body v t -> sub_at buf (first p) t ->
    followed true buf (first p + length t) j (last p) -> (v = JNull -> (first p + 4 < last p)%nat) ->
    exists r q, skip_val g buf p = Ok (r, q) /\ moved p q /\ (first p + length t <= first q <= j)%nat /\
      (v = JNull -> isnull r = true) /\ (v <> JNull -> isnull r = false /\ (behind buf (first p) -> located buf v r)).
  Proof.
    intros buf p v t j HW H32 HT HS HF HN.
    pose proof (followed_le _ _ _ _ _ HF) as FL.
    assert (LT : N.of_nat (length t) < 2^32).
    { destruct HW as (_ & _ & HL & _). lia. }
    destruct (C17_skip_value_partial CNone true ExConstexpr false buf p v t j ltac:(discriminate) HW HT HS LT HF HN) as (r & E & D).
    exists r. eexists. unfold skip_val. rewrite HX, HE. split; [exact E|]. split; [|split; [|split]].
    - repeat split.
    - cbn [first set_first]. unfold stands. destruct (is_word v); lia.
    - intros ->. apply D.
    - intros NV. assert (SV : skip_val g buf p = Ok (r, set_first (set_counter p 0) (stands v (first p + length t) j)))
        by (unfold skip_val; rewrite HX, HE; exact E).
      split.
      + rewrite (skip_isnull buf p r _ SV); [apply HW|]. eapply jtext_not_n; eauto.
      + intros HBh. exists p, t, j. eexists. split; [exact HW|]. split; [exact HT|]. split; [exact HS|]. split; [exact HF|]. split; [exact SV|exact HBh].
  Qed.

  (** ** Looking for a member *)

  Context (names : list (list N)).
  Hypothesis NDN : NoDup names.
  Context (exact : bool).
  Context (buf : list N).
  Hypothesis H32 : N.of_nat (length buf) < 2^32.

  (** The lookup does not confuse [key] with a mapped name. *)
  Definition tells (key : list N) : Prop :=
    full_name_match (c_force g) names = true \/
    forall nm, In nm names -> name_hash false nm = name_hash false key -> nm = key.

  Lemma find_name_out : forall pos key, tells key -> (forall m, (pos <= m)%nat -> nth_error names m <> Some key) ->
    (length names <= find_name (c_force g) false names pos key)%nat.
  Proof.
    intros pos key HT HM. destruct (Nat.le_gt_cases (length names) (find_name (c_force g) false names pos key)) as [L|L]; auto.
    exfalso. destruct (nth_error names (find_name (c_force g) false names pos key)) as [nm|] eqn:E;
      [|apply nth_error_None in E; lia].
    destruct (find_name_hash _ _ _ _ _ _ E) as (A & B & C).
    assert (nm = key) by (destruct HT as [HT|HT]; [symmetry; auto|apply HT; auto; eapply nth_error_In; eauto]).
    subst. apply (HM _ A). exact E.
  Qed.

  Fixpoint assoc (k : list N) (l : list (list N * jv)) : option jv :=
    match l with
    | [] => None
    | (k', v) :: r => if list_eq_dec N.eq_dec k' k then Some v else assoc k r
    end.

  Lemma assoc_app : forall k a b, assoc k (a ++ b) = match assoc k a with Some v => Some v | None => assoc k b end.
  Proof. induction a as [|[k' v] a IH]; intros b; cbn [assoc app]; auto. destruct (list_eq_dec N.eq_dec k' k); auto. Qed.
  Lemma assoc_none : forall k a, ~ In k (map fst a) -> assoc k a = None.
  Proof. induction a as [|[k' v] a IH]; intros H; cbn in *; auto. destruct (list_eq_dec N.eq_dec k' k); [tauto|]. apply IH. tauto. Qed.
  Lemma assoc_some_in : forall k a v, assoc k a = Some v -> In k (map fst a).
  Proof.
    induction a as [|[k' v'] a IH]; intros v H; cbn in *; [discriminate|]. destruct (list_eq_dec N.eq_dec k' k); eauto.
  Qed.

  (** What the locations say, from member [pos] on, about the members passed. *)
  Definition locs_in (L : list N -> jv -> ps -> Prop) (pos : nat) (passed : list (list N * jv)) (locs : list ps) : Prop :=
    length locs = length names /\
    forall m nm, (pos <= m)%nat -> nth_error names m = Some nm ->
      match assoc nm passed with
      | None => isnull (nth m locs no_loc) = true
      | Some v => (v = JNull -> isnull (nth m locs no_loc) = true) /\
                  (v <> JNull -> isnull (nth m locs no_loc) = false /\ L nm v (nth m locs no_loc))
      end.
  Definition locs_ok : nat -> list (list N * jv) -> list ps -> Prop := locs_in (fun _ => located buf).

  Lemma set_nth_same : forall l i x, (i < length l)%nat -> nth i (set_nth l i x) no_loc = x.
  Proof. induction l as [|y l IH]; intros [|i] x L; cbn in *; try lia; auto. apply IH. lia. Qed.
  Lemma set_nth_other : forall l i k x, i <> k -> nth k (set_nth l i x) no_loc = nth k l no_loc.
  Proof. induction l as [|y l IH]; intros [|i] [|k] x L; cbn in *; try lia; auto. Qed.
  Lemma set_nth_length : forall l i x, length (set_nth l i x) = length l.
  Proof. induction l as [|y l IH]; intros [|i] x; cbn; auto. Qed.

  (** Conditions on the names still to come. *)
  Definition rest_ok (pos : nat) (passed rest : list (list N * jv)) : Prop :=
    once names (passed ++ rest) /\ Forall (fun k => name_ok g k /\ tells k) (map fst rest) /\
    (exact = true -> forall k, In k (map fst rest) -> exists m, (pos <= m)%nat /\ nth_error names m = Some k).

  Lemma rest_ok_step : forall pos passed kv rest, rest_ok pos passed (kv :: rest) -> rest_ok pos (passed ++ [kv]) rest.
  Proof.
    intros pos passed kv rest (A & B & C). split; [|split].
    - now rewrite <- app_assoc.
    - now inversion B.
    - intros HEx k Hk. apply C; auto. now right.
  Qed.

  Lemma front_member : forall p e rest, at_member buf (first p) e rest ->
    front buf p = Ok (match rest with [] => 125 | _ => 34 end).
  Proof. intros p e rest HA. destruct (at_member_byte _ _ _ _ HA) as (b & Hb & ->). unfold front. now apply rd_some. Qed.

  Definition found_in (L : list N -> jv -> ps -> Prop) (pos : nat) (e : nat) (passed : list (list N * jv)) (p : ps) (locs : list ps)
    (all : list (list N * jv)) : Prop :=
    exists nm v t rest', nth_error names pos = Some nm /\ passed ++ (nm, v) :: rest' = all /\ jtext str_body v t /\
      sub_at buf (first p) t /\ rem buf (first p + length t) e rest' /\ isnull (nth pos locs no_loc) = false /\
      locs_in L (S pos) (passed ++ [(nm, v)]) locs.
  Definition found_at : nat -> nat -> list (list N * jv) -> ps -> list ps -> list (list N * jv) -> Prop := found_in (fun _ => located buf).

  (** [K] is kept by every step, [L] is what is known about skipped values. *)
  (** Before the member [k] not all of those mapped before it have been there. *)
  Definition overtakes (all : list (list N * jv)) (k : list N) : Prop :=
    exists a v b pos m nm, all = a ++ (k, v) :: b /\ (pos < m)%nat /\ nth_error names pos = Some nm /\ nth_error names m = Some k /\
      (assoc nm a = None \/ assoc nm a = Some JNull).

  Lemma find_loop_in : forall (K : ps -> Prop) (L : list N -> jv -> ps -> Prop) (all : list (list N * jv)), (forall p q, moved p q -> K p -> K q) ->
    (forall p k v t j r q, overtakes all k -> K p -> wf buf p -> jtext str_body v t -> sub_at buf (first p) t ->
      followed true buf (first p + length t) j (last p) -> skip_val g buf p = Ok (r, q) -> behind buf (first p) -> v <> JNull -> L k v r) ->
    forall pos e, (pos < length names)%nat ->
    forall rest p locs passed fuel, passed ++ rest = all -> (length rest < fuel)%nat -> K p ->
    wf buf p -> (e < last p)%nat -> at_member buf (first p) e rest -> rest_ok pos passed rest -> locs_in L pos passed locs ->
    isnull (nth pos locs no_loc) = true ->
    exists p' locs', loop (find_body g exact names pos buf) fuel (p, locs) = Ok (p', locs') /\
      moved p p' /\ (first p <= first p' <= e)%nat /\
      ((exists d, found_in L pos e (passed ++ d) p' locs' (passed ++ rest)) \/
       (at_member buf (first p') e [] /\ isnull (nth pos locs' no_loc) = true /\ locs_in L pos (passed ++ rest) locs')).
  Proof.
    intros K L all HK HKL pos e HP. induction rest as [|[k v] rest IH]; intros p locs passed fuel HA0 HF KP HW HL HA HR HLo HM; (destruct fuel as [|fuel]; [lia|]); cbn [loop].
    - unfold find_body. rewrite HM. pose proof HW as (HB & HN & HLp & _).
      assert (PE : ps_empty p = false).
      { unfold ps_empty. rewrite HN. cbn [orb]. destruct HA as [-> _]. lia. }
      rewrite PE, (front_member p e []) by exact HA. cbn [bind]. change (125 =? c_rbrace) with true. cbn [negb bind].
      exists p, locs. split; [reflexivity|]. split; [apply moved_refl|]. destruct HA as [-> HA].
      split; [lia|]. right. rewrite app_nil_r. split; [split; [reflexivity|assumption]|]. auto.
    - unfold find_body at 1. rewrite HM. pose proof HW as (HB & HN & HLp & cl & HC & HCL).
      pose proof (at_member_end _ _ _ _ HA) as [LE _].
      assert (PE : ps_empty p = false).
      { unfold ps_empty. rewrite HN. cbn [orb]. lia. }
      rewrite PE, (front_member p e ((k, v) :: rest)) by exact HA. cbn [bind]. change (34 =? c_rbrace) with false. cbn [negb bind].
      destruct (at_member_cons _ _ _ _ _ _ HA) as (w2 & w3 & t & Hk & H2 & H3 & Ht & HS & HRem).
      destruct (jtext_head _ _ _ Ht) as (c & tr & Et & SC).
      pose proof (rem_end _ _ _ _ HRem) as [RL _].
      set (i1 := (first p + length k + length w2 + length w3 + 3)%nat) in *.
      destruct HR as (ND & FO & EX).
      pose proof (Forall_inv FO) as [NOk TK]. cbn [fst] in NOk, TK.
      assert (S1 : sub_at buf (first p) (34 :: k ++ 34 :: w2 ++ 58 :: w3 ++ [c]) /\ sub_at buf i1 t).
      { split.
        - subst t. replace (34 :: k ++ 34 :: w2 ++ 58 :: w3 ++ c :: tr) with ((34 :: k ++ 34 :: w2 ++ 58 :: w3 ++ [c]) ++ tr) in HS
            by (repeat (rewrite <- ?app_assoc; cbn [app]); reflexivity).
          apply sub_at_app in HS. apply HS.
        - replace (34 :: k ++ 34 :: w2 ++ 58 :: w3 ++ t) with ((34 :: k ++ 34 :: w2 ++ 58 :: w3) ++ t) in HS
            by (repeat (rewrite <- ?app_assoc; cbn [app]); reflexivity).
          apply sub_at_app in HS as [_ HS]. unfold i1. len.
          match goal with H : sub_at buf ?a t |- sub_at buf ?b _ => now replace b with a by lia end. }
      destruct S1 as [SN ST].
      assert (LBK : N.of_nat (length k) < 2^64).
      { change (2^64) with 18446744073709551616. change (2^32) with 4294967296 in H32. lia. }
      rewrite (parse_name_ok g buf p k w2 w3 c HX HE HW NOk H2 H3 SN (proj1 SC)); [|unfold i1 in RL; lia|exact LBK].
      fold i1. cbn [bind].
      assert (W1 : wf buf (set_first p i1)).
      { apply (moved_wf buf p); [apply moved_first|exact HW|]. cbn [first last set_first]. lia. }
      destruct (rem_followed _ _ _ _ (last p) HRem HL) as (j & FJ & JE & RJ).
      assert (SKIP : exists r q, skip_val g buf (set_first p i1) = Ok (r, q) /\ moved p q /\ (i1 + length t <= first q <= j)%nat /\
        (v = JNull -> isnull r = true) /\ (v <> JNull -> isnull r = false /\ (overtakes all k -> L k v r))).
      { destruct (skip_here buf (set_first p i1) v t j W1 H32 Ht ST FJ) as (r & q & A & B & C & D & F).
        - intros ->. assert (L4 : length t = 4%nat) by (inversion Ht; reflexivity). cbn [first last set_first]. lia.
        - exists r, q. repeat split; auto; try apply B; try apply C; [apply F; auto|].
          intros N0. apply (HKL (set_first p i1) k v t j r q); auto; [apply (HK p); [apply moved_first|exact KP]|].
          cbn [first set_first]. unfold i1.
          replace (34 :: k ++ 34 :: w2 ++ 58 :: w3 ++ [c]) with ((34 :: k ++ 34 :: w2) ++ 58 :: w3 ++ [c]) in SN
            by (repeat (rewrite <- ?app_assoc; cbn [app]); reflexivity).
          apply behind_ok in SN; auto. len.
          match goal with H : behind buf ?a |- behind buf ?b => now replace b with a by lia end. }
      assert (NEXT : forall q, moved p q -> (i1 + length t <= first q <= j)%nat ->
        exists q', move_next buf q = Ok q' /\ moved p q' /\ (first p <= first q' <= e)%nat /\ at_member buf (first q') e rest /\ wf buf q' /\ K q').
      { intros q MQ LQ. destruct (move_next_rem buf q e rest HB) as (i2 & E2 & L2 & A2).
        - apply RJ. exact LQ.
        - rewrite (proj1 MQ). exact HL.
        - exists (set_first q i2). split; [exact E2|]. assert (MQ' : moved p (set_first q i2)) by (eapply moved_trans; [exact MQ|apply moved_first]).
          split; [exact MQ'|]. pose proof (at_member_end _ _ _ _ A2) as [L3 _]. cbn [first set_first]. split; [unfold i1 in *; lia|]. split; [exact A2|].
          split; [|apply (HK p); assumption]. apply (moved_wf buf p); auto. cbn [first last set_first]. rewrite (proj1 MQ). lia. }
      assert (ST2 : rest_ok pos (passed ++ [(k, v)]) rest).
      { apply rest_ok_step. split; [exact ND|]. split; [exact FO|exact EX]. }
      assert (ASK : forall nm, assoc nm (passed ++ [(k, v)]) = match assoc nm passed with Some y => Some y | None => if list_eq_dec N.eq_dec k nm then Some v else None end).
      { intros nm. rewrite assoc_app. destruct (assoc nm passed); auto. }
      set (kk := find_name (c_force g) false names pos k).
      destruct (Nat.leb_spec (length names) kk) as [OUT|INN].
      + (* not mapped, or already seen *)
        assert (NM : forall m, (pos <= m)%nat -> nth_error names m <> Some k).
        { intros m Hm E. pose proof (C35_mapped_name_found (c_force g) false names pos m k NDN E Hm) as X. fold kk in X.
          assert (m < length names)%nat by (apply nth_error_Some; congruence). lia. }
        assert (EXF : exact = false).
        { destruct exact; auto. exfalso. destruct (EX eq_refl k) as (m & Hm & E); [now left|]. exact (NM m Hm E). }
        rewrite EXF. destruct SKIP as (r & q & E1 & MQ & LQ & _). rewrite E1. cbn [bind].
        destruct (NEXT q MQ LQ) as (q' & E2 & MQ' & LQ' & A2 & WQ' & KQ'). rewrite E2. cbn [bind]. rewrite <- EXF.
        destruct (IH q' locs (passed ++ [(k, v)]) fuel ltac:(rewrite <- app_assoc; exact HA0)) as (p' & locs' & EL & MP & LP & RES); auto.
        * cbn [length] in HF. lia.
        * rewrite (proj1 MQ'). exact HL.
        * destruct HLo as [LL HLo]. split; [exact LL|]. intros m nm Hm Enm. specialize (HLo m nm Hm Enm). rewrite ASK.
          destruct (assoc nm passed); auto. destruct (list_eq_dec N.eq_dec k nm) as [->|_]; auto. exfalso. exact (NM m Hm Enm).
        * exists p', locs'. split; [exact EL|]. split; [eapply moved_trans; eauto|]. split; [lia|].
          rewrite <- app_assoc in RES. destruct RES as [(d & RES)|RES]; [left; exists ((k, v) :: d)|right; exact RES].
          rewrite <- app_assoc in RES. exact RES.
      + assert (Enk : nth_error names kk = Some k).
        { destruct (nth_error names kk) as [nm|] eqn:E; [|apply nth_error_None in E; lia]. f_equal.
          destruct (find_name_hash _ _ _ _ _ _ E) as (A & B & C).
          destruct TK as [TK|TK]; [symmetry; auto|apply TK; auto; eapply nth_error_In; eauto]. }
        assert (GE : (pos <= kk)%nat) by (eapply find_name_hash; exact Enk).
        assert (AK : assoc k passed = None).
        { apply assoc_none. apply (once_mid names passed k v rest ND). eapply nth_error_In; eauto. }
        destruct HLo as [LL HLo]. pose proof HLo as HLo'.
        destruct (Nat.eqb_spec kk pos) as [EQ|NE].
        * (* the member looked for *)
          cbn [bind]. eexists. eexists. split; [reflexivity|]. split; [apply moved_first|]. cbn [first set_first]. split; [unfold i1 in *; lia|].
          left. exists []. rewrite app_nil_r. exists k, v, t, rest. split; [now rewrite <- EQ|]. split; [reflexivity|]. split; [exact Ht|]. split; [exact ST|].
          split; [exact HRem|]. split.
          -- rewrite set_nth_same by lia. exact HN.
          -- split; [now rewrite set_nth_length|]. intros m nm Hm Enm. rewrite set_nth_other by lia. rewrite ASK.
             specialize (HLo m nm ltac:(lia) Enm). destruct (assoc nm passed); auto.
             destruct (list_eq_dec N.eq_dec k nm) as [<-|_]; auto.
             exfalso. rewrite NoDup_nth_error in NDN. assert (kk = m); [apply NDN; [lia|congruence]|lia].
        * (* another mapped member *)
          destruct SKIP as (r & q & E1 & MQ & LQ & RN & RV). rewrite E1. cbn [bind].
          destruct (NEXT q MQ LQ) as (q' & E2 & MQ' & LQ' & A2 & WQ' & KQ'). rewrite E2. cbn [bind].
          destruct (IH q' (set_nth locs kk r) (passed ++ [(k, v)]) fuel ltac:(rewrite <- app_assoc; exact HA0)) as (p' & locs' & EL & MP & LP & RES); auto.
          -- cbn [length] in HF. lia.
          -- rewrite (proj1 MQ'). exact HL.
          -- split; [now rewrite set_nth_length|]. intros m nm Hm Enm. rewrite ASK. specialize (HLo m nm Hm Enm).
             destruct (Nat.eq_dec m kk) as [->|Nm].
             ++ assert (nm = k) by congruence. subst nm. rewrite AK. destruct (list_eq_dec N.eq_dec k k); [|congruence].
                rewrite set_nth_same by lia. split; [exact RN|]. intros NV. split; [now apply RV|]. apply RV; auto.
                destruct (nth_error names pos) as [np|] eqn:Ep; [|apply nth_error_None in Ep; lia].
                exists passed, v, rest, pos, kk, np. split; [symmetry; exact HA0|]. split; [lia|]. split; [exact Ep|]. split; [exact Enk|].
                specialize (HLo' pos np (le_n _) Ep). destruct (assoc np passed) as [vp|]; [right|now left]. destruct HLo' as [_ HLo'].
                destruct vp; try reflexivity; (destruct HLo' as [Y _]; [discriminate|congruence]).
             ++ rewrite set_nth_other by lia. destruct (assoc nm passed); auto.
                destruct (list_eq_dec N.eq_dec k nm) as [<-|_]; auto.
                exfalso. apply Nm. rewrite NoDup_nth_error in NDN. apply NDN; [apply nth_error_Some; congruence|congruence].
          -- rewrite set_nth_other by lia. exact HM.
          -- exists p', locs'. split; [exact EL|]. split; [eapply moved_trans; eauto|]. split; [lia|].
             rewrite <- app_assoc in RES. destruct RES as [(d & RES)|RES]; [left; exists ((k, v) :: d)|right; exact RES].
          rewrite <- app_assoc in RES. exact RES.
  Qed.

  Lemma find_loop : forall pos e, (pos < length names)%nat ->
    forall rest p locs passed fuel, (length rest < fuel)%nat ->
    wf buf p -> (e < last p)%nat -> at_member buf (first p) e rest -> rest_ok pos passed rest -> locs_ok pos passed locs ->
    isnull (nth pos locs no_loc) = true ->
    exists p' locs', loop (find_body g exact names pos buf) fuel (p, locs) = Ok (p', locs') /\
      moved p p' /\ (first p <= first p' <= e)%nat /\
      ((exists d, found_at pos e (passed ++ d) p' locs' (passed ++ rest)) \/
       (at_member buf (first p') e [] /\ isnull (nth pos locs' no_loc) = true /\ locs_ok pos (passed ++ rest) locs')).
  Proof.
    intros pos e HP rest p locs passed fuel HF. apply (find_loop_in (fun _ => True) (fun _ => located buf) (passed ++ rest)); auto.
    intros q k v t j r q' _ _ W T S F E B _. exists q, t, j, q'. repeat split; auto; apply W.
  Qed.
End Cfg.
