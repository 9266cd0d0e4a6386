(** Skipping values on the document with comments and on the one with spaces in
    their place. *)
From Coq Require Import List NArith ZArith Bool Lia Arith ZifyBool ZifyNat ZifyN.
From Verif Require Import Base Mem Loop PolicyModel IntModel StrScanModel SkipModel SpecNum SpecText SpecJson SpecC
  IntProofs IntValueProofs StrScanProofs StrScanProofs2 SkipProofs SkipSafe GapProofs PropertiesStr PropertiesSkip ClassProofs
  ZInt CModel CLex CTrim CState.
Import ListNotations.
Local Open Scope N_scope.
Set Default Proof Using "All".

Section Two.
  Context (cp : pol) (D B : list N).
  Hypothesis T : two cp D B.

  Local Notation step := (step cp D B).
  Local Notation reach := (reach cp D B).
  Local Notation repeat_at := (repeat_at cp D B T).
  Local Notation comment_head := (comment_head cp D B T).
  Local Notation comment_len := (comment_len cp D B T).
  Local Notation reach_le := (reach_le cp D B T).
  Local Notation reach_trans := (reach_trans cp D B T).
  Local Notation reach_one := (reach_one cp D B T).
  Local Notation step_lt := (step_lt cp D B T).
  Local Notation step_byte := (step_byte cp D B T).
  Local Notation step_quote := (step_quote cp D B T).
  Local Notation reach_prev := (reach_prev cp D B T).
  Local Notation step_same := (step_same cp D B T).
  Local Notation same := (same cp).
  Local Notation same_eqb := (same_eqb cp D B T).
  Local Notation same_digit := (same_digit cp D B T).
  Local Notation step_prev := (step_prev cp D B T).
  Local Notation prev := (prev D B).
  Local Notation plainly := (plainly cp D B).
  Local Notation spaces := (spaces B).
  Local Notation step_plainly := (step_plainly cp D B T).
  Local Notation opening_spec := (opening_spec cp D B T).
  Local Notation LEN := (LEN cp D B T).
  Local Notation HBD := (HBD cp D B T).
  Local Notation HBBt := (HBBt cp D B T).
  Local Notation NCPt := (NCPt cp D B T).
  Local Notation H32 := (H32 cp D B T).
  Local Notation both := (both cp D B).
  Local Notation both_at := (both_at cp D B T).
  Local Notation same_pd := (same_pd cp D B T).
  Local Notation fin := (fin cp D B).
  Local Notation st := (st cp D B).
  Local Notation st_le := (st_le cp D B T).
  Local Notation st_wf := (st_wf cp D B T).
  Local Notation st_moved := (st_moved cp D B T).
  Local Notation st_both := (st_both cp D B T).
  Local Notation sp_front := (sp_front cp D B T).
  Local Notation sp_is_at := (sp_is_at cp D B T).
  Local Notation after_trim := (after_trim cp D B).
  Local Notation sp_trim := (sp_trim cp D B T).
  Local Notation st_step := (st_step cp D B T).
  Local Notation run_bytes := (run_bytes cp D B T).
  Local Notation st_bytes := (st_bytes cp D B T).
  Local Notation ended_plainly := (ended_plainly cp D B T).
  Local Notation sp_starts := (sp_starts cp D B T).
  Local Notation sp_after := (sp_after cp D B T).

  (** ** Recorded ranges *)

  Definition agree (i j : nat) : Prop := forall k, (i <= k < j)%nat -> nth_error D k = nth_error B k.

  (** A range inside quotes *)
  Definition instr (r : ps) : Prop := exists i s, isnull r = false /\ first r = S i /\ last r = (S i + length s)%nat /\ str_body s /\
    sub_at D i (34 :: s ++ [34]) /\ sub_at B i (34 :: s ++ [34]) /\ counter r = reported_escape s.

  Inductive rng (Q : nat -> Prop) (r : ps) : Prop :=
  | g_null : isnull r = true -> (last r <= first r)%nat -> rng Q r
  | g_str : instr r -> rng Q r
  | g_sc : forall b, isnull r = false -> Q (first r) -> prev (first r) -> (first r < last r <= length B)%nat -> agree (first r) (last r) ->
      nth_error B (first r) = Some b -> is_space b = false -> b <> 34 -> b <> 91 -> b <> 123 -> rng Q r
  | g_br : forall b, Q (first r) -> st r -> (first r < last r)%nat -> nth_error B (first r) = Some b -> b = 91 \/ b = 123 -> rng Q r.

  Definition skipped (Q : nat -> Prop) (p : ps) (rq : ps * ps) : Prop := rng Q (fst rq) /\ st (snd rq) /\ moved p (snd rq).

  (** ** Numbers *)

  Definition nbs (c : N) : Prop := nb c /\ is_space c = false /\ c <> 91.
  Definition nums (i j : nat) : Prop := exists u, j = (i + length u)%nat /\ sub_at B i u /\ Forall nbs u.

  Lemma nums_refl : forall i, nums i i.
  Proof. intros i. exists []. cbn. split; [lia|]. split; [exact I|constructor]. Qed.

  Lemma nums_trans : forall i j k, nums i j -> nums j k -> nums i k.
  Proof.
    intros i j k (u & -> & S1 & F1) (v & -> & S2 & F2). exists (u ++ v). rewrite app_length. split; [lia|]. split; [apply sub_at_app; auto|]. apply Forall_app. auto.
  Qed.

  Lemma nums_one : forall i b, nth_error B i = Some b -> nbs b -> nums i (S i).
  Proof. intros i b E H. exists [b]. cbn. split; [lia|]. split; auto. Qed.

  Lemma nums_le : forall i j, nums i j -> (i <= j)%nat.
  Proof. intros i j (u & -> & _). lia. Qed.

  Lemma dig_nbs : forall c, is_dig c -> nbs c.
  Proof. intros c H. unfold is_dig in H. unfold nbs, nb. repeat split; try lia. rewrite is_space_spec by lia. lia. Qed.

  Lemma digits_nbs : forall ds, digits ds -> Forall nbs ds.
  Proof. intros ds H. eapply Forall_impl; [|exact H]. intros c. apply dig_nbs. Qed.

  Lemma nums_reach : forall i j x y l, nums i j -> reach x i y l -> (j <= l)%nat -> exists z, reach x i z j /\ reach z j y l.
  Proof.
    intros i j x y l (u & -> & S1 & F1) R L. destruct (run_bytes u x i y l R S1) as (_ & z & Z1 & Z2 & _); eauto.
    eapply Forall_impl; [|exact F1]. intros c [H _]. exact H.
  Qed.

  Lemma nums_agree : forall i j x y l, nums i j -> reach x i y l -> (j <= l)%nat -> agree i j.
  Proof.
    intros i j x y l (u & -> & S1 & F1) R L. destruct (run_bytes u x i y l R S1) as (S2 & _); auto.
    { eapply Forall_impl; [|exact F1]. intros c [H _]. exact H. }
    intros k K. destruct (nth_error u (k - i)) as [c|] eqn:E; [|apply nth_error_None in E; lia].
    replace k with (i + (k - i))%nat by lia. now rewrite (sub_at_nth _ _ _ _ _ S1 E), (sub_at_nth _ _ _ _ _ S2 E).
  Qed.

  Lemma digits_c : forall x i y l, (l <= length B)%nat -> reach x i y l ->
    exists ds, skip_digits_if true B i l = Ok (i + length ds)%nat /\ skip_digits_if true D i l = Ok (i + length ds)%nat /\
      digits ds /\ sub_at B i ds /\ (i + length ds <= l)%nat /\
      ((i + length ds < l)%nat -> exists b, nth_error B (i + length ds) = Some b /\ ~ is_dig b).
  Proof.
    intros x i y l LB R. pose proof (reach_le _ _ _ _ R) as LE. pose proof LEN as LD. unfold skip_digits_if. destruct (Nat.ltb_spec i l) as [LT|GE].
    - destruct (skip_digits_safe B i l HBBt) as (ds & E1 & D1 & D2 & D3 & D4); [lia|]. exists ds. repeat split; auto.
      assert (F : Forall nb ds) by (eapply Forall_impl; [|exact D1]; intros c H; apply (dig_nbs c H)).
      destruct (run_bytes ds x i y l R D2 F D3) as (SD & z & Z1 & Z2 & _).
      assert (ND : (i + length ds < l)%nat -> exists b, nth_error D (i + length ds) = Some b /\ ~ is_dig b).
      { intros L2. destruct (D4 L2) as (b & Hb & NB). destruct (both_at _ _ _ _ Z2 L2) as (b' & d & Hb' & Hd & SM).
        assert (b' = b) by congruence. subst. exists d. split; auto. intros X. apply NB. now apply (same_digit _ _ SM). }
      destruct ds as [|c ds].
      + cbn [length] in *. rewrite Nat.add_0_r in *. destruct (ND LT) as (b & Hb & NB). unfold skip_digits. rewrite (rd_some _ _ _ Hb). cbn [bind loop].
        assert (b < 256) by (eapply is_bytes_nth; [exact HBD|eauto]).
        replace (parse_digit b <? 10) with false by (unfold parse_digit, is_dig, c_0 in *; lia). reflexivity.
      + apply skip_digits_ok; auto; [exact HBD|discriminate|]. split; [exact D3|].
        destruct (Nat.eq_dec (i + length (c :: ds)) l) as [E|NE]; [left; auto|right; apply ND; lia].
    - exists []. cbn [length sub_at]. rewrite Nat.add_0_r. repeat split; auto; [constructor|lia].
  Qed.

  Lemma digits_nums : forall ds i, digits ds -> sub_at B i ds -> nums i (i + length ds).
  Proof. intros ds i H S1. exists ds. split; auto. split; auto. now apply digits_nbs. Qed.

  Lemma fraction_c : forall x i y l, (l <= length B)%nat -> reach x i y l ->
    exists o j, skip_fraction true B i l = Ok (o, j) /\ skip_fraction true D i l = Ok (o, j) /\ nums i j /\ (j <= l)%nat.
  Proof.
    intros x i y l LB R. pose proof (reach_le _ _ _ _ R) as LE. unfold skip_fraction. cbn [negb orb]. destruct (Nat.ltb_spec i l) as [LT|GE].
    - destruct (both_at _ _ _ _ R LT) as (b & d & Hb & Hd & SM). rewrite (rd_some _ _ _ Hb), (rd_some _ _ _ Hd). cbn [bind].
      rewrite (same_eqb _ _ c_dot SM) by discriminate. destruct (N.eqb_spec b c_dot) as [->|].
      + assert (N1 : nums i (S i)) by (apply (nums_one i c_dot Hb); repeat split; discriminate).
        destruct (nums_reach _ _ _ _ _ N1 R ltac:(lia)) as (z & Z1 & Z2).
        destruct (digits_c z (S i) y l LB Z2) as (ds & E1 & E2 & D1 & D2 & D3 & _). rewrite E1, E2. cbn [bind].
        exists (Some i), (S i + length ds)%nat. split; [reflexivity|]. split; [reflexivity|]. split; auto.
        eapply nums_trans; eauto. now apply digits_nums.
      + exists None, i. split; [reflexivity|]. split; [reflexivity|]. split; [apply nums_refl|auto].
    - exists None, i. split; [reflexivity|]. split; [reflexivity|]. split; [apply nums_refl|lia].
  Qed.

  Lemma pd_eq : forall b c, b < 256 -> c < 256 -> parse_digit b = parse_digit c -> b = c.
  Proof. intros b c H1 H2 E. unfold parse_digit, c_0 in E. lia. Qed.

  Lemma exponent_c : forall x i y l, (l <= length B)%nat -> reach x i y l ->
    simP (fun r => nums i (snd r) /\ (snd r <= l)%nat) (skip_exponent true B i l) (skip_exponent true D i l).
  Proof.
    intros x i y l LB R r E. pose proof (reach_le _ _ _ _ R) as LE. unfold skip_exponent in *. destruct (Nat.ltb_spec i l) as [LT|GE].
    2:{ cbn [bind] in *. change ((0 =? parse_digit c_e) || (0 =? parse_digit c_E)) with false in *. cbn iota in *. injection E as <-. cbn [snd].
        split; [reflexivity|]. split; [apply nums_refl|lia]. }
    destruct (both_at _ _ _ _ R LT) as (b & d & Hb & Hd & SM). rewrite (rd_some _ _ _ Hb) in E. rewrite (rd_some _ _ _ Hd). cbn [bind] in *.
    assert (B256 : b < 256) by (eapply is_bytes_nth; [exact HBBt|eauto]). assert (D256 : d < 256) by (eapply is_bytes_nth; [exact HBD|eauto]).
    rewrite (same_pd b d c_e), (same_pd b d c_E) by auto.
    destruct ((parse_digit b =? parse_digit c_e) || (parse_digit b =? parse_digit c_E)) eqn:EE.
    2:{ injection E as <-. cbn [snd]. split; [reflexivity|]. split; [apply nums_refl|lia]. }
    assert (BE : b = c_e \/ b = c_E).
    { apply orb_true_iff in EE as [EE|EE]; apply N.eqb_eq in EE; apply pd_eq in EE; auto; reflexivity. }
    assert (N1 : nums i (S i)) by (apply (nums_one i b Hb); destruct BE as [->| ->]; repeat split; discriminate).
    destruct (nums_reach _ _ _ _ _ N1 R ltac:(lia)) as (z & Z1 & Z2).
    destruct (Nat.ltb_spec (S i) l) as [L1|L1]; cbn [ensure bind] in *; [|discriminate].
    destruct (both_at _ _ _ _ Z2 L1) as (s & s' & Hs & Hs' & SMs). rewrite (rd_some _ _ _ Hs) in E. rewrite (rd_some _ _ _ Hs'). cbn [bind] in *.
    assert (S256 : s < 256) by (eapply is_bytes_nth; [exact HBBt|eauto]). assert (S256' : s' < 256) by (eapply is_bytes_nth; [exact HBD|eauto]).
    rewrite (same_pd s s' c_plus), (same_pd s s' c_minus) by auto. cbv zeta in *.
    set (i2 := if (parse_digit s =? parse_digit c_plus) || (parse_digit s =? parse_digit c_minus) then S (S i) else S i) in *.
    assert (N2 : nums (S i) i2).
    { unfold i2. destruct ((parse_digit s =? parse_digit c_plus) || (parse_digit s =? parse_digit c_minus)) eqn:ES; [|apply nums_refl].
      assert (SE : s = c_plus \/ s = c_minus) by (apply orb_true_iff in ES as [ES|ES]; apply N.eqb_eq in ES; apply pd_eq in ES; auto; reflexivity).
      apply (nums_one _ s Hs). destruct SE as [->| ->]; repeat split; discriminate. }
    destruct (Nat.ltb_spec i2 l) as [L2|L2]; cbn [ensure bind] in *; [|discriminate].
    destruct (nums_reach _ _ _ _ _ N2 Z2 ltac:(lia)) as (z2 & Z3 & Z4).
    destruct (both_at _ _ _ _ Z4 L2) as (t & t' & Ht & Ht' & SMt). rewrite (rd_some _ _ _ Ht) in E. rewrite (rd_some _ _ _ Ht'). cbn [bind] in *.
    assert (T256 : t < 256) by (eapply is_bytes_nth; [exact HBBt|eauto]). assert (T256' : t' < 256) by (eapply is_bytes_nth; [exact HBD|eauto]).
    destruct (N.ltb_spec (parse_digit t) 10) as [DD|DD]; cbn [ensure bind] in *; [|discriminate].
    assert (DT : is_dig t) by (unfold parse_digit, is_dig, c_0 in *; lia).
    assert (DT' : is_dig t') by (now apply (same_digit _ _ SMt)).
    replace (parse_digit t' <? 10) with true by (unfold parse_digit, is_dig, c_0 in *; lia). cbn [ensure bind].
    destruct (digits_c z2 i2 y l LB Z4) as (ds & E1 & E2 & D1 & D2 & D3 & _). rewrite E1 in E. rewrite E2. cbn [bind] in *.
    injection E as <-. cbn [snd]. split; [reflexivity|]. split; auto.
    eapply nums_trans; [exact N1|]. eapply nums_trans; [exact N2|]. now apply digits_nums.
  Qed.

  Lemma fin_number : forall p j, st p -> nums (first p) j -> (first p < j)%nat -> (j <= last p)%nat -> fin j.
  Proof.
    intros p j H NU LT LE. pose proof (st_le _ H). pose proof H as (_ & _ & F & (x & y & R) & _).
    destruct (nums_reach _ _ _ _ _ NU R LE) as (z & Z1 & Z2).
    split; [lia|]. split.
    - destruct (Nat.eq_dec j (last p)) as [->|NE]; [apply F|]. right. eapply both_at; eauto. lia.
    - right. right. destruct NU as (u & -> & S1 & F1). destruct u as [|c u] using rev_ind; [cbn in LT; lia|]. clear IHu.
      apply sub_at_app in S1 as [_ [S1 _]]. apply Forall_app in F1 as [_ F1]. inversion F1 as [|? ? [_ [N1 N2]] _]; subst.
      exists (first p + length u)%nat, c. rewrite app_length. cbn [length]. split; [lia|auto].
  Qed.

  Lemma sp_number : forall (Q : nat -> Prop) p c, st p -> Q (first p) -> (first p < last p)%nat -> nth_error B (first p) = Some c -> c = 45 \/ is_dig c ->
    simP (skipped Q p) (skip_number true B p) (skip_number true D p).
  Proof.
    intros Q p c H HQ LT Hc C [r q] E. pose proof (st_le _ H) as L. pose proof H as (NN & PV & F & (x & y & R) & CL).
    unfold skip_number, has_more in *. destruct (Nat.ltb_spec (first p) (last p)) as [_|]; [|lia]. cbn [ensure bind] in *.
    assert (CB : nbs c) by (destruct C as [->|C]; [repeat split; discriminate|now apply dig_nbs]).
    destruct (both_at _ _ _ _ R LT) as (c' & d & Hc' & Hd & SM). assert (c' = c) by congruence. subst c'.
    assert (d = c) by (destruct SM as [->|[-> _]]; auto; destruct CB as [[X _] _]; congruence). subst d.
    unfold front in *. rewrite (rd_some _ _ _ Hc) in E. rewrite (rd_some _ _ _ Hd). cbn [bind] in *. cbv zeta in *.
    set (i := if c =? c_minus then S (first p) else first p) in *.
    assert (NI : nums (first p) i) by (unfold i; destruct (c =? c_minus); [now apply (nums_one _ c)|apply nums_refl]).
    assert (IL : (i <= last p)%nat) by (unfold i; destruct (c =? c_minus); lia).
    destruct (nums_reach _ _ _ _ _ NI R IL) as (z & Z1 & Z2).
    destruct (digits_c z i y (last p) ltac:(lia) Z2) as (ds & E1 & E2 & D1 & D2 & D3 & D4). rewrite E1 in E. rewrite E2. cbn [bind] in *.
    assert (NJ : nums (first p) (i + length ds)) by (eapply nums_trans; eauto; now apply digits_nums).
    assert (LTJ : (first p < i + length ds)%nat).
    { unfold i in *. destruct (N.eqb_spec c c_minus) as [->|NM]; [lia|]. destruct ds as [|? ds]; [|cbn [length]; lia].
      cbn [length] in D4. rewrite Nat.add_0_r in D4. destruct (D4 LT) as (b & Hb & NB). exfalso. assert (b = c) by congruence. subst.
      destruct C as [->|C]; [now apply NM|contradiction]. }
    destruct (nums_reach _ _ _ _ _ NJ R D3) as (z2 & Z3 & Z4).
    destruct (fraction_c z2 _ y (last p) ltac:(lia) Z4) as (o & j & F1 & F2 & F3 & F4). rewrite F1 in E. rewrite F2. cbn [bind] in *.
    assert (NF : nums (first p) j) by (eapply nums_trans; eauto).
    destruct (nums_reach _ _ _ _ _ NF R F4) as (z3 & Z5 & Z6).
    destruct (skip_exponent true B j (last p)) as [[ex k]| | |] eqn:EX; cbn [bind] in E; try discriminate.
    destruct (exponent_c z3 j y (last p) ltac:(lia) Z6 _ EX) as (EX' & NK & LK). cbn [snd] in *. rewrite EX'. cbn [bind]. injection E as <- <-.
    split; [reflexivity|]. assert (NE : nums (first p) k) by (eapply nums_trans; eauto).
    assert (LTK : (first p < k)%nat) by (apply nums_le in F3, NK; lia).
    destruct (nums_reach _ _ _ _ _ NE R LK) as (z4 & Z7 & Z8).
    split; [|split; [eapply (st_moved p _ x z4); [exact H|repeat split|exact Z7|eauto]|repeat split]].
    cbn [fst]. eapply (g_sc Q _ c); cbn [first last set_class set_last isnull]; auto; try lia; try (apply CB).
    - eapply nums_agree; eauto.
    - destruct C as [->|C]; [lia|unfold is_dig in C; lia].
  Qed.

  (** ** Literals *)

  Definition letter (c : N) : Prop := 97 <= c <= 122.
  Lemma letters_ok : forall w, Forall letter w -> Forall (fun c => nb c /\ c <> 35 /\ c <> 47) w.
  Proof. intros w H. eapply Forall_impl; [|exact H]. unfold letter, nb. cbn. intros c C. lia. Qed.
  Lemma letters_nbs : forall w, Forall letter w -> Forall nbs w.
  Proof. intros w H. eapply Forall_impl; [|exact H]. unfold letter, nbs, nb. cbn. intros c C. rewrite is_space_spec by lia. repeat split; lia. Qed.
  Lemma nbs_nb : forall w, Forall nbs w -> Forall nb w.
  Proof. intros w H. eapply Forall_impl; [|exact H]. intros c [X _]. exact X. Qed.

  Lemma sp_word : forall p c w r, st p -> (first p < last p)%nat -> nth_error B (first p) = Some c -> letter c -> Forall letter w ->
    simP (fun q => st q /\ moved p q /\ first q = (first p + S (length w))%nat /\ (first q <= last p)%nat /\ sub_at B (first p) (c :: w))
      (skip_word true w r B p) (skip_word true w r D p).
  Proof.
    intros p c w r H LT Hc LC LW. unfold skip_word.
    assert (NC : nbs c) by (apply (Forall_inv (l := [])); apply letters_nbs; constructor; auto).
    destruct (st_step p c H LT Hc (proj1 (proj1 NC)) (proj2 (proj1 NC))) as (H1 & Hd & _).
    apply sp_starts; [exact H1|now apply letters_ok|]. intros ok HT. apply sp_ensure. intros ->. destruct (HT eq_refl) as [HL HS].
    cbn [remove_prefix first last set_first] in HL, HS. rewrite Nat.add_1_r in HS. apply sp_ok.
    destruct (st_bytes p (c :: w) H) as (H2 & _ & _).
    { split; auto. }
    { apply nbs_nb. constructor; auto. now apply letters_nbs. }
    { cbn [length]. lia. }
    assert (EQ : remove_prefix (remove_prefix p 1) (length w) = set_first p (first p + length (c :: w))).
    { apply ps_eq; cbn; auto. lia. }
    rewrite EQ. split; [exact H2|]. split; [repeat split|]. cbn [first set_first length]. split; [lia|]. split; [lia|]. split; auto.
  Qed.

  Lemma sp_check : forall A (Q : A -> Prop) r p f g, st p -> ((first p < last p)%nat -> plainly (first p)) ->
    simP Q (f tt) (g tt) -> simP Q (bind (check_after_literal true r B p) f) (bind (check_after_literal true r D p) g).
  Proof.
    intros A Q r p f g H PL K. unfold check_after_literal, has_more, front. destruct (Nat.ltb_spec (first p) (last p)) as [LT|].
    - destruct (PL LT) as (b & Hb & Hd & _). rewrite (rd_some _ _ _ Hb), (rd_some _ _ _ Hd). cbn [bind]. apply sp_ensure. auto.
    - cbn [bind]. exact K.
  Qed.

  Lemma moved_trim : forall p q, after_trim p q -> moved p q.
  Proof. intros p q (_ & -> & _). repeat split. Qed.

  Lemma trim_cp_none : forall p, trim_left_cp CNone true B p = trim_left_checked B p.
  Proof. reflexivity. Qed.

  Lemma sp_bool : forall (Q : nat -> Prop) p c w r v, st p -> Q (first p) -> (first p < last p)%nat -> nth_error B (first p) = Some c -> letter c -> Forall letter w ->
    simP (skipped Q p) (skip_bool CNone true w r v B p) (skip_bool_c cp w r v D p).
  Proof.
    intros Q p c w r v H HQ LT Hc LC LW. unfold skip_bool, skip_bool_c. eapply sp_bind; [apply (sp_word p c w r H LT Hc LC LW)|].
    intros q (Hq & Mq & Fq & Lq & Sq). cbv zeta. rewrite trim_cp_none. eapply sp_bind; [apply (sp_trim q Hq)|].
    intros q2 AT. apply sp_check; [apply AT|apply AT|]. apply sp_ok. split; [|split; [apply AT|eapply moved_trans; [exact Mq|now apply moved_trim]]].
    pose proof (st_le _ H) as LB. pose proof H as (NN & PV & _ & (x & y & R) & _). cbn [fst].
    assert (NU : nums (first p) (first q)).
    { exists (c :: w). split; [exact Fq|]. split; auto. apply letters_nbs. constructor; auto. }
    unfold letter in LC. apply (g_sc Q _ c); cbn [first last set_counter set_last isnull]; auto; try lia.
    - eapply nums_agree; eauto.
    - rewrite is_space_spec by lia. lia.
  Qed.

  Lemma sp_null : forall (Q : nat -> Prop) p c, st p -> (first p < last p)%nat -> nth_error B (first p) = Some c -> letter c ->
    simP (skipped Q p) (skip_null CNone true B p) (skip_null_c cp D p).
  Proof.
    intros Q p c H LT Hc LC. unfold skip_null, skip_null_c. eapply sp_bind; [apply (sp_word p c [117; 108; 108] InvalidNull H LT Hc LC)|].
    { repeat (apply Forall_cons; [unfold letter; lia|]). constructor. }
    intros q (Hq & Mq & Fq & Lq & Sq). apply sp_ensure. intros _. rewrite trim_cp_none. eapply sp_bind; [apply (sp_trim q Hq)|].
    intros q2 AT. apply sp_check; [apply AT|apply AT|]. apply sp_ok. split; [|split; [apply AT|eapply moved_trans; [exact Mq|now apply moved_trim]]].
    apply g_null; reflexivity || (cbn; lia).
  Qed.

  (** ** Strings *)

  Lemma st_quote : forall p, st p -> (first p < last p)%nat -> nth_error B (first p) = Some 34 ->
    exists s, str_body s /\ sub_at D (first p) (34 :: s ++ [34]) /\ sub_at B (first p) (34 :: s ++ [34]) /\
      (first p + length s + 2 <= last p)%nat /\ st (set_first p (first p + length s + 2)).
  Proof.
    intros p H LT Hb. pose proof H as (_ & _ & _ & (x & y & R) & _). inversion R as [|? ? z j ? ? ST HR]; subst; [lia|].
    destruct (step_quote _ _ _ _ ST Hb) as (s & S1 & S2 & S3 & -> & ->). exists s. split; [exact S1|]. split; [exact S2|]. split; [exact S3|]. split.
    - apply reach_le in HR. exact HR.
    - eapply (st_moved p _ x Anywhere); [exact H|repeat split|apply reach_one; exact ST|eauto].
  Qed.

  Lemma sp_string_in : forall p, st p -> (first p < last p)%nat -> nth_error B (first p) = Some 34 ->
    simP (fun rq => instr (fst rq) /\ first (fst rq) = S (first p) /\ st (snd rq) /\ moved p (snd rq)) (skip_string true ExConstexpr false false B p) (skip_string true ExConstexpr false false D p).
  Proof.
    intros p H LT Hb [r q] E. destruct (st_quote p H LT Hb) as (s & HS & SD & SB & LE & H2). destruct (st_wf p H) as [WB WD].
    assert (L64 : N.of_nat (length s) < 2^64).
    { pose proof H32. pose proof (st_le _ H). change (2^32) with 4294967296 in *. change (2^64) with 18446744073709551616. lia. }
    destruct (skip_string_ok true ExConstexpr false B p s ltac:(discriminate) WB HS SB LE L64) as (rb & Eb & [Fb Lb] & Cb & CFb & CLb & Nb).
    destruct (skip_string_ok true ExConstexpr false D p s ltac:(discriminate) WD HS SD LE L64) as (rd & Ed & [Fd Ld] & Cd & CFd & CLd & Nd).
    rewrite Eb in E. injection E as <- <-. rewrite Ed. specialize (Cb eq_refl). specialize (Cd eq_refl).
    assert (rd = rb) by (apply ps_eq; congruence || lia). subst rd. split; [reflexivity|]. cbn [fst snd]. split; [|split; [exact Fb|split; [exact H2|repeat split]]].
    exists (first p), s. split; [exact Nb|]. split; [exact Fb|]. split; [lia|]. auto.
  Qed.

  Lemma sp_string : forall (Q : nat -> Prop) p, st p -> (first p < last p)%nat -> nth_error B (first p) = Some 34 ->
    simP (skipped Q p) (skip_string true ExConstexpr false false B p) (skip_string true ExConstexpr false false D p).
  Proof.
    intros Q p H LT Hb. eapply sp_weaken; [apply (sp_string_in p H LT Hb)|]. intros rq (A1 & _ & A2 & A3). split; [now apply g_str|auto].
  Qed.
End Two.
