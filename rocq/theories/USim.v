(** The unchecked parser follows the checked parser, skipping and members.

    Both run on the document followed by a zero.  Wherever the checked parser
    succeeds and finds every member, the unchecked one succeeds with the same
    value, for a std::basic_string ([z]) and for a string_view alike.  Positions
    are related as in ZSim. *)
From Coq Require Import List NArith ZArith Bool Arith Lia.
From Coq Require Import ZifyBool ZifyNat ZifyN.
From Verif Require Import Base Mem PolicyModel IntModel Loop SpecNum SpecText SpecJson IntProofs StrScanModel StrScanProofs StrScanProofs2
  SkipModel SkipProofs SkipSafe HashModel StrDecodeModel ValueModel ClassProofs ZModel ZInt ZScan ZSim UModel.
Import ListNotations.
Local Open Scope N_scope.

(** A loop that is followed as long as its result is wanted: a step of the
    followed loop either is matched or leads to no wanted result. *)
Lemma sim_loop_until : forall S A (RS : S -> S -> Prop) (R : A -> A -> Prop) (Good : A -> Prop) body body',
  (forall s s' x, RS s s' -> body s = Ok x ->
    match x with
    | inr a => Good a -> exists b, body' s' = Ok (inr b) /\ R a b
    | inl a => (exists b, body' s' = Ok (inl b) /\ RS a b) \/ (forall n c, loop body n a = Ok c -> ~ Good c)
    end) ->
  forall n s s' a, RS s s' -> loop body n s = Ok a -> Good a -> exists b, loop body' n s' = Ok b /\ R a b.
Proof.
  intros S A RS R Good body body' H n. induction n as [|n IH]; intros s s' a HS E HG; cbn [loop] in *; [discriminate|].
  destruct (body s) as [x| | |] eqn:EB; cbn [bind] in E; try discriminate. specialize (H s s' x HS EB). destruct x as [x|x].
  - destruct H as [(b & -> & HB)|D]; [cbn [bind]; eauto|]. exfalso. exact (D _ _ E HG).
  - injection E as <-. destruct (H HG) as (b & -> & HR). cbn [bind]. eauto.
Qed.

(** ** Scans *)

Lemma cx_both : forall buf i l j, cx_skip true buf i l = Ok j -> (i <= l)%nat ->
  (i <= j)%nat /\ ((j < l)%nat -> nth_error buf j = Some 34 -> cx_skip false buf i l = Ok j).
Proof.
  intros buf i l j E HI. unfold cx_skip in *. destruct (Nat.eqb_spec i l) as [->|NE]; [injection E as <-; split; auto|].
  cbn [bind]. destruct (match l with O => UB | S l => rd buf l end) as [c0| | |]; cbn [bind] in E; try discriminate.
  set (fast := negb (c0 =? c_bslash)%N) in *. clearbody fast. cbn [negb orb] in *. assert (LE : (i <= l)%nat) by lia. clear NE c0 HI.
  assert (H : forall n i, loop (fun i0 : nat =>
        if (i0 <? l)%nat then c <- rd buf i0 ;; (if c =? c_quote then Ok (inr i0) else if c =? c_bslash then if fast then Ok (inl (i0 + 2)%nat) else if (S i0 <? l)%nat then Ok (inl (i0 + 2)%nat) else Ok (inr l) else Ok (inl (S i0)))
        else Ok (inr i0)) n i = Ok j ->
      (i <= j \/ l = j)%nat /\ ((j < l)%nat -> nth_error buf j = Some 34 ->
       loop (fun i0 : nat => c <- rd buf i0 ;; (if c =? c_quote then Ok (inr i0) else if c =? c_bslash then Ok (inl (i0 + 2)%nat) else Ok (inl (S i0)))) n i = Ok j)).
  { clear. induction n as [|n IH]; intros i E; [discriminate|]. cbn [loop] in *. destruct (Nat.ltb_spec i l) as [LT|GE]; cbn [bind] in E.
    - destruct (rd buf i) as [c| | |] eqn:R; cbn [bind] in *; try discriminate. destruct (c =? c_quote); cbn [bind] in *; [injection E as <-; split; auto|].
      destruct (c =? c_bslash); [|cbn [bind] in *; destruct (IH _ E) as [A B]; split; [lia|auto]].
      destruct fast; [cbn [bind] in *; destruct (IH _ E) as [A B]; split; [lia|auto]|]. destruct (S i <? l)%nat; cbn [bind] in *; [destruct (IH _ E) as [A B]; split; [lia|auto]|].
      injection E as <-. split; [lia|]. lia.
    - injection E as <-. split; [lia|]. lia. }
  destruct (H _ _ E) as [A B]. split; [lia|]. intros H1 H2. exact (B H1 H2).
Qed.

Lemma br_both : forall obj buf l, (N.of_nat l < 2^31) -> forall n s r, 1 <= b_prime s <= N.of_nat (b_i s) + 1 ->
  loop (br_body CNone true ExConstexpr obj buf l) n s = Ok r -> loop (br_body CNone false ExConstexpr obj buf l) n s = Ok r.
Proof.
  intros obj buf l HL. induction n as [|n IH]; intros s r HP E; [discriminate|]. cbn [loop] in *.
  unfold br_body at 1 in E. unfold br_body at 1. cbn [negb orb] in *. cbv zeta in *. cbn [skip_str] in *.
  destruct (Nat.ltb_spec (b_i s) l) as [LT|GE].
  2:{ exfalso. replace (b_prime s =? 0) with false in E by lia. discriminate. }
  assert (W : forall x, x < 2^32 -> w32 x = x) by (intros x X; unfold w32; now apply N.mod_small).
  change (2^31) with 2147483648 in HL. change (2^32) with 4294967296 in *.
  destruct (rd buf (b_i s)) as [c| | |]; cbn [bind] in *; try discriminate.
  destruct (c =? c_bslash); cbn [bind] in *; [apply IH; auto; cbn [b_prime b_i at_i]; lia|].
  destruct (c =? c_quote).
  - destruct (cx_skip true buf (S (b_i s)) l) as [j| | |] eqn:EC; cbn [bind] in E; try discriminate.
    destruct (cx_both _ _ _ _ EC LT) as [JL JE]. destruct (Nat.ltb_spec j l) as [JLT|]; cbn [bind ensure] in E; [|discriminate].
    destruct (rd buf j) as [b| | |] eqn:RB; cbn [bind] in E; try discriminate. destruct (N.eqb_spec b c_quote) as [->|]; cbn [ensure bind] in E; [|discriminate].
    rewrite JE by (auto; now apply rd_ok_nth). cbn [bind]. apply IH; auto. cbn [b_prime b_i at_i]. lia.
  - destruct (c =? c_comma); cbn [bind] in *; [apply IH; auto; cbn [b_prime b_i]; lia|].
    destruct (c =? left_of obj); cbn [bind] in *; [apply IH; auto; cbn [b_prime b_i]; rewrite W by lia; lia|].
    destruct (c =? right_of obj).
    + assert (WD : w32 (b_prime s + 4294967296 - 1) = b_prime s - 1).
      { unfold w32. change (2^32) with 4294967296. replace (b_prime s + 4294967296 - 1) with (b_prime s - 1 + 1 * 4294967296) by lia.
        rewrite N.mod_add by discriminate. apply N.mod_small. lia. }
      rewrite WD in *. destruct (N.eqb_spec (b_prime s - 1) 0); cbn [bind] in *.
      * destruct (b_second s =? 0); cbn [ensure bind] in *; [exact E|discriminate].
      * apply IH; auto. cbn [b_prime b_i]. lia.
    + destruct (c =? left_of (negb obj)); cbn [bind] in *; [apply IH; auto; cbn [b_prime b_i]; lia|].
      destruct (c =? right_of (negb obj)); cbn [bind] in *; apply IH; auto; cbn [b_prime b_i at_i]; lia.
Qed.

Lemma memchr_both : forall c buf i l j, memchr_checked c buf i l = Ok j -> (j < l)%nat -> (l <= length buf)%nat -> memchr_unchecked c buf i = Ok j.
Proof.
  intros c buf i l j E LT LL. unfold memchr_checked, memchr_unchecked in *.
  assert (H : forall n m i, loop (fun i0 => if (i0 <? l)%nat then b <- rd buf i0 ;; Ok (if negb (b =? c) then inl (S i0) else inr i0) else Ok (inr i0)) n i = Ok j ->
     (length buf - i < m)%nat -> loop (fun i0 => b <- rd buf i0 ;; Ok (if negb (b =? c) then inl (S i0) else inr i0)) m i = Ok j).
  { clear E. induction n as [|n IH]; intros m i0 E F; [discriminate|]. cbn [loop] in E. destruct (Nat.ltb_spec i0 l) as [L1|L1].
    - destruct m as [|m]; [lia|]. cbn [loop]. destruct (rd buf i0) as [b| | |]; cbn [bind] in *; try discriminate. destruct (negb (b =? c)); [|exact E].
      apply IH; auto. lia.
    - cbn [bind] in E. injection E as ->. lia. }
  apply (H _ _ _ E). lia.
Qed.

(** From a byte that is not there to the first that is *)
Lemma memchr_runs : forall c buf i j, (i <= j)%nat -> (forall k, (i <= k < j)%nat -> exists b, nth_error buf k = Some b /\ b <> c) ->
  nth_error buf j = Some c -> memchr_unchecked c buf i = Ok j.
Proof.
  intros c buf i j LE H HJ. unfold memchr_unchecked. assert (JL : (j < length buf)%nat) by (apply nth_error_Some; congruence).
  remember (j - i)%nat as d eqn:ED. assert (F : (d < S (length buf - i))%nat) by lia. revert F. generalize (S (length buf - i)). revert i LE H ED.
  induction d as [|d IH]; intros i LE H ED n F; (destruct n as [|n]; [lia|]); cbn [loop].
  - assert (i = j) by lia. subst. rewrite (rd_some _ _ _ HJ). cbn [bind]. now rewrite N.eqb_refl.
  - destruct (H i) as (b & Hb & NB); [lia|]. rewrite (rd_some _ _ _ Hb). cbn [bind]. apply N.eqb_neq in NB. rewrite NB. cbn [negb].
    apply IH; try lia. intros k K. apply H. lia.
Qed.

Section Sim.
  Context (buf : list N) (L : nat) (z : bool).
  Hypothesis ZD : zdoc buf L.

  Local Notation rel := (rel buf L).
  Local Notation good := (good buf L).
  Local Notation both := (both buf L).
  Local Notation loc_ok := (loc_ok buf L).
  Local Notation lrel := (lrel buf L).
  Local Notation pv := (pv buf L).
  Local Notation psim := (psim buf L).
  Local Notation rel_refl := (rel_refl buf L ZD).
  Local Notation rel_good := (rel_good buf L ZD).
  Local Notation rel_same := (rel_same buf L ZD).
  Local Notation rel_has_more := (rel_has_more buf L ZD).
  Local Notation rel_empty := (rel_empty buf L ZD).
  Local Notation rel_front := (rel_front buf L ZD).
  Local Notation rel_is_at := (rel_is_at buf L ZD).
  Local Notation is_at_true := (is_at_true buf L ZD).
  Local Notation good_at := (good_at buf L ZD).
  Local Notation good_next := (good_next buf L ZD).
  Local Notation good_room := (good_room buf L ZD).
  Local Notation good_class := (good_class buf L ZD).
  Local Notation good_counter := (good_counter buf L ZD).
  Local Notation stops_le := (stops_le buf L ZD).
  Local Notation some_byte := (some_byte buf L ZD).
  Local Notation more_lt := (more_lt buf L ZD).
  Local Notation more_nonempty := (more_nonempty buf L ZD).
  Local Notation before_zero := (before_zero buf L ZD).

  Lemma nonempty_more : forall p, ps_empty p = false -> has_more p = true.
  Proof. intros p E. unfold ps_empty in E. unfold has_more. destruct (isnull p); [discriminate|]. cbn [orb] in E. lia. Qed.

  Lemma sim_trim_u : forall p p', rel p p' -> sim rel (trim_left_checked buf p) (trim_u buf p').
  Proof. exact (sim_trim buf L ZD). Qed.

  Lemma sim_trim_end : forall p p', rel p p' -> sim rel (trim_left_checked buf p) (trim_end_u z buf p').
  Proof.
    intros p p' HR. unfold trim_end_u. destruct z; [exact (sim_trim buf L ZD p p' HR)|].
    destruct (has_more p) eqn:HM.
    - rewrite (rel_same _ _ HR HM). intros q E. exists q. split; [exact E|]. destruct (sim_trim buf L ZD p p (rel_refl _ (rel_good _ _ HR)) q E) as (q' & _ & HQ).
      apply rel_refl. exact (rel_good _ _ HQ).
    - pose proof (rel_has_more _ _ HR) as HM'. rewrite HM in HM'. unfold has_more in *. unfold trim_left_checked. cbn [trim_loop]. rewrite HM, HM'. cbn [bind].
      apply sim_ok. assert (S : forall q, set_first q (first q) = q) by (intros []; reflexivity). now rewrite !S.
  Qed.

  Lemma sim_move_next_u : forall p p', rel p p' -> sim rel (move_next buf p) (move_next_u buf p').
  Proof. exact (sim_move_next buf L ZD). Qed.

  Lemma rel_empty_u : forall p p', rel p p' -> empty_u z buf p' = Ok (ps_empty p).
  Proof.
    intros p p' HR. unfold empty_u. destruct z; [now apply rel_empty|]. pose proof (rel_empty _ _ HR) as E. unfold empty_z in E.
    destruct (ps_empty p') eqn:EE; [congruence|]. destruct (ps_empty p) eqn:EP; auto. exfalso.
    destruct HR as [_ [->|(j & J & _ & -> & _)]]; [congruence|]. unfold ps_empty in *. cbn [first last isnull set_first] in *. destruct (isnull p); [discriminate|]. cbn [orb] in *. lia.
  Qed.

  (** ** Values to skip *)

  Lemma exponent_u : forall i l r, stops buf L l -> num_at L i l -> nondig buf i -> skip_exponent true buf i l = Ok r -> skip_exponent_u z buf i l = Ok r.
  Proof.
    intros i l r ST NA ND E. pose proof (exponent_both buf L ZD i l r ST NA ND E) as (EZ & _). pose proof (stops_le _ ST) as LL.
    assert (EQ : skip_exponent_z buf i l = Ok r -> (b <- rd buf i ;; Ok (parse_digit b)) = (if z || (i <? l)%nat then b <- rd buf i ;; Ok (parse_digit b) else Ok 0) -> skip_exponent_u z buf i l = Ok r).
    { clear. intros E H. unfold skip_exponent_u. rewrite <- H. unfold skip_exponent_z in E. destruct (rd buf i) as [b| | |]; cbn [bind] in *; try discriminate. cbv zeta in *.
      destruct (_ || _); [|exact E]. destruct (S i <? l)%nat; cbn [ensure bind] in E; [|discriminate]. destruct (rd buf (S i)) as [d| | |]; cbn [bind] in *; try discriminate.
      set (i2 := if (parse_digit d =? parse_digit c_plus) || (parse_digit d =? parse_digit c_minus) then S (S i) else S i) in *.
      destruct (if (i2 <? l)%nat then _ else _) as [ok| | |]; cbn [bind] in E; try discriminate. destruct ok; [exact E|discriminate]. }
    destruct z; cbn [orb] in *; [now apply EQ|]. destruct (Nat.ltb_spec i l) as [LT|GE]; [now apply EQ|].
    unfold skip_exponent_u. cbn [orb]. replace (i <? l)%nat with false by lia. unfold skip_exponent in E. replace (i <? l)%nat with false in E by lia. cbn [bind] in *.
    change ((0 =? parse_digit c_e) || (0 =? parse_digit c_E)) with false in *. exact E.
  Qed.

  Lemma number_u : forall p c r q, good p -> (first p < last p)%nat -> nth_error buf (first p) = Some c -> c = 45 \/ is_dig c ->
    skip_number true buf p = Ok (r, q) -> skip_number_u z buf p = Ok (r, q).
  Proof.
    intros p c r q G LT Hc C E. pose proof G as (NN & ST & LF & CL).
    unfold skip_number in E. unfold skip_number_u, has_more in *.
    destruct (Nat.ltb_spec (first p) (last p)) as [_|]; [|lia]. cbn [ensure bind] in *.
    unfold front in *. rewrite (rd_some _ _ _ Hc) in *. cbn [bind] in *. cbv zeta in *.
    set (i := if c =? c_minus then S (first p) else first p) in *.
    assert (NA : num_at L i (last p)).
    { unfold i. destruct (N.eqb_spec c c_minus) as [->|]; [|split; lia]. apply (num_at_tl buf L ZD); auto. exists (first p), c_minus. repeat split; auto; discriminate. }
    destruct (digits_both buf L ZD i (last p) ST NA) as (ds & E1 & E2 & D1 & D2 & D3 & D4 & D5). rewrite E1 in E. rewrite E2. cbn [bind] in *.
    destruct (fraction_both buf L ZD _ _ ST D3 D4) as (o & j & F2 & F3 & F4 & F5 & F6 & F7). rewrite F2 in E. rewrite F3. cbn [bind] in *.
    destruct (skip_exponent true buf j (last p)) as [[x k]| | |] eqn:EX; cbn [bind] in E; try discriminate.
    rewrite (exponent_u _ _ _ ST F4 F5 EX). exact E.
  Qed.

  Lemma nq_u : forall p cl n q, in_string buf p cl -> parse_nq true ExConstexpr false buf p = Ok (n, q) ->
    parse_nq_uncheck ExConstexpr buf p = Ok (n, q).
  Proof.
    intros p cl n q HI E. pose proof (parse_nq_cx_safe buf p cl HI) as SF. rewrite E in SF. cbn [outcome_ok fst snd] in SF.
    destruct SF as (t & BT & ST & LT & -> & ->). pose proof ZD as (HB & EL & EZ & NZ & H31).
    pose proof ST as ST'. apply sub_at_app in ST' as [S1 [S2 _]].
    assert (LQ : (first p + length t < L)%nat) by (apply (before_zero _ _ S2); discriminate).
    assert (L64 : N.of_nat (length t) < 2^64) by (change (2^31) with 2147483648 in H31; change (2^64) with 18446744073709551616; lia).
    rewrite (parse_nq_cx_ok buf p cl t HI BT ST LT L64) in E. rewrite <- E.
    exact (parse_nq_uncheck_ok buf p cl t HI BT ST L64).
  Qed.

  Lemma string_nq_u : forall p cl r q, in_string buf p cl -> skip_string_nq true ExConstexpr false buf p = Ok (r, q) ->
    skip_string_nq_u buf p = Ok (r, q).
  Proof.
    intros p cl r q HI E. unfold skip_string_nq in E. unfold skip_string_nq_u.
    destruct (parse_nq true ExConstexpr false buf p) as [[n s]| | |] eqn:EN; cbn [bind] in E; try discriminate.
    rewrite (nq_u _ _ _ _ HI EN). cbn [bind]. destruct (front buf s) as [c| | |]; cbn [bind] in E; try discriminate.
    destruct (c =? c_quote); cbn [ensure bind] in E; [exact E|discriminate].
  Qed.

  Lemma string_u : forall p r q, good p -> ps_empty p = false -> skip_string true ExConstexpr false false buf p = Ok (r, q) ->
    skip_string_u z buf p = Ok (r, q).
  Proof.
    intros p r q G NE E. unfold skip_string in E. unfold skip_string_u. rewrite (rel_empty_u _ _ (rel_refl _ G)). rewrite NE in *. cbn [bind] in *.
    unfold front in *. destruct (rd buf (first p)) as [c| | |] eqn:EC; cbn [bind] in *; try discriminate. apply rd_ok_nth in EC.
    destruct (N.eqb_spec c c_quote) as [->|]; cbn [ensure bind] in *; [|discriminate].
    destruct (has_more (remove_prefix p 1)) eqn:HM; cbn [ensure bind] in *; [|discriminate].
    destruct (skip_string_nq true ExConstexpr false buf (remove_prefix p 1)) as [[r' q']| | |] eqn:EN; cbn [bind] in E; try discriminate. injection E as <- <-.
    pose proof G as (_ & _ & _ & cl & CL & _).
    assert (G1 : good (remove_prefix p 1)) by (eapply good_next; eauto; discriminate).
    assert (HI : in_string buf (remove_prefix p 1) cl).
    { apply (good_string buf L ZD); auto; unfold has_more in HM; cbn [first last remove_prefix set_first] in *; [lia|lia|].
      now replace (first p + 1 - 1)%nat with (first p) by lia. }
    exact (string_nq_u _ _ _ _ HI EN).
  Qed.

  Lemma sim_string_u : forall p, good p -> ps_empty p = false ->
    sim both (skip_string true ExConstexpr false false buf p) (skip_string_u z buf p).
  Proof.
    intros p G NE [r q] E. destruct (string_both buf L ZD _ _ _ G NE E) as (_ & B & C & _). exists (r, q). split; [now apply string_u|].
    split; [split; auto|now apply rel_refl].
  Qed.

  Lemma sim_bool_u : forall rest rs val p c, good p -> (first p < last p)%nat -> nth_error rest (length rest - 1) = Some c -> ~ is_dig c ->
    sim both (skip_bool CNone true rest rs val buf p) (skip_bool CNone false rest rs val buf p).
  Proof.
    intros rest rs val p c G LT HC NC. unfold skip_bool.
    intros a E. destruct (skip_word true rest rs buf p) as [w| | |] eqn:EW; cbn [bind] in E; try discriminate.
    destruct (word_both buf L ZD _ _ _ _ G LT EW) as (-> & SW & LE). revert a E. cbv zeta. cbn [skip_word bind trim_left_cp trim_left check_after_literal Nat.add].
    pose proof G as (NN & ST & LF & CL). pose proof (stops_le _ ST) as LL. unfold remove_prefix.
    apply (sim_bind _ _ rel); [apply sim_trim_u; apply rel_refl; apply good_at; auto; lia|]. intros q q' _ _ HQ.
    intros a E. destruct (if has_more q then _ else _) as [u| | |]; cbn [bind] in E; try discriminate. injection E as <-. eexists; split; [reflexivity|].
    split; [|exact HQ]. cbn [fst]. split; [reflexivity|]. intros _.
    split; [exact NN|]. cbn [first last set_last set_counter set_first remove_prefix clast]. split; [lia|]. split; [|left; exact CL].
    right. split; [lia|]. exists (first p + length rest)%nat. split; [lia|]. exists c. split; auto.
    assert (LR : (length rest - 1 < length rest)%nat) by (apply nth_error_Some; congruence).
    pose proof (sub_at_nth _ _ _ _ _ SW HC) as X. now replace (first p + length rest)%nat with (S (first p) + (length rest - 1))%nat by lia.
  Qed.

  Lemma sim_null_u : forall p, good p -> (first p < last p)%nat -> sim both (skip_null CNone true buf p) (skip_null CNone false buf p).
  Proof.
    intros p G LT. unfold skip_null.
    intros a E. destruct (skip_word true [117; 108; 108] InvalidNull buf p) as [w| | |] eqn:EW; cbn [bind] in E; try discriminate.
    destruct (word_both buf L ZD _ _ _ _ G LT EW) as (-> & SW & LE). revert a E. cbv zeta. cbn [skip_word bind trim_left_cp trim_left check_after_literal Nat.add length] in *.
    pose proof G as (NN & ST & LF & CL). pose proof (stops_le _ ST) as LL. unfold remove_prefix.
    intros a E. destruct (has_more (set_first p (first p + 4))) eqn:HM; cbn [ensure bind] in E; [|discriminate]. revert a E.
    apply (sim_bind _ _ rel); [apply sim_trim_u; apply rel_refl; apply good_at; auto; lia|]. intros q q' _ _ HQ.
    intros a E. destruct (if has_more q then _ else _) as [u| | |]; cbn [bind] in E; try discriminate. injection E as <-. eexists; split; [reflexivity|].
    split; [|exact HQ]. split; [|cbn; discriminate]. cbn [fst]. destruct HQ as [_ [->|(j & _ & _ & -> & _)]]; reflexivity.
  Qed.

  Lemma bracket_u : forall obj p r q, good p -> has_more p = true ->
    skip_bracketed CNone true ExConstexpr obj buf p = Ok (r, q) -> skip_bracketed CNone false ExConstexpr obj buf p = Ok (r, q).
  Proof.
    intros obj p r q G HM E. pose proof G as (NN & ST & LF & CL). pose proof (stops_le _ ST) as LL. destruct ZD as (HB & EL & EZ & NZ & H31). apply more_lt in HM.
    unfold skip_bracketed in *. cbn [andb] in *. replace (last p <=? first p)%nat with false in E by lia.
    destruct (front buf p) as [c| | |]; cbn [bind] in *; try discriminate. cbv zeta in *.
    destruct (loop _ _ _) as [[j n]| | |] eqn:EL2 in E; cbn [bind] in E; try discriminate.
    rewrite (br_both obj buf (last p)) with (r := (j, n)); [exact E| |cbn [b_prime b_i]; lia|exact EL2].
    change (2^31) with 2147483648 in *. lia.
  Qed.

  Lemma sim_bracket_u : forall obj p, good p -> has_more p = true -> nth_error buf (first p) = Some (left_of obj) ->
    sim both (skip_bracketed CNone true ExConstexpr obj buf p) (skip_bracketed CNone false ExConstexpr obj buf p).
  Proof.
    intros obj p G HM HC [r q] E. exists (r, q). split; [now apply bracket_u|].
    pose proof (more_lt _ HM). destruct (bracket_both buf L ZD obj p r q) as (A & B); auto.
    split; [split; auto|now apply rel_refl].
  Qed.

  Lemma sim_lit_u : forall p c e, good p -> has_more p = true -> nth_error buf (first p) = Some c ->
    sim both
     (if c =? c_t then skip_true CNone true buf p
      else if c =? c_f then skip_false CNone true buf p
      else if c =? c_n then skip_null CNone true buf p
      else if (c =? c_minus) || ((48 <=? c) && (c <=? 57)) then skip_number true buf p
      else Err InvalidStartOfValue)
     (if c =? c_t then skip_true CNone false buf p
      else if c =? c_f then skip_false CNone false buf p
      else if c =? c_n then skip_null CNone false buf p
      else if (c =? c_minus) || ((48 <=? c) && (c <=? 57)) then skip_number_u z buf p
      else e).
  Proof.
    intros p c e G HM HC. pose proof (more_lt _ HM) as LT.
    destruct (c =? c_t); [apply (sim_bool_u _ _ _ _ 101); auto; unfold is_dig; lia|].
    destruct (c =? c_f); [apply (sim_bool_u _ _ _ _ 101); auto; unfold is_dig; lia|].
    destruct (c =? c_n); [now apply sim_null_u|].
    destruct ((c =? c_minus) || ((48 <=? c) && (c <=? 57))) eqn:EN; [|apply sim_err].
    intros [r q] E. assert (CC : c = 45 \/ is_dig c) by (unfold c_minus, is_dig in *; lia).
    destruct (number_both buf L ZD p c r q G LT HC CC E) as (_ & B & C).
    exists (r, q). split; [exact (number_u p c r q G LT HC CC E)|]. split; [split; auto|now apply rel_refl].
  Qed.

  Lemma sim_skip_val_u : forall g p p', c_ex g = ExConstexpr -> c_excl g = false -> rel p p' ->
    sim both (skip_val g buf p) (skip_val_u z buf p').
  Proof.
    intros g p p' HX HE HR a E. unfold skip_val, skip_value in E. unfold skip_val_u. rewrite HX, HE in E.
    destruct (has_more p) eqn:HM; cbn [ensure bind] in E; [|discriminate]. rewrite (rel_same _ _ HR HM). revert a E. cbv zeta.
    pose proof (good_counter _ 0 (rel_good _ _ HR)) as G. change (has_more (set_counter p 0) = true) in HM.
    set (p0 := set_counter p 0) in *. clearbody p0. clear HR p p'. apply sim_same. intros c F. unfold front in F. apply rd_ok_nth in F.
    destruct (c =? c_quote); [apply sim_string_u; auto; now apply more_nonempty|].
    destruct (N.eqb_spec c c_lbrack) as [->|].
    { now apply (sim_bracket_u false). }
    destruct (N.eqb_spec c c_lbrace) as [->|].
    { now apply (sim_bracket_u true). }
    now apply sim_lit_u.
  Qed.

  Lemma sim_literal_u : forall p p', rel p p' -> sim both (skip_literal CNone true buf p) (skip_literal_u z buf p').
  Proof.
    intros p p' HR a E. unfold skip_literal in E. unfold skip_literal_u.
    destruct (has_more p) eqn:HM; cbn [ensure bind] in E; [|discriminate]. rewrite (rel_same _ _ HR HM). revert a E. cbv zeta.
    pose proof (good_counter _ 0 (rel_good _ _ HR)) as G. change (has_more (set_counter p 0) = true) in HM.
    set (p0 := set_counter p 0) in *. clearbody p0. clear HR p p'. apply sim_same. intros c F. unfold front in F. apply rd_ok_nth in F.
    now apply sim_lit_u.
  Qed.

  (** ** Names *)

  Lemma sim_after_name_u : forall p p', rel p p' -> sim rel (trim_end_of_name buf p) (trim_end_of_name_u buf p').
  Proof.
    intros p p' HR. unfold trim_end_of_name, trim_end_of_name_u.
    apply (sim_bind _ _ rel); [now apply sim_trim_u|]. intros q q' _ _ HQ a E.
    destruct (has_more q) eqn:HM; cbn [ensure bind] in E; [|discriminate]. rewrite (rel_same _ _ HQ HM).
    destruct (front buf q) as [c| | |] eqn:F; cbn [bind] in E; try discriminate. unfold front in F. apply rd_ok_nth in F.
    destruct (N.eqb_spec c c_colon) as [->|]; cbn [ensure bind] in E; [|discriminate].
    revert a E. apply sim_trim_u. apply rel_refl. eapply good_next; eauto; [eapply rel_good; eauto|]. discriminate.
  Qed.

  Lemma sim_name_u : forall g p p', c_ex g = ExConstexpr -> c_excl g = false -> rel p p' ->
    sim pv (parse_name g buf p) (parse_name_u g buf p').
  Proof.
    intros g p p' HX HE HR. unfold parse_name, parse_name_u. intros a E.
    destruct (is_at buf p c_quote) as [b| | |] eqn:EB; cbn [bind] in E; try discriminate. destruct b; cbn [ensure bind] in E; [|discriminate].
    destruct (is_at_true _ _ EB) as (HM & HC). rewrite (rel_same _ _ HR HM). revert a E.
    pose proof (rel_good _ _ HR) as G. pose proof G as (_ & ST & _ & cl & CL & _).
    assert (G1 : good (remove_prefix p 1)) by (eapply good_next; eauto; discriminate).
    unfold parse_name_nq, parse_name_nq_u. rewrite HX, HE. destruct (c_escnames g).
    - apply (sim_bind _ _ (fun a b => a = b /\ good (snd a))).
      + intros [r q] E. assert (HI : in_string buf (remove_prefix p 1) cl).
        { apply (good_string buf L ZD); auto; unfold has_more in HM; cbn [first last remove_prefix set_first] in *; [lia|lia|].
          now replace (first p + 1 - 1)%nat with (first p) by lia. }
        destruct (string_nq_both buf L ZD _ _ _ _ G1 HI E) as (_ & B & _). exists (r, q). split; auto. exact (string_nq_u _ _ _ _ HI E).
      + intros [r q] b _ _ [<- GQ]. apply (sim_bind _ _ rel); [apply sim_after_name_u; now apply rel_refl|].
        intros s s' _ _ HS. apply sim_ok. split; auto.
    - intros a E. set (p1 := remove_prefix p 1) in *. destruct (memchr_checked c_quote buf (first p1) (last p1)) as [j| | |] eqn:EM; cbn [bind] in E; try discriminate.
      cbv zeta in E. destruct (is_at buf (set_first p1 j) c_quote) as [ok| | |] eqn:EO; cbn [bind] in E; try discriminate. destruct ok; [|discriminate].
      destruct (is_at_true _ _ EO) as (HM2 & HJ). cbn [first set_first] in HJ. apply more_lt in HM2. cbn [first last set_first] in HM2.
      pose proof (stops_le _ ST) as LL. destruct ZD as (_ & EL & _).
      rewrite (memchr_both _ _ _ _ _ EM HM2) by (change (last p1) with (last p); lia). cbn [bind].
      destruct j as [|i]; [discriminate|]. destruct (rd buf i) as [b| | |]; cbn [bind] in E; try discriminate. destruct (negb (b =? c_bslash)); cbn [ensure bind] in E; [|discriminate].
      revert a E. apply (sim_bind _ _ rel).
      + apply sim_after_name_u; apply rel_refl. eapply good_next; eauto; [|discriminate]. apply good_at; auto. apply (in_doc buf L ZD) in HJ. exact HJ.
      + intros s s' _ _ HS. apply sim_ok. split; auto.
  Qed.

  (** ** Members *)

  Local Notation found := (found buf L).
  Local Notation msim' := (fun m m' : member => m_name m' = m_name m /\ m_nullable m = false /\ psim (m_parse m) (m_parse m')).

  Lemma trim_checked_runs : forall p q, trim_left_checked buf p = Ok q -> exists j, q = set_first p j /\ (first p <= j)%nat /\ spaces buf (first p) j.
  Proof.
    intros p q E. unfold trim_left_checked in E. destruct (trim_loop _ buf (first p) (last p)) as [j| | |] eqn:T; cbn [bind] in E; try discriminate.
    injection E as <-. apply (trim_c_runs buf L ZD) in T as (A & B & _). eauto.
  Qed.

  (** Where the next member is, memchr for a quote finds it *)
  Lemma move_to_quote : forall p q, move_next buf p = Ok q -> is_at buf q c_quote = Ok true -> move_member_u buf p = Ok q.
  Proof.
    intros p q E Q. destruct (is_at_true _ _ Q) as (_ & HQ). unfold move_next, move_next_member_or_end, move_next_member_or_end_checked in E.
    assert (H : exists j, q = set_first p j /\ (first p <= j)%nat /\ forall k, (first p <= k < j)%nat -> exists b, nth_error buf k = Some b /\ b <> c_quote).
    { assert (SP : forall i j k, spaces buf i j -> (i <= k < j)%nat -> exists b, nth_error buf k = Some b /\ b <> c_quote).
      { intros i j k S K. destruct (S k K) as (b & Hb & B). exists b. split; auto. intros ->. discriminate. }
      destruct (trim_left_checked buf p) as [s| | |] eqn:ET; cbn [bind] in E; try discriminate. destruct (trim_checked_runs _ _ ET) as (i & -> & I1 & I2).
      destruct (is_at buf (set_first p i) c_comma) as [b| | |] eqn:EA; cbn [bind] in E; try discriminate. destruct b.
      - destruct (is_at_true _ _ EA) as (_ & HC). cbn [first set_first] in HC. destruct (trim_checked_runs _ _ E) as (j & -> & J1 & J2). cbn [first set_first remove_prefix] in J1, J2.
        exists j. split; [reflexivity|]. split; [lia|]. intros k K. destruct (Nat.lt_ge_cases k i); [apply (SP _ _ k I2); lia|].
        destruct (Nat.eq_dec k i) as [->|]; [exists c_comma; split; auto; discriminate|]. apply (SP _ _ k J2). lia.
      - injection E as <-. exists i. split; [reflexivity|]. split; [lia|]. intros k K. eapply SP; eauto. }
    destruct H as (j & -> & J1 & J2). unfold move_member_u. rewrite (memchr_runs c_quote buf (first p) j); auto.
  Qed.

  (** A search that stands on no member does not find any *)
  Lemma find_dead : forall g exact names pos p l, isnull (nth pos l no_loc) = true -> is_at buf p c_quote <> Ok true ->
    forall n c, loop (find_body g exact names pos buf) n (p, l) = Ok c -> isnull (nth pos (snd c) no_loc) <> false.
  Proof.
    intros g exact names pos p l HN NQ n c E. destruct n as [|n]; [discriminate|]. cbn [loop] in E. unfold find_body at 1 in E. rewrite HN in E.
    destruct (ps_empty p); cbn [bind negb] in E; [injection E as <-; cbn [snd]; congruence|].
    destruct (front buf p) as [b| | |]; cbn [bind] in E; try discriminate. destruct (negb (b =? c_rbrace)); cbn [negb bind] in E; [|injection E as <-; cbn [snd]; congruence].
    unfold parse_name in E. destruct (is_at buf p c_quote) as [q| | |]; cbn [bind] in E; try discriminate. destruct q; [congruence|discriminate].
  Qed.

  Lemma sim_find_u : forall g exact names pos, c_ex g = ExConstexpr -> c_excl g = false ->
    forall n s s' a, found pos s s' -> loop (find_body g exact names pos buf) n s = Ok a -> isnull (nth pos (snd a) no_loc) = false ->
    exists b, loop (find_body_u z g exact names pos buf) n s' = Ok b /\ found (S pos) a b.
  Proof.
    intros g exact names pos HX HE. apply (sim_loop_until _ _ (found pos) (found (S pos)) (fun a => isnull (nth pos (snd a) no_loc) = false)).
    intros [p l] [p' l'] x [HR HL] E. cbn [fst snd] in HR, HL. unfold find_body in E. unfold find_body_u.
    pose proof (rel_good _ _ HR) as G. rewrite (proj1 (proj2 HL pos)).
    destruct (isnull (nth pos l no_loc)) eqn:EN.
    2:{ cbn [bind negb] in *. injection E as <-. intros _. eexists. split; [reflexivity|]. split; [exact HR|]. now apply (lrel_weaken buf L ZD). }
    rewrite (rel_empty_u _ _ HR). cbn [bind]. destruct (ps_empty p) eqn:EE.
    { cbn [bind negb] in *. injection E as <-. cbn [snd]. congruence. }
    rewrite (rel_same _ _ HR (nonempty_more _ EE)) in *. destruct (front buf p) as [c| | |] eqn:F; cbn [bind] in *; try discriminate.
    destruct (negb (c =? c_rbrace)); cbn [negb] in *; [|injection E as <-; cbn [snd]; congruence].
    destruct (parse_name g buf p) as [[nm q]| | |] eqn:EP; cbn [bind] in E; try discriminate.
    destruct (sim_name_u g p p HX HE (rel_refl _ G) _ EP) as ([nm' q'] & -> & EM & HQ). cbn [fst snd] in EM, HQ. subst nm'. cbn [bind]. cbv zeta in *.
    set (k := find_name (c_force g) false names pos nm) in *.
    destruct (length names <=? k)%nat.
    - destruct exact; [discriminate|]. destruct (skip_val g buf q) as [[r s]| | |] eqn:ES; cbn [bind] in E; try discriminate.
      destruct (sim_skip_val_u g q q' HX HE HQ _ ES) as ([r' s'] & -> & _ & HS). cbn [snd bind] in *.
      destruct (move_next buf s) as [u| | |] eqn:EMN; cbn [bind] in E; try discriminate. injection E as <-.
      destruct (sim_move_next_u _ _ HS _ EMN) as (u' & -> & HU). left. eexists. split; [reflexivity|]. split; auto.
    - destruct (Nat.eqb_spec k pos) as [EK|NK].
      + injection E as <-. intros _. eexists. split; [reflexivity|]. split; [exact HQ|]. cbn [snd]. apply (lrel_here buf L ZD); auto. eapply (rel_isnull buf L ZD); eauto.
      + destruct (skip_val g buf q) as [[r s]| | |] eqn:ES; cbn [bind] in E; try discriminate.
        destruct (sim_skip_val_u g q q' HX HE HQ _ ES) as ([r' s'] & -> & HLr & HS). cbn [fst snd bind] in *.
        destruct (move_next buf s) as [u| | |] eqn:EMN; cbn [bind] in E; try discriminate. injection E as <-.
        destruct (sim_move_next_u _ _ HS _ EMN) as (u' & EU' & HU).
        assert (LS : lrel pos (set_nth l k r) (set_nth l' k r')) by now apply (lrel_set buf L ZD).
        destruct (k + 1 <? length names)%nat; [|left; rewrite EU'; eexists; split; [reflexivity|]; split; auto].
        assert (D : is_at buf u c_quote = Ok true \/ is_at buf u c_quote <> Ok true).
        { destruct (is_at buf u c_quote) as [[]| | |]; [left; reflexivity|right; discriminate|right; discriminate|right; discriminate|right; discriminate]. }
        destruct D as [Q|NQ].
        * left. assert (SE : s' = s).
          { apply (rel_same _ _ HS). destruct (has_more s) eqn:HM; auto. exfalso. destruct (is_at_true _ _ Q) as (HMU & _).
            unfold move_next, move_next_member_or_end, move_next_member_or_end_checked, trim_left_checked in EMN. unfold has_more in HM. cbn [trim_loop] in EMN. rewrite HM in EMN. cbn [bind] in EMN.
            assert (HM2 : has_more (set_first s (first s)) = false) by exact HM. unfold is_at in EMN. rewrite HM2 in EMN. cbn [bind] in EMN. injection EMN as <-. congruence. }
          subst s'. rewrite (move_to_quote _ _ EMN Q). cbn [bind]. eexists. split; [reflexivity|]. split; [|exact LS]. apply rel_refl. exact (rel_good _ _ HU).
        * right. intros n c0 EC. apply (find_dead g exact names pos u (set_nth l k r)) with (n := n); auto.
          rewrite (nth_set_other buf L ZD) by lia. exact EN.
  Qed.

  Lemma sim_member_u : forall g exact names pos nullable P Q p p' l l', c_ex g = ExConstexpr -> c_excl g = false ->
    psim P Q -> rel p p' -> lrel pos l l' ->
    sim (fun a b => fst (fst a) = fst (fst b) /\ rel (snd (fst a)) (snd (fst b)) /\ lrel (S pos) (snd a) (snd b))
      (parse_class_member g exact names pos false P buf p l) (parse_class_member_u z g exact names pos nullable Q buf p' l').
  Proof.
    intros g exact names pos nullable P Q p p' l l' HX HE [PU PK] HR HL. unfold parse_class_member, parse_class_member_u.
    apply (sim_bind _ _ rel); [now apply sim_move_next_u|]. intros q q' _ _ HQ. clear p p' HR. pose proof (rel_good _ _ HQ) as G.
    intros a E. destruct (ps_empty q) eqn:EE; [discriminate|].
    rewrite (rel_same _ _ HQ (nonempty_more _ EE)). clear q' HQ EE. destruct (front buf q) as [c| | |]; cbn [bind] in E; try discriminate.
    destruct ((c =? c_quote) || (c =? c_rbrace)); cbn [ensure bind] in E; [|discriminate].
    unfold find_class_member in E. unfold find_class_member_u. destruct (is_at buf q c_rbrace) as [brace| | |]; cbn [bind] in E; try discriminate.
    destruct (_ || negb brace); cbn [ensure bind] in E; [|discriminate].
    destruct (trim_left_unchecked buf q) as [u| | |] eqn:EU; cbn [bind] in *; try discriminate. pose proof (trim_unchecked_good buf L ZD _ _ G EU) as GU.
    cbv zeta in *. rewrite (proj1 (proj2 HL pos)).
    destruct (loop (find_body g exact names pos buf) (S (length buf)) (u, l)) as [[w m]| | |] eqn:EL; cbn [bind] in E; try discriminate.
    destruct (isnull (nth pos m no_loc)) eqn:EM.
    { exfalso. destruct (isnull (nth pos l no_loc)); cbn [negb orb] in E; discriminate. }
    destruct (isnull (nth pos l no_loc)) eqn:EN; cbn [negb orb] in *.
    - destruct (sim_find_u g exact names pos HX HE _ _ _ _ (conj (rel_refl _ GU) HL : found pos (u, l) (u, l')) EL EM) as ([w' m'] & -> & HW & HM').
      cbn [fst snd bind] in *. rewrite (proj1 (proj2 HM' pos)), EM. cbn [negb].
      revert a E. apply (sim_bind _ _ pv); [now apply PU|]. intros [v s] [v' s'] _ _ [EV HS]. cbn [fst snd] in EV, HS. subst. apply sim_ok. cbn [fst snd]. auto.
    - cbn [loop] in *. unfold find_body at 1 in EL. unfold find_body_u at 1. rewrite (proj1 (proj2 HL pos)). rewrite EN in *. cbn [bind negb] in *. injection EL as <- <-.
      destruct (proj2 (proj2 HL pos) ltac:(lia) EN) as [EQ LO]. rewrite EQ, EN. 
      revert a E. apply (sim_bind _ _ (fun a b => fst a = fst b)); [now apply PK|].
      intros [v s] [v' s'] _ _ EV. cbn [fst] in EV. subst. apply sim_ok. cbn [fst snd]. split; auto. split; [now apply rel_refl|]. now apply (lrel_weaken buf L ZD).
  Qed.

  Lemma sim_members_u : forall g exact names ms ms', c_ex g = ExConstexpr -> c_excl g = false -> Forall2 msim' ms ms' ->
    forall pos p p' l l', rel p p' -> lrel pos l l' ->
    sim pv (parse_members g exact names pos ms buf p l) (parse_members_u z g exact names pos ms' buf p' l').
  Proof.
    intros g exact names ms ms' HX HE HF. induction HF as [|m m' ms ms' (EN & ENu & HP) _ IH]; intros pos p p' l l' HR HL; cbn [parse_members parse_members_u].
    - apply sim_ok. split; auto.
    - rewrite ENu. eapply sim_bind; [apply sim_member_u; eauto|]. intros [[v q] m1] [[v' q'] m1'] _ _ (EV & HQ & HL'). cbn [fst snd] in *. subst v'.
      apply (sim_bind _ _ pv); [now apply IH|]. intros [vs s] [vs' s'] _ _ [EVs HS]. cbn [fst snd] in *. subst. apply sim_ok. split; auto.
  Qed.

  (** ** Classes *)

  Lemma sim_move_to_u : forall g p p', c_ex g = ExConstexpr -> rel p p' ->
    sim (fun a b => b = a /\ good a /\ has_more a = true) (move_to_next_class_member g buf p) (move_to_next_class_member_u buf p').
  Proof.
    intros g p p' HX HR. unfold move_to_next_class_member, move_to_next_class_member_u. rewrite HX. intros q E.
    destruct (has_more p) eqn:HM; cbn [ensure bind] in E; [|discriminate]. rewrite (rel_same _ _ HR HM).
    pose proof (rel_good _ _ HR) as G. pose proof G as (NN & ST & LF & CL). pose proof (stops_le _ ST) as LL. pose proof (more_lt _ HM) as LT.
    pose proof ZD as (_ & EL & _ & NZ & _).
    destruct (loop _ _ (first p)) as [j| | |] eqn:EJ in E; cbn [bind] in E; try discriminate. injection E as <-.
    destruct (move_to_both buf L ZD _ _ _ _ LL LT EJ) as (A & _ & C). rewrite C by lia. cbn [bind]. eexists; split; [reflexivity|].
    split; [reflexivity|]. split; [apply good_at; auto; lia|]. unfold has_more. cbn [first last set_first]. lia.
  Qed.

  Lemma sim_cleanup_u : forall g exact a l p p', c_ex g = ExConstexpr -> rel p p' -> (l <= S L)%nat ->
    sim rel (class_cleanup_now g exact (a, Some l) buf p) (class_cleanup_now_u z exact (a, Some l) buf p').
  Proof.
    intros g exact a l p p' HX HR LE. unfold class_cleanup_now, class_cleanup_now_u. intros x E.
    destruct (has_more p); cbn [ensure bind] in E; [|discriminate]. revert x E.
    apply (sim_bind _ _ rel); [now apply sim_move_next_u|]. intros q q' _ _ HQ.
    eapply sim_bind; [apply (sim_move_to_u g); eauto|]. intros s s' _ _ (-> & GS & HMS).
    apply (sim_bind _ _ rel).
    - destruct exact.
      + intros x E. destruct (front buf s) as [c| | |] eqn:F; cbn [bind] in E; try discriminate. unfold front in F. apply rd_ok_nth in F.
        destruct (N.eqb_spec c c_rbrace) as [->|]; cbn [ensure bind] in E; [|discriminate]. injection E as <-. eexists. split; [reflexivity|]. apply rel_refl.
        eapply good_next; eauto. discriminate.
      + rewrite HX. intros x E. unfold skip_class in *. destruct (skip_bracketed CNone true ExConstexpr true buf s) as [[r u]| | |] eqn:EU; cbn [bind] in E; try discriminate.
        injection E as <-. rewrite (bracket_u true s r u GS HMS EU). cbn [bind]. eexists. split; [reflexivity|]. apply rel_refl. exact (brackets_end buf L ZD true s r u GS HMS EU).
    - intros u u' _ _ HU. apply (sim_bind _ _ rel); [now apply sim_trim_end|]. intros w w' _ _ HW. apply sim_ok. now apply (rel_class buf L ZD).
  Qed.

  Lemma names_msim_u : forall ms ms', Forall2 msim' ms ms' -> map m_name ms' = map m_name ms.
  Proof. induction 1 as [|m m' ms ms' (E & _) _ IH]; cbn [map]; congruence. Qed.
  Lemma locs_msim_u : forall ms ms', Forall2 msim' ms ms' -> map (fun _ => no_loc) ms' = map (fun _ => no_loc) ms.
  Proof. induction 1 as [|m m' ms ms' _ _ IH]; cbn [map]; congruence. Qed.

  Lemma sim_json_class_u : forall g exact ms ms' p p', c_ex g = ExConstexpr -> c_excl g = false -> Forall2 msim' ms ms' -> rel p p' ->
    sim pv (parse_json_class g exact ms buf p) (parse_json_class_u z g exact ms' buf p').
  Proof.
    intros g exact ms ms' p p' HX HE HF HR. unfold parse_json_class, parse_json_class_u.
    apply (sim_bind _ _ rel); [now apply sim_trim_u|]. intros q q' _ _ HQ. clear p p' HR. intros a E.
    destruct (is_at buf q c_lbrace) as [b| | |] eqn:EB; cbn [bind] in E; try discriminate. destruct b; cbn [ensure bind] in E; [|discriminate]. revert a E.
    destruct (is_at_true _ _ EB) as (HM & HC). rewrite (rel_same _ _ HQ HM). cbv zeta.
    pose proof (rel_good _ _ HQ) as G. pose proof G as (NN & ST & LF & cl & CL & LCL). pose proof (stops_le _ ST) as LL.
    rewrite CL. rewrite (names_msim_u _ _ HF), (locs_msim_u _ _ HF).
    apply (sim_bind _ _ rel).
    { apply sim_trim_u. apply rel_refl. eapply good_next with (c := c_lbrace); auto; [|discriminate]. apply good_class; auto. }
    intros s s' _ _ HS. apply (sim_bind _ _ pv); [apply sim_members_u; auto; apply (lrel_start buf L ZD)|].
    intros [vs u] [vs' u'] _ _ [EV HU]. cbn [fst snd] in EV, HU. subst.
    apply (sim_bind _ _ rel); [now apply sim_cleanup_u|]. intros w w' _ _ HW. apply sim_ok. split; auto.
  Qed.

  Lemma sim_class_u : forall g exact ms ms' p p', c_ex g = ExConstexpr -> c_excl g = false -> Forall2 msim' ms ms' -> rel p p' ->
    sim pv (parse_value_class g exact ms false buf p) (parse_value_class_u z g exact ms' false buf p').
  Proof.
    intros g exact ms ms' p p' HX HE HF HR. unfold parse_value_class, parse_value_class_u. intros a E.
    destruct (has_more p); cbn [ensure bind] in E; [|discriminate]. revert a E. apply (sim_bind _ _ pv); [now apply sim_json_class_u|].
    intros [v s] [v' s'] _ _ [EV HS]. cbn [fst snd] in EV, HS. subst. apply (sim_bind _ _ rel); [now apply sim_trim_end|]. intros w w' _ _ HW. apply sim_ok. split; auto.
  Qed.

  Lemma sim_class_known_u : forall g exact ms ms' p, c_ex g = ExConstexpr -> c_excl g = false -> Forall2 msim' ms ms' -> good p ->
    sim (fun a b => fst a = fst b) (parse_value_class g exact ms true buf p) (parse_value_class_u z g exact ms' true buf p).
  Proof.
    intros g exact ms ms' p HX HE HF G. unfold parse_value_class, parse_value_class_u. intros a E.
    destruct (has_more p); cbn [ensure bind] in E; [|discriminate]. revert a E. apply (sim_bind _ _ pv); [apply sim_json_class_u; auto; now apply rel_refl|].
    intros [v s] [v' s'] _ _ [EV HS]. cbn [fst snd] in EV, HS. subst. apply sim_ok. reflexivity.
  Qed.
End Sim.
