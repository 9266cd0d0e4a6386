(** The bracket scan and the skipping of values on the document with comments and
    on the one with spaces in their place. *)
From Coq Require Import List NArith ZArith Bool Lia Arith ZifyBool ZifyNat ZifyN.
From Verif Require Import Base Mem Loop PolicyModel IntModel StrScanModel SkipModel SpecNum SpecText SpecJson SpecC
  IntProofs IntValueProofs StrScanProofs StrScanProofs2 SkipProofs SkipSafe GapProofs PropertiesStr PropertiesSkip ClassProofs ValueModel
  ZInt CModel CLex CTrim CState CSkip.
Import ListNotations.
Local Open Scope N_scope.
Set Default Proof Using "All".

Section Two.
  Context (cp : pol) (D B : list N).
  Hypothesis T : two cp D B.

  Local Notation step := (step cp D B).
  Local Notation reach := (reach cp D B).
  Local Notation repeat_at := (repeat_at cp D B T).
  Local Notation comment_head := (comment_head cp D B T).
  Local Notation comment_len := (comment_len cp D B T).
  Local Notation reach_le := (reach_le cp D B T).
  Local Notation reach_trans := (reach_trans cp D B T).
  Local Notation reach_one := (reach_one cp D B T).
  Local Notation step_lt := (step_lt cp D B T).
  Local Notation step_byte := (step_byte cp D B T).
  Local Notation step_quote := (step_quote cp D B T).
  Local Notation reach_prev := (reach_prev cp D B T).
  Local Notation step_same := (step_same cp D B T).
  Local Notation same := (same cp).
  Local Notation same_eqb := (same_eqb cp D B T).
  Local Notation same_digit := (same_digit cp D B T).
  Local Notation step_prev := (step_prev cp D B T).
  Local Notation prev := (prev D B).
  Local Notation plainly := (plainly cp D B).
  Local Notation spaces := (spaces B).
  Local Notation step_plainly := (step_plainly cp D B T).
  Local Notation opening_spec := (opening_spec cp D B T).
  Local Notation LEN := (LEN cp D B T).
  Local Notation HBD := (HBD cp D B T).
  Local Notation HBBt := (HBBt cp D B T).
  Local Notation NCPt := (NCPt cp D B T).
  Local Notation H32 := (H32 cp D B T).
  Local Notation both := (both cp D B).
  Local Notation both_at := (both_at cp D B T).
  Local Notation same_pd := (same_pd cp D B T).
  Local Notation fin := (fin cp D B).
  Local Notation st := (st cp D B).
  Local Notation st_le := (st_le cp D B T).
  Local Notation st_wf := (st_wf cp D B T).
  Local Notation st_moved := (st_moved cp D B T).
  Local Notation st_both := (st_both cp D B T).
  Local Notation sp_front := (sp_front cp D B T).
  Local Notation sp_is_at := (sp_is_at cp D B T).
  Local Notation after_trim := (after_trim cp D B).
  Local Notation sp_trim := (sp_trim cp D B T).
  Local Notation st_step := (st_step cp D B T).
  Local Notation run_bytes := (run_bytes cp D B T).
  Local Notation st_bytes := (st_bytes cp D B T).
  Local Notation ended_plainly := (ended_plainly cp D B T).
  Local Notation sp_starts := (sp_starts cp D B T).
  Local Notation sp_after := (sp_after cp D B T).

  Local Notation agree := (agree D B).
  Local Notation rng := (rng cp D B).
  Local Notation skipped := (skipped cp D B).
  Local Notation sp_number := (sp_number cp D B T).
  Local Notation sp_bool := (sp_bool cp D B T).
  Local Notation sp_null := (sp_null cp D B T).
  Local Notation sp_string := (sp_string cp D B T).
  Local Notation st_quote := (st_quote cp D B T).
  Local Notation moved_trim := (moved_trim cp D B T).

  Section Scan.
  Context (obj : bool) (l : nat).
  Hypothesis LB : (l <= length B)%nat.

  Local Notation bodyB := (br_body CNone true ExConstexpr obj B l).
  Local Notation bodyD := (br_body (brk cp) true ExConstexpr obj D l).

  Lemma same_turn : forall s c, (b_i s < l)%nat -> nth_error B (b_i s) = Some c -> nth_error D (b_i s) = Some c -> c <> 34 -> opening cp c = false ->
    bodyD s = bodyB s.
  Proof.
    intros s c LT Hb Hd NQ OP. unfold br_body. cbn [negb orb]. destruct (Nat.ltb_spec (b_i s) l); [|lia].
    rewrite (rd_some _ _ _ Hb), (rd_some _ _ _ Hd). cbn [bind]. replace (c =? c_quote) with false by (unfold c_quote; lia).
    destruct (pol_cases cp D B T) as [EM|[EM|EM]]; rewrite EM in *; cbn [opening opens brk] in *; unfold c_slash, c_hash; rewrite ?OP; reflexivity.
  Qed.

  Lemma turn_byte : forall s c r, (b_i s < l)%nat -> nth_error B (b_i s) = Some c -> c <> 34 -> c <> 92 -> b_prime s <> 0 -> b_prime s + 1 < 2^32 ->
    bodyB s = Ok r ->
    match r with inl s' => b_i s' = S (b_i s) /\ b_prime s' <> 0 /\ b_prime s' <= b_prime s + 1 | inr (j, _) => j = S (b_i s) /\ c = right_of obj end.
  Proof.
    intros s c r LT Hb NQ NS NP PR E. unfold br_body in E. cbn [negb orb] in E. destruct (Nat.ltb_spec (b_i s) l); [|lia].
    rewrite (rd_some _ _ _ Hb) in E. cbn [bind] in E. replace (c =? c_quote) with false in E by (unfold c_quote; lia). replace (c =? c_bslash) with false in E by (unfold c_bslash; lia).
    destruct (c =? c_comma); [injection E as <-; cbn [b_i b_prime]; lia|].
    destruct (c =? left_of obj).
    { injection E as <-. cbn [b_i b_prime]. unfold w32. rewrite N.mod_small by exact PR. lia. }
    destruct (N.eqb_spec c (right_of obj)) as [->|].
    { assert (W : w32 (b_prime s + 2^32 - 1) = b_prime s - 1).
      { unfold w32. clear - NP PR. set (x := b_prime s) in *. change (2^32) with 4294967296 in *. lia. }
      rewrite W in E. destruct (N.eqb_spec (b_prime s - 1) 0) as [Z|Z].
      - destruct (b_second s =? 0); cbn [ensure bind] in E; [|discriminate]. injection E as <-. auto.
      - injection E as <-. cbn [b_i b_prime]. lia. }
    destruct (c =? left_of (negb obj)); [injection E as <-; cbn [b_i b_prime]; lia|].
    destruct (c =? right_of (negb obj)); [injection E as <-; cbn [b_i b_prime]; lia|].
    injection E as <-. cbn [at_i b_i b_prime]. lia.
  Qed.

  Lemma turn_space : forall q buf s c, (b_i s < l)%nat -> nth_error buf (b_i s) = Some c -> c <= 32 ->
    br_body q true ExConstexpr obj buf l s = Ok (inl (at_i s (S (b_i s)))).
  Proof.
    intros q buf s c LT Hb HC. unfold br_body. cbn [negb orb]. destruct (Nat.ltb_spec (b_i s) l); [|lia].
    rewrite (rd_some _ _ _ Hb). cbn [bind]. unfold c_bslash, c_quote, c_comma, left_of, right_of, c_lbrace, c_lbrack, c_rbrace, c_rbrack, c_slash, c_hash.
    replace (c =? 92) with false by lia. replace (c =? 34) with false by lia. replace (c =? 44) with false by lia.
    destruct obj; cbn [negb]; replace (c =? 123) with false by lia; replace (c =? 125) with false by lia; replace (c =? 91) with false by lia; replace (c =? 93) with false by lia;
      replace (c =? 47) with false by lia; replace (c =? 35) with false by lia; destruct q; reflexivity.
  Qed.

  Lemma at_i_eq : forall s, at_i s (b_i s) = s.
  Proof. intros []. reflexivity. Qed.

  Lemma B_spaces : forall n s f r, (forall k, (b_i s <= k < b_i s + n)%nat -> exists c, nth_error B k = Some c /\ c <= 32) -> (b_i s + n <= l)%nat ->
    loop bodyB f s = Ok r -> exists f', loop bodyB f' (at_i s (b_i s + n)) = Ok r.
  Proof.
    induction n as [|n IH]; intros s f r HS HL E.
    - exists f. rewrite Nat.add_0_r, at_i_eq. exact E.
    - destruct f as [|f]; [discriminate|]. cbn [loop] in E. destruct (HS (b_i s) ltac:(lia)) as (c & Hc & C).
      rewrite (turn_space CNone B s c ltac:(lia) Hc C) in E. cbn [bind] in E.
      destruct (IH (at_i s (S (b_i s))) f r) as (f' & E'); cbn [at_i b_i] in *; [intros k K; apply HS; lia|lia|exact E|].
      exists f'. replace (b_i s + S n)%nat with (S (b_i s) + n)%nat by lia. exact E'.
  Qed.

  Lemma turn_string : forall q buf s t, is_bytes buf -> (l <= length buf)%nat -> str_body t -> sub_at buf (b_i s) (34 :: t ++ [34]) -> (b_i s + length t + 2 <= l)%nat ->
    br_body q true ExConstexpr obj buf l s = Ok (inl (at_i s (b_i s + length t + 2))).
  Proof.
    intros q buf s t HB HLb HT [HQ HS] HL. unfold br_body. cbn [negb orb]. destruct (Nat.ltb_spec (b_i s) l); [|lia].
    rewrite (rd_some _ _ _ HQ). cbn [bind]. change (34 =? c_bslash) with false. change (34 =? c_quote) with true. cbn iota.
    unfold skip_str. rewrite (cx_skip_ok true t buf (S (b_i s)) l HT HS) by lia. cbn [bind].
    apply sub_at_app in HS as [_ [HS _]].
    assert (EL : (S (b_i s) + length t <? l)%nat = true) by (apply Nat.ltb_lt; lia).
    assert (EQ : S (S (b_i s) + length t) = (b_i s + length t + 2)%nat) by lia.
    destruct q; rewrite EL, ?(rd_some _ _ _ HS); cbn [bind]; [change (34 =? c_quote) with true| |]; cbn [ensure bind]; rewrite EQ; reflexivity.
  Qed.

  (** Comments inside *)

  Lemma line_inside : forall b i, ~ In 10 b -> sub_at D i (47 :: 47 :: b ++ [10]) -> (i + length b + 3 <= l)%nat ->
    br_cpp_checked D i l = Ok (i + length b + 2)%nat.
  Proof.
    intros b i NB (S1 & S2 & S3) HL. unfold br_cpp_checked. replace (S i <? l)%nat with true by lia. cbn [ensure bind].
    rewrite (rd_some _ _ _ S2). cbn [bind]. change (47 =? c_slash) with true. cbn iota.
    assert (G : forall u j f, ~ In 10 u -> sub_at D j (u ++ [10]) -> (j + length u < l)%nat -> (l - j < f)%nat ->
      loop (fun i => if (1 <? l - i)%nat then b <- rd D i ;; Ok (if negb (b =? c_nl) then inl (S i) else inr i) else Ok (inr i)) f j = Ok (j + length u)%nat).
    { induction u as [|c u IH]; intros j f NU HS HLj LF; (destruct f as [|f]; [lia|]); cbn [loop length] in *.
      - destruct HS as [HS _]. rewrite Nat.add_0_r. destruct (1 <? l - j)%nat; [|reflexivity]. rewrite (rd_some _ _ _ HS). cbn [bind]. reflexivity.
      - destruct HS as [Hc HS]. replace (1 <? l - j)%nat with true by lia. rewrite (rd_some _ _ _ Hc). cbn [bind].
        assert (c <> 10) by (intros ->; apply NU; now left). replace (c =? c_nl) with false by (unfold c_nl; lia). cbn [negb bind].
        rewrite (IH (S j) f); [f_equal; lia|intros X; apply NU; now right|exact HS|lia|lia]. }
    rewrite (G b (S (S i)) _ NB S3) by lia. f_equal. lia.
  Qed.

  Lemma block_inside : forall b i, ~ In 42 b -> ~ In 47 b -> sub_at D i (47 :: 42 :: b ++ [42; 47]) -> (i + length b + 5 <= l)%nat ->
    br_cpp_checked D i l = Ok (i + length b + 2)%nat.
  Proof.
    intros b i N1 N2 (S1 & S2 & S3) HL. unfold br_cpp_checked. replace (S i <? l)%nat with true by lia. cbn [ensure bind].
    rewrite (rd_some _ _ _ S2). cbn [bind]. change (42 =? c_slash) with false. change (42 =? c_star) with true. cbn iota.
    assert (G : forall u j f, ~ In 42 u -> ~ In 47 u -> sub_at D j (u ++ [42; 47]) -> (j + length u + 3 <= l)%nat -> (l - j < f)%nat ->
      loop (fun i => if (3 <=? l - i)%nat then b <- rd D i ;; if negb (b =? c_star) then d <- rd D (S i) ;; Ok (if negb (d =? c_slash) then inl (S i) else inr i) else Ok (inr i) else Ok (inr i)) f j = Ok (j + length u)%nat).
    { induction u as [|c u IH]; intros j f NU NV HS HLj LF; (destruct f as [|f]; [lia|]); cbn [loop length] in *.
      - destruct HS as [HS _]. rewrite Nat.add_0_r. replace (3 <=? l - j)%nat with true by lia. rewrite (rd_some _ _ _ HS). cbn [bind]. reflexivity.
      - destruct HS as [Hc HS]. replace (3 <=? l - j)%nat with true by lia. rewrite (rd_some _ _ _ Hc). cbn [bind].
        assert (c <> 42) by (intros ->; apply NU; now left). replace (c =? c_star) with false by (unfold c_star; lia). cbn [negb].
        assert (exists d, nth_error D (S j) = Some d /\ d <> 47) as (d & Hd & ND).
        { destruct u as [|d u]; destruct HS as [HS _]; [exists 42; split; auto; lia|]. exists d. split; auto. intros ->. apply NV. right. now left. }
        rewrite (rd_some _ _ _ Hd). cbn [bind]. replace (d =? c_slash) with false by (unfold c_slash; lia). cbn [negb bind].
        rewrite (IH (S j) f); [f_equal; lia|intros X; apply NU; now right|intros X; apply NV; now right|exact HS|lia|lia]. }
    rewrite (G b (S (S i)) _ N1 N2 S3) by lia. f_equal. lia.
  Qed.

  Lemma slash_turn : forall s c, cp = Com CCpp -> nth_error D (b_i s) = Some 47 -> nth_error D (S (b_i s)) = Some c -> c <> 47 -> c <> 42 -> (S (b_i s) < l)%nat ->
    bodyD s = Ok (inl (at_i s (b_i s + 3))).
  Proof.
    intros s c CC H1 H2 N1 N2 HL. unfold br_body. cbn [negb orb]. destruct (Nat.ltb_spec (b_i s) l); [|lia].
    rewrite (rd_some _ _ _ H1). cbn [bind]. rewrite CC. cbn [brk]. unfold c_bslash, c_quote, c_comma, left_of, right_of, c_lbrace, c_lbrack, c_rbrace, c_rbrack, c_slash, c_hash.
    assert (E : br_cpp_checked D (b_i s) l = Ok (b_i s + 2)%nat).
    { unfold br_cpp_checked. replace (S (b_i s) <? l)%nat with true by lia. cbn [ensure bind]. rewrite (rd_some _ _ _ H2). cbn [bind].
      replace (c =? c_slash) with false by (unfold c_slash; lia). replace (c =? c_star) with false by (unfold c_star; lia). f_equal. lia. }
    destruct obj; cbn; rewrite E; cbn [bind]; replace (S (b_i s + 2)) with (b_i s + 3)%nat by lia; reflexivity.
  Qed.

  Lemma comment_turn : forall s j, cp = Com CCpp -> (b_i s < l)%nat -> nth_error D (b_i s) = Some 47 -> br_cpp_checked D (b_i s) l = Ok j ->
    bodyD s = Ok (inl (at_i s (S j))).
  Proof.
    intros s j CC LT H1 E. unfold br_body. cbn [negb orb]. destruct (Nat.ltb_spec (b_i s) l); [|lia].
    rewrite (rd_some _ _ _ H1). cbn [bind]. rewrite CC. cbn [brk]. unfold c_bslash, c_quote, c_comma, left_of, right_of, c_lbrace, c_lbrack, c_rbrace, c_rbrack, c_slash, c_hash.
    destruct obj; cbn; rewrite E; reflexivity.
  Qed.

  Lemma hash_turn : forall s j, cp = Com CHash -> (b_i s < l)%nat -> nth_error D (b_i s) = Some 35 -> memchr_checked 10 D (S (b_i s)) l = Ok j -> (j < l)%nat ->
    bodyD s = Ok (inl (at_i s j)).
  Proof.
    intros s j CC LT H1 E HJ. unfold br_body. cbn [negb orb]. destruct (Nat.ltb_spec (b_i s) l); [|lia].
    rewrite (rd_some _ _ _ H1). cbn [bind]. rewrite CC. cbn [brk]. unfold c_bslash, c_quote, c_comma, left_of, right_of, c_lbrace, c_lbrack, c_rbrace, c_rbrack, c_slash, c_hash, c_nl.
    apply Nat.ltb_lt in HJ. destruct obj; cbn -[memchr_checked Nat.ltb]; rewrite E; cbn [bind]; rewrite HJ; reflexivity.
  Qed.

  Lemma at_at : forall s i j, at_i (at_i s i) j = at_i s j.
  Proof. reflexivity. Qed.

  Lemma ws_step : forall x i y c, reach x i y l -> (i < l)%nat -> nth_error B i = Some c -> nth_error D i = Some c -> c <= 32 -> exists z, step x i z (S i) /\ reach z (S i) y l.
  Proof.
    intros x i y c R LT Hb Hd C. inversion R as [|? ? z j ? ? ST HR]; subst; [lia|].
    inversion ST as [x' i' b E1 E2 M1 M2 O|x' i' s HS S1 S2|x' i' k n w A C' W LW S1 S2]; subst.
    - eauto.
    - destruct S1 as [S1 _]. assert (c = 34) by congruence. lia.
    - exfalso. destruct (comment_head _ _ C') as (c0 & r & E & O). rewrite E in S1. destruct S1 as [S1 _].
      assert (c0 = c) by congruence. subst. apply opening_spec in O. lia.
  Qed.

  Lemma end_fails : forall f s r, (l <= b_i s)%nat -> b_prime s <> 0 -> loop bodyB f s = Ok r -> False.
  Proof.
    intros f s r LE NP E. destruct f as [|f]; [discriminate|]. cbn [loop] in E. unfold br_body at 1 in E. cbn [negb orb] in E.
    destruct (Nat.ltb_spec (b_i s) l); [lia|]. replace (b_prime s =? 0) with false in E by lia. discriminate.
  Qed.

  Lemma comment_cases : forall k n, comment cp k n ->
    (exists b, Com CHash = cp /\ ~ In 10 b /\ 35 :: b ++ [10] = k) \/ (exists b, Com CCpp = cp /\ ~ In 10 b /\ 47 :: 47 :: b ++ [10] = k) \/
    (exists b, Com CCpp = cp /\ ~ In 42 b /\ ~ In 47 b /\ 47 :: 42 :: b ++ [42; 47] = k /\ n = 2%nat).
  Proof.
    intros k n C. destruct C as [b NB|b NB|b N1 N2]; [left|right; left|right; right]; exists b; auto 6.
  Qed.

  Definition scanned x i y j : Prop := exists z k, reach x i z j /\ reach z j y l /\ (i < j)%nat /\ j = S k /\ nth_error B k = Some (right_of obj).

  Lemma scanned_from : forall x i z i' y j, reach x i z i' -> scanned z i' y j -> scanned x i y j.
  Proof.
    intros x i z i' y j R (z' & k & R1 & R2 & LT & E & N). apply reach_le in R as LE. exists z', k. repeat split; auto; [eapply reach_trans; eauto|lia].
  Qed.

  Lemma scan : forall n s x y fB fD j cnt, (l - b_i s <= n)%nat -> (l - b_i s < fD)%nat -> reach x (b_i s) y l ->
    b_prime s <> 0 -> b_prime s <= N.of_nat (b_i s) + 1 -> loop bodyB fB s = Ok (j, cnt) ->
    loop bodyD fD s = Ok (j, cnt) /\ scanned x (b_i s) y j.
  Proof.
    induction n as [|n IH]; intros s x y fB fD j cnt LN LF R NP PR E; pose proof (reach_le _ _ _ _ R) as LE.
    { exfalso. eapply (end_fails fB s); eauto. lia. }
    destruct (Nat.eq_dec (b_i s) l) as [EL|NL]; [exfalso; eapply (end_fails fB s); eauto; lia|].
    destruct fD as [|fD]; [lia|].
    assert (PR' : b_prime s + 1 < 2^32).
    { pose proof T as (_ & _ & _ & _ & X). clear - X PR NL LE LB. change (2^32) with 4294967296 in *. lia. }
    inversion R as [|? ? z i' ? ? ST HR]; subst; [lia|].
    inversion ST as [x' i0 b E1 E2 M1 M2 O|x' i0 t HS S1 S2|x' i0 k m w A C W LW S1 S2]; subst.
    - (* one byte *)
      destruct fB as [|fB]; [discriminate|]. cbn [loop] in *. rewrite (same_turn s b) by (auto; lia).
      destruct (bodyB s) as [r| | |] eqn:EB; cbn [bind] in E; try discriminate.
      pose proof (turn_byte s b r ltac:(lia) E2 M1 M2 NP PR' EB) as TB. cbn [bind]. destruct r as [s'|[j' cnt']].
      + destruct TB as (I' & NP' & PP). destruct (IH s' (after x b) y fB fD j cnt) as (EF & SC); auto; try lia; [rewrite I'; exact HR|].
        split; [exact EF|]. rewrite I' in SC. eapply scanned_from; [apply reach_one; exact ST|exact SC].
      + destruct TB as [-> TB]. injection E as <- <-. split; [reflexivity|]. exists (after x b), (b_i s).
        split; [apply reach_one; exact ST|]. split; [exact HR|]. split; [lia|]. split; [reflexivity|]. now rewrite E2, TB.
    - (* a string *)
      apply reach_le in HR as LJ. destruct fB as [|fB]; [discriminate|]. cbn [loop] in *. pose proof LEN as LD.
      rewrite (turn_string CNone B s t HBBt LB HS S2 LJ) in E. rewrite (turn_string (brk cp) D s t HBD ltac:(lia) HS S1 LJ). cbn [bind] in *.
      destruct (IH (at_i s (b_i s + length t + 2)) Anywhere y fB fD j cnt) as (EF & SC); cbn [at_i b_i b_prime] in *; auto; try lia.
      split; [exact EF|]. eapply scanned_from; [apply reach_one; exact ST|exact SC].
    - (* a comment *)
      apply reach_le in HR as LJ. apply sub_at_app in S1 as [S1 S1w]. apply sub_at_app in S2 as [S2 S2w]. rewrite repeat_length in S2w.
      assert (KS : forall k', (b_i s <= k' < b_i s + length k)%nat -> exists c, nth_error B k' = Some c /\ c <= 32).
      { intros k' K. exists 32. split; [eapply repeat_at; eauto|lia]. }
      pose proof (comment_len _ _ C) as CL.
      destruct (comment_cases _ _ C) as [(b & EC & NB & EK)|[(b & EC & NB & EK)|(b & EC & N1 & N2 & EK & W2)]].
      + (* hash *)
        destruct (B_spaces (length k) s fB _ KS LJ E) as (f' & E').
        assert (L2 : length k = (length b + 2)%nat) by (rewrite <- EK; cbn [length]; rewrite app_length; cbn [length]; lia).
        rewrite <- EK in S1. destruct S1 as [S0 S3].
        assert (MC : memchr_checked 10 D (S (b_i s)) l = Ok (S (b_i s) + length b)%nat) by (apply (memchr_checked_ok 10 b); auto; lia).
        apply sub_at_app in S3 as [_ [S3 _]].
        destruct fD as [|fD]; [lia|]. cbn [loop]. rewrite (hash_turn s _ (eq_sym EC) ltac:(lia) S0 MC) by lia. cbn [bind].
        rewrite (turn_space (brk cp) D (at_i s (S (b_i s) + length b)) 10) by (cbn [at_i b_i]; auto; lia). cbn [bind at_i b_i]. rewrite ?at_at.
        replace (S (S (b_i s) + length b)) with (b_i s + length k)%nat by lia.
        destruct (IH (at_i s (b_i s + length k)) z y f' fD j cnt) as (EF & SC); cbn [at_i b_i b_prime] in *; auto; try lia.
        split; [exact EF|]. eapply scanned_from; [apply reach_one; exact ST|exact SC].
      + (* line *)
        destruct (B_spaces (length k) s fB _ KS LJ E) as (f' & E').
        assert (L2 : length k = (length b + 3)%nat) by (rewrite <- EK; cbn [length]; rewrite app_length; cbn [length]; lia).
        rewrite <- EK in S1. pose proof S1 as (S0 & _).
        cbn [loop]. rewrite (comment_turn s _ (eq_sym EC) ltac:(lia) S0 (line_inside b (b_i s) NB S1 ltac:(lia))). cbn [bind].
        replace (S (b_i s + length b + 2)) with (b_i s + length k)%nat by lia.
        destruct (IH (at_i s (b_i s + length k)) z y f' fD j cnt) as (EF & SC); cbn [at_i b_i b_prime] in *; auto; try lia.
        split; [exact EF|]. eapply scanned_from; [apply reach_one; exact ST|exact SC].
      + (* block *)
        assert (L2 : length k = (length b + 4)%nat) by (rewrite <- EK; cbn [length]; rewrite app_length; cbn [length]; lia).
        destruct w as [|w0 [|w1 [|]]]; try discriminate; try (cbn in W2; lia). destruct S1w as (D0 & D1 & _). destruct S2w as (B0 & B1 & _).
        assert (W0 : w0 <= 32 /\ w1 <= 32).
        { pose proof (Forall_inv W) as X. pose proof (Forall_inv (Forall_inv_tail W)) as Y. unfold json_ws in X, Y. lia. }
        destruct W0 as [W0 W1].
        destruct (B_spaces (length k) s fB _ KS LJ E) as (f1 & E').
        assert (L3 : (b_i s + length k < l)%nat).
        { destruct (Nat.eq_dec (b_i s + length k) l) as [EL|]; [|lia]. exfalso. eapply (end_fails f1 (at_i s (b_i s + length k))); eauto. cbn [at_i b_i]. lia. }
        destruct (ws_step _ _ _ w0 HR L3 B0 D0 W0) as (z1 & ST1 & HR1).
        destruct f1 as [|f1]; [discriminate|]. cbn [loop] in E'. rewrite (turn_space CNone B _ w0) in E' by (cbn [at_i b_i]; auto). cbn [bind at_i b_i] in E'. rewrite ?at_at in E'.
        assert (L4 : (S (b_i s + length k) < l)%nat).
        { destruct (Nat.eq_dec (S (b_i s + length k)) l) as [EL|]; [|lia]. exfalso. eapply (end_fails f1 (at_i s (S (b_i s + length k)))); eauto. cbn [at_i b_i]. lia. }
        destruct (ws_step _ _ _ w1 HR1 L4 B1 D1 W1) as (z2 & ST2 & HR2).
        destruct f1 as [|f1]; [discriminate|]. cbn [loop] in E'. rewrite (turn_space CNone B _ w1) in E' by (cbn [at_i b_i]; auto). cbn [bind at_i b_i] in E'. rewrite ?at_at in E'.
        rewrite <- EK in S1. pose proof S1 as (S0 & _). pose proof S1 as S1'. destruct S1' as (_ & _ & S1').
        change (b ++ [42; 47]) with (b ++ [42] ++ [47]) in S1'. rewrite app_assoc in S1'. apply sub_at_app in S1' as [_ [S5 _]]. rewrite app_length in S5. cbn [length] in S5.
        replace (S (S (b_i s)) + (length b + 1))%nat with (b_i s + length b + 3)%nat in S5 by lia.
        destruct fD as [|fD]; [lia|]. cbn [loop]. rewrite (comment_turn s _ (eq_sym EC) ltac:(lia) S0 (block_inside b (b_i s) N1 N2 S1 ltac:(lia))). cbn [bind].
        replace (S (b_i s + length b + 2)) with (b_i s + length b + 3)%nat by lia.
        rewrite (slash_turn (at_i s (b_i s + length b + 3)) w0 (eq_sym EC)); cbn [at_i b_i].
        2:{ exact S5. }
        2:{ replace (S (b_i s + length b + 3)) with (b_i s + length k)%nat by lia. exact D0. }
        2:{ lia. } 2:{ lia. } 2:{ lia. }
        cbn [bind]. rewrite ?at_at. replace (b_i s + length b + 3 + 3)%nat with (S (S (b_i s + length k))) by lia.
        destruct (IH (at_i s (S (S (b_i s + length k)))) z2 y f1 fD j cnt) as (EF & SC); cbn [at_i b_i b_prime] in *; auto; try lia.
        split; [exact EF|]. eapply scanned_from; [|exact SC]. econstructor; [exact ST|]. econstructor; [exact ST1|]. now apply reach_one.
  Qed.
  End Scan.

  Lemma fin_bracket : forall l x k y c, fin l -> reach x (S k) y l -> nth_error B k = Some c -> c = 93 \/ c = 125 -> fin (S k).
  Proof.
    intros l x k y c F R Hc C. pose proof (reach_le _ _ _ _ R). split; [destruct F; lia|]. split.
    - destruct (Nat.eq_dec (S k) l) as [->|NE]; [apply F|]. right. eapply both_at; eauto. lia.
    - right. right. exists k, c. repeat split; auto; destruct C as [->| ->]; reflexivity || discriminate.
  Qed.

  (** skip_class and skip_array, wherever they start *)
  Lemma sp_bracketed : forall obj p, st p -> 
    simP (fun rq => st (snd rq) /\ moved p (snd rq) /\
        ((first p < last p)%nat -> st (fst rq) /\ (first (fst rq) < last (fst rq))%nat /\ first (fst rq) = first p))
      (skip_bracketed CNone true ExConstexpr obj B p) (skip_bracketed (brk cp) true ExConstexpr obj D p).
  Proof.
    intros obj p H. pose proof (st_le _ H) as L. unfold skip_bracketed. cbn [andb]. destruct (Nat.leb_spec (last p) (first p)) as [GE|LT].
    { apply sp_ok. cbn [fst snd]. split; [exact H|]. split; [repeat split|]. lia. }
    apply sp_front; [exact H|]. intros b d Hb Hd SM B256 D256.
    assert (NL : left_of obj <> 32 /\ left_of obj <> 35 /\ left_of obj <> 47) by (destruct obj; repeat split; discriminate).
    rewrite (same_eqb _ _ (left_of obj) SM) by apply NL.
    set (i := if b =? left_of obj then S (first p) else first p).
    pose proof H as (NN & PV & F & (x & y & R) & cl & CL1 & CL2).
    assert (RI : exists z, reach x (first p) z i /\ reach z i y (last p)).
    { unfold i. destruct (N.eqb_spec b (left_of obj)) as [->|].
      - destruct (st_step p (left_of obj) H LT Hb) as (_ & _ & _); [apply NL|destruct obj; discriminate|].
        inversion R as [|? ? z j ? ? ST HR]; subst; [lia|]. destruct (step_byte _ _ _ _ _ ST Hb) as (_ & -> & -> & _); [apply NL|destruct obj; discriminate|].
        eexists. split; [apply reach_one; exact ST|exact HR].
      - exists x. split; [constructor|exact R]. }
    destruct RI as (z & R1 & R2). pose proof (reach_le _ _ _ _ R1) as LI. pose proof (reach_le _ _ _ _ R2) as LI2. pose proof LEN as LD. rewrite LD.
    intros [r q] E. destruct (loop (br_body CNone true ExConstexpr obj B (last p)) (S (S (length B))) (mkbs i 0 1 0)) as [[j cnt]| | |] eqn:EL; cbn [bind] in E; try discriminate.
    destruct (scan obj (last p) ltac:(lia) (last p - i) (mkbs i 0 1 0) z y (S (S (length B))) (S (S (length B))) j cnt) as (EF & z' & k & S1 & S2 & S3 & S4 & S5);
      cbn [b_i b_prime] in *; auto; try lia.
    rewrite EF. cbn [bind]. injection E as <- <-. split; [reflexivity|]. cbn [fst snd]. pose proof (reach_le _ _ _ _ S2) as LJ.
    assert (RR : reach x (first p) z' j) by (eapply reach_trans; eauto).
    split; [eapply (st_moved p _ x z'); [exact H|repeat split|exact RR|eauto]|]. split; [repeat split|]. intros _.
    cbn [first last set_counter set_last set_first]. split; [|split; [lia|reflexivity]].
    split; [exact NN|]. split; [exact PV|]. cbn [first last set_counter set_last clast]. split; [|split; [eauto|exists cl; split; auto; lia]].
    subst j. eapply (fin_bracket (last p)); eauto. destruct obj; cbn; auto.
  Qed.

  Lemma sp_skip_value : forall (Q : nat -> Prop) keep p, keep = false -> st p -> Q (first p) ->
    simP (skipped Q p) (skip_value CNone true ExConstexpr false keep B p) (skip_val_c cp default_cfg D p).
  Proof.
    intros Q keep p -> H HQ. unfold skip_value, skip_val_c. cbn [default_cfg c_ex c_excl]. apply sp_ensure. intros HM. unfold has_more in HM. apply Nat.ltb_lt in HM.
    assert (H0 : st (set_counter p 0)) by exact H.
    assert (MV : forall q, moved (set_counter p 0) q -> moved p q) by (intros q M; exact M).
    assert (WK : forall x y, simP (skipped Q (set_counter p 0)) x y -> simP (skipped Q p) x y) by (intros x y S; exact S).
    apply sp_front; [exact H0|]. intros b d Hb Hd SM B256 D256. cbn [first set_counter] in Hb, Hd.
    assert (EQB : forall c, c <> 32 -> c <> 35 -> c <> 47 -> (d =? c) = (b =? c)) by (intros; now apply same_eqb).
    rewrite !EQB by discriminate.
    replace ((48 <=? d) && (d <=? 57)) with ((48 <=? b) && (b <=? 57)).
    2:{ pose proof (same_digit _ _ SM) as X. unfold is_dig in X. apply Bool.eq_true_iff_eq. rewrite !andb_true_iff, !N.leb_le. exact X. }
    clear Hd EQB. apply WK.
    destruct (N.eqb_spec b c_quote) as [->|_]; [apply sp_string; auto|].
    destruct (N.eqb_spec b c_lbrack) as [->|_].
    { eapply sp_weaken; [apply (sp_bracketed false _ H0)|]. intros rq (A1 & A2 & A3). destruct (A3 HM) as (A4 & A5 & A6). split; [|split; auto].
      apply (g_br cp D B Q _ 91); auto; rewrite A6; auto. }
    destruct (N.eqb_spec b c_lbrace) as [->|_].
    { eapply sp_weaken; [apply (sp_bracketed true _ H0)|]. intros rq (A1 & A2 & A3). destruct (A3 HM) as (A4 & A5 & A6). split; [|split; auto].
      apply (g_br cp D B Q _ 123); auto; rewrite A6; auto. }
    destruct (N.eqb_spec b c_t) as [->|_].
    { apply (sp_bool Q _ c_t); auto; [split; vm_compute; discriminate|]. repeat (apply Forall_cons; [unfold letter; lia|]). constructor. }
    destruct (N.eqb_spec b c_f) as [->|_].
    { apply (sp_bool Q _ c_f); auto; [split; vm_compute; discriminate|]. repeat (apply Forall_cons; [unfold letter; lia|]). constructor. }
    destruct (N.eqb_spec b c_n) as [->|_].
    { apply (sp_null Q _ c_n); auto. split; vm_compute; discriminate. }
    destruct ((b =? c_minus) || ((48 <=? b) && (b <=? 57))) eqn:EN; [|apply sp_err].
    apply (sp_number Q _ b); auto. unfold is_dig. unfold c_minus in EN. lia.
  Qed.

  Lemma sp_skip_literal : forall (Q : nat -> Prop) p, st p -> Q (first p) ->
    simP (skipped Q p) (skip_literal CNone true B p) (skip_literal_c cp D p).
  Proof.
    intros Q p H HQ. unfold skip_literal, skip_literal_c. apply sp_ensure. intros HM. unfold has_more in HM. apply Nat.ltb_lt in HM.
    assert (H0 : st (set_counter p 0)) by exact H.
    assert (WK : forall x y, simP (skipped Q (set_counter p 0)) x y -> simP (skipped Q p) x y) by (intros x y S; exact S).
    apply sp_front; [exact H0|]. intros b d Hb Hd SM B256 D256. cbn [first set_counter] in Hb, Hd.
    assert (EQB : forall c, c <> 32 -> c <> 35 -> c <> 47 -> (d =? c) = (b =? c)) by (intros; now apply same_eqb).
    rewrite !EQB by discriminate.
    replace ((48 <=? d) && (d <=? 57)) with ((48 <=? b) && (b <=? 57)).
    2:{ pose proof (same_digit _ _ SM) as X. unfold is_dig in X. apply Bool.eq_true_iff_eq. rewrite !andb_true_iff, !N.leb_le. exact X. }
    clear Hd EQB. apply WK.
    destruct (N.eqb_spec b c_t) as [->|_].
    { apply (sp_bool Q _ c_t); auto; [split; vm_compute; discriminate|]. repeat (apply Forall_cons; [unfold letter; lia|]). constructor. }
    destruct (N.eqb_spec b c_f) as [->|_].
    { apply (sp_bool Q _ c_f); auto; [split; vm_compute; discriminate|]. repeat (apply Forall_cons; [unfold letter; lia|]). constructor. }
    destruct (N.eqb_spec b c_n) as [->|_].
    { apply (sp_null Q _ c_n); auto. split; vm_compute; discriminate. }
    destruct ((b =? c_minus) || ((48 <=? b) && (b <=? 57))) eqn:EN; [|apply sp_err].
    apply (sp_number Q _ b); auto. unfold is_dig. unfold c_minus in EN. lia.
  Qed.
End Two.
