(** Scalars and names on the document with comments and on the one with spaces in
    their place. *)
From Coq Require Import List NArith ZArith Bool Lia Arith ZifyBool ZifyNat ZifyN.
From Verif Require Import Base Mem Loop PolicyModel IntModel StrScanModel SkipModel SpecNum SpecText SpecJson SpecC
  IntProofs IntValueProofs StrScanProofs StrScanProofs2 SkipProofs SkipSafe GapProofs PropertiesStr PropertiesSkip ClassProofs
  StrDecodeModel StrDecodeProofs StrDecodeSafe ValueModel ZInt CModel CLex CTrim CState CSkip CBracket.
Import ListNotations.
Local Open Scope N_scope.
Set Default Proof Using "All".

Lemma nth_error_ext_local : forall (l l' : list N), (forall k, nth_error l k = nth_error l' k) -> l = l'.
Proof.
  induction l as [|x l IH]; intros [|y l'] H; auto.
  - specialize (H O). discriminate.
  - specialize (H O). discriminate.
  - pose proof (H O) as E. injection E as ->. f_equal. apply IH. intros k. exact (H (S k)).
Qed.

Lemma nth_firstn_lt : forall n (l : list N) k, (k < n)%nat -> nth_error (firstn n l) k = nth_error l k.
Proof. induction n; intros [|x l] [|k] H; cbn; auto; try lia. apply IHn. lia. Qed.

Lemma nth_skipn_at : forall i (l : list N) k, nth_error (skipn i l) k = nth_error l (i + k).
Proof. induction i; intros [|x l] k; cbn; auto. now destruct k. Qed.

Section Two.
  Context (cp : pol) (D B : list N).
  Hypothesis T : two cp D B.

  Local Notation step := (step cp D B).
  Local Notation reach := (reach cp D B).
  Local Notation repeat_at := (repeat_at cp D B T).
  Local Notation comment_head := (comment_head cp D B T).
  Local Notation comment_len := (comment_len cp D B T).
  Local Notation reach_le := (reach_le cp D B T).
  Local Notation reach_trans := (reach_trans cp D B T).
  Local Notation reach_one := (reach_one cp D B T).
  Local Notation step_lt := (step_lt cp D B T).
  Local Notation step_byte := (step_byte cp D B T).
  Local Notation step_quote := (step_quote cp D B T).
  Local Notation reach_prev := (reach_prev cp D B T).
  Local Notation step_same := (step_same cp D B T).
  Local Notation same := (same cp).
  Local Notation same_eqb := (same_eqb cp D B T).
  Local Notation same_digit := (same_digit cp D B T).
  Local Notation step_prev := (step_prev cp D B T).
  Local Notation prev := (prev D B).
  Local Notation plainly := (plainly cp D B).
  Local Notation spaces := (spaces B).
  Local Notation step_plainly := (step_plainly cp D B T).
  Local Notation opening_spec := (opening_spec cp D B T).
  Local Notation LEN := (LEN cp D B T).
  Local Notation HBD := (HBD cp D B T).
  Local Notation HBBt := (HBBt cp D B T).
  Local Notation NCPt := (NCPt cp D B T).
  Local Notation H32 := (H32 cp D B T).
  Local Notation both := (both cp D B).
  Local Notation both_at := (both_at cp D B T).
  Local Notation same_pd := (same_pd cp D B T).
  Local Notation fin := (fin cp D B).
  Local Notation st := (st cp D B).
  Local Notation st_le := (st_le cp D B T).
  Local Notation st_wf := (st_wf cp D B T).
  Local Notation st_moved := (st_moved cp D B T).
  Local Notation st_both := (st_both cp D B T).
  Local Notation sp_front := (sp_front cp D B T).
  Local Notation sp_is_at := (sp_is_at cp D B T).
  Local Notation after_trim := (after_trim cp D B).
  Local Notation sp_trim := (sp_trim cp D B T).
  Local Notation st_step := (st_step cp D B T).
  Local Notation run_bytes := (run_bytes cp D B T).
  Local Notation st_bytes := (st_bytes cp D B T).
  Local Notation ended_plainly := (ended_plainly cp D B T).
  Local Notation sp_starts := (sp_starts cp D B T).
  Local Notation sp_after := (sp_after cp D B T).

  Local Notation agree := (agree D B).
  Local Notation rng := (rng cp D B).
  Local Notation skipped := (skipped cp D B).
  Local Notation sp_number := (sp_number cp D B T).
  Local Notation sp_bool := (sp_bool cp D B T).
  Local Notation sp_null := (sp_null cp D B T).
  Local Notation sp_string := (sp_string cp D B T).
  Local Notation st_quote := (st_quote cp D B T).
  Local Notation moved_trim := (moved_trim cp D B T).
  Local Notation instr := (instr D B).
  Local Notation sp_string_in := (sp_string_in cp D B T).
  Local Notation digits_c := (digits_c cp D B T).
  Local Notation sp_bracketed := (sp_bracketed cp D B T).
  Local Notation sp_skip_value := (sp_skip_value cp D B T).
  Local Notation sp_skip_literal := (sp_skip_literal cp D B T).

  (** ** Equal bytes *)

  Lemma view_same : forall i j, agree i j -> view D i j = view B i j.
  Proof.
    intros i j A. unfold view. destruct (Nat.le_gt_cases j i) as [LE|LT]; [now replace (j - i)%nat with O by lia|].
    apply nth_error_ext_local. intros k. destruct (Nat.lt_ge_cases k (j - i)) as [K|K].
    - rewrite !nth_firstn_lt, !nth_skipn_at by exact K. apply A. lia.
    - rewrite !(proj2 (nth_error_None _ _)); auto; rewrite firstn_length; lia.
  Qed.

  Lemma rd_same : forall i j k, agree i j -> (i <= k < j)%nat -> rd D k = rd B k.
  Proof. intros i j k A K. unfold rd. now rewrite (A k K). Qed.

  Lemma sub_agree : forall u i, sub_at D i u -> sub_at B i u -> agree i (i + length u).
  Proof.
    intros u i S1 S2 k K. destruct (nth_error u (k - i)) as [c|] eqn:E; [|apply nth_error_None in E; lia].
    replace k with (i + (k - i))%nat by lia. now rewrite (sub_at_nth _ _ _ _ _ S1 E), (sub_at_nth _ _ _ _ _ S2 E).
  Qed.

  Lemma agree_sub : forall i j i' j', agree i j -> (i <= i')%nat -> (j' <= j)%nat -> agree i' j'.
  Proof. intros i j i' j' A L1 L2 k K. apply A. lia. Qed.

  (** ** Decoding *)

  Lemma byte_same : forall i j k, agree i j -> (i <= k)%nat -> (S k < j)%nat -> byte_from_nibbles true D k = byte_from_nibbles true B k.
  Proof. intros i j k A L1 L2. unfold byte_from_nibbles. now rewrite (rd_same i j k), (rd_same i j (S k)) by (auto; lia). Qed.

  Lemma decode_same : forall i0 bnd i o, agree i0 (S bnd) -> (i0 <= i)%nat -> decode_utf16 true D i bnd o = decode_utf16 true B i bnd o.
  Proof.
    intros i0 bnd i o A L. unfold decode_utf16. destruct (Nat.leb_spec 5 (bnd - i)) as [L5|]; [|reflexivity]. cbn [ensure bind].
    rewrite (byte_same i0 (S bnd) (S i)), (byte_same i0 (S bnd) (i + 3)) by (auto; lia).
    destruct (byte_from_nibbles true B (S i)) as [hi| | |]; cbn [bind]; auto. destruct (byte_from_nibbles true B (i + 3)) as [lo| | |]; cbn [bind]; auto.
    destruct (_ <=? 127); [reflexivity|]. destruct (_ && _); [|reflexivity].
    destruct (Nat.leb_spec 5 (bnd - S (i + 5))) as [L6|]; [|reflexivity].
    rewrite (rd_same i0 (S bnd) (S (i + 5))) by (auto; lia). rewrite (byte_same i0 (S bnd) (S (S (i + 5)))), (byte_same i0 (S bnd) (S (i + 5) + 3)) by (auto; lia).
    reflexivity.
  Qed.

  Lemma decode_moves : forall i bnd o i' o', decode_utf16 true B i bnd o = Ok (i', o') -> (i <= i')%nat.
  Proof.
    intros i bnd o i' o' E. unfold decode_utf16 in E. destruct (ensure _ _) in E; cbn [bind] in E; try discriminate.
    destruct (byte_from_nibbles true B (S i)) as [hi| | |]; cbn [bind] in E; try discriminate. destruct (byte_from_nibbles true B (i + 3)) as [lo| | |]; cbn [bind] in E; try discriminate.
    destruct (_ <=? 127).
    - destruct (put o _); cbn [bind] in E; try discriminate. injection E as <- _. lia.
    - destruct (_ && _).
      + destruct (if (5 <=? bnd - S (i + 5))%nat then _ else _) as [ok| | |] in E; cbn [bind] in E; try discriminate.
        destruct ok; cbn [ensure bind] in E; [|discriminate].
        destruct (byte_from_nibbles true B (S (S (i + 5)))) as [hi2| | |]; cbn [bind] in E; try discriminate.
        destruct (byte_from_nibbles true B (S (i + 5) + 3)) as [lo2| | |]; cbn [bind] in E; try discriminate.
        destruct (put o _); cbn [bind] in E; try discriminate. injection E as <- _. lia.
      + cbn [bind] in E. destruct (put o _); cbn [bind] in E; try discriminate. injection E as <- _. lia.
  Qed.

  Lemma dec_same : forall i0 bnd ah hq s, agree i0 (S bnd) -> nth_error B bnd = Some 34 -> (i0 <= fst s)%nat ->
    simP (fun r => match r with inl s => (i0 <= fst s)%nat | inr _ => True end) (dec_body true ExConstexpr ah hq B bnd s) (dec_body true ExConstexpr ah hq D bnd s).
  Proof.
    intros i0 bnd ah hq [i o] A HQ L. cbn [fst] in L. unfold dec_body. cbn [andb].
    destruct (Nat.ltb_spec i bnd) as [LT|]; cbn [negb].
    2:{ cbn [bind negb]. apply sp_ok. exact I. }
    rewrite (rd_same i0 (S bnd) i) by (auto; lia). destruct (rd B i) as [c| | |]; cbn [bind]; try (intros ? X; discriminate).
    destruct (negb (negb (c =? c_quote))); [apply sp_ok; exact I|].
    destruct (plain_run B bnd (bnd - i) i (le_n _) ltac:(lia) HQ) as (u & d & PU & SU & LU & NU & NP).
    assert (LB : (bnd < length B)%nat) by (apply nth_error_Some; congruence). pose proof LEN as LD.
    assert (SD : sub_at D i u).
    { clear - SU A L LU. assert (G : forall v k, sub_at B k v -> (i0 <= k)%nat -> (k + length v <= bnd)%nat -> sub_at D k v).
      { induction v as [|x v IH]; intros k SV K1 K2; [exact I|]. destruct SV as [S1 S2]. cbn [length] in K2. split; [rewrite A by lia; exact S1|]. apply IH; auto; lia. }
      apply G; auto. }
    assert (ND : nth_error D (i + length u) = Some d) by (rewrite A by lia; exact NU).
    rewrite (find_special true ExConstexpr B u i bnd d PU SU NU NP LU ltac:(lia)).
    rewrite (find_special true ExConstexpr D u i bnd d PU SD ND NP LU ltac:(lia)). cbn [bind].
    set (j := (i + length u)%nat) in *. apply (sp_bind _ _ (fun _ => True)); [apply sp_same; auto|]. intros o1 _.
    change (firstn (j - i) (skipn i D)) with (view D i j). change (firstn (j - i) (skipn i B)) with (view B i j).
    rewrite view_same by (eapply agree_sub; eauto; lia).
    apply (sp_bind _ _ (fun _ => True)); [apply sp_same; auto|]. intros o2 _.
    rewrite (rd_some _ _ _ NU), (rd_some _ _ _ ND). cbn [bind].
    destruct (N.eqb_spec d c_bslash) as [->|NB].
    - assert (LJ : (j < bnd)%nat).
      { destruct (Nat.eq_dec j bnd) as [EJ|]; [|lia]. rewrite EJ in NU. rewrite HQ in NU. discriminate. }
      cbv zeta. rewrite (rd_same i0 (S bnd) (S j)) by (auto; lia).
      apply (sp_bind _ _ (fun s => (i0 <= fst s)%nat)).
      + intros a E. destruct (rd B (S j)) as [e| | |]; cbn [bind] in *; try discriminate. destruct (ensure _ InvalidUTFCodepoint); cbn [bind] in *; try discriminate.
        assert (ONE : forall b, bind (put o2 [b]) (fun o => Ok (S (S j), o)) = Ok a -> (i0 <= fst a)%nat).
        { intros b EE. destruct (put o2 [b]); cbn [bind] in EE; try discriminate. injection EE as <-. cbn [fst]. lia. }
        destruct (e =? 98); [split; [exact E|exact (ONE _ E)]|]. destruct (e =? 102); [split; [exact E|exact (ONE _ E)]|]. destruct (e =? 110); [split; [exact E|exact (ONE _ E)]|].
        destruct (e =? 114); [split; [exact E|exact (ONE _ E)]|]. destruct (e =? 116); [split; [exact E|exact (ONE _ E)]|].
        destruct (e =? c_u).
        { rewrite (decode_same i0 bnd (S j)) by (auto; lia). split; [exact E|]. destruct a as [i' o']. apply decode_moves in E. cbn [fst]. lia. }
        destruct (_ || _); [split; [exact E|exact (ONE _ E)]|]. split; [exact E|]. destruct (if true && negb ah then _ else _); cbn [bind] in E; try discriminate. exact (ONE _ E).
      + intros [i' o'] LI. cbn [fst] in LI. apply sp_ensure. intros _. apply sp_ok. exact LI.
    - apply (sp_bind _ _ (fun s => (i0 <= fst s)%nat)).
      + apply sp_ensure. intros _. apply sp_ok. cbn [fst]. lia.
      + intros [i' o'] LI. cbn [fst] in LI. apply sp_ensure. intros _. apply sp_ok. exact LI.
  Qed.

  Lemma instr_agree : forall r, instr r -> exists i, first r = S i /\ agree i (S (last r)) /\ nth_error B i = Some 34 /\ nth_error D i = Some 34 /\
    nth_error B (last r) = Some 34 /\ (i < last r < length B)%nat.
  Proof.
    intros r (i & s & N & F & L & SB' & SD & SB & C). exists i. split; [exact F|].
    assert (A : agree i (S (last r))).
    { pose proof (sub_agree _ _ SD SB) as A. cbn [length] in A. rewrite app_length in A. cbn [length] in A. rewrite L. eapply agree_sub; eauto; lia. }
    split; [exact A|]. destruct SD as [D0 _]. destruct SB as [B0 B1]. split; [exact B0|]. split; [exact D0|].
    apply sub_at_app in B1 as [_ [B1 _]]. rewrite L. split; [exact B1|]. split; [lia|]. apply nth_error_Some. congruence.
  Qed.

  Lemma known_string : forall r, instr r -> simP (fun _ => True) (parse_value_string_escaped true true ExConstexpr true B r) (parse_value_string_escaped true true ExConstexpr true D r).
  Proof.
    intros r H. destruct (instr_agree r H) as (i & F & A & B0 & D0 & BL & IL). pose proof LEN as LD.
    unfold parse_value_string_escaped. cbn [bind negb orb]. destruct (needs_slow_path r) eqn:NS.
    - apply (sp_bind _ _ (fun _ => True)); [|intros s _; apply sp_ok; exact I].
      unfold parse_string_known_stdstring, front. rewrite (rd_same i (S (last r)) (first r)) by (auto; lia).
      apply (sp_bind _ _ (fun _ => True)); [apply sp_same; auto|]. intros c _. cbv zeta.
      set (i1 := if c =? c_quote then S (first r) else first r).
      set (o := mkout [] (ps_size r + 1)).
      assert (HE : (if (1 <? signed64 (counter r) - 1)%Z then
          if (i1 + Z.to_nat (signed64 (counter r) - 1) <=? length D)%nat then o' <- put o (firstn (Z.to_nat (signed64 (counter r) - 1)) (skipn i1 D)) ;; Ok ((i1 + Z.to_nat (signed64 (counter r) - 1))%nat, o') else UB
          else Ok (i1, o)) =
        (if (1 <? signed64 (counter r) - 1)%Z then
          if (i1 + Z.to_nat (signed64 (counter r) - 1) <=? length B)%nat then o' <- put o (firstn (Z.to_nat (signed64 (counter r) - 1)) (skipn i1 B)) ;; Ok ((i1 + Z.to_nat (signed64 (counter r) - 1))%nat, o') else UB
          else Ok (i1, o))).
      { rewrite LD. destruct (Z.ltb_spec 1 (signed64 (counter r) - 1)) as [LT|]; [|reflexivity]. destruct (_ <=? length B)%nat; [|reflexivity].
        assert (LN : (first r + Z.to_nat (signed64 (counter r) - 1) < last r)%nat).
        { destruct H as (i' & s & _ & F' & L' & HB & _ & _ & C). rewrite C in *. unfold reported_escape in *. destruct (escape_offset s) as [k|] eqn:EK.
          - destruct (escape_offset_some s k HB EK) as (u & w & -> & _ & LU). rewrite app_length in L'. cbn [length] in L'.
            unfold signed64 in *. replace (N.of_nat k <? 2^63) with true in *; [lia|]. symmetry. apply N.ltb_lt.
            pose proof H32 as HH. change (2^32) with 4294967296 in HH. change (2^63) with 9223372036854775808. lia.
          - exfalso. change (signed64 (2 ^ 64 - 1)) with (-1)%Z in LT. lia. }
        assert (IE : (first r <= i1 <= S (first r))%nat) by (unfold i1; destruct (c =? c_quote); lia).
        set (n := Z.to_nat (signed64 (counter r) - 1)) in *.
        replace (firstn n (skipn i1 D)) with (firstn n (skipn i1 B)); [reflexivity|].
        pose proof (view_same i1 (i1 + n)) as V. unfold view in V. replace (i1 + n - i1)%nat with n in V by lia. symmetry. apply V.
        eapply agree_sub; eauto; lia. }
      assert (IE : (first r <= i1)%nat) by (unfold i1; destruct (c =? c_quote); lia).
      apply (sp_bind _ _ (fun s => (i <= fst s)%nat)).
      + apply sp_same; [symmetry; exact HE|]. intros [i2 o2] E. cbn [fst]. destruct (1 <? signed64 (counter r) - 1)%Z in E; [|assert (i1 = i2) by congruence; lia].
        destruct (_ <=? length B)%nat in E; [|discriminate]. destruct (put o _) in E; cbn [bind] in E; try discriminate. assert (i1 + Z.to_nat (signed64 (counter r) - 1) = i2)%nat by congruence. lia.
      + intros [i2 o2] LI. cbn [fst] in LI. rewrite LD.
        apply (sp_bind _ _ (fun _ => True)).
        * apply (sp_loop _ _ (fun s => (i <= fst s)%nat) (fun _ => True)); [|exact LI]. intros s LS.
          eapply sp_weaken; [apply (dec_same i (last r) true (c =? c_quote) s A BL LS)|]. intros [s'|] X; auto.
        * intros [i3 o3] _. apply sp_ok. exact I.
    - rewrite LD. destruct (Nat.leb_spec (last r) (length B)); [|intros ? X; discriminate].
      change (firstn (last r - first r) (skipn (first r) D)) with (view D (first r) (last r)). rewrite view_same by (eapply agree_sub; eauto; lia).
      apply sp_ok. exact I.
  Qed.

  Lemma here_string : forall p, st p -> 
    simP (fun vq => st (snd vq) /\ moved p (snd vq)) (parse_value_string_escaped true false ExConstexpr true B p) (parse_value_string_escaped true false ExConstexpr true D p).
  Proof.
    intros p H. pose proof H as (NN & _). pose proof (st_le _ H) as L. unfold parse_value_string_escaped. apply sp_ensure. intros NE.
    assert (LT : (first p < last p)%nat) by (unfold ps_empty in NE; rewrite NN in NE; cbn in NE; lia).
    apply (sp_bind _ _ (fun rq => instr (fst rq) /\ st (snd rq) /\ moved p (snd rq))).
    - intros a E. assert (HQ : nth_error B (first p) = Some 34).
      { unfold skip_string in E. unfold ps_empty in *. rewrite NN in *. destruct (Nat.leb_spec (last p) (first p)); [lia|]. cbn [orb] in E.
        destruct (front B p) as [c| | |] eqn:EF; cbn [bind] in E; try discriminate. destruct (N.eqb_spec c c_quote) as [->|]; cbn [ensure bind] in E; [|discriminate].
        unfold front in EF. now apply rd_ok_nth in EF. }
      destruct (sp_string_in p H LT HQ a E) as (E' & A1 & _ & A2 & A3). auto.
    - intros [r q] (A1 & A2 & A3). cbn [fst snd] in *. pose proof (known_string r A1) as K. unfold parse_value_string_escaped in K. cbn [bind] in K.
      intros a E.
      assert (X : exists s, a = (s, q)).
      { destruct (negb true || needs_slow_path r); [destruct (parse_string_known_stdstring true ExConstexpr true B r)|destruct (last r <=? length B)%nat]; cbn [bind] in E; try discriminate; injection E as <-; eauto. }
      destruct X as (s & ->). cbn [snd]. split; [|auto].
      destruct (negb true || needs_slow_path r).
      + destruct (parse_string_known_stdstring true ExConstexpr true B r) as [x| | |]; cbn [bind] in *; try discriminate. injection E as ->.
        destruct (K (s, r) eq_refl) as [K1 _]. destruct (parse_string_known_stdstring true ExConstexpr true D r) as [y| | |]; cbn [bind] in *; try discriminate.
        injection K1 as ->. reflexivity.
      + destruct (last r <=? length B)%nat; [|discriminate]. injection E as E. destruct (K _ eq_refl) as [K1 _].
        destruct (last r <=? length D)%nat; [|discriminate]. injection K1 as K1. rewrite K1, E. reflexivity.
  Qed.
End Two.
