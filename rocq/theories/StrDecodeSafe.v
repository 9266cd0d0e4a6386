(** Decoding never leaves the string nor the output buffer (checked input). *)
From Coq Require Import List NArith ZArith Bool Lia Arith ZifyBool ZifyNat ZifyN.
From Verif Require Import Base Bits Mem Loop PolicyModel IntModel StrScanModel SpecNum SpecText SpecJson SpecUnicode
  StrScanProofs StrScanProofs2 StrDecodeModel StrDecodeProofs.
Import ListNotations.
Local Open Scope N_scope.

Lemma plain_dec : forall c, {plain c} + {~ plain c}.
Proof.
  intro c. unfold plain. destruct (N.eq_dec c 34); [right; tauto|]. destruct (N.eq_dec c 92); [right; tauto|]. left; tauto.
Qed.

Lemma plain_run : forall (buf : list N) bnd n i, (bnd - i <= n)%nat -> (i <= bnd)%nat -> nth_error buf bnd = Some 34 ->
  exists u c, Forall plain u /\ sub_at buf i u /\ (i + length u <= bnd)%nat /\
    nth_error buf (i + length u) = Some c /\ ~ plain c.
Proof.
  intros buf bnd. induction n as [|n IH]; intros i Ln Li N.
  - assert (i = bnd) by lia. subst i. exists [], 34. cbn [length]. rewrite Nat.add_0_r.
    repeat split; auto using not_plain_34.
  - destruct (Nat.eq_dec i bnd) as [->|NE].
    + exists [], 34. cbn [length]. rewrite Nat.add_0_r. repeat split; auto using not_plain_34.
    + assert (LB : (bnd < length buf)%nat) by (apply nth_error_Some; congruence).
      destruct (nth_error buf i) as [c|] eqn:E. 2:{ apply nth_error_None in E. lia. }
      destruct (plain_dec c) as [P|P].
      * destruct (IH (S i)) as (u & d & PU & SU & LU & NU & NP); [lia|lia|assumption|].
        exists (c :: u), d. cbn [length]. replace (i + S (length u))%nat with (S i + length u)%nat by lia.
        split; [now constructor|]. split; [now split|]. auto.
      * exists [], c. cbn [length]. rewrite Nat.add_0_r. split; [constructor|]. split; [exact I|]. auto.
Qed.

Lemma byte_safe : forall (buf : list N) i, (S i < length buf)%nat -> exists b, byte_from_nibbles true buf i = Ok b.
Proof.
  intros buf i L. unfold byte_from_nibbles.
  destruct (nth_error buf i) as [a|] eqn:Ea. 2:{ apply nth_error_None in Ea. lia. }
  destruct (nth_error buf (S i)) as [b|] eqn:Eb. 2:{ apply nth_error_None in Eb. lia. }
  rewrite (rd_some _ _ _ Ea), (rd_some _ _ _ Eb). cbn [bind]. eauto.
Qed.

Lemma enc_length : forall cp, (length (enc_utf8 cp) <= 4)%nat.
Proof. intro cp. unfold enc_utf8. destruct (65536 <=? cp), (2048 <=? cp); cbn; lia. Qed.

Lemma decode_safe : forall (buf : list N) i bnd o, (i < bnd)%nat -> (bnd < length buf)%nat ->
  (length (o_bytes o) + (bnd - i) <= o_cap o)%nat ->
  outcome_ok (fun r => let '(i', o') := r in (i < i' <= bnd)%nat /\ o_cap o' = o_cap o /\
      (length (o_bytes o') <= length (o_bytes o) + (i' - i))%nat) (decode_utf16 true buf i bnd o).
Proof.
  intros buf i bnd o L LB C. unfold decode_utf16.
  destruct (5 <=? bnd - i)%nat eqn:E5; [|exact I]. cbn [ensure bind].
  destruct (byte_safe buf (S i)) as (hi & ->); [lia|]. cbn [bind].
  destruct (byte_safe buf (i + 3)) as (lo & ->); [lia|]. cbn [bind].
  set (cp := N.lor (N.shiftl hi 8) lo). destruct (cp <=? 127).
  - rewrite put_ok by (cbn [length]; lia). cbn [bind outcome_ok o_cap o_bytes]. rewrite app_length. cbn [length]. lia.
  - destruct ((55296 <=? cp) && (cp <=? 56319)).
    + destruct (5 <=? bnd - S (i + 5))%nat eqn:E6; [|exact I].
      destruct (nth_error buf (S (i + 5))) as [a|] eqn:Ea. 2:{ apply nth_error_None in Ea. lia. }
      rewrite (rd_some _ _ _ Ea). cbn [bind]. destruct (a =? c_u); [|exact I]. cbn [ensure bind].
      destruct (byte_safe buf (S (S (i + 5)))) as (hi2 & ->); [lia|]. cbn [bind].
      destruct (byte_safe buf (S (i + 5) + 3)) as (lo2 & ->); [lia|]. cbn [bind].
      match goal with |- context [put o (enc_utf8 ?x)] => generalize x end. intro cp2.
      pose proof (enc_length cp2). rewrite put_ok by lia.
      cbn [bind outcome_ok o_cap o_bytes]. rewrite app_length. lia.
    + cbn [bind]. pose proof (enc_length cp). rewrite put_ok by lia.
      cbn [bind outcome_ok o_cap o_bytes]. rewrite app_length. lia.
Qed.

Definition inv (start bnd cap : nat) (s : nat * outb) : Prop :=
  (start <= fst s <= S bnd)%nat /\ o_cap (snd s) = cap /\ (length (o_bytes (snd s)) <= fst s - start)%nat.

Lemma dec_body_safe : forall ex ah (buf : list N) start bnd s, nth_error buf bnd = Some 34 ->
  inv start bnd (S bnd - start) s ->
  outcome_ok (fun r => match r with
     | inl s' => inv start bnd (S bnd - start) s' /\ (S bnd - fst s' < S bnd - fst s)%nat
     | inr _ => True end) (dec_body true ex ah false buf bnd s).
Proof.
  intros ex ah buf start bnd [i o] N (HI & HC & HO). cbn [fst snd] in *. unfold dec_body.
  assert (LB : (bnd < length buf)%nat) by (apply nth_error_Some; congruence).
  destruct (i <? bnd)%nat eqn:E; cbn [negb andb bind]; [|exact I].
  destruct (plain_run buf bnd (bnd - i) i) as (u & c & PU & SU & LU & NU & NP); [lia|lia|assumption|].
  destruct (nth_error buf i) as [x|] eqn:Ex. 2:{ apply nth_error_None in Ex. lia. }
  rewrite (rd_some _ _ _ Ex). cbn [bind]. destruct (x =? c_quote) eqn:EQ; cbn [negb]; [exact I|].
  rewrite (find_special true ex buf u i bnd c PU SU NU NP) by lia. cbn [bind].
  replace (i + length u - i)%nat with (length u) by lia.
  replace (length u <=? o_cap o - length (o_bytes o))%nat with true by lia. cbn [ensure bind].
  rewrite (firstn_skipn_at u buf i SU). rewrite put_ok by lia. cbn [bind].
  rewrite (rd_some _ _ _ NU). cbn [bind].
  set (o1 := mkout (o_bytes o ++ u) (o_cap o)).
  assert (L1 : length (o_bytes o1) = (length (o_bytes o) + length u)%nat) by (unfold o1; cbn [o_bytes]; apply app_length).
  assert (C1 : o_cap o1 = (S bnd - start)%nat) by exact HC.
  destruct (c =? c_bslash) eqn:EB.
  - assert (LJ : (i + length u < bnd)%nat).
    { destruct (Nat.eq_dec (i + length u) bnd) as [X|X]; [|lia]. rewrite X in NU. rewrite N in NU.
      injection NU as <-. discriminate EB. }
    destruct (nth_error buf (S (i + length u))) as [e|] eqn:Ee. 2:{ apply nth_error_None in Ee. lia. }
    rewrite (rd_some _ _ _ Ee). cbn [bind].
    destruct (spacelike e) eqn:SP; [exact I|]. cbn [negb ensure bind].
    assert (ONE : forall b, outcome_ok (fun r : (nat * outb) + (nat * outb) => match r with
       | inl s' => inv start bnd (S bnd - start) s' /\ (S bnd - fst s' < S bnd - i)%nat
       | inr _ => True end)
       ('(i, o) <- (o <- put o1 [b] ;; Ok (S (S (i + length u)), o)) ;; _ <- ensure (negb false || (i <? bnd)%nat) UnexpectedEndOfData ;; Ok (inl (i, o)))).
    { intro b. rewrite put_ok by (cbn [length]; lia). cbn [bind negb orb ensure outcome_ok].
      unfold inv. cbn [fst snd o_cap o_bytes]. rewrite app_length. cbn [length]. lia. }
    destruct (e =? 98); [apply ONE|]. destruct (e =? 102); [apply ONE|]. destruct (e =? 110); [apply ONE|].
    destruct (e =? 114); [apply ONE|]. destruct (e =? 116); [apply ONE|].
    destruct (e =? c_u) eqn:EU.
    + destruct (Nat.eq_dec (S (i + length u)) bnd) as [X|X].
      { rewrite X in Ee. rewrite N in Ee. injection Ee as <-. discriminate EU. }
      eapply outcome_ok_bind; [apply decode_safe; lia|]. intros [i2 o2] (Hi & Hc & Ho).
      cbn [negb orb ensure bind outcome_ok]. unfold inv. cbn [fst snd]. lia.
    + destruct ((e =? c_slash) || (e =? c_bslash) || (e =? c_quote)); [apply ONE|].
      destruct ah; cbn [negb andb]; [apply ONE|].
      destruct (e <=? 127); [apply ONE|exact I].
  - cbn [negb orb ensure bind outcome_ok]. unfold inv. cbn [fst snd].
    assert (LX : (0 < length u)%nat).
    { destruct u; cbn [length]; [|lia]. cbn [length] in NU. rewrite Nat.add_0_r in NU.
      rewrite Ex in NU. injection NU as <-. exfalso. apply NP. unfold plain, c_quote, c_bslash in *. lia. }
    lia.
Qed.

Lemma decode_known_safe : forall ex ah (buf : list N) p, nth_error buf (last p) = Some 34 ->
  (first p <= last p)%nat -> ((first p = last p) \/ nth_error buf (first p) <> Some 34) ->
  (counter p < 2 ^ 63 -> (N.to_nat (counter p) <= last p - first p)%nat) -> counter p < 2 ^ 64 ->
  outcome_ok (fun s => (length s <= last p - first p + 1)%nat) (parse_string_known_stdstring true ex ah buf p).
Proof.
  intros ex ah buf p N L NQ CN C64. unfold parse_string_known_stdstring, front.
  assert (LB : (last p < length buf)%nat) by (apply nth_error_Some; congruence).
  destruct (nth_error buf (first p)) as [c|] eqn:E. 2:{ apply nth_error_None in E. lia. }
  rewrite (rd_some _ _ _ E). cbn [bind]. unfold ps_size.
  assert (SG : (1 <? signed64 (counter p) - 1)%Z = true ->
     (Z.to_nat (signed64 (counter p) - 1) < last p - first p)%nat).
  { unfold signed64. destruct (counter p <? 2 ^ 63) eqn:X.
    - intro Y. assert (counter p < 2 ^ 63) by lia. specialize (CN H). lia.
    - intro Y. change (2 ^ 64)%Z with 18446744073709551616%Z in Y. change (2 ^ 64) with 18446744073709551616 in C64. lia. }
  destruct (c =? c_quote) eqn:EQ.
  - destruct NQ as [NQ|NQ]. 2:{ contradiction NQ. f_equal. unfold c_quote in EQ. lia. }
    destruct (1 <? signed64 (counter p) - 1)%Z eqn:E1; [specialize (SG eq_refl); lia|]. cbn [bind].
    cbn [loop]. unfold dec_body. replace (S (first p) <? last p)%nat with false by lia. cbn. lia.
  - match goal with |- outcome_ok _ (bind ?x _) => set (start := x) end.
    assert (ST : exists s0, start = Ok s0 /\ inv (first p) (last p) (S (last p) - first p) s0).
    { unfold start. destruct (1 <? signed64 (counter p) - 1)%Z eqn:E1.
      - specialize (SG eq_refl). set (k := Z.to_nat (signed64 (counter p) - 1)) in *. clearbody k.
        replace (first p + k <=? length buf)%nat with true by lia.
        rewrite put_ok. 2:{ cbn [o_bytes o_cap length]. rewrite firstn_length, skipn_length. lia. }
        cbn [bind]. eexists. split; [reflexivity|]. unfold inv. cbn [fst snd o_bytes o_cap length app].
        rewrite firstn_length, skipn_length. lia.
      - eexists. split; [reflexivity|]. unfold inv. cbn [fst snd o_bytes o_cap length]. lia. }
    clearbody start. destruct ST as ([i o] & -> & HI). cbn [bind].
    assert (X : outcome_ok (fun r : nat * outb => (length (o_bytes (snd r)) <= last p - first p + 1)%nat)
       (loop (dec_body true ex ah false buf (last p)) (S (length buf)) (i, o))).
    { apply loop_inv with (I := inv (first p) (last p) (S (last p) - first p)) (m := fun s => (S (last p) - fst s)%nat).
      - intros s HS.
        pose proof (dec_body_safe ex ah buf (first p) (last p) s N HS) as B.
        destruct (dec_body true ex ah false buf (last p) s) as [[s'|r]| | |] eqn:EB; cbn [outcome_ok] in *; auto.
        assert (r = s).
        { clear - EB. unfold dec_body in EB. destruct s as [i o].
          repeat match type of EB with
          | bind ?x _ = _ => destruct x as [?|?| |]; cbn [bind] in EB; try discriminate
          | (if ?b then _ else _) = _ => destruct b; cbn [bind] in EB; try discriminate
          | (let '(_, _) := ?x in _) = _ => destruct x
          end. now injection EB as <-. }
        subst r. destruct HS as (H1 & H2 & H3). lia.
      - exact HI.
      - destruct HI as (H1 & _). lia. }
    eapply outcome_ok_bind; [exact X|]. intros [i2 o2] H2. exact H2.
Qed.
