(** Which malformed escapes are refused (checked input). *)
From Coq Require Import List NArith ZArith Bool Lia Arith ZifyBool ZifyNat ZifyN.
From Verif Require Import Base Bits Mem Loop PolicyModel IntModel StrScanModel SpecNum SpecText SpecJson SpecUnicode
  StrScanProofs StrScanProofs2 StrDecodeModel StrDecodeProofs StrDecodeSafe.
Import ListNotations.
Local Open Scope N_scope.

(** What follows the two characters backslash and u cannot be an escape that
    the decoder takes: too short, or a high surrogate that is not followed by
    some character, a u and four more characters. *)
Definition cut_short (r : list N) : Prop :=
  (length r < 4)%nat \/
  exists ds u r', r = ds ++ r' /\ hex4 ds u /\ 55296 <= u <= 56319 /\
    ((length r' < 6)%nat \/ exists a b r'', r' = a :: b :: r'' /\ b <> 117).

Lemma decode_cut : forall (buf : list N) i bnd o r c, sub_at buf i (117 :: r ++ [c]) -> bnd = (i + 1 + length r)%nat ->
  (bnd < length buf)%nat -> cut_short r -> exists e, decode_utf16 true buf i bnd o = Err e.
Proof.
  intros buf i bnd o r c [S0 S] B LB [L|(ds & u & r' & -> & H4 & R & X)].
  - unfold decode_utf16. replace (5 <=? bnd - i)%nat with false by lia. cbn [ensure bind]. eauto.
  - rewrite app_length in B. pose proof (hex4_length _ _ H4) as L4.
    rewrite <- app_assoc in S. apply sub_at_app in S. destruct S as [SD SR].
    unfold decode_utf16. replace (5 <=? bnd - i)%nat with true by lia. cbn [ensure bind].
    destruct (hex4_bytes true buf (Datatypes.S i) ds u H4 SD) as (hi & lo & E1 & E2 & E3 & Hu).
    replace (i + 3)%nat with (Datatypes.S (Datatypes.S (Datatypes.S i))) by lia.
    rewrite E1. cbn [bind]. rewrite E2. cbn [bind]. rewrite E3.
    replace (u <=? 127) with false by lia. replace ((55296 <=? u) && (u <=? 56319)) with true by lia.
    destruct (5 <=? bnd - Datatypes.S (i + 5))%nat eqn:E5; [|cbn [bind ensure]; eauto].
    destruct X as [X|(a & b & r'' & -> & X)]; [lia|].
    rewrite L4 in SR. cbn [app] in SR. destruct SR as (_ & SB & _).
    replace (Datatypes.S (Datatypes.S i + 4)) with (Datatypes.S (i + 5)) in SB by lia.
    rewrite (rd_some _ _ _ SB). cbn [bind]. replace (b =? c_u) with false by (unfold c_u; lia).
    cbn [ensure bind]. eauto.
Qed.

Lemma decode_known_cut : forall ex ah (buf : list N) p t1 s1 r,
  denotes t1 s1 -> cut_short r -> str_body (t1 ++ 92 :: 117 :: r) ->
  sub_at buf (first p) ((t1 ++ 92 :: 117 :: r) ++ [34]) -> last p = (first p + length (t1 ++ 92%N :: 117%N :: r))%nat ->
  N.of_nat (length (t1 ++ 92 :: 117 :: r)) < 2 ^ 63 ->
  counter p = match escape_offset (t1 ++ 92 :: 117 :: r) with Some k => N.of_nat k | None => 2^64 - 1 end ->
  exists e, parse_string_known_stdstring true ex ah buf p = Err e.
Proof.
  intros ex ah buf p t1 s1 r D CS SB S L L63 CN. unfold parse_string_known_stdstring, front.
  set (t := t1 ++ 92 :: 117 :: r) in *.
  assert (LB : (last p < length buf)%nat).
  { pose proof (sub_at_length _ _ _ S ltac:(destruct t; discriminate)) as X. rewrite app_length in X. cbn [length] in X. lia. }
  assert (HQ : exists c, nth_error buf (first p) = Some c /\ c <> 34).
  { unfold t in S. inversion D; subst; cbn [app] in S; destruct S as [S _]; eexists; (split; [exact S|]); auto; discriminate. }
  destruct HQ as (c & NC & NQ). rewrite (rd_some _ _ _ NC). cbn [bind].
  replace (c =? c_quote) with false by (unfold c_quote; lia).
  unfold ps_size. rewrite L. replace (first p + length t - first p)%nat with (length t) by lia.
  set (i := first p) in *. cbv zeta.
  assert (EK : exists k, escape_offset t = Some k /\ exists v w, t1 = v ++ w /\ Forall plain v /\ length v = k).
  { destruct (denotes_split t1 s1 D) as (u & t' & s' & -> & _ & P & _ & [->|(e & r0 & ->)]).
    - exists (length u). unfold t. rewrite app_nil_r. rewrite escape_offset_plain by assumption.
      cbn [escape_offset N.eqb Pos.eqb option_map]. split; [f_equal; lia|]. exists u, []. rewrite app_nil_r. auto.
    - exists (length u). unfold t. rewrite <- app_assoc. rewrite escape_offset_plain by assumption.
      cbn [app escape_offset N.eqb Pos.eqb option_map]. split; [f_equal; lia|]. exists u, (92 :: e :: r0). auto. }
  destruct EK as (k & EK & v & w & Ev & Pv & Lk). rewrite CN, EK.
  assert (Lt : length t = (length t1 + 2 + length r)%nat).
  { unfold t. rewrite app_length. cbn [length]. lia. }
  assert (CP : exists u t', t1 = u ++ t' /\ Forall plain u /\
    (if (1 <? signed64 (N.of_nat k) - 1)%Z
     then if (i + Z.to_nat (signed64 (N.of_nat k) - 1) <=? length buf)%nat
       then o <- put (mkout [] (length t + 1)) (firstn (Z.to_nat (signed64 (N.of_nat k) - 1)) (skipn i buf)) ;;
            Ok ((i + Z.to_nat (signed64 (N.of_nat k) - 1))%nat, o)
       else UB
     else Ok (i, mkout [] (length t + 1))) = Ok ((i + length u)%nat, mkout u (length t + 1))).
  { assert (Lv : length t1 = (length v + length w)%nat) by (rewrite Ev; apply app_length).
    unfold signed64. subst k. replace (N.of_nat (length v) <? 2 ^ 63) with true by lia.
    destruct (1 <? Z.of_N (N.of_nat (length v)) - 1)%Z eqn:E1.
    - assert (X : exists u1 x, v = u1 ++ [x]).
      { destruct (exists_last (l := v)) as (u1 & x & ->); [|eauto]. intros ->. cbn in E1. lia. }
      destruct X as (u1 & x & ->). rewrite app_length in *. cbn [length] in *.
      exists u1, ([x] ++ w). split; [now rewrite app_assoc|].
      apply Forall_app in Pv as [P0 _]. split; [exact P0|].
      replace (Z.to_nat (Z.of_N (N.of_nat (length u1 + 1)) - 1)) with (length u1) by lia.
      replace (i + length u1 <=? length buf)%nat with true by lia.
      rewrite firstn_skipn_at. 2:{ unfold t in S. rewrite Ev in S. rewrite <- !app_assoc in S. apply sub_at_app in S. apply S. }
      rewrite put_ok by (cbn [o_bytes o_cap length]; lia). reflexivity.
    - exists [], t1. split; [reflexivity|]. split; [constructor|]. cbn [length]. now rewrite (Nat.add_0_r i). }
  destruct CP as (u & t' & Et & P & E). rewrite E. cbn [bind].
  rewrite Et in D. destruct (denotes_plain_inv u t' s1 P D) as (s' & -> & D').
  set (bnd := (i + length t)%nat) in *.
  assert (L1 : length t1 = (length u + length t')%nat) by (rewrite Et; apply app_length).
  assert (ST : sub_at buf (i + length u) (t' ++ 92 :: 117 :: r ++ [34])).
  { unfold t in S. rewrite Et in S. rewrite <- !app_assoc in S. apply sub_at_app in S. destruct S as [_ S]. exact S. }
  apply sub_at_app in ST. destruct ST as [ST SE].
  destruct (dec_runs true ex ah buf bnd (length t') t' s' (le_n _) D') as (t0 & w0 & s0 & E1 & E2 & P0 & D0 & R).
  assert (Lt' : length t' = (length t0 + length w0)%nat) by (rewrite E1; apply app_length).
  pose proof (denotes_shorter t0 s0 D0) as SH.
  specialize (R (i + length u)%nat (mkout u (length t + 1)) ST ltac:(lia) ltac:(lia)
     ltac:(cbn [o_bytes o_cap]; lia)).
  assert (ERR : exists e, dec_body true ex ah false buf bnd ((i + length u + length t0)%nat,
      mkout (o_bytes (mkout u (length t + 1)) ++ s0) (o_cap (mkout u (length t + 1)))) = Err e).
  { cbn [o_bytes o_cap]. rewrite E1 in ST. apply sub_at_app in ST. destruct ST as [_ SW].
    destruct SE as (SE1 & SE2). pose proof SE2 as [SE3 _].
    replace (i + length u + length t')%nat with (i + length u + length t0 + length w0)%nat in * by lia.
    rewrite (dec_body_escape true ex ah buf bnd _ _ w0 117); auto; try lia.
    2:{ cbn [o_bytes o_cap]. rewrite app_length. lia. }
    cbv zeta. change (spacelike 117) with false. cbn [negb ensure bind N.eqb Pos.eqb]. unfold c_u. cbn [N.eqb Pos.eqb].
    destruct (decode_cut buf (Datatypes.S (i + length u + length t0 + length w0)) bnd
       (mkout ((u ++ s0) ++ w0) (length t + 1)) r 34) as (e & EE); auto; [unfold bnd; lia|lia|].
    cbn [o_bytes o_cap]. rewrite EE. cbn [bind]. eauto. }
  destruct ERR as (e & ERR). exists e.
  rewrite (loop_err _ _ _ _ e _ R ERR); [reflexivity|]. unfold dm. cbn [fst]. lia.
Qed.
