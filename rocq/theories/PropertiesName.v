(** C51: member names are delimited exactly. *)
From Coq Require Import String.
From Coq Require Import List NArith Bool Lia Arith.
From Coq Require Import ZifyBool ZifyNat ZifyN.
From Verif Require Import Base PolicyModel Mem SpecNum SpecText SpecJson Loop StrScanModel StrScanProofs SkipModel
  SkipProofs SkipSafe ValueModel NameProofs NameModel IntValueProofs.
Import ListNotations.
Local Open Scope N_scope.

Lemma memchr_quote_unchecked : forall buf t i, Forall plain t -> sub_at buf i (t ++ [34]) ->
  memchr_unchecked c_quote buf i = Ok (i + length t)%nat.
Proof.
  intros buf t i HP HS. unfold memchr_unchecked.
  match goal with |- loop ?b _ _ = _ => set (body := b) end.
  assert (HL : (i + length t < length buf)%nat).
  { apply sub_at_length in HS; [|intros Y; apply app_eq_nil in Y as [_ Y]; discriminate]. rewrite app_length in HS. cbn [length] in HS. lia. }
  apply sub_at_app in HS as [HS [HQ _]].
  apply (loop_exit body (fun s => length buf - s)%nat) with (s' := (i + length t)%nat); [| |lia].
  - clear HQ. revert i HS HL. induction HP as [|c t Hc HP IH]; intros i HS HL; cbn [length] in *.
    + rewrite Nat.add_0_r. constructor.
    + destruct HS as [S1 S2]. apply runs_step with (s1 := S i).
      * subst body. cbv beta. rewrite (rd_some _ _ _ S1). cbn [bind].
        unfold plain in Hc. now replace (c =? c_quote) with false by (unfold c_quote; lia).
      * lia.
      * replace (i + S (length t))%nat with (S i + length t)%nat by lia. apply IH; auto. lia.
  - subst body. cbv beta. rewrite (rd_some _ _ _ HQ). reflexivity.
Qed.

(** What a trimming step does when it stops at a byte that is neither whitespace
    nor the start of a comment. *)
Lemma trim_cp_to : forall cp checked buf p w c, is_bytes buf -> ws w -> sub_at buf (first p) (w ++ [c]) ->
  32 < c -> c <> 47 -> c <> 35 -> (first p + length w < last p)%nat ->
  trim_left_cp cp checked buf p = Ok (set_first p (first p + length w)).
Proof.
  intros cp checked buf p w c HB W HS HC N1 N2 HL. apply sub_at_app in HS as [S1 [S2 _]]. destruct checked.
  - apply trim_cp_checked; auto.
    + exists w. split; [reflexivity|]. split; [lia|]. split; [exact S1|]. split; [exact W|]. right. eauto.
    + right. eauto.
  - now apply trim_cp_unchecked with (b := c).
Qed.

(** C51: for every name without quotes and backslashes, at every place of every
    document, whatever the whitespace around the colon, for every comment policy,
    checked or not: the name is the text between the quotes and the parser stands
    at the first byte of the value. *)
Theorem C51_name_exact : forall cp checked buf p k w2 w3 c, is_bytes buf -> Forall plain k -> ws w2 -> ws w3 ->
  sub_at buf (first p) (34 :: k ++ 34 :: w2 ++ 58 :: w3 ++ [c]) -> 32 < c -> c <> 47 -> c <> 35 ->
  (first p + length k + length w2 + length w3 + 3 < last p)%nat ->
  parse_name_cp cp checked buf p = Ok (k, set_first p (first p + length k + length w2 + length w3 + 3)).
Proof.
  intros cp checked buf p k w2 w3 c HB HK H2 H3 HS Hc N1 N2 HL. unfold parse_name_cp, parse_nq_cp.
  pose proof HS as [SQ HS'].
  replace (k ++ 34 :: w2 ++ 58 :: w3 ++ [c]) with ((k ++ [34]) ++ w2 ++ 58 :: w3 ++ [c]) in HS' by (rewrite <- app_assoc; reflexivity).
  apply sub_at_app in HS' as [SK ST]. rewrite app_length in ST. cbn [length] in ST.
  assert (FP : first (remove_prefix p 1) = S (first p)) by (unfold remove_prefix; cbn [first set_first]; lia).
  assert (TE : trim_end_of_name_cp cp checked buf (set_first p (S (first p) + length k + 1)) =
     Ok (set_first p (first p + length k + length w2 + length w3 + 3))).
  { unfold trim_end_of_name_cp.
    replace (w2 ++ 58 :: w3 ++ [c]) with ((w2 ++ [58]) ++ w3 ++ [c]) in ST by (rewrite <- app_assoc; reflexivity).
    apply sub_at_app in ST as [S2 S3]. rewrite app_length in S3. cbn [length] in S3.
    replace (S (first p) + (length k + 1))%nat with (S (first p) + length k + 1)%nat in S2, S3 by lia.
    rewrite (trim_cp_to _ _ _ _ w2 58) by (cbn [first last set_first]; auto; lia).
    cbn [bind first set_first]. unfold has_more, front. cbn [first last set_first].
    apply sub_at_app in S2 as [_ [S2 _]].
    replace (S (first p) + length k + 1 + length w2 <? last p)%nat with true by lia.
    rewrite (rd_some _ _ _ S2).
    assert (X : (if checked then _ <- ensure true UnexpectedEndOfData ;; c0 <- Ok 58 ;; ensure (c0 =? c_colon) InvalidMemberName else Ok tt) = Ok tt)
      by (destruct checked; reflexivity).
    rewrite X. cbn [bind].
    rewrite (trim_cp_to _ _ _ _ w3 c); unfold remove_prefix; cbn [first last set_first]; auto; try lia.
    - unfold set_first. cbn [last cfirst clast counter isnull]. do 2 f_equal. lia.
    - now replace (S (first p) + length k + 1 + length w2 + 1)%nat with (S (first p) + length k + 1 + (length w2 + 1))%nat by lia. }
  assert (Q1 : (if checked then q <- is_at buf p c_quote ;; ensure q InvalidMemberName else Ok tt) = Ok tt).
  { destruct checked; [|reflexivity]. rewrite is_at_yes by (auto; lia). reflexivity. }
  rewrite Q1. cbn [bind]. rewrite FP.
  assert (MC : (if checked then memchr_checked c_quote buf (S (first p)) (last (remove_prefix p 1)) else memchr_unchecked c_quote buf (S (first p))) = Ok (S (first p) + length k)%nat).
  { destruct checked; [apply memchr_quote; auto; change (last (remove_prefix p 1)) with (last p); lia|now apply memchr_quote_unchecked]. }
  rewrite MC. cbn [bind]. pose proof SK as SK0. apply sub_at_app in SK as [SK [SK2 _]].
  assert (Q2 : (if checked then
          ok <- is_at buf (set_first (remove_prefix p 1) (S (first p) + length k)) c_quote ;;
          ok <- (if ok : bool then
                   match (S (first p) + length k)%nat with O => UB | S i => b <- rd buf i ;; Ok (negb (b =? c_bslash)) end
                 else Ok false) ;;
          ensure ok InvalidString
        else Ok tt) = Ok tt).
  { destruct checked; [|reflexivity].
    rewrite is_at_yes by (cbn [first last set_first]; auto; change (last (remove_prefix p 1)) with (last p); lia).
    cbn [bind Nat.add]. destruct (plain_last k buf (first p) HK) as (b & Hb & NB); [split; auto|].
    rewrite (rd_some _ _ _ Hb). cbn [bind]. replace (b =? c_bslash) with false by (unfold c_bslash; lia). reflexivity. }
  rewrite Q2. cbn [bind]. unfold remove_prefix at 1. cbn [first set_first].
  match goal with |- context [trim_end_of_name_cp cp checked buf ?q] => change q with (set_first p (S (first p) + length k + 1)) end.
  rewrite TE. cbn [bind]. now rewrite view_at.
Qed.
Print Assumptions C51_name_exact.

Example C51_ex : parse_name_cp CHash false (map (fun c => if c =? 39 then 34 else c) (bytes "{'ab' :	[1]}")) (mkps 1 12 None None 0 false) =
  Ok (bytes "ab", mkps 8 12 None None 0 false).
Proof. vm_compute. reflexivity. Qed.

(** What class parsing uses is this function. *)
Theorem C51_used : forall g buf p, c_escnames g = false -> parse_name g buf p = parse_name_cp CNone true buf p.
Proof.
  intros g buf p HE. unfold parse_name, parse_name_cp, parse_name_nq, parse_nq_cp. rewrite HE.
  destruct (is_at buf p c_quote) as [[]| | |]; cbn [bind ensure]; auto.
  destruct (memchr_checked c_quote buf (first (remove_prefix p 1)) (last (remove_prefix p 1))) as [j| | |]; cbn [bind]; auto.
  destruct (is_at buf (set_first (remove_prefix p 1) j) c_quote) as [[]| | |]; cbn [bind ensure]; auto.
  destruct j as [|j]; cbn [bind]; auto. destruct (rd buf j) as [b| | |]; cbn [bind]; auto.
  destruct (negb (b =? c_bslash)); cbn [ensure bind]; auto.
  assert (E : forall q, trim_end_of_name buf q = trim_end_of_name_cp CNone true buf q).
  { intros q. unfold trim_end_of_name, trim_end_of_name_cp. cbn [trim_left_cp trim_left].
    destruct (trim_left_checked buf q) as [q'| | |]; cbn [bind]; auto. destruct (has_more q'); cbn [ensure bind]; auto.
    destruct (front buf q') as [c| | |]; cbn [bind]; auto. }
  now rewrite E.
Qed.
Print Assumptions C51_used.

(** With AllowEscapedNames the name may contain escapes. *)
Theorem C51_escaped_name_exact : forall g buf p k w2 w3 c, c_ex g = ExConstexpr -> c_excl g = false -> c_escnames g = true ->
  wf buf p -> str_body k -> ws w2 -> ws w3 ->
  sub_at buf (first p) (34 :: k ++ 34 :: w2 ++ 58 :: w3 ++ [c]) -> 32 < c ->
  (first p + length k + length w2 + length w3 + 3 <= last p)%nat -> N.of_nat (length k) < 2^64 ->
  parse_name g buf p = Ok (k, set_first p (first p + length k + length w2 + length w3 + 3)).
Proof. intros. eapply parse_name_ok; eauto. unfold name_ok. now rewrite H1. Qed.
Print Assumptions C51_escaped_name_exact.

(** Where the value would start with the character that opens a comment, the
    parser goes on; this is no JSON value. *)
Example C51_escaped_ex : parse_name (mkcfg ExConstexpr false false true)
   (map (fun c => if c =? 39 then 34 else c) (bytes "'a\'b': 1")) (new_ps 0 9) =
  Ok (map (fun c => if c =? 39 then 34 else c) (bytes "a\'b"), set_first (new_ps 0 9) 8).
Proof. vm_compute. reflexivity. Qed.
