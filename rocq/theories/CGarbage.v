(** Something behind a document with comments is noticed. *)
From Coq Require Import List NArith ZArith Bool Lia Arith ZifyBool ZifyNat ZifyN.
From Verif Require Import Base Mem Loop PolicyModel IntModel StrScanModel SkipModel HashModel SpecUnicode SpecNum SpecText SpecJson SpecC
  IntProofs IntValueProofs StrScanProofs StrScanProofs2 SkipProofs SkipSafe GapProofs PropertiesStr PropertiesSkip ClassProofs
  StrDecodeModel StrDecodeProofs StrDecodeSafe ValueModel SpecTyped NameProofs ClassProofs2 ScalarProofs ArrayProofs VariantProofs TypedProofs BracketProofs PropertiesHash ZReads ZInt CModel CLex CTrim CState CSkip CBracket CScalar CScalar2 CClass CTypes CTyped.
Import ListNotations.
Local Open Scope N_scope.

Theorem from_json_c_garbage : forall g (nc : list (list N) -> list N -> Prop), c_ex g = ExConstexpr -> c_excl g = false ->
  (forall names k, nc names k -> name_ok g k /\ tells g names k) ->
  forall (cp : pol) t v x doc w0 tx w c rest, cp <> CNone -> is_bytes doc -> N.of_nat (length doc) < 2^32 - 1 ->
  blanked cp Anywhere doc (w0 ++ tx ++ w ++ c :: rest) -> typed nc t v x ->
  jtext str_body v tx -> ws w0 -> (trims t = false -> w0 = []) -> ws w -> closer c -> from_json_c cp g true t doc = Err InvalidEndOfValue.
Proof.
  intros g nc HX HE HNC cp t v x D w0 tx w c rest NCP HBD HL32 BL HTy HT W0 TR W HC.
  set (B := w0 ++ tx ++ w ++ c :: rest) in *.
  assert (LEN : length D = length B) by (eapply blanked_length0; eauto).
  assert (HBB : is_bytes B) by (eapply blanked_bytes; eauto).
  assert (T : two cp D B) by (split; [exact LEN|]; split; [exact HBD|]; split; [exact HBB|]; split; [exact NCP|]; split; [change (2^32) with 4294967296 in *; lia|exact (blanked_min _ _ _ _ BL)]).
  destruct (blanked_reach cp D B T _ _ _ BL [] [] eq_refl eq_refl eq_refl) as (y & R). cbn [length] in R. rewrite LEN in R.
  destruct (jtext_head _ _ _ HT) as (c0 & r0 & ET & ST).
  set (k := length (w0 ++ tx ++ w)) in *.
  assert (LL : k = (length w0 + length tx + length w)%nat) by (unfold k; rewrite !app_length; lia).
  assert (LT : (0 < length tx)%nat) by (rewrite ET; cbn; lia).
  assert (LB : length B = (k + S (length rest))%nat) by (unfold B, k; rewrite !app_length; cbn [length]; lia).
  assert (HK : nth_error B k = Some c).
  { unfold B, k. replace (w0 ++ tx ++ w ++ c :: rest) with ((w0 ++ tx ++ w) ++ c :: rest) by (rewrite <- !app_assoc; reflexivity).
    rewrite nth_error_app2, Nat.sub_diag by lia. reflexivity. }
  (* the end *)
  assert (ZZ : exists d l, nth_error D (length B - 1) = Some d /\ (if d =? 0 then (length B - 1)%nat else length B) = l /\ (k < l <= length B)%nat /\
     (exists y', reach cp D B Anywhere 0 y' l) /\ (l = length B \/ both cp D B l /\ nth_error B l = Some 0)).
  { destruct (length B) as [|m] eqn:EM; [lia|]. destruct (last_same cp D B T g (conj HX HE) _ _ _ _ R m eq_refl ltac:(lia)) as (b & d & Hb & Hd & SD). replace (S m - 1)%nat with m by lia.
    exists d. destruct (N.eqb_spec d 0) as [->|ND].
    - exists m. split; [exact Hd|]. split; [reflexivity|]. assert (b = 0) by (destruct SD as [->|[_ SD]]; [auto|contradiction SD; auto]). subst b.
      split; [|split; [eapply reach_drop; eauto; lia|right; split; [exists 0, 0; split; [exact Hb|split; [exact Hd|now left]]|exact Hb]]].
      assert (m <> k); [|lia]. intros ->. assert (c = 0) by congruence. subst c. unfold closer in HC. lia.
    - exists (S m). split; [exact Hd|]. split; [reflexivity|]. split; [lia|]. split; [eauto|now left]. }
  destruct ZZ as (d & l & Hd & EL' & LK & (y' & R') & FI).
  unfold from_json_c. rewrite LEN. replace (length B =? 0)%nat with false by lia. cbn [negb ensure bind]. rewrite (rd_some _ _ _ Hd). cbn [bind]. rewrite EL'. cbv zeta.
  assert (STX : sub_at B (length w0) tx) by apply sub_at_mid.
  set (p := set_first (new_ps 0 l) (length w0)).
  assert (H32 : N.of_nat (length B) < 2^32) by (change (2^32) with 4294967296 in *; lia).
  assert (WF : wf B p) by (apply wf_doc; auto; lia).
  assert (EP : parse_value_cs g t false B (new_ps 0 l) = parse_value_cs g t false B p).
  { destruct (trims t) eqn:TT.
    - apply (strict_leading_c g HX HE nc HNC t B (new_ps 0 l) c0 HBB TT w0 W0); cbn [first last new_ps].
      + unfold B. rewrite ET. replace (w0 ++ (c0 :: r0) ++ w ++ c :: rest) with ((w0 ++ [c0]) ++ (r0 ++ w ++ c :: rest)) by (rewrite <- !app_assoc; reflexivity). apply sub_at_0.
      + unfold starter in ST. lia.
      + lia.
    - unfold p. rewrite (TR eq_refl). reflexivity. }
  assert (HF : followed true B (first p + length tx) k (last p)).
  { exists w. split; [exact W|]. unfold p. cbn [first last set_first new_ps]. split; [|split; [lia|split; [lia|right; split; [lia|exists c; auto]]]].
    unfold B. replace (w0 ++ tx ++ w ++ c :: rest) with ((w0 ++ tx) ++ w ++ c :: rest) by (rewrite <- !app_assoc; reflexivity).
    rewrite <- app_length. apply sub_at_mid. }
  destruct (proj1 (strict_reads_c g HX HE nc HNC t v x HTy) B p tx k WF H32 HT STX HF) as (q & EQ & MQ & LQ).
  assert (S0 : st cp D B (new_ps 0 l)).
  { split; [reflexivity|]. split; [exact I|]. split; [|split; [exists Anywhere, y'; exact R'|exists l; split; [reflexivity|cbn; lia]]].
    cbn [last new_ps]. split; [lia|]. destruct FI as [->|[FB F0]]; auto. }
  destruct (proj1 (sim_value_c cp D B T g (conj HX HE) t) (new_ps 0 l) S0 (x, q)) as [EC (SQ & _)]; [now rewrite EP|]. rewrite EC. cbn [bind].
  assert (LQl : last q = l) by (rewrite (proj1 MQ); reflexivity).
  assert (TQ : trim_left_checked B q = Ok (set_first q k)).
  { apply (trim_followed B q k HBB). rewrite LQl. change (last p) with l in HF. eapply followed_from; [exact HF|exact LQ]. }
  destruct (sp_trim cp D B T q SQ _ TQ) as [TC _]. rewrite TC. cbn [bind]. unfold ps_empty. cbn [isnull first last set_first].
  assert (NQ : isnull q = false) by (destruct MQ as (_ & _ & _ & ->); reflexivity).
  rewrite NQ, LQl. replace (l <=? k)%nat with false by lia. reflexivity.
Qed.
