(** Member names and the gaps around them. *)
From Coq Require Import List NArith ZArith Bool Lia Arith ZifyBool ZifyNat ZifyN.
From Verif Require Import Base Mem Loop PolicyModel IntModel StrScanModel SkipModel SpecNum SpecText SpecJson
  IntValueProofs StrScanProofs StrScanProofs2 StrScanProofs3 SkipProofs BracketProofs SkipSafe PropertiesStr
  StrDecodeProofs ValueModel.
Import ListNotations.
Local Open Scope N_scope.

Ltac len := repeat (progress (rewrite ?app_length in *; cbn [length] in *)).

(** What every value starts with. *)
Definition starter (c : N) : Prop := 32 < c /\ c <> 44 /\ c <> 93 /\ c <> 125 /\ c <> 58.

Lemma jtext_head : forall sb v t, jtext sb v t -> exists c r, t = c :: r /\ starter c.
Proof.
  unfold starter. intros sb v t HT. destruct HT as [| | |n HJ| | | | |]; try (do 2 eexists; split; [reflexivity|lia]).
  destruct HJ as [sg i f e Hsg (Di & Ni & _) Hf He]. destruct Hsg as [->| ->]; cbn [app].
  - destruct i as [|d i]; [congruence|]. cbn [app]. do 2 eexists; split; [reflexivity|]. inversion Di; subst. unfold is_dig in *. lia.
  - do 2 eexists; split; [reflexivity|lia].
Qed.

Lemma trim_to : forall buf p w c, is_bytes buf -> ws w -> sub_at buf (first p) (w ++ [c]) -> 32 < c ->
  (first p + length w <= last p)%nat ->
  trim_left_checked buf p = Ok (set_first p (first p + length w)).
Proof.
  intros buf p w c HB HW HS HC HL. apply trim_left_run; auto.
  apply sub_at_app in HS as [S1 [S2 _]]. exists w. repeat split; auto. right. exists c. split; auto.
Qed.

Lemma trim_here : forall buf p c, is_bytes buf -> nth_error buf (first p) = Some c -> 32 < c ->
  trim_left_checked buf p = Ok p.
Proof.
  intros buf p c HB HS HC. destruct (Nat.le_gt_cases (first p) (last p)) as [L|L].
  - rewrite (trim_to buf p [] c HB ltac:(constructor) (conj HS I) HC ltac:(cbn; lia)).
    cbn [length]. rewrite Nat.add_0_r. now destruct p.
  - unfold trim_left_checked. replace (last p - first p)%nat with 0%nat by lia. cbn [trim_loop].
    replace (first p <? last p)%nat with false by lia. cbn [bind]. now destruct p.
Qed.

Lemma trim_unchecked_to : forall buf p w c, is_bytes buf -> ws w -> sub_at buf (first p) (w ++ [c]) -> 32 < c ->
  trim_left_unchecked buf p = Ok (set_first p (first p + length w)).
Proof.
  intros buf p w c HB HW HS HC. unfold trim_left_unchecked.
  pose proof (sub_at_length _ _ _ HS ltac:(destruct w; discriminate)) as LB. len.
  apply sub_at_app in HS as [S1 [S2 _]].
  assert (SP : is_space c = false) by (rewrite is_space_spec by (eapply is_bytes_nth; eauto); lia).
  rewrite (trim_unchecked_ws w buf (first p) _ c); auto. lia.
Qed.

Lemma trim_unchecked_here : forall buf p c, is_bytes buf -> nth_error buf (first p) = Some c -> 32 < c ->
  trim_left_unchecked buf p = Ok p.
Proof.
  intros buf p c HB HS HC. rewrite (trim_unchecked_to buf p [] c HB ltac:(constructor) (conj HS I) HC).
  cbn [length]. rewrite Nat.add_0_r. now destruct p.
Qed.

Lemma is_at_yes : forall buf p c, nth_error buf (first p) = Some c -> (first p < last p)%nat -> is_at buf p c = Ok true.
Proof.
  intros buf p c H L. unfold is_at, has_more, front. replace (first p <? last p)%nat with true by lia.
  rewrite (rd_some _ _ _ H). cbn [bind]. now rewrite N.eqb_refl.
Qed.

Lemma is_at_no : forall buf p b c, nth_error buf (first p) = Some b -> b <> c -> is_at buf p c = Ok false.
Proof.
  intros buf p b c H NE. unfold is_at, front. destruct (has_more p); [|reflexivity].
  rewrite (rd_some _ _ _ H). cbn [bind]. now replace (b =? c) with false by lia.
Qed.

Lemma trim_end_of_name_ok : forall buf p w2 w3 c, is_bytes buf -> ws w2 -> ws w3 ->
  sub_at buf (first p) (w2 ++ 58 :: w3 ++ [c]) -> 32 < c ->
  (first p + length w2 + 1 + length w3 <= last p)%nat ->
  trim_end_of_name buf p = Ok (set_first p (first p + length w2 + 1 + length w3)).
Proof.
  intros buf p w2 w3 c HB H2 H3 HS HC HL. unfold trim_end_of_name.
  apply sub_at_app in HS as [S2 [SC S3]].
  rewrite (trim_to buf p w2 58); auto; [|apply sub_at_app; cbn; auto|lia|lia].
  cbn [bind]. unfold has_more, front. cbn [first last set_first]. replace (first p + length w2 <? last p)%nat with true by lia.
  cbn [ensure bind]. rewrite (rd_some _ _ _ SC). cbn [bind]. change (58 =? c_colon) with true. cbn [ensure bind].
  unfold remove_prefix. cbn [first set_first].
  rewrite (trim_to buf (set_first (set_first p (first p + length w2)) (first p + length w2 + 1)) w3 c); auto.
  - cbn [first set_first]. now replace (S (first p + length w2)) with (first p + length w2 + 1)%nat in S3 by lia.
Qed.

(** Names as the parser delimits them: without escapes, unless escaped names are
    allowed. *)
Definition name_ok (g : cfg) (k : list N) : Prop := if c_escnames g then str_body k else Forall plain k.

Lemma view_at : forall buf i t, sub_at buf i t -> view buf i (i + length t) = t.
Proof.
  intros buf i t H. unfold view. replace (i + length t - i)%nat with (length t) by lia. now apply firstn_skipn_at.
Qed.

Lemma memchr_quote : forall buf t i last, Forall plain t -> sub_at buf i (t ++ [34]) -> (i + length t < last)%nat ->
  memchr_checked c_quote buf i last = Ok (i + length t)%nat.
Proof.
  intros buf t i last HP HS HL. unfold memchr_checked.
  match goal with |- loop ?b _ _ = _ => set (body := b) end.
  apply sub_at_app in HS as [HS [HQ _]].
  apply (loop_exit body (fun s => last - s)%nat) with (s' := (i + length t)%nat); [| |lia].
  - clear HQ. revert i HS HL. induction HP as [|c t Hc HP IH]; intros i HS HL; cbn [length] in *.
    + rewrite Nat.add_0_r. constructor.
    + destruct HS as [S1 S2]. apply runs_step with (s1 := S i).
      * subst body. cbv beta. replace (i <? last)%nat with true by lia. rewrite (rd_some _ _ _ S1). cbn [bind].
        unfold plain in Hc. now replace (c =? c_quote) with false by (unfold c_quote; lia).
      * lia.
      * replace (i + S (length t))%nat with (S i + length t)%nat by lia. apply IH; auto. lia.
  - subst body. cbv beta. replace (i + length t <? last)%nat with true by lia. rewrite (rd_some _ _ _ HQ). reflexivity.
Qed.

Lemma plain_last : forall k buf i, Forall plain k -> sub_at buf i (34 :: k) ->
  exists b, nth_error buf (i + length k) = Some b /\ b <> 92.
Proof.
  intros k buf i HP HS. destruct k as [|x k] using rev_ind.
  - cbn [length]. rewrite Nat.add_0_r. destruct HS. exists 34. split; [assumption|discriminate].
  - change (34 :: k ++ [x]) with ((34 :: k) ++ [x]) in HS. apply sub_at_app in HS as [_ [HS _]]. cbn [length] in HS.
    exists x. rewrite app_length. cbn [length]. replace (i + (length k + 1))%nat with (i + S (length k))%nat by lia. split; auto.
    apply Forall_app in HP as [_ HP]. inversion HP as [|? ? Hx _]; subst. apply Hx.
Qed.

Lemma parse_name_ok : forall g buf p k w2 w3 c, c_ex g = ExConstexpr -> c_excl g = false -> wf buf p -> name_ok g k -> ws w2 -> ws w3 ->
  sub_at buf (first p) (34 :: k ++ 34 :: w2 ++ 58 :: w3 ++ [c]) -> 32 < c ->
  (first p + length k + length w2 + length w3 + 3 <= last p)%nat -> N.of_nat (length k) < 2^64 ->
  parse_name g buf p = Ok (k, set_first p (first p + length k + length w2 + length w3 + 3)).
Proof.
  intros g buf p k w2 w3 c HX HE (HB & HN & HLp & cl & HC & HCL) HK H2 H3 HS Hc HL H64. unfold parse_name.
  pose proof HS as HS0. destruct HS as [SQ HS].
  rewrite is_at_yes by (auto; lia). cbn [bind ensure]. unfold parse_name_nq.
  replace (k ++ 34 :: w2 ++ 58 :: w3 ++ [c]) with ((k ++ [34]) ++ w2 ++ 58 :: w3 ++ [c]) in HS by (rewrite <- app_assoc; reflexivity).
  apply sub_at_app in HS as [SK ST]. rewrite app_length in ST. cbn [length] in ST.
  assert (FP : first (remove_prefix p 1) = S (first p)) by (unfold remove_prefix; cbn [first set_first]; lia).
  assert (LP : last (remove_prefix p 1) = last p) by reflexivity.
  assert (TE : trim_end_of_name buf (set_first p (S (first p) + length k + 1)) =
     Ok (set_first p (first p + length k + length w2 + length w3 + 3))).
  { rewrite (trim_end_of_name_ok buf _ w2 w3 c); auto; cbn [first last set_first].
    - unfold set_first. cbn [last cfirst clast counter isnull]. do 2 f_equal. lia.
    - now replace (S (first p) + length k + 1)%nat with (S (first p) + (length k + 1))%nat by lia.
    - lia. }
  unfold name_ok in HK. destruct (c_escnames g).
  - unfold skip_string_nq. rewrite HX, HE.
    rewrite (C14_string_end true buf (remove_prefix p 1) cl k); auto.
    2:{ unfold in_string. rewrite FP, LP. repeat split; auto; try lia. replace (S (first p) - 1)%nat with (first p) by lia. exact SQ. }
    2:{ rewrite FP. exact SK. }
    2:{ rewrite FP. lia. }
    cbn [bind]. unfold front. cbn [first set_first]. rewrite FP. apply sub_at_app in SK as [SK [SK2 _]].
    rewrite (rd_some _ _ _ SK2). cbn [bind]. change (34 =? c_quote) with true. cbn [ensure bind].
    match goal with |- context [trim_end_of_name buf ?q] => change q with (set_first p (S (first p) + length k + 1)) end.
    rewrite TE. cbn [bind first last set_last set_counter]. rewrite FP. now rewrite view_at.
  - rewrite FP, LP. rewrite (memchr_quote buf k); auto; [|lia]. cbn [bind].
    apply sub_at_app in SK as [SK [SK2 _]].
    rewrite is_at_yes by (cbn [first last set_first]; rewrite ?LP; auto; lia). cbn [bind].
    cbn [Nat.add].
    destruct (plain_last k buf (first p) HK) as (b & Hb & NB); [split; auto|].
    rewrite (rd_some _ _ _ Hb). cbn [bind]. replace (b =? c_bslash) with false by (unfold c_bslash; lia). cbn [negb ensure bind].
    unfold remove_prefix. cbn [first set_first].
    replace (S (first p + length k) + 1)%nat with (S (first p) + length k + 1)%nat by lia.
    match goal with |- context [trim_end_of_name buf ?q] => change q with (set_first p (S (first p) + length k + 1)) end.
    rewrite TE. cbn [bind]. change (S (first p + length k)) with (S (first p) + length k)%nat. now rewrite view_at.
Qed.
