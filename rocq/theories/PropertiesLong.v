(** C123: expecting long names changes nothing but the speed. *)
From Coq Require Import String.
From Coq Require Import List NArith ZArith Bool Lia Arith.
From Coq Require Import ZifyBool ZifyNat ZifyN.
From Verif Require Import Base PolicyModel Mem SpecNum SpecText SpecJson Loop StrScanModel StrScanProofs SkipModel
  SkipProofs SkipSafe ValueModel NameProofs NameModel IntValueProofs GapProofs CTrim PropertiesName HashModel PropertiesHash PropertiesTyped LongModel LongValueModel LongProofs.
Import ListNotations.
Local Open Scope N_scope.

(** ** Searching for a quote *)

Lemma libc_found : forall u buf i last, ~ In 34 u -> sub_at buf i (u ++ [34]) -> (i + length u < last)%nat ->
  libc_quote buf i last = Ok (Some (i + length u)%nat).
Proof.
  intros u buf i last NI HS HL. unfold libc_quote.
  match goal with |- loop ?bd _ _ = _ => set (body := bd) end.
  apply sub_at_app in HS as [HS [HC _]].
  apply (loop_exit body (fun s => last - s)%nat) with (s' := (i + length u)%nat); [| |lia].
  - clear HC. revert i HS HL. induction u as [|d u IH]; intros i HS HL; cbn [length] in *; [rewrite Nat.add_0_r; constructor|].
    destruct HS as [H1 H2]. apply runs_step with (s1 := S i); [|lia|].
    + subst body. cbv beta. destruct (Nat.ltb_spec i last); [|lia]. rewrite (rd_some _ _ _ H1). cbn [bind].
      destruct (d =? c_quote) eqn:E; [|reflexivity]. apply N.eqb_eq in E. destruct NI. left. exact E.
    + replace (i + S (length u))%nat with (S i + length u)%nat by lia. apply IH; auto; [|lia]. intros X; apply NI; right; auto.
  - subst body. cbv beta. destruct (Nat.ltb_spec (i + length u) last); [|lia]. rewrite (rd_some _ _ _ HC). reflexivity.
Qed.

Lemma libc_none : forall buf i last, (last <= length buf)%nat -> (forall k, (i <= k < last)%nat -> nth_error buf k <> Some 34) ->
  libc_quote buf i last = Ok None.
Proof.
  intros buf i last HL HN. unfold libc_quote.
  match goal with |- loop ?bd _ _ = _ => set (body := bd) end.
  apply (loop_exit body (fun s => last - s)%nat) with (s' := Nat.max i last); [| |lia].
  - remember (last - i)%nat as d eqn:ED. revert i HN ED. induction d as [|d IH]; intros i HN ED.
    + replace (Nat.max i last) with i by lia. constructor.
    + apply runs_step with (s1 := S i); [|lia|].
      * subst body. cbv beta. destruct (Nat.ltb_spec i last); [|lia]. destruct (rd_in buf i) as (b & Hb); [lia|].
        rewrite (rd_some _ _ _ Hb). cbn [bind]. destruct (b =? c_quote) eqn:E; [|reflexivity]. apply N.eqb_eq in E. subst b.
        exfalso. apply (HN i); [lia|exact Hb].
      * replace (Nat.max i last) with (Nat.max (S i) last) by lia. apply IH; [|lia]. intros k K. apply HN. lia.
  - subst body. cbv beta. destruct (Nat.ltb_spec (Nat.max i last) last); [lia|reflexivity].
Qed.

Lemma first_quote : forall buf d i j, (j - i = d)%nat -> (i <= j)%nat -> nth_error buf j = Some 34 ->
  exists u, ~ In 34 u /\ sub_at buf i (u ++ [34]) /\ (i + length u <= j)%nat.
Proof.
  intros buf. induction d as [|d IH]; intros i j ED HL HJ.
  - assert (i = j) by lia. subst i. exists []. split; [intros []|]. split; [split; [exact HJ|exact I]|cbn; lia].
  - destruct (rd_in buf i) as (b & Hb); [assert (j < length buf)%nat by (apply nth_error_Some; congruence); lia|].
    destruct (N.eq_dec b 34) as [->|NB].
    + exists []. split; [intros []|]. split; [split; [exact Hb|exact I]|cbn; lia].
    + destruct (IH (S i) j) as (u & NI & SU & LU); [lia|lia|exact HJ|]. exists (b :: u). split; [|split; [split; [exact Hb|exact SU]|cbn [length]; lia]].
      intros [X|X]; auto.
Qed.

(** ** Gaps without comments *)

Lemma cpp_none_long : forall buf i last, no_comment_at buf i last -> cpp_comments_checked_long buf i last = Ok i.
Proof.
  intros buf i last H. unfold cpp_comments_checked_long. cbn [loop].
  destruct (Nat.ltb_spec i last) as [L|L]; [|reflexivity].
  destruct H as [H|(b & Hb & N1 & N2)]; [lia|]. rewrite (rd_some _ _ _ Hb). cbn [bind].
  now replace (b =? c_slash) with false by (unfold c_slash; lia).
Qed.

Lemma hash_none_long : forall buf i last, no_comment_at buf i last -> hash_comments_checked_long buf i last = Ok i.
Proof.
  intros buf i last H. unfold hash_comments_checked_long. cbn [loop].
  destruct (Nat.ltb_spec i last) as [L|L]; [|reflexivity].
  destruct H as [H|(b & Hb & N1 & N2)]; [lia|]. rewrite (rd_some _ _ _ Hb). cbn [bind].
  now replace (b =? c_hash) with false by (unfold c_hash; lia).
Qed.

Lemma trim_long_to : forall cp checked buf p w c, is_bytes buf -> ws w -> sub_at buf (first p) (w ++ [c]) ->
  32 < c -> c <> 47 -> c <> 35 -> (first p + length w < last p)%nat ->
  trim_left_long cp checked buf p = Ok (set_first p (first p + length w)).
Proof.
  intros cp checked buf p w c HB W HS HC N1 N2 HL.
  assert (T : trim_left_cp CNone checked buf p = Ok (set_first p (first p + length w))) by exact (trim_cp_to CNone checked buf p w c HB W HS HC N1 N2 HL).
  apply sub_at_app in HS as [S1 [S2 _]].
  assert (SP : is_space c = false) by (rewrite is_space_spec by (eapply is_bytes_nth; eauto); lia).
  assert (E' : (first p + length w)%nat = last p \/ exists b, nth_error buf (first p + length w) = Some b /\ is_space b = false /\ b <> 47 /\ b <> 35) by (right; exists c; auto).
  assert (exists d, nth_error buf (first p) = Some d /\ d <> 47 /\ d <> 35) as (d & Hd & M1 & M2).
  { destruct W as [|d t Hd W]; cbn [length] in *; [rewrite Nat.add_0_r in *; eauto|]. destruct S1. exists d. split; auto. now apply json_ws_not_comment. }
  assert (LB : (first p + length w < length buf)%nat) by (apply nth_error_Some; congruence).
  destruct cp, checked; cbn [trim_left_long].
  - exact T.
  - exact T.
  - rewrite comment_trim_ws with (t := w) (j := (first p + length w)%nat); auto; [exact cpp_none_long|lia].
  - unfold comment_trim_unchecked. replace (cpp_comments_unchecked_long buf (first p) (last p)) with (@Ok nat (first p)).
    + cbn [bind]. rewrite trim_unchecked_ws with (t := w) (b := c); auto. lia.
    + unfold cpp_comments_unchecked_long. cbn [loop]. rewrite (rd_some _ _ _ Hd). cbn [bind].
      now replace (d =? c_slash) with false by (unfold c_slash; lia).
  - rewrite comment_trim_ws with (t := w) (j := (first p + length w)%nat); auto; [exact hash_none_long|lia].
  - unfold comment_trim_unchecked. replace (hash_comments_unchecked_long buf (first p) (last p)) with (@Ok nat (first p)).
    + cbn [bind]. rewrite trim_unchecked_ws with (t := w) (b := c); auto. lia.
    + unfold hash_comments_unchecked_long. cbn [loop]. rewrite (rd_some _ _ _ Hd). cbn [bind].
      now replace (d =? c_hash) with false by (unfold c_hash; lia).
Qed.

(** ** C123
    Full statement: every function gives with ExpectLongNames what it gives without.
    Partial: whole documents without comments in constant evaluation; names, if there is
    a quote behind the first one; gaps without comments;
    the search for the next member, if it finds one before a zero byte.  The hash of a
    name is C53. *)

(** Without comments: whatever the bytes *)
Theorem C123_name_partial : forall checked buf p j, (first p < j)%nat -> (j < last p)%nat -> nth_error buf j = Some 34 ->
  parse_name_long CNone checked buf p = parse_name_cp CNone checked buf p.
Proof.
  intros checked buf p j H1 H2 HJ. unfold parse_name_long, parse_name_cp, parse_nq_long, parse_nq_cp.
  assert (FP : first (remove_prefix p 1) = S (first p)) by (unfold remove_prefix; cbn [first set_first]; lia).
  change (last (remove_prefix p 1)) with (last p). rewrite FP.
  destruct (first_quote buf _ (S (first p)) j eq_refl) as (u & NI & SU & LU); [lia|exact HJ|].
  unfold memchr_long. rewrite (libc_found u) by (auto; lia). cbn [bind].
  rewrite (memchr_checked_ok c_quote u) by (auto; lia). rewrite (memchr_unchecked_ok c_quote u) by auto.
  destruct checked; reflexivity.
Qed.
Print Assumptions C123_name_partial.

(** With comments allowed, as long as there are none *)
Theorem C123_comments_partial : forall cp checked buf p k w2 w3 c, is_bytes buf -> Forall plain k -> ws w2 -> ws w3 ->
  sub_at buf (first p) (34 :: k ++ 34 :: w2 ++ 58 :: w3 ++ [c]) -> 32 < c -> c <> 47 -> c <> 35 ->
  (first p + length k + length w2 + length w3 + 3 < last p)%nat ->
  parse_name_long cp checked buf p = Ok (k, set_first p (first p + length k + length w2 + length w3 + 3)).
Proof.
  intros cp checked buf p k w2 w3 c HB HK H2 H3 HS Hc N1 N2 HL. unfold parse_name_long, parse_nq_long.
  pose proof HS as [SQ HS'].
  replace (k ++ 34 :: w2 ++ 58 :: w3 ++ [c]) with ((k ++ [34]) ++ w2 ++ 58 :: w3 ++ [c]) in HS' by (rewrite <- app_assoc; reflexivity).
  apply sub_at_app in HS' as [SK ST]. rewrite app_length in ST. cbn [length] in ST.
  assert (FP : first (remove_prefix p 1) = S (first p)) by (unfold remove_prefix; cbn [first set_first]; lia).
  assert (TE : trim_end_of_name_long cp checked buf (set_first p (S (first p) + length k + 1)) =
     Ok (set_first p (first p + length k + length w2 + length w3 + 3))).
  { unfold trim_end_of_name_long.
    replace (w2 ++ 58 :: w3 ++ [c]) with ((w2 ++ [58]) ++ w3 ++ [c]) in ST by (rewrite <- app_assoc; reflexivity).
    apply sub_at_app in ST as [S2 S3]. rewrite app_length in S3. cbn [length] in S3.
    replace (S (first p) + (length k + 1))%nat with (S (first p) + length k + 1)%nat in S2, S3 by lia.
    rewrite (trim_long_to _ _ _ _ w2 58) by (cbn [first last set_first]; auto; lia).
    cbn [bind first set_first]. unfold has_more, front. cbn [first last set_first].
    apply sub_at_app in S2 as [_ [S2 _]].
    replace (S (first p) + length k + 1 + length w2 <? last p)%nat with true by lia.
    rewrite (rd_some _ _ _ S2).
    assert (X : (if checked then _ <- ensure true UnexpectedEndOfData ;; c0 <- Ok 58 ;; ensure (c0 =? c_colon) InvalidMemberName else Ok tt) = Ok tt)
      by (destruct checked; reflexivity).
    rewrite X. cbn [bind].
    rewrite (trim_long_to _ _ _ _ w3 c); unfold remove_prefix; cbn [first last set_first]; auto; try lia.
    - unfold set_first. cbn [last cfirst clast counter isnull]. do 2 f_equal. lia.
    - now replace (S (first p) + length k + 1 + length w2 + 1)%nat with (S (first p) + length k + 1 + (length w2 + 1))%nat by lia. }
  assert (Q1 : (if checked then q <- is_at buf p c_quote ;; ensure q InvalidMemberName else Ok tt) = Ok tt).
  { destruct checked; [|reflexivity]. rewrite is_at_yes by (auto; lia). reflexivity. }
  rewrite Q1. cbn [bind]. rewrite FP.
  assert (NK : ~ In 34 k) by (intros X; rewrite Forall_forall in HK; apply HK in X; unfold plain in X; lia).
  unfold memchr_long. rewrite (libc_found k) by (auto; change (last (remove_prefix p 1)) with (last p); lia). cbn [bind].
  pose proof SK as SK0. apply sub_at_app in SK as [SK [SK2 _]].
  assert (Q2 : (if checked then
          ok <- is_at buf (set_first (remove_prefix p 1) (S (first p) + length k)) c_quote ;;
          ok <- (if ok : bool then
                   match (S (first p) + length k)%nat with O => UB | S i => b <- rd buf i ;; Ok (negb (b =? c_bslash)) end
                 else Ok false) ;;
          ensure ok InvalidString
        else Ok tt) = Ok tt).
  { destruct checked; [|reflexivity].
    rewrite is_at_yes by (cbn [first last set_first]; auto; change (last (remove_prefix p 1)) with (last p); lia).
    cbn [bind Nat.add]. destruct (plain_last k buf (first p) HK) as (b & Hb & NB); [split; auto|].
    rewrite (rd_some _ _ _ Hb). cbn [bind]. replace (b =? c_bslash) with false by (unfold c_bslash; lia). reflexivity. }
  rewrite Q2. cbn [bind]. unfold remove_prefix at 1. cbn [first set_first].
  match goal with |- context [trim_end_of_name_long cp checked buf ?q] => change q with (set_first p (S (first p) + length k + 1)) end.
  rewrite TE. cbn [bind]. now rewrite view_at.
Qed.
Print Assumptions C123_comments_partial.

(** The search for the next name or the end of a class *)
Theorem C123_search_partial : forall g buf p u c, c_ex g <> ExConstexpr -> sub_at buf (first p) (u ++ [c]) -> c = 34 \/ c = 125 ->
  Forall (fun b => b <> 0 /\ b <> 34 /\ b <> 125) u ->
  move_to_next_class_member_long buf p = Ok (set_first p (first p + length u)) /\
  move_to_next_class_member g buf p = Ok (set_first p (first p + length u)).
Proof.
  intros g buf p u c HX HS HC HU.
  assert (HL : (first p + length u < length buf)%nat).
  { apply sub_at_length in HS; [|intros Y; apply app_eq_nil in Y as [_ Y]; discriminate]. rewrite app_length in HS. cbn [length] in HS. lia. }
  apply sub_at_app in HS as [HS [HQ _]].
  assert (G : forall body : nat -> res (nat + nat), (forall i b, nth_error buf i = Some b -> b <> 0 -> b <> 34 -> b <> 125 -> body i = Ok (inl (S i))) ->
    body (first p + length u)%nat = Ok (inr (first p + length u)%nat) ->
    loop body (S (length buf - first p)) (first p) = Ok (first p + length u)%nat).
  { intros body B1 B2. apply (loop_exit body (fun s => length buf - s)%nat) with (s' := (first p + length u)%nat); [|exact B2|lia].
    clear HQ B2. revert HS HL. generalize (first p). induction HU as [|b u Hb HU IH]; intros i HS HL; cbn [length] in *; [rewrite Nat.add_0_r; constructor|].
    destruct HS as [S1 S2]. apply runs_step with (s1 := S i); [apply (B1 i b); tauto|lia|].
    replace (i + S (length u))%nat with (S i + length u)%nat by lia. apply IH; auto. lia. }
  split.
  - unfold move_to_next_class_member_long. rewrite G; [reflexivity| |].
    + intros i b Hb N0 N1 N2. rewrite (rd_some _ _ _ Hb). cbn [bind]. replace (b =? 0) with false by lia.
      replace ((b =? c_quote) || (b =? c_rbrace)) with false by (unfold c_quote, c_rbrace; lia). reflexivity.
    + rewrite (rd_some _ _ _ HQ). cbn [bind]. replace (c =? 0) with false by lia.
      replace ((c =? c_quote) || (c =? c_rbrace)) with true by (unfold c_quote, c_rbrace; lia). reflexivity.
  - unfold move_to_next_class_member.
    assert (E : forall (A : Type) (x y : A), match c_ex g with ExConstexpr => x | _ => y end = y) by (intros; destruct (c_ex g); [congruence|reflexivity..]).
    rewrite E. rewrite G; [reflexivity| |].
    + intros i b Hb N0 N1 N2. rewrite (rd_some _ _ _ Hb). cbn [bind].
      replace ((b =? c_quote) || (b =? c_rbrace)) with false by (unfold c_quote, c_rbrace; lia). reflexivity.
    + rewrite (rd_some _ _ _ HQ). cbn [bind].
      replace ((c =? c_quote) || (c =? c_rbrace)) with true by (unfold c_quote, c_rbrace; lia). reflexivity.
Qed.
Print Assumptions C123_search_partial.

Definition whole (s : string) : ps := new_ps 0 (length (doc_of s)).

(** Whole documents, whatever the bytes and the type: the same outcome, or a null
    pointer where a document would have been refused.  Constant evaluation searches for
    the next member without strpbrk. *)
Theorem C123_from_json_partial : forall g verify t doc, c_ex g = ExConstexpr ->
  from_json_xl g verify t doc = from_json g verify t doc \/
  (from_json_xl g verify t doc = UB /\ forall x, from_json g verify t doc <> Ok x).
Proof. intros g verify t doc HG. exact (same_from_json g HG verify t doc). Qed.
Print Assumptions C123_from_json_partial.

(** What is accepted is accepted with the same value. *)
Theorem C123_accepted_partial : forall g verify t doc x, c_ex g = ExConstexpr -> from_json g verify t doc = Ok x ->
  from_json_xl g verify t doc = Ok x.
Proof.
  intros g verify t doc x HG H. destruct (C123_from_json_partial g verify t doc HG) as [->|[_ R]]; [exact H|]. destruct (R x H).
Qed.
Print Assumptions C123_accepted_partial.

Definition one_member : ty := TClass false [(bytes "abc", uint)].
Example C123_from_json_ex :
  from_json default_cfg true one_member (doc_of "{'x':[1],'abc':7}") = Ok (VClass [VInt 7%Z]) /\
  from_json_xl default_cfg true one_member (doc_of "{'x':[1],'abc':7}") = Ok (VClass [VInt 7%Z]).
Proof. split; vm_compute; reflexivity. Qed.

(** A whole document with a name that does not end. *)
Theorem C123_document_refuted :
  from_json default_cfg true one_member (doc_of "{'abc:7}") = Err InvalidString /\
  from_json_xl default_cfg true one_member (doc_of "{'abc:7}") = UB.
Proof. split; vm_compute; reflexivity. Qed.
Print Assumptions C123_document_refuted.

(** A name that does not end: an error without ExpectLongNames, a null pointer with it. *)
Theorem C123_null_refuted : parse_name_cp CNone true (doc_of "'abc:1}") (whole "'abc:1}") = Err InvalidString /\
  parse_name_long CNone true (doc_of "'abc:1}") (whole "'abc:1}") = UB.
Proof. split; vm_compute; reflexivity. Qed.
Print Assumptions C123_null_refuted.

(** Comments end at a quote, not at the end of the line or of the comment.  What is
    behind the quote is read: 5 instead of 7. *)
Definition line_comment : list N := doc_of "// old: ' 5" ++ 10 :: doc_of " 7".
Definition block_comment : list N := doc_of "/* a '/ 5 */ 7".
Definition hash_comment : list N := doc_of "# old: '5'" ++ 10 :: doc_of " 7".
Theorem C123_comment_refuted :
  (trim_left_cp CCpp true line_comment (new_ps 0 14) = Ok (set_first (new_ps 0 14) 13) /\ nth_error line_comment 13 = Some 55 /\
   trim_left_long CCpp true line_comment (new_ps 0 14) = Ok (set_first (new_ps 0 14) 10) /\ nth_error line_comment 10 = Some 53) /\
  (trim_left_cp CCpp true block_comment (new_ps 0 14) = Ok (set_first (new_ps 0 14) 13) /\ nth_error block_comment 13 = Some 55 /\
   trim_left_long CCpp true block_comment (new_ps 0 14) = Ok (set_first (new_ps 0 14) 8) /\ nth_error block_comment 8 = Some 53) /\
  (trim_left_cp CHash true hash_comment (new_ps 0 13) = Ok (set_first (new_ps 0 13) 12) /\ nth_error hash_comment 12 = Some 55 /\
   trim_left_long CHash true hash_comment (new_ps 0 13) = Ok (set_first (new_ps 0 13) 7) /\ nth_error hash_comment 7 = Some 34).
Proof. repeat split; vm_compute; reflexivity. Qed.
Print Assumptions C123_comment_refuted.

(** A comment with no quote from its start to the end of the document: the null
    pointer again, whatever the comment. *)
Theorem C123_no_quote : forall buf p, (last p <= length buf)%nat -> (S (first p) < last p)%nat ->
  nth_error buf (first p) = Some 47 -> nth_error buf (S (first p)) = Some 47 ->
  (forall k, (first p <= k < last p)%nat -> nth_error buf k <> Some 34) -> trim_left_long CCpp true buf p = UB.
Proof.
  intros buf p HL HF H1 H2 HN. cbn [trim_left_long]. unfold comment_trim_checked, cpp_comments_checked_long. cbn [loop].
  replace (first p <? last p)%nat with true by lia. rewrite (rd_some _ _ _ H1). cbn [bind].
  change (47 =? c_slash) with true. cbn iota. rewrite (rd_some _ _ _ H2). cbn [bind]. change (47 =? c_slash) with true. cbn iota.
  unfold memchr_long. rewrite (libc_none buf (first p) (last p) HL HN). reflexivity.
Qed.
Print Assumptions C123_no_quote.

(** A zero byte ends the search for the next member. *)
Theorem C123_zero_refuted : let buf := [32; 0; 125] in let p := new_ps 0 3 in
  move_to_next_class_member (mkcfg ExRuntime false false false) buf p = Ok (set_first (new_ps 0 3) 2) /\ move_to_next_class_member_long buf p = UB.
Proof. split; vm_compute; reflexivity. Qed.
Print Assumptions C123_zero_refuted.

Example C123_ex : parse_name_long CNone true (doc_of "'abc' : 1}") (whole "'abc' : 1}") = Ok (bytes "abc", set_first (new_ps 0 10) 8) /\
  parse_name_long CCpp false (doc_of "'abc' : 1}") (whole "'abc' : 1}") = Ok (bytes "abc", set_first (new_ps 0 10) 8) /\
  trim_left_long CCpp true (doc_of "// no quote") (whole "// no quote") = UB /\
  move_to_next_class_member_long (doc_of ", 'b':2}") (whole ", 'b':2}") = Ok (set_first (new_ps 0 8) 2).
Proof. repeat split; vm_compute; reflexivity. Qed.
