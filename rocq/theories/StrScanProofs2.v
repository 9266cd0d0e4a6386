(** The other scanners: unchecked, runtime, ExcludeSpecialEscapes, and the one
    used while skipping brackets. *)
From Coq Require Import List NArith ZArith Bool Lia Arith ZifyBool ZifyNat ZifyN.
From Verif Require Import Base Mem Bits Loop PolicyModel IntModel IntProofs StrScanModel SpecNum SpecText SpecJson StrScanProofs.
Import ListNotations.
Ltac Zify.zify_post_hook ::= Z.div_mod_to_equations.

Lemma plain_test : forall c, plain c -> (negb (c =? c_quote) && negb (c =? c_bslash))%N = true
  /\ ((c =? c_bslash) || (c =? c_quote))%N = false.
Proof. intros c [H1 H2]. unfold c_quote, c_bslash. split; lia. Qed.
Lemma not_plain_test : forall c, ~ plain c -> (negb (c =? c_quote) && negb (c =? c_bslash))%N = false
  /\ ((c =? c_bslash) || (c =? c_quote))%N = true.
Proof. intros c H. unfold plain in H. unfold c_quote, c_bslash. split; lia. Qed.

(** ** Unchecked *)

Lemma plain_loop_unchecked_ok : forall u buf i c, Forall plain u -> sub_at buf i u ->
  nth_error buf (i + length u) = Some c -> ~ plain c ->
  plain_loop_unchecked buf i = Ok (i + length u).
Proof.
  intros u buf i c HP HS HC NP. unfold plain_loop_unchecked.
  assert (LB : i + length u < length buf) by (apply nth_error_Some; congruence).
  set (body := fun i0 : nat => c <- rd buf i0 ;; _).
  apply (loop_exit body (fun s => length buf - s)) with (s' := i + length u); [| |lia].
  - clear HC. revert i HS LB. induction HP as [|d u Hd HP IH]; intros i HS LB.
    + rewrite Nat.add_0_r. constructor.
    + destruct HS as [S1 S2]. cbn [length] in *. apply runs_step with (s1 := S i).
      * subst body. cbv beta. rewrite (rd_some _ _ _ S1). cbn [bind].
        now rewrite (proj1 (plain_test _ Hd)).
      * lia.
      * replace (i + S (length u)) with (S i + length u) by lia. apply IH; auto. lia.
  - subst body. cbv beta. rewrite (rd_some _ _ _ HC). cbn [bind].
    now rewrite (proj1 (not_plain_test _ NP)).
Qed.

Lemma nq_unchecked_ok : forall n t buf start i nsp, length t <= n -> str_body t ->
  sub_at buf i (t ++ [34%N]) -> start <= i ->
  forall f, length buf - i < f ->
  loop (nq_body_unchecked buf start) f (i, nsp) = Ok (i + length t, nsp_after nsp start i t).
Proof.
  induction n as [n IH] using (well_founded_induction lt_wf).
  intros t buf start i nsp Hn HB HS Hst f Hf.
  destruct (str_body_split t HB) as (u & r & -> & PU & R).
  destruct f; [lia|]. cbn [loop]. unfold nq_body_unchecked at 1.
  rewrite app_length in *.
  destruct R as [->|(c & t' & -> & HB')].
  - rewrite app_nil_r in *. apply sub_at_app in HS as [SU [SQ _]]. cbn [length] in *.
    assert (HNS : nsp_after nsp start i u = nsp).
    { unfold nsp_after. rewrite <- (app_nil_r u), escape_offset_plain by auto. cbn. destruct (nsp <? 0)%Z; auto. }
    rewrite HNS, Nat.add_0_r in *.
    destruct u as [|c u].
    + cbn [length] in *. rewrite Nat.add_0_r in *. rewrite (rd_some _ _ _ SQ). cbn [bind].
      change (34 =? c_quote)%N with true. reflexivity.
    + pose proof SU as [S1 S2]. rewrite (rd_some _ _ _ S1). cbn [bind]. inversion PU as [|? ? [P1 P2] PU']; subst.
      replace (c =? c_quote)%N with false by (unfold c_quote; lia).
      rewrite plain_loop_unchecked_ok with (u := c :: u) (c := 34%N); auto; try (unfold plain; lia).
      cbn [bind]. rewrite (rd_some _ _ _ SQ). reflexivity.
  - rewrite <- app_assoc in HS. apply sub_at_app in HS as [SU [SB [SC SR]]]. cbn [length app] in *.
    assert (LB : i + length u < length buf) by (apply nth_error_Some; congruence).
    assert (FST : exists b, nth_error buf i = Some b /\ b <> 34%N).
    { destruct u as [|b u].
      - rewrite Nat.add_0_r in SB. exists 92%N. split; auto. lia.
      - destruct SU. inversion PU as [|? ? [P1 P2] PU']; subst. eauto. }
    destruct FST as (b & Hb & Nb). rewrite (rd_some _ _ _ Hb). cbn [bind].
    replace (b =? c_quote)%N with false by (unfold c_quote; lia).
    rewrite plain_loop_unchecked_ok with (u := u) (c := 92%N); auto; try (unfold plain; lia).
    cbn [bind]. rewrite (rd_some _ _ _ SB). cbn [bind]. change (92 =? c_bslash)%N with true. cbn [bind].
    rewrite (IH (length t')) with (t := t'); auto; try lia.
    + f_equal. f_equal; [lia|].
      unfold nsp_after at 2. rewrite escape_offset_plain by auto. cbn [escape_offset N.eqb Pos.eqb option_map].
      unfold nsp_after, note_escape. destruct (Z.ltb_spec nsp 0).
      * replace (Z.of_nat (i + length u) - Z.of_nat start <? 0)%Z with false by lia. f_equal. f_equal. lia.
      * replace (nsp <? 0)%Z with false by lia. reflexivity.
    + replace (i + length u + 2) with (S (S (i + length u))) by lia. exact SR.
Qed.

Lemma plain_prefix : forall t u buf i, str_body t -> sub_at buf i (t ++ [34%N]) ->
  Forall plain u -> sub_at buf i u -> exists r, t = u ++ r /\ str_body r.
Proof.
  intros t u buf i HB. revert i u. induction HB; intros i u HS PU SU.
  - destruct u as [|x u]; [exists []; split; auto; constructor|].
    destruct HS, SU. inversion PU as [|? ? [P1 P2] PU']; subst. congruence.
  - destruct u as [|x u]; [exists (c :: t); split; auto; constructor; auto|].
    destruct HS as [HS1 HS2], SU as [SU1 SU2]. inversion PU; subst. assert (x = c) by congruence. subst.
    destruct (IHHB (S i) u HS2) as (r & -> & Hr); auto. exists r. auto.
  - destruct u as [|x u]; [exists (92%N :: c :: t); split; auto; apply sb_esc; auto|].
    destruct HS, SU. inversion PU as [|? ? [P1 P2] PU']; subst. congruence.
Qed.

Lemma parse_nq_uncheck_ok : forall buf p cl t, in_string buf p cl -> str_body t ->
  sub_at buf (first p) (t ++ [34%N]) -> (N.of_nat (length t) < 2^64)%N ->
  parse_nq false ExConstexpr false buf p = Ok (esc_size t, set_first p (first p + length t)).
Proof.
  intros buf p cl t HI HB HS H64. unfold parse_nq, parse_nq_uncheck.
  assert (exists j, (if 8 <=? last p - first p then skip_to_first8 buf (first p) (last p)
             else if 4 <=? last p - first p then skip_to_first4 buf (first p) (last p)
             else Ok (first p)) = Ok j /\ plain_run buf (first p) j /\ j <= last p) as (j & EJ & PR & JL).
  { pose proof HI as (HBy & HF & HQ & HC & HLb & HCL & HFL).
    apply (fast_skip_ok buf (set_class p (Some 0) (Some (last p))) (last p)).
    repeat split; auto. }
  rewrite EJ. cbn [bind].
  destruct (plain_run_text _ _ _ PR) as (u & PU & SU & EU).
  destruct (plain_prefix t u buf (first p)) as (r & -> & HBr); auto.
  rewrite <- app_assoc in HS. apply sub_at_app in HS as [_ HS].
  rewrite app_length in *.
  rewrite nq_unchecked_ok with (n := length r) (t := r); auto; try lia.
  2:{ now rewrite EU. }
  cbn [bind].
  f_equal. f_equal.
  - rewrite <- to_size_after with (start := first p) by (rewrite app_length; lia).
    f_equal. pose proof (nsp_after_app (first p) u r PU []) as X. cbn [app length] in X. rewrite X.
    rewrite nsp_after_nil. f_equal. lia.
  - f_equal. lia.
Qed.

(** ** ExcludeSpecialEscapes *)

(** Bodies it accepts: no control characters, only the listed escapes (a \u is
    not inspected further). *)
Inductive excl_body : list N -> Prop :=
| xb_nil : excl_body []
| xb_plain : forall c t, (32 <= c)%N -> c <> 34%N -> c <> 92%N -> excl_body t -> excl_body (c :: t)
| xb_esc : forall c t, In c [34; 92; 47; 98; 102; 110; 114; 116; 117]%N -> excl_body t ->
    excl_body (92%N :: c :: t).

Lemma excl_str_body : forall t, excl_body t -> str_body t.
Proof. induction 1; [constructor|apply sb_plain; auto|apply sb_esc; auto]. Qed.

Lemma rfc_excl_body : forall t, rfc_body t -> excl_body t.
Proof.
  induction 1.
  - constructor.
  - constructor; auto.
  - apply xb_esc; auto. cbn in *. intuition.
  - unfold is_hex in *. apply xb_esc; [cbn; intuition|]. repeat (apply xb_plain; [lia|lia|lia|]). assumption.
Qed.

Lemma special_escape_in : forall c, special_escape c = true <-> In c [34; 92; 47; 98; 102; 110; 114; 116; 117]%N.
Proof.
  intros c. unfold special_escape. rewrite existsb_exists. split.
  - intros (x & Hx & E). apply N.eqb_eq in E. now subst.
  - intros H. exists c. split; auto. apply N.eqb_refl.
Qed.

Lemma nq_excl_ok : forall t buf start last, excl_body t ->
  forall i nsp, sub_at buf i (t ++ [34%N]) -> i + length t < last -> start <= i ->
  forall f, last - i < f ->
  loop (nq_body_excl buf start last) f (i, nsp) = Ok (i + length t, nsp_after nsp start i t).
Proof.
  intros t buf start last HB. induction HB; intros i nsp HS HL Hst f Hf; (destruct f; [lia|]); cbn [loop length] in *;
    unfold nq_body_excl at 1; (destruct (Nat.ltb_spec i last); [|lia]).
  - destruct HS as [S1 _]. rewrite (rd_some _ _ _ S1). cbn [bind]. rewrite nsp_after_nil, Nat.add_0_r. reflexivity.
  - destruct HS as [S1 S2]. rewrite (rd_some _ _ _ S1). cbn [bind].
    replace (32 <=? c)%N with true by lia. cbn [ensure bind].
    replace (c =? c_bslash)%N with false by (unfold c_bslash; lia).
    replace (c =? c_quote)%N with false by (unfold c_quote; lia). cbn [bind].
    rewrite IHHB; auto; try lia. f_equal. f_equal; [lia|].
    unfold nsp_after. cbn [escape_offset]. replace (c =? 92)%N with false by lia.
    destruct (escape_offset t); cbn [option_map]; auto. destruct (nsp <? 0)%Z; auto. lia.
  - destruct HS as (S1 & S2 & S3). rewrite (rd_some _ _ _ S1). cbn [bind].
    change (32 <=? 92)%N with true. cbn [ensure bind]. change (92 =? c_bslash)%N with true.
    replace (1 <? last - i) with true by lia. cbn [ensure bind]. rewrite (rd_some _ _ _ S2). cbn [bind].
    rewrite (proj2 (special_escape_in c) H). cbn [ensure bind].
    rewrite IHHB; auto; try lia.
    2:{ replace (i + 2) with (S (S i)) by lia. exact S3. }
    f_equal. f_equal; [lia|]. unfold nsp_after, note_escape. cbn [escape_offset N.eqb Pos.eqb].
    destruct (Z.ltb_spec nsp 0).
    + replace (Z.of_nat i - Z.of_nat start <? 0)%Z with false by lia. lia.
    + now replace (nsp <? 0)%Z with false by lia.
Qed.

Lemma parse_nq_excl_ok : forall buf p cl t, in_string buf p cl -> excl_body t ->
  sub_at buf (first p) (t ++ [34%N]) -> first p + length t < cl -> (N.of_nat (length t) < 2^64)%N ->
  parse_nq true ExConstexpr true buf p = Ok (esc_size t, set_first p (first p + length t)).
Proof.
  intros buf p cl t HI HB HS HL H64. unfold parse_nq, parse_nq_check.
  pose proof HI as (HBy & HF & HQ & HC & HLb & HCL & HFL). rewrite HC.
  rewrite nq_excl_ok with (t := t); auto; try lia. cbn [bind].
  apply sub_at_app in HS as [_ [HS _]].
  destruct (Nat.ltb_spec (first p + length t) cl); [|lia]. rewrite (rd_some _ _ _ HS). cbn [bind].
  change (34 =? c_quote)%N with true. cbn [ensure bind]. now rewrite to_size_after.
Qed.

Lemma nq_excl_safe : forall buf start last, last <= length buf -> start <= last ->
  outcome_ok (fun s => let '(i, nsp) := s in i < last -> exists t, excl_body t /\
       sub_at buf start (t ++ [34%N]) /\ i = start + length t /\ nsp = nsp_after (-1) start start t)
    (loop (nq_body_excl buf start last) (S (last - start)) (start, (-1)%Z)).
Proof.
  intros buf start last HL HS0.
  apply (loop_inv (nq_body_excl buf start last) (fun s => last - fst s)
    (fun s => let '(i, nsp) := s in exists t, excl_body t /\ sub_at buf start t /\ i = start + length t /\
        i <= last /\ nsp = nsp_after (-1) start start t)).
  - intros [i nsp] (t & HB & HS & EI & LI & EN). unfold nq_body_excl.
    assert (XA : forall a b, excl_body a -> excl_body b -> excl_body (a ++ b)).
    { induction 1; intros; cbn [app]; [auto|apply xb_plain; auto|apply xb_esc; auto]. }
    destruct (Nat.ltb_spec i last) as [L|L]; [|cbn; lia].
    destruct (rd_in buf i) as (c & Hc); [lia|]. rewrite (rd_some _ _ _ Hc). cbn [bind].
    destruct (N.leb_spec 32 c); cbn [ensure bind outcome_ok]; auto.
    destruct (N.eqb_spec c c_bslash) as [->|NB].
    + destruct (Nat.ltb_spec 1 (last - i)); cbn [ensure bind outcome_ok]; auto.
      destruct (rd_in buf (S i)) as (d & Hd); [lia|]. rewrite (rd_some _ _ _ Hd). cbn [bind].
      destruct (special_escape d) eqn:SD; cbn [ensure bind outcome_ok]; auto. split; [|cbn; lia].
      exists (t ++ [c_bslash; d]). apply special_escape_in in SD. repeat split.
      * apply XA; auto. apply xb_esc; auto. constructor.
      * apply sub_at_app. split; auto. rewrite <- EI. cbn. auto.
      * rewrite app_length. cbn. lia.
      * lia.
      * pose proof (nsp_after_app start [] [c_bslash; d] (Forall_nil _) t) as X. cbn [app length] in X. rewrite X, <- EN, <- EI.
        unfold nsp_after, note_escape. cbn [escape_offset]. change (c_bslash =? 92)%N with true. cbn iota.
        rewrite !Nat.add_0_r. reflexivity.
    + destruct (N.eqb_spec c c_quote) as [->|NQ]; cbn [outcome_ok].
      * intros _. exists t. repeat split; auto. apply sub_at_app. split; auto. rewrite <- EI. cbn. auto.
      * split; [|cbn; lia]. exists (t ++ [c]). unfold c_bslash, c_quote in *. repeat split.
        -- apply XA; auto. apply xb_plain; auto. constructor.
        -- apply sub_at_app. split; auto. rewrite <- EI. cbn. auto.
        -- rewrite app_length. cbn. lia.
        -- lia.
        -- assert (PC : Forall plain [c]) by (repeat constructor; auto).
           pose proof (nsp_after_app start [c] [] PC t) as X. rewrite app_nil_r, nsp_after_nil in X. congruence.
  - exists []. cbn [length sub_at]. repeat split; auto; try constructor; lia.
  - cbn. lia.
Qed.

Lemma parse_nq_excl_safe : forall buf p cl, in_string buf p cl -> first p <= cl ->
  outcome_ok (fun r => exists t, excl_body t /\ sub_at buf (first p) (t ++ [34%N]) /\
      first p + length t < cl /\ snd r = set_first p (first p + length t) /\
      fst r = to_size (nsp_after (-1) (first p) (first p) t))
    (parse_nq true ExConstexpr true buf p).
Proof.
  intros buf p cl HI HFC. unfold parse_nq, parse_nq_check.
  pose proof HI as (HBy & HF & HQ & HC & HLb & HCL & HFL). rewrite HC.
  pose proof (nq_excl_safe buf (first p) cl HCL HFC) as X.
  destruct (loop (nq_body_excl buf (first p) cl) (S (cl - first p)) (first p, (-1)%Z)) as [[i nsp]| | |]; cbn [outcome_ok bind] in *; auto.
  destruct (Nat.ltb_spec i cl) as [LI|LI]; cbn [bind]; [|cbn; auto].
  destruct (X LI) as (t & HB & HS & EI & EN).
  assert (HQE : nth_error buf i = Some 34%N) by (rewrite EI; apply sub_at_app in HS as [_ [HS _]]; auto).
  rewrite (rd_some _ _ _ HQE). cbn [bind]. change (34 =? c_quote)%N with true. cbn [ensure bind outcome_ok fst snd].
  exists t. subst. repeat split; auto.
Qed.

(** ** Runtime mode *)

Lemma more_ok : forall (checked : bool) i last, (checked = true -> i < last) -> negb checked || (i <? last) = true.
Proof. intros [] i last H; cbn [negb orb]; auto. apply Nat.ltb_lt. auto. Qed.

Lemma move_ok : forall checked u buf i last c, Forall plain u -> sub_at buf i u ->
  nth_error buf (i + length u) = Some c -> ~ plain c -> (checked = true -> i + length u < last) ->
  move_to_quote_or_slash checked buf i last = Ok (i + length u).
Proof.
  intros checked u buf i last c HP HS HC NP HL. unfold move_to_quote_or_slash.
  assert (LB : i + length u < length buf) by (apply nth_error_Some; congruence).
  set (body := fun i0 : nat => if negb checked || (i0 <? last) then _ else _).
  apply (loop_exit body (fun s => length buf - s)) with (s' := i + length u); [| |lia].
  - clear HC. revert i HS LB HL. induction HP as [|d u Hd HP IH]; intros i HS LB HL.
    + rewrite Nat.add_0_r. constructor.
    + destruct HS as [S1 S2]. cbn [length] in *. apply runs_step with (s1 := S i).
      * subst body. cbv beta.
        rewrite more_ok by (intros E'; specialize (HL E'); lia).
        rewrite (rd_some _ _ _ S1). cbn [bind]. now rewrite (proj2 (plain_test _ Hd)).
      * lia.
      * replace (i + S (length u)) with (S i + length u) by lia. apply IH; auto; try lia.
  - subst body. cbv beta.
    rewrite more_ok by (intros E'; specialize (HL E'); lia).
    rewrite (rd_some _ _ _ HC). cbn [bind]. now rewrite (proj2 (not_plain_test _ NP)).
Qed.

(** Position reached by the runtime scanner that also records escapes; the
    recorded value is not specified here (it is wrong, see C16). *)
Lemma rt_loop_ok : forall n t checked buf start last i fe, length t <= n -> str_body t ->
  sub_at buf i (t ++ [34%N]) -> (checked = true -> i + length t < last) ->
  forall f, length buf - i < f ->
  exists fe', (j <- move_to_quote_or_slash checked buf i last ;;
    loop (rt_body checked buf start last) f (j, fe)) = Ok (i + length t, fe').
Proof.
  induction n as [n IH] using (well_founded_induction lt_wf).
  intros t checked buf start last i fe Hn HB HS HL f Hf.
  destruct (str_body_split t HB) as (u & r & -> & PU & R).
  rewrite app_length in *.
  destruct R as [->|(c & t' & -> & HB')].
  - rewrite app_nil_r in *. apply sub_at_app in HS as [SU [SQ _]]. cbn [length] in *. rewrite Nat.add_0_r in *.
    rewrite move_ok with (u := u) (c := 34%N); auto; try (unfold plain; lia). cbn [bind].
    destruct f; [assert (i + length u < length buf) by (apply nth_error_Some; congruence); lia|].
    cbn [loop]. unfold rt_body at 1.
    rewrite more_ok by (intros E'; specialize (HL E'); lia).
    rewrite (rd_some _ _ _ SQ). cbn [bind]. change (34 =? c_quote)%N with true. cbn [bind]. eauto.
  - rewrite <- app_assoc in HS. apply sub_at_app in HS as [SU [SB [SC SR]]]. cbn [length app] in *.
    assert (LB : S (i + length u) < length buf) by (apply nth_error_Some; congruence).
    rewrite move_ok with (u := u) (c := 92%N); auto; try (unfold plain; lia).
    cbn [bind]. destruct f; [lia|]. cbn [loop]. unfold rt_body at 1.
    rewrite more_ok by (intros E'; specialize (HL E'); lia).
    rewrite (rd_some _ _ _ SB). cbn [bind]. change (92 =? c_quote)%N with false. change (92 =? c_bslash)%N with true.
    cbn iota.
    set (fe1 := if (fe <? 0)%Z then _ else fe).
    assert (NX : S (if checked then i + length u + (if last =? i + length u then 0 else 1) else S (i + length u)) = i + length u + 2).
    { destruct checked; [|lia]. specialize (HL eq_refl). destruct (Nat.eqb_spec last (i + length u)); lia. }
    rewrite NX.
    destruct (IH (length t')) with (t := t') (checked := checked) (buf := buf) (start := start) (last := last)
      (i := i + length u + 2) (fe := fe1) (f := f) as (fe' & E); auto; try lia.
    { replace (i + length u + 2) with (S (S (i + length u))) by lia. exact SR. }
    exists fe'. destruct (move_to_quote_or_slash checked buf (i + length u + 2) last); cbn [bind] in *; try discriminate.
    rewrite E. do 2 f_equal. lia.
Qed.

Lemma rt_skip_escape_ok : forall checked t buf first last fe, str_body t ->
  sub_at buf first (t ++ [34%N]) -> (checked = true -> first + length t < last) ->
  exists fe', rt_skip_escape checked buf first last fe = Ok (first + length t, fe').
Proof.
  intros checked t buf first last fe HB HS HL. unfold rt_skip_escape.
  assert (EN : (if checked then ensure (first <? last) UnexpectedEndOfData else Ok tt) = Ok tt).
  { destruct checked; auto. specialize (HL eq_refl). now replace (first <? last) with true by lia. }
  rewrite EN. cbn [bind].
  apply rt_loop_ok with (n := length t); auto.
Qed.

Lemma move_safe : forall buf i last, last <= length buf ->
  yields (fun j => exists u, Forall plain u /\ sub_at buf i u /\ j = i + length u /\
      (j < last -> exists c, nth_error buf j = Some c /\ ~ plain c))
    (move_to_quote_or_slash true buf i last).
Proof.
  intros buf i last HL. unfold move_to_quote_or_slash.
  apply (loop_inv_ok _ (fun s => length buf - s)
    (fun s => exists u, Forall plain u /\ sub_at buf i u /\ s = i + length u)); [| |lia].
  - intros s (u & PU & SU & ES). cbn [negb orb]. destruct (Nat.ltb_spec s last) as [L|L].
    + destruct (rd_in buf s) as (c & Hc); [lia|]. rewrite (rd_some _ _ _ Hc). cbn [bind].
      destruct ((c =? c_bslash) || (c =? c_quote))%N eqn:T; eexists; (split; [reflexivity|]); cbn iota.
      * exists u. repeat split; auto. intros _. exists c. split; auto. unfold plain, c_bslash, c_quote in *. lia.
      * split; [|lia]. exists (u ++ [c]). repeat split.
        -- apply Forall_app. split; auto. constructor; auto. unfold plain, c_bslash, c_quote in *. lia.
        -- apply sub_at_app. split; auto. rewrite <- ES. cbn. auto.
        -- rewrite app_length. cbn. lia.
    + eexists; split; [reflexivity|]. cbn iota. exists u. repeat split; auto. lia.
  - exists []. cbn. repeat split; auto.
Qed.

Lemma str_body_snoc_esc : forall t c, str_body t -> str_body (t ++ [92%N; c]).
Proof. intros. apply str_body_app; auto. apply sb_esc. constructor. Qed.

(** One step shared by the two runtime scanners: at a backslash the scanner moves
    on two bytes and then to the next byte of interest. *)
Definition rt_inv (buf : list N) (start last i : nat) : Prop :=
  last <= i \/ exists t c, str_body t /\ sub_at buf start t /\ i = start + length t /\
    nth_error buf i = Some c /\ ~ plain c.

Lemma rt_inv_esc : forall buf start last i, last <= length buf -> rt_inv buf start last i -> i < last ->
  nth_error buf i = Some 92%N ->
  yields (fun j => rt_inv buf start last j /\ i + 2 <= j) (move_to_quote_or_slash true buf (i + 2) last).
Proof.
  intros buf start last i HL HI LI HB. destruct (move_safe buf (i + 2) last HL) as (j & E & u & PU & SU & EJ & HN).
  exists j. split; auto. split; [|lia].
  destruct (le_lt_dec last j) as [L|L]; [left; auto|]. right.
  destruct HI as [|(t & c & ST & SU0 & EI & HC & NP)]; [lia|].
  destruct (rd_in buf (S i)) as (d & Hd); [lia|].
  destruct (HN L) as (e & He & NPe).
  exists (t ++ [92%N; d] ++ u), e. repeat split; auto.
  - apply str_body_app; auto. apply str_body_app; [apply sb_esc; constructor|]. apply str_body_plain; auto.
  - apply sub_at_app. split; auto. apply sub_at_app. rewrite <- EI. split; [|exact SU]. cbn. auto.
  - rewrite !app_length. cbn [length]. lia.
Qed.

Lemma rt_inv_start : forall buf start last, last <= length buf ->
  yields (fun j => rt_inv buf start last j /\ start <= j) (move_to_quote_or_slash true buf start last).
Proof.
  intros buf start last HL. destruct (move_safe buf start last HL) as (j & E & u & PU & SU & EJ & HN).
  exists j. split; auto. split; [|lia].
  destruct (le_lt_dec last j) as [L|L]; [left; auto|]. right. destruct (HN L) as (c & Hc & NP).
  exists u, c. repeat split; auto. apply str_body_plain; auto.
Qed.

Definition ends_string (buf : list N) (start i : nat) : Prop :=
  exists t, str_body t /\ sub_at buf start (t ++ [34%N]) /\ i = start + length t.

Lemma not_plain_cases : forall c, ~ plain c -> c = 34%N \/ c = 92%N.
Proof. intros c H. unfold plain in H. lia. Qed.

Lemma rt_inv_quote : forall buf start last i, rt_inv buf start last i -> i < last ->
  nth_error buf i = Some 34%N -> ends_string buf start i.
Proof.
  intros buf start last i [|(t & c & ST & SU & EI & HC & NP)] LI HQ; [lia|].
  exists t. repeat split; auto. apply sub_at_app. split; auto. rewrite <- EI. cbn. auto.
Qed.

Lemma rt_skip_escape_safe : forall buf start last fe, last <= length buf ->
  outcome_ok (fun r => fst r < last -> ends_string buf start (fst r)) (rt_skip_escape true buf start last fe).
Proof.
  intros buf start last fe HL. unfold rt_skip_escape.
  destruct (Nat.ltb_spec start last) as [L0|L0]; cbn [ensure bind]; [|exact I].
  destruct (rt_inv_start buf start last HL) as (j & -> & HI & LJ). cbn [bind].
  apply (loop_inv (rt_body true buf start last) (fun s => length buf - fst s) (fun s => rt_inv buf start last (fst s))); [|auto|cbn; lia].
  clear HI LJ j. intros [i fe0] HI. unfold rt_body. cbn [fst negb orb] in *.
  destruct (Nat.ltb_spec i last) as [L|L]; [|cbn; lia].
  destruct (rd_in buf i) as (c & Hc); [lia|]. rewrite (rd_some _ _ _ Hc). cbn [bind].
  destruct (N.eqb_spec c c_quote) as [->|NQ].
  - cbn. intros. eapply rt_inv_quote; eauto.
  - assert (c = 92%N) as ->.
    { destruct HI as [|(t & c' & _ & _ & _ & HC & NP)]; [lia|]. rewrite Hc in HC. injection HC as <-.
      destruct (not_plain_cases _ NP); auto. contradiction. }
    change (92 =? c_bslash)%N with true. cbn iota. destruct (Nat.eqb_spec last i); [lia|].
    replace (S (i + 1)) with (i + 2) by lia.
    destruct (rt_inv_esc buf start last i HL HI L Hc) as (j & -> & HJ & LJ). cbn. split; auto. lia.
Qed.

Lemma rt_skip_safe : forall buf start last, last <= length buf ->
  outcome_ok (fun i => i < last -> ends_string buf start i) (rt_skip true buf start last).
Proof.
  intros buf start last HL. unfold rt_skip.
  destruct (Nat.ltb_spec start last) as [L0|L0]; cbn [ensure bind]; [|exact I].
  destruct (rt_inv_start buf start last HL) as (j & -> & HI & LJ). cbn [bind].
  apply (loop_inv _ (fun s => length buf - s) (fun s => rt_inv buf start last s)); [|auto|lia].
  clear HI LJ j. intros i HI. cbn [negb orb].
  destruct (Nat.ltb_spec i last) as [L|L]; [|cbn; lia].
  destruct (rd_in buf i) as (c & Hc); [lia|]. rewrite (rd_some _ _ _ Hc). cbn [bind].
  destruct (N.eqb_spec c c_quote) as [->|NQ].
  - cbn. intros. eapply rt_inv_quote; eauto.
  - assert (c = 92%N) as ->.
    { destruct HI as [|(t & c' & _ & _ & _ & HC & NP)]; [lia|]. rewrite Hc in HC. injection HC as <-.
      destruct (not_plain_cases _ NP); auto. contradiction. }
    change (92 =? c_bslash)%N with true. cbn iota. replace (S (S i)) with (i + 2) by lia.
    destruct (rt_inv_esc buf start last i HL HI L Hc) as (j & -> & HJ & LJ). cbn. split; auto. lia.
Qed.

Lemma rt_skip_ok : forall checked t buf first last, str_body t ->
  sub_at buf first (t ++ [34%N]) -> (checked = true -> first + length t < last) ->
  rt_skip checked buf first last = Ok (first + length t).
Proof.
  intros checked t buf first last HB HS HL. unfold rt_skip.
  assert (EN : (if checked then ensure (first <? last) UnexpectedEndOfData else Ok tt) = Ok tt).
  { destruct checked; auto. specialize (HL eq_refl). now replace (first <? last) with true by lia. }
  rewrite EN. cbn [bind]. clear EN.
  set (body := fun i : nat => if negb checked || (i <? last) then _ else _).
  assert (G : forall n t i, length t <= n -> str_body t -> sub_at buf i (t ++ [34%N]) ->
     (checked = true -> i + length t < last) -> forall f, length buf - i < f ->
     (j <- move_to_quote_or_slash checked buf i last ;; loop body f j) = Ok (i + length t)).
  { clear. induction n as [n IH] using (well_founded_induction lt_wf).
    intros t i Hn HB HS HL f Hf.
    destruct (str_body_split t HB) as (u & r & -> & PU & R).
    rewrite app_length in *.
    destruct R as [->|(c & t' & -> & HB')].
    - rewrite app_nil_r in *. apply sub_at_app in HS as [SU [SQ _]]. cbn [length] in *. rewrite Nat.add_0_r in *.
      rewrite move_ok with (u := u) (c := 34%N); auto; try (unfold plain; lia). cbn [bind].
      destruct f; [assert (i + length u < length buf) by (apply nth_error_Some; congruence); lia|].
      cbn [loop]. subst body. cbv beta.
      rewrite more_ok by (intros E'; specialize (HL E'); lia).
      rewrite (rd_some _ _ _ SQ). cbn [bind]. change (34 =? c_quote)%N with true. reflexivity.
    - rewrite <- app_assoc in HS. apply sub_at_app in HS as [SU [SB [SC SR]]]. cbn [length app] in *.
      assert (LB : S (i + length u) < length buf) by (apply nth_error_Some; congruence).
      rewrite move_ok with (u := u) (c := 92%N); auto; try (unfold plain; lia).
      cbn [bind]. destruct f; [lia|]. cbn [loop]. unfold body at 1. 
      rewrite more_ok by (intros E'; specialize (HL E'); lia).
      rewrite (rd_some _ _ _ SB). cbn [bind]. change (92 =? c_quote)%N with false. change (92 =? c_bslash)%N with true.
      cbn iota. pose proof (IH (length t')) as X. specialize (X ltac:(lia) t' (S (S (i + length u))) (le_n _) HB' SR).
      specialize (X ltac:(intros E; specialize (HL E); lia) f ltac:(lia)).
      destruct (move_to_quote_or_slash checked buf (S (S (i + length u))) last); cbn [bind] in *; try discriminate.
      rewrite X. f_equal. lia. }
  apply G with (n := length t); auto.
Qed.

(** ** Constexpr scan used while skipping brackets *)

Lemma cx_skip_ok : forall checked t buf first last, str_body t ->
  sub_at buf first (t ++ [34%N]) -> first + length t < last -> last <= length buf ->
  cx_skip checked buf first last = Ok (first + length t).
Proof.
  intros checked t buf first last HB HS HL HLB. unfold cx_skip.
  destruct (Nat.eqb_spec first last); [lia|].
  assert (exists fast, (if checked then
      c <- match last with O => UB | S l => rd buf l end ;; Ok (negb (c =? c_bslash)%N) else Ok true) = Ok fast) as (fast & ->).
  { destruct checked; [|eauto]. destruct last as [|l]; [lia|].
    destruct (rd_in buf l) as (c & Hc); [lia|]. rewrite (rd_some _ _ _ Hc). cbn. eauto. }
  cbn [bind].
  match goal with |- loop ?b _ _ = _ => set (body := b) end.
  apply (loop_exit body (fun s => length buf - s)) with (s' := first + length t); [| |lia].
  - clear n. revert first HS HL. induction HB; intros i HS HL; cbn [length] in *.
    + rewrite Nat.add_0_r. constructor.
    + destruct HS as [S1 S2]. apply runs_step with (s1 := S i).
      * subst body. cbv beta. rewrite more_ok by (intros; lia). rewrite (rd_some _ _ _ S1). cbn [bind].
        replace (c =? c_quote)%N with false by (unfold c_quote; lia).
        replace (c =? c_bslash)%N with false by (unfold c_bslash; lia). reflexivity.
      * lia.
      * replace (i + S (length t)) with (S i + length t) by lia. apply IHHB; auto. lia.
    + destruct HS as (S1 & S2 & S3). apply runs_step with (s1 := i + 2).
      * subst body. cbv beta. rewrite more_ok by (intros; lia). rewrite (rd_some _ _ _ S1). cbn [bind].
        change (92 =? c_quote)%N with false. change (92 =? c_bslash)%N with true. cbn iota.
        destruct fast; auto. destruct (Nat.ltb_spec (S i) last); auto. lia.
      * lia.
      * replace (i + S (S (length t))) with (i + 2 + length t) by lia. apply IHHB; auto; [|lia].
        replace (i + 2) with (S (S i)) by lia. exact S3.
  - subst body. cbv beta. apply sub_at_app in HS as [_ [HS _]].
    rewrite more_ok by (intros; lia). rewrite (rd_some _ _ _ HS). reflexivity.
Qed.

Lemma cx_skip_safe : forall buf first last, first <= last -> last <= length buf ->
  yields (fun i => i < last -> ends_string buf first i) (cx_skip true buf first last).
Proof.
  intros buf first last HF HL. unfold cx_skip.
  destruct (Nat.eqb_spec first last); [exists first; split; auto; lia|].
  destruct last as [|l]; [lia|].
  destruct (rd_in buf l) as (c & Hc); [lia|]. rewrite (rd_some _ _ _ Hc). cbn [bind].
  remember (negb (c =? c_bslash)%N) as fast. clear Heqfast.
  apply (loop_inv_ok _ (fun s => length buf - s)
     (fun i => S l <= i \/ exists t, str_body t /\ sub_at buf first t /\ i = first + length t)).
  - intros i HI. cbn [negb orb]. destruct (Nat.ltb_spec i (S l)) as [L|L]; [|eexists; split; [reflexivity|]; cbn; lia].
    destruct HI as [|(t & HB & HS & EI)]; [lia|].
    destruct (rd_in buf i) as (d & Hd); [lia|]. rewrite (rd_some _ _ _ Hd). cbn [bind].
    destruct (N.eqb_spec d c_quote) as [->|NQ]; [|destruct (N.eqb_spec d c_bslash) as [->|NB]].
    + eexists; split; [reflexivity|]. cbn. intros _. exists t. repeat split; auto. apply sub_at_app. split; auto. rewrite <- EI. cbn. auto.
    + assert (X : S l <= i + 2 \/ exists t, str_body t /\ sub_at buf first t /\ i + 2 = first + length t).
      { destruct (le_lt_dec (S l) (i + 2)); auto. right. destruct (rd_in buf (S i)) as (e & He); [lia|].
        exists (t ++ [92%N; e]). repeat split; [apply str_body_snoc_esc; auto| |rewrite app_length; cbn; lia].
        apply sub_at_app. split; auto. rewrite <- EI. cbn. auto. }
      destruct fast; [eexists; split; [reflexivity|]; cbn iota; split; auto; lia|].
      destruct (Nat.ltb_spec (S i) (S l)); eexists; (split; [reflexivity|]); cbn iota; [split; auto; lia|lia].
    + eexists; split; [reflexivity|]. cbn iota. split; [|lia]. right. exists (t ++ [d]). unfold c_quote, c_bslash in *. repeat split.
      * apply str_body_app; auto. apply sb_plain; auto. constructor.
      * apply sub_at_app. split; auto. rewrite <- EI. cbn. auto.
      * rewrite app_length. cbn. lia.
  - right. exists []. cbn. repeat split; auto. constructor.
  - lia.
Qed.
