(** The stateful json_value on arbitrary bytes: reads stay inside the document;
    over a class every query is independent of the history. *)
From Coq Require Import List NArith ZArith Bool Lia Arith ZifyBool ZifyNat ZifyN.
From Verif Require Import Base Mem Loop PolicyModel IntModel StrScanModel SkipModel SpecNum SpecText SpecJson
  SkipProofs SkipSafe HashModel ValueModel JValueModel JValueProofs RawValueProofs StateModel StateProofs.
Import ListNotations.
Local Open Scope N_scope.

Section Value.
  Context (g : cfg) (buf : list N) (v : ps).
  Hypothesis HV : raw_value buf (last v) v.
  Hypothesis HM : (first v < last v)%nat.

  Lemma trace_raw : forall ls, trace g buf v ls ->
    Forall (fun m => raw buf (first v) (last v) (snd m) /\ JValueModel.good buf (snd m) = Ok true) ls /\
    outcome_ok (fun p => raw buf (first v) (last v) p /\ (first v + length ls < first p)%nat) (resume_at g buf v ls).
  Proof.
    intros ls HT. induction HT as [|ls p o HT [IH1 IH2] ER EE EN HL].
    - split; [constructor|]. unfold resume_at. cbn [rev]. eapply outcome_ok_weaken; [|apply it_begin_raw; auto].
      intros p HR. split; auto. destruct HR as (_ & L & _). cbn [length]. lia.
    - rewrite ER in IH2. cbn [outcome_ok] in IH2. destruct IH2 as [RP LP].
      assert (GP : JValueModel.good buf p = Ok true).
      { now apply live_good. }
      split.
      + apply Forall_app. split; auto.
      + rewrite resume_snoc, app_length. cbn [length]. eapply outcome_ok_weaken; [|apply (it_next_raw g buf (first v) (last v)); auto].
        intros q (RQ & AD & _). split; auto. specialize (AD GP). lia.
  Qed.

  Lemma trace_short : forall ls, trace g buf v ls -> (length ls <= length buf)%nat.
  Proof.
    intros ls HT. destruct HT as [|ls p o HT ER EE EN HL]; [cbn; lia|].
    destruct (trace_raw _ HT) as [_ R]. rewrite ER in R. destruct R as [RP LP].
    assert (GP : JValueModel.good buf p = Ok true).
    { now apply live_good. }
    pose proof (good_raw _ _ _ _ RP) as GR. rewrite GP in GR. cbn [outcome_ok] in GR. specialize (GR eq_refl).
    destruct HV as (_ & _ & L & _). rewrite app_length. cbn [length]. lia.
  Qed.

  Lemma scan_index_safe : forall index fuel ls it, trace g buf v ls -> it = resume_at g buf v ls ->
    (fuel + length ls = S (S (length buf)))%nat ->
    outcome_ok (fun i => (i <= length (fst (scan_index g buf index fuel ls it)))%nat) (snd (scan_index g buf index fuel ls it)).
  Proof.
    intros index. induction fuel as [|fuel IH]; intros ls it HT EI HF.
    - pose proof (trace_short _ HT). lia.
    - cbn [scan_index]. destruct (trace_raw _ HT) as [_ R]. rewrite <- EI in R.
      destruct it as [p| | |]; cbn [outcome_ok snd failed] in *; auto. destruct R as [RP LP].
      pose proof (it_eq_raw _ _ _ p RP) as QR. destruct (it_eq buf p null_state) as [[]| | |] eqn:EE; cbn [outcome_ok snd fst failed] in *; auto.
      pose proof (it_name_raw g buf _ _ p RP HM) as NR. destruct (it_name g buf p) as [o| | |] eqn:EN; cbn [outcome_ok snd fst failed] in *; auto.
      destruct (N.of_nat (length ls) =? index); cbn [outcome_ok snd fst].
      + rewrite app_length. cbn [length]. lia.
      + apply IH.
        * apply trace_snoc; auto. lia.
        * symmetry. apply resume_snoc.
        * rewrite app_length. cbn [length]. lia.
  Qed.

  Lemma scan_name_safe : forall name fuel ls it, trace g buf v ls -> it = resume_at g buf v ls ->
    (fuel + length ls = S (S (length buf)))%nat ->
    outcome_ok (fun i => (i <= length (fst (scan_name g buf name fuel ls it)))%nat) (snd (scan_name g buf name fuel ls it)).
  Proof.
    intros name. induction fuel as [|fuel IH]; intros ls it HT EI HF.
    - pose proof (trace_short _ HT). lia.
    - cbn [scan_name]. destruct (trace_raw _ HT) as [_ R]. rewrite <- EI in R.
      destruct it as [p| | |]; cbn [outcome_ok snd failed] in *; auto. destruct R as [RP LP].
      pose proof (it_eq_raw _ _ _ p RP) as QR. destruct (it_eq buf p null_state) as [[]| | |] eqn:EE; cbn [outcome_ok snd fst failed] in *; auto.
      pose proof (it_name_raw g buf _ _ p RP HM) as NR. destruct (it_name g buf p) as [[o|]| | |] eqn:EN; cbn [outcome_ok snd fst failed] in *; auto.
      destruct (eqb_bytes o name); cbn [outcome_ok snd fst].
      + rewrite app_length. cbn [length]. lia.
      + apply IH.
        * apply (trace_snoc g buf v ls p (Some o)); auto. lia.
        * symmetry. apply resume_snoc.
        * rewrite app_length. cbn [length]. lia.
  Qed.

  Lemma value_of_safe : forall ls i, trace g buf v ls -> (i < length ls)%nat ->
    outcome_ok (fun r => raw_value buf (last v) r /\ (first v < first r)%nat) (value_of g buf ls i).
  Proof.
    intros ls i HT L. unfold value_of. destruct (nth_error ls i) as [[n p]|] eqn:E; [|apply nth_error_None in E; lia].
    destruct (trace_raw _ HT) as [F _]. rewrite Forall_forall in F. apply nth_error_In in E. destruct (F _ E) as [RP _]. cbn [snd] in RP.
    eapply outcome_ok_bind; [apply (it_deref_raw g buf (first v) (last v)); auto|]. intros [m r] [V1 V2]. cbn [outcome_ok snd] in *. split; auto.
    destruct RP as (_ & LP & _). lia.
  Qed.

  Lemma move_to_name_safe : forall ls name, trace g buf v ls ->
    trace g buf v (fst (move_to_name g buf v ls name)) /\
    outcome_ok (fun i => (i <= length (fst (move_to_name g buf v ls name)))%nat) (snd (move_to_name g buf v ls name)).
  Proof.
    intros ls name HT. pose proof (trace_short _ HT) as TS. unfold move_to_name. destruct (match_index name ls) as [i|] eqn:E.
    - cbn [fst snd outcome_ok]. split; auto. apply match_index_some in E as (a & m & b & -> & <- & _). rewrite app_length. lia.
    - split; [apply scan_name_trace; auto; lia|apply scan_name_safe; auto; lia].
  Qed.

  Lemma move_to_index_safe : forall ls index, trace g buf v ls ->
    trace g buf v (fst (move_to_index g buf v ls index)) /\
    outcome_ok (fun i => (i <= length (fst (move_to_index g buf v ls index)))%nat) (snd (move_to_index g buf v ls index)).
  Proof.
    intros ls index HT. pose proof (trace_short _ HT) as TS. unfold move_to_index. destruct (N.ltb_spec index (N.of_nat (length ls))).
    - cbn [fst snd outcome_ok]. split; auto. lia.
    - split; [apply scan_index_trace; auto; lia|apply scan_index_safe; auto; lia].
  Qed.

  Lemma starts_with_safe : forall t, outcome_ok (fun _ => True) (starts_with buf v t).
  Proof.
    clear HM. intros [|c t]; unfold starts_with, ps_size; [cbn; auto|]. destruct (Nat.ltb_spec (last v - first v) (length (c :: t))) as [LL|LL]; [cbn; auto|].
    destruct HV as (_ & _ & L & _). destruct (eq_bytes_safe (c :: t) buf (first v)) as (b & -> & _); [cbn [length] in *; lia|]. cbn. auto.
  Qed.

  Lemma jtype_safe : outcome_ok (fun _ => True) (jtype buf v).
  Proof.
    clear HM. unfold jtype, has_more. destruct (Nat.ltb_spec (first v) (last v)); cbn [negb]; [|cbn; auto].
    destruct HV as (_ & _ & L & _). unfold front. destruct (rd_in buf (first v)) as (c & Hc); [lia|]. rewrite (rd_some _ _ _ Hc). cbn [bind].
    repeat match goal with |- outcome_ok _ (if ?b then _ else _) => destruct b; [cbn; auto; fail|] end.
    destruct (c =? c_t).
    { eapply outcome_ok_bind; [apply starts_with_safe|]. cbn. auto. }
    destruct (c =? c_f).
    { eapply outcome_ok_bind; [apply starts_with_safe|]. cbn. auto. }
    destruct (c =? c_n); [|cbn; auto].
    eapply outcome_ok_bind; [apply starts_with_safe|]. intros [] _; cbn; auto.
  Qed.

  Lemma state_size_safe : forall ls, trace g buf v ls ->
    trace g buf v (fst (state_size g buf v ls)) /\
    outcome_ok (fun i => (i <= length (fst (state_size g buf v ls)))%nat) (snd (state_size g buf v ls)).
  Proof.
    intros ls HT. unfold state_size. pose proof jtype_safe as JT.
    destruct (jtype buf v) as [[]| | |]; cbn [fst snd failed outcome_ok] in *; auto; try (split; [exact HT|lia]); now apply move_to_index_safe.
  Qed.

  Theorem ask_safe : forall ls q, trace g buf v ls -> q <> QNth (- 2^63) ->
    trace g buf v (fst (ask g buf v ls q)) /\ outcome_ok (fun _ => True) (snd (ask g buf v ls q)).
  Proof.
    intros ls q HT HQ.
    assert (VAL : forall ls i, trace g buf v ls -> (i < length ls)%nat -> outcome_ok (fun _ => True) (lift AValue (value_of g buf ls i))).
    { intros ls' i T L. unfold lift. eapply outcome_ok_bind; [apply value_of_safe; auto|]. cbn. auto. }
    destruct q as [name|name|name|name| |index]; cbn [ask].
    - destruct (move_to_name_safe ls name HT) as [A B]. destruct (move_to_name g buf v ls name) as [ls' r]. cbn [fst snd] in *. split; auto.
      eapply outcome_ok_bind; [exact B|]. intros i LI. destruct (Nat.ltb_spec i (length ls')); cbn [ensure bind outcome_ok]; auto.
    - destruct (move_to_name_safe ls name HT) as [A B]. destruct (move_to_name g buf v ls name) as [ls' r]. cbn [fst snd] in *. split; auto.
      eapply outcome_ok_bind; [exact B|]. intros i LI. destruct (Nat.ltb_spec i (length ls')); cbn [outcome_ok]; auto.
    - destruct (move_to_name_safe ls name HT) as [A B]. destruct (move_to_name g buf v ls name) as [ls' r]. cbn [fst snd] in *. split; auto.
      eapply outcome_ok_bind; [exact B|]. cbn. auto.
    - destruct (move_to_name_safe ls name HT) as [A B]. destruct (move_to_name g buf v ls name) as [ls' r]. cbn [fst snd] in *. split; auto.
      eapply outcome_ok_bind; [exact B|]. cbn. auto.
    - destruct (state_size_safe ls HT) as [A B]. destruct (state_size g buf v ls) as [ls' r]. cbn [fst snd] in *. split; auto.
      eapply outcome_ok_bind; [exact B|]. cbn. auto.
    - destruct (Z.ltb_spec index 0).
      + destruct (Z.eqb_spec index (- 2^63)); [congruence|].
        destruct (state_size_safe ls HT) as [A B]. destruct (state_size g buf v ls) as [ls' r]. cbn [fst snd] in *. split; auto.
        eapply outcome_ok_bind; [exact B|]. intros sz LS. cbv zeta. destruct (Nat.ltb_spec (Z.to_nat (- index)) sz); cbn [ensure bind outcome_ok]; auto.
        apply VAL; auto. cbn beta in LS. clear - LS H H0. lia.
      + destruct (move_to_index_safe ls (Z.to_N index) HT) as [A B]. destruct (move_to_index g buf v ls (Z.to_N index)) as [ls' r].
        cbn [fst snd] in *. split; auto.
        eapply outcome_ok_bind; [exact B|]. intros i LI. destruct (Nat.ltb_spec i (length ls')); cbn [ensure bind outcome_ok]; auto.
  Qed.

  Lemma after_trace : forall h, Forall (fun q => q <> QNth (- 2^63)) h -> trace g buf v (after g buf v h).
  Proof.
    intros h HH. unfold after. assert (X : forall ls, trace g buf v ls -> trace g buf v (fold_left (fun ls q => fst (ask g buf v ls q)) h ls)).
    { induction HH as [|q h Hq HH IH]; intros ls HT; cbn [fold_left]; auto. apply IH. now apply ask_safe. }
    apply X. constructor.
  Qed.

  (** ** Classes *)

  Section Class.
    Hypothesis HC : nth_error buf (first v) = Some 123.

    Lemma trace_named : forall ls, trace g buf v ls -> ntrace g buf v ls.
    Proof.
      intros ls HT. induction HT as [|ls p o HT IH ER EE EN HL]; [constructor|].
      destruct (trace_raw _ HT) as [_ R]. rewrite ER in R. destruct R as [RP _].
      pose proof (it_name_raw g buf _ _ p RP HM) as NR. rewrite EN in NR. cbn [outcome_ok] in NR.
      destruct o as [n|]; [now apply ntrace_snoc|]. destruct NR as [_ NR]. specialize (NR eq_refl). congruence.
    Qed.

    Lemma move_to_name_fresh : forall ls name, trace g buf v ls ->
      exists a b r, move_to_name g buf v ls name = (a, r) /\ move_to_name g buf v [] name = (b, r) /\ prefix b a /\
        (forall i, r = Ok i -> (i < length b <-> i < length a)%nat).
    Proof.
      intros ls name HT. unfold move_to_name. change (match_index name []) with (@None nat). change (length (@nil loc)) with 0%nat. rewrite Nat.sub_0_r.
      pose proof (trace_named _ HT) as NT. destruct (match_index name ls) as [i|] eqn:E.
      - apply match_index_some in E as (a & m & b & EL & <- & EM & FA). subst ls.
        rewrite (scan_name_hit g buf v name a m b NT FA EM). exists (a ++ m :: b), (a ++ [m]), (Ok (length a)).
        repeat split; auto; try (injection H as <-); rewrite ?app_length in *; cbn [length] in *; try lia.
        exists b. now rewrite <- app_assoc.
      - rewrite (scan_name_skip g buf v name ls NT) by now apply match_index_none.
        destruct (scan_name g buf name (S (S (length buf)) - length ls) ls (resume_at g buf v ls)) as [a r].
        exists a, a, r. repeat split; auto. exists []. now rewrite app_nil_r.
    Qed.

    Lemma ask_class : forall ls q, trace g buf v ls -> N.of_nat (length buf) < 2^32 ->
      snd (ask g buf v ls q) = snd (ask g buf v [] q).
    Proof.
      intros ls q HT H32. destruct q as [name|name|name|name| |index].
      5, 6: now apply ask_position.
      all: cbn [ask]; destruct (move_to_name_fresh ls name HT) as (a & b & r & -> & -> & PB & HL); cbn [snd]; destruct r as [pos| | |]; cbn [bind]; auto;
        specialize (HL pos eq_refl); destruct (Nat.ltb_spec pos (length a)); destruct (Nat.ltb_spec pos (length b)); try lia; cbn [ensure bind]; auto;
        rewrite (value_of_prefix g buf b a) by auto; reflexivity.
    Qed.
  End Class.
End Value.
