(** Tuples whose members name their place: the parser stays inside the document. *)
From Coq Require Import List NArith ZArith Bool Lia Arith ZifyBool ZifyNat ZifyN.
From Verif Require Import Base Mem Loop PolicyModel IntModel StrScanModel SkipModel SpecText ValueModel TypedSafe PropertiesSafe OrdModel OrdSafe PosModel.
Import ListNotations.
Local Open Scope N_scope.

Section Safe.
  Context (buf : list N) (HB : is_bytes buf).
  Context (M : nat) (HM : (M <= length buf)%nat) (z : bool) (HZ : z = true -> nth_error buf M = Some 0).
  Context (H31 : N.of_nat (length buf) < 2^31).
  Context (g : cfg) (HX : c_ex g = ExConstexpr).

  Lemma pos_safe : forall ms, (z = true \/ forall m, In m ms -> om_index m = None) -> Forall (fun m => parser_ok buf M (om_parse m)) ms -> forall idx p, inv M p ->
    outcome_ok (fun x => fw M p (snd x)) (parse_pos g ms idx buf p).
  Proof.
    induction ms as [|m ms IH]; intros HIx HF idx p HI; cbn [parse_pos].
    - cbn [outcome_ok snd]. now apply (fw_refl M).
    - inversion HF as [|? ? H1 H2]; subst.
      eapply outcome_ok_bind with (P := fun x => fw M p (fst x)).
      { destruct (om_index m) as [k|] eqn:EK.
        - destruct HIx as [Z|HIx]; [|rewrite (HIx m (or_introl eq_refl)) in EK; discriminate]. unfold maybe_skip_members.
          destruct (idx <=? k)%nat; cbn [ensure bind outcome_ok]; auto.
          eapply outcome_ok_bind; [apply (skip_members_safe buf HB M HM z HZ H31 g HX Z); exact HI|]. intros [q n] FQ. exact FQ.
        - destruct (has_more p); cbn [ensure bind outcome_ok]; auto. now apply (fw_refl M). }
      intros [q k] FQ. cbn [fst] in FQ. pose proof (inv_fw buf M HM z _ _ HI FQ) as IQ.
      eapply outcome_ok_bind; [apply H1; exact IQ|]. intros [v r] FR. cbn [snd] in FR. pose proof (inv_fw buf M HM z _ _ IQ FR) as IR.
      destruct (move_fw buf HB M HM z r IR) as (s & -> & FS & _). cbn [bind]. pose proof (inv_fw buf M HM z _ _ IR FS) as IS.
      eapply outcome_ok_bind; [apply IH; [destruct HIx as [Z|HIx]; [now left|right; intros m' Hm; apply HIx; now right]|exact H2|exact IS]|].
      intros [vs u] FU. cbn [outcome_ok snd] in *. eapply (fw_trans buf M HM z); [exact FQ|]. eapply (fw_trans buf M HM z); [exact FR|]. eapply (fw_trans buf M HM z); eauto.
  Qed.

  Lemma tuple_pos_safe : forall exact ms, (z = true \/ exact = false /\ forall m, In m ms -> om_index m = None) -> Forall (fun m => parser_ok buf M (om_parse m)) ms ->
    forall p, inv M p -> outcome_ok (fun x => fw M p (snd x)) (parse_tuple_pos g exact ms buf p).
  Proof.
    intros exact ms HE HF p HI. unfold parse_tuple_pos. rewrite HX.
    destruct (trim_fw buf M HM z p HI) as (p1 & -> & F1 & _). cbn [bind]. pose proof (inv_fw buf M HM z _ _ HI F1) as I1.
    destruct (is_at_ok buf M HM z p1 c_lbrack I1) as (b & -> & HA). cbn [bind]. destruct b; cbn [ensure bind outcome_ok]; auto.
    destruct (HA eq_refl) as [L1 _]. pose proof (inv_last buf M HM z _ I1) as LL1. cbv zeta.
    set (p2 := set_class p1 (Some (first p1)) (Some (last p1))).
    assert (I2 : inv M p2) by now apply (inv_class buf M HM z H31).
    assert (F3 : fw M p2 (remove_prefix p2 1)) by (apply (fw_first M); unfold p2; cbn [first set_class]; lia). pose proof (inv_fw buf M HM z _ _ I2 F3) as I3.
    destruct (move_fw buf HB M HM z _ I3) as (p4 & -> & F4 & _). cbn [bind]. pose proof (inv_fw buf M HM z _ _ I3 F4) as I4.
    destruct (trim_fw buf M HM z _ I4) as (p5 & -> & F5 & _). cbn [bind]. pose proof (inv_fw buf M HM z _ _ I4 F5) as I5.
    eapply outcome_ok_bind; [apply pos_safe; [destruct HE as [Z|[_ HE]]; auto|exact HF|exact I5]|]. intros [vs p6] F6. cbn [snd] in F6. pose proof (inv_fw buf M HM z _ _ I5 F6) as I6.
    assert (FF : fw M p2 p6) by (eapply (fw_trans buf M HM z); [exact F3|]; eapply (fw_trans buf M HM z); [exact F4|]; eapply (fw_trans buf M HM z); eauto).
    assert (FIN : forall q, fw M p6 q -> fw M p (set_class q (cfirst p1) (clast p1))).
    { intros q FQ. eapply (fw_trans buf M HM z); [exact F1|]. eapply (fw_class M). change (set_class p1 (Some (first p1)) (Some (last p1))) with p2. eapply (fw_trans buf M HM z); eauto. }
    cbn [fst snd]. eapply outcome_ok_bind with (P := fun q => fw M p6 q); [|intros q FQ; exact (FIN q FQ)].
    destruct exact.
    - destruct HE as [Z|[E _]]; [|discriminate]. pose proof (zero_in buf M z HZ Z) as ZM.
      destruct (trim_fw buf M HM z _ I6) as (p7 & -> & F7 & _). cbn [bind]. pose proof (inv_fw buf M HM z _ _ I6 F7) as I7.
      destruct (front_ok buf p7) as (c & -> & Hc); [destruct I7 as (_ & X & _); lia|]. cbn [bind].
      destruct (N.eqb_spec c c_rbrack) as [->|]; cbn [ensure bind outcome_ok]; auto.
      assert (LQ : (first p7 < M)%nat).
      { destruct I7 as (_ & X & _). destruct (Nat.eq_dec (first p7) M) as [E|]; [|lia]. rewrite E, (HZ Z) in Hc. discriminate. }
      assert (FR : fw M p7 (remove_prefix p7 1)) by (apply (fw_first M); lia).
      destruct (trim_fw buf M HM z _ (inv_fw buf M HM z _ _ I7 FR)) as (r & -> & FR2 & _). cbn [outcome_ok].
      eapply (fw_trans buf M HM z); [exact F7|]. eapply (fw_trans buf M HM z); eauto.
    - unfold skip_array. destruct (Nat.le_gt_cases (first p6) (last p6)) as [L|L].
      + eapply outcome_ok_bind; [apply (bracket_fw buf HB M HM z H31); [exact I6|exact L]|]. intros [r q] [FQ _]. exact FQ.
      + unfold skip_bracketed. cbn [andb]. destruct (Nat.leb_spec (last p6) (first p6)); [|lia]. cbn [bind outcome_ok]. now apply (fw_refl M).
  Qed.
End Safe.

(** The types of the members are safe to read (as for classes, OrdSafe); without a
    zero byte behind the document no member has a position, and the tuple is not
    exact. *)
Definition safe_tuple (z exact : bool) (ms : list (option nat * oty)) : bool :=
  (z || negb exact && forallb (fun m => match fst m with None => true | Some _ => false end) ms) && forallb (fun m => safe_o z (snd m)) ms.

Lemma from_json_pos_in : forall g verify exact ms doc M z, c_ex g = ExConstexpr -> is_bytes doc -> N.of_nat (length doc) < 2^31 -> (0 < length doc)%nat ->
  M = match nth_error doc (length doc - 1) with Some 0%N => (length doc - 1)%nat | _ => length doc end ->
  (z = true -> nth_error doc M = Some 0) -> safe_tuple z exact ms = true ->
  match from_json_pos g verify exact ms doc with Ok _ | Err _ => True | UB | Fuel => False end.
Proof.
  intros g verify exact ms doc M z HX HB H31 NE EM HZ HS. unfold from_json_pos.
  replace (length doc =? 0)%nat with false by lia. cbn [negb ensure bind].
  destruct (rd_in doc (length doc - 1)) as (b & Hb); [lia|]. rewrite (rd_some _ _ _ Hb). cbn [bind]. cbv zeta.
  rewrite Hb in EM. assert (EM' : M = if b =? 0 then (length doc - 1)%nat else length doc) by (destruct b; exact EM). rewrite <- EM'.
  assert (LM : (M <= length doc)%nat) by (rewrite EM'; destruct (b =? 0); lia).
  unfold safe_tuple in HS. apply andb_prop in HS as [HS1 HS2]. rewrite forallb_forall in HS2.
  assert (X : outcome_ok (fun x => fw M (new_ps 0 M) (snd x)) (parse_tuple_pos g exact (pos_members g ms) doc (new_ps 0 M))).
  { apply (tuple_pos_safe doc HB M LM z HZ H31 g HX); [| |exact (new_ps_inv M)].
    - destruct z; [now left|]. right. apply andb_prop in HS1 as [E1 E2]. split; [destruct exact; [discriminate|reflexivity]|].
      rewrite forallb_forall in E2. intros m IN. apply in_map_iff in IN as (m' & <- & IN). specialize (E2 _ IN). cbn [om_index]. now destruct (fst m').
    - apply Forall_forall. intros m IN. apply in_map_iff in IN as (m' & <- & IN). cbn [om_parse].
      exact (proj1 (parse_o_safe doc M z HB LM HZ H31 g HX (snd m') (HS2 _ IN))). }
  destruct (parse_tuple_pos g exact (pos_members g ms) doc (new_ps 0 M)) as [[v q]| | |]; cbn [bind outcome_ok snd] in *; auto.
  destruct verify; [|exact I].
  assert (IQ : inv M q) by (exact (inv_fw doc M LM z _ _ (new_ps_inv M) X)).
  destruct (trim_fw doc M LM z _ IQ) as (r & -> & _). cbn [bind].
  destruct (ps_empty r); exact I.
Qed.
