(** Classes that are read from arrays: the parser stays inside the document. *)
From Coq Require Import List NArith ZArith Bool Lia Arith ZifyBool ZifyNat ZifyN.
From Verif Require Import Base Mem Loop PolicyModel IntModel StrScanModel SkipModel SpecText ValueModel TypedSafe OrdModel.
Import ListNotations.
Local Open Scope N_scope.

Section Safe.
  Context (buf : list N) (HB : is_bytes buf).
  Context (M : nat) (HM : (M <= length buf)%nat) (z : bool) (HZ : z = true -> nth_error buf M = Some 0).
  Context (H31 : N.of_nat (length buf) < 2^31).
  Context (g : cfg) (HX : c_ex g = ExConstexpr).

  Definition omember_ok (m : omember) : Prop :=
    parser_ok buf M (om_parse m) /\ (om_nullable m = true -> exists x, om_parse m true buf no_loc = Ok x).

  Lemma zero_in : z = true -> (M < length buf)%nat.
  Proof. intros Z. apply nth_error_Some. rewrite (HZ Z). discriminate. Qed.

  Lemma skip_members_safe : z = true -> forall n p, inv M p -> outcome_ok (fun x => fw M p (fst x)) (skip_members g buf p n).
  Proof.
    intros Z. pose proof (zero_in Z) as ZM. induction n as [|n IH]; intros p HI; cbn [skip_members];
      (destruct (front_ok buf p) as (c & -> & Hc); [destruct HI as (_ & X & _); lia|]); cbn [bind].
    - cbn [outcome_ok fst]. now apply (fw_refl M).
    - destruct (c =? c_rbrack); [cbn [outcome_ok fst]; now apply (fw_refl M)|].
      eapply outcome_ok_bind; [apply (any_fw buf HB M HM z H31 g p HX HI)|]. intros [r q] [FQ _]. cbn [fst snd] in *.
      pose proof (inv_fw buf M HM z _ _ HI FQ) as IQ. destruct (move_fw buf HB M HM z q IQ) as (s & -> & FS & _). cbn [bind].
      destruct (has_more s); cbn [ensure bind outcome_ok]; auto.
      eapply outcome_ok_weaken; [|apply IH; exact (inv_fw buf M HM z _ _ IQ FS)]. intros [u k] FU. cbn [fst] in *.
      eapply (fw_trans buf M HM z); [exact FQ|]. eapply (fw_trans buf M HM z); [exact FS|exact FU].
  Qed.

  Lemma omember_safe : forall m idx p, (z = true \/ om_index m = None) -> omember_ok m -> inv M p ->
    outcome_ok (fun x => fw M p (snd (fst x))) (parse_ordered_class_member g m idx buf p).
  Proof.
    intros m idx p HIx [HP HN] HI. unfold parse_ordered_class_member.
    destruct (move_fw buf HB M HM z p HI) as (p1 & -> & F1 & _). cbn [bind]. pose proof (inv_fw buf M HM z _ _ HI F1) as I1.
    assert (FR : forall q : ps, inv M q -> (first q < length buf)%nat -> fw M p q -> forall k,
      outcome_ok (fun x => fw M p (snd (fst x))) (c <- front buf q ;;
        if c =? c_rbrack then if om_nullable m then '(v, _) <- om_parse m true buf no_loc ;; Ok (v, q, S k) else Err MemberNotFound
        else '(v, r) <- om_parse m false buf q ;; Ok (v, r, S k))).
    { intros q IQ LQ FQ k. destruct (front_ok buf q LQ) as (c & -> & Hc). cbn [bind]. destruct (c =? c_rbrack).
      - destruct (om_nullable m); [|exact I]. destruct (HN eq_refl) as ([v ?] & ->). exact FQ.
      - eapply outcome_ok_bind; [apply HP; exact IQ|]. intros [v r] FV. cbn [outcome_ok fst snd] in *. eapply (fw_trans buf M HM z); eauto. }
    destruct (om_index m) as [k|].
    - destruct HIx as [Z|]; [|discriminate]. unfold maybe_skip_members. destruct (idx <=? k)%nat; cbn [ensure bind outcome_ok]; auto.
      pose proof (skip_members_safe Z (k - idx) p1 I1) as X. destruct (skip_members g buf p1 (k - idx)) as [[q n]| | |]; cbn [bind outcome_ok fst] in *; auto.
      pose proof (inv_fw buf M HM z _ _ I1 X) as IQ. apply FR; [exact IQ| |eapply (fw_trans buf M HM z); eauto]. pose proof (zero_in Z). destruct IQ as (_ & ? & _). lia.
    - unfold has_more. destruct (Nat.ltb_spec (first p1) (last p1)) as [L|L]; cbn [ensure bind outcome_ok]; auto.
      apply FR; [exact I1| |exact F1]. pose proof (inv_last buf M HM z _ I1). lia.
  Qed.

  Lemma ordered_members_safe : forall ms, (z = true \/ forall m, In m ms -> om_index m = None) -> Forall omember_ok ms -> forall idx p, inv M p ->
    outcome_ok (fun x => fw M p (snd x)) (parse_ordered_members g ms idx buf p).
  Proof.
    induction ms as [|m ms IH]; intros HIx HF idx p HI; cbn [parse_ordered_members].
    - cbn [outcome_ok snd]. now apply (fw_refl M).
    - inversion HF as [|? ? H1 H2]; subst.
      eapply outcome_ok_bind; [apply omember_safe; [destruct HIx as [Z|HIx]; [now left|right; apply HIx; now left]|exact H1|exact HI]|].
      intros [[v q] k] FQ. cbn [fst snd] in *. pose proof (inv_fw buf M HM z _ _ HI FQ) as IQ.
      eapply outcome_ok_bind; [apply IH; [destruct HIx as [Z|HIx]; [now left|right; intros m' Hm; apply HIx; now right]|exact H2|exact IQ]|].
      intros [vs r] FR. cbn [outcome_ok snd] in *. eapply (fw_trans buf M HM z); eauto.
  Qed.

  Lemma tuple_class_safe : forall exact ms, (z = true \/ exact = false /\ forall m, In m ms -> om_index m = None) -> Forall omember_ok ms ->
    forall p, inv M p -> outcome_ok (fun x => fw M p (snd x)) (parse_json_tuple_class g exact ms buf p).
  Proof.
    intros exact ms HE HF p HI. unfold parse_json_tuple_class. rewrite HX.
    destruct (trim_fw buf M HM z p HI) as (p1 & -> & F1 & _). cbn [bind]. pose proof (inv_fw buf M HM z _ _ HI F1) as I1.
    destruct (is_at_ok buf M HM z p1 c_lbrack I1) as (b & -> & HA). cbn [bind]. destruct b; cbn [ensure bind outcome_ok]; auto.
    destruct (HA eq_refl) as [L1 _]. pose proof (inv_last buf M HM z _ I1) as LL1. cbv zeta.
    set (p2 := set_class p1 (Some (first p1)) (Some (last p1))).
    assert (I2 : inv M p2) by now apply (inv_class buf M HM z H31).
    assert (F3 : fw M p2 (remove_prefix p2 1)) by (apply (fw_first M); unfold p2; cbn [first set_class]; lia). pose proof (inv_fw buf M HM z _ _ I2 F3) as I3.
    destruct (trim_fw buf M HM z _ I3) as (p5 & -> & F5 & _). cbn [bind]. pose proof (inv_fw buf M HM z _ _ I3 F5) as I5.
    eapply outcome_ok_bind; [apply ordered_members_safe; [destruct HE as [Z|[_ HE]]; auto|exact HF|exact I5]|]. intros [vs p6] F6. cbn [snd] in F6. pose proof (inv_fw buf M HM z _ _ I5 F6) as I6.
    assert (FF : fw M p2 p6) by (eapply (fw_trans buf M HM z); [exact F3|]; eapply (fw_trans buf M HM z); eauto).
    assert (FIN : forall q, fw M p6 q -> fw M p (set_class q (cfirst p1) (clast p1))).
    { intros q FQ. eapply (fw_trans buf M HM z); [exact F1|]. eapply (fw_class M). change (set_class p1 (Some (first p1)) (Some (last p1))) with p2. eapply (fw_trans buf M HM z); eauto. }
    cbn [fst snd]. eapply outcome_ok_bind with (P := fun q => fw M p6 q); [|intros q FQ; exact (FIN q FQ)].
    destruct exact.
    - destruct HE as [Z|[E _]]; [|discriminate]. pose proof (zero_in Z) as ZM.
      destruct (trim_fw buf M HM z _ I6) as (p7 & -> & F7 & _). cbn [bind]. pose proof (inv_fw buf M HM z _ _ I6 F7) as I7.
      destruct (front_ok buf p7) as (c & -> & Hc); [destruct I7 as (_ & X & _); lia|]. cbn [bind].
      destruct (N.eqb_spec c c_rbrack) as [->|]; cbn [ensure bind outcome_ok]; auto.
      assert (LQ : (first p7 < M)%nat).
      { destruct I7 as (_ & X & _). destruct (Nat.eq_dec (first p7) M) as [E|]; [|lia]. rewrite E, (HZ Z) in Hc. discriminate. }
      assert (FR : fw M p7 (remove_prefix p7 1)) by (apply (fw_first M); lia).
      destruct (trim_fw buf M HM z _ (inv_fw buf M HM z _ _ I7 FR)) as (r & -> & FR2 & _). cbn [outcome_ok].
      eapply (fw_trans buf M HM z); [exact F7|]. eapply (fw_trans buf M HM z); eauto.
    - unfold skip_array. destruct (Nat.le_gt_cases (first p6) (last p6)) as [L|L].
      + eapply outcome_ok_bind; [apply (bracket_fw buf HB M HM z H31); [exact I6|exact L]|]. intros [r q] [FQ _]. exact FQ.
      + unfold skip_bracketed. cbn [andb]. destruct (Nat.leb_spec (last p6) (first p6)); [|lia]. cbn [bind outcome_ok]. now apply (fw_refl M).
  Qed.

  Lemma ordered_safe : forall exact ms known, (z = true \/ exact = false /\ forall m, In m ms -> om_index m = None) -> Forall omember_ok ms ->
    forall p, inv M p -> outcome_ok (fun x => fw M p (snd x)) (parse_value_ordered g exact ms known buf p).
  Proof.
    intros exact ms known HE HF p HI. unfold parse_value_ordered. destruct (has_more p); cbn [ensure bind outcome_ok]; auto.
    eapply outcome_ok_bind; [apply tuple_class_safe; eauto|]. intros [v q] FQ. cbn [snd] in FQ. destruct known; [exact FQ|].
    destruct (trim_fw buf M HM z _ (inv_fw buf M HM z _ _ HI FQ)) as (r & -> & FR & _). cbn [bind outcome_ok snd]. eapply (fw_trans buf M HM z); eauto.
  Qed.

  (** ** std::array *)
  Lemma body_safe : forall f p, parser_ok buf M f -> inv M p ->
    outcome_ok (fun s => match s with inl (r, _) | inr (r, _) => fw M p r end) (array_body f buf (p, [])).
  Proof.
    intros f q HF IQ. unfold array_body.
    destruct (has_more q) eqn:HQ; cbn [ensure bind outcome_ok]; auto.
    eapply outcome_ok_bind; [apply HF; exact IQ|]. intros [v r] FR. cbn [snd] in FR. pose proof (inv_fw buf M HM z _ _ IQ FR) as IR.
    destruct (trim_fw buf M HM z r IR) as (s & -> & FS & _). cbn [bind]. pose proof (inv_fw buf M HM z _ _ IR FS) as IS. pose proof (inv_last buf M HM z _ IS) as LS.
    unfold has_more at 1. destruct (Nat.ltb_spec (first s) (last s)) as [L|L]; cbn [bind ensure outcome_ok]; auto.
    destruct (front_ok buf s) as (d & -> & Hd); [lia|]. cbn [bind].
    destruct ((d =? c_comma) || (d =? c_rbrack)) eqn:ED; cbn [ensure bind outcome_ok]; auto.
    destruct (move_fw buf HB M HM z s IS) as (t & ET & FT & _). rewrite ET. cbn [bind]. pose proof (inv_fw buf M HM z _ _ IS FT) as IT. pose proof (inv_last buf M HM z _ IT) as LT.
    unfold has_more at 1. destruct (Nat.ltb_spec (first t) (last t)) as [L2|L2]; cbn [bind ensure outcome_ok]; auto.
    destruct (front_ok buf t) as (e & -> & He); [lia|]. cbn [bind].
    assert (FPT : fw M q t) by (eapply (fw_trans buf M HM z); [exact FR|]; eapply (fw_trans buf M HM z); eauto).
    destruct (e =? c_rbrack); [|exact FPT].
    unfold end_of_array. assert (FU : fw M t (remove_prefix t 1)) by (apply (fw_first M); lia).
    destruct (trim_fw buf M HM z _ (inv_fw buf M HM z _ _ IT FU)) as (u & -> & FU2 & _). cbn [bind outcome_ok].
    eapply (fw_trans buf M HM z); [exact FPT|]. eapply (fw_trans buf M HM z); eauto.
  Qed.

  Lemma fixed_elems_safe : forall f d, parser_ok buf M f -> forall n live p, inv M p ->
    outcome_ok (fun x => fw M p (snd x)) (fixed_elems f d buf n live p).
  Proof.
    intros f d HF. induction n as [|n IH]; intros live p HI; cbn [fixed_elems]; [now apply (fw_refl M)|].
    assert (GO : forall q live' (k : list val -> list val), fw M p q ->
      outcome_ok (fun x => fw M p (snd x)) ('(vs, r) <- fixed_elems f d buf n live' q ;; Ok (k vs, r))).
    { intros q live' k FQ. pose proof (IH live' q (inv_fw buf M HM z _ _ HI FQ)) as X.
      destruct (fixed_elems f d buf n live' q) as [[vs r]| | |]; cbn [bind outcome_ok snd] in *; auto. eapply (fw_trans buf M HM z); eauto. }
    destruct live.
    - pose proof (body_safe f p HF HI) as X. destruct (array_body f buf (p, [])) as [[[q v]|[q v]]| | |]; cbn [bind outcome_ok] in *; try exact X.
      + apply (GO q true (fun vs => v ++ vs) X).
      + apply (GO q false (fun vs => v ++ vs) X).
    - apply (GO p false (fun vs => d :: vs)). now apply (fw_refl M).
  Qed.

  Lemma fixed_safe : forall f d n, z = true -> parser_ok buf M f -> forall p, inv M p -> outcome_ok (fun x => fw M p (snd x)) (parse_value_fixed f d n buf p).
  Proof.
    intros f d n Z HF p HI. unfold parse_value_fixed. pose proof (zero_in Z) as ZM.
    destruct (trim_fw buf M HM z p HI) as (p1 & -> & F1 & _). cbn [bind]. pose proof (inv_fw buf M HM z _ _ HI F1) as I1.
    destruct (is_at_ok buf M HM z p1 c_lbrack I1) as (b & -> & HA). cbn [bind]. destruct b; cbn [ensure bind outcome_ok]; auto.
    destruct (HA eq_refl) as [L1 _]. pose proof (inv_last buf M HM z _ I1) as LL1.
    assert (F2 : fw M p1 (remove_prefix p1 1)) by (apply (fw_first M); lia). pose proof (inv_fw buf M HM z _ _ I1 F2) as I2.
    destruct (unchecked_fw buf M HM z HZ H31 _ Z I2) as (p3 & -> & F3). cbn [bind]. pose proof (inv_fw buf M HM z _ _ I2 F3) as I3.
    assert (FP : fw M p p3) by (eapply (fw_trans buf M HM z); [exact F1|]; eapply (fw_trans buf M HM z); eauto).
    assert (L3 : (first p3 <= M)%nat) by (destruct I3 as (_ & X & _); lia).
    destruct (front_ok buf p3) as (c & -> & Hc); [lia|]. cbn [bind].
    assert (GO : forall q live, fw M p q -> outcome_ok (fun x => fw M p (snd x)) ('(vs, r) <- fixed_elems f d buf n live q ;; Ok (VArr vs, r))).
    { intros q live FQ. pose proof (fixed_elems_safe f d HF n live q (inv_fw buf M HM z _ _ HI FQ)) as X.
      destruct (fixed_elems f d buf n live q) as [[vs r]| | |]; cbn [bind outcome_ok snd] in *; auto. eapply (fw_trans buf M HM z); eauto. }
    destruct (N.eqb_spec c c_rbrack) as [->|NE]; [|now apply GO].
    assert (LQ : (first p3 < M)%nat).
    { destruct (Nat.eq_dec (first p3) M) as [E|]; [|lia]. rewrite E, (HZ Z) in Hc. discriminate. }
    unfold end_of_array. assert (FU : fw M p3 (remove_prefix p3 1)) by (apply (fw_first M); lia).
    destruct (trim_fw buf M HM z _ (inv_fw buf M HM z _ _ I3 FU)) as (u & -> & FU2 & _). cbn [bind]. apply GO.
    eapply (fw_trans buf M HM z); [exact FP|]. eapply (fw_trans buf M HM z); eauto.
  Qed.
End Safe.

(** As [safe_type]; a class that is read from an array is only safe without a zero
    byte behind the document if no member has a position and it is not exact. *)
Fixpoint member_o (t : oty) : bool := match t with OTy t => member_type t | ONullable t => member_o t | _ => true end.
Fixpoint safe_o (z : bool) (t : oty) : bool :=
  match t with
  | OTy t => safe_type z t
  | ONullable t => safe_o z t
  | OArr t => z && safe_o z t
  | OMap t => safe_o z t
  | OClass _ [] => true
  | OClass _ (m :: ms) => safe_o z (snd m) && forallb (fun m => safe_o z (snd m) && member_o (snd m)) ms
  | OTuple exact ts => (z || negb exact) && forallb (safe_o z) ts
  | OOrdered exact ms => (z || negb exact && forallb (fun m => match fst m with None => true | Some _ => false end) ms) && forallb (fun m => safe_o z (snd m)) ms
  | OFixed _ _ t => z && safe_o z t
  end.

Lemma oty_nested : forall P : oty -> Prop,
  (forall t, P (OTy t)) -> (forall t, P t -> P (ONullable t)) -> (forall t, P t -> P (OArr t)) -> (forall t, P t -> P (OMap t)) ->
  (forall e ms, Forall (fun m => P (snd m)) ms -> P (OClass e ms)) -> (forall e ts, Forall P ts -> P (OTuple e ts)) ->
  (forall e ms, Forall (fun m => P (snd m)) ms -> P (OOrdered e ms)) -> (forall n d t, P t -> P (OFixed n d t)) -> forall t, P t.
Proof.
  intros P H1 H2 H3 H4 H5 H6 H7 H8. fix IH 1. intros [t|t|t|t|e ms|e ts|e ms|n d t].
  - apply H1.
  - apply H2, IH.
  - apply H3, IH.
  - apply H4, IH.
  - apply H5. induction ms as [|m ms IHm]; constructor; [apply IH|exact IHm].
  - apply H6. induction ts as [|t ts IHt]; constructor; [apply IH|exact IHt].
  - apply H7. induction ms as [|m ms IHm]; constructor; [apply IH|exact IHm].
  - apply H8, IH.
Qed.

Lemma o_none : forall g t buf, o_nullable t = true -> exists x, parse_o g t true buf no_loc = Ok x.
Proof.
  intros g [t|t|t|t|e mm|e ts|e ms|n d t] buf H; try discriminate H; cbn [parse_o o_nullable] in *.
  - destruct t; try discriminate H; cbn [parse_value]; eexists; reflexivity.
  - eexists; reflexivity.
Qed.

Theorem parse_o_safe : forall buf M z, is_bytes buf -> (M <= length buf)%nat -> (z = true -> nth_error buf M = Some 0) ->
  N.of_nat (length buf) < 2^31 -> forall g, c_ex g = ExConstexpr ->
  forall t, safe_o z t = true -> parser_ok buf M (parse_o g t) /\ (member_o t = true -> known_ok buf M (parse_o g t)).
Proof.
  intros buf M z HB HM HZ H31 g HX.
  assert (CONT : forall f : ps -> res (val * ps), (forall p, inv M p -> outcome_ok (fun x => fw M p (snd x)) (f p)) ->
     (forall p, trim_left_checked buf p = Ok p -> is_at buf p c_lbrack = Ok false -> is_at buf p c_lbrace = Ok false -> exists e, f p = Err e) ->
     known_ok buf M (fun known buf' p => f p)).
  { intros f H1 H2 p (HN & HF & HL & [HI|HS] & _).
    - eapply outcome_ok_weaken; [|apply H1; exact HI]. auto.
    - destruct (num_start_at buf HB M HM z H31 p HS HL) as (A & B & C). destruct (H2 p A B C) as (e & ->). exact I. }
  induction t using oty_nested; intros HS; cbn [safe_o] in HS.
  - destruct (parse_value_safe buf M z HB HM HZ H31 g HX t HS) as (A & B & _). split; [exact A|exact B].
  - destruct (IHt HS) as (A & B). split; [exact (null_ok buf M HM z _ A)|].
    intros MT. exact (null_known_ok buf M _ (B MT)).
  - apply andb_prop in HS as [Z HS]. destruct (IHt HS) as (A & B).
    assert (X : forall p, inv M p -> outcome_ok (fun x => fw M p (snd x)) (parse_value_array (parse_o g t) buf p)) by (eapply array_ok_safe; eauto).
    split; [exact X|]. intros _. apply (CONT (fun p => parse_value_array (parse_o g t) buf p) X).
    intros p E1 E2 _. unfold parse_value_array. rewrite E1. cbn [bind]. rewrite E2. eexists; reflexivity.
  - destruct (IHt HS) as (A & B).
    assert (X : forall p, inv M p -> outcome_ok (fun x => fw M p (snd x)) (parse_value_keyvalue g (parse_o g t) buf p)) by (eapply map_ok_safe; eauto).
    split; [exact X|]. intros _. apply (CONT (fun p => parse_value_keyvalue g (parse_o g t) buf p) X).
    intros p E1 _ E2. unfold parse_value_keyvalue. rewrite E2. eexists; reflexivity.
  - assert (MO : members_ok buf M (map (fun m => mkmember (fst m) (o_nullable (snd m)) (parse_o g (snd m))) ms)).
    { destruct ms as [|m ms]; [exact I|]. apply andb_prop in HS as [S1 HS]. inversion H as [|? ? H1 H2]; subst. split; [exact (proj1 (H1 S1))|].
      rewrite forallb_forall in HS. rewrite Forall_forall in *. intros m' IN. apply in_map_iff in IN as ([n t] & <- & IN).
      specialize (HS _ IN). specialize (H2 _ IN). cbn [snd] in *. apply andb_prop in HS as [S2 S3]. destruct (H2 S2) as (A & B). split; auto. }
    split; [intros p HI; apply (class_safe buf HB M HM z H31); auto|]. intros _ p HL.
    apply (CONT (fun p => parse_value_class g e (map (fun m => mkmember (fst m) (o_nullable (snd m)) (parse_o g (snd m))) ms) true buf p)); [| |exact HL].
    + intros q IQ. apply (class_safe buf HB M HM z H31); auto.
    + intros q E1 _ E2. unfold parse_value_class. destruct (has_more q); [|eexists; reflexivity]. cbn [ensure bind].
      unfold parse_json_class. rewrite E1. cbn [bind]. rewrite E2. eexists; reflexivity.
  - apply andb_prop in HS as [Z HS].
    assert (MO : Forall (parser_ok buf M) (map (parse_o g) ts)).
    { rewrite forallb_forall in HS. rewrite Forall_forall in *. intros f IN. apply in_map_iff in IN as (t & <- & IN). destruct (H _ IN (HS _ IN)); auto. }
    assert (X : forall p, inv M p -> outcome_ok (fun x => fw M p (snd x)) (parse_tuple g e (map (parse_o g) ts) buf p)).
    { eapply tuple_ok_safe; eauto. intros ->. cbn [negb] in Z. now rewrite orb_false_r in Z. }
    split; [exact X|]. intros _. apply (CONT (fun p => parse_tuple g e (map (parse_o g) ts) buf p) X).
    intros p E1 E2 _. unfold parse_tuple. rewrite E1. cbn [bind]. rewrite E2. eexists; reflexivity.
  - apply andb_prop in HS as [Z HS]. rewrite forallb_forall in HS. rewrite Forall_forall in H.
    set (oms := map (fun m => mkomember (fst m) (o_nullable (snd m)) (parse_o g (snd m))) ms).
    assert (MO : Forall (omember_ok buf M) oms).
    { rewrite Forall_forall. intros m' IN. apply in_map_iff in IN as (m & <- & IN). split; cbn [om_parse om_nullable]; [exact (proj1 (H _ IN (HS _ IN)))|]. apply o_none. }
    assert (ZI : z = true \/ e = false /\ forall m, In m oms -> om_index m = None).
    { destruct z; [now left|]. right. cbn [orb] in Z. apply andb_prop in Z as [Z1 Z2]. split; [now destruct e|]. rewrite forallb_forall in Z2.
      intros m' IN. apply in_map_iff in IN as (m & <- & IN). specialize (Z2 _ IN). cbn [om_index]. now destruct (fst m). }
    split; [intros p HI; exact (ordered_safe buf HB M HM z HZ H31 g HX e oms false ZI MO p HI)|]. intros _ p HL.
    apply (CONT (fun p => parse_value_ordered g e oms true buf p)); [| |exact HL].
    + intros q IQ. exact (ordered_safe buf HB M HM z HZ H31 g HX e oms true ZI MO q IQ).
    + intros q E1 E2 _. unfold parse_value_ordered. destruct (has_more q); [|eexists; reflexivity]. cbn [ensure bind].
      unfold parse_json_tuple_class. rewrite E1. cbn [bind]. rewrite E2. eexists; reflexivity.
  - apply andb_prop in HS as [Z HS]. destruct (IHt HS) as (A & B).
    assert (X : forall p, inv M p -> outcome_ok (fun x => fw M p (snd x)) (parse_value_fixed (parse_o g t) d n buf p)) by (eapply fixed_safe; eauto).
    split; [exact X|]. intros _. apply (CONT (fun p => parse_value_fixed (parse_o g t) d n buf p) X).
    intros p E1 E2 _. unfold parse_value_fixed. rewrite E1. cbn [bind]. rewrite E2. eexists; reflexivity.
Qed.
