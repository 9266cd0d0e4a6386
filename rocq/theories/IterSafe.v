(** Iterating over arbitrary bytes: where it stays inside, and when it comes to an
    end. *)
From Coq Require Import List NArith ZArith Bool Lia Arith ZifyBool ZifyNat ZifyN.
From Verif Require Import Base Mem Loop PolicyModel IntModel StrScanModel SkipModel SpecNum SpecText SpecJson
  StrScanProofs SkipProofs SkipSafe ValueModel TypedSafe TagModel IterModel SpecIter PropertiesSafe.
Import ListNotations.
Local Open Scope N_scope.

(** ** Types whose parser takes at least a byte *)

Lemma members_safe_type : forall buf M z, is_bytes buf -> (M <= length buf)%nat -> (z = true -> nth_error buf M = Some 0) ->
  N.of_nat (length buf) < 2^31 -> forall g, c_ex g = ExConstexpr ->
  forall e ms, safe_type z (TClass e ms) = true ->
    members_ok buf M (map (fun m => mkmember (fst m) (is_nullable (snd m)) (parse_value g (snd m))) ms).
Proof.
  intros buf M z HB HM HZ H31 g HX e [|m ms] HS; [exact I|]. cbn [safe_type] in HS. apply andb_prop in HS as [S1 HS].
  pose proof (parse_value_safe buf M z HB HM HZ H31 g HX) as PS.
  split; [exact (proj1 (PS _ S1))|]. rewrite forallb_forall in HS. rewrite Forall_forall. intros m' IN. apply in_map_iff in IN as ([n t] & <- & IN).
  specialize (HS _ IN). cbn [snd] in *. apply andb_prop in HS as [S2 S3]. destruct (PS _ S2) as (A & B & _). split; auto.
Qed.

Theorem parse_value_strict : forall buf M z, is_bytes buf -> (M <= length buf)%nat -> (z = true -> nth_error buf M = Some 0) ->
  N.of_nat (length buf) < 2^31 -> forall g, c_ex g = ExConstexpr ->
  forall t, safe_type z t = true -> advances t = true -> strict buf M (parse_value g t).
Proof.
  intros buf M z HB HM HZ H31 g HX. pose proof (parse_value_safe buf M z HB HM HZ H31 g HX) as PS.
  induction t using ty_nested; intros HS HA; try discriminate.
  - exact (unsigned_strict buf HB M HM z H31 w rc).
  - exact (signed_strict buf HB M HM z H31 w rc HS).
  - exact (bool_strict buf M HM z H31).
  - intros p HI LP. cbn [parse_value]. rewrite HX. eapply outcome_ok_bind; [apply (string_ok buf HB M HM z H31); exact HI|].
    intros [s q] F. exact F.
  - intros p HI LP. apply (map_strict buf HB M HM z H31 g _ HX); [exact (proj1 (PS t HS))|exact HI].
  - intros p HI LP. apply (class_strict buf HB M HM z H31 g _ _ _ HX); [|exact HI].
    eapply members_safe_type; eauto.
  - intros p HI LP. cbn [safe_type] in HS. apply andb_prop in HS as [Z HS]. apply (tuple_strict buf HB M HM z HZ H31 g _ _ HX); [|clear p HI LP|exact HI].
    + intros ->. cbn [negb] in Z. now rewrite orb_false_r in Z.
    + rewrite forallb_forall in HS. rewrite Forall_forall. intros f IN. apply in_map_iff in IN as (t & <- & IN). exact (proj1 (PS _ (HS _ IN))).
  - apply (custom_strict buf HB M HM z HZ H31 g k HX). intros ->. exact HS.
  - intros p HI LP. cbn [safe_type] in HS. cbn [advances] in HA. apply andb_prop in HS as [S1 HS]. rewrite forallb_forall in HS, HA.
    apply (intrusive_strict buf HB M HM z H31 g); auto; [exact (proj1 (PS _ S1))|].
    rewrite Forall_forall in *. intros f IN. apply in_map_iff in IN as (t' & <- & IN). exact (H _ IN (HS _ IN) (HA _ IN)).
Qed.

(** ** Passing over elements *)

Section Bytes.
  Context (buf : list N) (HB : is_bytes buf) (H31 : N.of_nat (length buf) < 2^31) (g : cfg) (HX : c_ex g = ExConstexpr).
  Notation M := (length buf).

  Lemma HM : (M <= length buf)%nat. Proof. exact (le_n _). Qed.
  Lemma HZ : false = true -> nth_error buf M = Some 0. Proof. discriminate. Qed.

  Definition skip_ok (S : list N -> ps -> res ps) : Prop := forall p, inv M p -> (first p < last p)%nat -> outcome_ok (fun q => fw M p q) (S buf p).

  Lemma string_skip_ok : skip_ok (skip_known_string g).
  Proof.
    intros p HI LP. pose proof (inv_last buf M HM false p HI) as LL. pose proof HI as (HN & HF & cl & HC & HCL). unfold skip_known_string.
    destruct (front_ok buf p) as (c & -> & Hc); [lia|]. cbn [bind].
    destruct (N.eqb_spec c c_quote) as [->|]; cbn [ensure bind outcome_ok]; auto.
    assert (HS : in_string buf (remove_prefix p 1) cl).
    { unfold in_string, remove_prefix. cbn [first last clast set_first]. repeat split; auto; try lia.
      replace (first p + 1 - 1)%nat with (first p) by lia. exact Hc. }
    unfold skip_string_nq. rewrite HX.
    pose proof (scan_result buf M HM false H31 (c_excl g) (remove_prefix p 1) cl HS ltac:(unfold remove_prefix; cbn [first set_first]; lia)) as X.
    destruct (parse_nq true ExConstexpr (c_excl g) buf (remove_prefix p 1)) as [[n q]| | |]; cbn [outcome_ok bind fst snd] in *; auto.
    destruct X as (t & SB & ST & LT & -> & ->). pose proof ST as ST0. apply sub_at_app in ST0. destruct ST0 as [_ [Hi _]].
    unfold front. cbn [first set_first]. unfold remove_prefix in *. cbn [first last set_first] in *. rewrite (rd_some _ _ _ Hi). cbn [bind].
    change (34 =? c_quote) with true. cbn [ensure bind outcome_ok snd fst].
    apply (fw_first M p (first p + 1 + length t + 1)). lia.
  Qed.

  Lemma known_skip_ok : forall e, skip_ok (skip_known_value g e).
  Proof.
    intros e p HI LP. pose proof (inv_last buf M HM false p HI) as LL. unfold skip_known_value.
    destruct (has_more p); cbn [ensure bind outcome_ok]; auto.
    assert (NUM : outcome_ok (fun q => fw M p q) ('(_, p) <- skip_number true buf p ;; Ok p)).
    { eapply outcome_ok_bind; [apply skip_number_safe; [exact HB|lia]|]. intros [r q] (t & _ & _ & G & E & _). cbn [fst snd outcome_ok] in *.
      rewrite E. apply fw_first. lia. }
    assert (BRK : forall obj, outcome_ok (fun q => fw M p q) ('(_, p) <- skip_bracketed CNone true ExConstexpr obj buf p ;; Ok p)).
    { intros obj. eapply outcome_ok_bind; [apply (bracket_fw buf HB M HM false H31 obj p HI); lia|]. intros [r q] [F _]. exact F. }
    assert (ANY : outcome_ok (fun q => fw M p q) ('(_, p) <- skip_val g buf p ;; Ok p)).
    { eapply outcome_ok_bind; [apply (any_fw buf HB M HM false H31 g p HX HI)|]. intros [r q] [F _]. exact F. }
    destruct e as [[w rc|w rc| | |t|t|t|exact mm|exact ts|exact kn tk vn tv|k|alts|exact tag t switch alts]|]; auto.
    - exact (string_skip_ok p HI LP).
    - destruct (is_at_ok buf M HM false p c_lbrack HI) as (b & -> & _). cbn [bind]. destruct b; cbn [ensure bind outcome_ok]; auto.
      rewrite HX. apply (BRK false).
    - destruct (is_at_ok buf M HM false p c_lbrace HI) as (b & -> & _). cbn [bind]. destruct b; cbn [ensure bind outcome_ok]; auto.
      rewrite HX. apply (BRK true).
    - exact (string_skip_ok p HI LP).
  Qed.

  (** ** Iterators *)

  (** Whatever the position kept by operator*, it is past the element. *)
  Definition it_ok (st : bool) (it : iter) : Prop :=
    inv M (it_state it) /\ forall i, it_skip it = Some i -> (first (it_state it) <= i <= M)%nat /\ (st = true -> (first (it_state it) < i)%nat).

  Lemma at_element_ok : forall arr p, inv M p -> exists b, at_element arr buf p = Ok b /\ (b = true -> (first p < last p)%nat).
  Proof.
    intros arr p HI. pose proof (inv_last buf M HM false p HI) as LL. unfold at_element, has_more.
    destruct (Nat.ltb_spec (first p) (last p)) as [L|L]; [|exists false; split; [reflexivity|discriminate]].
    destruct arr; [|eauto]. destruct (front_ok buf p) as (c & -> & _); [lia|]. cbn [bind]. eauto.
  Qed.

  (** [st]: the parser takes at least a byte *)
  Definition reader (st : bool) (P : parser) : Prop := if st then strict buf M P else parser_ok buf M P.
  Lemma reader_ok : forall st P p, reader st P -> inv M p -> (first p < last p)%nat ->
    outcome_ok (fun x => fw M p (snd x) /\ (st = true -> (first p < first (snd x))%nat)) (P false buf p).
  Proof.
    intros [|] P p HP HI LP.
    - eapply outcome_ok_weaken; [|apply HP; auto]. intros x [F L]. auto.
    - eapply outcome_ok_weaken; [|apply HP; auto]. intros x F. split; [exact F|discriminate].
  Qed.

  Lemma deref_ok : forall st arr P it, reader st P -> it_ok st it ->
    outcome_ok (fun x => it_state (snd x) = it_state it /\ it_ok st (snd x) /\ it_skip (snd x) <> None) (deref arr P buf it).
  Proof.
    intros st arr P it HP [HI HS]. unfold deref. destruct (at_element_ok arr _ HI) as (b & -> & HL). cbn [bind].
    destruct b; cbn [ensure bind outcome_ok]; auto.
    eapply outcome_ok_bind; [apply (reader_ok st); auto|]. intros [v q] [(A & B & C & D) F]. cbn [outcome_ok fst snd it_state it_skip] in *.
    split; [reflexivity|]. split; [|discriminate]. split; [exact HI|]. cbn [it_skip it_state]. intros i E. injection E as <-. split; auto.
  Qed.

  Lemma deref_times_ok : forall st arr P n it, reader st P -> it_ok st it ->
    outcome_ok (fun x => it_state (snd x) = it_state it /\ it_ok st (snd x) /\ (n <> O \/ it_skip it <> None -> it_skip (snd x) <> None))
      (deref_times n arr P buf it).
  Proof.
    intros st arr P n. induction n as [|n IH]; intros it HP HI; cbn [deref_times].
    - cbn [outcome_ok snd]. split; [reflexivity|]. split; [exact HI|]. intros [X|X]; congruence.
    - eapply outcome_ok_bind; [apply deref_ok; eauto|]. intros [v i1] (E1 & I1 & S1). cbn [fst snd] in *.
      eapply outcome_ok_bind; [apply IH; eauto|]. intros [vs i2] (E2 & I2 & S2). cbn [outcome_ok fst snd] in *.
      split; [congruence|]. split; [exact I2|]. intros _. apply S2. now right.
  Qed.

  Lemma incr_ok : forall st arr S it, skip_ok S -> it_ok st it ->
    outcome_ok (fun i => inv M (it_state i) /\ it_skip i = None /\ last (it_state i) = last (it_state it) /\
       (st = true -> it_skip it <> None -> (first (it_state it) < first (it_state i))%nat)) (incr arr S buf it).
  Proof.
    intros st arr S it HS [HI HK]. unfold incr. destruct (at_element_ok arr _ HI) as (b & -> & HL). cbn [bind].
    destruct b; cbn [ensure bind outcome_ok]; auto. specialize (HL eq_refl).
    eapply outcome_ok_bind with (P := fun q => fw M (it_state it) q /\ (st = true -> it_skip it <> None -> (first (it_state it) < first q)%nat)).
    - destruct (it_skip it) as [i|].
      + destruct (HK i eq_refl) as [A B]. cbn [outcome_ok]. split; [now apply fw_first|]. intros X _. exact (B X).
      + eapply outcome_ok_weaken; [|apply HS; auto]. intros q F. split; [exact F|congruence].
    - intros q [F L]. pose proof (inv_fw buf M HM false _ _ HI F) as IQ.
      destruct (move_fw buf HB M HM false q IQ) as (r & -> & FR & _). cbn [bind outcome_ok it_state it_skip].
      split; [exact (inv_fw buf M HM false _ _ IQ FR)|]. split; [reflexivity|]. destruct F as (A & _ & _ & F), FR as (B & _ & _ & FR).
      split; [congruence|]. intros X Y. specialize (L X Y). lia.
  Qed.

  Lemma neq_end_ok : forall arr it, inv M (it_state it) -> exists b, it_neq arr buf it it_end = Ok b /\ (b = true -> (first (it_state it) < last (it_state it))%nat).
  Proof.
    intros arr it HI. unfold it_neq, good. destruct HI as (HN & HI). rewrite HN. cbn [it_end it_state no_loc isnull].
    destruct (at_element_ok arr (it_state it) (conj HN HI)) as (b & -> & HL). cbn [bind]. exists b. split; [|exact HL]. destruct b; reflexivity.
  Qed.

  Definition not_ub {A} (r : res A) : Prop := match r with UB => False | _ => True end.
  Lemma not_ub_bind : forall A B (x : res A) (k : A -> res B) (P : A -> Prop), outcome_ok P x -> (forall a, P a -> not_ub (k a)) -> not_ub (bind x k).
  Proof. intros A B [a| | |] k P HP HK; cbn in *; auto. Qed.

  (** Any number of turns *)
  Lemma walk_inside : forall fuel arr P S times i it, parser_ok buf M P -> skip_ok S -> inv M (it_state it) -> it_skip it = None ->
    not_ub (walk fuel arr P S times i buf it).
  Proof.
    induction fuel as [|fuel IH]; intros arr P S times i it HP HS HI HK; [exact I|]. cbn [walk].
    destruct (neq_end_ok arr it HI) as (b & -> & _). cbn [bind]. destruct b; [|exact I].
    eapply not_ub_bind; [apply (deref_times_ok false); [exact HP|]; split; [exact HI|]; rewrite HK; discriminate|]. intros [vs i1] (_ & I1 & _). cbn [fst snd] in *.
    eapply not_ub_bind; [apply (incr_ok false); eauto|]. intros i2 (I2 & K2 & _).
    specialize (IH arr P S times (Datatypes.S i) i2 HP HS I2 K2). destruct (walk fuel arr P S times (Datatypes.S i) buf i2); cbn in *; auto.
  Qed.

  (** Looked at, every element is left behind. *)
  Lemma walk_ends : forall fuel arr P S times i it, strict buf M P -> skip_ok S -> (forall n, times n <> O) -> inv M (it_state it) -> it_skip it = None ->
    (last (it_state it) - first (it_state it) < fuel)%nat -> outcome_ok (fun _ => True) (walk fuel arr P S times i buf it).
  Proof.
    induction fuel as [|fuel IH]; intros arr P S times i it HP HS HT HI HK HF; [lia|]. cbn [walk].
    destruct (neq_end_ok arr it HI) as (b & -> & HL). cbn [bind]. destruct b; [|exact I]. specialize (HL eq_refl).
    eapply outcome_ok_bind; [apply (deref_times_ok true); [exact HP|]; split; [exact HI|]; rewrite HK; discriminate|]. intros [vs i1] (E1 & I1 & K1). cbn [fst snd] in *.
    eapply outcome_ok_bind; [apply (incr_ok true); eauto|]. intros i2 (I2 & K2 & L2 & F2). specialize (F2 eq_refl (K1 (or_introl (HT i)))).
    rewrite E1 in *.
    eapply outcome_ok_bind; [apply (IH arr P S times (Datatypes.S i) i2); auto; lia|]. intros; exact I.
  Qed.

  Lemma elem_ok : forall e, (forall t, e = EType t -> safe_type false t = true) -> parser_ok buf M (elem_parse g e).
  Proof.
    intros [t|] HS p HI; cbn [elem_parse].
    - exact (proj1 (parse_value_safe buf M false HB HM HZ H31 g HX t (HS t eq_refl)) p HI).
    - unfold parse_value_unknown. eapply outcome_ok_bind; [apply (any_strict buf HB M HM false H31 g true p HX HI)|]. intros [r q] [F _]. exact F.
  Qed.
  Lemma elem_strict : forall e, (forall t, e = EType t -> safe_type false t = true /\ advances t = true) -> strict buf M (elem_parse g e).
  Proof.
    intros [t|] HS p HI LP; cbn [elem_parse].
    - destruct (HS t eq_refl) as [S1 S2]. exact (parse_value_strict buf M false HB HM HZ H31 g HX t S1 S2 p HI LP).
    - unfold parse_value_unknown. eapply outcome_ok_bind; [apply (any_strict buf HB M HM false H31 g true p HX HI)|]. intros [r q] F. exact F.
  Qed.

  Lemma array_iter_inv : outcome_ok (fun it => inv M (it_state it) /\ it_skip it = None /\ last (it_state it) = M) (array_iter buf).
  Proof.
    unfold array_iter. pose proof (new_ps_inv M) as I0.
    destruct (trim_fw buf M HM false _ I0) as (p1 & -> & F1 & _). cbn [bind]. pose proof (inv_fw buf M HM false _ _ I0 F1) as I1.
    destruct (is_at_ok buf M HM false p1 c_lbrack I1) as (b & -> & HA). cbn [bind]. destruct b; cbn [ensure bind outcome_ok]; auto.
    destruct (HA eq_refl) as [L1 _]. pose proof (inv_last buf M HM false _ I1).
    assert (F2 : fw M p1 (remove_prefix p1 1)) by (apply fw_first; lia). pose proof (inv_fw buf M HM false _ _ I1 F2) as I2.
    destruct (trim_fw buf M HM false _ I2) as (p3 & -> & F3 & _). cbn [bind outcome_ok it_state it_skip].
    split; [exact (inv_fw buf M HM false _ _ I2 F3)|]. split; [reflexivity|].
    destruct F1 as (A & _), F2 as (B & _), F3 as (C & _). rewrite C, B, A. reflexivity.
  Qed.
  Lemma lines_iter_inv : outcome_ok (fun it => inv M (it_state it) /\ it_skip it = None /\ last (it_state it) = M) (lines_iter buf).
  Proof.
    unfold lines_iter. pose proof (new_ps_inv M) as I0.
    destruct (trim_fw buf M HM false _ I0) as (p1 & -> & F1 & _). cbn [bind outcome_ok it_state it_skip].
    split; [exact (inv_fw buf M HM false _ _ I0 F1)|]. split; [reflexivity|]. destruct F1 as (A & _). rewrite A. reflexivity.
  Qed.

  Theorem walk_safe : forall e times fuel, (forall t, e = EType t -> safe_type false t = true) ->
    not_ub (walk_array g e times fuel buf) /\ not_ub (walk_lines g e times fuel buf).
  Proof.
    intros e times fuel HE. split.
    - unfold walk_array. eapply not_ub_bind; [apply array_iter_inv|]. intros it (A & B & _). apply walk_inside; auto using elem_ok, known_skip_ok.
    - unfold walk_lines. eapply not_ub_bind; [apply lines_iter_inv|]. intros it (A & B & _). apply walk_inside; auto using elem_ok, known_skip_ok.
  Qed.

  Theorem walk_total : forall e times fuel, (forall t, e = EType t -> safe_type false t = true /\ advances t = true) -> (forall n, times n <> O) ->
    (M < fuel)%nat -> outcome_ok (fun _ => True) (walk_array g e times fuel buf) /\ outcome_ok (fun _ => True) (walk_lines g e times fuel buf).
  Proof.
    intros e times fuel HE HT HF. split.
    - unfold walk_array. eapply outcome_ok_bind; [apply array_iter_inv|]. intros it (A & B & C). apply walk_ends; auto using elem_strict, known_skip_ok. lia.
    - unfold walk_lines. eapply outcome_ok_bind; [apply lines_iter_inv|]. intros it (A & B & C). apply walk_ends; auto using elem_strict, known_skip_ok. lia.
  Qed.
End Bytes.
