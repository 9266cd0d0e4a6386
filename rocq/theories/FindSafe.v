(** find_json_path_stack_to on arbitrary bytes. *)
From Coq Require Import List NArith ZArith Bool Lia Arith ZifyBool ZifyNat ZifyN.
From Verif Require Import Base Mem Loop PolicyModel IntModel StrScanModel SkipModel SpecNum SpecText SpecJson
  SkipProofs SkipSafe PropertiesSkip ValueModel JValueModel SpecValue JValueProofs RawValueProofs StateModel StateProofs StateProofs2 EventModel SpecEvent EventProofs EventSafe
  PathModel FindModel.
Import ListNotations.
Local Open Scope N_scope.

Section Safe.
  Context (g : cfg) (buf : list N) (loc : nat) (l : nat).
  Notation after := (find_after g buf loc).
  Notation fh := (find_handler g buf loc).

  Lemma no_skip : forall s e, snd (find_step g buf loc s e) <> SkipClassArray.
  Proof.
    intros s e.
    assert (V : forall n v, snd (handle_on_value buf (loc + 1) s n v) <> SkipClassArray).
    { intros n v. unfold handle_on_value. destruct (_ || _); [discriminate|].
      destruct (match child_of s with BClass => _ | BArray => _ | _ => _ end) as [[k i]|]; [destruct (jtype buf v)|]; discriminate. }
    assert (C : forall v, snd (handle_on_scalar g buf (loc + 1) s v) <> SkipClassArray).
    { intros v. unfold handle_on_scalar. destruct (skip_val g buf v) as [[r q]| | |]; [destruct (_ && _)| | |]; discriminate. }
    destruct e; cbn [find_step snd]; try discriminate; [apply V|apply C..].
  Qed.
  Lemma never_skips : skips_inside fh.
  Proof. intros past e E. now apply no_skip in E. Qed.

  (** A value with the end of its container *)
  Definition framed (v : ps) : Prop := raw_value buf l v /\ clast v = Some l.

  Lemma jvalue_framed : forall p v, raw_value buf l p -> jvalue buf (restate p) = Ok v -> framed v.
  Proof.
    intros p v (A & B & C & D) E. unfold jvalue in E. rewrite restate_ok in E by auto. destruct (trim_safe buf (restated p)) as (j & E2 & L & _); [cbn [last restated]; lia|].
    rewrite E2 in E. injection E as <-. split; [repeat split; auto|cbn [clast set_first restated]; now rewrite B].
  Qed.

  Lemma deref_framed : forall f p n v, raw buf f l p -> (f < l)%nat -> it_deref g buf p = Ok (n, v) ->
    framed v /\ (nth_error buf f = Some 123 -> n <> None).
  Proof.
    intros f p n v HR L E. pose proof HR as (A & B & C & D & EC & F & G). unfold it_deref in E.
    destruct (class_is_raw buf f l p c_lbrack HR L) as (b & Hb & EB). rewrite EB in E. cbn [bind] in E. destruct (N.eqb_spec b c_lbrack) as [Eb|Nb].
    - destruct (jvalue buf (restate p)) as [v'| | |] eqn:EV; cbn [bind] in E; try discriminate. injection E as <- <-. split.
      + apply (jvalue_framed p); auto. repeat split; auto.
      + intros HB. rewrite HB in Hb. injection Hb as <-. discriminate.
    - pose proof (parse_name_raw g buf f l p HR) as PN. destruct (parse_name g buf p) as [[k q]| | |]; cbn [bind] in E; try discriminate. cbn [outcome_ok snd] in PN.
      assert (EQ : q = set_first p (first q)) by (apply PN; lia).
      destruct (jvalue buf (restate q)) as [v'| | |] eqn:EV; cbn [bind] in E; try discriminate. injection E as <- <-. split; [|discriminate].
      apply (jvalue_framed q); auto. rewrite EQ. repeat split; auto.
  Qed.

  (** The answers never are undefined. *)
  Lemma value_fine : forall s n v, framed v -> f_bad s = false -> (child_of s = BClass -> n <> None) ->
    f_bad (fst (handle_on_value buf (loc + 1) s n v)) = false /\
    (snd (handle_on_value buf (loc + 1) s n v) = Continue -> f_stack (fst (handle_on_value buf (loc + 1) s n v)) = f_stack s /\
       (first v < last v)%nat /\ jtype buf v = Ok (f_type (f_state (fst (handle_on_value buf (loc + 1) s n v))))).
  Proof.
    intros s n v [HV _] FB CN. assert (LV : last v = l) by apply HV. unfold handle_on_value. unfold has_more. destruct (Nat.ltb_spec (first v) (last v)) as [LT|LT]; cbn [negb orb]; [|split; [exact FB|discriminate]].
    destruct (loc + 1 <=? first v)%nat; [split; [exact FB|discriminate]|].
    assert (NI : exists k i, match child_of s with BClass => match n with Some k => Some (k, (-1)%Z) | None => None end | BArray => Some ([], (f_index (f_state s) + 1)%Z) | _ => Some ([], (-1)%Z) end = Some (k, i)).
    { destruct (child_of s); try (eexists _, _; reflexivity). destruct n as [k|]; [eexists _, _; reflexivity|]. now destruct CN. }
    destruct NI as (k & i & ->). pose proof (jtype_raw buf l v HV) as JT. destruct (jtype buf v) as [t| | |]; cbn [outcome_ok] in JT; try contradiction; cbn [fst snd f_bad f_stack f_state f_type]; (split; [exact FB|]); auto. discriminate.
  Qed.

  Lemma scalar_fine : forall s v, framed v -> (first v < last v)%nat -> f_bad s = false ->
    f_bad (fst (handle_on_scalar g buf (loc + 1) s v)) = false /\
    (snd (handle_on_scalar g buf (loc + 1) s v) = Continue -> fst (handle_on_scalar g buf (loc + 1) s v) = s).
  Proof.
    intros s v [(A & B & C & D) CL] LT FB. assert (HW : wf buf v).
    { split; [exact A|]. split; [exact D|]. split; [lia|]. exists l. split; [exact CL|lia]. }
    pose proof (C21_skip_value_safe (c_ex g) (c_excl g) false buf v HW) as SV. unfold handle_on_scalar, skip_val.
    destruct (skip_value CNone true (c_ex g) (c_excl g) false buf v) as [[r q]| | |]; try contradiction; [destruct (_ && _)|]; cbn [fst snd f_bad]; auto; split; auto; discriminate.
  Qed.

  (** The handler's stack goes along with the parser's. *)
  Definition same_entry (n : fnode) (x : skind * ps) : Prop := exists f, (f < l)%nat /\ raw buf f l (snd x) /\ nth_error buf f = Some (kbyte (fst x)) /\
    f_type n = match fst x with KClass => BClass | KArray => BArray end.
  Definition along (s : est) : Prop := f_bad (after (calls s)) = false /\ Forall2 same_entry (f_stack (after (calls s))) (stack s).
  Definition fine (x : est * res unit) : Prop := f_bad (after (calls (fst x))) = false /\
    match snd x with Ok _ => stack (fst x) = [] \/ along (fst x) | _ => True end.

  Lemma tell_fine : forall s e k, f_bad (fst (find_step g buf loc (after (calls s)) e)) = false ->
    (snd (find_step g buf loc (after (calls s)) e) = Continue -> fine (k (mkest (e :: calls s) (stack s) (class_depth s) (array_depth s)))) ->
    fine (tell fh s e k).
  Proof.
    intros s e k FB HK. unfold tell. cbn [calls]. unfold find_handler at 1. destruct (snd (find_step g buf loc (after (calls s)) e)) eqn:ES.
    - now apply HK.
    - now apply no_skip in ES.
    - split; [exact FB|]. cbn [fst snd]. left. reflexivity.
  Qed.

  Lemma jtype_byte : forall v t, jtype buf v = Ok t -> match t with BArray => nth_error buf (first v) = Some 91 | BClass => nth_error buf (first v) = Some 123 | _ => True end.
  Proof.
    intros v t E. unfold jtype in E. destruct (has_more v); cbn [negb] in E; [|injection E as <-; exact I].
    unfold front, rd in E. destruct (nth_error buf (first v)) as [c|]; cbn [bind] in E; [|discriminate].
    destruct (c =? c_quote); [injection E as <-; exact I|]. destruct (c =? c_lbrace) eqn:E1; [injection E as <-; apply N.eqb_eq in E1; now rewrite E1|].
    destruct (c =? c_lbrack) eqn:E2; [injection E as <-; apply N.eqb_eq in E2; now rewrite E2|].
    repeat match type of E with
    | (if ?b then _ else _) = _ => destruct b
    | bind ?r _ = _ => destruct r; cbn [bind] in E; try discriminate
    | Ok _ = Ok _ => injection E as <-
    end; try exact I; destruct a; try exact I; discriminate.
  Qed.

  Lemma value_along : forall s n v, framed v -> along s -> (child_of (after (calls s)) = BClass -> n <> None) -> fine (process_value fh buf s n v).
  Proof.
    intros s n v HV [FB F2] CN. destruct (value_fine (after (calls s)) n v HV FB CN) as [VB VC]. unfold process_value.
    apply tell_fine; [exact VB|]. intros GO. destruct (VC GO) as (ST & LT & JT). clear VC. rewrite JT. cbn [lift].
    set (s1 := mkest (EValue n v :: calls s) (stack s) (class_depth s) (array_depth s)).
    assert (A1 : after (calls s1) = fst (handle_on_value buf (loc + 1) (after (calls s)) n v)) by reflexivity. rewrite <- A1 in *.
    pose proof (jtype_byte v _ JT) as TB.
    assert (SC : forall e, (find_step g buf loc (after (calls s1)) e = handle_on_scalar g buf (loc + 1) (after (calls s1)) v) -> fine (tell fh s1 e (fun s => (s, Ok tt)))).
    { intros e E. destruct (scalar_fine (after (calls s1)) v HV LT VB) as [SB SE]. apply tell_fine; rewrite E; [exact SB|]. intros GO2. specialize (SE GO2).
      assert (A2 : after (e :: calls s1) = after (calls s1)) by (cbn [find_after]; rewrite E; exact SE).
      split; cbn [fst snd calls]; [now rewrite A2|]. right. split; cbn [calls stack]; rewrite A2; [exact VB|]. rewrite ST. exact F2. }
    assert (CO : forall k e s2, find_step g buf loc (after (calls s1)) e = (handle_on_start (after (calls s1)), Continue) -> calls s2 = calls s1 -> stack s2 = stack s1 ->
      nth_error buf (first v) = Some (kbyte k) -> f_type (f_state (after (calls s1))) = (match k with KClass => BClass | KArray => BArray end) ->
      fine (tell fh s2 e (fun s => lift s (it_begin buf v) (fun p => (set_stack s ((k, p) :: stack s), Ok tt))))).
    { intros k e s2 E EC ES KB KT. apply tell_fine; rewrite EC, E; [exact VB|]. intros _.
      assert (A2 : after (e :: calls s1) = handle_on_start (after (calls s1))) by (cbn [find_after]; rewrite E; reflexivity).
      pose proof (it_begin_raw buf v) as IB. assert (EL : last v = l) by apply HV. rewrite EL in IB. specialize (IB (proj1 HV)).
      destruct (it_begin buf v) as [p| | |]; cbn [outcome_ok] in IB; try contradiction; cbn [lift]; split; cbn [fst snd calls set_stack]; try (rewrite A2; exact VB); try exact I.
      right. split; cbn [calls stack set_stack]; rewrite A2; [exact VB|]. cbn [handle_on_start f_stack]. rewrite ST, ES. apply Forall2_cons; [|exact F2].
      exists (first v). cbn [fst snd]. split; [lia|]. auto. }
    destruct (f_type (f_state (after (calls s1)))) eqn:ET; try (apply SC; reflexivity); try (apply (CO KArray); auto; fail); try (apply (CO KClass); auto; fail).
    - apply tell_fine; cbn [find_step fst snd]; [exact VB|]. intros _. split; cbn [fst snd calls]; [exact VB|]. right. split; [exact VB|]. cbn [calls stack find_after find_step fst]. rewrite ST. exact F2.
  Qed.

  Lemma range_along : forall s k p r, along s -> stack s = (k, p) :: r -> fine (process_range g fh buf (set_stack s r) k p).
  Proof.
    intros s k p r [FB F2] ES. rewrite ES in F2. inversion F2 as [|nd x nds xs (f & LF & HR & KB & KT) F3 EN EX]; subst. cbn [fst snd] in *.
    assert (STAY : forall o, match o with Ok _ => False | _ => True end -> fine (set_stack s r, o)) by (intros o HO; split; cbn [fst snd calls set_stack]; [exact FB|destruct o; auto; contradiction]).
    unfold process_range. destruct (it_eq buf p null_state) as [[]| | |] eqn:ST; cbn [lift negb]; try (apply STAY; exact I); [|].
    - assert (EF : forall e d1 d2, find_step g buf loc (after (calls s)) e = (handle_on_end (after (calls s)), Continue) -> fine (tell_end fh (mkest (calls s) r d1 d2) e)).
      { intros e d1 d2 E. unfold tell_end. cbn [calls stack]. unfold find_handler at 1. rewrite E. cbn [snd].
        assert (A2 : after (e :: calls s) = handle_on_end (after (calls s))) by (cbn [find_after]; rewrite E; reflexivity).
        assert (B2 : f_bad (handle_on_end (after (calls s))) = false) by (unfold handle_on_end; rewrite <- EN; exact FB).
        split; cbn [fst snd calls]; rewrite ?A2; [exact B2|]. right. split; cbn [calls stack]; rewrite A2; [exact B2|]. unfold handle_on_end. rewrite <- EN. exact F3. }
      destruct k; cbn [set_stack class_depth array_depth].
      + destruct (ends_with buf p c_rbrace) as [b| | |]; cbn [lift]; try (apply STAY; exact I). destruct (_ && b); cbn [ensure lift]; [|apply STAY; exact I].
        apply (EF EClassEnd). reflexivity.
      + destruct (ends_with buf p c_rbrack) as [b| | |]; cbn [lift]; try (apply STAY; exact I). destruct (_ && b); cbn [ensure lift]; [|apply STAY; exact I].
        apply (EF EArrayEnd). reflexivity.
    - destruct (it_deref g buf p) as [[n v]| | |] eqn:ED; cbn [lift]; try (apply STAY; exact I). destruct (deref_framed f p n v HR LF ED) as [FV NB].
      destruct (walk_step g buf f l p HR LF ST) as [_ WS]. destruct (it_next g buf p) as [q| | |]; cbn [lift outcome_ok] in *; try (apply STAY; exact I). destruct WS as [RQ _].
      cbn [fst snd]. apply value_along; [exact FV| |].
      + split; cbn [calls stack set_stack]; [exact FB|]. rewrite <- EN. apply Forall2_cons; [|exact F3]. exists f. auto.
      + cbn [calls set_stack]. unfold child_of. rewrite <- EN. intros CC. apply NB. rewrite KT in CC. destruct k; [exact KB|discriminate].
  Qed.

  Lemma loop_along : forall fuel s, stack s = [] /\ f_bad (after (calls s)) = false \/ along s -> f_bad (after (calls (fst (events_loop fuel g fh buf s)))) = false.
  Proof.
    induction fuel as [|fuel IH]; intros s H.
    - cbn [events_loop fst]. destruct H as [[_ H]|[H _]]; exact H.
    - cbn [events_loop]. destruct (stack s) as [|[k p] r] eqn:ES; [cbn [fst]; destruct H as [[_ H]|[H _]]; exact H|]. destruct H as [[H _]|H]; [discriminate|].
      pose proof (range_along s k p r H ES) as [FB FO]. destruct (process_range g fh buf (set_stack s r) k p) as [s' [u| | |]]; cbn [fst snd lift] in *; auto.
      apply IH. destruct FO as [FO|FO]; [left; auto|right; exact FO].
  Qed.

  Theorem find_fine : forall fuel v, framed v -> f_bad (after (calls (fst (json_event_parser fuel g fh buf v)))) = false.
  Proof.
    intros fuel v HV. unfold json_event_parser. assert (AL : along (mkest [] [] 0 0)) by (split; [reflexivity|constructor]).
    pose proof (value_along (mkest [] [] 0 0) None v HV AL ltac:(discriminate)) as [FB FO].
    destruct (process_value fh buf (mkest [] [] 0 0) None v) as [s' [u| | |]]; cbn [fst snd lift] in *; auto.
    apply loop_along. destruct FO as [FO|FO]; [left; auto|right; exact FO].
  Qed.
End Safe.
