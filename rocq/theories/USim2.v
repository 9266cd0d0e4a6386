(** The unchecked parser follows the checked parser: arrays, tuples, maps and
    scalars.

    The checked parser that is followed is stricter where the unchecked one does
    something else with what the checked one accepts: it takes no null and no
    missing value, decodes strings without checks as well, and wants the closing
    bracket of a tuple inside of its range. *)
From Coq Require Import List NArith ZArith Bool Arith Lia.
From Coq Require Import ZifyBool ZifyNat ZifyN.
From Verif Require Import Base Mem PolicyModel IntModel Loop SpecNum SpecText SpecJson IntProofs StrScanModel StrScanProofs StrScanProofs2
  SkipModel SkipProofs SkipSafe HashModel StrDecodeModel ValueModel ClassProofs ZModel ZInt ZScan ZSim UModel USim.
Import ListNotations.
Local Open Scope N_scope.

(** ** The stricter parser *)

Definition parse_string_s (z : bool) (known : bool) (buf : list N) (p : ps) : res (list N * ps) :=
  '(s, q) <- parse_value_string_escaped true known ExConstexpr true buf p ;;
  '(s', _) <- parse_value_string_u z known buf p ;;
  if list_eq_dec N.eq_dec s s' then Ok (s, q) else Err InvalidString.

Definition parse_null_s (parse : parser) (known : bool) (buf : list N) (p : ps) : res (val * ps) :=
  let base (k : bool) := '(v, p) <- parse k buf p ;; Ok (VSome v, p) in
  if known then if isnull p then Err UnexpectedNull else base true
  else if has_more p then
    c <- front buf p ;;
    if is_token_after_value c || (c =? c_n) then Err UnexpectedNull else base false
  else Err UnexpectedNull.

Definition map_body_s (z : bool) (parse : parser) (buf : list N) (s : ps * list (list N * val))
  : res ((ps * list (list N * val)) + (ps * list (list N * val))) :=
  let '(p, kvs) := s in
  _ <- ensure (has_more p) UnexpectedEndOfData ;;
  '(k, p) <- parse_string_s z false buf p ;;
  p <- trim_end_of_name buf p ;;
  '(v, p) <- parse false buf p ;;
  p <- move_next buf p ;;
  _ <- ensure (has_more p) UnexpectedEndOfData ;;
  c <- front buf p ;;
  if c =? c_rbrace then p <- trim_left_checked buf (remove_prefix p 1) ;; Ok (inr (p, kvs ++ [(k, v)]))
  else Ok (inl (p, kvs ++ [(k, v)])).

Definition parse_keyvalue_s (z : bool) (parse : parser) (buf : list N) (p : ps) : res (val * ps) :=
  b <- is_at buf p c_lbrace ;;
  _ <- ensure b ExpectedKeyValueToStartWithBrace ;;
  p <- trim_left_checked buf (remove_prefix p 1) ;;
  _ <- ensure (negb (ps_empty p)) UnexpectedEndOfData ;;
  c <- front buf p ;;
  if c =? c_rbrace then p <- trim_left_checked buf (remove_prefix p 1) ;; Ok (VMap [], p)
  else
    '(p, kvs) <- loop (map_body_s z parse buf) (S (length buf)) (p, []) ;;
    Ok (VMap kvs, p).

Definition parse_tuple_s (g : cfg) (exact : bool) (ps_ : list parser) (buf : list N) (p : ps) : res (val * ps) :=
  p <- trim_left_checked buf p ;;
  b <- is_at buf p c_lbrack ;;
  _ <- ensure b InvalidArrayStart ;;
  let old := (cfirst p, clast p) in
  let p := set_class p (Some (first p)) (Some (last p)) in
  p <- move_next buf (remove_prefix p 1) ;;
  p <- trim_left_checked buf p ;;
  '(vs, p) <- parse_elements ps_ buf p ;;
  p <- (if exact then
          p <- trim_left_checked buf p ;;
          c <- front buf p ;;
          _ <- ensure (c =? c_rbrack) UnknownMember ;;
          trim_left_checked buf (remove_prefix p 1)
        else
          _ <- ensure (has_more p) UnexpectedEndOfData ;;
          '(_, p) <- skip_array CNone true (c_ex g) buf p ;; Ok p) ;;
  Ok (VTuple vs, set_class p (fst old) (snd old)).

Section Sim.
  Context (buf : list N) (L : nat) (z : bool).
  Hypothesis ZD : zdoc buf L.

  Local Notation rel := (rel buf L).
  Local Notation good := (good buf L).
  Local Notation both := (both buf L).
  Local Notation loc_ok := (loc_ok buf L).
  Local Notation pv := (pv buf L).
  Local Notation psim := (psim buf L).
  Local Notation rel_refl := (rel_refl buf L ZD).
  Local Notation rel_good := (rel_good buf L ZD).
  Local Notation rel_same := (rel_same buf L ZD).
  Local Notation rel_has_more := (rel_has_more buf L ZD).
  Local Notation rel_front := (rel_front buf L ZD).
  Local Notation is_at_true := (is_at_true buf L ZD).
  Local Notation good_next := (good_next buf L ZD).
  Local Notation good_room := (good_room buf L ZD).
  Local Notation good_class := (good_class buf L ZD).
  Local Notation stops_le := (stops_le buf L ZD).
  Local Notation more_nonempty := (more_nonempty buf L ZD).
  Local Notation sim_trim_u := (sim_trim_u buf L ZD).
  Local Notation sim_trim_end := (sim_trim_end buf L z ZD).
  Local Notation sim_move_next_u := (sim_move_next_u buf L ZD).
  Local Notation rel_empty_u := (rel_empty_u buf L z ZD).
  Local Notation rs := (rs buf L).

  (** ** Arrays, tuples and maps *)

  Lemma sim_end_u : forall p, good p -> nth_error buf (first p) = Some c_rbrack \/ nth_error buf (first p) = Some c_rbrace ->
    sim rel (trim_left_checked buf (remove_prefix p 1)) (trim_end_u z buf (remove_prefix p 1)).
  Proof.
    intros p G H. apply sim_trim_end. apply rel_refl. destruct H as [H|H]; eapply good_next; eauto; discriminate.
  Qed.

  Lemma sim_array_loop_u : forall P Q : parser, (forall p p', rel p p' -> sim pv (P false buf p) (Q false buf p')) -> forall n s s', rs s s' ->
    sim rs (loop (array_body P buf) n s) (loop (array_body_u z Q buf) n s').
  Proof.
    intros P Q PU. apply sim_loop. intros [p vs] [p' vs'] [HR EV]. cbn [fst snd] in HR, EV. subst vs'. unfold array_body, array_body_u.
    intros a E. destruct (has_more p); cbn [ensure bind] in E; [|discriminate]. revert a E.
    apply (sim_bind _ _ pv); [now apply PU|]. intros [v q] [v' q'] _ _ [EV HQ]. cbn [fst snd] in EV, HQ. subst v'.
    apply (sim_bind _ _ rel); [now apply sim_trim_u|]. intros s s' _ _ HS. intros a E.
    destruct (if has_more s then _ else _) as [ok| | |]; cbn [bind] in E; try discriminate. destruct ok; cbn [ensure bind] in E; [|discriminate]. revert a E.
    apply (sim_bind _ _ rel); [now apply sim_move_next_u|]. intros u u' _ _ HU. intros a E.
    destruct (has_more u) eqn:HMU; cbn [ensure bind] in E; [|discriminate]. rewrite (rel_same _ _ HU HMU). revert a E. apply sim_same. intros c F. unfold front in F. apply rd_ok_nth in F.
    destruct (N.eqb_spec c c_rbrack) as [->|].
    - unfold end_of_array, end_of_array_u. apply (sim_bind _ _ rel); [apply sim_end_u; auto; eapply rel_good; eauto|]. intros w w' _ _ HW. apply sim_ok. split; auto.
    - apply sim_ok. split; auto. apply rel_refl. eapply rel_good; eauto.
  Qed.

  Lemma sim_array_u : forall P Q p p', psim P Q -> rel p p' -> sim pv (parse_value_array P buf p) (parse_value_array_u z Q buf p').
  Proof.
    intros P Q p p' [HP _] HR. unfold parse_value_array, parse_value_array_u.
    apply (sim_bind _ _ rel); [now apply sim_trim_u|]. intros q q' _ _ HQ. clear p p' HR. intros a E.
    destruct (is_at buf q c_lbrack) as [b| | |] eqn:EB; cbn [bind] in E; try discriminate. destruct b; cbn [ensure bind] in E; [|discriminate]. revert a E.
    destruct (is_at_true _ _ EB) as (HM & HC). rewrite (rel_same _ _ HQ HM). pose proof (rel_good _ _ HQ) as G.
    assert (G1 : good (remove_prefix q 1)) by (eapply good_next; eauto; discriminate).
    apply sim_same. intros s ES. pose proof (trim_unchecked_good buf L ZD _ _ G1 ES) as GS. apply sim_same. intros c F. unfold front in F. apply rd_ok_nth in F.
    destruct (N.eqb_spec c c_rbrack) as [->|].
    - unfold end_of_array, end_of_array_u. apply (sim_bind _ _ rel); [apply sim_end_u; auto|]. intros w w' _ _ HW. apply sim_ok. split; auto.
    - apply (sim_bind _ _ rs); [apply sim_array_loop_u; auto; split; auto; now apply rel_refl|].
      intros [u vs] [u' vs'] _ _ [HU EV]. cbn [fst snd] in *. subst. apply sim_ok. split; auto.
  Qed.

  Lemma sim_kv_array_u : forall P Q p p', (forall p p', rel p p' -> sim pv (P false buf p) (Q false buf p')) -> rel p p' ->
    sim pv (parse_value_keyvalue_array P buf p) (parse_value_keyvalue_array_u z Q buf p').
  Proof.
    intros P Q p p' HP HR. unfold parse_value_keyvalue_array, parse_value_keyvalue_array_u. intros a E.
    destruct (is_at buf p c_lbrack) as [b| | |] eqn:EB; cbn [bind] in E; try discriminate. destruct b; cbn [ensure bind] in E; [|discriminate]. revert a E.
    destruct (is_at_true _ _ EB) as (HM & HC). rewrite (rel_same _ _ HR HM). pose proof (rel_good _ _ HR) as G.
    assert (G1 : good (remove_prefix p 1)) by (eapply good_next; eauto; discriminate). cbv zeta.
    apply sim_same. intros c F. unfold front in F. apply rd_ok_nth in F.
    destruct (N.eqb_spec c c_rbrack) as [->|].
    - unfold end_of_array, end_of_array_u. apply (sim_bind _ _ rel); [apply sim_end_u; auto|]. intros w w' _ _ HW. apply sim_ok. split; auto.
    - apply (sim_bind _ _ rs); [apply sim_array_loop_u; auto; split; auto; now apply rel_refl|].
      intros [u vs] [u' vs'] _ _ [HU EV]. cbn [fst snd] in *. subst. apply sim_ok. split; auto.
  Qed.

  Lemma sim_elements_u : forall Ps Qs, Forall2 psim Ps Qs -> forall p p', rel p p' -> sim pv (parse_elements Ps buf p) (parse_elements_u Qs buf p').
  Proof.
    induction 1 as [|P Q Ps Qs [PU _] _ IH]; intros p p' HR; cbn [parse_elements parse_elements_u]; [apply sim_ok; split; auto|].
    intros a E. destruct (has_more p); cbn [ensure bind] in E; [|discriminate]. revert a E.
    apply (sim_bind _ _ pv); [now apply PU|]. intros [v q] [v' q'] _ _ [EV HQ]. cbn [fst snd] in EV, HQ. subst v'.
    apply (sim_bind _ _ rel); [now apply sim_move_next_u|]. intros s s' _ _ HS.
    apply (sim_bind _ _ pv); [now apply IH|]. intros [vs u] [vs' u'] _ _ [EV HU]. cbn [fst snd] in EV, HU. subst. apply sim_ok. split; auto.
  Qed.

  Lemma sim_tuple_u : forall g exact Ps Qs p p', c_ex g = ExConstexpr -> Forall2 psim Ps Qs -> rel p p' ->
    sim pv (parse_tuple_s g exact Ps buf p) (parse_tuple_u exact Qs buf p').
  Proof.
    intros g exact Ps Qs p p' HX HF HR. unfold parse_tuple_s, parse_tuple_u.
    apply (sim_bind _ _ rel); [now apply sim_trim_u|]. intros q q' _ _ HQ. clear p p' HR. intros a E.
    destruct (is_at buf q c_lbrack) as [b| | |] eqn:EB; cbn [bind] in E; try discriminate. destruct b; cbn [ensure bind] in E; [|discriminate]. revert a E.
    destruct (is_at_true _ _ EB) as (HM & HC). rewrite (rel_same _ _ HQ HM). cbv zeta.
    pose proof (rel_good _ _ HQ) as G. pose proof G as (NN & ST & LF & cl & CL & LCL). pose proof (stops_le _ ST) as LL. rewrite CL.
    apply (sim_bind _ _ rel).
    { apply sim_move_next_u. apply rel_refl. eapply good_next with (c := c_lbrack); auto; [|discriminate]. apply good_class; auto. }
    intros s s' _ _ HS. apply (sim_bind _ _ rel); [now apply sim_trim_u|]. intros u u' _ _ HU.
    apply (sim_bind _ _ pv); [now apply sim_elements_u|]. intros [vs w] [vs' w'] _ _ [EV HW]. cbn [fst snd] in EV, HW. subst.
    apply (sim_bind _ _ rel).
    - destruct exact.
      + apply (sim_bind _ _ rel); [now apply sim_trim_u|]. intros x x' _ _ HX'. intros y E.
        destruct (front buf x) as [c| | |] eqn:F; cbn [bind] in E; try discriminate.
        destruct (N.eqb_spec c c_rbrack) as [->|]; cbn [ensure bind] in E; [|discriminate].
        pose proof (rel_front _ _ _ HX' F ltac:(discriminate) eq_refl) as ->.
        unfold front in F. apply rd_ok_nth in F. revert y E. apply sim_trim_u. apply rel_refl. eapply good_next; eauto; [eapply rel_good; eauto|discriminate].
      + rewrite HX. intros x E. destruct (has_more w) eqn:HMW; cbn [ensure bind] in E; [|discriminate]. rewrite (rel_same _ _ HW HMW). unfold skip_array in *.
        destruct (skip_bracketed CNone true ExConstexpr false buf w) as [[r y]| | |] eqn:EY; cbn [bind] in E; try discriminate. injection E as <-.
        rewrite (bracket_u buf L ZD false w r y (rel_good _ _ HW) HMW EY). cbn [bind]. eexists. split; [reflexivity|]. apply rel_refl.
        exact (brackets_end buf L ZD false w r y (rel_good _ _ HW) HMW EY).
    - intros x x' _ _ HX'. apply sim_ok. split; auto. cbn [fst snd]. now apply (rel_class buf L ZD).
  Qed.

  Lemma sim_string_s : forall p p', rel p p' -> sim pv (parse_string_s z false buf p) (parse_value_string_u z false buf p').
  Proof.
    intros p p' HR [s q] E. unfold parse_string_s in E.
    destruct (parse_value_string_escaped true false ExConstexpr true buf p) as [[s0 q0]| | |] eqn:ES; cbn [bind] in E; try discriminate.
    destruct (parse_value_string_u z false buf p) as [[s1 q1]| | |] eqn:EU; cbn [bind] in E; try discriminate.
    destruct (list_eq_dec N.eq_dec s0 s1) as [<-|]; [|discriminate]. injection E as -> ->.
    unfold parse_value_string_escaped in ES. destruct (ps_empty p) eqn:EE; cbn [ensure negb bind] in ES; [discriminate|].
    rewrite (rel_same _ _ HR (nonempty_more _ EE)). exists (s, q1). split; [exact EU|]. split; [reflexivity|]. cbn [snd].
    destruct (skip_string true ExConstexpr false false buf p) as [[r t]| | |] eqn:EK; cbn [bind] in ES; try discriminate.
    pose proof (rel_good _ _ HR) as G. pose proof (string_both buf L ZD _ _ _ G EE EK) as (_ & GT & _).
    unfold parse_value_string_u in EU. rewrite (rel_empty_u _ _ (rel_refl _ G)), EE in EU. cbn [bind ensure negb] in EU.
    rewrite (string_u buf L z ZD _ _ _ G EE EK) in EU. cbn [bind] in EU.
    assert (Q : q = t /\ q1 = t).
    { cbn [negb orb] in ES. destruct (needs_slow_path r).
      - destruct (parse_string_known_stdstring true _ _ _ _); cbn [bind] in ES; try discriminate. destruct (parse_string_known_stdstring false _ _ _ _); cbn [bind] in EU; try discriminate.
        split; congruence.
      - destruct (last r <=? length buf)%nat; [|discriminate]. split; congruence. }
    destruct Q as [-> ->]. now apply rel_refl.
  Qed.

  Lemma sim_map_loop_u : forall P Q, psim P Q -> forall n s s', rs s s' ->
    sim rs (loop (map_body_s z P buf) n s) (loop (map_body_u z Q buf) n s').
  Proof.
    intros P Q [PU _]. apply sim_loop. intros [p vs] [p' vs'] [HR EV]. cbn [fst snd] in HR, EV. subst vs'. unfold map_body_s, map_body_u.
    intros a E. destruct (has_more p); cbn [ensure bind] in E; [|discriminate]. revert a E.
    apply (sim_bind _ _ pv); [now apply sim_string_s|]. intros [k q] [k' q'] _ _ [EV HQ]. cbn [fst snd] in EV, HQ. subst k'.
    apply (sim_bind _ _ rel); [now apply (sim_after_name_u buf L ZD)|]. intros s s' _ _ HS.
    apply (sim_bind _ _ pv); [now apply PU|]. intros [v t] [v' t'] _ _ [EV HT]. cbn [fst snd] in EV, HT. subst v'.
    apply (sim_bind _ _ rel); [now apply sim_move_next_u|]. intros u u' _ _ HU. intros a E.
    destruct (has_more u) eqn:HMU; cbn [ensure bind] in E; [|discriminate]. rewrite (rel_same _ _ HU HMU). revert a E. apply sim_same. intros c F. unfold front in F. apply rd_ok_nth in F.
    destruct (N.eqb_spec c c_rbrace) as [->|].
    - apply (sim_bind _ _ rel); [apply sim_end_u; auto; eapply rel_good; eauto|]. intros w w' _ _ HW. apply sim_ok. split; auto.
    - apply sim_ok. split; auto. apply rel_refl. eapply rel_good; eauto.
  Qed.

  Lemma sim_map_u : forall P Q p p', psim P Q -> rel p p' -> sim pv (parse_keyvalue_s z P buf p) (parse_value_keyvalue_u z Q buf p').
  Proof.
    intros P Q p p' HP HR. unfold parse_keyvalue_s, parse_value_keyvalue_u. intros a E.
    destruct (is_at buf p c_lbrace) as [b| | |] eqn:EB; cbn [bind] in E; try discriminate. destruct b; cbn [ensure bind] in E; [|discriminate]. revert a E.
    destruct (is_at_true _ _ EB) as (HM & HC). rewrite (rel_same _ _ HR HM). pose proof (rel_good _ _ HR) as G.
    assert (G1 : good (remove_prefix p 1)) by (eapply good_next; eauto; discriminate).
    apply (sim_bind _ _ rel); [apply sim_trim_u; now apply rel_refl|]. intros q q' _ _ HQ. rewrite (rel_empty_u _ _ HQ). cbn [bind].
    apply sim_ensure. intros NE. split; auto. apply negb_true_iff in NE.
    rewrite (rel_same _ _ HQ (nonempty_more _ NE)). apply sim_same. intros c F. unfold front in F. apply rd_ok_nth in F.
    destruct (N.eqb_spec c c_rbrace) as [->|].
    - apply (sim_bind _ _ rel); [apply sim_end_u; auto; eapply rel_good; eauto|]. intros w w' _ _ HW. apply sim_ok. split; auto.
    - apply (sim_bind _ _ rs); [apply sim_map_loop_u; auto; split; auto; apply rel_refl; eapply rel_good; eauto|].
      intros [u vs] [u' vs'] _ _ [HU EV]. cbn [fst snd] in *. subst. apply sim_ok. split; auto.
  Qed.

  (** ** Scalars *)

  (** A boolean that was skipped: the counter tells which *)
  Definition counted (p : ps) : bool :=
    match nth_error buf (first p) with
    | Some c => (c =? 116) && (counter p =? 1) || (c =? 102) && (counter p =? 0)
    | None => false
    end.

  Lemma sim_bool_value_u : forall p p', rel p p' -> sim pv (parse_value_bool false buf p) (parse_value_bool_u false buf p').
  Proof.
    intros p p' HR. pose proof (rel_good _ _ HR) as G. unfold parse_value_bool, parse_value_bool_u. intros a E.
    assert (SB : forall w c0 w', w = c0 :: w' -> starts_with buf p w = Ok true -> front buf p = Ok c0).
    { intros w c0 w' -> EW. unfold starts_with in EW. destruct (ps_size p <? length (c0 :: w'))%nat; [discriminate|]. cbn [eq_bytes] in EW. unfold front.
      destruct (rd buf (first p)) as [b| | |]; cbn [bind] in EW; try discriminate. destruct (eq_bytes buf (S (first p)) w') as [r| | |]; cbn [bind] in EW; try discriminate.
      injection EW as EW. apply andb_true_iff in EW as [EW _]. apply N.eqb_eq in EW. congruence. }
    destruct (starts_with buf p [116; 114; 117; 101]) as [t| | |] eqn:ET; cbn [bind] in E; try discriminate. destruct t.
    - destruct (starts_room buf L ZD _ _ _ ET) as [R HM]. rewrite (rel_same _ _ HR HM). rewrite (SB _ 116 [114; 117; 101] eq_refl ET). cbn [bind] in *. change (116 =? c_t) with true. cbv iota.
      revert a E. apply (sim_bind _ _ rel); [apply sim_trim_u; apply rel_refl; now apply good_room|]. intros s s' _ _ HS. intros a E.
      destruct (end_of_item_ok buf s) as [e| | |]; cbn [bind] in E; try discriminate. destruct e; cbn [ensure bind] in E; [|discriminate]. injection E as <-.
      eexists. split; [reflexivity|]. split; auto.
    - destruct (starts_with buf p [102; 97; 108; 115; 101]) as [f| | |] eqn:EF; cbn [bind] in E; try discriminate. destruct f; cbn [bind] in E; [|discriminate].
      destruct (starts_room buf L ZD _ _ _ EF) as [R HM]. rewrite (rel_same _ _ HR HM). rewrite (SB _ 102 [97; 108; 115; 101] eq_refl EF). cbn [bind] in *. change (102 =? c_t) with false. cbv iota.
      revert a E. apply (sim_bind _ _ rel); [apply sim_trim_u; apply rel_refl; now apply good_room|]. intros s s' _ _ HS. intros a E.
      destruct (end_of_item_ok buf s) as [e| | |]; cbn [bind] in E; try discriminate. destruct e; cbn [ensure bind] in E; [|discriminate]. injection E as <-.
      eexists. split; [reflexivity|]. split; auto.
  Qed.

  Lemma sim_bool_known_u : forall p, counted p = true ->
    sim (fun a b => fst a = fst b) (parse_value_bool true buf p) (parse_value_bool_u true buf p).
  Proof.
    intros p HC a E. unfold parse_value_bool in E. unfold parse_value_bool_u. unfold counted in HC.
    destruct (front buf p) as [c| | |] eqn:F; cbn [bind] in E; try discriminate. unfold front in F. apply rd_ok_nth in F. rewrite F in HC.
    exists (VBool (negb (counter p =? 0)), p). split; [reflexivity|]. cbn [fst]. unfold c_t, c_f in *. destruct (c =? 116) eqn:E1.
    - injection E as <-. cbn [fst]. f_equal. destruct (counter p =? 1) eqn:E2; lia.
    - destruct (c =? 102) eqn:E2; [|discriminate]. injection E as <-. cbn [fst]. f_equal. lia.
  Qed.

  Lemma psim_string_u : psim (fun known buf p => '(s, p) <- parse_string_s z known buf p ;; Ok (VStr s, p))
                             (fun known buf p => '(s, p) <- parse_value_string_u z known buf p ;; Ok (VStr s, p)).
  Proof.
    split.
    - intros p p' HR. apply (sim_bind _ _ pv); [now apply sim_string_s|]. intros [v s] [v' s'] _ _ [EV HS]. cbn [fst snd] in *. subst. apply sim_ok. split; auto.
    - intros p _ a E. unfold parse_string_s in E.
      destruct (parse_value_string_escaped true true ExConstexpr true buf p) as [[s0 q0]| | |]; cbn [bind] in E; try discriminate.
      destruct (parse_value_string_u z true buf p) as [[s1 q1]| | |]; cbn [bind] in *; try discriminate.
      destruct (list_eq_dec N.eq_dec s0 s1) as [<-|]; [|discriminate]. cbn [bind] in E. injection E as <-. eexists. split; [reflexivity|]. reflexivity.
  Qed.

  Lemma psim_null_u : forall P Q, psim P Q -> psim (fun known buf p => parse_null_s P known buf p) (fun known buf p => parse_value_null_u Q known buf p).
  Proof.
    intros P Q [PU PK]. split.
    - intros p p' HR. unfold parse_null_s, parse_value_null_u. cbv zeta. intros a E.
      destruct (has_more p) eqn:HM; [|discriminate]. rewrite (rel_same _ _ HR HM), HM. pose proof (rel_good _ _ HR) as G.
      destruct (front buf p) as [c| | |]; cbn [bind] in *; try discriminate. destruct (is_token_after_value c); cbn [orb] in E; [discriminate|].
      destruct (c =? c_n); [discriminate|]. revert a E.
      apply (sim_bind _ _ pv); [apply PU; now apply rel_refl|]. intros [v s] [v' s'] _ _ [EV HS]. cbn [fst snd] in *. subst. apply sim_ok. split; auto.
    - intros p LO. unfold parse_null_s, parse_value_null_u. cbv zeta. rewrite (proj1 LO).
      apply (sim_bind _ _ (fun a b => fst a = fst b)); [now apply PK|]. intros [v s] [v' s'] _ _ EV. cbn [fst snd] in *. subst. apply sim_ok. reflexivity.
  Qed.

  Lemma psim_custom_u : forall g k, c_ex g = ExConstexpr -> c_excl g = false ->
    psim (fun known buf p => parse_value_custom g k known buf p) (fun known buf p => parse_value_custom_u z k known buf p).
  Proof.
    intros g k HX HE.
    assert (CONT : forall (r q q' : ps) (T : val * ps -> val * ps -> Prop), T (VStr (view buf (first r) (last r)), q) (VStr (view buf (first r) (last r)), q') -> sim T
       (ok <- (if has_more r then c <- front buf r ;; Ok (negb ((c =? c_lbrack) || (c =? c_lbrace))) else Ok false) ;;
        _ <- ensure ok InvalidStartOfValue ;; Ok (VStr (view buf (first r) (last r)), q))
       (Ok (VStr (view buf (first r) (last r)), q'))).
    { intros r q q' T HT a E. destruct (if has_more r then _ else _) as [ok| | |]; cbn [bind] in E; try discriminate. destruct ok; cbn [ensure bind] in E; [|discriminate].
      injection E as <-. eauto. }
    split.
    2:{ intros p _. unfold parse_value_custom, parse_value_custom_u. destruct k; cbn [bind].
        - now apply CONT.
        - now apply CONT.
        - apply sim_same. intros [r q] _. now apply CONT. }
    intros p p' HR. pose proof (rel_good _ _ HR) as G. unfold parse_value_custom, parse_value_custom_u.
    assert (ST : forall p p', rel p p' -> has_more p = false \/ sim (fun a b => fst a = fst b /\ rel (snd a) (snd b))
               (skip_string true (c_ex g) (c_excl g) false buf p) (skip_string_u z buf p')).
    { intros u u' HU. destruct (has_more u) eqn:HM; [right|now left]. rewrite (rel_same _ _ HU HM), HX, HE. pose proof (rel_good _ _ HU) as GU. intros [r q] E.
      destruct (string_both buf L ZD _ _ _ GU (more_nonempty _ GU HM) E) as (_ & B & _). exists (r, q). split; [exact (string_u buf L z ZD _ _ _ GU (more_nonempty _ GU HM) E)|].
      split; auto. now apply rel_refl. }
    destruct k.
    - destruct (ST p p' HR) as [HM|S].
      + intros a E. exfalso. unfold skip_string in E. pose proof G as (NN & _). unfold ps_empty, has_more in *. rewrite NN in E. cbn [orb] in E.
        replace (last p <=? first p)%nat with true in E by lia. cbn [bind] in E. rewrite HM in E. discriminate.
      + eapply sim_bind; [exact S|]. intros [r q] [r' q'] _ _ [ER HQ]. cbn [fst snd] in *. subst. apply CONT. split; auto.
    - apply (sim_bind _ _ both); [now apply (sim_literal_u buf L z ZD)|]. intros [r q] [r' q'] _ _ [[ER _] HQ]. cbn [fst snd] in *. subst. apply CONT. split; auto.
    - destruct (has_more p) eqn:HM.
      + rewrite (rel_same _ _ HR HM). apply (sim_bind _ _ (fun a b => fst a = fst b /\ rel (snd a) (snd b))).
        * apply sim_same. intros c _. destruct (c =? c_quote).
          -- destruct (ST p p (rel_refl _ G)) as [X|S]; [congruence|]. eapply sim_bind; [exact S|]. intros [r q] [r' q'] _ _ [ER HQ]. cbn [fst snd] in *. subst.
             apply sim_ok. split; auto.
          -- intros a E. destruct (sim_skip_val_u buf L z ZD g p p HX HE (rel_refl _ G) a E) as (b & EB & [ER _] & HQ). exists b. split; auto.
        * intros [r q] [r' q'] _ _ [ER HQ]. cbn [fst snd] in *. subst. apply CONT. split; auto.
      + intros a E. destruct (front buf p) as [c| | |] eqn:F; cbn [bind] in E; try discriminate. destruct (N.eqb_spec c c_quote) as [->|NC].
        * pose proof (rel_front _ _ _ HR F ltac:(discriminate) eq_refl) as ->. rewrite F. cbn [bind]. change (c_quote =? c_quote) with true. cbv iota.
          unfold skip_string in E. unfold skip_string_u. rewrite (rel_empty_u _ _ HR). pose proof G as (NN & _).
          assert (EM : ps_empty p = true) by (unfold ps_empty, has_more in *; rewrite NN; cbn [orb]; lia).
          rewrite EM in *. cbn [bind] in *. revert a E. apply CONT. split; auto.
        * exfalso. unfold skip_val, skip_value in E. rewrite HM in E. discriminate.
  Qed.

  (** ** Variants *)

  Local Notation asim := (asim buf L).

  Lemma psim_variant_u : forall alts alts', Forall2 asim alts alts' ->
    psim (fun known buf p => parse_value_variant alts known buf p) (fun known buf p => parse_value_variant_u alts' known buf p).
  Proof.
    intros alts alts' HF. split.
    - intros p p' HR. unfold parse_value_variant, parse_value_variant_u. cbn [bind]. intros a E.
      destruct (front buf p) as [c| | |] eqn:F; cbn [bind] in E; try discriminate.
      assert (EP : p' = p).
      { apply (rel_front _ _ c HR F).
        - intros ->. cbn in E. discriminate.
        - destruct (is_space c) eqn:ES; auto. exfalso.
          rewrite (is_space_spec buf L ZD) in ES by (unfold front in F; apply rd_ok_nth in F; destruct ZD as (HB & _); exact (is_bytes_nth _ _ _ HB F)).
          unfold c_lbrace, c_lbrack, c_t, c_f, c_quote, c_plus, c_minus in E.
          replace (c =? 123) with false in E by lia. replace (c =? 91) with false in E by lia. replace (c =? 116) with false in E by lia.
          replace (c =? 102) with false in E by lia. replace (c =? 34) with false in E by lia. replace (48 <=? c) with false in E by lia.
          replace (c =? 43) with false in E by lia. replace (c =? 45) with false in E by lia. discriminate. }
      subst p'. rewrite F. cbn [bind]. revert a E. pose proof (rel_refl _ (rel_good _ _ HR)) as RR.
      destruct (c =? c_lbrace); [now apply (psim_alternative buf L ZD KClass alts alts' HF)|]. destruct (c =? c_lbrack); [now apply (psim_alternative buf L ZD KArray alts alts' HF)|].
      destruct ((c =? c_t) || (c =? c_f)); [now apply (psim_alternative buf L ZD KBool alts alts' HF)|]. destruct (c =? c_quote); [now apply (psim_alternative buf L ZD KString alts alts' HF)|].
      destruct (((48 <=? c) && (c <=? 57)) || (c =? c_plus) || (c =? c_minus)); [now apply (psim_alternative buf L ZD KNumber alts alts' HF)|]. apply sim_err.
    - intros p LO. unfold parse_value_variant, parse_value_variant_u. apply sim_same. intros q _. destruct q; [now apply (psim_alternative buf L ZD KString alts alts' HF)|].
      apply sim_same. intros c _.
      destruct (c =? c_lbrace); [now apply (psim_alternative buf L ZD KClass alts alts' HF)|]. destruct (c =? c_lbrack); [now apply (psim_alternative buf L ZD KArray alts alts' HF)|].
      destruct ((c =? c_t) || (c =? c_f)); [now apply (psim_alternative buf L ZD KBool alts alts' HF)|]. destruct (c =? c_quote); [now apply (psim_alternative buf L ZD KString alts alts' HF)|].
      destruct (((48 <=? c) && (c <=? 57)) || (c =? c_plus) || (c =? c_minus)); [now apply (psim_alternative buf L ZD KNumber alts alts' HF)|]. apply sim_err.
  Qed.

  Lemma sim_visit_u : forall i Ps Qs, Forall2 psim Ps Qs -> forall p p', rel p p' -> sim pv (parse_visit i Ps buf p) (parse_visit_u i Qs buf p').
  Proof.
    intros i Ps Qs HF p p' HR. unfold parse_visit, parse_visit_u.
    assert (H : match nth_error Ps i with Some P => exists Q, nth_error Qs i = Some Q /\ psim P Q | None => True end).
    { clear HR. revert i. induction HF as [|P Q Ps Qs HP _ IH]; intros [|i]; cbn [nth_error]; [exact I|exact I|exists Q; auto|apply IH]. }
    destruct (nth_error Ps i) as [P|]; [|apply sim_err]. destruct H as (Q & -> & PU & _).
    apply (sim_bind _ _ pv); [now apply PU|]. intros [v s] [v' s'] _ _ [EV HS]. cbn [fst snd] in *. subst. apply sim_ok. split; auto.
  Qed.

  Lemma sim_intrusive_u : forall T U switch Ps Qs p p', (forall p p', rel p p' -> sim pv (T false buf p) (U false buf p')) -> Forall2 psim Ps Qs -> rel p p' ->
    sim pv (parse_value_variant_intrusive T switch Ps buf p) (parse_value_variant_intrusive_u U switch Qs buf p').
  Proof.
    intros T U switch Ps Qs p p' HT HF HR. unfold parse_value_variant_intrusive, parse_value_variant_intrusive_u.
    apply (sim_bind _ _ pv); [now apply HT|]. intros [v s] [v' s'] _ _ [EV HS]. cbn [fst snd] in *. subst.
    destruct v' as [| | | | | |xs| | |]; try (intros a E; discriminate E).
    destruct xs as [|y [|]]; try (intros a E; discriminate E). now apply sim_visit_u.
  Qed.

  (** ** Integers *)

  Lemma sim_unsigned_unknown_u : forall w rc p, good p ->
    sim (fun a b => b = a /\ good (snd a)) (unsigned_parser false w rc buf p) (unsigned_parser_u z false w rc buf p).
  Proof.
    intros w rc p G a E. destruct (sim_unsigned_unknown buf L ZD w rc p G a E) as (b & EB & -> & GA). exists a. split; [|auto].
    unfold unsigned_parser, unsigned_parser_z, unsigned_parser_u in *.
    destruct (has_more p) eqn:HM; [|unfold unsigned_parser_not_known in E; rewrite HM in E; discriminate].
    unfold unsigned_not_known_u. destruct z.
    - unfold unsigned_parser_not_known_z in EB. rewrite HM in EB. exact EB.
    - unfold unsigned_parser_not_known in E. rewrite HM in E. exact E.
  Qed.

  Lemma sim_unsigned_known_u : forall w rc p, loc_ok p -> all_digits buf (first p) (last p) = true ->
    sim (fun a b => b = a) (unsigned_parser true w rc buf p) (unsigned_parser_u z true w rc buf p).
  Proof.
    intros w rc p LO H. unfold unsigned_parser_u, unsigned_known_u. destruct z; [exact (sim_unsigned_known buf L ZD w rc p LO H)|].
    apply sim_refl. auto.
  Qed.
End Sim.
