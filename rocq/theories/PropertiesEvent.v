(** C42: json_event_parser. *)
From Coq Require Import String.
From Coq Require Import List NArith ZArith Bool Lia Arith ZifyBool ZifyNat ZifyN.
From Verif Require Import Base Mem Loop PolicyModel IntModel StrScanModel SkipModel SpecNum SpecText SpecJson
  SkipProofs SkipSafe ValueModel NameProofs JValueModel SpecValue JValueProofs RawValueProofs PropertiesTyped PropertiesValue
  EventModel SpecEvent EventProofs EventSafe.
Import ListNotations.
Local Open Scope N_scope.

(** ** The full claim

    For every well-formed document the calls are those of the pre-order walk; a
    request to skip ends only the container it is made in; a request to complete
    ends the run without an error.

    The walk is proved below for names the parser delimits at every level
    ([names_ok], see [C36_name_refuted]), and so is that nothing is reported after
    the first request to stop.  The rest is refuted: a request to skip and a
    request to complete made inside a container end in an exception, and a request
    to skip made for the outermost value is undefined. *)

(** What first_stop finds *)
Lemma first_stop_some : forall h all past done d, first_stop h past all = Some (done, d) ->
  exists a e b, all = a ++ e :: b /\ done = e :: rev a ++ past /\ d = h done /\ goes_on d e = false.
Proof.
  intros h. induction all as [|x all IH]; intros past done d H; [discriminate|]. cbn [first_stop] in H.
  destruct (goes_on (h (x :: past)) x) eqn:GO.
  - apply IH in H as (a & e & b & -> & -> & HD & HG). exists (x :: a), e, b. cbn [rev]. rewrite <- app_assoc. auto.
  - injection H as <- <-. exists [], x, all. auto.
Qed.

Lemma first_stop_none : forall h all past, (forall a e b, all = a ++ e :: b -> goes_on (h (e :: rev a ++ past)) e = true) ->
  first_stop h past all = None.
Proof.
  intros h. induction all as [|x all IH]; intros past H; [reflexivity|]. cbn [first_stop].
  pose proof (H [] x all eq_refl) as H0. cbn [rev app] in H0. rewrite H0. apply IH. intros a e b ->.
  specialize (H (x :: a) e b eq_refl). cbn [rev] in H. now rewrite <- app_assoc in H.
Qed.

Lemma exists_last_cons : forall (x : event) l, exists a e, x :: l = a ++ [e].
Proof. intros x l. destruct (exists_last (l := x :: l)) as (a & e & E); [discriminate|]. exists a, e. exact E. Qed.

Section Cfg.
  Context (g : cfg).
  Hypothesis HG : covered g.
  Context (buf : list N).
  Hypothesis H32 : N.of_nat (length buf) < 2^32.

  (** Whatever the handler answers: the calls are those of the walk, up to and
      including the first that is not answered with going on; how the run then
      ends is [stop_outcome]. *)
  Theorem C42_calls_partial : forall v p, value_at buf v p -> (forall w, inside w v -> names_ok g w) ->
    exists all, Forall2 (reports buf) all (walk None v) /\
      forall h fuel, (turns v < fuel)%nat ->
      exists s o, json_event_parser fuel g h buf p = (s, o) /\
        match first_stop h [] all with
        | None => rev (calls s) = all /\ o = Ok tt
        | Some (past, d) => calls s = past /\ o = stop_outcome past d
        end.
  Proof.
    destruct HG as [HX HE]. intros v p (HW & t & j & HT & HS & FJ & NV) HN.
    destruct (every_value_runs g HX HE buf H32 v p None t j HW HT HS FJ NV HN) as (all & [W O] & _ & R).
    exists all. split; [exact W|]. intros h fuel HF. pose (s0 := mkest [] [] 0 0).
    assert (LV : level s0) by (repeat split; reflexivity || (cbn; lia)).
    specialize (R h s0 LV). unfold run_as in R. cbn [calls s0] in R.
    change (json_event_parser fuel g h buf p) with (resume g buf fuel h (process_value h buf s0 None p)).
    destruct (first_stop h [] all) as [[past d]|].
    - destruct (R (fuel - S (turns v))%nat) as (s' & E & EC). replace (turns v + S (fuel - S (turns v)))%nat with fuel in E by lia.
      exists s', (stop_outcome past d). auto.
    - specialize (R (S (fuel - S (turns v)))). replace (turns v + S (fuel - S (turns v)))%nat with fuel in R by lia.
      cbn [s0 stack class_depth array_depth events_loop Z.eqb andb ensure] in R. rewrite app_nil_r in R.
      eexists _, _. split; [exact R|]. cbn [calls]. split; [apply rev_involutive|reflexivity].
  Qed.

  (** A handler that always goes on sees the whole walk, and the run is without error. *)
  Theorem C42_traversal_partial : forall v p h fuel, value_at buf v p -> (forall w, inside w v -> names_ok g w) ->
    (forall past e, goes_on (h (e :: past)) e = true) -> (turns v < fuel)%nat ->
    exists s, json_event_parser fuel g h buf p = (s, Ok tt) /\ Forall2 (reports buf) (rev (calls s)) (walk None v).
  Proof.
    intros v p h fuel HV HN HH HF. destruct (C42_calls_partial v p HV HN) as (all & W & R).
    destruct (R h fuel HF) as (s & o & E & M). rewrite (first_stop_none h all []) in M by (intros; apply HH).
    destruct M as [<- ->]. exists s. auto.
  Qed.

  (** After the call that is answered with Complete or SkipClassArray there is no
      other, and the calls before it are the start of the walk. *)
  Theorem C42_no_more_partial : forall v p h fuel, value_at buf v p -> (forall w, inside w v -> names_ok g w) ->
    (turns v < fuel)%nat ->
    let '(s, _) := json_event_parser fuel g h buf p in
    (exists rest, Forall2 (reports buf) (rev (calls s)) (firstn (length (calls s)) (walk None v)) /\
       walk None v = firstn (length (calls s)) (walk None v) ++ rest) /\
    (forall a e b, calls s = b ++ e :: a -> b <> [] -> goes_on (h (e :: a)) e = true).
  Proof.
    intros v p h fuel HV HN HF. destruct (C42_calls_partial v p HV HN) as (all & W & R).
    destruct (R h fuel HF) as (s & o & E & M). rewrite E.
    assert (PRE : forall k, Forall2 (reports buf) (firstn k all) (firstn k (walk None v))).
    { clear -W. intros k. revert k. induction W; intros [|k]; cbn [firstn]; constructor; auto. }
    assert (GO : forall (l past : list event), first_stop h past l = None -> forall a e b, l = a ++ e :: b -> goes_on (h (e :: rev a ++ past)) e = true).
    { clear. induction l as [|x l IH]; intros past FS a e b EQ; [now destruct a|]. cbn [first_stop] in FS.
      destruct (goes_on (h (x :: past)) x) eqn:GX; [|discriminate].
      destruct a as [|y a]; cbn [app] in EQ; injection EQ as -> ->; [exact GX|]. cbn [rev]. rewrite <- app_assoc. cbn [app]. now apply (IH _ FS a e b). }
    destruct (first_stop h [] all) as [[past d]|] eqn:FS.
    - destruct M as [EC _]. pose proof (first_stop_some _ _ _ _ _ FS) as (a & e & b & EA & EP & ED & EG). rewrite app_nil_r in EP. rewrite EP in EC, FS.
      assert (LN : length (calls s) = length (a ++ [e])) by (rewrite EC; cbn [length]; rewrite rev_length, app_length; cbn [length]; lia).
      split.
      + exists (skipn (length (calls s)) (walk None v)). split; [|symmetry; apply firstn_skipn].
        specialize (PRE (length (calls s))). replace (rev (calls s)) with (firstn (length (calls s)) all); [exact PRE|].
        rewrite LN, EC, EA. cbn [rev]. rewrite rev_involutive. replace (a ++ e :: b) with ((a ++ [e]) ++ b) by (now rewrite <- app_assoc).
        rewrite firstn_app, Nat.sub_diag, firstn_all. cbn [firstn]. apply app_nil_r.
      + intros a' e' b' EQ NB. destruct b' as [|x b']; [congruence|]. rewrite EC in EQ. cbn [app] in EQ. injection EQ as <- EQ.
        assert (EA' : a = rev a' ++ e' :: rev b').
        { rewrite <- (rev_involutive a), EQ, rev_app_distr. cbn [rev]. now rewrite <- app_assoc. }
        assert (FA : first_stop h [] a = None).
        { rewrite EA, first_stop_app in FS. destruct (first_stop h [] a) as [[past' d']|] eqn:F2; [|reflexivity].
          apply first_stop_some in F2 as (a2 & e2 & b2 & E2 & EP2 & _). injection FS as -> _. exfalso.
          apply (f_equal (@length _)) in EP2, E2. cbn [length] in EP2. rewrite app_nil_r, !rev_length in EP2. rewrite app_length in E2. cbn [length] in E2. lia. }
        pose proof (GO a [] FA (rev a') e' (rev b') EA') as X. rewrite rev_involutive, app_nil_r in X. exact X.
    - destruct M as [EC _]. assert (LN : length (calls s) = length all) by (rewrite <- EC, rev_length; reflexivity).
      split.
      + exists (skipn (length (calls s)) (walk None v)). split; [|symmetry; apply firstn_skipn].
        specialize (PRE (length (calls s))). replace (firstn (length (calls s)) all) with (rev (calls s)) in PRE; [exact PRE|].
        rewrite LN, firstn_all. exact EC.
      + intros a' e' b' EQ NB. assert (EA' : all = rev a' ++ e' :: rev b') by (rewrite <- EC, EQ, rev_app_distr; cbn [rev]; now rewrite <- app_assoc).
        pose proof (GO all [] FS (rev a') e' (rev b') EA') as X. rewrite rev_involutive, app_nil_r in X. exact X.
  Qed.

  (** A request to complete made for a value outside of every container, or when
      the outermost container ends, raises no error.  Everywhere else it does. *)
  Theorem C42_complete_partial : forall v p h fuel s o, value_at buf v p -> (forall w, inside w v -> names_ok g w) ->
    (turns v < fuel)%nat -> json_event_parser fuel g h buf p = (s, o) ->
    (exists e past, calls s = e :: past) /\
    (h (calls s) = Complete -> o = if (open_now (calls s) =? 0)%Z then Ok tt else Err InvalidEndOfValue).
  Proof.
    intros v p h fuel s o HV HN HF E. destruct (C42_calls_partial v p HV HN) as (all & W & R).
    destruct (R h fuel HF) as (s' & o' & E' & M). rewrite E in E'. injection E' as <- <-.
    destruct (first_stop h [] all) as [[past d]|] eqn:FS.
    - destruct M as [EC ->]. pose proof (first_stop_some _ _ _ _ _ FS) as (a & e & b & EA & EP & ED & EG). rewrite EC. split; [eauto|].
      intros HC. rewrite ED, HC. reflexivity.
    - destruct M as [EC ->]. assert (NE : exists a e, all = a ++ [e]).
      { inversion W as [|x y r1 r2 RX RW EX EY]; [destruct v; discriminate|]. apply exists_last_cons. }
      destruct NE as (a & e & EA). assert (EC' : calls s = e :: rev a) by (rewrite <- (rev_involutive (calls s)), EC, EA, rev_app_distr; reflexivity).
      split; [eauto|]. intros HC. exfalso.
      rewrite EA, first_stop_app in FS. destruct (first_stop h [] a); [discriminate|]. cbn [first_stop] in FS. rewrite app_nil_r in FS.
      rewrite EC' in HC. rewrite HC in FS. discriminate.
  Qed.
End Cfg.

Print Assumptions C42_calls_partial.
Print Assumptions C42_traversal_partial.
Print Assumptions C42_no_more_partial.
Print Assumptions C42_complete_partial.

(** ** Any bytes

    For any document, any handler that asks to skip only inside a container and
    any value reached in the document the run ends and reads only the document. *)
Theorem C42_safe_partial : forall g h buf v, is_bytes buf -> reached g buf v -> skips_inside h ->
  exists enough, forall fuel, (enough <= fuel)%nat ->
    snd (json_event_parser fuel g h buf v) <> UB /\ snd (json_event_parser fuel g h buf v) <> Fuel.
Proof.
  intros g h buf v HB HR HS. pose proof (reached_raw g buf v HB HR) as RV. exists (S (3 ^ length buf)). intros fuel HF.
  pose proof (event_parser_safe g h buf (length buf) HS v fuel RV HF) as X.
  destruct (snd (json_event_parser fuel g h buf v)); cbn [outcome_ok] in X; split; congruence || contradiction.
Qed.
Print Assumptions C42_safe_partial.

(** ** Refutations *)

Definition always (d : decision) : handler := fun _ => d.
(** Answers [d] to the first call [f] holds of, goes on otherwise *)
Definition when (f : event -> bool) (d : decision) : handler :=
  fun past => match past with e :: _ => if f e then d else Continue | [] => Continue end.
Definition is_string (e : event) : bool := match e with EString _ => true | _ => false end.
Definition is_number (e : event) : bool := match e with ENumber _ => true | _ => false end.
Definition run_on (t : string) (h : handler) : est * res unit := json_event_parser 100 default_cfg h (vdoc t) (root t).

(** C42: a request to skip the rest of the container a string is in. *)
Theorem C42_skip_refuted : exists v, jtext str_body v (vdoc "[1,'a',2]") /\
  snd (run_on "[1,'a',2]" (when is_string SkipClassArray)) = Err InvalidEndOfValue /\
  snd (run_on "[1,'a',2]" (always Continue)) = Ok tt.
Proof.
  exists (JArr [JNum [49]; JStr [97]; JNum [50]]). split; [|split; [vm_compute; reflexivity|vm_compute; reflexivity]].
  change (vdoc "[1,'a',2]") with (91 :: ([] ++ [49] ++ [] ++ 44 :: ([] ++ (34 :: [97] ++ [34]) ++ [] ++ 44 :: ([] ++ [50] ++ []))) ++ [93]).
  apply t_arr. apply e_cons; try (constructor; fail); [constructor; apply digit_num; lia|].
  apply e_cons; try (constructor; fail); [constructor; apply sb_plain; try lia; constructor|].
  apply e_one; try (constructor; fail). constructor. apply digit_num. lia.
Qed.
Print Assumptions C42_skip_refuted.

(** C42: a request to skip an array when it starts acts on the container around
    it and throws. *)
Theorem C42_skip_start_refuted :
  snd (run_on "[[1],2]" (fun past => if (3 <? length past)%nat && match past with EArrayStart _ :: _ => true | _ => false end then SkipClassArray else Continue))
    = Err InvalidEndOfValue.
Proof. vm_compute. reflexivity. Qed.
Print Assumptions C42_skip_start_refuted.

(** C42: a request to skip made for the outermost value is undefined: back() of
    an empty stack. *)
Theorem C42_skip_root_refuted : snd (run_on "[1]" (always SkipClassArray)) = UB.
Proof. vm_compute. reflexivity. Qed.
Print Assumptions C42_skip_root_refuted.

(** C42: a request to complete made inside a container throws. *)
Theorem C42_complete_refuted :
  snd (run_on "[1,2]" (when is_number Complete)) = Err InvalidEndOfValue /\
  length (calls (fst (run_on "[1,2]" (when is_number Complete)))) = 4%nat /\
  snd (run_on "1" (when is_number Complete)) = Ok tt.
Proof. split; [vm_compute; reflexivity|split; vm_compute; reflexivity]. Qed.
Print Assumptions C42_complete_refuted.

(** The walk of a document, as a test *)
Example walk_example : map (fun e => match e with EValue _ _ => 0 | EArrayStart _ => 1 | EArrayEnd => 2 | EClassStart _ => 3 | EClassEnd => 4
    | ENumber _ => 5 | EBool _ => 6 | EString _ => 7 | ENull _ => 8 | EError _ => 9 end)
    (rev (calls (fst (run_on "{'a':[1,null],'b':{}}" (always Continue))))) =
  [0; 3; 0; 1; 0; 5; 0; 8; 2; 0; 3; 4; 4].
Proof. vm_compute. reflexivity. Qed.

(** The hypotheses of the theorems can be met. *)
Example C42_nonvacuous : exists p v, jvalue (vdoc "[7,8]") (root "[7,8]") = Ok p /\ value_at (vdoc "[7,8]") v p /\
  (forall w, inside w v -> names_ok default_cfg w) /\ turns v = 3%nat /\ length (walk None v) = 7%nat.
Proof.
  destruct (C36_root_partial (vdoc "[7,8]") (JArr [JNum [55]; JNum [56]]) [] (vdoc "[7,8]") []) as (p & E & V).
  - vm_compute. repeat constructor.
  - now rewrite app_nil_r.
  - constructor.
  - change (vdoc "[7,8]") with (91 :: ([] ++ [55] ++ [] ++ 44 :: ([] ++ [56] ++ [])) ++ [93]). apply t_arr.
    apply e_cons; try (constructor; fail); [constructor; apply digit_num; lia|].
    apply e_one; try (constructor; fail). constructor. apply digit_num. lia.
  - constructor.
  - discriminate.
  - exists p, (JArr [JNum [55]; JNum [56]]). split; [exact E|]. split; [exact V|]. split; [|split; reflexivity].
    intros w HI. inversion HI as [|e es HIn HW|]; subst; [exact I|]. destruct HIn as [<-|[<-|[]]]; inversion HW; exact I.
Qed.
