(** C116: find_json_path_stack_to and find_json_path_to. *)
From Coq Require Import String.
From Coq Require Import List NArith ZArith Bool Lia Arith ZifyBool ZifyNat ZifyN.
From Verif Require Import Base Mem Loop PolicyModel IntModel StrScanModel SkipModel SpecNum SpecText SpecJson
  SkipProofs SkipSafe ValueModel NameProofs JValueModel SpecValue JValueProofs RawValueProofs PropertiesTyped PropertiesValue
  SpecPath PathModel PathProofs2 PropertiesPath EventModel SpecEvent EventProofs EventSafe PropertiesEvent FindModel SpecFind FindProofs FindSafe.
Import ListNotations.
Local Open Scope N_scope.

(** ** The full claim

    For a location in a document find_json_path_to gives the path of the value the
    location is in, also when the document is malformed at the location or behind it.

    Proved below for well-formed documents and locations in a number, a boolean or a
    string, the closing quote left out.  Refuted for closing quotes, for null, for a
    last value that is an empty array, and for documents that are cut off. *)

Section Cfg.
  Context (g : cfg).
  Hypothesis HG : covered g.

  (** The nodes are those of the outermost value and of the steps of the path; the last
      is of the value and starts where its text does. *)
  Theorem C116_path_partial : forall doc v w0 t w1 path w k loc fuel, N.of_nat (length doc) < 2^32 -> is_bytes doc ->
    doc = w0 ++ t ++ w1 -> ws w0 -> jtext str_body v t -> ws w1 -> (forall x, inside x v -> names_ok g x) ->
    spot doc v (length w0) path w k -> within w k loc -> (turns v < fuel)%nat ->
    exists nodes n, find_json_path_stack_to fuel g doc loc = Ok (nodes ++ [n]) /\
      map (fun n => mknode (f_name n) (f_index n)) (nodes ++ [n]) = mknode [] (-1) :: map node_of path /\
      f_start n = Some k /\ f_type n = kind_of w /\
      find_json_path_to fuel g doc loc = Ok (to_json_path_string (map node_of path)).
  Proof.
    intros doc v w0 t w1 path w k loc fuel H32 HB ED W0 HT W1 NM SP WI LF. destruct HG as [HX HE].
    assert (NN : v <> JNull). { intros ->. inversion SP; subst. contradiction. }
    pose proof (sub_at_mid [] doc []) as SS. rewrite (app_nil_r doc) in SS. cbn [app length] in SS. rewrite ED in SS at 2. rewrite !sub_at_app in SS. destruct SS as (S0 & S1 & S2). cbn [Nat.add] in S1, S2.
    assert (LD : length doc = (length w0 + length t + length w1)%nat) by (rewrite ED, !app_length; lia).
    set (p := mkps (length w0) (length doc) (Some 0%nat) (Some (length doc)) 0 false).
    destruct (jtext_head _ _ _ HT) as (c & r & ET & ST).
    assert (JV : jvalue doc (restate (new_ps 0 (length doc))) = Ok p).
    { change (restate (new_ps 0 (length doc))) with (new_ps 0 (length doc)). unfold jvalue. rewrite (trim_to doc (new_ps 0 (length doc)) w0 c); auto.
      - cbn [first new_ps]. rewrite sub_at_app. split; [exact S0|]. split; [|exact I]. rewrite ET in S1. apply S1.
      - apply ST.
      - cbn [first last new_ps]. lia. }
    assert (WF : wf doc p).
    { split; [exact HB|]. split; [reflexivity|]. cbn [first last p]. split; [lia|]. exists (length doc). split; [reflexivity|cbn [last p]; lia]. }
    assert (FJ : followed true doc (first p + length t) (length doc) (last p)).
    { exists w1. cbn [first last p]. split; [exact W1|]. split; [exact S2|]. split; [lia|]. split; [lia|]. left. auto. }
    assert (HV : value_at doc v p). { split; [exact WF|]. exists t, (length doc). split; [exact HT|]. split; [exact S1|]. split; [exact FJ|]. intros X. contradiction. }
    assert (LV : level (mkest [] [] 0 0)) by (repeat split; cbn; lia).
    destruct (finds g HX HE doc H32 loc v (length w0) path w k SP WI p None t (length doc) (mkest [] [] 0 0) [] (-1)%Z eq_refl WF HT S1 FJ ltac:(congruence) NM LV (conj eq_refl eq_refl))
      as (enough & HF).
    destruct (C42_calls_partial g HG doc H32 v p HV NM) as (all & _ & CS).
    destruct (HF (enough + fuel)%nat ltac:(lia)) as (s' & o & ER & OO & PP & BB & nodes & ln & EF & EM & EST & EKT).
    destruct (CS (find_handler g doc loc) (enough + fuel)%nat ltac:(lia)) as (s1 & o1 & E1 & F1).
    destruct (CS (find_handler g doc loc) fuel LF) as (s2 & o2 & E2 & F2).
    assert (E1' : json_event_parser (enough + fuel) g (find_handler g doc loc) doc p = (s', o)) by exact ER.
    rewrite E1' in E1. injection E1 as <- <-.
    assert (SAME : calls s2 = calls s' /\ o2 = o).
    { destruct (first_stop (find_handler g doc loc) [] all) as [[past d]|]; destruct F1 as [F1 F1'], F2 as [F2 F2']; (split; [|congruence]); [congruence|].
      rewrite <- (rev_involutive (calls s2)), <- (rev_involutive (calls s')). congruence. }
    destruct SAME as [EC EO]. cbn [calls find_after start_state f_bad f_stack] in BB, EF. rewrite app_nil_r in EF.
    assert (FS : find_json_path_stack_to fuel g doc loc = Ok (nodes ++ [ln])).
    { unfold find_json_path_stack_to. rewrite JV, E2, EC, EO, BB, EF, PP. cbn [rev]. rewrite rev_involutive, app_nil_r. destruct OO as [->|(e & ->)]; reflexivity. }
    exists nodes, ln. split; [exact FS|].
    assert (EM' : map (fun n => mknode (f_name n) (f_index n)) (nodes ++ [ln]) = mknode [] (-1) :: map node_of path).
    { rewrite EM. f_equal. }
    split; [exact EM'|]. split; [exact EST|]. split; [exact EKT|]. unfold find_json_path_to. rewrite FS. cbn [bind]. rewrite EM'. reflexivity.
  Qed.

  (** The path found, without its leading dot, leads back to the value. *)
  Theorem C116_back_partial : forall doc v w0 t w1 path w k loc fuel, N.of_nat (length doc) < 2^32 -> is_bytes doc ->
    doc = w0 ++ t ++ w1 -> ws w0 -> jtext str_body v t -> ws w1 -> (forall x, inside x v -> names_ok g x) ->
    spot doc v (length w0) path w k -> within w k loc -> (turns v < fuel)%nat ->
    leads (names_ok g) v path w -> Forall renderable path ->
    exists txt p r, find_json_path_to fuel g doc loc = Ok txt /\ jvalue doc (new_ps 0 (length doc)) = Ok p /\
      find_member g doc p (strip_dot txt) = Ok r /\ value_at doc w r.
  Proof.
    intros doc v w0 t w1 path w k loc fuel H32 HB ED W0 HT W1 NM SP WI LF LD RE.
    destruct (C116_path_partial doc v w0 t w1 path w k loc fuel H32 HB ED W0 HT W1 NM SP WI LF) as (_ & _ & _ & _ & _ & _ & E).
    assert (NN : v <> JNull). { intros ->. inversion SP; subst. contradiction. }
    destruct (C36_root_partial doc v w0 t w1 HB ED W0 HT W1 NN) as (p & EP & HV).
    destruct (C52_rendered_partial g doc v p path w HG H32 HV LD RE) as [(r & ER & VR) _].
    eexists _, p, r. split; [exact E|]. split; [exact EP|]. split; [exact ER|exact VR].
  Qed.
End Cfg.
Print Assumptions C116_path_partial.
Print Assumptions C116_back_partial.

(** Whatever the bytes of the document and wherever the location: the answer is a path,
    reached without a read outside of the document and without the value of an empty
    optional or the back of an empty vector. *)
Theorem C116_safe_partial : forall g doc loc, is_bytes doc -> exists enough, forall fuel, (enough <= fuel)%nat ->
  exists nodes, find_json_path_stack_to fuel g doc loc = Ok nodes.
Proof.
  intros g doc loc HB. exists (S (3 ^ length doc)). intros fuel HF. unfold find_json_path_stack_to.
  change (restate (new_ps 0 (length doc))) with (restate (new_ps 0 (length doc))).
  assert (RV : raw_value doc (length doc) (new_ps 0 (length doc))) by (repeat split; auto).
  pose proof (jvalue_raw doc (length doc) _ RV) as JV. destruct (jvalue doc (restate (new_ps 0 (length doc)))) as [v| | |] eqn:EV; cbn [outcome_ok] in JV; try contradiction; [|eexists; reflexivity].
  pose proof (jvalue_framed doc (length doc) _ v RV EV) as FV.
  pose proof (event_parser_safe g (find_handler g doc loc) doc (length doc) (never_skips g doc loc) v fuel (proj1 JV) HF) as ES.
  pose proof (find_fine g doc loc (length doc) fuel v FV) as FB.
  destruct (json_event_parser fuel g (find_handler g doc loc) doc v) as [s o]. cbn [fst snd] in *. rewrite FB.
  destruct o; cbn [outcome_ok] in ES; try contradiction; eexists; reflexivity.
Qed.
Print Assumptions C116_safe_partial.

Definition path_at (s : string) (loc : nat) : res (list N) := find_json_path_to 100 default_cfg (vdoc s) loc.

(** C116: the closing quote of a string is not taken as part of it: the path is that of
    the container. *)
Theorem C116_quote_refuted : nth_error (vdoc "{'a':['x',2]}") 8 = Some 34 /\
  path_at "{'a':['x',2]}" 7 = Ok (bytes ".a[0]") /\ path_at "{'a':['x',2]}" 8 = Ok (bytes ".a").
Proof. repeat split; vm_compute; reflexivity. Qed.
Print Assumptions C116_quote_refuted.

(** C116: no location is in a null, whose range is null; the last value being one, the
    path is that of what was closed last. *)
Theorem C116_null_refuted : exists v, jtext str_body v (vdoc "[null]") /\ spot (vdoc "[null]") v 0 [SIndex 0] JNull 1 /\
  path_at "[null]" 1 = Ok [] /\ path_at "[null]" 2 = Ok [] /\ path_at "{'a':[7,null,8]}" 9 = Ok (bytes ".a") /\ path_at "{'a':[7,true,8]}" 9 = Ok (bytes ".a[1]").
Proof.
  exists (JArr [JNull]). split; [|split; [|repeat split; vm_compute; reflexivity]].
  - change (vdoc "[null]") with (91 :: ([] ++ [110; 117; 108; 108] ++ []) ++ [93]). apply t_arr. apply e_one; try exact (Forall_nil _). constructor.
  - apply (sp_elem (vdoc "[null]") [] JNull [] 0 [] [] [110; 117; 108; 108]); try constructor; vm_compute; repeat split.
Qed.
Print Assumptions C116_null_refuted.

(** C116: a location in an empty array or object that is the last of its container: the
    path is that of the container; followed by another value it is right. *)
Theorem C116_empty_refuted : path_at "[[]]" 1 = Ok [] /\ path_at "[[],1]" 1 = Ok (bytes "[0]") /\ path_at "[1,{}]" 3 = Ok [] /\ path_at "[{},1]" 1 = Ok (bytes "[0]").
Proof. repeat split; vm_compute; reflexivity. Qed.
Print Assumptions C116_empty_refuted.

(** C116: the next member is looked for before the value is reported, so in a document
    that is cut off, or that has an error inside a value, the path ends outside of the
    outermost value that cannot be skipped. *)
Theorem C116_broken_refuted : path_at "{'a':[1,2]}" 8 = Ok (bytes ".a[1]") /\ path_at "{'a':[1,2" 8 = Ok [] /\
  path_at "[10,x]" 4 = Ok [] /\ path_at "[10,20]" 4 = Ok (bytes "[1]").
Proof. repeat split; vm_compute; reflexivity. Qed.
Print Assumptions C116_broken_refuted.

(** The hypotheses can be met: the second element of the second member. *)
Example C116_nonvacuous : exists v, vdoc "{'a':1, 'b':[2, 'xy']}" = [] ++ vdoc "{'a':1, 'b':[2, 'xy']}" ++ [] /\
  jtext str_body v (vdoc "{'a':1, 'b':[2, 'xy']}") /\ (forall x, inside x v -> names_ok default_cfg x) /\
  spot (vdoc "{'a':1, 'b':[2, 'xy']}") v 0 [SName [98]; SIndex 1] (JStr [120; 121]) 16 /\ within (JStr [120; 121]) 16 18 /\
  path_at "{'a':1, 'b':[2, 'xy']}" 18 = Ok (bytes ".b[1]").
Proof.
  set (arr := JArr [JNum [50]; JStr [120; 121]]). exists (JObj [([97], JNum [49]); ([98], arr)]).
  assert (SK : forall c, 97 <= c <= 122 -> str_body [c]) by (intros c HC; apply sb_plain; try lia; constructor).
  assert (TA : jtext str_body arr (91 :: ([] ++ [50] ++ [] ++ 44 :: ([32] ++ (34 :: [120; 121] ++ [34]) ++ [])) ++ [93])).
  { apply t_arr. apply e_cons; try exact (Forall_nil _); [constructor; apply digit_num; lia|].
    apply e_one; [|constructor; apply sb_plain; try lia; apply SK; lia|exact (Forall_nil _)]. apply Forall_cons; [unfold json_ws; lia|apply Forall_nil]. }
  split; [now rewrite app_nil_r|]. split; [|split; [|split; [|split; [vm_compute; lia|vm_compute; reflexivity]]]].
  - change (vdoc "{'a':1, 'b':[2, 'xy']}") with (123 :: ([] ++ (34 :: [97] ++ [34]) ++ [] ++ 58 :: [] ++ [49] ++ [] ++ 44 :: ([32] ++ (34 :: [98] ++ [34]) ++ [] ++ 58 :: [] ++ (91 :: ([] ++ [50] ++ [] ++ 44 :: ([32] ++ (34 :: [120; 121] ++ [34]) ++ [])) ++ [93]) ++ [])) ++ [125]).
    apply t_obj. apply m_cons; try exact (Forall_nil _); [apply SK; lia|constructor; apply digit_num; lia|].
    apply m_one; try exact (Forall_nil _); [apply Forall_cons; [unfold json_ws; lia|apply Forall_nil]|apply SK; lia|exact TA].
  - assert (NO : forall c, 97 <= c <= 122 -> name_ok default_cfg [c]).
    { intros c HC. unfold name_ok. repeat (split || constructor || discriminate || lia). all: try (intros [X|[]]; lia). }
    intros x HI. inversion HI as [|e es HIn HW|kk e js HIn HW]; subst.
    + apply Forall_cons; [apply NO; cbn; lia|]. apply Forall_cons; [apply NO; cbn; lia|apply Forall_nil].
    + destruct HIn as [E|[E|[]]]; injection E as <- <-; [inversion HW; exact I|].
      inversion HW as [|e2 es2 HIn2 HW2|]; subst; [exact I|]. destruct HIn2 as [<-|[<-|[]]]; inversion HW2; exact I.
  - apply (sp_member (vdoc "{'a':1, 'b':[2, 'xy']}") [([97], JNum [49])] [98] arr [] 0 [] ((34 :: [97] ++ 34 :: [] ++ 58 :: []) ++ [49] ++ [] ++ 44 :: [32] ++ []) [] []
      (91 :: ([] ++ [50] ++ [] ++ 44 :: ([32] ++ (34 :: [120; 121] ++ [34]) ++ [])) ++ [93])); try exact (Forall_nil _).
    + apply lm_one; try exact (Forall_nil _); [constructor; apply digit_num; lia|apply Forall_cons; [unfold json_ws; lia|apply Forall_nil]|constructor].
    + exact TA.
    + vm_compute. repeat split.
    + apply (sp_elem (vdoc "{'a':1, 'b':[2, 'xy']}") [JNum [50]] (JStr [120; 121]) [] _ [] ([50] ++ [] ++ 44 :: [32] ++ []) (34 :: [120; 121] ++ [34])); try exact (Forall_nil _).
      * apply le_one; try exact (Forall_nil _); [constructor; apply digit_num; lia|apply Forall_cons; [unfold json_ws; lia|apply Forall_nil]|constructor].
      * constructor. apply sb_plain; try lia. apply SK. lia.
      * vm_compute. repeat split.
      * apply (sp_here (vdoc "{'a':1, 'b':[2, 'xy']}") (JStr [120; 121]) 16).
Qed.
