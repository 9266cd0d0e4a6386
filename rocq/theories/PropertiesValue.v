(** C36 (iterating a json_value), C37 (lookup), C38 (histories of queries), C39
    (negative indices) and C62 (walking arbitrary bytes). *)
From Coq Require Import String.
From Coq Require Import List NArith ZArith Bool Lia Arith ZifyBool ZifyNat ZifyN.
From Verif Require Import Base Mem Loop PolicyModel IntModel StrScanModel SkipModel SpecNum SpecText SpecJson SpecUnicode
  SkipProofs SkipSafe HashModel ValueModel NameProofs ClassProofs SpecTyped ScalarProofs ArrayProofs TypedProofs PropertiesSkip PropertiesTyped
  SpecValue JValueModel JValueProofs RawValueProofs StateModel StateProofs StateProofs2 StateSpecProofs.
Import ListNotations.
Local Open Scope N_scope.

(** The kind of a value, as the library calls it *)
Definition kind_of (v : jv) : base_type :=
  match v with
  | JNull => BNull
  | JTrue | JFalse => BBool
  | JNum _ => BNumber
  | JStr _ => BString
  | JArr _ => BArray
  | JObj _ => BClass
  end.

Lemma Forall2_len : forall {A B} (R : A -> B -> Prop) a b, Forall2 R a b -> length a = length b.
Proof. induction 1; cbn [length]; auto. Qed.

Lemma nth_error_firstn_lt : forall {A} (l : list A) n k, (k < n)%nat -> nth_error (firstn n l) k = nth_error l k.
Proof.
  induction l as [|x l IH]; intros [|n] [|k] H; try lia; try reflexivity. cbn [firstn nth_error]. apply IH. lia.
Qed.

Lemma sub_at_app_l : forall buf a b i, sub_at buf i (a ++ b) -> sub_at buf i a.
Proof. intros buf a b. induction a as [|x a IH]; intros i H; [exact I|]. destruct H as [H1 H2]. split; auto. Qed.

Section Cfg.
  Context (g : cfg).
  Hypothesis HG : covered g.
  Context (buf : list N).
  Hypothesis H32 : N.of_nat (length buf) < 2^32.

  (** ** C36

      Proved for names the parser delimits ([names_ok]: by default names without
      quote and backslash, see [C36_name_refuted]). *)

  Theorem C36_iterate_partial : forall v p, value_at buf v p -> container v -> names_ok g v ->
    exists q seen, iterate g buf p = Ok (q, seen) /\
      Forall2 (fun m s => fst s = fst m /\ value_at buf (snd m) (snd s)) (members v) seen /\
      it_eq buf q null_state = Ok true.
  Proof.
    destruct HG as [HX HE]. intros v p HV HC HN. destruct (it_begin_ok g buf H32 v p HV HC HN) as (b & EB & IB & LB & CB).
    unfold iterate. rewrite EB. cbn [bind].
    pose proof (it_at_length g HX HE buf H32 _ _ IB). destruct (it_at_wf _ _ _ _ IB) as (_ & _ & L & _).
    destruct (iter_loop g HX HE buf H32 (members v) b [] (S (length buf)) IB ltac:(lia)) as (q & seen & E & F & S).
    exists q, seen. auto.
  Qed.

  (** The value found is of its kind, *)
  Theorem C36_type_partial : forall v p, value_at buf v p -> jtype buf p = Ok (kind_of v).
  Proof.
    intros v p (HW & t & j & HT & HS & FJ & _). pose proof (followed_le _ _ _ _ _ FJ) as FL.
    destruct (jtext_first v t HT) as (c & r & ET & HC).
    assert (B0 : nth_error buf (first p) = Some c) by (subst t; apply HS).
    assert (LT : (first p < last p)%nat) by (subst t; cbn [length] in FL; lia).
    unfold jtype, has_more, front. rewrite (proj2 (Nat.ltb_lt _ _) LT). cbn [negb]. rewrite (rd_some _ _ _ B0). cbn [bind].
    destruct HT as [| | |n HJ|b HB|w HWs|es t HE|w HWs|ms t HM]; try (injection ET as <- <-; reflexivity).
    1,2,3: injection ET as <- <-; cbn [N.eqb Pos.eqb c_quote c_lbrace c_lbrack c_minus c_t c_f c_n orb andb N.leb Pos.compare Pos.compare_cont N.compare];
      match goal with |- context [starts_with _ _ ?s] => let t := eval vm_compute in s in change s with t end;
      rewrite starts_with_yes by (assumption || (cbn [length] in *; lia)); reflexivity.
    assert (D : c = 45 \/ 48 <= c <= 57).
    { destruct HJ as [sg i f e Hsg (Di & Ni & _) Hf He]. destruct Hsg as [->| ->]; cbn [app] in ET.
      - destruct i as [|d i]; [congruence|]. cbn [app] in ET. injection ET as <- _. inversion Di; subst. unfold is_dig in *. lia.
      - injection ET as <- _. lia. }
    unfold c_quote, c_lbrace, c_lbrack, c_minus.
    rewrite (proj2 (N.eqb_neq c 34)) by lia. rewrite (proj2 (N.eqb_neq c 123)) by lia. rewrite (proj2 (N.eqb_neq c 91)) by lia.
    match goal with |- (if ?b then _ else _) = _ => replace b with true by lia end. reflexivity.
  Qed.

  (** its text is handed out, *)
  Definition shown (v : jv) (t : list N) : Prop :=
    match v with JNull => False | JStr b => t = b | _ => jtext str_body v t end.

  Theorem C36_text_partial : forall v p, value_at buf v p -> v <> JNull ->
    exists t, get_string_view g buf p = Ok t /\ shown v t.
  Proof.
    destruct HG as [HX HE]. intros v p (HW & t & j & HT & HS & FJ & NV) NN. unfold get_string_view, skip_val.
    pose proof HW as (_ & _ & LL & _). pose proof (followed_le _ _ _ _ _ FJ) as FL.
    destruct (C17_skip_value_partial CNone true (c_ex g) false buf p v t j) as (r & ER & DR); auto.
    { rewrite HX. discriminate. }
    { lia. }
    rewrite HE, ER. cbn [bind]. eexists. split; [reflexivity|].
    assert (VW : forall i t, sub_at buf i t -> view buf i (i + length t) = t).
    { intros i u SU. now apply view_at. }
    destruct DR as [DR _]. destruct v as [| | |n|b|es|ms]; try congruence; cbn [shown].
    1,2,3,5,6: destruct DR as [-> ->]; rewrite VW; auto.
    destruct DR as [D1 D2]. inversion HT; subst. rewrite D1. destruct HS as [_ HS].
    cbn [length] in D2. rewrite app_length in D2. cbn [length] in D2.
    replace (last r) with (S (first p) + length b)%nat by lia. apply VW. eapply sub_at_app_l; eauto.
  Qed.

  (** and it parses as every type that maps it. *)
  Theorem C36_as_partial : forall t v x p, value_at buf v p -> typed (usable g) t v x -> jv_as g t buf p = Ok x.
  Proof.
    destruct HG as [HX HE]. intros t v x p (HW & tx & j & HT & HS & FJ & NV) TY. unfold jv_as.
    assert (NC : forall names k, usable g names k -> name_ok g k /\ tells g names k) by auto.
    destruct (proj1 (typed_reads g HX HE (usable g) NC t v x TY) buf (mkps (first p) (last p) (cfirst p) (clast p) 0 (isnull p)) tx j)
      as (q & E & _); auto.
    rewrite E. reflexivity.
  Qed.

  (** ** C37 *)

  Theorem C37_by_name_partial : forall js p name, value_at buf (JObj js) p -> names_ok g (JObj js) ->
    (~ In c_bslash name) ->
    exists r, jv_find_class_member g buf p name = Ok r /\
      ((exists i w, first_named name js i /\ nth_error js i = Some (name, w) /\ value_at buf w r) \/
       (~ In name (map fst js) /\ r = null_state)).
  Proof.
    destruct HG as [HX HE]. intros js p name HV HN HB. unfold jv_find_class_member.
    rewrite (C36_type_partial _ _ HV). cbn [bind kind_of base_type_eqb negb].
    destruct (it_begin_ok g buf H32 (JObj js) p HV I HN) as (b & EB & IB & LB & CB). rewrite EB. cbn [bind].
    pose proof (it_at_length g HX HE buf H32 _ _ IB) as LN. destruct (it_at_wf _ _ _ _ IB) as (_ & _ & L & _).
    assert (NB : existsb (fun c => c =? c_bslash) name = false).
    { destruct (existsb _ name) eqn:E; auto. apply existsb_exists in E as (c & IC & E). apply N.eqb_eq in E. subst c. contradiction. }
    destruct (find_if_ok g HX HE buf H32 (name_pred name) (fun n => match n with None => false | Some k => eqb_bytes k name end)
      ltac:(intros n; unfold name_pred; rewrite NB; now destruct n) (members (JObj js)) b (S (length buf)) IB ltac:(lia))
      as (q & rest & E & IQ & before & EA & FB & M).
    rewrite E. cbn [bind]. rewrite (it_stop g buf H32 _ _ IQ). cbn [members] in EA.
    apply map_eq_app in EA as (j1 & j2 & -> & <- & EJ).
    assert (FB' : ~ In name (map fst j1)).
    { intros IN. apply in_map_iff in IN as ([k w] & EK & IN). cbn [fst] in EK. subst k. rewrite Forall_forall in FB.
      specialize (FB (named (name, w)) (in_map _ _ _ IN)). cbn in FB. rewrite eqb_bytes_refl in FB. discriminate. }
    destruct rest as [|[n w] rest]; cbn [bind].
    - exists null_state. split; [reflexivity|]. right. split; [|reflexivity].
      destruct j2; [|discriminate]. now rewrite app_nil_r.
    - destruct j2 as [|[k w'] j2]; [discriminate|]. cbn [map] in EJ. injection EJ as <- <- <-.
      destruct (it_deref_ok g HX HE buf H32 _ _ _ _ IQ) as (r & ED & VR). rewrite ED. cbn [bind].
      exists r. split; [reflexivity|]. left. cbn [fst] in M. apply eqb_bytes_spec in M. subst k. exists (length j1), w'. split; [|split].
      + exists j1, w', j2. auto.
      + rewrite nth_error_app2 by lia. now rewrite Nat.sub_diag.
      + exact VR.
  Qed.

  Theorem C37_by_index_partial : forall v p index, value_at buf v p -> container v -> names_ok g v ->
    match nth_error (members v) index with
    | Some m => exists r, find_element g buf p index = Ok r /\ value_at buf (snd m) r
    | None => (length (members v) < index)%nat -> find_element g buf p index = Ok null_state
    end.
  Proof.
    destruct HG as [HX HE]. intros v p index HV HC HN. unfold find_element.
    destruct (it_begin_ok g buf H32 v p HV HC HN) as (b & EB & IB & LB & CB). rewrite EB. cbn [bind].
    pose proof (element_ok g HX HE buf H32 (members v) index b IB) as EO.
    destruct (nth_error (members v) index) as [[n w]|] eqn:EN.
    - assert (LI : (index < length (members v))%nat) by (apply nth_error_Some; congruence).
      destruct (Nat.leb_spec index (length (members v))); [|lia]. destruct EO as (q & -> & IQ & _). cbn [bind].
      apply nth_error_split in EN as (l1 & l2 & EM & <-). rewrite EM in IQ. rewrite skipn_app, skipn_all, Nat.sub_diag in IQ. cbn [app skipn] in IQ.
      destruct (it_deref_ok g HX HE buf H32 _ _ _ _ IQ) as (r & -> & VR). cbn [bind]. exists r. auto.
    - intros LI. destruct (Nat.leb_spec index (length (members v))); [lia|]. destruct EO as (q & -> & IQ). cbn [bind].
      destruct (index - length (members v))%nat eqn:EI; [lia|reflexivity].
  Qed.

  (** One past the end: what an array hands out is not a value, so a test of it
      gives false (for objects see [C37_index_refuted]). *)
  Theorem C37_past_end_partial : forall es p, value_at buf (JArr es) p ->
    exists r, find_element g buf p (length es) = Ok r /\ jtype buf r = Ok BNone.
  Proof.
    destruct HG as [HX HE]. intros es p HV. unfold find_element.
    destruct (it_begin_ok g buf H32 (JArr es) p HV I I) as (b & EB & IB & LB & CB). rewrite EB. cbn [bind].
    pose proof (element_ok g HX HE buf H32 (members (JArr es)) (length es) b IB) as EO. cbn [members] in EO. rewrite map_length, Nat.leb_refl in EO.
    destruct EO as (q & -> & IQ & CQ). cbn [bind]. replace (length es) with (length (map unnamed es)) in IQ by apply map_length. rewrite skipn_all in IQ.
    assert (A0 : nth_error buf (first p) = Some 91).
    { destruct HV as (_ & t & j & HT & HS & _). destruct (array_start buf (first p) es t HT HS) as (w & c & S0 & _). exact S0. }
    remember [] as e eqn:EE. destruct IQ as [e0 c ms HW L CF C0 HA FN|e0 c es0 HW L CF C0 HA]; [congruence|].
    destruct es0; [|discriminate]. destruct (at_elem_byte _ _ _ _ HA) as (x & Hx & EX). cbn in EX. subst x.
    unfold it_deref, class_is. rewrite CF, (rd_some _ _ _ C0). cbn [bind]. change (91 =? c_lbrack) with true. cbn iota.
    rewrite restate_ok by apply HW. unfold jvalue.
    rewrite (trim_here buf _ 93); [|apply HW|exact Hx|reflexivity]. cbn [bind]. eexists. split; [reflexivity|].
    unfold jtype, has_more, front. cbn [first last restated]. destruct (Nat.ltb_spec (first q) (last q)); [|reflexivity].
    cbn [negb]. rewrite (rd_some _ _ _ Hx). reflexivity.
  Qed.

  (** ** C38: the answers of a fresh state *)

  Lemma size_fresh : forall v p, value_at buf v p -> container v -> names_ok g v ->
    exists ls, state_size g buf p [] = (ls, Ok (length (members v))) /\ Forall2 (stands_for g buf) (members v) ls.
  Proof.
    destruct HG as [HX HE]. intros v p HV HC HN. unfold state_size. rewrite (C36_type_partial _ _ HV).
    destruct (it_begin_ok g buf H32 v p HV HC HN) as (b & EB & IB & LB & CB).
    pose proof (it_at_length g HX HE buf H32 _ _ IB) as LN. destruct (it_at_wf _ _ _ _ IB) as (_ & _ & L & _).
    assert (M : exists ls, move_to_index g buf p [] (2^64 - 1) = (ls, Ok (length (members v))) /\ Forall2 (stands_for g buf) (members v) ls).
    { unfold move_to_index. cbn [length]. change (2^64 - 1 <? N.of_nat 0) with false. cbn iota. unfold resume_at. cbn [rev]. rewrite EB.
      change (2^32) with 4294967296 in H32.
      destruct (scan_index_ok g HX HE buf H32 (2^64 - 1) (members v) b [] (S (S (length buf)) - 0)) as (found & E & F); auto; [lia|discriminate|].
      exists found. split; [rewrite E; cbn [app length]; do 2 f_equal; change (2^64 - 1) with 18446744073709551615; lia|].
      rewrite firstn_all2 in F; [exact F|]. cbn [length]. change (2^64 - 1) with 18446744073709551615. clear - H32 L LN. apply Nat.le_trans with (N.to_nat 4294967296); lia. }
    destruct v as [| | | | |es|js]; try contradiction; exact M.
  Qed.

  Theorem C38_size_partial : forall v p, value_at buf v p -> container v -> names_ok g v ->
    snd (ask g buf p [] QSize) = Ok (AIndex (length (members v))).
  Proof. intros v p HV HC HN. cbn [ask]. destruct (size_fresh v p HV HC HN) as (ls & -> & _). reflexivity. Qed.

  Theorem C38_by_index_partial : forall v p k, value_at buf v p -> container v -> names_ok g v ->
    match nth_error (members v) k with
    | Some m => exists r, snd (ask g buf p [] (QNth (Z.of_nat k))) = Ok (AValue r) /\ value_at buf (snd m) r
    | None => snd (ask g buf p [] (QNth (Z.of_nat k))) = Err UnknownMember
    end.
  Proof.
    destruct HG as [HX HE]. intros v p k HV HC HN. cbn [ask].
    destruct (Z.ltb_spec (Z.of_nat k) 0); [lia|]. replace (Z.to_N (Z.of_nat k)) with (N.of_nat k) by lia.
    destruct (it_begin_ok g buf H32 v p HV HC HN) as (b & EB & IB & LB & CB).
    pose proof (it_at_length g HX HE buf H32 _ _ IB) as LN. destruct (it_at_wf _ _ _ _ IB) as (_ & _ & L & _).
    unfold move_to_index. cbn [length]. destruct (N.ltb_spec (N.of_nat k) (N.of_nat 0)); [lia|]. unfold resume_at. cbn [rev]. rewrite EB.
    destruct (scan_index_ok g HX HE buf H32 (N.of_nat k) (members v) b [] (S (S (length buf)) - 0)) as (found & E & F); auto; [lia|].
    rewrite E. cbn [length app snd bind Nat.add]. cbn [length] in F. rewrite Nat2N.id, Nat.sub_0_r in *.
    assert (LF : length found = Nat.min (S k) (length (members v))) by (rewrite <- (Forall2_len _ _ _ F), firstn_length; reflexivity).
    destruct (nth_error (members v) k) as [[n w]|] eqn:EN.
    - assert (LK : (k < length (members v))%nat) by (apply nth_error_Some; congruence).
      rewrite Nat.min_l by lia. rewrite (proj2 (Nat.ltb_lt k (length found))) by lia. cbn [ensure bind].
      destruct (stands_value g buf _ _ k n w F) as (r & ER & VR).
      { rewrite nth_error_firstn_lt by lia. exact EN. }
      unfold lift. rewrite ER. cbn [bind]. exists r. auto.
    - apply nth_error_None in EN. rewrite Nat.min_r by lia. rewrite (proj2 (Nat.ltb_ge _ _)) by lia. reflexivity.
  Qed.

  Theorem C38_by_name_partial : forall js p name, value_at buf (JObj js) p -> names_ok g (JObj js) ->
    (exists i w r, first_named name js i /\ nth_error js i = Some (name, w) /\ value_at buf w r /\
       snd (ask g buf p [] (QGet name)) = Ok (AValue r) /\ snd (ask g buf p [] (QAt name)) = Ok (AValue r) /\
       snd (ask g buf p [] (QIndexOf name)) = Ok (AIndex i) /\ snd (ask g buf p [] (QContains name)) = Ok (ABool true)) \/
    (~ In name (map fst js) /\
       snd (ask g buf p [] (QGet name)) = Err UnknownMember /\ snd (ask g buf p [] (QAt name)) = Ok (AValue null_state) /\
       snd (ask g buf p [] (QIndexOf name)) = Ok (AIndex (length js)) /\ snd (ask g buf p [] (QContains name)) = Ok (ABool false)).
  Proof.
    destruct HG as [HX HE]. intros js p name HV HN. cbn [ask]. unfold move_to_name.
    change (match_index name []) with (@None nat). unfold resume_at. cbn [rev length].
    destruct (it_begin_ok g buf H32 (JObj js) p HV I HN) as (b & EB & IB & LB & CB). rewrite EB.
    pose proof (it_at_length g HX HE buf H32 _ _ IB) as LN. destruct (it_at_wf _ _ _ _ IB) as (_ & _ & L & _). cbn [members] in *. rewrite map_length in LN.
    destruct (scan_name_ok g HX HE buf H32 name js b [] (S (S (length buf)) - 0)) as (found & i & E & C); auto; [lia|].
    rewrite E. cbn [app length snd bind Nat.add].
    destruct C as [[FN F]|(NI & -> & F)].
    - left. pose proof FN as (a & w & c & -> & <- & NI).
      assert (LF : length found = S (length a)).
      { rewrite <- (Forall2_len _ _ _ F), map_length, firstn_length, app_length. cbn [length]. lia. }
      rewrite (proj2 (Nat.ltb_lt _ _)) by lia. cbn [ensure bind].
      destruct (stands_value g buf _ _ (length a) (Some name) w F) as (r & ER & VR).
      { change (S (length a)) with (1 + length a)%nat. rewrite Nat.add_comm, firstn_app_2, map_app, nth_error_app2 by (rewrite map_length; lia).
        rewrite map_length, Nat.sub_diag. reflexivity. }
      exists (length a), w, r. unfold lift. rewrite ER. cbn [bind]. split; [exact FN|]. split; [|auto].
      rewrite nth_error_app2, Nat.sub_diag by lia. reflexivity.
    - right. assert (LF : length found = length js) by (rewrite <- (Forall2_len _ _ _ F), map_length; reflexivity).
      rewrite LF, Nat.ltb_irrefl. cbn [ensure bind]. auto.
  Qed.

  (** ** C39: 1 <= k < n; for k = n see [first_refused] *)

  Theorem C39_negative_partial : forall v p k m, value_at buf v p -> container v -> names_ok g v ->
    (1 <= k < length (members v))%nat -> nth_error (members v) (length (members v) - k) = Some m ->
    exists r, snd (ask g buf p [] (QNth (- Z.of_nat k))) = Ok (AValue r) /\ value_at buf (snd m) r.
  Proof.
    intros v p k [n w] HV HC HN HK HM. cbn [ask]. destruct (Z.ltb_spec (- Z.of_nat k) 0); [|lia].
    destruct (size_fresh v p HV HC HN) as (ls & E & F).
    assert (LS : (length (members v) < Z.to_nat (2^32))%nat).
    { destruct HG as [HX HE]. destruct (it_begin_ok g buf H32 v p HV HC HN) as (b & EB & IB & LB & CB).
      pose proof (it_at_length g HX HE buf H32 _ _ IB) as LN. destruct (it_at_wf _ _ _ _ IB) as (_ & _ & L & _).
      change (2^32) with 4294967296 in H32. change (2^32)%Z with 4294967296%Z. lia. }
    change (2^32)%Z with 4294967296%Z in LS.
    destruct (Z.eqb_spec (- Z.of_nat k) (- 2^63)) as [EQ|NE]; [change (2^63)%Z with 9223372036854775808%Z in EQ; lia|].
    rewrite E. cbn [snd bind]. cbv zeta. replace (Z.to_nat (- - Z.of_nat k)) with k by lia.
    rewrite (proj2 (Nat.ltb_lt k _)) by lia. cbn [ensure bind].
    destruct (stands_value g buf _ _ _ n w F HM) as (r & ER & VR). unfold lift. rewrite ER. cbn [bind]. eauto.
  Qed.

  (** Every array: the index of the first element counted from the end is
      refused. *)
  Lemma first_refused : forall v p, value_at buf v p -> container v -> names_ok g v -> members v <> [] ->
    snd (ask g buf p [] (QNth (- Z.of_nat (length (members v))))) = Err UnknownMember.
  Proof.
    intros v p HV HC HN NE. cbn [ask]. assert (LM : (0 < length (members v))%nat) by (destruct (members v); [congruence|cbn; lia]).
    destruct (Z.ltb_spec (- Z.of_nat (length (members v))) 0); [|lia].
    destruct (size_fresh v p HV HC HN) as (ls & E & F).
    assert (LS : (length (members v) < Z.to_nat (2^32))%nat).
    { destruct HG as [HX HE]. destruct (it_begin_ok g buf H32 v p HV HC HN) as (b & EB & IB & LB & CB).
      pose proof (it_at_length g HX HE buf H32 _ _ IB) as LN. destruct (it_at_wf _ _ _ _ IB) as (_ & _ & L & _).
      change (2^32) with 4294967296 in H32. change (2^32)%Z with 4294967296%Z. lia. }
    change (2^32)%Z with 4294967296%Z in LS.
    destruct (Z.eqb_spec (- Z.of_nat (length (members v))) (- 2^63)) as [EQ|NE2]; [change (2^63)%Z with 9223372036854775808%Z in EQ; lia|].
    rewrite E. cbn [snd bind]. cbv zeta. replace (Z.to_nat (- - Z.of_nat (length (members v)))) with (length (members v)) by lia.
    rewrite Nat.ltb_irrefl. reflexivity.
  Qed.
End Cfg.

Print Assumptions C36_iterate_partial.
Print Assumptions C36_type_partial.
Print Assumptions C36_text_partial.
Print Assumptions C36_as_partial.
Print Assumptions C37_by_name_partial.
Print Assumptions C37_by_index_partial.
Print Assumptions C37_past_end_partial.
Print Assumptions C38_size_partial.
Print Assumptions C38_by_index_partial.
Print Assumptions C38_by_name_partial.
Print Assumptions C39_negative_partial.

(** A whole document: the value constructed from it stands at its value. *)
Theorem C36_root_partial : forall doc v w0 t w, is_bytes doc -> doc = w0 ++ t ++ w -> ws w0 -> jtext str_body v t -> ws w -> v <> JNull ->
  exists p, jvalue doc (new_ps 0 (length doc)) = Ok p /\ value_at doc v p.
Proof.
  intros doc v w0 t w HB -> W0 HT W NN. unfold jvalue. destruct (jtext_head _ _ _ HT) as (c & r & ET & ST).
  pose proof (sub_at_mid [] (w0 ++ t ++ w) []) as SS. rewrite (app_nil_r (w0 ++ t ++ w)) in SS. cbn [app length] in SS. rewrite !sub_at_app in SS. destruct SS as (S0 & S1 & S2). cbn [Nat.add] in S1, S2.
  assert (HC : 32 < c) by (unfold starter in ST; lia).
  rewrite (trim_to _ (new_ps 0 (length (w0 ++ t ++ w))) w0 c); auto.
  2:{ cbn [first new_ps]. rewrite sub_at_app. split; [exact S0|]. split; [|exact I]. subst t. apply S1. }
  2:{ cbn [first last new_ps]. rewrite !app_length, ET. cbn [length]. lia. }
  eexists. split; [reflexivity|]. split.
  - split; [exact HB|]. cbn [new_ps set_first first last isnull clast Nat.add]. split; [reflexivity|]. rewrite !app_length. split; [lia|].
    eexists; split; [reflexivity|lia].
  - exists t, (length (w0 ++ t ++ w)). cbn [first last set_first new_ps Nat.add]. split; [exact HT|]. split; [exact S1|]. split; [|congruence].
    exists w. split; [exact W|]. split; [exact S2|]. rewrite !app_length. repeat split; try lia.
Qed.
Print Assumptions C36_root_partial.

(** ** C38: histories *)

(** Over a class, whatever its bytes: every answer is the fresh one. *)
Theorem C38_class_partial : forall g buf v h q, raw_value buf (last v) v -> N.of_nat (length buf) < 2^32 ->
  (first v < last v)%nat -> nth_error buf (first v) = Some 123 ->
  Forall (fun q => q <> QNth (- 2^63)) h ->
  snd (ask g buf v (after g buf v h) q) = snd (ask g buf v [] q).
Proof. intros g buf v h q HV H32 HM HC HH. apply ask_class; auto. now apply after_trace. Qed.
Print Assumptions C38_class_partial.

(** Over arrays too, for queries by position. *)
Theorem C38_position_partial : forall g buf v h q, raw_value buf (last v) v -> N.of_nat (length buf) < 2^32 ->
  (first v < last v)%nat ->
  Forall (fun q => q <> QNth (- 2^63)) h -> by_position q = true ->
  snd (ask g buf v (after g buf v h) q) = snd (ask g buf v [] q).
Proof. intros g buf v h q HV H32 HM HH HQ. apply ask_position; auto. now apply after_trace. Qed.
Print Assumptions C38_position_partial.

(** ** C62 *)

(** The values a walk can reach from the document *)
Inductive reached (g : cfg) (buf : list N) : ps -> Prop :=
| at_root : forall v, jvalue buf (new_ps 0 (length buf)) = Ok v -> reached g buf v
| at_member_of : forall v q seen n w, reached g buf v -> (first v < last v)%nat -> iterate g buf v = Ok (q, seen) -> In (n, w) seen -> reached g buf w.

Lemma reached_raw : forall g buf v, is_bytes buf -> reached g buf v -> raw_value buf (length buf) v.
Proof.
  intros g buf v HB. induction 1 as [v E|v q seen n w _ IH L E IN].
  - unfold jvalue in E. destruct (trim_safe buf (new_ps 0 (length buf))) as (j & E2 & _); [cbn; lia|]. rewrite E2 in E. injection E as <-.
    repeat split; auto.
  - pose proof IH as (_ & EL & _). rewrite <- EL in IH at 1. pose proof (iterate_raw g buf v IH L) as IR. rewrite E in IR. cbn [outcome_ok snd] in IR.
    rewrite Forall_forall in IR. destruct (IR _ IN) as [R _]. cbn [snd] in R. now rewrite EL in R.
Qed.

(** A result or an exception: neither a read outside the document nor an endless
    loop *)
Definition safe {A : Type} (r : res A) : Prop := r <> UB /\ r <> Fuel.

Lemma safe_of : forall {A} (Q : A -> Prop) r, outcome_ok Q r -> safe r.
Proof. intros A Q [] H; split; try discriminate; contradiction. Qed.

Section Safe.
  Context (g : cfg) (buf : list N) (v : ps).
  Hypothesis HB : is_bytes buf.
  Hypothesis HR : reached g buf v.

  Lemma here_raw : raw_value buf (last v) v.
  Proof. pose proof (reached_raw g buf v HB HR) as R. pose proof R as (_ & E & _). now rewrite E. Qed.

  Theorem C62_iterate_partial : (first v < last v)%nat -> safe (iterate g buf v).
  Proof. intros L. eapply safe_of. apply iterate_raw; [apply here_raw|exact L]. Qed.

  Theorem C62_type_partial : safe (jtype buf v).
  Proof. eapply safe_of. apply jtype_safe. apply here_raw. Qed.

  Theorem C62_by_name_partial : forall name, safe (jv_find_class_member g buf v name).
  Proof.
    intros name. pose proof here_raw as RV. unfold jv_find_class_member. pose proof (jtype_safe buf v RV) as JT.
    destruct (jtype buf v) as [t| | |] eqn:ET; cbn [bind outcome_ok] in *; try contradiction; [|split; discriminate].
    destruct t; cbn [base_type_eqb negb]; try (split; discriminate).
    assert (CL : (first v < last v)%nat /\ nth_error buf (first v) = Some 123).
    { unfold jtype, has_more in ET. destruct (Nat.ltb_spec (first v) (last v)); cbn [negb] in ET; [|discriminate]. split; auto.
      unfold front in ET. destruct RV as (_ & _ & L & _). destruct (rd_in buf (first v)) as (c & Hc); [lia|]. rewrite (rd_some _ _ _ Hc) in ET. cbn [bind] in ET.
      unfold c_quote, c_lbrace, c_lbrack in ET.
      destruct (N.eqb_spec c 34); [discriminate|]. destruct (N.eqb_spec c 123); [congruence|]. destruct (c =? 91); [discriminate|].
      destruct ((c =? c_minus) || ((48 <=? c) && (c <=? 57))); [discriminate|].
      destruct (c =? c_t); [destruct (starts_with buf v _) as [[]| | |]; discriminate|].
      destruct (c =? c_f); [destruct (starts_with buf v _) as [[]| | |]; discriminate|].
      destruct (c =? c_n); [destruct (starts_with buf v _) as [[]| | |]; discriminate|discriminate]. }
    destruct CL as [L C].
    eapply safe_of with (Q := fun _ => True). eapply outcome_ok_bind; [apply it_begin_raw; exact RV|]. intros b RB.
    eapply outcome_ok_bind; [apply (find_if_raw g buf v); auto; [congruence|]|].
    { intros n. unfold name_pred. destruct (existsb _ name); cbn; auto. }
    intros p RP. eapply outcome_ok_bind; [apply (it_eq_raw _ _ _ _ RP)|]. intros [] _; [cbn; auto|].
    eapply outcome_ok_bind; [apply (it_deref_raw g buf (first v) (last v)); auto|]. intros [n w] _. cbn. auto.
  Qed.

  Theorem C62_by_index_partial : forall index, (first v < last v)%nat -> safe (find_element g buf v index).
  Proof.
    intros index L. eapply safe_of with (Q := fun _ => True). unfold find_element.
    eapply outcome_ok_bind; [apply it_begin_raw; apply here_raw|]. intros b RB.
    eapply outcome_ok_bind; [apply (element_raw g buf _ _ L); exact RB|]. intros [i p] RP. cbn [snd] in RP.
    destruct i; [|cbn; auto]. eapply outcome_ok_bind; [apply (it_deref_raw g buf (first v) (last v)); auto|]. intros [n w] _. cbn. auto.
  Qed.

  Theorem C62_history_partial : forall h q, (first v < last v)%nat -> Forall (fun q => q <> QNth (- 2^63)) (q :: h) ->
    safe (snd (ask g buf v (after g buf v h) q)).
  Proof.
    intros h q L HH. inversion HH; subst. eapply safe_of. apply ask_safe; auto; [apply here_raw|]. apply after_trace; auto. apply here_raw.
  Qed.
End Safe.
Print Assumptions C62_iterate_partial.
Print Assumptions C62_type_partial.
Print Assumptions C62_by_name_partial.
Print Assumptions C62_by_index_partial.
Print Assumptions C62_history_partial.

(** ** Findings *)

Lemma digit_num : forall d, 48 <= d <= 57 -> jnum [d].
Proof.
  intros d H. apply (jn [] [d] [] []); auto; [|constructor|constructor].
  split; [repeat constructor; unfold is_dig; lia|]. split; [discriminate|]. intros r E. now injection E as _ <-.
Qed.

Definition vdoc (s : string) : list N := map (fun c => if c =? 39 then 34 else c) (bytes s).
Definition root (s : string) : ps := new_ps 0 (length (vdoc s)).

(** C36: an object whose one name has an escaped quote cannot be iterated at the
    default setting of the policy. *)
Theorem C36_name_refuted : exists js, jtext rfc_body (JObj js) (vdoc "{'x\'y':0}") /\
  iterate default_cfg (vdoc "{'x\'y':0}") (root "{'x\'y':0}") = Err InvalidString.
Proof.
  exists [([120; 92; 34; 121], JNum [48])]. split; [|vm_compute; reflexivity].
  change (vdoc "{'x\'y':0}") with (123 :: ([] ++ (34 :: [120; 92; 34; 121] ++ [34]) ++ [] ++ 58 :: [] ++ [48] ++ []) ++ [125]).
  apply t_obj. apply m_one; try (constructor; fail).
  - apply rb_plain; [lia|lia|lia|]. apply rb_esc; [cbn; tauto|]. apply rb_plain; [lia|lia|lia|]. constructor.
  - constructor. apply digit_num. lia.
Qed.
Print Assumptions C36_name_refuted.

(** C37: one past the end of an object, [operator*] reads a name at the closing
    brace and throws.  The empty object has no index that is answered. *)
Theorem C37_index_refuted :
  find_element default_cfg (vdoc "{'a':1}") (root "{'a':1}") 1 = Err InvalidMemberName /\
  find_element default_cfg (vdoc "{}") (root "{}") 0 = Err InvalidMemberName.
Proof. split; vm_compute; reflexivity. Qed.
Print Assumptions C37_index_refuted.

(** C37: with escaped names allowed, a name that has a backslash is visited by
    the iteration but not found: the lookup drops every backslash of its
    argument. *)
Theorem C37_escape_refuted : exists g doc q seen k w, covered g /\
  iterate g doc (new_ps 0 (length doc)) = Ok (q, seen) /\ In (Some k, w) seen /\
  jv_find_class_member g doc (new_ps 0 (length doc)) k = Ok null_state.
Proof.
  exists (mkcfg ExConstexpr false false true), (vdoc "{'a\nb':1}").
  do 2 eexists. exists (bytes "a\nb"). eexists. split; [now split|]. split; [vm_compute; reflexivity|]. split; [left; reflexivity|vm_compute; reflexivity].
Qed.
Print Assumptions C37_escape_refuted.

(** C38: over an array, a lookup by name throws on a fresh state, but after the
    size was asked for it answers: there is no such member, and the empty name
    is the first element. *)
Theorem C38_array_refuted :
  let doc := vdoc "[7,8]" in let v := root "[7,8]" in let ls := after default_cfg doc v [QSize] in
  snd (ask default_cfg doc v [] (QContains (bytes "x"))) = Err MissingMemberName /\
  snd (ask default_cfg doc v ls (QContains (bytes "x"))) = Ok (ABool false) /\
  snd (ask default_cfg doc v [] (QGet [])) = Err MissingMemberName /\
  exists r, snd (ask default_cfg doc v ls (QGet [])) = Ok (AValue r) /\ first r = 1%nat.
Proof. cbn zeta. split; [vm_compute; reflexivity|]. split; [vm_compute; reflexivity|]. split; [vm_compute; reflexivity|].
  eexists. split; [vm_compute; reflexivity|reflexivity]. Qed.
Print Assumptions C38_array_refuted.

(** C38: contains, when the compiler evaluates the right side of its comparison
    first: a member that is there is denied once, then found. *)
Theorem C38_contains_refuted :
  let doc := vdoc "{'a':1}" in let v := root "{'a':1}" in
  snd (contains_right_first default_cfg doc v [] (bytes "a")) = Ok (ABool false) /\
  snd (contains_right_first default_cfg doc v (fst (contains_right_first default_cfg doc v [] (bytes "a"))) (bytes "a")) = Ok (ABool true).
Proof. cbn zeta. split; vm_compute; reflexivity. Qed.
Print Assumptions C38_contains_refuted.

(** C38: the least index negates to itself. *)
Theorem C38_least_index_refuted : snd (ask default_cfg (vdoc "[7,8]") (root "[7,8]") [] (QNth (- 2^63))) = UB.
Proof. vm_compute. reflexivity. Qed.
Print Assumptions C38_least_index_refuted.

(** C39: the first element counted from the end is refused (for every container,
    see [first_refused]). *)
Theorem C39_first_refuted : exists doc es, value_at doc (JArr es) (new_ps 0 (length doc)) /\ length es = 2%nat /\
  snd (ask default_cfg doc (new_ps 0 (length doc)) [] (QNth (- Z.of_nat (length es)))) = Err UnknownMember.
Proof.
  exists (vdoc "[7,8]"), [JNum [55]; JNum [56]]. split; [|split; [reflexivity|]].
  - destruct (C36_root_partial (vdoc "[7,8]") (JArr [JNum [55]; JNum [56]]) [] (vdoc "[7,8]") []) as (p & E & V).
    + vm_compute. repeat constructor.
    + now rewrite app_nil_r.
    + constructor.
    + change (vdoc "[7,8]") with (91 :: ([] ++ [55] ++ [] ++ 44 :: ([] ++ [56] ++ [])) ++ [93]). apply t_arr.
      apply e_cons; try (constructor; fail); [constructor; apply digit_num; lia|].
      apply e_one; try (constructor; fail). constructor. apply digit_num. lia.
    + constructor.
    + discriminate.
    + change (jvalue (vdoc "[7,8]") (new_ps 0 (length (vdoc "[7,8]")))) with (Ok (new_ps 0 (length (vdoc "[7,8]")))) in E. injection E as <-. exact V.
  - vm_compute. reflexivity.
Qed.
Print Assumptions C39_first_refuted.

(** C62: find_element does not test what it is applied to.  On the value handed
    out for an index that is too large it reads through a null pointer; on the
    value handed out for an index in an unfinished array it reads past the
    document. *)
Theorem C62_refuted :
  (exists r, find_element default_cfg (vdoc "[1]") (root "[1]") 5 = Ok r /\ find_element default_cfg (vdoc "[1]") r 0 = UB) /\
  (exists r, find_element default_cfg (vdoc "[") (root "[") 0 = Ok r /\ find_element default_cfg (vdoc "[") r 0 = UB).
Proof. split; eexists; (split; [vm_compute; reflexivity|vm_compute; reflexivity]). Qed.
Print Assumptions C62_refuted.

(** ** Examples *)

Definition ex36 : string := " {'a' : [1, {} ,'x'] ,'b':null,'a':true } ".
Definition ex36_v : ps := set_first (root ex36) 1.

(** The iteration, the kinds and the texts seen *)
Example ex36_iterate : exists q seen, iterate default_cfg (vdoc ex36) ex36_v = Ok (q, seen) /\
  map fst seen = [Some (bytes "a"); Some (bytes "b"); Some (bytes "a")] /\
  map (fun m => jtype (vdoc ex36) (snd m)) seen = [Ok BArray; Ok BNull; Ok BBool].
Proof. do 2 eexists. split; [vm_compute; reflexivity|]. split; [vm_compute; reflexivity|vm_compute; reflexivity]. Qed.

Example ex36_nested : exists r, jv_find_class_member default_cfg (vdoc ex36) ex36_v (bytes "a") = Ok r /\
  get_string_view default_cfg (vdoc ex36) r = Ok (vdoc "[1, {} ,'x']") /\
  exists w, find_element default_cfg (vdoc ex36) r 2 = Ok w /\ get_string_view default_cfg (vdoc ex36) w = Ok (bytes "x") /\
    jv_as default_cfg TStr (vdoc ex36) w = Ok (VStr (bytes "x")).
Proof. eexists. split; [vm_compute; reflexivity|]. split; [vm_compute; reflexivity|]. eexists. split; [vm_compute; reflexivity|]. split; vm_compute; reflexivity. Qed.

Example ex38_history :
  let h := [QGet (bytes "b"); QSize; QNth 7; QContains (bytes "zz"); QIndexOf (bytes "a")] in
  length (after default_cfg (vdoc ex36) ex36_v h) = 3%nat /\
  snd (ask default_cfg (vdoc ex36) ex36_v (after default_cfg (vdoc ex36) ex36_v h) (QIndexOf (bytes "b"))) = Ok (AIndex 1).
Proof. cbn zeta. split; vm_compute; reflexivity. Qed.

Example ex39 : exists r, snd (ask default_cfg (vdoc "[7,8,9]") (root "[7,8,9]") [] (QNth (-1))) = Ok (AValue r) /\
  get_string_view default_cfg (vdoc "[7,8,9]") r = Ok (bytes "9").
Proof. eexists. split; [vm_compute; reflexivity|vm_compute; reflexivity]. Qed.

(** A reached value with a broken text *)
Definition ex62 : string := "{'a':[1 x]}".
Example ex62_reached : exists v, reached default_cfg (vdoc ex62) v /\ first v = 5%nat /\
  iterate default_cfg (vdoc ex62) v = Err ExpectedTokenNotFound.
Proof.
  eexists. split; [|split].
  - eapply at_member_of with (v := root ex62).
    + apply at_root. vm_compute. reflexivity.
    + vm_compute. lia.
    + vm_compute. reflexivity.
    + left. reflexivity.
  - reflexivity.
  - vm_compute. reflexivity.
Qed.
