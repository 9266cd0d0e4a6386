(** find_member follows the text of a path. *)
From Coq Require Import List NArith ZArith Bool Lia Arith ZifyBool ZifyNat ZifyN.
From Verif Require Import Base Mem Loop PolicyModel IntModel IntProofs StrScanModel SkipModel SpecNum SpecText SpecJson
  SkipProofs SkipSafe HashModel ValueModel NameProofs PropertiesTyped SpecValue SpecPath JValueModel JValueProofs StateProofs PathModel PropertiesValue.
Import ListNotations.
Local Open Scope N_scope.

Lemma first_named_fun : forall k js i j, first_named k js i -> first_named k js j -> i = j.
Proof.
  intros k js i j (a & v & b & -> & <- & NA) (a' & v' & b' & E & <- & NA'). revert a' NA' E.
  induction a as [|[x w] a IH]; intros [|[y w'] a'] NA' E; cbn [app] in E.
  - reflexivity.
  - injection E as E1 _ _. subst y. exfalso. apply NA'. left. reflexivity.
  - injection E as E1 _ _. subst x. exfalso. apply NA. left. reflexivity.
  - injection E as E1 E2 E3. cbn [length]. f_equal. apply IH; auto.
    + intros IN. apply NA. right. exact IN.
    + intros IN. apply NA'. right. exact IN.
Qed.

Lemma pop_byte : forall c m r, ~ In c m -> pop_until_byte c (m ++ c :: r) = (m, r).
Proof.
  intros c m r. induction m as [|x m IH]; intros H; cbn [app pop_until_byte].
  - now rewrite N.eqb_refl.
  - rewrite (proj2 (N.eqb_neq x c)) by (intros ->; apply H; left; reflexivity).
    rewrite IH by (intros IN; apply H; right; exact IN). reflexivity.
Qed.

Lemma pop_sep : forall k r, Forall (fun c => c <> 46 /\ c <> 91 /\ c <> 93 /\ c <> 92) k ->
  (r = [] \/ exists c r', r = c :: r' /\ (c = 46 \/ c = 91)) -> pop_until_sep false (k ++ r) = (k, r).
Proof.
  intros k r HK HR. induction HK as [|x k (H1 & H2 & H3 & H4) _ IH]; cbn [app].
  - destruct HR as [->|(c & r' & -> & HC)]; [reflexivity|]. cbn [pop_until_sep]. unfold c_dot, c_lbrack.
    match goal with |- (if ?b then _ else _) = _ => replace b with true by lia end. reflexivity.
  - cbn [pop_until_sep]. unfold c_dot, c_lbrack, c_bslash in *.
    match goal with |- (if ?b then _ else _) = _ => replace b with false by lia end.
    replace (negb false && (x =? 92)) with false by lia. rewrite IH. reflexivity.
Qed.

Lemma rest_head : forall path r, rest_text path r -> r = [] \/ exists c r', r = c :: r' /\ (c = 46 \/ c = 91).
Proof. destruct 1; [left; reflexivity| |]; right; eexists; eexists; (split; [reflexivity|auto]). Qed.

Lemma rest_strip : forall path r, rest_text path r -> path_text path (strip_dot r) /\ (length (strip_dot r) <= length r)%nat.
Proof.
  intros path r H. destruct H as [|k path t SK H|i ds path t D DV H]; cbn [strip_dot path_text].
  - split; [constructor|lia].
  - change (46 =? c_dot) with true. cbn iota. split; [eauto|cbn [length]; lia].
  - change (91 =? c_dot) with false. cbn iota. split; [constructor; auto|lia].
Qed.

Lemma strip_again : forall path r, path_text path r -> strip_dot r = r.
Proof.
  intros [|[k|i] path] r H; cbn [path_text] in H.
  - inversion H. reflexivity.
  - destruct H as (t & -> & [NE F] & _). destruct F as [|x k (H1 & _) _]; [congruence|]. cbn [app strip_dot]. unfold c_dot.
    now rewrite (proj2 (N.eqb_neq x 46)).
  - inversion H; subst. reflexivity.
Qed.

Section Cfg.
  Context (g : cfg).
  Hypothesis HG : covered g.
  Context (buf : list N).
  Hypothesis H32 : N.of_nat (length buf) < 2^32.

  Lemma index_text : forall ds i, digits ds -> dec_val ds = N.of_nat i -> (i < length buf)%nat -> path_index ds = Ok (N.of_nat i).
  Proof.
    intros ds i D DV L. unfold path_index. rewrite (unsigned_parser_known_acc 64 false ds (new_ps 0 (length ds)) ds D); [|exact (sub_at_skipn ds 0)|reflexivity].
    cbv zeta. cbn [bind]. rewrite DV. unfold cast_u, u64. change (2^32) with 4294967296 in H32. change (2^64) with 18446744073709551616.
    rewrite !N.mod_small; auto; rewrite ?N.mod_small; lia.
  Qed.

  Lemma find_member_leads : forall v path w, leads (names_ok g) v path w -> forall t p fuel,
    path_text path t -> value_at buf v p -> (length t < fuel)%nat ->
    exists r, loop (path_body g buf) fuel (t, p) = Ok r /\ value_at buf w r.
  Proof.
    induction 1 as [v|js k i w path x OK FN NT HL IH|es i w path x NT HL IH]; intros t p fuel HT HV HF; (destruct fuel as [|fuel]; [lia|]).
    - inversion HT; subst. cbn [loop path_body bind]. eauto.
    - destruct HT as (r & -> & SK & HR). pose proof SK as [NE FK]. cbn [loop]. destruct k as [|x0 k0] eqn:EK; [congruence|]. rewrite <- EK in *.
      assert (E : path_body g buf (k ++ r, p) = (v <- jv_find_class_member g buf p k ;; Ok (inl (strip_dot r, v)))).
      { assert (X : k ++ r = x0 :: k0 ++ r) by (rewrite EK; reflexivity). unfold path_body. rewrite X, <- X.
        rewrite (C36_type_partial buf H32 _ _ HV). cbn [bind kind_of base_type_eqb].
        pose proof FK as FK1. rewrite EK in FK1. apply Forall_inv in FK1. destruct FK1 as (N1 & N2 & N3 & N4). unfold c_lbrack.
        rewrite (proj2 (N.eqb_neq x0 91)) by exact N2. rewrite (pop_sep k r FK (rest_head _ _ HR)). cbv zeta iota beta.
        rewrite EK. cbn iota. rewrite (proj2 (N.eqb_neq x0 91)) by exact N2. reflexivity. }
      rewrite E.
      assert (NB : ~ In c_bslash k).
      { intros IN. rewrite Forall_forall in FK. destruct (FK _ IN) as (_ & _ & _ & N4). apply N4. reflexivity. }
      destruct (C37_by_name_partial g HG buf H32 js p k HV OK NB) as (q & EQ & [(j & w' & FN' & NT' & VQ)|[NI _]]).
      + pose proof (first_named_fun _ _ _ _ FN FN') as <-. rewrite NT in NT'. injection NT' as <-.
        rewrite EQ. cbn [bind]. destruct (rest_strip _ _ HR) as [PT LS]. apply (IH (strip_dot r) q fuel PT VQ).
        rewrite EK in HF. rewrite app_length in HF. cbn [length] in HF. lia.
      + exfalso. apply NI. apply nth_error_In in NT. apply (in_map fst) in NT. exact NT.
    - cbn [path_text] in HT. inversion HT as [| |i' ds path' t' (D & NE & CN) DV HR]; subst. cbn [loop].
      assert (LE : (i < length buf)%nat).
      { destruct HG as [HX HE]. destruct (it_begin_ok g buf H32 (JArr es) p HV I I) as (b & EB & IB & LB & CB).
        pose proof (it_at_length g HX HE buf H32 _ _ IB) as LN. destruct (it_at_wf _ _ _ _ IB) as (_ & _ & L & _). cbn [members] in LN. rewrite map_length in LN.
        assert (i < length es)%nat by (apply nth_error_Some; congruence). lia. }
      assert (ND : ~ In c_rbrack (91 :: ds)).
      { intros [X|IN]; [discriminate|]. unfold digits in D. rewrite Forall_forall in D. specialize (D _ IN). unfold is_dig, c_rbrack in D. lia. }
      unfold path_body. rewrite (C36_type_partial buf H32 _ _ HV). cbn [bind kind_of base_type_eqb]. change (91 =? c_lbrack) with true. cbn iota.
      change (91 :: ds ++ 93 :: t') with ((91 :: ds) ++ c_rbrack :: t'). rewrite (pop_byte _ _ _ ND). cbv iota beta zeta.
      change (91 =? c_lbrack) with true. cbn iota. rewrite (index_text ds i D DV LE). cbn [bind].
      destruct (rest_strip _ _ HR) as [PT LS]. rewrite (strip_again _ _ PT).
      unfold find_element64. replace (N.to_nat (N.min (N.of_nat i) (N.of_nat (S (S (length buf)))))) with i by lia.
      pose proof (C37_by_index_partial g HG buf H32 (JArr es) p i HV I I) as CI. cbn [members] in CI. rewrite nth_error_map, NT in CI. cbn [option_map] in CI.
      destruct CI as (q & EQ & VQ). cbn [snd unnamed] in VQ. rewrite EQ. cbn [bind]. apply (IH _ q fuel PT VQ).
      cbn [length] in HF. rewrite app_length in HF. cbn [length] in HF. lia.
  Qed.
End Cfg.
