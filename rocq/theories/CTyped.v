(** Every type on the document with comments and on the one with spaces in their
    place, and what the document means at a type is read. *)
From Coq Require Import List NArith ZArith Bool Lia Arith ZifyBool ZifyNat ZifyN.
From Verif Require Import Base Mem Loop PolicyModel IntModel StrScanModel SkipModel HashModel SpecUnicode SpecNum SpecText SpecJson SpecC
  IntProofs IntValueProofs StrScanProofs StrScanProofs2 SkipProofs SkipSafe GapProofs PropertiesStr PropertiesSkip ClassProofs
  StrDecodeModel StrDecodeProofs StrDecodeSafe ValueModel SpecTyped NameProofs ClassProofs2 ScalarProofs ArrayProofs VariantProofs TypedProofs BracketProofs PropertiesHash ZReads ZInt CModel CLex CTrim CState CSkip CBracket CScalar CScalar2 CClass CTypes.
Import ListNotations.
Local Open Scope N_scope.
Set Default Proof Using "All".


(** Does the range start behind a quote *)
Definition quoted_before (buf : list N) (p : ps) : bool :=
  match first p with O => false | S i => match nth_error buf i with Some b => b =? 34 | None => false end end.

(** A range that fits the type: a string's starts behind the quote, and only that *)
Definition tidy_c (t : ty) (buf : list N) (p : ps) : bool :=
  match t with
  | TStr => quoted_before buf p
  | TNullable _ | TVariant _ | TCustom _ => true
  | _ => negb (quoted_before buf p)
  end.

Definition parse_custom_in (g : cfg) (k : custom) (known : bool) (buf : list N) (p : ps) : res (val * ps) :=
  if known || has_more p then parse_value_custom g k known buf p else Err InvalidNumber.

(** [parse_value] of ValueModel that refuses ranges of other kinds, and to go
    behind the end *)
Fixpoint parse_value_cs (g : cfg) (t : ty) : parser :=
  fun known buf p =>
  if known && negb (tidy_c t buf p) then Err InvalidNumber else
  match t with
  | TUInt w rc => '(v, p) <- parse_value_unsigned known LSNever w rc buf p ;; Ok (VInt (Z.of_N v), p)
  | TInt w rc => '(v, p) <- parse_value_signed known LSNever w rc buf p ;; Ok (VInt v, p)
  | TBool => parse_value_bool known buf p
  | TStr => '(s, p) <- parse_value_string_escaped true known (c_ex g) true buf p ;; Ok (VStr s, p)
  | TNullable t => parse_value_null (parse_value_cs g t) known buf p
  | TArr t => parse_value_array (parse_value_cs g t) buf p
  | TMap t => parse_value_keyvalue g (parse_value_cs g t) buf p
  | TClass exact ms =>
      parse_value_class g exact
        (map (fun m => mkmember (fst m) (is_nullable (snd m)) (parse_value_cs g (snd m))) ms) known buf p
  | TTuple exact ts => parse_tuple_in g exact (map (parse_value_cs g) ts) buf p
  | TKvArr exact kn tk vn tv =>
      parse_value_keyvalue_array
        (parse_value_class g exact
           [mkmember kn (is_nullable tk) (parse_value_cs g tk); mkmember vn (is_nullable tv) (parse_value_cs g tv)]) buf p
  | TCustom k => parse_custom_in g k known buf p
  | TVariant alts => parse_value_variant (map (fun t => (base_kind t, parse_value_cs g t)) alts) known buf p
  | TIntrusive exact tag t switch alts =>
      parse_value_variant_intrusive
        (parse_value_class g exact [mkmember tag (is_nullable t) (parse_value_cs g t)]) switch
        (map (parse_value_cs g) alts) buf p
  end.


Lemma comment_end : forall cp k n, comment cp k n -> exists r c, k = r ++ [c] /\ c <> 0.
Proof.
  intros cp k n C. destruct C as [b _|b _|b _ _].
  - exists (35 :: b), 10. split; [reflexivity|discriminate].
  - exists (47 :: 47 :: b), 10. split; [reflexivity|discriminate].
  - exists (47 :: 42 :: b ++ [42]), 47. split; [cbn; now rewrite <- app_assoc|discriminate].
Qed.

Lemma blanked_length0 : forall cp x d d', blanked cp x d d' -> length d = length d'.
Proof. induction 1; cbn [length app] in *; rewrite ?app_length, ?repeat_length in *; cbn [length] in *; lia. Qed.

Lemma blanked_bytes : forall cp x d d', blanked cp x d d' -> is_bytes d -> is_bytes d'.
Proof.
  unfold is_bytes. induction 1; intros HB; auto.
  - inversion HB; subst. constructor; auto.
  - apply Forall_app in HB as [H1 H2]. apply Forall_app. auto.
  - apply Forall_app in HB as [HB1 HB2]. apply Forall_app. split; [|auto]. clear. induction (length k); cbn; constructor; auto. lia.
Qed.

Section Two.
  Context (cp : pol) (D B : list N).
  Hypothesis T : two cp D B.

  Local Notation step := (step cp D B).
  Local Notation reach := (reach cp D B).
  Local Notation repeat_at := (repeat_at cp D B T).
  Local Notation comment_head := (comment_head cp D B T).
  Local Notation comment_len := (comment_len cp D B T).
  Local Notation reach_le := (reach_le cp D B T).
  Local Notation reach_trans := (reach_trans cp D B T).
  Local Notation reach_one := (reach_one cp D B T).
  Local Notation step_lt := (step_lt cp D B T).
  Local Notation step_byte := (step_byte cp D B T).
  Local Notation step_quote := (step_quote cp D B T).
  Local Notation reach_prev := (reach_prev cp D B T).
  Local Notation step_same := (step_same cp D B T).
  Local Notation same := (same cp).
  Local Notation same_eqb := (same_eqb cp D B T).
  Local Notation same_digit := (same_digit cp D B T).
  Local Notation step_prev := (step_prev cp D B T).
  Local Notation prev := (prev D B).
  Local Notation plainly := (plainly cp D B).
  Local Notation spaces := (spaces B).
  Local Notation step_plainly := (step_plainly cp D B T).
  Local Notation opening_spec := (opening_spec cp D B T).
  Local Notation LEN := (LEN cp D B T).
  Local Notation HBD := (HBD cp D B T).
  Local Notation HBBt := (HBBt cp D B T).
  Local Notation NCPt := (NCPt cp D B T).
  Local Notation H32 := (H32 cp D B T).
  Local Notation both := (both cp D B).
  Local Notation both_at := (both_at cp D B T).
  Local Notation same_pd := (same_pd cp D B T).
  Local Notation fin := (fin cp D B).
  Local Notation st := (st cp D B).
  Local Notation st_le := (st_le cp D B T).
  Local Notation st_wf := (st_wf cp D B T).
  Local Notation st_moved := (st_moved cp D B T).
  Local Notation st_both := (st_both cp D B T).
  Local Notation sp_front := (sp_front cp D B T).
  Local Notation sp_is_at := (sp_is_at cp D B T).
  Local Notation after_trim := (after_trim cp D B).
  Local Notation sp_trim := (sp_trim cp D B T).
  Local Notation st_step := (st_step cp D B T).
  Local Notation run_bytes := (run_bytes cp D B T).
  Local Notation st_bytes := (st_bytes cp D B T).
  Local Notation ended_plainly := (ended_plainly cp D B T).
  Local Notation sp_starts := (sp_starts cp D B T).
  Local Notation sp_after := (sp_after cp D B T).

  Local Notation agree := (agree D B).
  Local Notation rng := (rng cp D B).
  Local Notation skipped := (skipped cp D B).
  Local Notation sp_number := (sp_number cp D B T).
  Local Notation sp_bool := (sp_bool cp D B T).
  Local Notation sp_null := (sp_null cp D B T).
  Local Notation sp_string := (sp_string cp D B T).
  Local Notation st_quote := (st_quote cp D B T).
  Local Notation moved_trim := (moved_trim cp D B T).
  Local Notation instr := (instr D B).
  Local Notation sp_string_in := (sp_string_in cp D B T).
  Local Notation digits_c := (digits_c cp D B T).
  Local Notation sp_bracketed := (sp_bracketed cp D B T).
  Local Notation sp_skip_value := (sp_skip_value cp D B T).
  Local Notation sp_skip_literal := (sp_skip_literal cp D B T).
  Local Notation known_string := (known_string cp D B T).
  Local Notation here_string := (here_string cp D B T).
  Local Notation view_same := (view_same cp D B T).
  Local Notation rd_same := (rd_same cp D B T).
  Local Notation sub_agree := (sub_agree cp D B T).
  Local Notation agree_sub := (agree_sub cp D B T).
  Local Notation instr_agree := (instr_agree cp D B T).
  Local Notation notq := (notq B).
  Local Notation loc := (loc cp D B).
  Local Notation here := (here cp D B).
  Local Notation there := (there cp D B).
  Local Notation there_cases := (there_cases cp D B T).
  Local Notation sp_name := (sp_name cp D B T).
  Local Notation sp_end_of_name := (sp_end_of_name cp D B T).
  Local Notation str_quoted := (str_quoted cp D B T).
  Local Notation skip_run := (skip_run cp D B T).
  Local Notation skipu_run := (skipu_run cp D B T).
  Local Notation trimu_run := (trimu_run cp D B T).
  Local Notation psim := (psim cp D B).
  Local Notation msim := (msim cp D B).
  Local Notation loc_none := (loc_none cp D B T).
  Local Notation sp_next := (sp_next cp D B T).
  Local Notation spaces_ex := (spaces_ex cp D B T).
  Local Notation unchecked_here := (unchecked_here cp D B T).
  Local Notation sp_members := (sp_members cp D B T).
  Local Notation sp_class := (sp_class cp D B T).
  Local Notation here_class := (here_class cp D B T).
  Local Notation there_class := (there_class cp D B T).
  Local Notation there_struct := (there_struct cp D B T).
  Local Notation trim_none := (trim_none cp D B T).
  Local Notation not_at := (not_at cp D B T).
  Local Notation st_class := (st_class cp D B T).
  Local Notation here_unsigned := (here_unsigned cp D B T).
  Local Notation there_unsigned := (there_unsigned cp D B T).
  Local Notation here_signed := (here_signed cp D B T).
  Local Notation there_signed := (there_signed cp D B T).
  Local Notation here_bool := (here_bool cp D B T).
  Local Notation there_bool := (there_bool cp D B T).
  Local Notation here_null := (here_null cp D B T).
  Local Notation here_custom := (here_custom cp D B T).
  Local Notation there_custom := (there_custom cp D B T).
  Local Notation notq_trim := (notq_trim cp D B T).
  Local Notation asim := (asim cp D B).
  Local Notation here_array := (here_array cp D B T).
  Local Notation there_array := (there_array cp D B T).
  Local Notation here_kv_array := (here_kv_array cp D B T).
  Local Notation there_kv_array := (there_kv_array cp D B T).
  Local Notation here_map := (here_map cp D B T).
  Local Notation there_map := (there_map cp D B T).
  Local Notation here_tuple := (here_tuple cp D B T).
  Local Notation there_tuple := (there_tuple cp D B T).
  Local Notation psim_variant := (psim_variant cp D B T).
  Local Notation here_intrusive := (here_intrusive cp D B T).
  Local Notation there_intrusive := (there_intrusive cp D B T).
  Local Notation reach_drop := (reach_drop cp D B T).

  Context (g : cfg).
  Hypothesis HG : covered_c g.

  Lemma guarded : forall t (P Pc : parser), here (P false) (Pc false) ->
    (forall r, loc r -> isnull r = false -> tidy_c t B r = true -> simP (fun _ => True) (P true B r) (Pc true D r)) ->
    psim (fun known buf p => if known && negb (tidy_c t buf p) then Err InvalidNumber else P known buf p) Pc.
  Proof.
    intros t P Pc H1 H2. split; [exact H1|]. intros r HL NN. cbn [andb]. destruct (tidy_c t B r) eqn:ET; cbn [negb]; [now apply H2|intros a E; discriminate].
  Qed.

  Lemma unquoted : forall r, loc r -> isnull r = false -> quoted_before B r = false -> notq (first r).
  Proof.
    intros r HL NN Q0. destruct HL as [X _|X|b N Q PV L A Hb SP N1 N2 N3|b Q HS LT Hb HB]; [congruence| |exact Q|exact Q].
    exfalso. destruct X as (i & s & _ & F1 & _ & _ & _ & [B0 _] & _). unfold quoted_before in Q0. rewrite F1, B0 in Q0. discriminate.
  Qed.

  Lemma guarded_plain : forall t (P Pc : parser), match t with TStr | TNullable _ | TVariant _ | TCustom _ => False | _ => True end ->
    here (P false) (Pc false) -> there (P true) (Pc true) ->
    psim (fun known buf p => if known && negb (tidy_c t buf p) then Err InvalidNumber else P known buf p) Pc.
  Proof.
    intros t P Pc HT H1 H2. apply (guarded t P Pc H1). intros r HL NN TI. apply H2; auto. apply unquoted; auto.
    destruct t; try contradiction; cbn [tidy_c] in TI; now apply negb_true_iff in TI.
  Qed.

  Theorem sim_value_c : forall t, psim (parse_value_cs g t) (parse_value_c cp g t).
  Proof.
    fix IH 1. intros t. destruct t as [w rc|w rc| | |t|t|t|exact mm|exact ts|exact kn tk vn tv|k|alts|exact tag t switch alts]; cbn [parse_value_cs parse_value_c].
    - apply (guarded_plain (TUInt w rc) (fun known buf p => '(v, p) <- parse_value_unsigned known LSNever w rc buf p ;; Ok (VInt (Z.of_N v), p))
        (fun known buf p => '(v, p) <- parse_value_unsigned known LSNever w rc buf p ;; Ok (VInt (Z.of_N v), p)) I); [apply here_unsigned|apply there_unsigned].
    - apply (guarded_plain (TInt w rc) (fun known buf p => '(v, p) <- parse_value_signed known LSNever w rc buf p ;; Ok (VInt v, p))
        (fun known buf p => '(v, p) <- parse_value_signed_c cp known w rc buf p ;; Ok (VInt v, p)) I); [apply here_signed|apply there_signed].
    - apply (guarded_plain TBool (fun known buf p => parse_value_bool known buf p) (fun known buf p => parse_value_bool_c cp known buf p) I); [apply here_bool|apply there_bool].
    - destruct HG as [GX GE]. rewrite GX. apply (guarded TStr (fun known buf p => '(s, p) <- parse_value_string_escaped true known ExConstexpr true buf p ;; Ok (VStr s, p))
        (fun known buf p => '(s, p) <- parse_value_string_escaped true known ExConstexpr true buf p ;; Ok (VStr s, p))).
      + intros p H. eapply sp_bind; [apply (here_string p H)|]. intros [s q] X. apply sp_ok. exact X.
      + intros r HL NN TI. cbn [tidy_c] in TI. destruct HL as [X _|X|b N Q PV L A Hb SP N1 N2 N3|b Q HS LT Hb HB]; [congruence| | |].
        * eapply sp_bind; [apply (known_string r X)|]. intros [s q] _. apply sp_ok. exact I.
        * exfalso. destruct Q as (k & c & E & Hc & NC). unfold quoted_before in TI. rewrite E, Hc in TI. apply N.eqb_eq in TI. congruence.
        * exfalso. destruct Q as (k & c & E & Hc & NC). unfold quoted_before in TI. rewrite E, Hc in TI. apply N.eqb_eq in TI. congruence.
    - apply (guarded (TNullable t) (fun known buf p => parse_value_null (parse_value_cs g t) known buf p) (fun known buf p => parse_value_null_c cp (parse_value_c cp g t) known buf p)).
      + apply here_null. apply IH.
      + intros r HL NN _. unfold parse_value_null, parse_value_null_c. rewrite NN. eapply sp_bind; [apply (proj2 (IH t) r HL NN)|]. intros [v q] _. apply sp_ok. exact I.
    - apply (guarded_plain (TArr t) (fun _ => parse_value_array (parse_value_cs g t)) (fun _ => parse_value_array_c cp (parse_value_c cp g t)) I); [apply here_array|apply there_array]; apply IH.
    - apply (guarded_plain (TMap t) (fun _ => parse_value_keyvalue g (parse_value_cs g t)) (fun _ => parse_value_keyvalue_c cp g (parse_value_c cp g t)) I);
        [apply here_map|apply there_map]; auto; apply IH.
    - assert (HF : Forall2 msim (map (fun m => mkmember (fst m) (is_nullable (snd m)) (parse_value_cs g (snd m))) mm)
                                (map (fun m => mkmember (fst m) (is_nullable (snd m)) (parse_value_c cp g (snd m))) mm)).
      { induction mm as [|[nm t] mm IHm]; cbn [map]; constructor; [|exact IHm]. split; [reflexivity|]. split; [reflexivity|]. apply IH. }
      apply (guarded_plain (TClass exact mm) (fun known buf p => parse_value_class g exact (map (fun m => mkmember (fst m) (is_nullable (snd m)) (parse_value_cs g (snd m))) mm) known buf p)
        (fun known buf p => parse_value_class_c cp g exact (map (fun m => mkmember (fst m) (is_nullable (snd m)) (parse_value_c cp g (snd m))) mm) known buf p) I); [now apply here_class|now apply there_class].
    - assert (HF : Forall2 psim (map (parse_value_cs g) ts) (map (parse_value_c cp g) ts)).
      { induction ts as [|t ts IHt]; cbn [map]; constructor; [apply IH|exact IHt]. }
      apply (guarded_plain (TTuple exact ts) (fun _ => parse_tuple_in g exact (map (parse_value_cs g) ts)) (fun _ => parse_tuple_c cp g exact (map (parse_value_c cp g) ts)) I);
        [now apply here_tuple|now apply there_tuple].
    - set (ms := [mkmember kn (is_nullable tk) (parse_value_cs g tk); mkmember vn (is_nullable tv) (parse_value_cs g tv)]).
      set (ms' := [mkmember kn (is_nullable tk) (parse_value_c cp g tk); mkmember vn (is_nullable tv) (parse_value_c cp g tv)]).
      assert (HF : Forall2 msim ms ms').
      { constructor; [|constructor; [|constructor]]; (split; [reflexivity|]; split; [reflexivity|]; apply IH). }
      clearbody ms ms'. apply (guarded_plain (TKvArr exact kn tk vn tv) (fun _ => parse_value_keyvalue_array (parse_value_class g exact ms)) (fun _ => parse_value_keyvalue_array_c cp (parse_value_class_c cp g exact ms')) I);
        [apply here_kv_array|apply there_kv_array]; now apply here_class.
    - apply (guarded (TCustom k) (fun known buf p => parse_custom_in g k known buf p) (fun known buf p => parse_value_custom_c cp g k known buf p)).
      + intros p H. unfold parse_custom_in. cbn [orb]. destruct (has_more p) eqn:HM; [|intros a E; discriminate]. apply here_custom; auto. intros _. unfold has_more in HM. lia.
      + intros r HL NN _. apply there_custom; auto.
    - assert (HF : Forall2 asim (map (fun t => (base_kind t, parse_value_cs g t)) alts) (map (fun t => (base_kind t, parse_value_c cp g t)) alts)).
      { induction alts as [|t alts IHt]; cbn [map]; constructor; [split; [reflexivity|apply IH]|exact IHt]. }
      destruct (psim_variant _ _ HF) as [V1 V2].
      apply (guarded (TVariant alts) (fun known buf p => parse_value_variant (map (fun t => (base_kind t, parse_value_cs g t)) alts) known buf p)
        (fun known buf p => parse_value_variant (map (fun t => (base_kind t, parse_value_c cp g t)) alts) known buf p)); [exact V1|]. intros r HL NN _. now apply V2.
    - assert (HF : Forall2 psim (map (parse_value_cs g) alts) (map (parse_value_c cp g) alts)).
      { clear t. induction alts as [|t alts IHt]; cbn [map]; constructor; [apply IH|exact IHt]. }
      set (ms := [mkmember tag (is_nullable t) (parse_value_cs g t)]). set (ms' := [mkmember tag (is_nullable t) (parse_value_c cp g t)]).
      assert (HM : Forall2 msim ms ms').
      { constructor; [|constructor]. split; [reflexivity|]. split; [reflexivity|]. apply IH. }
      clearbody ms ms'.
      apply (guarded_plain (TIntrusive exact tag t switch alts) (fun _ => parse_value_variant_intrusive (parse_value_class g exact ms) switch (map (parse_value_cs g) alts))
              (fun _ => parse_value_variant_intrusive (parse_value_class_c cp g exact ms') switch (map (parse_value_c cp g) alts)) I).
      + apply here_intrusive; [now apply here_class|exact HF].
      + now apply there_intrusive.
  Qed.

  (** ** The last byte *)
  Lemma last_same : forall x i y k, reach x i y k -> forall l, k = S l -> (i <= l)%nat ->
    exists b d, nth_error B l = Some b /\ nth_error D l = Some d /\ (d = b \/ b = 32 /\ d <> 0).
  Proof.
    induction 1 as [|x i y j z k ST R IH]; intros l EK HL; [lia|]. destruct (Nat.le_gt_cases j l) as [LE|GT]; [now apply IH|].
    pose proof (reach_le _ _ _ _ R). assert (j = S l) by lia. subst j. clear IH R EK GT.
    inversion ST as [x' i' b E1 E2 N1 N2 O|x' i' s HS S1 S2|x' i' k' n w A C W LW S1 S2]; subst.
    - exists b, b. auto.
    - assert (N : nth_error (34 :: s ++ [34]) (S (length s)) = Some 34) by (cbn [nth_error]; rewrite nth_error_app2, Nat.sub_diag by lia; reflexivity).
      exists 34, 34. replace l with (i + S (length s))%nat by lia. rewrite (sub_at_nth _ _ _ _ _ S1 N), (sub_at_nth _ _ _ _ _ S2 N). auto.
    - pose proof (comment_len _ _ C). apply sub_at_app in S1 as [S1 _]. apply sub_at_app in S2 as [S2 _].
      pose proof (comment_end _ _ _ C) as X.
      destruct X as (r & c & E & NC). exists 32, c. rewrite (repeat_at _ _ l S2) by lia. split; [reflexivity|].
      assert (N : nth_error k' (length r) = Some c) by (rewrite E, nth_error_app2, Nat.sub_diag by lia; reflexivity).
      match goal with EQ : (i + length k')%nat = S l |- _ => rewrite E, app_length in EQ; cbn [length] in EQ end. replace l with (i + length r)%nat by lia. rewrite (sub_at_nth _ _ _ _ _ S1 N). auto.
  Qed.
End Two.

Section Cfg.
  Context (g : cfg).
  Hypothesis HX : c_ex g = ExConstexpr.
  Hypothesis HE : c_excl g = false.

  Lemma reads_guard_c : forall t P v x, reads g P v x ->
    (v <> JNull -> forall buf r, N.of_nat (length buf) < 2^32 -> located g buf v r -> tidy_c t buf r = true) ->
    reads g (fun known buf p => if known && negb (tidy_c t buf p) then Err InvalidNumber else P known buf p) v x.
  Proof.
    intros t P v x [R1 R2] HT. split; [exact R1|]. intros NV buf r H32 HL. cbn [andb]. rewrite (HT NV buf r H32 HL). cbn [negb]. now apply R2.
  Qed.

  Lemma tidy_other : forall t v buf r, (forall b, v <> JStr b) -> v <> JNull -> match t with TStr => False | _ => True end ->
    N.of_nat (length buf) < 2^32 -> located g buf v r -> tidy_c t buf r = true.
  Proof.
    intros t v buf r NS NV HT H32 HL. destruct (located_range g HX HE _ _ _ H32 HL) as (p & tx & j & q & HW & HTx & HS & _ & _ & D & _ & (k & b & E & Hb & NB)).
    assert (D1 : first r = first p). { destruct v; try (exfalso; exact (NS _ eq_refl)); try congruence; apply D; congruence. }
    assert (Q : quoted_before buf r = false). { unfold quoted_before. rewrite D1, E, Hb. now apply N.eqb_neq. }
    destruct t; try contradiction; cbn [tidy_c]; rewrite ?Q; reflexivity.
  Qed.

  Lemma tidy_string : forall b buf r, N.of_nat (length buf) < 2^32 -> located g buf (JStr b) r -> tidy_c TStr buf r = true.
  Proof.
    intros b buf r H32 HL. destruct (located_range g HX HE _ _ _ H32 HL) as (p & tx & j & q & HW & HTx & HS & _ & _ & D & _).
    destruct D as [[D1 _] _]; [discriminate|]. inversion HTx; subst. destruct HS as [HS _]. cbn [tidy_c]. unfold quoted_before. rewrite D1, HS. reflexivity.
  Qed.

  Lemma reads_custom_in : forall k v s, reads g (parse_value g (TCustom k)) v s -> reads g (parse_custom_in g k) v s.
  Proof.
    intros k v s [R1 R2]. split.
    - intros buf p t j HW H32 HT HS HF. unfold parse_custom_in. cbn [orb]. destruct (jtext_head _ _ _ HT) as (c & r & E & _). pose proof (followed_le _ _ _ _ _ HF) as FL.
      unfold has_more. rewrite E in FL. cbn [length] in FL. replace (first p <? last p)%nat with true by lia. now apply (R1 buf p t j).
    - intros NV buf r H32 HL. destruct (R2 NV buf r H32 HL) as (q & E). exists q. exact E.
  Qed.

  Lemma reads_tuple_in : forall exact Ps es xs es2, Forall2 (fun P vx => reads g P (fst vx) (snd vx)) Ps (combine es xs) ->
    length es = length xs -> (exact = true -> es2 = []) -> (forall v, hd_error es2 = Some v -> no_array v) ->
    reads g (fun _ => parse_tuple_in g exact Ps) (JArr (es ++ es2)) (VTuple xs).
  Proof.
    intros exact Ps es xs es2 HR HLen HEx HNA. apply reads_bracketed; auto; [left; eauto|]. intros known buf p t j HW H32 HT HS HF.
    pose proof (followed_le _ _ _ _ _ HF) as FL.
    assert (X : exists q, parse_tuple g exact Ps buf p = Ok (VTuple xs, q) /\ moved p q /\ (first p + length t <= first q <= j)%nat)
      by (eapply tuple_ok; eauto using followed_ws_run).
    destruct X as (q & E & M & L). exists q. split; [|auto]. unfold parse_tuple_in. rewrite E. cbn [bind]. rewrite (proj1 M). replace (first q <=? last p)%nat with true by lia. reflexivity.
  Qed.

  Context (nc : list (list N) -> list N -> Prop).
  Hypothesis HNC : forall names k, nc names k -> name_ok g k /\ tells g names k.

  Theorem strict_reads_c : forall t v x, typed nc t v x -> reads g (parse_value_cs g t) v x.
  Proof.
    fix IH 1. intros t v x H. destruct t as [w rc|w rc| | |t|t|t|exact mm|exact ts|exact kn tk vn tv|k|alts|exact tag t switch alts]; cbn [typed] in H; cbn [parse_value_cs].
    - destruct H as (ds & -> & HC & W & LT & ->). apply (reads_guard_c (TUInt w rc) (fun known buf p => '(v, p) <- parse_value_unsigned known LSNever w rc buf p ;; Ok (VInt (Z.of_N v), p))).
      + exact (reads_unsigned g HX HE w rc ds W HC LT).
      + intros NV buf r H32 HL. apply (tidy_other (TUInt w rc) (JNum ds)); try (intros; discriminate); try exact I; auto.
    - destruct H as (tx & z & -> & HC & W & R & N & ->). apply (reads_guard_c (TInt w rc) (fun known buf p => '(v, p) <- parse_value_signed known LSNever w rc buf p ;; Ok (VInt v, p))).
      + exact (reads_signed g HX HE w rc tx z W HC R N).
      + intros NV buf r H32 HL. apply (tidy_other (TInt w rc) (JNum tx)); try (intros; discriminate); try exact I; auto.
    - apply (reads_guard_c TBool (fun known buf p => parse_value_bool known buf p)); [|intros NV buf r H32 HL; apply (tidy_other TBool v); try exact I; auto; destruct H as [[-> _]|[-> _]]; discriminate].
      destruct H as [[-> ->]|[-> ->]]; apply (reads_bool g HX HE); auto.
    - apply (reads_guard_c TStr (fun known buf p => '(s, p) <- parse_value_string_escaped true known (c_ex g) true buf p ;; Ok (VStr s, p))); [|destruct H as (b & s & -> & D & ->); intros _ buf r H32 HL; now apply (tidy_string b)].
      destruct H as (b & s & -> & D & ->). now apply (reads_string g HX HE).
    - apply (reads_guard_c (TNullable t) (fun known buf p => parse_value_null (parse_value_cs g t) known buf p)); [|reflexivity].
      destruct H as [[-> ->]|(NV & y & H & ->)]; [apply (any_null g)|apply (any_some g HX HE); auto].
    - destruct H as (es & xs & -> & -> & H). apply (reads_guard_c (TArr t) (fun _ => parse_value_array (parse_value_cs g t))).
      + apply (any_array g HX HE). revert H. clear - IH HX HE HNC. induction 1; constructor; auto.
      + intros NV buf r H32 HL. apply (tidy_other (TArr t) (JArr es)); try (intros; discriminate); try exact I; auto.
    - destruct H as (ms & kxs & -> & -> & H). apply (reads_guard_c (TMap t) (fun _ => parse_value_keyvalue g (parse_value_cs g t))).
      + apply (any_map g HX HE). revert H. clear - IH HX HE HNC. induction 1 as [|m kx ms kxs [D H] _ IHl]; constructor; auto. split; auto.
      + intros NV buf r H32 HL. apply (tidy_other (TMap t) (JObj ms)); try (intros; discriminate); try exact I; auto.
    - destruct H as (js & xs & -> & -> & ND & NDJ & FN & EX & H).
      apply (reads_guard_c (TClass exact mm) (fun known buf p => parse_value_class g exact (map (fun m => mkmember (fst m) (is_nullable (snd m)) (parse_value_cs g (snd m))) mm) known buf p));
        [|intros NV buf r H32 HL; apply (tidy_other (TClass exact mm) (JObj js)); try (intros; discriminate); try exact I; auto].
      apply (any_class g HX HE exact).
      assert (EN : map m_name (map (fun m => mkmember (fst m) (is_nullable (snd m)) (parse_value_cs g (snd m))) mm) = map fst mm)
        by (rewrite map_map; reflexivity).
      split; [now rewrite EN|]. rewrite EN. split; [exact NDJ|]. split; [|split].
      + revert FN. apply Forall_impl. intros k. apply HNC.
      + exact EX.
      + clear EX FN ND NDJ EN. revert xs H. induction mm as [|[nm t] mm IHm]; intros [|y xs] H; try contradiction; [constructor|].
        destruct H as [H1 H2]. cbn [map fst snd]. constructor; [|now apply IHm].
        unfold gets. cbn [m_name m_nullable m_parse]. rewrite <- lookup_assoc.
        destruct (lookup nm js) as [v'|]; [|exact H1]. split; [now apply IH|]. intros ->. eapply typed_null; eauto.
    - destruct H as (es & xs & es2 & -> & -> & EX & NA & H).
      apply (reads_guard_c (TTuple exact ts) (fun _ => parse_tuple_in g exact (map (parse_value_cs g) ts)));
        [|intros NV buf r H32 HL; apply (tidy_other (TTuple exact ts) (JArr (es ++ es2))); try (intros; discriminate); try exact I; auto].
      assert (FL : length es = length xs /\ Forall2 (fun P vx => reads g P (fst vx) (snd vx)) (map (parse_value_cs g) ts) (combine es xs)).
      { clear EX NA. revert es xs H. induction ts as [|t ts IHt]; intros [|e es] [|y xs] H; try contradiction; [split; constructor|].
        destruct H as [H1 H2]. destruct (IHt _ _ H2) as [L F]. cbn [length map combine]. split; [lia|]. constructor; [cbn [fst snd]; now apply IH|exact F]. }
      destruct FL as [L F]. apply reads_tuple_in; auto.
    - destruct H as (es & xs & -> & -> & NK & NE & H).
      apply (reads_guard_c (TKvArr exact kn tk vn tv) (fun _ => parse_value_keyvalue_array (parse_value_class g exact
           [mkmember kn (is_nullable tk) (parse_value_cs g tk); mkmember vn (is_nullable tv) (parse_value_cs g tv)])));
        [|intros NV buf r H32 HL; apply (tidy_other (TKvArr exact kn tk vn tv) (JArr es)); try (intros; discriminate); try exact I; auto].
      apply (any_kv g HX HE); auto. clear NE. revert H. clear - IH HX HE HNC NK.
      induction 1 as [|e y es xs (js & a & b & -> & -> & NR & FN & EX & HA & HB) _ IHl]; constructor; [|exact IHl].
      apply (any_class g HX HE). split; [now apply no_dup_2|]. split; [exact NR|]. split; [revert FN; apply Forall_impl; intros k; apply HNC|]. split; [exact EX|].
      constructor; [|constructor; [|constructor]]; unfold gets; cbn [m_name m_nullable m_parse]; rewrite <- lookup_assoc.
      + destruct (lookup kn js) as [v'|]; [|exact HA]. split; [now apply IH|]. intros ->. eapply typed_null; eauto.
      + destruct (lookup vn js) as [v'|]; [|exact HB]. split; [now apply IH|]. intros ->. eapply typed_null; eauto.
    - apply (reads_guard_c (TCustom k) (fun known buf p => parse_custom_in g k known buf p)); [|reflexivity]. apply reads_custom_in.
      destruct H as (s & -> & H). destruct k.
      + destruct H as [-> H]. now apply (reads_custom_string g HX HE).
      + apply (reads_literal g HX HE); auto.
      + destruct H as [H|(b & -> & ->)]; [apply (reads_literal g HX HE); auto|now apply (reads_custom_any g HX HE)].
    - apply (reads_guard_c (TVariant alts) (fun known buf p => parse_value_variant (map (fun t => (base_kind t, parse_value_cs g t)) alts) known buf p)); [|reflexivity].
      destruct H as (i & y & -> & H).
      assert (G : exists t, chosen v alts i t /\ reads g (parse_value_cs g t) v y).
      { revert i H. induction alts as [|t alts IHa]; intros i H; [destruct i; contradiction|]. destruct i as [|i]; destruct H as [H1 H2].
        - exists t. split; [split; [exact H1|reflexivity]|now apply IH].
        - destruct (IHa i H2) as (t' & C & R). exists t'. split; [split; [exact H1|exact C]|exact R]. }
      destruct G as (t & C & R). eapply (any_variant g HX HE (parse_value_cs g)); eauto.
    - destruct H as (js & y & z & -> & -> & NR & FN & EX & HY & HZ).
      apply (reads_guard_c (TIntrusive exact tag t switch alts) (fun _ => parse_value_variant_intrusive
         (parse_value_class g exact [mkmember tag (is_nullable t) (parse_value_cs g t)]) switch (map (parse_value_cs g) alts)));
        [|intros NV buf r H32 HL; apply (tidy_other (TIntrusive exact tag t switch alts) (JObj js)); try (intros; discriminate); try exact I; auto].
      assert (G : exists P, nth_error (map (parse_value_cs g) alts) (switch y) = Some P /\ reads g P (JObj js) z).
      { generalize (switch y) HZ. clear HZ HY. induction alts as [|t' alts IHa]; intros i H; [destruct i; contradiction|]. destruct i as [|i].
        - exists (parse_value_cs g t'). split; [reflexivity|now apply IH].
        - cbn [map nth_error]. now apply IHa. }
      destruct G as (P & HP & RP). apply (any_intrusive g HX HE) with (P := P); auto.
      apply (any_class g HX HE). split; [apply no_dup_1|]. split; [exact NR|]. split; [revert FN; apply Forall_impl; intros k; apply HNC|]. split; [exact EX|].
      constructor; [|constructor]. unfold gets; cbn [m_name m_nullable m_parse]; rewrite <- lookup_assoc.
      destruct (lookup tag js) as [v'|]; [|exact HY]. split; [now apply IH|]. intros ->. eapply typed_null; eauto.
  Qed.


  (** ** Whole documents *)

  Lemma strict_leading_c : forall t buf p c, is_bytes buf -> trims t = true -> forall w, ws w -> sub_at buf (first p) (w ++ [c]) -> 32 < c ->
    (first p + length w < last p)%nat ->
    parse_value_cs g t false buf p = parse_value_cs g t false buf (set_first p (first p + length w)).
  Proof.
    intros t buf p c HB HT w W HS HC HL.
    assert (T1 : trim_left_checked buf p = Ok (set_first p (first p + length w))) by (apply (trim_to buf p w c); auto; lia).
    set (p' := set_first p (first p + length w)) in *.
    assert (T2 : trim_left_checked buf p' = Ok p').
    { apply sub_at_app in HS as [_ [HS _]]. now apply (trim_here buf p' c). }
    destruct t; try discriminate HT; cbn [parse_value_cs andb].
    - unfold parse_value_array. now rewrite T1, T2.
    - unfold parse_value_class. unfold has_more. change (last p') with (last p). change (first p') with (first p + length w)%nat.
      replace (first p <? last p)%nat with true by lia. replace (first p + length w <? last p)%nat with true by lia. cbn [ensure bind].
      unfold parse_json_class. now rewrite T1, T2.
    - unfold parse_tuple_in, parse_tuple. now rewrite T1, T2.
  Qed.

  Theorem from_json_c_typed : forall (cp : pol) verify t v x doc doc', cp <> CNone -> is_bytes doc -> N.of_nat (length doc) < 2^32 - 1 ->
    blanked cp Anywhere doc doc' -> document t v doc' -> typed nc t v x -> from_json_c cp g verify t doc = Ok x.
  Proof.
    intros cp verify t v x D B NCP HBD HL32 BL (w0 & tx & w & z & W0 & TR & HT & W & HZ & ES) HTy.
    replace (w0 ++ tx ++ w ++ z) with ((w0 ++ tx ++ w) ++ z) in * by (rewrite <- !app_assoc; reflexivity).
    assert (LEN : length D = length B) by (eapply blanked_length0; eauto).
    assert (HBB : is_bytes B) by (eapply blanked_bytes; eauto).
    assert (T : two cp D B) by (split; [exact LEN|]; split; [exact HBD|]; split; [exact HBB|]; split; [exact NCP|]; split; [change (2^32) with 4294967296 in *; lia|exact (blanked_min _ _ _ _ BL)]).
    destruct (blanked_reach cp D B T _ _ _ BL [] [] eq_refl eq_refl eq_refl) as (y & R). cbn [length] in R. rewrite LEN in R.
    destruct (jtext_head _ _ _ HT) as (c0 & r0 & ET & ST). destruct (jtext_last _ _ _ HT) as (rl & cl & EL & NL).
    destruct (ws_last rl cl w NL W) as (r' & c' & E' & N').
    set (l := length (w0 ++ tx ++ w)) in *.
    assert (LL : l = (length w0 + length tx + length w)%nat) by (unfold l; rewrite !app_length; lia).
    assert (LT : (0 < length tx)%nat) by (rewrite ET; cbn; lia).
    assert (LB : length B = (l + length z)%nat) by (rewrite ES, app_length; reflexivity).
    assert (LE : (l <= length B)%nat) by lia.
    assert (NL' : nth_error B (l - 1) = Some c').
    { assert (EW : w0 ++ tx ++ w = (w0 ++ r') ++ [c']) by (rewrite EL, E'; now rewrite app_assoc). rewrite ES. rewrite nth_error_app1 by (fold l; lia).
      assert (LW : l = S (length (w0 ++ r'))) by (unfold l; rewrite EW, (app_length (w0 ++ r')); cbn [length]; lia). rewrite EW, LW. replace (S (length (w0 ++ r')) - 1)%nat with (length (w0 ++ r')) by lia.
      rewrite nth_error_app2, Nat.sub_diag by lia. reflexivity. }
    (* the end *)
    assert (ZZ : exists d, nth_error D (length B - 1) = Some d /\ (if d =? 0 then (length B - 1)%nat else length B) = l /\ (exists y', reach cp D B Anywhere 0 y' l) /\ (l = length B \/ both cp D B l /\ nth_error B l = Some 0)).
    { destruct (length B) as [|m] eqn:EM; [lia|]. destruct (last_same cp D B T g (conj HX HE) _ _ _ _ R m eq_refl ltac:(lia)) as (b & d & Hb & Hd & SD). replace (S m - 1)%nat with m by lia.
      exists d. split; [exact Hd|]. destruct HZ as [->| ->]; cbn [length] in LB.
      - assert (m = (l - 1)%nat) by lia. subst m. assert (b = c') by congruence. subst b. split; [|split; [|left; lia]].
        + replace (d =? 0) with false; [lia|]. symmetry. apply N.eqb_neq. destruct SD as [->|[_ SD]]; [lia|exact SD].
        + replace l with (S (l - 1)) by lia. eauto.
      - assert (m = l) by lia. subst m. assert (Z0 : nth_error B l = Some 0) by (rewrite ES, nth_error_app2 by (fold l; lia); fold l; rewrite Nat.sub_diag; reflexivity).
        assert (b = 0) by congruence. subst b. assert (d = 0) by (destruct SD as [->|[SD _]]; [auto|discriminate]). subst d. split; [reflexivity|]. split; [eapply reach_drop; eauto; lia|].
        right. split; [|exact Z0]. exists 0, 0. split; [exact Z0|]. split; [exact Hd|now left]. }
    destruct ZZ as (d & Hd & EL' & (y' & R') & FI).
    unfold from_json_c. rewrite LEN. replace (length B =? 0)%nat with false by lia. cbn [negb ensure bind]. rewrite (rd_some _ _ _ Hd). cbn [bind]. rewrite EL'. cbv zeta.
    assert (STX : sub_at B (length w0) tx).
    { rewrite ES. replace ((w0 ++ tx ++ w) ++ z) with (w0 ++ tx ++ (w ++ z)) by (rewrite <- !app_assoc; reflexivity). apply sub_at_mid. }
    set (p := set_first (new_ps 0 l) (length w0)).
    assert (H32 : N.of_nat (length B) < 2^32) by (change (2^32) with 4294967296 in *; lia).
    assert (WF : wf B p) by (apply wf_doc; auto; lia).
    assert (EP : parse_value_cs g t false B (new_ps 0 l) = parse_value_cs g t false B p).
    { destruct (trims t) eqn:TT.
      - apply (strict_leading_c t B (new_ps 0 l) c0 HBB TT w0 W0); cbn [first last new_ps].
        + rewrite ES, ET. rewrite <- app_assoc.
          replace (w0 ++ ((c0 :: r0) ++ w) ++ z) with ((w0 ++ [c0]) ++ (r0 ++ w) ++ z) by (rewrite <- !app_assoc; reflexivity). apply sub_at_0.
        + unfold starter in ST. lia.
        + lia.
      - unfold p. rewrite (TR eq_refl). reflexivity. }
    assert (HF : followed true B (first p + length tx) l (last p)).
    { exists w. split; [exact W|]. unfold p. cbn [first last set_first new_ps]. split; [|split; [lia|split; [lia|left; auto]]].
      rewrite ES. replace ((w0 ++ tx ++ w) ++ z) with ((w0 ++ tx) ++ w ++ z) by (rewrite <- !app_assoc; reflexivity).
      rewrite <- app_length. apply sub_at_mid. }
    destruct (proj1 (strict_reads_c t v x HTy) B p tx l WF H32 HT STX HF) as (q & EQ & MQ & LQ).
    assert (S0 : st cp D B (new_ps 0 l)).
    { split; [reflexivity|]. split; [exact I|]. split; [|split; [exists Anywhere, y'; exact R'|exists l; split; [reflexivity|cbn; lia]]].
      cbn [last new_ps]. split; [exact LE|]. destruct FI as [->|[FB F0]]; auto. }
    destruct (proj1 (sim_value_c cp D B T g (conj HX HE) t) (new_ps 0 l) S0 (x, q)) as [EC (SQ & _)]; [now rewrite EP|]. rewrite EC. cbn [bind]. destruct verify; [|reflexivity].
    assert (LQl : last q = l) by (rewrite (proj1 MQ); reflexivity).
    assert (TQ : trim_left_checked B q = Ok (set_first q l)).
    { apply (trim_followed B q l HBB). rewrite LQl. change (last p) with l in HF. eapply followed_from; [exact HF|exact LQ]. }
    destruct (sp_trim cp D B T q SQ _ TQ) as [TC _]. rewrite TC. cbn [bind]. unfold ps_empty. cbn [isnull first last set_first]. rewrite LQl, Nat.leb_refl, orb_true_r. reflexivity.
  Qed.
End Cfg.
