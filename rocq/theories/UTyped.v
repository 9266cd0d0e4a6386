(** Every mapped type: what the checked parser reads from a document followed by
    a zero byte, with no null and no missing member in it, the parser without
    checks reads too. *)
From Coq Require Import List NArith ZArith Bool Lia Arith ZifyBool ZifyNat ZifyN.
From Verif Require Import Base Mem Loop PolicyModel IntModel StrScanModel SkipModel SpecNum SpecText SpecJson SpecUnicode
  IntProofs IntSerProofs IntValueProofs StrScanProofs StrScanProofs2 StrScanProofs3 SkipProofs BracketProofs SkipSafe
  PropertiesStr PropertiesSkip StrDecodeModel StrDecodeProofs HashModel PropertiesHash ValueModel SpecTyped
  NameProofs ClassProofs ClassProofs2 ScalarProofs ArrayProofs VariantProofs TypedProofs ZModel ZInt ZScan ZSim ZTyped UModel USim USim2.
Import ListNotations.
Local Open Scope N_scope.

(** As [tidy]; a boolean that was skipped has to be told by the counter too. *)
Definition tidy_u (t : ty) (buf : list N) (p : ps) : bool :=
  match t with TBool => counted buf p | _ => tidy t buf p end.

Fixpoint parse_value_us (z : bool) (g : cfg) (t : ty) : parser :=
  fun known buf p =>
  if known && negb (tidy_u t buf p) then Err InvalidNumber else
  match t with
  | TUInt w rc => '(v, p) <- parse_value_unsigned known LSNever w rc buf p ;; Ok (VInt (Z.of_N v), p)
  | TInt w rc => '(v, p) <- parse_value_signed known LSNever w rc buf p ;; Ok (VInt v, p)
  | TBool => parse_value_bool known buf p
  | TStr => '(s, p) <- parse_string_s z known buf p ;; Ok (VStr s, p)
  | TNullable t => parse_null_s (parse_value_us z g t) known buf p
  | TArr t => parse_value_array (parse_value_us z g t) buf p
  | TMap t => parse_keyvalue_s z (parse_value_us z g t) buf p
  | TClass exact ms =>
      parse_value_class g exact (map (fun m => mkmember (fst m) false (parse_value_us z g (snd m))) ms) known buf p
  | TTuple exact ts => parse_tuple_s g exact (map (parse_value_us z g) ts) buf p
  | TKvArr exact kn tk vn tv =>
      parse_value_keyvalue_array
        (parse_value_class g exact
           [mkmember kn false (parse_value_us z g tk); mkmember vn false (parse_value_us z g tv)]) buf p
  | TCustom k => parse_value_custom g k known buf p
  | TVariant alts => parse_value_variant (map (fun t => (base_kind t, parse_value_us z g t)) alts) known buf p
  | TIntrusive exact tag t switch alts =>
      parse_value_variant_intrusive
        (parse_value_class g exact [mkmember tag false (parse_value_us z g t)]) switch
        (map (parse_value_us z g) alts) buf p
  end.

Section Sim.
  Context (buf : list N) (L : nat) (z : bool) (g : cfg).
  Hypothesis ZD : zdoc buf L.
  Hypothesis HX : c_ex g = ExConstexpr.
  Hypothesis HE : c_excl g = false.

  Local Notation psim := (psim buf L).
  Local Notation msim' := (fun m m' => m_name m' = m_name m /\ m_nullable m = false /\ psim (m_parse m) (m_parse m')).

  Lemma guarded_u : forall t (P Q : parser),
    (forall p p', rel buf L p p' -> sim (pv buf L) (P false buf p) (Q false buf p')) ->
    (forall p, loc_ok buf L p -> tidy_u t buf p = true -> sim (fun a b => fst a = fst b) (P true buf p) (Q true buf p)) ->
    psim (fun known buf p => if known && negb (tidy_u t buf p) then Err InvalidNumber else P known buf p) Q.
  Proof.
    intros t P Q H1 H2. split; [exact H1|]. intros p LO. cbn [andb]. destruct (tidy_u t buf p) eqn:E; cbn [negb]; [now apply H2|]. apply sim_err.
  Qed.

  Lemma guarded_psim_u : forall t (P Q : parser), psim P Q ->
    psim (fun known buf p => if known && negb (tidy_u t buf p) then Err InvalidNumber else P known buf p) Q.
  Proof. intros t P Q [H1 H2]. apply guarded_u; auto. Qed.

  Lemma tidy_u_tidy : forall t p, match t with TBool => False | _ => True end -> tidy_u t buf p = tidy t buf p.
  Proof. intros t p H. destruct t; try reflexivity. contradiction. Qed.

  Lemma guarded_range_u : forall t (P Q : list N -> ps -> res (val * ps)),
    match t with TArr _ | TMap _ | TClass _ _ | TTuple _ _ | TKvArr _ _ _ _ _ | TIntrusive _ _ _ _ _ => True | _ => False end ->
    (forall p p', rel buf L p p' -> sim (pv buf L) (P buf p) (Q buf p')) ->
    psim (fun known buf p => if known && negb (tidy_u t buf p) then Err InvalidNumber else P buf p) (fun _ buf p => Q buf p).
  Proof.
    intros t P Q HT H. apply (guarded_u t (fun _ => P) (fun _ => Q)); [exact H|]. intros p LO E a EA.
    rewrite tidy_u_tidy in E by (destruct t; try exact I; contradiction).
    destruct (H p p (rel_refl _ _ ZD _ (tidy_good buf L g t p LO E HT)) a EA) as (b & EB & R & _). exists b. auto.
  Qed.

  Lemma psim_unsigned_u : forall w rc,
    psim (fun known buf p => if known && negb (tidy_u (TUInt w rc) buf p) then Err InvalidNumber
             else '(v, p) <- parse_value_unsigned known LSNever w rc buf p ;; Ok (VInt (Z.of_N v), p))
         (fun known buf p => '(v, p) <- parse_value_unsigned_u z known w rc buf p ;; Ok (VInt (Z.of_N v), p)).
  Proof.
    intros w rc. apply (guarded_u (TUInt w rc) (fun known buf p => '(v, p) <- parse_value_unsigned known LSNever w rc buf p ;; Ok (VInt (Z.of_N v), p))).
    - intros p p' HR. apply (sim_bind _ _ (pv buf L)).
      + unfold parse_value_unsigned, parse_value_unsigned_u, skip_quote_when_literal_as_string. cbn [bind]. intros a E.
        destruct (has_more p) eqn:HM; cbn [ensure bind] in E; [|discriminate]. rewrite (rel_same buf L ZD _ _ HR HM).
        destruct (front buf p) as [b| | |]; cbn [bind] in E; try discriminate. destruct (ensure _ InvalidNumber) in E; cbn [bind] in E; try discriminate.
        destruct (unsigned_parser false w rc buf p) as [[v q]| | |] eqn:EU; cbn [bind] in E; try discriminate.
        destruct (sim_unsigned_unknown_u buf L z ZD w rc p (rel_good _ _ ZD _ _ HR) _ EU) as (b' & -> & -> & GQ). cbn [snd] in GQ.
        destruct (end_of_item_ok buf q) as [e| | |]; cbn [bind] in E; try discriminate. destruct e; cbn [ensure bind] in E; [|discriminate]. injection E as <-.
        exists (v, q). split; [reflexivity|]. split; [reflexivity|]. now apply (rel_refl buf L ZD).
      + intros [v q] [v' q'] _ _ [EV HQ]. cbn [fst snd] in *. subst. apply sim_ok. split; auto.
    - intros p LO HT. cbn [tidy_u tidy] in HT. apply (sim_bind _ _ (fun a b => b = a)).
      + unfold parse_value_unsigned, parse_value_unsigned_u. intros a E. destruct (_ : res unit) in E; cbn [bind] in E; try discriminate.
        revert a E. now apply (sim_unsigned_known_u buf L z ZD).
      + intros [v q] b' _ _ ->. apply sim_ok. reflexivity.
  Qed.

  Lemma validate_signed_follows : forall p r, validate_signed_first buf p = Ok r -> validate_signed_u buf p = Ok r.
  Proof.
    intros p r E. unfold validate_signed_first in E. unfold validate_signed_u. destruct (has_more p); cbn [ensure bind] in E; [|discriminate].
    destruct (front buf p) as [c| | |]; cbn [bind] in *; try discriminate. destruct (c =? c_minus); [exact E|].
    destruct ((49 <=? c) && (c <=? 57)) eqn:EC.
    - replace ((48 <=? c) && (c <=? 57)) with true by lia. exact E.
    - destruct (N.eqb_spec c c_0) as [->|]; [|discriminate]. change ((48 <=? c_0) && (c_0 <=? 57)) with true. cbv iota.
      destruct (1 <? ps_size p)%nat; [|exact E]. destruct (rd buf (first p + 1)) as [d| | |]; cbn [bind] in E; try discriminate.
      destruct (10 <=? (d + 2 ^ 32 - c_0) mod 2 ^ 32); cbn [ensure bind] in E; [exact E|discriminate].
  Qed.

  Lemma psim_signed_u : forall w rc,
    psim (fun known buf p => if known && negb (tidy_u (TInt w rc) buf p) then Err InvalidNumber
             else '(v, p) <- parse_value_signed known LSNever w rc buf p ;; Ok (VInt v, p))
         (fun known buf p => '(v, p) <- parse_value_signed_u z known w rc buf p ;; Ok (VInt v, p)).
  Proof.
    intros w rc. apply (guarded_u (TInt w rc) (fun known buf p => '(v, p) <- parse_value_signed known LSNever w rc buf p ;; Ok (VInt v, p))).
    - intros p p' HR. apply (sim_bind _ _ (pv buf L)).
      + unfold parse_value_signed, parse_value_signed_u, skip_quote_when_literal_as_string. cbn [bind]. intros a E.
        destruct (has_more p) eqn:HM; cbn [ensure bind] in E; [|discriminate]. rewrite (rel_same buf L ZD _ _ HR HM).
        pose proof (rel_good _ _ ZD _ _ HR) as G.
        destruct (validate_signed_first buf p) as [[sign q]| | |] eqn:ES; cbn [bind] in E; try discriminate.
        rewrite (validate_signed_follows _ _ ES). cbn [bind].
        assert (GQ : good buf L q).
        { unfold validate_signed_first in ES. rewrite HM in ES. cbn [ensure bind] in ES. destruct (front buf p) as [c| | |] eqn:F; cbn [bind] in ES; try discriminate.
          destruct (N.eqb_spec c c_minus) as [->|].
          - injection ES as _ <-. unfold front in F. apply rd_ok_nth in F. apply (good_next buf L ZD p c_minus G F). discriminate.
          - destruct ((49 <=? c) && (c <=? 57)); [injection ES as _ <-; exact G|]. destruct (c =? c_0); [|discriminate].
            destruct (1 <? ps_size p)%nat; [|injection ES as _ <-; exact G]. destruct (rd buf (first p + 1)) as [d| | |]; cbn [bind] in ES; try discriminate.
            destruct (10 <=? (d + 2 ^ 32 - c_0) mod 2 ^ 32); cbn [ensure bind] in ES; [|discriminate]. injection ES as _ <-. exact G. }
        revert a E. eapply sim_bind; [now apply (sim_unsigned_unknown_u buf L z ZD)|]. intros [v r] b' _ _ [-> GR]. cbn [snd] in GR.
        apply sim_same. intros y _. cbn [bind].
        apply (sim_bind _ _ (rel buf L)); [apply (sim_trim_u buf L ZD); now apply (rel_refl buf L ZD)|]. intros s s' _ _ HS.
        intros a E. destruct (end_of_item_ok buf s) as [e| | |]; cbn [bind] in E; try discriminate. destruct e; cbn [ensure bind] in E; [|discriminate]. injection E as <-.
        eexists. split; [reflexivity|]. split; auto.
      + intros [v q] [v' q'] _ _ [EV HQ]. cbn [fst snd] in *. subst. apply sim_ok. split; auto.
    - intros p LO HT. cbn [tidy_u tidy] in HT. apply (sim_bind _ _ (fun a b => b = a)).
      + unfold parse_value_signed, parse_value_signed_u. intros a E. destruct (front buf p) as [b| | |] eqn:F; cbn [bind] in E; try discriminate.
        destruct (ensure _ _) in E; cbn [bind] in E; try discriminate.
        destruct (validate_signed_first buf p) as [[sign q]| | |] eqn:ES; cbn [bind] in E; try discriminate.
        rewrite (validate_signed_follows _ _ ES). cbn [bind].
        assert (GQ : loc_ok buf L q /\ all_digits buf (first q) (last q) = true).
        { pose proof F as Hb. unfold front in Hb. apply rd_ok_nth in Hb. rewrite Hb in HT.
          unfold validate_signed_first in ES. destruct (has_more p) eqn:HM; cbn [ensure bind] in ES; [|discriminate]. rewrite F in ES. cbn [bind] in ES.
          assert (D1 : all_digits buf (first p) (last p) = true -> is_digb b = true).
          { unfold has_more in HM. intros D. unfold all_digits in D. replace (last p - first p)%nat with (S (last p - first p - 1)) in D by lia.
            assert (SK : exists r, skipn (first p) buf = b :: r).
            { destruct (nth_error_split _ _ Hb) as (l1 & l2 & EB & EL). exists l2. rewrite EB, <- EL, skipn_app, skipn_all, Nat.sub_diag. reflexivity. }
            destruct SK as (r & SK). rewrite SK in D. cbn [firstn forallb] in D. apply andb_true_iff in D. apply D. }
          destruct (N.eqb_spec b c_minus) as [->|NB].
          - injection ES as _ <-. apply orb_true_iff in HT as [HT|HT]; [specialize (D1 HT); discriminate|].
            apply andb_true_iff in HT as [HT HT2]. apply andb_true_iff in HT as [_ HT1]. split; [apply (loc_next buf L g); auto; lia|].
            cbn [first last remove_prefix set_first]. now rewrite Nat.add_1_r.
          - assert (HQ : q = p).
            { destruct ((49 <=? b) && (b <=? 57)); [injection ES as _ <-; auto|]. destruct (b =? c_0); [|discriminate].
              destruct (1 <? ps_size p)%nat; [|injection ES as _ <-; auto]. destruct (rd buf (first p + 1)) as [d| | |]; cbn [bind] in ES; try discriminate.
              destruct (10 <=? (d + 2 ^ 32 - c_0) mod 2 ^ 32); cbn [ensure bind] in ES; [|discriminate]. injection ES as _ <-. auto. }
            subst q. split; [exact LO|]. apply orb_true_iff in HT as [HT|HT]; [exact HT|]. unfold c_minus in NB. replace (b =? 45) with false in HT by lia. discriminate. }
        destruct GQ as [LQ DQ]. revert a E. eapply sim_bind; [now apply (sim_unsigned_known_u buf L z ZD)|]. intros [v r] b' _ _ ->. apply sim_refl. auto.
      + intros [v q] b' _ _ ->. apply sim_ok. reflexivity.
  Qed.

  Theorem sim_value_u : forall t, psim (parse_value_us z g t) (parse_value_u z g t).
  Proof.
    fix IH 1. intros t. destruct t as [w rc|w rc| | |t|t|t|exact mm|exact ts|exact kn tk vn tv|k|alts|exact tag t switch alts]; cbn [parse_value_us parse_value_u].
    - apply psim_unsigned_u.
    - apply psim_signed_u.
    - apply (guarded_u TBool (fun known buf p => parse_value_bool known buf p)).
      + intros p p' HR. now apply (sim_bool_value_u buf L ZD).
      + intros p LO HT. now apply sim_bool_known_u.
    - apply (guarded_psim_u TStr (fun known buf p => '(s, p) <- parse_string_s z known buf p ;; Ok (VStr s, p))). exact (psim_string_u buf L z ZD).
    - apply (guarded_psim_u (TNullable t) (fun known buf p => parse_null_s (parse_value_us z g t) known buf p)). apply (psim_null_u buf L ZD). apply IH.
    - apply (guarded_range_u (TArr t) (parse_value_array (parse_value_us z g t)) (parse_value_array_u z (parse_value_u z g t))); [exact I|].
      intros p p' HR. apply (sim_array_u buf L z ZD); auto.
    - apply (guarded_range_u (TMap t) (parse_keyvalue_s z (parse_value_us z g t)) (parse_value_keyvalue_u z (parse_value_u z g t))); [exact I|].
      intros p p' HR. apply (sim_map_u buf L z ZD); auto.
    - assert (HF : Forall2 msim' (map (fun m => mkmember (fst m) false (parse_value_us z g (snd m))) mm)
                                 (map (fun m => mkmember (fst m) (is_nullable (snd m)) (parse_value_u z g (snd m))) mm)).
      { induction mm as [|[nm t] mm IHm]; cbn [map]; constructor; [|exact IHm]. split; [reflexivity|]. split; [reflexivity|]. apply IH. }
      apply (guarded_u (TClass exact mm) (fun known buf p => parse_value_class g exact (map (fun m => mkmember (fst m) false (parse_value_us z g (snd m))) mm) known buf p)).
      + intros p p' HR. now apply (sim_class_u buf L z ZD).
      + intros p LO HT. apply (sim_class_known_u buf L z ZD); auto. exact (tidy_good buf L g (TClass exact mm) p LO HT I).
    - assert (HF : Forall2 psim (map (parse_value_us z g) ts) (map (parse_value_u z g) ts)).
      { induction ts as [|t ts IHt]; cbn [map]; constructor; [apply IH|exact IHt]. }
      apply (guarded_range_u (TTuple exact ts) (parse_tuple_s g exact (map (parse_value_us z g) ts)) (parse_tuple_u exact (map (parse_value_u z g) ts))); [exact I|].
      intros p p' HR. now apply (sim_tuple_u buf L ZD).
    - set (ms := [mkmember kn false (parse_value_us z g tk); mkmember vn false (parse_value_us z g tv)]).
      set (ms' := [mkmember kn (is_nullable tk) (parse_value_u z g tk); mkmember vn (is_nullable tv) (parse_value_u z g tv)]).
      assert (HF : Forall2 msim' ms ms').
      { constructor; [|constructor; [|constructor]]; (split; [reflexivity|]; split; [reflexivity|]; apply IH). }
      clearbody ms ms'. apply (guarded_range_u (TKvArr exact kn tk vn tv) (parse_value_keyvalue_array (parse_value_class g exact ms)) (parse_value_keyvalue_array_u z (parse_value_class_u z g exact ms'))); [exact I|].
      intros p p' HR. apply (sim_kv_array_u buf L z ZD); auto. intros u u' HU. now apply (sim_class_u buf L z ZD).
    - apply (guarded_psim_u (TCustom k) (fun known buf p => parse_value_custom g k known buf p)). now apply (psim_custom_u buf L z ZD).
    - assert (HF : Forall2 (asim buf L) (map (fun t => (base_kind t, parse_value_us z g t)) alts) (map (fun t => (base_kind t, parse_value_u z g t)) alts)).
      { induction alts as [|t alts IHt]; cbn [map]; constructor; [split; [reflexivity|apply IH]|exact IHt]. }
      apply (guarded_psim_u (TVariant alts) (fun known buf p => parse_value_variant (map (fun t => (base_kind t, parse_value_us z g t)) alts) known buf p)). now apply (psim_variant_u buf L ZD).
    - assert (HF : Forall2 psim (map (parse_value_us z g) alts) (map (parse_value_u z g) alts)).
      { clear t. induction alts as [|t alts IHt]; cbn [map]; constructor; [apply IH|exact IHt]. }
      set (ms := [mkmember tag false (parse_value_us z g t)]). set (ms' := [mkmember tag (is_nullable t) (parse_value_u z g t)]).
      assert (HM : Forall2 msim' ms ms').
      { constructor; [|constructor]. split; [reflexivity|]. split; [reflexivity|]. apply IH. }
      clearbody ms ms'.
      apply (guarded_range_u (TIntrusive exact tag t switch alts) (parse_value_variant_intrusive (parse_value_class g exact ms) switch (map (parse_value_us z g) alts))
              (parse_value_variant_intrusive_u (parse_value_class_u z g exact ms') switch (map (parse_value_u z g) alts))); [exact I|].
      intros p p' HR. apply (sim_intrusive_u buf L); auto. intros u u' HU. now apply (sim_class_u buf L z ZD).
  Qed.
End Sim.
