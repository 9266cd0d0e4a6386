(** Every mapped type: what the parser of the checked mode reads from a document
    followed by a zero byte, the parser for zero-terminated documents reads too. *)
From Coq Require Import List NArith ZArith Bool Lia Arith ZifyBool ZifyNat ZifyN.
From Verif Require Import Base Mem Loop PolicyModel IntModel StrScanModel SkipModel SpecNum SpecText SpecJson SpecUnicode
  IntProofs IntSerProofs IntValueProofs StrScanProofs StrScanProofs2 StrScanProofs3 SkipProofs BracketProofs SkipSafe
  PropertiesStr PropertiesSkip StrDecodeModel StrDecodeProofs HashModel PropertiesHash ValueModel SpecTyped
  NameProofs ClassProofs ClassProofs2 ScalarProofs ArrayProofs VariantProofs TypedProofs ZModel ZInt ZScan ZSim.
Import ListNotations.
Local Open Scope N_scope.

(** ** A parser that refuses skipped values that are not the whole text

    Where the bounds of a value are known the parser of the checked mode stops
    at the end of the range, and the one for zero-terminated documents at the
    first byte that is no digit.  The two agree on ranges that hold a value of
    the type and nothing else; [tidy] tells them. *)
Definition tidy (t : ty) (buf : list N) (p : ps) : bool :=
  match t with
  | TUInt _ _ => all_digits buf (first p) (last p)
  | TInt _ _ =>
      all_digits buf (first p) (last p) ||
      match nth_error buf (first p) with
      | Some c => (c =? 45) && (S (first p) <? last p)%nat && all_digits buf (S (first p)) (last p)
      | None => false
      end
  | TArr _ | TMap _ | TClass _ _ | TTuple _ _ | TKvArr _ _ _ _ _ | TIntrusive _ _ _ _ _ =>
      (first p <? last p)%nat &&
      match nth_error buf (last p - 1) with Some c => (c =? 93) || (c =? 125) | None => false end
  | _ => true
  end.

Fixpoint parse_value_s (g : cfg) (t : ty) : parser :=
  fun known buf p =>
  if known && negb (tidy t buf p) then Err InvalidNumber else
  match t with
  | TUInt w rc => '(v, p) <- parse_value_unsigned known LSNever w rc buf p ;; Ok (VInt (Z.of_N v), p)
  | TInt w rc => '(v, p) <- parse_value_signed known LSNever w rc buf p ;; Ok (VInt v, p)
  | TBool => parse_value_bool known buf p
  | TStr => '(s, p) <- parse_value_string_escaped true known (c_ex g) true buf p ;; Ok (VStr s, p)
  | TNullable t => parse_value_null (parse_value_s g t) known buf p
  | TArr t => parse_value_array (parse_value_s g t) buf p
  | TMap t => parse_value_keyvalue g (parse_value_s g t) buf p
  | TClass exact ms =>
      parse_value_class g exact
        (map (fun m => mkmember (fst m) (is_nullable (snd m)) (parse_value_s g (snd m))) ms) known buf p
  | TTuple exact ts => parse_tuple g exact (map (parse_value_s g) ts) buf p
  | TKvArr exact kn tk vn tv =>
      parse_value_keyvalue_array
        (parse_value_class g exact
           [mkmember kn (is_nullable tk) (parse_value_s g tk); mkmember vn (is_nullable tv) (parse_value_s g tv)]) buf p
  | TCustom k => parse_value_custom g k known buf p
  | TVariant alts => parse_value_variant (map (fun t => (base_kind t, parse_value_s g t)) alts) known buf p
  | TIntrusive exact tag t switch alts =>
      parse_value_variant_intrusive
        (parse_value_class g exact [mkmember tag (is_nullable t) (parse_value_s g t)]) switch
        (map (parse_value_s g) alts) buf p
  end.

(** ** The parsers of one type agree *)
Section Sim.
  Context (buf : list N) (L : nat) (g : cfg).
  Hypothesis ZD : zdoc buf L.
  Hypothesis HX : c_ex g = ExConstexpr.
  Hypothesis HE : c_excl g = false.

  Local Notation psim := (psim buf L).

  Lemma guarded : forall t (P Q : parser),
    (forall p p', rel buf L p p' -> sim (pv buf L) (P false buf p) (Q false buf p')) ->
    (forall p, loc_ok buf L p -> tidy t buf p = true -> sim (fun a b => fst a = fst b) (P true buf p) (Q true buf p)) ->
    psim (fun known buf p => if known && negb (tidy t buf p) then Err InvalidNumber else P known buf p) Q.
  Proof.
    intros t P Q H1 H2. split; [exact H1|]. intros p LO. cbn [andb]. destruct (tidy t buf p) eqn:E; cbn [negb]; [now apply H2|]. apply sim_err.
  Qed.

  Lemma guarded_psim : forall t (P Q : parser), psim P Q ->
    psim (fun known buf p => if known && negb (tidy t buf p) then Err InvalidNumber else P known buf p) Q.
  Proof. intros t P Q [H1 H2]. apply guarded; auto. Qed.

  (** A range that ends in a bracket *)
  Lemma loc_good : forall p c, loc_ok buf L p -> (first p < last p)%nat -> nth_error buf (last p - 1) = Some c -> c = 93 \/ c = 125 -> good buf L p.
  Proof.
    intros p c (NN & LE & _ & CL) LT Hc C. split; [exact NN|]. split; [right; exists (last p - 1)%nat, c; split; [lia|auto]|]. split; [lia|].
    destruct CL as [CL|(k & c' & EK & Hk & N1 & N2)]; [exact CL|]. exfalso. assert (k = (last p - 1)%nat) by lia. subst k.
    assert (c' = c) by congruence. subst. tauto.
  Qed.

  Lemma tidy_good : forall t p, loc_ok buf L p -> tidy t buf p = true ->
    match t with TArr _ | TMap _ | TClass _ _ | TTuple _ _ | TKvArr _ _ _ _ _ | TIntrusive _ _ _ _ _ => True | _ => False end -> good buf L p.
  Proof.
    intros t p LO H HT. destruct t; try contradiction; cbn [tidy] in H; apply andb_true_iff in H as [H1 H2];
      (destruct (nth_error buf (last p - 1)) as [c|] eqn:E; [|discriminate]); apply (loc_good p c); auto; lia.
  Qed.

  (** Types whose parser does not care whether the bounds are known *)
  Lemma guarded_range : forall t (P Q : list N -> ps -> res (val * ps)),
    match t with TArr _ | TMap _ | TClass _ _ | TTuple _ _ | TKvArr _ _ _ _ _ | TIntrusive _ _ _ _ _ => True | _ => False end ->
    (forall p p', rel buf L p p' -> sim (pv buf L) (P buf p) (Q buf p')) ->
    psim (fun known buf p => if known && negb (tidy t buf p) then Err InvalidNumber else P buf p) (fun _ buf p => Q buf p).
  Proof.
    intros t P Q HT H. apply (guarded t (fun _ => P) (fun _ => Q)); [exact H|]. intros p LO E a EA.
    destruct (H p p (rel_refl _ _ ZD _ (tidy_good t p LO E HT)) a EA) as (b & EB & R & _). exists b. auto.
  Qed.

  Lemma psim_unsigned : forall w rc,
    psim (fun known buf p => if known && negb (tidy (TUInt w rc) buf p) then Err InvalidNumber
             else '(v, p) <- parse_value_unsigned known LSNever w rc buf p ;; Ok (VInt (Z.of_N v), p))
         (fun known buf p => '(v, p) <- parse_value_unsigned_z known w rc buf p ;; Ok (VInt (Z.of_N v), p)).
  Proof.
    intros w rc. apply (guarded (TUInt w rc) (fun known buf p => '(v, p) <- parse_value_unsigned known LSNever w rc buf p ;; Ok (VInt (Z.of_N v), p))).
    - intros p p' HR. apply (sim_bind _ _ (pv buf L)).
      + unfold parse_value_unsigned, parse_value_unsigned_z, skip_quote_when_literal_as_string. cbn [bind]. intros a E.
        destruct (has_more p) eqn:HM; cbn [ensure bind] in E; [|discriminate]. rewrite (rel_same buf L ZD _ _ HR HM). revert a E.
        apply sim_same. intros b _. apply sim_ensure. intros OKE. split; [exact OKE|].
        eapply sim_bind; [apply (sim_unsigned_unknown buf L ZD); exact (rel_good _ _ ZD _ _ HR)|]. intros [v q] b' _ _ [-> GQ]. cbn [bind snd] in *.
        apply sim_same. intros e _. apply sim_ensure. intros OKE2. split; [exact OKE2|]. apply sim_ok. split; [reflexivity|]. now apply (rel_refl buf L ZD).
      + intros [v q] [v' q'] _ _ [EV HQ]. cbn [fst snd] in *. subst. apply sim_ok. split; auto.
    - intros p LO HT. cbn [tidy] in HT. apply (sim_bind _ _ (fun a b => b = a)).
      + unfold parse_value_unsigned, parse_value_unsigned_z. apply sim_same. intros u _. now apply (sim_unsigned_known buf L ZD).
      + intros [v q] b' _ _ ->. apply sim_ok. reflexivity.
  Qed.

  Lemma loc_next : forall p, loc_ok buf L p -> (S (first p) < last p)%nat -> loc_ok buf L (remove_prefix p 1).
  Proof.
    intros p (NN & LE & ND & CL) LT. split; [exact NN|]. cbn [first last clast remove_prefix set_first]. split; [lia|]. split; [|exact CL].
    destruct ND as [ND|(_ & ND)]; [now left|right; split; [lia|exact ND]].
  Qed.

  Lemma psim_signed : forall w rc,
    psim (fun known buf p => if known && negb (tidy (TInt w rc) buf p) then Err InvalidNumber
             else '(v, p) <- parse_value_signed known LSNever w rc buf p ;; Ok (VInt v, p))
         (fun known buf p => '(v, p) <- parse_value_signed_z known w rc buf p ;; Ok (VInt v, p)).
  Proof.
    intros w rc. apply (guarded (TInt w rc) (fun known buf p => '(v, p) <- parse_value_signed known LSNever w rc buf p ;; Ok (VInt v, p))).
    - intros p p' HR. apply (sim_bind _ _ (pv buf L)).
      + unfold parse_value_signed, parse_value_signed_z, skip_quote_when_literal_as_string. cbn [bind]. intros a E.
        destruct (has_more p) eqn:HM; cbn [ensure bind] in E; [|discriminate]. rewrite (rel_same buf L ZD _ _ HR HM). revert a E.
        pose proof (rel_good _ _ ZD _ _ HR) as G.
        apply sim_same. intros [sign q] ES.
        assert (GQ : good buf L q).
        { unfold validate_signed_first in ES. rewrite HM in ES. cbn [ensure bind] in ES. destruct (front buf p) as [c| | |] eqn:F; cbn [bind] in ES; try discriminate.
          destruct (N.eqb_spec c c_minus) as [->|].
          - injection ES as _ <-. unfold front in F. apply rd_ok_nth in F. apply (good_next buf L ZD p c_minus G F). discriminate.
          - destruct ((49 <=? c) && (c <=? 57)); [injection ES as _ <-; exact G|]. destruct (c =? c_0); [|discriminate].
            destruct (1 <? ps_size p)%nat; [|injection ES as _ <-; exact G]. destruct (rd buf (first p + 1)) as [d| | |]; cbn [bind] in ES; try discriminate.
            destruct (10 <=? (d + 2 ^ 32 - c_0) mod 2 ^ 32); cbn [ensure bind] in ES; [|discriminate]. injection ES as _ <-. exact G. }
        eapply sim_bind; [now apply (sim_unsigned_unknown buf L ZD)|]. intros [v r] b' _ _ [-> GR]. cbn [snd] in GR.
        apply sim_same. intros z _. cbn [bind].
        apply (sim_bind _ _ (rel buf L)); [apply (sim_trim buf L ZD); now apply (rel_refl buf L ZD)|]. intros s s' _ _ HS.
        rewrite (sim_end_of_item buf L ZD _ _ HS). apply sim_same. intros e _. apply sim_ensure. intros OKE2. split; [exact OKE2|]. apply sim_ok. split; auto.
      + intros [v q] [v' q'] _ _ [EV HQ]. cbn [fst snd] in *. subst. apply sim_ok. split; auto.
    - intros p LO HT. cbn [tidy] in HT. apply (sim_bind _ _ (fun a b => b = a)).
      + unfold parse_value_signed, parse_value_signed_z. apply sim_same. intros b F. apply sim_ensure. intros OKE. split; [exact OKE|].
        apply sim_same. intros [sign q] ES.
        assert (GQ : loc_ok buf L q /\ all_digits buf (first q) (last q) = true).
        { pose proof F as Hb. unfold front in Hb. apply rd_ok_nth in Hb. rewrite Hb in HT.
          unfold validate_signed_first in ES. destruct (has_more p) eqn:HM; cbn [ensure bind] in ES; [|discriminate]. rewrite F in ES. cbn [bind] in ES.
          assert (D1 : all_digits buf (first p) (last p) = true -> is_digb b = true).
          { unfold has_more in HM. intros D. unfold all_digits in D. replace (last p - first p)%nat with (S (last p - first p - 1)) in D by lia.
            assert (SK : exists r, skipn (first p) buf = b :: r).
            { destruct (nth_error_split _ _ Hb) as (l1 & l2 & EB & EL). exists l2. rewrite EB, <- EL, skipn_app, skipn_all, Nat.sub_diag. reflexivity. }
            destruct SK as (r & SK). rewrite SK in D. cbn [firstn forallb] in D. apply andb_true_iff in D. apply D. }
          destruct (N.eqb_spec b c_minus) as [->|NB].
          - injection ES as _ <-. apply orb_true_iff in HT as [HT|HT]; [specialize (D1 HT); discriminate|].
            apply andb_true_iff in HT as [HT HT2]. apply andb_true_iff in HT as [_ HT1]. split; [apply loc_next; auto; lia|].
            cbn [first last remove_prefix set_first]. now rewrite Nat.add_1_r.
          - assert (HQ : q = p).
            { destruct ((49 <=? b) && (b <=? 57)); [injection ES as _ <-; auto|]. destruct (b =? c_0); [|discriminate].
              destruct (1 <? ps_size p)%nat; [|injection ES as _ <-; auto]. destruct (rd buf (first p + 1)) as [d| | |]; cbn [bind] in ES; try discriminate.
              destruct (10 <=? (d + 2 ^ 32 - c_0) mod 2 ^ 32); cbn [ensure bind] in ES; [|discriminate]. injection ES as _ <-. auto. }
            subst q. split; [exact LO|]. apply orb_true_iff in HT as [HT|HT]; [exact HT|]. unfold c_minus in NB. replace (b =? 45) with false in HT by lia. discriminate. }
        destruct GQ as [LQ DQ]. eapply sim_bind; [now apply (sim_unsigned_known buf L ZD)|]. intros [v r] b' _ _ ->. apply sim_refl. auto.
      + intros [v q] b' _ _ ->. apply sim_ok. reflexivity.
  Qed.

  Theorem sim_value : forall t, psim (parse_value_s g t) (parse_value_z g t).
  Proof.
    fix IH 1. intros t. destruct t as [w rc|w rc| | |t|t|t|exact mm|exact ts|exact kn tk vn tv|k|alts|exact tag t switch alts]; cbn [parse_value_s parse_value_z].
    - apply psim_unsigned.
    - apply psim_signed.
    - apply (guarded_psim TBool (fun known buf p => parse_value_bool known buf p)). exact (psim_bool buf L ZD).
    - rewrite HX. apply (guarded_psim TStr (fun known buf p => '(s, p) <- parse_value_string_escaped true known ExConstexpr true buf p ;; Ok (VStr s, p))). exact (psim_string buf L ZD).
    - apply (guarded_psim (TNullable t) (fun known buf p => parse_value_null (parse_value_s g t) known buf p)). apply (psim_null buf L ZD). apply IH.
    - apply (guarded_range (TArr t) (parse_value_array (parse_value_s g t)) (parse_value_array_z (parse_value_z g t))); [exact I|].
      intros p p' HR. apply (sim_array buf L ZD); auto.
    - apply (guarded_range (TMap t) (parse_value_keyvalue g (parse_value_s g t)) (parse_value_keyvalue_z (parse_value_z g t))); [exact I|].
      intros p p' HR. apply (sim_map buf L ZD); auto.
    - assert (HF : Forall2 (msim buf L) (map (fun m => mkmember (fst m) (is_nullable (snd m)) (parse_value_s g (snd m))) mm)
                                 (map (fun m => mkmember (fst m) (is_nullable (snd m)) (parse_value_z g (snd m))) mm)).
      { induction mm as [|[nm t] mm IHm]; cbn [map]; constructor; [|exact IHm]. split; [reflexivity|]. split; [reflexivity|]. apply IH. }
      apply (guarded (TClass exact mm) (fun known buf p => parse_value_class g exact (map (fun m => mkmember (fst m) (is_nullable (snd m)) (parse_value_s g (snd m))) mm) known buf p)).
      + intros p p' HR. now apply (sim_class buf L ZD).
      + intros p LO HT. apply (sim_class_known buf L ZD); auto. exact (tidy_good (TClass exact mm) p LO HT I).
    - assert (HF : Forall2 psim (map (parse_value_s g) ts) (map (parse_value_z g) ts)).
      { induction ts as [|t ts IHt]; cbn [map]; constructor; [apply IH|exact IHt]. }
      apply (guarded_range (TTuple exact ts) (parse_tuple g exact (map (parse_value_s g) ts)) (parse_tuple_z exact (map (parse_value_z g) ts))); [exact I|].
      intros p p' HR. now apply (sim_tuple buf L ZD).
    - set (ms := [mkmember kn (is_nullable tk) (parse_value_s g tk); mkmember vn (is_nullable tv) (parse_value_s g tv)]).
      set (ms' := [mkmember kn (is_nullable tk) (parse_value_z g tk); mkmember vn (is_nullable tv) (parse_value_z g tv)]).
      assert (HF : Forall2 (msim buf L) ms ms').
      { constructor; [|constructor; [|constructor]]; (split; [reflexivity|]; split; [reflexivity|]; apply IH). }
      clearbody ms ms'. apply (guarded_range (TKvArr exact kn tk vn tv) (parse_value_keyvalue_array (parse_value_class g exact ms)) (parse_value_keyvalue_array_z (parse_value_class_z g exact ms'))); [exact I|].
      intros p p' HR. apply (sim_kv_array_unknown buf L ZD); auto. intros u u' HU. now apply (sim_class buf L ZD).
    - apply (guarded_psim (TCustom k) (fun known buf p => parse_value_custom g k known buf p)). now apply (psim_custom buf L ZD).
    - assert (HF : Forall2 (asim buf L) (map (fun t => (base_kind t, parse_value_s g t)) alts) (map (fun t => (base_kind t, parse_value_z g t)) alts)).
      { induction alts as [|t alts IHt]; cbn [map]; constructor; [split; [reflexivity|apply IH]|exact IHt]. }
      apply (guarded_psim (TVariant alts) (fun known buf p => parse_value_variant (map (fun t => (base_kind t, parse_value_s g t)) alts) known buf p)). now apply (psim_variant buf L ZD).
    - assert (HF : Forall2 psim (map (parse_value_s g) alts) (map (parse_value_z g) alts)).
      { clear t. induction alts as [|t alts IHt]; cbn [map]; constructor; [apply IH|exact IHt]. }
      set (ms := [mkmember tag (is_nullable t) (parse_value_s g t)]). set (ms' := [mkmember tag (is_nullable t) (parse_value_z g t)]).
      assert (HM : Forall2 (msim buf L) ms ms').
      { constructor; [|constructor]. split; [reflexivity|]. split; [reflexivity|]. apply IH. }
      clearbody ms ms'.
      apply (guarded_range (TIntrusive exact tag t switch alts) (parse_value_variant_intrusive (parse_value_class g exact ms) switch (map (parse_value_s g) alts))
              (parse_value_variant_intrusive (parse_value_class_z g exact ms') switch (map (parse_value_z g) alts))); [exact I|].
      intros p p' HR. apply (sim_intrusive buf L ZD); auto. intros u u' HU. now apply (sim_class buf L ZD).
  Qed.
End Sim.
