(** C07 for integers, and C73: a value of another kind than the mapped type is
    rejected. *)
From Coq Require Import String.
From Coq Require Import List NArith ZArith Bool Lia Arith ZifyBool ZifyNat ZifyN.
From Verif Require Import Base Mem PolicyModel IntModel Loop StrScanModel SkipModel SpecNum SpecText SpecJson IntProofs IntValueProofs
  StrDecodeModel ValueModel ScalarProofs VariantProofs KindProofs SpecTyped PropertiesSkip PropertiesTyped.
Import ListNotations.
Local Open Scope N_scope.

(** ** C07: integers *)

(** Full claim: what is accepted is a [jnum].  Proved: what is accepted as an
    unsigned integer is a run of digits, all of them, with nothing else before
    the end of the item, and the value is that of the digits modulo the type
    (leading zeros are accepted, as are bytes above 0x7F after the digits). *)
Theorem C07_unsigned_partial : forall w rc buf p v q, is_bytes buf -> (first p <= last p <= length buf)%nat ->
  parse_value_unsigned false LSNever w rc buf p = Ok (v, q) ->
  exists ds, digits ds /\ ds <> [] /\ sub_at buf (first p) ds /\ q = set_first p (first p + length ds) /\
    (first p + length ds <= last p)%nat /\ item_ends buf (first p + length ds) (last p) /\
    v = (dec_val ds mod 2^64) mod 2^w.
Proof. exact unsigned_accepts. Qed.
Print Assumptions C07_unsigned_partial.

(** As a signed integer: a sign, digits (after a minus sign possibly none) and
    white space, which is skipped. *)
Theorem C07_signed_partial : forall w rc buf p v q, is_bytes buf -> (first p <= last p <= length buf)%nat ->
  parse_value_signed false LSNever w rc buf p = Ok (v, q) ->
  exists (neg : bool) ds wsp, digits ds /\ (neg = false -> ds <> []) /\ Forall (fun b => 1 <= b <= 32) wsp /\
    sub_at buf (first p) (sign_text neg ++ ds ++ wsp) /\ q = set_first p (first p + length (sign_text neg ++ ds ++ wsp)) /\
    (first q <= last p)%nat /\ item_ends buf (first q) (last p) /\ run_ends buf (first p + length (sign_text neg ++ ds)) (last p).
Proof. exact signed_accepts. Qed.
Print Assumptions C07_signed_partial.

(** A minus sign alone is read as zero. *)
Theorem C07_minus_refuted : ~ jnum (bytes "-") /\
  parse_value_signed false LSNever 32 true (bytes "-,") (new_ps 0 2) = Ok (0%Z, set_first (new_ps 0 2) 1).
Proof.
  split; [exact jnum_minus|vm_compute; reflexivity].
Qed.
Print Assumptions C07_minus_refuted.

Example C07_int_ex : parse_value_unsigned false LSNever 8 false (bytes "300,") (new_ps 0 4) = Ok (44, set_first (new_ps 0 4) 3) /\
  parse_value_unsigned false LSNever 8 false (bytes "12a") (new_ps 0 3) = Err InvalidEndOfValue /\
  parse_value_signed false LSNever 8 false (bytes "-12 ,") (new_ps 0 5) = Ok ((-12)%Z, set_first (new_ps 0 5) 4).
Proof. repeat split; vm_compute; reflexivity. Qed.

(** ** C73 *)

(** The kinds of values a type is for.  A number for an integer has no fraction,
    no exponent and, for an unsigned type, no sign.  A variant is for what the
    alternative the value is meant for is for. *)
Fixpoint kind_fits (t : ty) (v : jv) : Prop :=
  match t, v with
  | TUInt _ _, JNum n => digits n
  | TInt _ _, JNum n => digits n \/ exists ds, n = 45 :: ds /\ digits ds
  | TBool, JTrue | TBool, JFalse => True
  | TStr, JStr _ => True
  | TNullable _, JNull => True
  | TNullable t, v => kind_fits t v
  | TArr _, JArr _ | TTuple _ _, JArr _ => True
  | TMap _, JObj _ | TClass _ _, JObj _ => True
  | TKvArr _ _ _ _ _, JArr _ | TIntrusive _ _ _ _ _, JObj _ => True
  | TCustom CuString, JStr _ => True
  | TCustom CuLiteral, JNull | TCustom CuLiteral, JTrue | TCustom CuLiteral, JFalse | TCustom CuLiteral, JNum _ => True
  | TCustom CuAny, _ => True
  | TVariant alts, v =>
      (fix choose (alts : list ty) : Prop :=
         match alts with [] => False | t :: r => if meant_for t v then kind_fits t v else choose r end) alts
  | _, _ => False
  end.

(** The first byte of a text *)
Definition first_byte (v : jv) (c : N) : Prop :=
  match v with
  | JNull => c = 110
  | JTrue => c = 116
  | JFalse => c = 102
  | JNum _ => c = 45 \/ is_dig c
  | JStr _ => c = 34
  | JArr _ => c = 91
  | JObj _ => c = 123
  end.

Lemma jtext_first : forall sb v t, jtext sb v t -> exists c r, t = c :: r /\ first_byte v c.
Proof.
  intros sb v t H. destruct H as [ | | |n H| | | | | ]; try (eexists _, _; split; [reflexivity|cbn; reflexivity]).
  destruct H as [sg i f e Hsg (D & NI & _) Hf He]. destruct i as [|d i]; [congruence|]. inversion D; subst.
  destruct Hsg as [->| ->]; cbn [app]; eexists _, _; (split; [reflexivity|]); cbn; auto.
Qed.

Lemma first_byte_range : forall v c, first_byte v c -> 32 < c < 128 /\ c <> 44 /\ c <> 125 /\ c <> 93 /\ c <> 58.
Proof. intros [] c H; cbn in H; unfold is_dig in *; lia. Qed.

Lemma trim_here : forall buf p c, is_bytes buf -> (first p <= last p <= length buf)%nat -> nth_error buf (first p) = Some c -> 32 < c ->
  trim_left_checked buf p = Ok p.
Proof.
  intros buf p c HB HL Hc GT. rewrite (trim_left_run buf p (first p)); auto.
  - destruct p; reflexivity.
  - apply ws_run_nil; [lia|]. right. eauto.
Qed.

(** Integers, possibly nullable or in a variant *)
Fixpoint integer_type (t : ty) : bool :=
  match t with TUInt _ _ | TInt _ _ => true | TNullable t => integer_type t | TVariant alts => existsb integer_type alts | _ => false end.

(** The alternative a value is meant for, if there is one *)
Lemma kind_choice : forall g v k alts n, kind_of v = Some k ->
  ~ (fix choose (alts : list ty) : Prop :=
       match alts with [] => False | t :: r => if meant_for t v then kind_fits t v else choose r end) alts ->
  base_map k n (map (fun t => (base_kind t, parse_value g t)) alts) = None \/
  exists i t, base_map k n (map (fun t => (base_kind t, parse_value g t)) alts) = Some (i, parse_value g t) /\ In t alts /\ ~ kind_fits t v.
Proof.
  intros g v k. induction alts as [|t alts IH]; intros n HK H; [now left|]. cbn [map base_map].
  destruct (meant_for t v) eqn:EM.
  - right. exists n, t. rewrite meant_for_kind, HK in EM. destruct (base_kind t) as [k'|]; [|discriminate].
    apply kind_eqb_eq in EM. subst k'. replace (kind_eqb k k) with true by (symmetry; now apply kind_eqb_eq).
    split; [reflexivity|]. split; [now left|exact H].
  - rewrite meant_for_kind, HK in EM.
    assert (X : base_map k n ((base_kind t, parse_value g t) :: map (fun t => (base_kind t, parse_value g t)) alts) =
                base_map k (S n) (map (fun t => (base_kind t, parse_value g t)) alts)).
    { cbn [base_map]. destruct (base_kind t) as [k'|]; [|reflexivity]. destruct (kind_eqb k k') eqn:E; [|reflexivity].
      apply kind_eqb_eq in E. subst k'. replace (kind_eqb k k) with true in EM by (symmetry; now apply kind_eqb_eq). discriminate. }
    cbn [base_map] in X. rewrite X. destruct (IH (S n) HK H) as [IH'|(i & t' & A & B & C)]; [now left|].
    right. exists i, t'. split; [exact A|]. split; [now right|exact C].
Qed.

(** The first byte decides which alternative is tried. *)
Lemma variant_first : forall alts known buf p v c, front buf p = Ok c -> first_byte v c -> (known = true -> exists i b, first p = S i /\ nth_error buf i = Some b /\ b <> 34) ->
  parse_value_variant alts known buf p = match kind_of v with Some k => parse_variant_value k alts known buf p | None => Err InvalidStartOfValue end.
Proof.
  intros alts known buf p v c HC HF HK. unfold parse_value_variant.
  replace (if known then match first p with O => UB | S i => b <- rd buf i ;; Ok (b =? c_quote) end else Ok false) with (Ok false : res bool).
  2:{ destruct known; [|reflexivity]. destruct (HK eq_refl) as (i & b & -> & Hb & NB). rewrite (rd_some _ _ _ Hb). cbn [bind]. f_equal. unfold c_quote. lia. }
  cbn [bind]. rewrite HC. cbn [bind].
  destruct v; cbn [first_byte kind_of] in *; try (subst c; reflexivity).
  unfold is_dig in HF. unfold c_lbrace, c_lbrack, c_t, c_f, c_quote, c_plus, c_minus.
  replace (c =? 123) with false by lia. replace (c =? 91) with false by lia. replace ((c =? 116) || (c =? 102)) with false by lia.
  replace (c =? 34) with false by lia. replace ((48 <=? c) && (c <=? 57) || (c =? 43) || (c =? 45)) with true by lia. reflexivity.
Qed.

(** A text that is no integer is not taken for one. *)
Lemma run_unique : forall a b buf i c c', digits a -> digits b -> sub_at buf i a -> sub_at buf i b ->
  nth_error buf (i + length a) = Some c -> ~ is_dig c -> nth_error buf (i + length b) = Some c' -> ~ is_dig c' -> length a = length b.
Proof.
  induction a as [|x a IH]; intros [|y b] buf i c c' DA DB SA SB HA NA HB NB; auto.
  - cbn [length] in HA. rewrite Nat.add_0_r in HA. destruct SB as [SB _]. inversion DB; subst. rewrite HA in SB. injection SB as ->. contradiction.
  - cbn [length] in HB. rewrite Nat.add_0_r in HB. destruct SA as [SA _]. inversion DA; subst. rewrite HB in SA. injection SA as ->. contradiction.
  - cbn [length] in *. f_equal. destruct SA as [_ SA], SB as [_ SB]. inversion DA; inversion DB; subst.
    eapply (IH b buf (S i) c c'); auto.
    + now replace (S i + length a)%nat with (i + S (length a))%nat by lia.
    + now replace (S i + length b)%nat with (i + S (length b))%nat by lia.
Qed.

(** After the digits of a number with a fraction or an exponent *)
Lemma num_rest : forall f e, frac_part f -> exp_part e -> f ++ e <> [] ->
  exists c r, f ++ e = c :: r /\ ~ is_dig c /\ 32 < c < 128 /\ ~ ends_item c.
Proof.
  intros f e Hf He NE. destruct Hf as [|ds D ND].
  - destruct He as [|x s ds X _ _ _]; [now contradiction NE|]. exists x, (s ++ ds). split; [reflexivity|]. unfold is_dig, ends_item. cbn [In]. lia.
  - exists 46, (ds ++ e). split; [reflexivity|]. unfold is_dig, ends_item. cbn [In]. lia.
Qed.

Lemma item_ends_no : forall buf i l c, item_ends buf i l -> (i < l)%nat -> nth_error buf i = Some c -> ends_item c.
Proof. intros buf i l c [->|(L & b & Hb & E)] HL Hc; [lia|]. congruence. Qed.

Lemma ends_item_nondig : forall c, ends_item c -> ~ is_dig c.
Proof. unfold ends_item, is_dig. cbn [In]. intros. lia. Qed.

Lemma not_unsigned : forall w rc n buf p v q, jnum n -> is_bytes buf -> (first p + length n <= last p)%nat -> (last p <= length buf)%nat ->
  value_ends_at buf (first p + length n) (last p) -> sub_at buf (first p) n -> ~ digits n -> parse_value_unsigned false LSNever w rc buf p <> Ok (v, q).
Proof.
  intros w rc n buf p v q HJ HB HL HLB HV HS ND E. apply unsigned_accepts in E as (ds & D & NE & S & -> & LE & IE & _); auto; [|lia].
  destruct HJ as [sg i f e Hsg (Di & NI & _) Hf He].
  destruct Hsg as [->| ->].
  2:{ destruct ds as [|d ds]; [congruence|]. destruct S as [S _]. cbn [app] in HS. destruct HS as [HS _]. inversion D; subst.
      rewrite S in HS. injection HS as ->. unfold is_dig in *. lia. }
  cbn [app] in *. apply sub_at_app in HS as [S1 S2]. rewrite app_length in HL.
  destruct (list_eq_dec N.eq_dec (f ++ e) []) as [Z|NZ].
  { rewrite Z, app_nil_r in ND. contradiction. }
  destruct (num_rest f e Hf He NZ) as (c & r & EC & NC & RC & EI). rewrite EC in S2. destruct S2 as [S2 _].
  rewrite EC in HL. cbn [length] in HL.
  assert (K : (first p + length ds < last p)%nat \/ (first p + length ds = last p)%nat) by lia. destruct K as [K|K].
  - destruct IE as [IE|(_ & b & Hb & EB)]; [lia|].
    assert (L : length ds = length i) by (eapply run_unique; eauto using ends_item_nondig).
    rewrite L in Hb. rewrite S2 in Hb. injection Hb as <-. contradiction.
  - assert (K2 : (length i < length ds)%nat) by lia.
    assert (X : sub_at buf (first p + length i) (skipn (length i) ds)) by (apply sub_at_skipn'; [lia|exact S]).
    assert (Y : digits (skipn (length i) ds)) by now apply digits_skipn.
    destruct (skipn (length i) ds) as [|y r'] eqn:EQ.
    { apply (f_equal (@length N)) in EQ. rewrite skipn_length in EQ. cbn [length] in EQ. lia. }
    destruct X as [X _]. inversion Y; subst. rewrite X in S2. injection S2 as ->. contradiction.
Qed.

Lemma not_signed : forall w rc n buf p v q, jnum n -> is_bytes buf -> (first p + length n <= last p)%nat -> (last p <= length buf)%nat ->
  sub_at buf (first p) n -> ~ (digits n \/ exists ds, n = 45 :: ds /\ digits ds) -> parse_value_signed false LSNever w rc buf p <> Ok (v, q).
Proof.
  intros w rc n buf p v q HJ HB HL HLB HS ND E. apply signed_accepts in E as (neg & ds & wsp & D & NE & W & S & -> & LE & IE & RE); auto; [|lia].
  destruct HJ as [sg i f e Hsg (Di & NI & _) Hf He].
  apply sub_at_app in HS as [S1 S2]. apply sub_at_app in S2 as [S2 S3]. apply sub_at_app in S as [S4 S5]. apply sub_at_app in S5 as [S5 S6].
  assert (NZ : f ++ e <> []).
  { intros Z. apply ND. rewrite Z, app_nil_r. destruct Hsg as [->| ->]; [left; exact Di|right]. exists i. split; [reflexivity|exact Di]. }
  destruct (num_rest f e Hf He NZ) as (c & r & EC & NC & RC & EI).
  assert (SG : sg = sign_text neg).
  { destruct Hsg as [->| ->]; destruct neg; cbn [sign_text] in *; auto.
    - destruct i as [|x i]; [congruence|]. cbn [length] in S2. rewrite Nat.add_0_r in S2. destruct S2 as [S2 _], S4 as [S4 _]. inversion Di; subst.
      rewrite S2 in S4. injection S4 as ->. unfold is_dig in *. lia.
    - destruct ds as [|x ds]; [now contradiction NE|]. cbn [length] in S5. rewrite Nat.add_0_r in S5. destruct S5 as [S5 _], S1 as [S1 _]. inversion D; subst.
      rewrite S5 in S1. injection S1 as ->. unfold is_dig in *. lia. }
  subst sg. rewrite EC in S3. destruct S3 as [S3 _]. rewrite !app_length in HL. rewrite <- app_length, EC in HL. cbn [length] in HL.
  rewrite app_length in RE. destruct RE as (RL & RE).
  assert (L : length ds = length i).
  { destruct (Nat.lt_trichotomy (length ds) (length i)) as [K|[K|K]]; auto.
    - destruct RE as [RE|(b & Hb & NB)]; [lia|].
      assert (X : sub_at buf (first p + length (sign_text neg) + length ds) (skipn (length ds) i)) by (apply sub_at_skipn'; [lia|exact S2]).
      assert (Y : digits (skipn (length ds) i)) by now apply digits_skipn.
      destruct (skipn (length ds) i) as [|y r'] eqn:EQ.
      { apply (f_equal (@length N)) in EQ. rewrite skipn_length in EQ. cbn [length] in EQ. lia. }
      destruct X as [X _]. inversion Y; subst. rewrite Nat.add_assoc in Hb. rewrite X in Hb. injection Hb as ->. contradiction.
    - assert (X : sub_at buf (first p + length (sign_text neg) + length i) (skipn (length i) ds)) by (apply sub_at_skipn'; [lia|exact S5]).
      assert (Y : digits (skipn (length i) ds)) by now apply digits_skipn.
      destruct (skipn (length i) ds) as [|y r'] eqn:EQ.
      { apply (f_equal (@length N)) in EQ. rewrite skipn_length in EQ. cbn [length] in EQ. lia. }
      destruct X as [X _]. inversion Y; subst. rewrite X in S3. injection S3 as ->. contradiction. }
  rewrite L in *. destruct wsp as [|y wsp].
  - cbn [first set_first] in IE. rewrite app_nil_r, app_length in IE.
    apply EI. apply (item_ends_no _ _ _ c IE); [lia|]. rewrite L, Nat.add_assoc. exact S3.
  - destruct S6 as [S6 _]. rewrite S6 in S3. injection S3 as ->. inversion W; subst. lia.
Qed.

Section Kind.
  Context (g : cfg).

  (** A value that starts with a byte no value of the kind starts with *)
  Lemma wrong_kind : forall t v buf p c, is_bytes buf -> (first p < last p)%nat -> (last p <= length buf)%nat -> isnull p = false ->
    nth_error buf (first p) = Some c -> first_byte v c -> (forall n, v = JNum n -> integer_type t = false) -> ~ kind_fits t v ->
    exists e, parse_value g t false buf p = Err e.
  Proof.
    fix IH 1. intros t v buf p c0 HB HF HL HN Hc FB NN NK. destruct t; pose proof (first_byte_range v c0 FB) as RG;
      assert (HM : has_more p = true) by (unfold has_more; lia);
      assert (FR : front buf p = Ok c0) by (unfold front; now apply rd_some);
      assert (TR : trim_left_checked buf p = Ok p) by (eapply trim_here; eauto; lia).
    - (* unsigned *) cbn [parse_value]. unfold parse_value_unsigned. cbn [skip_quote_when_literal_as_string bind]. rewrite HM. cbn [ensure bind].
      rewrite FR. cbn [bind]. replace (is_number c0) with false; [eexists; reflexivity|].
      unfold is_number, c_0. change (2^32) with 4294967296. destruct v; cbn in FB; try (subst c0; reflexivity). now discriminate (NN n).
    - (* signed *) cbn [parse_value]. unfold parse_value_signed. rewrite HM. cbn [ensure bind]. unfold validate_signed_first.
      rewrite HM. cbn [ensure bind]. rewrite FR. cbn [bind]. unfold c_minus, c_0.
      destruct v; cbn in FB; try (subst c0; eexists; reflexivity). now discriminate (NN n).
    - (* bool *) cbn [parse_value]. unfold parse_value_bool.
      assert (c0 <> 116 /\ c0 <> 102) as [X1 X2].
      { destruct v; cbn in FB, NK; try tauto; try lia. unfold is_dig in FB. lia. }
      rewrite (starts_with_no buf p _ c0 116); auto. cbn [bind]. rewrite (starts_with_no buf p _ c0 102); auto. cbn [bind]. eexists; reflexivity.
    - (* string *) cbn [parse_value]. unfold parse_value_string_escaped, ps_empty. rewrite HN. cbn [orb].
      destruct (Nat.leb_spec (last p) (first p)); [lia|]. cbn [negb ensure bind]. unfold skip_string, ps_empty. rewrite HN. cbn [orb].
      destruct (Nat.leb_spec (last p) (first p)); [lia|]. rewrite FR. cbn [negb ensure bind].
      replace (c0 =? c_quote) with false; [eexists; reflexivity|].
      unfold c_quote. destruct v; cbn in FB, NK; try tauto; try (subst c0; reflexivity). unfold is_dig in FB; lia.
    - (* nullable *) cbn [parse_value]. unfold parse_value_null. rewrite HM, FR. cbn [bind].
      replace (is_token_after_value c0) with false by (unfold is_token_after_value, c_comma, c_rbrace, c_rbrack; lia).
      cbn [bind].
      assert (NJ : v <> JNull) by (intros ->; apply NK; exact I).
      assert (NK' : ~ kind_fits t v) by (intros X; apply NK; destruct v; cbn; auto).
      assert (X : c0 <> 110).
      { destruct v; cbn in FB; try congruence; unfold is_dig in *; lia. }
      rewrite (starts_with_no buf p _ c0 110); auto. cbn [bind].
      destruct (IH t v buf p c0 HB HF HL HN Hc FB NN NK') as (e & ->). eexists; reflexivity.
    - (* array *) cbn [parse_value]. unfold parse_value_array. rewrite TR. cbn [bind]. unfold is_at. rewrite HM, FR. cbn [bind].
      replace (c0 =? c_lbrack) with false; [eexists; reflexivity|].
      unfold c_lbrack. destruct v; cbn in FB, NK; try tauto; try (subst c0; reflexivity). unfold is_dig in FB; lia.
    - (* map *) cbn [parse_value]. unfold parse_value_keyvalue. unfold is_at. rewrite HM, FR. cbn [bind].
      replace (c0 =? c_lbrace) with false; [eexists; reflexivity|].
      unfold c_lbrace. destruct v; cbn in FB, NK; try tauto; try (subst c0; reflexivity). unfold is_dig in FB; lia.
    - (* class *) cbn [parse_value]. unfold parse_value_class. rewrite HM. cbn [ensure bind]. unfold parse_json_class. rewrite TR. cbn [bind].
      unfold is_at. rewrite HM, FR. cbn [bind].
      replace (c0 =? c_lbrace) with false; [eexists; reflexivity|].
      unfold c_lbrace. destruct v; cbn in FB, NK; try tauto; try (subst c0; reflexivity). unfold is_dig in FB; lia.
    - (* tuple *) cbn [parse_value]. unfold parse_tuple. rewrite TR. cbn [bind]. unfold is_at. rewrite HM, FR. cbn [bind].
      replace (c0 =? c_lbrack) with false; [eexists; reflexivity|].
      unfold c_lbrack. destruct v; cbn in FB, NK; try tauto; try (subst c0; reflexivity). unfold is_dig in FB; lia.
    - (* keys and values *) cbn [parse_value]. unfold parse_value_keyvalue_array. unfold is_at. rewrite HM, FR. cbn [bind].
      replace (c0 =? c_lbrack) with false; [eexists; reflexivity|].
      unfold c_lbrack. destruct v; cbn in FB, NK; try tauto; try (subst c0; reflexivity). unfold is_dig in FB; lia.
    - (* custom *) cbn [parse_value]. unfold parse_value_custom. destruct k.
      + unfold skip_string, ps_empty. rewrite HN. cbn [orb]. destruct (Nat.leb_spec (last p) (first p)); [lia|]. rewrite FR. cbn [negb ensure bind].
        replace (c0 =? c_quote) with false; [eexists; reflexivity|].
        unfold c_quote. destruct v; cbn in FB, NK; try tauto; try (subst c0; reflexivity). unfold is_dig in FB; lia.
      + unfold skip_literal. rewrite HM. cbn [ensure bind]. unfold front in FR |- *. cbn [first set_counter]. rewrite FR. cbn [bind].
        destruct v; cbn in FB, NK; try tauto; subst c0; eexists; reflexivity.
      + now contradiction NK.
    - (* variant *) cbn [parse_value]. rewrite (variant_first _ false buf p v c0 FR FB) by discriminate.
      destruct (kind_of v) as [k|] eqn:EK; [|eexists; reflexivity]. unfold parse_variant_value.
      cbn [kind_fits] in NK. assert (NK2 := NK). cbn [integer_type] in NN.
      destruct (kind_choice g v k alts 0 EK) as [->|(i & t & -> & IN & NF)].
      { intros X. apply NK. destruct v; exact X. }
      { eexists; reflexivity. }
      assert (X : exists e, parse_value g t false buf p = Err e).
      { assert (NT : forall n, v = JNum n -> integer_type t = false).
        { intros n E. specialize (NN n E). destruct (integer_type t) eqn:ET; auto. rewrite <- NN. symmetry. apply existsb_exists. eauto. }
        clear NK NK2 NN. induction alts as [|t' alts IHa]; [contradiction|]. destruct IN as [<-|IN]; [|now apply IHa].
        apply (IH t' v buf p c0 HB HF HL HN Hc FB NT NF). }
      destruct X as (e & ->). eexists; reflexivity.
    - (* intrusive *) cbn [parse_value]. unfold parse_value_variant_intrusive, parse_value_class. rewrite HM. cbn [ensure bind]. unfold parse_json_class. rewrite TR. cbn [bind].
      unfold is_at. rewrite HM, FR. cbn [bind].
      replace (c0 =? c_lbrace) with false; [eexists; reflexivity|].
      unfold c_lbrace. destruct v; cbn in FB, NK; try tauto; try (subst c0; reflexivity). unfold is_dig in FB; lia.
  Qed.

  (** Full claim: a member, element or document whose value is of another kind than
      its type is rejected.  Proved: where the value is parsed without known bounds,
      that is as the document, an element or a member found in its place. *)
  Theorem C73_other_kind_partial : forall t v tx buf p, is_bytes buf -> (first p + length tx <= last p)%nat -> (last p <= length buf)%nat ->
    isnull p = false -> jtext str_body v tx -> sub_at buf (first p) tx -> value_ends_at buf (first p + length tx) (last p) ->
    ~ kind_fits t v -> forall x, parse_value g t false buf p <> Ok x.
  Proof.
    intros t v tx buf p HB HL HLB HN HT HS HV NK x E.
    destruct (jtext_first _ _ _ HT) as (c & r & -> & FB).
    assert (HC : nth_error buf (first p) = Some c) by (destruct HS; assumption).
    cbn [length] in HL.
    assert (WK : (forall n, v = JNum n -> integer_type t = false) -> False).
    { intros NN. destruct (wrong_kind t v buf p c) as (e & E'); auto; [lia|]. congruence. }
    destruct v; try (apply WK; intros; congruence).
    inversion HT as [| | |n' J EN| | | | |]; subst. pose proof (first_byte_range _ _ FB) as RG. clear HT.
    revert t NK x E WK. fix IH 1. intros t NK x E WK. destruct t; try (apply WK; intros; reflexivity); cbn in NK.
    - cbn [parse_value] in E. destruct (parse_value_unsigned false LSNever w rc buf p) as [[a q]| | |] eqn:EU; cbn [bind] in E; try discriminate.
      eapply (not_unsigned w rc (c :: r)); eauto.
    - cbn [parse_value] in E. destruct (parse_value_signed false LSNever w rc buf p) as [[a q]| | |] eqn:EU; cbn [bind] in E; try discriminate.
      eapply (not_signed w rc (c :: r)); eauto.
    - cbn [parse_value] in E. unfold parse_value_null in E.
      assert (HM : has_more p = true) by (unfold has_more; lia). rewrite HM in E.
      unfold front in E. rewrite (rd_some _ _ _ HC) in E. cbn [bind] in E.
      replace (is_token_after_value c) with false in E by (unfold is_token_after_value, c_comma, c_rbrace, c_rbrack; lia).
      cbn [bind] in E. assert (X : c <> 110) by (cbn in FB; unfold is_dig in FB; lia).
      rewrite (starts_with_no buf p _ c 110) in E; auto. cbn [bind] in E.
      destruct (parse_value g t false buf p) as [[y q]| | |] eqn:EP; cbn [bind] in E; try discriminate.
      apply (IH t NK _ EP). intros NN. apply WK. intros n0 EN0. cbn [integer_type]. eauto.
    - assert (FR : front buf p = Ok c) by (unfold front; now apply rd_some).
      cbn [parse_value] in E. rewrite (variant_first _ false buf p (JNum (c :: r)) c FR FB) in E by discriminate. cbn [kind_of] in E. unfold parse_variant_value in E.
      destruct (kind_choice g (JNum (c :: r)) KNumber alts 0 eq_refl NK) as [EM|(i & t & EM & IN & NF)]; rewrite EM in E; [discriminate|].
      destruct (parse_value g t false buf p) as [[y q]| | |] eqn:EP; cbn [bind] in E; try discriminate. clear E EM NK WK.
      induction alts as [|t' alts IHa]; [contradiction|]. destruct IN as [<-|IN]; [|now apply IHa].
      apply (IH t' NF _ EP). intros NN. destruct (wrong_kind t' (JNum (c :: r)) buf p c) as (e & E'); auto; [lia|]. congruence.
  Qed.

  (** With known bounds (a member that was skipped first) integers, strings and
      custom types do not look at the kind (refuted below), nor do the alternatives
      of a variant; every other type does, except that it takes the body of a string
      for a value. *)
  Fixpoint looks_at_kind (t : ty) : bool :=
    match t with
    | TUInt _ _ | TInt _ _ | TStr | TCustom _ | TVariant _ => false
    | TNullable t => looks_at_kind t
    | _ => true
    end.

  Theorem C73_known_partial : forall t v tx buf p, is_bytes buf -> (first p + length tx <= last p)%nat -> (last p <= length buf)%nat ->
    isnull p = false -> jtext str_body v tx -> sub_at buf (first p) tx -> (forall s, v <> JStr s) -> looks_at_kind t = true ->
    ~ kind_fits t v -> exists e, parse_value g t true buf p = Err e.
  Proof.
    intros t v tx buf p HB HF HL HN HT HS NS LK NK. destruct (jtext_first _ _ _ HT) as (c0 & r & -> & FB). cbn [length] in HF. destruct HS as [Hc _].
    pose proof (first_byte_range v c0 FB) as RG.
    assert (HM : has_more p = true) by (unfold has_more; lia).
    assert (FR : front buf p = Ok c0) by (unfold front; now apply rd_some).
    assert (TR : trim_left_checked buf p = Ok p) by (eapply trim_here; eauto; lia).
    clear HT. induction t; cbn [looks_at_kind] in LK; try discriminate.
    - cbn [parse_value]. unfold parse_value_bool. rewrite FR. cbn [bind].
      assert (c0 <> 116 /\ c0 <> 102) as [X1 X2].
      { destruct v; cbn in FB, NK; try tauto; try lia. unfold is_dig in FB. lia. }
      unfold c_t, c_f. destruct (N.eqb_spec c0 116); [lia|]. destruct (N.eqb_spec c0 102); [lia|]. eexists; reflexivity.
    - cbn [parse_value]. unfold parse_value_null. rewrite HN.
      assert (NK' : ~ kind_fits t v) by (intros X; apply NK; destruct v; cbn; auto).
      destruct (IHt LK NK') as (e & ->). eexists; reflexivity.
    - cbn [parse_value]. unfold parse_value_array. rewrite TR. cbn [bind]. unfold is_at. rewrite HM, FR. cbn [bind].
      replace (c0 =? c_lbrack) with false; [eexists; reflexivity|].
      unfold c_lbrack. destruct v; cbn in FB, NK; try tauto; try (subst c0; reflexivity). unfold is_dig in FB; lia.
    - cbn [parse_value]. unfold parse_value_keyvalue. unfold is_at. rewrite HM, FR. cbn [bind].
      replace (c0 =? c_lbrace) with false; [eexists; reflexivity|].
      unfold c_lbrace. destruct v; cbn in FB, NK; try tauto; try (subst c0; reflexivity). unfold is_dig in FB; lia.
    - cbn [parse_value]. unfold parse_value_class. rewrite HM. cbn [ensure bind]. unfold parse_json_class. rewrite TR. cbn [bind].
      unfold is_at. rewrite HM, FR. cbn [bind].
      replace (c0 =? c_lbrace) with false; [eexists; reflexivity|].
      unfold c_lbrace. destruct v; cbn in FB, NK; try tauto; try (subst c0; reflexivity). unfold is_dig in FB; lia.
    - cbn [parse_value]. unfold parse_tuple. rewrite TR. cbn [bind]. unfold is_at. rewrite HM, FR. cbn [bind].
      replace (c0 =? c_lbrack) with false; [eexists; reflexivity|].
      unfold c_lbrack. destruct v; cbn in FB, NK; try tauto; try (subst c0; reflexivity). unfold is_dig in FB; lia.
    - cbn [parse_value]. unfold parse_value_keyvalue_array. unfold is_at. rewrite HM, FR. cbn [bind].
      replace (c0 =? c_lbrack) with false; [eexists; reflexivity|].
      unfold c_lbrack. destruct v; cbn in FB, NK; try tauto; try (subst c0; reflexivity). unfold is_dig in FB; lia.
    - cbn [parse_value]. unfold parse_value_variant_intrusive, parse_value_class. rewrite HM. cbn [ensure bind]. unfold parse_json_class. rewrite TR. cbn [bind].
      unfold is_at. rewrite HM, FR. cbn [bind].
      replace (c0 =? c_lbrace) with false; [eexists; reflexivity|].
      unfold c_lbrace. destruct v; cbn in FB, NK; try tauto; try (subst c0; reflexivity). unfold is_dig in FB; lia.
  Qed.

  (** An error is reported, except for a number given for an integer type (C04: the
      conversion of its first part may be undefined). *)
  Theorem C73_error_partial : forall t v tx buf p, is_bytes buf -> (first p + length tx <= last p)%nat -> (last p <= length buf)%nat ->
    isnull p = false -> jtext str_body v tx -> sub_at buf (first p) tx ->
    (forall n, v = JNum n -> integer_type t = false) ->
    ~ kind_fits t v -> exists e, parse_value g t false buf p = Err e.
  Proof.
    intros t v tx buf p HB HL HLB HN HT HS NN NK.
    destruct (jtext_first _ _ _ HT) as (c & r & -> & FB). cbn [length] in HL. destruct HS as [HS _].
    apply (wrong_kind t v buf p c); auto; lia.
  Qed.
End Kind.
Print Assumptions C73_other_kind_partial.
Print Assumptions C73_error_partial.
Print Assumptions C73_known_partial.

(** A member that comes before another one is skipped and parsed later with known
    bounds, where the kind is not looked at: a fraction or an exponent gives another
    number, a number or an array gives a string, with the byte after it, and the
    opposite order of members is rejected. *)
Definition two (t : ty) : ty := TClass false [(bytes "a", t); (bytes "b", t)].

Theorem C73_number_refuted :
  (exists e, from_json default_cfg true (two uint) (doc_of "{'a':1,'b':1.5}") = Err e) /\
  from_json default_cfg true (two uint) (doc_of "{'b':1.5,'a':1}") = Ok (VClass [VInt 1; VInt 2645]) /\
  from_json default_cfg true (two uint) (doc_of "{'b':1e5,'a':1}") = Ok (VClass [VInt 1; VInt 635]) /\
  from_json default_cfg true (two uint) (doc_of "{'b':'1x','a':1}") = Ok (VClass [VInt 1; VInt 82]).
Proof. split; [exists InvalidEndOfValue; vm_compute; reflexivity|]. repeat split; vm_compute; reflexivity. Qed.
Print Assumptions C73_number_refuted.

Theorem C73_string_refuted :
  (exists e, from_json default_cfg true (two TStr) (doc_of "{'a':'x','b':12}") = Err e) /\
  from_json default_cfg true (two TStr) (doc_of "{'b':12,'a':'x'}") = Ok (VClass [VStr (bytes "x"); VStr (bytes "12,")]) /\
  from_json default_cfg true (two TStr) (doc_of "{'b':[12],'a':'x'}") = Ok (VClass [VStr (bytes "x"); VStr (bytes "[12],")]) /\
  from_json default_cfg true (two TBool) (doc_of "{'b':'f','a':true}") = Ok (VClass [VBool true; VBool false]).
Proof. split; [exists InvalidString; vm_compute; reflexivity|]. repeat split; vm_compute; reflexivity. Qed.
Print Assumptions C73_string_refuted.

(** The body of a string is parsed as if it were the array or the class itself. *)
Theorem C73_embedded_refuted :
  (exists e, from_json default_cfg true (two (TArr uint)) (doc_of "{'a':[],'b':'[1,2]'}") = Err e) /\
  from_json default_cfg true (two (TArr uint)) (doc_of "{'b':'[1,2]','a':[]}") = Ok (VClass [VArr []; VArr [VInt 1; VInt 2]]) /\
  from_json default_cfg true (two (TClass false [])) (doc_of "{'b':'{}','a':{}}") = Ok (VClass [VClass []; VClass []]).
Proof. split; [exists InvalidArrayStart; vm_compute; reflexivity|]. repeat split; vm_compute; reflexivity. Qed.
Print Assumptions C73_embedded_refuted.

(** C58: when no quote follows, the string is searched beyond the end of the
    document. *)
Theorem C58_other_kind_refuted :
  from_json default_cfg true (TClass false [(bytes "a", TNullable uint); (bytes "b", TStr)]) (doc_of "{'b':12}") = UB.
Proof. vm_compute. reflexivity. Qed.
Print Assumptions C58_other_kind_refuted.

Example C73_ex : exists e, from_json default_cfg true (TArr TBool) (doc_of "[true,'x']") = Err e.
Proof. exists InvalidLiteral. vm_compute. reflexivity. Qed.

Example C73_known_ex : exists e, from_json default_cfg true (two TBool) (doc_of "{'b':[1],'a':true}") = Err e.
Proof. exists InvalidLiteral. vm_compute. reflexivity. Qed.
