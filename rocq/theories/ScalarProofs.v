(** The parsers of numbers, booleans, strings and nullables on well-formed text,
    at the value and at a range found by skipping. *)
From Coq Require Import List NArith ZArith Bool Lia Arith ZifyBool ZifyNat ZifyN.
From Verif Require Import Base Mem Loop PolicyModel IntModel StrScanModel SkipModel SpecNum SpecText SpecJson SpecUnicode
  IntProofs IntSerProofs IntValueProofs StrScanProofs StrScanProofs2 StrScanProofs3 SkipProofs BracketProofs SkipSafe
  PropertiesInt PropertiesStr PropertiesSkip StrDecodeModel StrDecodeProofs PropertiesUni
  HashModel PropertiesHash ValueModel NameProofs ClassProofs.
Import ListNotations.
Local Open Scope N_scope.

Lemma followed_ends : forall buf e j l, followed true buf e j l -> value_ends_at buf e l.
Proof.
  intros buf e j l (w & W & S & -> & L & E). split; [lia|]. destruct w as [|c w].
  - cbn [length] in *. rewrite Nat.add_0_r in *. destruct E as [[_ E]|(_ & b & Hb & C)]; auto. right. exists b. split; auto.
    right. unfold closer in C. tauto.
  - right. exists c. destruct S as [S _]. split; auto. left. now inversion W.
Qed.

Lemma followed_ws_run : forall buf e j l, followed true buf e j l -> ws_run buf e j l.
Proof.
  intros buf e j l (w & W & S & -> & L & E). exists w. repeat split; auto. destruct E as [[_ E]|(_ & b & Hb & C)]; auto.
  right. exists b. unfold closer in C. split; auto. lia.
Qed.

Lemma followed_at_j : forall buf e j l, followed true buf e j l -> followed true buf j j l.
Proof.
  intros buf e j l (w & W & S & -> & L & E). exists []. split; [constructor|]. split; [exact I|]. split; [cbn; lia|]. split; auto.
Qed.

Lemma followed_from : forall buf e j l k, followed true buf e j l -> (e <= k <= j)%nat -> followed true buf k j l.
Proof.
  intros buf e j l k (w & W & S & -> & L & E) HK. exists (skipn (k - e) w). split; [|split; [|split; [|split]]]; auto.
  - apply Forall_forall. intros y Hy. rewrite Forall_forall in W. apply W.
    rewrite <- (firstn_skipn (k - e) w). apply in_or_app. now right.
  - rewrite <- (firstn_skipn (k - e) w) in S. apply sub_at_app in S as [_ S].
    rewrite firstn_length in S. now replace (e + Nat.min (k - e) (length w))%nat with k in S by lia.
  - rewrite skipn_length. lia.
Qed.

Lemma followed_end : forall buf l, followed true buf l l l.
Proof. intros. exists []. split; [constructor|]. split; [exact I|]. split; [cbn; lia|]. split; auto. Qed.

Lemma string_here : forall buf p b s, wf buf p -> N.of_nat (length buf) < 2^32 -> sub_at buf (first p) (34 :: b ++ [34]) ->
  (first p + length b + 2 <= last p)%nat -> denotes b s ->
  parse_value_string_escaped true false ExConstexpr true buf p = Ok (s, set_first p (first p + length b + 2)).
Proof.
  intros buf p b s (HB & HN & HLp & cl & HCl & HCL) H32 HS HL HD. apply C12_decode; auto.
  split; [exact HB|]. split; [exact HN|]. split; [lia|]. split; [exact HS|]. split; [lia|]. split; [exists cl; split; [exact HCl|lia]|].
  change (2^32) with 4294967296 in H32. change (2^63) with 9223372036854775808. lia.
Qed.

Lemma starts_with_yes : forall buf p t, sub_at buf (first p) t -> (first p + length t <= last p)%nat -> starts_with buf p t = Ok true.
Proof.
  intros buf p t HS HL. unfold starts_with, ps_size. replace (last p - first p <? length t)%nat with false by lia. now apply eq_bytes_ok.
Qed.

Lemma eq_bytes_no : forall buf i t c x, nth_error buf i = Some c -> c <> x -> (i + length (x :: t) <= length buf)%nat -> eq_bytes buf i (x :: t) = Ok false.
Proof.
  intros buf i t c x Hc NE HL. cbn [eq_bytes]. rewrite (rd_some _ _ _ Hc). cbn [bind].
  assert (T : exists r, eq_bytes buf (S i) t = Ok r).
  { cbn [length] in HL. clear Hc NE c x. revert i HL. induction t as [|y t IH]; intros i HL; cbn [eq_bytes length] in *; [eauto|].
    destruct (rd_in buf (S i)) as (b & Hb); [lia|]. rewrite (rd_some _ _ _ Hb). cbn [bind]. destruct (IH (S i)) as (r & Er); [lia|]. rewrite Er. cbn [bind]. eauto. }
  destruct T as (r & ->). cbn [bind]. now replace (c =? x) with false by lia.
Qed.

Lemma starts_with_no : forall buf p t c x, (last p <= length buf)%nat -> nth_error buf (first p) = Some c -> c <> x -> starts_with buf p (x :: t) = Ok false.
Proof.
  intros buf p t c x HL Hc NE. unfold starts_with. destruct (Nat.ltb_spec (ps_size p) (length (x :: t))) as [L|L]; auto.
  apply (eq_bytes_no buf (first p) t c x); auto. unfold ps_size in L. pose proof (nth_error_Some buf (first p)) as Y. rewrite Hc in Y.
  assert (first p < length buf)%nat by (apply Y; discriminate). cbn [length] in *. lia.
Qed.

Lemma end_here : forall buf p j, followed true buf (first p) j (last p) -> end_of_item_ok buf p = Ok true.
Proof. intros buf p j HF. apply end_of_item_ends. eapply followed_ends; eauto. Qed.

Lemma trim_followed : forall buf p j, is_bytes buf -> followed true buf (first p) j (last p) -> trim_left_checked buf p = Ok (set_first p j).
Proof.
  intros buf p j HB HF. pose proof (followed_trim CNone true buf p j HB HF) as T.
  change (trim_left_cp CNone true buf p) with (trim_left_checked buf p) in T. exact T.
Qed.

Section Cfg.
  Context (g : cfg).
  Hypothesis HX : c_ex g = ExConstexpr.
  Hypothesis HE : c_excl g = false.

  (** ** Ranges found by skipping *)

  Lemma located_range : forall buf v r, N.of_nat (length buf) < 2^32 -> located g buf v r ->
    exists p t j q, wf buf p /\ jtext str_body v t /\ sub_at buf (first p) t /\
      followed true buf (first p + length t) j (last p) /\ skip_val g buf p = Ok (r, q) /\
      (v <> JNull -> delimits false v (first p) (first p + length t) r) /\ (v <> JNull -> isnull r = false) /\
      behind buf (first p).
  Proof.
    intros buf v r H32 (p & t & j & q & HW & HT & HS & HF & ES & HBh). exists p, t, j, q.
    split; [exact HW|]. split; [exact HT|]. split; [exact HS|]. split; [exact HF|]. split; [exact ES|]. split; [|split; [|exact HBh]].
    - intros NV. pose proof (followed_le _ _ _ _ _ HF) as FL.
      assert (LT : N.of_nat (length t) < 2^32) by (destruct HW as (_ & _ & HL & _); lia).
      destruct (C17_skip_value_partial CNone true ExConstexpr false buf p v t j ltac:(discriminate) HW HT HS LT HF) as (r' & E & D);
        [congruence|].
      unfold skip_val in ES. rewrite HX, HE in ES. congruence.
    - intros NV. rewrite (skip_isnull g buf p r _ ES); [apply HW|]. eapply jtext_not_n; eauto.
  Qed.

  Lemma located_number : forall buf n r, N.of_nat (length buf) < 2^32 -> located g buf (JNum n) r ->
    is_bytes buf /\ sub_at buf (first r) n /\ last r = (first r + length n)%nat /\ (last r <= length buf)%nat.
  Proof.
    intros buf n r H32 HLo. destruct (located_range _ _ _ H32 HLo) as (p & t & j & q & HW & HT & HS & HF & _ & D & _).
    destruct D as [[D1 D2] _]; [discriminate|]. inversion HT; subst t. pose proof (followed_le _ _ _ _ _ HF).
    pose proof HW as (HB & _ & HL & cl & HC & HCL).
    split; [exact HB|]. rewrite D1, D2. split; [exact HS|]. split; [reflexivity|]. lia.
  Qed.

  Lemma located_bool : forall buf v r, N.of_nat (length buf) < 2^32 -> located g buf v r ->
    (v = JTrue -> nth_error buf (first r) = Some 116) /\ (v = JFalse -> nth_error buf (first r) = Some 102).
  Proof.
    intros buf v r H32 HLo. destruct (located_range _ _ _ H32 HLo) as (p & t & j & q & HW & HT & HS & HF & _ & D & _).
    split; intros ->; (destruct D as [[D1 D2] _]; [discriminate|]); inversion HT; subst t; rewrite D1; apply HS.
  Qed.

  Lemma located_string : forall buf b r, N.of_nat (length buf) < 2^32 -> located g buf (JStr b) r ->
    sub_at buf (first r) (b ++ [34]) /\ last r = (first r + length b)%nat /\ counter r = reported_escape b.
  Proof.
    intros buf b r H32 HLo. destruct (located_range _ _ _ H32 HLo) as (p & t & j & q & HW & HT & HS & HF & ES & D & _).
    destruct D as [[D1 D2] _]; [discriminate|]. inversion HT as [| | | |b' HB' E1 E2| | | |]; subst b' t.
    pose proof (followed_le _ _ _ _ _ HF) as FL. pose proof HS as [SQ SB].
    assert (LB : N.of_nat (length b) < 2^64).
    { destruct HW as (_ & _ & HL & _). len. change (2^32) with 4294967296 in H32. change (2^64) with 18446744073709551616. lia. }
    cbn [length] in *. rewrite app_length in *. cbn [length] in *.
    split; [now rewrite D1|]. split; [lia|].
    destruct (skip_string_ok true ExConstexpr false buf (set_counter p 0) b) as (r' & E & _ & RE & _); auto.
    - discriminate.
    - cbn [first last set_counter]. lia.
    - unfold skip_val, skip_value in ES. rewrite HX, HE in ES.
      replace (ensure (has_more p) UnexpectedEndOfData) with (@Ok unit tt) in ES.
      2:{ unfold has_more. replace (first p <? last p)%nat with true by lia. reflexivity. }
      cbn [bind] in ES. unfold front in ES. cbn [first set_counter] in ES. rewrite (rd_some _ _ _ SQ) in ES. cbn [bind] in ES.
      change (34 =? c_quote) with true in ES. cbn iota in ES. rewrite E in ES. injection ES as <- _. now apply RE.
  Qed.

  (** Brackets: the range holds the text and may be parsed like a document. *)
  Lemma located_bracketed : forall buf v r, N.of_nat (length buf) < 2^32 -> located g buf v r ->
    (exists es, v = JArr es) \/ (exists ms, v = JObj ms) ->
    exists t, wf buf r /\ jtext str_body v t /\ sub_at buf (first r) t /\ followed true buf (first r + length t) (last r) (last r).
  Proof.
    intros buf v r H32 (p & t & j & q & HW & HT & HS & HF & ES & _) HV.
    pose proof (followed_le _ _ _ _ _ HF) as FL. pose proof HW as (HB & HN & HL & cl & HC & HCL).
    assert (LT : N.of_nat (length t) < 2^32) by lia.
    set (obj := match v with JObj _ => true | _ => false end).
    assert (EB : skip_bracketed CNone true ExConstexpr obj buf (set_counter p 0) = Ok
      (set_counter (set_last (set_counter p 0) (first p + length t)) (N.of_nat (separators v)), set_first (set_counter p 0) (first p + length t))).
    { apply (skip_bracketed_ok CNone true ExConstexpr obj buf (set_counter p 0) v t); auto; try discriminate.
      - cbn [last set_counter]. lia.
      - destruct HV as [(es & ->)|(ms & ->)]; cbn; eauto.
      - cbn [first last set_counter]. lia. }
    assert (C0 : exists t', t = left_of obj :: t').
    { destruct HV as [(es & ->)|(ms & ->)]; inversion HT; subst; cbn; eauto. }
    destruct C0 as (t' & ET).
    assert (R : r = set_counter (set_last (set_counter p 0) (first p + length t)) (N.of_nat (separators v))).
    { unfold skip_val, skip_value in ES. rewrite HX, HE in ES.
      assert (L0 : (0 < length t)%nat) by (subst t; cbn; lia).
      replace (ensure (has_more p) UnexpectedEndOfData) with (@Ok unit tt) in ES.
      2:{ unfold has_more. replace (first p <? last p)%nat with true by lia. reflexivity. }
      cbn [bind] in ES. unfold front in ES. cbn [first set_counter] in ES.
      assert (S0 : nth_error buf (first p) = Some (left_of obj)) by (subst t; apply HS).
      rewrite (rd_some _ _ _ S0) in ES. cbn [bind] in ES.
      destruct HV as [(es & ->)|(ms & ->)]; subst obj; cbn [left_of] in ES.
      - change (c_lbrack =? c_quote) with false in ES. change (c_lbrack =? c_lbrack) with true in ES. cbn iota in ES.
        unfold skip_array in ES. rewrite EB in ES. now injection ES as <- _.
      - change (c_lbrace =? c_quote) with false in ES. change (c_lbrace =? c_lbrack) with false in ES.
        change (c_lbrace =? c_lbrace) with true in ES. cbn iota in ES.
        unfold skip_class in ES. rewrite EB in ES. now injection ES as <- _. }
    exists t. subst r. cbn [first last set_counter set_last]. split; [|split; [exact HT|split; [exact HS|apply followed_end]]].
    split; [exact HB|]. split; [exact HN|]. cbn [first last set_counter set_last]. split; [lia|].
    exists cl. cbn [clast set_counter set_last]. split; [exact HC|lia].
  Qed.

  (** Parsers that ignore whether the bounds are known. *)
  Lemma reads_bracketed : forall (P : parser) v x,
    (exists es, v = JArr es) \/ (exists ms, v = JObj ms) ->
    (forall known buf p t j, wf buf p -> N.of_nat (length buf) < 2^32 -> jtext str_body v t -> sub_at buf (first p) t ->
       followed true buf (first p + length t) j (last p) ->
       exists q, P known buf p = Ok (x, q) /\ moved p q /\ (first p + length t <= first q <= j)%nat) ->
    reads g P v x.
  Proof.
    intros P v x HV HP. split.
    - intros buf p t j HW H32 HT HS HF. now apply HP.
    - intros _ buf r H32 HLo. destruct (located_bracketed buf v r H32 HLo HV) as (t & HW & HT & HS & HF).
      destruct (HP true buf r t (last r) HW H32 HT HS HF) as (q & E & _). eauto.
  Qed.

  (** ** Integers *)

  Lemma canonical_size : forall ds, canonical ds -> dec_val ds < 2^64 -> (length ds <= 20)%nat.
  Proof.
    intros ds (HD & NE & HZ) LT. destruct (Nat.le_gt_cases (length ds) 20) as [L|L]; auto. exfalso.
    destruct ds as [|d ds]; [congruence|]. inversion HD as [|? ? D1 D2]; subst.
    assert (B : 10^N.of_nat (length ds) <= dec_val (d :: ds)).
    { change (d :: ds) with ([d] ++ ds). rewrite dec_val_app.
      assert (1 <= dec_val [d]).
      { destruct (N.eq_dec d 48) as [->|ND]; [|unfold is_dig in D1; unfold dec_val; cbn; lia].
        rewrite (HZ ds eq_refl) in L. cbn in L. lia. }
      nia. }
    assert (10^20 <= 10^N.of_nat (length ds)) by (apply N.pow_le_mono_r; cbn [length] in *; lia).
    change (2^64) with 18446744073709551616 in LT. change (10^20) with 100000000000000000000 in *. lia.
  Qed.

  Lemma reads_unsigned : forall w rc ds, int_width w -> canonical ds -> dec_val ds < 2^w ->
    reads g (parse_value g (TUInt w rc)) (JNum ds) (VInt (Z.of_N (dec_val ds))).
  Proof.
    intros w rc ds W HC LT. pose proof HC as (HD & NE & _). pose proof (width_le w W) as WL.
    assert (L64 : dec_val ds < 2^64) by (eapply N.lt_le_trans; eassumption).
    assert (G : forall known buf p, unsigned_here known buf p ds ->
      parse_value_unsigned known LSNever w rc buf p = Ok (dec_val ds, set_first p (first p + length ds))).
    { intros known buf p HU. destruct rc; [|now apply C01_unsigned_exact_width].
      rewrite (C02_unsigned_range_check_partial known w buf p ds) by auto. replace (dec_val ds <? 2^w) with true by lia.
      replace (length ds <=? 20)%nat with true by (symmetry; apply Nat.leb_le; now apply canonical_size).
      now rewrite orb_true_r. }
    split.
    - intros buf p t j HW H32 HT HS HF. inversion HT; subst t. pose proof (followed_le _ _ _ _ _ HF) as FL.
      pose proof HW as (HB & _ & HL & cl & HCl & HCL).
      cbn [parse_value]. rewrite G.
      + cbn [bind]. eexists. split; [reflexivity|]. split; [apply moved_first|]. cbn [first set_first]. lia.
      + split; [exact HB|]. split; [lia|]. split; [exact NE|]. split; [exact HD|]. split; [exact HS|]. eapply followed_ends; eauto.
    - intros _ buf r H32 HLo. destruct (located_number _ _ _ H32 HLo) as (HB & HS & HL & HLe).
      cbn [parse_value]. rewrite G; [cbn [bind]; eauto|].
      split; [exact HB|]. split; [exact HLe|]. split; [exact NE|]. split; [exact HD|]. split; [exact HS|exact HL].
  Qed.

  Lemma reads_signed : forall w rc tx z, int_width w -> canonical_int z tx -> in_range w z -> ~ (w = 32 /\ z = (- 2^31)%Z) ->
    reads g (parse_value g (TInt w rc)) (JNum tx) (VInt z).
  Proof.
    intros w rc tx z W HC HR HNE. split.
    - intros buf p t j HW H32 HT HS HF. inversion HT; subst t. pose proof (followed_le _ _ _ _ _ HF) as FL.
      pose proof HW as (HB & _ & HL & cl & HCl & HCL).
      cbn [parse_value]. rewrite C04_signed_exact_partial with (z := z) (t := tx) (j := j); auto.
      + cbn [bind]. eexists. split; [reflexivity|]. split; [apply moved_first|]. cbn [first set_first]. lia.
      + split; [exact HB|]. split; [lia|]. split; [exact HS|]. cbv zeta. split; [eapply followed_ends; eauto|].
        split; [now apply followed_ws_run|]. eapply followed_ends. eapply followed_at_j; eauto.
    - intros _ buf r H32 HLo. destruct (located_number _ _ _ H32 HLo) as (HB & HS & HL & HLe).
      cbn [parse_value]. rewrite C04_signed_exact_partial with (z := z) (t := tx) (j := last r); auto.
      + cbn [bind]. eauto.
      + split; [exact HB|]. split; [exact HLe|]. split; [exact HS|]. cbv zeta. split; [exact HL|exact HL].
  Qed.

  (** ** Booleans *)

  Lemma reads_bool : forall v b, v = JTrue /\ b = true \/ v = JFalse /\ b = false -> reads g (parse_value g TBool) v (VBool b).
  Proof.
    intros v b HV. split.
    - intros buf p t j HW H32 HT HS HF. pose proof (followed_le _ _ _ _ _ HF) as FL.
      pose proof HW as (HB & _ & HL & cl & HCl & HCL). cbn [parse_value]. unfold parse_value_bool.
      assert (FIN : forall q, first q = (first p + length t)%nat -> last q = last p ->
        (q0 <- trim_left_checked buf q ;; e <- end_of_item_ok buf q0 ;; _ <- ensure e InvalidEndOfValue ;; Ok (VBool b, q0)) = Ok (VBool b, set_first q j)).
      { intros q F1 F2. rewrite <- F1, <- F2 in HF. rewrite (trim_followed buf q j HB HF). cbn [bind].
        rewrite (end_here buf (set_first q j) j) by (cbn [first last set_first]; eapply followed_at_j; eauto). reflexivity. }
      destruct HV as [[-> ->]|[-> ->]]; inversion HT; subst t.
      + rewrite starts_with_yes by (cbn [length] in *; auto; lia). cbn [bind].
        rewrite FIN; [|reflexivity|reflexivity]. eexists. split; [reflexivity|]. split; [repeat split|]. cbn [first set_first]. lia.
      + rewrite (starts_with_no buf p _ 102 116); [|lia|apply HS|discriminate]. cbn [bind].
        rewrite starts_with_yes by (cbn [length] in *; auto; lia). cbn [bind].
        rewrite FIN; [|reflexivity|reflexivity]. eexists. split; [reflexivity|]. split; [repeat split|]. cbn [first set_first]. lia.
    - intros _ buf r H32 HLo. destruct (located_bool _ _ _ H32 HLo) as [HT HF]. cbn [parse_value]. unfold parse_value_bool, front.
      destruct HV as [[-> ->]|[-> ->]]; [rewrite (rd_some _ _ _ (HT eq_refl))|rewrite (rd_some _ _ _ (HF eq_refl))]; cbn [bind]; eexists; reflexivity.
  Qed.

  (** ** Strings *)

  Lemma reads_string : forall b s, denotes b s -> reads g (parse_value g TStr) (JStr b) (VStr s).
  Proof.
    intros b s HD. split.
    - intros buf p t j HW H32 HT HS HF. pose proof (followed_le _ _ _ _ _ HF) as FL. inversion HT as [| | | |b' HB' E1 E2| | | |]; subst b' t.
      cbn [length] in *. rewrite app_length in *. cbn [length] in *.
      cbn [parse_value]. rewrite HX. rewrite (string_here buf p b s) by (auto; lia). cbn [bind].
      eexists. split; [reflexivity|]. split; [apply moved_first|]. cbn [first set_first]. lia.
    - intros _ buf r H32 HLo. destruct (located_string _ _ _ H32 HLo) as (HS & HL & HC). cbn [parse_value]. rewrite HX.
      destruct (list_eq_dec N.eq_dec b []) as [->|NB].
      + inversion HD; subst s. unfold parse_value_string_escaped. cbn [bind negb orb].
        assert (NS : needs_slow_path r = false) by (unfold needs_slow_path; rewrite HC; reflexivity). rewrite NS. cbn [length app] in *.
        pose proof (sub_at_length _ _ _ HS ltac:(discriminate)) as LS. cbn [length] in LS.
        replace (last r <=? length buf)%nat with true by lia. replace (last r - first r)%nat with O by lia. cbn [firstn bind]. eauto.
      + rewrite (C12_decode_located true buf r b s HD NB HS HL); auto; [cbn [bind]; eauto|].
        pose proof (sub_at_length _ _ _ HS ltac:(destruct b; discriminate)). rewrite app_length in *.
        change (2^32) with 4294967296 in H32. change (2^63) with 9223372036854775808. lia.
  Qed.

  (** ** Nullables *)

  Lemma reads_null : forall t, reads g (parse_value g (TNullable t)) JNull VNone.
  Proof.
    intros ty. split; [|congruence]. intros buf p t j HW H32 HT HS HF. pose proof (followed_le _ _ _ _ _ HF) as FL.
    pose proof HW as (HB & _ & HL & cl & HCl & HCL). inversion HT; subst t. cbn [length] in *.
    cbn [parse_value]. unfold parse_value_null. unfold has_more, front. replace (first p <? last p)%nat with true by lia.
    rewrite (rd_some buf (first p) 110) by apply HS. cbn [bind]. change (is_token_after_value 110) with false. cbn iota.
    rewrite starts_with_yes by (cbn [length]; auto; lia). cbn [bind].
    rewrite (end_here buf (remove_prefix p 4) j) by exact HF. cbn [ensure bind].
    rewrite (trim_followed buf (remove_prefix p 4) j) by (auto; exact HF). cbn [bind].
    eexists. split; [reflexivity|]. split; [repeat split|]. cbn [first set_first]. lia.
  Qed.

  Lemma reads_some : forall t v y, v <> JNull -> reads g (parse_value g t) v y -> reads g (parse_value g (TNullable t)) v (VSome y).
  Proof.
    intros ty v y NV [R1 R2]. split.
    - intros buf p t j HW H32 HT HS HF. pose proof (followed_le _ _ _ _ _ HF) as FL.
      pose proof HW as (HB & _ & HL & cl & HCl & HCL). destruct (jtext_head _ _ _ HT) as (c & r & -> & ST). cbn [length] in *.
      pose proof HS as [HC _]. pose proof (jtext_not_n g v _ buf _ HT HS NV _ HC) as N110. unfold starter in ST.
      cbn [parse_value]. unfold parse_value_null. unfold has_more, front. replace (first p <? last p)%nat with true by lia.
      rewrite (rd_some _ _ _ HC). cbn [bind].
      replace (is_token_after_value c) with false by (unfold is_token_after_value, c_comma, c_rbrace, c_rbrack; lia). cbn iota.
      rewrite (starts_with_no buf p _ c 110) by (auto; lia). cbn [bind].
      destruct (R1 buf p _ j HW H32 HT HS HF) as (q & E & M & L). rewrite E. cbn [bind]. exists q. auto.
    - intros _ buf r H32 HLo. destruct (located_range _ _ _ H32 HLo) as (p & t & j & q & _ & _ & _ & _ & _ & _ & NN & _).
      cbn [parse_value]. unfold parse_value_null. rewrite NN by auto.
      destruct (R2 NV buf r H32 HLo) as (q' & E). rewrite E. cbn [bind]. eauto.
  Qed.
End Cfg.
