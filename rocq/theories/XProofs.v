(** Real numbers and dates inside other types: the parser returns what the
    document means. *)
From Coq Require Import List NArith ZArith QArith Qreals Reals Bool Lia Arith ZifyBool ZifyNat ZifyN.
From Coq Require Import SpecFloat.
From Verif Require Import Base Mem Loop PolicyModel IntModel StrScanModel SkipModel SpecNum SpecText SpecJson SpecUnicode
  IntProofs IntSerProofs IntValueProofs StrScanProofs StrScanProofs2 StrScanProofs3 SkipProofs BracketProofs SkipSafe
  PropertiesStr PropertiesSkip StrDecodeModel StrDecodeProofs HashModel PropertiesHash ValueModel SpecTyped
  NameProofs ClassProofs ClassProofs2 ScalarProofs ArrayProofs VariantProofs TypedProofs ZReads
  RealModel SpecReal RealProofs PropertiesReal FloatModel SpecDouble FloatProofs PropertiesFloat PropertiesFloatSer
  SpecDate DateModel DateTextProofs PropertiesDate XModel SpecX.
Import ListNotations.
Local Open Scope N_scope.

Lemma followed_num : forall buf e j l, SkipProofs.followed true buf e j l -> num_end true buf e l.
Proof.
  intros buf e j l (w & W & S & -> & L & E). split; [lia|]. destruct w as [|x w]; cbn [length] in *.
  - rewrite Nat.add_0_r in *. destruct E as [E|(_ & b & Hb & Cb)]; auto. right. exists b. split; auto. unfold closer, is_dig in *. lia.
  - right. exists x. destruct S as [S _]. split; auto. inversion W as [|? ? Wx _]; subst. unfold json_ws, is_dig in *. lia.
Qed.

(** ** Doubles *)

Section Real.
  Context (fc : from_chars_t) (rt precise : bool).
  Hypothesis HFC : precise = true -> from_chars_exact fc.

  Lemma small_digits : forall i f, digits i -> frac_part f -> (length i + length (fract_digits f) <= 15)%nat ->
    dec_val (i ++ fract_digits f) <= 2^53.
  Proof.
    intros i f DI HF L. pose proof (dec_val_lt (i ++ fract_digits f)) as B.
    assert (D : digits (i ++ fract_digits f)) by (apply Forall_app; split; [exact DI|now apply fract_digits_ok]). specialize (B D).
    rewrite app_length in B.
    assert (10 ^ N.of_nat (length i + length (fract_digits f)) <= 10 ^ 15) by (apply N.pow_le_mono_r; lia).
    change (10^15) with 1000000000000000 in *. change (2^53) with 9007199254740992. lia.
  Qed.

  Lemma sign_neg : forall sg i t, sg = [] \/ sg = [45] -> int_part i -> is_neg (sg ++ i ++ t) = match sg with [] => false | _ => true end.
  Proof. intros sg i t HS HI. rewrite (neg_sign sg i t HS HI). destruct HS as [-> | ->]; reflexivity. Qed.

  Lemma unknown_double : forall buf p sg i f e x d, number_at buf p sg i f e x -> delimited p sg i ->
    (precise = false -> (length i + length (fract_digits f) <= 15)%nat /\ (-22 <= x - Z.of_nat (length (fract_digits f)) <= 22)%Z) ->
    nearest_double (match sg with [] => false | _ => true end) (Q2R (inject_Z (sign_of sg) * magnitude i f x)) d ->
    parse_float fc rt false precise Double buf p = Ok (d, set_first p (first p + length (sg ++ i ++ f ++ e))).
  Proof.
    intros buf p sg i f e x d NA DL DEF ND. assert (NA' := NA). destruct NA' as (HB & LB & L32 & Hsg & HI & HF & HX & BX & HS & NE).
    destruct (unknown_parts 18 precise sg i f e x buf p) as (more & E & _); auto; [lia|].
    assert (G : exists v, parse_float fc rt false precise Double buf p = Ok (v, set_first p (first p + length (sg ++ i ++ f ++ e))) /\
      nearest_double (is_neg (sg ++ i ++ f ++ e)) (Q2R (inject_Z (sign_of sg) * magnitude i f x)) v).
    { destruct precise.
      - destruct (C74_unknown_partial fc rt buf p sg i f e x (HFC eq_refl) NA DL) as (v & p' & E2 & NR). exists v. split; [|exact NR].
        rewrite E2. unfold parse_float in E2. cbn [f_digits] in E2. rewrite E in E2. cbn [bind] in E2.
        destruct (finish_real fc rt Double buf (first p) (last p) _) as [w| | |]; cbn [bind] in E2; try discriminate. injection E2 as _ <-. reflexivity.
      - destruct (DEF eq_refl) as (L15 & X22).
        destruct (C08_exact_partial 18 false buf p sg i f e x ltac:(lia) NA DL ltac:(left; lia)) as (r & E1 & H1).
        rewrite E in E1. injection E1 as <-.
        assert (K1 : kept 18 i f = i ++ fract_digits f).
        { unfold kept, kept_whole, kept_fraction. rewrite !firstn_all2 by lia. reflexivity. }
        assert (K2 : kept_fraction 18 i f = fract_digits f) by (unfold kept_fraction; apply firstn_all2; lia).
        unfold parse_float. cbn [f_digits]. rewrite E. cbn [bind].
        set (r := mkreal _ _ _ _) in *.
        destruct (scale_fast rt (r_sign r) (r_sig r) (r_exp r) (r_strtod r)) as (v & EV & NR).
        + cbn. now apply sign_R.
        + cbn [r_sig r]. rewrite K1. pose proof (small_digits i f ltac:(destruct HI; auto) HF L15). lia.
        + cbn [r_exp r]. rewrite K2. lia.
        + exists v. replace (finish_real fc rt Double buf (first p) (last p) r) with (Ok v).
          cbn [bind]. split; [reflexivity|]. rewrite (neg_sign sg i (f ++ e) Hsg HI).
          rewrite <- (Qeq_eqR _ _ H1). unfold handed. rewrite Q2R_decimal. exact NR. }
    destruct G as (v & E2 & NR). rewrite E2. rewrite sign_neg in NR by auto. do 2 f_equal. exact (nearest_unique _ _ _ _ NR ND).
  Qed.

  Lemma known_double : forall buf p sg i f e x d, number_at buf p sg i f e x ->
    (precise = false -> (length i + length (fract_digits f) <= 15)%nat /\ (-22 <= x - Z.of_nat (length (fract_digits f)) <= 22)%Z) ->
    nearest_double (match sg with [] => false | _ => true end) (Q2R (inject_Z (sign_of sg) * magnitude i f x)) d ->
    exists w p', skip_number true buf p = Ok (w, p') /\ parse_float fc rt true precise Double buf w = Ok (d, w).
  Proof.
    intros buf p sg i f e x d NA DEF ND. assert (NA' := NA). destruct NA' as (HB & LB & L32 & Hsg & HI & HF & HX & BX & HS & NE).
    assert (HI' := HI). destruct HI' as (HD & NI & _).
    assert (G : exists w p' v, skip_number true buf p = Ok (w, p') /\ parse_float fc rt true precise Double buf w = Ok (v, w) /\
      nearest_double (is_neg (sg ++ i ++ f ++ e)) (Q2R (inject_Z (sign_of sg) * magnitude i f x)) v).
    { destruct precise; [now apply C74_known_partial; auto|].
      destruct (DEF eq_refl) as (L15 & X22).
      destruct (C08_known_partial 18 false buf p sg i f e x ltac:(lia) NA ltac:(lia)) as (w & p' & r & SK & E1 & H1).
      pose proof SK as SK'. rewrite (skip_number_ok true sg i f e) in SK' by (auto; eapply exp_val_part; eauto). injection SK' as W P'.
      assert (LW : (last w <= length buf)%nat) by (subst w; cbn; destruct NE; lia).
      assert (KN : known_number sg i f e w) by (subst w; unfold known_number; cbn; auto).
      destruct (known_parts 18 false sg i f e x buf w) as (more & E & _); auto; [lia|subst w; exact HS|].
      rewrite E in E1. injection E1 as <-.
      assert (K1 : kept_known 18 i f = i ++ fract_digits f).
      { unfold kept_known, kept_whole, kept_known_fraction. rewrite !firstn_all2 by lia. reflexivity. }
      assert (K2 : kept_known_fraction 18 i f = fract_digits f) by (unfold kept_known_fraction; apply firstn_all2; lia).
      set (r := mkreal _ _ _ _) in *.
      destruct (scale_fast rt (r_sign r) (r_sig r) (r_exp r) (r_strtod r)) as (v & EV & NR).
      + cbn. now apply sign_R.
      + cbn [r_sig r]. rewrite K1. pose proof (small_digits i f HD HF L15). lia.
      + cbn [r_exp r]. rewrite K2. lia.
      + exists w, p', v. split; [exact SK|]. unfold parse_float. cbn [f_digits]. rewrite E. cbn [bind]. fold r.
        replace (finish_real fc rt Double buf (first w) (last w) r) with (Ok v).
        cbn [bind]. split; [reflexivity|]. rewrite (neg_sign sg i (f ++ e) Hsg HI).
        rewrite <- (Qeq_eqR _ _ H1). unfold handed. rewrite Q2R_decimal. exact NR. }
    destruct G as (w & p' & v & SK & E2 & NR). exists w, p'. split; [exact SK|]. rewrite E2. rewrite sign_neg in NR by auto. do 2 f_equal. exact (nearest_unique _ _ _ _ NR ND).
  Qed.
End Real.

Section Cfg.
  Context (fc : from_chars_t) (rt precise drop : bool).
  Hypothesis HFC : precise = true -> from_chars_exact fc.
  Context (g : cfg).
  Hypothesis HX : c_ex g = ExConstexpr.
  Hypothesis HE : c_excl g = false.

  Lemma no_point : forall sg i f e, sg = [] \/ sg = [45] -> int_part i -> with_point (sg ++ i ++ f ++ e) -> f ++ e <> [].
  Proof.
    intros sg i f e HS (HD & _) (b & HB & CB) EF. rewrite EF, app_nil_r in HB. apply in_app_or in HB as [HB|HB].
    - destruct HS as [-> | ->]; [contradiction|]. destruct HB as [<-|[]]. lia.
    - unfold digits in HD. rewrite Forall_forall in HD. specialize (HD _ HB). unfold is_dig in HD. lia.
  Qed.

  Lemma double_here : forall tx d buf p j, real_text precise tx d -> wf buf p -> N.of_nat (length buf) < 2^32 -> sub_at buf (first p) tx ->
    SkipProofs.followed true buf (first p + length tx) j (last p) -> (first p + length tx < last p)%nat \/ with_point tx ->
    parse_value_double fc rt precise false buf p = Ok (real_val d, set_first p (first p + length tx)).
  Proof.
    intros tx d buf p j HR HW H32 HS HF HI. destruct HR as [sg i f e x d Hsg Hi Hf Hx BX DEF ND].
    pose proof (followed_le _ _ _ _ _ HF) as FL. pose proof HW as (HB & _ & HL & cl & HCl & HCL).
    assert (NA : number_at buf p sg i f e x).
    { split; [exact HB|]. split; [lia|]. split; [exact H32|]. split; [exact Hsg|]. split; [exact Hi|]. split; [exact Hf|]. split; [exact Hx|].
      split; [exact BX|]. split; [exact HS|]. eapply followed_num; eauto. }
    assert (DL : delimited p sg i).
    { unfold delimited. destruct HI as [HI|HI]; [rewrite !app_length in *; lia|].
      pose proof (no_point _ _ _ _ Hsg Hi HI) as NP. destruct (f ++ e) as [|b r] eqn:EF; [congruence|].
      rewrite !app_length in *. cbn [length] in *. lia. }
    assert (F0 : exists c, nth_error buf (first p) = Some c /\ is_number_start c = true).
    { destruct Hi as (HD & NI & _). destruct Hsg as [-> | ->].
      - destruct i as [|c i]; [congruence|]. exists c. split; [apply HS|]. inversion HD; subst. unfold is_number_start, is_dig, c_0, c_minus in *. lia.
      - exists 45. split; [apply HS|reflexivity]. }
    destruct F0 as (c & HC & NS). unfold parse_value_double, has_more, front.
    assert (LT : (first p < last p)%nat) by (unfold delimited in DL; lia).
    replace (first p <? last p)%nat with true by lia. cbn [ensure bind]. rewrite (rd_some _ _ _ HC). cbn [bind]. rewrite NS. cbn [ensure bind].
    rewrite (unknown_double fc rt precise HFC buf p sg i f e x d NA DL DEF ND). cbn [bind].
    rewrite (end_here buf _ j) by exact HF. reflexivity.
  Qed.

  Lemma located_double : forall tx d buf r, real_text precise tx d -> N.of_nat (length buf) < 2^32 -> located g buf (JNum tx) r ->
    exists q, parse_value_double fc rt precise true buf r = Ok (real_val d, q).
  Proof.
    intros tx d buf r HR H32 (p & t & j & q & HW & HT & HS & HF & ES & _). inversion HT; subst t. clear HT.
    destruct HR as [sg i f e x d Hsg Hi Hf Hx BX DEF ND].
    pose proof (followed_le _ _ _ _ _ HF) as FL. pose proof HW as (HB & _ & HL & cl & HCl & HCL).
    assert (NA : number_at buf (set_counter p 0) sg i f e x).
    { split; [exact HB|]. cbn [first last set_counter]. split; [lia|]. split; [exact H32|]. split; [exact Hsg|]. split; [exact Hi|]. split; [exact Hf|]. split; [exact Hx|].
      split; [exact BX|]. split; [exact HS|]. eapply followed_num; eauto. }
    destruct (known_double fc rt precise HFC buf _ sg i f e x d NA DEF ND) as (w & p' & SK & EP).
    assert (F0 : exists c, nth_error buf (first p) = Some c /\ (c = 45 \/ 48 <= c <= 57)).
    { destruct Hi as (HD & NI & _). destruct Hsg as [-> | ->].
      - destruct i as [|c i]; [congruence|]. exists c. split; [apply HS|]. inversion HD; subst. unfold is_dig in *. lia.
      - exists 45. split; [apply HS|auto]. }
    destruct F0 as (c & HC & NS).
    assert (L0 : (0 < length (sg ++ i ++ f ++ e))%nat).
    { destruct Hi as (_ & NI & _). destruct i; [congruence|]. rewrite !app_length. cbn [length]. lia. }
    assert (R : r = w).
    { unfold skip_val, skip_value in ES.
      replace (ensure (has_more p) UnexpectedEndOfData) with (@Ok unit tt) in ES.
      2:{ unfold has_more. replace (first p <? last p)%nat with true by lia. reflexivity. }
      cbn [bind] in ES. unfold front in ES. cbn [first set_counter] in ES. rewrite (rd_some _ _ _ HC) in ES. cbn [bind] in ES.
      replace (c =? c_quote) with false in ES by (unfold c_quote; lia). replace (c =? c_lbrack) with false in ES by (unfold c_lbrack; lia).
      replace (c =? c_lbrace) with false in ES by (unfold c_lbrace; lia). replace (c =? c_t) with false in ES by (unfold c_t; lia).
      replace (c =? c_f) with false in ES by (unfold c_f; lia). replace (c =? c_n) with false in ES by (unfold c_n; lia).
      replace ((c =? c_minus) || ((48 <=? c) && (c <=? 57))) with true in ES by (unfold c_minus; lia).
      rewrite SK in ES. now injection ES as <- _. }
    subst r. unfold parse_value_double. rewrite EP. cbn [bind]. eauto.
  Qed.

  Lemma real_inside : forall tx d, real_text precise tx d -> reads_inside g (parse_value_double fc rt precise) (JNum tx) (real_val d).
  Proof.
    intros tx d HR. split.
    - intros buf p t j HW H32 HT HS HF HI. inversion HT; subst t. pose proof (followed_le _ _ _ _ _ HF) as FL.
      exists (set_first p (first p + length tx)). split; [eapply double_here; eauto|]. split; [apply moved_first|]. cbn [first set_first]. lia.
    - intros _ buf r H32 HLo. eapply located_double; eauto.
  Qed.

  Lemma real_reads : forall tx d, real_text precise tx d -> with_point tx -> reads g (parse_value_double fc rt precise) (JNum tx) (real_val d).
  Proof.
    intros tx d HR HP. split.
    - intros buf p t j HW H32 HT HS HF. inversion HT; subst t. pose proof (followed_le _ _ _ _ _ HF) as FL.
      exists (set_first p (first p + length tx)). split; [eapply double_here; eauto|]. split; [apply moved_first|]. cbn [first set_first]. lia.
    - intros _ buf r H32 HLo. eapply located_double; eauto.
  Qed.

  (** ** Dates *)

  Lemma field_two : forall t z, field t z -> exists a b, t = [a; b] /\ two z a b.
  Proof.
    intros t z (HD & HL & ->). destruct t as [|a [|b [|? ?]]]; try discriminate. exists a, b. split; [reflexivity|].
    inversion HD as [|? ? DA D2]; subst. inversion D2 as [|? ? DB _]; subst. split; [exact DA|]. split; [exact DB|]. reflexivity.
  Qed.

  Lemma date_read : forall b tp, date_text b tp -> forall buf off, sub_at buf off b ->
    parse_iso8601_timestamp drop buf (mksv off (length b)) = Ok tp.
  Proof.
    intros b tp HD buf off HS. destruct HD as [Y M D h mi s fr m d hh mm ss ns k DY NY FM FD Fh Fmi Fs FF LY VD VT DN KB].
    destruct (field_two _ _ FM) as (m1 & m2 & -> & TM). destruct (field_two _ _ FD) as (d1 & d2 & -> & TD).
    destruct (field_two _ _ Fh) as (h1 & h2 & -> & Th). destruct (field_two _ _ Fmi) as (n1 & n2 & -> & Tn). destruct (field_two _ _ Fs) as (s1 & s2 & -> & Ts).
    pose proof VD as (VM & VDD). pose proof VT as (Vh & Vm & Vs).
    assert (ML : (month_len (Z.of_N (dec_val Y)) m <= 31)%Z).
    { unfold month_len. destruct (m =? 2)%Z; [destruct (leap _); lia|]. destruct ((m =? 4) || (m =? 6) || (m =? 9) || (m =? 11))%Z; lia. }
    assert (NS : (0 <= ns < 1000000000)%Z).
    { destruct FF as [(_ & ->)|(ds & _ & DD & LD & ->)]; [lia|]. pose proof (dec_val_lt ds DD) as B.
      assert (B1 : (Z.of_N (dec_val ds) < 10 ^ Z.of_nat (length ds))%Z).
      { replace (10 ^ Z.of_nat (length ds))%Z with (Z.of_N (10 ^ N.of_nat (length ds))) by (rewrite N2Z.inj_pow; f_equal; lia). lia. }
      assert (B2 : (10 ^ Z.of_nat (length ds) * 10 ^ Z.of_nat (9 - length ds) = 10 ^ 9)%Z) by (rewrite <- Z.pow_add_r by lia; f_equal; lia).
      assert (B3 : (0 < 10 ^ Z.of_nat (9 - length ds))%Z) by (apply Z.pow_pos_nonneg; lia).
      change 1000000000%Z with (10 ^ 9)%Z. rewrite <- B2. set (a := (10 ^ Z.of_nat (length ds))%Z) in *. set (c := (10 ^ Z.of_nat (9 - length ds))%Z) in *.
      clearbody a c. clear - B1 B3. split; nia. }
    replace (length (Y ++ 45 :: [m1; m2] ++ 45 :: [d1; d2] ++ 84 :: [h1; h2] ++ 58 :: [n1; n2] ++ 58 :: [s1; s2] ++ fr ++ [90]))
      with (length Y + 15 + length fr + 1)%nat by (repeat (rewrite app_length; cbn [length]); lia).
    apply (parse_utc_ok drop buf off Y m1 m2 d1 d2 h1 h2 n1 n2 s1 s2 fr m d hh mm ss ns); auto; try lia.
    apply C44_to_time_point; auto. change (2^31)%Z with 2147483648%Z in *. lia.
  Qed.

  Lemma date_reads : forall b tp, date_text b tp -> reads g (parse_value_date drop g) (JStr b) (VInt tp).
  Proof.
    intros b tp HD. assert (NB : (0 < length b)%nat) by (destruct HD; rewrite app_length; cbn [length]; lia). split.
    - intros buf p t j HW H32 HT HS HF. pose proof (followed_le _ _ _ _ _ HF) as FL. inversion HT as [| | | |b' HB' E1 E2| | | |]; subst b' t.
      cbn [length] in *. rewrite app_length in *. cbn [length] in *.
      destruct (skip_string_here g HX HE buf p b HW H32 HB' HS ltac:(lia)) as (r & E & R1 & R2).
      exists (set_first p (first p + length b + 2)). split; [|split; [apply moved_first|cbn [first set_first]; lia]].
      unfold parse_value_date, has_more. replace (first p <? last p)%nat with true by lia. cbn [ensure bind]. rewrite E. cbn [bind].
      rewrite R2, R1. replace (S (first p) + length b - S (first p))%nat with (length b) by lia.
      rewrite (date_read b tp HD); [reflexivity|]. destruct HS as [_ HS]. apply sub_at_app in HS. apply HS.
    - intros _ buf r H32 HLo. destruct (located_string g HX HE _ _ _ H32 HLo) as (HS & HL & _).
      unfold parse_value_date, has_more. replace (first r <? last r)%nat with true by lia. cbn [ensure bind].
      rewrite HL. replace (first r + length b - first r)%nat with (length b) by lia.
      rewrite (date_read b tp HD); [cbn [bind]; eauto|]. apply sub_at_app in HS. apply HS.
  Qed.

  (** ** Containers *)

  Lemma some_inside : forall P v y, v <> JNull -> reads_inside g P v y -> reads_inside g (parse_value_null P) v (VSome y).
  Proof.
    intros P v y NV [R1 R2]. split.
    - intros buf p t j HW H32 HT HS HF HI. pose proof (followed_le _ _ _ _ _ HF) as FL.
      pose proof HW as (HB & _ & HL & cl & HCl & HCL). destruct (jtext_head _ _ _ HT) as (c & r & -> & ST). cbn [length] in *.
      pose proof HS as [HC _]. pose proof (jtext_not_n g v _ buf _ HT HS NV _ HC) as N110. unfold starter in ST.
      unfold parse_value_null. unfold has_more, front. replace (first p <? last p)%nat with true by lia.
      rewrite (rd_some _ _ _ HC). cbn [bind].
      replace (is_token_after_value c) with false by (unfold is_token_after_value, c_comma, c_rbrace, c_rbrack; lia). cbn iota.
      rewrite (starts_with_no buf p _ c 110) by (auto; lia). cbn [bind].
      destruct (R1 buf p _ j HW H32 HT HS HF HI) as (q & E & M & L). rewrite E. cbn [bind]. exists q. auto.
    - intros _ buf r H32 HLo. destruct (located_range g HX HE _ _ _ H32 HLo) as (p & t & j & q & _ & _ & _ & _ & _ & _ & NN & _).
      unfold parse_value_null. rewrite NN by auto.
      destruct (R2 NV buf r H32 HLo) as (q' & E). rewrite E. cbn [bind]. eauto.
  Qed.

  Lemma arrays : forall P es xs, Forall2 (reads_inside g P) es xs -> reads g (fun _ => parse_value_array P) (JArr es) (VArr xs).
  Proof.
    intros P es xs HR. apply reads_bracketed; auto; [left; eauto|]. intros known buf p t j HW H32 HT HS HF.
    pose proof (followed_le _ _ _ _ _ HF) as FL.
    destruct (array_inside g _ _ _ HR buf p t j HW H32 HT HS (followed_ws_run _ _ _ _ HF)) as (q & E & M & F). exists q. split; [exact E|]. split; [exact M|]. lia.
  Qed.

  Lemma maps : forall P ms xs, Forall2 (member_inside g P) ms xs -> reads g (fun _ => parse_value_keyvalue g P) (JObj ms) (VMap xs).
  Proof.
    intros P ms xs HR. apply reads_bracketed; auto; [right; eauto|]. intros known buf p t j HW H32 HT HS HF.
    pose proof (followed_le _ _ _ _ _ HF) as FL.
    destruct (map_inside g HX _ _ _ HR buf p t j HW H32 HT HS (followed_ws_run _ _ _ _ HF)) as (q & E & M & F). exists q. split; [exact E|]. split; [exact M|]. lia.
  Qed.

  Lemma classes : forall exact ms js xs, fits_inside g exact ms js xs -> reads g (parse_value_class g exact ms) (JObj js) (VClass xs).
  Proof.
    intros exact ms js xs HFit. apply reads_bracketed; auto; [right; eauto|]. intros known buf p t j HW H32 HT HS HF.
    pose proof (followed_le _ _ _ _ _ HF) as FL. unfold parse_value_class.
    destruct (class_inside g exact _ js xs HX HE HFit buf p t j HW H32 HT HS (followed_ws_run _ _ _ _ HF)) as (q & E & M & F).
    destruct (jtext_head _ _ _ HT) as (c & r & -> & _). cbn [length] in *.
    unfold has_more. replace (first p <? last p)%nat with true by lia. cbn [ensure bind].
    rewrite E. cbn [bind]. destruct known.
    - exists q. split; [reflexivity|]. split; [exact M|]. lia.
    - assert (LQ : last q = last p) by apply M.
      rewrite (trim_followed buf q j (proj1 HW)) by (rewrite F, LQ; eapply followed_at_j; eauto). cbn [bind].
      eexists. split; [reflexivity|]. split; [eapply moved_trans; [exact M|repeat split]|]. cbn [first set_first]. lia.
  Qed.

  Lemma tuples : forall exact Ps es xs es2, Forall2 (fun P vx => reads_inside g P (fst vx) (snd vx)) Ps (combine es xs) ->
    length es = length xs -> (exact = true -> es2 = []) -> (forall v, hd_error es2 = Some v -> no_array v) ->
    reads g (fun _ => parse_tuple g exact Ps) (JArr (es ++ es2)) (VTuple xs).
  Proof.
    intros exact Ps es xs es2 HR HLen HEx HNA. apply reads_bracketed; auto; [left; eauto|]. intros known buf p t j HW H32 HT HS HF.
    eapply tuple_inside; eauto using followed_ws_run.
  Qed.

  Context (nc : list (list N) -> list N -> Prop).
  Hypothesis HNC : forall names k, nc names k -> name_ok g k /\ tells g names k.

  Lemma means_null : forall t x, means precise nc t JNull x -> x_nullable t = true /\ x = VNone.
  Proof.
    intros t x H. destruct t; cbn [means x_nullable] in *.
    - eapply typed_null; eauto.
    - destruct H as (? & ? & H & _). discriminate.
    - destruct H as (? & ? & H & _). discriminate.
    - destruct H as [[_ ->]|[H _]]; [auto|congruence].
    - destruct H as (? & ? & H & _). discriminate.
    - destruct H as (? & ? & H & _). discriminate.
    - destruct H as (? & ? & H & _). discriminate.
    - destruct H as (? & ? & ? & H & _). discriminate.
  Qed.

  Theorem means_reads : forall t v x, means precise nc t v x ->
    reads_inside g (parse_x fc rt precise drop g t) v x /\ (root_ok t v -> reads g (parse_x fc rt precise drop g t) v x).
  Proof.
    assert (R : forall P v x (Q : Prop), reads g P v x -> reads_inside g P v x /\ (Q -> reads g P v x)) by (intros; split; auto using reads_reads_inside).
    fix IH 1. intros t v x H. destruct t as [t| | |t|t|t|exact mm|exact ts]; cbn [means] in H.
    - apply R. apply (typed_reads g HX HE nc HNC t v x H).
    - destruct H as (tx & d & -> & HR & ->). split; [now apply real_inside|]. intros HP. now apply real_reads.
    - destruct H as (b & tp & -> & HD & ->). apply R. now apply date_reads.
    - destruct H as [[-> ->]|(NV & y & H & ->)]; [apply R; apply any_null|]. destruct (IH t v y H) as [A B].
      split; [apply some_inside; auto|]. intros HP. apply any_some; auto.
    - destruct H as (es & xs & -> & -> & H). apply R. apply arrays; auto. revert H. clear - IH. induction 1; constructor; auto. now apply IH.
    - destruct H as (ms & kxs & -> & -> & H). apply R. apply maps; auto. revert H. clear - IH.
      induction 1 as [|m kx ms kxs [D H] _ IHl]; constructor; auto. split; [exact D|]. now apply IH.
    - destruct H as (js & xs & -> & -> & ND & NDJ & FN & EX & H). apply R.
      apply (classes exact (map (fun m => mkmember (fst m) (x_nullable (snd m)) (parse_x fc rt precise drop g (snd m))) mm) js xs).
      assert (EN : map m_name (map (fun m => mkmember (fst m) (x_nullable (snd m)) (parse_x fc rt precise drop g (snd m))) mm) = map fst mm)
        by (rewrite map_map; reflexivity).
      split; [now rewrite EN|]. rewrite EN. split; [exact NDJ|]. split; [|split].
      + revert FN. apply Forall_impl. intros k. apply HNC.
      + exact EX.
      + clear EX FN ND NDJ EN. revert xs H. induction mm as [|[nm t] mm IHm]; intros [|y xs] H; try contradiction; [constructor|].
        destruct H as [H1 H2]. cbn [map fst snd]. constructor; [|now apply IHm].
        unfold gets_inside. cbn [m_name m_nullable m_parse]. rewrite <- lookup_assoc.
        destruct (lookup nm js) as [v'|]; [|exact H1]. split; [now apply IH|]. intros ->. eapply means_null; eauto.
    - destruct H as (es & xs & es2 & -> & -> & EX & NA & H).
      assert (FL : length es = length xs /\ Forall2 (fun P vx => reads_inside g P (fst vx) (snd vx)) (map (parse_x fc rt precise drop g) ts) (combine es xs)).
      { clear EX NA. revert es xs H. induction ts as [|t ts IHt]; intros [|e es] [|y xs] H; try contradiction; [split; constructor|].
        destruct H as [H1 H2]. destruct (IHt _ _ H2) as [L F]. cbn [length map combine]. split; [lia|]. constructor; [cbn [fst snd]; now apply IH|exact F]. }
      destruct FL as [L F]. apply R. apply (tuples exact (map (parse_x fc rt precise drop g) ts)); auto.
  Qed.

  (** ** Whole documents *)

  Definition x_trims (t : xty) : bool := match t with XTy t => trims t | XArr _ | XClass _ _ | XTuple _ _ => true | _ => false end.

  Lemma x_leading : forall t known buf p c, is_bytes buf -> x_trims t = true -> forall w, ws w -> sub_at buf (first p) (w ++ [c]) -> 32 < c ->
    (first p + length w < last p)%nat ->
    parse_x fc rt precise drop g t known buf p = parse_x fc rt precise drop g t known buf (set_first p (first p + length w)).
  Proof.
    intros t known buf p c HB HT w W HS HC HL.
    assert (T1 : trim_left_checked buf p = Ok (set_first p (first p + length w))) by (apply (trim_to buf p w c); auto; lia).
    set (p' := set_first p (first p + length w)) in *.
    assert (T2 : trim_left_checked buf p' = Ok p').
    { pose proof HS as HS'. apply sub_at_app in HS' as [_ [HS' _]]. now apply (trim_here buf p' c). }
    destruct t; try discriminate HT; cbn [parse_x].
    - now apply (trims_leading g t known buf p c).
    - unfold parse_value_array. now rewrite T1, T2.
    - unfold parse_value_class. unfold has_more. change (last p') with (last p). change (first p') with (first p + length w)%nat.
      replace (first p <? last p)%nat with true by lia. replace (first p + length w <? last p)%nat with true by lia. cbn [ensure bind].
      unfold parse_json_class. now rewrite T1, T2.
    - unfold parse_tuple. now rewrite T1, T2.
  Qed.

  (** The document: whitespace where the type allows it, the text, whitespace, and
      possibly a terminating zero. *)
  Definition x_document (t : xty) (v : jv) (doc : list N) : Prop :=
    exists w0 tx w z, ws w0 /\ (x_trims t = false -> w0 = []) /\ jtext str_body v tx /\ ws w /\ (z = [] \/ z = [0]) /\
      (w = [] -> root_ok t v) /\ doc = w0 ++ tx ++ w ++ z.

  Lemma from_json_x_len : forall verify t (body z : list N), body <> [] -> (z = [] \/ z = [0]) ->
    (exists r c, body = r ++ [c] /\ c <> 0) ->
    from_json_x fc rt precise drop g verify t (body ++ z) =
     ('(v, p) <- parse_x fc rt precise drop g t false (body ++ z) (new_ps 0 (length body)) ;;
      if verify then
        p <- trim_left_checked (body ++ z) p ;;
        _ <- ensure (ps_empty p) InvalidEndOfValue ;;
        Ok v
      else Ok v).
  Proof.
    intros verify t body z NE HZ (r & c & EB & NC). unfold from_json_x.
    assert (LB : (0 < length body)%nat) by (destruct body; [congruence|cbn; lia]).
    replace (length (body ++ z) =? 0)%nat with false by (rewrite app_length; lia). cbn [negb ensure bind].
    destruct HZ as [->| ->].
    - rewrite app_nil_r. rewrite (rd_some body (length body - 1) c).
      2:{ subst body. rewrite app_length. cbn [length]. replace (length r + 1 - 1)%nat with (length r) by lia.
          rewrite nth_error_app2, Nat.sub_diag by lia. reflexivity. }
      cbn [bind]. replace (c =? 0) with false by lia. reflexivity.
    - rewrite (rd_some (body ++ [0]) (length (body ++ [0]) - 1) 0).
      2:{ rewrite app_length. cbn [length]. replace (length body + 1 - 1)%nat with (length body) by lia.
          rewrite nth_error_app2, Nat.sub_diag by lia. reflexivity. }
      cbn [bind N.eqb]. rewrite app_length. cbn [length]. replace (length body + 1 - 1)%nat with (length body) by lia. reflexivity.
  Qed.

  Theorem from_json_means : forall verify t v x doc, is_bytes doc -> N.of_nat (length doc) < 2^32 ->
    x_document t v doc -> means precise nc t v x -> from_json_x fc rt precise drop g verify t doc = Ok x.
  Proof.
    intros verify t v x doc HB H32 (w0 & tx & w & z & W0 & TR & HT & W & HZ & RO & ->) HTy.
    replace (w0 ++ tx ++ w ++ z) with ((w0 ++ tx ++ w) ++ z) in * by (rewrite <- !app_assoc; reflexivity).
    destruct (jtext_head _ _ _ HT) as (c0 & r0 & ET & ST). destruct (jtext_last _ _ _ HT) as (rl & cl & EL & NL).
    rewrite from_json_x_len; auto.
    2:{ subst tx. intros Y. apply app_eq_nil in Y as [_ Y]. discriminate. }
    2:{ rewrite EL. destruct (ws_last rl cl w NL W) as (r' & c' & E' & N'). rewrite E'. exists (w0 ++ r'), c'. rewrite <- app_assoc. auto. }
    set (buf := (w0 ++ tx ++ w) ++ z) in *. set (l := length (w0 ++ tx ++ w)).
    assert (LL : l = (length w0 + length tx + length w)%nat) by (unfold l; rewrite !app_length; lia).
    assert (LB : (l <= length buf)%nat) by (unfold buf; rewrite app_length; fold l; lia).
    assert (STX : sub_at buf (length w0) tx).
    { unfold buf. replace ((w0 ++ tx ++ w) ++ z) with (w0 ++ tx ++ (w ++ z)) by (rewrite <- !app_assoc; reflexivity). apply sub_at_mid. }
    assert (LT : (0 < length tx)%nat) by (rewrite ET; cbn; lia).
    set (p := set_first (new_ps 0 l) (length w0)).
    assert (WF : wf buf p) by (apply wf_doc; auto; lia).
    assert (EP : parse_x fc rt precise drop g t false buf (new_ps 0 l) = parse_x fc rt precise drop g t false buf p).
    { destruct (x_trims t) eqn:TT.
      - apply (x_leading t false buf (new_ps 0 l) c0 HB TT w0 W0); cbn [first last new_ps].
        + unfold buf. rewrite <- app_assoc. rewrite ET.
          replace (w0 ++ ((c0 :: r0) ++ w) ++ z) with ((w0 ++ [c0]) ++ (r0 ++ w) ++ z) by (rewrite <- !app_assoc; reflexivity). apply sub_at_0.
        + unfold starter in ST. lia.
        + lia.
      - unfold p. rewrite (TR eq_refl). reflexivity. }
    rewrite EP.
    assert (HF : SkipProofs.followed true buf (first p + length tx) l (last p)).
    { exists w. split; [exact W|]. unfold p. cbn [first last set_first new_ps]. split; [|split; [lia|split; [lia|left; auto]]].
      unfold buf. replace ((w0 ++ tx ++ w) ++ z) with ((w0 ++ tx) ++ w ++ z) by (rewrite <- !app_assoc; reflexivity).
      rewrite <- app_length. apply sub_at_mid. }
    destruct (means_reads t v x HTy) as [RI RR].
    assert (Q : exists q, parse_x fc rt precise drop g t false buf p = Ok (x, q) /\ moved p q /\ (first p + length tx <= first q <= l)%nat).
    { destruct w as [|b w]; [apply (proj1 (RR (RO eq_refl)) buf p tx l); auto|]. apply (proj1 RI buf p tx l); auto.
      unfold p. cbn [first last set_first new_ps length] in *. lia. }
    destruct Q as (q & EQ & MQ & LQ).
    rewrite EQ. cbn [bind]. destruct verify; [|reflexivity].
    assert (LQl : last q = l) by (rewrite (proj1 MQ); reflexivity).
    rewrite (trim_followed buf q l HB).
    2:{ rewrite LQl. change (last p) with l in HF. eapply followed_from; [exact HF|exact LQ]. }
    cbn [bind]. unfold ps_empty. cbn [isnull first last set_first]. rewrite LQl, Nat.leb_refl, orb_true_r. reflexivity.
  Qed.
End Cfg.
