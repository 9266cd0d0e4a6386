(** Properties of writing real numbers: C09, C69 to C72. *)
From Coq Require Import String.
From Coq Require Import List NArith ZArith QArith Qpower Qfield Bool Lia Arith ZifyBool ZifyNat ZifyN.
From Verif Require Import Base Mem Loop PolicyModel IntModel IntProofs IntSerModel StrScanModel SkipModel SpecNum SpecText SpecJson SkipProofs SkipSafe GapProofs
  RealModel SpecReal RealProofs RealSafe PropertiesReal RealSerModel RealSerProofs RealSerProofs2 RealOptModel.
Import ListNotations.
Local Open Scope N_scope.

(** The significands and exponents of double and float: at most 17 and 9 digits,
    exponents beyond those of the smallest and largest finite values *)
Definition fp_parts (dbl : bool) (v : N) (exp : Z) : Prop :=
  v < (if dbl then 10^17 else 10^9) /\ ((if dbl then -999 else -99) <= exp <= (if dbl then 983 else 91))%Z.

(** The number to write *)
Definition fp_value (neg : bool) (v : N) (exp : Z) : Q := decimal (if neg then - Z.of_N v else Z.of_N v)%Z exp.

Lemma sign_decimal : forall (neg : bool) v exp,
  (inject_Z (sign_of (if neg then [45%N] else [])) * decimal (Z.of_N v) exp == fp_value neg v exp)%Q.
Proof.
  intros. unfold fp_value, decimal. destruct neg; cbn [sign_of].
  - rewrite inject_Z_opp. change (inject_Z (-1)) with (-(1))%Q. ring.
  - change (inject_Z 1) with 1%Q. ring.
Qed.

(** ** C09 *)

(** [cd0] is what count_digits returns for zero. *)
Theorem C09_denotes : forall cd0 dbl fmt neg v exp, (0 <= cd0 <= 1)%Z -> fp_parts dbl v exp ->
  exists t q, to_chars cd0 dbl fmt neg v exp = Ok t /\ denotes t q /\ (q == fp_value neg v exp)%Q.
Proof.
  intros cd0 dbl fmt neg v exp HC (HV & HE). destruct (N.eq_dec v 0) as [->|NZ].
  - exists [48], (inject_Z (sign_of []) * magnitude [48%N] [] 0)%Q. split; [reflexivity|]. split.
    + apply (den [] [48] [] [] 0); auto; [|constructor|constructor]. split; [repeat constructor; discriminate|]. split; [discriminate|]. intros r E. injection E. auto.
    + unfold fp_value, decimal. destruct neg; cbn [Z.of_N Z.opp]; change (inject_Z 0) with 0%Q; rewrite Qmult_0_l; reflexivity.
  - destruct (decimal_length_ok dbl v ltac:(lia) HV) as (o & EO & _).
    destruct (to_chars_parts cd0 dbl fmt neg v exp o HC ltac:(lia) HV HE EO) as (i & f & e & x & ET & HI & HF & HX & _ & HM & _).
    do 2 eexists. split; [exact ET|]. split; [apply den; eauto; destruct neg; auto|].
    rewrite HM. apply sign_decimal.
Qed.
Print Assumptions C09_denotes.

(** to_json_string_real writes that text, between quotes if the member is always a string. *)
Theorem C09_member : forall cd0 dbl o ne fmt neg v exp, (0 <= cd0 <= 1)%Z -> fp_parts dbl v exp ->
  exists t q, to_json_string_real cd0 dbl o ne fmt (FFin neg v exp) = Ok (match o with LSAlways => [34] ++ t ++ [34] | _ => t end) /\
    denotes t q /\ (q == fp_value neg v exp)%Q.
Proof.
  intros cd0 dbl o ne fmt neg v exp HC HP. destruct (C09_denotes cd0 dbl fmt neg v exp HC HP) as (t & q & ET & HD & HQ).
  exists t, q. cbn [to_json_string_real]. rewrite ET. cbn [bind]. split; auto.
  destruct o; cbn [quote_if app]; rewrite ?app_nil_r; reflexivity.
Qed.
Print Assumptions C09_member.

Example C09_run : to_chars 1 true FPAuto true 12345 (-2) = Ok (on "-123.45") /\ to_chars 0 true FPScientific false 12345 (-2) = Ok (on "1.2345e2") /\
  to_chars 0 true FPAuto false 5 (-324) = Ok (on "5e-324") /\ to_chars 1 true FPDecimal false 17976931348623157 3 = Ok (on "17976931348623157000") /\
  to_chars 1 true FPAuto false 1002 (-2) = Ok (on "10.02") /\ to_chars 0 false FPAuto false 123456789 (-12) = Ok (on "0.000123456789") /\
  fp_parts true 17976931348623157 292.
Proof. repeat split; vm_compute; congruence. Qed.

(** ** C69 *)

(** [t] is at the start of [p], followed by something that ends a number. *)
Definition followed (buf : list N) (p : ps) (t : list N) : Prop :=
  is_bytes buf /\ (last p <= length buf)%nat /\ N.of_nat (length buf) < 2^32 /\ sub_at buf (first p) t /\
  (first p + length t < last p)%nat /\ num_end true buf (first p + length t) (last p).

(** The number of digits written before the exponent *)
Definition written_digits (fmt : fp_format) (o : nat) (exp : Z) : nat :=
  if scientific fmt o exp then o else decimal_digits o exp.

(** The whole property: forall finite doubles (and floats) the number read back is
    the number written.  Partial: when fewer than 18 (10 for float) digits are
    written.  Refuted beyond. *)
Theorem C69_partial : forall cd0 (dbl : bool) fmt precise neg v exp o t buf p, (0 <= cd0 <= 1)%Z -> fp_parts dbl v exp -> v mod 10 <> 0 ->
  decimal_length dbl v = N.of_nat o -> (written_digits fmt o exp < if dbl then 18 else 10)%nat ->
  to_chars cd0 dbl fmt neg v exp = Ok t -> followed buf p t ->
  exists r, parse_real_unknown (if dbl then 18 else 10) precise buf p = Ok (r, set_first p (first p + length t)) /\
    (handed r == fp_value neg v exp)%Q.
Proof.
  intros cd0 dbl fmt precise neg v exp o t buf p HC (HV & HE) NT EO LD ET (HB & LB & L32 & HS & LT & NE).
  assert (V0 : 0 < v). { destruct (N.eq_dec v 0) as [->|]; [exfalso; apply NT; reflexivity|lia]. }
  destruct (to_chars_parts cd0 dbl fmt neg v exp o HC V0 HV HE EO) as (i & f & e & x & ET' & HI & HF & HX & BX & HM & HD).
  rewrite ET in ET'. injection ET' as ->. set (sg := if neg then [45] else []) in *.
  destruct (C08_exact_partial (if dbl then 18 else 10) precise buf p sg i f e x) as (r & ER & HR).
  - destruct dbl; lia.
  - unfold number_at. split; auto. split; auto. split; auto. split; [unfold sg; destruct neg; auto|]. split; auto. split; auto. split; auto. split; auto. change (2^62)%Z with 4611686018427387904%Z. lia.
  - unfold delimited. rewrite !app_length in *. lia.
  - left. rewrite HD by auto. unfold written_digits in LD. exact LD.
  - exists r. split; auto. rewrite HR, HM. apply sign_decimal.
Qed.
Print Assumptions C69_partial.

(** In the default format every value of at least 1 or below 10^-5 in absolute value
    qualifies. *)
Lemma auto_digits : forall o exp, (o <= 17)%nat -> (1 <= Z.of_nat o + exp \/ Z.of_nat o + exp < -4)%Z -> (written_digits FPAuto o exp < 18)%nat.
Proof.
  intros o exp HO H. unfold written_digits, decimal_digits. cbn [scientific].
  destruct (Z.of_nat o + exp <? -4)%Z eqn:E1; cbn [orb]; [lia|]. destruct (6 <? Z.of_nat o + exp)%Z eqn:E2; [lia|].
  destruct (exp <? 0)%Z eqn:E3; [|lia]. replace (Z.of_nat o + exp <=? 0)%Z with false by lia. lia.
Qed.

Theorem C69_default_partial : forall cd0 precise neg v exp o t buf p, (0 <= cd0 <= 1)%Z -> fp_parts true v exp -> v mod 10 <> 0 ->
  (1 <= o)%nat -> 10 ^ N.of_nat (o - 1) <= v < 10 ^ N.of_nat o -> (1 <= Z.of_nat o + exp \/ Z.of_nat o + exp < -4)%Z ->
  to_chars cd0 true FPAuto neg v exp = Ok t -> followed buf p t ->
  exists r, parse_real_unknown 18 precise buf p = Ok (r, set_first p (first p + length t)) /\ (handed r == fp_value neg v exp)%Q.
Proof.
  intros cd0 precise neg v exp o t buf p HC HP NT O1 (LV & UV) HD ET HF.
  assert (V0 : 0 < v). { destruct (N.eq_dec v 0) as [->|]; [exfalso; apply NT; reflexivity|lia]. }
  destruct (decimal_length_ok true v V0 (proj1 HP)) as (o' & EO & HO & LV' & UV').
  assert (o' = o) as -> by (apply (exp_unique _ _ v); auto; lia).
  apply (C69_partial cd0 true FPAuto precise neg v exp o t buf p); auto. apply auto_digits; auto. lia.
Qed.
Print Assumptions C69_default_partial.

(** 0.1 + 0.2 is written as 0.30000000000000004 and read back as 0.3. *)
Theorem C69_refuted : exists v exp t r p', fp_parts true v exp /\ v mod 10 <> 0 /\ to_chars 1 true FPAuto false v exp = Ok t /\
  to_chars 0 true FPAuto false v exp = Ok t /\ followed (t ++ [93]) (whole (t ++ [93])) t /\
  parse_real_unknown 18 false (t ++ [93]) (whole (t ++ [93])) = Ok (r, p') /\
  (handed r == 3 # 10)%Q /\ ~ (handed r == fp_value false v exp)%Q /\ t = on "0.30000000000000004".
Proof.
  exists 30000000000000004, (-17)%Z, (on "0.30000000000000004"). do 2 eexists. split; [vm_compute; repeat split; discriminate|].
  split; [discriminate|]. split; [vm_compute; reflexivity|]. split; [vm_compute; reflexivity|]. split.
  { split; [vm_compute; repeat constructor|]. split; [vm_compute; lia|]. split; [reflexivity|]. split; [vm_compute; repeat split|]. split; [vm_compute; lia|].
    split; [vm_compute; lia|]. right. exists 93. vm_compute. repeat split; try discriminate. intros [_ H]. apply H. reflexivity. }
  split; [vm_compute; reflexivity|]. split; [reflexivity|]. split; [vm_compute; discriminate|reflexivity].
Qed.
Print Assumptions C69_refuted.

(** The hypotheses of the positive part can be met: 1/3. *)
Example C69_nonvacuous : exists t, to_chars 1 true FPAuto true 3333333333333333 (-16) = Ok t /\ followed (t ++ [44]) (whole (t ++ [44])) t /\
  fp_parts true 3333333333333333 (-16) /\ 3333333333333333 mod 10 <> 0 /\ decimal_length true 3333333333333333 = N.of_nat 16 /\
  (written_digits FPAuto 16 (-16) < 18)%nat /\ t = on "-0.3333333333333333".
Proof.
  exists (on "-0.3333333333333333"). split; [vm_compute; reflexivity|]. split.
  { split; [vm_compute; repeat constructor|]. split; [vm_compute; lia|]. split; [reflexivity|]. split; [vm_compute; repeat split|]. split; [vm_compute; lia|].
    split; [vm_compute; lia|]. right. exists 44. vm_compute. repeat split; try discriminate. intros [H _]. apply H. reflexivity. }
  split; [vm_compute; repeat split; discriminate|]. split; [discriminate|]. split; [reflexivity|]. split; [vm_compute; lia|reflexivity].
Qed.

(** ** C70 *)

(** [t] is at the start of [p] and the value ends there. *)
Definition value_text (buf : list N) (p : ps) (t : list N) : Prop :=
  (last p <= length buf)%nat /\ isnull p = false /\ sub_at buf (first p) t /\ (first p + length t <= last p)%nat /\
  ((first p + length t)%nat = last p \/ exists b, nth_error buf (first p + length t) = Some b /\ at_end_of_item b = true).

Definition special_of (v : fp) : option real_value :=
  match v with FNaN => Some RNaN | FInf neg => Some (RInf neg) | FFin _ _ _ => None end.

Lemma special_end_ok : forall buf p j t, value_text buf p t -> j = (first p + length t)%nat -> special_end false buf (set_first p j) = Ok tt.
Proof.
  intros buf p j t (LB & NN & HS & LT & HE) ->. unfold special_end, ps_empty, front. cbn [isnull set_first first last]. rewrite NN. cbn [orb].
  destruct HE as [E|(b & Hb & AE)].
  - replace (last p <=? first p + length t)%nat with true by lia. reflexivity.
  - destruct (last p <=? first p + length t)%nat eqn:EL; [reflexivity|]. unfold rd. rewrite Hb. cbn [bind]. rewrite AE. reflexivity.
Qed.

(** Written as the default of the option, read where it stands (not after skipping). *)
Theorem C70_unknown_partial : forall cd0 dbl o ne fmt v sv t kd precise buf p, special_of v = Some sv ->
  to_json_string_real cd0 dbl o ne fmt v = Ok t -> value_text buf p t ->
  parse_value_real_opt false o ne kd precise buf p = Ok (sv, set_first p (first p + length t)).
Proof.
  intros cd0 dbl o ne fmt v sv t kd precise buf p HV ET VT. pose proof VT as (LB & NN & HS & LT & _).
  assert (TX : t = match sv with RNaN => bytes """NaN""" | RInf true => bytes """-Infinity""" | _ => bytes """Infinity""" end).
  { destruct v; cbn [special_of] in HV; inversion HV; subst sv; cbn [to_json_string_real] in ET; destruct o, ne; try discriminate; try (injection ET as <-; reflexivity);
      destruct neg; injection ET as <-; reflexivity. }
  assert (OK : o <> LSNever /\ match sv with RNaN => allows_nan ne = true | _ => allows_inf ne = true end).
  { destruct v; cbn [special_of] in HV; inversion HV; subst sv; cbn [to_json_string_real] in ET; destruct o, ne; try discriminate; split; auto; discriminate. }
  destruct OK as (NO & OA).
  assert (SV : sv = RNaN \/ exists neg, sv = RInf neg) by (destruct v; cbn [special_of] in HV; inversion HV; eauto).
  assert (Q0 : nth_error buf (first p) = Some 34).
  { destruct SV as [->|(neg & ->)]; [|destruct neg]; rewrite TX in HS; exact (proj1 HS). }
  assert (QL : (first p < last p)%nat).
  { destruct SV as [->|(neg & ->)]; [|destruct neg]; rewrite TX in LT; cbn in LT; lia. }
  assert (SQ : skip_quote_when_literal_as_string o buf p = Ok (remove_prefix p 1)).
  { destruct o; [congruence| |]; cbn [skip_quote_when_literal_as_string]; unfold is_at, has_more, front, rd; cbn [isnull];
      rewrite ?NN; cbn [negb andb]; replace (first p <? last p)%nat with true by lia; cbn [ensure bind]; rewrite Q0; cbn [bind]; reflexivity. }
  unfold parse_value_real_opt.
  assert (E1 : forall (A : Type) (k k' : A), match o with LSNever => k | _ => k' end = k') by (intros; destruct o; congruence).
  rewrite E1. rewrite SQ. cbn [bind]. clear E1 SQ.
  assert (RS : exists q, remove_prefix p 1 = q /\ first q = S (first p) /\ last q = last p /\ isnull q = false).
  { eexists. split; [reflexivity|]. cbn. split; [lia|auto]. }
  destruct RS as (q & EQ & FQ & LQ & NQ). rewrite EQ.
  destruct SV as [->|(neg & ->)].
  - (* NaN *)
    rewrite TX in *. clear TX. change (sub_at buf (first p) [34; 78; 97; 78; 34]) in HS. cbn [sub_at] in HS. destruct HS as (_ & H1 & H2 & H3 & H4 & _).
    change (length (bytes """NaN""")) with 5%nat in *.
    assert (I : (if allows_inf ne then parse_inf false buf q else Ok None) = Ok None).
    { destruct (allows_inf ne); auto. unfold parse_inf, front, rd. rewrite FQ, H1. cbn [bind].
      change (78 =? c_minus) with false. cbv beta zeta iota. unfold starts_with, ps_size. rewrite LQ, FQ.
      destruct (4 <=? last p - S (first p))%nat eqn:E4; [|reflexivity].
      replace (last p - S (first p) <? length (bytes "Inf"))%nat with false by (cbn; lia).
      change (bytes "Inf") with [73; 110; 102]. cbn [eq_bytes]. unfold rd. rewrite H1, H2, H3. cbn [bind]. reflexivity. }
    rewrite I. cbn [bind]. rewrite OA. unfold parse_nan, starts_with, ps_size. rewrite FQ, LQ.
    replace (last p - S (first p) <? length (bytes "NaN"))%nat with false by (cbn; lia).
    change (bytes "NaN") with [78; 97; 78]. cbn [eq_bytes]. unfold rd. rewrite H1, H2, H3. cbn [bind N.eqb Pos.eqb andb].
    rewrite (memchr_checked_ok c_quote [78; 97; 78] buf (S (first p)) (last p)); [|cbn; intuition discriminate|cbn; tauto|cbn [length]; lia].
    cbn [bind length]. replace (remove_prefix (set_first q (S (first p) + 3)) 1) with (set_first p (first p + 5)).
    + rewrite (special_end_ok buf p (first p + 5) (bytes """NaN""")); auto.
    + rewrite <- EQ. unfold remove_prefix, set_first. cbn. f_equal. lia.
  - rewrite OA. cbn [bind].
    assert (X : parse_inf false buf q = Ok (Some (RInf neg, set_first p (first p + length t)))); [|rewrite X; cbn [bind]; reflexivity].
    destruct neg; rewrite TX in *; clear TX.
    + change (sub_at buf (first p) [34; 45; 73; 110; 102; 105; 110; 105; 116; 121; 34]) in HS. cbn [sub_at] in HS. destruct HS as (_ & H1 & H2 & H3 & H4 & H5 & H6 & H7 & H8 & H9 & H10 & _).
      change (length (bytes """-Infinity""")) with 11%nat in *.
      unfold parse_inf, front. unfold rd at 1. rewrite FQ, H1. cbn [bind]. change (45 =? c_minus) with true. cbv beta zeta iota.
      rewrite <- EQ. change (remove_prefix (remove_prefix p 1) 1) with (set_first p (first p + 1 + 1)).
      unfold starts_with at 1, ps_size. cbn [first last set_first].
      replace (4 <=? last p - (first p + 1 + 1))%nat with true by lia.
      replace (last p - (first p + 1 + 1) <? length (bytes "Inf"))%nat with false by (cbn; lia).
      change (bytes "Inf") with [73; 110; 102]. replace (first p + 1 + 1)%nat with (S (S (first p))) by lia.
      cbn [eq_bytes]. unfold rd at 1 2 3. rewrite H2, H3, H4. cbn [bind N.eqb Pos.eqb andb].
      change (first (remove_prefix (set_first p (S (S (first p)))) 3)) with (S (S (first p)) + 3)%nat.
      replace (S (S (first p)) + 3)%nat with (S (S (S (S (S (first p)))))) by lia. unfold rd at 1. rewrite H5. cbn [bind].
      change (105 =? c_quote) with false. cbv beta zeta iota. cbn [last remove_prefix set_first].
      match goal with |- context [(6 <=? ?z)%nat] => replace (6 <=? z)%nat with true by lia end.
      unfold starts_with, ps_size. cbn [first last remove_prefix set_first].
      match goal with |- context [(?z <? length (bytes "inity"""))%nat] => replace (z <? length (bytes "inity"""))%nat with false by (cbn; lia) end.
      change (bytes "inity""") with [105; 110; 105; 116; 121; 34]. cbn [eq_bytes]. replace (S (S (first p)) + 3)%nat with (S (S (S (S (S (first p)))))) by lia. unfold rd. rewrite H5, H6, H7, H8, H9, H10.
      cbn [bind N.eqb Pos.eqb andb].
      match goal with |- context [special_end false buf ?z] => replace z with (set_first p (first p + 11)) by (unfold remove_prefix, set_first; cbn; f_equal; lia) end.
      rewrite (special_end_ok buf p (first p + 11) (bytes """-Infinity""")); auto.
    + change (sub_at buf (first p) [34; 73; 110; 102; 105; 110; 105; 116; 121; 34]) in HS. cbn [sub_at] in HS.
      destruct HS as (_ & H1 & H2 & H3 & H4 & H5 & H6 & H7 & H8 & H9 & _).
      change (length (bytes """Infinity""")) with 10%nat in *.
      unfold parse_inf, front. unfold rd at 1. rewrite FQ, H1. cbn [bind]. change (73 =? c_minus) with false. cbv beta zeta iota.
      unfold starts_with at 1, ps_size. rewrite FQ, LQ.
      replace (4 <=? last p - S (first p))%nat with true by lia.
      replace (last p - S (first p) <? length (bytes "Inf"))%nat with false by (cbn; lia).
      change (bytes "Inf") with [73; 110; 102].
      cbn [eq_bytes]. unfold rd at 1 2 3. rewrite H1, H2, H3. cbn [bind N.eqb Pos.eqb andb].
      rewrite <- EQ. change (first (remove_prefix (remove_prefix p 1) 3)) with (first p + 1 + 3)%nat.
      replace (first p + 1 + 3)%nat with (S (S (S (S (first p))))) by lia. unfold rd at 1. rewrite H4. cbn [bind].
      change (105 =? c_quote) with false. cbv beta zeta iota. cbn [last remove_prefix set_first].
      match goal with |- context [(6 <=? ?z)%nat] => replace (6 <=? z)%nat with true by lia end.
      unfold starts_with, ps_size. cbn [first last remove_prefix set_first].
      match goal with |- context [(?z <? length (bytes "inity"""))%nat] => replace (z <? length (bytes "inity"""))%nat with false by (cbn; lia) end.
      change (bytes "inity""") with [105; 110; 105; 116; 121; 34]. cbn [eq_bytes]. replace (first p + 1 + 3)%nat with (S (S (S (S (first p))))) by lia. unfold rd. rewrite H4, H5, H6, H7, H8, H9.
      cbn [bind N.eqb Pos.eqb andb].
      match goal with |- context [special_end false buf ?z] => replace z with (set_first p (first p + 10)) by (unfold remove_prefix, set_first; cbn; f_equal; lia) end.
      rewrite (special_end_ok buf p (first p + 10) (bytes """Infinity""")); auto.
Qed.
Print Assumptions C70_unknown_partial.

(** NaN is also read back from the range of a skipped string. *)
Theorem C70_known_nan_partial : forall o ne kd precise buf p, o <> LSNever -> allows_nan ne = true -> isnull p = false ->
  sub_at buf (first p) (bytes "NaN") -> last p = (first p + 3)%nat ->
  exists p', parse_value_real_opt true o ne kd precise buf p = Ok (RNaN, p').
Proof.
  intros o ne kd precise buf p NO OA NN HS LP. change (sub_at buf (first p) [78; 97; 78]) in HS. cbn [sub_at] in HS. destruct HS as (H1 & H2 & H3 & _).
  unfold parse_value_real_opt.
  assert (E1 : forall (A : Type) (k k' : A), match o with LSNever => k | _ => k' end = k') by (intros; destruct o; congruence).
  rewrite E1. cbn [bind].
  assert (I : (if allows_inf ne then parse_inf true buf p else Ok None) = Ok None).
  { destruct (allows_inf ne); auto. unfold parse_inf, front, rd. rewrite H1. cbn [bind].
    change (78 =? c_minus) with false. cbv beta zeta iota. unfold ps_size. rewrite LP.
    replace (4 <=? first p + 3 - first p)%nat with false by lia. reflexivity. }
  rewrite I. cbn [bind]. rewrite OA. unfold parse_nan, starts_with, ps_size. rewrite LP.
  replace (first p + 3 - first p <? length (bytes "NaN"))%nat with false by (cbn; lia).
  change (bytes "NaN") with [78; 97; 78]. cbn [eq_bytes]. unfold rd. rewrite H1, H2, H3. cbn [bind N.eqb Pos.eqb andb].
  assert (M : memchr_checked c_quote buf (first p) (first p + 3) = Ok (first p + 3)%nat).
  { unfold memchr_checked. replace (first p + 3 - first p)%nat with 3%nat by lia. cbn [loop].
    assert (L1 : (first p <? first p + 3)%nat = true) by lia. assert (L2 : (S (first p) <? first p + 3)%nat = true) by lia.
    assert (L3 : (S (S (first p)) <? first p + 3)%nat = true) by lia. assert (L4 : (S (S (S (first p))) <? first p + 3)%nat = false) by lia.
    unfold rd. rewrite L1, H1. cbn [bind N.eqb Pos.eqb c_quote negb]. rewrite L2, H2. cbn [bind N.eqb Pos.eqb c_quote negb].
    rewrite L3, H3. cbn [bind N.eqb Pos.eqb c_quote negb]. rewrite L4. cbn [bind]. apply f_equal. clear; lia. }
  rewrite M. cbn [bind]. unfold special_end, ps_empty. cbn [first last isnull remove_prefix set_first]. rewrite NN, LP. cbn [orb].
  match goal with |- context [ensure ?b _] => replace b with true by lia end. cbn [ensure bind]. eauto.
Qed.
Print Assumptions C70_known_nan_partial.

(** An infinity is not: the text written for it is read where it stands, and rejected
    when the member comes out of order and is read from the range skip_string found.
    The same holds for Inf. *)
Theorem C70_refuted : exists t buf p', buf = t ++ [93] /\
  to_json_string_real 1 true LSAlways NEallowNanInf FPAuto (FInf false) = Ok t /\ value_text buf (whole buf) t /\
  parse_value_real_opt false LSAlways NEallowNanInf 18 false buf (whole buf) = Ok (RInf false, p') /\
  (exists r q, skip_string true ExConstexpr false false buf (whole buf) = Ok (r, q) /\
    parse_value_real_opt true LSAlways NEallowNanInf 18 false buf r = Err InvalidString) /\
  (exists r q, skip_string true ExConstexpr false false (on """Inf""]") (whole (on """Inf""]")) = Ok (r, q) /\
    parse_value_real_opt true LSAlways NEallowNanInf 18 false (on """Inf""]") r = Err InvalidNumberStart).
Proof.
  exists (on """Infinity"""), (on """Infinity""]"). eexists. split; [reflexivity|]. split; [vm_compute; reflexivity|]. split.
  { split; [vm_compute; lia|]. split; [reflexivity|]. split; [vm_compute; repeat split|]. split; [vm_compute; lia|].
    right. exists 93. split; reflexivity. }
  split; [vm_compute; reflexivity|]. split; do 2 eexists; (split; [vm_compute; reflexivity|vm_compute; reflexivity]).
Qed.
Print Assumptions C70_refuted.

(** ** C71 *)

(** Any text that starts with NaN is taken for NaN. *)
Theorem C71_prefix_refuted : exists p', parse_value_real_opt false LSAlways NEallowNaN 18 false (on """NaNtucket""]") (whole (on """NaNtucket""]")) = Ok (RNaN, p').
Proof. eexists. vm_compute. reflexivity. Qed.
Print Assumptions C71_prefix_refuted.

(** Without quotes, what follows up to the next quote is swallowed. *)
Theorem C71_swallow_refuted : exists p', parse_value_real_opt false LSMaybe NEallowNaN 18 false (on "NaN,1,2,"" ]") (whole (on "NaN,1,2,"" ]")) = Ok (RNaN, p') /\
  first p' = 9%nat.
Proof. eexists. split; [vm_compute; reflexivity|reflexivity]. Qed.
Print Assumptions C71_swallow_refuted.

(** Without a quote the position moves past the end of the range. *)
Theorem C71_position_refuted : exists p', parse_value_real_opt false LSMaybe NEallowNaN 18 false (on "NaN,1]") (whole (on "NaN,1]")) = Ok (RNaN, p') /\
  (last p' < first p')%nat.
Proof. eexists. split; [vm_compute; reflexivity|vm_compute; lia]. Qed.
Print Assumptions C71_position_refuted.

(** A document that is one quote is read past its end. *)
Theorem C71_past_end_refuted : parse_value_real_opt false LSAlways NEallowInf 18 false (on """") (whole (on """")) = UB /\
  parse_value_real_opt false LSMaybe NEallowNanInf 18 false (on """") (whole (on """")) = UB.
Proof. split; vm_compute; reflexivity. Qed.
Print Assumptions C71_past_end_refuted.

(** ** C72 *)

(** Partial: every value but zero. *)
Theorem C72_partial : forall cd0 dbl fmt neg v exp, (0 <= cd0 <= 1)%Z -> fp_parts dbl v exp -> v <> 0 ->
  exists c t, to_chars cd0 dbl fmt neg v exp = Ok (c :: t) /\ (neg = true <-> c = 45).
Proof.
  intros cd0 dbl fmt neg v exp HC (HV & HE) NZ.
  destruct (decimal_length_ok dbl v ltac:(lia) HV) as (o & EO & _).
  destruct (to_chars_parts cd0 dbl fmt neg v exp o HC ltac:(lia) HV HE EO) as (i & f & e & x & ET & (HD & NI & _) & _).
  rewrite ET. destruct neg; [cbn [app]; do 2 eexists; split; [reflexivity|tauto]|].
  destruct i as [|c i]; [congruence|]. cbn [app]. do 2 eexists. split; [reflexivity|]. inversion HD as [|? ? D]; subst. unfold is_dig in D.
  split; [discriminate|]. intros ->. lia.
Qed.
Print Assumptions C72_partial.

(** Zero is written without sign. *)
Theorem C72_refuted : forall cd0 dbl fmt neg exp, to_chars cd0 dbl fmt neg 0 exp = Ok [48].
Proof. reflexivity. Qed.
Print Assumptions C72_refuted.

Lemma unknown_null : forall kd precise buf p r q, parse_real_unknown kd precise buf p = Ok (r, q) -> isnull q = isnull p.
Proof.
  intros kd precise buf p r q E. unfold parse_real_unknown in E.
  destruct (ensure (has_more p) InvalidNumberStart); cbn [bind] in E; try discriminate.
  destruct (front buf p) as [c| | |]; cbn [bind] in E; try discriminate.
  destruct (ensure (is_number_start c) InvalidNumberStart); cbn [bind] in E; try discriminate.
  destruct (validate_signed_first buf p) as [(sign & p0)| | |] eqn:EV; cbn [bind] in E; try discriminate.
  assert (N0 : isnull p0 = isnull p).
  { unfold validate_signed_first in EV. repeat match type of EV with
    | bind ?x _ = _ => destruct x as [?v| | |]; cbn [bind] in EV; try discriminate
    | (if ?x then _ else _) = _ => destruct x; try discriminate
    | context [ensure ?x ?y] => destruct (ensure x y); cbn [bind] in EV; try discriminate
    end; inversion EV; subst; reflexivity. }
  repeat match type of E with
  | bind ?x _ = _ => destruct x as [?v| | |]; cbn [bind] in E; try discriminate
  | (let (_, _) := ?x in _) = _ => destruct x
  | (if ?x then _ else _) = _ => destruct x
  end.
  injection E as _ <-. exact N0.
Qed.

(** A member that is never a string reads the same as before. *)
Theorem parse_value_real_opt_never : forall known ne kd precise buf p, isnull p = false ->
  parse_value_real_opt known LSNever ne kd precise buf p = ('(r, p) <- parse_value_real known kd precise buf p ;; Ok (RNum r, p)).
Proof.
  intros known ne kd precise buf p NN. unfold parse_value_real_opt, parse_value_real. cbn [bind]. destruct known.
  - destruct (parse_real_known kd precise buf p); reflexivity.
  - destruct (ensure (has_more p) InvalidNumberStart); cbn [bind]; auto. destruct (front buf p); cbn [bind]; auto.
    destruct (ensure (is_number_start a0) InvalidNumberStart); cbn [bind]; auto.
    destruct (parse_real_unknown kd precise buf p) as [(r & q)| | |] eqn:E; cbn [bind skip_quote_when_literal_as_string]; auto.
    assert (EH : ps_empty q = negb (has_more q)) by (unfold ps_empty, has_more; rewrite (unknown_null _ _ _ _ _ _ E), NN; cbn [orb]; lia).
    unfold end_of_item_ok. rewrite EH. destruct (has_more q); cbn [negb bind ensure]; auto.
    destruct (front buf q) as [b| | |]; cbn [bind]; auto. destruct (at_end_of_item b); reflexivity.
Qed.
