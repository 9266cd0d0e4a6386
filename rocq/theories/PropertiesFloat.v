(** Properties of the double that is returned: C74 to C76. *)
From Coq Require Import String.
From Coq Require Import List NArith ZArith Reals QArith Qreals Qpower Qabs Bool Lia Lra Arith ZifyBool ZifyNat ZifyN.
From Coq Require Import SpecFloat.
From Flocq Require Import Core BinarySingleNaN.
From Verif Require Import Base Mem Loop PolicyModel IntModel IntProofs SkipModel SpecNum SpecText SpecJson SkipProofs RealModel SpecReal RealProofs PropertiesReal FloatModel SpecDouble FloatProofs.
Import ListNotations.
Local Open Scope N_scope.

(** ** C74: with IEEE754Precise the nearest double is returned *)

(** What follows a number cannot continue it. *)
Definition ends (rest : list N) : Prop :=
  match rest with [] => True | b :: _ => ~ is_dig b /\ b <> 46 /\ b <> 101 /\ b <> 69 end.

Definition is_neg (t : list N) : bool := match t with b :: _ => b =? 45 | [] => false end.

(** std::from_chars finds the longest number, rounds to nearest and reports
    result_out_of_range for numbers too large only. *)
Definition from_chars_exact (fc : from_chars_t) : Prop := forall t q rest, denotes t q -> ends rest ->
  match fc (t ++ rest) with
  | FcOk f => nearest_double (is_neg t) (Q2R q) f
  | FcRange => overflows (Q2R q)
  | FcInvalid => False
  end.

Lemma sub_at_firstn_skipn : forall t buf i, sub_at buf i t -> (firstn (length t) (skipn i buf) = t)%nat.
Proof.
  induction t as [|b t IH]; intros buf i H; [reflexivity|]. destruct H as [H1 H2]. cbn [length].
  revert H1. revert i H2. induction buf as [|c buf IHb]; intros i H2 H1; [destruct i; discriminate|].
  destruct i as [|i].
  - cbn in H1. injection H1 as ->. cbn [skipn firstn]. f_equal. exact (IH (b :: buf) 1%nat H2).
  - cbn [skipn]. apply IHb; [|exact H1]. clear - H2. revert i H2. induction t as [|d t IH]; intros i H2; [exact I|]. destruct H2 as [A B].
    split; [exact A|]. apply IH. exact B.
Qed.

Lemma firstn_split_at : forall n m (l : list N), (n <= m)%nat -> firstn m l = (firstn n l ++ firstn (m - n) (skipn n l))%list.
Proof.
  induction n as [|n IH]; intros m l H; [cbn; now rewrite Nat.sub_0_r|]. destruct m as [|m]; [lia|]. destruct l as [|x l]; [now rewrite skipn_nil, !firstn_nil|].
  cbn [firstn skipn app Nat.sub]. f_equal. apply IH. lia.
Qed.

Lemma hd_skipn : forall (l : list N) n, hd_error (skipn n l) = nth_error l n.
Proof. induction l as [|x l IH]; intros [|n]; cbn; auto. Qed.

(** What from_chars is given *)
Lemma given : forall buf i t last, sub_at buf i t -> num_end true buf (i + length t) last ->
  exists rest, firstn (last - i) (skipn i buf) = t ++ rest /\ ends rest /\ (last = i + length t -> rest = [])%nat.
Proof.
  intros buf i t last HS (LE & NE). exists (firstn (last - i - length t) (skipn (length t) (skipn i buf))). split; [|split].
  - rewrite (firstn_split_at (length t)) by lia. rewrite (sub_at_firstn_skipn t) by exact HS. reflexivity.
  - destruct (last - i - length t)%nat as [|n] eqn:EN; [exact I|].
    destruct NE as [(_ & E)|(b & Hb & ND)]; [lia|].
    assert (SK : forall a c (l : list N), skipn a (skipn c l) = skipn (c + a) l).
    { induction c as [|c IH]; intros l; [reflexivity|]. destruct l; [now rewrite !skipn_nil|]. cbn [Nat.add skipn]. apply IH. }
    rewrite SK. pose proof (hd_skipn buf (i + length t)) as HH. rewrite Hb in HH. destruct (skipn (i + length t) buf); [discriminate|].
    cbn in HH. injection HH as ->. cbn. exact ND.
  - intros ->. replace (i + length t - i - length t)%nat with O by lia. reflexivity.
Qed.

Lemma sign_R : forall sg, sg = [] \/ sg = [45] -> sign_of sg = 1%Z \/ sign_of sg = (-1)%Z.
Proof. intros sg [-> | ->]; auto. Qed.

Lemma neg_sign : forall sg i t, sg = [] \/ sg = [45] -> int_part i -> is_neg (sg ++ i ++ t) = (sign_of sg <? 0)%Z.
Proof.
  intros sg i t [-> | ->] (HD & NI & _); [|reflexivity]. destruct i as [|d i]; [congruence|]. inversion HD; subst. cbn. unfold is_dig in *. lia.
Qed.

(** The last step, for parts that are exact unless strtod is used *)
Lemma finish_nearest : forall fc rt buf i last sg ip f e x r, from_chars_exact fc ->
  sg = [] \/ sg = [45] -> int_part ip -> frac_part f -> exp_val e x ->
  sub_at buf i (sg ++ ip ++ f ++ e) -> num_end true buf (i + length (sg ++ ip ++ f ++ e)) last -> (last <= length buf)%nat ->
  r_sign r = sign_of sg ->
  (r_strtod r = false -> (handed r == inject_Z (sign_of sg) * magnitude ip f x)%Q /\ r_sig r <= 2^53 /\ (-22 <= r_exp r <= 22)%Z) ->
  exists v, finish_real fc rt Double buf i last r = Ok v /\
    nearest_double (is_neg (sg ++ ip ++ f ++ e)) (Q2R (inject_Z (sign_of sg) * magnitude ip f x)) v.
Proof.
  intros fc rt buf i last sg ip f e x r HF Hsg HI HFr HX HS NE LB RS H. unfold finish_real.
  assert (DEN : denotes (sg ++ ip ++ f ++ e) (inject_Z (sign_of sg) * magnitude ip f x)) by (constructor; auto).
  destruct (r_strtod r).
  - unfold parse_with_strtod. destruct (given buf i (sg ++ ip ++ f ++ e) last HS NE) as (rest & E & ER & _). rewrite E.
    specialize (HF _ _ rest DEN ER). destruct (fc ((sg ++ ip ++ f ++ e) ++ rest)) as [v| |]; [eauto| |contradiction].
    assert (RD : exists b, nth_error buf i = Some b /\ is_neg (sg ++ ip ++ f ++ e) = (b =? c_minus)%N).
    { assert (NEM : sg ++ ip ++ f ++ e <> []) by (destruct HI as (_ & NI & _); destruct ip; [congruence|]; destruct sg; discriminate).
      destruct (sg ++ ip ++ f ++ e) as [|b t]; [congruence|]. exists b. destruct HS. split; auto. }
    destruct RD as (b & Hb & EB). unfold rd. rewrite Hb. cbn [bind]. eexists. split; [reflexivity|]. rewrite EB. split; intros L; [|reflexivity].
    unfold overflows in HF. lra.
  - destruct (H eq_refl) as (HE & HS53 & HX22). destruct r as [s n ex b]. cbn [r_sign r_sig r_exp] in *. subst s.
    rewrite (neg_sign sg ip (f ++ e) Hsg HI).
    destruct (scale_fast rt (sign_of sg) n ex b) as (v & E & NR); [apply sign_R; auto|lia|lia|].
    exists v. split; [exact E|]. rewrite <- (Qeq_eqR _ _ HE). unfold handed. cbn [r_sign r_sig r_exp]. rewrite Q2R_decimal. exact NR.
Qed.

(** C74 asks for: with IEEE754Precise the double returned is the one nearest to the
    number in the text.  Proved given that std::from_chars is exact.  Partial: a
    whole number that runs to the end of the range is excluded in the first theorem,
    the code reads past the end there (C65); exponents are below 2^62 in size; that
    from_chars reports result_out_of_range for numbers too large only is an
    assumption, refuted below without it. *)
Theorem C74_unknown_partial : forall fc rt buf p sg i f e x, from_chars_exact fc ->
  number_at buf p sg i f e x -> delimited p sg i ->
  exists v p', parse_float fc rt false true Double buf p = Ok (v, p') /\
    nearest_double (is_neg (sg ++ i ++ f ++ e)) (Q2R (inject_Z (sign_of sg) * magnitude i f x)) v.
Proof.
  intros fc rt buf p sg i f e x HFC NA DL. destruct (C68_unknown_partial buf p sg i f e x NA DL) as (r & p' & E & H).
  assert (NA' := NA). destruct NA' as (HB & LB & L32 & Hsg & HI & HF & HX & BX & HS & NE).
  assert (RS : r_sign r = sign_of sg).
  { destruct (unknown_parts 18 true sg i f e x buf p) as (more & E' & _); auto; [lia|]. rewrite E in E'. injection E' as -> _. reflexivity. }
  unfold parse_float. cbn [f_digits]. rewrite E. cbn [bind].
  destruct (finish_nearest fc rt buf (first p) (last p) sg i f e x r) as (v & E2 & NR); auto.
  rewrite E2. cbn [bind]. eauto.
Qed.
Print Assumptions C74_unknown_partial.

Theorem C74_known_partial : forall fc rt buf p sg i f e x, from_chars_exact fc ->
  number_at buf p sg i f e x ->
  exists w p' v, skip_number true buf p = Ok (w, p') /\ parse_float fc rt true true Double buf w = Ok (v, w) /\
    nearest_double (is_neg (sg ++ i ++ f ++ e)) (Q2R (inject_Z (sign_of sg) * magnitude i f x)) v.
Proof.
  intros fc rt buf p sg i f e x HFC NA. destruct (C68_known_partial buf p sg i f e x NA) as (w & p' & r & SK & E & H).
  assert (NA' := NA). destruct NA' as (HB & LB & L32 & Hsg & HI & HF & HX & BX & HS & NE).
  assert (HI' := HI). destruct HI' as (HD & NI & _).
  pose proof SK as SK'. rewrite (skip_number_ok true sg i f e) in SK' by (auto; eapply exp_val_part; eauto). injection SK' as W P'.
  assert (RS : r_sign r = sign_of sg).
  { assert (LW : (last w <= length buf)%nat) by (subst w; cbn; destruct NE; lia).
    assert (KN : known_number sg i f e w) by (subst w; unfold known_number; cbn; auto).
    destruct (known_parts 18 true sg i f e x buf w) as (more & E' & _); auto; [lia|subst w; exact HS|]. rewrite E in E'. injection E' as ->. reflexivity. }
  assert (FN : exists v, finish_real fc rt Double buf (first w) (last w) r = Ok v /\
    nearest_double (is_neg (sg ++ i ++ f ++ e)) (Q2R (inject_Z (sign_of sg) * magnitude i f x)) v).
  { apply finish_nearest with (e := e); auto; subst w; [exact HS|split; [reflexivity|left; auto]|cbn; destruct NE; lia]. }
  destruct FN as (v & E2 & NR). exists w, p', v. split; [exact SK|]. unfold parse_float. cbn [f_digits]. rewrite E. cbn [bind].
  rewrite E2. cbn [bind]. split; [reflexivity|exact NR].
Qed.
Print Assumptions C74_known_partial.

(** ** C75: the error of the default mode *)

(** [v] is a finite double of the sign given that differs from [q] by at most
    [q] / 10^15. *)
Definition close (neg : bool) (q : Q) (v : spec_float) : Prop :=
  is_finite_SF v = true /\ sign_SF v = neg /\ (Rabs (SF2R radix2 v - Q2R q) <= Rabs (Q2R q) / 10 ^ 15)%R.

Lemma ulp1_small : (ulp1 <= 12 / 10 ^ 17)%R.
Proof.
  unfold ulp1. change (-53)%Z with (- (53))%Z. rewrite bpow_opp, <- IZR_pow2 by lia. change (2 ^ 53)%Z with 9007199254740992%Z.
  apply Rmult_le_reg_r with 9007199254740992%R; [lra|]. rewrite Rinv_l by lra. lra.
Qed.

Lemma min_normal2_bound : (min_normal2 <= IZR 9 * / IZR (10 ^ 308))%R.
Proof.
  unfold min_normal2. change (-1021)%Z with (- (1021))%Z. rewrite bpow_opp, <- IZR_pow2 by lia.
  assert (A : (0 < IZR (2 ^ 1021))%R) by (apply IZR_lt, Z.pow_pos_nonneg; lia).
  assert (B : (0 < IZR (10 ^ 308))%R) by (apply IZR_lt, Z.pow_pos_nonneg; lia).
  apply Rmult_le_reg_r with (IZR (2 ^ 1021) * IZR (10 ^ 308))%R; [apply Rmult_lt_0_compat; auto|].
  replace (/ IZR (2 ^ 1021) * (IZR (2 ^ 1021) * IZR (10 ^ 308)))%R with (IZR (10 ^ 308)) by (field; lra).
  replace (IZR 9 * / IZR (10 ^ 308) * (IZR (2 ^ 1021) * IZR (10 ^ 308)))%R with (IZR 9 * IZR (2 ^ 1021))%R by (field; lra).
  rewrite <- mult_IZR. apply IZR_le. vm_compute. discriminate.
Qed.

Lemma ten_pow_R : forall e, Q2R (ten_pow e) = dec_R 1 e.
Proof. intros e. rewrite <- Q2R_decimal. apply Qeq_eqR. unfold decimal. change (inject_Z 1) with 1%Q. now rewrite Qmult_1_l. Qed.

Lemma Qle_R : forall a b, (a <= b)%Q -> (Q2R a <= Q2R b)%R.
Proof. exact Qle_Rle. Qed.

Lemma scaled_close : forall rt s n y b m, s = 1%Z \/ s = (-1)%Z -> n < 2^64 ->
  (ten_pow (-307) <= m <= ten_pow 308)%Q ->
  (0 <= m - decimal (Z.of_N n) y <= m / ten_pow 16)%Q ->
  exists v, scale rt Double (mkreal s n y b) = Ok v /\ close (s <? 0)%Z (inject_Z s * m) v.
Proof.
  intros rt s n y b m Hs N64 (ML & MH) (DL & DH).
  apply Qle_R in ML, MH, DL, DH. rewrite Q2R_minus in DL, DH. rewrite Q2R_decimal in DL, DH. unfold Qdiv in DH. rewrite Q2R_mult, Q2R_inv in DH by (intros X; vm_compute in X; discriminate).
  rewrite ten_pow_R in ML, MH, DH. change (Q2R 0) with (Q2R (inject_Z 0)) in DL. rewrite Q2R_inject in DL.
  unfold dec_R in ML, MH, DH at 2. cbn [Z.ltb Z.compare] in ML, MH, DH. change (- -307)%Z with 307%Z in ML.
  set (M := Q2R m) in *. set (D := dec_R (Z.of_N n) y) in *.
  change (10 ^ 16)%Z with 10000000000000000%Z in DH.
  assert (P307 : (0 < IZR (10 ^ 307))%R) by (apply IZR_lt, Z.pow_pos_nonneg; lia).
  assert (M0 : (0 < M)%R) by (apply Rlt_le_trans with (2 := ML); unfold Rdiv; rewrite Rmult_1_l; apply Rinv_0_lt_compat; auto).
  assert (DM : (M * (1 - / 10000000000000000) <= D <= M)%R) by lra.
  assert (D0 : (0 < D)%R) by lra.
  assert (N1 : 1 <= n).
  { destruct (N.eq_dec n 0) as [->|NZ]; [|lia]. exfalso. unfold D, dec_R in D0. cbn [Z.of_N] in D0. destruct (y <? 0)%Z; unfold Rdiv in D0; rewrite Rmult_0_l in D0; lra. }
  assert (RANGE : (min_normal2 <= D <= IZR (10 ^ 308))%R).
  { split; [|lra]. apply Rle_trans with (1 := min_normal2_bound). apply Rle_trans with (2 := proj1 DM).
    apply Rle_trans with (1 / IZR (10 ^ 307) * (9 / 10))%R.
    - replace (10 ^ 308)%Z with (10 ^ 307 * 10)%Z by reflexivity. rewrite mult_IZR.
      replace (9 * / (IZR (10 ^ 307) * 10))%R with (1 / IZR (10 ^ 307) * (9 / 10))%R; [lra|]. revert P307. generalize (IZR (10 ^ 307)). intros r Pr. field. lra.
    - apply Rmult_le_compat; [|lra|exact ML|lra]. unfold Rdiv. rewrite Rmult_1_l. left. apply Rinv_0_lt_compat; auto. }
  destruct (scale_near rt s n y b Hs ltac:(lia) RANGE) as (v & w & E & (bf & -> & FB & XB & SB) & NW). fold D in NW.
  exists (B2SF bf). split; [exact E|]. unfold close. rewrite is_finite_SF_B2SF, SF2R_B2SF. split; [exact FB|]. split; [rewrite <- SB; destruct bf; reflexivity|].
  rewrite XB, Q2R_mult, Q2R_inject. fold M. replace (IZR s * w - IZR s * M)%R with (IZR s * (w - M))%R by ring.
  rewrite !Rabs_mult, <- abs_IZR. replace (Z.abs s) with 1%Z by lia. rewrite !Rmult_1_l, (Rabs_pos_eq M) by lra.
  destruct NW as (_ & WL & WH). pose proof ulp1_small as U. pose proof ulp1_bound as U0.
  assert (X : (D * ulp1 <= M * (12 / 10 ^ 17))%R) by (apply Rmult_le_compat; lra).
  apply Rabs_le. lra.
Qed.

(** C75 asks for: in the default mode a number in the range of normal doubles is
    read with a relative error of at most 10^-15.  Proved for numbers whose whole
    part is not zero, of any length, and for all numbers of fewer than 18 digits.
    Partial: otherwise refuted, see C67_refuted; a whole number at the end of the
    range is excluded, the code reads past the end there (C65). *)
Theorem C75_unknown_partial : forall fc rt buf p sg i f e x, number_at buf p sg i f e x -> delimited p sg i ->
  (i <> [48] \/ (length i + length (fract_digits f) < 18)%nat) ->
  (ten_pow (-307) <= magnitude i f x <= ten_pow 308)%Q ->
  exists v p', parse_float fc rt false false Double buf p = Ok (v, p') /\
    close (is_neg (sg ++ i ++ f ++ e)) (inject_Z (sign_of sg) * magnitude i f x) v.
Proof.
  intros fc rt buf p sg i f e x NA DL CASE RANGE.
  assert (NA' := NA). destruct NA' as (HB & LB & L32 & Hsg & HI & HF & HX & BX & HS & NE).
  destruct (unknown_parts 18 false sg i f e x buf p) as (more & E & _); auto; [lia|].
  assert (ERR : exists r p', parse_real_unknown 18 false buf p = Ok (r, p') /\
    (0 <= magnitude i f x - decimal (Z.of_N (r_sig r)) (r_exp r) <= magnitude i f x / ten_pow 16)%Q).
  { destruct CASE as [NZ|LT].
    - apply (C67_partial 18 false buf p sg i f e x); auto. lia.
    - destruct (C08_exact_partial 18 false buf p sg i f e x) as (r & E1 & H1); auto; [lia|]. do 2 eexists. split; [exact E1|].
      rewrite E in E1. injection E1 as <-. rewrite handed_sign in H1. cbn [r_sig r_exp].
      set (d := decimal _ _) in *. assert (EQ : (d == magnitude i f x)%Q).
      { apply Qmult_inj_l with (2 := H1). destruct (sign_R sg Hsg) as [-> | ->]; discriminate. }
      rewrite EQ. unfold Qminus. rewrite Qplus_opp_r. split; [apply Qle_refl|]. apply Qle_shift_div_l; [reflexivity|]. rewrite Qmult_0_l.
      apply Qle_trans with (2 := proj1 RANGE). discriminate. }
  destruct ERR as (r & p' & E1 & ERR). rewrite E in E1. injection E1 as <- <-. cbn [r_sig r_exp] in ERR.
  unfold parse_float. cbn [f_digits]. rewrite E. cbn [bind]. unfold finish_real, fall_back. cbn [andb r_strtod].
  rewrite (neg_sign sg i (f ++ e) Hsg HI).
  destruct (scaled_close rt (sign_of sg) (dec_val (kept 18 i f)) (x + Z.of_nat (length i - 18) - Z.of_nat (length (kept_fraction 18 i f))) false (magnitude i f x)) as (v & S & C);
    auto using sign_R.
  { apply dec_val_19; [apply digits_kept; auto; destruct HI; auto|]. pose proof (length_kept 18 i f). lia. }
  rewrite S. cbn [bind]. eauto.
Qed.
Print Assumptions C75_unknown_partial.

Theorem C75_known_partial : forall fc rt buf p sg i f e x, number_at buf p sg i f e x ->
  (length i + length (fract_digits f) <= 18)%nat ->
  (ten_pow (-307) <= magnitude i f x <= ten_pow 308)%Q ->
  exists w p' v, skip_number true buf p = Ok (w, p') /\ parse_float fc rt true false Double buf w = Ok (v, w) /\
    close (is_neg (sg ++ i ++ f ++ e)) (inject_Z (sign_of sg) * magnitude i f x) v.
Proof.
  intros fc rt buf p sg i f e x NA LEN RANGE. destruct (C08_known_partial 18 false buf p sg i f e x) as (w & p' & r & SK & E & H); auto; [lia|].
  assert (NA' := NA). destruct NA' as (HB & LB & L32 & Hsg & HI & HF & HX & BX & HS & NE).
  assert (HI' := HI). destruct HI' as (HD & NI & _).
  pose proof SK as SK'. rewrite (skip_number_ok true sg i f e) in SK' by (auto; eapply exp_val_part; eauto). injection SK' as W P'.
  assert (LW : (last w <= length buf)%nat) by (subst w; cbn; destruct NE; lia).
  assert (KN : known_number sg i f e w) by (subst w; unfold known_number; cbn; auto).
  destruct (known_parts 18 false sg i f e x buf w) as (more & E' & _); auto; [lia|subst w; exact HS|].
  rewrite E in E'. injection E' as ->. rewrite handed_sign in H.
  exists w, p'. unfold parse_float. cbn [f_digits]. rewrite E. cbn [bind]. unfold finish_real, fall_back. cbn [andb r_strtod].
  rewrite (neg_sign sg i (f ++ e) Hsg HI).
  destruct (scaled_close rt (sign_of sg) (dec_val (kept_known 18 i f)) (x + Z.of_nat (length i - 18) - Z.of_nat (length (kept_known_fraction 18 i f))) false (magnitude i f x)) as (v & S & C);
    auto using sign_R.
  { apply dec_val_19.
    - unfold kept_known, kept_whole, kept_known_fraction. apply Forall_app. split; apply digits_firstn; auto. apply fract_digits_ok; auto.
    - unfold kept_known, kept_whole, kept_known_fraction. rewrite app_length, !firstn_length. lia. }
  { set (d := decimal _ _) in *. assert (EQ : (d == magnitude i f x)%Q).
    { apply Qmult_inj_l with (2 := H). destruct (sign_R sg Hsg) as [-> | ->]; discriminate. }
    rewrite EQ. unfold Qminus. rewrite Qplus_opp_r. split; [apply Qle_refl|]. apply Qle_shift_div_l; [reflexivity|]. rewrite Qmult_0_l.
    apply Qle_trans with (2 := proj1 RANGE). discriminate. }
  exists v. rewrite S. cbn [bind]. auto.
Qed.
Print Assumptions C75_known_partial.

(** *** Refutations *)

Lemma den_simple : forall d x e, 48 <= d <= 57 -> exp_val e x -> denotes ([d] ++ e) (inject_Z 1 * magnitude [d] [] x).
Proof.
  intros d x e HD HX. apply (den [] [d] [] e x); auto; [|constructor]. split; [constructor; [exact HD|constructor]|]. split; [discriminate|]. intros r E. injection E. auto.
Qed.

Lemma simple_value : forall d x, (inject_Z 1 * magnitude [d] [] x == decimal (Z.of_N (dec_val [d])) x)%Q.
Proof. intros d x. rewrite magnitude_digits. cbn [fract_digits tl length app]. change (Z.of_nat 0) with 0%Z. rewrite Z.sub_0_r. change (inject_Z 1) with 1%Q. apply Qmult_1_l. Qed.

(** When from_chars reports result_out_of_range for a number too small, as the
    libraries of GCC and MSVC do, 1e-400 is read as infinity. *)
Theorem C74_underflow_refuted : exists q, denotes (on "1e-400") q /\ forall fc rt, fc (on "1e-400]") = FcRange ->
  exists p', parse_float fc rt false true Double (on "1e-400]") (whole (on "1e-400]")) = Ok (S754_infinity false, p') /\
    ~ nearest_double false (Q2R q) (S754_infinity false).
Proof.
  exists (inject_Z 1 * magnitude [49%N] [] (-400))%Q. split.
  { apply (den_simple 49 (-400) (on "e-400")); [lia|]. apply (ev_minus 101 (on "400")); auto; [digs|discriminate]. }
  intros fc rt E. eexists. split.
  - unfold parse_float. 
    assert (P : exists r, parse_real_unknown (f_digits Double) true (on "1e-400]") (whole (on "1e-400]")) = Ok (r, set_first (whole (on "1e-400]")) 6) /\ r_strtod r = true)
      by (eexists; split; vm_compute; reflexivity).
    destruct P as (r & -> & S). cbn [bind]. unfold finish_real. rewrite S. unfold parse_with_strtod.
    change (firstn (last (whole (on "1e-400]")) - first (whole (on "1e-400]"))) (skipn (first (whole (on "1e-400]"))) (on "1e-400]"))) with (on "1e-400]").
    rewrite E. reflexivity.
  - intros (F & _). rewrite (Qeq_eqR _ _ (simple_value 49 (-400))), Q2R_decimal in F. change (Z.of_N (dec_val [49])) with 1%Z in F.
    destruct F as (_ & F & _); [|discriminate F]. apply fits_small. unfold dec_R. cbn [Z.ltb Z.compare]. change (- -400)%Z with 400%Z.
    assert (P : (1 <= IZR (10 ^ 400))%R) by (apply IZR_le; pose proof (Z.pow_pos_nonneg 10 400); lia).
    rewrite Rabs_pos_eq by (unfold Rdiv; rewrite Rmult_1_l; left; apply Rinv_0_lt_compat; lra).
    apply Rle_trans with 1%R; [|change 1%R with (bpow radix2 0); apply bpow_le; lia].
    unfold Rdiv. rewrite Rmult_1_l, <- Rinv_1. apply Rinv_le; lra.
Qed.
Print Assumptions C74_underflow_refuted.

(** For float the limits of the fast path are those of double: 1e-19 is not read as
    the nearest float. *)
Theorem C74_single_refuted : exists q f g, denotes (on "1e-19") q /\
  (forall fc rt, exists p', parse_float fc rt false true Single (on "1e-19]") (whole (on "1e-19]")) = Ok (f, p')) /\
  is_finite_SF f = true /\ valid_binary 24 128 g = true /\ is_finite_SF g = true /\
  (Rabs (SF2R radix2 g - Q2R q) < Rabs (SF2R radix2 f - Q2R q))%R.
Proof.
  exists (inject_Z 1 * magnitude [49%N] [] (-19))%Q, (S754_finite false 15474251 (-87)), (S754_finite false 15474250 (-87)). split.
  { apply (den_simple 49 (-19) (on "e-19")); [lia|]. apply (ev_minus 101 (on "19")); auto; [digs|discriminate]. }
  split.
  { intros fc rt. eexists. destruct rt; vm_compute; reflexivity. }
  split; [reflexivity|]. split; [reflexivity|]. split; [reflexivity|].
  rewrite (Qeq_eqR _ _ (simple_value 49 (-19))), Q2R_decimal. change (Z.of_N (dec_val [49])) with 1%Z. unfold dec_R. cbn [Z.ltb Z.compare]. change (- -19)%Z with 19%Z.
  unfold SF2R, F2R. cbn [Fnum Fexp cond_Zopp]. change (-87)%Z with (- (87))%Z. rewrite bpow_opp, <- IZR_pow2 by lia.
  change (2 ^ 87)%Z with 154742504910672534362390528%Z. change (10 ^ 19)%Z with 10000000000000000000%Z.
  apply Rlt_le_trans with (32 / 10 ^ 28)%R; [apply Rabs_lt; lra|]. rewrite Rabs_pos_eq; lra.
Qed.
Print Assumptions C74_single_refuted.

(** A number of known value beside each theorem *)
Example C74_nonvacuous : forall fc, number_at (on "-0.3]") (whole (on "-0.3]")) [45] (on "0") (on ".3") [] 0 /\ delimited (whole (on "-0.3]")) [45] (on "0") /\
  exists p', parse_float fc true false true Double (on "-0.3]") (whole (on "-0.3]")) = Ok (S754_finite true 5404319552844595 (-54), p').
Proof. intros fc. split; [number_tac|]. split; [vm_compute; lia|]. eexists. vm_compute. reflexivity. Qed.

Example C75_nonvacuous : forall fc, number_at (on "1234567890.12345678901234567890]") (whole (on "1234567890.12345678901234567890]")) [] (on "1234567890") (on ".12345678901234567890") [] 0 /\
  (ten_pow (-307) <= magnitude (on "1234567890") (on ".12345678901234567890") 0 <= ten_pow 308)%Q /\
  exists p', parse_float fc false false false Double (on "1234567890.12345678901234567890]") (whole (on "1234567890.12345678901234567890]")) = Ok (S754_finite false 5178153039816375 (-22), p').
Proof. intros fc. split; [number_tac|]. split; [split; vm_compute; discriminate|]. eexists. vm_compute. reflexivity. Qed.

(** In the runtime mode the exponent is cut to 32 bits: 1e4294967296 is read as one,
    in the other modes as infinity. *)
Theorem C75_runtime_refuted : forall fc, exists p',
  parse_float fc true false false Double (on "1e4294967296]") (whole (on "1e4294967296]")) = Ok (f_of_Z Double 1, p') /\
  parse_float fc false false false Double (on "1e4294967296]") (whole (on "1e4294967296]")) = Ok (S754_infinity false, p').
Proof. intros fc. eexists. split; vm_compute; reflexivity. Qed.
Print Assumptions C75_runtime_refuted.

(** ** C76: zero is read as zero *)

Lemma tbl_finite : forall k, (0 <= k <= 308)%Z -> exists m e, pow10_tbl Double k = S754_finite false m e.
Proof.
  intros k H. destruct (tbl_ok k H) as (b & E & F & X & S). rewrite E.
  pose proof (near_pos 1 _ _ ltac:(lra) (tbl_near k ltac:(lia))) as P. rewrite <- X in P.
  destruct b as [s|s| |s m e B]; cbn in *; try discriminate; [lra|]. subst s. eauto.
Qed.

Lemma power10_zero : forall e, (e <= 308)%Z -> power10 Double (S754_zero false) e = Ok (S754_zero false).
Proof.
  intros e H. unfold power10. cbn [max_exp max_exponent min_exponent]. replace (308 <? e)%Z with false by lia.
  assert (DZ : forall k, (0 <= k <= 308)%Z -> f_div Double (S754_zero false) (pow10_tbl Double k) = S754_zero false).
  { intros k K. destruct (tbl_finite k K) as (m & x & ->). reflexivity. }
  assert (MZ : forall k, (0 <= k <= 308)%Z -> f_mul Double (S754_zero false) (pow10_tbl Double k) = S754_zero false).
  { intros k K. destruct (tbl_finite k K) as (m & x & ->). reflexivity. }
  destruct (Z.ltb_spec e (- (308))).
  - destruct (Z.ltb_spec e (-1021)); [reflexivity|].
    assert (SD : forall fuel p, (- Z.of_nat fuel * 308 < p <= 0)%Z -> exists q, (-308 <= q <= 0)%Z /\ scale_down fuel Double (S754_zero false) p = Ok (S754_zero false, q)).
    { induction fuel as [|fuel IH]; intros p P; [lia|]. cbn [scale_down max_exp]. destruct (Z.ltb_spec p (- (308))) as [L|G].
      - rewrite DZ by lia. apply IH. lia.
      - exists p. split; [lia|reflexivity]. }
    destruct (SD 5%nat (e + 308)%Z ltac:(lia)) as (q & Q & ->). cbn [bind]. rewrite (DZ (- q)%Z) by lia. rewrite DZ by lia. reflexivity.
  - destruct (e <? 0)%Z eqn:N; [rewrite DZ by lia|rewrite MZ by lia]; reflexivity.
Qed.

(** C76 asks for: a number whose digits are all zero is read as zero, with the sign
    given.  Partial: for exponents of at most 308.  Refuted beyond. *)
Theorem C76_zero_partial : forall rt s e b, s = 1%Z \/ s = (-1)%Z -> (- 2^31 <= e <= 308)%Z ->
  scale rt Double (mkreal s 0 e b) = Ok (S754_zero (s <? 0)%Z).
Proof.
  intros rt s e b Hs H. unfold scale, power10_tag. cbn [r_sig r_exp r_sign].
  replace (if rt then to_int32 e else e) with e by (destruct rt; auto; rewrite to_int32_small; lia).
  change (f_of_Z Double (Z.of_N 0)) with (S754_zero false). rewrite power10_zero by lia. cbn [bind].
  destruct Hs as [-> | ->]; reflexivity.
Qed.
Print Assumptions C76_zero_partial.

(** The same for texts: a whole part of zero, a fraction of zeros, any exponent of
    at most 308. *)
Theorem C76_text_partial : forall fc rt buf p sg f e x, number_at buf p sg [48] f e x -> delimited p sg [48] ->
  dec_val (fract_digits f) = 0 -> (- 2^30 <= x <= 308)%Z ->
  exists p', parse_float fc rt false false Double buf p = Ok (S754_zero (is_neg (sg ++ [48] ++ f ++ e)), p').
Proof.
  intros fc rt buf p sg f e x NA DL HZ HX1. destruct NA as (HB & LB & L32 & Hsg & HI & HF & HX & BX & HS & NE).
  destruct (unknown_parts 18 false sg [48] f e x buf p) as (more & E & _); auto; [lia|].
  eexists. unfold parse_float. cbn [f_digits]. rewrite E. cbn [bind]. unfold finish_real, fall_back. cbn [andb r_strtod].
  replace (dec_val (kept 18 [48] f)) with 0.
  2:{ symmetry. unfold kept, kept_whole, kept_fraction. cbn [firstn app]. unfold dec_val. cbn [dec_acc]. change (0 * 10 + (48 - 48)) with 0.
      pose proof (dec_acc_prefix (fract_digits f) (18 - 1 - length [48%N]) 0) as L. unfold dec_val in HZ. rewrite HZ in L. lia. }
  rewrite (neg_sign sg [48] (f ++ e) Hsg HI).
  assert (LK : (length (kept_fraction 18 [48%N] f) <= 16)%nat) by (unfold kept_fraction; rewrite firstn_length; cbn [length]; lia).
  cbn [length]. replace (Z.of_nat (1 - 18)) with 0%Z by reflexivity.
  rewrite (C76_zero_partial rt (sign_of sg) (x + 0 - Z.of_nat (length (kept_fraction 18 [48%N] f))) false (sign_R sg Hsg) ltac:(lia)). reflexivity.
Qed.
Print Assumptions C76_text_partial.

Theorem C76_refuted : (exists q, denotes (on "0e309") q /\ (q == 0)%Q) /\ (exists q, denotes (on "0e2000") q /\ (q == 0)%Q) /\
  forall fc rt, (exists p', parse_float fc rt false false Double (on "0e309]") (whole (on "0e309]")) = Ok (S754_nan, p')) /\
    exists p', parse_float fc rt false false Double (on "0e2000]") (whole (on "0e2000]")) = Ok (S754_infinity false, p').
Proof.
  assert (Z : forall x, (inject_Z 1 * magnitude [48%N] [] x == 0)%Q).
  { intros x. rewrite simple_value. unfold decimal. change (inject_Z (Z.of_N (dec_val [48]))) with 0%Q. apply Qmult_0_l. }
  split; [|split].
  - exists (inject_Z 1 * magnitude [48%N] [] (Z.of_N (dec_val (on "309"))))%Q. split; [|apply Z].
    apply (den_simple 48 _ (on "e309")); [lia|]. apply (ev_plain 101 (on "309")); auto; [digs|discriminate].
  - exists (inject_Z 1 * magnitude [48%N] [] (Z.of_N (dec_val (on "2000"))))%Q. split; [|apply Z].
    apply (den_simple 48 _ (on "e2000")); [lia|]. apply (ev_plain 101 (on "2000")); auto; [digs|discriminate].
  - intros fc rt. split; eexists; destruct rt; vm_compute; reflexivity.
Qed.
Print Assumptions C76_refuted.

Example C76_nonvacuous : forall fc, number_at (on "-0.000]") (whole (on "-0.000]")) [45] (on "0") (on ".000") [] 0 /\
  exists p', parse_float fc true false false Double (on "-0.000]") (whole (on "-0.000]")) = Ok (S754_zero true, p').
Proof. intros fc. split; [number_tac|]. eexists. vm_compute. reflexivity. Qed.
