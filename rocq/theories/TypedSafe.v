(** Typed parsing of arbitrary bytes: where it stays inside the document. *)
From Coq Require Import List NArith ZArith Bool Lia Arith ZifyBool ZifyNat ZifyN.
From Verif Require Import Base Mem Loop PolicyModel IntModel StrScanModel SkipModel SpecNum SpecText SpecJson IntProofs IntValueProofs
  StrScanProofs StrScanProofs2 SkipProofs SkipSafe PropertiesStr PropertiesSkip StrDecodeModel StrDecodeProofs PropertiesUni HashModel ValueModel KindProofs RawValueProofs.
Import ListNotations.
Local Open Scope N_scope.

(** ** Integers of known bounds *)

Lemma rd64_safe : forall (buf : list N) i, (i + 8 <= length buf)%nat -> exists v, rd64 buf i = Ok v.
Proof.
  intros buf i H. unfold rd64.
  destruct (rd_in buf i) as (b0 & H0); [lia|]. destruct (rd_in buf (i + 1)) as (b1 & H1); [lia|].
  destruct (rd_in buf (i + 2)) as (b2 & H2); [lia|]. destruct (rd_in buf (i + 3)) as (b3 & H3); [lia|].
  destruct (rd_in buf (i + 4)) as (b4 & H4); [lia|]. destruct (rd_in buf (i + 5)) as (b5 & H5); [lia|].
  destruct (rd_in buf (i + 6)) as (b6 & H6); [lia|]. destruct (rd_in buf (i + 7)) as (b7 & H7); [lia|].
  rewrite (rd_some _ _ _ H0), (rd_some _ _ _ H1), (rd_some _ _ _ H2), (rd_some _ _ _ H3),
    (rd_some _ _ _ H4), (rd_some _ _ _ H5), (rd_some _ _ _ H6), (rd_some _ _ _ H7). cbn [bind]. eauto.
Qed.

Lemma parse8_safe : forall (buf : list N) i, (i + 8 <= length buf)%nat -> exists v, parse_8_digits buf i = Ok v.
Proof. intros buf i H. unfold parse_8_digits. destruct (rd64_safe buf i H) as (v & ->). cbn. eauto. Qed.

Lemma accum_lt : forall a m d, accum a m d < 2^64.
Proof. intros. unfold accum, u64. apply N.mod_lt. discriminate. Qed.

Lemma known16_safe : forall f (buf : list N) i l acc, (l <= length buf)%nat -> (l - i < f)%nat -> acc < 2^64 ->
  exists j a, known16 f buf i l acc = Ok (j, a) /\ (i <= j)%nat /\ (i <= l -> j <= l)%nat /\ a < 2^64.
Proof.
  induction f as [|f IH]; intros buf i l acc HL HF HA; [lia|]. cbn [known16].
  destruct (Nat.leb_spec 16 (l - i)); [|exists i, acc; repeat split; auto; lia].
  unfold parse_16_digits. destruct (parse8_safe buf i) as (u & ->); [lia|]. cbn [bind].
  destruct (parse8_safe buf (i + 8)) as (v & ->); [lia|]. cbn [bind].
  edestruct (IH buf (i + 16)%nat l) as (j & a & E & J1 & J2 & A); [exact HL|lia|apply accum_lt|].
  exists j, a. rewrite E. repeat split; auto; lia.
Qed.

Lemma known1_safe : forall f (buf : list N) i l acc, (l <= length buf)%nat -> (l - i < f)%nat -> acc < 2^64 ->
  exists j a, known1 f buf i l acc = Ok (j, a) /\ a < 2^64.
Proof.
  induction f as [|f IH]; intros buf i l acc HL HF HA; [lia|]. cbn [known1].
  destruct (Nat.ltb_spec i l); [|exists i, acc; repeat split; auto; lia].
  destruct (rd_in buf i) as (b & Hb); [lia|]. rewrite (rd_some _ _ _ Hb). cbn [bind]. apply IH; [exact HL|lia|apply accum_lt].
Qed.

Lemma pow_pos : forall w, 0 < 2 ^ w.
Proof. intros. apply N.neq_0_lt_0, N.pow_nonzero. discriminate. Qed.

Lemma narrow_safe : forall w a, a < 2^64 -> outcome_ok (fun v => v < 2^64) (narrow_cast_u w a).
Proof.
  intros w a HA. unfold narrow_cast_u. destruct (64 <=? w); [exact HA|]. destruct (a <=? umax w); [exact HA|exact I].
Qed.

Lemma cast_u_lt : forall w a, a < 2^64 -> cast_u w a < 2^64.
Proof.
  intros w a HA. unfold cast_u. eapply N.le_lt_trans; [|exact HA]. apply N.mod_le. apply N.pow_nonzero. discriminate.
Qed.

Lemma unsigned_known_safe : forall w rc buf p, (last p <= length buf)%nat ->
  outcome_ok (fun x => fst x < 2^64) (unsigned_parser_known w rc buf p).
Proof.
  intros w rc buf p HL. unfold unsigned_parser_known. cbv zeta.
  destruct (known16_safe (S (last p - first p)) buf (first p) (last p) 0) as (i & a & E & I1 & I2 & A); [exact HL|lia|reflexivity|].
  rewrite E. cbn [bind].
  assert (X : exists j b, (if (8 <=? last p - i)%nat then v <- parse_8_digits buf i ;; Ok ((i + 8)%nat, accum a 100000000 v) else Ok (i, a)) = Ok (j, b) /\ b < 2^64).
  { destruct (Nat.leb_spec 8 (last p - i)).
    - destruct (parse8_safe buf i) as (v & ->); [lia|]. cbn [bind]. eexists _, _. split; [reflexivity|apply accum_lt].
    - eexists _, _. split; [reflexivity|exact A]. }
  destruct X as (j & b & -> & B). cbn [bind].
  destruct (known1_safe (S (last p - j)) buf j (last p) b) as (k & c & E2 & C); [exact HL|lia|exact B|]. rewrite E2. cbn [bind].
  destruct rc; [|cbn [outcome_ok fst]; now apply cast_u_lt].
  eapply outcome_ok_bind; [apply outcome_ok_ensure with (Q := fun _ => True); auto|]. intros _ _.
  eapply outcome_ok_bind; [apply narrow_safe; exact C|]. intros v HV. exact HV.
Qed.

Lemma unsigned_not_known_safe : forall w rc buf p, is_bytes buf -> (last p <= length buf)%nat ->
  outcome_ok (fun x => fst x < 2^64 /\ exists j, snd x = set_first p j /\ (first p <= j <= last p)%nat) (unsigned_parser_not_known w rc buf p).
Proof.
  intros w rc buf p HB HL. destruct (has_more p) eqn:HM.
  2:{ unfold unsigned_parser_not_known. rewrite HM. exact I. }
  unfold has_more in HM.
  destruct (digit_run (last p - first p) buf (first p) (last p) eq_refl) as (ds & D & S & R); [lia|].
  destruct ds as [|d ds].
  - cbn [length] in R. rewrite Nat.add_0_r in R. rewrite unsigned_parser_none; auto; [|lia]. cbn [outcome_ok fst snd]. split; [reflexivity|].
    exists (first p). split; [destruct p; reflexivity|lia].
  - rewrite unsigned_parser_not_known_acc with (ds := d :: ds); auto; [|discriminate]. cbv zeta.
    assert (A : u64 (dec_val (d :: ds)) < 2^64) by (apply N.mod_lt; discriminate).
    destruct R as [R _]. set (n := length (d :: ds)) in *.
    destruct rc.
    + eapply outcome_ok_bind; [apply outcome_ok_ensure with (Q := fun _ => True); auto|]. intros _ _.
      eapply outcome_ok_bind; [apply narrow_safe; exact A|]. intros v HV. cbn [outcome_ok fst snd]. split; [exact HV|].
      exists (first p + n)%nat. split; [reflexivity|lia].
    + cbn [outcome_ok fst snd]. split; [now apply cast_u_lt|]. exists (first p + n)%nat. split; [reflexivity|lia].
Qed.

(** [-1 * INT_MIN] is left (C04_int32). *)
Definition safe_width (w : N) : bool := (w =? 8) || (w =? 16) || (w =? 64).

Lemma to_signed_safe : forall w u s, safe_width w = true -> u < 2^64 -> (s = 1 \/ s = -1)%Z -> exists v, to_signed w u s = Ok v.
Proof.
  intros w u s W HU HS. unfold safe_width in W.
  assert (C : w = 8 \/ w = 16 \/ w = 64) by lia. destruct C as [->|[->| ->]]; unfold to_signed; cbv zeta.
  - eexists; reflexivity.
  - eexists; reflexivity.
  - change (64 <=? 64) with true. cbv iota. destruct (N.eqb_spec u (2^63)) as [->|NE]; [eexists; reflexivity|].
    set (c := cast_s 64 (Z.of_N u)).
    assert (B : (-2^63 < c < 2^63)%Z).
    { unfold c, cast_s. change (Z.of_N 64) with 64%Z. change (64 - 1)%Z with 63%Z. cbv zeta.
      rewrite Z.mod_small by (change (2^64) with 18446744073709551616 in HU; change (2^64)%Z with 18446744073709551616%Z; lia).
      change (2^63)%Z with 9223372036854775808%Z. change (2^64)%Z with 18446744073709551616%Z.
      change (2^63) with 9223372036854775808 in NE. change (2^64) with 18446744073709551616 in HU.
      destruct (Z.ltb_spec (Z.of_N u) 9223372036854775808); lia. }
    clearbody c. change (2^63)%Z with 9223372036854775808%Z in *.
    destruct HS as [->| ->].
    + replace (1 * c)%Z with c by lia.
      match goal with |- exists v, (if ?b then _ else _) = _ => replace b with true by lia end. eexists; reflexivity.
    + replace (-1 * c)%Z with (- c)%Z by lia.
      match goal with |- exists v, (if ?b then _ else _) = _ => replace b with true by lia end. eexists; reflexivity.
Qed.

Lemma validate_signed_safe : forall buf p, (last p <= length buf)%nat ->
  outcome_ok (fun x => (fst x = 1 \/ fst x = -1)%Z /\ exists j, snd x = set_first p j /\ (first p <= j <= last p)%nat) (validate_signed_first buf p).
Proof.
  intros buf p HL. unfold validate_signed_first. destruct (has_more p) eqn:HM; cbn [ensure bind outcome_ok]; auto. unfold has_more in HM.
  unfold front. destruct (rd_in buf (first p)) as (c & Hc); [lia|]. rewrite (rd_some _ _ _ Hc). cbn [bind].
  assert (HERE : exists j, p = set_first p j /\ (first p <= j <= last p)%nat) by (exists (first p); split; [destruct p; reflexivity|lia]).
  destruct (c =? c_minus).
  { cbn [outcome_ok fst snd]. split; [auto|]. exists (first p + 1)%nat. split; [reflexivity|lia]. }
  destruct ((49 <=? c) && (c <=? 57)); [cbn [outcome_ok fst snd]; auto|].
  destruct (c =? c_0); [|exact I].
  destruct (Nat.ltb_spec 1 (ps_size p)) as [L|L]; [|cbn [outcome_ok fst snd]; auto].
  unfold ps_size in L. destruct (rd_in buf (first p + 1)) as (d & Hd); [lia|]. rewrite (rd_some _ _ _ Hd). cbn [bind].
  eapply outcome_ok_bind; [apply outcome_ok_ensure with (Q := fun _ => True); auto|]. intros _ _. cbn [outcome_ok fst snd]. auto.
Qed.

(** ** The parse state *)

Section Safe.
  Context (buf : list N) (HB : is_bytes buf).
  (** Where the document ends, and whether a zero byte stands there *)
  Context (M : nat) (HM : (M <= length buf)%nat) (z : bool) (HZ : z = true -> nth_error buf M = Some 0).

  Definition inv (p : ps) : Prop :=
    isnull p = false /\ (first p <= M)%nat /\ exists cl, clast p = Some cl /\ (last p <= cl <= M)%nat.
  Definition fw (p q : ps) : Prop :=
    last q = last p /\ clast q = clast p /\ isnull q = isnull p /\ (first p <= first q <= M)%nat.

  Lemma inv_last : forall p, inv p -> (last p <= M)%nat.
  Proof. intros p (_ & _ & cl & _ & H). lia. Qed.
  Lemma fw_refl : forall p, inv p -> fw p p.
  Proof. intros p (_ & H & _). repeat split; auto. Qed.
  Lemma fw_trans : forall p q r, fw p q -> fw q r -> fw p r.
  Proof. intros p q r (A & B & C & D) (A' & B' & C' & D'). repeat split; try congruence; lia. Qed.
  Lemma inv_fw : forall p q, inv p -> fw p q -> inv q.
  Proof.
    intros p q (A & B & cl & C & D) (E & F & G & H). split; [congruence|]. split; [lia|]. exists cl. split; [congruence|lia].
  Qed.
  Lemma fw_first : forall p j, (first p <= j <= M)%nat -> fw p (set_first p j).
  Proof. intros p j H. repeat split; auto; apply H. Qed.

  Lemma trim_fw : forall p, inv p -> exists q, trim_left_checked buf p = Ok q /\ fw p q /\ (first p <= last p -> first q <= last p)%nat.
  Proof.
    intros p HI. pose proof (inv_last p HI) as L. destruct (Nat.le_gt_cases (first p) (last p)) as [F|F].
    - destruct (trim_safe buf p) as (j & E & J1 & J2); [lia|]. exists (set_first p j). split; [exact E|].
      split; [apply fw_first; lia|cbn [first set_first]; lia].
    - exists p. split; [|split; [now apply fw_refl|auto]]. unfold trim_left_checked. cbn [trim_loop].
      destruct (Nat.ltb_spec (first p) (last p)); [lia|]. cbn [bind]. destruct p; reflexivity.
  Qed.

  Lemma front_ok : forall p, (first p < length buf)%nat -> exists c, front buf p = Ok c /\ nth_error buf (first p) = Some c.
  Proof. intros p H. destruct (rd_in buf (first p) H) as (c & Hc). exists c. split; [|exact Hc]. unfold front. now apply rd_some. Qed.

  Lemma is_at_ok : forall p c, inv p -> exists b, is_at buf p c = Ok b /\ (b = true -> (first p < last p)%nat /\ nth_error buf (first p) = Some c).
  Proof.
    intros p c HI. pose proof (inv_last p HI) as L. unfold is_at, has_more. destruct (Nat.ltb_spec (first p) (last p)) as [F|F].
    - destruct (front_ok p) as (d & -> & Hd); [lia|]. cbn [bind]. exists (d =? c). split; [reflexivity|].
      intros E. apply N.eqb_eq in E. subst. auto.
    - exists false. split; [reflexivity|discriminate].
  Qed.

  Lemma move_fw : forall p, inv p -> exists q, move_next buf p = Ok q /\ fw p q /\ (first p <= last p -> first q <= last p)%nat /\
    ((first p < last p)%nat -> nth_error buf (first p) = Some c_comma -> (first p < first q)%nat).
  Proof.
    intros p HI. unfold move_next, move_next_member_or_end, move_next_member_or_end_checked.
    destruct (trim_fw p HI) as (q & E & F & LQ). rewrite E. cbn [bind]. pose proof (inv_fw _ _ HI F) as IQ.
    destruct (is_at_ok q c_comma IQ) as (b & EB & HBt). rewrite EB. cbn [bind]. destruct b.
    - destruct (HBt eq_refl) as [L _].
      assert (F2 : fw q (remove_prefix q 1)) by (apply fw_first; pose proof (inv_last _ IQ); lia).
      destruct (trim_fw (remove_prefix q 1)) as (r & E2 & F3 & LR); [eapply inv_fw; eauto|]. exists r. split; [exact E2|].
      assert (LL : last q = last p) by apply F. cbn [remove_prefix first last set_first] in *.
      split; [eauto using fw_trans|]. split; [intros; lia|]. intros _ _.
      destruct F as (_ & _ & _ & X), F3 as (_ & _ & _ & Y). cbn [first remove_prefix set_first] in *. lia.
    - exists q. split; [reflexivity|]. split; [exact F|]. split; [exact LQ|]. intros L Hc. exfalso.
      assert (EQ : trim_left_checked buf p = Ok p).
      { pose proof (inv_last p HI). rewrite (trim_left_run buf p (first p)); auto; [destruct p; reflexivity|].
        apply ws_run_nil; [lia|]. right. exists c_comma. split; [exact Hc|reflexivity]. }
      rewrite E in EQ. injection EQ as ->. unfold is_at, has_more in EB.
      destruct (Nat.ltb_spec (first p) (last p)); [|lia]. unfold front in EB. rewrite (rd_some _ _ _ Hc) in EB. discriminate.
  Qed.

  (** ** Scalars *)

  Definition parser_ok (f : parser) : Prop := forall p, inv p -> outcome_ok (fun x => fw p (snd x)) (f false buf p).

  (** A location: the range of a value that was skipped *)
  Definition num_start (p : ps) : Prop := exists c, nth_error buf (first p) = Some c /\ (c = 45 \/ is_dig c).
  (** The byte before a value is not a quote. *)
  Definition before (p : ps) : Prop := (0 < first p)%nat /\ nth_error buf (first p - 1) <> Some 34.
  (** The body of a string, as it is handed to the decoder *)
  Definition str_loc (p : ps) : Prop :=
    nth_error buf (last p) = Some 34 /\ (first p <= last p)%nat /\ (first p = last p \/ nth_error buf (first p) <> Some 34) /\
    (counter p < 2 ^ 63 -> (N.to_nat (counter p) <= last p - first p)%nat) /\ counter p < 2 ^ 64.
  (** A location is preceded by a quote if and only if it is that of a string. *)
  Definition loc (p : ps) : Prop := isnull p = false /\ (first p < length buf)%nat /\ (last p <= M)%nat /\ (inv p \/ num_start p) /\
    (0 < first p)%nat /\ (nth_error buf (first p - 1) = Some 34 -> str_loc p) /\ (nth_error buf (first p - 1) <> Some 34 -> nth_error buf (first p) <> Some 34).
  Definition known_ok (f : parser) : Prop := forall p, loc p -> outcome_ok (fun _ => True) (f true buf p).
  (** For what is only given strings *)
  Definition known_str (f : parser) : Prop := forall p, loc p -> str_loc p -> outcome_ok (fun _ => True) (f true buf p).
  Lemma known_ok_str : forall f, known_ok f -> known_str f.
  Proof. intros f H p L _. now apply H. Qed.

  Lemma end_of_item_safe : forall p, (last p <= M)%nat -> exists b, end_of_item_ok buf p = Ok b.
  Proof.
    intros p L. unfold end_of_item_ok, has_more. destruct (Nat.ltb_spec (first p) (last p)); [|eauto].
    destruct (front_ok p) as (c & -> & _); [lia|]. cbn [bind]. eauto.
  Qed.

  Lemma starts_with_safe : forall p t, (last p <= M)%nat -> exists b, starts_with buf p t = Ok b /\ (b = true -> first p + length t <= last p \/ t = [])%nat.
  Proof.
    intros p t L. unfold starts_with. destruct (Nat.ltb_spec (ps_size p) (length t)); [exists false; split; [reflexivity|discriminate]|].
    unfold ps_size in *. destruct t as [|c t]; [exists true; split; [reflexivity|auto]|]. cbn [length] in *.
    destruct (eq_bytes_safe (c :: t) buf (first p)) as (b & E & _); [cbn [length]; lia|]. exists b. split; [exact E|]. left. lia.
  Qed.

  Lemma unsigned_ok : forall w rc, parser_ok (fun known buf p => '(v, p) <- parse_value_unsigned known LSNever w rc buf p ;; Ok (VInt (Z.of_N v), p)).
  Proof.
    intros w rc p HI. pose proof (inv_last p HI) as L. unfold parse_value_unsigned. cbn [skip_quote_when_literal_as_string bind].
    destruct (has_more p) eqn:HMo; cbn [ensure bind outcome_ok]; auto. unfold has_more in HMo.
    destruct (front_ok p) as (c & -> & _); [lia|]. cbn [bind]. destruct (is_number c); cbn [ensure bind outcome_ok]; auto.
    pose proof (unsigned_not_known_safe w rc buf p HB ltac:(lia)) as X. unfold unsigned_parser.
    destruct (unsigned_parser_not_known w rc buf p) as [[v q]| | |]; cbn [bind outcome_ok fst snd] in *; auto.
    destruct X as (_ & j & -> & LJ). destruct (end_of_item_safe (set_first p j)) as (b & ->); [exact L|]. cbn [bind].
    destruct b; cbn [ensure bind outcome_ok]; auto. cbn [snd]. apply fw_first. lia.
  Qed.

  Lemma signed_ok : forall w rc, safe_width w = true ->
    parser_ok (fun known buf p => '(v, p) <- parse_value_signed known LSNever w rc buf p ;; Ok (VInt v, p)).
  Proof.
    intros w rc W p HI. pose proof (inv_last p HI) as L. unfold parse_value_signed.
    destruct (has_more p) eqn:HMo; cbn [ensure bind outcome_ok]; auto. unfold has_more in HMo.
    pose proof (validate_signed_safe buf p ltac:(lia)) as V.
    destruct (validate_signed_first buf p) as [[s q]| | |]; cbn [bind outcome_ok fst snd] in *; auto. destruct V as (S & j & -> & LJ).
    pose proof (unsigned_not_known_safe w rc buf (set_first p j) HB ltac:(cbn [last set_first]; lia)) as X. unfold unsigned_parser.
    destruct (unsigned_parser_not_known w rc buf (set_first p j)) as [[v q]| | |]; cbn [bind outcome_ok fst snd] in *; auto.
    destruct X as (U & k & -> & LK). cbn [first last set_first] in LK.
    destruct (to_signed_safe w v s W U S) as (x & ->). cbn [bind skip_quote_when_literal_as_string].
    change (set_first (set_first p j) k) with (set_first p k).
    assert (F : fw p (set_first p k)) by (apply fw_first; lia).
    destruct (trim_fw _ (inv_fw _ _ HI F)) as (q & -> & F2 & _). cbn [bind].
    destruct (end_of_item_safe q) as (b & ->); [destruct F2 as (-> & _); exact L|]. cbn [bind].
    destruct b; cbn [ensure bind outcome_ok]; auto. cbn [snd]. eauto using fw_trans.
  Qed.

  Lemma unsigned_known_ok : forall w rc, known_ok (fun known buf p => '(v, p) <- parse_value_unsigned known LSNever w rc buf p ;; Ok (VInt (Z.of_N v), p)).
  Proof.
    intros w rc p (HN & F & L & _). unfold parse_value_unsigned, validate_unsigned_first, unsigned_parser.
    assert (X : outcome_ok (fun _ => True) ('(v, p) <- unsigned_parser_known w rc buf p ;; Ok (VInt (Z.of_N v), p))).
    { eapply outcome_ok_bind; [apply unsigned_known_safe; lia|]. intros [v q] _. exact I. }
    destruct (front_ok p F) as (c & -> & _). cbn [bind].
    destruct ((49 <=? c) && (c <=? 57)); [exact X|]. destruct (c =? c_0); [|exact I].
    destruct (Nat.ltb_spec 1 (ps_size p)) as [L2|L2]; [|exact X]. unfold ps_size in L2.
    destruct (rd_in buf (first p + 1)) as (d & Hd); [lia|]. rewrite (rd_some _ _ _ Hd). cbn [bind].
    destruct (is_number d); cbn [ensure bind]; [exact X|exact I].
  Qed.

  Lemma signed_known_ok : forall w rc, safe_width w = true ->
    known_ok (fun known buf p => '(v, p) <- parse_value_signed known LSNever w rc buf p ;; Ok (VInt v, p)).
  Proof.
    intros w rc W p (HN & F & L & _). unfold parse_value_signed.
    destruct (front_ok p F) as (c & -> & _). cbn [bind]. destruct (is_number_start c); cbn [ensure bind outcome_ok]; auto.
    pose proof (validate_signed_safe buf p ltac:(lia)) as V.
    destruct (validate_signed_first buf p) as [[s q]| | |]; cbn [bind outcome_ok fst snd] in *; auto. destruct V as (S & j & -> & LJ).
    unfold unsigned_parser.
    pose proof (unsigned_known_safe w rc buf (set_first p j) ltac:(cbn [last set_first]; lia)) as X.
    destruct (unsigned_parser_known w rc buf (set_first p j)) as [[v q]| | |]; cbn [bind outcome_ok fst snd] in *; auto.
    destruct (to_signed_safe w v s W X S) as (x & ->). exact I.
  Qed.

  Lemma bool_ok : parser_ok parse_value_bool.
  Proof.
    intros p HI. pose proof (inv_last p HI) as L. unfold parse_value_bool.
    assert (FIN : forall n b, (first p + n <= last p)%nat ->
      outcome_ok (fun x => fw p (snd x)) (p <- trim_left_checked buf (remove_prefix p n) ;; e <- end_of_item_ok buf p ;;
        _ <- ensure e InvalidEndOfValue ;; Ok (VBool b, p))).
    { intros n b LN. assert (F : fw p (remove_prefix p n)) by (apply fw_first; lia).
      destruct (trim_fw _ (inv_fw _ _ HI F)) as (q & -> & F2 & _). cbn [bind].
      destruct (end_of_item_safe q) as (e & ->); [destruct F2 as (-> & _); exact L|]. cbn [bind].
      destruct e; cbn [ensure bind outcome_ok]; auto. cbn [snd]. eauto using fw_trans. }
    destruct (starts_with_safe p [116; 114; 117; 101] L) as (b & -> & HT). cbn [bind]. destruct b.
    - cbn [bind]. apply FIN. destruct (HT eq_refl) as [X|X]; [exact X|discriminate].
    - destruct (starts_with_safe p [102; 97; 108; 115; 101] L) as (b & -> & HF). cbn [bind]. destruct b; [|exact I].
      cbn [bind]. apply FIN. destruct (HF eq_refl) as [X|X]; [exact X|discriminate].
  Qed.

  Lemma bool_known_ok : known_ok parse_value_bool.
  Proof.
    intros p (HN & F & L & _). unfold parse_value_bool. destruct (front_ok p F) as (c & -> & _). cbn [bind].
    destruct (c =? c_t); [exact I|]. destruct (c =? c_f); exact I.
  Qed.

  Lemma null_ok : forall f, parser_ok f -> parser_ok (parse_value_null f).
  Proof.
    intros f HF p HI. pose proof (inv_last p HI) as L. unfold parse_value_null. cbv zeta.
    assert (BASE : outcome_ok (fun x => fw p (snd x)) ('(v, p) <- f false buf p ;; Ok (VSome v, p))).
    { eapply outcome_ok_bind; [apply HF; exact HI|]. intros [v q] X. exact X. }
    assert (X : exists b : bool, (if has_more p then c <- front buf p ;; Ok (is_token_after_value c) else Ok true) = Ok b).
    { unfold has_more. destruct (Nat.ltb_spec (first p) (last p)); [|eauto]. destruct (front_ok p) as (c & -> & _); [lia|]. cbn [bind]. eauto. }
    destruct X as (b & ->). cbn [bind]. destruct b; [cbn [outcome_ok snd]; now apply fw_refl|].
    destruct (starts_with_safe p [110; 117; 108; 108] L) as (b & -> & HN). cbn [bind]. destruct b; [|exact BASE]. cbv zeta.
    destruct (HN eq_refl) as [LN|]; [|discriminate]. cbn [length] in LN.
    assert (F : fw p (remove_prefix p 4)) by (apply fw_first; lia).
    destruct (end_of_item_safe (remove_prefix p 4)) as (e & ->); [exact L|]. cbn [bind].
    destruct e; cbn [ensure bind outcome_ok]; auto.
    destruct (trim_fw _ (inv_fw _ _ HI F)) as (q & -> & F2 & _). cbn [bind outcome_ok snd]. eauto using fw_trans.
  Qed.

  Lemma null_known_ok : forall f, known_ok f -> known_ok (parse_value_null f).
  Proof.
    intros f HF p HL. unfold parse_value_null. pose proof HL as (HN & _). rewrite HN.
    eapply outcome_ok_bind; [apply HF; exact HL|]. intros [v q] _. exact I.
  Qed.

  (** ** Skipping *)

  Context (H31 : N.of_nat (length buf) < 2^31).

  Lemma bracket_fw : forall obj p, inv p -> (first p <= last p)%nat ->
    outcome_ok (fun x => fw p (snd x) /\ (first (snd x) <= last p)%nat /\ first (fst x) = first p /\ last (fst x) = first (snd x) /\
       isnull (fst x) = isnull p /\ clast (fst x) = clast p) (skip_bracketed CNone true ExConstexpr obj buf p).
  Proof.
    intros obj p HI HF. pose proof (inv_last p HI) as L.
    pose proof (skip_bracketed_bound ExConstexpr obj buf p HB ltac:(lia)) as X.
    destruct (skip_bracketed CNone true ExConstexpr obj buf p) as [[r q]| | |] eqn:E; cbn [outcome_ok fst snd] in *; auto.
    destruct X as (B & Q & G & R1 & R2 & _). specialize (B ltac:(discriminate) H31).
    assert (FQ : fw p q).
    { rewrite Q. apply fw_first. lia. }
    split; [exact FQ|]. split; [exact B|]. split; [exact R1|]. split; [exact R2|].
    unfold skip_bracketed in E. cbn [andb] in E. destruct (last p <=? first p)%nat.
    - injection E as <- <-. auto.
    - destruct (front buf p) as [c| | |]; cbn [bind] in E; try discriminate. cbv zeta in E.
      match type of E with bind ?x _ = _ => destruct x as [[j n]| | |]; try discriminate end.
      cbn [bind] in E. injection E as <- <-. auto.
  Qed.

  Lemma scan_result : forall excl p cl, in_string buf p cl -> (first p <= cl)%nat ->
    outcome_ok (fun x => exists t, str_body t /\ sub_at buf (first p) (t ++ [34]) /\ (first p + length t < cl)%nat /\
        snd x = set_first p (first p + length t) /\ fst x = reported_escape t) (parse_nq true ExConstexpr excl buf p).
  Proof.
    intros excl p cl HI HF. change (2^31) with 2147483648 in H31.
    assert (CL : (cl <= length buf)%nat) by apply HI.
    destruct excl.
    - pose proof (parse_nq_excl_safe buf p cl HI HF) as X.
      destruct (parse_nq true ExConstexpr true buf p) as [[n q]| | |] eqn:E; cbn [outcome_ok fst snd] in *; auto.
      destruct X as (t & SB & ST & LT & E1 & _). exists t. repeat split; auto using excl_str_body.
      rewrite (parse_nq_excl_ok buf p cl t HI SB ST LT) in E by (change (2^64) with 18446744073709551616; lia). now injection E as <- _.
    - pose proof (parse_nq_cx_safe buf p cl HI) as X.
      destruct (parse_nq true ExConstexpr false buf p) as [[n q]| | |] eqn:E; cbn [outcome_ok fst snd] in *; auto.
      destruct X as (t & SB & ST & LT & E1 & _). exists t. repeat split; auto.
      rewrite (C14_string_end true buf p cl t HI SB ST LT) in E by (change (2^64) with 18446744073709551616; lia). now injection E as <- _.
  Qed.

  Lemma body_loc : forall p t, str_body t -> sub_at buf (first p) (t ++ [34]) -> last p = (first p + length t)%nat -> counter p = reported_escape t ->
    str_loc p.
  Proof.
    intros p t SB ST EL EC. pose proof ST as ST0. apply sub_at_app in ST0. destruct ST0 as [_ [ST2 _]].
    assert (LB : (first p + length t < length buf)%nat) by (apply nth_error_Some; rewrite ST2; discriminate).
    unfold str_loc. rewrite EL. split; [exact ST2|]. split; [lia|]. split; [|split].
    - destruct t as [|x t]; [left; cbn [length]; lia|right]. cbn [app] in ST. destruct ST as [ST _].
      rewrite ST. intro Y. injection Y as ->. inversion SB; subst; congruence.
    - rewrite EC. unfold reported_escape. destruct (escape_offset t) as [k|] eqn:EK.
      + destruct (escape_offset_some t k SB EK) as (u & w & -> & _ & <-). intros _. rewrite app_length. lia.
      + intro Y. exfalso. clear - Y. vm_compute in Y. discriminate Y.
    - rewrite EC. unfold reported_escape. destruct (escape_offset t) as [k|] eqn:EK; [|reflexivity].
      destruct (escape_offset_some t k SB EK) as (u & w & -> & _ & <-).
      rewrite app_length in LB. cbn [length] in LB. change (2^31) with 2147483648 in H31.
      change (2 ^ 64) with 18446744073709551616. lia.
  Qed.

  Lemma string_fw : forall excl p, inv p -> (first p < last p)%nat ->
    outcome_ok (fun x => fw p (snd x) /\ (first p < first (snd x))%nat /\ (first (fst x) = first p + 1)%nat /\
       nth_error buf (first p) = Some 34 /\ str_loc (fst x) /\
       (last (fst x) < M)%nat /\ (first (fst x) <= last (fst x))%nat /\ isnull (fst x) = isnull p /\ clast (fst x) = clast p /\
       (exists cl, clast p = Some cl /\ (last (fst x) <= cl)%nat))
      (skip_string true ExConstexpr excl false buf p).
  Proof.
    intros excl p (HN & HF & cl & HC & HCL) L. unfold skip_string, ps_empty. rewrite HN. cbn [orb].
    destruct (Nat.leb_spec (last p) (first p)); [lia|]. destruct (front_ok p) as (c & -> & Hc); [lia|]. cbn [bind].
    destruct (N.eqb_spec c c_quote) as [->|]; cbn [ensure bind outcome_ok]; auto.
    destruct (has_more (remove_prefix p 1)) eqn:HMo; cbn [ensure bind outcome_ok]; auto.
    unfold has_more, remove_prefix in HMo. cbn [first last set_first] in HMo. apply Nat.ltb_lt in HMo.
    assert (HI : in_string buf (remove_prefix p 1) cl).
    { unfold in_string, remove_prefix. cbn [first last clast set_first]. repeat split; auto; try lia.
      replace (first p + 1 - 1)%nat with (first p) by lia. exact Hc. }
    unfold skip_string_nq.
    pose proof (scan_result excl (remove_prefix p 1) cl HI ltac:(unfold remove_prefix; cbn [first set_first]; lia)) as X.
    destruct (parse_nq true ExConstexpr excl buf (remove_prefix p 1)) as [[n q]| | |]; cbn [outcome_ok bind fst snd] in *; auto.
    destruct X as (t & SB & ST & LT & -> & ->). pose proof ST as ST0. apply sub_at_app in ST0. destruct ST0 as [_ [Hi _]].
    unfold front. cbn [first set_first]. unfold remove_prefix in *. cbn [first last set_first] in *. rewrite (rd_some _ _ _ Hi). cbn [bind].
    change (34 =? c_quote) with true. cbn [ensure bind outcome_ok snd fst]. cbn [first last set_first set_last set_counter isnull clast].
    split; [apply (fw_first p (first p + 1 + length t + 1)); lia|]. split; [lia|]. split; [lia|]. split; [exact Hc|].
    split; [apply (body_loc _ t); auto|].
    split; [lia|]. split; [lia|]. split; [first [reflexivity|exact HN]|]. split; [reflexivity|].
    exists cl. split; [exact HC|lia].
  Qed.

  Lemma number_isnull : forall p r q, skip_number true buf p = Ok (r, q) -> isnull r = isnull p.
  Proof.
    intros p r q E. unfold skip_number in E.
    repeat match type of E with
    | (match ?x with _ => _ end) = _ => destruct x; try discriminate
    | bind ?x _ = _ => destruct x; cbn [bind] in E; try discriminate
    end; injection E as <- <-; reflexivity.
  Qed.

  Lemma skip_fw : forall g p, c_ex g = ExConstexpr -> inv p -> before p ->
    outcome_ok (fun x => fw p (snd x) /\ (first p < first (snd x))%nat /\ (isnull (fst x) = true \/ loc (fst x))) (skip_val g buf p).
  Proof.
    intros g p HX HI HBe. pose proof HI as (HN & HF & cl & HC & HCL). unfold skip_val, skip_value, has_more. rewrite HX.
    destruct (Nat.ltb_spec (first p) (last p)) as [L|L]; cbn [ensure bind outcome_ok]; auto. cbv zeta.
    set (p0 := set_counter p 0). assert (I0 : inv p0) by exact HI. assert (L0 : (first p0 < last p0)%nat) by exact L.
    change (fun x => fw p (snd x) /\ (first p < first (snd x))%nat /\ (isnull (fst x) = true \/ loc (fst x))) with
      (fun x : ps * ps => fw p0 (snd x) /\ (first p0 < first (snd x))%nat /\ (isnull (fst x) = true \/ loc (fst x))).
    assert (B0 : before p0) by exact HBe. assert (N0 : isnull p0 = false) by exact HN. assert (C0 : clast p0 = Some cl) by exact HC. assert (CL0 : (last p0 <= cl <= M)%nat) by exact HCL.
    clearbody p0. clear p HI HBe HN HF HC HCL L. rename p0 into p.
    destruct (front_ok p) as (c & -> & Hc); [lia|]. cbn [bind].
    assert (PLAIN : forall r, first r = first p -> c <> c_quote -> isnull r = false -> (last r <= M)%nat -> inv r \/ num_start r -> loc r).
    { intros r E1 NQ N1 L1 I1. destruct B0 as [B1 B2]. unfold loc. rewrite E1.
      split; [exact N1|]. split; [lia|]. split; [exact L1|]. split; [exact I1|]. split; [exact B1|]. split; [congruence|].
      intros _. rewrite Hc. intro X. injection X as ->. now apply NQ. }
    destruct (N.eqb_spec c c_quote) as [->|NQ].
    { eapply outcome_ok_weaken; [|apply string_fw; auto]. intros [r q] (F & G & RF & RQ & RS & R1 & R2 & R3 & R4 & cl' & R5 & R6). cbn [fst snd] in *.
      split; [exact F|]. split; [exact G|]. right. split; [congruence|]. split; [lia|]. split; [lia|]. split.
      { left. split; [congruence|]. split; [lia|]. exists cl. split; [congruence|]. rewrite C0 in R5. injection R5 as <-. lia. }
      rewrite RF. replace (first p + 1 - 1)%nat with (first p) by lia. split; [lia|]. split; [auto|]. intros X. now rewrite RQ in X. }
    assert (BRK : forall obj, c = left_of obj -> outcome_ok (fun x => fw p (snd x) /\ (first p < first (snd x))%nat /\ (isnull (fst x) = true \/ loc (fst x)))
        (skip_bracketed CNone true ExConstexpr obj buf p)).
    { intros obj ->. pose proof (bracket_fw obj p I0 ltac:(lia)) as X.
      pose proof (skip_bracketed_safe ExConstexpr obj buf p HB ltac:(lia)) as Y.
      destruct (skip_bracketed CNone true ExConstexpr obj buf p) as [[r q]| | |]; cbn [outcome_ok fst snd] in *; auto.
      destruct X as (F & B & R1 & R2 & R3 & R4). destruct Y as (_ & _ & _ & _ & Y). destruct (Y L0 Hc) as [Y1 _].
      split; [exact F|]. split; [exact Y1|]. right. apply PLAIN; auto; [congruence|lia|]. left. split; [congruence|]. split; [lia|].
      exists cl. split; [congruence|lia]. }
    destruct (N.eqb_spec c c_lbrack) as [->|]; [apply (BRK false); reflexivity|].
    destruct (N.eqb_spec c c_lbrace) as [->|]; [apply (BRK true); reflexivity|].
    assert (BOO : forall rest r v, outcome_ok (fun x => fw p (snd x) /\ (first p < first (snd x))%nat /\ (isnull (fst x) = true \/ loc (fst x)))
       (skip_bool CNone true rest r v buf p)).
    { intros rest r v. eapply outcome_ok_weaken; [|apply skip_bool_safe; lia]. intros [x q] (_ & E & G & R). cbn [fst snd] in *.
      split; [rewrite E; apply fw_first; lia|]. split; [lia|]. right. rewrite R. apply PLAIN; auto; cbn [first last set_counter set_last]; [lia|]. left. split; [exact N0|]. cbn [first last set_counter set_last clast].
      split; [lia|]. exists cl. split; [exact C0|lia]. }
    destruct (N.eqb_spec c c_t) as [->|]; [apply BOO|].
    destruct (N.eqb_spec c c_f) as [->|]; [apply BOO|].
    destruct (N.eqb_spec c c_n) as [->|].
    { eapply outcome_ok_weaken; [|apply skip_null_safe; lia]. intros [x q] (_ & E & G & R). cbn [fst snd] in *.
      split; [rewrite E; apply fw_first; lia|]. split; [lia|]. left. rewrite R. reflexivity. }
    destruct ((c =? c_minus) || ((48 <=? c) && (c <=? 57))) eqn:EN; [|cbn; auto].
    pose proof (skip_number_safe buf p HB ltac:(lia)) as X. pose proof (number_isnull p) as NI.
    destruct (skip_number true buf p) as [[r q]| | |]; cbn [outcome_ok fst snd] in *; auto.
    destruct X as (t & _ & _ & G & -> & R1 & R2 & PT). cbn [first set_first].
    specialize (PT c Hc ltac:(unfold c_minus, is_dig in *; lia)). specialize (NI _ _ eq_refl).
    split; [apply fw_first; lia|]. split; [lia|]. right. apply PLAIN; auto; [congruence|lia|]. right.
    exists c. rewrite R1. split; [exact Hc|]. unfold c_minus, is_dig in *. lia.
  Qed.

  (** ** Strings and names *)

  Lemma string_ok : forall p, inv p ->
    outcome_ok (fun x => fw p (snd x) /\ (first p < first (snd x))%nat) (parse_value_string_escaped true false ExConstexpr true buf p).
  Proof.
    intros p HI. pose proof HI as (HN & HF & cl & HC & HCL).
    destruct (ps_empty p) eqn:EE.
    { unfold parse_value_string_escaped. rewrite EE. exact I. }
    assert (L : (first p < last p)%nat) by (unfold ps_empty in EE; rewrite HN in EE; cbn [orb] in EE; lia).
    pose proof (C54_parse_string_safe true buf p cl HB HN ltac:(lia) ltac:(lia) HC ltac:(lia)) as S.
    assert (L63 : N.of_nat (length buf) < 2^63) by (change (2^63) with 9223372036854775808; change (2^31) with 2147483648 in H31; lia).
    specialize (S L63). revert S. unfold parse_value_string_escaped. rewrite EE. cbn [negb ensure bind].
    pose proof (string_fw false p HI L) as X.
    destruct (skip_string true ExConstexpr false false buf p) as [[r q]| | |]; cbn [bind outcome_ok fst snd] in *; auto.
    destruct X as (F & G & _). cbn [orb negb]. destruct (needs_slow_path r).
    - destruct (parse_string_known_stdstring true ExConstexpr true buf r); cbn [bind outcome_ok snd]; auto.
    - destruct (last r <=? length buf)%nat; cbn [outcome_ok snd]; auto.
  Qed.

  Lemma name_end_fw : forall p, inv p -> outcome_ok (fun q => fw p q /\ (first p < first q <= last p)%nat) (trim_end_of_name buf p).
  Proof.
    intros p HI. pose proof (inv_last p HI) as L. eapply outcome_ok_weaken; [|apply trim_end_of_name_safe; lia].
    intros q [E G]. split; [|exact G]. rewrite E. apply fw_first. lia.
  Qed.

  Lemma name_end_before : forall p, inv p -> outcome_ok before (trim_end_of_name buf p).
  Proof.
    intros p HI. pose proof (inv_last p HI) as L. unfold trim_end_of_name. destruct (trim_fw p HI) as (q & -> & F & _). cbn [bind].
    destruct (has_more q) eqn:HMo; cbn [ensure bind outcome_ok]; auto. unfold has_more in HMo. destruct F as (EL & _).
    destruct (front_ok q) as (c & -> & Hc); [lia|]. cbn [bind]. destruct (N.eqb_spec c c_colon) as [->|]; cbn [ensure bind outcome_ok]; auto.
    unfold trim_left_checked, remove_prefix. cbn [first last set_first].
    destruct (trim_loop_safe (S (last q - (first q + 1))) buf (first q + 1) (last q)) as (j & t & -> & -> & ST & W & _ & _); [lia|lia|].
    cbn [bind outcome_ok]. unfold before. cbn [first set_first]. split; [lia|]. assert (TC : t = [] \/ exists u d, t = u ++ [d]).
    { destruct t as [|x t]; [now left|right]. destruct (exists_last (l := x :: t)) as (u & d & E); [discriminate|]. exists u, d. exact E. }
    destruct TC as [->|(u & d & ->)].
    - cbn [length]. replace (first q + 1 + 0 - 1)%nat with (first q) by lia. rewrite Hc. discriminate.
    - apply Forall_app in W as [_ W]. inversion W as [|? ? W1 _]; subst. apply sub_at_app in ST as [_ [ST _]].
      rewrite app_length. cbn [length]. replace (first q + 1 + (length u + 1) - 1)%nat with (first q + 1 + length u)%nat by lia. rewrite ST.
      intro X. injection X as ->. discriminate.
  Qed.

  Lemma name_fw : forall g p, c_ex g = ExConstexpr -> inv p ->
    outcome_ok (fun x => (fw p (snd x) /\ (first p < first (snd x) <= last p)%nat) /\ before (snd x)) (parse_name g buf p).
  Proof.
    intros g p HX HI. pose proof HI as (HN & HF & cl & HC & HCL). unfold parse_name.
    destruct (is_at_ok p c_quote HI) as (b & -> & HQ). cbn [bind]. destruct b; cbn [ensure bind outcome_ok]; auto.
    destruct (HQ eq_refl) as [L Hq]. unfold parse_name_nq. rewrite HX.
    set (p1 := remove_prefix p 1). assert (F1 : first p1 = S (first p)) by (unfold p1, remove_prefix; cbn [first set_first]; lia).
    assert (L1 : last p1 = last p) by reflexivity.
    assert (TE : forall q (nm : list N), fw p q -> outcome_ok (fun x => (fw p (snd x) /\ (first p < first (snd x) <= last p)%nat) /\ before (snd x))
       (r <- trim_end_of_name buf q ;; Ok (nm, r))).
    { intros q nm F. assert (IQ : inv q) by (eapply inv_fw; eauto).
      pose proof (name_end_fw q IQ) as X1. pose proof (name_end_before q IQ) as X2.
      destruct (trim_end_of_name buf q) as [r| | |]; cbn [bind outcome_ok snd] in *; auto. destruct X1 as [FR G].
      split; [|exact X2]. split; [eauto using fw_trans|]. destruct F as (E & _ & _ & X). rewrite E in G. lia. }
    destruct (c_escnames g).
    - assert (HS : in_string buf p1 cl).
      { unfold in_string. rewrite F1, L1. repeat split; auto; try lia. replace (S (first p) - 1)%nat with (first p) by lia. exact Hq. }
      unfold skip_string_nq.
      pose proof (C15_string_scan_safe ExConstexpr (c_excl g) buf p1 cl HS ltac:(lia)) as X.
      pose proof (C15_string_scan_ge ExConstexpr (c_excl g) buf p1 cl HS ltac:(lia)) as Y.
      destruct (parse_nq true ExConstexpr (c_excl g) buf p1) as [[n q]| | |]; cbn [outcome_ok bind snd] in *; auto.
      destruct X as (i & Li & Hi & ->). unfold front. cbn [first set_first]. rewrite (rd_some _ _ _ Hi). cbn [bind].
      change (34 =? c_quote) with true. cbn [ensure bind]. apply TE. unfold remove_prefix in *. cbn [first set_first] in *.
      apply (fw_first p (i + 1)). lia.
    - rewrite F1, L1. eapply outcome_ok_bind; [apply memchr_checked_safe; lia|]. intros j [LJ HJ].
      unfold is_at, has_more. cbn [first last set_first]. rewrite L1. destruct (Nat.ltb_spec j (last p)) as [L2|L2]; cbn [bind ensure outcome_ok]; auto.
      unfold front. cbn [first set_first]. specialize (HJ L2). rewrite (rd_some _ _ _ HJ). cbn [bind].
      destruct j as [|j]; [lia|]. change (c_quote =? c_quote) with true. cbn iota.
      destruct (rd_in buf j) as (c & Hc); [lia|]. rewrite (rd_some _ _ _ Hc). cbn [bind].
      destruct (c =? c_bslash); cbn [negb ensure bind outcome_ok]; auto.
      apply TE. unfold remove_prefix. cbn [first set_first]. apply (fw_first p (S j + 1)). lia.
  Qed.

  (** ** Arrays, maps and tuples *)

  Lemma unchecked_fw : forall p, z = true -> inv p -> exists q, trim_left_unchecked buf p = Ok q /\ fw p q.
  Proof.
    intros p Z (_ & HF & _). unfold trim_left_unchecked.
    assert (X : forall n i, (M - i < n)%nat -> (i <= M)%nat -> exists j, trim_loop_unchecked n buf i = Ok j /\ (i <= j <= M)%nat).
    { induction n as [|n IH]; intros i L1 L2; [lia|]. cbn [trim_loop_unchecked]. destruct (Nat.eq_dec i M) as [->|NE].
      - rewrite (rd_some _ _ _ (HZ Z)). cbn [bind]. change (is_space 0) with false. cbv iota. exists M. split; [reflexivity|lia].
      - destruct (rd_in buf i) as (b & Hb); [lia|]. rewrite (rd_some _ _ _ Hb). cbn [bind]. destruct (is_space b).
        + destruct (IH (S i)) as (j & E & J); [lia|lia|]. exists j. split; [exact E|lia].
        + exists i. split; [reflexivity|lia]. }
    destruct (X (S (length buf)) (first p)) as (j & E & J); [lia|lia|]. rewrite E. cbn [bind]. exists (set_first p j). split; [reflexivity|].
    now apply fw_first.
  Qed.

  Lemma move_stay : forall p c, inv p -> (first p < last p)%nat -> nth_error buf (first p) = Some c -> c <> c_comma -> 32 < c ->
    move_next buf p = Ok p.
  Proof.
    intros p c HI L Hc NC GT. pose proof (inv_last p HI). unfold move_next, move_next_member_or_end, move_next_member_or_end_checked.
    assert (SP : is_space c = false) by (rewrite is_space_spec by (eapply is_bytes_nth; eauto); lia).
    rewrite (trim_left_run buf p (first p)); auto.
    - replace (set_first p (first p)) with p by (destruct p; reflexivity). cbn [bind]. unfold is_at, has_more.
      destruct (Nat.ltb_spec (first p) (last p)); [|lia]. unfold front. rewrite (rd_some _ _ _ Hc). cbn [bind].
      destruct (N.eqb_spec c c_comma); [contradiction|]. reflexivity.
    - apply ws_run_nil; [lia|]. right. exists c. auto.
  Qed.

  (** What follows an array's opening bracket *)
  Lemma elements_safe : forall f p q, parser_ok f -> inv p -> fw p q ->
    outcome_ok (fun x => fw p (fst x)) (loop (array_body f buf) (S (length buf)) (q, [])).
  Proof.
    intros f p q0 HF HI FP.
    apply (loop_inv _ (fun s => M - first (fst s))%nat (fun s => fw p (fst s))); [|exact FP|cbn [fst]; lia].
    intros [q vs] FQ. cbn [fst] in *. pose proof (inv_fw _ _ HI FQ) as IQ. unfold array_body.
    destruct (has_more q) eqn:HQ; cbn [ensure bind outcome_ok]; auto.
    eapply outcome_ok_bind; [apply HF; exact IQ|]. intros [v r] FR. cbn [snd] in FR. pose proof (inv_fw _ _ IQ FR) as IR.
    destruct (trim_fw r IR) as (s & -> & FS & _). cbn [bind]. pose proof (inv_fw _ _ IR FS) as IS. pose proof (inv_last _ IS) as LS.
    unfold has_more at 1. destruct (Nat.ltb_spec (first s) (last s)) as [L|L]; cbn [bind ensure outcome_ok]; auto.
    destruct (front_ok s) as (d & -> & Hd); [lia|]. cbn [bind].
    destruct ((d =? c_comma) || (d =? c_rbrack)) eqn:ED; cbn [ensure bind outcome_ok]; auto.
    destruct (move_fw s IS) as (t & ET & FT & _ & PT). rewrite ET. cbn [bind]. pose proof (inv_fw _ _ IS FT) as IT. pose proof (inv_last _ IT) as LT.
    unfold has_more at 1. destruct (Nat.ltb_spec (first t) (last t)) as [L2|L2]; cbn [bind ensure outcome_ok]; auto.
    destruct (front_ok t) as (e & -> & He); [lia|]. cbn [bind].
    assert (FPT : fw p t) by eauto using fw_trans.
    destruct (N.eqb_spec e c_rbrack) as [->|NE].
    - unfold end_of_array. assert (FU : fw t (remove_prefix t 1)) by (apply fw_first; lia).
      destruct (trim_fw _ (inv_fw _ _ IT FU)) as (u & -> & FU2 & _). cbn [bind outcome_ok fst]. eauto using fw_trans.
    - cbn [outcome_ok fst]. split; [exact FPT|].
      destruct (N.eqb_spec d c_comma) as [->|ND].
      + specialize (PT L Hd). destruct FR as (_ & _ & _ & X1), FS as (_ & _ & _ & X2), FT as (_ & _ & _ & X3). lia.
      + cbn [orb] in ED. apply N.eqb_eq in ED. subst d.
        rewrite (move_stay s c_rbrack IS L Hd) in ET; [|discriminate|reflexivity]. injection ET as <-. congruence.
  Qed.

  Lemma array_ok_safe : forall f, z = true -> parser_ok f -> forall p, inv p -> outcome_ok (fun x => fw p (snd x)) (parse_value_array f buf p).
  Proof.
    intros f Z HF p HI. unfold parse_value_array.
    assert (ZM : (M < length buf)%nat) by (apply nth_error_Some; rewrite (HZ Z); discriminate).
    destruct (trim_fw p HI) as (p1 & -> & F1 & _). cbn [bind]. pose proof (inv_fw _ _ HI F1) as I1.
    destruct (is_at_ok p1 c_lbrack I1) as (b & -> & HA). cbn [bind]. destruct b; cbn [ensure bind outcome_ok]; auto.
    destruct (HA eq_refl) as [L1 _]. pose proof (inv_last _ I1) as LL1.
    assert (F2 : fw p1 (remove_prefix p1 1)) by (apply fw_first; lia). pose proof (inv_fw _ _ I1 F2) as I2.
    destruct (unchecked_fw _ Z I2) as (p3 & -> & F3). cbn [bind]. pose proof (inv_fw _ _ I2 F3) as I3.
    assert (FP : fw p p3) by eauto using fw_trans.
    destruct (front_ok p3) as (c & -> & Hc); [destruct I3 as (_ & X & _); lia|]. cbn [bind].
    assert (END : forall q, inv q -> fw p q -> nth_error buf (first q) = Some c_rbrack -> forall v : val,
       outcome_ok (fun x => fw p (snd x)) (q <- end_of_array buf q ;; Ok (v, q))).
    { intros q IQ FQ HQ v. unfold end_of_array.
      assert (LQ : (first q < M)%nat).
      { destruct IQ as (_ & X & _). destruct (Nat.eq_dec (first q) M) as [E|]; [|lia]. rewrite E, (HZ Z) in HQ. discriminate. }
      assert (FR : fw q (remove_prefix q 1)) by (apply fw_first; lia).
      destruct (trim_fw _ (inv_fw _ _ IQ FR)) as (r & -> & FR2 & _). cbn [bind outcome_ok snd]. eauto using fw_trans. }
    destruct (N.eqb_spec c c_rbrack) as [->|NR]; [now apply END|].
    eapply outcome_ok_bind with (P := fun x => fw p (fst x)); [now apply elements_safe|intros [q vs] X; exact X].
  Qed.

  Lemma kv_array_ok_safe : forall f, z = true -> parser_ok f -> forall p, inv p -> outcome_ok (fun x => fw p (snd x)) (parse_value_keyvalue_array f buf p).
  Proof.
    intros f Z HF p1 I1. unfold parse_value_keyvalue_array.
    assert (ZM : (M < length buf)%nat) by (apply nth_error_Some; rewrite (HZ Z); discriminate).
    destruct (is_at_ok p1 c_lbrack I1) as (b & -> & HA). cbn [bind]. destruct b; cbn [ensure bind outcome_ok]; auto.
    destruct (HA eq_refl) as [L1 _]. pose proof (inv_last _ I1) as LL1. cbv zeta.
    assert (F2 : fw p1 (remove_prefix p1 1)) by (apply fw_first; lia). pose proof (inv_fw _ _ I1 F2) as I2.
    destruct (front_ok (remove_prefix p1 1)) as (c & -> & Hc); [destruct I2 as (_ & X & _); lia|]. cbn [bind].
    destruct (N.eqb_spec c c_rbrack) as [->|NR].
    - assert (LQ : (first (remove_prefix p1 1) < M)%nat).
      { destruct I2 as (_ & X & _). destruct (Nat.eq_dec (first (remove_prefix p1 1)) M) as [E|]; [|lia]. rewrite E, (HZ Z) in Hc. discriminate. }
      unfold end_of_array. assert (FR : fw (remove_prefix p1 1) (remove_prefix (remove_prefix p1 1) 1)) by (apply fw_first; lia).
      destruct (trim_fw _ (inv_fw _ _ I2 FR)) as (r & -> & FR2 & _). cbn [bind outcome_ok snd]. eauto using fw_trans.
    - eapply outcome_ok_bind with (P := fun x => fw p1 (fst x)); [now apply elements_safe|intros [q vs] X; exact X].
  Qed.

  Lemma map_ok_safe : forall g f, c_ex g = ExConstexpr -> parser_ok f -> forall p, inv p -> outcome_ok (fun x => fw p (snd x)) (parse_value_keyvalue g f buf p).
  Proof.
    intros g f HX HF p HI. unfold parse_value_keyvalue.
    destruct (is_at_ok p c_lbrace HI) as (b & -> & HA). cbn [bind]. destruct b; cbn [ensure bind outcome_ok]; auto.
    destruct (HA eq_refl) as [L1 _]. pose proof (inv_last _ HI) as LL1.
    assert (F2 : fw p (remove_prefix p 1)) by (apply fw_first; lia). pose proof (inv_fw _ _ HI F2) as I2.
    destruct (trim_fw _ I2) as (p3 & -> & F3 & _). cbn [bind]. pose proof (inv_fw _ _ I2 F3) as I3.
    assert (FP : fw p p3) by eauto using fw_trans.
    destruct (ps_empty p3) eqn:EE; cbn [negb ensure bind outcome_ok]; auto.
    assert (L3 : (first p3 < last p3)%nat) by (destruct I3 as (X & _); unfold ps_empty in EE; rewrite X in EE; cbn [orb] in EE; lia).
    pose proof (inv_last _ I3) as LL3.
    destruct (front_ok p3) as (c & -> & Hc); [lia|]. cbn [bind].
    assert (END : forall q, inv q -> fw p q -> (first q < last q)%nat -> exists r, trim_left_checked buf (remove_prefix q 1) = Ok r /\ fw p r).
    { intros q IQ FQ LQ. pose proof (inv_last _ IQ). assert (FR : fw q (remove_prefix q 1)) by (apply fw_first; lia).
      destruct (trim_fw _ (inv_fw _ _ IQ FR)) as (r & E & FR2 & _). exists r. split; [exact E|]. eauto using fw_trans. }
    destruct (c =? c_rbrace).
    { destruct (END p3 I3 FP L3) as (r & -> & FR). exact FR. }
    eapply outcome_ok_bind with (P := fun x => fw p (fst x)); [|intros [q vs] X; exact X].
    apply (loop_inv _ (fun s => M - first (fst s))%nat (fun s => fw p (fst s))); [|exact FP|cbn [fst]; lia].
    intros [q kvs] FQ. cbn [fst] in *. pose proof (inv_fw _ _ HI FQ) as IQ. unfold map_body. rewrite HX.
    destruct (has_more q) eqn:HQ; cbn [ensure bind outcome_ok]; auto.
    eapply outcome_ok_bind; [apply string_ok; exact IQ|]. intros [k r] [FR PR]. cbn [snd] in *. pose proof (inv_fw _ _ IQ FR) as IR.
    eapply outcome_ok_bind; [apply name_end_fw; exact IR|]. intros s [FS PS]. pose proof (inv_fw _ _ IR FS) as IS.
    eapply outcome_ok_bind; [apply HF; exact IS|]. intros [v t] FT. cbn [snd] in FT. pose proof (inv_fw _ _ IS FT) as IT.
    destruct (move_fw t IT) as (u & -> & FU & _ & _). cbn [bind]. pose proof (inv_fw _ _ IT FU) as IU. pose proof (inv_last _ IU) as LU.
    unfold has_more at 1. destruct (Nat.ltb_spec (first u) (last u)) as [L|L]; cbn [bind ensure outcome_ok]; auto.
    destruct (front_ok u) as (d & -> & Hd); [lia|]. cbn [bind].
    assert (FPU : fw p u) by (eapply fw_trans; [exact FQ|]; eapply fw_trans; [exact FR|]; eapply fw_trans; [exact FS|]; eapply fw_trans; eauto).
    destruct (d =? c_rbrace).
    - destruct (END u IU FPU L) as (w & -> & FW). exact FW.
    - cbn [outcome_ok fst]. split; [exact FPU|]. destruct FT as (_ & _ & _ & X1), FU as (_ & _ & _ & X2). lia.
  Qed.

  Lemma elements_ok_safe : forall fs, Forall parser_ok fs -> forall p, inv p -> outcome_ok (fun x => fw p (snd x)) (parse_elements fs buf p).
  Proof.
    induction fs as [|f fs IH]; intros HF p HI; cbn [parse_elements].
    - cbn [outcome_ok snd]. now apply fw_refl.
    - inversion HF as [|? ? HF1 HF2]; subst. destruct (has_more p); cbn [ensure bind outcome_ok]; auto.
      eapply outcome_ok_bind; [apply HF1; exact HI|]. intros [v q] FQ. cbn [snd] in FQ. pose proof (inv_fw _ _ HI FQ) as IQ.
      destruct (move_fw q IQ) as (r & -> & FR & _ & _). cbn [bind]. pose proof (inv_fw _ _ IQ FR) as IR.
      eapply outcome_ok_bind; [apply IH; [exact HF2|exact IR]|]. intros [vs s] FS. cbn [outcome_ok snd] in *. eauto using fw_trans.
  Qed.

  (** The position of a class is replaced and restored *)
  Lemma inv_class : forall p a, inv p -> inv (set_class p a (Some (last p))).
  Proof. intros p a HI. pose proof (inv_last p HI). destruct HI as (A & B & _). split; [exact A|]. split; [exact B|]. exists (last p). split; [reflexivity|]. cbn [last set_class]. lia. Qed.
  Lemma fw_class : forall p q a b, fw (set_class p a b) q -> fw p (set_class q (cfirst p) (clast p)).
  Proof. intros p q a b (A & B & C & D). repeat split; auto; apply D. Qed.

  Lemma tuple_ok_safe : forall g exact fs, c_ex g = ExConstexpr -> (exact = true -> z = true) -> Forall parser_ok fs ->
    forall p, inv p -> outcome_ok (fun x => fw p (snd x)) (parse_tuple g exact fs buf p).
  Proof.
    intros g exact fs HX HE HF p HI. unfold parse_tuple. rewrite HX.
    destruct (trim_fw p HI) as (p1 & -> & F1 & _). cbn [bind]. pose proof (inv_fw _ _ HI F1) as I1.
    destruct (is_at_ok p1 c_lbrack I1) as (b & -> & HA). cbn [bind]. destruct b; cbn [ensure bind outcome_ok]; auto.
    destruct (HA eq_refl) as [L1 _]. pose proof (inv_last _ I1) as LL1. cbv zeta.
    set (p2 := set_class p1 (Some (first p1)) (Some (last p1))).
    assert (I2 : inv p2) by now apply inv_class.
    assert (F3 : fw p2 (remove_prefix p2 1)) by (apply fw_first; unfold p2; cbn [first set_class]; lia). pose proof (inv_fw _ _ I2 F3) as I3.
    destruct (move_fw _ I3) as (p4 & -> & F4 & _ & _). cbn [bind]. pose proof (inv_fw _ _ I3 F4) as I4.
    destruct (trim_fw _ I4) as (p5 & -> & F5 & _). cbn [bind]. pose proof (inv_fw _ _ I4 F5) as I5.
    eapply outcome_ok_bind; [apply elements_ok_safe; [exact HF|exact I5]|]. intros [vs p6] F6. cbn [snd] in F6. pose proof (inv_fw _ _ I5 F6) as I6.
    assert (FF : fw p2 p6) by (eapply fw_trans; [exact F3|]; eapply fw_trans; [exact F4|]; eapply fw_trans; eauto).
    assert (FIN : forall q, fw p6 q -> fw p (set_class q (cfirst p1) (clast p1))).
    { intros q FQ. eapply fw_trans; [exact F1|]. eapply fw_class. change (set_class p1 (Some (first p1)) (Some (last p1))) with p2. eauto using fw_trans. }
    cbn [fst snd]. eapply outcome_ok_bind with (P := fun q => fw p6 q); [|intros q FQ; exact (FIN q FQ)].
    destruct exact.
    - specialize (HE eq_refl). assert (ZM : (M < length buf)%nat) by (apply nth_error_Some; rewrite (HZ HE); discriminate).
      destruct (trim_fw _ I6) as (p7 & -> & F7 & _). cbn [bind]. pose proof (inv_fw _ _ I6 F7) as I7.
      destruct (front_ok p7) as (c & -> & Hc); [destruct I7 as (_ & X & _); lia|]. cbn [bind].
      destruct (N.eqb_spec c c_rbrack) as [->|]; cbn [ensure bind outcome_ok]; auto.
      assert (LQ : (first p7 < M)%nat).
      { destruct I7 as (_ & X & _). destruct (Nat.eq_dec (first p7) M) as [E|]; [|lia]. rewrite E, (HZ HE) in Hc. discriminate. }
      assert (FR : fw p7 (remove_prefix p7 1)) by (apply fw_first; lia).
      destruct (trim_fw _ (inv_fw _ _ I7 FR)) as (r & -> & FR2 & _). cbn [outcome_ok]. eauto using fw_trans.
    - unfold skip_array. destruct (Nat.le_gt_cases (first p6) (last p6)) as [L|L].
      + eapply outcome_ok_bind; [apply bracket_fw; [exact I6|exact L]|]. intros [r q] [FQ _]. exact FQ.
      + unfold skip_bracketed. cbn [andb]. destruct (Nat.leb_spec (last p6) (first p6)); [|lia]. cbn [bind outcome_ok]. now apply fw_refl.
  Qed.

  (** ** Classes *)

  Definition known_or_none (l : ps) : Prop := isnull l = true \/ loc l.

  Lemma set_nth_other : forall l i k x, i <> k -> nth i (set_nth l k x) no_loc = nth i l no_loc.
  Proof.
    induction l as [|y l IH]; intros [|i] [|k] x N; cbn [set_nth nth]; auto; try congruence.
  Qed.
  Lemma set_nth_good : forall l i k x, known_or_none (nth i l no_loc) -> known_or_none x -> known_or_none (nth i (set_nth l k x) no_loc).
  Proof.
    induction l as [|y l IH]; intros [|i] [|k] x H X; cbn [set_nth nth] in *; auto.
  Qed.

  Lemma find_loop_safe : forall g exact names pos p locs, c_ex g = ExConstexpr -> inv p ->
    (forall k, (pos <= k)%nat -> known_or_none (nth k locs no_loc)) ->
    outcome_ok (fun x => fw p (fst x) /\ (forall k, (pos < k)%nat -> known_or_none (nth k (snd x) no_loc)) /\
        (isnull (nth pos locs no_loc) = false -> loc (nth pos (snd x) no_loc)))
      (loop (find_body g exact names pos buf) (S (length buf)) (p, locs)).
  Proof.
    intros g exact names pos p locs HX HI HL. destruct (isnull (nth pos locs no_loc)) eqn:EN.
    2:{ cbn [loop]. unfold find_body at 1. rewrite EN. cbn [bind negb outcome_ok fst snd]. split; [now apply fw_refl|].
        split; [intros k K; apply HL; lia|]. intros _. destruct (HL pos (le_n _)) as [X|X]; [congruence|exact X]. }
    eapply outcome_ok_weaken with (P := fun x => fw p (fst x) /\ forall k, (pos < k)%nat -> known_or_none (nth k (snd x) no_loc)).
    { intros x [A B]. split; [exact A|]. split; [exact B|discriminate]. }
    apply (loop_inv _ (fun s => M - first (fst s))%nat (fun s => fw p (fst s) /\ forall k, (pos <= k)%nat -> known_or_none (nth k (snd s) no_loc)));
      [|split; [now apply fw_refl|exact HL]|cbn [fst]; lia].
    clear EN HL locs. intros [q locs] [FQ HL]. cbn [fst snd] in *. pose proof (inv_fw _ _ HI FQ) as IQ. unfold find_body.
    assert (X : exists b : bool, (if isnull (nth pos locs no_loc) then if ps_empty q then Ok false else c <- front buf q ;; Ok (negb (c =? c_rbrace)) else Ok false) = Ok b).
    { destruct (isnull (nth pos locs no_loc)); [|eauto]. destruct (ps_empty q) eqn:EE; [eauto|].
      assert (L3 : (first q < last q)%nat) by (destruct IQ as (X & _); unfold ps_empty in EE; rewrite X in EE; cbn [orb] in EE; lia).
      pose proof (inv_last _ IQ). destruct (front_ok q) as (c & -> & _); [lia|]. cbn [bind]. eauto. }
    destruct X as (b & ->). cbn [bind]. destruct b; cbn [negb].
    2:{ cbn [outcome_ok fst snd]. split; [exact FQ|]. intros k K. apply HL. lia. }
    eapply outcome_ok_bind; [apply (name_fw g q HX IQ)|]. intros [name r] [[FR PR] BR]. cbn [fst snd] in *. pose proof (inv_fw _ _ IQ FR) as IR. cbv zeta.
    assert (NEXT : forall (h : ps -> list ps), (forall l, known_or_none l -> forall k, (pos <= k)%nat -> known_or_none (nth k (h l) no_loc)) ->
       outcome_ok (fun x => match x with
          | inl s' => (fw p (fst s') /\ forall k, (pos <= k)%nat -> known_or_none (nth k (snd s') no_loc)) /\ (M - first (fst s') < M - first q)%nat
          | inr a => fw p (fst a) /\ forall k, (pos < k)%nat -> known_or_none (nth k (snd a) no_loc) end)
       ('(l, s) <- skip_val g buf r ;; s <- move_next buf s ;; Ok (inl (s, h l)))).
    { intros h HH. eapply outcome_ok_bind; [apply (skip_fw g r HX IR BR)|]. intros [l s] (FS & PS & KL). cbn [fst snd] in *. pose proof (inv_fw _ _ IR FS) as IS.
      destruct (move_fw s IS) as (t & -> & FT & _ & _). cbn [bind outcome_ok fst snd]. split; [split|].
      - eapply fw_trans; [exact FQ|]. eapply fw_trans; [exact FR|]. eauto using fw_trans.
      - apply HH. exact KL.
      - destruct FR as (_ & _ & _ & X1), FS as (_ & _ & _ & X2), FT as (_ & _ & _ & X3). lia. }
    destruct (length names <=? find_name (c_force g) false names pos name)%nat.
    - destruct exact; [exact I|]. apply (NEXT (fun _ => locs)). auto.
    - destruct (Nat.eqb_spec (find_name (c_force g) false names pos name) pos) as [_|NE].
      + cbn [outcome_ok fst snd]. split; [eauto using fw_trans|]. intros k K. rewrite set_nth_other by lia. apply HL. lia.
      + apply (NEXT (fun l => set_nth locs (find_name (c_force g) false names pos name) l)). intros l KL k K. apply set_nth_good; auto.
  Qed.

  Definition member_ok (m : member) : Prop := parser_ok (m_parse m) /\ known_ok (m_parse m).

  Lemma class_member_safe : forall g exact names pos nullable f p locs, c_ex g = ExConstexpr -> inv p -> parser_ok f -> (isnull (nth pos locs no_loc) = false -> known_ok f) ->
    (forall k, (pos <= k)%nat -> known_or_none (nth k locs no_loc)) ->
    outcome_ok (fun x => fw p (snd (fst x)) /\ (forall k, (pos < k)%nat -> known_or_none (nth k (snd x) no_loc)))
      (parse_class_member g exact names pos nullable f buf p locs).
  Proof.
    intros g exact names pos nullable f p locs HX HI HF HK HL. unfold parse_class_member.
    destruct (move_fw p HI) as (p1 & -> & F1 & _ & _). cbn [bind]. pose proof (inv_fw _ _ HI F1) as I1. pose proof (inv_last _ I1) as L1.
    destruct (ps_empty p1) eqn:EE; cbn [bind ensure outcome_ok]; auto.
    assert (L3 : (first p1 < last p1)%nat) by (destruct I1 as (X & _); unfold ps_empty in EE; rewrite X in EE; cbn [orb] in EE; lia).
    destruct (front_ok p1) as (c & -> & Hc); [lia|]. cbn [bind].
    destruct ((c =? c_quote) || (c =? c_rbrace)) eqn:EC; cbn [ensure bind outcome_ok]; auto.
    unfold find_class_member. cbv zeta.
    destruct (is_at_ok p1 c_rbrace I1) as (b & -> & _). cbn [bind].
    match goal with |- context [ensure ?e MemberNotFound] => destruct e; cbn [ensure bind outcome_ok]; auto end.
    assert (TU : trim_left_unchecked buf p1 = Ok p1).
    { unfold trim_left_unchecked. cbn [trim_loop_unchecked]. rewrite (rd_some _ _ _ Hc). cbn [bind].
      replace (is_space c) with false; [cbn [bind]; destruct p1; reflexivity|].
      rewrite is_space_spec by (eapply is_bytes_nth; eauto). unfold c_quote, c_rbrace in EC. lia. }
    rewrite TU. cbn [bind].
    pose proof (find_loop_safe g exact names pos p1 locs HX I1 HL) as X.
    destruct (loop (find_body g exact names pos buf) (S (length buf)) (p1, locs)) as [[p2 locs2]| | |]; cbn [bind outcome_ok fst snd] in *; auto.
    destruct X as (F2 & G2 & K2). assert (FP : fw p p2) by eauto using fw_trans. pose proof (inv_fw _ _ HI FP) as I2.
    destruct (isnull (nth pos locs no_loc)) eqn:EN; cbn [negb orb].
    - destruct (isnull (nth pos locs2 no_loc)) eqn:EN2; cbn [negb].
      + destruct nullable; cbn [outcome_ok fst snd]; auto.
      + eapply outcome_ok_bind; [apply HF; exact I2|]. intros [v q] FQ. cbn [outcome_ok fst snd] in *. split; [eauto using fw_trans|exact G2].
    - specialize (K2 eq_refl). pose proof K2 as (NN & _). rewrite NN.
      eapply outcome_ok_bind; [apply HK; [reflexivity|exact K2]|]. intros [v q] _. cbn [outcome_ok fst snd]. auto.
  Qed.

  Lemma members_safe : forall g exact names ms pos p locs, c_ex g = ExConstexpr -> inv p -> Forall member_ok ms ->
    (forall k, (pos <= k)%nat -> known_or_none (nth k locs no_loc)) ->
    outcome_ok (fun x => fw p (snd x)) (parse_members g exact names pos ms buf p locs).
  Proof.
    intros g exact names. induction ms as [|m ms IH]; intros pos p locs HX HI HM' HL; cbn [parse_members].
    - cbn [outcome_ok snd]. now apply fw_refl.
    - inversion HM' as [|? ? [H1 H2] H3]; subst.
      eapply outcome_ok_bind; [apply class_member_safe; auto|]. intros [[v q] locs2] [FQ KL]. cbn [fst snd] in *. pose proof (inv_fw _ _ HI FQ) as IQ.
      eapply outcome_ok_bind; [apply (IH (S pos)); auto|]. intros [vs r] FR. cbn [outcome_ok snd] in *. eauto using fw_trans.
  Qed.

  Lemma next_member_safe : forall g p, c_ex g = ExConstexpr -> inv p ->
    outcome_ok (fun q => fw p q /\ (first q < last q)%nat) (move_to_next_class_member g buf p).
  Proof.
    intros g p HX HI. pose proof (inv_last p HI) as L. unfold move_to_next_class_member. rewrite HX. unfold has_more.
    destruct (Nat.ltb_spec (first p) (last p)) as [L1|L1]; cbn [ensure bind outcome_ok]; auto.
    eapply outcome_ok_bind with (P := fun i => (first p <= i < last p)%nat).
    - apply (loop_inv _ (fun i => last p - i)%nat (fun i => (first p <= i < last p)%nat)); [|lia|lia].
      intros i HL. destruct (rd_in buf i) as (c & Hc); [lia|]. rewrite (rd_some _ _ _ Hc). cbn [bind].
      destruct ((c =? c_quote) || (c =? c_rbrace)); [exact HL|].
      destruct (Nat.ltb_spec (S i) (last p)); cbn [ensure bind outcome_ok]; auto; lia.
    - intros i HL. cbn [outcome_ok first last set_first]. split; [apply fw_first; lia|lia].
  Qed.

  Lemma cleanup_safe : forall g exact old p, c_ex g = ExConstexpr -> inv p ->
    outcome_ok (fun q => exists r, fw p r /\ q = set_class r (fst old) (snd old)) (class_cleanup_now g exact old buf p).
  Proof.
    intros g exact old p HX HI. unfold class_cleanup_now. destruct (has_more p); cbn [ensure bind outcome_ok]; auto.
    destruct (move_fw p HI) as (p1 & -> & F1 & _ & _). cbn [bind]. pose proof (inv_fw _ _ HI F1) as I1.
    eapply outcome_ok_bind; [apply next_member_safe; auto|]. intros p2 [F2 L2]. pose proof (inv_fw _ _ I1 F2) as I2. pose proof (inv_last _ I2) as LL2.
    eapply outcome_ok_bind with (P := fun q => fw p2 q).
    - destruct exact.
      + destruct (front_ok p2) as (c & -> & _); [lia|]. cbn [bind]. destruct (c =? c_rbrace); cbn [ensure bind outcome_ok]; auto.
        apply fw_first. lia.
      + rewrite HX. unfold skip_class. eapply outcome_ok_bind; [apply bracket_fw; [exact I2|lia]|]. intros [r q] [FQ _]. exact FQ.
    - intros p3 F3. pose proof (inv_fw _ _ I2 F3) as I3. destruct (trim_fw _ I3) as (p4 & -> & F4 & _). cbn [bind outcome_ok].
      exists p4. split; [|reflexivity]. eapply fw_trans; [exact F1|]. eapply fw_trans; [exact F2|]. eauto using fw_trans.
  Qed.

  (** The first member is always read in place. *)
  Definition members_ok (ms : list member) : Prop :=
    match ms with [] => True | m :: ms => parser_ok (m_parse m) /\ Forall member_ok ms end.

  Lemma all_members_safe : forall g exact names ms p locs, c_ex g = ExConstexpr -> inv p -> members_ok ms ->
    (forall k, nth k locs no_loc = no_loc) -> outcome_ok (fun x => fw p (snd x)) (parse_members g exact names 0 ms buf p locs).
  Proof.
    intros g exact names [|m ms] p locs HX HI HM' HL; cbn [parse_members].
    - cbn [outcome_ok snd]. now apply fw_refl.
    - destruct HM' as [H1 H3].
      eapply outcome_ok_bind; [apply class_member_safe; auto; [rewrite HL; discriminate|intros k _; rewrite HL; left; reflexivity]|].
      intros [[v q] locs2] [FQ KL]. cbn [fst snd] in *. pose proof (inv_fw _ _ HI FQ) as IQ.
      eapply outcome_ok_bind; [apply (members_safe g exact names ms 1); auto|]. intros [vs r] FR. cbn [outcome_ok snd] in *. eauto using fw_trans.
  Qed.

  Lemma no_locs_nth : forall A (l : list A) k, nth k (map (fun _ => no_loc) l) no_loc = no_loc.
  Proof. induction l as [|a l IH]; intros [|k]; cbn [map nth]; auto. Qed.

  Lemma class_safe : forall g exact ms known, c_ex g = ExConstexpr -> members_ok ms ->
    forall p, inv p -> outcome_ok (fun x => fw p (snd x)) (parse_value_class g exact ms known buf p).
  Proof.
    intros g exact ms known HX HMs p HI. unfold parse_value_class. destruct (has_more p); cbn [ensure bind outcome_ok]; auto.
    eapply outcome_ok_bind with (P := fun x => fw p (snd x)).
    - unfold parse_json_class.
      destruct (trim_fw p HI) as (p1 & -> & F1 & _). cbn [bind]. pose proof (inv_fw _ _ HI F1) as I1.
      destruct (is_at_ok p1 c_lbrace I1) as (b & -> & HA). cbn [bind]. destruct b; cbn [ensure bind outcome_ok]; auto.
      destruct (HA eq_refl) as [L1 _]. pose proof (inv_last _ I1) as LL1. cbv zeta.
      set (p2 := set_class p1 (Some (first p1)) (Some (last p1))).
      assert (I2 : inv p2) by now apply inv_class.
      assert (F3 : fw p2 (remove_prefix p2 1)) by (apply fw_first; unfold p2; cbn [first set_class]; lia). pose proof (inv_fw _ _ I2 F3) as I3.
      destruct (trim_fw _ I3) as (p4 & -> & F4 & _). cbn [bind]. pose proof (inv_fw _ _ I3 F4) as I4.
      eapply outcome_ok_bind; [apply all_members_safe; [exact HX|exact I4|exact HMs|apply no_locs_nth]|].
      intros [vs p5] F5. cbn [snd] in F5. pose proof (inv_fw _ _ I4 F5) as I5.
      eapply outcome_ok_bind; [apply cleanup_safe; [exact HX|exact I5]|]. intros q (r & FR & ->). cbn [outcome_ok fst snd].
      eapply fw_trans; [exact F1|]. eapply fw_class. change (set_class p1 (Some (first p1)) (Some (last p1))) with p2.
      eapply fw_trans; [exact F3|]. eapply fw_trans; [exact F4|]. eauto using fw_trans.
    - intros [v q] FQ. cbn [snd] in FQ. destruct known; [exact FQ|]. pose proof (inv_fw _ _ HI FQ) as IQ.
      destruct (trim_fw _ IQ) as (r & -> & FR & _). cbn [bind outcome_ok snd]. eauto using fw_trans.
  Qed.

  (** ** Custom types and variants *)

  Lemma literal_fw : forall p, inv p ->
    outcome_ok (fun x => fw p (snd x) /\ (last (fst x) <= M)%nat) (skip_literal CNone true buf p).
  Proof.
    intros p HI. pose proof HI as (HN & HF & cl & HC & HCL). unfold skip_literal, has_more.
    destruct (Nat.ltb_spec (first p) (last p)) as [L|L]; cbn [ensure bind outcome_ok]; auto. cbv zeta.
    change (fun x => fw p (snd x) /\ (last (fst x) <= M)%nat) with
      (fun x : ps * ps => fw (set_counter p 0) (snd x) /\ (last (fst x) <= M)%nat).
    assert (L0 : (first (set_counter p 0) < last (set_counter p 0) <= M)%nat) by (cbn [first last set_counter]; lia).
    set (p0 := set_counter p 0) in *. clearbody p0. clear p HI HN HF cl HC HCL L. rename p0 into p.
    destruct (front_ok p) as (c & -> & Hc); [lia|]. cbn [bind].
    assert (BOO : forall rest r v, outcome_ok (fun x => fw p (snd x) /\ (last (fst x) <= M)%nat) (skip_bool CNone true rest r v buf p)).
    { intros rest r v. eapply outcome_ok_weaken; [|apply skip_bool_safe; lia]. intros [x q] (_ & E & G & R). cbn [fst snd] in *.
      split; [rewrite E; apply fw_first; lia|]. rewrite R. cbn [last set_counter set_last]. lia. }
    destruct (c =? c_t); [apply BOO|]. destruct (c =? c_f); [apply BOO|]. destruct (c =? c_n).
    { eapply outcome_ok_weaken; [|apply skip_null_safe; lia]. intros [x q] (_ & E & G & R). cbn [fst snd] in *.
      split; [rewrite E; apply fw_first; lia|]. rewrite R. cbn [last null_of]. lia. }
    destruct ((c =? c_minus) || ((48 <=? c) && (c <=? 57))) eqn:EN; [|cbn; auto].
    pose proof (skip_number_safe buf p HB ltac:(lia)) as X.
    destruct (skip_number true buf p) as [[r q]| | |]; cbn [outcome_ok fst snd] in *; auto.
    destruct X as (t & _ & _ & G & -> & R1 & R2 & PT). cbn [first set_first]. split; [apply fw_first; lia|lia].
  Qed.

  (** The text handed to the converter of a custom type *)
  Lemma custom_text : forall (r q : ps) (P : val * ps -> Prop), (last r <= M)%nat -> (forall v, P (v, q)) ->
    outcome_ok P (ok <- (if has_more r then c <- front buf r ;; Ok (negb ((c =? c_lbrack) || (c =? c_lbrace))) else Ok false) ;;
      _ <- ensure ok InvalidStartOfValue ;; Ok (VStr (view buf (first r) (last r)), q)).
  Proof.
    intros r q P L HP. destruct (has_more r) eqn:HMo; [|exact I]. unfold has_more in HMo.
    destruct (front_ok r) as (c & -> & _); [lia|]. cbn [bind]. destruct (negb _); [|exact I]. cbn [ensure bind outcome_ok]. apply HP.
  Qed.

  Lemma string_any_fw : forall excl p, inv p -> outcome_ok (fun x => fw p (snd x) /\ (last (fst x) <= M)%nat) (skip_string true ExConstexpr excl false buf p).
  Proof.
    intros excl p HI. destruct (ps_empty p) eqn:EE.
    { unfold skip_string. rewrite EE. cbn [outcome_ok fst snd]. split; [now apply fw_refl|now apply inv_last]. }
    assert (L : (first p < last p)%nat) by (destruct HI as (HN & _); unfold ps_empty in EE; rewrite HN in EE; cbn [orb] in EE; lia).
    eapply outcome_ok_weaken; [|apply string_fw; auto]. intros [r q] (F & G & RF & RQ & RS & R1 & _). cbn [fst snd] in *. split; [exact F|lia].
  Qed.

  Lemma any_fw : forall g p, c_ex g = ExConstexpr -> inv p -> outcome_ok (fun x => fw p (snd x) /\ (last (fst x) <= M)%nat) (skip_val g buf p).
  Proof.
    intros g p HX HI. pose proof HI as (HN & HF & cl & HC & HCL). unfold skip_val, skip_value, has_more. rewrite HX.
    destruct (Nat.ltb_spec (first p) (last p)) as [L|L]; cbn [ensure bind outcome_ok]; auto. cbv zeta.
    pose proof (literal_fw p HI) as LT. unfold skip_literal, has_more in LT. destruct (Nat.ltb_spec (first p) (last p)) as [_|L2]; [|lia].
    cbn [ensure bind outcome_ok] in LT. cbv zeta in LT.
    assert (FC : forall x, fw (set_counter p 0) x -> fw p x) by (intros x H; exact H).
    assert (I0 : inv (set_counter p 0)) by exact HI.
    destruct (front_ok (set_counter p 0)) as (c & EC & Hc); [cbn [first set_counter]; lia|]. rewrite EC in *. cbn [bind] in *.
    destruct (N.eqb_spec c c_quote) as [->|NQ].
    { eapply outcome_ok_weaken; [|apply string_any_fw; auto]. intros [r q] [F G]. auto. }
    assert (BRK : forall obj, outcome_ok (fun x => fw p (snd x) /\ (last (fst x) <= M)%nat) (skip_bracketed CNone true ExConstexpr obj buf (set_counter p 0))).
    { intros obj. eapply outcome_ok_weaken; [|apply bracket_fw; [exact I0|cbn [first last set_counter]; lia]]. intros [r q] (F & B & R1 & R2 & _). cbn [fst snd] in *.
      split; [auto|]. destruct F as (_ & _ & _ & X). lia. }
    destruct (c =? c_lbrack); [apply (BRK false)|]. destruct (c =? c_lbrace); [apply (BRK true)|]. exact LT.
  Qed.

  Lemma custom_ok : forall g k, c_ex g = ExConstexpr -> (k = CuAny -> z = true) -> parser_ok (parse_value_custom g k).
  Proof.
    intros g k HX HK p HI. unfold parse_value_custom. rewrite HX.
    eapply outcome_ok_bind with (P := fun x => fw p (snd x) /\ (last (fst x) <= M)%nat).
    - destruct k.
      + now apply string_any_fw.
      + now apply literal_fw.
      + specialize (HK eq_refl). assert (ZM : (M < length buf)%nat) by (apply nth_error_Some; rewrite (HZ HK); discriminate).
        destruct (front_ok p) as (c & -> & _); [destruct HI as (_ & X & _); lia|]. cbn [bind]. destruct (c =? c_quote).
        * eapply outcome_ok_bind; [apply string_any_fw; exact HI|]. intros [r q] [F G]. exact (conj F G).
        * now apply any_fw.
    - intros [r q] [F G]. cbn [fst snd] in *. apply custom_text; auto.
  Qed.

  Lemma custom_known_ok : forall g k, known_ok (parse_value_custom g k).
  Proof.
    intros g k p (HN & F & L & _ & P0 & _). unfold parse_value_custom.
    eapply outcome_ok_bind with (P := fun x => (last (fst x) <= M)%nat).
    - destruct k; try exact L. destruct (first p) as [|i] eqn:EF; [lia|]. destruct (rd_in buf i) as (b & Hb); [lia|].
      rewrite (rd_some _ _ _ Hb). cbn [bind outcome_ok fst]. destruct (b =? c_quote); exact L.
    - intros [r q] G. cbn [fst] in G. apply custom_text; auto.
  Qed.

  Lemma string_known_str : forall g, c_ex g = ExConstexpr ->
    known_str (fun known buf p => '(s, p) <- parse_value_string_escaped true known (c_ex g) true buf p ;; Ok (VStr s, p)).
  Proof.
    intros g HX p (HN & F & L & _) (S1 & S2 & S3 & S4 & S5). rewrite HX. unfold parse_value_string_escaped. cbn [bind orb negb].
    destruct (needs_slow_path p).
    - pose proof (C54_decode_safe ExConstexpr true buf p S1 S2 S3 S4 S5) as X.
      destruct (parse_string_known_stdstring true ExConstexpr true buf p); cbn [bind outcome_ok]; auto.
    - replace (last p <=? length buf)%nat with true by lia. exact I.
  Qed.

  Lemma null_known_str : forall f, known_str f -> known_str (parse_value_null f).
  Proof.
    intros f HF p HL HS. unfold parse_value_null. pose proof HL as (HN & _). rewrite HN.
    eapply outcome_ok_bind; [apply HF; [exact HL|exact HS]|]. intros [v q] _. exact I.
  Qed.

  (** An alternative: those that are not strings are given anything. *)
  Definition alt_known (a : option kind * parser) : Prop := known_str (snd a) /\ (fst a = Some KString \/ known_ok (snd a)).

  Lemma base_map_in : forall k alts i j f, base_map k i alts = Some (j, f) -> exists k', In (Some k', f) alts /\ k' = k.
  Proof.
    intros k. induction alts as [|[[k'|] g] alts IH]; intros i j f E; cbn [base_map] in E; [discriminate| |].
    - destruct (kind_eqb k k') eqn:EK.
      + injection E as _ <-. exists k'. split; [now left|]. destruct k, k'; cbn in EK; congruence.
      + destruct (IH _ _ _ E) as (x & A & B). exists x. split; [now right|exact B].
    - destruct (IH _ _ _ E) as (x & A & B). exists x. split; [now right|exact B].
  Qed.

  Lemma variant_ok : forall alts, z = true -> Forall (fun a => parser_ok (snd a)) alts -> parser_ok (parse_value_variant alts).
  Proof.
    intros alts Z HA p HI. unfold parse_value_variant. cbn [bind].
    assert (ZM : (M < length buf)%nat) by (apply nth_error_Some; rewrite (HZ Z); discriminate).
    destruct (front_ok p) as (c & -> & _); [destruct HI as (_ & X & _); lia|]. cbn [bind].
    assert (V : forall k, outcome_ok (fun x => fw p (snd x)) (parse_variant_value k alts false buf p)).
    { intros k. unfold parse_variant_value. destruct (base_map k 0 alts) as [[i f]|] eqn:EB; [|exact I].
      destruct (base_map_in _ _ _ _ _ EB) as (k' & IN & _). rewrite Forall_forall in HA. specialize (HA _ IN). cbn [snd] in HA.
      eapply outcome_ok_bind; [apply HA; exact HI|]. intros [v q] X. exact X. }
    repeat match goal with |- outcome_ok _ (if ?b then _ else _) => destruct b; [apply V|] end. exact I.
  Qed.

  Lemma variant_known : forall alts, Forall alt_known alts -> known_ok (parse_value_variant alts).
  Proof.
    intros alts HA p HL. pose proof HL as (HN & F & L & _ & P0 & Q1 & Q2). unfold parse_value_variant.
    destruct (first p) as [|i] eqn:EF; [lia|]. destruct (rd_in buf i) as (b & Hb); [lia|]. rewrite (rd_some _ _ _ Hb). cbn [bind].
    replace (S i - 1)%nat with i in * by lia. rewrite Forall_forall in HA.
    destruct (N.eqb_spec b c_quote) as [->|NB].
    - unfold parse_variant_value. destruct (base_map KString 0 alts) as [[j f]|] eqn:EB; [|exact I].
      destruct (base_map_in _ _ _ _ _ EB) as (k' & IN & _). destruct (HA _ IN) as [X _]. cbn [snd] in X.
      eapply outcome_ok_bind; [apply X; [exact HL|now apply Q1]|]. intros [v q] _. exact I.
    - assert (NQ : nth_error buf i <> Some 34) by (rewrite Hb; intro E; injection E as ->; now apply NB). specialize (Q2 NQ).
      destruct (front_ok p) as (c & -> & Hc); [lia|]. rewrite EF in Hc. cbn [bind].
      assert (V : forall k, k <> KString -> outcome_ok (fun _ => True) (parse_variant_value k alts true buf p)).
      { intros k NK. unfold parse_variant_value. destruct (base_map k 0 alts) as [[j f]|] eqn:EB; [|exact I].
        destruct (base_map_in _ _ _ _ _ EB) as (k' & IN & ->). destruct (HA _ IN) as [_ [X|X]]; cbn [fst snd] in X; [congruence|].
        eapply outcome_ok_bind; [apply X; exact HL|]. intros [v q] _. exact I. }
      destruct (c =? c_lbrace); [apply V; discriminate|]. destruct (c =? c_lbrack); [apply V; discriminate|].
      destruct ((c =? c_t) || (c =? c_f)); [apply V; discriminate|].
      destruct (N.eqb_spec c c_quote) as [->|]; [now rewrite Hc in Q2|].
      match goal with |- outcome_ok _ (if ?b then _ else _) => destruct b; [apply V; discriminate|exact I] end.
  Qed.

  Lemma members_one : forall g exact names pos m p locs vs q, parse_members g exact names pos [m] buf p locs = Ok (vs, q) -> exists y, vs = [y].
  Proof.
    intros g exact names pos m p locs vs q E. cbn [parse_members] in E.
    destruct (parse_class_member g exact names pos (m_nullable m) (m_parse m) buf p locs) as [[[v r] l]| | |]; cbn [bind] in E; try discriminate.
    injection E as <- <-. eauto.
  Qed.

  Lemma tag_value : forall g exact m known p v q, parse_value_class g exact [m] known buf p = Ok (v, q) -> exists y, v = VClass [y].
  Proof.
    intros g exact m known p v q E. unfold parse_value_class, parse_json_class in E.
    destruct (has_more p); cbn [ensure bind] in E; try discriminate.
    destruct (trim_left_checked buf p) as [p1| | |]; cbn [bind] in E; try discriminate.
    destruct (is_at buf p1 c_lbrace) as [b| | |]; cbn [bind] in E; try discriminate. destruct b; cbn [ensure bind] in E; try discriminate.
    cbv zeta in E.
    match type of E with context [trim_left_checked buf ?x] => destruct (trim_left_checked buf x) as [p2| | |]; cbn [bind] in E; try discriminate end.
    match type of E with context [parse_members ?a ?b ?c ?d ?e ?f ?g ?h] =>
      destruct (parse_members a b c d e f g h) as [[vs p3]| | |] eqn:EM; cbn [bind] in E; try discriminate end.
    destruct (members_one _ _ _ _ _ _ _ _ _ EM) as (y & ->).
    match type of E with context [class_cleanup_now ?a ?b ?c ?d ?e] => destruct (class_cleanup_now a b c d e) as [p4| | |]; cbn [bind] in E; try discriminate end.
    destruct known.
    - injection E as <- <-. eauto.
    - destruct (trim_left_checked buf p4); cbn [bind] in E; try discriminate. injection E as <- <-. eauto.
  Qed.

  Lemma visit_ok : forall i alts p, Forall parser_ok alts -> inv p -> outcome_ok (fun x => fw p (snd x)) (parse_visit i alts buf p).
  Proof.
    intros i alts p HA HI. unfold parse_visit. destruct (nth_error alts i) as [f|] eqn:E; [|exact I].
    rewrite Forall_forall in HA. eapply outcome_ok_bind; [apply (HA f (nth_error_In _ _ E)); exact HI|]. intros [v q] X. exact X.
  Qed.

  Lemma intrusive_ok : forall g exact m switch alts, c_ex g = ExConstexpr -> parser_ok (m_parse m) -> Forall parser_ok alts ->
    forall p, inv p -> outcome_ok (fun x => fw p (snd x)) (parse_value_variant_intrusive (parse_value_class g exact [m]) switch alts buf p).
  Proof.
    intros g exact m switch alts HX HM' HA p HI. unfold parse_value_variant_intrusive.
    assert (X : outcome_ok (fun x => fw p (snd x)) (parse_value_class g exact [m] false buf p)).
    { apply class_safe; auto. split; auto. }
    destruct (parse_value_class g exact [m] false buf p) as [[v q]| | |] eqn:E; cbn [bind outcome_ok] in *; auto.
    destruct (tag_value _ _ _ _ _ _ _ E) as (y & ->). now apply visit_ok.
  Qed.

  (** ** Containers given a number *)

  Lemma num_start_at : forall p, num_start p -> (last p <= M)%nat -> trim_left_checked buf p = Ok p /\
    is_at buf p c_lbrack = Ok false /\ is_at buf p c_lbrace = Ok false.
  Proof.
    intros p (c & Hc & RC) L. assert (SP : is_space c = false).
    { rewrite is_space_spec by (eapply is_bytes_nth; eauto). unfold is_dig in RC. lia. }
    split.
    - unfold trim_left_checked. cbn [trim_loop]. destruct (first p <? last p)%nat; [|cbn [bind]; destruct p; reflexivity].
      rewrite (rd_some _ _ _ Hc). cbn [bind]. rewrite SP. cbn [bind]. destruct p; reflexivity.
    - unfold is_at. destruct (has_more p); [|auto]. unfold front. rewrite (rd_some _ _ _ Hc). cbn [bind].
      unfold c_lbrack, c_lbrace, is_dig in *. replace (c =? 91) with false by lia. replace (c =? 123) with false by lia. auto.
  Qed.

  (** ** Parsers that take at least a byte *)

  Definition on (p q : ps) : Prop := fw p q /\ (first p < first q)%nat.
  Definition strict (f : parser) : Prop := forall p, inv p -> (first p < last p)%nat -> outcome_ok (fun x => on p (snd x)) (f false buf p).

  Lemma on_fw : forall p q r, on p q -> fw q r -> on p r.
  Proof. intros p q r [F L] G. split; [eauto using fw_trans|]. destruct G as (_ & _ & _ & G). lia. Qed.
  Lemma fw_on : forall p q r, fw p q -> on q r -> on p r.
  Proof. intros p q r F [G L]. split; [eauto using fw_trans|]. destruct F as (_ & _ & _ & F). lia. Qed.
  Lemma on_step : forall p j, (first p < j <= M)%nat -> on p (set_first p j).
  Proof. intros p j H. split; [apply fw_first; lia|]. cbn [first set_first]. lia. Qed.
  Lemma on_class : forall p q a b, on (set_class p a b) q -> on p (set_class q (cfirst p) (clast p)).
  Proof. intros p q a b [F L]. split; [eapply fw_class; exact F|exact L]. Qed.

  Lemma digits_strict : forall w rc p, (first p < last p <= M)%nat -> (forall c, nth_error buf (first p) = Some c -> is_dig c) ->
    outcome_ok (fun x => fst x < 2^64 /\ exists j, snd x = set_first p j /\ (first p < j <= last p)%nat) (unsigned_parser_not_known w rc buf p).
  Proof.
    intros w rc p HL HD. destruct (digit_run (last p - first p) buf (first p) (last p) eq_refl) as (ds & D & S & R); [lia|].
    destruct ds as [|d ds].
    - exfalso. cbn [length] in R. rewrite Nat.add_0_r in R. destruct R as [_ [R|(c & Hc & NC)]]; [lia|]. apply NC. now apply HD.
    - rewrite unsigned_parser_not_known_acc with (ds := d :: ds); auto; try lia; [|discriminate]. cbv zeta. destruct R as [R _].
      set (n := length (d :: ds)) in *. assert (0 < n)%nat by (unfold n; cbn [length]; lia).
      assert (A : u64 (dec_val (d :: ds)) < 2^64) by (apply N.mod_lt; discriminate).
      assert (J : exists j, set_first p (first p + n) = set_first p j /\ (first p < j <= last p)%nat)
        by (exists (first p + n)%nat; split; [reflexivity|lia]).
      destruct rc; [|exact (conj (cast_u_lt _ _ A) J)].
      eapply outcome_ok_bind; [apply outcome_ok_ensure with (Q := fun _ => True); auto|]. intros _ _.
      eapply outcome_ok_bind; [apply narrow_safe; exact A|]. intros v HV. exact (conj HV J).
  Qed.

  Lemma is_number_is : forall c, c < 256 -> is_number c = true -> is_dig c.
  Proof.
    intros c HC H. unfold is_number, c_0 in H. unfold is_dig. change (2^32) with 4294967296 in H.
    destruct (N.le_gt_cases 48 c) as [L|L].
    - replace (c + 4294967296 - 48) with (c - 48 + 1 * 4294967296) in H by lia. rewrite N.mod_add in H by discriminate.
      rewrite N.mod_small in H by lia. lia.
    - rewrite N.mod_small in H by lia. lia.
  Qed.

  Lemma unsigned_strict : forall w rc, strict (fun known buf p => '(v, p) <- parse_value_unsigned known LSNever w rc buf p ;; Ok (VInt (Z.of_N v), p)).
  Proof.
    intros w rc p HI LP. pose proof (inv_last p HI) as L. unfold parse_value_unsigned. cbn [skip_quote_when_literal_as_string bind].
    destruct (has_more p); cbn [ensure bind outcome_ok]; auto.
    destruct (front_ok p) as (c & -> & Hc); [lia|]. cbn [bind]. destruct (is_number c) eqn:EN; cbn [ensure bind outcome_ok]; auto.
    assert (XC : forall d, nth_error buf (first p) = Some d -> is_dig d).
    { intros d Hd. rewrite Hc in Hd. injection Hd as <-. apply is_number_is; [eapply is_bytes_nth; eauto|exact EN]. }
    pose proof (digits_strict w rc p ltac:(lia) XC) as X. unfold unsigned_parser.
    destruct (unsigned_parser_not_known w rc buf p) as [[v q]| | |]; cbn [bind outcome_ok fst snd] in *; auto.
    destruct X as (_ & j & -> & LJ). destruct (end_of_item_safe (set_first p j)) as (b & ->); [exact L|]. cbn [bind].
    destruct b; cbn [ensure bind outcome_ok]; auto. cbn [snd]. apply on_step. lia.
  Qed.

  Lemma signed_strict : forall w rc, safe_width w = true ->
    strict (fun known buf p => '(v, p) <- parse_value_signed known LSNever w rc buf p ;; Ok (VInt v, p)).
  Proof.
    intros w rc W p HI LP. pose proof (inv_last p HI) as L. unfold parse_value_signed.
    destruct (has_more p) eqn:HMo; cbn [ensure bind outcome_ok]; auto.
    assert (V : outcome_ok (fun x => (fst x = 1 \/ fst x = -1)%Z /\ (snd x = remove_prefix p 1 \/ snd x = p /\ forall c, nth_error buf (first p) = Some c -> is_dig c))
       (validate_signed_first buf p)).
    { unfold validate_signed_first. rewrite HMo. cbn [ensure bind].
      destruct (front_ok p) as (c & -> & Hc); [lia|]. cbn [bind]. destruct (c =? c_minus); [cbn [outcome_ok fst snd]; auto|].
      destruct ((49 <=? c) && (c <=? 57)) eqn:E1.
      { cbn [outcome_ok fst snd]. split; [auto|]. right. split; [reflexivity|]. intros d Hd. rewrite Hc in Hd. injection Hd as <-. unfold is_dig. lia. }
      destruct (N.eqb_spec c c_0) as [->|]; [|exact I].
      assert (Z0 : forall d, nth_error buf (first p) = Some d -> is_dig d).
      { intros d Hd. rewrite Hc in Hd. injection Hd as <-. unfold is_dig, c_0. lia. }
      destruct (Nat.ltb_spec 1 (ps_size p)) as [L2|L2]; [|cbn [outcome_ok fst snd]; auto].
      unfold ps_size in L2. destruct (rd_in buf (first p + 1)) as (d & Hd); [lia|]. rewrite (rd_some _ _ _ Hd). cbn [bind].
      eapply outcome_ok_bind; [apply outcome_ok_ensure with (Q := fun _ => True); auto|]. intros _ _. cbn [outcome_ok fst snd]. auto. }
    destruct (validate_signed_first buf p) as [[s q]| | |]; cbn [bind outcome_ok fst snd] in *; auto. destruct V as (S & V).
    assert (X : outcome_ok (fun x => fst x < 2^64 /\ on p (snd x)) (unsigned_parser_not_known w rc buf q)).
    { destruct V as [->|[-> D]].
      - pose proof (unsigned_not_known_safe w rc buf (remove_prefix p 1) HB ltac:(cbn [last remove_prefix set_first]; lia)) as X.
        eapply outcome_ok_weaken; [|exact X]. intros [v q] (U & k & E & LK). cbn [fst snd] in *. split; [exact U|]. rewrite E.
        cbn [first last remove_prefix set_first] in LK. apply (on_step p k). lia.
      - eapply outcome_ok_weaken; [|apply (digits_strict w rc p); [lia|exact D]]. intros [v q] (U & k & E & LK). cbn [fst snd] in *. split; [exact U|]. rewrite E.
        apply on_step. lia. }
    unfold unsigned_parser.
    destruct (unsigned_parser_not_known w rc buf q) as [[v r]| | |]; cbn [bind outcome_ok fst snd] in *; auto.
    destruct X as (U & F). destruct (to_signed_safe w v s W U S) as (x & ->). cbn [bind skip_quote_when_literal_as_string].
    destruct (trim_fw _ (inv_fw _ _ HI (proj1 F))) as (t & -> & F2 & _). cbn [bind].
    pose proof (on_fw _ _ _ F F2) as FT.
    destruct (end_of_item_safe t) as (b & ->); [destruct FT as ((-> & _) & _); exact L|]. cbn [bind].
    destruct b; cbn [ensure bind outcome_ok]; auto.
  Qed.

  Lemma bool_strict : strict parse_value_bool.
  Proof.
    intros p HI _. pose proof (inv_last p HI) as L. unfold parse_value_bool.
    assert (FIN : forall n b, (0 < n)%nat -> (first p + n <= last p)%nat ->
      outcome_ok (fun x => on p (snd x)) (p <- trim_left_checked buf (remove_prefix p n) ;; e <- end_of_item_ok buf p ;;
        _ <- ensure e InvalidEndOfValue ;; Ok (VBool b, p))).
    { intros n b L0 LN. assert (F : on p (remove_prefix p n)) by (apply on_step; lia).
      destruct (trim_fw _ (inv_fw _ _ HI (proj1 F))) as (q & -> & F2 & _). cbn [bind].
      destruct (end_of_item_safe q) as (e & ->); [destruct F2 as (-> & _); exact L|]. cbn [bind].
      destruct e; cbn [ensure bind outcome_ok]; auto. cbn [snd]. eauto using on_fw. }
    destruct (starts_with_safe p [116; 114; 117; 101] L) as (b & -> & HT). cbn [bind]. destruct b.
    - cbn [bind]. apply FIN; [lia|]. destruct (HT eq_refl) as [X|X]; [exact X|discriminate].
    - destruct (starts_with_safe p [102; 97; 108; 115; 101] L) as (b & -> & HF). cbn [bind]. destruct b; [|exact I].
      cbn [bind]. apply FIN; [lia|]. destruct (HF eq_refl) as [X|X]; [exact X|discriminate].
  Qed.

  Lemma map_strict : forall g f, c_ex g = ExConstexpr -> parser_ok f -> forall p, inv p -> outcome_ok (fun x => on p (snd x)) (parse_value_keyvalue g f buf p).
  Proof.
    intros g f HX HF p HI. unfold parse_value_keyvalue.
    destruct (is_at_ok p c_lbrace HI) as (b & -> & HA). cbn [bind]. destruct b; cbn [ensure bind outcome_ok]; auto.
    destruct (HA eq_refl) as [L1 _]. pose proof (inv_last _ HI) as LL1.
    assert (F2 : on p (remove_prefix p 1)) by (apply on_step; lia). pose proof (inv_fw _ _ HI (proj1 F2)) as I2.
    destruct (trim_fw _ I2) as (p3 & -> & F3 & _). cbn [bind]. pose proof (inv_fw _ _ I2 F3) as I3.
    assert (FP : on p p3) by eauto using on_fw.
    destruct (ps_empty p3) eqn:EE; cbn [negb ensure bind outcome_ok]; auto.
    assert (L3 : (first p3 < last p3)%nat) by (destruct I3 as (X & _); unfold ps_empty in EE; rewrite X in EE; cbn [orb] in EE; lia).
    pose proof (inv_last _ I3) as LL3.
    destruct (front_ok p3) as (c & -> & Hc); [lia|]. cbn [bind].
    assert (END : forall q, inv q -> on p q -> (first q < last q)%nat -> exists r, trim_left_checked buf (remove_prefix q 1) = Ok r /\ on p r).
    { intros q IQ FQ LQ. pose proof (inv_last _ IQ). assert (FR : fw q (remove_prefix q 1)) by (apply fw_first; lia).
      destruct (trim_fw _ (inv_fw _ _ IQ FR)) as (r & E & FR2 & _). exists r. split; [exact E|]. eauto using on_fw, fw_trans. }
    destruct (c =? c_rbrace).
    { destruct (END p3 I3 FP L3) as (r & -> & FR). exact FR. }
    eapply outcome_ok_bind with (P := fun x => on p (fst x)); [|intros [q vs] X; exact X].
    apply (loop_inv _ (fun s => M - first (fst s))%nat (fun s => on p (fst s))); [|exact FP|cbn [fst]; lia].
    intros [q kvs] FQ. cbn [fst] in *. pose proof (inv_fw _ _ HI (proj1 FQ)) as IQ. unfold map_body. rewrite HX.
    destruct (has_more q) eqn:HQ; cbn [ensure bind outcome_ok]; auto.
    eapply outcome_ok_bind; [apply string_ok; exact IQ|]. intros [k r] [FR PR]. cbn [snd] in *. pose proof (inv_fw _ _ IQ FR) as IR.
    eapply outcome_ok_bind; [apply name_end_fw; exact IR|]. intros s [FS PS]. pose proof (inv_fw _ _ IR FS) as IS.
    eapply outcome_ok_bind; [apply HF; exact IS|]. intros [v t] FT. cbn [snd] in FT. pose proof (inv_fw _ _ IS FT) as IT.
    destruct (move_fw t IT) as (u & -> & FU & _ & _). cbn [bind]. pose proof (inv_fw _ _ IT FU) as IU. pose proof (inv_last _ IU) as LU.
    unfold has_more at 1. destruct (Nat.ltb_spec (first u) (last u)) as [L|L]; cbn [bind ensure outcome_ok]; auto.
    destruct (front_ok u) as (d & -> & Hd); [lia|]. cbn [bind].
    assert (FPU : on p u) by (eapply on_fw; [exact FQ|]; eapply fw_trans; [exact FR|]; eapply fw_trans; [exact FS|]; eapply fw_trans; eauto).
    destruct (d =? c_rbrace).
    - destruct (END u IU FPU L) as (w & -> & FW). exact FW.
    - cbn [outcome_ok fst]. split; [exact FPU|]. destruct FT as (_ & _ & _ & X1), FU as (_ & _ & _ & X2). lia.
  Qed.

  Lemma tuple_strict : forall g exact fs, c_ex g = ExConstexpr -> (exact = true -> z = true) -> Forall parser_ok fs ->
    forall p, inv p -> outcome_ok (fun x => on p (snd x)) (parse_tuple g exact fs buf p).
  Proof.
    intros g exact fs HX HE HF p HI. unfold parse_tuple. rewrite HX.
    destruct (trim_fw p HI) as (p1 & -> & F1 & _). cbn [bind]. pose proof (inv_fw _ _ HI F1) as I1.
    destruct (is_at_ok p1 c_lbrack I1) as (b & -> & HA). cbn [bind]. destruct b; cbn [ensure bind outcome_ok]; auto.
    destruct (HA eq_refl) as [L1 _]. pose proof (inv_last _ I1) as LL1. cbv zeta.
    set (p2 := set_class p1 (Some (first p1)) (Some (last p1))).
    assert (I2 : inv p2) by now apply inv_class.
    assert (F3 : on p2 (remove_prefix p2 1)) by (apply on_step; unfold p2; cbn [first set_class]; lia). pose proof (inv_fw _ _ I2 (proj1 F3)) as I3.
    destruct (move_fw _ I3) as (p4 & -> & F4 & _ & _). cbn [bind]. pose proof (inv_fw _ _ I3 F4) as I4.
    destruct (trim_fw _ I4) as (p5 & -> & F5 & _). cbn [bind]. pose proof (inv_fw _ _ I4 F5) as I5.
    eapply outcome_ok_bind; [apply elements_ok_safe; [exact HF|exact I5]|]. intros [vs p6] F6. cbn [snd] in F6. pose proof (inv_fw _ _ I5 F6) as I6.
    assert (FF : on p2 p6) by (eapply on_fw; [exact F3|]; eapply fw_trans; [exact F4|]; eapply fw_trans; eauto).
    assert (FIN : forall q, fw p6 q -> on p (set_class q (cfirst p1) (clast p1))).
    { intros q FQ. eapply fw_on; [exact F1|]. eapply on_class. change (set_class p1 (Some (first p1)) (Some (last p1))) with p2. eauto using on_fw. }
    cbn [fst snd]. eapply outcome_ok_bind with (P := fun q => fw p6 q); [|intros q FQ; exact (FIN q FQ)].
    destruct exact.
    - specialize (HE eq_refl). assert (ZM : (M < length buf)%nat) by (apply nth_error_Some; rewrite (HZ HE); discriminate).
      destruct (trim_fw _ I6) as (p7 & -> & F7 & _). cbn [bind]. pose proof (inv_fw _ _ I6 F7) as I7.
      destruct (front_ok p7) as (c & -> & Hc); [destruct I7 as (_ & X & _); lia|]. cbn [bind].
      destruct (N.eqb_spec c c_rbrack) as [->|]; cbn [ensure bind outcome_ok]; auto.
      assert (LQ : (first p7 < M)%nat).
      { destruct I7 as (_ & X & _). destruct (Nat.eq_dec (first p7) M) as [E|]; [|lia]. rewrite E, (HZ HE) in Hc. discriminate. }
      assert (FR : fw p7 (remove_prefix p7 1)) by (apply fw_first; lia).
      destruct (trim_fw _ (inv_fw _ _ I7 FR)) as (r & -> & FR2 & _). cbn [outcome_ok]. eauto using fw_trans.
    - unfold skip_array. destruct (Nat.le_gt_cases (first p6) (last p6)) as [L|L].
      + eapply outcome_ok_bind; [apply bracket_fw; [exact I6|exact L]|]. intros [r q] [FQ _]. exact FQ.
      + unfold skip_bracketed. cbn [andb]. destruct (Nat.leb_spec (last p6) (first p6)); [|lia]. cbn [bind outcome_ok]. now apply fw_refl.
  Qed.

  Lemma class_strict : forall g exact ms known, c_ex g = ExConstexpr -> members_ok ms ->
    forall p, inv p -> outcome_ok (fun x => on p (snd x)) (parse_value_class g exact ms known buf p).
  Proof.
    intros g exact ms known HX HMs p HI. unfold parse_value_class. destruct (has_more p); cbn [ensure bind outcome_ok]; auto.
    eapply outcome_ok_bind with (P := fun x => on p (snd x)).
    - unfold parse_json_class.
      destruct (trim_fw p HI) as (p1 & -> & F1 & _). cbn [bind]. pose proof (inv_fw _ _ HI F1) as I1.
      destruct (is_at_ok p1 c_lbrace I1) as (b & -> & HA). cbn [bind]. destruct b; cbn [ensure bind outcome_ok]; auto.
      destruct (HA eq_refl) as [L1 _]. pose proof (inv_last _ I1) as LL1. cbv zeta.
      set (p2 := set_class p1 (Some (first p1)) (Some (last p1))).
      assert (I2 : inv p2) by now apply inv_class.
      assert (F3 : on p2 (remove_prefix p2 1)) by (apply on_step; unfold p2; cbn [first set_class]; lia). pose proof (inv_fw _ _ I2 (proj1 F3)) as I3.
      destruct (trim_fw _ I3) as (p4 & -> & F4 & _). cbn [bind]. pose proof (inv_fw _ _ I3 F4) as I4.
      eapply outcome_ok_bind; [apply all_members_safe; [exact HX|exact I4|exact HMs|apply no_locs_nth]|].
      intros [vs p5] F5. cbn [snd] in F5. pose proof (inv_fw _ _ I4 F5) as I5.
      eapply outcome_ok_bind; [apply cleanup_safe; [exact HX|exact I5]|]. intros q (r & FR & ->). cbn [outcome_ok fst snd].
      eapply fw_on; [exact F1|]. eapply on_class. change (set_class p1 (Some (first p1)) (Some (last p1))) with p2.
      eapply on_fw; [exact F3|]. eapply fw_trans; [exact F4|]. eauto using fw_trans.
    - intros [v q] FQ. cbn [snd] in FQ. destruct known; [exact FQ|]. pose proof (inv_fw _ _ HI (proj1 FQ)) as IQ.
      destruct (trim_fw _ IQ) as (r & -> & FR & _). cbn [bind outcome_ok snd]. eauto using on_fw.
  Qed.

  (** Literals and any value *)
  Lemma literal_strict : forall p, inv p ->
    outcome_ok (fun x => on p (snd x) /\ (last (fst x) <= M)%nat) (skip_literal CNone true buf p).
  Proof.
    intros p HI. pose proof HI as (HN & HF & cl & HC & HCL). unfold skip_literal, has_more.
    destruct (Nat.ltb_spec (first p) (last p)) as [L|L]; cbn [ensure bind outcome_ok]; auto. cbv zeta.
    change (fun x => on p (snd x) /\ (last (fst x) <= M)%nat) with
      (fun x : ps * ps => on (set_counter p 0) (snd x) /\ (last (fst x) <= M)%nat).
    assert (L0 : (first (set_counter p 0) < last (set_counter p 0) <= M)%nat) by (cbn [first last set_counter]; lia).
    set (p0 := set_counter p 0) in *. clearbody p0. clear p HI HN HF cl HC HCL L. rename p0 into p.
    destruct (front_ok p) as (c & -> & Hc); [lia|]. cbn [bind].
    assert (BOO : forall rest r v, outcome_ok (fun x => on p (snd x) /\ (last (fst x) <= M)%nat) (skip_bool CNone true rest r v buf p)).
    { intros rest r v. eapply outcome_ok_weaken; [|apply skip_bool_safe; lia]. intros [x q] (_ & E & G & R). cbn [fst snd] in *.
      split; [rewrite E; apply on_step; lia|]. rewrite R. cbn [last set_counter set_last]. lia. }
    destruct (c =? c_t); [apply BOO|]. destruct (c =? c_f); [apply BOO|]. destruct (c =? c_n).
    { eapply outcome_ok_weaken; [|apply skip_null_safe; lia]. intros [x q] (_ & E & G & R). cbn [fst snd] in *.
      split; [rewrite E; apply on_step; lia|]. rewrite R. cbn [last null_of]. lia. }
    destruct ((c =? c_minus) || ((48 <=? c) && (c <=? 57))) eqn:EN; [|cbn; auto].
    pose proof (skip_number_safe buf p HB ltac:(lia)) as X.
    destruct (skip_number true buf p) as [[r q]| | |]; cbn [outcome_ok fst snd] in *; auto.
    destruct X as (t & _ & _ & G & -> & R1 & R2 & PT). specialize (PT c Hc ltac:(unfold c_minus, is_dig in *; lia)).
    cbn [first set_first]. split; [apply on_step; lia|lia].
  Qed.

  Lemma any_strict : forall g keep p, c_ex g = ExConstexpr -> inv p ->
    outcome_ok (fun x => on p (snd x)) (skip_value CNone true (c_ex g) (c_excl g) keep buf p).
  Proof.
    intros g keep p HX HI. pose proof HI as (HN & HF & cl & HC & HCL). unfold skip_value, has_more. rewrite HX.
    destruct (Nat.ltb_spec (first p) (last p)) as [L|L]; cbn [ensure bind outcome_ok]; auto. cbv zeta.
    pose proof (literal_strict p HI) as LT. unfold skip_literal, has_more in LT. destruct (Nat.ltb_spec (first p) (last p)) as [_|L2]; [|lia].
    cbn [ensure bind outcome_ok] in LT. cbv zeta in LT.
    assert (FC : forall x, on (set_counter p 0) x -> on p x) by (intros x H; exact H).
    assert (I0 : inv (set_counter p 0)) by exact HI. assert (L0 : (first (set_counter p 0) < last (set_counter p 0))%nat) by exact L.
    destruct (front_ok (set_counter p 0)) as (c & EC & Hc); [cbn [first set_counter]; lia|]. rewrite EC in *. cbn [bind] in *.
    destruct (N.eqb_spec c c_quote) as [->|NQ].
    { pose proof (string_fw (c_excl g) (set_counter p 0) I0 L0) as X. unfold skip_string in *.
      destruct (ps_empty (set_counter p 0)) eqn:EE; [unfold ps_empty in EE; cbn [isnull set_counter first last] in EE, L0; rewrite HN in EE; cbn [orb] in EE; lia|].
      rewrite EC in *. cbn [bind] in *. change (c_quote =? c_quote) with true in *. cbn [ensure bind] in *.
      destruct (has_more _); cbn [ensure bind outcome_ok] in *; auto.
      destruct (skip_string_nq _ _ _ _ _) as [[r q]| | |]; cbn [bind outcome_ok fst snd] in *; auto.
      destruct X as (F & G & _). apply FC. split; [exact F|exact G]. }
    assert (BRK : forall obj, c = left_of obj -> outcome_ok (fun x => on p (snd x)) (skip_bracketed CNone true ExConstexpr obj buf (set_counter p 0))).
    { intros obj ->. pose proof (bracket_fw obj (set_counter p 0) I0 ltac:(lia)) as X.
      pose proof (skip_bracketed_safe ExConstexpr obj buf (set_counter p 0) HB ltac:(cbn [first last set_counter]; lia)) as Y.
      destruct (skip_bracketed CNone true ExConstexpr obj buf (set_counter p 0)) as [[r q]| | |]; cbn [outcome_ok fst snd] in *; auto.
      destruct X as (F & B & _). destruct Y as (_ & _ & _ & _ & Y). destruct (Y L0 Hc) as [Y1 _]. apply FC. split; [exact F|exact Y1]. }
    destruct (N.eqb_spec c c_lbrack) as [->|]; [apply (BRK false); reflexivity|].
    destruct (N.eqb_spec c c_lbrace) as [->|]; [apply (BRK true); reflexivity|].
    eapply outcome_ok_weaken; [|exact LT]. intros x [X _]. auto.
  Qed.

  Lemma custom_strict : forall g k, c_ex g = ExConstexpr -> (k = CuAny -> z = true) -> strict (parse_value_custom g k).
  Proof.
    intros g k HX HK p HI LP. unfold parse_value_custom.
    assert (STR : outcome_ok (fun x => on p (snd x) /\ (last (fst x) <= M)%nat) (skip_string true (c_ex g) (c_excl g) false buf p)).
    { rewrite HX. eapply outcome_ok_weaken; [|apply string_fw; auto]. intros [r q] (F & G & RF & RQ & RS & R1 & _). cbn [fst snd] in *. split; [split; auto|lia]. }
    eapply outcome_ok_bind with (P := fun x => on p (snd x) /\ (last (fst x) <= M)%nat).
    - destruct k.
      + exact STR.
      + now apply literal_strict.
      + specialize (HK eq_refl). destruct (front_ok p) as (c & -> & _); [pose proof (inv_last p HI); lia|]. cbn [bind]. destruct (c =? c_quote).
        * eapply outcome_ok_bind; [exact STR|]. intros [r q] [F G]. exact (conj F G).
        * pose proof (any_fw g p HX HI) as X. pose proof (any_strict g false p HX HI) as Y. unfold skip_val in *.
          destruct (skip_value CNone true (c_ex g) (c_excl g) false buf p) as [[r q]| | |]; cbn [outcome_ok fst snd] in *; auto. destruct X as [_ X]. auto.
    - intros [r q] [F G]. cbn [fst snd] in *. apply custom_text; auto.
  Qed.

  Lemma intrusive_strict : forall g exact m switch alts, c_ex g = ExConstexpr -> parser_ok (m_parse m) -> Forall strict alts ->
    forall p, inv p -> (first p < last p)%nat -> outcome_ok (fun x => on p (snd x)) (parse_value_variant_intrusive (parse_value_class g exact [m]) switch alts buf p).
  Proof.
    intros g exact m switch alts HX HM' HA p HI LP. unfold parse_value_variant_intrusive.
    assert (X : outcome_ok (fun x => fw p (snd x)) (parse_value_class g exact [m] false buf p)).
    { apply class_safe; auto. split; auto. }
    destruct (parse_value_class g exact [m] false buf p) as [[v q]| | |] eqn:E; cbn [bind outcome_ok] in *; auto.
    destruct (tag_value _ _ _ _ _ _ _ E) as (y & ->). unfold parse_visit. destruct (nth_error alts (switch y)) as [f|] eqn:EN; [|exact I].
    rewrite Forall_forall in HA. eapply outcome_ok_bind; [apply (HA f (nth_error_In _ _ EN)); auto|]. intros [w r] X'. exact X'.
  Qed.
End Safe.

(** ** Types *)

(** Types whose parser stays inside: no 32 bit signed integers (their conversion may
    overflow, C04), strings only as the first member or in a variant
    (C58_other_kind_refuted); arrays, exact tuples, variants and custom types that
    take anything only if a zero byte follows the document ([z]). *)
Fixpoint string_type (t : ty) : bool := match t with TStr => true | TNullable t => string_type t | _ => false end.
Fixpoint member_type (t : ty) : bool :=
  match t with
  | TStr => false
  | TNullable t => member_type t
  | TVariant alts => forallb (fun t => string_type t || member_type t) alts
  | _ => true
  end.
Fixpoint safe_type (z : bool) (t : ty) : bool :=
  match t with
  | TUInt _ _ | TBool | TStr => true
  | TInt w _ => safe_width w
  | TNullable t => safe_type z t
  | TArr t => z && safe_type z t
  | TMap t => safe_type z t
  | TClass _ [] => true
  | TClass _ (m :: ms) => safe_type z (snd m) && forallb (fun m => safe_type z (snd m) && member_type (snd m)) ms
  | TTuple exact ts => (z || negb exact) && forallb (safe_type z) ts
  | TKvArr _ _ tk _ tv => z && safe_type z tk && safe_type z tv && member_type tv
  | TCustom k => match k with CuAny => z | _ => true end
  | TVariant alts => z && forallb (safe_type z) alts
  | TIntrusive _ _ t _ alts => safe_type z t && forallb (safe_type z) alts
  end.

Lemma ty_nested : forall P : ty -> Prop,
  (forall w rc, P (TUInt w rc)) -> (forall w rc, P (TInt w rc)) -> P TBool -> P TStr ->
  (forall t, P t -> P (TNullable t)) -> (forall t, P t -> P (TArr t)) -> (forall t, P t -> P (TMap t)) ->
  (forall e ms, Forall (fun m => P (snd m)) ms -> P (TClass e ms)) -> (forall e ts, Forall P ts -> P (TTuple e ts)) ->
  (forall e kn tk vn tv, P tk -> P tv -> P (TKvArr e kn tk vn tv)) -> (forall k, P (TCustom k)) -> (forall ts, Forall P ts -> P (TVariant ts)) ->
  (forall e tag t sw ts, P t -> Forall P ts -> P (TIntrusive e tag t sw ts)) -> forall t, P t.
Proof.
  intros P H1 H2 H3 H4 H5 H6 H7 H8 H9 H10 H11 H12 H13. fix IH 1. intros [w rc|w rc| | |t|t|t|e ms|e ts|e kn tk vn tv|k|ts|e tag t sw ts].
  - apply H1.
  - apply H2.
  - apply H3.
  - apply H4.
  - apply H5, IH.
  - apply H6, IH.
  - apply H7, IH.
  - apply H8. induction ms as [|m ms IHm]; constructor; [apply IH|exact IHm].
  - apply H9. induction ts as [|t ts IHt]; constructor; [apply IH|exact IHt].
  - apply H10; apply IH.
  - apply H11.
  - apply H12. induction ts as [|t ts IHt]; constructor; [apply IH|exact IHt].
  - apply H13; [apply IH|]. induction ts as [|t' ts IHt]; constructor; [apply IH|exact IHt].
Qed.

Theorem parse_value_safe : forall buf M z, is_bytes buf -> (M <= length buf)%nat -> (z = true -> nth_error buf M = Some 0) ->
  N.of_nat (length buf) < 2^31 -> forall g, c_ex g = ExConstexpr ->
  forall t, safe_type z t = true -> parser_ok buf M (parse_value g t) /\ (member_type t = true -> known_ok buf M (parse_value g t)) /\
    (string_type t = true -> known_str buf M (parse_value g t)).
Proof.
  intros buf M z HB HM HZ H31 g HX.
  assert (CONT : forall f : ps -> res (val * ps), (forall p, inv M p -> outcome_ok (fun x => fw M p (snd x)) (f p)) ->
     (forall p, trim_left_checked buf p = Ok p -> is_at buf p c_lbrack = Ok false -> is_at buf p c_lbrace = Ok false -> exists e, f p = Err e) ->
     known_ok buf M (fun known buf' p => f p)).
  { intros f H1 H2 p (HN & HF & HL & [HI|HS] & _).
    - eapply outcome_ok_weaken; [|apply H1; exact HI]. auto.
    - destruct (num_start_at buf HB M HM z H31 p HS HL) as (A & B & C). destruct (H2 p A B C) as (e & ->). exact I. }
  assert (CLS : forall e ms, members_ok buf M ms -> known_ok buf M (parse_value_class g e ms)).
  { intros e ms HMs p HL. apply (CONT (fun p => parse_value_class g e ms true buf p)); [| |exact HL].
    + intros q IQ. apply (class_safe buf HB M HM z H31); auto.
    + intros q E1 _ E2. unfold parse_value_class. destruct (has_more q); [|eexists; reflexivity]. cbn [ensure bind].
      unfold parse_json_class. rewrite E1. cbn [bind]. rewrite E2. eexists; reflexivity. }
  induction t using ty_nested; intros HS; cbn [safe_type] in HS.
  - split; [exact (unsigned_ok buf HB M HM z w rc)|]. split; [|discriminate]. intros _. exact (unsigned_known_ok buf M HM z w rc).
  - split; [exact (signed_ok buf HB M HM z w rc HS)|]. split; [|discriminate]. intros _. exact (signed_known_ok buf M HM z w rc HS).
  - split; [exact (bool_ok buf M HM z)|]. split; [|discriminate]. intros _. exact (bool_known_ok buf M).
  - split; [|split; [discriminate|]].
    + intros p HI. cbn [parse_value]. rewrite HX. eapply outcome_ok_bind; [apply (string_ok buf HB M HM z H31); exact HI|].
      intros [s q] [F _]. exact F.
    + intros _. exact (string_known_str buf M HM z H31 g HX).
  - destruct (IHt HS) as (A & B & C). split; [exact (null_ok buf M HM z _ A)|]. split.
    + intros MT. exact (null_known_ok buf M _ (B MT)).
    + intros MT. exact (null_known_str buf M _ (C MT)).
  - apply andb_prop in HS as [Z HS]. destruct (IHt HS) as (A & B & _).
    assert (X : forall p, inv M p -> outcome_ok (fun x => fw M p (snd x)) (parse_value_array (parse_value g t) buf p)) by (eapply array_ok_safe; eauto).
    split; [exact X|]. split; [|discriminate]. intros _. apply (CONT (fun p => parse_value_array (parse_value g t) buf p) X).
    intros p E1 E2 _. unfold parse_value_array. rewrite E1. cbn [bind]. rewrite E2. eexists; reflexivity.
  - destruct (IHt HS) as (A & B & _).
    assert (X : forall p, inv M p -> outcome_ok (fun x => fw M p (snd x)) (parse_value_keyvalue g (parse_value g t) buf p)) by (eapply map_ok_safe; eauto).
    split; [exact X|]. split; [|discriminate]. intros _. apply (CONT (fun p => parse_value_keyvalue g (parse_value g t) buf p) X).
    intros p E1 _ E2. unfold parse_value_keyvalue. rewrite E2. eexists; reflexivity.
  - assert (MO : members_ok buf M (map (fun m => mkmember (fst m) (is_nullable (snd m)) (parse_value g (snd m))) ms)).
    { destruct ms as [|m ms]; [exact I|]. apply andb_prop in HS as [S1 HS]. inversion H as [|? ? H1 H2]; subst. split; [exact (proj1 (H1 S1))|].
      rewrite forallb_forall in HS. rewrite Forall_forall in *. intros m' IN. apply in_map_iff in IN as ([n t] & <- & IN).
      specialize (HS _ IN). specialize (H2 _ IN). cbn [snd] in *. apply andb_prop in HS as [S2 S3]. destruct (H2 S2) as (A & B & _). split; auto. }
    split; [intros p HI; apply (class_safe buf HB M HM z H31); auto|]. split; [|discriminate]. intros _. exact (CLS _ _ MO).
  - apply andb_prop in HS as [Z HS].
    assert (MO : Forall (parser_ok buf M) (map (parse_value g) ts)).
    { rewrite forallb_forall in HS. rewrite Forall_forall in *. intros f IN. apply in_map_iff in IN as (t & <- & IN). destruct (H _ IN (HS _ IN)); auto. }
    assert (X : forall p, inv M p -> outcome_ok (fun x => fw M p (snd x)) (parse_tuple g e (map (parse_value g) ts) buf p)).
    { eapply tuple_ok_safe; eauto. intros ->. cbn [negb] in Z. now rewrite orb_false_r in Z. }
    split; [exact X|]. split; [|discriminate]. intros _. apply (CONT (fun p => parse_tuple g e (map (parse_value g) ts) buf p) X).
    intros p E1 E2 _. unfold parse_tuple. rewrite E1. cbn [bind]. rewrite E2. eexists; reflexivity.
  - apply andb_prop in HS as [HS MV]. apply andb_prop in HS as [HS S2]. apply andb_prop in HS as [Z S1].
    destruct (IHt1 S1) as (A1 & _). destruct (IHt2 S2) as (A2 & B2 & _).
    set (cp := parse_value_class g e [mkmember kn (is_nullable t1) (parse_value g t1); mkmember vn (is_nullable t2) (parse_value g t2)]).
    assert (MO : parser_ok buf M cp).
    { intros p HI. apply (class_safe buf HB M HM z H31); auto. split; [exact A1|]. constructor; [|constructor]. split; [exact A2|exact (B2 MV)]. }
    assert (X : forall p, inv M p -> outcome_ok (fun x => fw M p (snd x)) (parse_value_keyvalue_array cp buf p)) by (eapply kv_array_ok_safe; eauto).
    split; [exact X|]. split; [|discriminate]. intros _. apply (CONT (fun p => parse_value_keyvalue_array cp buf p) X).
    intros p E1 E2 _. unfold parse_value_keyvalue_array. rewrite E2. eexists; reflexivity.
  - split; [apply (custom_ok buf HB M HM z HZ H31 g k HX); intros ->; exact HS|]. split; [|discriminate].
    intros _. exact (custom_known_ok buf M HM z H31 g k).
  - apply andb_prop in HS as [Z HS]. rewrite forallb_forall in HS. rewrite Forall_forall in H.
    split; [|split; [|discriminate]].
    + apply (variant_ok buf M HM z HZ H31); [exact Z|]. rewrite Forall_forall. intros a IN. apply in_map_iff in IN as (t & <- & IN).
      exact (proj1 (H _ IN (HS _ IN))).
    + intros MT. cbn [member_type] in MT. rewrite forallb_forall in MT. apply (variant_known buf M HM z H31). rewrite Forall_forall.
      intros a IN. apply in_map_iff in IN as (t & <- & IN). destruct (H _ IN (HS _ IN)) as (_ & B & C). specialize (MT _ IN).
      apply orb_prop in MT. unfold alt_known. cbn [fst snd]. destruct MT as [ST|MT].
      * split; [exact (C ST)|]. left. clear - ST. induction t; try discriminate; [reflexivity|]. cbn [base_kind]. apply IHt. exact ST.
      * split; [exact (known_ok_str buf M _ (B MT))|]. right. exact (B MT).
  - apply andb_prop in HS as [S1 HS]. rewrite forallb_forall in HS. rewrite Forall_forall in H. destruct (IHt S1) as (A & _).
    set (m := mkmember tag (is_nullable t) (parse_value g t)).
    assert (MO : Forall (parser_ok buf M) (map (parse_value g) ts)).
    { rewrite Forall_forall. intros f IN. apply in_map_iff in IN as (t' & <- & IN). exact (proj1 (H _ IN (HS _ IN))). }
    assert (X : forall p, inv M p -> outcome_ok (fun x => fw M p (snd x))
       (parse_value_variant_intrusive (parse_value_class g e [m]) sw (map (parse_value g) ts) buf p)).
    { intros p HI. apply (intrusive_ok buf HB M HM z H31); auto. }
    split; [exact X|]. split; [|discriminate]. intros _.
    apply (CONT (fun p => parse_value_variant_intrusive (parse_value_class g e [m]) sw (map (parse_value g) ts) buf p) X).
    intros q E1 _ E2. unfold parse_value_variant_intrusive, parse_value_class. destruct (has_more q); [|eexists; reflexivity]. cbn [ensure bind].
    unfold parse_json_class. rewrite E1. cbn [bind]. rewrite E2. eexists; reflexivity.
Qed.
