(** Properties C01-C06: integers. *)
From Coq Require Import String.
From Coq Require Import List NArith ZArith Bool Lia Arith.
From Verif Require Import Base Mem PolicyModel IntModel IntSerModel SpecNum SpecText
  IntProofs IntSerProofs IntValueProofs Dec.
Import ListNotations.
Local Open Scope N_scope.

(** A number stands at the parser's position: either the element was already
    delimited ([known = true], [last] is its end) or the data goes on. *)
Definition unsigned_here (known : bool) (buf : list N) (p : ps) (ds : list N) : Prop :=
  is_bytes buf /\ (last p <= length buf)%nat /\
  ds <> [] /\ digits ds /\ sub_at buf (first p) ds /\
  if known then last p = (first p + length ds)%nat
  else value_ends_at buf (first p + length ds) (last p).

(** Same for a signed number; [j] is the first non-whitespace position after
    it, where the parser stops. *)
Definition signed_here (known : bool) (buf : list N) (p : ps) (t : list N) (j : nat) : Prop :=
  is_bytes buf /\ (last p <= length buf)%nat /\ sub_at buf (first p) t /\
  let e := (first p + length t)%nat in
  if known then last p = e /\ j = e
  else value_ends_at buf e (last p) /\ ws_run buf e j (last p) /\ value_ends_at buf j (last p).

(** ** C01 *)
Theorem C01_unsigned_exact : forall known buf p ds, unsigned_here known buf p ds ->
  dec_val ds < 2^64 ->
  parse_value_unsigned known LSNever 64 false buf p
    = Ok (dec_val ds, set_first p (first p + length ds)).
Proof.
  intros known buf p ds (HB & HL & NE & HD & HS & HE) LT.
  rewrite parse_value_unsigned_gen with (ds := ds) by assumption.
  rewrite unsigned_parser_exact with (ds := ds); try assumption.
  - rewrite !(N.mod_small (dec_val ds)) by assumption. reflexivity.
  - destruct known; [exact HE|]. now apply value_ends_no_digit.
Qed.

(** Narrower unsigned types, value in range. *)
Theorem C01_unsigned_exact_width : forall known w buf p ds, unsigned_here known buf p ds ->
  int_width w -> dec_val ds < 2^w ->
  parse_value_unsigned known LSNever w false buf p
    = Ok (dec_val ds, set_first p (first p + length ds)).
Proof.
  intros known w buf p ds (HB & HL & NE & HD & HS & HE) W LT.
  rewrite parse_value_unsigned_gen with (ds := ds) by assumption.
  pose proof (width_le w W).
  rewrite unsigned_parser_exact with (ds := ds); try assumption.
  - rewrite (N.mod_small (dec_val ds) (2^64)) by (eapply N.lt_le_trans; eassumption). now rewrite N.mod_small.
  - destruct known; [exact HE|]. now apply value_ends_no_digit.
Qed.

Definition ex_doc : list N := bytes "[18446744073709551615 , 7]".
Example C01_nonvacuous : unsigned_here false ex_doc (new_ps 1 26) (bytes "18446744073709551615")
  /\ dec_val (bytes "18446744073709551615") < 2^64.
Proof.
  split; [|reflexivity]. unfold unsigned_here, value_ends_at. ex.
  right. exists 32. split; [reflexivity|]. left; left; reflexivity.
Qed.
Example C01_run : parse_value_unsigned false LSNever 64 false ex_doc (new_ps 1 26)
  = Ok (18446744073709551615, mkps 21 26 (Some 1%nat) (Some 26%nat) 0 false).
Proof. vm_compute. reflexivity. Qed.

(** ** C02: false of the code *)
Definition no_wrong_unsigned (known : bool) : Prop :=
  forall w buf p ds v p', int_width w -> unsigned_here known buf p ds ->
  parse_value_unsigned known LSNever w true buf p = Ok (v, p') -> v = dec_val ds.

(* 2^64 parses to 0 with CheckForNarrowing, into uint64_t and uint8_t alike *)
Theorem C02_unsigned_range_check_refuted :
  exists w buf p ds p', int_width w /\ unsigned_here false buf p ds /\
    parse_value_unsigned false LSNever w true buf p = Ok (0, p') /\ dec_val ds = 2^64.
Proof.
  exists 8, (bytes "18446744073709551616"), (new_ps 0 20), (bytes "18446744073709551616"). eexists.
  split; [now left|]. split; [|split; vm_compute; reflexivity].
  unfold unsigned_here, value_ends_at. ex. now left.
Qed.

(* in the delimited case any number of digits is accepted *)
Theorem C02_unsigned_range_check_known_refuted :
  exists w buf p ds p', int_width w /\ unsigned_here true buf p ds /\
    parse_value_unsigned true LSNever w true buf p = Ok (10, p') /\
    dec_val ds = 2^64 * 1000000000000 + 10.
Proof.
  exists 8, (bytes "18446744073709551616000000000010"), (new_ps 0 32), (bytes "18446744073709551616000000000010"). eexists.
  split; [now left|]. split; [|split; vm_compute; reflexivity].
  unfold unsigned_here. ex.
Qed.

(** Partial: correct for every numeral below 2^64.  Missing: numerals from
    2^64 on, where it is false. *)
Theorem C02_unsigned_range_check_partial : forall known w buf p ds,
  unsigned_here known buf p ds -> int_width w -> dec_val ds < 2^64 ->
  parse_value_unsigned known LSNever w true buf p =
    if (dec_val ds <? 2^w) && (known || (length ds <=? 20)%nat)
    then Ok (dec_val ds, set_first p (first p + length ds)) else Err NumberOutOfRange.
Proof.
  intros known w buf p ds (HB & HL & NE & HD & HS & HE) W LT.
  rewrite parse_value_unsigned_gen with (ds := ds) by assumption.
  apply unsigned_parser_checked; try assumption.
  destruct known; [exact HE|]. now apply value_ends_no_digit.
Qed.

(** ** C04 *)

Lemma canonical_int_split : forall z t, canonical_int z t ->
  exists neg ds, t = sign_text neg ++ ds /\ canonical ds /\ signed_val neg ds = z.
Proof.
  intros z t H. unfold canonical_int in H. destruct (Z.ltb_spec z 0).
  - destruct H as (ds & -> & HC & HV). exists true, ds. split; [reflexivity|split; [assumption|]]. unfold signed_val. rewrite HV. lia.
  - destruct H as (HC & HV). exists false, t. split; [reflexivity|split; assumption].
Qed.

(** Partial: every value of every width except the minimum of the 32-bit type.
    Missing: INT32_MIN, where the code has undefined behaviour (below). *)
Theorem C04_signed_exact_partial : forall known w rc z t buf p j,
  int_width w -> in_range w z -> ~ (w = 32 /\ z = (-2^31)%Z) ->
  canonical_int z t -> signed_here known buf p t j ->
  parse_value_signed known LSNever w rc buf p = Ok (z, set_first p j).
Proof.
  intros known w rc z t buf p j W R X HC (HB & HL & HS & HE).
  destruct (canonical_int_split _ _ HC) as (neg & ds & -> & HC' & <-).
  rewrite parse_value_signed_exact with (neg := neg) (ds := ds) (j := j); try assumption.
  - destruct known; [|reflexivity]. destruct HE as [_ ->]. reflexivity.
  - destruct known; [apply HE|exact HE].
Qed.

Example C04_nonvacuous : signed_here false (bytes "[-128 ]") (new_ps 1 7) (bytes "-128") 6
  /\ canonical_int (-128) (bytes "-128") /\ in_range 8 (-128).
Proof.
  split; [|split].
  - unfold signed_here, value_ends_at. ex.
    + right. exists 32. split; [reflexivity|]. left; now left.
    + exists [32]. ex.
      * repeat constructor.
      * right. exists 93. split; reflexivity.
    + right. exists 93. split; [reflexivity|]. right; right; now left.
  - exists (bytes "128"). ex.
  - ex.
Qed.

(* INT32_MIN: [-1 * INT_MIN] *)
Theorem C04_signed_exact_refuted :
  exists buf p t j, canonical_int (-2147483648) t /\ in_range 32 (-2147483648) /\
    signed_here false buf p t j /\ parse_value_signed false LSNever 32 false buf p = UB.
Proof.
  exists (bytes "-2147483648"), (new_ps 0 11), (bytes "-2147483648"), 11%nat.
  split; [|split; [|split]].
  - exists (bytes "2147483648"). ex.
  - ex.
  - unfold signed_here, value_ends_at. ex; try (now left).
    exists []. ex; [constructor|now left].
  - vm_compute. reflexivity.
Qed.

(** ** C03: false of the code *)
Theorem C03_signed_range_check_refuted :
  exists buf p t j p', canonical_int 200 t /\ signed_here false buf p t j /\
    parse_value_signed false LSNever 8 true buf p = Ok ((-56)%Z, p').
Proof.
  exists (bytes "200"), (new_ps 0 3), (bytes "200"), 3%nat. eexists.
  split; [|split].
  - unfold canonical_int. cbn [Z.ltb Z.compare]. ex.
  - unfold signed_here, value_ends_at. ex; try (now left).
    exists []. ex; [constructor|now left].
  - vm_compute. reflexivity.
Qed.

(** Partial: a result is right unless the magnitude lies between the signed
    maximum and the unsigned maximum of the type; a magnitude at or above the
    unsigned maximum of a narrow type is rejected.  Missing: magnitudes between
    the two maxima and magnitudes from 2^64 on, where it is false. *)
Theorem C03_signed_range_check_partial : forall known w z t buf p j,
  int_width w -> canonical_int z t -> signed_here known buf p t j ->
  ~ (w = 32 /\ z = (-2^31)%Z) ->
  (Z.abs z < 2^64)%Z ->
  (in_range w z -> parse_value_signed known LSNever w true buf p = Ok (z, set_first p j)) /\
  ((2 ^ Z.of_N w <= Z.abs z)%Z -> parse_value_signed known LSNever w true buf p = Err NumberOutOfRange).
Proof.
  intros known w z t buf p j W HC HH X LT. split.
  - intros R. eapply C04_signed_exact_partial; eassumption.
  - intros GE. destruct HH as (HB & HL & HS & HE).
    destruct (canonical_int_split _ _ HC) as (neg & ds & -> & HC' & <-).
    rewrite parse_value_signed_gen with (neg := neg) (ds := ds) (j := j); try assumption.
    2:{ destruct known; [apply HE|exact HE]. }
    assert (A : Z.abs (signed_val neg ds) = Z.of_N (dec_val ds)) by (unfold signed_val; destruct neg; lia).
    rewrite A in *.
    assert (GE' : 2^w <= dec_val ds).
    { change 2%Z with (Z.of_N 2) in GE. rewrite <- N2Z.inj_pow in GE. lia. }
    apply sub_at_app in HS as [_ HS].
    rewrite unsigned_parser_checked with (ds := ds); try assumption; try apply HC'.
    + replace (dec_val ds <? 2^w) with false by (symmetry; apply N.ltb_ge; exact GE'). reflexivity.
    + unfold num_at. rewrite app_length in HE. cbn [first set_first last].
      rewrite <- Nat.add_assoc. destruct known; [apply HE|]. apply value_ends_no_digit, HE.
    + change (2^64)%Z with (Z.of_N (2^64)) in LT. lia.
Qed.

Example C03_nonvacuous : exists buf p t j, canonical_int (-300) t /\ signed_here false buf p t j.
Proof.
  exists (bytes "-300"), (new_ps 0 4), (bytes "-300"), 4%nat. split.
  - exists (bytes "300"). ex.
  - unfold signed_here, value_ends_at. ex; try (now left).
    exists []. ex; [constructor|now left].
Qed.

(** ** C05 *)
Theorem C05_unsigned_canonical : forall w v, int_width w -> v < 2^w ->
  exists t, to_json_string_unsigned LSNever w v = Ok t /\ canonical t /\ dec_val t = v.
Proof.
  intros w v W H. destruct (unsigned_out LSNever w v W H) as (t & HC & HV & E).
  exists t. cbn [quote_if app] in E. rewrite app_nil_r in E. auto.
Qed.
Theorem C05_signed_canonical : forall w z, int_width w -> in_range w z ->
  exists t, to_json_string_signed LSNever w z = Ok t /\ canonical_int z t.
Proof.
  intros w v W H. destruct (signed_out LSNever w v W H) as (t & HC & E).
  exists t. cbn [quote_if app] in E. rewrite app_nil_r in E. auto.
Qed.
(** With LiteralAsString the same text between quotes. *)
Theorem C05_quoted : forall w, int_width w ->
  (forall v, v < 2^w -> exists t, canonical t /\ dec_val t = v /\
     to_json_string_unsigned LSAlways w v = Ok ([34] ++ t ++ [34])) /\
  (forall z, in_range w z -> exists t, canonical_int z t /\
     to_json_string_signed LSAlways w z = Ok ([34] ++ t ++ [34])).
Proof.
  intros w W. split; intros v H.
  - apply (unsigned_out LSAlways w v W H).
  - apply (signed_out LSAlways w v W H).
Qed.
Example C05_run : to_json_string_signed LSNever 64 (-9223372036854775808) = Ok (bytes "-9223372036854775808")
  /\ int_width 64 /\ in_range 64 (-9223372036854775808).
Proof. ex. Qed.

(** ** C06 *)
Theorem C06_unsigned_round_trip : forall known rc w v t buf p,
  int_width w -> v < 2^w -> to_json_string_unsigned LSNever w v = Ok t ->
  unsigned_here known buf p t ->
  parse_value_unsigned known LSNever w rc buf p = Ok (v, set_first p (first p + length t)).
Proof.
  intros known rc w v t buf p W HV E HH.
  destruct (C05_unsigned_canonical w v W HV) as (t' & E' & HC & <-). rewrite E in E'. injection E' as <-.
  destruct rc; [|apply C01_unsigned_exact_width; assumption].
  pose proof (width_le w W) as WL.
  rewrite C02_unsigned_range_check_partial with (ds := t); try assumption.
  2:{ eapply N.lt_le_trans; eassumption. }
  replace (dec_val t <? 2^w) with true by (symmetry; apply N.ltb_lt; exact HV).
  replace (known || (length t <=? 20)%nat) with true; [reflexivity|].
  symmetry. apply orb_true_iff. right. apply Nat.leb_le.
  assert (v20 : dec_val t < 10^20).
  { eapply N.lt_le_trans; [exact HV|]. eapply N.le_trans; [exact WL|]. vm_compute; discriminate. }
  clear - HC v20. destruct HC as (HD & NE & HZ). destruct t as [|d r]; [congruence|].
  destruct (N.eq_dec d 48) as [->|ND]; [rewrite (HZ r eq_refl); cbn; lia|].
  inversion HD; subst. unfold is_dig in *.
  destruct (Nat.leb_spec (length (d :: r)) 20) as [|GT]; auto. exfalso.
  change (d :: r) with ([d] ++ r) in v20. rewrite dec_val_app in v20.
  change (dec_val [d]) with (0 * 10 + (d - 48)) in v20. cbn [length] in GT.
  assert (10 ^ 20 <= 10 ^ N.of_nat (length r)) by (apply N.pow_le_mono_r; lia).
  change (10^20) with 100000000000000000000 in *.
  remember (10 ^ N.of_nat (length r)) as k. nia.
Qed.

(** Partial: INT32_MIN missing, see C04. *)
Theorem C06_signed_round_trip_partial : forall known rc w z t buf p j,
  int_width w -> in_range w z -> ~ (w = 32 /\ z = (-2^31)%Z) ->
  to_json_string_signed LSNever w z = Ok t ->
  signed_here known buf p t j ->
  parse_value_signed known LSNever w rc buf p = Ok (z, set_first p j).
Proof.
  intros known rc w z t buf p j W R X E HH.
  destruct (C05_signed_canonical w z W R) as (t' & E' & HC). rewrite E in E'. injection E' as <-.
  eapply C04_signed_exact_partial; eassumption.
Qed.

Theorem C06_signed_round_trip_refuted :
  exists t, to_json_string_signed LSNever 32 (-2147483648) = Ok t /\
    parse_value_signed false LSNever 32 false t (new_ps 0 (length t)) = UB.
Proof. exists (bytes "-2147483648"). split; vm_compute; reflexivity. Qed.

(** Quoted unsigned numbers do not survive at the end of the data: the parser
    insists on a byte after the closing quote. *)
Theorem C06_quoted_round_trip_refuted :
  exists t, to_json_string_unsigned LSAlways 64 7 = Ok t /\
    parse_value_unsigned false LSAlways 64 false t (new_ps 0 (length t)) = Err UnexpectedEndOfData.
Proof. exists [34; 55; 34]. split; vm_compute; reflexivity. Qed.

Print Assumptions C01_unsigned_exact.
Print Assumptions C01_unsigned_exact_width.
Print Assumptions C02_unsigned_range_check_refuted.
Print Assumptions C02_unsigned_range_check_known_refuted.
Print Assumptions C02_unsigned_range_check_partial.
Print Assumptions C03_signed_range_check_refuted.
Print Assumptions C03_signed_range_check_partial.
Print Assumptions C04_signed_exact_partial.
Print Assumptions C04_signed_exact_refuted.
Print Assumptions C05_unsigned_canonical.
Print Assumptions C05_signed_canonical.
Print Assumptions C05_quoted.
Print Assumptions C06_unsigned_round_trip.
Print Assumptions C06_signed_round_trip_partial.
Print Assumptions C06_signed_round_trip_refuted.
Print Assumptions C06_quoted_round_trip_refuted.
