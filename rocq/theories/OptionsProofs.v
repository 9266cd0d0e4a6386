(** Bit-level facts about the option words of OptionsModel.v. *)
From Coq Require Import List NArith Bool Lia Arith.
From Coq Require Import ZifyBool ZifyNat ZifyN.
From Verif Require Import Base Bits OptionsModel.
Import ListNotations.
Local Open Scope N_scope.

Definition sum (ws : list N) : N := fold_right N.add 0 ws.

Lemma start_firstn : forall ws idx,
  option_bits_start ws idx = sum (firstn idx ws).
Proof.
  unfold option_bits_start. induction ws as [|w ws IH]; intros idx.
  - now rewrite firstn_nil.
  - cbn [length seq]. rewrite <- seq_shift, map_cons, map_map.
    destruct idx as [|i].
    + cbn [firstn]. cbn [fold_right]. unfold do_step at 1. cbn [Nat.leb].
      rewrite (map_ext _ (fun _ => 0)) by (intros; reflexivity).
      clear. induction (seq 0 (length ws)) as [|a l IHl]; cbn in *; [reflexivity|].
      exact IHl.
    + cbn [firstn]. unfold sum. cbn [fold_right]. fold (sum (firstn i ws)).
      rewrite <- IH.
      f_equal.
Qed.

Lemma sum_app : forall a b, sum (a ++ b) = sum a + sum b.
Proof. induction a; intros; cbn; [reflexivity|]. unfold sum in *. rewrite IHa. lia. Qed.

Lemma field_split : forall ws i, (i < length ws)%nat ->
  sum ws = sum (firstn i ws) + nth i ws 0 + sum (skipn (S i) ws).
Proof.
  induction ws as [|w ws IH]; intros [|i] L; cbn [length] in L; try lia.
  - cbn. lia.
  - specialize (IH i ltac:(lia)). change (skipn (S (S i)) (w :: ws)) with (skipn (S i) ws).
    cbn [firstn nth]. unfold sum in *. cbn [fold_right]. lia.
Qed.

Lemma field_end : forall ws i, (i < length ws)%nat ->
  option_bits_start ws i + width ws i <= sum ws.
Proof.
  intros. rewrite start_firstn. unfold width. pose proof (field_split ws i H). lia.
Qed.

Lemma sum_firstn_le : forall ws i j, (i <= j)%nat ->
  sum (firstn i ws) <= sum (firstn j ws).
Proof.
  induction ws as [|w ws IH]; intros i j L.
  - rewrite !firstn_nil. lia.
  - destruct i, j; cbn [firstn]; unfold sum in *; cbn [fold_right]; try lia.
    specialize (IH i j). lia.
Qed.

Lemma field_order : forall ws i j, (i < j)%nat -> (j < length ws)%nat ->
  option_bits_start ws i + width ws i <= option_bits_start ws j.
Proof.
  intros ws i j L H. rewrite !start_firstn. unfold width.
  assert (E : sum (firstn (S i) ws) = sum (firstn i ws) + nth i ws 0).
  { assert (Hi : (i < length ws)%nat) by lia. clear -Hi. revert i Hi.
    induction ws as [|w ws IH]; intros [|i] L; cbn [length] in L; try lia.
    - cbn. lia.
    - specialize (IH i ltac:(lia)). cbn [firstn nth] in *. unfold sum in *.
      cbn [fold_right] in *. lia. }
  rewrite <- E. apply sum_firstn_le. lia.
Qed.

Lemma ones_ok : forall w, w < 32 -> ones w = Ok (N.ones w).
Proof.
  intros w H. unfold ones, shl32, word_bits.
  replace (w <? 32) with true by lia. cbn [bind]. f_equal.
  rewrite N.shiftl_1_l.
  assert (2 ^ w < 2 ^ 32) by (apply N.pow_lt_mono_r; lia).
  assert (0 < 2 ^ w) by (pose proof (N.pow_nonzero 2 w); lia).
  rewrite (N.mod_small (2 ^ w)) by assumption.
  rewrite N.ones_equiv.
  replace (2 ^ w + (2 ^ 32 - 1)) with (N.pred (2 ^ w) + 1 * 2 ^ 32) by lia.
  rewrite N.mod_add by (apply N.pow_nonzero; lia). apply N.mod_small. lia.
Qed.

Lemma bit_field : forall e w n,
  N.testbit (N.land e (N.ones w)) n = if n <? w then N.testbit e n else false.
Proof.
  intros. rewrite N.land_spec. destruct (N.ltb_spec n w).
  - rewrite N.ones_spec_low by assumption. apply andb_true_r.
  - rewrite N.ones_spec_high by assumption. apply andb_false_r.
Qed.

Lemma shl_bits : forall x s n, s < 32 -> x < 2 ^ (32 - s) ->
  exists y, shl32 x s = Ok y /\ y = x * 2 ^ s /\ y < 2 ^ 32 /\
  (N.testbit y n = if n <? s then false else N.testbit x (n - s)).
Proof.
  intros x s n Hs Hx. unfold shl32, word_bits.
  replace (s <? 32) with true by lia.
  assert (B : x * 2 ^ s < 2 ^ 32).
  { replace 32 with (32 - s + s) by lia. rewrite N.pow_add_r.
    apply N.mul_lt_mono_pos_r; [|assumption]. pose proof (N.pow_nonzero 2 s); lia. }
  exists (N.shiftl x s). rewrite N.mod_small by (rewrite N.shiftl_mul_pow2; exact B).
  split; [reflexivity|]. rewrite <- N.shiftl_mul_pow2 in *.
  split; [reflexivity|]. split; [exact B|].
  destruct (N.ltb_spec n s).
  - now apply N.shiftl_spec_low.
  - apply N.shiftl_spec_high'. assumption.
Qed.

Lemma land_ones_lt : forall e w, N.land e (N.ones w) < 2 ^ w.
Proof.
  intros. rewrite N.land_ones. apply N.mod_lt. apply N.pow_nonzero. lia.
Qed.

Lemma pow_room : forall x w s, x < 2 ^ w -> s + w <= 32 -> x < 2 ^ (32 - s).
Proof.
  intros. eapply N.lt_le_trans; [eassumption|]. apply N.pow_le_mono_r; lia.
Qed.

Lemma set1_bits : forall ws v i e, sum ws < 32 -> v < 2 ^ 32 ->
  (i < length ws)%nat ->
  exists v', set_bits1 ws v i e = Ok v' /\ v' < 2 ^ 32 /\
  forall n, N.testbit v' n =
    if (option_bits_start ws i <=? n) &&
       (n <? option_bits_start ws i + width ws i)
    then N.testbit e (n - option_bits_start ws i) else N.testbit v n.
Proof.
  intros ws v i e HS Hv Hi. pose proof (field_end ws i Hi) as FE.
  set (s := option_bits_start ws i) in *. set (w := width ws i) in *.
  unfold set_bits1. fold s w. rewrite ones_ok by lia. cbn [bind].
  assert (R1 : N.land e (N.ones w) < 2 ^ (32 - s))
    by (apply (pow_room _ w); [apply land_ones_lt|lia]).
  assert (R2 : N.ones w < 2 ^ (32 - s)).
  { apply (pow_room _ w); [|lia]. rewrite N.ones_equiv.
    pose proof (N.pow_nonzero 2 w). lia. }
  destruct (shl_bits _ s 0 ltac:(lia) R1) as [a [Ea [Va [La _]]]].
  destruct (shl_bits _ s 0 ltac:(lia) R2) as [m [Em [Vm [Lm _]]]].
  rewrite Ea, Em. cbn [bind].
  eexists. split; [reflexivity|].
  split. { apply lor_lt; [apply land_lt; assumption|assumption]. }
  intros n. rewrite N.lor_spec, N.land_spec.
  destruct (shl_bits _ s n ltac:(lia) R1) as [a' [Ea' [_ [_ Ba]]]].
  destruct (shl_bits _ s n ltac:(lia) R2) as [m' [Em' [_ [_ Bm]]]].
  rewrite Ea in Ea'. injection Ea' as <-. rewrite Em in Em'. injection Em' as <-.
  unfold not32, word_bits.
  destruct (N.ltb_spec n 32) as [Ln|Ln].
  - rewrite N.lnot_spec_low by assumption. rewrite Ba, Bm, bit_field.
    destruct (N.ltb_spec n s) as [L1|L1].
    + replace (s <=? n) with false by lia. cbn.
      now rewrite andb_true_r, orb_false_r.
    + replace (s <=? n) with true by lia. cbn [andb].
      destruct (N.ltb_spec n (s + w)) as [L2|L2].
      * replace (n - s <? w) with true by lia.
        rewrite N.ones_spec_low by lia. cbn. now rewrite andb_false_r.
      * replace (n - s <? w) with false by lia.
        rewrite N.ones_spec_high by lia. cbn. now rewrite andb_true_r, orb_false_r.
  - rewrite (testbit_high 32 v n Hv Ln). cbn [andb orb].
    rewrite (testbit_high 32 a n La Ln).
    replace (n <? s + w) with false by lia. now rewrite andb_false_r.
Qed.

Lemma get_ok : forall ws v i, sum ws < 32 -> (i < length ws)%nat ->
  exists r, get_bits_for ws v i = Ok r /\
  forall n, N.testbit r n =
    if n <? width ws i then N.testbit v (n + option_bits_start ws i) else false.
Proof.
  intros ws v i HS Hi. pose proof (field_end ws i Hi) as FE.
  unfold get_bits_for. rewrite ones_ok by lia. cbn [bind]. unfold shr32, word_bits.
  replace (option_bits_start ws i <? 32) with true by lia.
  eexists. split; [reflexivity|]. intros n. rewrite N.shiftr_spec', bit_field.
  destruct (N.ltb_spec n (width ws i)).
  - now replace (n + option_bits_start ws i <? option_bits_start ws i + width ws i)
      with true by lia.
  - now replace (n + option_bits_start ws i <? option_bits_start ws i + width ws i)
      with false by lia.
Qed.

Lemma get_eq : forall ws v r i, sum ws < 32 -> (i < length ws)%nat ->
  (forall n, N.testbit r n =
    if n <? width ws i then N.testbit v (n + option_bits_start ws i) else false) ->
  get_bits_for ws v i = Ok r.
Proof.
  intros ws v r i HS Hi B. destruct (get_ok ws v i HS Hi) as [r' [E B']].
  rewrite E. f_equal. apply N.bits_inj. intros n. now rewrite B, B'.
Qed.

Lemma set1_get : forall ws v i e, sum ws < 32 -> v < 2 ^ 32 ->
  (i < length ws)%nat ->
  exists v', set_bits1 ws v i e = Ok v' /\ v' < 2 ^ 32 /\
    v' / 2 ^ sum ws = v / 2 ^ sum ws /\
    get_bits_for ws v' i = Ok (e mod 2 ^ width ws i) /\
    forall j, (j < length ws)%nat -> j <> i ->
      get_bits_for ws v' j = get_bits_for ws v j.
Proof.
  intros ws v i e HS Hv Hi.
  destruct (set1_bits ws v i e HS Hv Hi) as [v' [E [L B]]].
  exists v'. split; [exact E|]. split; [exact L|]. split; [|split].
  - rewrite <- !N.shiftr_div_pow2. apply N.bits_inj. intros n.
    rewrite !N.shiftr_spec', B. pose proof (field_end ws i Hi).
    replace (n + sum ws <? option_bits_start ws i + width ws i) with false by lia.
    now rewrite andb_false_r.
  - apply get_eq; [assumption|assumption|]. intros n. rewrite <- N.land_ones, bit_field, B.
    destruct (N.ltb_spec n (width ws i)); [|reflexivity].
    replace (option_bits_start ws i <=? n + option_bits_start ws i) with true by lia.
    replace (n + option_bits_start ws i <? option_bits_start ws i + width ws i)
      with true by lia.
    cbn [andb]. now replace (n + option_bits_start ws i - option_bits_start ws i)
      with n by lia.
  - intros j Hj N. destruct (get_ok ws v j HS Hj) as [r [Er Br]]. rewrite Er.
    apply get_eq; [assumption|assumption|]. intros n. rewrite Br, B.
    destruct (N.ltb_spec n (width ws j)); [|reflexivity].
    destruct (Nat.lt_ge_cases i j) as [Q|Q].
    + pose proof (field_order ws i j Q Hj).
      replace (n + option_bits_start ws j <? option_bits_start ws i + width ws i)
        with false by lia.
      now rewrite andb_false_r.
    + pose proof (field_order ws j i ltac:(lia) Hi).
      replace (option_bits_start ws i <=? n + option_bits_start ws j)
        with false by lia.
      reflexivity.
Qed.

(** The or of the requested bits. *)
Lemma or_bits_ok : forall ws es, sum ws < 32 ->
  (forall i e, In (i, e) es -> (i < length ws)%nat /\ e < 2 ^ width ws i) ->
  exists v, or_bits ws es = Ok v /\ v < 2 ^ 32 /\
  forall j n, (j < length ws)%nat -> n < width ws j ->
    N.testbit v (n + option_bits_start ws j) =
    existsb (fun p => Nat.eqb (fst p) j && N.testbit (snd p) n) es.
Proof.
  intros ws es HS. induction es as [|[i e] es IH]; intros F.
  - exists 0. split; [reflexivity|]. split; [lia|]. intros. rewrite N.bits_0. reflexivity.
  - destruct IH as [v [E [L B]]]. { intros; apply F; now right. }
    destruct (F i e (or_introl eq_refl)) as [Hi He].
    pose proof (field_end ws i Hi) as FE.
    assert (R : e < 2 ^ (32 - option_bits_start ws i))
      by (apply (pow_room _ (width ws i)); [assumption|lia]).
    destruct (N.lt_ge_cases (option_bits_start ws i) 32) as [Ls|Ls]; [|lia].
    cbn [or_bits]. unfold set_bits_for.
    destruct (shl_bits e _ 0 Ls R) as [b [Eb [_ [Lb _]]]]. rewrite Eb, E. cbn [bind].
    eexists. split; [reflexivity|]. split; [apply lor_lt; assumption|].
    intros j n Hj Hn. rewrite N.lor_spec, (B j n Hj Hn). cbn [existsb fst snd].
    f_equal.
    destruct (shl_bits e _ (n + option_bits_start ws j) Ls R) as [b' [Eb' [_ [_ Bb]]]].
    rewrite Eb in Eb'. injection Eb' as <-. rewrite Bb.
    destruct (Nat.eqb_spec i j) as [->|N].
    + replace (n + option_bits_start ws j <? option_bits_start ws j) with false by lia.
      cbn [andb]. f_equal. lia.
    + cbn [andb]. destruct (Nat.lt_ge_cases i j) as [Q|Q].
      * pose proof (field_order ws i j Q Hj).
        replace (n + option_bits_start ws j <? option_bits_start ws i) with false by lia.
        apply (testbit_high (width ws i)); [assumption|lia].
      * pose proof (field_order ws j i ltac:(lia) Hi).
        replace (n + option_bits_start ws j <? option_bits_start ws i) with true by lia.
        reflexivity.
Qed.

Lemma existsb_other : forall j n (es : list (nat * N)),
  ~ In j (map fst es) ->
  existsb (fun p => Nat.eqb (fst p) j && N.testbit (snd p) n) es = false.
Proof.
  induction es as [|[i e] es IH]; intros H; [reflexivity|].
  cbn [existsb fst snd map] in *. destruct (Nat.eqb_spec i j) as [->|N].
  - exfalso; apply H; now left.
  - cbn. apply IH. intros K; apply H; now right.
Qed.

Lemma existsb_one : forall j e n (es : list (nat * N)),
  NoDup (map fst es) -> In (j, e) es ->
  existsb (fun p => Nat.eqb (fst p) j && N.testbit (snd p) n) es = N.testbit e n.
Proof.
  induction es as [|[i x] es IH]; intros ND I; [destruct I|].
  cbn [map fst] in ND. inversion ND as [|? ? NI ND']; subst.
  cbn [existsb fst snd]. destruct I as [I|I].
  - injection I as -> ->. rewrite Nat.eqb_refl, existsb_other by assumption.
    cbn. apply orb_false_r.
  - rewrite (IH ND' I). destruct (Nat.eqb_spec i j) as [->|N]; [|reflexivity].
    exfalso; apply NI. change j with (fst (j, e)). now apply in_map.
Qed.
