(** The 16 byte blocks of the simd mode: the bits of [find_escaped_branchless]
    are the bytes that a backslash escapes. *)
From Coq Require Import List NArith ZArith Bool Lia Arith ZifyBool ZifyNat ZifyN.
From Verif Require Import Base Mem Loop PolicyModel StrScanModel SpecJson StrScanProofs StrScanProofs2.
Import ListNotations.

Definition tb (x : N) (j : nat) : bool := N.testbit x (N.of_nat j).

(** Whether position [j] is escaped, [b] the backslashes, [e] whether the first is *)
Fixpoint esc (b : nat -> bool) (e : bool) (j : nat) : bool :=
  match j with O => e | S j => b j && negb (esc b e j) end.

Lemma esc_ext : forall b b' e n, (forall j, j < n -> b j = b' j) -> esc b e n = esc b' e n.
Proof. intros b b' e. induction n as [|n IH]; intros H; cbn [esc]; [reflexivity|]. rewrite H by lia. rewrite IH; auto. Qed.

Lemma esc_add : forall b e n m, esc b e (n + m) = esc (fun j => b (n + j)) (esc b e n) m.
Proof.
  intros b e n. induction m as [|m IH]; [now rewrite Nat.add_0_r|]. rewrite Nat.add_succ_r. cbn [esc]. now rewrite IH.
Qed.

Lemma tb_land : forall a b j, tb (N.land a b) j = tb a j && tb b j.
Proof. intros. apply N.land_spec. Qed.
Lemma tb_lor : forall a b j, tb (N.lor a b) j = tb a j || tb b j.
Proof. intros. apply N.lor_spec. Qed.
Lemma tb_lxor : forall a b j, tb (N.lxor a b) j = xorb (tb a j) (tb b j).
Proof. intros. apply N.lxor_spec. Qed.

Lemma tb_u32 : forall a j, j < 32 -> tb (u32 a) j = tb a j.
Proof. intros a j H. unfold u32, tb. apply N.mod_pow2_bits_low. lia. Qed.

Lemma tb_not32 : forall a j, (a < 2^32)%N -> j < 32 -> tb (not32 a) j = negb (tb a j).
Proof.
  intros a j HA HJ. unfold not32, tb. change (2^32 - 1)%N with (N.ones 32).
  assert (LG : (N.log2 a < 32)%N).
  { destruct (N.eq_dec a 0) as [->|NZ]; [reflexivity|]. apply N.log2_lt_pow2; [lia|exact HA]. }
  rewrite <- (N.lnot_sub_low a 32) by exact LG. apply N.lnot_spec_low. lia.
Qed.

Lemma tb_shl_0 : forall a, tb (N.shiftl a 1) 0 = false.
Proof. intros a. unfold tb. apply N.shiftl_spec_low. reflexivity. Qed.
Lemma tb_shl_S : forall a j, tb (N.shiftl a 1) (S j) = tb a j.
Proof. intros a j. unfold tb. rewrite N.shiftl_spec_high' by lia. f_equal. lia. Qed.

Lemma tb_even : forall j, j < 16 -> tb 0x55555555 j = Nat.even j.
Proof. intros j H. do 16 (destruct j; [reflexivity|]). lia. Qed.

Lemma tb_low16 : forall j, j < 16 -> tb 0x0000FFFF j = true.
Proof. intros j H. do 16 (destruct j; [reflexivity|]). lia. Qed.

(** The carries of an addition *)
Lemma add_carries : forall a b, exists c, tb c 0 = false /\
  (forall j, tb (a + b) j = xorb (xorb (tb a j) (tb b j)) (tb c j)) /\
  (forall j, tb c (S j) = (tb a j && tb b j) || (tb c j && (tb a j || tb b j))).
Proof.
  intros a b. destruct (N.add_carry_bits a b false) as (c & E & D & Z). cbn [N.b2n] in E. rewrite N.add_0_r in E.
  exists c. split; [exact Z|]. split.
  - intros j. rewrite E. unfold tb. now rewrite !N.lxor_spec, xorb_assoc.
  - intros j. unfold tb. replace (N.of_nat (S j)) with (N.succ (N.of_nat j)) by lia.
    rewrite <- N.div2_bits, D. now rewrite !N.lor_spec, !N.land_spec, N.lor_spec.
Qed.

Lemma small_bits : forall a n, (a < 2^(N.of_nat n))%N -> forall j, n <= j -> tb a j = false.
Proof.
  intros a n H j HJ. destruct (N.eq_dec a 0) as [->|NZ]; [apply N.bits_0|]. apply N.bits_above_log2.
  apply N.log2_lt_pow2 in H; lia.
Qed.

Lemma find_escaped_ok : forall e b, (b < 2^16)%N ->
  let r := find_escaped_branchless (N.b2n e) b in
  fst r = N.b2n (esc (tb b) e 16) /\ (snd r < 2^32)%N /\ forall j, j < 16 -> tb (snd r) j = esc (tb b) e j.
Proof.
  intros e b HB. unfold find_escaped_branchless.
  set (prev := N.b2n e).
  assert (P32 : (prev < 2^32)%N) by (unfold prev; destruct e; cbn; lia).
  assert (TP : forall j, tb prev j = match j with O => e | _ => false end).
  { intros [|j]; unfold prev, tb; destruct e; reflexivity. }
  set (bs := N.land b (not32 prev)).
  assert (TB : forall j, j < 32 -> tb bs j = tb b j && negb (match j with O => e | _ => false end)).
  { intros j HJ. unfold bs. rewrite tb_land, tb_not32, TP by auto. reflexivity. }
  assert (HS : (bs < 2^16)%N).
  { unfold bs. destruct (N.eq_dec (N.land b (not32 prev)) 0) as [->|NZ]; [reflexivity|].
    apply N.log2_lt_pow2; [lia|]. eapply N.le_lt_trans; [apply N.log2_land|].
    destruct (N.eq_dec b 0) as [->|NB]; [now rewrite N.land_0_l in NZ|].
    apply N.log2_lt_pow2 in HB; [|lia]. eapply N.le_lt_trans; [apply N.le_min_l|exact HB]. }
  clearbody bs. set (fe := N.lor (u32 (N.shiftl bs 1)) prev).
  assert (TF : forall j, j < 32 -> tb fe j = match j with O => e | S k => tb bs k end).
  { intros [|j] HJ; unfold fe; rewrite tb_lor, tb_u32, TP by lia; [now rewrite tb_shl_0|]. rewrite tb_shl_S. apply orb_false_r. }
  assert (F32 : (fe < 2^32)%N).
  { destruct (N.eq_dec fe 0) as [->|NZ]; [reflexivity|]. apply N.log2_lt_pow2; [lia|]. unfold fe. rewrite N.log2_lor.
    apply N.max_lub_lt.
    - destruct (N.eq_dec (u32 (N.shiftl bs 1)) 0) as [->|N1]; [reflexivity|]. apply N.log2_lt_pow2; [lia|]. apply N.mod_lt. discriminate.
    - unfold prev. destruct e; reflexivity. }
  clearbody fe. set (odd := N.land (N.land bs (not32 0x55555555)) (not32 fe)).
  assert (TO : forall j, j < 16 -> tb odd j = tb bs j && negb (Nat.even j) && negb (tb fe j)).
  { intros j HJ. unfold odd. rewrite !tb_land, !tb_not32, tb_even by (auto; lia). reflexivity. }
  assert (HO : (odd < 2^16)%N).
  { unfold odd. rewrite <- N.land_assoc. destruct (N.eq_dec (N.land bs (N.land (not32 0x55555555) (not32 fe))) 0) as [->|NZ]; [reflexivity|].
    apply N.log2_lt_pow2; [lia|]. eapply N.le_lt_trans; [apply N.log2_land|].
    destruct (N.eq_dec bs 0) as [->|NB]; [now rewrite N.land_0_l in NZ|].
    apply N.log2_lt_pow2 in HS; [|lia]. eapply N.le_lt_trans; [apply N.le_min_l|exact HS]. }
  clearbody odd.
  assert (RS : u32 (odd + bs) = (odd + bs)%N) by (unfold u32; apply N.mod_small; change (2^16)%N with 65536%N in *; change (2^32)%N with 4294967296%N; lia).
  rewrite RS. set (r := (odd + bs)%N) in *.
  destruct (add_carries odd bs) as (c & C0 & TR & CS). fold r in TR.
  (* the carry and what it says about escapes *)
  assert (INV : forall j, 1 <= j <= 16 -> (tb fe j = false -> esc (tb b) e j = false /\ tb c j = false) /\
    (tb fe j = true -> esc (tb b) e j = xorb (negb (Nat.even j)) (tb c j) /\ tb r (j - 1) = negb (tb c j))).
  { induction j as [|j IH]; intros HJ; [lia|]. replace (S j - 1) with j by lia.
    rewrite (TF (S j)) by lia. rewrite CS, TR. cbn [esc].
    rewrite TO by lia. destruct j as [|j].
    - rewrite (TB 0), (TF 0), C0 by lia. cbn [Nat.even negb]. cbn [esc]. destruct (tb b 0), e; cbn; auto.
    - destruct IH as [IH1 IH2]; [lia|]. assert (BB : tb bs (S j) = tb b (S j)) by (rewrite TB by lia; apply andb_true_r).
      rewrite BB. rewrite (Nat.even_succ (S j)), <- Nat.negb_even.
      destruct (tb fe (S j)) eqn:EF.
      + destruct (IH2 eq_refl) as [E1 _]. rewrite E1. destruct (tb b (S j)), (Nat.even (S j)), (tb c (S j)); cbn; auto; split; intros; try discriminate; auto.
      + destruct (IH1 eq_refl) as [E1 E2]. rewrite E1, E2. destruct (tb b (S j)), (Nat.even (S j)); cbn; auto; split; intros; try discriminate; auto. }
  cbn [fst snd]. split; [|split].
  - (* the carry out of the block *)
    assert (R16 : tb r 16 = esc (tb b) e 16).
    { rewrite TR. rewrite (small_bits odd 16 HO 16), (small_bits bs 16 HS 16) by lia. cbn [xorb].
      destruct (INV 16) as [I1 I2]; [lia|]. destruct (tb fe 16) eqn:EF.
      - destruct (I2 eq_refl) as [-> _]. reflexivity.
      - destruct (I1 eq_refl) as [-> ->]. reflexivity. }
    assert (RL : (N.shiftr r 16 < 2)%N).
    { rewrite N.shiftr_div_pow2. apply N.div_lt_upper_bound; [discriminate|]. unfold r. change (2^16)%N with 65536%N in *. lia. }
    set (e16 := esc (tb b) e 16) in *. clearbody e16. unfold tb in R16. replace (N.of_nat 16) with (0 + 16)%N in R16 by reflexivity. rewrite <- N.shiftr_spec in R16 by lia.
    destruct (N.shiftr r 16) as [|[| |]]; cbn in R16; rewrite <- R16; try reflexivity; lia.
  - destruct (N.eq_dec (N.land (N.lxor 0x55555555 (u32 (N.shiftl (N.land 65535 r) 1))) fe) 0) as [->|NZ]; [reflexivity|].
    apply N.log2_lt_pow2; [lia|]. eapply N.le_lt_trans; [apply N.log2_land|]. eapply N.le_lt_trans; [apply N.le_min_r|].
    destruct (N.eq_dec fe 0) as [->|NF]; [reflexivity|]. apply N.log2_lt_pow2; [lia|exact F32].
  - intros j HJ. rewrite tb_land, tb_lxor, tb_even, tb_u32 by lia. destruct j as [|j].
    + rewrite tb_shl_0, TF by lia. reflexivity.
    + rewrite tb_shl_S, tb_land, tb_low16 by lia. cbn [andb]. destruct (INV (S j)) as [I1 I2]; [lia|]. replace (S j - 1) with j in I2 by lia.
      destruct (tb fe (S j)) eqn:EF.
      * destruct (I2 eq_refl) as [-> ->]. destruct (Nat.even (S j)), (tb c (S j)); reflexivity.
      * destruct (I1 eq_refl) as [-> _]. apply andb_false_r.
Qed.

(** ** Masks of a block *)

Lemma eq_mask_bits : forall c block j, tb (eq_mask c block) j = match nth_error block j with Some x => (x =? c)%N | None => false end.
Proof.
  intros c. induction block as [|x block IH]; intros j; cbn [eq_mask].
  - destruct j; cbn [nth_error]; apply N.bits_0.
  - set (m := eq_mask c block) in *. destruct j as [|j]; cbn [nth_error].
    + unfold tb. change (N.of_nat 0) with 0%N. destruct (x =? c)%N; [rewrite N.add_comm; apply N.testbit_odd_0|rewrite N.add_0_l; apply N.testbit_even_0].
    + rewrite <- IH. unfold tb. replace (N.of_nat (S j)) with (N.succ (N.of_nat j)) by lia.
      destruct (x =? c)%N; [rewrite N.add_comm; apply N.testbit_odd_succ; lia|rewrite N.add_0_l; apply N.testbit_even_succ; lia].
Qed.

Lemma eq_mask_lt : forall c block, (eq_mask c block < 2 ^ N.of_nat (length block))%N.
Proof.
  intros c. induction block as [|x block IH]; cbn [eq_mask length]; [reflexivity|].
  replace (N.of_nat (S (length block))) with (N.succ (N.of_nat (length block))) by lia. rewrite N.pow_succ_r'. destruct (x =? c)%N; lia.
Qed.

Lemma lsb_first : forall q, tb (Npos q) (lsb q) = true /\ forall j, j < lsb q -> tb (Npos q) j = false.
Proof.
  induction q as [q IH|q [IH1 IH2]|]; cbn [lsb]; [split; [reflexivity|lia]| |split; [reflexivity|lia]].
  assert (S1 : forall j, tb (Npos (xO q)) (S j) = tb (Npos q) j).
  { intros j. unfold tb. replace (N.of_nat (S j)) with (N.succ (N.of_nat j)) by lia. change (N.pos (xO q)) with (2 * N.pos q)%N. apply N.testbit_even_succ. lia. }
  split; [now rewrite S1|]. intros [|j] HJ; [reflexivity|]. rewrite S1. apply IH2. lia.
Qed.

Lemma rd_block_at : forall n buf i, i + n <= length buf -> exists block, rd_block buf i n = Ok block /\ length block = n /\
  forall j, j < n -> nth_error block j = nth_error buf (i + j).
Proof.
  induction n as [|n IH]; intros buf i H; cbn [rd_block]; [exists []; repeat split; intros; lia|].
  destruct (rd_in buf i) as (c & Hc); [lia|]. rewrite (rd_some _ _ _ Hc). cbn [bind].
  destruct (IH buf (S i)) as (b & -> & LB & NB); [lia|]. cbn [bind]. exists (c :: b). split; [reflexivity|]. split; [cbn; lia|].
  intros [|j] HJ; cbn [nth_error]; [now rewrite Nat.add_0_r|]. rewrite NB by lia. f_equal. lia.
Qed.

(** ** The text *)

(** Backslashes from a position on *)
Definition slash_at (buf : list N) (i : nat) (j : nat) : bool :=
  match nth_error buf (i + j) with Some x => (x =? 92)%N | None => false end.

Lemma slash_S : forall buf i j, slash_at buf i (S j) = slash_at buf (S i) j.
Proof. intros. unfold slash_at. now rewrite Nat.add_succ_r. Qed.

Lemma esc_start : forall buf i n, esc (slash_at buf i) false (S n) = esc (slash_at buf (S i)) (slash_at buf i 0) n.
Proof.
  intros buf i n. change (S n) with (1 + n). rewrite esc_add. cbn [esc negb]. rewrite andb_true_r. apply esc_ext. intros j _. apply slash_S.
Qed.

(** In the text of a string every quote is escaped, its end is not. *)
Lemma body_esc : forall t, str_body t -> forall buf i, sub_at buf i t ->
  esc (slash_at buf i) false (length t) = false /\
  forall j, j < length t -> nth_error buf (i + j) = Some 34%N -> esc (slash_at buf i) false j = true.
Proof.
  induction 1 as [|c t N1 N2 HB IH|c t HB IH]; intros buf i HS; cbn [length].
  - split; [reflexivity|]. intros j HJ. lia.
  - destruct HS as [S0 S1]. destruct (IH buf (S i) S1) as [IA IB].
    assert (Z : slash_at buf i 0 = false) by (unfold slash_at; rewrite Nat.add_0_r, S0; lia).
    split; [rewrite esc_start, Z; exact IA|]. intros [|j] HJ HQ; [rewrite Nat.add_0_r in HQ; congruence|].
    rewrite esc_start, Z. apply IB; [lia|]. now rewrite Nat.add_succ_r in HQ.
  - destruct HS as [S0 [S1 S2]]. destruct (IH buf (S (S i)) S2) as [IA IB].
    assert (Z : slash_at buf i 0 = true) by (unfold slash_at; rewrite Nat.add_0_r, S0; reflexivity).
    assert (Y : forall n, esc (slash_at buf (S i)) true (S n) = esc (slash_at buf (S (S i))) false n).
    { intros n. change (S n) with (1 + n). rewrite esc_add. cbn [esc negb]. rewrite andb_false_r. apply esc_ext. intros j _. apply slash_S. }
    split; [rewrite esc_start, Z, Y; exact IA|]. intros [|[|j]] HJ HQ.
    + rewrite Nat.add_0_r in HQ. congruence.
    + rewrite esc_start, Z. reflexivity.
    + rewrite esc_start, Z, Y. apply IB; [lia|]. now rewrite !Nat.add_succ_r in HQ.
Qed.

Lemma str_body_rest : forall a b, str_body a -> str_body (a ++ b) -> str_body b.
Proof.
  intros a b HA. induction HA as [|c t N1 N2 HA IH|c t HA IH]; cbn [app]; intros H; auto.
  - inversion H; subst; auto. congruence.
  - inversion H; subst; auto. congruence.
Qed.

(** ** The loops *)

Section Scan.
  Context (buf : list N) (start last : nat) (t : list N).
  Hypothesis HL : last <= length buf.
  Hypothesis HB : str_body t.
  Hypothesis HS : sub_at buf start (t ++ [34%N]).
  Hypothesis HE : start + length t < last.

  Let escaped (j : nat) : bool := esc (slash_at buf start) false j.

  Definition blocks : nat := 16 * ((last - start) / 16).

  (** A block before the end of the string *)
  Lemma simd_block_ok : forall m fe, 16 * m <= length t -> 16 * m + 16 <= last - start ->
    exists fe', simd_block buf last (start + 16 * m, N.b2n (escaped (16 * m)), fe) =
      Ok (if length t <? 16 * m + 16 then inr (inl (start + length t, fe'))
          else inl (start + (16 * m + 16), N.b2n (escaped (16 * m + 16)), fe')).
  Proof.
    intros m fe L1 L2. unfold simd_block. replace (16 <=? last - (start + 16 * m)) with true by lia.
    destruct (rd_block_at 16 buf (start + 16 * m)) as (block & -> & LB & NB); [lia|]. cbn [bind].
    pose proof (eq_mask_lt c_bslash block) as MB. rewrite LB in MB.
    destruct (find_escaped_ok (escaped (16 * m)) (eq_mask c_bslash block) MB) as (F1 & F2 & F3).
    destruct (find_escaped_branchless (N.b2n (escaped (16 * m))) (eq_mask c_bslash block)) as [prev m1]. cbn [fst snd] in F1, F2, F3.
    assert (EB : forall j, j <= 16 -> esc (tb (eq_mask c_bslash block)) (escaped (16 * m)) j = escaped (16 * m + j)).
    { intros j HJ. unfold escaped at 2. rewrite esc_add. apply esc_ext. intros k HK. rewrite eq_mask_bits, NB by lia. unfold slash_at.
      replace (start + 16 * m + k) with (start + (16 * m + k)) by lia. reflexivity. }
    rewrite EB in F1 by lia.
    assert (TQ : forall j, j < 16 -> tb (N.land (eq_mask c_quote block) (not32 m1)) j =
      match nth_error buf (start + (16 * m + j)) with Some x => (x =? 34)%N | None => false end && negb (escaped (16 * m + j))).
    { intros j HJ. rewrite tb_land, tb_not32, F3, EB, eq_mask_bits, NB by (auto; lia). now rewrite Nat.add_assoc. }
    assert (TH : forall j, 16 <= j -> tb (N.land (eq_mask c_quote block) (not32 m1)) j = false).
    { intros j HJ. rewrite tb_land, eq_mask_bits. rewrite (proj2 (nth_error_None block j)) by lia. reflexivity. }
    apply sub_at_app in HS as [ST [SQ _]]. destruct (body_esc t HB buf start ST) as [BE BQ]. fold (escaped (length t)) in BE.
    assert (QN : forall j, j < 16 -> 16 * m + j < length t -> tb (N.land (eq_mask c_quote block) (not32 m1)) j = false).
    { intros j HJ HT. rewrite TQ by auto. destruct (nth_error buf (start + (16 * m + j))) as [x|] eqn:EX; [|reflexivity].
      destruct (N.eqb_spec x 34) as [->|]; [|reflexivity]. unfold escaped. rewrite BQ; auto. }
    set (fe' := match eq_mask c_bslash block with 0%N => fe | N.pos b => if (fe <? 0)%Z then Z.of_nat (lsb b) else fe end).
    exists fe'. destruct (Nat.ltb_spec (length t) (16 * m + 16)) as [LT|GE].
    - assert (Q : tb (N.land (eq_mask c_quote block) (not32 m1)) (length t - 16 * m) = true).
      { rewrite TQ by lia. replace (16 * m + (length t - 16 * m)) with (length t) by lia. rewrite SQ, BE. reflexivity. }
      destruct (N.land (eq_mask c_quote block) (not32 m1)) as [|q]; [unfold tb in Q; rewrite N.bits_0 in Q; discriminate|].
      destruct (lsb_first q) as [LQ1 LQ2].
      assert (EL : lsb q = length t - 16 * m).
      { destruct (Nat.lt_trichotomy (lsb q) (length t - 16 * m)) as [X|[X|X]]; auto.
        - rewrite QN in LQ1 by lia. discriminate.
        - rewrite LQ2 in Q by lia. discriminate. }
      rewrite EL. do 4 f_equal. lia.
    - destruct (N.land (eq_mask c_quote block) (not32 m1)) as [|q].
      + rewrite F1. replace (start + 16 * m + 16) with (start + (16 * m + 16)) by lia. reflexivity.
      + exfalso. destruct (lsb_first q) as [LQ1 _]. destruct (Nat.lt_ge_cases (lsb q) 16) as [X|X]; [rewrite QN in LQ1 by lia|rewrite TH in LQ1 by lia]; discriminate.
  Qed.

  Lemma simd_blocks_ok : forall fuel m fe, 16 * m <= length t -> last - (start + 16 * m) < fuel -> 16 * m <= blocks ->
    exists fe', loop (simd_block buf last) fuel (start + 16 * m, N.b2n (escaped (16 * m)), fe) =
      Ok (if length t <? blocks then inl (start + length t, fe') else inr (start + blocks, fe')).
  Proof.
    assert (DM : blocks <= last - start < blocks + 16).
    { unfold blocks. pose proof (Nat.div_mod (last - start) 16 ltac:(lia)). pose proof (Nat.mod_upper_bound (last - start) 16 ltac:(lia)). lia. }
    induction fuel as [|fuel IH]; intros m fe L1 LF LM; [lia|]. cbn [loop].
    destruct (Nat.eq_dec (16 * m) blocks) as [EB|NB].
    - unfold simd_block at 1. replace (16 <=? last - (start + 16 * m)) with false by lia. cbn [bind]. exists fe.
      replace (length t <? blocks) with false by lia. now rewrite EB.
    - assert (LB : 16 * m + 16 <= blocks) by (unfold blocks in *; lia).
      destruct (simd_block_ok m fe L1) as (fe1 & ->); [lia|]. cbn [bind].
      destruct (Nat.ltb_spec (length t) (16 * m + 16)) as [LT|GE].
      + exists fe1. now replace (length t <? blocks) with true by lia.
      + replace (16 * m + 16) with (16 * S m) by lia. apply IH; lia.
  Qed.

  Lemma simd_tail_ok : forall n u i fe fuel, length u <= n -> str_body u -> sub_at buf i (u ++ [34%N]) -> i + length u < last -> last - i < fuel ->
    exists fe', loop (simd_tail buf start last) fuel (i, fe) = Ok (i + length u, fe').
  Proof.
    induction n as [n IH] using (well_founded_induction lt_wf). intros u i fe fuel Hn HU SU LU LF.
    destruct fuel as [|fuel]; [lia|]. cbn [loop]. unfold simd_tail at 1. replace (i <? last) with true by lia.
    destruct (str_body_split u HU) as (v & r & -> & PV & R). rewrite app_length in *.
    destruct R as [->|(c & t' & -> & HB')].
    - rewrite app_nil_r in SU. apply sub_at_app in SU as [SV [SQ _]]. cbn [length] in *. rewrite Nat.add_0_r in *.
      destruct v as [|x v].
      + cbn [length] in *. rewrite Nat.add_0_r in *. rewrite (rd_some _ _ _ SQ). cbn [bind]. change (34 =? c_quote)%N with true. cbn. eauto.
      + pose proof SV as [S1 _]. rewrite (rd_some _ _ _ S1). cbn [bind]. inversion PV as [|? ? [P1 P2] _]; subst.
        replace (x =? c_quote)%N with false by (unfold c_quote; lia).
        rewrite plain_loop_checked_ok with (u := x :: v); auto; try lia; [|right; exists 34%N; split; [exact SQ|unfold plain; lia]].
        cbn [bind]. replace (last <=? i + length (x :: v)) with false by lia. rewrite (rd_some _ _ _ SQ). cbn [bind].
        change (34 =? c_quote)%N with true. cbn. eauto.
    - rewrite <- app_assoc in SU. apply sub_at_app in SU as [SV [SB [SC SR]]]. cbn [length app] in *.
      assert (FST : exists x, nth_error buf i = Some x /\ x <> 34%N).
      { destruct v as [|x v].
        - rewrite Nat.add_0_r in SB. exists 92%N. split; auto. lia.
        - destruct SV. inversion PV as [|? ? [P1 P2] _]; subst. eauto. }
      destruct FST as (x & Hx & Nx). rewrite (rd_some _ _ _ Hx). cbn [bind]. replace (x =? c_quote)%N with false by (unfold c_quote; lia).
      rewrite plain_loop_checked_ok with (u := v); auto; try lia; [|right; exists 92%N; split; [exact SB|unfold plain; lia]].
      cbn [bind]. replace (last <=? i + length v) with false by lia. rewrite (rd_some _ _ _ SB). cbn [bind]. change (92 =? c_quote)%N with false. cbn [bind].
      destruct (IH (length t') ltac:(lia) t' (i + length v + 2) (if (fe <? 0)%Z then (Z.of_nat start - Z.of_nat (i + length v))%Z else fe) fuel)
        as (fe' & E); auto; try lia.
      { now replace (i + length v + 2) with (S (S (i + length v))) by lia. }
      rewrite E. exists fe'. do 2 f_equal. lia.
  Qed.

  (** The end of the string is found if it is in a block, or if no escape lies
      across the end of the blocks. *)
  Lemma simd_skip_escape_ok : forall fe, length t < blocks \/ (exists a b, t = a ++ b /\ length a = blocks /\ str_body a) ->
    exists fe', simd_skip_escape buf start last fe = Ok (start + length t, fe').
  Proof.
    intros fe H. unfold simd_skip_escape.
    destruct (simd_blocks_ok (S (last - start)) 0 fe) as (fe1 & E); [lia|lia|lia|].
    change (16 * 0) with 0 in E. rewrite Nat.add_0_r in E. change (N.b2n (escaped 0)) with 0%N in E. rewrite E. cbn [bind].
    destruct (Nat.ltb_spec (length t) blocks) as [LT|GE]; [eauto|].
    destruct H as [H|(a & b & ET & LA & SA)]; [lia|].
    pose proof HB as HB'. rewrite ET in HB'. apply str_body_rest in HB'; auto.
    destruct (simd_tail_ok (length b) b (start + blocks) fe1 (S (last - (start + blocks)))) as (fe' & E2); auto; try lia.
    - rewrite ET, <- app_assoc in HS. apply sub_at_app in HS as [_ S2]. now rewrite LA in S2.
    - rewrite ET, app_length in HE. lia.
    - rewrite E2. exists fe'. do 2 f_equal. rewrite ET, app_length. lia.
  Qed.
End Scan.

Lemma parse_nq_simd_ok : forall excl buf p cl t, in_string buf p cl -> str_body t ->
  sub_at buf (first p) (t ++ [34%N]) -> first p + length t < cl ->
  length t < 16 * ((cl - first p) / 16) \/ (exists a b, t = a ++ b /\ length a = 16 * ((cl - first p) / 16) /\ str_body a) ->
  exists n, parse_nq true ExSimd excl buf p = Ok (n, set_first p (first p + length t)).
Proof.
  intros excl buf p cl t HI HB HS HL H.
  pose proof HI as (HBy & HF & HQ & HC & HLb & HCL & HFL).
  unfold parse_nq, parse_nq_check. rewrite HC.
  destruct (simd_skip_escape_ok buf (first p) cl t HCL HB HS HL (-1)%Z H) as (fe & ->). cbn [bind].
  apply sub_at_app in HS as [_ [HS _]].
  destruct (Nat.ltb_spec (first p + length t) cl); [|lia]. rewrite (rd_some _ _ _ HS). cbn [bind].
  change (34 =? c_quote)%N with true. cbn [ensure bind]. eauto.
Qed.
