(** C35 (lookup never confuses names) and C53 (name hashing). *)
From Coq Require Import String.
From Coq Require Import List NArith Bool Lia Arith.
From Coq Require Import ZifyBool ZifyNat ZifyN.
From Verif Require Import Base Bits HashModel.
Import ListNotations.
Local Open Scope N_scope.

(** ** C53 *)

Lemma list_ind8 : forall (P : list N -> Prop),
  (forall l, (length l < 8)%nat -> P l) ->
  (forall a b c d e f g h r, P r -> P (a :: b :: c :: d :: e :: f :: g :: h :: r)) ->
  forall l, P l.
Proof.
  intros P H1 H2. fix F 1.
  intros [|a [|b [|c [|d [|e [|f [|g [|h r]]]]]]]];
    try (apply H1; cbn [length]; lia).
  apply H2. apply F.
Qed.

Lemma fnv_blocks_fold : forall key hash k h,
  fnv_blocks key hash = (k, h) ->
  fold_left fnv_step k h = fold_left fnv_step key hash.
Proof.
  intros key. induction key as [l L|a b c d e f g h r IH] using list_ind8; intros hash k hh E.
  - do 8 (destruct l as [|? l]; [cbn in E; injection E as <- <-; reflexivity|]).
    cbn [length] in L. lia.
  - cbn [fnv_blocks] in E. rewrite (IH _ _ _ E). reflexivity.
Qed.

Lemma fold_firstn_skipn : forall n (l : list N) h,
  fold_left fnv_step (skipn n l) (fold_left fnv_step (firstn n l) h) =
  fold_left fnv_step l h.
Proof.
  intros. rewrite <- fold_left_app, firstn_skipn. reflexivity.
Qed.

(** The two configurations compute the same function of the name. *)
Theorem C53_long_short_agree : forall key, name_hash true key = name_hash false key.
Proof.
  intros key. unfold name_hash. destruct (Nat.leb (length key) 4); [reflexivity|].
  unfold fnv1a_32. destruct (fnv_blocks key fnv_basis) as [k h] eqn:E.
  apply fnv_blocks_fold in E. destruct (Nat.leb 4 (length k)).
  - unfold fnv1a_32_N. now rewrite fold_firstn_skipn.
  - exact E.
Qed.
Print Assumptions C53_long_short_agree.

(** Big endian value of a name; specification of the short-name packing. *)
Fixpoint be (key : list N) (acc : N) : N :=
  match key with [] => acc | c :: r => be r (acc * 256 + c) end.

Lemma be_bound : forall key acc, Forall (fun c => c < 256) key ->
  acc * 256 ^ N.of_nat (length key) <= be key acc <
  (acc + 1) * 256 ^ N.of_nat (length key).
Proof.
  induction key as [|c r IH]; intros acc F; cbn [be length].
  - cbn. lia.
  - inversion F as [|? ? Hc F']; subst. specialize (IH (acc * 256 + c) F').
    rewrite Nat2N.inj_succ, N.pow_succ_r'.
    set (q := 256 ^ N.of_nat (length r)) in *.
    nia.
Qed.

Lemma pack_be : forall key acc, Forall (fun c => c < 256) key ->
  (acc + 1) * 256 ^ N.of_nat (length key) <= 2 ^ 32 ->
  fold_left (fun r c => N.lor (u32 (N.shiftl r 8)) c) key acc = be key acc.
Proof.
  induction key as [|c r IH]; intros acc F B; cbn [fold_left be]; [reflexivity|].
  inversion F as [|? ? Hc F']; subst. cbn [length] in B.
  rewrite Nat2N.inj_succ, N.pow_succ_r' in B.
  assert (1 <= 256 ^ N.of_nat (length r)) by (pose proof (N.pow_nonzero 256 (N.of_nat (length r))); lia).
  assert (acc * 256 < 2 ^ 32) by nia.
  assert (E : N.lor (u32 (N.shiftl acc 8)) c = acc * 256 + c).
  { unfold u32. rewrite N.shiftl_mul_pow2. change (2 ^ 8) with 256.
    rewrite N.mod_small by assumption.
    apply N.bits_inj. intros n. rewrite N.lor_spec.
    replace (acc * 256 + c) with (c + 2 ^ 8 * acc) by lia.
    rewrite (testbit_horner 8) by assumption.
    replace (acc * 256) with (0 + 2 ^ 8 * acc) by lia.
    rewrite (testbit_horner 8) by lia. destruct (N.ltb_spec n 8).
    - rewrite N.bits_0. reflexivity.
    - rewrite (testbit_high 8 c n) by (assumption || lia). apply orb_false_r. }
  rewrite E. apply IH; [assumption|]. nia.
Qed.

Lemma be_inj_len : forall k1 k2 a1 a2, length k1 = length k2 ->
  Forall (fun c => c < 256) k1 -> Forall (fun c => c < 256) k2 ->
  be k1 a1 = be k2 a2 -> a1 = a2 /\ k1 = k2.
Proof.
  induction k1 as [|c1 r1 IH]; intros [|c2 r2] a1 a2 L F1 F2 E; cbn [length] in L; try lia.
  - split; [exact E|reflexivity].
  - inversion F1; inversion F2; subst. cbn [be] in E.
    destruct (IH r2 _ _ ltac:(lia) ltac:(assumption) ltac:(assumption) E) as [Q ->].
    assert (a1 = a2) by lia. subst. split; [reflexivity|]. f_equal. lia.
Qed.

(** No leading NUL: the length can be read off the value. *)
Definition no_leading_nul (key : list N) : Prop :=
  match key with [] => True | c :: _ => c <> 0 end.

Lemma be_length : forall key n, Forall (fun c => c < 256) key -> no_leading_nul key ->
  (length key < n)%nat -> be key 0 < 256 ^ N.of_nat (pred n).
Proof.
  intros key n F _ L. pose proof (be_bound key 0 F) as B.
  eapply N.lt_le_trans; [apply B|]. rewrite N.add_0_l, N.mul_1_l.
  apply N.pow_le_mono_r; lia.
Qed.

Lemma be_lower : forall key, Forall (fun c => c < 256) key -> no_leading_nul key ->
  (0 < length key)%nat -> 256 ^ N.of_nat (pred (length key)) <= be key 0.
Proof.
  intros [|c r] F NL L; cbn [length] in *; [lia|]. cbn [be].
  inversion F; subst. cbn in NL. pose proof (be_bound r (0 * 256 + c) ltac:(assumption)).
  cbn [pred]. nia.
Qed.

Lemma be_inj : forall k1 k2, Forall (fun c => c < 256) k1 -> Forall (fun c => c < 256) k2 ->
  no_leading_nul k1 -> no_leading_nul k2 -> be k1 0 = be k2 0 -> k1 = k2.
Proof.
  intros k1 k2 F1 F2 N1 N2 E.
  destruct (Nat.lt_trichotomy (length k1) (length k2)) as [L|[L|L]].
  - pose proof (be_length k1 _ F1 N1 L). pose proof (be_lower k2 F2 N2 ltac:(lia)). lia.
  - now apply (be_inj_len k1 k2 0 0 L F1 F2).
  - pose proof (be_length k2 _ F2 N2 L). pose proof (be_lower k1 F1 N1 ltac:(lia)). lia.
Qed.

(** 0xCC9E2D51 is odd, so multiplying by it loses nothing. *)
Lemma mix_inj : forall x y, x < 2 ^ 32 -> y < 2 ^ 32 ->
  u32 (x * 3432918353) = u32 (y * 3432918353) -> x = y.
Proof.
  intros x y Hx Hy E. unfold u32 in E.
  assert (A : forall z, z < 2 ^ 32 ->
    ((z * 3432918353) mod 2 ^ 32 * 3739302833) mod 2 ^ 32 = z).
  { intros z Hz. rewrite N.mul_mod_idemp_l by lia. rewrite <- N.mul_assoc.
    rewrite <- N.mul_mod_idemp_r by lia.
    replace ((3432918353 * 3739302833) mod 2 ^ 32) with 1 by (vm_compute; reflexivity).
    rewrite N.mul_1_r. now apply N.mod_small. }
  rewrite <- (A x Hx), <- (A y Hy). now rewrite E.
Qed.

Theorem C53_short_names_distinct : forall l1 l2 k1 k2,
  Forall (fun c => c < 256) k1 -> Forall (fun c => c < 256) k2 ->
  (length k1 <= 4)%nat -> (length k2 <= 4)%nat ->
  no_leading_nul k1 -> no_leading_nul k2 ->
  name_hash l1 k1 = name_hash l2 k2 -> k1 = k2.
Proof.
  intros l1 l2 k1 k2 F1 F2 L1 L2 N1 N2 E. unfold name_hash in E.
  apply Nat.leb_le in L1, L2. rewrite L1, L2 in E. apply Nat.leb_le in L1, L2.
  assert (B : forall k : list N, (length k <= 4)%nat ->
    (0 + 1) * 256 ^ N.of_nat (length k) <= 2 ^ 32).
  { intros k L. change (2 ^ 32) with (256 ^ 4). rewrite N.add_0_l, N.mul_1_l.
    apply N.pow_le_mono_r; lia. }
  rewrite (pack_be k1), (pack_be k2) in E by auto.
  apply mix_inj in E.
  - now apply be_inj.
  - pose proof (be_bound k1 0 F1). specialize (B k1 L1). lia.
  - pose proof (be_bound k2 0 F2). specialize (B k2 L2). lia.
Qed.
Print Assumptions C53_short_names_distinct.

(** The restriction on NUL is needed: a leading NUL does not change the hash. *)
Example C53_nul_needed : name_hash false [0; 97] = name_hash false [97].
Proof. vm_compute. reflexivity. Qed.

Example C53_witness :
  name_hash false (bytes "id") = 3462392996 /\
  name_hash true (bytes "costarring") = 1582148253.
Proof. vm_compute. split; reflexivity. Qed.

(** ** C35 *)

Lemma bytes_eqb_eq : forall a b, bytes_eqb a b = true <-> a = b.
Proof.
  induction a as [|x a IH]; intros [|y b]; cbn; split; intros H;
    try reflexivity; try discriminate.
  - apply andb_true_iff in H. destruct H as [H1 H2]. apply N.eqb_eq in H1.
    apply IH in H2. congruence.
  - injection H as -> ->. rewrite N.eqb_refl. now apply IH.
Qed.

Lemma find_from_spec : forall full hash key names n,
  let r := find_from full hash key names n in
  (n <= r <= n + length names)%nat /\
  (forall nm, nth_error names (r - n) = Some nm ->
     name_hash false nm = hash /\ (full = true -> key = nm)) /\
  (forall k nm, (n + k < r)%nat -> nth_error names k = Some nm ->
     name_hash false nm = hash -> full = true /\ key <> nm).
Proof.
  intros full hash key names. induction names as [|nm names IH]; intros n; cbn [find_from length].
  - split; [lia|]. split.
    + intros nm H. rewrite Nat.sub_diag in H. discriminate.
    + intros k nm _ H. destruct k; discriminate.
  - specialize (IH (S n)). cbv zeta in IH. destruct IH as [IH1 [IH2 IH3]].
    assert (Next : (name_hash false nm = hash -> full = true /\ key <> nm) ->
      let r := find_from full hash key names (S n) in
      (n <= r <= n + S (length names))%nat /\
      (forall nm0, nth_error (nm :: names) (r - n) = Some nm0 ->
         name_hash false nm0 = hash /\ (full = true -> key = nm0)) /\
      (forall k nm0, (n + k < r)%nat -> nth_error (nm :: names) k = Some nm0 ->
         name_hash false nm0 = hash -> full = true /\ key <> nm0)).
    { intros Q. cbv zeta. set (r := find_from full hash key names (S n)) in *.
      split; [lia|]. split.
      - intros nm0 H. replace (r - n)%nat with (S (r - S n)) in H by lia.
        now apply IH2.
      - intros [|k] nm0 Hk H HH.
        + cbn in H. injection H as <-. now apply Q.
        + apply (IH3 k); [lia|exact H|exact HH]. }
    cbv zeta in *.
    destruct (N.eqb_spec (name_hash false nm) hash) as [E|E].
    + destruct full eqn:Ef; cbn [andb].
      * destruct (bytes_eqb key nm) eqn:Eb; cbn [negb].
        -- apply bytes_eqb_eq in Eb. split; [lia|]. split.
           ++ intros nm0 H. rewrite Nat.sub_diag in H. cbn in H. injection H as <-.
              split; [assumption|]. intros _. assumption.
           ++ intros; lia.
        -- apply Next. intros _. split; [reflexivity|]. intros K.
           apply bytes_eqb_eq in K. congruence.
      * split; [lia|]. split.
        -- intros nm0 H. rewrite Nat.sub_diag in H. cbn in H. injection H as <-.
           split; [assumption|discriminate].
        -- intros; lia.
    + apply Next. intros; contradiction.
Qed.

Lemma nth_skipn : forall (A : Type) (l : list A) s k,
  nth_error (skipn s l) k = nth_error l (s + k).
Proof.
  intros A. induction l as [|x l IH]; intros [|s] k; cbn; try reflexivity.
  - destruct k; reflexivity.
  - apply IH.
Qed.

(** What is returned always names a member at or after the start position, with
    the key's hash. *)
Lemma find_name_hash : forall force long names start key nm,
  nth_error names (find_name force long names start key) = Some nm ->
  (start <= find_name force long names start key)%nat /\
  name_hash false nm = name_hash long key /\
  (full_name_match force names = true -> key = nm).
Proof.
  intros force long names start key nm H. unfold find_name in *.
  destruct (Nat.le_gt_cases start (length names)) as [L|L].
  - rewrite Nat.min_l in * by assumption.
    pose proof (find_from_spec (full_name_match force names) (name_hash long key) key
      (skipn start names) start) as S. cbv zeta in S. destruct S as [S1 [S2 _]].
    set (r := find_from _ _ _ _ _) in *. split; [lia|]. apply S2.
    rewrite nth_skipn. now replace (start + (r - start))%nat with r by lia.
  - rewrite skipn_all2 in H by lia. cbn [find_from] in H.
    rewrite Nat.min_r in H by lia.
    assert (Q : nth_error names (length names) = None) by (now apply nth_error_None).
    congruence.
Qed.

(** With the full comparison (ForceFullNameCheck, or two mapped names whose
    hashes collide) a found member has the requested name. *)
Theorem C35_full_check : forall force long names start key nm,
  full_name_match force names = true ->
  nth_error names (find_name force long names start key) = Some nm -> nm = key.
Proof.
  intros. symmetry. eapply find_name_hash; eassumption.
Qed.
Print Assumptions C35_full_check.

(** Without it: right when both names have at most four bytes. *)
Theorem C35_short_names_partial : forall force long names start key nm,
  nth_error names (find_name force long names start key) = Some nm ->
  Forall (fun c => c < 256) key -> Forall (fun c => c < 256) nm ->
  (length key <= 4)%nat -> (length nm <= 4)%nat ->
  no_leading_nul key -> no_leading_nul nm -> nm = key.
Proof.
  intros force long names start key nm H F1 F2 L1 L2 N1 N2.
  apply find_name_hash in H. destruct H as [_ [H _]].
  eapply C53_short_names_distinct; eassumption.
Qed.
Print Assumptions C35_short_names_partial.

(** A mapped name is always found, at its own position, when the mapped names
    are different from each other. *)
Theorem C35_mapped_name_found : forall force long names start n key,
  NoDup names -> nth_error names n = Some key -> (start <= n)%nat ->
  find_name force long names start key = n.
Proof.
  intros force long names start n key ND E L.
  assert (Ln : (n < length names)%nat) by (apply nth_error_Some; congruence).
  unfold find_name. rewrite Nat.min_l by lia.
  pose proof (find_from_spec (full_name_match force names) (name_hash long key) key
    (skipn start names) start) as S. cbv zeta in S. destruct S as [S1 [S2 S3]].
  set (r := find_from _ _ _ _ _) in *.
  assert (Hh : name_hash false key = name_hash long key)
    by (destruct long; [symmetry; apply C53_long_short_agree|reflexivity]).
  destruct (Nat.lt_trichotomy r n) as [C|[C|C]]; [|exact C|].
  - destruct (nth_error names r) as [nm|] eqn:Er; [|apply nth_error_None in Er; lia].
    destruct (S2 nm) as [Q1 Q2].
    { rewrite nth_skipn. now replace (start + (r - start))%nat with r by lia. }
    destruct (full_name_match force names) eqn:Ef.
    + rewrite <- (Q2 eq_refl) in Er. rewrite NoDup_nth_error in ND.
      apply ND; [lia|congruence].
    + exfalso. unfold full_name_match in Ef. apply orb_false_iff in Ef.
      destruct Ef as [_ Ef]. unfold do_hashes_collide in Ef.
      assert (K : forall hs i j h, has_dup hs = false -> (i < j)%nat ->
        nth_error hs i = Some h -> nth_error hs j = Some h -> False).
      { clear. induction hs as [|x hs IH]; intros [|i] [|j] h D L Hi Hj; cbn in *; try lia; try discriminate.
        - injection Hi as ->. apply orb_false_iff in D. destruct D as [D _].
          apply nth_error_In in Hj.
          assert (existsb (N.eqb h) hs = true) by (apply existsb_exists; exists h; now rewrite N.eqb_refl).
          congruence.
        - apply orb_false_iff in D. destruct D as [_ D].
          eapply (IH i j h); eauto. lia. }
      apply (K _ r n (name_hash false key) Ef C).
      * unfold hashes. rewrite nth_error_map, Er. cbn. congruence.
      * unfold hashes. rewrite nth_error_map, E. reflexivity.
  - destruct (S3 (n - start)%nat key) as [_ Q]; [lia| |exact Hh|congruence].
    rewrite nth_skipn. now replace (start + (n - start))%nat with n by lia.
Qed.
Print Assumptions C35_mapped_name_found.

Example C35_witness :
  find_name false true [bytes "lon"; bytes "coordinates"; bytes "id"] 0 (bytes "coordinates") = 1%nat /\
  find_name false false [bytes "lon"; bytes "coordinates"; bytes "id"] 2 (bytes "lon") = 3%nat.
Proof. vm_compute. split; reflexivity. Qed.

(** By default a class with the single member "costarring" takes the member
    "liquid" of the document for it (both hash to 1582148253). *)
Theorem C35_collision_refuted : exists names key nm,
  nth_error names (find_name false false names 0 key) = Some nm /\ nm <> key /\
  names = [bytes "costarring"] /\ key = bytes "liquid".
Proof.
  exists [bytes "costarring"], (bytes "liquid"), (bytes "costarring").
  split; [vm_compute; reflexivity|]. split; [discriminate|]. split; reflexivity.
Qed.
Print Assumptions C35_collision_refuted.
