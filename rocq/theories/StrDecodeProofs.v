(** Proofs about decoding escaped strings (see StrDecodeModel, SpecUnicode). *)
From Coq Require Import List NArith ZArith Bool Lia Arith ZifyBool ZifyNat ZifyN.
From Verif Require Import Base Bits Mem Loop PolicyModel IntModel StrScanModel SpecNum SpecText SpecJson SpecUnicode
  StrScanProofs StrScanProofs2 StrDecodeModel.
Import ListNotations.
Local Open Scope N_scope.
Ltac Zify.zify_post_hook ::= Z.to_euclidean_division_equations.

Lemma lor_disjoint : forall a k b, b < 2 ^ k -> N.lor (N.shiftl a k) b = a * 2 ^ k + b.
Proof.
  intros a k b H. rewrite N.shiftl_mul_pow2.
  assert (P : 2 ^ k <> 0) by (apply N.pow_nonzero; lia).
  pose proof (lor_horner k 0 a b 0 ltac:(lia) H) as E.
  rewrite N.lor_0_l, N.lor_0_r in E.
  replace (0 + 2 ^ k * a) with (a * 2 ^ k) in E by lia.
  replace (b + 2 ^ k * 0) with b in E by lia. rewrite E. lia.
Qed.

Lemma land63 : forall x, N.land x 63 = x mod 64.
Proof. intro x. change 63 with (N.ones 6). rewrite N.land_ones. reflexivity. Qed.

Lemma cont_byte : forall x, u32toC (N.lor (N.land x 63) 128) = 128 + x mod 64.
Proof.
  intro x. rewrite land63, N.lor_comm. change 128 with (N.shiftl 2 6) at 1.
  rewrite lor_disjoint by (change (2 ^ 6) with 64; lia). unfold u32toC. change (2 ^ 6) with 64. lia.
Qed.

Lemma lead_byte : forall x h k b, h = N.shiftl b k -> x < 2 ^ k -> h + x < 256 ->
  u32toC (N.lor x h) = h + x.
Proof.
  intros x h k b -> Hx Hb. rewrite N.lor_comm, lor_disjoint by exact Hx.
  rewrite N.shiftl_mul_pow2 in *. unfold u32toC. rewrite N.mod_small; lia.
Qed.

Lemma enc_utf8_ok : forall cp, 128 <= cp <= 1114111 -> enc_utf8 cp = utf8 cp.
Proof.
  intros cp H. unfold enc_utf8, utf8.
  replace (cp <? 128) with false by lia.
  rewrite !cont_byte, !N.shiftr_div_pow2.
  change (2 ^ 6) with 64. change (2 ^ 12) with 4096. change (2 ^ 18) with 262144.
  destruct (65536 <=? cp) eqn:E1.
  - replace (cp <? 2048) with false by lia. replace (cp <? 65536) with false by lia.
    rewrite (lead_byte _ 240 4 15) by (try reflexivity; change (2 ^ 4) with 16; lia). reflexivity.
  - destruct (2048 <=? cp) eqn:E2.
    + replace (cp <? 2048) with false by lia. replace (cp <? 65536) with true by lia.
      rewrite (lead_byte _ 224 4 14) by (try reflexivity; change (2 ^ 4) with 16; lia). reflexivity.
    + replace (cp <? 2048) with true by lia.
      rewrite (lead_byte _ 192 5 6) by (try reflexivity; change (2 ^ 5) with 32; lia). reflexivity.
Qed.

Lemma nibble_hex : forall b, is_hex b -> to_nibble b = hex_val b /\ hex_val b < 16.
Proof.
  intros b H. unfold is_hex in H. unfold to_nibble, hex_val.
  destruct (57 <? b) eqn:E1; destruct (90 <? b) eqn:E2; destruct (b <=? 57) eqn:E3;
    destruct (b <=? 70) eqn:E4; lia.
Qed.

Lemma byte_ok : forall checked (buf : list N) i a b, is_hex a -> is_hex b ->
  nth_error buf i = Some a -> nth_error buf (S i) = Some b ->
  byte_from_nibbles checked buf i = Ok (16 * hex_val a + hex_val b).
Proof.
  intros checked buf i a b Ha Hb Na Nb. unfold byte_from_nibbles.
  rewrite (rd_some _ _ _ Na), (rd_some _ _ _ Nb). cbn [bind].
  destruct (nibble_hex a Ha) as [-> La]. destruct (nibble_hex b Hb) as [-> Lb].
  replace ((hex_val a <? 16) && (hex_val b <? 16)) with true by lia.
  replace (if checked then Ok tt else ensure true InvalidUTFEscape) with (Ok tt) by (destruct checked; reflexivity).
  cbn [bind]. rewrite lor_disjoint by (change (2 ^ 4) with 16; lia).
  change (2 ^ 4) with 16. change (2 ^ 16) with 65536. rewrite N.mod_small by lia. f_equal. lia.
Qed.

Lemma hex4_bytes : forall checked (buf : list N) i ds u, hex4 ds u -> sub_at buf i ds ->
  exists hi lo, byte_from_nibbles checked buf i = Ok hi /\
    byte_from_nibbles checked buf (S (S i)) = Ok lo /\ N.lor (N.shiftl hi 8) lo = u /\ u < 65536.
Proof.
  intros checked buf i ds u (a & b & c & d & -> & Ha & Hb & Hc & Hd & ->) S.
  destruct S as (S0 & S1 & S2 & S3 & _).
  exists (16 * hex_val a + hex_val b), (16 * hex_val c + hex_val d).
  split; [now apply byte_ok|]. split; [now apply byte_ok|].
  destruct (nibble_hex a Ha) as [_ La]. destruct (nibble_hex b Hb) as [_ Lb].
  destruct (nibble_hex c Hc) as [_ Lc]. destruct (nibble_hex d Hd) as [_ Ld].
  rewrite lor_disjoint by (change (2 ^ 8) with 256; lia). change (2 ^ 8) with 256. lia.
Qed.

Lemma hex4_length : forall ds u, hex4 ds u -> length ds = 4%nat.
Proof. intros ds u (a & b & c & d & -> & _). reflexivity. Qed.

Lemma hex4_lt : forall ds u, hex4 ds u -> u < 65536.
Proof.
  intros ds u (a & b & c & d & -> & Ha & Hb & Hc & Hd & ->).
  destruct (nibble_hex a Ha) as [_ La]. destruct (nibble_hex b Hb) as [_ Lb].
  destruct (nibble_hex c Hc) as [_ Lc]. destruct (nibble_hex d Hd) as [_ Ld]. lia.
Qed.

Lemma put_ok : forall o bs, (length (o_bytes o) + length bs <= o_cap o)%nat ->
  put o bs = Ok (mkout (o_bytes o ++ bs) (o_cap o)).
Proof. intros o bs H. unfold put. apply Nat.leb_le in H. now rewrite H. Qed.

Lemma utf8_length : forall cp, (1 <= length (utf8 cp) <= 4)%nat.
Proof. intro cp. unfold utf8. destruct (cp <? 128), (cp <? 2048), (cp <? 65536); cbn; lia. Qed.
Lemma utf8_length3 : forall cp, cp < 65536 -> (length (utf8 cp) <= 3)%nat.
Proof.
  intros cp H. unfold utf8. replace (cp <? 65536) with true by lia.
  destruct (cp <? 128), (cp <? 2048); cbn; lia.
Qed.

Lemma utf8_ascii : forall cp, cp <= 127 -> utf8 cp = [cp].
Proof. intros cp H. unfold utf8. replace (cp <? 128) with true by lia. reflexivity. Qed.

(** one escape of four digits *)
Lemma decode_u : forall checked (buf : list N) i bnd o ds u,
  sub_at buf i (117 :: ds) -> hex4 ds u -> scalar u ->
  (checked = true -> i + 5 <= bnd)%nat -> (length (o_bytes o) + 3 <= o_cap o)%nat ->
  decode_utf16 checked buf i bnd o = Ok ((i + 5)%nat, mkout (o_bytes o ++ utf8 u) (o_cap o)).
Proof.
  intros checked buf i bnd o ds u [S0 S] H Sc B C. unfold decode_utf16.
  replace (if checked then ensure (5 <=? bnd - i)%nat UnexpectedEndOfData else Ok tt) with (Ok tt)
    by (destruct checked; [|reflexivity]; specialize (B eq_refl); now replace (5 <=? bnd - i)%nat with true by lia).
  cbn [bind]. destruct (hex4_bytes checked buf (Datatypes.S i) ds u H S) as (hi & lo & E1 & E2 & E3 & Hu).
  replace (i + 3)%nat with (Datatypes.S (Datatypes.S (Datatypes.S i))) by lia.
  rewrite E1. cbn [bind]. rewrite E2. cbn [bind]. rewrite E3.
  destruct (u <=? 127) eqn:Ea.
  - rewrite put_ok by (cbn [length]; lia). cbn [bind]. rewrite utf8_ascii by lia. reflexivity.
  - unfold scalar in Sc. replace ((55296 <=? u) && (u <=? 56319)) with false by lia. cbn [bind].
    rewrite enc_utf8_ok by lia. rewrite put_ok; [reflexivity|]. pose proof (utf8_length3 u Hu). lia.
Qed.

(** a surrogate pair *)
Lemma decode_pair : forall checked (buf : list N) i bnd o ds1 u1 ds2 u2,
  sub_at buf i (117 :: ds1 ++ 92 :: 117 :: ds2) -> hex4 ds1 u1 -> hex4 ds2 u2 ->
  55296 <= u1 <= 56319 -> 56320 <= u2 <= 57343 ->
  (checked = true -> i + 11 <= bnd)%nat -> (length (o_bytes o) + 4 <= o_cap o)%nat ->
  decode_utf16 checked buf i bnd o =
    Ok ((i + 11)%nat, mkout (o_bytes o ++ utf8 (65536 + (u1 - 55296) * 1024 + (u2 - 56320))) (o_cap o)).
Proof.
  intros checked buf i bnd o ds1 u1 ds2 u2 [S0 S] H1 H2 R1 R2 B C. unfold decode_utf16.
  apply sub_at_app in S. destruct S as [S1 S]. rewrite (hex4_length _ _ H1) in S.
  destruct S as (S2 & S3 & S4).
  replace (if checked then ensure (5 <=? bnd - i)%nat UnexpectedEndOfData else Ok tt) with (Ok tt)
    by (destruct checked; [|reflexivity]; specialize (B eq_refl); now replace (5 <=? bnd - i)%nat with true by lia).
  cbn [bind]. destruct (hex4_bytes checked buf (Datatypes.S i) ds1 u1 H1 S1) as (hi & lo & E1 & E2 & E3 & Hu).
  replace (i + 3)%nat with (Datatypes.S (Datatypes.S (Datatypes.S i))) by lia.
  rewrite E1. cbn [bind]. rewrite E2. cbn [bind]. rewrite E3.
  replace (u1 <=? 127) with false by lia.
  replace ((55296 <=? u1) && (u1 <=? 56319)) with true by lia.
  replace (Datatypes.S (i + 5)) with (Datatypes.S (Datatypes.S i + 4)) by lia.
  assert (Echk : (if checked then
          ok <- (if (5 <=? bnd - Datatypes.S (Datatypes.S i + 4))%nat then
                   c <- rd buf (Datatypes.S (Datatypes.S i + 4)) ;; Ok (c =? c_u) else Ok false) ;;
          ensure ok InvalidUTFEscape else Ok tt) = Ok tt).
  { destruct checked; [|reflexivity]. specialize (B eq_refl).
    replace (5 <=? bnd - Datatypes.S (Datatypes.S i + 4))%nat with true by lia.
    rewrite (rd_some _ _ _ S3). reflexivity. }
  rewrite Echk. cbn [bind].
  destruct (hex4_bytes checked buf _ ds2 u2 H2 S4) as (hi2 & lo2 & F1 & F2 & F3 & Hu2).
  rewrite F1. cbn [bind].
  replace (Datatypes.S (Datatypes.S i + 4) + 3)%nat
    with (Datatypes.S (Datatypes.S (Datatypes.S (Datatypes.S (Datatypes.S i + 4))))) by lia.
  rewrite F2. cbn [bind]. rewrite F3. change (2 ^ 32) with 4294967296.
  assert (Ecp : (((u1 - 55296) * 1024 + (u2 + (4294967296 - 56320)) mod 4294967296) mod 4294967296 + 65536)
     mod 4294967296 = 65536 + (u1 - 55296) * 1024 + (u2 - 56320)).
  { replace (u2 + (4294967296 - 56320)) with ((u2 - 56320) + 1 * 4294967296) by lia.
    rewrite N.mod_add by lia. rewrite (N.mod_small (u2 - 56320)) by lia.
    rewrite (N.mod_small ((u1 - 55296) * 1024 + (u2 - 56320))) by lia. rewrite N.mod_small by lia. lia. }
  rewrite Ecp.
  rewrite enc_utf8_ok by lia. rewrite put_ok.
  - cbn [bind]. do 2 f_equal. lia.
  - pose proof (utf8_length (65536 + (u1 - 55296) * 1024 + (u2 - 56320))). lia.
Qed.

(** ** The loop *)

(** the longest plain prefix of a string *)
Lemma denotes_split : forall t s, denotes t s -> exists u t' s',
  t = u ++ t' /\ s = u ++ s' /\ Forall plain u /\ denotes t' s' /\
  (t' = [] \/ exists e r, t' = 92 :: e :: r).
Proof.
  intros t s H. induction H as [|c t s H1 H2 H IH|e c t s He H IH|ds u t s H1 H2 H IH|ds1 u1 ds2 u2 t s H1 H2 H3 H4 H IH].
  - exists [], [], []. repeat split; auto. constructor.
  - destruct IH as (u & t' & s' & -> & -> & P & D & C). exists (c :: u), t', s'.
    repeat split; auto. constructor; [split; assumption|assumption].
  - exists [], (92 :: e :: t), (c :: s). repeat split; auto; [now constructor|right; eauto].
  - exists [], (92 :: 117 :: ds ++ t), (utf8 u ++ s). repeat split; auto; [now constructor|right; eauto].
  - exists [], (92 :: 117 :: ds1 ++ 92 :: 117 :: ds2 ++ t),
      (utf8 (65536 + (u1 - 55296) * 1024 + (u2 - 56320)) ++ s).
    repeat split; auto; [now apply dn_pair|right; eauto].
Qed.

Lemma firstn_skipn_at : forall u (buf : list N) i, sub_at buf i u -> firstn (length u) (skipn i buf) = u.
Proof.
  intros u buf i S. destruct u as [|x u]; [reflexivity|].
  pose proof (sub_at_length _ _ _ S ltac:(discriminate)) as L. cbn [length] in L.
  destruct (sub_at_split _ _ _ S) as (pre & post & -> & Lp); [lia|].
  rewrite <- Lp. rewrite skipn_app, skipn_all, Nat.sub_diag. cbn [app skipn].
  change (x :: u ++ post) with ((x :: u) ++ post). rewrite firstn_app, Nat.sub_diag, firstn_all, firstn_O, app_nil_r.
  reflexivity.
Qed.

Lemma move_to_end : forall u (buf : list N) i, Forall plain u -> sub_at buf i u -> (i + length u <= length buf)%nat ->
  move_to_quote_or_slash true buf i (i + length u) = Ok (i + length u)%nat.
Proof.
  intros u buf i P S L. unfold move_to_quote_or_slash.
  apply loop_exit with (m := fun k => (i + length u - k)%nat) (s' := (i + length u)%nat).
  - clear L. revert i S. set (e := length u).
    assert (G : forall n v i, Forall plain v -> sub_at buf i v ->
      runs (fun k => if negb true || (k <? i + length v)%nat then c <- rd buf k ;;
        Ok (if (c =? c_bslash) || (c =? c_quote) then inr k else inl (S k)) else Ok (inr k))
       (fun k => (i + length v - k)%nat) i (i + length v)%nat \/ n = 0%nat).
    { intros n v. revert n. induction v as [|x v IH]; intros n k Pv Sv.
      - left. cbn [length]. rewrite Nat.add_0_r. constructor.
      - inversion Pv as [|? ? Px Pv']; subst. destruct Sv as [Sx Sv].
        destruct (IH 1%nat (S k) Pv' Sv) as [R|R]; [|discriminate]. left.
        cbn [length]. replace (k + S (length v))%nat with (S k + length v)%nat by lia.
        eapply runs_step; [|cbv beta; instantiate (1 := S k); lia|exact R].
        cbn [negb orb]. replace (k <? S k + length v)%nat with true by lia.
        rewrite (rd_some _ _ _ Sx). cbn [bind]. destruct (plain_test x Px) as [_ ->]. reflexivity. }
    intros i S. destruct (G 1%nat u i P S) as [R|R]; [exact R|discriminate].
  - cbn [negb orb]. now rewrite Nat.ltb_irrefl.
  - lia.
Qed.

Lemma not_plain_34 : ~ plain 34. Proof. unfold plain. intros [H _]. now apply H. Qed.
Lemma not_plain_92 : ~ plain 92. Proof. unfold plain. intros [_ H]. now apply H. Qed.

(** finding the end of the plain prefix, in every mode *)
Lemma find_special : forall checked ex (buf : list N) u i bnd c, Forall plain u -> sub_at buf i u ->
  nth_error buf (i + length u) = Some c -> ~ plain c -> (i + length u <= bnd)%nat -> (bnd <= length buf)%nat ->
  (match ex with
   | ExConstexpr => plain_loop_unchecked buf i
   | _ => move_to_quote_or_slash checked buf i bnd
   end) = Ok (i + length u)%nat.
Proof.
  intros checked ex buf u i bnd c P S N NP L LB.
  assert (M : move_to_quote_or_slash checked buf i bnd = Ok (i + length u)%nat).
  { destruct (Nat.eq_dec (i + length u) bnd) as [E|E].
    - destruct checked.
      + rewrite <- E. apply move_to_end; auto. lia.
      + eapply move_ok; eauto. discriminate.
    - eapply move_ok; eauto. intros _. lia. }
  destruct ex; [|exact M|exact M].
  eapply plain_loop_unchecked_ok; eauto.
Qed.

Lemma hex_not_special : forall ds u t, hex4 ds u -> ds ++ t <> [].
Proof. intros ds u t (a & b & c & d & -> & _). discriminate. Qed.

Lemma denotes_app : forall t1 s1 t2 s2, denotes t1 s1 -> denotes t2 s2 -> denotes (t1 ++ t2) (s1 ++ s2).
Proof.
  intros t1 s1 t2 s2 H H2. induction H; cbn [app]; auto.
  - now constructor.
  - now constructor.
  - rewrite <- !app_assoc. now constructor.
  - rewrite <- !app_assoc. cbn [app]. rewrite <- app_assoc. now apply dn_pair.
Qed.
Lemma denotes_plain_app : forall u t s, Forall plain u -> denotes t s -> denotes (u ++ t) (u ++ s).
Proof. induction 1 as [|x u [P Q] H IH]; intros D; cbn [app]; [assumption|]. constructor; auto. Qed.
Lemma denotes_shorter : forall t s, denotes t s -> (length s <= length t)%nat.
Proof.
  intros t s H. induction H as [|c t s H1 H2 H IH|e c t s He H IH|ds u t s H1 H2 H IH|ds1 u1 ds2 u2 t s H1 H2 H3 H4 H IH];
    cbn [length]; try lia.
  - rewrite !app_length. pose proof (hex4_length _ _ H1). pose proof (utf8_length3 u (hex4_lt _ _ H1)). lia.
  - rewrite !app_length. cbn [length]. rewrite app_length. pose proof (hex4_length _ _ H1). pose proof (hex4_length _ _ H2).
    pose proof (utf8_length (65536 + (u1 - 55296) * 1024 + (u2 - 56320))). lia.
Qed.

(** the part of a round up to the escape *)
Lemma dec_body_escape : forall checked ex ah (buf : list N) bnd i o u e,
  Forall plain u -> sub_at buf i u -> nth_error buf (i + length u) = Some 92 ->
  nth_error buf (S (i + length u)) = Some e -> (i + length u < bnd)%nat -> (bnd <= length buf)%nat ->
  (length (o_bytes o) + length u <= o_cap o)%nat ->
  dec_body checked ex ah false buf bnd (i, o) =
       (let o1 := mkout (o_bytes o ++ u) (o_cap o) in
       '(i, o) <-
         (_ <- (if checked then ensure (negb (spacelike e)) InvalidUTFCodepoint else Ok tt) ;;
         (if e =? 98 then o <- put o1 [8] ;; Ok (Datatypes.S (Datatypes.S (i + length u)), o)
         else if e =? 102 then o <- put o1 [12] ;; Ok (Datatypes.S (Datatypes.S (i + length u)), o)
         else if e =? 110 then o <- put o1 [10] ;; Ok (Datatypes.S (Datatypes.S (i + length u)), o)
         else if e =? 114 then o <- put o1 [13] ;; Ok (Datatypes.S (Datatypes.S (i + length u)), o)
         else if e =? 116 then o <- put o1 [9] ;; Ok (Datatypes.S (Datatypes.S (i + length u)), o)
         else if e =? c_u then decode_utf16 checked buf (Datatypes.S (i + length u)) bnd o1
         else if (e =? c_slash) || (e =? c_bslash) || (e =? c_quote) then o <- put o1 [e] ;; Ok (Datatypes.S (Datatypes.S (i + length u)), o)
         else _ <- (if checked && negb ah then ensure (negb (spacelike e) && (e <=? 127)) InvalidStringHighASCII else Ok tt) ;;
              o <- put o1 [e] ;; Ok (Datatypes.S (Datatypes.S (i + length u)), o))) ;; Ok (inl (i, o))).
Proof.
  intros checked ex ah buf bnd i o u e P SU N92 NE LB LL C. unfold dec_body.
  assert (GO : (if checked && negb (i <? bnd)%nat then Ok false else c <- rd buf i ;; Ok (negb (c =? c_quote))) = Ok true).
  { replace (i <? bnd)%nat with true by lia. cbn [negb]. rewrite andb_false_r.
    destruct u as [|x u].
    - cbn [length] in N92. rewrite Nat.add_0_r in N92. rewrite (rd_some _ _ _ N92). reflexivity.
    - destruct SU as [SX _]. inversion P as [|? ? PX _]; subst. rewrite (rd_some _ _ _ SX). cbn [bind].
      destruct PX as [PX _]. f_equal. unfold c_quote. lia. }
  rewrite GO. cbn [bind negb].
  rewrite (find_special checked ex buf u i bnd 92 P SU N92 not_plain_92) by lia.
  cbn [bind]. replace (i + length u - i)%nat with (length u) by lia.
  assert (EC : (if checked then _ <- ensure (length u <=? o_cap o - length (o_bytes o))%nat UnexpectedEndOfData ;; Ok o
                else Ok o) = Ok o).
  { destruct checked; [|reflexivity]. replace (length u <=? o_cap o - length (o_bytes o))%nat with true by lia. reflexivity. }
  rewrite EC. cbn [bind]. rewrite (firstn_skipn_at u buf i SU).
  rewrite put_ok by lia. cbn [bind]. rewrite (rd_some _ _ _ N92). cbn [bind].
  change (92 =? c_bslash) with true. cbn iota. rewrite (rd_some _ _ _ NE). cbn [bind]. cbv zeta.
  match goal with |- bind ?x _ = bind ?y _ => change y with x; generalize x end.
  intros [[i2 o2]| | |]; cbn [bind]; auto. destruct checked; reflexivity.
Qed.

(** a round that ends at the closing quote *)
Lemma dec_body_end : forall checked ex ah (buf : list N) bnd i o u,
  Forall plain u -> sub_at buf i u -> nth_error buf (i + length u) = Some 34 -> (0 < length u)%nat ->
  (i + length u <= bnd)%nat -> (bnd <= length buf)%nat -> (length (o_bytes o) + length u <= o_cap o)%nat ->
  dec_body checked ex ah false buf bnd (i, o) = Ok (inl ((i + length u)%nat, mkout (o_bytes o ++ u) (o_cap o))).
Proof.
  intros checked ex ah buf bnd i o u P SU N34 L0 LB LL C. unfold dec_body.
  assert (GO : (if checked && negb (i <? bnd)%nat then Ok false else c <- rd buf i ;; Ok (negb (c =? c_quote))) = Ok true).
  { replace (i <? bnd)%nat with true by lia. cbn [negb]. rewrite andb_false_r.
    destruct u as [|x u]; [cbn in L0; lia|].
    destruct SU as [SX _]. inversion P as [|? ? PX _]; subst. rewrite (rd_some _ _ _ SX). cbn [bind].
    destruct PX as [PX _]. f_equal. unfold c_quote. lia. }
  rewrite GO. cbn [bind negb].
  rewrite (find_special checked ex buf u i bnd 34 P SU N34 not_plain_34) by lia.
  cbn [bind]. replace (i + length u - i)%nat with (length u) by lia.
  assert (EC : (if checked then _ <- ensure (length u <=? o_cap o - length (o_bytes o))%nat UnexpectedEndOfData ;; Ok o
                else Ok o) = Ok o).
  { destruct checked; [|reflexivity]. replace (length u <=? o_cap o - length (o_bytes o))%nat with true by lia. reflexivity. }
  rewrite EC. cbn [bind]. rewrite (firstn_skipn_at u buf i SU).
  rewrite put_ok by lia. cbn [bind]. rewrite (rd_some _ _ _ N34). cbn [bind].
  change (34 =? c_bslash) with false. cbn [negb orb]. destruct checked; reflexivity.
Qed.

(** [t] is read up to its last escape; the plain rest [u] is left. *)
Definition dm (bnd : nat) (s : nat * outb) : nat := (bnd - fst s)%nat.

Ltac same_pos := match goal with |- Ok (inl (?a, _)) = Ok (inl (?b, _)) => replace a with b by (cbn [length]; lia) end; reflexivity.

Lemma dec_runs : forall checked ex allow_high (buf : list N) bnd n t s, (length t <= n)%nat -> denotes t s ->
  exists t0 u s0, t = t0 ++ u /\ s = s0 ++ u /\ Forall plain u /\ denotes t0 s0 /\
  forall i o, sub_at buf i t -> (i + length t <= bnd)%nat -> (bnd <= length buf)%nat ->
  (length (o_bytes o) + length t <= o_cap o)%nat ->
  runs (dec_body checked ex allow_high false buf bnd) (dm bnd) (i, o)
       ((i + length t0)%nat, mkout (o_bytes o ++ s0) (o_cap o)).
Proof.
  intros checked ex ah buf bnd.
  induction n as [|n IH]; intros t s Ln D.
  { destruct t; [|cbn in Ln; lia]. inversion D; subst.
    exists [], [], []. split; [reflexivity|]. split; [reflexivity|]. split; [constructor|]. split; [constructor|].
    intros i o _ _ _ _. cbn [length]. rewrite Nat.add_0_r, app_nil_r. destruct o. constructor. }
  destruct (denotes_split t s D) as (u & t' & s' & Et & Es & P & D' & Cs).
  assert (Lt : length t = (length u + length t')%nat) by (rewrite Et; apply app_length).
  destruct Cs as [Ht|(e & r & Ht)].
  { subst t'. inversion D'; subst s'. rewrite app_nil_r in *. subst t s.
    exists [], u, []. split; [reflexivity|]. split; [reflexivity|]. split; [assumption|]. split; [constructor|].
    intros i o _ _ _ _. cbn [length]. rewrite Nat.add_0_r, app_nil_r. destruct o. constructor. }
  (* the rest [r2] after the first escape, which denotes [b] *)
  assert (STEP : exists es b r2 s2, 92 :: e :: r = es ++ r2 /\ s' = b ++ s2 /\ denotes r2 s2 /\ (2 <= length es)%nat /\
    denotes es b /\
    forall i o, sub_at buf i t -> (i + length t <= bnd)%nat -> (bnd <= length buf)%nat ->
    (length (o_bytes o) + length t <= o_cap o)%nat ->
    (length b <= length es)%nat /\
    dec_body checked ex ah false buf bnd (i, o) =
      Ok (inl ((i + length u + length es)%nat, mkout (o_bytes o ++ u ++ b) (o_cap o)))).
  { assert (COMMON : forall i o, sub_at buf i t -> (i + length t <= bnd)%nat -> (bnd <= length buf)%nat ->
      (length (o_bytes o) + length t <= o_cap o)%nat ->
      sub_at buf (Datatypes.S (i + length u)) (e :: r) /\
      dec_body checked ex ah false buf bnd (i, o) =
       (let o1 := mkout (o_bytes o ++ u) (o_cap o) in
       '(i, o) <-
         (_ <- (if checked then ensure (negb (spacelike e)) InvalidUTFCodepoint else Ok tt) ;;
         (if e =? 98 then o <- put o1 [8] ;; Ok (Datatypes.S (Datatypes.S (i + length u)), o)
         else if e =? 102 then o <- put o1 [12] ;; Ok (Datatypes.S (Datatypes.S (i + length u)), o)
         else if e =? 110 then o <- put o1 [10] ;; Ok (Datatypes.S (Datatypes.S (i + length u)), o)
         else if e =? 114 then o <- put o1 [13] ;; Ok (Datatypes.S (Datatypes.S (i + length u)), o)
         else if e =? 116 then o <- put o1 [9] ;; Ok (Datatypes.S (Datatypes.S (i + length u)), o)
         else if e =? c_u then decode_utf16 checked buf (Datatypes.S (i + length u)) bnd o1
         else if (e =? c_slash) || (e =? c_bslash) || (e =? c_quote) then o <- put o1 [e] ;; Ok (Datatypes.S (Datatypes.S (i + length u)), o)
         else _ <- (if checked && negb ah then ensure (negb (spacelike e) && (e <=? 127)) InvalidStringHighASCII else Ok tt) ;;
              o <- put o1 [e] ;; Ok (Datatypes.S (Datatypes.S (i + length u)), o))) ;; Ok (inl (i, o)))).
    { intros i o S B LB C. rewrite Et in S. apply sub_at_app in S. destruct S as [SU ST].
      rewrite Ht in ST. destruct ST as (S92 & SE). split; [exact SE|].
      pose proof SE as [SE1 _]. subst t'. cbn [length] in Lt.
      apply dec_body_escape; auto; lia. }
    inversion D' as [| ? ? ? _ X _ | e0 x0 t0 s0 He D0 | ds u0 t0 s0 H4 Sc D0 | ds1 u1 ds2 u2 t0 s0 H1 H2 R1 R2 D0]; subst.
    + discriminate.
    + exfalso. match goal with E : _ = 92 :: _ |- _ => injection E as E1 E2 end. subst. now apply X.
    + match goal with E : _ = 92 :: _ |- _ => injection E as E1 E2 end. subst e0 t0.
      exists [92; e], [x0], r, s0. split; [reflexivity|]. split; [reflexivity|]. split; [assumption|].
      split; [cbn [length]; lia|]. split; [apply (dn_simple e x0 [] []); [assumption|constructor]|].
      intros i o S B LB C. split; [cbn [length]; lia|]. cbn [length] in Lt.
      destruct (COMMON i o S B LB C) as (_ & EQ). rewrite EQ. cbv zeta. clear EQ COMMON.
      set (o1 := mkout (o_bytes o ++ u) (o_cap o)).
      assert (Lo1 : length (o_bytes o1) = (length (o_bytes o) + length u)%nat) by (unfold o1; cbn [o_bytes]; apply app_length).
      assert (Co1 : o_cap o1 = o_cap o) by reflexivity.
      assert (PO : forall b, put o1 [b] = Ok (mkout (o_bytes o ++ u ++ [b]) (o_cap o))).
      { intro b. rewrite put_ok by (cbn [length]; lia). unfold o1. cbn [o_bytes o_cap]. now rewrite <- app_assoc. }
      unfold simple_escapes in He. cbn [In] in He.
      assert (SP : spacelike e = false) by (unfold spacelike; intuition (match goal with E : (_, _) = (_, _) |- _ => injection E as <- <- end; reflexivity)).
      rewrite SP. cbn [negb].
      replace (if checked then ensure true InvalidUTFCodepoint else Ok tt) with (Ok tt) by (destruct checked; reflexivity).
      cbn [bind length].
      replace (i + length u + 2)%nat with (Datatypes.S (Datatypes.S (i + length u))) by lia.
      clear - He PO.
      repeat match goal with H : _ \/ _ |- _ => destruct H as [H|H] end;
          try contradiction; injection He as <- <-; unfold c_u, c_slash, c_bslash, c_quote; 
          cbn [N.eqb Pos.eqb orb]; rewrite PO; reflexivity.
    + match goal with E : _ = 92 :: _ |- _ => injection E as E1 E2 end. subst e r.
      exists (92 :: 117 :: ds), (utf8 u0), t0, s0. split; [reflexivity|]. split; [reflexivity|]. split; [assumption|].
      pose proof (hex4_length _ _ H4) as L4. pose proof (utf8_length3 u0 (hex4_lt _ _ H4)) as L3.
      split; [cbn [length]; lia|].
      split; [pose proof (dn_u ds u0 [] [] H4 Sc dn_nil) as Z; rewrite !app_nil_r in Z; exact Z|].
      intros i o S B LB C. split; [cbn [length]; lia|]. cbn [length] in Lt. rewrite (app_length ds t0) in Lt.
      destruct (COMMON i o S B LB C) as (SE & EQ). rewrite EQ. cbv zeta. clear EQ COMMON.
      set (o1 := mkout (o_bytes o ++ u) (o_cap o)).
      assert (Lo1 : length (o_bytes o1) = (length (o_bytes o) + length u)%nat) by (unfold o1; cbn [o_bytes]; apply app_length).
      assert (Co1 : o_cap o1 = o_cap o) by reflexivity.
      change (spacelike 117) with false. cbn [negb].
      replace (if checked then ensure true InvalidUTFCodepoint else Ok tt) with (Ok tt) by (destruct checked; reflexivity).
      cbn [bind N.eqb Pos.eqb]. unfold c_u. cbn [N.eqb Pos.eqb].
      rewrite (decode_u checked buf (Datatypes.S (i + length u)) _ o1 ds u0); auto;
        [|destruct SE as [SE1 SE2]; apply sub_at_app in SE2; split; [exact SE1|apply SE2]|intros _; lia|lia].
      cbn [bind length o_cap o_bytes]. unfold o1. cbn [o_cap o_bytes]. rewrite <- app_assoc. same_pos.
    + match goal with E : _ = 92 :: _ |- _ => injection E as E1 E2 end. subst e r.
      set (cp := 65536 + (u1 - 55296) * 1024 + (u2 - 56320)) in *.
      exists (92 :: 117 :: ds1 ++ 92 :: 117 :: ds2), (utf8 cp), t0, s0.
      split; [cbn [app]; rewrite <- app_assoc; reflexivity|]. split; [reflexivity|]. split; [assumption|].
      pose proof (hex4_length _ _ H1) as L4. pose proof (hex4_length _ _ H2) as L5.
      pose proof (utf8_length cp) as L3.
      assert (LE : length (92 :: 117 :: ds1 ++ 92 :: 117 :: ds2) = 12%nat).
      { cbn [length]. rewrite app_length. cbn [length]. lia. }
      rewrite LE. split; [lia|].
      split; [pose proof (dn_pair ds1 u1 ds2 u2 [] [] H1 H2 R1 R2 dn_nil) as Z; rewrite !app_nil_r in Z; exact Z|].
      intros i o S B LB C. split; [lia|].
      cbn [length] in Lt. rewrite (app_length ds1 (_ :: _)) in Lt. cbn [length] in Lt. rewrite (app_length ds2 t0) in Lt.
      destruct (COMMON i o S B LB C) as (SE & EQ). rewrite EQ. cbv zeta. clear EQ COMMON.
      set (o1 := mkout (o_bytes o ++ u) (o_cap o)).
      assert (Lo1 : length (o_bytes o1) = (length (o_bytes o) + length u)%nat) by (unfold o1; cbn [o_bytes]; apply app_length).
      assert (Co1 : o_cap o1 = o_cap o) by reflexivity.
      change (spacelike 117) with false. cbn [negb].
      replace (if checked then ensure true InvalidUTFCodepoint else Ok tt) with (Ok tt) by (destruct checked; reflexivity).
      cbn [bind N.eqb Pos.eqb]. unfold c_u. cbn [N.eqb Pos.eqb].
      assert (SX : sub_at buf (Datatypes.S (i + length u)) (117 :: ds1 ++ 92 :: 117 :: ds2)).
      { assert (SY : sub_at buf (Datatypes.S (i + length u)) ((117 :: ds1 ++ 92 :: 117 :: ds2) ++ t0)).
        { cbn [app]. rewrite <- app_assoc. cbn [app]. exact SE. }
        apply sub_at_app in SY. apply SY. }
      rewrite (decode_pair checked buf (Datatypes.S (i + length u)) _ o1 ds1 u1 ds2 u2); auto; [|intros _; lia|lia].
      fold cp. cbn [bind o_cap o_bytes]. unfold o1. cbn [o_cap o_bytes]. rewrite <- app_assoc. same_pos. }
  destruct STEP as (es & b & r2 & s2 & E1 & E2 & D2 & L2 & DE & ST).
  assert (Lr : length t' = (length es + length r2)%nat) by (rewrite Ht, E1; apply app_length).
  destruct (IH r2 s2 ltac:(lia) D2) as (t0 & u' & s0 & F1 & F2 & PU & D0 & R).
  exists (u ++ es ++ t0), u', (u ++ b ++ s0).
  split; [subst; rewrite E1; now rewrite <- !app_assoc|]. split; [subst; now rewrite <- !app_assoc|].
  split; [assumption|]. split.
  { apply denotes_plain_app; [assumption|]. now apply denotes_app. }
  intros i o S B LB C. destruct (ST i o S B LB C) as (Lb & EQ).
  eapply runs_step; [exact EQ|unfold dm; cbn [fst]; lia|].
  replace (i + length (u ++ es ++ t0))%nat with (i + length u + length es + length t0)%nat by (rewrite !app_length; lia).
  replace (o_bytes o ++ u ++ b ++ s0) with ((o_bytes o ++ u ++ b) ++ s0) by (rewrite <- !app_assoc; reflexivity).
  apply (R (i + length u + length es)%nat (mkout (o_bytes o ++ u ++ b) (o_cap o))).
  - rewrite Et, Ht, E1 in S. apply sub_at_app in S. destruct S as [_ S]. apply sub_at_app in S. apply S.
  - lia.
  - assumption.
  - cbn [o_bytes o_cap]. rewrite !app_length. lia.
Qed.

(** running up to the closing quote *)
Lemma dec_loop : forall checked ex allow_high (buf : list N) bnd t s i o,
  denotes t s -> sub_at buf i (t ++ [34]) -> (i + length t = bnd)%nat -> (bnd < length buf)%nat ->
  (length (o_bytes o) + length t <= o_cap o)%nat ->
  forall f, (bnd - i < f)%nat ->
  loop (dec_body checked ex allow_high false buf bnd) f (i, o) =
    Ok (bnd, mkout (o_bytes o ++ s) (o_cap o)).
Proof.
  intros checked ex ah buf bnd t s i o D S B LB C f F.
  apply sub_at_app in S. destruct S as [S [SQ _]]. rewrite B in SQ.
  assert (EXIT : forall o, dec_body checked ex ah false buf bnd (bnd, o) = Ok (inr (bnd, o))).
  { intros o'. unfold dec_body. rewrite Nat.ltb_irrefl. cbn [negb]. rewrite andb_true_r.
    destruct checked; [reflexivity|]. rewrite (rd_some _ _ _ SQ). reflexivity. }
  destruct (dec_runs checked ex ah buf bnd (length t) t s (le_n _) D) as (t0 & u & s0 & -> & -> & P & D0 & R).
  rewrite app_length in *.
  eapply loop_exit with (m := dm bnd) (s' := (bnd, mkout (o_bytes o ++ s0 ++ u) (o_cap o))); [|apply EXIT|unfold dm; cbn [fst]; lia].
  eapply runs_trans; [apply (R i o S); lia|].
  destruct u as [|x u].
  { cbn [length] in B. rewrite Nat.add_0_r in B. rewrite B, app_nil_r. constructor. }
  set (v := x :: u) in *. assert (Lv : (0 < length v)%nat) by (unfold v; cbn; lia).
  apply sub_at_app in S. destruct S as [_ SV].
  apply runs_one; [|unfold dm; cbn [fst]; lia].
  rewrite (dec_body_end checked ex ah buf bnd _ _ v); auto; try lia.
  - cbn [o_bytes o_cap]. rewrite <- app_assoc. same_pos.
  - replace (i + length t0 + length v)%nat with bnd by lia. exact SQ.
  - cbn [o_bytes o_cap]. rewrite app_length.
    pose proof (denotes_shorter t0 s0 D0). lia.
Qed.

(** ** The whole function *)

Lemma denotes_plain_inv : forall u t s, Forall plain u -> denotes (u ++ t) s ->
  exists s', s = u ++ s' /\ denotes t s'.
Proof.
  induction u as [|x u IH]; intros t s P D; [exists s; auto|].
  inversion P as [|? ? [Px Qx] P']; subst. cbn [app] in D.
  inversion D as [| ? ? ? _ _ D0 | | |]; subst; try (exfalso; apply Qx; reflexivity).
  destruct (IH t s0 P' D0) as (s' & -> & D1). exists s'. auto.
Qed.

Lemma hex_plain : forall c, is_hex c -> c <> 34 /\ c <> 92.
Proof. unfold is_hex. lia. Qed.
Lemma hex4_body : forall ds u t, hex4 ds u -> str_body t -> str_body (ds ++ t).
Proof.
  intros ds u t (a & b & c & d & -> & Ha & Hb & Hc & Hd & _) H. cbn [app].
  apply hex_plain in Ha, Hb, Hc, Hd.
  repeat (apply sb_plain; [apply Ha||apply Hb||apply Hc||apply Hd|apply Ha||apply Hb||apply Hc||apply Hd|]). exact H.
Qed.

Lemma denotes_body : forall t s, denotes t s -> str_body t.
Proof.
  intros t s H. induction H as [|c t s H1 H2 H IH|e c t s He H IH|ds u t s H1 H2 H IH|ds1 u1 ds2 u2 t s H1 H2 H3 H4 H IH].
  - constructor.
  - now constructor.
  - now constructor.
  - apply sb_esc. now apply hex4_body with (u := u).
  - apply sb_esc. apply hex4_body with (u := u1); [assumption|]. apply sb_esc. now apply hex4_body with (u := u2).
Qed.

Lemma escape_offset_some : forall t k, str_body t -> escape_offset t = Some k ->
  exists u r, t = u ++ 92 :: r /\ Forall plain u /\ length u = k.
Proof.
  intros t k B E. destruct (str_body_split t B) as (u & r & -> & P & [->|(c & r' & -> & _)]);
    rewrite escape_offset_plain in E by assumption; cbn [escape_offset option_map N.eqb Pos.eqb] in E; [discriminate|].
  injection E as <-. exists u, (c :: r'). split; [reflexivity|]. split; [assumption|lia].
Qed.

Lemma decode_known : forall checked ex allow_high (buf : list N) p t s,
  denotes t s -> t <> [] -> sub_at buf (first p) (t ++ [34]) -> last p = (first p + length t)%nat ->
  (first p + length t < length buf)%nat -> N.of_nat (length t) < 2 ^ 63 ->
  counter p = match escape_offset t with Some k => N.of_nat k | None => 2^64 - 1 end ->
  parse_string_known_stdstring checked ex allow_high buf p = Ok s.
Proof.
  intros checked ex ah buf p t s D NE S L LB L63 CN. unfold parse_string_known_stdstring, front.
  assert (HQ : exists c, nth_error buf (first p) = Some c /\ c <> 34).
  { inversion D; subst; [congruence| | | |]; destruct S as [S _]; eexists; (split; [exact S|]); auto; discriminate. }
  destruct HQ as (c & NC & NQ). rewrite (rd_some _ _ _ NC). cbn [bind].
  replace (c =? c_quote) with false by (unfold c_quote; lia).
  unfold ps_size. rewrite L. replace (first p + length t - first p)%nat with (length t) by lia.
  set (i := first p) in *. cbv zeta.
  assert (CP : exists u t', t = u ++ t' /\ Forall plain u /\
    (if (1 <? signed64 (counter p) - 1)%Z
     then if (i + Z.to_nat (signed64 (counter p) - 1) <=? length buf)%nat
       then o <- put (mkout [] (length t + 1)) (firstn (Z.to_nat (signed64 (counter p) - 1)) (skipn i buf)) ;;
            Ok ((i + Z.to_nat (signed64 (counter p) - 1))%nat, o)
       else UB
     else Ok (i, mkout [] (length t + 1))) = Ok ((i + length u)%nat, mkout u (length t + 1))).
  { rewrite CN. destruct (escape_offset t) as [k|] eqn:EK.
    - destruct (escape_offset_some t k (denotes_body _ _ D) EK) as (u0 & t0 & -> & P0 & Lk). subst k.
      unfold signed64. rewrite app_length in *. cbn [length] in *.
      replace (N.of_nat (length u0) <? 2 ^ 63) with true by lia.
      destruct (1 <? Z.of_N (N.of_nat (length u0)) - 1)%Z eqn:E1.
      + assert (X : exists u1 x, u0 = u1 ++ [x]).
        { destruct (exists_last (l := u0)) as (u1 & x & ->); [|eauto]. intros ->. cbn in E1. lia. }
        destruct X as (u1 & x & ->). rewrite app_length in *. cbn [length] in *.
        exists u1, ([x] ++ 92 :: t0). split; [now rewrite <- app_assoc|].
        apply Forall_app in P0 as [P0 _]. split; [exact P0|].
        replace (Z.to_nat (Z.of_N (N.of_nat (length u1 + 1)) - 1)) with (length u1) by lia.
        replace (i + length u1 <=? length buf)%nat with true by lia.
        rewrite firstn_skipn_at. 2:{ rewrite <- !app_assoc in S. apply sub_at_app in S. apply S. }
        rewrite put_ok by (cbn [o_bytes o_cap length]; lia). reflexivity.
      + exists [], (u0 ++ 92 :: t0). split; [reflexivity|]. split; [constructor|].
        cbn [length]. now rewrite Nat.add_0_r.
    - exists [], t. split; [reflexivity|]. split; [constructor|]. cbn [length].
      replace (1 <? signed64 (2 ^ 64 - 1) - 1)%Z with false by reflexivity. now rewrite (Nat.add_0_r i). }
  destruct CP as (u & t' & -> & P & E). rewrite E. cbn [bind].
  destruct (denotes_plain_inv u t' s P D) as (s' & -> & D').
  rewrite app_length in *. rewrite <- app_assoc in S. apply sub_at_app in S. destruct S as [S1 S2].
  rewrite (dec_loop checked ex ah buf (i + (length u + length t')) t' s'); auto;
    cbn [o_bytes o_cap]; lia.
Qed.
