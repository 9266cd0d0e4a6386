(** Proofs about writing strings (see StrEncodeModel, SpecUnicode). *)
From Coq Require Import List NArith ZArith Bool Lia Arith ZifyBool ZifyNat ZifyN.
From Verif Require Import Base Bits Mem Loop PolicyModel IntModel SpecNum SpecText SpecJson SpecUnicode
  StrDecodeModel StrDecodeProofs StrEncodeModel.
Import ListNotations.
Local Open Scope N_scope.
Ltac Zify.zify_post_hook ::= Z.to_euclidean_division_equations.

(** The bytes of a sequence of code points *)
Definition encode (cps : list N) : list N := concat (map utf8 cps).

Lemma land_pow : forall a m k, m = N.ones k -> N.land a m = a mod 2 ^ k.
Proof. intros a m k ->. apply N.land_ones. Qed.

Lemma seq_len_utf8 : forall cp, cp <= 1114111 ->
  exists b r, utf8 cp = b :: r /\ seq_len b = length (utf8 cp).
Proof.
  intros cp H. unfold utf8, seq_len.
  destruct (cp <? 128) eqn:E1; [|destruct (cp <? 2048) eqn:E2; [|destruct (cp <? 65536) eqn:E3]];
    do 2 eexists; (split; [reflexivity|]).
  - now rewrite E1.
  - rewrite !N.shiftr_div_pow2. change (2 ^ 5) with 32.
    replace (192 + cp / 64 <? 128) with false by lia. replace ((192 + cp / 64) / 32 =? 6) with true by lia. reflexivity.
  - rewrite !N.shiftr_div_pow2. change (2 ^ 5) with 32. change (2 ^ 4) with 16.
    replace (224 + cp / 4096 <? 128) with false by lia. replace ((224 + cp / 4096) / 32 =? 6) with false by lia.
    replace ((224 + cp / 4096) / 16 =? 14) with true by lia. reflexivity.
  - rewrite !N.shiftr_div_pow2. change (2 ^ 5) with 32. change (2 ^ 4) with 16. change (2 ^ 3) with 8.
    replace (240 + cp / 262144 <? 128) with false by lia. replace ((240 + cp / 262144) / 32 =? 6) with false by lia.
    replace ((240 + cp / 262144) / 16 =? 14) with false by lia.
    replace ((240 + cp / 262144) / 8 =? 30) with true by lia. reflexivity.
Qed.

Lemma next_cp_utf8 : forall cp s i, cp <= 1114111 -> sub_at s i (utf8 cp) -> next_cp s i = Ok cp.
Proof.
  intros cp s i H S. destruct (seq_len_utf8 cp H) as (b & r & E & SL).
  unfold next_cp. assert (NB : nth_error s i = Some b) by (rewrite E in S; apply S).
  rewrite (rd_some _ _ _ NB). cbn [bind]. rewrite SL. clear SL NB.
  unfold utf8 in *.
  destruct (cp <? 128) eqn:E1; [|destruct (cp <? 2048) eqn:E2; [|destruct (cp <? 65536) eqn:E3]];
    (pose proof (f_equal (hd 0) E) as Eb; cbn [hd] in Eb; subst b; clear E; cbn [length]).
  - reflexivity.
  - destruct S as (_ & S1 & _). replace (i + 1)%nat with (Datatypes.S i) by lia. rewrite (rd_some _ _ _ S1). cbn [bind].
    rewrite (land_pow _ 2047 11), (land_pow _ 63 6), N.shiftl_mul_pow2 by reflexivity.
    change (2 ^ 11) with 2048. change (2 ^ 6) with 64. f_equal. lia.
  - destruct S as (_ & S1 & S2 & _). replace (i + 1)%nat with (Datatypes.S i) by lia.
    replace (i + 2)%nat with (Datatypes.S (Datatypes.S i)) by lia.
    rewrite (rd_some _ _ _ S1), (rd_some _ _ _ S2). cbn [bind].
    rewrite (land_pow _ 65535 16), (land_pow _ 4095 12), (land_pow _ 63 6), !N.shiftl_mul_pow2 by reflexivity.
    change (2 ^ 12) with 4096. change (2 ^ 16) with 65536. change (2 ^ 6) with 64. f_equal. lia.
  - destruct S as (_ & S1 & S2 & S3 & _). replace (i + 1)%nat with (Datatypes.S i) by lia.
    replace (i + 2)%nat with (Datatypes.S (Datatypes.S i)) by lia.
    replace (i + 3)%nat with (Datatypes.S (Datatypes.S (Datatypes.S i))) by lia.
    rewrite (rd_some _ _ _ S1), (rd_some _ _ _ S2), (rd_some _ _ _ S3). cbn [bind].
    rewrite (land_pow _ 2097151 21), (land_pow _ 262143 18), (land_pow _ 4095 12), (land_pow _ 63 6), !N.shiftl_mul_pow2 by reflexivity.
    change (2 ^ 12) with 4096. change (2 ^ 18) with 262144. change (2 ^ 21) with 2097152. change (2 ^ 6) with 64. f_equal. lia.
Qed.

(** upper case hex digit *)
Definition hexc (n : N) : N := if n <? 10 then n + 48 else n - 10 + 65.
Lemma hexc_hex : forall n, n < 16 -> is_hex (hexc n) /\ hex_val (hexc n) = n.
Proof. intros n H. unfold hexc, is_hex, hex_val. destruct (n <? 10) eqn:E; (split; [lia|]);
  repeat match goal with |- context [?a <=? ?b] => destruct (a <=? b) eqn:?; try lia end. Qed.

Lemma nibble_char : forall x, to_nibble_char (N.land x 15) = Ok (hexc (x mod 16)).
Proof.
  intro x. rewrite (land_pow x 15 4) by reflexivity. change (2 ^ 4) with 16. unfold to_nibble_char.
  replace ((x mod 16) mod 256) with (x mod 16) by lia.
  replace (x mod 16 <? 16) with true by lia. reflexivity.
Qed.

Definition hexd (c : N) : list N := [hexc (c / 4096 mod 16); hexc (c / 256 mod 16); hexc (c / 16 mod 16); hexc (c mod 16)].

Lemma output_hex_ok : forall c, c < 65536 -> output_hex c = Ok (92 :: 117 :: hexd c) /\ hex4 (hexd c) c.
Proof.
  intros c H. split.
  - unfold output_hex. change (2 ^ 16) with 65536. rewrite N.mod_small by assumption.
    rewrite !nibble_char, !N.shiftr_div_pow2. reflexivity.
  - unfold hex4, hexd. do 4 eexists. split; [reflexivity|].
    destruct (hexc_hex (c / 4096 mod 16)) as [H1 V1]; [lia|].
    destruct (hexc_hex (c / 256 mod 16)) as [H2 V2]; [lia|].
    destruct (hexc_hex (c / 16 mod 16)) as [H3 V3]; [lia|].
    destruct (hexc_hex (c mod 16)) as [H4 V4]; [lia|].
    rewrite V1, V2, V3, V4. do 4 (split; [assumption|]). clear - H. lia.
Qed.

Lemma utf32_ok : forall cp, cp <= 1114111 -> utf32_to_utf8 cp = Ok (utf8 cp).
Proof.
  intros cp H. destruct (N.ltb_spec cp 128) as [L|L].
  - unfold utf32_to_utf8, utf8. replace (cp <=? 127) with true by lia. replace (cp <? 128) with true by lia.
    rewrite N.mod_small by lia. reflexivity.
  - rewrite <- enc_utf8_ok by lia. unfold utf32_to_utf8, enc_utf8, u32toC.
    replace (cp <=? 127) with false by lia. replace (cp <=? 1114111) with true by lia.
    destruct (65536 <=? cp) eqn:E1; destruct (2048 <=? cp) eqn:E2; try lia;
      repeat match goal with |- context [?a <=? ?b] => destruct (a <=? b) eqn:?; try lia end; reflexivity.
Qed.

Lemma utf8_high : forall cp, 128 <= cp -> Forall (fun b => 128 <= b) (utf8 cp).
Proof.
  intros cp H. unfold utf8. replace (cp <? 128) with false by lia.
  destruct (cp <? 2048), (cp <? 65536); repeat constructor; lia.
Qed.

(** What one code point is written as *)
Lemma escape_cp_ok : forall restrict cp, scalar cp ->
  exists t, escape_cp restrict cp = Ok t /\ denotes t (utf8 cp) /\ rfc_body t /\
    (restrict = true -> Forall (fun b => 32 <= b < 127) t) /\ (length t <= 12)%nat /\ (1 <= length t)%nat.
Proof.
  intros restrict cp SC. unfold escape_cp.
  assert (SIMPLE : forall e c, In (e, c) simple_escapes -> utf8 c = [c] /\ 
     denotes [92; e] (utf8 c) /\ rfc_body [92; e] /\ (restrict = true -> Forall (fun b => 32 <= b < 127) [92; e]) /\
     (length (92%N :: e :: nil) <= 12)%nat /\ (1 <= length (92%N :: e :: nil))%nat).
  { intros e c IN. assert (U : utf8 c = [c]).
    { unfold simple_escapes in IN. cbn [In] in IN. 
      repeat match goal with H : _ \/ _ |- _ => destruct H as [H|H] end; try contradiction; injection IN as <- <-; reflexivity. }
    split; [exact U|]. rewrite U. split; [apply dn_simple; [exact IN|constructor]|].
    assert (IE : In e [34; 92; 47; 98; 102; 110; 114; 116] /\ 32 <= e < 127).
    { unfold simple_escapes in IN. cbn [In] in *.
      repeat match goal with H : _ \/ _ |- _ => destruct H as [H|H] end; try contradiction; injection IN as <- <-; (split; [tauto|lia]). }
    destruct IE as [IE IR].
    split; [apply rb_esc; [exact IE|constructor]|]. split; [|cbn; lia]. intros _. repeat constructor; lia. }
  repeat match goal with |- context [if cp =? ?c then Ok [?a; ?b] else _] =>
    destruct (N.eqb_spec cp c) as [->|?];
      [ exists [a; b]; split; [reflexivity|]; apply SIMPLE; unfold simple_escapes; cbn [In]; tauto |] end.
  clear SIMPLE.
  assert (HEX : forall c, c < 65536 -> rfc_body (92 :: 117 :: hexd c) /\
     Forall (fun b => 32 <= b < 127) (92 :: 117 :: hexd c)).
  { intros c _. assert (X : forall k, k < 16 -> is_hex (hexc k)) by (intros k Hk; apply (hexc_hex k Hk)).
    assert (Y : forall b, is_hex b -> 32 <= b < 127) by (unfold is_hex; lia).
    unfold hexd. set (a1 := c / 4096 mod 16). set (a2 := c / 256 mod 16). set (a3 := c / 16 mod 16). set (a4 := c mod 16).
    assert (a1 < 16 /\ a2 < 16 /\ a3 < 16 /\ a4 < 16) as (L1 & L2 & L3 & L4) by (unfold a1, a2, a3, a4; repeat split; lia).
    clearbody a1 a2 a3 a4. split; [apply rb_u; auto; constructor|].
    repeat (constructor; [try lia; auto|]). constructor. }
  assert (ONE : cp < 65536 -> exists t, output_hex cp = Ok t /\ denotes t (utf8 cp) /\ rfc_body t /\
    (restrict = true -> Forall (fun b => 32 <= b < 127) t) /\ (length t <= 12)%nat /\ (1 <= length t)%nat).
  { intros L. destruct (output_hex_ok cp L) as [E H4]. destruct (HEX cp L) as [R F].
    exists (92 :: 117 :: hexd cp). split; [exact E|].
    split; [pose proof (dn_u _ _ [] [] H4 SC dn_nil) as X; rewrite !app_nil_r in X; exact X|].
    split; [exact R|]. split; [auto|]. cbn. lia. }
  destruct (cp <? 32) eqn:E32; [apply ONE; lia|].
  assert (PLAIN : restrict = false \/ cp < 127 -> exists t, utf32_to_utf8 cp = Ok t /\ denotes t (utf8 cp) /\ rfc_body t /\
    (restrict = true -> Forall (fun b => 32 <= b < 127) t) /\ (length t <= 12)%nat /\ (1 <= length t)%nat).
  { intros L. exists (utf8 cp). split; [apply utf32_ok; unfold scalar in SC; lia|].
    assert (F : Forall (fun b => 32 <= b /\ b <> 34 /\ b <> 92) (utf8 cp)).
    { destruct (N.ltb_spec cp 128) as [L1|L1].
      - rewrite utf8_ascii by lia. constructor; [|constructor]. lia.
      - pose proof (utf8_high cp L1) as X. eapply Forall_impl; [|exact X]. cbv beta. lia. }
    split; [|split; [|split]].
    - clear - F. induction F as [|b r (F1 & F2 & F3) F IH]; constructor; auto.
    - clear - F. induction F as [|b r (F1 & F2 & F3) F IH]; constructor; auto.
    - intros ->. destruct L as [L|L]; [discriminate|]. rewrite utf8_ascii by lia. constructor; [|constructor]. lia.
    - pose proof (utf8_length cp). lia. }
  destruct restrict; cbn [andb]; [|apply PLAIN; auto].
  destruct ((127 <=? cp) && (cp <=? 65535)) eqn:EM.
  { replace (true && (127 <=? cp) && (cp <=? 65535)) with true by lia. apply ONE. lia. }
  replace (true && (127 <=? cp) && (cp <=? 65535)) with false by lia.
  destruct (65535 <? cp) eqn:EH; [|apply PLAIN; lia]. cbn [andb].
  rewrite N.shiftr_div_pow2, (land_pow cp 1023 10) by reflexivity. change (2 ^ 10) with 1024.
  assert (CL : 65536 <= cp <= 1114111) by (unfold scalar in SC; lia).
  set (h := 55232 + cp / 1024). set (l := 56320 + cp mod 1024).
  assert (RH : 55296 <= h <= 56319) by (unfold h; lia). assert (RL : 56320 <= l <= 57343) by (unfold l; lia).
  assert (EQ : 65536 + (h - 55296) * 1024 + (l - 56320) = cp) by (unfold h, l; lia). clearbody h l.
  destruct (output_hex_ok h) as [EA HA]; [lia|]. destruct (output_hex_ok l) as [EB HB]; [lia|].
  rewrite EA, EB. cbn [bind].
  exists ((92 :: 117 :: hexd h) ++ 92 :: 117 :: hexd l). split; [reflexivity|].
  destruct (HEX h ltac:(lia)) as [RA FA]. destruct (HEX l ltac:(lia)) as [RB FB].
  split; [|split; [|split]].
  - pose proof (dn_pair _ _ _ _ [] [] HA HB RH RL dn_nil) as X. rewrite EQ, !app_nil_r in X. exact X.
  - unfold hexd in RA |- *. cbn [app]. unfold hexd in RA. inversion RA; subst; [match goal with H : 92 <> 92 |- _ => now contradiction H end| |].
    + match goal with H : In 117 _ |- _ => exfalso; clear - H; cbn [In] in H; lia end.
    + apply rb_u; auto.
  - intros _. apply Forall_app. auto.
  - rewrite app_length. cbn. lia.
Qed.

Lemma nth_mid : forall (pre : list N) b r, nth_error (pre ++ b :: r) (length pre) = Some b.
Proof. intros pre b r. rewrite nth_error_app2 by lia. now rewrite Nat.sub_diag. Qed.

Lemma rfc_app : forall t1 t2, rfc_body t1 -> rfc_body t2 -> rfc_body (t1 ++ t2).
Proof. intros t1 t2 H H2. induction H; cbn [app]; auto using rb_plain, rb_esc, rb_u. Qed.

Lemma utf8_cons : forall cp, exists b r, utf8 cp = b :: r.
Proof. intro cp. unfold utf8. destruct (cp <? 128), (cp <? 2048), (cp <? 65536); eauto. Qed.

Lemma esc_loop : forall ei rh cps pre out f, Forall scalar cps -> (length (encode cps) < f)%nat ->
  exists t, loop (esc_body ei rh (pre ++ encode cps)) f (length pre, out) = Ok (out ++ t) /\
    denotes t (encode cps) /\ rfc_body t /\ (rh = true -> Forall (fun b => 32 <= b < 127) t) /\
    (length t <= 12 * length (encode cps))%nat.
Proof.
  intros ei rh. induction cps as [|cp cps IH]; intros pre out f FS F.
  - exists []. destruct f; [cbn in F; lia|]. cbn [loop]. unfold esc_body at 1. unfold encode. cbn [map concat].
    rewrite !app_nil_r. rewrite Nat.eqb_refl. cbn [bind].
    split; [reflexivity|]. split; [constructor|]. split; [constructor|]. split; [constructor|cbn; lia].
  - inversion FS as [|? ? SC FS']; subst.
    assert (CL : cp <= 1114111) by (unfold scalar in SC; lia).
    unfold encode in *. cbn [map concat] in *. fold (encode cps) in *.
    rewrite app_length in F. pose proof (utf8_length cp) as LU.
    destruct (escape_cp_ok rh cp SC) as (t1 & E1 & D1 & R1 & F1 & L1 & _).
    specialize (IH (pre ++ utf8 cp) (out ++ t1)).
    destruct f; [lia|]. destruct (IH f FS' ltac:(lia)) as (t2 & E2 & D2 & R2 & F2 & L2). clear IH.
    exists (t1 ++ t2). split; [|split; [|split; [|split]]].
    + cbn [loop]. unfold esc_body at 1. rewrite !app_length.
      replace (length pre =? length pre + (length (utf8 cp) + length (encode cps)))%nat with false by lia.
      rewrite (next_cp_utf8 cp) by (auto; apply sub_at_mid). cbn [bind].
      destruct (seq_len_utf8 cp CL) as (b & r & EB & SL).
      rewrite (rd_some _ _ b). 2:{ rewrite EB. cbn [app]. apply nth_mid. }
      cbn [bind]. rewrite SL.
      replace (length pre =? length pre + length (utf8 cp))%nat with false by lia. cbn [bind].
      rewrite E1. cbn [bind]. rewrite app_assoc, <- app_length, app_assoc. exact E2.
    + now apply denotes_app.
    + now apply rfc_app.
    + intros X. apply Forall_app. auto.
    + rewrite !app_length. lia.
Qed.

(** No lead byte of a longer sequence among the last three bytes *)
Definition no_late_lead (s : list N) : Prop :=
  forall i b, nth_error s i = Some b -> 192 <= b -> (i + 3 < length s)%nat.

Lemma seq_len_le : forall b, (seq_len b <= 4)%nat.
Proof. intro b. unfold seq_len. repeat match goal with |- context [if ?x then _ else _] => destruct x end; lia. Qed.
Lemma seq_len_short : forall b, b < 192 -> (seq_len b <= 1)%nat.
Proof.
  intros b H. unfold seq_len. rewrite !N.shiftr_div_pow2. change (2 ^ 5) with 32. change (2 ^ 4) with 16. change (2 ^ 3) with 8.
  destruct (b <? 128); [lia|]. replace (b / 32 =? 6) with false by lia. replace (b / 16 =? 14) with false by lia.
  replace (b / 8 =? 30) with false by lia. lia.
Qed.

Lemma hex_safe : forall c, exists t, output_hex c = Ok t.
Proof. intro c. unfold output_hex. rewrite !nibble_char. cbn [bind]. eauto. Qed.
Lemma utf32_safe : forall cp, outcome_ok (fun _ => True) (utf32_to_utf8 cp).
Proof. intro cp. unfold utf32_to_utf8. destruct (cp <=? 127), (cp <=? 2047), (cp <=? 65535), (cp <=? 1114111); exact I. Qed.
Lemma escape_safe : forall rh cp, outcome_ok (fun _ => True) (escape_cp rh cp).
Proof.
  intros rh cp. pose proof (utf32_safe cp) as U. unfold escape_cp.
  destruct (hex_safe cp) as (h & ->). destruct (hex_safe (55232 + N.shiftr cp 10)) as (h1 & ->).
  destruct (hex_safe (56320 + N.land cp 1023)) as (h2 & ->). cbn [bind].
  destruct (cp =? 34); [exact I|]. destruct (cp =? 92); [exact I|]. destruct (cp =? 8); [exact I|].
  destruct (cp =? 12); [exact I|]. destruct (cp =? 10); [exact I|]. destruct (cp =? 13); [exact I|].
  destruct (cp =? 9); [exact I|]. destruct (cp <? 32); [exact I|].
  destruct (rh && (127 <=? cp) && (cp <=? 65535)); [exact I|].
  destruct (rh && (65535 <? cp)); [exact I|]. exact U.
Qed.

Lemma copy_safe : forall ei rh s, no_late_lead s -> outcome_ok (fun _ => True) (copy_escaped ei rh s).
Proof.
  intros ei rh s NL. unfold copy_escaped.
  apply loop_inv with (I := fun st => (fst st <= length s)%nat) (m := fun st => (length s - fst st)%nat).
  - intros [i out] L. cbn [fst] in *. unfold esc_body.
    destruct (Nat.eqb_spec i (length s)) as [->|NE]; [exact I|].
    destruct (nth_error s i) as [b|] eqn:EB. 2:{ apply nth_error_None in EB. lia. }
    assert (ROOM : (i + seq_len b <= length s)%nat).
    { destruct (N.ltb_spec b 192) as [LB|LB]; [pose proof (seq_len_short b LB); lia|].
      pose proof (NL i b EB LB). pose proof (seq_len_le b). lia. }
    assert (NC : exists cp, next_cp s i = Ok cp).
    { unfold next_cp. rewrite (rd_some _ _ _ EB). cbn [bind].
      assert (RD : forall k, (k < seq_len b)%nat -> exists c, rd s (i + k) = Ok c).
      { intros k Hk. destruct (rd_in s (i + k)) as (c & Hc); [lia|]. exists c. now apply rd_some. }
      destruct (seq_len b) as [|[|[|[|[|n]]]]]; eauto.
      - destruct (RD 1%nat) as (c1 & ->); [lia|]. cbn [bind]. eauto.
      - destruct (RD 1%nat) as (c1 & ->); [lia|]. destruct (RD 2%nat) as (c2 & ->); [lia|]. cbn [bind]. eauto.
      - destruct (RD 1%nat) as (c1 & ->); [lia|]. destruct (RD 2%nat) as (c2 & ->); [lia|].
        destruct (RD 3%nat) as (c3 & ->); [lia|]. cbn [bind]. eauto. }
    destruct NC as (cp & ->). cbn [bind]. rewrite (rd_some _ _ _ EB). cbn [bind].
    destruct (Nat.eqb_spec i (i + seq_len b)) as [Z|Z].
    + destruct ei; cbn [bind]; [exact I|].
      eapply outcome_ok_bind; [apply escape_safe|]. intros e _. cbn [outcome_ok fst]. lia.
    + cbn [bind]. eapply outcome_ok_bind; [apply escape_safe|]. intros e _. cbn [outcome_ok fst]. lia.
  - cbn [fst]. lia.
  - cbn [fst]. lia.
Qed.
