From Coq Require Import List NArith ZArith Bool Lia Arith ZifyBool ZifyNat ZifyN.
From Verif Require Import Base Mem Bits PolicyModel IntModel IntSerModel SpecNum IntProofs.
Import ListNotations.
Ltac Zify.zify_post_hook ::= Z.div_mod_to_equations.
Local Open Scope N_scope.

(** ** In-place reversal *)

Lemma upd_app : forall a x y b, upd (a ++ x :: b) (length a) y = a ++ y :: b.
Proof. induction a; intros; cbn; [reflexivity|]. f_equal. auto. Qed.

Lemma rd_app : forall a x b, rd (a ++ x :: b) (length a) = Ok x.
Proof. intros. unfold rd. rewrite nth_error_app2, Nat.sub_diag by lia. reflexivity. Qed.

Lemma reverse_loop_spec : forall n fuel mid a b, (length mid <= n)%nat -> (n < fuel)%nat ->
  reverse_loop fuel (a ++ mid ++ b) (length a) (length a + length mid) = Ok (a ++ rev mid ++ b).
Proof.
  induction n as [n IH] using (well_founded_induction lt_wf).
  intros fuel mid a b Hn Hf. destruct fuel as [|f]; [lia|]. cbn [reverse_loop].
  destruct mid as [|x mid].
  - cbn [length app rev]. rewrite Nat.add_0_r, Nat.ltb_irrefl. reflexivity.
  - destruct (Nat.ltb_spec (length a) (length a + length (x :: mid))); [|cbn in *; lia].
    destruct mid as [|y mid] using rev_ind.
    + cbn [length app rev]. replace (length a + 1 - 1)%nat with (length a) by lia.
      rewrite rd_app. cbn [bind]. rewrite !upd_app.
      destruct f; [cbn in *; lia|]. cbn [reverse_loop].
      destruct (Nat.ltb_spec (S (length a)) (length a)); [lia|]. reflexivity.
    + clear IHmid. cbn [length]. rewrite app_length. cbn [length].
      replace (length a + S (length mid + 1) - 1)%nat with (length (a ++ x :: mid))
        by (rewrite app_length; cbn [length]; lia).
      replace (a ++ (x :: mid ++ [y]) ++ b) with ((a ++ x :: mid) ++ y :: b)
        by (rewrite <- !app_assoc; cbn [app]; rewrite <- app_assoc; reflexivity).
      rewrite (rd_app (a ++ x :: mid) y b).
      replace ((a ++ x :: mid) ++ y :: b) with (a ++ x :: (mid ++ y :: b))
        by (rewrite <- app_assoc; reflexivity).
      rewrite rd_app. cbn [bind]. rewrite upd_app.
      replace (a ++ y :: (mid ++ y :: b)) with ((a ++ y :: mid) ++ y :: b)
        by (rewrite <- app_assoc; reflexivity).
      replace (length (a ++ x :: mid)) with (length (a ++ y :: mid))
        by (rewrite !app_length; reflexivity).
      rewrite upd_app.
      specialize (IH (length mid)).
      replace ((a ++ y :: mid) ++ x :: b) with ((a ++ [y]) ++ mid ++ (x :: b))
        by (rewrite <- !app_assoc; reflexivity).
      replace (S (length a)) with (length (a ++ [y])) by (rewrite app_length; cbn [length]; lia).
      replace (length (a ++ y :: mid)) with (length (a ++ [y]) + length mid)%nat
        by (rewrite !app_length; cbn [length]; lia).
      cbn [length] in Hn; rewrite app_length in Hn; cbn [length] in Hn.
      rewrite IH by lia.
      cbn [rev]. rewrite rev_app_distr. cbn [rev app]. rewrite <- !app_assoc. reflexivity.
Qed.

Lemma reverse_from_spec : forall a m, reverse_from (a ++ m) (length a) = Ok (a ++ rev m).
Proof.
  intros. unfold reverse_from.
  pose proof (reverse_loop_spec (length m) (S (length (a ++ m))) m a []) as H.
  rewrite !app_nil_r in H. rewrite app_length in *. apply H; lia.
Qed.

(** ** Digit production *)

(* a positive numeral: digits, not starting with '0' *)
Definition pos_numeral (ds : list N) (v : N) : Prop :=
  digits ds /\ dec_val ds = v /\ exists h t, ds = h :: t /\ h <> 48.

Lemma digits_app : forall a b, digits (a ++ b) <-> digits a /\ digits b.
Proof. intros; unfold digits; apply Forall_app. Qed.

Lemma push_ok : forall cap l c, (length l < cap)%nat -> push cap l c = Ok (l ++ [c]).
Proof. intros. unfold push. destruct (Nat.ltb_spec (length l) cap); [reflexivity|lia]. Qed.

Lemma pos_numeral_snoc2 : forall ds v a b, pos_numeral ds v -> a < 10 -> b < 10 ->
  pos_numeral (ds ++ [48 + a; 48 + b]) (v * 100 + a * 10 + b).
Proof.
  intros ds v a b (H1 & H2 & h & t & H3 & H4) Ha Hb. repeat split.
  - apply digits_app. split; auto. repeat constructor; lia.
  - rewrite dec_val_app, H2. cbn [length]. change (10 ^ N.of_nat 2) with 100.
    unfold dec_val; cbn [dec_acc]. lia.
  - subst. exists h. eexists. split; [reflexivity|auto].
Qed.

(** [k] bounds the number of digits, which must fit into the buffer. *)
Lemma digit_loop_spec : forall fuel cap v l k, 0 < v -> v * 10 < 100 ^ N.of_nat fuel ->
  v < 10 ^ N.of_nat k -> (length l + k <= cap)%nat ->
  exists ds, pos_numeral ds v /\ (length ds <= k)%nat /\
    (r <- digit_loop fuel cap v l ;;
     let '(v', l') := r in if 0 <? v' then push cap l' (c_0 + v') else Ok l')
    = Ok (l ++ rev ds).
Proof.
  induction fuel as [|f IH]; intros cap v l k Hv Hf Hk Hc.
  - cbn in Hf. lia.
  - cbn [digit_loop]. destruct (N.leb_spec 10 v) as [G|G].
    + destruct k as [|[|k]]; [cbn in Hk; lia|change (10 ^ N.of_nat 1) with 10 in Hk; lia|].
      unfold digits100. replace (v mod 100 <? 100) with true by lia. cbn [bind].
      rewrite push_ok by lia. cbn [bind].
      rewrite push_ok by (rewrite app_length; cbn [length]; lia). cbn [bind].
      rewrite <- app_assoc. cbn [app].
      destruct (N.eq_dec (v / 100) 0) as [Z|NZ].
      * exists [48 + v / 10; 48 + v mod 10]. repeat split.
        -- repeat constructor; lia.
        -- unfold dec_val; cbn [dec_acc]. lia.
        -- eexists _, _. split; [reflexivity|]. lia.
        -- cbn [length]; lia.
        -- rewrite Z. destruct f; [change (100 ^ N.of_nat 1) with 100 in Hf|].
           { exfalso. lia. }
           cbn [digit_loop]. cbn [N.leb N.compare bind N.ltb rev app].
           do 2 f_equal. f_equal; [unfold c_0; lia|]. f_equal. unfold c_0; lia.
      * destruct (IH cap (v / 100) (l ++ [v mod 100 mod 10 + c_0; v mod 100 / 10 + c_0]) k)
          as (ds & HP & HL & HE).
        { lia. }
        { rewrite Nnat.Nat2N.inj_succ, N.pow_succ_r' in Hf.
          remember (100 ^ N.of_nat f) as q. lia. }
        { rewrite !Nnat.Nat2N.inj_succ, !N.pow_succ_r' in Hk.
          remember (10 ^ N.of_nat k) as q. apply N.div_lt_upper_bound; lia. }
        { rewrite app_length; cbn [length]; lia. }
        exists (ds ++ [48 + (v / 10) mod 10; 48 + v mod 10]). repeat split.
        -- pose proof (pos_numeral_snoc2 ds (v / 100) ((v / 10) mod 10) (v mod 10) HP) as P.
           apply P; lia.
        -- pose proof (pos_numeral_snoc2 ds (v / 100) ((v / 10) mod 10) (v mod 10) HP) as P.
           destruct P as (_ & P & _); [lia|lia|]. rewrite P. lia.
        -- pose proof (pos_numeral_snoc2 ds (v / 100) ((v / 10) mod 10) (v mod 10) HP) as P.
           apply P; lia.
        -- rewrite app_length; cbn [length]; lia.
        -- rewrite HE, rev_app_distr. cbn [rev app]. rewrite <- app_assoc. cbn [app].
           do 2 f_equal. f_equal; [unfold c_0; lia|]. f_equal. unfold c_0; lia.
    + cbn [bind]. replace (0 <? v) with true by lia.
      destruct k; [cbn in Hk; lia|].
      rewrite push_ok by lia.
      exists [48 + v]. repeat split.
      * repeat constructor; lia.
      * unfold dec_val; cbn [dec_acc]; lia.
      * eexists _, _. split; [reflexivity|]. lia.
      * cbn; lia.
Qed.

Lemma pos_numeral_canonical : forall ds v, pos_numeral ds v -> canonical ds.
Proof.
  intros ds v (H1 & H2 & h & t & -> & H4). repeat split; auto; [discriminate|].
  intros r E. congruence.
Qed.

Definition int_width (w : N) : Prop := w = 8 \/ w = 16 \/ w = 32 \/ w = 64.

(** Number of decimal digits of the values of a width. *)
Lemma width_digits_u : forall w v, int_width w -> v < 2^w ->
  v < 10 ^ N.of_nat (digits10 w false + 1) /\ v * 10 < 100 ^ N.of_nat 20.
Proof.
  intros w v [->|[->|[->| ->]]] H; unfold digits10;
    cbn [N.eqb Pos.eqb Nat.add N.of_nat Pos.of_succ_nat Pos.succ] in *;
    (split; [eapply N.lt_le_trans; [exact H|]; vm_compute; discriminate|]);
    (eapply N.lt_le_trans; [apply N.mul_lt_mono_pos_r; [|exact H]; reflexivity|]); vm_compute; discriminate.
Qed.

Lemma width_digits_s : forall w v, int_width w -> v <= 2^(w-1) ->
  v < 10 ^ N.of_nat (digits10 w true + 1) /\ v * 10 < 100 ^ N.of_nat 20.
Proof.
  intros w v [->|[->|[->| ->]]] H; unfold digits10;
    cbn [N.eqb Pos.eqb Nat.add N.of_nat Pos.of_succ_nat Pos.succ] in *;
    (split; [eapply N.le_lt_trans; [exact H|]; vm_compute; reflexivity|]);
    (eapply N.le_lt_trans; [apply N.mul_le_mono_r; exact H|]); vm_compute; reflexivity.
Qed.

Lemma unsigned_out : forall o w v, int_width w -> v < 2^w ->
  exists t, canonical t /\ dec_val t = v /\
    to_json_string_unsigned o w v = Ok (quote_if o ++ t ++ quote_if o).
Proof.
  intros o w v Hw Hv. unfold to_json_string_unsigned.
  destruct (N.eqb_spec v 0) as [->|NZ].
  - exists [48]. repeat split; auto.
    + repeat constructor; lia.
    + discriminate.
    + intros r E; congruence.
  - destruct (width_digits_u w v Hw Hv) as [D1 D2].
    destruct (digit_loop_spec 20 (digits10 w false + 10) v [] (digits10 w false + 1))
      as (ds & HP & HL & HE); try assumption; try lia.
    { cbn [length]; lia. }
    exists ds. split; [eapply pos_numeral_canonical; eauto|]. split; [apply HP|].
    cbv zeta.
    destruct (digit_loop 20 (digits10 w false + 10) v []) as [[v' l']| | |]; cbn [bind] in *; try discriminate.
    rewrite HE. cbn [bind app].
    pose proof (reverse_from_spec [] (rev ds)) as RV. cbn [app length] in RV. rewrite RV. cbn [bind].
    now rewrite rev_involutive.
Qed.

Lemma signed_out : forall o w v, int_width w ->
  (- 2^(Z.of_N w - 1) <= v < 2^(Z.of_N w - 1))%Z ->
  exists t, canonical_int v t /\
    to_json_string_signed o w v = Ok (quote_if o ++ t ++ quote_if o).
Proof.
  intros o w v Hw Hv. unfold to_json_string_signed.
  set (cap := (digits10 w true + 10)%nat).
  assert (QL : (length (quote_if o) <= 1)%nat) by (destruct o; cbn; lia).
  assert (P2 : Z.of_N (2 ^ (w - 1)) = (2 ^ (Z.of_N w - 1))%Z).
  { rewrite N2Z.inj_pow. f_equal. destruct Hw as [->|[->|[->| ->]]]; reflexivity. }
  assert (CLOSE : forall l, (length l < cap)%nat ->
     match o with LSAlways => push cap l c_quote | _ => Ok l end = Ok (l ++ quote_if o)).
  { intros l Hl. destruct o; cbn [quote_if]; rewrite ?app_nil_r; auto. now apply push_ok. }
  destruct (Z.ltb_spec v 0) as [NEG|POS].
  - set (m := Z.to_N (- v)).
    assert (Hm : m <= 2 ^ (w - 1)) by lia.
    assert (Hd0 : (2 ^ 64 - Z.to_N (Z.rem v 10 mod 2 ^ 64)) mod 2 ^ 64 = m mod 10).
    { assert (R : Z.rem v 10 = (- Z.of_N (m mod 10))%Z).
      { rewrite N2Z.inj_mod. change (Z.of_N 10) with 10%Z.
        rewrite <- Z.rem_mod_nonneg by lia. unfold m. rewrite Z2N.id by lia.
        rewrite Z.rem_opp_l by lia. lia. }
      rewrite R. remember (m mod 10) as d. assert (d < 10) by lia. clear R Heqd.
      change (2^64)%Z with 18446744073709551616%Z. change (2^64) with 18446744073709551616. lia. }
    assert (Hq : Z.to_N (Z.quot v (-10)) = m / 10).
    { replace (-10)%Z with (- (10))%Z by reflexivity.
      rewrite Z.quot_opp_r by lia. rewrite <- Z.quot_opp_l by lia.
      rewrite Z.quot_div_nonneg by lia. unfold m. lia. }
    rewrite push_ok by (unfold cap; lia). cbn [bind]. rewrite Hd0, Hq. clear Hd0 Hq.
    unfold digits100 at 1. replace (m mod 10 <? 100) with true by lia. cbn [bind].
    rewrite push_ok by (rewrite app_length; cbn [length]; unfold cap; lia). cbn [bind].
    replace (m mod 10 mod 10 + c_0) with (48 + m mod 10) by (unfold c_0; lia).
    destruct (N.eqb_spec (m / 10) 0) as [Z|NZ].
    + exists [45; 48 + m mod 10]. split.
      * unfold canonical_int. replace (v <? 0)%Z with true by lia.
        exists [48 + m mod 10]. repeat split.
        -- repeat constructor; lia.
        -- discriminate.
        -- intros r E; congruence.
        -- unfold dec_val; cbn [dec_acc]. lia.
      * rewrite CLOSE by (rewrite !app_length; cbn [length]; unfold cap; lia).
        rewrite <- !app_assoc. reflexivity.
    + destruct (width_digits_s w (m / 10) Hw) as [D1 D2]; [lia|].
      destruct (digit_loop_spec 20 cap (m / 10) ((quote_if o ++ [c_minus]) ++ [48 + m mod 10]) (digits10 w true + 1))
        as (ds & HP & HL & HE); try assumption; try lia.
      { rewrite !app_length; cbn [length]; unfold cap; lia. }
      exists (45 :: ds ++ [48 + m mod 10]). split.
      * unfold canonical_int. replace (v <? 0)%Z with true by lia.
        exists (ds ++ [48 + m mod 10]). destruct HP as (P1 & P2' & h & tl & -> & P4). repeat split.
        -- apply digits_app. split; auto. repeat constructor; lia.
        -- discriminate.
        -- intros r E. cbn [app] in E. congruence.
        -- rewrite dec_val_app, P2'. cbn [length]. change (10 ^ N.of_nat 1) with 10.
           unfold dec_val; cbn [dec_acc]. lia.
      * cbn [bind].
        destruct (digit_loop 20 cap (m / 10) ((quote_if o ++ [c_minus]) ++ [48 + m mod 10])) as [[v' l']| | |];
          cbn [bind] in *; try discriminate.
        rewrite HE. cbn [bind]. 
        replace (((quote_if o ++ [c_minus]) ++ [48 + m mod 10]) ++ rev ds) with
           ((quote_if o ++ [c_minus]) ++ ([48 + m mod 10] ++ rev ds)) by (rewrite <- !app_assoc; reflexivity).
        replace (S (length (quote_if o))) with (length (quote_if o ++ [c_minus])) by (rewrite app_length; cbn [length]; lia).
        rewrite reverse_from_spec. cbn [bind].
        rewrite CLOSE.
        -- rewrite rev_app_distr, rev_involutive. cbn [rev app]. rewrite <- !app_assoc. reflexivity.
        -- rewrite !app_length, rev_length, app_length, rev_length. cbn [length]. unfold cap; lia.
  - destruct (N.eqb_spec (Z.to_N v) 0) as [Z0|NZ].
    + assert (v = 0)%Z by lia. subst v. exists [48]. split.
      * unfold canonical_int. cbn [Z.ltb Z.compare]. repeat split.
        -- repeat constructor; lia.
        -- discriminate.
        -- intros r E; congruence.
      * rewrite push_ok by (unfold cap; lia). cbn [bind]. rewrite Z0.
        cbn [digit_loop N.leb N.compare bind N.ltb].
        rewrite reverse_from_spec. cbn [bind rev app]. rewrite CLOSE by (rewrite app_length; cbn [length]; unfold cap; lia).
        rewrite <- app_assoc. reflexivity.
    + destruct (width_digits_s w (Z.to_N v) Hw) as [D1 D2]; [lia|].
      destruct (digit_loop_spec 20 cap (Z.to_N v) (quote_if o) (digits10 w true + 1))
        as (ds & HP & HL & HE); try assumption; try lia.
      exists ds. split.
      * unfold canonical_int. replace (v <? 0)%Z with false by lia. split; [eapply pos_numeral_canonical; eauto|].
        destruct HP as (_ & -> & _). lia.
      * cbn [bind].
        destruct (digit_loop 20 cap (Z.to_N v) (quote_if o)) as [[v' l']| | |];
          cbn [bind] in *; try discriminate.
        rewrite HE. cbn [bind]. rewrite reverse_from_spec. cbn [bind]. rewrite CLOSE.
        -- rewrite rev_involutive, <- app_assoc. reflexivity.
        -- rewrite app_length, !rev_length. unfold cap. lia.
Qed.
