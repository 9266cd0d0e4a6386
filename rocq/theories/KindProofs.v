(** What is accepted as an integer, and values of another kind than the type asks for. *)
From Coq Require Import List NArith ZArith Bool Lia Arith ZifyBool ZifyNat ZifyN.
From Verif Require Import Base Mem PolicyModel IntModel Loop StrScanModel SkipModel SpecNum SpecText SpecJson IntProofs IntValueProofs
  StrDecodeModel ValueModel ScalarProofs.
Import ListNotations.
Local Open Scope N_scope.

(** The digits at a position *)
Lemma digit_run : forall n buf i l, (l - i = n)%nat -> (i <= l <= length buf)%nat ->
  exists ds, digits ds /\ sub_at buf i ds /\ run_ends buf (i + length ds) l.
Proof.
  induction n as [|n IH]; intros buf i l EN HL.
  - exists []. cbn. rewrite Nat.add_0_r. split; [constructor|]. split; [exact I|]. split; [lia|]. left. lia.
  - destruct (nth_error buf i) as [b|] eqn:Hb.
    2:{ apply nth_error_None in Hb. lia. }
    destruct (is_digb b) eqn:D.
    + destruct (IH buf (S i) l) as (ds & H1 & H2 & H3); [lia|lia|].
      exists (b :: ds). split; [constructor; [now apply is_digb_spec|assumption]|]. split; [split; assumption|].
      cbn [length]. replace (i + S (length ds))%nat with (S i + length ds)%nat by lia. exact H3.
    + exists []. cbn. rewrite Nat.add_0_r. split; [constructor|]. split; [exact I|]. split; [lia|]. right. exists b. split; [exact Hb|].
      intros X. apply is_digb_spec in X. congruence.
Qed.

(** Without digits the parser finds nothing. *)
Lemma unsigned_parser_none : forall w rc buf p, is_bytes buf -> (last p <= length buf)%nat ->
  run_ends buf (first p) (last p) -> (first p < last p)%nat ->
  unsigned_parser_not_known w rc buf p = Ok (0, p).
Proof.
  intros w rc buf p HB HL HR HM. unfold unsigned_parser_not_known, has_more.
  destruct (Nat.ltb_spec (first p) (last p)); [|lia]. cbn [ensure bind].
  rewrite (has_eight_at_spec buf (first p) (last p) []); auto; [|constructor|exact I|cbn [length]; now rewrite Nat.add_0_r].
  cbn [length Nat.leb bind andb].
  pose proof (not_known1_spec (S (last p - first p)) buf (last p) [] (first p) 0 HB (Forall_nil _) I) as X.
  cbn [length] in X. rewrite Nat.add_0_r in X. change (u64 0) with 0 in X. rewrite X; [|exact HR|lia]. clear X. cbn [bind dec_acc].
  change (u64 0) with 0.
  assert (SP : set_first p (first p) = p) by (destruct p; reflexivity). rewrite SP. rewrite Nat.sub_diag. cbn [Nat.leb ensure bind].
  destruct rc.
  - unfold narrow_cast_u. destruct (64 <=? w); [reflexivity|]. replace (0 <=? umax w) with true by (unfold umax; lia). reflexivity.
  - unfold cast_u. rewrite N.mod_0_l; [reflexivity|]. apply N.pow_nonzero. discriminate.
Qed.

(** The byte ends an item, for the parser: white space, a delimiter, and every byte
    above 0x7F. *)
Definition ends_item (b : N) : Prop := In b [44; 125; 93; 58] \/ b <= 32 \/ 128 <= b.
Definition item_ends (buf : list N) (i l : nat) : Prop :=
  i = l \/ (i < l)%nat /\ exists b, nth_error buf i = Some b /\ ends_item b.

Lemma item_ends_ok : forall buf p, (first p <= last p)%nat -> end_of_item_ok buf p = Ok true -> item_ends buf (first p) (last p).
Proof.
  intros buf p HL E. unfold end_of_item_ok, has_more in E. destruct (Nat.ltb_spec (first p) (last p)).
  - right. split; [assumption|]. unfold front, rd in E. destruct (nth_error buf (first p)) as [b|]; [|discriminate].
    cbn [bind] in E. injection E as E. exists b. split; [reflexivity|]. unfold at_end_of_item, c_comma, c_rbrace, c_rbrack, c_colon in E.
    unfold ends_item. cbn [In]. lia.
  - left. lia.
Qed.

Lemma unsigned_accepts : forall w rc buf p v q, is_bytes buf -> (first p <= last p <= length buf)%nat ->
  parse_value_unsigned false LSNever w rc buf p = Ok (v, q) ->
  exists ds, digits ds /\ ds <> [] /\ sub_at buf (first p) ds /\ q = set_first p (first p + length ds) /\
    (first p + length ds <= last p)%nat /\ item_ends buf (first p + length ds) (last p) /\
    v = (dec_val ds mod 2^64) mod 2^w.
Proof.
  intros w rc buf p v q HB HL E. unfold parse_value_unsigned in E. cbn [skip_quote_when_literal_as_string bind] in E.
  destruct (has_more p) eqn:HM; cbn [ensure bind] in E; [|discriminate].
  destruct (front buf p) as [c| | |] eqn:FR; cbn [bind] in E; try discriminate.
  destruct (is_number c) eqn:IN; cbn [ensure bind] in E; [|discriminate].
  destruct (digit_run (last p - first p) buf (first p) (last p) eq_refl HL) as (ds & D & S & R).
  assert (NE : ds <> []).
  { intros ->. cbn in R. rewrite Nat.add_0_r in R. destruct R as (_ & [R|(b & Hb & ND)]).
    - unfold has_more in HM. lia.
    - unfold front, rd in FR. rewrite Hb in FR. injection FR as <-. apply ND. pose proof (is_bytes_nth _ _ _ HB Hb) as LT.
      unfold is_number, c_0 in IN. change (2^32) with 4294967296 in IN. unfold is_dig. lia. }
  unfold unsigned_parser in E. rewrite unsigned_parser_not_known_acc with (ds := ds) in E; auto; [|lia]. cbv zeta in E.
  set (p' := set_first p (first p + length ds)) in *.
  assert (LE : (first p + length ds <= last p)%nat) by (destruct R as [R _]; exact R).
  assert (K : forall x : N, (e <- end_of_item_ok buf p' ;; _ <- ensure e InvalidEndOfValue ;; Ok (x, p')) = Ok (v, q) ->
     v = x /\ q = p' /\ item_ends buf (first p + length ds) (last p)).
  { intros x X. destruct (end_of_item_ok buf p') as [e| | |] eqn:EE; cbn [bind] in X; try discriminate.
    destruct e; cbn [ensure bind] in X; [|discriminate]. injection X as <- <-. split; [reflexivity|]. split; [reflexivity|].
    apply (item_ends_ok buf p'); [cbn [p' first last set_first]; exact LE|exact EE]. }
  exists ds. split; [exact D|]. split; [exact NE|]. split; [exact S|].
  destruct rc; cbn [bind] in E.
  - destruct (length ds <=? 20)%nat; cbn [ensure bind] in E; [|discriminate].
    unfold narrow_cast_u in E. destruct (N.leb_spec 64 w) as [W|W]; cbn [bind] in E.
    + apply K in E as (-> & -> & IE). split; [reflexivity|]. split; [exact LE|]. split; [exact IE|].
      rewrite (N.mod_small (dec_val ds mod 2^64) (2^w)); [reflexivity|].
      apply N.lt_le_trans with (2^64); [apply N.mod_lt; discriminate|]. apply N.pow_le_mono_r; [discriminate|exact W].
    + destruct (N.leb_spec (u64 (dec_val ds)) (umax w)) as [M|M]; cbn [bind] in E; [|discriminate].
      apply K in E as (-> & -> & IE). split; [reflexivity|]. split; [exact LE|]. split; [exact IE|]. unfold umax, u64 in *.
      rewrite (N.mod_small (dec_val ds mod 2^64) (2^w)); [reflexivity|].
      assert (0 < 2^w) by (apply N.neq_0_lt_0; apply N.pow_nonzero; discriminate). clear - M H. set (x := dec_val ds mod 2^64) in *. clearbody x. lia.
  - apply K in E as (-> & -> & IE). split; [reflexivity|]. split; [exact LE|]. split; [exact IE|]. reflexivity.
Qed.

Lemma ensure_inv : forall (b : bool) r u, ensure b r = Ok u -> b = true.
Proof. intros [] r u H; [reflexivity|discriminate]. Qed.

Lemma trim_loop_spec : forall fuel buf i l j, is_bytes buf -> (i <= l)%nat -> trim_loop fuel buf i l = Ok j ->
  exists w, Forall (fun b => 1 <= b <= 32) w /\ sub_at buf i w /\ j = (i + length w)%nat /\ (j <= l)%nat.
Proof.
  induction fuel as [|f IH]; intros buf i l j HB HL E; cbn [trim_loop] in E; [discriminate|].
  destruct (Nat.ltb_spec i l).
  - unfold rd in E. destruct (nth_error buf i) as [b|] eqn:Hb; cbn [bind] in E; [|discriminate].
    destruct (is_space b) eqn:S.
    + apply IH in E as (w & W1 & W2 & -> & W3); [|assumption|lia]. exists (b :: w). split.
      * constructor; [|assumption]. rewrite is_space_spec in S by (eapply is_bytes_nth; eauto). lia.
      * split; [split; assumption|]. cbn [length]. split; lia.
    + injection E as <-. exists []. split; [constructor|]. split; [exact I|]. cbn [length]. split; lia.
  - injection E as <-. exists []. split; [constructor|]. split; [exact I|]. cbn [length]. split; lia.
Qed.

Lemma signed_accepts_value : forall w rc buf p v q, is_bytes buf -> (first p <= last p <= length buf)%nat ->
  parse_value_signed false LSNever w rc buf p = Ok (v, q) ->
  exists (neg : bool) ds wsp, digits ds /\ (neg = false -> ds <> []) /\ Forall (fun b => 1 <= b <= 32) wsp /\
    sub_at buf (first p) (sign_text neg ++ ds ++ wsp) /\ q = set_first p (first p + length (sign_text neg ++ ds ++ wsp)) /\
    (first q <= last p)%nat /\ item_ends buf (first q) (last p) /\ run_ends buf (first p + length (sign_text neg ++ ds)) (last p) /\
    to_signed w ((dec_val ds mod 2^64) mod 2^w) (if neg then -1 else 1)%Z = Ok v.
Proof.
  intros w rc buf p v q HB HL E. unfold parse_value_signed in E.
  destruct (has_more p) eqn:HM; cbn [ensure bind] in E; [|discriminate].
  assert (V : exists (neg : bool) p1 , validate_signed_first buf p = Ok (if neg then (-1)%Z else 1%Z, p1) /\
     p1 = set_first p (first p + length (sign_text neg)) /\ sub_at buf (first p) (sign_text neg) /\
     (neg = false -> exists d, nth_error buf (first p) = Some d /\ is_dig d)).
  { unfold validate_signed_first in *. rewrite HM in *. cbn [ensure bind] in *. unfold front, rd in *.
    destruct (nth_error buf (first p)) as [c|] eqn:Hc; cbn [bind] in *; [|discriminate].
    destruct (c =? c_minus) eqn:C1.
    - exists true, (remove_prefix p 1). split; [reflexivity|]. cbn [sign_text length]. split; [unfold remove_prefix; reflexivity|].
      split; [|discriminate]. cbn [sub_at]. unfold c_minus in C1. split; [|exact I]. rewrite Hc. f_equal. lia.
    - assert (SP : set_first p (first p + 0) = p) by (rewrite Nat.add_0_r; destruct p; reflexivity).
      destruct ((49 <=? c) && (c <=? 57)) eqn:C2.
      + exists false, p. split; [reflexivity|]. cbn [sign_text length]. split; [symmetry; exact SP|]. split; [exact I|].
        intros _. exists c. split; [reflexivity|]. unfold is_dig. lia.
      + destruct (c =? c_0) eqn:C3; [|discriminate]. exists false, p. unfold c_0 in C3.
        assert (G : exists d, Some c = Some d /\ is_dig d) by (exists c; split; [reflexivity|unfold is_dig; lia]).
        destruct (1 <? ps_size p)%nat.
        * destruct (nth_error buf (first p + 1)) as [d|]; cbn [bind] in *; [|discriminate].
          destruct (10 <=? (d + 2 ^ 32 - c_0) mod 2 ^ 32); cbn [ensure bind] in *; [|discriminate].
          split; [reflexivity|]. cbn [sign_text length]. split; [symmetry; exact SP|]. split; [exact I|]. intros _; exact G.
        * split; [reflexivity|]. cbn [sign_text length]. split; [symmetry; exact SP|]. split; [exact I|]. intros _; exact G. }
  destruct V as (neg & p1 & EV & E1 & SG & NG). rewrite EV in E. cbn [bind] in E.
  assert (F1 : first p1 = (first p + length (sign_text neg))%nat) by (rewrite E1; reflexivity).
  assert (L1 : last p1 = last p) by (rewrite E1; reflexivity).
  unfold unsigned_parser in E.
  assert (HM1 : (first p1 < last p1)%nat).
  { unfold unsigned_parser_not_known in E. destruct (has_more p1) eqn:X; [unfold has_more in X; lia|discriminate]. }
  destruct (digit_run (last p1 - first p1) buf (first p1) (last p1) eq_refl) as (ds & D & S & R); [lia|].
  assert (NE : neg = false -> ds <> []).
  { intros HN ->. destruct (NG HN) as (d & Hd & DD). subst neg. cbn [sign_text length] in F1. rewrite Nat.add_0_r in F1.
    cbn [length] in R. rewrite Nat.add_0_r in R. destruct R as (_ & [R|(b & Hb & ND)]); [lia|]. rewrite F1 in Hb. congruence. }
  assert (U : exists p2, unsigned_parser_not_known w rc buf p1 = Ok ((dec_val ds mod 2^64) mod 2^w, p2) /\ p2 = set_first p1 (first p1 + length ds)).
  { destruct (list_eq_dec N.eq_dec ds []) as [->|NE'].
    - cbn [length] in *. rewrite Nat.add_0_r in *. exists p1. split; [|destruct p1; reflexivity].
      replace ((dec_val [] mod 2^64) mod 2^w) with 0 by (symmetry; apply N.mod_0_l, N.pow_nonzero; discriminate).
      apply unsigned_parser_none; auto; lia.
    - rewrite unsigned_parser_not_known_acc with (ds := ds) in *; auto; try lia. cbv zeta in *.
      destruct rc; [|eexists; split; [|reflexivity]; reflexivity]. cbn [bind] in *.
      destruct (length ds <=? 20)%nat; cbn [ensure bind] in *; [|discriminate].
      assert (NC : forall x, narrow_cast_u w (u64 (dec_val ds)) = Ok x -> x = (dec_val ds mod 2^64) mod 2^w).
      { intros x. unfold narrow_cast_u. destruct (N.leb_spec 64 w) as [W|W]; [intros [= <-]|].
        - symmetry. apply N.mod_small. apply N.lt_le_trans with (2^64); [apply N.mod_lt; discriminate|]. apply N.pow_le_mono_r; [discriminate|exact W].
        - destruct (N.leb_spec (u64 (dec_val ds)) (umax w)) as [M|M]; [intros [= <-]|discriminate]. unfold umax, u64 in *. symmetry. apply N.mod_small.
          assert (0 < 2^w) by (apply N.neq_0_lt_0; apply N.pow_nonzero; discriminate). clear - M H. set (y := dec_val ds mod 2^64) in *. clearbody y. lia. }
      destruct (narrow_cast_u w (u64 (dec_val ds))) as [x| | |]; cbn [bind] in *; try discriminate. rewrite (NC x eq_refl). eexists; split; reflexivity. }
  destruct U as (p2 & EU & E2). rewrite EU in E. cbn [bind] in E.
  destruct (to_signed w _ _) as [z| | |] eqn:TS; cbn [bind] in E; try discriminate.
  cbn [skip_quote_when_literal_as_string bind] in E.
  unfold trim_left_checked in E.
  assert (F2 : first p2 = (first p1 + length ds)%nat) by (rewrite E2; reflexivity).
  assert (L2 : last p2 = last p) by (rewrite E2; cbn [last set_first]; exact L1).
  destruct (trim_loop _ buf (first p2) (last p2)) as [j| | |] eqn:ET; cbn [bind] in E; try discriminate.
  assert (LR : (first p1 + length ds <= last p1)%nat) by (destruct R as [R _]; exact R).
  apply trim_loop_spec in ET as (wsp & W1 & W2 & -> & W3); auto; [|lia].
  destruct (end_of_item_ok buf _) as [e| | |] eqn:EE; cbn [bind] in E; try discriminate.
  destruct e; cbn [ensure bind] in E; [|discriminate]. injection E as -> <-.
  assert (FL : length (sign_text neg ++ ds ++ wsp) = (length (sign_text neg) + length ds + length wsp)%nat) by (rewrite !app_length; lia).
  exists neg, ds, wsp. split; [exact D|]. split; [exact NE|]. split; [exact W1|]. split.
  { apply sub_at_app. split; [exact SG|]. rewrite <- F1. apply sub_at_app. split; [exact S|]. rewrite <- F2. exact W2. }
  split. { rewrite E2, E1. cbn [set_first first last]. rewrite FL. unfold set_first. cbn. f_equal. lia. }
  split. { cbn [first set_first]. lia. }
  split. { rewrite <- L2. exact (item_ends_ok buf (set_first p2 (first p2 + length wsp)) W3 EE). }
  rewrite app_length. replace (first p + (length (sign_text neg) + length ds))%nat with (first p1 + length ds)%nat by lia.
  split; [rewrite <- L1; exact R|exact TS].
Qed.

Lemma signed_accepts : forall w rc buf p v q, is_bytes buf -> (first p <= last p <= length buf)%nat ->
  parse_value_signed false LSNever w rc buf p = Ok (v, q) ->
  exists (neg : bool) ds wsp, digits ds /\ (neg = false -> ds <> []) /\ Forall (fun b => 1 <= b <= 32) wsp /\
    sub_at buf (first p) (sign_text neg ++ ds ++ wsp) /\ q = set_first p (first p + length (sign_text neg ++ ds ++ wsp)) /\
    (first q <= last p)%nat /\ item_ends buf (first q) (last p) /\ run_ends buf (first p + length (sign_text neg ++ ds)) (last p).
Proof.
  intros w rc buf p v q HB HL E. apply signed_accepts_value in E as (neg & ds & wsp & A & B & C & D & F & G & H & I & _); auto.
  exists neg, ds, wsp. auto 10.
Qed.
