(** Skipping arbitrary input: no read outside the buffer, termination, and what
    success implies. *)
From Coq Require Import List NArith ZArith Bool Lia Arith ZifyBool ZifyNat ZifyN.
From Verif Require Import Base Mem Bits Loop PolicyModel IntModel IntProofs IntSerProofs IntValueProofs StrScanModel
  SpecNum SpecText SpecJson StrScanProofs StrScanProofs2 StrScanProofs3 SkipModel SkipProofs.
Import ListNotations.

Local Open Scope N_scope.

(** A parser state inside its buffer. *)
Definition wf (buf : list N) (p : ps) : Prop :=
  is_bytes buf /\ isnull p = false /\ (first p <= last p <= length buf)%nat /\
  exists cl, clast p = Some cl /\ (last p <= cl <= length buf)%nat.

(** ** Whitespace *)

Lemma trim_loop_safe : forall f buf i last, (last <= length buf)%nat -> (last - i < f)%nat ->
  exists j t, trim_loop f buf i last = Ok j /\ j = (i + length t)%nat /\ sub_at buf i t /\
    Forall (fun c => is_space c = true) t /\ (i <= last -> j <= last)%nat /\
    ((j < last)%nat -> exists b, nth_error buf j = Some b /\ is_space b = false).
Proof.
  induction f; intros buf i l HL HF; [lia|]. cbn [trim_loop].
  destruct (Nat.ltb_spec i l).
  - destruct (rd_in buf i) as (b & Hb); [lia|]. rewrite (rd_some _ _ _ Hb). cbn [bind].
    destruct (is_space b) eqn:SP.
    + destruct (IHf buf (S i) l) as (j & t & E & EJ & S & W & L & X); [auto|lia|].
      exists j, (b :: t). cbn [length sub_at]. repeat split; auto; try lia.
    + exists i, []. cbn. repeat split; eauto; lia.
  - exists i, []. cbn. repeat split; auto; lia.
Qed.

Lemma trim_safe : forall buf p, (last p <= length buf)%nat ->
  exists j, trim_left_checked buf p = Ok (set_first p j) /\ (first p <= j)%nat /\ (first p <= last p -> j <= last p)%nat.
Proof.
  intros buf p HL. unfold trim_left_checked.
  destruct (trim_loop_safe (S (last p - first p)) buf (first p) (last p)) as (j & t & E & EJ & _ & _ & L & _); [auto|lia|].
  rewrite E. cbn [bind]. exists j. repeat split; auto. lia.
Qed.

(** ** Literals *)

Lemma eq_bytes_safe : forall t buf i, (i + length t <= length buf)%nat ->
  exists b, eq_bytes buf i t = Ok b /\ (b = true -> sub_at buf i t).
Proof.
  induction t as [|c t IH]; intros buf i L; cbn [eq_bytes length] in *; [exists true; cbn; auto|].
  destruct (rd_in buf i) as (b & Hb); [lia|]. rewrite (rd_some _ _ _ Hb). cbn [bind].
  destruct (IH buf (S i)) as (r & E & HR); [lia|]. rewrite E. cbn [bind]. eexists; split; [reflexivity|].
  intros X. apply andb_true_iff in X as [X1 X2]. apply N.eqb_eq in X1. subst. split; auto.
Qed.

Lemma skip_word_safe : forall rest r buf p, (first p < last p <= length buf)%nat ->
  outcome_ok (fun q => q = set_first p (first p + S (length rest)) /\ sub_at buf (S (first p)) rest /\
      (first p + S (length rest) <= last p)%nat) (skip_word true rest r buf p).
Proof.
  intros rest r buf p HL. unfold skip_word, starts_with, ps_size, remove_prefix. cbn [first last set_first].
  destruct (Nat.ltb_spec (last p - (first p + 1)) (length rest)); cbn [bind ensure outcome_ok]; auto.
  destruct (eq_bytes_safe rest buf (first p + 1)) as (b & E & HB); [lia|]. rewrite E. cbn [bind].
  destruct b; cbn [ensure bind outcome_ok]; auto.
  replace (first p + 1)%nat with (S (first p)) in HB by lia. repeat split; auto; [|lia].
  unfold set_first. cbn. f_equal. lia.
Qed.

Lemma check_after_safe : forall r buf p, (last p <= length buf)%nat ->
  outcome_ok (fun _ => (first p < last p)%nat -> exists b, nth_error buf (first p) = Some b /\ closer b) (check_after_literal true r buf p).
Proof.
  intros r buf p HL. unfold check_after_literal, has_more, front. destruct (Nat.ltb_spec (first p) (last p)); [|cbn; lia].
  destruct (rd_in buf (first p)) as (b & Hb); [lia|]. rewrite (rd_some _ _ _ Hb). cbn [bind].
  unfold is_token_after_value. destruct ((b =? c_comma) || (b =? c_rbrace) || (b =? c_rbrack)) eqn:E; cbn; auto.
  intros _. exists b. split; auto. unfold closer, c_comma, c_rbrace, c_rbrack in *. lia.
Qed.

Lemma skip_bool_safe : forall rest r val buf p, (first p < last p <= length buf)%nat ->
  outcome_ok (fun x => sub_at buf (S (first p)) rest /\ snd x = set_first p (first (snd x)) /\
      (first p + S (length rest) <= first (snd x) <= last p)%nat /\ fst x = set_counter (set_last p (first p + S (length rest))) val)
    (skip_bool CNone true rest r val buf p).
Proof.
  intros rest r val buf p HL. unfold skip_bool. eapply outcome_ok_bind; [apply skip_word_safe; auto|].
  intros q (-> & SW & LE). cbn [trim_left_cp trim_left].
  destruct (trim_safe buf (set_first p (first p + S (length rest)))) as (j & E & J1 & J2); [cbn; lia|].
  cbn [first last set_first] in *. rewrite E. cbn [bind].
  eapply outcome_ok_bind; [apply check_after_safe; cbn; lia|]. intros _ _. cbn. repeat split; auto; lia.
Qed.

Lemma skip_null_safe : forall buf p, (first p < last p <= length buf)%nat ->
  outcome_ok (fun x => sub_at buf (S (first p)) [117; 108; 108] /\ snd x = set_first p (first (snd x)) /\
      (first p + 4 <= first (snd x) <= last p)%nat /\ fst x = null_of p)
    (skip_null CNone true buf p).
Proof.
  intros buf p HL. unfold skip_null. eapply outcome_ok_bind; [apply skip_word_safe; auto|].
  intros q (-> & SW & LE). cbn [length] in *.
  eapply outcome_ok_bind; [apply outcome_ok_ensure with (Q := fun _ => True); auto|]. intros _ _.
  cbn [trim_left_cp trim_left].
  destruct (trim_safe buf (set_first p (first p + 4))) as (j & E & J1 & J2); [cbn; lia|].
  cbn [first last set_first] in *. rewrite E. cbn [bind].
  eapply outcome_ok_bind; [apply check_after_safe; cbn; lia|]. intros _ _.
  cbn [outcome_ok fst snd]. repeat split; auto; cbn [first set_first]; try lia; try apply SW.
Qed.

(** ** Numbers *)

Lemma skip_digits_safe : forall buf i last, is_bytes buf -> (i < last <= length buf)%nat ->
  exists ds, skip_digits true buf i last = Ok (i + length ds)%nat /\ digits ds /\ sub_at buf i ds /\
    (i + length ds <= last)%nat /\
    ((i + length ds < last)%nat -> exists b, nth_error buf (i + length ds) = Some b /\ ~ is_dig b).
Proof.
  intros buf i last HB HL. unfold skip_digits. destruct (rd_in buf i) as (b & Hb); [lia|]. rewrite (rd_some _ _ _ Hb). cbn [bind].
  match goal with |- context [loop ?bd _ _] => set (body := bd) end.
  pose proof (loop_inv_ok body (fun s => length buf - fst s)%nat
    (fun s => let '(k, dig) := s in (k < last)%nat /\ exists ds c, digits ds /\ sub_at buf i ds /\ k = (i + length ds)%nat /\ nth_error buf k = Some c /\ dig = parse_digit c)
    (fun s => let '(k, dig) := s in exists ds, digits ds /\ sub_at buf i ds /\ k = (i + length ds)%nat /\ (k <= last)%nat /\
        ((k < last)%nat -> exists b, nth_error buf k = Some b /\ ~ is_dig b))) as X.
  assert (BD : forall s, (let '(k, dig) := s in (k < last)%nat /\ exists ds c, digits ds /\ sub_at buf i ds /\ k = (i + length ds)%nat /\ nth_error buf k = Some c /\ dig = parse_digit c) ->
     yields (fun r => match r with
       | inl s' => (let '(k, dig) := s' in (k < last)%nat /\ exists ds c, digits ds /\ sub_at buf i ds /\ k = (i + length ds)%nat /\ nth_error buf k = Some c /\ dig = parse_digit c) /\ (length buf - fst s' < length buf - fst s)%nat
       | inr s' => let '(k, dig) := s' in exists ds, digits ds /\ sub_at buf i ds /\ k = (i + length ds)%nat /\ (k <= last)%nat /\
        ((k < last)%nat -> exists b, nth_error buf k = Some b /\ ~ is_dig b) end) (body s)).
  { intros [k dig] (KL & ds & c & HD & HS & EK & Hc & ED). unfold body.
    assert (C256 : c < 256) by (eapply is_bytes_nth; eauto).
    destruct (N.ltb_spec dig 10) as [D|D].
    - assert (DC : is_dig c) by (subst dig; unfold parse_digit, is_dig, c_0 in *; lia).
      assert (DS : digits (ds ++ [c]) /\ sub_at buf i (ds ++ [c]) /\ S k = (i + length (ds ++ [c]))%nat).
      { repeat split; [apply Forall_app; split; auto; constructor; auto| |rewrite app_length; cbn; lia].
        apply sub_at_app. split; auto. rewrite <- EK. cbn. auto. }
      destruct DS as (D1 & D2 & D3). cbn [andb].
      destruct (Nat.leb_spec last (S k)).
      + eexists; split; [reflexivity|]. cbn. exists (ds ++ [c]). repeat split; auto; lia.
      + destruct (rd_in buf (S k)) as (e & He); [lia|]. rewrite (rd_some _ _ _ He). cbn [bind].
        eexists; split; [reflexivity|]. cbn [fst]. split; [|lia]. split; [lia|]. exists (ds ++ [c]), e. repeat split; auto.
    - eexists; split; [reflexivity|]. cbn. exists ds. repeat split; auto; try lia. intros _. exists c. split; auto.
      subst dig. unfold parse_digit, is_dig, c_0 in *. lia. }
  destruct (X BD (S (length buf - i)) (i, parse_digit b)) as ([k dig] & E & ds & D1 & D2 & D3 & D4 & D5).
  - split; [lia|]. exists [], b. cbn. rewrite Nat.add_0_r. repeat split; auto. constructor.
  - cbn. lia.
  - rewrite E. cbn [bind]. exists ds. rewrite <- D3. repeat split; auto.
Qed.

Lemma skip_digits_if_safe : forall buf i last, is_bytes buf -> (last <= length buf)%nat ->
  exists ds, skip_digits_if true buf i last = Ok (i + length ds)%nat /\ digits ds /\ sub_at buf i ds /\
    (i <= last -> i + length ds <= last)%nat /\
    ((i + length ds < last)%nat -> exists b, nth_error buf (i + length ds) = Some b /\ ~ is_dig b).
Proof.
  intros buf i last HB HL. unfold skip_digits_if. destruct (Nat.ltb_spec i last).
  - destruct (skip_digits_safe buf i last) as (ds & E & D1 & D2 & D3 & D4); auto. exists ds. repeat split; auto.
  - exists []. cbn. rewrite Nat.add_0_r. repeat split; auto; try lia. constructor.
Qed.

(** What skip_number accepts. *)
Inductive loose_frac : list N -> Prop :=
| lf_none : loose_frac []
| lf_some : forall ds, digits ds -> loose_frac (46 :: ds).
Definition loose_num (t : list N) : Prop :=
  exists sg n f e, t = sg ++ n ++ f ++ e /\ (sg = [] \/ sg = [45]) /\ digits n /\ loose_frac f /\ exp_part e.

Lemma skip_fraction_safe : forall buf i last, is_bytes buf -> (i <= last <= length buf)%nat ->
  exists o f, skip_fraction true buf i last = Ok (o, (i + length f)%nat) /\ loose_frac f /\ sub_at buf i f /\
    (i + length f <= last)%nat.
Proof.
  intros buf i last HB HL. unfold skip_fraction. cbn [negb orb].
  destruct (Nat.ltb_spec i last).
  - destruct (rd_in buf i) as (b & Hb); [lia|]. rewrite (rd_some _ _ _ Hb). cbn [bind].
    destruct (N.eqb_spec b c_dot) as [->|].
    + destruct (skip_digits_if_safe buf (S i) last) as (ds & E & D1 & D2 & D3 & D4); auto; [lia|]. rewrite E. cbn [bind].
      exists (Some i), (46 :: ds). cbn [length sub_at]. repeat split; auto; [do 2 f_equal; lia|constructor; auto|lia].
    + exists None, []. cbn. rewrite Nat.add_0_r. repeat split; auto; [constructor|lia].
  - cbn [bind]. exists None, []. cbn. rewrite Nat.add_0_r. repeat split; auto; [constructor|lia].
Qed.

Lemma skip_exponent_safe : forall buf i last, is_bytes buf -> (i <= last <= length buf)%nat ->
  outcome_ok (fun r => exists e, snd r = (i + length e)%nat /\ exp_part e /\ sub_at buf i e /\ (i + length e <= last)%nat)
    (skip_exponent true buf i last).
Proof.
  intros buf i last HB HL. unfold skip_exponent.
  destruct (Nat.ltb_spec i last) as [L|L].
  2:{ cbn. exists []. cbn. rewrite Nat.add_0_r. repeat split; auto; [constructor|lia]. }
  destruct (rd_in buf i) as (b & Hb); [lia|]. rewrite (rd_some _ _ _ Hb). cbn [bind].
  assert (b < 256) by (eapply is_bytes_nth; eauto). rewrite !parse_digit_eq by (auto; reflexivity).
  destruct ((b =? c_e) || (b =? c_E)) eqn:EE.
  2:{ cbn. exists []. cbn. rewrite Nat.add_0_r. repeat split; auto; [constructor|lia]. }
  destruct (Nat.ltb_spec (S i) last) as [L1|L1]; cbn [ensure bind outcome_ok]; auto.
  destruct (rd_in buf (S i)) as (s & Hs); [lia|]. rewrite (rd_some _ _ _ Hs). cbn [bind]. cbv zeta.
  assert (s < 256) by (eapply is_bytes_nth; eauto). rewrite !parse_digit_eq by (auto; reflexivity).
  set (i2 := if (s =? c_plus) || (s =? c_minus) then S (S i) else S i).
  assert (SG : exists sg, (sg = [] \/ sg = [43] \/ sg = [45]) /\ sub_at buf (S i) sg /\ i2 = (S i + length sg)%nat).
  { unfold i2, c_plus, c_minus. destruct ((s =? 43) || (s =? 45)) eqn:ES.
    - exists [s]. cbn. repeat split; auto; [|lia]. destruct (N.eqb_spec s 43); [subst; auto|]. right. right. f_equal. lia.
    - exists []. cbn. repeat split; auto. }
  destruct SG as (sg & SG1 & SG2 & SG3).
  destruct (Nat.ltb_spec i2 last) as [L2|L2]; cbn [ensure bind outcome_ok]; auto.
  destruct (rd_in buf i2) as (d & Hd); [lia|]. rewrite (rd_some _ _ _ Hd). cbn [bind].
  destruct (N.ltb_spec (parse_digit d) 10) as [D|D]; cbn [ensure bind outcome_ok]; auto.
  destruct (skip_digits_if_safe buf i2 last) as (ds & E & D1 & D2 & D3 & D4); auto; [lia|].
  rewrite E. cbn [bind outcome_ok snd].
  exists (b :: sg ++ ds). cbn [length sub_at]. rewrite app_length. repeat split; auto; try lia.
  - constructor; auto; [unfold c_e, c_E in *; lia|]. intros ->. cbn [length] in *. rewrite Nat.add_0_r in *.
    destruct (D4 ltac:(lia)) as (d' & Hd' & ND). rewrite Hd in Hd'. injection Hd' as <-.
    assert (d < 256) by (eapply is_bytes_nth; eauto). apply ND. unfold parse_digit, is_dig, c_0 in *. lia.
  - apply sub_at_app. split; auto. now rewrite <- SG3.
Qed.

Lemma skip_number_safe : forall buf p, is_bytes buf -> (first p <= last p <= length buf)%nat ->
  outcome_ok (fun x => exists t, loose_num t /\ sub_at buf (first p) t /\ (first p + length t <= last p)%nat /\
      snd x = set_first p (first p + length t) /\ first (fst x) = first p /\ last (fst x) = (first p + length t)%nat /\
      (forall c, nth_error buf (first p) = Some c -> c = 45 \/ is_dig c -> (0 < length t)%nat))
    (skip_number true buf p).
Proof.
  intros buf p HB HL. unfold skip_number, has_more.
  destruct (Nat.ltb_spec (first p) (last p)) as [L|L]; cbn [ensure bind outcome_ok]; auto.
  unfold front. destruct (rd_in buf (first p)) as (c & Hc); [lia|]. rewrite (rd_some _ _ _ Hc). cbn [bind]. cbv zeta.
  set (i := if c =? c_minus then S (first p) else first p).
  assert (SG : exists sg, (sg = [] /\ c <> 45 \/ sg = [45]) /\ sub_at buf (first p) sg /\ i = (first p + length sg)%nat).
  { unfold i. destruct (N.eqb_spec c c_minus) as [->|]; [exists [45]|exists []]; cbn; repeat split; auto; lia. }
  destruct SG as (sg & G1 & G2 & G3).
  assert (HI : (i <= last p)%nat) by (unfold i; destruct (c =? c_minus); lia).
  destruct (skip_digits_if_safe buf i (last p)) as (n & E1 & N1 & N2 & N3 & N4); auto; [lia|]. rewrite E1. cbn [bind].
  destruct (skip_fraction_safe buf (i + length n) (last p)) as (o & f & E2 & F1 & F2 & F3); auto; [lia|]. rewrite E2. cbn [bind].
  pose proof (skip_exponent_safe buf (i + length n + length f) (last p) HB ltac:(lia)) as X.
  destruct (skip_exponent true buf (i + length n + length f) (last p)) as [[o2 k]| | |]; cbn [outcome_ok bind snd] in *; auto.
  destruct X as (e & Ek & E3 & E4 & E5).
  exists (sg ++ n ++ f ++ e). rewrite !app_length. 
  assert (EK' : (first p + (length sg + (length n + (length f + length e))))%nat = k) by lia.
  rewrite EK'. repeat split; auto; try lia.
  - exists sg, n, f, e. repeat split; auto. destruct G1 as [[]|]; auto.
  - apply sub_at_app. split; auto. rewrite <- G3. apply sub_at_app. split; auto. apply sub_at_app. split; auto.
  - intros c' Hc' D. rewrite Hc in Hc'. injection Hc' as <-.
    destruct G1 as [[-> NM]| ->]; cbn [length]; [|lia].
    destruct D as [|D]; [contradiction|]. destruct n as [|d n]; [|cbn; lia].
    cbn [length] in *. rewrite Nat.add_0_r in *. subst i. destruct (N.eqb_spec c c_minus) as [->|]; [unfold c_minus in *; lia|].
    destruct (N4 ltac:(lia)) as (b & Hb & ND). congruence.
Qed.

(** ** Brackets *)

Lemma simd_skip_ge : forall buf first last fe, (first <= last <= length buf)%nat ->
  outcome_ok (fun r => (first <= fst r)%nat) (simd_skip_escape buf first last fe).
Proof.
  intros buf first last fe HL. unfold simd_skip_escape.
  apply outcome_ok_bind with (P := fun r => match r with inl x => (first <= fst x)%nat | inr x => (first <= fst x)%nat end).
  - apply (loop_inv (simd_block buf last) (fun s => last - fst (fst s))%nat (fun s => (first <= fst (fst s))%nat)); auto.
    intros [[i prev] f] HI. cbn [fst] in HI. unfold simd_block.
    destruct (Nat.leb_spec 16 (last - i)); [|cbn; auto].
    destruct (rd_block_ok 16 buf i) as (b & ->); [lia|]. cbn [bind].
    destruct (find_escaped_branchless prev (eq_mask c_bslash b)) as [prev' esc].
    destruct (N.land (eq_mask c_quote b) (not32 esc)); cbn [outcome_ok fst]; lia.
  - intros [[i f]|[i f]] HI; [cbn in *; auto|].
    apply (loop_inv (simd_tail buf first last) (fun s => last - fst s)%nat (fun s => (first <= fst s)%nat)); auto.
    clear i f HI. intros [i f] HI. cbn [fst] in HI. unfold simd_tail.
    destruct (Nat.ltb_spec i last); [|cbn; lia].
    destruct (rd_in buf i) as (c & Hc); [lia|]. rewrite (rd_some _ _ _ Hc). cbn [bind].
    destruct (c =? c_quote)%N; [cbn; auto|].
    destruct (plain_loop_checked_safe buf i last) as (j & E & [PR _] & _); [lia|]. rewrite E. cbn [bind].
    destruct (Nat.leb_spec last j); [cbn; lia|].
    destruct (rd_in buf j) as (d & Hd); [lia|]. rewrite (rd_some _ _ _ Hd). cbn [bind].
    destruct (d =? c_quote)%N; cbn [outcome_ok fst]; lia.
Qed.

(** In the two scalar modes an end inside the bound really ends a string. *)
Lemma skip_str_safe : forall ex buf i last, (i <= last <= length buf)%nat ->
  outcome_ok (fun j => ((i <= j)%nat \/ (last <= j)%nat) /\ ((j < last)%nat -> ex <> ExSimd -> ends_string buf i j)) (skip_str true ex buf i last).
Proof.
  intros ex buf i last HL. destruct ex; cbn [skip_str].
  - destruct (cx_skip_safe buf i last) as (j & -> & X); [lia|lia|]. cbn. split; auto.
    destruct (le_lt_dec last j); auto. left. destruct (X l) as (t & _ & _ & E). lia.
  - eapply outcome_ok_weaken; [|apply rt_skip_safe; lia]. intros j X. cbn. split; auto.
    destruct (le_lt_dec last j); auto. left. destruct (X l) as (t & _ & _ & E). lia.
  - pose proof (simd_skip_ge buf i last 0 HL) as X.
    destruct (simd_skip_escape buf i last 0) as [[j fe]| | |]; cbn [bind outcome_ok fst] in *; auto. split; auto. congruence.
Qed.

(** The brackets of a text outside its strings, in order. *)
Definition is_bracket (c : N) : Prop := c = 123 \/ c = 125 \/ c = 91 \/ c = 93.
Inductive skeleton : list N -> list N -> Prop :=
| sk_nil : skeleton [] []
| sk_string : forall s t k, str_body s -> skeleton t k -> skeleton (34 :: s ++ 34 :: t) k
| sk_escape : forall c t k, skeleton t k -> skeleton (92 :: c :: t) k
| sk_bracket : forall c t k, is_bracket c -> skeleton t k -> skeleton (c :: t) (c :: k)
| sk_other : forall c t k, ~ is_bracket c -> c <> 34 -> c <> 92 -> skeleton t k -> skeleton (c :: t) k.

Lemma skeleton_app : forall t1 k1, skeleton t1 k1 -> forall t2 k2, skeleton t2 k2 -> skeleton (t1 ++ t2) (k1 ++ k2).
Proof.
  induction 1; intros t2 k2 HX2; auto.
  - replace ((34 :: s ++ 34 :: t) ++ t2) with (34 :: s ++ 34 :: (t ++ t2)) by (cbn; rewrite <- app_assoc; reflexivity).
    apply sk_string; auto.
  - cbn. apply sk_escape; auto.
  - cbn. apply sk_bracket; auto.
  - cbn. apply sk_other; auto.
Qed.

Definition count (c : N) (k : list N) : nat := count_occ N.eq_dec k c.
Lemma count_app : forall c a b, count c (a ++ b) = (count c a + count c b)%nat.
Proof. intros. apply count_occ_app. Qed.
Lemma count_one : forall c d, count c [d] = if d =? c then 1%nat else 0%nat.
Proof. intros. unfold count. cbn. destruct (N.eq_dec d c), (N.eqb_spec d c); congruence. Qed.
Lemma count_ll : forall o o', count (left_of o) [left_of o'] = if Bool.eqb o o' then 1%nat else 0%nat.
Proof. intros [] []; reflexivity. Qed.
Lemma count_rr : forall o o', count (right_of o) [right_of o'] = if Bool.eqb o o' then 1%nat else 0%nat.
Proof. intros [] []; reflexivity. Qed.
Lemma count_lr : forall o o', count (left_of o) [right_of o'] = 0%nat.
Proof. intros [] []; reflexivity. Qed.
Lemma count_rl : forall o o', count (right_of o) [left_of o'] = 0%nat.
Proof. intros [] []; reflexivity. Qed.
Lemma w32_pred : forall x, 1 <= x -> x < 2^32 -> w32 (x + 2^32 - 1) = x - 1.
Proof.
  intros x H1 H2. unfold w32. replace (x + 2^32 - 1) with ((x - 1) + 1 * 2^32) by lia.
  rewrite N.mod_add by discriminate. apply N.mod_small. lia.
Qed.
Lemma w32_succ : forall x, x + 1 < 2^32 -> w32 (x + 1) = x + 1.
Proof. intros. unfold w32. now apply N.mod_small. Qed.
Lemma skeleton_length : forall t k, skeleton t k -> (length k <= length t)%nat.
Proof. induction 1; cbn [length]; rewrite ?app_length; cbn [length]; lia. Qed.
Lemma count_length : forall c k, (count c k <= length k)%nat.
Proof. intros c k. unfold count. induction k as [|d k IH]; cbn; [lia|]. destruct (N.eq_dec d c); lia. Qed.

(** What the scan has established when it stands at [b_i s]. *)
Definition br_inv (ex : exec_mode) (obj : bool) (buf : list N) (start last : nat) (s : bs) : Prop :=
  (start <= b_i s)%nat /\ (ex <> ExSimd -> N.of_nat (length buf) < 2^31 ->
  1 <= b_prime s /\ b_prime s <= 1 + N.of_nat (b_i s - start) /\ b_second s < 2^32 /\
  ((b_i s <= last)%nat -> exists u k, skeleton u k /\ sub_at buf start u /\ b_i s = (start + length u)%nat /\
     b_prime s + N.of_nat (count (right_of obj) k) = 1 + N.of_nat (count (left_of obj) k) /\
     (b_second s + N.of_nat (count (right_of (negb obj)) k)) mod 2^32 = N.of_nat (count (left_of (negb obj)) k) mod 2^32 /\
     (forall k1 k2, k = k1 ++ k2 -> (count (right_of obj) k1 <= count (left_of obj) k1)%nat))).

Lemma prefix_snoc : forall (P : list N -> Prop) k c, (forall k1 k2, k = k1 ++ k2 -> P k1) -> P (k ++ [c]) ->
  forall k1 k2, k ++ [c] = k1 ++ k2 -> P k1.
Proof.
  intros P k c H HC k1 k2 E. destruct k2 as [|x k2] using rev_ind; [rewrite app_nil_r in E; subst; auto|].
  rewrite app_assoc in E. apply app_inj_tail in E as [E _]. eapply H; eauto.
Qed.

Lemma sub_snoc : forall buf p (u : list N) c, sub_at buf p u -> nth_error buf (p + length u) = Some c -> sub_at buf p (u ++ [c]).
Proof. intros. apply sub_at_app. split; auto. cbn. auto. Qed.

Lemma br_body_safe : forall ex obj buf start last s, is_bytes buf -> (last <= length buf)%nat ->
  br_inv ex obj buf start last s ->
  outcome_ok (fun r => match r with
    | inl s' => br_inv ex obj buf start last s' /\ (S (length buf) - b_i s' < S (length buf) - b_i s)%nat
    | inr (j, n) => (j <= Nat.max last (b_i s))%nat /\ (start <= j)%nat /\
        (ex <> ExSimd -> N.of_nat (length buf) < 2^31 ->
          exists u k, skeleton u k /\ sub_at buf start (u ++ [right_of obj]) /\ j = S (start + length u) /\ (j <= last)%nat /\
          count (right_of obj) k = count (left_of obj) k /\
          count (right_of (negb obj)) k = count (left_of (negb obj)) k /\
          (forall k1 k2, k = k1 ++ k2 -> (count (right_of obj) k1 <= count (left_of obj) k1)%nat))
    end) (br_body CNone true ex obj buf last s).
Proof.
  intros ex obj buf start last s HB HL [HI1 HI2]. unfold br_body. cbn [negb orb].
  destruct (Nat.ltb_spec (b_i s) last) as [L|L].
  2:{ destruct ((b_prime s =? 0) && (b_second s =? 0)) eqn:E; cbn [ensure bind outcome_ok]; auto.
      split; [lia|]. split; [lia|]. intros NS SM. destruct (HI2 NS SM) as (P1 & _). lia. }
  destruct (rd_in buf (b_i s)) as (c & Hc); [lia|]. rewrite (rd_some _ _ _ Hc). cbn [bind].
  assert (STEP : forall c' cnt' pr sec, nth_error buf (b_i s) = Some c' ->
     (ex <> ExSimd -> N.of_nat (length buf) < 2^31 -> b_prime s + 1 < 2^32 -> 1 <= pr /\ pr <= 1 + b_prime s /\ sec < 2^32 /\
      forall k, b_prime s + N.of_nat (count (right_of obj) k) = 1 + N.of_nat (count (left_of obj) k) ->
       (b_second s + N.of_nat (count (right_of (negb obj)) k)) mod 2^32 = N.of_nat (count (left_of (negb obj)) k) mod 2^32 ->
       exists d, (d = [] \/ d = [c']) /\ (forall u, skeleton u k -> skeleton (u ++ [c']) (k ++ d)) /\
          pr + N.of_nat (count (right_of obj) (k ++ d)) = 1 + N.of_nat (count (left_of obj) (k ++ d)) /\
          (sec + N.of_nat (count (right_of (negb obj)) (k ++ d))) mod 2^32 = N.of_nat (count (left_of (negb obj)) (k ++ d)) mod 2^32) ->
     br_inv ex obj buf start last (mkbs (S (b_i s)) cnt' pr sec) /\ (S (length buf) - S (b_i s) < S (length buf) - b_i s)%nat).
  { intros c' cnt' pr sec Hc' X. split; [|lia]. split; [cbn; lia|]. intros NS SM. cbn [b_i b_prime b_second].
    destruct (HI2 NS SM) as (P1 & P2 & P3 & P4). destruct (P4 ltac:(lia)) as (u & k & SK & SU & EU & C1 & C2 & PF).
    change (2^31) with 2147483648 in *. change (2^32) with 4294967296 in *.
    destruct (X NS SM ltac:(lia)) as (Q1 & Q2 & Q3 & Q4). repeat split; auto; try lia. intros _.
    destruct (Q4 k C1 C2) as (d & Dd & SKd & C1' & C2'). exists (u ++ [c']), (k ++ d). repeat split; auto.
    - apply sub_snoc; auto. now rewrite <- EU.
    - rewrite app_length. cbn [length]. lia.
    - destruct Dd as [->| ->]; [rewrite app_nil_r; auto|]. apply (prefix_snoc (fun k1 => (count (right_of obj) k1 <= count (left_of obj) k1)%nat)); auto. lia. }
  assert (OTHER : forall c' cnt', nth_error buf (b_i s) = Some c' -> ~ is_bracket c' -> c' <> 34 -> c' <> 92 ->
     br_inv ex obj buf start last (mkbs (S (b_i s)) cnt' (b_prime s) (b_second s)) /\ (S (length buf) - S (b_i s) < S (length buf) - b_i s)%nat).
  { intros c' cnt' Hc' N1 N2 N3. apply (STEP c'); auto. intros NS SM B. destruct (HI2 NS SM) as (P1 & P2 & P3 & P4).
    repeat split; auto; try lia. intros k C1 C2. exists []. rewrite app_nil_r. repeat split; auto.
    intros u SK. rewrite <- (app_nil_r k). apply skeleton_app; auto. apply sk_other; auto. constructor. }
  destruct (N.eqb_spec c c_bslash) as [->|NBS].
  { cbn [outcome_ok]. split; [|cbn [b_i at_i]; lia]. split; [cbn; lia|]. intros NS SM. cbn [b_i b_prime b_second at_i].
    destruct (HI2 NS SM) as (P1 & P2 & P3 & P4). repeat split; auto; try lia. intros LE.
    destruct (P4 ltac:(lia)) as (u & k & SK & SU & EU & C1 & C2 & PF).
    destruct (rd_in buf (S (b_i s))) as (d & Hd); [lia|].
    exists (u ++ [92; d]), k. repeat split; auto.
    - rewrite <- (app_nil_r k). apply skeleton_app; auto. apply sk_escape. constructor.
    - apply sub_at_app. split; auto. rewrite <- EU. cbn. auto.
    - rewrite app_length. cbn [length]. lia. }
  destruct (N.eqb_spec c c_quote) as [->|NQ].
  { eapply outcome_ok_bind; [apply skip_str_safe; lia|]. intros j [J1 J2]. 
    destruct (Nat.ltb_spec j last) as [LJ|LJ]; cbn [bind]; [|cbn; auto].
    destruct (rd_in buf j) as (q & Hq); [lia|]. rewrite (rd_some _ _ _ Hq). cbn [bind].
    destruct (N.eqb_spec q c_quote) as [->|]; cbn [ensure bind outcome_ok]; auto.
    split; [|cbn [b_i at_i]; lia]. split; [cbn; lia|]. intros NS SM. cbn [b_i b_prime b_second at_i].
    destruct (HI2 NS SM) as (P1 & P2 & P3 & P4). repeat split; auto; try lia. intros LE.
    destruct (P4 ltac:(lia)) as (u & k & SK & SU & EU & C1 & C2 & PF).
    destruct (J2 LJ NS) as (t & BT & ST & EJ).
    exists (u ++ 34 :: t ++ [34]), k. repeat split; auto.
    - rewrite <- (app_nil_r k). apply skeleton_app; auto. apply sk_string; auto. constructor.
    - apply sub_at_app. split; auto. rewrite <- EU. cbn [sub_at]. split; auto.
    - rewrite app_length. cbn [length]. rewrite app_length. cbn [length]. lia. }
  destruct (N.eqb_spec c c_comma) as [->|NC].
  { cbn [outcome_ok]. apply (OTHER c_comma); auto; unfold is_bracket, c_comma; lia. }
  assert (BR : forall c', is_bracket c' -> forall u k, skeleton u k -> skeleton (u ++ [c']) (k ++ [c'])).
  { intros c' Bc u k SK. apply skeleton_app; auto. apply sk_bracket; auto. constructor. }
  assert (LB : forall o, is_bracket (left_of o) /\ is_bracket (right_of o)) by (intros []; unfold is_bracket; cbn; auto).
  destruct (N.eqb_spec c (left_of obj)) as [->|NL].
  { cbn [outcome_ok]. apply (STEP (left_of obj)); auto. intros NS SM B. destruct (HI2 NS SM) as (P1 & P2 & P3 & P4).
    rewrite w32_succ by auto. clear STEP OTHER HI2 P4. repeat split; auto; try lia. intros k C1 C2. exists [left_of obj].
    rewrite !count_app, ?count_ll, ?count_lr, ?count_rl, ?count_rr, ?eqb_reflx, ?eqb_negb1, ?eqb_negb2. repeat split; auto; [intros u0 HU; apply BR; [apply LB|exact HU]|lia|rewrite !Nat.add_0_r; auto]. }
  destruct (N.eqb_spec c (right_of obj)) as [->|NR].
  { cbv zeta. destruct (N.eqb_spec (w32 (b_prime s + 2^32 - 1)) 0) as [PZ|PNZ].
    - destruct (N.eqb_spec (b_second s) 0) as [SZ|]; cbn [ensure bind outcome_ok]; auto.
      repeat split; try lia. intros NS SM. destruct (HI2 NS SM) as (P1 & P2 & P3 & P4).
      destruct (P4 ltac:(lia)) as (u & k & SK & SU & EU & C1 & C2 & PF).
      clear STEP OTHER HI2 P4.
      rewrite w32_pred in PZ by (clear -P1 P2 SM HL L; change (2^31) with 2147483648 in *; lia).
      pose proof (skeleton_length _ _ SK). assert (length u <= length buf)%nat by lia.
      pose proof (count_length (right_of (negb obj)) k). pose proof (count_length (left_of (negb obj)) k).
      change (2^31) with 2147483648 in *. rewrite SZ, N.add_0_l, !N.mod_small in C2 by lia.
      exists u, k. repeat split; auto; try lia. apply sub_snoc; auto. now rewrite <- EU.
    - cbn [outcome_ok]. apply (STEP (right_of obj)); auto. intros NS SM B. destruct (HI2 NS SM) as (P1 & P2 & P3 & P4).
      rewrite w32_pred in * by (auto; clear -B; lia). clear STEP OTHER HI2 P4.
      repeat split; auto; try lia.
      intros k C1 C2. exists [right_of obj].
      rewrite !count_app, ?count_ll, ?count_lr, ?count_rl, ?count_rr, ?eqb_reflx, ?eqb_negb1, ?eqb_negb2. repeat split; auto; [intros u0 HU; apply BR; [apply LB|exact HU]|lia|rewrite !Nat.add_0_r; auto]. }
  destruct (N.eqb_spec c (left_of (negb obj))) as [->|NL2].
  { cbn [outcome_ok]. apply (STEP (left_of (negb obj))); auto. intros NS SM B. destruct (HI2 NS SM) as (P1 & P2 & P3 & P4).
    clear STEP OTHER HI2 P4. split; [lia|]. split; [lia|]. split; [apply N.mod_upper_bound; discriminate|]. unfold w32. intros k C1 C2. exists [left_of (negb obj)].
    rewrite !count_app, ?count_ll, ?count_lr, ?count_rl, ?count_rr, ?eqb_reflx, ?eqb_negb1, ?eqb_negb2. repeat split; auto; [intros u0 HU; apply BR; [apply LB|exact HU]|lia|].
    rewrite Nat.add_0_r, N.add_mod_idemp_l by discriminate.
    replace (b_second s + 1 + N.of_nat (count (right_of (negb obj)) k)) with ((b_second s + N.of_nat (count (right_of (negb obj)) k)) + 1) by lia.
    rewrite N.add_mod, C2, <- N.add_mod by discriminate. f_equal. lia. }
  destruct (N.eqb_spec c (right_of (negb obj))) as [->|NR2].
  { cbn [outcome_ok]. apply (STEP (right_of (negb obj))); auto. intros NS SM B. destruct (HI2 NS SM) as (P1 & P2 & P3 & P4).
    clear STEP OTHER HI2 P4. split; [lia|]. split; [lia|]. split; [apply N.mod_upper_bound; discriminate|]. unfold w32. intros k C1 C2. exists [right_of (negb obj)].
    rewrite !count_app, ?count_ll, ?count_lr, ?count_rl, ?count_rr, ?eqb_reflx, ?eqb_negb1, ?eqb_negb2. repeat split; auto; [intros u0 HU; apply BR; [apply LB|exact HU]|lia|].
    rewrite Nat.add_0_r, N.add_mod_idemp_l by discriminate.
    replace (b_second s + 2^32 - 1 + N.of_nat (count (right_of (negb obj)) k + 1)) with ((b_second s + N.of_nat (count (right_of (negb obj)) k)) + 1 * 2^32) by lia.
    rewrite N.mod_add by discriminate. exact C2. }
  cbn [outcome_ok]. apply (OTHER c); auto. unfold is_bracket. destruct obj; cbn in *; unfold c_lbrace, c_rbrace, c_lbrack, c_rbrack in *; lia.
Qed.

Lemma skip_bracketed_bound : forall ex obj buf p, is_bytes buf -> (first p <= last p <= length buf)%nat ->
  outcome_ok (fun x => (ex <> ExSimd -> N.of_nat (length buf) < 2^31 -> (first (snd x) <= last p)%nat) /\ snd x = set_first p (first (snd x)) /\ (first p <= first (snd x) <= S (last p))%nat /\
     first (fst x) = first p /\ last (fst x) = first (snd x) /\
     ((first p < last p)%nat -> nth_error buf (first p) = Some (left_of obj) -> (first p < first (snd x))%nat /\
       (ex <> ExSimd -> N.of_nat (length buf) < 2^31 ->
       exists u k, skeleton u k /\ sub_at buf (first p) (left_of obj :: u ++ [right_of obj]) /\
          first (snd x) = (first p + length u + 2)%nat /\ (first (snd x) <= last p)%nat /\
          count (right_of obj) k = count (left_of obj) k /\
          count (right_of (negb obj)) k = count (left_of (negb obj)) k /\
          (forall k1 k2, k = k1 ++ k2 -> (count (right_of obj) k1 <= count (left_of obj) k1)%nat))))
    (skip_bracketed CNone true ex obj buf p).
Proof.
  intros ex obj buf p HB HL. unfold skip_bracketed. cbn [andb].
  destruct (Nat.leb_spec (last p) (first p)) as [L|L].
  { cbn. repeat split; auto; try lia. destruct p; reflexivity. }
  unfold front. destruct (rd_in buf (first p)) as (c & Hc); [lia|]. rewrite (rd_some _ _ _ Hc). cbn [bind]. cbv zeta.
  set (start := if c =? left_of obj then S (first p) else first p).
  pose proof (loop_inv (br_body CNone true ex obj buf (last p)) (fun s => S (length buf) - b_i s)%nat
    (fun s => br_inv ex obj buf start (last p) s /\ (b_i s <= S (last p))%nat)
    (fun r => let '(j, n) := r in (start <= j <= S (last p))%nat /\
        (ex <> ExSimd -> N.of_nat (length buf) < 2^31 ->
          exists u k, skeleton u k /\ sub_at buf start (u ++ [right_of obj]) /\ j = S (start + length u) /\ (j <= last p)%nat /\
          count (right_of obj) k = count (left_of obj) k /\
          count (right_of (negb obj)) k = count (left_of (negb obj)) k /\
          (forall k1 k2, k = k1 ++ k2 -> (count (right_of obj) k1 <= count (left_of obj) k1)%nat)))) as X.
  assert (X' : outcome_ok (fun r => let '(j, n) := r in (start <= j <= S (last p))%nat /\
        (ex <> ExSimd -> N.of_nat (length buf) < 2^31 ->
          exists u k, skeleton u k /\ sub_at buf start (u ++ [right_of obj]) /\ j = S (start + length u) /\ (j <= last p)%nat /\
          count (right_of obj) k = count (left_of obj) k /\
          count (right_of (negb obj)) k = count (left_of (negb obj)) k /\
          (forall k1 k2, k = k1 ++ k2 -> (count (right_of obj) k1 <= count (left_of obj) k1)%nat)))
    (loop (br_body CNone true ex obj buf (last p)) (S (S (length buf))) (mkbs start 0 1 0))).
  { apply X; clear X.
    - intros s [HI HLs].
      assert (NB : forall s', br_body CNone true ex obj buf (last p) s = Ok (inl s') -> (b_i s' <= S (last p))%nat).
      { intros s'. unfold br_body. cbn [negb orb]. destruct (Nat.ltb_spec (b_i s) (last p)) as [LS|LS].
        2:{ destruct (ensure _ _); cbn; congruence. }
        destruct (rd_in buf (b_i s)) as (d & Hd); [lia|]. rewrite (rd_some _ _ _ Hd). cbn [bind].
        repeat match goal with |- (if ?b then _ else _) = _ -> _ => destruct b end;
          try (intros E; injection E as <-; cbn; lia).
        - destruct (skip_str true ex buf (S (b_i s)) (last p)) as [j| | |]; cbn [bind]; try congruence.
          destruct (Nat.ltb_spec j (last p)); [|cbn; congruence].
          destruct (rd buf j) as [b| | |]; cbn [bind]; try congruence. destruct (b =? c_quote); cbn; try congruence.
          intros E; injection E as <-; cbn; lia.
        - destruct (ensure _ _); cbn; congruence. }
      pose proof (br_body_safe ex obj buf start (last p) s HB ltac:(lia) HI) as Y.
      destruct (br_body CNone true ex obj buf (last p) s) as [[s'|[j n]]| | |]; cbn [outcome_ok] in *; auto.
      + destruct Y as [Y1 Y2]. split; [split|]; auto.
      + destruct Y as (Y1 & Y2 & Y3). split; auto. lia.
    - split; [|cbn; unfold start; destruct (c =? left_of obj); lia]. split; [cbn; lia|]. intros NS SM. cbn [b_i b_prime b_second].
      split; [lia|]. split; [lia|]. split; [reflexivity|].
      intros _. exists [], []. cbn. rewrite Nat.add_0_r. repeat split; auto; [constructor|].
      intros k1 k2 E. destruct k1; [cbn; lia|discriminate].
    - cbn [b_i]. lia. }
  clear X.
  destruct (loop (br_body CNone true ex obj buf (last p)) (S (S (length buf))) (mkbs start 0 1 0)) as [[j n]| | |]; cbn [bind outcome_ok] in *; auto.
  destruct X' as (J1 & J2). cbn [fst snd first last set_first set_last set_counter].
  assert (first p <= start)%nat by (unfold start; destruct (c =? left_of obj); lia).
  split; [intros NS SM; destruct (J2 NS SM) as (u & k & _ & _ & _ & LJ & _); exact LJ|].
  repeat split; auto; try lia.
  - rewrite Hc in H1. injection H1 as ->. unfold start in J1. rewrite N.eqb_refl in J1. lia.
  - intros NS SM. rewrite Hc in H1. injection H1 as ->. unfold start in *. rewrite N.eqb_refl in *.
    destruct (J2 NS SM) as (u & k & SK & SU & EJ & LJ & R). exists u, k. repeat split; try apply R; auto; try lia.
Qed.

Lemma skip_bracketed_safe : forall ex obj buf p, is_bytes buf -> (first p <= last p <= length buf)%nat ->
  outcome_ok (fun x => snd x = set_first p (first (snd x)) /\ (first p <= first (snd x) <= S (last p))%nat /\
     first (fst x) = first p /\ last (fst x) = first (snd x) /\
     ((first p < last p)%nat -> nth_error buf (first p) = Some (left_of obj) -> (first p < first (snd x))%nat /\
       (ex <> ExSimd -> N.of_nat (length buf) < 2^31 ->
       exists u k, skeleton u k /\ sub_at buf (first p) (left_of obj :: u ++ [right_of obj]) /\
          first (snd x) = (first p + length u + 2)%nat /\ (first (snd x) <= last p)%nat /\
          count (right_of obj) k = count (left_of obj) k /\
          count (right_of (negb obj)) k = count (left_of (negb obj)) k /\
          (forall k1 k2, k = k1 ++ k2 -> (count (right_of obj) k1 <= count (left_of obj) k1)%nat))))
    (skip_bracketed CNone true ex obj buf p).
Proof.
  intros ex obj buf p HB HL. eapply outcome_ok_weaken; [|apply skip_bracketed_bound; assumption]. intros x [_ X]. exact X.
Qed.
