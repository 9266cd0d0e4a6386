(** parse_real on arbitrary bytes: no read outside the document, what is accepted. *)
From Coq Require Import List NArith ZArith Bool Lia Arith ZifyBool ZifyNat ZifyN.
From Verif Require Import Base Mem Loop PolicyModel IntModel IntProofs IntValueProofs SkipModel SpecNum SpecText SpecJson SkipProofs SkipSafe RealModel SpecReal RealProofs.
Import ListNotations.
Local Open Scope N_scope.

Lemma push_digit_lt : forall a d, push_digit a d < 2^64.
Proof. intros. unfold push_digit. apply N.mod_lt. discriminate. Qed.

Lemma while_safe : forall n buf i acc, is_bytes buf -> (i + n <= length buf)%nat -> acc < 2^64 ->
  exists ds v, digits_while_number n buf i acc = Ok ((i + length ds)%nat, v) /\ v < 2^64 /\ digits ds /\ sub_at buf i ds /\ (length ds <= n)%nat /\
    (length ds = n \/ exists b, nth_error buf (i + length ds) = Some b /\ ~ is_dig b).
Proof.
  induction n as [|n IH]; intros buf i acc HB HL HA.
  - exists [], acc. cbn. rewrite Nat.add_0_r. repeat split; auto. constructor.
  - cbn [digits_while_number]. destruct (rd_in buf i) as (b & Hb); [lia|]. rewrite (rd_some _ _ _ Hb). cbn [bind].
    assert (b < 256) by (eapply is_bytes_nth; eauto).
    destruct (N.ltb_spec (parse_digit b) 10) as [D|D].
    + destruct (IH buf (S i) (push_digit acc (parse_digit b)) HB ltac:(lia) (push_digit_lt _ _)) as (ds & v & E & D0 & D1 & D2 & D3 & D4).
      exists (b :: ds), v. rewrite E. cbn [length sub_at]. split; [do 2 f_equal; lia|]. split; auto. split; [constructor; auto; unfold parse_digit, is_dig, c_0 in *; lia|].
      split; [split; auto|]. split; [lia|]. destruct D4 as [D4|(b' & Hb' & ND)]; [left; lia|right]. exists b'. split; auto.
      rewrite <- Hb'. f_equal. lia.
    + exists [], acc. cbn. rewrite Nat.add_0_r. split; [reflexivity|]. split; auto. split; [constructor|]. split; auto. split; [lia|]. right. exists b. split; auto.
      unfold parse_digit, is_dig, c_0 in *. lia.
Qed.

Lemma until_safe : forall n buf i acc, (i + n <= length buf)%nat -> exists v, digits_until_last n buf i acc = Ok v.
Proof.
  induction n as [|n IH]; intros buf i acc HL; [exists acc; reflexivity|]. cbn [digits_until_last].
  destruct (rd_in buf i) as (b & Hb); [lia|]. rewrite (rd_some _ _ _ Hb). cbn [bind]. apply IH. lia.
Qed.

(** The product in to_signed never overflows for 64 bits. *)
Lemma to_signed_64 : forall u s, u < 2^64 -> s = 1%Z \/ s = (-1)%Z -> exists z, to_signed 64 u s = Ok z.
Proof.
  intros u s HU HS. unfold to_signed, cast_s. change (64 <=? 64) with true. cbn iota. change (Z.of_N 64) with 64%Z. change (2 ^ (64 - 1))%Z with 9223372036854775808%Z.
  change (2^64)%Z with 18446744073709551616%Z. change (2^63)%Z with 9223372036854775808%Z. change (2^63) with 9223372036854775808. change (2^64) with 18446744073709551616 in HU.
  rewrite Z.mod_small by lia.
  destruct (N.eqb_spec u 9223372036854775808) as [E|E]; [eauto|].
  match goal with |- exists z, (if ?c then _ else _) = _ => replace c with true end; [eauto|]. destruct (Z.ltb_spec (Z.of_N u) 9223372036854775808); lia.
Qed.

(** What parse_real_unknown accepts: [-] digits [. digits] [e [+|-] digits]; the
    whole part may be empty or have leading zeros after a minus. *)
Inductive loose_real : list N -> Prop :=
| lr_plain : forall n f e, canonical n -> loose_frac f -> exp_part e -> loose_real (n ++ f ++ e)
| lr_minus : forall n f e, digits n -> loose_frac f -> exp_part e -> loose_real (45 :: n ++ f ++ e).

Lemma unknown_exponent_safe : forall buf i last, is_bytes buf -> (i <= last <= length buf)%nat ->
  outcome_ok (fun r => exists e, snd r = (i + length e)%nat /\ exp_part e /\ sub_at buf i e /\ (i + length e <= last)%nat)
    (unknown_exponent buf i last).
Proof.
  intros buf i last HB HL. unfold unknown_exponent.
  destruct (Nat.ltb_spec i last) as [L|L].
  2:{ cbn. exists []. cbn. rewrite Nat.add_0_r. repeat split; auto; [constructor|lia]. }
  destruct (rd_in buf i) as (b & Hb); [lia|]. rewrite (rd_some _ _ _ Hb). cbn [bind andb].
  assert (b < 256) by (eapply is_bytes_nth; eauto).
  destruct (N.eqb_spec (N.lor b 32) c_e) as [EE|EE].
  2:{ cbn. exists []. cbn. rewrite Nat.add_0_r. repeat split; auto; [constructor|lia]. }
  assert (EB : b = 101 \/ b = 69).
  { destruct (N.eq_dec b 101); auto. destruct (N.eq_dec b 69); auto. pose proof (lor_e b). lia. }
  destruct (Nat.ltb_spec (S i) last) as [L1|L1]; cbn [ensure bind outcome_ok]; auto.
  destruct (rd_in buf (S i)) as (s & Hs); [lia|]. rewrite (rd_some _ _ _ Hs). cbn [bind]. cbv zeta.
  assert (BS : s < 256) by (eapply is_bytes_nth; eauto).
  eapply outcome_ok_bind with (P := fun r => let '(sgn, i2) := r in (sgn = 1%Z \/ sgn = (-1)%Z) /\ exists sg, (sg = [] \/ sg = [43] \/ sg = [45]) /\ sub_at buf (S i) sg /\ i2 = (S i + length sg)%nat /\
     exists d, nth_error buf i2 = Some d /\ is_dig d).
  { unfold c_plus, c_minus. destruct ((s =? 43) || (s =? 45)) eqn:ES.
    - destruct (Nat.ltb_spec (S (S i)) last) as [L2|L2]; [|exact I].
      destruct (rd_in buf (S (S i))) as (d & Hd); [lia|]. rewrite (rd_some _ _ _ Hd). cbn [bind].
      assert (d < 256) by (eapply is_bytes_nth; eauto).
      destruct (N.ltb_spec (parse_digit d) 10) as [D|D]; cbn [ensure bind outcome_ok]; auto.
      split; [destruct (s =? 43); auto|]. exists [s]. cbn. repeat split; auto; [|lia|].
      + destruct (N.eqb_spec s 43); [subst; auto|]. right. right. f_equal. lia.
      + exists d. split; auto. unfold parse_digit, is_dig, c_0 in *. lia.
    - unfold is_number, c_0. change (2^32) with 4294967296. destruct (N.ltb_spec ((s + 4294967296 - 48) mod 4294967296) 10) as [D|D]; cbn [ensure bind outcome_ok]; auto.
      split; auto. exists []. split; [auto|]. split; [exact I|]. split; [cbn; lia|]. exists s. split; auto. unfold is_dig. lia. }
  intros [sgn i2] (HS & sg & G1 & G2 & G3 & d & Hd & Dd).
  destruct (Nat.ltb_spec i2 last) as [L2|L2]; cbn [ensure bind outcome_ok]; auto.
  destruct (while_safe (last - i2) buf i2 0 HB ltac:(lia) eq_refl) as (ds & v & E & V & D1 & D2 & D3 & D4). rewrite E. cbn [bind].
  destruct (to_signed_64 v sgn V HS) as (z & Ez). rewrite Ez. cbn [bind outcome_ok snd].
  exists (b :: sg ++ ds). cbn [length sub_at]. rewrite app_length. split; [lia|]. split.
  - constructor; auto. intros ->. cbn [length] in *. destruct D4 as [D4|(b' & Hb' & ND)]; [lia|]. rewrite Nat.add_0_r in Hb'. congruence.
  - split; [split; auto|lia]. apply sub_at_app. split; auto. now rewrite <- G3.
Qed.

Lemma unknown_fraction_safe : forall kd buf start i last sig e1, is_bytes buf -> (i <= last <= length buf)%nat -> sig < 2^64 ->
  exists sig' e' f more, unknown_fraction kd buf start i last sig e1 = Ok (sig', e', (i + length f)%nat, more) /\
    loose_frac f /\ sub_at buf i f /\ (i + length f <= last)%nat.
Proof.
  intros kd buf start i last sig e1 HB HL HV. unfold unknown_fraction.
  assert (NONE : exists sig' e' f more, (Ok (sig, e1, i, false) : res (N * Z * nat * bool)) = Ok (sig', e', (i + length f)%nat, more) /\
    loose_frac f /\ sub_at buf i f /\ (i + length f <= last)%nat).
  { exists sig, e1, [], false. cbn. rewrite Nat.add_0_r. repeat split; auto; [constructor|lia]. }
  destruct (Nat.ltb_spec i last) as [L|L]; [|exact NONE].
  destruct (rd_in buf i) as (b & Hb); [lia|]. rewrite (rd_some _ _ _ Hb). cbn [bind].
  destruct (N.eqb_spec b c_dot) as [->|]; [|exact NONE]. clear NONE. cbv zeta.
  destruct (negb (e1 =? 0)%Z).
  - destruct (skip_digits_if_safe buf (S i) last) as (ds & E & D1 & D2 & D3 & D4); auto; [lia|]. rewrite E. cbn [bind].
    exists sig, e1, (46 :: ds), false. cbn [length sub_at]. repeat split; auto; [do 3 f_equal; lia|constructor; auto|lia].
  - destruct (while_safe (Nat.min (last - S i) (kd - (S i - start))) buf (S i) sig HB ltac:(lia) HV) as (ds & v & E & V & D1 & D2 & D3 & D4).
    rewrite E. cbn [bind].
    match goal with |- context [if ?c then _ else _] => destruct c eqn:EC end.
    + destruct (skip_digits_safe buf (S i + length ds) last HB ltac:(lia)) as (ds2 & E2 & F1 & F2 & F3 & F4). rewrite E2. cbn [bind].
      do 2 eexists. exists (46 :: ds ++ ds2). eexists. cbn [length sub_at]. rewrite app_length. split; [do 2 f_equal; f_equal; lia|].
      split; [constructor; apply Forall_app; auto|]. split; [split; auto; apply sub_at_app; split; auto|lia].
    + do 2 eexists. exists (46 :: ds). eexists. cbn [length sub_at]. split; [do 2 f_equal; f_equal; lia|].
      split; [constructor; auto|]. split; [split; auto|lia].
Qed.

(** Something that is no digit stands in the range after its first byte. *)
Definition stops (buf : list N) (p : ps) : Prop :=
  exists j b, (first p < j < last p)%nat /\ nth_error buf j = Some b /\ ~ is_dig b.

Lemma sub_at_digits : forall ds buf i j b, sub_at buf i ds -> digits ds -> (i <= j < i + length ds)%nat -> nth_error buf j = Some b -> is_dig b.
Proof.
  induction ds as [|d ds IH]; intros buf i j b HS HD HJ Hb; cbn [length] in *; [lia|]. destruct HS as [S1 S2]. inversion HD; subst.
  destruct (Nat.eq_dec i j) as [->|]; [congruence|]. apply (IH buf (S i) j b); auto. lia.
Qed.

Lemma unknown_safe : forall kd precise buf p, (1 <= kd)%nat -> is_bytes buf -> (first p <= last p <= length buf)%nat -> (stops buf p \/ kd + 1 < last p - first p)%nat ->
  outcome_ok (fun x => exists t, loose_real t /\ sub_at buf (first p) t /\ (first p + length t <= last p)%nat /\
      snd x = set_first p (first p + length t)) (parse_real_unknown kd precise buf p).
Proof.
  intros kd precise buf p HK HB HL ST. unfold parse_real_unknown, has_more.
  destruct (Nat.ltb_spec (first p) (last p)) as [L|L]; cbn [ensure bind outcome_ok]; auto.
  unfold front. destruct (rd_in buf (first p)) as (c & Hc); [lia|]. rewrite (rd_some _ _ _ Hc). cbn [bind].
  destruct (is_number_start c) eqn:NS; cbn [ensure bind outcome_ok]; auto.
  apply outcome_ok_bind with (P := fun r => exists sg, (sg = [45] /\ c = 45 \/ sg = [] /\ 49 <= c <= 57 \/
       sg = [] /\ c = 48 /\ forall b, (S (first p) < last p)%nat -> nth_error buf (S (first p)) = Some b -> ~ is_dig b) /\
       sub_at buf (first p) sg /\ snd r = set_first p (first p + length sg)).
  { unfold validate_signed_first, has_more, front. destruct (Nat.ltb_spec (first p) (last p)); [|lia]. cbn [ensure bind].
    rewrite (rd_some _ _ _ Hc). cbn [bind]. destruct (N.eqb_spec c c_minus) as [->|NM].
    - cbn [outcome_ok snd]. exists [45]. split; [left; split; reflexivity|]. split; [split; [exact Hc|exact I]|]. unfold remove_prefix. reflexivity.
    - assert (SF : set_first p (first p + 0) = p) by (destruct p; cbn; now rewrite Nat.add_0_r).
      destruct ((49 <=? c) && (c <=? 57)) eqn:E; cbn [outcome_ok snd].
      { exists []. split; [right; left; split; [reflexivity|lia]|]. split; [exact I|]. symmetry; exact SF. }
      destruct (N.eqb_spec c c_0) as [->|]; cbn [outcome_ok]; auto.
      unfold ps_size. destruct (Nat.ltb_spec 1 (last p - first p)).
      + destruct (rd_in buf (first p + 1)) as (d & Hd); [lia|]. rewrite (rd_some _ _ _ Hd). cbn [bind].
        unfold c_0. change (2^32) with 4294967296. assert (d < 256) by (eapply is_bytes_nth; eauto).
        destruct (N.leb_spec 10 ((d + 4294967296 - 48) mod 4294967296)); cbn [ensure bind outcome_ok snd]; auto.
        exists []. split; [right; right|split; [exact I|symmetry; exact SF]]. split; [reflexivity|]. split; [reflexivity|].
        intros b _ Hb. replace (first p + 1)%nat with (S (first p)) in Hd by lia. rewrite Hd in Hb. injection Hb as <-. unfold is_dig. lia.
      + cbn [outcome_ok snd]. exists []. split; [right; right|split; [exact I|symmetry; exact SF]]. split; [reflexivity|]. split; [reflexivity|]. lia. }
  intros [sgn p'] (sg & SG & SSG & EP). cbn [snd] in EP. subst p'. cbn [first last set_first].
  set (st := (first p + length sg)%nat).
  assert (LS : (length sg <= 1)%nat) by (destruct SG as [[-> _]|[[-> _]|[-> _]]]; cbn; lia).
  set (n := Nat.min (last p - st) kd).
  destruct (while_safe n buf st 0 HB ltac:(unfold n, st in *; lia) eq_refl) as (ds & v & E & V & D1 & D2 & D3 & D4).
  rewrite E. cbn [bind].
  assert (W : exists e1 more ds', (if (st + n <=? st + length ds)%nat
      then j <- skip_digits true buf (st + length ds) (last p);; Ok (j, if v =? 0 then 0%Z else Z.of_nat (j - (st + length ds)), true)
      else Ok ((st + length ds)%nat, 0%Z, (storage_digits <? st + length ds - st)%nat)) = Ok ((st + length ds')%nat, e1, more) /\ digits ds' /\ sub_at buf st ds' /\ (st + length ds' <= last p)%nat /\
      (ds = [] -> 1 <= n -> ds' = [])%nat /\ (exists r, ds' = ds ++ r)).
  { destruct (Nat.leb_spec (st + n) (st + length ds)) as [G|G].
    - assert (LT : (st + length ds < last p)%nat).
      { destruct (Nat.lt_ge_cases (st + length ds) (last p)) as [|GE]; auto. exfalso. unfold n, st in *.
        destruct ST as [(j & b & J & Hb & ND)|]; [|lia]. apply ND. eapply (sub_at_digits ds); eauto. lia. }
      destruct (skip_digits_safe buf (st + length ds) (last p) HB ltac:(lia)) as (ds2 & E2 & F1 & F2 & F3 & F4). rewrite E2. cbn [bind].
      exists (if v =? 0 then 0%Z else Z.of_nat (length ds2)), true, (ds ++ ds2). rewrite app_length. split; [do 3 f_equal; [lia|]|].
      { destruct (v =? 0); auto. f_equal. lia. }
      split; [apply Forall_app; auto|]. split; [apply sub_at_app; split; auto|]. split; [lia|]. split; [|eauto].
      intros -> H. cbn [length] in *. lia.
    - do 2 eexists. exists ds. split; [reflexivity|]. split; auto. split; auto. split; [unfold n in *; lia|]. split; [auto|]. exists []. now rewrite app_nil_r. }
  destruct W as (e1 & more & n' & W & W1 & W2 & W3 & W4 & W5). rewrite W. cbn [bind].
  destruct (unknown_fraction_safe kd buf st (st + length n') (last p) v e1 HB ltac:(lia) V) as (sig' & e' & f & more' & UF & F1 & F2 & F3).
  rewrite UF. cbn [bind].
  apply outcome_ok_bind with (P := fun r => exists e, snd r = (st + length n' + length f + length e)%nat /\ exp_part e /\ sub_at buf (st + length n' + length f) e /\ (st + length n' + length f + length e <= last p)%nat).
  { apply unknown_exponent_safe; auto. lia. }
  intros [e2 k] (e & Ek & E1 & E2 & E3). cbn [snd] in Ek. subst k. cbn [outcome_ok snd].
  exists (sg ++ n' ++ f ++ e). rewrite !app_length. split; [|split; [|split]].
  - destruct SG as [[-> _]|SG].
    + cbn [app]. apply lr_minus; auto.
    + assert (SN : sg = []) by (destruct SG as [[]|[]]; auto). subst sg. cbn [app]. apply lr_plain; auto.
      unfold st in *. cbn [length] in *. rewrite Nat.add_0_r in *.
      assert (DC : is_dig c) by (unfold is_dig; destruct SG as [[_ SG]|(_ & -> & _)]; lia).
      assert (ND : ds <> []). { intros ->. cbn [length] in *. destruct D4 as [D4|(b & Hb & ND)]; [unfold n in *; lia|]. rewrite Nat.add_0_r in Hb. congruence. }
      destruct W5 as (r & W5). destruct ds as [|d0 ds]; [congruence|]. cbn [app] in W5.
      assert (d0 = c) by (destruct D2; congruence). subst d0.
      split; auto. split; [subst n'; discriminate|]. intros r' E'. rewrite E' in W5. injection W5 as Ec Er.
      destruct SG as [[_ SG]|(_ & _ & SG)]; [lia|]. destruct r' as [|x r']; auto. exfalso. subst n'. destruct W2 as (_ & W2 & _). cbn [length] in *.
      apply (SG x); auto; [lia|]. inversion W1 as [|? ? _ W1']; subst. inversion W1'; auto.
  - apply sub_at_app. split; auto. apply sub_at_app. split; auto. apply sub_at_app. split; auto.
  - unfold st in *. lia.
  - unfold set_first. destruct p; cbn. f_equal. unfold st. cbn. lia.
Qed.

(** *** The known range *)

Lemma skip_fraction_parts : forall buf i last, is_bytes buf -> (i <= last <= length buf)%nat ->
  exists f, skip_fraction true buf i last = Ok (match f with [] => None | _ => Some i end, (i + length f)%nat) /\ loose_frac f /\ sub_at buf i f /\
    (i + length f <= last)%nat.
Proof.
  intros buf i last HB HL. unfold skip_fraction. cbn [negb orb].
  destruct (Nat.ltb_spec i last).
  - destruct (rd_in buf i) as (b & Hb); [lia|]. rewrite (rd_some _ _ _ Hb). cbn [bind].
    destruct (N.eqb_spec b c_dot) as [->|].
    + destruct (skip_digits_if_safe buf (S i) last) as (ds & E & D1 & D2 & D3 & D4); auto; [lia|]. rewrite E. cbn [bind].
      exists (46 :: ds). cbn [length sub_at]. repeat split; auto; [do 2 f_equal; lia|constructor; auto|lia].
    + exists []. cbn. rewrite Nat.add_0_r. repeat split; auto; [constructor|lia].
  - cbn [bind]. exists []. cbn. rewrite Nat.add_0_r. repeat split; auto; [constructor|lia].
Qed.

Lemma skip_exponent_parts : forall buf i last, is_bytes buf -> (i <= last <= length buf)%nat ->
  outcome_ok (fun r => exists e, r = (match e with [] => None | _ => Some i end, (i + length e)%nat) /\ exp_part e /\ sub_at buf i e /\ (i + length e <= last)%nat)
    (skip_exponent true buf i last).
Proof.
  intros buf i last HB HL. pose proof (skip_exponent_safe buf i last HB HL) as X.
  destruct (skip_exponent true buf i last) as [[o k]| | |] eqn:E; cbn [outcome_ok snd] in *; auto.
  destruct X as (e & -> & E1 & E2 & E3). exists e. split; [|auto]. f_equal.
  unfold skip_exponent in E. destruct (exp_part_head e E1) as [->|(c & r & -> & C)].
  - cbn [length] in *. rewrite Nat.add_0_r in *.
    match type of E with bind ?x _ = _ => destruct x as [dig| | |]; cbn [bind] in E; try discriminate end.
    destruct ((dig =? parse_digit c_e) || (dig =? parse_digit c_E)); [|congruence]. exfalso.
    repeat match type of E with bind ?x _ = _ => destruct x eqn:?; cbn [bind] in E; try discriminate end.
    injection E as _ E. match goal with H : skip_digits_if _ _ ?k _ = Ok ?m |- _ => pose proof (skip_digits_if_safe buf k last HB ltac:(lia)) as (ds & E' & _); rewrite E' in H; injection H as H end.
    repeat match goal with H : context [if ?c then S (S i) else S i] |- _ => destruct c in H end; lia.
  - pose proof (sub_at_head _ _ _ _ E2) as Hc. cbn [length] in *. destruct (Nat.ltb_spec i last) as [L|L]; [|lia].
    rewrite (rd_some _ _ _ Hc) in E. cbn [bind] in E.
    assert (c < 256) by (eapply is_bytes_nth; eauto). rewrite !parse_digit_eq in E by (auto; reflexivity).
    replace ((c =? c_e) || (c =? c_E)) with true in E by (unfold c_e, c_E; lia).
    repeat match type of E with bind ?x _ = _ => destruct x eqn:?; cbn [bind] in E; try discriminate end.
    congruence.
Qed.

Lemma skip_number_parts : forall buf p, is_bytes buf -> (first p <= last p <= length buf)%nat ->
  outcome_ok (fun x => exists sg n f e, (sg = [] \/ sg = [45]) /\ digits n /\ loose_frac f /\ exp_part e /\
      sub_at buf (first p) (sg ++ n ++ f ++ e) /\ (first p + length (sg ++ n ++ f ++ e) <= last p)%nat /\
      first (fst x) = first p /\ known_number sg n f e (fst x))
    (skip_number true buf p).
Proof.
  intros buf p HB HL. unfold skip_number, has_more.
  destruct (Nat.ltb_spec (first p) (last p)) as [L|L]; cbn [ensure bind outcome_ok]; auto.
  unfold front. destruct (rd_in buf (first p)) as (c & Hc); [lia|]. rewrite (rd_some _ _ _ Hc). cbn [bind]. cbv zeta.
  set (i := if c =? c_minus then S (first p) else first p).
  assert (SG : exists sg, (sg = [] \/ sg = [45]) /\ sub_at buf (first p) sg /\ i = (first p + length sg)%nat).
  { unfold i. destruct (N.eqb_spec c c_minus) as [->|]; [exists [45]|exists []]; cbn; repeat split; auto; lia. }
  destruct SG as (sg & G1 & G2 & G3).
  assert (HI : (i <= last p)%nat) by (unfold i; destruct (c =? c_minus); lia).
  destruct (skip_digits_if_safe buf i (last p)) as (n & E1 & N1 & N2 & N3 & N4); auto; [lia|]. rewrite E1. cbn [bind].
  destruct (skip_fraction_parts buf (i + length n) (last p)) as (f & E2 & F1 & F2 & F3); auto; [lia|]. rewrite E2. cbn [bind].
  pose proof (skip_exponent_parts buf (i + length n + length f) (last p) HB ltac:(lia)) as X.
  destruct (skip_exponent true buf (i + length n + length f) (last p)) as [[o2 k]| | |]; cbn [outcome_ok bind fst] in *; auto.
  destruct X as (e & Ek & E3 & E4 & E5). injection Ek as -> ->.
  exists sg, n, f, e. rewrite !app_length. split; auto. split; auto. split; auto. split; auto. split.
  { apply sub_at_app. split; auto. rewrite <- G3. apply sub_at_app. split; auto. apply sub_at_app. split; auto. }
  split; [lia|]. split; [reflexivity|]. unfold known_number. cbn [last cfirst clast set_last set_class first]. rewrite !app_length.
  split; [lia|]. split; [destruct f; auto; f_equal; lia|destruct e; auto; f_equal; lia].
Qed.

Lemma known_safe : forall kd precise sg n f e buf p, is_bytes buf -> (last p <= length buf)%nat -> N.of_nat (length buf) < 2^32 ->
  sg = [] \/ sg = [45] -> digits n -> loose_frac f -> exp_part e -> (forall x, exp_val e x -> (Z.abs x < 2^62)%Z) -> (kd <= 19)%nat ->
  sub_at buf (first p) (sg ++ n ++ f ++ e) -> known_number sg n f e p -> outcome_ok (fun _ => True) (parse_real_known kd precise buf p).
Proof.
  intros kd precise sg n f e buf p HB LB L32 Hsg HN HF HE HX LK HS (KL & KF & KE). unfold parse_real_known.
  change (2^32) with 4294967296 in L32. rewrite !app_length in *.
  unfold has_more. destruct (Nat.ltb_spec (first p) (last p)); cbn [ensure bind outcome_ok]; auto.
  unfold front. destruct (rd_in buf (first p)) as (c & Hc); [lia|]. rewrite (rd_some _ _ _ Hc). cbn [bind].
  destruct (is_number_start c) eqn:NS; cbn [ensure bind outcome_ok]; auto. cbv zeta.
  pose proof HS as HS0. apply sub_at_app in HS as [SG HS]. apply sub_at_app in HS as [SI SFE]. apply sub_at_app in SFE as [SF SE].
  assert (FR : (if c =? c_minus then ((-1)%Z, S (first p)) else (1%Z, first p)) = (sign_of sg, (first p + length sg)%nat)).
  { destruct Hsg as [->| ->].
    - cbn [length app] in *. rewrite Nat.add_0_r. unfold c_minus. destruct (N.eqb_spec c 45) as [->|]; [|reflexivity]. exfalso.
      destruct n as [|d n]; [|cbn [app] in HS0; destruct HS0; inversion HN; subst; unfold is_dig in *; assert (d = 45) by congruence; lia].
      cbn [app] in HS0. destruct HF as [|ds]; cbn [app] in HS0.
      + destruct (exp_part_head e HE) as [->|(c' & r & -> & C)]; [cbn [length] in *; lia|]. destruct HS0. assert (c' = 45) by congruence. lia.
      + destruct HS0. congruence.
    - destruct SG. assert (c = 45) by congruence. subst. cbn. f_equal. lia. }
  rewrite FR. set (st := (first p + length sg)%nat) in *.
  assert (WL : match cfirst p, clast p with Some d, _ => d | None, Some e => e | None, None => last p end = (st + length n)%nat).
  { rewrite KF, KE, KL. unfold st. destruct f; destruct e; cbn [length] in *; lia. }
  assert (FL : match cfirst p with
               | Some d => Some (S d, match clast p with Some e => e | None => last p end)
               | None => None
               end = match f with [] => None | _ => Some (S (st + length n), (st + length n + length f)%nat) end).
  { rewrite KF, KE, KL. unfold st. destruct f; [reflexivity|]. destruct e; cbn [length] in *; do 2 f_equal; lia. }
  rewrite WL, FL. replace (st + length n - st)%nat with (length n) by lia.
  set (fl := match match f with [] => None | _ => Some (S (st + length n), (st + length n + length f)%nat) end with
               | Some (a, b) => (b - a)%nat | None => O end).
  assert (FLB : (fl <= length f - 1)%nat) by (unfold fl; destruct f; cbn [length]; lia).
  match goal with |- outcome_ok _ (match ?x with pair _ _ => _ end) => assert (SP : exists wt ft e1 sd, x = (wt, ft, e1, sd) /\ (wt <= length n)%nat /\ (ft <= fl)%nat /\ (Z.abs e1 < 2^62)%Z) end.
  { destruct (Nat.ltb_spec kd (length n)); do 4 eexists; (split; [reflexivity|]); change (2^62)%Z with 4611686018427387904%Z; lia. }
  destruct SP as (wt & ft & e1 & sd & SP & S1 & S2 & S3). rewrite SP.
  assert (TOT : (st + length n + length f + length e <= length buf)%nat) by (unfold st; lia).
  destruct (until_safe wt buf st 0 ltac:(lia)) as (v & Ev). rewrite Ev. cbn [bind].
  assert (FS : exists v', match match f with [] => None | _ => Some (S (st + length n), (st + length n + length f)%nat) end with
      | Some (a, _) => digits_until_last ft buf a v | None => Ok v end = Ok v').
  { destruct f; [eauto|]. cbn [length] in *. apply until_safe. lia. }
  destruct FS as (v' & FS). rewrite FS. cbn [bind].
  assert (ES : exists e', match clast p with Some x => known_exponent buf (S x) (last p) e1 | None => Ok e1 end = Ok e').
  { rewrite KE, KL. destruct e as [|e0 e']; [eauto|].
    assert (EV : exists x, exp_val (e0 :: e') x).
    { inversion HE as [|e1' s ds He Hs HD ND]; subst. destruct Hs as [->|[->| ->]]; cbn [app]; eexists; [apply ev_plain|apply ev_plus|apply ev_minus]; auto. }
    destruct EV as (x & EV). erewrite known_exponent_ok with (x := x); eauto.
    - replace (first p + (length sg + (length n + length f)))%nat with (st + length n + length f)%nat by (unfold st; lia). exact SE.
    - lia. }
  destruct ES as (e' & ES). rewrite ES. exact I.
Qed.
