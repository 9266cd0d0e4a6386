From Coq Require Import List NArith ZArith Bool Lia Arith ZifyBool ZifyNat ZifyN.
From Verif Require Import Base Mem Bits PolicyModel IntModel IntSerModel SpecNum SpecText IntProofs IntSerProofs.
Import ListNotations.
Ltac Zify.zify_post_hook ::= Z.div_mod_to_equations.
Local Open Scope N_scope.

(** ** Whitespace *)

Lemma is_space_spec : forall b, b < 256 -> is_space b = (1 <=? b) && (b <=? 32).
Proof. intros. unfold is_space. change (2^32) with 4294967296. lia. Qed.

Lemma json_ws_space : forall b, json_ws b -> is_space b = true.
Proof. intros b [->|[->|[->| ->]]]; reflexivity. Qed.

Lemma trim_loop_run : forall t fuel buf i j last, Forall json_ws t ->
  sub_at buf i t -> j = (i + length t)%nat -> (j <= last)%nat ->
  (j = last \/ exists b, nth_error buf j = Some b /\ is_space b = false) ->
  (last - i < fuel)%nat ->
  trim_loop fuel buf i last = Ok j.
Proof.
  induction t as [|c t IH]; intros fuel buf i j l H S -> L E F; destruct fuel; try lia; cbn [trim_loop].
  - cbn [length] in *. rewrite Nat.add_0_r in *.
    destruct E as [->|(b & Hb & Hs)].
    + now rewrite Nat.ltb_irrefl.
    + destruct (Nat.ltb_spec i l); auto. rewrite (rd_some _ _ _ Hb). cbn [bind]. now rewrite Hs.
  - inversion H; subst. destruct S as [S1 S2]. cbn [length] in *.
    destruct (Nat.ltb_spec i l); [|lia]. rewrite (rd_some _ _ _ S1). cbn [bind].
    rewrite json_ws_space by auto.
    apply IH; auto; try lia.
Qed.

Lemma trim_left_run : forall buf p j, is_bytes buf -> ws_run buf (first p) j (last p) ->
  trim_left_checked buf p = Ok (set_first p j).
Proof.
  intros buf p j HB (t & -> & L & S & W & E). unfold trim_left_checked.
  rewrite (trim_loop_run t _ _ _ (first p + length t)%nat); auto; try lia.
  destruct E as [E|(b & Hb & G)]; auto. right. exists b. split; auto.
  rewrite is_space_spec by (eapply is_bytes_nth; eauto). lia.
Qed.

Lemma ws_run_nil : forall buf i last, (i <= last)%nat ->
  (i = last \/ exists b, nth_error buf i = Some b /\ 32 < b) -> ws_run buf i i last.
Proof. intros. exists []. cbn. repeat split; auto; lia. Qed.

Lemma delimiter_item : forall b, delimiter b -> at_end_of_item b = true.
Proof. unfold delimiter, json_ws, at_end_of_item. intros. unfold c_comma, c_rbrace, c_rbrack, c_colon. lia. Qed.

Lemma delimiter_nondig : forall b, delimiter b -> ~ is_dig b.
Proof. unfold delimiter, json_ws, is_dig. intros. lia. Qed.

Lemma value_ends_no_digit : forall buf j last, value_ends_at buf j last -> no_digit_at buf j last.
Proof.
  intros buf j l (L & [->|(b & H & D)]); split; auto. right. exists b. split; auto. now apply delimiter_nondig.
Qed.

Lemma end_of_item_ends : forall buf p, value_ends_at buf (first p) (last p) -> end_of_item_ok buf p = Ok true.
Proof.
  intros buf p (L & E). unfold end_of_item_ok, has_more. destruct (Nat.ltb_spec (first p) (last p)); auto.
  destruct E as [E|(b & H1 & D)]; [lia|]. unfold front. rewrite (rd_some _ _ _ H1). cbn [bind].
  now rewrite delimiter_item.
Qed.

(** ** Unsigned values *)

Lemma u64_small : forall v, v < 2^64 -> u64 v = v.
Proof. intros. unfold u64. now apply N.mod_small. Qed.

(** Where the number sits: delimited by [last] (known bounds) or running up to
    a non-digit. *)
Definition num_at (known : bool) (buf : list N) (p : ps) (n : nat) : Prop :=
  if known then last p = (first p + n)%nat
  else no_digit_at buf (first p + n) (last p).

Lemma unsigned_parser_exact : forall (known : bool) w buf p ds, is_bytes buf -> (last p <= length buf)%nat ->
  digits ds -> ds <> [] -> sub_at buf (first p) ds -> num_at known buf p (length ds) ->
  unsigned_parser known w false buf p = Ok (dec_val ds mod 2^64 mod 2^w, set_first p (first p + length ds)).
Proof.
  intros known w buf p ds HB HL HD NE HS HN. destruct known; unfold unsigned_parser, num_at in *.
  - rewrite unsigned_parser_known_acc with (ds := ds) by auto. unfold cast_u, u64. now rewrite HN.
  - rewrite unsigned_parser_not_known_acc with (ds := ds) by auto. reflexivity.
Qed.

Lemma dig_first : forall (buf : list N) i ds, sub_at buf i ds -> ds <> [] -> digits ds ->
  exists d r, ds = d :: r /\ nth_error buf i = Some d /\ is_dig d.
Proof. intros buf i [|d r] S NE H; [congruence|]. destruct S. inversion H; subst. eauto 6. Qed.

Lemma is_number_dig : forall d, is_dig d -> is_number d = true.
Proof. intros d H. unfold is_dig in H. unfold is_number, c_0. change (2^32) with 4294967296. lia. Qed.

Lemma parse_value_unsigned_gen : forall (known : bool) w rc buf p ds, is_bytes buf -> (last p <= length buf)%nat ->
  digits ds -> ds <> [] -> sub_at buf (first p) ds ->
  (if known then last p = (first p + length ds)%nat else value_ends_at buf (first p + length ds) (last p)) ->
  parse_value_unsigned known LSNever w rc buf p = unsigned_parser known w rc buf p.
Proof.
  intros known w rc buf p ds HB HL HD NE HS HN.
  destruct (dig_first _ _ _ HS NE HD) as (d & r & -> & Hd & Dd).
  unfold parse_value_unsigned. destruct known.
  - unfold validate_unsigned_first, front. rewrite (rd_some _ _ _ Hd). cbn [bind]. unfold is_dig in Dd.
    destruct ((49 <=? d) && (d <=? 57)) eqn:E; [reflexivity|].
    replace (d =? c_0) with true by (unfold c_0; lia).
    unfold ps_size. destruct (Nat.ltb_spec 1 (last p - first p)); [|reflexivity].
    destruct r as [|d2 r]; [cbn in HN; lia|]. destruct HS as (_ & HS2 & _).
    rewrite Nat.add_1_r. rewrite (rd_some _ _ _ HS2). cbn [bind]. inversion HD; subst. inversion H3; subst.
    rewrite is_number_dig by auto. reflexivity.
  - cbn [skip_quote_when_literal_as_string bind]. cbn [length] in HN.
    assert (HM : has_more p = true).
    { unfold has_more. destruct HN as [HN _]. lia. }
    rewrite HM. cbn [ensure bind]. unfold front. rewrite (rd_some _ _ _ Hd). cbn [bind].
    rewrite is_number_dig by auto. cbn [ensure bind].
    unfold unsigned_parser. rewrite unsigned_parser_not_known_acc with (ds := d :: r); auto.
    2:{ now apply value_ends_no_digit in HN. }
    set (p' := set_first p (first p + length (d :: r))).
    assert (EE : end_of_item_ok buf p' = Ok true) by (apply end_of_item_ends; exact HN).
    cbv zeta. destruct rc; cbn [bind].
    + destruct (ensure (length (d :: r) <=? 20)%nat NumberOutOfRange); cbn [bind]; auto.
      destruct (narrow_cast_u w (u64 (dec_val (d :: r)))); cbn [bind]; auto. rewrite EE. reflexivity.
    + rewrite EE. reflexivity.
Qed.

(** Range-checked results: exact as long as the accumulator did not wrap. *)
Lemma unsigned_parser_checked : forall (known : bool) w buf p ds, is_bytes buf -> (last p <= length buf)%nat ->
  digits ds -> ds <> [] -> sub_at buf (first p) ds -> num_at known buf p (length ds) ->
  int_width w -> dec_val ds < 2^64 ->
  unsigned_parser known w true buf p =
    if (dec_val ds <? 2^w) && (known || (length ds <=? 20)%nat)
    then Ok (dec_val ds, set_first p (first p + length ds)) else Err NumberOutOfRange.
Proof.
  intros known w buf p ds HB HL HD NE HS HN W LT.
  assert (NC : narrow_cast_u w (dec_val ds) = if dec_val ds <? 2^w then Ok (dec_val ds) else Err NumberOutOfRange).
  { unfold narrow_cast_u, umax. destruct W as [->|[->|[->| ->]]]; cbn [N.leb N.compare Pos.compare Pos.compare_cont].
    - change (2^8) with 256. destruct (N.ltb_spec (dec_val ds) 256), (N.leb_spec (dec_val ds) (256-1)); auto; lia.
    - change (2^16) with 65536. destruct (N.ltb_spec (dec_val ds) 65536), (N.leb_spec (dec_val ds) (65536-1)); auto; lia.
    - change (2^32) with 4294967296. destruct (N.ltb_spec (dec_val ds) 4294967296), (N.leb_spec (dec_val ds) (4294967296-1)); auto; lia.
    - destruct (N.ltb_spec (dec_val ds) (2^64)); auto; lia. }
  destruct known; unfold unsigned_parser, num_at in *.
  - rewrite unsigned_parser_known_acc with (ds := ds) by auto. cbv zeta. rewrite u64_small by auto.
    rewrite NC, HN. cbn [orb]. rewrite andb_true_r. destruct (dec_val ds <? 2^w); reflexivity.
  - rewrite unsigned_parser_not_known_acc with (ds := ds) by auto. cbv zeta. rewrite u64_small by auto.
    rewrite NC. cbn [orb]. destruct (length ds <=? 20)%nat; cbn [ensure bind].
    + rewrite andb_true_r. destruct (dec_val ds <? 2^w); reflexivity.
    + now rewrite andb_false_r.
Qed.

(** ** Signed values *)

(** The text of a signed numeral: optional minus, then digits. *)
Definition sign_text (neg : bool) : list N := if neg then [45] else [].
Definition signed_val (neg : bool) (ds : list N) : Z :=
  if neg then (- Z.of_N (dec_val ds))%Z else Z.of_N (dec_val ds).

Lemma validate_signed_first_ok : forall buf p (neg : bool) ds, sub_at buf (first p) (sign_text neg ++ ds) ->
  canonical ds -> is_bytes buf -> (first p + length (sign_text neg ++ ds) <= last p)%nat ->
  no_digit_at buf (first p + length (sign_text neg ++ ds)) (last p) ->
  validate_signed_first buf p =
    Ok (if neg then (-1)%Z else 1%Z, set_first p (first p + length (sign_text neg))).
Proof.
  intros buf p neg ds HS (HD & NE & HC) HB HL HN. unfold validate_signed_first, has_more, front.
  destruct ds as [|d r]; [congruence|].
  rewrite app_length in HL. cbn [length] in HL.
  destruct (Nat.ltb_spec (first p) (last p)); [|lia]. cbn [ensure bind].
  destruct neg; cbn [sign_text app length] in *.
  - destruct HS as (S1 & _). rewrite (rd_some _ _ _ S1). reflexivity.
  - destruct HS as (S1 & S2). rewrite (rd_some _ _ _ S1). cbn [bind].
    inversion HD; subst. unfold is_dig in *. 
    replace (d =? c_minus) with false by (unfold c_minus; lia).
    assert (SF : set_first p (first p + 0) = p) by (destruct p; cbn; now rewrite Nat.add_0_r).
    rewrite SF.
    destruct ((49 <=? d) && (d <=? 57)) eqn:E; [reflexivity|].
    assert (d = 48) by lia. subst d. change (48 =? c_0) with true. cbn [N.eqb].
    specialize (HC r eq_refl). subst r. unfold ps_size.
    destruct (Nat.ltb_spec 1 (last p - first p)); [|reflexivity].
    destruct HN as (_ & [HN|(b & Hb & Nb)]); [cbn in HN; lia|].
    cbn [length] in Hb. rewrite (rd_some _ _ _ Hb). cbn [bind].
    assert (b < 256) by (eapply is_bytes_nth; eauto).
    replace (10 <=? (b + 2 ^ 32 - c_0) mod 2 ^ 32) with true; [reflexivity|].
    unfold is_dig in Nb. unfold c_0. change (2^32) with 4294967296. lia.
Qed.

Definition in_range (w : N) (z : Z) : Prop := (- 2^(Z.of_N w - 1) <= z < 2^(Z.of_N w - 1))%Z.

(** [to_signed] on the reduced magnitude *)
Lemma to_signed_exact : forall w (neg : bool) m, int_width w ->
  let z := (if neg then - Z.of_N m else Z.of_N m)%Z in
  in_range w z -> ~ (w = 32 /\ z = (- 2^31)%Z) ->
  m < 2^w /\ to_signed w m (if neg then -1 else 1)%Z = Ok z.
Proof.
  intros w neg m W z. unfold in_range, to_signed, cast_s.
  destruct W as [->|[->|[->| ->]]]; intros R X;
   cbn [N.leb N.compare Pos.compare Pos.compare_cont N.eqb Pos.eqb Z.of_N];
   match goal with |- context [(2 ^ (?a - 1))%Z] => let v := eval vm_compute in (2 ^ (a-1))%Z in change (2 ^ (a-1))%Z with v in * end;
   repeat match goal with |- context [(2 ^ ?a)%Z] => let v := eval vm_compute in (2 ^ a)%Z in change (2 ^ a)%Z with v in * end;
   repeat match goal with |- context [(2 ^ ?a)%N] => let v := eval vm_compute in (2 ^ a)%N in change (2 ^ a)%N with v in * end.
  - assert (M : m < 256) by (subst z; destruct neg; lia). split; auto. f_equal.
    rewrite (Z.mod_small (Z.of_N m)) by lia.
    destruct (Z.ltb_spec (Z.of_N m) 128); subst z; destruct neg;
    match goal with |- (if ?b then _ else _) = _ => destruct b eqn:E end; lia.
  - assert (M : m < 65536) by (subst z; destruct neg; lia). split; auto. f_equal.
    rewrite (Z.mod_small (Z.of_N m)) by lia.
    destruct (Z.ltb_spec (Z.of_N m) 32768); subst z; destruct neg;
    match goal with |- (if ?b then _ else _) = _ => destruct b eqn:E end; lia.
  - assert (M : m < 4294967296) by (subst z; destruct neg; lia). split; auto.
    rewrite (Z.mod_small (Z.of_N m)) by lia. change (2^31)%Z with 2147483648%Z in *.
    destruct (Z.ltb_spec (Z.of_N m) 2147483648).
    + match goal with |- (if ?b then _ else _) = _ => replace b with true by (subst z; destruct neg; lia) end.
      f_equal. subst z; destruct neg; lia.
    + exfalso. apply X. split; auto. subst z; destruct neg; lia.
  - assert (M : m < 18446744073709551616) by (subst z; destruct neg; lia). split; auto.
    rewrite (Z.mod_small (Z.of_N m)) by lia.
    destruct (N.eqb_spec m 9223372036854775808).
    + f_equal. subst z m. destruct neg; [reflexivity|]. exfalso. clear - R. lia.
    + destruct (Z.ltb_spec (Z.of_N m) 9223372036854775808).
      * match goal with |- (if ?b then _ else _) = _ => replace b with true by (subst z; destruct neg; lia) end.
        f_equal. subst z; destruct neg; lia.
      * exfalso. subst z; destruct neg; lia.
Qed.

Lemma set_first_set_first : forall p a b, set_first (set_first p a) b = set_first p b.
Proof. reflexivity. Qed.

(** The parser up to the conversion to the signed type *)
Lemma parse_value_signed_gen : forall (known : bool) w rc buf p (neg : bool) ds, is_bytes buf -> (last p <= length buf)%nat ->
  canonical ds -> sub_at buf (first p) (sign_text neg ++ ds) ->
  let e := (first p + length (sign_text neg ++ ds))%nat in
  forall j,
  (if known then last p = e else value_ends_at buf e (last p) /\ ws_run buf e j (last p)
      /\ value_ends_at buf j (last p)) ->
  let q := set_first p (first p + length (sign_text neg)) in
  parse_value_signed known LSNever w rc buf p =
    ('(u, p1) <- unsigned_parser known w rc buf q ;;
     v <- to_signed w u (if neg then -1 else 1)%Z ;;
     Ok (v, if known then p1 else set_first p1 j)).
Proof.
  intros known w rc buf p neg ds HB HL HC HS e j HE q.
  assert (HV : validate_signed_first buf p = Ok (if neg then (-1)%Z else 1%Z, q)).
  { apply validate_signed_first_ok with (ds := ds); auto.
    - fold e. destruct known; [lia|]. destruct HE as ((HE & _) & _). lia.
    - fold e. destruct known; [split; [lia|now left]|]. now apply value_ends_no_digit. }
  assert (QL : last q = last p) by reflexivity.
  assert (HSq : sub_at buf (first q) ds).
  { apply sub_at_app in HS as [_ HS]. exact HS. }
  unfold parse_value_signed. destruct known.
  - assert (exists b, nth_error buf (first p) = Some b /\ is_number_start b = true) as (b & Hb & Sb).
    { destruct HC as (HD & NE & _). destruct ds as [|d r]; [congruence|]. destruct neg; destruct HS as (S1 & _).
      - eexists; split; eauto.
      - eexists; split; eauto. inversion HD; subst. unfold is_dig in *. unfold is_number_start, c_0. lia. }
    unfold front. rewrite (rd_some _ _ _ Hb). cbn [bind]. rewrite Sb. cbn [ensure bind]. rewrite HV. cbn [bind].
    reflexivity.
  - destruct HE as (HE & HW & HJ).
    assert (HM : has_more p = true).
    { unfold has_more. destruct HC as (_ & NE & _). destruct ds as [|d r]; [congruence|].
      destruct HE as (HE & _). unfold e in HE. rewrite app_length in HE. cbn [length] in HE. lia. }
    rewrite HM. cbn [ensure bind]. rewrite HV. cbn [bind].
    unfold unsigned_parser. destruct HC as (HD & NE & HZ).
    assert (EQ : (first q + length ds)%nat = e).
    { unfold q, e. rewrite app_length. cbn. lia. }
    rewrite unsigned_parser_not_known_acc with (ds := ds); auto.
    2:{ rewrite EQ. apply value_ends_no_digit. exact HE. }
    assert (TAIL : forall v : Z, (p0 <- trim_left_checked buf (set_first q e);;
         e0 <- end_of_item_ok buf p0;; _ <- ensure e0 InvalidEndOfValue;; Ok (v, p0)) = Ok (v, set_first (set_first q e) j)).
    { intros v. rewrite trim_left_run with (j := j); auto. cbn [bind]. rewrite end_of_item_ends; auto. }
    rewrite EQ. cbv zeta. destruct rc.
    + destruct (ensure (length ds <=? 20)%nat NumberOutOfRange); cbn [bind]; auto.
      destruct (narrow_cast_u w (u64 (dec_val ds))); cbn [bind]; auto.
      destruct (to_signed w a0 (if neg then -1 else 1)%Z); cbn [bind skip_quote_when_literal_as_string]; auto.
    + cbn [bind].
      destruct (to_signed w (cast_u w (u64 (dec_val ds))) (if neg then -1 else 1)%Z);
        cbn [bind skip_quote_when_literal_as_string]; auto.
Qed.

Lemma width_le : forall w, int_width w -> 2^w <= 2^64.
Proof. intros w W. apply N.pow_le_mono_r; [lia|]. destruct W as [->|[->|[->| ->]]]; lia. Qed.

Lemma parse_value_signed_exact : forall (known : bool) w rc buf p (neg : bool) ds, is_bytes buf -> (last p <= length buf)%nat ->
  int_width w -> canonical ds -> in_range w (signed_val neg ds) ->
  ~ (w = 32 /\ signed_val neg ds = (- 2^31)%Z) ->
  sub_at buf (first p) (sign_text neg ++ ds) ->
  let e := (first p + length (sign_text neg ++ ds))%nat in
  forall j,
  (if known then last p = e else value_ends_at buf e (last p) /\ ws_run buf e j (last p)
      /\ value_ends_at buf j (last p)) ->
  parse_value_signed known LSNever w rc buf p = Ok (signed_val neg ds, set_first p (if known then e else j)).
Proof.
  intros known w rc buf p neg ds HB HL W HC HR HX HS e j HE.
  rewrite parse_value_signed_gen with (neg := neg) (ds := ds) (j := j) by auto.
  destruct (to_signed_exact w neg (dec_val ds) W HR HX) as [HM HT]. fold (signed_val neg ds) in HT.
  set (q := set_first p (first p + length (sign_text neg))).
  assert (HSq : sub_at buf (first q) ds) by (apply sub_at_app in HS as [_ HS]; exact HS).
  assert (EQ : (first q + length ds)%nat = e) by (unfold q, e; rewrite app_length; cbn; lia).
  assert (HN : num_at known buf q (length ds)).
  { unfold num_at. rewrite EQ. change (last q) with (last p). destruct known; auto. now apply value_ends_no_digit. }
  destruct HC as (HD & NE & HZ).
  pose proof (width_le w W) as WL.
  assert (LT : dec_val ds < 2^64) by lia.
  assert (U : unsigned_parser known w rc buf q = Ok (dec_val ds, set_first q e)).
  { destruct rc.
    - rewrite unsigned_parser_checked with (ds := ds); auto. rewrite EQ.
      replace (dec_val ds <? 2^w) with true by lia. cbn [andb].
      replace (known || (length ds <=? 20)%nat) with true; auto.
      symmetry. apply orb_true_iff. right. apply Nat.leb_le.
      (* a canonical numeral below 2^64 has at most 20 digits *)
      destruct ds as [|d r]; [congruence|]. destruct (N.eq_dec d 48) as [->|ND].
      { rewrite (HZ r eq_refl). cbn; lia. }
      inversion HD; subst. unfold is_dig in *.
      destruct (Nat.leb_spec (length (d :: r)) 20) as [|GT]; auto. exfalso.
      change (d :: r) with ([d] ++ r) in LT. rewrite dec_val_app in LT.
      change (dec_val [d]) with (0 * 10 + (d - 48)) in LT. cbn [length] in GT.
      assert (10 ^ 20 <= 10 ^ N.of_nat (length r)) by (apply N.pow_le_mono_r; lia).
      change (10^20) with 100000000000000000000 in *. change (2^64) with 18446744073709551616 in *.
      remember (10 ^ N.of_nat (length r)) as k. nia.
    - rewrite unsigned_parser_exact with (ds := ds); auto. rewrite EQ.
      rewrite (N.mod_small _ (2^64)) by auto. rewrite N.mod_small by auto. reflexivity. }
  rewrite U. cbn [bind]. rewrite HT. cbn [bind]. destruct known; reflexivity.
Qed.
