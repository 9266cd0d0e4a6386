(** Skipping well-formed values. *)
From Coq Require Import List NArith ZArith Bool Lia Arith ZifyBool ZifyNat ZifyN.
From Verif Require Import Base Mem Bits Loop PolicyModel IntModel IntProofs IntSerProofs IntValueProofs StrScanModel
  SpecNum SpecText SpecJson StrScanProofs StrScanProofs2 StrScanProofs3 SkipModel.
Import ListNotations.
Ltac Zify.zify_post_hook ::= Z.div_mod_to_equations.
Local Open Scope N_scope.

(** ** Trimming *)

(** The byte at [i], if the data goes on there, starts no comment. *)
Definition no_comment_at (buf : list N) (i last : nat) : Prop :=
  (last <= i)%nat \/ exists b, nth_error buf i = Some b /\ b <> 47 /\ b <> 35.

Lemma cpp_none : forall buf i last, no_comment_at buf i last -> cpp_comments_checked buf i last = Ok i.
Proof.
  intros buf i last H. unfold cpp_comments_checked. cbn [loop].
  destruct (Nat.ltb_spec i last) as [L|L]; [|reflexivity].
  destruct H as [H|(b & Hb & N1 & N2)]; [lia|]. rewrite (rd_some _ _ _ Hb). cbn [bind].
  now replace (b =? c_slash) with false by (unfold c_slash; lia).
Qed.

Lemma hash_none : forall buf i last, no_comment_at buf i last -> hash_comments_checked buf i last = Ok i.
Proof.
  intros buf i last H. unfold hash_comments_checked. cbn [loop].
  destruct (Nat.ltb_spec i last) as [L|L]; [|reflexivity].
  destruct H as [H|(b & Hb & N1 & N2)]; [lia|]. rewrite (rd_some _ _ _ Hb). cbn [bind].
  now replace (b =? c_hash) with false by (unfold c_hash; lia).
Qed.

Lemma json_ws_not_comment : forall b, json_ws b -> b <> 47 /\ b <> 35.
Proof. unfold json_ws. intros; lia. Qed.

Lemma comment_trim_ws : forall skip, (forall (buf : list N) i last, no_comment_at buf i last -> skip buf i last = Ok i) ->
  forall t buf i j last, Forall json_ws t -> sub_at buf i t -> j = (i + length t)%nat -> (j <= last)%nat ->
  (j = last \/ exists b, nth_error buf j = Some b /\ is_space b = false /\ b <> 47 /\ b <> 35) ->
  comment_trim_checked skip buf i last = Ok j.
Proof.
  intros skip SK t buf i j last W S -> L E. unfold comment_trim_checked.
  assert (NC : forall k, (i <= k <= i + length t)%nat -> no_comment_at buf k last).
  { intros k Hk. destruct (Nat.eq_dec k (i + length t)) as [->|NE].
    - destruct E as [E|(b & Hb & _ & N1 & N2)]; [left; lia|right; eauto].
    - right. destruct (rd_in t (k - i)) as (b & Hb2); [lia|]. pose proof (sub_at_nth _ _ _ _ _ S Hb2) as Hb1.
      replace (i + (k - i))%nat with k in Hb1 by lia. exists b. split; auto.
      apply json_ws_not_comment. rewrite Forall_forall in W. apply W. eapply nth_error_In; eauto. }
  rewrite SK by (apply NC; lia). cbn [bind].
  match goal with |- loop ?b _ _ = _ => set (body := b) end.
  apply (loop_exit body (fun s => last - s)%nat) with (s' := (i + length t)%nat); [| |lia].
  - clear E. revert i S L NC. induction W as [|c t Hc W IH]; intros i S L NC; cbn [length] in *.
    + rewrite Nat.add_0_r. constructor.
    + destruct S as [S1 S2]. apply runs_step with (s1 := Datatypes.S i).
      * subst body. cbv beta. destruct (Nat.ltb_spec i last); [|lia]. rewrite (rd_some _ _ _ S1). cbn [bind].
        rewrite json_ws_space by auto. rewrite SK by (apply NC; lia). reflexivity.
      * lia.
      * replace (i + Datatypes.S (length t))%nat with (Datatypes.S i + length t)%nat by lia.
        apply IH; auto; [lia|]. intros; apply NC; lia.
  - subst body. cbv beta. destruct (Nat.ltb_spec (i + length t) last); [|reflexivity].
    destruct E as [E|(b & Hb & SP & _)]; [lia|]. rewrite (rd_some _ _ _ Hb). cbn [bind]. now rewrite SP.
Qed.

Lemma trim_cp_checked : forall cp buf p j, is_bytes buf -> ws_run buf (first p) j (last p) ->
  no_comment_at buf j (last p) ->
  trim_left_cp cp true buf p = Ok (set_first p j).
Proof.
  intros cp buf p j HB WR NC. pose proof WR as (t & -> & L & S & W & E).
  assert (E' : (first p + length t)%nat = last p \/ exists b, nth_error buf (first p + length t) = Some b /\ is_space b = false /\ b <> 47 /\ b <> 35).
  { destruct E as [E|(b & Hb & G)]; auto. destruct NC as [NC|(b' & Hb' & N1 & N2)]; [left; lia|].
    right. exists b. rewrite Hb in Hb'. injection Hb' as <-. repeat split; auto.
    rewrite is_space_spec by (eapply is_bytes_nth; eauto). lia. }
  destruct cp; cbn [trim_left_cp].
  - now apply trim_left_run.
  - rewrite comment_trim_ws with (t := t) (j := (first p + length t)%nat); auto. apply cpp_none.
  - rewrite comment_trim_ws with (t := t) (j := (first p + length t)%nat); auto. apply hash_none.
Qed.

Lemma trim_unchecked_ws : forall t buf i f b, Forall json_ws t -> sub_at buf i t ->
  nth_error buf (i + length t) = Some b -> is_space b = false -> (length t < f)%nat ->
  trim_loop_unchecked f buf i = Ok (i + length t)%nat.
Proof.
  induction t as [|c t IH]; intros buf i f b W S Hb SP F; destruct f; cbn [length] in *; try lia; cbn [trim_loop_unchecked].
  - rewrite Nat.add_0_r in *. rewrite (rd_some _ _ _ Hb). cbn [bind]. now rewrite SP.
  - destruct S as [S1 S2]. rewrite (rd_some _ _ _ S1). cbn [bind]. inversion W; subst.
    rewrite json_ws_space by auto. rewrite IH with (b := b); auto; [f_equal; lia| |lia].
    replace (Datatypes.S i + length t)%nat with (i + Datatypes.S (length t))%nat by lia. auto.
Qed.

Lemma trim_cp_unchecked : forall cp buf p t b, is_bytes buf -> Forall json_ws t -> sub_at buf (first p) t ->
  nth_error buf (first p + length t) = Some b -> 32 < b -> b <> 47 -> b <> 35 ->
  trim_left_cp cp false buf p = Ok (set_first p (first p + length t)).
Proof.
  intros cp buf p t b HB W S Hb G N1 N2.
  assert (LB : (first p + length t < length buf)%nat) by (apply nth_error_Some; congruence).
  assert (SP : is_space b = false) by (rewrite is_space_spec by (eapply is_bytes_nth; eauto); lia).
  assert (exists c, nth_error buf (first p) = Some c /\ c <> 47 /\ c <> 35) as (c & Hc & M1 & M2).
  { destruct W as [|c t Hc W]; cbn [length] in *.
    - rewrite Nat.add_0_r in *. eauto.
    - destruct S. exists c. split; auto. now apply json_ws_not_comment. }
  destruct cp; cbn [trim_left_cp trim_left].
  - unfold trim_left_unchecked. rewrite trim_unchecked_ws with (t := t) (b := b); auto. lia.
  - unfold comment_trim_unchecked. replace (cpp_comments_unchecked buf (first p)) with (@Ok nat (first p)).
    + cbn [bind]. rewrite trim_unchecked_ws with (t := t) (b := b); auto. lia.
    + unfold cpp_comments_unchecked. cbn [loop]. rewrite (rd_some _ _ _ Hc). cbn [bind].
      now replace (c =? c_slash) with false by (unfold c_slash; lia).
  - unfold comment_trim_unchecked. replace (hash_comments_unchecked buf (first p)) with (@Ok nat (first p)).
    + cbn [bind]. rewrite trim_unchecked_ws with (t := t) (b := b); auto. lia.
    + unfold hash_comments_unchecked. cbn [loop]. rewrite (rd_some _ _ _ Hc). cbn [bind].
      now replace (c =? c_hash) with false by (unfold c_hash; lia).
Qed.

(** ** What follows a value: whitespace up to [j], then the end of the data or
    one of [, ] }].  Unchecked parsing needs such a byte to be there. *)
Definition closer (b : N) : Prop := b = 44 \/ b = 93 \/ b = 125.
Definition followed (checked : bool) (buf : list N) (e j last : nat) : Prop :=
  exists t, Forall json_ws t /\ sub_at buf e t /\ j = (e + length t)%nat /\ (j <= last)%nat /\
    ((checked = true /\ j = last) \/ (j < last)%nat /\ exists b, nth_error buf j = Some b /\ closer b).

Lemma followed_trim : forall cp checked buf p j, is_bytes buf -> followed checked buf (first p) j (last p) ->
  trim_left_cp cp checked buf p = Ok (set_first p j).
Proof.
  intros cp checked buf p j HB (t & W & S & -> & L & E). destruct checked.
  - apply trim_cp_checked; auto.
    + exists t. repeat split; auto. destruct E as [[_ E]|(_ & b & Hb & C)]; auto. right. exists b. unfold closer in C. split; auto. lia.
    + destruct E as [[_ E]|(_ & b & Hb & C)]; [left; lia|right]. exists b. unfold closer in C. split; auto. lia.
  - destruct E as [[E _]|(_ & b & Hb & C)]; [discriminate|]. unfold closer in C.
    apply trim_cp_unchecked with (b := b); auto; lia.
Qed.

Lemma followed_after : forall checked r buf p j, followed checked buf (first p) j (last p) ->
  check_after_literal checked r buf (set_first p j) = Ok tt.
Proof.
  intros checked r buf p j (t & W & S & -> & L & E). unfold check_after_literal, has_more. cbn [first last set_first].
  destruct checked; auto. destruct (Nat.ltb_spec (first p + length t) (last p)); auto.
  destruct E as [[_ E]|(_ & b & Hb & C)]; [lia|]. unfold front. cbn [first set_first]. rewrite (rd_some _ _ _ Hb). cbn [bind].
  unfold closer, is_token_after_value in *. unfold c_comma, c_rbrace, c_rbrack.
  replace ((b =? 44) || (b =? 125) || (b =? 93)) with true by lia. reflexivity.
Qed.

(** ** Literals *)

Lemma eq_bytes_ok : forall t buf i, sub_at buf i t -> eq_bytes buf i t = Ok true.
Proof.
  induction t as [|c t IH]; intros buf i S; cbn [eq_bytes]; auto. destruct S as [S1 S2].
  rewrite (rd_some _ _ _ S1). cbn [bind]. rewrite IH by auto. cbn [bind]. now rewrite N.eqb_refl.
Qed.

Lemma skip_word_ok : forall checked rest r buf p c, sub_at buf (first p) (c :: rest) ->
  (first p + length (c :: rest) <= last p)%nat ->
  skip_word checked rest r buf p = Ok (set_first p (first p + length (c :: rest))).
Proof.
  intros checked rest r buf p c [S1 S2] L. cbn [length] in *. unfold skip_word. destruct checked.
  - unfold starts_with, ps_size, remove_prefix. cbn [first last set_first].
    destruct (Nat.ltb_spec (last p - (first p + 1)) (length rest)); [lia|].
    rewrite eq_bytes_ok by (replace (first p + 1)%nat with (Datatypes.S (first p)) by lia; auto).
    cbn [bind ensure]. unfold set_first; cbn. f_equal. f_equal. lia.
  - unfold remove_prefix, set_first. reflexivity.
Qed.

Lemma skip_bool_ok : forall cp checked rest r val buf p c j, is_bytes buf -> sub_at buf (first p) (c :: rest) ->
  (first p + length (c :: rest) <= last p)%nat -> followed checked buf (first p + length (c :: rest)) j (last p) ->
  skip_bool cp checked rest r val buf p =
    Ok (set_counter (set_last p (first p + length (c :: rest))) val, set_first p j).
Proof.
  intros cp checked rest r val buf p c j HB S L F. unfold skip_bool. rewrite skip_word_ok with (c := c) by auto. cbn [bind].
  rewrite followed_trim with (j := j) by (cbn [first last set_first]; auto). cbn [bind].
  replace (set_first (set_first p (first p + length (c :: rest))) j) with (set_first p j) by reflexivity.
  pose proof (followed_after checked InvalidEndOfValue buf (set_first p (first p + length (c :: rest))) j F) as X.
  replace (set_first (set_first p (first p + length (c :: rest))) j) with (set_first p j) in X by reflexivity.
  rewrite X. reflexivity.
Qed.

Lemma skip_null_ok : forall cp checked buf p j, is_bytes buf -> sub_at buf (first p) [110; 117; 108; 108] ->
  (first p + 4 < last p)%nat -> followed checked buf (first p + 4) j (last p) ->
  skip_null cp checked buf p = Ok (null_of p, set_first p j).
Proof.
  intros cp checked buf p j HB S L F. unfold skip_null.
  rewrite skip_word_ok with (c := 110) by (auto; cbn [length]; lia). cbn [bind length].
  assert (HM : (if checked then ensure (has_more (set_first p (first p + 4))) UnexpectedEndOfData else Ok tt) = Ok tt).
  { destruct checked; auto. unfold has_more. cbn [first last set_first]. destruct (Nat.ltb_spec (first p + 4) (last p)); auto. lia. }
  rewrite HM. cbn [bind].
  rewrite followed_trim with (j := j) by (cbn [first last set_first]; auto). cbn [bind].
  replace (set_first (set_first p (first p + 4)) j) with (set_first p j) by reflexivity.
  pose proof (followed_after checked UnexpectedEndOfData buf (set_first p (first p + 4)) j F) as X.
  replace (set_first (set_first p (first p + 4)) j) with (set_first p j) in X by reflexivity.
  rewrite X. reflexivity.
Qed.

(** ** Numbers *)

Lemma parse_digit_spec : forall b, b < 256 -> (parse_digit b <? 10) = is_digb b.
Proof. intros b H. unfold parse_digit, is_digb, c_0. lia. Qed.
Lemma parse_digit_eq : forall a b, a < 256 -> b < 256 -> (parse_digit a =? parse_digit b) = (a =? b).
Proof. intros a b H1 H2. unfold parse_digit, c_0. lia. Qed.

(** The digits that end at [j] are not continued; unchecked scanning needs a
    byte there. *)
Definition dig_end (checked : bool) (buf : list N) (j last : nat) : Prop :=
  (j <= last)%nat /\ ((checked = true /\ j = last) \/ exists b, nth_error buf j = Some b /\ ~ is_dig b).

Lemma skip_digits_ok : forall checked ds buf i last, is_bytes buf -> digits ds -> ds <> [] ->
  sub_at buf i ds -> dig_end checked buf (i + length ds) last ->
  skip_digits checked buf i last = Ok (i + length ds)%nat.
Proof.
  intros checked ds buf i last HB HD NE HS HE. unfold skip_digits.
  destruct ds as [|d ds]; [congruence|]. destruct HS as [S1 S2]. rewrite (rd_some _ _ _ S1). cbn [bind].
  set (body := fun s : nat * N => let '(i0, dig) := s in _).
  inversion HD as [|? ? Hd HD']; subst. clear HD NE.
  assert (LB : (i < length buf)%nat) by (apply nth_error_Some; congruence).
  assert (G : exists dig, loop body (Datatypes.S (length buf - i)) (i, parse_digit d) = Ok ((i + length (d :: ds))%nat, dig)).
  { clear S1. revert i d HE S2 LB Hd. induction HD' as [|d' ds Hd' HD' IH]; intros i d HE S2 LB Hd; cbn [length] in *.
    - replace (i + 1)%nat with (Datatypes.S i) in * by lia. cbn [loop]. unfold body at 1.
      replace (parse_digit d <? 10) with true by (unfold parse_digit, is_dig, c_0 in *; lia).
      destruct HE as (L & [[-> E]|(b & Hb & ND)]).
      + cbn [andb]. replace (last <=? Datatypes.S i)%nat with true by lia. cbn. eauto.
      + destruct (checked && (last <=? Datatypes.S i)%nat); [cbn; eauto|].
        rewrite (rd_some _ _ _ Hb). cbn [bind].
        assert (Datatypes.S i < length buf)%nat by (apply nth_error_Some; congruence).
        replace (length buf - i)%nat with (Datatypes.S (length buf - Datatypes.S i)) by lia. cbn [loop]. unfold body at 1.
        assert (b < 256) by (eapply is_bytes_nth; eauto).
        replace (parse_digit b <? 10) with false by (unfold parse_digit, is_dig, c_0 in *; lia). cbn. eauto.
    - destruct S2 as [S1 S2]. cbn [loop]. unfold body at 1.
      replace (parse_digit d <? 10) with true by (unfold parse_digit, is_dig, c_0 in *; lia).
      replace (checked && (last <=? Datatypes.S i)%nat) with false by (destruct HE; lia).
      rewrite (rd_some _ _ _ S1). cbn [bind].
      assert (Datatypes.S i < length buf)%nat by (apply nth_error_Some; congruence).
      replace (length buf - i)%nat with (Datatypes.S (length buf - Datatypes.S i)) by lia.
      destruct (IH (Datatypes.S i) d') as (dig & E); auto.
      + replace (Datatypes.S i + Datatypes.S (length ds))%nat with (i + Datatypes.S (Datatypes.S (length ds)))%nat by lia. auto.
      + exists dig. rewrite E. do 2 f_equal. lia. }
  destruct G as (dig & ->). reflexivity.
Qed.

Lemma num_head : forall buf i t, sub_at buf i t -> t <> [] -> exists b r, t = b :: r /\ nth_error buf i = Some b.
Proof. intros buf i [|b r] S NE; [congruence|]. destruct S. eauto. Qed.

Lemma frac_shape : forall t, frac_part t -> t = [] \/ exists ds, t = 46 :: ds /\ digits ds /\ ds <> [].
Proof. destruct 1; eauto 6. Qed.

(** A number is followed by nothing that could continue it. *)
Definition num_end (checked : bool) (buf : list N) (j last : nat) : Prop :=
  (j <= last)%nat /\ ((checked = true /\ j = last) \/ exists b, nth_error buf j = Some b /\
     ~ is_dig b /\ b <> 46 /\ b <> 101 /\ b <> 69).

Lemma num_end_dig : forall checked buf j last, num_end checked buf j last -> dig_end checked buf j last.
Proof. intros checked buf j last (L & [E|(b & Hb & ND & _)]); split; eauto. Qed.

Lemma skip_exponent_ok : forall checked e buf i last, is_bytes buf -> exp_part e -> sub_at buf i e ->
  num_end checked buf (i + length e) last -> (last <= length buf)%nat ->
  exists o, skip_exponent checked buf i last = Ok (o, (i + length e)%nat) /\
    o = match e with [] => None | _ => Some i end.
Proof.
  intros checked e buf i last HB HE HS NE LB. unfold skip_exponent. destruct HE as [|e s ds He Hs HD ND].
  - cbn [length] in *. rewrite Nat.add_0_r in *.
    assert (exists dig, (if (i <? last)%nat then b <- rd buf i ;; Ok (parse_digit b) else Ok 0) = Ok dig /\
       (dig =? parse_digit c_e) || (dig =? parse_digit c_E) = false) as (dig & -> & E).
    { destruct (Nat.ltb_spec i last); [|exists 0; split; auto].
      destruct NE as (L & [[_ E]|(b & Hb & _ & _ & N1 & N2)]); [lia|].
      rewrite (rd_some _ _ _ Hb). cbn [bind]. eexists; split; [reflexivity|].
      assert (b < 256) by (eapply is_bytes_nth; eauto).
      rewrite !parse_digit_eq by (auto; reflexivity). unfold c_e, c_E. lia. }
    cbn [bind]. rewrite E. eauto.
  - destruct HS as [S1 S2]. cbn [length] in NE. rewrite app_length in NE.
    assert (LL : (i + Datatypes.S (length s + length ds) <= last)%nat) by (destruct NE; auto).
    assert (NDL : (0 < length ds)%nat) by (destruct ds; [congruence|cbn; lia]).
    destruct (Nat.ltb_spec i last); [|lia]. rewrite (rd_some _ _ _ S1). cbn [bind].
    assert (e < 256) by lia. rewrite !parse_digit_eq by (auto; reflexivity).
    replace ((e =? c_e) || (e =? c_E)) with true by (unfold c_e, c_E; lia).
    assert (EN1 : (if checked then ensure (Datatypes.S i <? last)%nat UnexpectedEndOfData else Ok tt) = Ok tt).
    { destruct checked; auto. destruct (Nat.ltb_spec (Datatypes.S i) last); auto. lia. }
    rewrite EN1. cbn [bind].
    apply sub_at_app in S2 as [SS SD].
    destruct (dig_first _ _ _ SD ND HD) as (d & r & Eds & Hd & Dd).
    assert (SG : exists b, rd buf (Datatypes.S i) = Ok b /\
      (if (parse_digit b =? parse_digit c_plus) || (parse_digit b =? parse_digit c_minus) then Datatypes.S (Datatypes.S i) else Datatypes.S i)
        = (Datatypes.S i + length s)%nat).
    { destruct Hs as [->|[->| ->]]; cbn [length] in *.
      - rewrite Nat.add_0_r in *. exists d. split; [apply rd_some; auto|].
        assert (d < 256) by (eapply is_bytes_nth; eauto). rewrite !parse_digit_eq by (auto; reflexivity).
        unfold is_dig, c_plus, c_minus in *. destruct ((d =? 43) || (d =? 45)) eqn:E; lia.
      - destruct SS. exists 43. split; [apply rd_some; auto|]. cbn. lia.
      - destruct SS. exists 45. split; [apply rd_some; auto|]. cbn. lia. }
    destruct SG as (b & E1 & E2). rewrite E1. cbn [bind]. cbv zeta. rewrite E2.
    assert (EN2 : (if checked then
            ok <- (if (Datatypes.S i + length s <? last)%nat then b <- rd buf (Datatypes.S i + length s) ;; Ok (parse_digit b <? 10) else Ok false) ;;
            ensure ok InvalidNumber else Ok tt) = Ok tt).
    { destruct checked; auto. destruct (Nat.ltb_spec (Datatypes.S i + length s) last); [|lia].
      rewrite (rd_some _ _ _ Hd). cbn [bind].
      replace (parse_digit d <? 10) with true by (unfold parse_digit, is_dig, c_0 in *; lia). reflexivity. }
    rewrite EN2. cbn [bind]. unfold skip_digits_if. destruct (Nat.ltb_spec (Datatypes.S i + length s) last); [|lia].
    rewrite skip_digits_ok with (ds := ds); auto.
    + cbn [bind length]. rewrite app_length. eexists. split; [|reflexivity]. do 2 f_equal. lia.
    + apply num_end_dig. replace (Datatypes.S i + length s + length ds)%nat with (i + Datatypes.S (length s + length ds))%nat by lia. auto.
Qed.

Lemma exp_part_head : forall e, exp_part e -> e = [] \/ exists c r, e = c :: r /\ (c = 101 \/ c = 69).
Proof. destruct 1; eauto. Qed.

Lemma skip_fraction_ok : forall checked f e buf i last, is_bytes buf -> frac_part f -> exp_part e -> sub_at buf i (f ++ e) ->
  num_end checked buf (i + length (f ++ e)) last -> (last <= length buf)%nat ->
  exists o, skip_fraction checked buf i last = Ok (o, (i + length f)%nat) /\
    o = match f with [] => None | _ => Some i end.
Proof.
  intros checked f e buf i last HB HF HE HS NE LB. unfold skip_fraction. destruct HF as [|ds HD ND].
  - cbn [app length] in *. rewrite Nat.add_0_r.
    assert ((if negb checked || (i <? last)%nat then b <- rd buf i ;; Ok (b =? c_dot) else Ok false) = Ok false) as ->.
    { destruct (exp_part_head _ HE) as [->|(c & r & -> & C)].
      - cbn [length] in *. rewrite Nat.add_0_r in NE. destruct NE as (L & [[-> E]|(b & Hb & _ & N0 & _)]).
        + cbn [negb orb]. now replace (i <? last)%nat with false by lia.
        + rewrite (rd_some _ _ _ Hb). cbn [bind]. replace (b =? c_dot) with false by (unfold c_dot; lia).
          destruct (negb checked || (i <? last)%nat); auto.
      - destruct HS as [S1 _]. rewrite (rd_some _ _ _ S1). cbn [bind]. replace (c =? c_dot) with false by (unfold c_dot; lia).
          destruct (negb checked || (i <? last)%nat); auto. }
    cbn [bind]. eauto.
  - cbn [app] in *. destruct HS as [S1 S2]. cbn [length] in *. rewrite app_length in NE.
    assert (NDL : (0 < length ds)%nat) by (destruct ds; [congruence|cbn; lia]).
    assert (LL : (i + Datatypes.S (length ds + length e) <= last)%nat) by (destruct NE; auto).
    rewrite more_ok by (intros; lia). rewrite (rd_some _ _ _ S1). cbn [bind].
    change (46 =? c_dot) with true. cbn iota. apply sub_at_app in S2 as [SD SE].
    unfold skip_digits_if. destruct (Nat.ltb_spec (Datatypes.S i) last); [|lia].
    rewrite skip_digits_ok with (ds := ds); auto.
    + cbn [bind]. eexists. split; [|reflexivity]. do 2 f_equal. lia.
    + split; [lia|]. destruct (exp_part_head _ HE) as [->|(c & r & -> & C)].
      * cbn [length] in NE. destruct (num_end_dig _ _ _ _ NE) as (_ & DE).
        replace (i + Datatypes.S (length ds + 0))%nat with (Datatypes.S i + length ds)%nat in DE by lia. exact DE.
      * right. destruct SE. exists c. split; auto. unfold is_dig. lia.
Qed.

(** The pieces found: position of the point and of the exponent letter. *)
Lemma skip_number_ok : forall checked sg n f e buf p, is_bytes buf -> (last p <= length buf)%nat ->
  sg = [] \/ sg = [45] -> digits n -> n <> [] -> frac_part f -> exp_part e -> sub_at buf (first p) (sg ++ n ++ f ++ e) ->
  num_end checked buf (first p + length (sg ++ n ++ f ++ e)) (last p) ->
  skip_number checked buf p = Ok
    (set_class (set_last p (first p + length (sg ++ n ++ f ++ e)))
       (match f with [] => None | _ => Some (first p + length (sg ++ n))%nat end)
       (match e with [] => None | _ => Some (first p + length (sg ++ n ++ f))%nat end),
     set_first p (first p + length (sg ++ n ++ f ++ e))).
Proof.
  intros checked sg n f e buf p HB LB Hsg HN NN HF HE HS NE. unfold skip_number.
  rewrite !app_length in *.
  assert (LL : (first p + (length sg + (length n + (length f + length e))) <= last p)%nat) by (destruct NE; auto).
  assert (LN : (0 < length n)%nat) by (destruct n; [congruence|cbn; lia]).
  assert (EN : (if checked then ensure (has_more p) UnexpectedEndOfData else Ok tt) = Ok tt).
  { destruct checked; auto. unfold has_more. destruct (Nat.ltb_spec (first p) (last p)); auto. lia. }
  rewrite EN. cbn [bind]. apply sub_at_app in HS as [SS HS]. apply sub_at_app in HS as [SN HS].
  destruct (dig_first _ _ _ SN NN HN) as (d & r & En & Hd & Dd).
  assert (HI : exists c, front buf p = Ok c /\ (if c =? c_minus then Datatypes.S (first p) else first p) = (first p + length sg)%nat).
  { unfold front. destruct Hsg as [->| ->]; cbn [length] in *.
    - rewrite Nat.add_0_r in *. exists d. split; [apply rd_some; auto|]. unfold is_dig, c_minus in *.
      destruct (N.eqb_spec d 45); lia.
    - destruct SS. exists 45. split; [apply rd_some; auto|]. change (45 =? c_minus) with true. cbn iota. lia. }
  destruct HI as (c & F1 & F2). rewrite F1. cbn [bind]. cbv zeta. rewrite F2. unfold skip_digits_if.
  destruct (Nat.ltb_spec (first p + length sg) (last p)); [|lia].
  assert (NE' : num_end checked buf (first p + length sg + length n + length (f ++ e)) (last p)).
  { rewrite app_length. replace (first p + length sg + length n + (length f + length e))%nat with
      (first p + (length sg + (length n + (length f + length e))))%nat by lia. auto. }
  rewrite skip_digits_ok with (ds := n); auto.
  2:{ split; [lia|]. destruct (frac_shape _ HF) as [->|(ds & -> & _)].
      - cbn [app] in *. destruct (exp_part_head _ HE) as [->|(c' & r' & -> & C)].
        + cbn [length] in NE'. rewrite Nat.add_0_r in NE'. exact (proj2 (num_end_dig _ _ _ _ NE')).
        + right. destruct HS. exists c'. split; auto. unfold is_dig. lia.
      - right. destruct HS. exists 46. split; auto. unfold is_dig. lia. }
  cbn [bind].
  destruct (skip_fraction_ok checked f e buf (first p + length sg + length n) (last p)) as (o1 & E1 & O1); auto.
  rewrite E1. cbn [bind].
  apply sub_at_app in HS as [SF SE].
  destruct (skip_exponent_ok checked e buf (first p + length sg + length n + length f) (last p)) as (o2 & E2 & O2); auto.
  { rewrite app_length in NE'. now rewrite <- Nat.add_assoc. }
  rewrite E2. cbn [bind]. rewrite O1, O2.
  replace (first p + (length sg + (length n + (length f + length e))))%nat with
     (first p + length sg + length n + length f + length e)%nat by lia.
  replace (first p + (length sg + length n))%nat with (first p + length sg + length n)%nat by lia.
  replace (first p + (length sg + (length n + length f)))%nat with (first p + length sg + length n + length f)%nat by lia.
  reflexivity.
Qed.
