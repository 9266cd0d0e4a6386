(** Scanning in runtime and simd mode: what [parse_nq] reports. *)
From Coq Require Import List NArith ZArith Bool Lia Arith ZifyBool ZifyNat ZifyN.
From Verif Require Import Base Mem Bits Loop PolicyModel IntModel IntProofs StrScanModel SpecNum SpecText SpecJson StrScanProofs StrScanProofs2.
Import ListNotations.
Ltac Zify.zify_post_hook ::= Z.div_mod_to_equations.

Lemma parse_nq_rt_ok : forall checked excl buf p cl t, in_string buf p cl -> str_body t ->
  sub_at buf (first p) (t ++ [34%N]) -> first p + length t < cl ->
  exists n, parse_nq checked ExRuntime excl buf p = Ok (n, set_first p (first p + length t)).
Proof.
  intros checked excl buf p cl t HI HB HS HL.
  pose proof HI as (HBy & HF & HQ & HC & HLb & HCL & HFL).
  unfold parse_nq, parse_nq_check, parse_nq_uncheck. rewrite HC. destruct checked.
  - destruct (rt_skip_escape_ok true t buf (first p) cl (-1)%Z HB HS) as (fe & ->); auto. cbn [bind].
    apply sub_at_app in HS as [_ [HS _]].
    destruct (Nat.ltb_spec (first p + length t) cl); [|lia]. rewrite (rd_some _ _ _ HS). cbn [bind].
    change (34 =? c_quote)%N with true. cbn [ensure bind]. eauto.
  - destruct (rt_skip_escape_ok false t buf (first p) (last p) (-1)%Z HB HS) as (fe & ->); [discriminate|]. cbn [bind]. eauto.
Qed.

(** Without escapes nothing is recorded. *)
Lemma rt_skip_escape_plain : forall checked u buf first last fe, Forall plain u ->
  sub_at buf first (u ++ [34%N]) -> (checked = true -> first + length u < last) ->
  rt_skip_escape checked buf first last fe = Ok (first + length u, fe).
Proof.
  intros checked u buf first last fe HP HS HL. unfold rt_skip_escape.
  assert (EN : (if checked then ensure (first <? last) UnexpectedEndOfData else Ok tt) = Ok tt).
  { destruct checked; auto. specialize (HL eq_refl). now replace (first <? last) with true by lia. }
  rewrite EN. cbn [bind]. apply sub_at_app in HS as [SU [SQ _]].
  rewrite move_ok with (u := u) (c := 34%N); auto; try (unfold plain; lia). cbn [bind].
  cbn [loop]. unfold rt_body at 1. rewrite more_ok by auto.
  rewrite (rd_some _ _ _ SQ). reflexivity.
Qed.

Lemma parse_nq_rt_plain : forall checked excl buf p cl u, in_string buf p cl -> Forall plain u ->
  sub_at buf (first p) (u ++ [34%N]) -> first p + length u < cl ->
  parse_nq checked ExRuntime excl buf p = Ok (npos, set_first p (first p + length u)).
Proof.
  intros checked excl buf p cl t HI HB HS HL.
  pose proof HI as (HBy & HF & HQ & HC & HLb & HCL & HFL).
  unfold parse_nq, parse_nq_check, parse_nq_uncheck. rewrite HC. destruct checked.
  - rewrite (rt_skip_escape_plain true t buf (first p) cl (-1)%Z HB HS) by auto. cbn [bind].
    apply sub_at_app in HS as [_ [HS _]].
    destruct (Nat.ltb_spec (first p + length t) cl); [|lia]. rewrite (rd_some _ _ _ HS). reflexivity.
  - rewrite (rt_skip_escape_plain false t buf (first p) (last p) (-1)%Z HB HS) by discriminate. reflexivity.
Qed.

Lemma parse_nq_rt_safe : forall excl buf p cl, in_string buf p cl ->
  outcome_ok (fun r => exists t, str_body t /\ sub_at buf (first p) (t ++ [34%N]) /\
      first p + length t < cl /\ snd r = set_first p (first p + length t))
    (parse_nq true ExRuntime excl buf p).
Proof.
  intros excl buf p cl HI. unfold parse_nq, parse_nq_check.
  pose proof HI as (HBy & HF & HQ & HC & HLb & HCL & HFL). rewrite HC.
  pose proof (rt_skip_escape_safe buf (first p) cl (-1) HCL) as X.
  destruct (rt_skip_escape true buf (first p) cl (-1)) as [[i nsp]| | |]; cbn [outcome_ok bind fst] in *; auto.
  destruct (Nat.ltb_spec i cl) as [LI|LI]; cbn [bind]; [|cbn; auto].
  destruct (X LI) as (t & HB & HS & EI).
  assert (HQE : nth_error buf i = Some 34%N) by (rewrite EI; apply sub_at_app in HS as [_ [HS _]]; auto).
  rewrite (rd_some _ _ _ HQE). cbn [bind]. change (34 =? c_quote)%N with true. cbn [ensure bind outcome_ok fst snd].
  exists t. subst. repeat split; auto.
Qed.

(** ** simd *)

Lemma rd_block_ok : forall n buf i, i + n <= length buf -> exists b, rd_block buf i n = Ok b.
Proof.
  induction n; intros buf i H; cbn [rd_block]; [eauto|].
  destruct (rd_in buf i) as (c & Hc); [lia|]. rewrite (rd_some _ _ _ Hc). cbn [bind].
  destruct (IHn buf (S i)) as (b & ->); [lia|]. cbn. eauto.
Qed.

Lemma simd_skip_safe : forall buf first last fe, last <= length buf ->
  outcome_ok (fun _ => True) (simd_skip_escape buf first last fe).
Proof.
  intros buf first last fe HL. unfold simd_skip_escape.
  apply outcome_ok_bind with (P := fun _ => True).
  - apply (loop_inv (simd_block buf last) (fun s => last - fst (fst s)) (fun _ => True)); auto.
    intros [[i prev] f] _. unfold simd_block.
    destruct (Nat.leb_spec 16 (last - i)); [|cbn; auto].
    destruct (rd_block_ok 16 buf i) as (b & ->); [lia|]. cbn [bind].
    destruct (find_escaped_branchless prev (eq_mask c_bslash b)) as [prev' esc].
    destruct (N.land (eq_mask c_quote b) (not32 esc)); cbn; auto. split; auto; lia.
  - intros [[i f]|[i f]] _; [cbn; auto|].
    apply (loop_inv (simd_tail buf first last) (fun s => last - fst s) (fun _ => True)); auto.
    clear i f. intros [i f] _. unfold simd_tail.
    destruct (Nat.ltb_spec i last); [|cbn; auto].
    destruct (rd_in buf i) as (c & Hc); [lia|]. rewrite (rd_some _ _ _ Hc). cbn [bind].
    destruct (c =? c_quote)%N; [cbn; auto|].
    destruct (plain_loop_checked_safe buf i last) as (j & E & [PR _] & _); [lia|]. rewrite E. cbn [bind].
    destruct (Nat.leb_spec last j); [cbn; auto|].
    destruct (rd_in buf j) as (d & Hd); [lia|]. rewrite (rd_some _ _ _ Hd). cbn [bind].
    destruct (d =? c_quote)%N; cbn; auto.
    split; auto. lia.
Qed.

Lemma parse_nq_simd_safe : forall excl buf p cl, in_string buf p cl ->
  outcome_ok (fun r => exists i, i < cl /\ nth_error buf i = Some 34%N /\ snd r = set_first p i)
    (parse_nq true ExSimd excl buf p).
Proof.
  intros excl buf p cl HI. unfold parse_nq, parse_nq_check.
  pose proof HI as (HBy & HF & HQ & HC & HLb & HCL & HFL). rewrite HC.
  pose proof (simd_skip_safe buf (first p) cl (-1) HCL) as X.
  destruct (simd_skip_escape buf (first p) cl (-1)) as [[i nsp]| | |]; cbn [outcome_ok bind fst] in *; auto.
  destruct (Nat.ltb_spec i cl) as [LI|LI]; cbn [bind]; [|cbn; auto].
  destruct (rd_in buf i) as (c & Hc); [lia|]. rewrite (rd_some _ _ _ Hc). cbn [bind].
  destruct (N.eqb_spec c c_quote) as [->|]; cbn [ensure bind outcome_ok fst snd]; auto.
  exists i. auto.
Qed.
