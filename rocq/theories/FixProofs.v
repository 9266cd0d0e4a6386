(** Arrays that are read into a std::array: how they relate to other arrays. *)
From Coq Require Import List NArith ZArith Bool Lia Arith ZifyBool ZifyNat ZifyN.
From Verif Require Import Base Mem Loop PolicyModel IntModel StrScanModel SkipModel SpecNum SpecText SpecJson SpecUnicode
  IntValueProofs StrScanProofs StrScanProofs2 StrScanProofs3 SkipProofs BracketProofs SkipSafe PropertiesStr PropertiesSkip
  StrDecodeModel StrDecodeProofs HashModel PropertiesHash ValueModel NameProofs ClassProofs ClassProofs2 ScalarProofs ArrayProofs XProofs TypedSafe OrdModel.
Import ListNotations.
Local Open Scope N_scope.

(** The elements that are already there play no part. *)
Lemma array_body_more : forall P buf p vs,
  array_body P buf (p, vs) =
  (s <- array_body P buf (p, []) ;;
   Ok match s with inl (q, v) => inl (q, vs ++ v) | inr (q, v) => inr (q, vs ++ v) end).
Proof.
  intros P buf p vs. unfold array_body.
  destruct (ensure (has_more p) UnexpectedEndOfData); cbn [bind]; try reflexivity.
  destruct (P false buf p) as [[v q]| | |]; cbn [bind]; try reflexivity.
  destruct (trim_left_checked buf q) as [r| | |]; cbn [bind]; try reflexivity.
  match goal with |- context [bind (if has_more r then ?a else ?b) _] => destruct (if has_more r then a else b) as [ok| | |] end; cbn [bind]; try reflexivity.
  destruct (ensure ok UnexpectedEndOfData); cbn [bind]; try reflexivity.
  destruct (move_next buf r) as [s| | |]; cbn [bind]; try reflexivity.
  destruct (ensure (has_more s) UnexpectedEndOfData); cbn [bind]; try reflexivity.
  destruct (front buf s) as [c| | |]; cbn [bind]; try reflexivity.
  destruct (c =? c_rbrack); [|reflexivity].
  destruct (end_of_array buf s); reflexivity.
Qed.

Lemma array_body_one : forall P buf p s, array_body P buf (p, []) = Ok s -> exists q v, s = inl (q, [v]) \/ s = inr (q, [v]).
Proof.
  intros P buf p s H. unfold array_body in H.
  destruct (ensure (has_more p) UnexpectedEndOfData); cbn [bind] in H; try discriminate.
  destruct (P false buf p) as [[v q]| | |]; cbn [bind] in H; try discriminate.
  destruct (trim_left_checked buf q) as [r| | |]; cbn [bind] in H; try discriminate.
  match goal with H : bind (if has_more r then ?a else ?b) _ = _ |- _ => destruct (if has_more r then a else b) as [ok| | |] end; cbn [bind] in H; try discriminate.
  destruct (ensure ok UnexpectedEndOfData); cbn [bind] in H; try discriminate.
  destruct (move_next buf r) as [u| | |]; cbn [bind] in H; try discriminate.
  destruct (ensure (has_more u) UnexpectedEndOfData); cbn [bind] in H; try discriminate.
  destruct (front buf u) as [c| | |]; cbn [bind] in H; try discriminate.
  destruct (c =? c_rbrack); [|injection H as <-; exists u, v; now left].
  destruct (end_of_array buf u) as [w| | |]; cbn [bind] in H; try discriminate. injection H as <-. exists w, v. now right.
Qed.

(** With the iterator at its end, what is left is default constructed. *)
Lemma fixed_rest : forall P d buf n p, fixed_elems P d buf n false p = Ok (repeat d n, p).
Proof. intros P d buf n p. induction n as [|n IH]; cbn [fixed_elems repeat]; [reflexivity|]. now rewrite IH. Qed.

(** A loop that reads all elements *)
Lemma loop_fixed : forall P d buf fuel p vs q ys, loop (array_body P buf) fuel (p, vs) = Ok (q, ys) ->
  exists xs, ys = vs ++ xs /\
    forall n, (length xs <= n)%nat -> fixed_elems P d buf n true p = Ok (xs ++ repeat d (n - length xs), q).
Proof.
  intros P d buf. induction fuel as [|fuel IH]; intros p vs q ys H; [discriminate|]. cbn [loop] in H.
  rewrite array_body_more in H. destruct (array_body P buf (p, [])) as [s| | |] eqn:EB; cbn [bind] in H; try discriminate.
  destruct (array_body_one _ _ _ _ EB) as (r & v & [-> | ->]).
  - destruct (IH _ _ _ _ H) as (xs & -> & F1). exists (v :: xs). rewrite <- app_assoc. split; [reflexivity|].
    intros [|n] HN; cbn [length] in HN; [lia|]. cbn [fixed_elems]. rewrite EB. cbn [bind]. rewrite F1 by lia. reflexivity.
  - injection H as <- <-. exists [v]. split; [reflexivity|].
    intros [|n] HN; cbn [length] in HN; [lia|]. cbn [fixed_elems]. rewrite EB. cbn [bind]. rewrite fixed_rest. cbn [bind length].
    now replace (S n - 1)%nat with n by lia.
Qed.

(** An array of at most [n] elements *)
Theorem fixed_short : forall P d n buf p xs q, parse_value_array P buf p = Ok (VArr xs, q) -> (length xs <= n)%nat ->
  parse_value_fixed P d n buf p = Ok (VArr (xs ++ repeat d (n - length xs)), q).
Proof.
  intros P d n buf p xs q H HN. unfold parse_value_array in H. unfold parse_value_fixed.
  destruct (trim_left_checked buf p) as [p1| | |]; cbn [bind] in *; try discriminate.
  destruct (is_at buf p1 c_lbrack) as [b| | |]; cbn [bind] in *; try discriminate.
  destruct (ensure b InvalidArrayStart); cbn [bind] in *; try discriminate.
  destruct (trim_left_unchecked buf (remove_prefix p1 1)) as [p2| | |]; cbn [bind] in *; try discriminate.
  destruct (front buf p2) as [c| | |]; cbn [bind] in *; try discriminate.
  destruct (c =? c_rbrack).
  - destruct (end_of_array buf p2) as [p3| | |]; cbn [bind] in *; try discriminate. injection H as <- <-. rewrite fixed_rest. cbn [bind length app].
    now rewrite Nat.sub_0_r.
  - destruct (loop (array_body P buf) (S (length buf)) (p2, [])) as [[p3 vs]| | |] eqn:EL; cbn [bind] in *; try discriminate. injection H as <- <-.
    destruct (loop_fixed P d buf _ _ _ _ _ EL) as (xs & E & F). cbn [app] in E. subst vs. now rewrite F.
Qed.


Section Cfg.
  Context (g : cfg).

  Lemma fixeds : forall P d n es xs, c_ex g = ExConstexpr -> c_excl g = false -> Forall2 (reads_inside g P) es xs -> (length es <= n)%nat ->
    reads g (fun _ => parse_value_fixed P d n) (JArr es) (VArr (xs ++ repeat d (n - length es))).
  Proof.
    intros P d n es xs HX HE HR HN. destruct (arrays true g HX HE P es xs HR) as [A B].
    assert (L : length xs = length es) by (symmetry; clear - HR; induction HR; cbn [length]; auto).
    split.
    - intros buf p t j HW H32 HT HS HF. destruct (A buf p t j HW H32 HT HS HF) as (q & E & M & F). exists q. split; [|auto].
      rewrite <- L. apply fixed_short; [exact E|lia].
    - intros NV buf r H32 HL. destruct (B NV buf r H32 HL) as (q & E). exists q. rewrite <- L. apply fixed_short; [exact E|lia].
  Qed.

  (** ** More elements than the std::array has *)

  Lemma body_more : forall (P : parser) buf e l, N.of_nat (length buf) < 2^32 -> (e < l)%nat ->
    forall v0 x0 v1 es p, reads_inside g P v0 x0 -> wf buf p -> last p = l -> at_elem buf (first p) e (v0 :: v1 :: es) ->
      exists r, array_body P buf (p, []) = Ok (inl (r, [x0])) /\ moved p r /\ wf buf r /\ at_elem buf (first r) e (v1 :: es).
  Proof.
    intros P buf e l H32 HL v0 x0 v1 es p HR HW HLp HA. unfold array_body.
    pose proof (at_elem_end _ _ _ _ HA) as [LE BE]. pose proof HW as (HB & HN & HLp' & cl & HC & HCL).
    assert (HM : has_more p = true) by (unfold has_more; apply Nat.ltb_lt; lia). rewrite HM. cbn [ensure bind].
    destruct (at_elem_cons _ _ _ _ _ HA) as (t & Ht & HS & HRem).
    destruct (rem_e_followed _ _ _ _ l HRem HL) as (j1 & FJ & JE & JB & RJ). rewrite <- HLp in FJ.
    assert (IL : (first p + length t < last p)%nat) by (pose proof (followed_le _ _ _ _ _ FJ); lia).
    destruct (proj1 HR buf p t j1 HW H32 Ht HS FJ IL) as (q & EQ & MQ & LQ). rewrite EQ. cbn [bind].
    assert (LQl : last q = last p) by apply MQ.
    assert (FQ : followed true buf (first q) j1 (last q)) by (rewrite LQl; eapply followed_from; eauto).
    rewrite (trim_followed buf q j1 HB FQ). cbn [bind].
    assert (HM1 : has_more (set_first q j1) = true) by (unfold has_more; cbn [first last set_first]; apply Nat.ltb_lt; lia).
    rewrite HM1. unfold front at 1. cbn [first set_first]. rewrite (rd_some _ _ _ JB). cbn [bind].
    change ((44 =? c_comma) || (44 =? c_rbrack)) with true. cbn [ensure bind].
    destruct (move_next_rem_e buf (set_first q j1) e (v1 :: es) HB) as (i & EM & LI & AI); [cbn [first set_first]; apply RJ; lia|cbn [last set_first]; lia|].
    rewrite EM. cbn [bind]. pose proof (at_elem_end _ _ _ _ AI) as [LIE _].
    assert (HM2 : has_more (set_first (set_first q j1) i) = true) by (unfold has_more; cbn [first last set_first]; apply Nat.ltb_lt; lia).
    rewrite HM2. unfold front. cbn [first set_first ensure bind].
    destruct (at_elem_byte _ _ _ _ AI) as (b & Hb & SB). rewrite (rd_some _ _ _ Hb). cbn [bind]. unfold starter in SB.
    replace (b =? c_rbrack) with false by (unfold c_rbrack; lia). cbn iota.
    assert (MM : moved p (set_first (set_first q j1) i)) by (eapply moved_trans; [exact MQ|repeat split]).
    eexists. split; [reflexivity|]. split; [exact MM|]. split; [|exact AI].
    eapply moved_wf; [exact MM|exact HW|]. cbn [first last set_first]. lia.
  Qed.

  Lemma fixed_first : forall (P : parser) d buf e l, N.of_nat (length buf) < 2^32 -> (e < l)%nat ->
    forall es1 xs1 rest p, Forall2 (reads_inside g P) es1 xs1 -> rest <> [] -> wf buf p -> last p = l -> at_elem buf (first p) e (es1 ++ rest) ->
      exists r, fixed_elems P d buf (length es1) true p = Ok (xs1, r) /\ moved p r /\ wf buf r /\ at_elem buf (first r) e rest.
  Proof.
    intros P d buf e l H32 HL es1 xs1 rest p HR NE. revert p. induction HR as [|v x es1 xs1 R1 R2 IH]; intros p HW HLp HA; cbn [app length fixed_elems] in *.
    - exists p. split; [reflexivity|]. split; [repeat split|]. auto.
    - destruct (es1 ++ rest) as [|v1 es] eqn:ES; [apply app_eq_nil in ES as [_ ES]; contradiction|].
      destruct (body_more P buf e l H32 HL v x v1 es p R1 HW HLp HA) as (r & -> & MR & WR & AR). cbn [bind].
      assert (LR : last r = last p) by apply MR. destruct (IH r WR (eq_trans LR HLp) AR) as (q & -> & MQ & WQ & AQ). cbn [bind app].
      exists q. split; [reflexivity|]. split; [exact (moved_trans _ _ _ MR MQ)|]. auto.
  Qed.

  (** It takes its elements and stops at the next one. *)
  Lemma fixed_more : forall (P : parser) d es1 xs1 rest, Forall2 (reads_inside g P) es1 xs1 -> rest <> [] ->
    forall buf p t, wf buf p -> N.of_nat (length buf) < 2^32 -> jtext str_body (JArr (es1 ++ rest)) t -> sub_at buf (first p) t ->
      (first p + length t <= last p)%nat ->
      exists r, parse_value_fixed P d (length es1) buf p = Ok (VArr xs1, r) /\ moved p r /\ wf buf r /\ at_elem buf (first r) (first p + length t - 1) rest.
  Proof.
    intros P d es1 xs1 rest HR NE buf p t HW H32 HT HS FL.
    pose proof HW as (HB & HN & HLp & cl & HC & HCL).
    destruct (array_start buf (first p) _ t HT HS) as (w & c & S0 & W & S1 & C1 & C2 & LW & HA).
    unfold parse_value_fixed. rewrite (trim_here buf p 91) by (auto; lia). cbn [bind].
    rewrite is_at_yes by (auto; lia). cbn [ensure bind].
    assert (F1 : first (remove_prefix p 1) = S (first p)) by (unfold remove_prefix; cbn [first set_first]; lia).
    rewrite (trim_unchecked_to buf (remove_prefix p 1) w c) by (auto; rewrite F1; exact S1). cbn [bind]. rewrite F1.
    set (p1 := set_first (remove_prefix p 1) (S (first p) + length w)).
    set (e := (first p + length t - 1)%nat) in *.
    assert (M1 : moved p p1) by (repeat split).
    pose proof (at_elem_end _ _ _ _ HA) as [LE BE]. destruct (at_elem_byte _ _ _ _ HA) as (b & Hb & SB).
    unfold front. change (first p1) with (S (first p) + length w)%nat. rewrite (rd_some _ _ _ Hb). cbn [bind].
    assert (BN : (b =? c_rbrack) = false).
    { destruct (es1 ++ rest) eqn:ES; [apply app_eq_nil in ES as [_ ES]; contradiction|]. unfold starter in SB. unfold c_rbrack. lia. }
    rewrite BN. assert (W1 : wf buf p1) by (apply (moved_wf buf p); auto; unfold p1; cbn [first last set_first remove_prefix]; lia).
    destruct (fixed_first P d buf e (last p) H32 ltac:(unfold e; lia) es1 xs1 rest p1 HR NE W1 eq_refl HA) as (r & -> & MR & WR & AR). cbn [bind].
    exists r. split; [reflexivity|]. split; [exact (moved_trans _ _ _ M1 MR)|]. auto.
  Qed.
End Cfg.
