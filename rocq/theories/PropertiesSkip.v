(** Properties C07, C17-C23, C49: whitespace, comments, and skipping values. *)
From Coq Require Import String.
From Coq Require Import List NArith ZArith Bool Lia Arith ZifyBool ZifyNat ZifyN.
From Verif Require Import Base Mem Loop PolicyModel IntModel StrScanModel SkipModel SpecNum SpecText SpecJson
  IntValueProofs StrScanProofs StrScanProofs2 StrScanProofs3 SkipProofs BracketProofs SkipSafe GapProofs Dec PropertiesStr.
Import ListNotations.
Local Open Scope N_scope.

(** ** C17 *)

(** The parser state before a value: a buffer of bytes, bounds inside it.  This
    is [wf] of SkipSafe.v. *)

(** [followed checked buf e j last] (SkipProofs.v): from [e] there is whitespace
    up to [j], then the end of the data or one of [, ] }]; without checking one
    of the three bytes has to be there. *)

Lemma wf_whole : forall buf n, forallb (fun b => b <? 256) buf = true -> length buf = n -> wf buf (new_ps 0 n).
Proof.
  intros buf n H E. split; [now apply is_bytes_dec|]. split; [reflexivity|]. cbn [first last new_ps]. split; [lia|].
  exists n. split; [reflexivity|lia].
Qed.

Definition is_word (v : jv) : bool := match v with JNull | JTrue | JFalse => true | _ => false end.

(** Where the parser stands afterwards: the words also consume the whitespace
    behind them. *)
Definition stands (v : jv) (e j : nat) : nat := if is_word v then j else e.

(** What is handed on: [r] delimits the text of the value (for strings the body,
    or with the quotes if [keep]; for null nothing). *)
Definition delimits (keep : bool) (v : jv) (b e : nat) (r : ps) : Prop :=
  match v with
  | JNull => isnull r = true
  | JStr _ => if keep then first r = b /\ last r = e else first r = S b /\ S (last r) = e
  | _ => first r = b /\ last r = e
  end /\
  match v with
  | JArr es => counter r = N.of_nat (length es - 1)
  | JObj ms => counter r = N.of_nat (length ms - 1)
  | JTrue => counter r = 1
  | JFalse => counter r = 0
  | _ => True
  end.

Lemma skip_string_ok : forall checked ex keep buf p t, ex <> ExSimd -> wf buf p -> str_body t ->
  sub_at buf (first p) (34 :: t ++ [34]) -> (first p + length t + 2 <= last p)%nat -> N.of_nat (length t) < 2^64 ->
  exists r, skip_string checked ex false keep buf p = Ok (r, set_first p (first p + length t + 2)) /\
    (if keep then first r = first p /\ last r = (first p + length t + 2)%nat
     else first r = S (first p) /\ S (last r) = (first p + length t + 2)%nat) /\
    (ex = ExConstexpr -> counter r = reported_escape t) /\ cfirst r = cfirst p /\ clast r = clast p /\ isnull r = false.
Proof.
  intros checked ex keep buf p t HX (HBy & HN & HLp & cl & HC & HCL) HB [SQ SB] HL H64. unfold skip_string, ps_empty, front.
  rewrite HN. cbn [orb]. destruct (Nat.leb_spec (last p) (first p)); [lia|].
  rewrite (rd_some _ _ _ SQ). cbn [bind]. change (34 =? c_quote) with true. cbn [ensure bind].
  assert (HI : in_string buf (remove_prefix p 1) cl).
  { unfold in_string, remove_prefix. cbn [first last clast set_first]. repeat split; auto; try lia.
    replace (first p + 1 - 1)%nat with (first p) by lia. exact SQ. }
  assert (SB' : sub_at buf (first (remove_prefix p 1)) (t ++ [34])).
  { unfold remove_prefix. cbn [first set_first]. now replace (first p + 1)%nat with (S (first p)) by lia. }
  assert (EM : (if checked then ensure (has_more (remove_prefix p 1)) InvalidString else Ok tt) = Ok tt).
  { destruct checked; auto. unfold has_more, remove_prefix. cbn [first last set_first].
    destruct (Nat.ltb_spec (first p + 1) (last p)); [reflexivity|lia]. }
  rewrite EM. cbn [bind]. unfold skip_string_nq.
  assert (PN : exists n, parse_nq checked ex false buf (remove_prefix p 1) = Ok (n, set_first (remove_prefix p 1) (first (remove_prefix p 1) + length t)) /\
     (ex = ExConstexpr -> n = reported_escape t)).
  { destruct ex; [|destruct (parse_nq_rt_ok checked false buf (remove_prefix p 1) cl t) as (n & E); auto; [unfold remove_prefix; cbn [first set_first]; lia|exists n; split; auto; discriminate]|congruence].
    exists (reported_escape t). split; auto. apply C14_string_end with (cl := cl); auto. unfold remove_prefix. cbn [first set_first]. lia. }
  destruct PN as (n & -> & EN). cbn [bind].
  assert (EQ : (if checked then c <- front buf (set_first (remove_prefix p 1) (first (remove_prefix p 1) + length t)) ;;
     ensure (c =? c_quote)%N InvalidString else Ok tt) = Ok tt).
  { destruct checked; auto. unfold front. cbn [first set_first]. apply sub_at_app in SB' as [_ [SB' _]].
    now rewrite (rd_some _ _ _ SB'). }
  rewrite EQ. cbn [bind].
  unfold remove_prefix. cbn [first last cfirst clast counter isnull set_first set_last set_counter].
  eexists. split; [|split; [|split; [|split; [|split]]]].
  1:{ unfold set_first, set_last, set_counter. cbn [first last cfirst clast counter isnull]. do 3 f_equal. lia. }
  all: destruct keep; cbn [first last cfirst clast counter isnull set_first set_last set_counter]; auto; split; lia.
Qed.

(** Counter and sides of the string result do not depend on checking in
    compile-time mode. *)
Lemma skip_value_ok : forall cp ex keep buf p v t, ex <> ExSimd -> wf buf p ->
  jtext str_body v t -> sub_at buf (first p) t -> N.of_nat (length t) < 2^32 -> (first p + length t <= last p)%nat ->
  exists R : bool -> ps, (ex = ExConstexpr -> R true = R false) /\
  forall checked j, followed checked buf (first p + length t) j (last p) -> (v = JNull -> (first p + 4 < last p)%nat) ->
    skip_value cp checked ex false keep buf p = Ok (R checked, set_first (set_counter p 0) (stands v (first p + length t) j)) /\
    delimits keep v (first p) (first p + length t) (R checked).
Proof.
  intros cp ex keep buf p v t HX HW HT HS HN HL.
  pose proof HW as (HBy & HNl & HLp & cl & HC & HCL).
  assert (NE : exists c r, t = c :: r).
  { destruct HT; eauto. destruct H as [sg i f e Hsg Hi Hf He]. destruct Hi as (_ & Hi & _).
    destruct sg; cbn; eauto. destruct i; cbn; eauto. congruence. }
  destruct NE as (c & r & ET). assert (HC0 : nth_error buf (first p) = Some c) by (subst t; apply HS).
  assert (LT : (0 < length t)%nat) by (subst; cbn; lia).
  set (p0 := set_counter p 0).
  assert (W0 : wf buf p0) by exact HW.
  assert (HS0 : sub_at buf (first p0) t) by exact HS.
  assert (HL0 : (first p0 + length t <= last p0)%nat) by exact HL.
  assert (LB0 : (last p0 <= length buf)%nat) by (subst p0; cbn [last set_counter]; lia).
  assert (START : forall checked, skip_value cp checked ex false keep buf p =
    if c =? c_quote then skip_string checked ex false keep buf p0
    else if c =? c_lbrack then skip_array cp checked ex buf p0
    else if c =? c_lbrace then skip_class cp checked ex buf p0
    else if c =? c_t then skip_true cp checked buf p0
    else if c =? c_f then skip_false cp checked buf p0
    else if c =? c_n then skip_null cp checked buf p0
    else if (c =? c_minus) || ((48 <=? c) && (c <=? 57)) then skip_number checked buf p0
    else if checked then Err InvalidStartOfValue
    else if c =? 0 then Err InvalidStartOfValue else UB).
  { intros checked. unfold skip_value.
    assert (EM : (if checked then ensure (has_more p) UnexpectedEndOfData else Ok tt) = Ok tt).
    { destruct checked; auto. unfold has_more. destruct (Nat.ltb_spec (first p) (last p)); [reflexivity|lia]. }
    rewrite EM. cbn [bind]. cbv zeta. unfold front. cbn [first set_counter]. rewrite (rd_some _ _ _ HC0). reflexivity. }
  assert (BR : forall (obj : bool) vv, v = vv -> (if obj then exists ms, vv = JObj ms else exists es, vv = JArr es) -> c = left_of obj ->
    exists R : bool -> ps, (ex = ExConstexpr -> R true = R false) /\
    forall checked j, followed checked buf (first p + length t) j (last p) -> (vv = JNull -> (first p + 4 < last p)%nat) ->
    skip_value cp checked ex false keep buf p = Ok (R checked, set_first p0 (stands vv (first p + length t) j)) /\
    delimits keep vv (first p) (first p + length t) (R checked)).
  { intros obj vv <- HO Hc.
    exists (fun _ => set_counter (set_last p0 (first p + length t)) (N.of_nat (separators v))). split; auto.
    intros checked j _ _. rewrite START.
    pose proof (skip_bracketed_ok cp checked ex obj buf p0 v t HX LB0 HT HO HS0 HL0 HN) as E.
    destruct obj; subst c; cbn [left_of]; cbn [N.eqb Pos.eqb c_lbrace c_lbrack c_quote]; unfold skip_class, skip_array; rewrite E;
      destruct HO as [x ->]; (split; [reflexivity|unfold delimits; cbn; auto]). }
  destruct HT as [| | |n HJ|b HB|w HWs|es t HE|w HWs|ms t HM]; cbn [stands is_word].
  - injection ET as <- <-. exists (fun _ => null_of p0). split; auto. intros checked j HF HNull. rewrite START.
    cbn [N.eqb Pos.eqb c_lbrace c_lbrack c_quote c_t c_f c_n].
    rewrite (skip_null_ok cp checked buf p0 j HBy HS0 (HNull eq_refl) HF). split; [reflexivity|unfold delimits; cbn; auto].
  - injection ET as <- <-. exists (fun _ => set_counter (set_last p0 (first p0 + 4)) 1). split; auto. intros checked j HF HNull. rewrite START.
    cbn [N.eqb Pos.eqb c_lbrace c_lbrack c_quote c_t c_f c_n].
    unfold skip_true. rewrite (skip_bool_ok cp checked _ _ 1 buf p0 116 j HBy HS0 HL0 HF). split; [reflexivity|unfold delimits; cbn; auto].
  - injection ET as <- <-. exists (fun _ => set_counter (set_last p0 (first p0 + 5)) 0). split; auto. intros checked j HF HNull. rewrite START.
    cbn [N.eqb Pos.eqb c_lbrace c_lbrack c_quote c_t c_f c_n].
    unfold skip_false. rewrite (skip_bool_ok cp checked _ _ 0 buf p0 102 j HBy HS0 HL0 HF). split; [reflexivity|unfold delimits; cbn; auto].
  - destruct HJ as [sg i f e Hsg Hi Hf He]. destruct Hi as (Di & Ni & _).
    assert (CC : c = 45 \/ is_dig c).
    { destruct Hsg as [->| ->]; cbn in ET; [|injection ET as <- _; auto]. destruct i as [|d i]; [congruence|]. cbn in ET. injection ET as <- _.
      inversion Di; auto. }
    assert (CN : c <> 34 /\ c <> 91 /\ c <> 123 /\ c <> 116 /\ c <> 102 /\ c <> 110) by (unfold is_dig in CC; lia).
    exists (fun _ => set_class (set_last p0 (first p0 + length (sg ++ i ++ f ++ e)))
       (match f with [] => None | _ => Some (first p0 + length (sg ++ i))%nat end)
       (match e with [] => None | _ => Some (first p0 + length (sg ++ i ++ f))%nat end)).
    split; [reflexivity|]. intros checked j HF _. rewrite START.
    replace (c =? c_quote) with false by (unfold c_quote; lia). replace (c =? c_lbrack) with false by (unfold c_lbrack; lia).
    replace (c =? c_lbrace) with false by (unfold c_lbrace; lia). replace (c =? c_t) with false by (unfold c_t; lia).
    replace (c =? c_f) with false by (unfold c_f; lia). replace (c =? c_n) with false by (unfold c_n; lia).
    replace ((c =? c_minus) || ((48 <=? c) && (c <=? 57))) with true by (unfold c_minus, is_dig in *; lia). cbn iota.
    rewrite skip_number_ok with (sg := sg) (n := i) (f := f) (e := e); auto.
    + split; [reflexivity|]. unfold delimits. cbn. auto.
    + subst p0. cbn [first last set_counter] in *. split; [lia|]. destruct HF as (w & Ww & Sw & Ej & Lj & E).
      destruct w as [|x w]; cbn [length] in *.
      * rewrite Nat.add_0_r in Ej. subst j. destruct E as [E|(_ & b & Hb & Cb)]; auto. right. exists b. split; auto.
        unfold closer, is_dig in *. lia.
      * right. exists x. destruct Sw as [Sw _]. split; auto. inversion Ww as [|? ? Wx _]; subst. unfold json_ws, is_dig in *. lia.
  - injection ET as <- _. cbn [length] in *. rewrite app_length in *. cbn [length] in *.
    assert (H64 : N.of_nat (length b) < 2^64) by (change (2^64) with 18446744073709551616; change (2^32) with 4294967296 in *; lia).
    assert (LS : (first p0 + length b + 2 <= last p0)%nat) by (subst p0; cbn [first last set_counter]; lia).
    destruct (skip_string_ok true ex keep buf p0 b HX W0 HB HS0 LS H64) as (r1 & E1 & R1 & C1 & F1 & L1 & N1).
    destruct (skip_string_ok false ex keep buf p0 b HX W0 HB HS0 LS H64) as (r2 & E2 & R2 & C2 & F2 & L2 & N2).
    exists (fun k : bool => if k then r1 else r2). split.
    + intros EX. specialize (C1 EX). specialize (C2 EX). destruct r1, r2; cbn in *. destruct keep; f_equal; try congruence; lia.
    + intros checked j _ _. rewrite START. change (34 =? c_quote) with true. cbn iota.
      subst p0. cbn [first set_counter] in *.
      destruct checked; [rewrite E1|rewrite E2]; (split; [do 3 f_equal; lia|]); unfold delimits; (split; [|exact I]); destruct keep; lia.
  - injection ET as Ec _. apply (BR false (JArr [])); eauto.
  - injection ET as Ec _. apply (BR false (JArr es)); eauto.
  - injection ET as Ec _. apply (BR true (JObj [])); eauto.
  - injection ET as Ec _. apply (BR true (JObj ms)); eauto.
Qed.

(** Every comment policy, with and without checking, compile-time and runtime
    mode: any value of any depth is skipped exactly.  Partial: a [null] at the
    very end of the data is not covered (see the refutation). *)
Theorem C17_skip_value_partial : forall cp checked ex keep buf p v t j, ex <> ExSimd -> wf buf p ->
  jtext str_body v t -> sub_at buf (first p) t -> N.of_nat (length t) < 2^32 ->
  followed checked buf (first p + length t) j (last p) ->
  (v = JNull -> (first p + 4 < last p)%nat) ->
  exists r, skip_value cp checked ex false keep buf p =
      Ok (r, set_first (set_counter p 0) (stands v (first p + length t) j)) /\
    delimits keep v (first p) (first p + length t) r.
Proof.
  intros cp checked ex keep buf p v t j HX HW HT HS HN HF HNull.
  destruct (skip_value_ok cp ex keep buf p v t) as (R & _ & E); auto.
  - destruct HF as (w & _ & _ & -> & L & _); lia.
  - exists (R checked). now apply E.
Qed.
Print Assumptions C17_skip_value_partial.

(** The document consisting of [null] only. *)
Theorem C17_null_document_refuted : exists buf p, wf buf p /\ jtext str_body JNull buf /\
  sub_at buf (first p) buf /\ followed true buf 4 4 (last p) /\
  skip_value CNone true ExConstexpr false false buf p = Err UnexpectedEndOfData.
Proof.
  exists (bytes "null"), (new_ps 0 4). split.
  - apply wf_whole; reflexivity.
  - split; [constructor|]. split; [vm_compute; auto|]. split; [|reflexivity].
    exists []. cbn. split; [constructor|]. repeat split; auto.
Qed.
Print Assumptions C17_null_document_refuted.

Definition ex17 : list N := bytes " [1, {""a]"" : [true,null ]} , -1.5e+3] , ".
Definition ex17_v : jv := JArr [JNum (bytes "1"); JObj [(bytes "a]", JArr [JTrue; JNull])]; JNum (bytes "-1.5e+3")].
Example C17_ex : exists r, skip_value CNone true ExConstexpr false false ex17 (set_first (new_ps 0 40) 1)
    = Ok (r, set_first (new_ps 0 40) 37) /\ delimits false ex17_v 1 37 r.
Proof. exists (mkps 1 37 (Some 0%nat) (Some 40%nat) 2 false). split; [vm_compute; reflexivity|unfold delimits; cbn; auto]. Qed.

(** ** C18 *)
(** The counter of a skipped array: elements minus one, whatever the elements
    are; [array_size] in the parser adds one to it.  (0 for an empty array.) *)
Theorem C18_array_count : forall cp checked ex buf p es t, ex <> ExSimd -> (last p <= length buf)%nat ->
  jtext str_body (JArr es) t -> sub_at buf (first p) t -> (first p + length t <= last p)%nat -> N.of_nat (length t) < 2^32 ->
  exists r q, skip_array cp checked ex buf p = Ok (r, q) /\
    (es <> [] -> counter r + 1 = N.of_nat (length es)) /\ (es = [] -> counter r = 0).
Proof.
  intros cp checked ex buf p es t HX HLB HT HS HL HN. unfold skip_array.
  rewrite skip_bracketed_ok with (v := JArr es) (t := t) by eauto. do 2 eexists. split; [reflexivity|]. cbn. split.
  - intros NE. destruct es; [congruence|cbn [length]; lia].
  - intros ->. reflexivity.
Qed.
Print Assumptions C18_array_count.

Example C18_ex : skip_array CNone true ExConstexpr ex17 (set_first (new_ps 0 40) 1)
  = Ok (mkps 1 37 (Some 0%nat) (Some 40%nat) 2 false, set_first (new_ps 0 40) 37).
Proof. vm_compute. reflexivity. Qed.

(** ** C19 *)
(** Properly matched brackets. *)
Inductive matched : list N -> Prop :=
| mt_nil : matched []
| mt_obj : forall a b, matched a -> matched b -> matched (123 :: a ++ 125 :: b)
| mt_arr : forall a b, matched a -> matched b -> matched (91 :: a ++ 93 :: b).

(** Full claim: on success the skeleton (the brackets outside strings) of the
    skipped text is [matched].  Proved: brackets of the kind being skipped nest
    properly, those of the other kind occur equally often; their nesting against
    the first kind is not looked at. *)
Theorem C19_balanced_partial : forall ex (obj : bool) buf p r q, ex <> ExSimd -> is_bytes buf -> N.of_nat (length buf) < 2^31 ->
  (first p < last p <= length buf)%nat -> nth_error buf (first p) = Some (if obj then 123 else 91) ->
  skip_bracketed CNone true ex obj buf p = Ok (r, q) ->
  let '(l, rr, l2, r2) := if obj then (123, 125, 91, 93) else (91, 93, 123, 125) in
  exists u k, skeleton u k /\ sub_at buf (first p) (l :: u ++ [rr]) /\
    first q = (first p + length u + 2)%nat /\ (first q <= last p)%nat /\
    count rr k = count l k /\ count r2 k = count l2 k /\
    (forall k1 k2, k = k1 ++ k2 -> (count rr k1 <= count l k1)%nat).
Proof.
  intros ex obj buf p r q HX HB H31 HL HF E.
  pose proof (skip_bracketed_safe ex obj buf p HB ltac:(lia)) as X. rewrite E in X. cbn [outcome_ok fst snd] in X.
  destruct X as (_ & _ & _ & _ & X). destruct (X ltac:(lia)) as [_ Y]; [destruct obj; exact HF|].
  destruct obj; exact (Y HX H31).
Qed.
Print Assumptions C19_balanced_partial.

(** A skipped text whose skeleton is not matched: [}{] inside an array, and
    brackets that cross. *)
Lemma matched_head : forall k, matched k -> match k with 125 :: _ | 93 :: _ => False | _ => True end.
Proof. destruct 1; exact I. Qed.
Theorem C19_mismatch_refuted : exists buf p r q u k, wf buf p /\
  skip_array CNone true ExConstexpr buf p = Ok (r, q) /\ buf = 91 :: u ++ [93] /\ first q = length buf /\
  skeleton u k /\ ~ matched k.
Proof.
  exists (bytes "[}{]"), (new_ps 0 4), (mkps 0 4 (Some 0%nat) (Some 4%nat) 0 false), (set_first (new_ps 0 4) 4), (bytes "}{"), (bytes "}{").
  split; [apply wf_whole; reflexivity|].
  split; [reflexivity|]. split; [reflexivity|]. split; [reflexivity|]. split.
  - apply sk_bracket; [unfold is_bracket; cbn; auto|]. apply sk_bracket; [unfold is_bracket; cbn; auto|]. constructor.
  - intros M. exact (matched_head _ M).
Qed.
Print Assumptions C19_mismatch_refuted.

Example C19_crossing_ex : skip_array CNone true ExConstexpr (bytes "[[{]}]") (new_ps 0 6)
  = Ok (new_ps 0 6, set_first (new_ps 0 6) 6).
Proof. vm_compute. reflexivity. Qed.
Example C19_ex : skip_array CNone true ExConstexpr (bytes "[{]}") (new_ps 0 4) = Err InvalidBracketing.
Proof. vm_compute. reflexivity. Qed.

(** ** C20 *)
(** On a valid value with something behind it, the unchecked parser gives exactly
    the result of the checked one (so in particular no undefined read). *)
Theorem C20_checked_unchecked_agree : forall cp keep buf p v t j, wf buf p ->
  jtext str_body v t -> sub_at buf (first p) t -> N.of_nat (length t) < 2^32 ->
  followed false buf (first p + length t) j (last p) ->
  exists r q, skip_value cp true ExConstexpr false keep buf p = Ok (r, q) /\
  skip_value cp false ExConstexpr false keep buf p = Ok (r, q) /\
  delimits keep v (first p) (first p + length t) r /\ first q = stands v (first p + length t) j.
Proof.
  intros cp keep buf p v t j HW HT HS HN HF.
  assert (HL : (first p + length t <= last p)%nat) by (destruct HF as (w & _ & _ & -> & L & _); lia).
  assert (HF' : followed true buf (first p + length t) j (last p)).
  { destruct HF as (w & W1 & W2 & W3 & W4 & [[E _]|E]); [discriminate|]. exists w. repeat split; auto. }
  assert (HNull : v = JNull -> (first p + 4 < last p)%nat).
  { intros ->. inversion HT; subst. destruct HF as (w & _ & _ & -> & _ & [[E _]|[E _]]); [discriminate|]. cbn [length] in *. lia. }
  destruct (skip_value_ok cp ExConstexpr keep buf p v t) as (R & ER & E); auto; [discriminate|].
  destruct (E true j HF' HNull) as [E1 D]. destruct (E false j HF HNull) as [E2 _]. rewrite <- ER in E2 by auto.
  do 2 eexists. split; [exact E1|]. split; [exact E2|]. split; auto.
Qed.
Print Assumptions C20_checked_unchecked_agree.

Example C20_ex : skip_value CNone true ExConstexpr false false ex17 (set_first (new_ps 0 40) 1)
  = skip_value CNone false ExConstexpr false false ex17 (set_first (new_ps 0 40) 1).
Proof. vm_compute. reflexivity. Qed.

(** ** C21 *)
Lemma C15_string_scan_ge : forall ex excl buf p cl, in_string buf p cl -> (first p <= cl)%nat ->
  outcome_ok (fun r => (first p <= first (snd r))%nat) (parse_nq true ex excl buf p).
Proof.
  intros ex excl buf p cl HI HC. pose proof (C15_string_scan_safe ex excl buf p cl HI HC) as X.
  destruct (parse_nq true ex excl buf p) as [[n q]| | |] eqn:E; cbn [outcome_ok snd]; auto.
  destruct ex.
  1, 2: eapply C15_success_is_string in E; eauto; destruct E as (t & _ & _ & _ & ->); cbn [first set_first]; lia.
  pose proof HI as (HBy & HF & HQ & HCC & HLb & HCL & HFL).
  unfold parse_nq, parse_nq_check in E. rewrite HCC in E. pose proof (simd_skip_ge buf (first p) cl (-1) ltac:(lia)) as Y.
  destruct (simd_skip_escape buf (first p) cl (-1)) as [[i f]| | |]; cbn [bind outcome_ok fst] in *; try discriminate.
  destruct ((if (i <? cl)%nat then c <- rd buf i;; Ok (c =? c_quote) else Ok false)) as [b| | |]; cbn [bind] in E; try discriminate.
  destruct b; cbn [ensure bind] in E; [|discriminate]. injection E as _ <-. cbn. lia.
Qed.

Lemma skip_string_safe : forall ex excl keep buf p, wf buf p -> (first p < last p)%nat ->
  outcome_ok (fun x => snd x = set_first p (first (snd x)) /\ (first p < first (snd x))%nat /\
     exists cl, clast p = Some cl /\ (first (snd x) <= cl)%nat) (skip_string true ex excl keep buf p).
Proof.
  intros ex excl keep buf p (HBy & HN & HLp & cl & HC & HCL) HL. unfold skip_string, ps_empty, front.
  rewrite HN. cbn [orb]. destruct (Nat.leb_spec (last p) (first p)); [lia|].
  destruct (rd_in buf (first p)) as (c & Hc); [lia|]. rewrite (rd_some _ _ _ Hc). cbn [bind].
  destruct (N.eqb_spec c c_quote) as [->|]; cbn [ensure bind outcome_ok]; auto.
  destruct (has_more (remove_prefix p 1)) eqn:HM; cbn [ensure bind outcome_ok]; auto.
  unfold has_more, remove_prefix in HM. cbn [first last set_first] in HM. apply Nat.ltb_lt in HM.
  assert (HI : in_string buf (remove_prefix p 1) cl).
  { unfold in_string, remove_prefix. cbn [first last clast set_first]. repeat split; auto; try lia.
    replace (first p + 1 - 1)%nat with (first p) by lia. exact Hc. }
  unfold skip_string_nq.
  pose proof (C15_string_scan_safe ex excl buf (remove_prefix p 1) cl HI ltac:(unfold remove_prefix; cbn [first set_first]; lia)) as X.
  pose proof (C15_string_scan_ge ex excl buf (remove_prefix p 1) cl HI ltac:(unfold remove_prefix; cbn [first set_first]; lia)) as Y.
  destruct (parse_nq true ex excl buf (remove_prefix p 1)) as [[n q]| | |]; cbn [outcome_ok bind] in *; auto.
  destruct X as (i & Li & Hi & ->). unfold front. cbn [first set_first]. rewrite (rd_some _ _ _ Hi). cbn [bind].
  change (34 =? c_quote) with true. cbn [ensure bind outcome_ok snd fst]. unfold remove_prefix in *. cbn [first set_first snd] in *.
  split; [reflexivity|]. split; [lia|]. exists cl. split; auto. lia.
Qed.

(** Any input, any execution mode: [skip_value] neither reads outside the buffer
    nor runs forever; on success it has moved forward and stands inside the
    buffer. *)
Theorem C21_skip_value_safe : forall ex excl keep buf p, wf buf p ->
  match skip_value CNone true ex excl keep buf p with
  | Ok (r, q) => (first p < first q)%nat /\ q = set_first (set_counter p 0) (first q) /\
      exists cl, clast p = Some cl /\ (first q <= S cl)%nat
  | Err _ => True
  | UB => False
  | Fuel => False
  end.
Proof.
  intros ex excl keep buf p HW. pose proof HW as (HBy & HN & HLp & cl & HC & HCL).
  assert (X : outcome_ok (fun x => (first p < first (snd x))%nat /\ snd x = set_first (set_counter p 0) (first (snd x)) /\
      exists cl, clast p = Some cl /\ (first (snd x) <= S cl)%nat) (skip_value CNone true ex excl keep buf p)).
  { unfold skip_value, has_more. destruct (Nat.ltb_spec (first p) (last p)) as [L|L]; cbn [ensure bind outcome_ok]; auto. cbv zeta.
    unfold front. cbn [first set_counter]. destruct (rd_in buf (first p)) as (c & Hc); [lia|]. rewrite (rd_some _ _ _ Hc). cbn [bind].
    set (p0 := set_counter p 0). assert (W0 : wf buf p0) by exact HW.
    assert (L0 : (first p0 < last p0 <= length buf)%nat) by (subst p0; cbn [first last set_counter]; lia).
    change (first p) with (first p0) in Hc |- *. change (clast p) with (clast p0) in HC |- *.
    assert (EC : last p0 = last p) by reflexivity.
    destruct (N.eqb_spec c c_quote) as [->|].
    { eapply outcome_ok_weaken; [|apply skip_string_safe; auto; lia]. intros x (E & G & cl' & E' & LE). repeat split; auto. exists cl'. split; auto. }
    assert (BRK : forall obj, c = left_of obj -> outcome_ok (fun x => (first p0 < first (snd x))%nat /\ snd x = set_first p0 (first (snd x)) /\
      exists cl, clast p0 = Some cl /\ (first (snd x) <= S cl)%nat) (skip_bracketed CNone true ex obj buf p0)).
    { intros obj ->. eapply outcome_ok_weaken; [|apply skip_bracketed_safe; auto; lia]. intros x (E & G & _ & _ & Y).
      destruct (Y ltac:(lia) Hc) as [Y1 _]. repeat split; auto. exists cl. split; auto. lia. }
    destruct (N.eqb_spec c c_lbrack) as [->|]; [apply (BRK false); reflexivity|].
    destruct (N.eqb_spec c c_lbrace) as [->|]; [apply (BRK true); reflexivity|].
    destruct (N.eqb_spec c c_t) as [->|].
    { eapply outcome_ok_weaken; [|apply skip_bool_safe; auto]. intros x (_ & E & G & _). cbn [length] in G. repeat split; auto; [lia|]. exists cl. split; auto. lia. }
    destruct (N.eqb_spec c c_f) as [->|].
    { eapply outcome_ok_weaken; [|apply skip_bool_safe; auto]. intros x (_ & E & G & _). cbn [length] in G. repeat split; auto; [lia|]. exists cl. split; auto. lia. }
    destruct (N.eqb_spec c c_n) as [->|].
    { eapply outcome_ok_weaken; [|apply skip_null_safe; auto]. intros x (_ & E & G & _). repeat split; auto; [lia|]. exists cl. split; auto. lia. }
    destruct ((c =? c_minus) || ((48 <=? c) && (c <=? 57))) eqn:EN; [|cbn; auto].
    eapply outcome_ok_weaken; [|apply skip_number_safe; auto; lia]. intros x (t & _ & _ & G & -> & _ & _ & PT). cbn [first set_first].
    specialize (PT c Hc ltac:(unfold c_minus, is_dig in *; lia)). repeat split; [lia|]. exists cl. split; auto. lia. }
  destruct (skip_value CNone true ex excl keep buf p) as [[r q]| | |]; cbn [outcome_ok snd] in X; auto.
Qed.
Print Assumptions C21_skip_value_safe.

Example C21_ex : skip_value CNone true ExSimd false false (bytes "{""a\") (new_ps 0 4) = Err UnexpectedEndOfData.
Proof. vm_compute. reflexivity. Qed.

(** The two comment policies do read outside the document (see C22, C23). *)
Theorem C21_comments_refuted : (exists buf p, wf buf p /\ skip_value CCpp true ExConstexpr false false buf p = UB) /\
  (exists buf p, wf buf p /\ skip_value CHash true ExConstexpr false false buf p = UB).
Proof.
  split; [exists (bytes "true/"), (new_ps 0 5)|exists (bytes "true#"), (new_ps 0 5)]; (split; [|reflexivity]);
    (apply wf_whole; reflexivity).
Qed.
Print Assumptions C21_comments_refuted.

(** ** C07 *)
(** Full claim: what is accepted is a [jnum].  Proved: sign, digits (possibly
    none, possibly with leading zeros), fraction with possibly no digits, and a
    well-formed exponent. *)
Theorem C07_skip_number_partial : forall buf p r q, is_bytes buf -> (first p <= last p <= length buf)%nat ->
  skip_number true buf p = Ok (r, q) ->
  exists t, loose_num t /\ sub_at buf (first p) t /\ first q = (first p + length t)%nat /\ (first q <= last p)%nat /\
    first r = first p /\ last r = first q.
Proof.
  intros buf p r q HB HL E. pose proof (skip_number_safe buf p HB HL) as X. rewrite E in X. cbn [outcome_ok fst snd] in X.
  destruct X as (t & T1 & T2 & T3 & -> & F & L & _). exists t. cbn [first set_first]. repeat split; auto.
Qed.
Print Assumptions C07_skip_number_partial.

Lemma jnum_inv : forall t, jnum t -> exists sg i f e, t = sg ++ i ++ f ++ e /\
  (sg = [] \/ sg = [45]) /\ int_part i /\ frac_part f /\ exp_part e.
Proof. intros t [sg i f e H1 H2 H3 H4]. exists sg, i, f, e. auto. Qed.
Lemma jnum_minus : ~ jnum [45].
Proof.
  intros H. apply jnum_inv in H as (sg & i & f & e & E & Hsg & (D & NI & _) & Hf & He).
  destruct Hsg as [->| ->]; destruct i as [|d i]; try congruence; cbn in E; [|discriminate].
  injection E as <- _. inversion D as [|? ? X]. unfold is_dig in X. lia.
Qed.
Lemma jnum_dot : ~ jnum [49; 46].
Proof.
  intros H. apply jnum_inv in H as (sg & i & f & e & E & Hsg & (D & NI & _) & Hf & He).
  destruct Hsg as [->| ->]; [|discriminate]. destruct i as [|d i]; [congruence|]. cbn in E. injection E as <- E.
  destruct i as [|d i]; cbn in E.
  - destruct Hf as [|ds _ ND]; cbn in E; [|destruct ds; [congruence|discriminate]].
    destruct He as [|x s ds X _ _ _]; [discriminate|]. injection E as <- _. lia.
  - injection E as <- _. inversion D as [|? ? _ D2]. inversion D2 as [|? ? X]. unfold is_dig in X. lia.
Qed.
Lemma jnum_zeros : ~ jnum [48; 48; 55].
Proof.
  intros H. apply jnum_inv in H as (sg & i & f & e & E & Hsg & (D & NI & Z) & Hf & He).
  destruct Hsg as [->| ->]; [|discriminate]. destruct i as [|d i]; [congruence|]. cbn in E. injection E as <- E.
  rewrite (Z i eq_refl) in E. cbn in E.
  destruct Hf as [|ds _ ND]; cbn in E; [|discriminate]. destruct He as [|x s ds X _ _ _]; [discriminate|]. injection E as <- _. lia.
Qed.

Theorem C07_skip_number_refuted : forall t, In t [bytes "-"; bytes "1."; bytes "007"] -> ~ jnum t /\
  skip_number true t (new_ps 0 (length t)) = Ok (set_class (new_ps 0 (length t)) (if (length t =? 2)%nat then Some 1%nat else None) None,
                                                 set_first (new_ps 0 (length t)) (length t)).
Proof.
  intros t [<-|[<-|[<-|[]]]]; (split; [first [apply jnum_minus|apply jnum_dot|apply jnum_zeros]|reflexivity]).
Qed.
Print Assumptions C07_skip_number_refuted.

(** Also when parsing: leading zeros, and a number ended by a byte above 0x7F. *)
Theorem C07_parse_refuted : ~ jnum (bytes "007") /\
  parse_value_unsigned false LSNever 32 false (bytes "007") (new_ps 0 3) = Ok (7, set_first (new_ps 0 3) 3) /\
  parse_value_unsigned true LSNever 32 false (bytes "007") (new_ps 0 3) = Ok (7, set_first (new_ps 0 3) 3).
Proof. split; [apply jnum_zeros|split; reflexivity]. Qed.
Print Assumptions C07_parse_refuted.

Example C07_ex : skip_number true (bytes "1e") (new_ps 0 2) = Err UnexpectedEndOfData /\
  skip_number true (bytes "1e+") (new_ps 0 3) = Err InvalidNumber.
Proof. split; reflexivity. Qed.

(** ** C22 *)
(** Full claim: [cpp_gap block_body] for checked and unchecked input.  Proved: checked
    input, block comments without two stars in a row. *)
Theorem C22_cpp_comments_partial : forall g buf p, cpp_gap no_double_star g -> sub_at buf (first p) g ->
  (first p + length g <= last p)%nat -> gap_end buf (first p + length g) (last p) ->
  trim_left_cp CCpp true buf p = Ok (set_first p (first p + length g)).
Proof.
  intros g buf p HG HS HL HE. cbn [trim_left_cp].
  rewrite (gap_trim_ok (cpp_gap no_double_star)) with (g := g); auto.
  - intros c g' W X. inversion X; subst; auto; unfold json_ws in W; lia.
  - intros. apply cpp_skip_ok; auto.
Qed.
Print Assumptions C22_cpp_comments_partial.

Theorem C22_double_star_refuted : exists g buf p, cpp_gap block_body g /\ sub_at buf (first p) g /\
  (first p + length g <= last p)%nat /\ gap_end buf (first p + length g) (last p) /\
  trim_left_cp CCpp true buf p = Ok (set_first p (last p)) /\ (first p + length g < last p)%nat.
Proof.
  exists (bytes "/***/"), (bytes "/***/1"), (new_ps 0 6). split.
  - apply (cg_block block_body [42] []); [|constructor]. intros [|a [|b [|c x]]] y; cbn; congruence.
  - vm_compute. repeat split; auto; try lia. right. exists 49. repeat split; discriminate.
Qed.
Print Assumptions C22_double_star_refuted.

(** Unchecked input: a comment after whitespace is not skipped. *)
Theorem C22_unchecked_refuted : exists g buf p, cpp_gap no_double_star g /\ sub_at buf (first p) g /\
  gap_end buf (first p + length g) (last p) /\
  trim_left_cp CCpp false buf p = Ok (set_first p 1) /\ (1 < length g)%nat.
Proof.
  exists (bytes " /**/"), (bytes " /**/1"), (new_ps 0 6). split.
  - apply cg_ws; [left; reflexivity|]. apply (cg_block no_double_star [] []); constructor.
  - vm_compute. repeat split; auto; try lia. right. exists 49. repeat split; discriminate.
Qed.
Print Assumptions C22_unchecked_refuted.

(** A slash as last byte: the byte after it is read. *)
Theorem C22_overread_refuted : exists buf p, wf buf p /\ trim_left_cp CCpp true buf p = UB.
Proof.
  exists (bytes "/"), (new_ps 0 1). split; [|reflexivity].
  apply wf_whole; reflexivity.
Qed.
Print Assumptions C22_overread_refuted.

Definition ex22 : list N := bytes " /* a*b / */ // c" ++ [10; 32; 49].
Example C22_ex : trim_left_cp CCpp true ex22 (new_ps 0 20) = Ok (set_first (new_ps 0 20) 19).
Proof. vm_compute. reflexivity. Qed.

(** ** C23 *)
(** Full claim: any sequence, the last comment possibly ended by the end of the
    data.  Proved: comments ended by a newline. *)
Theorem C23_hash_comments_partial : forall g buf p, hash_gap g -> sub_at buf (first p) g ->
  (first p + length g <= last p)%nat -> gap_end buf (first p + length g) (last p) ->
  trim_left_cp CHash true buf p = Ok (set_first p (first p + length g)).
Proof.
  intros g buf p HG HS HL HE. cbn [trim_left_cp].
  rewrite (gap_trim_ok hash_gap) with (g := g); auto.
  - intros c g' W X. inversion X; subst; auto; unfold json_ws in W; lia.
  - intros. apply hash_skip_ok; auto.
Qed.
Print Assumptions C23_hash_comments_partial.

(** A comment at the end of the data: the byte behind the data is read. *)
Theorem C23_overread_refuted : exists buf p, wf buf p /\ trim_left_cp CHash true buf p = UB.
Proof.
  exists (bytes "#x"), (new_ps 0 2). split; [|reflexivity].
  apply wf_whole; reflexivity.
Qed.
Print Assumptions C23_overread_refuted.

Theorem C23_unchecked_refuted : exists g buf p, hash_gap g /\ sub_at buf (first p) g /\
  gap_end buf (first p + length g) (last p) /\
  trim_left_cp CHash false buf p = Ok (set_first p 1) /\ (1 < length g)%nat.
Proof.
  exists [32; 35; 10], [32; 35; 10; 49], (new_ps 0 4). split.
  - apply hg_ws; [left; reflexivity|]. apply (hg_line [] []); [intros []|constructor].
  - vm_compute. repeat split; auto; try lia. right. exists 49. repeat split; discriminate.
Qed.
Print Assumptions C23_unchecked_refuted.

Example C23_ex : trim_left_cp CHash true (bytes " # a#b" ++ [10; 35; 10; 32; 49]) (new_ps 0 11) = Ok (set_first (new_ps 0 11) 10).
Proof. vm_compute. reflexivity. Qed.

(** ** C49 *)
(** Skipping whitespace stops exactly at the first other byte, for every comment
    policy. *)
Theorem C49_trim_exact : forall cp w buf p b, is_bytes buf -> Forall json_ws w -> sub_at buf (first p) (w ++ [b]) ->
  (first p + length w < last p)%nat -> 32 < b -> b <> 47 -> b <> 35 ->
  forall checked, trim_left_cp cp checked buf p = Ok (set_first p (first p + length w)).
Proof.
  intros cp w buf p b HB HW HS HL H1 H2 H3 checked. apply sub_at_app in HS as [S1 [S2 _]].
  destruct checked.
  - apply trim_cp_checked; auto; [exists w; repeat split; auto; [lia|]; right; eauto|right; eauto].
  - apply trim_cp_unchecked with (b := b); auto.
Qed.
Print Assumptions C49_trim_exact.

(** At the end of the data, checked. *)
Theorem C49_trim_end : forall cp w buf p, is_bytes buf -> Forall json_ws w -> sub_at buf (first p) w ->
  (first p + length w = last p)%nat -> trim_left_cp cp true buf p = Ok (set_first p (last p)).
Proof.
  intros cp w buf p HB HW HS HL. rewrite <- HL. apply trim_cp_checked; auto; [|left; lia].
  exists w. repeat split; auto; lia.
Qed.
Print Assumptions C49_trim_end.

(** Arbitrary input never leads outside the document. *)
Theorem C49_trim_safe : forall buf p, (first p <= last p <= length buf)%nat ->
  exists j, trim_left_cp CNone true buf p = Ok (set_first p j) /\ (first p <= j <= last p)%nat.
Proof.
  intros buf p HL. cbn [trim_left_cp trim_left]. destruct (trim_safe buf p) as (j & E & J1 & J2); [lia|].
  exists j. split; auto. lia.
Qed.
Print Assumptions C49_trim_safe.

(** Whitespace on both sides of a separator. *)
Theorem C49_separator : forall (checked : bool) w1 w2 buf p b, is_bytes buf -> Forall json_ws w1 -> Forall json_ws w2 ->
  sub_at buf (first p) (w1 ++ 44 :: w2 ++ [b]) -> (first p + length w1 + 1 + length w2 < last p)%nat -> 32 < b -> b <> 47 -> b <> 35 ->
  move_next_member_or_end checked buf p = Ok (set_first p (first p + length w1 + 1 + length w2)).
Proof.
  intros checked w1 w2 buf p b HB HW1 HW2 HS HL H1 H2 H3. pose proof HS as HS0. apply sub_at_app in HS0 as [S1 [SC S2]].
  assert (E1 : trim_left_cp CNone checked buf p = Ok (set_first p (first p + length w1))).
  { apply C49_trim_exact with (b := 44); auto; try lia. apply sub_at_app; cbn; auto. }
  assert (E2 : trim_left_cp CNone checked buf (set_first p (first p + length w1 + 1)) = Ok (set_first p (first p + length w1 + 1 + length w2))).
  { rewrite C49_trim_exact with (w := w2) (b := b); auto; cbn [first last set_first]; try lia.
    now replace (first p + length w1 + 1)%nat with (S (first p + length w1)) by lia. }
  cbn [trim_left_cp] in E1, E2. unfold trim_left in E1, E2. unfold move_next_member_or_end. destruct checked.
  - unfold move_next_member_or_end_checked. rewrite E1. cbn [bind]. unfold is_at, has_more, front. cbn [first last set_first].
    destruct (Nat.ltb_spec (first p + length w1) (last p)); [|lia]. rewrite (rd_some _ _ _ SC). cbn [bind]. change (44 =? c_comma) with true. cbn iota.
    exact E2.
  - unfold move_next_member_or_end_unchecked. rewrite E1. cbn [bind]. unfold front. cbn [first last set_first].
    rewrite (rd_some _ _ _ SC). cbn [bind]. change (44 =? c_comma) with true. cbn iota. exact E2.
Qed.
Print Assumptions C49_separator.

Example C49_ex : move_next_member_or_end true (bytes "  ,  1") (new_ps 0 6) = Ok (set_first (new_ps 0 6) 5).
Proof. vm_compute. reflexivity. Qed.
