(** The execution modes: what is read in the mode for constant evaluation is read
    in the other ones too, when the document has no backslash. *)
From Coq Require Import List NArith ZArith Bool Lia Arith ZifyBool ZifyNat ZifyN.
From Verif Require Import Base Mem Loop PolicyModel IntModel StrScanModel SkipModel SpecNum SpecText SpecJson SpecUnicode
  IntProofs IntSerProofs IntValueProofs StrScanProofs StrScanProofs2 StrScanProofs3 SimdProofs SkipProofs BracketProofs SkipSafe
  PropertiesStr PropertiesSkip StrDecodeModel StrDecodeProofs HashModel PropertiesHash ValueModel SpecTyped
  NameProofs ClassProofs ClassProofs2 ScalarProofs ArrayProofs VariantProofs TypedProofs ZReads PropertiesUni.
Import ListNotations.
Local Open Scope N_scope.

(** ** Taking a successful run apart *)
Ltac step E :=
  match type of E with
  | bind ?e _ = Ok _ => let H := fresh "H" in destruct e eqn:H; cbn [bind] in E; [|discriminate E|discriminate E|discriminate E]
  | Err _ = _ => discriminate E
  | UB = _ => discriminate E
  | Fuel = _ => discriminate E
  | Ok _ = Ok _ => injection E as E; subst
  end.

Lemma ensure_ok : forall b r u, ensure b r = Ok u -> b = true.
Proof. intros [] r u E; [reflexivity|discriminate]. Qed.

Ltac unwrap := repeat match goal with
  | E : bind ?e _ = Ok _ |- _ => let H := fresh "H" in destruct e eqn:H; cbn [bind] in E; [|discriminate E|discriminate E|discriminate E]
  | E : Ok _ = Ok _ |- _ => injection E; clear E; intros; subst
  | E : Err _ = Ok _ |- _ => discriminate E
  | E : UB = Ok _ |- _ => discriminate E
  | E : Fuel = Ok _ |- _ => discriminate E
  | E : ensure _ _ = Ok _ |- _ => apply ensure_ok in E
  | E : (match ?x with pair _ _ => _ end) = Ok _ |- _ => destruct x
  | E : (if ?b then _ else _) = Ok _ |- _ => destruct b eqn:?
  end.

Lemma loop_same : forall S A (b1 b2 : S -> res (S + A)) (I : S -> Prop),
  (forall s r, I s -> b1 s = Ok r -> b2 s = Ok r /\ match r with inl s' => I s' | inr _ => True end) ->
  forall f s a, I s -> loop b1 f s = Ok a -> loop b2 f s = Ok a.
Proof.
  intros S A b1 b2 I H. induction f as [|f IH]; intros s a HI E; [discriminate|]. cbn [loop] in *.
  destruct (b1 s) as [r| | |] eqn:E1; try discriminate. destruct (H _ _ HI E1) as [-> X]. cbn [bind] in *. destruct r; auto.
Qed.

Lemma loop_post : forall S A (b : S -> res (S + A)) (I : S -> Prop) (Q : A -> Prop),
  (forall s r, I s -> b s = Ok r -> match r with inl s' => I s' | inr a => Q a end) ->
  forall f s a, I s -> loop b f s = Ok a -> Q a.
Proof.
  intros S A b I Q H. induction f as [|f IH]; intros s a HI E; [discriminate|]. cbn [loop] in *.
  destruct (b s) as [r| | |] eqn:E1; try discriminate. specialize (H _ _ HI E1). cbn [bind] in *. destruct r; [eauto|]. injection E as <-. exact H.
Qed.

(** ** The range and the class are left as they are *)
Definition keeps (p q : ps) : Prop := last q = last p /\ clast q = clast p.
Lemma keeps_refl : forall p, keeps p p.
Proof. split; reflexivity. Qed.
Lemma keeps_trans : forall p q r, keeps p q -> keeps q r -> keeps p r.
Proof. intros p q r [A B] [C D]. split; congruence. Qed.
Lemma keeps_first : forall p i, keeps p (set_first p i).
Proof. split; reflexivity. Qed.

Lemma trim_keeps : forall buf p q, trim_left_checked buf p = Ok q -> keeps p q.
Proof. intros buf p q E. unfold trim_left_checked in E. step E. step E. apply keeps_first. Qed.
Lemma trim_un_keeps : forall buf p q, trim_left_unchecked buf p = Ok q -> keeps p q.
Proof. intros buf p q E. unfold trim_left_unchecked in E. step E. step E. apply keeps_first. Qed.
Lemma next_keeps : forall buf p q, move_next buf p = Ok q -> keeps p q.
Proof.
  intros buf p q E. unfold move_next, move_next_member_or_end, move_next_member_or_end_checked in E. step E. step E. apply trim_keeps in H. destruct a0.
  - apply trim_keeps in E. eapply keeps_trans; [exact H|]. exact E.
  - step E. exact H.
Qed.
Lemma end_of_name_keeps : forall buf p q, trim_end_of_name buf p = Ok q -> keeps p q.
Proof.
  intros buf p q E. unfold trim_end_of_name in E. step E. step E. step E. step E. apply trim_keeps in H, E. exact (keeps_trans _ _ _ H E).
Qed.
Lemma unsigned_parser_keeps : forall known w rc buf p v q, unsigned_parser known w rc buf p = Ok (v, q) -> keeps p q.
Proof.
  intros known w rc buf p v q E. unfold unsigned_parser in E. destruct known.
  - unfold unsigned_parser_known in E. step E. destruct a. step E. destruct a. step E. destruct a. destruct rc; [step E; step E|]; step E; apply keeps_first.
  - unfold unsigned_parser_not_known in E. step E. step E. step E. destruct a1 as [[? ?] ?]. step E. destruct a1. step E. destruct a1. destruct rc; [step E; step E|]; step E; apply keeps_first.
Qed.
Lemma unsigned_keeps : forall known w rc buf p v q, parse_value_unsigned known LSNever w rc buf p = Ok (v, q) -> keeps p q.
Proof.
  intros known w rc buf p v q E. unfold parse_value_unsigned in E. destruct known.
  - step E. now apply unsigned_parser_keeps in E.
  - cbn [skip_quote_when_literal_as_string bind] in E. step E. step E. step E. step E. destruct a2. cbn [bind] in E. step E. step E. step E. now apply unsigned_parser_keeps in H2.
Qed.

Ltac keep := unwrap; repeat match goal with
  | H : trim_left_checked _ _ = Ok _ |- _ => apply trim_keeps in H
  | H : trim_left_unchecked _ _ = Ok _ |- _ => apply trim_un_keeps in H
  | H : move_next _ _ = Ok _ |- _ => apply next_keeps in H
  | H : trim_end_of_name _ _ = Ok _ |- _ => apply end_of_name_keeps in H
  | H : unsigned_parser _ _ _ _ _ = Ok _ |- _ => apply unsigned_parser_keeps in H
  end; unfold keeps, remove_prefix in *; cbn [last clast set_first set_class set_last set_counter fst snd] in *; repeat match goal with H : _ /\ _ |- _ => destruct H end; try (split; congruence).

Lemma signed_first_keeps : forall buf p s q, validate_signed_first buf p = Ok (s, q) -> keeps p q.
Proof. intros buf p s q E. unfold validate_signed_first in E. keep. Qed.
Lemma signed_keeps : forall known w rc buf p v q, parse_value_signed known LSNever w rc buf p = Ok (v, q) -> keeps p q.
Proof.
  intros known w rc buf p v q E. unfold parse_value_signed, skip_quote_when_literal_as_string in E. unwrap; repeat match goal with H : validate_signed_first _ _ = Ok _ |- _ => apply signed_first_keeps in H end; keep.
Qed.
Lemma bool_keeps : forall known buf p v q, parse_value_bool known buf p = Ok (v, q) -> keeps p q.
Proof. intros known buf p v q E. unfold parse_value_bool in E. keep. Qed.

(** ** A parser that reads skipped strings only when no escape was noted

    Where a skipped value of another kind is read as a string, the modes may
    give different texts. *)
Definition tidy_q (t : ty) (buf : list N) (p : ps) : bool :=
  match t with TStr => existsb (N.eqb 92) buf || negb (needs_slow_path p) | _ => true end.

Fixpoint parse_value_q (g : cfg) (t : ty) : parser :=
  fun known buf p =>
  if known && negb (tidy_q t buf p) then Err InvalidNumber else
  match t with
  | TUInt w rc => '(v, p) <- parse_value_unsigned known LSNever w rc buf p ;; Ok (VInt (Z.of_N v), p)
  | TInt w rc => '(v, p) <- parse_value_signed known LSNever w rc buf p ;; Ok (VInt v, p)
  | TBool => parse_value_bool known buf p
  | TStr => '(s, p) <- parse_value_string_escaped true known (c_ex g) true buf p ;; Ok (VStr s, p)
  | TNullable t => parse_value_null (parse_value_q g t) known buf p
  | TArr t => parse_value_array (parse_value_q g t) buf p
  | TMap t => parse_value_keyvalue g (parse_value_q g t) buf p
  | TClass exact ms =>
      parse_value_class g exact
        (map (fun m => mkmember (fst m) (is_nullable (snd m)) (parse_value_q g (snd m))) ms) known buf p
  | TTuple exact ts => parse_tuple g exact (map (parse_value_q g) ts) buf p
  | TKvArr exact kn tk vn tv =>
      parse_value_keyvalue_array
        (parse_value_class g exact
           [mkmember kn (is_nullable tk) (parse_value_q g tk); mkmember vn (is_nullable tv) (parse_value_q g tv)]) buf p
  | TCustom k => parse_value_custom g k known buf p
  | TVariant alts => parse_value_variant (map (fun t => (base_kind t, parse_value_q g t)) alts) known buf p
  | TIntrusive exact tag t switch alts =>
      parse_value_variant_intrusive
        (parse_value_class g exact [mkmember tag (is_nullable t) (parse_value_q g t)]) switch
        (map (parse_value_q g) alts) buf p
  end.

Section Modes.
  Context (buf : list N) (ex : exec_mode).
  Hypothesis HB : is_bytes buf.
  Hypothesis NB : ~ In 92 buf.
  Hypothesis H32 : N.of_nat (length buf) < 2^32.

  Definition ins (p : ps) : Prop := (last p <= length buf)%nat /\ forall cl, clast p = Some cl -> (cl <= length buf)%nat.

  Lemma ins_keeps : forall p q, keeps p q -> ins p -> ins q.
  Proof. intros p q [E1 E2] [I1 I2]. split; [now rewrite E1|]. rewrite E2. exact I2. Qed.

  Lemma not_slash : forall i c, nth_error buf i = Some c -> c <> 92.
  Proof. intros i c E ->. apply NB. eapply nth_error_In; eauto. Qed.

  Lemma rd_nth : forall i c, rd buf i = Ok c -> nth_error buf i = Some c.
  Proof. intros i c E. unfold rd in E. destruct (nth_error buf i); [now injection E as ->|discriminate]. Qed.
  Lemma rd_lt : forall i c, rd buf i = Ok c -> (i < length buf)%nat.
  Proof. intros i c E. apply rd_nth in E. apply nth_error_Some. congruence. Qed.

  Lemma body_plain : forall t i, str_body t -> sub_at buf i t -> Forall plain t.
  Proof.
    intros t i H. revert i. induction H as [|c t N1 N2 H IH|c t H IH]; intros i HS; [constructor| |]; destruct HS as [S1 S2].
    - constructor; [split; auto|]. eapply IH; eauto.
    - exfalso. exact (not_slash _ _ S1 eq_refl).
  Qed.

  Lemma plain_split : forall t n, Forall plain t -> (n <= length t)%nat -> exists a b, t = a ++ b /\ length a = n /\ str_body a.
  Proof.
    intros t n HP HL. exists (firstn n t), (skipn n t). split; [symmetry; apply firstn_skipn|]. split; [apply firstn_length_le; exact HL|].
    apply str_body_plain. rewrite Forall_forall in *. intros x HI. apply HP. rewrite <- (firstn_skipn n t). apply in_or_app. now left.
  Qed.

  (** No escape is seen. *)
  Lemma mask_0 : forall block, Forall (fun c => c <> 92) block -> eq_mask c_bslash block = 0.
  Proof.
    induction 1 as [|c block H _ IH]; [reflexivity|]. cbn [eq_mask]. rewrite IH. replace (c =? c_bslash) with false; [reflexivity|]. symmetry. now apply N.eqb_neq.
  Qed.
  Lemma block_no_slash : forall n i block, rd_block buf i n = Ok block -> Forall (fun c => c <> 92) block.
  Proof.
    induction n as [|n IH]; intros i block E; cbn [rd_block] in E; unwrap; constructor; [|eauto]. apply rd_nth in H. eapply not_slash; eauto.
  Qed.
  Lemma simd_fe : forall start last fe r, simd_skip_escape buf start last fe = Ok r -> snd r = fe.
  Proof.
    intros start lst fe r E. unfold simd_skip_escape in E. destruct (loop (simd_block buf lst) (S (lst - start)) (start, 0, fe)) as [r1| | |] eqn:E1; cbn [bind] in E; try discriminate.
    assert (F : match r1 with inl x => snd x = fe | inr x => snd x = fe end).
    { revert E1. apply (loop_post _ _ (simd_block buf lst) (fun s => snd s = fe) (fun r1 => match r1 with inl x => snd x = fe | inr x => snd x = fe end)); [|reflexivity].
      intros [[i prev] fe0] r2 EF E1. cbn [snd] in EF. subst fe0. unfold simd_block in E1. destruct (16 <=? lst - i)%nat; [|injection E1 as <-; reflexivity].
      destruct (rd_block buf i 16) as [block| | |] eqn:EB; cbn [bind] in E1; try discriminate. rewrite (mask_0 block) in E1 by (eapply block_no_slash; eauto).
      destruct (find_escaped_branchless prev 0) as [prev' escaped]. destruct (N.land (eq_mask c_quote block) (not32 escaped)); injection E1 as <-; reflexivity. }
    destruct r1 as [r1|[i fe1]]; [injection E as <-; exact F|]. cbn [snd] in F. subst fe1. revert E.
    apply (loop_post _ _ (simd_tail buf start lst) (fun s => snd s = fe) (fun r => snd r = fe)); [|reflexivity].
    intros [i' fe0] r2 EF EX. cbn [snd] in EF. subst fe0. unfold simd_tail in EX. destruct (i' <? lst)%nat; [|injection EX as <-; reflexivity].
    unwrap; auto. exfalso. unfold plain_loop_checked in H0.
    assert (X : (a0 < lst)%nat -> exists c, nth_error buf a0 = Some c /\ ~ plain c).
    { revert H0. match goal with |- loop ?b _ _ = _ -> _ => apply (loop_post _ _ b (fun _ => True) (fun a0 => (a0 < lst)%nat -> exists c, nth_error buf a0 = Some c /\ ~ plain c)) end; [|exact I].
      intros s r' _ ER. destruct (s <? lst)%nat eqn:SL; unwrap; [|lia]. destruct (negb (a2 =? c_quote) && negb (a2 =? c_bslash)) eqn:EC; [exact I|].
      intros _. exists a2. apply rd_nth in H0. split; [exact H0|]. intros [P1 P2]. apply N.eqb_neq in P1, P2. unfold c_quote, c_bslash in EC. rewrite P1, P2 in EC. discriminate. }
    apply Nat.leb_gt in Heqb0. destruct (X Heqb0) as (c & Hc & NP). apply rd_nth in H1. assert (c = a1) by congruence. subst c.
    apply NP. split; [|eapply not_slash; eauto]. now apply N.eqb_neq in Heqb1.
  Qed.

  Lemma nq_same : forall p n q, ins p -> (0 < first p)%nat -> nth_error buf (first p - 1) = Some 34 -> (first p <= last p)%nat ->
    parse_nq true ExConstexpr false buf p = Ok (n, q) ->
    parse_nq true ex false buf p = Ok (n, q) /\ keeps p q /\ (first q < length buf)%nat /\ n = npos.
  Proof.
    intros p n q [I1 I2] L0 Q0 LL E.
    destruct (clast p) as [cl|] eqn:EC; [|unfold parse_nq, parse_nq_check in E; rewrite EC in E; discriminate].
    assert (HI : in_string buf p cl) by (repeat split; auto).
    pose proof (parse_nq_cx_safe buf p cl HI) as X. rewrite E in X. destruct X as (t & HT & HS & HL & E1 & _). cbn [snd] in E1. subst q.
    pose proof HS as HS2. apply sub_at_app in HS2 as [HS1 [HS2 _]].
    pose proof (body_plain t _ HT HS1) as HP.
    assert (LT : (first p + length t < length buf)%nat) by (apply nth_error_Some; congruence).
    rewrite (C16_no_escape_partial true ExConstexpr buf p cl t (or_introl eq_refl) HI HP HS HL) in E by lia. injection E as <-.
    split; [|split; [apply keeps_first|split; [exact LT|reflexivity]]].
    destruct ex.
    - now rewrite (C16_no_escape_partial true ExConstexpr buf p cl t (or_introl eq_refl) HI HP HS HL) by lia.
    - now rewrite (parse_nq_rt_plain true false buf p cl t HI HP HS HL).
    - unfold parse_nq, parse_nq_check. rewrite EC.
      assert (LC : (cl <= length buf)%nat) by auto.
      destruct (simd_skip_escape_ok buf (first p) cl t LC HT HS HL (-1)%Z) as (fe & EF).
      { destruct (Nat.lt_ge_cases (length t) (16 * ((cl - first p) / 16))); [now left|right]. now apply plain_split. }
      pose proof (simd_fe _ _ _ _ EF) as X. cbn [snd] in X. subst fe. rewrite EF. cbn [bind].
      destruct (Nat.ltb_spec (first p + length t) cl); [|lia]. rewrite (rd_some _ _ _ HS2). reflexivity.
  Qed.

  Lemma front_ok : forall p c, front buf p = Ok c -> nth_error buf (first p) = Some c /\ (first p < length buf)%nat.
  Proof. intros p c E. unfold front in E. split; [now apply rd_nth|eapply rd_lt; eauto]. Qed.

  Lemma string_nq_same : forall p r q, ins p -> (0 < first p)%nat -> nth_error buf (first p - 1) = Some 34 -> (first p <= last p)%nat ->
    skip_string_nq true ExConstexpr false buf p = Ok (r, q) ->
    skip_string_nq true ex false buf p = Ok (r, q) /\ ins r /\ keeps p q /\ counter r = npos.
  Proof.
    intros p r q HI L0 Q0 LL E. unfold skip_string_nq in *. step E. destruct a as [n p'].
    destruct (nq_same _ _ _ HI L0 Q0 LL H) as (-> & K & LT & ->). cbn [bind]. step E. cbn [bind]. step E.
    split; [reflexivity|]. split; [|split; [exact K|reflexivity]].
    split; cbn [last clast set_last set_counter]; [lia|]. exact (proj2 HI).
  Qed.

  Lemma string_same : forall p r q, ins p -> skip_string true ExConstexpr false false buf p = Ok (r, q) ->
    skip_string true ex false false buf p = Ok (r, q) /\ ins r /\ keeps p q /\ (ps_empty p = false -> counter r = npos).
  Proof.
    intros p r q HI E. unfold skip_string in *. destruct (ps_empty p) eqn:EP.
    - step E. split; [reflexivity|]. split; [exact HI|]. split; [apply keeps_refl|discriminate].
    - step E. cbn [bind]. step E. cbn [bind]. step E. cbn [bind]. step E. destruct a2 as [r' q'].
      apply ensure_ok in H0, H1. apply front_ok in H as [HC HC2]. apply N.eqb_eq in H0. subst a. unfold has_more, remove_prefix, ps_empty in *. cbn [first last set_first] in *.
      edestruct string_nq_same as (ES & IR & K & CR); [| | | |exact H2|].
      + exact HI.
      + cbn [first set_first]; lia.
      + cbn [first set_first]. replace (first p + 1 - 1)%nat with (first p) by lia. exact HC.
      + cbn [first last set_first]. lia.
      + rewrite ES. cbn [bind]. step E. split; [reflexivity|]. split; [exact IR|]. split; [exact K|]. intros _. exact CR.
  Qed.

  Lemma str_same : forall i lst j, (i <= lst)%nat -> (lst <= length buf)%nat -> cx_skip true buf i lst = Ok j -> (j < lst)%nat ->
    skip_str true ex buf i lst = Ok j.
  Proof.
    intros i lst j L1 L2 E LJ. destruct (cx_skip_safe buf i lst L1 L2) as (j' & E' & Q). rewrite E in E'. injection E' as <-.
    destruct (Q LJ) as (t & HT & HS & ->).
    pose proof HS as HS2. apply sub_at_app in HS2 as [HS1 _]. pose proof (body_plain t _ HT HS1) as HP.
    unfold skip_str. destruct ex; [exact E| |].
    - now apply rt_skip_ok.
    - destruct (simd_skip_escape_ok buf i lst t L2 HT HS LJ 0%Z) as (fe & ->); [|reflexivity].
      destruct (Nat.lt_ge_cases (length t) (16 * ((lst - i) / 16))); [now left|right]. now apply plain_split.
  Qed.

  Lemma bracketed_same : forall obj p r q, ins p -> skip_bracketed CNone true ExConstexpr obj buf p = Ok (r, q) ->
    skip_bracketed CNone true ex obj buf p = Ok (r, q) /\ ins r /\ keeps p q.
  Proof.
    intros obj p r q HI E. unfold skip_bracketed in *. destruct (true && (last p <=? first p)%nat).
    - step E. split; [reflexivity|]. split; [exact HI|apply keeps_refl].
    - step E. cbn [bind]. step E. destruct a0 as [j cnt].
      rewrite (loop_same _ _ (br_body CNone true ExConstexpr obj buf (last p)) (br_body CNone true ex obj buf (last p)) (fun _ => True)) with (a := (j, cnt)); [|clear - HI HB NB|exact I|exact H0].
      + cbn [bind]. step E. split; [reflexivity|]. split; [|apply keeps_first].
        split; [|exact (proj2 HI)]. cbn [last set_last set_counter]. apply front_ok in H as [HC HC2].
        change (fst (j, cnt) <= length buf)%nat.
        refine (loop_post _ _ (br_body CNone true ExConstexpr obj buf (last p)) (fun s => b_i s <= length buf)%nat (fun r => fst r <= length buf)%nat _ _ _ _ _ H0).
        * clear - NB. intros s r HS E. unfold br_body in E. unwrap; cbn [b_i at_i fst];
            repeat match goal with H : rd buf _ = Ok _ |- _ => pose proof (rd_lt _ _ H); apply rd_nth in H end; try lia.
          exfalso. match goal with H : nth_error buf _ = Some _ |- _ => apply not_slash in H end. unfold c_bslash in *. lia.
        * cbn [b_i]. destruct (a =? left_of obj); lia.
      + intros s r _ E. split; [|now destruct r]. unfold br_body in *. destruct (negb true || (b_i s <? last p)%nat) eqn:EL; [|exact E].
        step E. cbn [bind]. destruct (a =? c_bslash); [exact E|]. destruct (a =? c_quote); [|exact E].
        step E. step E. cbn [skip_str] in H0.
        destruct (a0 <? last p)%nat eqn:ELT; [|discriminate H1].
        rewrite (str_same (S (b_i s)) (last p) a0); [|cbn in EL; (idtac; apply Nat.ltb_lt in EL; lia)|exact (proj1 HI)|exact H0|lia]. cbn [bind]. rewrite ELT. rewrite H1. exact E.
  Qed.

  Lemma digits_in : forall i lst j, skip_digits true buf i lst = Ok j -> (j <= length buf)%nat.
  Proof.
    intros i lst j E. unfold skip_digits in E. step E. step E. destruct a0 as [k d]. step E.
    change (fst (j, d) <= length buf)%nat. revert H0.
    match goal with |- loop ?b _ _ = _ -> _ => apply (loop_post _ _ b (fun s => fst s < length buf)%nat (fun r => fst r <= length buf)%nat) end.
    - intros [i' dig] r HS ER. cbn [fst] in HS. unwrap; cbn [fst] in *; try lia. eapply rd_lt; eauto.
    - cbn [fst]. eapply rd_lt; eauto.
  Qed.
  Lemma digits_if_in : forall i lst j, (i <= length buf)%nat -> skip_digits_if true buf i lst = Ok j -> (j <= length buf)%nat.
  Proof. intros i lst j L E. unfold skip_digits_if in E. destruct (i <? lst)%nat; [eapply digits_in; eauto|]. now step E. Qed.

  Lemma number_in : forall p r q, ins p -> skip_number true buf p = Ok (r, q) -> ins r /\ keeps p q.
  Proof.
    intros p r q [I1 I2] E. unfold skip_number in E. step E. step E. step E. step E. destruct a2 as [dec i]. step E. destruct a2 as [ex' k].
    step E. split; [|apply keeps_first]. apply front_ok in H0 as [HC HC2]. apply digits_if_in in H1; [|destruct (a0 =? c_minus); lia].
    assert (L2 : (i <= length buf)%nat).
    { unfold skip_fraction in H2. unwrap; try lia;
        repeat match goal with X : rd buf _ = Ok _ |- _ => apply rd_lt in X | X : skip_digits_if _ _ _ _ = Ok _ |- _ => apply digits_if_in in X; [|lia] end; lia. }
    assert (L3 : (k <= length buf)%nat /\ forall e, ex' = Some e -> (e <= length buf)%nat).
    { unfold skip_exponent in H3. destruct (if (i <? last p)%nat then _ else _) as [dig| | |] in H3; cbn [bind] in H3; try discriminate.
      destruct ((dig =? parse_digit c_e) || (dig =? parse_digit c_E)).
      - destruct (ensure (S i <? last p)%nat UnexpectedEndOfData) as [u| | |] eqn:EE in H3; cbn [bind] in H3; try discriminate. apply ensure_ok in EE.
        destruct (rd buf (S i)) as [b| | |] eqn:ER in H3; cbn [bind] in H3; try discriminate. apply rd_lt in ER. step H3.
        destruct (skip_digits_if true buf _ (last p)) eqn:ED in H3; cbn [bind] in H3; try discriminate.
        injection H3 as <- <-. split; [|intros e E; injection E as <-; lia]. apply digits_if_in in ED; auto. destruct (_ || _); lia.
      - injection H3 as <- <-. split; [lia|discriminate]. }
    destruct L3 as [L3 L4]. split; cbn [last clast set_class set_last]; auto.
  Qed.

  Lemma bool_in : forall rest r0 val p r q, rest <> [] -> ins p -> skip_bool CNone true rest r0 val buf p = Ok (r, q) -> ins r /\ keeps p q.
  Proof.
    intros rest r0 val p r q NE [I1 I2] E. unfold skip_bool, skip_word in E. cbn [trim_left_cp trim_left] in E. step E. step E. step E. step E.
    apply trim_keeps in H0. unwrap.
    assert (L : (first (remove_prefix (remove_prefix p 1) (length rest)) <= length buf)%nat).
    { match goal with X : starts_with _ _ _ = Ok _ |- _ => rename X into HW end. unfold starts_with in HW. destruct (ps_size (remove_prefix p 1) <? length rest)%nat eqn:EL; [exfalso; congruence|].
      unfold ps_size, remove_prefix in *. cbn [first last set_first] in *. apply Nat.ltb_ge in EL. destruct rest as [|c rest].
      - now contradiction NE.
      - cbn [length] in *. lia. }
    split; [split; [exact L|exact I2]|]. exact H0.
  Qed.

  Lemma null_in : forall p r q, ins p -> skip_null CNone true buf p = Ok (r, q) -> ins r /\ keeps p q.
  Proof.
    intros p r q [I1 I2] E. unfold skip_null, skip_word in E. cbn [trim_left_cp trim_left] in E. unwrap.
    repeat match goal with H : trim_left_checked _ _ = Ok _ |- _ => apply trim_keeps in H end.
    assert (K : keeps p q) by assumption. split; [|exact K]. split; cbn [last clast null_of]; [lia|]. rewrite (proj2 K). exact I2.
  Qed.

  Lemma literal_in : forall p r q, ins p -> skip_literal CNone true buf p = Ok (r, q) -> ins r /\ keeps p q.
  Proof.
    intros p r q HI E. unfold skip_literal in E. step E. step E. assert (HI' : ins (set_counter p 0)) by exact HI.
    destruct (a0 =? c_t); [eapply bool_in in E; eauto; discriminate|].
    destruct (a0 =? c_f); [eapply bool_in in E; eauto; discriminate|].
    destruct (a0 =? c_n); [eapply null_in in E; eauto|].
    destruct (_ || _); [eapply number_in in E; eauto|]. discriminate.
  Qed.

  Lemma value_same : forall p r q, ins p -> skip_value CNone true ExConstexpr false false buf p = Ok (r, q) ->
    skip_value CNone true ex false false buf p = Ok (r, q) /\ ins r /\ keeps p q.
  Proof.
    intros p r q HI E. unfold skip_value in *. step E. cbn [bind]. step E. cbn [bind]. assert (HI' : ins (set_counter p 0)) by exact HI.
    destruct (a0 =? c_quote). { apply string_same in E as (E1 & E2 & E3 & _); [|exact HI']. auto. }
    destruct (a0 =? c_lbrack). { apply bracketed_same in E as (E1 & E2 & E3); [|exact HI']. auto. }
    destruct (a0 =? c_lbrace). { apply bracketed_same in E as (E1 & E2 & E3); [|exact HI']. auto. }
    split; [exact E|].
    destruct (a0 =? c_t); [eapply bool_in in E; eauto; discriminate|].
    destruct (a0 =? c_f); [eapply bool_in in E; eauto; discriminate|].
    destruct (a0 =? c_n); [eapply null_in in E; eauto|].
    destruct (_ || _); [eapply number_in in E; eauto|]. discriminate.
  Qed.

  Context (g : cfg).
  Hypothesis HX : c_ex g = ExConstexpr.
  Hypothesis HE : c_excl g = false.
  Definition with_mode : cfg := mkcfg ex (c_excl g) (c_force g) (c_escnames g).

  Lemma val_same : forall p r q, ins p -> skip_val g buf p = Ok (r, q) -> skip_val with_mode buf p = Ok (r, q) /\ ins r /\ keeps p q.
  Proof. intros p r q HI E. unfold skip_val in *. cbn [with_mode c_ex c_excl]. rewrite HE in *. rewrite HX in E. now apply value_same. Qed.

  Lemma name_same : forall p n q, ins p -> parse_name g buf p = Ok (n, q) -> parse_name with_mode buf p = Ok (n, q) /\ keeps p q.
  Proof.
    intros p n q HI E. unfold parse_name in *. step E. cbn [bind]. step E. cbn [bind]. apply ensure_ok in H0. subst a.
    unfold is_at in H. destruct (has_more p) eqn:HM; [|discriminate]. step H. apply front_ok in H0 as [HC HC2]. injection H as H. apply N.eqb_eq in H. subst a.
    unfold parse_name_nq in *. cbn [with_mode c_ex c_excl c_escnames]. rewrite HE in *. rewrite HX in E. destruct (c_escnames g).
    - step E. destruct a as [r p']. apply string_nq_same in H as (-> & IR & K & _).
      + cbn [bind]. step E. cbn [bind]. step E. split; [reflexivity|]. apply end_of_name_keeps in H. eapply keeps_trans; [|exact H]. exact K.
      + exact HI.
      + cbn [first remove_prefix set_first]. lia.
      + cbn [first remove_prefix set_first]. replace (first p + 1 - 1)%nat with (first p) by lia. exact HC.
      + unfold has_more in HM. cbn [first last remove_prefix set_first]. lia.
    - split; [exact E|]. keep.
  Qed.

  Lemma loop_sim : forall S A (b1 b2 : S -> res (S + A)) (I : S -> Prop) (Q : A -> Prop),
    (forall s r, I s -> b1 s = Ok r -> b2 s = Ok r /\ match r with inl s' => I s' | inr a => Q a end) ->
    forall f s a, I s -> loop b1 f s = Ok a -> loop b2 f s = Ok a /\ Q a.
  Proof.
    intros S A b1 b2 I Q H. induction f as [|f IH]; intros s a HI E; [discriminate|]. cbn [loop] in *.
    destruct (b1 s) as [r| | |] eqn:E1; try discriminate. destruct (H _ _ HI E1) as [-> X]. cbn [bind] in *. destruct r; [auto|]. injection E as <-. auto.
  Qed.

  Lemma set_nth_ins : forall locs k r, Forall ins locs -> ins r -> Forall ins (set_nth locs k r).
  Proof.
    induction locs as [|l locs IH]; intros k r F HI; [constructor|]. inversion F; subst. destruct k; cbn [set_nth]; constructor; auto.
  Qed.

  Definition tracked (p0 : ps) (s : ps * list ps) : Prop := keeps p0 (fst s) /\ Forall ins (snd s).

  Lemma find_same : forall exact names pos p0 s r, ins p0 -> tracked p0 s -> find_body g exact names pos buf s = Ok r ->
    find_body with_mode exact names pos buf s = Ok r /\ match r with inl s' => tracked p0 s' | inr a => tracked p0 a end.
  Proof.
    intros exact names pos p0 [p locs] r I0 [K F] E. cbn [fst snd] in K, F. assert (IP : ins p) by (eapply ins_keeps; eauto).
    unfold find_body in *. step E. cbn [bind]. destruct (negb a).
    { step E. split; [reflexivity|]. split; auto. }
    step E. destruct a0 as [name p1]. apply name_same in H0 as [-> K1]; [|exact IP]. cbn [bind c_force with_mode].
    assert (I1 : ins p1) by (eapply ins_keeps; eauto).
    assert (K2 : keeps p0 p1) by (eapply keeps_trans; eauto).
    destruct (length names <=? find_name (c_force g) false names pos name)%nat.
    { destruct exact; [discriminate|]. step E. destruct a0 as [r1 p2]. apply val_same in H0 as (-> & IR & K3); [|exact I1]. cbn [bind]. step E. cbn [bind]. step E.
      split; [reflexivity|]. apply next_keeps in H0. split; [|exact F]. cbn [fst]. eapply keeps_trans; [exact K2|]. eapply keeps_trans; eauto. }
    destruct (find_name (c_force g) false names pos name =? pos)%nat.
    { step E. split; [reflexivity|]. split; [exact K2|]. now apply set_nth_ins. }
    step E. destruct a0 as [r1 p2]. apply val_same in H0 as (-> & IR & K3); [|exact I1]. cbn [bind]. step E. cbn [bind]. step E.
    split; [reflexivity|]. apply next_keeps in H0. split; [|now apply set_nth_ins]. cbn [fst]. eapply keeps_trans; [exact K2|]. eapply keeps_trans; eauto.
  Qed.

  Lemma find_member_same : forall exact names pos nullable p locs q locs' known, ins p -> Forall ins locs ->
    find_class_member g exact names pos nullable buf p locs = Ok (q, locs', known) ->
    find_class_member with_mode exact names pos nullable buf p locs = Ok (q, locs', known) /\ keeps p q /\ Forall ins locs'.
  Proof.
    intros exact names pos nullable p locs q locs' known HI F E. unfold find_class_member in *.
    step E. cbn [bind]. step E. cbn [bind]. step E. cbn [bind]. step E. destruct a2 as [p2 l2]. apply trim_un_keeps in H1.
    apply (loop_sim _ _ _ (find_body with_mode exact names pos buf) (tracked a1) (tracked a1)) in H2 as [-> [K F2]].
    - cbn [bind fst snd] in *. step E. split; [reflexivity|]. split; [eapply keeps_trans; eauto|exact F2].
    - intros s r HS. apply find_same; auto. eapply ins_keeps; eauto.
    - split; [apply keeps_refl|exact F].
  Qed.

  Definition psim (P P' : parser) : Prop := forall known p v q, ins p -> P known buf p = Ok (v, q) -> P' known buf p = Ok (v, q) /\ keeps p q.

  Lemma ins_nth : forall locs pos, Forall ins locs -> ins (nth pos locs no_loc).
  Proof.
    intros locs pos F. destruct (nth_in_or_default pos locs no_loc) as [HI| ->]; [rewrite Forall_forall in F; auto|].
    split; cbn; [lia|discriminate].
  Qed.

  Lemma member_same : forall exact names pos nullable P P' p locs v q locs', psim P P' -> ins p -> Forall ins locs ->
    parse_class_member g exact names pos nullable P buf p locs = Ok (v, q, locs') ->
    parse_class_member with_mode exact names pos nullable P' buf p locs = Ok (v, q, locs') /\ keeps p q /\ Forall ins locs'.
  Proof.
    intros exact names pos nullable P P' p locs v q locs' HP HI F E. unfold parse_class_member in *.
    step E. cbn [bind]. step E. cbn [bind]. step E. cbn [bind]. step E. destruct a2 as [[p2 l2] known]. apply next_keeps in H.
    apply find_member_same in H2 as (-> & K & F2); [|eapply ins_keeps; eauto|exact F]. cbn [bind].
    assert (K2 : keeps p p2) by (eapply keeps_trans; eauto).
    destruct (negb known).
    { step E. destruct a2 as [v1 q1]. apply HP in H2 as [-> K3]; [|eapply ins_keeps; eauto]. cbn [bind]. step E. split; [reflexivity|]. split; [eapply keeps_trans; eauto|exact F2]. }
    destruct (isnull (nth pos l2 no_loc)).
    { destruct nullable; [|discriminate]. step E. auto. }
    step E. destruct a2 as [v1 q1]. apply HP in H2 as [-> K3]; [|now apply ins_nth]. cbn [bind]. step E. auto.
  Qed.

  Definition msim (m m' : member) : Prop := m_name m = m_name m' /\ m_nullable m = m_nullable m' /\ psim (m_parse m) (m_parse m').

  Lemma members_same : forall exact names ms ms' pos p locs vs q, Forall2 msim ms ms' -> ins p -> Forall ins locs ->
    parse_members g exact names pos ms buf p locs = Ok (vs, q) -> parse_members with_mode exact names pos ms' buf p locs = Ok (vs, q) /\ keeps p q.
  Proof.
    intros exact names ms ms' pos p locs vs q FM. revert pos p locs vs q. induction FM as [|m m' ms ms' (EN & EU & HP) FM IH]; intros pos p locs vs q HI F E; cbn [parse_members] in *.
    { step E. split; [reflexivity|apply keeps_refl]. }
    step E. destruct a as [[v p1] l1]. rewrite EU in H. eapply member_same in H as (-> & K & F1); eauto. cbn [bind]. step E. destruct a as [vs1 q1].
    apply IH in H as [-> K1]; [|eapply ins_keeps; eauto|exact F1]. cbn [bind]. step E. split; [reflexivity|eapply keeps_trans; eauto].
  Qed.

  Lemma to_member_same : forall p q, ins p -> move_to_next_class_member g buf p = Ok q -> move_to_next_class_member with_mode buf p = Ok q /\ keeps p q.
  Proof.
    intros p q HI E. unfold move_to_next_class_member in *. rewrite HX in E. cbn [c_ex with_mode]. step E. step E. step E. split; [|apply keeps_first].
    assert (X : forall f i, (forall f', (length buf - i < f')%nat ->
       loop (fun i => c <- rd buf i ;; (if (c =? c_quote) || (c =? c_rbrace) then Ok (inr i) else _ <- ensure (S i <? last p)%nat UnexpectedEndOfData ;; Ok (inl (S i)))) f i = Ok a0 ->
       loop (fun i => c <- rd buf i ;; Ok (if (c =? c_quote) || (c =? c_rbrace) then inr i else inl (S i))) f' i = Ok a0)).
    { clear - a0. induction f as [|f IH]; intros i f' L EL; [discriminate|]. destruct f' as [|f']; [lia|]. cbn [loop] in *.
      destruct (rd buf i) as [c| | |] eqn:ER; cbn [bind] in *; try discriminate. destruct ((c =? c_quote) || (c =? c_rbrace)); cbn [bind] in *; [exact EL|].
      destruct (S i <? last p)%nat; cbn [ensure bind] in EL; [|discriminate]. apply IH; [|exact EL]. apply rd_lt in ER. lia. }
    destruct ex.
    - reflexivity.
    - erewrite X; [reflexivity| |exact H0]. lia.
    - erewrite X; [reflexivity| |exact H0]. lia.
  Qed.

  Lemma cleanup_same : forall exact old p q, ins p -> class_cleanup_now g exact old buf p = Ok q ->
    class_cleanup_now with_mode exact old buf p = Ok q /\ last q = last p /\ clast q = snd old.
  Proof.
    intros exact old p q HI E. unfold class_cleanup_now in *. step E. cbn [bind]. step E. cbn [bind]. step E. apply next_keeps in H0.
    assert (I1 : ins a0) by (eapply ins_keeps; eauto).
    apply to_member_same in H1 as [-> K1]; [|exact I1]. cbn [bind]. step E.
    assert (X : (if exact then c <- front buf a1 ;; _ <- ensure (c =? c_rbrace) UnknownMember ;; Ok (remove_prefix a1 1)
        else '(_, p) <- skip_class CNone true (c_ex with_mode) buf a1 ;; Ok p) = Ok a2 /\ keeps a1 a2).
    { destruct exact.
      - split; [exact H1|]. unwrap. apply keeps_first.
      - step H1. destruct a3 as [r1 p1]. step H1. rewrite HX in H2. unfold skip_class in *. cbn [c_ex with_mode].
        apply bracketed_same in H2 as (-> & _ & K2); [|eapply ins_keeps; eauto]. split; [reflexivity|exact K2]. }
    destruct X as [-> K2]. cbn [bind]. step E. cbn [bind]. step E. split; [reflexivity|]. apply trim_keeps in H2. cbn [last clast set_class].
    split; [|reflexivity]. unfold keeps in *. intuition congruence.
  Qed.

  Lemma class_same : forall exact ms ms' p v q, Forall2 msim ms ms' -> ins p -> parse_json_class g exact ms buf p = Ok (v, q) ->
    parse_json_class with_mode exact ms' buf p = Ok (v, q) /\ keeps p q.
  Proof.
    intros exact ms ms' p v q FM HI E. unfold parse_json_class in *. step E. cbn [bind]. step E. cbn [bind]. step E. cbn [bind]. step E. cbn [bind].
    apply trim_keeps in H, H2. assert (I0 : ins a) by (eapply ins_keeps; eauto).
    assert (I1 : ins a2). { eapply ins_keeps; [exact H2|]. split; [exact (proj1 I0)|]. cbn. intros cl EC. injection EC as <-. exact (proj1 I0). }
    step E. destruct a3 as [vs p1].
    replace (map m_name ms') with (map m_name ms) by (clear - FM; induction FM as [|? ? ? ? (EN & _) ? IH]; cbn; congruence).
    replace (map (fun _ => no_loc) ms') with (map (fun _ : member => no_loc) ms) by (clear - FM; induction FM; cbn; congruence).
    eapply members_same in H3 as [-> K3]; [|exact FM|exact I1|].
    2:{ clear. induction ms; cbn; constructor; auto. split; cbn; [lia|discriminate]. }
    cbn [bind]. step E. apply cleanup_same in H3 as (-> & L1 & L2); [|eapply ins_keeps; eauto]. cbn [bind]. step E. split; [reflexivity|].
    cbn [snd] in L2. split; [|rewrite L2; exact (proj2 H)]. rewrite L1, (proj1 K3), (proj1 H2). cbn. exact (proj1 H).
  Qed.

  Lemma value_class_same : forall exact ms ms', Forall2 msim ms ms' -> psim (parse_value_class g exact ms) (parse_value_class with_mode exact ms').
  Proof.
    intros exact ms ms' FM known p v q HI E. unfold parse_value_class in *. step E. cbn [bind]. step E. destruct a0 as [v1 p1].
    eapply class_same in H0 as [-> K]; eauto. cbn [bind]. destruct known; [step E; auto|]. step E. cbn [bind]. step E. split; [reflexivity|].
    apply trim_keeps in H0. eapply keeps_trans; eauto.
  Qed.

  Lemma array_body_same : forall P P' p0 s r, psim P P' -> ins p0 -> keeps p0 (fst s) -> array_body P buf s = Ok r ->
    array_body P' buf s = Ok r /\ match r with inl s' => keeps p0 (fst s') | inr a => keeps p0 (fst a) end.
  Proof.
    intros P P' p0 [p vs] r HP I0 K E. cbn [fst] in K. unfold array_body in *. step E. cbn [bind]. step E. destruct a0 as [v p1].
    apply HP in H0 as [-> K1]; [|eapply ins_keeps; eauto]. cbn [bind]. step E. cbn [bind]. step E. cbn [bind]. step E. cbn [bind]. step E. cbn [bind].
    step E. cbn [bind]. step E. cbn [bind]. apply trim_keeps in H0. apply next_keeps in H3.
    assert (K2 : keeps p0 a3). { repeat (eapply keeps_trans; [eassumption|]). apply keeps_refl. }
    destruct (a5 =? c_rbrack).
    - step E. cbn [bind]. step E. split; [reflexivity|]. unfold end_of_array in H6. apply trim_keeps in H6. cbn [fst]. eapply keeps_trans; [exact K2|exact H6].
    - step E. split; [reflexivity|]. exact K2.
  Qed.

  Lemma elements_loop_same : forall P P' p a, psim P P' -> ins p -> loop (array_body P buf) (S (length buf)) (p, []) = Ok a ->
    loop (array_body P' buf) (S (length buf)) (p, []) = Ok a /\ keeps p (fst a).
  Proof.
    intros P P' p a HP HI. apply (loop_sim _ _ (array_body P buf) (array_body P' buf) (fun s => keeps p (fst s)) (fun a => keeps p (fst a))).
    - intros s r K. now apply array_body_same.
    - apply keeps_refl.
  Qed.

  Lemma array_same : forall P P', psim P P' -> psim (fun _ => parse_value_array P) (fun _ => parse_value_array P').
  Proof.
    intros P P' HP _ p v q HI E. unfold parse_value_array in *. step E. cbn [bind]. step E. cbn [bind]. step E. cbn [bind]. step E. cbn [bind]. step E. cbn [bind].
    apply trim_keeps in H. apply trim_un_keeps in H2. assert (K : keeps p a2) by (eapply keeps_trans; [exact H|exact H2]).
    destruct (a3 =? c_rbrack).
    - step E. cbn [bind]. step E. split; [reflexivity|]. unfold end_of_array in H4. apply trim_keeps in H4. eapply keeps_trans; [exact K|exact H4].
    - step E. destruct a4 as [p1 vs]. eapply elements_loop_same in H4 as [-> K1]; [|exact HP|eapply ins_keeps; eauto]. cbn [bind]. step E. split; [reflexivity|].
      eapply keeps_trans; eauto.
  Qed.

  Lemma kv_array_same : forall P P', psim P P' -> psim (fun _ => parse_value_keyvalue_array P) (fun _ => parse_value_keyvalue_array P').
  Proof.
    intros P P' HP _ p v q HI E. unfold parse_value_keyvalue_array in *. step E. cbn [bind]. step E. cbn [bind]. step E. cbn [bind].
    destruct (a1 =? c_rbrack).
    - step E. cbn [bind]. step E. split; [reflexivity|]. unfold end_of_array in H2. apply trim_keeps in H2. exact H2.
    - step E. destruct a2 as [p1 vs]. eapply elements_loop_same in H2 as [-> K1]; [|exact HP|exact HI]. cbn [bind]. step E. split; [reflexivity|]. exact K1.
  Qed.

  Lemma fast : forall p, counter p = npos -> needs_slow_path p = false.
  Proof. intros p E. unfold needs_slow_path. rewrite E. reflexivity. Qed.

  Lemma string_value_same : forall p s q, ins p -> parse_value_string_escaped true false ExConstexpr true buf p = Ok (s, q) ->
    parse_value_string_escaped true false ex true buf p = Ok (s, q) /\ keeps p q.
  Proof.
    intros p s q HI E. unfold parse_value_string_escaped in *. step E. cbn [bind]. step E. destruct a0 as [r p1].
    apply string_same in H0 as (-> & IR & K & C); [|exact HI]. cbn [bind]. apply ensure_ok in H. apply negb_true_iff in H. specialize (C H).
    rewrite (fast _ C) in *. cbn [negb orb] in *. destruct (last r <=? length buf)%nat; [|discriminate]. step E. auto.
  Qed.

  Lemma map_body_same : forall P P' p0 s r, psim P P' -> ins p0 -> keeps p0 (fst s) -> map_body g P buf s = Ok r ->
    map_body with_mode P' buf s = Ok r /\ match r with inl s' => keeps p0 (fst s') | inr a => keeps p0 (fst a) end.
  Proof.
    intros P P' p0 [p kvs] r HP I0 K E. cbn [fst] in K. unfold map_body in *. cbn [c_ex with_mode]. rewrite HX in E. step E. cbn [bind]. step E. destruct a0 as [k p1].
    apply string_value_same in H0 as [-> K1]; [|eapply ins_keeps; eauto]. cbn [bind]. step E. cbn [bind]. apply end_of_name_keeps in H0.
    assert (K2 : keeps p0 a0) by (eapply keeps_trans; [exact K|]; eapply keeps_trans; eauto).
    step E. destruct a1 as [v p2]. apply HP in H1 as [-> K3]; [|eapply ins_keeps; eauto]. cbn [bind]. step E. cbn [bind]. step E. cbn [bind]. step E. cbn [bind].
    apply next_keeps in H1. assert (K4 : keeps p0 a1) by (eapply keeps_trans; [exact K2|]; eapply keeps_trans; eauto).
    destruct (a3 =? c_rbrace).
    - step E. cbn [bind]. step E. split; [reflexivity|]. apply trim_keeps in H4. cbn [fst]. eapply keeps_trans; [exact K4|exact H4].
    - step E. split; [reflexivity|]. exact K4.
  Qed.

  Lemma map_same : forall P P', psim P P' -> psim (fun _ => parse_value_keyvalue g P) (fun _ => parse_value_keyvalue with_mode P').
  Proof.
    intros P P' HP _ p v q HI E. unfold parse_value_keyvalue in *. step E. cbn [bind]. step E. cbn [bind]. step E. cbn [bind]. step E. cbn [bind]. step E. cbn [bind].
    apply trim_keeps in H1. assert (K : keeps p a1) by exact H1.
    destruct (a3 =? c_rbrace).
    - step E. cbn [bind]. step E. split; [reflexivity|]. apply trim_keeps in H4. eapply keeps_trans; [exact K|exact H4].
    - step E. destruct a4 as [p1 kvs]. apply (loop_sim _ _ _ (map_body with_mode P' buf) (fun s => keeps a1 (fst s)) (fun a => keeps a1 (fst a))) in H4 as [-> K1].
      + cbn [bind]. step E. split; [reflexivity|]. eapply keeps_trans; eauto.
      + intros s r KS. apply map_body_same; auto. eapply ins_keeps; eauto.
      + apply keeps_refl.
  Qed.

  Lemma elements_same : forall Ps Ps' p vs q, Forall2 psim Ps Ps' -> ins p -> parse_elements Ps buf p = Ok (vs, q) ->
    parse_elements Ps' buf p = Ok (vs, q) /\ keeps p q.
  Proof.
    intros Ps Ps' p vs q F. revert p vs q. induction F as [|P P' Ps Ps' HP F IH]; intros p vs q HI E; cbn [parse_elements] in *.
    { step E. split; [reflexivity|apply keeps_refl]. }
    step E. cbn [bind]. step E. destruct a0 as [v p1]. apply HP in H0 as [-> K]; [|exact HI]. cbn [bind]. step E. cbn [bind]. apply next_keeps in H0.
    assert (K2 : keeps p a0) by (eapply keeps_trans; eauto). step E. destruct a1 as [vs1 p2]. apply IH in H1 as [-> K3]; [|eapply ins_keeps; eauto]. cbn [bind]. step E.
    split; [reflexivity|eapply keeps_trans; eauto].
  Qed.

  Lemma tuple_same : forall exact Ps Ps', Forall2 psim Ps Ps' -> psim (fun _ => parse_tuple g exact Ps) (fun _ => parse_tuple with_mode exact Ps').
  Proof.
    intros exact Ps Ps' F _ p v q HI E. unfold parse_tuple in *. step E. cbn [bind]. step E. cbn [bind]. step E. cbn [bind]. step E. cbn [bind]. step E. cbn [bind].
    apply trim_keeps in H, H3. apply next_keeps in H2. assert (I0 : ins a) by (eapply ins_keeps; eauto).
    assert (I1 : ins a3). { eapply ins_keeps; [exact H3|]. eapply ins_keeps; [exact H2|]. split; [exact (proj1 I0)|]. cbn. intros cl EC. injection EC as <-. exact (proj1 I0). }
    assert (L1 : last a3 = last p). { rewrite (proj1 H3), (proj1 H2). cbn. exact (proj1 H). }
    step E. destruct a4 as [vs p1]. eapply elements_same in H4 as [-> K]; [|exact F|exact I1]. cbn [bind]. step E.
    assert (X : (if exact then p <- trim_left_checked buf p1 ;; c <- front buf p ;; _ <- ensure (c =? c_rbrack) UnknownMember ;; trim_left_checked buf (remove_prefix p 1)
        else '(_, p) <- skip_array CNone true (c_ex with_mode) buf p1 ;; Ok p) = Ok a4 /\ keeps p1 a4).
    { destruct exact.
      - split; [exact H4|]. keep.
      - step H4. destruct a5 as [r1 p2]. step H4. rewrite HX in H5. unfold skip_array in *. cbn [c_ex with_mode].
        apply bracketed_same in H5 as (-> & _ & K2); [|eapply ins_keeps; eauto]. split; [reflexivity|exact K2]. }
    destruct X as [-> K2]. cbn [bind]. step E. split; [reflexivity|]. split; cbn [last clast set_class snd]; [|exact (proj2 H)].
    rewrite (proj1 K2), (proj1 K). exact L1.
  Qed.

  Lemma null_same : forall P P', psim P P' -> psim (parse_value_null P) (parse_value_null P').
  Proof.
    intros P P' HP known p v q HI E. unfold parse_value_null in *. destruct known.
    - destruct (isnull p); [step E; split; [reflexivity|apply keeps_refl]|]. step E. destruct a as [v1 p1]. apply HP in H as [-> K]; [|exact HI]. cbn [bind]. step E. auto.
    - step E. cbn [bind]. destruct a; [step E; split; [reflexivity|apply keeps_refl]|]. step E. cbn [bind]. destruct a.
      + split; [exact E|]. unwrap; match goal with X : trim_left_checked _ _ = Ok _ |- _ => apply trim_keeps in X; exact X end.
      + step E. destruct a as [v1 p1]. apply HP in H1 as [-> K]; [|exact HI]. cbn [bind]. step E. auto.
  Qed.

  Lemma custom_same : forall k, psim (parse_value_custom g k) (parse_value_custom with_mode k).
  Proof.
    intros k known p v q HI E. unfold parse_value_custom in *. cbn [c_ex c_excl with_mode]. rewrite HX, HE in *. step E. destruct a as [r p1].
    assert (X : match k with
      | CuString => if known then Ok (p, p) else skip_string true ex false false buf p
      | CuLiteral => if known then Ok (p, p) else skip_literal CNone true buf p
      | CuAny => if known then match first p with O => UB | S i => b <- rd buf i ;; Ok (if b =? c_quote then set_first p i else p, p) end
          else c <- front buf p ;; if c =? c_quote then '(r, p) <- skip_string true ex false false buf p ;; Ok (set_first r (first r - 1), p) else skip_val with_mode buf p
      end = Ok (r, p1) /\ keeps p p1).
    { destruct k.
      - destruct known; [step H; split; [reflexivity|apply keeps_refl]|]. apply string_same in H as (-> & _ & K & _); auto.
      - split; [exact H|]. destruct known; [step H; apply keeps_refl|]. now apply literal_in in H as [_ K].
      - destruct known.
        + split; [exact H|]. destruct (first p); [discriminate|]. step H. step H. apply keeps_refl.
        + step H. cbn [bind]. destruct (a =? c_quote).
          * step H. destruct a0 as [r1 p2]. apply string_same in H1 as (-> & _ & K & _); [|exact HI]. cbn [bind]. step H. auto.
          * apply val_same in H as (-> & _ & K); auto. }
    destruct X as [EQ K]. rewrite EQ. cbn [bind]. step E. cbn [bind]. step E. cbn [bind]. step E. auto.
  Qed.

  Definition asim (a a' : option kind * parser) : Prop := fst a = fst a' /\ psim (snd a) (snd a').

  Lemma base_map_same : forall k alts alts' i j P, Forall2 asim alts alts' -> base_map k i alts = Some (j, P) ->
    exists P', base_map k i alts' = Some (j, P') /\ psim P P'.
  Proof.
    intros k alts alts' i j P F. revert i. induction F as [|[o1 P1] [o2 P2] alts alts' [EO HP] F IH]; intros i E; cbn [base_map] in *; [discriminate|]. cbn [fst snd] in *. subst o2.
    destruct o1 as [k'|]; [|auto]. destruct (kind_eqb k k'); [|auto]. injection E as <- <-. eauto.
  Qed.

  Lemma variant_value_same : forall k alts alts', Forall2 asim alts alts' -> psim (parse_variant_value k alts) (parse_variant_value k alts').
  Proof.
    intros k alts alts' F known p v q HI E. unfold parse_variant_value in *. destruct (base_map k 0 alts) as [[i P]|] eqn:EB; [|discriminate].
    destruct (base_map_same _ _ _ _ _ _ F EB) as (P' & -> & HP). step E. destruct a as [v1 p1]. apply HP in H as [-> K]; [|exact HI]. cbn [bind]. step E. auto.
  Qed.

  Lemma variant_same : forall alts alts', Forall2 asim alts alts' -> psim (parse_value_variant alts) (parse_value_variant alts').
  Proof.
    intros alts alts' F known p v q HI E. unfold parse_value_variant in *. step E. cbn [bind]. destruct a; [eapply variant_value_same; eauto|]. step E. cbn [bind].
    destruct (a =? c_lbrace); [eapply variant_value_same; eauto|]. destruct (a =? c_lbrack); [eapply variant_value_same; eauto|].
    destruct ((a =? c_t) || (a =? c_f)); [eapply variant_value_same; eauto|]. destruct (a =? c_quote); [eapply variant_value_same; eauto|].
    destruct (_ || _); [eapply variant_value_same; eauto|]. discriminate.
  Qed.

  Lemma intrusive_same : forall T T' sw Ps Ps', psim T T' -> Forall2 psim Ps Ps' ->
    psim (fun _ => parse_value_variant_intrusive T sw Ps) (fun _ => parse_value_variant_intrusive T' sw Ps').
  Proof.
    intros T T' sw Ps Ps' HT F _ p v q HI E. unfold parse_value_variant_intrusive in *. step E. destruct a as [y p1]. apply HT in H as [-> _]; [|exact HI]. cbn [bind].
    destruct y as [| | | | | |[|y [|]]| | |]; try discriminate. unfold parse_visit in *.
    assert (X : forall n P, nth_error Ps n = Some P -> exists P', nth_error Ps' n = Some P' /\ psim P P').
    { clear - F. induction F as [|P P' Ps Ps' HP F IH]; intros [|n] P0 E; cbn in *; try discriminate; [injection E as <-; eauto|eauto]. }
    destruct (nth_error Ps (sw y)) as [P|] eqn:EN; [|discriminate]. destruct (X _ _ EN) as (P' & -> & HP). step E. destruct a as [v1 p2].
    apply HP in H as [-> K]; [|exact HI]. cbn [bind]. step E. auto.
  Qed.

  Lemma guarded_q : forall t (P P' : parser), (t = TStr -> False) -> psim P P' ->
    psim (fun known buf p => if known && negb (tidy_q t buf p) then Err InvalidNumber else P known buf p) P'.
  Proof.
    intros t P P' NT HP known p v q HI E. replace (tidy_q t buf p) with true in E by (destruct t; try reflexivity; now contradiction NT).
    rewrite andb_false_r in E. now apply HP.
  Qed.

  Theorem sim_value_q : forall t, psim (parse_value_q g t) (parse_value with_mode t).
  Proof.
    fix IH 1. intros t. destruct t as [w rc|w rc| | |t|t|t|exact mm|exact ts|exact kn tk vn tv|k|alts|exact tag t switch alts]; cbn [parse_value_q parse_value].
    - apply (guarded_q (TUInt w rc) (fun known buf p => '(v, p) <- parse_value_unsigned known LSNever w rc buf p ;; Ok (VInt (Z.of_N v), p))); [discriminate|].
      intros known p v q HI E. split; [exact E|]. step E. destruct a. step E. eapply unsigned_keeps; eauto.
    - apply (guarded_q (TInt w rc) (fun known buf p => '(v, p) <- parse_value_signed known LSNever w rc buf p ;; Ok (VInt v, p))); [discriminate|].
      intros known p v q HI E. split; [exact E|]. step E. destruct a. step E. eapply signed_keeps; eauto.
    - apply (guarded_q TBool (fun known buf p => parse_value_bool known buf p)); [discriminate|].
      intros known p v q HI E. split; [exact E|]. eapply bool_keeps; eauto.
    - intros known p v q HI E. cbn [c_ex with_mode]. rewrite HX in E. destruct known; cbn [andb] in E.
      + destruct (tidy_q TStr buf p) eqn:TI; cbn [negb] in E; [|discriminate]. cbn [tidy_q] in TI.
        replace (existsb (N.eqb 92) buf) with false in TI.
        2:{ symmetry. apply not_true_is_false. intros X. apply existsb_exists in X as (c & IC & EC). apply N.eqb_eq in EC. subst c. exact (NB IC). }
        cbn [orb] in TI. apply negb_true_iff in TI. unfold parse_value_string_escaped in *. cbn [bind] in *. rewrite TI in *. cbn [negb orb] in *.
        split; [exact E|]. destruct (last p <=? length buf)%nat; cbn [bind] in E; [|discriminate]. step E. apply keeps_refl.
      + step E. destruct a as [s p1]. apply string_value_same in H as [-> K]; [|exact HI]. cbn [bind]. step E. auto.
    - apply (guarded_q (TNullable t) (fun known buf p => parse_value_null (parse_value_q g t) known buf p)); [discriminate|]. apply null_same. apply IH.
    - apply (guarded_q (TArr t) (fun _ => parse_value_array (parse_value_q g t))); [discriminate|]. apply array_same. apply IH.
    - apply (guarded_q (TMap t) (fun _ => parse_value_keyvalue g (parse_value_q g t))); [discriminate|]. apply map_same. apply IH.
    - apply (guarded_q (TClass exact mm) (fun known buf p => parse_value_class g exact (map (fun m => mkmember (fst m) (is_nullable (snd m)) (parse_value_q g (snd m))) mm) known buf p)); [discriminate|].
      apply value_class_same. induction mm as [|[nm t] mm IHm]; cbn [map]; constructor; [|exact IHm]. split; [reflexivity|]. split; [reflexivity|]. apply IH.
    - apply (guarded_q (TTuple exact ts) (fun _ => parse_tuple g exact (map (parse_value_q g) ts))); [discriminate|].
      apply tuple_same. induction ts as [|t ts IHt]; cbn [map]; constructor; [apply IH|exact IHt].
    - apply (guarded_q (TKvArr exact kn tk vn tv) (fun _ => parse_value_keyvalue_array (parse_value_class g exact
           [mkmember kn (is_nullable tk) (parse_value_q g tk); mkmember vn (is_nullable tv) (parse_value_q g tv)]))); [discriminate|].
      apply kv_array_same. apply value_class_same. constructor; [|constructor; [|constructor]]; (split; [reflexivity|]; split; [reflexivity|]; apply IH).
    - apply (guarded_q (TCustom k) (fun known buf p => parse_value_custom g k known buf p)); [discriminate|]. apply custom_same.
    - apply (guarded_q (TVariant alts) (fun known buf p => parse_value_variant (map (fun t => (base_kind t, parse_value_q g t)) alts) known buf p)); [discriminate|].
      apply variant_same. induction alts as [|t alts IHt]; cbn [map]; constructor; [split; [reflexivity|apply IH]|exact IHt].
    - apply (guarded_q (TIntrusive exact tag t switch alts) (fun _ => parse_value_variant_intrusive
         (parse_value_class g exact [mkmember tag (is_nullable t) (parse_value_q g t)]) switch (map (parse_value_q g) alts))); [discriminate|].
      apply intrusive_same.
      + apply value_class_same. constructor; [|constructor]. split; [reflexivity|]. split; [reflexivity|]. apply IH.
      + clear t. induction alts as [|t alts IHt]; cbn [map]; constructor; [apply IH|exact IHt].
  Qed.
End Modes.

Section Cfg.
  Context (g : cfg).
  Hypothesis HX : c_ex g = ExConstexpr.
  Hypothesis HE : c_excl g = false.
  Context (nc : list (list N) -> list N -> Prop).
  Hypothesis HNC : forall names k, nc names k -> name_ok g k /\ tells g names k.

  Lemma reads_guard_q : forall t P v x, reads g P v x ->
    (v <> JNull -> forall buf r, N.of_nat (length buf) < 2^32 -> located g buf v r -> tidy_q t buf r = true) ->
    reads g (fun known buf p => if known && negb (tidy_q t buf p) then Err InvalidNumber else P known buf p) v x.
  Proof.
    intros t P v x [R1 R2] HT. split; [exact R1|]. intros NV buf r H32 HL. cbn [andb]. rewrite (HT NV buf r H32 HL). cbn [negb]. now apply R2.
  Qed.

  Lemma tidy_string_q : forall b buf r, N.of_nat (length buf) < 2^32 -> located g buf (JStr b) r -> tidy_q TStr buf r = true.
  Proof.
    intros b buf r H32 HL. cbn [tidy_q]. destruct (existsb (N.eqb 92) buf) eqn:EB; [reflexivity|]. cbn [orb].
    destruct (located_string g HX HE buf b r H32 HL) as (HS & _ & HC).
    assert (SB : str_body b). { destruct (located_range g HX HE _ _ _ H32 HL) as (p & tx & j & q & _ & HTx & _). inversion HTx; subst. assumption. }
    apply sub_at_app in HS as [HS _].
    assert (HP : Forall plain b). { eapply body_plain; eauto. intros I. assert (X : existsb (N.eqb 92) buf = true) by (apply existsb_exists; exists 92; auto). congruence. }
    apply negb_true_iff. apply fast. rewrite HC. unfold reported_escape. pose proof (escape_offset_plain b [] HP) as X. rewrite app_nil_r in X. now rewrite X.
  Qed.

  Theorem strict_reads_q : forall t v x, typed nc t v x -> reads g (parse_value_q g t) v x.
  Proof.
    fix IH 1. intros t v x H. destruct t as [w rc|w rc| | |t|t|t|exact mm|exact ts|exact kn tk vn tv|k|alts|exact tag t switch alts]; cbn [typed] in H; cbn [parse_value_q].
    - destruct H as (ds & -> & HC & W & LT & ->). apply (reads_guard_q (TUInt w rc) (fun known buf p => '(v, p) <- parse_value_unsigned known LSNever w rc buf p ;; Ok (VInt (Z.of_N v), p))).
      + exact (reads_unsigned g HX HE w rc ds W HC LT).
      + reflexivity.
    - destruct H as (tx & z & -> & HC & W & R & N & ->). apply (reads_guard_q (TInt w rc) (fun known buf p => '(v, p) <- parse_value_signed known LSNever w rc buf p ;; Ok (VInt v, p))).
      + exact (reads_signed g HX HE w rc tx z W HC R N).
      + reflexivity.
    - apply (reads_guard_q TBool (fun known buf p => parse_value_bool known buf p)); [|reflexivity].
      destruct H as [[-> ->]|[-> ->]]; apply (reads_bool g HX HE); auto.
    - apply (reads_guard_q TStr (fun known buf p => '(s, p) <- parse_value_string_escaped true known (c_ex g) true buf p ;; Ok (VStr s, p))); [|destruct H as (b & s & -> & D & ->); intros _ buf r H32 HL; now apply (tidy_string_q b)].
      destruct H as (b & s & -> & D & ->). now apply (reads_string g HX HE).
    - apply (reads_guard_q (TNullable t) (fun known buf p => parse_value_null (parse_value_q g t) known buf p)); [|reflexivity].
      destruct H as [[-> ->]|(NV & y & H & ->)]; [apply (any_null g)|apply (any_some g HX HE); auto].
    - destruct H as (es & xs & -> & -> & H). apply (reads_guard_q (TArr t) (fun _ => parse_value_array (parse_value_q g t))).
      + apply (any_array g HX HE). revert H. clear - IH HX HE HNC. induction 1; constructor; auto.
      + reflexivity.
    - destruct H as (ms & kxs & -> & -> & H). apply (reads_guard_q (TMap t) (fun _ => parse_value_keyvalue g (parse_value_q g t))).
      + apply (any_map g HX HE). revert H. clear - IH HX HE HNC. induction 1 as [|m kx ms kxs [D H] _ IHl]; constructor; auto. split; auto.
      + reflexivity.
    - destruct H as (js & xs & -> & -> & ND & NDJ & FN & EX & H).
      apply (reads_guard_q (TClass exact mm) (fun known buf p => parse_value_class g exact (map (fun m => mkmember (fst m) (is_nullable (snd m)) (parse_value_q g (snd m))) mm) known buf p));
        [|reflexivity].
      apply (any_class g HX HE exact).
      assert (EN : map m_name (map (fun m => mkmember (fst m) (is_nullable (snd m)) (parse_value_q g (snd m))) mm) = map fst mm)
        by (rewrite map_map; reflexivity).
      split; [now rewrite EN|]. rewrite EN. split; [exact NDJ|]. split; [|split].
      + revert FN. apply Forall_impl. intros k. apply HNC.
      + exact EX.
      + clear EX FN ND NDJ EN. revert xs H. induction mm as [|[nm t] mm IHm]; intros [|y xs] H; try contradiction; [constructor|].
        destruct H as [H1 H2]. cbn [map fst snd]. constructor; [|now apply IHm].
        unfold gets. cbn [m_name m_nullable m_parse]. rewrite <- lookup_assoc.
        destruct (lookup nm js) as [v'|]; [|exact H1]. split; [now apply IH|]. intros ->. eapply typed_null; eauto.
    - destruct H as (es & xs & es2 & -> & -> & EX & NA & H).
      apply (reads_guard_q (TTuple exact ts) (fun _ => parse_tuple g exact (map (parse_value_q g) ts)));
        [|reflexivity].
      assert (FL : length es = length xs /\ Forall2 (fun P vx => reads g P (fst vx) (snd vx)) (map (parse_value_q g) ts) (combine es xs)).
      { clear EX NA. revert es xs H. induction ts as [|t ts IHt]; intros [|e es] [|y xs] H; try contradiction; [split; constructor|].
        destruct H as [H1 H2]. destruct (IHt _ _ H2) as [L F]. cbn [length map combine]. split; [lia|]. constructor; [cbn [fst snd]; now apply IH|exact F]. }
      destruct FL as [L F]. apply (any_tuple g HX HE); auto.
    - destruct H as (es & xs & -> & -> & NK & NE & H).
      apply (reads_guard_q (TKvArr exact kn tk vn tv) (fun _ => parse_value_keyvalue_array (parse_value_class g exact
           [mkmember kn (is_nullable tk) (parse_value_q g tk); mkmember vn (is_nullable tv) (parse_value_q g tv)])));
        [|reflexivity].
      apply (any_kv g HX HE); auto. clear NE. revert H. clear - IH HX HE HNC NK.
      induction 1 as [|e y es xs (js & a & b & -> & -> & NR & FN & EX & HA & HB) _ IHl]; constructor; [|exact IHl].
      apply (any_class g HX HE). split; [now apply no_dup_2|]. split; [exact NR|]. split; [revert FN; apply Forall_impl; intros k; apply HNC|]. split; [exact EX|].
      constructor; [|constructor; [|constructor]]; unfold gets; cbn [m_name m_nullable m_parse]; rewrite <- lookup_assoc.
      + destruct (lookup kn js) as [v'|]; [|exact HA]. split; [now apply IH|]. intros ->. eapply typed_null; eauto.
      + destruct (lookup vn js) as [v'|]; [|exact HB]. split; [now apply IH|]. intros ->. eapply typed_null; eauto.
    - apply (reads_guard_q (TCustom k) (fun known buf p => parse_value_custom g k known buf p)); [|reflexivity].
      destruct H as (s & -> & H). destruct k.
      + destruct H as [-> H]. now apply (reads_custom_string g HX HE).
      + apply (reads_literal g HX HE); auto.
      + destruct H as [H|(b & -> & ->)]; [apply (reads_literal g HX HE); auto|now apply (reads_custom_any g HX HE)].
    - apply (reads_guard_q (TVariant alts) (fun known buf p => parse_value_variant (map (fun t => (base_kind t, parse_value_q g t)) alts) known buf p)); [|reflexivity].
      destruct H as (i & y & -> & H).
      assert (G : exists t, chosen v alts i t /\ reads g (parse_value_q g t) v y).
      { revert i H. induction alts as [|t alts IHa]; intros i H; [destruct i; contradiction|]. destruct i as [|i]; destruct H as [H1 H2].
        - exists t. split; [split; [exact H1|reflexivity]|now apply IH].
        - destruct (IHa i H2) as (t' & C & R). exists t'. split; [split; [exact H1|exact C]|exact R]. }
      destruct G as (t & C & R). eapply (any_variant g HX HE (parse_value_q g)); eauto.
    - destruct H as (js & y & z & -> & -> & NR & FN & EX & HY & HZ).
      apply (reads_guard_q (TIntrusive exact tag t switch alts) (fun _ => parse_value_variant_intrusive
         (parse_value_class g exact [mkmember tag (is_nullable t) (parse_value_q g t)]) switch (map (parse_value_q g) alts)));
        [|reflexivity].
      assert (G : exists P, nth_error (map (parse_value_q g) alts) (switch y) = Some P /\ reads g P (JObj js) z).
      { generalize (switch y) HZ. clear HZ HY. induction alts as [|t' alts IHa]; intros i H; [destruct i; contradiction|]. destruct i as [|i].
        - exists (parse_value_q g t'). split; [reflexivity|now apply IH].
        - cbn [map nth_error]. now apply IHa. }
      destruct G as (P & HP & RP). apply (any_intrusive g HX HE) with (P := P); auto.
      apply (any_class g HX HE). split; [apply no_dup_1|]. split; [exact NR|]. split; [revert FN; apply Forall_impl; intros k; apply HNC|]. split; [exact EX|].
      constructor; [|constructor]. unfold gets; cbn [m_name m_nullable m_parse]; rewrite <- lookup_assoc.
      destruct (lookup tag js) as [v'|]; [|exact HY]. split; [now apply IH|]. intros ->. eapply typed_null; eauto.
  Qed.


  (** ** Whole documents *)

  Lemma strict_leading_q : forall t buf p c, is_bytes buf -> trims t = true -> forall w, ws w -> sub_at buf (first p) (w ++ [c]) -> 32 < c ->
    (first p + length w < last p)%nat ->
    parse_value_q g t false buf p = parse_value_q g t false buf (set_first p (first p + length w)).
  Proof.
    intros t buf p c HB HT w W HS HC HL.
    assert (T1 : trim_left_checked buf p = Ok (set_first p (first p + length w))) by (apply (trim_to buf p w c); auto; lia).
    set (p' := set_first p (first p + length w)) in *.
    assert (T2 : trim_left_checked buf p' = Ok p').
    { apply sub_at_app in HS as [_ [HS _]]. now apply (trim_here buf p' c). }
    destruct t; try discriminate HT; cbn [parse_value_q andb].
    - unfold parse_value_array. now rewrite T1, T2.
    - unfold parse_value_class. unfold has_more. change (last p') with (last p). change (first p') with (first p + length w)%nat.
      replace (first p <? last p)%nat with true by lia. replace (first p + length w <? last p)%nat with true by lia. cbn [ensure bind].
      unfold parse_json_class. now rewrite T1, T2.
    - unfold parse_tuple. now rewrite T1, T2.
  Qed.


  Theorem from_json_mode_typed : forall ex verify t v x doc, is_bytes doc -> N.of_nat (length doc) < 2^32 -> ~ In 92 doc ->
    document t v doc -> typed nc t v x -> from_json (with_mode ex g) verify t doc = Ok x.
  Proof.
    intros ex verify t v x B HBB H32 NBS (w0 & tx & w & z & W0 & TR & HT & W & HZ & ES) HTy.
    replace (w0 ++ tx ++ w ++ z) with ((w0 ++ tx ++ w) ++ z) in * by (rewrite <- !app_assoc; reflexivity).
    destruct (jtext_head _ _ _ HT) as (c0 & r0 & ET & ST). destruct (jtext_last _ _ _ HT) as (rl & cl & EL & NL).
    destruct (ws_last rl cl w NL W) as (r' & c' & E' & N').
    set (l := length (w0 ++ tx ++ w)) in *.
    assert (LL : l = (length w0 + length tx + length w)%nat) by (unfold l; rewrite !app_length; lia).
    assert (LT : (0 < length tx)%nat) by (rewrite ET; cbn; lia).
    assert (LB : length B = (l + length z)%nat) by (rewrite ES, app_length; reflexivity).
    assert (LE : (l <= length B)%nat) by lia.
    assert (NL' : nth_error B (l - 1) = Some c').
    { assert (EW : w0 ++ tx ++ w = (w0 ++ r') ++ [c']) by (rewrite EL, E'; now rewrite app_assoc). rewrite ES. rewrite nth_error_app1 by (fold l; lia).
      assert (LW : l = S (length (w0 ++ r'))) by (unfold l; rewrite EW, (app_length (w0 ++ r')); cbn [length]; lia). rewrite EW, LW. replace (S (length (w0 ++ r')) - 1)%nat with (length (w0 ++ r')) by lia.
      rewrite nth_error_app2, Nat.sub_diag by lia. reflexivity. }
    assert (ZZ : exists d, nth_error B (length B - 1) = Some d /\ (if d =? 0 then (length B - 1)%nat else length B) = l).
    { destruct HZ as [->| ->]; cbn [length] in LB.
      - exists c'. replace (length B - 1)%nat with (l - 1)%nat by lia. split; [exact NL'|]. replace (c' =? 0) with false; [lia|]. symmetry. apply N.eqb_neq. lia.
      - exists 0. replace (length B - 1)%nat with l by lia. split; [|reflexivity]. rewrite ES, nth_error_app2 by (fold l; lia). fold l. rewrite Nat.sub_diag. reflexivity. }
    destruct ZZ as (d & Hd & EL').
    unfold from_json. replace (length B =? 0)%nat with false by lia. cbn [negb ensure bind]. rewrite (rd_some _ _ _ Hd). cbn [bind]. rewrite EL'. cbv zeta.
    assert (STX : sub_at B (length w0) tx).
    { rewrite ES. replace ((w0 ++ tx ++ w) ++ z) with (w0 ++ tx ++ (w ++ z)) by (rewrite <- !app_assoc; reflexivity). apply sub_at_mid. }
    set (p := set_first (new_ps 0 l) (length w0)).
    assert (WF : wf B p) by (apply wf_doc; auto; lia).
    assert (EP : parse_value_q g t false B (new_ps 0 l) = parse_value_q g t false B p).
    { destruct (trims t) eqn:TT.
      - apply (strict_leading_q t B (new_ps 0 l) c0 HBB TT w0 W0); cbn [first last new_ps].
        + rewrite ES, ET. rewrite <- app_assoc.
          replace (w0 ++ ((c0 :: r0) ++ w) ++ z) with ((w0 ++ [c0]) ++ (r0 ++ w) ++ z) by (rewrite <- !app_assoc; reflexivity). apply sub_at_0.
        + unfold starter in ST. lia.
        + lia.
      - unfold p. rewrite (TR eq_refl). reflexivity. }
    assert (HF : followed true B (first p + length tx) l (last p)).
    { exists w. split; [exact W|]. unfold p. cbn [first last set_first new_ps]. split; [|split; [lia|split; [lia|left; auto]]].
      rewrite ES. replace ((w0 ++ tx ++ w) ++ z) with ((w0 ++ tx) ++ w ++ z) by (rewrite <- !app_assoc; reflexivity).
      rewrite <- app_length. apply sub_at_mid. }
    destruct (proj1 (strict_reads_q t v x HTy) B p tx l WF H32 HT STX HF) as (q & EQ & MQ & LQ).
    assert (I0 : ins B (new_ps 0 l)) by (split; cbn; [exact LE|intros cl0 EC; injection EC as <-; exact LE]).
    rewrite EQ in EP. destruct (sim_value_q B ex HBB NBS H32 g HX HE t false (new_ps 0 l) x q I0 EP) as [-> _]. cbn [bind]. destruct verify; [|reflexivity].
    assert (LQl : last q = l) by (rewrite (proj1 MQ); reflexivity).
    assert (TQ : trim_left_checked B q = Ok (set_first q l)).
    { apply (trim_followed B q l HBB). rewrite LQl. change (last p) with l in HF. eapply followed_from; [exact HF|exact LQ]. }
    rewrite TQ. cbn [bind]. unfold ps_empty. cbn [isnull first last set_first]. rewrite LQl, Nat.leb_refl, orb_true_r. reflexivity.
  Qed.
End Cfg.

(** ** Types without strings: every document *)
Fixpoint no_strings (t : ty) : bool :=
  match t with
  | TStr => false
  | TUInt _ _ | TInt _ _ | TBool | TCustom _ => true
  | TNullable t | TArr t | TMap t => no_strings t
  | TClass _ mm => forallb (fun m => no_strings (snd m)) mm
  | TTuple _ ts | TVariant ts => forallb no_strings ts
  | TKvArr _ _ tk _ tv => no_strings tk && no_strings tv
  | TIntrusive _ _ t _ ts => no_strings t && forallb no_strings ts
  end.

Section Any.
  Context (buf : list N) (ex : exec_mode) (g : cfg).
  Hypothesis HB : is_bytes buf.
  Hypothesis NB : ~ In 92 buf.
  Hypothesis H32 : N.of_nat (length buf) < 2^32.
  Hypothesis HX : c_ex g = ExConstexpr.
  Hypothesis HE : c_excl g = false.
  Local Notation psim := (psim buf).

  Lemma sim_value_any : forall t, no_strings t = true -> psim (parse_value g t) (parse_value (with_mode ex g) t).
  Proof.
    fix IH 1. intros t. destruct t as [w rc|w rc| | |t|t|t|exact mm|exact ts|exact kn tk vn tv|k|alts|exact tag t switch alts]; cbn [no_strings parse_value]; intros NS.
    - intros known p v q HI E. split; [exact E|]. step E. destruct a. step E. eapply unsigned_keeps; eauto.
    - intros known p v q HI E. split; [exact E|]. step E. destruct a. step E. eapply signed_keeps; eauto.
    - intros known p v q HI E. split; [exact E|]. eapply bool_keeps; eauto.
    - discriminate.
    - apply null_same; auto.
    - apply array_same; auto.
    - apply map_same; auto.
    - apply value_class_same; auto. induction mm as [|[nm t] mm IHm]; cbn [map forallb snd] in *; constructor; apply andb_true_iff in NS as [NS1 NS2]; auto. split; [reflexivity|]. split; [reflexivity|]. now apply IH.
    - apply tuple_same; auto. induction ts as [|t ts IHt]; cbn [map forallb] in *; constructor; apply andb_true_iff in NS as [NS1 NS2]; auto.
    - apply andb_true_iff in NS as [NS1 NS2]. apply kv_array_same; auto. apply value_class_same; auto. constructor; [|constructor; [|constructor]]; (split; [reflexivity|]; split; [reflexivity|]; now apply IH).
    - apply custom_same; auto.
    - apply variant_same; auto. induction alts as [|t alts IHt]; cbn [map forallb] in *; constructor; apply andb_true_iff in NS as [NS1 NS2]; auto. split; [reflexivity|now apply IH].
    - apply andb_true_iff in NS as [NS1 NS2]. apply intrusive_same; auto.
      + apply value_class_same; auto. constructor; [|constructor]. split; [reflexivity|]. split; [reflexivity|]. now apply IH.
      + clear t NS1. induction alts as [|t alts IHt]; cbn [map forallb] in *; constructor; apply andb_true_iff in NS2 as [NS1 NS2]; auto.
  Qed.

  Theorem from_json_mode_any : forall verify t x, no_strings t = true -> from_json g verify t buf = Ok x -> from_json (with_mode ex g) verify t buf = Ok x.
  Proof.
    intros verify t x NS E. unfold from_json in *. step E. cbn [bind]. step E. cbn [bind]. step E. destruct a1 as [v p].
    apply sim_value_any in H1 as [-> _]; [cbn [bind]; exact E|exact NS|].
    apply rd_lt in H0. split; cbn [last clast new_ps]; [destruct (a0 =? 0); lia|]. intros cl EC. injection EC as <-. destruct (a0 =? 0); lia.
  Qed.
End Any.
