(** Whatever the typed parsers accept is a text of the grammar of SpecLax, and the
    value is the one the grammar gives. *)
From Coq Require Import List NArith ZArith Bool Lia Arith ZifyBool ZifyNat ZifyN.
From Verif Require Import Base PolicyModel Loop Mem IntModel IntValueProofs IntSerProofs StrScanModel StrScanProofs StrDecodeModel
  SpecNum SpecText SpecJson SpecUnicode SpecLax SkipSafe ScalarProofs KindProofs ValueModel NameProofs TypedProofs TypedSafe PropertiesStr.
Import ListNotations.
Local Open Scope N_scope.

Ltac peel E := match type of E with
  | bind ?x _ = Ok _ => let H := fresh "P" in destruct x eqn:H; cbn [bind] in E; try discriminate
  end.

Ltac flats H := repeat (rewrite <- ?app_assoc in H; cbn [app] in H); repeat (rewrite <- ?app_assoc; cbn [app]).

Section Accepts.
  Variable buf : list N.
  Variable L : nat.
  Hypothesis HYP : is_bytes buf /\ (L <= length buf)%nat /\ (nth_error buf L = None \/ nth_error buf L = Some 0) /\ N.of_nat (length buf) < 2^32.
  Set Default Proof Using "HYP".

  Definition sound (p : ps) : Prop := isnull p = false /\ last p = L /\ clast p = Some L /\ (first p <= L)%nat.

  Definition took (p : ps) (tx : list N) (q : ps) : Prop :=
    sub_at buf (first p) tx /\ first q = (first p + length tx)%nat /\ sound q.

  Lemma took_app : forall p a q b r, took p a q -> took q b r -> took p (a ++ b) r.
  Proof.
    intros p a q b r (A1 & A2 & A3) (B1 & B2 & B3). split; [apply sub_at_app; split; [exact A1|rewrite <- A2; exact B1]|].
    split; [rewrite app_length; lia|exact B3].
  Qed.

  (** What is left at a position *)
  Definition left (q : ps) : list N := skipn (first q) (firstn L buf).

  Lemma took_left : forall p tx q, took p tx q -> left p = tx ++ left q.
  Proof.
    intros p tx q (T1 & T2 & T3 & T4 & T5 & T6). unfold left. rewrite T2 in *. clear - T1 T6. revert T1 T6. generalize (first p) as i.
    induction tx as [|c tx IH]; intros i T1 T6; cbn [length app] in *; [now rewrite Nat.add_0_r|]. destruct T1 as [T1 T2].
    replace (i + S (length tx))%nat with (S i + length tx)%nat in * by lia. rewrite <- IH by (auto; lia).
    assert (H : nth_error (firstn L buf) i = Some c).
    { assert (i < L)%nat as LT by lia. clear - T1 LT. revert i buf T1 LT. induction L as [|l IHl]; intros i b T1 LT; [lia|]. destruct b as [|x b]; [destruct i; discriminate|].
      destruct i as [|i]; [exact T1|]. cbn. apply IHl; [exact T1|lia]. }
    clear - H. revert i H. generalize (firstn L buf) as l. induction l as [|x l IH]; intros [|i] H; try discriminate; [injection H as ->; reflexivity|]. apply IH. exact H.
  Qed.

  Lemma left_ends : forall q, sound q -> item_ends buf (first q) L -> ends_value (left q).
  Proof.
    intros q (S1 & S2 & S3 & S4) [E|(LT & b & Hb & E)]; destruct HYP as (_ & HL & _).
    - unfold left. rewrite skipn_all2; [exact I|]. rewrite firstn_length. lia.
    - assert (T : took q [b] (set_first q (S (first q)))).
      { split; [split; [exact Hb|exact I]|]. split; [cbn; lia|]. split; [exact S1|]. split; [exact S2|]. split; [exact S3|]. cbn. lia. }
      rewrite (took_left _ _ _ T). cbn [app ends_value]. unfold ends_item in E. cbn [In] in E |- *. lia.
  Qed.

  Lemma took_nil : forall p, sound p -> took p [] p.
  Proof. intros p H. split; [exact I|]. split; [cbn; lia|exact H]. Qed.

  Lemma blanks_app : forall a b, blanks a -> blanks b -> blanks (a ++ b).
  Proof. intros. apply Forall_app. auto. Qed.

  Lemma byte_took : forall p c, sound p -> nth_error buf (first p) = Some c -> (first p < L)%nat -> took p [c] (remove_prefix p 1).
  Proof.
    intros p c (S1 & S2 & S3 & S4) H HL. split; [split; [exact H|exact I]|]. split; [reflexivity|].
    split; [exact S1|]. split; [exact S2|]. split; [exact S3|]. cbn. lia.
  Qed.

  Lemma trim_took : forall p q, sound p -> trim_left_checked buf p = Ok q -> exists w, blanks w /\ took p w q.
  Proof.
    intros p q (S1 & S2 & S3 & S4) E. destruct HYP as (HB & _). unfold trim_left_checked in E. peel E. injection E as <-.
    apply trim_loop_spec in P as (w & W1 & W2 & -> & W3); [|exact HB|lia]. exists w. split; [exact W1|].
    split; [exact W2|]. split; [reflexivity|]. split; [exact S1|]. split; [exact S2|]. split; [exact S3|]. cbn. lia.
  Qed.

  Lemma at_took : forall p c, sound p -> is_at buf p c = Ok true -> nth_error buf (first p) = Some c /\ took p [c] (remove_prefix p 1).
  Proof.
    intros p c H E. pose proof H as (S1 & S2 & S3 & S4). unfold is_at, has_more in E.
    destruct (Nat.ltb_spec (first p) (last p)); [|discriminate]. unfold front in E. peel E. injection E as E. apply N.eqb_eq in E. subst.
    apply rd_ok_nth in P. split; [exact P|]. apply byte_took; auto. lia.
  Qed.

  Lemma blanks_stop : forall p w q c, took p w q -> blanks w -> nth_error buf (first p) = Some c -> 32 < c -> w = [].
  Proof.
    intros p w q c (T & _) W H HC. destruct w as [|b w]; [reflexivity|]. exfalso. destruct T as [T _]. rewrite T in H. injection H as ->.
    apply Forall_inv in W. lia.
  Qed.

  Lemma next_took : forall p q, sound p -> move_next buf p = Ok q ->
    exists w c w2, blanks w /\ (c = [] \/ c = [44]) /\ blanks w2 /\ took p (w ++ c ++ w2) q /\
      (c = [] -> w2 = [] /\ nth_error buf (first p + length w) <> Some 44 \/ (L <= first p + length w)%nat).
  Proof.
    intros p q H E. unfold move_next, move_next_member_or_end, move_next_member_or_end_checked in E. peel E.
    destruct (trim_took _ _ H P) as (w & W & T). peel E. pose proof T as (T1 & T2 & T3). pose proof T3 as (_ & S2 & _ & S4).
    match goal with b : bool |- _ => destruct b end.
    - destruct (at_took _ _ T3 P0) as (_ & TC). destruct (trim_took _ _ (proj2 (proj2 TC)) E) as (w2 & W2 & T4).
      exists w, [44], w2. split; [exact W|]. split; [now right|]. split; [exact W2|]. split; [|discriminate].
      eapply took_app; [exact T|]. eapply took_app; [exact TC|exact T4].
    - injection E as <-. exists w, [], []. split; [exact W|]. split; [now left|]. split; [constructor|].
      split; [rewrite !app_nil_r; exact T|]. intros _. rewrite <- T2. unfold is_at, has_more in P0.
      destruct (Nat.ltb_spec (first a) (last a)); [|right; lia]. left. split; [reflexivity|]. unfold front in P0. peel P0. apply rd_ok_nth in P1.
      intros C. assert (a0 = 44) by congruence. subst. discriminate.
  Qed.

  Lemma next_sep : forall p q, sound p -> move_next buf p = Ok q -> exists s, sep s (left q) /\ took p s q.
  Proof.
    intros p q H E. destruct (next_took _ _ H E) as (w & c & w2 & W & HC & W2 & T & NC). exists (w ++ c ++ w2). split; [|exact T].
    destruct HC as [->| ->]; [|right; exists w, w2; auto]. left. cbn [app] in *. split; [now apply blanks_app|].
    pose proof T as (_ & T2 & _ & _ & _ & T4). unfold left. destruct (NC eq_refl) as [(-> & NC')|NC'].
    - rewrite app_nil_r in T2. rewrite <- T2 in NC'. destruct (Nat.eq_dec (first q) L) as [EL|NL]; [rewrite skipn_all2; [exact I|rewrite firstn_length; lia]|].
      destruct HYP as (_ & HL & _). destruct (nth_error buf (first q)) as [d|] eqn:D; [|apply nth_error_None in D; lia].
      assert (TD : took q [d] (set_first q (S (first q)))).
      { split; [split; [exact D|exact I]|]. split; [cbn; lia|]. destruct T as (_ & _ & S1 & S2 & S3 & S4). split; [exact S1|]. split; [exact S2|]. split; [exact S3|]. cbn. lia. }
      apply took_left in TD. unfold left in TD. rewrite TD. cbn [app not_at]. congruence.
    - rewrite app_length in T2. rewrite skipn_all2; [exact I|]. rewrite firstn_length. lia.
  Qed.

  Lemma untrim_spec : forall f i j, (i <= L)%nat -> trim_loop_unchecked f buf i = Ok j ->
    exists w, blanks w /\ sub_at buf i w /\ j = (i + length w)%nat /\ (j <= L)%nat.
  Proof.
    destruct HYP as (HB & HL & HZ & _). induction f as [|f IH]; intros i j Hi E; cbn [trim_loop_unchecked] in E; [discriminate|].
    peel E. apply rd_ok_nth in P. destruct (is_space a) eqn:S.
    - rewrite is_space_spec in S by (eapply is_bytes_nth; eauto).
      assert (i <> L) by (intros ->; destruct HZ as [Z|Z]; rewrite Z in P; [discriminate|injection P as <-; lia]).
      apply IH in E as (w & W1 & W2 & -> & W3); [|lia]. exists (a :: w). split; [constructor; [lia|exact W1]|].
      split; [split; [exact P|exact W2]|]. cbn [length]. split; lia.
    - injection E as <-. exists []. split; [constructor|]. split; [exact I|]. cbn [length]. split; lia.
  Qed.

  Lemma untrim_took : forall p q, sound p -> trim_left_unchecked buf p = Ok q -> exists w, blanks w /\ took p w q.
  Proof.
    intros p q (S1 & S2 & S3 & S4) E. unfold trim_left_unchecked in E. peel E. injection E as <-.
    apply untrim_spec in P as (w & W1 & W2 & -> & W3); [|exact S4]. exists w. split; [exact W1|].
    split; [exact W2|]. split; [reflexivity|]. split; [exact S1|]. split; [exact S2|]. split; [exact S3|]. exact W3.
  Qed.

  (** A byte other than zero that was read is inside the document *)
  Lemma front_took : forall p c, sound p -> front buf p = Ok c -> c <> 0 -> nth_error buf (first p) = Some c /\ took p [c] (remove_prefix p 1).
  Proof.
    intros p c H E NZ. pose proof H as (S1 & S2 & S3 & S4). apply rd_ok_nth in E. split; [exact E|]. apply byte_took; auto.
    destruct HYP as (_ & _ & HZ & _). assert (first p <> L); [|lia].
    intros EL. rewrite EL in E. destruct HZ as [Z|Z]; rewrite Z in E; [discriminate|congruence].
  Qed.

  Lemma eq_bytes_sub : forall t i, eq_bytes buf i t = Ok true -> sub_at buf i t.
  Proof.
    induction t as [|c t IH]; intros i E; cbn [eq_bytes] in E; [exact I|]. peel E. peel E. injection E as E. apply andb_true_iff in E as [E1 E2].
    apply N.eqb_eq in E1. subst. apply rd_ok_nth in P. split; [exact P|apply IH; exact P0].
  Qed.

  Lemma with_took : forall p t, sound p -> starts_with buf p t = Ok true -> took p t (remove_prefix p (length t)).
  Proof.
    intros p t (S1 & S2 & S3 & S4) E. unfold starts_with, ps_size in E. destruct (Nat.ltb_spec (last p - first p) (length t)); [discriminate|].
    split; [now apply eq_bytes_sub|]. split; [reflexivity|]. split; [exact S1|]. split; [exact S2|]. split; [exact S3|]. cbn. lia.
  Qed.

  Lemma left_sub : forall p t u, sound p -> left p = t ++ u -> sub_at buf (first p) t /\ (first p + length t <= L)%nat.
  Proof.
    intros p t u (_ & _ & _ & S4). unfold left. destruct HYP as (_ & HL & _). revert S4. generalize (first p) as i.
    induction t as [|c t IH]; intros i Hi E; cbn [app length] in *; [split; [exact I|lia]|].
    assert (HC : nth_error (firstn L buf) i = Some c /\ skipn (S i) (firstn L buf) = t ++ u).
    { clear - E. revert i E. generalize (firstn L buf) as l. induction l as [|x l IHl]; intros [|i] E; cbn [skipn] in E; try discriminate; [injection E as -> ->; auto|].
      cbn [nth_error skipn]. apply IHl. exact E. }
    destruct HC as (HC & ET). assert (i < length (firstn L buf))%nat as LT by (apply nth_error_Some; congruence). rewrite firstn_length in LT.
    destruct (IH (S i)) as (IS & IL); [lia|exact ET|]. split; [|lia]. split; [|exact IS].
    rewrite <- HC. assert (i < L)%nat as LT' by lia. clear - LT'. revert i buf LT'. induction L as [|l IHl]; intros i b LT'; [lia|]. destruct b as [|x b]; [destruct i; reflexivity|].
    destruct i as [|i]; [reflexivity|]. cbn. apply IHl. lia.
  Qed.

  Lemma starts_no : forall p t u, sound p -> starts_with buf p t = Ok false -> left p <> t ++ u.
  Proof.
    intros p t u H E EL. destruct (left_sub _ _ _ H EL) as (HS & LE). destruct H as (_ & S2 & _ & S4).
    rewrite starts_with_yes in E; [discriminate|exact HS|lia].
  Qed.

  Lemma some_left : forall p, sound p -> (if has_more p then c <- front buf p ;; Ok (is_token_after_value c) else Ok true) = Ok false -> ~ ends_nothing (left p).
  Proof.
    intros p H E. pose proof H as (_ & S2 & _ & S4). unfold has_more in E. destruct (Nat.ltb_spec (first p) (last p)); [|discriminate].
    peel E. injection E as E. apply rd_ok_nth in P. assert (T : took p [a] (remove_prefix p 1)) by (apply byte_took; auto; lia).
    rewrite (took_left _ _ _ T). cbn [app ends_nothing In]. unfold is_token_after_value, c_comma, c_rbrace, c_rbrack in E. lia.
  Qed.

  Lemma string_took : forall p s q, sound p -> parse_value_string_escaped true false ExConstexpr true buf p = Ok (s, q) ->
    exists b, str_body b /\ stands b s /\ took p (34 :: b ++ [34]) q.
  Proof.
    intros p s q H E. pose proof H as (S1 & S2 & S3 & S4). pose proof HYP as (HB & HL & _ & H32). pose proof E as E0.
    unfold parse_value_string_escaped in E. peel E. destruct (negb (ps_empty p)) eqn:NE; [|discriminate].
    assert (NE' : ps_empty p = false) by (destruct (ps_empty p); [discriminate|reflexivity]).
    assert (LT : (first p < L)%nat) by (unfold ps_empty in NE'; rewrite S1 in NE'; cbn in NE'; lia).
    peel E. destruct a0 as [r q']. assert (EQ : q' = q).
    { destruct (negb true || needs_slow_path r); [peel E|destruct (last r <=? length buf)%nat; [|discriminate]]; congruence. }
    subst q'. unfold skip_string in P0. rewrite NE' in P0. peel P0. apply rd_ok_nth in P1. destruct (a0 =? c_quote) eqn:Q; cbn [ensure bind] in P0; [|discriminate].
    apply N.eqb_eq in Q. subst a0. peel P0. peel P0. destruct a1 as [r1 q1]. injection P0 as _ <-.
    unfold skip_string_nq in P3. peel P3. destruct a1 as [n p']. peel P3. injection P3 as _ <-.
    assert (HI : in_string buf (remove_prefix p 1) L).
    { unfold in_string, remove_prefix. cbn [first last clast set_first]. replace (first p + 1 - 1)%nat with (first p) by lia.
      repeat split; auto; lia. }
    destruct (C15_success_is_string ExConstexpr false buf (remove_prefix p 1) L n p' (or_introl eq_refl) HI) as (b & B1 & B2 & B3 & ->); [cbn; lia|assumption|].
    cbn [first remove_prefix set_first] in B2, B3.
    assert (HS : sub_at buf (first p) (34 :: b ++ [34])) by (split; [exact P1|replace (S (first p)) with (first p + 1)%nat by lia; exact B2]).
    exists b. split; [exact B1|]. split.
    - intros s' D. assert (W : wf buf p) by (split; [exact HB|]; split; [exact S1|]; split; [lia|]; exists L; split; [exact S3|lia]).
      rewrite (string_here buf p b s' W H32 HS) in E0; [congruence|lia|exact D].
    - split; [exact HS|]. cbn [first remove_prefix set_first length]. rewrite app_length. cbn [length]. split; [lia|].
      split; [exact S1|]. split; [exact S2|]. split; [exact S3|]. cbn. lia.
  Qed.

  Lemma lax_pad : forall t x w1 tx w2 r, skips_blanks t = true -> blanks w1 -> lax t x tx (w2 ++ r) -> blanks w2 -> lax t x (w1 ++ tx ++ w2) r.
  Proof. intros. apply lx_front; auto. now apply lx_behind. Qed.

  Definition reads_lax (f : parser) (t : ty) : Prop := forall p x q, sound p -> f false buf p = Ok (x, q) ->
    exists tx, lax t x tx (left q) /\ took p tx q.

  Lemma not_front : forall p a c, sound p -> front buf p = Ok a -> (a =? c) = false -> not_at c (left p).
  Proof.
    intros p a c S E NE. apply N.eqb_neq in NE. apply rd_ok_nth in E. pose proof S as (_ & _ & _ & S4). destruct (Nat.eq_dec (first p) L) as [EL|NL].
    - unfold left. rewrite skipn_all2; [exact I|]. rewrite firstn_length. lia.
    - assert (T : took p [a] (remove_prefix p 1)) by (apply byte_took; auto; lia). rewrite (took_left _ _ _ T). exact NE.
  Qed.

  Lemma array_lax : forall f t, reads_lax f t -> forall n p vs q vs', sound p -> loop (array_body f buf) n (p, vs) = Ok (q, vs') ->
    exists xs tx w, vs' = vs ++ xs /\ lelems t xs tx (93 :: w ++ left q) /\ blanks w /\ took p (tx ++ 93 :: w) q.
  Proof.
    intros f t HF. induction n as [|n IH]; intros p vs q vs' H E; cbn [loop] in E; [discriminate|].
    peel E. unfold array_body in P. peel P. peel P. destruct a1 as [v p1]. destruct (HF _ _ _ H P1) as (tx & LX & T1).
    peel P. destruct (trim_took _ _ (proj2 (proj2 T1)) P2) as (w & W & T2). peel P. destruct a2; cbn [ensure bind] in P; [|discriminate].
    peel P. destruct (next_took _ _ (proj2 (proj2 T2)) P4) as (w1 & c & w2 & W1 & HC & W2 & T3 & NC).
    peel P. peel P. pose proof (proj2 (proj2 T3)) as S3.
    (* what follows the value *)
    assert (CH : exists c0, nth_error buf (first a1) = Some c0 /\ (c0 = 44 \/ c0 = 93)).
    { destruct (has_more a1); [|discriminate]. peel P3. injection P3 as P3. apply rd_ok_nth in P7. exists a5. split; [exact P7|].
      apply orb_true_iff in P3 as [X|X]; apply N.eqb_eq in X; [now left|now right]. }
    destruct CH as (c0 & C0 & CC).
    assert (w1 = []).
    { destruct T3 as (T3 & _). apply sub_at_app in T3 as [T3 _]. destruct w1 as [|b w1]; [reflexivity|]. exfalso. destruct T3 as [T3 _].
      rewrite T3 in C0. injection C0 as ->. apply Forall_inv in W1. destruct CC; lia. }
    subst w1. cbn [app] in T3. cbn [length] in NC. rewrite Nat.add_0_r in NC.
    rewrite (took_left _ _ _ T2), (took_left _ _ _ T3) in LX.
    destruct (a4 =? c_rbrack) eqn:EB.
    - apply N.eqb_eq in EB. subst a4. unfold end_of_array in P. peel P. injection P as <-. cbn [bind] in E. injection E as <- <-.
      destruct (front_took _ _ S3 P6) as (_ & T4); [discriminate|]. destruct (trim_took _ _ (proj2 (proj2 T4)) P7) as (w3 & W3 & T5).
      rewrite (took_left _ _ _ T4), (took_left _ _ _ T5) in LX.
      destruct HC as [->| ->].
      + exists [v], (tx ++ w), w3. split; [reflexivity|]. assert (w2 = []).
        { destruct (NC eq_refl) as [(-> & _)|NC']; [reflexivity|]. exfalso. pose proof (proj2 (proj2 T2)) as (_ & _ & _ & X).
          assert (first a1 = L) by lia. rewrite H0 in C0. destruct HYP as (_ & _ & [Z|Z] & _); rewrite Z in C0; [discriminate|]. injection C0 as <-. destruct CC; discriminate. }
        subst w2. split; [apply le_last; apply lx_behind; [exact LX|exact W]|]. split; [exact W3|].
        rewrite <- app_assoc. eapply took_app; [exact T1|]. eapply took_app; [exact T2|].
        replace (93 :: w3) with ([] ++ [93] ++ w3) by reflexivity. eapply took_app; [exact T3|]. eapply took_app; [exact T4|exact T5].
      + exists [v], ((tx ++ w) ++ 44 :: w2), w3. split; [reflexivity|]. split; [apply le_trailing; [|exact W2]; apply lx_behind; [|exact W]; flats LX; exact LX|]. split; [exact W3|].
        replace (((tx ++ w) ++ 44 :: w2) ++ 93 :: w3) with (tx ++ w ++ ([44] ++ w2) ++ [93] ++ w3) by (cbn [app]; rewrite <- !app_assoc; reflexivity).
        eapply took_app; [exact T1|]. eapply took_app; [exact T2|]. eapply took_app; [exact T3|]. eapply took_app; [exact T4|exact T5].
    - injection P as <-. cbn [bind] in E. destruct (IH _ _ _ _ S3 E) as (xs & r & w3 & -> & LE & W3 & T4).
      destruct HC as [->| ->].
      + exfalso. destruct (NC eq_refl) as [(-> & NC')|NC'].
        * destruct CC as [->| ->]; [congruence|]. destruct T3 as (_ & T3 & _). cbn [app length] in T3. rewrite Nat.add_0_r in T3.
          unfold front in P6. apply rd_ok_nth in P6. rewrite T3 in P6. assert (a4 = 93) by congruence. subst. discriminate.
        * pose proof (proj2 (proj2 T2)) as (_ & _ & _ & X). assert (EL : first a1 = L) by lia. rewrite EL in C0.
          destruct HYP as (_ & _ & [Z|Z] & _); rewrite Z in C0; [discriminate|]. injection C0 as <-. destruct CC; discriminate.
      + assert (NF : not_at 93 (r ++ 93 :: w3 ++ left q)).
        { replace (r ++ 93 :: w3 ++ left q) with (left a2) by (rewrite (took_left _ _ _ T4), <- app_assoc; reflexivity). now apply (not_front _ a4). }
        exists (v :: xs), ((tx ++ w) ++ 44 :: w2 ++ r), w3. split; [now rewrite <- app_assoc|].
        split; [apply le_cons; [|exact W2|exact LE|exact NF]; apply lx_behind; [|exact W]; rewrite (took_left _ _ _ T4) in LX; flats LX; exact LX|]. split; [exact W3|].
        replace (((tx ++ w) ++ 44 :: w2 ++ r) ++ 93 :: w3) with (tx ++ w ++ ([44] ++ w2) ++ r ++ 93 :: w3) by (cbn [app]; repeat (rewrite <- ?app_assoc; cbn [app]); reflexivity).
        eapply took_app; [exact T1|]. eapply took_app; [exact T2|]. eapply took_app; [exact T3|exact T4].
  Qed.

  Lemma map_lax : forall g f t, c_ex g = ExConstexpr -> reads_lax f t -> forall n p vs q vs', sound p -> loop (map_body g f buf) n (p, vs) = Ok (q, vs') ->
    exists xs tx w, vs' = vs ++ xs /\ lpairs t xs tx (125 :: w ++ left q) /\ blanks w /\ took p (tx ++ 125 :: w) q.
  Proof.
    intros g f t HG HF. induction n as [|n IH]; intros p vs q vs' H E; cbn [loop] in E; [discriminate|].
    peel E. unfold map_body in P. rewrite HG in P. peel P. peel P. destruct a1 as [k p1]. destruct (string_took _ _ _ H P1) as (b & B1 & B2 & T1).
    peel P. unfold trim_end_of_name in P2. peel P2. destruct (trim_took _ _ (proj2 (proj2 T1)) P3) as (w1 & W1 & T2).
    peel P2. peel P2. destruct (a4 =? c_colon) eqn:EC; cbn [ensure bind] in P2; [|discriminate]. apply N.eqb_eq in EC. subst a4.
    destruct (front_took _ _ (proj2 (proj2 T2)) P5) as (_ & T3); [discriminate|].
    destruct (trim_took _ _ (proj2 (proj2 T3)) P2) as (w2 & W2 & T4).
    peel P. destruct a4 as [v p2]. destruct (HF _ _ _ (proj2 (proj2 T4)) P6) as (tx & LX & T5).
    peel P. destruct (next_sep _ _ (proj2 (proj2 T5)) P7) as (s & HS & T6).
    peel P. peel P. pose proof (proj2 (proj2 T6)) as S6. rewrite (took_left _ _ _ T6) in LX.
    destruct (a6 =? c_rbrace) eqn:EB.
    - apply N.eqb_eq in EB. subst a6. peel P. injection P as <-. injection E as <- <-.
      destruct (front_took _ _ S6 P9) as (_ & T7); [discriminate|]. destruct (trim_took _ _ (proj2 (proj2 T7)) P10) as (w5 & W5 & T8).
      exists [(k, v)], ((34 :: b ++ [34]) ++ w1 ++ 58 :: w2 ++ tx ++ s), w5. split; [reflexivity|].
      rewrite (took_left _ _ _ T7), (took_left _ _ _ T8) in LX, HS.
      split; [apply lp_one; auto|]. split; [exact W5|].
      replace (((34 :: b ++ [34]) ++ w1 ++ 58 :: w2 ++ tx ++ s) ++ 125 :: w5)
        with ((34 :: b ++ [34]) ++ w1 ++ [58] ++ w2 ++ tx ++ s ++ [125] ++ w5) by (repeat (rewrite <- ?app_assoc; cbn [app]); reflexivity).
      eapply took_app; [exact T1|]. eapply took_app; [exact T2|]. eapply took_app; [exact T3|]. eapply took_app; [exact T4|].
      eapply took_app; [exact T5|]. eapply took_app; [exact T6|]. eapply took_app; [exact T7|exact T8].
    - injection P as <-. destruct (IH _ _ _ _ S6 E) as (xs & r & w5 & -> & LE & W5 & T7).
      exists ((k, v) :: xs), ((34 :: b ++ [34]) ++ w1 ++ 58 :: w2 ++ tx ++ s ++ r), w5. split; [now rewrite <- app_assoc|].
      rewrite (took_left _ _ _ T7), <- app_assoc in LX, HS. cbn [app] in LX, HS.
      split; [apply lp_cons; auto|]. split; [exact W5|].
      replace (((34 :: b ++ [34]) ++ w1 ++ 58 :: w2 ++ tx ++ s ++ r) ++ 125 :: w5)
        with ((34 :: b ++ [34]) ++ w1 ++ [58] ++ w2 ++ tx ++ s ++ r ++ 125 :: w5) by (repeat (rewrite <- ?app_assoc; cbn [app]); reflexivity).
      eapply took_app; [exact T1|]. eapply took_app; [exact T2|]. eapply took_app; [exact T3|]. eapply took_app; [exact T4|].
      eapply took_app; [exact T5|]. eapply took_app; [exact T6|exact T7].
  Qed.

  Lemma elements_lax : forall g ts, Forall (fun t => reads_lax (parse_value g t) t) ts -> forall p vs q, sound p ->
    parse_elements (map (parse_value g) ts) buf p = Ok (vs, q) -> exists tx, ltuple ts vs tx (left q) /\ took p tx q.
  Proof.
    intros g. induction ts as [|t ts IH]; intros F p vs q H E; cbn [map parse_elements] in E.
    - injection E as <- <-. exists []. split; [constructor|now apply took_nil].
    - peel E. peel E. destruct a0 as [v p1]. destruct (Forall_inv F _ _ _ H P0) as (tx & LX & T1).
      peel E. destruct (next_sep _ _ (proj2 (proj2 T1)) P1) as (s & HS & T2).
      peel E. destruct a1 as [vs1 p2]. injection E as <- <-.
      destruct (IH (Forall_inv_tail F) _ _ _ (proj2 (proj2 T2)) P2) as (r & LR & T3).
      rewrite (took_left _ _ _ T2), (took_left _ _ _ T3) in LX. rewrite (took_left _ _ _ T3) in HS.
      exists (tx ++ s ++ r). split; [now apply lt_cons|]. eapply took_app; [exact T1|]. eapply took_app; [exact T2|exact T3].
  Qed.

  Lemma took_class : forall p tx q a b, took p tx q -> b = Some L -> took p tx (set_class q a b).
  Proof. intros p tx q a b (T1 & T2 & T3 & T4 & T5 & T6) ->. split; [exact T1|]. split; [exact T2|]. split; [exact T3|]. split; [exact T4|]. split; [reflexivity|exact T6]. Qed.

  Lemma value_lax : forall g, c_ex g = ExConstexpr -> forall t, lax_type t = true -> reads_lax (parse_value g t) t.
  Proof.
    intros g HG. pose proof HYP as (HB & HL & _ & H32).
    induction t as [w rc|w rc| | |t IH|t IH|t IH|e ms IH|e ts IH|e kn tk vn tv IH1 IH2|k|ts IH|e tag t sw ts IH1 IH2] using ty_nested; intros HT p x q H E; cbn [lax_type] in HT; try discriminate;
      cbn [parse_value] in E; pose proof H as (S1 & S2 & S3 & S4).
    - peel E. destruct a as [v p1]. injection E as <- <-.
      apply unsigned_accepts in P as (ds & D & NE & HS & -> & LE & IE & ->); [|exact HB|lia].
      assert (SD : sound (set_first p (first p + length ds))) by (split; [exact S1|]; split; [exact S2|]; split; [exact S3|]; cbn; lia).
      exists ds. split; [constructor; auto; apply left_ends; [exact SD|cbn; rewrite <- S2; exact IE]|]. split; [exact HS|]. split; [reflexivity|]. split; [exact S1|]. split; [exact S2|]. split; [exact S3|]. cbn. lia.
    - peel E. destruct a as [v p1]. injection E as <- <-.
      apply signed_accepts_value in P as (neg & ds & wsp & D & NE & W & HS & EQ & LE & IE & _ & TS); [|exact HB|lia].
      assert (SD : sound p1) by (subst p1; split; [exact S1|]; split; [exact S2|]; split; [exact S3|]; cbn in LE |- *; lia).
      assert (EV : ends_value (wsp ++ left p1)).
      { destruct wsp as [|b wsp]; [apply left_ends; [exact SD|rewrite <- S2; exact IE]|]. apply Forall_inv in W. cbn. lia. }
      exists ((sign_text neg ++ ds) ++ wsp). rewrite <- app_assoc. split.
      + rewrite app_assoc. apply lx_behind; [|exact W]. apply lx_int; [exact D|exact NE|exact EV|]. intros IW RG X.
        assert (W' : int_width w) by (unfold int_width; cbn in IW; intuition).
        destruct (to_signed_exact w neg (dec_val ds) W' RG X) as (LT & TE).
        assert (LT64 : dec_val ds < 2^64).
        { eapply N.lt_le_trans; [exact LT|]. apply N.pow_le_mono_r; [discriminate|]. destruct W' as [->|[->|[->| ->]]]; discriminate. }
        rewrite (N.mod_small _ _ LT64), (N.mod_small _ _ LT) in TS. rewrite TE in TS. injection TS as <-. reflexivity.
      + split; [exact HS|]. split; [subst p1; reflexivity|exact SD].
    - unfold parse_value_bool in E. peel E. assert (B : exists b r tx, (forall z, ends_value z -> lax TBool (VBool b) tx z) /\ took p tx r /\
        (p <- trim_left_checked buf r ;; e <- end_of_item_ok buf p ;; _ <- ensure e InvalidEndOfValue ;; Ok (VBool b, p)) = Ok (x, q)).
      { destruct a.
        - cbn [bind] in E. exists true, (remove_prefix p 4), [116; 114; 117; 101]. split; [now constructor|]. split; [exact (with_took p _ H P)|exact E].
        - peel E. destruct a as [b r]. peel P0. destruct a; [|discriminate]. injection P0 as <- <-.
          exists false, (remove_prefix p 5), [102; 97; 108; 115; 101]. split; [now constructor|]. split; [exact (with_took p _ H P1)|exact E]. }
      clear E. destruct B as (b & r & tx & LX & T & E). peel E. destruct (trim_took _ _ (proj2 (proj2 T)) P0) as (w & W & T2).
      peel E. peel E. injection E as <- <-. exists (tx ++ w). split; [|eapply took_app; eauto]. apply lx_behind; [|exact W]. apply LX.
      match goal with H : ensure ?b _ = Ok _ |- _ => destruct b; [clear H|discriminate H] end. destruct w as [|c w]; [|apply Forall_inv in W; cbn; lia]. pose proof (proj2 (proj2 T2)) as SQ. pose proof SQ as (_ & Q2 & _ & Q4).
      apply left_ends; [exact SQ|]. rewrite <- Q2. apply item_ends_ok; [lia|assumption].
    - rewrite HG in E. peel E. destruct a as [s p1]. injection E as <- <-. destruct (string_took _ _ _ H P) as (b & B1 & B2 & T).
      exists (34 :: b ++ [34]). split; [now constructor|exact T].
    - unfold parse_value_null in E. peel E. destruct a.
      + injection E as <- <-. exists []. split; [constructor|now apply took_nil]. unfold has_more in P. destruct (Nat.ltb_spec (first p) (last p)).
        * peel P. injection P as P. apply rd_ok_nth in P0. assert (T : took p [a] (remove_prefix p 1)) by (apply byte_took; auto; lia).
          rewrite (took_left _ _ _ T). cbn [app ends_nothing In]. unfold is_token_after_value, c_comma, c_rbrace, c_rbrack in P. lia.
        * unfold left. rewrite skipn_all2; [exact I|]. rewrite firstn_length. lia.
      + peel E. destruct a.
        * peel E. peel E. peel E. injection E as <- <-. pose proof (with_took _ _ H P0) as T. cbn [length] in T.
          destruct (trim_took _ _ (proj2 (proj2 T)) P3) as (w & W & T2).
          exists ([110; 117; 108; 108] ++ w). split; [|eapply took_app; eauto]. apply lx_behind; [constructor|exact W].
          rewrite <- (took_left _ _ _ T2). match goal with H : ensure ?b _ = Ok _ |- _ => destruct b; [clear H|discriminate H] end. pose proof (proj2 (proj2 T)) as SQ. pose proof SQ as (_ & Q2 & _ & Q4).
          apply left_ends; [exact SQ|]. rewrite <- Q2. apply item_ends_ok; [lia|assumption].
        * peel E. destruct a as [v p1]. injection E as <- <-. destruct (IH HT _ _ _ H P1) as (tx & LX & T). exists tx. split; [|exact T].
          constructor; [exact LX|rewrite <- (took_left _ _ _ T); now apply some_left|]. intros u. rewrite <- (took_left _ _ _ T). now apply starts_no.
    - unfold parse_value_array in E. peel E. destruct (trim_took _ _ H P) as (w0 & W0 & T0). peel E. destruct a0; cbn [ensure bind] in E; [|discriminate].
      destruct (at_took _ _ (proj2 (proj2 T0)) P0) as (_ & T1). peel E. destruct (untrim_took _ _ (proj2 (proj2 T1)) P1) as (w & W & T2).
      peel E. destruct (a1 =? c_rbrack) eqn:EB.
      + apply N.eqb_eq in EB. subst a1. unfold end_of_array in E. peel E. injection E as <- <-.
        destruct (front_took _ _ (proj2 (proj2 T2)) P2) as (_ & T3); [discriminate|]. destruct (trim_took _ _ (proj2 (proj2 T3)) P3) as (w3 & W3 & T4).
        exists (w0 ++ (91 :: w ++ [93]) ++ w3). split; [apply lax_pad; auto; now constructor|].
        replace (w0 ++ (91 :: w ++ [93]) ++ w3) with (w0 ++ [91] ++ w ++ [93] ++ w3) by (repeat (rewrite <- ?app_assoc; cbn [app]); reflexivity).
        eapply took_app; [exact T0|]. eapply took_app; [exact T1|]. eapply took_app; [exact T2|]. eapply took_app; [exact T3|exact T4].
      + peel E. destruct a2 as [p1 vs]. injection E as <- <-.
        destruct (array_lax _ _ (IH HT) _ _ _ _ _ (proj2 (proj2 T2)) P3) as (xs & tx & w3 & -> & LE & W3 & T3). cbn [app].
        assert (NF : not_at 93 (tx ++ 93 :: w3 ++ left p1)).
        { replace (tx ++ 93 :: w3 ++ left p1) with (left a0) by (rewrite (took_left _ _ _ T3), <- app_assoc; reflexivity). apply (not_front _ a1); [exact (proj2 (proj2 T2))|exact P2|exact EB]. }
        exists (w0 ++ (91 :: w ++ tx ++ [93]) ++ w3). split; [apply lax_pad; auto; now constructor|].
        replace (w0 ++ (91 :: w ++ tx ++ [93]) ++ w3) with (w0 ++ [91] ++ w ++ tx ++ 93 :: w3) by (repeat (rewrite <- ?app_assoc; cbn [app]); reflexivity).
        eapply took_app; [exact T0|]. eapply took_app; [exact T1|]. eapply took_app; [exact T2|exact T3].
    - unfold parse_value_keyvalue in E. peel E. destruct a; cbn [ensure bind] in E; [|discriminate].
      destruct (at_took _ _ H P) as (_ & T1). peel E. destruct (trim_took _ _ (proj2 (proj2 T1)) P0) as (w & W & T2).
      peel E. peel E. destruct (a1 =? c_rbrace) eqn:EB.
      + apply N.eqb_eq in EB. subst a1. peel E. injection E as <- <-.
        destruct (front_took _ _ (proj2 (proj2 T2)) P2) as (_ & T3); [discriminate|]. destruct (trim_took _ _ (proj2 (proj2 T3)) P3) as (w3 & W3 & T4).
        exists ((123 :: w ++ [125]) ++ w3). split; [apply lx_behind; auto; now constructor|].
        replace ((123 :: w ++ [125]) ++ w3) with ([123] ++ w ++ [125] ++ w3) by (repeat (rewrite <- ?app_assoc; cbn [app]); reflexivity).
        eapply took_app; [exact T1|]. eapply took_app; [exact T2|]. eapply took_app; [exact T3|exact T4].
      + peel E. destruct a2 as [p1 vs]. injection E as <- <-.
        destruct (map_lax g _ _ HG (IH HT) _ _ _ _ _ (proj2 (proj2 T2)) P3) as (xs & tx & w3 & -> & LE & W3 & T3). cbn [app].
        exists ((123 :: w ++ tx ++ [125]) ++ w3). split; [apply lx_behind; auto; now constructor|].
        replace ((123 :: w ++ tx ++ [125]) ++ w3) with ([123] ++ w ++ tx ++ 125 :: w3) by (repeat (rewrite <- ?app_assoc; cbn [app]); reflexivity).
        eapply took_app; [exact T1|]. eapply took_app; [exact T2|exact T3].
    - apply andb_true_iff in HT as [-> HT]. unfold parse_tuple in E. peel E. destruct (trim_took _ _ H P) as (w0 & W0 & T0). peel E. destruct a0; cbn [ensure bind] in E; [|discriminate].
      destruct (at_took _ _ (proj2 (proj2 T0)) P0) as (_ & T1). pose proof (proj2 (proj2 T0)) as (_ & SL & SC & _).
      assert (T1' : took a [91] (remove_prefix (set_class a (Some (first a)) (Some (last a))) 1)).
      { apply (took_class a [91] (remove_prefix a 1) (Some (first a)) (Some (last a))); [exact T1|now rewrite SL]. }
      peel E. destruct (next_sep _ _ (proj2 (proj2 T1')) P1) as (s & HS & T2).
      peel E. destruct (trim_took _ _ (proj2 (proj2 T2)) P2) as (w3 & W3 & T3).
      peel E. destruct a2 as [vs p1].
      assert (F : Forall (fun t => reads_lax (parse_value g t) t) ts).
      { rewrite forallb_forall in HT. rewrite Forall_forall in IH |- *. intros t HI. apply IH; auto. }
      destruct (elements_lax g ts F _ _ _ (proj2 (proj2 T3)) P3) as (tx & LT & T4).
      peel E. peel P4. destruct (trim_took _ _ (proj2 (proj2 T4)) P5) as (w4 & W4 & T5). peel P4. destruct (a4 =? c_rbrack) eqn:EB; cbn [ensure bind] in P4; [|discriminate].
      apply N.eqb_eq in EB. subst a4. destruct (front_took _ _ (proj2 (proj2 T5)) P6) as (_ & T6); [discriminate|].
      destruct (trim_took _ _ (proj2 (proj2 T6)) P4) as (w5 & W5 & T7). injection E as <- <-. cbn [fst snd].
      rewrite (took_left _ _ _ T5), (took_left _ _ _ T6), (took_left _ _ _ T7) in LT. rewrite (took_left _ _ _ T3), (took_left _ _ _ T4), (took_left _ _ _ T5), (took_left _ _ _ T6), (took_left _ _ _ T7) in HS.
      exists (w0 ++ (91 :: s ++ w3 ++ tx ++ w4 ++ [93]) ++ w5). split; [apply lax_pad; auto; now constructor|].
      replace (w0 ++ (91 :: s ++ w3 ++ tx ++ w4 ++ [93]) ++ w5) with (w0 ++ [91] ++ s ++ w3 ++ tx ++ w4 ++ [93] ++ w5)
        by (repeat (rewrite <- ?app_assoc; cbn [app]); reflexivity).
      apply took_class; [|exact SC].
      eapply took_app; [exact T0|]. eapply took_app; [exact T1'|]. eapply took_app; [exact T2|]. eapply took_app; [exact T3|].
      eapply took_app; [exact T4|]. eapply took_app; [exact T5|]. eapply took_app; [exact T6|exact T7].
  Qed.
End Accepts.
