(** Skipping objects and arrays. *)
From Coq Require Import List NArith ZArith Bool Lia Arith ZifyBool ZifyNat ZifyN.
From Verif Require Import Base Mem Bits Loop PolicyModel IntModel IntProofs IntSerProofs IntValueProofs StrScanModel
  SpecNum SpecText SpecJson StrScanProofs StrScanProofs2 StrScanProofs3 SkipModel SkipProofs.
Import ListNotations.
Ltac Zify.zify_post_hook ::= Z.div_mod_to_equations.
Local Open Scope N_scope.

(** Bytes without any meaning to the scan, under every comment policy. *)
Definition inert (c : N) : Prop :=
  c <> 34 /\ c <> 92 /\ c <> 44 /\ c <> 91 /\ c <> 93 /\ c <> 123 /\ c <> 125 /\ c <> 47 /\ c <> 35.

Lemma skip_str_ok : forall checked ex t buf i last, ex <> ExSimd -> str_body t ->
  sub_at buf i (t ++ [34]) -> (i + length t < last)%nat -> (last <= length buf)%nat ->
  skip_str checked ex buf i last = Ok (i + length t)%nat.
Proof.
  intros checked [] t buf i last HX HB HS HL LB; [| |congruence]; cbn [skip_str].
  - now apply cx_skip_ok.
  - now apply rt_skip_ok.
Qed.

  Lemma ws_inert : forall w, ws w -> Forall inert w.
  Proof. intros w H. eapply Forall_impl; [|exact H]. intros a Ha. unfold json_ws, inert in *. lia. Qed.
  Lemma digits_inert : forall w, digits w -> Forall inert w.
  Proof. intros w H. eapply Forall_impl; [|exact H]. intros a Ha. unfold is_dig, inert in *. lia. Qed.
  Lemma jnum_inert : forall n, jnum n -> Forall inert n.
  Proof.
    destruct 1 as [sg i f e Hs (Hi & _ & _) Hf He]. repeat (apply Forall_app; split).
    - destruct Hs as [->| ->]; repeat constructor; unfold inert; lia.
    - now apply digits_inert.
    - destruct Hf; constructor; [unfold inert; lia|now apply digits_inert].
    - destruct He as [|e s ds He Hs' HD _]; constructor; [unfold inert; lia|].
      apply Forall_app; split; [destruct Hs' as [->|[->| ->]]; repeat constructor; unfold inert; lia|now apply digits_inert].
  Qed.

Section Run.
  Context (cp : cpol) (checked : bool) (ex : exec_mode) (obj : bool) (buf : list N) (last : nat).
  Hypothesis HX : ex <> ExSimd.
  Hypothesis HLB : (last <= length buf)%nat.

  Let body := br_body cp checked ex obj buf last.
  Let m (s : bs) := (length buf - b_i s)%nat.
  Let R := runs body m.

  Ltac step := unfold body, br_body; rewrite more_ok by (intros; cbn [b_i at_i]; lia).
  Ltac evalc :=
    repeat match goal with
    | |- context [?a =? ?b] =>
        first [replace (a =? b) with true by (unfold c_bslash, c_quote, c_comma, c_lbrace, c_rbrace, c_lbrack, c_rbrack, c_slash, c_hash in *; lia)
              |replace (a =? b) with false by (unfold c_bslash, c_quote, c_comma, c_lbrace, c_rbrace, c_lbrack, c_rbrack, c_slash, c_hash in *; lia)]
    end.

  Lemma run_byte_inert : forall s c, nth_error buf (b_i s) = Some c -> inert c -> (b_i s < last)%nat ->
    R s (at_i s (S (b_i s))).
  Proof.
    intros s c Hc I L. unfold inert in I. apply runs_one.
    - step. rewrite (rd_some _ _ _ Hc). cbn [bind]. unfold left_of, right_of.
      destruct obj; cbn [negb]; destruct cp; evalc; reflexivity.
    - unfold m. cbn [b_i at_i]. lia.
  Qed.

  Lemma run_inert : forall t s, Forall inert t -> sub_at buf (b_i s) t -> (b_i s + length t <= last)%nat ->
    R s (at_i s (b_i s + length t)).
  Proof.
    induction t as [|c t IH]; intros s HI HS HL; cbn [length] in *.
    - rewrite Nat.add_0_r. destruct s; cbn. constructor.
    - inversion HI; subst. destruct HS as [S1 S2]. eapply runs_trans.
      + eapply run_byte_inert; eauto. lia.
      + replace (b_i s + S (length t))%nat with (S (b_i s) + length t)%nat by lia.
        apply (IH (at_i s (S (b_i s)))); auto. cbn [b_i at_i]. lia.
  Qed.

  Lemma run_string : forall t s, str_body t -> sub_at buf (b_i s) (34 :: t ++ [34]) ->
    (b_i s + length t + 2 <= last)%nat ->
    R s (at_i s (b_i s + length t + 2)).
  Proof.
    intros t s HB [S1 S2] HL. apply runs_one.
    - step. rewrite (rd_some _ _ _ S1). cbn [bind]. evalc. cbn iota.
      rewrite skip_str_ok with (t := t); auto; [|lia]. cbn [bind].
      apply sub_at_app in S2 as [_ [SQ _]].
      assert (E : (if checked then match cp with
              | CNone => ok <- (if (S (b_i s) + length t <? last)%nat then b <- rd buf (S (b_i s) + length t) ;; Ok (b =? c_quote) else Ok false) ;;
                         ensure ok UnexpectedEndOfData
              | _ => ensure (S (b_i s) + length t <? last)%nat UnexpectedEndOfData
              end else Ok tt) = Ok tt).
      { destruct checked; auto. destruct (Nat.ltb_spec (S (b_i s) + length t) last); [|lia].
        rewrite (rd_some _ _ _ SQ). destruct cp; reflexivity. }
      rewrite E. cbn [bind]. do 2 f_equal. unfold at_i. f_equal. lia.
    - unfold m. cbn [b_i at_i]. lia.
  Qed.

  (** Separators are counted at the outermost level only. *)
  Definition at_top (P S : N) : bool := (P =? 1) && (S =? 0).

  Lemma run_comma : forall s, nth_error buf (b_i s) = Some 44 -> (b_i s < last)%nat -> b_cnt s + 1 < 2^64 ->
    R s (mkbs (S (b_i s)) (if at_top (b_prime s) (b_second s) then b_cnt s + 1 else b_cnt s) (b_prime s) (b_second s)).
  Proof.
    intros s Hc L HC. apply runs_one.
    - step. rewrite (rd_some _ _ _ Hc). cbn [bind]. unfold at_top. change (44 =? c_bslash) with false.
      change (44 =? c_quote) with false. change (44 =? c_comma) with true. cbn iota.
      rewrite (N.mod_small (b_cnt s + 1)) by lia. reflexivity.
    - unfold m. cbn [b_i at_i]. lia.
  Qed.

  (** Opening and closing a nested bracket of kind [o]. *)
  Definition bump (o : bool) (s : bs) (i : nat) : bs :=
    if Bool.eqb o obj then mkbs i (b_cnt s) (b_prime s + 1) (b_second s)
    else mkbs i (b_cnt s) (b_prime s) (b_second s + 1).

  Lemma run_open : forall o s, nth_error buf (b_i s) = Some (left_of o) -> (b_i s < last)%nat ->
    b_prime s + 1 < 2^32 -> b_second s + 1 < 2^32 ->
    R s (bump o s (S (b_i s))).
  Proof.
    intros o s Hc L HP HS. apply runs_one.
    - step. rewrite (rd_some _ _ _ Hc). cbn [bind]. unfold bump, w32.
      rewrite (N.mod_small (b_prime s + 1)), (N.mod_small (b_second s + 1)) by lia.
      destruct o, obj; cbn [Bool.eqb]; reflexivity.
    - unfold m, bump. destruct (Bool.eqb o obj); cbn [b_i]; lia.
  Qed.

  Lemma run_close : forall o s i j, 1 <= b_prime s -> b_prime s + 1 < 2^32 -> b_second s + 1 < 2^32 ->
    nth_error buf i = Some (right_of o) -> (i < last)%nat -> j = S i ->
    R (bump o s i) (at_i s j).
  Proof.
    intros o s i j H1 HP HS Hc L ->. apply runs_one.
    - unfold body, br_body.
      replace (b_i (bump o s i)) with i by (unfold bump; destruct (Bool.eqb o obj); reflexivity).
      rewrite more_ok by (intros; lia).
      rewrite (rd_some _ _ _ Hc). cbn [bind]. unfold bump, w32.
      assert (WP : (b_prime s + 1 + 2^32 - 1) mod 2^32 = b_prime s) by (change (2^32) with 4294967296 in *; lia).
      assert (WS : (b_second s + 1 + 2^32 - 1) mod 2^32 = b_second s) by (change (2^32) with 4294967296 in *; lia).
      destruct o, obj; cbn [Bool.eqb negb left_of right_of N.eqb Pos.eqb b_prime b_second b_cnt c_rbrace c_bslash c_quote c_comma c_lbrace c_rbrack c_lbrack];
        rewrite ?WP, ?WS; try (replace (b_prime s =? 0) with false by lia); reflexivity.
    - unfold m, bump. destruct (Bool.eqb o obj); cbn [b_i at_i]; lia.
  Qed.

  Lemma bump_not_top : forall o s i, 1 <= b_prime s -> at_top (b_prime (bump o s i)) (b_second (bump o s i)) = false.
  Proof.
    intros o s i H. unfold bump, at_top. destruct (Bool.eqb o obj); cbn [b_prime b_second]; lia.
  Qed.

  (** ** Whole values *)

  (** What a run over [t] requires of the state: no counter can wrap. *)
  Definition roomy (s : bs) (n : nat) : Prop :=
    (b_i s + n <= last)%nat /\ 1 <= b_prime s /\ b_prime s + N.of_nat n < 2^32 /\
    b_second s + N.of_nat n < 2^32 /\ b_cnt s + N.of_nat n < 2^64.

  Definition add_cnt (s : bs) (n : nat) (j : nat) : bs :=
    mkbs j (if at_top (b_prime s) (b_second s) then b_cnt s + N.of_nat n else b_cnt s) (b_prime s) (b_second s).

  Lemma add_cnt_0 : forall s j, add_cnt s 0 j = at_i s j.
  Proof. intros [i c p q] j. unfold add_cnt, at_i. cbn. rewrite N.add_0_r. now destruct (at_top p q). Qed.
  Lemma at_i_i : forall s i, b_i (at_i s i) = i.
  Proof. reflexivity. Qed.
  Lemma at_i_twice : forall s i j, at_i (at_i s i) j = at_i s j.
  Proof. reflexivity. Qed.
  Lemma roomy_at : forall s i n, roomy s n -> (i + n <= last)%nat -> roomy (at_i s i) n.
  Proof. intros s i n (H1 & H2 & H3 & H4 & H5) H. unfold roomy. cbn [b_i b_prime b_second b_cnt at_i]. repeat split; auto. Qed.
  Lemma roomy_le : forall s n k, roomy s n -> (k <= n)%nat -> roomy s k.
  Proof. intros s n k (H1 & H2 & H3 & H4 & H5) H. unfold roomy. repeat split; auto; lia. Qed.

  Lemma run_nested : forall o t n s, sub_at buf (b_i s) (left_of o :: t ++ [right_of o]) ->
    roomy s (length (left_of o :: t ++ [right_of o])) ->
    (forall s', sub_at buf (b_i s') t -> roomy s' (length t) -> R s' (add_cnt s' n (b_i s' + length t))) ->
    R s (at_i s (b_i s + length (left_of o :: t ++ [right_of o]))).
  Proof.
    intros o t n s [S1 S2] RM IH. cbn [length] in *. rewrite app_length in *. cbn [length] in *.
    apply sub_at_app in S2 as [S2 [S3 _]].
    pose proof RM as (H1 & H2 & H3 & H4 & H5).
    eapply runs_trans; [apply run_open; eauto; lia|].
    assert (BI : b_i (bump o s (S (b_i s))) = S (b_i s)) by (unfold bump; destruct (Bool.eqb o obj); reflexivity).
    eapply runs_trans; [apply IH|].
    - now rewrite BI.
    - unfold roomy. rewrite BI. unfold bump. destruct (Bool.eqb o obj); cbn [b_i b_prime b_second b_cnt]; repeat split; lia.
    - unfold add_cnt. rewrite bump_not_top by auto. rewrite BI.
      replace (mkbs (S (b_i s) + length t) (b_cnt (bump o s (S (b_i s)))) (b_prime (bump o s (S (b_i s)))) (b_second (bump o s (S (b_i s)))))
        with (bump o s (S (b_i s) + length t)) by (unfold bump; destruct (Bool.eqb o obj); reflexivity).
      apply run_close; auto; lia.
  Qed.

  Ltac len := repeat (progress (rewrite ?app_length in *; cbn [length] in *)).
  Ltac splits := repeat match goal with
    | H : sub_at _ _ (_ ++ _) |- _ => apply sub_at_app in H as [? ?]
    | H : sub_at _ _ (_ :: _) |- _ => destruct H as [? ?]
    end.

  Theorem run_values :
    (forall v t, jtext str_body v t -> forall s, sub_at buf (b_i s) t -> roomy s (length t) ->
        R s (at_i s (b_i s + length t))) /\
    (forall es t, jelems str_body es t -> forall s, sub_at buf (b_i s) t -> roomy s (length t) ->
        R s (add_cnt s (length es - 1) (b_i s + length t))) /\
    (forall ms t, jmembers str_body ms t -> forall s, sub_at buf (b_i s) t -> roomy s (length t) ->
        R s (add_cnt s (length ms - 1) (b_i s + length t))).
  Proof.
    apply jtext_ind3.
    - intros s HS RM. apply run_inert; auto; [repeat constructor; unfold inert; lia|apply RM].
    - intros s HS RM. apply run_inert; auto; [repeat constructor; unfold inert; lia|apply RM].
    - intros s HS RM. apply run_inert; auto; [repeat constructor; unfold inert; lia|apply RM].
    - intros n Hn s HS RM. apply run_inert; auto; [now apply jnum_inert|apply RM].
    - intros b Hb s HS RM. pose proof (proj1 RM) as HL. len.
      replace (b_i s + S (length b + 1))%nat with (b_i s + length b + 2)%nat in * by lia. now apply run_string.
    - intros w Hw s HS RM. apply (run_nested false w 0); auto. intros s' HS' RM'. rewrite add_cnt_0.
      apply run_inert; auto; [now apply ws_inert|apply RM'].
    - intros es t Ht IH s HS RM. apply (run_nested false t (length es - 1)); auto.
    - intros w Hw s HS RM. apply (run_nested true w 0); auto. intros s' HS' RM'. rewrite add_cnt_0.
      apply run_inert; auto; [now apply ws_inert|apply RM'].
    - intros ms t Ht IH s HS RM. apply (run_nested true t (length ms - 1)); auto.
    - (* one element *)
      intros w1 v t w2 H1 Ht IH H2 s HS RM. len. splits. cbn [Nat.sub].
      rewrite add_cnt_0. pose proof (proj1 RM) as HL.
      eapply runs_trans; [apply (run_inert w1); auto; [now apply ws_inert|lia]|].
      eapply runs_trans; [apply IH; rewrite ?at_i_i; auto; apply roomy_at; [eapply roomy_le; eauto; lia|lia]|].
      rewrite ?at_i_i, ?at_i_twice.
      replace (b_i s + (length w1 + (length t + length w2)))%nat with (b_i s + length w1 + length t + length w2)%nat by lia.
      pose proof (run_inert w2 (at_i s (b_i s + length w1 + length t))) as X. rewrite ?at_i_i, ?at_i_twice in X.
      apply X; auto; [now apply ws_inert|lia].
    - (* more elements *)
      intros w1 v t w2 es ts H1 Ht IH H2 Hes IHes s HS RM. len. splits.
      pose proof RM as (HL & R1 & R2 & R3 & R4).
      eapply runs_trans; [apply (run_inert w1); auto; [now apply ws_inert|lia]|].
      eapply runs_trans; [apply IH; rewrite ?at_i_i; auto; apply roomy_at; [eapply roomy_le; eauto; lia|lia]|].
      rewrite ?at_i_i, ?at_i_twice.
      eapply runs_trans; [apply (run_inert w2); rewrite ?at_i_i; auto; [now apply ws_inert|lia]|].
      rewrite ?at_i_i, ?at_i_twice.
      eapply runs_trans; [apply run_comma; rewrite ?at_i_i; auto; cbn [b_cnt at_i]; lia|].
      cbn [b_i at_i b_prime b_second b_cnt].
      match goal with |- _ ?s0 _ => set (s1 := s0) end.
      assert (B1 : b_i s1 = S (b_i s + length w1 + length t + length w2)) by reflexivity.
      assert (HS1 : sub_at buf (b_i s1) ts) by (rewrite B1; assumption).
      specialize (IHes s1 HS1).
      assert (RM1 : roomy s1 (length ts)).
      { unfold roomy. rewrite B1. unfold s1. cbn [b_prime b_second b_cnt]. destruct (at_top (b_prime s) (b_second s)); repeat split; lia. }
      specialize (IHes RM1). unfold s1 in IHes at 2. unfold add_cnt in IHes. cbn [b_i b_prime b_second b_cnt] in IHes.
      assert (NE : (1 <= length es)%nat) by (inversion Hes; cbn [length]; lia).
      match type of IHes with _ _ ?x => match goal with |- _ _ ?y => replace y with x; [exact IHes|] end end.
      unfold add_cnt. f_equal; [lia|]. unfold s1. cbn [b_prime b_second b_cnt].
      destruct (at_top (b_prime s) (b_second s)); auto. lia.
    - (* one member *)
      intros w1 k w2 w3 v t w4 H1 Hk H2 H3 Ht IH H4 s HS RM. cbn [app] in HS, RM |- *. len.
      apply sub_at_app in HS as [HS1 HS].
      assert (HSK : sub_at buf (b_i s + length w1) (34 :: k ++ [34]) /\
        sub_at buf (b_i s + length w1 + (length k + 2)) (w2 ++ 58 :: w3 ++ t ++ w4)).
      { replace (34 :: (k ++ [34]) ++ w2 ++ 58 :: w3 ++ t ++ w4) with ((34 :: k ++ [34]) ++ (w2 ++ 58 :: w3 ++ t ++ w4)) in HS by reflexivity.
        apply sub_at_app in HS. cbn [length] in HS. rewrite app_length in HS. cbn [length] in HS.
        now replace (length k + 2)%nat with (S (length k + 1)) by lia. }
      destruct HSK as [SK HS']. clear HS. revert SK. splits. intro SK.
      cbn [Nat.sub]. rewrite add_cnt_0. pose proof RM as (HL & R1 & R2 & R3 & R4).
      eapply runs_trans; [apply (run_inert w1); auto; [now apply ws_inert|lia]|].
      eapply runs_trans; [apply (run_string k); rewrite ?at_i_i; auto; lia|].
      rewrite ?at_i_i, ?at_i_twice.
      replace (b_i s + length w1 + length k + 2)%nat with (b_i s + length w1 + (length k + 2))%nat by lia.
      eapply runs_trans; [apply (run_inert w2); rewrite ?at_i_i; auto; [now apply ws_inert|lia]|].
      rewrite ?at_i_i, ?at_i_twice.
      eapply runs_trans; [apply (run_byte_inert _ 58); rewrite ?at_i_i; auto; [unfold inert; lia|lia]|].
      rewrite ?at_i_i, ?at_i_twice.
      eapply runs_trans; [apply (run_inert w3); rewrite ?at_i_i; auto; [now apply ws_inert|lia]|].
      rewrite ?at_i_i, ?at_i_twice.
      eapply runs_trans; [apply IH; rewrite ?at_i_i; auto; apply roomy_at; [eapply roomy_le; eauto; lia|lia]|].
      rewrite ?at_i_i, ?at_i_twice.
      match goal with |- _ (at_i s ?i) (at_i s ?j) => pose proof (run_inert w4 (at_i s i)) as X; rewrite ?at_i_i, ?at_i_twice in X;
        replace j with (i + length w4)%nat by lia end.
      apply X; auto; [now apply ws_inert|lia].
    - (* more members *)
      intros w1 k w2 w3 v t w4 ms ts H1 Hk H2 H3 Ht IH H4 Hms IHms s HS RM. cbn [app] in HS, RM |- *. len.
      apply sub_at_app in HS as [HS1 HS].
      assert (HSK : sub_at buf (b_i s + length w1) (34 :: k ++ [34]) /\
        sub_at buf (b_i s + length w1 + (length k + 2)) (w2 ++ 58 :: w3 ++ t ++ w4 ++ 44 :: ts)).
      { replace (34 :: (k ++ [34]) ++ w2 ++ 58 :: w3 ++ t ++ w4 ++ 44 :: ts) with ((34 :: k ++ [34]) ++ (w2 ++ 58 :: w3 ++ t ++ w4 ++ 44 :: ts)) in HS by reflexivity.
        apply sub_at_app in HS. cbn [length] in HS. rewrite app_length in HS. cbn [length] in HS.
        now replace (length k + 2)%nat with (S (length k + 1)) by lia. }
      destruct HSK as [SK HS']. clear HS. revert SK. splits. intro SK.
      pose proof RM as (HL & R1 & R2 & R3 & R4).
      eapply runs_trans; [apply (run_inert w1); auto; [now apply ws_inert|lia]|].
      eapply runs_trans; [apply (run_string k); rewrite ?at_i_i; auto; lia|].
      rewrite ?at_i_i, ?at_i_twice.
      replace (b_i s + length w1 + length k + 2)%nat with (b_i s + length w1 + (length k + 2))%nat by lia.
      eapply runs_trans; [apply (run_inert w2); rewrite ?at_i_i; auto; [now apply ws_inert|lia]|].
      rewrite ?at_i_i, ?at_i_twice.
      eapply runs_trans; [apply (run_byte_inert _ 58); rewrite ?at_i_i; auto; [unfold inert; lia|lia]|].
      rewrite ?at_i_i, ?at_i_twice.
      eapply runs_trans; [apply (run_inert w3); rewrite ?at_i_i; auto; [now apply ws_inert|lia]|].
      rewrite ?at_i_i, ?at_i_twice.
      eapply runs_trans; [apply IH; rewrite ?at_i_i; auto; apply roomy_at; [eapply roomy_le; eauto; lia|lia]|].
      rewrite ?at_i_i, ?at_i_twice.
      eapply runs_trans; [apply (run_inert w4); rewrite ?at_i_i; auto; [now apply ws_inert|lia]|].
      rewrite ?at_i_i, ?at_i_twice.
      eapply runs_trans; [apply run_comma; rewrite ?at_i_i; auto; cbn [b_cnt at_i]; lia|].
      cbn [b_i at_i b_prime b_second b_cnt].
      match goal with |- _ ?s0 _ => set (s1 := s0) end.
      assert (HS1' : sub_at buf (b_i s1) ts) by assumption.
      specialize (IHms s1 HS1').
      assert (RM1 : roomy s1 (length ts)).
      { unfold roomy, s1. cbn [b_i b_prime b_second b_cnt]. destruct (at_top (b_prime s) (b_second s)); repeat split; lia. }
      specialize (IHms RM1). unfold s1 in IHms at 2. unfold add_cnt in IHms. cbn [b_i b_prime b_second b_cnt] in IHms.
      assert (NE : (1 <= length ms)%nat) by (inversion Hms; cbn [length]; lia).
      match type of IHms with _ _ ?x => match goal with |- _ _ ?y => replace y with x; [exact IHms|] end end.
      unfold add_cnt. f_equal; [unfold s1; cbn [b_i]; lia|]. unfold s1. cbn [b_prime b_second b_cnt].
      destruct (at_top (b_prime s) (b_second s)); auto. lia.
  Qed.
End Run.

(** ** skip_bracketed on a well-formed object or array *)

Lemma skip_bracketed_text : forall cp checked ex obj buf p t n, ex <> ExSimd -> (last p <= length buf)%nat ->
  sub_at buf (first p) (left_of obj :: t ++ [right_of obj]) ->
  (first p + length t + 2 <= last p)%nat -> N.of_nat (length t) + 2 < 2^32 ->
  (forall s, sub_at buf (b_i s) t -> roomy (last p) s (length t) ->
     runs (br_body cp checked ex obj buf (last p)) (fun s => (length buf - b_i s)%nat) s (add_cnt s n (b_i s + length t))) ->
  skip_bracketed cp checked ex obj buf p = Ok
    (set_counter (set_last p (first p + length t + 2)) (N.of_nat n), set_first p (first p + length t + 2)).
Proof.
  intros cp checked ex obj buf p t n HX HLB [S1 S2] HL HN RUN. unfold skip_bracketed.
  replace (checked && (last p <=? first p)%nat) with false by (destruct checked; cbn [andb]; lia).
  unfold front. rewrite (rd_some _ _ _ S1). cbn [bind]. rewrite N.eqb_refl. cbv zeta.
  apply sub_at_app in S2 as [S2 [S3 _]].
  rewrite (loop_exit _ (fun s => (length buf - b_i s)%nat)
     (mkbs (S (first p)) 0 1 0) (add_cnt (mkbs (S (first p)) 0 1 0) n (S (first p) + length t)) ((first p + length t + 2)%nat, N.of_nat n)).
  - reflexivity.
  - apply RUN; [exact S2|]. unfold roomy. cbn [b_i b_prime b_second b_cnt]. change (2^64) with 18446744073709551616. change (2^32) with 4294967296 in *. repeat split; lia.
  - unfold br_body, add_cnt. cbn [b_i b_prime b_second b_cnt]. change (at_top 1 0) with true. cbn iota.
    rewrite more_ok by (intros; lia). rewrite (rd_some _ _ _ S3). cbn [bind].
    destruct obj; cbn [left_of right_of negb N.eqb Pos.eqb c_rbrace c_bslash c_quote c_comma c_lbrace c_rbrack c_lbrack]; unfold w32;
      change ((1 + 2^32 - 1) mod 2^32 =? 0) with true; cbn iota; (destruct checked; cbn [ensure bind N.eqb]; do 3 f_equal; lia).
  - cbn [b_i]. lia.
Qed.

(** Number of separators of a container. *)
Definition separators (v : jv) : nat :=
  match v with JArr es => length es - 1 | JObj ms => length ms - 1 | _ => 0 end.

Theorem skip_bracketed_ok : forall cp checked ex (obj : bool) buf p v t, ex <> ExSimd -> (last p <= length buf)%nat ->
  jtext str_body v t -> (if obj then exists ms, v = JObj ms else exists es, v = JArr es) ->
  sub_at buf (first p) t -> (first p + length t <= last p)%nat -> N.of_nat (length t) < 2^32 ->
  skip_bracketed cp checked ex obj buf p = Ok
    (set_counter (set_last p (first p + length t)) (N.of_nat (separators v)), set_first p (first p + length t)).
Proof.
  intros cp checked ex obj buf p v t HX HLB HT HO HS HL HN.
  assert (G : forall t' n, t = left_of obj :: t' ++ [right_of obj] -> n = separators v ->
     (forall s, sub_at buf (b_i s) t' -> roomy (last p) s (length t') ->
     runs (br_body cp checked ex obj buf (last p)) (fun s => (length buf - b_i s)%nat) s (add_cnt s n (b_i s + length t'))) ->
     skip_bracketed cp checked ex obj buf p = Ok
    (set_counter (set_last p (first p + length t)) (N.of_nat (separators v)), set_first p (first p + length t))).
  { intros t' n -> -> RUN. cbn [length] in *. rewrite app_length in *. cbn [length] in *.
    replace (first p + S (length t' + 1))%nat with (first p + length t' + 2)%nat in * by lia.
    apply skip_bracketed_text; auto. lia. }
  destruct obj.
  - destruct HO as (ms & ->). inversion HT as [| | | | | | |w Hw|ms' t' HM]; subst.
    + apply (G w O); auto. intros s HSs RM. rewrite add_cnt_0. apply run_inert; auto; [now apply ws_inert|apply RM].
    + apply (G t' (length ms - 1)%nat); auto. intros s HSs RM.
      apply (proj2 (proj2 (run_values cp checked ex true buf (last p) HX HLB))); auto.
  - destruct HO as (es & ->). inversion HT as [| | | | |w Hw|es' t' HE| |]; subst.
    + apply (G w O); auto. intros s HSs RM. rewrite add_cnt_0. apply run_inert; auto; [now apply ws_inert|apply RM].
    + apply (G t' (length es - 1)%nat); auto. intros s HSs RM.
      apply (proj1 (proj2 (run_values cp checked ex false buf (last p) HX HLB))); auto.
Qed.
