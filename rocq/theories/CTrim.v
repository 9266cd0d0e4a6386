(** Skipping whitespace and comments: the comment policies end where the default
    policy ends on the document with spaces in place of the comments. *)
From Coq Require Import List NArith ZArith Bool Lia Arith ZifyBool ZifyNat ZifyN.
From Verif Require Import Base Mem Loop PolicyModel IntModel StrScanModel SkipModel SpecNum SpecText SpecJson SpecC
  IntProofs IntValueProofs StrScanProofs StrScanProofs2 SkipProofs SkipSafe GapProofs USim CModel CLex.
Import ListNotations.
Local Open Scope N_scope.
Set Default Proof Using "All".

Definition skipf (cp : pol) : list N -> nat -> nat -> res nat :=
  match cp with Com CCpp => cpp_comments_checked | Com CHash => hash_comments_checked | _ => fun _ i _ => Ok i end.
Definition skipu (cp : pol) : list N -> nat -> res nat :=
  match cp with Com CCpp => cpp_comments_unchecked | Com CHash => hash_comments_unchecked | _ => fun _ i => Ok i end.

Lemma plain_star : forall b, ~ In 42 b -> no_double_star b.
Proof. induction b as [|c b IH]; intros H; [constructor|]. apply ds_plain; [intros ->; apply H; now left|]. apply IH. intros X. apply H. now right. Qed.

Lemma memchr_unchecked_ok : forall c u buf i, ~ In c u -> sub_at buf i (u ++ [c]) -> memchr_unchecked c buf i = Ok (i + length u)%nat.
Proof.
  intros c u buf i NI HS. apply sub_at_app in HS as [S1 [S2 _]]. apply memchr_runs; [lia| |exact S2].
  intros k K. destruct (nth_error u (k - i)) as [b|] eqn:E; [|apply nth_error_None in E; lia].
  exists b. split; [replace k with (i + (k - i))%nat by lia; eapply sub_at_nth; eauto|]. intros ->. apply NI. eapply nth_error_In; eauto.
Qed.

Section Two.
  Context (cp : pol) (D B : list N).
  Hypothesis T : two cp D B.

  Local Notation step := (step cp D B).
  Local Notation reach := (reach cp D B).
  Local Notation repeat_at := (repeat_at cp D B T).
  Local Notation comment_head := (comment_opening cp D B T).
  Local Notation comment_len := (comment_len cp D B T).
  Local Notation reach_le := (reach_le cp D B T).
  Local Notation reach_trans := (reach_trans cp D B T).
  Local Notation reach_one := (reach_one cp D B T).
  Local Notation step_lt := (step_lt cp D B T).
  Local Notation step_byte := (step_byte cp D B T).
  Local Notation step_quote := (step_quote cp D B T).
  Local Notation reach_prev := (reach_prev cp D B T).
  Local Notation step_same := (step_same cp D B T).
  Local Notation same_eqb := (same_eqb cp D B T).
  Local Notation reach_drop := (reach_drop cp D B T).
  Local Notation step_prev := (step_prev cp D B T).

  Lemma NCP : cp <> CNone.
  Proof. apply T. Qed.
  Lemma HBB : is_bytes B.
  Proof. apply T. Qed.

  (** From [i] to [e] there are spaces, and no more. *)
  Definition spaces (i e l : nat) : Prop :=
    (i <= e <= l)%nat /\ (forall k, (i <= k < e)%nat -> exists b, nth_error B k = Some b /\ is_space b = true) /\
    (e = l \/ exists b, nth_error B e = Some b /\ is_space b = false).

  (** The same byte on both sides *)
  Definition plainly (j : nat) : Prop := exists b, nth_error B j = Some b /\ nth_error D j = Some b /\ opening cp b = false.

  Lemma step_plainly : forall x i y j, step x i y j -> plainly i \/ exists k n w, x = y /\ allowed x = true /\ comment cp k n /\ ws w /\ length w = n /\
    sub_at D i (k ++ w) /\ sub_at B i (repeat 32 (length k) ++ w) /\ j = (i + length k)%nat.
  Proof.
    intros x i y j H. inversion H as [x' i' b E1 E2 N1 N2 O|x' i' s HS S1 S2|x' i' k n w A C W LW S1 S2]; subst.
    - left. exists b. auto.
    - left. exists 34. destruct S1 as [S1 _]. destruct S2 as [S2 _]. repeat split; auto. pose proof NCP as NC0; clear T; destruct cp as [[| |]|]; [congruence|reflexivity|reflexivity|reflexivity].
    - right. exists k, (length w), w. repeat split; auto.
  Qed.

  Lemma min_comment : forall k n, cp = Min -> comment cp k n -> False.
  Proof. intros k n -> C. inversion C. Qed.
  Lemma min_plainly : forall x i y j, cp = Min -> step x i y j -> plainly i.
  Proof. intros x i y j EM ST. destruct (step_plainly _ _ _ _ ST) as [P|(k & n & w & _ & _ & C & _)]; [exact P|]. destruct (min_comment _ _ EM C). Qed.
  Lemma pol_cases : cp = Min \/ cp = CCpp \/ cp = CHash.
  Proof. pose proof NCP. clear T. destruct cp as [[| |]|]; auto. congruence. Qed.

  Lemma comment_fits : forall (k : list N) i e l, sub_at B i (repeat 32 (length k)) -> spaces i e l -> (i + length k <= l)%nat -> (i + length k <= e)%nat.
  Proof.
    intros k i e l HS (HL & _ & [->|(b & Hb & NS)]) HK; auto. destruct (Nat.le_gt_cases (i + length k) e); auto.
    rewrite (repeat_at _ _ _ HS) in Hb by lia. injection Hb as <-. discriminate.
  Qed.

  Lemma spaces_from : forall i j e l, spaces i e l -> (i <= j <= e)%nat -> spaces j e l.
  Proof. intros i j e l (HL & HS & HE) HJ. split; [lia|]. split; auto. intros k K. apply HS. lia. Qed.

  Lemma line_turn : forall b i l, ~ In 10 b -> (i + length b + 3 <= l)%nat -> sub_at D i (47 :: 47 :: b ++ [10]) ->
    memchr_checked c_nl D i l = Ok (i + length b + 2)%nat.
  Proof.
    intros b i l NB HL HS. rewrite (memchr_checked_ok 10 (47 :: 47 :: b)); [cbn [length]; f_equal; lia| |exact HS|].
    - cbn. intuition discriminate.
    - cbn [length] in *. lia.
  Qed.

  (** Comments one after the other *)
  Lemma skip_run : forall y e l, (l <= length D)%nat -> forall x i, reach x i y l -> spaces i e l ->
    exists j, skipf cp D i l = Ok j /\ (i <= j <= e)%nat /\ reach x i x j /\ reach x j y l /\ ((j < l)%nat -> plainly j).
  Proof.
    intros y e l HL. destruct pol_cases as [EM|NM].
    { intros x i R SP. exists i. split; [rewrite EM; reflexivity|]. split; [destruct SP as (? & _); lia|]. split; [constructor|]. split; [exact R|].
      intros LT. inversion R as [|? ? z j ? ? ST HR]; subst; [lia|]. eapply min_plainly; eauto. }
    assert (G : forall n x i f, (l - i <= n)%nat -> (l - i < f)%nat -> reach x i y l -> spaces i e l ->
      exists j, (match cp with
        | Com CCpp => loop (fun i =>
            if (i <? l)%nat then
              b <- rd D i ;;
              if b =? c_slash then
                d <- rd D (S i) ;;
                if d =? c_slash then
                  j <- memchr_checked c_nl D i l ;;
                  Ok (inl (if (j <? l)%nat then S j else j))
                else if d =? c_star then
                  j <- block_comment_checked D (i + 2) l ;; Ok (inl j)
                else Ok (inr i)
              else Ok (inr i)
            else Ok (inr i)) f i
        | _ => loop (fun i =>
            if (i <? l)%nat then
              b <- rd D i ;;
              if b =? c_hash then
                j <- memchr_checked c_nl D (S i) l ;;
                d <- rd D j ;;
                Ok (inl (if d =? c_nl then S j else j))
              else Ok (inr i)
            else Ok (inr i)) f i end) = Ok j /\ (i <= j <= e)%nat /\ reach x i x j /\ reach x j y l /\ ((j < l)%nat -> plainly j)).
    { induction n as [|n IH]; intros x i f LN LF HR HS; (destruct f as [|f]; [lia|]).
      - pose proof HS as (HS1 & _). assert (i = l) by lia. subst i. exists l.
        split; [destruct cp as [[| |]|]; cbn [loop]; rewrite Nat.ltb_irrefl; reflexivity|]. split; [lia|]. split; [constructor|]. split; auto. lia.
      - pose proof HS as (HS1 & _). destruct (Nat.eq_dec i l) as [->|NE].
        { exists l. split; [destruct cp as [[| |]|]; cbn [loop]; rewrite Nat.ltb_irrefl; reflexivity|]. split; [lia|]. split; [constructor|]. split; auto. lia. }
        inversion HR as [|? ? z j ? ? ST HR']; subst; [lia|].
        destruct (step_plainly _ _ _ _ ST) as [PL|(k & m & w & <- & A & C & W & LW & S1 & S2 & ->)].
        + exists i. pose proof PL as (b & Hb1 & Hb2 & O).
          split; [|split; [lia|]; split; [constructor|]; split; auto].
          destruct NM as [->| ->]; cbn [loop opening opens] in *; replace (i <? l)%nat with true by lia; rewrite (rd_some _ _ _ Hb2); cbn [bind];
            unfold c_slash, c_hash; rewrite O; reflexivity.
        + apply sub_at_app in S1 as [S1 _]. apply sub_at_app in S2 as [S2 _]. pose proof (reach_le _ _ _ _ HR') as LE.
          pose proof (comment_fits _ _ _ _ S2 HS LE) as FE. pose proof (comment_len _ _ C) as CL.
          destruct (IH x (i + length k)%nat f) as (j & E & J & R1 & R2 & PL); [lia|lia|exact HR'|eapply spaces_from; eauto; lia|].
          exists j. split; [|split; [lia|]; split; [|split; auto]].
          2:{ eapply reach_trans; [apply reach_one; exact ST|]. exact R1. }
          inversion C as [b NB EC|b NB EC|b N1 N2 EC]; subst; rewrite <- EC in E; rewrite <- ?EC.
          * cbn [loop]. replace (i <? l)%nat with true by lia. pose proof S1 as [S0 S3]. rewrite (rd_some _ _ _ S0). cbn [bind].
            change (35 =? c_hash) with true. cbn iota. cbn [length] in LE. rewrite app_length in LE. cbn [length] in LE.
            rewrite (memchr_checked_ok 10 b) by (auto; lia). cbn [bind].
            apply sub_at_app in S3 as [_ [S3 _]]. rewrite (rd_some _ _ _ S3). cbn [bind]. change (10 =? c_nl) with true. cbn iota.
            cbn [length] in E. rewrite app_length in E. cbn [length] in E. replace (S (S i + length b)) with (i + S (length b + 1))%nat by lia. exact E.
          * cbn [loop]. replace (i <? l)%nat with true by lia. pose proof S1 as (S0 & S3 & _). rewrite (rd_some _ _ _ S0). cbn [bind].
            change (47 =? c_slash) with true. cbn iota. rewrite (rd_some _ _ _ S3). cbn [bind]. change (47 =? c_slash) with true. cbn iota.
            rewrite (line_turn b i l NB) by (auto; cbn [length] in LE; rewrite app_length in LE; cbn [length] in LE; lia). cbn [bind].
            cbn [length] in *. rewrite app_length in *. cbn [length] in *.
            replace (i + length b + 2 <? l)%nat with true by lia. replace (S (i + length b + 2)) with (i + S (S (length b + 1)))%nat by lia. exact E.
          * cbn [loop]. replace (i <? l)%nat with true by lia. pose proof S1 as (S0 & S3 & S4). rewrite (rd_some _ _ _ S0). cbn [bind].
            change (47 =? c_slash) with true. cbn iota. rewrite (rd_some _ _ _ S3). cbn [bind]. change (42 =? c_slash) with false. change (42 =? c_star) with true. cbn iota.
            cbn [length] in *. rewrite app_length in *. cbn [length] in *.
            rewrite (block_comment_ok b) by (auto using plain_star; try lia; replace (i + 2)%nat with (S (S i)) by lia; exact S4). cbn [bind].
            replace (i + 2 + length b + 2)%nat with (i + S (S (length b + 2)))%nat by lia. exact E. }
    intros x i HR HS. destruct (G (l - i)%nat x i (S (l - i)) (le_n _) (le_n _) HR HS) as (j & E & X). exists j. split; [|exact X].
    destruct NM as [NM|NM]; rewrite NM in *; exact E.
  Qed.

  Lemma space_after : forall x b, b < 256 -> is_space b = true -> after x b = match x with Opened | Spaced => Spaced | _ => Anywhere end.
  Proof.
    intros x b HB H. rewrite is_space_spec in H by exact HB. unfold after. replace (b =? 91) with false by lia. unfold ws_byte. now rewrite H.
  Qed.

  (** trim_left *)
  Lemma trim_run : forall y e l, (l <= length D)%nat -> forall x i, reach x i y l -> spaces i e l ->
    comment_trim_checked (skipf cp) D i l = Ok e /\ exists z, reach x i z e /\ reach z e y l /\ ((e < l)%nat -> plainly e).
  Proof.
    intros y e l HL x i HR HS. unfold comment_trim_checked.
    destruct (skip_run y e l HL x i HR HS) as (j & E & J & R1 & R2 & PL). rewrite E. cbn [bind].
    assert (HSj : spaces j e l) by (eapply spaces_from; eauto).
    assert (G : forall n x i f, (l - i <= n)%nat -> (l - i < f)%nat -> reach x i y l -> spaces i e l -> ((i < l)%nat -> plainly i) ->
      loop (fun i => if (i <? l)%nat then b <- rd D i ;; if is_space b then j <- skipf cp D (S i) l ;; Ok (inl j) else Ok (inr i) else Ok (inr i)) f i = Ok e /\
      exists z, reach x i z e /\ reach z e y l /\ ((e < l)%nat -> plainly e)).
    { clear x i j HR HS E J R1 R2 PL HSj. induction n as [|n IH]; intros x i f LN LF HR HS PL; (destruct f as [|f]; [lia|]); pose proof HS as (HS1 & HS2 & HS3).
      - assert (i = l) by lia. assert (e = l) by lia. subst. cbn [loop]. rewrite Nat.ltb_irrefl. cbn [bind]. split; [reflexivity|].
        exists x. split; [constructor|]. auto.
      - destruct (Nat.eq_dec i e) as [->|NE].
        + split; [|exists x; split; [constructor|auto]]. cbn [loop]. destruct HS3 as [->|(b & Hb & NS)]; [now rewrite Nat.ltb_irrefl|].
          destruct (Nat.ltb_spec e l); [|reflexivity]. destruct (PL ltac:(lia)) as (b' & Hb1 & Hb2 & _). rewrite Hb in Hb1. injection Hb1 as <-.
          rewrite (rd_some _ _ _ Hb2). cbn [bind]. now rewrite NS.
        + destruct (PL ltac:(lia)) as (b & Hb1 & Hb2 & O). destruct (HS2 i ltac:(lia)) as (b' & Hb & SP). rewrite Hb1 in Hb. injection Hb as <-.
          inversion HR as [|? ? z j ? ? ST HR']; subst; [lia|].
          assert (STB : z = after x b /\ j = S i).
          { destruct (step_plainly _ _ _ _ ST) as [_|(k & m & w & _ & _ & C & _ & _ & S1 & _)].
            - assert (b <> 34) by (intros ->; discriminate). inversion ST as [x' i' b' E1 E2 N1 N2 O'|x' i' s HS' S1 S2|x' i' k n' w A C W LW S1 S2]; subst.
              + rewrite Hb2 in E1. injection E1 as <-. auto.
              + destruct S1 as [S1 _]. congruence.
              + exfalso. destruct (comment_head _ _ C) as (c & r & E & O'). rewrite E in S1. destruct S1 as [S1 _]. congruence.
            - exfalso. destruct (comment_head _ _ C) as (c & r & E & O'). rewrite E in S1. destruct S1 as [S1 _]. congruence. }
          destruct STB as [-> ->].
          destruct (skip_run y e l HL (after x b) (S i) HR' (spaces_from i (S i) e l HS ltac:(lia))) as (j & E & J & R1 & R2 & PLj).
          destruct (IH (after x b) j f) as (EL & z & Z1 & Z2 & Z3); [lia|lia|exact R2|eapply spaces_from; [exact HS|lia]|exact PLj|].
          split.
          * cbn [loop]. replace (i <? l)%nat with true by lia. rewrite (rd_some _ _ _ Hb2). cbn [bind]. rewrite SP, E. cbn [bind]. exact EL.
          * exists z. split; [|auto]. econstructor; [exact ST|]. eapply reach_trans; eauto. }
    destruct (G (l - j)%nat x j (S (l - j)) (le_n _) (le_n _) R2 HSj PL) as (E2 & z & Z1 & Z2 & Z3). split; [exact E2|].
    exists z. split; [eapply reach_trans; eauto|auto].
  Qed.

  (** ** Without looking at the end *)
  Lemma skipu_run : forall y e l, (l <= length D)%nat -> forall x i, reach x i y l -> spaces i e l -> (e < l)%nat ->
    exists j, skipu cp D i = Ok j /\ (i <= j <= e)%nat /\ reach x i x j /\ reach x j y l /\ plainly j.
  Proof.
    intros y e l HL. destruct pol_cases as [EM|NM].
    { intros x i R SP LT. exists i. split; [rewrite EM; reflexivity|]. split; [destruct SP as (? & _); lia|]. split; [constructor|]. split; [exact R|].
      inversion R as [|? ? z j ? ? ST HR]; subst; [destruct SP as (? & _); lia|]. eapply min_plainly; eauto. }
    assert (G : forall n x i f, (l - i <= n)%nat -> (length D - i < f)%nat -> reach x i y l -> spaces i e l -> (e < l)%nat ->
      exists j, (match cp with
        | Com CCpp => loop (fun i =>
            b <- rd D i ;;
            if b =? c_slash then
              d <- rd D (S i) ;;
              if d =? c_slash then j <- memchr_unchecked c_nl D i ;; Ok (inl (S j))
              else if d =? c_star then j <- block_comment_unchecked D (i + 2) ;; Ok (inl j)
              else Ok (inr i)
            else Ok (inr i)) f i
        | _ => loop (fun i =>
            b <- rd D i ;;
            if b =? c_hash then j <- memchr_unchecked c_nl D (S i) ;; Ok (inl (S j))
            else Ok (inr i)) f i end) = Ok j /\ (i <= j <= e)%nat /\ reach x i x j /\ reach x j y l /\ plainly j).
    { induction n as [|n IH]; intros x i f LN LF HR HS LT; (destruct f as [|f]; [lia|]); pose proof HS as (HS1 & _); [lia|].
      inversion HR as [|? ? z j ? ? ST HR']; subst; [lia|].
      destruct (step_plainly _ _ _ _ ST) as [PL|(k & m & w & <- & A & C & W & LW & S1 & S2 & ->)].
      - exists i. pose proof PL as (b & Hb1 & Hb2 & O).
        split; [|split; [lia|]; split; [constructor|]; split; auto].
        destruct NM as [->| ->]; cbn [loop opening opens] in *; rewrite (rd_some _ _ _ Hb2); cbn [bind];
          unfold c_slash, c_hash; rewrite O; reflexivity.
      - apply sub_at_app in S1 as [S1 _]. apply sub_at_app in S2 as [S2 _]. pose proof (reach_le _ _ _ _ HR') as LE.
        pose proof (comment_fits _ _ _ _ S2 HS LE) as FE. pose proof (comment_len _ _ C) as CL.
        destruct (IH x (i + length k)%nat f) as (j & E & J & R1 & R2 & PL); [lia|lia|exact HR'|eapply spaces_from; eauto; lia|lia|].
        exists j. split; [|split; [lia|]; split; [|split; auto]].
        2:{ eapply reach_trans; [apply reach_one; exact ST|]. exact R1. }
        inversion C as [b NB EC|b NB EC|b N1 N2 EC]; subst; rewrite <- EC in E; rewrite <- ?EC.
        + cbn [loop]. pose proof S1 as [S0 S3]. rewrite (rd_some _ _ _ S0). cbn [bind].
          change (35 =? c_hash) with true. cbn iota. rewrite (memchr_unchecked_ok 10 b) by auto. cbn [bind].
          cbn [length] in E. rewrite app_length in E. cbn [length] in E. replace (S (S i + length b)) with (i + S (length b + 1))%nat by lia. exact E.
        + cbn [loop]. pose proof S1 as (S0 & S3 & _). rewrite (rd_some _ _ _ S0). cbn [bind].
          change (47 =? c_slash) with true. cbn iota. rewrite (rd_some _ _ _ S3). cbn [bind]. change (47 =? c_slash) with true. cbn iota.
          rewrite (memchr_unchecked_ok 10 (47 :: 47 :: b)) by (auto; cbn; intuition discriminate). cbn [bind].
          cbn [length] in *. rewrite app_length in *. cbn [length] in *.
          replace (S (i + S (S (length b)))) with (i + S (S (length b + 1)))%nat by lia. exact E.
        + cbn [loop]. pose proof S1 as (S0 & S3 & S4). rewrite (rd_some _ _ _ S0). cbn [bind].
          change (47 =? c_slash) with true. cbn iota. rewrite (rd_some _ _ _ S3). cbn [bind]. change (42 =? c_slash) with false. change (42 =? c_star) with true. cbn iota.
          cbn [length] in *. rewrite app_length in *. cbn [length] in *.
          replace (block_comment_unchecked D (i + 2)) with (Ok (i + S (S (length b + 2)))%nat : res nat); [exact E|].
          unfold block_comment_unchecked. cbn [loop]. replace (i + 2)%nat with (S (S i)) by lia.
          change (b ++ [42; 47]) with (b ++ [42] ++ [47]) in S4. rewrite app_assoc in S4. apply sub_at_app in S4 as [S4 [S5 _]].
          rewrite app_length in S5. cbn [length] in S5. rewrite (memchr_unchecked_ok 42 b) by auto. cbn [bind].
          replace (S (S (S i) + length b)) with (S (S i) + (length b + 1))%nat by lia. rewrite (rd_some _ _ _ S5). cbn [bind].
          change (47 =? c_slash) with true. cbn iota. f_equal. lia. }
    intros x i HR HS LT. destruct (G (l - i)%nat x i (S (length D - i)) (le_n _) (le_n _) HR HS LT) as (j & E & X). exists j. split; [|exact X].
    destruct NM as [NM|NM]; rewrite NM in *; exact E.
  Qed.

  Lemma trimu_run : forall y e l, (l <= length D)%nat -> forall i, reach Opened i y l -> spaces i e l -> (e < l)%nat ->
    comment_trim_unchecked (skipu cp) D i = Ok e /\ exists z, reach Opened i z e /\ reach z e y l /\ plainly e.
  Proof.
    intros y e l HL i HR HS LT. unfold comment_trim_unchecked.
    destruct (skipu_run y e l HL Opened i HR HS LT) as (j & E & J & R1 & R2 & PL). rewrite E. cbn [bind].
    assert (HSj : spaces j e l) by (eapply spaces_from; eauto).
    assert (G : forall n x i f, (l - i <= n)%nat -> (length D - i < f)%nat -> reach x i y l -> spaces i e l ->
      (x = Opened /\ plainly i \/ x = Spaced) ->
      trim_loop_unchecked f D i = Ok e /\ exists z, reach x i z e /\ reach z e y l /\ plainly e).
    { clear i j HR HS E J R1 R2 PL HSj. induction n as [|n IH]; intros x i f LN LF HR HS PL; (destruct f as [|f]; [lia|]); pose proof HS as (HS1 & HS2 & HS3); [lia|].
      inversion HR as [|? ? z j ? ? ST HR']; subst; [lia|].
      assert (PLi : plainly i).
      { destruct (step_plainly _ _ _ _ ST) as [P|(k & m & w & _ & A & _)]; auto. destruct PL as [[_ P]|P]; auto. subst x. discriminate. }
      destruct PLi as (b & Hb1 & Hb2 & O). cbn [trim_loop_unchecked]. rewrite (rd_some _ _ _ Hb2). cbn [bind].
      destruct (Nat.eq_dec i e) as [->|NE].
      - destruct HS3 as [|(b' & Hb & NS)]; [lia|]. rewrite Hb1 in Hb. injection Hb as <-. rewrite NS. split; [reflexivity|].
        exists x. split; [constructor|]. split; auto. exists b. auto.
      - destruct (HS2 i ltac:(lia)) as (b' & Hb & SP). rewrite Hb1 in Hb. injection Hb as <-. rewrite SP.
        assert (STB : z = Spaced /\ j = S i).
        { assert (b <> 34) by (intros ->; discriminate). inversion ST as [x' i' b' E1 E2 N1 N2 O'|x' i' s HS' S1 S2|x' i' k n' w A C W LW S1 S2]; subst.
          - rewrite Hb2 in E1. injection E1 as <-. split; auto. rewrite space_after; auto; [|eapply is_bytes_nth; [exact HBB|eauto]].
            destruct PL as [[-> _]| ->]; reflexivity.
          - destruct S1 as [S1 _]. congruence.
          - exfalso. destruct (comment_head _ _ C) as (c & r & E & O'). rewrite E in S1. destruct S1 as [S1 _]. congruence. }
        destruct STB as [-> ->].
        destruct (IH Spaced (S i) f) as (EL & z & Z1 & Z2 & Z3); [lia|lia|exact HR'|eapply spaces_from; eauto; lia|now right|].
        split; [exact EL|]. exists z. split; [|auto]. econstructor; eauto. }
    destruct (G (l - j)%nat Opened j (S (length D)) (le_n _) ltac:(lia) R2 HSj (or_introl (conj eq_refl PL))) as (E2 & z & Z1 & Z2 & Z3). split; [exact E2|].
    exists z. split; [eapply reach_trans; eauto|auto].
  Qed.
End Two.
