(** Numbers, literals, names and custom values on the document with comments and on the one with spaces in
    their place. *)
From Coq Require Import List NArith ZArith Bool Lia Arith ZifyBool ZifyNat ZifyN.
From Verif Require Import Base Mem Loop PolicyModel IntModel StrScanModel SkipModel SpecNum SpecText SpecJson SpecC
  IntProofs IntValueProofs StrScanProofs StrScanProofs2 SkipProofs SkipSafe GapProofs PropertiesStr PropertiesSkip ClassProofs
  StrDecodeModel StrDecodeProofs StrDecodeSafe ValueModel ZInt CModel CLex CTrim CState CSkip CBracket CScalar.
Import ListNotations.
Local Open Scope N_scope.
Set Default Proof Using "All".

Definition covered_c (g : cfg) : Prop := c_ex g = ExConstexpr /\ c_excl g = false.

Lemma name_end : forall s, str_body s -> forall u rest, s ++ [34] = u ++ 34 :: rest -> ~ In 34 u -> (forall v c, u = v ++ [c] -> c <> 92) -> u = s.
Proof.
  induction 1 as [|c t N1 N2 HT IH|c t HT IH]; intros u rest E NI NL.
  - destruct u as [|x u]; auto. cbn in E. injection E as <- E. destruct u; discriminate.
  - destruct u as [|x u]; cbn in E; [injection E as -> _; congruence|]. injection E as <- E. f_equal. apply (IH u rest); auto; [cbn in NI; tauto|].
    intros v d ->. apply (NL (c :: v)). reflexivity.
  - destruct u as [|x u]; cbn in E; [discriminate|]. injection E as <- E. destruct u as [|y u]; [exfalso; now apply (NL [] 92)|].
    cbn in E. injection E as <- E. f_equal. f_equal. apply (IH u rest); auto; [cbn in NI; tauto|].
    intros v d ->. apply (NL (92 :: c :: v)). reflexivity.
Qed.

Lemma first_quote : forall s, exists u rest, s ++ [34] = u ++ 34 :: rest /\ ~ In 34 u /\ (length u <= length s)%nat.
Proof.
  induction s as [|c s IH]; [exists [], []; cbn; auto|]. destruct (N.eq_dec c 34) as [->|NE].
  - exists [], (s ++ [34]). cbn. split; [reflexivity|]. split; [tauto|lia].
  - destruct IH as (u & rest & E & NI & L). exists (c :: u), rest. cbn. rewrite E. split; [reflexivity|]. split; [intros [X|X]; [congruence|auto]|lia].
Qed.

Lemma last_of : forall u : list N, u = [] \/ exists v c, u = v ++ [c].
Proof. intros u. destruct u as [|x u] using rev_ind; eauto. Qed.

Section Two.
  Context (cp : pol) (D B : list N).
  Hypothesis T : two cp D B.

  Local Notation step := (step cp D B).
  Local Notation reach := (reach cp D B).
  Local Notation repeat_at := (repeat_at cp D B T).
  Local Notation comment_head := (comment_head cp D B T).
  Local Notation comment_len := (comment_len cp D B T).
  Local Notation reach_le := (reach_le cp D B T).
  Local Notation reach_trans := (reach_trans cp D B T).
  Local Notation reach_one := (reach_one cp D B T).
  Local Notation step_lt := (step_lt cp D B T).
  Local Notation step_byte := (step_byte cp D B T).
  Local Notation step_quote := (step_quote cp D B T).
  Local Notation reach_prev := (reach_prev cp D B T).
  Local Notation step_same := (step_same cp D B T).
  Local Notation same := (same cp).
  Local Notation same_eqb := (same_eqb cp D B T).
  Local Notation same_digit := (same_digit cp D B T).
  Local Notation step_prev := (step_prev cp D B T).
  Local Notation prev := (prev D B).
  Local Notation plainly := (plainly cp D B).
  Local Notation spaces := (spaces B).
  Local Notation step_plainly := (step_plainly cp D B T).
  Local Notation opening_spec := (opening_spec cp D B T).
  Local Notation LEN := (LEN cp D B T).
  Local Notation HBD := (HBD cp D B T).
  Local Notation HBBt := (HBBt cp D B T).
  Local Notation NCPt := (NCPt cp D B T).
  Local Notation H32 := (H32 cp D B T).
  Local Notation both := (both cp D B).
  Local Notation both_at := (both_at cp D B T).
  Local Notation same_pd := (same_pd cp D B T).
  Local Notation fin := (fin cp D B).
  Local Notation st := (st cp D B).
  Local Notation st_le := (st_le cp D B T).
  Local Notation st_wf := (st_wf cp D B T).
  Local Notation st_moved := (st_moved cp D B T).
  Local Notation st_both := (st_both cp D B T).
  Local Notation sp_front := (sp_front cp D B T).
  Local Notation sp_is_at := (sp_is_at cp D B T).
  Local Notation after_trim := (after_trim cp D B).
  Local Notation sp_trim := (sp_trim cp D B T).
  Local Notation st_step := (st_step cp D B T).
  Local Notation run_bytes := (run_bytes cp D B T).
  Local Notation st_bytes := (st_bytes cp D B T).
  Local Notation ended_plainly := (ended_plainly cp D B T).
  Local Notation sp_starts := (sp_starts cp D B T).
  Local Notation sp_after := (sp_after cp D B T).

  Local Notation agree := (agree D B).
  Local Notation rng := (rng cp D B).
  Local Notation skipped := (skipped cp D B).
  Local Notation sp_number := (sp_number cp D B T).
  Local Notation sp_bool := (sp_bool cp D B T).
  Local Notation sp_null := (sp_null cp D B T).
  Local Notation sp_string := (sp_string cp D B T).
  Local Notation st_quote := (st_quote cp D B T).
  Local Notation moved_trim := (moved_trim cp D B T).
  Local Notation instr := (instr D B).
  Local Notation sp_string_in := (sp_string_in cp D B T).
  Local Notation digits_c := (digits_c cp D B T).
  Local Notation sp_bracketed := (sp_bracketed cp D B T).
  Local Notation sp_skip_value := (sp_skip_value cp D B T).
  Local Notation sp_skip_literal := (sp_skip_literal cp D B T).
  Local Notation known_string := (known_string cp D B T).
  Local Notation here_string := (here_string cp D B T).
  Local Notation view_same := (view_same cp D B T).
  Local Notation rd_same := (rd_same cp D B T).
  Local Notation sub_agree := (sub_agree cp D B T).
  Local Notation agree_sub := (agree_sub cp D B T).
  Local Notation instr_agree := (instr_agree cp D B T).

  (** The byte before is no quote *)
  Definition notq (i : nat) : Prop := exists k b, i = S k /\ nth_error B k = Some b /\ b <> 34.
  Definition loc (r : ps) : Prop := rng notq r.

  (** The two parsers on a state that is met, and on a range that is no string *)
  Definition here (P Pc : list N -> ps -> res (val * ps)) : Prop := forall p, st p -> simP (fun vq => st (snd vq) /\ moved p (snd vq)) (P B p) (Pc D p).
  Definition there (P Pc : list N -> ps -> res (val * ps)) : Prop :=
    forall r, loc r -> isnull r = false -> notq (first r) -> simP (fun _ => True) (P B r) (Pc D r).

  Lemma str_quoted : forall r, instr r -> ~ notq (first r).
  Proof. intros r H (k & b & E & Hb & NB). destruct (instr_agree r H) as (i & F & _ & B0 & _). assert (i = k) by lia. congruence. Qed.

  Lemma sp_bind_any : forall A C (Q : C -> Prop) (x y : res A) (f g : A -> res C), simP (fun _ => True) x y -> (forall a, simP Q (f a) (g a)) -> simP Q (bind x f) (bind y g).
  Proof. intros A C Q x y f g H K. eapply sp_bind; [exact H|]. intros a _. apply K. Qed.

  (** ** Unsigned *)

  Lemma sp_unsigned : forall w rc p, st p ->
    simP (fun vq => exists ds, digits ds /\ sub_at B (first p) ds /\ snd vq = set_first p (first p + length ds) /\ st (snd vq) /\ (first p < last p)%nat /\
        ((first p + length ds < last p)%nat -> exists b, nth_error B (first p + length ds) = Some b /\ ~ is_dig b) /\
        (ds <> [] -> (first p + length ds < last p)%nat -> plainly (first p + length ds)))
      (unsigned_parser false w rc B p) (unsigned_parser false w rc D p).
  Proof.
    intros w rc p H vq E. pose proof (st_le _ H) as L. pose proof LEN as LD. pose proof H as (_ & _ & _ & (x & y & R) & _).
    unfold unsigned_parser in *. destruct (Nat.ltb_spec (first p) (last p)) as [LT|GE].
    2:{ unfold unsigned_parser_not_known, has_more in E. replace (first p <? last p)%nat with false in E by lia. discriminate. }
    destruct (digits_c x (first p) y (last p) ltac:(lia) R) as (ds & _ & _ & DS & SB & LE & ND).
    assert (NBS : Forall nb ds) by (eapply Forall_impl; [|exact DS]; intros c HC; unfold is_dig in HC; unfold nb; split; lia).
    destruct (st_bytes p ds H SB NBS LE) as (H2 & SD & z & y2 & R2 & LASTP).
    assert (RB : run_ends B (first p + length ds) (last p)).
    { split; [exact LE|]. destruct (Nat.eq_dec (first p + length ds) (last p)); [now left|right; apply ND; lia]. }
    assert (RD : run_ends D (first p + length ds) (last p)).
    { split; [exact LE|]. destruct (Nat.eq_dec (first p + length ds) (last p)) as [|NE]; [now left|right].
      destruct (ND ltac:(lia)) as (b & Hb & NB). destruct (both_at _ _ _ _ R2 ltac:(lia)) as (b' & d & Hb' & Hd & SM). assert (b' = b) by congruence. subst b'.
      exists d. split; [exact Hd|]. intros X. apply NB. now apply (same_digit _ _ SM). }
    rewrite (not_known_run w rc B p ds HBBt ltac:(lia) LT DS SB RB) in E. rewrite (not_known_run w rc D p ds HBD ltac:(lia) LT DS SD RD).
    split; [exact E|]. exists ds. split; [exact DS|]. split; [exact SB|].
    assert (SQ : snd vq = set_first p (first p + length ds)).
    { cbv zeta in E. destruct rc; [destruct (ensure _ _) in E; cbn [bind] in E; try discriminate; destruct (narrow_cast_u _ _) in E; cbn [bind] in E; try discriminate|]; injection E as <-; reflexivity. }
    split; [exact SQ|]. split; [rewrite SQ; exact H2|]. split; [exact LT|]. split; [exact ND|].
    intros NE LT2. destruct (last_of ds) as [->|(v & c & ->)]; [congruence|]. destruct (LASTP v c eq_refl) as (x' & ->).
    apply Forall_app in DS as [_ DC]. apply Forall_inv in DC. unfold is_dig in DC.
    assert (AE : after x' c = Ended).
    { unfold after. replace (c =? 91) with false by lia. unfold ws_byte. replace ((1 <=? c) && (c <=? 32)) with false by lia.
      replace ((48 <=? c) && (c <=? 57)) with true by lia. reflexivity. }
    rewrite AE in R2. eapply ended_plainly; eauto.
  Qed.

  Lemma number_digit : forall b, b < 256 -> is_number b = true -> is_dig b.
  Proof.
    intros b L H. unfold is_number, c_0 in H. unfold is_dig. change (2^32) with 4294967296 in H. destruct (N.ltb_spec b 48) as [LT|GE].
    - rewrite N.mod_small in H by lia. lia.
    - replace (b + 4294967296 - 48) with ((b - 48) + 1 * 4294967296) in H by lia. rewrite N.mod_add, N.mod_small in H by lia. lia.
  Qed.

  Lemma number_eq : forall b d, same b d -> is_number d = is_number b.
  Proof.
    intros b d [->|[-> O]]; auto. apply opening_spec in O. destruct O as [->| ->]; reflexivity.
  Qed.

  Lemma here_unsigned : forall w rc, here (fun buf p => '(v, p) <- parse_value_unsigned false LSNever w rc buf p ;; Ok (VInt (Z.of_N v), p))
    (fun buf p => '(v, p) <- parse_value_unsigned false LSNever w rc buf p ;; Ok (VInt (Z.of_N v), p)).
  Proof.
    intros w rc p H. apply (sp_bind _ _ (fun vq => st (snd vq) /\ moved p (snd vq))); [|intros [v q] X; apply sp_ok; exact X].
    unfold parse_value_unsigned. cbn [skip_quote_when_literal_as_string bind]. apply sp_ensure. intros HM. apply sp_front; [exact H|]. intros b d Hb Hd SM B256 D256.
    rewrite (number_eq _ _ SM). apply sp_ensure. intros IN. apply number_digit in IN; [|exact B256].
    eapply sp_bind; [apply (sp_unsigned w rc p H)|]. intros [v q] (ds & DS & SB & EQ & HQ & LT & ND & PL). cbn [snd] in *. cbn [bind].
    assert (ds <> []).
    { intros ->. cbn [length] in ND. rewrite Nat.add_0_r in ND. destruct (ND LT) as (b' & Hb' & NB). congruence. }
    unfold end_of_item_ok. apply sp_after; [exact HQ| |].
    { rewrite EQ. cbn [first last set_first]. auto. }
    intros r. apply sp_ensure. intros _. apply sp_ok. cbn [snd]. split; [exact HQ|]. rewrite EQ. repeat split.
  Qed.

  (** Known bounds *)
  Lemma rd64_same : forall i j k, agree i j -> (i <= k)%nat -> (k + 8 <= j)%nat -> rd64 D k = rd64 B k.
  Proof. intros i j k A L1 L2. unfold rd64. rewrite !(rd_same i j) by (auto; lia). reflexivity. Qed.

  Lemma known16_same : forall fuel i l acc, agree i l -> known16 fuel D i l acc = known16 fuel B i l acc.
  Proof.
    induction fuel as [|f IH]; intros i l acc A; [reflexivity|]. cbn [known16]. destruct (Nat.leb_spec 16 (l - i)); [|reflexivity].
    unfold parse_16_digits, parse_8_digits. rewrite !(rd64_same i l) by (auto; lia).
    destruct (rd64 B i); cbn [bind]; auto. destruct (rd64 B (i + 8)); cbn [bind]; auto. apply IH. eapply agree_sub; eauto; lia.
  Qed.

  Lemma known1_same : forall fuel i l acc, agree i l -> known1 fuel D i l acc = known1 fuel B i l acc.
  Proof.
    induction fuel as [|f IH]; intros i l acc A; [reflexivity|]. cbn [known1]. destruct (Nat.ltb_spec i l); [|reflexivity].
    rewrite (rd_same i l) by (auto; lia). destruct (rd B i); cbn [bind]; auto. apply IH. eapply agree_sub; eauto; lia.
  Qed.

  Lemma known16_moves : forall fuel buf i l acc j a, known16 fuel buf i l acc = Ok (j, a) -> (i <= j)%nat.
  Proof.
    induction fuel as [|f IH]; intros buf i l acc j a E; [discriminate|]. cbn [known16] in E. destruct (16 <=? l - i)%nat; [|injection E as <- _; lia].
    destruct (parse_16_digits buf i); cbn [bind] in E; try discriminate. apply IH in E. lia.
  Qed.

  Lemma unsigned_known_same : forall w rc r, agree (first r) (last r) -> unsigned_parser true w rc D r = unsigned_parser true w rc B r.
  Proof.
    intros w rc r A. unfold unsigned_parser, unsigned_parser_known. rewrite (known16_same _ (first r) (last r)) by exact A.
    destruct (known16 _ B (first r) (last r) 0) as [[i acc]| | |] eqn:E; cbn [bind]; auto. apply known16_moves in E.
    assert (A2 : agree i (last r)) by (eapply agree_sub; eauto; lia).
    destruct (Nat.leb_spec 8 (last r - i)).
    - unfold parse_8_digits. rewrite (rd64_same i (last r)) by (auto; lia). destruct (rd64 B i); cbn [bind]; auto.
      rewrite (known1_same _ (i + 8)) by (eapply agree_sub; eauto; lia). reflexivity.
    - cbn [bind]. rewrite (known1_same _ i) by exact A2. reflexivity.
  Qed.

  (** A range that is no string: the text of a scalar, or a bracket *)
  Lemma there_cases : forall (P Pc : list N -> ps -> res (val * ps)),
    (forall r b, isnull r = false -> notq (first r) -> (first r < last r <= length B)%nat -> agree (first r) (last r) -> nth_error B (first r) = Some b ->
      is_space b = false -> b <> 34 -> b <> 91 -> b <> 123 -> simP (fun _ => True) (P B r) (Pc D r)) ->
    (forall r b, st r -> notq (first r) -> (first r < last r)%nat -> nth_error B (first r) = Some b -> b = 91 \/ b = 123 -> simP (fun _ => True) (P B r) (Pc D r)) ->
    there P Pc.
  Proof.
    intros P Pc H1 H2 r HR NN NQ. destruct HR as [X _|X|b N Q PV L A Hb SP N1 N2 N3|b Q HS LT Hb HB]; [congruence|exfalso; eapply str_quoted; eauto|eauto|eauto].
  Qed.

  Lemma there_unsigned : forall w rc, there (fun buf p => '(v, p) <- parse_value_unsigned true LSNever w rc buf p ;; Ok (VInt (Z.of_N v), p))
    (fun buf p => '(v, p) <- parse_value_unsigned true LSNever w rc buf p ;; Ok (VInt (Z.of_N v), p)).
  Proof.
    intros w rc. apply there_cases.
    - intros r b _ _ L A Hb _ _ _ _. unfold parse_value_unsigned, validate_unsigned_first, front. rewrite (rd_same (first r) (last r) (first r)) by (auto; lia).
      rewrite unsigned_known_same by exact A. unfold ps_size. destruct (Nat.ltb_spec 1 (last r - first r)).
      + rewrite (rd_same (first r) (last r) (first r + 1)) by (auto; lia). apply sp_same; auto.
      + apply sp_same; auto.
    - intros r b _ _ _ Hb HB a E. exfalso. unfold parse_value_unsigned, validate_unsigned_first, front in E. rewrite (rd_some _ _ _ Hb) in E. destruct HB as [->| ->]; discriminate.
  Qed.

  (** ** Signed *)

  Lemma sp_signed_first : forall p, st p -> simP (fun sq => st (snd sq) /\ moved p (snd sq)) (validate_signed_first B p) (validate_signed_first D p).
  Proof.
    intros p H. unfold validate_signed_first. apply sp_ensure. intros HM. unfold has_more in HM. apply Nat.ltb_lt in HM.
    apply sp_front; [exact H|]. intros b d Hb Hd SM B256 D256. rewrite !(same_eqb _ _ _ SM) by (vm_compute; discriminate).
    replace ((49 <=? d) && (d <=? 57)) with ((49 <=? b) && (b <=? 57)).
    2:{ destruct SM as [->|[-> O]]; auto. apply opening_spec in O. lia. }
    assert (SAME : st p /\ moved p p) by (split; [exact H|apply moved_refl]).
    destruct (N.eqb_spec b c_minus) as [->|].
    - apply sp_ok. cbn [snd]. destruct (st_step p _ H HM Hb) as (H2 & _); [vm_compute; discriminate|vm_compute; discriminate|]. split; [exact H2|repeat split].
    - destruct ((49 <=? b) && (b <=? 57)); [apply sp_ok; exact SAME|]. destruct (N.eqb_spec b c_0) as [->|]; [|apply sp_err].
      unfold ps_size. destruct (Nat.ltb_spec 1 (last p - first p)) as [L1|]; [|apply sp_ok; exact SAME].
      destruct (st_step p _ H HM Hb) as (H2 & _ & x & y & R); [vm_compute; discriminate|vm_compute; discriminate|].
      destruct (both_at _ _ _ _ R ltac:(lia)) as (b2 & d2 & Hb2 & Hd2 & SM2). rewrite Nat.add_1_r. rewrite (rd_some _ _ _ Hb2), (rd_some _ _ _ Hd2). cbn [bind].
      pose proof (number_eq _ _ SM2) as NE. unfold is_number in NE.
      rewrite !(N.leb_antisym _ 10). rewrite NE. apply sp_ensure. intros _. apply sp_ok. exact SAME.
  Qed.

  Lemma here_signed : forall w rc, here (fun buf p => '(v, p) <- parse_value_signed false LSNever w rc buf p ;; Ok (VInt v, p))
    (fun buf p => '(v, p) <- parse_value_signed_c cp false w rc buf p ;; Ok (VInt v, p)).
  Proof.
    intros w rc p H. apply (sp_bind _ _ (fun vq => st (snd vq) /\ moved p (snd vq))); [|intros [v q] X; apply sp_ok; exact X].
    unfold parse_value_signed, parse_value_signed_c. cbn [skip_quote_when_literal_as_string].
    destruct (ensure (has_more p) UnexpectedEndOfData); cbn [bind]; try (intros ? X; discriminate).
    eapply sp_bind; [apply (sp_signed_first p H)|]. intros [sg p1] [H1 M1]. cbn [snd] in *.
    eapply sp_bind; [apply (sp_unsigned w rc p1 H1)|]. intros [u p2] (ds & _ & _ & EQ & H2 & _). cbn [snd] in *.
    apply (sp_bind _ _ (fun _ => True)); [apply sp_same; auto|]. intros v _. cbn [bind].
    eapply sp_bind; [apply (sp_trim p2 H2)|]. intros q AT. pose proof AT as (H3 & _ & _ & PL & _).
    unfold end_of_item_ok. apply sp_after; [exact H3|exact PL|]. intros r. apply sp_ensure. intros _. apply sp_ok. cbn [snd]. split; [exact H3|].
    eapply moved_trans; [exact M1|]. eapply moved_trans; [|eapply moved_trim; exact AT]. rewrite EQ. repeat split.
  Qed.

  Lemma there_signed : forall w rc, there (fun buf p => '(v, p) <- parse_value_signed true LSNever w rc buf p ;; Ok (VInt v, p))
    (fun buf p => '(v, p) <- parse_value_signed_c cp true w rc buf p ;; Ok (VInt v, p)).
  Proof.
    intros w rc. apply there_cases.
    - intros r b _ _ L A Hb _ _ _ _. unfold parse_value_signed, parse_value_signed_c, validate_signed_first, front. rewrite !(rd_same (first r) (last r) (first r)) by (auto; lia).
      rewrite (rd_some _ _ _ Hb). cbn [bind]. destruct (ensure (is_number_start b) _); cbn [bind]; try (intros ? X; discriminate).
      destruct (ensure (has_more r) _); cbn [bind]; try (intros ? X; discriminate).
      assert (K : forall s q, (first r <= first q)%nat -> last q = last r -> simP (fun _ => True)
        ('(v, p) <- ('(u, p) <- unsigned_parser true w rc B q ;; v <- to_signed w u s ;; Ok (v, p)) ;; Ok (VInt v, p))
        ('(v, p) <- ('(u, p) <- unsigned_parser true w rc D q ;; v <- to_signed w u s ;; Ok (v, p)) ;; Ok (VInt v, p))).
      { intros s q LQ EQ. rewrite unsigned_known_same by (rewrite EQ; eapply agree_sub; eauto; lia). apply sp_same; auto. }
      destruct (b =? c_minus); cbn [bind]; [apply K; [unfold remove_prefix; cbn [first set_first]; lia|reflexivity]|]. destruct ((49 <=? b) && (b <=? 57)); cbn [bind]; [apply K; auto|].
      destruct (b =? c_0); cbn [bind]; [|apply sp_err].
      unfold ps_size. destruct (Nat.ltb_spec 1 (last r - first r)); cbn [bind]; [|apply K; auto].
      rewrite (rd_same (first r) (last r) (first r + 1)) by (auto; lia). destruct (rd B (first r + 1)); cbn [bind]; try (intros ? X; discriminate).
      destruct (ensure _ _); cbn [bind]; try (intros ? X; discriminate). apply K; auto.
    - intros r b _ _ _ Hb HB a E. exfalso. unfold parse_value_signed, front in E. rewrite (rd_some _ _ _ Hb) in E. destruct HB as [->| ->]; discriminate.
  Qed.

  (** ** Literals *)

  Lemma letters_nb : Forall (fun c => nb c /\ c <> 35 /\ c <> 47) [116; 114; 117; 101] /\ Forall (fun c => nb c /\ c <> 35 /\ c <> 47) [102; 97; 108; 115; 101] /\
    Forall (fun c => nb c /\ c <> 35 /\ c <> 47) [110; 117; 108; 108].
  Proof. repeat split; repeat (constructor; [unfold nb; lia|]); constructor. Qed.

  Lemma word_moves : forall p u, st p -> Forall (fun c => nb c /\ c <> 35 /\ c <> 47) u -> (first p + length u <= last p)%nat -> sub_at B (first p) u ->
    st (remove_prefix p (length u)) /\ moved p (remove_prefix p (length u)) /\
    exists z y, reach z (first p + length u) y (last p) /\ (forall r c, u = r ++ [c] -> exists x', z = after x' c).
  Proof.
    intros p u H F L S1. assert (F' : Forall nb u) by (eapply Forall_impl; [|exact F]; intros c X; apply X).
    destruct (st_bytes p u H S1 F' L) as (H2 & _ & R). split; [exact H2|]. split; [repeat split|exact R].
  Qed.

  Lemma here_bool : here (parse_value_bool false) (parse_value_bool_c cp false).
  Proof.
    intros p H. destruct letters_nb as (LT & LF & _). unfold parse_value_bool, parse_value_bool_c.
    apply sp_starts; [exact H|exact LT|]. intros r HR.
    apply (sp_bind _ _ (fun vq => st (snd vq) /\ moved p (snd vq))).
    - destruct r.
      + destruct (HR eq_refl) as [L S1]. apply sp_ok. cbn [snd]. destruct (word_moves p _ H LT L S1) as (H2 & M & _). split; [exact H2|exact M].
      + apply sp_starts; [exact H|exact LF|]. intros r HR2. destruct r; [|apply sp_err]. destruct (HR2 eq_refl) as [L S1]. apply sp_ok. cbn [snd].
        destruct (word_moves p _ H LF L S1) as (H2 & M & _). split; [exact H2|exact M].
    - intros [b p1] [H1 M1]. cbn [snd] in *. eapply sp_bind; [apply (sp_trim p1 H1)|]. intros q AT. pose proof AT as (H3 & _ & _ & PL & _).
      unfold end_of_item_ok. apply sp_after; [exact H3|exact PL|]. intros e. apply sp_ensure. intros _. apply sp_ok. cbn [snd]. split; [exact H3|].
      eapply moved_trans; [exact M1|eapply moved_trim; exact AT].
  Qed.

  Lemma there_bool : there (parse_value_bool true) (parse_value_bool_c cp true).
  Proof.
    apply there_cases.
    - intros r b _ _ L A Hb _ _ _ _. unfold parse_value_bool, parse_value_bool_c, front. rewrite (rd_same (first r) (last r) (first r)) by (auto; lia). apply sp_same; auto.
    - intros r b _ _ _ Hb HB a E. exfalso. unfold parse_value_bool, front in E. rewrite (rd_some _ _ _ Hb) in E. destruct HB as [->| ->]; discriminate.
  Qed.

  Lemma here_null : forall P Pc, here (P false) (Pc false) -> here (parse_value_null P false) (parse_value_null_c cp Pc false).
  Proof.
    intros P Pc HP p H. destruct letters_nb as (_ & _ & LN). unfold parse_value_null, parse_value_null_c.
    apply (sp_bind _ _ (fun _ => True)).
    - unfold has_more. destruct (first p <? last p)%nat; [|apply sp_ok; exact I]. apply sp_front; [exact H|]. intros b d Hb Hd SM _ _. unfold is_token_after_value.
      rewrite !(same_eqb _ _ _ SM) by (vm_compute; discriminate). apply sp_ok. exact I.
    - intros none _. destruct none; [apply sp_ok; split; [exact H|apply moved_refl]|]. apply sp_starts; [exact H|exact LN|]. intros r HR. destruct r.
      + destruct (HR eq_refl) as [L S1]. destruct (word_moves p _ H LN L S1) as (H2 & M & z & y & R & LP). cbn [length] in *.
        destruct (LP [110; 117; 108] 108 eq_refl) as (x' & ->). assert (AE : after x' 108 = Ended) by reflexivity. rewrite AE in R.
        unfold end_of_item_ok. apply sp_after; [exact H2| |].
        { unfold remove_prefix. cbn [first last set_first]. intros LT. eapply ended_plainly; eauto. }
        intros e. apply sp_ensure. intros _. eapply sp_bind; [apply (sp_trim _ H2)|]. intros q AT. pose proof AT as (H3 & _). apply sp_ok. cbn [snd]. split; [exact H3|].
        eapply moved_trans; [exact M|eapply moved_trim; exact AT].
      + eapply sp_bind; [apply (HP p H)|]. intros [v q] X. apply sp_ok. exact X.
  Qed.

  (** ** Names *)

  Lemma notq_trim : forall p q b k, after_trim p q -> first p = S k -> nth_error B k = Some b -> b <> 34 -> notq (first q).
  Proof.
    intros p q b k (_ & _ & L & _ & (_ & SP & _)) F Hb NB. destruct (Nat.eq_dec (first q) (first p)) as [->|NE]; [exists k, b; auto|].
    destruct (SP (first q - 1)%nat ltac:(lia)) as (c & Hc & IS). exists (first q - 1)%nat, c. split; [lia|]. split; [exact Hc|]. intros ->. discriminate.
  Qed.

  Lemma sp_end_of_name : forall p, st p -> simP (fun q => st q /\ moved p q /\ notq (first q)) (trim_end_of_name B p) (trim_end_of_name_c cp D p).
  Proof.
    intros p H. unfold trim_end_of_name, trim_end_of_name_c. eapply sp_bind; [apply (sp_trim p H)|]. intros p1 AT. pose proof AT as (H1 & _).
    apply sp_ensure. intros HM. unfold has_more in HM. apply Nat.ltb_lt in HM. apply sp_front; [exact H1|]. intros b d Hb Hd SM _ _.
    rewrite (same_eqb _ _ _ SM) by (vm_compute; discriminate). apply sp_ensure. intros HC. apply N.eqb_eq in HC. subst b.
    destruct (st_step p1 _ H1 HM Hb) as (H2 & _); [vm_compute; discriminate|vm_compute; discriminate|].
    eapply sp_weaken; [apply (sp_trim _ H2)|]. intros q AT2. pose proof AT2 as (H3 & _). split; [exact H3|]. split.
    - eapply moved_trans; [eapply moved_trim; exact AT|]. eapply moved_trans; [|eapply moved_trim; exact AT2]. repeat split.
    - eapply notq_trim; [exact AT2| |exact Hb|vm_compute; discriminate]. unfold remove_prefix. cbn [first set_first]. lia.
  Qed.

  Lemma nq_of : forall buf p, nth_error buf (first p) = Some 34 -> isnull p = false -> (S (first p) < last p)%nat ->
    skip_string true ExConstexpr false false buf p = skip_string_nq true ExConstexpr false buf (remove_prefix p 1).
  Proof.
    intros buf p Hb NN L. unfold skip_string, ps_empty. rewrite NN. replace (last p <=? first p)%nat with false by lia. cbn [orb].
    unfold front. rewrite (rd_some _ _ _ Hb). cbn [bind]. change (34 =? c_quote) with true. cbn [ensure bind].
    unfold has_more, remove_prefix at 1 2. cbn [first last set_first]. replace (first p + 1 <? last p)%nat with true by lia. cbn [ensure bind].
    destruct (skip_string_nq true ExConstexpr false buf (remove_prefix p 1)) as [[r q]| | |]; reflexivity.
  Qed.

  Lemma sp_name : forall g p, covered_c g -> st p -> simP (fun nq => st (snd nq) /\ moved p (snd nq) /\ notq (first (snd nq))) (parse_name g B p) (parse_name_c cp g D p).
  Proof.
    intros g p [GX GE] H. pose proof (st_le _ H) as L. pose proof LEN as LD. pose proof H as (NN & _). unfold parse_name, parse_name_c.
    apply sp_is_at; [exact H|vm_compute; discriminate|vm_compute; discriminate|vm_compute; discriminate|]. intros r HR. apply sp_ensure. intros ->.
    destruct (HR eq_refl) as [LT Hb]. destruct (st_quote p H LT Hb) as (s & HS & SD & SB & LE & H2).
    assert (Hd : nth_error D (first p) = Some 34) by (destruct SD as [X _]; exact X).
    pose proof (sub_agree _ _ SD SB) as AG. cbn [length] in AG. rewrite app_length in AG. cbn [length] in AG.
    unfold parse_name_nq, parse_name_nq_c. destruct (c_escnames g).
    - rewrite GX, GE. rewrite <- !nq_of by (auto; lia). eapply sp_bind; [apply (sp_string_in p H LT Hb)|]. intros [r q] (IS & _ & H3 & M3). cbn [fst snd] in *.
      eapply sp_bind; [apply (sp_end_of_name q H3)|]. intros q2 (H4 & M4 & NQ). destruct (instr_agree r IS) as (i & F & A & _).
      rewrite view_same by (eapply agree_sub; eauto; lia). apply sp_ok. cbn [snd]. split; [exact H4|]. split; [eapply moved_trans; eauto|exact NQ].
    - destruct (first_quote s) as (u & rest & EU & NI & LU). destruct SD as [_ SD]. destruct SB as [_ SB]. rewrite EU in SD, SB.
      assert (CUT : forall buf, sub_at buf (S (first p)) (u ++ 34 :: rest) -> sub_at buf (S (first p)) (u ++ [34])).
      { intros buf X. apply sub_at_app in X as [X1 [X2 _]]. apply sub_at_app. split; [exact X1|]. split; [exact X2|exact I]. }
      unfold remove_prefix. cbn [first last set_first]. rewrite Nat.add_1_r.
      rewrite (memchr_checked_ok c_quote u B (S (first p)) (last p) NI (CUT _ SB)) by lia. rewrite (memchr_checked_ok c_quote u D (S (first p)) (last p) NI (CUT _ SD)) by lia. cbn [bind].
      set (j := (S (first p) + length u)%nat). assert (Bj : nth_error B j = Some 34) by (apply CUT in SB; apply sub_at_app in SB as [_ [X _]]; exact X).
      assert (Dj : nth_error D j = Some 34) by (apply CUT in SD; apply sub_at_app in SD as [_ [X _]]; exact X).
      unfold is_at, has_more, front. cbn [first last set_first]. replace (j <? last p)%nat with true by (unfold j; lia). rewrite (rd_some _ _ _ Bj), (rd_some _ _ _ Dj). cbn [bind].
      change (34 =? c_quote) with true. cbn [bind]. assert (JE : exists i, j = S i /\ (first p <= i < first p + S (length s + 1))%nat) by (exists (first p + length u)%nat; unfold j; lia).
      destruct JE as (i & Ji & Li). rewrite Ji. rewrite (rd_same (first p) (first p + S (length s + 1)) i) by (auto; lia).
      destruct (rd B i) as [c| | |] eqn:EC; cbn [bind]; try (intros ? X; discriminate). apply sp_ensure. intros NC.
      assert (US : u = s).
      { apply (name_end s HS u rest EU NI). intros v x ->. intros ->. apply rd_ok_nth in EC. unfold j in Ji. rewrite app_length in Ji. cbn [length] in Ji.
        apply sub_at_app in SB as [SB _]. apply sub_at_app in SB as [_ [SB _]]. replace (S (first p) + length v)%nat with i in SB by lia. assert (c = 92) by congruence. subst c. discriminate. }
      rewrite <- Ji. unfold j in *. subst u.
      replace (set_first (set_first (set_first p (S (first p))) (S (first p) + length s)) (S (first p) + length s + 1)) with (set_first p (first p + length s + 2)).
      2:{ unfold set_first. cbn [first last cfirst clast counter isnull]. f_equal. lia. }
      eapply sp_bind; [apply (sp_end_of_name _ H2)|]. intros q2 (H4 & M4 & NQ). rewrite view_same by (eapply agree_sub; eauto; lia). apply sp_ok. cbn [snd].
      split; [exact H4|]. split; [|exact NQ]. exact M4.
  Qed.

  (** ** Custom values *)

  Lemma custom_tail : forall (Q : nat -> Prop) r p, rng Q r \/ (exists i s, first r = i /\ last r = (i + length s)%nat /\ sub_at D i s /\ sub_at B i s) ->
    simP (fun vq : val * ps => snd vq = p)
     (ok <- (if has_more r then c <- front B r ;; Ok (negb ((c =? c_lbrack) || (c =? c_lbrace))) else Ok false) ;;
      _ <- ensure ok InvalidStartOfValue ;; Ok (VStr (view B (first r) (last r)), p))
     (ok <- (if has_more r then c <- front D r ;; Ok (negb ((c =? c_lbrack) || (c =? c_lbrace))) else Ok false) ;;
      _ <- ensure ok InvalidStartOfValue ;; Ok (VStr (view D (first r) (last r)), p)).
  Proof.
    intros Q r p HR a E.
    assert (X : (ok <- (if has_more r then c <- front B r ;; Ok (negb ((c =? c_lbrack) || (c =? c_lbrace))) else Ok false) ;;
      _ <- ensure ok InvalidStartOfValue ;; Ok (VStr (view D (first r) (last r)), p)) = Ok a /\ front D r = front B r).
    { assert (AG : agree (first r) (last r) -> (first r < last r)%nat -> front D r = front B r /\ view D (first r) (last r) = view B (first r) (last r)).
      { intros A L. split; [unfold front; apply (rd_same (first r) (last r)); auto; lia|now apply view_same]. }
      unfold has_more in *. destruct (Nat.ltb_spec (first r) (last r)) as [LT|]; [|discriminate].
      destruct HR as [[N L|IS|b N HQ PV L A Hb|b HQ HS L Hb HB]|(i & s & F & LA & SD & SB)].
      - lia.
      - destruct (instr_agree r IS) as (i & F & A & _ & _ & _ & L). destruct AG as [-> ->]; auto. eapply agree_sub; eauto; lia.
      - destruct AG as [-> ->]; auto.
      - exfalso. unfold front in E. rewrite (rd_some _ _ _ Hb) in E. destruct HB as [->| ->]; discriminate.
      - destruct AG as [-> ->]; auto. rewrite F, LA. now apply sub_agree. }
    destruct X as [X1 X2]. rewrite X2. split; [exact X1|].
    destruct (if has_more r then c <- front B r ;; Ok (negb ((c =? c_lbrack) || (c =? c_lbrace))) else Ok false) as [ok| | |] in E; cbn [bind] in E; try discriminate.
    destruct ok; cbn [ensure bind] in E; [|discriminate]. injection E as <-. reflexivity.
  Qed.

  Lemma here_custom : forall g k p, covered_c g -> st p -> (k = CuAny -> (first p < last p)%nat) ->
    simP (fun vq => st (snd vq) /\ moved p (snd vq)) (parse_value_custom g k false B p) (parse_value_custom_c cp g k false D p).
  Proof.
    intros g k p [GX GE] H KA. pose proof (st_le _ H) as L. pose proof H as (NN & _). unfold parse_value_custom, parse_value_custom_c. rewrite ?GX, ?GE.
    destruct k.
    - apply (sp_bind _ _ (fun rq => (last (fst rq) <= first (fst rq))%nat \/ instr (fst rq) /\ st (snd rq) /\ moved p (snd rq))).
      + intros a E. destruct (Nat.leb_spec (last p) (first p)) as [LE|LT].
        { unfold skip_string, ps_empty in *. rewrite NN in *. replace (last p <=? first p)%nat with true in * by lia. cbn [orb] in *.
          injection E as <-. split; [reflexivity|]. left. exact LE. }
        assert (HQ : nth_error B (first p) = Some 34).
        { unfold skip_string, ps_empty in E. rewrite NN in E. replace (last p <=? first p)%nat with false in E by lia. cbn [orb] in E.
          destruct (front B p) as [c| | |] eqn:EF; cbn [bind] in E; try discriminate. destruct (N.eqb_spec c c_quote) as [->|]; cbn [ensure bind] in E; [|discriminate].
          unfold front in EF. now apply rd_ok_nth in EF. }
        destruct (sp_string_in p H LT HQ a E) as (E' & A1 & _ & A2 & A3). split; [exact E'|]. right. auto.
      + intros [r q] [X|(A1 & A2 & A3)]; cbn [fst snd] in *.
        * intros a E. unfold has_more in E. replace (first r <? last r)%nat with false in E by lia. discriminate.
        * eapply sp_weaken; [apply (custom_tail (fun _ => True)); left; now apply g_str|]. intros vq ->. auto.
    - eapply sp_bind; [apply (sp_skip_literal (fun _ => True) p H I)|]. intros [r q] (A1 & A2 & A3). cbn [fst snd] in *.
      eapply sp_weaken; [apply (custom_tail (fun _ => True)); left; exact A1|]. intros vq ->. auto.
    - specialize (KA eq_refl). apply (sp_bind _ _ (fun rq => (rng (fun _ => True) (fst rq) \/ (exists i s, first (fst rq) = i /\ last (fst rq) = (i + length s)%nat /\ sub_at D i s /\ sub_at B i s)) /\
          st (snd rq) /\ moved p (snd rq))).
      2:{ intros [r q] (A1 & A2 & A3). cbn [fst snd] in *. eapply sp_weaken; [apply (custom_tail (fun _ => True)); exact A1|]. intros vq ->. auto. }
      apply sp_front; [exact H|]. intros b d Hb Hd SM _ _. rewrite (same_eqb _ _ _ SM) by (vm_compute; discriminate).
      destruct (N.eqb_spec b c_quote) as [->|NQ].
      + eapply sp_bind; [apply (sp_string_in p H KA Hb)|]. intros [r q] ((i & s & N1 & F1 & L1 & HS & SD & SB & C1) & F2 & A2 & A3). cbn [fst snd] in *. apply sp_ok. cbn [fst snd].
        split; [|auto]. right. exists i, (34 :: s). cbn [first last set_first length]. split; [lia|]. split; [lia|].
        change (34 :: s ++ [34]) with ((34 :: s) ++ [34]) in SD, SB. apply sub_at_app in SD as [SD _]. apply sub_at_app in SB as [SB _]. auto.
      + eapply sp_weaken; [unfold skip_val, skip_val_c; rewrite ?GX, ?GE; apply (sp_skip_value (fun _ => True) false p eq_refl H I)|]. intros rq (A1 & A2 & A3). auto.
  Qed.

  Lemma there_custom : forall g k r, loc r -> isnull r = false ->
    simP (fun _ => True) (parse_value_custom g k true B r) (parse_value_custom_c cp g k true D r).
  Proof.
    intros g k r HL NN. unfold parse_value_custom, parse_value_custom_c.
    assert (FIN : forall q p, rng notq q \/ (exists i s, first q = i /\ last q = (i + length s)%nat /\ sub_at D i s /\ sub_at B i s) ->
       simP (fun _ : val * ps => True)
     (ok <- (if has_more q then c <- front B q ;; Ok (negb ((c =? c_lbrack) || (c =? c_lbrace))) else Ok false) ;;
      _ <- ensure ok InvalidStartOfValue ;; Ok (VStr (view B (first q) (last q)), p))
     (ok <- (if has_more q then c <- front D q ;; Ok (negb ((c =? c_lbrack) || (c =? c_lbrace))) else Ok false) ;;
      _ <- ensure ok InvalidStartOfValue ;; Ok (VStr (view D (first q) (last q)), p))).
    { intros q p X. eapply sp_weaken; [apply (custom_tail notq); exact X|]. auto. }
    assert (SAME : notq (first r) -> prev (first r) -> simP (fun _ => True)
      (match first r with O => UB | S i => b <- rd B i ;; Ok (if b =? c_quote then set_first r i else r, r) end)
      (match first r with O => UB | S i => b <- rd D i ;; Ok (if b =? c_quote then set_first r i else r, r) end) /\
      forall a, match first r with O => UB | S i => b <- rd B i ;; Ok (if b =? c_quote then set_first r i else r, r) end = Ok a -> a = (r, r)).
    { intros (k' & b & F & Hb & NB) PV. rewrite F in *. rewrite (rd_some _ _ _ Hb). cbn [bind].
      destruct (nth_error D k') as [d|] eqn:Hd; [|apply nth_error_None in Hd; rewrite LEN in Hd; assert (k' < length B)%nat by (apply nth_error_Some; congruence); lia].
      rewrite (rd_some _ _ _ Hd). cbn [bind]. specialize (PV b d Hb Hd). replace (b =? c_quote) with false by (symmetry; apply N.eqb_neq; exact NB).
      replace (d =? c_quote) with false by (symmetry; apply N.eqb_neq; intros ->; apply NB, PV; reflexivity). split; [apply sp_ok; exact I|]. intros a E. congruence. }
    destruct k; cbn [bind].
    - apply FIN. left. exact HL.
    - apply FIN. left. exact HL.
    - pose proof HL as HL'. destruct HL as [N L|IS|b N HQ PV L A Hb S1 S2 S3 S4|b HQ HS L Hb HB].
      + congruence.
      + pose proof IS as (i & s & N1 & F1 & L1 & HS & SD & SB & C1). rewrite F1. assert (Bi : nth_error B i = Some 34) by apply SB. assert (Di : nth_error D i = Some 34) by apply SD.
        rewrite (rd_some _ _ _ Bi), (rd_some _ _ _ Di). cbn [bind]. change (34 =? c_quote) with true. apply FIN. right. exists i, (34 :: s). cbn [first last set_first length].
        split; [reflexivity|]. split; [lia|]. change (34 :: s ++ [34]) with ((34 :: s) ++ [34]) in SD, SB. apply sub_at_app in SD as [SD _]. apply sub_at_app in SB as [SB _]. auto.
      + destruct (SAME HQ PV) as [S5 S6]. apply (sp_bind _ _ (fun a => a = (r, r))); [intros a E; split; [exact (proj1 (S5 a E))|auto]|]. intros [q p] E. injection E as -> ->. apply FIN. left. exact HL'.
      + destruct (SAME HQ (proj1 (proj2 HS))) as [S5 S6]. apply (sp_bind _ _ (fun a => a = (r, r))); [intros a E; split; [exact (proj1 (S5 a E))|auto]|]. intros [q p] E. injection E as -> ->. apply FIN. left. exact HL'.
  Qed.
End Two.
