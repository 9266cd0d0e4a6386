(** Whole documents with classes that are read from arrays. *)
From Coq Require Import List NArith ZArith Bool Lia Arith ZifyBool ZifyNat ZifyN.
From Verif Require Import Base Mem Loop PolicyModel IntModel StrScanModel SkipModel SpecNum SpecText SpecJson SpecUnicode
  IntProofs IntSerProofs IntValueProofs StrScanProofs StrScanProofs2 StrScanProofs3 SkipProofs BracketProofs SkipSafe
  PropertiesStr PropertiesSkip StrDecodeModel StrDecodeProofs HashModel PropertiesHash ValueModel SpecTyped
  NameProofs ClassProofs ClassProofs2 ScalarProofs ArrayProofs VariantProofs TypedProofs ZReads XProofs SerModel OrdModel SpecOrd OrdProofs FixProofs.
Import ListNotations.
Local Open Scope N_scope.

Section Cfg.
  Context (g : cfg).
  Hypothesis HX : c_ex g = ExConstexpr.
  Hypothesis HE : c_excl g = false.
  Context (nc : list (list N) -> list N -> Prop).
  Hypothesis HNC : forall names k, nc names k -> name_ok g k /\ tells g names k.

  Lemma o_means_null : forall t x, o_means nc t JNull x -> o_nullable t = true /\ x = VNone.
  Proof.
    intros t x H. destruct t; cbn [o_means o_nullable] in *.
    - eapply typed_null; eauto.
    - destruct H as [[_ ->]|[H _]]; [auto|congruence].
    - destruct H as (? & ? & H & _). discriminate.
    - destruct H as (? & ? & H & _). discriminate.
    - destruct H as (? & ? & H & _). discriminate.
    - destruct H as (? & ? & ? & H & _). discriminate.
    - destruct H as (? & ? & H & _). discriminate.
    - destruct H as (? & ? & H & _). discriminate.
  Qed.

  (** A nullable without a value *)
  Lemma parse_o_null : forall t buf, o_nullable t = true -> exists q, parse_o g t true buf no_loc = Ok (VNone, q).
  Proof.
    intros [t|t|t|t|e mm|e ts|e ms|n d t] buf H; try discriminate H; cbn [parse_o o_nullable] in *.
    - destruct t; try discriminate H; cbn [parse_value]; eexists; reflexivity.
    - eexists; reflexivity.
  Qed.

  Definition omem (m : option nat * oty) : omember := mkomember (fst m) (o_nullable (snd m)) (parse_o g (snd m)).

  Lemma omem_index : forall ms, map om_index (map omem ms) = map fst ms.
  Proof. intros ms. rewrite map_map. reflexivity. Qed.

  (** The members of a class at the elements of an array *)
  Fixpoint o_members (es : list jv) (ms : list (option nat * oty)) (next : nat) (xs : list val) : Prop :=
    match ms, xs with
    | [], [] => True
    | (k, t) :: ms', y :: xs' =>
        match nth_error es (place k next) with
        | Some v' => o_means nc t v' y
        | None => o_nullable t = true /\ y = VNone
        end /\ o_members es ms' (S (place k next)) xs'
    | _, _ => False
    end.

  Lemma o_members_picks : forall es, (forall t v x, o_means nc t v x -> reads_inside g (parse_o g t) v x) ->
    forall ms next xs, ascending (map fst ms) next -> o_members es ms next xs -> picks_all g es (map omem ms) next xs.
  Proof.
    intros es IH. induction ms as [|[k t] ms IHm]; intros next [|y xs] HA H; try contradiction; [exact I|].
    destruct HA as [A1 A2]. destruct H as [H1 H2]. cbn [map fst snd picks_all omem om_index]. split; [exact A1|]. split; [|now apply IHm].
    destruct (nth_error es (place k next)) as [v'|]; cbn [picks om_parse om_nullable]; [now apply IH|].
    destruct H1 as [HN ->]. split; [exact HN|]. intros buf. now apply parse_o_null.
  Qed.

  Theorem o_means_reads : forall t v x, o_means nc t v x -> reads g (parse_o g t) v x.
  Proof.
    fix IH 1. intros t v x H. destruct t as [t|t|t|t|exact mm|exact ts|exact ms|n d t]; cbn [o_means] in H.
    - apply (typed_reads g HX HE nc HNC t v x H).
    - destruct H as [[-> ->]|(NV & y & H & ->)]; [apply any_null|]. exact (any_some g HX HE _ _ _ NV (IH t v y H)).
    - destruct H as (es & xs & -> & -> & H). apply (arrays true g HX HE). revert H. clear - IH HX HE. induction 1; constructor; [apply reads_reads_inside; auto|assumption].
    - destruct H as (ms & kxs & -> & -> & H). apply (maps true g HX HE). revert H. clear - IH HX HE.
      induction 1 as [|m kx ms kxs [D H] _ IHl]; constructor; [split; [exact D|apply reads_reads_inside; auto]|assumption].
    - destruct H as (js & xs & -> & -> & ND & NDJ & FN & EX & H).
      apply (classes true g HX HE exact (map (fun m => mkmember (fst m) (o_nullable (snd m)) (parse_o g (snd m))) mm) js xs).
      assert (EN : map m_name (map (fun m => mkmember (fst m) (o_nullable (snd m)) (parse_o g (snd m))) mm) = map fst mm)
        by (rewrite map_map; reflexivity).
      split; [now rewrite EN|]. rewrite EN. split; [exact NDJ|]. split; [|split].
      + revert FN. apply Forall_impl. intros k. apply HNC.
      + exact EX.
      + clear EX FN ND NDJ EN. revert xs H. induction mm as [|[nm t] mm IHm]; intros [|y xs] H; try contradiction; [constructor|].
        destruct H as [H1 H2]. cbn [map fst snd]. constructor; [|now apply IHm].
        unfold gets_inside. cbn [m_name m_nullable m_parse]. rewrite <- lookup_assoc.
        destruct (lookup nm js) as [v'|]; [|exact H1]. split; [apply reads_reads_inside, IH; auto|]. intros ->. eapply o_means_null; eauto.
    - destruct H as (es & xs & es2 & -> & -> & EX & NA & H).
      assert (FL : length es = length xs /\ Forall2 (fun P vx => reads_inside g P (fst vx) (snd vx)) (map (parse_o g) ts) (combine es xs)).
      { clear EX NA. revert es xs H. induction ts as [|t ts IHt]; intros [|e es] [|y xs] H; try contradiction; [split; constructor|].
        destruct H as [H1 H2]. destruct (IHt _ _ H2) as [L F]. cbn [length map combine]. split; [lia|].
        constructor; [cbn [fst snd]; apply reads_reads_inside, IH; auto|exact F]. }
      destruct FL as [L F]. apply (tuples g HX HE exact (map (parse_o g) ts)); auto.
    - destruct H as (es & xs & -> & -> & NE & AS & EX & H).
      apply (ordereds g HX HE exact (map omem ms)).
      + destruct ms; [congruence|discriminate].
      + clear NE EX. generalize dependent 0%nat. revert xs. induction ms as [|[k t] ms IHm]; intros [|y xs] next AS H; try contradiction; [exact I|].
        destruct AS as [A1 A2]. destruct H as [H1 H2]. cbn [map fst snd picks_all omem om_index]. split; [exact A1|]. split; [|now apply IHm].
        destruct (nth_error es (place k next)) as [v'|]; cbn [picks om_parse om_nullable]; [apply reads_reads_inside, IH; auto|].
        destruct H1 as [HN ->]. split; [exact HN|]. intros buf. now apply parse_o_null.
      + rewrite omem_index. exact EX.
    - destruct H as (es & xs & -> & -> & HN & H). apply (fixeds g); auto. revert H. clear - IH HX HE.
      induction 1; constructor; [apply reads_reads_inside; auto|assumption].
  Qed.

  (** ** Whole documents *)

  Definition o_trims (t : oty) : bool := match t with OTy t => trims t | OArr _ | OClass _ _ | OTuple _ _ | OOrdered _ _ | OFixed _ _ _ => true | _ => false end.

  Lemma o_leading : forall t known buf p c, is_bytes buf -> o_trims t = true -> forall w, ws w -> sub_at buf (first p) (w ++ [c]) -> 32 < c ->
    (first p + length w < last p)%nat ->
    parse_o g t known buf p = parse_o g t known buf (set_first p (first p + length w)).
  Proof.
    intros t known buf p c HB HT w W HS HC HL.
    assert (T1 : trim_left_checked buf p = Ok (set_first p (first p + length w))) by (apply (trim_to buf p w c); auto; lia).
    set (p' := set_first p (first p + length w)) in *.
    assert (T2 : trim_left_checked buf p' = Ok p').
    { pose proof HS as HS'. apply sub_at_app in HS' as [_ [HS' _]]. now apply (trim_here buf p' c). }
    destruct t; try discriminate HT; cbn [parse_o].
    - now apply (trims_leading g t known buf p c).
    - unfold parse_value_array. now rewrite T1, T2.
    - unfold parse_value_class. unfold has_more. change (last p') with (last p). change (first p') with (first p + length w)%nat.
      replace (first p <? last p)%nat with true by lia. replace (first p + length w <? last p)%nat with true by lia. cbn [ensure bind].
      unfold parse_json_class. now rewrite T1, T2.
    - unfold parse_tuple. now rewrite T1, T2.
    - unfold parse_value_ordered. unfold has_more. change (last p') with (last p). change (first p') with (first p + length w)%nat.
      replace (first p <? last p)%nat with true by lia. replace (first p + length w <? last p)%nat with true by lia. cbn [ensure bind].
      unfold parse_json_tuple_class. now rewrite T1, T2.
    - unfold parse_value_fixed. now rewrite T1, T2.
  Qed.

  (** The document: whitespace where the type allows it, the text, whitespace, and
      possibly a terminating zero. *)
  Definition o_document (t : oty) (v : jv) (doc : list N) : Prop :=
    exists w0 tx w z, ws w0 /\ (o_trims t = false -> w0 = []) /\ jtext str_body v tx /\ ws w /\ (z = [] \/ z = [0]) /\
      doc = w0 ++ tx ++ w ++ z.

  Lemma o_document_start : forall verify t v doc, is_bytes doc -> o_document t v doc ->
    exists p tx, wf doc p /\ jtext str_body v tx /\ sub_at doc (first p) tx /\ SkipProofs.followed true doc (first p + length tx) (last p) (last p) /\
      from_json_o g verify t doc =
       ('(x, q) <- parse_o g t false doc p ;;
        if verify then
          q <- trim_left_checked doc q ;;
          _ <- ensure (ps_empty q) InvalidEndOfValue ;;
          Ok x
        else Ok x).
  Proof.
    intros verify t v doc HB (w0 & tx & w & z & W0 & TR & HT & W & HZ & ->).
    replace (w0 ++ tx ++ w ++ z) with ((w0 ++ tx ++ w) ++ z) in * by (rewrite <- !app_assoc; reflexivity).
    destruct (jtext_head _ _ _ HT) as (c0 & r0 & ET & ST). destruct (jtext_last _ _ _ HT) as (rl & cl & EL & NL).
    set (buf := (w0 ++ tx ++ w) ++ z) in *. set (l := length (w0 ++ tx ++ w)).
    assert (LL : l = (length w0 + length tx + length w)%nat) by (unfold l; rewrite !app_length; lia).
    assert (LB : (l <= length buf)%nat) by (unfold buf; rewrite app_length; fold l; lia).
    assert (STX : sub_at buf (length w0) tx).
    { unfold buf. replace ((w0 ++ tx ++ w) ++ z) with (w0 ++ tx ++ (w ++ z)) by (rewrite <- !app_assoc; reflexivity). apply sub_at_mid. }
    assert (LT : (0 < length tx)%nat) by (rewrite ET; cbn; lia).
    set (p := set_first (new_ps 0 l) (length w0)).
    assert (WF : wf buf p) by (apply wf_doc; auto; lia).
    exists p, tx. split; [exact WF|]. split; [exact HT|]. split; [exact STX|]. split.
    { exists w. split; [exact W|]. unfold p. cbn [first last set_first new_ps]. split; [|split; [lia|split; [lia|left; auto]]].
      unfold buf. replace ((w0 ++ tx ++ w) ++ z) with ((w0 ++ tx) ++ w ++ z) by (rewrite <- !app_assoc; reflexivity).
      rewrite <- app_length. apply sub_at_mid. }
    unfold from_json_o.
    replace (length buf =? 0)%nat with false by lia. cbn [negb ensure bind].
    assert (ER : exists b, nth_error buf (length buf - 1) = Some b /\ (if b =? 0 then (length buf - 1)%nat else length buf) = l).
    { destruct HZ as [-> | ->].
      - assert (LE : length buf = l) by (unfold buf; rewrite app_nil_r; reflexivity).
        destruct (ws_last rl cl w NL W) as (r' & c' & E' & N'). exists c'. split; [|replace (c' =? 0) with false by lia; exact LE].
        unfold buf. rewrite app_nil_r, EL. replace (length (w0 ++ (rl ++ [cl]) ++ w)) with (length w0 + S (length r'))%nat
          by (rewrite E', !app_length; cbn [length]; lia). rewrite E'. rewrite nth_error_app2 by lia.
        replace (length w0 + S (length r') - 1 - length w0)%nat with (length r') by lia. rewrite nth_error_app2, Nat.sub_diag by lia. reflexivity.
      - exists 0. assert (LE : length buf = S l) by (unfold buf; rewrite app_length; cbn [length]; fold l; lia).
        split; [|cbn [N.eqb]; lia]. rewrite LE. replace (S l - 1)%nat with l by lia. unfold buf. rewrite nth_error_app2 by (fold l; lia). fold l. rewrite Nat.sub_diag. reflexivity. }
    destruct ER as (b & Eb & EL'). rewrite (rd_some _ _ _ Eb). cbn [bind]. cbv zeta. rewrite EL'.
    assert (EP : parse_o g t false buf (new_ps 0 l) = parse_o g t false buf p).
    { destruct (o_trims t) eqn:TT.
      - apply (o_leading t false buf (new_ps 0 l) c0 HB TT w0 W0); cbn [first last new_ps].
        + unfold buf. rewrite <- app_assoc. rewrite ET.
          replace (w0 ++ ((c0 :: r0) ++ w) ++ z) with ((w0 ++ [c0]) ++ (r0 ++ w) ++ z) by (rewrite <- !app_assoc; reflexivity). apply sub_at_0.
        + unfold starter in ST. lia.
        + lia.
      - unfold p. rewrite (TR eq_refl). reflexivity. }
    now rewrite EP.
  Qed.

  Theorem from_json_o_means : forall verify t v x doc, is_bytes doc -> N.of_nat (length doc) < 2^32 ->
    o_document t v doc -> o_means nc t v x -> from_json_o g verify t doc = Ok x.
  Proof.
    intros verify t v x doc HB H32 HD HM. destruct (o_document_start verify t v doc HB HD) as (p & tx & WF & HT & HS & HF & ->).
    destruct (proj1 (o_means_reads t v x HM) doc p tx (last p) WF H32 HT HS HF) as (q & EQ & MQ & LQ).
    rewrite EQ. cbn [bind]. destruct verify; [|reflexivity].
    assert (LQl : last q = last p) by apply MQ.
    rewrite (trim_followed doc q (last p) HB) by (rewrite LQl; eapply followed_from; [exact HF|exact LQ]).
    cbn [bind]. unfold ps_empty. cbn [isnull first last set_first]. rewrite LQl, Nat.leb_refl, orb_true_r. reflexivity.
  Qed.

  (** ** Documents that are refused *)

  (** The members [ms] get [xs] from the first of the elements. *)
  Definition o_first (es : list jv) (ms : list (option nat * oty)) (xs : list val) : Prop :=
    ascending (map fst ms) 0 /\ o_members es ms 0 xs.

  Lemma o_first_picks : forall es ms xs, o_first es ms xs -> picks_all g es (map omem ms) 0 xs.
  Proof. intros es ms xs [A M]. apply o_members_picks; auto. intros t v x H. apply reads_reads_inside; auto. now apply o_means_reads. Qed.

  Lemma refused : forall verify exact ms es doc r, is_bytes doc -> o_document (OOrdered exact ms) (JArr es) doc ->
    (forall p tx, wf doc p -> jtext str_body (JArr es) tx -> sub_at doc (first p) tx -> (first p + length tx <= last p)%nat ->
       parse_json_tuple_class g exact (map omem ms) doc p = Err r) ->
    from_json_o g verify (OOrdered exact ms) doc = Err r.
  Proof.
    intros verify exact ms es doc r HB HD HP. destruct (o_document_start verify _ _ doc HB HD) as (p & tx & WF & HT & HS & HF & ->).
    pose proof (followed_le _ _ _ _ _ HF) as FL. cbn [parse_o]. unfold parse_value_ordered.
    assert (LT : (0 < length tx)%nat) by (destruct (jtext_head _ _ _ HT) as (? & ? & -> & _); cbn [length]; lia).
    unfold has_more. replace (first p <? last p)%nat with true by lia. cbn [ensure bind].
    change (map (fun m => mkomember (fst m) (o_nullable (snd m)) (parse_o g (snd m))) ms) with (map omem ms).
    rewrite (HP p tx WF HT HS ltac:(lia)). reflexivity.
  Qed.

  Theorem o_missing_refused : forall verify exact ms1 k t ms2 es xs doc, is_bytes doc -> N.of_nat (length doc) < 2^32 ->
    o_document (OOrdered exact (ms1 ++ (k, t) :: ms2)) (JArr es) doc -> o_first es ms1 xs ->
    (past (map fst ms1) 0 <= place k (past (map fst ms1) 0))%nat -> (length es <= place k (past (map fst ms1) 0))%nat -> o_nullable t = false ->
    from_json_o g verify (OOrdered exact (ms1 ++ (k, t) :: ms2)) doc = Err MemberNotFound.
  Proof.
    intros verify exact ms1 k t ms2 es xs doc HB H32 HD HF PL HL HN. apply (refused _ _ _ es); auto. intros p tx WF HT HS FL.
    destruct (class_start g exact (map omem (ms1 ++ (k, t) :: ms2)) es doc p tx WF HT HS FL) as (p1 & W1 & L1 & N1 & A1 & F1 & EL & BE & ->).
    rewrite map_app. cbn [map].
    rewrite (members_missing g HX HE doc (first p + length tx - 1) (last p) H32 EL es (map omem ms1) (omem (k, t)) (map omem ms2) p1 xs W1 L1); auto.
    - now left.
    - now apply o_first_picks.
    - rewrite omem_index. exact PL.
    - rewrite omem_index. exact HL.
  Qed.

  Theorem o_disorder_refused : forall verify exact ms1 k t ms2 es xs doc, is_bytes doc -> N.of_nat (length doc) < 2^32 ->
    o_document (OOrdered exact (ms1 ++ (Some k, t) :: ms2)) (JArr es) doc -> o_first es ms1 xs ->
    (past (map fst ms1) 0 <= length es)%nat -> (k < past (map fst ms1) 0)%nat ->
    from_json_o g verify (OOrdered exact (ms1 ++ (Some k, t) :: ms2)) doc = Err OutOfOrderOrderedMembers.
  Proof.
    intros verify exact ms1 k t ms2 es xs doc HB H32 HD HF HL HK. apply (refused _ _ _ es); auto. intros p tx WF HT HS FL.
    destruct (class_start g exact (map omem (ms1 ++ (Some k, t) :: ms2)) es doc p tx WF HT HS FL) as (p1 & W1 & L1 & N1 & A1 & F1 & EL & BE & ->).
    rewrite map_app. cbn [map].
    rewrite (members_disordered g HX HE doc (first p + length tx - 1) (last p) H32 EL es (map omem ms1) (omem (Some k, t)) (map omem ms2) p1 xs k W1 L1); auto.
    - now left.
    - now apply o_first_picks.
    - rewrite omem_index. exact HL.
    - rewrite omem_index. exact HK.
  Qed.

  Theorem o_extra_refused : forall verify ms es xs doc, is_bytes doc -> N.of_nat (length doc) < 2^32 -> ms <> [] ->
    o_document (OOrdered true ms) (JArr es) doc -> o_first es ms xs -> (past (map fst ms) 0 < length es)%nat ->
    from_json_o g verify (OOrdered true ms) doc = Err UnknownMember.
  Proof.
    intros verify ms es xs doc HB H32 NE HD HF HL. apply (refused _ _ _ es); auto. intros p tx WF HT HS FL.
    apply (ordered_extra g HX HE (map omem ms) es xs) with (t := tx); auto.
    - destruct ms; [congruence|discriminate].
    - now apply o_first_picks.
    - rewrite omem_index. exact HL.
  Qed.

  (** ** A std::array with fewer elements than the array *)
  Theorem o_more_elements : forall verify d t es1 xs1 rest doc, is_bytes doc -> N.of_nat (length doc) < 2^32 ->
    o_document (OFixed (length es1) d t) (JArr (es1 ++ rest)) doc -> Forall2 (o_means nc t) es1 xs1 -> rest <> [] ->
    from_json_o g verify (OFixed (length es1) d t) doc = if verify then Err InvalidEndOfValue else Ok (VArr xs1).
  Proof.
    intros verify d t es1 xs1 rest doc HB H32 HD HM NE. destruct (o_document_start verify _ _ doc HB HD) as (p & tx & WF & HT & HS & HF & ->).
    pose proof (followed_le _ _ _ _ _ HF) as FL. cbn [parse_o].
    assert (HR : Forall2 (reads_inside g (parse_o g t)) es1 xs1).
    { revert HM. clear - HX HE HNC. induction 1; constructor; [apply reads_reads_inside; auto; now apply o_means_reads|assumption]. }
    destruct (fixed_more g (parse_o g t) d es1 xs1 rest HR NE doc p tx WF H32 HT HS ltac:(lia)) as (r & -> & MR & WR & AR). cbn [bind].
    destruct verify; [|reflexivity].
    pose proof (at_elem_end _ _ _ _ AR) as [LE _]. destruct (at_elem_byte _ _ _ _ AR) as (b & Hb & SB).
    assert (LT : (0 < length tx)%nat) by (destruct (jtext_head _ _ _ HT) as (? & ? & -> & _); cbn [length]; lia).
    assert (LR : last r = last p) by apply MR. pose proof WR as (_ & HN & _).
    assert (B32 : 32 < b) by (destruct rest; [contradiction|unfold starter in SB; lia]).
    rewrite (trim_here doc r b) by (auto; lia). cbn [bind]. unfold ps_empty. rewrite HN. cbn [orb].
    destruct (Nat.leb_spec (last r) (first r)); [lia|]. reflexivity.
  Qed.
End Cfg.
