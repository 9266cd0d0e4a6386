(** What typed parsing refuses and lookups do not find: members that an exact
    mapping does not have (C25), elements without a comma between them (C28),
    paths that lead nowhere (C52, C63); and the identity of iterators and the raw
    text of a value (C36). *)
From Coq Require Import String.
From Coq Require Import List NArith ZArith Bool Lia Arith.
From Coq Require Import ZifyBool ZifyNat ZifyN.
From Verif Require Import Base PolicyModel Mem SpecNum SpecText SpecJson SpecCompact SpecUnicode Loop StrScanModel StrScanProofs SkipModel
  IntProofs HashModel SkipProofs SkipSafe ValueModel NameProofs ClassProofs ClassProofs2 SpecTyped ScalarProofs ArrayProofs TypedProofs
  RejectProofs ExactProofs PropertiesSkip PropertiesTyped JValueModel SpecValue JValueProofs PropertiesValue PathModel SpecPath PathProofs.
Import ListNotations.
Local Open Scope N_scope.

(** A document that begins with [w0] and [t] and whose type starts by skipping
    whitespace: what is read is what is read at [t]. *)
Lemma from_json_at : forall g verify ty w0 t rest e, is_bytes (w0 ++ t ++ rest) -> ws w0 -> trims ty = true ->
  (exists c r, t = c :: r /\ 32 < c) -> (exists r c, t = r ++ [c] /\ c <> 0) ->
  (forall p, wf (w0 ++ t ++ rest) p -> first p = length w0 -> (length w0 + length t <= last p)%nat ->
     parse_value g ty false (w0 ++ t ++ rest) p = Err e) ->
  from_json g verify ty (w0 ++ t ++ rest) = Err e.
Proof.
  intros g verify ty w0 t rest e HB W0 TR (c0 & r0 & ET & ST) (rl & cl & EL & NL) H. set (doc := w0 ++ t ++ rest) in *.
  assert (LT : (0 < length t)%nat) by (rewrite ET; cbn; lia).
  assert (LD : length doc = (length w0 + length t + length rest)%nat) by (unfold doc; len; lia).
  unfold from_json. replace (length doc =? 0)%nat with false by lia. cbn [negb ensure bind].
  destruct (rd_in doc (length doc - 1)) as (zb & Hz); [lia|]. rewrite (rd_some _ _ _ Hz). cbn [bind].
  set (l := if zb =? 0 then (length doc - 1)%nat else length doc).
  assert (LL : (length w0 + length t <= l <= length doc)%nat).
  { unfold l. destruct (N.eqb_spec zb 0) as [->|]; [|lia]. split; [|lia].
    assert (length rest <> 0)%nat; [|lia]. intros Y. destruct rest; [|discriminate].
    unfold doc in Hz. rewrite app_nil_r, EL in Hz. rewrite app_assoc, nth_error_app2 in Hz by (len; lia).
    replace (length ((w0 ++ rl) ++ [cl]) - 1 - length (w0 ++ rl))%nat with 0%nat in Hz by (len; lia). injection Hz as ->. lia. }
  clearbody l.
  assert (S0 : sub_at doc 0 (w0 ++ [c0])).
  { unfold doc. rewrite ET. replace (w0 ++ (c0 :: r0) ++ rest) with ((w0 ++ [c0]) ++ r0 ++ rest) by (rewrite <- !app_assoc; reflexivity). apply sub_at_0. }
  rewrite (trims_leading g ty false doc (new_ps 0 l) c0 HB TR w0 W0 S0 ST) by (cbn [first last new_ps]; lia).
  cbn [first new_ps Nat.add].
  rewrite (H (set_first (new_ps 0 l) (length w0))); [reflexivity| |reflexivity|cbn [last set_first new_ps]; lia].
  apply wf_doc; auto; lia.
Qed.

Section Cfg.
  Context (g : cfg).
  Hypothesis HG : covered g.

  (** C25: with exact mappings a member that is not mapped makes the object
      rejected, wherever it stands; without, the same object is read. *)
  Theorem C25_exact_rejected_partial : forall mm js x k known buf p t, wf buf p -> N.of_nat (length buf) < 2^32 ->
    typed (usable g) (TClass false mm) (JObj js) x -> In k (map fst js) -> ~ In k (map fst mm) ->
    jtext str_body (JObj js) t -> sub_at buf (first p) t -> (first p + length t <= last p)%nat ->
    parse_value g (TClass true mm) known buf p = Err UnknownMember.
  Proof.
    destruct HG as [HX HE]. intros mm js x k known buf p t HW H32 HTy IK NK HT HS HL. cbn [parse_value]. unfold parse_value_class.
    assert (LT : (1 <= length t)%nat) by (inversion HT; subst; cbn [length]; lia).
    unfold has_more. replace (first p <? last p)%nat with true by lia. cbn [ensure bind].
    destruct (class_fits g HX HE (usable g) (fun _ _ H => H) false mm _ _ HTy) as (js' & xs & EJ & -> & HF). injection EJ as <-.
    rewrite (class_exact g _ js xs k HX HE HF) with (t := t); auto. rewrite map_map. exact NK.
  Qed.

  Theorem C25_exact_document_partial : forall verify mm js x k w0 t rest,
    let doc := w0 ++ t ++ rest in is_bytes doc -> N.of_nat (length doc) < 2^32 -> ws w0 -> jtext str_body (JObj js) t ->
    typed (usable g) (TClass false mm) (JObj js) x -> In k (map fst js) -> ~ In k (map fst mm) ->
    from_json g verify (TClass true mm) doc = Err UnknownMember.
  Proof.
    intros verify mm js x k w0 t rest doc HB H32 W0 HT HTy IK NK. apply from_json_at; auto.
    - destruct (jtext_head _ _ _ HT) as (c & r & -> & ST). exists c, r. split; [reflexivity|apply ST].
    - destruct (jtext_last _ _ _ HT) as (r & c & -> & NL). eauto.
    - intros p HW FP LP. apply (C25_exact_rejected_partial mm js x k) with (t := t); auto; rewrite FP; auto. apply sub_at_mid.
  Qed.

  (** C28: after an element neither a comma nor the end of the array: rejected. *)
  Theorem C28_separator_partial : forall verify t es v x w0 head w1 tx w2 c rest,
    let doc := w0 ++ (91 :: head ++ w1 ++ tx ++ w2 ++ [c]) ++ rest in
    is_bytes doc -> N.of_nat (length doc) < 2^32 -> ws w0 -> ws w1 -> ws w2 ->
    (es = [] /\ head = [] \/ exists t0, jelems str_body es t0 /\ head = t0 ++ [44]) ->
    Forall (fun e => exists y, typed (usable g) t e y) es -> typed (usable g) t v x -> (takes_text t = true -> forall s, ~ literal v s) ->
    jtext str_body v tx -> 32 < c -> c <> 44 -> c <> 93 -> (match v with JNum _ => w2 <> [] \/ ~ is_dig c | _ => True end) ->
    exists e, from_json g verify (TArr t) doc = Err e.
  Proof.
    destruct HG as [HX HE]. intros verify t es v x w0 head w1 tx w2 c rest doc HB H32 W0 W1 W2 HH FE HT HTT HTx C1 C2 C3 HD.
    set (text := 91 :: head ++ w1 ++ tx ++ w2 ++ [c]) in *.
    assert (P : forall p, wf doc p -> first p = length w0 -> (length w0 + length text <= last p)%nat ->
      exists e, parse_value g (TArr t) false doc p = Err e).
    { intros p HW FP LP.
      assert (S0 : sub_at doc (first p) text) by (rewrite FP; unfold doc; apply sub_at_mid).
      destruct S0 as [S0 S1]. apply sub_at_app in S1 as [SH S1]. apply sub_at_app in S1 as [SW1 S1]. apply sub_at_app in S1 as [STX S1].
      apply sub_at_app in S1 as [SW2 [SC _]].
      assert (BR : broken doc (S (first p) + length head + length w1) (last p) [] v).
      { cbn [broken]. exists tx, (S (first p) + length head + length w1 + length tx + length w2)%nat, c. split; [exact HTx|]. split; [exact STX|].
        split; [|split; [exact SC|split; assumption]].
        assert (LJ : (S (first p) + length head + length w1 + length tx + length w2 < last p)%nat).
        { unfold text in LP. len. lia. }
        split; [|split; [exact LJ|]].
        - exists w2. split; [reflexivity|]. split; [lia|]. split; [exact SW2|]. split; [exact W2|]. right. exists c. split; [exact SC|exact C1].
        - destruct v; auto. split; [lia|]. right. destruct w2 as [|cw w2].
          + exists c. cbn [length] in SC. rewrite Nat.add_0_r in SC. split; [exact SC|]. destruct HD as [HD|HD]; [congruence|exact HD].
          + exists cw. destruct SW2 as [SW2 _]. split; [exact SW2|]. inversion W2 as [|? ? D _]; subst. unfold json_ws in D. unfold is_dig. lia. }
      assert (X : exists w, ws w /\ sub_at doc (S (first p)) w /\ broken doc (S (first p) + length w) (last p) es v).
      { destruct HH as [[-> ->]|(t0 & HJ & ->)].
        - exists w1. cbn [length] in *. rewrite Nat.add_0_r in *. auto.
        - destruct (elems_broken doc (last p) v es t0 HJ (S (first p)) [] w1) as (w & A & B & C); auto.
          + rewrite app_length in SW1. cbn [length] in SW1.
            replace (t0 ++ 44 :: w1) with ((t0 ++ [44]) ++ w1) by (rewrite <- app_assoc; reflexivity).
            apply sub_at_app. rewrite app_length. split; [exact SH|exact SW1].
          + rewrite app_length in BR. cbn [length] in BR.
            match goal with H : broken doc ?a _ [] v |- broken doc ?b _ [] v => now replace b with a by lia end.
          + exists w. rewrite app_nil_r in C. auto. }
      destruct X as (w & Ww & Sw & Bw).
      apply (array_broken g HX HE (usable g) (fun _ _ H => H) t doc H32 es v x false p w); auto.
      - split; [exact S0|exact Sw].
      - now replace (first p + 1 + length w)%nat with (S (first p) + length w)%nat by lia. }
    destruct (length doc =? 0)%nat eqn:L0.
    { unfold from_json. rewrite L0. cbn [negb ensure bind]. eauto. }
    (* the error does not depend on the state: there is only one the parser can be in *)
    assert (Q : exists p0 e, wf doc p0 /\ parse_value g (TArr t) false doc p0 = Err e /\ from_json g verify (TArr t) doc = Err e).
    { unfold from_json. rewrite L0. cbn [negb ensure bind].
      destruct (rd_in doc (length doc - 1)) as (zb & Hz); [lia|]. rewrite (rd_some _ _ _ Hz). cbn [bind].
      set (l := if zb =? 0 then (length doc - 1)%nat else length doc).
      assert (LD : length doc = (length w0 + length text + length rest)%nat) by (unfold doc; len; lia).
      assert (LTx : (0 < length text)%nat) by (unfold text; cbn [length]; lia).
      assert (LL : (length w0 + length text <= l <= length doc)%nat).
      { unfold l. destruct (N.eqb_spec zb 0) as [->|]; [|lia]. split; [|lia].
        assert (length rest <> 0)%nat; [|lia]. intros Y. destruct rest; [|discriminate].
        unfold doc in Hz. rewrite app_nil_r in Hz. set (hd := w0 ++ 91 :: head ++ w1 ++ tx ++ w2).
        replace (w0 ++ text) with (hd ++ [c]) in Hz by (unfold hd, text; repeat (rewrite <- ?app_assoc; cbn [app]); reflexivity).
        rewrite nth_error_app2 in Hz by (len; lia).
        replace (length (hd ++ [c]) - 1 - length hd)%nat with 0%nat in Hz by (len; lia).
        injection Hz as ->. lia. }
      clearbody l.
      assert (S0 : sub_at doc 0 (w0 ++ [91])).
      { unfold doc, text. replace (w0 ++ (91 :: head ++ w1 ++ tx ++ w2 ++ [c]) ++ rest) with ((w0 ++ [91]) ++ (head ++ w1 ++ tx ++ w2 ++ [c]) ++ rest) by (cbn [app]; rewrite <- !app_assoc; reflexivity). apply sub_at_0. }
      rewrite (trims_leading g (TArr t) false doc (new_ps 0 l) 91 HB eq_refl w0 W0 S0) by (cbn [first last new_ps]; lia).
      cbn [first new_ps Nat.add].
      assert (WF : wf doc (set_first (new_ps 0 l) (length w0))) by (apply wf_doc; auto; lia).
      destruct (P (set_first (new_ps 0 l) (length w0)) WF eq_refl) as (e & E); [cbn [last set_first new_ps]; lia|].
      exists (set_first (new_ps 0 l) (length w0)), e. rewrite E. auto. }
    destruct Q as (_ & e & _ & _ & Q). eauto.
  Qed.

  Context (buf : list N).
  Hypothesis H32 : N.of_nat (length buf) < 2^32.

  (** C36: iterators are equal when they stand at the same member, and at the end
      only the one past the last member is. *)
  Fixpoint advance (n : nat) (p : ps) : res ps :=
    match n with O => Ok p | S n => q <- it_next g buf p ;; advance n q end.

  Lemma advance_ok : forall n rest p, it_at g buf p rest -> (n <= length rest)%nat ->
    exists q, advance n p = Ok q /\ it_at g buf q (skipn n rest) /\ (first p + n <= first q)%nat /\ last q = last p.
  Proof.
    destruct HG as [HX HE]. induction n as [|n IH]; intros rest p H L; cbn [advance skipn].
    - exists p. repeat split; auto. lia.
    - destruct rest as [|m rest]; [cbn in L; lia|]. destruct (it_next_ok g HX HE buf H32 _ _ _ H) as (q & EN & HQ & LF & LL & _).
      rewrite EN. cbn [bind]. destruct (IH rest q HQ) as (q' & E & I' & L1 & L2); [cbn in L; lia|].
      exists q'. split; [exact E|]. split; [exact I'|]. split; [lia|congruence].
  Qed.

  Lemma advance_add : forall n m p, advance (n + m) p = (q <- advance n p ;; advance m q).
  Proof.
    induction n as [|n IH]; intros m p; cbn [advance Nat.add bind]; [reflexivity|].
    destruct (it_next g buf p); cbn [bind]; auto.
  Qed.

  Theorem C36_positions_partial : forall v p n m, value_at buf v p -> container v -> names_ok g v ->
    (n <= length (members v))%nat -> (m <= length (members v))%nat ->
    exists b i j, it_begin buf p = Ok b /\ advance n b = Ok i /\ advance m b = Ok j /\
      it_eq buf i j = Ok (n =? m)%nat /\ it_eq buf i null_state = Ok (n =? length (members v))%nat.
  Proof.
    destruct HG as [HX HE]. intros v p n m HV HC HN Ln Lm. destruct (it_begin_ok g buf H32 v p HV HC HN) as (b & EB & IB & LB & CB).
    destruct (advance_ok n _ b IB Ln) as (i & Ei & Ii & Li & _). destruct (advance_ok m _ b IB Lm) as (j & Ej & Ij & Lj & _).
    exists b, i, j. split; [exact EB|]. split; [exact Ei|]. split; [exact Ej|].
    assert (LEN : forall k, length (skipn k (members v)) = (length (members v) - k)%nat) by (intros; apply skipn_length).
    pose proof (it_good g buf H32 _ _ Ii) as Gi. pose proof (it_good g buf H32 _ _ Ij) as Gj.
    split.
    - unfold it_eq. rewrite Gi. cbn [bind]. rewrite Gj. cbn [bind].
      assert (ORD : forall a c x y, (a < c)%nat -> (c <= length (members v))%nat -> advance a b = Ok x -> advance c b = Ok y -> (first x < first y)%nat).
      { intros a c x y LA LC EA EC. destruct (advance_ok a _ b IB ltac:(lia)) as (x' & EA' & Ia & _). rewrite EA in EA'. injection EA' as <-.
        replace c with (a + (c - a))%nat in EC by lia. rewrite advance_add, EA in EC. cbn [bind] in EC.
        destruct (advance_ok (c - a) _ x Ia) as (y' & EY & _ & LY & _); [rewrite LEN; lia|]. rewrite EC in EY. injection EY as <-. lia. }
      destruct (Nat.lt_trichotomy n m) as [LT|[EQ|GT]].
      + replace (n =? m)%nat with false by lia. pose proof (ORD n m i j LT Lm Ei Ej) as FO.
        specialize (LEN n). destruct (skipn n (members v)) as [|z r]; [cbn in LEN; lia|].
        replace (first i =? first j)%nat with false by lia. now rewrite andb_false_r.
      + subst m. rewrite Ei in Ej. injection Ej as <-. rewrite !Nat.eqb_refl. destruct (skipn n (members v)); reflexivity.
      + replace (n =? m)%nat with false by lia. pose proof (ORD m n j i GT Ln Ej Ei) as FO.
        pose proof (LEN m) as LM. destruct (skipn m (members v)) as [|z r]; [cbn in LM; lia|].
        replace (first i =? first j)%nat with false by lia. destruct (skipn n (members v)); reflexivity.
    - rewrite (it_eq_end _ _ _ Gi). specialize (LEN n). destruct (skipn n (members v)) as [|z r]; cbn [length] in LEN; cbn [negb]; f_equal; lia.
  Qed.

  (** The raw state of a value is its text, of a string with the quotes. *)
  Theorem C36_raw_partial : forall v p, value_at buf v p -> v <> JNull ->
    exists r, get_state g buf p = Ok r /\ jtext str_body v (view buf (first r) (last r)) /\ first r = first p.
  Proof.
    destruct HG as [HX HE]. intros v p HV NN. pose proof HV as (HW & t & j & HT & HS & FJ & NV).
    pose proof HW as (_ & _ & LL & _). pose proof (followed_le _ _ _ _ _ FJ) as FL.
    unfold get_state, skip_val.
    destruct (C17_skip_value_partial CNone true (c_ex g) false buf p v t j) as (r & ER & DR); auto.
    { rewrite HX. discriminate. }
    { lia. }
    rewrite HE, ER. cbn [bind]. rewrite (C36_type_partial buf H32 _ _ HV). cbn [bind]. eexists. split; [reflexivity|].
    assert (VW : view buf (first p) (first p + length t) = t) by now apply view_at.
    destruct DR as [DR _]. destruct v as [| | |n|b|es|ms]; try congruence; cbn [kind_of base_type_eqb].
    1,2,3,5,6: destruct DR as [-> ->]; rewrite VW; auto.
    destruct DR as [D1 D2]. cbn [first last set_first set_last].
    assert (L2 : (2 <= length t)%nat) by (inversion HT; subst; cbn [length]; rewrite app_length; cbn; lia).
    replace (first r - 1)%nat with (first p) by lia. replace (last r + 1)%nat with (first p + length t)%nat by lia. rewrite VW. auto.
  Qed.
End Cfg.

(** ** C52, C63: paths that lead nowhere *)

Section Dead.
  Context (g : cfg).
  Hypothesis HG : covered g.
  Context (buf : list N).
  Hypothesis H32 : N.of_nat (length buf) < 2^32.

  Definition missing (r : ps) : Prop := jtype buf r = Ok BNone.

  Lemma missing_null : missing null_state.
  Proof. reflexivity. Qed.

  Lemma missing_stays : forall t r fuel, missing r -> (0 < fuel)%nat -> loop (path_body g buf) fuel (t, r) = Ok r.
  Proof.
    intros t r [|fuel] M L; [lia|]. cbn [loop]. unfold path_body. destruct t as [|c t]; [reflexivity|].
    unfold missing in M. rewrite M. reflexivity.
  Qed.

  Lemma name_turn : forall v k r p, value_at buf v p -> simple k ->
    (r = [] \/ exists c r', r = c :: r' /\ (c = 46 \/ c = 91)) ->
    path_body g buf (k ++ r, p) = (v <- jv_find_class_member g buf p k ;; Ok (inl (strip_dot r, v))).
  Proof.
    intros v k r p HV [NE FK] HR. destruct k as [|x0 k0] eqn:EK; [congruence|]. rewrite <- EK in *.
    assert (X : k ++ r = x0 :: k0 ++ r) by (rewrite EK; reflexivity). unfold path_body. rewrite X, <- X.
    rewrite (C36_type_partial buf H32 _ _ HV). cbn [bind]. replace (base_type_eqb (kind_of v) BNone) with false by (now destruct v).
    pose proof FK as FK1. rewrite EK in FK1. apply Forall_inv in FK1. destruct FK1 as (N1 & N2 & N3 & N4). unfold c_lbrack.
    rewrite (proj2 (N.eqb_neq x0 91)) by exact N2. rewrite (pop_sep k r FK HR). cbv zeta iota beta.
    rewrite EK. cbn iota. rewrite (proj2 (N.eqb_neq x0 91)) by exact N2. reflexivity.
  Qed.

  Lemma index_turn : forall es i ds path t' p, value_at buf (JArr es) p -> digits ds -> dec_val ds = N.of_nat i -> N.of_nat i < 2^64 ->
    rest_text path t' ->
    path_body g buf (91 :: ds ++ 93 :: t', p) =
      (v <- find_element g buf p (Nat.min i (S (S (length buf)))) ;; Ok (inl (strip_dot t', v))).
  Proof.
    intros es i ds path t' p HV D DV LI HR.
    assert (ND : ~ In c_rbrack (91 :: ds)).
    { intros [X|IN]; [discriminate|]. unfold digits in D. rewrite Forall_forall in D. specialize (D _ IN). unfold is_dig, c_rbrack in D. lia. }
    unfold path_body. rewrite (C36_type_partial buf H32 _ _ HV). cbn [bind kind_of base_type_eqb]. change (91 =? c_lbrack) with true. cbn iota.
    change (91 :: ds ++ 93 :: t') with ((91 :: ds) ++ c_rbrack :: t'). rewrite (pop_byte _ _ _ ND). cbv iota beta zeta.
    change (91 =? c_lbrack) with true. cbn iota.
    assert (PI : path_index ds = Ok (N.of_nat i)).
    { unfold path_index. rewrite (unsigned_parser_known_acc 64 false ds (new_ps 0 (length ds)) ds D); [|exact (sub_at_skipn ds 0)|reflexivity].
      cbv zeta. cbn [bind]. rewrite DV. unfold IntModel.cast_u, IntModel.u64. rewrite !N.mod_small; auto; rewrite ?N.mod_small; auto. }
    rewrite PI. cbn [bind]. destruct (rest_strip _ _ HR) as [PT _]. rewrite (strip_again _ _ PT).
    unfold find_element64. replace (N.to_nat (N.min (N.of_nat i) (N.of_nat (S (S (length buf)))))) with (Nat.min i (S (S (length buf)))) by lia.
    reflexivity.
  Qed.

  Lemma elements_bound : forall es p, value_at buf (JArr es) p -> (length es <= length buf)%nat.
  Proof.
    destruct HG as [HX HE]. intros es p HV. destruct (it_begin_ok g buf H32 (JArr es) p HV I I) as (b & EB & IB & LB & CB).
    pose proof (it_at_length g HX HE buf H32 _ _ IB) as LN. destruct (it_at_wf _ _ _ _ IB) as (_ & _ & L & _).
    cbn [members] in LN. rewrite map_length in LN. lia.
  Qed.

  Lemma dead_loop : forall v path, dead (names_ok g) v path -> forall t p fuel,
    path_text path t -> value_at buf v p -> (length t < fuel)%nat ->
    exists r, loop (path_body g buf) fuel (t, p) = Ok r /\ missing r.
  Proof.
    assert (NBS : forall k, simple k -> ~ In c_bslash k).
    { intros k [_ FK] IN. rewrite Forall_forall in FK. destruct (FK _ IN) as (_ & _ & _ & N4). apply N4. reflexivity. }
    induction 1 as [js k path OK NI|v k path NO|es i path LI L64|js k i w path OK FN NT HD IH|es i w path NT HD IH]; intros t p fuel HT HV HF;
      (destruct fuel as [|fuel]; [lia|]).
    - destruct HT as (r & -> & SK & HR). cbn [loop]. rewrite (name_turn _ k r p HV SK (rest_head _ _ HR)).
      destruct (C37_by_name_partial g HG buf H32 js p k HV OK (NBS k SK)) as (q & EQ & [(j & w' & FN' & NT' & VQ)|[_ ->]]).
      + exfalso. apply NI. apply nth_error_In in NT'. apply (in_map fst) in NT'. exact NT'.
      + rewrite EQ. cbn [bind]. exists null_state. split; [|apply missing_null]. apply missing_stays; [apply missing_null|].
        rewrite app_length in HF. destruct SK as [NE _]. destruct k; [congruence|]. cbn [length] in HF. lia.
    - destruct HT as (r & -> & SK & HR). cbn [loop]. rewrite (name_turn _ k r p HV SK (rest_head _ _ HR)).
      unfold jv_find_class_member. rewrite (C36_type_partial buf H32 _ _ HV). cbn [bind].
      replace (base_type_eqb (kind_of v) BClass) with false by (destruct v; try reflexivity; now contradiction (NO ms)).
      cbn [negb bind]. exists null_state. split; [|apply missing_null]. apply missing_stays; [apply missing_null|].
      rewrite app_length in HF. destruct SK as [NE _]. destruct k; [congruence|]. cbn [length] in HF. lia.
    - cbn [path_text] in HT. inversion HT as [| |i' ds path' t' (D & NE & CN) DV HR]; subst. cbn [loop].
      rewrite (index_turn es i ds path t' p HV D DV L64 HR). pose proof (elements_bound es p HV) as LB.
      assert (F : exists q, find_element g buf p (Nat.min i (S (S (length buf)))) = Ok q /\ missing q).
      { destruct (Nat.eq_dec i (length es)) as [EI|NI].
        - replace (Nat.min i (S (S (length buf)))) with (length es) by lia. exact (C37_past_end_partial g HG buf H32 es p HV).
        - exists null_state. split; [|apply missing_null].
          pose proof (C37_by_index_partial g HG buf H32 (JArr es) p (Nat.min i (S (S (length buf)))) HV I I) as CI. cbn [members] in CI.
          rewrite (proj2 (nth_error_None (map unnamed es) _)) in CI by (rewrite map_length; lia). apply CI. rewrite map_length. lia. }
      destruct F as (q & EQ & MQ). rewrite EQ. cbn [bind]. exists q. split; [|exact MQ]. apply missing_stays; [exact MQ|].
      cbn [length] in HF. lia.
    - destruct HT as (r & -> & SK & HR). cbn [loop]. rewrite (name_turn _ k r p HV SK (rest_head _ _ HR)).
      destruct (C37_by_name_partial g HG buf H32 js p k HV OK (NBS k SK)) as (q & EQ & [(j & w' & FN' & NT' & VQ)|[NI _]]).
      + pose proof (first_named_fun _ _ _ _ FN FN') as <-. rewrite NT in NT'. injection NT' as <-.
        rewrite EQ. cbn [bind]. destruct (rest_strip _ _ HR) as [PT LS]. apply (IH (strip_dot r) q fuel PT VQ).
        rewrite app_length in HF. destruct SK as [NE _]. destruct k; [congruence|]. cbn [length] in HF. lia.
      + exfalso. apply NI. apply nth_error_In in NT. apply (in_map fst) in NT. exact NT.
    - cbn [path_text] in HT. inversion HT as [| |i' ds path' t' (D & NE & CN) DV HR]; subst. cbn [loop].
      pose proof (elements_bound es p HV) as LB. assert (LI : (i < length es)%nat) by (apply nth_error_Some; congruence).
      rewrite (index_turn es i ds path t' p HV D DV) by (auto; change (2^32) with 4294967296 in H32; change (2^64) with 18446744073709551616; lia).
      replace (Nat.min i (S (S (length buf)))) with i by lia.
      pose proof (C37_by_index_partial g HG buf H32 (JArr es) p i HV I I) as CI. cbn [members] in CI. rewrite nth_error_map, NT in CI. cbn [option_map] in CI.
      destruct CI as (q & EQ & VQ). cbn [snd unnamed] in VQ. rewrite EQ. cbn [bind].
      destruct (rest_strip _ _ HR) as [PT LS]. apply (IH _ q fuel PT VQ). cbn [length] in HF. rewrite app_length in HF. cbn [length] in HF. lia.
  Qed.

  (** A path that leads nowhere finds a value of no type. *)
  Theorem C52_missing_partial : forall v p path ptx, value_at buf v p -> dead (names_ok g) v path -> path_text path ptx ->
    exists r, find_member g buf p ptx = Ok r /\ jtype buf r = Ok BNone.
  Proof. intros v p path ptx HV HD HT. apply (dead_loop v path HD ptx p (S (length ptx)) HT HV). lia. Qed.
End Dead.

(** C63: a path that leads nowhere is an error, for a nullable type it is the
    empty value; also with the end of the data verified. *)
Theorem C63_missing_partial : forall g verify t v doc w0 tx w1 path ptx, covered g -> is_bytes doc -> N.of_nat (length doc) < 2^32 ->
  doc = w0 ++ tx ++ w1 -> ws w0 -> jtext str_body v tx -> ws w1 -> v <> JNull ->
  dead (names_ok g) v path -> path_text path ptx ->
  from_json_path g verify t doc ptx = if is_nullable t then Ok VNone else Err JSONPathNotFound.
Proof.
  intros g verify t v doc w0 tx w1 path ptx HG HB H32 ED W0 HT W1 NN HD PT.
  destruct (C36_root_partial doc v w0 tx w1 HB ED W0 HT W1 NN) as (p & EP & VP).
  destruct (C52_missing_partial g HG doc H32 v p path ptx VP HD PT) as (r & ER & MR).
  unfold from_json_path.
  destruct (jtext_last _ _ _ HT) as (rl & cl & EL & NL).
  assert (LD : (0 < length doc)%nat) by (rewrite ED, EL, !app_length; cbn [length]; lia).
  replace (length doc =? 0)%nat with false by lia. cbn [negb ensure bind].
  destruct (rd_in doc (length doc - 1)) as (zb & Hz); [lia|]. rewrite (rd_some _ _ _ Hz). cbn [bind].
  assert (NZ : zb <> 0).
  { intros ->. assert (LW : exists r c, doc = r ++ [c] /\ c <> 0).
    { rewrite ED. destruct w1 as [|y w1'] using rev_ind.
      - exists (w0 ++ rl), cl. rewrite EL, app_nil_r, <- app_assoc. auto.
      - exists (w0 ++ tx ++ w1'), y. rewrite <- !app_assoc. split; [reflexivity|]. apply Forall_app in W1 as [_ W1]. apply Forall_inv in W1. unfold json_ws in W1. lia. }
    destruct LW as (r0 & c0 & E0 & N0). rewrite E0, app_length in Hz. cbn [length] in Hz. rewrite nth_error_app2 in Hz by lia.
    replace (length r0 + 1 - 1 - length r0)%nat with 0%nat in Hz by lia. cbn in Hz. congruence. }
  rewrite (proj2 (N.eqb_neq zb 0) NZ). rewrite EP. cbn [bind]. rewrite ER. cbn [bind]. rewrite MR. reflexivity.
Qed.

Print Assumptions C25_exact_rejected_partial.
Print Assumptions C25_exact_document_partial.
Print Assumptions C28_separator_partial.
Print Assumptions C36_positions_partial.
Print Assumptions C36_raw_partial.
Print Assumptions C52_missing_partial.
Print Assumptions C63_missing_partial.

(** ** Examples *)

Example ex25_exact : let mm := [(bytes "a", uint)] in
  from_json default_cfg false (TClass true mm) (vdoc "{'a':1,'b':2}") = Err UnknownMember /\
  from_json default_cfg false (TClass false mm) (vdoc "{'a':1,'b':2}") = Ok (VClass [VInt 1]) /\
  from_json default_cfg false (TClass true mm) (vdoc "{'a':1}") = Ok (VClass [VInt 1]).
Proof. vm_compute. auto. Qed.

Example ex28_separator : from_json default_cfg false (TArr uint) (vdoc "[1,2;3]") = Err InvalidEndOfValue /\
  from_json default_cfg false (TArr uint) (vdoc "[1 2]") = Err UnexpectedEndOfData /\
  from_json default_cfg false (TArr uint) (vdoc "[1,2]") = Ok (VArr [VInt 1; VInt 2]).
Proof. vm_compute. auto. Qed.

Example ex36_positions : exists b i, it_begin (vdoc "[1,[2]]") (root "[1,[2]]") = Ok b /\ advance default_cfg (vdoc "[1,[2]]") 1 b = Ok i /\
  it_eq (vdoc "[1,[2]]") b i = Ok false /\ it_eq (vdoc "[1,[2]]") i i = Ok true.
Proof. do 2 eexists. split; [vm_compute; reflexivity|]. split; [vm_compute; reflexivity|]. split; vm_compute; reflexivity. Qed.

Example ex36_raw : exists r, get_state default_cfg (vdoc "'x' ") (root "'x' ") = Ok r /\ view (vdoc "'x' ") (first r) (last r) = vdoc "'x'".
Proof. eexists. split; vm_compute; reflexivity. Qed.

Example ex63_missing : from_json_path default_cfg false uint (vdoc "{'a':[1]}") (bytes "a[1].c") = Err JSONPathNotFound /\
  from_json_path default_cfg true (TNullable uint) (vdoc "{'a':[1]}") (bytes "b") = Ok VNone /\
  dead (fun _ => True) (JObj [([97], JArr [JNum [49]])]) [SName [97]; SIndex 1; SName [99]].
Proof.
  split; [vm_compute; reflexivity|]. split; [vm_compute; reflexivity|].
  apply d_in_name with (i := 0%nat) (w := JArr [JNum [49]]); auto.
  - exists [], (JArr [JNum [49]]), []. repeat split. intros [].
  - apply d_index; [cbn; lia|reflexivity].
Qed.
