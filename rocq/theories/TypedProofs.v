(** Every mapped type on well-formed text: the parser returns what the document
    means at that type. *)
From Coq Require Import List NArith ZArith Bool Lia Arith ZifyBool ZifyNat ZifyN.
From Verif Require Import Base Mem Loop PolicyModel IntModel StrScanModel SkipModel SpecNum SpecText SpecJson SpecUnicode
  IntProofs IntSerProofs IntValueProofs StrScanProofs StrScanProofs2 StrScanProofs3 SkipProofs BracketProofs SkipSafe
  PropertiesStr PropertiesSkip StrDecodeModel StrDecodeProofs HashModel PropertiesHash ValueModel SpecTyped
  NameProofs ClassProofs ClassProofs2 ScalarProofs ArrayProofs VariantProofs.
Import ListNotations.
Local Open Scope N_scope.

Lemma lookup_assoc : forall k l, lookup k l = assoc k l.
Proof. reflexivity. Qed.

Lemma typed_null : forall nc t x, typed nc t JNull x -> is_nullable t = true /\ x = VNone.
Proof.
  intros nc t x H. destruct t; cbn in H.
  - destruct H as (? & H & _). discriminate.
  - destruct H as (? & ? & H & _). discriminate.
  - destruct H as [[H _]|[H _]]; discriminate.
  - destruct H as (? & ? & H & _). discriminate.
  - destruct H as [[_ ->]|[H _]]; [auto|congruence].
  - destruct H as (? & ? & H & _). discriminate.
  - destruct H as (? & ? & H & _). discriminate.
  - destruct H as (? & ? & H & _). discriminate.
  - destruct H as (? & ? & ? & H & _). discriminate.
  - destruct H as (? & ? & H & _). discriminate.
  - destruct H as (s & _ & H). destruct k; [destruct H as [H _]; discriminate|contradiction|].
    destruct H as [H|(b & H & _)]; [contradiction|discriminate].
  - exfalso. destruct H as (i & y & _ & H). revert i H. induction alts as [|t alts IH]; intros i H; [destruct i; contradiction|].
    destruct i as [|i]; destruct H as [H H']; [|eauto]. rewrite meant_for_kind in H. destruct (base_kind t); discriminate.
  - destruct H as (? & ? & ? & H & _). discriminate.
Qed.

Lemma no_dup_2 : forall (a b : list N), a <> b -> NoDup [a; b].
Proof. intros a b H. constructor; [intros [E|[]]; congruence|]. constructor; [intros []|constructor]. Qed.
Lemma no_dup_1 : forall (a : list N), NoDup [a].
Proof. intros a. constructor; [intros []|constructor]. Qed.

(** The alternative of a variant *)
Lemma typed_chosen : forall nc v y alts i,
  (fix choose (alts : list ty) (i : nat) : Prop :=
     match alts, i with
     | t :: _, O => meant_for t v = true /\ typed nc t v y
     | t :: alts', S i' => meant_for t v = false /\ choose alts' i'
     | [], _ => False
     end) alts i ->
  exists t, In t alts /\ chosen v alts i t /\ typed nc t v y.
Proof.
  intros nc v y. induction alts as [|t alts IH]; intros i H; [destruct i; contradiction|]. destruct i as [|i]; destruct H as [H1 H2].
  - exists t. split; [now left|]. split; [split; auto|exact H2].
  - destruct (IH _ H2) as (t' & I & C & T). exists t'. split; [now right|]. split; [split; auto|exact T].
Qed.

Lemma typed_visited : forall nc v z alts i,
  (fix choose (alts : list ty) (i : nat) : Prop :=
     match alts, i with
     | t :: _, O => typed nc t v z
     | _ :: alts', S i' => choose alts' i'
     | [], _ => False
     end) alts i ->
  exists t, nth_error alts i = Some t /\ typed nc t v z.
Proof.
  intros nc v z. induction alts as [|t alts IH]; intros i H; [destruct i; contradiction|]. destruct i as [|i]; cbn [nth_error]; [exists t; split; [reflexivity|exact H]|]. apply IH. exact H.
Qed.

(** ** Main theorem *)
Section Cfg.
  Context (g : cfg).
  Hypothesis HX : c_ex g = ExConstexpr.
  Hypothesis HE : c_excl g = false.
  Context (nc : list (list N) -> list N -> Prop).
  Hypothesis HNC : forall names k, nc names k -> name_ok g k /\ tells g names k.

  Theorem typed_reads : forall t v x, typed nc t v x -> reads g (parse_value g t) v x.
  Proof.
    fix IH 1. intros t v x H. destruct t as [w rc|w rc| | |t|t|t|exact mm|exact ts|exact kn tk vn tv|k|alts|exact tag t switch alts]; cbn [typed] in H.
    - destruct H as (ds & -> & HC & W & LT & ->). now apply reads_unsigned.
    - destruct H as (tx & z & -> & HC & W & R & N & ->). now apply reads_signed.
    - destruct H as [[-> ->]|[-> ->]]; apply reads_bool; auto.
    - destruct H as (b & s & -> & D & ->). now apply reads_string.
    - destruct H as [[-> ->]|(NV & y & H & ->)]; [apply reads_null|apply reads_some; auto].
    - destruct H as (es & xs & -> & -> & H). apply reads_array; auto. revert H. clear - IH HX HE HNC. induction 1; constructor; auto.
    - destruct H as (ms & kxs & -> & -> & H). apply reads_map; auto. revert H. clear - IH HX HE HNC.
      induction 1 as [|m kx ms kxs [D H] _ IHl]; constructor; auto. split; auto.
    - destruct H as (js & xs & -> & -> & ND & NDJ & FN & EX & H). apply reads_class; auto.
      assert (EN : map m_name (map (fun m => mkmember (fst m) (is_nullable (snd m)) (parse_value g (snd m))) mm) = map fst mm)
        by (rewrite map_map; reflexivity).
      split; [now rewrite EN|]. rewrite EN. split; [exact NDJ|]. split; [|split].
      + revert FN. apply Forall_impl. intros k. apply HNC.
      + exact EX.
      + clear EX FN ND NDJ EN. revert xs H. induction mm as [|[nm t] mm IHm]; intros [|y xs] H; try contradiction; [constructor|].
        destruct H as [H1 H2]. cbn [map fst snd]. constructor; [|now apply IHm].
        unfold gets. cbn [m_name m_nullable m_parse]. rewrite <- lookup_assoc.
        destruct (lookup nm js) as [v'|]; [|exact H1]. split; [now apply IH|]. intros ->. eapply typed_null; eauto.
    - destruct H as (es & xs & es2 & -> & -> & EX & NA & H).
      assert (FL : length es = length xs /\ Forall2 (fun P vx => reads g P (fst vx) (snd vx)) (map (parse_value g) ts) (combine es xs)).
      { clear EX NA. revert es xs H. induction ts as [|t ts IHt]; intros [|e es] [|y xs] H; try contradiction; [split; constructor|].
        destruct H as [H1 H2]. destruct (IHt _ _ H2) as [L F]. cbn [length map combine]. split; [lia|]. constructor; [cbn [fst snd]; now apply IH|exact F]. }
      destruct FL as [L F]. apply reads_tuple; auto.
    - destruct H as (es & xs & -> & -> & NK & NE & H). apply reads_kv; auto. clear NE. revert H. clear - IH HX HE HNC NK.
      induction 1 as [|e y es xs (js & a & b & -> & -> & NR & FN & EX & HA & HB) _ IHl]; constructor; [|exact IHl].
      apply reads_class; auto. split; [now apply no_dup_2|]. split; [exact NR|]. split; [revert FN; apply Forall_impl; intros k; apply HNC|]. split; [exact EX|].
      cbn [map fst snd]. constructor; [|constructor; [|constructor]]; unfold gets; cbn [m_name m_nullable m_parse]; rewrite <- lookup_assoc.
      + destruct (lookup kn js) as [v'|]; [|exact HA]. split; [now apply IH|]. intros ->. eapply typed_null; eauto.
      + destruct (lookup vn js) as [v'|]; [|exact HB]. split; [now apply IH|]. intros ->. eapply typed_null; eauto.
    - destruct H as (s & -> & H). destruct k.
      + destruct H as [-> H]. now apply reads_custom_string.
      + apply reads_literal; auto.
      + destruct H as [H|(b & -> & ->)]; [apply reads_literal; auto|now apply reads_custom_any].
    - destruct H as (i & y & -> & H).
      assert (G : exists t, chosen v alts i t /\ reads g (parse_value g t) v y).
      { revert i H. induction alts as [|t alts IHa]; intros i H; [destruct i; contradiction|]. destruct i as [|i]; destruct H as [H1 H2].
        - exists t. split; [split; [exact H1|reflexivity]|now apply IH].
        - destruct (IHa i H2) as (t' & C & R). exists t'. split; [split; [exact H1|exact C]|exact R]. }
      destruct G as (t & C & R). eapply reads_variant; eauto.
    - destruct H as (js & y & z & -> & -> & NR & FN & EX & HY & HZ).
      assert (G : exists P, nth_error (map (parse_value g) alts) (switch y) = Some P /\ reads g P (JObj js) z).
      { generalize (switch y) HZ. clear HZ HY. induction alts as [|t' alts IHa]; intros i H; [destruct i; contradiction|]. destruct i as [|i].
        - exists (parse_value g t'). split; [reflexivity|now apply IH].
        - cbn [map nth_error]. now apply IHa. }
      destruct G as (P & HP & RP). apply reads_intrusive with (P := P); auto.
      apply reads_class; auto. split; [apply no_dup_1|]. split; [exact NR|]. split; [revert FN; apply Forall_impl; intros k; apply HNC|]. split; [exact EX|].
      cbn [map fst snd]. constructor; [|constructor]. unfold gets; cbn [m_name m_nullable m_parse]; rewrite <- lookup_assoc.
      destruct (lookup tag js) as [v'|]; [|exact HY]. split; [now apply IH|]. intros ->. eapply typed_null; eauto.
  Qed.

  Lemma class_fits : forall exact mm v x, typed nc (TClass exact mm) v x ->
    exists js xs, v = JObj js /\ x = VClass xs /\
      fits g exact (map (fun m => mkmember (fst m) (is_nullable (snd m)) (parse_value g (snd m))) mm) js xs.
  Proof.
    intros exact mm v x (js & xs & -> & -> & ND & NDJ & FN & EX & H). exists js, xs. split; [reflexivity|]. split; [reflexivity|].
    assert (EN : map m_name (map (fun m => mkmember (fst m) (is_nullable (snd m)) (parse_value g (snd m))) mm) = map fst mm)
      by (rewrite map_map; reflexivity).
    split; [now rewrite EN|]. rewrite EN. split; [exact NDJ|]. split; [|split].
    - revert FN. apply Forall_impl. intros k. apply HNC.
    - exact EX.
    - clear EX FN ND NDJ EN. revert xs H. induction mm as [|[nm t] mm IHm]; intros [|y xs] H; try contradiction; [constructor|].
      destruct H as [H1 H2]. cbn [map fst snd]. constructor; [|now apply IHm].
      unfold gets. cbn [m_name m_nullable m_parse]. rewrite <- lookup_assoc.
      destruct (lookup nm js) as [v'|]; [|exact H1]. split; [now apply typed_reads|]. intros ->. eapply typed_null; eauto.
  Qed.

  Lemma tuple_fits : forall exact ts v x, typed nc (TTuple exact ts) v x ->
    exists es xs es2, v = JArr (es ++ es2) /\ x = VTuple xs /\ (exact = true -> es2 = []) /\ (forall e, hd_error es2 = Some e -> not_array e) /\
      length es = length xs /\ Forall2 (fun P vx => reads g P (fst vx) (snd vx)) (map (parse_value g) ts) (combine es xs).
  Proof.
    intros exact ts v x (es & xs & es2 & -> & -> & EX & NA & H). exists es, xs, es2.
    split; [reflexivity|]. split; [reflexivity|]. split; [exact EX|]. split; [exact NA|]. clear EX NA.
    revert es xs H. induction ts as [|t ts IHt]; intros [|e es] [|y xs] H; try contradiction; [split; constructor|].
    destruct H as [H1 H2]. destruct (IHt _ _ H2) as [L F]. cbn [length map combine]. split; [lia|]. constructor; [cbn [fst snd]; now apply typed_reads|exact F].
  Qed.
End Cfg.

(** ** Whole documents *)

(** Types whose parser skips leading whitespace *)
Definition trims (t : ty) : bool := match t with TArr _ | TClass _ _ | TTuple _ _ => true | _ => false end.

Lemma trims_leading : forall g t known buf p c, is_bytes buf -> trims t = true -> forall w, ws w -> sub_at buf (first p) (w ++ [c]) -> 32 < c ->
  (first p + length w < last p)%nat ->
  parse_value g t known buf p = parse_value g t known buf (set_first p (first p + length w)).
Proof.
  intros g t known buf p c HB HT w W HS HC HL.
  assert (T1 : trim_left_checked buf p = Ok (set_first p (first p + length w))) by (apply (trim_to buf p w c); auto; lia).
  set (p' := set_first p (first p + length w)) in *.
  assert (T2 : trim_left_checked buf p' = Ok p').
  { apply sub_at_app in HS as [_ [HS _]]. now apply (trim_here buf p' c). }
  destruct t; try discriminate HT; cbn [parse_value].
  - unfold parse_value_array. now rewrite T1, T2.
  - unfold parse_value_class. unfold has_more. change (last p') with (last p). change (first p') with (first p + length w)%nat.
    replace (first p <? last p)%nat with true by lia. replace (first p + length w <? last p)%nat with true by lia. cbn [ensure bind].
    unfold parse_json_class. now rewrite T1, T2.
  - unfold parse_tuple. now rewrite T1, T2.
Qed.

(** Nothing ends in a zero byte. *)
Lemma digits_last : forall ds, digits ds -> ds <> [] -> exists r c, ds = r ++ [c] /\ c <> 0.
Proof.
  intros ds HD NE. destruct ds as [|c ds] using rev_ind; [congruence|]. exists ds, c. split; auto.
  apply Forall_app in HD as [_ HD]. inversion HD as [|? ? D _]; subst. unfold is_dig in D. lia.
Qed.

Lemma jtext_last : forall sb v t, jtext sb v t -> exists r c, t = r ++ [c] /\ c <> 0.
Proof.
  intros sb v t HT. destruct HT as [| | |n HJ|b _|w _|es t _|w _|ms t _].
  - now exists [110; 117; 108], 108.
  - now exists [116; 114; 117], 101.
  - now exists [102; 97; 108; 115], 101.
  - destruct HJ as [sg i f e Hsg (Di & Ni & _) Hf He]. destruct He as [|x s ds Hx Hs Hds Nds].
    + rewrite app_nil_r. destruct Hf as [|ds Hds Nds].
      * rewrite app_nil_r. destruct (digits_last i Di Ni) as (r & c & -> & NC). exists (sg ++ r), c. now rewrite app_assoc.
      * destruct (digits_last ds Hds Nds) as (r & c & -> & NC). exists (sg ++ i ++ 46 :: r), c. split; auto.
        repeat (rewrite <- ?app_assoc; cbn [app]). reflexivity.
    + destruct (digits_last ds Hds Nds) as (r & c & -> & NC). exists (sg ++ i ++ f ++ x :: s ++ r), c. split; auto.
      repeat (rewrite <- ?app_assoc; cbn [app]). reflexivity.
  - exists (34 :: b), 34. split; [reflexivity|discriminate].
  - exists (91 :: w), 93. split; [reflexivity|discriminate].
  - exists (91 :: t), 93. split; [reflexivity|discriminate].
  - exists (123 :: w), 125. split; [reflexivity|discriminate].
  - exists (123 :: t), 125. split; [reflexivity|discriminate].
Qed.

Lemma sub_at_0 : forall (a b : list N), sub_at (a ++ b) 0 a.
Proof. intros a b. apply (sub_at_mid [] a b). Qed.

Lemma sub_at_here : forall (a b c : list N), sub_at (a ++ b ++ c) (length a) b.
Proof. intros a b c. apply sub_at_mid. Qed.

Lemma wf_doc : forall (buf : list N) i l, is_bytes buf -> (i <= l <= length buf)%nat -> wf buf (set_first (new_ps 0 l) i).
Proof.
  intros buf i l HB HL. split; [exact HB|]. split; [reflexivity|]. cbn [first last set_first new_ps]. split; [lia|].
  exists l. cbn [clast set_first new_ps]. split; [reflexivity|lia].
Qed.

(** from_json on a document: the length handed to the parser *)
Lemma from_json_len : forall g verify t (body z : list N), body <> [] -> (z = [] \/ z = [0]) ->
  (exists r c, body = r ++ [c] /\ c <> 0) ->
  from_json g verify t (body ++ z) =
   ('(v, p) <- parse_value g t false (body ++ z) (new_ps 0 (length body)) ;;
    if verify then
      p <- trim_left_checked (body ++ z) p ;;
      _ <- ensure (ps_empty p) InvalidEndOfValue ;;
      Ok v
    else Ok v).
Proof.
  intros g verify t body z NE HZ (r & c & EB & NC). unfold from_json.
  assert (LB : (0 < length body)%nat) by (destruct body; [congruence|cbn; lia]).
  replace (length (body ++ z) =? 0)%nat with false by (rewrite app_length; lia). cbn [negb ensure bind].
  destruct HZ as [->| ->].
  - rewrite app_nil_r. rewrite (rd_some body (length body - 1) c).
    2:{ subst body. rewrite app_length. cbn [length]. replace (length r + 1 - 1)%nat with (length r) by lia.
        rewrite nth_error_app2, Nat.sub_diag by lia. reflexivity. }
    cbn [bind]. replace (c =? 0) with false by lia. reflexivity.
  - rewrite (rd_some (body ++ [0]) (length (body ++ [0]) - 1) 0).
    2:{ rewrite app_length. cbn [length]. replace (length body + 1 - 1)%nat with (length body) by lia.
        rewrite nth_error_app2, Nat.sub_diag by lia. reflexivity. }
    cbn [bind N.eqb]. rewrite app_length. cbn [length]. replace (length body + 1 - 1)%nat with (length body) by lia. reflexivity.
Qed.

Lemma ws_last : forall r c w, c <> 0 -> ws w -> exists r' c', (r ++ [c]) ++ w = r' ++ [c'] /\ c' <> 0.
Proof.
  intros r c w NC W. destruct w as [|x w] using rev_ind; [rewrite app_nil_r; eauto|]. exists ((r ++ [c]) ++ w), x. split; [now rewrite app_assoc|].
  unfold ws in W. apply Forall_app in W as [_ W]. inversion W as [|? ? D _]; subst. unfold json_ws in D. lia.
Qed.

Section Doc.
  Context (g : cfg).
  Hypothesis HX : c_ex g = ExConstexpr.
  Hypothesis HE : c_excl g = false.
  Context (nc : list (list N) -> list N -> Prop).
  Hypothesis HNC : forall names k, nc names k -> name_ok g k /\ tells g names k.

  (** The document: whitespace (where the type allows it), the text, whitespace,
      and possibly a terminating zero. *)
  Definition document (t : ty) (v : jv) (doc : list N) : Prop :=
    exists w0 tx w z, ws w0 /\ (trims t = false -> w0 = []) /\ jtext str_body v tx /\ ws w /\ (z = [] \/ z = [0]) /\
      doc = w0 ++ tx ++ w ++ z.

  Theorem from_json_typed : forall verify t v x doc, is_bytes doc -> N.of_nat (length doc) < 2^32 ->
    document t v doc -> typed nc t v x -> from_json g verify t doc = Ok x.
  Proof.
    intros verify t v x doc HB H32 (w0 & tx & w & z & W0 & TR & HT & W & HZ & ->) HTy.
    replace (w0 ++ tx ++ w ++ z) with ((w0 ++ tx ++ w) ++ z) in * by (rewrite <- !app_assoc; reflexivity).
    destruct (jtext_head _ _ _ HT) as (c0 & r0 & ET & ST). destruct (jtext_last _ _ _ HT) as (rl & cl & EL & NL).
    rewrite from_json_len; auto.
    2:{ subst tx. intros Y. apply app_eq_nil in Y as [_ Y]. discriminate. }
    2:{ rewrite EL. destruct (ws_last rl cl w NL W) as (r' & c' & E' & N'). rewrite E'. exists (w0 ++ r'), c'. rewrite <- app_assoc. auto. }
    set (buf := (w0 ++ tx ++ w) ++ z) in *. set (l := length (w0 ++ tx ++ w)).
    assert (LL : l = (length w0 + length tx + length w)%nat) by (unfold l; rewrite !app_length; lia).
    assert (LB : (l <= length buf)%nat) by (unfold buf; rewrite app_length; fold l; lia).
    assert (STX : sub_at buf (length w0) tx).
    { unfold buf. replace ((w0 ++ tx ++ w) ++ z) with (w0 ++ tx ++ (w ++ z)) by (rewrite <- !app_assoc; reflexivity). apply sub_at_mid. }
    assert (LT : (0 < length tx)%nat) by (rewrite ET; cbn; lia).
    set (p := set_first (new_ps 0 l) (length w0)).
    assert (WF : wf buf p) by (apply wf_doc; auto; lia).
    assert (EP : parse_value g t false buf (new_ps 0 l) = parse_value g t false buf p).
    { destruct (trims t) eqn:TT.
      - apply (trims_leading g t false buf (new_ps 0 l) c0 HB TT w0 W0); cbn [first last new_ps].
        + unfold buf. rewrite <- app_assoc. rewrite ET.
          replace (w0 ++ ((c0 :: r0) ++ w) ++ z) with ((w0 ++ [c0]) ++ (r0 ++ w) ++ z) by (rewrite <- !app_assoc; reflexivity). apply sub_at_0.
        + unfold starter in ST. lia.
        + lia.
      - unfold p. rewrite (TR eq_refl). reflexivity. }
    rewrite EP.
    assert (HF : followed true buf (first p + length tx) l (last p)).
    { exists w. split; [exact W|]. unfold p. cbn [first last set_first new_ps]. split; [|split; [lia|split; [lia|left; auto]]].
      unfold buf. replace ((w0 ++ tx ++ w) ++ z) with ((w0 ++ tx) ++ w ++ z) by (rewrite <- !app_assoc; reflexivity).
      rewrite <- app_length. apply sub_at_mid. }
    destruct (proj1 (typed_reads g HX HE nc HNC t v x HTy) buf p tx l WF H32 HT STX HF) as (q & EQ & MQ & LQ).
    rewrite EQ. cbn [bind]. destruct verify; [|reflexivity].
    assert (LQl : last q = l) by (rewrite (proj1 MQ); reflexivity).
    rewrite (trim_followed buf q l HB).
    2:{ rewrite LQl. change (last p) with l in HF. eapply followed_from; [exact HF|exact LQ]. }
    cbn [bind]. unfold ps_empty. cbn [isnull first last set_first]. rewrite LQl, Nat.leb_refl, orb_true_r. reflexivity.
  Qed.
End Doc.
