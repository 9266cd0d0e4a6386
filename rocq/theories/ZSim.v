(** The zero-terminated parser follows the checked parser.

    Both run on the document followed by its zero.  Wherever the checked parser
    succeeds, the zero-terminated one succeeds with the same value; the positions
    are the same unless the checked parser has arrived at the end of its range,
    where the other may have stepped over spaces and commas. *)
From Coq Require Import List NArith ZArith Bool Arith Lia.
From Coq Require Import ZifyBool ZifyNat ZifyN.
From Verif Require Import Base Mem PolicyModel IntModel Loop SpecNum SpecText SpecJson IntProofs StrScanModel StrScanProofs
  SkipModel SkipProofs SkipSafe HashModel StrDecodeModel ValueModel ClassProofs ZModel ZInt ZScan.
Import ListNotations.
Local Open Scope N_scope.
Set Default Proof Using "All".

(** A zero at [L] and nowhere else. *)
Definition zdoc (buf : list N) (L : nat) : Prop :=
  is_bytes buf /\ length buf = S L /\ nth_error buf L = Some 0 /\
  (forall i, (i < L)%nat -> nth_error buf i <> Some 0) /\ N.of_nat (length buf) < 2^31.

(** [y] succeeds when [x] does, with a related result. *)
Definition sim {A : Type} (R : A -> A -> Prop) (x y : res A) : Prop :=
  forall a, x = Ok a -> exists b, y = Ok b /\ R a b.

Section Gen.
  Lemma sim_ok : forall A (R : A -> A -> Prop) a b, R a b -> sim R (Ok a) (Ok b).
  Proof. intros A R a b H x E. injection E as <-. eauto. Qed.

  Lemma sim_bind : forall A B (R : A -> A -> Prop) (T : B -> B -> Prop) x y f g, sim R x y ->
    (forall a b, x = Ok a -> y = Ok b -> R a b -> sim T (f a) (g b)) -> sim T (bind x f) (bind y g).
  Proof.
    intros A B R T x y f g HS HF b E. destruct x as [a| | |] eqn:EX; cbn [bind] in E; try discriminate.
    destruct (HS a eq_refl) as (a' & -> & HR). cbn [bind]. apply (HF a a' eq_refl eq_refl HR). exact E.
  Qed.

  Lemma sim_refl : forall A (R : A -> A -> Prop) x, (forall a, x = Ok a -> R a a) -> sim R x x.
  Proof. intros A R x H a E. exists a. auto. Qed.

  Lemma sim_ensure : forall B (T : B -> B -> Prop) b b' r r' x y, (b = true -> b' = true /\ sim T x y) ->
    sim T (bind (ensure b r) (fun _ => x)) (bind (ensure b' r') (fun _ => y)).
  Proof.
    intros B T b b' r r' x y H a E. destruct b; [|discriminate]. destruct (H eq_refl) as [-> HS]. cbn [ensure bind] in *. auto.
  Qed.

  (** A step that is the same on both sides *)
  Lemma sim_same : forall A B (T : B -> B -> Prop) (x : res A) f g, (forall a, x = Ok a -> sim T (f a) (g a)) ->
    sim T (bind x f) (bind x g).
  Proof. intros A B T x f g H b E. destruct x as [a| | |]; cbn [bind] in *; try discriminate. exact (H a eq_refl b E). Qed.

  Lemma sim_err : forall A (R : A -> A -> Prop) r y, sim R (Err r) y.
  Proof. intros A R r y a E. discriminate. Qed.

  Lemma sim_loop : forall S A (RS : S -> S -> Prop) (R : A -> A -> Prop) body body',
    (forall s s', RS s s' -> sim (fun x y => match x, y with inl a, inl b => RS a b | inr a, inr b => R a b | _, _ => False end) (body s) (body' s')) ->
    forall n s s', RS s s' -> sim R (loop body n s) (loop body' n s').
  Proof.
    intros S A RS R body body' H n. induction n as [|n IH]; intros s s' HS; cbn [loop]; [intros a E; discriminate|].
    eapply sim_bind; [apply H; exact HS|]. intros [a|a] [b|b] _ _ HR; try contradiction; [apply IH; exact HR|apply sim_ok; exact HR].
  Qed.
End Gen.

Section Sim.
  Context (buf : list N) (L : nat).
  Hypothesis ZD : zdoc buf L.

  Lemma in_doc : forall i c, nth_error buf i = Some c -> (i <= L)%nat.
  Proof. intros i c H. destruct ZD as (_ & EL & _). assert (i < length buf)%nat by (apply nth_error_Some; congruence). lia. Qed.

  Lemma before_zero : forall i c, nth_error buf i = Some c -> c <> 0 -> (i < L)%nat.
  Proof.
    intros i c H NC. pose proof (in_doc i c H). destruct ZD as (_ & _ & EZ & _).
    destruct (Nat.eq_dec i L) as [->|]; [congruence|lia].
  Qed.

  Lemma some_byte : forall i, (i <= L)%nat -> exists c, nth_error buf i = Some c /\ c < 256.
  Proof.
    intros i H. destruct ZD as (HB & EL & _). destruct (rd_in buf i) as (c & Hc); [lia|]. exists c. split; auto.
    eapply is_bytes_nth; eauto.
  Qed.

  (** The end of the document, or just behind a closing bracket *)
  Definition stops (l : nat) : Prop := l = L \/ exists k c, l = S k /\ nth_error buf k = Some c /\ (c = 93 \/ c = 125).
  Definition skips (i : nat) : Prop := exists c, nth_error buf i = Some c /\ (c = 44 \/ is_space c = true).
  Definition good (p : ps) : Prop :=
    isnull p = false /\ stops (last p) /\ (first p <= L)%nat /\ exists cl, clast p = Some cl /\ (cl <= S L)%nat.
  Definition rel (p p' : ps) : Prop := good p /\
    (p' = p \/ exists j, (last p <= first p < j)%nat /\ (j <= L)%nat /\ p' = set_first p j /\
                 forall i, (first p <= i < j)%nat -> skips i).

  Lemma stops_le : forall l, stops l -> (l <= L)%nat.
  Proof. intros l [->|(k & c & -> & H & C)]; [lia|]. apply before_zero in H; lia. Qed.

  Lemma is_space_spec : forall c, c < 256 -> is_space c = ((1 <=? c) && (c <=? 32)).
  Proof.
    intros c H. unfold is_space. destruct (N.eq_dec c 0) as [->|NZ]; [reflexivity|].
    replace (c + 2^32 - 1) with (c - 1 + 1 * 2^32) by lia. rewrite N.mod_add by discriminate. rewrite N.mod_small by (change (2^32) with 4294967296; lia).
    lia.
  Qed.

  Lemma rel_refl : forall p, good p -> rel p p.
  Proof. intros p H. split; auto. Qed.
  Lemma rel_good : forall p p', rel p p' -> good p.
  Proof. intros p p' [H _]. exact H. Qed.

  Lemma rel_same : forall p p', rel p p' -> has_more p = true -> p' = p.
  Proof. intros p p' [_ [H|(j & J & _)]] HM; auto. unfold has_more in HM. lia. Qed.

  Lemma rel_has_more : forall p p', rel p p' -> has_more p' = has_more p.
  Proof.
    intros p p' [_ [->|(j & J & _ & -> & _)]]; auto. unfold has_more. cbn [first last set_first].
    destruct (Nat.ltb_spec j (last p)), (Nat.ltb_spec (first p) (last p)); auto; lia.
  Qed.

  Lemma rel_empty : forall p p', rel p p' -> empty_z buf p' = Ok (ps_empty p).
  Proof.
    intros p p' HR. pose proof (rel_good _ _ HR) as (NN & ST & LF & _). unfold empty_z.
    assert (E : ps_empty p' = ps_empty p).
    { destruct HR as [_ [->|(j & J & _ & -> & _)]]; auto. unfold ps_empty. cbn [first last isnull set_first].
      rewrite NN. cbn [orb]. lia. }
    rewrite E. destruct (ps_empty p) eqn:EE; auto. unfold ps_empty in EE. rewrite NN in EE. cbn [orb] in EE.
    assert (HM : has_more p = true) by (unfold has_more; lia). rewrite (rel_same _ _ HR HM). pose proof (stops_le _ ST).
    destruct (some_byte (first p)) as (c & Hc & _); [lia|]. unfold front. rewrite (rd_some _ _ _ Hc). cbn [bind].
    destruct ZD as (_ & _ & _ & NZ & _). destruct (N.eqb_spec c 0) as [->|]; auto. exfalso. apply (NZ (first p)); auto. lia.
  Qed.

  Lemma rel_front : forall p p' c, rel p p' -> front buf p = Ok c -> c <> 44 -> is_space c = false -> p' = p.
  Proof.
    intros p p' c [_ [H|(j & J & _ & _ & SK)]] F N1 N2; auto. destruct (SK (first p)) as (d & Hd & D); [lia|].
    unfold front in F. apply rd_ok_nth in F. assert (d = c) by congruence. subst. destruct D; congruence.
  Qed.

  Lemma rel_is_at : forall p p' c, rel p p' -> is_at buf p' c = is_at buf p c.
  Proof.
    intros p p' c HR. unfold is_at. rewrite (rel_has_more _ _ HR). destruct (has_more p) eqn:E; auto.
    now rewrite (rel_same _ _ HR E).
  Qed.

  Lemma is_at_true : forall p c, is_at buf p c = Ok true -> has_more p = true /\ nth_error buf (first p) = Some c.
  Proof.
    intros p c H. unfold is_at in H. destruct (has_more p) eqn:E; [|discriminate]. split; auto.
    unfold front in H. destruct (rd buf (first p)) as [b| | |] eqn:R; cbn [bind] in H; try discriminate.
    apply rd_ok_nth in R. injection H as H. apply N.eqb_eq in H. congruence.
  Qed.

  Lemma good_at : forall p j, good p -> (j <= L)%nat -> good (set_first p j).
  Proof. intros p j (A & B & C & D) H. repeat split; auto. Qed.
  Lemma good_counter : forall p n, good p -> good (set_counter p n).
  Proof. intros p n H. exact H. Qed.
  Lemma good_next : forall p c, good p -> nth_error buf (first p) = Some c -> c <> 0 -> good (remove_prefix p 1).
  Proof. intros p c G H NC. apply good_at; auto. apply before_zero in H; auto. lia. Qed.
  Lemma good_class : forall p a l, good p -> (l <= S L)%nat -> good (set_class p a (Some l)).
  Proof. intros p a l (A & B & C & D) H. repeat split; auto. exists l. auto. Qed.
  Lemma good_cl : forall p, good p -> (first p < last p)%nat -> (first p < L)%nat.
  Proof. intros p (_ & S & _) H. apply stops_le in S. lia. Qed.

  (** ** Whitespace *)

  Definition spaces (i j : nat) : Prop := forall k, (i <= k < j)%nat -> exists c, nth_error buf k = Some c /\ is_space c = true.

  Lemma trim_z_runs : forall f i, (i <= L)%nat -> (L - i < f)%nat ->
    exists j, trim_loop_unchecked f buf i = Ok j /\ (i <= j <= L)%nat /\ spaces i j /\
      exists c, nth_error buf j = Some c /\ is_space c = false.
  Proof.
    induction f as [|f IH]; intros i HI HF; [lia|]. cbn [trim_loop_unchecked].
    destruct (some_byte i HI) as (c & Hc & C256). rewrite (rd_some _ _ _ Hc). cbn [bind].
    destruct (is_space c) eqn:E.
    - assert (i < L)%nat. { apply (before_zero _ _ Hc). intros ->. discriminate. }
      destruct (IH (S i)) as (j & -> & J & SP & NS); [lia|lia|]. exists j. repeat split; auto; try lia.
      intros k K. destruct (Nat.eq_dec k i) as [->|]; eauto. apply SP. lia.
    - exists i. repeat split; auto; try lia. intros k K. lia. eauto.
  Qed.

  Lemma trim_c_runs : forall f i l j, trim_loop f buf i l = Ok j ->
    (i <= j)%nat /\ spaces i j /\ ((l <= i)%nat /\ j = i \/ (j <= l)%nat /\ (j = l \/ exists c, nth_error buf j = Some c /\ is_space c = false)).
  Proof.
    induction f as [|f IH]; intros i l j H; [discriminate|]. cbn [trim_loop] in H.
    destruct (Nat.ltb_spec i l) as [LT|GE].
    - destruct (rd buf i) as [c| | |] eqn:R; cbn [bind] in H; try discriminate. apply rd_ok_nth in R.
      destruct (is_space c) eqn:E.
      + destruct (IH _ _ _ H) as (A & SP & B). split; [lia|]. split.
        * intros k K. destruct (Nat.eq_dec k i) as [->|]; eauto. apply SP. lia.
        * right. destruct B as [[B ->]|B]; [split; [lia|left; lia]|exact B].
      + injection H as <-. split; [lia|]. split; [intros k K; lia|]. right. split; [lia|]. eauto.
    - injection H as <-. split; [lia|]. split; [intros k K; lia|]. auto.
  Qed.

  Lemma spaces_skip : forall i j, spaces i j -> forall k, (i <= k < j)%nat -> skips k.
  Proof. intros i j H k K. destruct (H k K) as (c & Hc & C). exists c. auto. Qed.

  Lemma set_first_first : forall p i j, set_first (set_first p i) j = set_first p j.
  Proof. reflexivity. Qed.
  Lemma set_first_same : forall p, set_first p (first p) = p.
  Proof. intros []; reflexivity. Qed.

  Lemma sim_trim : forall p p', rel p p' -> sim rel (trim_left_checked buf p) (trim_left_z buf p').
  Proof.
    intros p p' HR q E. unfold trim_left_checked in E.
    destruct (trim_loop _ buf (first p) (last p)) as [i| | |] eqn:T; cbn [bind] in E; try discriminate. injection E as <-.
    apply trim_c_runs in T as (T1 & T2 & T3). unfold trim_left_z. destruct ZD as (_ & EL & _ & NZ & _).
    pose proof (rel_good _ _ HR) as G. pose proof G as (NN & ST & LF & CL). pose proof (stops_le _ ST) as LL.
    destruct HR as [_ [->|(j & J1 & J2 & -> & SK)]].
    - destruct (trim_z_runs (S (length buf)) (first p)) as (k & -> & K & SP & (c & Hc & NC)); [lia|lia|]. cbn [bind].
      eexists; split; [reflexivity|]. destruct T3 as [[T3 ->]|(T3 & T4)].
      + split; [apply good_at; auto|]. destruct (Nat.eq_dec k (first p)) as [->|NE]; [now left|right].
        exists k. cbn [first last set_first]. repeat split; auto; try lia. now apply spaces_skip.
      + assert (IK : (i <= k)%nat).
        { destruct (Nat.le_gt_cases i k); auto. exfalso. destruct (T2 k) as (d & Hd & D); [lia|]. congruence. }
        split; [apply good_at; auto; lia|]. destruct (Nat.eq_dec k i) as [->|NE]; [now left|].
        destruct T4 as [->|(d & Hd & D)].
        * right. exists k. cbn [first last set_first]. repeat split; auto; try lia.
          intros m M. apply (spaces_skip _ _ SP). lia.
        * exfalso. destruct (SP i) as (e & He & E); [lia|]. congruence.
    - assert (i = first p) by (destruct T3 as [[_ ->]|(T3 & _)]; lia). subst i.
      destruct (trim_z_runs (S (length buf)) j) as (k & E & K & SP & (c & Hc & NC)); [lia|lia|].
      cbn [first set_first]. rewrite E. cbn [bind].
      eexists; split; [reflexivity|]. split; [apply good_at; auto|]. right. exists k. cbn [first last set_first].
      repeat split; auto; try lia. intros m M. destruct (Nat.lt_ge_cases m j); [apply SK; lia|]. apply (spaces_skip _ _ SP). lia.
  Qed.

  Lemma trim_z_moves : forall p q, trim_left_z buf p = Ok q -> exists j, q = set_first p j /\ (first p <= j)%nat.
  Proof.
    intros p q E. unfold trim_left_z in E.
    assert (H : forall f i j, trim_loop_unchecked f buf i = Ok j -> (i <= j)%nat).
    { induction f as [|f IH]; intros i j H; [discriminate|]. cbn [trim_loop_unchecked] in H.
      destruct (rd buf i) as [c| | |]; cbn [bind] in H; try discriminate.
      destruct (is_space c); [apply IH in H; lia|injection H as <-; lia]. }
    destruct (trim_loop_unchecked _ buf (first p)) as [j| | |] eqn:T; cbn [bind] in E; try discriminate. injection E as <-.
    exists j. split; auto. eapply H; eauto.
  Qed.

  Lemma sim_move_next : forall p p', rel p p' -> sim rel (move_next buf p) (move_next_z buf p').
  Proof.
    intros p p' HR. unfold move_next, move_next_member_or_end, move_next_member_or_end_checked, move_next_z.
    eapply sim_bind; [apply sim_trim; exact HR|]. intros q0 q0' _ _ HQ. clear p p' HR. rename q0 into p, q0' into p', HQ into HR.
    pose proof (rel_good _ _ HR) as G. pose proof G as (NN & ST & LF & CL). pose proof (stops_le _ ST) as LL.
    unfold is_at. destruct (has_more p) eqn:HM.
    - rewrite (rel_same _ _ HR HM) in *. unfold front. destruct (some_byte (first p) LF) as (c & Hc & C256).
      rewrite (rd_some _ _ _ Hc). cbn [bind]. destruct (N.eqb_spec c c_comma) as [->|NE].
      + apply sim_trim. apply rel_refl. eapply good_next; eauto. discriminate.
      + apply sim_ok. now apply rel_refl.
    - cbn [bind]. intros q E. injection E as <-.
      assert (LF' : (first p' <= L)%nat) by (destruct HR as [_ [->|(j & _ & J & -> & _)]]; auto).
      unfold front. destruct (some_byte (first p') LF') as (c & Hc & C256).
      rewrite (rd_some _ _ _ Hc). cbn [bind]. destruct (N.eqb_spec c c_comma) as [->|NE]; [|eauto].
      assert (HR2 : rel p (remove_prefix p' 1)).
      { split; auto. right. exists (S (first p')). unfold has_more in HM. assert (first p' < L)%nat by (apply (before_zero _ _ Hc); discriminate).
        assert (SK : forall i, (first p <= i < first p')%nat -> skips i) by (destruct HR as [_ [->|(j & _ & J & -> & SK)]]; [intros; lia|exact SK]).
        assert (MV : p' = set_first p (first p') /\ (first p <= first p')%nat).
        { destruct HR as [_ [->|(j & J & _ & -> & _)]]; [split; [now rewrite set_first_same|lia]|split; [reflexivity|cbn; lia]]. }
        destruct MV as [MV1 MV2]. repeat split; try lia.
        - unfold remove_prefix. rewrite MV1 at 1. rewrite set_first_first. f_equal. lia.
        - intros i I. destruct (Nat.eq_dec i (first p')) as [->|]; [exists c_comma; split; auto|apply SK; lia]. }
      assert (LR : (first (remove_prefix p' 1) <= L)%nat) by (destruct HR2 as [_ [->|(j & _ & J & -> & _)]]; auto).
      destruct ZD as (_ & EL & _).
      destruct (trim_z_runs (S (length buf)) (first (remove_prefix p' 1))) as (k & EK & K & SP & _); [lia|lia|].
      unfold trim_left_z. rewrite EK. cbn [bind]. eexists; split; [reflexivity|].
      unfold has_more in HM. destruct HR2 as [_ [E|(j & J & J2 & E & SK)]].
      + exfalso. assert (first (remove_prefix p' 1) = first p) by congruence. cbn [remove_prefix first set_first] in H.
        destruct HR as [_ [->|(j & J & _ & -> & _)]]; cbn [first set_first] in *; lia.
      + split; auto. right. exists k. assert (first (remove_prefix p' 1) = j) by (rewrite E; reflexivity).
        repeat split; auto; try lia.
        * rewrite E. reflexivity.
        * intros i I. destruct (Nat.lt_ge_cases i j); [apply SK; lia|]. apply (spaces_skip _ _ SP). lia.
  Qed.

  (** ** Numbers *)

  Definition nondig (i : nat) : Prop := exists b, nth_error buf i = Some b /\ ~ is_dig b.
  Definition num_at (i l : nat) : Prop := (i <= l)%nat /\ (i = l -> l = L).
  Definition tl (j : nat) : Prop := exists k c, j = S k /\ nth_error buf k = Some c /\ c <> 93 /\ c <> 125.

  Lemma num_at_tl : forall i l, stops l -> (i <= l)%nat -> tl i -> num_at i l.
  Proof.
    intros i l [->|(k & c & -> & Hk & C)] LE (k' & c' & E & Hk' & N1 & N2); split; auto.
    intros ->. exfalso. assert (k' = k) by lia. subst. assert (c' = c) by congruence. subst. destruct C; congruence.
  Qed.

  Lemma nondig_zero : nondig L.
  Proof. destruct ZD as (_ & _ & E & _). exists 0. split; auto. unfold is_dig. lia. Qed.

  Lemma digits_tl : forall ds i, digits ds -> sub_at buf i ds -> ds <> [] -> tl (i + length ds).
  Proof.
    intros ds i HD HS NE. destruct (exists_last NE) as (a & d & ->). apply sub_at_app in HS as [_ [HS _]].
    apply Forall_app in HD as [_ HD]. inversion HD; subst. exists (i + length a)%nat, d. rewrite app_length. cbn [length].
    unfold is_dig in *. repeat split; auto; lia.
  Qed.

  Lemma digits_both : forall i l, stops l -> num_at i l ->
    exists ds, skip_digits_if true buf i l = Ok (i + length ds)%nat /\ skip_digits_if false buf i l = Ok (i + length ds)%nat /\
      digits ds /\ sub_at buf i ds /\ num_at (i + length ds) l /\ nondig (i + length ds) /\ (ds = [] \/ tl (i + length ds)).
  Proof.
    intros i l ST (LE & EQ). pose proof (stops_le _ ST) as LL. destruct ZD as (HB & EL & _).
    unfold skip_digits_if. destruct (Nat.ltb_spec i l) as [LT|GE].
    - destruct (skip_digits_safe buf i l) as (ds & E1 & D1 & D2 & D3 & D4); auto; [lia|]. exists ds.
      assert (TL : ds = [] \/ tl (i + length ds)) by (destruct ds as [|d ds]; [now left|right; apply digits_tl; auto; discriminate]).
      assert (NA : num_at (i + length ds) l).
      { destruct TL as [->|TL]; [cbn [length]; split; lia|]. now apply num_at_tl. }
      assert (ND : nondig (i + length ds)).
      { destruct (Nat.eq_dec (i + length ds) l) as [E|NE]; [rewrite E, (proj2 NA E); apply nondig_zero|]. apply D4. lia. }
      repeat split; auto; try apply NA.
      destruct ds as [|d ds].
      + cbn [length] in *. rewrite Nat.add_0_r in *. destruct ND as (b & Hb & NB). unfold skip_digits. rewrite (rd_some _ _ _ Hb). cbn [bind loop].
        assert (b < 256) by (eapply is_bytes_nth; eauto).
        replace (parse_digit b <? 10) with false by (unfold parse_digit, is_dig, c_0 in *; lia). reflexivity.
      + apply skip_digits_ok; auto; [discriminate|]. split; [exact D3|]. right. exact ND.
    - assert (i = l) by lia. subst i. rewrite (EQ eq_refl) in *. exists []. cbn [length sub_at]. rewrite Nat.add_0_r.
      repeat split; auto; [constructor|apply nondig_zero].
  Qed.

  Lemma fraction_both : forall i l, stops l -> num_at i l -> nondig i ->
    exists o j, skip_fraction true buf i l = Ok (o, j) /\ skip_fraction false buf i l = Ok (o, j) /\
      num_at j l /\ nondig j /\ (i <= j)%nat /\ (j = i \/ tl j).
  Proof.
    intros i l ST NA ND. pose proof (stops_le _ ST) as LL. destruct ZD as (HB & EL & EZ & _). unfold skip_fraction. cbn [negb orb].
    destruct (Nat.ltb_spec i l) as [LT|GE].
    - destruct ND as (b & Hb & NB). rewrite (rd_some _ _ _ Hb). cbn [bind]. destruct (N.eqb_spec b c_dot) as [->|].
      + assert (TL : tl (S i)) by (exists i, c_dot; repeat split; auto; discriminate).
        destruct (digits_both (S i) l) as (ds & E1 & E2 & D1 & D2 & D3 & D4 & D5); auto; [apply num_at_tl; auto; lia|].
        rewrite E1, E2. cbn [bind]. exists (Some i), (S i + length ds)%nat. repeat split; auto; try apply D3; try lia.
        right. destruct D5 as [->|D5]; [cbn [length]; now rewrite Nat.add_0_r|exact D5].
      + exists None, i. repeat split; auto; try apply NA. exists b. auto.
    - assert (i = L) by (destruct NA; lia). subst i. rewrite (rd_some _ _ _ EZ). cbn [bind]. change (0 =? c_dot) with false. cbn iota.
      exists None, L. repeat split; auto; apply NA.
  Qed.

  Lemma exponent_both : forall i l r, stops l -> num_at i l -> nondig i -> skip_exponent true buf i l = Ok r ->
    skip_exponent_z buf i l = Ok r /\ num_at (snd r) l /\ nondig (snd r) /\ (i <= snd r)%nat /\ (snd r = i \/ tl (snd r)).
  Proof.
    intros i l r ST NA ND E. pose proof (stops_le _ ST) as LL. destruct ZD as (HB & EL & EZ & _).
    unfold skip_exponent in E. unfold skip_exponent_z.
    destruct (Nat.ltb_spec i l) as [LT|GE].
    - destruct (some_byte i) as (b & Hb & B256); [lia|]. rewrite (rd_some _ _ _ Hb) in *. cbn [bind] in *.
      destruct ((parse_digit b =? parse_digit c_e) || (parse_digit b =? parse_digit c_E)).
      2:{ injection E as <-. cbn [snd]. repeat split; auto; apply NA. }
      destruct (Nat.ltb_spec (S i) l) as [L1|L1]; cbn [ensure bind] in *; [|discriminate].
      destruct (some_byte (S i)) as (s & Hs & S256); [lia|]. rewrite (rd_some _ _ _ Hs) in *. cbn [bind] in *. cbv zeta in *.
      set (i2 := if (parse_digit s =? parse_digit c_plus) || (parse_digit s =? parse_digit c_minus) then S (S i) else S i) in *.
      assert (I2 : (S i <= i2)%nat) by (unfold i2; destruct (_ || _); lia).
      destruct (Nat.ltb_spec i2 l) as [L2|L2]; cbn [ensure bind] in *; [|discriminate].
      destruct (some_byte i2) as (d & Hd & D256); [lia|]. rewrite (rd_some _ _ _ Hd) in *. cbn [bind] in *.
      destruct (N.ltb_spec (parse_digit d) 10) as [DD|DD]; cbn [ensure bind] in *; [|discriminate].
      destruct (digits_both i2 l) as (ds & E1 & E2 & D1 & D2 & D3 & D4 & D5); auto; [split; lia|].
      rewrite E1 in E. rewrite E2. cbn [bind] in *. injection E as <-. cbn [snd]. repeat split; auto; try apply D3; try lia.
      right. destruct D5 as [->|D5]; [|exact D5]. exfalso. cbn [length] in D4. rewrite Nat.add_0_r in D4. destruct D4 as (d' & Hd' & ND').
      assert (d' = d) by congruence. subst. apply ND'. unfold parse_digit, is_dig, c_0 in *. lia.
    - assert (i = L) by (destruct NA; lia). subst i. rewrite (rd_some _ _ _ EZ). cbn [bind] in *.
      change ((parse_digit 0 =? parse_digit c_e) || (parse_digit 0 =? parse_digit c_E)) with false. cbn iota.
      change ((0 =? parse_digit c_e) || (0 =? parse_digit c_E)) with false in E. cbn iota in E. injection E as <-. cbn [snd]. repeat split; auto; apply NA.
  Qed.

  (** What a recorded location is like *)
  Definition loc_ok (r : ps) : Prop :=
    isnull r = false /\ (first r <= last r <= L)%nat /\
    (nondig (last r) \/ (first r < last r)%nat /\ exists k, last r = S k /\ nondig k) /\
    ((exists cl, clast r = Some cl /\ (cl <= S L)%nat) \/ tl (last r)).

  Lemma number_both : forall p c r q, good p -> (first p < last p)%nat -> nth_error buf (first p) = Some c -> c = 45 \/ is_dig c ->
    skip_number true buf p = Ok (r, q) -> skip_number_z buf p = Ok (r, q) /\ good q /\ loc_ok r.
  Proof.
    intros p c r q G LT Hc C E. pose proof G as (NN & ST & LF & CL). pose proof (stops_le _ ST) as LL.
    unfold skip_number in E. unfold skip_number_z, has_more in *.
    destruct (Nat.ltb_spec (first p) (last p)) as [_|]; [|lia]. cbn [ensure bind] in *.
    unfold front in *. rewrite (rd_some _ _ _ Hc) in *. cbn [bind] in *. cbv zeta in *.
    set (i := if c =? c_minus then S (first p) else first p) in *.
    assert (NA : num_at i (last p)).
    { unfold i. destruct (N.eqb_spec c c_minus) as [->|]; [|split; lia]. apply num_at_tl; auto. exists (first p), c_minus. repeat split; auto; discriminate. }
    destruct (digits_both i (last p) ST NA) as (ds & E1 & E2 & D1 & D2 & D3 & D4 & D5). rewrite E1 in E. rewrite E2. cbn [bind] in *.
    assert (T1 : tl (i + length ds) /\ (first p < i + length ds)%nat).
    { unfold i in *. destruct (N.eqb_spec c c_minus) as [->|NM].
      - split; [|lia]. destruct D5 as [->|D5]; auto. exists (first p), c_minus. cbn [length]. split; [lia|]. repeat split; auto; discriminate.
      - destruct ds as [|d ds]; [|split; [destruct D5 as [D5|D5]; [discriminate|exact D5]|cbn [length]; lia]].
        exfalso. cbn [length] in D4. rewrite Nat.add_0_r in D4. destruct D4 as (d & Hd & ND). assert (d = c) by congruence. subst.
        destruct C as [->|C]; [now apply NM|contradiction]. }
    destruct T1 as [T1 F1].
    destruct (fraction_both _ _ ST D3 D4) as (o & j & F2 & F3 & F4 & F5 & F6 & F7). rewrite F2 in E. rewrite F3. cbn [bind] in *.
    destruct (skip_exponent true buf j (last p)) as [[x k]| | |] eqn:EX; cbn [bind] in E; try discriminate.
    destruct (exponent_both _ _ _ ST F4 F5 EX) as (X1 & X2 & X3 & X4 & X5). rewrite X1. cbn [bind snd] in *. injection E as <- <-.
    assert (TK : tl k).
    { destruct X5 as [->|X5]; auto. destruct F7 as [->|F7]; auto. }
    split; [reflexivity|]. split; [apply good_at; auto; destruct X2; lia|].
    split; [exact NN|]. cbn [first last set_class set_last clast]. split; [destruct X2; lia|]. auto.
  Qed.

  (** ** Strings *)

  Lemma good_string : forall p cl, good p -> (first p <= last p)%nat -> (0 < first p)%nat -> nth_error buf (first p - 1) = Some 34 ->
    clast p = Some cl -> in_string buf p cl.
  Proof.
    intros p cl (NN & ST & LF & cl' & CL & CL2) LT P Q E. destruct ZD as (HB & EL & _). pose proof (stops_le _ ST).
    assert (cl' = cl) by congruence. subst. repeat split; auto; lia.
  Qed.

  Lemma nq_both : forall p cl n q, in_string buf p cl -> parse_nq true ExConstexpr false buf p = Ok (n, q) ->
    parse_nq_z false buf p = Ok (n, q) /\ exists j, q = set_first p j /\ (first p <= j < L)%nat /\ nth_error buf j = Some 34.
  Proof.
    intros p cl n q HI E. pose proof (parse_nq_cx_safe buf p cl HI) as SF. rewrite E in SF. cbn [outcome_ok fst snd] in SF.
    destruct SF as (t & BT & ST & LT & -> & ->). pose proof ZD as (HB & EL & EZ & NZ & H31).
    pose proof ST as ST'. apply sub_at_app in ST' as [S1 [S2 _]].
    assert (LQ : (first p + length t < L)%nat) by (apply (before_zero _ _ S2); discriminate).
    assert (FZ : Forall (fun c => c <> 0) t).
    { apply Forall_forall. intros c HC. apply In_nth_error in HC as [k Hk].
      assert (k < length t)%nat by (apply nth_error_Some; congruence).
      pose proof (sub_at_nth _ _ _ _ _ S1 Hk) as X. intros ->. apply (NZ (first p + k)%nat); auto. lia. }
    assert (L64 : N.of_nat (length t) < 2^64) by (change (2^31) with 2147483648 in H31; change (2^64) with 18446744073709551616; lia).
    rewrite (parse_nq_z_ok buf p cl t HI BT FZ ST L64). split.
    - rewrite (parse_nq_cx_ok buf p cl t HI BT ST LT L64) in E. exact E.
    - exists (first p + length t)%nat. repeat split; auto; lia.
  Qed.

  Lemma string_nq_both : forall p cl r q, good p -> in_string buf p cl -> skip_string_nq true ExConstexpr false buf p = Ok (r, q) ->
    skip_string_nq_z false buf p = Ok (r, q) /\ good q /\ loc_ok r.
  Proof.
    intros p cl r q G HI E. unfold skip_string_nq in E. unfold skip_string_nq_z.
    destruct (parse_nq true ExConstexpr false buf p) as [[n s]| | |] eqn:EN; cbn [bind] in E; try discriminate.
    destruct (nq_both _ _ _ _ HI EN) as (-> & j & -> & LJ & HJ). cbn [bind]. unfold front in *. cbn [first set_first] in *.
    rewrite (rd_some _ _ _ HJ) in *. cbn [bind] in *. change (34 =? c_quote) with true in *. cbn [ensure bind] in *.
    injection E as <- <-. split; [reflexivity|]. split; [apply good_at; [apply good_at; auto; lia|cbn [first set_first]; lia]|].
    destruct G as (NN & ST & LF & CL). split; [exact NN|]. cbn [first last set_last set_counter set_first clast]. split; [lia|]. split; [|left; exact CL].
    left. exists 34. split; auto. unfold is_dig. lia.
  Qed.

  Lemma string_both : forall p r q, good p -> ps_empty p = false -> skip_string true ExConstexpr false false buf p = Ok (r, q) ->
    skip_string_z false buf p = Ok (r, q) /\ good q /\ loc_ok r /\ (0 < first r)%nat.
  Proof.
    intros p r q G NE E. unfold skip_string in E. unfold skip_string_z. rewrite (rel_empty _ _ (rel_refl _ G)). rewrite NE in *. cbn [bind] in *.
    unfold front in *. destruct (rd buf (first p)) as [c| | |] eqn:EC; cbn [bind] in *; try discriminate. apply rd_ok_nth in EC.
    destruct (N.eqb_spec c c_quote) as [->|]; cbn [ensure bind] in *; [|discriminate].
    destruct (has_more (remove_prefix p 1)) eqn:HM; cbn [ensure bind] in *; [|discriminate].
    destruct (skip_string_nq true ExConstexpr false buf (remove_prefix p 1)) as [[r' q']| | |] eqn:EN; cbn [bind] in E; try discriminate. injection E as <- <-.
    pose proof G as (_ & _ & _ & cl & CL & _).
    assert (G1 : good (remove_prefix p 1)) by (eapply good_next; eauto; discriminate).
    assert (HI : in_string buf (remove_prefix p 1) cl).
    { apply good_string; auto; unfold has_more in HM; cbn [first last remove_prefix set_first] in *; [lia|lia|].
      now replace (first p + 1 - 1)%nat with (first p) by lia. }
    destruct (string_nq_both _ _ _ _ G1 HI EN) as (A & B & C). repeat split; auto; try apply B; try apply C.
    unfold skip_string_nq in EN. destruct (parse_nq _ _ _ _ _) as [[n s]| | |]; cbn [bind] in EN; try discriminate.
    destruct (front buf s); cbn [bind] in EN; try discriminate. destruct (_ =? _); cbn [ensure bind] in EN; try discriminate. injection EN as <- _. cbn. lia.
  Qed.

  (** ** Literals *)

  Lemma sim_check : forall rs p p', rel p p' -> sim (fun _ _ => True) (check_after_literal true rs buf p) (check_after_literal true rs buf p').
  Proof.
    intros rs p p' HR. unfold check_after_literal. rewrite (rel_has_more _ _ HR). destruct (has_more p) eqn:HM.
    - rewrite (rel_same _ _ HR HM). apply sim_refl. auto.
    - apply sim_ok. auto.
  Qed.

  Lemma word_both : forall rest rs p q, good p -> (first p < last p)%nat -> skip_word true rest rs buf p = Ok q ->
    q = set_first p (first p + S (length rest)) /\ sub_at buf (S (first p)) rest /\ (first p + S (length rest) <= last p)%nat.
  Proof.
    intros rest rs p q (NN & ST & LF & _) LT E. pose proof (stops_le _ ST). destruct ZD as (_ & EL & _).
    pose proof (skip_word_safe rest rs buf p) as SF. rewrite E in SF. apply SF. lia.
  Qed.

  (** What two skipped ranges have in common *)
  Definition lr (r r' : ps) : Prop := r' = r /\ (isnull r = false -> loc_ok r).
  Definition both (a b : ps * ps) : Prop := lr (fst a) (fst b) /\ rel (snd a) (snd b).

  Lemma sim_bool : forall rest rs val p n c, good p -> (first p < last p)%nat -> n = S (length rest) -> nth_error rest (length rest - 1) = Some c -> ~ is_dig c ->
    sim both (skip_bool CNone true rest rs val buf p) (skip_bool_z n val buf p).
  Proof.
    intros rest rs val p n c G LT -> HC NC. unfold skip_bool, skip_bool_z.
    intros a E. destruct (skip_word true rest rs buf p) as [w| | |] eqn:EW; cbn [bind] in E; try discriminate.
    destruct (word_both _ _ _ _ G LT EW) as (-> & SW & LE). revert a E. cbv zeta.
    pose proof G as (NN & ST & LF & CL). pose proof (stops_le _ ST) as LL.
    apply (sim_bind _ _ rel); [apply sim_trim; apply rel_refl; apply good_at; auto; lia|]. intros q q' _ _ HQ.
    apply (sim_bind _ _ (fun _ _ => True)); [now apply sim_check|]. intros _ _ _ _ _. apply sim_ok.
    split; [|exact HQ]. cbn [fst]. split; [reflexivity|]. intros _.
    split; [exact NN|]. cbn [first last set_last set_counter set_first remove_prefix clast]. split; [lia|]. split; [|left; exact CL].
    right. split; [lia|]. exists (first p + length rest)%nat. split; [lia|]. exists c. split; auto.
    assert (LR : (length rest - 1 < length rest)%nat) by (apply nth_error_Some; congruence).
    pose proof (sub_at_nth _ _ _ _ _ SW HC) as X. now replace (first p + length rest)%nat with (S (first p) + (length rest - 1))%nat by lia.
  Qed.

  Lemma sim_null : forall p, good p -> (first p < last p)%nat -> sim both (skip_null CNone true buf p) (skip_null_z buf p).
  Proof.
    intros p G LT. unfold skip_null, skip_null_z.
    intros a E. destruct (skip_word true [117; 108; 108] InvalidNull buf p) as [w| | |] eqn:EW; cbn [bind] in E; try discriminate.
    destruct (word_both _ _ _ _ G LT EW) as (-> & SW & LE). revert a E. cbv zeta. cbn [length] in *.
    pose proof G as (NN & ST & LF & CL). pose proof (stops_le _ ST) as LL.
    apply sim_ensure. intros HM. split; [exact HM|].
    apply (sim_bind _ _ rel); [apply sim_trim; apply rel_refl; apply good_at; auto; lia|]. intros q q' _ _ HQ.
    apply (sim_bind _ _ (fun _ _ => True)); [now apply sim_check|]. intros _ _ _ _ _. apply sim_ok.
    split; [|exact HQ]. split; [|cbn; discriminate]. cbn [fst]. destruct HQ as [_ [->|(j & _ & _ & -> & _)]]; reflexivity.
  Qed.

  Lemma bracket_both : forall obj p r q, good p -> (first p < last p)%nat -> nth_error buf (first p) = Some (left_of obj) ->
    skip_bracketed CNone true ExConstexpr obj buf p = Ok (r, q) -> good q /\ loc_ok r.
  Proof.
    intros obj p r q G LT HC E. pose proof G as (NN & ST & LF & CL). pose proof (stops_le _ ST) as LL. destruct ZD as (HB & EL & EZ & NZ & H31).
    pose proof (skip_bracketed_bound ExConstexpr obj buf p HB ltac:(lia)) as SF. rewrite E in SF. cbn [outcome_ok fst snd] in SF.
    destruct SF as (_ & S2 & S3 & S4 & S5 & S6). destruct (S6 LT HC) as (_ & S7). destruct (S7 ltac:(discriminate) H31) as (u & k & _ & SU & E1 & E2 & _).
    destruct SU as [_ SU]. apply sub_at_app in SU as [_ [SB _]].
    rewrite S2. split; [apply good_at; auto; lia|].
    assert (IS : isnull r = false /\ clast r = clast p).
    { unfold skip_bracketed in E. destruct (true && (last p <=? first p)%nat); [injection E as <- _; auto|].
      destruct (front buf p); cbn [bind] in E; try discriminate. destruct (loop _ _ _) as [[j n]| | |]; cbn [bind] in E; try discriminate.
      injection E as <- _. auto. }
    destruct IS as [IS1 IS2]. split; [exact IS1|]. split; [lia|]. split; [|left; now rewrite IS2].
    right. split; [lia|]. exists (S (first p) + length u)%nat. split; [lia|]. exists (right_of obj). split; auto. unfold is_dig, right_of. destruct obj; unfold c_rbrace, c_rbrack; lia.
  Qed.

  (** ** Values to skip *)

  Lemma sim_string : forall p, good p -> ps_empty p = false ->
    sim both (skip_string true ExConstexpr false false buf p) (skip_string_z false buf p).
  Proof.
    intros p G NE [r q] E. destruct (string_both _ _ _ G NE E) as (A & B & C & _). exists (r, q). split; auto.
    split; [split; auto|now apply rel_refl].
  Qed.

  Lemma sim_bracket : forall obj p, good p -> has_more p = true -> nth_error buf (first p) = Some (left_of obj) ->
    sim both (skip_bracketed CNone true ExConstexpr obj buf p) (skip_bracketed CNone true ExConstexpr obj buf p).
  Proof.
    intros obj p G HM HC [r q] E. exists (r, q). split; auto.
    unfold has_more in HM. destruct (bracket_both obj p r q) as (A & B); auto; [lia|].
    split; [split; auto|now apply rel_refl].
  Qed.

  Lemma more_lt : forall p, has_more p = true -> (first p < last p)%nat.
  Proof. intros p H. unfold has_more in H. lia. Qed.
  Lemma more_nonempty : forall p, good p -> has_more p = true -> ps_empty p = false.
  Proof. intros p (NN & _) H. unfold has_more in H. unfold ps_empty. rewrite NN. cbn [orb]. lia. Qed.

  Lemma sim_lit : forall p c, good p -> has_more p = true -> nth_error buf (first p) = Some c ->
    sim both
     (if c =? c_t then skip_true CNone true buf p
      else if c =? c_f then skip_false CNone true buf p
      else if c =? c_n then skip_null CNone true buf p
      else if (c =? c_minus) || ((48 <=? c) && (c <=? 57)) then skip_number true buf p
      else Err InvalidStartOfValue)
     (if c =? c_t then skip_bool_z 4 1 buf p
      else if c =? c_f then skip_bool_z 5 0 buf p
      else if c =? c_n then skip_null_z buf p
      else if (c =? c_minus) || ((48 <=? c) && (c <=? 57)) then skip_number_z buf p
      else Err InvalidStartOfValue).
  Proof.
    intros p c G HM HC. pose proof (more_lt _ HM) as LT.
    destruct (c =? c_t); [apply (sim_bool _ _ _ _ _ 101); auto; unfold is_dig; lia|].
    destruct (c =? c_f); [apply (sim_bool _ _ _ _ _ 101); auto; unfold is_dig; lia|].
    destruct (c =? c_n); [now apply sim_null|].
    destruct ((c =? c_minus) || ((48 <=? c) && (c <=? 57))) eqn:EN; [|apply sim_err].
    intros [r q] E. assert (CC : c = 45 \/ is_dig c) by (unfold c_minus, is_dig in *; lia).
    destruct (number_both p c r q G LT HC CC E) as (A & B & C).
    exists (r, q). split; auto. split; [split; auto|now apply rel_refl].
  Qed.

  Lemma sim_skip_val : forall g p p', c_ex g = ExConstexpr -> c_excl g = false -> rel p p' ->
    sim both (skip_val g buf p) (skip_val_z g buf p').
  Proof.
    intros g p p' HX HE HR. unfold skip_val, skip_value, skip_val_z. rewrite HX, HE, (rel_has_more _ _ HR).
    apply sim_ensure. intros HM. split; auto. rewrite (rel_same _ _ HR HM). cbv zeta.
    pose proof (good_counter _ 0 (rel_good _ _ HR)) as G. change (has_more (set_counter p 0) = true) in HM.
    set (p0 := set_counter p 0) in *. clearbody p0. clear HR p p'. apply sim_same. intros c F. unfold front in F. apply rd_ok_nth in F.
    destruct (c =? c_quote); [apply sim_string; auto; now apply more_nonempty|].
    destruct (N.eqb_spec c c_lbrack) as [->|].
    { now apply (sim_bracket false). }
    destruct (N.eqb_spec c c_lbrace) as [->|].
    { now apply (sim_bracket true). }
    now apply sim_lit.
  Qed.

  Lemma sim_literal : forall p p', rel p p' -> sim both (skip_literal CNone true buf p) (skip_literal_z buf p').
  Proof.
    intros p p' HR. unfold skip_literal, skip_literal_z. rewrite (rel_has_more _ _ HR).
    apply sim_ensure. intros HM. split; auto. rewrite (rel_same _ _ HR HM). cbv zeta.
    pose proof (good_counter _ 0 (rel_good _ _ HR)) as G. change (has_more (set_counter p 0) = true) in HM.
    set (p0 := set_counter p 0) in *. clearbody p0. clear HR p p'. apply sim_same. intros c F. unfold front in F. apply rd_ok_nth in F.
    now apply sim_lit.
  Qed.

  (** ** Names *)

  Definition pv {A : Type} (a b : A * ps) : Prop := fst a = fst b /\ rel (snd a) (snd b).

  Lemma sim_after_name : forall p p', rel p p' -> sim rel (trim_end_of_name buf p) (trim_end_of_name_z buf p').
  Proof.
    intros p p' HR. unfold trim_end_of_name, trim_end_of_name_z.
    apply (sim_bind _ _ rel); [now apply sim_trim|]. intros q q' _ _ HQ. rewrite (rel_has_more _ _ HQ).
    apply sim_ensure. intros HM. split; auto. rewrite (rel_same _ _ HQ HM). apply sim_same. intros c F. unfold front in F. apply rd_ok_nth in F.
    apply sim_ensure. intros EC. split; auto. apply sim_trim. apply rel_refl. eapply good_next; eauto; [eapply rel_good; eauto|].
    apply N.eqb_eq in EC. subst. discriminate.
  Qed.

  Lemma sim_name : forall g p p', c_ex g = ExConstexpr -> c_excl g = false -> rel p p' ->
    sim pv (parse_name g buf p) (parse_name_z g buf p').
  Proof.
    intros g p p' HX HE HR. unfold parse_name, parse_name_z. rewrite (rel_is_at _ _ _ HR). apply sim_same. intros b EB.
    apply sim_ensure. intros ->. split; auto. destruct (is_at_true _ _ EB) as (HM & HC). rewrite (rel_same _ _ HR HM).
    pose proof (rel_good _ _ HR) as G. pose proof G as (_ & _ & _ & cl & CL & _).
    assert (G1 : good (remove_prefix p 1)) by (eapply good_next; eauto; discriminate).
    unfold parse_name_nq, parse_name_nq_z. rewrite HX, HE. destruct (c_escnames g).
    - apply (sim_bind _ _ (fun a b => a = b /\ good (snd a))).
      + intros [r q] E. assert (HI : in_string buf (remove_prefix p 1) cl).
        { apply good_string; auto; unfold has_more in HM; cbn [first last remove_prefix set_first] in *; [lia|lia|].
          now replace (first p + 1 - 1)%nat with (first p) by lia. }
        destruct (string_nq_both _ _ _ _ G1 HI E) as (A & B & _). exists (r, q). split; auto.
      + intros [r q] b _ _ [<- GQ]. apply (sim_bind _ _ rel); [apply sim_after_name; now apply rel_refl|].
        intros s s' _ _ HS. apply sim_ok. split; auto.
    - apply sim_same. intros j _. cbv zeta. apply sim_same. intros ok EO. destruct ok.
      + apply sim_same. intros b2 EB2. apply sim_ensure. intros ->. split; auto.
        destruct (is_at_true _ _ EO) as (_ & HJ). cbn [first set_first] in HJ.
        apply (sim_bind _ _ rel); [apply sim_after_name; apply rel_refl; eapply good_next; eauto; [|discriminate]|].
        * apply good_at; auto. apply in_doc in HJ. exact HJ.
        * intros s s' _ _ HS. apply sim_ok. split; auto.
      + cbn [bind ensure]. apply sim_err.
  Qed.

  (** ** Members *)

  Definition lrel (pos : nat) (l l' : list ps) : Prop := length l' = length l /\
    forall i, isnull (nth i l' no_loc) = isnull (nth i l no_loc) /\
      ((pos <= i)%nat -> isnull (nth i l no_loc) = false -> nth i l' no_loc = nth i l no_loc /\ loc_ok (nth i l no_loc)).

  Lemma lrel_weaken : forall pos l l', lrel pos l l' -> lrel (S pos) l l'.
  Proof. intros pos l l' [E H]. split; auto. intros i. destruct (H i) as [A B]. split; auto. intros LE. apply B. lia. Qed.

  Lemma nth_set_same : forall l i x, (i < length l)%nat -> nth i (set_nth l i x) no_loc = x.
  Proof. induction l as [|y l IH]; intros [|i] x LT; cbn in *; try lia; auto. apply IH. lia. Qed.
  Lemma nth_set_other : forall l i k x, i <> k -> nth k (set_nth l i x) no_loc = nth k l no_loc.
  Proof. induction l as [|y l IH]; intros [|i] [|k] x NE; cbn in *; try lia; auto. Qed.
  Lemma set_nth_out : forall l i x, (length l <= i)%nat -> set_nth l i x = l.
  Proof. induction l as [|a l IH]; intros [|i] x H; cbn [set_nth length] in *; auto; [lia|]. rewrite IH; auto. lia. Qed.

  Lemma lrel_set : forall pos l l' k r r', lrel pos l l' -> lr r r' -> lrel pos (set_nth l k r) (set_nth l' k r').
  Proof.
    intros pos l l' k r r' [E H] [R1 R2]. subst r'. split; [now rewrite !set_nth_length|]. intros i.
    destruct (Nat.lt_ge_cases k (length l)) as [K|K].
    - destruct (Nat.eq_dec i k) as [->|NE].
      + rewrite !nth_set_same by lia. split; auto.
      + rewrite !nth_set_other by lia. apply H.
    - rewrite !set_nth_out by lia. apply H.
  Qed.

  Lemma lrel_here : forall pos l l' p p', lrel pos l l' -> isnull p' = isnull p -> lrel (S pos) (set_nth l pos p) (set_nth l' pos p').
  Proof.
    intros pos l l' p p' [E H] R1. split; [now rewrite !set_nth_length|]. intros i.
    destruct (Nat.lt_ge_cases pos (length l)) as [K|K].
    - destruct (Nat.eq_dec i pos) as [->|NE].
      + rewrite !nth_set_same by lia. split; auto. intros X. lia.
      + rewrite !nth_set_other by lia. destruct (H i) as [A B]. split; auto. intros X. apply B. lia.
    - rewrite !set_nth_out by lia. destruct (H i) as [A B]. split; auto. intros X. apply B. lia.
  Qed.

  Lemma rel_isnull : forall p p', rel p p' -> isnull p' = isnull p.
  Proof. intros p p' [_ [->|(j & _ & _ & -> & _)]]; reflexivity. Qed.

  Definition found (pos : nat) (s s' : ps * list ps) : Prop := rel (fst s) (fst s') /\ lrel pos (snd s) (snd s').

  Lemma sim_find : forall g exact names pos, c_ex g = ExConstexpr -> c_excl g = false ->
    forall n s s', found pos s s' ->
    sim (found (S pos)) (loop (find_body g exact names pos buf) n s) (loop (find_body_z g exact names pos buf) n s').
  Proof.
    intros g exact names pos HX HE. apply sim_loop. intros [p l] [p' l'] [HR HL]. cbn [fst snd] in HR, HL. unfold find_body, find_body_z.
    pose proof (rel_good _ _ HR) as G. rewrite (proj1 (proj2 HL pos)).
    apply (sim_bind _ _ (fun a b => a = b)).
    - destruct (isnull (nth pos l no_loc)); [|apply sim_ok; reflexivity]. rewrite (rel_empty _ _ HR). cbn [bind].
      destruct (ps_empty p) eqn:EE; [apply sim_ok; reflexivity|].
      assert (HM : has_more p = true). { unfold ps_empty in EE. unfold has_more. destruct (isnull p); [discriminate|]. cbn [orb] in EE. lia. }
      rewrite (rel_same _ _ HR HM). apply sim_refl. auto.
    - intros go go' _ _ <-. destruct go; cbn [negb]; [|apply sim_ok; split; [exact HR|now apply lrel_weaken]].
      apply (sim_bind _ _ pv); [now apply sim_name|]. intros [nm q] [nm' q'] _ _ [EN HQ]. cbn [fst snd] in EN, HQ. subst nm'. cbv zeta.
      destruct (length names <=? find_name (c_force g) false names pos nm)%nat.
      + destruct exact; [apply sim_err|]. apply (sim_bind _ _ both); [now apply sim_skip_val|].
        intros [r s] [r' s'] _ _ [HLr HS]. cbn [fst snd] in HLr, HS. apply (sim_bind _ _ rel); [now apply sim_move_next|].
        intros u u' _ _ HU. apply sim_ok. split; auto.
      + destruct (find_name (c_force g) false names pos nm =? pos)%nat.
        * apply sim_ok. split; [exact HQ|]. cbn [snd]. apply lrel_here; auto. eapply rel_isnull; eauto.
        * apply (sim_bind _ _ both); [now apply sim_skip_val|].
          intros [r s] [r' s'] _ _ [HLr HS]. cbn [fst snd] in HLr, HS. apply (sim_bind _ _ rel); [now apply sim_move_next|].
          intros u u' _ _ HU. apply sim_ok. split; auto. cbn [snd]. now apply lrel_set.
  Qed.

  (** Parsers of one type that are followed *)
  Definition psim (P Q : parser) : Prop :=
    (forall p p', rel p p' -> sim pv (P false buf p) (Q false buf p')) /\
    (forall p, loc_ok p -> sim (fun a b => fst a = fst b) (P true buf p) (Q true buf p)).

  Lemma trim_unchecked_good : forall p q, good p -> trim_left_unchecked buf p = Ok q -> good q.
  Proof.
    intros p q G E. destruct ZD as (_ & EL & _). pose proof G as (_ & _ & LF & _).
    destruct (trim_z_runs (S (length buf)) (first p)) as (k & EK & K & _); [lia|lia|].
    unfold trim_left_unchecked in E. rewrite EK in E. cbn [bind] in E. injection E as <-. apply good_at; auto. lia.
  Qed.

  Lemma sim_member : forall g exact names pos nullable P Q p p' l l', c_ex g = ExConstexpr -> c_excl g = false ->
    psim P Q -> rel p p' -> lrel pos l l' ->
    sim (fun a b => fst (fst a) = fst (fst b) /\ rel (snd (fst a)) (snd (fst b)) /\ lrel (S pos) (snd a) (snd b))
      (parse_class_member g exact names pos nullable P buf p l) (parse_class_member_z g exact names pos nullable Q buf p' l').
  Proof.
    intros g exact names pos nullable P Q p p' l l' HX HE [PU PK] HR HL. unfold parse_class_member, parse_class_member_z.
    apply (sim_bind _ _ rel); [now apply sim_move_next|]. intros q q' _ _ HQ. clear p p' HR. pose proof (rel_good _ _ HQ) as G.
    rewrite (rel_empty _ _ HQ). cbn [bind]. destruct (ps_empty q) eqn:EE; [apply sim_err|].
    assert (HM : has_more q = true). { unfold ps_empty in EE. unfold has_more. destruct (isnull q); [discriminate|]. cbn [orb] in EE. lia. }
    rewrite (rel_same _ _ HQ HM). clear q' HQ EE. apply sim_same. intros ok _. apply sim_ensure. intros OKE. split; [exact OKE|].
    apply (sim_bind _ _ (fun a b => rel (fst (fst a)) (fst (fst b)) /\ snd a = snd b /\ lrel (S pos) (snd (fst a)) (snd (fst b)) /\
       (snd a = true -> isnull (nth pos (snd (fst a)) no_loc) = false -> nth pos (snd (fst b)) no_loc = nth pos (snd (fst a)) no_loc /\ loc_ok (nth pos (snd (fst a)) no_loc)))).
    - unfold find_class_member, find_class_member_z. apply sim_same. intros brace _. rewrite (proj1 (proj2 HL pos)).
      apply sim_ensure. intros EB. split; auto. apply sim_same. intros u EU. pose proof (trim_unchecked_good _ _ G EU) as GU.
      cbv zeta. destruct (isnull (nth pos l no_loc)) eqn:EN; cbn [negb].
      + apply (sim_bind _ _ (found (S pos))); [apply sim_find; auto; split; [now apply rel_refl|exact HL]|].
        intros [w m] [w' m'] _ _ [HW HM']. cbn [fst snd] in HW, HM'. cbn [orb]. rewrite (proj1 (proj2 HM' pos)). apply sim_ok. cbn [fst snd].
        repeat split; auto; try apply HW; try apply HM'; congruence.
      + cbn [loop]. unfold find_body at 1, find_body_z at 1. rewrite (proj1 (proj2 HL pos)), EN. cbn [bind negb]. apply sim_ok. cbn [fst snd].
        pose proof (lrel_weaken _ _ _ HL) as HLw. split; [now apply rel_refl|]. split; [now rewrite (proj1 (proj2 HL pos))|]. split; [exact HLw|].
        intros _ N. apply (proj2 HL pos); auto.
    - intros [[w m] k] [[w' m'] k'] _ _ (HW & EK & HM' & HK). cbn [fst snd] in *. subst k'. rewrite (proj1 (proj2 HM' pos)). destruct k; cbn [negb].
      + destruct (isnull (nth pos m no_loc)) eqn:EN.
        * destruct nullable; [|apply sim_err]. apply sim_ok. cbn [fst snd]. auto.
        * destruct (HK eq_refl eq_refl) as [-> LO]. apply (sim_bind _ _ (fun a b => fst a = fst b)); [now apply PK|].
          intros [v s] [v' s'] _ _ EV. cbn [fst] in EV. subst. apply sim_ok. cbn [fst snd]. auto.
      + apply (sim_bind _ _ pv); [now apply PU|]. intros [v s] [v' s'] _ _ [EV HS]. cbn [fst snd] in EV, HS. subst. apply sim_ok. cbn [fst snd]. auto.
  Qed.

  Definition msim (m m' : member) : Prop := m_name m' = m_name m /\ m_nullable m' = m_nullable m /\ psim (m_parse m) (m_parse m').

  Lemma sim_members : forall g exact names ms ms', c_ex g = ExConstexpr -> c_excl g = false -> Forall2 msim ms ms' ->
    forall pos p p' l l', rel p p' -> lrel pos l l' ->
    sim pv (parse_members g exact names pos ms buf p l) (parse_members_z g exact names pos ms' buf p' l').
  Proof.
    intros g exact names ms ms' HX HE HF. induction HF as [|m m' ms ms' (EN & ENu & HP) _ IH]; intros pos p p' l l' HR HL; cbn [parse_members parse_members_z].
    - apply sim_ok. split; auto.
    - rewrite ENu. eapply sim_bind; [apply sim_member; eauto|]. intros [[v q] m1] [[v' q'] m1'] _ _ (EV & HQ & HL'). cbn [fst snd] in *. subst v'.
      apply (sim_bind _ _ pv); [now apply IH|]. intros [vs s] [vs' s'] _ _ [EVs HS]. cbn [fst snd] in *. subst. apply sim_ok. split; auto.
  Qed.

  (** ** Classes *)

  Lemma move_to_both : forall f i l j, (l <= L)%nat -> (i < l)%nat -> loop (fun i =>
        c <- rd buf i ;;
        if (c =? c_quote) || (c =? c_rbrace) then Ok (inr i)
        else _ <- ensure (S i <? l)%nat UnexpectedEndOfData ;; Ok (inl (S i))) f i = Ok j ->
    (i <= j < l)%nat /\ (exists c, nth_error buf j = Some c /\ ((c =? c_quote) || (c =? c_rbrace)) = true) /\
    forall f', (L - i < f')%nat -> loop (fun i =>
        c <- rd buf i ;;
        Ok (if (c =? c_quote) || (c =? c_rbrace) then inr i else inl (S i))) f' i = Ok j.
  Proof.
    induction f as [|f IH]; intros i l j HL LT E; [discriminate|]. cbn [loop] in E. destruct (some_byte i) as (c & Hc & _); [lia|].
    rewrite (rd_some _ _ _ Hc) in E. cbn [bind] in E. destruct ((c =? c_quote) || (c =? c_rbrace)) eqn:EC; cbn [bind] in E.
    - injection E as <-. split; [lia|]. split; [eauto|]. intros f' F. destruct f'; [lia|]. cbn [loop]. rewrite (rd_some _ _ _ Hc). cbn [bind]. now rewrite EC.
    - destruct (Nat.ltb_spec (S i) l) as [L1|L1]; cbn [ensure bind] in E; [|discriminate].
      destruct (IH _ _ _ HL L1 E) as (A & B & C). split; [lia|]. split; [exact B|]. intros f' F. destruct f'; [lia|]. cbn [loop].
      rewrite (rd_some _ _ _ Hc). cbn [bind]. rewrite EC. apply C. lia.
  Qed.

  Lemma sim_move_to : forall g p p', c_ex g = ExConstexpr -> rel p p' ->
    sim (fun a b => b = a /\ good a /\ has_more a = true /\ last a = last p /\ clast a = clast p) (move_to_next_class_member g buf p) (move_to_next_class_member_z buf p').
  Proof.
    intros g p p' HX HR. unfold move_to_next_class_member, move_to_next_class_member_z. rewrite HX. intros q E.
    destruct (has_more p) eqn:HM; cbn [ensure bind] in E; [|discriminate]. rewrite (rel_same _ _ HR HM), HM.
    pose proof (rel_good _ _ HR) as G. pose proof G as (NN & ST & LF & CL). pose proof (stops_le _ ST) as LL. pose proof (more_lt _ HM) as LT.
    unfold front. destruct (some_byte (first p)) as (c & Hc & _); [lia|]. rewrite (rd_some _ _ _ Hc). cbn [bind].
    pose proof ZD as (_ & EL & _ & NZ & _). destruct (N.eqb_spec c 0) as [->|NC]; [exfalso; apply (NZ (first p)); auto; lia|]. cbn [negb ensure bind].
    destruct (loop _ _ (first p)) as [j| | |] eqn:EJ in E; cbn [bind] in E; try discriminate. injection E as <-.
    destruct (move_to_both _ _ _ _ LL LT EJ) as (A & _ & C). rewrite C by lia. cbn [bind]. eexists; split; [reflexivity|].
    split; [reflexivity|]. split; [apply good_at; auto; lia|]. split; [|auto]. unfold has_more. cbn [first last set_first]. lia.
  Qed.

  Lemma rel_class : forall p p' a l, rel p p' -> (l <= S L)%nat -> rel (set_class p a (Some l)) (set_class p' a (Some l)).
  Proof.
    intros p p' a l [G H] LE. split; [now apply good_class|]. destruct H as [->|(j & J1 & J2 & -> & SK)]; [now left|right]. exists j. auto.
  Qed.

  Lemma brackets_end : forall obj p r q, good p -> has_more p = true -> skip_bracketed CNone true ExConstexpr obj buf p = Ok (r, q) -> good q.
  Proof.
    intros obj p r q G HM E. pose proof G as (NN & ST & LF & CL). pose proof (stops_le _ ST) as LL. destruct ZD as (HB & EL & EZ & NZ & H31). apply more_lt in HM.
    pose proof (skip_bracketed_bound ExConstexpr obj buf p HB ltac:(lia)) as SF. rewrite E in SF. cbn [outcome_ok fst snd] in SF.
    destruct SF as (S1 & S2 & _). rewrite S2. apply good_at; auto. specialize (S1 ltac:(discriminate) H31). lia.
  Qed.

  Lemma sim_cleanup : forall g exact a l p p', c_ex g = ExConstexpr -> rel p p' -> (l <= S L)%nat ->
    sim rel (class_cleanup_now g exact (a, Some l) buf p) (class_cleanup_now_z exact (a, Some l) buf p').
  Proof.
    intros g exact a l p p' HX HR LE. unfold class_cleanup_now, class_cleanup_now_z. rewrite (rel_has_more _ _ HR). apply sim_ensure. intros HM. split; auto.
    apply (sim_bind _ _ rel); [now apply sim_move_next|]. intros q q' _ _ HQ.
    eapply sim_bind; [apply (sim_move_to g); eauto|]. intros s s' _ _ (-> & GS & HMS & _).
    apply (sim_bind _ _ rel).
    - destruct exact.
      + apply sim_same. intros c F. unfold front in F. apply rd_ok_nth in F. apply sim_ensure. intros EC. split; auto. apply sim_ok. apply rel_refl.
        apply N.eqb_eq in EC. subst. eapply good_next; eauto. discriminate.
      + rewrite HX. apply sim_same. intros [r u] EU. apply sim_ok. apply rel_refl. eapply brackets_end; eauto.
    - intros u u' _ _ HU. apply (sim_bind _ _ rel); [now apply sim_trim|]. intros w w' _ _ HW. apply sim_ok. now apply rel_class.
  Qed.

  Lemma rel_fields : forall p p', rel p p' -> cfirst p' = cfirst p /\ clast p' = clast p /\ last p' = last p.
  Proof. intros p p' [_ [->|(j & _ & _ & -> & _)]]; auto. Qed.

  Lemma names_msim : forall ms ms', Forall2 msim ms ms' -> map m_name ms' = map m_name ms.
  Proof. induction 1 as [|m m' ms ms' (E & _) _ IH]; cbn [map]; congruence. Qed.
  Lemma locs_msim : forall ms ms', Forall2 msim ms ms' -> map (fun _ => no_loc) ms' = map (fun _ => no_loc) ms.
  Proof. induction 1 as [|m m' ms ms' _ _ IH]; cbn [map]; congruence. Qed.

  Lemma lrel_start : forall (ms : list member), lrel 0 (map (fun _ => no_loc) ms) (map (fun _ => no_loc) ms).
  Proof.
    intros ms. split; auto. intros i. split; auto. intros _ E. exfalso. revert i E. induction ms as [|m ms IH]; intros [|i] E; cbn in E; try discriminate. eauto.
  Qed.

  Lemma sim_json_class : forall g exact ms ms' p p', c_ex g = ExConstexpr -> c_excl g = false -> Forall2 msim ms ms' -> rel p p' ->
    sim pv (parse_json_class g exact ms buf p) (parse_json_class_z g exact ms' buf p').
  Proof.
    intros g exact ms ms' p p' HX HE HF HR. unfold parse_json_class, parse_json_class_z.
    apply (sim_bind _ _ rel); [now apply sim_trim|]. intros q q' _ _ HQ. clear p p' HR. rewrite (rel_is_at _ _ _ HQ). apply sim_same. intros b EB.
    apply sim_ensure. intros ->. split; auto. destruct (is_at_true _ _ EB) as (HM & HC). rewrite (rel_same _ _ HQ HM). cbv zeta.
    pose proof (rel_good _ _ HQ) as G. pose proof G as (NN & ST & LF & cl & CL & LCL). pose proof (stops_le _ ST) as LL.
    rewrite CL. rewrite (names_msim _ _ HF), (locs_msim _ _ HF).
    apply (sim_bind _ _ rel).
    { apply sim_trim. apply rel_refl. eapply good_next with (c := c_lbrace); auto; [|discriminate]. apply good_class; auto. }
    intros s s' _ _ HS. apply (sim_bind _ _ pv); [apply sim_members; auto; apply lrel_start|].
    intros [vs u] [vs' u'] _ _ [EV HU]. cbn [fst snd] in EV, HU. subst.
    apply (sim_bind _ _ rel); [now apply sim_cleanup|]. intros w w' _ _ HW. apply sim_ok. split; auto.
  Qed.

  Lemma sim_class : forall g exact ms ms' p p', c_ex g = ExConstexpr -> c_excl g = false -> Forall2 msim ms ms' -> rel p p' ->
    sim pv (parse_value_class g exact ms false buf p) (parse_value_class_z g exact ms' false buf p').
  Proof.
    intros g exact ms ms' p p' HX HE HF HR. unfold parse_value_class, parse_value_class_z. rewrite (rel_has_more _ _ HR).
    apply sim_ensure. intros HM. split; auto. apply (sim_bind _ _ pv); [now apply sim_json_class|].
    intros [v s] [v' s'] _ _ [EV HS]. cbn [fst snd] in EV, HS. subst. apply (sim_bind _ _ rel); [now apply sim_trim|]. intros w w' _ _ HW. apply sim_ok. split; auto.
  Qed.

  Lemma sim_class_known : forall g exact ms ms' p, c_ex g = ExConstexpr -> c_excl g = false -> Forall2 msim ms ms' -> good p ->
    sim (fun a b => fst a = fst b) (parse_value_class g exact ms true buf p) (parse_value_class_z g exact ms' true buf p).
  Proof.
    intros g exact ms ms' p HX HE HF G. unfold parse_value_class, parse_value_class_z.
    apply sim_ensure. intros HM. split; auto. apply (sim_bind _ _ pv); [apply sim_json_class; auto; now apply rel_refl|].
    intros [v s] [v' s'] _ _ [EV HS]. cbn [fst snd] in EV, HS. subst. apply sim_ok. reflexivity.
  Qed.

  (** ** Arrays, tuples and maps *)

  Lemma sim_end : forall p p', good p -> p' = p -> nth_error buf (first p) = Some c_rbrack \/ nth_error buf (first p) = Some c_rbrace ->
    sim rel (trim_left_checked buf (remove_prefix p 1)) (trim_left_z buf (remove_prefix p' 1)).
  Proof.
    intros p p' G -> H. apply sim_trim. apply rel_refl. destruct H as [H|H]; eapply good_next; eauto; discriminate.
  Qed.

  Definition rs {A : Type} (a b : ps * A) : Prop := rel (fst a) (fst b) /\ snd a = snd b.

  Lemma sim_array_loop : forall P Q : parser, (forall p p', rel p p' -> sim pv (P false buf p) (Q false buf p')) -> forall n s s', rs s s' ->
    sim rs (loop (array_body P buf) n s) (loop (array_body_z Q buf) n s').
  Proof.
    intros P Q PU. apply sim_loop. intros [p vs] [p' vs'] [HR EV]. cbn [fst snd] in HR, EV. subst vs'. unfold array_body, array_body_z.
    rewrite (rel_has_more _ _ HR). apply sim_ensure. intros HM. split; auto.
    apply (sim_bind _ _ pv); [now apply PU|]. intros [v q] [v' q'] _ _ [EV HQ]. cbn [fst snd] in EV, HQ. subst v'.
    apply (sim_bind _ _ rel); [now apply sim_trim|]. intros s s' _ _ HS. rewrite (rel_has_more _ _ HS).
    destruct (has_more s) eqn:HMS; [|apply sim_err]. rewrite (rel_same _ _ HS HMS). apply sim_same. intros ok _. apply sim_ensure. intros ->. split; auto.
    apply (sim_bind _ _ rel); [apply sim_move_next; apply rel_refl; eapply rel_good; eauto|]. intros u u' _ _ HU. rewrite (rel_has_more _ _ HU).
    apply sim_ensure. intros HMU. split; auto. rewrite (rel_same _ _ HU HMU). apply sim_same. intros c F. unfold front in F. apply rd_ok_nth in F.
    destruct (N.eqb_spec c c_rbrack) as [->|].
    - unfold end_of_array, end_of_array_z. apply (sim_bind _ _ rel); [apply sim_end; auto; eapply rel_good; eauto|]. intros w w' _ _ HW. apply sim_ok. split; auto.
    - apply sim_ok. split; auto. apply rel_refl. eapply rel_good; eauto.
  Qed.

  Lemma sim_array : forall P Q p p', psim P Q -> rel p p' -> sim pv (parse_value_array P buf p) (parse_value_array_z Q buf p').
  Proof.
    intros P Q p p' [HP _] HR. unfold parse_value_array, parse_value_array_z.
    apply (sim_bind _ _ rel); [now apply sim_trim|]. intros q q' _ _ HQ. clear p p' HR. rewrite (rel_is_at _ _ _ HQ). apply sim_same. intros b EB.
    apply sim_ensure. intros ->. split; auto. destruct (is_at_true _ _ EB) as (HM & HC). rewrite (rel_same _ _ HQ HM). pose proof (rel_good _ _ HQ) as G.
    assert (G1 : good (remove_prefix q 1)) by (eapply good_next; eauto; discriminate).
    apply sim_same. intros s ES. pose proof (trim_unchecked_good _ _ G1 ES) as GS. apply sim_same. intros c F. unfold front in F. apply rd_ok_nth in F.
    destruct (N.eqb_spec c c_rbrack) as [->|].
    - unfold end_of_array, end_of_array_z. apply (sim_bind _ _ rel); [apply sim_end; auto|]. intros w w' _ _ HW. apply sim_ok. split; auto.
    - apply (sim_bind _ _ rs); [apply sim_array_loop; auto; split; auto; now apply rel_refl|].
      intros [u vs] [u' vs'] _ _ [HU EV]. cbn [fst snd] in *. subst. apply sim_ok. split; auto.
  Qed.

  Lemma sim_kv_array_unknown : forall P Q p p', (forall p p', rel p p' -> sim pv (P false buf p) (Q false buf p')) -> rel p p' -> sim pv (parse_value_keyvalue_array P buf p) (parse_value_keyvalue_array_z Q buf p').
  Proof.
    intros P Q p p' HP HR. unfold parse_value_keyvalue_array, parse_value_keyvalue_array_z. rewrite (rel_is_at _ _ _ HR). apply sim_same. intros b EB.
    apply sim_ensure. intros ->. split; auto. destruct (is_at_true _ _ EB) as (HM & HC). rewrite (rel_same _ _ HR HM). pose proof (rel_good _ _ HR) as G.
    assert (G1 : good (remove_prefix p 1)) by (eapply good_next; eauto; discriminate). cbv zeta.
    apply sim_same. intros c F. unfold front in F. apply rd_ok_nth in F.
    destruct (N.eqb_spec c c_rbrack) as [->|].
    - unfold end_of_array, end_of_array_z. apply (sim_bind _ _ rel); [apply sim_end; auto|]. intros w w' _ _ HW. apply sim_ok. split; auto.
    - apply (sim_bind _ _ rs); [apply sim_array_loop; auto; split; auto; now apply rel_refl|].
      intros [u vs] [u' vs'] _ _ [HU EV]. cbn [fst snd] in *. subst. apply sim_ok. split; auto.
  Qed.

  Lemma sim_elements : forall Ps Qs, Forall2 psim Ps Qs -> forall p p', rel p p' -> sim pv (parse_elements Ps buf p) (parse_elements_z Qs buf p').
  Proof.
    induction 1 as [|P Q Ps Qs [PU _] _ IH]; intros p p' HR; cbn [parse_elements parse_elements_z]; [apply sim_ok; split; auto|].
    rewrite (rel_has_more _ _ HR). apply sim_ensure. intros HM. split; auto.
    apply (sim_bind _ _ pv); [now apply PU|]. intros [v q] [v' q'] _ _ [EV HQ]. cbn [fst snd] in EV, HQ. subst v'.
    apply (sim_bind _ _ rel); [now apply sim_move_next|]. intros s s' _ _ HS.
    apply (sim_bind _ _ pv); [now apply IH|]. intros [vs u] [vs' u'] _ _ [EV HU]. cbn [fst snd] in EV, HU. subst. apply sim_ok. split; auto.
  Qed.

  Lemma sim_tuple : forall g exact Ps Qs p p', c_ex g = ExConstexpr -> Forall2 psim Ps Qs -> rel p p' ->
    sim pv (parse_tuple g exact Ps buf p) (parse_tuple_z exact Qs buf p').
  Proof.
    intros g exact Ps Qs p p' HX HF HR. unfold parse_tuple, parse_tuple_z.
    apply (sim_bind _ _ rel); [now apply sim_trim|]. intros q q' _ _ HQ. clear p p' HR. rewrite (rel_is_at _ _ _ HQ). apply sim_same. intros b EB.
    apply sim_ensure. intros ->. split; auto. destruct (is_at_true _ _ EB) as (HM & HC). rewrite (rel_same _ _ HQ HM). cbv zeta.
    pose proof (rel_good _ _ HQ) as G. pose proof G as (NN & ST & LF & cl & CL & LCL). pose proof (stops_le _ ST) as LL. rewrite CL.
    apply (sim_bind _ _ rel).
    { apply sim_move_next. apply rel_refl. eapply good_next with (c := c_lbrack); auto; [|discriminate]. apply good_class; auto. }
    intros s s' _ _ HS. apply (sim_bind _ _ rel); [now apply sim_trim|]. intros u u' _ _ HU.
    apply (sim_bind _ _ pv); [now apply sim_elements|]. intros [vs w] [vs' w'] _ _ [EV HW]. cbn [fst snd] in EV, HW. subst.
    apply (sim_bind _ _ rel).
    - destruct exact.
      + apply (sim_bind _ _ rel); [now apply sim_trim|]. intros x x' _ _ HX'. intros y E.
        destruct (front buf x) as [c| | |] eqn:F; cbn [bind] in E; try discriminate.
        destruct (N.eqb_spec c c_rbrack) as [->|]; cbn [ensure bind] in E; [|discriminate].
        pose proof (rel_front _ _ _ HX' F ltac:(discriminate) eq_refl) as ->. rewrite F. cbn [bind]. change (c_rbrack =? c_rbrack) with true. cbn [ensure bind].
        unfold front in F. apply rd_ok_nth in F. apply (sim_end x x); auto. eapply rel_good; eauto.
      + rewrite HX. destruct (has_more w) eqn:HMW.
        * rewrite (rel_same _ _ HW HMW). apply sim_same. intros [r x] EX. apply sim_ok. apply rel_refl. exact (brackets_end false w r x (rel_good _ _ HW) HMW EX).
        * intros x E. unfold skip_array, skip_bracketed in *. pose proof (rel_has_more _ _ HW) as HMW'. rewrite HMW in HMW'. unfold has_more in HMW, HMW'. cbn [andb] in *.
          replace (last w <=? first w)%nat with true in E by lia. replace (last w' <=? first w')%nat with true by lia. cbn [bind] in *.
          injection E as <-. eauto.
    - intros x x' _ _ HX'. apply sim_ok. split; auto. cbn [fst snd]. now apply rel_class.
  Qed.

  Lemma sim_string_value : forall p p', rel p p' ->
    sim pv (parse_value_string_escaped true false ExConstexpr true buf p) (parse_value_string_z false buf p').
  Proof.
    intros p p' HR. unfold parse_value_string_escaped, parse_value_string_z. rewrite (rel_empty _ _ HR). cbn [bind].
    apply sim_ensure. intros NE. split; auto. apply negb_true_iff in NE.
    assert (HM : has_more p = true). { unfold ps_empty in NE. unfold has_more. destruct (isnull p); [discriminate|]. cbn [orb] in NE. lia. }
    rewrite (rel_same _ _ HR HM). pose proof (rel_good _ _ HR) as G.
    apply (sim_bind _ _ (fun a b => b = a /\ good (snd a))).
    - intros [r q] E. destruct (string_both _ _ _ G NE E) as (A & B & _). exists (r, q). auto.
    - intros [r q] b _ _ [-> GQ]. cbn [snd] in GQ. cbn [negb orb]. destruct (needs_slow_path r).
      + apply sim_same. intros s _. apply sim_ok. split; auto. now apply rel_refl.
      + apply sim_refl. intros [s u] E. destruct (last r <=? length buf)%nat; [|discriminate]. injection E as <- <-. split; auto. now apply rel_refl.
  Qed.

  Lemma sim_map_loop : forall g P Q, c_ex g = ExConstexpr -> psim P Q -> forall n s s', rs s s' ->
    sim rs (loop (map_body g P buf) n s) (loop (map_body_z Q buf) n s').
  Proof.
    intros g P Q HX [PU _]. apply sim_loop. intros [p vs] [p' vs'] [HR EV]. cbn [fst snd] in HR, EV. subst vs'. unfold map_body, map_body_z.
    rewrite (rel_has_more _ _ HR). apply sim_ensure. intros HM. split; auto. rewrite HX.
    apply (sim_bind _ _ pv); [now apply sim_string_value|]. intros [k q] [k' q'] _ _ [EV HQ]. cbn [fst snd] in EV, HQ. subst k'.
    apply (sim_bind _ _ rel); [now apply sim_after_name|]. intros s s' _ _ HS.
    apply (sim_bind _ _ pv); [now apply PU|]. intros [v t] [v' t'] _ _ [EV HT]. cbn [fst snd] in EV, HT. subst v'.
    apply (sim_bind _ _ rel); [now apply sim_move_next|]. intros u u' _ _ HU. rewrite (rel_has_more _ _ HU).
    apply sim_ensure. intros HMU. split; auto. rewrite (rel_same _ _ HU HMU). apply sim_same. intros c F. unfold front in F. apply rd_ok_nth in F.
    destruct (N.eqb_spec c c_rbrace) as [->|].
    - apply (sim_bind _ _ rel); [apply sim_end; auto; eapply rel_good; eauto|]. intros w w' _ _ HW. apply sim_ok. split; auto.
    - apply sim_ok. split; auto. apply rel_refl. eapply rel_good; eauto.
  Qed.

  Lemma sim_map : forall g P Q p p', c_ex g = ExConstexpr -> psim P Q -> rel p p' -> sim pv (parse_value_keyvalue g P buf p) (parse_value_keyvalue_z Q buf p').
  Proof.
    intros g P Q p p' HX HP HR. unfold parse_value_keyvalue, parse_value_keyvalue_z. rewrite (rel_is_at _ _ _ HR). apply sim_same. intros b EB.
    apply sim_ensure. intros ->. split; auto. destruct (is_at_true _ _ EB) as (HM & HC). rewrite (rel_same _ _ HR HM). pose proof (rel_good _ _ HR) as G.
    assert (G1 : good (remove_prefix p 1)) by (eapply good_next; eauto; discriminate).
    apply (sim_bind _ _ rel); [apply sim_trim; now apply rel_refl|]. intros q q' _ _ HQ. rewrite (rel_empty _ _ HQ). cbn [bind].
    apply sim_ensure. intros NE. split; auto. apply negb_true_iff in NE.
    assert (HMQ : has_more q = true). { unfold ps_empty in NE. unfold has_more. destruct (isnull q); [discriminate|]. cbn [orb] in NE. lia. }
    rewrite (rel_same _ _ HQ HMQ). apply sim_same. intros c F. unfold front in F. apply rd_ok_nth in F.
    destruct (N.eqb_spec c c_rbrace) as [->|].
    - apply (sim_bind _ _ rel); [apply sim_end; auto; eapply rel_good; eauto|]. intros w w' _ _ HW. apply sim_ok. split; auto.
    - apply (sim_bind _ _ rs); [apply sim_map_loop; auto; split; auto; apply rel_refl; eapply rel_good; eauto|].
      intros [u vs] [u' vs'] _ _ [HU EV]. cbn [fst snd] in *. subst. apply sim_ok. split; auto.
  Qed.

  (** ** Scalars *)

  Lemma sim_starts : forall p p' w, rel p p' -> w <> [] -> starts_with buf p' w = starts_with buf p w.
  Proof.
    intros p p' w HR NW. destruct (has_more p) eqn:HM; [now rewrite (rel_same _ _ HR HM)|].
    pose proof (rel_has_more _ _ HR) as HM'. rewrite HM in HM'. unfold has_more in *. unfold starts_with, ps_size.
    destruct w; [congruence|]. cbn [length]. destruct (Nat.ltb_spec (last p - first p) (S (length w))); [|lia].
    destruct (Nat.ltb_spec (last p' - first p') (S (length w))); [reflexivity|lia].
  Qed.

  Lemma starts_room : forall p a w, starts_with buf p (a :: w) = Ok true -> (first p + length (a :: w) <= last p)%nat /\ has_more p = true.
  Proof.
    intros p a w E. unfold starts_with, ps_size in E. destruct (Nat.ltb_spec (last p - first p) (length (a :: w))); [discriminate|].
    cbn [length] in *. unfold has_more. split; lia.
  Qed.

  Lemma sim_end_of_item : forall p p', rel p p' -> end_of_item_ok buf p' = end_of_item_ok buf p.
  Proof.
    intros p p' HR. unfold end_of_item_ok. rewrite (rel_has_more _ _ HR). destruct (has_more p) eqn:HM; auto. now rewrite (rel_same _ _ HR HM).
  Qed.

  Lemma good_room : forall p n, good p -> (first p + n <= last p)%nat -> good (remove_prefix p n).
  Proof. intros p n G H. apply good_at; auto. destruct G as (_ & ST & _). apply stops_le in ST. lia. Qed.

  Lemma psim_bool : psim (fun known => parse_value_bool known) (fun known => parse_value_bool_z known).
  Proof.
    split.
    - intros p p' HR. pose proof (rel_good _ _ HR) as G. unfold parse_value_bool, parse_value_bool_z. rewrite (sim_starts _ _ _ HR) by discriminate.
      rewrite (sim_starts _ _ [102; 97; 108; 115; 101] HR) by discriminate.
      apply sim_same. intros t ET. apply (sim_bind _ _ pv).
      + destruct t.
        * destruct (starts_room _ _ _ ET) as [R HM]. rewrite (rel_same _ _ HR HM). apply sim_ok. split; auto. apply rel_refl. now apply good_room.
        * apply sim_same. intros f EF. destruct f; [|apply sim_err].
          destruct (starts_room _ _ _ EF) as [R HM]. rewrite (rel_same _ _ HR HM). apply sim_ok. split; auto. apply rel_refl. now apply good_room.
      + intros [b q] [b' q'] _ _ [EV HQ]. cbn [fst snd] in EV, HQ. subst b'.
        apply (sim_bind _ _ rel); [now apply sim_trim|]. intros s s' _ _ HS. rewrite (sim_end_of_item _ _ HS). apply sim_same. intros e _.
        apply sim_ensure. intros OKE. split; [exact OKE|]. apply sim_ok. split; auto.
    - intros p _. unfold parse_value_bool, parse_value_bool_z. apply sim_refl. auto.
  Qed.

  Lemma psim_string : psim (fun known buf p => '(s, p) <- parse_value_string_escaped true known ExConstexpr true buf p ;; Ok (VStr s, p))
                           (fun known buf p => '(s, p) <- parse_value_string_z known buf p ;; Ok (VStr s, p)).
  Proof.
    split.
    - intros p p' HR. apply (sim_bind _ _ pv); [now apply sim_string_value|]. intros [v s] [v' s'] _ _ [EV HS]. cbn [fst snd] in *. subst. apply sim_ok. split; auto.
    - intros p _. unfold parse_value_string_escaped, parse_value_string_z. cbn [bind orb negb]. apply sim_refl. auto.
  Qed.

  Lemma psim_null : forall P Q, psim P Q -> psim (fun known buf p => parse_value_null P known buf p) (fun known buf p => parse_value_null_z Q known buf p).
  Proof.
    intros P Q [PU PK]. split.
    - intros p p' HR. pose proof (rel_good _ _ HR) as G. unfold parse_value_null, parse_value_null_z. cbv zeta. rewrite (rel_has_more _ _ HR).
      apply (sim_bind _ _ (fun a b => b = a /\ (a = false -> has_more p = true))).
      + destruct (has_more p) eqn:HM; [|apply sim_ok; split; auto]. rewrite (rel_same _ _ HR HM). apply sim_refl. auto.
      + intros none none' _ _ [-> HN]. destruct none; [apply sim_ok; split; auto|]. specialize (HN eq_refl). rewrite (rel_same _ _ HR HN).
        apply sim_same. intros n EN. destruct n.
        * destruct (starts_room _ _ _ EN) as [R _]. pose proof (good_room _ 4 G R) as G4.
          apply sim_same. intros e _. apply sim_ensure. intros OKE. split; [exact OKE|].
          apply (sim_bind _ _ rel); [apply sim_trim; now apply rel_refl|]. intros s s' _ _ HS. apply sim_ok. split; auto.
        * apply (sim_bind _ _ pv); [apply PU; now apply rel_refl|]. intros [v s] [v' s'] _ _ [EV HS]. cbn [fst snd] in *. subst. apply sim_ok. split; auto.
    - intros p LO. unfold parse_value_null, parse_value_null_z. cbv zeta. rewrite (proj1 LO).
      apply (sim_bind _ _ (fun a b => fst a = fst b)); [now apply PK|]. intros [v s] [v' s'] _ _ EV. cbn [fst snd] in *. subst. apply sim_ok. reflexivity.
  Qed.

  Lemma psim_custom : forall g k, c_ex g = ExConstexpr -> c_excl g = false ->
    psim (fun known buf p => parse_value_custom g k known buf p) (fun known buf p => parse_value_custom_z g k known buf p).
  Proof.
    intros g k HX HE. split; [|intros p _; unfold parse_value_custom, parse_value_custom_z; destruct k; apply sim_refl; auto].
    intros p p' HR. pose proof (rel_good _ _ HR) as G. unfold parse_value_custom, parse_value_custom_z.
    assert (ST : forall p p', rel p p' -> has_more p = false \/ sim (fun a b => fst a = fst b /\ rel (snd a) (snd b))
               (skip_string true (c_ex g) (c_excl g) false buf p) (skip_string_z (c_excl g) buf p')).
    { intros u u' HU. destruct (has_more u) eqn:HM; [right|now left]. rewrite (rel_same _ _ HU HM), HX, HE. pose proof (rel_good _ _ HU) as GU. intros [r q] E.
      destruct (string_both _ _ _ GU (more_nonempty _ GU HM) E) as (A & B & _). exists (r, q). split; auto. split; auto. now apply rel_refl. }
    assert (CONT : forall (r q q' : ps), rel q q' -> sim pv
       (ok <- (if has_more r then c <- front buf r ;; Ok (negb ((c =? c_lbrack) || (c =? c_lbrace))) else Ok false) ;;
        _ <- ensure ok InvalidStartOfValue ;; Ok (VStr (view buf (first r) (last r)), q))
       (ok <- (if has_more r then c <- front buf r ;; Ok (negb ((c =? c_lbrack) || (c =? c_lbrace))) else Ok false) ;;
        _ <- ensure ok InvalidStartOfValue ;; Ok (VStr (view buf (first r) (last r)), q'))).
    { intros r q q' HQ. apply sim_same. intros ok _. apply sim_ensure. intros OKE. split; [exact OKE|]. apply sim_ok. split; auto. }
    destruct k.
    - destruct (ST p p' HR) as [HM|S].
      + intros a E. exfalso. unfold skip_string in E. pose proof G as (NN & _). unfold ps_empty, has_more in *. rewrite NN in E. cbn [orb] in E.
        replace (last p <=? first p)%nat with true in E by lia. cbn [bind] in E. rewrite HM in E. discriminate.
      + eapply sim_bind; [exact S|]. intros [r q] [r' q'] _ _ [ER HQ]. cbn [fst snd] in *. subst. now apply CONT.
    - apply (sim_bind _ _ both); [now apply sim_literal|]. intros [r q] [r' q'] _ _ [[ER _] HQ]. cbn [fst snd] in *. subst. now apply CONT.
    - destruct (has_more p) eqn:HM.
      + rewrite (rel_same _ _ HR HM). apply (sim_bind _ _ (fun a b => fst a = fst b /\ rel (snd a) (snd b))).
        * apply sim_same. intros c _. destruct (c =? c_quote).
          -- destruct (ST p p (rel_refl _ G)) as [X|S]; [congruence|]. eapply sim_bind; [exact S|]. intros [r q] [r' q'] _ _ [ER HQ]. cbn [fst snd] in *. subst.
             apply sim_ok. split; auto.
          -- intros a E. destruct (sim_skip_val g p p HX HE (rel_refl _ G) a E) as (b & EB & [ER _] & HQ). exists b. split; auto.
        * intros [r q] [r' q'] _ _ [ER HQ]. cbn [fst snd] in *. subst. now apply CONT.
      + intros a E. destruct (front buf p) as [c| | |] eqn:F; cbn [bind] in E; try discriminate. destruct (N.eqb_spec c c_quote) as [->|NC].
        * pose proof (rel_front _ _ _ HR F ltac:(discriminate) eq_refl) as ->. rewrite F. cbn [bind]. change (c_quote =? c_quote) with true. cbv iota.
          unfold skip_string in E. unfold skip_string_z. rewrite (rel_empty _ _ HR). pose proof G as (NN & _).
          assert (EM : ps_empty p = true) by (unfold ps_empty, has_more in *; rewrite NN; cbn [orb]; lia).
          rewrite EM in *. cbn [bind] in *. exact (CONT _ p p (rel_refl _ G) a E).
        * exfalso. unfold skip_val, skip_value in E. rewrite HM in E. discriminate.
  Qed.

  (** ** Variants *)

  Definition asim (a b : option kind * parser) : Prop := fst a = fst b /\ psim (snd a) (snd b).

  Lemma base_sim : forall k alts alts', Forall2 asim alts alts' -> forall i,
    match base_map k i alts with
    | Some (j, P) => exists Q, base_map k i alts' = Some (j, Q) /\ psim P Q
    | None => True
    end.
  Proof.
    induction 1 as [|[ko P] [ko' Q] alts alts' [EK HP] _ IH]; intros i; cbn [base_map]; auto. cbn [fst snd] in *. subst ko'.
    destruct ko as [k'|]; [|apply IH]. destruct (kind_eqb k k'); [eauto|apply IH].
  Qed.

  Lemma psim_alternative : forall k alts alts', Forall2 asim alts alts' ->
    psim (fun known buf p => parse_variant_value k alts known buf p) (fun known buf p => parse_variant_value k alts' known buf p).
  Proof.
    intros k alts alts' HF. pose proof (base_sim k _ _ HF 0) as HB. unfold parse_variant_value.
    destruct (base_map k 0 alts) as [[j P]|]; [|split; intros; apply sim_err]. destruct HB as (Q & -> & PU & PK). split.
    - intros p p' HR. apply (sim_bind _ _ pv); [now apply PU|]. intros [v s] [v' s'] _ _ [EV HS]. cbn [fst snd] in *. subst. apply sim_ok. split; auto.
    - intros p LO. apply (sim_bind _ _ (fun a b => fst a = fst b)); [now apply PK|]. intros [v s] [v' s'] _ _ EV. cbn [fst snd] in *. subst. apply sim_ok. reflexivity.
  Qed.

  Lemma psim_variant : forall alts alts', Forall2 asim alts alts' ->
    psim (fun known buf p => parse_value_variant alts known buf p) (fun known buf p => parse_value_variant alts' known buf p).
  Proof.
    intros alts alts' HF. split.
    - intros p p' HR. unfold parse_value_variant. cbn [bind]. intros a E.
      destruct (front buf p) as [c| | |] eqn:F; cbn [bind] in E; try discriminate.
      assert (EP : p' = p).
      { apply (rel_front _ _ c HR F).
        - intros ->. cbn in E. discriminate.
        - destruct (is_space c) eqn:ES; auto. exfalso.
          rewrite is_space_spec in ES by (unfold front in F; apply rd_ok_nth in F; destruct ZD as (HB & _); exact (is_bytes_nth _ _ _ HB F)).
          unfold c_lbrace, c_lbrack, c_t, c_f, c_quote, c_plus, c_minus in E.
          replace (c =? 123) with false in E by lia. replace (c =? 91) with false in E by lia. replace (c =? 116) with false in E by lia.
          replace (c =? 102) with false in E by lia. replace (c =? 34) with false in E by lia. replace (48 <=? c) with false in E by lia.
          replace (c =? 43) with false in E by lia. replace (c =? 45) with false in E by lia. discriminate. }
      subst p'. rewrite F. cbn [bind]. revert a E. pose proof (rel_refl _ (rel_good _ _ HR)) as RR.
      destruct (c =? c_lbrace); [now apply (psim_alternative KClass alts alts' HF)|]. destruct (c =? c_lbrack); [now apply (psim_alternative KArray alts alts' HF)|].
      destruct ((c =? c_t) || (c =? c_f)); [now apply (psim_alternative KBool alts alts' HF)|]. destruct (c =? c_quote); [now apply (psim_alternative KString alts alts' HF)|].
      destruct (((48 <=? c) && (c <=? 57)) || (c =? c_plus) || (c =? c_minus)); [now apply (psim_alternative KNumber alts alts' HF)|]. apply sim_err.
    - intros p LO. unfold parse_value_variant. apply sim_same. intros q _. destruct q; [now apply (psim_alternative KString alts alts' HF)|].
      apply sim_same. intros c _.
      destruct (c =? c_lbrace); [now apply (psim_alternative KClass alts alts' HF)|]. destruct (c =? c_lbrack); [now apply (psim_alternative KArray alts alts' HF)|].
      destruct ((c =? c_t) || (c =? c_f)); [now apply (psim_alternative KBool alts alts' HF)|]. destruct (c =? c_quote); [now apply (psim_alternative KString alts alts' HF)|].
      destruct (((48 <=? c) && (c <=? 57)) || (c =? c_plus) || (c =? c_minus)); [now apply (psim_alternative KNumber alts alts' HF)|]. apply sim_err.
  Qed.

  Lemma sim_visit : forall i Ps Qs, Forall2 psim Ps Qs -> forall p p', rel p p' -> sim pv (parse_visit i Ps buf p) (parse_visit i Qs buf p').
  Proof.
    intros i Ps Qs HF p p' HR. unfold parse_visit.
    assert (H : match nth_error Ps i with Some P => exists Q, nth_error Qs i = Some Q /\ psim P Q | None => True end).
    { clear HR. revert i. induction HF as [|P Q Ps Qs HP _ IH]; intros [|i]; cbn [nth_error]; [exact I|exact I|exists Q; auto|apply IH]. }
    destruct (nth_error Ps i) as [P|]; [|apply sim_err]. destruct H as (Q & -> & PU & _).
    apply (sim_bind _ _ pv); [now apply PU|]. intros [v s] [v' s'] _ _ [EV HS]. cbn [fst snd] in *. subst. apply sim_ok. split; auto.
  Qed.

  Lemma sim_intrusive : forall T U switch Ps Qs p p', (forall p p', rel p p' -> sim pv (T false buf p) (U false buf p')) -> Forall2 psim Ps Qs -> rel p p' ->
    sim pv (parse_value_variant_intrusive T switch Ps buf p) (parse_value_variant_intrusive U switch Qs buf p').
  Proof.
    intros T U switch Ps Qs p p' HT HF HR. unfold parse_value_variant_intrusive.
    apply (sim_bind _ _ pv); [now apply HT|]. intros [v s] [v' s'] _ _ [EV HS]. cbn [fst snd] in *. subst.
    destruct v' as [| | | | | |xs| | |]; try (intros a E; discriminate E).
    destruct xs as [|y [|]]; try (intros a E; discriminate E). now apply sim_visit.
  Qed.

  (** ** Integers *)

  Lemma digits_here : forall p, good p -> (first p < last p)%nat -> exists ds, digits ds /\ sub_at buf (first p) ds /\
    run_ends buf (first p + length ds) (last p) /\ nondig (first p + length ds).
  Proof.
    intros p (_ & ST & _) LT. pose proof (stops_le _ ST) as LL. destruct ZD as (HB & EL & _).
    destruct (skip_digits_safe buf (first p) (last p) HB) as (ds & _ & D1 & D2 & D3 & D4); [lia|]. exists ds.
    assert (ND : nondig (first p + length ds)).
    { destruct (Nat.eq_dec (first p + length ds) (last p)) as [E|NE]; [|apply D4; lia].
      assert (NA : num_at (first p + length ds) (last p)).
      { destruct ds as [|d ds]; [cbn [length] in *; lia|]. apply num_at_tl; auto. apply digits_tl; auto. discriminate. }
      rewrite E, (proj2 NA E). apply nondig_zero. }
    split; [exact D1|]. split; [exact D2|]. split; [|exact ND]. split; [exact D3|]. right. exact ND.
  Qed.

  Lemma sim_unsigned_unknown : forall w rc p, good p ->
    sim (fun a b => b = a /\ good (snd a)) (unsigned_parser false w rc buf p) (unsigned_parser_z false w rc buf p).
  Proof.
    intros w rc p G a E. unfold unsigned_parser, unsigned_parser_z in *. pose proof G as (_ & ST & _). pose proof (stops_le _ ST) as LL. pose proof ZD as (HB & EL & _).
    destruct (has_more p) eqn:HM; [|unfold unsigned_parser_not_known in E; rewrite HM in E; discriminate].
    pose proof (more_lt _ HM) as LT. destruct (digits_here p G LT) as (ds & D1 & D2 & D3 & D4).
    rewrite (not_known_run w rc buf p ds HB) in E by (auto; lia). rewrite (not_known_z_run w rc buf p ds HB) by (auto; lia).
    exists a. split; [exact E|]. split; [reflexivity|]. cbv zeta in E. assert (GJ : good (set_first p (first p + length ds))).
    { apply good_at; auto. destruct D3 as [D3 _]. lia. }
    destruct rc; [|injection E as <-; exact GJ]. destruct (length ds <=? 20)%nat; cbn [ensure bind] in E; [|discriminate].
    destruct (narrow_cast_u w (u64 (dec_val ds))); cbn [bind] in E; try discriminate. injection E as <-. exact GJ.
  Qed.

  (** The bytes of the range *)
  Definition all_digits (i l : nat) : bool := forallb is_digb (firstn (l - i) (skipn i buf)).

  Lemma all_digits_spec : forall i l, (i <= l <= length buf)%nat -> all_digits i l = true ->
    exists ds, digits ds /\ sub_at buf i ds /\ l = (i + length ds)%nat.
  Proof.
    intros i l LE H. unfold all_digits in H. apply forallb_digits in H. exists (firstn (l - i) (skipn i buf)). split; [exact H|].
    assert (LN : length (firstn (l - i) (skipn i buf)) = (l - i)%nat) by (rewrite firstn_length, skipn_length; lia).
    split; [|lia]. set (d := firstn (l - i) (skipn i buf)).
    assert (E : buf = firstn i buf ++ d ++ skipn (l - i) (skipn i buf)) by (unfold d; now rewrite !firstn_skipn).
    assert (LI : length (firstn i buf) = i) by (rewrite firstn_length; lia).
    pose proof (sub_at_mid (firstn i buf) d (skipn (l - i) (skipn i buf))) as X. now rewrite <- E, LI in X.
  Qed.

  Lemma sim_unsigned_known : forall w rc p, loc_ok p -> all_digits (first p) (last p) = true ->
    sim (fun a b => b = a) (unsigned_parser true w rc buf p) (unsigned_parser_z true w rc buf p).
  Proof.
    intros w rc p (NN & LE & ND & _) H. pose proof ZD as (HB & EL & _). destruct (all_digits_spec (first p) (last p)) as (ds & D1 & D2 & D3); auto; [lia|].
    unfold unsigned_parser, unsigned_parser_z. rewrite (unsigned_parser_known_acc w rc buf p ds), (known_z_run w rc buf p ds); auto; [apply sim_refl; auto|].
    rewrite <- D3. destruct ND as [ND|(LT & k & EK & b & Hb & NB)]; [exact ND|]. exfalso. destruct ds as [|d ds]; [cbn [length] in *; lia|].
    assert (NE : d :: ds <> []) by discriminate. destruct (exists_last NE) as (a & e & EE). rewrite EE in *. apply sub_at_app in D2 as [_ [D2 _]].
    apply Forall_app in D1 as [_ D1]. inversion D1; subst. rewrite app_length in D3. cbn [length] in D3. replace (first p + length a)%nat with k in D2 by lia. congruence.
  Qed.
End Sim.
