(** Iterators of json_value on arbitrary bytes: every read is inside the
    document and every step moves forward. *)
From Coq Require Import List NArith ZArith Bool Lia Arith ZifyBool ZifyNat ZifyN.
From Verif Require Import Base Mem Loop PolicyModel IntModel StrScanModel SkipModel SpecNum SpecText SpecJson
  StrScanProofs StrScanProofs2 StrScanProofs3 SkipProofs SkipSafe PropertiesStr PropertiesSkip ValueModel JValueModel JValueProofs.
Import ListNotations.
Local Open Scope N_scope.

(** An iterator over the value that starts at [f], in a document that ends at [l]. *)
Definition raw (buf : list N) (f l : nat) (p : ps) : Prop :=
  is_bytes buf /\ (f < first p)%nat /\ last p = l /\ (l <= length buf)%nat /\ cfirst p = Some f /\ clast p = Some l /\ isnull p = false.

Lemma raw_first : forall buf f l p i, raw buf f l p -> (f < i)%nat -> raw buf f l (set_first p i).
Proof. intros buf f l p i (A & B & C & D & E & F & G) L. repeat split; auto. Qed.

Lemma good_raw : forall buf f l p, raw buf f l p ->
  outcome_ok (fun b : bool => b = true -> (first p < l)%nat) (JValueModel.good buf p).
Proof.
  intros buf f l p (A & B & C & D & E & F & G). unfold JValueModel.good, has_more. rewrite G, C.
  destruct (Nat.ltb_spec (first p) l); cbn [negb orb outcome_ok]; [|discriminate].
  destruct (rd_in buf (first p)) as (b & Hb); [lia|]. unfold front. rewrite (rd_some _ _ _ Hb). cbn [bind].
  match goal with |- outcome_ok _ (if ?x then _ else _) => destruct x end; [cbn; auto|].
  match goal with |- outcome_ok _ (if ?x then _ else _) => destruct x end; cbn; auto.
Qed.

Lemma memchr_checked_safe : forall c buf i last, (last <= length buf)%nat ->
  outcome_ok (fun j => (i <= j)%nat /\ ((j < last)%nat -> nth_error buf j = Some c)) (memchr_checked c buf i last).
Proof.
  intros c buf i last HL. unfold memchr_checked.
  apply (loop_inv _ (fun s => last - s)%nat (fun s => (i <= s)%nat)) ; [|lia|lia].
  intros s HI. destruct (Nat.ltb_spec s last); cbn [bind outcome_ok]; [|split; [lia|lia]].
  destruct (rd_in buf s) as (b & Hb); [lia|]. rewrite (rd_some _ _ _ Hb). cbn [bind outcome_ok].
  destruct (N.eqb_spec b c); cbn [negb]; [subst; auto|lia].
Qed.

Lemma trim_end_of_name_safe : forall buf p, (last p <= length buf)%nat ->
  outcome_ok (fun q => q = set_first p (first q) /\ (first p < first q <= last p)%nat) (trim_end_of_name buf p).
Proof.
  intros buf p HL. unfold trim_end_of_name. destruct (trim_safe buf p HL) as (j & E & L1 & L2). rewrite E. cbn [bind].
  unfold has_more. cbn [first last set_first]. destruct (Nat.ltb_spec j (last p)); cbn [ensure bind outcome_ok]; auto.
  unfold front. cbn [first set_first]. destruct (rd_in buf j) as (b & Hb); [lia|]. rewrite (rd_some _ _ _ Hb). cbn [bind].
  destruct (b =? c_colon); cbn [ensure bind outcome_ok]; auto.
  destruct (trim_safe buf (remove_prefix (set_first p j) 1)) as (k & E2 & L3 & L4); [exact HL|]. rewrite E2.
  unfold remove_prefix in *. cbn [outcome_ok first last set_first] in *. split; [reflexivity|lia].
Qed.

Lemma parse_name_raw : forall g buf f l p, raw buf f l p ->
  outcome_ok (fun r => snd r = set_first p (first (snd r)) /\ (first p < first (snd r) <= l)%nat) (parse_name g buf p).
Proof.
  intros g buf f l p (A & B & C & D & E & F & G). unfold parse_name, is_at, has_more. rewrite C.
  destruct (Nat.ltb_spec (first p) l) as [L|L]; cbn [bind ensure outcome_ok]; auto.
  unfold front. destruct (rd_in buf (first p)) as (b & Hb); [lia|]. rewrite (rd_some _ _ _ Hb). cbn [bind].
  destruct (N.eqb_spec b c_quote) as [->|]; cbn [ensure bind outcome_ok]; auto.
  unfold parse_name_nq. set (p1 := remove_prefix p 1).
  assert (F1 : first p1 = S (first p)) by (unfold p1, remove_prefix; cbn [first set_first]; lia).
  assert (L1 : last p1 = l) by exact C.
  assert (TE : forall q, q = set_first p (first q) -> (first p < first q)%nat ->
     outcome_ok (fun r => snd r = set_first p (first (snd r)) /\ (first p < first (snd r) <= l)%nat)
       (r <- trim_end_of_name buf q ;; Ok (@nil N, r))).
  { intros q EQ LQ. assert (LL : last q = l) by (rewrite EQ; exact C).
    eapply outcome_ok_bind; [apply trim_end_of_name_safe; rewrite LL; exact D|].
    intros r [ER LR]. cbn [outcome_ok snd]. split; [|lia]. rewrite ER, EQ. reflexivity. }
  assert (TE' : forall q nm, q = set_first p (first q) -> (first p < first q)%nat ->
     outcome_ok (fun r => snd r = set_first p (first (snd r)) /\ (first p < first (snd r) <= l)%nat)
       (r <- trim_end_of_name buf q ;; Ok (nm : list N, r))).
  { intros q nm EQ LQ. specialize (TE q EQ LQ). destruct (trim_end_of_name buf q); cbn [bind outcome_ok] in *; auto. }
  destruct (c_escnames g).
  - assert (HI : in_string buf p1 l).
    { unfold in_string. rewrite F1, L1. repeat split; auto; try lia. replace (S (first p) - 1)%nat with (first p) by lia. exact Hb. }
    unfold skip_string_nq.
    pose proof (C15_string_scan_safe (c_ex g) (c_excl g) buf p1 l HI ltac:(lia)) as X.
    pose proof (C15_string_scan_ge (c_ex g) (c_excl g) buf p1 l HI ltac:(lia)) as Y.
    destruct (parse_nq true (c_ex g) (c_excl g) buf p1) as [[n q]| | |]; cbn [outcome_ok bind] in *; auto.
    destruct X as (i & Li & Hi & ->). unfold front. cbn [first set_first]. rewrite (rd_some _ _ _ Hi). cbn [bind].
    change (34 =? c_quote) with true. cbn [ensure bind]. apply TE'; [reflexivity|].
    unfold remove_prefix in *. cbn [first set_first snd] in *. lia.
  - rewrite F1, L1. eapply outcome_ok_bind; [apply memchr_checked_safe; exact D|]. intros j [LJ HJ].
    unfold is_at, has_more. cbn [first last set_first]. rewrite L1. destruct (Nat.ltb_spec j l) as [L2|L2]; cbn [bind ensure outcome_ok]; auto.
    unfold front. cbn [first set_first]. specialize (HJ L2). rewrite (rd_some _ _ _ HJ). cbn [bind].
    destruct j as [|j]; [lia|]. change (c_quote =? c_quote) with true. cbn iota.
    destruct (rd_in buf j) as (c & Hc); [lia|]. rewrite (rd_some _ _ _ Hc). cbn [bind].
    destruct (c =? c_bslash); cbn [negb ensure bind outcome_ok]; auto.
    apply TE'; [reflexivity|]. unfold remove_prefix. cbn [first set_first]. lia.
Qed.

Lemma class_is_raw : forall buf f l p c, raw buf f l p -> (f < l)%nat ->
  exists b, nth_error buf f = Some b /\ class_is buf p c = Ok (b =? c).
Proof.
  intros buf f l p c (A & B & C & D & E & F & G) L. destruct (rd_in buf f) as (b & Hb); [lia|].
  exists b. split; auto. unfold class_is. rewrite E, (rd_some _ _ _ Hb). reflexivity.
Qed.

(** A value somewhere in the document *)
Definition raw_value (buf : list N) (l : nat) (v : ps) : Prop :=
  is_bytes buf /\ last v = l /\ (l <= length buf)%nat /\ isnull v = false.

Lemma jvalue_raw : forall buf l p, raw_value buf l p -> outcome_ok (fun v => raw_value buf l v /\ (first p <= first v)%nat) (jvalue buf (restate p)).
Proof.
  intros buf l p (A & B & C & D). unfold jvalue. rewrite restate_ok by auto. destruct (trim_safe buf (restated p)) as (j & E & L & _); [cbn [last restated]; lia|].
  rewrite E. cbn [outcome_ok]. split; [|exact L]. repeat split; auto.
Qed.

(** Dereferencing, good or not *)
Lemma it_deref_raw : forall g buf f l p, raw buf f l p -> (f < l)%nat ->
  outcome_ok (fun r => raw_value buf l (snd r) /\ (first p <= first (snd r))%nat) (it_deref g buf p).
Proof.
  intros g buf f l p HR L. pose proof HR as (A & B & C & D & E & F & G). unfold it_deref.
  destruct (class_is_raw buf f l p c_lbrack HR L) as (b & Hb & ->). cbn [bind]. destruct (b =? c_lbrack).
  - eapply outcome_ok_bind; [apply (jvalue_raw buf l); repeat split; auto|]. intros v HV. exact HV.
  - eapply outcome_ok_bind; [apply (parse_name_raw g buf f l); auto|]. intros [n q] [EQ LQ]. cbn [snd] in *.
    eapply outcome_ok_bind; [apply (jvalue_raw buf l); rewrite EQ; repeat split; auto|].
    intros v [V1 V2]. cbn [outcome_ok snd]. split; [exact V1|lia].
Qed.

Lemma it_name_raw : forall g buf f l p, raw buf f l p -> (f < l)%nat ->
  outcome_ok (fun n => (nth_error buf f = Some 91 <-> n = None)) (it_name g buf p).
Proof.
  intros g buf f l p HR L. unfold it_name.
  destruct (class_is_raw buf f l p c_lbrack HR L) as (b & Hb & ->). cbn [bind]. unfold c_lbrack. destruct (N.eqb_spec b 91) as [->|NE].
  - cbn [outcome_ok]. tauto.
  - eapply outcome_ok_bind; [apply (parse_name_raw g buf f l); auto|]. intros [n q] _. cbn [outcome_ok].
    split; [intros X; congruence|discriminate].
Qed.

Lemma move_next_safe : forall buf p, (last p <= length buf)%nat ->
  exists j, move_next buf p = Ok (set_first p j) /\ (first p <= j)%nat.
Proof.
  intros buf p HL. unfold move_next, move_next_member_or_end, move_next_member_or_end_checked.
  destruct (trim_safe buf p HL) as (j & E & L1 & L2). rewrite E. cbn [bind]. unfold is_at, has_more. cbn [first last set_first].
  destruct (Nat.ltb_spec j (last p)); cbn [bind]; [|eauto].
  unfold front. cbn [first set_first]. destruct (rd_in buf j) as (b & Hb); [lia|]. rewrite (rd_some _ _ _ Hb). cbn [bind].
  destruct (b =? c_comma); [|eauto].
  destruct (trim_safe buf (remove_prefix (set_first p j) 1)) as (k & E2 & L3 & _); [exact HL|]. rewrite E2.
  unfold remove_prefix in *. cbn [first set_first] in *. exists k. split; [reflexivity|lia].
Qed.

Lemma it_next_raw : forall g buf f l p, raw buf f l p -> (f < l)%nat ->
  outcome_ok (fun q => raw buf f l q /\ (JValueModel.good buf p = Ok true -> (first p < first q)%nat) /\
     (JValueModel.good buf p = Ok false -> q = p)) (it_next g buf p).
Proof.
  intros g buf f l p HR L. pose proof HR as (A & B & C & D & E & F & G). unfold it_next.
  pose proof (good_raw _ _ _ _ HR) as GR. destruct (JValueModel.good buf p) as [[]| | |]; cbn [outcome_ok bind] in *; auto;
    [|split; [exact HR|]; split; [discriminate|reflexivity]].
  specialize (GR eq_refl). destruct (class_is_raw buf f l p c_lbrace HR L) as (b & Hb & ->). cbn [bind].
  apply outcome_ok_bind with (P := fun q => q = set_first p (first q) /\ (first p <= first q <= l)%nat).
  - destruct (b =? c_lbrace); [|cbn [outcome_ok]; split; [now destruct p|lia]].
    eapply outcome_ok_bind; [apply (parse_name_raw g buf f l); auto|]. intros [n q] [EQ LQ]. cbn [snd outcome_ok] in *. split; auto. lia.
  - intros q [EQ LQ].
    assert (WQ : wf buf q) by (rewrite EQ; split; [exact A|]; cbn [first last set_first isnull clast]; rewrite C; split; [exact G|]; split; [lia|];
      exists l; split; [exact F|lia]).
    pose proof (C21_skip_value_safe (c_ex g) (c_excl g) false buf q WQ) as SV. unfold skip_val.
    destruct (skip_value CNone true (c_ex g) (c_excl g) false buf q) as [[r s]| | |]; cbn [bind outcome_ok]; auto.
    destruct SV as (LS & ES & _).
    destruct (move_next_safe buf s) as (j & -> & LJ); [rewrite ES, EQ; cbn [last set_first set_counter]; lia|].
    cbn [outcome_ok]. split; [|cbn [first set_first]; split; [lia|discriminate]].
    apply raw_first; [|lia]. rewrite ES, EQ. repeat split; auto. cbn [first set_first set_counter]. lia.
Qed.

Lemma it_begin_raw : forall buf v, raw_value buf (last v) v ->
  outcome_ok (fun p => raw buf (first v) (last v) p) (it_begin buf v).
Proof.
  intros buf v (A & B & C & D). unfold it_begin. rewrite restate_ok by auto.
  destruct (trim_safe buf (remove_prefix (restated v) 1)) as (j & E & L & _); [exact C|]. rewrite E. cbn [outcome_ok].
  unfold remove_prefix in *. cbn [first restated set_first] in *. repeat split; auto. cbn [first set_first]. lia.
Qed.

Lemma live_good : forall buf p, it_eq buf p null_state = Ok false -> JValueModel.good buf p = Ok true.
Proof.
  intros buf p H. destruct (JValueModel.good buf p) as [[]| | |] eqn:GD; auto.
  - rewrite (it_eq_end _ _ _ GD) in H. discriminate.
  - unfold it_eq in H. rewrite GD in H. discriminate.
  - unfold it_eq in H. rewrite GD in H. discriminate.
  - unfold it_eq in H. rewrite GD in H. discriminate.
Qed.

Lemma it_eq_raw : forall buf f l p, raw buf f l p -> outcome_ok (fun _ => True) (it_eq buf p null_state).
Proof.
  intros buf f l p HR. unfold it_eq. pose proof (good_raw _ _ _ _ HR) as GR.
  destruct (JValueModel.good buf p) as [[]| | |]; cbn [bind outcome_ok] in *; auto; rewrite good_null; cbn; auto.
Qed.

(** One step of a walk: either at the end, or the step moves forward. *)
Lemma walk_step : forall g buf f l p, raw buf f l p -> (f < l)%nat -> it_eq buf p null_state = Ok false ->
  (first p < l)%nat /\ outcome_ok (fun q => raw buf f l q /\ (first p < first q)%nat) (it_next g buf p).
Proof.
  intros g buf f l p HR L EQ. apply live_good in EQ. pose proof (good_raw _ _ _ _ HR) as GR. rewrite EQ in GR. cbn [outcome_ok] in GR.
  split; [auto|]. eapply outcome_ok_weaken; [|apply (it_next_raw g buf f l); auto]. intros q (A & B & _). auto.
Qed.

Lemma iterate_raw : forall g buf v, raw_value buf (last v) v -> (first v < last v)%nat ->
  outcome_ok (fun r => Forall (fun m => raw_value buf (last v) (snd m) /\ (first v < first (snd m))%nat) (snd r)) (iterate g buf v).
Proof.
  intros g buf v HV L. pose proof HV as (_ & _ & LB & _). unfold iterate. eapply outcome_ok_bind; [apply it_begin_raw; exact HV|].
  intros b HB. cbn beta in HB.
  set (K := fun m : option (list N) * ps => raw_value buf (last v) (snd m) /\ (first v < first (snd m))%nat).
  apply (loop_inv (iter_body g buf) (fun s => last v - first (fst s))%nat (fun s => raw buf (first v) (last v) (fst s) /\ Forall K (snd s))
    (fun r => Forall K (snd r))).
  - intros [p seen] [HR FK]. cbn [fst snd] in *. unfold iter_body.
    pose proof (it_eq_raw _ _ _ _ HR) as ER. destruct (it_eq buf p null_state) as [[]| | |] eqn:EQ; cbn [bind outcome_ok] in *; auto.
    destruct (walk_step g _ _ _ _ HR L EQ) as [LP NX].
    eapply outcome_ok_bind; [apply (it_deref_raw g buf (first v) (last v)); auto|]. intros m [M1 M2].
    eapply outcome_ok_bind; [exact NX|]. intros q [RQ LQ]. cbn [outcome_ok fst snd]. repeat split; auto; try apply RQ.
    + apply Forall_app. split; auto. constructor; auto. split; auto. destruct HR as (_ & LF & _). lia.
    + lia.
  - split; [exact HB|constructor].
  - cbn [fst]. destruct HB as (_ & LF & _). lia.
Qed.

Lemma find_if_raw : forall g buf v pred b, raw_value buf (last v) v -> (first v < last v)%nat -> raw buf (first v) (last v) b ->
  nth_error buf (first v) <> Some 91 -> (forall n, outcome_ok (fun _ => True) (pred (Some n))) ->
  outcome_ok (fun p => raw buf (first v) (last v) p) (loop (find_if_body g buf pred) (S (length buf)) b).
Proof.
  intros g buf v pred b HV L HB NA HP. pose proof HV as (_ & _ & LB & _).
  apply (loop_inv (find_if_body g buf pred) (fun s => last v - first s)%nat (fun s => raw buf (first v) (last v) s)).
  - intros p HR. unfold find_if_body.
    pose proof (it_eq_raw _ _ _ _ HR) as ER. destruct (it_eq buf p null_state) as [[]| | |] eqn:EQ; cbn [bind outcome_ok] in *; auto.
    destruct (walk_step g _ _ _ _ HR L EQ) as [LP NX].
    assert (DR : outcome_ok (fun r => exists n, fst r = Some n) (it_deref g buf p)).
    { unfold it_deref. destruct (class_is_raw buf _ _ p c_lbrack HR L) as (x & Hx & ->). cbn [bind]. unfold c_lbrack.
      destruct (N.eqb_spec x 91) as [->|NE]; [congruence|].
      eapply outcome_ok_bind; [apply (parse_name_raw g buf _ _ p HR)|]. intros [n q] [EQq LQ]. cbn [snd] in *.
      eapply outcome_ok_bind; [apply (jvalue_raw buf (last v)); rewrite EQq; destruct HR as (? & ? & ? & ? & ? & ? & ?); repeat split; auto|].
      intros w _. cbn. eauto. }
    eapply outcome_ok_bind; [exact DR|]. intros [o w] [n E]. cbn [fst] in E. subst o.
    eapply outcome_ok_bind; [apply HP|]. intros [] _; [cbn; auto|].
    eapply outcome_ok_bind; [exact NX|]. intros q [RQ LQ]. cbn [outcome_ok]. split; [exact RQ|lia].
  - exact HB.
  - destruct HB as (_ & LF & _). lia.
Qed.

Lemma element_raw : forall g buf f l, (f < l)%nat -> forall index p, raw buf f l p ->
  outcome_ok (fun r => raw buf f l (snd r)) (element_loop g buf index p).
Proof.
  intros g buf f l L. induction index as [|index IH]; intros p HR; cbn [element_loop];
    (eapply outcome_ok_bind; [apply (it_eq_raw _ _ _ _ HR)|]); intros e _; [exact HR|].
  destruct e; [exact HR|]. eapply outcome_ok_bind; [apply (it_next_raw g buf f l); auto|]. intros q [RQ _]. now apply IH.
Qed.
