(** For types without names the zero-terminated parser and the checked parser
    accept the same texts with the same values. *)
From Coq Require Import List NArith ZArith Bool Lia Arith ZifyBool ZifyNat ZifyN.
From Verif Require Import Base Mem Loop PolicyModel IntModel StrScanModel SkipModel SpecNum IntProofs
  SkipProofs SkipSafe HashModel StrDecodeModel ValueModel RawValueProofs TypedSafe ZModel ZInt ZSafe.
Import ListNotations.
Local Open Scope N_scope.

(** Without signed integers of 32 bits and tuples with other elements. *)
Fixpoint closed_type (t : ty) : bool :=
  match t with
  | TUInt _ _ | TBool => true
  | TInt w _ => safe_width w
  | TNullable t | TArr t => closed_type t
  | TTuple exact ts => exact && forallb closed_type ts
  | TVariant alts => forallb closed_type alts
  | _ => false
  end.

(** The same success, if any. *)
Definition same {A : Type} (x y : res A) : Prop := forall a, x = Ok a <-> y = Ok a.

Lemma same_refl : forall A (x : res A), same x x.
Proof. intros A x a. reflexivity. Qed.

Lemma same_bind : forall A B (x y : res A) (f g : A -> res B), same x y -> (forall a, y = Ok a -> same (f a) (g a)) -> same (bind x f) (bind y g).
Proof.
  intros A B x y f g H K b. destruct x as [a| | |]; cbn [bind].
  - pose proof (proj1 (H a) eq_refl) as ->. cbn [bind]. apply K. reflexivity.
  - destruct y as [a| | |]; cbn [bind]; try (split; discriminate). pose proof (proj2 (H a) eq_refl). discriminate.
  - destruct y as [a| | |]; cbn [bind]; try (split; discriminate). pose proof (proj2 (H a) eq_refl). discriminate.
  - destruct y as [a| | |]; cbn [bind]; try (split; discriminate). pose proof (proj2 (H a) eq_refl). discriminate.
Qed.

Lemma same_ensure : forall B (b : bool) r r' (f g : res B), (b = true -> same f g) -> same (bind (ensure b r) (fun _ => f)) (bind (ensure b r') (fun _ => g)).
Proof. intros B [|] r r' f g H; cbn [ensure bind]; [auto|]. intros a. split; discriminate. Qed.

Definition never {A : Type} (x : res A) : Prop := forall a, x <> Ok a.
Lemma same_never : forall A (x y : res A), never x -> never y -> same x y.
Proof. intros A x y H K a. split; intros E; exfalso; [exact (H a E)|exact (K a E)]. Qed.

Lemma same_loop : forall S A (I : S -> Prop) (b1 b2 : S -> res (S + A)), (forall s, I s -> same (b1 s) (b2 s)) ->
  (forall s s', I s -> b2 s = Ok (inl s') -> I s') -> forall n m s, I s ->
  (forall a, loop b1 n s = Ok a -> loop b2 m s = Ok a \/ (m < n)%nat) /\ (forall a, loop b2 n s = Ok a -> loop b1 m s = Ok a \/ (m < n)%nat).
Proof.
  intros S A I b1 b2 HS HI. induction n as [|n IH]; intros m s Hs; [split; intros a E; discriminate|].
  destruct m as [|m]; [split; intros; right; lia|]. cbn [loop]. split; intros a E.
  - destruct (b1 s) as [r| | |] eqn:E1; cbn [bind] in E; try discriminate. pose proof (proj1 (HS s Hs r) E1) as E2. rewrite E2. cbn [bind].
    destruct r as [s'|a']; [|now left]. destruct (proj1 (IH m s' (HI s s' Hs E2)) a E); [now left|right; lia].
  - destruct (b2 s) as [r| | |] eqn:E2; cbn [bind] in E; try discriminate. pose proof (proj2 (HS s Hs r) E2) as E1. rewrite E1. cbn [bind].
    destruct r as [s'|a']; [|now left]. destruct (proj2 (IH m s' (HI s s' Hs E2)) a E); [now left|right; lia].
Qed.

  Lemma closed_nameless : forall t, closed_type t = true -> nameless t = true.
  Proof.
    fix IH 1. intros t H.
    assert (LIST : forall ts, forallb closed_type ts = true -> forallb nameless ts = true).
    { fix LH 1. intros [|a ts] X; cbn [forallb] in *; [reflexivity|]. apply andb_true_iff in X as [X1 X2]. rewrite (IH a X1), (LH ts X2). reflexivity. }
    destruct t as [w rc|w rc| | |t|t|t|exact mm|exact ts|exact kn tk vn tv|k|alts|exact tag t switch alts]; cbn [closed_type nameless] in *; try discriminate; auto.
    apply andb_true_iff in H as [_ H]. apply LIST. exact H.
  Qed.

Section Same.
  Set Default Proof Using "All".
  Context (doc buf : list N) (L : nat).
  Hypothesis HD : is_bytes doc.
  Hypothesis HB : is_bytes buf.
  Hypothesis HZ : nth_error buf L = Some 0.
  Hypothesis HL : (L <= length doc <= length buf)%nat.
  Hypothesis HE : forall i, (i < L)%nat -> nth_error doc i = nth_error buf i.
  Hypothesis HX : forall c, nth_error doc L = Some c -> c = 0.
  Hypothesis H31 : N.of_nat (length buf) < 2^31.

  Notation inz := (inz L).

  Definition zsame (P Q : parser) : Prop := forall p, inz p -> same (P false doc p) (Q false buf p).

  Lemma doc_end : nth_error doc L = None \/ nth_error doc L = Some 0.
  Proof. pose proof HX as H. destruct (nth_error doc L) as [c|]; [|now left]. right. now rewrite (H c eq_refl). Qed.

  Lemma trim_same : forall p, inz p -> exists q, trim_left_checked doc p = Ok q /\ trim_left_z buf p = Ok q /\ onw L p q.
  Proof.
    intros p I. pose proof I as (EL & LE & _). destruct (trim_ok buf L HZ H31 p I) as (q & EQ & OQ). exists q. split; [|split; [exact EQ|exact OQ]].
    unfold trim_left_z in EQ. unfold trim_left_checked.
    destruct (trim_loop_unchecked (S (length buf)) buf (first p)) as [j| | |] eqn:E; cbn [bind] in EQ; try discriminate. injection EQ as <-.
    assert (H : forall f1 f2 i, (i <= L)%nat -> (L - i < f1)%nat -> trim_loop_unchecked f2 buf i = Ok j -> trim_loop f1 doc i L = Ok j).
    { induction f1 as [|f1 IH]; intros f2 i HI HF H; [lia|]. destruct f2 as [|f2]; [discriminate|]. cbn [trim_loop trim_loop_unchecked] in *.
      destruct (rd buf i) as [c| | |] eqn:R; cbn [bind] in H; try discriminate. apply rd_ok_nth in R.
      destruct (Nat.ltb_spec i L) as [LT|GE].
      - rewrite <- HE in R by exact LT. rewrite (rd_some _ _ _ R). cbn [bind]. destruct (is_space c); [|exact H]. apply (IH f2); auto; lia.
      - assert (i = L) by lia. subst i. rewrite HZ in R. injection R as <-. exact H. }
    rewrite EL. now rewrite (H (S (L - first p)) (S (length buf)) (first p)) by (auto; lia).
  Qed.

  Lemma same_trim : forall B p (f g : ps -> res B), inz p -> (forall q, onw L p q -> same (f q) (g q)) ->
    same (bind (trim_left_checked doc p) f) (bind (trim_left_z buf p) g).
  Proof.
    intros B p f g I K. destruct (trim_same p I) as (q & -> & -> & O). cbn [bind]. apply K. exact O.
  Qed.

  Lemma same_front : forall B p (f g : N -> res B), inz p -> (forall c, nth_error buf (first p) = Some c -> (first p < L)%nat -> same (f c) (g c)) ->
    never (f 0) -> never (g 0) -> same (bind (front doc p) f) (bind (front buf p) g).
  Proof.
    intros B p f g I K NF NG. pose proof I as (EL & LE & _). destruct (front_z buf L HZ H31 p I) as (c & E & Hc). rewrite E. cbn [bind].
    destruct (Nat.eq_dec (first p) L) as [EF|NF'].
    - rewrite EF, HZ in Hc. injection Hc as <-. apply same_never; [|exact NG].
      unfold front, rd. rewrite EF. destruct doc_end as [-> | ->]; cbn [bind]; [discriminate|]. exact NF.
    - unfold front at 1. rewrite (rd_some doc (first p) c) by (rewrite HE by lia; exact Hc). cbn [bind]. apply K; [exact Hc|lia].
  Qed.

  Lemma front_here : forall p, inz p -> (first p < L)%nat -> front doc p = front buf p.
  Proof. intros p _ LT. unfold front, rd. now rewrite HE by exact LT. Qed.

  Lemma more_here : forall p, inz p -> has_more p = true -> (first p < L)%nat.
  Proof. intros p (E & _) H. unfold has_more in H. lia. Qed.

  Lemma is_at_here : forall p c, inz p -> is_at doc p c = is_at buf p c.
  Proof. intros p c I. unfold is_at. destruct (has_more p) eqn:E; [|reflexivity]. rewrite (front_here p I (more_here p I E)). reflexivity. Qed.

  Lemma end_item_here : forall p, inz p -> end_of_item_ok doc p = end_of_item_ok buf p.
  Proof. intros p I. unfold end_of_item_ok. destruct (has_more p) eqn:E; [|reflexivity]. rewrite (front_here p I (more_here p I E)). reflexivity. Qed.

  Lemma eq_bytes_here : forall t i, (i + length t <= L)%nat -> eq_bytes doc i t = eq_bytes buf i t.
  Proof. induction t as [|c t IH]; intros i H; cbn [eq_bytes]; [reflexivity|]. cbn [length] in H. unfold rd. rewrite HE by lia.
    destruct (nth_error buf i); cbn [bind]; [|reflexivity]. rewrite IH by lia. reflexivity. Qed.

  Lemma with_here : forall p t, inz p -> starts_with doc p t = starts_with buf p t.
  Proof.
    intros p t (EL & LE & _). unfold starts_with. destruct (Nat.ltb_spec (ps_size p) (length t)); [reflexivity|]. unfold ps_size in *. apply eq_bytes_here. lia.
  Qed.

  Lemma move_here : forall p, inz p -> exists q, move_next doc p = Ok q /\ move_next_z buf p = Ok q /\ onw L p q.
  Proof.
    intros p I. unfold move_next, move_next_member_or_end, move_next_member_or_end_checked, move_next_z.
    destruct (trim_same p I) as (q & -> & -> & IQ & LQ). cbn [bind]. rewrite (is_at_here q c_comma IQ).
    destruct (front_z buf L HZ H31 q IQ) as (c & E & Hc). rewrite E. cbn [bind]. unfold is_at. rewrite E. cbn [bind].
    destruct (N.eqb_spec c c_comma) as [->|NC].
    - assert (LT : (first q < L)%nat) by (apply (nonzero buf L HZ H31 q c_comma IQ Hc); discriminate).
      replace (has_more q) with true by (unfold has_more; destruct IQ as (-> & _); lia). cbn [bind].
      change (c_comma =? c_comma) with true. cbn iota.
      destruct (next_z buf L HZ H31 q c_comma IQ Hc) as [O2 I2]; [discriminate|]. destruct (trim_same _ I2) as (r & -> & -> & IR & LR).
      exists r. split; [reflexivity|]. split; [reflexivity|]. split; [exact IR|]. cbn [first remove_prefix set_first] in LR. lia.
    - exists q. replace (c =? c_comma) with false by lia. destruct (has_more q); cbn [bind]; (split; [reflexivity|]; split; [reflexivity|]; split; [exact IQ|exact LQ]).
  Qed.

  Lemma sub_here : forall t i, (i + length t <= L)%nat -> sub_at buf i t -> sub_at doc i t.
  Proof.
    induction t as [|c t IH]; intros i H S; cbn [sub_at length] in *; [exact I|]. destruct S as [S1 S2]. split; [rewrite HE by lia; exact S1|apply IH; [lia|exact S2]].
  Qed.

  Lemma not_known_same : forall w rc p, inz p -> same (unsigned_parser_not_known w rc doc p) (unsigned_parser_not_known_z w rc buf p).
  Proof.
    intros w rc p I. pose proof I as (EL & _). pose proof (L_in buf L HZ).
    destruct (has_more p) eqn:HM; [|unfold unsigned_parser_not_known, unsigned_parser_not_known_z; rewrite HM; intros a; split; discriminate].
    unfold has_more in HM. destruct (digits_run buf L HB HZ H31 p I) as (ds & D1 & D2 & D3 & D4); [lia|].
    assert (R : run_ends doc (first p + length ds) L).
    { destruct D3 as [D3 D3']. split; [exact D3|]. destruct (Nat.eq_dec (first p + length ds) L) as [E|NE]; [now left|right].
      destruct D4 as (b & Hb & Nb). exists b. split; [rewrite HE by lia; exact Hb|exact Nb]. }
    rewrite <- EL in D3, R. rewrite (not_known_z_run w rc buf p ds HB) by (auto; lia).
    rewrite (not_known_run w rc doc p ds HD); [apply same_refl|lia|lia|exact D1| |exact R].
    apply sub_here; [|exact D2]. destruct D3; lia.
  Qed.

  Lemma same_unsigned : forall w rc, zsame (fun known buf p => '(v, p) <- parse_value_unsigned known LSNever w rc buf p ;; Ok (VInt (Z.of_N v), p))
    (fun known buf p => '(v, p) <- parse_value_unsigned_z known w rc buf p ;; Ok (VInt (Z.of_N v), p)).
  Proof.
    intros w rc p I. apply same_bind; [|intros; apply same_refl].
    unfold parse_value_unsigned, parse_value_unsigned_z, unsigned_parser, unsigned_parser_z. cbn [skip_quote_when_literal_as_string bind].
    destruct (front_z buf L HZ H31 p I) as (c & E & Hc). rewrite E. cbn [bind].
    destruct (has_more p) eqn:HM; cbn [ensure bind].
    - rewrite (front_here p I (more_here p I HM)), E. cbn [bind]. apply same_ensure. intros _.
      apply same_bind; [now apply not_known_same|]. intros [v q] EQ. cbn [bind].
      pose proof (not_known_z buf L HB HZ H31 w rc p I) as X. rewrite EQ in X. cbn [outcome_ok fst snd] in X. destruct X as (_ & j & -> & LJ).
      rewrite end_item_here by (apply inz_first; [exact I|lia]). apply same_refl.
    - assert (EF : first p = L) by (unfold has_more in HM; destruct I as (EL & LE & _); lia). rewrite EF, HZ in Hc. injection Hc as <-.
      change (is_number 0) with false. cbn [ensure bind]. intros a. split; discriminate.
  Qed.

  Lemma same_signed : forall w rc, safe_width w = true -> zsame (fun known buf p => '(v, p) <- parse_value_signed known LSNever w rc buf p ;; Ok (VInt v, p))
    (fun known buf p => '(v, p) <- parse_value_signed_z known w rc buf p ;; Ok (VInt v, p)).
  Proof.
    intros w rc W p I. apply same_bind; [|intros; apply same_refl]. pose proof I as (EL & LE & _). pose proof (L_in buf L HZ).
    unfold parse_value_signed, parse_value_signed_z, unsigned_parser, unsigned_parser_z.
    destruct (has_more p) eqn:HM; cbn [ensure bind].
    2:{ unfold validate_signed_first. rewrite HM. intros a; split; discriminate. }
    pose proof (more_here p I HM) as LT.
    assert (EV : validate_signed_first doc p = validate_signed_first buf p).
    { unfold validate_signed_first. rewrite HM, (front_here p I LT). cbn [ensure bind]. destruct (front buf p) as [c| | |]; cbn [bind]; try reflexivity.
      destruct (c =? c_minus); [reflexivity|]. destruct ((49 <=? c) && (c <=? 57)); [reflexivity|]. destruct (c =? c_0); [|reflexivity].
      destruct (Nat.ltb_spec 1 (ps_size p)) as [L2|]; [|reflexivity]. unfold ps_size in L2. unfold rd. rewrite HE by lia. reflexivity. }
    rewrite EV. apply same_bind; [apply same_refl|]. intros [s q] E1.
    pose proof (validate_signed_safe buf p ltac:(lia)) as V. rewrite E1 in V. cbn [outcome_ok fst snd] in V. destruct V as (S & j & -> & LJ).
    assert (IJ : inz (set_first p j)) by (apply inz_first; [exact I|lia]).
    apply same_bind; [now apply not_known_same|]. intros [u q] E2.
    pose proof (not_known_z buf L HB HZ H31 w rc _ IJ) as X. rewrite E2 in X. cbn [outcome_ok fst snd] in X. destruct X as (_ & k & -> & LK).
    apply same_bind; [apply same_refl|]. intros x _. cbn [skip_quote_when_literal_as_string bind].
    apply same_trim; [apply inz_first; [exact IJ|lia]|]. intros r [IR LR].
    rewrite end_item_here by exact IR. apply same_refl.
  Qed.

  Lemma same_bool : zsame parse_value_bool parse_value_bool_z.
  Proof.
    intros p I. unfold parse_value_bool, parse_value_bool_z. rewrite !(with_here p _ I).
    apply same_bind; [apply same_refl|]. intros t ET. apply same_bind; [apply same_refl|]. intros [b q] EQ.
    assert (IQ : inz q).
    { destruct t.
      - injection EQ as <- <-. destruct (with_z buf L HZ H31 p [116; 114; 117; 101] I) as (b' & EW & X). rewrite EW in ET. injection ET as ->.
        apply inz_first; [exact I|]. exact (X eq_refl).
      - destruct (with_z buf L HZ H31 p [102; 97; 108; 115; 101] I) as (b' & EW & X). rewrite EW in EQ. cbn [bind] in EQ.
        destruct b'; [|discriminate]. injection EQ as <- <-. apply inz_first; [exact I|]. exact (X eq_refl). }
    apply same_trim; [exact IQ|]. intros r [IR LR]. rewrite end_item_here by exact IR. apply same_refl.
  Qed.

  Lemma same_null : forall P Q, zsame P Q -> zsame (parse_value_null P) (parse_value_null_z Q).
  Proof.
    intros P Q HP p I. unfold parse_value_null, parse_value_null_z. cbv zeta.
    assert (EN : (if has_more p then c <- front doc p ;; Ok (is_token_after_value c) else Ok true) = (if has_more p then c <- front buf p ;; Ok (is_token_after_value c) else Ok true)).
    { destruct (has_more p) eqn:HM; [|reflexivity]. now rewrite (front_here p I (more_here p I HM)). }
    rewrite EN. apply same_bind; [apply same_refl|]. intros n _. destruct n; [apply same_refl|].
    rewrite (with_here p _ I). apply same_bind; [apply same_refl|]. intros b EB. destruct b.
    - destruct (with_z buf L HZ H31 p [110; 117; 108; 108] I) as (b' & EW & X). rewrite EW in EB. injection EB as ->. pose proof (X eq_refl) as LN. cbn [length] in LN.
      assert (IN : inz (remove_prefix p 4)) by (apply inz_first; [exact I|lia]). rewrite (end_item_here _ IN).
      apply same_bind; [apply same_refl|]. intros e _. apply same_ensure. intros _. apply same_trim; [exact IN|]. intros; apply same_refl.
    - apply same_bind; [now apply HP|]. intros; apply same_refl.
  Qed.

  Lemma trim_unchecked_same : forall p q, inz p -> trim_left_z buf p = Ok q -> (first q < L)%nat -> trim_left_unchecked doc p = Ok q.
  Proof.
    intros p q (EL & LE & _) E LQ. unfold trim_left_z in E. unfold trim_left_unchecked.
    destruct (trim_loop_unchecked (S (length buf)) buf (first p)) as [j| | |] eqn:EJ; cbn [bind] in E; try discriminate. injection E as <-. cbn [first set_first] in LQ.
    assert (MONO : forall f i, trim_loop_unchecked f buf i = Ok j -> (i <= j)%nat).
    { induction f as [|f IH]; intros i H; [discriminate|]. cbn [trim_loop_unchecked] in H.
      destruct (rd buf i) as [c| | |]; cbn [bind] in H; try discriminate. destruct (is_space c); [apply IH in H; lia|injection H as <-; lia]. }
    assert (H : forall f2 f1 i, (L - i < f1)%nat -> trim_loop_unchecked f2 buf i = Ok j -> trim_loop_unchecked f1 doc i = Ok j).
    { induction f2 as [|f2 IH]; intros f1 i HF H; [discriminate|]. pose proof (MONO _ _ H) as LI. destruct f1 as [|f1]; [lia|]. cbn [trim_loop_unchecked] in *.
      destruct (rd buf i) as [c| | |] eqn:R; cbn [bind] in H; try discriminate. apply rd_ok_nth in R.
      rewrite <- HE in R by lia. rewrite (rd_some _ _ _ R). cbn [bind]. destruct (is_space c); [|exact H]. apply (IH f1); auto. lia. }
    rewrite (H (S (length buf)) (S (length doc)) (first p)); auto. lia.
  Qed.

  Lemma trim_unchecked_end : forall p q, inz p -> trim_left_z buf p = Ok q -> first q = L ->
    trim_left_unchecked doc p = UB \/ trim_left_unchecked doc p = Ok q.
  Proof.
    intros p q (EL & LE & _) E LQ. unfold trim_left_z in E. unfold trim_left_unchecked.
    destruct (trim_loop_unchecked (S (length buf)) buf (first p)) as [j| | |] eqn:EJ; cbn [bind] in E; try discriminate. injection E as <-. cbn [first set_first] in LQ. subst j.
    assert (H : forall f2 f1 i, (i <= L)%nat -> (L - i < f1)%nat -> trim_loop_unchecked f2 buf i = Ok L -> trim_loop_unchecked f1 doc i = Ok L \/ trim_loop_unchecked f1 doc i = UB).
    { induction f2 as [|f2 IH]; intros f1 i LI HF H; [discriminate|]. destruct f1 as [|f1]; [lia|]. cbn [trim_loop_unchecked] in *.
      destruct (rd buf i) as [c| | |] eqn:R; cbn [bind] in H; try discriminate. apply rd_ok_nth in R.
      destruct (Nat.eq_dec i L) as [->|NE].
      - unfold rd. destruct doc_end as [-> | ->]; cbn [bind]; [now right|]. now left.
      - rewrite <- HE in R by lia. rewrite (rd_some _ _ _ R). cbn [bind]. destruct (is_space c); [|left; exact H]. apply (IH f1); auto; lia. }
    destruct (H (S (length buf)) (S (length doc)) (first p)) as [-> | ->]; auto; lia.
  Qed.

  Lemma same_array : forall P Q, zsame P Q -> zsafe buf L Q -> zsame (fun _ => parse_value_array P) (fun _ => parse_value_array_z Q).
  Proof.
    intros P Q HP HQ p0 I0. unfold parse_value_array, parse_value_array_z, end_of_array, end_of_array_z.
    apply same_trim; [exact I0|]. intros p [I LP]. rewrite (is_at_here p _ I).
    destruct (is_at_z buf L HZ H31 p c_lbrack I) as (b & -> & AT). cbn [bind]. apply same_ensure. intros ->.
    destruct (next_z buf L HZ H31 p _ I (AT eq_refl)) as [_ I1]; [discriminate|].
    change (trim_left_unchecked buf (remove_prefix p 1)) with (trim_left_z buf (remove_prefix p 1)).
    destruct (trim_ok buf L HZ H31 _ I1) as (q & EQ & I2 & L2). rewrite EQ. cbn [bind].
    assert (NOT : forall n p' vs, first p' = L -> last p' = L -> never (loop (array_body P doc) n (p', vs)) /\ never (loop (array_body_z Q buf) n (p', vs))).
    { intros n p' vs F F'. destruct n; cbn [loop]; [split; intros a; discriminate|]. unfold array_body, array_body_z.
      replace (has_more p') with false by (unfold has_more; lia). split; intros a; discriminate. }
    destruct (front_z buf L HZ H31 q I2) as (c & E & Hc).
    destruct (Nat.eq_dec (first q) L) as [EF|NF].
    { rewrite E. rewrite EF, HZ in Hc. injection Hc as <-. cbn [bind]. change (0 =? c_rbrack) with false. cbn iota. pose proof I2 as (EQL & _ & _).
      apply same_never.
      - destruct (trim_unchecked_end _ q I1 EQ EF) as [-> | ->]; cbn [bind]; [discriminate|].
        unfold front, rd. rewrite EF. destruct doc_end as [-> | ->]; cbn [bind]; [discriminate|].
        change (0 =? c_rbrack) with false. cbn iota. intros a X.
        destruct (loop (array_body P doc) (S (length doc)) (q, [])) as [[r vs]| | |] eqn:EL'; cbn [bind] in X; try discriminate.
        exact (proj1 (NOT _ q [] EF EQL) _ EL').
      - intros a X. destruct (loop (array_body_z Q buf) (S (length buf)) (q, [])) as [[r vs]| | |] eqn:EL'; cbn [bind] in X; try discriminate.
        exact (proj2 (NOT _ q [] EF EQL) _ EL'). }
    assert (LQ : (first q < L)%nat) by (destruct I2 as (_ & ? & _); lia).
    rewrite (trim_unchecked_same _ q I1 EQ LQ). cbn [bind]. rewrite (front_here q I2 LQ), E. cbn [bind].
    destruct (N.eqb_spec c c_rbrack) as [->|NC].
    { destruct (next_z buf L HZ H31 q _ I2 Hc) as [_ I3]; [discriminate|]. apply same_trim; [exact I3|]. intros; apply same_refl. }
    apply same_bind; [|intros; apply same_refl].
    (* the loop; both have fuel for every byte *)
    assert (BS : forall s, inz (fst s) -> same (array_body P doc s) (array_body_z Q buf s)).
    { intros [s vs] IS. cbn [fst] in IS. unfold array_body, array_body_z. apply same_ensure. intros HM.
      apply same_bind; [now apply HP|]. intros [v t] ET. pose proof (HQ s IS) as X. rewrite ET in X. cbn [outcome_ok snd] in X. destruct X as [IT _].
      apply same_trim; [exact IT|]. intros u [IU _].
      assert (EN : (if has_more u then c <- front doc u ;; Ok ((c =? c_comma) || (c =? c_rbrack)) else Ok false) = (if has_more u then c <- front buf u ;; Ok ((c =? c_comma) || (c =? c_rbrack)) else Ok false)).
      { destruct (has_more u) eqn:HMu; [|reflexivity]. now rewrite (front_here u IU (more_here u IU HMu)). }
      rewrite EN. apply same_bind; [apply same_refl|]. intros ok _. apply same_ensure. intros _.
      destruct (move_here u IU) as (w & -> & -> & IW & _). cbn [bind]. apply same_ensure. intros HW. rewrite (front_here w IW (more_here w IW HW)).
      apply same_bind; [apply same_refl|]. intros d Hd. unfold front in Hd. apply rd_ok_nth in Hd. destruct (N.eqb_spec d c_rbrack) as [->|ND]; [|apply same_refl].
      destruct (next_z buf L HZ H31 w _ IW Hd) as [_ I3]; [discriminate|]. unfold end_of_array, end_of_array_z. apply same_trim; [exact I3|]. intros; apply same_refl. }
    assert (INV : forall s s', inz (fst s) -> array_body_z Q buf s = Ok (inl s') -> inz (fst s') /\ (L - first (fst s') < L - first (fst s))%nat).
    { intros [s vs] s' IS H. cbn [fst] in IS. unfold array_body_z in H.
      destruct (has_more s) eqn:HM; cbn [ensure bind] in H; [|discriminate].
      destruct (Q false buf s) as [[v t]| | |] eqn:ET; cbn [bind] in H; try discriminate.
      pose proof (HQ s IS) as X. rewrite ET in X. cbn [outcome_ok snd] in X. destruct X as [IT LT].
      destruct (trim_ok buf L HZ H31 t IT) as (u & EU & IU & LU). rewrite EU in H. cbn [bind] in H.
      destruct (has_more u) eqn:HMu; cbn [bind ensure] in H; [|discriminate].
      destruct (front_z buf L HZ H31 u IU) as (d & EU' & Hd). rewrite EU' in H. cbn [bind] in H.
      destruct ((d =? c_comma) || (d =? c_rbrack)) eqn:ED; cbn [ensure bind] in H; [|discriminate].
      destruct (move_ok buf L HZ H31 u IU) as (w & EW & (IW & LW) & MV). rewrite EW in H. cbn [bind] in H.
      destruct (has_more w) eqn:HMw; cbn [bind ensure] in H; [|discriminate].
      destruct (front_z buf L HZ H31 w IW) as (e & EW' & He). rewrite EW' in H. cbn [bind] in H.
      destruct (N.eqb_spec e c_rbrack) as [EE|NE].
      { destruct (end_of_array_z buf w); cbn [bind] in H; discriminate. }
      injection H as <-. cbn [fst]. split; [exact IW|].
      assert (d = c_comma \/ d = c_rbrack) as [->| ->] by lia.
      - specialize (MV Hd). destruct IW as (_ & ? & _). lia.
      - exfalso. apply NE. unfold move_next_z in EW.
        assert (EUU : trim_left_z buf u = Ok u).
        { unfold trim_left_z. cbn [trim_loop_unchecked]. rewrite (rd_some _ _ _ Hd). cbn. destruct u; reflexivity. }
        rewrite EUU in EW. cbn [bind] in EW. rewrite EU' in EW. cbn in EW. injection EW as <-. congruence. }
    pose proof (L_in buf L HZ) as LB.
    assert (LOOP : forall n m s, inz (fst s) -> (L - first (fst s) < n)%nat -> (L - first (fst s) < m)%nat -> same (loop (array_body P doc) n s) (loop (array_body_z Q buf) m s)).
    { induction n as [|n IH]; intros m s IS Hn Hm; [lia|]. destruct m as [|m]; [lia|]. cbn [loop]. apply same_bind; [now apply BS|].
      intros [s'|r] E'; [|apply same_refl]. destruct (INV s s' IS E') as [IS' LS']. apply IH; auto; lia. }
    apply LOOP; cbn [fst]; [exact I2|lia|lia].
  Qed.

  Lemma same_elements : forall Ps Qs, Forall2 zsame Ps Qs -> Forall (zsafe buf L) Qs -> forall p, inz p -> same (parse_elements Ps doc p) (parse_elements_z Qs buf p).
  Proof.
    intros Ps Qs H. induction H as [|P Q Ps Qs HP H IH]; intros HQ p I; cbn [parse_elements parse_elements_z]; [apply same_refl|].
    apply same_ensure. intros _. apply same_bind; [now apply HP|]. intros [v q] EQ.
    pose proof (Forall_inv HQ p I) as X. rewrite EQ in X. cbn [outcome_ok snd] in X. destruct X as [IQ _].
    destruct (move_here q IQ) as (r & -> & -> & IR & _). cbn [bind]. apply same_bind; [apply (IH (Forall_inv_tail HQ) r IR)|]. intros; apply same_refl.
  Qed.

  Lemma same_tuple : forall g Ps Qs, Forall2 zsame Ps Qs -> Forall (zsafe buf L) Qs -> zsame (fun _ => parse_tuple g true Ps) (fun _ => parse_tuple_z true Qs).
  Proof.
    intros g Ps Qs HP HQ p0 I0. unfold parse_tuple, parse_tuple_z. apply same_trim; [exact I0|]. intros p [I LP]. rewrite (is_at_here p _ I).
    destruct (is_at_z buf L HZ H31 p c_lbrack I) as (b & -> & AT). cbn [bind]. apply same_ensure. intros ->. cbv zeta.
    assert (IC : inz (set_class p (Some (first p)) (Some (last p)))) by exact I. set (pc := set_class p (Some (first p)) (Some (last p))) in *.
    destruct (next_z buf L HZ H31 pc _ IC (AT eq_refl)) as [_ I1]; [discriminate|].
    destruct (move_here _ I1) as (q & -> & -> & IQ & _). cbn [bind]. apply same_trim; [exact IQ|]. intros r [IR _].
    apply same_bind; [now apply same_elements|]. intros [vs s] ES.
    pose proof (zsafe_elements buf L HZ H31 Qs HQ r IR) as X. rewrite ES in X. cbn [outcome_ok snd] in X. destruct X as [IS _].
    apply same_bind; [|intros; apply same_refl]. apply same_trim; [exact IS|]. intros u [IU _].
    apply same_front; [exact IU| |intros a; discriminate|intros a; discriminate].
    intros c Hc _. apply same_ensure. intros C. assert (c = c_rbrack) by lia. subst c.
    destruct (next_z buf L HZ H31 u _ IU Hc) as [_ I3]; [discriminate|]. destruct (trim_same _ I3) as (w & -> & -> & _). apply same_refl.
  Qed.

  Lemma same_variant : forall As Bs, Forall2 (fun a b => fst a = fst b /\ zsame (snd a) (snd b)) As Bs -> zsame (parse_value_variant As) (parse_value_variant Bs).
  Proof.
    intros As Bs H p I. unfold parse_value_variant. cbn [bind].
    assert (X : forall k, same (parse_variant_value k As false doc p) (parse_variant_value k Bs false buf p)).
    { intros k. unfold parse_variant_value.
      assert (M : forall i, match base_map k i As, base_map k i Bs with Some (a, P), Some (b, Q) => a = b /\ zsame P Q | None, None => True | _, _ => False end).
      { induction H as [|[ka P] [kb Q] As Bs [EK HP] H IH]; intros i; cbn [base_map]; [exact Logic.I|]. cbn [fst snd] in *. subst kb.
        destruct ka as [k'|]; [destruct (kind_eqb k k'); [auto|]|]; apply IH. }
      specialize (M 0%nat). destruct (base_map k 0 As) as [[a P]|], (base_map k 0 Bs) as [[b Q]|]; try contradiction; [|apply same_refl].
      destruct M as [-> HP]. apply same_bind; [now apply HP|]. intros; apply same_refl. }
    apply same_front; [exact I| |intros a; discriminate|intros a; discriminate]. intros c _ _.
    repeat match goal with |- context [if ?b then _ else _] => destruct b; [apply X|] end. apply same_refl.
  Qed.

  Lemma parse_same : forall g t, closed_type t = true -> zsame (parse_value g t) (parse_value_z g t).
  Proof.
    intros g. fix IH 1. intros t HT.
    assert (SAFE : forall t, closed_type t = true -> zsafe buf L (parse_value_z g t)) by (intros t' X; apply parse_value_z_safe; auto using closed_nameless).
    assert (SAFES : forall ts, forallb closed_type ts = true -> Forall (zsafe buf L) (map (parse_value_z g) ts)).
    { intros ts X. apply Forall_forall. intros f Hf. apply in_map_iff in Hf as (t' & <- & It). rewrite forallb_forall in X. apply SAFE. apply X. exact It. }
    destruct t as [w rc|w rc| | |t|t|t|exact mm|exact ts|exact kn tk vn tv|k|alts|exact tag t switch alts]; cbn [closed_type] in HT; try discriminate;
      cbn [parse_value parse_value_z].
    - apply same_unsigned.
    - now apply same_signed.
    - apply same_bool.
    - apply (same_null (parse_value g t) (parse_value_z g t)). apply IH. exact HT.
    - apply (same_array (parse_value g t) (parse_value_z g t)); [apply IH; exact HT|apply SAFE; exact HT].
    - apply andb_true_iff in HT as [-> HT]. apply (same_tuple g); [|apply SAFES; exact HT]. clear SAFES.
      induction ts as [|a ts IHl]; cbn [map]; [constructor|]. cbn [forallb] in HT. apply andb_true_iff in HT as [H1 H2]. constructor; [apply IH; exact H1|apply IHl; exact H2].
    - apply same_variant. clear SAFES.
      induction alts as [|a ts IHl]; cbn [map]; [constructor|]. cbn [forallb] in HT. apply andb_true_iff in HT as [H1 H2].
      constructor; [split; [reflexivity|apply IH; exact H1]|apply IHl; exact H2].
  Qed.
End Same.

Lemma from_json_same : forall g verify t s x, is_bytes s -> ~ In 0 s -> N.of_nat (length s) < 2^31 - 1 -> closed_type t = true ->
  from_json g verify t s = Ok x <-> from_json_z g verify t s = Ok x.
Proof.
  intros g verify t s x HB NZ H31 HT. revert x. change (same (from_json g verify t s) (from_json_z g verify t s)). unfold from_json, from_json_z. cbv zeta.
  apply same_ensure. intros NE. set (buf := s ++ [0]). assert (LB : length buf = S (length s)) by (unfold buf; rewrite app_length; cbn; lia).
  assert (ER : rd s (length s - 1) = rd buf (length s - 1)).
  { unfold rd, buf. rewrite nth_error_app1 by lia. reflexivity. }
  rewrite ER. apply same_bind; [apply same_refl|]. intros b Hb. apply rd_ok_nth in Hb.
  set (L := if b =? 0 then (length s - 1)%nat else length s).
  assert (HBb : is_bytes buf) by (unfold buf; apply Forall_app; split; [exact HB|repeat constructor]).
  assert (HZ : nth_error buf L = Some 0).
  { unfold L. destruct (N.eqb_spec b 0) as [->|_]; [exact Hb|]. unfold buf. rewrite nth_error_app2, Nat.sub_diag by lia. reflexivity. }
  assert (H31b : N.of_nat (length buf) < 2^31) by (change (2^31) with 2147483648 in *; lia).
  assert (HL : (L <= length s <= length buf)%nat) by (unfold L; destruct (b =? 0); lia).
  assert (HE : forall i, (i < L)%nat -> nth_error s i = nth_error buf i) by (intros i LI; unfold buf; rewrite nth_error_app1 by lia; reflexivity).
  assert (HX : forall c, nth_error s L = Some c -> c = 0).
  { intros c Hc. assert (LL : (L < length s)%nat) by (apply nth_error_Some; congruence). unfold buf in HZ. rewrite nth_error_app1 in HZ by exact LL. congruence. }
  clearbody L. assert (IP : inz L (new_ps 0 L)) by (repeat split; cbn; lia).
  apply same_bind; [apply (parse_same s buf L HB HBb HZ HL HE HX H31b g t HT); exact IP|]. intros [v q] EQ.
  pose proof (parse_value_z_safe buf L HBb HZ H31b g t (closed_nameless t HT) _ IP) as X. rewrite EQ in X. cbn [outcome_ok snd] in X. destruct X as [IQ _].
  destruct verify; [|apply same_refl]. apply (same_trim s buf L HB HBb HZ HL HE HX H31b); [exact IQ|]. intros r [IR _].
  unfold empty_z. destruct (ps_empty r) eqn:PE; cbn [bind ensure]; [apply same_refl|].
  unfold front. assert (LR : (first r < L)%nat) by (unfold ps_empty in PE; destruct IR as (ER1 & _ & ER2); rewrite ER1, ER2 in PE; cbn [orb] in PE; lia).
  destruct (rd_in s (first r)) as (c & Hc); [lia|]. assert (Hc' := Hc). rewrite HE in Hc' by exact LR. rewrite (rd_some _ _ _ Hc'). cbn [bind].
  destruct (N.eqb_spec c 0) as [->|]; [|cbn [ensure bind]; intros a; split; discriminate].
  exfalso. apply NZ. eapply nth_error_In. exact Hc.
Qed.
