(** Zero-terminated parsing of arbitrary bytes: types for which it stays inside the
    string and its terminator. *)
From Coq Require Import List NArith ZArith Bool Lia Arith ZifyBool ZifyNat ZifyN.
From Verif Require Import Base Mem Loop PolicyModel IntModel StrScanModel SkipModel SpecNum IntProofs
  SkipProofs SkipSafe HashModel StrDecodeModel ValueModel RawValueProofs TypedSafe ZModel ZInt.
Import ListNotations.
Local Open Scope N_scope.

(** No strings and nothing with names: their scans stop at an escape or at a
    member separator only and can pass the terminator. *)
Fixpoint nameless (t : ty) : bool :=
  match t with
  | TUInt _ _ | TBool => true
  | TInt w _ => safe_width w
  | TNullable t | TArr t => nameless t
  | TTuple _ ts => forallb nameless ts
  | TVariant alts => forallb nameless alts
  | _ => false
  end.

Section Z.
  Context (buf : list N) (L : nat).
  Hypothesis HB : is_bytes buf.
  Hypothesis HZ : nth_error buf L = Some 0.
  Hypothesis H31 : N.of_nat (length buf) < 2^31.

  Definition inz (p : ps) : Prop := last p = L /\ (first p <= L)%nat /\ isnull p = false.
  Definition onw (p q : ps) : Prop := inz q /\ (first p <= first q)%nat.
  Definition zsafe (P : parser) : Prop := forall p, inz p -> outcome_ok (fun x => onw p (snd x)) (P false buf p).

  Lemma L_in : (L < length buf)%nat.
  Proof. apply nth_error_Some. congruence. Qed.

  Lemma byte_at : forall i, (i <= L)%nat -> exists c, nth_error buf i = Some c.
  Proof. intros i H. pose proof L_in. apply rd_in. lia. Qed.

  Lemma front_z : forall p, inz p -> exists c, front buf p = Ok c /\ nth_error buf (first p) = Some c.
  Proof. intros p (_ & H & _). destruct (byte_at _ H) as (c & E). exists c. split; [|exact E]. unfold front. now apply rd_some. Qed.

  Lemma inz_first : forall p j, inz p -> (j <= L)%nat -> inz (set_first p j).
  Proof. intros p j (A & B & C) H. repeat split; auto. Qed.

  Lemma nonzero : forall p c, inz p -> nth_error buf (first p) = Some c -> c <> 0 -> (first p < L)%nat.
  Proof. intros p c (_ & H & _) E N. destruct (Nat.eq_dec (first p) L) as [X|]; [rewrite X in E; congruence|lia]. Qed.

  Lemma onw_refl : forall p, inz p -> onw p p.
  Proof. intros p H. split; [exact H|lia]. Qed.

  Lemma onw_trans : forall p q r, onw p q -> onw q r -> onw p r.
  Proof. intros p q r (_ & A) (B & C). split; [exact B|lia]. Qed.

  Lemma next_z : forall p c, inz p -> nth_error buf (first p) = Some c -> c <> 0 -> onw p (remove_prefix p 1) /\ inz (remove_prefix p 1).
  Proof.
    intros p c I E N. pose proof (nonzero p c I E N). assert (X : inz (remove_prefix p 1)) by (apply inz_first; [exact I|lia]).
    split; [split; [exact X|cbn; lia]|exact X].
  Qed.

  Lemma trim_loop_z : forall f i, (i <= L)%nat -> (L - i < f)%nat -> exists j, trim_loop_unchecked f buf i = Ok j /\ (i <= j <= L)%nat.
  Proof.
    induction f as [|f IH]; intros i HI HF; [lia|]. cbn [trim_loop_unchecked].
    destruct (byte_at i HI) as (c & Hc). rewrite (rd_some _ _ _ Hc). cbn [bind].
    destruct (is_space c) eqn:E; [|exists i; split; [reflexivity|lia]].
    assert (i <> L) by (intros ->; rewrite HZ in Hc; injection Hc as <-; discriminate E).
    destruct (IH (S i)) as (j & EJ & LJ); [lia|lia|]. exists j. split; [exact EJ|lia].
  Qed.

  Lemma trim_ok : forall p, inz p -> exists q, trim_left_z buf p = Ok q /\ onw p q.
  Proof.
    intros p I. pose proof I as (_ & H & _). pose proof L_in. unfold trim_left_z.
    destruct (trim_loop_z (S (length buf)) (first p)) as (j & -> & LJ); [lia|lia|]. cbn [bind].
    exists (set_first p j). split; [reflexivity|]. split; [apply inz_first; [exact I|lia]|cbn; lia].
  Qed.

  Lemma move_ok : forall p, inz p -> exists q, move_next_z buf p = Ok q /\ onw p q /\
    (nth_error buf (first p) = Some c_comma -> (first p < first q)%nat).
  Proof.
    intros p I. unfold move_next_z. destruct (trim_ok p I) as (q & EQ & O). rewrite EQ. cbn [bind]. destruct O as [IQ LQ].
    destruct (front_z q IQ) as (c & -> & Hc). cbn [bind].
    assert (SAME : nth_error buf (first p) = Some c_comma -> first q = first p).
    { intros H. unfold trim_left_z in EQ. cbn [trim_loop_unchecked] in EQ. rewrite (rd_some _ _ _ H) in EQ. cbn in EQ. injection EQ as <-. reflexivity. }
    destruct (N.eqb_spec c c_comma) as [->|NC].
    - destruct (next_z q c_comma IQ Hc) as [O2 I2]; [discriminate|]. destruct (trim_ok _ I2) as (r & -> & O3).
      exists r. split; [reflexivity|]. destruct O3 as [IR LR]. cbn [first remove_prefix set_first] in LR. split; [split; [exact IR|lia]|lia].
    - exists q. split; [reflexivity|]. split; [split; [exact IQ|exact LQ]|]. intros H. rewrite (SAME H) in Hc. congruence.
  Qed.

  Lemma has_more_z : forall p c, has_more p = true -> inz p -> nth_error buf (first p) = Some c -> (first p < L)%nat.
  Proof. intros p c H (E & _) _. unfold has_more in H. lia. Qed.

  Lemma end_item_z : forall p, inz p -> exists b, end_of_item_ok buf p = Ok b.
  Proof.
    intros p I. unfold end_of_item_ok. destruct (has_more p); [|eauto]. destruct (front_z p I) as (c & -> & _). cbn [bind]. eauto.
  Qed.

  Lemma is_at_z : forall p c, inz p -> exists b, is_at buf p c = Ok b /\ (b = true -> nth_error buf (first p) = Some c).
  Proof.
    intros p c I. unfold is_at. destruct (has_more p); [|exists false; split; [reflexivity|discriminate]].
    destruct (front_z p I) as (d & -> & H). cbn [bind]. exists (d =? c). split; [reflexivity|]. intros E. apply N.eqb_eq in E. congruence.
  Qed.

  Lemma digits_run : forall p, inz p -> (first p < L)%nat -> exists ds, digits ds /\ sub_at buf (first p) ds /\
    run_ends buf (first p + length ds) L /\ exists b, nth_error buf (first p + length ds) = Some b /\ ~ is_dig b.
  Proof.
    intros p I LT. pose proof L_in.
    destruct (skip_digits_safe buf (first p) L HB) as (ds & _ & D1 & D2 & D3 & D4); [lia|]. exists ds.
    assert (ND : exists b, nth_error buf (first p + length ds) = Some b /\ ~ is_dig b).
    { destruct (Nat.eq_dec (first p + length ds) L) as [E|NE]; [|apply D4; lia].
      rewrite E. exists 0. split; [exact HZ|]. unfold is_dig. lia. }
    split; [exact D1|]. split; [exact D2|]. split; [|exact ND]. split; [exact D3|]. right. exact ND.
  Qed.

  Lemma not_known_z : forall w rc p, inz p ->
    outcome_ok (fun x => fst x < 2^64 /\ exists j, snd x = set_first p j /\ (first p <= j <= L)%nat) (unsigned_parser_not_known_z w rc buf p).
  Proof.
    intros w rc p I. pose proof I as (EL & _). pose proof L_in.
    destruct (has_more p) eqn:HM; [|unfold unsigned_parser_not_known_z; rewrite HM; exact Logic.I].
    unfold has_more in HM. destruct (digits_run p I) as (ds & D1 & D2 & D3 & D4); [lia|].
    rewrite <- EL in D3. rewrite (not_known_z_run w rc buf p ds HB) by (auto; lia). cbv zeta. destruct D3 as [D3 _].
    assert (U : u64 (dec_val ds) < 2^64) by (unfold u64; apply N.mod_lt; discriminate).
    destruct rc.
    - destruct (length ds <=? 20)%nat; cbn [ensure bind]; [|exact Logic.I].
      pose proof (narrow_safe w _ U) as X. destruct (narrow_cast_u w (u64 (dec_val ds))) as [v| | |]; cbn [bind outcome_ok fst snd] in *; auto.
      split; [exact X|]. exists (first p + length ds)%nat. split; [reflexivity|lia].
    - cbn [outcome_ok fst snd]. split; [now apply cast_u_lt|]. exists (first p + length ds)%nat. split; [reflexivity|lia].
  Qed.

  Lemma zsafe_unsigned : forall w rc, zsafe (fun known buf p => '(v, p) <- parse_value_unsigned_z known w rc buf p ;; Ok (VInt (Z.of_N v), p)).
  Proof.
    intros w rc p I. unfold parse_value_unsigned_z, unsigned_parser_z. destruct (front_z p I) as (c & -> & _). cbn [bind].
    destruct (is_number c); cbn [ensure bind outcome_ok]; auto.
    pose proof (not_known_z w rc p I) as X. destruct (unsigned_parser_not_known_z w rc buf p) as [[v q]| | |]; cbn [bind outcome_ok fst snd] in *; auto.
    destruct X as (_ & j & -> & LJ). assert (IJ : inz (set_first p j)) by (apply inz_first; [exact I|lia]).
    destruct (end_item_z _ IJ) as (b & ->). cbn [bind]. destruct b; cbn [ensure bind outcome_ok]; auto. cbn [snd]. split; [exact IJ|cbn; lia].
  Qed.

  Lemma zsafe_signed : forall w rc, safe_width w = true ->
    zsafe (fun known buf p => '(v, p) <- parse_value_signed_z known w rc buf p ;; Ok (VInt v, p)).
  Proof.
    intros w rc W p I. pose proof I as (EL & LE & _). pose proof L_in. unfold parse_value_signed_z, unsigned_parser_z.
    pose proof (validate_signed_safe buf p ltac:(lia)) as V.
    destruct (validate_signed_first buf p) as [[s q]| | |]; cbn [bind outcome_ok fst snd] in *; auto. destruct V as (S & j & -> & LJ).
    assert (IJ : inz (set_first p j)) by (apply inz_first; [exact I|lia]).
    pose proof (not_known_z w rc _ IJ) as X.
    destruct (unsigned_parser_not_known_z w rc buf (set_first p j)) as [[v q]| | |]; cbn [bind outcome_ok fst snd] in *; auto.
    destruct X as (U & k & -> & LK). cbn [first last set_first] in LK.
    destruct (to_signed_safe w v s W U S) as (x & ->). cbn [bind].
    change (set_first (set_first p j) k) with (set_first p k).
    assert (IK : inz (set_first p k)) by (apply inz_first; [exact I|lia]).
    destruct (trim_ok _ IK) as (q & -> & F2). cbn [bind]. destruct F2 as [IQ LQ].
    destruct (end_item_z q IQ) as (b & ->). cbn [bind].
    destruct b; cbn [ensure bind outcome_ok]; auto. cbn [snd]. split; [exact IQ|cbn [first set_first] in LQ; lia].
  Qed.

  Lemma with_z : forall p t, inz p -> exists b, starts_with buf p t = Ok b /\ (b = true -> (first p + length t <= L)%nat).
  Proof.
    intros p t (EL & LE & _). pose proof L_in. unfold starts_with. destruct (Nat.ltb_spec (ps_size p) (length t)); [exists false; split; [reflexivity|discriminate]|].
    unfold ps_size in *. destruct (eq_bytes_safe t buf (first p)) as (b & E & _); [lia|]. exists b. split; [exact E|]. intros _. lia.
  Qed.

  Lemma zsafe_bool : zsafe parse_value_bool_z.
  Proof.
    intros p I. unfold parse_value_bool_z.
    assert (FIN : forall n b, (first p + n <= L)%nat ->
      outcome_ok (fun x => onw p (snd x)) (p <- trim_left_z buf (remove_prefix p n) ;; e <- end_of_item_ok buf p ;;
        _ <- ensure e InvalidEndOfValue ;; Ok (VBool b, p))).
    { intros n b LN. assert (IN : inz (remove_prefix p n)) by (apply inz_first; [exact I|lia]).
      destruct (trim_ok _ IN) as (q & -> & IQ & LQ). cbn [bind]. cbn [first remove_prefix set_first] in LQ.
      destruct (end_item_z q IQ) as (e & ->). cbn [bind].
      destruct e; cbn [ensure bind outcome_ok]; auto. cbn [snd]. split; [exact IQ|lia]. }
    destruct (with_z p [116; 114; 117; 101] I) as (b & -> & HT). cbn [bind]. destruct b.
    - cbn [bind]. apply FIN. exact (HT eq_refl).
    - destruct (with_z p [102; 97; 108; 115; 101] I) as (b & -> & HF). cbn [bind]. destruct b; [|exact Logic.I].
      cbn [bind]. apply FIN. exact (HF eq_refl).
  Qed.

  Lemma zsafe_null : forall f, zsafe f -> zsafe (parse_value_null_z f).
  Proof.
    intros f HF p I. unfold parse_value_null_z. cbv zeta.
    assert (BASE : outcome_ok (fun x => onw p (snd x)) ('(v, p) <- f false buf p ;; Ok (VSome v, p))).
    { eapply outcome_ok_bind; [apply HF; exact I|]. intros [v q] X. exact X. }
    assert (X : exists b : bool, (if has_more p then c <- front buf p ;; Ok (is_token_after_value c) else Ok true) = Ok b).
    { destruct (has_more p); [|eauto]. destruct (front_z p I) as (c & -> & _). cbn [bind]. eauto. }
    destruct X as (b & ->). cbn [bind]. destruct b; [cbn [outcome_ok snd]; now apply onw_refl|].
    destruct (with_z p [110; 117; 108; 108] I) as (b & -> & HN). cbn [bind]. destruct b; [|exact BASE]. cbv zeta.
    pose proof (HN eq_refl) as LN. cbn [length] in LN.
    assert (IN : inz (remove_prefix p 4)) by (apply inz_first; [exact I|lia]).
    destruct (end_item_z _ IN) as (e & ->). cbn [bind].
    destruct e; cbn [ensure bind outcome_ok]; auto.
    destruct (trim_ok _ IN) as (q & -> & IQ & LQ). cbn [bind outcome_ok snd]. cbn [first remove_prefix set_first] in LQ. split; [exact IQ|lia].
  Qed.

  Lemma zsafe_array : forall f, zsafe f -> zsafe (fun _ => parse_value_array_z f).
  Proof.
    intros f HF p0 I0. unfold parse_value_array_z, end_of_array_z.
    destruct (trim_ok p0 I0) as (p & -> & I & LP). cbn [bind].
    destruct (is_at_z p c_lbrack I) as (b & -> & AT). cbn [bind]. destruct b; cbn [ensure bind outcome_ok]; auto.
    destruct (next_z p _ I (AT eq_refl)) as [O1 I1]; [discriminate|].
    change (trim_left_unchecked buf (remove_prefix p 1)) with (trim_left_z buf (remove_prefix p 1)).
    destruct (trim_ok _ I1) as (q & -> & I2 & L2). cbn [bind]. destruct O1 as [_ L1].
    destruct (front_z q I2) as (c & -> & Hc). cbn [bind].
    destruct (N.eqb_spec c c_rbrack) as [->|NC].
    - destruct (next_z q _ I2 Hc) as [[_ L3] I3]; [discriminate|]. destruct (trim_ok _ I3) as (r & -> & I4 & L4). cbn [bind outcome_ok snd].
      split; [exact I4|lia].
    - eapply outcome_ok_bind
        with (P := fun x : ps * list val => inz (fst x) /\ (first p0 <= first (fst x))%nat);
        [|intros [r vs] [A B]; exact (conj A B)].
      apply (loop_inv (array_body_z f buf) (fun s => (L - first (fst s))%nat) (fun s => inz (fst s) /\ (first p0 <= first (fst s))%nat)).
      + clear q I2 L2 c Hc NC. intros [s vs] [IS LS]. cbn [fst] in *. unfold array_body_z, end_of_array_z.
        destruct (has_more s) eqn:HM; cbn [ensure bind outcome_ok]; auto. unfold has_more in HM. pose proof IS as (ES & _ & _).
        eapply outcome_ok_bind; [apply HF; exact IS|]. intros [v t] [IT LT]. cbn [snd] in *.
        destruct (trim_ok t IT) as (u & -> & IU & LU). cbn [bind].
        assert (X : exists b : bool, (if has_more u then c <- front buf u ;; Ok ((c =? c_comma) || (c =? c_rbrack)) else Ok false) = Ok b /\
          (b = true -> exists c, nth_error buf (first u) = Some c /\ (c = c_comma \/ c = c_rbrack))).
        { destruct (has_more u); [|exists false; split; [reflexivity|discriminate]]. destruct (front_z u IU) as (c & -> & Hc). cbn [bind].
          exists ((c =? c_comma) || (c =? c_rbrack)). split; [reflexivity|]. intros E. exists c. split; [exact Hc|]. lia. }
        destruct X as (b & -> & X). cbn [bind]. destruct b; cbn [ensure bind outcome_ok]; auto. destruct (X eq_refl) as (c & Hc & C). clear X.
        destruct (move_ok u IU) as (w & EW & (IW & LW) & MV). rewrite EW. cbn [bind].
        destruct (has_more w) eqn:HW; cbn [ensure bind outcome_ok]; auto.
        destruct (front_z w IW) as (d & -> & Hd). cbn [bind].
        destruct (N.eqb_spec d c_rbrack) as [->|ND].
        * destruct (next_z w _ IW Hd) as [[_ L3] I3]; [discriminate|]. destruct (trim_ok _ I3) as (r & -> & I4 & L4). cbn [bind outcome_ok fst].
          split; [exact I4|lia].
        * cbn [outcome_ok fst]. split; [split; [exact IW|lia]|]. destruct C as [->| ->].
          { pose proof (MV Hc). destruct IW as (_ & ? & _). lia. }
          exfalso. apply ND. unfold move_next_z in EW.
          assert (EU : trim_left_z buf u = Ok u).
          { unfold trim_left_z. cbn [trim_loop_unchecked]. rewrite (rd_some _ _ _ Hc). cbn. destruct u; reflexivity. }
          rewrite EU in EW. cbn [bind] in EW. unfold front in EW. rewrite (rd_some _ _ _ Hc) in EW. cbn in EW. injection EW as <-. congruence.
      + cbn [fst]. split; [exact I2|lia].
      + cbn [fst]. pose proof L_in. lia.
  Qed.

  Lemma zsafe_elements : forall fs, Forall zsafe fs -> forall p, inz p ->
    outcome_ok (fun x => onw p (snd x)) (parse_elements_z fs buf p).
  Proof.
    induction fs as [|f fs IH]; intros HF p I; cbn [parse_elements_z]; [cbn [outcome_ok snd]; now apply onw_refl|].
    destruct (has_more p); cbn [ensure bind outcome_ok]; auto.
    eapply outcome_ok_bind; [apply (Forall_inv HF); exact I|]. intros [v q] [IQ LQ]. cbn [snd] in *.
    destruct (move_ok q IQ) as (r & -> & (IR & LR) & _). cbn [bind].
    eapply outcome_ok_bind; [apply (IH (Forall_inv_tail HF)); exact IR|]. intros [vs s] [IS LS]. cbn [outcome_ok snd] in *. split; [exact IS|lia].
  Qed.

  Lemma zsafe_tuple : forall exact fs, Forall zsafe fs -> zsafe (fun _ => parse_tuple_z exact fs).
  Proof.
    intros exact fs HF p0 I0. unfold parse_tuple_z. destruct (trim_ok p0 I0) as (p & -> & I & LP). cbn [bind].
    destruct (is_at_z p c_lbrack I) as (b & -> & AT). cbn [bind]. destruct b; cbn [ensure bind outcome_ok]; auto. cbv zeta.
    assert (IC : inz (set_class p (Some (first p)) (Some (last p)))) by exact I. set (pc := set_class p (Some (first p)) (Some (last p))) in *.
    destruct (next_z pc _ IC (AT eq_refl)) as [[_ L1] I1]; [discriminate|]. change (first pc) with (first p) in L1.
    destruct (move_ok _ I1) as (q & -> & (IQ & LQ) & _). cbn [bind].
    destruct (trim_ok q IQ) as (r & -> & IR & LR). cbn [bind].
    eapply outcome_ok_bind; [apply zsafe_elements; [exact HF|exact IR]|]. intros [vs s] [IS LS]. cbn [snd] in *.
    eapply outcome_ok_bind with (P := fun u => inz u /\ (first s <= first u)%nat).
    - destruct exact.
      + destruct (trim_ok s IS) as (u & -> & IU & LU). cbn [bind]. destruct (front_z u IU) as (c & -> & Hc). cbn [bind].
        destruct (N.eqb_spec c c_rbrack) as [->|NC]; cbn [ensure bind outcome_ok]; auto.
        destruct (next_z u _ IU Hc) as [[_ L3] I3]; [discriminate|]. destruct (trim_ok _ I3) as (w & -> & IW & LW). cbn [outcome_ok].
        split; [exact IW|lia].
      + unfold skip_array. pose proof IS as (ES & LS' & NS). pose proof L_in.
        pose proof (skip_bracketed_bound ExConstexpr false buf s HB ltac:(lia)) as X.
        destruct (skip_bracketed CNone true ExConstexpr false buf s) as [[a u]| | |]; cbn [bind outcome_ok fst snd] in *; auto.
        destruct X as (X1 & X2 & X3 & _). specialize (X1 ltac:(discriminate) H31). rewrite X2. split; [apply inz_first; [exact IS|lia]|cbn; lia].
    - intros u [IU LU]. cbn [outcome_ok snd]. split; [exact IU|]. cbn [first set_class]. lia.
  Qed.

  Lemma base_map_in : forall k alts i j f, base_map k i alts = Some (j, f) -> In f (map snd alts).
  Proof.
    induction alts as [|[[k'|] g] alts IH]; intros i j f H; cbn [base_map] in H; [discriminate| |].
    - destruct (kind_eqb k k'); [injection H as <- <-; now left|]. right. exact (IH _ _ _ H).
    - right. exact (IH _ _ _ H).
  Qed.

  Lemma zsafe_variant : forall alts, Forall zsafe (map snd alts) -> zsafe (parse_value_variant alts).
  Proof.
    intros alts HF p I. unfold parse_value_variant. cbn [bind].
    assert (X : forall k, outcome_ok (fun x => onw p (snd x)) (parse_variant_value k alts false buf p)).
    { intros k. unfold parse_variant_value. destruct (base_map k 0 alts) as [[j f]|] eqn:E; [|exact Logic.I].
      apply base_map_in in E. rewrite Forall_forall in HF. eapply outcome_ok_bind; [apply (HF f E); exact I|]. intros [v q] Y. exact Y. }
    destruct (front_z p I) as (c & -> & _). cbn [bind].
    repeat match goal with |- context [if ?b then _ else _] => destruct b; [apply X|] end. exact Logic.I.
  Qed.

  Lemma parse_value_z_safe : forall g t, nameless t = true -> zsafe (parse_value_z g t).
  Proof.
    intros g. fix IH 1. intros t HT.
    assert (LIST : forall ts, forallb nameless ts = true -> Forall zsafe (map (parse_value_z g) ts)).
    { fix LH 1. intros [|a ts] H; cbn [map]; [apply Forall_nil|]. cbn [forallb] in H. apply andb_true_iff in H as [H1 H2].
      apply Forall_cons; [apply IH; exact H1|apply LH; exact H2]. }
    destruct t as [w rc|w rc| | |t|t|t|exact mm|exact ts|exact kn tk vn tv|k|alts|exact tag t switch alts]; cbn [nameless] in HT; try discriminate;
      cbn [parse_value_z].
    - apply zsafe_unsigned.
    - now apply zsafe_signed.
    - apply zsafe_bool.
    - apply (zsafe_null (parse_value_z g t)). apply IH. exact HT.
    - apply (zsafe_array (parse_value_z g t)). apply IH. exact HT.
    - apply (zsafe_tuple exact). apply LIST. exact HT.
    - apply zsafe_variant. rewrite map_map. cbn [snd]. apply LIST. exact HT.
  Qed.
End Z.

Lemma from_json_z_safe : forall g verify t s, is_bytes s -> N.of_nat (length s) < 2^31 - 1 -> nameless t = true ->
  match from_json_z g verify t s with Ok _ | Err _ => True | UB | Fuel => False end.
Proof.
  intros g verify t s HB H31 HT. unfold from_json_z. cbv zeta.
  destruct (Nat.eqb_spec (length s) 0) as [E|NE]; cbn [negb ensure bind]; [exact I|].
  set (buf := s ++ [0]). assert (LB : length buf = S (length s)) by (unfold buf; rewrite app_length; cbn; lia).
  destruct (rd_in buf (length s - 1)) as (b & Hb); [lia|]. rewrite (rd_some _ _ _ Hb). cbn [bind].
  set (L := if b =? 0 then (length s - 1)%nat else length s).
  assert (HBb : is_bytes buf) by (unfold buf; apply Forall_app; split; [exact HB|repeat constructor]).
  assert (HZ : nth_error buf L = Some 0).
  { unfold L. destruct (N.eqb_spec b 0) as [->|_]; [exact Hb|]. unfold buf. rewrite nth_error_app2, Nat.sub_diag by lia. reflexivity. }
  assert (H31b : N.of_nat (length buf) < 2^31) by (change (2^31) with 2147483648 in *; lia).
  assert (IP : inz L (new_ps 0 L)) by (repeat split; cbn; lia).
  pose proof (parse_value_z_safe buf L HBb HZ H31b g t HT _ IP) as X.
  destruct (parse_value_z g t false buf (new_ps 0 L)) as [[v q]| | |]; cbn [bind outcome_ok snd] in *; auto.
  destruct verify; [|exact I]. destruct X as [IQ _].
  destruct (trim_ok buf L HZ H31b q IQ) as (r & -> & IR & _). cbn [bind].
  unfold empty_z. destruct (ps_empty r); cbn [bind ensure]; [exact I|].
  destruct (front_z buf L HZ H31b r IR) as (c & -> & _). cbn [bind]. destruct (c =? 0); exact I.
Qed.
