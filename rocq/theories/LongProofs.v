(** Reading with ExpectLongNames gives what reading without it gives, or a null pointer
    where reading without it refuses. *)
From Coq Require Import List NArith ZArith Bool Lia Arith.
From Coq Require Import ZifyBool ZifyNat ZifyN.
From Verif Require Import Base PolicyModel IntModel Mem Loop StrScanModel SkipModel HashModel StrDecodeModel ValueModel LongModel LongValueModel
  PropertiesHash.
Import ListNotations.
Local Open Scope N_scope.

(** ** The relation *)

Definition refuses {A} (r : res A) : Prop := forall x, r <> Ok x.
Definition same {A} (r r' : res A) : Prop := r' = r \/ (r' = UB /\ refuses r).

Lemma same_refl : forall {A} (r : res A), same r r.
Proof. intros. now left. Qed.

Lemma refuses_bind : forall {A B} (r : res A) (k : A -> res B), refuses r -> refuses (bind r k).
Proof. intros A B r k H x. destruct r; cbn; try discriminate. exfalso. exact (H a eq_refl). Qed.

Lemma same_bind : forall {A B} (r r' : res A) (k k' : A -> res B), same r r' -> (forall a, same (k a) (k' a)) -> same (bind r k) (bind r' k').
Proof.
  intros A B r r' k k' [->|[-> R]] K.
  - destruct r; cbn; auto using same_refl.
  - right. split; [reflexivity|]. now apply refuses_bind.
Qed.

Lemma same_loop : forall {S A} (b b' : S -> res (S + A)) n s, (forall s, same (b s) (b' s)) -> same (loop b n s) (loop b' n s).
Proof.
  intros S A b b' n. induction n as [|n IH]; intros s H; cbn [loop]; [apply same_refl|].
  apply same_bind; auto. intros [s'|a]; auto using same_refl.
Qed.

Definition psame (f f' : parser) : Prop := forall known buf p, same (f known buf p) (f' known buf p).

Ltac sm := match goal with
  | |- same ?x ?x => apply same_refl
  | |- same (bind _ _) (bind _ _) => apply same_bind; [|intros]
  | |- same (let '(_, _) := ?x in _) _ => destruct x
  | |- same (if ?b then _ else _) _ => destruct b
  | |- same (match ?b with _ => _ end) _ => destruct b
  end.

(** ** Names *)

Lemma libc_memchr : forall n buf i last,
  match loop (fun i => if (i <? last)%nat then b <- rd buf i ;; Ok (if b =? c_quote then inr (Some i) else inl (S i)) else Ok (inr None)) n i with
  | Ok (Some j) => loop (fun i => if (i <? last)%nat then b <- rd buf i ;; Ok (if negb (b =? c_quote) then inl (S i) else inr i) else Ok (inr i)) n i = Ok j
  | Ok None => exists j, (last <= j)%nat /\ loop (fun i => if (i <? last)%nat then b <- rd buf i ;; Ok (if negb (b =? c_quote) then inl (S i) else inr i) else Ok (inr i)) n i = Ok j
  | Err e => False
  | UB => loop (fun i => if (i <? last)%nat then b <- rd buf i ;; Ok (if negb (b =? c_quote) then inl (S i) else inr i) else Ok (inr i)) n i = UB
  | Fuel => loop (fun i => if (i <? last)%nat then b <- rd buf i ;; Ok (if negb (b =? c_quote) then inl (S i) else inr i) else Ok (inr i)) n i = @Fuel nat
  end.
Proof.
  induction n as [|n IH]; intros buf i last; cbn [loop]; [reflexivity|].
  destruct (Nat.ltb_spec i last); [|cbn; eauto].
  unfold rd. destruct (nth_error buf i) as [b|]; cbn [bind]; [|reflexivity].
  destruct (b =? c_quote); cbn [negb bind]; [reflexivity|apply IH].
Qed.

Lemma same_name_nq : forall g buf p, same (parse_name_nq g buf p) (parse_name_nq_xl g buf p).
Proof.
  intros g buf p. unfold parse_name_nq_xl. destruct (c_escnames g) eqn:E; [apply same_refl|].
  unfold parse_name_nq. rewrite E. unfold memchr_long, libc_quote, memchr_checked.
  pose proof (libc_memchr (S (last p - first p)) buf (first p) (last p)) as L.
  match type of L with match ?x with _ => _ end => destruct x as [[j|]|e| |] end.
  - rewrite L. apply same_refl.
  - destruct L as (j & J & ->). right. split; [reflexivity|]. intros x. cbn [bind]. unfold is_at, has_more.
    cbn [first last set_first]. replace (j <? last p)%nat with false by lia. discriminate.
  - destruct L.
  - rewrite L. apply same_refl.
  - rewrite L. apply same_refl.
Qed.

Lemma same_name : forall g buf p, same (parse_name g buf p) (parse_name_xl g buf p).
Proof. intros. unfold parse_name, parse_name_xl. repeat sm. apply same_name_nq. Qed.

Lemma find_name_long : forall f names pos key, find_name f true names pos key = find_name f false names pos key.
Proof. intros. unfold find_name. now rewrite C53_long_short_agree. Qed.

(** ** Classes *)

Section Classes.
  Context (g : cfg) (HG : c_ex g = ExConstexpr).

  Lemma same_find_body : forall exact names pos buf s, same (find_body g exact names pos buf s) (find_body_xl g exact names pos buf s).
  Proof.
    intros exact names pos buf [p locs]. unfold find_body, find_body_xl. sm; [apply same_refl|]. destruct a; cbn [negb]; [|apply same_refl].
    sm; [apply same_name|]. destruct a as [name q]. rewrite find_name_long. apply same_refl.
  Qed.

  Lemma same_find : forall exact names pos nullable buf p locs,
    same (find_class_member g exact names pos nullable buf p locs) (find_class_member_xl g exact names pos nullable buf p locs).
  Proof.
    intros. unfold find_class_member, find_class_member_xl. cbv zeta. repeat (sm; [apply same_refl|]).
    sm; [|apply same_refl]. apply same_loop. apply same_find_body.
  Qed.

  Lemma same_member : forall exact names pos nullable f f' buf p locs, psame f f' ->
    same (parse_class_member g exact names pos nullable f buf p locs) (parse_class_member_xl g exact names pos nullable f' buf p locs).
  Proof.
    intros exact names pos nullable f f' buf p locs F. unfold parse_class_member, parse_class_member_xl. repeat (sm; [apply same_refl|]).
    sm; [apply same_find|]. destruct a2 as [[q l] known]. destruct known; cbn [negb].
    - destruct (isnull _); [apply same_refl|]. sm; [apply F|apply same_refl].
    - sm; [apply F|apply same_refl].
  Qed.

  Definition msame (m m' : member) : Prop := m_name m' = m_name m /\ m_nullable m' = m_nullable m /\ psame (m_parse m) (m_parse m').

  Lemma same_members : forall exact names ms ms', Forall2 msame ms ms' -> forall pos buf p locs,
    same (parse_members g exact names pos ms buf p locs) (parse_members_xl g exact names pos ms' buf p locs).
  Proof.
    intros exact names ms ms' F. induction F as [|m m' r r' (E1 & E2 & H) F IH]; intros pos buf p locs; cbn [parse_members parse_members_xl]; [apply same_refl|].
    rewrite E2. sm; [now apply same_member|]. destruct a as [[v q] l]. sm; [apply IH|apply same_refl].
  Qed.

  Lemma same_cleanup : forall exact old buf p, same (class_cleanup_now g exact old buf p) (class_cleanup_now_xl g exact old buf p).
  Proof. intros. unfold class_cleanup_now, class_cleanup_now_xl, move_to_next_class_member_xl. rewrite HG. apply same_refl. Qed.

  Lemma msame_names : forall ms ms', Forall2 msame ms ms' -> map m_name ms' = map m_name ms.
  Proof. induction 1 as [|m m' r r' (E & _) _ IH]; cbn; congruence. Qed.
  Lemma msame_locs : forall ms ms', Forall2 msame ms ms' -> map (fun _ : member => no_loc) ms' = map (fun _ => no_loc) ms.
  Proof. induction 1; cbn; congruence. Qed.

  Lemma same_json_class : forall exact ms ms' buf p, Forall2 msame ms ms' -> same (parse_json_class g exact ms buf p) (parse_json_class_xl g exact ms' buf p).
  Proof.
    intros exact ms ms' buf p F. unfold parse_json_class, parse_json_class_xl. cbv zeta. repeat (sm; [apply same_refl|]).
    rewrite (msame_names _ _ F), (msame_locs _ _ F). sm; [now apply same_members|]. destruct a3 as [vs q]. sm; [apply same_cleanup|apply same_refl].
  Qed.

  Lemma same_class : forall exact ms ms', Forall2 msame ms ms' -> psame (parse_value_class g exact ms) (parse_value_class_xl g exact ms').
  Proof.
    intros exact ms ms' F known buf p. unfold parse_value_class, parse_value_class_xl. sm; [apply same_refl|].
    sm; [now apply same_json_class|]. apply same_refl.
  Qed.

  (** ** Other values *)

  Lemma same_null : forall f f', psame f f' -> psame (parse_value_null f) (parse_value_null f').
  Proof.
    intros f f' F known buf p. unfold parse_value_null. destruct known; [destruct (isnull p); [apply same_refl|]; sm; [apply F|apply same_refl]|].
    sm; [apply same_refl|]. destruct a; [apply same_refl|]. sm; [apply same_refl|]. destruct a; [apply same_refl|]. sm; [apply F|apply same_refl].
  Qed.

  Lemma same_array_body : forall f f' buf s, psame f f' -> same (array_body f buf s) (array_body f' buf s).
  Proof. intros f f' buf [p vs] F. unfold array_body. sm; [apply same_refl|]. sm; [apply F|]. apply same_refl. Qed.

  Lemma same_array : forall f f' buf p, psame f f' -> same (parse_value_array f buf p) (parse_value_array f' buf p).
  Proof.
    intros f f' buf p F. unfold parse_value_array. repeat (sm; [apply same_refl|]).
    sm; [|apply same_refl]. apply same_loop. intros s. now apply same_array_body.
  Qed.

  Lemma same_kv_array : forall f f' buf p, psame f f' -> same (parse_value_keyvalue_array f buf p) (parse_value_keyvalue_array f' buf p).
  Proof.
    intros f f' buf p F. unfold parse_value_keyvalue_array. cbv zeta. repeat (sm; [apply same_refl|]).
    sm; [|apply same_refl]. apply same_loop. intros s. now apply same_array_body.
  Qed.

  Lemma same_keyvalue : forall f f' buf p, psame f f' -> same (parse_value_keyvalue g f buf p) (parse_value_keyvalue g f' buf p).
  Proof.
    intros f f' buf p F. unfold parse_value_keyvalue. repeat (sm; [apply same_refl|]).
    sm; [|apply same_refl]. apply same_loop. intros [q kvs]. unfold map_body. repeat sm; apply F.
  Qed.

  Lemma same_elements : forall fs fs', Forall2 psame fs fs' -> forall buf p, same (parse_elements fs buf p) (parse_elements fs' buf p).
  Proof.
    intros fs fs' F. induction F as [|f f' r r' H F IH]; intros buf p; cbn [parse_elements]; [apply same_refl|].
    sm; [apply same_refl|]. sm; [apply H|]. destruct a0 as [v q]. sm; [apply same_refl|]. sm; [apply IH|apply same_refl].
  Qed.

  Lemma same_tuple : forall exact fs fs' buf p, Forall2 psame fs fs' -> same (parse_tuple g exact fs buf p) (parse_tuple g exact fs' buf p).
  Proof.
    intros exact fs fs' buf p F. unfold parse_tuple. cbv zeta. repeat (sm; [apply same_refl|]). sm; [now apply same_elements|apply same_refl].
  Qed.

  Definition asame (a a' : option kind * parser) : Prop := fst a' = fst a /\ psame (snd a) (snd a').

  Lemma same_base_map : forall k alts alts', Forall2 asame alts alts' -> forall i,
    match base_map k i alts, base_map k i alts' with
    | Some (n, f), Some (n', f') => n' = n /\ psame f f'
    | None, None => True
    | _, _ => False
    end.
  Proof.
    intros k alts alts' F. induction F as [|[o f] [o' f'] r r' [E H] F IH]; intros i; cbn [base_map]; [exact I|].
    cbn in E, H. subst o'. destruct o as [k'|]; [|apply IH]. destruct (kind_eqb k k'); [now split|apply IH].
  Qed.

  Lemma same_variant_value : forall k alts alts' known buf p, Forall2 asame alts alts' ->
    same (parse_variant_value k alts known buf p) (parse_variant_value k alts' known buf p).
  Proof.
    intros k alts alts' known buf p F. unfold parse_variant_value. pose proof (same_base_map k _ _ F 0%nat) as B.
    destruct (base_map k 0 alts) as [[n f]|], (base_map k 0 alts') as [[n' f']|]; try destruct B; [subst n'|apply same_refl].
    sm; [auto|apply same_refl].
  Qed.

  Lemma same_variant : forall alts alts' known buf p, Forall2 asame alts alts' ->
    same (parse_value_variant alts known buf p) (parse_value_variant alts' known buf p).
  Proof.
    intros alts alts' known buf p F. unfold parse_value_variant. sm; [apply same_refl|]. destruct a; [now apply same_variant_value|].
    sm; [apply same_refl|]. repeat match goal with |- context [if ?b then parse_variant_value _ _ _ _ _ else _] => destruct b; [now apply same_variant_value|] end.
    apply same_refl.
  Qed.

  Lemma same_intrusive : forall tag tag' switch fs fs' buf p, psame tag tag' -> Forall2 psame fs fs' ->
    same (parse_value_variant_intrusive tag switch fs buf p) (parse_value_variant_intrusive tag' switch fs' buf p).
  Proof.
    intros tag tag' switch fs fs' buf p T F. unfold parse_value_variant_intrusive. sm; [apply T|]. destruct a as [v q].
    destruct v; try apply same_refl. destruct vs as [|y [|]]; try apply same_refl. unfold parse_visit.
    assert (N : forall n, match nth_error fs n, nth_error fs' n with Some f, Some f' => psame f f' | None, None => True | _, _ => False end).
    { clear - F. induction F as [|f f' r r' H F IH]; intros [|n]; cbn; auto. apply IH. }
    specialize (N (switch y)). destruct (nth_error fs _), (nth_error fs' _); try destruct N; [|apply same_refl]. sm; [apply N|apply same_refl].
  Qed.

  Lemma same_parse : forall t, psame (parse_value g t) (parse_value_xl g t).
  Proof.
    fix IH 1. intros t known buf p. destruct t as [w rc|w rc| | |t|t|t|exact ms|exact ts|exact kn tk vn tv|k|alts|exact tag t sw alts]; cbn [parse_value parse_value_xl].
    - apply same_refl.
    - apply same_refl.
    - apply same_refl.
    - apply same_refl.
    - apply same_null, IH.
    - apply same_array, IH.
    - apply same_keyvalue, IH.
    - apply same_class. induction ms as [|[n t] r IHr]; cbn [map]; constructor; [repeat split; apply IH|exact IHr].
    - apply same_tuple. induction ts as [|t r IHr]; cbn [map]; constructor; [apply IH|exact IHr].
    - apply same_kv_array, same_class. repeat (apply Forall2_cons; [repeat split; apply IH|]). apply Forall2_nil.
    - apply same_refl.
    - apply same_variant. induction alts as [|t r IHr]; cbn [map]; constructor; [repeat split; apply IH|exact IHr].
    - apply same_intrusive.
      + apply same_class. repeat (apply Forall2_cons; [repeat split; apply IH|]). apply Forall2_nil.
      + induction alts as [|t' r IHr]; cbn [map]; constructor; [apply IH|exact IHr].
  Qed.

  Lemma same_from_json : forall verify t doc, same (from_json g verify t doc) (from_json_xl g verify t doc).
  Proof.
    intros. unfold from_json, from_json_xl. cbv zeta. sm; [apply same_refl|]. sm; [apply same_refl|]. sm; [apply same_parse|apply same_refl].
  Qed.
End Classes.
