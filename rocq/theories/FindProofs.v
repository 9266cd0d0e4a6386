(** find_json_path_stack_to on well-formed text. *)
From Coq Require Import List NArith ZArith Bool Lia Arith ZifyBool ZifyNat ZifyN.
From Verif Require Import Base Mem Loop PolicyModel IntModel StrScanModel SkipModel SpecNum SpecText SpecJson
  SkipProofs SkipSafe PropertiesSkip ValueModel NameProofs ClassProofs ClassProofs2 ArrayProofs JValueModel SpecValue JValueProofs PropertiesTyped PropertiesValue
  SpecPath PathModel EventModel SpecEvent EventProofs UniqueProofs FindModel SpecFind.
Import ListNotations.
Local Open Scope N_scope.

Section Cfg.
  Context (g : cfg).
  Hypothesis HX : c_ex g = ExConstexpr.
  Hypothesis HE : c_excl g = false.
  Context (buf : list N).
  Hypothesis H32 : N.of_nat (length buf) < 2^32.
  Context (loc : nat).

  Notation after := (find_after g buf loc).
  Notation fh := (find_handler g buf loc).

  (** ** The answers *)

  Lemma text_nonempty : forall x t, jtext str_body x t -> (0 < length t)%nat.
  Proof. intros x t HT. destruct (jtext_head _ _ _ HT) as (c & r & -> & _). cbn [length]. lia. Qed.

  Lemma skip_range : forall p x t j, wf buf p -> jtext str_body x t -> sub_at buf (first p) t ->
    followed true buf (first p + length t) j (last p) -> (x = JNull -> (first p + 4 < last p)%nat) ->
    exists r q, skip_val g buf p = Ok (r, q) /\ delimits false x (first p) (first p + length t) r.
  Proof.
    intros p x t j HW HT HS HF HN. pose proof (followed_le _ _ _ _ _ HF) as FL.
    assert (LT : N.of_nat (length t) < 2^32) by (destruct HW as (_ & _ & HL & _); lia).
    destruct (C17_skip_value_partial CNone true ExConstexpr false buf p x t j ltac:(discriminate) HW HT HS LT HF HN) as (r & E & D).
    exists r. eexists. unfold skip_val. rewrite HX, HE. split; [exact E|exact D].
  Qed.

  (** A value that ends before the location is gone by. *)
  Lemma scalar_past : forall s p, text_ends buf loc p -> handle_on_scalar g buf (loc + 1) s p = (s, Continue).
  Proof.
    intros s p (HW & x & t & j & HT & HS & FJ & NV & LE). destruct (skip_range p x t j HW HT HS FJ NV) as (r & q & E & D & _).
    unfold handle_on_scalar. rewrite E. replace (negb (isnull r) && (first r <=? loc + 1)%nat && (loc + 1 <=? last r)%nat) with false; [reflexivity|].
    destruct x; try (replace (loc + 1 <=? last r)%nat with false by lia; now rewrite andb_false_r). rewrite D. reflexivity.
  Qed.

  (** What a value's node is called *)
  Definition called (s : fstate) (n : option (list N)) (k : list N) (i : Z) : Prop :=
    match child_of s with
    | BClass => n = Some k /\ i = (-1)%Z
    | BArray => k = [] /\ i = (f_index (f_state s) + 1)%Z
    | _ => k = [] /\ i = (-1)%Z
    end.

  Lemma value_enters : forall s n p v k i, value_at buf v p -> (first p <= loc)%nat -> called s n k i ->
    handle_on_value buf (loc + 1) s n p = (mkfstate (f_stack s) None (mkfnode k (Some (first p)) i (kind_of v)) (f_bad s), Continue).
  Proof.
    intros s n p v k i HV L C. unfold handle_on_value. pose proof (C36_type_partial buf H32 _ _ HV) as JT.
    destruct HV as (HW & t & j & HT & HS & FJ & _). pose proof (followed_le _ _ _ _ _ FJ) as FL. pose proof (text_nonempty _ _ HT) as NT.
    replace (has_more p) with true by (unfold has_more; lia). replace (loc + 1 <=? first p)%nat with false by lia. cbn [negb orb].
    rewrite JT. unfold called in C. destruct (child_of s); destruct C as [C1 C2]; subst; reflexivity.
  Qed.

  (** ** Going by a value *)

  Definition same_place (s s' : fstate) : Prop := f_stack s' = f_stack s /\ f_bad s' = f_bad s.

  Definition goes_by (v : jv) : Prop := forall n past all k i, Forall2 (reports buf) all (walk n v) -> Forall (ends_by buf loc) all ->
    called (after past) n k i ->
    first_stop fh past all = None /\ same_place (after past) (after (rev all ++ past)) /\
    f_name (f_state (after (rev all ++ past))) = k /\ f_index (f_state (after (rev all ++ past))) = i.

  Lemma step_go : forall past e s, find_step g buf loc (after past) e = (s, Continue) -> goes_on (fh (e :: past)) e = true /\ after (e :: past) = s.
  Proof. intros past e s E. unfold find_handler. cbn [find_after]. rewrite E. split; [destruct e; reflexivity|reflexivity]. Qed.

  Lemma members_by : forall k ms, (forall m, In m ms -> goes_by (snd m)) -> match k with KArray => Forall (fun m => fst m = None) ms | KClass => Forall (fun m => exists x, fst m = Some x) ms end ->
    forall past all, Forall2 (reports buf) all (flat_map (fun m => walk (fst m) (snd m)) ms) -> Forall (ends_by buf loc) all ->
    child_of (after past) = (match k with KArray => BArray | KClass => BClass end) ->
    first_stop fh past all = None /\ same_place (after past) (after (rev all ++ past)) /\
    (k = KArray -> f_index (f_state (after (rev all ++ past))) = (f_index (f_state (after past)) + Z.of_nat (length ms))%Z).
  Proof.
    intros k ms. induction ms as [|[n v] ms IH]; intros GB NM past all F2 EB CH; cbn [flat_map fst snd] in F2.
    - inversion F2; subst. cbn [first_stop rev app length]. split; [reflexivity|]. split; [split; reflexivity|]. intros _. lia.
    - apply Forall2_app_inv_r in F2 as (a1 & a2 & F1 & F2 & ->). apply Forall_app in EB as [E1 E2].
      assert (CA : exists nm i, called (after past) n nm i /\ (k = KArray -> i = (f_index (f_state (after past)) + 1)%Z)).
      { unfold called. rewrite CH. destruct k; apply Forall_inv in NM; cbn [fst] in NM.
        - destruct NM as (x & ->). exists x, (-1)%Z. split; [split; reflexivity|discriminate].
        - exists [], (f_index (f_state (after past)) + 1)%Z. split; [split; reflexivity|reflexivity]. }
      destruct CA as (nm & i & CA & CI). destruct (GB (n, v) ltac:(now left) n past a1 nm i F1 E1 CA) as (FS & [SP SB] & EN & EI). cbn [snd] in *.
      destruct (IH ltac:(intros m HM; apply GB; now right) ltac:(destruct k; now apply Forall_inv_tail in NM) (rev a1 ++ past) a2 F2 E2) as (FS2 & [SP2 SB2] & EI2).
      { unfold child_of in *. rewrite SP. exact CH. }
      rewrite first_stop_app, FS. rewrite rev_app_distr, <- app_assoc. split; [exact FS2|]. split; [split; congruence|].
      intros HK. rewrite (EI2 HK), EI, (CI HK). cbn [length]. lia.
  Qed.

  Lemma members_kind : forall v, container v -> match v with JArr _ => Forall (fun m => fst m = None) (members v) | _ => Forall (fun m : option (list N) * jv => exists x, fst m = Some x) (members v) end.
  Proof.
    intros [| | | | |es|js] H; try contradiction; cbn [members]; apply Forall_forall; intros m HM; apply in_map_iff in HM as (x & <- & _); [reflexivity|]. eexists. reflexivity.
  Qed.

  Theorem every_value_by : forall v, goes_by v.
  Proof.
    intros v. remember (turns v) as N0 eqn:EN. revert v EN. induction N0 as [N0 IHN] using lt_wf_ind. intros v -> n past all k i F2 EB CA.
    assert (VS : forall e p, reports buf (EValue n p) (HValue n v) -> ends_by buf loc (EValue n p) -> e = EValue n p ->
      find_step g buf loc (after past) e = (mkfstate (f_stack (after past)) None (mkfnode k (Some (first p)) i (kind_of v)) (f_bad (after past)), Continue)).
    { intros e p [_ HV] TE ->. cbn [find_step]. apply value_enters; auto. destruct TE as (_ & x & t & j & _ & _ & _ & _ & L). lia. }
    assert (CASES : container v \/ walk n v = [HValue n v; HScalar v]) by (destruct v; auto; left; exact I). destruct CASES as [HC|EW].
    - rewrite (walk_container n v HC) in F2. inversion F2 as [|e1 x1 l1 r1 R1 F2' E1 E1']; subst. inversion F2' as [|e2 x2 l2 r2 R2 F3 E2 E2']; subst.
      apply Forall2_app_inv_r in F3 as (a3 & a4 & F3 & F4 & ->). inversion F4 as [|e4 x4 l4 r4 R4 F5 E4 E4']; subst. inversion F5; subst.
      apply Forall_cons_iff in EB as [B1 EB]. apply Forall_cons_iff in EB as [B2 EB]. apply Forall_app in EB as [B3 _].
      destruct e1 as [n1 p1| | | | | | | | |]; try contradiction. assert (n1 = n) by (now destruct R1). subst n1.
      destruct (step_go past (EValue n p1) _ (VS _ p1 R1 B1 eq_refl)) as [G1 A1].
      assert (S2 : find_step g buf loc (after (EValue n p1 :: past)) e2 = (handle_on_start (after (EValue n p1 :: past)), Continue)).
      { destruct v as [| | | | |es|js]; try contradiction; destruct e2; try contradiction; reflexivity. }
      destruct (step_go _ e2 _ S2) as [G2 A2]. set (past2 := e2 :: EValue n p1 :: past) in *.
      assert (ST2 : f_stack (after past2) = mkfnode k (Some (first p1)) i (kind_of v) :: f_stack (after past) /\ f_bad (after past2) = f_bad (after past)).
      { rewrite A2, A1. split; reflexivity. }
      destruct ST2 as [ST2 SB2]. set (kd := match v with JArr _ => KArray | _ => KClass end).
      destruct (members_by kd (members v)) with (past := past2) (all := a3) as (G3 & [ST3 SB3] & _); auto.
      { intros m HM. apply (IHN (turns (snd m))); [now apply (member_smaller g buf H32)|reflexivity]. }
      { pose proof (members_kind v HC) as MK. unfold kd. destruct v; try contradiction; exact MK. }
      { unfold child_of. rewrite ST2. unfold kd. destruct v; try contradiction; reflexivity. }
      assert (S4 : find_step g buf loc (after (rev a3 ++ past2)) e4 = (handle_on_end (after (rev a3 ++ past2)), Continue)).
      { destruct v as [| | | | |es|js]; try contradiction; destruct e4; try contradiction; reflexivity. }
      destruct (step_go _ e4 _ S4) as [G4 A4].
      replace (rev (EValue n p1 :: e2 :: a3 ++ [e4]) ++ past) with (e4 :: rev a3 ++ past2).
      2:{ cbn [rev]. rewrite rev_app_distr. cbn [rev app]. rewrite <- !app_assoc. reflexivity. }
      cbn [first_stop]. rewrite G1. change (e2 :: EValue n p1 :: past) with past2. rewrite G2. rewrite first_stop_app, G3. cbn [first_stop]. rewrite G4. rewrite A4. unfold handle_on_end. rewrite ST3, ST2.
      split; [reflexivity|]. split; [split; [reflexivity|cbn [f_bad]; congruence]|]. split; reflexivity.
    - rewrite EW in F2. inversion F2 as [|e1 x1 l1 r1 R1 F2' E1 E1']; subst. inversion F2' as [|e2 x2 l2 r2 R2 F3 E2 E2']; subst. inversion F3; subst.
      apply Forall_cons_iff in EB as [B1 EB]. apply Forall_cons_iff in EB as [B2 _].
      destruct e1 as [n1 p1| | | | | | | | |]; try contradiction. assert (n1 = n) by (now destruct R1). subst n1.
      destruct (step_go past (EValue n p1) _ (VS _ p1 R1 B1 eq_refl)) as [G1 A1].
      assert (S2 : find_step g buf loc (after (EValue n p1 :: past)) e2 = (after (EValue n p1 :: past), Continue)).
      { destruct v; destruct e2; try contradiction; cbn [find_step ends_by] in *; now apply scalar_past. }
      destruct (step_go _ e2 _ S2) as [G2 A2]. cbn [first_stop rev app]. rewrite G1, G2, A2, A1. repeat split.
  Qed.

  (** ** Stopping at the value *)

  (** The answer for a scalar the location is in: its closing quote is not part of a
      string's range. *)
  Definition hit (v : jv) (i : nat) (t : list N) : Prop :=
    match v with
    | JStr _ => (i <= loc /\ loc + 1 < i + length t)%nat
    | JTrue | JFalse | JNum _ => (i <= loc < i + length t)%nat
    | _ => False
    end.

  Lemma scalar_hit : forall s p v t j, wf buf p -> jtext str_body v t -> sub_at buf (first p) t ->
    followed true buf (first p + length t) j (last p) -> (v = JNull -> (first p + 4 < last p)%nat) -> hit v (first p) t ->
    handle_on_scalar g buf (loc + 1) s p = (mkfstate (f_state s :: f_stack s) (f_popped s) (f_state s) (f_bad s), Complete).
  Proof.
    intros s p v t j HW HT HS FJ NV HH. destruct (skip_range p v t j HW HT HS FJ NV) as (r & q & E & D & _).
    assert (NI : isnull r = false).
    { destruct (skip_here g HX HE buf p v t j HW H32 HT HS FJ NV) as (r' & q' & E' & _ & _ & _ & NN). rewrite E in E'. injection E' as <- <-.
      apply NN. intros ->. contradiction. }
    unfold handle_on_scalar. rewrite E, NI. destruct v; cbn [hit] in HH; try contradiction;
      (replace (negb false && (first r <=? loc + 1)%nat && (loc + 1 <=? last r)%nat) with true by (destruct D; lia)); reflexivity.
  Qed.

  (** The run from here ends at the value: the handler has put the nodes of the path on
      its stack. *)
  Definition ends_at (past : list event) (k : list N) (i : Z) (path : list step) (at_ : nat) (w : jv) (run : nat -> est * res unit) : Prop :=
    exists enough, forall fuel, (enough <= fuel)%nat -> exists s' o, run fuel = (s', o) /\ (o = Ok tt \/ exists e, o = Err e) /\
      f_popped (after (calls s')) = None /\ f_bad (after (calls s')) = f_bad (after past) /\
      exists nodes last_node, f_stack (after (calls s')) = last_node :: rev nodes ++ f_stack (after past) /\
        map (fun n => mknode (f_name n) (f_index n)) (nodes ++ [last_node]) = mknode k i :: map (fun s => match s with SName x => mknode x (-1) | SIndex x => mknode [] (Z.of_nat x) end) path /\
        f_start last_node = Some at_ /\ f_type last_node = kind_of w.

  Lemma ends_more : forall past k i path at_ w run run' d, ends_at past k i path at_ w run -> (forall fuel, run' (d + fuel)%nat = run fuel) -> ends_at past k i path at_ w run'.
  Proof.
    intros past k i path at_ w run run' d (enough & H) E. exists (d + enough)%nat. intros fuel L. destruct (H (fuel - d)%nat ltac:(lia)) as (s' & o & ER & R).
    exists s', o. split; [|exact R]. rewrite <- E in ER. now replace (d + (fuel - d))%nat with fuel in ER by lia.
  Qed.

  (** ** Where the iterator goes *)

  Lemma ws_same : forall w i c w' c', ws w -> ws w' -> sub_at buf i (w ++ [c]) -> sub_at buf i (w' ++ [c']) -> ~ json_ws c -> ~ json_ws c' -> w = w'.
  Proof.
    clear. induction w as [|x w IH]; intros i c [|y w'] c' W W' A A' C C'; cbn [app sub_at] in *; [reflexivity| | |]; destruct A as [A1 A2], A' as [A1' A2'].
    - apply Forall_inv in W'. assert (c = y) by congruence. subst. contradiction.
    - apply Forall_inv in W. assert (x = c') by congruence. subst. contradiction.
    - assert (x = y) by congruence. subst. f_equal. apply (IH (S i) c w' c'); auto; [now apply Forall_inv_tail in W|now apply Forall_inv_tail in W'].
  Qed.

  Lemma text_same : forall v i t w c t' w' c', jtext str_body v t -> jtext str_body v t' -> ws w -> ws w' -> closer c -> closer c' ->
    sub_at buf i (t ++ w ++ [c]) -> sub_at buf i (t' ++ w' ++ [c']) -> t = t'.
  Proof.
    clear. intros v i t w c t' w' c' HT HT' W W' C C' A A'.
    assert (L : (i <= length buf)%nat).
    { pose proof (sub_at_length _ _ _ A) as X. assert (t ++ w ++ [c] <> []) by (destruct t, w; discriminate). specialize (X H). lia. }
    destruct (sub_at_split _ _ _ A L) as (pre & post & EB & EL). destruct (sub_at_split _ _ _ A' L) as (pre' & post' & EB' & EL').
    assert (E : (t ++ w ++ [c]) ++ post = (t' ++ w' ++ [c']) ++ post').
    { rewrite EB in EB'. assert (pre = pre') as <-; [|now apply app_inv_head in EB'].
      transitivity (firstn i (pre ++ (t ++ w ++ [c]) ++ post)); [|rewrite EB']; rewrite firstn_app; [rewrite EL|rewrite EL']; rewrite Nat.sub_diag; cbn [firstn];
        rewrite app_nil_r; [symmetry; apply firstn_all2; lia|apply firstn_all2; lia]. }
    rewrite <- !app_assoc in E. destruct (proj1 jtext_unique v t HT v t' _ _ HT' (stop_ws w c post W C) (stop_ws w' c' post' W' C') E) as [_ ER].
    cbn [app] in E. rewrite ER in E. now apply app_inv_tail in E.
  Qed.

  (** The move from one element to the next, with the text between them known *)
  Lemma move_exact : forall q i w1 w2 c, is_bytes buf -> (i <= first q <= i + length w1)%nat -> ws w1 -> ws w2 -> sub_at buf i (w1 ++ 44 :: w2 ++ [c]) -> 32 < c ->
    (i + length w1 + 1 + length w2 <= last q)%nat -> move_next buf q = Ok (set_first q (i + length w1 + 1 + length w2)).
  Proof.
    clear. intros q i w1 w2 c HB L W1 W2 A C LL. unfold move_next, move_next_member_or_end, move_next_member_or_end_checked.
    apply sub_at_app in A as [A1 [A2 A3]].
    assert (T1 : trim_left_checked buf q = Ok (set_first q (i + length w1))).
    { rewrite (trim_to buf q (skipn (first q - i) w1) 44); auto; try lia.
      - rewrite skipn_length. do 2 f_equal. lia.
      - unfold ws in *. apply Forall_forall. intros y Hy. rewrite Forall_forall in W1. apply W1. rewrite <- (firstn_skipn (first q - i) w1). apply in_or_app. now right.
      - rewrite <- (firstn_skipn (first q - i) w1) in A1. apply sub_at_app in A1 as [_ A1]. rewrite firstn_length in A1.
        replace (i + Nat.min (first q - i) (length w1))%nat with (first q) in A1 by lia. apply sub_at_app. split; [exact A1|]. rewrite skipn_length. cbn [sub_at]. split; [|exact I].
        now replace (first q + (length w1 - (first q - i)))%nat with (i + length w1)%nat by lia.
      - rewrite skipn_length. lia. }
    rewrite T1. cbn [bind]. rewrite is_at_yes by (cbn [first last set_first]; auto; lia). cbn [bind]. unfold remove_prefix. cbn [first set_first].
    rewrite (trim_to buf _ w2 c); [reflexivity|exact HB|exact W2| |exact C|cbn [first last set_first]; lia]. cbn [first set_first]. now replace (i + length w1 + 1)%nat with (S (i + length w1)) by lia.
  Qed.

  Lemma next_elem : forall p e c v x rest t w1 w2 b, it_in g buf p e (map unnamed (v :: x :: rest)) -> cfirst p = Some c -> nth_error buf c = Some 91 ->
    jtext str_body v t -> ws w1 -> ws w2 -> sub_at buf (first p) (t ++ w1 ++ 44 :: w2 ++ [b]) -> 32 < b ->
    exists q j, it_next g buf p = Ok q /\ it_in g buf q e (map unnamed (x :: rest)) /\ cfirst q = Some c /\ first q = (first p + length (t ++ w1 ++ 44%N :: w2))%nat /\
      it_deref g buf p = Ok (None, restated p) /\ wf buf p /\ followed true buf (first p + length t) j (last p) /\ (v = JNull -> (first p + 4 < last p)%nat).
  Proof.
    intros p e c v x rest t w1 w2 b HI CF CB HT W1 W2 A HB.
    destruct (in_next g HX HE buf H32 p e _ _ HI) as (q & EN & HQ & _ & _ & CQ).
    remember (map unnamed (v :: x :: rest)) as all eqn:EA. destruct HI as [c' ms HW L CF' CB' HA FN|c' es HW L CF' CB' HA].
    { assert (c' = c) by congruence. subst. rewrite CB in CB'. discriminate. }
    assert (EE : es = v :: x :: rest).
    { clear - EA. revert es EA. generalize (v :: x :: rest) as l. induction l as [|y l IH]; intros [|z es] E; try discriminate; [reflexivity|]. cbn in E. injection E as <- E. f_equal. now apply IH. }
    subst es. destruct (at_elem_cons _ _ _ _ _ HA) as (t' & HT' & HS' & HR).
    pose proof HR as (w' & tm & W' & HM & SM & EE').
    destruct (jelems_strip _ _ HM) as (w2' & c2 & tm' & W2' & ETM & HM' & C2).
    pose proof A as A0. apply sub_at_app in A0 as [A1 A0]. apply sub_at_app in A0 as [A2 [A3 A4]]. apply sub_at_app in SM as [S1 [S2 S3]].
    assert (ET : t = t').
    { apply (text_same v (first p) t w1 44 t' w' 44); auto; unfold closer; auto.
      - apply sub_at_app. split; [exact A1|]. apply sub_at_app. split; [exact A2|]. split; [exact A3|exact I].
      - apply sub_at_app. split; [exact HS'|]. apply sub_at_app. split; [exact S1|]. split; [exact S2|exact I]. }
    subst t'. assert (EW : w1 = w').
    { apply (ws_same w1 (first p + length t) 44 w' 44); auto; try (unfold json_ws; lia); (apply sub_at_app; split; [|split; [|exact I]]); auto. }
    subst w'. rewrite ETM in S3. rewrite <- app_assoc in S3. apply sub_at_app in S3 as [S3 [S4 _]].
    apply sub_at_app in A4 as [A4 [A5 _]].
    assert (EW2 : w2 = w2').
    { apply (ws_same w2 (S (first p + length t + length w1)) b w2' c2); auto; try (unfold json_ws; lia); try (apply sub_at_app; split; [|split; [|exact I]]); auto.
      unfold starter in C2. unfold json_ws. lia. }
    subst w2'. assert (LE : (first p + length t + length w1 + 1 + length w2 < e)%nat) by (rewrite EE', ETM, app_length; cbn [length]; lia).
    assert (FJ : followed true buf (first p + length t) (first p + length t + length w1) (last p)).
    { exists w1. repeat split; auto; [lia|]. right. split; [lia|]. exists 44. split; [exact A3|unfold closer; auto]. }
    assert (NV : v = JNull -> (first p + 4 < last p)%nat) by (intros ->; inversion HT; subst; cbn [length] in *; lia).
    exists q, (first p + length t + length w1)%nat. split; [exact EN|]. split; [exact HQ|]. split; [congruence|]. split.
    - pose proof (it_good g buf H32 p _ (in_at g buf p e (map unnamed (v :: x :: rest)) (ii_array g buf p e c' _ HW L CF' CB' HA))) as GD. cbn iota in GD. unfold it_next in EN. rewrite GD in EN. cbn [bind map] in EN.
      unfold class_is in EN. rewrite CF, (rd_some _ _ _ CB) in EN. cbn [bind] in EN. change (91 =? c_lbrace) with false in EN. cbn [bind] in EN.
      destruct (skip_here g HX HE buf p v t _ HW H32 HT HS' FJ NV) as (r & q1 & ES & MQ & LQ & _ & _). rewrite ES in EN. cbn [bind] in EN.
      rewrite (move_exact q1 (first p + length t) w1 w2 b) in EN; auto; [|apply HW| |].
      + injection EN as <-. cbn [first set_first]. rewrite !app_length. cbn [length]. lia.
      + apply sub_at_app. split; [exact A2|]. split; [exact A3|]. apply sub_at_app. split; [exact A4|]. split; [exact A5|exact I].
      + assert (last q1 = last p) by apply MQ. lia.
    - split; [|split; [exact HW|split; [exact FJ|exact NV]]].
      unfold it_deref, class_is. rewrite CF, (rd_some _ _ _ CB). cbn [bind]. change (91 =? c_lbrack) with true. cbn iota.
      destruct (jtext_head _ _ _ HT) as (c0 & r & ET & ST). unfold jvalue. rewrite restate_ok by apply HW.
      rewrite (trim_here buf _ c0); [reflexivity|apply HW|cbn [first restated]; subst t; apply HS'|apply ST].
  Qed.

  Lemma deref_elem : forall p e c x rest, it_in g buf p e (map unnamed (x :: rest)) -> cfirst p = Some c -> nth_error buf c = Some 91 ->
    exists t j, it_deref g buf p = Ok (None, restated p) /\ wf buf (restated p) /\ jtext str_body x t /\ sub_at buf (first p) t /\
      followed true buf (first p + length t) j (last p) /\ (x = JNull -> (first p + 4 < last p)%nat).
  Proof.
    intros p e c x rest HI CF CB. destruct (in_deref g HX HE buf H32 p e None x _ HI) as (r & t & j & ED & HW & HT & HS & FJ & NV & _).
    assert (W0 : wf buf p) by (destruct HI; auto). assert (BY : exists b, nth_error buf (first p) = Some b /\ 32 < b).
    { remember (map unnamed (x :: rest)) as all eqn:EA. destruct HI as [c' ms _ L CF' CB' HA FN|c' es _ L CF' CB' HA].
      - assert (c' = c) by congruence. subst. rewrite CB in CB'. discriminate.
      - destruct es as [|y es]; [discriminate|]. destruct (at_elem_byte _ _ _ _ HA) as (b & Hb & SB). exists b. split; [exact Hb|]. unfold starter in SB. lia. }
    destruct BY as (b & Hb & B32).
    assert (E : it_deref g buf p = Ok (None, restated p)).
    { unfold it_deref, class_is. rewrite CF, (rd_some _ _ _ CB). cbn [bind]. change (91 =? c_lbrack) with true. cbn iota. unfold jvalue. rewrite restate_ok by apply W0.
      rewrite (trim_here buf _ b); auto. apply W0. }
    rewrite E in ED. injection ED as <-. exists t, j. split; [exact E|]. auto.
  Qed.

  (** The same for members *)
  Lemma name_exact : forall p e c k v rest w1 w2 b, it_in g buf p e (map named ((k, v) :: rest)) -> cfirst p = Some c -> nth_error buf c = Some 123 ->
    ws w1 -> ws w2 -> sub_at buf (first p) (34 :: k ++ 34 :: w1 ++ 58 :: w2 ++ [b]) -> 32 < b ->
    exists t j, let i := (first p + length (34%N :: k ++ 34%N :: w1 ++ 58%N :: w2))%nat in
      parse_name g buf p = Ok (k, set_first p i) /\ wf buf (set_first p i) /\ jtext str_body v t /\ sub_at buf i t /\ followed true buf (i + length t) j (last p) /\
      (v = JNull -> (i + 4 < last p)%nat) /\ rem buf (i + length t) e rest /\ it_deref g buf p = Ok (Some k, restated (set_first p i)) /\ (e < last p)%nat.
  Proof.
    intros p e c k v rest w1 w2 b HI CF CB W1 W2 A HB. remember (map named ((k, v) :: rest)) as all eqn:EA. destruct HI as [c' ms HW L CF' CB' HA FN|c' es HW L CF' CB' HA].
    2:{ assert (c' = c) by congruence. subst. rewrite CB in CB'. discriminate. }
    assert (EE : ms = (k, v) :: rest).
    { clear - EA. revert ms EA. generalize ((k, v) :: rest) as l. induction l as [|[y1 y2] l IH]; intros [|[z1 z2] es] E; try discriminate; [reflexivity|]. cbn in E. injection E as -> -> E. f_equal. now apply IH. }
    subst ms. apply Forall_inv in FN. cbn [fst] in FN.
    destruct (at_member_cons _ _ _ _ _ _ HA) as (w1' & w2' & t & SK & W1' & W2' & HT & HS & HR).
    destruct (jtext_head _ _ _ HT) as (h & r & ET & ST).
    pose proof A as [A1 A2]. apply sub_at_app in A2 as [A2 [A3 A4]]. apply sub_at_app in A4 as [A4 [A5 A6]].
    pose proof HS as [S1 S2]. apply sub_at_app in S2 as [S2 [S3 S4]]. apply sub_at_app in S4 as [S4 [S5 S6]].
    assert (EW : w1 = w1').
    { apply (ws_same w1 (S (S (first p) + length k)) 58 w1' 58); auto; try (unfold json_ws; lia); (apply sub_at_app; split; [|split; [|exact I]]); auto. }
    subst w1'. apply sub_at_app in S6 as [S6 S7].
    assert (EW2 : w2 = w2').
    { apply (ws_same w2 (S (S (S (first p) + length k) + length w1)) b w2' h); auto; try (unfold json_ws; lia).
      - apply sub_at_app. split; [exact S6|]. split; [|exact I]. rewrite ET in S7. apply S7.
      - unfold starter in ST. unfold json_ws. lia. }
    subst w2'. set (i := (first p + length (34%N :: k ++ 34%N :: w1 ++ 58%N :: w2))%nat).
    assert (EI : i = (first p + length k + length w1 + length w2 + 3)%nat) by (unfold i; cbn [length]; rewrite !app_length; cbn [length]; rewrite app_length; cbn [length]; lia).
    rewrite <- EI in HR.
    destruct (rem_followed _ _ _ _ (last p) HR L) as (j & FJ & JE & RJ). pose proof (followed_le _ _ _ _ _ FJ) as FL.
    assert (ST' : sub_at buf i t) by (replace i with (S (S (S (first p) + length k) + length w1) + length w2)%nat by lia; exact S7).
    assert (NV : v = JNull -> (i + 4 < last p)%nat).
    { intros EV. assert (length t = 4%nat) by (clear - HT EV; subst v; inversion HT; reflexivity). lia. }
    assert (PN : parse_name g buf p = Ok (k, set_first p i)).
    { rewrite EI. apply parse_name_ok with (c := b); auto; try lia. pose proof (sub_at_length _ _ _ A ltac:(discriminate)) as X. cbn [length] in X. rewrite app_length in X. lia. }
    assert (WI : wf buf (set_first p i)) by (apply (moved_wf buf p); auto; [apply moved_first|cbn [first last set_first]; lia]).
    exists t, j. cbv zeta. split; [exact PN|]. split; [exact WI|]. split; [exact HT|]. split; [exact ST'|]. split; [exact FJ|]. split; [exact NV|]. split; [exact HR|]. split; [|exact L].
    unfold it_deref, class_is. rewrite CF, (rd_some _ _ _ CB). cbn [bind]. change (123 =? c_lbrack) with false. cbn iota. rewrite PN. cbn [bind].
    unfold jvalue. rewrite restate_ok by apply HW. rewrite (trim_here buf _ h); [reflexivity|apply HW|cbn [first restated set_first]; rewrite ET in ST'; apply ST'|apply ST].
  Qed.

  Lemma next_member : forall p e c k v x rest t w1 w2 w3 w4, it_in g buf p e (map named ((k, v) :: x :: rest)) -> cfirst p = Some c -> nth_error buf c = Some 123 ->
    jtext str_body v t -> ws w1 -> ws w2 -> ws w3 -> ws w4 -> sub_at buf (first p) ((34 :: k ++ 34 :: w1 ++ 58 :: w2) ++ t ++ w3 ++ 44 :: w4 ++ [34]) ->
    exists q j, let i := (first p + length (34%N :: k ++ 34%N :: w1 ++ 58%N :: w2))%nat in
      it_next g buf p = Ok q /\ it_in g buf q e (map named (x :: rest)) /\ cfirst q = Some c /\ first q = (i + length (t ++ w3 ++ 44%N :: w4))%nat /\
      it_deref g buf p = Ok (Some k, restated (set_first p i)) /\ wf buf (set_first p i) /\ sub_at buf i t /\ followed true buf (i + length t) j (last p) /\ (v = JNull -> (i + 4 < last p)%nat).
  Proof.
    intros p e c k v x rest t w1 w2 w3 w4 HI CF CB HT W1 W2 W3 W4 A.
    destruct (in_next g HX HE buf H32 p e _ _ HI) as (q & EN & HQ & _ & _ & CQ).
    pose proof (it_good g buf H32 p _ (in_at g buf p e _ HI)) as GD. cbn [map] in GD. cbn iota in GD.
    apply sub_at_app in A as [A0 A]. destruct (jtext_head _ _ _ HT) as (h & hr & EH & SH).
    destruct (name_exact p e c k v (x :: rest) w1 w2 h HI CF CB W1 W2) as (t' & j' & PN & WI & HT' & ST' & FJ' & NV & HR & ED & LL).
    { change (34 :: k ++ 34 :: w1 ++ 58 :: w2 ++ [h]) with ((34 :: k) ++ (34 :: w1) ++ (58 :: w2) ++ [h]).
      replace ((34 :: k) ++ (34 :: w1) ++ (58 :: w2) ++ [h]) with ((34 :: k ++ 34 :: w1 ++ 58 :: w2) ++ [h]) by (cbn [app]; repeat (rewrite <- ?app_assoc; cbn [app]); reflexivity).
      apply sub_at_app. split; [exact A0|]. rewrite EH in A. split; [apply A|exact I]. }
    { apply SH. }
    set (i := (first p + length (34%N :: k ++ 34%N :: w1 ++ 58%N :: w2))%nat) in *.
    pose proof A as A1. apply sub_at_app in A1 as [A1 A2]. apply sub_at_app in A2 as [A2 [A3 A4]].
    pose proof HR as (w' & tm & W' & HM & SM & EE'). apply sub_at_app in SM as [S1 [S2 S3]].
    assert (ET : t = t').
    { apply (text_same v i t w3 44 t' w' 44); auto; unfold closer; auto.
      - apply sub_at_app. split; [exact A1|]. apply sub_at_app. split; [exact A2|]. split; [exact A3|exact I].
      - apply sub_at_app. split; [exact ST'|]. apply sub_at_app. split; [exact S1|]. split; [exact S2|exact I]. }
    subst t'. assert (EW : w3 = w').
    { apply (ws_same w3 (i + length t) 44 w' 44); auto; try (unfold json_ws; lia); (apply sub_at_app; split; [|split; [|exact I]]); auto. }
    subst w'. destruct (jmembers_strip _ _ HM) as (w4' & tm' & W4' & ETM & HM' & C2). rewrite ETM in S3. rewrite <- app_assoc in S3. apply sub_at_app in S3 as [S3 S4].
    destruct tm' as [|z tm']; [discriminate|]. cbn in C2. injection C2 as ->. destruct S4 as [S4 _].
    apply sub_at_app in A4 as [A4 [A5 _]].
    assert (EW2 : w4 = w4').
    { apply (ws_same w4 (S (i + length t + length w3)) 34 w4' 34); auto; try (unfold json_ws; lia); (apply sub_at_app; split; [|split; [|exact I]]); auto. }
    subst w4'. assert (LE : (i + length t + length w3 + 1 + length w4 < e)%nat) by (rewrite EE', ETM, app_length; cbn [length]; lia).
    assert (FJ : followed true buf (i + length t) (i + length t + length w3) (last p)).
    { exists w3. repeat split; auto; [lia|]. right. split; [lia|]. exists 44. split; [exact A3|unfold closer; auto]. }
    exists q, (i + length t + length w3)%nat. cbv zeta. split; [exact EN|]. split; [exact HQ|]. split; [congruence|]. split; [|split; [exact ED|split; [exact WI|split; [exact ST'|split; [exact FJ|exact NV]]]]].
    unfold it_next in EN. rewrite GD in EN. cbn [bind] in EN.
    unfold class_is in EN. rewrite CF, (rd_some _ _ _ CB) in EN. cbn [bind] in EN. change (123 =? c_lbrace) with true in EN. cbn iota in EN. rewrite PN in EN. cbn [bind] in EN.
    destruct (skip_here g HX HE buf (set_first p i) v t (i + length t + length w3) WI H32 HT ST' FJ NV) as (r & q1 & ES & MQ & LQ & _ & _). rewrite ES in EN. cbn [bind first set_first] in EN, LQ.
    rewrite (move_exact q1 (i + length t) w3 w4 34) in EN.
    - injection EN as <-. cbn [first set_first]. rewrite !app_length. cbn [length]. lia.
    - apply WI.
    - lia.
    - exact W3.
    - exact W4.
    - apply sub_at_app. split; [exact A2|]. split; [exact A3|]. apply sub_at_app. split; [exact A4|]. split; [exact A5|exact I].
    - lia.
    - assert (last q1 = last p) by apply MQ. lia.
  Qed.

  (** ** From one member to the next *)

  Lemma step_in : forall h k p e m rest n r q s rst, it_in g buf p e (m :: rest) -> it_deref g buf p = Ok (n, r) -> it_next g buf p = Ok q -> stack s = (k, p) :: rst ->
    forall fu, events_loop (S fu) g h buf s = resume g buf fu h (process_value h buf (set_stack s ((k, q) :: rst)) n r).
  Proof.
    intros h k p e m rest n r q s rst HI ED EN ES fu. pose proof (it_stop g buf H32 _ _ (in_at g buf p e _ HI)) as ST. cbn iota in ST.
    cbn [events_loop]. rewrite ES. unfold process_range. rewrite ST. cbn [lift negb]. rewrite ED. cbn [lift]. rewrite EN. cbn [lift fst snd]. reflexivity.
  Qed.

  Lemma sibling_by : forall k p e m rest n r q v t j s rst nm ix, it_in g buf p e (m :: rest) -> it_deref g buf p = Ok (n, r) -> it_next g buf p = Ok q ->
    wf buf r -> jtext str_body v t -> sub_at buf (first r) t -> followed true buf (first r + length t) j (last r) -> (v = JNull -> (first r + 4 < last r)%nat) ->
    (forall w, inside w v -> names_ok g w) -> (first r + length t <= loc)%nat -> level s -> stack s = (k, p) :: rst -> called (after (calls s)) n nm ix ->
    exists s2, level s2 /\ stack s2 = (k, q) :: rst /\ same_place (after (calls s)) (after (calls s2)) /\ f_index (f_state (after (calls s2))) = ix /\
      forall fuel, events_loop (S (turns v) + fuel) g fh buf s = events_loop fuel g fh buf s2.
  Proof.
    intros k p e m rest n r q v t j s rst nm ix HI ED EN HW HT HS FJ NV NM LE LV ES CA.
    destruct (every_value_runs g HX HE buf H32 v r n t j HW HT HS FJ NV NM) as (all & [WA OA] & FA & RA).
    assert (FB : Forall (ends_by buf loc) all) by (eapply Forall_impl; [|exact FA]; intros x; now apply ends_by_le).
    destruct (every_value_by v n (calls s) all nm ix WA FB CA) as (FS & SP & _ & IX).
    set (s1 := set_stack s ((k, q) :: rst)). pose proof LV as (A & B & C & D).
    assert (LV1 : level s1). { unfold s1. repeat split; auto. cbn [stack calls set_stack]. rewrite ES in D. exact D. }
    exists (mkest (rev all ++ calls s1) (stack s1) (class_depth s1) (array_depth s1)). cbn [calls stack]. change (calls s1) with (calls s) in *.
    split; [|split; [reflexivity|split; [exact SP|split; [exact IX|]]]].
    - destruct LV1 as (A1 & B1 & C1 & D1). repeat split; cbn [class_depth array_depth calls stack]; auto; rewrite open_now_app, OA; assumption.
    - intros fuel. cbn [Nat.add]. rewrite (step_in fh k p e m rest n r q s rst HI ED EN ES). fold s1. specialize (RA fh s1 LV1 fuel). change (calls s1) with (calls s) in RA. rewrite FS in RA. exact RA.
  Qed.

  Lemma lead_head : forall a r x tx, lead_elems a r -> jtext str_body x tx -> exists b z, r ++ tx = b :: z /\ 32 < b.
  Proof.
    intros a r x tx H HT. destruct H as [|v t w1 w2 vs r HV _ _ _].
    - destruct (jtext_head _ _ _ HT) as (c & z & -> & ST). exists c, z. split; [reflexivity|apply ST].
    - destruct (jtext_head _ _ _ HV) as (c & z & -> & ST). eexists c, _. split; [reflexivity|apply ST].
  Qed.

  Lemma head_at : forall i (l : list N) b z, sub_at buf i l -> l = b :: z -> nth_error buf i = Some b.
  Proof. clear. intros i l b z H ->. apply H. Qed.

  Lemma elems_led : forall a r, lead_elems a r -> forall x b tx p e c s rst, it_in g buf p e (map unnamed (a ++ x :: b)) -> cfirst p = Some c -> nth_error buf c = Some 91 ->
    jtext str_body x tx -> sub_at buf (first p) (r ++ tx) -> (first p + length r <= loc)%nat -> (forall v, In v a -> forall w, inside w v -> names_ok g w) ->
    level s -> stack s = (KArray, p) :: rst -> child_of (after (calls s)) = BArray ->
    exists q s2 d, first q = (first p + length r)%nat /\ it_in g buf q e (map unnamed (x :: b)) /\ cfirst q = Some c /\ level s2 /\ stack s2 = (KArray, q) :: rst /\
      same_place (after (calls s)) (after (calls s2)) /\ f_index (f_state (after (calls s2))) = (f_index (f_state (after (calls s))) + Z.of_nat (length a))%Z /\
      forall fuel, events_loop (d + fuel) g fh buf s = events_loop fuel g fh buf s2.
  Proof.
    intros a r H. induction H as [|v t w1 w2 vs r HV W1 W2 HL IH]; intros x b tx p e c s rst HI CF CB HT HS LL NM LV ES CH.
    - exists p, s, 0%nat. cbn [length app] in *. split; [lia|]. split; [exact HI|]. split; [exact CF|]. split; [exact LV|]. split; [exact ES|]. split; [split; reflexivity|]. split; [lia|]. reflexivity.
    - destruct (lead_head vs r x tx HL HT) as (bb & z & EB & B32).
      replace ((t ++ w1 ++ 44 :: w2 ++ r) ++ tx) with ((t ++ w1 ++ 44 :: w2) ++ r ++ tx) in HS by (repeat (rewrite <- ?app_assoc; cbn [app]); reflexivity).
      replace (t ++ w1 ++ 44 :: w2 ++ r) with ((t ++ w1 ++ 44 :: w2) ++ r) in LL by (repeat (rewrite <- ?app_assoc; cbn [app]); reflexivity).
      rewrite app_length in LL. apply sub_at_app in HS as [S1 S2].
      assert (SX : exists x2 rest2, vs ++ x :: b = x2 :: rest2) by (destruct vs; eexists _, _; reflexivity). destruct SX as (x2 & rest2 & EX).
      cbn [app] in HI. rewrite EX in HI.
      destruct (next_elem p e c v x2 rest2 t w1 w2 bb HI CF CB HV W1 W2) as (q & j & EN & HQ & CQ & FQ & ED & HW & FJ & NV); [|exact B32|].
      { replace (t ++ w1 ++ 44 :: w2 ++ [bb]) with ((t ++ w1 ++ 44 :: w2) ++ [bb]) by (repeat (rewrite <- ?app_assoc; cbn [app]); reflexivity).
        apply sub_at_app. split; [exact S1|]. split; [|exact I]. exact (head_at _ _ _ _ S2 EB). }
      assert (ST : sub_at buf (first p) t) by (apply sub_at_app in S1; apply S1).
      assert (LT : (first p + length t <= loc)%nat) by (rewrite app_length in LL; lia).
      destruct (sibling_by KArray p e _ _ None (restated p) q v t j s rst [] (f_index (f_state (after (calls s))) + 1)%Z HI ED EN (wf_restate _ _ HW) HV ST FJ NV) as (s1 & LV1 & ES1 & [SP1 SB1] & IX1 & R1); auto.
      { apply NM. now left. }
      { unfold called. rewrite CH. auto. }
      rewrite <- EX in HQ. destruct (IH x b tx q e c s1 rst HQ CQ CB HT) as (q2 & s2 & d & FQ2 & HQ2 & CQ2 & LV2 & ES2 & [SP2 SB2] & IX2 & R2); auto.
      { now rewrite FQ. }
      { lia. }
      { intros v0 HV0. apply NM. now right. }
      { unfold child_of in *. now rewrite SP1. }
      exists q2, s2, (S (turns v) + d)%nat. split.
      { rewrite FQ2, FQ. rewrite !app_length. cbn [length]. rewrite !app_length. lia. }
      split; [exact HQ2|]. split; [exact CQ2|]. split; [exact LV2|]. split; [exact ES2|]. split; [split; congruence|]. split; [rewrite IX2, IX1; cbn [length]; lia|].
      intros fuel. rewrite <- Nat.add_assoc, R1. apply R2.
  Qed.

  Lemma members_led : forall a r, lead_members a r -> forall key x b w1 w2 tx p e c s rst, it_in g buf p e (map named (a ++ (key, x) :: b)) -> cfirst p = Some c -> nth_error buf c = Some 123 ->
    sub_at buf (first p) (r ++ 34 :: key ++ 34 :: w1 ++ 58 :: w2 ++ tx) -> (first p + length r <= loc)%nat -> (forall m, In m a -> forall w, inside w (snd m) -> names_ok g w) ->
    level s -> stack s = (KClass, p) :: rst -> child_of (after (calls s)) = BClass ->
    exists q s2 d, first q = (first p + length r)%nat /\ it_in g buf q e (map named ((key, x) :: b)) /\ cfirst q = Some c /\ level s2 /\ stack s2 = (KClass, q) :: rst /\
      same_place (after (calls s)) (after (calls s2)) /\
      forall fuel, events_loop (d + fuel) g fh buf s = events_loop fuel g fh buf s2.
  Proof.
    intros a r H. induction H as [|k v t v1 v2 v3 v4 ms r V1 V2 HV V3 V4 HL IH]; intros key x b w1 w2 tx p e c s rst HI CF CB HS LL NM LV ES CH.
    - exists p, s, 0%nat. cbn [length app] in *. split; [lia|]. split; [exact HI|]. split; [exact CF|]. split; [exact LV|]. split; [exact ES|]. split; [split; reflexivity|]. reflexivity.
    - set (kt := 34 :: k ++ 34 :: v1 ++ 58 :: v2) in *. set (y := 34 :: key ++ 34 :: w1 ++ 58 :: w2 ++ tx) in *.
      assert (EB : exists z, r ++ y = 34 :: z) by (destruct HL; eexists; reflexivity). destruct EB as (z & EB).
      replace ((kt ++ t ++ v3 ++ 44 :: v4 ++ r) ++ y) with ((kt ++ t ++ v3 ++ 44 :: v4) ++ r ++ y) in HS by (repeat (rewrite <- ?app_assoc; cbn [app]); reflexivity).
      replace (kt ++ t ++ v3 ++ 44 :: v4 ++ r) with ((kt ++ t ++ v3 ++ 44 :: v4) ++ r) in LL by (repeat (rewrite <- ?app_assoc; cbn [app]); reflexivity).
      rewrite app_length in LL. apply sub_at_app in HS as [S1 S2].
      assert (SX : exists x2 rest2, ms ++ (key, x) :: b = x2 :: rest2) by (destruct ms; eexists _, _; reflexivity). destruct SX as (x2 & rest2 & EX).
      cbn [app] in HI. rewrite EX in HI.
      destruct (next_member p e c k v x2 rest2 t v1 v2 v3 v4 HI CF CB HV V1 V2 V3 V4) as (q & j & EN & HQ & CQ & FQ & ED & HW & ST & FJ & NV).
      { fold kt. replace (kt ++ t ++ v3 ++ 44 :: v4 ++ [34]) with ((kt ++ t ++ v3 ++ 44 :: v4) ++ [34]) by (repeat (rewrite <- ?app_assoc; cbn [app]); reflexivity).
        apply sub_at_app. split; [exact S1|]. split; [|exact I]. exact (head_at _ _ _ _ S2 EB). }
      fold kt in FQ, ED, HW, ST, FJ, NV.
      assert (LT : (first p + length kt + length t <= loc)%nat) by (rewrite !app_length in LL; lia).
      destruct (sibling_by KClass p e _ _ (Some k) (restated (set_first p (first p + length kt))) q v t j s rst k (-1)%Z HI ED EN (wf_restate _ _ HW) HV ST FJ NV) as (s1 & LV1 & ES1 & [SP1 SB1] & IX1 & R1); auto.
      { apply (NM (k, v)). now left. }
      { unfold called. rewrite CH. auto. }
      rewrite <- EX in HQ. destruct (IH key x b w1 w2 tx q e c s1 rst HQ CQ CB) as (q2 & s2 & d & FQ2 & HQ2 & CQ2 & LV2 & ES2 & [SP2 SB2] & R2); auto.
      { rewrite FQ. fold y. rewrite app_length, Nat.add_assoc in S2. exact S2. }
      { rewrite FQ. rewrite app_length in LL. lia. }
      { intros m HM. apply NM. now right. }
      { unfold child_of in *. now rewrite SP1. }
      exists q2, s2, (S (turns v) + d)%nat. split.
      { rewrite FQ2, FQ. rewrite !app_length. cbn [length]. rewrite !app_length. lia. }
      split; [exact HQ2|]. split; [exact CQ2|]. split; [exact LV2|]. split; [exact ES2|]. split; [split; congruence|].
      intros fuel. rewrite <- Nat.add_assoc, R1. apply R2.
  Qed.

  (** ** Into a container *)

  Lemma enters : forall v p n t j s nm ix, container v -> wf buf p -> jtext str_body v t -> sub_at buf (first p) t -> followed true buf (first p + length t) j (last p) ->
    names_ok g v -> (first p <= loc)%nat -> level s -> called (after (calls s)) n nm ix ->
    exists q s3, it_in g buf q (first p + length t - 1) (members v) /\ cfirst q = Some (first p) /\
      (forall w c, ws w -> sub_at buf (S (first p)) (w ++ [c]) -> 32 < c -> first q = (S (first p) + length w)%nat) /\
      level s3 /\ stack s3 = (match v with JArr _ => KArray | _ => KClass end, q) :: stack s /\
      f_stack (after (calls s3)) = mkfnode nm (Some (first p)) ix (kind_of v) :: f_stack (after (calls s)) /\ f_bad (after (calls s3)) = f_bad (after (calls s)) /\
      f_index (f_state (after (calls s3))) = (-1)%Z /\
      forall fuel, resume g buf fuel fh (process_value fh buf s n p) = events_loop fuel g fh buf s3.
  Proof.
    intros v p n t j s nm ix HC HW HT HS FJ NO LO LV CA.
    assert (HV : value_at buf v p).
    { split; [exact HW|]. exists t, j. split; [exact HT|]. split; [exact HS|]. split; [exact FJ|]. intros ->. contradiction. }
    pose proof (C36_type_partial buf H32 _ _ HV) as JT. destruct (in_begin g buf H32 v p t j HW HT HS FJ HC NO) as (q & EB & HI & _ & CF & EX).
    pose proof (value_enters (after (calls s)) n p v nm ix HV LO CA) as VE. destruct (step_go (calls s) (EValue n p) _ VE) as [G1 A1].
    set (e2 := match v with JArr _ => EArrayStart p | _ => EClassStart p end).
    assert (S2 : find_step g buf loc (after (EValue n p :: calls s)) e2 = (handle_on_start (after (EValue n p :: calls s)), Continue)) by (unfold e2; destruct v; reflexivity).
    destruct (step_go _ e2 _ S2) as [G2 A2]. pose proof LV as (A & B & C & D).
    assert (H1 : fh (EValue n p :: calls s) = Continue) by (destruct (fh (EValue n p :: calls s)); cbn in G1; congruence).
    assert (H2 : fh (e2 :: EValue n p :: calls s) = Continue).
    { unfold find_handler. rewrite S2. reflexivity. }
    exists q. exists (mkest (e2 :: EValue n p :: calls s) ((match v with JArr _ => KArray | _ => KClass end, q) :: stack s)
      (class_depth s + match v with JArr _ => 0 | _ => 1 end)%Z (array_depth s + match v with JArr _ => 1 | _ => 0 end)%Z).
    cbn [calls stack]. split; [exact HI|]. split; [exact CF|]. split; [exact EX|]. split.
    { unfold e2. destruct v; try contradiction; repeat split; cbn [class_depth array_depth calls stack open_now is_start is_end length]; lia. }
    split; [reflexivity|]. rewrite A2, A1. cbn [handle_on_start f_stack f_bad f_state f_index no_node]. split; [reflexivity|]. split; [reflexivity|]. split; [reflexivity|].
    intros fuel. unfold process_value, tell. cbn [calls]. rewrite H1. cbn [calls]. rewrite JT. cbn [lift].
    destruct v as [| | | | |es|js]; try contradiction; cbn [kind_of]; cbn [add_array add_class calls stack class_depth array_depth]; unfold e2 in H2; rewrite H2, EB; cbn [lift resume set_stack stack calls class_depth array_depth];
      rewrite Z.add_0_r; reflexivity.
  Qed.

  Lemma spot_le : forall v i path w k, spot buf v i path w k -> (i <= k)%nat.
  Proof. clear. induction 1; lia. Qed.

  Lemma text_fixed : forall w k t, within w k loc -> jtext str_body w t -> hit w k t.
  Proof. clear. intros w k t HW HT. destruct w; cbn [within hit] in *; try contradiction; inversion HT; subst; cbn [length]; try rewrite app_length; cbn [length]; lia. Qed.

  Theorem finds : forall v i path w k, spot buf v i path w k -> within w k loc -> forall p n t j s nm ix, first p = i -> wf buf p -> jtext str_body v t -> sub_at buf (first p) t ->
    followed true buf (first p + length t) j (last p) -> (v = JNull -> (first p + 4 < last p)%nat) -> (forall x, inside x v -> names_ok g x) ->
    level s -> called (after (calls s)) n nm ix ->
    ends_at (calls s) nm ix path k w (fun fuel => resume g buf fuel fh (process_value fh buf s n p)).
  Proof.
    intros v i path w k HSP HWI. induction HSP as [w i|a x b i w0 r tx path w k W0 HL HTX SX HSP IH|a key x b i w0 r w1 w2 tx path w k W0 HL W1 W2 HTX SX HSP IH];
      intros p n t j s nm ix FP HW HT HS FJ NV NM LV CA.
    - subst i. pose proof (text_fixed w (first p) t HWI HT) as HH.
      assert (HV : value_at buf w p) by (split; [exact HW|]; exists t, j; auto). assert (LO : (first p <= loc)%nat) by (destruct w; cbn [within] in HWI; try contradiction; lia).
      pose proof (C36_type_partial buf H32 _ _ HV) as JT.
      pose proof (value_enters (after (calls s)) n p w nm ix HV LO CA) as VE. destruct (step_go (calls s) (EValue n p) _ VE) as [G1 A1].
      assert (H1 : fh (EValue n p :: calls s) = Continue) by (destruct (fh (EValue n p :: calls s)); cbn in G1; congruence).
      set (e2 := match w with JTrue | JFalse => EBool p | JNum _ => ENumber p | _ => EString p end).
      assert (S2 : find_step g buf loc (after (EValue n p :: calls s)) e2 = (mkfstate (f_state (after (EValue n p :: calls s)) :: f_stack (after (EValue n p :: calls s))) None (f_state (after (EValue n p :: calls s))) (f_bad (after (EValue n p :: calls s))), Complete)).
      { pose proof (scalar_hit (after (EValue n p :: calls s)) p w t j HW HT HS FJ NV HH) as SH. rewrite A1 in SH |- *. cbn [f_popped] in SH. unfold e2. destruct w; cbn [within] in HWI; try contradiction; exact SH. }
      assert (H2 : fh (e2 :: EValue n p :: calls s) = Complete) by (unfold find_handler; rewrite S2; reflexivity).
      assert (A2 : after (e2 :: EValue n p :: calls s) = fst (find_step g buf loc (after (EValue n p :: calls s)) e2)) by reflexivity. rewrite S2 in A2. cbn [fst] in A2. rewrite A1 in A2. cbn [f_state f_stack f_bad] in A2.
      exists 1%nat. intros fuel LF. destruct fuel as [|fuel]; [lia|].
      exists (mkest (e2 :: EValue n p :: calls s) [] (class_depth s) (array_depth s)). eexists. split.
      { unfold process_value, tell. cbn [calls]. rewrite H1, JT. cbn [lift calls]. unfold e2 in H2 |- *.
        destruct w; cbn [within] in HWI; try contradiction; cbn [kind_of calls]; rewrite H2; cbn [resume lift events_loop set_stack stack calls class_depth array_depth]; reflexivity. }
      split. { unfold ensure. destruct (_ && _); eauto. }
      cbn [calls]. rewrite A2. cbn [f_popped f_bad f_stack]. split; [reflexivity|]. split; [reflexivity|].
      exists [], (mkfnode nm (Some (first p)) ix (kind_of w)). cbn [rev app map f_name f_index f_start f_type]. auto.
    - pose proof (spot_le _ _ _ _ _ HSP) as LK. assert (LO : (k <= loc)%nat) by (destruct w; cbn [within] in HWI; try contradiction; lia).
      subst i. set (v := JArr (a ++ x :: b)) in *. cbn [length] in LK. rewrite app_length in LK.
      destruct (enters v p n t j s nm ix I HW HT HS FJ (NM v (in_here v)) ltac:(lia) LV CA) as (q & s3 & HI & CF & EX & LV3 & ES3 & ST3 & SB3 & IX3 & R3).
      assert (CB : nth_error buf (first p) = Some 91) by apply SX. destruct SX as [_ SX]. apply sub_at_app in SX as [SW SX].
      destruct (lead_head a r x tx HL HTX) as (bb & z & EB & B32).
      assert (FQ : first q = (S (first p) + length w0)%nat).
      { apply (EX w0 bb W0); [|exact B32]. apply sub_at_app. split; [exact SW|]. split; [|exact I]. exact (head_at _ _ _ _ SX EB). }
      cbn [members v] in HI. rewrite <- FQ in SX.
      destruct (elems_led a r HL x b tx q _ (first p) s3 (stack s) HI CF CB HTX SX) as (q2 & s4 & d & FQ2 & HQ2 & CQ2 & LV4 & ES4 & [SP4 SB4] & IX4 & R4); auto.
      { lia. }
      { intros y HY y' HY'. apply NM. apply in_array with (e := y); [|exact HY']. apply in_or_app. now left. }
      { unfold child_of. rewrite ST3. reflexivity. }
      destruct (deref_elem q2 _ (first p) x b HQ2 CQ2 CB) as (tt' & jj & ED & HW2 & HT2 & HS2 & FJ2 & NV2).
      destruct (in_next g HX HE buf H32 q2 _ _ _ HQ2) as (q3 & EN & HQ3 & _).
      pose proof (step_in fh KArray q2 _ _ _ None (restated q2) q3 s4 (stack s) HQ2 ED EN ES4) as R5. set (s5 := set_stack s4 ((KArray, q3) :: stack s)) in *.
      assert (LV5 : level s5). { destruct LV4 as (A & B & C & D). unfold s5. repeat split; auto. cbn [stack calls set_stack]. rewrite ES4 in D. exact D. }
      assert (C5 : calls s5 = calls s4) by reflexivity.
      assert (CA5 : called (after (calls s5)) None [] (Z.of_nat (length a))).
      { unfold called, child_of. rewrite C5, SP4, ST3. cbn [f_type kind_of v]. rewrite IX4, IX3. split; [reflexivity|lia]. }
      destruct (IH HWI (restated q2) None tt' jj s5 [] (Z.of_nat (length a))) as (enough & H); auto.
      { cbn [first restated]. rewrite FQ2, FQ. cbn [length]. rewrite app_length. lia. }
      { intros y HY. apply NM. apply in_array with (e := x); [|exact HY]. apply in_or_app. right. now left. }
      exists (d + S enough)%nat. intros fuel LF. destruct (H (fuel - d - 1)%nat ltac:(lia)) as (s' & o & ER & OO & PP & BB & nodes & ln & EF & EM & EST & EKT).
      exists s', o. split.
      { rewrite R3. replace fuel with (d + S (fuel - d - 1))%nat by lia. rewrite R4, R5. exact ER. }
      split; [exact OO|]. split; [exact PP|]. split; [rewrite BB, C5; congruence|]. exists (mkfnode nm (Some (first p)) ix (kind_of v) :: nodes), ln.
      split; [rewrite EF, C5, SP4, ST3; cbn [rev]; rewrite <- app_assoc; reflexivity|]. split; [|auto]. cbn [app map f_name f_index]. f_equal. exact EM.
    - pose proof (spot_le _ _ _ _ _ HSP) as LK. assert (LO : (k <= loc)%nat) by (destruct w; cbn [within] in HWI; try contradiction; lia).
      subst i. set (v := JObj (a ++ (key, x) :: b)) in *. cbn [length] in LK. rewrite !app_length in LK. cbn [length] in LK.
      destruct (enters v p n t j s nm ix I HW HT HS FJ (NM v (in_here v)) ltac:(lia) LV CA) as (q & s3 & HI & CF & EX & LV3 & ES3 & ST3 & SB3 & IX3 & R3).
      assert (CB : nth_error buf (first p) = Some 123) by apply SX. destruct SX as [_ SX]. apply sub_at_app in SX as [SW SX].
      assert (EB : exists z, r ++ 34 :: key ++ 34 :: w1 ++ 58 :: w2 ++ tx = 34 :: z) by (destruct HL; eexists; reflexivity). destruct EB as (z & EB).
      assert (FQ : first q = (S (first p) + length w0)%nat).
      { apply (EX w0 34 W0); [|lia]. apply sub_at_app. split; [exact SW|]. split; [|exact I]. exact (head_at _ _ _ _ SX EB). }
      cbn [members v] in HI. rewrite <- FQ in SX.
      destruct (members_led a r HL key x b w1 w2 tx q _ (first p) s3 (stack s) HI CF CB SX) as (q2 & s4 & d & FQ2 & HQ2 & CQ2 & LV4 & ES4 & [SP4 SB4] & R4); auto.
      { lia. }
      { intros [ky y] HY y' HY'. apply NM. apply in_object with (k := ky) (e := y); [|exact HY']. apply in_or_app. now left. }
      { unfold child_of. rewrite ST3. reflexivity. }
      apply sub_at_app in SX as [_ SX]. rewrite <- FQ2 in SX. destruct (jtext_head _ _ _ HTX) as (hb & hz & EH & SH).
      destruct (name_exact q2 _ (first p) key x b w1 w2 hb HQ2 CQ2 CB W1 W2) as (tt' & jj & PN & HW2 & HT2 & HS2 & FJ2 & NV2 & _ & ED & _); [|apply SH|].
      { clear - SX EH. rewrite EH in SX. replace (34 :: key ++ 34 :: w1 ++ 58 :: w2 ++ hb :: hz) with ((34 :: key ++ 34 :: w1 ++ 58 :: w2 ++ [hb]) ++ hz) in SX by (repeat (rewrite <- ?app_assoc; cbn [app]); reflexivity).
        apply sub_at_app in SX. apply SX. }
      destruct (in_next g HX HE buf H32 q2 _ _ _ HQ2) as (q3 & EN & HQ3 & _).
      set (iv := (first q2 + length (34%N :: key ++ 34%N :: w1 ++ 58%N :: w2))%nat) in *.
      pose proof (step_in fh KClass q2 _ _ _ (Some key) (restated (set_first q2 iv)) q3 s4 (stack s) HQ2 ED EN ES4) as R5. set (s5 := set_stack s4 ((KClass, q3) :: stack s)) in *.
      assert (LV5 : level s5). { destruct LV4 as (A & B & C & D). unfold s5. repeat split; auto. cbn [stack calls set_stack]. rewrite ES4 in D. exact D. }
      assert (C5 : calls s5 = calls s4) by reflexivity.
      assert (CA5 : called (after (calls s5)) (Some key) key (-1)%Z).
      { unfold called, child_of. rewrite C5, SP4, ST3. cbn [f_type kind_of v]. auto. }
      destruct (IH HWI (restated (set_first q2 iv)) (Some key) tt' jj s5 key (-1)%Z) as (enough & H); auto.
      { cbn [first restated set_first]. unfold iv. rewrite FQ2, FQ. repeat (rewrite app_length || cbn [length]). lia. }
      { now apply wf_restate. }
      { intros y HY. apply NM. apply in_object with (k := key) (e := x); [|exact HY]. apply in_or_app. right. now left. }
      exists (d + S enough)%nat. intros fuel LF. destruct (H (fuel - d - 1)%nat ltac:(lia)) as (s' & o & ER & OO & PP & BB & nodes & ln & EF & EM & EST & EKT).
      exists s', o. split.
      { rewrite R3. replace fuel with (d + S (fuel - d - 1))%nat by lia. rewrite R4, R5. exact ER. }
      split; [exact OO|]. split; [exact PP|]. split; [rewrite BB, C5; congruence|]. exists (mkfnode nm (Some (first p)) ix (kind_of v) :: nodes), ln.
      split; [rewrite EF, C5, SP4, ST3; cbn [rev]; rewrite <- app_assoc; reflexivity|]. split; [|auto]. cbn [app map f_name f_index]. f_equal. exact EM.
  Qed.
End Cfg.
