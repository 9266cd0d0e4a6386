(** Rendered paths, and find_range. *)
From Coq Require Import List NArith ZArith Bool Lia Arith ZifyBool ZifyNat ZifyN.
From Verif Require Import Base Mem Loop PolicyModel IntModel IntProofs StrScanModel SkipModel SpecNum SpecText SpecJson
  SkipProofs SkipSafe HashModel ValueModel NameProofs ClassProofs ScalarProofs ArrayProofs PropertiesTyped SpecValue SpecPath JValueModel JValueProofs StateProofs PathModel PathProofs PropertiesValue.
Import ListNotations.
Local Open Scope N_scope.

(** ** Digits *)

Lemma dec_digits_spec : forall fuel n acc, n < 10 ^ N.of_nat fuel -> (0 < fuel)%nat ->
  exists ds, dec_digits fuel n acc = ds ++ acc /\ canonical ds /\ dec_val ds = n.
Proof.
  induction fuel as [|f IH]; intros n acc L F; [lia|]. cbn [dec_digits]. destruct (N.eqb_spec (n / 10) 0) as [E|E].
  - exists [48 + n mod 10]. assert (n mod 10 < 10) by (apply N.mod_lt; lia). split; [reflexivity|]. split.
    + split; [constructor; [|constructor]; unfold is_dig; lia|]. split; [discriminate|]. intros r E'. now injection E' as _ <-.
    + unfold dec_val. cbn [dec_acc]. pose proof (N.div_mod n 10). lia.
  - assert (F0 : (0 < f)%nat).
    { destruct f; [|lia]. change (10 ^ N.of_nat 1) with 10 in L. rewrite N.div_small in E by lia. congruence. }
    assert (L0 : n / 10 < 10 ^ N.of_nat f).
    { replace (N.of_nat (S f)) with (N.succ (N.of_nat f)) in L by lia. rewrite N.pow_succ_r' in L. apply N.div_lt_upper_bound; lia. }
    destruct (IH (n / 10) ((48 + n mod 10) :: acc) L0 F0) as (ds & E1 & (D & NE & CN) & DV).
    assert (n mod 10 < 10) by (apply N.mod_lt; lia).
    exists (ds ++ [48 + n mod 10]). split; [rewrite E1, <- app_assoc; reflexivity|]. split.
    + split; [apply Forall_app; split; [exact D|]; constructor; [|constructor]; unfold is_dig; lia|]. split; [destruct ds; discriminate|].
      intros r E'. destruct ds as [|d ds]; [congruence|]. injection E' as -> E'. rewrite (CN _ eq_refl) in DV. cbn in DV. congruence.
    + rewrite dec_val_app, DV. unfold dec_val. cbn [dec_acc length].
      change (10 ^ N.of_nat 1) with 10. pose proof (N.div_mod n 10). lia.
Qed.

(** The nodes of a path *)
Definition node_of (s : step) : path_node :=
  match s with SName k => mknode k (-1) | SIndex i => mknode [] (Z.of_nat i) end.

Definition renderable (s : step) : Prop :=
  match s with SName k => simple k | SIndex i => N.of_nat i < 10 ^ 20 end.

Lemma render_app : forall nodes acc,
  fold_left (fun state sv =>
    if (0 <=? n_index sv)%Z then state ++ [c_lbrack] ++ to_string (Z.to_N (n_index sv)) ++ [c_rbrack]
    else match n_name sv with [] => state | _ => state ++ [c_dot] ++ n_name sv end) nodes acc = acc ++ to_json_path_string nodes.
Proof.
  unfold to_json_path_string. induction nodes as [|n nodes IH]; intros acc; cbn [fold_left]; [now rewrite app_nil_r|].
  rewrite IH. symmetry. rewrite IH. cbn [app]. rewrite app_assoc. f_equal.
  destruct (0 <=? n_index n)%Z; [reflexivity|]. destruct (n_name n); [apply app_nil_r|reflexivity].
Qed.

Lemma render_text : forall path, Forall renderable path -> rest_text path (to_json_path_string (map node_of path)).
Proof.
  induction 1 as [|[k|i] path R _ IH]; [constructor| |]; unfold to_json_path_string; cbn [map fold_left node_of n_index n_name].
  - change (0 <=? -1)%Z with false. cbn iota. rewrite render_app. pose proof R as [NE _]. destruct k as [|x0 k0] eqn:EK; [congruence|].
    rewrite <- EK in *. rewrite <- app_assoc. cbn [app]. change c_dot with 46. constructor; auto.
  - replace (0 <=? Z.of_nat i)%Z with true by lia. cbn iota. rewrite render_app. cbn [app].
    replace (Z.to_N (Z.of_nat i)) with (N.of_nat i) by lia. unfold to_string.
    destruct (dec_digits_spec 20 (N.of_nat i) [] R ltac:(lia)) as (ds & -> & D & DV). rewrite app_nil_r, <- app_assoc. cbn [app].
    change c_lbrack with 91. change c_rbrack with 93. constructor; auto.
Qed.

(** ** find_range *)

(** Paths it follows: the first step is a name and no index follows an index. *)
Fixpoint lone (after : bool) (path : list step) : Prop :=
  match path with
  | [] => True
  | SName _ :: path => lone true path
  | SIndex _ :: path => after = true /\ lone false path
  end.

Lemma scan_plain : forall m r, Forall (fun c => c <> 46 /\ c <> 91 /\ c <> 93 /\ c <> 92) m ->
  pop_path_scan false (m ++ r) = (let '(m', c, r') := pop_path_scan false r in (m ++ m', c, r')).
Proof.
  induction 1 as [|x m (H1 & H2 & H3 & H4) _ IH]; cbn [app].
  - now destruct (pop_path_scan false r) as [[? ?] ?].
  - cbn [pop_path_scan]. unfold c_dot, c_lbrack, c_rbrack, c_bslash.
    rewrite (proj2 (N.eqb_neq x 92)), (proj2 (N.eqb_neq x 46)), (proj2 (N.eqb_neq x 91)), (proj2 (N.eqb_neq x 93)) by assumption.
    cbn [orb]. rewrite IH. now destruct (pop_path_scan false r) as [[? ?] ?].
Qed.

Lemma digits_plain : forall ds, digits ds -> Forall (fun c => c <> 46 /\ c <> 91 /\ c <> 93 /\ c <> 92) ds.
Proof. intros ds D. eapply Forall_impl; [|exact D]. unfold is_dig. cbn beta. lia. Qed.

(** What the popped text of a step looks like, and what is left. *)
Inductive popped : list step -> list N -> N -> list N -> Prop :=
| po_end : popped [] [] 0 []
| po_name_end : forall k, simple k -> popped [SName k] k 0 []
| po_name_dot : forall k path r, simple k -> path_text path r -> (exists k' p', path = SName k' :: p') -> popped (SName k :: path) k 46 r
| po_name_idx : forall k i path ds r, simple k -> canonical ds -> dec_val ds = N.of_nat i -> rest_text path r ->
    popped (SName k :: SIndex i :: path) k 91 (ds ++ 93 :: r)
| po_idx : forall i path ds r, canonical ds -> dec_val ds = N.of_nat i -> rest_text path r ->
    popped (SIndex i :: path) ds 93 r.

Lemma pop_name : forall k path r, simple k -> rest_text path r ->
  exists c r', pop_path_scan false (k ++ r) = (k, c, r') /\ popped (SName k :: path) k c r'.
Proof.
  intros k path r SK HR. rewrite (scan_plain k r) by apply SK. destruct HR as [|k' path t SK' HR|i ds path t D DV HR].
  - cbn [pop_path_scan]. do 2 eexists. rewrite app_nil_r. split; [reflexivity|]. now constructor.
  - cbn [pop_path_scan]. change (46 =? c_bslash) with false. change ((46 =? c_dot) || (46 =? c_lbrack) || (46 =? c_rbrack)) with true.
    cbn iota. rewrite app_nil_r. do 2 eexists. split; [reflexivity|]. apply po_name_dot; eauto. cbn [path_text]. eauto.
  - cbn [pop_path_scan]. change (91 =? c_bslash) with false. change ((91 =? c_dot) || (91 =? c_lbrack) || (91 =? c_rbrack)) with true.
    cbn iota. rewrite app_nil_r. do 2 eexists. split; [reflexivity|]. apply po_name_idx; auto.
Qed.

Lemma pop_after_name : forall k path m c r, popped (SName k :: path) m c r -> lone true path ->
  exists m' c' r', pop_json_path r = (m', c', r') /\ popped path m' c' r'.
Proof.
  intros k path m c r H HL. unfold pop_json_path. remember (SName k :: path) as all eqn:EA.
  destruct H as [|k1 S1|k1 path1 r S1 PT (k' & p' & EP)|k1 i path1 ds r S1 D DV HR|i path1 ds r D DV HR]; try discriminate; injection EA as -> <-.
  - do 3 eexists. split; [reflexivity|constructor].
  - rewrite (strip_again _ _ PT). subst path1. destruct PT as (t & -> & SK & HR). destruct (pop_name k' p' t SK HR) as (c' & r' & E & PO). eauto.
  - assert (SD : strip_dot (ds ++ 93 :: r) = ds ++ 93 :: r).
    { destruct D as (D & NE & _). destruct D as [|d ds Dd D]; [congruence|]. cbn [app strip_dot]. unfold is_dig, c_dot in *. now rewrite (proj2 (N.eqb_neq d 46)) by lia. }
    rewrite SD, (scan_plain ds) by (apply digits_plain; apply D). cbn [pop_path_scan]. change (93 =? c_bslash) with false.
    change ((93 =? c_dot) || (93 =? c_lbrack) || (93 =? c_rbrack)) with true. cbn iota. rewrite app_nil_r.
    do 3 eexists. split; [reflexivity|]. now constructor.
Qed.

Lemma pop_after_index : forall i path m c r, popped (SIndex i :: path) m c r -> lone false path ->
  exists m' c' r', pop_json_path r = (m', c', r') /\ popped path m' c' r'.
Proof.
  intros i path m c r H HL. inversion H as [| | | |i' path' ds r0 D DV HR]; subst. unfold pop_json_path.
  destruct HR as [|k path t SK HR|j ds path t D' DV' HR].
  - do 3 eexists. split; [reflexivity|constructor].
  - cbn [strip_dot]. change (46 =? c_dot) with true. cbn iota. destruct (pop_name k path t SK HR) as (c' & r' & E & PO). eauto.
  - destruct HL. discriminate.
Qed.

Lemma rest_length : forall path t, rest_text path t -> (length path <= length t)%nat.
Proof. induction 1; cbn [length]; rewrite ?app_length; cbn [length]; lia. Qed.

Lemma popped_length : forall path m c r, popped path m c r -> (length path <= S (length r))%nat.
Proof.
  destruct 1 as [|k1 S1|k1 path1 r S1 PT (k' & p' & EP)|k1 i path1 ds r S1 D DV HR|i path1 ds r D DV HR]; cbn [length].
  - lia.
  - lia.
  - subst path1. destruct PT as (t & -> & [NE _] & HR). apply rest_length in HR. cbn [length]. rewrite app_length.
    destruct k'; [congruence|]. cbn [length]. lia.
  - apply rest_length in HR. rewrite app_length. cbn [length]. lia.
  - apply rest_length in HR. lia.
Qed.

(** Comparison of a simple name *)
Lemma compare_loop : forall fuel item name, (length name < fuel)%nat -> Forall (fun c => c <> 46 /\ c <> 91 /\ c <> 93 /\ c <> 92) item ->
  path_compare_loop fuel item name = true <-> item = name.
Proof.
  induction fuel as [|f IH]; intros item name L F; [lia|]. cbn [path_compare_loop].
  destruct F as [|x item (H1 & H2 & H3 & H4) F], name as [|y name]; cbn [length]; try (split; [discriminate|discriminate]); try tauto.
  destruct (N.eqb_spec x y) as [->|NE]; [|split; [discriminate|congruence]].
  assert (SB : strip_bslash item = item).
  { destruct F as [|z item (_ & _ & _ & Z4) _]; [reflexivity|]. cbn [strip_bslash]. unfold c_bslash. now rewrite (proj2 (N.eqb_neq z 92)). }
  rewrite SB. cbn [length] in L. rewrite IH by (auto; lia). split; [congruence|congruence].
Qed.

Lemma compare_simple : forall item name, simple item -> json_path_compare item name = true <-> item = name.
Proof.
  intros item name [NE F]. unfold json_path_compare.
  assert (SB : strip_bslash item = item).
  { destruct F as [|z item (_ & _ & _ & Z4) _]; [reflexivity|]. cbn [strip_bslash]. unfold c_bslash. now rewrite (proj2 (N.eqb_neq z 92)). }
  rewrite SB. apply compare_loop; auto; lia.
Qed.

(** The index *)
Lemma unsigned_loop : forall ds count acc, digits ds -> (length ds <= count)%nat -> dec_acc acc ds < 2^64 ->
  parse_unsigned_loop count ds acc = Ok (dec_acc acc ds).
Proof.
  induction ds as [|d ds IH]; intros [|count] acc D L H; cbn [parse_unsigned_loop dec_acc length] in *; try reflexivity; try lia.
  inversion D as [|? ? Dd D']; subst. unfold is_dig in Dd.
  replace (d <? 128) with true by lia.
  assert (MONO : forall l a, digits l -> a <= dec_acc a l).
  { clear. induction l as [|x l IH]; intros a Dl; cbn [dec_acc]; [lia|]. inversion Dl; subst. specialize (IH (a * 10 + (x - 48)) ltac:(assumption)). lia. }
  pose proof (MONO ds (acc * 10 + (d - 48)) D') as M.
  replace ((d + 2^64 - 48) mod 2^64) with (d - 48).
  2:{ change (2^64) with 18446744073709551616. replace (d + 18446744073709551616 - 48) with (d - 48 + 1 * 18446744073709551616) by lia.
      rewrite N.mod_add by lia. rewrite N.mod_small; lia. }
  rewrite N.mod_small by lia. apply IH; auto; lia.
Qed.

Section Cfg.
  Context (g : cfg).
  Hypothesis HX : c_ex g = ExConstexpr.
  Hypothesis HE : c_excl g = false.
  Context (buf : list N).
  Hypothesis H32 : N.of_nat (length buf) < 2^32.

  Lemma value_here : forall p i v t j, wf buf p -> (first p <= i)%nat -> jtext str_body v t -> sub_at buf i t ->
    followed true buf (i + length t) j (last p) -> (v = JNull -> (i + 4 < last p)%nat) -> value_at buf v (set_first p i).
  Proof.
    intros p i v t j HW LI Ht HS FJ NV. pose proof (followed_le _ _ _ _ _ FJ) as FL.
    split; [apply (moved_wf buf p); auto; [apply moved_first|cbn [first last set_first]; lia]|].
    exists t, j. cbn [first last set_first]. repeat split; auto.
  Qed.

  Lemma skip_to_name_ok : forall item a v b p e fuel, simple item -> wf buf p -> (e < last p)%nat ->
    Forall (fun m => name_ok g (fst m)) (a ++ (item, v) :: b) -> at_member buf (first p) e (a ++ (item, v) :: b) ->
    ~ In item (map fst a) -> (length a < fuel)%nat ->
    exists n0 p0 q, parse_name g buf p = Ok (n0, p0) /\ skip_to_name fuel g buf item n0 p0 = Ok (Some q) /\ value_at buf v q.
  Proof.
    intros item a v b. induction a as [|[k1 v1] a IH]; intros p e fuel SI HW L FN HA NI LF; (destruct fuel as [|fuel]; [lia|]); cbn [app] in *.
    - apply Forall_inv in FN. cbn [fst] in FN.
      destruct (member_here g HX HE buf H32 p e item v b HW L FN HA) as (i & t & j & EN & Ht & HS & FJ & LI & LJ & HR).
      exists item, (set_first p i), (set_first p i). split; [exact EN|]. split.
      + cbn [skip_to_name]. rewrite (proj2 (compare_simple item item SI) eq_refl). reflexivity.
      + eapply value_here; eauto; [lia|]. intros ->. inversion Ht; subst. pose proof (followed_le _ _ _ _ _ FJ). cbn [length] in *. lia.
    - pose proof (Forall_inv FN) as F1. apply Forall_inv_tail in FN. cbn [fst] in F1.
      destruct (member_here g HX HE buf H32 p e k1 v1 _ HW L F1 HA) as (i & t & j & EN & Ht & HS & FJ & LI & LJ & HR).
      pose proof (followed_le _ _ _ _ _ FJ) as FL.
      assert (W1 : wf buf (set_first p i)) by (apply (moved_wf buf p); auto; [apply moved_first|cbn [first last set_first]; lia]).
      assert (NJ : v1 = JNull -> (i + 4 < last p)%nat) by (intros ->; inversion Ht; subst; cbn [length] in *; lia).
      destruct (skip_here g HX HE buf (set_first p i) v1 t j) as (r & q & ES & MQ & LQ & _ & _); auto.
      cbn [first set_first] in LQ. assert (LQl : last q = last p) by apply MQ.
      destruct (move_next_rem buf q e (a ++ (item, v) :: b)) as (i' & EM & LI' & AI); [apply HW|apply HR; lia|lia|].
      pose proof (at_member_end _ _ _ _ AI) as [LE' BE'].
      assert (W2 : wf buf (set_first q i')).
      { apply (moved_wf buf q); [repeat split| |cbn [first last set_first]; lia]. apply (moved_wf buf (set_first p i)); auto. lia. }
      destruct (IH (set_first q i') e fuel SI W2) as (n0 & p0 & q' & EN' & SK & VQ); auto; [cbn [last set_first]; lia|intros IN; apply NI; right; exact IN|cbn [length] in LF; lia|].
      exists k1, (set_first p i), q'. split; [exact EN|]. split; [|exact VQ].
      cbn [skip_to_name]. destruct (json_path_compare item k1) eqn:EC.
      { apply (compare_simple item k1 SI) in EC. exfalso. apply NI. left. now rewrite EC. }
      rewrite ES. cbn [bind]. rewrite EM. cbn [bind].
      destruct (at_member_byte _ _ _ _ AI) as (b0 & Hb & EB).
      assert (NEM : (match a ++ (item, v) :: b with [] => 125 | _ => 34 end) = 34) by (destruct a; reflexivity). rewrite NEM in EB. subst b0.
      assert (LT : (i' < e)%nat).
      { destruct (Nat.eq_dec i' e) as [->|]; [|lia]. rewrite Hb in BE'. discriminate. }
      unfold ps_empty. replace (isnull (set_first q i')) with false by (symmetry; apply W2). cbn [first last set_first]. replace (last q <=? i')%nat with false by lia. cbn [orb].
      unfold front. cbn [first set_first]. rewrite (rd_some _ _ _ Hb). cbn [bind]. change (34 =? c_quote) with true. cbn iota.
      rewrite EN'. cbn [bind]. exact SK.
  Qed.

  Lemma skip_elements_ok : forall es n v p e fuel, wf buf p -> (e < last p)%nat -> at_elem buf (first p) e es ->
    nth_error es n = Some v -> (n < fuel)%nat ->
    exists q, skip_elements fuel g buf (N.of_nat n) p = Ok (Some q) /\ value_at buf v q.
  Proof.
    induction es as [|v1 es IH]; intros [|n] v p e fuel HW L HA NT LF; (destruct fuel as [|fuel]; [lia|]); cbn [nth_error] in NT; try discriminate.
    - injection NT as ->. destruct (at_elem_cons _ _ _ _ _ HA) as (t & Ht & HS & HR).
      destruct (rem_e_followed _ _ _ _ (last p) HR L) as (j & FJ & JE & _).
      exists p. split; [reflexivity|]. assert (R : set_first p (first p) = p) by (now destruct p). rewrite <- R.
      eapply value_here; eauto. intros ->. inversion Ht; subst. pose proof (followed_le _ _ _ _ _ FJ). cbn [length] in *. lia.
    - destruct (at_elem_cons _ _ _ _ _ HA) as (t & Ht & HS & HR).
      destruct (rem_e_followed _ _ _ _ (last p) HR L) as (j & FJ & JE & BJ & RJ).
      pose proof (followed_le _ _ _ _ _ FJ) as FL.
      assert (NJ : v1 = JNull -> (first p + 4 < last p)%nat) by (intros ->; inversion Ht; subst; cbn [length] in *; lia).
      destruct (skip_here g HX HE buf p v1 t j) as (r & q & ES & MQ & LQ & _ & _); auto.
      assert (LQl : last q = last p) by apply MQ.
      assert (RQ : rem_e buf (first q) e es) by (apply RJ; lia).
      destruct (rem_e_followed _ _ _ _ (last q) RQ ltac:(lia)) as (j' & FJ' & JE' & BJ' & RJ').
      pose proof (followed_trim CNone true buf q j' ltac:(apply HW) FJ') as T. cbn [trim_left_cp] in T. unfold trim_left in T.
      pose proof (followed_le _ _ _ _ _ FJ') as FL'.
      assert (MR : exists i, move_next buf (set_first q j') = Ok (set_first q i) /\ (j' <= i)%nat /\ at_elem buf i e es).
      { destruct (move_next_rem_e buf (set_first q j') e es) as (i & EM & LI & AI); [apply HW|apply RJ'; cbn [first set_first]; lia|cbn [last set_first]; lia|].
        exists i. split; [exact EM|]. split; [exact LI|exact AI]. }
      destruct MR as (i & EM & LI & AI). pose proof (at_elem_end _ _ _ _ AI) as [LE' _].
      assert (W2 : wf buf (set_first q i)).
      { apply (moved_wf buf q); [repeat split| |cbn [first last set_first]; lia]. apply (moved_wf buf p); auto. lia. }
      destruct (IH n v (set_first q i) e fuel W2) as (q' & EQ & VQ); auto; [cbn [last set_first]; lia|lia|].
      exists q'. split; [|exact VQ]. cbn [skip_elements]. replace (N.of_nat (S n) =? 0) with false by lia. rewrite ES. cbn [bind]. rewrite T. cbn [bind].
      assert (ST : (if has_more (set_first q j') then c <- front buf (set_first q j') ;; Ok ((0 <? N.of_nat (S n) - 1) && negb (c =? c_comma)) else Ok false) = Ok false).
      { destruct (has_more (set_first q j')); [|reflexivity]. unfold front. cbn [first set_first]. rewrite (rd_some _ _ _ BJ'). cbn [bind].
        destruct es as [|v2 es]; [destruct n; discriminate|]. change (44 =? c_comma) with true. cbn [negb]. now rewrite andb_false_r. }
      rewrite ST. cbn [bind]. cbn iota. rewrite EM. cbn [bind]. replace (N.of_nat (S n) - 1) with (N.of_nat n) by lia. exact EQ.
  Qed.

  Lemma find_range2_ok : forall v path w, leads (names_ok g) v path w -> forall m c r p fuel after, popped path m c r -> lone after path ->
    value_at buf v p -> (length path < fuel)%nat ->
    exists q, find_range2_loop fuel g buf m c r p = Ok (q, true) /\ value_at buf w q.
  Proof.
    induction 1 as [v|js k n w path x OK FN NT HL IH|es n w path x NT HL IH]; intros m c r p fuel after PO LO HV LF; (destruct fuel as [|fuel]; [lia|]).
    - inversion PO; subst. cbn [find_range2_loop]. eauto.
    - assert (SM : m = k /\ simple k /\ c <> 93) by (inversion PO; subst; (split; [reflexivity|split; [assumption|discriminate]])).
      pose proof HV as HV0. destruct SM as (-> & SK & NC). destruct HV as (HW & t & j & Ht & HS & FJ & _). pose proof (followed_le _ _ _ _ _ FJ) as FL.
      destruct (object_start g buf (first p) js t Ht HS) as (w1 & c1 & S0 & W & S1 & C1 & LW & HA).
      cbn [find_range2_loop]. destruct k as [|x0 k0] eqn:EK; [destruct SK; congruence|]. rewrite <- EK in *. clear x0 k0 EK.
      change c_rbrack with 93. rewrite (proj2 (N.eqb_neq c 93) NC).
      change c_lbrace with 123. rewrite (is_at_yes buf p 123 S0) by lia. cbn [bind ensure].
      rewrite (trim_unchecked_to buf (remove_prefix p 1) w1 c1); [|apply HW|exact W| |exact C1].
      2:{ cbn [remove_prefix first set_first]. now replace (first p + 1)%nat with (S (first p)) by lia. }
      cbn [bind remove_prefix first set_first]. replace (first p + 1 + length w1)%nat with (S (first p) + length w1)%nat by lia.
      set (p1 := set_first (remove_prefix p 1) (S (first p) + length w1)).
      destruct FN as (a & v' & b & -> & LA & NI). rewrite nth_error_app2, LA, Nat.sub_diag in NT by lia. injection NT as ->.
      pose proof (at_member_end _ _ _ _ HA) as [LE BE].
      assert (W1 : wf buf p1) by (apply (moved_wf buf p); auto; [repeat split|cbn [p1 first last set_first remove_prefix]; lia]).
      assert (LB : (length a < S (length buf))%nat).
      { destruct (it_begin_ok g buf H32 _ p HV0 I OK) as (b0 & EB & IB & LB & CB). pose proof (it_at_length g HX HE buf H32 _ _ IB) as LN.
        destruct (it_at_wf _ _ _ _ IB) as (_ & _ & LL & _). cbn [members] in LN. rewrite map_length, app_length in LN. lia. }
      destruct (skip_to_name_ok k a w b p1 (first p + length t - 1) (S (length buf))) as (n0 & p0 & q & EN & SKP & VQ); auto.
      { cbn [p1 last set_first remove_prefix]. lia. }
      rewrite EN. cbn [bind]. rewrite SKP. cbn [bind].
      destruct (pop_after_name _ _ _ _ _ PO LO) as (m' & c' & r' & EP & PO'). rewrite EP.
      eapply IH; eauto. cbn [length] in LF. lia.
    - inversion PO as [| | | |n' path' ds r0 D DV HR]; subst. destruct LO as [_ LO]. pose proof HV as HV0. destruct HV as (HW & t & j & Ht & HS & FJ & _). pose proof (followed_le _ _ _ _ _ FJ) as FL.
      destruct (array_start buf (first p) es t Ht HS) as (w1 & c1 & S0 & W & S1 & C1 & C2 & LW & HA).
      cbn [find_range2_loop]. destruct m as [|x0 k0] eqn:EK; [destruct D as (_ & D & _); congruence|]. rewrite <- EK in *.
      change (93 =? c_rbrack) with true. cbn iota.
      change c_lbrack with 91. rewrite (is_at_yes buf p 91 S0) by lia. cbn [bind ensure].
      rewrite (trim_unchecked_to buf (remove_prefix p 1) w1 c1); [|apply HW|exact W| |exact C1].
      2:{ cbn [remove_prefix first set_first]. now replace (first p + 1)%nat with (S (first p)) by lia. }
      cbn [bind remove_prefix first set_first]. replace (first p + 1 + length w1)%nat with (S (first p) + length w1)%nat by lia.
      set (p1 := set_first (remove_prefix p 1) (S (first p) + length w1)).
      pose proof (at_elem_end _ _ _ _ HA) as [LE BE].
      assert (W1 : wf buf p1) by (apply (moved_wf buf p); auto; [repeat split|cbn [p1 first last set_first remove_prefix]; lia]).
      assert (LN : (n < length buf)%nat).
      { destruct (it_begin_ok g buf H32 _ p HV0 I I) as (b0 & EB & IB & LB & CB). pose proof (it_at_length g HX HE buf H32 _ _ IB) as LN.
        destruct (it_at_wf _ _ _ _ IB) as (_ & _ & LL & _). cbn [members] in LN. rewrite map_length in LN.
        assert (n < length es)%nat by (apply nth_error_Some; congruence). lia. }
      assert (EI : parse_unsigned_int m = Ok (N.of_nat n)).
      { unfold parse_unsigned_int. destruct D as (D & NE & CN). rewrite EK in *. pose proof (Forall_inv D) as D0. unfold is_dig in D0.
        replace (x0 =? c_minus) with false by (unfold c_minus; lia). cbn [negb ensure bind]. rewrite <- DV. apply unsigned_loop; auto.
        - pose proof (canonical_size g (x0 :: k0) (conj D (conj NE CN))) as CS. rewrite DV in CS. change (2^32) with 4294967296 in H32. change (2^64) with 18446744073709551616 in CS. lia.
        - fold (dec_val (x0 :: k0)). rewrite DV. change (2^32) with 4294967296 in H32. change (2^64) with 18446744073709551616. lia. }
      rewrite EI. cbn [bind].
      destruct (skip_elements_ok es n w p1 (first p + length t - 1) (S (S (length buf)))) as (q & SKP & VQ); auto.
      { cbn [p1 last set_first remove_prefix]. lia. }
      rewrite SKP. cbn [bind]. destruct (pop_after_index _ _ _ _ _ PO LO) as (m' & c' & r' & EP & PO'). rewrite EP.
      eapply IH; eauto. cbn [length] in LF. lia.
  Qed.
End Cfg.
