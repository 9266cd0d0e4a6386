(** What is written for a class with dependent members, and that it is read back. *)
From Coq Require Import List NArith ZArith Bool Lia Arith ZifyBool ZifyNat ZifyN.
From Verif Require Import Base Mem Loop SpecNum SpecText SpecJson SpecCompact SpecUnicode SpecPath HashModel ValueModel NameProofs ClassProofs
  SpecTyped SerModel SpecSer PropertiesTyped SerProofs SerProofs2 TagModel SpecTag TagProofs TagSerModel SpecTagSer.
Import ListNotations.
Local Open Scope N_scope.

Lemma visited_yes : forall k vs, is_visited k vs = true <-> In k vs.
Proof.
  intros k vs. unfold is_visited. rewrite existsb_exists. split.
  - intros (n & HI & E). destruct (list_eq_dec N.eq_dec n k); [now subst|discriminate].
  - intros HI. exists k. split; [exact HI|]. destruct (list_eq_dec N.eq_dec k k); [reflexivity|congruence].
Qed.

Lemma lookup_in : forall k v (l : list (list N * jv)), NoDup (map fst l) -> In (k, v) l -> lookup k l = Some v.
Proof.
  induction l as [|[k' v'] l IH]; intros ND HI; [contradiction|]. cbn [map fst] in ND. inversion ND as [|? ? NI ND']; subst. cbn [lookup].
  destruct HI as [[= -> ->]|HI]; [destruct (list_eq_dec N.eq_dec k k); [reflexivity|congruence]|].
  destruct (list_eq_dec N.eq_dec k' k) as [->|]; [|now apply IH]. exfalso. apply NI. change k with (fst (k, v)). now apply in_map.
Qed.

Lemma lookup_some_in : forall k v (l : list (list N * jv)), lookup k l = Some v -> In (k, v) l.
Proof.
  induction l as [|[k' v'] l IH]; intros E; [discriminate|]. cbn [lookup] in E. destruct (list_eq_dec N.eq_dec k' k) as [->|]; [injection E as ->; now left|right; auto].
Qed.

Lemma split_unique : forall (k : list N) (v v' : jv) A B a b, NoDup (map fst (A ++ (k, v) :: B)) -> A ++ (k, v) :: B = a ++ (k, v') :: b -> A = a.
Proof.
  induction A as [|[k1 v1] A IH]; intros B a b ND E; destruct a as [|[k2 v2] a]; cbn [app map fst] in *; auto; inversion ND as [|? ? NI ND']; subst.
  - injection E as -> -> ->. exfalso. apply NI. rewrite map_app. apply in_or_app. right. now left.
  - injection E as -> -> E. exfalso. apply NI. rewrite map_app. apply in_or_app. right. now left.
  - injection E as <- <- E. f_equal. eapply IH; eauto.
Qed.

Lemma nodup_app : forall (A : Type) (a b : list A), NoDup a -> NoDup b -> (forall x, In x a -> ~ In x b) -> NoDup (a ++ b).
Proof.
  induction a as [|x a IH]; intros b HA HB HD; [exact HB|]. inversion HA; subst. cbn [app]. constructor.
  - intros HI. apply in_app_or in HI as [HI|HI]; [contradiction|]. apply (HD x); auto. now left.
  - apply IH; auto. intros y Hy. apply HD. now right.
Qed.

(** *** The dependent members in front *)
Section Front.
  Context (ei b7 : bool).
  Fixpoint front_tree (visited : list (list N)) (ds : list (option (list N * ty * res val))) : list (list N * jv) :=
    match ds with
    | Some (d, t, Ok s) :: ds =>
        if is_visited d visited then front_tree visited ds else (d, tree ei b7 t s) :: front_tree (visited ++ [d]) ds
    | _ :: ds => front_tree visited ds
    | [] => []
    end.
End Front.

Fixpoint kept (deps : list (list N)) (ms : list wmember) (xs : list val) (vs : list jv) : list (list N * jv) :=
  match ms, xs, vs with
  | m :: ms, x :: xs, v :: vs =>
      if is_visited (wm_name m) deps then kept deps ms xs vs
      else if match wm_null m with NotNullable => false | Nullable | NullVisible => negb (has_value x) end then kept deps ms xs vs
      else (wm_name m, v) :: kept deps ms xs vs
  | _, _, _ => []
  end.

Inductive rows {A B C : Type} (P : A -> B -> C -> Prop) : list A -> list B -> list C -> Prop :=
| rows_nil : rows P [] [] []
| rows_cons : forall a b c la lb lc, P a b c -> rows P la lb lc -> rows P (a :: la) (b :: lb) (c :: lc).

Section Out.
  Context (o : sopt).
  Hypothesis HT : o_trailing o = false.
  Hypothesis HLay : layout o.
  Let ftree := front_tree (o_errutf8 o) (o_7bit o).

  Definition row_good (m : wmember) (x : val) (v : jv) : Prop :=
    plain_name (wm_name m) /\
    (match wm_null m with NotNullable => false | Nullable | NullVisible => negb (has_value x) end = false ->
     exists t, wm_write m x = Ok t /\ good o v t).

  Lemma class_members_kept : forall lvl deps ms xs vs, rows row_good ms xs vs -> NoDup (map wm_name ms) ->
    forall is_first visited, (forall k, In k (map wm_name ms) -> (In k visited <-> In k deps)) ->
    exists body, class_members o (next_member o lvl) is_first visited ms xs = Ok (sep is_first (kept deps ms xs vs) ++ body) /\
      members_good o (kept deps ms xs vs) body.
  Proof.
    intros lvl deps ms xs vs R. induction R as [|m x v ms xs vs [PN HW] R IH]; intros ND is_first visited HV.
    - exists []. split; [reflexivity|apply members_nil].
    - cbn [map] in *. inversion ND as [|? ? NI ND']; subst. cbn [class_members kept].
      assert (EV : is_visited (wm_name m) deps = is_visited (wm_name m) visited).
      { apply eq_true_iff_eq. rewrite !visited_yes. symmetry. apply HV. now left. }
      rewrite EV. fold (is_visited (wm_name m) visited). destruct (is_visited (wm_name m) visited) eqn:EI.
      { apply IH; auto. intros k Hk. apply HV. now right. }
      assert (HV' : forall k, In k (map wm_name ms) -> (In k (visited ++ [wm_name m]) <-> In k deps)).
      { intros k Hk. rewrite <- (HV k) by (now right). rewrite in_app_iff. cbn [In]. split; [|tauto]. intros [H|[<-|[]]]; [exact H|contradiction]. }
      destruct (match wm_null m with NotNullable => false | _ => negb (has_value x) end).
      { apply IH; auto. }
      destruct (HW eq_refl) as (t & E & G). rewrite E. cbn [bind].
      destruct (IH ND' false (visited ++ [wm_name m]) HV') as (rest & ER & GR). rewrite ER. cbn [bind sep].
      eexists. split; [reflexivity|].
      assert (NB : is_bytes (wm_name m)) by (unfold is_bytes; eapply Forall_impl; [|exact PN]; cbn; intros a Ha; lia).
      pose proof (members_cons o HLay lvl (wm_name m) v (kept deps ms xs vs) t rest (plain_name_rfc _ PN) NB G GR) as M.
      cbn [app] in M. rewrite <- app_assoc in M. exact M.
  Qed.

  Definition dep_good (d : option (list N * ty * res val)) : Prop :=
    match d with None => True | Some (d, t, s) => plain_name d /\ exists v, s = Ok v /\ belongs t v end.

  Lemma front_in : forall ds visited k, Forall dep_good ds -> In k (map fst (ftree visited ds)) -> ~ In k visited.
  Proof.
    induction ds as [|[[[d t] s]|] ds IH]; intros visited k F H; [contradiction| |inversion F; subst; cbn in H; apply IH; auto].
    pose proof (Forall_inv_tail F) as F'. apply Forall_inv in F. cbn [dep_good] in F. destruct F as (PD & v & -> & B). unfold ftree in *. cbn [front_tree] in H. destruct (is_visited d visited) eqn:E; [now apply IH|].
    cbn [map fst In] in H. destruct H as [<-|H].
    - intros HI. apply visited_yes in HI. congruence.
    - specialize (IH (visited ++ [d]) k F' H). intros HI. apply IH. apply in_or_app. now left.
  Qed.

  Lemma front_nodup : forall ds visited, Forall dep_good ds -> NoDup (map fst (ftree visited ds)).
  Proof.
    induction ds as [|[[[d t] s]|] ds IH]; intros visited F; [constructor| |inversion F; subst; apply IH; auto].
    pose proof (Forall_inv_tail F) as F'. apply Forall_inv in F. cbn [dep_good] in F. destruct F as (PD & v & -> & B). unfold ftree in *. cbn [front_tree]. destruct (is_visited d visited); [now apply IH|].
    cbn [map fst]. constructor; [|now apply IH]. intros HI. apply (front_in ds (visited ++ [d]) d F' HI). apply in_or_app. right. now left.
  Qed.

  (** Every dependent name is in front, with the value of the first one. *)
  Lemma front_has : forall ds visited d t v, Forall dep_good ds -> In (Some (d, t, Ok v)) ds -> ~ In d visited ->
    (forall t' s', In (Some (d, t', s')) ds -> t' = t /\ s' = Ok v) ->
    In (d, tree (o_errutf8 o) (o_7bit o) t v) (ftree visited ds).
  Proof.
    induction ds as [|[[[d1 t1] s1]|] ds IH]; intros visited d t v F HI NV AG; [contradiction| |].
    - pose proof (Forall_inv_tail F) as F'. apply Forall_inv in F. cbn [dep_good] in F. destruct F as (PD & v1 & -> & B). unfold ftree in *. cbn [front_tree]. destruct (list_eq_dec N.eq_dec d1 d) as [->|ND].
      + destruct (AG t1 (Ok v1) (or_introl eq_refl)) as [-> [= ->]]. destruct (is_visited d visited) eqn:E; [apply visited_yes in E; contradiction|]. now left.
      + destruct HI as [[= -> -> ->]|HI]; [congruence|]. destruct (is_visited d1 visited).
        * apply IH; auto. intros t' s' H. apply AG. now right.
        * right. apply IH; auto; [|intros t' s' H; apply AG; now right]. intros H. apply in_app_or in H as [H|[H|[]]]; [contradiction|congruence].
    - inversion F; subst. destruct HI as [HI|HI]; [discriminate|]. unfold ftree in *. cbn [front_tree]. apply IH; auto. intros t' s' H. apply AG. now right.
  Qed.

  Lemma front_from : forall ds visited k w, Forall dep_good ds -> In (k, w) (ftree visited ds) ->
    exists t v, In (Some (k, t, Ok v)) ds /\ w = tree (o_errutf8 o) (o_7bit o) t v.
  Proof.
    induction ds as [|[[[d t] s]|] ds IH]; intros visited k w F H; [contradiction| |].
    - pose proof (Forall_inv_tail F) as F'. apply Forall_inv in F. cbn [dep_good] in F. destruct F as (PD & v & -> & B). unfold ftree in *. cbn [front_tree] in H. destruct (is_visited d visited).
      + destruct (IH _ _ _ F' H) as (t' & v' & I' & E'). exists t', v'. split; [now right|exact E'].
      + destruct H as [[= <- <-]|H]; [exists t, v; split; [now left|reflexivity]|].
        destruct (IH _ _ _ F' H) as (t' & v' & I' & E'). exists t', v'. split; [now right|exact E'].
    - inversion F as [|? ? _ F']; subst. unfold ftree in *. cbn [front_tree] in H. destruct (IH _ _ _ F' H) as (t' & v' & I' & E'). exists t', v'. split; [now right|exact E'].
  Qed.

  Lemma dependent_members_good : forall lvl ds is_first visited, Forall dep_good ds ->
    exists t1 f, dependent_members o lvl is_first visited ds = Ok (t1, f, visited ++ map fst (ftree visited ds)) /\
      forall es rest, members_good o es rest ->
      exists body, t1 ++ sep f es ++ rest = sep is_first (ftree visited ds ++ es) ++ body /\ members_good o (ftree visited ds ++ es) body.
  Proof.
    intros lvl. induction ds as [|[[[d t] s]|] ds IH]; intros is_first visited F.
    - exists [], is_first. cbn [dependent_members]. unfold ftree. cbn [front_tree map app]. rewrite app_nil_r. split; [reflexivity|]. intros es rest G. exists rest. auto.
    - pose proof (Forall_inv_tail F) as F'. apply Forall_inv in F. cbn [dep_good] in F. destruct F as (PD & v & -> & B). cbn [dependent_members]. unfold ftree in *. cbn [front_tree]. destruct (is_visited d visited) eqn:E; [now apply IH|].
      cbn [bind]. destruct (to_json_good o HT HLay t lvl v B) as (tx & -> & G). cbn [bind].
      destruct (IH false (visited ++ [d]) F') as (t1 & f & -> & K). cbn [bind]. eexists _, f. split.
      { cbn [map fst]. rewrite <- app_assoc. cbn [app]. reflexivity. }
      intros es rest GR. destruct (K es rest GR) as (body & EB & GB).
      assert (NB : is_bytes d) by (unfold is_bytes; eapply Forall_impl; [|exact PD]; cbn; intros a Ha; lia).
      pose proof (members_cons o HLay lvl d _ _ tx body (plain_name_rfc _ PD) NB G GB) as M.
      eexists. split; [|exact M].
      assert (EQ : t1 ++ sep f es ++ rest = match front_tree (o_errutf8 o) (o_7bit o) (visited ++ [d]) ds ++ es with [] => [] | _ => [44] end ++ body) by exact EB.
      cbn [app sep]. rewrite <- EQ. repeat (rewrite <- ?app_assoc; cbn [app]). reflexivity.
    - inversion F as [|? ? _ F']; subst. cbn [dependent_members]. unfold ftree in *. cbn [front_tree]. now apply IH.
  Qed.

  Lemma mclass_out : forall lvl untag mm xs vs, Forall dep_good (map (dependent untag mm xs) mm) ->
    rows row_good (wmembers o (S lvl) mm) xs vs -> NoDup (map fst mm) ->
    let F := ftree [] (map (dependent untag mm xs) mm) in
    exists out, serialize_mclass o lvl untag mm xs = Ok out /\ good o (JObj (F ++ kept (map fst F) (wmembers o (S lvl) mm) xs vs)) out.
  Proof.
    intros lvl untag mm xs vs HD R ND F. unfold serialize_mclass.
    destruct (dependent_members_good (S lvl) _ true [] HD) as (t1 & f & E & K). rewrite E. cbn [bind app]. fold F in K |- *.
    assert (EN : map wm_name (wmembers o (S lvl) mm) = map fst mm) by (unfold wmembers; rewrite map_map; reflexivity).
    destruct (class_members_kept (S lvl) (map fst F) _ _ _ R ltac:(rewrite EN; exact ND) f (map fst F)) as (body & EB & GB); [tauto|].
    rewrite EB. cbn [bind]. destruct (K _ _ GB) as (body' & EQ & GB').
    eexists. split; [reflexivity|]. rewrite (app_assoc t1), EQ.
    replace (sep true (F ++ kept (map fst F) (wmembers o (S lvl) mm) xs vs)) with (@nil N) by (destruct (F ++ kept (map fst F) (wmembers o (S lvl) mm) xs vs); reflexivity).
    cbn [app]. apply obj_good; auto. destruct mm; [|discriminate]. intros _. unfold F, ftree. cbn. inversion R; subst. reflexivity.
  Qed.
End Out.

(** ** The values of a class *)
Section Class.
  Context (o : sopt).
  Hypothesis HT : o_trailing o = false.
  Hypothesis HLay : layout o.
  Context (untag : list N -> list val -> val) (mm : list (list N * mty)) (xs : list val).
  Hypothesis HV : class_value untag mm xs.
  Let tr := tree (o_errutf8 o) (o_7bit o).

  Inductive shown : mty -> val -> jv -> Prop :=
  | sh_plain : forall t x, belongs t x -> shown (MPlain t) x (tr t x)
  | sh_tagged : forall ex tag t switch alts i y a, nth_error alts i = Some a -> belongs a y -> y <> VNone ->
      shown (MTagged ex tag t switch alts) (VVariant i y) (tr a y)
  | sh_sized : forall name sz t z es, Forall (belongs t) es -> shown (MSized name sz t) (VTuple [z; VArr es]) (tr (TArr t) (VArr es))
  | sh_raw : forall v, legal rfc_body v -> is_bytes (compact v) -> shown MRaw (VStr (compact v)) v.

  Lemma belongs_shown : forall nm m x, member_belongs untag mm xs nm m x -> exists v, shown m x v.
  Proof.
    intros nm m x H. destruct m as [t|ex tag t switch alts|name sz t|]; cbn [member_belongs] in H.
    - eexists. now constructor.
    - destruct H as (y & a & -> & NA & B & NY). eexists. econstructor; eauto.
    - destruct H as (_ & z & es & -> & F & _). eexists. now constructor.
    - destruct H as (v & -> & L & B). exists v. now constructor.
  Qed.

  Lemma shown_good : forall m x v lvl, shown m x v -> exists t, write_mty o m lvl x = Ok t /\ good o v t.
  Proof.
    intros m x v lvl H. destruct H as [t x B|ex tag t switch alts i y a NA B NY|name sz t z es F|v L B]; cbn [write_mty].
    - now apply to_json_good.
    - rewrite NA. now apply to_json_good.
    - apply (to_json_good o HT HLay (TArr t) lvl (VArr es)). exists es. auto.
    - eexists. split; [reflexivity|]. split; [now apply compact_jtext|]. auto.
  Qed.

  Lemma combine_rows : forall (P : list N * mty -> val -> Prop) mm xs, length mm = length xs -> (forall m x, In (m, x) (combine mm xs) -> P m x) -> Forall2 P mm xs.
  Proof.
    induction mm0 as [|m mm0 IH]; intros [|x xs0] L H; try discriminate; constructor.
    - apply H. now left.
    - apply IH; [now injection L|]. intros m' x' Hi. apply H. now right.
  Qed.

  Lemma shown_all : exists vs, rows (fun m x v => shown (snd m) x v) mm xs vs.
  Proof.
    destruct HV as (L & ND & PN & HB & HD).
    assert (F : Forall2 (fun m x => exists v, shown (snd m) x v) mm xs).
    { apply combine_rows; [exact L|]. intros [nm m] x HI. eapply belongs_shown. apply HB. exact HI. }
    clear - F. induction F as [|m x mm xs (v & H) F (vs & IH)]; [exists []; constructor|]. exists (v :: vs). now constructor.
  Qed.

  Lemma rows_good : forall lvl vs, rows (fun m x v => shown (snd m) x v) mm xs vs -> rows (row_good o) (wmembers o lvl mm) xs vs.
  Proof.
    destruct HV as (_ & _ & PN & _ & _). unfold names in PN. intros lvl vs R. clear HV. induction R as [|m x v mm0 xs0 vs H R IH]; cbn [wmembers map]; constructor.
    - cbn [map] in PN. inversion PN; subst. split; [assumption|]. intros _. cbn [wm_write]. now apply shown_good.
    - apply IH. cbn [map] in PN. now inversion PN.
  Qed.

  Lemma pack_in : forall name x mm xs, pack_value name mm xs = Ok x -> exists m, In ((name, m), x) (combine mm xs).
  Proof.
    induction mm0 as [|[nm m] mm0 IH]; intros [|y xs0] E; try discriminate. cbn [pack_value fst] in E. cbn [combine].
    destruct (list_eq_dec N.eq_dec nm name) as [->|].
    - injection E as ->. exists m. now left.
    - destruct (IH _ E) as (m' & H). exists m'. now right.
  Qed.

  Lemma pack_of : forall name m x mm xs, NoDup (map fst mm) -> In ((name, m), x) (combine mm xs) -> pack_value name mm xs = Ok x.
  Proof.
    induction mm0 as [|[nm m0] mm0 IH]; intros [|y xs0] ND HI; try contradiction. cbn [combine map fst] in *. inversion ND as [|? ? NI ND']; subst. cbn [pack_value fst].
    destruct HI as [[= -> -> ->]|HI]; [destruct (list_eq_dec N.eq_dec name name); [reflexivity|congruence]|].
    destruct (list_eq_dec N.eq_dec nm name) as [->|]; [|now apply IH]. exfalso. apply NI. change name with (fst (name, m)). apply in_map. eapply in_combine_l; eauto.
  Qed.

  Lemma in_member : forall m, In m mm -> exists x, member_is mm xs (fst m) (snd m) x.
  Proof.
    destruct HV as (L & _). unfold member_is. clear HV. revert xs L. induction mm as [|m0 mm0 IH]; intros [|x xs0] L m HI; try discriminate; [contradiction|].
    injection L as L. destruct HI as [->|HI]; [exists x; left; now destruct m|]. destruct (IH _ L _ HI) as (y & Hy). exists y. now right.
  Qed.

  (** The dependent members are those of the specification. *)
  Lemma dependent_is : forall m d t s, In m mm -> dependent untag mm xs m = Some (d, t, s) -> exists v, s = Ok v /\ depends untag mm xs (fst m) (snd m) d t v.
  Proof.
    intros [nm m] d t s HI E. unfold dependent in E. cbn [fst snd] in *. destruct m as [t0|ex tag t0 switch alts|name sz t0|]; try discriminate; injection E as <- <- <-.
    - eexists. split; [reflexivity|]. repeat split.
    - destruct (in_member _ HI) as (x & HX). destruct HV as (L & ND & PN & HB & HD). pose proof (HB _ _ _ HX) as (_ & z & es & _ & _ & HZ).
      exists (VInt z). split; [eapply pack_of; eauto|]. repeat split. exact HZ.
  Qed.

  Lemma depends_is : forall nm m d t v, In (nm, m) mm -> depends untag mm xs nm m d t v -> dependent untag mm xs (nm, m) = Some (d, t, Ok v).
  Proof.
    intros nm m d t v HI H. unfold dependent. cbn [fst snd]. destruct m as [t0|ex tag t0 switch alts|name sz t0|]; cbn [depends] in H; try contradiction; destruct H as (-> & -> & H).
    - now subst.
    - destruct HV as (_ & ND & _). do 2 f_equal. eapply pack_of; eauto.
  Qed.

  Lemma deps_good : Forall dep_good (map (dependent untag mm xs) mm).
  Proof.
    apply Forall_forall. intros d Hd. apply in_map_iff in Hd as ([nm m] & <- & HI). destruct (dependent untag mm xs (nm, m)) as [[[d t] s]|] eqn:E; [|exact I].
    destruct (dependent_is _ _ _ _ HI E) as (v & -> & D). cbn [fst snd] in D. destruct HV as (_ & _ & _ & _ & HD). destruct (HD _ _ _ _ _ HI D) as (PD & B & _).
    split; [exact PD|]. eauto.
  Qed.

  Let F := front_tree (o_errutf8 o) (o_7bit o) [] (map (dependent untag mm xs) mm).

  Lemma front_spec : forall k w, In (k, w) F -> exists nm m t s, In (nm, m) mm /\ depends untag mm xs nm m k t s /\ belongs t s /\ w = tr t s.
  Proof.
    intros k w H. destruct (front_from o _ _ _ _ deps_good H) as (t & v & HI & ->). apply in_map_iff in HI as ([nm m] & E & HI).
    destruct (dependent_is _ _ _ _ HI E) as (v' & [= <-] & D). exists nm, m, t, v. destruct HV as (_ & _ & _ & _ & HD). repeat split; auto. now apply (HD _ _ _ _ _ HI D).
  Qed.

  Lemma front_dep : forall nm m d t s, In (nm, m) mm -> depends untag mm xs nm m d t s -> In (d, tr t s) F.
  Proof.
    intros nm m d t s HI D. apply front_has; [exact deps_good| |intros []|].
    - apply in_map_iff. exists (nm, m). split; [now apply depends_is|exact HI].
    - intros t' s' H. apply in_map_iff in H as ([nm' m'] & E & HI'). destruct (dependent_is _ _ _ _ HI' E) as (v' & -> & D').
      destruct HV as (_ & _ & _ & _ & HD). destruct (HD _ _ _ _ _ HI D) as (_ & _ & AG & _). destruct (AG _ _ _ _ HI' D') as [-> ->]. auto.
  Qed.

  Context (vs : list jv).
  Hypothesis HR : rows (fun m x v => shown (snd m) x v) mm xs vs.
  Context (lvl : nat).
  Let K := kept (map fst F) (wmembers o lvl mm) xs vs.
  Let js := F ++ K.

  Lemma kept_in : forall deps mm xs vs k w, In (k, w) (kept deps (wmembers o lvl mm) xs vs) -> In k (map fst mm) /\ ~ In k deps.
  Proof.
    intros deps. induction mm0 as [|[nm m] mm0 IH]; intros [|x xs0] [|v vs0] k w H; try contradiction. cbn [wmembers map kept wm_name wm_null fst snd] in H. cbn [map fst In].
    destruct (is_visited nm deps) eqn:E; [apply IH in H; tauto|].
    match type of H with In _ (if ?b then _ else _) => destruct b end; [apply IH in H; tauto|].
    destruct H as [[= -> ->]|H]; [|apply IH in H; tauto]. split; [now left|]. intros HI. apply visited_yes in HI. congruence.
  Qed.

  Lemma kept_nodup : forall deps mm xs vs, NoDup (map fst mm) -> NoDup (map fst (kept deps (wmembers o lvl mm) xs vs)).
  Proof.
    intros deps. induction mm0 as [|[nm m] mm0 IH]; intros [|x xs0] [|v vs0] ND; try constructor. cbn [wmembers map kept wm_name wm_null fst snd] in *. inversion ND as [|? ? NI ND']; subst.
    destruct (is_visited nm deps); [now apply IH|].
    match goal with |- NoDup (map fst (if ?b then _ else _)) => destruct b end; [now apply IH|].
    cbn [map fst]. constructor; [|now apply IH]. intros HI. apply in_map_iff in HI as ([k w] & <- & HI). apply kept_in in HI. tauto.
  Qed.

  Lemma js_nodup : NoDup (map fst js).
  Proof.
    unfold js. rewrite map_app. apply nodup_app; [apply (front_nodup o); exact deps_good|apply kept_nodup; apply HV|].
    intros k H1 H2. apply in_map_iff in H2 as ([k' w] & <- & H2). apply kept_in in H2. cbn [fst] in *. tauto.
  Qed.

  Definition gone (m : mty) (x : val) : bool := mty_nullable m && negb (has_value x).

  Lemma kept_app : forall deps m1 x1 v1 m2 x2 v2, length m1 = length x1 -> length x1 = length v1 ->
    kept deps (wmembers o lvl (m1 ++ m2)) (x1 ++ x2) (v1 ++ v2) = kept deps (wmembers o lvl m1) x1 v1 ++ kept deps (wmembers o lvl m2) x2 v2.
  Proof.
    intros deps. induction m1 as [|[nm m] m1 IH]; intros [|x x1] [|v v1] m2 x2 v2 L1 L2; try discriminate; [reflexivity|]. injection L1 as L1. injection L2 as L2.
    cbn [app wmembers map kept wm_name wm_null fst snd]. fold (wmembers o lvl (m1 ++ m2)). fold (wmembers o lvl m1). fold (wmembers o lvl m2). rewrite (IH x1 v1 m2 x2 v2 L1 L2).
    destruct (is_visited nm deps); [reflexivity|].
    match goal with |- (if ?b then _ else _) = _ => destruct b end; reflexivity.
  Qed.

  Lemma rows_split : forall (P : list N * mty -> val -> jv -> Prop) mm xs vs m x, rows P mm xs vs -> In (m, x) (combine mm xs) ->
    exists m1 x1 v1 v m2 x2 v2, mm = m1 ++ m :: m2 /\ xs = x1 ++ x :: x2 /\ vs = v1 ++ v :: v2 /\ length m1 = length x1 /\ length x1 = length v1 /\
      rows P m1 x1 v1 /\ P m x v.
  Proof.
    intros P mm0 xs0 vs0 m x R. induction R as [|a b c la lb lc H R IH]; intros HI; [contradiction|]. cbn [combine] in HI. destruct HI as [[= -> ->]|HI].
    - exists [], [], [], c, la, lb, lc. repeat split; auto. constructor.
    - destruct (IH HI) as (m1 & x1 & v1 & v & m2 & x2 & v2 & -> & -> & -> & L1 & L2 & R1 & HP). exists (a :: m1), (b :: x1), (c :: v1), v, m2, x2, v2.
      repeat split; cbn [length]; auto; try lia. now constructor.
  Qed.

  (** A member that is there *)
  Lemma present : forall deps nm m x v m1 x1 v1 m2 x2 v2, length m1 = length x1 -> length x1 = length v1 -> gone m x = false -> ~ In nm deps ->
    kept deps (wmembers o lvl (m1 ++ (nm, m) :: m2)) (x1 ++ x :: x2) (v1 ++ v :: v2) =
    kept deps (wmembers o lvl m1) x1 v1 ++ (nm, v) :: kept deps (wmembers o lvl m2) x2 v2.
  Proof.
    intros deps nm m x v m1 x1 v1 m2 x2 v2 L1 L2 G ND. rewrite kept_app by auto. f_equal. cbn [wmembers map kept wm_name wm_null fst snd].
    destruct (is_visited nm deps) eqn:E; [apply visited_yes in E; contradiction|]. fold (wmembers o lvl m2).
    unfold gone in G. destruct (mty_nullable m); cbn [andb] in G; rewrite ?G; reflexivity.
  Qed.

  Lemma dep_mapped : forall nm m x v, member_is mm xs nm m x -> shown m x v -> In nm (map fst F) -> In (nm, v) F.
  Proof.
    intros nm m x v HI HS HF. apply in_map_iff in HF as ([k w] & E & HF). cbn [fst] in E. subst k.
    destruct (front_spec _ _ HF) as (nm' & m' & t & s & HI' & D & B & ->). destruct HV as (_ & _ & _ & _ & HD).
    destruct (HD _ _ _ _ _ HI' D) as (_ & _ & _ & PL). destruct (PL _ _ HI) as [-> ->]. inversion HS; subst. exact HF.
  Qed.

  Lemma js_lookup : forall nm m x, member_is mm xs nm m x -> gone m x = false -> exists v, shown m x v /\ lookup nm js = Some v.
  Proof.
    intros nm m x HI G. destruct (rows_split _ _ _ _ _ _ HR HI) as (m1 & x1 & v1 & v & m2 & x2 & v2 & E1 & E2 & E3 & L1 & L2 & _ & HS). cbn [snd] in HS.
    exists v. split; [exact HS|]. apply lookup_in; [exact js_nodup|]. unfold js. apply in_or_app.
    destruct (in_dec (list_eq_dec N.eq_dec) nm (map fst F)) as [HF|HF]; [left; eapply dep_mapped; eauto|]. right. unfold K. generalize HF. generalize (map fst F). intros deps HF'.
    rewrite E1, E2, E3, present by auto. apply in_or_app. right. now left.
  Qed.

  Lemma js_names : forall k, In k (map fst js) -> written untag mm xs k.
  Proof.
    intros k H. unfold js in H. rewrite map_app in H. apply in_app_or in H as [H|H]; apply in_map_iff in H as ([k' w] & E & H); cbn [fst] in E; subst k'.
    - right. destruct (front_spec _ _ H) as (nm & m & t & s & HI & D & _). exists nm, m, t, s. auto.
    - left. apply kept_in in H. apply H.
  Qed.

  Lemma shown_not_null : forall m x v, shown m x v -> m <> MRaw -> x <> VNone -> v <> JNull.
  Proof.
    assert (T : forall t x, belongs t x -> x <> VNone -> tr t x <> JNull).
    { intros t x B NX. destruct (is_nullable t) eqn:E; [|now apply tree_not_null]. destruct t; try discriminate E. cbn [belongs] in B. destruct B as (N1 & [->|(y & -> & B)]); [congruence|].
      unfold tr. cbn [tree]. now apply tree_not_null. }
    intros m x v H NR NX. destruct H; try (apply T; assumption); [discriminate|congruence].
  Qed.

  Lemma before_split : forall nm (a b : list (list N)), ~ In nm a -> before nm (a ++ nm :: b) = a.
  Proof.
    induction a as [|n a IH]; intros b NI; cbn [app before].
    - destruct (list_eq_dec N.eq_dec nm nm); [reflexivity|congruence].
    - cbn [In] in NI. destruct (list_eq_dec N.eq_dec n nm); [tauto|]. f_equal. apply IH. tauto.
  Qed.

  Lemma turn : forall nm m x, member_is mm xs nm m x -> gone m x = false -> ~ In nm (map fst F) -> all_before mm xs nm ->
    (forall n m' x', member_is mm xs n m' x' -> m' <> MRaw) -> in_turn (map fst mm) js nm.
  Proof.
    intros nm m x HI G NF AB NR. destruct (rows_split _ _ _ _ _ _ HR HI) as (m1 & x1 & v1 & v & m2 & x2 & v2 & E1 & E2 & E3 & L1 & L2 & R1 & HS). cbn [snd] in HS.
    pose proof js_nodup as ND. destruct HV as (_ & NDm & _). unfold names in NDm.
    assert (EB : before nm (map fst mm) = map fst m1).
    { rewrite E1, map_app in *. cbn [map fst] in *. apply before_split. apply NoDup_remove_2 in NDm. intros H. apply NDm. apply in_or_app. now left. }
    intros a w b EJ n HN. unfold names in AB. unfold all_before, names in AB. rewrite EB in *.
    assert (EA : F ++ kept (map fst F) (wmembers o lvl m1) x1 v1 = a).
    { assert (EQ : js = (F ++ kept (map fst F) (wmembers o lvl m1) x1 v1) ++ (nm, v) :: kept (map fst F) (wmembers o lvl m2) x2 v2).
      { unfold js, K. rewrite <- app_assoc. f_equal. generalize NF. generalize (map fst F). intros deps NF'. rewrite E1, E2, E3. now apply present. }
      eapply split_unique; [|rewrite <- EQ; exact EJ]. rewrite <- EQ. exact ND. }
    apply in_map_iff in HN as ([n' m'] & E & HN). cbn [fst] in E. subst n'.
    assert (X : exists x', In ((n, m'), x') (combine m1 x1)).
    { clear - HN L1. revert x1 L1. induction m1 as [|m0 m1 IH]; intros [|x x1] L1; try contradiction; try discriminate. injection L1 as L1.
      destruct HN as [->|HN]; [exists x; now left|]. destruct (IH HN _ L1) as (y & Hy). exists y. now right. }
    destruct X as (x' & HX). destruct (rows_split _ _ _ _ _ _ R1 HX) as (p1 & y1 & w1 & v' & p2 & y2 & w2 & Q1 & Q2 & Q3 & P1 & P2 & _ & HS'). cbn [snd] in HS'.
    assert (HM : member_is mm xs n m' x').
    { unfold member_is. rewrite E1, E2. clear - HX L1. revert x1 L1 HX. induction m1 as [|m0 m1 IH]; intros [|y x1] L1 HX; try contradiction; try discriminate. injection L1 as L1.
      cbn [app combine] in *. destruct HX as [HX|HX]; [now left|right; now apply IH]. }
    assert (NX : x' <> VNone). { apply (AB n m' x'); [|exact HM]. change n with (fst (n, m')). now apply in_map. }
    exists v'. split; [|apply (shown_not_null m' x'); auto; eapply NR; eauto].
    assert (NDa : NoDup (map fst a)).
    { rewrite EJ, map_app in ND. clear - ND. revert ND. generalize (map fst ((nm, w) :: b)). induction (map fst a) as [|y l IH]; intros l' ND; [constructor|]. inversion ND; subst. constructor; [|eapply IH; eauto].
      intros H. match goal with H1 : ~ In _ _ |- _ => apply H1 end. apply in_or_app. now left. }
    apply lookup_in; [exact NDa|]. rewrite <- EA. apply in_or_app.
    destruct (in_dec (list_eq_dec N.eq_dec) n (map fst F)) as [HF|HF]; [left; eapply dep_mapped; eauto|]. right.
    assert (G' : gone m' x' = false) by (unfold gone; destruct x'; cbn; rewrite ?andb_false_r; congruence).
    generalize HF. generalize (map fst F). intros deps HF'. rewrite Q1, Q2, Q3, present by auto. apply in_or_app. right. now left.
  Qed.
End Class.
