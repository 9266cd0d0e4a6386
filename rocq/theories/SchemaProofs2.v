(** The schema conforms to the draft, and what is written is valid against it. *)
From Coq Require Import String.
From Coq Require Import List NArith ZArith QArith Bool Lia Arith ZifyBool ZifyNat ZifyN.
From Verif Require Import Base Mem SpecNum SpecText SpecJson SpecTyped StrEncodeModel IntModel ValueModel IntSerModel IntSerProofs TypedSafe SerModel SpecSer SerProofs SerProofs2 SpecSchema SchemaModel SchemaProofs.
From Verif Require SpecReal.
Import ListNotations.
Local Open Scope N_scope.

(** ** Conformance *)

Definition schemas_2020 := fix all (ss : list jv) : Prop := match ss with [] => True | s' :: ss' => schema_2020 s' /\ all ss' end.
Definition properties_2020 := fix properties (ps : list (list N * jv)) : Prop :=
  match ps with [] => True | (_, s') :: ps' => schema_2020 s' /\ properties ps' end.

Lemma conform_class : forall ss, NoDup (map fst ss) -> Forall (fun s : list N * (bool * jv) => schema_2020 (snd (snd s))) ss -> schema_2020 (JObj (class_keywords ss)).
Proof.
  intros ss ND H. destruct ss as [|s0 ss0] eqn:ES; [split; [constructor|exact I]|]. rewrite <- ES in *. unfold class_keywords. rewrite ES. rewrite <- ES. clear ES s0 ss0.
  split; [vm_compute; repeat constructor; cbn; intuition discriminate|].
  split; [vm_compute; tauto|]. split; [|split; [|exact I]].
  - change (NoDup (map fst (map (fun m : list N * (bool * jv) => (fst m, snd (snd m))) ss)) /\ properties_2020 (map (fun m : list N * (bool * jv) => (fst m, snd (snd m))) ss)).
    rewrite map_map. cbn [fst]. split; [exact ND|]. clear ND. induction H as [|s ss H HF IH]; [exact I|]. cbn [map properties_2020]. auto.
  - change (NoDup (map (fun m => JStr (fst m)) (filter (fun m : list N * (bool * jv) => negb (fst (snd m))) ss)) /\
            Forall (fun n => exists k, n = JStr k) (map (fun m => JStr (fst m)) (filter (fun m : list N * (bool * jv) => negb (fst (snd m))) ss))).
    clear H. split.
    + induction ss as [|s ss IH]; [constructor|]. cbn [map filter] in *. inversion ND; subst. destruct (negb (fst (snd s))); auto. cbn [map]. constructor; auto.
      intros HI. apply in_map_iff in HI as (m & E & HI). injection E as E. apply H1. apply filter_In in HI as [HI _]. rewrite <- E. now apply in_map.
    + apply Forall_forall. intros n HI. apply in_map_iff in HI as (m & <- & _). eauto.
Qed.

Lemma conform_oneof : forall ts, ts <> [] -> Forall (fun t => schema_2020 (JObj (keywords t))) ts ->
  schema_2020 (JObj [(bytes "oneOf", JArr (map (fun t => JObj (keywords t)) ts))]).
Proof.
  intros ts NE H. split; [vm_compute; repeat constructor; cbn; tauto|]. split; [|exact I].
  change (map (fun t => JObj (keywords t)) ts <> [] /\ schemas_2020 (map (fun t => JObj (keywords t)) ts)).
  split; [destruct ts; [congruence|discriminate]|]. clear NE. induction H as [|t ts H HF IH]; [exact I|]. cbn [map schemas_2020]. auto.
Qed.

Lemma conform_two : forall s k a, In s ["array"; "object"]%string -> (k = "items" \/ k = "additionalProperties")%string -> schema_2020 a ->
  schema_2020 (JObj [type_is s; (bytes k, a)]).
Proof.
  intros s k a HS [-> | ->] HA; (split; [vm_compute; repeat constructor; cbn; intuition discriminate|]); (split; [|split; [exact HA|exact I]]);
    cbn [In] in HS; destruct HS as [<-|[<-|[]]]; vm_compute; tauto.
Qed.

Theorem schema_conforms : forall P t, mapped P t -> no_tuples t -> schema_2020 (JObj (keywords t)).
Proof.
  intros P. unfold mapped, no_tuples. induction t using ty_nested; intros HM HT; cbn [keywords]; pose proof HM as HM0; pose proof HT as HT0; cbn [everywhere] in HM, HT;
    destruct HM as [HH HM]; destruct HT as [HI HT].
  - split; [vm_compute; repeat constructor; cbn; intuition discriminate|]. split; [vm_compute; tauto|]. split; [exact I|exact I].
  - split; [vm_compute; repeat constructor; cbn; tauto|]. split; [vm_compute; tauto|exact I].
  - split; [vm_compute; repeat constructor; cbn; tauto|]. split; [vm_compute; tauto|exact I].
  - split; [vm_compute; repeat constructor; cbn; tauto|]. split; [vm_compute; tauto|exact I].
  - now apply IHt.
  - apply conform_two; cbn [In]; auto.
  - apply conform_two; cbn [In]; auto.
  - apply everywhere_class in HM0. apply everywhere_class in HT0. apply conform_class.
    + rewrite map_map. cbn [fst]. apply HH.
    + clear HH HM HI HT. induction ms as [|[k t] ms IH]; cbn [map]; constructor; inversion H; inversion HM0; inversion HT0; subst; cbn [fst snd] in *; auto.
  - contradiction.
  - destruct HH as (NK & _). destruct HM as [Hk Hv]. destruct HT as [Hk' Hv']. apply conform_two; cbn [In]; auto. apply conform_class.
    + cbn [map fst]. constructor; [cbn [In]; intuition congruence|]. constructor; [intros []|constructor].
    + constructor; [cbn [snd]; auto|]. constructor; [cbn [snd]; auto|constructor].
  - split; [vm_compute; repeat constructor; cbn; tauto|]. split; [vm_compute; tauto|exact I].
  - apply conform_oneof; auto. apply everywhere_all in HM. apply everywhere_all in HT. clear - H HM HT.
    induction ts as [|t ts IH]; constructor; inversion H; inversion HM; inversion HT; subst; auto.
  - apply conform_oneof; auto. apply everywhere_all in HM. apply everywhere_all in HT. clear - H HM HT.
    induction ts as [|t' ts IH]; constructor; inversion H; inversion HM; inversion HT; subst; auto.
Qed.

Lemma keyword_names : forall t, In (map fst (keywords t)) (map (map bytes) [[]; ["type"]; ["type"; "minimum"]; ["type"; "items"]; ["type"; "additionalProperties"];
  ["type"; "properties"; "required"]; ["oneOf"]]%string).
Proof.
  induction t using ty_nested; cbn [keywords]; try exact IHt;
    match goal with |- In (map fst (class_keywords (map _ ?ms))) _ => destruct ms; cbn [map class_keywords] | _ => idtac end;
    unfold type_is; cbn [map fst In]; auto 10.
Qed.

Theorem document_conforms : forall P t id title, mapped P t -> no_tuples t -> schema_2020 (schema_doc t id title).
Proof.
  intros P t id title HM HT. destruct (schema_conforms P t HM HT) as [_ H]. unfold schema_doc. split.
  - pose proof (keyword_names t) as HK. rewrite map_app. revert HK. generalize (map fst (keywords t)). intros ks HK. cbn [In map] in HK.
    repeat (destruct HK as [<-|HK]; [vm_compute; repeat constructor; cbn; intuition discriminate|]). contradiction.
  - cbn [app]. repeat (split; [exact I|]). exact H.
Qed.

(** ** Validity *)

Lemma canonical_denotes : forall ds, canonical ds -> exists q, SpecReal.denotes ds q /\ (q == inject_Z (Z.of_N (dec_val ds)))%Q.
Proof.
  intros ds HC. exists (inject_Z 1 * SpecReal.magnitude ds [] 0)%Q. split.
  - replace ds with ([] ++ ds ++ [] ++ []) at 1 by (cbn [app]; now rewrite app_nil_r). apply (SpecReal.den [] ds [] [] 0); auto; constructor.
  - unfold SpecReal.magnitude, SpecReal.q_of_N, SpecReal.fract_digits, SpecReal.ten_pow. cbn. field.
Qed.
Lemma canonical_int_denotes : forall z tx, canonical_int z tx -> exists q, SpecReal.denotes tx q /\ (q == inject_Z z)%Q.
Proof.
  intros z tx H. unfold canonical_int in H. destruct (Z.ltb_spec z 0).
  - destruct H as (ds & -> & HC & HD). exists (inject_Z (-1) * SpecReal.magnitude ds [] 0)%Q. split.
    + replace (45 :: ds) with ([45] ++ ds ++ [] ++ []) by (cbn [app]; now rewrite app_nil_r). apply (SpecReal.den [45] ds [] [] 0); auto; constructor.
    + replace z with (- Z.of_N (dec_val ds))%Z by lia. unfold SpecReal.magnitude, SpecReal.q_of_N, SpecReal.fract_digits, SpecReal.ten_pow. rewrite inject_Z_opp. cbn. field.
  - destruct H as [HC <-]. now apply canonical_denotes.
Qed.

Definition properties_valid (v : jv) := fix properties (ps : list (list N * jv)) : Prop :=
  match ps with
  | [] => True
  | (n, s') :: ps' => match v with JObj js => forall e, In (n, e) js -> valid s' e | _ => True end /\ properties ps'
  end.
Definition exactly_valid (v : jv) := fix exactly (n : nat) (ss : list jv) : Prop :=
  match ss with
  | [] => n = 1%nat
  | s' :: ss' => valid s' v /\ exactly (S n) ss' \/ ~ valid s' v /\ exactly n ss'
  end.
Definition positions_valid := fix positions (ss : list jv) (es : list jv) : Prop :=
  match ss, es with
  | s' :: ss', e :: es' => valid s' e /\ positions ss' es'
  | _, _ => True
  end.

Lemma valid_type : forall s v, valid (JObj [type_is s]) v <-> has_type (bytes s) v.
Proof. intros s v. split; [intros [H _]; exact H|intros H; split; [exact H|exact I]]. Qed.
Lemma valid_unsigned : forall v, valid (JObj [type_is "integer"; (bytes "minimum", JNum [48])]) v <-> has_type (bytes "integer") v /\ at_least [48] v.
Proof. intros v. split; [intros (H1 & H2 & _); split; [exact H1|exact H2]|intros (H1 & H2); split; [exact H1|split; [exact H2|exact I]]]. Qed.
Lemma valid_array : forall kw v, valid (JObj [type_is "array"; (bytes "items", JObj kw)]) v <-> exists es, v = JArr es /\ Forall (valid (JObj kw)) es.
Proof.
  intros kw v. split.
  - intros (H1 & H2 & _). change (has_type (bytes "array") v) in H1. change (match v with JArr es => forall e, In e es -> valid (JObj kw) e | _ => True end) in H2.
    destruct v; cbn [has_type] in H1; try discriminate; [destruct H1 as [H1|[H1 _]]; discriminate|]. eexists. split; [reflexivity|]. now apply Forall_forall.
  - intros (es & -> & H). split; [exact (eq_refl (bytes "array"))|]. split; [|exact I]. change (forall e, In e es -> valid (JObj kw) e). now apply Forall_forall.
Qed.
Lemma valid_map : forall kw v, valid (JObj [type_is "object"; (bytes "additionalProperties", JObj kw)]) v <-> exists js, v = JObj js /\ Forall (fun j => valid (JObj kw) (snd j)) js.
Proof.
  intros kw v. split.
  - intros (H1 & H2 & _). change (has_type (bytes "object") v) in H1.
    change (match v with JObj js => forall n e, In (n, e) js -> ~ False -> valid (JObj kw) e | _ => True end) in H2.
    destruct v; cbn [has_type] in H1; try discriminate; [destruct H1 as [H1|[H1 _]]; discriminate|]. eexists. split; [reflexivity|]. apply Forall_forall. intros [n e] HI. apply (H2 n e HI). tauto.
  - intros (js & -> & H). split; [exact (eq_refl (bytes "object"))|]. split; [|exact I].
    change (forall n e, In (n, e) js -> ~ False -> valid (JObj kw) e). rewrite Forall_forall in H. intros n e HI _. exact (H (n, e) HI).
Qed.
Lemma valid_tuple : forall ss v, valid (JObj [type_is "array"; (bytes "items", JArr ss)]) v <-> exists es, v = JArr es /\ positions_valid ss es.
Proof.
  intros ss v. split.
  - intros (H1 & H2 & _). change (has_type (bytes "array") v) in H1. change (match v with JArr es => positions_valid ss es | _ => True end) in H2.
    destruct v; cbn [has_type] in H1; try discriminate; [destruct H1 as [H1|[H1 _]]; discriminate|]. eauto.
  - intros (es & -> & H). split; [exact (eq_refl (bytes "array"))|]. split; [exact H|exact I].
Qed.
Lemma valid_oneof : forall ss v, valid (JObj [(bytes "oneOf", JArr ss)]) v <-> exactly_valid v 0 ss.
Proof. intros ss v. split; [intros [H _]; exact H|intros H; split; [exact H|exact I]]. Qed.
Lemma valid_class : forall ss v, ss <> [] -> valid (JObj (class_keywords ss)) v <-> exists js, v = JObj js /\
  (forall s, In s ss -> forall e, In (fst s, e) js -> valid (snd (snd s)) e) /\ (forall s, In s ss -> fst (snd s) = false -> In (fst s) (map fst js)).
Proof.
  intros ss v NE. unfold class_keywords. destruct ss as [|s0 ss0] eqn:ES; [congruence|]. rewrite <- ES in *. clear ES s0 ss0 NE.
  assert (PV : forall js, properties_valid (JObj js) (map (fun m : list N * (bool * jv) => (fst m, snd (snd m))) ss) <->
    forall s, In s ss -> forall e, In (fst s, e) js -> valid (snd (snd s)) e).
  { intros js. induction ss as [|s ss IH]; [split; [intros _ s []|intros _; exact I]|]. cbn [map properties_valid]. split.
    - intros [H1 H2] s' [<-|HI]; [exact H1|]. now apply IH.
    - intros H. split; [apply (H s); now left|]. apply IH. intros s' HI. apply H. now right. }
  assert (RV : forall js, has_all (map (fun m => JStr (fst m)) (filter (fun m : list N * (bool * jv) => negb (fst (snd m))) ss)) (JObj js) <->
    forall s, In s ss -> fst (snd s) = false -> In (fst s) (map fst js)).
  { intros js. cbn [has_all]. split.
    - intros H s HI E. apply H. apply in_map_iff. exists s. split; [reflexivity|]. apply filter_In. rewrite E. auto.
    - intros H k HI. apply in_map_iff in HI as (s & E & HI). injection E as <-. apply filter_In in HI as [HI E]. apply H; auto. now destruct (fst (snd s)). }
  split.
  - intros (H1 & H2 & H3 & _). change (has_type (bytes "object") v) in H1. change (properties_valid v (map (fun m : list N * (bool * jv) => (fst m, snd (snd m))) ss)) in H2.
    change (has_all (map (fun m => JStr (fst m)) (filter (fun m : list N * (bool * jv) => negb (fst (snd m))) ss)) v) in H3.
    destruct v as [| | | | | |js]; cbn [has_type] in H1; try discriminate; [destruct H1 as [H1|[H1 _]]; discriminate|].
    exists js. split; [reflexivity|]. split; [now apply PV|now apply RV].
  - intros (js & -> & H2 & H3). split; [exact (eq_refl (bytes "object"))|]. split; [now apply PV|]. split; [now apply RV|exact I].
Qed.

(** What is valid against the schema of an alternative is of its kind. *)
Lemma valid_meant : forall t v, alternative t = true -> no_members t = false -> valid (JObj (keywords t)) v -> meant_for t v = true.
Proof.
  induction t using ty_nested; intros v HA HN HV; cbn [keywords] in HV; cbn [alternative no_members] in *.
  - apply valid_unsigned in HV as [HV _]. destruct v; try discriminate HV. reflexivity.
  - apply valid_type in HV. destruct v; try discriminate HV. reflexivity.
  - apply valid_type in HV. destruct v; try discriminate HV; try reflexivity. cbn [has_type] in HV. destruct HV as [HV|[HV _]]; discriminate.
  - apply valid_type in HV. destruct v; try discriminate HV; try reflexivity. cbn [has_type] in HV. destruct HV as [HV|[HV _]]; discriminate.
  - cbn [meant_for]. now apply IHt.
  - apply valid_array in HV as (es & -> & _). reflexivity.
  - apply valid_map in HV as (js & -> & _). reflexivity.
  - apply valid_class in HV as (js & -> & _); [reflexivity|]. destruct ms; [discriminate|discriminate].
  - apply valid_tuple in HV as (es & -> & _). reflexivity.
  - apply valid_array in HV as (es & -> & _). reflexivity.
  - apply valid_type in HV. destruct v; try discriminate HV; try reflexivity. cbn [has_type] in HV. destruct HV as [HV|[HV _]]; discriminate.
  - discriminate.
  - discriminate.
Qed.

(** Exactly one *)
Lemma exactly_none : forall v ss n, (forall s, In s ss -> ~ valid s v) -> n = 1%nat -> exactly_valid v n ss.
Proof. induction ss as [|s ss IH]; intros n H E; [exact E|]. cbn [exactly_valid]. right. split; [apply H; now left|]. apply IH; auto. intros s' HI. apply H. now right. Qed.
Lemma exactly_one : forall v ss i s, nth_error ss i = Some s -> valid s v -> (forall j s', nth_error ss j = Some s' -> i <> j -> ~ valid s' v) -> exactly_valid v 0 ss.
Proof.
  induction ss as [|s0 ss IH]; intros i s E HV HN; [destruct i; discriminate|]. cbn [exactly_valid]. destruct i as [|i]; cbn [nth_error] in E.
  - injection E as ->. left. split; [exact HV|]. apply exactly_none; auto. intros s' HI. apply In_nth_error in HI as (j & HJ). apply (HN (S j) s' HJ). discriminate.
  - right. split; [apply (HN O s0); [reflexivity|discriminate]|]. apply (IH i s); auto. intros j s' HJ NE. apply (HN (S j) s' HJ). congruence.
Qed.
Lemma exactly_some : forall v ss n, exactly_valid v n ss -> (n <= 1)%nat /\ (n = 0%nat -> exists i s, nth_error ss i = Some s /\ valid s v).
Proof.
  induction ss as [|s ss IH]; intros n H; cbn [exactly_valid] in H; [split; lia|]. destruct H as [[H1 H2]|[H1 H2]]; apply IH in H2 as [H2 H3].
  - split; [lia|]. intros _. exists O, s. auto.
  - split; [lia|]. intros E. destruct (H3 E) as (i & s' & HI & HV). exists (S i), s'. auto.
Qed.

Lemma null_free_elems : forall es, null_free (JArr es) <-> Forall null_free es.
Proof. intros es. cbn [null_free]. induction es as [|e es IH]; [split; auto|]. split; [intros [H1 H2]; constructor; tauto|intros H; inversion H; subst; tauto]. Qed.
Lemma null_free_members : forall js, null_free (JObj js) <-> Forall (fun j => null_free (snd j)) js.
Proof. intros js. cbn [null_free]. induction js as [|[k e] js IH]; [split; auto|]. split; [intros [H1 H2]; constructor; tauto|intros H; inversion H; subst; tauto]. Qed.

Section Written.
  Context (ei b7 : bool).

  Definition members_belong := fix members (mm : list (list N * ty)) (xs : list val) : Prop :=
    match mm, xs with
    | [], [] => True
    | (_, t) :: mm', y :: xs' => belongs t y /\ members mm' xs'
    | _, _ => False
    end.
  Definition elements_belong := fix elements (ts : list ty) (xs : list val) : Prop :=
    match ts, xs with
    | [], [] => True
    | t :: ts', y :: xs' => belongs t y /\ elements ts' xs'
    | _, _ => False
    end.

  Lemma members_written : forall mm xs, members_belong mm xs ->
    Forall (fun m => forall x, belongs (snd m) x -> null_free (tree ei b7 (snd m) x) -> valid (JObj (keywords (snd m))) (tree ei b7 (snd m) x)) mm ->
    Forall (fun j => null_free (snd j)) (members_tree ei b7 mm xs) ->
    (forall k e, In (k, e) (members_tree ei b7 mm xs) -> exists t, In (k, t) mm /\ valid (JObj (keywords t)) e) /\
    (forall k t, In (k, t) mm -> is_nullable t = false -> In k (map fst (members_tree ei b7 mm xs))).
  Proof.
    induction mm as [|[k t] mm IH]; intros [|y xs] HB HF HN; cbn [members_belong] in HB; try contradiction.
    { split; [intros k e []|intros k t []]. }
    destruct HB as [HY HB]. apply Forall_inv in HF as HF1. apply Forall_inv_tail in HF as HF2. cbn [members_tree snd] in *.
    destruct (is_nullable t && negb (has_value y)) eqn:EN.
    - destruct (IH xs HB HF2 HN) as [G1 G2]. split.
      + intros k' e HI. destruct (G1 k' e HI) as (t' & HI' & HV). exists t'. split; [now right|exact HV].
      + intros k' t' [E|HI] NN; [|eauto]. injection E as -> ->. rewrite NN in EN. discriminate.
    - apply Forall_inv in HN as HN1. apply Forall_inv_tail in HN as HN2. cbn [snd] in HN1. destruct (IH xs HB HF2 HN2) as [G1 G2]. split.
      + intros k' e [E|HI]; [|destruct (G1 k' e HI) as (t' & HI' & HV); exists t'; split; [now right|exact HV]].
        injection E as <- <-. exists t. split; [now left|]. now apply HF1.
      + intros k' t' [E|HI] NN; cbn [map fst]; [injection E as -> ->; now left|]. right. eauto.
  Qed.

  Lemma same_type : forall (mm : list (list N * ty)) k t t', NoDup (map fst mm) -> In (k, t) mm -> In (k, t') mm -> t = t'.
  Proof.
    induction mm as [|[k0 t0] mm IH]; intros k t t' ND HI HI'; [contradiction|]. cbn [map fst] in ND. inversion ND; subst.
    destruct HI as [E|HI], HI' as [E'|HI'].
    - congruence.
    - injection E as -> ->. exfalso. apply H1. now apply (in_map fst) in HI'.
    - injection E' as -> ->. exfalso. apply H1. now apply (in_map fst) in HI.
    - eauto.
  Qed.

  (** Classes *)
  Lemma class_valid : forall ex mm x, belongs (TClass ex mm) x ->
    Forall (fun m => forall x, belongs (snd m) x -> null_free (tree ei b7 (snd m) x) -> valid (JObj (keywords (snd m))) (tree ei b7 (snd m) x)) mm ->
    null_free (tree ei b7 (TClass ex mm) x) -> valid (JObj (keywords (TClass ex mm))) (tree ei b7 (TClass ex mm) x).
  Proof.
    intros ex mm x (ND & _ & xs & -> & HB) HF HN. change (members_belong mm xs) in HB.
    change (tree ei b7 (TClass ex mm) (VClass xs)) with (JObj (members_tree ei b7 mm xs)) in *. apply null_free_members in HN.
    destruct (members_written mm xs HB HF HN) as [G1 G2]. cbn [keywords]. destruct mm as [|m0 mm0] eqn:EM; [exact I|]. rewrite <- EM in *.
    apply valid_class; [rewrite EM; discriminate|]. clear EM m0 mm0. eexists. split; [reflexivity|]. split.
    - intros s HI e HE. apply in_map_iff in HI as ([k t] & <- & HI). cbn [fst snd] in *. destruct (G1 k e HE) as (t' & HI' & HV).
      now rewrite (same_type mm k t t' ND HI HI').
    - intros s HI E. apply in_map_iff in HI as ([k t] & <- & HI). cbn [fst snd] in *. eauto.
  Qed.

  (** Not valid against the schema of another alternative *)
  Lemma told_invalid : forall t1 t2 y, told t1 t2 -> alternative t1 = true -> belongs t1 y -> y <> VNone -> ~ valid (JObj (keywords t2)) (tree ei b7 t1 y).
  Proof.
    intros t1 t2 y [(HN & HA & HK)|(e1 & mm1 & e2 & mm2 & k & t & -> & -> & HI & NN & NI)] HA1 HB HY HV.
    - apply valid_meant in HV; auto. specialize (HK (tree ei b7 t1 y)). rewrite HV, tree_meant in HK by auto. discriminate.
    - destruct HB as (ND & _ & xs & -> & HB). change (tree ei b7 (TClass e1 mm1) (VClass xs)) with (JObj (members_tree ei b7 mm1 xs)) in HV.
      cbn [keywords] in HV. apply valid_class in HV as (js & E & _ & HR); [|destruct mm2; [contradiction|discriminate]]. injection E as <-.
      apply NI. eapply members_tree_in. apply (HR (k, (is_nullable t, JObj (keywords t)))); [|exact NN].
      apply in_map_iff. exists (k, t). auto.
  Qed.

  Lemma variant_valid : forall ts i t y, nth_error ts i = Some t -> alternative t = true -> belongs t y -> y <> VNone ->
    (forall i j t1 t2, nth_error ts i = Some t1 -> nth_error ts j = Some t2 -> i <> j -> told t1 t2) ->
    valid (JObj (keywords t)) (tree ei b7 t y) -> valid (JObj [(bytes "oneOf", JArr (map (fun t => JObj (keywords t)) ts))]) (tree ei b7 t y).
  Proof.
    intros ts i t y E HA HB HY HT HV. apply valid_oneof. apply (exactly_one _ _ i (JObj (keywords t))); auto.
    - now rewrite nth_error_map, E.
    - intros j s' HJ NE. rewrite nth_error_map in HJ. destruct (nth_error ts j) as [t2|] eqn:EJ; [|discriminate]. cbn [option_map] in HJ. injection HJ as <-.
      apply told_invalid; eauto.
  Qed.

  Definition pick_tree (y : val) := fix pick (alts : list ty) (i : nat) : jv :=
    match alts, i with
    | t :: _, O => tree ei b7 t y
    | _ :: alts', S i' => pick alts' i'
    | [], _ => JNull
    end.
  Lemma pick_nth : forall y alts i t, nth_error alts i = Some t -> pick_tree y alts i = tree ei b7 t y.
  Proof. induction alts as [|t0 alts IH]; intros [|i] t E; try discriminate; cbn [nth_error pick_tree] in *; [now injection E as ->|auto]. Qed.

  Lemma choose_variant : forall y alts i,
    (fix choose (alts : list ty) (i : nat) : Prop :=
       match alts, i with
       | t :: _, O => alternative t = true /\ belongs t y
       | t :: alts', S i' => (forall v, meant_for t v && meant_for (nth i' alts' TBool) v = false) /\ choose alts' i'
       | [], _ => False
       end) alts i -> exists t, nth_error alts i = Some t /\ alternative t = true /\ belongs t y.
  Proof. induction alts as [|t0 alts IH]; intros [|i] H; try contradiction; cbn [nth_error]; [exists t0; tauto|apply IH; tauto]. Qed.
  Lemma choose_intrusive : forall (C : ty -> Prop) alts i,
    (fix choose (alts : list ty) (j : nat) : Prop := match alts, j with t :: _, O => C t | _ :: alts', S j' => choose alts' j' | [], _ => False end) alts i ->
    exists t, nth_error alts i = Some t /\ C t.
  Proof. induction alts as [|t0 alts IH]; intros [|i] H; try contradiction; cbn [nth_error]; eauto. Qed.

  Theorem written_valid : forall t x, belongs t x -> mapped (fun _ => True) t -> apart t -> null_free (tree ei b7 t x) ->
    valid (JObj (keywords t)) (tree ei b7 t x).
  Proof.
    unfold mapped, apart. induction t using ty_nested; intros x HB HM HA HN; pose proof HM as HM0; pose proof HA as HA0; cbn [everywhere] in HM, HA;
      destruct HM as [HH HM]; destruct HA as [HI HA].
    - destruct HB as (HW & z & -> & HZ). cbn [tree keywords] in *.
      destruct (unsigned_out LSNever w (Z.to_N z) HW (width_Z w z HW HZ)) as (tx & HC & HD & ->). cbn [text_of quote_if app]. rewrite app_nil_r.
      destruct (canonical_denotes tx HC) as (q & D & Q). apply valid_unsigned. split.
      + cbn [has_type]. right. split; [reflexivity|]. exists q, (Z.of_N (dec_val tx)). auto.
      + cbn [at_least]. destruct (canonical_denotes [48]) as (q0 & D0 & Q0).
        { split; [repeat constructor; unfold is_dig; lia|]. split; [discriminate|]. intros r E. now injection E. }
        exists q0, q. split; [exact D0|]. split; [exact D|]. rewrite Q0, Q. cbn. rewrite <- Zle_Qle. lia.
    - destruct HB as (HW & z & -> & HZ & HX). cbn [tree keywords] in *.
      destruct (signed_out LSNever w z HW HZ) as (tx & HC & ->). cbn [text_of quote_if app]. rewrite app_nil_r.
      destruct (canonical_int_denotes z tx HC) as (q & D & Q). apply valid_type. cbn [has_type]. right. split; [reflexivity|]. exists q, z. auto.
    - destruct HB as (b & ->). cbn [tree keywords]. apply valid_type. now destruct b.
    - destruct HB as (s & -> & HU). cbn [tree keywords]. apply valid_type. reflexivity.
    - destruct HB as (NN & [->|(y & -> & HY)]); cbn [tree keywords] in *; [contradiction|]. now apply IHt.
    - destruct HB as (xs & -> & HX). cbn [tree keywords] in *. apply null_free_elems in HN. apply valid_array. eexists. split; [reflexivity|].
      rewrite Forall_map in *. rewrite Forall_forall in *. auto.
    - destruct HB as (kxs & -> & HX). cbn [tree keywords] in *. apply null_free_members in HN. apply valid_map. eexists. split; [reflexivity|].
      rewrite Forall_map in *. cbn [snd] in *. rewrite Forall_forall in *. intros kx HI'. apply IHt; auto. now apply HX.
    - apply everywhere_class in HM0. apply everywhere_class in HA0. apply class_valid; auto. clear - H HM0 HA0.
      induction ms as [|[k t] ms IH]; constructor; inversion H; inversion HM0; inversion HA0; subst; cbn [snd] in *; auto.
    - destruct HB as (xs & -> & HX). change (elements_belong ts xs) in HX. change (tree ei b7 (TTuple e ts) (VTuple xs)) with (JArr (elements_tree ei b7 ts xs)) in *.
      apply null_free_elems in HN. apply everywhere_all in HM. apply everywhere_all in HA. cbn [keywords]. apply valid_tuple. eexists. split; [reflexivity|].
      clear HM0 HA0 HH HI. revert xs HX HN. induction ts as [|t ts IH]; intros [|y xs] HX HN; try contradiction; [exact I|].
      cbn [elements_belong elements_tree map positions_valid] in *. inversion H; inversion HM; inversion HA; inversion HN; subst. destruct HX. split; auto.
    - destruct HB as (_ & _ & NK & xs & -> & _ & HX). destruct HM as [HMk HMv]. destruct HA as [HAk HAv]. cbn [tree keywords] in *. apply null_free_elems in HN.
      apply valid_array. eexists. split; [reflexivity|]. rewrite Forall_map in *. rewrite Forall_forall in *. intros y HY.
      destruct (HX y HY) as (a & b & -> & HB1 & HB2). specialize (HN _ HY). cbn beta iota in HN. apply null_free_members in HN. inversion HN; subst. inversion H2; subst. cbn [snd] in *.
      apply valid_class; [discriminate|]. eexists. split; [reflexivity|]. split.
      + intros s [<-|[<-|[]]] e' HE; cbn [fst snd] in *.
        * destruct HE as [E|[E|[]]]; injection E; intros; subst; [auto|congruence].
        * destruct HE as [E|[E|[]]]; injection E; intros; subst; [congruence|auto].
      + intros s [<-|[<-|[]]] _; cbn [map fst In]; auto.
    - destruct HB as (s & -> & HX). cbn beta iota in HH. subst k. cbn [tree keywords]. apply valid_type. reflexivity.
    - destruct HB as (i & y & -> & NY & HC). apply choose_variant in HC as (t & E & HAl & HB). apply everywhere_all in HM. apply everywhere_all in HA.
      change (tree ei b7 (TVariant ts) (VVariant i y)) with (pick_tree y ts i) in *. rewrite (pick_nth y ts i t E) in *. cbn [keywords].
      apply (variant_valid ts i); auto. pose proof (nth_error_In _ _ E) as IN. rewrite Forall_forall in *. apply (H t IN); auto.
    - destruct HB as (i & z & -> & HC). apply choose_intrusive in HC as (t' & E & HB & ex & m1 & m2 & xs1 & y & xs2 & -> & -> & _).
      apply everywhere_all in HM. apply everywhere_all in HA.
      change (tree ei b7 (TIntrusive e tag t sw ts) (VVariant i (VClass (xs1 ++ y :: xs2)))) with (pick_tree (VClass (xs1 ++ y :: xs2)) ts i) in *.
      rewrite (pick_nth _ ts i _ E) in *. cbn [keywords].
      apply (variant_valid ts i); auto; [discriminate|]. pose proof (nth_error_In _ _ E) as IN. rewrite Forall_forall in *. apply (H _ IN); auto.
  Qed.
End Written.
