(** The schema that is written, as a value, and its text. *)
From Coq Require Import String.
From Coq Require Import List NArith ZArith Bool Lia Arith ZifyBool ZifyNat ZifyN.
From Verif Require Import Base Mem SpecNum SpecText SpecJson SpecTyped StrEncodeModel ValueModel TypedSafe SerModel SpecSer SerProofs SerProofs2 SpecSchema SchemaModel.
Import ListNotations.
Local Open Scope N_scope.

(** ** The schema as a value *)

Definition type_is (s : string) : list N * jv := (bytes "type", JStr (bytes s)).
Definition class_keywords (ms : list (list N * (bool * jv))) : list (list N * jv) :=
  match ms with
  | [] => []
  | _ => [type_is "object"; (bytes "properties", JObj (map (fun m => (fst m, snd (snd m))) ms));
          (bytes "required", JArr (map (fun m => JStr (fst m)) (filter (fun m => negb (fst (snd m))) ms)))]
  end.
Fixpoint keywords (t : ty) : list (list N * jv) :=
  match t with
  | TBool => [type_is "boolean"]
  | TStr | TCustom _ => [type_is "string"]
  | TInt _ _ => [type_is "integer"]
  | TUInt _ _ => [type_is "integer"; (bytes "minimum", JNum [48])]
  | TNullable t => keywords t
  | TArr t => [type_is "array"; (bytes "items", JObj (keywords t))]
  | TMap t => [type_is "object"; (bytes "additionalProperties", JObj (keywords t))]
  | TKvArr _ kn tk vn tv => [type_is "array"; (bytes "items", JObj (class_keywords
      [(kn, (is_nullable tk, JObj (keywords tk))); (vn, (is_nullable tv, JObj (keywords tv)))]))]
  | TClass _ mm => class_keywords (map (fun m => (fst m, (is_nullable (snd m), JObj (keywords (snd m))))) mm)
  | TTuple _ ts => [type_is "array"; (bytes "items", JArr (map (fun t => JObj (keywords t)) ts))]
  | TVariant ts | TIntrusive _ _ _ _ ts => [(bytes "oneOf", JArr (map (fun t => JObj (keywords t)) ts))]
  end.
Definition schema_of (t : ty) : jv := JObj (keywords t).
Definition schema_doc (t : ty) (id title : list N) : jv :=
  JObj ([(bytes "$schema", JStr (bytes "https://json-schema.org/draft/2020-12/schema")); (bytes "$id", JStr id); (bytes "title", JStr title)] ++ keywords t).

(** ** Texts *)

Lemma everywhere_here : forall Q t, everywhere Q t -> Q t.
Proof. intros Q t H. destruct t; exact (proj1 H). Qed.
Lemma everywhere_class : forall Q e mm, everywhere Q (TClass e mm) -> Forall (fun m => everywhere Q (snd m)) mm.
Proof. intros Q e mm [_ H]. induction mm as [|[k t] mm IH]; constructor; cbn [snd]; tauto. Qed.
Lemma everywhere_all : forall Q ts,
  (fix all (ts : list ty) : Prop := match ts with [] => True | t :: r => everywhere Q t /\ all r end) ts -> Forall (everywhere Q) ts.
Proof. intros Q. induction ts as [|t ts IH]; intros H; constructor; tauto. Qed.

Lemma jmembers_app : forall sb a ta b tb, jmembers sb a ta -> jmembers sb b tb -> jmembers sb (a ++ b) (ta ++ 44 :: tb).
Proof.
  intros sb a ta b tb HA HB. induction HA as [w1 k w2 w3 v t w4 H1 H2 H3 H4 H5 H6|w1 k w2 w3 v t w4 ms ts H1 H2 H3 H4 H5 H6 H7 IH].
  - replace ((w1 ++ (34 :: k ++ [34]) ++ w2 ++ 58 :: w3 ++ t ++ w4) ++ 44 :: tb) with (w1 ++ (34 :: k ++ [34]) ++ w2 ++ 58 :: w3 ++ t ++ w4 ++ 44 :: tb)
      by (repeat (rewrite <- ?app_assoc; cbn [app]); reflexivity).
    now apply (m_cons sb w1 k w2 w3 v t w4 b tb).
  - replace ((w1 ++ (34 :: k ++ [34]) ++ w2 ++ 58 :: w3 ++ t ++ w4 ++ 44 :: ts) ++ 44 :: tb) with
      (w1 ++ (34 :: k ++ [34]) ++ w2 ++ 58 :: w3 ++ t ++ w4 ++ 44 :: (ts ++ 44 :: tb))
      by (repeat (rewrite <- ?app_assoc; cbn [app]); reflexivity).
    now apply (m_cons sb w1 k w2 w3 v t w4 (ms ++ b) (ts ++ 44 :: tb)).
Qed.

(** One member, with the whitespace around *)
Lemma one_member : forall w1 k w3 v t w4, ws w1 -> rfc_body k -> ws w3 -> jtext rfc_body v t -> ws w4 ->
  jmembers rfc_body [(k, v)] (w1 ++ in_quotes k ++ 58 :: w3 ++ t ++ w4).
Proof. intros. unfold in_quotes. apply (m_one _ w1 k [] w3 v t w4); auto. exact (Forall_nil _). Qed.

Lemma plain_text : forall k, plain_name k -> jtext rfc_body (JStr k) (in_quotes k).
Proof. intros k H. apply t_str. now apply plain_name_rfc. Qed.
Definition plain_string (s : string) : bool := forallb (fun c => (32 <=? c) && (c <? 128) && negb (c =? 34) && negb (c =? 92)) (bytes s).
Lemma plain_string_name : forall s, plain_string s = true -> plain_name (bytes s).
Proof. intros s H. unfold plain_string in H. rewrite forallb_forall in H. unfold plain_name. apply Forall_forall. intros c Hc. specialize (H c Hc). lia. Qed.

Lemma copy_raw_same : forall b k, (b = true -> Forall (fun c => 32 <= c <= 127) k) -> copy_raw b k = Ok k.
Proof.
  intros b. induction k as [|c k IH]; intros H; [reflexivity|]. cbn [copy_raw]. destruct b.
  - specialize (H eq_refl). inversion H; subst. replace ((32 <=? c) && (c <=? 127)) with true by lia. cbn [ensure bind]. rewrite IH by auto. reflexivity.
  - cbn [bind]. rewrite IH by discriminate. reflexivity.
Qed.

Section Text.
  Context (o : sopt).
  Hypothesis HL : layout o.

  (** Names that are written as they are *)
  Definition name_fits (k : list N) : Prop := plain_name k /\ (o_7bit o = true -> Forall (fun c => c <= 127) k).
  Lemma name_copied : forall k, name_fits k -> copy_raw (o_7bit o) k = Ok k.
  Proof.
    intros k [H1 H2]. apply copy_raw_same. intros E. specialize (H2 E). unfold plain_name in H1. rewrite Forall_forall in *.
    intros c Hc. specialize (H1 c Hc). specialize (H2 c Hc). lia.
  Qed.

  Definition members_text (ms : list (list N * jv)) (out : list N) : Prop := match ms with [] => ws out | _ => jmembers rfc_body ms out end.

  Lemma braces : forall ms out, members_text ms out -> jtext rfc_body (JObj ms) (123 :: out ++ [125]).
  Proof. intros [|m ms] out H; [now apply t_obj0|now apply t_obj]. Qed.

  (** The next keyword *)
  Lemma kv_text : forall w1 s v t w4, ws w1 -> plain_string s = true -> jtext rfc_body v t -> ws w4 ->
    jmembers rfc_body [(bytes s, v)] (w1 ++ output_kv o s t ++ w4).
  Proof.
    intros w1 s v t w4 H1 H2 H3 H4. unfold output_kv.
    replace (w1 ++ (in_quotes (bytes s) ++ 58 :: space o ++ t) ++ w4) with (w1 ++ in_quotes (bytes s) ++ 58 :: space o ++ t ++ w4)
      by (repeat (rewrite <- ?app_assoc; cbn [app]); reflexivity).
    apply one_member; auto; [now apply plain_name_rfc, plain_string_name|apply ws_space].
  Qed.
  Lemma string_text : forall s, plain_string s = true -> jtext rfc_body (JStr (bytes s)) (in_quotes (bytes s)).
  Proof. intros s H. now apply plain_text, plain_string_name. Qed.

  Lemma nm : forall lvl, ws (next_member o lvl).
  Proof. intros. now apply ws_next. Qed.

  Lemma scalar_text : forall (root : bool) lvl ms body, ms <> [] ->
    (forall w1 w4, ws w1 -> ws w4 -> jmembers rfc_body ms (w1 ++ body ++ w4)) ->
    (if root then members_text ms (scalar o root lvl body) else jtext rfc_body (JObj ms) (scalar o root lvl body)).
  Proof.
    intros root lvl ms body NE H. unfold scalar. destruct root.
    - destruct ms; [congruence|]. cbn [members_text]. apply (H [] (next_member o lvl)); [exact (Forall_nil _)|apply nm].
    - replace (123 :: next_member o (S lvl) ++ body ++ next_member o lvl ++ [125]) with (123 :: (next_member o (S lvl) ++ body ++ next_member o lvl) ++ [125])
        by (repeat (rewrite <- ?app_assoc; cbn [app]); reflexivity).
      apply t_obj. apply H; apply nm.
  Qed.
  Lemma block_text : forall (root : bool) lvl ms body, ms <> [] ->
    (forall w1 w4, ws w1 -> ws w4 -> jmembers rfc_body ms (w1 ++ body ++ w4)) ->
    (if root then members_text ms (block o root lvl body) else jtext rfc_body (JObj ms) (block o root lvl body)).
  Proof.
    intros root lvl ms body NE H. unfold block. destruct root.
    - destruct ms; [congruence|]. cbn [members_text]. apply H; apply nm.
    - replace (123 :: next_member o (S lvl) ++ body ++ next_member o lvl ++ [125]) with (123 :: (next_member o (S lvl) ++ body ++ next_member o lvl) ++ [125])
        by (repeat (rewrite <- ?app_assoc; cbn [app]); reflexivity).
      apply t_obj. apply H; apply nm.
  Qed.

  (** Two keywords *)
  Lemma two_kv : forall a va ta b vb tb lvl, plain_string a = true -> jtext rfc_body va ta -> plain_string b = true -> jtext rfc_body vb tb ->
    forall w1 w4, ws w1 -> ws w4 ->
    jmembers rfc_body [(bytes a, va); (bytes b, vb)] (w1 ++ (output_kv o a ta ++ 44 :: next_member o lvl ++ output_kv o b tb) ++ w4).
  Proof.
    intros a va ta b vb tb lvl Ha Hva Hb Hvb w1 w4 H1 H4.
    pose proof (jmembers_app _ _ _ _ _ (kv_text w1 a va ta [] H1 Ha Hva (Forall_nil _)) (kv_text (next_member o lvl) b vb tb w4 (nm lvl) Hb Hvb H4)) as H.
    cbn [app] in H. rewrite app_nil_r in H.
    replace (w1 ++ (output_kv o a ta ++ 44 :: next_member o lvl ++ output_kv o b tb) ++ w4) with
      ((w1 ++ output_kv o a ta) ++ 44 :: next_member o lvl ++ output_kv o b tb ++ w4) by (repeat (rewrite <- ?app_assoc; cbn [app]); reflexivity).
    exact H.
  Qed.
  (** ... where the first value brings the comma *)
  Lemma two_kv' : forall a va ta b vb tb lvl, plain_string a = true -> jtext rfc_body va ta -> plain_string b = true -> jtext rfc_body vb tb ->
    forall w1 w4, ws w1 -> ws w4 ->
    jmembers rfc_body [(bytes a, va); (bytes b, vb)] (w1 ++ (output_kv o a (ta ++ [44]) ++ next_member o lvl ++ output_kv o b tb) ++ w4).
  Proof.
    intros a va ta b vb tb lvl Ha Hva Hb Hvb w1 w4 H1 H4. pose proof (two_kv a va ta b vb tb lvl Ha Hva Hb Hvb w1 w4 H1 H4) as H.
    replace (output_kv o a (ta ++ [44]) ++ next_member o lvl ++ output_kv o b tb) with (output_kv o a ta ++ 44 :: next_member o lvl ++ output_kv o b tb); [exact H|].
    unfold output_kv. repeat (rewrite <- ?app_assoc; cbn [app]). reflexivity.
  Qed.

  (** *** Classes *)

  (** Schemas of the members *)
  Definition member_good (lvl : nat) (m : list N * (bool * res (list N))) (s : list N * (bool * jv)) : Prop :=
    fst m = fst s /\ fst (snd m) = fst (snd s) /\ name_fits (fst m) /\ exists t, snd (snd m) = Ok t /\ jtext rfc_body (snd (snd s)) t.

  Lemma property_types_text : forall lvl ms ss, Forall2 (member_good lvl) ms ss -> ms <> [] ->
    exists t, property_types o lvl (map (fun m => (fst m, snd (snd m))) ms) = Ok t /\
      forall w1 w4, ws w1 -> ws w4 -> jmembers rfc_body (map (fun m => (fst m, snd (snd m))) ss) (w1 ++ t ++ w4).
  Proof.
    intros lvl ms ss H. induction H as [|[k [b r]] [k' [b' v]] ms ss (H1 & H2 & H3 & t & Ht & Hv) HF IH]; intros NE; [congruence|].
    cbn [fst snd] in *. subst k' b'. cbn [map property_types fst snd]. rewrite Ht. cbn [bind]. pose proof (plain_name_rfc _ (proj1 H3)) as RK.
    destruct ms as [|m ms].
    - inversion HF; subst. cbn [map property_types bind]. eexists. split; [reflexivity|]. intros w1 w4 H1 H4. cbn [map app].
      replace (w1 ++ (in_quotes k ++ 58 :: space o ++ t ++ []) ++ w4) with (w1 ++ in_quotes k ++ 58 :: space o ++ t ++ w4)
        by (rewrite app_nil_r; repeat (rewrite <- ?app_assoc; cbn [app]); reflexivity).
      apply one_member; auto. apply ws_space.
    - destruct IH as (t2 & E2 & G2); [discriminate|]. cbn [map] in E2 |- *. rewrite E2. cbn [bind]. eexists. split; [reflexivity|]. intros w1 w4 H1 H4.
      pose proof (jmembers_app _ _ _ _ _ (one_member w1 k (space o) v t [] H1 RK (ws_space o) Hv (Forall_nil _)) (G2 (next_member o lvl) w4 (nm lvl) H4)) as H.
      cbn [app map fst snd] in H |- *. rewrite app_nil_r in H.
      match goal with |- jmembers _ _ ?x => match type of H with jmembers _ _ ?y => replace x with y; [exact H|] end end.
      repeat (rewrite <- ?app_assoc; cbn [app]). reflexivity.
  Qed.

  Lemma required_text : forall lvl (ms : list (list N * (bool * res (list N)))) ss, Forall2 (member_good lvl) ms ss -> forall first, exists t,
    required_members o lvl first (map (fun m => (fst m, fst (snd m))) ms) = Ok t /\
    let names := map (fun m => JStr (fst m)) (filter (fun m : list N * (bool * jv) => negb (fst (snd m))) ss) in
    (names = [] -> t = []) /\
    (names <> [] -> exists t', t = (if first : bool then [] else [44]) ++ t' /\ forall w4, ws w4 -> jelems rfc_body names (t' ++ w4)).
  Proof.
    intros lvl ms ss H. induction H as [|[k [b r]] [k' [b' v]] ms ss (H1 & H2 & H3 & t & Ht & Hv) HF IH]; intros first.
    { exists []. split; [reflexivity|]. cbn. split; [auto|congruence]. }
    cbn [fst snd] in *. subst k' b'. cbn [map required_members fst snd filter]. destruct b; cbn [negb].
    - destruct (IH first) as (t2 & E2 & G). exists t2. auto.
    - rewrite name_copied by auto. cbn [bind]. destruct (IH false) as (t2 & E2 & G1 & G2). rewrite E2. cbn [bind]. eexists. split; [reflexivity|].
      cbn [map fst]. split; [discriminate|]. intros _. exists (next_member o lvl ++ in_quotes k ++ t2). split; [reflexivity|]. intros w4 H4.
      destruct (map (fun m => JStr (fst m)) (filter (fun m : list N * (bool * jv) => negb (fst (snd m))) ss)) as [|n ns] eqn:EN.
      + rewrite (G1 eq_refl). replace ((next_member o lvl ++ in_quotes k ++ []) ++ w4) with (next_member o lvl ++ in_quotes k ++ w4)
          by (rewrite app_nil_r, <- app_assoc; reflexivity).
        apply e_one; auto; [apply nm|apply plain_text, H3].
      + destruct G2 as (t' & -> & G2); [discriminate|]. cbn [app].
        replace ((next_member o lvl ++ in_quotes k ++ 44 :: t') ++ w4) with (next_member o lvl ++ in_quotes k ++ [] ++ 44 :: (t' ++ w4))
          by (repeat (rewrite <- ?app_assoc; cbn [app]); reflexivity).
        apply e_cons; auto; [apply nm|apply plain_text, H3|exact (Forall_nil _)].
  Qed.

  Lemma class_block_text : forall (root : bool) lvl (ms : nat -> list (list N * (bool * res (list N)))) ss,
    (forall l, Forall2 (member_good l) (ms l) ss) ->
    exists out, class_block o root lvl ms = Ok out /\
      (if root then members_text (class_keywords ss) out else jtext rfc_body (JObj (class_keywords ss)) out).
  Proof.
    intros root lvl ms ss H. unfold class_block. set (l := if root then lvl else S lvl). specialize (H (S l)).
    destruct (ms (S l)) as [|m0 ms0] eqn:EM.
    { inversion H; subst. cbn [bind]. eexists. split; [reflexivity|]. cbn [class_keywords]. destruct root; [exact (Forall_nil _)|].
      cbn [app]. apply t_obj0, nm. }
    destruct (property_types_text (S l) _ _ H) as (tp & EP & GP); [discriminate|].
    destruct (required_text (S l) _ _ H true) as (tq & EQ & GQ1 & GQ2).
    unfold class_schema. rewrite EP. cbn [bind]. rewrite EQ. cbn [bind].
    eexists. split; [reflexivity|].
    assert (NS : ss <> []) by (destruct ss; [inversion H|discriminate]).
    assert (REQ : jtext rfc_body (JArr (map (fun m => JStr (fst m)) (filter (fun m : list N * (bool * jv) => negb (fst (snd m))) ss)))
                    (91 :: (tq ++ next_member o l) ++ [93])).
    { destruct (map (fun m => JStr (fst m)) (filter (fun m : list N * (bool * jv) => negb (fst (snd m))) ss)) as [|n ns] eqn:EN.
      - rewrite (GQ1 eq_refl). cbn [app]. apply t_arr0, nm.
      - destruct GQ2 as (t' & -> & G2); [discriminate|]. cbn [app]. apply t_arr. apply G2, nm. }
    assert (PRP : jtext rfc_body (JObj (map (fun m => (fst m, snd (snd m))) ss)) (123 :: (next_member o (S l) ++ tp ++ next_member o l) ++ [125])).
    { apply t_obj. apply GP; apply nm. }
    assert (ALL : forall w1 w4, ws w1 -> ws w4 -> jmembers rfc_body (class_keywords ss)
       (w1 ++ (output_kv o "type" (in_quotes (bytes "object")) ++ 44 :: next_member o l ++
         output_kv o "properties" (123 :: (next_member o (S l) ++ tp ++ next_member o l) ++ [125]) ++ 44 :: next_member o l ++
         output_kv o "required" (91 :: (tq ++ next_member o l) ++ [93])) ++ w4)).
    { intros w1 w4 H1 H4. destruct ss as [|s0 ss]; [congruence|]. cbn [class_keywords].
      pose proof (two_kv "properties" _ _ "required" _ _ l eq_refl PRP eq_refl REQ (next_member o l) w4 (nm l) H4) as G.
      pose proof (jmembers_app _ _ _ _ _ (kv_text w1 "type" _ _ [] H1 eq_refl (string_text "object" eq_refl) (Forall_nil _)) G) as G'.
      cbn [app] in G'. rewrite app_nil_r in G'. unfold type_is.
      match goal with |- jmembers _ _ ?x => match type of G' with jmembers _ _ ?y => replace x with y; [exact G'|] end end.
      repeat (rewrite <- ?app_assoc; cbn [app]). reflexivity. }
    assert (SAME : forall w4, output_kv o "type" (in_quotes (bytes "object")) ++ 44 :: next_member o l ++
         output_kv o "properties" [123] ++ (next_member o (S l) ++ tp ++ next_member o l) ++ [125; 44] ++ next_member o l ++
         output_kv o "required" [91] ++ (tq ++ next_member o l) ++ [93] ++ w4 =
       (output_kv o "type" (in_quotes (bytes "object")) ++ 44 :: next_member o l ++
         output_kv o "properties" (123 :: (next_member o (S l) ++ tp ++ next_member o l) ++ [125]) ++ 44 :: next_member o l ++
         output_kv o "required" (91 :: (tq ++ next_member o l) ++ [93])) ++ w4).
    { intros w4. unfold output_kv. repeat (rewrite <- ?app_assoc; cbn [app]). reflexivity. }
    pose proof (SAME []) as S0. rewrite !app_nil_r in S0. cbv zeta. unfold l in *. destruct root.
    - assert (NK : class_keywords ss <> []) by (destruct ss; [congruence|discriminate]).
      destruct (class_keywords ss) as [|k0 ks] eqn:EK; [congruence|]. cbn [members_text].
      rewrite S0. specialize (ALL (next_member o lvl) [] (nm _) (Forall_nil _)). rewrite app_nil_r in ALL. exact ALL.
    - match goal with |- jtext _ _ (123 :: ?b ++ ?w ++ [125]) => replace (123 :: b ++ w ++ [125]) with (123 :: (b ++ w) ++ [125]) by (rewrite <- app_assoc; reflexivity) end.
      apply t_obj. rewrite S0, <- app_assoc. apply ALL; apply nm.
  Qed.

  (** *** Arrays of schemas *)
  Lemma schema_list_text : forall lvl rs vs, Forall2 (fun r v => exists t, r = Ok t /\ jtext rfc_body v t) rs vs -> forall first, exists t,
    schema_list o lvl first rs = Ok t /\ (vs = [] -> t = []) /\
    (vs <> [] -> exists t', t = (if first : bool then [] else [44]) ++ t' /\ forall w4, ws w4 -> jelems rfc_body vs (t' ++ w4)).
  Proof.
    intros lvl rs vs H. induction H as [|r v rs vs (t & -> & Hv) HF IH]; intros first.
    { exists []. split; [reflexivity|]. split; [auto|congruence]. }
    cbn [schema_list bind]. destruct (IH false) as (t2 & E2 & G1 & G2). rewrite E2. cbn [bind]. eexists. split; [reflexivity|]. split; [discriminate|].
    intros _. exists (next_member o lvl ++ t ++ t2). split; [reflexivity|]. intros w4 H4. destruct vs as [|v2 vs].
    - rewrite (G1 eq_refl). replace ((next_member o lvl ++ t ++ []) ++ w4) with (next_member o lvl ++ t ++ w4) by (rewrite app_nil_r, <- app_assoc; reflexivity).
      apply e_one; auto. apply nm.
    - destruct G2 as (t' & -> & G2); [discriminate|]. cbn [app].
      replace ((next_member o lvl ++ t ++ 44 :: t') ++ w4) with (next_member o lvl ++ t ++ [] ++ 44 :: (t' ++ w4))
        by (repeat (rewrite <- ?app_assoc; cbn [app]); reflexivity).
      apply e_cons; auto; [apply nm|exact (Forall_nil _)].
  Qed.
  Lemma schema_array_text : forall lvl rs vs, Forall2 (fun r v => exists t, r = Ok t /\ jtext rfc_body v t) rs vs ->
    exists t, schema_array o lvl rs = Ok t /\ jtext rfc_body (JArr vs) t.
  Proof.
    intros lvl rs vs H. unfold schema_array. destruct (schema_list_text (S lvl) rs vs H true) as (t & E & G1 & G2). rewrite E. cbn [bind].
    eexists. split; [reflexivity|]. destruct H as [|r v rs vs H0 H].
    - rewrite (G1 eq_refl). cbn [app]. apply (t_arr0 _ []). exact (Forall_nil _).
    - destruct G2 as (t' & -> & G2); [discriminate|]. cbn [app].
      replace (91 :: t' ++ next_member o lvl ++ [93]) with (91 :: (t' ++ next_member o lvl) ++ [93]) by (rewrite <- app_assoc; reflexivity).
      apply t_arr. apply G2, nm.
  Qed.

  Theorem type_schema_text : forall t, mapped name_fits t -> forall (root : bool) lvl, exists out, type_schema o t root lvl = Ok out /\
    (if root then members_text (keywords t) out else jtext rfc_body (JObj (keywords t)) out).
  Proof.
    induction t using ty_nested; intros HM root lvl; cbn [type_schema keywords]; unfold mapped in *; pose proof HM as HM0; cbn [everywhere] in HM; destruct HM as [HH HM].
    - eexists. split; [reflexivity|]. apply scalar_text; [discriminate|]. apply two_kv; try reflexivity; [now apply string_text|].
      apply t_num. apply (jn [] [48] [] []); auto; [|constructor|constructor].
      split; [|split]; [repeat constructor; unfold is_dig; lia|discriminate|]. intros r E. now injection E.
    - eexists. split; [reflexivity|]. apply scalar_text; [discriminate|]. intros. apply kv_text; auto. now apply string_text.
    - eexists. split; [reflexivity|]. apply scalar_text; [discriminate|]. intros. apply kv_text; auto. now apply string_text.
    - eexists. split; [reflexivity|]. apply scalar_text; [discriminate|]. intros. apply kv_text; auto. now apply string_text.
    - now apply IHt.
    - destruct (IHt HM false (if root then lvl else S lvl)) as (e & -> & G). cbn [bind]. eexists. split; [reflexivity|].
      apply block_text; [discriminate|]. apply two_kv'; try reflexivity; auto. now apply string_text.
    - destruct (IHt HM false (if root then lvl else S lvl)) as (e & -> & G). cbn [bind]. eexists. split; [reflexivity|].
      apply block_text; [discriminate|]. apply two_kv; try reflexivity; auto. now apply string_text.
    - destruct HH as (ND & HN). pose proof (everywhere_class _ _ _ HM0) as HA. clear HM HM0. apply class_block_text. intros l. clear ND.
      induction ms as [|[k t] ms IHm]; cbn [map]; [constructor|]. inversion H; subst. inversion HN; subst. inversion HA; subst. constructor; auto.
      cbn [fst snd] in *. repeat split; cbn [fst snd]; auto; try apply H4. destruct (H2 H6 false l) as (t0 & E & G). eauto.
    - clear HM0. apply everywhere_all in HM. set (l := if root then lvl else S lvl).
      destruct (schema_array_text l (map (fun t => type_schema o t false (S l)) ts) (map (fun t => JObj (keywords t)) ts)) as (a & EA & GA).
      { clear - H HM. induction ts as [|t ts IHt]; cbn [map]; constructor; inversion H; inversion HM; subst; auto. now apply H2. }
      rewrite EA. cbn [bind]. eexists. split; [reflexivity|]. apply block_text; [discriminate|]. apply two_kv'; try reflexivity; auto. now apply string_text.
    - destruct HH as (NK & HK & HV). destruct HM as (HMk & HMv). set (l := if root then lvl else S lvl).
      destruct (class_block_text false l (fun l' => [(kn, (is_nullable t1, type_schema o t1 false l')); (vn, (is_nullable t2, type_schema o t2 false l'))])
        [(kn, (is_nullable t1, JObj (keywords t1))); (vn, (is_nullable t2, JObj (keywords t2)))]) as (a & EA & GA).
      { intros l'. destruct (IHt1 HMk false l') as (a1 & E1 & G1). destruct (IHt2 HMv false l') as (a2 & E2 & G2).
        repeat constructor; cbn [fst snd]; auto; try apply HK; try apply HV; eauto. }
      rewrite EA. cbn [bind]. eexists. split; [reflexivity|]. apply block_text; [discriminate|]. apply two_kv'; try reflexivity; auto. now apply string_text.
    - eexists. split; [reflexivity|]. apply scalar_text; [discriminate|]. intros. apply kv_text; auto. now apply string_text.
    - clear HM0. apply everywhere_all in HM. set (l := if root then lvl else S lvl).
      destruct (schema_array_text l (map (fun t => type_schema o t false (S l)) ts) (map (fun t => JObj (keywords t)) ts)) as (a & EA & GA).
      { clear - H HM. induction ts as [|t ts IHt]; cbn [map]; constructor; inversion H; inversion HM; subst; auto. now apply H2. }
      rewrite EA. cbn [bind]. eexists. split; [reflexivity|]. apply block_text; [discriminate|]. intros. now apply kv_text.
    - clear HM0. apply everywhere_all in HM. set (l := if root then lvl else S lvl).
      destruct (schema_array_text l (map (fun t => type_schema o t false (S l)) ts) (map (fun t => JObj (keywords t)) ts)) as (a & EA & GA).
      { clear - H HM. induction ts as [|t' ts IHt']; cbn [map]; constructor; inversion H; inversion HM; subst; auto. now apply H2. }
      rewrite EA. cbn [bind]. eexists. split; [reflexivity|]. apply block_text; [discriminate|]. intros. now apply kv_text.
  Qed.

  Theorem to_json_schema_text : forall t id title, mapped name_fits t -> keywords t <> [] -> name_fits id -> name_fits title ->
    exists out, to_json_schema o t id title = Ok out /\ jtext rfc_body (schema_doc t id title) out.
  Proof.
    intros t id title HM NE HI HT. unfold to_json_schema. rewrite !name_copied by auto. cbn [bind].
    destruct (type_schema_text t HM true 1) as (body & -> & G). cbn [bind]. eexists. split; [reflexivity|]. unfold schema_doc.
    destruct (keywords t) as [|k0 ks] eqn:EK; [congruence|]. cbn [members_text] in G.
    assert (G2 : jmembers rfc_body (k0 :: ks) (body ++ next_member o 0)).
    { clear - G HL. revert G. generalize (k0 :: ks). intros l G. induction G as [w1 k w2 w3 v t w4 H1 H2 H3 H4 H5 H6|w1 k w2 w3 v t w4 ms ts H1 H2 H3 H4 H5 H6 H7 IH].
      - replace ((w1 ++ (34 :: k ++ [34]) ++ w2 ++ 58 :: w3 ++ t ++ w4) ++ next_member o 0) with (w1 ++ (34 :: k ++ [34]) ++ w2 ++ 58 :: w3 ++ t ++ (w4 ++ next_member o 0))
          by (repeat (rewrite <- ?app_assoc; cbn [app]); reflexivity).
        apply m_one; auto. apply ws_app; auto. apply nm.
      - replace ((w1 ++ (34 :: k ++ [34]) ++ w2 ++ 58 :: w3 ++ t ++ w4 ++ 44 :: ts) ++ next_member o 0) with
          (w1 ++ (34 :: k ++ [34]) ++ w2 ++ 58 :: w3 ++ t ++ w4 ++ 44 :: (ts ++ next_member o 0)) by (repeat (rewrite <- ?app_assoc; cbn [app]); reflexivity).
        now apply m_cons. }
    pose proof (jmembers_app _ _ _ _ _ (kv_text (next_member o 1) "title" _ _ [] (nm 1) eq_refl (plain_text _ (proj1 HT)) (Forall_nil _)) G2) as G3.
    pose proof (jmembers_app _ _ _ _ _ (kv_text (next_member o 1) "$id" _ _ [] (nm 1) eq_refl (plain_text _ (proj1 HI)) (Forall_nil _)) G3) as G4.
    pose proof (jmembers_app _ _ _ _ _ (kv_text (next_member o 1) "$schema" _ _ [] (nm 1) eq_refl
      (string_text "https://json-schema.org/draft/2020-12/schema" eq_refl) (Forall_nil _)) G4) as G5.
    apply t_obj in G5. cbn [app] in G5 |- *. rewrite !app_nil_r in G5.
    match goal with |- jtext _ _ ?x => match type of G5 with jtext _ _ ?y => replace x with y; [exact G5|] end end.
    unfold output_kv, in_quotes. repeat (rewrite <- ?app_assoc; cbn [app]). reflexivity.
  Qed.
End Text.
