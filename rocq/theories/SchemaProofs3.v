(** What is valid against the schema stands for a value. *)
From Coq Require Import String.
From Coq Require Import List NArith ZArith QArith Bool Lia Arith ZifyBool ZifyNat ZifyN.
From Verif Require Import Base Mem SpecNum SpecText SpecJson SpecUnicode SpecTyped ValueModel TypedSafe SerModel SpecSer SpecSchema SchemaModel SchemaProofs SchemaProofs2.
From Verif Require SpecReal.
Import ListNotations.
Local Open Scope N_scope.

Lemma digits_only : forall i f e x, digits (i ++ f ++ e) -> frac_part f -> SpecReal.exp_val e x -> f = [] /\ e = [] /\ x = 0%Z.
Proof.
  intros i f e x HD HF HE. unfold digits in HD. rewrite Forall_forall in HD.
  assert (f = []). { destruct HF; [reflexivity|]. exfalso. specialize (HD 46). unfold is_dig in HD. assert (48 <= 46 <= 57); [|lia]. apply HD. apply in_or_app. right. now left. }
  subst f. split; [reflexivity|]. cbn [app] in HD.
  destruct HE as [|c ds HC|c ds HC|c ds HC]; auto; exfalso; specialize (HD c); unfold is_dig in HD; (assert (48 <= c <= 57); [|lia]); apply HD; apply in_or_app; right; now left.
Qed.

Lemma denotes_int : forall z n q, canonical_int z n -> SpecReal.denotes n q -> (q == inject_Z z)%Q.
Proof.
  intros z n q HC HD. unfold canonical_int in HC. destruct HD as [sg i f e x HS HI HF HE].
  destruct (Z.ltb_spec z 0) as [L|L].
  - destruct HC as (ds & E & (HD & HN & HZ) & HV). destruct HS as [-> | ->].
    + exfalso. destruct HI as (Hi & Ni & _). destruct i as [|d i]; [congruence|]. cbn [app] in E. injection E as -> _. inversion Hi; subst. unfold is_dig in *. lia.
    + cbn [app] in E. injection E as E. rewrite <- E in HD. destruct (digits_only i f e x HD HF HE) as (-> & -> & ->). rewrite !app_nil_r in E. subst i.
      replace z with (- Z.of_N (dec_val ds))%Z by lia. unfold SpecReal.magnitude, SpecReal.q_of_N, SpecReal.fract_digits, SpecReal.ten_pow. rewrite inject_Z_opp. cbn. field.
  - destruct HC as ((HD & HN & HZ) & HV). destruct HS as [-> | ->].
    + cbn [app] in *. destruct (digits_only i f e x HD HF HE) as (-> & -> & ->). rewrite !app_nil_r in HV. subst z.
      unfold SpecReal.magnitude, SpecReal.q_of_N, SpecReal.fract_digits, SpecReal.ten_pow. cbn. field.
    + exfalso. cbn [app] in HD. inversion HD; subst. unfold is_dig in *. lia.
Qed.

Lemma made_elems : forall A B C es, made_of A B C (JArr es) -> Forall (made_of A B C) es.
Proof. intros A B C es H. cbn [made_of] in H. induction es as [|e es IH]; constructor; tauto. Qed.
Lemma made_members : forall A B C ms, made_of A B C (JObj ms) -> C (map fst ms) /\ Forall (fun m => made_of A B C (snd m)) ms.
Proof. intros A B C ms [H1 H2]. split; [exact H1|]. clear H1. induction ms as [|[k e] ms IH]; constructor; tauto. Qed.

Lemma lookup_in : forall k ms v, lookup k ms = Some v -> In (k, v) ms.
Proof.
  induction ms as [|[k' v'] ms IH]; intros v H; [discriminate|]. cbn [lookup] in H. destruct (list_eq_dec N.eq_dec k' k) as [->|NE].
  - injection H as ->. now left.
  - right. auto.
Qed.
Lemma lookup_none : forall k ms, lookup k ms = None -> ~ In k (map fst ms).
Proof.
  induction ms as [|[k' v'] ms IH]; intros H HI; [contradiction|]. cbn [lookup map fst In] in *. destruct (list_eq_dec N.eq_dec k' k) as [->|NE]; [discriminate|].
  destruct HI as [->|HI]; [congruence|]. now apply IH.
Qed.

Section Read.
  Context (nc : list (list N) -> list N -> Prop) (b : Z) (nl : list (list (list N))).

  Definition good_names (ks : list (list N)) : Prop :=
    NoDup ks /\ Forall (fun k => exists s, denotes k s) ks /\ forall names, In names nl -> Forall (nc names) ks.
  Definition good_string (t : list N) : Prop := exists s, denotes t s.

  Theorem valid_typed : forall t v, open b nl t -> valid (JObj (keywords t)) v -> made_of (small_int b) good_string good_names v -> exists x, typed nc t v x.
  Proof.
    unfold open. induction t using ty_nested; intros v HO HV HM; pose proof HO as HO0; cbn [everywhere] in HO; destruct HO as [HH HO]; cbn [keywords] in HV; try contradiction.
    - destruct HH as [HW HB]. apply valid_unsigned in HV as [HT HV]. destruct v; try discriminate HT. destruct HM as (z & HC & HZ). cbn [at_least] in HV.
      destruct HV as (a & q & D0 & D & LE).
      assert (Z0 : (a == inject_Z 0)%Q). { apply (denotes_int 0 [48]); auto. split; [|reflexivity]. split; [repeat constructor; unfold is_dig; lia|]. split; [discriminate|]. intros r E. now injection E. }
      pose proof (denotes_int z n q HC D) as Z1. rewrite Z0, Z1 in LE. rewrite <- Zle_Qle in LE.
      unfold canonical_int in HC. destruct (Z.ltb_spec z 0); [lia|]. destruct HC as [HC HD]. eexists. exists n. split; [reflexivity|]. split; [exact HC|]. split; [exact HW|].
      split; [|reflexivity]. destruct HW as [-> |[-> |[-> | ->]]]; change (Z.of_N _) with 8%Z in HB || change (Z.of_N _) with 16%Z in HB || change (Z.of_N _) with 32%Z in HB || change (Z.of_N _) with 64%Z in HB; clear - HD HB HZ; cbn in *; lia.
    - destruct HH as [HW HB]. apply valid_type in HV. destruct v; try discriminate HV. destruct HM as (z & HC & HZ). eexists. exists n, z. split; [reflexivity|]. split; [exact HC|].
      split; [exact HW|]. split; [clear - HZ HB; lia|]. split; [|reflexivity]. intros [-> ->]. cbn in HB. clear - HB HZ. lia.
    - apply valid_type in HV. destruct v; try discriminate HV.
      + exists (VBool true). now left.
      + exists (VBool false). now right.
      + cbn [has_type] in HV. destruct HV as [HV|[HV _]]; discriminate.
    - apply valid_type in HV. destruct v; try discriminate HV.
      + cbn [has_type] in HV. destruct HV as [HV|[HV _]]; discriminate.
      + destruct HM as (s & D). exists (VStr s), body, s. auto.
    - destruct (IHt v HO HV HM) as (y & HY). destruct v; [exists VNone; now left| | | | | |]; exists (VSome y); right; (split; [discriminate|]); exists y; split; auto.
    - apply valid_array in HV as (es & -> & HV). apply made_elems in HM.
      assert (G : exists xs, Forall2 (typed nc t) es xs).
      { induction es as [|e es IH]; [exists []; constructor|]. inversion HV; inversion HM; subst. destruct IH as (xs & HX); auto. destruct (IHt e) as (x & HX1); auto. exists (x :: xs). constructor; auto. }
      destruct G as (xs & HX). exists (VArr xs), es, xs. auto.
    - apply valid_map in HV as (js & -> & HV). apply made_members in HM as [(_ & HD & _) HM]. rewrite Forall_map in HD.
      assert (G : exists kxs, Forall2 (fun m kx => denotes (fst m) (fst kx) /\ typed nc t (snd m) (snd kx)) js kxs).
      { induction js as [|j js IH]; [exists []; constructor|]. inversion HV; inversion HM; inversion HD; subst. destruct IH as (kxs & HX); auto.
        destruct (IHt (snd j)) as (x & HX1); auto. destruct H9 as (s & HS). exists ((s, x) :: kxs). constructor; auto. }
      destruct G as (kxs & HX). exists (VMap kxs), js, kxs. auto.
    - destruct HH as (-> & NE & ND & HN). apply everywhere_class in HO0. apply valid_class in HV as (js & -> & HP & HR); [|destruct ms; [congruence|discriminate]].
      apply made_members in HM as [(NJ & HD & HU) HM].
      assert (G : exists xs, (fix members (mm : list (list N * ty)) (xs : list val) : Prop :=
           match mm, xs with
           | [], [] => True
           | (nm, t) :: mm', y :: xs' => match lookup nm js with Some v' => typed nc t v' y | None => is_nullable t = true /\ y = VNone end /\ members mm' xs'
           | _, _ => False
           end) ms xs).
      { clear NE ND HN HO. induction ms as [|[k t] ms IH]; [exists []; exact I|]. inversion H; inversion HO0; subst. cbn [snd] in *. destruct IH as (xs & HX); auto.
        { intros s HI. apply HP. now right. }
        { intros s HI. apply HR. now right. }
        destruct (lookup k js) as [e|] eqn:EL.
        - apply lookup_in in EL. destruct (H2 e) as (y & HY); auto.
          + apply (HP (k, (is_nullable t, JObj (keywords t)))); [now left|exact EL].
          + rewrite Forall_forall in HM. exact (HM (k, e) EL).
          + exists (y :: xs). auto.
        - exists (VNone :: xs). split; [split; [|reflexivity]|exact HX]. destruct (is_nullable t) eqn:EN; [reflexivity|]. exfalso. apply (lookup_none k js EL).
          apply (HR (k, (is_nullable t, JObj (keywords t)))); [now left|exact EN]. }
      destruct G as (xs & HX). exists (VClass xs), js, xs. split; [reflexivity|]. split; [reflexivity|]. split; [exact ND|]. split; [|split; [now apply HU|split; [discriminate|exact HX]]].
      intros k _. now apply NoDup_count_occ.
    - destruct HH as [HA HK]. apply everywhere_all in HO. apply valid_oneof in HV. apply exactly_some in HV as [_ HV]. destruct (HV eq_refl) as (i & s & EI & HVi). clear HV.
      rewrite nth_error_map in EI. destruct (nth_error ts i) as [t|] eqn:ET; [|discriminate]. cbn [option_map] in EI. injection EI as <-.
      pose proof (nth_error_In _ _ ET) as IN. rewrite Forall_forall in HA. destruct (HA t IN) as [HA1 HA2].
      destruct (proj1 (Forall_forall _ _) H t IN v) as (y & HY); auto; [now apply (proj1 (Forall_forall _ _) HO)|].
      pose proof (valid_meant t v HA1 HA2 HVi) as MF. exists (VVariant i y), i, y. split; [reflexivity|].
      clear - ET HK MF HY. revert i ET HK. induction ts as [|t0 ts IH]; intros i ET HK; [destruct i; discriminate|]. destruct i as [|i]; cbn [nth_error] in ET.
      + injection ET as ->. auto.
      + split.
        * specialize (HK O (S i) t0 t eq_refl ET ltac:(lia) v). rewrite MF, andb_true_r in HK. exact HK.
        * apply (IH i ET). intros i' j' t1 t2 E1 E2 L. apply (HK (S i') (S j') t1 t2 E1 E2). lia.
  Qed.
End Read.
