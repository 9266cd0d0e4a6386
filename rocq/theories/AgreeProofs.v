(** Documents that differ only in the order of members and in unmapped members
    stand for the same value. *)
From Coq Require Import List NArith ZArith Bool Lia Arith Permutation.
From Coq Require Import ZifyBool ZifyNat ZifyN.
From Verif Require Import SpecNum SpecText SpecJson SpecUnicode ValueModel SpecTyped.
Import ListNotations.
Local Open Scope N_scope.

(** ** Looking up members *)

Notation occ := (count_occ (list_eq_dec N.eq_dec)).

Lemma lookup_in : forall k v js, lookup k js = Some v -> In (k, v) js.
Proof.
  induction js as [|[k' v'] js IH]; cbn [lookup]; [discriminate|].
  destruct (list_eq_dec N.eq_dec k' k) as [->|]; [intros [= ->]; now left|]. intros H. right. auto.
Qed.

Lemma lookup_none : forall k js, lookup k js = None <-> ~ In k (map fst js).
Proof.
  induction js as [|[k' v'] js IH]; cbn [lookup map fst In]; [tauto|].
  destruct (list_eq_dec N.eq_dec k' k) as [->|N]; [split; [discriminate|tauto]|]. rewrite IH. tauto.
Qed.

Lemma lookup_unique : forall k v js, (occ (map fst js) k <= 1)%nat -> In (k, v) js -> lookup k js = Some v.
Proof.
  induction js as [|[k' v'] js IH]; intros HC HI; [contradiction|]. cbn [map fst count_occ] in HC. cbn [lookup].
  destruct HI as [[= -> ->]|HI].
  - now destruct (list_eq_dec N.eq_dec k k).
  - destruct (list_eq_dec N.eq_dec k' k) as [->|N]; [|now apply IH].
    exfalso. assert (O : (occ (map fst js) k = 0)%nat) by lia. apply count_occ_not_In in O. apply O.
    change k with (fst (k, v)). now apply in_map.
Qed.

Lemma occ_perm : forall (a b : list (list N)) k, Permutation a b -> occ a k = occ b k.
Proof. intros a b k HP. now apply (Permutation_count_occ (list_eq_dec N.eq_dec)). Qed.

Lemma no_repeat_perm : forall names js js', Permutation js js' -> no_repeat names js -> no_repeat names js'.
Proof.
  intros names js js' HP H k HK. rewrite <- (occ_perm (map fst js) (map fst js') k); [auto|]. now apply Permutation_map.
Qed.

Lemma lookup_perm : forall names js js' k, Permutation js js' -> no_repeat names js -> In k names -> lookup k js = lookup k js'.
Proof.
  intros names js js' k HP H HK. destruct (lookup k js) as [v|] eqn:E; symmetry.
  - apply lookup_unique; [now apply (no_repeat_perm names js)|]. eapply Permutation_in; [exact HP|]. now apply lookup_in.
  - apply lookup_none. apply lookup_none in E. intros Y. apply E. eapply Permutation_in; [|exact Y]. apply Permutation_map. now apply Permutation_sym.
Qed.

(** Members with other names do not matter. *)
Definition only (names : list (list N)) (js : list (list N * jv)) : list (list N * jv) :=
  filter (fun kv => if in_dec (list_eq_dec N.eq_dec) (fst kv) names then true else false) js.

Lemma lookup_only : forall names js k, In k names -> lookup k (only names js) = lookup k js.
Proof.
  induction js as [|[k' v'] js IH]; intros k HK; [reflexivity|]. cbn [only filter fst lookup]. fold (only names js).
  destruct (in_dec (list_eq_dec N.eq_dec) k' names) as [I|I]; cbn [lookup].
  - destruct (list_eq_dec N.eq_dec k' k); auto.
  - destruct (list_eq_dec N.eq_dec k' k) as [->|]; [contradiction|auto].
Qed.

Lemma occ_only : forall names js k, In k names -> occ (map fst (only names js)) k = occ (map fst js) k.
Proof.
  induction js as [|[k' v'] js IH]; intros k HK; [reflexivity|]. cbn [only filter fst map count_occ]. fold (only names js).
  destruct (in_dec (list_eq_dec N.eq_dec) k' names) as [I|I]; cbn [map fst count_occ].
  - destruct (list_eq_dec N.eq_dec k' k); rewrite IH by auto; reflexivity.
  - destruct (list_eq_dec N.eq_dec k' k) as [->|]; [contradiction|auto].
Qed.

Section Agree.
  Context (nc : list (list N) -> list N -> Prop).

  (** [agree t v v']: seen at type [t] both documents have the same members. *)
  Fixpoint agree (t : ty) (v v' : jv) {struct t} : Prop :=
    match t with
    | TNullable t => agree t v v'
    | TArr t => v = v' \/ exists es es', v = JArr es /\ v' = JArr es' /\ Forall2 (agree t) es es'
    | TMap t => v = v' \/ exists js js', v = JObj js /\ v' = JObj js' /\
        Forall2 (fun m m' => fst m = fst m' /\ agree t (snd m) (snd m')) js js'
    | TClass exact mm => v = v' \/ exists js js', v = JObj js /\ v' = JObj js' /\
        no_repeat (map fst mm) js' /\ Forall (nc (map fst mm)) (map fst js') /\
        (exact = true -> forall k, In k (map fst js') -> In k (map fst mm)) /\
        (fix members (mm : list (list N * ty)) : Prop :=
           match mm with
           | [] => True
           | (nm, t) :: mm' =>
               match lookup nm js, lookup nm js' with
               | Some a, Some b => agree t a b
               | None, None => True
               | _, _ => False
               end /\ members mm'
           end) mm
    | TTuple exact ts => v = v' \/ exists es es' rest, v = JArr (es ++ rest) /\ v' = JArr (es' ++ rest) /\
        (fix elements (ts : list ty) (es es' : list jv) : Prop :=
           match ts, es, es' with
           | [], [], [] => True
           | t :: ts', a :: es, b :: es' => agree t a b /\ elements ts' es es'
           | _, _, _ => False
           end) ts es es'
    | TKvArr exact kn tk vn tv => v = v' \/ exists es es', v = JArr es /\ v' = JArr es' /\
        Forall2 (fun e e' => exists js js', e = JObj js /\ e' = JObj js' /\
          no_repeat [kn; vn] js' /\ Forall (nc [kn; vn]) (map fst js') /\
          (exact = true -> forall k, In k (map fst js') -> In k [kn; vn]) /\
          match lookup kn js, lookup kn js' with Some a, Some b => agree tk a b | None, None => True | _, _ => False end /\
          match lookup vn js, lookup vn js' with Some a, Some b => agree tv a b | None, None => True | _, _ => False end) es es'
    | TVariant alts => v = v' \/
        (fix choose (alts : list ty) : Prop :=
           match alts with
           | [] => False
           | t :: alts' => if meant_for t v then agree t v v' else choose alts'
           end) alts
    | TIntrusive exact tag t switch alts => v = v' \/ exists js js' i, v = JObj js /\ v' = JObj js' /\
        no_repeat [tag] js' /\ Forall (nc [tag]) (map fst js') /\
        (exact = true -> forall k, In k (map fst js') -> In k [tag]) /\
        match lookup tag js, lookup tag js' with Some a, Some b => agree t a b | None, None => True | _, _ => False end /\
        (forall y, match lookup tag js with Some a => typed nc t a y | None => y = VNone end -> switch y = i) /\
        (fix choose (alts : list ty) (i : nat) : Prop :=
           match alts, i with
           | t :: _, O => agree t v v'
           | _ :: alts', S i' => choose alts' i'
           | [], _ => False
           end) alts i
    | _ => v = v'
    end.

  Lemma agree_refl : forall t v, agree t v v.
  Proof. induction t; intros v; cbn [agree]; auto. Qed.

  (** Both are of the same kind. *)
  Definition same_kind (v v' : jv) : Prop := forall t, meant_for t v' = meant_for t v.

  Lemma same_refl : forall v, same_kind v v.
  Proof. intros v t. reflexivity. Qed.
  Lemma same_arr : forall a b, same_kind (JArr a) (JArr b).
  Proof. intros a b t. induction t; try reflexivity. exact IHt. Qed.
  Lemma same_obj : forall a b, same_kind (JObj a) (JObj b).
  Proof. intros a b t. induction t; try reflexivity. exact IHt. Qed.

  Lemma agree_shape : forall t v v', agree t v v' -> v = v' \/ (exists a b, v = JArr a /\ v' = JArr b) \/ (exists a b, v = JObj a /\ v' = JObj b).
  Proof.
    fix IH 1. intros t v v' H. destruct t as [w rc|w rc| | |t|t|t|exact mm|exact ts|exact kn tk vn tv|k|alts|exact tag t switch alts]; cbn [agree] in H.
    - now left.
    - now left.
    - now left.
    - now left.
    - exact (IH t v v' H).
    - destruct H as [H|(es & es' & -> & -> & _)]; [now left|right; left; eauto].
    - destruct H as [H|(es & es' & -> & -> & _)]; [now left|right; right; eauto].
    - destruct H as [H|(es & es' & -> & -> & _)]; [now left|right; right; eauto].
    - destruct H as [H|(es & es' & r & -> & -> & _)]; [now left|right; left; eauto].
    - destruct H as [H|(es & es' & -> & -> & _)]; [now left|right; left; eauto].
    - now left.
    - destruct H as [H|H]; [now left|]. induction alts as [|t alts IHa]; [contradiction|]. destruct (meant_for t v); [exact (IH t v v' H)|exact (IHa H)].
    - destruct H as [H|(js & js' & i & -> & -> & _)]; [now left|right; right; eauto].
  Qed.

  Lemma agree_null : forall t v v', agree t v v' -> v = JNull <-> v' = JNull.
  Proof.
    intros t v v' H. destruct (agree_shape t v v' H) as [->|[(a & b & -> & ->)|(a & b & -> & ->)]]; [tauto| |]; split; discriminate.
  Qed.

  Lemma agree_same : forall t v v', agree t v v' -> same_kind v v'.
  Proof.
    intros t v v' H. destruct (agree_shape t v v' H) as [->|[(a & b & -> & ->)|(a & b & -> & ->)]]; [apply same_refl|apply same_arr|apply same_obj].
  Qed.

  Theorem typed_agree : forall t v v' x, typed nc t v x -> agree t v v' -> typed nc t v' x.
  Proof.
    fix IH 1. intros t v v' x HT HA. destruct t as [w rc|w rc| | |t|t|t|exact mm|exact ts|exact kn tk vn tv|k|alts|exact tag t switch alts].
    - cbn in HA. now subst.
    - cbn in HA. now subst.
    - cbn in HA. now subst.
    - cbn in HA. now subst.
    - cbn [agree] in HA. pose proof (agree_null _ _ _ HA) as NU. cbn [typed] in *. destruct HT as [[-> ->]|(NV & y & HT & ->)].
      + left. split; [now apply NU|reflexivity].
      + right. split; [intros Y; apply NV; now apply NU|]. exists y. split; [|reflexivity]. eapply IH; eauto.
    - cbn [agree] in HA. destruct HA as [->|(es & es' & -> & -> & HF)]; [exact HT|]. cbn [typed] in *.
      destruct HT as (es0 & xs & [= <-] & -> & HT). exists es', xs. split; [reflexivity|]. split; [reflexivity|].
      revert xs HT. induction HF as [|a b es es' H1 HF IHF]; intros xs HT; inversion HT; subst; constructor; [eapply IH; eauto|now apply IHF].
    - cbn [agree] in HA. destruct HA as [->|(es & es' & -> & -> & HF)]; [exact HT|]. cbn [typed] in *.
      destruct HT as (es0 & xs & [= <-] & -> & HT). exists es', xs. split; [reflexivity|]. split; [reflexivity|].
      revert xs HT. induction HF as [|a b es es' [H1 H1'] HF IHF]; intros xs HT; inversion HT as [|? y ? ? [D T] ? ]; subst; constructor; [|now apply IHF].
      rewrite <- H1. split; [exact D|]. eapply IH; eauto.
    - cbn [agree] in HA. destruct HA as [->|(js & js' & -> & -> & NR & FN & EX & HM)]; [exact HT|]. cbn [typed] in *.
      destruct HT as (js0 & xs & [= <-] & -> & ND & _ & _ & _ & HT). exists js', xs.
      split; [reflexivity|]. split; [reflexivity|]. split; [exact ND|]. split; [exact NR|]. split; [exact FN|]. split; [exact EX|].
      clear ND NR FN EX. revert xs HT HM. induction mm as [|[nm t] mm IHm]; intros [|y xs] HT HM; try contradiction; [exact I|].
      destruct HT as [HT1 HT2]. destruct HM as [HM1 HM2]. split; [|now apply IHm].
      destruct (lookup nm js) as [a|], (lookup nm js') as [b|]; try contradiction; [|exact HT1]. eapply IH; eauto.
    - cbn [agree] in HA. destruct HA as [->|(es & es' & rest & -> & -> & HM)]; [exact HT|]. cbn [typed] in *.
      destruct HT as (es0 & xs & es2 & E & -> & EX & NA & HT). injection E as E.
      assert (L1 : length es = length ts).
      { clear - HM. revert es es' HM. induction ts as [|t ts IHt]; intros [|a es] [|b es'] HM; try contradiction; [reflexivity|]. destruct HM as [_ HM]. cbn [length]. f_equal. eauto. }
      assert (L2 : length es0 = length ts).
      { clear - HT. revert es0 xs HT. induction ts as [|t ts IHt]; intros [|a es] [|b xs] HT; try contradiction; [reflexivity|]. destruct HT as [_ HT]. cbn [length]. f_equal. eauto. }
      assert (EE : es = es0 /\ rest = es2).
      { clear - E L1 L2. assert (L : length es = length es0) by lia. clear L1 L2. revert es0 L E. induction es as [|a es IHe]; intros [|b es0] L E; cbn in *; try lia; [auto|].
        injection E as -> E. destruct (IHe es0) as [-> ->]; auto. }
      destruct EE as [<- <-]. exists es', xs, rest. split; [reflexivity|]. split; [reflexivity|]. split; [exact EX|]. split; [exact NA|].
      clear E EX NA L1 L2. revert es es' xs HM HT. induction ts as [|t ts IHt]; intros [|a es] [|b es'] [|y xs] HM HT; try contradiction; [exact I|].
      destruct HM as [HM1 HM2]. destruct HT as [HT1 HT2]. split; [eapply IH; eauto|eapply IHt; eauto].
    - cbn [agree] in HA. destruct HA as [->|(es & es' & -> & -> & HF)]; [exact HT|]. cbn [typed] in *.
      destruct HT as (es0 & xs & [= <-] & -> & NK & NE & HT). exists es', xs. split; [reflexivity|]. split; [reflexivity|]. split; [exact NK|].
      split; [inversion HF; subst; [congruence|discriminate]|]. clear NE.
      revert xs HT. induction HF as [|e e' es es' (js & js' & -> & -> & NR & FN & EX & A1 & A2) HF IHF]; intros xs HT;
        inversion HT as [|? y ? ys T0 T3]; subst; constructor; [|now apply IHF].
      destruct T0 as (js0 & a & b & E0 & -> & _ & _ & _ & T1 & T2). injection E0 as <-.
      exists js', a, b. split; [reflexivity|]. split; [reflexivity|]. split; [exact NR|]. split; [exact FN|]. split; [exact EX|]. split.
      + destruct (lookup kn js) as [v1|], (lookup kn js') as [v2|]; try contradiction; [|exact T1]. exact (IH tk v1 v2 a T1 A1).
      + destruct (lookup vn js) as [v1|], (lookup vn js') as [v2|]; try contradiction; [|exact T2]. exact (IH tv v1 v2 b T2 A2).
    - cbn in HA. now subst.
    - pose proof (agree_same _ _ _ HA) as SK. cbn [agree] in HA. destruct HA as [->|HA]; [exact HT|]. cbn [typed] in *. destruct HT as (i & y & -> & HT). exists i, y. split; [reflexivity|].
      revert i HT. induction alts as [|t alts IHa]; intros i HT; [destruct i; contradiction|]. destruct i as [|i]; destruct HT as [H1 H2]; rewrite H1 in HA.
      + split; [now rewrite SK|]. exact (IH t v v' y H2 HA).
      + split; [now rewrite SK|]. exact (IHa HA i H2).
    - cbn [agree] in HA. destruct HA as [->|(js & js' & i & -> & -> & NR & FN & EX & A1 & SW & A2)]; [exact HT|]. cbn [typed] in *.
      destruct HT as (js0 & y & z & [= <-] & -> & _ & _ & _ & T1 & T2). exists js', y, z.
      split; [reflexivity|]. split; [reflexivity|]. split; [exact NR|]. split; [exact FN|]. split; [exact EX|]. split.
      + destruct (lookup tag js) as [v1|], (lookup tag js') as [v2|]; try contradiction; [|exact T1]. exact (IH t v1 v2 y T1 A1).
      + assert (EI : switch y = i) by (apply SW; destruct (lookup tag js); [exact T1|apply T1]). rewrite EI in *. clear T1 EI SW A1.
        revert i T2 A2. induction alts as [|t' alts IHa]; intros i T2 A2; [destruct i; contradiction|]. destruct i as [|i]; [exact (IH t' _ _ z T2 A2)|].
        exact (IHa i T2 A2).
  Qed.

  (** One class: the members in another order *)
  Lemma agree_perm : forall exact mm js js' x, Permutation js js' -> typed nc (TClass exact mm) (JObj js) x ->
    agree (TClass exact mm) (JObj js) (JObj js').
  Proof.
    intros exact mm js js' x HP (js0 & xs & [= <-] & -> & ND & NR & FN & EX & HT). cbn [agree]. right. exists js, js'.
    split; [reflexivity|]. split; [reflexivity|]. split; [now apply (no_repeat_perm _ js)|].
    assert (HK : forall k, In k (map fst js') -> In k (map fst js)).
    { intros k. apply Permutation_in. apply Permutation_map. now apply Permutation_sym. }
    split; [|split].
    - rewrite Forall_forall in *. intros k Hk. apply FN. now apply HK.
    - intros E k Hk. apply EX; auto.
    - assert (L : forall k, In k (map fst mm) -> lookup k js = lookup k js') by (intros k; now apply (lookup_perm (map fst mm))).
      clear - L. induction mm as [|[nm t] mm IHm]; [exact I|]. split; [|apply IHm; intros k Hk; apply L; now right].
      rewrite <- (L nm) by (now left). destruct (lookup nm js); [apply agree_refl|exact I].
  Qed.

  (** One class: the same mapped members *)
  Lemma agree_only : forall mm js js' x, only (map fst mm) js = only (map fst mm) js' ->
    Forall (nc (map fst mm)) (map fst js') -> typed nc (TClass false mm) (JObj js) x ->
    agree (TClass false mm) (JObj js) (JObj js').
  Proof.
    intros mm js js' x HO FN' (js0 & xs & [= <-] & -> & ND & NR & FN & EX & HT). cbn [agree]. right. exists js, js'.
    split; [reflexivity|]. split; [reflexivity|]. split; [|split; [exact FN'|split; [discriminate|]]].
    - intros k Hk. rewrite <- (occ_only (map fst mm)), <- HO, occ_only by auto. now apply NR.
    - assert (L : forall k, In k (map fst mm) -> lookup k js = lookup k js').
      { intros k Hk. rewrite <- (lookup_only (map fst mm) js), HO, lookup_only by auto. reflexivity. }
      clear - L. induction mm as [|[nm t] mm IHm]; [exact I|]. split; [|apply IHm; intros k Hk; apply L; now right].
      rewrite <- (L nm) by (now left). destruct (lookup nm js); [apply agree_refl|exact I].
  Qed.
End Agree.
