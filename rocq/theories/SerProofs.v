(** What is written is the text of a value that is read back. *)
From Coq Require Import List NArith ZArith Bool Lia Arith ZifyBool ZifyNat ZifyN.
From Verif Require Import Base Mem Loop StrScanProofs IntModel IntSerModel IntSerProofs SpecNum SpecText SpecJson SpecCompact SpecUnicode
  StrEncodeModel StrEncodeProofs PropertiesStrOut HashModel ValueModel NameProofs ClassProofs SpecTyped SerModel SpecSer AgreeProofs PropertiesTyped VariantProofs.
Import ListNotations.
Local Open Scope N_scope.

(** The mapped names are told apart from one another. *)
Lemma has_dup_in : forall (ks : list (list N)) a b, has_dup (map (name_hash false) ks) = false -> In a ks -> In b ks ->
  name_hash false a = name_hash false b -> NoDup ks -> a = b.
Proof.
  induction ks as [|k ks IH]; intros a b HD HA HB E ND; [contradiction|].
  cbn [map has_dup] in HD. apply orb_false_iff in HD as [H1 H2]. inversion ND; subst.
  assert (X : forall c, In c ks -> name_hash false k <> name_hash false c).
  { intros c Hc Ec. assert (existsb (N.eqb (name_hash false k)) (map (name_hash false) ks) = true).
    { apply existsb_exists. exists (name_hash false c). split; [now apply in_map|]. apply N.eqb_eq. exact Ec. }
    congruence. }
  destruct HA as [->|HA], HB as [->|HB]; auto.
  - exfalso. eapply X; eauto.
  - exfalso. eapply X; eauto.
Qed.

Lemma tells_mapped : forall g names k, NoDup names -> In k names -> tells g names k.
Proof.
  intros g names k ND HI. unfold tells, full_name_match, do_hashes_collide, hashes.
  destruct (has_dup (map (name_hash false) names)) eqn:E; [left; now rewrite orb_true_r|].
  right. intros nm Hn Eh. eapply has_dup_in; eauto.
Qed.

Lemma plain_name_rfc : forall k, plain_name k -> rfc_body k.
Proof. induction 1 as [|c k (H1 & H2 & H3) HK IH]; constructor; auto; lia. Qed.

Lemma plain_name_ok : forall g k, plain_name k -> name_ok g k.
Proof.
  intros g k H. unfold name_ok. destruct (c_escnames g).
  - apply rfc_str_body. now apply plain_name_rfc.
  - unfold plain_name in H. rewrite Forall_forall in *. intros c Hc. specialize (H c Hc). unfold plain. lia.
Qed.

Lemma usable_mapped : forall g names k, NoDup names -> In k names -> plain_name k -> usable g names k.
Proof. intros. split; [now apply plain_name_ok|now apply tells_mapped]. Qed.

(** The value that is written. *)
Definition text_of (r : res (list N)) : list N := match r with Ok t => t | _ => [] end.

Section Tree.
  Context (ei b7 : bool).
  Fixpoint tree (t : ty) (x : val) {struct t} : jv :=
    match t, x with
    | TUInt w _, VInt z => JNum (text_of (to_json_string_unsigned LSNever w (Z.to_N z)))
    | TInt w _, VInt z => JNum (text_of (to_json_string_signed LSNever w z))
    | TBool, VBool b => if b then JTrue else JFalse
    | TStr, VStr s => JStr (text_of (copy_escaped ei b7 s))
    | TNullable t, VSome y => tree t y
    | TArr t, VArr xs => JArr (map (tree t) xs)
    | TMap t, VMap kxs => JObj (map (fun kx => (text_of (copy_escaped ei b7 (fst kx)), tree t (snd kx))) kxs)
    | TClass _ mm, VClass xs => JObj
        ((fix members (mm : list (list N * ty)) (xs : list val) : list (list N * jv) :=
            match mm, xs with
            | (nm, t) :: mm', y :: xs' =>
                if is_nullable t && negb (has_value y) then members mm' xs'
                else (nm, tree t y) :: members mm' xs'
            | _, _ => []
            end) mm xs)
    | TTuple _ ts, VTuple xs => JArr
        ((fix elements (ts : list ty) (xs : list val) : list jv :=
            match ts, xs with
            | t :: ts', y :: xs' => tree t y :: elements ts' xs'
            | _, _ => []
            end) ts xs)
    | TKvArr _ kn tk vn tv, VArr xs => JArr (map (fun y => match y with
        | VClass [a; b] => JObj [(kn, tree tk a); (vn, tree tv b)]
        | _ => JNull
        end) xs)
    | TCustom CuLiteral, VStr s =>
        if list_eq_dec N.eq_dec s [116; 114; 117; 101] then JTrue
        else if list_eq_dec N.eq_dec s [102; 97; 108; 115; 101] then JFalse else JNum s
    | TCustom _, VStr s => JStr s
    | (TVariant alts | TIntrusive _ _ _ _ alts), VVariant i y =>
        (fix pick (alts : list ty) (i : nat) : jv :=
           match alts, i with
           | t :: _, O => tree t y
           | _ :: alts', S i' => pick alts' i'
           | [], _ => JNull
           end) alts i
    | _, _ => JNull
    end.

  Definition members_tree := fix members (mm : list (list N * ty)) (xs : list val) : list (list N * jv) :=
    match mm, xs with
    | (nm, t) :: mm', y :: xs' =>
        if is_nullable t && negb (has_value y) then members mm' xs'
        else (nm, tree t y) :: members mm' xs'
    | _, _ => []
    end.
  Definition elements_tree := fix elements (ts : list ty) (xs : list val) : list jv :=
    match ts, xs with
    | t :: ts', y :: xs' => tree t y :: elements ts' xs'
    | _, _ => []
    end.

  Lemma unicode_out : forall s, unicode s -> exists t, copy_escaped ei b7 s = Ok t /\ rfc_body t /\ denotes t s /\ is_bytes t.
  Proof.
    intros s (cps & F & ->). destruct (C11_output_legal ei b7 cps F) as (t & E & R & D & _).
    unfold write_string_escaped in E. destruct (copy_escaped ei b7 (encode cps)) as [t'| | |]; cbn [bind] in E; try discriminate.
    injection E as E. apply app_inj_tail in E as [-> _]. exists t. repeat split; auto. eapply denotes_bytes; eauto. now apply encode_bytes.
  Qed.
End Tree.


(** ** The written value stands for the value *)
Lemma members_tree_in : forall ei b7 mm xs k, In k (map fst (members_tree ei b7 mm xs)) -> In k (map fst mm).
Proof.
  induction mm as [|[nm t] mm IH]; intros xs k H; [destruct xs; contradiction|]. destruct xs as [|y xs]; [contradiction|].
  cbn [members_tree] in H. cbn [map fst In]. destruct (is_nullable t && negb (has_value y)).
  - right. eapply IH; eauto.
  - cbn [map fst In] in H. destruct H as [H|H]; [now left|right; eapply IH; eauto].
Qed.

Lemma members_tree_nodup : forall ei b7 mm xs, NoDup (map fst mm) -> NoDup (map fst (members_tree ei b7 mm xs)).
Proof.
  induction mm as [|[nm t] mm IH]; intros xs H; [destruct xs; constructor|]. destruct xs as [|y xs]; [constructor|].
  cbn [members_tree]. cbn [map fst] in H. inversion H; subst. destruct (is_nullable t && negb (has_value y)); auto.
  cbn [map fst]. constructor; auto. intros HI. apply members_tree_in in HI. contradiction.
Qed.

Lemma lookup_absent : forall k l, ~ In k (map fst l) -> lookup k l = None.
Proof.
  induction l as [|[k' v] l IH]; intros H; [reflexivity|]. cbn [lookup map fst In] in *.
  destruct (list_eq_dec N.eq_dec k' k) as [E|E]; [tauto|apply IH; tauto].
Qed.

Lemma width_Z : forall w z, int_size w -> (0 <= z < 2 ^ Z.of_N w)%Z -> (Z.to_N z < 2 ^ w)%N.
Proof. intros w z HW H. assert (E : Z.of_N (2 ^ w) = (2 ^ Z.of_N w)%Z) by (now rewrite N2Z.inj_pow). lia. Qed.

Lemma meant_not_null : forall t v, meant_for t v = true -> v <> JNull.
Proof. induction t; intros v H; cbn [meant_for] in H; try discriminate; try (destruct v; discriminate). now apply IHt. Qed.

(** A value of an alternative is of its kind. *)
Lemma tree_meant : forall ei b7 t x, alternative t = true -> x <> VNone -> belongs t x -> meant_for t (tree ei b7 t x) = true.
Proof.
  induction t as [w rc|w rc| | |t IHt|t _|t _|ex mm|ex ts|ex kn tk _ vn tv _|k|alts|ex tag t _ sw alts]; intros x HA NX HB; cbn [belongs] in HB; try discriminate HA.
  - destruct HB as (_ & z & -> & _). reflexivity.
  - destruct HB as (_ & z & -> & _). reflexivity.
  - destruct HB as (b & ->). now destruct b.
  - destruct HB as (s & -> & _). reflexivity.
  - destruct HB as (HN & [->|(y & -> & HY)]); [congruence|]. cbn [tree meant_for]. apply IHt; auto. intros ->.
    destruct t; cbn [is_nullable belongs] in *; try discriminate; destruct HY as (? & HY); try discriminate; repeat (destruct HY as (? & HY); try discriminate).
  - destruct HB as (xs & -> & _). reflexivity.
  - destruct HB as (xs & -> & _). reflexivity.
  - destruct HB as (_ & _ & xs & -> & _). reflexivity.
  - destruct HB as (xs & -> & _). reflexivity.
  - destruct HB as (_ & _ & _ & xs & -> & _). reflexivity.
  - destruct k; try discriminate. destruct HB as (s & -> & _). reflexivity.
Qed.

Lemma pick_meant : forall ei b7 y, y <> VNone -> forall alts i,
  (fix choose (alts : list ty) (i : nat) : Prop :=
     match alts, i with
     | t :: _, O => alternative t = true /\ belongs t y
     | t :: alts', S i' => (forall v, meant_for t v && meant_for (nth i' alts' TBool) v = false) /\ choose alts' i'
     | [], _ => False
     end) alts i ->
  exists t, nth i alts TBool = t /\ In t alts /\ alternative t = true /\ belongs t y /\ chosen (tree ei b7 t y) alts i t /\
    (fix pick (alts : list ty) (i : nat) : jv :=
       match alts, i with
       | t :: _, O => tree ei b7 t y
       | _ :: alts', S i' => pick alts' i'
       | [], _ => JNull
       end) alts i = tree ei b7 t y.
Proof.
  intros ei b7 y NY. induction alts as [|t alts IH]; intros i H; [destruct i; contradiction|]. destruct i as [|i]; destruct H as [H1 H2].
  - exists t. split; [reflexivity|]. split; [now left|]. split; [exact H1|]. split; [exact H2|]. split; [|reflexivity]. split; [now apply tree_meant|reflexivity].
  - destruct (IH i H2) as (t' & E & I & A & B & C & P). exists t'. split; [exact E|]. split; [now right|]. split; [exact A|]. split; [exact B|]. split; [|exact P].
    split; [|exact C]. specialize (H1 (tree ei b7 t' y)). rewrite E, (tree_meant ei b7 t' y A NY B), andb_true_r in H1. exact H1.
Qed.

Definition intrusive_choice (exact : bool) (tag : list N) (tg : ty) (switch : val -> nat) (i : nat) (z : val) (t : ty) : Prop :=
  exists ex m1 m2 xs1 y xs2, t = TClass ex (m1 ++ (tag, tg) :: m2) /\ z = VClass (xs1 ++ y :: xs2) /\
    length m1 = length xs1 /\ switch y = i /\
    Forall (fun k => name_hash false k <> name_hash false tag) (map fst (m1 ++ m2)) /\
    (exact = true -> m1 ++ m2 = []).

Lemma pick_class : forall ei b7 exact tag tg switch i z alts j,
  (fix choose (alts : list ty) (j : nat) : Prop :=
     match alts, j with
     | t :: _, O => belongs t z /\ intrusive_choice exact tag tg switch i z t
     | _ :: alts', S j' => choose alts' j'
     | [], _ => False
     end) alts j ->
  exists t, nth_error alts j = Some t /\ In t alts /\ belongs t z /\ intrusive_choice exact tag tg switch i z t /\
    (fix pick (alts : list ty) (i : nat) : jv :=
       match alts, i with
       | t :: _, O => tree ei b7 t z
       | _ :: alts', S i' => pick alts' i'
       | [], _ => JNull
       end) alts j = tree ei b7 t z.
Proof.
  intros ei b7 exact tag tg switch i z. induction alts as [|t alts IH]; intros j H; [destruct j; contradiction|]. destruct j as [|j].
  - destruct H as [H1 H2]. exists t. repeat split; auto. now left.
  - destruct (IH j H) as (t' & E & I & B & C & P). exists t'. repeat split; auto. now right.
Qed.

Lemma tree_not_null : forall ei b7 t x, is_nullable t = false -> belongs t x -> tree ei b7 t x <> JNull.
Proof.
  intros ei b7 t x HN HB. destruct t; cbn [is_nullable belongs] in *; try discriminate.
  - destruct HB as (_ & z & -> & _). discriminate.
  - destruct HB as (_ & z & -> & _). discriminate.
  - destruct HB as (b & ->). now destruct b.
  - destruct HB as (s & -> & _). discriminate.
  - destruct HB as (xs & -> & _). discriminate.
  - destruct HB as (xs & -> & _). discriminate.
  - destruct HB as (_ & _ & xs & -> & _). discriminate.
  - destruct HB as (xs & -> & _). discriminate.
  - destruct HB as (_ & _ & _ & xs & -> & _). discriminate.
  - destruct HB as (s & -> & HB). destruct k; [discriminate| |discriminate].
    cbn [tree]. destruct (list_eq_dec N.eq_dec s [116; 114; 117; 101]); [discriminate|]. destruct (list_eq_dec N.eq_dec s [102; 97; 108; 115; 101]); discriminate.
  - destruct HB as (i & y & -> & NY & H). destruct (pick_meant ei b7 y NY alts i H) as (t & _ & _ & A & B & _ & P). cbn [tree]. rewrite P.
    apply (meant_not_null t). now apply tree_meant.
  - destruct HB as (i & z & -> & H). destruct (pick_class ei b7 exact tag t switch i z alts i H) as (t' & _ & _ & _ & (ex & m1 & m2 & xs1 & y & xs2 & -> & -> & _) & P).
    cbn [tree]. rewrite P. discriminate.
Qed.

Lemma members_split : forall k t m2 y xs2 m1 xs1, length m1 = length xs1 ->
  (fix members (mm : list (list N * ty)) (xs : list val) : Prop :=
     match mm, xs with
     | [], [] => True
     | (_, t) :: mm', y :: xs' => belongs t y /\ members mm' xs'
     | _, _ => False
     end) (m1 ++ (k, t) :: m2) (xs1 ++ y :: xs2) -> belongs t y.
Proof.
  induction m1 as [|[nm t'] m1 IH]; intros [|x xs1] L H; try discriminate; [apply H|]. destruct H as [_ H]. injection L as L. eapply IH; eauto.
Qed.

Lemma lookup_tree : forall ei b7 k t m2 y xs2 m1 xs1, length m1 = length xs1 -> NoDup (map fst (m1 ++ (k, t) :: m2)) ->
  lookup k (members_tree ei b7 (m1 ++ (k, t) :: m2) (xs1 ++ y :: xs2)) = if is_nullable t && negb (has_value y) then None else Some (tree ei b7 t y).
Proof.
  induction m1 as [|[nm t'] m1 IH]; intros [|x xs1] L ND; try discriminate; cbn [app map fst] in ND; inversion ND as [|? ? NI ND']; subst; cbn [app members_tree].
  - destruct (is_nullable t && negb (has_value y)).
    + apply lookup_absent. intros HI. apply NI. eapply members_tree_in; eauto.
    + cbn [lookup]. destruct (list_eq_dec N.eq_dec k k); [reflexivity|congruence].
  - injection L as L. destruct (is_nullable t' && negb (has_value x)); [now apply IH|]. cbn [lookup].
    destruct (list_eq_dec N.eq_dec nm k) as [->|]; [|now apply IH]. exfalso. apply NI. rewrite map_app. apply in_or_app. right. now left.
Qed.

Lemma chosen_typed : forall nc v y t, typed nc t v y -> forall alts i, chosen v alts i t ->
  (fix choose (alts : list ty) (i : nat) : Prop :=
     match alts, i with
     | t :: _, O => meant_for t v = true /\ typed nc t v y
     | t :: alts', S i' => meant_for t v = false /\ choose alts' i'
     | [], _ => False
     end) alts i.
Proof.
  intros nc v y t HT. induction alts as [|t' alts IH]; intros i H; [destruct i; contradiction|]. destruct i as [|i]; destruct H as [H1 H2].
  - subst t'. split; [exact H1|exact HT].
  - split; [exact H1|now apply IH].
Qed.

Lemma visited_typed : forall nc v z t, typed nc t v z -> forall alts i, nth_error alts i = Some t ->
  (fix choose (alts : list ty) (i : nat) : Prop :=
     match alts, i with
     | t :: _, O => typed nc t v z
     | _ :: alts', S i' => choose alts' i'
     | [], _ => False
     end) alts i.
Proof.
  intros nc v z t HT. induction alts as [|t' alts IH]; intros i H; [destruct i; discriminate|]. destruct i as [|i]; cbn [nth_error] in H.
  - injection H as ->. exact HT.
  - now apply IH.
Qed.

Theorem typed_tree : forall g ei b7 t x, belongs t x -> typed (usable g) t (tree ei b7 t x) x.
Proof.
  intros g ei b7. fix IH 1. intros t x HB. destruct t as [w rc|w rc| | |t|t|t|ex mm|ex ts|ex kn tk vn tv|k|alts|ex tag t switch alts].
  - destruct HB as (HW & z & -> & HZ). pose proof (width_Z w z HW HZ) as HL. cbn [tree typed].
    destruct (unsigned_out LSNever w (Z.to_N z) HW HL) as (tx & HC & HD & ->). cbn [text_of quote_if app]. rewrite app_nil_r.
    exists tx. rewrite HD. split; [reflexivity|]. split; [exact HC|]. split; [exact HW|]. split; [exact HL|]. f_equal. lia.
  - destruct HB as (HW & z & -> & HZ & HM). cbn [tree typed].
    destruct (signed_out LSNever w z HW HZ) as (tx & HC & ->). cbn [text_of quote_if app]. rewrite app_nil_r.
    exists tx, z. auto 10.
  - destruct HB as (b & ->). cbn [tree typed]. destruct b; auto.
  - destruct HB as (s & -> & HU). cbn [tree typed]. destruct (unicode_out ei b7 s HU) as (tx & -> & _ & D & _). exists tx, s. auto.
  - destruct HB as (HN & [->|(y & -> & HY)]); cbn [tree typed]; [left; auto|]. right. split; [now apply tree_not_null|]. exists y. split; auto.
  - destruct HB as (xs & -> & HF). cbn [tree typed]. exists (map (tree ei b7 t) xs), xs. split; [reflexivity|]. split; [reflexivity|].
    induction HF; cbn [map]; constructor; auto.
  - destruct HB as (kxs & -> & HF). cbn [tree typed]. eexists _, kxs. split; [reflexivity|]. split; [reflexivity|].
    induction HF as [|[k x] kxs [HK HX] HF IHF]; cbn [map]; constructor; auto. cbn [fst snd] in *. split; [|auto].
    destruct (unicode_out ei b7 k HK) as (tx & -> & _ & D & _). exact D.
  - cbn [belongs] in HB. destruct HB as (ND & HP & xs & -> & HM). cbn [typed]. exists (members_tree ei b7 mm xs), xs.
    split; [reflexivity|]. split; [reflexivity|]. split; [exact ND|]. split; [|split; [|split]].
    + intros k HK. apply (proj1 (NoDup_count_occ (list_eq_dec N.eq_dec) _) (members_tree_nodup ei b7 mm xs ND)).
    + apply Forall_forall. intros k HK. apply members_tree_in in HK. apply usable_mapped; auto. rewrite Forall_forall in HP. auto.
    + intros _ k HK. eapply members_tree_in; eauto.
    + assert (X : forall js, (forall k, In k (map fst mm) -> lookup k js = lookup k (members_tree ei b7 mm xs)) ->
        (fix members (mm : list (list N * ty)) (xs : list val) : Prop :=
           match mm, xs with
           | [], [] => True
           | (nm, t) :: mm', y :: xs' =>
               match lookup nm js with
               | Some v' => typed (usable g) t v' y
               | None => is_nullable t = true /\ y = VNone
               end /\ members mm' xs'
           | _, _ => False
           end) mm xs).
      { clear HP. revert xs HM. induction mm as [|[nm t] mm IHm]; intros xs HM js HJ; destruct xs as [|y xs]; cbn in HM; try contradiction; [exact I|].
        destruct HM as [HY HM]. specialize (IH t y HY). cbn [map fst] in ND. inversion ND as [|? ? NI ND']; subst. split.
        - rewrite (HJ nm) by (left; reflexivity). cbn [members_tree]. destruct (is_nullable t && negb (has_value y)) eqn:E.
          + rewrite lookup_absent by (intros HI; apply NI; eapply members_tree_in; eauto). apply andb_prop in E as [E1 E2]. split; [exact E1|]. destruct y; try discriminate; reflexivity.
          + cbn [lookup]. destruct (list_eq_dec N.eq_dec nm nm); [exact IH|congruence].
        - apply IHm; auto. intros k HK. rewrite (HJ k) by (right; exact HK). cbn [members_tree].
          destruct (is_nullable t && negb (has_value y)); [reflexivity|]. cbn [lookup].
          destruct (list_eq_dec N.eq_dec nm k); [subst; contradiction|reflexivity]. }
      apply X. reflexivity.
  - cbn [belongs] in HB. destruct HB as (xs & -> & HM). cbn [typed]. exists (elements_tree ei b7 ts xs), xs, [].
    rewrite app_nil_r. split; [reflexivity|]. split; [reflexivity|]. split; [reflexivity|]. split; [intros e; discriminate|].
    revert xs HM. induction ts as [|t ts IHt]; intros xs HM; destruct xs as [|y xs]; try contradiction; [exact I|].
    destruct HM as [HY HM]. specialize (IH t y HY). split; [exact IH|]. apply IHt. exact HM.
  - cbn [belongs] in HB. destruct HB as (PK & PV & NK & xs & -> & NX & HF). cbn [tree typed]. eexists _, xs. split; [reflexivity|]. split; [reflexivity|].
    split; [exact NK|]. split; [destruct xs; [congruence|discriminate]|]. clear NX.
    pose proof (TypedProofs.no_dup_2 _ _ NK) as ND.
    induction HF as [|y xs (a & b & -> & HA & HB) HF IHF]; cbn [map]; constructor; [|exact IHF].
    eexists _, a, b. split; [reflexivity|]. split; [reflexivity|]. cbn [map fst]. split; [|split; [|split; [|split]]].
    + intros k _. cbn [map fst]. apply (proj1 (NoDup_count_occ (list_eq_dec N.eq_dec) _) ND).
    + constructor; [|constructor; [|constructor]]; apply usable_mapped; auto; [left|right; left]; reflexivity.
    + intros _ k HK. exact HK.
    + cbn [lookup]. destruct (list_eq_dec N.eq_dec kn kn); [now apply IH|congruence].
    + cbn [lookup]. destruct (list_eq_dec N.eq_dec kn vn); [congruence|]. destruct (list_eq_dec N.eq_dec vn vn); [now apply IH|congruence].
  - cbn [belongs] in HB. destruct HB as (s & -> & HS). cbn [typed]. exists s. split; [destruct k; reflexivity|]. destruct k; [|clear HS|contradiction].
    + destruct HS as (_ & _ & HS). split; [reflexivity|exact HS].
    + cbn [tree]. destruct (list_eq_dec N.eq_dec s [116; 114; 117; 101]); [assumption|]. destruct (list_eq_dec N.eq_dec s [102; 97; 108; 115; 101]); [assumption|reflexivity].
  - cbn [belongs] in HB. destruct HB as (i & y & -> & NY & H). destruct (pick_meant ei b7 y NY alts i H) as (t & _ & I & A & B & C & P).
    assert (X : typed (usable g) t (tree ei b7 t y) y).
    { clear C P H. induction alts as [|t' alts IHa]; [contradiction|]. cbn [In] in I. destruct I as [<-|I]; [now apply IH|now apply IHa]. }
    cbn [tree]. rewrite P. cbn [typed]. exists i, y. split; [reflexivity|]. now apply (chosen_typed _ _ _ t).
  - cbn [belongs] in HB. destruct HB as (i & z & -> & H). destruct (pick_class ei b7 ex tag t switch i z alts i H) as (t' & E & I & B & C & P).
    assert (X : typed (usable g) t' (tree ei b7 t' z) z).
    { clear C P H E. induction alts as [|t0 alts IHa]; [contradiction|]. cbn [In] in I. destruct I as [<-|I]; [now apply IH|now apply IHa]. }
    destruct C as (ex' & m1 & m2 & xs1 & y & xs2 & -> & -> & L & ES & NC & EX). cbn [belongs] in B. destruct B as (ND & HP & xs & [= <-] & HM).
    pose proof (members_split tag t m2 y xs2 m1 xs1 L HM) as HY. cbn [tree]. rewrite P. cbn [typed].
    exists (members_tree ei b7 (m1 ++ (tag, t) :: m2) (xs1 ++ y :: xs2)), y, (VClass (xs1 ++ y :: xs2)).
    split; [reflexivity|]. split; [now rewrite ES|]. split; [|split; [|split; [|split]]].
    + intros k _. apply (proj1 (NoDup_count_occ (list_eq_dec N.eq_dec) _) (members_tree_nodup ei b7 _ _ ND)).
    + apply Forall_forall. intros k HK. apply members_tree_in in HK. rewrite Forall_forall in HP. split; [apply plain_name_ok; auto|].
      right. intros nm [<-|[]] Eh. rewrite map_app in HK. cbn [map fst] in HK. apply in_app_or in HK as [HK|[HK|HK]]; [|exact HK|].
      * exfalso. rewrite Forall_forall in NC. apply (NC k); [rewrite map_app; apply in_or_app; now left|now symmetry].
      * exfalso. rewrite Forall_forall in NC. apply (NC k); [rewrite map_app; apply in_or_app; now right|now symmetry].
    + intros HEx k HK. apply members_tree_in in HK. specialize (EX HEx). apply app_eq_nil in EX as [-> ->]. exact HK.
    + rewrite lookup_tree by auto. destruct (is_nullable t && negb (has_value y)) eqn:EN; [|now apply IH].
      apply andb_prop in EN as [E1 E2]. split; [exact E1|]. destruct y; try discriminate; reflexivity.
    + apply (visited_typed _ _ _ _ X). now rewrite ES.
Qed.
