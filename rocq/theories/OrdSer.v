(** Classes that are written as arrays, inside other types: what is written stands
    for the value. *)
From Coq Require Import List NArith ZArith Bool Lia Arith ZifyBool ZifyNat ZifyN.
From Verif Require Import Base Mem Loop IntModel IntSerModel IntSerProofs IntValueProofs SpecNum SpecText SpecJson SpecCompact SpecUnicode
  PropertiesInt StrEncodeModel StrEncodeProofs PropertiesStrOut ValueModel NameProofs SpecTyped SerModel SpecSer PropertiesTyped VariantProofs SerProofs SerProofs2
  OrderedProofs OrdModel SpecOrd.
Import ListNotations.
Local Open Scope N_scope.

Section Out.
  Context (o : sopt).
  Hypothesis HT : o_trailing o = false.
  Hypothesis HLay : layout o.
  Context (g : cfg).

  Definition written (t : oty) (lvl : nat) (x : val) (v : jv) : Prop :=
    exists out, to_json_string_o o t lvl x = Ok out /\ good o v out /\ o_means (usable g) t v x /\ (v = JNull -> o_nullable t = true).

  Definition o_members_belong := fix members (mm : list (list N * oty)) (xs : list val) : Prop :=
    match mm, xs with
    | [], [] => True
    | (_, t) :: mm', y :: xs' => o_belongs t y /\ members mm' xs'
    | _, _ => False
    end.
  Definition o_elements_belong := fix elements (ts : list oty) (xs : list val) : Prop :=
    match ts, xs with
    | [], [] => True
    | t :: ts', y :: xs' => o_belongs t y /\ elements ts' xs'
    | _, _ => False
    end.
  Definition o_wms lvl (mm : list (list N * oty)) :=
    map (fun m => mkwm (fst m) (if o_nullable (snd m) then Nullable else NotNullable) (to_json_string_o o (snd m) lvl)) mm.

  (** What the members of an object are for the members of the class *)
  Definition o_gets (js : list (list N * jv)) := fix members (mm : list (list N * oty)) (xs : list val) : Prop :=
    match mm, xs with
    | [], [] => True
    | (nm, t) :: mm', y :: xs' =>
        match lookup nm js with
        | Some v' => o_means (usable g) t v' y
        | None => o_nullable t = true /\ y = VNone
        end /\ members mm' xs'
    | _, _ => False
    end.

  Lemma o_gets_same : forall js js' mm xs, (forall k, In k (map fst mm) -> lookup k js = lookup k js') -> o_gets js mm xs -> o_gets js' mm xs.
  Proof.
    induction mm as [|[nm t] mm IH]; intros [|y xs] H G; try contradiction; [exact I|]. destruct G as [G1 G2]. cbn [map fst In] in H. split.
    - rewrite <- (H nm) by auto. exact G1.
    - apply IH; auto.
  Qed.

  Lemma o_class_members : forall lvl mm,
    (forall m, In m mm -> forall x, o_belongs (snd m) x -> exists v, written (snd m) lvl x v) ->
    NoDup (map fst mm) -> Forall plain_name (map fst mm) -> forall xs, o_members_belong mm xs ->
    forall is_first visited, (forall k, In k (map fst mm) -> ~ In k visited) ->
    exists js body, class_members o (next_member o lvl) is_first visited (o_wms lvl mm) xs = Ok (sep is_first js ++ body) /\
      members_good o js body /\ NoDup (map fst js) /\ (forall k, In k (map fst js) -> In k (map fst mm)) /\ o_gets js mm xs.
  Proof.
    intros lvl mm. induction mm as [|[nm t] mm IH]; intros HW ND HP xs HB is_first visited HV; destruct xs as [|y xs]; cbn [o_members_belong] in HB; try contradiction.
    - exists [], []. split; [reflexivity|]. split; [apply members_nil|]. split; [constructor|]. split; [auto|exact I].
    - destruct HB as [HY HB]. cbn [map fst] in *. inversion ND as [|? ? NI ND']; subst. inversion HP as [|? ? HN HP']; subst.
      cbn [o_wms map fst snd class_members wm_name wm_null wm_write]. rewrite visited_no by (apply HV; left; reflexivity).
      assert (HV' : forall k, In k (map fst mm) -> ~ In k (visited ++ [nm])).
      { intros k HK HI. apply in_app_or in HI as [HI|[->|[]]]; [eapply HV; [right; exact HK|exact HI]|contradiction]. }
      assert (HW' : forall m, In m mm -> forall x, o_belongs (snd m) x -> exists v, written (snd m) lvl x v) by (intros m Hm; apply HW; now right).
      replace (match (if o_nullable t then Nullable else NotNullable) with NotNullable => false | _ => negb (has_value y) end) with (o_nullable t && negb (has_value y)) by (destruct (o_nullable t); reflexivity).
      destruct (o_nullable t && negb (has_value y)) eqn:EN.
      + destruct (IH HW' ND' HP' xs HB is_first (visited ++ [nm]) HV') as (js & body & E & G & NJ & IN & GE). exists js, body.
        split; [exact E|]. split; [exact G|]. split; [exact NJ|]. split; [intros k HK; right; auto|]. cbn [o_gets]. split; [|exact GE].
        rewrite lookup_absent by (intros HI; apply NI; auto). apply andb_prop in EN as [E1 E2]. split; [exact E1|]. destruct y; try discriminate; reflexivity.
      + destruct (HW (nm, t) (or_introl eq_refl) y HY) as (v & tx & E & G & M & _). cbn [snd] in *. rewrite E. cbn [bind].
        destruct (IH HW' ND' HP' xs HB false (visited ++ [nm]) HV') as (js & rest & ER & GR & NJ & IN & GE). fold (o_wms lvl mm).
        rewrite ER. cbn [bind]. exists ((nm, v) :: js). eexists. split.
        { cbn [sep]. f_equal. }
        split; [|split; [|split]].
        * pose proof (members_cons o HLay lvl nm v js tx rest (plain_name_rfc nm HN) (plain_bytes o nm HN) G GR) as Mc. cbn [app] in Mc. rewrite <- app_assoc in Mc. exact Mc.
        * cbn [map fst]. constructor; auto.
        * cbn [map fst In]. intros k [HK|HK]; auto.
        * cbn [o_gets lookup]. destruct (list_eq_dec N.eq_dec nm nm); [|congruence]. split; [exact M|].
          eapply o_gets_same; [|exact GE]. intros k HK. cbn [lookup]. destruct (list_eq_dec N.eq_dec nm k); [subst; contradiction|reflexivity].
  Qed.

  Lemma o_class_out : forall ex lvl mm xs,
    (forall m, In m mm -> forall x, o_belongs (snd m) x -> exists v, written (snd m) (S lvl) x v) ->
    NoDup (map fst mm) -> Forall plain_name (map fst mm) -> o_members_belong mm xs -> exists v, written (OClass ex mm) lvl (VClass xs) v.
  Proof.
    intros ex lvl mm xs HW ND HP HB.
    destruct (o_class_members (S lvl) mm HW ND HP xs HB true []) as (js & body & E & G & NJ & IN & GE); [intros k _ []|].
    exists (JObj js). eexists. split; [|split; [|split; [|discriminate]]].
    - cbn [to_json_string_o]. unfold serialize_json_class. fold (o_wms (S lvl) mm). rewrite E. cbn [bind].
      replace (sep true js) with (@nil N) by (destruct js; reflexivity). cbn [app]. reflexivity.
    - apply obj_good; auto. unfold o_wms. destruct mm; [intros _|discriminate]. destruct js as [|[k v] js]; [reflexivity|]. destruct (IN k). now left.
    - cbn [o_means]. exists js, xs. split; [reflexivity|]. split; [reflexivity|]. split; [exact ND|]. split; [|split; [|split; [auto|exact GE]]].
      + intros k HK. apply (proj1 (NoDup_count_occ (list_eq_dec N.eq_dec) _) NJ).
      + apply Forall_forall. intros k HK. apply IN in HK. apply usable_mapped; auto. rewrite Forall_forall in HP. auto.
  Qed.

  Lemma o_tuple_elems : forall lvl ts,
    (forall t, In t ts -> forall x, o_belongs t x -> exists v, written t lvl x v) ->
    forall xs, o_elements_belong ts xs ->
    exists es body, tuple_elems (next_member o lvl) (map (fun t => to_json_string_o o t lvl) ts) xs = Ok body /\
      is_bytes body /\ (ts = [] -> body = [] /\ es = []) /\ (ts <> [] -> es <> []) /\
      (ts <> [] -> forall post, ws post -> jelems rfc_body es (next_member o lvl ++ body ++ post)) /\
      (o_pretty o = false -> body = compact_elems es) /\
      (fix elements (ts : list oty) (es : list jv) (xs : list val) : Prop :=
           match ts, es, xs with
           | [], [], [] => True
           | t :: ts', v' :: es', y :: xs' => o_means (usable g) t v' y /\ elements ts' es' xs'
           | _, _, _ => False
           end) ts es xs.
  Proof.
    intros lvl ts. induction ts as [|t ts IH]; intros HW xs HB; destruct xs as [|y xs]; cbn [o_elements_belong] in HB; try contradiction.
    - exists [], []. split; [reflexivity|]. split; [constructor|]. split; [auto|]. split; [congruence|]. split; [congruence|]. split; [reflexivity|exact I].
    - destruct HB as [HY HB]. destruct (HW t (or_introl eq_refl) y HY) as (v & tx & E & (GT & GB & GM) & M & _).
      destruct (IH (fun t' Ht' => HW t' (or_intror Ht')) xs HB) as (es & rest & ER & RB & RN & RE & RJ & RM & RG).
      cbn [map tuple_elems]. rewrite E, ER. cbn [bind]. exists (v :: es). eexists. split; [reflexivity|].
      pose proof (ws_next o lvl HLay) as HWs. assert (NM : o_pretty o = false -> next_member o lvl = []) by apply next_min.
      set (pre := next_member o lvl) in *. clearbody pre. clear ER.
      destruct ts as [|t' ts].
      + destruct (RN eq_refl) as [-> ->]. cbn [map app]. rewrite app_nil_r. split; [exact GB|]. split; [discriminate|]. split; [discriminate|]. split; [|split].
        * intros _ post HP. now apply e_one.
        * intros HM. cbn [compact_elems]. auto.
        * split; auto.
      + assert (NE : t' :: ts <> []) by congruence. pose proof (RE NE) as NEs. cbn [map]. split; [|split; [discriminate|split; [discriminate|split; [|split]]]].
        * apply bytes_app; auto. apply bytes_app; auto. apply bytes_cons; [lia|now apply ws_bytes].
        * intros _ post HP. specialize (RJ NE post HP).
          replace (pre ++ (tx ++ (44 :: pre) ++ rest) ++ post) with (pre ++ tx ++ [] ++ 44 :: (pre ++ rest ++ post)) by (cbn [app]; repeat (rewrite <- !app_assoc; cbn [app]); reflexivity).
          apply e_cons; auto. constructor.
        * intros HM. rewrite (NM HM), (RM HM), (GM HM). destruct es; [congruence|reflexivity].
        * split; auto.
  Qed.

  Lemma o_tuple_out : forall ex lvl ts xs,
    (forall t, In t ts -> forall x, o_belongs t x -> exists v, written t (S lvl) x v) ->
    o_elements_belong ts xs -> exists v, written (OTuple ex ts) lvl (VTuple xs) v.
  Proof.
    intros ex lvl ts xs HW HB.
    destruct (o_tuple_elems (S lvl) ts HW xs HB) as (es & body & E & BB & BN & BE & BJ & BM & BG).
    exists (JArr es). eexists. split; [|split; [|split; [|discriminate]]].
    - cbn [to_json_string_o]. unfold to_json_string_tuple. rewrite E. cbn [bind]. rewrite trailing_none by exact HT. cbn [app]. reflexivity.
    - pose proof (ws_next o lvl HLay) as HW1. pose proof (ws_next o (S lvl) HLay) as HW2. split; [|split].
      + destruct ts as [|t ts].
        * destruct (BN eq_refl) as [-> ->]. cbn [map app]. now apply t_arr0.
        * cbn [map]. assert (NE : t :: ts <> []) by congruence. specialize (BJ NE (next_member o lvl) HW1).
          apply t_arr in BJ. repeat (rewrite <- !app_assoc in BJ; cbn [app] in BJ). exact BJ.
      + apply bytes_cons; [lia|]. apply bytes_app; [now apply ws_bytes|]. apply bytes_app; auto. apply bytes_app; [|apply bytes_cons; [lia|constructor]].
        destruct ts; [constructor|now apply ws_bytes].
      + intros HM. rewrite compact_arr, (BM HM), !(next_min o _ HM). now destruct ts.
    - cbn [o_means]. exists es, xs, []. rewrite app_nil_r. split; [reflexivity|]. split; [reflexivity|]. split; [auto|]. split; [discriminate|exact BG].
  Qed.

  (** *** Classes written as arrays *)
  Lemma close_no_gap : forall size ks next, ascending ks next -> close_by size ks next -> no_gap_inside size next ks.
  Proof.
    intros size. induction ks as [|k ks IH]; intros next HA HC; [exact I|]. destruct HA as [A1 A2]. destruct ks as [|k2 ks]; [exact I|].
    destruct HC as [C1 C2]. cbn [no_gap_inside].
    assert (E : (next + match k with Some j => j - next | None => 0 end + 1 = S (place k next))%nat) by (destruct k; cbn [place] in *; lia).
    rewrite E. split; [exact C1|now apply IH].
  Qed.

  Lemma placed_length : forall ks vs next, length ks = length vs -> ascending ks next -> (next + length (placed next ks vs) = past ks next)%nat.
  Proof.
    induction ks as [|k ks IH]; intros [|v vs] next L HA; try discriminate; cbn [placed past length]; [lia|].
    destruct HA as [A1 A2]. assert (E : (next + match k with Some j => j - next | None => 0 end + 1 = S (place k next))%nat) by (destruct k; cbn [place] in *; lia).
    rewrite app_length, repeat_length. cbn [length] in *. rewrite E. specialize (IH vs (S (place k next)) ltac:(lia) A2). lia.
  Qed.

  (** The elements at the places are those of the members. *)
  Definition o_takes (es : list jv) := fix members (ms : list (option nat * oty)) (next : nat) (xs : list val) : Prop :=
    match ms, xs with
    | [], [] => True
    | (k, t) :: ms', y :: xs' =>
        match nth_error es (place k next) with
        | Some v' => o_means (usable g) t v' y
        | None => o_nullable t = true /\ y = VNone
        end /\ members ms' (S (place k next)) xs'
    | _, _ => False
    end.

  Definition o_ordered_belong := fix members (ms : list (option nat * oty)) (xs : list val) : Prop :=
         match ms, xs with
         | [], [] => True
         | (_, t) :: ms', y :: xs' => o_belongs t y /\ members ms' xs'
         | _, _ => False
         end.

  Lemma placed_takes : forall ms xs vs next pre, Forall2 (fun mx v => o_means (usable g) (snd (fst mx)) v (snd mx)) (combine ms xs) vs ->
    length ms = length xs -> length pre = next -> ascending (map fst ms) next -> o_takes (pre ++ placed next (map fst ms) vs) ms next xs.
  Proof.
    induction ms as [|[k t] ms IH]; intros [|y xs] vs next pre F L LP HA; try discriminate; [exact I|].
    cbn [combine] in F. inversion F as [|? v ? vs' M F']; subst. destruct HA as [A1 A2]. cbn [map fst snd o_takes placed] in *.
    set (next := length pre) in *. set (n := match k with Some j => (j - next)%nat | None => 0%nat end).
    assert (E : (next + n = place k next)%nat) by (unfold n; destruct k; cbn [place] in *; lia).
    split.
    - rewrite app_assoc. rewrite nth_error_app2 by (rewrite app_length, repeat_length; fold next; lia).
      rewrite app_length, repeat_length. fold next. rewrite E, Nat.sub_diag. cbn [nth_error]. exact M.
    - replace (pre ++ repeat JNull n ++ v :: placed (next + n + 1) (map fst ms) vs') with ((pre ++ repeat JNull n ++ [v]) ++ placed (S (place k next)) (map fst ms) vs').
      2:{ replace (next + n + 1)%nat with (S (place k next)) by lia. repeat (rewrite <- ?app_assoc; cbn [app]). reflexivity. }
      apply IH; auto. cbn [length] in *. rewrite !app_length, repeat_length. cbn [length]. fold next. lia.
  Qed.

  Lemma o_ordered_out : forall ex lvl ms xs,
    (forall m, In m ms -> forall x, o_belongs (snd m) x -> exists v, written (snd m) (S lvl) x v) ->
    ms <> [] -> ascending (map fst ms) 0 -> close_by (length ms) (map fst ms) 0 -> o_ordered_belong ms xs -> exists v, written (OOrdered ex ms) lvl (VClass xs) v.
  Proof.
    intros ex lvl ms xs HW NE HA HC HB.
    assert (X : exists vs, length ms = length xs /\ length xs = length vs /\
      Forall2 (fun m xv => exists t, snd m (fst xv) = Ok t /\ good o (snd xv) t) (map (fun m => (fst m, to_json_string_o o (snd m) (S lvl))) ms) (combine xs vs) /\
      Forall2 (fun mx v => o_means (usable g) (snd (fst mx)) v (snd mx)) (combine ms xs) vs).
    { clear NE HA HC. revert xs HB. induction ms as [|[k t] ms IH]; intros [|y xs] HB; try contradiction.
      - exists []. split; [reflexivity|]. split; [reflexivity|]. split; constructor.
      - destruct HB as [HY HB]. destruct (HW (k, t) (or_introl eq_refl) y HY) as (v & tx & E & G & M & _).
        destruct (IH (fun m Hm => HW m (or_intror Hm)) xs HB) as (vs & L1 & L2 & F1 & F2). exists (v :: vs). cbn [length map combine fst snd] in *.
        split; [lia|]. split; [lia|]. split; constructor; auto. cbn [fst snd]. eauto. }
    destruct X as (vs & L1 & L2 & F1 & F2).
    destruct (ordered_out o HT HLay lvl (map (fun m => (fst m, to_json_string_o o (snd m) (S lvl))) ms) xs vs F1 L2) as (out & E & G).
    { now rewrite map_length. }
    { rewrite map_length, map_map. cbn [fst]. now apply close_no_gap. }
    rewrite map_map in G. cbn [fst] in G.
    exists (JArr (placed 0 (map fst ms) vs)), out. split; [exact E|]. split; [exact G|]. split; [|discriminate].
    cbn [o_means]. exists (placed 0 (map fst ms) vs), xs. split; [reflexivity|]. split; [reflexivity|]. split; [exact NE|]. split; [exact HA|]. split.
    - intros _. rewrite <- (placed_length (map fst ms) vs 0); [lia|rewrite map_length; lia|exact HA].
    - exact (placed_takes ms xs vs 0 [] F2 L1 eq_refl HA).
  Qed.

  Theorem o_written : forall t lvl x, o_belongs t x -> exists v, written t lvl x v.
  Proof.
    fix IH 1. intros t lvl x HB. destruct t as [t|t|t|t|ex mm|ex ts|ex ms|n d t].
    - exists (tree (o_errutf8 o) (o_7bit o) t x). destruct (to_json_good o HT HLay t lvl x HB) as (out & E & G). exists out.
      split; [exact E|]. split; [exact G|]. pose proof (typed_tree g (o_errutf8 o) (o_7bit o) t x HB) as TT. split; [exact TT|].
      intros EN. rewrite EN in TT. eapply TypedProofs.typed_null; eauto.
    - destruct HB as (HN & [->|(y & -> & HY)]).
      + exists JNull. eexists. split; [reflexivity|]. split; [|split; [left; auto|reflexivity]]. split; [constructor|]. split; [repeat (apply bytes_cons; [lia|]); constructor|reflexivity].
      + destruct (IH t lvl y HY) as (v & out & E & G & M & N). exists v, out. split; [exact E|]. split; [exact G|]. split; [|reflexivity].
        cbn [o_means]. right. split; [intros ->; rewrite (N eq_refl) in HN; discriminate|eauto].
    - destruct HB as (xs & -> & HF).
      assert (X : exists es, Forall2 (fun x e => (exists t0, to_json_string_o o t (S lvl) x = Ok t0 /\ good o e t0)) xs es /\ Forall2 (o_means (usable g) t) es xs).
      { induction HF as [|y xs HY HF (es & F1 & F2)]; [exists []; split; constructor|]. destruct (IH t (S lvl) y HY) as (v & out & E & G & M & _).
        exists (v :: es). split; constructor; eauto. }
      destruct X as (es & F1 & F2). destruct (array_out o HT HLay lvl _ xs es F1) as (out & E & G). exists (JArr es), out. split; [exact E|]. split; [exact G|].
      split; [cbn [o_means]; eauto 10|discriminate].
    - destruct HB as (kxs & -> & HF).
      assert (X : exists es, Forall2 (fun kx e => exists kt t0, copy_escaped (o_errutf8 o) (o_7bit o) (fst kx) = Ok kt /\ fst e = kt /\ rfc_body kt /\ is_bytes kt /\
          to_json_string_o o t (S lvl) (snd kx) = Ok t0 /\ good o (snd e) t0) kxs es /\
        Forall2 (fun m kx => SpecUnicode.denotes (fst m) (fst kx) /\ o_means (usable g) t (snd m) (snd kx)) es kxs).
      { induction HF as [|[k y] kxs [HK HY] HF (es & F1 & F2)]; [exists []; split; constructor|]. cbn [fst snd] in *.
        destruct (IH t (S lvl) y HY) as (v & out & E & G & M & _). destruct (unicode_out (o_errutf8 o) (o_7bit o) k HK) as (tx & EK & R & D & B).
        exists ((tx, v) :: es). split; constructor; auto. exists tx, out. auto 10. }
      destruct X as (es & F1 & F2). destruct (map_out o HT HLay lvl _ kxs es F1) as (out & E & G). exists (JObj es), out. split; [exact E|]. split; [exact G|].
      split; [cbn [o_means]; eauto 10|discriminate].
    - cbn [o_belongs] in HB. destruct HB as (ND & HP & xs & -> & HM). apply o_class_out; [|exact ND|exact HP|exact HM].
      clear HM ND HP. induction mm as [|m mm IHm]; intros m0 H0; [contradiction|]. cbn [In] in H0. destruct H0 as [<-|H0].
      + intros x Hx. apply IH. exact Hx.
      + apply IHm. exact H0.
    - cbn [o_belongs] in HB. destruct HB as (xs & -> & HM). apply o_tuple_out; [|exact HM].
      clear HM. induction ts as [|t ts IHt]; intros t0 H0; [contradiction|]. cbn [In] in H0. destruct H0 as [<-|H0].
      + intros x Hx. apply IH. exact Hx.
      + apply IHt. exact H0.
    - cbn [o_belongs] in HB. destruct HB as (NE & HA & HC & xs & -> & HM). apply o_ordered_out; [|exact NE|exact HA|exact HC|exact HM].
      clear HM NE HA HC. induction ms as [|m ms IHm]; intros m0 H0; [contradiction|]. cbn [In] in H0. destruct H0 as [<-|H0].
      + intros x Hx. apply IH. exact Hx.
      + apply IHm. exact H0.
    - cbn [o_belongs] in HB. destruct HB as (xs & -> & HN & HF).
      assert (X : exists es, Forall2 (fun x e => (exists t0, to_json_string_o o t (S lvl) x = Ok t0 /\ good o e t0)) xs es /\ Forall2 (o_means (usable g) t) es xs).
      { clear HN. induction HF as [|y xs HY HF (es & F1 & F2)]; [exists []; split; constructor|]. destruct (IH t (S lvl) y HY) as (v & out & E & G & M & _).
        exists (v :: es). split; constructor; eauto. }
      destruct X as (es & F1 & F2). destruct (array_out o HT HLay lvl _ xs es F1) as (out & E & G). exists (JArr es), out. split; [exact E|]. split; [exact G|].
      assert (L : length es = n) by (rewrite <- HN; clear - F2; induction F2; cbn [length]; auto).
      split; [|discriminate]. cbn [o_means]. exists es, xs. rewrite L, Nat.sub_diag. cbn [repeat]. rewrite app_nil_r. auto.
  Qed.
End Out.
