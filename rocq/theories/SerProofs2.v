(** The written text. *)
From Coq Require Import List NArith ZArith Bool Lia Arith ZifyBool ZifyNat ZifyN.
From Verif Require Import Base Mem Loop IntModel IntSerModel IntSerProofs SpecNum SpecText SpecJson SpecCompact SpecUnicode
  StrEncodeModel StrEncodeProofs PropertiesStrOut ValueModel SpecTyped SerModel SpecSer PropertiesTyped VariantProofs SerProofs.
Import ListNotations.
Local Open Scope N_scope.

Lemma ws_app : forall a b, ws a -> ws b -> ws (a ++ b).
Proof. intros. unfold ws in *. now apply Forall_app. Qed.
Lemma ws_bytes : forall w, ws w -> is_bytes w.
Proof. intros w H. unfold ws, is_bytes in *. eapply Forall_impl; [|exact H]. unfold json_ws. intros a Ha. lia. Qed.
Lemma bytes_app : forall a b, is_bytes a -> is_bytes b -> is_bytes (a ++ b).
Proof. intros. unfold is_bytes in *. now apply Forall_app. Qed.
Lemma bytes_cons : forall c a, c < 256 -> is_bytes a -> is_bytes (c :: a).
Proof. intros. constructor; auto. Qed.
Lemma ws_indent : forall o lvl, layout o -> ws (indent o lvl).
Proof. intros o lvl [H _]. induction lvl; cbn [indent]; [constructor|now apply ws_app]. Qed.
Lemma ws_next : forall o lvl, layout o -> ws (next_member o lvl).
Proof. intros o lvl H. unfold next_member. destruct (o_pretty o); [|constructor]. apply ws_app; [apply H|now apply ws_indent]. Qed.
Lemma ws_space : forall o, ws (space o).
Proof. intros o. unfold space. destruct (o_pretty o); repeat constructor. Qed.

Lemma canonical_bytes : forall ds, canonical ds -> is_bytes ds.
Proof. intros ds (H & _). unfold is_bytes. eapply Forall_impl; [|exact H]. intros a Ha. unfold is_dig in Ha. lia. Qed.
Lemma canonical_int_jnum : forall z tx, canonical_int z tx -> jnum tx /\ is_bytes tx.
Proof.
  intros z tx H. unfold canonical_int in H. destruct (z <? 0)%Z.
  - destruct H as (ds & -> & HC & _). split; [|apply bytes_cons; [lia|now apply canonical_bytes]].
    pose proof (jnum_int ds HC) as HJ. inversion HJ as [sg i f e HS HI HF HE' EQ]. destruct HS as [->| ->].
    + apply (jn [45] i f e); auto.
    + exfalso. destruct HC as (HD & _). cbn [app] in EQ. rewrite <- EQ in HD. inversion HD as [|? ? HX]; subst. unfold is_dig in HX. lia.
  - destruct H as [HC _]. split; [now apply jnum_int|now apply canonical_bytes].
Qed.

Section Out.
  Context (o : sopt).
  Hypothesis HT : o_trailing o = false.
  Hypothesis HLay : layout o.
  Let tr := tree (o_errutf8 o) (o_7bit o).

  (** A legal text of [v], without whitespace if minified *)
  Definition good (v : jv) (out : list N) : Prop :=
    jtext rfc_body v out /\ is_bytes out /\ (o_pretty o = false -> out = compact v).

  Lemma next_min : forall lvl, o_pretty o = false -> next_member o lvl = [].
  Proof. intros lvl H. unfold next_member. now rewrite H. Qed.
  Lemma space_min : o_pretty o = false -> space o = [].
  Proof. intros H. unfold space. now rewrite H. Qed.
  Lemma trailing_none : forall b, trailing o b = [].
  Proof. intros b. unfold trailing. now rewrite HT. Qed.

  Definition elems_good (pre : list N) (es : list jv) (body : list N) : Prop :=
    is_bytes body /\ (es = [] -> body = []) /\
    (es <> [] -> forall post, ws post -> jelems rfc_body es (body ++ post)) /\
    (o_pretty o = false -> body = compact_elems es).

  Lemma elems_cons : forall lvl e es t rest, good e t -> elems_good (next_member o lvl) es rest ->
    elems_good (next_member o lvl) (e :: es) (next_member o lvl ++ t ++ (match es with [] => [] | _ => [44] end) ++ rest).
  Proof.
    intros lvl e es t rest (GT & GB & GM) (RB & RN & RJ & RM). pose proof (ws_next o lvl HLay) as HW.
    assert (NM : o_pretty o = false -> next_member o lvl = []) by apply next_min.
    set (pre := next_member o lvl) in *. clearbody pre. split; [|split; [|split]].
    - apply bytes_app; [now apply ws_bytes|]. apply bytes_app; auto. apply bytes_app; auto. destruct es; [constructor|apply bytes_cons; [lia|constructor]].
    - discriminate.
    - intros _ post HP. destruct es as [|e' es].
      + rewrite (RN eq_refl). cbn [app]. rewrite app_nil_r, <- app_assoc. now apply e_one.
      + assert (NE : e' :: es <> []) by congruence. specialize (RJ NE post HP).
        replace ((pre ++ t ++ [44] ++ rest) ++ post) with (pre ++ t ++ [] ++ 44 :: (rest ++ post)) by (cbn [app]; now rewrite <- !app_assoc).
        apply e_cons; auto. constructor.
    - intros HM. rewrite (NM HM), (GM HM), (RM HM). destruct es; cbn [app compact_elems]; [now rewrite app_nil_r|reflexivity].
  Qed.

  Lemma elems_nil : forall pre, elems_good pre [] [].
  Proof. intros pre. split; [constructor|]. split; auto. split; [congruence|reflexivity]. Qed.

  Lemma arr_good : forall lvl lvl' es body, elems_good (next_member o lvl') es body ->
    good (JArr es) (91 :: body ++ trailing o (match es with [] => false | _ => true end) ++
                    (if (match es with [] => false | _ => true end) then next_member o lvl else []) ++ [93]).
  Proof.
    intros lvl lvl' es body (BB & BN & BJ & BM). rewrite trailing_none. cbn [app]. pose proof (ws_next o lvl HLay) as HW. split; [|split].
    - destruct es as [|e es].
      + rewrite (BN eq_refl). apply (t_arr0 _ []). constructor.
      + rewrite app_assoc. apply t_arr. apply BJ; auto. discriminate.
    - apply bytes_cons; [lia|]. apply bytes_app; auto. apply bytes_app; [|apply bytes_cons; [lia|constructor]].
      destruct es; [constructor|now apply ws_bytes].
    - intros HM. rewrite compact_arr, (BM HM), (next_min lvl HM). now destruct es.
  Qed.

  Lemma array_elems_good : forall lvl (w : val -> res (list N)) xs es,
    Forall2 (fun x e => exists t, w x = Ok t /\ good e t) xs es ->
    exists body, array_elems (next_member o lvl) w xs = Ok body /\ elems_good (next_member o lvl) es body.
  Proof.
    intros lvl w xs es F. induction F as [|x e xs es (t & E & G) F IH]; cbn [array_elems].
    - exists []. split; [reflexivity|apply elems_nil].
    - destruct IH as (rest & -> & IG). rewrite E. cbn [bind]. eexists. split; [reflexivity|].
      replace (match xs with [] => [] | _ :: _ => [44] end) with (match es with [] => [] | _ :: _ => [44] end) by (inversion F; reflexivity).
      now apply elems_cons.
  Qed.

  Lemma array_out : forall lvl (w : val -> res (list N)) xs es,
    Forall2 (fun x e => exists t, w x = Ok t /\ good e t) xs es ->
    exists out, to_json_string_array o lvl w xs = Ok out /\ good (JArr es) out.
  Proof.
    intros lvl w xs es F. unfold to_json_string_array.
    destruct (array_elems_good (S lvl) w xs es F) as (body & -> & G). cbn [bind]. eexists. split; [reflexivity|].
    pose proof (arr_good lvl (S lvl) es body G) as A. replace (match xs with [] => false | _ :: _ => true end) with (match es with [] => false | _ :: _ => true end) by (inversion F; reflexivity).
    exact A.
  Qed.

  (** *** Members *)
  Definition members_good (es : list (list N * jv)) (body : list N) : Prop :=
    is_bytes body /\ (es = [] -> body = []) /\
    (es <> [] -> forall post, ws post -> jmembers rfc_body es (body ++ post)) /\
    (o_pretty o = false -> body = compact_members es).

  Lemma members_nil : members_good [] [].
  Proof. split; [constructor|]. split; auto. split; [congruence|reflexivity]. Qed.

  Lemma members_cons : forall lvl k e es t rest, rfc_body k -> is_bytes k -> good e t -> members_good es rest ->
    members_good ((k, e) :: es) (next_member o lvl ++ (34 :: k ++ [34]) ++ 58 :: space o ++ t ++ (match es with [] => [] | _ => [44] end) ++ rest).
  Proof.
    intros lvl k e es t rest HK KB (GT & GB & GM) (RB & RN & RJ & RM). pose proof (ws_next o lvl HLay) as HW. pose proof (ws_space o) as HS.
    assert (NM : o_pretty o = false -> next_member o lvl = []) by apply next_min. pose proof space_min as SM.
    set (pre := next_member o lvl) in *. set (sp := space o) in *. clearbody pre sp. split; [|split; [|split]].
    - apply bytes_app; [now apply ws_bytes|]. apply bytes_app; [apply bytes_cons; [lia|apply bytes_app; auto; apply bytes_cons; [lia|constructor]]|].
      apply bytes_cons; [lia|]. apply bytes_app; [now apply ws_bytes|]. apply bytes_app; auto. apply bytes_app; auto. destruct es; [constructor|apply bytes_cons; [lia|constructor]].
    - discriminate.
    - intros _ post HP. destruct es as [|[k' e'] es].
      + rewrite (RN eq_refl). cbn [app]. rewrite app_nil_r.
        replace ((pre ++ 34 :: (k ++ [34]) ++ 58 :: sp ++ t) ++ post) with (pre ++ (34 :: k ++ [34]) ++ [] ++ 58 :: sp ++ t ++ post)
          by (cbn [app]; repeat (rewrite <- !app_assoc; cbn [app]); reflexivity).
        apply m_one; auto. constructor.
      + assert (NE : (k', e') :: es <> []) by congruence. specialize (RJ NE post HP).
        replace ((pre ++ (34 :: k ++ [34]) ++ 58 :: sp ++ t ++ [44] ++ rest) ++ post)
          with (pre ++ (34 :: k ++ [34]) ++ [] ++ 58 :: sp ++ t ++ [] ++ 44 :: (rest ++ post))
          by (cbn [app]; repeat (rewrite <- !app_assoc; cbn [app]); reflexivity).
        apply m_cons; auto; constructor.
    - intros HM. rewrite (NM HM), (GM HM), (RM HM), (SM HM). unfold quoted. destruct es as [|[k' e'] es]; cbn [app compact_members]; unfold quoted; cbn [app]; [now rewrite app_nil_r|reflexivity].
  Qed.

  Lemma obj_good : forall lvl (some : bool) es body, members_good es body -> (some = false -> es = []) ->
    good (JObj es) (123 :: body ++ trailing o some ++ (if some then next_member o lvl else []) ++ [125]).
  Proof.
    intros lvl some es body (BB & BN & BJ & BM) HS. rewrite trailing_none. cbn [app]. pose proof (ws_next o lvl HLay) as HW. split; [|split].
    - destruct es as [|e es].
      + rewrite (BN eq_refl). cbn [app]. apply t_obj0. destruct some; [exact HW|constructor].
      + destruct some; [|discriminate (HS eq_refl)]. rewrite app_assoc. apply t_obj. apply BJ; auto. discriminate.
    - apply bytes_cons; [lia|]. apply bytes_app; auto. apply bytes_app; [|apply bytes_cons; [lia|constructor]].
      destruct some; [now apply ws_bytes|constructor].
    - intros HM. rewrite compact_obj, (BM HM), (next_min lvl HM). now destruct some.
  Qed.

  Lemma map_elems_good : forall lvl (w : val -> res (list N)) kxs es,
    Forall2 (fun kx e => exists kt t, copy_escaped (o_errutf8 o) (o_7bit o) (fst kx) = Ok kt /\ fst e = kt /\ rfc_body kt /\ is_bytes kt /\
      w (snd kx) = Ok t /\ good (snd e) t) kxs es ->
    exists body, map_elems o (next_member o lvl) w kxs = Ok body /\ members_good es body.
  Proof.
    intros lvl w kxs es F. induction F as [|[k x] [k' e] kxs es (kt & t & EK & E0 & RK & BK & E & G) F IH]; cbn [map_elems].
    - exists []. split; [reflexivity|apply members_nil].
    - cbn [fst snd] in *. subst k'. destruct IH as (rest & -> & IG). unfold write_string_escaped. rewrite EK, E. cbn [bind]. eexists. split; [reflexivity|].
      replace (match kxs with [] => [] | _ :: _ => [44] end) with (match es with [] => [] | _ :: _ => [44] end) by (inversion F; reflexivity).
      now apply members_cons.
  Qed.

  Lemma map_out : forall lvl (w : val -> res (list N)) kxs es,
    Forall2 (fun kx e => exists kt t, copy_escaped (o_errutf8 o) (o_7bit o) (fst kx) = Ok kt /\ fst e = kt /\ rfc_body kt /\ is_bytes kt /\
      w (snd kx) = Ok t /\ good (snd e) t) kxs es ->
    exists out, to_json_string_kv o lvl w kxs = Ok out /\ good (JObj es) out.
  Proof.
    intros lvl w kxs es F. unfold to_json_string_kv.
    destruct (map_elems_good (S lvl) w kxs es F) as (body & -> & G). cbn [bind]. eexists. split; [reflexivity|].
    apply obj_good; auto. inversion F; [reflexivity|discriminate].
  Qed.

  (** *** Classes *)
  Lemma visited_no : forall (visited : list (list N)) k, ~ In k visited ->
    existsb (fun n => if list_eq_dec N.eq_dec n k then true else false) visited = false.
  Proof.
    intros visited k H. induction visited as [|v vs IH]; [reflexivity|]. cbn [existsb]. cbn [In] in H.
    destruct (list_eq_dec N.eq_dec v k); [tauto|]. rewrite IH; tauto.
  Qed.

  Definition wms lvl (mm : list (list N * ty)) := map (fun m => mkwm (fst m) (null_of (snd m)) (to_json_string o (snd m) lvl)) mm.
  Definition sep (is_first : bool) (es : list (list N * jv)) : list N := match es with [] => [] | _ => if is_first then [] else [44] end.

  Definition members_belong := fix members (mm : list (list N * ty)) (xs : list val) : Prop :=
    match mm, xs with
    | [], [] => True
    | (_, t) :: mm', y :: xs' => belongs t y /\ members mm' xs'
    | _, _ => False
    end.

  Lemma class_members_good : forall lvl mm,
    (forall m, In m mm -> forall x, belongs (snd m) x -> exists t, to_json_string o (snd m) lvl x = Ok t /\ good (tr (snd m) x) t) ->
    NoDup (map fst mm) -> Forall plain_name (map fst mm) -> forall xs, members_belong mm xs ->
    forall is_first visited, (forall k, In k (map fst mm) -> ~ In k visited) ->
    exists body, class_members o (next_member o lvl) is_first visited (wms lvl mm) xs =
        Ok (sep is_first (members_tree (o_errutf8 o) (o_7bit o) mm xs) ++ body) /\
      members_good (members_tree (o_errutf8 o) (o_7bit o) mm xs) body.
  Proof.
    intros lvl mm. induction mm as [|[nm t] mm IH]; intros HW ND HP xs HB is_first visited HV; destruct xs as [|y xs]; cbn [members_belong] in HB; try contradiction.
    - exists []. split; [reflexivity|apply members_nil].
    - destruct HB as [HY HB]. cbn [map fst] in *. inversion ND as [|? ? NI ND']; subst. inversion HP as [|? ? HN HP']; subst.
      cbn [wms map fst snd class_members wm_name wm_null wm_write members_tree]. rewrite visited_no by (apply HV; left; reflexivity).
      assert (HV' : forall k, In k (map fst mm) -> ~ In k (visited ++ [nm])).
      { intros k HK HI. apply in_app_or in HI as [HI|[->|[]]]; [eapply HV; [right; exact HK|exact HI]|contradiction]. }
      assert (HW' : forall m, In m mm -> forall x, belongs (snd m) x -> exists t, to_json_string o (snd m) lvl x = Ok t /\ good (tr (snd m) x) t) by (intros m Hm; apply HW; now right).
      replace (match null_of t with NotNullable => false | _ => negb (has_value y) end) with (is_nullable t && negb (has_value y)) by (unfold null_of; destruct (is_nullable t); reflexivity).
      destruct (is_nullable t && negb (has_value y)).
      + apply (IH HW' ND' HP' xs HB is_first (visited ++ [nm]) HV').
      + destruct (HW (nm, t) (or_introl eq_refl) y HY) as (tx & E & G). cbn [snd] in *. rewrite E. cbn [bind].
        destruct (IH HW' ND' HP' xs HB false (visited ++ [nm]) HV') as (rest & ER & GR). change (map (fun m => mkwm (fst m) (null_of (snd m)) (to_json_string o (snd m) lvl)) mm) with (wms lvl mm).
        rewrite ER. cbn [bind sep]. eexists. split.
        { f_equal. }
        pose proof (members_cons lvl nm (tr t y) (members_tree (o_errutf8 o) (o_7bit o) mm xs) tx rest (plain_name_rfc nm HN)) as M.
        assert (NB : is_bytes nm) by (unfold is_bytes; eapply Forall_impl; [|exact HN]; cbn; intros a Ha; lia).
        specialize (M NB G GR). cbn [app] in M. rewrite <- app_assoc in M. exact M.
  Qed.

  Lemma class_out : forall lvl mm xs,
    (forall m, In m mm -> forall x, belongs (snd m) x -> exists t, to_json_string o (snd m) (S lvl) x = Ok t /\ good (tr (snd m) x) t) ->
    NoDup (map fst mm) -> Forall plain_name (map fst mm) -> members_belong mm xs ->
    exists out, serialize_json_class o lvl (wms (S lvl) mm) xs = Ok out /\ good (JObj (members_tree (o_errutf8 o) (o_7bit o) mm xs)) out.
  Proof.
    intros lvl mm xs HW ND HP HB. unfold serialize_json_class.
    destruct (class_members_good (S lvl) mm HW ND HP xs HB true []) as (body & -> & G); [intros k _ []|]. cbn [bind].
    replace (sep true (members_tree (o_errutf8 o) (o_7bit o) mm xs)) with (@nil N) by (destruct (members_tree (o_errutf8 o) (o_7bit o) mm xs); reflexivity).
    cbn [app]. eexists. split; [reflexivity|]. apply obj_good; auto. destruct mm; [destruct xs; reflexivity|discriminate].
  Qed.

  (** *** Tuples *)
  Definition elements_belong := fix elements (ts : list ty) (xs : list val) : Prop :=
    match ts, xs with
    | [], [] => True
    | t :: ts', y :: xs' => belongs t y /\ elements ts' xs'
    | _, _ => False
    end.

  Lemma tuple_elems_good : forall lvl ts,
    (forall t, In t ts -> forall x, belongs t x -> exists tx, to_json_string o t lvl x = Ok tx /\ good (tr t x) tx) ->
    forall xs, elements_belong ts xs ->
    exists body, tuple_elems (next_member o lvl) (map (fun t => to_json_string o t lvl) ts) xs = Ok body /\
      is_bytes body /\ (ts = [] -> body = []) /\
      (ts <> [] -> forall post, ws post -> jelems rfc_body (elements_tree (o_errutf8 o) (o_7bit o) ts xs) (next_member o lvl ++ body ++ post)) /\
      (o_pretty o = false -> body = compact_elems (elements_tree (o_errutf8 o) (o_7bit o) ts xs)).
  Proof.
    intros lvl ts. induction ts as [|t ts IH]; intros HW xs HB; destruct xs as [|y xs]; cbn [elements_belong] in HB; try contradiction.
    - exists []. split; [reflexivity|]. split; [constructor|]. split; [reflexivity|]. split; [congruence|reflexivity].
    - destruct HB as [HY HB]. destruct (HW t (or_introl eq_refl) y HY) as (tx & E & GT & GB & GM).
      destruct (IH (fun t' Ht' => HW t' (or_intror Ht')) xs HB) as (rest & ER & RB & RN & RJ & RM).
      cbn [map tuple_elems elements_tree]. rewrite E, ER. cbn [bind]. eexists. split; [reflexivity|].
      pose proof (ws_next o lvl HLay) as HWs. assert (NM : o_pretty o = false -> next_member o lvl = []) by apply next_min.
      set (pre := next_member o lvl) in *. clearbody pre. clear ER.
      destruct ts as [|t' ts].
      + cbn [map app]. rewrite (RN eq_refl), app_nil_r. split; [exact GB|]. split; [discriminate|]. split.
        * intros _ post HP. destruct xs; [|contradiction]. cbn [elements_tree]. now apply e_one.
        * intros HM. destruct xs; [|contradiction]. cbn [elements_tree compact_elems]. auto.
      + destruct xs as [|y' xs]; [contradiction|]. cbn [map]. split; [|split; [discriminate|split]].
        * apply bytes_app; auto. apply bytes_app; auto. apply bytes_cons; [lia|now apply ws_bytes].
        * intros _ post HP. assert (NE : t' :: ts <> []) by congruence. specialize (RJ NE post HP).
          replace (pre ++ (tx ++ (44 :: pre) ++ rest) ++ post) with (pre ++ tx ++ [] ++ 44 :: (pre ++ rest ++ post)) by (cbn [app]; repeat (rewrite <- !app_assoc; cbn [app]); reflexivity).
          apply e_cons; auto. constructor.
        * intros HM. rewrite (NM HM), (RM HM), (GM HM). reflexivity.
  Qed.

  Lemma tuple_out : forall lvl ts xs,
    (forall t, In t ts -> forall x, belongs t x -> exists tx, to_json_string o t (S lvl) x = Ok tx /\ good (tr t x) tx) ->
    elements_belong ts xs ->
    exists out, to_json_string_tuple o lvl (map (fun t => to_json_string o t (S lvl)) ts) xs = Ok out /\
      good (JArr (elements_tree (o_errutf8 o) (o_7bit o) ts xs)) out.
  Proof.
    intros lvl ts xs HW HB. unfold to_json_string_tuple.
    destruct (tuple_elems_good (S lvl) ts HW xs HB) as (body & -> & BB & BN & BJ & BM). cbn [bind]. rewrite trailing_none. cbn [app].
    eexists. split; [reflexivity|]. pose proof (ws_next o lvl HLay) as HW1. pose proof (ws_next o (S lvl) HLay) as HW2. split; [|split].
    - destruct ts as [|t ts].
      + destruct xs; [|contradiction]. rewrite (BN eq_refl). cbn [map app elements_tree]. now apply t_arr0.
      + cbn [map]. assert (NE : t :: ts <> []) by congruence. specialize (BJ NE (next_member o lvl) HW1).
        apply t_arr in BJ. repeat (rewrite <- !app_assoc in BJ; cbn [app] in BJ). exact BJ.
    - apply bytes_cons; [lia|]. apply bytes_app; [now apply ws_bytes|]. apply bytes_app; auto. apply bytes_app; [|apply bytes_cons; [lia|constructor]].
      destruct ts; [constructor|now apply ws_bytes].
    - intros HM. rewrite compact_arr, (BM HM), !(next_min _ HM). now destruct ts.
  Qed.

  (** *** Pairs of a key and a value *)
  Lemma plain_bytes : forall k, plain_name k -> is_bytes k.
  Proof. intros k H. unfold is_bytes. eapply Forall_impl; [|exact H]. cbn. intros a Ha. lia. Qed.

  Lemma kv_pair_good : forall lvl kn vn (wk wv : val -> res (list N)) a b ea eb ta tb, plain_name kn -> plain_name vn ->
    wk a = Ok ta -> good ea ta -> wv b = Ok tb -> good eb tb ->
    exists out, kv_pair o lvl kn vn wk wv (VClass [a; b]) = Ok out /\ good (JObj [(kn, ea); (vn, eb)]) out.
  Proof.
    intros lvl kn vn wk wv a b ea eb ta tb PK PV E1 G1 E2 G2. cbn [kv_pair]. rewrite E1, E2. cbn [bind]. eexists. split; [reflexivity|].
    pose proof (members_cons (S lvl) vn eb [] tb [] (plain_name_rfc _ PV) (plain_bytes _ PV) G2 members_nil) as M2.
    pose proof (members_cons (S lvl) kn ea _ ta _ (plain_name_rfc _ PK) (plain_bytes _ PK) G1 M2) as M1.
    pose proof (obj_good lvl true _ _ M1) as G. cbn [app] in G.
    match type of G with _ -> good _ ?x => match goal with |- good _ ?y => replace y with x; [apply G; discriminate|] end end.
    cbn [app]. repeat (rewrite <- !app_assoc; cbn [app]). reflexivity.
  Qed.

  Lemma kv_array_out : forall lvl kn vn wk wv xs es,
    Forall2 (fun x e => exists t, kv_pair o (S lvl) kn vn wk wv x = Ok t /\ good e t) xs es ->
    exists out, to_json_string_kv_array o lvl kn vn wk wv xs = Ok out /\ good (JArr es) out.
  Proof. intros lvl kn vn wk wv xs es F. exact (array_out lvl (kv_pair o (S lvl) kn vn wk wv) xs es F). Qed.

  Lemma jnum_bytes : forall n, jnum n -> is_bytes n.
  Proof.
    assert (D : forall ds, digits ds -> is_bytes ds) by (intros ds; apply Forall_impl; unfold is_dig; lia).
    intros n [sg i f e Hsg (Di & _) Hf He]. apply bytes_app; [destruct Hsg as [->| ->]; [constructor|apply bytes_cons; [lia|constructor]]|].
    apply bytes_app; [now apply D|]. apply bytes_app.
    - destruct Hf as [|ds Hds _]; [constructor|]. apply bytes_cons; [lia|now apply D].
    - destruct He as [|x s ds Hx Hs Hds _]; [constructor|]. apply bytes_cons; [lia|]. apply bytes_app; [|now apply D].
      destruct Hs as [->|[->| ->]]; [constructor| |]; (apply bytes_cons; [lia|constructor]).
  Qed.

  (** *** Variants *)
  Lemma variant_text : forall lvl y alts i t, nth_error alts i = Some t ->
    (fix to_variant_string (alts : list ty) (i : nat) : res (list N) :=
       match alts, i with
       | t :: _, O => to_json_string o t lvl y
       | _ :: alts', S i' => to_variant_string alts' i'
       | [], _ => UB
       end) alts i = to_json_string o t lvl y.
  Proof. induction alts as [|t' alts IH]; intros [|i] t H; try discriminate; cbn [nth_error] in H; [now injection H as ->|now apply IH]. Qed.

  Lemma chosen_nth : forall v alts i t, chosen v alts i t -> nth_error alts i = Some t.
  Proof. induction alts as [|t' alts IH]; intros [|i] t H; cbn [chosen] in H; try contradiction; destruct H as [H1 H2]; cbn [nth_error]; [now subst|now apply IH]. Qed.

  Theorem to_json_good : forall t lvl x, belongs t x -> exists out, to_json_string o t lvl x = Ok out /\ good (tr t x) out.
  Proof.
    fix IH 1. intros t lvl x HB. destruct t as [w rc|w rc| | |t|t|t|ex mm|ex ts|ex kn tk vn tv|k|alts|ex tag t switch alts].
    - destruct HB as (HW & z & -> & HZ). pose proof (width_Z w z HW HZ) as HL. unfold tr. cbn [to_json_string tree].
      destruct (unsigned_out LSNever w (Z.to_N z) HW HL) as (tx & HC & HD & ->). cbn [text_of quote_if app]. rewrite app_nil_r.
      exists tx. split; [reflexivity|]. split; [constructor; now apply jnum_int|]. split; [now apply canonical_bytes|reflexivity].
    - destruct HB as (HW & z & -> & HZ & HM). unfold tr. cbn [to_json_string tree].
      destruct (signed_out LSNever w z HW HZ) as (tx & HC & ->). cbn [text_of quote_if app]. rewrite app_nil_r.
      destruct (canonical_int_jnum z tx HC) as [HJ HBy].
      exists tx. split; [reflexivity|]. split; [now constructor|]. split; [exact HBy|reflexivity].
    - destruct HB as (b & ->). unfold tr. cbn [to_json_string tree]. eexists. split; [reflexivity|]. destruct b; cbn [to_json_string_bool].
      + split; [constructor|]. split; [repeat (apply bytes_cons; [lia|]); constructor|reflexivity].
      + split; [constructor|]. split; [repeat (apply bytes_cons; [lia|]); constructor|reflexivity].
    - destruct HB as (s & -> & HU). unfold tr. cbn [to_json_string tree]. unfold write_string_escaped.
      destruct (unicode_out (o_errutf8 o) (o_7bit o) s HU) as (tx & -> & R & D & B). cbn [bind text_of]. eexists. split; [reflexivity|].
      split; [now constructor|]. split; [|reflexivity]. apply bytes_cons; [lia|]. apply bytes_app; auto. apply bytes_cons; [lia|constructor].
    - destruct HB as (HN & [->|(y & -> & HY)]); unfold tr; cbn [to_json_string tree].
      + eexists. split; [reflexivity|]. split; [constructor|]. split; [repeat (apply bytes_cons; [lia|]); constructor|reflexivity].
      + apply IH. exact HY.
    - destruct HB as (xs & -> & HF). unfold tr. cbn [to_json_string tree]. apply array_out.
      induction HF; cbn [map]; constructor; auto.
    - destruct HB as (kxs & -> & HF). unfold tr. cbn [to_json_string tree]. apply map_out.
      induction HF as [|[k x] kxs [HK HX] HF IHF]; cbn [map]; constructor; auto. cbn [fst snd] in *.
      destruct (unicode_out (o_errutf8 o) (o_7bit o) k HK) as (tx & E & R & D & B). destruct (IH t (S lvl) x HX) as (tv & E2 & G).
      exists tx, tv. rewrite E. cbn [text_of]. auto 10.
    - cbn [belongs] in HB. destruct HB as (ND & HP & xs & -> & HM). unfold tr. cbn [to_json_string]. apply class_out; [|exact ND|exact HP|exact HM].
      clear HM ND HP. induction mm as [|m mm IHm]; intros m0 H0; [contradiction|]. cbn [In] in H0. destruct H0 as [<-|H0].
      + intros x Hx. apply IH. exact Hx.
      + apply IHm. exact H0.
    - cbn [belongs] in HB. destruct HB as (xs & -> & HM). unfold tr. cbn [to_json_string]. apply tuple_out; [|exact HM].
      clear HM. induction ts as [|t ts IHt]; intros t0 H0; [contradiction|]. cbn [In] in H0. destruct H0 as [<-|H0].
      + intros x Hx. apply IH. exact Hx.
      + apply IHt. exact H0.
    - cbn [belongs] in HB. destruct HB as (PK & PV & NK & xs & -> & NX & HF). unfold tr. cbn [to_json_string tree]. apply kv_array_out. clear NX.
      induction HF as [|y xs (a & b & -> & HA & HB) HF IHF]; cbn [map]; constructor; [|exact IHF].
      destruct (IH tk (S (S lvl)) a HA) as (ta & E1 & G1). destruct (IH tv (S (S lvl)) b HB) as (tb & E2 & G2).
      eapply kv_pair_good; eauto.
    - cbn [belongs] in HB. destruct HB as (s & -> & HS). unfold tr. cbn [to_json_string]. eexists. split; [reflexivity|]. destruct k; [| |contradiction]; cbn [to_json_string_custom tree].
      + destruct HS as (R & B & _). split; [now constructor|]. split; [|reflexivity]. apply bytes_cons; [lia|]. apply bytes_app; auto. apply bytes_cons; [lia|constructor].
      + destruct (list_eq_dec N.eq_dec s [116; 114; 117; 101]) as [->|N1]; [split; [constructor|]; split; [repeat (apply bytes_cons; [lia|]); constructor|reflexivity]|].
        destruct (list_eq_dec N.eq_dec s [102; 97; 108; 115; 101]) as [->|N2]; [split; [constructor|]; split; [repeat (apply bytes_cons; [lia|]); constructor|reflexivity]|].
        destruct HS as [HS|[HS|HS]]; [|congruence|congruence]. split; [now constructor|]. split; [now apply jnum_bytes|reflexivity].
    - cbn [belongs] in HB. destruct HB as (i & y & -> & NY & H). destruct (pick_meant (o_errutf8 o) (o_7bit o) y NY alts i H) as (t & _ & I & A & B & C & P).
      assert (X : exists out, to_json_string o t lvl y = Ok out /\ good (tr t y) out).
      { clear C P H. induction alts as [|t' alts IHa]; [contradiction|]. cbn [In] in I. destruct I as [<-|I]; [now apply IH|now apply IHa]. }
      unfold tr. cbn [to_json_string tree]. rewrite P, (variant_text lvl y alts i t (chosen_nth _ _ _ _ C)). exact X.
    - cbn [belongs] in HB. destruct HB as (i & z & -> & H). destruct (pick_class (o_errutf8 o) (o_7bit o) ex tag t switch i z alts i H) as (t' & E & I & B & C & P).
      assert (X : exists out, to_json_string o t' lvl z = Ok out /\ good (tr t' z) out).
      { clear C P H E. induction alts as [|t0 alts IHa]; [contradiction|]. cbn [In] in I. destruct I as [<-|I]; [now apply IH|now apply IHa]. }
      unfold tr. cbn [to_json_string tree]. rewrite P, (variant_text lvl z alts i t' E). exact X.
  Qed.
End Out.
