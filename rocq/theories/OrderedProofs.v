(** Writing a class as an array. *)
From Coq Require Import List NArith ZArith Bool Lia Arith ZifyBool ZifyNat ZifyN.
From Verif Require Import Base Mem SpecNum SpecText SpecJson SpecCompact ValueModel SpecTyped SerModel SpecSer SerProofs SerProofs2.
Import ListNotations.
Local Open Scope N_scope.

(** The elements of the array: positions that no member takes are null. *)
Fixpoint placed (idx : nat) (ks : list (option nat)) (vs : list jv) : list jv :=
  match ks, vs with
  | k :: ks, v :: vs =>
      let n := match k with Some j => (j - idx)%nat | None => O end in
      repeat JNull n ++ v :: placed (idx + n + 1) ks vs
  | _, _ => []
  end.

(** Every member but the last is placed before the position [size - 1]. *)
Fixpoint no_gap_inside (size idx : nat) (ks : list (option nat)) : Prop :=
  match ks with
  | [] | [_] => True
  | k :: ks =>
      let n := match k with Some j => (j - idx)%nat | None => O end in
      (idx + n + 1 < size)%nat /\ no_gap_inside size (idx + n + 1) ks
  end.

Section Ordered.
  Context (o : sopt).
  Hypothesis HT : o_trailing o = false.
  Hypothesis HLay : layout o.

  Lemma null_gap_bytes : forall pre n, ws pre -> is_bytes (null_gap pre n).
  Proof.
    intros pre n H. induction n; cbn [null_gap]; [constructor|]. apply ws_bytes in H.
    apply bytes_app; auto. apply bytes_app; [unfold null_text; repeat (apply bytes_cons; [lia|]); constructor|]. apply bytes_cons; [lia|]. apply bytes_app; auto.
  Qed.

  Lemma gap_elems : forall pre, ws pre -> forall n w es t, ws w -> (forall w', ws w' -> jelems rfc_body es (w' ++ t)) ->
    jelems rfc_body (repeat JNull n ++ es) (w ++ null_gap pre n ++ t).
  Proof.
    intros pre HP. induction n as [|n IH]; intros w es t HW HE; cbn [repeat null_gap app]; [now apply HE|].
    replace (w ++ (pre ++ null_text ++ 44 :: pre ++ null_gap pre n) ++ t)
      with ((w ++ pre) ++ null_text ++ [] ++ 44 :: (pre ++ null_gap pre n ++ t)) by (cbn [app]; repeat (rewrite <- !app_assoc; cbn [app]); reflexivity).
    apply e_cons; [now apply ws_app|constructor|constructor|]. now apply IH.
  Qed.

  Lemma compact_gap : forall n es t, es <> [] -> t = compact_elems es -> null_gap [] n ++ t = compact_elems (repeat JNull n ++ es).
  Proof.
    induction n as [|n IH]; intros es t NE E; cbn [null_gap repeat app]; [exact E|].
    assert (NE2 : repeat JNull n ++ es <> []) by (destruct n; cbn; auto; discriminate).
    rewrite <- app_assoc. cbn [app compact_elems]. rewrite (IH es t NE E). destruct (repeat JNull n ++ es) eqn:E2; [congruence|]. reflexivity.
  Qed.

  Lemma ordered_elems_good : forall lvl size ms xs vs idx,
    Forall2 (fun m xv => exists t, snd m (fst xv) = Ok t /\ good o (snd xv) t) ms (combine xs vs) -> length xs = length vs -> length ms = length xs ->
    (size <= idx + length ms)%nat -> no_gap_inside size idx (map fst ms) ->
    exists body, ordered_elems (next_member o lvl) size idx ms xs = Ok body /\ is_bytes body /\ (ms = [] -> body = []) /\
      (ms <> [] -> forall w post, ws w -> ws post -> jelems rfc_body (placed idx (map fst ms) vs) (w ++ body ++ post)) /\
      (o_pretty o = false -> body = compact_elems (placed idx (map fst ms) vs)).
  Proof.
    intros lvl size ms. induction ms as [|[k w] ms IH]; intros xs vs idx F L1 L2 HS HG; destruct xs as [|x xs]; try discriminate; destruct vs as [|v vs]; try discriminate.
    - exists []. split; [reflexivity|]. split; [constructor|]. split; [reflexivity|]. split; [congruence|reflexivity].
    - cbn [combine] in F. inversion F as [|? ? ? ? (tx & E & GT & GB & GM) F']; subst. cbn [fst snd] in *. cbn [length] in *.
      cbn [ordered_elems map fst placed]. set (n := match k with Some j => (j - idx)%nat | None => O end) in *.
      assert (HG' : no_gap_inside size (idx + n + 1) (map fst ms)).
      { destruct ms as [|m ms]; [exact I|]. cbn [map] in HG. apply HG. }
      destruct (IH xs vs (idx + n + 1)%nat F' ltac:(lia) ltac:(lia) ltac:(lia) HG') as (rest & -> & RB & RN & RJ & RM).
      rewrite E. cbn [bind]. eexists. split; [reflexivity|].
      pose proof (ws_next o lvl HLay) as HW. assert (NM : o_pretty o = false -> next_member o lvl = []) by apply next_min.
      set (pre := next_member o lvl) in *. clearbody pre.
      assert (SEP : (if (idx + n + 1 <? size)%nat then 44 :: pre else []) = match ms with [] => [] | _ => 44 :: pre end).
      { destruct ms as [|m ms]; [cbn [length] in HS; rewrite (proj2 (Nat.ltb_ge (idx + n + 1) size)) by (clearbody n; lia); reflexivity|].
        cbn [map] in HG. destruct HG as [HG _]. fold n in HG. rewrite (proj2 (Nat.ltb_lt (idx + n + 1) size)) by exact HG. reflexivity. }
      rewrite SEP. split; [|split; [discriminate|split]].
      + apply bytes_app; [now apply null_gap_bytes|]. apply bytes_app; auto. apply bytes_app; auto. destruct ms; [constructor|apply bytes_cons; [lia|now apply ws_bytes]].
      + intros _ w0 post HW0 HP. rewrite <- app_assoc. apply gap_elems; auto. intros w' HW'. destruct ms as [|m ms].
        * rewrite (RN eq_refl). cbn [map app placed]. rewrite app_nil_r. now apply e_one.
        * assert (NE : m :: ms <> []) by congruence. specialize (RJ NE pre post HW HP).
          replace (w' ++ (tx ++ (44 :: pre) ++ rest) ++ post) with (w' ++ tx ++ [] ++ 44 :: (pre ++ rest ++ post)) by (cbn [app]; repeat (rewrite <- !app_assoc; cbn [app]); reflexivity).
          apply e_cons; auto. constructor.
      + intros HM. rewrite (NM HM), (GM HM). apply compact_gap; [discriminate|]. destruct ms as [|m ms].
        * rewrite (RN eq_refl). cbn [map app placed compact_elems]. now rewrite app_nil_r.
        * rewrite (RM HM). destruct xs; [discriminate|]. destruct vs as [|v' vs]; [discriminate|]. cbn [app]. cbn [map placed].
          set (n' := match fst m with Some j => (j - (idx + n + 1))%nat | None => O end).
          destruct (repeat JNull n' ++ v' :: placed (idx + n + 1 + n' + 1) (map fst ms) vs) as [|e es] eqn:E2; [destruct n'; discriminate|]. cbn [compact_elems]. reflexivity.
  Qed.

  Lemma ordered_out : forall lvl ms xs vs,
    Forall2 (fun m xv => exists t, snd m (fst xv) = Ok t /\ good o (snd xv) t) ms (combine xs vs) -> length xs = length vs -> length ms = length xs ->
    no_gap_inside (length ms) 0 (map fst ms) ->
    exists out, serialize_ordered_json_class o lvl ms xs = Ok out /\ good o (JArr (placed 0 (map fst ms) vs)) out.
  Proof.
    intros lvl ms xs vs F L1 L2 HG. unfold serialize_ordered_json_class.
    destruct (ordered_elems_good (S lvl) (length ms) ms xs vs 0 F L1 L2) as (body & -> & BB & BN & BJ & BM); [lia|exact HG|].
    cbn [bind]. rewrite trailing_none by exact HT. cbn [app]. eexists. split; [reflexivity|].
    pose proof (ws_next o lvl HLay) as HW1. pose proof (ws_next o (S lvl) HLay) as HW2. split; [|split].
    - destruct ms as [|m ms].
      + rewrite (BN eq_refl). cbn [map app placed]. now apply t_arr0.
      + assert (NE : m :: ms <> []) by congruence. specialize (BJ NE (next_member o (S lvl)) (next_member o lvl) HW2 HW1).
        apply t_arr in BJ. repeat (rewrite <- !app_assoc in BJ; cbn [app] in BJ). exact BJ.
    - apply bytes_cons; [lia|]. apply bytes_app; [now apply ws_bytes|]. apply bytes_app; auto. apply bytes_app; [|apply bytes_cons; [lia|constructor]].
      destruct ms; [constructor|now apply ws_bytes].
    - intros HM. rewrite compact_arr, (BM HM), !next_min by exact HM. now destruct ms.
  Qed.
End Ordered.
