(** A fresh stateful json_value over a well-formed object or array answers what
    the members say. *)
From Coq Require Import List NArith ZArith Bool Lia Arith ZifyBool ZifyNat ZifyN.
From Verif Require Import Base Mem Loop PolicyModel IntModel StrScanModel SkipModel SpecNum SpecText SpecJson
  SkipProofs SkipSafe HashModel ValueModel NameProofs SpecValue JValueModel JValueProofs StateModel StateProofs.
Import ListNotations.
Local Open Scope N_scope.

Section Cfg.
  Context (g : cfg).
  Hypothesis HX : c_ex g = ExConstexpr.
  Hypothesis HE : c_excl g = false.
  Context (buf : list N).
  Hypothesis H32 : N.of_nat (length buf) < 2^32.

  (** A location that stands for a member *)
  Definition stands_for (m : option (list N) * jv) (l : loc) : Prop :=
    fst l = match fst m with Some n => n | None => [] end /\
    exists r, it_deref g buf (snd l) = Ok (fst m, r) /\ value_at buf (snd m) r.

  Lemma scan_index_ok : forall index rest p ls fuel, it_at g buf p rest -> (length rest < fuel)%nat ->
    N.of_nat (length ls) <= index ->
    exists found, scan_index g buf index fuel ls (Ok p) = (ls ++ found, Ok (Nat.min (N.to_nat index) (length ls + length rest))) /\
      Forall2 stands_for (firstn (S (N.to_nat index) - length ls) rest) found.
  Proof.
    intros index. induction rest as [|[n v] rest IH]; intros p ls fuel H HF HI; (destruct fuel as [|fuel]; [cbn in HF; lia|]);
      cbn [scan_index]; rewrite (it_stop g buf H32 _ _ H).
    - exists []. rewrite app_nil_r, firstn_nil. split; [|constructor]. do 2 f_equal. cbn [length]. lia.
    - rewrite (it_name_ok g HX HE buf H32 _ _ _ _ H).
      destruct (it_deref_ok g HX HE buf H32 _ _ _ _ H) as (r & ED & VR).
      assert (SF : stands_for (n, v) (match n with Some n => n | None => [] end, p)) by (split; [reflexivity|exists r; auto]).
      destruct (N.eqb_spec (N.of_nat (length ls)) index) as [<-|NE].
      + exists [(match n with Some n => n | None => [] end, p)]. split.
        * do 2 f_equal. cbn [length]. lia.
        * replace (S (N.to_nat (N.of_nat (length ls))) - length ls)%nat with 1%nat by lia. cbn [firstn]. constructor; [exact SF|constructor].
      + destruct (it_next_ok g HX HE buf H32 _ _ _ H) as (q & EN & HQ & _). rewrite EN.
        destruct (IH q (ls ++ [(match n with Some n => n | None => [] end, p)]) fuel HQ ltac:(cbn in HF; lia)) as (found & E & FF).
        { rewrite app_length. cbn [length]. lia. }
        exists ((match n with Some n => n | None => [] end, p) :: found). split.
        * rewrite E. rewrite <- app_assoc. cbn [app]. do 2 f_equal. rewrite app_length. cbn [length]. lia.
        * replace (S (N.to_nat index) - length ls)%nat with (S (S (N.to_nat index) - length (ls ++ [(match n with Some n => n | None => [] end, p)])))
            by (rewrite app_length; cbn [length]; lia).
          cbn [firstn]. constructor; auto.
  Qed.

  Lemma scan_name_ok : forall name js p ls fuel, it_at g buf p (map named js) -> (length js < fuel)%nat ->
    exists found i, scan_name g buf name fuel ls (Ok p) = (ls ++ found, Ok (length ls + i)%nat) /\
      (first_named name js i /\ Forall2 stands_for (map named (firstn (S i) js)) found \/
       ~ In name (map fst js) /\ i = length js /\ Forall2 stands_for (map named js) found).
  Proof.
    intros name. induction js as [|[n v] js IH]; intros p ls fuel H HF; (destruct fuel as [|fuel]; [cbn in HF; lia|]);
      cbn [scan_name]; rewrite (it_stop g buf H32 _ _ H); cbn [map].
    - exists [], 0%nat. rewrite app_nil_r, Nat.add_0_r. split; [reflexivity|]. right. repeat split; auto.
    - change (map named ((n, v) :: js)) with ((Some n, v) :: map named js) in *. change (named (n, v)) with (Some n, v) in *. rewrite (it_name_ok g HX HE buf H32 _ _ _ _ H).
      destruct (it_deref_ok g HX HE buf H32 _ _ _ _ H) as (r & ED & VR).
      assert (SF : stands_for (Some n, v) (n, p)) by (split; [reflexivity|exists r; auto]).
      destruct (eqb_bytes n name) eqn:EB.
      + apply eqb_bytes_spec in EB as ->. exists [(name, p)], 0%nat. rewrite Nat.add_0_r. split; [reflexivity|]. left. split.
        * exists [], v, js. repeat split; auto.
        * cbn [firstn map]. constructor; [exact SF|constructor].
      + destruct (it_next_ok g HX HE buf H32 _ _ _ H) as (q & EN & HQ & _). rewrite EN.
        destruct (IH q (ls ++ [(n, p)]) fuel HQ ltac:(cbn in HF; lia)) as (found & i & E & FF).
        assert (NN : n <> name) by (intros ->; rewrite eqb_bytes_refl in EB; discriminate).
        exists ((n, p) :: found), (S i). split.
        * rewrite E. rewrite <- app_assoc. cbn [app]. do 2 f_equal. rewrite app_length. cbn [length]. lia.
        * destruct FF as [[(a & w & b & -> & <- & NI) FF]|(NI & -> & FF)].
          -- left. split; [exists ((n, v) :: a), w, b; repeat split; auto; cbn [map fst In]; tauto|].
             rewrite firstn_cons. cbn [map]. constructor; auto.
          -- right. split; [cbn [In]; tauto|]. split; [reflexivity|]. constructor; auto.
  Qed.

  Lemma stands_value : forall ms ls i n v, Forall2 stands_for ms ls -> nth_error ms i = Some (n, v) ->
    exists r, value_of g buf ls i = Ok r /\ value_at buf v r.
  Proof.
    intros ms ls i n v H. revert i. unfold value_of. induction H as [|m l ms ls [_ (r & ED & VR)] _ IH]; intros [|i] E; try discriminate.
    - injection E as ->. cbn [nth_error]. destruct l as [k p]. cbn [fst snd] in *. rewrite ED. eexists; split; [reflexivity|exact VR].
    - cbn [nth_error] in *. now apply IH.
  Qed.
End Cfg.
