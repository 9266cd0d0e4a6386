(** The stateful json_value: the locations are the beginning of the iteration,
    and no answer depends on how much of it has been made. *)
From Coq Require Import List NArith ZArith Bool Lia Arith ZifyBool ZifyNat ZifyN.
From Verif Require Import Base Mem Loop PolicyModel IntModel StrScanModel SkipModel SpecNum SpecText SpecJson
  SkipProofs SkipSafe HashModel ValueModel JValueModel JValueProofs RawValueProofs StateModel.
Import ListNotations.
Local Open Scope N_scope.

Lemma eqb_bytes_spec : forall a b, eqb_bytes a b = true <-> a = b.
Proof.
  induction a as [|x a IH]; intros [|y b]; cbn [eqb_bytes]; try (split; [discriminate|discriminate]); [tauto|].
  rewrite andb_true_iff, IH, N.eqb_eq. split; [intros [-> ->]; auto|intros E; injection E; auto].
Qed.

Lemma eqb_bytes_refl : forall a, eqb_bytes a a = true.
Proof. intros a. now apply eqb_bytes_spec. Qed.

Lemma is_match_eq : forall name m, is_match name m = eqb_bytes (fst m) name.
Proof.
  intros name m. unfold is_match. destruct (eqb_bytes (fst m) name) eqn:E; [|now rewrite andb_false_r].
  apply eqb_bytes_spec in E. rewrite E, N.eqb_refl. reflexivity.
Qed.

Section Value.
  Context (g : cfg) (buf : list N) (v : ps).

  (** The locations are the first so many members. *)
  Inductive trace : locs -> Prop :=
  | trace_nil : trace []
  | trace_snoc : forall ls p o, trace ls -> resume_at g buf v ls = Ok p -> it_eq buf p null_state = Ok false ->
      it_name g buf p = Ok o -> (length ls < S (S (length buf)))%nat ->
      trace (ls ++ [(match o with Some n => n | None => [] end, p)]).

  Lemma resume_snoc : forall ls n p, resume_at g buf v (ls ++ [(n, p)]) = it_next g buf p.
  Proof. intros. unfold resume_at. rewrite rev_app_distr. reflexivity. Qed.

  Definition prefix (a b : locs) : Prop := exists c, b = a ++ c.

  Lemma scan_index_trace : forall index fuel ls, trace ls -> (fuel + length ls <= S (S (length buf)))%nat ->
    forall it, it = resume_at g buf v ls ->
    trace (fst (scan_index g buf index fuel ls it)) /\ prefix ls (fst (scan_index g buf index fuel ls it)).
  Proof.
    intros index. induction fuel as [|fuel IH]; intros ls HT HF it EI; cbn [scan_index].
    - cbn [fst]. split; auto. exists []. now rewrite app_nil_r.
    - assert (R : trace ls /\ prefix ls ls) by (split; auto; exists []; now rewrite app_nil_r).
      destruct it as [p| | |]; cbn [fst]; auto. destruct (it_eq buf p null_state) as [[]| | |] eqn:E1; cbn [fst]; auto.
      destruct (it_name g buf p) as [o| | |] eqn:E2; cbn [fst]; auto.
      assert (T : trace (ls ++ [(match o with Some n => n | None => [] end, p)])).
      { apply trace_snoc; auto. lia. }
      destruct (N.of_nat (length ls) =? index); cbn [fst]; [split; [exact T|eexists; reflexivity]|].
      destruct (IH _ T) with (it := it_next g buf p) as [A [c B]].
      + rewrite app_length. cbn [length]. lia.
      + symmetry. apply resume_snoc.
      + split; auto. exists ((match o with Some n => n | None => [] end, p) :: c). rewrite B. now rewrite <- app_assoc.
  Qed.

  Lemma scan_name_trace : forall name fuel ls, trace ls -> (fuel + length ls <= S (S (length buf)))%nat ->
    forall it, it = resume_at g buf v ls ->
    trace (fst (scan_name g buf name fuel ls it)) /\ prefix ls (fst (scan_name g buf name fuel ls it)).
  Proof.
    intros name. induction fuel as [|fuel IH]; intros ls HT HF it EI; cbn [scan_name].
    - cbn [fst]. split; auto. exists []. now rewrite app_nil_r.
    - assert (R : trace ls /\ prefix ls ls) by (split; auto; exists []; now rewrite app_nil_r).
      destruct it as [p| | |]; cbn [fst]; auto. destruct (it_eq buf p null_state) as [[]| | |] eqn:E1; cbn [fst]; auto.
      destruct (it_name g buf p) as [[o|]| | |] eqn:E2; cbn [fst]; auto.
      assert (T : trace (ls ++ [(o, p)])).
      { apply (trace_snoc ls p (Some o)); auto. lia. }
      destruct (eqb_bytes o name); cbn [fst]; [split; [exact T|eexists; reflexivity]|].
      destruct (IH _ T) with (it := it_next g buf p) as [A [c B]].
      + rewrite app_length. cbn [length]. lia.
      + symmetry. apply resume_snoc.
      + split; auto. exists ((o, p) :: c). rewrite B. now rewrite <- app_assoc.
  Qed.

  Lemma trace_length : forall ls, trace ls -> (length ls <= S (S (length buf)))%nat.
  Proof. induction 1; [cbn; lia|]. rewrite app_length. cbn [length]. lia. Qed.

  (** The scan by index passes over the cached locations as it did before. *)
  Lemma scan_index_skip : forall index ls, trace ls -> N.of_nat (length ls) <= index ->
    scan_index g buf index (S (S (length buf))) [] (resume_at g buf v []) =
    scan_index g buf index (S (S (length buf)) - length ls) ls (resume_at g buf v ls).
  Proof.
    intros index ls HT. induction HT as [|ls p o HT IH ER EE EN HL]; intros HI; [reflexivity|].
    rewrite app_length in HI. cbn [length] in HI.
    rewrite IH by lia. rewrite app_length. cbn [length].
    replace (S (S (length buf)) - length ls)%nat with (S (S (S (length buf)) - (length ls + 1)))%nat by lia.
    cbn [scan_index]. rewrite ER, EE, EN. replace (N.of_nat (length ls) =? index) with false by lia.
    now rewrite resume_snoc.
  Qed.

  (** A cached index is found where the fresh scan stops. *)
  Lemma scan_index_hit : forall ls, trace ls -> forall i, (i < length ls)%nat ->
    exists ls', scan_index g buf (N.of_nat i) (S (S (length buf))) [] (resume_at g buf v []) = (ls', Ok i) /\ prefix ls' ls /\ length ls' = S i.
  Proof.
    intros ls HT. induction HT as [|ls p o HT IH ER EE EN HL]; intros i HI; [cbn in HI; lia|].
    rewrite app_length in HI. cbn [length] in HI. destruct (Nat.eq_dec i (length ls)) as [->|NE].
    - rewrite (scan_index_skip _ ls HT) by lia.
      replace (S (S (length buf)) - length ls)%nat with (S (S (S (length buf)) - (length ls + 1)))%nat by lia.
      cbn [scan_index]. rewrite ER, EE, EN. rewrite N.eqb_refl. eexists. split; [reflexivity|].
      split; [exists []; now rewrite app_nil_r|]. rewrite app_length. cbn [length]. lia.
    - destruct (IH i ltac:(lia)) as (ls' & E & [c P] & L). exists ls'. split; [exact E|]. split; [|exact L].
      exists (c ++ [(match o with Some n => n | None => [] end, p)]). rewrite P at 1. now rewrite <- app_assoc.
  Qed.

  Lemma match_index_none : forall name ls, match_index name ls = None -> Forall (fun m => eqb_bytes (fst m) name = false) ls.
  Proof.
    induction ls as [|m ls IH]; cbn [match_index]; intros H; [constructor|]. rewrite is_match_eq in H.
    destruct (eqb_bytes (fst m) name) eqn:E; [discriminate|]. constructor; auto. apply IH. now destruct (match_index name ls).
  Qed.

  Lemma match_index_some : forall name ls i, match_index name ls = Some i ->
    exists a m b, ls = a ++ m :: b /\ length a = i /\ eqb_bytes (fst m) name = true /\ Forall (fun m => eqb_bytes (fst m) name = false) a.
  Proof.
    induction ls as [|m ls IH]; cbn [match_index]; intros i H; [discriminate|]. rewrite is_match_eq in H.
    destruct (eqb_bytes (fst m) name) eqn:E.
    - injection H as <-. exists [], m, ls. repeat split; auto.
    - destruct (match_index name ls) as [j|]; [|discriminate]. cbn in H. injection H as <-.
      destruct (IH j eq_refl) as (a & m' & b & -> & L & EM & FA). exists (m :: a), m', b. repeat split; cbn [length]; auto.
  Qed.

  (** A trace in which every member has a name *)
  Inductive ntrace : locs -> Prop :=
  | ntrace_nil : ntrace []
  | ntrace_snoc : forall ls p n, ntrace ls -> resume_at g buf v ls = Ok p -> it_eq buf p null_state = Ok false ->
      it_name g buf p = Ok (Some n) -> (length ls < S (S (length buf)))%nat ->
      ntrace (ls ++ [(n, p)]).

  Lemma ntrace_app : forall a b, ntrace (a ++ b) -> ntrace a.
  Proof.
    intros a b. induction b as [|x b IH] using rev_ind; intros H; [now rewrite app_nil_r in H|].
    rewrite app_assoc in H. inversion H as [E|ls p n H1 H2 H3 H4 H5 E]; [destruct (a ++ b); discriminate|].
    apply app_inj_tail in E as [-> _]. auto.
  Qed.

  Lemma scan_name_skip : forall name ls, ntrace ls -> Forall (fun m => eqb_bytes (fst m) name = false) ls ->
    scan_name g buf name (S (S (length buf))) [] (resume_at g buf v []) =
    scan_name g buf name (S (S (length buf)) - length ls) ls (resume_at g buf v ls).
  Proof.
    intros name ls HT. induction HT as [|ls p n HT IH ER EE EN HL]; intros HI; [reflexivity|].
    apply Forall_app in HI as [H1 H2]. inversion H2 as [|? ? H3 _]; subst. cbn [fst] in H3.
    rewrite IH by auto. rewrite app_length. cbn [length].
    replace (S (S (length buf)) - length ls)%nat with (S (S (S (length buf)) - (length ls + 1)))%nat by lia.
    cbn [scan_name]. rewrite ER, EE, EN, H3. now rewrite resume_snoc.
  Qed.

  Lemma scan_name_hit : forall name a m b, ntrace (a ++ m :: b) -> Forall (fun m => eqb_bytes (fst m) name = false) a ->
    eqb_bytes (fst m) name = true ->
    scan_name g buf name (S (S (length buf))) [] (resume_at g buf v []) = (a ++ [m], Ok (length a)).
  Proof.
    intros name a m b HT HA HM. replace (a ++ m :: b) with ((a ++ [m]) ++ b) in HT by (rewrite <- app_assoc; reflexivity).
    apply ntrace_app in HT. inversion HT as [E|ls p n H1 H2 H3 H4 H5 E]; [destruct a; discriminate|].
    apply app_inj_tail in E as [-> <-]. cbn [fst] in HM. rewrite (scan_name_skip name a H1 HA).
    replace (S (S (length buf)) - length a)%nat with (S (S (S (length buf)) - (length a + 1)))%nat by lia.
    cbn [scan_name]. rewrite H2, H3, H4, HM. reflexivity.
  Qed.

  Lemma value_of_prefix : forall a b i, prefix a b -> (i < length a)%nat -> value_of g buf a i = value_of g buf b i.
  Proof. intros a b i [c ->] L. unfold value_of. now rewrite nth_error_app1. Qed.

  (** One query against the fresh state, without names *)
  Definition by_position (q : query) : bool := match q with QSize | QNth _ => true | _ => false end.

  Lemma move_to_index_fresh : forall ls index, trace ls -> N.of_nat (length buf) < 2^32 ->
    exists a b r, move_to_index g buf v ls index = (a, r) /\ move_to_index g buf v [] index = (b, r) /\ prefix b a /\ trace a /\ trace b /\
      (forall i, r = Ok i -> (i < length b <-> i < length a)%nat).
  Proof.
    intros ls index HT H32. unfold move_to_index.
    assert (B0 : (index <? N.of_nat (length (@nil loc))) = false) by (cbn [length]; lia). rewrite B0.
    change (length (@nil loc)) with 0%nat. rewrite Nat.sub_0_r.
    destruct (scan_index_trace index (S (S (length buf))) [] trace_nil ltac:(cbn [length]; lia) _ eq_refl) as [TB _].
    destruct (N.ltb_spec index (N.of_nat (length ls))) as [L|L].
    - destruct (scan_index_hit ls HT (N.to_nat index) ltac:(lia)) as (ls' & E & P & LL). rewrite N2Nat.id in E.
      exists ls, ls', (Ok (N.to_nat index)). rewrite E in TB. cbn [fst] in TB. repeat split; auto; injection H as <-; lia.
    - rewrite (scan_index_skip index ls HT L) in *.
      pose proof (trace_length _ HT) as TL.
      destruct (scan_index_trace index (S (S (length buf)) - length ls) ls HT ltac:(lia) _ eq_refl) as [TA PA].
      destruct (scan_index g buf index (S (S (length buf)) - length ls) ls (resume_at g buf v ls)) as [a r]. cbn [fst] in *.
      exists a, a, r. repeat split; auto. exists []. now rewrite app_nil_r.
  Qed.

  Lemma ask_position : forall ls q, trace ls -> N.of_nat (length buf) < 2^32 -> by_position q = true ->
    snd (ask g buf v ls q) = snd (ask g buf v [] q) /\ trace (fst (ask g buf v ls q)).
  Proof.
    intros ls q HT H32 HQ.
    assert (SZ : exists a b r, state_size g buf v ls = (a, r) /\ state_size g buf v [] = (b, r) /\ prefix b a /\ trace a /\ trace b /\
       (forall i, r = Ok i -> i = 0%nat \/ i = length a /\ i = length b)).
    { unfold state_size. assert (T0 := trace_nil).
      assert (M : exists a b r, move_to_index g buf v ls (2^64 - 1) = (a, r) /\ move_to_index g buf v [] (2^64 - 1) = (b, r) /\ prefix b a /\ trace a /\ trace b /\
         (forall i, r = Ok i -> i = 0%nat \/ i = length a /\ i = length b)).
      { unfold move_to_index.
        assert (LL : forall x, trace x -> (2^64 - 1 <? N.of_nat (length x)) = false).
        { intros x TX. apply trace_length in TX. change (2^32) with 4294967296 in H32. change (2^64) with 18446744073709551616. lia. }
        rewrite (LL ls HT), (LL [] T0). change (length (@nil loc)) with 0%nat. rewrite Nat.sub_0_r.
        pose proof (trace_length _ HT) as TL.
        rewrite (scan_index_skip (2^64 - 1) ls HT).
        2:{ change (2^32) with 4294967296 in H32. change (2^64) with 18446744073709551616. lia. }
        destruct (scan_index_trace (2^64-1) (S (S (length buf)) - length ls) ls HT ltac:(lia) _ eq_refl) as [TA PA].
        destruct (scan_index g buf (2^64-1) (S (S (length buf)) - length ls) ls (resume_at g buf v ls)) as [a r] eqn:ES. cbn [fst] in *.
        exists a, a, r. repeat split; auto; [exists []; now rewrite app_nil_r|].
        intros i ->.
        assert (X : forall fuel ls it a i, (fuel + length ls <= S (S (length buf)))%nat ->
           scan_index g buf (2^64-1) fuel ls it = (a, Ok i) -> i = length a).
        { clear - H32. induction fuel as [|fuel IH]; intros ls it a i HF E; cbn [scan_index] in E; [discriminate|].
          destruct it as [p| | |]; try discriminate. destruct (it_eq buf p null_state) as [[]| | |]; try discriminate.
          - injection E as <- <-. reflexivity.
          - destruct (it_name g buf p) as [o| | |]; try discriminate.
            replace (N.of_nat (length ls) =? 2^64 - 1) with false in E
              by (change (2^32) with 4294967296 in H32; change (2^64) with 18446744073709551616; lia).
            eapply IH; [|exact E]. rewrite app_length. cbn [length]. lia. }
        right. apply X in ES; [auto|lia]. }
      destruct (jtype buf v) as [[]| | |]; try exact M;
        (exists ls, []; eexists; split; [reflexivity|]; split; [reflexivity|]; split; [exists ls; reflexivity|]; split; [exact HT|]; split; [exact T0|];
         cbn [failed]; intros i EI; injection EI as <-; auto) || idtac;
        exists ls, []; eexists; (split; [reflexivity|]; split; [reflexivity|]; split; [exists ls; reflexivity|]; split; [exact HT|]; split; [exact T0|]; cbn [failed]; intros i EI; discriminate EI). }
    destruct q as [| | | | |index]; try discriminate; cbn [ask].
    - destruct SZ as (a & b & r & -> & -> & _ & TA & _ & _). cbn [fst snd]. auto.
    - destruct (index <? 0)%Z.
      + destruct (index =? - 2 ^ 63)%Z; [cbn [fst snd]; auto|].
        destruct SZ as (a & b & r & -> & -> & PB & TA & TB & HR). cbn [fst snd]. split; [|exact TA].
        destruct r as [sz| | |]; cbn [bind]; auto. set (i := Z.to_nat (- index)). cbv zeta.
        destruct (Nat.ltb_spec i sz); cbn [ensure bind]; auto.
        destruct (HR sz eq_refl) as [->|[L1 L2]]; [lia|].
        destruct (Nat.eq_dec i 0) as [->|NZ].
        * rewrite Nat.sub_0_r. unfold value_of. rewrite (proj2 (nth_error_None a sz)), (proj2 (nth_error_None b sz)) by lia. reflexivity.
        * rewrite (value_of_prefix b a) by (auto; lia). reflexivity.
      + destruct (move_to_index_fresh ls (Z.to_N index) HT H32) as (a & b & r & -> & -> & PB & TA & TB & HL).
        cbn [fst snd]. split; [|exact TA]. destruct r as [pos| | |]; cbn [bind]; auto. specialize (HL pos eq_refl).
        destruct (Nat.ltb_spec pos (length a)); destruct (Nat.ltb_spec pos (length b)); try lia; cbn [ensure bind]; auto.
        rewrite (value_of_prefix b a) by auto. reflexivity.
  Qed.
End Value.
