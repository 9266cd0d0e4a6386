(** C88 and C89: writing of classes with members that depend on another member,
    and reading back what is written. *)
From Coq Require Import String.
From Coq Require Import List NArith ZArith Bool Lia Arith ZifyBool ZifyNat ZifyN.
From Verif Require Import Base Mem Loop SpecNum SpecText SpecJson SpecCompact SpecPath HashModel ValueModel NameProofs ClassProofs
  SpecTyped SpecTokens SerModel SpecSer PropertiesTyped SerProofs SerProofs2 PropertiesSer TagModel SpecTag TagProofs PropertiesTag PropertiesValue TagSerModel SpecTagSer TagSerProofs.
Import ListNotations.
Local Open Scope N_scope.

(** ** C88 *)

(** Full claim: for every value of a class with variants that have a tag, arrays
    that have a size and raw members, what is written is a JSON object in which
    every name is once; the names that others depend on come first.  Partial as
    the text of a raw member is JSON without whitespace, and for the values of
    [class_value] only. *)
Theorem C88_well_formed_partial : forall o untag mm xs, o_trailing o = false -> layout o -> class_value untag mm xs ->
  exists F K out, to_json_mclass o untag mm xs = Ok out /\ jtext rfc_body (JObj (F ++ K)) out /\ is_bytes out /\
    (o_pretty o = false -> out = compact (JObj (F ++ K))) /\
    NoDup (map fst (F ++ K)) /\
    (forall k, In k (map fst F) <-> exists nm m t s, In (nm, m) mm /\ depends untag mm xs nm m k t s) /\
    (forall k, In k (map fst K) -> In k (names mm)) /\
    (forall nm m x, member_is mm xs nm m x -> x <> VNone -> In nm (map fst (F ++ K))).
Proof.
  intros o untag mm xs HT HL HV. destruct (shown_all o untag mm xs HV) as (vs & HR).
  pose proof (deps_good untag mm xs HV) as DG.
  destruct (mclass_out o HT HL 0 untag mm xs vs DG) as (out & E & G1 & G2 & G3); [apply (rows_good o HT HL untag mm xs HV); exact HR|apply HV|].
  set (F := front_tree (o_errutf8 o) (o_7bit o) [] (map (dependent untag mm xs) mm)) in *.
  exists F, (kept (map fst F) (wmembers o 1 mm) xs vs), out. split; [exact E|]. split; [exact G1|]. split; [exact G2|]. split; [exact G3|].
  split; [exact (js_nodup o untag mm xs HV vs 1)|]. split; [|split].
  - intros k. split.
    + intros H. apply in_map_iff in H as ([k' w] & <- & H). destruct (front_spec o untag mm xs HV _ _ H) as (nm & m & t & s & HI & D & _). exists nm, m, t, s. auto.
    + intros (nm & m & t & s & HI & D). pose proof (front_dep o untag mm xs HV _ _ _ _ _ HI D) as X. change k with (fst (k, tree (o_errutf8 o) (o_7bit o) t s)). now apply in_map.
  - intros k H. apply in_map_iff in H as ([k' w] & <- & H). eapply kept_in; eauto.
  - intros nm m x HI NX. destruct (js_lookup o untag mm xs HV vs HR 1 nm m x HI) as (v & _ & LK); [unfold gone; destruct x; cbn; rewrite ?andb_false_r; congruence|].
    change nm with (fst (nm, v)). apply in_map. apply lookup_some_in. exact LK.
Qed.
Print Assumptions C88_well_formed_partial.

(** ** C89 *)

Lemma all_members : forall mm (xs : list val) (P : list N * mty -> val -> Prop), length mm = length xs ->
  (forall m x, member_is mm xs (fst m) (snd m) x -> P m x) -> Forall2 P mm xs.
Proof. intros mm xs P L H. apply combine_rows; [exact L|]. intros [nm m] x HI. apply H. exact HI. Qed.

(** Full claim: what is written for a value is read back as that value.  Partial:
    for values of [class_value] whose names are told apart by their hashes; the
    members mapped before an array with a size, or before a variant that is a
    number or a string, are not missing; with exact mappings the tags are
    members. *)
Theorem C89_round_trip_partial : forall g verify exact o untag mm xs out, covered g -> o_trailing o = false -> layout o ->
  class_value untag mm xs -> told_apart untag mm xs -> readable untag mm xs exact ->
  to_json_mclass o untag mm xs = Ok out -> N.of_nat (length out) < 2^32 -> from_json_mclass g verify exact mm out = Ok (VClass xs).
Proof.
  intros g verify exact o untag mm xs out HG HT HL HV TA (RX & RM) E H32. destruct (shown_all o untag mm xs HV) as (vs & HR).
  pose proof (deps_good untag mm xs HV) as DG.
  destruct (mclass_out o HT HL 0 untag mm xs vs DG) as (out' & E' & G1 & G2 & _); [apply (rows_good o HT HL untag mm xs HV); exact HR|apply HV|].
  unfold to_json_mclass in E. rewrite E in E'. injection E' as <-.
  set (F := front_tree (o_errutf8 o) (o_7bit o) [] (map (dependent untag mm xs) mm)) in *. set (K := kept (map fst F) (wmembers o 1 mm) xs vs) in *.
  pose proof (js_nodup o untag mm xs HV vs 1) as ND. fold F in ND. fold K in ND. cbv zeta in ND.
  assert (NR : forall names, no_repeat names (F ++ K)) by (intros ns k _; apply (proj1 (NoDup_count_occ (list_eq_dec N.eq_dec) _) ND)).
  assert (WN : forall k, In k (map fst (F ++ K)) -> written untag mm xs k) by exact (js_names o untag mm xs HV vs 1).
  pose proof HV as (L & NDm & PN & HB & HD).
  assert (PW : forall k, written untag mm xs k -> plain_name k).
  { intros k [H|(nm & m & t & s & HI & D)]; [rewrite Forall_forall in PN; auto|]. now apply (HD _ _ _ _ _ HI D). }
  assert (US : forall ns k, (forall n, In n ns -> written untag mm xs n) -> In k (map fst (F ++ K)) -> usable g ns k).
  { intros ns k Hns Hk. split; [apply plain_name_ok; auto|]. right. intros n Hn Eh. apply TA; auto. }
  assert (NRAW : forall n m x, member_is mm xs n m x -> m <> MRaw) by (intros n m x HI ->; exact (RM _ _ _ HI)).
  apply (C82_class_partial g HG verify exact mm (F ++ K) xs out); auto.
  - exists [], out, [], []. split; [constructor|]. split; [|split; [constructor|split; [now left|now rewrite app_nil_r]]].
    eapply (proj1 (jtext_weaken rfc_body str_body rfc_str_body)); eauto.
  - split; [exact NDm|]. split; [apply NR|]. split; [apply Forall_forall; intros k Hk; apply US; auto; intros n Hn; left; exact Hn|].
    split; [intros EX k Hk; apply (RX EX); auto|].
    apply all_members; [exact L|]. intros [nm m] x HI. cbn [fst snd] in *. pose proof (HB _ _ _ HI) as B. pose proof (RM _ _ _ HI) as R.
    assert (IM : In (nm, m) mm) by (eapply in_combine_l; exact HI).
    assert (FD : forall d t s, depends untag mm xs nm m d t s -> lookup d (F ++ K) = Some (tree (o_errutf8 o) (o_7bit o) t s) /\ typed (usable g) t (tree (o_errutf8 o) (o_7bit o) t s) s).
    { intros d t s D. split; [apply lookup_in; [exact ND|]; apply in_or_app; left; exact (front_dep o untag mm xs HV _ _ _ _ _ IM D)|].
      apply typed_tree. now apply (HD _ _ _ _ _ IM D). }
    assert (NF : forall t, m <> MPlain t -> ~ In nm (map fst F) \/ exists t', m = MPlain t').
    { intros t _. destruct (in_dec (list_eq_dec N.eq_dec) nm (map fst F)) as [H|H]; [right|now left].
      apply in_map_iff in H as ([k w] & Ek & H). cbn [fst] in Ek. subst k. destruct (front_spec o untag mm xs HV _ _ H) as (nm' & m' & t' & s & HI' & D & _).
      destruct (HD _ _ _ _ _ HI' D) as (_ & _ & _ & PL). destruct (PL _ _ HI) as [-> _]. eauto. }
    destruct m as [t|ex tag t switch alts|name sz t|]; cbn [member_means member_belongs] in *; [| | |contradiction].
    + unfold has. destruct (gone (MPlain t) x) eqn:GN.
      * unfold gone in GN. cbn [mty_nullable] in GN. apply andb_prop in GN as [N1 N2]. assert (x = VNone) by (destruct x; try discriminate; reflexivity). subst x.
        destruct (lookup nm (F ++ K)) as [w|] eqn:LK; [|auto].
        (* the member of a nullable tag *)
        apply lookup_some_in in LK. apply in_app_or in LK as [LK|LK].
        -- destruct (front_spec o untag mm xs HV _ _ LK) as (nm' & m' & t' & s & HI' & D & Bs & ->). destruct (HD _ _ _ _ _ HI' D) as (_ & _ & _ & PL).
           destruct (PL _ _ HI) as [[= <-] <-]. now apply typed_tree.
        -- exfalso. destruct (rows_split _ _ _ _ _ _ HR HI) as (m1 & x1 & v1 & v & m2 & x2 & v2 & E1 & E2 & E3 & L1 & L2 & _ & _).
           unfold K in LK. revert LK. generalize (map fst F). intros deps LK. rewrite E1, E2, E3, kept_app in LK by auto. cbn [wmembers map kept wm_name wm_null fst snd mty_nullable] in LK. rewrite N1 in LK. cbn [has_value negb] in LK.
           assert (NI : ~ In nm (map fst (m1 ++ m2))).
           { unfold names in NDm. rewrite E1, map_app in NDm. cbn [map fst] in NDm. apply NoDup_remove_2 in NDm. now rewrite map_app. }
           rewrite map_app in NI. apply in_app_or in LK as [LK|LK]; [apply kept_in in LK; apply NI; apply in_or_app; left; tauto|].
           destruct (is_visited nm deps); apply kept_in in LK; apply NI; apply in_or_app; right; tauto.
      * destruct (js_lookup o untag mm xs HV vs HR 1 _ _ _ HI GN) as (v & SH & LK). cbv zeta in LK. fold F in LK. fold K in LK. rewrite LK. inversion SH; subst. now apply typed_tree.
    + destruct B as (y & a & -> & NA & BY & NY). destruct R as (-> & OR).
      destruct (js_lookup o untag mm xs HV vs HR 1 _ _ _ HI eq_refl) as (v & SH & LK). cbv zeta in LK. fold F in LK. fold K in LK.
      pose proof (shown_not_null _ _ _ _ SH ltac:(discriminate) ltac:(discriminate)) as NN.
      inversion SH as [|? ? ? ? ? ? ? a' NA' BA NY' Q1 Q2| |]; subst. rewrite NA in NA'. injection NA' as <-.
      destruct (FD tag t (untag nm xs)) as [LT TT]; [repeat split|].
      exists (tree (o_errutf8 o) (o_7bit o) a y), (untag nm xs), y, a. split; [exact LK|]. split; [exact NN|]. split; [apply NR|].
      split; [apply Forall_forall; intros k Hk; apply US; auto; intros n [<-|[]]; right; exists nm, (MTagged false tag t switch alts), t, (untag nm xs); split; [exact IM|repeat split]|].
      split; [discriminate|]. split; [unfold has; rewrite LT; exact TT|]. split; [exact NA|]. split; [now apply typed_tree|]. split; [reflexivity|].
      destruct OR as [(i & y' & [= <- <-] & BR)|AB].
      * left. clear - BA BR NY. destruct a; cbn [belongs] in BA;
          repeat match goal with H : _ /\ _ |- _ => destruct H | H : exists _, _ |- _ => destruct H | H : _ \/ _ |- _ => destruct H end; subst; cbn in BR; try contradiction; cbn [tree no_text]; auto; try congruence.
        match goal with |- no_text (if ?b then _ else _) => destruct b; exact I end.
      * right. destruct (NF TBool ltac:(discriminate)) as [NF'|(t' & Q)]; [|discriminate]. exact (turn o untag mm xs HV vs HR 1 _ _ _ HI eq_refl NF' AB NRAW).
    + destruct B as (SN & z & es & -> & FB & MZ).
      destruct (js_lookup o untag mm xs HV vs HR 1 _ _ _ HI eq_refl) as (v & SH & LK). cbv zeta in LK. fold F in LK. fold K in LK. inversion SH; subst.
      destruct (FD name sz (VInt z)) as [LT TT]; [repeat split; exact MZ|].
      exists (tree (o_errutf8 o) (o_7bit o) (TArr t) (VArr es)), (tree (o_errutf8 o) (o_7bit o) sz (VInt z)), z, es. split; [exact LK|]. split; [exact SN|]. split; [exact LT|]. split; [exact TT|].
      split; [apply typed_tree; exists es; auto|]. split; [reflexivity|].
      destruct (NF TBool ltac:(discriminate)) as [NF'|(t' & Q)]; [|discriminate]. exact (turn o untag mm xs HV vs HR 1 _ _ _ HI eq_refl NF' R NRAW).
Qed.
Print Assumptions C89_round_trip_partial.

(** ** What does not hold *)

Definition by_index (k : nat) (_ : list N) (xs : list val) : val :=
  match nth k xs VNone with VVariant i _ => VInt (Z.of_nat i) | _ => VInt 99 end.
Definition optional_variant : list (list N * mty) := [(bytes "a", MPlain (TNullable uint)); (bytes "v", variant)].
Definition trip (exact : bool) (mm : list (list N * mty)) (xs : list val) : res (list N * res val) :=
  out <- to_json_mclass minified (by_index 1) mm xs ;; Ok (out, from_json_mclass default_cfg true exact mm out).

(** C89: a variant that is a number or a string cannot be read back if an optional
    member mapped before it is empty. *)
Theorem C89_optional_refuted :
  trip false optional_variant [VNone; VVariant 0 (VInt 15)] = Ok (doc_of "{'tag':0,'v':15}", Err InvalidClassStart) /\
  trip false optional_variant [VNone; VVariant 1 (VStr (bytes "xx"))] = Ok (doc_of "{'tag':1,'v':'xx'}", Err InvalidString).
Proof. split; vm_compute; reflexivity. Qed.
Print Assumptions C89_optional_refuted.

(** With exact mappings the tag has to be a member: it is written in any case. *)
Theorem C89_exact_refuted :
  trip true optional_variant [VSome (VInt 1); VVariant 0 (VInt 15)] = Ok (doc_of "{'tag':0,'a':1,'v':15}", Err UnknownMember).
Proof. vm_compute. reflexivity. Qed.
Print Assumptions C89_exact_refuted.

(** C88: of a raw member that was a string the text can be without the quotes
    (C84), and then what is written is not JSON. *)
Theorem C88_raw_refuted : exists xs,
  with_raw "{'r':'a\'b','x':1}" = Ok (VClass xs) /\
  to_json_mclass minified (by_index 0) [(bytes "x", MPlain uint); (bytes "r", MRaw)] xs = Ok (doc_of "{'x':1,'r':a\'b}") /\
  forall v, ~ jtext rfc_body v (doc_of "{'x':1,'r':a\'b}").
Proof. exists [VInt 1; VStr (doc_of "a\'b")]. split; [vm_compute; reflexivity|]. split; [vm_compute; reflexivity|]. apply not_json. vm_compute. reflexivity. Qed.
Print Assumptions C88_raw_refuted.

(** ** The theorems say something *)

Definition mixed : list (list N * mty) :=
  [(bytes "a", MPlain (TNullable uint)); (bytes "v", variant); (bytes "n", MPlain uint); (bytes "e", MSized (bytes "n") uint uint)].
Definition mixed_value : list val := [VSome (VInt 1); VVariant 1 (VStr (bytes "xx")); VInt 2; VTuple [VInt 2; VArr [VInt 5; VInt 6]]].

Lemma mixed_names : forall k, written (by_index 1) mixed mixed_value k -> In k [bytes "a"; bytes "v"; bytes "n"; bytes "e"; bytes "tag"].
Proof.
  intros k [H|(nm & m & t & s & HI & D)]; [cbn in H; cbn; tauto|].
  repeat (destruct HI as [[= <- <-]|HI]; [cbn [depends variant] in D; try contradiction; destruct D as (-> & _); cbn; tauto|]). contradiction.
Qed.

Lemma mixed_ok : class_value (by_index 1) mixed mixed_value /\ told_apart (by_index 1) mixed mixed_value /\ readable (by_index 1) mixed mixed_value false.
Proof.
  assert (U : forall z, (0 <= z < 4294967296)%Z -> belongs uint (VInt z)) by (intros z Hz; split; [unfold int_size; auto|]; exists z; split; [reflexivity|exact Hz]).
  assert (MI : forall nm m x, member_is mixed mixed_value nm m x ->
    (nm, m, x) = (bytes "a", MPlain (TNullable uint), VSome (VInt 1)) \/ (nm, m, x) = (bytes "v", variant, VVariant 1 (VStr (bytes "xx"))) \/
    (nm, m, x) = (bytes "n", MPlain uint, VInt 2) \/ (nm, m, x) = (bytes "e", MSized (bytes "n") uint uint, VTuple [VInt 2; VArr [VInt 5; VInt 6]])).
  { intros nm m x H. unfold member_is, mixed, mixed_value in H. cbn [combine In] in H. repeat destruct H as [H|H]; try contradiction; injection H as <- <- <-; auto. }
  assert (SZ : forall s, member_is mixed mixed_value (bytes "n") (MPlain uint) s -> s = VInt 2).
  { intros s H. apply MI in H as [H|[H|[H|H]]]; injection H; try discriminate; auto. }
  assert (DP : forall nm m d t s, In (nm, m) mixed -> depends (by_index 1) mixed mixed_value nm m d t s ->
    d = bytes "tag" /\ t = uint /\ s = VInt 1 \/ d = bytes "n" /\ t = uint /\ s = VInt 2).
  { intros nm m d t s HI D. repeat (destruct HI as [[= <- <-]|HI]; [cbn [depends variant] in D; try contradiction; destruct D as (-> & -> & D); auto 6|]). contradiction. }
  assert (AB : forall k, all_before mixed mixed_value k) by (intros k n m x _ H; apply MI in H as [H|[H|[H|H]]]; injection H as -> -> ->; discriminate).
  split; [|split].
  - split; [reflexivity|]. split; [repeat (apply NoDup_cons; [cbn; intuition discriminate|]); apply NoDup_nil|].
    assert (PL : forall k, forallb (fun c => (32 <=? c) && (c <? 256) && negb (c =? 34) && negb (c =? 92)) k = true -> plain_name k).
    { intros k H. apply Forall_forall. rewrite forallb_forall in H. intros c Hc. specialize (H c Hc). lia. }
    split; [repeat (apply Forall_cons; [apply PL; reflexivity|]); apply Forall_nil|]. split.
    + intros nm m x H. apply MI in H as [H|[H|[H|H]]]; injection H as -> -> ->.
      * split; [reflexivity|]. right. exists (VInt 1). split; [reflexivity|]. apply U. lia.
      * exists (VStr (bytes "xx")), TStr. split; [reflexivity|]. split; [reflexivity|]. split; [|discriminate]. exists (bytes "xx"). split; [reflexivity|].
        exists [120; 120]. split; [repeat (apply Forall_cons; [unfold SpecUnicode.scalar; lia|]); apply Forall_nil|reflexivity].
      * apply U. lia.
      * split; [split; [discriminate|repeat constructor; discriminate]|]. exists 2%Z, [VInt 5; VInt 6]. split; [reflexivity|].
        split; [repeat (apply Forall_cons; [apply U; lia|]); apply Forall_nil|]. right. right. now left.
    + intros nm m d t s HI D. destruct (DP _ _ _ _ _ HI D) as [(-> & -> & ->)|(-> & -> & ->)]; (split; [apply PL; reflexivity|]; split; [apply U; lia|]; split).
      * intros nm' m' t' s' HI' D'. destruct (DP _ _ _ _ _ HI' D') as [(E & -> & ->)|(E & -> & ->)]; [auto|discriminate E].
      * intros m' x H. apply MI in H as [H|[H|[H|H]]]; injection H; discriminate.
      * intros nm' m' t' s' HI' D'. destruct (DP _ _ _ _ _ HI' D') as [(E & -> & ->)|(E & -> & ->)]; [discriminate E|auto].
      * intros m' x H. apply MI in H as [H|[H|[H|H]]]; injection H; try discriminate. auto.
  - intros k k' Hk Hk'. apply mixed_names in Hk, Hk'. cbn in Hk, Hk'. intros E.
    repeat destruct Hk as [<-|Hk]; try contradiction; repeat destruct Hk' as [<-|Hk']; try contradiction; try reflexivity; vm_compute in E; discriminate E.
  - split; [discriminate|]. intros nm m x H. apply MI in H as [H|[H|[H|H]]]; injection H as -> -> ->; cbn; auto.
Qed.

Example C89_ex : exists out, to_json_mclass pretty2 (by_index 1) mixed mixed_value = Ok out /\
  from_json_mclass default_cfg true false mixed out = Ok (VClass mixed_value).
Proof.
  destruct mixed_ok as (HV & TA & RD).
  destruct (C88_well_formed_partial pretty2 (by_index 1) mixed mixed_value) as (F & K & out & E & _); [reflexivity|apply layouts; cbn; auto 10|exact HV|].
  exists out. split; [exact E|]. eapply (C89_round_trip_partial default_cfg true false pretty2 (by_index 1)); eauto; [covers|apply layouts; cbn; auto 10|].
  vm_compute in E. injection E as <-. reflexivity.
Qed.
Example C88_ex : to_json_mclass minified (by_index 1) mixed mixed_value = Ok (doc_of "{'tag':1,'n':2,'a':1,'v':'xx','e':[5,6]}").
Proof. vm_compute. reflexivity. Qed.
(** Two variants with one tag, which is a member too: it is written once. *)
Example C88_once_ex : to_json_mclass minified (by_index 1)
  [(bytes "w", MTagged false (bytes "tag") uint by_number [uint]); (bytes "v", variant); (bytes "tag", MPlain uint)] [VVariant 0 (VInt 7); VVariant 0 (VInt 8); VInt 0] =
  Ok (doc_of "{'tag':0,'w':7,'v':8}").
Proof. vm_compute. reflexivity. Qed.
