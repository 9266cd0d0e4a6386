(** C127: maps, and names that an object repeats. *)
From Coq Require Import String.
From Coq Require Import List NArith ZArith Bool Lia Arith ZifyBool ZifyNat ZifyN Permutation.
From Verif Require Import Base Mem PolicyModel SpecNum SpecText SpecJson SpecUnicode SpecTyped SpecSer SpecValue SpecPath HashModel ValueModel SerModel
  NameProofs TypedProofs StrScanProofs ClassMeans PathModel PropertiesTyped PropertiesSer PropertiesPath PropertiesTag PropertiesIter PropertiesReject DupModel.
Import ListNotations.
Local Open Scope N_scope.

(** [k] has its first place in the list with [x]. *)
Definition first_with {A} (k : list N) (x : A) (l : list (list N * A)) : Prop :=
  exists l1 l2, l = l1 ++ (k, x) :: l2 /\ ~ In k (map fst l1).

Lemma has_key_in : forall k m, has_key k m = true <-> In k (map fst m).
Proof.
  intros k. induction m as [|[k' v] m IH]; cbn [has_key map fst In]; [split; [discriminate|contradiction]|].
  rewrite orb_true_iff, IH. destruct (list_eq_dec N.eq_dec k' k); intuition congruence.
Qed.

Lemma first_with_nil : forall A k (x : A), ~ first_with k x [].
Proof. intros A k x (l1 & l2 & E & _). destruct l1; discriminate. Qed.

Lemma first_with_cons : forall A k (x : A) k' y l, first_with k x ((k', y) :: l) <-> k' = k /\ y = x \/ k' <> k /\ first_with k x l.
Proof.
  intros A k x k' y l. split.
  - intros (l1 & l2 & E & N). destruct l1 as [|[k1 y1] l1]; [injection E as -> -> _; auto|]. injection E as -> -> ->. cbn in N.
    right. split; [tauto|]. exists l1, l2. auto.
  - intros [[-> ->]|(NK & l1 & l2 & -> & N)]; [exists [], l; auto|]. exists ((k', y) :: l1), l2. split; [reflexivity|]. cbn. tauto.
Qed.

Lemma insert_all_spec : forall kvs m, NoDup (map fst m) ->
  NoDup (map fst (insert_all kvs m)) /\
  forall k x, In (k, x) (insert_all kvs m) <-> In (k, x) m \/ ~ In k (map fst m) /\ first_with k x kvs.
Proof.
  induction kvs as [|[k' y] kvs IH]; intros m ND; cbn [insert_all].
  - split; [exact ND|]. intros k x. split; [now left|]. intros [H|[_ H]]; [exact H|]. now apply first_with_nil in H.
  - destruct (has_key k' m) eqn:HK.
    + apply has_key_in in HK. destruct (IH m ND) as [A B]. split; [exact A|]. intros k x. rewrite B, first_with_cons.
      split; [intros [H|[H1 H2]]; [now left|right; split; [exact H1|right; split; [intros ->; contradiction|exact H2]]]|].
      intros [H|[H1 [[-> ->]|[H2 H3]]]]; [now left|contradiction|right; auto].
    + assert (NK : ~ In k' (map fst m)) by (intros H; apply has_key_in in H; congruence).
      assert (ND' : NoDup (map fst (m ++ [(k', y)]))).
      { rewrite map_app. cbn [map fst]. eapply Permutation_NoDup; [apply Permutation_cons_append|]. now constructor. }
      destruct (IH _ ND') as [A B]. split; [exact A|]. intros k x. rewrite B, first_with_cons, map_app, !in_app_iff. cbn [map fst In]. split.
      * intros [[H|[H|[]]]|[H1 H2]]; [now left|injection H as -> ->; right; auto|]. right. split; [tauto|]. right. split; [tauto|exact H2].
      * intros [H|[H1 [[-> ->]|[H2 H3]]]]; [now left; left|left; right; now left|]. right. split; [tauto|exact H3].
Qed.

(** ** C127
    Full statement: reading an object into a map gives every key of the object, and no
    other, with the value of its first member; every other way to get at the member by
    its name gives the same value; writing a map and reading it back gives the map.
    Partial: well-formed documents; the other way is from_json with a path, and names
    are without escapes; classes are refuted (C127_class_refuted, C27). *)
Theorem C127_keys : forall kvs, NoDup (map fst (construct_map kvs)) /\
  forall k x, In (k, x) (construct_map kvs) <-> first_with k x kvs.
Proof.
  intros kvs. destruct (insert_all_spec kvs [] (NoDup_nil _)) as [A B]. split; [exact A|]. intros k x. rewrite (B k x). cbn. tauto.
Qed.
Print Assumptions C127_keys.

(** The first of the members whose name stands for the key *)
Definition first_denoting (k : list N) (v : jv) (ms : list (list N * jv)) : Prop :=
  exists m1 b m2, ms = m1 ++ (b, v) :: m2 /\ denotes b k /\ forall b' v', In (b', v') m1 -> ~ denotes b' k.

Lemma first_both : forall (R : jv -> val -> Prop) ms kxs, Forall2 (fun m kx => denotes (fst m) (fst kx) /\ R (snd m) (snd kx)) ms kxs ->
  (forall k x, first_with k x kxs -> exists v, first_denoting k v ms /\ R v x) /\
  (forall k v, first_denoting k v ms -> exists x, first_with k x kxs /\ R v x).
Proof.
  intros R ms kxs F. induction F as [|[b w] [k' y] ms kxs [D H] F [IH1 IH2]]; cbn [fst snd] in *.
  - split; [intros k x H; now apply first_with_nil in H|]. intros k v (m1 & b & m2 & E & _). destruct m1; discriminate.
  - split.
    + intros k x H1. apply first_with_cons in H1 as [[-> ->]|[NK H1]].
      * exists w. split; [|exact H]. exists [], b, ms. split; [reflexivity|]. split; [exact D|]. intros ? ? [].
      * destruct (IH1 k x H1) as (v & (m1 & b2 & m2 & -> & D2 & N) & HR). exists v. split; [|exact HR]. exists ((b, w) :: m1), b2, m2.
        split; [reflexivity|]. split; [exact D2|]. intros b' v' [E|IN]; [injection E as <- <-; intros D'; apply NK; exact (denotes_fun _ _ D _ D')|now apply (N b' v')].
    + intros k v (m1 & b2 & m2 & E & D2 & N). destruct m1 as [|[b1 w1] m1].
      * injection E as -> -> ->. exists y. split; [|exact H]. apply first_with_cons. left. split; [exact (denotes_fun _ _ D _ D2)|reflexivity].
      * injection E as -> -> ->. destruct (IH2 k v) as (x & F1 & HR); [exists m1, b2, m2; split; [reflexivity|]; split; [exact D2|]; intros b' v' IN; apply (N b' v'); now right|].
        exists x. split; [|exact HR]. apply first_with_cons. right. split; [|exact F1]. intros ->. apply (N b1 w1); [now left|exact D].
Qed.

Theorem C127_read_partial : forall g verify t ms x doc, covered g -> is_bytes doc -> N.of_nat (length doc) < 2^32 ->
  document (TMap t) (JObj ms) doc -> typed (usable g) (TMap t) (JObj ms) x ->
  exists m, from_json_map g verify t doc = Ok m /\ NoDup (map fst m) /\
    (forall k y, In (k, y) m -> exists v, first_denoting k v ms /\ typed (usable g) t v y) /\
    (forall k v, first_denoting k v ms -> exists y, In (k, y) m /\ typed (usable g) t v y).
Proof.
  intros g verify t ms x doc HG HB H32 HD HT. unfold from_json_map. rewrite (C29_parse_partial g HG verify (TMap t) (JObj ms) x doc HB H32 HD HT). cbn [bind].
  cbn [typed] in HT. destruct HT as (ms' & kxs & E & -> & F). injection E as <-. exists (construct_map kxs). split; [reflexivity|].
  destruct (C127_keys kxs) as [K1 K2]. split; [exact K1|]. destruct (first_both (typed (usable g) t) ms kxs F) as [F1 F2]. split.
  - intros k y H. apply F1. now apply K2.
  - intros k v H. destruct (F2 k v H) as (y & H1 & H2). exists y. split; [now apply K2|exact H2].
Qed.
Print Assumptions C127_read_partial.

Lemma plain_denotes : forall b k, Forall plain b -> denotes b k -> k = b.
Proof.
  intros b k F D. induction D as [|c t s N1 N2 D IH|e c t s I D IH|ds u t s H U D IH|ds1 u1 ds2 u2 t s H1 H2 R1 R2 D IH];
    [reflexivity| | | |]; inversion F as [|? ? [_ P] F']; subst; try congruence. now rewrite IH.
Qed.

(** A path finds what the map has. *)
Theorem C127_path_partial : forall g verify t ms x doc tx w1 k y m, covered g -> is_bytes doc -> N.of_nat (length doc) < 2^32 ->
  doc = tx ++ w1 -> jtext str_body (JObj ms) tx -> ws w1 -> typed (usable g) (TMap t) (JObj ms) x ->
  Forall (fun m => Forall plain (fst m)) ms -> names_ok g (JObj ms) -> simple k ->
  from_json_map g verify t doc = Ok m -> In (k, y) m -> from_json_path g false t doc k = Ok y.
Proof.
  intros g verify t ms x doc tx w1 k y m HG HB H32 ED HT W1 TY PL NO SK EM IN.
  assert (HD : document (TMap t) (JObj ms) doc).
  { exists [], tx, w1, []. rewrite app_nil_r. split; [constructor|]. split; [reflexivity|]. auto. }
  assert (IN' : exists v, first_denoting k v ms /\ typed (usable g) t v y).
  { destruct (C127_read_partial g verify t ms x doc HG HB H32 HD TY) as (m' & E' & _ & R1 & _). rewrite EM in E'. injection E' as <-. now apply R1. }
  destruct IN' as (v & (m1 & b & m2 & EMS & D & N) & TV).
  assert (EB : k = b). { apply plain_denotes; [|exact D]. rewrite Forall_forall in PL. apply (PL (b, v)). rewrite EMS. apply in_or_app. right. now left. }
  subst b. apply (C63_partial g t (JObj ms) y doc [] tx w1 [SName k] k v HG HB H32 ED (Forall_nil _) HT W1); [discriminate| | |exact TV].
  - apply (l_name _ ms k (length m1) v [] v NO); [| |constructor].
    + exists m1, v, m2. split; [exact EMS|]. split; [reflexivity|]. intros I. apply in_map_iff in I as ([b' v'] & E1 & I). cbn [fst] in E1. subst b'.
      apply (N k v' I). exact D.
    + rewrite EMS, nth_error_app2, Nat.sub_diag by lia. reflexivity.
  - exists []. split; [now rewrite app_nil_r|]. split; [exact SK|constructor].
Qed.
Print Assumptions C127_path_partial.

(** A path finds no key that the map does not have. *)
Theorem C127_absent_partial : forall g verify t ms x doc tx w1 k m, covered g -> is_bytes doc -> N.of_nat (length doc) < 2^32 ->
  doc = tx ++ w1 -> jtext str_body (JObj ms) tx -> ws w1 -> typed (usable g) (TMap t) (JObj ms) x ->
  Forall (fun m => Forall plain (fst m)) ms -> names_ok g (JObj ms) -> simple k ->
  from_json_map g verify t doc = Ok m -> ~ In k (map fst m) ->
  from_json_path g verify t doc k = if is_nullable t then Ok VNone else Err JSONPathNotFound.
Proof.
  intros g verify t ms x doc tx w1 k m HG HB H32 ED HT W1 TY PL NO SK EM NI.
  assert (HD : document (TMap t) (JObj ms) doc).
  { exists [], tx, w1, []. rewrite app_nil_r. split; [constructor|]. split; [reflexivity|]. auto. }
  unfold from_json_map in EM. rewrite (C29_parse_partial g HG verify (TMap t) (JObj ms) x doc HB H32 HD TY) in EM. cbn [bind] in EM.
  cbn [typed] in TY. destruct TY as (ms' & kxs & E & -> & F). injection E as <-. injection EM as <-.
  assert (NK : ~ In k (map fst ms)).
  { intros I. apply NI. assert (IK : In k (map fst kxs)).
    { clear - F PL I. induction F as [|[b w] [k' y] ms kxs [D H] F IH]; [destruct I|]. cbn [fst map In] in *. inversion PL as [|? ? P1 P2]; subst. cbn [fst] in P1.
      destruct I as [->|I]; [left; now apply plain_denotes|right; now apply IH]. }
    destruct (C127_keys kxs) as [_ K2]. assert (FW : exists y, first_with k y kxs).
    { clear - IK. induction kxs as [|[k' y] kxs IH]; [destruct IK|]. destruct (list_eq_dec N.eq_dec k' k) as [->|NE].
      - exists y. apply first_with_cons. left. auto.
      - destruct IH as (z & Hz); [destruct IK as [E|I]; [cbn in E; congruence|exact I]|]. exists z. apply first_with_cons. right. auto. }
    destruct FW as (y & FW). apply K2 in FW. now apply (in_map fst) in FW. }
  apply (C63_missing_partial g verify t (JObj ms) doc [] tx w1 [SName k] k HG HB H32 ED (Forall_nil _) HT W1); [discriminate|now apply d_name|].
  exists []. split; [now rewrite app_nil_r|]. split; [exact SK|constructor].
Qed.
Print Assumptions C127_absent_partial.

(** Written in any order, as a std::unordered_map is, a map is read back. *)
Theorem C127_round_trip_partial : forall g verify o t m l out, covered g -> o_trailing o = false -> layout o -> NoDup (map fst m) ->
  Permutation l m -> belongs (TMap t) (VMap l) -> to_json o (TMap t) (VMap l) = Ok out -> N.of_nat (length out) < 2^32 ->
  exists m', from_json_map g verify t out = Ok m' /\ NoDup (map fst m') /\ forall k x, In (k, x) m' <-> In (k, x) m.
Proof.
  intros g verify o t m l out HG HT HL ND HP HB E H32. unfold from_json_map.
  rewrite (C29_round_trip_partial g verify o (TMap t) (VMap l) out HG HT HL HB E H32). cbn [bind]. exists (construct_map l). split; [reflexivity|].
  destruct (C127_keys l) as [K1 K2]. split; [exact K1|]. intros k x. rewrite (K2 k x).
  assert (NL : NoDup (map fst l)) by (eapply Permutation_NoDup; [apply Permutation_map, Permutation_sym, HP|exact ND]).
  split.
  - intros (l1 & l2 & -> & _). eapply Permutation_in; [exact HP|]. apply in_or_app. right. now left.
  - intros H. apply (Permutation_in (k, x) (Permutation_sym HP)) in H. apply in_split in H as (l1 & l2 & ->). exists l1, l2. split; [reflexivity|].
    rewrite map_app in NL. cbn [map fst] in NL. apply NoDup_remove_2 in NL. intros I. apply NL. apply in_or_app. now left.
Qed.
Print Assumptions C127_round_trip_partial.

(** ** Where it does not hold *)

(** A class may take the last of the members. *)
Theorem C127_class_refuted : exists doc, from_json_map default_cfg true uint doc = Ok [([97], VInt 1); ([98], VInt 3)] /\
  from_json default_cfg true ba doc = Ok (VClass [VInt 3; VInt 2]).
Proof. exists (doc_of "{'a':1,'a':2,'b':3}"). split; vm_compute; reflexivity. Qed.
Print Assumptions C127_class_refuted.

(** Keys of a map are decoded, names of a path are not: with an escape the two do not
    agree on the first member. *)
Definition escaped : list N := doc_of "{'" ++ [92; 117; 48; 48; 54; 49] ++ doc_of "':1,'a':2}".
Theorem C127_escape_refuted : from_json_map default_cfg true uint escaped = Ok [([97], VInt 1)] /\
  from_json_path default_cfg false uint escaped (bytes "a") = Ok (VInt 2).
Proof. split; vm_compute; reflexivity. Qed.
Print Assumptions C127_escape_refuted.

Example C127_ex :
  from_json_map default_cfg true uint (doc_of "{'a':1,'b':2,'a':3}") = Ok [([97], VInt 1); ([98], VInt 2)] /\
  from_json_path default_cfg false uint (doc_of "{'a':1,'b':2,'a':3}") (bytes "a") = Ok (VInt 1) /\
  from_json_path default_cfg false uint (doc_of "{'a':1,'b':2,'a':3}") (bytes "c") = Err JSONPathNotFound /\
  from_json_map default_cfg true uint (doc_of "{}") = Ok [] /\
  to_json minified (TMap uint) (VMap [([98], VInt 2); ([97], VInt 1)]) = Ok (doc_of "{'b':2,'a':1}") /\
  from_json_map default_cfg true uint (doc_of "{'b':2,'a':1}") = Ok [([98], VInt 2); ([97], VInt 1)].
Proof. repeat split; vm_compute; reflexivity. Qed.

Definition twice : list (list N * jv) := [([97], JNum [49]); ([97], JNum [51])].
Example C127_nonvacuous : jtext str_body (JObj twice) (doc_of "{'a':1,'a':3}") /\
 typed (usable default_cfg) (TMap uint) (JObj twice) (VMap [([97], VInt 1); ([97], VInt 3)]) /\
 Forall (fun m => Forall plain (fst m)) twice /\ names_ok default_cfg (JObj twice) /\ simple [97] /\
 first_denoting [97] (JNum [49]) twice /\ from_json_map default_cfg true uint (doc_of "{'a':1,'a':3}") = Ok [([97], VInt 1)].
Proof.
  assert (PL : Forall (fun m : list N * jv => Forall plain (fst m)) twice) by (repeat constructor; discriminate).
  assert (DA : denotes [97] [97]) by (apply dn_plain; [discriminate|discriminate|constructor]).
  assert (SB : str_body [97]) by (apply rfc_str_body, rb_plain; [lia|lia|lia|constructor]).
  assert (JN : forall d, Dec.canonicalb [d] = true -> jtext str_body (JNum [d]) [d]) by (intros d HD; now apply t_num, jnum_digit).
  split; [|split; [|split; [exact PL|split; [exact PL|split; [|split; [|vm_compute; reflexivity]]]]]].
  - change (doc_of "{'a':1,'a':3}") with (123 :: ([] ++ (34 :: [97] ++ [34]) ++ [] ++ 58 :: [] ++ [49] ++ [] ++ 44 :: ([] ++ (34 :: [97] ++ [34]) ++ [] ++ 58 :: [] ++ [51] ++ [])) ++ [125]).
    apply t_obj. apply m_cons; try (constructor; fail); [exact SB|now apply JN|]. apply m_one; try (constructor; fail); [exact SB|now apply JN].
  - exists twice, [([97], VInt 1); ([97], VInt 3)]. split; [reflexivity|]. split; [reflexivity|]. constructor; [|constructor; [|constructor]]; (split; [exact DA|]).
    + exact (typed_uint [49] 1 eq_refl eq_refl eq_refl eq_refl).
    + exact (typed_uint [51] 3 eq_refl eq_refl eq_refl eq_refl).
  - split; [discriminate|]. repeat constructor; discriminate.
  - exists [], [97], [([97], JNum [51])]. split; [reflexivity|]. split; [exact DA|]. intros ? ? [].
Qed.
