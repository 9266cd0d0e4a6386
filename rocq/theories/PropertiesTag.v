(** C82 to C84: members that depend on another member (variants with a tag,
    arrays with a size), and members kept as text. *)
From Coq Require Import String.
From Coq Require Import List NArith ZArith Bool Lia Arith Permutation ZifyBool ZifyNat ZifyN.
From Verif Require Import Base Mem Loop PolicyModel StrScanModel SkipModel SpecNum SpecText SpecJson SpecPath IntValueProofs SkipProofs BracketProofs SkipSafe NameProofs SpecValue PropertiesSkip HashModel ValueModel PathModel TagModel ScalarProofs VariantProofs PropertiesValue
  SpecTyped SpecTag ClassProofs TypedProofs AgreeProofs TagProofs SpecCompact PropertiesTyped.
Import ListNotations.
Local Open Scope N_scope.

Section Reading.
  Context (g : cfg).
  Hypothesis HG : covered g.

  (** ** C82 *)

  (** Full claim: of every class with a variant that has its tag in another
      member the alternative that the tag selects is read, whatever the order of
      the members.  Proved for variants that come in turn, or whose value is an
      object, an array, true or false; with exact mappings the tag is the only
      member (as C81). *)
  Theorem C82_class_partial : forall verify exact mm js xs doc, is_bytes doc -> N.of_nat (length doc) < 2^32 ->
    object_document js doc -> class_means (usable g) exact mm js xs -> from_json_mclass g verify exact mm doc = Ok (VClass xs).
  Proof. destruct HG as [HX HE]. intros verify exact mm js xs doc HB H32 HD HM. eapply (from_json_means g HX HE (usable g)); eauto. Qed.

  Lemma has_perm : forall nc names k t js js' y, Permutation js js' -> no_repeat names js -> In k names -> has nc k t js y -> has nc k t js' y.
  Proof. intros nc names k t js js' y HP NR IN H. unfold has in *. now rewrite <- (lookup_perm names js js' k HP NR IN). Qed.

  Lemma names_perm : forall (P : list N -> Prop) (js js' : list (list N * jv)), Permutation js js' -> Forall P (map fst js) -> Forall P (map fst js').
  Proof. intros P js js' HP HF. rewrite Forall_forall in *. intros k Hk. apply HF. eapply Permutation_in; [|exact Hk]. apply Permutation_map. now apply Permutation_sym. Qed.

  Lemma plain_perm : forall nc names mm js js' xs, Permutation js js' -> no_repeat names js -> (forall m, In m mm -> In (fst m) names) ->
    (forall m, In m mm -> exists t, snd m = MPlain t) ->
    Forall2 (fun m y => member_means nc names js (fst m) (snd m) y) mm xs -> Forall2 (fun m y => member_means nc names js' (fst m) (snd m) y) mm xs.
  Proof.
    intros nc names mm js js' xs HP NR IN PL HF. induction HF as [|m y mm xs H1 HF IH]; constructor.
    - destruct (PL m) as (t & E); [now left|]. rewrite E in *. cbn [member_means] in *. eapply has_perm; eauto. apply IN. now left.
    - apply IH; intros m' Hm; [apply IN|apply PL]; now right.
  Qed.

  (** With the variant mapped first, the order of the members does not matter:
      the tag is found before and behind the variant. *)
  Theorem C82_tag_anywhere_partial : forall verify nm tag t switch alts mm js js' xs doc doc',
    is_bytes doc -> N.of_nat (length doc) < 2^32 -> is_bytes doc' -> N.of_nat (length doc') < 2^32 ->
    (forall m, In m mm -> exists u, snd m = MPlain u) ->
    class_means (usable g) false ((nm, MTagged false tag t switch alts) :: mm) js xs -> Permutation js js' ->
    object_document js doc -> object_document js' doc' ->
    from_json_mclass g verify false ((nm, MTagged false tag t switch alts) :: mm) doc = Ok (VClass xs) /\
    from_json_mclass g verify false ((nm, MTagged false tag t switch alts) :: mm) doc' = Ok (VClass xs).
  Proof.
    intros verify nm tag t switch alts mm js js' xs doc doc' B L B' L' PL HM HP HD HD'.
    split; [eapply C82_class_partial; eauto|]. eapply C82_class_partial; eauto.
    destruct HM as (ND & NR & FN & _ & HF). split; [exact ND|]. split; [now apply (no_repeat_perm _ js)|]. split; [now apply (names_perm _ js)|]. split; [discriminate|].
    inversion HF as [|? y ? ys H1 H2]; subst. constructor.
    - cbn [fst snd member_means] in *. destruct H1 as (v & s & z & a & LN & NV & NR1 & FN1 & _ & HH & NA & TV & -> & _).
      exists v, s, z, a. split; [rewrite <- (lookup_perm _ js js' nm HP NR); [exact LN|now left]|]. split; [exact NV|]. split; [now apply (no_repeat_perm _ js)|].
      split; [now apply (names_perm _ js)|]. split; [discriminate|]. split; [eapply has_perm; eauto; now left|]. split; [exact NA|]. split; [exact TV|]. split; [reflexivity|].
      right. intros x w b _ n IN. cbn [map fst before] in IN. destruct (list_eq_dec N.eq_dec nm nm); [destruct IN|congruence].
    - eapply plain_perm; eauto. intros m Hm. right. now apply in_map.
  Qed.

  (** Without the tag there is an error. *)
  Theorem C82_no_tag_partial : forall exact tag t switch alts js known buf p a b tx, wf buf (new_ps a b) -> N.of_nat (length buf) < 2^32 ->
    cfirst p = Some a -> clast p = Some b -> is_nullable t = false -> ~ In tag (map fst js) -> Forall (usable g [tag]) (map fst js) -> (exact = true -> js = []) ->
    jtext str_body (JObj js) tx -> sub_at buf a tx -> (a + length tx <= b)%nat ->
    parse_mty g (MTagged exact tag t switch alts) known buf p = Err MemberNotFound.
  Proof.
    intros exact tag t switch alts js known buf p a b tx HW H32 C1 C2 NN NI FN EX HT HS HL. cbn [parse_mty]. unfold parse_value_variant_tagged, find_index.
    rewrite C1, C2. assert (H0 : nth_error buf a = Some 123) by (inversion HT; subst; apply HS).
    assert (LT : (1 <= length tx)%nat) by (inversion HT; subst; cbn [length]; lia).
    change c_lbrace with 123. rewrite (is_at_yes buf (new_ps a b) 123 H0) by (cbn [first last new_ps]; lia). cbn [ensure bind].
    pose proof (C26_missing_required_partial g HG exact [(tag, t)] js false buf (new_ps a b) tx HW H32) as X. cbn [map fst snd parse_value] in X. rewrite X; auto.
    - constructor; [intros []|constructor].
    - intros k [<-|[]]. rewrite (proj1 (count_occ_not_In _ _ _)) by exact NI. lia.
    - intros E k Hk. rewrite (EX E) in Hk. destruct Hk.
    - apply lacking_here; [|exact NN]. clear - NI. induction js as [|[n v] js IH]; [reflexivity|]. cbn [lookup map fst In] in *.
      destruct (list_eq_dec N.eq_dec n tag) as [->|]; [exfalso; apply NI; now left|]. apply IH. tauto.
  Qed.

  (** ** C83 *)

  (** Full claim: an array with its size in another member is read, its
      constructor is called with that size, and a size that is not the number of
      elements is an error.  Proved: with the array mapped first, whatever the
      order of the members, elements and size are given to the constructor; the
      size modulo 2^64 and without a comparison. *)
  Theorem C83_size_anywhere_partial : forall verify exact nm name sz t mm js js' xs doc doc',
    is_bytes doc -> N.of_nat (length doc) < 2^32 -> is_bytes doc' -> N.of_nat (length doc') < 2^32 ->
    (forall m, In m mm -> exists u, snd m = MPlain u) -> no_repeat [name] js ->
    class_means (usable g) exact ((nm, MSized name sz t) :: mm) js xs -> Permutation js js' ->
    object_document js doc -> object_document js' doc' ->
    from_json_mclass g verify exact ((nm, MSized name sz t) :: mm) doc = Ok (VClass xs) /\
    from_json_mclass g verify exact ((nm, MSized name sz t) :: mm) doc' = Ok (VClass xs).
  Proof.
    intros verify exact nm name sz t mm js js' xs doc doc' B L B' L' PL NS HM HP HD HD'.
    split; [eapply C82_class_partial; eauto|]. eapply C82_class_partial; eauto.
    destruct HM as (ND & NR & FN & EX & HF). split; [exact ND|]. split; [now apply (no_repeat_perm _ js)|]. split; [now apply (names_perm _ js)|]. split.
    { intros E k Hk. apply (EX E). eapply Permutation_in; [|exact Hk]. apply Permutation_map. now apply Permutation_sym. }
    inversion HF as [|? y ? ys H1 H2]; subst. constructor.
    - cbn [fst snd member_means] in *. destruct H1 as (v & n & z & vs & LN & SN & LS & TS & TV & -> & _). exists v, n, z, vs.
      split; [rewrite <- (lookup_perm _ js js' nm HP NR); [exact LN|now left]|]. split; [exact SN|]. split; [rewrite <- (lookup_perm _ js js' name HP NS); [exact LS|now left]|].
      split; [exact TS|]. split; [exact TV|]. split; [reflexivity|].
      intros x w b _ k IN. cbn [map fst before] in IN. destruct (list_eq_dec N.eq_dec nm nm); [destruct IN|congruence].
    - eapply plain_perm; eauto. intros m Hm. right. now apply in_map.
  Qed.

  (** ** C84 *)

  (** Full claim: a raw member is the text of the value as it is in the document.
      Proved for members that come in turn and are not null. *)
  Theorem C84_text_partial : forall buf p v t j, wf buf p -> N.of_nat (length buf) < 2^32 -> v <> JNull ->
    jtext str_body v t -> sub_at buf (first p) t -> followed true buf (first p + length t) j (last p) ->
    exists q, parse_mty g MRaw false buf p = Ok (VStr t, q) /\ last q = last p /\ (first p + length t <= first q <= j)%nat.
  Proof.
    destruct HG as [HX HE]. intros buf p v t j HW H32 NV HT HS HF. pose proof (followed_le _ _ _ _ _ HF) as FL.
    assert (LT : N.of_nat (length t) < 2^32) by (destruct HW as (_ & _ & HL & _); lia).
    destruct (C17_skip_value_partial CNone true ExConstexpr true buf p v t j ltac:(discriminate) HW HT HS LT HF ltac:(congruence)) as (r & E & D).
    cbn [parse_mty]. unfold parse_value_unknown. rewrite HX, HE, E. cbn [bind].
    assert (DD : first r = first p /\ last r = (first p + length t)%nat) by (destruct v; try congruence; apply D). destruct DD as [-> ->].
    rewrite (view_at buf (first p) t HS). eexists. split; [reflexivity|]. cbn [first last set_first set_counter]. split; [reflexivity|]. unfold stands. destruct (is_word v); lia.
  Qed.

  (** A member that was skipped first: strings lose their quotes. *)
  Theorem C84_skipped_partial : forall buf p v t j, wf buf p -> N.of_nat (length buf) < 2^32 -> v <> JNull ->
    jtext str_body v t -> sub_at buf (first p) t -> followed true buf (first p + length t) j (last p) ->
    exists r q, skip_val g buf p = Ok (r, q) /\
      parse_mty g MRaw true buf r = Ok (VStr match v with JStr s => s | _ => t end, r).
  Proof.
    destruct HG as [HX HE]. intros buf p v t j HW H32 NV HT HS HF. pose proof (followed_le _ _ _ _ _ HF) as FL.
    assert (LT : N.of_nat (length t) < 2^32) by (destruct HW as (_ & _ & HL & _); lia).
    destruct (C17_skip_value_partial CNone true ExConstexpr false buf p v t j ltac:(discriminate) HW HT HS LT HF ltac:(congruence)) as (r & E & D).
    exists r. eexists. unfold skip_val. rewrite HX, HE. split; [exact E|]. cbn [parse_mty]. unfold parse_value_unknown.
    assert (V : forall b s, first r = b -> last r = (b + length s)%nat -> sub_at buf b s -> view buf (first r) (last r) = s).
    { intros b s -> -> HS'. now apply view_at. }
    destruct v as [| | |n|s|es|ms]; try congruence; try (destruct D as [[D1 D2] _]; rewrite (V _ t D1 D2 HS); reflexivity).
    destruct D as [[D1 D2] _]. inversion HT; subst. rewrite (V (S (first p)) s); [reflexivity|exact D1| |].
    - cbn [length] in D2. rewrite app_length in D2. cbn [length] in D2. lia.
    - destruct HS as [_ HS]. apply sub_at_app in HS. exact (proj1 HS).
  Qed.
End Reading.
Print Assumptions C82_class_partial.
Print Assumptions C82_tag_anywhere_partial.
Print Assumptions C82_no_tag_partial.
Print Assumptions C83_size_anywhere_partial.
Print Assumptions C84_text_partial.
Print Assumptions C84_skipped_partial.

(** ** What does not hold *)

Definition by_number (v : val) : nat := match v with VInt z => Z.to_nat z | _ => 99%nat end.
Definition variant : mty := MTagged false (bytes "tag") uint by_number [uint; TStr; TArr uint].
Definition with_variant (first : bool) (d : string) : res val :=
  from_json_mclass default_cfg true false
    (if first then [(bytes "v", variant); (bytes "a", MPlain uint)] else [(bytes "a", MPlain uint); (bytes "v", variant)]) (doc_of d).
Definition with_size (sz : ty) (d : string) : res val :=
  from_json_mclass default_cfg true false [(bytes "x", MPlain uint); (bytes "v", MSized (bytes "n") sz uint)] (doc_of d).
Definition with_raw (d : string) : res val :=
  from_json_mclass default_cfg true false [(bytes "x", MPlain uint); (bytes "r", MRaw)] (doc_of d).

(** C82: a number or a string that comes before a member mapped earlier is
    refused; its state does not have the class any more.  For a number with an
    exponent only, the position of the class is null and its end is not, and the
    null pointer is read. *)
Theorem C82_order_refuted :
  with_variant false "{'a':1,'tag':0,'v':15}" = Ok (VClass [VInt 1; VVariant 0 (VInt 15)]) /\
  (exists e, with_variant false "{'v':15,'a':1,'tag':0}" = Err e) /\
  with_variant false "{'a':1,'tag':1,'v':'xx'}" = Ok (VClass [VInt 1; VVariant 1 (VStr (bytes "xx"))]) /\
  (exists e, with_variant false "{'v':'xx','a':1,'tag':1}" = Err e).
Proof.
  split; [vm_compute; reflexivity|]. split; [exists InvalidClassStart; vm_compute; reflexivity|]. split; [vm_compute; reflexivity|].
  exists InvalidString. vm_compute. reflexivity.
Qed.
Print Assumptions C82_order_refuted.

Theorem C82_null_pointer_refuted : with_variant false "{'v':1e5,'a':1,'tag':0}" = UB.
Proof. vm_compute. reflexivity. Qed.
Print Assumptions C82_null_pointer_refuted.

(** C83: the size is looked for between the class and the end of the member, so
    of a member that was skipped it is found only if it comes first; a number in
    place of the array reads the null pointer. *)
Theorem C83_order_refuted :
  with_size uint "{'x':1,'v':[5],'n':1}" = Ok (VClass [VInt 1; VTuple [VInt 1; VArr [VInt 5]]]) /\
  with_size uint "{'n':1,'v':[5],'x':1}" = Ok (VClass [VInt 1; VTuple [VInt 1; VArr [VInt 5]]]) /\
  with_size uint "{'v':[5],'x':1,'n':1}" = Err TagMemberNotFound.
Proof. repeat split; vm_compute; reflexivity. Qed.
Print Assumptions C83_order_refuted.

Theorem C83_null_pointer_refuted : with_size uint "{'v':5,'x':1,'n':1}" = UB.
Proof. vm_compute. reflexivity. Qed.
Print Assumptions C83_null_pointer_refuted.

(** The size is not compared with the number of elements, and may be negative. *)
Theorem C83_size_refuted :
  with_size uint "{'x':1,'v':[5],'n':7}" = Ok (VClass [VInt 1; VTuple [VInt 7; VArr [VInt 5]]]) /\
  with_size (TInt 32 true) "{'x':1,'v':[5],'n':-7}" = Ok (VClass [VInt 1; VTuple [VInt 18446744073709551609; VArr [VInt 5]]]).
Proof. repeat split; vm_compute; reflexivity. Qed.
Print Assumptions C83_size_refuted.

(** The name of the size is taken as a path. *)
Theorem C83_path_refuted : exists x,
  from_json_mclass default_cfg true false [(bytes "v", MSized (bytes "a.n") uint uint)] (doc_of "{'v':[5],'a.n':1}") = Err TagMemberNotFound /\
  from_json_mclass default_cfg true false [(bytes "v", MSized (bytes "a.n") uint uint)] (doc_of "{'v':[5],'a':{'n':1}}") = Ok x.
Proof. exists (VClass [VTuple [VInt 1; VArr [VInt 5]]]). split; vm_compute; reflexivity. Qed.
Print Assumptions C83_path_refuted.

(** C84: of a string that was skipped the quotes are lost, so that the text is
    not JSON; of null there is no text, or an error. *)
Theorem C84_quotes_refuted :
  with_raw "{'x':1,'r':'ab'}" = Ok (VClass [VInt 1; VStr (doc_of "'ab'")]) /\
  with_raw "{'r':'ab','x':1}" = Ok (VClass [VInt 1; VStr (bytes "ab")]) /\
  ~ exists v, jtext str_body v (bytes "ab").
Proof.
  split; [vm_compute; reflexivity|]. split; [vm_compute; reflexivity|]. intros (v & H). inversion H as [| | |n HJ| | | | |].
  inversion HJ as [sg i f e Hsg (Di & Ni & _) Hf He E]. destruct Hsg as [->| ->]; [|discriminate].
  destruct i as [|d i]; [congruence|]. injection E as -> _. inversion Di as [|? ? D]. unfold is_dig in D. lia.
Qed.
Print Assumptions C84_quotes_refuted.

Theorem C84_null_refuted :
  with_raw "{'x':1,'r':null }" = Ok (VClass [VInt 1; VStr []]) /\ (exists e, with_raw "{'r':null,'x':1}" = Err e).
Proof. split; [vm_compute; reflexivity|]. exists MemberNotFound. vm_compute. reflexivity. Qed.
Print Assumptions C84_null_refuted.

(** ** The theorems say something *)

Lemma typed_uint : forall ds z, forallb is_digb ds = true -> negb (match ds with [] => true | [_] => false | c :: _ => c =? 48 end) = true ->
  dec_val ds = z -> z < 2^32 -> typed (usable default_cfg) uint (JNum ds) (VInt (Z.of_N z)).
Proof.
  intros ds z H1 H2 <- L. exists ds. split; [reflexivity|]. split; [now apply canonical_of|]. split; [unfold int_size; auto|]. split; [exact L|reflexivity].
Qed.

Lemma object_compact : forall js, legal str_body (JObj js) -> object_document js (compact (JObj js)).
Proof. intros js H. exists [], (compact (JObj js)), [], []. split; [constructor|]. split; [now apply compact_jtext|]. split; [constructor|]. split; [auto|]. now rewrite !app_nil_r. Qed.

Definition jt : list (list N * jv) := [(bytes "v", num "15"); (bytes "a", num "1"); (bytes "tag", num "0")].
Definition jt' : list (list N * jv) := [(bytes "tag", num "0"); (bytes "v", num "15"); (bytes "a", num "1")].
Example C82_ex :
  from_json_mclass default_cfg true false [(bytes "v", variant); (bytes "a", MPlain uint)] (compact (JObj jt)) = Ok (VClass [VVariant 0 (VInt 15); VInt 1]) /\
  from_json_mclass default_cfg true false [(bytes "v", variant); (bytes "a", MPlain uint)] (compact (JObj jt')) = Ok (VClass [VVariant 0 (VInt 15); VInt 1]).
Proof.
  apply (C82_tag_anywhere_partial default_cfg) with (js := jt) (js' := jt'); try (apply is_bytes_of; reflexivity); try reflexivity.
  - covers.
  - intros m [<-|[]]. eexists. reflexivity.
  - split; [repeat constructor; cbn; intuition discriminate|]. split; [intros k [<-|[<-|[]]]; vm_compute; lia|]. split; [names|]. split; [discriminate|].
    constructor; [|constructor; [exact (typed_uint (bytes "1") 1 eq_refl eq_refl eq_refl eq_refl)|constructor]].
    exists (num "15"), (VInt 0), (VInt 15), uint. split; [reflexivity|]. split; [discriminate|]. split; [intros k [<-|[]]; vm_compute; lia|]. split; [names|]. split; [discriminate|].
    split; [exact (typed_uint (bytes "0") 0 eq_refl eq_refl eq_refl eq_refl)|]. split; [reflexivity|]. split; [exact (typed_uint (bytes "15") 15 eq_refl eq_refl eq_refl eq_refl)|].
    split; [reflexivity|]. right. intros a v b _ n IN. cbn in IN. destruct IN.
  - unfold jt, jt'. apply Permutation_sym. apply (Permutation_middle [_; _] []).
  - apply object_compact. vm_compute. legals.
  - apply object_compact. vm_compute. legals.
Qed.
Example C82_skipped_ex : with_variant false "{'v':[1,2],'a':1,'tag':2}" = Ok (VClass [VInt 1; VVariant 2 (VArr [VInt 1; VInt 2])]) /\
  with_variant true "{'a':1,'v':7}" = Err MemberNotFound.
Proof. split; vm_compute; reflexivity. Qed.

Definition jn1 : list (list N * jv) := [(bytes "v", JArr [num "5"]); (bytes "x", num "1"); (bytes "n", num "1")].
Definition jn2 : list (list N * jv) := [(bytes "n", num "1"); (bytes "v", JArr [num "5"]); (bytes "x", num "1")].
Example C83_ex :
  let mm := [(bytes "v", MSized (bytes "n") uint uint); (bytes "x", MPlain uint)] in
  from_json_mclass default_cfg true false mm (compact (JObj jn1)) = Ok (VClass [VTuple [VInt 1; VArr [VInt 5]]; VInt 1]) /\
  from_json_mclass default_cfg true false mm (compact (JObj jn2)) = Ok (VClass [VTuple [VInt 1; VArr [VInt 5]]; VInt 1]).
Proof.
  apply (C83_size_anywhere_partial default_cfg) with (js := jn1) (js' := jn2); try (apply is_bytes_of; reflexivity); try reflexivity.
  - covers.
  - intros m [<-|[]]. eexists. reflexivity.
  - intros k [<-|[]]; vm_compute; lia.
  - split; [repeat constructor; cbn; intuition discriminate|]. split; [intros k [<-|[<-|[]]]; vm_compute; lia|]. split; [names|]. split; [discriminate|].
    constructor; [|constructor; [exact (typed_uint (bytes "1") 1 eq_refl eq_refl eq_refl eq_refl)|constructor]].
    exists (JArr [num "5"]), (num "1"), 1%Z, [VInt 5]. split; [reflexivity|]. split; [split; [discriminate|repeat constructor; discriminate]|]. split; [reflexivity|].
    split; [exact (typed_uint (bytes "1") 1 eq_refl eq_refl eq_refl eq_refl)|].
    split; [eexists _, _; split; [reflexivity|]; split; [reflexivity|]; constructor; [exact (typed_uint (bytes "5") 5 eq_refl eq_refl eq_refl eq_refl)|constructor]|].
    split; [reflexivity|]. intros a v b _ n IN. cbn in IN. destruct IN.
  - unfold jn1, jn2. apply Permutation_sym. apply (Permutation_middle [_; _] []).
  - apply object_compact. vm_compute. legals.
  - apply object_compact. vm_compute. legals.
Qed.

Example C84_ex : with_raw "{'x':1,'r':[1, {'a' :null}] }" = Ok (VClass [VInt 1; VStr (doc_of "[1, {'a' :null}]")]) /\
  with_raw "{'r': -1.5e3 ,'x':1}" = Ok (VClass [VInt 1; VStr (doc_of "-1.5e3")]).
Proof. split; vm_compute; reflexivity. Qed.
