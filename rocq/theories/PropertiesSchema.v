(** C97 to C100: the JSON Schema of a mapped type. *)
From Coq Require Import String.
From Coq Require Import List NArith ZArith QArith Bool Lia Arith ZifyBool ZifyNat ZifyN.
From Verif Require Import Base Mem SpecNum SpecText SpecJson SpecTokens SpecUnicode SpecTyped SpecCompact StrEncodeModel IntModel ValueModel HashModel TypedProofs PropertiesTyped PropertiesValue
  TypedSafe SerModel SpecSer SerProofs SerProofs2 UniqueProofs SpecSchema SchemaModel SchemaProofs SchemaProofs2 SchemaProofs3.
From Verif Require SpecReal.
Import ListNotations.
Local Open Scope N_scope.

Lemma has_keywords : forall t, no_members t = false -> keywords t <> [].
Proof.
  induction t using ty_nested; intros E; cbn [keywords no_members] in *; try discriminate; auto.
  destruct ms; discriminate.
Qed.

Lemma min_layout : layout minified.
Proof. split; cbn [o_indent o_newline minified]; unfold ws; repeat (constructor; [unfold json_ws; tauto|]); constructor. Qed.

(** ** C97 *)

(** Full claim: the schema of every mapped type is well formed JSON.  Proved when
    the identifier, the title and all names need no escapes, and the type is not a
    class without members.  With the option for 7 bit output they are ASCII. *)
Theorem C97_well_formed_partial : forall o t id title, layout o -> mapped (name_fits o) t -> no_members t = false -> name_fits o id -> name_fits o title ->
  exists out ms, to_json_schema o t id title = Ok out /\ jtext rfc_body (JObj ms) out.
Proof.
  intros o t id title HL HM HN HI HT. destruct (to_json_schema_text o HL t id title HM (has_keywords t HN) HI HT) as (out & E & G).
  exists out. unfold schema_doc in G. eauto.
Qed.
Print Assumptions C97_well_formed_partial.

(** A class of several kinds of members, and its schema *)
Definition person : ty := TClass false [(bytes "name", TStr); (bytes "age", TNullable (TUInt 8 true)); (bytes "tags", TArr (TVariant [TBool; TStr]))].
Lemma person_mapped : forall o, mapped (name_fits o) person.
Proof.
  intros o. unfold mapped, person. cbn [everywhere]. repeat (split; auto).
  - repeat constructor; cbn; intuition discriminate.
  - cbn [map fst]. repeat (constructor; [split; [apply plain_string_name; reflexivity|intros _; vm_compute; repeat constructor; intros X; discriminate X]|]). constructor.
Qed.
Example C97_run : to_json_schema minified person (bytes "urn:p") (bytes "Person") = Ok (doc_of
  "{'$schema':'https://json-schema.org/draft/2020-12/schema','$id':'urn:p','title':'Person','type':'object','properties':{'name':{'type':'string'},'age':{'type':'integer','minimum':0},'tags':{'type':'array','items':{'oneOf':[{'type':'boolean'},{'type':'string'}]}}},'required':['name','tags']}").
Proof. vm_compute. reflexivity. Qed.

(** An object does not end with a comma *)
Lemma not_object : forall t, run Before t = Some Before -> existsb (fun c => 32 <? c) t = true -> forall v, ~ jtext rfc_body v (123 :: t ++ [125]).
Proof.
  intros t E EW v H. inversion H as [| | |n HJ| | | |w HW EO|ms t' HM EO]; subst.
  - apply jnum_chars in HJ as [HF _]. inversion HF; subst. unfold numc in *. lia.
  - assert (w = t) by (apply app_inv_tail with (l := [125]); congruence). subst w. apply existsb_exists in EW as (c & HC & EC).
    unfold ws in HW. rewrite Forall_forall in HW. apply HW in HC. unfold json_ws in HC. lia.
  - assert (t' = t) by (apply app_inv_tail with (l := [125]); congruence). subst t'. apply json_tokens in HM. rewrite E in HM. destruct HM; discriminate.
Qed.

(** It does not hold for a class without members: a comma is left behind. *)
Theorem C97_empty_class_refuted : exists out, to_json_schema minified (TClass false []) (bytes "i") (bytes "T") = Ok out /\
  out = doc_of "{'$schema':'https://json-schema.org/draft/2020-12/schema','$id':'i','title':'T',}" /\ forall v, ~ jtext rfc_body v out.
Proof.
  eexists. split; [vm_compute; reflexivity|]. split; [reflexivity|].
  apply (not_object (doc_of "'$schema':'https://json-schema.org/draft/2020-12/schema','$id':'i','title':'T',")); vm_compute; reflexivity.
Qed.
Print Assumptions C97_empty_class_refuted.

(** It does not hold for a title with a quote: titles and identifiers are not
    escaped. *)
Theorem C97_title_refuted : exists out, to_json_schema minified TBool (bytes "i") (doc_of "a 'b'") = Ok out /\ forall v, ~ jtext rfc_body v out.
Proof. eexists. split; [vm_compute; reflexivity|]. apply not_json. vm_compute. reflexivity. Qed.
Print Assumptions C97_title_refuted.

(** The option for 7 bit output is kept for required names only. *)
Theorem C97_seven_bit_refuted : exists o out, o_7bit o = true /\
  to_json_schema o (TClass false [([195; 169], TNullable TBool)]) (bytes "i") (bytes "T") = Ok out /\ Exists (fun c => 127 < c) out /\
  to_json_schema o (TClass false [([195; 169], TBool)]) (bytes "i") (bytes "T") = Err InvalidStringHighASCII.
Proof.
  exists (mksopt false [] [] false true false). eexists. split; [reflexivity|]. split; [vm_compute; reflexivity|]. split; [|vm_compute; reflexivity].
  apply Exists_exists. exists 195. split; [|lia]. vm_compute. tauto.
Qed.
Print Assumptions C97_seven_bit_refuted.

(** ** C98 *)

(** Full claim: the schema follows draft 2020-12, which it names.  Proved for types
    without tuples, when no variant is without alternatives. *)
Theorem C98_conforms_partial : forall o t id title out s, layout o -> mapped (name_fits o) t -> no_members t = false -> name_fits o id -> name_fits o title ->
  no_tuples t -> to_json_schema o t id title = Ok out -> jtext rfc_body s out -> schema_2020 s.
Proof.
  intros o t id title out s HL HM HN HI HT NT E HS. destruct (to_json_schema_text o HL t id title HM (has_keywords t HN) HI HT) as (out' & E' & G).
  rewrite E in E'. injection E' as <-. rewrite (rfc_value _ _ _ HS G). eapply document_conforms; eauto.
Qed.
Print Assumptions C98_conforms_partial.

Example C98_run : no_tuples person /\ schema_2020 (schema_doc person [] []).
Proof.
  assert (H : no_tuples person) by (unfold no_tuples, person; cbn [everywhere]; repeat (split; auto); discriminate).
  split; [exact H|]. apply (document_conforms (name_fits minified)); [apply person_mapped|exact H].
Qed.

(** It does not hold for tuples: the draft has no array form of items. *)
Theorem C98_tuple_refuted : exists out s, to_json_schema minified (TTuple false [TBool; TStr]) (bytes "i") (bytes "T") = Ok out /\ jtext rfc_body s out /\ ~ schema_2020 s.
Proof.
  destruct (to_json_schema_text minified min_layout (TTuple false [TBool; TStr]) (bytes "i") (bytes "T")) as (out & E & G).
  - unfold mapped. cbn [everywhere]. auto.
  - discriminate.
  - split; [apply plain_string_name; reflexivity|discriminate].
  - split; [apply plain_string_name; reflexivity|discriminate].
  - exists out. eexists. split; [exact E|]. split; [exact G|]. intros (_ & _ & _ & _ & _ & H & _). exact H.
Qed.
Print Assumptions C98_tuple_refuted.

(** ** C99 *)

Lemma valid_doc : forall t id title v, valid (schema_doc t id title) v <-> valid (JObj (keywords t)) v.
Proof. intros t id title v. unfold schema_doc. split; [intros (_ & _ & _ & H); exact H|intros H; split; [exact I|split; [exact I|split; [exact I|exact H]]]]. Qed.

(** The value a text stands for is known *)
Lemma doc_value : forall o t id title st s, layout o -> mapped (name_fits o) t -> no_members t = false -> name_fits o id -> name_fits o title ->
  to_json_schema o t id title = Ok st -> jtext rfc_body s st -> s = schema_doc t id title.
Proof.
  intros o t id title st s HL HM HN HI HT E HS. destruct (to_json_schema_text o HL t id title HM (has_keywords t HN) HI HT) as (st' & E' & G).
  rewrite E in E'. injection E' as <-. exact (rfc_value _ _ _ HS G).
Qed.

Lemma mapped_any : forall (P Q : list N -> Prop) t, (forall k, P k -> Q k) -> mapped P t -> mapped Q t.
Proof.
  intros P Q t HPQ. unfold mapped. induction t using ty_nested; intros HM; pose proof HM as HM0; cbn [everywhere] in HM |- *; destruct HM as [HH HM]; split; auto.
  - destruct HH as [ND HF]. split; [exact ND|]. eapply Forall_impl; [|exact HF]. exact HPQ.
  - apply everywhere_class in HM0. clear - H HM0. induction ms as [|[k t] ms IH]; [exact I|]. inversion H; inversion HM0; subst. cbn [snd] in *. split; [auto|]. apply IH; auto.
  - apply everywhere_all in HM. clear - H HM. induction ts as [|t ts IH]; [exact I|]. inversion H; inversion HM; subst. split; [auto|]. apply IH; auto.
  - destruct HH as (A & B & C). auto.
  - destruct HM. auto.
  - apply everywhere_all in HM. clear - H HM. induction ts as [|t ts IH]; [exact I|]. inversion H; inversion HM; subst. split; [auto|]. apply IH; auto.
  - apply everywhere_all in HM. clear - H HM. induction ts as [|t' ts IH]; [exact I|]. inversion H; inversion HM; subst. split; [auto|]. apply IH; auto.
Qed.

(** Full claim: what to_json writes is valid against the schema of the type.
    Proved for texts without null, when the schema can tell the alternatives of
    variants apart; tuples are taken as the drafts before 2020-12 have it. *)
Theorem C99_valid_partial : forall o o' t id title x st out s v, layout o -> mapped (name_fits o) t -> no_members t = false -> name_fits o id -> name_fits o title ->
  layout o' -> o_trailing o' = false -> belongs t x -> apart t ->
  to_json_schema o t id title = Ok st -> to_json o' t x = Ok out -> jtext rfc_body s st -> jtext rfc_body v out -> null_free v -> valid s v.
Proof.
  intros o o' t id title x st out s v HL HM HN HI HT HL' HTr HB HA E E' HS HV NF. rewrite (doc_value o t id title st s); auto.
  destruct (to_json_good o' HTr HL' t 0 x HB) as (out' & E2 & G & _). unfold to_json in E'. rewrite E' in E2. injection E2 as <-.
  rewrite (rfc_value _ _ _ HV G) in *. apply valid_doc. apply written_valid; auto. eapply mapped_any; [|exact HM]. auto.
Qed.
Print Assumptions C99_valid_partial.

Example C99_run : exists x, belongs person x /\ apart person /\ to_json minified person x = Ok (doc_of "{'name':'a','tags':[true,'b']}") /\
  null_free (tree false false person x).
Proof.
  exists (VClass [VStr (bytes "a"); VNone; VArr [VVariant 0 (VBool true); VVariant 1 (VStr (bytes "b"))]]). split; [|split; [|split; [vm_compute; reflexivity|vm_compute; auto]]].
  - unfold person. cbn [belongs]. split; [repeat constructor; cbn; intuition discriminate|]. split.
    { cbn [map fst]. repeat (constructor; [apply plain_string_name; reflexivity|]). constructor. }
    eexists. split; [reflexivity|]. split.
    { eexists. split; [reflexivity|]. exists [97]. split; [repeat constructor; unfold scalar; lia|reflexivity]. }
    split; [split; [reflexivity|now left]|]. split; [|exact I]. eexists. split; [reflexivity|]. constructor; [|constructor; [|constructor]].
    + exists 0%nat, (VBool true). split; [reflexivity|]. split; [discriminate|]. split; [reflexivity|]. eauto.
    + exists 1%nat, (VStr (bytes "b")). split; [reflexivity|]. split; [discriminate|]. split; [intros v; destruct v; reflexivity|]. split; [reflexivity|].
      eexists. split; [reflexivity|]. exists [98]. split; [repeat constructor; unfold scalar; lia|reflexivity].
  - unfold apart, person. cbn [everywhere]. repeat (split; auto). intros i j t1 t2 E1 E2 NE.
    destruct i as [|[|i]]; cbn in E1; try (destruct i; discriminate); injection E1 as <-; destruct j as [|[|j]]; cbn in E2; try (destruct j; discriminate); injection E2 as <-; try congruence;
      left; (split; [reflexivity|]); (split; [reflexivity|]); intros v; destruct v; reflexivity.
Qed.

(** It does not hold for optional elements, whose absence is written as null. *)
Theorem C99_null_refuted : exists t x out, belongs t x /\ to_json minified t x = Ok out /\ out = bytes "[null]" /\
  forall v, jtext rfc_body v out -> ~ valid (schema_doc t (bytes "i") (bytes "T")) v.
Proof.
  exists (TArr (TNullable TBool)), (VArr [VNone]), (bytes "[null]"). split; [|split; [vm_compute; reflexivity|split; [reflexivity|]]].
  - eexists. split; [reflexivity|]. repeat constructor.
  - intros v HV. assert (G : jtext rfc_body (JArr [JNull]) (bytes "[null]")) by (apply (t_arr rfc_body [JNull] (bytes "null")); apply (e_one rfc_body [] JNull (bytes "null") []); constructor).
    rewrite (rfc_value _ _ _ HV G). rewrite valid_doc. cbn [keywords]. intros H. apply valid_array in H as (es & E & H). injection E as <-. inversion H; subst.
    apply valid_type in H2. discriminate H2.
Qed.
Print Assumptions C99_null_refuted.

(** It does not hold for variants with an embedded tag: what the tag selects is not
    in the schema. *)
Definition shape_switch (x : val) : nat := match x with VInt 0 => 0%nat | _ => 1%nat end.
Definition shape : ty := TIntrusive false (bytes "k") (TUInt 8 true) shape_switch
  [TClass false [(bytes "k", TUInt 8 true); (bytes "w", TUInt 8 true)]; TClass false [(bytes "k", TUInt 8 true); (bytes "w", TUInt 8 true)]].
Lemma small_num : forall d, is_dig d -> jnum [d].
Proof. intros d H. apply (jn [] [d] [] []); [auto| |constructor|constructor]. split; [repeat constructor; apply H|split; [discriminate|]]. intros r E. now injection E. Qed.
Theorem C99_tag_refuted : exists x out v, belongs shape x /\ to_json minified shape x = Ok out /\ out = doc_of "{'k':1,'w':5}" /\ jtext rfc_body v out /\
  null_free v /\ ~ valid (schema_doc shape (bytes "i") (bytes "T")) v.
Proof.
  exists (VVariant 1 (VClass [VInt 1; VInt 5])), (doc_of "{'k':1,'w':5}"), (JObj [(bytes "k", JNum [49]); (bytes "w", JNum [53])]).
  assert (B : belongs shape (VVariant 1 (VClass [VInt 1; VInt 5]))).
  { unfold shape. cbn [belongs]. exists 1%nat. eexists. split; [reflexivity|]. split.
    - split; [repeat constructor; cbn; intuition discriminate|]. split; [cbn [map fst]; repeat (constructor; [apply plain_string_name; reflexivity|]); constructor|].
      eexists. split; [reflexivity|]. split; [split; [now left|eexists; split; [reflexivity|lia]]|]. split; [split; [now left|eexists; split; [reflexivity|lia]]|exact I].
    - exists false, [], [(bytes "w", TUInt 8 true)], [], (VInt 1), [VInt 5]. split; [reflexivity|]. split; [reflexivity|]. split; [reflexivity|]. split; [reflexivity|].
      split; [|discriminate]. cbn [app map fst]. constructor; [vm_compute; discriminate|constructor]. }
  split; [exact B|]. split; [vm_compute; reflexivity|]. split; [reflexivity|].
  assert (J : jtext rfc_body (JObj [(bytes "k", JNum [49]); (bytes "w", JNum [53])]) (doc_of "{'k':1,'w':5}")).
  { destruct (to_json_good minified eq_refl min_layout shape 0 _ B) as (out & E & G & _).
    assert (EO : to_json_string minified shape 0 (VVariant 1 (VClass [VInt 1; VInt 5])) = Ok (doc_of "{'k':1,'w':5}")) by (vm_compute; reflexivity).
    rewrite EO in E. injection E as <-. exact G. }
  split; [exact J|]. split; [vm_compute; auto|]. rewrite valid_doc. unfold shape. cbn [keywords]. intros H. apply valid_oneof in H.
  assert (V : valid (JObj (keywords (TClass false [(bytes "k", TUInt 8 true); (bytes "w", TUInt 8 true)]))) (JObj [(bytes "k", JNum [49]); (bytes "w", JNum [53])])).
  { apply (written_valid false false (TClass false [(bytes "k", TUInt 8 true); (bytes "w", TUInt 8 true)]) (VClass [VInt 1; VInt 5])).
    - destruct B as (i & z & E & B). injection E as <- <-. exact (proj1 B).
    - unfold mapped. cbn [everywhere]. split; [|auto]. split; [repeat constructor; cbn; intuition discriminate|]. repeat constructor.
    - unfold apart. cbn [everywhere]. auto 10.
    - vm_compute. auto. }
  change (keywords (TClass false [(bytes "k", TUInt 8 true); (bytes "w", TUInt 8 true)])) with
    (class_keywords [(bytes "k", (false, JObj (keywords (TUInt 8 true)))); (bytes "w", (false, JObj (keywords (TUInt 8 true))))]) in V.
  cbn [map exactly_valid] in H. destruct H as [(_ & [(_ & H)|(H & _)])|(H & _)]; [discriminate H|exact (H V)|exact (H V)].
Qed.
Print Assumptions C99_tag_refuted.

(** ** C100 *)

(** Full claim: a document that is valid against the schema of a type can be read
    at that type.  Proved for the types [open] allows, when the numbers of the
    document are small integers without fraction and exponent, its strings and
    names can be decoded, and the names of an object are distinct and told apart
    by their hashes. *)
Theorem C100_read_partial : forall g verify o t id title st s b nl v doc, covered g -> layout o -> mapped (name_fits o) t -> no_members t = false -> name_fits o id -> name_fits o title ->
  to_json_schema o t id title = Ok st -> jtext rfc_body s st -> valid s v ->
  open b nl t -> made_of (small_int b) good_string (good_names (usable g) nl) v ->
  is_bytes doc -> N.of_nat (length doc) < 2^32 -> document t v doc -> exists x, from_json g verify t doc = Ok x.
Proof.
  intros g verify o t id title st s b nl v doc HG HL HM HN HI HT E HS HV HO HMv HB H32 HD. rewrite (doc_value o t id title st s) in HV by auto. apply valid_doc in HV.
  destruct (valid_typed (usable g) b nl t v HO HV HMv) as (x & HX). exists x. eapply C29_parse_partial; eauto.
Qed.
Print Assumptions C100_read_partial.

Definition point : ty := TClass false [(bytes "x", TInt 32 true); (bytes "y", TNullable (TUInt 16 true))].
Example C100_run : open 100 [map fst [(bytes "x", TInt 32 true); (bytes "y", TNullable (TUInt 16 true))]] point /\
  (let v := JObj [(bytes "z", JTrue); (bytes "x", JNum (bytes "-5"))] in
   valid (schema_doc point [] []) v /\
   made_of (small_int 100) good_string (good_names (usable default_cfg) [map fst [(bytes "x", TInt 32 true); (bytes "y", TNullable (TUInt 16 true))]]) v) /\
  from_json default_cfg true point (doc_of "{'z':true,'x':-5}") = Ok (VClass [VInt (-5); VNone]).
Proof.
  assert (M5 : canonical_int (-5) (bytes "-5")).
  { unfold canonical_int. cbn [Z.ltb Z.compare]. exists [53]. split; [reflexivity|]. split; [|reflexivity]. split; [repeat constructor; unfold is_dig; lia|]. split; [discriminate|]. intros r E. discriminate. }
  split; [|split; [split|vm_compute; reflexivity]].
  - unfold open, point. cbn [everywhere]. split; [split; [reflexivity|split; [discriminate|split; [repeat constructor; cbn; intuition discriminate|now left]]]|].
    split; [split; [split; [unfold int_size; tauto|cbn; lia]|exact I]|]. split; [|exact I]. split; [exact I|]. split; [split; [unfold int_size; tauto|cbn; lia]|exact I].
  - apply valid_doc. unfold point. cbn [keywords]. apply valid_class; [discriminate|]. eexists. split; [reflexivity|]. split.
    + intros s [<-|[<-|[]]] e HI; cbn [fst snd] in *; destruct HI as [E|[E|[]]]; try discriminate E. injection E as <-.
      apply valid_type. right. split; [reflexivity|]. destruct (canonical_int_denotes _ _ M5) as (q & D & Q). exists q, (-5)%Z. auto.
    + intros s [<-|[<-|[]]] E; try discriminate E. cbn [map fst In]. auto.
  - assert (PN : forall k, plain_string k = true -> denotes (bytes k) (bytes k)).
    { intros k H. apply plain_string_name in H. unfold plain_name in H. induction H as [|c r (H1 & H2 & H3) HF IH]; constructor; auto; lia. }
    cbn [made_of map fst]. split; [|split; [exact I|split; [|exact I]]].
    + split; [repeat constructor; cbn; intuition discriminate|]. split; [constructor; [eexists; now apply (PN "z"%string)|constructor; [eexists; now apply (PN "x"%string)|constructor]]|].
      intros names [<-|[]]. constructor; [|constructor; [|constructor]].
      * split; [vm_compute; repeat constructor; vm_compute; intuition discriminate|]. right. intros nm [<-|[<-|[]]]; vm_compute; discriminate.
      * split; [vm_compute; repeat constructor; vm_compute; intuition discriminate|]. right. intros nm [<-|[<-|[]]]; vm_compute; [reflexivity|discriminate].
    + exists (-5)%Z. split; [exact M5|lia].
Qed.

(** It does not hold for integers that are out of range: the schema has no
    maximum. *)
Theorem C100_range_refuted : exists n, valid (schema_doc (TUInt 8 true) [] []) (JNum n) /\ jtext rfc_body (JNum n) n /\
  from_json default_cfg true (TUInt 8 true) n = Err NumberOutOfRange.
Proof.
  assert (C : canonical_int 300 (bytes "300")).
  { change (bytes "300") with [51; 48; 48]. split; [|reflexivity]. split; [repeat constructor; unfold is_dig; lia|]. split; [discriminate|]. intros r E. discriminate. }
  assert (Z0 : canonical_int 0 [48]) by (split; [|reflexivity]; split; [repeat constructor; unfold is_dig; lia|]; split; [discriminate|]; intros r E; now injection E).
  exists (bytes "300"). split; [|split; [|vm_compute; reflexivity]].
  - apply valid_doc. apply valid_unsigned. destruct (canonical_int_denotes _ _ C) as (q & D & Q). destruct (canonical_int_denotes _ _ Z0) as (q0 & D0 & Q0). split.
    + right. split; [reflexivity|]. exists q, 300%Z. auto.
    + exists q0, q. split; [exact D0|]. split; [exact D|]. rewrite Q, Q0. rewrite <- Zle_Qle. lia.
  - apply t_num. now apply canonical_int_jnum with (z := 300%Z).
Qed.
Print Assumptions C100_range_refuted.

(** It does not hold for integers with a fraction of zero, which the drafts have
    been taking as integers since 2017. *)
Theorem C100_fraction_refuted : exists n, valid (schema_doc (TInt 32 true) [] []) (JNum n) /\ jtext rfc_body (JNum n) n /\ n = bytes "1.0" /\
  from_json default_cfg true (TInt 32 true) n = Err InvalidEndOfValue.
Proof.
  exists (bytes "1.0"). assert (D1 : forall d, d = 48 \/ d = 49 -> digits [d]) by (intros d H; repeat constructor; unfold is_dig; lia).
  split; [|split; [|split; [reflexivity|vm_compute; reflexivity]]].
  - apply valid_doc. apply valid_type. right. split; [reflexivity|]. eexists. exists 1%Z. split.
    + apply (SpecReal.den [] [49] [46; 48] [] 0%Z); [auto| |now constructor; [apply D1; auto|]|constructor]. split; [apply D1; auto|]. split; [discriminate|]. intros r E. discriminate.
    + reflexivity.
  - apply t_num. apply (jn [] [49] [46; 48] []); [auto| |now constructor; [apply D1; auto|]|constructor]. split; [apply D1; auto|]. split; [discriminate|]. intros r E. discriminate.
Qed.
Print Assumptions C100_fraction_refuted.

(** It does not hold for classes whose unknown members are an error: the schema
    does not forbid other members. *)
Theorem C100_exact_refuted : exists t v doc, valid (schema_doc t [] []) v /\ jtext rfc_body v doc /\ doc = doc_of "{'a':true,'b':true}" /\
  from_json default_cfg true t doc = Err UnknownMember.
Proof.
  exists (TClass true [(bytes "a", TBool)]), (JObj [(bytes "a", JTrue); (bytes "b", JTrue)]). eexists. split; [|split; [|split; [reflexivity|vm_compute; reflexivity]]].
  - apply valid_doc. cbn [keywords]. apply valid_class; [discriminate|]. eexists. split; [reflexivity|]. split.
    + intros s [<-|[]] e [E|[E|[]]]; [|discriminate E]. injection E as <-. now apply valid_type.
    + intros s [<-|[]] _. now left.
  - apply (t_obj rfc_body [(bytes "a", JTrue); (bytes "b", JTrue)] (doc_of "'a':true,'b':true")).
    assert (N : forall s, plain_string s = true -> rfc_body (bytes s)) by (intros k HK; now apply plain_name_rfc, plain_string_name).
    apply (m_cons rfc_body [] (bytes "a") [] [] JTrue (bytes "true") [] [(bytes "b", JTrue)] (doc_of "'b':true")); try exact (Forall_nil _); [now apply (N "a"%string)|constructor|].
    apply (m_one rfc_body [] (bytes "b") [] [] JTrue (bytes "true") []); try exact (Forall_nil _); [now apply (N "b"%string)|constructor].
Qed.
Print Assumptions C100_exact_refuted.

(** It does not hold for tuples: the schema does not ask for all elements. *)
Theorem C100_tuple_refuted : exists t v doc, valid (schema_doc t [] []) v /\ jtext rfc_body v doc /\ doc = bytes "[true]" /\
  from_json default_cfg true t doc = Err InvalidLiteral.
Proof.
  exists (TTuple false [TBool; TBool]), (JArr [JTrue]). eexists. split; [|split; [|split; [reflexivity|vm_compute; reflexivity]]].
  - apply valid_doc. cbn [keywords map]. apply valid_tuple. eexists. split; [reflexivity|]. split; [now apply valid_type|exact I].
  - apply (t_arr rfc_body [JTrue] (bytes "true")). apply (e_one rfc_body [] JTrue (bytes "true") []); constructor.
Qed.
Print Assumptions C100_tuple_refuted.

(** It does not hold for variants with an embedded tag: the tag and the alternative
    need not go together. *)
Definition shape2 : ty := TIntrusive false (bytes "k") (TUInt 8 true) shape_switch
  [TClass false [(bytes "k", TUInt 8 true); (bytes "w", TBool)]; TClass false [(bytes "k", TUInt 8 true); (bytes "h", TBool)]].
Theorem C100_tag_refuted : exists v doc, valid (schema_doc shape2 [] []) v /\ jtext rfc_body v doc /\ doc = doc_of "{'k':0,'h':true}" /\
  from_json default_cfg true shape2 doc = Err MemberNotFound.
Proof.
  exists (JObj [(bytes "k", JNum [48]); (bytes "h", JTrue)]). eexists. split; [|split; [|split; [reflexivity|vm_compute; reflexivity]]].
  - assert (Z0 : canonical_int 0 [48]) by (split; [|reflexivity]; split; [repeat constructor; unfold is_dig; lia|]; split; [discriminate|]; intros r E; now injection E).
    apply valid_doc. unfold shape2. cbn [keywords]. apply valid_oneof. apply exactly_one with (i := 1%nat) (s := JObj (keywords (TClass false [(bytes "k", TUInt 8 true); (bytes "h", TBool)]))).
    + reflexivity.
    + cbn [keywords]. apply valid_class; [discriminate|]. eexists. split; [reflexivity|]. split.
      * intros s [<-|[<-|[]]] e [E|[E|[]]]; try discriminate E; injection E as <-; cbn [fst snd keywords]; [|now apply valid_type].
        apply valid_unsigned. destruct (canonical_int_denotes _ _ Z0) as (q0 & D0 & Q0). split; [right; split; [reflexivity|exists q0, 0%Z; auto]|].
        exists q0, q0. split; [exact D0|]. split; [exact D0|]. apply Qle_refl.
      * intros s [<-|[<-|[]]] _; cbn; auto.
    + intros j s' E NE. destruct j as [|[|j]]; [|lia|destruct j; discriminate].
      assert (E' : s' = JObj (keywords (TClass false [(bytes "k", TUInt 8 true); (bytes "w", TBool)]))) by (cbn [map nth_error] in E; congruence). subst s'. clear E. cbn [keywords]. intros H.
      apply valid_class in H; [|discriminate]. destruct H as (js & E & _ & H). injection E as <-.
      specialize (H _ (or_intror (or_introl eq_refl)) eq_refl). cbn in H. destruct H as [H|[H|[]]]; discriminate H.
  - assert (N : forall s, plain_string s = true -> rfc_body (bytes s)) by (intros k HK; now apply plain_name_rfc, plain_string_name).
    apply (t_obj rfc_body [(bytes "k", JNum [48]); (bytes "h", JTrue)] (doc_of "'k':0,'h':true")).
    apply (m_cons rfc_body [] (bytes "k") [] [] (JNum [48]) [48] [] [(bytes "h", JTrue)] (doc_of "'h':true")); try exact (Forall_nil _); [now apply (N "k"%string)| |].
    + apply t_num, small_num. unfold is_dig. lia.
    + apply (m_one rfc_body [] (bytes "h") [] [] JTrue (bytes "true") []); try exact (Forall_nil _); [now apply (N "h"%string)|constructor].
Qed.
Print Assumptions C100_tag_refuted.
