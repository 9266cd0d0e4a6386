(** C78 to C81: arrays of keys and values, custom types, variants and variants
    with an embedded tag. *)
From Coq Require Import String.
From Coq Require Import List NArith ZArith Bool Lia Arith Permutation ZifyBool ZifyNat ZifyN.
From Verif Require Import Base Mem SpecNum SpecText SpecJson SpecUnicode IntValueProofs SkipSafe HashModel ValueModel SerModel SpecTyped SpecSer
  TypedProofs AgreeProofs PropertiesTyped PropertiesSer PropertiesKind.
Import ListNotations.
Local Open Scope N_scope.

Section Reading.
  Context (g : cfg).
  Hypothesis HG : covered g.

  (** ** C78 *)

  (** Two members, in either order *)
  Definition pair_of (kn vn : list N) (e k v : jv) : Prop := e = JObj [(kn, k); (vn, v)] \/ e = JObj [(vn, v); (kn, k)].

  (** Full claim: every array of objects that have the key and the value gives the
      pairs.  Proved for arrays that are not empty, of objects with these two
      members in either order. *)
  Theorem C78_pairs_partial : forall verify exact kn tk vn tv (l : list (jv * jv * jv * val * val)) doc,
    is_bytes doc -> N.of_nat (length doc) < 2^32 -> kn <> vn -> usable g [kn; vn] kn -> usable g [kn; vn] vn -> l <> [] ->
    Forall (fun '(e, k, v, a, b) => pair_of kn vn e k v /\ typed (usable g) tk k a /\ typed (usable g) tv v b) l ->
    document (TKvArr exact kn tk vn tv) (JArr (map (fun '(e, _, _, _, _) => e) l)) doc ->
    from_json g verify (TKvArr exact kn tk vn tv) doc = Ok (VArr (map (fun '(_, _, _, a, b) => VClass [a; b]) l)).
  Proof.
    intros verify exact kn tk vn tv l doc HB H32 NK UK UV NE HF HD.
    eapply C29_parse_partial; eauto. cbn [typed]. eexists _, _. split; [reflexivity|]. split; [reflexivity|]. split; [exact NK|].
    split; [destruct l; [congruence|discriminate]|]. clear NE HD.
    assert (LK : forall k v, lookup kn [(kn, k); (vn, v)] = Some k /\ lookup vn [(kn, k); (vn, v)] = Some v /\
      lookup kn [(vn, v); (kn, k)] = Some k /\ lookup vn [(vn, v); (kn, k)] = Some v).
    { intros k v. cbn [lookup]. destruct (list_eq_dec N.eq_dec kn kn), (list_eq_dec N.eq_dec vn vn), (list_eq_dec N.eq_dec kn vn), (list_eq_dec N.eq_dec vn kn);
        try congruence. auto. }
    assert (NR : forall n1 n2 (v1 v2 : jv), n1 <> n2 -> no_repeat [kn; vn] [(n1, v1); (n2, v2)]).
    { intros n1 n2 v1 v2 ND k _. cbn [map fst count_occ]. destruct (list_eq_dec N.eq_dec n1 k), (list_eq_dec N.eq_dec n2 k); try lia; congruence. }
    induction HF as [|[[[[e k] v] a] b] l (PO & TK & TV) HF IH]; cbn [map]; constructor; [|exact IH].
    destruct (LK k v) as (L1 & L2 & L3 & L4).
    destruct PO as [-> | ->]; (eexists _, a, b; split; [reflexivity|]; split; [reflexivity|]; split; [apply NR; congruence|];
      split; [cbn [map fst]; repeat (apply Forall_cons || apply Forall_nil); assumption|]; split; [cbn [map fst In]; tauto|]).
    - rewrite L1, L2. auto.
    - rewrite L3, L4. auto.
  Qed.

  (** ** C79 *)

  (** The converter of a custom literal is given the text of the number, true or
      false. *)
  Theorem C79_literal_partial : forall verify v s doc, is_bytes doc -> N.of_nat (length doc) < 2^32 -> literal v s ->
    document (TCustom CuLiteral) v doc -> from_json g verify (TCustom CuLiteral) doc = Ok (VStr s).
  Proof. intros verify v s doc HB H32 HL HD. eapply C29_parse_partial; eauto. cbn [typed]. eauto. Qed.

  (** Full claim: of a string it is given what is between the quotes.  Proved for
      strings that are not empty and do not start with a bracket. *)
  Theorem C79_string_partial : forall verify c b doc, is_bytes doc -> N.of_nat (length doc) < 2^32 -> c <> 91 -> c <> 123 ->
    document (TCustom CuString) (JStr (c :: b)) doc -> from_json g verify (TCustom CuString) doc = Ok (VStr (c :: b)).
  Proof. intros verify c b doc HB H32 N1 N2 HD. eapply C29_parse_partial; eauto. cbn [typed]. exists (c :: b). split; [reflexivity|]. split; [reflexivity|]. exists c, b. auto. Qed.

  (** ** C80 *)

  (** The alternative of a kind: the first of them.  An alternative is for the
      kind of value its type is written as. *)
  Definition first_for (alts : list ty) (v : jv) (i : nat) (t : ty) : Prop :=
    nth_error alts i = Some t /\ meant_for t v = true /\ forall j u, (j < i)%nat -> nth_error alts j = Some u -> meant_for u v = false.

  Theorem C80_kind_partial : forall verify alts v i t y doc, is_bytes doc -> N.of_nat (length doc) < 2^32 ->
    first_for alts v i t -> typed (usable g) t v y -> document (TVariant alts) v doc ->
    from_json g verify (TVariant alts) doc = Ok (VVariant i y).
  Proof.
    intros verify alts v i t y doc HB H32 HF HT HD. eapply C29_parse_partial; eauto. cbn [typed]. exists i, y. split; [reflexivity|].
    clear HD. revert i HF. induction alts as [|a alts IH]; intros i (H1 & H2 & H3); [destruct i; discriminate|]. destruct i as [|i].
    - injection H1 as ->. auto.
    - split; [apply (H3 O a); [lia|reflexivity]|]. apply IH. split; [exact H1|]. split; [exact H2|]. intros j u L E. apply (H3 (S j) u); [lia|exact E].
  Qed.

  (** Without an alternative for the value there is an error. *)
  Theorem C80_no_alternative_partial : forall alts v tx buf p, is_bytes buf -> (first p + length tx <= last p)%nat -> (last p <= length buf)%nat ->
    isnull p = false -> jtext str_body v tx -> sub_at buf (first p) tx -> value_ends_at buf (first p + length tx) (last p) ->
    (forall t, In t alts -> meant_for t v = false) -> forall x, parse_value g (TVariant alts) false buf p <> Ok x.
  Proof.
    intros alts v tx buf p HB HL HLB HN HT HS HV NK. eapply C73_other_kind_partial; eauto.
    cbn [kind_fits]. clear - NK. induction alts as [|t alts IH]; [auto|]. rewrite (NK t) by now left. apply IH. intros t' IN. apply NK. now right.
  Qed.

  (** ** C81 *)

  (** The tag selects the alternative, wherever it stands among the members. *)
  Theorem C81_tag_anywhere_partial : forall verify tag t switch alts js js' i z doc doc',
    is_bytes doc -> N.of_nat (length doc) < 2^32 -> is_bytes doc' -> N.of_nat (length doc') < 2^32 ->
    (forall a, In a alts -> exists e mm, a = TClass e mm) ->
    typed (usable g) (TIntrusive false tag t switch alts) (JObj js) (VVariant i z) -> Permutation js js' ->
    document (TIntrusive false tag t switch alts) (JObj js) doc -> document (TIntrusive false tag t switch alts) (JObj js') doc' ->
    from_json g verify (TIntrusive false tag t switch alts) doc = Ok (VVariant i z) /\
    from_json g verify (TIntrusive false tag t switch alts) doc' = Ok (VVariant i z).
  Proof.
    intros verify tag t switch alts js js' i z doc doc' B L B' L' CL HT HP HD HD'.
    split; [eapply C29_parse_partial; eauto|]. eapply C29_parse_partial; eauto.
    cbn [typed] in *. destruct HT as (js0 & y & z0 & [= <-] & [= -> ->] & NR & FN & _ & T1 & T2).
    assert (NR' : no_repeat [tag] js') by now apply (no_repeat_perm _ js).
    exists js', y, z0. split; [reflexivity|]. split; [reflexivity|]. split; [exact NR'|]. split.
    { rewrite Forall_forall in *. intros k Hk. apply FN. eapply Permutation_in; [|exact Hk]. apply Permutation_map. now apply Permutation_sym. }
    split; [discriminate|]. split.
    { rewrite <- (lookup_perm [tag] js js' tag) by (auto; now left). exact T1. }
    clear HD HD' T1. revert T2. generalize (switch y). induction alts as [|a alts IH]; intros k T2; [destruct k; contradiction|]. destruct k as [|k].
    - destruct (CL a) as (e & mm & ->); [now left|]. eapply typed_agree; [exact T2|]. eapply agree_perm; eauto.
    - apply IH; [|exact T2]. intros b Hb. apply CL. now right.
  Qed.

  (** Without the tag there is an error. *)
  Theorem C81_no_tag_partial : forall exact tag t switch alts js known buf p tx, wf buf p -> N.of_nat (length buf) < 2^32 ->
    is_nullable t = false -> ~ In tag (map fst js) -> Forall (usable g [tag]) (map fst js) -> (exact = true -> js = []) ->
    jtext str_body (JObj js) tx -> sub_at buf (first p) tx -> (first p + length tx <= last p)%nat ->
    parse_value g (TIntrusive exact tag t switch alts) known buf p = Err MemberNotFound.
  Proof.
    intros exact tag t switch alts js known buf p tx HW H32 NN NI FN EX HT HS HL. cbn [parse_value]. unfold parse_value_variant_intrusive.
    pose proof (C26_missing_required_partial g HG exact [(tag, t)] js false buf p tx HW H32) as X. cbn [map fst snd parse_value] in X. rewrite X; auto.
    - constructor; [intros []|constructor].
    - intros k [<-|[]]. rewrite (proj1 (count_occ_not_In _ _ _)) by exact NI. lia.
    - intros E k Hk. rewrite (EX E) in Hk. destruct Hk.
    - apply lacking_here; [|exact NN]. clear - NI. induction js as [|[n v] js IH]; [reflexivity|]. cbn [lookup map fst In] in *.
      destruct (list_eq_dec N.eq_dec n tag) as [->|]; [exfalso; apply NI; now left|]. apply IH. tauto.
  Qed.
End Reading.
Print Assumptions C78_pairs_partial.
Print Assumptions C79_literal_partial.
Print Assumptions C79_string_partial.
Print Assumptions C80_kind_partial.
Print Assumptions C80_no_alternative_partial.
Print Assumptions C81_tag_anywhere_partial.
Print Assumptions C81_no_tag_partial.

(** ** Round trips *)

(** C78: arrays of pairs are read back, the empty one as well. *)
Theorem C78_round_trip_partial : forall g verify o exact kn tk vn tv l out, covered g -> o_trailing o = false -> layout o ->
  plain_name kn -> plain_name vn -> kn <> vn -> l <> [] -> Forall (fun ab => belongs tk (fst ab) /\ belongs tv (snd ab)) l ->
  to_json o (TKvArr exact kn tk vn tv) (VArr (map (fun ab => VClass [fst ab; snd ab]) l)) = Ok out -> N.of_nat (length out) < 2^32 ->
  from_json g verify (TKvArr exact kn tk vn tv) out = Ok (VArr (map (fun ab => VClass [fst ab; snd ab]) l)).
Proof.
  intros g verify o exact kn tk vn tv l out HG HT HL PK PV NK NE HF E H32. eapply C29_round_trip_partial; eauto. cbn [belongs].
  split; [exact PK|]. split; [exact PV|]. split; [exact NK|]. eexists. split; [reflexivity|]. split; [destruct l; [congruence|discriminate]|].
  clear E NE. induction HF as [|[a b] l [A B] HF IH]; cbn [map]; constructor; [|exact IH]. exists a, b. auto.
Qed.
Print Assumptions C78_round_trip_partial.

Theorem C78_empty_partial : forall g verify o exact kn tk vn tv,
  to_json o (TKvArr exact kn tk vn tv) (VArr []) = Ok [91; 93] /\
  from_json g verify (TKvArr exact kn tk vn tv) [91; 93] = Ok (VArr []).
Proof.
  intros. split; [|destruct verify; reflexivity].
  unfold to_json, to_json_string, to_json_string_kv_array, trailing. cbn [array_elems bind]. rewrite andb_false_r. reflexivity.
Qed.
Print Assumptions C78_empty_partial.

(** C79: what a custom type's converter writes is what it is given back: for
    literals every number, true and false, for strings every valid body that is
    not empty and does not start with a bracket. *)
Theorem C79_literal_round_trip_partial : forall g verify o s out, covered g -> o_trailing o = false -> layout o ->
  jnum s \/ s = bytes "true" \/ s = bytes "false" ->
  to_json o (TCustom CuLiteral) (VStr s) = Ok out -> N.of_nat (length out) < 2^32 -> from_json g verify (TCustom CuLiteral) out = Ok (VStr s).
Proof. intros g verify o s out HG HT HL HS E H32. eapply C29_round_trip_partial; eauto. cbn [belongs]. eauto. Qed.
Print Assumptions C79_literal_round_trip_partial.

Theorem C79_string_round_trip_partial : forall g verify o c s out, covered g -> o_trailing o = false -> layout o ->
  rfc_body (c :: s) -> is_bytes (c :: s) -> c <> 91 -> c <> 123 ->
  to_json o (TCustom CuString) (VStr (c :: s)) = Ok out -> N.of_nat (length out) < 2^32 -> from_json g verify (TCustom CuString) out = Ok (VStr (c :: s)).
Proof.
  intros g verify o c s out HG HT HL HS HB N1 N2 E H32. eapply C29_round_trip_partial; eauto. cbn [belongs]. exists (c :: s).
  split; [reflexivity|]. split; [exact HS|]. split; [exact HB|]. exists c, s. auto.
Qed.
Print Assumptions C79_string_round_trip_partial.

(** C80: a variant is read back as the alternative that was written, for
    alternatives that are told apart by their kind and are not null. *)
Theorem C80_round_trip_partial : forall g verify o alts i t y out, covered g -> o_trailing o = false -> layout o ->
  nth_error alts i = Some t -> alternative t = true -> belongs t y -> y <> VNone ->
  (forall j u v, (j < i)%nat -> nth_error alts j = Some u -> meant_for u v && meant_for t v = false) ->
  to_json o (TVariant alts) (VVariant i y) = Ok out -> N.of_nat (length out) < 2^32 -> from_json g verify (TVariant alts) out = Ok (VVariant i y).
Proof.
  intros g verify o alts i t y out HG HT HL HI HA HB NY HD E H32. eapply C29_round_trip_partial; eauto. cbn [belongs].
  exists i, y. split; [reflexivity|]. split; [exact NY|]. clear E. revert i HI HD. induction alts as [|a alts IH]; intros i HI HD; [destruct i; discriminate|].
  destruct i as [|i].
  - injection HI as ->. auto.
  - split.
    + intros v. rewrite (nth_error_nth alts i TBool HI). apply (HD O a v); [lia|reflexivity].
    + apply IH; [exact HI|]. intros j u v L F. apply (HD (S j) u v); [lia|exact F].
Qed.
Print Assumptions C80_round_trip_partial.

(** ** Counterexamples *)

Definition kv : ty := TKvArr false (bytes "key") TStr (bytes "value") uint.

(** C78: whitespace in the empty array is refused. *)
Theorem C78_space_refuted : (exists e, from_json default_cfg true kv (doc_of "[ ]") = Err e) /\
  from_json default_cfg true kv (doc_of "[]") = Ok (VArr []) /\
  from_json default_cfg true (TArr uint) (doc_of "[ ]") = Ok (VArr []).
Proof. split; [exists InvalidClassStart; vm_compute; reflexivity|]. split; vm_compute; reflexivity. Qed.
Print Assumptions C78_space_refuted.

(** C79: the empty string and strings that start with a bracket are written but
    refused when read. *)
Theorem C79_string_refuted :
  to_json minified (TCustom CuString) (VStr []) = Ok (doc_of "''") /\ (exists e, from_json default_cfg true (TCustom CuString) (doc_of "''") = Err e) /\
  to_json minified (TCustom CuString) (VStr (bytes "[1]")) = Ok (doc_of "'[1]'") /\
  (exists e, from_json default_cfg true (TCustom CuString) (doc_of "'[1]'") = Err e).
Proof.
  split; [vm_compute; reflexivity|]. split; [exists InvalidStartOfValue; vm_compute; reflexivity|].
  split; [vm_compute; reflexivity|]. exists InvalidStartOfValue. vm_compute. reflexivity.
Qed.
Print Assumptions C79_string_refuted.

(** The text of a string is not escaped. *)
Theorem C79_escape_refuted : to_json minified (TCustom CuString) (VStr (bytes "a""b")) = Ok (bytes """a""b""").
Proof. vm_compute. reflexivity. Qed.
Print Assumptions C79_escape_refuted.

(** A literal may be null according to its documentation; it is refused. *)
Theorem C79_null_refuted : exists e, from_json default_cfg true (TCustom CuLiteral) (bytes "null") = Err e.
Proof. exists UnexpectedEndOfData. vm_compute. reflexivity. Qed.
Print Assumptions C79_null_refuted.

(** A type that takes any value is given strings without the closing quote and no
    arrays and classes. *)
Theorem C79_any_refuted : from_json default_cfg true (TCustom CuAny) (doc_of "'a'") = Ok (VStr (doc_of "'a")) /\
  (exists e, from_json default_cfg true (TCustom CuAny) (doc_of "[1]") = Err e) /\
  (exists e, from_json default_cfg true (TCustom CuAny) (doc_of "{}") = Err e).
Proof.
  split; [vm_compute; reflexivity|]. split; exists InvalidStartOfValue; vm_compute; reflexivity.
Qed.
Print Assumptions C79_any_refuted.

(** What is accepted depends on the order of the members. *)
Theorem C79_order_refuted : 
  from_json default_cfg true (two (TCustom CuString)) (doc_of "{'b':12,'a':'x'}") = Ok (VClass [VStr (bytes "x"); VStr (bytes "12")]) /\
  (exists e, from_json default_cfg true (two (TCustom CuString)) (doc_of "{'a':'x','b':12}") = Err e).
Proof. split; [vm_compute; reflexivity|]. exists InvalidString. vm_compute. reflexivity. Qed.
Print Assumptions C79_order_refuted.

(** C80: the null of a nullable alternative is written and cannot be read. *)
Theorem C80_null_refuted : to_json minified (TVariant [uint; TNullable TBool]) (VVariant 1 VNone) = Ok (bytes "null") /\
  (exists e, from_json default_cfg true (TVariant [uint; TNullable TBool]) (bytes "null") = Err e).
Proof. split; [vm_compute; reflexivity|]. exists InvalidStartOfValue. vm_compute. reflexivity. Qed.
Print Assumptions C80_null_refuted.

(** A custom literal counts as a string, so it is written and cannot be read. *)
Theorem C80_literal_refuted : to_json minified (TVariant [TCustom CuLiteral; TArr uint]) (VVariant 0 (VStr (bytes "true"))) = Ok (bytes "true") /\
  from_json default_cfg true (TCustom CuLiteral) (bytes "true") = Ok (VStr (bytes "true")) /\
  (exists e, from_json default_cfg true (TVariant [TCustom CuLiteral; TArr uint]) (bytes "true") = Err e).
Proof. split; [vm_compute; reflexivity|]. split; [vm_compute; reflexivity|]. exists UnexpectedJSONVariantType. vm_compute. reflexivity. Qed.
Print Assumptions C80_literal_refuted.

(** C81: with exact mappings the tag may be the only member. *)
Definition tagged (exact : bool) : ty :=
  TIntrusive exact (bytes "t") uint (fun v => match v with VInt 0 => O | _ => 1%nat end)
    [TClass exact [(bytes "t", uint); (bytes "x", TBool)]; TClass exact [(bytes "t", uint); (bytes "x", TStr)]].

Theorem C81_exact_refuted :
  from_json default_cfg true (tagged false) (doc_of "{'t':1,'x':'s'}") = Ok (VVariant 1 (VClass [VInt 1; VStr (bytes "s")])) /\
  to_json minified (tagged true) (VVariant 1 (VClass [VInt 1; VStr (bytes "s")])) = Ok (doc_of "{'t':1,'x':'s'}") /\
  (exists e, from_json default_cfg true (tagged true) (doc_of "{'t':1,'x':'s'}") = Err e).
Proof. split; [vm_compute; reflexivity|]. split; [vm_compute; reflexivity|]. exists UnknownMember. vm_compute. reflexivity. Qed.
Print Assumptions C81_exact_refuted.

(** ** The theorems say something *)

Example C78_ex : from_json default_cfg true kv (doc_of "[{'key':'a','value':1}, {'value':2,'key':'b'}]") =
  Ok (VArr [VClass [VStr (bytes "a"); VInt 1]; VClass [VStr (bytes "b"); VInt 2]]).
Proof. vm_compute. reflexivity. Qed.

Example C79_ex : from_json default_cfg true (TCustom CuLiteral) (bytes "-1.5e3") = Ok (VStr (bytes "-1.5e3")) /\
  from_json default_cfg true (TCustom CuString) (doc_of "'2020'") = Ok (VStr (bytes "2020")).
Proof. split; vm_compute; reflexivity. Qed.

Example C80_ex : let t := TVariant [uint; TStr; TArr uint] in
  first_for [uint; TStr; TArr uint] (JArr [JNum (bytes "1")]) 2 (TArr uint) /\
  from_json default_cfg true t (doc_of "[1]") = Ok (VVariant 2 (VArr [VInt 1])) /\
  from_json default_cfg true (two t) (doc_of "{'b':'x','a':7}") = Ok (VClass [VVariant 0 (VInt 7); VVariant 1 (VStr (bytes "x"))]) /\
  (exists e, from_json default_cfg true t (bytes "true") = Err e).
Proof.
  split; [|split; [vm_compute; reflexivity|split; [vm_compute; reflexivity|exists UnexpectedJSONVariantType; vm_compute; reflexivity]]].
  split; [reflexivity|]. split; [reflexivity|]. intros [|[|j]] u L E; [injection E as <-; reflexivity|injection E as <-; reflexivity|lia].
Qed.

Example C81_ex : from_json default_cfg true (tagged false) (doc_of "{'x':true,'t':0}") = Ok (VVariant 0 (VClass [VInt 0; VBool true])) /\
  from_json default_cfg true (tagged false) (doc_of "{'t':0,'x':true}") = Ok (VVariant 0 (VClass [VInt 0; VBool true])) /\
  from_json default_cfg true (tagged false) (doc_of "{'x':true}") = Err MemberNotFound.
Proof. repeat split; vm_compute; reflexivity. Qed.
