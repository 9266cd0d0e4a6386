(** C107: the execution modes (docs/cookbook/parser_policies.md: ExecModeTypes). *)
From Coq Require Import String.
From Coq Require Import List NArith ZArith Bool Lia Arith ZifyBool ZifyNat ZifyN.
From Verif Require Import Base Mem Loop PolicyModel StrScanModel SkipModel HashModel SpecNum SpecText SpecJson SpecCompact SpecUnicode ValueModel SpecTyped
  StrScanProofs NameProofs ClassProofs TypedProofs PropertiesValue PropertiesTyped SerModel SpecSer SerProofs SerProofs2 PropertiesSer ExecProofs.
Import ListNotations.
Local Open Scope N_scope.

(** ** C107 *)

(** The same options, and another execution mode *)
Definition in_mode (m : exec_mode) (g : cfg) : cfg := mkcfg m (c_excl g) (c_force g) (c_escnames g).

(** Full claim: [from_json (in_mode m g) verify t doc = from_json g verify t doc] for
    all documents and types.  It fails, below.  Partial: the documents that mean a
    value at the type (as in C29), without any backslash. *)
Theorem C107_reads_partial : forall g m verify t v x doc, covered g -> is_bytes doc -> N.of_nat (length doc) < 2^32 -> ~ In 92 doc ->
  document t v doc -> typed (usable g) t v x -> from_json (in_mode m g) verify t doc = Ok x.
Proof.
  intros g m verify t v x doc [HX HE] HB HL NB HD HT. apply (from_json_mode_typed g HX HE (usable g)) with (v := v); auto.
Qed.
Print Assumptions C107_reads_partial.

Theorem C107_no_difference_partial : forall g m1 m2 verify t v x doc, covered g -> is_bytes doc -> N.of_nat (length doc) < 2^32 -> ~ In 92 doc ->
  document t v doc -> typed (usable g) t v x -> from_json (in_mode m1 g) verify t doc = from_json (in_mode m2 g) verify t doc.
Proof.
  intros g m1 m2 verify t v x doc HG HB HL NB HD HT.
  rewrite (C107_reads_partial g m1 verify t v x doc), (C107_reads_partial g m2 verify t v x doc); auto.
Qed.
Print Assumptions C107_no_difference_partial.

(** Types without strings: any document without a backslash that is read in the mode for
    constant evaluation, complete or not, with members of other kinds or not. *)
Theorem C107_without_strings_partial : forall g m verify t x doc, covered g -> is_bytes doc -> N.of_nat (length doc) < 2^32 -> ~ In 92 doc ->
  no_strings t = true -> from_json g verify t doc = Ok x -> from_json (in_mode m g) verify t doc = Ok x.
Proof. intros g m verify t x doc [HX HE] HB HL NB NS E. now apply (from_json_mode_any doc m g). Qed.
Print Assumptions C107_without_strings_partial.

(** What is written is read back in every mode. *)
Theorem C107_round_trip_partial : forall g m verify o t x out, covered g -> o_trailing o = false -> layout o -> belongs t x ->
  to_json o t x = Ok out -> N.of_nat (length out) < 2^32 -> ~ In 92 out -> from_json (in_mode m g) verify t out = Ok x.
Proof.
  intros g m verify o t x out HG HT HL HB E H32 NB. destruct (to_json_good o HT HL t 0 x HB) as (out' & E' & G1 & G2 & _).
  unfold to_json in E. assert (out' = out) by congruence. subst out'.
  apply (C107_reads_partial g m verify t (tree (o_errutf8 o) (o_7bit o) t x) x out); auto; [|now apply typed_tree].
  exists [], out, [], []. split; [constructor|]. split; [reflexivity|]. split; [|split; [constructor|split; [now left|now rewrite app_nil_r]]].
  eapply (proj1 (jtext_weaken rfc_body str_body rfc_str_body)); eauto.
Qed.
Print Assumptions C107_round_trip_partial.

(** ** It says something *)

Definition rt_cfg : cfg := in_mode ExRuntime default_cfg.
Definition simd_cfg : cfg := in_mode ExSimd default_cfg.

(** Members out of order, an unmapped one with brackets and quotes, a long string *)
Definition person : ty := TClass false [(bytes "id", uint); (bytes "name", TStr); (bytes "tags", TArr TStr); (bytes "on", TNullable TBool)].
Definition person_doc : list N := doc_of "{'name':'a rather long name, longer than a block','x':[{'y':']}'}],'tags':['p','q'],'id':7}".
Definition person_js : list (list N * jv) :=
  [(bytes "name", JStr (bytes "a rather long name, longer than a block"));
   (bytes "x", JArr [JObj [(bytes "y", JStr (bytes "]}"))]]);
   (bytes "tags", JArr [JStr (bytes "p"); JStr (bytes "q")]); (bytes "id", num "7")].
Definition person_v : val := VClass [VInt 7; VStr (bytes "a rather long name, longer than a block"); VArr [VStr (bytes "p"); VStr (bytes "q")]; VNone].

Lemma den_plain : forall s, forallb (fun c => negb (c =? 34) && negb (c =? 92)) s = true -> SpecUnicode.denotes s s.
Proof.
  induction s as [|c s IH]; intros H; [apply dn_nil|]. cbn [forallb] in H. apply andb_true_iff in H as [H1 H2]. apply dn_plain; [lia|lia|auto].
Qed.

Lemma typed_person : typed (usable default_cfg) person (JObj person_js) person_v.
Proof.
  exists person_js. eexists. split; [reflexivity|]. split; [reflexivity|]. split.
  - repeat constructor; cbn; intuition discriminate.
  - split; [|split; [names|split; [discriminate|]]].
    + intros k [<-|[<-|[<-|[<-|[]]]]]; vm_compute; lia.
    + cbn. split; [|split; [|split; [|split; [|exact I]]]].
      * exists (bytes "7"). split; [reflexivity|]. split; [now apply canonical_of|]. split; [unfold int_size; auto|]. split; reflexivity.
      * eexists _, _. split; [reflexivity|]. split; [|reflexivity]. apply den_plain. reflexivity.
      * eexists _, _. split; [reflexivity|]. split; [reflexivity|]. repeat constructor; eexists _, _; (split; [reflexivity|split; [|reflexivity]]); apply den_plain; reflexivity.
      * split; reflexivity.
Qed.

Example C107_ex : from_json rt_cfg true person person_doc = Ok person_v /\ from_json simd_cfg true person person_doc = Ok person_v.
Proof.
  replace person_doc with (compact (JObj person_js)) by reflexivity.
  split; [apply (C107_reads_partial default_cfg ExRuntime true person (JObj person_js))|apply (C107_reads_partial default_cfg ExSimd true person (JObj person_js))];
    try (apply is_bytes_of; reflexivity); try reflexivity; try covers; try (apply compact_doc; vm_compute; legals); try exact typed_person;
    (intros H; apply (in_map (N.eqb 92)) in H; vm_compute in H; repeat (destruct H as [H|H]; [discriminate H|]); exact H).
Qed.

(** A document that is followed by something else, with a member whose text is no JSON *)
Example C107_without_strings_ex : forall m, from_json (in_mode m default_cfg) false (TClass false [(bytes "a", uint)]) (doc_of "{'c':['}',,x],'a':5} , more") = Ok (VClass [VInt 5]).
Proof.
  intros m. apply C107_without_strings_partial; try (apply is_bytes_of; reflexivity); try reflexivity; try covers.
  intros H; apply (in_map (N.eqb 92)) in H; vm_compute in H; repeat (destruct H as [H|H]; [discriminate H|]); exact H.
Qed.

(** ** Where it fails *)

(** An escape that is not the first thing in a string is left as it is: the place of
    the first escape is computed with the wrong sign (C10), in blocks of 16 bytes the
    place is that in the block. *)
Theorem C107_escape_refuted : exists doc, from_json default_cfg true (TArr TStr) doc = Ok (VArr [VStr [97; 10; 98]]) /\
  from_json rt_cfg true (TArr TStr) doc = Ok (VArr [VStr [97; 92; 110; 98]]) /\
  from_json simd_cfg true (TArr TStr) doc = Ok (VArr [VStr [97; 92; 110; 98]]).
Proof. exists (doc_of "['a\nb']"). split; [|split]; vm_compute; reflexivity. Qed.
Print Assumptions C107_escape_refuted.

(** The other two differ as well. *)
Theorem C107_simd_refuted : exists doc v1 v2, from_json rt_cfg true (TArr TStr) doc = Ok v1 /\ from_json simd_cfg true (TArr TStr) doc = Ok v2 /\ v1 <> v2.
Proof.
  exists (doc_of "['abcdefghijklmnopqrstuv\ndefghijklmnopqrstuv']").
  exists (VArr [VStr (bytes "abcdefghijklmnopqrstuv" ++ [92; 110] ++ bytes "defghijklmnopqrstuv")]), (VArr [VStr (bytes "abcdefghijklmnopqrstuv" ++ [10] ++ bytes "defghijklmnopqrstuv")]).
  split; [|split]; [vm_compute; reflexivity|vm_compute; reflexivity|discriminate].
Qed.
Print Assumptions C107_simd_refuted.

(** A class that is not closed is an error in one mode; in the others what is behind
    the data is read. *)
Theorem C107_end_refuted : exists doc, from_json default_cfg true (TClass false [(bytes "a", uint)]) doc = Err UnexpectedEndOfData /\
  from_json rt_cfg true (TClass false [(bytes "a", uint)]) doc = UB /\ from_json simd_cfg true (TClass false [(bytes "a", uint)]) doc = UB.
Proof. exists (doc_of "{'a':1,"). split; [|split]; vm_compute; reflexivity. Qed.
Print Assumptions C107_end_refuted.

(** ExcludeSpecialEscapes has an effect in the mode for constant evaluation only. *)
Theorem C107_control_refuted : exists g doc, c_excl g = true /\
  from_json (in_mode ExConstexpr g) true (TArr (TCustom CuString)) doc = Err InvalidString /\
  from_json (in_mode ExRuntime g) true (TArr (TCustom CuString)) doc = Ok (VArr [VStr [9]]) /\
  from_json (in_mode ExSimd g) true (TArr (TCustom CuString)) doc = Ok (VArr [VStr [9]]).
Proof. exists (mkcfg ExConstexpr true false false), [91; 34; 9; 34; 93]. split; [reflexivity|]. split; [|split]; vm_compute; reflexivity. Qed.
Print Assumptions C107_control_refuted.

(** A skipped number that is mapped to a string: all modes accept it, and give different
    strings. *)
Theorem C107_number_refuted : exists t doc, from_json default_cfg true t doc = Ok (VClass [VInt 1; VStr (bytes "12,")]) /\
  from_json rt_cfg true t doc = Ok (VClass [VInt 1; VStr (bytes "12")]) /\ from_json simd_cfg true t doc = Ok (VClass [VInt 1; VStr (bytes "12")]).
Proof. exists (TClass false [(bytes "b", uint); (bytes "a", TStr)]), (doc_of "{'a':12,'b':1}"). split; [|split]; vm_compute; reflexivity. Qed.
Print Assumptions C107_number_refuted.
