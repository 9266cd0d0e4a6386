(** C108: documents without whitespace under the option for them
    (docs/cookbook/parser_policies.md: MinifiedDocument). *)
From Coq Require Import String.
From Coq Require Import List NArith ZArith Bool Lia Arith ZifyBool ZifyNat ZifyN.
From Verif Require Import Base Mem Loop PolicyModel StrScanModel SkipModel HashModel SpecNum SpecText SpecJson SpecTokens SpecCompact SpecUnicode ValueModel SpecTyped SpecC
  StrScanProofs NameProofs ClassProofs TypedProofs PropertiesValue PropertiesTyped CModel CTyped SkipProofs CGarbage
  SerModel SpecSer SerProofs SerProofs2 PropertiesSer.
Import ListNotations.
Local Open Scope N_scope.

(** No whitespace outside of strings *)
Inductive gapless : list N -> Prop :=
| gl_end : gapless []
| gl_byte : forall c d, c <> 34 -> c <> 92 -> ~ (1 <= c <= 32) -> gapless d -> gapless (c :: d)
| gl_str : forall s d, str_body s -> gapless d -> gapless ((34 :: s ++ [34]) ++ d).

Lemma gapless_blanked : forall d, gapless d -> forall x, blanked Min x d d.
Proof.
  induction 1 as [|c d N1 N2 N3 H IH|s d HS H IH]; intros x.
  - apply bl_end.
  - apply bl_byte; auto. cbn [opening]. unfold ws_byte. lia.
  - apply bl_str; auto.
Qed.

Lemma gapless_app : forall a b, gapless a -> gapless b -> gapless (a ++ b).
Proof.
  induction 1 as [|c d N1 N2 N3 H IH|s d HS H IH]; intros HB; [exact HB| |].
  - cbn [app]. apply gl_byte; auto.
  - rewrite <- app_assoc. apply gl_str; auto.
Qed.

Lemma gapless_num : forall n, jnum n -> gapless n.
Proof.
  intros n H. apply jnum_chars in H as [H _]. induction H as [|c n HC _ IH]; [constructor|].
  unfold numc in HC. apply gl_byte; auto; lia.
Qed.

Lemma gapless_quoted : forall s d, str_body s -> gapless d -> gapless (quoted s ++ d).
Proof. intros s d HS HD. now apply gl_str. Qed.

Ltac gl := repeat (apply gl_byte; [lia|lia|lia|]).

(** The text without whitespace that SpecCompact gives has none. *)
Lemma compact_gapless : forall v, legal str_body v -> gapless (compact v).
Proof.
  fix IH 1. intros v HL. destruct v as [| | |n|b|es|ms].
  1-3: cbn [compact]; gl; constructor.
  - now apply gapless_num.
  - cbn [compact]. rewrite <- (app_nil_r (quoted b)). apply gapless_quoted; [exact HL|constructor].
  - rewrite compact_arr. gl. apply gapless_app; [|gl; constructor].
    induction es as [|e es IHe]; [constructor|]. destruct HL as [H1 H2]. specialize (IH e H1). destruct es as [|e' es]; [exact IH|].
    change (compact_elems (e :: e' :: es)) with (compact e ++ 44 :: compact_elems (e' :: es)). apply gapless_app; [exact IH|]. gl. exact (IHe H2).
  - rewrite compact_obj. gl. apply gapless_app; [|gl; constructor].
    induction ms as [|[k e] ms IHm]; [constructor|]. destruct HL as (H0 & H1 & H2). specialize (IH e H1). destruct ms as [|[k' e'] ms].
    + change (compact_members [(k, e)]) with (quoted k ++ 58 :: compact e). apply gapless_quoted; [exact H0|]. gl. exact IH.
    + change (compact_members ((k, e) :: (k', e') :: ms)) with (quoted k ++ 58 :: compact e ++ 44 :: compact_members ((k', e') :: ms)).
      apply gapless_quoted; [exact H0|]. gl. apply gapless_app; [exact IH|]. gl. exact (IHm H2).
Qed.

Lemma jtext_legal : forall sb, (forall v t, jtext sb v t -> legal sb v) /\
  (forall es t, jelems sb es t -> legal sb (JArr es)) /\ (forall ms t, jmembers sb ms t -> legal sb (JObj ms)).
Proof. intros sb. apply jtext_ind3; intros; cbn [legal] in *; auto. Qed.

(** Documents without whitespace are read to their value.  Full claim: every
    document of a value of the type; partial for the configurations, lengths and
    types of C29_parse_partial (no reals, dates, tagged variants or sized arrays),
    and less than 2^32 - 1 bytes. *)
Theorem C108_reads_partial : forall g verify t v x doc, covered g -> is_bytes doc -> N.of_nat (length doc) < 2^32 - 1 ->
  gapless doc -> document t v doc -> typed (usable g) t v x -> from_json_c Min g verify t doc = Ok x.
Proof.
  intros g verify t v x doc [HX HE] HB HL HG HD HT.
  apply (from_json_c_typed g HX HE (usable g)) with (v := v) (doc' := doc); auto; [discriminate|]. now apply gapless_blanked.
Qed.
Print Assumptions C108_reads_partial.

(** The option makes no difference for them. *)
Theorem C108_no_difference_partial : forall g verify t v x doc, covered g -> is_bytes doc -> N.of_nat (length doc) < 2^32 - 1 ->
  gapless doc -> document t v doc -> typed (usable g) t v x -> from_json_c Min g verify t doc = from_json g verify t doc.
Proof.
  intros g verify t v x doc HC HB HL HG HD HT. rewrite (C108_reads_partial g verify t v x doc); auto. symmetry.
  apply (C29_parse_partial g HC verify t v x doc); auto. change (2^32) with 4294967296 in *. lia.
Qed.
Print Assumptions C108_no_difference_partial.

(** A comma or closing bracket behind the document is noticed. *)
Theorem C108_garbage_partial : forall g t v x tx c rest, covered g -> is_bytes (tx ++ c :: rest) -> N.of_nat (length (tx ++ c :: rest)) < 2^32 - 1 ->
  gapless (tx ++ c :: rest) -> typed (usable g) t v x -> jtext str_body v tx ->
  c = 44 \/ c = 93 \/ c = 125 -> from_json_c Min g true t (tx ++ c :: rest) = Err InvalidEndOfValue.
Proof.
  intros g t v x tx c rest [HX HE] HB HL HG HTy HT HC.
  apply (from_json_c_garbage g (usable g) HX HE (fun names k H => H) Min t v x _ [] tx [] c rest); auto; try discriminate; try (exact (Forall_nil _)).
  now apply gapless_blanked.
Qed.
Print Assumptions C108_garbage_partial.

(** What the library writes without whitespace is read back with the option for
    documents without whitespace.  Partial like C29_round_trip_partial. *)
Theorem C108_round_trip_partial : forall g verify o t x out, covered g -> o_trailing o = false -> layout o -> o_pretty o = false -> belongs t x ->
  to_json o t x = Ok out -> N.of_nat (length out) < 2^32 - 1 -> from_json_c Min g verify t out = Ok x.
Proof.
  intros g verify o t x out HG HT HL HP HB E H32. destruct (to_json_good o HT HL t 0 x HB) as (out' & E' & G1 & G2 & G3).
  unfold to_json in E. assert (out' = out) by congruence. subst out'. specialize (G3 HP).
  apply (proj1 (jtext_weaken rfc_body str_body rfc_str_body)) in G1.
  apply (C108_reads_partial g verify t (tree (o_errutf8 o) (o_7bit o) t x) x out); auto; [| |now apply typed_tree].
  - rewrite G3. apply compact_gapless. exact (proj1 (jtext_legal _) _ _ G1).
  - exists [], out, [], []. split; [constructor|]. split; [reflexivity|]. split; [exact G1|]. split; [constructor|split; [now left|now rewrite app_nil_r]].
Qed.
Print Assumptions C108_round_trip_partial.

(** They say something. *)
Example C108_ex : from_json_c Min default_cfg true abc (compact (JObj js1)) = Ok x1.
Proof.
  apply (C108_reads_partial default_cfg true abc (JObj js1) x1); try (apply is_bytes_of; reflexivity); try reflexivity.
  - covers.
  - apply compact_gapless. vm_compute; legals.
  - apply compact_doc. vm_compute; legals.
  - exact typed1.
Qed.
Example C108_garbage_ex : from_json_c Min default_cfg true abc (compact (JObj js1) ++ [125]) = Err InvalidEndOfValue.
Proof.
  apply (C108_garbage_partial default_cfg abc (JObj js1) x1); try (apply is_bytes_of; reflexivity); try reflexivity.
  - covers.
  - apply gapless_app; [apply compact_gapless; vm_compute; legals|gl; constructor].
  - exact typed1.
  - apply compact_jtext. vm_compute; legals.
  - auto.
Qed.

(** With whitespace in it the option is no longer just a shortcut: what follows is
    read without the option. *)
Definition ab2 := TClass false [(bytes "a", uint); (bytes "b", uint)].
Example C108_whitespace_ex :
  from_json_c Min default_cfg true ab2 (doc_of "{'a':1,'b':2} ") = Err InvalidEndOfValue /\
  from_json_c Min default_cfg true ab2 (doc_of "{'a': 1,'b':2}") = Err InvalidNumber /\
  from_json_c Min default_cfg true ab2 (doc_of "{'a':1 ,'b':2}") = Err MissingMemberNameOrEndOfClass /\
  from_json_c Min default_cfg true ab2 (doc_of "{'a':1,'b':2 }") = Ok (VClass [VInt 1; VInt 2]).
Proof. repeat split; vm_compute; reflexivity. Qed.
