(** C85 to C87: documents held by a std::string, which are read up to the
    terminating zero. *)
From Coq Require Import String.
From Coq Require Import List NArith ZArith Bool Lia Arith ZifyBool ZifyNat ZifyN.
From Verif Require Import Base Mem Loop PolicyModel StrScanModel SkipModel HashModel SpecNum SpecText SpecJson SpecCompact SpecUnicode ValueModel SpecTyped
  NameProofs ClassProofs TypedProofs SkipSafe SerModel SpecSer SerProofs SerProofs2 PropertiesValue PropertiesTyped PropertiesSer ZModel ZReads TypedSafe ZSafe ZSame.
Import ListNotations.
Local Open Scope N_scope.

(** ** C85 *)
(** What a document means at a type is what is read from a std::string that holds
    it, and what is read from a view of it.  Partial: no reals, dates, tagged
    variants or sized arrays, no comments, the default execution mode, less than
    2^31 - 1 bytes and no zero byte in the text (a zero byte ends the text). *)
Theorem C85_same_value_partial : forall g verify t v x s, covered g -> is_bytes s -> ~ In 0 s -> N.of_nat (length s) < 2^31 - 1 ->
  document t v s -> typed (usable g) t v x -> from_json_z g verify t s = Ok x /\ from_json g verify t s = Ok x.
Proof.
  intros g verify t v x s HG HB NZ H31 HD HT. split.
  - destruct HG as [HX HE]. apply (from_json_z_typed g HX HE (usable g)) with (v := v); auto.
  - apply (C29_parse_partial g HG verify t v x s); auto. change (2^31) with 2147483648 in H31. change (2^32) with 4294967296. lia.
Qed.
Print Assumptions C85_same_value_partial.

(** RFC 8259 texts have no zero byte. *)
Definition nz (b : list N) : Prop := Forall (fun c => c <> 0) b.
Lemma nz_app : forall a b, nz a -> nz b -> nz (a ++ b).
Proof. intros. now apply Forall_app. Qed.
Lemma nz_cons : forall c a, c <> 0 -> nz a -> nz (c :: a).
Proof. intros. now constructor. Qed.
Lemma nz_ws : forall w, ws w -> nz w.
Proof. intros w H. unfold ws, nz in *. eapply Forall_impl; [|exact H]. unfold json_ws. intros a Ha. lia. Qed.
Lemma nz_num : forall n, jnum n -> nz n.
Proof. intros n H. apply SpecTokens.jnum_chars in H as [H _]. unfold nz. eapply Forall_impl; [|exact H]. unfold SpecTokens.numc. intros a Ha. lia. Qed.
Lemma nz_body : forall b, rfc_body b -> nz b.
Proof.
  induction 1.
  - constructor.
  - apply nz_cons; [lia|assumption].
  - apply nz_cons; [lia|]. apply nz_cons; [|assumption]. intros ->. cbn in H. repeat (destruct H as [H|H]; [discriminate|]). exact H.
  - unfold is_hex in *. repeat (apply nz_cons; [lia|]). assumption.
Qed.
Lemma nz_text : (forall v t, jtext rfc_body v t -> nz t) /\ (forall es t, jelems rfc_body es t -> nz t) /\ (forall ms t, jmembers rfc_body ms t -> nz t).
Proof.
  assert (Q : forall k, rfc_body k -> nz (34 :: k ++ [34])) by (intros k H; apply nz_cons; [lia|]; apply nz_app; [now apply nz_body|apply nz_cons; [lia|constructor]]).
  assert (B : forall c w d, c <> 0 -> d <> 0 -> nz w -> nz (c :: w ++ [d])) by (intros c w d C D H; apply nz_cons; [exact C|]; apply nz_app; [exact H|apply nz_cons; [exact D|constructor]]).
  apply jtext_ind3; intros; auto using nz_num; repeat first [assumption | apply nz_ws; assumption | apply Q; assumption | exact (Forall_nil _) | apply B; [lia|lia|] | apply nz_cons; [lia|] | apply nz_app].
  all: now apply nz_body.
Qed.

(** The round trip as a program does it: to_json returns a std::string, and
    from_json is given that string.  Partial as C29_round_trip_partial. *)
Theorem C85_round_trip_partial : forall g verify o t x out, covered g -> o_trailing o = false -> layout o -> belongs t x ->
  to_json o t x = Ok out -> N.of_nat (length out) < 2^31 - 1 -> from_json_z g verify t out = Ok x.
Proof.
  intros g verify o t x out HG HT HL HB E H31. destruct (to_json_good o HT HL t 0 x HB) as (out' & E' & G1 & G2 & _).
  unfold to_json in E. assert (out' = out) by congruence. subst out'.
  apply (C85_same_value_partial g verify t (tree (o_errutf8 o) (o_7bit o) t x) x out); auto; [| |now apply typed_tree].
  - intros H. pose proof (proj1 nz_text _ _ G1) as Z. unfold nz in Z. rewrite Forall_forall in Z. exact (Z 0 H eq_refl).
  - exists [], out, [], []. split; [constructor|]. split; [reflexivity|]. split; [|split; [constructor|split; [now left|now rewrite app_nil_r]]].
    eapply (proj1 (jtext_weaken rfc_body str_body rfc_str_body)); eauto.
Qed.
Print Assumptions C85_round_trip_partial.

Example C85_ex : exists out, to_json pretty2 everything some_value = Ok out /\
  from_json_z default_cfg true everything out = Ok some_value /\ from_json_z default_cfg true everything out = from_json default_cfg true everything out.
Proof.
  destruct (C31_well_formed_partial pretty2 everything some_value) as (v & out & E & _); [reflexivity|apply layouts; cbn; auto 10|exact belongs_everything|].
  assert (X : from_json_z default_cfg true everything out = Ok some_value).
  { apply (C85_round_trip_partial default_cfg true pretty2 everything some_value out); auto.
    - split; reflexivity.
    - apply layouts; cbn; auto 10.
    - exact belongs_everything.
    - assert (X : to_json pretty2 everything some_value = Ok out) by exact E. vm_compute in X. injection X as <-. reflexivity. }
  assert (Y : from_json default_cfg true everything out = Ok some_value).
  { apply (C29_round_trip_partial default_cfg true pretty2 everything some_value out); auto.
    - split; reflexivity.
    - apply layouts; cbn; auto 10.
    - exact belongs_everything.
    - assert (Y : to_json pretty2 everything some_value = Ok out) by exact E. vm_compute in Y. injection Y as <-. reflexivity. }
  exists out. split; [exact E|]. split; [exact X|congruence].
Qed.

(** ** C86 *)
(** Any bytes, zeros among them: integers, booleans, and arrays, tuples, optionals
    and variants of them are read without passing the terminator.  Full claim: the
    same for every type; it fails for strings and for classes, below. *)
Theorem C86_inside_partial : forall g verify t s, is_bytes s -> N.of_nat (length s) < 2^31 - 1 -> nameless t = true ->
  match from_json_z g verify t s with Ok _ | Err _ => True | UB | Fuel => False end.
Proof. exact from_json_z_safe. Qed.
Print Assumptions C86_inside_partial.

Example C86_inside_ex : nameless (TTuple false [TArr (TNullable uint); TVariant [TInt 16 true; TBool]]) = true /\
  from_json_z default_cfg true (TArr uint) (bytes "[") = Err UnexpectedEndOfData /\ from_json default_cfg true (TArr uint) (bytes "[") = UB.
Proof. repeat split; vm_compute; reflexivity. Qed.

(** At the terminator the search for the next member of a class does not start:
    a class that is cut off there is an error. *)
Theorem C86_cut_off_partial : forall buf p, nth_error buf (first p) = Some 0 \/ (last p <= first p)%nat ->
  move_to_next_class_member_z buf p = Err UnexpectedEndOfData.
Proof.
  intros buf p H. unfold move_to_next_class_member_z, has_more. destruct (Nat.ltb_spec (first p) (last p)) as [L|L]; [|reflexivity].
  destruct H as [H|H]; [|lia]. unfold front. now rewrite (rd_some _ _ _ H).
Qed.
Print Assumptions C86_cut_off_partial.
Example C86_cut_off_ex : from_json_z default_cfg true (TClass false [(bytes "a", uint)]) (doc_of "{'a':1 ") = Err UnexpectedEndOfData.
Proof. vm_compute. reflexivity. Qed.

(** A string that ends in a backslash: the zero is taken for the escaped character
    and the scan goes on behind it (daw_json_parse_string_quote.h:190-205). *)
Theorem C86_escape_refuted : from_json_z default_cfg true TStr (doc_of "'abc\") = UB /\ from_json default_cfg true TStr (doc_of "'abc\") = Err InvalidString.
Proof. split; vm_compute; reflexivity. Qed.
Print Assumptions C86_escape_refuted.

(** A skipped member that ends in a [t]: four bytes are dropped unseen
    (daw_json_skip.h:75-97) and what follows is read. *)
Theorem C86_literal_refuted : from_json_z default_cfg true (TClass false [(bytes "a", uint)]) (doc_of "{'b':t") = UB /\
  from_json default_cfg true (TClass false [(bytes "a", uint)]) (doc_of "{'b':t") = Err InvalidTrue.
Proof. split; vm_compute; reflexivity. Qed.
Print Assumptions C86_literal_refuted.

(** A class that is not closed: the search for the next quote or brace passes the
    zero (daw_json_parse_policy_no_comments.h:115-124). *)
Theorem C86_open_class_refuted : from_json_z default_cfg true (TClass false [(bytes "a", uint)]) (doc_of "{'a':1 x") = UB /\
  from_json default_cfg true (TClass false [(bytes "a", uint)]) (doc_of "{'a':1 x") = Err UnexpectedEndOfData.
Proof. split; vm_compute; reflexivity. Qed.
Print Assumptions C86_open_class_refuted.

(** ** C87 *)
(** For the types of C86 (tuples exact) and texts without a zero byte, a std::string
    is accepted exactly when a view of the text is, with the same value.  Full
    claim: the same for every type; it fails for classes, below. *)
Theorem C87_same_partial : forall g verify t s x, is_bytes s -> ~ In 0 s -> N.of_nat (length s) < 2^31 - 1 -> closed_type t = true ->
  from_json g verify t s = Ok x <-> from_json_z g verify t s = Ok x.
Proof. exact from_json_same. Qed.
Print Assumptions C87_same_partial.

Example C87_same_ex : closed_type (TTuple true [TArr (TNullable uint); TVariant [TInt 16 true; TBool]]) = true /\
  from_json_z default_cfg true (TTuple true [TArr (TNullable uint); TVariant [TInt 16 true; TBool]]) (bytes "[[1 ,null], -7 ,] ") =
    Ok (VTuple [VArr [VSome (VInt 1); VNone]; VVariant 0 (VInt (-7))]) /\
  from_json_z default_cfg true (TArr uint) (bytes "[1x]") = Err InvalidEndOfValue.
Proof. repeat split; vm_compute; reflexivity. Qed.

(** A zero byte in the text ends it: what follows is not looked at, although the
    check for trailing text is asked for. *)
Theorem C87_zero_refuted : from_json_z default_cfg true uint (bytes "1" ++ [0] ++ bytes "x") = Ok (VInt 1) /\
  from_json default_cfg true uint (bytes "1" ++ [0] ++ bytes "x") = Err InvalidEndOfValue.
Proof. split; vm_compute; reflexivity. Qed.
Print Assumptions C87_zero_refuted.

(** Words that begin like a literal are skipped as literals, *)
Theorem C87_skipped_refuted : exists t s x, from_json_z default_cfg true t s = Ok x /\ from_json default_cfg true t s = Err InvalidTrue.
Proof. exists (TClass false [(bytes "a", uint)]), (doc_of "{'b':txxx,'a':1}"), (VClass [VInt 1]). split; vm_compute; reflexivity. Qed.
Print Assumptions C87_skipped_refuted.

Theorem C87_skipped_null_refuted : exists t s x, from_json_z default_cfg true t s = Ok x /\ from_json default_cfg true t s = Err InvalidNull.
Proof. exists (TClass false [(bytes "a", uint)]), (doc_of "{'b':nope,'a':1}"), (VClass [VInt 1]). split; vm_compute; reflexivity. Qed.
Print Assumptions C87_skipped_null_refuted.

(** and read as [true] when the member has been skipped before it is read. *)
Theorem C87_read_refuted : exists t s, from_json_z default_cfg true t s = Ok (VClass [VBool true; VBool true]) /\ from_json default_cfg true t s = Err InvalidTrue.
Proof. exists (TClass false [(bytes "a", TBool); (bytes "b", TBool)]), (doc_of "{'b':txyz,'a':true}"). split; vm_compute; reflexivity. Qed.
Print Assumptions C87_read_refuted.

(** A real number for an integer member that has been skipped gives one number
    here and another there. *)
Theorem C87_number_refuted : exists t s, from_json_z default_cfg true t s = Ok (VClass [VInt 1; VInt 1]) /\ from_json default_cfg true t s = Ok (VClass [VInt 1; VInt 2645]).
Proof. exists (TClass false [(bytes "a", uint); (bytes "b", uint)]), (doc_of "{'b':1.5,'a':1}"). split; vm_compute; reflexivity. Qed.
Print Assumptions C87_number_refuted.

(** A false that is not one is refused by both, and whole documents agree. *)
Example C87_ex : from_json_z default_cfg true (TClass false [(bytes "a", uint)]) (doc_of "{'b':f,'a':1}") = Err InvalidEndOfValue /\
  from_json default_cfg true (TClass false [(bytes "a", uint)]) (doc_of "{'b':f,'a':1}") = Err InvalidFalse.
Proof. split; vm_compute; reflexivity. Qed.
