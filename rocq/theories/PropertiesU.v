(** C101 and C102: reading without checks, which "assumes perfect input"
    (docs/cookbook/parser_policies.md:52-66). *)
From Coq Require Import String.
From Coq Require Import List NArith ZArith Bool Lia Arith ZifyBool ZifyNat ZifyN.
From Verif Require Import Base Mem Loop PolicyModel StrScanModel SkipModel HashModel SpecNum SpecText SpecJson SpecCompact SpecUnicode ValueModel SpecTyped
  NameProofs ClassProofs TypedProofs SkipSafe SerModel SpecSer SerProofs SerProofs2 PropertiesValue PropertiesTyped PropertiesSer ZModel PropertiesZ
  SpecU UModel UReads.
Import ListNotations.
Local Open Scope N_scope.

(** ** C101 *)
(** What a document means at a type is read without checks, from a std::string
    ([z]) and from a view of text that a zero byte follows.  Full claim: the same
    without [none_free]; it fails, below.  Partial further: no reals, dates, tagged
    variants or sized arrays, no comments, the default execution mode, less than
    2^31 - 1 bytes, no zero byte in the text, and tags of intrusive variants that
    are numbers, booleans or strings.

    The result is no UB: no byte outside of the text and its terminator was read
    (C102). *)
Theorem C101_same_value_partial : forall z g verify t v x s, covered g -> is_bytes s -> ~ In 0 s -> N.of_nat (length s) < 2^31 - 1 ->
  document t v s -> typed (usable g) t v x -> none_free x -> simple_tags t ->
  from_json_u z g verify t (s ++ [0]) (length s) = Ok x /\ from_json g verify t s = Ok x.
Proof.
  intros z g verify t v x s HG HB NZ H31 HD HT NF ST. split.
  - destruct HG as [HX HE]. apply (from_json_u_typed z g HX HE (usable g)) with (v := v); auto.
  - apply (C29_parse_partial g HG verify t v x s); auto. change (2^31) with 2147483648 in H31. change (2^32) with 4294967296. lia.
Qed.
Print Assumptions C101_same_value_partial.

(** What to_json writes is read back without checks when nothing is missing. *)
Theorem C101_round_trip_partial : forall z g verify o t x out, covered g -> o_trailing o = false -> layout o -> belongs t x -> none_free x -> simple_tags t ->
  to_json o t x = Ok out -> N.of_nat (length out) < 2^31 - 1 -> from_json_u z g verify t (out ++ [0]) (length out) = Ok x.
Proof.
  intros z g verify o t x out HG HT HL HB NF ST E H31. destruct (to_json_good o HT HL t 0 x HB) as (out' & E' & G1 & G2 & _).
  unfold to_json in E. assert (out' = out) by congruence. subst out'.
  apply (C101_same_value_partial z g verify t (tree (o_errutf8 o) (o_7bit o) t x) x out); auto; [| |now apply typed_tree].
  - intros H. pose proof (proj1 nz_text _ _ G1) as Z. unfold nz in Z. rewrite Forall_forall in Z. exact (Z 0 H eq_refl).
  - exists [], out, [], []. split; [constructor|]. split; [reflexivity|]. split; [|split; [constructor|split; [now left|now rewrite app_nil_r]]].
    eapply (proj1 (jtext_weaken rfc_body str_body rfc_str_body)); eauto.
Qed.
Print Assumptions C101_round_trip_partial.

(** Reading text that lies in memory without checks: [view] is given the memory of
    the document alone, [text] one more zero byte. *)
Definition text (z verify : bool) (t : ty) (s : string) : res val := from_json_u z default_cfg verify t (doc_of s ++ [0]) (length (doc_of s)).
Definition view (verify : bool) (t : ty) (s : string) : res val := from_json_u false default_cfg verify t (doc_of s) (length (doc_of s)).
Definition checked (t : ty) (s : string) : res val := from_json default_cfg true t (doc_of s).

Definition class (ms : list (string * ty)) : ty := TClass false (map (fun m => (bytes (fst m), snd m)) ms).
Definition opt : ty := TNullable uint.

Definition sample : ty := class [("id", uint); ("name", TStr); ("tags", TArr opt); ("on", TBool)]%string.
Definition sample_value : val := VClass [VInt 7; VStr (bytes "x"); VArr [VSome (VInt 1); VSome (VInt 2)]; VBool true].
Lemma belongs_sample : belongs sample sample_value.
Proof.
  unfold sample, class, sample_value. cbn. split; [|split].
  - repeat (constructor; [cbn; intros H; repeat (destruct H as [H|H]; [discriminate|]); contradiction|]). constructor.
  - repeat (constructor; [apply Forall_forall; intros c Hc; cbn in Hc; repeat (destruct Hc as [<-|Hc]; [lia|]); contradiction|]). constructor.
  - assert (U : forall n, (0 <= n < 10)%Z -> int_size 32 /\ exists z, VInt n = VInt z /\ (0 <= z < 4294967296)%Z).
    { intros n Hn. split; [unfold int_size; auto|]. exists n. split; [reflexivity|lia]. }
    eexists. split; [reflexivity|]. split; [apply U; lia|]. split; [|split; [|split; [|exact I]]].
    + eexists. split; [reflexivity|]. now apply unicode_ascii.
    + eexists. split; [reflexivity|]. constructor; [|constructor; [|constructor]]; (split; [reflexivity|]; right); eexists; (split; [reflexivity|]); apply U; lia.
    + eauto.
Qed.

(** Members in another order, members that are not mapped and spaces *)
Example C101_ex : none_free sample_value /\ simple_tags sample /\
  (exists out, to_json pretty2 sample sample_value = Ok out /\ from_json_u true default_cfg true sample (out ++ [0]) (length out) = Ok sample_value) /\
  text true true sample "{'on' : true, 'more':{'name':[null, 1]},'tags':[1,2],'name':'x','id':7}" = Ok sample_value /\
  text false true sample " {'on' : true, 'tags':[1,2] , 'z':null, 'id':7,'name':'x'} " = Ok sample_value.
Proof.
  split; [repeat split|]. split; [repeat split|]. split; [|split; vm_compute; reflexivity].
  destruct (C31_well_formed_partial pretty2 sample sample_value) as (v & out & E & _); [reflexivity|apply layouts; cbn; auto 10|exact belongs_sample|].
  exists out. split; [exact E|]. apply (C101_round_trip_partial true default_cfg true pretty2 sample sample_value out); auto.
  - split; reflexivity.
  - apply layouts; cbn; auto 10.
  - exact belongs_sample.
  - repeat split.
  - repeat split.
  - assert (X : to_json pretty2 sample sample_value = Ok out) by exact E. vm_compute in X. injection X as <-. reflexivity.
Qed.

(** Optional members left out at the end of a class whose text has no other
    members behind the last one found are read as absent. *)
Example C101_last_left_out : forall z,
  text z true (class [("a", uint); ("b", opt); ("c", opt)]%string) "{'a':1}" = Ok (VClass [VInt 1; VNone; VNone]) /\
  text z true (TArr (class [("a", uint); ("b", opt)]%string)) "[{'a':1},{'b':3,'a':2} ]" = Ok (VArr [VClass [VInt 1; VNone]; VClass [VInt 2; VSome (VInt 3)]]).
Proof. intros []; split; vm_compute; reflexivity. Qed.

(** A null of an optional member eats the byte behind it: the closing bracket is
    not seen and elements are added without end (daw_json_parse_value.h:329-334).
    The first conjunct is the array after its first element, the second what
    every further turn of the loop does. *)
Definition null_array : list N := doc_of "[null]" ++ [0].
Theorem C101_null_refuted : forall z, exists p,
  array_body_u z (parse_value_u z default_cfg opt) null_array (remove_prefix (new_ps 0 6) 1, []) = Ok (inl (p, [VNone])) /\
  (forall n vs, loop (array_body_u z (parse_value_u z default_cfg opt) null_array) n (p, vs) = Fuel) /\
  checked (TArr opt) "[null]" = Ok (VArr [VNone]).
Proof.
  intros z. exists (remove_prefix (new_ps 0 6) 6). split; [destruct z; vm_compute; reflexivity|]. split; [|vm_compute; reflexivity].
  induction n as [|n IH]; intros vs; [reflexivity|]. cbn [loop].
  assert (E : array_body_u z (parse_value_u z default_cfg opt) null_array (remove_prefix (new_ps 0 6) 6, vs) = Ok (inl (remove_prefix (new_ps 0 6) 6, vs ++ [VNone]))) by (destruct z; reflexivity).
  rewrite E. cbn [bind]. apply IH.
Qed.
Print Assumptions C101_null_refuted.

(** A null at the end of the document: the terminator is eaten and what lies
    behind it is read. *)
Theorem C101_null_end_refuted : forall z, text z true opt "null" = UB /\ checked opt "null" = Ok VNone.
Proof. intros []; split; vm_compute; reflexivity. Qed.
Print Assumptions C101_null_end_refuted.

(** A member in front of the one that is looked for: the parser goes to the next
    quote, wherever that is (daw_json_location_info.h:271-276 and
    daw_json_parse_policy_no_comments.h:83-90).  With optional members left out
    the next quote is in another object, whose members are taken. *)
Definition abc : ty := class [("a", opt); ("b", uint); ("c", opt)]%string.
Theorem C101_missing_refuted : forall z,
  text z true (TArr abc) "[{'b':1},{'a':5,'b':6,'c':7}]" = Ok (VArr [VClass [VSome (VInt 5); VInt 1; VSome (VInt 7)]]) /\
  checked (TArr abc) "[{'b':1},{'a':5,'b':6,'c':7}]" = Ok (VArr [VClass [VNone; VInt 1; VNone]; VClass [VSome (VInt 5); VInt 6; VSome (VInt 7)]]).
Proof. intros []; split; vm_compute; reflexivity. Qed.
Print Assumptions C101_missing_refuted.

(** ** C102 *)
(** Where no quote follows, the search for it leaves the document, though the
    document is a proper one. *)
Theorem C102_missing_refuted : forall z, text z true abc "{'b':1}" = UB /\ checked abc "{'b':1}" = Ok (VClass [VNone; VInt 1; VNone]).
Proof. intros []; split; vm_compute; reflexivity. Qed.
Print Assumptions C102_missing_refuted.

(** A view of text that nothing follows: the byte behind it is read
    (daw_json_parse_policy_no_comments.h:66-80), even without a check of what
    follows the value. *)
Theorem C102_view_refuted : view false TBool "true" = UB /\ view true uint "1" = UB /\ view true (TArr uint) "[1]" = UB /\
  checked TBool "true" = Ok (VBool true) /\ text false false TBool "true" = Ok (VBool true) /\ text false true uint "1" = Ok (VInt 1).
Proof. repeat split; vm_compute; reflexivity. Qed.
Print Assumptions C102_view_refuted.

(** With a byte behind it that is none of the document, the text is read and the
    byte left alone: see C101_same_value_partial, whose memory is the text and one
    zero byte.  A single statement for C102: *)
Theorem C102_inside_partial : forall z g verify t v x s, covered g -> is_bytes s -> ~ In 0 s -> N.of_nat (length s) < 2^31 - 1 ->
  document t v s -> typed (usable g) t v x -> none_free x -> simple_tags t ->
  match from_json_u z g verify t (s ++ [0]) (length s) with Ok _ | Err _ => True | UB | Fuel => False end.
Proof.
  intros z g verify t v x s HG HB NZ H31 HD HT NF ST.
  now rewrite (proj1 (C101_same_value_partial z g verify t v x s HG HB NZ H31 HD HT NF ST)).
Qed.
Print Assumptions C102_inside_partial.

(** What is asked for, "perfect input", is needed: an unknown member of a class
    that maps all its members is written behind the table of locations. *)
Example C102_ex : text true true (TClass true [(bytes "a", uint)]) "{'b':1,'a':2}" = UB /\ from_json default_cfg true (TClass true [(bytes "a", uint)]) (doc_of "{'b':1,'a':2}") = Err UnknownMember.
Proof. split; vm_compute; reflexivity. Qed.
