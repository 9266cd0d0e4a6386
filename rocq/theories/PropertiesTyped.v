(** C24 (member order), C25 (unmapped members), C26 (missing members), C27
    (repeated names), C28 (arrays), C48 (trailing garbage), C56 (more elements
    than a tuple has) and C57 (whitespace before the value), for whole documents
    and every mapped type of the model. *)
From Coq Require Import String.
From Coq Require Import List NArith ZArith Bool Lia Arith Permutation.
From Coq Require Import ZifyBool ZifyNat ZifyN.
From Verif Require Import Base PolicyModel Mem SpecNum SpecText SpecJson SpecCompact SpecUnicode Loop StrScanModel StrScanProofs SkipModel HashModel
  SkipProofs SkipSafe ValueModel NameProofs ClassProofs ClassProofs2 SpecTyped ScalarProofs ArrayProofs TypedProofs
  RejectProofs AgreeProofs.
Import ListNotations.
Local Open Scope N_scope.

(** The names a document may use: as the parser delimits them, and not sharing a
    hash with another mapped name unless full names are compared (C35). *)
Definition usable (g : cfg) (names : list (list N)) (k : list N) : Prop := name_ok g k /\ tells g names k.

(** The configurations covered: constant evaluation order of the string scanner
    (the default), escapes not excluded. *)
Definition covered (g : cfg) : Prop := c_ex g = ExConstexpr /\ c_excl g = false.

Section Cfg.
  Context (g : cfg).
  Hypothesis HG : covered g.

  Theorem C29_parse_partial : forall verify t v x doc, is_bytes doc -> N.of_nat (length doc) < 2^32 ->
    document t v doc -> typed (usable g) t v x -> from_json g verify t doc = Ok x.
  Proof. destruct HG as [HX HE]. intros verify t v x doc HB H32 HD HT. apply (from_json_typed g HX HE (usable g)) with (v := v); auto. Qed.

  (** C24: every order of the members gives the same value, whatever the
      whitespace of the two documents. *)
  Theorem C24_any_order_partial : forall verify exact mm js js' x doc doc',
    is_bytes doc -> N.of_nat (length doc) < 2^32 -> is_bytes doc' -> N.of_nat (length doc') < 2^32 ->
    typed (usable g) (TClass exact mm) (JObj js) x -> Permutation js js' ->
    document (TClass exact mm) (JObj js) doc -> document (TClass exact mm) (JObj js') doc' ->
    from_json g verify (TClass exact mm) doc = Ok x /\ from_json g verify (TClass exact mm) doc' = Ok x.
  Proof.
    intros verify exact mm js js' x doc doc' B L B' L' HT HP HD HD'. split.
    - now apply C29_parse_partial with (v := JObj js).
    - apply C29_parse_partial with (v := JObj js'); auto. eapply typed_agree; [exact HT|]. eapply agree_perm; eauto.
  Qed.

  (** C24 and C25 at any depth: the documents agree on the mapped members of all
      their objects, in any order, among any other members. *)
  Theorem C25_agree_partial : forall verify t v v' x doc doc',
    is_bytes doc -> N.of_nat (length doc) < 2^32 -> is_bytes doc' -> N.of_nat (length doc') < 2^32 ->
    typed (usable g) t v x -> agree (usable g) t v v' ->
    document t v doc -> document t v' doc' ->
    from_json g verify t doc = Ok x /\ from_json g verify t doc' = Ok x.
  Proof.
    intros verify t v v' x doc doc' B L B' L' HT HA HD HD'. split.
    - now apply C29_parse_partial with (v := v).
    - apply C29_parse_partial with (v := v'); auto. eapply typed_agree; eauto.
  Qed.

  (** C25: members with unmapped names, added anywhere and with any values, do not
      change the value. *)
  Theorem C25_unmapped_ignored_partial : forall verify mm js js' x doc doc',
    is_bytes doc -> N.of_nat (length doc) < 2^32 -> is_bytes doc' -> N.of_nat (length doc') < 2^32 ->
    typed (usable g) (TClass false mm) (JObj js) x ->
    only (map fst mm) js' = only (map fst mm) js -> Forall (usable g (map fst mm)) (map fst js') ->
    document (TClass false mm) (JObj js) doc -> document (TClass false mm) (JObj js') doc' ->
    from_json g verify (TClass false mm) doc = Ok x /\ from_json g verify (TClass false mm) doc' = Ok x.
  Proof.
    intros verify mm js js' x doc doc' B L B' L' HT HO FN HD HD'. eapply C25_agree_partial; eauto. eapply agree_only; eauto.
  Qed.

  (** C26: a required member is missing, the members declared before it are in
      order. *)
  Inductive lacking (js : list (list N * jv)) : list (list N * ty) -> Prop :=
  | lacking_here : forall nm t mm, lookup nm js = None -> is_nullable t = false -> lacking js ((nm, t) :: mm)
  | lacking_later : forall nm t mm, match lookup nm js with Some v => exists y, typed (usable g) t v y | None => is_nullable t = true end ->
      lacking js mm -> lacking js ((nm, t) :: mm).

  (** ... then parsing an object at any place of a document throws, *)
  Theorem C26_missing_required_partial : forall exact mm js known buf p t, wf buf p -> N.of_nat (length buf) < 2^32 ->
    NoDup (map fst mm) -> no_repeat (map fst mm) js -> Forall (usable g (map fst mm)) (map fst js) ->
    (exact = true -> forall k, In k (map fst js) -> In k (map fst mm)) -> lacking js mm ->
    jtext str_body (JObj js) t -> sub_at buf (first p) t -> (first p + length t <= last p)%nat ->
    parse_value g (TClass exact mm) known buf p = Err MemberNotFound.
  Proof.
    destruct HG as [HX HE]. intros exact mm js known buf p t HW H32 ND NR FN EX HLa HT HS HL. cbn [parse_value]. unfold parse_value_class.
    assert (LT : (1 <= length t)%nat) by (inversion HT; subst; cbn [length]; lia).
    unfold has_more. replace (first p <? last p)%nat with true by lia. cbn [ensure bind].
    assert (EN : map m_name (map (fun m => mkmember (fst m) (is_nullable (snd m)) (parse_value g (snd m))) mm) = map fst mm)
      by (rewrite map_map; reflexivity).
    rewrite (class_missing g HX HE (usable g) (fun _ _ H => H)) with (js := js) (t := t); rewrite ?EN; auto.
    clear - HX HE HLa. induction HLa as [nm t mm H N|nm t mm H HLa IH]; cbn [map fst snd].
    - apply lk_here; cbn [m_name m_nullable]; auto.
    - assert (G : exists x, gets g (mkmember nm (is_nullable t) (parse_value g t)) js x).
      { unfold gets. cbn [m_name m_nullable m_parse]. rewrite <- lookup_assoc. destruct (lookup nm js) as [v|]; [|eauto].
        destruct H as (y & Hy). exists y. split; [now apply (typed_reads g HX HE (usable g))|].
        intros ->. exact (typed_null _ _ _ Hy). }
      destruct G as (x & G). eapply lk_next; eauto.
  Qed.

  (** and so does parsing a document, whatever follows the object. *)
  Theorem C26_missing_document_partial : forall verify exact mm js w0 t rest,
    let doc := w0 ++ t ++ rest in is_bytes doc -> N.of_nat (length doc) < 2^32 -> ws w0 -> jtext str_body (JObj js) t ->
    NoDup (map fst mm) -> no_repeat (map fst mm) js -> Forall (usable g (map fst mm)) (map fst js) ->
    (exact = true -> forall k, In k (map fst js) -> In k (map fst mm)) -> lacking js mm ->
    from_json g verify (TClass exact mm) doc = Err MemberNotFound.
  Proof.
    intros verify exact mm js w0 t rest doc HB H32 W0 HT ND NR FN EX HLa.
    destruct (jtext_head _ _ _ HT) as (c0 & r0 & ET & ST). destruct (jtext_last _ _ _ HT) as (rl & cl & EL & NL).
    assert (LT : (0 < length t)%nat) by (rewrite ET; cbn; lia).
    assert (LD : length doc = (length w0 + length t + length rest)%nat) by (unfold doc; len; lia).
    unfold from_json. replace (length doc =? 0)%nat with false by lia. cbn [negb ensure bind].
    destruct (rd_in doc (length doc - 1)) as (zb & Hz); [lia|]. rewrite (rd_some _ _ _ Hz). cbn [bind].
    set (l := if zb =? 0 then (length doc - 1)%nat else length doc).
    assert (LL : (length w0 + length t <= l <= length doc)%nat).
    { unfold l. destruct (N.eqb_spec zb 0) as [->|]; [|lia]. split; [|lia].
      assert (length rest <> 0)%nat; [|lia]. intros Y. destruct rest; [|discriminate].
      unfold doc in Hz. rewrite app_nil_r, EL in Hz. rewrite app_assoc, nth_error_app2 in Hz by (len; lia).
      replace (length ((w0 ++ rl) ++ [cl]) - 1 - length (w0 ++ rl))%nat with 0%nat in Hz by (len; lia). injection Hz as ->. lia. }
    clearbody l.
    assert (S0 : sub_at doc 0 (w0 ++ [c0])).
    { unfold doc. rewrite ET. replace (w0 ++ (c0 :: r0) ++ rest) with ((w0 ++ [c0]) ++ r0 ++ rest) by (rewrite <- !app_assoc; reflexivity). apply sub_at_0. }
    rewrite (trims_leading g (TClass exact mm) false doc (new_ps 0 l) c0 HB eq_refl w0 W0 S0) by (unfold starter in ST; cbn [first last new_ps]; lia).
    cbn [first new_ps Nat.add].
    rewrite (C26_missing_required_partial exact mm js false doc (set_first (new_ps 0 l) (length w0)) t); auto.
    - apply wf_doc; auto; lia.
    - unfold doc. cbn [first set_first]. apply sub_at_mid.
    - cbn [first last set_first new_ps]. lia.
  Qed.

  (** C28: an array gives as many elements as it has, in order, each the value of
      its text, and the parser is left after the bracket and the whitespace that
      follows it. *)
  Theorem C28_elements_in_order_partial : forall t es xs known buf p tx j, wf buf p -> N.of_nat (length buf) < 2^32 ->
    Forall2 (typed (usable g) t) es xs -> jtext str_body (JArr es) tx -> sub_at buf (first p) tx ->
    ws_run buf (first p + length tx) j (last p) ->
    exists q, parse_value g (TArr t) known buf p = Ok (VArr xs, q) /\ first q = j /\ last q = last p /\ length xs = length es.
  Proof.
    destruct HG as [HX HE]. intros t es xs known buf p tx j HW H32 HF HT HS HR. cbn [parse_value].
    destruct (array_ok g (parse_value g t) es xs) with (buf := buf) (p := p) (t := tx) (j := j) as (q & E & M & F); auto.
    - clear - HX HE HF. induction HF as [|v x es xs H HF IH]; constructor; [|exact IH]. now apply (typed_reads g HX HE (usable g)).
    - exists q. split; [exact E|]. split; [exact F|]. split; [apply M|]. clear - HF. induction HF; cbn [length]; congruence.
  Qed.

  (** C48: whatever follows the value and the whitespace, if it starts with a byte
      above the space (and does not continue a number), makes the document
      rejected (a custom type, which is given the text of a number as it is
      written, is only considered with a string); *)
  Theorem C48_garbage_rejected_partial : forall t v x w0 tx w c rest,
    let doc := w0 ++ tx ++ w ++ c :: rest in is_bytes doc -> N.of_nat (length doc) < 2^32 ->
    typed (usable g) t v x -> (takes_text t = true -> forall s, ~ literal v s) ->
    jtext str_body v tx -> ws w0 -> (trims t = false -> w0 = []) -> ws w -> 32 < c ->
    (match v with JNum _ => w <> [] \/ ~ is_dig c | _ => True end) ->
    exists e, from_json g true t doc = Err e.
  Proof.
    destruct HG as [HX HE]. intros t v x w0 tx w c rest doc HB H32 HTy HTT HT W0 TR W HC HD.
    apply (from_json_garbage g HX HE (usable g)) with (v := v) (x := x); auto.
  Qed.

  (** whitespace after the value changes nothing. *)
  Theorem C48_whitespace_accepted_partial : forall t v x tx w, is_bytes (tx ++ w) -> N.of_nat (length (tx ++ w)) < 2^32 ->
    typed (usable g) t v x -> jtext str_body v tx -> ws w ->
    from_json g true t (tx ++ w) = Ok x /\ from_json g true t tx = Ok x.
  Proof.
    intros t v x tx w HB H32 HTy HT W. split.
    - apply C29_parse_partial with (v := v); auto. exists [], tx, w, []. repeat split; auto; [constructor|now rewrite app_nil_r].
    - assert (is_bytes tx) by (apply Forall_app in HB; tauto). rewrite app_length in H32.
      apply C29_parse_partial with (v := v); auto; [lia|]. exists [], tx, [], []. repeat split; auto; [constructor|constructor|now rewrite !app_nil_r].
  Qed.

  (** C56: elements a tuple does not map are ignored, if the first of them is no
      array. *)
  Theorem C56_extra_ignored_partial : forall verify ts es es2 xs doc doc',
    is_bytes doc -> N.of_nat (length doc) < 2^32 -> is_bytes doc' -> N.of_nat (length doc') < 2^32 ->
    typed (usable g) (TTuple false ts) (JArr es) xs -> length es = length ts ->
    (forall e, hd_error es2 = Some e -> not_array e) ->
    document (TTuple false ts) (JArr es) doc -> document (TTuple false ts) (JArr (es ++ es2)) doc' ->
    from_json g verify (TTuple false ts) doc = Ok xs /\ from_json g verify (TTuple false ts) doc' = Ok xs.
  Proof.
    intros verify ts es es2 xs doc doc' B L B' L' HT HL HNA HD HD'. split.
    - now apply C29_parse_partial with (v := JArr es).
    - apply C29_parse_partial with (v := JArr (es ++ es2)); auto.
      destruct HT as (es0 & ys & r & E & -> & _ & _ & HT). injection E as ->. exists es0, ys, es2.
      assert (R : r = []).
      { assert (L2 : length es0 = length ts).
        { clear - HT. revert es0 ys HT. induction ts as [|t ts IHt]; intros [|a es] [|b xs] HT; try contradiction; [reflexivity|].
          destruct HT as [_ HT]. cbn [length]. f_equal. eauto. }
        rewrite app_length in HL. destruct r; [reflexivity|]. cbn [length] in HL. lia. }
      subst r. rewrite app_nil_r. split; [reflexivity|]. split; [reflexivity|]. split; [discriminate|]. split; [exact HNA|exact HT].
  Qed.

  (** C57: whitespace before an array, a class or a tuple changes nothing. *)
  Theorem C57_leading_partial : forall verify t v x w tx, is_bytes (w ++ tx) -> N.of_nat (length (w ++ tx)) < 2^32 ->
    trims t = true -> typed (usable g) t v x -> jtext str_body v tx -> ws w ->
    from_json g verify t (w ++ tx) = Ok x /\ from_json g verify t tx = Ok x.
  Proof.
    intros verify t v x w tx HB H32 HTr HTy HT W. split.
    - apply C29_parse_partial with (v := v); auto. exists w, tx, [], []. split; [exact W|]. split; [congruence|]. split; [exact HT|].
      split; [constructor|]. split; [auto|]. now rewrite !app_nil_r.
    - assert (is_bytes tx) by (apply Forall_app in HB; tauto). rewrite app_length in H32.
      apply C29_parse_partial with (v := v); auto; [lia|]. exists [], tx, [], []. split; [constructor|]. split; [auto|]. split; [exact HT|].
      split; [constructor|]. split; [auto|]. now rewrite !app_nil_r.
  Qed.
End Cfg.

Print Assumptions C56_extra_ignored_partial.
Print Assumptions C57_leading_partial.
Print Assumptions C29_parse_partial.
Print Assumptions C24_any_order_partial.
Print Assumptions C25_agree_partial.
Print Assumptions C25_unmapped_ignored_partial.
Print Assumptions C26_missing_required_partial.
Print Assumptions C26_missing_document_partial.
Print Assumptions C28_elements_in_order_partial.
Print Assumptions C48_garbage_rejected_partial.
Print Assumptions C48_whitespace_accepted_partial.

(** ** Where the code does something else *)

Definition uint := TUInt 32 true.
Definition ab : ty := TClass false [(bytes "a", uint); (bytes "b", uint)].
Definition ba : ty := TClass false [(bytes "b", uint); (bytes "a", uint)].
Definition doc_of (s : string) : list N := map (fun c => if c =? 39 then 34 else c) (bytes s).

(** C27: which of two members of the same name is used depends on the order in
    which the class declares its members. *)
Theorem C27_refuted : exists doc,
  from_json default_cfg true ab doc = Ok (VClass [VInt 1; VInt 3]) /\
  from_json default_cfg true ba doc = Ok (VClass [VInt 3; VInt 2]).
Proof. exists (doc_of "{'a':1,'a':2,'b':3}"). split; vm_compute; reflexivity. Qed.
Print Assumptions C27_refuted.

(** A later null takes the place of a remembered value. *)
Theorem C27_null_refuted : exists doc,
  from_json default_cfg true (TClass false [(bytes "a", TNullable uint); (bytes "b", uint)]) doc = Ok (VClass [VSome (VInt 1); VInt 3]) /\
  from_json default_cfg true (TClass false [(bytes "b", uint); (bytes "a", TNullable uint)]) doc = Ok (VClass [VInt 3; VNone]).
Proof. exists (doc_of "{'a':1,'a':null,'b':3}"). split; vm_compute; reflexivity. Qed.
Print Assumptions C27_null_refuted.

(** With exact mappings a repeated member is accepted or reported as unknown,
    depending on the order of declaration. *)
Theorem C27_exact_refuted : exists doc e,
  from_json default_cfg true (TClass true [(bytes "a", uint); (bytes "b", uint)]) doc = Err e /\
  from_json default_cfg true (TClass true [(bytes "b", uint); (bytes "a", uint)]) doc = Ok (VClass [VInt 3; VInt 2]).
Proof. exists (doc_of "{'a':1,'a':2,'b':3}"), UnknownMember. split; vm_compute; reflexivity. Qed.
Print Assumptions C27_exact_refuted.

(** C25: a member whose name contains an escaped quote or ends with a backslash
    makes the object fail, although its name is not mapped. *)
Theorem C25_escaped_name_refuted : exists doc doc' e,
  from_json default_cfg true ab doc = Ok (VClass [VInt 1; VInt 2]) /\
  doc = doc_of "{'a':1,'b':2}" /\ doc' = doc_of "{'x\'y':0,'a':1,'b':2}" /\
  from_json default_cfg true ab doc' = Err e.
Proof. eexists _, _, InvalidString. split; [|split; [reflexivity|split; [reflexivity|]]]; vm_compute; reflexivity. Qed.
Print Assumptions C25_escaped_name_refuted.

Theorem C25_backslash_name_refuted : exists doc doc' e,
  from_json default_cfg true ab doc = Ok (VClass [VInt 1; VInt 2]) /\
  doc = doc_of "{'a':1,'b':2}" /\ doc' = doc_of "{'x\\':0,'a':1,'b':2}" /\
  from_json default_cfg true ab doc' = Err e.
Proof. eexists _, _, InvalidString. split; [|split; [reflexivity|split; [reflexivity|]]]; vm_compute; reflexivity. Qed.
Print Assumptions C25_backslash_name_refuted.

(** C26: a member that is there without a value counts as absent. *)
Theorem C26_empty_value_refuted : exists doc,
  from_json default_cfg true (TClass false [(bytes "a", TNullable uint)]) doc = Ok (VClass [VNone]) /\ doc = doc_of "{'a':}".
Proof. eexists. split; [|reflexivity]. vm_compute. reflexivity. Qed.
Print Assumptions C26_empty_value_refuted.

(** C28: separators are optional and a leading one is accepted. *)
Theorem C28_missing_comma_refuted : exists doc,
  from_json default_cfg true (TTuple false [uint; TBool]) doc = Ok (VTuple [VInt 1; VBool true]) /\ doc = doc_of "[,1,true]".
Proof. eexists. split; [|reflexivity]. vm_compute. reflexivity. Qed.
Print Assumptions C28_missing_comma_refuted.

(** C48: bytes 1 to 31 count as whitespace. *)
Theorem C48_control_refuted : exists doc,
  from_json default_cfg true uint doc = Ok (VInt 1) /\ doc = [49; 1].
Proof. eexists. split; [|reflexivity]. vm_compute. reflexivity. Qed.
Print Assumptions C48_control_refuted.

(** C56: a further element of a tuple that is an array is taken for the tuple's
    own bracket: the document is rejected, or its rest is not looked at. *)
Theorem C56_array_refuted : exists doc e,
  from_json default_cfg true (TTuple false [uint]) doc = Err e /\
  from_json default_cfg false (TTuple false [uint]) doc = Ok (VTuple [VInt 1]) /\ doc = doc_of "[1,[2],3]".
Proof. eexists _, InvalidEndOfValue. split; [|split; [|reflexivity]]; vm_compute; reflexivity. Qed.
Print Assumptions C56_array_refuted.

(** C57: whitespace before a value that is not an array or a class makes the
    document rejected. *)
Theorem C57_scalar_refuted : exists e1 e2 e3 e4 e5,
  from_json default_cfg true uint (doc_of " 1") = Err e1 /\
  from_json default_cfg true TBool (doc_of " true") = Err e2 /\
  from_json default_cfg true TStr (doc_of " 'a'") = Err e3 /\
  from_json default_cfg true (TMap uint) (doc_of " {}") = Err e4 /\
  from_json default_cfg true (TNullable uint) (doc_of " null") = Err e5.
Proof. eexists _, _, _, _, _. repeat split; vm_compute; reflexivity. Qed.
Print Assumptions C57_scalar_refuted.

(** C58: an array that is not closed is read beyond the end of the document. *)
Theorem C58_array_refuted : from_json default_cfg true (TArr uint) (doc_of "[") = UB /\
  from_json default_cfg true (TArr uint) (doc_of "[  ") = UB.
Proof. split; vm_compute; reflexivity. Qed.
Print Assumptions C58_array_refuted.

(** Outside of constant evaluation a class that is not closed as well. *)
Theorem C58_class_refuted :
  from_json (mkcfg ExRuntime false false false) true (TClass false [(bytes "a", uint)]) (doc_of "{'a':1,") = UB.
Proof. vm_compute. reflexivity. Qed.
Print Assumptions C58_class_refuted.

(** ** The theorems say something *)

Definition obj (js : list (string * jv)) : jv := JObj (map (fun m => (bytes (fst m), snd m)) js).
Definition num (s : string) : jv := JNum (bytes s).

Lemma usable_plain : forall names k, forallb (fun c => negb (c =? 34) && negb (c =? 92) && (31 <? c)) k = true ->
  forallb (fun nm => negb (name_hash false nm =? name_hash false k) || (if list_eq_dec N.eq_dec nm k then true else false)) names = true ->
  usable default_cfg names k.
Proof.
  intros names k H1 H2. split.
  - unfold name_ok. cbn [c_escnames default_cfg]. rewrite forallb_forall in H1. apply Forall_forall. intros c Hc. specialize (H1 c Hc). unfold plain. lia.
  - right. intros nm Hn E. rewrite forallb_forall in H2. specialize (H2 nm Hn). destruct (list_eq_dec N.eq_dec nm k); [auto|].
    rewrite orb_false_r, E, N.eqb_refl in H2. discriminate.
Qed.

(** The class { a : number, b : optional bool, c : array of strings } *)
Definition abc : ty := TClass false [(bytes "a", uint); (bytes "b", TNullable TBool); (bytes "c", TArr TStr)].
Definition js1 : list (list N * jv) := [(bytes "a", num "12"); (bytes "b", JTrue); (bytes "c", JArr [JStr (bytes "x"); JStr []])].
Definition js2 : list (list N * jv) := [(bytes "c", JArr [JStr (bytes "x"); JStr []]); (bytes "a", num "12"); (bytes "b", JTrue)].
Definition js3 : list (list N * jv) := [(bytes "z", JArr [JObj [(bytes "a", JNull)]]); (bytes "a", num "12"); (bytes "y", num "5"); (bytes "b", JTrue); (bytes "c", JArr [JStr (bytes "x"); JStr []])].
Definition x1 : val := VClass [VInt 12; VSome (VBool true); VArr [VStr (bytes "x"); VStr []]].

Ltac names := repeat (apply Forall_cons; [apply usable_plain; vm_compute; reflexivity|]); apply Forall_nil.
Ltac covers := split; reflexivity.
Ltac is_doc := vm_compute; repeat constructor.

Lemma den_x : denotes (bytes "x") (bytes "x").
Proof. change (bytes "x") with [120]. apply dn_plain; [lia|lia|apply dn_nil]. Qed.
Lemma sb_x : str_body (bytes "x").
Proof. change (bytes "x") with [120]. apply sb_plain; [lia|lia|constructor]. Qed.

Lemma canonical_of : forall ds, forallb is_digb ds = true -> negb (match ds with [] => true | [_] => false | c :: _ => c =? 48 end) = true -> canonical ds.
Proof.
  intros ds H1 H2. split; [|split].
  - unfold digits. rewrite forallb_forall in H1. apply Forall_forall. intros c Hc. apply is_digb_spec. auto.
  - destruct ds; [discriminate|congruence].
  - intros r ->. destruct r; [reflexivity|discriminate].
Qed.
Lemma jnum_int : forall ds, canonical ds -> jnum ds.
Proof. intros ds H. pose proof (jn [] ds [] [] (or_introl eq_refl) H fp_none ep_none) as X. cbn [app] in X. rewrite app_nil_r in X. exact X. Qed.

Lemma typed1 : typed (usable default_cfg) abc (JObj js1) x1.
Proof.
  exists js1. eexists. split; [reflexivity|]. split; [reflexivity|]. split.
  - repeat constructor; cbn; intuition discriminate.
  - split; [|split; [names|split; [discriminate|]]].
    + intros k [<-|[<-|[<-|[]]]]; vm_compute; lia.
    + cbn. split; [|split; [|split; [|exact I]]].
      * exists (bytes "12"). split; [reflexivity|]. split; [now apply canonical_of|]. split; [unfold int_size; auto|]. split; reflexivity.
      * right. split; [discriminate|]. eauto.
      * eexists _, _. split; [reflexivity|]. split; [reflexivity|]. repeat constructor; eexists _, _; (split; [reflexivity|split; [|reflexivity]]); [exact den_x|constructor].
Qed.

Ltac legals := repeat match goal with
  | |- _ /\ _ => split
  | |- True => exact I
  | |- jnum _ => apply jnum_int, canonical_of; reflexivity
  | |- str_body [] => apply sb_nil
  | |- str_body (_ :: _) => apply sb_plain; [lia|lia|]
  end.

Lemma compact_doc : forall t v, legal str_body v -> document t v (compact v).
Proof.
  intros t v H. exists [], (compact v), [], []. split; [constructor|]. split; [auto|]. split; [now apply compact_jtext|]. split; [constructor|].
  split; [auto|]. now rewrite !app_nil_r.
Qed.
Lemma is_bytes_of : forall b, forallb (fun c => c <? 256) b = true -> is_bytes b.
Proof. intros b H. apply Forall_forall. intros c Hc. rewrite forallb_forall in H. specialize (H c Hc). lia. Qed.

Example C24_ex : from_json default_cfg true abc (compact (JObj js1)) = Ok x1 /\ from_json default_cfg true abc (compact (JObj js2)) = Ok x1.
Proof.
  apply (C24_any_order_partial default_cfg) with (js := js1) (js' := js2); try (apply is_bytes_of; reflexivity); try reflexivity.
  - covers.
  - exact typed1.
  - unfold js1, js2. apply Permutation_sym. apply (Permutation_middle [_; _] []).
  - apply compact_doc. vm_compute. legals.
  - apply compact_doc. vm_compute. legals.
Qed.

Example C25_ex : from_json default_cfg true abc (compact (JObj js1)) = Ok x1 /\ from_json default_cfg true abc (compact (JObj js3)) = Ok x1.
Proof.
  apply (C25_unmapped_ignored_partial default_cfg) with (js := js1) (js' := js3); try (apply is_bytes_of; reflexivity); try reflexivity.
  - covers.
  - exact typed1.
  - names.
  - apply compact_doc. vm_compute. legals.
  - apply compact_doc. vm_compute. legals.
Qed.

Example C26_ex : from_json default_cfg false abc ([32] ++ compact (JObj [(bytes "a", num "12")]) ++ [44; 0]) = Err MemberNotFound.
Proof.
  apply (C26_missing_document_partial default_cfg) with (js := [(bytes "a", num "12")]); try (apply is_bytes_of; reflexivity); try reflexivity.
  - covers.
  - repeat constructor.
  - apply compact_jtext. vm_compute. legals.
  - repeat constructor; cbn; intuition discriminate.
  - intros k [<-|[<-|[<-|[]]]]; vm_compute; lia.
  - names.
  - discriminate.
  - apply lacking_later; [|apply lacking_later; [|apply lacking_here]]; try reflexivity.
    exists (VInt 12), (bytes "12"). split; [reflexivity|]. split; [now apply canonical_of|]. split; [unfold int_size; auto|]. split; reflexivity.
Qed.
(** The other members are what they are. *)
Example C26_optional_ex : from_json default_cfg true abc (doc_of "{'c':[],'a':7}") = Ok (VClass [VInt 7; VNone; VArr []]).
Proof. vm_compute. reflexivity. Qed.

Example C28_ex : exists q, parse_value default_cfg (TArr TStr) false (doc_of "[ 'x' ,'' ] ,") (new_ps 0 13) = Ok (VArr [VStr (bytes "x"); VStr []], q) /\ first q = 12%nat.
Proof. eexists. split; [vm_compute; reflexivity|reflexivity]. Qed.

Example C48_ex : exists e, from_json default_cfg true abc ([] ++ compact (JObj js1) ++ [32; 10] ++ 93 :: [1; 2]) = Err e.
Proof.
  apply (C48_garbage_rejected_partial default_cfg) with (v := JObj js1) (x := x1); try (apply is_bytes_of; reflexivity); try reflexivity; auto.
  - covers.
  - exact typed1.
  - apply compact_jtext. vm_compute. legals.
  - constructor.
  - apply Forall_forall. intros c [<-|[<-|[]]]; unfold json_ws; auto.
Qed.

Example C56_ex : from_json default_cfg true (TTuple false [uint; TBool]) (doc_of " [1,true,'x',[2],{}] ") = Ok (VTuple [VInt 1; VBool true]).
Proof. vm_compute. reflexivity. Qed.
Example C57_ex : from_json default_cfg true (TArr uint) (doc_of "   [1]") = Ok (VArr [VInt 1]).
Proof. vm_compute. reflexivity. Qed.
