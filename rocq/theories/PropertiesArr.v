(** C109 (from_json_array and from_json_alloc) and C110 (from_json of a
    json_value). *)
From Coq Require Import String.
From Coq Require Import List NArith ZArith Bool Lia Arith ZifyBool ZifyNat ZifyN.
From Verif Require Import Base Mem Loop PolicyModel IntModel IntProofs IntValueProofs StrScanModel SkipModel SpecNum SpecText SpecJson SpecCompact
  SkipProofs SkipSafe HashModel ValueModel NameProofs ClassProofs SpecTyped ScalarProofs ArrayProofs TypedProofs PropertiesTyped SpecValue SpecPath JValueModel JValueProofs
  RawValueProofs StateModel StateProofs StateProofs2 PathModel PathProofs PathProofs2 PropertiesValue PropertiesPath TypedSafe PropertiesSafe PropertiesReject ArrModel.
Import ListNotations.
Local Open Scope N_scope.

(** ** C109 *)

(** What the library takes for whitespace, and a byte that is not *)
Definition blank (c : N) : Prop := 1 <= c <= 32.

Lemma is_space_blank : forall c, c < 256 -> is_space c = true <-> blank c.
Proof. intros c H. rewrite is_space_spec by exact H. unfold blank. lia. Qed.

(** Both ways of trimming stop at the first byte that is no whitespace. *)
Lemma trim_both : forall buf l k i, is_bytes buf -> (l <= length buf)%nat -> (k <= length buf)%nat -> (l <= i + k)%nat -> (i <= l)%nat ->
  (exists j c, (i <= j < l)%nat /\ nth_error buf j = Some c /\ ~ blank c) ->
  exists j c, (i <= j < l)%nat /\ nth_error buf j = Some c /\ is_space c = false /\
    trim_loop (S k) buf i l = Ok j /\ (forall f, (k < f)%nat -> trim_loop_unchecked f buf i = Ok j).
Proof.
  intros buf l. induction k as [|k IH]; intros i HB HL HK HI HIL (j & c & Hj & Hc & NB); [lia|].
  destruct (rd_in buf i) as (b & Hb); [lia|]. destruct (is_space b) eqn:SP.
  - assert (NJ : j <> i) by (intros ->; assert (b = c) by congruence; subst b; apply NB, is_space_blank; [eapply is_bytes_nth; eauto|exact SP]).
    destruct (IH (S i)) as (j' & c' & A & B & C & D & E); auto; try lia; [exists j, c; split; [lia|auto]|].
    exists j', c'. split; [lia|]. split; [exact B|]. split; [exact C|]. split.
    + remember (S k) as k1. cbn [trim_loop]. replace (i <? l)%nat with true by lia. rewrite (rd_some _ _ _ Hb). cbn [bind]. rewrite SP. exact D.
    + intros f HF. destruct f as [|f]; [lia|]. cbn [trim_loop_unchecked]. rewrite (rd_some _ _ _ Hb). cbn [bind]. rewrite SP. apply E. lia.
  - exists i, b. split; [lia|]. split; [exact Hb|]. split; [exact SP|]. split.
    + cbn [trim_loop]. replace (i <? l)%nat with true by lia. rewrite (rd_some _ _ _ Hb). cbn [bind]. now rewrite SP.
    + intros f HF. destruct f as [|f]; [lia|]. cbn [trim_loop_unchecked]. rewrite (rd_some _ _ _ Hb). cbn [bind]. now rewrite SP.
Qed.

Lemma trim_stays : forall buf p c, nth_error buf (first p) = Some c -> is_space c = false -> trim_left_checked buf p = Ok p.
Proof.
  intros buf p c Hc SP. unfold trim_left_checked. cbn [trim_loop]. rewrite (rd_some _ _ _ Hc). cbn [bind]. rewrite SP.
  destruct (first p <? last p)%nat; cbn [bind]; now destruct p.
Qed.
Lemma trim_unchecked_stays : forall buf p c, nth_error buf (first p) = Some c -> is_space c = false -> trim_left_unchecked buf p = Ok p.
Proof.
  intros buf p c Hc SP. unfold trim_left_unchecked. cbn [trim_loop_unchecked]. rewrite (rd_some _ _ _ Hc). cbn [bind]. rewrite SP. cbn [bind]. now destruct p.
Qed.

(** The array function is the parser of the array type once whitespace is skipped. *)
Lemma array_at : forall g verify t doc p j c, trim_left_unchecked doc p = Ok (set_first p j) -> trim_left_checked doc p = Ok (set_first p j) ->
  nth_error doc j = Some c -> is_space c = false ->
  array_from g verify t doc p = verified verify doc (parse_value g (TArr t) false doc p).
Proof.
  intros g verify t doc p j c E1 E2 Hc SP. unfold array_from. rewrite E1. cbn [bind parse_value]. unfold parse_value_array at 2. rewrite E2. cbn [bind].
  assert (E3 : trim_left_checked doc (set_first p j) = Ok (set_first p j)) by (eapply trim_stays; eauto).
  unfold parse_value_array. rewrite E3. cbn [bind].
  destruct (is_at doc (set_first p j) c_lbrack) as [[|]| | |]; cbn [ensure bind]; reflexivity.
Qed.

Lemma from_json_verified : forall g verify t doc l, l = (if nth (length doc - 1) doc 1 =? 0 then (length doc - 1)%nat else length doc) -> doc <> [] ->
  from_json g verify t doc = verified verify doc (parse_value g t false doc (new_ps 0 l)).
Proof.
  intros g verify t doc l EL NE. unfold from_json. assert (0 < length doc)%nat by (destruct doc; [congruence|cbn; lia]).
  replace (length doc =? 0)%nat with false by lia. cbn [negb ensure bind].
  destruct (rd_in doc (length doc - 1)) as (z & Hz); [lia|]. rewrite (rd_some _ _ _ Hz). cbn [bind]. cbv zeta.
  rewrite (nth_error_nth _ _ 1 Hz) in EL. rewrite <- EL. reflexivity.
Qed.

(** from_json_array gives what from_json gives for an array of the type, whatever
    the bytes, the type and the configuration.  Full claim: for every document;
    partial: it has a byte that is no whitespace, and does not end with a zero. *)
Theorem C109_same_partial : forall g verify t doc, is_bytes doc -> (exists c, In c doc /\ ~ blank c) -> List.last doc 1 <> 0 ->
  from_json_array g verify t doc = from_json g verify (TArr t) doc.
Proof.
  intros g verify t doc HB (c & HI & NB) HZ. assert (NE : doc <> []) by (intros ->; contradiction).
  assert (LD : (0 < length doc)%nat) by (destruct doc; [congruence|cbn; lia]).
  rewrite (from_json_verified g verify (TArr t) doc (length doc)); [|  |exact NE].
  - unfold from_json_array. replace (length doc =? 0)%nat with false by lia. cbn [negb ensure bind].
    apply In_nth_error in HI as (i & Hi). pose proof (proj1 (nth_error_Some doc i) ltac:(congruence)) as Li.
    destruct (trim_both doc (length doc) (length doc) 0) as (j & b & A & Bj & C & D & E); auto; try lia.
    { exists i, c. split; [lia|auto]. }
    apply (array_at g verify t doc _ j b); auto.
    + unfold trim_left_unchecked. cbn [first new_ps]. rewrite (E (S (length doc))) by lia. reflexivity.
    + unfold trim_left_checked. cbn [first last new_ps]. rewrite Nat.sub_0_r. rewrite D. reflexivity.
  - replace (nth (length doc - 1) doc 1) with (List.last doc 1).
    + now rewrite (proj2 (N.eqb_neq _ _) HZ).
    + clear. induction doc as [|a [|b doc] IH]; [reflexivity|reflexivity|]. cbn [length] in *.
      change (List.last (a :: b :: doc) 1) with (List.last (b :: doc) 1). rewrite IH.
      replace (S (S (length doc)) - 1)%nat with (S (S (length doc) - 1)) by lia. reflexivity.
Qed.
Print Assumptions C109_same_partial.

(** With a path there is no exception: whatever the bytes of the document and of
    the path. *)
Lemma jtype_front : forall buf v k, jtype buf v = Ok k -> base_type_eqb k BNone = false -> exists c, nth_error buf (first v) = Some c /\ is_space c = false.
Proof.
  intros buf v k E NK. unfold jtype in E. destruct (has_more v); cbn [negb] in E; [|injection E as <-; discriminate].
  unfold front, rd in E. destruct (nth_error buf (first v)) as [c|] eqn:Hc; [|discriminate]. cbn [bind] in E.
  exists c. split; [reflexivity|]. destruct (is_space c) eqn:SP; [exfalso|reflexivity].
  assert (S32 : (c + 2^32 - 1) mod 2^32 <= 31) by (unfold is_space in SP; lia).
  assert (X : forall n, 32 < n -> n < 256 -> (c =? n) = false).
  { intros n L1 L2. apply N.eqb_neq. intros ->. replace (n + 2^32 - 1) with (n - 1 + 1 * 2^32) in S32 by lia.
    rewrite N.mod_add, N.mod_small in S32; [lia| |discriminate]. change (2^32) with 4294967296. lia. }
  unfold c_quote, c_lbrace, c_lbrack, c_minus, c_t, c_f, c_n in E. rewrite !X in E by lia. cbn [orb] in E.
  destruct ((48 <=? c) && (c <=? 57)) eqn:DG; [|injection E as <-; discriminate].
  assert (c <> c); [|congruence]. intros _. pose proof (X c) as Y. rewrite N.eqb_refl in Y. assert (true = false) by (apply Y; lia). discriminate.
Qed.

Theorem C109_path_same : forall g verify t doc path, from_json_array_path g verify t doc path = from_json_path g verify (TArr t) doc path.
Proof.
  intros g verify t doc path. unfold from_json_array_path, from_json_path.
  destruct (ensure (negb (length doc =? 0)%nat) EmptyJSONDocument); cbn [bind]; try reflexivity.
  destruct (rd doc (length doc - 1)) as [z| | |]; cbn [bind]; try reflexivity. cbv zeta.
  destruct (jvalue doc _) as [v0| | |]; cbn [bind]; try reflexivity. destruct (find_member g doc v0 path) as [v| | |]; cbn [bind]; try reflexivity.
  destruct (jtype doc v) as [k| | |] eqn:EK; cbn [bind]; try reflexivity. destruct (base_type_eqb k BNone) eqn:NK; [reflexivity|].
  destruct (jtype_front doc v k EK NK) as (c & Hc & SP).
  rewrite (array_at g verify t doc v (first v) c); auto.
  - rewrite (trim_unchecked_stays doc v c Hc SP). now destruct v.
  - rewrite (trim_stays doc v c Hc SP). now destruct v.
Qed.
Print Assumptions C109_path_same.

(** from_json_alloc gives what from_json gives.  Partial: documents that do not
    end with a zero. *)
Theorem C109_alloc_partial : forall g verify t doc, List.last doc 1 <> 0 -> from_json_alloc g verify t doc = from_json g verify t doc.
Proof.
  intros g verify t doc HZ. assert (D : doc = [] \/ doc <> []) by (destruct doc; [now left|right; discriminate]). destruct D as [->|NE]; [reflexivity|].
  assert (LD : (0 < length doc)%nat) by (destruct doc; [congruence|cbn; lia]).
  rewrite (from_json_verified g verify t doc (length doc)); [|  |congruence].
  - unfold from_json_alloc. replace (length doc =? 0)%nat with false by lia. reflexivity.
  - replace (nth (length doc - 1) doc 1) with (List.last doc 1).
    + now rewrite (proj2 (N.eqb_neq _ _) HZ).
    + clear. induction doc as [|a [|b doc] IH]; [reflexivity|reflexivity|]. cbn [length] in *.
      change (List.last (a :: b :: doc) 1) with (List.last (b :: doc) 1). rewrite IH.
      replace (S (S (length doc)) - 1)%nat with (S (S (length doc) - 1)) by lia. reflexivity.
Qed.
Print Assumptions C109_alloc_partial.

(** So arrays are read: *)
Theorem C109_reads_partial : forall g verify t v x doc w0 tx w, covered g -> is_bytes doc -> N.of_nat (length doc) < 2^32 ->
  doc = w0 ++ tx ++ w -> ws w0 -> jtext str_body v tx -> ws w -> typed (usable g) (TArr t) v x -> from_json_array g verify t doc = Ok x.
Proof.
  intros g verify t v x doc w0 tx w HG HB HL ED W0 HT W HTy.
  destruct (jtext_last _ _ _ HT) as (rl & cl & EL & NL).
  rewrite C109_same_partial; auto.
  - apply (C29_parse_partial g HG verify (TArr t) v x doc); auto. exists w0, tx, w, [].
    split; [exact W0|]. split; [discriminate|]. split; [exact HT|]. split; [exact W|]. split; [now left|]. rewrite app_nil_r. exact ED.
  - destruct (jtext_head _ _ _ HT) as (h & r & EH & SH). exists h. split; [rewrite ED, EH; apply in_or_app; right; now left|].
    unfold blank, starter in *. lia.
  - rewrite ED. destruct w as [|y w'] using rev_ind.
    + rewrite app_nil_r, EL, app_assoc, last_last. lia.
    + rewrite !app_assoc, last_last. apply Forall_app in W as [_ W]. apply Forall_inv in W. unfold json_ws in W. lia.
Qed.
Print Assumptions C109_reads_partial.

(** ** Findings *)

(** A document of whitespace only is read past its end; from_json refuses it. *)
Theorem C109_blank_refuted : from_json_array default_cfg true uint (bytes "  ") = UB /\ from_json default_cfg true (TArr uint) (bytes "  ") = Err InvalidArrayStart.
Proof. split; vm_compute; reflexivity. Qed.
Print Assumptions C109_blank_refuted.

(** for any number of spaces, and any type and configuration *)
Theorem C109_all_blank_refuted : forall g verify t n, from_json_array g verify t (repeat 32 (S n)) = UB.
Proof.
  intros g verify t n. unfold from_json_array. rewrite repeat_length. cbn [Nat.eqb negb ensure bind]. unfold array_from, trim_left_unchecked. rewrite repeat_length. cbn [first new_ps].
  assert (X : forall m f i l, (i + m = l)%nat -> (m < f)%nat -> trim_loop_unchecked f (repeat 32 l) i = UB).
  { induction m as [|m IH]; intros f i l EL HF; (destruct f as [|f]; [lia|]); cbn [trim_loop_unchecked]; unfold rd.
    - rewrite (proj2 (nth_error_None _ _)); [reflexivity|]. rewrite repeat_length. lia.
    - destruct (nth_error (repeat 32 l) i) as [c|] eqn:Hc; [|apply nth_error_None in Hc; rewrite repeat_length in Hc; lia].
      apply nth_error_In, repeat_spec in Hc. subst c. cbn [bind]. change (is_space 32) with true. cbv iota. apply IH; lia. }
  rewrite (X (S n)) by lia. reflexivity.
Qed.
Print Assumptions C109_all_blank_refuted.

(** A terminating zero that is part of the range is taken for garbage, other than by
    from_json. *)
Theorem C109_zero_refuted :
  from_json_array default_cfg true uint (bytes "[1,2]" ++ [0]) = Err InvalidEndOfValue /\
  from_json_alloc default_cfg true (TArr uint) (bytes "[1,2]" ++ [0]) = Err InvalidEndOfValue /\
  from_json default_cfg true (TArr uint) (bytes "[1,2]" ++ [0]) = Ok (VArr [VInt 1; VInt 2]).
Proof. repeat split; vm_compute; reflexivity. Qed.
Print Assumptions C109_zero_refuted.

(** ** C110 *)

(** A value that the iteration or a lookup reached (C36, C37, C52) is read to what it
    means.  Partial for the types and configurations of C29_parse_partial. *)
Theorem C110_reads_partial : forall g t v x doc p, covered g -> is_bytes doc -> N.of_nat (length doc) < 2^32 ->
  value_at doc v p -> typed (usable g) t v x -> from_json_value g t doc p = Ok x.
Proof.
  intros g t v x doc p [HX HE] HB H32 (HW & tw & j & HTw & HS & FJ & NV) TY. unfold from_json_value.
  assert (NC : forall names k, usable g names k -> name_ok g k /\ tells g names k) by auto.
  destruct (proj1 (typed_reads g HX HE (usable g) NC t v x TY) doc p tw j) as (q & E & _); auto.
  rewrite E. reflexivity.
Qed.
Print Assumptions C110_reads_partial.

(** The value a path leads to from there is read. *)
Theorem C110_path_partial : forall g t v x doc p path ptx w, covered g -> is_bytes doc -> N.of_nat (length doc) < 2^32 ->
  value_at doc v p -> leads (names_ok g) v path w -> path_text path ptx -> typed (usable g) t w x ->
  from_json_value_path g t doc p ptx = Ok x.
Proof.
  intros g t v x doc p path ptx w HG HB H32 HV HL PT TY. unfold from_json_value_path.
  assert (EP : jvalue doc p = Ok p).
  { destruct HV as (_ & tw & j & HTw & HS & _). destruct (jtext_head _ _ _ HTw) as (h & r & -> & SH). apply (trim_here doc p h); auto; [exact (proj1 HS)|].
    unfold starter in SH. lia. }
  rewrite EP. cbn [bind]. destruct (C52_lookup_partial g doc v p path ptx w HG H32 HV HL PT) as (r & ER & VR). rewrite ER. cbn [bind].
  rewrite (C36_type_partial doc H32 _ _ VR). cbn [bind]. replace (base_type_eqb (kind_of w) BNone) with false by (now destruct w).
  apply (C110_reads_partial g t w x doc r); auto.
Qed.
Print Assumptions C110_path_partial.

(** A path that leads nowhere from there is an error, for a nullable type it is the
    empty value. *)
Theorem C110_missing_partial : forall g t v doc p path ptx, covered g -> is_bytes doc -> N.of_nat (length doc) < 2^32 ->
  value_at doc v p -> dead (names_ok g) v path -> path_text path ptx ->
  from_json_value_path g t doc p ptx = if is_nullable t then Ok VNone else Err JSONPathNotFound.
Proof.
  intros g t v doc p path ptx HG HB H32 HV HD PT. unfold from_json_value_path.
  assert (EP : jvalue doc p = Ok p).
  { destruct HV as (_ & tw & j & HTw & HS & _). destruct (jtext_head _ _ _ HTw) as (h & r & -> & SH). apply (trim_here doc p h); auto; [exact (proj1 HS)|].
    unfold starter in SH. lia. }
  rewrite EP. cbn [bind]. destruct (C52_missing_partial g HG doc H32 v p path ptx HV HD PT) as (r & ER & MR). rewrite ER. cbn [bind]. rewrite MR. reflexivity.
Qed.
Print Assumptions C110_missing_partial.

(** Reading any value that was reached in any bytes stays inside the document.
    Partial for the types of C58_unterminated_partial. *)
Definition own_end (v : ps) : Prop := isnull v = false -> clast v = Some (last v).

Lemma jvalue_end : forall buf q v, jvalue buf (restate q) = Ok v -> own_end v.
Proof.
  intros buf q v E. unfold jvalue, trim_left_checked in E. destruct (trim_loop _ _ _ _) as [j| | |]; cbn [bind] in E; try discriminate. injection E as <-.
  unfold own_end, restate. destruct (isnull q); cbn; [discriminate|reflexivity].
Qed.

Lemma deref_end : forall g buf p m, it_deref g buf p = Ok m -> own_end (snd m).
Proof.
  intros g buf p m E. unfold it_deref in E. destruct (class_is buf p c_lbrack) as [[|]| | |]; cbn [bind] in E; try discriminate.
  - destruct (jvalue buf (restate p)) as [v| | |] eqn:EJ; cbn [bind] in E; try discriminate. injection E as <-. exact (jvalue_end _ _ _ EJ).
  - destruct (parse_name g buf p) as [[n q]| | |]; cbn [bind] in E; try discriminate.
    destruct (jvalue buf (restate q)) as [v| | |] eqn:EJ; cbn [bind] in E; try discriminate. injection E as <-. exact (jvalue_end _ _ _ EJ).
Qed.

Lemma seen_end : forall g buf f s r, loop (iter_body g buf) f s = Ok r -> Forall (fun m => own_end (snd m)) (snd s) -> Forall (fun m => own_end (snd m)) (snd r).
Proof.
  intros g buf. induction f as [|f IH]; intros [p seen] r E F; cbn [loop] in E; [discriminate|]. unfold iter_body in E at 1.
  destruct (it_eq buf p null_state) as [[|]| | |]; cbn [bind] in E; try discriminate; [injection E as <-; exact F|].
  destruct (it_deref g buf p) as [m| | |] eqn:ED; cbn [bind] in E; try discriminate. destruct (it_next g buf p) as [q| | |]; cbn [bind] in E; try discriminate.
  apply (IH _ _ E). cbn [snd]. apply Forall_app. split; [exact F|]. constructor; [exact (deref_end _ _ _ _ ED)|constructor].
Qed.

Lemma reached_end : forall g buf v, reached g buf v -> own_end v.
Proof.
  intros g buf v HR. destruct HR as [v E|v q seen n w _ _ E IN].
  - unfold jvalue, trim_left_checked in E. destruct (trim_loop _ _ _ _) as [j| | |]; cbn [bind] in E; try discriminate. injection E as <-. intros _. reflexivity.
  - unfold iterate in E. destruct (it_begin buf v) as [b| | |]; cbn [bind] in E; try discriminate. apply seen_end in E; [|constructor].
    cbn [snd] in E. rewrite Forall_forall in E. exact (E _ IN).
Qed.

Theorem C110_safe_partial : forall g t doc v, c_ex g = ExConstexpr -> is_bytes doc -> N.of_nat (length doc) < 2^31 ->
  reached g doc v -> (first v <= length doc)%nat -> safe_type false t = true ->
  match from_json_value g t doc v with Ok _ | Err _ => True | UB | Fuel => False end.
Proof.
  intros g t doc v HX HB H31 HR HF HS. destruct (reached_raw g doc v HB HR) as (_ & EL & _ & EN). pose proof (reached_end g doc v HR EN) as EC.
  destruct (parse_value_safe doc (length doc) false HB (Nat.le_refl _) ltac:(discriminate) H31 g HX t HS) as [PO _].
  assert (IV : inv (length doc) v) by (split; [exact EN|]; split; [exact HF|]; exists (last v); split; [exact EC|lia]).
  pose proof (PO v IV) as X. unfold from_json_value. destruct (parse_value g t false doc v) as [[x q]| | |]; cbn [bind outcome_ok] in *; auto.
Qed.
Print Assumptions C110_safe_partial.

(** They say something. *)
Example C109_ex : from_json_array default_cfg true (TNullable uint) (bytes " [1, null ,3] ") = Ok (VArr [VSome (VInt 1); VNone; VSome (VInt 3)]).
Proof.
  rewrite C109_same_partial; [vm_compute; reflexivity|apply is_bytes_of; reflexivity| |discriminate].
  exists 91. split; [cbn; tauto|unfold blank; lia].
Qed.
Definition ex_value : list N := doc_of "{'p':[1,{'q':[2,3]}]}".
Example C110_missing_ex : from_json_value_path default_cfg uint ex_value (new_ps 0 (length ex_value)) (bytes "p[1].r") = Err JSONPathNotFound /\
  from_json_value_path default_cfg (TNullable uint) ex_value (new_ps 0 (length ex_value)) (bytes "p[1].r") = Ok VNone.
Proof. vm_compute. auto. Qed.
Example C110_ex : exists v, reached default_cfg ex_value v /\
  from_json_value_path default_cfg (TArr uint) ex_value v (bytes "p[1].q") = Ok (VArr [VInt 2; VInt 3]).
Proof.
  exists (new_ps 0 (length ex_value)). split; [apply at_root; vm_compute; reflexivity|vm_compute; reflexivity].
Qed.
