(** C117, C118 and C119: classes that are read from and written as arrays. *)
From Coq Require Import String.
From Coq Require Import List NArith ZArith Bool Lia Arith ZifyBool ZifyNat ZifyN.
From Verif Require Import Base Mem Loop PolicyModel IntModel StrScanModel SkipModel SpecNum SpecText SpecJson SpecUnicode SpecCompact SpecTokens
  HashModel ValueModel NameProofs SpecTyped TypedProofs TypedSafe PropertiesTyped PropertiesSafe SerModel SpecSer SerProofs SerProofs2 PropertiesSer PropertiesLax PropertiesIter
  OrdModel SpecOrd OrdProofs OrdRead OrdSer OrdSafe.
Import ListNotations.
Local Open Scope N_scope.

Definition on_array (t : oty) (s : string) : res val := from_json_o default_cfg true t (doc_of s).
Definition num : oty := OTy uint.
Definition at_places (ks : list (option nat)) : oty := OOrdered false (map (fun k => (k, num)) ks).
Definition maybe_at (ks : list (option nat)) : oty := OOrdered false (map (fun k => (k, ONullable num)) ks).

(** ** C117
    Full statement: a class that is mapped to an array takes for every member the
    element at its place, the one named or the one behind the member before it; an
    array without an element that is needed, a mapping whose places do not ascend,
    and, for an exact class, an array with elements behind the last member are
    refused.  Partial: only for well-formed documents (what is accepted otherwise is
    below), with at least one member. *)
Theorem C117_read_partial : forall g verify t v x doc, covered g -> is_bytes doc -> N.of_nat (length doc) < 2^32 ->
  o_document t v doc -> o_means (usable g) t v x -> from_json_o g verify t doc = Ok x.
Proof. intros g verify t v x doc [HX HE] HB H32 HD HM. eapply (from_json_o_means g HX HE (usable g)); eauto. Qed.
Print Assumptions C117_read_partial.

(** The first members [ms1] are there; the next one is not. *)
Theorem C117_missing_partial : forall g verify exact ms1 k t ms2 es xs doc, covered g -> is_bytes doc -> N.of_nat (length doc) < 2^32 ->
  o_document (OOrdered exact (ms1 ++ (k, t) :: ms2)) (JArr es) doc -> o_first (usable g) es ms1 xs ->
  (past (map fst ms1) 0 <= place k (past (map fst ms1) 0))%nat -> (length es <= place k (past (map fst ms1) 0))%nat -> o_nullable t = false ->
  from_json_o g verify (OOrdered exact (ms1 ++ (k, t) :: ms2)) doc = Err MemberNotFound.
Proof. intros g verify exact ms1 k t ms2 es xs doc [HX HE]. intros. eapply (o_missing_refused g HX HE (usable g)); eauto. Qed.
Print Assumptions C117_missing_partial.

(** The place of the next member is not behind the one before it.  Only if the array
    reaches that far: see C117_disorder_refuted. *)
Theorem C117_disorder_partial : forall g verify exact ms1 k t ms2 es xs doc, covered g -> is_bytes doc -> N.of_nat (length doc) < 2^32 ->
  o_document (OOrdered exact (ms1 ++ (Some k, t) :: ms2)) (JArr es) doc -> o_first (usable g) es ms1 xs ->
  (past (map fst ms1) 0 <= length es)%nat -> (k < past (map fst ms1) 0)%nat ->
  from_json_o g verify (OOrdered exact (ms1 ++ (Some k, t) :: ms2)) doc = Err OutOfOrderOrderedMembers.
Proof. intros g verify exact ms1 k t ms2 es xs doc [HX HE]. intros. eapply (o_disorder_refused g HX HE (usable g)); eauto. Qed.
Print Assumptions C117_disorder_partial.

Theorem C117_extra_partial : forall g verify ms es xs doc, covered g -> is_bytes doc -> N.of_nat (length doc) < 2^32 -> ms <> [] ->
  o_document (OOrdered true ms) (JArr es) doc -> o_first (usable g) es ms xs -> (past (map fst ms) 0 < length es)%nat ->
  from_json_o g verify (OOrdered true ms) doc = Err UnknownMember.
Proof. intros g verify ms es xs doc [HX HE]. intros. eapply (o_extra_refused g HX HE (usable g)); eauto. Qed.
Print Assumptions C117_extra_partial.

(** A mapping that goes back from 2 to 1 is refused for [1,2,3], but not for []. *)
Theorem C117_disorder_refuted : on_array (maybe_at [Some 2; Some 1]%nat) "[1,2,3]" = Err OutOfOrderOrderedMembers /\
  on_array (maybe_at [Some 2; Some 1]%nat) "[]" = Ok (VClass [VNone; VNone]) /\ ~ ascending [Some 2; Some 1]%nat 0.
Proof. split; [vm_compute; reflexivity|]. split; [vm_compute; reflexivity|]. cbn. lia. Qed.
Print Assumptions C117_disorder_refuted.

(** Commas are neither needed nor counted, and the array need not be closed. *)
Theorem C117_lax_refuted :
  (on_array (at_places [None; None]) "[1 2]" = Ok (VClass [VInt 1; VInt 2]) /\ forall v, ~ jtext rfc_body v (doc_of "[1 2]")) /\
  (on_array (at_places [None; None]) "[,1,2]" = Ok (VClass [VInt 1; VInt 2]) /\ forall v, ~ jtext rfc_body v (doc_of "[,1,2]")) /\
  (on_array (maybe_at [None; None]) "[1,]" = Ok (VClass [VSome (VInt 1); VNone]) /\ forall v, ~ jtext rfc_body v (doc_of "[1,]")) /\
  (on_array (at_places [None; None]) "[1,2" = Ok (VClass [VInt 1; VInt 2]) /\ forall v, ~ jtext rfc_body v (doc_of "[1,2")) /\
  (on_array (at_places [Some 2%nat]) "[1 2 3]" = Ok (VClass [VInt 3]) /\ forall v, ~ jtext rfc_body v (doc_of "[1 2 3]")).
Proof.
  split; [|split; [|split; [|split]]]; (split; [vm_compute; reflexivity|]).
  - apply not_json; vm_compute; reflexivity.
  - intros v. apply (no_array [44; 49; 44; 50]).
    + intros es H. destruct (elems_first _ _ _ H) as (w & c & r & E & W & C1 & C2). destruct w as [|a w]; injection E; intros; subst; [congruence|].
      apply Forall_inv in W. unfold json_ws in W. lia.
    + intros W. apply Forall_inv in W. unfold json_ws in W. lia.
  - intros v. apply (no_array [49; 44]).
    + intros es H. destruct (elems_last _ _ _ H) as (r & c & w & E & W & C).
      destruct r as [|a [|b r]]; injection E; intros; subst; try congruence; [apply Forall_inv in W; unfold json_ws in W; lia|now destruct r].
    + intros W. apply Forall_inv in W. unfold json_ws in W. lia.
  - intros v H. change (doc_of "[1,2") with (91 :: [49; 44] ++ [50]) in H. inversion H as [| | |n HJ| |w W E1 E|es t HE E1 E| |].
    + apply jnum_chars in HJ as [F _]. apply Forall_inv in F. unfold numc in F. lia.
    + apply (app_inj_tail w [49; 44]) in E as [_ E]. discriminate.
    + apply (app_inj_tail t [49; 44]) in E as [_ E]. discriminate.
  - apply not_json; vm_compute; reflexivity.
Qed.
Print Assumptions C117_lax_refuted.

(** A class without members takes [1] but not [[1]]: the inner array is skipped
    instead of the rest of the outer one. *)
Theorem C117_none_refuted : on_array (OOrdered false []) "[1]" = Ok (VClass []) /\ on_array (OOrdered false []) "[[1]]" = Err InvalidEndOfValue.
Proof. split; vm_compute; reflexivity. Qed.
Print Assumptions C117_none_refuted.

(** The element between is skipped whatever it is; members without a place follow
    the one before; elements that are not there are null; nested classes. *)
Example C117_ex :
  on_array (at_places [None; Some 2; None]%nat) " [ 5, [1,2], 7 , 8, 9] " = Ok (VClass [VInt 5; VInt 7; VInt 8]) /\
  on_array (maybe_at [Some 1; Some 3]%nat) "[{},null]" = Ok (VClass [VNone; VNone]) /\
  on_array (maybe_at [Some 1; Some 3]%nat) "[{},4]" = Ok (VClass [VSome (VInt 4); VNone]) /\
  on_array (OClass false [(bytes "p", at_places [None; None]); (bytes "q", OArr (at_places [Some 1%nat]))]) "{'q':[[1,2],['a',3]],'p':[4,5]}"
    = Ok (VClass [VClass [VInt 4; VInt 5]; VArr [VClass [VInt 2]; VClass [VInt 3]]]) /\
  on_array (at_places [None; Some 2]%nat) "[1,2]" = Err MemberNotFound /\
  on_array (OOrdered true [(None, num)]) "[1,2]" = Err UnknownMember.
Proof. repeat split; vm_compute; reflexivity. Qed.

Lemma digit_member : forall d, 48 <= d <= 57 -> o_means (usable default_cfg) num (JNum [d]) (VInt (Z.of_N (d - 48))).
Proof.
  intros d HD. cbn [o_means num typed uint]. exists [d]. split; [reflexivity|]. split; [apply canonical_of; [unfold forallb, is_digb; lia|reflexivity]|]. split; [unfold int_size; auto|].
  assert (E : dec_val [d] = d - 48) by (cbn; lia). rewrite E. split; [|reflexivity]. change (2^32) with 4294967296. lia.
Qed.

(** The hypotheses can be met: [5,[1],7] has a 5 in front and a 7 at place 2; it
    has no element at place 3, and one behind a class with one member; places 2 and 1
    are in the wrong order. *)
Definition elements : list jv := [JNum [53]; JArr [JNum [49]]; JNum [55]].
Example C117_nonvacuous : o_document (at_places [None; Some 2%nat]) (JArr elements) (doc_of "[5,[1],7]") /\
  o_means (usable default_cfg) (at_places [None; Some 2%nat]) (JArr elements) (VClass [VInt 5; VInt 7]) /\
  o_first (usable default_cfg) elements [(Some 2%nat, num)] [VInt 7] /\
  o_first (usable default_cfg) elements [(None, num)] [VInt 5].
Proof.
  split; [|split; [|split]].
  - exists [], (doc_of "[5,[1],7]"), [], []. split; [exact (Forall_nil _)|]. split; [reflexivity|]. split; [|split; [exact (Forall_nil _)|split; [now left|reflexivity]]].
    change (doc_of "[5,[1],7]") with (91 :: ([] ++ [53] ++ [] ++ 44 :: ([] ++ (91 :: ([] ++ [49] ++ []) ++ [93]) ++ [] ++ 44 :: ([] ++ [55] ++ []))) ++ [93]).
    apply t_arr. apply e_cons; try exact (Forall_nil _); [constructor; now apply jnum_digit|].
    apply e_cons; try exact (Forall_nil _); [|apply e_one; try exact (Forall_nil _); constructor; now apply jnum_digit].
    apply t_arr. apply e_one; try exact (Forall_nil _). constructor; now apply jnum_digit.
  - exists elements. eexists. split; [reflexivity|]. split; [reflexivity|]. split; [discriminate|]. split; [cbn; lia|]. split; [discriminate|].
    split; [apply (digit_member 53); lia|]. split; [apply (digit_member 55); lia|exact I].
  - split; [cbn; lia|]. split; [apply (digit_member 55); lia|exact I].
  - split; [cbn; lia|]. split; [apply (digit_member 53); lia|exact I].
Qed.

(** ** C118
    Full statement: what is written for a class that is mapped to an array is JSON,
    means the value, and is read back as the value.  Partial: only if every member but
    the last is placed before the position that is the number of members minus one
    (see C118_gap_refuted), and without trailing commas. *)
Theorem C118_well_formed_partial : forall g o t x, o_trailing o = false -> layout o -> o_belongs t x ->
  exists v out, to_json_o o t x = Ok out /\ jtext rfc_body v out /\ is_bytes out /\ o_means (usable g) t v x.
Proof.
  intros g o t x HT HL HB. destruct (o_written o HT HL g t 0 x HB) as (v & out & E & (G1 & G2 & _) & M & _). exists v, out. auto.
Qed.
Print Assumptions C118_well_formed_partial.

Theorem C118_round_trip_partial : forall g verify o t x out, covered g -> o_trailing o = false -> layout o -> o_belongs t x ->
  to_json_o o t x = Ok out -> N.of_nat (length out) < 2^32 -> from_json_o g verify t out = Ok x.
Proof.
  intros g verify o t x out HG HT HL HB E H32.
  destruct (o_written o HT HL g t 0 x HB) as (v & out' & E' & (G1 & G2 & _) & M & _).
  unfold to_json_o in E. assert (out' = out) by congruence. subst out'.
  apply (C117_read_partial g verify t v x out); auto.
  exists [], out, [], []. split; [exact (Forall_nil _)|]. split; [reflexivity|]. split; [|split; [exact (Forall_nil _)|split; [now left|now rewrite app_nil_r]]].
  eapply (proj1 (jtext_weaken rfc_body str_body rfc_str_body)); eauto.
Qed.
Print Assumptions C118_round_trip_partial.

Definition pair_of : oty := OClass false [(bytes "p", at_places [None; Some 1]%nat); (bytes "q", OArr (maybe_at [Some 0; Some 4]%nat))].
Definition pair_value : val := VClass [VClass [VInt 1; VInt 2]; VArr [VClass [VNone; VSome (VInt 3)]]].
Example C118_nonvacuous : o_belongs pair_of pair_value /\
  to_json_o minified pair_of pair_value = Ok (doc_of "{'p':[1,2],'q':[[null,null,null,null,3]]}") /\ layout minified.
Proof.
  assert (N1 : forall z, (0 <= z < 10)%Z -> o_belongs num (VInt z)).
  { intros z HZ. cbn [o_belongs num belongs uint]. split; [unfold int_size; auto|]. exists z. split; [reflexivity|]. change (2 ^ 32)%Z with 4294967296%Z. lia. }
  split; [|split; [vm_compute; reflexivity|]].
  - unfold pair_of, pair_value, at_places, maybe_at. cbn [map fst snd]. split; [|split].
    + repeat (constructor; [cbn; intros H; repeat (destruct H as [H|H]; [discriminate|]); contradiction|]). constructor.
    + repeat (constructor; [apply Forall_forall; intros c Hc; cbn in Hc; repeat (destruct Hc as [<-|Hc]; [lia|]); contradiction|]). constructor.
    + eexists. split; [reflexivity|]. split; [|split; [|exact I]].
      * split; [discriminate|]. split; [cbn; lia|]. split; [cbn; lia|]. eexists. split; [reflexivity|]. split; [apply N1; lia|]. split; [apply N1; lia|exact I].
      * eexists. split; [reflexivity|]. constructor; [|constructor].
        split; [discriminate|]. split; [cbn; lia|]. split; [cbn; lia|]. eexists. split; [reflexivity|].
        split; [split; [reflexivity|now left]|]. split; [|exact I]. split; [reflexivity|]. right. eexists. split; [reflexivity|apply N1; lia].
  - split; [exact (Forall_nil _)|apply Forall_cons; [unfold json_ws; lia|apply Forall_nil]].
Qed.

(** Members at 2, 3 and 4: no comma is written between them.  Numbers become one
    number, strings stand side by side and are read back, as C117_lax_refuted allows. *)
Theorem C118_gap_refuted : exists out out',
  (to_json_o minified (at_places [Some 2; Some 3; Some 4]%nat) (VClass [VInt 1; VInt 2; VInt 3]) = Ok out /\ out = doc_of "[null,null,123]" /\
   from_json_o default_cfg true (at_places [Some 2; Some 3; Some 4]%nat) out = Err MemberNotFound) /\
  (let t := OOrdered false [(Some 2%nat, OTy TStr); (Some 3%nat, OTy TStr)] in
   let x := VClass [VStr (bytes "a"); VStr (bytes "b")] in
   to_json_o minified t x = Ok out' /\ (forall v, ~ jtext rfc_body v out') /\ from_json_o default_cfg true t out' = Ok x).
Proof.
  eexists. eexists. split; [|split; [vm_compute; reflexivity|split]].
  - split; [vm_compute; reflexivity|]. split; vm_compute; reflexivity.
  - apply not_json; vm_compute; reflexivity.
  - vm_compute; reflexivity.
Qed.
Print Assumptions C118_gap_refuted.

(** ** C119
    Full statement: reading a class from an array never reads outside the document
    and always ends, whatever the bytes.  Partial: [safe_o] says for which types. *)
Lemma from_json_o_in : forall g verify t doc M z, c_ex g = ExConstexpr -> is_bytes doc -> N.of_nat (length doc) < 2^31 -> (0 < length doc)%nat ->
  M = match nth_error doc (length doc - 1) with Some 0%N => (length doc - 1)%nat | _ => length doc end ->
  (z = true -> nth_error doc M = Some 0) -> safe_o z t = true ->
  match from_json_o g verify t doc with Ok _ | Err _ => True | UB | Fuel => False end.
Proof.
  intros g verify t doc M z HX HB H31 NE EM HZ HS. unfold from_json_o.
  replace (length doc =? 0)%nat with false by lia. cbn [negb ensure bind].
  destruct (rd_in doc (length doc - 1)) as (b & Hb); [lia|]. rewrite (rd_some _ _ _ Hb). cbn [bind]. cbv zeta.
  rewrite Hb in EM. assert (EM' : M = if b =? 0 then (length doc - 1)%nat else length doc) by (destruct b; exact EM). rewrite <- EM'.
  assert (LM : (M <= length doc)%nat) by (rewrite EM'; destruct (b =? 0); lia).
  destruct (parse_o_safe doc M z HB LM HZ H31 g HX t HS) as [PO _].
  pose proof (PO _ (new_ps_inv M)) as X.
  destruct (parse_o g t false doc (new_ps 0 M)) as [[v q]| | |]; cbn [bind outcome_ok snd] in *; auto.
  destruct verify; [|exact I].
  assert (IQ : inv M q) by (exact (inv_fw doc M LM z _ _ (new_ps_inv M) X)).
  destruct (trim_fw doc M LM z _ IQ) as (r & -> & _). cbn [bind].
  destruct (ps_empty r); exact I.
Qed.

(** A zero byte behind the document, as string literals have *)
Theorem C119_terminated_partial : forall g verify t body, c_ex g = ExConstexpr -> is_bytes body -> N.of_nat (S (length body)) < 2^31 ->
  safe_o true t = true ->
  match from_json_o g verify t (body ++ [0]) with Ok _ | Err _ => True | UB | Fuel => False end.
Proof.
  intros g verify t body HX HB H31 HS.
  assert (E : nth_error (body ++ [0]) (length body) = Some 0) by (rewrite nth_error_app2, Nat.sub_diag by lia; reflexivity).
  apply (from_json_o_in g verify t (body ++ [0]) (length body) true); auto.
  - apply Forall_app. split; [exact HB|]. repeat constructor.
  - rewrite app_length. cbn [length]. lia.
  - rewrite app_length. cbn [length]. lia.
  - rewrite app_length. cbn [length]. replace (length body + 1 - 1)%nat with (length body) by lia. now rewrite E.
Qed.
Print Assumptions C119_terminated_partial.

(** Without it, only classes whose members have no positions and that are not exact *)
Theorem C119_unterminated_partial : forall g verify t doc, c_ex g = ExConstexpr -> is_bytes doc -> N.of_nat (length doc) < 2^31 ->
  safe_o false t = true ->
  match from_json_o g verify t doc with Ok _ | Err _ => True | UB | Fuel => False end.
Proof.
  intros g verify t doc HX HB H31 HS. destruct doc as [|b doc]; [exact I|].
  eapply (from_json_o_in g verify t (b :: doc) _ false); auto; [cbn [length]; lia|discriminate].
Qed.
Print Assumptions C119_unterminated_partial.

(** The loop that skips elements looks at the byte behind an open array. *)
Theorem C119_positions_refuted : on_array (at_places [Some 0%nat]) "[" = UB /\ on_array (at_places [None]) "[" = Err UnexpectedEndOfData.
Proof. split; vm_compute; reflexivity. Qed.
Print Assumptions C119_positions_refuted.

(** So does the check for further elements. *)
Theorem C119_exact_refuted : on_array (OOrdered true [(None, num)]) "[1" = UB /\ on_array (OOrdered false [(None, num)]) "[1" = Ok (VClass [VInt 1]).
Proof. split; vm_compute; reflexivity. Qed.
Print Assumptions C119_exact_refuted.

Example C119_nonvacuous : safe_o true pair_of = true /\ safe_o true (OOrdered true [(Some 3%nat, OTy TStr); (None, num)]) = true /\
  safe_o false (OOrdered false [(None, OTy TStr); (None, ONullable (OOrdered false [(None, num)]))]) = true /\
  safe_o false (at_places [Some 0%nat]) = false.
Proof. repeat split. Qed.
