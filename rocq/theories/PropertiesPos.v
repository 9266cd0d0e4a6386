(** C125: tuples whose members name their place in the array. *)
From Coq Require Import String.
From Coq Require Import List NArith ZArith Bool Lia Arith ZifyBool ZifyNat ZifyN.
From Verif Require Import Base Mem Loop PolicyModel IntModel StrScanModel SkipModel SpecNum SpecText SpecJson SpecUnicode SpecCompact SpecTokens
  IntValueProofs SkipProofs ScalarProofs ArrayProofs VariantProofs LaxProofs ClassProofs ClassProofs2
  HashModel ValueModel NameProofs SpecTyped TypedProofs TypedSafe PropertiesTyped PropertiesSafe PropertiesLax PropertiesIter
  OrdModel SpecOrd OrdProofs OrdRead PropertiesOrd PosModel PosProofs PosSafe.
Import ListNotations.
Local Open Scope N_scope.

Definition on_tuple (exact : bool) (ms : list (option nat * oty)) (s : string) : res val := from_json_pos default_cfg true exact ms (doc_of s).
Definition places (ks : list (option nat)) : list (option nat * oty) := map (fun k => (k, num)) ks.
Definition maybes (ks : list (option nat)) : list (option nat * oty) := map (fun k => (k, ONullable num)) ks.

(** ** C125
    Full statement: a tuple takes for every member the element at its place, the one
    named or the one behind the member before it, null for an element that is not
    there; elements behind the last member are passed over, or refused by an exact
    tuple.  Partial: only for well-formed documents, with at least one member, and if
    the element behind the last member is not an array (C125_array_refuted).
    [o_first es ms xs] says, by itself, that the members [ms] get [xs] from the
    elements [es]. *)
Theorem C125_read_partial : forall g verify exact ms es xs doc, covered g -> is_bytes doc -> N.of_nat (length doc) < 2^32 ->
  pos_document (JArr es) doc -> ms <> [] -> o_first (usable g) es ms xs ->
  (exact = true -> (length es <= past (map fst ms) 0)%nat) ->
  (forall a, nth_error es (past (map fst ms) 0) <> Some (JArr a)) ->
  from_json_pos g verify exact ms doc = Ok (VTuple xs).
Proof.
  intros g verify exact ms es xs doc [HX HE] HB H32 HD NE HF HEx HNA.
  destruct (pos_document_start g verify exact ms (JArr es) doc HB HD) as (p & tx & WF & HT & HS & HFl & ->).
  assert (PI : picks_all g es (pos_members g ms) 0 xs) by exact (o_first_picks g HX HE (usable g) (fun _ _ H => H) es ms xs HF).
  assert (MI : map om_index (pos_members g ms) = map fst ms) by exact (omem_index g ms).
  destruct (tuple_pos_inside g HX HE exact (pos_members g ms) es xs (none_ok_members g ms)) with (buf := doc) (p := p) (t := tx) (j := last p) as (q & EQ & MQ & LQ); auto.
  - destruct ms; [congruence|discriminate].
  - now rewrite MI.
  - rewrite MI. intros v Ev. destruct v; try exact I. exact (HNA _ Ev).
  - destruct HFl as (w & W & S1 & E1 & E2 & _). exists w. auto 7.
  - rewrite EQ. cbn [bind]. destruct verify; [|reflexivity].
    assert (LQl : last q = last p) by apply MQ.
    rewrite (trim_followed doc q (last p) HB) by (rewrite LQl; eapply followed_from; [exact HFl|exact LQ]).
    cbn [bind]. unfold ps_empty. cbn [isnull first last set_first]. rewrite LQl, Nat.leb_refl, orb_true_r. reflexivity.
Qed.
Print Assumptions C125_read_partial.

Theorem C125_extra_partial : forall g verify ms es xs doc, covered g -> is_bytes doc -> N.of_nat (length doc) < 2^32 ->
  pos_document (JArr es) doc -> ms <> [] -> o_first (usable g) es ms xs -> (past (map fst ms) 0 < length es)%nat ->
  from_json_pos g verify true ms doc = Err UnknownMember.
Proof.
  intros g verify ms es xs doc [HX HE] HB H32 HD NE HF HL.
  destruct (pos_document_start g verify true ms (JArr es) doc HB HD) as (p & tx & WF & HT & HS & HFl & ->).
  assert (PI : picks_all g es (pos_members g ms) 0 xs) by exact (o_first_picks g HX HE (usable g) (fun _ _ H => H) es ms xs HF).
  assert (MI : map om_index (pos_members g ms) = map fst ms) by exact (omem_index g ms).
  rewrite (tuple_pos_extra g HX HE (pos_members g ms) es xs (none_ok_members g ms)) with (t := tx) (j := last p); auto.
  - destruct ms; [congruence|discriminate].
  - now rewrite MI.
  - destruct HFl as (w & W & S1 & E1 & E2 & _). exists w. auto 7.
Qed.
Print Assumptions C125_extra_partial.

(** An array behind the last member ends the tuple at its own bracket. *)
Theorem C125_array_refuted : on_tuple false (places [Some 1%nat]) "[1,2,3]" = Ok (VTuple [VInt 2]) /\
  on_tuple false (places [Some 1%nat]) "[1,2,[3]]" = Err InvalidEndOfValue.
Proof. split; vm_compute; reflexivity. Qed.
Print Assumptions C125_array_refuted.

(** The class with the same members says what is missing; the tuple blames the bytes
    behind the array. *)
Theorem C125_missing_refuted : on_array (OOrdered false (places [None; Some 2%nat])) "[1,2]" = Err MemberNotFound /\
  on_tuple false (places [None; Some 2%nat]) "[1,2]" = Err InvalidNumber.
Proof. split; vm_compute; reflexivity. Qed.
Print Assumptions C125_missing_refuted.

(** Places that do not ascend are found out only if the array is long enough. *)
Theorem C125_disorder_refuted : on_tuple false (maybes [Some 2; Some 1]%nat) "[1,2,3]" = Err OutOfOrderOrderedMembers /\
  on_tuple false (maybes [Some 2; Some 1]%nat) "[]" = Ok (VTuple [VNone; VNone]) /\ ~ ascending [Some 2; Some 1]%nat 0.
Proof. split; [vm_compute; reflexivity|]. split; [vm_compute; reflexivity|]. cbn. lia. Qed.
Print Assumptions C125_disorder_refuted.

(** Commas are neither needed nor counted. *)
Theorem C125_lax_refuted :
  (on_tuple true (places [None; None]) "[1 2]" = Ok (VTuple [VInt 1; VInt 2]) /\ forall v, ~ jtext rfc_body v (doc_of "[1 2]")) /\
  (on_tuple true (places [Some 2%nat]) "[1 2 3,]" = Ok (VTuple [VInt 3]) /\ forall v, ~ jtext rfc_body v (doc_of "[1 2 3,]")).
Proof. split; (split; [vm_compute; reflexivity|]); apply not_json; vm_compute; reflexivity. Qed.
Print Assumptions C125_lax_refuted.

(** An array that is not closed is taken. *)
Theorem C125_open_refuted : on_tuple false (places [None; None]) "[1,2" = Ok (VTuple [VInt 1; VInt 2]) /\ forall v, ~ jtext rfc_body v (doc_of "[1,2").
Proof. split; [vm_compute; reflexivity|]. exact (proj2 (proj1 (proj2 (proj2 (proj2 C117_lax_refuted))))). Qed.
Print Assumptions C125_open_refuted.

(** Memory: a zero byte behind the document, as string literals have *)
Theorem C125_terminated_partial : forall g verify exact ms body, c_ex g = ExConstexpr -> is_bytes body -> N.of_nat (S (length body)) < 2^31 ->
  safe_tuple true exact ms = true ->
  match from_json_pos g verify exact ms (body ++ [0]) with Ok _ | Err _ => True | UB | Fuel => False end.
Proof.
  intros g verify exact ms body HX HB H31 HS.
  assert (E : nth_error (body ++ [0]) (length body) = Some 0) by (rewrite nth_error_app2, Nat.sub_diag by lia; reflexivity).
  apply (from_json_pos_in g verify exact ms (body ++ [0]) (length body) true); auto.
  - apply Forall_app. split; [exact HB|]. repeat constructor.
  - rewrite app_length. cbn [length]. lia.
  - rewrite app_length. cbn [length]. lia.
  - rewrite app_length. cbn [length]. replace (length body + 1 - 1)%nat with (length body) by lia. now rewrite E.
Qed.
Print Assumptions C125_terminated_partial.

(** Without it, only tuples whose members have no positions and that are not exact *)
Theorem C125_unterminated_partial : forall g verify exact ms doc, c_ex g = ExConstexpr -> is_bytes doc -> N.of_nat (length doc) < 2^31 ->
  safe_tuple false exact ms = true ->
  match from_json_pos g verify exact ms doc with Ok _ | Err _ => True | UB | Fuel => False end.
Proof.
  intros g verify exact ms doc HX HB H31 HS. destruct doc as [|b doc]; [exact I|].
  eapply (from_json_pos_in g verify exact ms (b :: doc) _ false); auto; [cbn [length]; lia|discriminate].
Qed.
Print Assumptions C125_unterminated_partial.

(** The loop that skips elements looks at the byte behind an open array, and so does
    the check for further elements. *)
Theorem C125_end_refuted : on_tuple false (places [Some 2%nat]) "[" = UB /\ on_tuple false (places [None]) "[" = Err UnexpectedEndOfData /\
  on_tuple true (places [None]) "[1" = UB.
Proof. repeat split; vm_compute; reflexivity. Qed.
Print Assumptions C125_end_refuted.

Example C125_safe_nonvacuous : safe_tuple true true (places [None; Some 2%nat]) = true /\ safe_tuple false false (places [None; None]) = true /\
  safe_tuple false true (places [None]) = false.
Proof. repeat split. Qed.

Example C125_ex :
  on_tuple false (places [None; Some 2; None]%nat) " [ 5, [1,2], 7 , 8, 9] " = Ok (VTuple [VInt 5; VInt 7; VInt 8]) /\
  on_tuple false (maybes [Some 1; Some 3]%nat) "[{},4]" = Ok (VTuple [VSome (VInt 4); VNone]) /\
  on_tuple true (places [None]) "[1,2]" = Err UnknownMember.
Proof. repeat split; vm_compute; reflexivity. Qed.

Example C125_nonvacuous : pos_document (JArr elements) (doc_of "[5,[1],7]") /\
  o_first (usable default_cfg) elements [(Some 2%nat, num)] [VInt 7] /\
  o_first (usable default_cfg) elements [(None, num)] [VInt 5] /\ (past (map fst [(@None nat, num)]) 0 < length elements)%nat.
Proof.
  destruct C117_nonvacuous as ((w0 & tx & w & z & H1 & _ & H2 & H3 & H4 & H5) & _ & H6 & H7).
  split; [exists w0, tx, w, z; auto|]. split; [exact H6|]. split; [exact H7|]. cbn. lia.
Qed.
