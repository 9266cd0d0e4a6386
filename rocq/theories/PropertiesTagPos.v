(** C126: variants whose tag is another element of the array. *)
From Coq Require Import String.
From Coq Require Import List NArith ZArith Bool Lia Arith ZifyBool ZifyNat ZifyN.
From Verif Require Import Base Mem Loop PolicyModel IntModel StrScanModel SkipModel SpecNum SpecText SpecJson SpecUnicode SpecCompact SpecTokens
  IntValueProofs SkipProofs ScalarProofs ArrayProofs VariantProofs LaxProofs ClassProofs ClassProofs2
  HashModel ValueModel NameProofs SpecTyped TypedProofs TypedSafe PropertiesTyped PropertiesSafe PropertiesLax PropertiesIter
  OrdModel SpecOrd OrdProofs OrdRead OrdSafe PropertiesOrd PosModel PosProofs PosSafe PropertiesPos TagPosModel TagPosProofs.
Import ListNotations.
Local Open Scope N_scope.

(** ** C126
    Full statement: a member that is a variant whose tag is the element at place [k]
    takes the alternative that the tag chooses, wherever the tag is in the array: before
    the variant, behind it, the variant itself, or behind everything that is read.
    Partial: only for well-formed documents, and a tuple must not be followed by an
    array (C125_array_refuted).  [p_members es ms 0 xs] says, by itself, that the members
    [ms] get [xs] from the elements [es]; [exact] in PTagged wants the tag to be the
    last element. *)
Theorem C126_read_partial : forall g verify s exact ms es xs doc, covered g -> is_bytes doc -> N.of_nat (length doc) < 2^32 ->
  pos_document (JArr es) doc -> ms <> [] -> p_members (usable g) es ms 0 xs ->
  (exact = true -> (length es <= past (map fst ms) 0)%nat) ->
  (s = ATuple -> forall a, nth_error es (past (map fst ms) 0) <> Some (JArr a)) ->
  from_json_shape g verify s exact ms doc = Ok (match s with AClass => VClass xs | ATuple => VTuple xs end).
Proof.
  intros g verify s exact ms es xs doc [HX HE] HB H32 HD NE HM HEx HNA.
  apply (shape_reads g HX HE (usable g)) with (es := es); auto. intros -> v Ev. destruct v; try exact I. exact (HNA eq_refl _ Ev).
Qed.
Print Assumptions C126_read_partial.

(** One variant: the tag is found from any element of the array, and an index that
    stands for no alternative is refused. *)
Theorem C126_range_partial : forall g exact k t switch alts es y buf a b tx j p, covered g -> is_bytes buf -> (a <= b <= length buf)%nat ->
  N.of_nat (length buf) < 2^32 -> jtext str_body (JArr es) tx -> sub_at buf a tx ->
  ws_run buf (a + length tx) j b ->
  nth_error es k = Some y -> (exact = true -> (length es <= S k)%nat) ->
  cfirst p = Some a -> clast p = Some b ->
  forall z, o_means (usable g) t y z -> (length alts <= switch z)%nat ->
  parse_pty g (PTagged exact k t switch alts) false buf p = Err MissingMemberNameOrEndOfClass.
Proof.
  intros g exact k t switch alts es y buf a b tx j p [HX HE] HB HL H32 HT HS HF HY HEx C1 C2 z HZ HR.
  cbn [parse_pty]. unfold parse_variant_pos.
  rewrite (tag_found g HX HE exact k t switch es z buf a b tx j p HB HL H32 HT HS); auto.
  - cbn [bind]. unfold parse_visit. rewrite (proj2 (nth_error_None _ _)); [reflexivity|]. now rewrite map_length.
  - rewrite HY. apply (taken_picks g HX HE (usable g) (fun _ _ H => H) (Some k) t (Some y) z). exact HZ.
  - split; [reflexivity|]. auto.
Qed.
Print Assumptions C126_range_partial.

(** ** No read outside of the document *)

(** Reading a variant, in a document with a zero byte behind it and in a state inside of
    the document that is in an array.  Partial: not of the array around it. *)
Theorem C126_inside_partial : forall g exact k t switch alts body p a b, c_ex g = ExConstexpr -> is_bytes body -> N.of_nat (S (length body)) < 2^31 ->
  safe_o true t = true -> forallb (safe_o true) alts = true ->
  isnull p = false -> (first p <= length body)%nat -> cfirst p = Some a -> clast p = Some b -> (last p <= b <= length body)%nat ->
  match parse_pty g (PTagged exact k t switch alts) false (body ++ [0]) p with Ok _ | Err _ => True | UB | Fuel => False end.
Proof.
  intros g exact k t switch alts body p a b HX HB H31 HT HA HN HF C1 C2 HL. set (buf := body ++ [0]). set (M := length body).
  assert (E : nth_error buf M = Some 0) by (unfold buf, M; rewrite nth_error_app2, Nat.sub_diag by lia; reflexivity).
  assert (LB : length buf = S M) by (unfold buf, M; rewrite app_length; cbn [length]; lia).
  assert (HB' : is_bytes buf) by (apply Forall_app; split; [exact HB|]; repeat constructor).
  assert (LM : (M <= length buf)%nat) by lia. assert (H31' : N.of_nat (length buf) < 2^31) by (rewrite LB; exact H31).
  assert (OK : forall t, safe_o true t = true -> parser_ok buf M (parse_o g t)) by (intros t' H; exact (proj1 (parse_o_safe buf M true HB' LM (fun _ => E) H31' g HX t' H))).
  assert (IP : inv M p) by (split; [exact HN|]; split; [exact HF|]; exists b; auto).
  cbn [parse_pty]. unfold parse_variant_pos, find_index_pos. rewrite C1, C2.
  unfold is_at, has_more. cbn [first last new_ps]. destruct (Nat.ltb_spec a b) as [LAB|LAB]; cbn [bind ensure]; auto.
  unfold front. cbn [first new_ps]. destruct (rd_in buf a) as (c & Hc); [lia|]. rewrite (rd_some _ _ _ Hc). cbn [bind].
  destruct (c =? c_lbrack); cbn [ensure bind]; auto.
  assert (I2 : inv M (new_ps a b)) by (split; [reflexivity|]; split; [cbn [first new_ps]; unfold M; lia|]; exists b; split; [reflexivity|cbn [last new_ps]; unfold M; lia]).
  pose proof (tuple_pos_safe buf HB' M LM true (fun _ => E) H31' g HX exact [mkomember (Some k) (o_nullable t) (parse_o g t)] (or_introl eq_refl) (Forall_cons (P := fun m => parser_ok buf M (om_parse m)) (mkomember (Some k) (o_nullable t) (parse_o g t)) (OK t HT) (Forall_nil _)) (new_ps a b) I2) as X.
  assert (V : forall v q, parse_tuple_pos g exact [mkomember (Some k) (o_nullable t) (parse_o g t)] buf (new_ps a b) = Ok (v, q) -> exists y, v = VTuple [y]).
  { intros v q H. unfold parse_tuple_pos in H. repeat peel H. cbn [parse_pos om_index om_parse] in *.
    peel P4. destruct a6 as [r i]. peel P4. destruct a6 as [y u]. peel P4. cbn [bind] in P4. injection P4 as <-. peel H. injection H as <- _. eauto. }
  destruct (parse_tuple_pos g exact [mkomember (Some k) (o_nullable t) (parse_o g t)] buf (new_ps a b)) as [[v q]|?| |]; cbn [outcome_ok bind] in *; auto.
  destruct (V v q eq_refl) as (y & ->). cbn [bind]. unfold parse_visit. rewrite nth_error_map.
  destruct (nth_error alts (switch y)) as [t'|] eqn:ET; cbn [option_map]; auto.
  rewrite forallb_forall in HA. pose proof (OK t' (HA _ (nth_error_In _ _ ET)) p IP) as Y.
  destruct (parse_o g t' false buf p) as [[v2 q2]|?| |]; cbn [outcome_ok bind] in *; auto.
Qed.
Print Assumptions C126_inside_partial.

(** ** Where it does not hold *)

Definition by_number (v : val) : nat := match v with VInt z => Z.to_nat z | _ => 9%nat end.
(** A number, a string or an array, and: a number, a string or another number *)
Definition some_array (k : nat) : pty := PTagged false k num by_number [num; OTy TStr; OArr num].
Definition some_value (k : nat) : pty := PTagged false k num by_number [num; OTy TStr; num].
Definition tag_first : list (option nat * pty) := [(None, PPlain num); (None, some_array 0)].
Definition tag_second : list (option nat * pty) := [(None, some_array 1); (None, PPlain num)].
Definition on_shape (s : shape) (exact : bool) (ms : list (option nat * pty)) (t : string) : res val := from_json_shape default_cfg true s exact ms (doc_of t).

(** An array that is not closed is taken; with exact the byte behind it is read. *)
Theorem C126_open_refuted :
  on_shape AClass false [(None, some_value 1); (None, PPlain num)] "[1,2" = Ok (VClass [VVariant 2 (VInt 1); VInt 2]) /\
  on_shape ATuple false [(None, some_value 1); (None, PPlain num)] "[1,2" = Ok (VTuple [VVariant 2 (VInt 1); VInt 2]) /\
  (forall v, ~ jtext rfc_body v (doc_of "[1,2")) /\
  on_shape AClass true [(None, some_value 1); (None, PPlain num)] "[1,2" = UB /\ on_shape ATuple true [(None, some_value 1); (None, PPlain num)] "[1,2" = UB.
Proof.
  split; [vm_compute; reflexivity|]. split; [vm_compute; reflexivity|].
  split; [exact (proj2 (proj1 (proj2 (proj2 (proj2 C117_lax_refuted)))))|]. split; vm_compute; reflexivity.
Qed.
Print Assumptions C126_open_refuted.

(** A tag that is not there is not reported as one: the bracket is read as the tag, by
    the class too, which reports other members that are missing. *)
Theorem C126_missing_refuted :
  on_shape AClass false [(None, some_array 3)] "[0]" = Err InvalidNumber /\ on_shape ATuple false [(None, some_array 3)] "[0]" = Err InvalidNumber /\
  on_shape AClass false [(None, PPlain num); (None, PPlain num)] "[0]" = Err MemberNotFound.
Proof. repeat split; vm_compute; reflexivity. Qed.
Print Assumptions C126_missing_refuted.

(** Commas are not needed to find the tag. *)
Theorem C126_lax_refuted : on_shape AClass false [(None, some_array 2)] "[5 1 0]" = Ok (VClass [VVariant 0 (VInt 5)]) /\
  forall v, ~ jtext rfc_body v (doc_of "[5 1 0]").
Proof. split; [vm_compute; reflexivity|]. apply not_json; vm_compute; reflexivity. Qed.
Print Assumptions C126_lax_refuted.

Example C126_ex :
  on_shape AClass false tag_first "[2,[7,8],9]" = Ok (VClass [VInt 2; VVariant 2 (VArr [VInt 7; VInt 8])]) /\
  on_shape ATuple false tag_first "[1,'ab']" = Ok (VTuple [VInt 1; VVariant 1 (VStr [97; 98])]) /\
  on_shape AClass false tag_second " [ [7,8] , 2 ] " = Ok (VClass [VVariant 2 (VArr [VInt 7; VInt 8]); VInt 2]) /\
  on_shape AClass false tag_second "[[7,8],2,[1]]" = Ok (VClass [VVariant 2 (VArr [VInt 7; VInt 8]); VInt 2]) /\
  on_shape ATuple false [(None, some_array 3)] "[5,1,2,0]" = Ok (VTuple [VVariant 0 (VInt 5)]) /\
  on_shape ATuple false [(None, some_array 0)] "[0]" = Ok (VTuple [VVariant 0 (VInt 0)]) /\
  on_shape AClass false tag_first "[3,1]" = Err MissingMemberNameOrEndOfClass /\
  on_shape AClass false [(None, PTagged true 1 num by_number [num])] "[5,0]" = Ok (VClass [VVariant 0 (VInt 5)]) /\
  on_shape AClass false [(None, PTagged true 1 num by_number [num])] "[5,0,3]" = Err UnknownMember.
Proof. repeat split; vm_compute; reflexivity. Qed.

Definition one_of (k : nat) : list (option nat * pty) := [(None, PTagged false k num (fun _ => 0%nat) [num])].
Example C126_nonvacuous : pos_document (JArr elements) (doc_of "[5,[1],7]") /\
  p_members (usable default_cfg) elements (one_of 2) 0 [VVariant 0 (VInt 5)] /\ on_shape AClass false (one_of 2) "[5,[1],7]" = Ok (VClass [VVariant 0 (VInt 5)]) /\
  safe_o true num = true /\ forallb (safe_o true) [num; OTy TStr; OArr num] = true.
Proof.
  destruct C125_nonvacuous as (H1 & [_ H2] & [_ H3] & _). split; [exact H1|]. split; [|split; [vm_compute; reflexivity|split; reflexivity]].
  cbn [p_members one_of p_takes place]. split; [lia|]. split; [|exact I].
  destruct H2 as [H2 _]. destruct H3 as [H3 _]. exists (nth 0 elements JNull), (VInt 7), num, (VInt 5).
  split; [reflexivity|]. split; [exact H2|]. split; [discriminate|]. split; [reflexivity|]. split; [exact H3|reflexivity].
Qed.
