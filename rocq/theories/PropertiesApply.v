(** C122: json_apply calls the function with the values of the document. *)
From Coq Require Import String.
From Coq Require Import List NArith ZArith Bool Lia Arith ZifyBool ZifyNat ZifyN.
From Verif Require Import Base Mem Loop PolicyModel IntModel StrScanModel SkipModel SpecNum SpecText SpecJson SpecUnicode SpecValue SpecPath
  HashModel ValueModel PathModel SpecTyped TypedProofs TypedSafe PropertiesTyped PropertiesSafe PropertiesValue PropertiesPath PropertiesIter ApplyModel.
Import ListNotations.
Local Open Scope N_scope.

(** What the arguments of a function with parameters of the types [ts] are, if the
    document is [v]: the value itself for one parameter, otherwise the elements. *)
Inductive arguments (nc : list (list N) -> list N -> Prop) : list ty -> jv -> list val -> Prop :=
| arg_one : forall t v x, typed nc t v x -> arguments nc [t] v [x]
| arg_more : forall ts es xs, length ts <> 1%nat -> length es = length ts -> length xs = length ts ->
    (forall i t e x, nth_error ts i = Some t -> nth_error es i = Some e -> nth_error xs i = Some x -> typed nc t e x) ->
    arguments nc ts (JArr es) xs.

Lemma elements_typed : forall nc ts es xs, length es = length ts -> length xs = length ts ->
  (forall i t e x, nth_error ts i = Some t -> nth_error es i = Some e -> nth_error xs i = Some x -> typed nc t e x) ->
  (fix elements (ts : list ty) (es : list jv) (xs : list val) : Prop :=
     match ts, es, xs with
     | [], [], [] => True
     | t :: ts', v' :: es', y :: xs' => typed nc t v' y /\ elements ts' es' xs'
     | _, _, _ => False
     end) ts es xs.
Proof.
  intros nc. induction ts as [|t ts IH]; intros [|e es] [|x xs] L1 L2 H; try discriminate; [exact I|].
  split; [exact (H 0%nat t e x eq_refl eq_refl eq_refl)|]. apply IH; [cbn in L1; lia|cbn in L2; lia|].
  intros i t' e' x' H1 H2 H3. exact (H (S i) t' e' x' H1 H2 H3).
Qed.

Lemma arguments_typed : forall nc ts v xs, arguments nc ts v xs ->
  typed nc (apply_type ts) v (match ts with [_] => hd VNone xs | _ => VTuple xs end).
Proof.
  intros nc ts v xs [t v' x HT|ts' es xs' N1 L1 L2 H]; [exact HT|].
  assert (X : typed nc (TTuple false ts') (JArr es) (VTuple xs')).
  { exists es, xs', []. rewrite app_nil_r. split; [reflexivity|]. split; [reflexivity|]. split; [discriminate|]. split; [discriminate|].
    apply elements_typed; auto. }
  destruct ts' as [|t [|t2 r]]; [exact X|cbn in N1; lia|exact X].
Qed.

Lemma call_arguments : forall (A : Type) (f : list val -> A) nc ts v xs, arguments nc ts v xs ->
  apply_call ts f (match ts with [_] => hd VNone xs | _ => VTuple xs end) = Ok (f xs).
Proof.
  intros A f nc ts v xs [t v' x HT|ts' es xs' N1 L1 L2 H]; [reflexivity|].
  destruct ts' as [|t [|t2 r]]; [reflexivity|cbn in N1; lia|reflexivity].
Qed.

(** ** C122
    Full statement: json_apply calls the function with the value of the document, if
    it has one parameter, or with the elements of the array, and gives what the
    function gives; a document with another number of elements is refused.  Partial:
    the first part for well-formed documents in the mode for constant evaluation;
    further elements are dropped (C122_extra_partial), not always (C122_extra_refuted). *)
Theorem C122_call_partial : forall (A : Type) (f : list val -> A) g verify ts v xs doc, covered g -> is_bytes doc -> N.of_nat (length doc) < 2^32 ->
  document (apply_type ts) v doc -> arguments (usable g) ts v xs -> json_apply g verify ts f doc = Ok (f xs).
Proof.
  intros A f g verify ts v xs doc HG HB H32 HD HA. unfold json_apply.
  rewrite (C29_parse_partial g HG verify _ v _ doc HB H32 HD (arguments_typed _ _ _ _ HA)). cbn [bind]. eapply call_arguments; eauto.
Qed.
Print Assumptions C122_call_partial.

Theorem C122_extra_partial : forall (A : Type) (f : list val -> A) g verify ts es es2 xs doc, covered g -> is_bytes doc -> N.of_nat (length doc) < 2^32 ->
  length ts <> 1%nat -> arguments (usable g) ts (JArr es) xs -> (forall e, hd_error es2 = Some e -> not_array e) ->
  document (apply_type ts) (JArr (es ++ es2)) doc -> json_apply g verify ts f doc = Ok (f xs).
Proof.
  intros A f g verify ts es es2 xs doc HG HB H32 N1 HA HN HD. unfold json_apply.
  assert (X : typed (usable g) (TTuple false ts) (JArr (es ++ es2)) (VTuple xs)).
  { inversion HA as [t v' x HT|ts' es' xs' _ L1 L2 H]; subst; [now elim N1|].
    exists es, xs, es2. split; [reflexivity|]. split; [reflexivity|]. split; [discriminate|]. split; [exact HN|]. apply elements_typed; auto. }
  assert (E : apply_type ts = TTuple false ts) by (destruct ts as [|t [|t2 r]]; [reflexivity|now elim N1|reflexivity]).
  rewrite E in *. rewrite (C29_parse_partial g HG verify _ _ _ doc HB H32 HD X). cbn [bind].
  destruct ts as [|t [|t2 r]]; [reflexivity|now elim N1|reflexivity].
Qed.
Print Assumptions C122_extra_partial.

(** Whatever the document, the function is called with as many arguments as it has
    parameters, or not at all. *)
Lemma parse_elements_length : forall pp buf p vs q, parse_elements pp buf p = Ok (vs, q) -> length vs = length pp.
Proof.
  induction pp as [|parse r IH]; intros buf p vs q E; cbn [parse_elements] in E; [now injection E as <- _|].
  destruct (ensure (has_more p) UnexpectedEndOfData); try discriminate. cbn [bind] in E.
  destruct (parse false buf p) as [[v p1]| | |]; try discriminate. cbn [bind] in E.
  destruct (move_next buf p1) as [p2| | |]; try discriminate. cbn [bind] in E.
  destruct (parse_elements r buf p2) as [[vs' p3]| | |] eqn:ER; try discriminate. cbn [bind] in E.
  injection E as <- _. cbn [length]. f_equal. eauto.
Qed.

Lemma tuple_shape : forall g ts known buf p v q, parse_value g (TTuple false ts) known buf p = Ok (v, q) -> exists xs, v = VTuple xs /\ length xs = length ts.
Proof.
  intros g ts known buf p v q E. cbn [parse_value] in E. unfold parse_tuple in E.
  destruct (trim_left_checked buf p) as [p1| | |]; try discriminate. cbn [bind] in E.
  destruct (is_at buf p1 c_lbrack) as [b| | |]; try discriminate. cbn [bind] in E.
  destruct (ensure b InvalidArrayStart); try discriminate. cbn [bind] in E.
  destruct (move_next buf _) as [p2| | |]; try discriminate. cbn [bind] in E.
  destruct (trim_left_checked buf p2) as [p3| | |]; try discriminate. cbn [bind] in E.
  destruct (parse_elements (map (parse_value g) ts) buf p3) as [[vs p4]| | |] eqn:EE; try discriminate. cbn [bind] in E.
  destruct (skip_array CNone true (c_ex g) buf p4) as [[rg p5]| | |]; try discriminate. cbn [bind] in E.
  injection E as <- _. exists vs. split; [reflexivity|]. apply parse_elements_length in EE. now rewrite map_length in EE.
Qed.

Lemma call_of : forall (A : Type) (f : list val -> A) g ts known buf p x q, parse_value g (apply_type ts) known buf p = Ok (x, q) ->
  exists xs, length xs = length ts /\ apply_call ts f x = Ok (f xs).
Proof.
  intros A f g ts known buf p x q E. destruct ts as [|t [|t2 r]].
  - destruct (tuple_shape _ _ _ _ _ _ _ E) as (xs & -> & L). exists xs. auto.
  - exists [x]. auto.
  - destruct (tuple_shape _ _ _ _ _ _ _ E) as (xs & -> & L). exists xs. auto.
Qed.

Lemma from_json_parsed : forall g verify t doc x, from_json g verify t doc = Ok x -> exists p q, parse_value g t false doc p = Ok (x, q).
Proof.
  intros g verify t doc x E. unfold from_json in E.
  destruct (ensure _ EmptyJSONDocument); try discriminate. cbn [bind] in E.
  destruct (rd doc (length doc - 1)) as [b| | |]; try discriminate. cbn [bind] in E. cbv zeta in E.
  match type of E with (bind ?P _ = _) => destruct P as [[v q]| | |] eqn:EP; try discriminate end. cbn [bind] in E.
  exists (new_ps 0 (if b =? 0 then (length doc - 1)%nat else length doc)), q. rewrite EP.
  destruct verify; [|congruence].
  destruct (trim_left_checked doc q) as [r| | |]; try discriminate. cbn [bind] in E.
  destruct (ensure (ps_empty r) InvalidEndOfValue); try discriminate. cbn [bind] in E. congruence.
Qed.

Theorem C122_arity : forall (A : Type) (f : list val -> A) g verify ts doc,
  match json_apply g verify ts f doc with
  | Ok r => exists xs, length xs = length ts /\ r = f xs
  | Err e => from_json g verify (apply_type ts) doc = Err e
  | UB => from_json g verify (apply_type ts) doc = UB
  | Fuel => from_json g verify (apply_type ts) doc = Fuel
  end.
Proof.
  intros A f g verify ts doc. unfold json_apply.
  destruct (from_json g verify (apply_type ts) doc) as [x|e| |] eqn:E; cbn [bind]; auto.
  destruct (from_json_parsed _ _ _ _ _ E) as (p & q & EP). destruct (call_of A f _ _ _ _ _ _ _ EP) as (xs & L & ->). eauto.
Qed.
Print Assumptions C122_arity.

(** Memory safety: as C58. *)
Theorem C122_safe_partial : forall (A : Type) (f : list val -> A) g verify ts body, c_ex g = ExConstexpr -> is_bytes body ->
  N.of_nat (S (length body)) < 2^31 -> safe_type true (apply_type ts) = true ->
  match json_apply g verify ts f (body ++ [0]) with Ok _ | Err _ => True | UB | Fuel => False end.
Proof.
  intros A f g verify ts body HX HB H31 HS.
  pose proof (C58_terminated_partial g verify (apply_type ts) body HX HB H31 HS) as S1.
  pose proof (C122_arity A f g verify ts (body ++ [0])) as S2.
  destruct (json_apply g verify ts f (body ++ [0])); auto; now rewrite S2 in S1.
Qed.
Print Assumptions C122_safe_partial.

(** With a path; only if the end of the document is not looked at (C63_verify_refuted). *)
Theorem C122_path_partial : forall (A : Type) (f : list val -> A) g ts v doc w0 tx w1 path ptx w xs, covered g -> is_bytes doc -> N.of_nat (length doc) < 2^32 ->
  doc = w0 ++ tx ++ w1 -> ws w0 -> jtext str_body v tx -> ws w1 -> v <> JNull ->
  leads (names_ok g) v path w -> path_text path ptx -> arguments (usable g) ts w xs ->
  json_apply_path g false ts f doc ptx = Ok (f xs).
Proof.
  intros A f g ts v doc w0 tx w1 path ptx w xs HG HB H32 ED W0 HT W1 NN HL PT HA. unfold json_apply_path.
  rewrite (C63_partial g _ v _ doc w0 tx w1 path ptx w HG HB H32 ED W0 HT W1 NN HL PT (arguments_typed _ _ _ _ HA)). cbn [bind].
  eapply call_arguments; eauto.
Qed.
Print Assumptions C122_path_partial.

Definition sum (xs : list val) : Z := fold_right (fun x s => match x with VInt z => (z + s)%Z | _ => s end) 0%Z xs.
Definition applied (ts : list ty) (s : string) : res Z := json_apply default_cfg true ts sum (doc_of s).

(** Further arguments are dropped, unless the first of them is an array: then the
    array that is skipped is this one, and the call is refused at the rest. *)
Theorem C122_extra_refuted : applied [uint; uint] "[1,2,3]" = Ok 3%Z /\ applied [uint; uint] "[1,2,[3]]" = Err InvalidEndOfValue /\
  applied [uint; uint] "[1,2,{}]" = Ok 3%Z.
Proof. repeat split; vm_compute; reflexivity. Qed.
Print Assumptions C122_extra_refuted.

Example C122_ex : applied [uint; uint; uint] " [1, 2,3]" = Ok 6%Z /\ applied [uint] "5" = Ok 5%Z /\ (exists e, applied [uint] "[5]" = Err e) /\
  (exists e, applied [uint; uint] "[5]" = Err e) /\
  json_apply_path default_cfg false [uint; uint] sum (doc_of "{'a':[0,[4,5]]}") (bytes "a[1]") = Ok 9%Z.
Proof.
  split; [vm_compute; reflexivity|]. split; [vm_compute; reflexivity|]. split; [eexists; vm_compute; reflexivity|].
  split; [eexists; vm_compute; reflexivity|vm_compute; reflexivity].
Qed.

Example C122_nonvacuous : covered default_cfg /\ arguments (usable default_cfg) [uint; uint] (JArr [JNum [53]; JNum [55]]) [VInt 5; VInt 7] /\
  document (apply_type [uint; uint]) (JArr [JNum [53]; JNum [55]]) (doc_of "[5,7]") /\ arguments (usable default_cfg) [uint] (JNum [53]) [VInt 5] /\
  safe_type true (apply_type [uint; TStr]) = true.
Proof.
  assert (D : forall d, 48 <= d <= 57 -> typed (usable default_cfg) uint (JNum [d]) (VInt (Z.of_N (d - 48)))).
  { intros d HD. exists [d]. split; [reflexivity|]. split; [apply canonical_of; [unfold forallb, is_digb; lia|reflexivity]|]. split; [unfold int_size; auto|].
    assert (E : dec_val [d] = d - 48) by (cbn; lia). rewrite E. split; [|reflexivity]. change (2^32) with 4294967296. lia. }
  split; [split; reflexivity|]. split; [|split; [|split; [|reflexivity]]].
  - apply arg_more; [discriminate|reflexivity|reflexivity|].
    intros [|[|i]] t e x H1 H2 H3; cbn in H1, H2, H3; [injection H1 as <-; injection H2 as <-; injection H3 as <-; apply (D 53); lia
      |injection H1 as <-; injection H2 as <-; injection H3 as <-; apply (D 55); lia|destruct i; discriminate].
  - exists [], (doc_of "[5,7]"), [], []. split; [exact (Forall_nil _)|]. split; [reflexivity|]. split; [|split; [exact (Forall_nil _)|split; [now left|reflexivity]]].
    change (doc_of "[5,7]") with (91 :: ([] ++ [53] ++ [] ++ 44 :: ([] ++ [55] ++ [])) ++ [93]).
    apply t_arr. apply e_cons; try exact (Forall_nil _); [constructor; now apply jnum_digit|].
    apply e_one; try exact (Forall_nil _). constructor; now apply jnum_digit.
  - apply arg_one. apply (D 53). lia.
Qed.
