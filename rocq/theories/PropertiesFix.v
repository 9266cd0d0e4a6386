(** C120 and C121: arrays that are read into a std::array. *)
From Coq Require Import String.
From Coq Require Import List NArith ZArith Bool Lia Arith ZifyBool ZifyNat ZifyN.
From Verif Require Import Base Mem Loop PolicyModel IntModel StrScanModel SkipModel SpecNum SpecText SpecJson SpecUnicode SpecCompact SpecTokens
  HashModel ValueModel NameProofs SpecTyped TypedProofs TypedSafe PropertiesTyped PropertiesSafe SerModel SpecSer SerProofs SerProofs2 PropertiesSer PropertiesLax PropertiesIter
  OrdModel SpecOrd OrdProofs OrdRead OrdSer OrdSafe PropertiesOrd.
Import ListNotations.
Local Open Scope N_scope.

Definition ary (n : nat) : oty := OFixed n (VInt 0) num.
Definition unverified (t : oty) (s : string) : res val := from_json_o default_cfg false t (doc_of s).

(** ** C120
    Full statement: a std::array of [n] elements takes the elements of an array that
    has at most [n], and default constructed ones for those that are not there; an
    array with more elements is refused.  Partial: elements that are too many are
    refused only at the end of the document, if it is looked at; see below. *)
Theorem C120_read_partial : forall g verify n d t es xs doc, covered g -> is_bytes doc -> N.of_nat (length doc) < 2^32 ->
  o_document (OFixed n d t) (JArr es) doc -> (length es <= n)%nat -> Forall2 (o_means (usable g) t) es xs ->
  from_json_o g verify (OFixed n d t) doc = Ok (VArr (xs ++ repeat d (n - length es))).
Proof.
  intros g verify n d t es xs doc HG HB H32 HD HL HF. eapply C117_read_partial; eauto.
  exists es, xs. auto.
Qed.
Print Assumptions C120_read_partial.

Theorem C120_more_partial : forall g verify d t es1 xs1 rest doc, covered g -> is_bytes doc -> N.of_nat (length doc) < 2^32 ->
  o_document (OFixed (length es1) d t) (JArr (es1 ++ rest)) doc -> Forall2 (o_means (usable g) t) es1 xs1 -> rest <> [] ->
  from_json_o g verify (OFixed (length es1) d t) doc = if verify then Err InvalidEndOfValue else Ok (VArr xs1).
Proof. intros g verify d t es1 xs1 rest doc [HX HE]. intros. eapply (o_more_elements g HX HE (usable g)); eauto. Qed.
Print Assumptions C120_more_partial.

Theorem C120_round_trip_partial : forall g verify o d t xs out, covered g -> o_trailing o = false -> layout o -> Forall (o_belongs t) xs ->
  to_json_o o (OFixed (length xs) d t) (VArr xs) = Ok out -> N.of_nat (length out) < 2^32 ->
  from_json_o g verify (OFixed (length xs) d t) out = Ok (VArr xs).
Proof.
  intros g verify o d t xs out HG HT HL HB E H32. eapply C118_round_trip_partial; eauto. exists xs. auto.
Qed.
Print Assumptions C120_round_trip_partial.

(** What is left of the elements is taken for the elements that follow the array:
    the second element of the tuple is 7, not 2.  The second time the end of the
    document is looked at as well. *)
Theorem C120_neighbour_refuted :
  let t := OTuple false [ary 1; num] in
  unverified t "[[1,2],7]" = Ok (VTuple [VArr [VInt 1]; VInt 2]) /\
  on_array (OClass false [(bytes "b", num); (bytes "t", t)]) "{'t':[[1,2],7],'b':5}" = Ok (VClass [VInt 5; VTuple [VArr [VInt 1]; VInt 2]]).
Proof. split; vm_compute; reflexivity. Qed.
Print Assumptions C120_neighbour_refuted.

(** Whether a member of a class with more elements than fit is refused depends on
    whether another member of the mapping follows, not on the document. *)
Theorem C120_order_refuted :
  let ab := OClass false [(bytes "a", ary 2); (bytes "b", num)] in
  let ba := OClass false [(bytes "b", num); (bytes "a", ary 2)] in
  on_array ab "{'a':[1,2,3],'b':4}" = Err MissingMemberNameOrEndOfClass /\
  on_array ba "{'a':[1,2,3],'b':4}" = Ok (VClass [VInt 4; VArr [VInt 1; VInt 2]]) /\
  on_array ab "{'b':4,'a':[1,2,3]}" = Err MissingMemberNameOrEndOfClass /\
  on_array ba "{'b':4,'a':[1,2,3]}" = Ok (VClass [VInt 4; VArr [VInt 1; VInt 2]]).
Proof. repeat split; vm_compute; reflexivity. Qed.
Print Assumptions C120_order_refuted.

(** What is left need not be JSON: the array is not closed, or a comma is missing. *)
Theorem C120_text_refuted :
  (unverified (ary 2) "[1,2,3" = Ok (VArr [VInt 1; VInt 2]) /\ forall v, ~ jtext rfc_body v (doc_of "[1,2,3")) /\
  (on_array (OClass false [(bytes "a", ary 2)]) "{'a':[1,2,3 4]}" = Ok (VClass [VArr [VInt 1; VInt 2]]) /\
   forall v, ~ jtext rfc_body v (doc_of "{'a':[1,2,3 4]}")).
Proof.
  split; (split; [vm_compute; reflexivity|]).
  - intros v H. change (doc_of "[1,2,3") with (91 :: [49; 44; 50; 44] ++ [51]) in H. inversion H as [| | |n HJ| |w W E1 E|es t HE E1 E| |].
    + apply jnum_chars in HJ as [F _]. apply Forall_inv in F. unfold numc in F. lia.
    + apply (app_inj_tail w [49; 44; 50; 44]) in E as [_ E]. discriminate.
    + apply (app_inj_tail t [49; 44; 50; 44]) in E as [_ E]. discriminate.
  - apply not_json; vm_compute; reflexivity.
Qed.
Print Assumptions C120_text_refuted.

Example C120_ex : on_array (ary 4) " [1 , 2,3] " = Ok (VArr [VInt 1; VInt 2; VInt 3; VInt 0]) /\
  on_array (ary 2) "[1,2,3]" = Err InvalidEndOfValue /\ unverified (ary 2) "[1,2,3]" = Ok (VArr [VInt 1; VInt 2]) /\
  on_array (ary 0) "[]" = Ok (VArr []) /\ on_array (ary 2) "[]" = Ok (VArr [VInt 0; VInt 0]) /\
  on_array (OFixed 2 (VArr [VInt 0; VInt 0]) (ary 2)) "[[1],[2,3]]" = Ok (VArr [VArr [VInt 1; VInt 0]; VArr [VInt 2; VInt 3]]) /\
  to_json_o minified (ary 2) (VArr [VInt 1; VInt 2]) = Ok (doc_of "[1,2]").
Proof. repeat split; vm_compute; reflexivity. Qed.

Example C120_nonvacuous : o_document (ary 3) (JArr [JNum [53]; JNum [55]]) (doc_of "[5,7]") /\
  o_document (ary 1) (JArr ([JNum [53]] ++ [JNum [55]])) (doc_of "[5,7]") /\
  Forall2 (o_means (usable default_cfg) num) [JNum [53]; JNum [55]] [VInt 5; VInt 7] /\ Forall (o_belongs num) [VInt 5; VInt 7].
Proof.
  assert (D : forall n, o_document (ary n) (JArr [JNum [53]; JNum [55]]) (doc_of "[5,7]")).
  { intros n. exists [], (doc_of "[5,7]"), [], []. split; [exact (Forall_nil _)|]. split; [reflexivity|]. split; [|split; [exact (Forall_nil _)|split; [now left|reflexivity]]].
    change (doc_of "[5,7]") with (91 :: ([] ++ [53] ++ [] ++ 44 :: ([] ++ [55] ++ [])) ++ [93]).
    apply t_arr. apply e_cons; try exact (Forall_nil _); [constructor; now apply jnum_digit|].
    apply e_one; try exact (Forall_nil _). constructor; now apply jnum_digit. }
  assert (N1 : forall z, (0 <= z < 10)%Z -> o_belongs num (VInt z)).
  { intros z HZ. cbn [o_belongs num belongs uint]. split; [unfold int_size; auto|]. exists z. split; [reflexivity|]. change (2 ^ 32)%Z with 4294967296%Z. lia. }
  split; [apply D|]. split; [apply D|]. split.
  - constructor; [apply (digit_member 53); lia|]. constructor; [apply (digit_member 55); lia|constructor].
  - constructor; [apply N1; lia|]. constructor; [apply N1; lia|constructor].
Qed.

(** ** C121
    Full statement: reading a std::array never reads outside the document and always
    ends, whatever the bytes.  Partial: a zero byte has to follow the document. *)
Theorem C121_terminated_partial : forall g verify n d t body, c_ex g = ExConstexpr -> is_bytes body -> N.of_nat (S (length body)) < 2^31 ->
  safe_o true t = true ->
  match from_json_o g verify (OFixed n d t) (body ++ [0]) with Ok _ | Err _ => True | UB | Fuel => False end.
Proof. intros g verify n d t body HX HB H31 HS. apply C119_terminated_partial; auto. Qed.
Print Assumptions C121_terminated_partial.

(** Without it the byte behind an open bracket is read; with it the end is noticed. *)
Theorem C121_open_refuted : unverified (ary 2) "[" = UB /\ from_json_o default_cfg true (ary 2) (doc_of "[" ++ [0]) = Err UnexpectedEndOfData.
Proof. split; vm_compute; reflexivity. Qed.
Print Assumptions C121_open_refuted.

Example C121_nonvacuous : safe_o true (OFixed 3 (VInt 0) num) = true /\ safe_o true (OOrdered true [(Some 1%nat, ary 2)]) = true.
Proof. split; reflexivity. Qed.
