(** Properties C10, C11, C50: writing strings. *)
From Coq Require Import String.
From Coq Require Import List NArith ZArith Bool Lia Arith ZifyBool ZifyNat ZifyN.
From Verif Require Import Base Mem Loop PolicyModel StrScanModel SpecNum SpecText SpecJson SpecUnicode
  StrScanProofs StrDecodeModel StrDecodeProofs StrEncodeModel StrEncodeProofs PropertiesStr PropertiesUni Dec.
Import ListNotations.
Local Open Scope N_scope.

(** A Unicode string is a list of scalar values; [encode] is its UTF-8. *)

(** ** C11 *)
(** Any Unicode string, full or restricted output, with or without the policy
    ErrorInvalidUTF8: the result is a quoted body that RFC 8259 allows and that
    denotes the string; restricted output stays within 0x20..0x7E. *)
Theorem C11_output_legal : forall err_invalid restrict_high cps, Forall scalar cps ->
  exists t, write_string_escaped err_invalid restrict_high (encode cps) = Ok (34 :: t ++ [34]) /\
    rfc_body t /\ denotes t (encode cps) /\
    (restrict_high = true -> Forall (fun b => 32 <= b < 127) t).
Proof.
  intros ei rh cps F. unfold write_string_escaped, copy_escaped.
  destruct (esc_loop ei rh cps [] [] (S (length (encode cps))) F) as (t & E & D & R & X & L); [lia|].
  exists t. cbn [app length] in E. rewrite E. cbn [bind app]. auto.
Qed.
Print Assumptions C11_output_legal.

Example C11_ex : write_string_escaped false true (encode [34; 8; 1; 65; 127; 233; 128512])
  = Ok (bytes """\""\b\u0001A\u007F\u00E9\uD83D\uDE00""").
Proof. vm_compute. reflexivity. Qed.

(** Without escaping, the restricted mode lets 0x7F through (so "below 0x7F"
    fails for raw strings), and quotes are copied as they are. *)
Theorem C11_raw_refuted : write_string_raw true [127] = Ok [34; 127; 34] /\
  write_string_raw true [34] = Ok [34; 34; 34].
Proof. split; vm_compute; reflexivity. Qed.
Print Assumptions C11_raw_refuted.

(** ** C10 *)
Lemma denotes_bytes : forall t s, denotes t s -> is_bytes s -> is_bytes t.
Proof.
  assert (HX : forall ds u, hex4 ds u -> is_bytes ds).
  { intros ds u (a & b & c & d & -> & Ha & Hb & Hc & Hd & _). unfold is_hex in *. repeat constructor; lia. }
  unfold is_bytes. intros t s H.
  induction H as [|c t s H1 H2 H IH|e c t s He H IH|ds u t s H1 H2 H IH|ds1 u1 ds2 u2 t s H1 H2 H3 H4 H IH]; intros B.
  - constructor.
  - inversion B; subst. constructor; auto.
  - inversion B; subst. constructor; [lia|]. constructor; [|auto].
    unfold simple_escapes in He. cbn [In] in He.
    repeat match goal with H : _ \/ _ |- _ => destruct H as [H|H] end; try contradiction; injection He as <- <-; lia.
  - apply Forall_app in B as [_ B]. constructor; [lia|]. constructor; [lia|]. apply Forall_app. split; [eapply HX; eauto|auto].
  - apply Forall_app in B as [_ B]. constructor; [lia|]. constructor; [lia|]. apply Forall_app. split; [eapply HX; eauto|].
    constructor; [lia|]. constructor; [lia|]. apply Forall_app. split; [eapply HX; eauto|auto].
Qed.

Lemma utf8_bytes : forall cp, cp <= 1114111 -> is_bytes (utf8 cp).
Proof.
  intros cp H. unfold utf8, is_bytes.
  destruct (cp <? 128) eqn:E1; [|destruct (cp <? 2048) eqn:E2; [|destruct (cp <? 65536) eqn:E3]];
    repeat constructor; lia.
Qed.
Lemma encode_bytes : forall cps, Forall scalar cps -> is_bytes (encode cps).
Proof.
  intros cps F. unfold encode, is_bytes. induction F as [|cp cps SC F IH]; cbn [map concat]; [constructor|].
  apply Forall_app. split; [|exact IH]. apply utf8_bytes. unfold scalar in SC. lia.
Qed.

(** The written text, wherever it stands in a document, is parsed back to the
    same bytes; default execution mode, checked or not. *)
Theorem C10_round_trip : forall err_invalid restrict_high cps, Forall scalar cps ->
  exists t, write_string_escaped err_invalid restrict_high (encode cps) = Ok (34 :: t ++ [34]) /\
    forall checked buf p, at_string buf p t ->
      parse_value_string_escaped checked false ExConstexpr true buf p
        = Ok (encode cps, set_first p (first p + length t + 2)).
Proof.
  intros ei rh cps F. destruct (C11_output_legal ei rh cps F) as (t & E & _ & D & _).
  exists t. split; [exact E|]. intros checked buf p AT. now apply C12_decode.
Qed.
Print Assumptions C10_round_trip.

(** The written text as a document of its own *)
Theorem C10_round_trip_document : forall err_invalid restrict_high cps out checked, Forall scalar cps ->
  write_string_escaped err_invalid restrict_high (encode cps) = Ok out -> N.of_nat (length out) < 2 ^ 63 ->
  parse_value_string_escaped checked false ExConstexpr true out (new_ps 0 (length out))
    = Ok (encode cps, set_first (new_ps 0 (length out)) (length out)).
Proof.
  intros ei rh cps out checked F E L. destruct (C11_output_legal ei rh cps F) as (t & E1 & _ & D & _).
  rewrite E in E1. injection E1 as ->.
  assert (LL : length (34 :: t ++ [34]) = (length t + 2)%nat) by (cbn [length]; rewrite app_length; cbn [length]; lia).
  rewrite LL in *. change (length t + 2)%nat with (first (new_ps 0 (length t + 2)) + length t + 2)%nat at 3.
  apply C12_decode; [|exact D]. unfold at_string, new_ps. cbn [isnull first last clast].
  pose proof (denotes_bytes t _ D (encode_bytes cps F)) as BT.
  split; [|split; [|split; [|split; [|split; [|split]]]]].
  - constructor; [lia|]. apply Forall_app. split; [exact BT|]. constructor; [lia|constructor].
  - reflexivity.
  - rewrite LL. lia.
  - pose proof (sub_at_mid [] (34 :: t ++ [34]) []) as X. cbn [app length] in X. rewrite app_nil_r in X. exact X.
  - lia.
  - exists (length t + 2)%nat. rewrite LL. split; [reflexivity|lia].
  - change (2 ^ 63) with 9223372036854775808 in *. lia.
Qed.
Print Assumptions C10_round_trip_document.

Example C10_ex : let s := encode [120; 34; 233; 128512; 10] in
  write_string_escaped false true s = Ok (bytes """x\""\u00E9\uD83D\uDE00\n""") /\
  parse_value_string_escaped true false ExConstexpr true (bytes """x\""\u00E9\uD83D\uDE00\n""") (new_ps 0 25)
    = Ok (s, set_first (new_ps 0 25) 25).
Proof. vm_compute. split; reflexivity. Qed.

(** In the runtime execution mode (an option of the parser) an escape that is
    not the first character is missed, see C12_runtime_refuted. *)
Theorem C10_runtime_refuted : exists cps out s, Forall scalar cps /\
  write_string_escaped false false (encode cps) = Ok out /\
  parse_value_string_escaped true false ExRuntime true out (new_ps 0 (length out)) = Ok (s, set_first (new_ps 0 (length out)) (length out)) /\
  s <> encode cps.
Proof.
  exists [97; 10], [34; 97; 92; 110; 34], [97; 92; 110].
  split; [repeat constructor; unfold scalar; lia|]. split; [vm_compute; reflexivity|]. split; [vm_compute; reflexivity|discriminate].
Qed.
Print Assumptions C10_runtime_refuted.

(** ** C50 *)
(** Full claim: for every byte string only its bytes are read.  False: a lead
    byte near the end makes the iterator step over the end. *)
Theorem C50_truncated_refuted : exists s, is_bytes s /\ forall err_invalid restrict_high, 
  copy_escaped err_invalid restrict_high s = UB.
Proof.
  exists [65; 226; 130]. split; [repeat constructor|]. intros [] []; vm_compute; reflexivity.
Qed.
Print Assumptions C50_truncated_refuted.

(** Without a lead byte (0xC0 and up) among the last three bytes, and for all
    correct UTF-8, every read is inside. *)
Theorem C50_reads_inside_partial : forall err_invalid restrict_high s,
  no_late_lead s \/ (exists cps, Forall scalar cps /\ s = encode cps) ->
  match copy_escaped err_invalid restrict_high s with
  | Ok _ | Err _ => True
  | UB | Fuel => False
  end.
Proof.
  intros ei rh s [NL|(cps & F & ->)].
  - pose proof (copy_safe ei rh s NL) as X. destruct (copy_escaped ei rh s); cbn in X; auto.
  - destruct (esc_loop ei rh cps [] [] (S (length (encode cps))) F) as (t & E & _); [lia|].
    cbn [app length] in E. unfold copy_escaped. now rewrite E.
Qed.
Print Assumptions C50_reads_inside_partial.

Example C50_ex : no_late_lead [226; 130; 172; 65] /\ copy_escaped false false [226; 130; 172; 65] = Ok [226; 130; 172; 65].
Proof.
  split; [|vm_compute; reflexivity]. intros [|[|[|[|i]]]] b H L; cbn in *; try lia; try (injection H as <-; lia).
  destruct i; discriminate.
Qed.

(** A zero-terminated string ([char const *]) that contains a stray byte
    0x80..0xBF or 0xF8..0xFF is written for ever: the iterator does not move and
    nothing notices. *)
Theorem C50_c_string_never_ends_refuted : exists s, is_bytes s /\ forall fuel, loop (cstr_body false s) fuel (O, []) = Fuel.
Proof.
  exists [128; 0]. split; [repeat constructor|]. intro fuel.
  assert (G : forall out, loop (cstr_body false [128; 0]) fuel (O, out) = Fuel); [|apply G].
  induction fuel as [|f IH]; intro out; [reflexivity|]. cbn [loop].
  replace (cstr_body false [128; 0] (O, out)) with (@Ok ((nat * list N) + list N) (inl (O, out ++ [194; 128]))) by (vm_compute; reflexivity).
  cbn [bind]. apply IH.
Qed.
Print Assumptions C50_c_string_never_ends_refuted.
