(** C58: typed parsing stays inside the document. *)
From Coq Require Import String.
From Coq Require Import List NArith ZArith Bool Lia Arith ZifyBool ZifyNat ZifyN.
From Verif Require Import Base Mem Loop PolicyModel IntModel StrScanModel SkipModel SpecText ValueModel TypedSafe PropertiesTyped.
Import ListNotations.
Local Open Scope N_scope.

Lemma new_ps_inv : forall M, inv M (new_ps 0 M).
Proof. intros M. split; [reflexivity|]. cbn. split; [lia|]. exists M. split; [reflexivity|lia]. Qed.

Lemma from_json_in : forall g verify t doc M z, c_ex g = ExConstexpr -> is_bytes doc -> N.of_nat (length doc) < 2^31 -> (0 < length doc)%nat ->
  M = match nth_error doc (length doc - 1) with Some 0%N => (length doc - 1)%nat | _ => length doc end ->
  (z = true -> nth_error doc M = Some 0) -> safe_type z t = true ->
  match from_json g verify t doc with Ok _ | Err _ => True | UB | Fuel => False end.
Proof.
  intros g verify t doc M z HX HB H31 NE EM HZ HS. unfold from_json.
  replace (length doc =? 0)%nat with false by lia. cbn [negb ensure bind].
  destruct (rd_in doc (length doc - 1)) as (b & Hb); [lia|]. rewrite (rd_some _ _ _ Hb). cbn [bind]. cbv zeta.
  rewrite Hb in EM. assert (EM' : M = if b =? 0 then (length doc - 1)%nat else length doc) by (destruct b; exact EM). rewrite <- EM'.
  assert (LM : (M <= length doc)%nat) by (rewrite EM'; destruct (b =? 0); lia).
  destruct (parse_value_safe doc M z HB LM HZ H31 g HX t HS) as [PO _].
  pose proof (PO _ (new_ps_inv M)) as X.
  destruct (parse_value g t false doc (new_ps 0 M)) as [[v q]| | |]; cbn [bind outcome_ok snd] in *; auto.
  destruct verify; [|exact I].
  assert (IQ : inv M q) by (exact (inv_fw doc M LM z _ _ (new_ps_inv M) X)).
  destruct (trim_fw doc M LM z _ IQ) as (r & -> & _). cbn [bind].
  destruct (ps_empty r); exact I.
Qed.

(** Full claim: from_json of any bytes gives a value or an error for every type.
    Proved for documents that are followed by a zero byte that is part of the range
    (as for string literals), every type without 32 bit signed integers and without
    strings as members other than the first; strings in variants are covered. *)
Theorem C58_terminated_partial : forall g verify t body, c_ex g = ExConstexpr -> is_bytes body -> N.of_nat (S (length body)) < 2^31 ->
  safe_type true t = true ->
  match from_json g verify t (body ++ [0]) with Ok _ | Err _ => True | UB | Fuel => False end.
Proof.
  intros g verify t body HX HB H31 HS.
  assert (E : nth_error (body ++ [0]) (length body) = Some 0) by (rewrite nth_error_app2, Nat.sub_diag by lia; reflexivity).
  apply (from_json_in g verify t (body ++ [0]) (length body) true); auto.
  - apply Forall_app. split; [exact HB|]. repeat constructor.
  - rewrite app_length. cbn [length]. lia.
  - rewrite app_length. cbn [length]. lia.
  - rewrite app_length. cbn [length]. replace (length body + 1 - 1)%nat with (length body) by lia. now rewrite E.
Qed.
Print Assumptions C58_terminated_partial.

(** For documents with nothing after them, arrays, exact tuples, variants and custom
    types that take anything are left out as well. *)
Theorem C58_unterminated_partial : forall g verify t doc, c_ex g = ExConstexpr -> is_bytes doc -> N.of_nat (length doc) < 2^31 ->
  safe_type false t = true ->
  match from_json g verify t doc with Ok _ | Err _ => True | UB | Fuel => False end.
Proof.
  intros g verify t doc HX HB H31 HS. destruct doc as [|b doc]; [exact I|].
  eapply (from_json_in g verify t (b :: doc) _ false); auto; [cbn [length]; lia|discriminate].
Qed.
Print Assumptions C58_unterminated_partial.

(** What is left out is needed: an open exact tuple.  (Arrays: C58_array_refuted,
    members that are strings: C58_other_kind_refuted, 32 bit integers: C04.) *)
Theorem C58_exact_tuple_refuted : from_json default_cfg true (TTuple true [uint]) (bytes "[1") = UB /\
  from_json default_cfg true (TTuple false [uint]) (bytes "[1") <> UB.
Proof. split; vm_compute; [reflexivity|discriminate]. Qed.
Print Assumptions C58_exact_tuple_refuted.

(** The kind of a value that is missing is looked up: variants, custom types that
    take anything, arrays of keys and values. *)
Theorem C58_variant_refuted :
  from_json default_cfg true (TClass false [(bytes "a", TVariant [uint; TStr])]) (doc_of "{'a':") = UB /\
  from_json default_cfg true (TClass false [(bytes "a", TCustom CuAny)]) (doc_of "{'a':") = UB /\
  from_json default_cfg true (TKvArr false (bytes "key") TStr (bytes "value") uint) (doc_of "[") = UB.
Proof. repeat split; vm_compute; reflexivity. Qed.
Print Assumptions C58_variant_refuted.

Example C58_safe_variant_ex :
  safe_type true (TKvArr false (bytes "key") TStr (bytes "value") (TVariant [uint; TStr; TCustom CuLiteral])) = true /\
  safe_type true (TClass false [(bytes "n", TStr); (bytes "v", TVariant [TStr; TArr TStr]); (bytes "c", TCustom CuString)]) = true /\
  safe_type false (TIntrusive false (bytes "t") TStr (fun _ => O) [TClass false [(bytes "t", TStr); (bytes "c", TCustom CuLiteral)]]) = true /\
  (exists e, from_json default_cfg true (TClass false [(bytes "a", TVariant [uint; TStr])]) (doc_of "{'a':" ++ [0]) = Err e).
Proof. repeat (split; [reflexivity|]). exists InvalidStartOfValue. vm_compute. reflexivity. Qed.

Example C58_safe_ex : safe_type true (TClass true [(bytes "a", TArr (TNullable uint)); (bytes "b", TMap TStr); (bytes "c", TTuple true [TBool; TArr TStr])]) = true /\
  safe_type false (TClass true [(bytes "a", TNullable uint); (bytes "b", TMap TStr); (bytes "c", TTuple false [TBool; TStr])]) = true /\
  (exists e, from_json default_cfg true (TArr uint) (bytes "[1,  " ++ [0]) = Err e).
Proof. split; [reflexivity|]. split; [reflexivity|]. exists UnexpectedEndOfData. vm_compute. reflexivity. Qed.
