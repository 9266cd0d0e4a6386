(** Properties C12, C13, C54: decoding the escapes of a string. *)
From Coq Require Import String.
From Coq Require Import List NArith ZArith Bool Lia Arith ZifyBool ZifyNat ZifyN.
From Verif Require Import Base Mem Loop PolicyModel StrScanModel SpecNum SpecText SpecJson SpecUnicode
  StrScanProofs StrScanProofs2 StrScanProofs3 PropertiesStr StrDecodeModel StrDecodeProofs StrDecodeSafe StrDecodeReject Dec.
Import ListNotations.
Local Open Scope N_scope.

(** The parser stands on the opening quote of the string with text [t]. *)
Definition at_string (buf : list N) (p : ps) (t : list N) : Prop :=
  is_bytes buf /\ isnull p = false /\ (last p <= length buf)%nat /\
  sub_at buf (first p) (34 :: t ++ [34]) /\ (first p + length t + 1 < last p)%nat /\
  (exists cl, clast p = Some cl /\ cl <= length buf /\ first p + length t + 1 < cl)%nat /\
  N.of_nat (length t) < 2 ^ 63.

(** ** C12 *)
(** The meaning [denotes t s] of a text (SpecUnicode.v) covers every plain byte,
    the two-character escapes, and the escapes of every Unicode scalar with hex
    digits in any letter case.  Default execution mode, checked and unchecked. *)
Theorem C12_decode : forall checked buf p t s, at_string buf p t -> denotes t s ->
  parse_value_string_escaped checked false ExConstexpr true buf p = Ok (s, set_first p (first p + length t + 2)).
Proof.
  intros checked buf p t s (HB & HN & HL & HS & HF & (cl & HC & HCL & HFC) & H63) D.
  unfold parse_value_string_escaped.
  assert (NE : ps_empty p = false) by (unfold ps_empty; rewrite HN; cbn [orb]; lia).
  rewrite NE. cbn [negb ensure bind].
  destruct (C14_skip_string checked buf p cl t (denotes_body t s D)) as (r & E & R1 & R2 & R3); auto; [lia|].
  rewrite E. cbn [bind negb orb].
  destruct HS as [SQ SB].
  assert (LB : (first r + length t < length buf)%nat) by lia.
  assert (SB' : sub_at buf (first r) (t ++ [34])) by (rewrite R1; replace (first p + 1)%nat with (S (first p)) by lia; exact SB).
  destruct (needs_slow_path r) eqn:NS.
  - rewrite (decode_known checked ExConstexpr true buf r t s); auto.
    + intros ->. unfold needs_slow_path in NS. rewrite R3 in NS. discriminate NS.
    + lia.
  - unfold needs_slow_path in NS. rewrite R3 in NS. unfold reported_escape in NS.
    destruct (escape_offset t) as [k|] eqn:EK.
    + destruct (escape_offset_some t k (denotes_body t s D) EK) as (u & w & -> & _ & <-).
      rewrite app_length in H63. unfold signed64 in NS.
      replace (N.of_nat (length u) <? 2 ^ 63) with true in NS by lia. lia.
    + assert (X : s = t).
      { clear - D EK. destruct (denotes_split t s D) as (u & t' & s' & -> & -> & P & D' & [->|(e & w & ->)]).
        - inversion D'; subst. reflexivity.
        - rewrite escape_offset_plain in EK by assumption. discriminate EK. }
      subst s. replace (last r <=? length buf)%nat with true by lia.
      rewrite R2, R1. replace (first p + 1 + length t - (first p + 1))%nat with (length t) by lia.
      rewrite firstn_skipn_at; [reflexivity|]. rewrite R1 in SB'. apply sub_at_app in SB'. apply SB'.
Qed.
Print Assumptions C12_decode.

(** The same with the option that refuses high bytes, where text is always
    decoded (checked; unchecked when the text is not empty). *)
Theorem C12_decode_disallow_high : forall checked buf p t s, at_string buf p t -> denotes t s ->
  checked = true \/ t <> [] ->
  parse_value_string_escaped checked false ExConstexpr false buf p = Ok (s, set_first p (first p + length t + 2)).
Proof.
  intros checked buf p t s (HB & HN & HL & HS & HF & (cl & HC & HCL & HFC) & H63) D X.
  unfold parse_value_string_escaped.
  assert (NE : ps_empty p = false) by (unfold ps_empty; rewrite HN; cbn [orb]; lia).
  rewrite NE. cbn [negb ensure bind].
  destruct (C14_skip_string checked buf p cl t (denotes_body t s D)) as (r & E & R1 & R2 & R3); auto; [lia|].
  rewrite E. cbn [bind negb orb].
  destruct HS as [SQ SB].
  assert (LB : (first r + length t < length buf)%nat) by lia.
  assert (SB' : sub_at buf (first r) (t ++ [34])) by (rewrite R1; replace (first p + 1)%nat with (S (first p)) by lia; exact SB).
  destruct (list_eq_dec N.eq_dec t []) as [->|NT].
  - destruct X as [->|X]; [|congruence]. inversion D; subst s.
    unfold parse_string_known_stdstring, front. cbn [app] in SB'. destruct SB' as [SB' _].
    rewrite (rd_some _ _ _ SB'). cbn [bind]. rewrite R3. change (34 =? c_quote) with true. cbn iota.
    replace (1 <? signed64 (reported_escape []) - 1)%Z with false by reflexivity. cbn [bind loop].
    unfold dec_body. replace (S (first r) <? last r)%nat with false by (cbn [length] in R2; lia). reflexivity.
  - rewrite (decode_known checked ExConstexpr false buf r t s); auto. lia.
Qed.
Print Assumptions C12_decode_disallow_high.

(** Known bounds: the range of a string, located earlier. *)
Theorem C12_decode_located : forall checked buf p t s, denotes t s -> t <> [] ->
  sub_at buf (first p) (t ++ [34]) -> last p = (first p + length t)%nat -> N.of_nat (length t) < 2 ^ 63 ->
  counter p = reported_escape t ->
  parse_value_string_escaped checked true ExConstexpr true buf p = Ok (s, p).
Proof.
  intros checked buf p t s D NT SB L H63 R. unfold parse_value_string_escaped. cbn [bind negb orb].
  assert (LB : (first p + length t < length buf)%nat).
  { pose proof (sub_at_length _ _ _ SB ltac:(destruct t; discriminate)) as X. rewrite app_length in X. cbn [length] in X. lia. }
  destruct (needs_slow_path p) eqn:NS.
  - rewrite (decode_known checked ExConstexpr true buf p t s); auto.
  - unfold needs_slow_path in NS. rewrite R in NS. unfold reported_escape in NS.
    destruct (escape_offset t) as [k|] eqn:EK.
    + destruct (escape_offset_some t k (denotes_body t s D) EK) as (u & w & -> & _ & <-).
      rewrite app_length in H63. unfold signed64 in NS.
      replace (N.of_nat (length u) <? 2 ^ 63) with true in NS by lia. lia.
    + assert (X : s = t).
      { clear - D EK. destruct (denotes_split t s D) as (u & t' & s' & -> & -> & P & D' & [->|(e & w & ->)]).
        - inversion D'; subst. reflexivity.
        - rewrite escape_offset_plain in EK by assumption. discriminate EK. }
      subst s. replace (last p <=? length buf)%nat with true by lia. rewrite L.
      replace (first p + length t - first p)%nat with (length t) by lia.
      rewrite firstn_skipn_at; [reflexivity|]. apply sub_at_app in SB. apply SB.
Qed.
Print Assumptions C12_decode_located.

(** The claim for one scalar, spelled out. *)
Theorem C12_scalar : forall checked buf p cp t, scalar cp ->
  (cp < 65536 /\ (exists ds, hex4 ds cp /\ t = 92 :: 117 :: ds)) \/
  (65536 <= cp /\ (exists d1 d2, hex4 d1 (55296 + (cp - 65536) / 1024) /\ hex4 d2 (56320 + (cp - 65536) mod 1024) /\
     t = 92 :: 117 :: d1 ++ 92 :: 117 :: d2)) ->
  at_string buf p t ->
  parse_value_string_escaped checked false ExConstexpr true buf p = Ok (utf8 cp, set_first p (first p + length t + 2)).
Proof.
  intros checked buf p cp t SC H AT. apply C12_decode; [assumption|].
  destruct H as [(L & ds & H4 & ->)|(L & d1 & d2 & H1 & H2 & ->)].
  - pose proof (dn_u ds cp [] [] H4 SC dn_nil) as X. rewrite !app_nil_r in X. exact X.
  - assert (CL : cp <= 1114111) by (unfold scalar in SC; lia).
    pose proof (N.div_mod (cp - 65536) 1024 ltac:(lia)) as DM.
    pose proof (N.mod_lt (cp - 65536) 1024 ltac:(lia)) as ML.
    set (q := (cp - 65536) / 1024) in *. set (m := (cp - 65536) mod 1024) in *. clearbody q m.
    pose proof (dn_pair d1 _ d2 _ [] [] H1 H2 ltac:(lia) ltac:(lia) dn_nil) as X.
    rewrite !app_nil_r in X.
    replace (65536 + (55296 + q - 55296) * 1024 + (56320 + m - 56320)) with cp in X by lia. exact X.
Qed.
Print Assumptions C12_scalar.

(** In the runtime execution mode the offset of the first escape is reported
    negated (C16), the escape is missed and the text is returned as written. *)
Theorem C12_runtime_refuted : exists buf p t s, at_string buf p t /\ denotes t s /\
  parse_value_string_escaped true false ExRuntime true buf p = Ok (t, set_first p (first p + length t + 2)) /\ s <> t.
Proof.
  exists (bytes """a\u0041"""), (new_ps 0 9), (bytes "a\u0041"), (bytes "aA").
  split; [|split; [|split; [vm_compute; reflexivity|discriminate]]].
  - unfold at_string. split; [apply is_bytes_dec; reflexivity|]. split; [reflexivity|]. split; [vm_compute; lia|].
    split; [vm_compute; repeat split|]. split; [vm_compute; lia|]. split; [exists 9%nat; split; [reflexivity|vm_compute; lia]|reflexivity].
  - change (bytes "a\u0041") with (97 :: 92 :: 117 :: [48; 48; 52; 49] ++ []).
    change (bytes "aA") with (97 :: utf8 65 ++ []).
    apply dn_plain; [discriminate|discriminate|]. apply dn_u; [|unfold scalar; lia|constructor].
    exists 48, 48, 52, 49. unfold is_hex. vm_compute. repeat split; try (left; split; discriminate).
Qed.
Print Assumptions C12_runtime_refuted.

(** The same option with unchecked input: on the empty string the decoder looks
    at the byte after the closing quote, here past the end of the document. *)
Theorem C12_disallow_high_empty_refuted : exists buf p, at_string buf p [] /\
  parse_value_string_escaped false false ExConstexpr false buf p = UB.
Proof.
  exists (bytes """"""), (new_ps 0 2). split; [|vm_compute; reflexivity].
  unfold at_string. split; [apply is_bytes_dec; reflexivity|]. split; [reflexivity|]. split; [vm_compute; lia|].
    split; [vm_compute; repeat split|]. split; [vm_compute; lia|]. split; [exists 2%nat; split; [reflexivity|vm_compute; lia]|reflexivity].
Qed.
Print Assumptions C12_disallow_high_empty_refuted.

Example C12_ex : let buf := bytes "[""x\u00e9\uD83d\udE00\n""]" in
  parse_value_string_escaped true false ExConstexpr true buf (set_first (new_ps 0 25) 1)
    = Ok ([120; 195; 169; 240; 159; 152; 128; 10], set_first (new_ps 0 25) 24) /\
  utf8 128512 = [240; 159; 152; 128].
Proof. vm_compute. split; reflexivity. Qed.

(** ** C13 *)
(** Full claim: in checked mode a text containing a u escape without four hex
    digits, or a surrogate that is not part of a pair, is refused.  False: hex
    digits are validated for unchecked input only, a low surrogate is never
    looked for, and the character before the second u is not looked at. *)
Theorem C13_not_hex_refuted : exists buf p s,
  buf = bytes """\uZZZZ""" /\ p = new_ps 0 8 /\
  parse_value_string_escaped true false ExConstexpr true buf p = Ok (s, set_first p 8) /\
  parse_value_string_escaped false false ExConstexpr true buf p = Err InvalidUTFEscape.
Proof. do 3 eexists. split; [reflexivity|]. split; [reflexivity|]. split; vm_compute; reflexivity. Qed.
Print Assumptions C13_not_hex_refuted.

(** An unpaired low surrogate gives three bytes that are not UTF-8. *)
Theorem C13_low_surrogate_refuted : exists buf p,
  buf = bytes """\uDC00""" /\ p = new_ps 0 8 /\
  parse_value_string_escaped true false ExConstexpr true buf p = Ok ([237; 176; 128], set_first p 8).
Proof. do 2 eexists. split; [reflexivity|]. split; [reflexivity|]. vm_compute. reflexivity. Qed.
Print Assumptions C13_low_surrogate_refuted.

(** A high surrogate followed by something that is no escape at all. *)
Theorem C13_no_second_escape_refuted : exists buf p s,
  buf = bytes """\uD800Xu0041""" /\ p = new_ps 0 14 /\
  parse_value_string_escaped true false ExConstexpr true buf p = Ok (s, set_first p 14).
Proof. do 3 eexists. split; [reflexivity|]. split; [reflexivity|]. vm_compute. reflexivity. Qed.
Print Assumptions C13_no_second_escape_refuted.

(** What is refused, after any correct text: an escape with fewer than four
    characters before the closing quote, or a high surrogate that is not
    followed by a character, a u and four characters.  Missing: everything the
    refuted theorems above show. *)
Theorem C13_cut_short_partial : forall buf p t1 s1 r, denotes t1 s1 -> cut_short r ->
  str_body (t1 ++ 92 :: 117 :: r) -> at_string buf p (t1 ++ 92 :: 117 :: r) ->
  exists e, parse_value_string_escaped true false ExConstexpr true buf p = Err e.
Proof.
  intros buf p t1 s1 r D CS SB (HB & HN & HL & HS & HF & (cl & HC & HCL & HFC) & H63).
  unfold parse_value_string_escaped.
  assert (NE : ps_empty p = false) by (unfold ps_empty; rewrite HN; cbn [orb]; lia).
  rewrite NE. cbn [negb ensure bind].
  destruct (C14_skip_string true buf p cl _ SB) as (q & E & R1 & R2 & R3); auto; [lia|].
  rewrite E. cbn [bind negb orb].
  assert (NS : needs_slow_path q = true).
  { unfold needs_slow_path. rewrite R3. unfold reported_escape.
    destruct (denotes_split t1 s1 D) as (u & t' & s' & E1 & _ & P & _ & X).
    assert (Y : escape_offset (t1 ++ 92 :: 117 :: r) = Some (length u)).
    { rewrite E1, <- app_assoc. rewrite escape_offset_plain by assumption.
      destruct X as [->|(e & w & ->)]; cbn [app escape_offset N.eqb Pos.eqb option_map]; f_equal; lia. }
    rewrite Y. unfold signed64.
    rewrite E1 in H63. rewrite !app_length in H63.
    replace (N.of_nat (length u) <? 2 ^ 63) with true by lia. lia. }
  rewrite NS.
  destruct (decode_known_cut ExConstexpr true buf q t1 s1 r) as (e & X); auto.
  - destruct HS as [_ HS]. rewrite R1. replace (first p + 1)%nat with (S (first p)) by lia. exact HS.
  - lia.
  - rewrite X. cbn [bind]. eauto.
Qed.
Print Assumptions C13_cut_short_partial.

Example C13_ex : cut_short (bytes "12") /\
  (exists e, parse_value_string_escaped true false ExConstexpr true (bytes """a\u12""") (new_ps 0 7) = Err e).
Proof. split; [left; vm_compute; lia|]. eexists. vm_compute. reflexivity. Qed.

(** ** C54 *)
(** Decoding what the string scanner delimited never reads outside the document
    and never writes outside the buffer of size + 1 bytes, whatever the text;
    every execution mode. *)
Theorem C54_decode_safe : forall ex allow_high buf p, nth_error buf (last p) = Some 34 ->
  (first p <= last p)%nat -> (first p = last p \/ nth_error buf (first p) <> Some 34) ->
  (counter p < 2 ^ 63 -> (N.to_nat (counter p) <= last p - first p)%nat) -> counter p < 2 ^ 64 ->
  match parse_string_known_stdstring true ex allow_high buf p with
  | Ok s => (length s <= last p - first p + 1)%nat
  | Err _ => True
  | UB => False
  | Fuel => False
  end.
Proof. exact decode_known_safe. Qed.
Print Assumptions C54_decode_safe.

(** The whole of parse_value_string_escaped on any document at all, default mode. *)
Theorem C54_parse_string_safe : forall allow_high buf p cl, is_bytes buf -> isnull p = false ->
  (first p <= last p)%nat -> (last p <= length buf)%nat -> clast p = Some cl -> (last p <= cl <= length buf)%nat ->
  N.of_nat (length buf) < 2 ^ 63 ->
  match parse_value_string_escaped true false ExConstexpr allow_high buf p with
  | Ok _ | Err _ => True
  | UB | Fuel => False
  end.
Proof.
  intros ah buf p cl HB HN L HL HC HCL H63.
  unfold parse_value_string_escaped. destruct (ps_empty p) eqn:EE; [exact I|]. cbn [negb ensure bind].
  assert (FL : (first p < last p)%nat) by (unfold ps_empty in EE; rewrite HN in EE; cbn [orb] in EE; lia).
  unfold skip_string. rewrite EE. unfold front.
  destruct (nth_error buf (first p)) as [c|] eqn:EF. 2:{ apply nth_error_None in EF. lia. }
  rewrite (rd_some _ _ _ EF). cbn [bind]. destruct (N.eqb_spec c c_quote) as [->|]; [|exact I].
  cbn [ensure bind]. destruct (has_more (remove_prefix p 1)) eqn:HM; [|exact I]. cbn [ensure bind].
  unfold skip_string_nq.
  assert (FL2 : (first p + 1 < last p)%nat) by (unfold has_more, remove_prefix in HM; cbn [first last set_first] in HM; lia).
  assert (HI : in_string buf (remove_prefix p 1) cl).
  { unfold in_string, remove_prefix. cbn [first last clast set_first]. repeat split; auto; try lia.
    replace (first p + 1 - 1)%nat with (first p) by lia. exact EF. }
  pose proof (parse_nq_cx_safe buf (remove_prefix p 1) cl HI) as X.
  destruct (parse_nq true ExConstexpr false buf (remove_prefix p 1)) as [[cnt p']| | |] eqn:EP; cbn [outcome_ok] in X; try exact X.
  destruct X as (t & SB & ST & LT & E1 & E2). cbn [fst snd] in E1, E2.
  assert (EP2 : cnt = reported_escape t).
  { rewrite (C14_string_end true buf (remove_prefix p 1) cl t HI SB ST LT ltac:(unfold remove_prefix in LT; cbn [first set_first] in LT; lia)) in EP.
    now injection EP as <- _. }
  subst p'. cbn [bind]. unfold remove_prefix in *. cbn [first last cfirst clast counter isnull set_first] in *.
  unfold front. cbn [first set_first].
  pose proof ST as ST0. apply sub_at_app in ST0. destruct ST0 as [ST1 [ST2 _]].
  rewrite (rd_some _ _ _ ST2). cbn [bind]. change (34 =? c_quote) with true. cbn [ensure bind].
  set (q := set_last (set_counter (set_first p (first p + 1)) cnt) (first p + 1 + length t)).
  assert (Q1 : first q = (first p + 1)%nat) by reflexivity.
  assert (Q2 : last q = (first p + 1 + length t)%nat) by reflexivity.
  assert (Q3 : counter q = cnt) by reflexivity. clearbody q.
  destruct (negb ah || needs_slow_path q).
  - assert (S : outcome_ok (fun s => (length s <= last q - first q + 1)%nat) (parse_string_known_stdstring true ExConstexpr ah buf q)).
    { apply decode_known_safe.
      - rewrite Q2. exact ST2.
      - lia.
      - rewrite Q1, Q2. destruct t as [|x t]; [left; cbn [length]; lia|right]. cbn [app] in ST. destruct ST as [ST _].
        rewrite ST. intro Y. injection Y as ->. inversion SB; subst; congruence.
      - rewrite Q3, EP2, Q1, Q2. unfold reported_escape. destruct (escape_offset t) as [k|] eqn:EK.
        + destruct (escape_offset_some t k SB EK) as (u & w & -> & _ & <-). intros _. rewrite app_length. lia.
        + intro Y. exfalso. clear - Y. vm_compute in Y. discriminate Y.
      - rewrite Q3, EP2. unfold reported_escape. destruct (escape_offset t) as [k|] eqn:EK; [|reflexivity].
        destruct (escape_offset_some t k SB EK) as (u & w & -> & _ & <-).
        rewrite app_length in LT. cbn [length] in LT. change (2 ^ 63) with 9223372036854775808 in H63.
        change (2 ^ 64) with 18446744073709551616. lia. }
    destruct (parse_string_known_stdstring true ExConstexpr ah buf q); cbn in S |- *; try exact S; exact I.
  - replace (last q <=? length buf)%nat with true by lia. exact I.
Qed.
Print Assumptions C54_parse_string_safe.

Example C54_ex : (exists e, parse_value_string_escaped true false ExConstexpr true (bytes """ab\u""") (new_ps 0 6) = Err e) /\
  parse_value_string_escaped false false ExConstexpr true (bytes """ab\u""") (new_ps 0 6) = UB.
Proof. split; [eexists|]; vm_compute; reflexivity. Qed.
