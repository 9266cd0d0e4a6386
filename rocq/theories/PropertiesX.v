(** C103 and C104: doubles and dates as members, elements and optional values. *)
From Coq Require Import String.
From Coq Require Import List NArith ZArith QArith Qreals Reals Bool Lia Arith ZifyBool ZifyNat ZifyN.
From Coq Require Import SpecFloat.
From Flocq Require BinarySingleNaN.
From Verif Require Import Base Mem Loop PolicyModel IntModel StrScanModel SkipModel SpecNum SpecText SpecJson SpecUnicode
  HashModel ValueModel NameProofs SpecTyped TypedProofs PropertiesTyped SerModel SpecSer SerProofs SerProofs2 PropertiesSer PropertiesZ
  SpecReal SpecDouble FloatModel FloatRef RealModel RealProofs PropertiesReal FloatProofs PropertiesFloat RealSerModel PropertiesRealSer DateModel SpecDate PropertiesDate XModel SpecX XProofs XSerProofs FloatDec.
Import ListNotations.
Local Open Scope N_scope.

(** ** C103
    Full statement: every document that is text of a type with doubles and dates
    anywhere inside is read to the nearest doubles and the instants written.
    Proved with IEEE754Precise, and without it for numbers of up to 15 digits whose
    last digit stands for a power of ten from -22 to 22; from_chars is assumed to be
    exact (from_chars_exact) only with IEEE754Precise.  Dates are those in UTC with
    up to nine digits of a second (date_text).  Missing: other spellings of dates
    (C45 has the offsets), a whole number as the whole document, which is refuted
    below, and numbers as strings. *)
Theorem C103_read_partial : forall fc rt precise drop g verify t v x doc, (precise = true -> from_chars_exact fc) -> covered g ->
  is_bytes doc -> N.of_nat (length doc) < 2^32 -> x_document t v doc -> means precise (usable g) t v x ->
  from_json_x fc rt precise drop g verify t doc = Ok x.
Proof. intros fc rt precise drop g verify t v x doc HFC [HX HE]. apply from_json_means; auto. Qed.
Print Assumptions C103_read_partial.

Definition on_text (precise : bool) (t : xty) (s : string) : res val := from_json_x ref_from_chars true precise true default_cfg true t (doc_of s).
Definition xclass (ms : list (string * xty)) : xty := XClass false (map (fun m => (bytes (fst m), snd m)) ms).
Definition sample : xty := xclass [("id", XTy uint); ("at", XDate); ("pos", XTuple false [XReal; XReal]); ("w", XNullable XReal); ("log", XArr XDate)]%string.
Definition d_half := S754_finite false 4503599627370496 (-53).
Definition d_tenth := S754_finite false 7205759403792794 (-56).
Definition sample_value : val :=
  VClass [VInt 7; VInt 1725239694250; VTuple [real_val d_half; real_val (S754_finite true 7205759403792794 (-56))]; VSome (real_val d_tenth); VArr [VInt 0; VInt 86400000]].

(** What a number is to be read as, computed *)
Lemma real_text_by : forall precise sg i f e x d, sg = [] \/ sg = [45] -> int_part i -> frac_part f -> exp_val e x -> (Z.abs x < 2^62)%Z ->
  (precise = false -> (length i + length (fract_digits f) <= 15)%nat /\ (-22 <= x - Z.of_nat (length (fract_digits f)) <= 22)%Z) ->
  round_decimal (match sg with [] => false | _ => true end) (dec_val (i ++ fract_digits f)) (x - Z.of_nat (length (fract_digits f))) = d ->
  real_text precise (sg ++ i ++ f ++ e) d.
Proof.
  intros precise sg i f e x d Hsg HI HF HX BX DEF <-. apply (real_of precise sg i f e x); auto.
  set (n := dec_val (i ++ fract_digits f)). set (y := (x - Z.of_nat (length (fract_digits f)))%Z).
  set (neg := match sg with [] => false | _ => true end).
  replace (Q2R (inject_Z (sign_of sg) * magnitude i f x)) with (dec_R (if neg then - Z.of_N n else Z.of_N n)%Z y); [apply round_decimal_ok|].
  rewrite <- Q2R_decimal. apply Qeq_eqR. rewrite magnitude_digits. fold n. fold y. unfold decimal, neg.
  destruct Hsg as [-> | ->]; cbn [sign_of]; [change (inject_Z 1) with 1%Q; ring|rewrite inject_Z_opp; change (inject_Z (-1)) with (-(1))%Q; ring].
Qed.

(** Members in another order and spaces, read with and without IEEE754Precise *)
Example C103_ex : forall precise,
  on_text precise sample " { 'log': ['1970-01-01T00:00:00Z', '1970-01-02T00:00:00Z'] ,'w':0.1,'pos':[ 0.5,-1e-1],'at':'2024-09-02T01:14:54.25Z', 'id':7 } " = Ok sample_value.
Proof. intros []; vm_compute; reflexivity. Qed.

Ltac digs := repeat (constructor; [unfold is_dig; lia|]); constructor.
(** The hypotheses can be met: see C104_nonvacuous for a whole document, here a
    number in the default mode and a date. *)
Example C103_nonvacuous : from_chars_exact ref_from_chars /\ real_text false (bytes "0.1") d_tenth /\ date_text (bytes "1970-01-02T00:00:00.5Z") 86400500.
Proof.
  split; [exact ref_from_chars_exact|]. split.
  - apply (real_text_by false [] [48] [46; 49] [] 0%Z); auto.
    + split; [digs|]. split; [discriminate|]. intros r H. congruence.
    + constructor; [digs|discriminate].
    + constructor.
    + reflexivity.
    + intros _. cbn. lia.
  - change 86400500%Z with ((((1 * 24 + 0) * 60 + 0) * 60 + 0) * 1000 + 500000000 / 1000000)%Z.
    assert (F : forall a b z, is_dig a -> is_dig b -> z = Z.of_N (dec_val [a; b]) -> field [a; b] z) by (intros a b z A B E; split; [repeat (constructor; auto)|split; auto]).
    assert (V : valid_date 1970 1 2) by (split; [lia|vm_compute; split; discriminate]).
    apply (date_of [49; 57; 55; 48] [48; 49] [48; 50] [48; 48] [48; 48] [48; 48] [46; 53] 1 2 0 0 0 500000000 1); try (apply F; [unfold is_dig; lia|unfold is_dig; lia|reflexivity]).
    + digs.
    + discriminate.
    + right. exists [53]. split; [reflexivity|]. split; [digs|]. split; [cbn; lia|reflexivity].
    + reflexivity.
    + exact V.
    + repeat split; lia.
    + apply (DateProofs.day_no_iff 1970 1 2 1 V). reflexivity.
    + reflexivity.
Qed.

(** A whole number that is the whole document: the byte behind it is read (C65,
    daw_json_parse_real.h).  With a space behind it all is well. *)
Theorem C103_root_refuted : forall precise, on_text precise XReal "1" = UB /\ on_text precise (XNullable XReal) "1" = UB /\
  on_text precise XReal "1 " = Ok (real_val (S754_finite false 4503599627370496 (-52))) /\ on_text precise XReal "1.0" = Ok (real_val (S754_finite false 4503599627370496 (-52))).
Proof. intros []; repeat split; vm_compute; reflexivity. Qed.
Print Assumptions C103_root_refuted.

(** In the default mode the same two members in another order are other values: a
    double that was skipped first is read to more digits (C66,
    daw_json_parse_real.h), and what depends on the order is refuted for classes
    with doubles (C24). *)
Definition pair : xty := xclass [("a", XReal); ("b", XReal)]%string.
Theorem C103_order_refuted : forall fc rt drop,
  from_json_x fc rt false drop default_cfg true pair (doc_of "{'a':0.5,'b':0.30000000000000004}") = Ok (VClass [real_val d_half; real_val (S754_finite false 5404319552844595 (-54))]) /\
  from_json_x fc rt false drop default_cfg true pair (doc_of "{'b':0.30000000000000004,'a':0.5}") = Ok (VClass [real_val d_half; real_val (S754_finite false 5404319552844596 (-54))]).
Proof. intros fc [] []; split; vm_compute; reflexivity. Qed.
Print Assumptions C103_order_refuted.

(** ** C104
    Full statement: a value with doubles and dates inside that is written with
    to_json is JSON and is read back as the same value.  Proved with
    IEEE754Precise for finite doubles but the negative zero and for dates as in C43,
    given a to_decimal as assumed in [dragonbox] and an exact from_chars; refuted
    for the default mode, the negative zero and the other dates.  A double that is
    the whole document is left out where it may be written as a whole number. *)
Definition not_bare (t : xty) : Prop := match t with XReal | XNullable _ => False | _ => True end.

Theorem C104_well_formed_partial : forall db cd0 fmt g o t x, dragonbox db -> (0 <= cd0 <= 1)%Z -> o_trailing o = false -> layout o -> x_belongs t x ->
  exists v out, to_json_x db cd0 fmt o t x = Ok out /\ jtext rfc_body v out /\ is_bytes out /\ means true (usable g) t v x.
Proof.
  intros db cd0 fmt g o t x HDB HC HT HL HB. destruct (x_written db cd0 fmt HDB HC o HT HL g t 0 x HB) as (v & out & E & (G1 & G2 & _) & M & _).
  exists v, out. auto.
Qed.
Print Assumptions C104_well_formed_partial.

Theorem C104_round_trip_partial : forall db cd0 fmt fc rt drop g verify o t x out, dragonbox db -> (0 <= cd0 <= 1)%Z -> from_chars_exact fc -> covered g ->
  o_trailing o = false -> layout o -> x_belongs t x -> not_bare t ->
  to_json_x db cd0 fmt o t x = Ok out -> N.of_nat (length out) < 2^32 -> from_json_x fc rt true drop g verify t out = Ok x.
Proof.
  intros db cd0 fmt fc rt drop g verify o t x out HDB HC HFC HG HT HL HB NB E H32.
  destruct (x_written db cd0 fmt HDB HC o HT HL g t 0 x HB) as (v & out' & E' & (G1 & G2 & _) & M & _).
  unfold to_json_x in E. assert (out' = out) by congruence. subst out'.
  apply (C103_read_partial fc rt true drop g verify t v x out); auto.
  exists [], out, [], []. split; [constructor|]. split; [reflexivity|]. split; [|split; [constructor|split; [now left|split; [|now rewrite app_nil_r]]]].
  - eapply (proj1 (jtext_weaken rfc_body str_body rfc_str_body)); eauto.
  - intros _. destruct t; try contradiction; exact I.
Qed.
Print Assumptions C104_round_trip_partial.

(** The hypotheses can be met: every type and value of C103's sample, with a
    to_decimal and a from_chars that are exact. *)
Example C104_nonvacuous : dragonbox ref_db /\ from_chars_exact ref_from_chars /\ x_belongs sample sample_value /\ not_bare sample.
Proof.
  split; [exact ref_db_ok|]. split; [exact ref_from_chars_exact|]. split; [|exact I].
  assert (F : forall s m e, valid_binary 53 1024 (S754_finite s m e) = true -> x_belongs XReal (real_val (S754_finite s m e))).
  { intros s m e H. exists (S754_finite s m e). split; [reflexivity|]. right. exists s, m, e. auto. }
  unfold sample, xclass, sample_value. cbn [map fst snd x_belongs]. split; [|split].
  - repeat (constructor; [cbn; intros H; repeat (destruct H as [H|H]; [discriminate|]); contradiction|]). constructor.
  - repeat (constructor; [apply Forall_forall; intros c Hc; cbn in Hc; repeat (destruct Hc as [<-|Hc]; [lia|]); contradiction|]). constructor.
  - eexists. split; [reflexivity|]. split; [|split; [|split; [|split; [|split; [|exact I]]]]].
    + split; [unfold int_size; auto|]. exists 7%Z. split; [reflexivity|]. split; [lia|reflexivity].
    + eexists. split; [reflexivity|]. split; [split; [lia|reflexivity]|right; vm_compute; discriminate].
    + eexists. split; [reflexivity|]. split; [apply F; reflexivity|]. split; [apply F; reflexivity|exact I].
    + split; [reflexivity|]. right. eexists. split; [reflexivity|]. apply (F false). reflexivity.
    + eexists. split; [reflexivity|]. constructor; [|constructor; [|constructor]]; (eexists; split; [reflexivity|]; split; [split; [lia|reflexivity]|left; reflexivity]).
Qed.

(** Without IEEE754Precise 0.30000000000000004 in an array comes back as 0.3
    (C77). *)
Theorem C104_default_refuted : exists db x out, dragonbox db /\ x_belongs (XArr XReal) x /\ to_json_x db 1 FPAuto minified (XArr XReal) x = Ok out /\
  forall fc rt drop, from_json_x fc rt false drop default_cfg true (XArr XReal) out = Ok (VArr [real_val (S754_finite false 5404319552844595 (-54))]) /\
    x <> VArr [real_val (S754_finite false 5404319552844595 (-54))].
Proof.
  exists ref_db, (VArr [real_val (S754_finite false 5404319552844596 (-54))]), (doc_of "[0.30000000000000004]").
  split; [exact ref_db_ok|]. split; [|split; [vm_compute; reflexivity|]].
  - eexists. split; [reflexivity|]. constructor; [|constructor]. eexists. split; [reflexivity|]. right. eexists _, _, _. split; reflexivity.
  - intros fc rt drop. split; [destruct rt, drop; vm_compute; reflexivity|discriminate].
Qed.
Print Assumptions C104_default_refuted.

(** The sign of the negative zero is lost (C72), NaN and infinity are not written
    at all, and of the dates those with a fraction below 100 ms come back as
    others, those before 1970 not at all (C43). *)
Theorem C104_values_refuted : forall db fc rt precise drop,
  (to_json_x db 1 FPAuto minified (XArr XReal) (VArr [real_val (S754_zero true)]) = Ok (doc_of "[0]") /\
   from_json_x fc rt precise drop default_cfg true (XArr XReal) (doc_of "[0]") = Ok (VArr [real_val (S754_zero false)])) /\
  to_json_x db 1 FPAuto minified (XArr XReal) (VArr [real_val S754_nan]) = Err NumberIsNaN /\
  (forall s, to_json_x db 1 FPAuto minified (XArr XReal) (VArr [real_val (S754_infinity s)]) = Err NumberIsInf) /\
  (to_json_x db 1 FPAuto minified (XArr XDate) (VArr [VInt 5]) = Ok (doc_of "['1970-01-01T00:00:00.5Z']") /\
   from_json_x fc rt precise drop default_cfg true (XArr XDate) (doc_of "['1970-01-01T00:00:00.5Z']") = Ok (VArr [VInt 500])) /\
  (to_json_x db 1 FPAuto minified (XArr XDate) (VArr [VInt (-1000)]) = Ok (doc_of "['1970-01-01T00:00:4294967295Z']") /\
   from_json_x fc rt precise drop default_cfg true (XArr XDate) (doc_of "['1970-01-01T00:00:4294967295Z']") <> Ok (VArr [VInt (-1000)])).
Proof. intros db fc [] [] []; repeat split; vm_compute; try reflexivity; discriminate. Qed.
Print Assumptions C104_values_refuted.

(** Values written in full, with the digits that Dragonbox finds for them *)
Definition short (d : spec_float) : N * Z :=
  match d with S754_finite _ 4503599627370496 (-53) => (5, (-1)%Z) | _ => (1, (-1)%Z) end.
Example C104_ex : to_json_x short 1 FPAuto minified sample sample_value =
  Ok (doc_of "{'id':7,'at':'2024-09-02T01:14:54.25Z','pos':[0.5,-0.1],'w':0.1,'log':['1970-01-01T00:00:00Z','1970-01-02T00:00:00Z']}").
Proof. vm_compute. reflexivity. Qed.
