(** Properties C14-C16: finding the end of a string. *)
From Coq Require Import String.
From Coq Require Import List NArith ZArith Bool Lia Arith.
From Verif Require Import Base Mem Loop PolicyModel StrScanModel SpecNum SpecText SpecJson
  StrScanProofs StrScanProofs2 StrScanProofs3 Dec.
Import ListNotations.

(** [in_string buf p cl] (StrScanProofs.v): the parser stands just after a quote
    inside a buffer of bytes, its bounds [last] and [class_last] (= [cl]) are
    inside the buffer.

    What the callers use of the first number returned: the offset of the first
    backslash, or npos = 2^64 - 1 when there is none. *)
Definition reported_escape (t : list N) : N :=
  match escape_offset t with Some k => N.of_nat k | None => (2^64 - 1)%N end.


(** ** C14 *)
(** Default mode, with or without checking: any sequence of plain bytes and
    escaped bytes. *)
Theorem C14_string_end : forall checked buf p cl t, in_string buf p cl -> str_body t ->
  sub_at buf (first p) (t ++ [34%N]) -> first p + length t < cl -> (N.of_nat (length t) < 2^64)%N ->
  parse_nq checked ExConstexpr false buf p = Ok (reported_escape t, set_first p (first p + length t)).
Proof.
  intros [] buf p cl t HI HB HS HL H64.
  - now apply parse_nq_cx_ok with (cl := cl).
  - now apply parse_nq_uncheck_ok with (cl := cl).
Qed.
Print Assumptions C14_string_end.

(** With ExcludeSpecialEscapes, for the bodies RFC 8259 allows. *)
Theorem C14_string_end_exclude_special : forall buf p cl t, in_string buf p cl -> rfc_body t ->
  sub_at buf (first p) (t ++ [34%N]) -> first p + length t < cl -> (N.of_nat (length t) < 2^64)%N ->
  parse_nq true ExConstexpr true buf p = Ok (reported_escape t, set_first p (first p + length t)).
Proof.
  intros buf p cl t HI HB HS HL H64. apply parse_nq_excl_ok with (cl := cl); auto. now apply rfc_excl_body.
Qed.
Print Assumptions C14_string_end_exclude_special.

(** The whole string: the range handed on is the body, the parser stands after
    the closing quote. *)
Theorem C14_skip_string : forall checked buf p cl t, str_body t ->
  is_bytes buf -> clast p = Some cl -> last p <= length buf -> cl <= length buf -> isnull p = false ->
  sub_at buf (first p) (34%N :: t ++ [34%N]) -> first p + length t + 1 < last p -> first p + length t + 1 < cl ->
  (N.of_nat (length t) < 2^64)%N ->
  exists r, skip_string checked ExConstexpr false false buf p = Ok (r, set_first p (first p + length t + 2)) /\
    first r = first p + 1 /\ last r = first p + 1 + length t /\ counter r = reported_escape t.
Proof.
  intros checked buf p cl t HB HBy HC HLp HLc HN [SQ SB] HL1 HL2 H64. unfold skip_string, ps_empty, front.
  rewrite HN. cbn [orb]. destruct (Nat.leb_spec (last p) (first p)); [lia|].
  rewrite (rd_some _ _ _ SQ). cbn [bind]. change (34 =? c_quote)%N with true. cbn [ensure bind].
  assert (HI : in_string buf (remove_prefix p 1) cl).
  { unfold in_string, remove_prefix. cbn [first last clast set_first]. repeat split; auto; try lia.
    replace (first p + 1 - 1) with (first p) by lia. exact SQ. }
  assert (SB' : sub_at buf (first (remove_prefix p 1)) (t ++ [34%N])).
  { unfold remove_prefix. cbn [first set_first]. now replace (first p + 1) with (S (first p)) by lia. }
  assert (EM : (if checked then ensure (has_more (remove_prefix p 1)) InvalidString else Ok tt) = Ok tt).
  { destruct checked; auto. unfold has_more, remove_prefix. cbn [first last set_first].
    destruct (Nat.ltb_spec (first p + 1) (last p)); [reflexivity|lia]. }
  rewrite EM. cbn [bind]. unfold skip_string_nq.
  rewrite C14_string_end with (cl := cl) (t := t); auto.
  2:{ unfold remove_prefix. cbn [first set_first]. lia. }
  cbn [bind].
  assert (EQ : (if checked then c <- front buf (set_first (remove_prefix p 1) (first (remove_prefix p 1) + length t)) ;;
     ensure (c =? c_quote)%N InvalidString else Ok tt) = Ok tt).
  { destruct checked; auto. unfold front. cbn [first set_first]. apply sub_at_app in SB' as [_ [SB' _]].
    now rewrite (rd_some _ _ _ SB'). }
  rewrite EQ. cbn [bind]. eexists. split; [|repeat split].
  unfold remove_prefix. cbn [first last cfirst clast counter isnull set_first]. unfold set_first. cbn [first last cfirst clast counter isnull].
  { do 3 f_equal. lia. }
  all: reflexivity.
Qed.
Print Assumptions C14_skip_string.

Definition ex14 : list N := bytes "[""ab\""c\\"",1]".
Lemma ex14_in : in_string ex14 (set_first (new_ps 0 13) 2) 13.
Proof. unfold in_string. split; [apply is_bytes_dec; reflexivity|]. vm_compute. repeat split; lia. Qed.
Example C14_ex : str_body (bytes "ab\""c\\") /\
  parse_nq true ExConstexpr false ex14 (set_first (new_ps 0 13) 2)
    = Ok (2%N, set_first (new_ps 0 13) 9) /\
  sub_at ex14 2 (bytes "ab\""c\\" ++ [34%N]).
Proof.
  split; [eapply str_body_dec; [apply le_n|reflexivity]|]. split; vm_compute; repeat split.
Qed.

(** ** C15 *)
(** Any document, any mode: no read outside the buffer; success means a closing
    quote was found before the bound, otherwise it throws. *)
Theorem C15_string_scan_safe : forall ex excl buf p cl, in_string buf p cl -> first p <= cl ->
  match parse_nq true ex excl buf p with
  | Ok (_, p') => exists i, i < cl /\ nth_error buf i = Some 34%N /\ p' = set_first p i
  | Err _ => True
  | UB => False
  | Fuel => False
  end.
Proof.
  intros ex excl buf p cl HI HC.
  assert (X : outcome_ok (fun r => exists i, i < cl /\ nth_error buf i = Some 34%N /\ snd r = set_first p i)
     (parse_nq true ex excl buf p)).
  { destruct ex.
    - destruct excl; (eapply outcome_ok_weaken; [|first [apply parse_nq_excl_safe|apply parse_nq_cx_safe]; eauto]);
        intros r (t & _ & HS & HL & E & _); exists (first p + length t); repeat split; auto;
        apply sub_at_app in HS as [_ [HS _]]; auto.
    - eapply outcome_ok_weaken; [|apply parse_nq_rt_safe; eauto].
        intros r (t & _ & HS & HL & E); exists (first p + length t); repeat split; auto;
        apply sub_at_app in HS as [_ [HS _]]; auto.
    - apply parse_nq_simd_safe; auto. }
  destruct (parse_nq true ex excl buf p) as [[n p']| | |]; auto.
Qed.
Print Assumptions C15_string_scan_safe.

(** When the rest of the document holds no closing quote it throws. *)
Theorem C15_unterminated_throws : forall ex excl buf p cl, in_string buf p cl -> first p <= cl ->
  (ex = ExSimd -> forall i, i < cl -> nth_error buf i <> Some 34%N) ->
  (forall t, str_body t -> sub_at buf (first p) (t ++ [34%N]) -> cl <= first p + length t) ->
  exists r, parse_nq true ex excl buf p = Err r.
Proof.
  intros ex excl buf p cl HI HC NS NQ.
  assert (X : outcome_ok (fun _ => False) (parse_nq true ex excl buf p)).
  { destruct ex.
    - destruct excl; (eapply outcome_ok_weaken; [|first [apply parse_nq_excl_safe|apply parse_nq_cx_safe]; eauto]);
        intros r (t & HB & HS & HL & E & _); specialize (NQ t); try apply excl_str_body in HB; specialize (NQ HB HS); lia.
    - eapply outcome_ok_weaken; [|apply parse_nq_rt_safe; eauto].
        intros r (t & HB & HS & HL & E); specialize (NQ t HB HS); lia.
    - eapply outcome_ok_weaken; [|apply parse_nq_simd_safe; eauto]. intros r (i & L & E & _). exact (NS eq_refl i L E). }
  destruct (parse_nq true ex excl buf p); cbn in X; try contradiction. eauto.
Qed.
Print Assumptions C15_unterminated_throws.

(** In the default mode success means the text really is a string body. *)
Theorem C15_success_is_string : forall ex excl buf p cl n p', ex = ExConstexpr \/ ex = ExRuntime ->
  in_string buf p cl -> first p <= cl -> parse_nq true ex excl buf p = Ok (n, p') ->
  exists t, str_body t /\ sub_at buf (first p) (t ++ [34%N]) /\ first p + length t < cl /\
    p' = set_first p (first p + length t).
Proof.
  intros ex excl buf p cl n p' EX HI HC E.
  destruct EX as [->| ->]; [destruct excl|].
  - pose proof (parse_nq_excl_safe buf p cl HI HC) as X. rewrite E in X. destruct X as (t & HB & HS & HL & E1 & _).
    apply excl_str_body in HB. eauto.
  - pose proof (parse_nq_cx_safe buf p cl HI) as X. rewrite E in X. destruct X as (t & HB & HS & HL & E1 & _). eauto.
  - pose proof (parse_nq_rt_safe excl buf p cl HI) as X. rewrite E in X. destruct X as (t & HB & HS & HL & E1). eauto.
Qed.
Print Assumptions C15_success_is_string.

Example C15_ex : let buf := bytes "[""ab\" in
  in_string buf (set_first (new_ps 0 5) 2) 5 /\
  parse_nq true ExConstexpr false buf (set_first (new_ps 0 5) 2) = Err InvalidString /\
  parse_nq false ExConstexpr false buf (set_first (new_ps 0 5) 2) = UB.
Proof.
  cbv zeta. split; [|split; vm_compute; reflexivity].
  unfold in_string. split; [apply is_bytes_dec; reflexivity|]. vm_compute. repeat split; lia.
Qed.

(** ** C16 *)
(** Full claim: for every document and start position the three execution modes
    give the same result (same position, same reported escape).
    True of the position for runtime against constexpr; false of the reported
    escape (the subtraction is the wrong way round) and, for simd, of the
    position too. *)
Theorem C16_runtime_same_end_partial : forall buf p cl p', in_string buf p cl -> first p <= cl ->
  (N.of_nat (length buf) < 2^64)%N ->
  ((exists n, parse_nq true ExConstexpr false buf p = Ok (n, p')) <->
   (exists n, parse_nq true ExRuntime false buf p = Ok (n, p'))).
Proof.
  intros buf p cl p' HI HC H64.
  split; intros (n & E); (eapply C15_success_is_string in E; eauto); destruct E as (t & HB & HS & HL & ->).
  - eapply parse_nq_rt_ok; eauto.
  - eexists. apply C14_string_end with (cl := cl); auto.
    destruct HI as (_ & _ & _ & _ & _ & HCL & _). lia.
Qed.
Print Assumptions C16_runtime_same_end_partial.

Theorem C16_no_escape_partial : forall checked ex buf p cl u, ex = ExConstexpr \/ ex = ExRuntime ->
  in_string buf p cl -> Forall (fun c => c <> 34%N /\ c <> 92%N) u ->
  sub_at buf (first p) (u ++ [34%N]) -> first p + length u < cl -> (N.of_nat (length u) < 2^64)%N ->
  parse_nq checked ex false buf p = Ok ((2^64 - 1)%N, set_first p (first p + length u)).
Proof.
  intros checked ex buf p cl u [->| ->] HI HP HS HL H64.
  - rewrite C14_string_end with (cl := cl) (t := u); auto.
    + unfold reported_escape. pose proof (escape_offset_plain u [] HP) as X. rewrite app_nil_r in X. now rewrite X.
    + now apply str_body_plain.
  - now apply parse_nq_rt_plain with (cl := cl).
Qed.
Print Assumptions C16_no_escape_partial.

(** [ab\nc]: the compile-time mode reports the escape at 2, the runtime mode at
    2^64 - 2. *)
Theorem C16_first_escape_refuted : exists buf p cl, in_string buf p cl /\
  parse_nq true ExConstexpr false buf p = Ok (2%N, set_first p 6) /\
  parse_nq true ExRuntime false buf p = Ok ((2^64 - 2)%N, set_first p 6).
Proof.
  exists (bytes """ab\nc"""), (set_first (new_ps 0 7) 1), 7.
  split; [|split; vm_compute; reflexivity].
  unfold in_string. split; [apply is_bytes_dec; reflexivity|]. vm_compute. repeat split; lia.
Qed.
Print Assumptions C16_first_escape_refuted.

(** An escaped quote right after a 16-byte block ends the string early in simd
    mode. *)
Theorem C16_simd_end_refuted : exists buf p cl n, in_string buf p cl /\
  parse_nq true ExConstexpr false buf p = Ok (15%N, set_first p 19) /\
  parse_nq true ExSimd false buf p = Ok (n, set_first p 17).
Proof.
  exists (bytes """0123456789abcde\""x"""), (set_first (new_ps 0 20) 1), 20, 15%N.
  split; [|split; vm_compute; reflexivity].
  unfold in_string. split; [apply is_bytes_dec; reflexivity|]. vm_compute. repeat split; lia.
Qed.
Print Assumptions C16_simd_end_refuted.

Example C16_ex : parse_nq true ExRuntime false (bytes """abc""") (set_first (new_ps 0 5) 1)
  = parse_nq true ExConstexpr false (bytes """abc""") (set_first (new_ps 0 5) 1).
Proof. vm_compute. reflexivity. Qed.
