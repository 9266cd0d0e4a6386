(** C16 for the simd mode: where a string ends. *)
From Coq Require Import String.
From Coq Require Import List NArith ZArith Bool Lia Arith.
From Verif Require Import Base Mem Loop PolicyModel StrScanModel SpecNum SpecText SpecJson StrScanProofs SimdProofs Dec PropertiesStr.
Import ListNotations.

(** Full claim: as C16, the end found is the one of the compile-time mode.
    Proved when the end lies in a full block of 16 bytes, and otherwise when no
    escape starts in the last byte of the last block (C16_simd_end_refuted is such
    a string). *)
Theorem C16_simd_end_partial : forall excl buf p cl t, in_string buf p cl -> str_body t ->
  sub_at buf (first p) (t ++ [34%N]) -> first p + length t < cl ->
  (let n := 16 * ((cl - first p) / 16) in length t < n \/ exists a b, t = a ++ b /\ length a = n /\ str_body a) ->
  exists k, parse_nq true ExSimd excl buf p = Ok (k, set_first p (first p + length t)).
Proof. intros excl buf p cl t HI HB HS HL H. exact (parse_nq_simd_ok excl buf p cl t HI HB HS HL H). Qed.
Print Assumptions C16_simd_end_partial.

(** The escape reported: in simd mode it is the first backslash of the block, also
    when the string ended before it, and counts from the block, not from the
    string. *)
Theorem C16_simd_escape_refuted :
  (exists buf p cl q, in_string buf p cl /\ parse_nq true ExConstexpr false buf p = Ok ((2^64 - 1)%N, q) /\
    parse_nq true ExSimd false buf p = Ok (6%N, q)) /\
  (exists buf p cl q, in_string buf p cl /\ parse_nq true ExConstexpr false buf p = Ok (18%N, q) /\
    parse_nq true ExSimd false buf p = Ok (2%N, q)).
Proof.
  split.
  - exists (bytes """ab"",""x\ny""         "), (set_first (new_ps 0 20) 1), 20, (set_first (new_ps 0 20) 3).
    split; [|split; vm_compute; reflexivity].
    unfold in_string. split; [apply is_bytes_dec; reflexivity|]. vm_compute. repeat split; lia.
  - exists (bytes """0123456789abcdef01\n23456789abcdef"""), (set_first (new_ps 0 36) 1), 36, (set_first (new_ps 0 36) 35).
    split; [|split; vm_compute; reflexivity].
    unfold in_string. split; [apply is_bytes_dec; reflexivity|]. vm_compute. repeat split; lia.
Qed.
Print Assumptions C16_simd_escape_refuted.

(** Two blocks with an escape across their border, then a tail *)
Example C16_simd_ex : parse_nq true ExSimd false (bytes """0123456789abcde\""0123456789abcd\\x\""y""") (set_first (new_ps 0 39) 1)
  = Ok (15%N, set_first (new_ps 0 39) 38).
Proof. vm_compute. reflexivity. Qed.
