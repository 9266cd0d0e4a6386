(** Unicode scalar values, UTF-8 and the meaning of JSON string escapes;
    independent of the model. *)
From Coq Require Import List NArith Bool.
From Verif Require Import SpecNum SpecText SpecJson.
Import ListNotations.
Local Open Scope N_scope.

(** Unicode scalar value *)
Definition scalar (cp : N) : Prop := cp < 55296 \/ 57344 <= cp <= 1114111.

(** UTF-8 (RFC 3629) *)
Definition utf8 (cp : N) : list N :=
  if cp <? 128 then [cp]
  else if cp <? 2048 then [192 + cp / 64; 128 + cp mod 64]
  else if cp <? 65536 then [224 + cp / 4096; 128 + cp / 64 mod 64; 128 + cp mod 64]
  else [240 + cp / 262144; 128 + cp / 4096 mod 64; 128 + cp / 64 mod 64; 128 + cp mod 64].

(** Value of a hex digit, either case *)
Definition hex_val (b : N) : N :=
  if b <=? 57 then b - 48 else if b <=? 70 then b - 55 else b - 87.
(** four hex digits denoting [u] *)
Definition hex4 (ds : list N) (u : N) : Prop :=
  exists a b c d, ds = [a; b; c; d] /\ is_hex a /\ is_hex b /\ is_hex c /\ is_hex d /\
    u = 4096 * hex_val a + 256 * hex_val b + 16 * hex_val c + hex_val d.

(** The two-character escapes *)
Definition simple_escapes : list (N * N) :=
  [(34, 34); (92, 92); (47, 47); (98, 8); (102, 12); (110, 10); (114, 13); (116, 9)].

(** [denotes t s]: the string text [t] (between the quotes) denotes the bytes
    [s].  Bytes other than escapes stand for themselves. *)
Inductive denotes : list N -> list N -> Prop :=
| dn_nil : denotes [] []
| dn_plain : forall c t s, c <> 34 -> c <> 92 -> denotes t s -> denotes (c :: t) (c :: s)
| dn_simple : forall e c t s, In (e, c) simple_escapes -> denotes t s ->
    denotes (92 :: e :: t) (c :: s)
| dn_u : forall ds u t s, hex4 ds u -> scalar u -> denotes t s ->
    denotes (92 :: 117 :: ds ++ t) (utf8 u ++ s)
| dn_pair : forall ds1 u1 ds2 u2 t s, hex4 ds1 u1 -> hex4 ds2 u2 ->
    55296 <= u1 <= 56319 -> 56320 <= u2 <= 57343 -> denotes t s ->
    denotes (92 :: 117 :: ds1 ++ 92 :: 117 :: ds2 ++ t)
            (utf8 (65536 + (u1 - 55296) * 1024 + (u2 - 56320)) ++ s).
