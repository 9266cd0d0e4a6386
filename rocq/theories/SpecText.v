(** Small vocabulary for talking about text at a position, independent of the
    model's helper functions. *)
From Coq Require Import List NArith Bool Lia.
From Verif Require Import Mem SpecNum.
Import ListNotations.

(** The four whitespace characters of RFC 8259. *)
Definition json_ws (b : N) : Prop := b = 32%N \/ b = 9%N \/ b = 10%N \/ b = 13%N.

(** The digits that end at [j] are not continued before [last]. *)
Definition no_digit_at (buf : list N) (j last : nat) : Prop :=
  (j <= last)%nat /\ (j = last \/ exists b, nth_error buf j = Some b /\ ~ is_dig b).

(** What may follow a value: the end of the data, whitespace, or one of
    [, ] } :]. *)
Definition delimiter (b : N) : Prop :=
  json_ws b \/ b = 44%N \/ b = 93%N \/ b = 125%N \/ b = 58%N.
Definition value_ends_at (buf : list N) (j last : nat) : Prop :=
  (j <= last)%nat /\ (j = last \/ exists b, nth_error buf j = Some b /\ delimiter b).

(** [j] is reached from [i] over whitespace only, and is not followed by
    whitespace (or is the end of the data). *)
Definition ws_run (buf : list N) (i j last : nat) : Prop :=
  exists t, j = (i + length t)%nat /\ (j <= last)%nat /\ sub_at buf i t /\ Forall json_ws t /\
    (j = last \/ exists b, nth_error buf j = Some b /\ (32 < b)%N).
