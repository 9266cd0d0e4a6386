(** The proleptic Gregorian calendar, by counting days one at a time;
    independent of the model. *)
From Coq Require Import ZArith Bool List.
Import ListNotations.
Local Open Scope Z_scope.

Definition leap (y : Z) : bool :=
  ((y mod 4 =? 0) && negb (y mod 100 =? 0)) || (y mod 400 =? 0).

Definition month_len (y m : Z) : Z :=
  if m =? 2 then (if leap y then 29 else 28)
  else if (m =? 4) || (m =? 6) || (m =? 9) || (m =? 11) then 30 else 31.

(** A date that exists. *)
Definition valid_date (y m d : Z) : Prop := 1 <= m <= 12 /\ 1 <= d <= month_len y m.

(** The day after. *)
Definition next_day (t : Z * Z * Z) : Z * Z * Z :=
  let '(y, m, d) := t in
  if d <? month_len y m then (y, m, d + 1)
  else if m <? 12 then (y, m + 1, 1) else (y + 1, 1, 1).

(** [day_no t k]: the date [t] is [k] days after 1970-01-01 (before, when [k] is
    negative). *)
Inductive day_no : Z * Z * Z -> Z -> Prop :=
| dn_epoch : day_no (1970, 1, 1) 0
| dn_next : forall t k, day_no t k -> day_no (next_day t) (k + 1)
| dn_prev : forall y m d k, valid_date y m d -> day_no (next_day (y, m, d)) k ->
    day_no (y, m, d) (k - 1).

(** A time of day that exists (leap seconds apart). *)
Definition valid_time (h mn s : Z) : Prop := 0 <= h < 24 /\ 0 <= mn < 60 /\ 0 <= s < 60.

(** Day of the week, counting on from the Thursday 1970-01-01; 0 is Sunday. *)
Definition next_weekday (w : Z) : Z := if w =? 6 then 0 else w + 1.
Inductive weekday : Z -> Z -> Prop :=
| wd_epoch : weekday 0 4
| wd_next : forall k w, weekday k w -> weekday (k + 1) (next_weekday w)
| wd_prev : forall k w, 0 <= w <= 6 -> weekday k (next_weekday w) -> weekday (k - 1) w.
