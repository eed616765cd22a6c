(** Specification: the Gregorian calendar from 1601-01-01, independent of the
    code: leap years, lengths of months, the day after a date. *)
From Coq Require Import QArith.
From Verif Require Import Base Field SpecNum.
Local Open Scope Z_scope.

Definition leap (y : Z) : Prop := y mod 4 = 0 /\ (y mod 100 <> 0 \/ y mod 400 = 0).

(** Number of days of month [m] of year [y]. *)
Inductive month_days (y : Z) : Z -> Z -> Prop :=
| md31 : forall m, In m [1; 3; 5; 7; 8; 10; 12] -> month_days y m 31
| md30 : forall m, In m [4; 6; 9; 11] -> month_days y m 30
| md29 : leap y -> month_days y 2 29
| md28 : ~ leap y -> month_days y 2 28.

(** A date of the calendar. *)
Definition date := (Z * Z * Z)%type.
Inductive valid_date : date -> Prop :=
| vd : forall y m d k, month_days y m k -> 1 <= d <= k -> valid_date (y, m, d).

(** The day after. *)
Inductive next_day : date -> date -> Prop :=
| nd_same_month : forall y m d k, month_days y m k -> 1 <= d < k -> next_day (y, m, d) (y, m, d + 1)
| nd_same_year : forall y m k, month_days y m k -> m < 12 -> next_day (y, m, k) (y, m + 1, 1)
| nd_next_year : forall y, next_day (y, 12, 31) (y + 1, 1, 1).

(** [nth_day n d]: [d] is day number [n], counting 1601-01-01 as day 1. *)
Inductive nth_day : Z -> date -> Prop :=
| nth_first : nth_day 1 (1601, 1, 1)
| nth_next : forall n d d', nth_day n d -> next_day d d' -> nth_day (n + 1) d'.

(** yyyymmdd. *)
Definition yyyymmdd (d : date) : Z := let '(y, m, dd) := d in 10000 * y + 100 * m + dd.

(** Day of the year: yyyyddd. *)
Definition year_days (y k : Z) : Prop := (leap y /\ k = 366) \/ (~ leap y /\ k = 365).
Inductive valid_day : Z * Z -> Prop :=
| vday : forall y d k, year_days y k -> 1 <= d <= k -> valid_day (y, d).
Inductive next_yday : Z * Z -> Z * Z -> Prop :=
| ny_same : forall y d k, year_days y k -> 1 <= d < k -> next_yday (y, d) (y, d + 1)
| ny_next : forall y k, year_days y k -> next_yday (y, k) (y + 1, 1).
Inductive nth_yday : Z -> Z * Z -> Prop :=
| nthy_first : nth_yday 1 (1601, 1)
| nthy_next : forall n d d', nth_yday n d -> next_yday d d' -> nth_yday (n + 1) d'.
Definition yyyyddd (d : Z * Z) : Z := 1000 * fst d + snd d.

(** An argument item holding the integer [n] (after truncation of decimals). *)
Definition int_arg (ebc : bool) (f : field) (n : Z) : Prop :=
  exists v, denotes ebc f v /\ trunc_at (rat v (a_scale (fa f))) 0 n /\ Z.abs n <= INT_MAX /\
    (a_type (fa f) = TDisplay -> -10 < a_scale (fa f) <= Z.of_nat (data_size f)) /\
    (a_type (fa f) = TPacked -> 0 <= a_scale (fa f) <= a_digits (fa f)) /\
    (a_type (fa f) = TBinary -> a_scale (fa f) = 0).
(** An item holding the integer [n] exactly. *)
Definition holds_int (ebc : bool) (f : field) (n : Z) : Prop :=
  denotes ebc f n /\ a_scale (fa f) = 0.
