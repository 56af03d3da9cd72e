(** The proleptic Gregorian calendar, independently of the code: month lengths, the
    leap rule, and the successor of a date. *)
From Verif Require Import Base DateModel.
Open Scope Z_scope.

(** A year is a leap year when divisible by 4, except centuries not divisible by 400. *)
Definition leap (y : Z) : Prop := (4 | y) /\ (~ (100 | y) \/ (400 | y)).
Definition leapb (y : Z) : bool :=
  (y mod 4 =? 0) && (negb (y mod 100 =? 0) || (y mod 400 =? 0)).
Definition year_length (y : Z) : Z := if leapb y then 366 else 365.
Definition month_length (y m : Z) : Z :=
  if m =? 2 then (if leapb y then 29 else 28)
  else if (m =? 4) || (m =? 6) || (m =? 9) || (m =? 11) then 30 else 31.
(** A date of the calendar. *)
Definition valid_date (d : date) : Prop :=
  1 <= month d <= 12 /\ 1 <= day d <= month_length (year d) (month d).
(** The day after. *)
Definition next_day (d : date) : date :=
  if day d <? month_length (year d) (month d) then mk_date (year d) (month d) (day d + 1)
  else if month d <? 12 then mk_date (year d) (month d + 1) 1
  else mk_date (year d + 1) 1 1.
(** Chronological order of dates. *)
Definition date_lt (a b : date) : Prop :=
  year a < year b \/ (year a = year b /\ (month a < month b \/ (month a = month b /\ day a < day b))).
(** The Thursday of the week (Monday to Sunday) holding day number [n]; 1970-01-01 is
    a Thursday. *)
Definition thursday_of_week (n : Z) : Z := n - ((n + 3) mod 7) + 3.
