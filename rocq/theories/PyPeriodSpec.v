(** Time, independently of the code: the instants are the integers, attoseconds from 1970-01-01T00:00; a unit
    numbers consecutive spans of time. *)
From Verif Require Import Base DateModel DateSpec PeriodModel PyPeriodModel.
Open Scope Z_scope.

(** The span of number [x] of a unit begins at the instant [t]: the units of constant length, then the
    months and the years of the Gregorian calendar (DateSpec.v, C19). *)
Definition begins (r : resolution) (x t : Z) : Prop :=
  match r with
  | kAttosecond => t = x
  | kFemtosecond => t = x * 1000
  | kPicosecond => t = x * 1000000
  | kNanosecond => t = x * 1000000000
  | kMicrosecond => t = x * 1000000000000
  | kMillisecond => t = x * 1000000000000000
  | kSecond => t = x * 1000000000000000000
  | kMinute => t = x * 60 * 1000000000000000000
  | kHour => t = x * 3600 * 1000000000000000000
  | kDay => t = x * 86400 * 1000000000000000000
  | kWeek => t = x * 604800 * 1000000000000000000
  | kMonth => exists n m, t = n * 86400 * 1000000000000000000 /\ 0 <= m <= 11 /\
      date_from_days n = mk_date (1970 + (x - m) / 12) (m + 1) 1 /\ (12 | x - m)
  | kYear => exists n, t = n * 86400 * 1000000000000000000 /\ date_from_days n = mk_date (1970 + x) 1 1
  end.
(** The instant written by a date. *)
Definition at_instant (d : date64) (t : Z) : Prop := begins (d_unit d) (d_count d) t.
(** The instant is in the span of number [x]. *)
Definition in_span (r : resolution) (x t : Z) : Prop :=
  exists a b, begins r x a /\ begins r (x + 1) b /\ a <= t < b.
(** The instants of a period: from the beginning of its first span to the end of its last one. *)
Definition lasts (p : pyperiod) (t : Z) : Prop :=
  exists a b, begins (pp_res p) (p_begin (pp_core p)) a /\ begins (pp_res p) (p_last (pp_core p) + 1) b /\ a <= t < b.
(** The instants of a list. *)
Definition lasts_list (l : pylist) (t : Z) : Prop := exists p, In p (l_core l) /\ lasts (PyPeriod (l_unit l) p) t.
(** Each span of the first unit is a sequence of spans of the second one: every pair of units from the
    longer to the shorter, except the weeks, which cross the months and the years. *)
Definition divides (coarse fine : resolution) : Prop :=
  resolution_index fine <= resolution_index coarse /\ ~ (fine = kWeek /\ (coarse = kMonth \/ coarse = kYear)).
(** A period holds at least one instant. *)
Definition holds (p : pyperiod) : Prop := exists t, lasts p t.
(** Two instants in the same span. *)
Definition same_span (r : resolution) (t u : Z) : Prop := exists x, in_span r x t /\ in_span r x u.
(** The length of a timedelta64. *)
Definition lasting (d : delta64) : Z := e_count d * delta_as (e_unit d).
(** The units of constant length. *)
Definition constant (r : resolution) : Prop := r <> kMonth /\ r <> kYear.

