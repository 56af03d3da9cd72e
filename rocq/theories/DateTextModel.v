(** Model of [dateutils::datetime64_to_string] (include/pyinterp/dateutils.hpp:476-557), the text of a date
    shown by [TemporalAxis::coordinate_repr] (temporal_axis.hpp:218-221) in the messages of the interpolators
    and by [core.dateutils.datetime64_to_str] (module/dateutils.cpp:234-243).

    Simplification: unbounded integers; [std::log10] of a power of ten is exact. *)
From Coq Require Import Ascii.
From Verif Require Import Base DateModel.
Open Scope string_scope.
Open Scope Z_scope.

(** [operator<<] of an integer and [std::to_string]: decimal digits, without leading zeros. *)
Definition digit_char (d : Z) : ascii := ascii_of_nat (Z.to_nat (48 + d)).
Fixpoint digits_of (fuel : nat) (n : Z) (acc : string) : string :=
  match fuel with
  | O => acc
  | S fuel =>
      let acc := String (digit_char (n mod 10)) acc in
      if n <? 10 then acc else digits_of fuel (n / 10) acc
  end.
Definition decimal (n : Z) : string :=
  let w m := digits_of (S (Z.to_nat (Z.log2 m))) m "" in
  if n <? 0 then "-" ++ w (- n) else w n.
(** [std::setfill('0') << std::setw(width)]: zeros on the left. *)
Fixpoint zeros (n : nat) : string := match n with O => "" | S n => String "0" (zeros n) end.
Definition setw (width : nat) (s : string) : string := zeros (width - String.length s) ++ s.

Definition write_month (d : date) : string := decimal (year d) ++ "-" ++ setw 2 (decimal (month d)).
Definition write_day (d : date) : string := write_month d ++ "-" ++ setw 2 (decimal (day d)).
Definition write_hour (d : date) (t : time) : string := write_day d ++ "T" ++ setw 2 (decimal (hour t)).
Definition write_minute (d : date) (t : time) : string := write_hour d t ++ ":" ++ setw 2 (decimal (minute t)).
Definition write_second (d : date) (t : time) : string := write_minute d t ++ ":" ++ setw 2 (decimal (second t)).

(** dateutils.hpp:309-311 [ndigits]: the integer part of the decimal logarithm. *)
Fixpoint log10 (fuel : nat) (n : Z) : nat :=
  match fuel with O => O | S fuel => if n <? 10 then O else S (log10 fuel (n / 10)) end.
Definition ndigits (oom : Z) : nat := log10 (Z.to_nat (Z.log2 oom)) oom.

(** dateutils.hpp:476-557. *)
Definition datetime64_to_string (r : resolution) (value : Z) : outcome string :=
  match r with
  | kYear => Ok (decimal (year (date_from_years value)))
  | kMonth => Ok (write_month (date_from_months value))
  | kWeek => Ok (write_day (date_from_weeks value))
  | kDay => Ok (write_day (date_from_days value))
  | kHour => let (d, t) := datetime_from_hours value in Ok (write_hour d t)
  | kMinute => let (d, t) := datetime_from_minutes value in Ok (write_minute d t)
  | _ =>
      olet oom := order_of_magnitude r in
      let '(days, seconds, fractional) := days_since_epoch oom value in
      let s := write_second (date_from_days days) (time_from_seconds seconds) in
      let n := ndigits oom in
      Ok (if (0 <? n)%nat then s ++ "." ++ setw n (decimal fractional) else s)
  end.
