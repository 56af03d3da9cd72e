(** Model of include/pyinterp/dateutils.hpp and of module/dateutils.cpp.
    Integers are unbounded; the ranges in which the C++ integer types hold every
    intermediate value are the object of separate theorems (DateProps.v). C++ [/]
    and [%] truncate toward zero: [Z.quot], [Z.rem]. *)
From Verif Require Import Base.
Open Scope Z_scope.

(** dateutils.hpp:18-38 *)
Definition kEpoch : Z := 1970.
Definition kSecondsInDay : Z := 86400.
Definition kSecondsInHour : Z := 3600.
Definition kSecondsInMinute : Z := 60.
Definition kMinutesInDay : Z := 1440.

(** dateutils.hpp:44-45: kDaysInMonth (index 0 unused). *)
Definition kDaysInMonth : list Z := [-1; 31; 28; 31; 30; 31; 30; 31; 31; 30; 31; 30; 31].

(** dateutils.hpp:51-71: DateType and Resolution. *)
Inductive date_kind := kDatetime64 | kTimedelta64.
Inductive resolution := kYear | kMonth | kWeek | kDay | kHour | kMinute | kSecond | kMillisecond
  | kMicrosecond | kNanosecond | kPicosecond | kFemtosecond | kAttosecond.
Definition all_resolutions : list resolution :=
  [kYear; kMonth; kWeek; kDay; kHour; kMinute; kSecond; kMillisecond; kMicrosecond; kNanosecond;
   kPicosecond; kFemtosecond; kAttosecond].

(** dateutils.hpp:122-153 [DType::unit]. *)
Definition unit_name (r : resolution) : string :=
  match r with
  | kYear => "Y" | kMonth => "M" | kWeek => "W" | kDay => "D" | kHour => "h" | kMinute => "m"
  | kSecond => "s" | kMillisecond => "ms" | kMicrosecond => "us" | kNanosecond => "ns"
  | kPicosecond => "ps" | kFemtosecond => "fs" | kAttosecond => "as"
  end%string.
(** dateutils.hpp:165-173 [datetype_name]. *)
Definition kind_name (k : date_kind) : string :=
  match k with kDatetime64 => "datetime64" | kTimedelta64 => "timedelta64" end%string.
(** dateutils.hpp:177-181 [operator std::string]. *)
Definition dtype_string (k : date_kind) (r : resolution) : string :=
  (kind_name k ++ "[" ++ unit_name r ++ "]")%string.

(** dateutils.hpp:239-282 [parse_unit]. *)
Definition parse_unit (u : string) : outcome resolution :=
  if String.eqb u "Y" then Ok kYear else if String.eqb u "M" then Ok kMonth
  else if String.eqb u "W" then Ok kWeek else if String.eqb u "D" then Ok kDay
  else if String.eqb u "h" then Ok kHour else if String.eqb u "m" then Ok kMinute
  else if String.eqb u "s" then Ok kSecond else if String.eqb u "ms" then Ok kMillisecond
  else if String.eqb u "us" then Ok kMicrosecond else if String.eqb u "ns" then Ok kNanosecond
  else if String.eqb u "ps" then Ok kPicosecond else if String.eqb u "fs" then Ok kFemtosecond
  else if String.eqb u "as" then Ok kAttosecond else Throw "invalid date unit".

(** module/dateutils.cpp:20-22, the regular expression
    [(datetime64|timedelta64)\[(Y|M|W|D|h|m|s|(?:[munpfa]s))\]], as the finite
    list of the (kind, unit) pairs of texts it matches. *)
Definition regex_units : list string :=
  ["Y"; "M"; "W"; "D"; "h"; "m"; "s"; "ms"; "us"; "ns"; "ps"; "fs"; "as"]%string.
Definition regex_pairs : list (string * string) :=
  map (fun u => ("datetime64", u)%string) regex_units ++ map (fun u => ("timedelta64", u)%string) regex_units.
Definition regex_text (ku : string * string) : string := (fst ku ++ "[" ++ snd ku ++ "]")%string.
(** [regex_search]: the leftmost position where the expression matches; the two
    captured groups. *)
Fixpoint regex_search (s : string) : option (string * string) :=
  match find (fun ku => String.prefix (regex_text ku) s) regex_pairs with
  | Some ku => Some ku
  | None => match s with EmptyString => None | String _ t => regex_search t end
  end.
(** dateutils.hpp:74-82 [DType(const std::string &)]. *)
Definition dtype_parse (s : string) : outcome (date_kind * resolution) :=
  match regex_search s with
  | None => Throw "unknown numpy date type"
  | Some (k, u) =>
      olet r := parse_unit u in
      Ok ((if String.eqb k "datetime64" then kDatetime64 else kTimedelta64), r)
  end.

(** dateutils.hpp:185-205 [order_of_magnitude]. *)
Definition order_of_magnitude (r : resolution) : outcome Z :=
  match r with
  | kSecond => Ok 1
  | kMillisecond => Ok 1000
  | kMicrosecond => Ok 1000000
  | kNanosecond => Ok 1000000000
  | kPicosecond => Ok 1000000000000
  | kFemtosecond => Ok 1000000000000000
  | kAttosecond => Ok 1000000000000000000
  | _ => Throw "The date resolution must be >= second"
  end.

(** dateutils.hpp:348-370 [seconds], [fractional], [epoch]: whole seconds and fraction. *)
Definition epoch (oom t : Z) : Z * Z :=
  let sec := Z.quot t oom in
  let frac := Z.rem t oom in
  if frac <? 0 then (sec - 1, frac + oom) else (sec, frac).
(** dateutils.hpp:298-306 [days_since_epoch]. *)
Definition days_since_epoch (oom t : Z) : Z * Z * Z :=
  let (seconds, fractional) := epoch oom t in
  let days := Z.quot seconds kSecondsInDay in
  let days := if Z.rem seconds kSecondsInDay <? 0 then days - 1 else days in
  (days, seconds, fractional).
(** dateutils.hpp:313-318 [cast]. *)
Definition frac_cast (oom frac scale : Z) : Z :=
  if oom <=? scale then Z.quot scale oom * frac else Z.quot frac (Z.quot oom scale).
(** dateutils.hpp:325-343 [resolution]. *)
Definition frac_resolution (oom : Z) : resolution :=
  if oom =? 1000000000000000000 then kAttosecond else if oom =? 1000000000000000 then kFemtosecond
  else if oom =? 1000000000000 then kPicosecond else if oom =? 1000000000 then kNanosecond
  else if oom =? 1000000 then kMicrosecond else if oom =? 1000 then kMillisecond else kSecond.

(** dateutils.hpp:373-377 struct Date; 380-384 struct Time; 387-391 ISOCalendar. *)
Record date := mk_date { year : Z; month : Z; day : Z }.
Record time := mk_time { hour : Z; minute : Z; second : Z }.
Record iso := mk_iso { iso_year : Z; iso_week : Z; iso_weekday : Z }.

(** dateutils.hpp:394-404 *)
Definition time_from_seconds (seconds : Z) : time :=
  let s := Z.rem seconds kSecondsInDay in
  let s := if s <? 0 then s + kSecondsInDay else s in
  let h := Z.rem s kSecondsInHour in
  mk_time (Z.quot s kSecondsInHour) (Z.quot h kSecondsInMinute) (Z.rem h kSecondsInMinute).

(** dateutils.hpp:407-409 *)
Definition date_from_years (y : Z) : date := mk_date (kEpoch + y) 1 1.
(** dateutils.hpp:412-420 *)
Definition date_from_months (months : Z) : date :=
  let y := Z.quot months 12 in
  let m := Z.rem months 12 in
  if negb (m =? 0) && (months <? 0) then mk_date (kEpoch + (y - 1)) (m + 12 + 1) 1
  else mk_date (kEpoch + y) (m + 1) 1.

(** dateutils.hpp:423-442, [date_from_days], with the named intermediate values. *)
Definition dfd_era (days : Z) : Z :=
  let d := days + 719468 in Z.quot (if d >=? 0 then d else d - 146096) 146097.
Definition dfd_doe (days : Z) : Z := days + 719468 - dfd_era days * 146097.
Definition dfd_yoe (doe : Z) : Z :=
  Z.quot (doe - Z.quot doe 1460 + Z.quot doe 36524 - Z.quot doe 146096) 365.
Definition dfd_doy (doe yoe : Z) : Z := doe - (365 * yoe + Z.quot yoe 4 - Z.quot yoe 100).
Definition dfd_mon (doy : Z) : Z := Z.quot (5 * doy + 2) 153.
Definition dfd_day (doy mon : Z) : Z := doy - Z.quot (153 * mon + 2) 5 + 1.
Definition dfd_month (mon : Z) : Z := if mon <? 10 then mon + 3 else mon - 9.
Definition date_from_days (days : Z) : date :=
  let era := dfd_era days in
  let doe := dfd_doe days in
  let yoe := dfd_yoe doe in
  let doy := dfd_doy doe yoe in
  let mon := dfd_mon doy in
  let d := dfd_day doy mon in
  let m := dfd_month mon in
  mk_date (yoe + era * 400 + (if m <=? 2 then 1 else 0)) m d.

(** dateutils.hpp:445-447 *)
Definition date_from_weeks (w : Z) : date := date_from_days (w * 7).
(** dateutils.hpp:450-460 *)
Definition datetime_from_hours (hours : Z) : date * time :=
  let d := Z.quot hours 24 in
  let h := Z.rem hours 24 in
  if negb (h =? 0) && (hours <? 0) then (date_from_days (d - 1), mk_time (h + 24) 0 0)
  else (date_from_days d, mk_time h 0 0).
(** dateutils.hpp:463-473 *)
Definition datetime_from_minutes (minutes : Z) : date * time :=
  let d := Z.quot minutes kMinutesInDay in
  let m := Z.rem minutes kMinutesInDay in
  if negb (m =? 0) && (minutes <? 0)
  then (date_from_days (d - 1), time_from_seconds ((m + kMinutesInDay) * kSecondsInMinute))
  else (date_from_days d, time_from_seconds (m * kSecondsInMinute)).

(** dateutils.hpp:560-562: bit tricks on a two's complement [int]. *)
Definition is_leap_year (y : Z) : Z :=
  if (Z.land y 3 =? 0) && (negb (Z.rem y 25 =? 0) || (Z.land y 15 =? 0)) then 1 else 0.

(** dateutils.hpp:565-577; the loop [for (ix = 1; ix < month; ++ix)]. *)
Fixpoint sum_months (n : nat) (ix : Z) (acc : Z) : Z :=
  match n with
  | O => acc
  | S n' => sum_months n' (ix + 1) (acc + match znth kDaysInMonth ix with Some v => v | None => 0 end)
  end.
Definition days_since_january (d : date) : Z :=
  let result := day d - 1 in
  let result := if month d >? 2 then result + is_leap_year (year d) else result in
  sum_months (Z.to_nat (month d - 1)) 1 result.

(** dateutils.hpp:580-583 *)
Definition weekday (days : Z) : Z :=
  if days >=? -4 then Z.rem (days + 4) 7 else Z.rem (days + 5) 7 + 6.
(** dateutils.hpp:589-594 *)
Definition iso_week_days (yday wday : Z) : Z :=
  let big_enough := (Z.quot 366 7 + 2) * 7 in
  yday - Z.rem (yday - wday + 4 + big_enough) 7 + 4 - 1.
(** dateutils.hpp:603-630; [(wday - 1 + 7) % 7 + 1] on a 32-bit unsigned. *)
Definition isocalendar (days_since_epoch : Z) : iso :=
  let d := date_from_days days_since_epoch in
  let yday := days_since_january d in
  let wday := weekday days_since_epoch in
  let wd := Z.rem ((wday - 1 + 7) mod 2 ^ 32) 7 + 1 in
  let days := iso_week_days yday wday in
  if days <? 0 then
    let days := iso_week_days (yday + (365 + is_leap_year (year d - 1))) wday in
    mk_iso (year d - 1) (Z.quot days 7 + 1) wd
  else
    let week_days := iso_week_days (yday - (365 + is_leap_year (year d))) wday in
    if 0 <=? week_days then mk_iso (year d + 1) (Z.quot week_days 7 + 1) wd
    else mk_iso (year d) (Z.quot days 7 + 1) wd.

(** module/dateutils.cpp:40-56, 58-74, 76-93, 95-111: one element. *)
Definition api_date (r : resolution) (t : Z) : outcome date :=
  olet oom := order_of_magnitude r in
  let '(days, _, _) := days_since_epoch oom t in Ok (date_from_days days).
Definition api_time (r : resolution) (t : Z) : outcome time :=
  olet oom := order_of_magnitude r in
  let '(_, seconds, _) := days_since_epoch oom t in Ok (time_from_seconds seconds).
Definition api_isocalendar (r : resolution) (t : Z) : outcome iso :=
  olet oom := order_of_magnitude r in
  let '(days, _, _) := days_since_epoch oom t in Ok (isocalendar days).
Definition api_weekday (r : resolution) (t : Z) : outcome Z :=
  olet oom := order_of_magnitude r in
  let '(days, _, _) := days_since_epoch oom t in Ok (weekday days).

Definition int64_min : Z := - 2 ^ 63.
Definition int64_max : Z := 2 ^ 63 - 1.
(** A signed 64-bit result outside the range is undefined behaviour. *)
Definition check64 (z : Z) : outcome Z :=
  if (int64_min <=? z) && (z <=? int64_max) then Ok z else UB "signed overflow".
(** module/dateutils.cpp:113-137 [timedelta_since_january], one element, with the
    64-bit product and sum checked. *)
Definition api_since_january (r : resolution) (t : Z) : outcome Z :=
  olet oom := order_of_magnitude r in
  let '(days, seconds, frac) := days_since_epoch oom t in
  let n := days_since_january (date_from_days days) in
  let hms := time_from_seconds seconds in
  olet p := check64 ((n * 86400 + hour hms * 3600 + minute hms * 60 + second hms) * oom) in
  check64 (p + frac).
(** module/dateutils.cpp:139-167 [datetime], one element: the arguments of
    PyDateTime_FromDateAndTime. *)
Definition api_datetime (r : resolution) (t : Z) : outcome (date * time * Z) :=
  olet oom := order_of_magnitude r in
  let '(days, seconds, frac) := days_since_epoch oom t in
  Ok (date_from_days days, time_from_seconds seconds, frac_cast oom frac 1000000).
