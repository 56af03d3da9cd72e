(** Model of the Python classes Period and PeriodList (src/pyinterp/period.py, below "period.py:") on top
    of the C++ ones of PeriodModel.v, and of the conversions of units of numpy they rely on.

    A datetime64 (timedelta64) scalar is its unit and its count.  Simplifications: unbounded integers (no
    overflow), no NaT; the multiples of a unit ("datetime64[25s]") and the dates without unit, which
    [_time64_unit] and [RESOLUTION.index] refuse with a ValueError (period.py:26-37), do not occur. *)
From Verif Require Import Base DateModel PeriodModel.
Open Scope Z_scope.

Record date64 : Type := Date64 { d_unit : resolution; d_count : Z }.
Record delta64 : Type := Delta64 { e_unit : resolution; e_count : Z }.

(** ** Conversions of numpy (multiarray/datetime.c) *)
(** Lengths in attoseconds; a year is 146097/400 days and a month a twelfth of that when a timedelta64
    is converted ([get_datetime_conversion_factor]). *)
Definition delta_as (r : resolution) : Z :=
  match r with
  | kYear => 31556952000000000000000000 | kMonth => 2629746000000000000000000
  | kWeek => 604800000000000000000000 | kDay => 86400000000000000000000 | kHour => 3600000000000000000000
  | kMinute => 60000000000000000000
  | kSecond => 1000000000000000000 | kMillisecond => 1000000000000000
  | kMicrosecond => 1000000000000 | kNanosecond => 1000000000 | kPicosecond => 1000000
  | kFemtosecond => 1000 | kAttosecond => 1
  end.
(** [timedelta64.astype]: rounded downwards. *)
Definition delta_cast (to : resolution) (d : delta64) : Z := (e_count d * delta_as (e_unit d)) / delta_as to.

(** [get_datetimestruct_days] of the first of January. *)
Definition january (year : Z) : Z :=
  365 * (year - 1970) + (year - 1969) / 4 - (year - 1901) / 100 + (year - 1601) / 400.
Definition day_as : Z := delta_as kDay.
(** [convert_datetime_to_datetimestruct]: attoseconds from 1970 of a date. *)
Definition instant (r : resolution) (x : Z) : Z :=
  match r with
  | kYear => january (1970 + x) * day_as
  | kMonth => let y := 1970 + x / 12 in (january y + days_since_january (mk_date y (x mod 12 + 1) 1)) * day_as
  | _ => x * delta_as r
  end.
(** [convert_datetimestruct_to_datetime]: rounded downwards. *)
Definition count (r : resolution) (t : Z) : Z :=
  match r with
  | kYear => year (date_from_days (t / day_as)) - 1970
  | kMonth => let d := date_from_days (t / day_as) in (year d - 1970) * 12 + (month d - 1)
  | _ => t / delta_as r
  end.
(** [numpy.datetime64(value, unit)], [value.astype('M8[unit]')]. *)
Definition cast (to : resolution) (d : date64) : Z := count to (instant (d_unit d) (d_count d)).

(** ** Period *)
(** period.py:21-23, 34-37: the index in RESOLUTION, and the unit of smallest index. *)
Definition resolution_index (r : resolution) : Z :=
  match r with
  | kAttosecond => 0 | kFemtosecond => 1 | kPicosecond => 2 | kNanosecond => 3 | kMicrosecond => 4
  | kMillisecond => 5 | kSecond => 6 | kMinute => 7 | kHour => 8 | kDay => 9 | kWeek => 10 | kMonth => 11
  | kYear => 12
  end.
Definition min_time64_unit (a b : resolution) : resolution :=
  if resolution_index b <? resolution_index a then b else a.
Definition same_unit (a b : resolution) : bool := resolution_index a =? resolution_index b.

(** period.py:57-66. *)
Record pyperiod : Type := PyPeriod { pp_res : resolution; pp_core : period }.
Definition new_period (begin last : date64) (within : bool) : pyperiod :=
  let r := min_time64_unit (d_unit begin) (d_unit last) in
  let b := cast r begin in
  let e := cast r last in
  let e := if negb within then e - 1 else e in
  PyPeriod r (period_ctor b e true).
(** period.py:79-91 *)
Definition pp_begin (p : pyperiod) : date64 := Date64 (pp_res p) (p_begin (pp_core p)).
Definition pp_last (p : pyperiod) : date64 := Date64 (pp_res p) (p_last (pp_core p)).
Definition pp_end (p : pyperiod) : date64 := Date64 (pp_res p) (p_end (pp_core p)).
(** period.py:68-69 [__reduce__], applied by [pickle.loads] and [copy.copy]. *)
Definition pp_copy (p : pyperiod) : pyperiod := new_period (pp_begin p) (pp_last p) true.
(** period.py:71-77 *)
Definition as_base_class (p : pyperiod) : period := period_ctor (p_begin (pp_core p)) (p_last (pp_core p)) true.
(** period.py:93-106 *)
Definition as_resolution (p : pyperiod) (r : resolution) : pyperiod :=
  new_period (Date64 r (cast r (pp_begin p))) (Date64 r (cast r (pp_last p))) true.
(** period.py:114-116 *)
Definition pp_duration (p : pyperiod) : delta64 := Delta64 (pp_res p) (p_duration (pp_core p)).
(** period.py:118-120 *)
Definition pp_is_null (p : pyperiod) : bool := p_is_null (pp_core p).
(** period.py:122-130 *)
Definition pp_eq (p q : pyperiod) : bool :=
  if negb (same_unit (pp_res p) (pp_res q)) then false else p_eqb (pp_core p) (pp_core q).
(** period.py:132-137; module/period.cpp:50-55 compares the beginnings. *)
Definition pp_lt (p q : pyperiod) : bool :=
  if negb (same_unit (pp_res p) (pp_res q)) then false else p_begin (pp_core p) <? p_begin (pp_core q).
(** period.py:155-157, 180-181, 244-245, 258-259, 276-277 *)
Definition convert (p q : pyperiod) : pyperiod :=
  if negb (same_unit (pp_res p) (pp_res q)) then as_resolution q (pp_res p) else q.
(** period.py:139-158 *)
Definition pp_contains (p : pyperiod) (d : date64) : bool := p_contains (pp_core p) (cast (pp_res p) d).
Definition pp_contains_period (p q : pyperiod) : bool := p_contains_period (pp_core p) (pp_core (convert p q)).
(** period.py:160-181 *)
Definition pp_is_adjacent (p q : pyperiod) : bool := p_is_adjacent (pp_core p) (pp_core (convert p q)).
(** period.py:183-202 *)
Definition pp_is_before (p : pyperiod) (d : date64) : bool := p_is_before (pp_core p) (cast (pp_res p) d).
(** period.py:204-222 *)
Definition pp_is_after (p : pyperiod) (d : date64) : bool := p_is_after (pp_core p) (cast (pp_res p) d).
(** period.py:224-246 *)
Definition pp_intersects (p q : pyperiod) : bool := p_intersects (pp_core p) (pp_core (convert p q)).
(** period.py:248-265, 267-283: a new Period in the unit of the first one. *)
Definition in_unit (p : pyperiod) (c : period) : pyperiod :=
  new_period (Date64 (pp_res p) (p_begin c)) (Date64 (pp_res p) (p_last c)) true.
Definition pp_intersection (p q : pyperiod) : pyperiod := in_unit p (p_intersection (pp_core p) (pp_core (convert p q))).
Definition pp_merge (p q : pyperiod) : pyperiod := in_unit p (p_merge (pp_core p) (pp_core (convert p q))).

(** ** PeriodList *)
(** period.py:298-318: the unit of [_datetime64] (that of [_timedelta64] is the same) and [_instance]. *)
Record pylist : Type := PyList { l_unit : resolution; l_core : list period }.
(** An array given to the constructor: [da_unit] is [None] when the dtype is not datetime64. *)
Record darray : Type := DArray { da_shape : list Z; da_unit : option resolution; da_data : list Z }.
(** Its rows. *)
Fixpoint rows_of (n : nat) (width : nat) (l : list Z) : list (list Z) :=
  match n with O => [] | S n => firstn width l :: rows_of n width (skipn width l) end.
(** [numpy.rec.fromarrays(periods, DTYPE)]: one row per field. *)
Fixpoint records (b e : list Z) : list period :=
  match b, e with x :: b, y :: e => mk_period x y :: records b e | _, _ => [] end.
Definition new_list (a : darray) : outcome pylist :=
  match da_unit a with
  | None => Throw "periods must be a numpy.datetime64 array"
  | Some u =>
      match da_shape a with
      | [n; m] =>
          match rows_of (Z.to_nat n) (Z.to_nat m) (da_data a) with
          | [b; e] => Ok (PyList u (records b e))
          | _ => Throw "mismatch between the number of fields and the number of arrays"
          end
      | _ => Throw "periods must be a 2d array of numpy.datetime64"
      end
  end.
(** period.py:320-325 *)
Definition empty_list : pylist := PyList kNanosecond [].
(** period.py:338-341: the rows of the array [periods]. *)
Definition periods_of (l : pylist) : list (date64 * date64) :=
  map (fun p => (Date64 (l_unit l) (p_begin p), Date64 (l_unit l) (p_last p))) (l_core l).

(** What a method returns: the object itself, modified, or a new object. *)
Inductive returned : Type := Self | New (l : pylist).
(** Each method gives the state of the object after the call and what it returns. *)
(** period.py:350-371: [epsilon] is [None] or falsy (zero): 0. *)
Definition list_join (l : pylist) (epsilon : option delta64) (inplace : bool) : pylist * returned :=
  let eps := match epsilon with
             | Some e => if e_count e =? 0 then 0 else delta_cast (l_unit l) e
             | None => 0
             end in
  let r := pl_join (l_core l) eps in
  if inplace then (PyList (l_unit l) r, Self) else (l, New (PyList (l_unit l) r)).
(** period.py:373-384 *)
Definition list_within (l : pylist) (p : pyperiod) : pylist * returned :=
  (l, New (PyList (l_unit l) (pl_within (l_core l) (as_base_class p)))).
(** period.py:386-398 *)
Definition list_intersection (l : pylist) (p : pyperiod) : pylist * returned :=
  (l, New (PyList (l_unit l) (pl_intersection (l_core l) (as_base_class p)))).
(** period.py:400-403 *)
Definition list_duration (l : pylist) : list delta64 := map (Delta64 (l_unit l)) (py_durations (l_core l)).
(** period.py:405-417 *)
Definition list_filter (l : pylist) (d : delta64) : pylist * returned :=
  (l, New (PyList (l_unit l) (pl_filter (l_core l) (delta_cast (l_unit l) d)))).
(** period.py:419-422 *)
Definition list_sort (l : pylist) : pylist * returned := (PyList (l_unit l) (pl_sort (l_core l)), Self).
(** period.py:424-437: [other.periods] is an array of records of two fields; numpy refuses to cast it to a
    plain datetime64. *)
Definition list_merge (l other : pylist) : outcome (pylist * returned) :=
  if negb (same_unit (l_unit l) (l_unit other)) then Throw "TypeError: cannot cast a structured array"
  else Ok (PyList (l_unit l) (pl_merge (l_core l) (l_core other)), Self).
(** period.py:439-467, 469-498: the dates are converted to the unit of the list. *)
Definition list_cross (l : pylist) (u : resolution) (dates : list Z) : outcome (list bool) :=
  pl_cross (l_core l) (map (fun x => cast (l_unit l) (Date64 u x)) dates).
Definition list_belong (l : pylist) (u : resolution) (dates : list Z) : outcome (list bool) :=
  pl_belong (l_core l) (map (fun x => cast (l_unit l) (Date64 u x)) dates).
(** period.py:500-517; [epsilon or timedelta64(0, 's')]. *)
Definition list_is_close (l : pylist) (d : date64) (epsilon : option delta64) : bool :=
  let e := match epsilon with
           | Some e => if e_count e =? 0 then Delta64 kSecond 0 else e
           | None => Delta64 kSecond 0
           end in
  pl_is_close (l_core l) (cast (l_unit l) d) (delta_cast (l_unit l) e).
(** period.py:330-336: [__getstate__] and [__setstate__], with module/period.cpp:78-86. *)
Definition list_copy (l : pylist) : pylist := PyList (l_unit l) (l_core l).
