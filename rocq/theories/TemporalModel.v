(** Model of the Python classes of axes: TemporalAxis (include/pyinterp/temporal_axis.hpp, below
    "temporal:"), and the sequence protocol, the comparison and the pickling shared by Axis, AxisInt64
    and TemporalAxis (include/pyinterp/axis.hpp, module/axis.cpp).

    A numpy array is its number of dimensions, its contiguity flag, the text of its dtype and its
    64-bit contents.  What numpy does ([astype] of dates, [PySlice_GetIndicesEx]) is modelled from its
    documentation.  Simplifications: unbounded integers (no overflow of a date converted to a finer
    unit), except the [size_t] arithmetic of the slices, which is modulo 2^64; the multiples of a unit
    accepted by numpy ("datetime64[25s]") are refused by the regular expression of DType (C25). *)
From Verif Require Import Base MathModel AxisModel IntAxisModel DateModel XarrayModel.
Open Scope Z_scope.

Record tarray : Type := TArray { ar_ndim : Z; ar_c : bool; ar_dtype : string; ar_data : list Z }.

(** temporal:24-32 [detail::dtype]. *)
Definition array_dtype (a : tarray) : outcome (date_kind * resolution) :=
  if negb (ar_ndim a =? 1) then Throw "must be a 1-dimensional array"
  else if negb (ar_c a) then Throw "must be a C-style contiguous array"
  else dtype_parse (ar_dtype a).

(** temporal:49-59, 245-247: the object and its constructor from an array; the two arguments of
    the private constructor are evaluated in an unspecified order, here the dtype first: the order
    only selects the exception. *)
Record taxis : Type := TAxis { t_cont : icontainer; t_kind : date_kind; t_res : resolution }.
Definition temporal_axis (a : tarray) : outcome taxis :=
  olet (k, r) := array_dtype a in
  olet c := int_axis_of_values (ar_data a) in Ok (TAxis c k r).

(** dateutils.hpp:58-72 (values of the enumeration), 206-209, 232-236 [operator<]. *)
Definition rank (r : resolution) : Z :=
  match r with
  | kYear => 0 | kMonth => 1 | kWeek => 2 | kDay => 3 | kHour => 4 | kMinute => 5 | kSecond => 6
  | kMillisecond => 7 | kMicrosecond => 8 | kNanosecond => 9 | kPicosecond => 10
  | kFemtosecond => 11 | kAttosecond => 12
  end.
Definition kind_eqb (a b : date_kind) : bool :=
  match a, b with kDatetime64, kDatetime64 | kTimedelta64, kTimedelta64 => true | _, _ => false end.

(** [ndarray.astype(dtype)] of numpy between units of constant length, in attoseconds: the largest
    multiple of the new unit which does not exceed the value (numpy/core/src/multiarray/datetime.c,
    both for datetime64 and timedelta64).  Years and months have no constant length: [calendar]. *)
Definition unit_as (r : resolution) : option Z :=
  match r with
  | kYear | kMonth => None
  | kWeek => Some 604800000000000000000000 | kDay => Some 86400000000000000000000 | kHour => Some 3600000000000000000000
  | kMinute => Some 60000000000000000000
  | kSecond => Some 1000000000000000000 | kMillisecond => Some 1000000000000000
  | kMicrosecond => Some 1000000000000 | kNanosecond => Some 1000000000 | kPicosecond => Some 1000000
  | kFemtosecond => Some 1000 | kAttosecond => Some 1
  end.

Section Cast.
Variable calendar : date_kind -> resolution -> resolution -> Z -> Z.
Definition astype (k : date_kind) (from to : resolution) (x : Z) : Z :=
  match unit_as from, unit_as to with
  | Some u, Some v => (x * u) / v
  | _, _ => calendar k from to x
  end.

(** temporal:176-200 [safe_cast]: the converted values and whether a UserWarning is issued;
    [strict]: the user turned the warnings into errors. *)
Definition safe_cast (strict : bool) (t : taxis) (a : tarray) : outcome (list Z * bool) :=
  olet (k, r) := array_dtype a in
  if negb (kind_eqb k (t_kind t)) then Throw "Cannot cast"
  else
    let warn := rank (t_res t) <? rank r in
    if warn && strict then Throw "implicit conversion"
    else if rank (t_res t) =? rank r then Ok (ar_data a, warn)
    else Ok (map (astype k r (t_res t)) (ar_data a), warn).

(** axis.hpp:126-176, temporal:131-172: the loops over the coordinates. *)
Fixpoint each {A B : Type} (f : A -> outcome B) (l : list A) : outcome (list B) :=
  match l with
  | [] => Ok []
  | x :: q => olet y := f x in olet ys := each f q in Ok (y :: ys)
  end.
Definition row (r : option (Z * Z)) : Z * Z := match r with Some p => p | None => (-1, -1) end.
Definition t_find_index (strict : bool) (t : taxis) (a : tarray) (bounded : bool) : outcome (list Z) :=
  olet (l, _) := safe_cast strict t a in each (fun x => i_find_index (t_cont t) x bounded) l.
Definition t_find_indexes (strict : bool) (t : taxis) (a : tarray) : outcome (list (Z * Z)) :=
  olet (l, _) := safe_cast strict t a in
  each (fun x => olet r := i_find_indexes (t_cont t) x in Ok (row r)) l.
End Cast.

(** axis.hpp:126-176, [find_index] and [find_indexes] of an Axis of numbers; [ndim] is the number of
    dimensions of the array. *)
Definition a_find_index (a : axis) (ndim : Z) (l : list Q) (bounded : bool) : outcome (list Z) :=
  if negb (ndim =? 1) then Throw "coordinates must be a 1-dimensional array"
  else each (fun x => find_nearest_index a x bounded) l.
Definition a_find_indexes (a : axis) (ndim : Z) (l : list Q) : outcome (list (Z * Z)) :=
  if negb (ndim =? 1) then Throw "coordinates must be a 1-dimensional array"
  else each (fun x => olet r := find_indexes a x in Ok (row r)) l.

(** ** The sequence protocol *)
(** container.hpp:432-435, 278-281: [operator()], the access which is not checked. *)
Definition i_get (c : icontainer) (i : Z) : outcome Z :=
  match c with
  | IIrr _ pts => match znth pts i with Some v => Ok v | None => UB "read" end
  | IReg _ _ s st _ => Ok (s + i * st)
  end.
Definition a_get (a : axis) (i : Z) : outcome Q :=
  match c_value (a_cont a) i with Some v => Ok v | None => UB "read" end.

(** A Python slice; [None] is the omitted field.  CPython [PySlice_Unpack] and
    [PySlice_AdjustIndices] (the fields fit in a Py_ssize_t: they are clipped beforehand). *)
Record pyslice : Type := PySlice { s_start : option Z; s_stop : option Z; s_step : option Z }.
Definition ssize_max : Z := 2 ^ 63 - 1.
Definition clip (x : Z) : Z := Z.max (- ssize_max - 1) (Z.min ssize_max x).
Definition adjust_index (length step x : Z) : Z :=
  if x <? 0 then (let y := x + length in if y <? 0 then (if step <? 0 then -1 else 0) else y)
  else if x >=? length then (if step <? 0 then length - 1 else length) else x.
Definition slice_indices (length : Z) (s : pyslice) : outcome (Z * Z * Z * Z) :=
  let step := match s_step s with None => 1 | Some k => clip k end in
  if step =? 0 then Throw "slice step cannot be zero"
  else
    let step := Z.max step (- ssize_max) in
    let start := match s_start s with None => if step <? 0 then ssize_max else 0 | Some i => clip i end in
    let stop := match s_stop s with None => if step <? 0 then - ssize_max - 1 else ssize_max | Some i => clip i end in
    let start := adjust_index length step start in
    let stop := adjust_index length step stop in
    let n := if step <? 0 then (if stop <? start then Z.quot (start - stop - 1) (- step) + 1 else 0)
             else (if start <? stop then Z.quot (stop - start - 1) step + 1 else 0) in
    Ok (start, stop, step, n).

(** axis.hpp:93-115, temporal:105-129 [coordinate_values]: [start] and [step] are [size_t]. *)
Definition as_u64 (z : Z) : Z := z mod 2 ^ 64.
Definition as_i64 (z : Z) : Z := let r := z mod 2 ^ 64 in if r <? 2 ^ 63 then r else r - 2 ^ 64.
Fixpoint slice_loop {A : Type} (get : Z -> outcome A) (n : nat) (start step : Z) : outcome (list A) :=
  match n with
  | O => Ok []
  | S n =>
      olet v := get (as_i64 start) in
      olet t := slice_loop get n (as_u64 (start + step)) step in Ok (v :: t)
  end.
Definition slice_values {A : Type} (get : Z -> outcome A) (size : Z) (s : pyslice) : outcome (list A) :=
  olet (start, _, step, n) := slice_indices size s in
  slice_loop get (Z.to_nat n) (as_u64 start) (as_u64 step).
Definition a_slice (a : axis) (s : pyslice) : outcome (list Q) := slice_values (a_get a) (c_size (a_cont a)) s.
Definition i_slice (c : icontainer) (s : pyslice) : outcome (list Z) := slice_values (i_get c) (i_size c) s.

(** module/axis.cpp:31-37: [axis[i]], [i] converted to a [size_t] (refused by pybind11 when it
    cannot), then to an [int64_t]. *)
Definition item {A : Type} (value : Z -> outcome A) (i : Z) : outcome A :=
  if (i <? 0) || (2 ^ 64 <=? i) then Throw "TypeError" else value (as_i64 i).
Definition a_item (a : axis) (i : Z) : outcome Q := item (coordinate_value a) i.
Definition i_item (c : icontainer) (i : Z) : outcome Z := item (i_coordinate_value c) i.

(** The iteration of Python over an object which only has [__getitem__]: 0, 1, ... until an
    IndexError ([std::out_of_range]); another exception is propagated. *)
Fixpoint iterate {A : Type} (get : Z -> outcome A) (fuel : nat) (i : Z) : option (outcome (list A)) :=
  match fuel with
  | O => None
  | S fuel =>
      match get i with
      | Ok v => match iterate get fuel (i + 1) with
                | Some (Ok l) => Some (Ok (v :: l)) | x => x end
      | Throw w => if String.eqb w "axis index out of range" then Some (Ok []) else Some (Throw w)
      | UB w => Some (UB w)
      end
  end.

(** ** Comparison and pickling *)
(** container.hpp:326-332, 474-481, detail/axis.hpp:229-231 for integers ([is_circle] is false). *)
Fixpoint list_Zeqb (l1 l2 : list Z) : bool :=
  match l1, l2 with
  | [], [] => true
  | a :: t1, b :: t2 => (a =? b) && list_Zeqb t1 t2
  | _, _ => false
  end.
Definition i_eqb (c d : icontainer) : bool :=
  match c, d with
  | IIrr _ p, IIrr _ q => list_Zeqb p q
  | IReg _ n s st _, IReg _ m u v _ => (st =? v) && (s =? u) && (n =? m)
  | _, _ => false
  end.
(** module/axis.cpp:126-136 with [TemporalAxis]: the operator inherited from [detail::Axis<int64_t>],
    the dtype is not compared. *)
Definition t_eqb (t u : taxis) : bool := i_eqb (t_cont t) (t_cont u).
(** temporal:202-215 [getstate], [setstate]: the axis through its state and the text of the dtype. *)
Definition t_pickle (t : taxis) : outcome taxis :=
  olet c := i_pickle (t_cont t) in
  olet (k, r) := dtype_parse (dtype_string (t_kind t) (t_res t)) in Ok (TAxis c k r).
(** module/axis.cpp:50-64 [flip(inplace)]. *)
Definition t_flip (inplace : bool) (t : taxis) : outcome taxis :=
  olet u := if inplace then Ok t else t_pickle t in
  Ok (TAxis (i_flip (t_cont u)) (t_kind u) (t_res u)).
