(** Model of the interpolator objects and of [interpolate1d]
    (include/pyinterp/detail/interpolation/factory_1d.hpp, interpolator_1d.hpp,
    include/pyinterp/interpolate1d.hpp). Same simplifications as InterpModel. *)
From Verif Require Import Base MathModel AxisModel InterpModel.
Open Scope nat_scope.

(** The classes derived from [Interpolator1D], with their members. *)
Inductive interpolator : Type :=
| ILinear
| IPolynomial (work : buf)
| ICSpline (st : cspline_state)
| ICSplinePeriodic (st : pspline_state)
| IAkima (st : akima_state)
| IAkimaPeriodic (st : akima_state)
| ISteffen (y_prime : buf).

(** factory_1d.hpp:15-42 *)
Definition factory_1d (kind : string) : outcome interpolator :=
  if String.eqb kind "linear" then Ok ILinear
  else if String.eqb kind "polynomial" then Ok (IPolynomial bempty)
  else if String.eqb kind "c_spline" then Ok (ICSpline cspline_init)
  else if String.eqb kind "c_spline_periodic" then Ok (ICSplinePeriodic pspline_init)
  else if String.eqb kind "akima" then Ok (IAkima akima_init)
  else if String.eqb kind "akima_periodic" then Ok (IAkimaPeriodic akima_init)
  else if String.eqb kind "steffen" then Ok (ISteffen bempty)
  else Throw "Invalid interpolation type".

(** The virtual methods [compute_coefficients], [interpolate_] and [derivative_]; [packets]:
    see [poly_segment]. *)
Definition compute_coefficients (packets : nat -> nat -> list nat) (o : interpolator) (xa ya : list Q) : outcome interpolator :=
  match o with
  | ILinear => olet _ := check_sizes linear_min_size xa ya in Ok ILinear
  | IPolynomial w => olet w := poly_compute packets w xa ya in Ok (IPolynomial w)
  | ICSpline st => olet st := cspline_compute st xa ya in Ok (ICSpline st)
  | ICSplinePeriodic st => olet st := pspline_compute st xa ya in Ok (ICSplinePeriodic st)
  | IAkima st => olet st := akima_compute false st xa ya in Ok (IAkima st)
  | IAkimaPeriodic st => olet st := akima_compute true st xa ya in Ok (IAkimaPeriodic st)
  | ISteffen yp => olet yp := steffen_compute yp xa ya in Ok (ISteffen yp)
  end.
Definition interpolate_ (o : interpolator) (xa ya : list Q) (x : Q) : outcome (option Q) :=
  match o with
  | ILinear => linear_interp xa ya x
  | IPolynomial w => poly_interp w xa ya x
  | ICSpline st => cspline_interp (csx st) xa ya x
  | ICSplinePeriodic st => cspline_interp (psx st) xa ya x
  | IAkima st => akima_interp st xa ya x
  | IAkimaPeriodic st => akima_interp st xa ya x
  | ISteffen yp => steffen_interp yp xa ya x
  end.
Definition derivative_ (o : interpolator) (xa ya : list Q) (x : Q) : outcome (option Q) :=
  match o with
  | ILinear => linear_deriv xa ya x
  | IPolynomial w => poly_deriv w xa ya x
  | ICSpline st => cspline_deriv (csx st) xa ya x
  | ICSplinePeriodic st => cspline_deriv (psx st) xa ya x
  | IAkima st => akima_deriv st xa ya x
  | IAkimaPeriodic st => akima_deriv st xa ya x
  | ISteffen yp => steffen_deriv yp xa ya x
  end.
(** interpolator_1d.hpp:24-27 ([operator()]) and 50-53 ([derivative]): the object is first
    updated by [compute_coefficients], then read. *)
Definition call (packets : nat -> nat -> list nat) (o : interpolator) (xa ya : list Q) (x : Q) : outcome (interpolator * option Q) :=
  olet o := compute_coefficients packets o xa ya in olet r := interpolate_ o xa ya x in Ok (o, r).
Definition value (packets : nat -> nat -> list nat) (o : interpolator) (xa ya : list Q) (x : Q) : outcome (option Q) :=
  olet o := compute_coefficients packets o xa ya in interpolate_ o xa ya x.
Definition derivative (packets : nat -> nat -> list nat) (o : interpolator) (xa ya : list Q) (x : Q) : outcome (option Q) :=
  olet o := compute_coefficients packets o xa ya in derivative_ o xa ya x.

(** interpolate1d.hpp:18-24: [calculate_start_end_size] (start and size). *)
Definition window (index size half_window_size : Z) : Z * Z :=
  let start := Z.max (index - half_window_size) 0 in
  let end_ := Z.min (index + half_window_size) (size - 1) in
  (start, end_ - start + 1)%Z.
(** [y.segment(start, n)] (Eigen): undefined outside the vector. *)
Definition segment (y : list Q) (start count : Z) : outcome (list Q) :=
  if (start <? 0)%Z || (count <? 0)%Z || (zlen y <? start + count)%Z then UB "segment"
  else Ok (firstn (Z.to_nat count) (skipn (Z.to_nat start) y)).
(** interpolate1d.hpp:52-78: one turn of the loop. [slice] with a negative count is not
    reached when the axis is not empty and [half_window_size >= 0]. *)
Definition interpolate_one (packets : nat -> nat -> list nat) (axis : axis) (y : list Q) (half_window_size : Z) (bounds_error : bool)
    (o : interpolator) (xi : Q) : outcome (interpolator * option Q) :=
  olet index := find_index axis xi true in
  if (index =? -1)%Z then
    if bounds_error then Throw "The value is out of the range of the axis" else Ok (o, None)
  else
    let '(start, n) := window index (c_size (a_cont axis)) half_window_size in
    olet yw := segment y start n in
    olet xw := slice axis start n in
    call packets o xw yw xi.
(** the loop of interpolate1d.hpp:52: one interpolator object for all the points. *)
Fixpoint interpolate_loop (packets : nat -> nat -> list nat) (axis : axis) (y : list Q) (half_window_size : Z) (bounds_error : bool)
    (o : interpolator) (xi : list Q) : outcome (list (option Q)) :=
  match xi with
  | [] => Ok []
  | x :: t =>
      olet (o, r) := interpolate_one packets axis y half_window_size bounds_error o x in
      olet rest := interpolate_loop packets axis y half_window_size bounds_error o t in
      Ok (r :: rest)
  end.
(** interpolate1d.hpp:38-80 *)
Definition interpolate_1d (packets : nat -> nat -> list nat) (axis : axis) (y xi : list Q) (half_window_size : Z) (bounds_error : bool)
    (kind : string) : outcome (list (option Q)) :=
  if negb (c_size (a_cont axis) =? zlen y)%Z then Throw "x and y must have the same size"
  else
    olet o := factory_1d kind in
    interpolate_loop packets axis y half_window_size bounds_error o xi.
