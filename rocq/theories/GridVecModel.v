(** Model of the interpolation of arrays of points in grids: [bivariate] (include/pyinterp/bivariate.hpp:111-156),
    [trivariate] (trivariate.hpp:80-133) and [quadrivariate] (quadrivariate.hpp:117-172), with the checks of
    the arguments (detail/broadcast.hpp:113-187).

    The computation for one point is that of GridModel.v, the threads are those of ThreadModel.v.
    Simplifications: exact rationals instead of doubles, no NaN among the coordinates. *)
From Verif Require GeohashModel TemporalModel.
From Verif Require Import Base ThreadModel AxisModel GridModel VectorModel.
Open Scope Z_scope.

(** A numpy array given as argument: its shape and its elements in C order. *)
Record array : Type := Array { ar_shape : list Z; ar_data : list Q }.
Definition product (l : list Z) : Z := fold_right Z.mul 1 l.
(** Every numpy array is so. *)
Definition ar_ok (a : array) : Prop := (forall n, In n (ar_shape a) -> 0 <= n) /\ zlen (ar_data a) = product (ar_shape a).
Fixpoint shape_eqb (a b : list Z) : bool :=
  match a, b with
  | [], [] => true
  | n :: a', m :: b' => (n =? m) && shape_eqb a' b'
  | _, _ => false
  end.

(** broadcast.hpp:113-140 [check_array_ndim]. *)
Definition check_array_ndim (l : list array) : outcome unit :=
  if forallb (fun a => zlen (ar_shape a) =? 1) l then Ok tt else Throw "must be a 1-dimensional array".
(** broadcast.hpp:150-187 [check_ndarray_shape]: the first array is compared to each of the others. *)
Definition check_ndarray_shape (l : list array) : outcome unit :=
  match l with
  | [] => Ok tt
  | a :: t => if forallb (fun b => shape_eqb (ar_shape a) (ar_shape b)) t then Ok tt else Throw "could not be broadcast together"
  end.
Definition check_arrays (l : list array) : outcome unit := olet _ := check_array_ndim l in check_ndarray_shape l.

(** The body of the loop on the elements, which catches the exceptions (bivariate.hpp:139-147), then the
    array of the answer, allocated without initialisation. *)
Definition element (r : outcome (option Q)) : outcome (option Q) + string :=
  match r with Ok v => inl (Ok v) | Throw w => inr w | UB w => inl (UB w) end.
Definition filled (l : list (option (outcome (option Q)))) : outcome (list (option Q)) :=
  GeohashModel.oseq (map (fun o => match o with Some r => r | None => UB "element not initialised" end) l).
Inductive loop (point : Z -> outcome (option Q)) (size num_threads hardware : Z) : outcome (list (option Q)) -> Prop :=
| Loop : forall r, run (fun ix => element (point ix)) size num_threads hardware r ->
    loop point size num_threads hardware (olet l := r in filled l).
(** [x.size()], [_x(ix)]. *)
Definition ar_size (a : array) : Z := zlen (ar_data a).
Definition ar_at (a : array) (i : Z) : Q := nth (Z.to_nat i) (ar_data a) 0%Q.
Definition method_or_linear (m : option string) : string := match m with Some s => s | None => "linear"%string end.

(** What the tests before the loop decide: an exception or the function of one element. *)
Definition call (start : outcome (Z -> outcome (option Q))) (size num_threads hardware : Z) (r : outcome (list (option Q))) : Prop :=
  match start with
  | Ok point => loop point size num_threads hardware r
  | Throw w => r = Throw w
  | UB w => r = UB w
  end.

Section Sphere.
  Variables distance comparable_distance : point -> point -> Q.

  (** bivariate.hpp:111-156. *)
  Definition bivariate_start (g : grid2) (x y : array) (f : interpolator2) (bounds_error : bool) : outcome (Z -> outcome (option Q)) :=
    olet _ := check_arrays [x; y] in
    Ok (fun ix => bivariate distance comparable_distance g f bounds_error (ar_at x ix) (ar_at y ix)).
  Definition bivariate_array (g : grid2) (x y : array) (f : interpolator2) (bounds_error : bool) (num_threads hardware : Z)
      (r : outcome (list (option Q))) : Prop :=
    call (bivariate_start g x y f bounds_error) (ar_size x) num_threads hardware r.

  (** trivariate.hpp:80-133. *)
  Definition trivariate_start (g : grid3) (x y z : array) (f : interpolator2) (zm : option string) (bounds_error : bool)
      : outcome (Z -> outcome (option Q)) :=
    olet _ := check_arrays [x; y; z] in
    olet zf := z_method (method_or_linear zm) in
    Ok (fun ix => trivariate distance comparable_distance g f zf bounds_error (ar_at x ix) (ar_at y ix) (ar_at z ix)).
  Definition trivariate_array (g : grid3) (x y z : array) (f : interpolator2) (zm : option string) (bounds_error : bool)
      (num_threads hardware : Z) (r : outcome (list (option Q))) : Prop :=
    call (trivariate_start g x y z f zm bounds_error) (ar_size x) num_threads hardware r.

  (** quadrivariate.hpp:117-172. *)
  Definition quadrivariate_start (g : grid4) (x y z u : array) (f : interpolator2) (zm um : option string) (bounds_error : bool)
      : outcome (Z -> outcome (option Q)) :=
    olet _ := check_arrays [x; y; z; u] in
    olet zf := z_method (method_or_linear zm) in
    olet uf := z_method (method_or_linear um) in
    Ok (fun ix => quadrivariate distance comparable_distance g f zf uf bounds_error (ar_at x ix) (ar_at y ix) (ar_at z ix) (ar_at u ix)).
  Definition quadrivariate_array (g : grid4) (x y z u : array) (f : interpolator2) (zm um : option string) (bounds_error : bool)
      (num_threads hardware : Z) (r : outcome (list (option Q))) : Prop :=
    call (quadrivariate_start g x y z u f zm um bounds_error) (ar_size x) num_threads hardware r.
End Sphere.

(** interpolator/trivariate.py:52-61 and interpolator/quadrivariate.py: an array of dates given for [z] is
    passed as it is to a function that takes [pybind11::array_t<int64_t>], which converts it with
    [astype(int64)]: the numbers, without their unit. *)
Definition dates_argument (a : TemporalModel.tarray) : array :=
  Array [zlen (TemporalModel.ar_data a)] (map inject_Z (TemporalModel.ar_data a)).
