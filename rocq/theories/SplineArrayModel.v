(** Model of the interpolation of arrays of points by splines or bicubic functions: module/bicubic.cpp:39-240
    ([bicubic], [bicubic_3d], [bicubic_4d]) with the checks of the arguments and the sharing of the points
    between the threads, and of the Python function src/pyinterp/interpolator/bicubic.py:14-105.

    The computation for one point is that of FrameModel.v.  Every thread has its own window and its own
    interpolator object and writes the elements of its range only, so that what the threads compute is
    described thread by thread (FrameModel.workers).
    Simplifications: exact rationals, no NaN among the coordinates; when several threads throw, the exception
    is that of the first range (in the code, the last one caught). *)
From Verif Require Import Base ThreadModel AxisModel GridModel FrameModel GridVecModel.
Open Scope Z_scope.

(** The points of the range of a thread. *)
Definition part {P : Type} (points : list P) (r : Z * Z) : list P :=
  firstn (Z.to_nat (snd r - fst r)) (skipn (Z.to_nat (fst r)) points).
Definition points2 (x y : array) : list (Q * Q) := combine (ar_data x) (ar_data y).
Definition points3 (x y z : array) : list (Q * Q * Q) := combine (points2 x y) (ar_data z).
Definition points4 (x y z u : array) : list (Q * Q * Q * Q) := combine (points3 x y z) (ar_data u).

Section Arrays.
  (** Order of the operations of Eigen, see FrameModel. *)
  Variable packets : nat -> nat -> list nat.
  (** [bicubic]: the functions bicubic_*, else spline_*. *)
  Variables (bicubic : bool) (nx ny : nat) (kind boundary : string) (bounds_error : bool) (num_threads hardware : Z).

  (** module/bicubic.cpp:39-95 *)
  Definition array2 (g : grid2) (x y : array) : outcome (list (option Q)) :=
    olet _ := check_arrays [x; y] in
    olet _ := parse_boundary boundary in
    olet ranges := dispatch_ranges (ar_size x) num_threads hardware in
    interpolate_grid2 packets bicubic g nx ny kind boundary bounds_error (map (part (points2 x y)) ranges).
  (** module/bicubic.cpp:98-160 *)
  Definition array3 (g : grid3) (x y z : array) : outcome (list (option Q)) :=
    olet _ := check_arrays [x; y; z] in
    olet _ := parse_boundary boundary in
    olet ranges := dispatch_ranges (ar_size x) num_threads hardware in
    interpolate_grid3 packets bicubic g nx ny kind boundary bounds_error (map (part (points3 x y z)) ranges).
  (** module/bicubic.cpp:163-240 *)
  Definition array4 (g : grid4) (x y z u : array) : outcome (list (option Q)) :=
    olet _ := check_arrays [x; y; z; u] in
    olet _ := parse_boundary boundary in
    olet ranges := dispatch_ranges (ar_size x) num_threads hardware in
    interpolate_grid4 packets bicubic g nx ny kind boundary bounds_error (map (part (points4 x y z u)) ranges).
End Arrays.

(** interpolator/bicubic.py:69-80: the checks of the Python function. *)
Definition models : list string :=
  ["akima_periodic"; "akima"; "bicubic"; "c_spline_periodic"; "c_spline"; "linear"; "polynomial"; "steffen"]%string.
Definition known (s : string) (l : list string) : bool := existsb (String.eqb s) l.
Definition py_checks (ax ay : axis) (fitting_model boundary : string) : outcome unit :=
  if negb (is_ascending ax) then Throw "X-axis is not increasing"
  else if negb (is_ascending ay) then Throw "Y-axis is not increasing"
  else if negb (known fitting_model models) then Throw "fitting model is not defined"
  else if negb (known boundary ["expand"; "wrap"; "sym"; "undef"]%string) then Throw "boundary is not defined"
  else Ok tt.

Inductive mesh : Type := Mesh2 (g : grid2) | Mesh3 (g : grid3) | Mesh4 (g : grid4).
Definition mesh_x (m : mesh) : axis := match m with Mesh2 g => g2_x g | Mesh3 g => g3_x g | Mesh4 g => g4_x g end.
Definition mesh_y (m : mesh) : axis := match m with Mesh2 g => g2_y g | Mesh3 g => g3_y g | Mesh4 g => g4_y g end.
(** interpolator/bicubic.py:82-105; [None] for [z] or [u]: not given.  Values given for dimensions that the
    grid does not have are not looked at. *)
Definition py_bicubic (packets : nat -> nat -> list nat) (m : mesh) (x y : array) (z u : option array) (nx ny : nat)
    (fitting_model boundary : string) (bounds_error : bool) (num_threads hardware : Z) : outcome (list (option Q)) :=
  olet _ := py_checks (mesh_x m) (mesh_y m) fitting_model boundary in
  let b := String.eqb fitting_model "bicubic" in
  match m with
  | Mesh2 g => array2 packets b nx ny fitting_model boundary bounds_error num_threads hardware g x y
  | Mesh3 g =>
      match z with
      | None => Throw "You must specify the Z-values for a 3D grid."
      | Some z => array3 packets b nx ny fitting_model boundary bounds_error num_threads hardware g x y z
      end
  | Mesh4 g =>
      match z with
      | None => Throw "You must specify the Z-values for a 4D grid."
      | Some z =>
          match u with
          | None => Throw "You must specify the U-values for a 4D grid."
          | Some u => array4 packets b nx ny fitting_model boundary bounds_error num_threads hardware g x y z u
          end
      end
  end.
