(** Model of the grids (include/pyinterp/grid.hpp) and of the bivariate, trivariate and
    quadrivariate interpolators (detail/math/bivariate.hpp, linear.hpp, nearest.hpp,
    trivariate.hpp and bivariate.hpp, trivariate.hpp, quadrivariate.hpp), one query at a time
    (the vectorised loops are those of ThreadModel).

    Simplifications: exact rationals instead of doubles; NaN is [None]; the distance of
    Boost.Geometry between two points of the sphere ([distance], [comparable_distance]) is a
    parameter; interpolators written in Python are not modelled. *)
From Verif Require Import Base MathModel AxisModel IntAxisModel.
Open Scope Z_scope.

(** ** Numpy arrays of doubles: shape and cells *)
Record ndarray : Type := NdArray { nd_shape : list Z; nd_cell : list Z -> option Q }.
Fixpoint in_shape (shape index : list Z) : bool :=
  match shape, index with
  | [], [] => true
  | n :: s, i :: t => (0 <=? i) && (i <? n) && in_shape s t
  | _, _ => false
  end.
(** grid.hpp:80-84 [value]: unchecked access. *)
Definition grid_value (a : ndarray) (index : list Z) : outcome (option Q) :=
  if in_shape (nd_shape a) index then Ok (nd_cell a index) else UB "array access".

(** ** Grids *)
Inductive zaxis : Type := ZReal (a : axis) | ZTime (c : icontainer).
Definition z_size (z : zaxis) : Z := match z with ZReal a => c_size (a_cont a) | ZTime c => i_size c end.
(** A temporal axis is never a circle (temporal_axis.hpp:30-44). *)
Definition z_is_circle (z : zaxis) : bool := match z with ZReal a => a_is_circle a | ZTime _ => false end.
(** A coordinate of a temporal axis is an integer. *)
Definition z_find_indexes (z : zaxis) (x : Q) : outcome (option (Z * Z)) :=
  match z with ZReal a => find_indexes a x | ZTime c => i_find_indexes c (Qfloor x) end.
Definition axis_at (a : axis) (i : Z) : outcome Q :=
  match c_value (a_cont a) i with Some v => Ok v | None => UB "axis access" end.
Definition z_at (z : zaxis) (i : Z) : outcome Q :=
  match z with
  | ZReal a => axis_at a i
  | ZTime c => olet v := i_coordinate_value c i in Ok (inject_Z v)
  end.

Record grid2 : Type := Grid2 { g2_x : axis; g2_y : axis; g2_array : ndarray }.
Record grid3 : Type := Grid3 { g3_x : axis; g3_y : axis; g3_z : zaxis; g3_array : ndarray }.
Record grid4 : Type := Grid4 { g4_x : axis; g4_y : axis; g4_z : zaxis; g4_u : axis; g4_array : ndarray }.

(** grid.hpp:131-143: one step of [check_shape]. *)
Definition check_shape (a : ndarray) (index : nat) (size : Z) : outcome unit :=
  match nth_error (nd_shape a) index with
  | Some n => if size =? n then Ok tt else Throw "could not be broadcast together with shape"
  | None => UB "shape index"
  end.
(** pybind11's [unchecked<Dimension>()] refuses an array with another number of dimensions. *)
Definition check_ndim (a : ndarray) (n : nat) : outcome unit :=
  if Nat.eqb (length (nd_shape a)) n then Ok tt else Throw "array has incorrect number of dimensions".
(** grid.hpp:24-35 *)
Definition new_grid2_dim (dim : nat) (x y : axis) (a : ndarray) : outcome unit :=
  olet _ := check_ndim a dim in
  olet _ := check_shape a 0 (c_size (a_cont x)) in
  olet _ := check_shape a 1 (c_size (a_cont y)) in
  if a_is_circle y then Throw "Y-axis cannot be a circle." else Ok tt.
Definition new_grid2 (x y : axis) (a : ndarray) : outcome grid2 :=
  olet _ := new_grid2_dim 2 x y a in Ok (Grid2 x y a).
(** grid.hpp:155-163 *)
Definition new_grid3_dim (dim : nat) (x y : axis) (z : zaxis) (a : ndarray) : outcome unit :=
  olet _ := new_grid2_dim dim x y a in
  olet _ := check_shape a 2 (z_size z) in
  if z_is_circle z then Throw "Z-axis cannot be a circle." else Ok tt.
Definition new_grid3 (x y : axis) (z : zaxis) (a : ndarray) : outcome grid3 :=
  olet _ := new_grid3_dim 3 x y z a in Ok (Grid3 x y z a).
(** grid.hpp:205-215 *)
Definition new_grid4 (x y : axis) (z : zaxis) (u : axis) (a : ndarray) : outcome grid4 :=
  olet _ := new_grid3_dim 4 x y z a in
  olet _ := check_shape a 3 (c_size (a_cont u)) in
  if a_is_circle u then Throw "U-axis cannot be a circle." else Ok (Grid4 x y z u a).

(** ** Arithmetic with missing values *)
Definition nan2 (f : Q -> Q -> Q) (a b : option Q) : option Q :=
  match a, b with Some x, Some y => Some (f x y) | _, _ => None end.

(** ** Interpolation along one axis *)
(** detail/math/linear.hpp:24-35 *)
Definition linear_z (x x0 x1 : Q) (y0 y1 : option Q) : option Q :=
  let dx := (x1 - x0)%Q in
  if Qeq_bool dx 0 then (if Qeq_bool x x0 then y0 else None)
  else
    let t := ((x1 - x) / dx)%Q in
    let u := ((x - x0) / dx)%Q in
    nan2 (fun y0 y1 => t * y0 + u * y1 / (t + u))%Q y0 y1.
(** detail/math/nearest.hpp:17-26 *)
Definition nearest_z (x x0 x1 : Q) (y0 y1 : option Q) : option Q :=
  let dx0 := ((x0 - x) * (x0 - x))%Q in
  let dx1 := ((x1 - x) * (x1 - x))%Q in
  if Qltb dx0 dx1 then y0 else y1.
(** trivariate.hpp:56-67, quadrivariate.hpp:25-36 *)
Definition z_method (method : string) : outcome (Q -> Q -> Q -> option Q -> option Q -> option Q) :=
  if String.eqb method "linear" then Ok linear_z
  else if String.eqb method "nearest" then Ok nearest_z
  else Throw "unknown interpolation method".

(** ** Bivariate interpolators *)
Record point : Type := Point { px : Q; py : Q }.
Inductive interpolator2 : Type := Bilinear | InverseDistanceWeighting (exp : Z) | Nearest.
(** [std::numeric_limits<double>::epsilon()] *)
Definition epsilon : Q := 1 # 4503599627370496.

Section Sphere.
  (** [boost::geometry::distance] and [comparable_distance]. *)
  Variables distance comparable_distance : point -> point -> Q.

  (** detail/math/bivariate.hpp:87-97; a cell without extent yields infinities or NaN. *)
  Definition bilinear (p p0 p1 : point) (q00 q01 q10 q11 : option Q) : option Q :=
    let dx := (px p1 - px p0)%Q in
    let dy := (py p1 - py p0)%Q in
    if Qeq_bool dx 0 || Qeq_bool dy 0 then None
    else
      let t := ((px p - px p0) / dx)%Q in
      let u := ((py p - py p0) / dy)%Q in
      match q00, q01, q10, q11 with
      | Some q00, Some q01, Some q10, Some q11 =>
          Some ((1 - t) * (1 - u) * q00 + t * (1 - u) * q10 + (1 - t) * u * q01 + t * u * q11)%Q
      | _, _, _, _ => None
      end.
  (** detail/math/bivariate.hpp:142-190: the four corners in this order; the sums start at 0. *)
  Fixpoint idw_loop (exp : Z) (p : point) (corners : list (point * option Q)) (w : Q) (wu : option Q) : option Q :=
    match corners with
    | [] => nan2 Qdiv wu (Some w)
    | (c, q) :: t =>
        let d := distance p c in
        if Qle_bool d epsilon then q
        else
          let wi := (1 / Qpower d exp)%Q in
          idw_loop exp p t (w + wi)%Q (nan2 Qplus wu (nan2 Qmult q (Some wi)))
    end.
  (** detail/math/bivariate.hpp:222-247 *)
  Fixpoint nearest_loop (p : point) (corners : list (point * option Q)) (best : Q * option Q) : option Q :=
    match corners with
    | [] => snd best
    | (c, q) :: t =>
        let d := comparable_distance p c in
        nearest_loop p t (if Qltb d (fst best) then (d, q) else best)
    end.
  Definition corners (p0 p1 : point) (q00 q01 q10 q11 : option Q) : list (point * option Q) :=
    [(Point (px p0) (py p0), q00); (Point (px p0) (py p1), q01); (Point (px p1) (py p0), q10); (Point (px p1) (py p1), q11)].
  Definition evaluate (f : interpolator2) (p p0 p1 : point) (q00 q01 q10 q11 : option Q) : option Q :=
    match f with
    | Bilinear => bilinear p p0 p1 q00 q01 q10 q11
    | InverseDistanceWeighting exp => idw_loop exp p (corners p0 p1 q00 q01 q10 q11) 0 (Some 0%Q)
    | Nearest =>
        match corners p0 p1 q00 q01 q10 q11 with
        | (c, q) :: t => nearest_loop p t (comparable_distance p c, q)
        | [] => None
        end
    end.

  (** bivariate.hpp:71-108 [_bivariate] *)
  Definition bivariate (g : grid2) (f : interpolator2) (bounds_error : bool) (x y : Q) : outcome (option Q) :=
    olet xi := find_indexes (g2_x g) x in
    olet yi := find_indexes (g2_y g) y in
    match xi, yi with
    | Some (ix0, ix1), Some (iy0, iy1) =>
        olet x0 := axis_at (g2_x g) ix0 in
        olet y0 := axis_at (g2_y g) iy0 in
        olet x1 := axis_at (g2_x g) ix1 in
        olet y1 := axis_at (g2_y g) iy1 in
        olet q00 := grid_value (g2_array g) [ix0; iy0] in
        olet q01 := grid_value (g2_array g) [ix0; iy1] in
        olet q10 := grid_value (g2_array g) [ix1; iy0] in
        olet q11 := grid_value (g2_array g) [ix1; iy1] in
        Ok (evaluate f (Point (normalize_coordinate_min (g2_x g) x x0) y) (Point x0 y0) (Point x1 y1) q00 q01 q10 q11)
    | _, _ => if bounds_error then Throw "out of bounds" else Ok None
    end.

  (** detail/math/trivariate.hpp:110-124 (and 83-96 for temporal points), the horizontal
      coordinates in [p], [p0], [p1]. *)
  Definition trivariate_cell (f : interpolator2) (zf : Q -> Q -> Q -> option Q -> option Q -> option Q) (p p0 p1 : point) (z z0 z1 : Q)
      (q000 q010 q100 q110 q001 q011 q101 q111 : option Q) : option Q :=
    let v0 := evaluate f p p0 p1 q000 q010 q100 q110 in
    let v1 := evaluate f p p0 p1 q001 q011 q101 q111 in
    zf z z0 z1 v0 v1.

  (** trivariate.hpp:25-75 [_trivariate] *)
  Definition trivariate (g : grid3) (f : interpolator2) (zf : Q -> Q -> Q -> option Q -> option Q -> option Q) (bounds_error : bool)
      (x y z : Q) : outcome (option Q) :=
    olet xi := find_indexes (g3_x g) x in
    olet yi := find_indexes (g3_y g) y in
    olet zi := z_find_indexes (g3_z g) z in
    match xi, yi, zi with
    | Some (ix0, ix1), Some (iy0, iy1), Some (iz0, iz1) =>
        olet x0 := axis_at (g3_x g) ix0 in
        olet y0 := axis_at (g3_y g) iy0 in
        olet z0 := z_at (g3_z g) iz0 in
        olet x1 := axis_at (g3_x g) ix1 in
        olet y1 := axis_at (g3_y g) iy1 in
        olet z1 := z_at (g3_z g) iz1 in
        olet q000 := grid_value (g3_array g) [ix0; iy0; iz0] in
        olet q010 := grid_value (g3_array g) [ix0; iy1; iz0] in
        olet q100 := grid_value (g3_array g) [ix1; iy0; iz0] in
        olet q110 := grid_value (g3_array g) [ix1; iy1; iz0] in
        olet q001 := grid_value (g3_array g) [ix0; iy0; iz1] in
        olet q011 := grid_value (g3_array g) [ix0; iy1; iz1] in
        olet q101 := grid_value (g3_array g) [ix1; iy0; iz1] in
        olet q111 := grid_value (g3_array g) [ix1; iy1; iz1] in
        Ok (trivariate_cell f zf (Point (normalize_coordinate_min (g3_x g) x x0) y) (Point x0 y0) (Point x1 y1) z z0 z1
              q000 q010 q100 q110 q001 q011 q101 q111)
    | _, _, _ => if bounds_error then Throw "out of bounds" else Ok None
    end.

  (** quadrivariate.hpp:39-115 [_quadrivariate] *)
  Definition quadrivariate (g : grid4) (f : interpolator2) (zf uf : Q -> Q -> Q -> option Q -> option Q -> option Q) (bounds_error : bool)
      (x y z u : Q) : outcome (option Q) :=
    olet xi := find_indexes (g4_x g) x in
    olet yi := find_indexes (g4_y g) y in
    olet zi := z_find_indexes (g4_z g) z in
    olet ui := find_indexes (g4_u g) u in
    match xi, yi, zi, ui with
    | Some (ix0, ix1), Some (iy0, iy1), Some (iz0, iz1), Some (iu0, iu1) =>
        olet x0 := axis_at (g4_x g) ix0 in
        olet y0 := axis_at (g4_y g) iy0 in
        olet z0 := z_at (g4_z g) iz0 in
        olet x1 := axis_at (g4_x g) ix1 in
        olet y1 := axis_at (g4_y g) iy1 in
        olet z1 := z_at (g4_z g) iz1 in
        let p := Point (normalize_coordinate_min (g4_x g) x x0) y in
        olet q000 := grid_value (g4_array g) [ix0; iy0; iz0; iu0] in
        olet q010 := grid_value (g4_array g) [ix0; iy1; iz0; iu0] in
        olet q100 := grid_value (g4_array g) [ix1; iy0; iz0; iu0] in
        olet q110 := grid_value (g4_array g) [ix1; iy1; iz0; iu0] in
        olet q001 := grid_value (g4_array g) [ix0; iy0; iz1; iu0] in
        olet q011 := grid_value (g4_array g) [ix0; iy1; iz1; iu0] in
        olet q101 := grid_value (g4_array g) [ix1; iy0; iz1; iu0] in
        olet q111 := grid_value (g4_array g) [ix1; iy1; iz1; iu0] in
        let v0 := trivariate_cell f zf p (Point x0 y0) (Point x1 y1) z z0 z1 q000 q010 q100 q110 q001 q011 q101 q111 in
        olet q000 := grid_value (g4_array g) [ix0; iy0; iz0; iu1] in
        olet q010 := grid_value (g4_array g) [ix0; iy1; iz0; iu1] in
        olet q100 := grid_value (g4_array g) [ix1; iy0; iz0; iu1] in
        olet q110 := grid_value (g4_array g) [ix1; iy1; iz0; iu1] in
        olet q001 := grid_value (g4_array g) [ix0; iy0; iz1; iu1] in
        olet q011 := grid_value (g4_array g) [ix0; iy1; iz1; iu1] in
        olet q101 := grid_value (g4_array g) [ix1; iy0; iz1; iu1] in
        olet q111 := grid_value (g4_array g) [ix1; iy1; iz1; iu1] in
        let v1 := trivariate_cell f zf p (Point x0 y0) (Point x1 y1) z z0 z1 q000 q010 q100 q110 q001 q011 q101 q111 in
        olet u0 := axis_at (g4_u g) iu0 in
        olet u1 := axis_at (g4_u g) iu1 in
        Ok (uf u u0 u1 v0 v1)
    | _, _, _, _ => if bounds_error then Throw "out of bounds" else Ok None
    end.
End Sphere.
