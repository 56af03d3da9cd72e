(** Model of the radial basis functions (include/pyinterp/detail/math/radial_basis_functions.hpp,
    below "rbf:"), of the kriging (include/pyinterp/detail/math/kriging.hpp, "kriging:"), of their
    use by the spatial index (include/pyinterp/detail/geometry/rtree.hpp, "base:", and
    include/pyinterp/rtree.hpp, "wrapper:").

    Simplifications: exact real arithmetic; finite coordinates and values.  The solvers of Eigen
    (FullPivLU for the radial basis functions, LDLT for the kriging) are the parameter [solve];
    their contract is in [RbfSpec]. *)
From Coq Require Import Reals.
From Verif Require Import Base WindowModel RTreeModel.
Open Scope R_scope.

(** rbf:16-23. *)
Inductive radial : Type := Cubic | RGaussian | InverseMultiquadric | RLinear | Multiquadric | ThinPlate.

(** rbf:135-138. *)
Definition multiquadric (r e : R) : R := sqrt ((e * r) ^ 2 + 1).
(** rbf:141-144. *)
Definition inverse_multiquadric (r e : R) : R := 1 / multiquadric r e.
(** rbf:147-150. *)
Definition rgaussian (r e : R) : R := exp (- (e * r) ^ 2).
(** rbf:165-168. *)
Definition thin_plate (r : R) : R := if Reqb r 0 then 0 else r ^ 2 * ln r.
(** rbf:48-72, the choice of the function, and rbf:153-162. *)
Definition phi (f : radial) (e r : R) : R :=
  match f with
  | Cubic => r ^ 3
  | RGaussian => rgaussian r e
  | InverseMultiquadric => inverse_multiquadric r e
  | RLinear => r
  | Multiquadric => multiquadric r e
  | ThinPlate => thin_plate r
  end.
(** The functions that use the parameter [epsilon]. *)
Definition adjustable (f : radial) : bool :=
  match f with RGaussian | InverseMultiquadric | Multiquadric => true | _ => false end.

(** Vectors are lists, matrices lists of rows. *)
Fixpoint dotl (l m : list R) : R :=
  match l, m with
  | a :: l', b :: m' => a * b + dotl l' m'
  | _, _ => 0
  end.
Definition mat_vec (A : list (list R)) (x : list R) : list R := map (fun row => dotl row x) A.

Section Rbf.
  (** Points, and the distance between two points: rbf:128-132 for the Cartesian index, the
      geodesic distance for the geodetic one (lib/geodetic/rtree.cpp:16-21). *)
  Variable P : Type.
  Variable distance : P -> P -> R.
  Variable solve : list (list R) -> list R -> list R.

  (** rbf:171-185. *)
  Definition distance_matrix (xk xi : list P) : list (list R) :=
    map (fun q => map (fun c => distance q c) xk) xi.

  (** rbf:114-125; [None] when the divisor is null. *)
  Definition average (r : list (list R)) : option R :=
    let n := length r in
    let sum := fold_left (fun s ix =>
                 fold_left (fun s jx => s + nth jx (nth ix r []) 0) (seq (S ix) (n - S ix)) s)
                 (seq 0 (n - 1)) 0 in
    rdiv sum (INR n * (INR n - 1) * (1 / 2)).

  (** rbf:47 and :90-91.  [None] when the scale is not a finite number: [epsilon] null, one node
      or nodes at null distances without [epsilon]. *)
  Definition scale (epsilon : option R) (r : list (list R)) : option R :=
    match epsilon with
    | Some e => rdiv 1 e
    | None => rbind (average r) (fun a => rdiv 1 a)
    end.

  (** rbf:97-99: [A -= Identity * smooth]. *)
  Definition minus_diagonal (A : list (list R)) (smooth : R) : list (list R) :=
    map (fun ir => map (fun ja => if (fst ir =? fst ja)%nat then snd ja - smooth else snd ja)
                       (combine (seq 0 (length (snd ir))) (snd ir)))
        (combine (seq 0 (length A)) A).

  Definition system (f : radial) (e smooth : R) (xk : list P) : list (list R) :=
    let A := map (map (phi f e)) (distance_matrix xk xk) in
    if Reqb smooth 0 then A else minus_diagonal A smooth.

  (** rbf:80-103 [interpolate].  [None]: the scale is used and is not a finite number; the results
      are then NaN when it is NaN (one node), unspecified otherwise. *)
  Definition interpolate (f : radial) (epsilon : option R) (smooth : R)
      (xk : list P) (yk : list R) (xi : list P) : option (list R) :=
    let r := distance_matrix xk xk in
    match (if adjustable f then scale epsilon r else Some 1) with
    | None => None
    | Some e =>
        let w := solve (system f e smooth xk) yk in
        Some (mat_vec (map (map (phi f e)) (distance_matrix xk xi)) w)
    end.
End Rbf.

(** base:497-516 [radial_basis_function] of the Cartesian index: the value ([None]: NaN) and the
    number of neighbours. *)
Definition rbf_query (knn : list item -> point -> nat -> list item)
    (solve : list (list R) -> list R -> list R) (t : list item) (p : point) (f : radial)
    (epsilon : option R) (smooth : R) (radius : option R) (k : nat) (within : bool)
  : option R * Z :=
  let n := nearest knn t p radius k within in
  match n with
  | [] => (None, 0%Z)
  | _ =>
      (match interpolate point dist solve f epsilon smooth (map fst n) (map snd n) [p] with
       | Some (v :: _) => Some v
       | _ => None
       end, zlen n)
  end.

(** ** Kriging *)

(** kriging:129-139. *)
Inductive covariance : Type :=
  Matern12 | Matern32 | Matern52 | WhittleMatern | Cauchy | Exponential | Spherical | CGaussian | CLinear.

(** kriging:31-126: each function of the norm [r] of the difference of the points. *)
Definition cov_of (c : covariance) (sigma lambda r : R) : R :=
  match c with
  | Matern12 => sigma * sigma * exp (- r / lambda)
  | Matern32 =>
      let d := r / lambda in
      sigma * sigma * ((1 + sqrt 3 * d) * exp (- sqrt 3 * d))
  | Matern52 =>
      let d := r / lambda in
      sigma * sigma * ((1 + sqrt 5 * d + 5 / 3 * (d * d)) * exp (- sqrt 5 * d))
  | WhittleMatern => sigma * sigma * (1 + sqrt 3 * r / lambda) * exp (- sqrt 3 * r / lambda)
  | Cauchy => sigma * sigma / (1 + (r / lambda) * (r / lambda))
  | Exponential => sigma * sigma * exp (- r / lambda)
  | Spherical =>
      if Rltb lambda r then 0
      else sigma * sigma * (1 - 3 / 2 * r / lambda + 1 / 2 * (r / lambda) ^ 3)
  | CGaussian => sigma * sigma * exp (- (r * r) / (lambda * lambda))
  | CLinear => sigma * sigma * r
  end.
Definition cov (c : covariance) (sigma lambda : R) (p q : point) : R := cov_of c sigma lambda (dist p q).

(** kriging:160-198, the constructor (an unknown function cannot be written here). *)
Definition kriging_new (sigma lambda : R) : outcome unit :=
  if Rleb sigma 0 then Throw "sigma must be greater than 0"
  else if Rleb lambda 0 then Throw "alpha must be greater than 0"
  else Ok tt.

(** kriging:205-224 [universal_kriging]. *)
Definition kriging (solve : list (list R) -> list R -> list R) (c : covariance) (sigma lambda : R)
    (xk : list point) (yk : list R) (query : point) : R :=
  let C := map (fun p => map (fun q => cov c sigma lambda p q) xk) xk in
  let v := map (fun q => cov c sigma lambda query q) xk in
  dotl yk (solve C v).

(** base:350-373 and wrapper:731-740: the handler is built before any point is considered. *)
Definition kriging_query (knn : list item -> point -> nat -> list item)
    (solve : list (list R) -> list R -> list R) (t : list item) (p : point) (c : covariance)
    (sigma lambda : R) (radius : option R) (k : nat) (within : bool) : outcome (option R * Z) :=
  olet _ := kriging_new sigma lambda in
  let n := nearest knn t p radius k within in
  match n with
  | [] => Ok (None, 0%Z)
  | _ => Ok (Some (kriging solve c sigma lambda (map fst n) (map snd n) p), zlen n)
  end.

(** wrapper:328-343: the converter of a row given to [universal_kriging]; with three columns and
    an index in geodetic coordinates, [from_lon_lat] is used instead of [from_lon_lat_alt]. *)
Definition kriging_convert (to_ecef : spheroid -> point -> point) (t : rtree) (row : list R) : outcome point :=
  match row with
  | [x; y] => Ok (if t_ecef t then (x, y, 0) else to_ecef (t_spheroid t) (x, y, 0))
  | [x; y; z] => Ok (if t_ecef t then (x, y, z) else to_ecef (t_spheroid t) (x, y, 0))
  | _ => Throw "coordinates must be a matrix (n, 2) or (n, 3)"
  end.
