(** Specification vocabulary for the kriging. *)
From Coq Require Import Reals.
From Verif Require Import Base WindowModel RTreeModel RbfModel.
Open Scope R_scope.

(** The covariance functions of the documentation (src/pyinterp/rtree.py:427-450), with the range
    [rho] and the distance [d]. *)
Definition documented (c : covariance) (sigma rho d : R) : R :=
  match c with
  | Matern12 | Exponential => sigma ^ 2 * exp (- (d / rho))
  | Matern32 | WhittleMatern => sigma ^ 2 * (1 + sqrt 3 * d / rho) * exp (- (sqrt 3 * d / rho))
  | Matern52 => sigma ^ 2 * (1 + sqrt 5 * d / rho + 5 * d ^ 2 / (3 * rho ^ 2)) * exp (- (sqrt 5 * d / rho))
  | Cauchy => sigma ^ 2 * / (1 + d / rho)
  | CGaussian => sigma ^ 2 * exp (- (d ^ 2 / rho ^ 2))
  | Spherical => if Rleb (d / rho) 1 then sigma ^ 2 * (1 - 3 * d / (2 * rho) + 3 * d ^ 3 / (2 * rho ^ 3)) else 0
  | CLinear => if Rleb (d / rho) 1 then sigma ^ 2 * (1 - d / rho) else 0
  end.

(** The matrix of the covariances of the nodes. *)
Definition covariances (c : covariance) (sigma lambda : R) (xk : list point) : list (list R) :=
  map (fun p => map (fun q => cov c sigma lambda p q) xk) xk.

(** The seven functions proved positive definite for every set of distinct points. *)
Definition regular_covariance (c : covariance) : Prop :=
  match c with Spherical | CLinear => False | _ => True end.
