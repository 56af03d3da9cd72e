(** Specification vocabulary for the radial basis functions and the kriging. *)
From Coq Require Import Reals Permutation.
From Verif Require Import Base WindowModel RTreeModel RTreeSpec RbfModel.
Open Scope R_scope.

Definition square (n : nat) (A : list (list R)) : Prop :=
  length A = n /\ Forall (fun row => length row = n) A.
(** The vector [x] is a solution of the system [A x = b]. *)
Definition solution (n : nat) (A : list (list R)) (b x : list R) : Prop :=
  length x = n /\ forall i, (i < n)%nat -> dotl (nth i A []) x = nth i b 0.
Definition solvable (n : nat) (A : list (list R)) (b : list R) : Prop := exists x, solution n A b x.
(** Two vectors with the same image are equal. *)
Definition nonsingular (n : nat) (A : list (list R)) : Prop :=
  forall x y, length x = n -> length y = n ->
    (forall i, (i < n)%nat -> dotl (nth i A []) x = dotl (nth i A []) y) -> x = y.

(** The contract of Eigen's FullPivLU, in exact arithmetic: a solution is returned when there is
    one, and the null vector for a null matrix. *)
Definition lu_contract (solve : list (list R) -> list R -> list R) : Prop :=
  forall n A b, square n A -> length b = n ->
    length (solve A b) = n /\
    (solvable n A b -> solution n A b (solve A b)) /\
    (Forall (Forall (fun a => a = 0)) A -> solve A b = repeat 0 n).

(** x^T A x. *)
Definition form (A : list (list R)) (x : list R) : R := dotl x (mat_vec A x).
Definition symmetric (n : nat) (A : list (list R)) : Prop :=
  forall i j, (i < n)%nat -> (j < n)%nat -> nth j (nth i A []) 0 = nth i (nth j A []) 0.
Definition positive_definite (n : nat) (A : list (list R)) : Prop :=
  forall x, length x = n -> x <> repeat 0 n -> 0 < form A x.
(** The contract of Eigen's LDLT: the solution for a symmetric positive definite matrix; when the
    diagonal is null, the decomposition stops at its first step and the answer is null. *)
Definition ldlt_contract (solve : list (list R) -> list R -> list R) : Prop :=
  forall n A b, square n A -> length b = n ->
    length (solve A b) = n /\
    (symmetric n A -> positive_definite n A -> solution n A b (solve A b)) /\
    ((forall i, (i < n)%nat -> nth i (nth i A []) 0 = 0) -> solve A b = repeat 0 n).

(** [used]: of k nearest items, those at most at the radius; with [within], none of them unless the
    query is in their box. *)
Definition selected (t : list item) (p : point) (radius : option R) (k : nat) (within : bool) (used : list item) : Prop :=
  exists chosen kept rejected, k_nearest t p k chosen /\ Permutation chosen (kept ++ rejected) /\
    (forall i, In i kept -> in_radius radius (dist p (fst i))) /\
    (forall i, In i rejected -> ~ in_radius radius (dist p (fst i))) /\
    ((within = false \/ in_box (map fst kept) p) /\ used = kept \/
     within = true /\ ~ in_box (map fst kept) p /\ used = []).
