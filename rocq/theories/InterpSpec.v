(** Specification vocabulary for the one-dimensional interpolators. *)
From Verif Require Import Base.
Open Scope Q_scope.

(** Value at index [i] (used inside the bounds only). *)
Definition at_ (l : list Q) (i : nat) : Q := nth i l 0.

(** Admissible data: as many ordinates as abscissae, at least [m] points, strictly
    increasing abscissae. *)
Definition increasing (xa : list Q) : Prop :=
  forall i, (S i < length xa)%nat -> at_ xa i < at_ xa (S i).
Definition data (m : nat) (xa ya : list Q) : Prop :=
  length xa = length ya /\ (m <= length xa)%nat /\ increasing xa.

(** [x] lies between the nodes [i] and [i + 1]: the cell is closed on the right, and the
    first one on both sides. *)
Definition in_cell (xa : list Q) (x : Q) (i : nat) : Prop :=
  (S i < length xa)%nat /\ x <= at_ xa (S i) /\ (at_ xa i < x \/ (i = 0%nat /\ at_ xa i == x)).
(** [x] is outside the data. *)
Definition outside (xa : list Q) (x : Q) : Prop :=
  x < at_ xa 0 \/ at_ xa (length xa - 1) < x.

(** Slope of the data over cell [i]. *)
Definition chord (xa ya : list Q) (i : nat) : Q :=
  (at_ ya (S i) - at_ ya i) / (at_ xa (S i) - at_ xa i).

(** Cubic Hermite polynomial on [[x0, x1]] with end values [y0], [y1] and end slopes [p0],
    [p1], its derivative and second derivative. *)
Definition hermite (x0 x1 y0 y1 p0 p1 x : Q) : Q :=
  let h := x1 - x0 in
  let t := (x - x0) / h in
  y0 * (2 * t * t * t - 3 * t * t + 1) + h * p0 * (t * t * t - 2 * t * t + t)
  + y1 * (3 * t * t - 2 * t * t * t) + h * p1 * (t * t * t - t * t).
Definition hermite' (x0 x1 y0 y1 p0 p1 x : Q) : Q :=
  let h := x1 - x0 in
  let t := (x - x0) / h in
  y0 * (6 * t * t - 6 * t) / h + p0 * (3 * t * t - 4 * t + 1)
  + y1 * (6 * t - 6 * t * t) / h + p1 * (3 * t * t - 2 * t).

(** Steffen's slopes (M. Steffen, A&A 239, 1990, equations 8 and 11; ends: "simplest
    possibility"). *)
Definition sgn (q : Q) : Q := if Qlt_le_dec q 0 then (-1) else 1.
Definition steffen_slope (xa ya : list Q) (i : nat) : Q :=
  if Nat.eqb i 0 then chord xa ya 0
  else if Nat.eqb i (length xa - 1) then chord xa ya (length xa - 2)
  else
    let sm := chord xa ya (i - 1) in
    let s := chord xa ya i in
    let hm := at_ xa i - at_ xa (i - 1) in
    let h := at_ xa (S i) - at_ xa i in
    let p := (sm * h + s * hm) / (hm + h) in
    (sgn sm + sgn s) * Qmin (Qabs sm) (Qmin (Qabs s) ((1 # 2) * Qabs p)).

(** A cubic polynomial [a + b u + c u^2 + d u^3] of [u = x - x0], its derivatives. *)
Definition cubic (x0 : Q) (k : Q * Q * Q * Q) (x : Q) : Q :=
  let '(a, b, c, d) := k in a + b * (x - x0) + c * (x - x0) * (x - x0) + d * (x - x0) * (x - x0) * (x - x0).
Definition cubic' (x0 : Q) (k : Q * Q * Q * Q) (x : Q) : Q :=
  let '(a, b, c, d) := k in b + 2 * c * (x - x0) + 3 * d * (x - x0) * (x - x0).
Definition cubic'' (x0 : Q) (k : Q * Q * Q * Q) (x : Q) : Q :=
  let '(a, b, c, d) := k in 2 * c + 6 * d * (x - x0).

(** [k i] is the polynomial of cell [i]: it passes through the two nodes, and joins the
    polynomial of the next cell with the same first and second derivatives. *)
Definition smooth_spline (xa ya : list Q) (k : nat -> Q * Q * Q * Q) : Prop :=
  (forall i, (S i < length xa)%nat ->
     cubic (at_ xa i) (k i) (at_ xa i) == at_ ya i /\ cubic (at_ xa i) (k i) (at_ xa (S i)) == at_ ya (S i)) /\
  (forall i, (S (S i) < length xa)%nat ->
     cubic' (at_ xa i) (k i) (at_ xa (S i)) == cubic' (at_ xa (S i)) (k (S i)) (at_ xa (S i)) /\
     cubic'' (at_ xa i) (k i) (at_ xa (S i)) == cubic'' (at_ xa (S i)) (k (S i)) (at_ xa (S i))).
(** Natural spline: no curvature at the ends. *)
Definition natural_ends (xa : list Q) (k : nat -> Q * Q * Q * Q) : Prop :=
  cubic'' (at_ xa 0) (k 0%nat) (at_ xa 0) == 0 /\
  cubic'' (at_ xa (length xa - 2)) (k (length xa - 2)%nat) (at_ xa (length xa - 1)) == 0.
(** Periodic spline: the last polynomial joins the first one. *)
Definition periodic_ends (xa : list Q) (k : nat -> Q * Q * Q * Q) : Prop :=
  cubic' (at_ xa (length xa - 2)) (k (length xa - 2)%nat) (at_ xa (length xa - 1)) == cubic' (at_ xa 0) (k 0%nat) (at_ xa 0) /\
  cubic'' (at_ xa (length xa - 2)) (k (length xa - 2)%nat) (at_ xa (length xa - 1)) == cubic'' (at_ xa 0) (k 0%nat) (at_ xa 0).

(** Akima: slope of the line [k - 2] of the data, lines being added at both ends: for the
    plain method by extrapolation, for the periodic one by repetition. *)
Definition akima_line (periodic : bool) (xa ya : list Q) (k : nat) : Q :=
  let n := length xa in
  let c := chord xa ya in
  if Nat.eqb k 0 then (if periodic then c (n - 3)%nat else 3 * c 0%nat - 2 * c 1%nat)
  else if Nat.eqb k 1 then (if periodic then c (n - 2)%nat else 2 * c 0%nat - c 1%nat)
  else if Nat.leb k n then c (k - 2)%nat
  else if Nat.eqb k (n + 1) then (if periodic then c 0%nat else 2 * c (n - 2)%nat - c (n - 3)%nat)
  else (if periodic then c 1%nat else 3 * c (n - 2)%nat - 2 * c (n - 3)%nat).
(** Weighted slope at node [i]. *)
Definition akima_node_slope (periodic : bool) (xa ya : list Q) (i : nat) : Q :=
  let n := length xa in
  let m := akima_line periodic xa ya in
  if Nat.eqb i 0 then m 2%nat
  else if Nat.eqb i 1 then (m 2%nat + m 4%nat) * (1 # 2)
  else if Nat.eqb i (n - 2) then (m (n - 1)%nat + m (n + 1)%nat) * (1 # 2)
  else if Nat.eqb i (n - 1) then m (n + 1)%nat
  else
    let p := Qabs (m (i + 3)%nat - m (i + 2)%nat) in
    let q := Qabs (m (i + 1)%nat - m i) in
    if Qeq_dec (p + q) 0 then (m (i + 1)%nat + m (i + 2)%nat) * (1 # 2)
    else (p * m (i + 1)%nat + q * m (i + 2)%nat) / (p + q).
