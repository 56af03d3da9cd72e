(** Specification vocabulary for the spline and bicubic interpolation of grids. *)
From Verif Require Import Base AxisModel AxisSpec GridModel GridSpec InterpSpec FrameModel.
Open Scope Z_scope.

(** An axis the functions accept: as Python builds it, two points at least, ascending; an
    angular one covers less than a turn. *)
Definition narrow (a : axis) : Prop :=
  is_angle a = true -> forall i j v w, at_index a i v -> at_index a j w -> (w - v < 360)%Q.
Definition usable (a : axis) : Prop :=
  reachable a /\ 1 < len a /\ is_ascending a = true /\ narrow a.
(** The grids considered: usable horizontal axes, the ordinates not being angles. *)
Definition usable_grid (g : grid2) : Prop :=
  usable (g2_x g) /\ usable (g2_y g) /\ is_angle (g2_y g) = false /\
  new_grid2 (g2_x g) (g2_y g) (g2_array g) = Ok g.

(** [z] and [x] are the same coordinate: equal, or equal up to whole turns if they are angles. *)
Definition same_place (a : axis) (z x : Q) : Prop :=
  if is_angle a then same_angle z x else (z == x)%Q.
(** The coordinate [z] is in the cell [i] of the axis: between the points [i] and [i + 1] (the
    cells are closed on the left, the last one on both sides), or, on a circle, after the last
    point and before the first one of the next turn. *)
Definition cell_of (a : axis) (z : Q) (i : Z) : Prop :=
  (exists v w, at_index a i v /\ at_index a (i + 1) w /\ (v <= z)%Q /\ ((z < w)%Q \/ (i + 2 = len a /\ (z == w)%Q))) \/
  (a_is_circle a = true /\ i = len a - 1 /\
   exists v w, at_index a i v /\ at_index a 0 w /\ (v < z)%Q /\ (z < w + 360)%Q).
(** [s] is the first position of the window of half size [size] around [x]: [size] points on
    each side of [x], all of them on the axis. *)
Definition window (a : axis) (x : Q) (size : nat) (s : Z) : Prop :=
  exists z i, same_place a z x /\ cell_of a z i /\ s = i - Z.of_nat size + 1 /\
    (a_is_circle a = true \/ (0 <= s /\ s + 2 * Z.of_nat size <= len a)).
(** Index of the [k]-th point of the window. *)
Definition node (a : axis) (s : Z) (k : nat) : Z := (s + Z.of_nat k) mod len a.
(** On a circle the window must not meet itself. *)
Definition no_overlap (a : axis) (size : nat) : Prop :=
  a_is_circle a = true -> 2 * Z.of_nat size <= len a.

(** [xs]: the coordinates of the points of the window, unrolled so as to increase; [z]: the
    coordinate [x], between the two points in the middle. *)
Definition unrolled (a : axis) (x : Q) (size : nat) (s : Z) (xs : list Q) (z : Q) : Prop :=
  length xs = (2 * size)%nat /\ increasing xs /\
  (forall k, (k < 2 * size)%nat -> exists v, at_index a (node a s k) v /\ same_place a (at_ xs k) v) /\
  same_place a z x /\ (at_ xs (size - 1) <= z <= at_ xs size)%Q.

(** The values of the grid in the window. *)
Definition value_at (g : grid2) (sx sy : Z) (i j : nat) : option Q :=
  nd_cell (g2_array g) [node (g2_x g) sx i; node (g2_y g) sy j].
(** [q i j] are the values of the window, none of which is missing. *)
Definition window_values (g : grid2) (nx ny : nat) (sx sy : Z) (q : nat -> nat -> Q) : Prop :=
  forall i j, (i < 2 * nx)%nat -> (j < 2 * ny)%nat -> value_at g sx sy i j = Some (q i j).

(** The kinds of interpolation: Python calls the [bicubic_*] functions for "bicubic", the
    [spline_*] functions otherwise (interpolator/bicubic.py:87-88). *)
Definition kinds : list (bool * string) :=
  map (pair false) ["linear"; "polynomial"; "c_spline"; "c_spline_periodic"; "akima"; "akima_periodic"; "steffen"]%string
  ++ map (pair true) ["bilinear"; "bicubic"]%string.

(** The interpolation of one point by a single thread. *)
Definition at_point (packets : nat -> nat -> list nat) (k : bool * string) (g : grid2) (nx ny : nat) (boundary : string) (bounds_error : bool) (x y : Q) : outcome (list (option Q)) :=
  interpolate_grid2 packets (fst k) g nx ny (snd k) boundary bounds_error [[(x, y)]].
Definition at_point3 (packets : nat -> nat -> list nat) (k : bool * string) (g : grid3) (nx ny : nat) (boundary : string) (bounds_error : bool) (x y z : Q) : outcome (list (option Q)) :=
  interpolate_grid3 packets (fst k) g nx ny (snd k) boundary bounds_error [[(x, y, z)]].
Definition at_point4 (packets : nat -> nat -> list nat) (k : bool * string) (g : grid4) (nx ny : nat) (boundary : string) (bounds_error : bool) (x y z u : Q) : outcome (list (option Q)) :=
  interpolate_grid4 packets (fst k) g nx ny (snd k) boundary bounds_error [[(x, y, z, u)]].

(** [d i]: slopes at the nodes of a natural cubic spline through the data. *)
Definition natural_slopes (xs ys : list Q) (d : nat -> Q) : Prop :=
  exists k, smooth_spline xs ys k /\ natural_ends xs k /\
    forall i, (S i < length xs)%nat ->
      (cubic' (at_ xs i) (k i) (at_ xs i) == d i)%Q /\ (cubic' (at_ xs i) (k i) (at_ xs (S i)) == d (S i))%Q.
(** [v]: value at [x] of the curve of the given kind through the data. *)
Definition on_curve (kind : string) (xs ys : list Q) (x v : Q) : Prop :=
  if String.eqb kind "linear" then
    forall i, in_cell xs x i -> (v == lerp (at_ xs i) (at_ xs (S i)) (at_ ys i) (at_ ys (S i)) x)%Q
  else if String.eqb kind "steffen" then
    forall i, in_cell xs x i ->
      (v == hermite (at_ xs i) (at_ xs (S i)) (at_ ys i) (at_ ys (S i)) (steffen_slope xs ys i) (steffen_slope xs ys (S i)) x)%Q
  else
    exists k, smooth_spline xs ys k /\ natural_ends xs k /\ forall i, in_cell xs x i -> (v == cubic (at_ xs i) (k i) x)%Q.
(** Fewest points of a window for each kind. *)
Definition needs (kind : string) : nat :=
  if String.eqb kind "linear" then 2%nat else if String.eqb kind "steffen" then 3%nat else 4%nat.

(** The column [j] and the row [i] of the window. *)
Definition col (nx : nat) (q : nat -> nat -> Q) (j : nat) : list Q := map (fun i => q i j) (seq 0 (2 * nx)).
Definition row (ny : nat) (q : nat -> nat -> Q) (i : nat) : list Q := map (fun j => q i j) (seq 0 (2 * ny)).
(** Cubic in [x] and in [y] (tensor product of Hermite polynomials) on the rectangle [x0, x1] x
    [y0, y1]: the values at the corners ([z00]: at [x0, y0], [z10]: at [x1, y0], ...), the slopes
    along x, the slopes along y and the slopes along x of the slopes along y. *)
Definition patch (x0 x1 y0 y1 z00 z10 z01 z11 zx00 zx10 zx01 zx11 zy00 zy10 zy01 zy11 zxy00 zxy10 zxy01 zxy11 x y : Q) : Q :=
  hermite y0 y1
    (hermite x0 x1 z00 z10 zx00 zx10 x) (hermite x0 x1 z01 z11 zx01 zx11 x)
    (hermite x0 x1 zy00 zy10 zxy00 zxy10 x) (hermite x0 x1 zy01 zy11 zxy01 zxy11 x) y.
Definition patch_of (xs ys : list Q) (z zx zy zxy : nat -> nat -> Q) (i j : nat) (x y : Q) : Q :=
  patch (at_ xs i) (at_ xs (S i)) (at_ ys j) (at_ ys (S j))
    (z i j) (z (S i) j) (z i (S j)) (z (S i) (S j))
    (zx i j) (zx (S i) j) (zx i (S j)) (zx (S i) (S j))
    (zy i j) (zy (S i) j) (zy i (S j)) (zy (S i) (S j))
    (zxy i j) (zxy (S i) j) (zxy i (S j)) (zxy (S i) (S j)) x y.

(** 3-D and 4-D grids. *)
Definition usable_grid3 (g : grid3) : Prop :=
  usable (g3_x g) /\ usable (g3_y g) /\ is_angle (g3_y g) = false /\ z_usable (g3_z g) /\
  new_grid3 (g3_x g) (g3_y g) (g3_z g) (g3_array g) = Ok g.
Definition usable_grid4 (g : grid4) : Prop :=
  usable (g4_x g) /\ usable (g4_y g) /\ is_angle (g4_y g) = false /\ z_usable (g4_z g) /\
  (reachable (g4_u g) /\ 1 < len (g4_u g) /\ is_angle (g4_u g) = false) /\
  new_grid4 (g4_x g) (g4_y g) (g4_z g) (g4_u g) (g4_array g) = Ok g.
