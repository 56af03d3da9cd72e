(** Independent specification vocabulary for coordinate axes.  It speaks only
    about what a user sees: [len a], the checked element access [a[i]]
    ([coordinate_value]) and distances between coordinates. *)
From Verif Require Import Base MathModel AxisModel.
Open Scope Z_scope.

(** Number of points of the axis. *)
Definition len (a : axis) : Z := c_size (a_cont a).

(** [at_index a i v]: indexing the axis, [a[i]], yields [v]. *)
Definition at_index (a : axis) (i : Z) (v : Q) : Prop := coordinate_value a i = Ok v.

(** [nearest_last a x i]: [i] is a valid index, no point of the axis is closer to
    [x] than [a[i]], and among equally close points [i] is the last one. *)
Definition nearest_last (a : axis) (x : Q) (i : Z) : Prop :=
  exists v, at_index a i v /\
    forall j w, at_index a j w ->
      (Qabs (x - v) <= Qabs (x - w))%Q /\
      (i < j -> (Qabs (x - v) < Qabs (x - w))%Q).

(** The coordinate is inside the closed range of values covered by the axis. *)
Definition inside (a : axis) (x : Q) : Prop :=
  exists i v j w, at_index a i v /\ at_index a j w /\ (v <= x)%Q /\ (x <= w)%Q.

(** [x] and [y] denote the same angle: they differ by whole turns. *)
Definition same_angle (x y : Q) : Prop := exists k : Z, (x == y + inject_Z k * 360)%Q.

(** Axes a user can obtain from Python: built from values, flipped in place, or
    copied/restored from a pickled state.  The (start, stop, num) constructor is
    used by the C++ side only (binning.hpp); it is included for positive sizes. *)
Inductive reachable : axis -> Prop :=
| reach_values l eps circ a :
    (0 <= eps)%Q -> axis_of_values l eps circ = Ok a -> reachable a
| reach_regular start stop num eps circ a :
    0 < num -> axis_regular start stop num eps circ = Ok a -> reachable a
| reach_flip a : reachable a -> reachable (flip a)
| reach_pickle a b : reachable a -> setstate (getstate a) = Ok b -> reachable b.

(** [brackets a x i0 i1]: two consecutive valid indexes, in either order, whose
    coordinates enclose [x]. *)
Definition brackets (a : axis) (x : Q) (i0 i1 : Z) : Prop :=
  exists v0 v1, at_index a i0 v0 /\ at_index a i1 v1 /\
    (i1 = i0 + 1 \/ i0 = i1 + 1) /\
    ((v0 <= x /\ x <= v1)%Q \/ (v1 <= x /\ x <= v0)%Q).

(** [seam a x i0 i1]: [i0] and [i1] are the two ends of the axis (in either
    order) and [x] lies on the arc going from the largest coordinate [hi] to the
    smallest one [lo] plus a turn. *)
Definition seam (a : axis) (x : Q) (i0 i1 : Z) : Prop :=
  ((i0 = 0 /\ i1 = len a - 1) \/ (i0 = len a - 1 /\ i1 = 0)) /\
  exists lo hi,
    ((at_index a i0 lo /\ at_index a i1 hi) \/ (at_index a i0 hi /\ at_index a i1 lo)) /\
    (forall j w, at_index a j w -> (lo <= w /\ w <= hi)%Q) /\
    (hi <= x /\ x < lo + 360)%Q.

(** Where a window position falling outside [0, n) is redirected by each boundary
    rule: clamped, wrapped modulo [n], mirrored about the end point, refused.  A
    circular axis always wraps. *)
Definition redirect (circular : bool) (b : boundary) (n i : Z) : option Z :=
  if (0 <=? i) && (i <? n) then Some i
  else if circular then Some (i mod n)
  else match b with
       | kExpand => Some (if i <? 0 then 0 else n - 1)
       | kWrap => Some (i mod n)
       | kSym => Some (if i <? 0 then - i else 2 * (n - 1) - i)
       | kUndef => None
       end.

(** All or nothing: the list of all results, or nothing if one is missing. *)
Fixpoint all_some {A : Type} (l : list (option A)) : option (list A) :=
  match l with
  | [] => Some []
  | None :: _ => None
  | Some x :: t => match all_some t with Some r => Some (x :: r) | None => None end
  end.

(** The [count] consecutive integers starting at [from]. *)
Definition span (from : Z) (count : Z) : list Z :=
  map (fun k => from + Z.of_nat k) (seq 0 (Z.to_nat count)).

(** [i] is an index nearest to the angle [x] on the circle: whatever number of
    turns is added, no point of the axis is closer. *)
Definition nearest_on_circle (a : axis) (x : Q) (i : Z) : Prop :=
  exists v, at_index a i v /\
    exists k : Z, forall j w (m : Z), at_index a j w ->
      (Qabs (x - v + inject_Z k * 360) <= Qabs (x - w + inject_Z m * 360))%Q.

(** Strict monotony of a list of values, in one direction. *)
Definition strictly_ascending (l : list Q) : Prop :=
  forall i j a b, znth l i = Some a -> znth l j = Some b -> i < j -> (a < b)%Q.
Definition strictly_descending (l : list Q) : Prop :=
  forall i j a b, znth l i = Some a -> znth l j = Some b -> i < j -> (b < a)%Q.
