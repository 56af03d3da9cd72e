(** Model of the spatial index on a spheroid: include/pyinterp/geodetic/rtree.hpp,
    lib/geodetic/rtree.cpp ("cpp:" below) and the part of include/pyinterp/detail/geometry/rtree.hpp
    ("base:") it uses.

    Simplifications: exact real arithmetic; finite coordinates and values.  The R*-tree of Boost is a
    bag of items represented by a list; its nearest-neighbour iterator is the parameter [knn]
    (contract in [GeoTreeSpec]), the distance of Boost on a spheroid of given radii is the parameter
    [distance], and the test [covered_by(point, envelope(points))] on the sphere is the parameter
    [around].  A radius is [None] when it is the largest number of the type.  The vectorised loops are
    those of ThreadModel. *)
From Coq Require Import Reals.
From Verif Require Import Base WindowModel RTreeModel.
Open Scope R_scope.

(** Longitude, latitude. *)
Definition gpoint : Type := R * R.
Definition gitem : Type := gpoint * R.

(** detail/math.hpp:111-130 [remainder], [normalize_angle]; [std::remainder] rounds halves to even. *)
Definition rint_even (q : R) : Z :=
  let f := Int_part q in
  let d := q - IZR f in
  if Rltb d (1 / 2) then f else if Rltb (1 / 2) d then (f + 1)%Z else if Z.even f then f else (f + 1)%Z.
Definition r_remainder (x y : R) : R :=
  let r := x - IZR (rint_even (x / y)) * y in if Rltb r 0 then r + y else r.
Definition r_normalize (x mn circle : R) : R := r_remainder (x - mn) circle + mn.
(** The points given to Boost (cpp:59-60, 79-80, 119-120, ...). *)
Definition place (lon lat : R) : gpoint := (r_normalize lon (-180) 360, lat).

(** The two radii of the spheroid (the strategy) and the contents. *)
Record geotree : Type := GeoTree { gt_a : R; gt_b : R; gt_items : list gitem }.
(** cpp:27-31; detail/geodetic/spheroid.hpp:69-71 [semi_minor_axis]. *)
Definition new_geotree (wgs : option spheroid) : geotree :=
  let s := match wgs with Some s => s | None => wgs84 end in GeoTree (s_a s) (s_a s * (1 - s_f s)) [].

Fixpoint places (lon lat : list R) : list gpoint :=
  match lon, lat with x :: lon, y :: lat => place x y :: places lon lat | _, _ => [] end.
Definition same_size (lon lat values : list R) : bool := ((zlen lon =? zlen lat) && (zlen lon =? zlen values))%Z.
(** cpp:44-65, base:101-103: the previous items are erased. *)
Definition g_packing (t : geotree) (lon lat values : list R) : outcome geotree :=
  if same_size lon lat values then Ok (GeoTree (gt_a t) (gt_b t) (combine (places lon lat) values))
  else Throw "could not be broadcast together with shape".
(** cpp:69-85. *)
Definition g_insert (t : geotree) (lon lat values : list R) : outcome geotree :=
  if same_size lon lat values then Ok (GeoTree (gt_a t) (gt_b t) (gt_items t ++ combine (places lon lat) values))
  else Throw "could not be broadcast together with shape".
(** base:96. *)
Definition g_clear (t : geotree) : geotree := GeoTree (gt_a t) (gt_b t) [].
Definition g_size (t : geotree) : Z := zlen (gt_items t).
(** cpp:302-323 *)
Definition geo_state : Type := R * R * list gpoint * list R.
Definition g_getstate (t : geotree) : geo_state := (gt_a t, gt_b t, map fst (gt_items t), map snd (gt_items t)).
(** cpp:327-356; [packing] goes to a copy of the base object, which shares the tree. *)
Definition g_setstate (s : geo_state) : outcome geotree :=
  let '(a, b, x, u) := s in
  if (zlen x =? zlen u)%Z then Ok (GeoTree a b (combine x u)) else Throw "invalid state".
(** cpp:33-42 [equatorial_bounds] (C++ only): [corners] is the box of Boost. *)
Definition g_bounds (corners : list gpoint -> gpoint * gpoint) (t : geotree) : option (gpoint * gpoint) :=
  match gt_items t with
  | [] => None
  | l => let '(lo, hi) := corners (map fst l) in Some ((fst lo, fst lo), (fst hi, fst hi))
  end.

Section Queries.
  Variable distance : R * R -> gpoint -> gpoint -> R.
  Variable knn : list gitem -> gpoint -> nat -> list gitem.
  Variable around : list gpoint -> gpoint -> bool.

  Definition g_distance (t : geotree) : gpoint -> gpoint -> R := distance (gt_a t, gt_b t).
  Definition g_row (t : geotree) (p : gpoint) (i : gitem) : R * R := (g_distance t p (fst i), snd i).
  (** base:114-127 and :179-203: the iterator does not know the strategy. *)
  Definition g_neighbours (within : bool) (t : geotree) (p : gpoint) (k : nat) : list (R * R) :=
    let n := knn (gt_items t) p k in
    if within then (if around (map fst n) p then map (g_row t p) n else []) else map (g_row t p) n.
  (** cpp:113-134, a row of the two matrices of [query]. *)
  Definition g_query_row (t : geotree) (within : bool) (k : nat) (lon lat : R) : list (R * R) :=
    let l := g_neighbours within t (place lon lat) k in l ++ repeat (-1, -1) (k - length l).
  (** cpp:167-174; base:284-331. *)
  Definition g_idw (t : geotree) (radius : option R) (k p : nat) (within : bool) (lon lat : R) : option R * Z :=
    idw_loop k p radius (g_neighbours within t (place lon lat) k) 0 0 0%Z.
  (** cpp:279-286; base:543-581. *)
  Definition g_window (t : geotree) (w : R -> R -> option R) (radius : option R) (k : nat) (within : bool) (lon lat : R) : option R * Z :=
    let l := g_neighbours within t (place lon lat) k in
    let far := match radius with Some r => r | None => fst (last l (0, 0)) end in
    let '(sums, n) := window_loop w far radius l (Some (0, 0)) 0%Z in
    match sums with
    | None => (None, n)
    | Some (result, total) => if Reqb total 0 then (None, 0%Z) else (Some (result / total), n)
    end.
  (** base:379-405, 431-468: the points and values given to the radial basis functions (cpp:223-230). *)
  Definition g_selected (t : geotree) (radius : option R) (k : nat) (within : bool) (lon lat : R) : list gitem :=
    let p := place lon lat in
    let n := filter (fun i => within_radius radius (g_distance t p (fst i))) (knn (gt_items t) p k) in
    if within then (if around (map fst n) p then n else []) else n.
  (** cpp:87-145 (and 147-182, ...): one result for each position. *)
  Definition vectorised {A : Type} (f : R -> R -> A) (lon lat : list R) : outcome (list A) :=
    if (zlen lon =? zlen lat)%Z then Ok (map (fun p => f (fst p) (snd p)) (combine lon lat))
    else Throw "could not be broadcast together with shape".
End Queries.

(** ** Objects *)
(** A Python object holds the radii and a shared pointer to the tree (base:584-586 [tree_]). *)
Record gobject : Type := GObject { o_a : R; o_b : R; o_tree : nat }.
Definition store : Type := list (list gitem).
Fixpoint write (s : store) (r : nat) (l : list gitem) : store :=
  match s, r with
  | [], _ => []
  | _ :: t, O => l :: t
  | a :: t, S r => a :: write t r l
  end.
Definition contents (s : store) (o : gobject) : geotree := GeoTree (o_a o) (o_b o) (nth (o_tree o) s []).
(** module/geodetic.cpp:1397-1401 (module/rtree.cpp:77-80): the default copy constructor (base:62) copies the pointer. *)
Definition o_copy (s : store) (o : gobject) : store * gobject := (s, o).
(** Pickling, hence [copy.deepcopy]: a new tree. *)
Definition o_pickle (s : store) (o : gobject) : outcome (store * gobject) :=
  olet t := g_setstate (g_getstate (contents s o)) in
  Ok (s ++ [gt_items t], GObject (gt_a t) (gt_b t) (length s)).
Inductive change : Type := CPack (lon lat values : list R) | CInsert (lon lat values : list R) | CClear.
Definition change_tree (t : geotree) (c : change) : outcome geotree :=
  match c with
  | CPack lon lat values => g_packing t lon lat values
  | CInsert lon lat values => g_insert t lon lat values
  | CClear => Ok (g_clear t)
  end.
(** A refused operation has no effect. *)
Definition o_change (s : store) (o : gobject) (c : change) : store :=
  match change_tree (contents s o) c with Ok t => write s (o_tree o) (gt_items t) | _ => s end.
