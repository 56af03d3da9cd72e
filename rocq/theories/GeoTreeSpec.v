(** Specification vocabulary for the spatial index on a spheroid. *)
From Coq Require Import Reals Permutation Sorted.
From Verif Require Import Base WindowModel RTreeModel GeoTreeModel.
Open Scope R_scope.

(** Two longitudes that designate the same meridian. *)
Definition same_meridian (x y : R) : Prop := exists n : Z, y = x + 360 * IZR n.
(** The longitude of the range [-180, 180[ of a meridian. *)
Definition meridian (x m : R) : Prop := -180 <= m < 180 /\ same_meridian x m.

(** [chosen] are k nearest items of the bag [t], for the distance [d] (all of them if there are fewer), nearest first. *)
Definition g_k_nearest (d : gpoint -> gpoint -> R) (t : list gitem) (p : gpoint) (k : nat) (chosen : list gitem) : Prop :=
  length chosen = Nat.min k (length t) /\
  StronglySorted (fun i j => d p (fst i) <= d p (fst j)) chosen /\
  exists others, Permutation t (chosen ++ others) /\
    forall i j, In i chosen -> In j others -> d p (fst i) <= d p (fst j).
(** Radii of the default spheroid of Boost.Geometry, WGS-84 (those of [Spheroid()], which Boost rounds to ten decimals). *)
Definition default_radii : R * R := (s_a wgs84, s_a wgs84 * (1 - s_f wgs84)).
(** The contract of the nearest-neighbour iterator of Boost: it uses the default strategy. *)
Definition geo_contract (distance : R * R -> gpoint -> gpoint -> R) (knn : list gitem -> gpoint -> nat -> list gitem) : Prop :=
  forall t p k, g_k_nearest (distance default_radii) t p k (knn t p k).

(** The operations, and the positions and values held after them. *)
Inductive goperation : Type := GPack (lon lat values : list R) | GInsert (lon lat values : list R) | GClear | GPickle.
Definition triples (lon lat values : list R) : list (R * R * R) := combine (combine lon lat) values.
Definition g_held (h : list (R * R * R)) (o : goperation) : list (R * R * R) :=
  match o with
  | GPack lon lat values => triples lon lat values
  | GInsert lon lat values => h ++ triples lon lat values
  | GClear => []
  | GPickle => h
  end.
Definition g_fits (o : goperation) : Prop :=
  match o with GPack lon lat values | GInsert lon lat values => length lon = length lat /\ length lon = length values | _ => True end.
Definition g_apply (t : geotree) (o : goperation) : outcome geotree :=
  match o with
  | GPack lon lat values => g_packing t lon lat values
  | GInsert lon lat values => g_insert t lon lat values
  | GClear => Ok (g_clear t)
  | GPickle => g_setstate (g_getstate t)
  end.
Fixpoint g_run (t : geotree) (h : list goperation) : outcome geotree :=
  match h with
  | [] => Ok t
  | o :: r => olet t := g_apply t o in g_run t r
  end.
(** The same operations with other longitudes for the same meridians. *)
Definition same_operation (o o' : goperation) : Prop :=
  match o, o' with
  | GPack lon lat values, GPack lon' lat' values' | GInsert lon lat values, GInsert lon' lat' values' =>
      Forall2 same_meridian lon lon' /\ lat' = lat /\ values' = values
  | GClear, GClear | GPickle, GPickle => True
  | _, _ => False
  end.

(** Sums over pairs (distance, value). *)
Definition total (f : R * R -> R) (l : list (R * R)) : R := fold_right (fun i s => f i + s) 0 l.
Definition mean_of (w : R * R -> R) (l : list (R * R)) (m : R) : Prop := total w l <> 0 /\ m * total w l = total (fun i => w i * snd i) l.
Definition between_them (l : list (R * R)) (m : R) : Prop := exists i j, In i l /\ In j l /\ snd i <= m <= snd j.

(** The formula of Andoyer for the distance on a spheroid of radii a and b, in radians for a sphere of
    radius 1, times a; this is the default formula of Boost.Geometry.  Coordinates in degrees. *)
Definition radian (x : R) : R := x * PI / 180.
Definition andoyer (ab : R * R) (p q : gpoint) : R :=
  let '(a, b) := ab in
  let f := (a - b) / a in
  let s1 := sin (radian (snd p)) in
  let s2 := sin (radian (snd q)) in
  let c := s1 * s2 + cos (radian (snd p)) * cos (radian (snd q)) * cos (radian (fst q - fst p)) in
  let d := acos c in
  let kk := (s1 - s2) ^ 2 in
  let ll := (s1 + s2) ^ 2 in
  let hh := (d + 3 * sin d) / (1 - c) in
  let gg := (d - 3 * sin d) / (1 + c) in
  a * (d - f / 4 * (hh * kk + gg * ll)).
