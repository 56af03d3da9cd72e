(** Model of the geometries (line strings, polygons, boxes) of
    lib/geodetic/line_string.cpp, polygon.cpp, multipolygon.cpp,
    include/pyinterp/geodetic/{point,line_string,polygon,multipolygon,box,crossover}.hpp
    and module/geodetic.cpp: construction, GeoJSON coordinates, pickling, curvilinear
    distance and closest points.  Boost.Geometry's distance and closest point are
    parameters.  Coordinates that are only stored and copied are of an arbitrary type. *)
From Verif Require Import Base.
Open Scope Z_scope.

(** ** Values of Python given to and taken from these functions *)
Section Coordinates.
  Context {V : Type}.
  Definition gpoint : Type := (V * V)%type.

  (** point.hpp:39-44, [Point.coordinates]. *)
  Definition point_coordinates (p : gpoint) : list V := [fst p; snd p].
  (** point.hpp:31-36, [Point::from_geojson]. *)
  Definition point_from_geojson (data : list V) : outcome gpoint :=
    match data with
    | [x; y] => Ok (x, y)
    | _ => Throw "Point must be a list of 2 elements"
    end.
  (** The loops that convert a list of coordinates. *)
  Fixpoint ring_from_geojson (l : list (list V)) : outcome (list gpoint) :=
    match l with
    | [] => Ok []
    | c :: t => olet p := point_from_geojson c in olet r := ring_from_geojson t in Ok (p :: r)
    end.
  Definition ring_coordinates (l : list gpoint) : list (list V) := map point_coordinates l.

  (** line_string.cpp:14-20, the constructor from two arrays; broadcast.hpp:46-53. *)
  Definition line_of_arrays (lon lat : list V) : outcome (list gpoint) :=
    if (length lon =? length lat)%nat then Ok (combine lon lat)
    else Throw "lon, lat could not be broadcast together".
  (** line_string.cpp:73-85 and 87-98. *)
  Definition line_getstate (l : list gpoint) : list V * list V := (map fst l, map snd l).
  Definition line_setstate (st : list V * list V) : outcome (list gpoint) := line_of_arrays (fst st) (snd st).
  (** line_string.cpp:100-109 ("coordinates") and 22-29. *)
  Definition line_to_geojson (l : list gpoint) : list (list V) := ring_coordinates l.
  Definition line_from_geojson (data : list (list V)) : outcome (list gpoint) := ring_from_geojson data.
  (** line_string.hpp:85-90, [LineString.__getitem__]; the index is a [size_t]. *)
  Definition line_getitem (l : list gpoint) (index : nat) : outcome gpoint :=
    match nth_error l index with Some p => Ok p | None => Throw "LineString index out of range" end.
  (** line_string.hpp:54, [append]. *)
  Definition line_append (l : list gpoint) (p : gpoint) : list gpoint := l ++ [p].

  (** crossover.hpp:78-93, pickling of a [Crossover]: two line strings. *)
  Definition crossover_getstate (c : list gpoint * list gpoint) : (list V * list V) * (list V * list V) :=
    (line_getstate (fst c), line_getstate (snd c)).
  Definition crossover_setstate (st : (list V * list V) * (list V * list V)) : outcome (list gpoint * list gpoint) :=
    olet a := line_setstate (fst st) in olet b := line_setstate (snd st) in Ok (a, b).

  (** A polygon: outer ring and inner rings. *)
  Record polygon := Polygon { outer : list gpoint; inners : list (list gpoint) }.

  (** polygon.cpp:15-41, the constructor (of lists of points: the conversion errors are
      not modelled). *)
  Definition polygon_of_lists (o : list gpoint) (i : list (list gpoint)) : polygon := Polygon o i.
  (** polygon.cpp:73-90, [coordinates]. *)
  Definition polygon_coordinates (p : polygon) : list (list (list V)) :=
    ring_coordinates (outer p) :: map ring_coordinates (inners p).
  (** The loop of polygon.cpp:53-62. *)
  Fixpoint inners_from_geojson (l : list (list (list V))) : outcome (list (list gpoint)) :=
    match l with
    | [] => Ok []
    | [] :: t => inners_from_geojson t
    | inner :: t => olet r := ring_from_geojson inner in olet s := inners_from_geojson t in Ok (r :: s)
    end.
  (** polygon.cpp:43-64, [from_geojson]. *)
  Definition polygon_from_geojson (data : list (list (list V))) : outcome polygon :=
    match data with
    | [] => Ok (Polygon [] [])
    | o :: t => olet r := ring_from_geojson o in olet s := inners_from_geojson t in Ok (Polygon r s)
    end.
  (** polygon.hpp:150-161, pickling. *)
  Definition polygon_getstate (p : polygon) : list (list (list V)) := polygon_coordinates p.
  Definition polygon_setstate (st : list (list (list V))) : outcome polygon := polygon_from_geojson st.

  (** multipolygon.cpp:40-46, 28-35; multipolygon.hpp:185-196. *)
  Definition multi_coordinates (m : list polygon) : list (list (list (list V))) := map polygon_coordinates m.
  Fixpoint multi_from_geojson (data : list (list (list (list V)))) : outcome (list polygon) :=
    match data with
    | [] => Ok []
    | d :: t => olet p := polygon_from_geojson d in olet r := multi_from_geojson t in Ok (p :: r)
    end.
End Coordinates.
Arguments gpoint : clear implicits.
Arguments polygon : clear implicits.

(** ** Boxes *)
Record gbox := GBox { min_corner : Q * Q; max_corner : Q * Q }.

(** box.hpp:36-46, the constructor (finite coordinates). *)
Definition box_make (mn mx : Q * Q) : outcome gbox :=
  if Qltb 180 (fst mn) || Qltb 180 (fst mx) || Qltb (fst mn) (-(180)) || Qltb (fst mx) (-(180))
  then Throw "longitude must be within [-180, 180["
  else if Qltb (fst mx) (fst mn) then Throw "min_corner.lon() > max_corner.lon()"
  else Ok (GBox mn mx).
(** module/geodetic.cpp:176-181, [pyinterp.geodetic.Box(min_corner, max_corner)]. *)
Definition box_new (mn mx : Q * Q) : outcome gbox :=
  if Qltb (fst mx) (fst mn) then box_make mx mn else box_make mn mx.
(** box.hpp:49-55, [from_geojson]. *)
Definition box_from_geojson (data : list Q) : outcome gbox :=
  match data with
  | [a; b; c; d] => box_make (a, b) (c, d)
  | _ => Throw "Box must be a list of 4 elements"
  end.
(** box.hpp:129-142, pickling; point.hpp:77-88. *)
Definition box_getstate (b : gbox) : (Q * Q) * (Q * Q) := (min_corner b, max_corner b).
Definition box_setstate (st : (Q * Q) * (Q * Q)) : outcome gbox := box_make (fst st) (snd st).
(** module/geodetic.cpp:192-205, the setters: no check. *)
Definition box_set_min (b : gbox) (p : Q * Q) : gbox := GBox p (max_corner b).
Definition box_set_max (b : gbox) (p : Q * Q) : gbox := GBox (min_corner b) p.
(** [boost::geometry::covered_by(point, box)] for a box of the longitudes and latitudes,
    when the longitudes of the point and of the box are all in [-180, 180]: within both
    intervals, borders included (box.hpp:98-100); the identification of longitudes modulo
    360 is left out. *)
Definition box_covers (b : gbox) (p : Q * Q) : bool :=
  Qle_bool (fst (min_corner b)) (fst p) && Qle_bool (fst p) (fst (max_corner b)) &&
  Qle_bool (snd (min_corner b)) (snd p) && Qle_bool (snd p) (snd (max_corner b)).

(** ** Curvilinear distance and closest points *)
Section Distances.
  Context {P : Type}.
  Variable distance : P -> P -> Q.

  (** line_string.cpp:111-126: the loop, with the previous point and the total so far. *)
  Fixpoint curvilinear_from (prev : P) (total : Q) (l : list P) : list Q :=
    match l with
    | [] => []
    | p :: t =>
        let total := (total + distance prev p)%Q in
        total :: curvilinear_from p total t
    end.
  (** line_string.cpp:128-157. *)
  Definition curvilinear_distance (l : list P) : list Q :=
    match l with
    | [] => []
    | p :: t => 0%Q :: curvilinear_from p 0 t
    end.
End Distances.

(** line_string.cpp:211-260, [closest_point(lon, lat)]: number of elements of the two
    results, and one iteration of the worker.  The sizes of the two arrays are not
    compared: an index outside [lat] is an out-of-bounds read, and write of
    [result_lat]. *)
Section Closest.
  Variable closest : (Q * Q) -> (Q * Q).
  Definition closest_body (lon lat : list Q) (ix : nat) : outcome (Q * Q) :=
    match nth_error lon ix, nth_error lat ix with
    | Some x, Some y => Ok (closest (x, y))
    | _, _ => UB "lon[ix] or lat[ix] out of bounds"
    end.
  Fixpoint closest_loop (lon lat : list Q) (start count : nat) : outcome (list (Q * Q)) :=
    match count with
    | O => Ok []
    | S c => olet p := closest_body lon lat start in olet r := closest_loop lon lat (S start) c in Ok (p :: r)
    end.
  (** With one thread; C34 gives the other cases.  The elements of the latitudes beyond
      [lon.size()] are left uninitialised ([None]). *)
  Definition closest_points (lon lat : list Q) : outcome (list Q * list (option Q)) :=
    olet r := closest_loop lon lat 0 (length lon) in
    Ok (map fst r, map (fun p => Some (snd p)) r ++ repeat None (length lat - length lon)).
End Closest.
