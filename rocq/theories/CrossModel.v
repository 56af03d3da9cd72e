(** Model of the crossovers of two half-orbits
    (include/pyinterp/detail/geometry/crossover.hpp, lib/geodetic/crossover.cpp).

    A line string is the list of its points (longitude, latitude), with exact rational
    coordinates: the rounding of [+ 360] is not modelled, and there is no NaN.  Boost's
    [intersection], the geodetic [distance] and the R*Tree query are parameters. *)
From Verif Require Import Base MathModel.
Open Scope Z_scope.

Notation pt := (Q * Q)%type.
Notation line := (list (Q * Q)).
Definition lon_of (p : pt) : Q := fst p.
Definition lat_of (p : pt) : Q := snd p.

(** [std::min(std::max(d, -180.0), 180.0)] (crossover.hpp:25, 27). *)
Definition clamp180 (d : Q) : Q :=
  let m := if Qltb d (-(180)) then (-(180))%Q else d in
  if Qltb 180 m then 180%Q else m.

(** crossover.hpp:24-30, [is_retrograde(x1, x2, x3)]. *)
Definition is_retrograde (x1 x2 x3 : Q) : bool :=
  let delta := clamp180 (x1 - x2) in
  let delta := if Qeq_bool (Qabs delta) 180 then clamp180 (x2 - x3) else delta in
  Qltb 0 delta.

(** [boost::geometry::comparable_distance] of two points of the plane (crossover.hpp:43):
    the square of the distance. *)
Definition plane_distance (p q : pt) : Q :=
  ((fst p - fst q) * (fst p - fst q) + (snd p - snd q) * (snd p - snd q))%Q.

(** crossover.hpp:37-50, [nearest_point]; [best] is [min_distance] ([None]: still
    [numeric_limits::max()], larger than any distance), [ix] the position of the head of
    the list, [index] the answer so far. *)
Fixpoint nearest_from (l : line) (p : pt) (best : option Q) (ix index : nat) : nat :=
  match l with
  | [] => index
  | h :: t =>
      let d := plane_distance h p in
      let closer := match best with None => true | Some b => Qltb d b end in
      if closer then nearest_from t p (Some d) (S ix) ix else nearest_from t p best (S ix) index
  end.
Definition nearest_point (l : line) (p : pt) : nat := nearest_from l p None 0 0.

Definition Qmin_cpp (a b : Q) : Q := if Qltb b a then b else a.  (* std::min *)
Definition Qmax_cpp (a b : Q) : Q := if Qltb a b then b else a.  (* std::max *)

(** [l.front()], [l.back()] (longitudes). *)
Definition front_lon (l : line) : Q := lon_of (hd (0, 0)%Q l).
Definition back_lon (l : line) : Q := lon_of (last l (0, 0)%Q).
Definition lon_at (l : line) (i : nat) : Q := lon_of (nth i l (0, 0)%Q).

(** The bodies of the two [for_each] (crossover.hpp:90-94 and 114-118). *)
Definition shift_up (crossing : Q) (p : pt) : pt :=
  if Qltb (fst p) crossing then ((fst p + 360)%Q, snd p) else p.
Definition shift_down (crossing : Q) (p : pt) : pt :=
  if Qltb crossing (fst p) then ((fst p - 360)%Q, snd p) else p.

(** crossover.hpp:75-88: the first crossing.  The first case reads [l1] twice, as the
    code does. *)
Definition first_crossing (r1 r2 : bool) (l1 l2 : line) : Q :=
  match r1, r2 with
  | false, false => Qmin_cpp (front_lon l1) (front_lon l1)
  | false, true => Qmin_cpp (front_lon l1) (back_lon l2)
  | true, false => Qmin_cpp (back_lon l1) (front_lon l2)
  | true, true => Qmin_cpp (back_lon l1) (back_lon l2)
  end.
(** crossover.hpp:101-112: the second crossing. *)
Definition second_crossing (r1 r2 : bool) (l1 l2 : line) : Q :=
  match r1, r2 with
  | false, false => Qmax_cpp (back_lon l1) (back_lon l2)
  | false, true => Qmax_cpp (back_lon l1) (front_lon l2)
  | true, false => Qmax_cpp (front_lon l1) (back_lon l2)
  | true, true => Qmax_cpp (front_lon l1) (front_lon l2)
  end.

(** crossover.hpp:57-125, [normalize_line_strings(l1, l2)]: the two lines rewritten. *)
Definition normalize_line_strings (l1 l2 : line) : outcome (line * line) :=
  if ((length l1 <? 3) || (length l2 <? 3))%nat then Throw "LineString must have at least 3 points"
  else
    let r1 := is_retrograde (lon_at l1 0) (lon_at l1 1) (lon_at l1 2) in
    let r2 := is_retrograde (lon_at l2 0) (lon_at l2 1) (lon_at l2 2) in
    let c1 := first_crossing r1 r2 l1 l2 in
    let l1 := map (shift_up c1) l1 in
    let l2 := map (shift_up c1) l2 in
    let c2 := second_crossing r1 r2 l1 l2 in
    Ok (map (shift_down c2) l1, map (shift_down c2) l2).

(** Equality of two keys of [std::set<std::tuple<double, double>>]. *)
Definition same_point (p q : pt) : bool := Qeq_bool (fst p) (fst q) && Qeq_bool (snd p) (snd q).
(** Insertion of the points in the set, in order (crossover.hpp:152-156,
    crossover.cpp:65-68). *)
Definition point_set (l : line) : line :=
  fold_left (fun s p => if existsb (same_point p) s then s else s ++ [p]) l [].

(** crossover.hpp:143-165 and crossover.cpp:54-76, [Crossover::search]; the argument is
    the result of the intersection. *)
Definition search (inter : line) : outcome (option pt) :=
  match inter with
  | [] => Ok None
  | p :: _ =>
      if negb (length inter =? 1)%nat && negb (length (point_set inter) =? 1)%nat
      then Throw "The geometry of the intersection is not a point"
      else Ok (Some p)
  end.

Section Engine.
  (** Boost.Geometry: intersection of two lines of the plane, of two geodetic lines,
      geodetic distance (for the strategy and spheroid chosen), and the positions
      returned by the query of the R*Tree built from a line. *)
  Variable plane_intersection : line -> line -> line.
  Variable geodetic_intersection : line -> line -> line.
  Variable distance : pt -> pt -> Q.
  Variable rtree_nearest : line -> pt -> list nat.

  (** detail::check_container_size, broadcast.hpp:77-88. *)
  Definition check_container_size (n1 n2 : nat) : outcome unit :=
    if (n1 =? n2)%nat then Ok tt else Throw "could not be broadcast together".

  Definition answer : Type := (pt * (nat * nat))%type.

  (** crossover.cpp:130-147 and 190-206 : what is done with one point of the
      intersection in the plane. *)
  Definition plane_answer (lon1 lat1 lon2 lat2 : list Q) (n1 n2 : line) (predicate : Q) (p : pt)
    : option answer :=
    let ix1 := nearest_point n1 p in
    let ix2 := nearest_point n2 p in
    let g := (normalize_angle (fst p) (-(180)) 360, snd p) in
    if Qltb predicate (distance g (nth ix1 lon1 0%Q, nth ix1 lat1 0%Q)) then None
    else if Qltb predicate (distance g (nth ix2 lon2 0%Q, nth ix2 lat2 0%Q)) then None
    else Some (g, (ix1, ix2)).

  (** crossover.cpp:33-39, [NearestPoint::operator()]: [result[0]]. *)
  Definition nearest_index (l : line) (p : pt) : outcome nat :=
    match rtree_nearest l p with
    | [] => UB "result[0] of an empty vector"
    | i :: _ => Ok i
    end.

  (** crossover.cpp:96-112, [Crossover::nearest]. *)
  Definition geodetic_nearest (l1 l2 : line) (p : pt) (predicate : Q) : outcome (option (nat * nat)) :=
    olet ix1 := nearest_index l1 p in
    if Qltb predicate (distance (nth ix1 l1 (0, 0)%Q) p) then Ok None
    else
      olet ix2 := nearest_index l2 p in
      if Qltb predicate (distance (nth ix2 l2 (0, 0)%Q) p) then Ok None
      else Ok (Some (ix1, ix2)).

  (** crossover.cpp:114-160, [crossover]. *)
  Definition crossover (lon1 lat1 lon2 lat2 : list Q) (predicate : Q) (cartesian_plane : bool)
    : outcome (option answer) :=
    olet _ := check_container_size (length lon1) (length lat1) in
    olet _ := check_container_size (length lon2) (length lat2) in
    let l1 := combine lon1 lat1 in
    let l2 := combine lon2 lat2 in
    if cartesian_plane then
      olet (n1, n2) := normalize_line_strings l1 l2 in
      olet point := search (plane_intersection n1 n2) in
      match point with
      | None => Ok None
      | Some p => Ok (plane_answer lon1 lat1 lon2 lat2 n1 n2 predicate p)
      end
    else
      olet point := search (geodetic_intersection l1 l2) in
      match point with
      | None => Ok None
      | Some p =>
          olet near := geodetic_nearest l1 l2 p predicate in
          Ok (option_map (fun n => (p, n)) near)
      end.

  (** The loop of crossover.cpp:217-223. *)
  Fixpoint geodetic_answers (l1 l2 : line) (predicate : Q) (points : line) : outcome (list answer) :=
    match points with
    | [] => Ok []
    | p :: t =>
        olet near := geodetic_nearest l1 l2 p predicate in
        olet r := geodetic_answers l1 l2 predicate t in
        Ok (match near with None => r | Some n => (p, n) :: r end)
    end.
  (** The loop of crossover.cpp:190-207. *)
  Fixpoint plane_answers (lon1 lat1 lon2 lat2 : list Q) (n1 n2 : line) (predicate : Q) (points : line)
    : list answer :=
    match points with
    | [] => []
    | p :: t =>
        let r := plane_answers lon1 lat1 lon2 lat2 n1 n2 predicate t in
        match plane_answer lon1 lat1 lon2 lat2 n1 n2 predicate p with
        | None => r
        | Some a => a :: r
        end
    end.

  (** crossover.cpp:162-225, [crossover_list]. *)
  Definition crossover_list (lon1 lat1 lon2 lat2 : list Q) (predicate : Q) (cartesian_plane : bool)
    : outcome (list answer) :=
    olet _ := check_container_size (length lon1) (length lat1) in
    olet _ := check_container_size (length lon2) (length lat2) in
    let l1 := combine lon1 lat1 in
    let l2 := combine lon2 lat2 in
    if cartesian_plane then
      olet (n1, n2) := normalize_line_strings l1 l2 in
      Ok (plane_answers lon1 lat1 lon2 lat2 n1 n2 predicate (plane_intersection n1 n2))
    else geodetic_answers l1 l2 predicate (geodetic_intersection l1 l2).
End Engine.
