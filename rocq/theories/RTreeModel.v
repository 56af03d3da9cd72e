(** Model of the spatial index: include/pyinterp/detail/geometry/rtree.hpp (below "base:") and
    include/pyinterp/rtree.hpp (below "wrapper:").

    Simplifications: exact real arithmetic; finite coordinates and values. The R*-tree of Boost is
    a bag of items represented by a list; its nearest-neighbour iterator is the parameter [knn]
    (contract in [RTreeSpec]). A radius is [None] when it is the largest number of the type, which is
    what the wrapper passes when no radius is given (wrapper:234,245,...). Radial basis
    functions and kriging are in [RbfModel]. *)
From Coq Require Import Reals.
From Verif Require Import Base WindowModel.
Open Scope R_scope.

Definition point : Type := R * R * R.
Definition px (p : point) : R := fst (fst p).
Definition py (p : point) : R := snd (fst p).
Definition pz (p : point) : R := snd p.
Definition item : Type := point * R.
(** boost::geometry::distance for a Cartesian coordinate system. *)
Definition dist (p q : point) : R := sqrt ((px p - px q) ^ 2 + (py p - py q) ^ 2 + (pz p - pz q) ^ 2).

(** boost::geometry::return_envelope<box>(multi_point) and covered_by(point, box): the box of no point
    is empty. *)
Fixpoint span (f : point -> R) (l : list point) : option (R * R) :=
  match l with
  | [] => None
  | q :: t => match span f t with
              | None => Some (f q, f q)
              | Some (lo, hi) => Some (Rmin (f q) lo, Rmax (f q) hi)
              end
  end.
Definition in_span (f : point -> R) (l : list point) (p : point) : bool :=
  match span f l with None => false | Some (lo, hi) => Rleb lo (f p) && Rleb (f p) hi end.
Definition covered (l : list point) (p : point) : bool := in_span px l p && in_span py l p && in_span pz l p.

Definition within_radius (radius : option R) (d : R) : bool := match radius with None => true | Some r => Rleb d r end.

Section Tree.
  (** tree_->qbegin(nearest(point, k)). *)
  Variable knn : list item -> point -> nat -> list item.

  (** base:114-127. *)
  Definition query (t : list item) (p : point) (k : nat) : list (R * R) := map (fun i => (dist p (fst i), snd i)) (knn t p k).
  (** base:145-161 [query_ball], default strategy; the order is unspecified. *)
  Definition query_ball (t : list item) (p : point) (radius : R) : list (R * R) :=
    map (fun i => (dist p (fst i), snd i)) (filter (fun i => Rleb (dist (fst i) p) radius) t).
  (** base:179-203. *)
  Definition query_within (t : list item) (p : point) (k : nat) : list (R * R) :=
    let n := knn t p k in
    if covered (map fst n) p then map (fun i => (dist p (fst i), snd i)) n else [].
  Definition neighbours (within : bool) (t : list item) (p : point) (k : nat) : list (R * R) :=
    if within then query_within t p k else query t p k.

  (** base:223-257 [value]. *)
  Definition value (t : list item) (p : point) (radius : option R) (k : nat) (within : bool) : list item :=
    let n := filter (fun i => within_radius radius (dist (fst i) p)) (knn t p k) in
    if within then (if covered (map fst n) p then n else []) else n.
  (** base:379-405 and :431-468 [nearest], [nearest_within]: the selected coordinates and values. *)
  Definition nearest (t : list item) (p : point) (radius : option R) (k : nat) (within : bool) : list item :=
    let n := filter (fun i => within_radius radius (dist p (fst i))) (knn t p k) in
    if within then (if covered (map fst n) p then n else []) else n.

  (** base:300-320, the loop of [inverse_distance_weighting] and the final expression (:322-330);
      [inl] is the early return. *)
  Fixpoint idw_loop (k : nat) (p : nat) (radius : option R) (l : list (R * R)) (result total : R) (n : Z) : option R * Z :=
    match l with
    | [] => if Reqb total 0 then (None, 0%Z) else (Some (result / total), n)
    | (d, v) :: t =>
        if Rltb d (1 / 1000000) then (Some v, Z.of_nat k)
        else if within_radius radius d then
          let wk := 1 / d ^ p in idw_loop k p radius t (result + v * wk) (total + wk) (n + 1)%Z
        else idw_loop k p radius t result total n
    end.
  (** base:284-331. *)
  Definition idw (t : list item) (pt : point) (radius : option R) (k p : nat) (within : bool) : option R * Z :=
    idw_loop k p radius (neighbours within t pt k) 0 0 0%Z.

  (** base:562-572, the loop of [window_function]; [None]: the sums are not numbers. *)
  Fixpoint window_loop (w : R -> R -> option R) (far : R) (radius : option R) (l : list (R * R)) (sums : option (R * R)) (n : Z) : option (R * R) * Z :=
    match l with
    | [] => (sums, n)
    | (d, v) :: t =>
        if within_radius radius d then
          let sums := match sums, w d far with Some (result, total), Some wk => Some (result + v * wk, total + wk) | _, _ => None end in
          window_loop w far radius t sums (n + 1)%Z
        else (sums, n)
    end.
  (** base:543-581. *)
  Definition window_function (t : list item) (pt : point) (w : R -> R -> option R) (radius : option R) (k : nat) (within : bool) : option R * Z :=
    let l := neighbours within t pt k in
    let far := match radius with Some r => r | None => fst (last l (0, 0)) end in
    let '(sums, n) := window_loop w far radius l (Some (0, 0)) 0%Z in
    match sums with
    | None => (None, n)
    | Some (result, total) => if Reqb total 0 then (None, 0%Z) else (Some (result / total), n)
    end.

  (** ** The wrapper *)
  (** wrapper:571-585, a row of the matrices of [query]; the missing neighbours are (-1, -1). *)
  Definition query_row (t : list item) (p : point) (k : nat) (within : bool) : list (R * R) :=
    let l := neighbours within t p k in l ++ repeat (-1, -1) (k - length l).
  (** wrapper:640-676, a row of the matrices of [value] (before the conversion of the coordinates);
      the missing neighbours are NaN. *)
  Definition value_row (t : list item) (p : point) (radius : option R) (k : nat) (within : bool) : list (option item) :=
    let l := value t p radius k within in map Some l ++ repeat None (k - length l).
End Tree.

(** ** The contents *)
Record spheroid : Type := Spheroid { s_a : R; s_f : R }.
(** detail/geodetic/spheroid.hpp:19-20, WGS-84. *)
Definition wgs84 : spheroid := Spheroid 6378137 (1 / (298257223563 / 1000000000)).
Record rtree : Type := RTree { t_spheroid : spheroid; t_ecef : bool; t_items : list item }.

Section Contents.
  (** detail/geodetic/coordinates.hpp: lla_to_ecef and ecef_to_lla. *)
  Variable to_ecef : spheroid -> point -> point.
  Variable to_lla : spheroid -> point -> point.

  (** wrapper:84-95. *)
  Definition new_rtree (wgs : option spheroid) (ecef : bool) : outcome rtree :=
    match wgs, ecef with
    | Some _, true => Throw "set either the spheroid or ecef parameter"
    | _, _ => Ok (RTree (match wgs with Some s => s | None => wgs84 end) ecef [])
    end.

  (** wrapper:414-450, the four converters; the rows of a matrix have 2 or 3 columns. *)
  Definition convert (t : rtree) (row : list R) : outcome point :=
    match row with
    | [x; y] => Ok (if t_ecef t then (x, y, 0) else to_ecef (t_spheroid t) (x, y, 0))
    | [x; y; z] => Ok (if t_ecef t then (x, y, z) else to_ecef (t_spheroid t) (x, y, z))
    | _ => Throw "coordinates must be a matrix (n, 2) or (n, 3)"
    end.
  Fixpoint convert_all (t : rtree) (rows : list (list R)) : outcome (list point) :=
    match rows with
    | [] => Ok []
    | r :: rest => olet p := convert t r in olet l := convert_all t rest in Ok (p :: l)
    end.
  (** wrapper:131-155 and base:101-103: the previous items are erased. *)
  Definition packing (t : rtree) (rows : list (list R)) (values : list R) : outcome rtree :=
    if negb (zlen rows =? zlen values)%Z then Throw "could not be broadcast together with shape"
    else olet l := convert_all t rows in Ok (RTree (t_spheroid t) (t_ecef t) (combine l values)).
  (** wrapper:160-186 and base:108. *)
  Definition insert (t : rtree) (rows : list (list R)) (values : list R) : outcome rtree :=
    if negb (zlen rows =? zlen values)%Z then Throw "could not be broadcast together with shape"
    else olet l := convert_all t rows in Ok (RTree (t_spheroid t) (t_ecef t) (t_items t ++ combine l values)).
  (** base:96. *)
  Definition clear (t : rtree) : rtree := RTree (t_spheroid t) (t_ecef t) [].
  Definition size (t : rtree) : Z := zlen (t_items t).

  (** wrapper:345-364: the spheroid, the flag, the stored coordinates and the values. *)
  Definition rtree_state : Type := spheroid * bool * list point * list R.
  Definition getstate (t : rtree) : rtree_state := (t_spheroid t, t_ecef t, map fst (t_items t), map snd (t_items t)).
  (** wrapper:368-401; [packing] goes to a copy of the base object, which shares the tree. *)
  Definition setstate (s : rtree_state) : outcome rtree :=
    let '(sph, ecef, x, u) := s in
    if negb (zlen x =? zlen u)%Z then Throw "invalid state"
    else olet t := new_rtree (Some sph) ecef in
         Ok (RTree (t_spheroid t) (t_ecef t) (combine x u)).

  (** wrapper:102-127 [equatorial_bounds], one coordinate: the lower bound starts from the largest
      number and the upper bound from std::numeric_limits::min(), the smallest *positive* number. *)
  Definition lowest (l : list R) : R := fold_left Rmin l (IZR (2 ^ 1024 - 2 ^ 971)).
  Definition highest (l : list R) : R := fold_left Rmax l (/ IZR (2 ^ 1022)).
  Definition bounds (t : rtree) : option (point * point) :=
    match t_items t with
    | [] => None
    | _ =>
        let lla := map (fun i => to_lla (t_spheroid t) (fst i)) (t_items t) in
        Some ((lowest (map px lla), lowest (map py lla), lowest (map pz lla)), (highest (map px lla), highest (map py lla), highest (map pz lla)))
    end.
End Contents.
