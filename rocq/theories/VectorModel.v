(** Model of the functions that apply a computation of Boost.Geometry to arrays of positions:
    [coordinate_distances] (geodetic/algorithm.hpp:140-221, module/geodetic.cpp:28-40, 1854-1870),
    [covered_by] of boxes and polygons (geodetic/algorithm.hpp:69-103), [LineString.closest_point] of arrays
    (lib/geodetic/line_string.cpp:220-263), and the cover of a polygon by geohash codes
    (lib/geohash/string.cpp:222-336).

    The computations on one position are parameters (they may throw); the threads are those of
    ThreadModel.v.  A run is any complete execution of the threads. *)
From Verif Require Import Base ThreadModel GeohashModel.
From Coq Require Import Ascii.
Open Scope Z_scope.

(** A call of [detail::dispatch] followed by the test of the exception. *)
Inductive run {V : Type} (body : Z -> V + string) (size num_threads hardware : Z) : outcome (list (option V)) -> Prop :=
| Run_done : forall l c, dispatch_ranges size num_threads hardware = Ok l ->
    steps body (start_config size l) c -> finished c -> run body size num_threads hardware (answer c)
| Run_error : forall w, dispatch_ranges size num_threads hardware = UB w -> run body size num_threads hardware (UB w).

(** module/geodetic.cpp:28-40. *)
Inductive strategy : Type := Andoyer | Thomas | Vincenty.
Definition parse_strategy (name : string) : outcome strategy :=
  if String.eqb name "andoyer" then Ok Andoyer
  else if String.eqb name "thomas" then Ok Thomas
  else if String.eqb name "vincenty" then Ok Vincenty
  else Throw "Invalid strategy".
(** broadcast.hpp:44-70: the first vector is compared to each of the others. *)
Definition same_sizes (l : list (list Q)) : bool :=
  match l with [] => true | a :: t => forallb (fun b => zlen a =? zlen b) t end.
Definition at_ (l : list Q) (i : Z) : Q := nth (Z.to_nat i) l 0%Q.

Section Geometry.
  (** A spheroid; the distance between two positions. *)
  Context {W V : Type}.
  Variable distance : strategy -> option W -> Q * Q -> Q * Q -> V + string.

  (** algorithm.hpp:178-221, module/geodetic.cpp:1854-1866 (the name is read before the sizes are
      compared: both arguments of the call). *)
  Inductive coordinate_distances (lon1 lat1 lon2 lat2 : list Q) (name : string) (wgs : option W) (num_threads hardware : Z)
    : outcome (list (option V)) -> Prop :=
  | CD_name : forall w, parse_strategy name = Throw w -> coordinate_distances lon1 lat1 lon2 lat2 name wgs num_threads hardware (Throw w)
  | CD_sizes : forall s, parse_strategy name = Ok s -> same_sizes [lon1; lat1; lon2; lat2] = false ->
      coordinate_distances lon1 lat1 lon2 lat2 name wgs num_threads hardware (Throw "could not be broadcast together")
  | CD_run : forall s r, parse_strategy name = Ok s -> same_sizes [lon1; lat1; lon2; lat2] = true ->
      run (fun ix => distance s wgs (at_ lon1 ix, at_ lat1 ix) (at_ lon2 ix, at_ lat2 ix)) (zlen lon1) num_threads hardware r ->
      coordinate_distances lon1 lat1 lon2 lat2 name wgs num_threads hardware r.

  (** algorithm.hpp:69-103. *)
  Variable covered : Q * Q -> bool + string.
  Inductive covered_by (lon lat : list Q) (num_threads hardware : Z) : outcome (list (option bool)) -> Prop :=
  | CB_sizes : same_sizes [lon; lat] = false -> covered_by lon lat num_threads hardware (Throw "could not be broadcast together")
  | CB_run : forall r, same_sizes [lon; lat] = true ->
      run (fun ix => covered (at_ lon ix, at_ lat ix)) (zlen lon) num_threads hardware r -> covered_by lon lat num_threads hardware r.

  (** line_string.cpp:220-263.  The sizes are not compared; the vectors of the result have the sizes of
      [lon] and [lat] and are not initialised ([None]); reading or writing an element past the end of
      [lat] or of the result is undefined. *)
  Variable closest : Q * Q -> (Q * Q) + string.
  Definition closest_body (lon lat : list Q) (ix : Z) : outcome (Q * Q) + string :=
    if ix <? zlen lat
    then match closest (at_ lon ix, at_ lat ix) with inl p => inl (Ok p) | inr w => inr w end
    else inl (UB "element past the end").
  Definition gather (n : nat) (l : list (option (outcome (Q * Q)))) : outcome (list (option Q) * list (option Q)) :=
    olet pts := oseq (map (fun o => match o with Some (Ok p) => Ok (Some p) | Some (Throw w) => Throw w | Some (UB w) => UB w | None => Ok None end) l) in
    Ok (map (option_map fst) pts, map (option_map snd) pts ++ repeat None (n - length pts)).
  Inductive closest_point (lon lat : list Q) (num_threads hardware : Z) : outcome (list (option Q) * list (option Q)) -> Prop :=
  | CP_run : forall r, run (closest_body lon lat) (zlen lon) num_threads hardware r ->
      closest_point lon lat num_threads hardware (olet l := r in gather (length lat) l).
End Geometry.

(** ** Cover of a polygon *)
Section Cover.
  Variable bmi2 : bool.
  (** boost::geometry::intersects(box, geometry). *)
  Variable intersects : box -> bool.

  (** string.cpp:238-252: one row of the mask.  The worker does not catch the exceptions: they end the
      program. *)
  Definition cell_code (point_sw : point) (bits : Z) (lat lon : Z) : outcome Z :=
    let (lng_err, lat_err) := error_with_precision bits in
    gh_encode bmi2 (Point (p_lon point_sw + inject_Z lon * lng_err) (p_lat point_sw + inject_Z lat * lat_err)) bits.
  Definition mask_row (point_sw : point) (bits lon_step : Z) (lat : Z) : outcome (list bool) :=
    oseq (map (fun lon => olet h := cell_code point_sw bits lat lon in
                          olet b := bounding_box bmi2 h bits in Ok (intersects b)) (zrange lon_step)).
  Definition mask_body (point_sw : point) (bits lon_step : Z) (lat : Z) : list bool + string :=
    match mask_row point_sw bits lon_step lat with Ok r => inl r | _ => inr "std::terminate"%string end.
  (** string.cpp:263-296 [select_cell]. *)
  Definition mask_at (mask : list (option (list bool))) (lon lat : Z) : bool :=
    match nth_error mask (Z.to_nat lat) with
    | Some (Some r) => nth (Z.to_nat lon) r false
    | _ => false
    end.
  Definition select_cell (point_sw : point) (bits precision lon_step lat_step : Z) (mask : list (option (list bool))) : outcome (list (list ascii)) :=
    oseq (flat_map (fun lat =>
            flat_map (fun lon =>
              if mask_at mask lon lat
              then [olet h := cell_code point_sw bits lat lon in Ok (b32_encode h (Z.to_nat precision))]
              else []) (zrange lon_step)) (zrange lat_step)).
  (** string.cpp:299-322 with the check of the precision of module/geohash/string.cpp:112. *)
  Inductive polygon_boxes (envelope : box) (precision num_threads hardware : Z) : outcome (list (list ascii)) -> Prop :=
  | PB_precision : 12 < precision -> polygon_boxes envelope precision num_threads hardware (Throw "precision must be within [1, 12]")
  | PB_throw : forall w, precision <= 12 -> grid_properties bmi2 envelope (precision * 5) = Throw w ->
      polygon_boxes envelope precision num_threads hardware (Throw w)
  | PB_ub : forall w, precision <= 12 -> grid_properties bmi2 envelope (precision * 5) = UB w ->
      polygon_boxes envelope precision num_threads hardware (UB w)
  | PB_run : forall hash_sw lon_step lat_step point_sw r, precision <= 12 ->
      grid_properties bmi2 envelope (precision * 5) = Ok (hash_sw, lon_step, lat_step) ->
      gh_decode bmi2 hash_sw (precision * 5) false = Ok point_sw ->
      run (mask_body point_sw (precision * 5) lon_step) lat_step num_threads hardware r ->
      polygon_boxes envelope precision num_threads hardware
        (olet mask := r in select_cell point_sw (precision * 5) precision lon_step lat_step mask).
End Cover.
