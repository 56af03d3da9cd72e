(** Model of the angles in degrees (include/pyinterp/detail/math.hpp), of the spheroid
    (detail/geodetic/spheroid.hpp) and of the conversion between geodetic and Cartesian coordinates
    (detail/geodetic/coordinates.hpp).

    Simplifications: exact real arithmetic instead of doubles (in particular no rounding, no overflow
    and a single zero: -0.0 is 0).  Outside their domains Coq's [sqrt] and [asin] have values where the
    library gives NaN; the theorems about [ecef_to_lla] only speak of points for which the arguments are
    in the domains (they prove what the arguments are). *)
From Coq Require Import Reals Ratan.
From Verif Require Import Base WindowModel RTreeModel.
Open Scope R_scope.

(** math.hpp:85-95. *)
Definition radians (x : R) : R := x * PI / 180.
Definition degrees (x : R) : R := x * 180 / PI.

(** C99 remquo: the quotient is rounded to the nearest integer, ties to even; what is stored has its
    sign and the three low bits of its magnitude. *)
Definition rint_even (x : R) : Z :=
  let n := Int_part x in
  let f := x - IZR n in
  if Rltb f (1 / 2) then n else if Rltb (1 / 2) f then (n + 1)%Z else if Z.even n then n else (n + 1)%Z.
Definition remquo (x y : R) : R * Z :=
  let q := rint_even (x / y) in (x - IZR q * y, (Z.sgn q * (Z.abs q mod 8))%Z).
(** static_cast<unsigned int>. *)
Definition to_unsigned (q : Z) : Z := (q mod 2 ^ 32)%Z.

(** :141-151. *)
Definition sind (x : R) : R :=
  let '(rem, quotient) := remquo x 90 in
  let angle := radians rem in
  let quadrant := to_unsigned quotient in
  let result := if Z.testbit quadrant 0 then cos angle else sin angle in
  if Z.testbit quadrant 1 then - result else result.
(** :158-168. *)
Definition cosd (x : R) : R :=
  let '(rem, quotient) := remquo x 90 in
  let angle := radians rem in
  let quadrant := to_unsigned (quotient + 1) in
  let result := if Z.testbit quadrant 0 then cos angle else sin angle in
  if Z.testbit quadrant 1 then - result else result.
(** :174-190. *)
Definition sincosd (x : R) : R * R :=
  let '(rem, quotient) := remquo x 90 in
  let angle := radians rem in
  match (to_unsigned quotient mod 4)%Z with
  | 0%Z => (sin angle, cos angle)
  | 1%Z => (cos angle, - sin angle)
  | 2%Z => (- sin angle, - cos angle)
  | _ => (- cos angle, sin angle)
  end.
(** :197-200; an infinite result is [None]. *)
Definition tand (x : R) : option R :=
  let '(sinx, cosx) := sincosd x in
  if Reqb cosx 0 then None else Some (sinx / cosx).

(** std::atan2 for the only arguments given below: 0 <= x and |y| <= x. *)
Definition std_atan2 (y x : R) : R := if Reqb x 0 then 0 else atan (y / x).
(** :208-240. *)
Definition atan2d (y x : R) : R :=
  let '(y, x, quadrant) := if Rltb (Rabs x) (Rabs y) then (x, y, 2%Z) else (y, x, 0%Z) in
  let '(x, quadrant) := if Rltb x 0 then (- x, (quadrant + 1)%Z) else (x, quadrant) in
  let angle := degrees (std_atan2 y x) in
  match quadrant with
  | 1%Z => (if Rleb 0 y then 180 else -180) - angle
  | 2%Z => 90 - angle
  | 3%Z => -90 + angle
  | _ => angle
  end.
(** :246-249. *)
Definition atand (x : R) : R := atan2d x 1.
Definition sqr (x : R) : R := x * x.

(** ** spheroid.hpp *)
(** :70-72. *)
Definition semi_minor_axis (s : spheroid) : R := s_a s * (1 - s_f s).
(** :77-81. *)
Definition first_eccentricity_squared (s : spheroid) : R := (sqr (s_a s) - sqr (semi_minor_axis s)) / sqr (s_a s).
(** :86-90. *)
Definition second_eccentricity_squared (s : spheroid) : R := (sqr (s_a s) - sqr (semi_minor_axis s)) / sqr (semi_minor_axis s).
(** :96-100. *)
Definition equatorial_circumference (s : spheroid) (semi_major : bool) : R := 2 * PI * (if semi_major then s_a s else semi_minor_axis s).
(** :105-108. *)
Definition polar_radius_of_curvature (s : spheroid) : R := sqr (s_a s) / semi_minor_axis s.
(** :113-116. *)
Definition equatorial_radius_of_curvature (s : spheroid) : R := sqr (semi_minor_axis s) / s_a s.
(** :121-123. *)
Definition axis_ratio (s : spheroid) : R := semi_minor_axis s / s_a s.
(** :128-131. *)
Definition linear_eccentricity (s : spheroid) : R := sqrt (sqr (s_a s) - sqr (semi_minor_axis s)).
(** :136-138. *)
Definition mean_radius (s : spheroid) : R := (2 * s_a s + semi_minor_axis s) / 3.
(** :143-150; [None] when the linear eccentricity is null: 0 multiplied by an infinity. *)
Definition authalic_radius (s : spheroid) : option R :=
  rbind (rdiv (s_a s * sqr (semi_minor_axis s)) (linear_eccentricity s)) (fun k =>
    Some (sqrt ((sqr (s_a s) + k * ln ((s_a s + linear_eccentricity s) / semi_minor_axis s)) * (1 / 2)))).
(** :155-157. *)
Definition volumetric_radius (s : spheroid) : R := Rpower (sqr (s_a s) * semi_minor_axis s) (1 / 3).
(** :164-172. *)
Definition geocentric_radius (s : spheroid) (latitude : R) : R :=
  let cos_phi := cosd latitude in
  let sin_phi := sind latitude in
  sqrt ((sqr (sqr (s_a s) * cos_phi) + sqr (sqr (semi_minor_axis s) * sin_phi)) /
        (sqr (s_a s * cos_phi) + sqr (semi_minor_axis s * sin_phi))).

(** ** coordinates.hpp *)
(** :114-123; longitude, latitude (degrees) and altitude. *)
Definition lla_to_ecef (s : spheroid) (lla : point) : point :=
  let '(sinx, cosx) := sincosd (px lla) in
  let '(siny, cosy) := sincosd (py lla) in
  let e2 := first_eccentricity_squared s in
  let n := s_a s / sqrt (1 - e2 * sqr siny) in
  let alt := pz lla in
  ((n + alt) * cosy * cosx, (n + alt) * cosy * sinx, (n * (1 - e2) + alt) * siny).
(** :20-40 (the constants) and :70-104: latitude (radians) and altitude of a point given by its
    distance [w] to the axis (with its square [w2]) and by its third coordinate [z];
    [None] at the centre of the Earth. *)
Definition olson (sp : spheroid) (w2 z : R) : option (R * R) :=
  let a := s_a sp in
  let e2 := first_eccentricity_squared sp in
  let a1 := a * e2 in
  let a2 := a1 * a1 in
  let a3 := a1 * (e2 * (1 / 2)) in
  let a4 := 5 / 2 * a2 in
  let a5 := a1 + a3 in
  let a6 := 1 - e2 in
  let zp := Rabs z in
  let w := sqrt w2 in
  rbind (rdiv 1 (w2 + sqr z)) (fun inv_r2 =>
    let inv_r := sqrt inv_r2 in
    let s2 := sqr z * inv_r2 in
    let c2 := w2 * inv_r2 in
    let u := a2 * inv_r in
    let v := a3 - a4 * inv_r in
    let '(s, c, ss, lat) :=
      if Rltb (3 / 10) c2 then
        let s := (zp * inv_r) * (1 + c2 * (a1 + u + s2 * v) * inv_r) in
        (s, sqrt (1 - s * s), s * s, asin s)
      else
        let c := (w * inv_r) * (1 - s2 * (a5 - u - c2 * v) * inv_r) in
        (sqrt (1 - c * c), c, 1 - c * c, acos c) in
    let g := 1 - e2 * ss in
    let rg := a / sqrt g in
    let rf := a6 * rg in
    let u := w - rg * c in
    let v := zp - rf * s in
    let f := c * u + s * v in
    let m := c * v - s * u in
    let p := m / (rf / g + f) in
    let lat := lat + p in
    let lat := if Rltb z 0 then - lat else lat in
    Some (lat, f + m * p * (1 / 2))).
(** :64-107. *)
Definition ecef_to_lla (sp : spheroid) (ecef : point) : option point :=
  rbind (olson sp (sqr (px ecef) + sqr (py ecef)) (pz ecef)) (fun r =>
    Some (atan2d (py ecef) (px ecef), degrees (fst r), snd r)).
(** :128-133. *)
Definition transform (source target : spheroid) (lla : point) : option point := ecef_to_lla target (lla_to_ecef source lla).
