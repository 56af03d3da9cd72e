(** Model of the swath calculation (include/pyinterp/geodetic/swath.hpp and
    detail/math/orbit.hpp), over the real numbers (no rounding).  Eigen's [normalized] and
    [AngleAxis::toRotationMatrix] are written from their definitions in Eigen 3.4. *)
From Coq Require Import Reals.
From Verif Require Import Base WindowModel RTreeModel GeodesyModel.
Open Scope R_scope.

Definition vadd (a b : point) : point := (px a + px b, py a + py b, pz a + pz b).
Definition vsub (a b : point) : point := (px a - px b, py a - py b, pz a - pz b).
Definition vscale (k : R) (a : point) : point := (k * px a, k * py a, k * pz a).
Definition vdot (a b : point) : R := px a * px b + py a * py b + pz a * pz b.
Definition norm (a : point) : R := sqrt (vdot a a).
Definition origin : point := (0, 0, 0).

(** orbit.hpp:18-40, [satellite_direction]: central differences, divided by the norm of the
    position; the first and the last rows are copied from their neighbours.  With fewer than
    three rows, the blocks have a size that is null (the rows copied are then never written)
    or negative. *)
Definition direction_row (location : list point) (i : nat) : point :=
  vscale (1 / norm (nth i location origin))
    (vsub (nth (S i) location origin) (nth (i - 1) location origin)).
Definition satellite_direction (location : list point) : outcome (list point) :=
  let n := length location in
  if (n <? 3)%nat then UB "rows never written or block out of range"
  else Ok (map (fun i => direction_row location (Nat.min (Nat.max i 1) (n - 2))) (seq 0 n)).

(** A 3x3 matrix is the triple of its rows. *)
Definition matrix3 : Type := point * point * point.
Definition apply3 (m : matrix3) (v : point) : point :=
  let '(r0, r1, r2) := m in (vdot r0 v, vdot r1 v, vdot r2 v).
Definition transpose3 (m : matrix3) : matrix3 :=
  let '(r0, r1, r2) := m in
  ((px r0, px r1, px r2), (py r0, py r1, py r2), (pz r0, pz r1, pz r2)).

(** Eigen, [normalized()]: a null vector is left unchanged. *)
Definition normalized (v : point) : point :=
  if Rltb 0 (vdot v v) then vscale (1 / norm v) v else v.

(** Eigen, [AngleAxis(angle, axis).toRotationMatrix()]. *)
Definition angle_axis (angle : R) (axis : point) : matrix3 :=
  let s := vscale (sin angle) axis in
  let c := cos angle in
  let k := vscale (1 - c) axis in
  let xy := px k * py axis in
  let xz := px k * pz axis in
  let yz := py k * pz axis in
  ((px k * px axis + c, xy - pz s, xz + py s),
   (xy + pz s, py k * py axis + c, yz - px s),
   (xz - py s, yz + px s, pz k * pz axis + c)).

(** orbit.hpp:43-49, [rotation_3d_matrix]. *)
Definition rotation_3d_matrix (theta : R) (axis : point) : matrix3 :=
  angle_axis theta (vscale (-1) (normalized axis)).

(** swath.hpp:59-77: the positions of the pixel [jx] of the row, on the right ([half_swath +
    jx]) and on the left ([half_swath - jx - 1]) of the track. *)
Definition pixel_right (loc dir : point) (radius delta_ac half_gap : R) (jx : nat) : point :=
  apply3 (rotation_3d_matrix (- (INR jx * delta_ac + half_gap) / radius) dir) loc.
Definition pixel_left (loc dir : point) (radius delta_ac half_gap : R) (jx : nat) : point :=
  apply3 (transpose3 (rotation_3d_matrix (- (INR jx * delta_ac + half_gap) / radius) dir)) loc.

(** One row of the result: the column [kx] is written once, by the pixel [kx - half_swath] on
    the right or [half_swath - kx - 1] on the left. *)
Definition swath_row (loc dir : point) (radius delta_ac half_gap : R) (half_swath : nat)
  : list point :=
  map (fun kx => if (kx <? half_swath)%nat
                 then pixel_left loc dir radius delta_ac half_gap (half_swath - kx - 1)
                 else pixel_right loc dir radius delta_ac half_gap (kx - half_swath))
      (seq 0 (2 * half_swath)).

(** swath.hpp:18-79, [calculate_swath]: the longitudes and latitudes of the pixels ([None] when
    the conversion gives NaN).  The check of the shapes is the first branch. *)
Definition calculate_swath (lon lat : list R) (delta_ac half_gap : R) (half_swath : nat)
    (s : spheroid) : outcome (list (list (option (R * R)))) :=
  if negb (length lon =? length lat)%nat then Throw "invalid_argument"
  else
    let location := map (fun p => lla_to_ecef s (fst p, snd p, 0)) (combine lon lat) in
    olet direction := satellite_direction location in
    Ok (map (fun ix =>
          map (fun q => match ecef_to_lla s q with
                        | Some lla => Some (px lla, py lla)
                        | None => None
                        end)
            (swath_row (nth ix location origin) (nth ix direction origin)
               (geocentric_radius s (nth ix lat 0)) delta_ac half_gap half_swath))
        (seq 0 (length location))).
