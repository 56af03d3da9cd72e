(** Specification vocabulary for the loess filter. *)
From Verif Require Import Base MathModel FillSpec LoessModel.
Open Scope Z_scope.

(** Column (row) of the grid that stands for index [i] of the window: wrapped around on an
    angular axis, mirrored otherwise. *)
Definition window_index (angle : bool) (size i : Z) : Z := if angle then i mod size else mirror size i.
(** [(wx, wy)] is in the window of half sizes [nx], [ny] around [(ix, iy)]. *)
Definition in_window (angle : bool) (sx sy nx ny ix iy wx wy : Z) : Prop :=
  exists dx dy, - nx <= dx <= nx /\ - ny <= dy <= ny /\ wx = window_index angle sx (ix + dx) /\ wy = mirror sy (iy + dy).
(** Axis sizes on which the windows are defined. *)
Definition sizes_ok (angle : bool) (xa ya : list Q) : Prop :=
  2 <= zlen ya /\ (if angle then 1 <= zlen xa else 2 <= zlen xa).
(** Squared distance, in window units, between cell [(ix, iy)] and cell [(wx, wy)] of its
    window; on an angular axis longitudes are first brought within 360 degrees of the first
    longitude [x0] of the window. *)
Definition window_dist2 (xa ya : list Q) (angle : bool) (nx ny ix iy wx wy : Z) (d2 : Q) : Prop :=
  exists x0 x y xi yi,
    znth xa (window_index angle (zlen xa) (ix - nx)) = Some x0 /\ znth xa ix = Some x /\ znth ya iy = Some y /\
    znth xa wx = Some xi /\ znth ya wy = Some yi /\
    let u := if angle then normalize_angle x x0 360 else x in
    let v := if angle then normalize_angle xi x0 360 else xi in
    d2 = ((v - u) / inject_Z nx * ((v - u) / inject_Z nx) + (yi - y) / inject_Z ny * ((yi - y) / inject_Z ny))%Q.
(** A defined cell of the window with a non-zero weight. *)
Definition weighs (tricube : Q -> Q) (xa ya : list Q) (angle : bool) (nx ny : Z) (grid : Z -> Z -> option Q) (ix iy wx wy : Z) : Prop :=
  in_window angle (zlen xa) (zlen ya) nx ny ix iy wx wy /\ grid wx wy <> None /\
  exists d2, window_dist2 xa ya angle nx ny ix iy wx wy d2 /\ ~ (tricube d2 == 0)%Q.

(** Sum of [f] over the integers [-h, ..., h]. *)
Definition sum_window (h : Z) (f : Z -> Q) : Q :=
  fold_right (fun k s => (f (Z.of_nat k - h)%Z + s)%Q) 0%Q (seq 0 (Z.to_nat (2 * h + 1))).
(** [m wx wy w z]: the weight and the value of a window cell; weight 0 when undefined. *)
Definition window_weight (tricube : Q -> Q) (xa ya : list Q) (angle : bool) (nx ny : Z) (grid : Z -> Z -> option Q) (ix iy wx wy : Z) : Q :=
  match grid wx wy, znth xa (window_index angle (zlen xa) (ix - nx)), znth xa ix, znth ya iy, znth xa wx, znth ya wy with
  | Some _, Some x0, Some x, Some y, Some xi, Some yi =>
      let u := if angle then normalize_angle x x0 360 else x in
      let v := if angle then normalize_angle xi x0 360 else xi in
      tricube ((v - u) / inject_Z nx * ((v - u) / inject_Z nx) + (yi - y) / inject_Z ny * ((yi - y) / inject_Z ny))%Q
  | _, _, _, _, _, _ => 0%Q
  end.
Definition window_value (grid : Z -> Z -> option Q) (wx wy : Z) : Q := match grid wx wy with Some z => z | None => 0%Q end.
(** Total of [g wx wy] over the window of [(ix, iy)], cells repeated by the mirror or the
    wrap counted as often as they appear. *)
Definition total_window (angle : bool) (sx sy nx ny ix iy : Z) (g : Z -> Z -> Q) : Q :=
  sum_window nx (fun dx => sum_window ny (fun dy => g (window_index angle sx (ix + dx)) (mirror sy (iy + dy)))).
