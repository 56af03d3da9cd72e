(** Model of [fill::loess] on 2-D grids (include/pyinterp/fill.hpp:390-501); the 3-D and 4-D
    versions (503-679) apply the same cell function [loess_] to each horizontal slice.

    Simplifications: exact rationals; NaN is [None]; the weight
    [d <= 1 ? pow(1 - pow(d, 3), 3) : 0] with [d = sqrt(d2)] is not a rational function, so
    it is a parameter [tricube] applied to [d2]; the cells of the result are computed
    independently of each other (threads share only the input), hence one cell at a time. *)
From Verif Require Import Base MathModel FillModel.
Open Scope Z_scope.

Inductive value_type := Undefined | Defined | All.
(** fill.hpp:434-436 *)
Definition processed (vt : value_type) (z : option Q) : bool :=
  match vt, z with
  | All, _ => true
  | Defined, Some _ => true
  | Undefined, None => true
  | _, _ => false
  end.

Section Loess.
  Variable tricube : Q -> Q.
  (** Coordinates of the two axes, whether x is an angle, the half window sizes, and the
      values of the grid. *)
  Variables (xa ya : list Q) (x_angle : bool) (nx ny : Z) (grid : Z -> Z -> option Q).

  Definition coordinate (a : list Q) (i : Z) : outcome Q :=
    match znth a i with Some v => Ok v | None => UB "axis coordinate" end.
  (** fill.hpp:423-425, 453-455: coordinates normalised to the first one of the window. *)
  Definition norm_x (x0 x : Q) : Q := if x_angle then normalize_angle x x0 360 else x.
  (** fill.hpp:464-466: the squared distance. *)
  Definition dist2 (x y xi yi : Q) : Q :=
    ((xi - x) / inject_Z nx * ((xi - x) / inject_Z nx) + (yi - y) / inject_Z ny * ((yi - y) / inject_Z ny))%Q.

  (** fill.hpp:457-473: inner loop over the y frame. *)
  Fixpoint loop_y (x y xi : Q) (wx : Z) (wys : list Z) (acc : Q * Q) : outcome (Q * Q) :=
    match wys with
    | [] => Ok acc
    | wy :: t =>
        match grid wx wy with
        | Some zi =>
            olet yi := coordinate ya wy in
            let wi := tricube (dist2 x y xi yi) in
            loop_y x y xi wx t (fst acc + wi * zi, snd acc + wi)%Q
        | None => loop_y x y xi wx t acc
        end
    end.
  (** fill.hpp:449-475 *)
  Fixpoint loop_x (x0 x y : Q) (wxs wys : list Z) (acc : Q * Q) : outcome (Q * Q) :=
    match wxs with
    | [] => Ok acc
    | wx :: t =>
        olet xi := coordinate xa wx in
        olet acc' := loop_y x y (norm_x x0 xi) wx wys acc in
        loop_x x0 x y t wys acc'
    end.
  (** fill.hpp:412-486 for the cell (ix, iy). *)
  Definition loess_cell (vt : value_type) (ix iy : Z) : outcome (option Q) :=
    olet x := coordinate xa ix in
    olet xf := frame_index ix (zlen xa) x_angle (nx * 2 + 1) in
    olet x0 := coordinate xa (hd 0 xf) in
    let z := grid ix iy in
    if processed vt z then
      olet y := coordinate ya iy in
      olet yf := frame_index iy (zlen ya) false (ny * 2 + 1) in
      olet (value, weight) := loop_x x0 (norm_x x0 x) y xf yf (0, 0)%Q in
      if Qeq_bool weight 0 then Ok z else Ok (Some (value / weight)%Q)
    else Ok z.
End Loess.

(** fill.hpp:375-388, [check_windows_size], and the whole call on a cell. *)
Definition loess (tricube : Q -> Q) (xa ya : list Q) (x_angle : bool) (nx ny : Z) (grid : Z -> Z -> option Q)
    (vt : value_type) (ix iy : Z) : outcome (option Q) :=
  if nx <? 1 then Throw "nx must be >= 1"
  else if ny <? 1 then Throw "ny must be >= 1"
  else loess_cell tricube xa ya x_angle nx ny grid vt ix iy.
