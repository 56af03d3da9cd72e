(** Model of the trivariate and quadrivariate interpolations of grids in the arithmetic of the machine (binary64, see
    FloatGridModel.v), for evenly spaced axes that are not angles and the bilinear interpolator.

    detail/math/linear.hpp, detail/math/trivariate.hpp, trivariate.hpp:26-72, quadrivariate.hpp:40-115.  GridModel.v has the same
    functions in exact arithmetic. *)
From Coq Require Import ZArith.
From Flocq Require Import Core BinarySingleNaN.
From Verif Require Import Base FloatAxisModel FloatGridModel.
Open Scope string_scope.
Open Scope Z_scope.

Definition b_nan : b64 := B754_nan.
(** detail/math/linear.hpp:24-36, floating point axes. *)
Definition f_linear (x x0 x1 y0 y1 : b64) : b64 :=
  let dx := b_minus x1 x0 in
  if b_eqb dx (b_of_Z 0) then (if b_eqb x x0 then y0 else b_nan)
  else
    let t := b_div (b_minus x1 x) dx in
    let u := b_div (b_minus x x0) dx in
    b_plus (b_mult t y0) (b_div (b_mult u y1) (b_plus t u)).
(** The same function for the dates (int64): the differences are computed with integers, then converted. *)
Definition i64_minus (x y : Z) : outcome Z := if (- 2 ^ 63 <=? x - y) && (x - y <? 2 ^ 63) then Ok (x - y) else UB "overflow of int64_t".
Definition f_linear_date (x x0 x1 : Z) (y0 y1 : b64) : outcome b64 :=
  olet d := i64_minus x1 x0 in
  let dx := b_of_Z d in
  if b_eqb dx (b_of_Z 0) then Ok (if x =? x0 then y0 else b_nan)
  else
    olet n := i64_minus x1 x in
    let t := b_div (b_of_Z n) dx in
    olet m := i64_minus x x0 in
    let u := b_div (b_of_Z m) dx in
    Ok (b_plus (b_mult t y0) (b_div (b_mult u y1) (b_plus t u))).

(** detail/math/trivariate.hpp:110-124. *)
Definition f_trilinear (x y z x0 y0 z0 x1 y1 z1 q000 q010 q100 q110 q001 q011 q101 q111 : b64) : b64 :=
  let v0 := f_bilinear x y x0 y0 x1 y1 q000 q010 q100 q110 in
  let v1 := f_bilinear x y x0 y0 x1 y1 q001 q011 q101 q111 in
  f_linear z z0 z1 v0 v1.

Record fgrid3 := FGrid3 { g3_x : faxis; g3_y : faxis; g3_z : faxis; g3_value : Z -> Z -> Z -> b64 }.
(** trivariate.hpp:26-72, [bounds_error] false; None: NaN. *)
Definition f_trivariate (g : fgrid3) (x y z : b64) : outcome (option b64) :=
  olet x_indexes := f_find_indexes (g3_x g) x in
  olet y_indexes := f_find_indexes (g3_y g) y in
  olet z_indexes := f_find_indexes (g3_z g) z in
  match x_indexes, y_indexes, z_indexes with
  | Some (ix0, ix1), Some (iy0, iy1), Some (iz0, iz1) =>
      let v := g3_value g in
      Ok (Some (f_trilinear x y z (f_value (g3_x g) ix0) (f_value (g3_y g) iy0) (f_value (g3_z g) iz0)
        (f_value (g3_x g) ix1) (f_value (g3_y g) iy1) (f_value (g3_z g) iz1)
        (v ix0 iy0 iz0) (v ix0 iy1 iz0) (v ix1 iy0 iz0) (v ix1 iy1 iz0)
        (v ix0 iy0 iz1) (v ix0 iy1 iz1) (v ix1 iy0 iz1) (v ix1 iy1 iz1)))
  | _, _, _ => Ok None
  end.

Record fgrid4 := FGrid4 { g4_x : faxis; g4_y : faxis; g4_z : faxis; g4_u : faxis; g4_value : Z -> Z -> Z -> Z -> b64 }.
(** quadrivariate.hpp:40-115. *)
Definition f_quadrivariate (g : fgrid4) (x y z u : b64) : outcome (option b64) :=
  olet x_indexes := f_find_indexes (g4_x g) x in
  olet y_indexes := f_find_indexes (g4_y g) y in
  olet z_indexes := f_find_indexes (g4_z g) z in
  olet u_indexes := f_find_indexes (g4_u g) u in
  match x_indexes, y_indexes, z_indexes, u_indexes with
  | Some (ix0, ix1), Some (iy0, iy1), Some (iz0, iz1), Some (iu0, iu1) =>
      let v := g4_value g in
      let tri iu := f_trilinear x y z (f_value (g4_x g) ix0) (f_value (g4_y g) iy0) (f_value (g4_z g) iz0)
        (f_value (g4_x g) ix1) (f_value (g4_y g) iy1) (f_value (g4_z g) iz1)
        (v ix0 iy0 iz0 iu) (v ix0 iy1 iz0 iu) (v ix1 iy0 iz0 iu) (v ix1 iy1 iz0 iu)
        (v ix0 iy0 iz1 iu) (v ix0 iy1 iz1 iu) (v ix1 iy0 iz1 iu) (v ix1 iy1 iz1 iu) in
      Ok (Some (f_linear u (f_value (g4_u g) iu0) (f_value (g4_u g) iu1) (tri iu0) (tri iu1)))
  | _, _, _, _ => Ok None
  end.
