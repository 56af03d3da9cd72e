(** Model of the bilinear interpolation of a grid in the arithmetic of the machine (binary64, see FloatAxisModel.v), for two
    evenly spaced axes that are not angles.

    detail/axis.hpp:315-356, detail/math/bivariate.hpp:95-106, bivariate.hpp:68-103.  GridModel.v has the same functions in
    exact arithmetic. *)
From Coq Require Import ZArith.
From Flocq Require Import Core BinarySingleNaN.
From Verif Require Import Base FloatAxisModel.
Open Scope Z_scope.

Definition b_ltb (x y : b64) : bool := @Bltb 53 1024 x y.
(** container.hpp:124-126 (computed once by the constructor and negated by [flip]: the same value, C134_ordered). *)
Definition f_ascending (a : faxis) : bool := if f_size a <? 2 then true else b_ltb (f_value a 0) (f_value a 1).
(** axis.hpp:315-356, without the parts about circles. *)
Definition f_find_indexes (a : faxis) (coordinate : b64) : outcome (option (Z * Z)) :=
  let length := f_size a in
  olet i0 := f_find_index a coordinate false in
  if i0 =? -1 then Ok None
  else
    let delta := b_minus coordinate (f_value a i0) in
    let i1 := i0 in
    let '(i0, i1) :=
      if b_eqb delta (b_of_Z 0) then (if i1 =? length - 1 then (i0 - 1, i1) else (i0, i1 + 1))
      else if b_ltb delta (b_of_Z 0) then ((if f_ascending a then i0 - 1 else i0 + 1), i1)
      else (i0, (if f_ascending a then i1 + 1 else i1 - 1)) in
    if (0 <=? i0) && (i0 <? length) && (0 <=? i1) && (i1 <? length) then Ok (Some (i0, i1)) else Ok None.

(** detail/math/bivariate.hpp:95-106. *)
Definition f_bilinear (x y x0 y0 x1 y1 q00 q01 q10 q11 : b64) : b64 :=
  let dx := b_minus x1 x0 in
  let dy := b_minus y1 y0 in
  let t := b_div (b_minus x x0) dx in
  let u := b_div (b_minus y y0) dy in
  let one := b_of_Z 1 in
  b_plus (b_plus (b_plus (b_mult (b_mult (b_minus one t) (b_minus one u)) q00)
                         (b_mult (b_mult t (b_minus one u)) q10))
                 (b_mult (b_mult (b_minus one t) u) q01))
         (b_mult (b_mult t u) q11).

Record fgrid := FGrid { g_x : faxis; g_y : faxis; g_value : Z -> Z -> b64 }.
(** bivariate.hpp:68-103, [bounds_error] false; None: NaN. *)
Definition f_bivariate (g : fgrid) (x y : b64) : outcome (option b64) :=
  olet x_indexes := f_find_indexes (g_x g) x in
  olet y_indexes := f_find_indexes (g_y g) y in
  match x_indexes, y_indexes with
  | Some (ix0, ix1), Some (iy0, iy1) =>
      Ok (Some (f_bilinear x y (f_value (g_x g) ix0) (f_value (g_y g) iy0) (f_value (g_x g) ix1) (f_value (g_y g) iy1)
        (g_value g ix0 iy0) (g_value g ix0 iy1) (g_value g ix1 iy0) (g_value g ix1 iy1)))
  | _, _ => Ok None
  end.
