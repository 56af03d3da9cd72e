(** Model of the evenly spaced axes that are angles, in the arithmetic of the machine (binary64, see FloatAxisModel.v and
    FloatGridModel.v).

    detail/math.hpp:101-130,277-290, detail/axis.hpp:183-192,246-288,315-356,492-521, detail/axis/container.hpp:462-469 ([min_value]),
    bivariate.hpp:73-103.  AxisModel.v and GridModel.v have the same functions in exact arithmetic. *)
From Coq Require Import ZArith.
From Flocq Require Import Core BinarySingleNaN.
From Verif Require Import Base FloatAxisModel FloatGridModel.
Open Scope Z_scope.

Definition b_leb (x y : b64) : bool := @Bleb 53 1024 x y.
Definition b_abs (x : b64) : b64 := @Babs 53 1024 x.
(** The integer nearest to [a / b] ([b > 0]), the even one of two. *)
Definition nearest_even (a b : Z) : Z :=
  let q := a / b in
  let r := a mod b in
  if 2 * r <? b then q else if b <? 2 * r then q + 1 else if Z.even q then q else q + 1.
(** [std::remainder]: exact. *)
Definition b_std_remainder (x y : b64) : b64 :=
  match x, y with
  | B754_finite s m e _, B754_finite _ m' e' _ =>
      let e0 := Z.min e e' in
      let a := (if s then Zneg m else Zpos m) * 2 ^ (e - e0) in
      let b := Zpos m' * 2 ^ (e' - e0) in
      @binary_normalize 53 1024 b64_prec b64_emax mode_NE (a - nearest_even a b * b) e0 s
  | B754_zero _, B754_finite _ _ _ _ => x
  | B754_zero _, B754_infinity _ => x
  | B754_finite _ _ _ _, B754_infinity _ => x
  | _, _ => B754_nan
  end.
(** detail/math.hpp:111-119. *)
Definition b_remainder (x y : b64) : b64 :=
  let result := b_std_remainder x y in
  if b_ltb result (b_of_Z 0) then b_plus result y else result.
(** detail/math.hpp:127-130. *)
Definition b_normalize_angle (x mn circle : b64) : b64 := b_plus (b_remainder (b_minus x mn) circle) mn.

Definition circle : b64 := b_of_Z 360.
(** [c_angle]: [circle_] is 360. *)
Record caxis := CAxis { c_axis : faxis; c_angle : bool; c_circle : bool }.
(** math.hpp:277-290. *)
Definition b_is_same (a b epsilon : b64) : bool :=
  let diff := b_abs (b_minus a b) in
  if b_leb diff epsilon then true
  else b_ltb diff (b_mult (if b_leb (b_abs a) (b_abs b) then b_abs b else b_abs a) epsilon).
(** axis.hpp:53-59,492-521 for an evenly spaced axis. *)
Definition c_make (a : faxis) (is_angle : bool) (epsilon : b64) : caxis :=
  CAxis a is_angle (is_angle && b_is_same (b_abs (b_mult (f_step a) (b_of_Z (f_size a)))) circle epsilon).
(** container.hpp:180-182. *)
Definition c_min (a : caxis) : b64 := f_value (c_axis a) (if f_ascending (c_axis a) then 0 else f_size (c_axis a) - 1).
(** axis.hpp:252-258. *)
Definition c_normalize_from (a : caxis) (coordinate mn : b64) : b64 :=
  if c_angle a && (b_leb (b_plus mn circle) coordinate || b_ltb coordinate mn) then b_normalize_angle coordinate mn circle else coordinate.
(** :263-266. *)
Definition c_normalize (a : caxis) (coordinate : b64) : b64 := c_normalize_from a coordinate (c_min a).
(** :277-280. *)
Definition c_find_index (a : caxis) (coordinate : b64) (bounded : bool) : outcome Z := f_find_index (c_axis a) (c_normalize a coordinate) bounded.
(** :315-356. *)
Definition c_find_indexes (a : caxis) (coordinate : b64) : outcome (option (Z * Z)) :=
  let coordinate := c_normalize a coordinate in
  let length := f_size (c_axis a) in
  olet i0 := c_find_index a coordinate false in
  if i0 =? -1 then Ok (if c_circle a then Some (length - 1, 0) else None)
  else
    let delta := b_minus coordinate (f_value (c_axis a) i0) in
    let i1 := i0 in
    let wrap i := if c_circle a then i mod length else i in
    let '(i0, i1) :=
      if b_eqb delta (b_of_Z 0) then (if i1 =? length - 1 then (i0 - 1, i1) else (i0, i1 + 1))
      else if b_ltb delta (b_of_Z 0) then (wrap (if f_ascending (c_axis a) then i0 - 1 else i0 + 1), i1)
      else (i0, wrap (if f_ascending (c_axis a) then i1 + 1 else i1 - 1)) in
    if (0 <=? i0) && (i0 <? length) && (0 <=? i1) && (i1 <? length) then Ok (Some (i0, i1)) else Ok None.

Record cgrid := CGrid { cg_x : caxis; cg_y : faxis; cg_value : Z -> Z -> b64 }.
(** bivariate.hpp:73-103, bilinear interpolator, [bounds_error] false; None: NaN. *)
Definition c_bivariate (g : cgrid) (x y : b64) : outcome (option b64) :=
  olet x_indexes := c_find_indexes (cg_x g) x in
  olet y_indexes := f_find_indexes (cg_y g) y in
  match x_indexes, y_indexes with
  | Some (ix0, ix1), Some (iy0, iy1) =>
      let a := c_axis (cg_x g) in
      let x0 := f_value a ix0 in
      Ok (Some (f_bilinear (c_normalize_from (cg_x g) x x0) y x0 (f_value (cg_y g) iy0) (f_value a ix1) (f_value (cg_y g) iy1)
        (cg_value g ix0 iy0) (cg_value g ix0 iy1) (cg_value g ix1 iy0) (cg_value g ix1 iy1)))
  | _, _ => Ok None
  end.
