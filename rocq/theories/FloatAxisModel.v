(** Model of the evenly spaced axes in the arithmetic of the machine: binary64 numbers of Flocq (finite, infinite, NaN), every
    operation rounded to the nearest even.  AxisModel.v has the same functions in exact arithmetic.

    detail/axis/container.hpp:380-538 ([AbstractRegular<double>], [Regular<double>]), axis.hpp:198-207,251-256.
    Assumption: the compiler evaluates each operation separately (no fused multiply-add). *)
From Coq Require Import ZArith.
From Flocq Require Import Core BinarySingleNaN.
From Verif Require Import Base.
Open Scope Z_scope.

Definition b64_prec : Prec_gt_0 53 := eq_refl.
Definition b64_emax : Prec_lt_emax 53 1024 := eq_refl.
Notation b64 := (binary_float 53 1024).
Notation real := (@B2R 53 1024).
Notation finite := (@is_finite 53 1024).
Definition b_plus (x y : b64) : b64 := @Bplus 53 1024 b64_prec b64_emax mode_NE x y.
Definition b_minus (x y : b64) : b64 := @Bminus 53 1024 b64_prec b64_emax mode_NE x y.
Definition b_mult (x y : b64) : b64 := @Bmult 53 1024 b64_prec b64_emax mode_NE x y.
Definition b_div (x y : b64) : b64 := @Bdiv 53 1024 b64_prec b64_emax mode_NE x y.
Definition b_opp (x : b64) : b64 := @Bopp 53 1024 x.
Definition b_eqb (x y : b64) : bool := @Beqb 53 1024 x y.
(** Conversion of an integer: to the nearest. *)
Definition b_of_Z (n : Z) : b64 := @binary_normalize 53 1024 b64_prec b64_emax mode_NE n 0 false.

(** [std::round]: the nearest integer, halves away from zero; exact.  None: infinite or NaN. *)
Definition std_round (x : b64) : option Z :=
  match x with
  | B754_zero _ => Some 0
  | B754_finite s m e _ =>
      let v := if 0 <=? e then Zpos m * 2 ^ e else (2 * Zpos m + 2 ^ (- e)) / 2 ^ (1 - e) in
      Some (if s then - v else v)
  | _ => None
  end.
(** [static_cast<int64_t>]: undefined out of the range of the type. *)
Definition to_int64 (x : option Z) : outcome Z :=
  match x with
  | Some n => if (- 2 ^ 63 <=? n) && (n <? 2 ^ 63) then Ok n else UB "conversion to int64_t"
  | None => UB "conversion to int64_t"
  end.

(** [inv_step_] is computed once. *)
Record faxis := FAxis { f_size : Z; f_start : b64; f_step : b64; f_inv : b64 }.

(** container.hpp:380-394,508-511.  [num] (a floating point number in the code) holds a number of points. *)
Definition f_regular (start stop : b64) (num : Z) : outcome faxis :=
  if num =? 0 then Throw "unable to create an empty container."
  else if b_eqb start stop then Throw "unable to create a container with a single value."
  else
    let step := if num =? 1 then b_minus stop start else b_div (b_minus stop start) (b_minus (b_of_Z num) (b_of_Z 1)) in
    Ok (FAxis num start step (b_div (b_of_Z 1) step)).
(** :432-435. *)
Definition f_value (a : faxis) (index : Z) : b64 := b_plus (f_start a) (b_mult (b_of_Z index) (f_step a)).
(** :462-464. *)
Definition f_front (a : faxis) : b64 := f_start a.
(** :467-469. *)
Definition f_back (a : faxis) : b64 := f_value a (f_size a - 1).
(** :515-527. *)
Definition f_find_index (a : faxis) (coordinate : b64) (bounded : bool) : outcome Z :=
  olet index := to_int64 (std_round (b_mult (b_minus coordinate (f_start a)) (f_inv a))) in
  if index <? 0 then Ok (if bounded then 0 else -1)
  else if f_size a <=? index then Ok (if bounded then f_size a - 1 else -1)
  else Ok index.
(** :425-429,530-533. *)
Definition f_flip (a : faxis) : faxis := FAxis (f_size a) (f_back a) (b_opp (f_step a)) (b_opp (f_inv a)).
(** :475-484. *)
Definition f_equal_axes (a b : faxis) : bool :=
  b_eqb (f_step b) (f_step a) && b_eqb (f_start b) (f_start a) && (f_size b =? f_size a).
(** axis.hpp:198-207,251-256: the state of pickle is the first point, the last point and the size. *)
Definition f_getstate (a : faxis) : b64 * b64 * Z := (f_front a, f_back a, f_size a).
Definition f_setstate (state : b64 * b64 * Z) : outcome faxis := let '(start, stop, num) := state in f_regular start stop num.
