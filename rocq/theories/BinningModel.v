(** Model of the binning classes: include/pyinterp/binning.hpp,
    include/pyinterp/detail/math/binning.hpp and the operator [+] of src/pyinterp/binning.py.

    Simplifications: exact rationals instead of doubles; coordinates are finite (a NaN value [z]
    is [None] and is modelled, a NaN coordinate is not); the area of a ring on the ellipsoid
    (Boost.Geometry's geographic strategy) is a parameter [geo_area]. *)
From Verif Require Import Base MathModel AxisModel StatsModel.
Open Scope Z_scope.

(** ** Matrices of cells (Eigen; [operator()] is not checked in release builds) *)
Definition cells (A : Type) : Type := Z -> Z -> A.
Definition in_matrix (rows cols ix iy : Z) : bool := (0 <=? ix) && (ix <? rows) && (0 <=? iy) && (iy <? cols).
Definition upd {A : Type} (m : cells A) (ix iy : Z) (v : A) : cells A :=
  fun i j => if (i =? ix) && (j =? iy) then v else m i j.
(** [m(ix, iy)(...)]: apply [f] to the cell [(ix, iy)]. *)
Definition cell_update {A : Type} (rows cols : Z) (m : cells A) (ix iy : Z) (f : A -> A) : outcome (cells A) :=
  if in_matrix rows cols ix iy then Ok (upd m ix iy (f (m ix iy))) else UB "matrix access".

(** ** Areas of rings (detail/math/binning.hpp) *)
Record point : Type := Point { px : Q; py : Q }.
(** Boost.Geometry's [strategy::area::cartesian]: trapezes, positive when clockwise. *)
Fixpoint ring_sum (l : list point) : Q :=
  match l with
  | p1 :: ((p2 :: _) as t) => ((px p1 + px p2) * (py p1 - py p2) + ring_sum t)%Q
  | _ => 0%Q
  end.
Definition cartesian_area (l : list point) : Q := (ring_sum l / 2)%Q.

(** detail/math/binning.hpp:15-24. *)
Definition calculate_area (area : list point -> Q) (ring : list point) : Q :=
  let result := area ring in
  if Qltb result 0 then area (rev ring) else result.
(** :28-38. *)
Definition tiny : Q := 1 # 1000000000000.
Definition normalized_area (area : list point -> Q) (ring : list point) (total_area : Q) : Q :=
  let result := calculate_area area ring in
  if Qltb total_area result || Qltb (Qabs result) tiny then 0%Q else result.

(** :62-107 [binning_2d]; the four quotients are NaN or infinite when the cell has no area. *)
Definition binning_2d (area : list point -> Q) (pij p00 p11 : point) : num * num * num * num :=
  let p01 := Point (px p00) (py p11) in
  let p10 := Point (px p11) (py p00) in
  let p0j := Point (px p00) (py pij) in
  let pi1 := Point (px pij) (py p11) in
  let p1j := Point (px p11) (py pij) in
  let pi0 := Point (px pij) (py p00) in
  let total_area := calculate_area area [p00; p01; p11; p10; p00] in
  let area_a := normalized_area area [pij; p0j; p01; pi1; pij] total_area in
  let area_b := normalized_area area [pij; pi1; p11; p1j; pij] total_area in
  let area_c := normalized_area area [pij; pi0; p00; p0j; pij] total_area in
  let area_d := normalized_area area [pij; p1j; p10; pi0; pij] total_area in
  ((N area_b / N total_area)%num, (N area_d / N total_area)%num,
   (N area_c / N total_area)%num, (N area_a / N total_area)%num).

(** ** Binning2D *)
(** detail/geodetic/spheroid.hpp:177-180. *)
Record spheroid : Type := Spheroid { semi_major : Q; flattening : Q }.
Definition spheroid_eqb (a b : spheroid) : bool :=
  Qeq_bool (semi_major a) (semi_major b) && Qeq_bool (flattening a) (flattening b).

Record binning : Type := Binning {
  b_x : axis; b_y : axis; b_acc : cells acc; b_wgs : option spheroid }.
Definition b_rows (b : binning) : Z := c_size (a_cont (b_x b)).
Definition b_cols (b : binning) : Z := c_size (a_cont (b_y b)).
Definition with_acc (b : binning) (m : cells acc) : binning := Binning (b_x b) (b_y b) m (b_wgs b).

(** binning.hpp:44-50; DescriptiveStatistics is zero-initialised. *)
Definition new_binning (x y : axis) (wgs : option spheroid) : binning :=
  Binning x y (fun _ _ => acc_empty) wgs.
(** :99-101. *)
Definition clear (b : binning) : binning := with_acc b (fun _ _ => acc_empty).

(** A sample: coordinates and value. *)
Definition sample3 : Type := Q * Q * option Q.

(** :276-293, one iteration of [push_nearest]. *)
Definition push_nearest1 (b : binning) (s : sample3) : outcome binning :=
  let '(x, y, z) := s in
  match z with
  | None => Ok b
  | Some value =>
      olet ix := find_index (b_x b) x true in
      olet iy := find_index (b_y b) y true in
      if negb (ix =? -1) && negb (iy =? -1) then
        olet m := cell_update (b_rows b) (b_cols b) (b_acc b) ix iy (fun a => acc_push a (N value)) in
        Ok (with_acc b m)
      else Ok b
  end.

(** [std::numeric_limits<double>::epsilon()] and math.hpp:259-261 (false for a NaN). *)
Definition epsilon : Q := 1 # 4503599627370496.
Definition is_almost_zero (w : num) : bool := match w with N q => Qltb (Qabs q) epsilon | NaN => false end.
(** :299-305. *)
Definition update_acc (b : binning) (ix iy : Z) (value : Q) (weight : num) : outcome binning :=
  if is_almost_zero weight then Ok b
  else olet m := cell_update (b_rows b) (b_cols b) (b_acc b) ix iy (fun a => acc_push_weighted a (N value) weight) in
       Ok (with_acc b m).
(** detail/axis.hpp [operator()]: unchecked access to a coordinate. *)
Definition axis_at (a : axis) (i : Z) : outcome Q :=
  if (0 <=? i) && (i <? c_size (a_cont a)) then
    match c_value (a_cont a) i with Some v => Ok v | None => UB "axis access" end
  else UB "axis access".

(** :321-352, one iteration of [push_linear]. *)
Definition push_linear1 (area : list point -> Q) (b : binning) (s : sample3) : outcome binning :=
  let '(x, y, z) := s in
  match z with
  | None => Ok b
  | Some value =>
      olet x_indexes := find_indexes (b_x b) x in
      olet y_indexes := find_indexes (b_y b) y in
      match x_indexes, y_indexes with
      | Some (ix0, ix1), Some (iy0, iy1) =>
          olet x0 := axis_at (b_x b) ix0 in
          olet y0 := axis_at (b_y b) iy0 in
          olet x1 := axis_at (b_x b) ix1 in
          olet y1 := axis_at (b_y b) iy1 in
          let xn := if is_angle (b_x b) then normalize_angle x x0 360 else x in
          let '(w00, w01, w11, w10) := binning_2d area (Point xn y) (Point x0 y0) (Point x1 y1) in
          olet b := update_acc b ix0 iy0 value w00 in
          olet b := update_acc b ix0 iy1 value w01 in
          olet b := update_acc b ix1 iy1 value w11 in
          update_acc b ix1 iy0 value w10
      | _, _ => Ok b
      end
  end.

Fixpoint push_loop (step : binning -> sample3 -> outcome binning) (b : binning) (l : list sample3) : outcome binning :=
  match l with
  | [] => Ok b
  | s :: t => olet b := step b s in push_loop step b t
  end.

Section Geographic.
  Variable geo_area : spheroid -> list point -> Q.
  (** :72-96 [push]; the arrays have one dimension, their sizes are compared. *)
  Definition push (b : binning) (x y : list Q) (z : list (option Q)) (simple : bool) : outcome binning :=
    if negb (zlen x =? zlen y) || negb (zlen x =? zlen z) then Throw "could not be broadcast together with shape"
    else
      let step :=
        if simple then push_nearest1
        else match b_wgs b with
             | None => push_linear1 cartesian_area
             | Some wgs => push_linear1 (geo_area wgs)
             end in
      push_loop step b (combine (combine x y) z).
End Geographic.

(** :215-247 [operator+=]. *)
Definition merge_cell (lhs rhs : acc) : acc :=
  if (a_count lhs =? 0) && negb (a_count rhs =? 0) then rhs
  else if negb (a_count lhs =? 0) && negb (a_count rhs =? 0) then acc_merge lhs rhs
  else lhs.
Definition wgs_differ (a b : option spheroid) : bool :=
  match a, b with
  | None, None => false
  | Some u, Some v => negb (spheroid_eqb u v)
  | _, _ => true
  end.
Definition add_in_place (b other : binning) : outcome binning :=
  if negb (axis_eqb (b_x b) (b_x other)) || negb (axis_eqb (b_y b) (b_y other))
  then Throw "Unable to combine different grids"
  else if wgs_differ (b_wgs b) (b_wgs other) then Throw "Unable to combine different geodetic system"
  else Ok (with_acc b (fun i j => if in_matrix (b_rows b) (b_cols b) i j
                                  then merge_cell (b_acc b i j) (b_acc other i j)
                                  else b_acc b i j)).

(** ** Pickling *)
(** :167-172; the matrix of accumulators is pickled with its shape. *)
Record binning_state : Type := BinningState {
  bs_x : axis_state; bs_y : axis_state; bs_wgs : option (Q * Q); bs_rows : Z; bs_cols : Z; bs_acc : cells acc }.
Definition b_getstate (b : binning) : binning_state :=
  BinningState (getstate (b_x b)) (getstate (b_y b))
    (match b_wgs b with Some s => Some (semi_major s, flattening s) | None => None end)
    (b_rows b) (b_cols b) (b_acc b).
(** :175-212, for a tuple of size 4; line 192 assigns through an empty [std::optional]. *)
Definition b_setstate (s : binning_state) : outcome binning :=
  olet x := setstate (bs_x s) in
  olet y := setstate (bs_y s) in
  match bs_wgs s with
  | Some _ => UB "operator* of an empty optional"
  | None =>
      if negb (bs_rows s =? c_size (a_cont x)) || negb (bs_cols s =? c_size (a_cont y)) then Throw "invalid state"
      else Ok (Binning x y (bs_acc s) None)
  end.

(** ** Binning1D *)
Record binning1 : Type := Binning1 { b1_base : binning; b1_min : Q; b1_max : Q }.
(** :360-373. *)
Definition new_binning1 (x : axis) (range : option (Q * Q)) : outcome binning1 :=
  olet y := axis_regular 0 1 1 0 false in
  match range with
  | Some (lo, hi) => Ok (Binning1 (new_binning x y None) lo hi)
  | None =>
      match c_min (a_cont x), c_max (a_cont x) with
      | Some lo, Some hi => Ok (Binning1 (new_binning x y None) lo hi)
      | _, _ => UB "undefined axis"
      end
  end.
(** :379-412 [push]: the sizes of [z] and [weights] are not compared with that of [x]; reading
    beyond the end of an array is undefined. *)
Fixpoint push1_loop (b : binning1) (idx : Z) (xs : list Q) (z : list (option Q)) (weights : option (list Q)) : outcome binning1 :=
  match xs with
  | [] => Ok b
  | xi :: t =>
      match znth z idx with
      | None => UB "read beyond the end of z"
      | Some None => push1_loop b (idx + 1) t z weights
      | Some (Some value) =>
          if Qle_bool (b1_min b) xi && Qle_bool xi (b1_max b) then
            olet ix := find_index (b_x (b1_base b)) xi true in
            if ix =? -1 then push1_loop b (idx + 1) t z weights
            else
              olet weight := (match weights with
                              | None => Ok 1%Q
                              | Some w => match znth w idx with Some q => Ok q | None => UB "read beyond the end of weights" end
                              end) in
              olet m := cell_update (b_rows (b1_base b)) (b_cols (b1_base b)) (b_acc (b1_base b)) ix 0
                          (fun a => acc_push_weighted a (N value) (N weight)) in
              push1_loop (Binning1 (with_acc (b1_base b) m) (b1_min b) (b1_max b)) (idx + 1) t z weights
          else push1_loop b (idx + 1) t z weights
      end
  end.
Definition push1 (b : binning1) (x : list Q) (z : list (option Q)) (weights : option (list Q)) : outcome binning1 :=
  push1_loop b 0 x z weights.
(** :420-455. *)
Record binning1_state : Type := Binning1State {
  b1s_x : axis_state; b1s_rows : Z; b1s_cols : Z; b1s_acc : cells acc; b1s_range : Q * Q }.
Definition b1_getstate (b : binning1) : binning1_state :=
  Binning1State (getstate (b_x (b1_base b))) (b_rows (b1_base b)) (b_cols (b1_base b)) (b_acc (b1_base b)) (b1_min b, b1_max b).
Definition b1_setstate (s : binning1_state) : outcome binning1 :=
  olet x := setstate (b1s_x s) in
  if negb (b1s_rows s =? c_size (a_cont x)) || negb (b1s_cols s =? 1) then Throw "invalid state"
  else olet b := new_binning1 x (Some (b1s_range s)) in
       Ok (Binning1 (with_acc (b1_base b) (b1s_acc s)) (b1_min b) (b1_max b)).

(** ** The Python objects (src/pyinterp/binning.py, histogram2d.py, statistics/descriptive_descriptive.py) *)
(** A Python [Binning2D], [Binning1D], [Histogram2D] or [DescriptiveStatistics] holds a reference
    to a C++ instance (an index in the heap); the class defines no [__copy__], so [copy.copy]
    duplicates the Python object and not the instance. *)
Definition copy_copy (object : nat) : nat := object.
(** binning.py:93-99 and :284-290, histogram2d.py:104-110, descriptive_descriptive.py:138-153
    [__add__]: the reference held by the result, and the new heap. *)
Definition py_add {I : Type} (iadd : I -> I -> outcome I) (h : list I) (self other : nat) : outcome (list I * nat) :=
  let result := copy_copy self in
  match nth_error h result, nth_error h other with
  | Some r, Some o => olet r' := iadd r o in Ok (set_nth result r' h, result)
  | _, _ => UB "dangling reference"
  end.
