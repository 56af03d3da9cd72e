(** Model of the class [GeoHash] (include/pyinterp/geohash.hpp, module/geohash.cpp,
    src/pyinterp/_geohash.py), of the array functions [geohash.encode] / [geohash.decode]
    (lib/geohash/string.cpp, module/geohash/string.cpp) and of
    [geohash.converter.to_xarray] (src/pyinterp/geohash/converter.py).

    An object is its code, a list of characters.  Coordinates are rationals, as in
    GeohashModel.v; [bmi2] is the processor feature selected at start-up.
    [uint32_t] products such as [precision * 5] are not truncated. *)
From Verif Require Import Base MathModel AxisModel GeohashModel.
From Coq Require Import Ascii.
Open Scope Z_scope.

(* ------------------------------------------------------------------ *)
(** * The class of the C++ core *)

(** geohash.hpp:54-62: constructor; the longitude is reduced to [-180, 180[. *)
Definition ghc_make (bmi2 : bool) (lon lat : Q) (precision : Z) : outcome (list ascii) :=
  if 12 <? precision then Throw "GeoHash precision must be <= 12"
  else str_encode bmi2 (Point (normalize_angle lon (-(180)) 360) lat) precision.

(** geohash.hpp:70-83. *)
Definition ghc_from_string (bmi2 : bool) (code : list ascii) (round : bool) : outcome (list ascii) :=
  let precision := zlen code in
  if 12 <? precision then Throw "GeoHash precision must be <= 12"
  else if negb (b32_validate code) then Throw "GeoHash is not valid"
  else olet pt := str_decode bmi2 code round in str_encode bmi2 pt precision.

(** geohash.hpp:86-88. *)
Definition ghc_bounding_box (bmi2 : bool) (code : list ascii) : outcome box :=
  str_bounding_box bmi2 code.
(** geohash.hpp:91-93. *)
Definition ghc_center (bmi2 : bool) (code : list ascii) : outcome point :=
  olet b := ghc_bounding_box bmi2 code in Ok (centroid b).
(** geohash.hpp:101-108. *)
Definition ghc_precision (code : list ascii) : Z := zlen code.
Definition ghc_number_of_bits (code : list ascii) : Z := ghc_precision code * 5.

(** geohash.hpp:111-114. *)
Definition ghc_integer_value (bmi2 : bool) (code : list ascii) (round : bool) : outcome Z :=
  olet pt := str_decode bmi2 code round in gh_encode bmi2 pt (ghc_number_of_bits code).

(** geohash.hpp:119-129. *)
Definition ghc_neighbors (bmi2 : bool) (code : list ascii) : outcome (list (list ascii)) :=
  olet v := ghc_integer_value bmi2 code false in
  olet l := gh_neighbors bmi2 v (ghc_number_of_bits code) in
  oseq (map (fun h => ghc_from_string bmi2 (b32_encode h (Z.to_nat (ghc_precision code))) false) l).

(** geohash.hpp:143-151: no check of the precision before the computation. *)
Definition ghc_grid_properties (bmi2 : bool) (b : box) (precision : Z)
  : outcome (list ascii * Z * Z) :=
  olet (code, lng_boxes, lat_boxes) := grid_properties bmi2 b (precision * 5) in
  olet pt := gh_decode bmi2 code (precision * 5) false in
  olet c := ghc_make bmi2 (p_lon pt) (p_lat pt) precision in
  Ok (c, lng_boxes, lat_boxes).

(** geohash.hpp:155-161. *)
Definition ghc_error_with_precision (precision : Z) : outcome (Q * Q) :=
  if 12 <? precision then Throw "GeoHash precision must be <= 12"
  else Ok (error_with_precision (precision * 5)).

(** geohash.hpp:164-167. *)
Definition ghc_reduce (bmi2 : bool) (code : list ascii) : outcome (Q * Q * Z) :=
  olet p := ghc_center bmi2 code in Ok (p_lon p, p_lat p, ghc_precision code).

(* ------------------------------------------------------------------ *)
(** * The Python class *)

(** _geohash.py:88-103 [GeoHash.from_string]. *)
Definition pgh_from_string (bmi2 : bool) (code : list ascii) (round : bool) : outcome (list ascii) :=
  olet c := ghc_from_string bmi2 code round in
  olet (lon, lat, precision) := ghc_reduce bmi2 c in
  ghc_make bmi2 lon lat precision.

(** lib/geohash/string.cpp:79-99 and module/geohash/string.cpp:28-36 [geohash.encode]. *)
Definition str_encode_array (bmi2 : bool) (lon lat : list Q) (precision : Z)
  : outcome (list (list ascii)) :=
  if 12 <? precision then Throw "precision must be within [1, 12]"
  else if negb (zlen lon =? zlen lat) then Throw "lon, lat could not be broadcast together"
  else oseq (map (fun p : Q * Q =>
               str_encode bmi2 (Point (normalize_angle (fst p) (-(180)) 360) (snd p)) precision)
             (combine lon lat)).

(** lib/geohash/string.cpp:19-52, 127-144 [geohash.decode] of a one-dimensional C-contiguous
    array of type S[itemsize]: every code has [itemsize] bytes (the stride of the buffer is
    used as the length of the codes, which C-contiguity makes the same thing). *)
Definition str_decode_array (bmi2 : bool) (itemsize : Z) (codes : list (list ascii)) (round : bool)
  : outcome (list Q * list Q) :=
  if 12 <? itemsize then Throw "hash length must be within [1, 12]"
  else olet pts := oseq (map (fun c => str_decode bmi2 c round) codes) in
       Ok (map p_lon pts, map p_lat pts).

(* ------------------------------------------------------------------ *)
(** * [GeoHash.grid] (_geohash.py:44-86) *)

(** A dataset variable: the coordinates of its two dimensions, with their attribute
    "units", and its values (rows along the first dimension). *)
Record hash_grid (V : Type) := mk_hash_grid {
  hg_lon : list Q; hg_lon_units : string;
  hg_lat : list Q; hg_lat_units : string;
  hg_rows : list (list V) }.
Arguments mk_hash_grid {V}. Arguments hg_lon {V}. Arguments hg_lat {V}.
Arguments hg_lon_units {V}. Arguments hg_lat_units {V}. Arguments hg_rows {V}.

(** [numpy.reshape] of a vector to [n] rows of [m] values. *)
Fixpoint reshape_rows {V : Type} (n m : nat) (l : list V) : list (list V) :=
  match n with
  | O => []
  | S n' => firstn m l :: reshape_rows n' m (skipn m l)
  end.
Definition reshape {V : Type} (n m : Z) (l : list V) : outcome (list (list V)) :=
  if zlen l =? n * m then Ok (reshape_rows (Z.to_nat n) (Z.to_nat m) l)
  else Throw "cannot reshape array".

(** box.hpp [Box::whole_earth]. *)
Definition whole_earth : box := Box (Point (-180) (-90)) (Point 180 90).

(** _geohash.py:58-86.  [box or Box.whole_earth()]; the array of codes has the dtype
    S[precision]. *)
Definition pgh_grid (bmi2 : bool) (b : option box) (precision : Z) : outcome (hash_grid (list ascii)) :=
  let bbox := match b with Some b => b | None => whole_earth end in
  olet (_, nlon, nlat) := ghc_grid_properties bmi2 bbox precision in
  olet codes := (if 12 <? precision then Throw "precision must be within [1, 12]"
                 else str_bounding_boxes bmi2 bbox precision) in
  olet rows := reshape nlat nlon codes in
  let grid := rev rows in                                     (* numpy.flip(axis=0) *)
  match rev grid with
  | [] => Throw "IndexError"                                  (* grid[-1, :] *)
  | bottom :: _ =>
      olet (lon, _) := str_decode_array bmi2 precision bottom false in
      olet col := oseq (map (fun r => match r with [] => Throw "IndexError" | c :: _ => Ok c end) grid) in
      olet (_, lat) := str_decode_array bmi2 precision col false in
      Ok (mk_hash_grid lon "degrees_north" lat "degrees_east" grid)
  end.

(* ------------------------------------------------------------------ *)
(** * [to_xarray] (converter.py:12-54) *)

(** _geohash.py:107-108 [__reduce__]: pickling rebuilds the object from its centre. *)
Definition pgh_unpickle (bmi2 : bool) (code : list ascii) : outcome (list ascii) :=
  olet (lon, lat, precision) := ghc_reduce bmi2 code in ghc_make bmi2 lon lat precision.

(** [numpy.unique] of real numbers: sorted, without duplicates. *)
Fixpoint insert_unique (x : Q) (l : list Q) : list Q :=
  match l with
  | [] => [x]
  | y :: t => if Qltb x y then x :: l else if Qeq_bool x y then l else y :: insert_unique x t
  end.
Definition np_unique (l : list Q) : list Q := fold_right insert_unique [] l.

(** Values of an axis, as an array: axis.hpp [coordinate_values(0, size())]. *)
Definition axis_values (a : axis) : outcome (list Q) := slice a 0 (c_size (a_cont a)).

(** [grid\[iy, ix\] = data]: numpy wraps negative indices, refuses those out of range, and
    writes the elements in order. *)
Definition wrap_index (n i : Z) : outcome Z :=
  if (- n <=? i) && (i <? n) then Ok (if i <? 0 then i + n else i)
  else Throw "IndexError".
Definition set_nth {A : Type} (l : list A) (i : Z) (a : A) : list A :=
  firstn (Z.to_nat i) l ++ (if i <? zlen l then a :: skipn (S (Z.to_nat i)) l else []).
Definition set_cell {V : Type} (rows : list (list V)) (iy ix : Z) (v : V) : list (list V) :=
  set_nth rows iy (set_nth (nth (Z.to_nat iy) rows []) ix v).
Fixpoint set_cells {V : Type} (ny nx : Z) (rows : list (list V)) (l : list (Z * Z * V))
  : outcome (list (list V)) :=
  match l with
  | [] => Ok rows
  | (iy, ix, v) :: t =>
      olet iy := wrap_index ny iy in
      olet ix := wrap_index nx ix in
      set_cells ny nx (set_cell rows iy ix v) t
  end.

(** converter.py:12-54.  [init] is the initial value of the cells (0 for numbers, None for
    objects); [epsilon] the default of the constructor of [Axis], 1e-6.  [same_shape] is the
    test of the shapes (one-dimensional arrays here), the type of [hashes] is S[itemsize]. *)
Definition to_xarray {V : Type} (bmi2 : bool) (init : V) (itemsize : Z)
    (hashes : list (list ascii)) (data : list V) : outcome (hash_grid V) :=
  if negb (zlen hashes =? zlen data)
  then Throw "hashes, data could not be broadcast together"
  else
    olet all := (if 12 <? itemsize then Throw "precision must be within [1, 12]"
                 else str_bounding_boxes bmi2 whole_earth itemsize) in
    olet (lon, lat) := str_decode_array bmi2 itemsize all false in
    olet x_axis := axis_of_values (np_unique lon) (1 # 1000000) true in
    olet y_axis := axis_of_values (np_unique lat) (1 # 1000000) false in
    let nx := c_size (a_cont x_axis) in
    let ny := c_size (a_cont y_axis) in
    let grid := repeat (repeat init (Z.to_nat nx)) (Z.to_nat ny) in
    olet (lon, lat) := str_decode_array bmi2 itemsize hashes false in
    olet iy := oseq (map (fun y => find_nearest_index y_axis y false) lat) in
    olet ix := oseq (map (fun x => find_nearest_index x_axis x false) lon) in
    olet rows := set_cells ny nx grid (combine (combine iy ix) data) in
    olet xs := axis_values x_axis in
    olet ys := axis_values y_axis in
    Ok (mk_hash_grid xs "degrees_north" ys "degrees_east" rows).
