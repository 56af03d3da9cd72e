(** Model of the spline and bicubic interpolation of grids: windows of a grid
    (include/pyinterp/frame.hpp, detail/math/frame.hpp), [Spline2D] (detail/math/spline2d.hpp),
    the two-dimensional interpolators (detail/interpolation/interpolator_2d.hpp, bilinear.hpp,
    bicubic.hpp, factory_2d.hpp, detail/math/bicubic.hpp) and the functions bound to Python
    (module/bicubic.cpp).

    Simplifications: exact rationals instead of [double]; NaN is [None]; half sizes of windows
    are not negative; the message of an exception is shortened. *)
From Verif Require Import Base MathModel AxisModel IntAxisModel InterpModel Interp1dModel GridModel.
Open Scope nat_scope.

(** [for (...) result[k] = f(l[k])]. *)
Fixpoint omap {A B : Type} (f : A -> outcome B) (l : list A) : outcome (list B) :=
  match l with
  | [] => Ok []
  | a :: t => olet b := f a in olet r := omap f t in Ok (b :: r)
  end.
(** [!hasNaN()]: the values if none of them is NaN. *)
Fixpoint without_nan {A : Type} (l : list (option A)) : option (list A) :=
  match l with
  | [] => Some []
  | Some v :: t => match without_nan t with Some r => Some (v :: r) | None => None end
  | None :: _ => None
  end.

(** detail/math/frame.hpp:133-201 [Frame2D]: [fr_q] lists the columns of the matrix [q], one
    for each [y]; each column has one value for each [x]. *)
Record frame2 : Type := Frame2 { fr_x : list Q; fr_y : list Q; fr_q : list (list Q) }.

(** frame.hpp:52-57: the coordinates of the window along x. *)
Definition frame_x (a : axis) (x0 : Q) (index : Z) : outcome Q :=
  olet v := axis_at a index in
  Ok (if is_angle a then normalize_angle v x0 360 else v).
(** frame.hpp:59-61: one column of values; [rest]: the indexes along z and u. *)
Definition frame_column (arr : ndarray) (xi : list Z) (rest : list Z) (jy : Z) : outcome (list (option Q)) :=
  omap (fun i => grid_value arr (i :: jy :: rest)) xi.
(** frame.hpp:52-63: the values of one layer, and [is_valid]. *)
Definition frame_layer (arr : ndarray) (xi yi : list Z) (rest : list Z) : outcome (option (list (list Q))) :=
  olet q := omap (frame_column arr xi rest) yi in
  Ok (without_nan (map without_nan q)).
(** [x_indexes[0]]. *)
Definition first_index (l : list Z) : outcome Z := match l with i :: _ => Ok i | [] => UB "empty window" end.

(** frame.hpp:25-64 [load_frame] in two dimensions; [None]: [false]. *)
Definition load_frame2 (g : grid2) (x y : Q) (nx ny : nat) (b : boundary) (bounds_error : bool) : outcome (option frame2) :=
  olet yi := find_indexes_window (g2_y g) y (Z.of_nat ny) b in
  olet xi := find_indexes_window (g2_x g) x (Z.of_nat nx) b in
  match xi, yi with
  | [], _ => if bounds_error then Throw "Unable to frame the value" else Ok None
  | _, [] => if bounds_error then Throw "Unable to frame the value" else Ok None
  | _, _ =>
      olet i0 := first_index xi in
      olet x0 := axis_at (g2_x g) i0 in
      olet ys := omap (axis_at (g2_y g)) yi in
      olet xs := omap (frame_x (g2_x g) x0) xi in
      olet q := frame_layer (g2_array g) xi yi [] in
      Ok match q with Some q => Some (Frame2 xs ys q) | None => None end
  end.

(** [z_axis.find_indexes(z, 1, boundary)] (detail/axis.hpp:367-442 with [size = 1]); a temporal
    axis holds integers. *)
Definition z_window (az : zaxis) (z : Q) (b : boundary) : outcome (list Z) :=
  match az with
  | ZReal a => find_indexes_window a z 1 b
  | ZTime c =>
      olet r := i_find_indexes c (Qfloor z) in
      match r with
      | Some (i0, i1) => Ok [i0; i1]
      | None =>
          olet v := i_coordinate_value c 0 in
          Ok (if (Qfloor z =? v)%Z then [0; 0]%Z else [])
      end
  end.
(** The two layers of a window along z or u ([frame.z(0)], [frame.z(1)]). *)
Definition two (l : list Z) : outcome (Z * Z) := match l with [i; j] => Ok (i, j) | _ => UB "frame size" end.

(** frame.hpp:67-121 [load_frame] in three dimensions ([nz = 1]): the layers [frame_2d(0)] and
    [frame_2d(1)], with their z-coordinates. *)
Definition load_frame3 (g : grid3) (x y z : Q) (nx ny : nat) (b : boundary) (bounds_error : bool)
    : outcome (option ((Q * frame2) * (Q * frame2))) :=
  olet zi := z_window (g3_z g) z b in
  olet yi := find_indexes_window (g3_y g) y (Z.of_nat ny) b in
  olet xi := find_indexes_window (g3_x g) x (Z.of_nat nx) b in
  match xi, yi, zi with
  | [], _, _ | _, [], _ | _, _, [] => if bounds_error then Throw "Unable to frame the value" else Ok None
  | _, _, _ =>
      olet i0 := first_index xi in
      olet x0 := axis_at (g3_x g) i0 in
      olet ys := omap (axis_at (g3_y g)) yi in
      olet (k0, k1) := two zi in
      olet z0 := z_at (g3_z g) k0 in
      olet z1 := z_at (g3_z g) k1 in
      olet xs := omap (frame_x (g3_x g) x0) xi in
      olet q0 := frame_layer (g3_array g) xi yi [k0] in
      olet q1 := frame_layer (g3_array g) xi yi [k1] in
      Ok match q0, q1 with
         | Some q0, Some q1 => Some ((z0, Frame2 xs ys q0), (z1, Frame2 xs ys q1))
         | _, _ => None
         end
  end.

(** frame.hpp:124-192 [load_frame] in four dimensions ([nz = nu = 1]). *)
Definition load_frame4 (g : grid4) (x y z u : Q) (nx ny : nat) (b : boundary) (bounds_error : bool)
    : outcome (option ((Q * Q) * (Q * Q) * (frame2 * frame2 * frame2 * frame2))) :=
  olet ui := find_indexes_window (g4_u g) u 1 b in
  olet zi := z_window (g4_z g) z b in
  olet yi := find_indexes_window (g4_y g) y (Z.of_nat ny) b in
  olet xi := find_indexes_window (g4_x g) x (Z.of_nat nx) b in
  match xi, yi, zi, ui with
  | [], _, _, _ | _, [], _, _ | _, _, [], _ | _, _, _, [] => if bounds_error then Throw "Unable to frame the value" else Ok None
  | _, _, _, _ =>
      olet i0 := first_index xi in
      olet x0 := axis_at (g4_x g) i0 in
      olet ys := omap (axis_at (g4_y g)) yi in
      olet (k0, k1) := two zi in
      olet z0 := z_at (g4_z g) k0 in
      olet z1 := z_at (g4_z g) k1 in
      olet (l0, l1) := two ui in
      olet u0 := axis_at (g4_u g) l0 in
      olet u1 := axis_at (g4_u g) l1 in
      olet xs := omap (frame_x (g4_x g) x0) xi in
      olet q00 := frame_layer (g4_array g) xi yi [k0; l0] in
      olet q10 := frame_layer (g4_array g) xi yi [k1; l0] in
      olet q01 := frame_layer (g4_array g) xi yi [k0; l1] in
      olet q11 := frame_layer (g4_array g) xi yi [k1; l1] in
      Ok match q00, q10, q01, q11 with
         | Some q00, Some q10, Some q01, Some q11 =>
             Some ((z0, z1), (u0, u1), (Frame2 xs ys q00, Frame2 xs ys q10, Frame2 xs ys q01, Frame2 xs ys q11))
         | _, _, _, _ => None
         end
  end.

(** ** Interpolators *)
(** spline2d.hpp:30-32: the interpolation along x of every column, by one object. *)
Fixpoint spline_columns (packets : nat -> nat -> list nat) (o : interpolator) (xs : list Q) (x : Q) (cols : list (list Q))
    : outcome (interpolator * list (option Q)) :=
  match cols with
  | [] => Ok (o, [])
  | c :: t =>
      olet (o, v) := call packets o xs c x in
      olet (o, r) := spline_columns packets o xs x t in
      Ok (o, v :: r)
  end.
(** spline2d.hpp:27-34 [Spline2D::interpolate]. NaN in the column yields NaN (the second
    interpolator is not modelled on NaN). *)
Definition spline2d (packets : nat -> nat -> list nat) (ox oy : interpolator) (x y : Q) (f : frame2)
    : outcome (interpolator * interpolator * option Q) :=
  olet (ox, col) := spline_columns packets ox (fr_x f) x (fr_q f) in
  match without_nan col with
  | None => Ok (ox, oy, None)
  | Some col => olet (oy, v) := call packets oy (fr_y f) col y in Ok (ox, oy, v)
  end.

(** [za(i, j)], [za.col(j)], [za.row(i)] of a matrix given by its columns. *)
Definition mat_at (q : list (list Q)) (i j : nat) : outcome Q :=
  match nth_error q j with Some c => oat c i | None => UB "matrix index" end.
Definition mat_row (q : list (list Q)) (i : nat) : outcome (list Q) := omap (fun c => oat c i) q.

(** interpolator_2d.hpp:55-78 (the minimum size is 2 for both classes). *)
Definition check_sizes2 (xa ya : list Q) (za : list (list Q)) : outcome unit :=
  if forallb (fun c => length c =? length xa) za then
    if length ya =? length za then
      if length xa <? 2 then Throw "xa must have at least 2 elements"
      else if length ya <? 2 then Throw "ya must have at least 2 elements"
      else Ok tt
    else Throw "ya and za must have the same number of columns"
  else Throw "xa and za must have the same number of rows".

(** detail/interpolation/bilinear.hpp:33-55 *)
Definition bilinear2 (xa ya : list Q) (za : list (list Q)) (x y : Q) : outcome (option Q) :=
  olet _ := check_sizes2 xa ya za in
  olet sx := search xa x in
  olet sy := search ya y in
  match sx, sy with
  | Some (i0, i1), Some (j0, j1) =>
      olet x0 := oat xa i0 in olet x1 := oat xa i1 in
      olet y0 := oat ya j0 in olet y1 := oat ya j1 in
      olet t := odiv (x - x0) (x1 - x0) in
      olet u := odiv (y - y0) (y1 - y0) in
      olet z00 := mat_at za i0 j0 in olet z10 := mat_at za i1 j0 in
      olet z01 := mat_at za i0 j1 in olet z11 := mat_at za i1 j1 in
      Ok (Some ((1 - t) * (1 - u) * z00 + t * (1 - u) * z10 + (1 - t) * u * z01 + t * u * z11)%Q)
  | _, _ => Throw "NaN"
  end.

(** interpolator_1d.hpp:60-68: [CSpline::derivative] at every node. *)
Definition cspline_slopes (st : cspline_state) (xa ya : list Q) : outcome (cspline_state * list (option Q)) :=
  olet st := cspline_compute st xa ya in
  olet d := omap (cspline_deriv (csx st) xa ya) xa in
  Ok (st, d).
(** The loops of bicubic.hpp:62-70 over columns or rows, by one [CSpline] object. *)
Fixpoint cspline_all (st : cspline_state) (xa : list Q) (lines : list (list Q)) : outcome (cspline_state * list (list (option Q))) :=
  match lines with
  | [] => Ok (st, [])
  | l :: t =>
      olet (st, d) := cspline_slopes st xa l in
      olet (st, r) := cspline_all st xa t in
      Ok (st, d :: r)
  end.
(** The columns of the matrix whose rows are given. *)
Definition columns_of (n : nat) (rows : list (list Q)) : outcome (list (list Q)) :=
  omap (fun j => omap (fun r => oat r j) rows) (seq 0 n).
(** bicubic.hpp:48-71 [compute_coefficients]: the matrices [zx_] and [zxy_] by columns, [zy_]
    by rows; they are rewritten by every call. [None]: one of them holds NaN (only if the
    coordinates do not increase; the result is then taken to be NaN). *)
Definition bicubic_compute (st : cspline_state) (xa ya : list Q) (za : list (list Q))
    : outcome (cspline_state * option (list (list Q) * list (list Q) * list (list Q))) :=
  olet _ := check_sizes2 xa ya za in
  olet (st, zx) := cspline_all st xa za in
  olet rows := omap (mat_row za) (seq 0 (length xa)) in
  olet (st, zy) := cspline_all st ya rows in
  match without_nan (map without_nan zy) with
  | None => Ok (st, None)
  | Some zy =>
      olet cols := columns_of (length ya) zy in
      olet (st, zxy) := cspline_all st xa cols in
      Ok (st, match without_nan (map without_nan zx), without_nan (map without_nan zxy) with
              | Some zx, Some zxy => Some (zx, zy, zxy)
              | _, _ => None
              end)
  end.
(** bicubic.hpp:115-136: the polynomial. *)
Definition bicubic_poly (t u z00 z01 z10 z11 zx00 zx01 zx10 zx11 zy00 zy01 zy10 zy11 zxy00 zxy01 zxy10 zxy11 : Q) : Q :=
  (let t2 := t * t in
   let t3 := t * t2 in
   let u2 := u * u in
   let u3 := u * u2 in
   (z00 + u * zy00 + u2 * (3 * (z01 - z00) - 2 * zy00 - zy01) +
    u3 * (2 * (z00 - z01) + zy00 + zy01)) +
   t * (zx00 + u * zxy00 + u2 * (3 * (zx01 - zx00) - 2 * zxy00 - zxy01) +
        u3 * (2 * (zx00 - zx01) + zxy00 + zxy01)) +
   t2 * ((3 * (z10 - z00) - 2 * zx00 - zx10) +
         u * (3 * (zy10 - zy00) - 2 * zxy00 - zxy10) +
         u2 * (9 * (z00 - z01 - z10 + z11) +
               6 * (zx00 - zx01 + zy00 - zy10) +
               3 * (zx10 - zx11 + zy01 - zy11) + 4 * zxy00 +
               2 * (zxy01 + zxy10) + zxy11) +
         u3 * (6 * (z01 - z00 + z10 - z11) + 4 * (zx01 - zx00) +
               3 * (zy10 - zy00 - zy01 + zy11) +
               2 * (zx11 - zx10 - zxy00 - zxy01) - zxy10 - zxy11)) +
   t3 * ((2 * (z00 - z10) + zx00 + zx10) +
         u * (zxy00 + zxy10 + 2 * (zy00 - zy10)) +
         u2 * (6 * (z01 - z00 + z10 - z11) + 4 * (- zy00 + zy10) +
               3 * (zx01 - zx00 - zx10 + zx11) +
               2 * (zy11 - zy01 - zxy00 - zxy10) - zxy01 - zxy11) +
         u3 * (4 * (z00 - z01 - z10 + z11) +
               2 * (zx00 - zx01 + zx10 - zx11 + zy00 + zy01 - zy10 - zy11) +
               zxy00 + zxy01 + zxy10 + zxy11)))%Q.
(** bicubic.hpp:73-113 [interpolate_]. *)
Definition bicubic_interp (d : option (list (list Q) * list (list Q) * list (list Q))) (xa ya : list Q) (za : list (list Q)) (x y : Q)
    : outcome (option Q) :=
  olet sx := search xa x in
  olet sy := search ya y in
  match sx, sy with
  | Some (i0, i1), Some (j0, j1) =>
      match d with
      | None => Ok None
      | Some (zx, zy, zxy) =>
          olet x0 := oat xa i0 in olet x1 := oat xa i1 in
          olet y0 := oat ya j0 in olet y1 := oat ya j1 in
          olet z00 := mat_at za i0 j0 in olet z01 := mat_at za i0 j1 in
          olet z10 := mat_at za i1 j0 in olet z11 := mat_at za i1 j1 in
          let dx := (x1 - x0)%Q in
          let dy := (y1 - y0)%Q in
          let dxdy := (dx * dy)%Q in
          olet t := odiv (x - x0) dx in
          olet u := odiv (y - y0) dy in
          olet zx00 := mat_at zx i0 j0 in olet zx01 := mat_at zx i0 j1 in
          olet zx10 := mat_at zx i1 j0 in olet zx11 := mat_at zx i1 j1 in
          olet zy00 := mat_at zy j0 i0 in olet zy01 := mat_at zy j1 i0 in
          olet zy10 := mat_at zy j0 i1 in olet zy11 := mat_at zy j1 i1 in
          olet zxy00 := mat_at zxy i0 j0 in olet zxy01 := mat_at zxy i0 j1 in
          olet zxy10 := mat_at zxy i1 j0 in olet zxy11 := mat_at zxy i1 j1 in
          Ok (Some (bicubic_poly t u z00 z01 z10 z11 (zx00 * dx) (zx01 * dx) (zx10 * dx) (zx11 * dx)
                      (zy00 * dy) (zy01 * dy) (zy10 * dy) (zy11 * dy)
                      (zxy00 * dxdy) (zxy01 * dxdy) (zxy10 * dxdy) (zxy11 * dxdy))%Q)
      end
  | _, _ => Throw "NaN"
  end.

(** The interpolator objects of module/bicubic.cpp ([Spline2D] or [Bicubic]) with their
    members. *)
Inductive interp2 : Type :=
| ISpline2 (ox oy : interpolator)
| IBilinear2
| IBicubic2 (st : cspline_state).
(** spline2d.hpp:21-24, factory_2d.hpp:10-21 and interpolator/bicubic.py:87-88: the functions
    [bicubic_*] use [factory_2d], the functions [spline_*] [factory_1d]. *)
Definition new_interp2 (bicubic : bool) (kind : string) : outcome interp2 :=
  if bicubic then
    if String.eqb kind "bilinear" then Ok IBilinear2
    else if String.eqb kind "bicubic" then Ok (IBicubic2 cspline_init)
    else Throw "Invalid bicubic type"
  else
    olet ox := factory_1d kind in
    olet oy := factory_1d kind in
    Ok (ISpline2 ox oy).
(** [interpolator.interpolate(x, y, frame)]. *)
Definition interpolate2 (packets : nat -> nat -> list nat) (it : interp2) (x y : Q) (f : frame2) : outcome (interp2 * option Q) :=
  match it with
  | ISpline2 ox oy =>
      olet (ox, oy, v) := spline2d packets ox oy x y f in Ok (ISpline2 ox oy, v)
  | IBilinear2 =>
      olet v := bilinear2 (fr_x f) (fr_y f) (fr_q f) x y in Ok (IBilinear2, v)
  | IBicubic2 st =>
      olet (st, d) := bicubic_compute st (fr_x f) (fr_y f) (fr_q f) in
      olet v := bicubic_interp d (fr_x f) (fr_y f) (fr_q f) x y in Ok (IBicubic2 st, v)
  end.
(** detail/math/frame.hpp:106-110 [CoordsXY::normalize_angle] *)
Definition frame_abscissa (a : axis) (f : frame2) (x : Q) : outcome Q :=
  if is_angle a then olet x0 := oat (fr_x f) 0 in Ok (normalize_angle x x0 360) else Ok x.

(** module/bicubic.cpp:21-37 [parse_axis_boundary] *)
Definition parse_boundary (s : string) : outcome boundary :=
  if String.eqb s "expand" then Ok kExpand
  else if String.eqb s "wrap" then Ok kWrap
  else if String.eqb s "sym" then Ok kSym
  else if String.eqb s "undef" then Ok kUndef
  else Throw "boundary is not defined".

(** module/bicubic.cpp:72-83: one turn of the loop of [bicubic]. *)
Definition step2 (packets : nat -> nat -> list nat) (g : grid2) (nx ny : nat) (b : boundary) (bounds_error : bool)
    (it : interp2) (p : Q * Q) : outcome (interp2 * option Q) :=
  let '(x, y) := p in
  olet f := load_frame2 g x y nx ny b bounds_error in
  match f with
  | None => Ok (it, None)
  | Some f => olet xi := frame_abscissa (g2_x g) f x in interpolate2 packets it xi y f
  end.
(** module/bicubic.cpp:133-148: one turn of the loop of [bicubic_3d]. *)
Definition step3 (packets : nat -> nat -> list nat) (g : grid3) (nx ny : nat) (b : boundary) (bounds_error : bool)
    (it : interp2) (p : Q * Q * Q) : outcome (interp2 * option Q) :=
  let '(x, y, z) := p in
  olet f := load_frame3 g x y z nx ny b bounds_error in
  match f with
  | None => Ok (it, None)
  | Some ((z0, f0), (z1, f1)) =>
      olet xi := frame_abscissa (g3_x g) f0 x in
      olet (it, v0) := interpolate2 packets it xi y f0 in
      olet (it, v1) := interpolate2 packets it xi y f1 in
      Ok (it, linear_z z z0 z1 v0 v1)
  end.
(** module/bicubic.cpp:200-226: one turn of the loop of [bicubic_4d]. *)
Definition step4 (packets : nat -> nat -> list nat) (g : grid4) (nx ny : nat) (b : boundary) (bounds_error : bool)
    (it : interp2) (p : Q * Q * Q * Q) : outcome (interp2 * option Q) :=
  let '(x, y, z, u) := p in
  olet f := load_frame4 g x y z u nx ny b bounds_error in
  match f with
  | None => Ok (it, None)
  | Some ((z0, z1), (u0, u1), (f00, f10, f01, f11)) =>
      olet xi := frame_abscissa (g4_x g) f00 x in
      olet (it, v00) := interpolate2 packets it xi y f00 in
      olet (it, v10) := interpolate2 packets it xi y f10 in
      olet (it, v01) := interpolate2 packets it xi y f01 in
      olet (it, v11) := interpolate2 packets it xi y f11 in
      Ok (it, linear_z u u0 u1 (linear_z z z0 z1 v00 v10) (linear_z z z0 z1 v01 v11))
  end.

(** module/bicubic.cpp:66-89 (and the same loops below): one worker, with its own interpolator
    object, on its part of the points. *)
Fixpoint worker {P : Type} (step : interp2 -> P -> outcome (interp2 * option Q)) (it : interp2) (points : list P) : outcome (list (option Q)) :=
  match points with
  | [] => Ok []
  | p :: t => olet (it, v) := step it p in olet r := worker step it t in Ok (v :: r)
  end.
(** [detail::dispatch]: the points are cut into consecutive parts, one for each worker; the
    exception of one worker (the last one caught) is thrown when all are done. *)
Definition workers {P : Type} (bicubic : bool) (kind : string) (step : interp2 -> P -> outcome (interp2 * option Q)) (parts : list (list P))
    : outcome (list (option Q)) :=
  olet r := omap (fun part => olet it := new_interp2 bicubic kind in worker step it part) parts in
  Ok (concat r).
(** module/bicubic.cpp:39-95, 98-160, 163-240: the functions bound to Python. [parts]: how the
    points are shared out between the threads. *)
Definition interpolate_grid2 (packets : nat -> nat -> list nat) (bicubic : bool) (g : grid2) (nx ny : nat) (kind boundary : string) (bounds_error : bool)
    (parts : list (list (Q * Q))) : outcome (list (option Q)) :=
  olet b := parse_boundary boundary in
  workers bicubic kind (step2 packets g nx ny b bounds_error) parts.
Definition interpolate_grid3 (packets : nat -> nat -> list nat) (bicubic : bool) (g : grid3) (nx ny : nat) (kind boundary : string) (bounds_error : bool)
    (parts : list (list (Q * Q * Q))) : outcome (list (option Q)) :=
  olet b := parse_boundary boundary in
  workers bicubic kind (step3 packets g nx ny b bounds_error) parts.
Definition interpolate_grid4 (packets : nat -> nat -> list nat) (bicubic : bool) (g : grid4) (nx ny : nat) (kind boundary : string) (bounds_error : bool)
    (parts : list (list (Q * Q * Q * Q))) : outcome (list (option Q)) :=
  olet b := parse_boundary boundary in
  workers bicubic kind (step4 packets g nx ny b bounds_error) parts.
