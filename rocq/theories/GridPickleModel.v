(** Model of the copies of grids made through their pickled state: include/pyinterp/grid.hpp:102-118
    (2-D), 167-188 (3-D), 217-241 (4-D), with the states of the axes (axis.hpp:198-260).

    The array is the same object in [copy.copy], an equal one after [pickle.loads]: here the same cells. *)
From Verif Require Import Base AxisModel IntAxisModel GridModel XarrayModel DateModel TemporalModel.
Open Scope Z_scope.

Definition axis_copy (a : axis) : outcome axis := setstate (getstate a).
(** grid.hpp:168-169, 181: [z_->getstate()] is the method of [Axis<AxisType>] (it is not virtual). *)
Definition z_copy (z : zaxis) : outcome zaxis :=
  match z with
  | ZReal a => olet b := axis_copy a in Ok (ZReal b)
  | ZTime c => olet d := i_pickle c in Ok (ZTime d)
  end.
(** grid.hpp:102-118 *)
Definition grid2_copy (g : grid2) : outcome grid2 :=
  olet x := axis_copy (g2_x g) in
  olet y := axis_copy (g2_y g) in
  new_grid2 x y (g2_array g).
(** grid.hpp:167-188 *)
Definition grid3_copy (g : grid3) : outcome grid3 :=
  olet x := axis_copy (g3_x g) in
  olet y := axis_copy (g3_y g) in
  olet z := z_copy (g3_z g) in
  new_grid3 x y z (g3_array g).
(** grid.hpp:217-241 *)
Definition grid4_copy (g : grid4) : outcome grid4 :=
  olet x := axis_copy (g4_x g) in
  olet y := axis_copy (g4_y g) in
  olet z := z_copy (g4_z g) in
  olet u := axis_copy (g4_u g) in
  new_grid4 x y z u (g4_array g).

(** The object that the property [z] of a temporal grid returns: pybind11 shows the dynamic type of the
    shared object.  The grid is built with a [TemporalAxis]; a copy holds an [Axis<int64_t>]
    (grid.hpp:181-182). *)
Inductive py_axis : Type := PyTemporalAxis (t : taxis) | PyAxisInt64 (c : icontainer).
Definition py_cont (z : py_axis) : icontainer := match z with PyTemporalAxis t => t_cont t | PyAxisInt64 c => c end.
Record tgrid3 : Type := TGrid3 { tg_x : axis; tg_y : axis; tg_z : py_axis; tg_array : ndarray }.
Definition core_grid (g : tgrid3) : grid3 := Grid3 (tg_x g) (tg_y g) (ZTime (py_cont (tg_z g))) (tg_array g).
Definition tgrid3_copy (g : tgrid3) : outcome tgrid3 :=
  olet g' := grid3_copy (core_grid g) in
  match g3_z g' with
  | ZTime c => Ok (TGrid3 (g3_x g') (g3_y g') (PyAxisInt64 c) (g3_array g'))
  | ZReal _ => UB "unreachable"
  end.
(** Python [grid.z.safe_cast(dates)]: the method exists on temporal axes only. *)
Definition py_safe_cast (calendar : date_kind -> resolution -> resolution -> Z -> Z) (strict : bool) (z : py_axis) (a : tarray) : outcome (list Z) :=
  match z with
  | PyTemporalAxis t => olet r := safe_cast calendar strict t a in Ok (fst r)
  | PyAxisInt64 _ => Throw "AttributeError: safe_cast"
  end.
