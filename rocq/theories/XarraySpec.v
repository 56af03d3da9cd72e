(** Specification vocabulary for the Python grids and for the labelled arrays. *)
From Coq Require Import Permutation.
From Verif Require Import Base MathModel AxisModel IntAxisModel AxisSpec IntAxisProofs GridModel GridSpec XarrayModel.
Open Scope Z_scope.

(** The axis objects that Python can hold. *)
Inductive i_reachable : icontainer -> Prop :=
| i_reach_values l c : int_axis_of_values l = Ok c -> i_reachable c
| i_reach_flip c : i_reachable c -> i_reachable (i_flip c)
| i_reach_pickle c d : i_reachable c -> i_pickle c = Ok d -> i_reachable d.
Definition z_reachable (z : zaxis) : Prop :=
  match z with ZReal a => reachable a | ZTime c => i_reachable c end.

(** The cell [index] has the coordinates [v], one per axis. *)
Fixpoint located (axes : list zaxis) (index : list Z) (v : list Q) : Prop :=
  match axes, index, v with
  | [], [], [] => True
  | z :: axes, i :: index, x :: v => (exists w, z_at_index z i w /\ (w == x)%Q) /\ located axes index v
  | _, _, _ => False
  end.
(** Two gridded arrays give the same values to the same coordinates. *)
Definition same_field (axes : list zaxis) (a : ndarray) (axes' : list zaxis) (a' : ndarray) : Prop :=
  (forall v, (exists i, located axes i v) <-> (exists i, located axes' i v)) /\
  (forall v i j, located axes i v -> located axes' j v -> nd_cell a i = nd_cell a' j).
(** The array has one cell per position on the axes. *)
Definition fits (axes : list zaxis) (a : ndarray) : Prop := nd_shape a = map z_size axes.
Definition ascending_values (z : zaxis) : Prop :=
  forall i j v w, i < j -> z_at_index z i v -> z_at_index z j w -> (v < w)%Q.

(** An axis whose pickled state can be restored without loss (see C08): more than one point, and
    not an angular axis that is not a whole circle. *)
Definition copyable (z : zaxis) : Prop :=
  1 < z_size z /\ match z with ZReal a => is_angle a = true -> a_is_circle a = true | ZTime _ => True end.

(** The axes and the array of a grid. *)
Definition parts (g : core_grid) : list zaxis * ndarray :=
  match g with
  | G2 g => ([ZReal (g2_x g); ZReal (g2_y g)], g2_array g)
  | G3 g => ([ZReal (g3_x g); ZReal (g3_y g); g3_z g], g3_array g)
  | G4 g => ([ZReal (g4_x g); ZReal (g4_y g); g4_z g; ZReal (g4_u g)], g4_array g)
  end.

(** ** Labelled arrays *)
(** The element of the array whose index along each named dimension is given by [lab]. *)
Definition field (da : data_array) (lab : string -> Z) : option Q := nd_cell (da_values da) (map lab (da_dims da)).
(** [z] is the axis made of the coordinate of the dimension [n]. *)
Definition axis_of_coord (c : coord) (circle : bool) (z : zaxis) : Prop :=
  match co_values c with
  | CReal v => exists a, axis_of_values v (1 # 1000000) circle = Ok a /\ z = ZReal a
  | CDatetime v | CTimedelta v => exists i, int_axis_of_values v = Ok i /\ z = ZTime i
  end.
Definition axis_of_dim (da : data_array) (circle : bool) (n : string) (z : zaxis) : Prop :=
  exists c, coord_of da n = Ok c /\ axis_of_coord c circle z.
(** The grid [axes, a] is the labelled array, [built] being the axes made of the coordinates of
    the dimensions [names]. *)
Definition represents (da : data_array) (names : list string) (built axes : list zaxis) (a : ndarray) : Prop :=
  (forall v, (exists lab, located built (map lab names) v) <-> (exists i, located axes i v)) /\
  (forall lab v i, located built (map lab names) v -> located axes i v -> nd_cell a i = field da lab).
(** What xarray guarantees. *)
Definition da_ok (da : data_array) : Prop :=
  NoDup (da_dims da) /\ length (nd_shape (da_values da)) = length (da_dims da) /\ NoDup (map co_name (da_coords da)).
(** The same labelled array stored with its dimensions in another order. *)
Definition same_data (da da' : data_array) : Prop :=
  da_coords da = da_coords da' /\ Permutation (da_dims da) (da_dims da') /\
  (forall d, In d (da_dims da) ->
     nth (position d (da_dims da)) (nd_shape (da_values da)) 0 = nth (position d (da_dims da')) (nd_shape (da_values da')) 0) /\
  (forall lab, field da lab = field da' lab).
(** The same answer: the same value, or the same absence of value. *)
Definition same_answer (r r' : outcome (option Q)) : Prop :=
  match r, r' with
  | Ok (Some v), Ok (Some w) => (v == w)%Q
  | Ok None, Ok None => True
  | Throw v, Throw w => v = w
  | _, _ => False
  end.
(** The units by which the CF conventions recognise a longitude and a latitude. *)
Definition cf_longitude : list string := ["degrees_east"; "degree_east"; "degree_E"; "degrees_E"; "degreeE"; "degreesE"]%string.
Definition cf_latitude : list string := ["degrees_north"; "degree_north"; "degree_N"; "degrees_N"; "degreeN"; "degreesN"]%string.
(** [n] is the first coordinate that has one of these units. *)
Definition first_with (da : data_array) (units : list string) (n : string) : Prop :=
  exists before c after u, da_coords da = before ++ c :: after /\ co_name c = n /\ co_units c = Some u /\ In u units /\
    forall b, In b before -> forall u, co_units b = Some u -> ~ In u units.
Definition with_units (da : data_array) (units : list string) : Prop :=
  exists c u, In c (da_coords da) /\ co_units c = Some u /\ In u units.
(** The coordinate of the dimension [n] is made of dates (or durations). *)
Definition dates (da : data_array) (n : string) : Prop := exists c v, coord_of da n = Ok c /\ co_values c = CDatetime v.
Definition durations (da : data_array) (n : string) : Prop := exists c v, coord_of da n = Ok c /\ co_values c = CTimedelta v.
Definition numbers (da : data_array) (n : string) : Prop := exists c v, coord_of da n = Ok c /\ co_values c = CReal v.
(** The names chosen for the horizontal axes. *)
Definition horizontal (da : data_array) (geodetic : bool) (x y : string) : Prop :=
  if geodetic then first_with da cf_longitude x /\ first_with da cf_latitude y
  else exists c d rest, da_coords da = c :: d :: rest /\ x = co_name c /\ y = co_name d.
Definition temporal_dim (da : data_array) (n : string) : Prop := dates da n \/ durations da n.

(** What the constructors guarantee. *)
Definition faithful (da : data_array) (inc geodetic : bool) (x : xgrid) : Prop :=
  exists c nx ny rest zx zy zs, view (xg_heap x) (xg_grid x) = Ok c /\
    xg_dims x = nx :: ny :: rest /\ Permutation (xg_dims x) (da_dims da) /\ horizontal da geodetic nx ny /\
    axis_of_dim da geodetic nx zx /\ axis_of_dim da false ny zy /\ Forall2 (axis_of_dim da false) rest zs /\
    represents da (xg_dims x) (zx :: zy :: zs) (fst (parts c)) (snd (parts c)) /\
    (inc = true -> Forall ascending_values (fst (parts c))) /\
    (forall n, xg_time x = Some n <-> In n rest /\ temporal_dim da n).
(** Two arrays with the same shape and the same elements. *)
Definition agree (a a' : ndarray) : Prop :=
  nd_shape a = nd_shape a' /\ forall i, length i = length (nd_shape a) -> nd_cell a i = nd_cell a' i.
(** The same grid: the same names, the same axes, the same elements. *)
Definition same_grid (x x' : xgrid) : Prop :=
  xg_dims x' = xg_dims x /\ xg_time x' = xg_time x /\ exists c c', view (xg_heap x) (xg_grid x) = Ok c /\ view (xg_heap x') (xg_grid x') = Ok c' /\
    fst (parts c') = fst (parts c) /\ agree (snd (parts c)) (snd (parts c')).
