(** Specification vocabulary for interpolation in grids. *)
From Verif Require Import Base AxisModel IntAxisModel IntAxisProofs AxisSpec GridModel.
Open Scope Z_scope.

(** The straight line through [(x0, v0)] and [(x1, v1)]. *)
Definition lerp (x0 x1 v0 v1 x : Q) : Q := (v0 + (v1 - v0) * ((x - x0) / (x1 - x0)))%Q.
(** Linear in x on the two sides of the cell, then linear in y. *)
Definition bilerp (x0 x1 y0 y1 q00 q01 q10 q11 x y : Q) : Q :=
  lerp y0 y1 (lerp x0 x1 q00 q10 x) (lerp x0 x1 q01 q11 x) y.

(** [x] is between the consecutive points [a[i0] = v0] and [a[i1] = v1]. *)
Definition between (v0 v1 x : Q) : Prop := ((v0 <= x /\ x <= v1) \/ (v1 <= x /\ x <= v0))%Q.
Definition cell (a : axis) (x : Q) (i0 i1 : Z) (v0 v1 : Q) : Prop :=
  at_index a i0 v0 /\ at_index a i1 v1 /\ (i1 = i0 + 1 \/ i0 = i1 + 1) /\ between v0 v1 x.

(** [v] is not beyond the extreme values of [l]. *)
Definition within (l : list Q) (v : Q) : Prop :=
  (exists a, In a l /\ a <= v)%Q /\ (exists b, In b l /\ v <= b)%Q.

(** Weighted mean of the values [snd] with the weights [fst]. *)
Definition total (l : list (Q * Q)) : Q := fold_right (fun p s => (fst p + s)%Q) 0%Q l.
Definition weighted (l : list (Q * Q)) : Q := fold_right (fun p s => (fst p * snd p + s)%Q) 0%Q l.

(** The horizontal slice of a 3-D grid at one level, the 3-D slice of a 4-D grid. *)
Definition level (g : grid3) (k : Z) : grid2 :=
  Grid2 (g3_x g) (g3_y g) (NdArray (firstn 2 (nd_shape (g3_array g))) (fun i => nd_cell (g3_array g) (i ++ [k]))).
Definition hyper_level (g : grid4) (k : Z) : grid3 :=
  Grid3 (g4_x g) (g4_y g) (g4_z g) (NdArray (firstn 3 (nd_shape (g4_array g))) (fun i => nd_cell (g4_array g) (i ++ [k]))).

(** Inverse distance weighting of the values of some sites seen from [p]: the value of the
    first site closer than [eps]; without such a site, the mean weighted by [1 / distance ^ e],
    undefined if one value is. *)
Definition idw_spec (d : point -> point -> Q) (e : Z) (eps : Q) (p : point) (sites : list (point * option Q)) (r : option Q) : Prop :=
  (forall before s q after, sites = before ++ (s, q) :: after -> (d p s <= eps)%Q -> (forall s' q', In (s', q') before -> eps < d p s')%Q -> r = q) /\
  ((forall s q, In (s, q) sites -> eps < d p s)%Q ->
   ((exists s, In (s, None) sites) -> r = None) /\
   (forall l, sites <> [] -> Forall2 (fun site wv => snd site = Some (snd wv) /\ fst wv = (/ Qpower (d p (fst site)) e)%Q) sites l ->
      (forall wv, In wv l -> 0 < fst wv)%Q /\ exists v, r = Some v /\ (v * total l == weighted l)%Q /\ within (map snd l) v)).
(** The value of a nearest site, the first one among equally near sites. *)
Definition nearest_spec (c : point -> point -> Q) (p : point) (sites : list (point * option Q)) (r : option Q) : Prop :=
  exists before s q after, sites = before ++ (s, q) :: after /\ r = q /\
    (forall s' q', In (s', q') before -> c p s < c p s')%Q /\ (forall s' q', In (s', q') after -> c p s <= c p s')%Q.
(** The longitude [x] can be interpolated on the axis. *)
Definition reached (a : axis) (x : Q) : Prop :=
  if is_angle a then a_is_circle a = true \/ exists z, same_angle z x /\ inside a z else inside a x.
(** [z] is [x], up to a whole number of turns on an angular axis, and the points of indexes
    [i0] and [i1] are around it. *)
Definition around (a : axis) (x z : Q) (i0 i1 : Z) : Prop :=
  if is_angle a then same_angle z x /\ exists z', same_angle z' x /\ (brackets a z' i0 i1 \/ (a_is_circle a = true /\ seam a z' i0 i1))
  else z = x /\ brackets a x i0 i1.

(** The vertical (or temporal) axis: [az[k] = v], a coordinate that can be given, its range. *)
Definition z_at_index (az : zaxis) (k : Z) (v : Q) : Prop :=
  match az with ZReal a => at_index a k v | ZTime c => exists t, i_at c k t /\ v = inject_Z t end.
Definition z_coordinate (az : zaxis) (z : Q) : Prop :=
  match az with ZReal _ => True | ZTime _ => exists t, z = inject_Z t end.
Definition z_usable (az : zaxis) : Prop :=
  1 < z_size az /\
  match az with
  | ZReal a => reachable a /\ is_angle a = false
  | ZTime c => exists l, i_ascending l /\ (int_axis_of_values l = Ok c \/ exists c', int_axis_of_values l = Ok c' /\ c = i_flip c')
  end.
Definition z_inside (az : zaxis) (z : Q) : Prop :=
  exists k v l w, z_at_index az k v /\ z_at_index az l w /\ (v <= z)%Q /\ (z <= w)%Q.
Definition z_cell (az : zaxis) (z : Q) (k0 k1 : Z) (z0 z1 : Q) : Prop :=
  z_at_index az k0 z0 /\ z_at_index az k1 z1 /\ (k1 = k0 + 1 \/ k0 = k1 + 1) /\ between z0 z1 z.
