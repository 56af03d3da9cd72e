(** Model of the Python grids (src/pyinterp/grid.py), of the grids built from labelled arrays
    (src/pyinterp/backends/xarray.py, src/pyinterp/cf.py) and of the in-place modification of axes
    (module/axis.cpp:50-62).

    Axis objects live in a heap: grid.hpp:26-36 keeps a [std::shared_ptr] to the object of the
    caller.  Simplifications: exact rationals instead of doubles; arrays are values (their memory,
    shared with numpy, is not modelled); one query position at a time; a coordinate of a temporal
    axis is an integer in the unit of the axis (the conversion [safe_cast] is a parameter);
    interpolators written in Python are not modelled.  What xarray and numpy do ([transpose],
    [coords], [set], [flip]) is modelled from their documentation. *)
From Verif Require Import Base MathModel AxisModel IntAxisModel GridModel.
Open Scope Z_scope.

(** ** Axis objects *)
(** axis.hpp:198-245 and temporal_axis.hpp:202-215, a temporal axis through its pickled state. *)
Definition i_pickle (c : icontainer) : outcome icontainer :=
  match c with
  | IIrr _ pts =>
      if zlen pts =? 0 then Throw "unable to create an empty container."
      else Ok (IIrr (match pts with a :: b :: _ => a <? b | _ => true end) pts)
  | IReg _ n s st _ => i_mk_regular s (s + (n - 1) * st) n
  end.
(** module/axis.cpp:50-62 [flip(inplace)], the flipped object. *)
Definition z_py_flip (inplace : bool) (z : zaxis) : outcome zaxis :=
  match z with
  | ZReal a => olet b := py_flip inplace a in Ok (ZReal b)
  | ZTime c => if inplace then Ok (ZTime (i_flip c)) else olet d := i_pickle c in Ok (ZTime (i_flip d))
  end.
(** detail/axis.hpp [is_ascending]. *)
Definition z_is_ascending (z : zaxis) : bool :=
  match z with ZReal a => is_ascending a | ZTime c => i_asc c end.

Definition heap : Type := list zaxis.
Fixpoint put (h : heap) (r : nat) (z : zaxis) : heap :=
  match h, r with
  | [], _ => []
  | _ :: t, O => z :: t
  | a :: t, S r => a :: put t r z
  end.

(** [numpy.flip(array, axis)] *)
Fixpoint mirror (k : nat) (shape index : list Z) : list Z :=
  match shape, index with
  | n :: s, i :: t => match k with O => (n - 1 - i) :: t | S k => i :: mirror k s t end
  | _, _ => index
  end.
Definition numpy_flip (a : ndarray) (k : nat) : outcome ndarray :=
  if Nat.ltb k (length (nd_shape a))
  then Ok (NdArray (nd_shape a) (fun i => nd_cell a (mirror k (nd_shape a) i)))
  else Throw "axis is out of bounds for array".

(** ** grid.py *)
(** grid.py:75-84: the loop over the axes; the heap is the one left behind, exception or not. *)
Fixpoint increase (inplace : bool) (h : heap) (idx : nat) (todo done : list nat) (a : ndarray)
  : heap * outcome (list nat * ndarray) :=
  match todo with
  | [] => (h, Ok (rev done, a))
  | r :: t =>
      match nth_error h r with
      | None => (h, UB "dangling reference")
      | Some z =>
          if z_is_ascending z then increase inplace h (S idx) t (r :: done) a
          else
            match z_py_flip inplace z with
            | Ok z' =>
                let h' := if inplace then put h r z' else h ++ [z'] in
                let r' := if inplace then r else length h in
                match numpy_flip a idx with
                | Ok a' => increase inplace h' (S idx) t (r' :: done) a'
                | Throw w => (h', Throw w)
                | UB w => (h', UB w)
                end
            | Throw w => (h, Throw w)
            | UB w => (h, UB w)
            end
      end
  end.

Inductive core_grid : Type := G2 (g : grid2) | G3 (g : grid3) | G4 (g : grid4).
(** grid.py:62-67 and :85: the class is chosen by the number of dimensions and by the presence of
    a temporal axis; its constructor (grid.hpp:25-36, 155-163, 205-215) accepts a temporal axis in
    the third place only. *)
Definition core_new (dim : nat) (axes : list zaxis) (a : ndarray) : outcome core_grid :=
  match dim, axes with
  | 2%nat, [ZReal x; ZReal y] => olet g := new_grid2 x y a in Ok (G2 g)
  | 3%nat, [ZReal x; ZReal y; z] => olet g := new_grid3 x y z a in Ok (G3 g)
  | 4%nat, [ZReal x; ZReal y; z; ZReal u] => olet g := new_grid4 x y z u a in Ok (G4 g)
  | _, _ => Throw "incompatible constructor arguments"
  end.
Fixpoint deref (h : heap) (refs : list nat) : outcome (list zaxis) :=
  match refs with
  | [] => Ok []
  | r :: t =>
      match nth_error h r with
      | None => UB "dangling reference"
      | Some z => olet l := deref h t in Ok (z :: l)
      end
  end.
(** A Python grid: the axis objects it refers to and its array. *)
Record pygrid : Type := PyGrid { pg_dim : nat; pg_axes : list nat; pg_array : ndarray }.
(** What the grid is, given the current state of the axis objects. *)
Definition view (h : heap) (g : pygrid) : outcome core_grid :=
  olet axes := deref h (pg_axes g) in core_new (pg_dim g) axes (pg_array g).
(** grid.py:61-86 [Grid2D.__init__] (Grid3D and Grid4D: :148-149, :196-197). *)
Definition py_grid (dim : nat) (mode : option string) (h : heap) (refs : list nat) (a : ndarray)
  : heap * outcome pygrid :=
  let '(h', r) :=
    match mode with
    | None => (h, Ok (refs, a))
    | Some m =>
        if String.eqb m "inplace" then increase true h 0 refs [] a
        else if String.eqb m "copy" then increase false h 0 refs [] a
        else (h, Throw "increasing_axes is not defined")
    end in
  (h', olet (refs', a') := r in
       let g := PyGrid dim refs' a' in
       olet _ := view h' g in Ok g).

(** ** Labelled arrays *)
(** The values of a coordinate: numbers, datetime64 or timedelta64. *)
Inductive coordinate : Type := CReal (v : list Q) | CDatetime (v : list Z) | CTimedelta (v : list Z).
Record coord : Type := Coord { co_name : string; co_units : option string; co_dims : list string; co_values : coordinate }.
Record data_array : Type := DataArray { da_dims : list string; da_coords : list coord; da_values : ndarray }.

(** cf.py:23-52 *)
Definition latitude_units : list string := ["degrees_north"; "degree_north"; "degree_N"; "degrees_N"; "degreeN"; "degreesN"]%string.
Definition longitude_units : list string := ["degrees_east"; "degree_east"; "degree_E"; "degrees_E"; "degreeE"; "degreesE"]%string.
Definition mem (s : string) (l : list string) : bool := existsb (String.eqb s) l.
(** xarray.py:36-49 [AxisIdentifier._axis] *)
Definition identify (da : data_array) (units : list string) : option string :=
  match find (fun c => match co_units c with Some u => mem u units | None => false end) (da_coords da) with
  | Some c => Some (co_name c)
  | None => None
  end.
(** xarray.py:68-106 [_dims_from_data_array] *)
Definition dims_from_data_array (da : data_array) (geodetic : bool) (ndims : nat) : outcome (list string) :=
  if negb (Nat.eqb (length (nd_shape (da_values da))) ndims) then Throw "The number of dimensions of the variable is incorrect."
  else if negb geodetic then Ok (firstn 2 (map co_name (da_coords da)))
  else
    match identify da longitude_units with
    | None => Throw "The dataset doesn't define a longitude axis"
    | Some lon =>
        match identify da latitude_units with
        | None => Throw "The dataset doesn't define a latitude axis"
        | Some lat => Ok [lon; lat]
        end
    end.
Fixpoint position (s : string) (l : list string) : nat :=
  match l with [] => O | a :: t => if String.eqb s a then O else S (position s t) end.
(** [data_array.coords[name]]: a dimension without coordinate is numbered from 0. *)
Definition coord_of (da : data_array) (name : string) : outcome coord :=
  match find (fun c => String.eqb name (co_name c)) (da_coords da) with
  | Some c => Ok c
  | None =>
      if mem name (da_dims da)
      then Ok (Coord name None [name]
                 (CReal (map (fun k => inject_Z (Z.of_nat k)) (seq 0 (Z.to_nat (nth (position name (da_dims da)) (nd_shape (da_values da)) 0))))))
      else Throw "KeyError"
  end.
(** [core.Axis(coords[name].values, is_circle)] with the default epsilon (module/axis.cpp:157):
    times are not converted to doubles (no [forcecast]), the values have one dimension. *)
Definition default_epsilon : Q := 1 # 1000000.
Definition make_axis (c : coord) (circle : bool) : outcome axis :=
  match co_dims c, co_values c with
  | [_], CReal v => axis_of_values v default_epsilon circle
  | _, _ => Throw "incompatible constructor arguments"
  end.
(** [core.TemporalAxis(coords[name].values)] *)
Definition make_temporal (c : coord) : outcome icontainer :=
  match co_dims c, co_values c with
  | [_], CDatetime v | [_], CTimedelta v => int_axis_of_values v
  | _, _ => Throw "TypeError"
  end.
(** [data_array.transpose( *names ).values]: the names are the dimensions, in any order. *)
Fixpoint distinct (l : list string) : bool :=
  match l with [] => true | a :: t => negb (mem a t) && distinct t end.
Definition transpose (da : data_array) (names : list string) : outcome ndarray :=
  if Nat.eqb (length names) (length (da_dims da)) && distinct names && forallb (fun n => mem n (da_dims da)) names
  then Ok (NdArray (map (fun n => nth (position n (da_dims da)) (nd_shape (da_values da)) 0) names)
             (fun i => nd_cell (da_values da) (map (fun d => nth (position d names) i 0) (da_dims da))))
  else Throw "transpose: not a permutation of the dimensions".
Definition flag (increasing : bool) : option string := if increasing then Some "inplace"%string else None.
(** [set(data_array.dims) - {x, y}], in an order chosen by [order]. *)
Definition others (da : data_array) (x y : string) : list string :=
  filter (fun d => negb (String.eqb d x) && negb (String.eqb d y)) (da_dims da).

Definition is_time (c : coord) : bool := match co_values c with CDatetime _ => true | _ => false end.
Definition is_date_or_delta (c : coord) : bool := match co_values c with CReal _ => false | _ => true end.

(** A grid built from a labelled array: its axis objects, the grid, the names of its dimensions and
    the temporal one. *)
Record xgrid : Type := XGrid { xg_heap : heap; xg_grid : pygrid; xg_dims : list string; xg_time : option string }.
Definition finish (dim : nat) (increasing : bool) (axes : list zaxis) (a : ndarray) (names : list string) (time : option string) : outcome xgrid :=
  let '(h, r) := py_grid dim (flag increasing) axes (seq 0 (length axes)) a in
  olet g := r in Ok (XGrid h g names time).

(** xarray.py:183-193 *)
Definition xgrid2 (da : data_array) (increasing geodetic : bool) : outcome xgrid :=
  olet names := dims_from_data_array da geodetic 2 in
  match names with
  | [x; y] =>
      olet cx := coord_of da x in
      olet ax := make_axis cx geodetic in
      olet cy := coord_of da y in
      olet ay := make_axis cy false in
      olet a := transpose da names in
      finish 2 increasing [ZReal ax; ZReal ay] a names None
  | _ => Throw "IndexError"
  end.
(** xarray.py:266-288; [order] is the order of iteration of a set. *)
Definition xgrid3 (order : list string -> list string) (da : data_array) (increasing geodetic : bool) : outcome xgrid :=
  olet names := dims_from_data_array da geodetic 3 in
  match names with
  | [x; y] =>
      match order (others da x y) with
      | [] => Throw "KeyError"
      | z :: _ =>
          olet cz := coord_of da z in
          let temporal := is_date_or_delta cz in
          olet az := (if temporal then olet c := make_temporal cz in Ok (Some (ZTime c)) else Ok None) in
          olet cx := coord_of da x in
          olet ax := make_axis cx geodetic in
          olet cy := coord_of da y in
          olet ay := make_axis cy false in
          olet az := match az with Some t => Ok t | None => olet r := make_axis cz false in Ok (ZReal r) end in
          olet a := transpose da [x; y; z] in
          finish 3 increasing [ZReal ax; ZReal ay; az] a [x; y; z] (if temporal then Some z else None)
      end
  | _ => Throw "ValueError"
  end.
(** xarray.py:349-378 *)
Definition xgrid4 (order : list string -> list string) (da : data_array) (increasing geodetic : bool) : outcome xgrid :=
  olet names := dims_from_data_array da geodetic 4 in
  match names with
  | [x; y] =>
      match order (others da x y) with
      | [z; u] =>
          olet cz := coord_of da z in
          olet tz := (if is_time cz then olet c := make_temporal cz in Ok (Some (z, c)) else Ok None) in
          olet cu := coord_of da u in
          olet t := (if is_time cu
                     then match tz with
                          | Some _ => Throw "unable to handle two time axes"
                          | None => olet c := make_temporal cu in Ok (Some (u, c))
                          end
                     else Ok tz) in
          let '(z, u, cz, cu) := if is_time cu then (u, z, cu, cz) else (z, u, cz, cu) in
          olet cx := coord_of da x in
          olet ax := make_axis cx geodetic in
          olet cy := coord_of da y in
          olet ay := make_axis cy false in
          olet az := match t with Some (_, c) => Ok (ZTime c) | None => olet r := make_axis cz false in Ok (ZReal r) end in
          olet au := make_axis cu false in
          olet a := transpose da [x; y; z; u] in
          finish 4 increasing [ZReal ax; ZReal ay; az; ZReal au] a [x; y; z; u] (match t with Some (n, _) => Some n | None => None end)
      | _ => Throw "ValueError"
      end
  | _ => Throw "ValueError"
  end.
(** xarray.py:453-472 [RegularGridInterpolator.__init__] *)
Definition regular_grid (order : list string -> list string) (da : data_array) (increasing geodetic : bool) : outcome xgrid :=
  match length (nd_shape (da_values da)) with
  | 2%nat => xgrid2 da increasing geodetic
  | 3%nat => xgrid3 order da increasing geodetic
  | 4%nat => xgrid4 order da increasing geodetic
  | _ => Throw "Only the 2D, 3D or 4D grids can be interpolated."
  end.

(** ** Coordinates given by name *)
Definition lookup {A : Type} (name : string) (d : list (string * A)) : option A :=
  match find (fun p => String.eqb name (fst p)) d with Some p => Some (snd p) | None => None end.
Fixpoint collect {A B : Type} (f : A -> outcome B) (l : list A) : outcome (list B) :=
  match l with
  | [] => Ok []
  | a :: t => olet b := f a in olet r := collect f t in Ok (b :: r)
  end.
(** xarray.py:109-147 [_coords] for a dictionary [d] (the keys are distinct); [cast] is
    [TemporalAxis.safe_cast]. *)
Definition coords (cast : Q -> outcome Q) (d : list (string * Q)) (dims : list string) (time : option string) : outcome (list Q) :=
  if negb (Nat.eqb (length d) (length dims)) then Throw "too many indices for array"
  else if existsb (fun p => negb (mem (fst p) dims)) d then Throw "axes not handled by this grid"
  else
    collect (fun dim =>
      match lookup dim d with
      | None => Throw "KeyError"
      | Some v => match time with Some t => if String.eqb dim t then cast v else Ok v | None => Ok v end
      end) dims.

Section Calls.
  Variables distance comparable_distance : point -> point -> Q.
  (** xarray.py:195-212, 290-308, 380-399 (and 511-526): the call of [bivariate], [trivariate] or
      [quadrivariate]; [zm] and [um] are [z_method] and [u_method]. *)
  Definition call (cast : Q -> outcome Q) (x : xgrid) (d : list (string * Q)) (f : interpolator2) (zm um : string) (bounds_error : bool)
    : outcome (option Q) :=
    olet args := coords cast d (xg_dims x) (xg_time x) in
    olet g := view (xg_heap x) (xg_grid x) in
    match g, args with
    | G2 g, [px; py] => bivariate distance comparable_distance g f bounds_error px py
    | G3 g, [px; py; pz] =>
        olet zf := z_method zm in trivariate distance comparable_distance g f zf bounds_error px py pz
    | G4 g, [px; py; pz; pu] =>
        olet zf := z_method zm in
        olet uf := z_method um in
        quadrivariate distance comparable_distance g f zf uf bounds_error px py pz pu
    | _, _ => Throw "TypeError"
    end.
End Calls.
