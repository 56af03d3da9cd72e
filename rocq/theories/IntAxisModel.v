(** Model of Axis<int64_t> (AxisInt64 and TemporalAxis in Python): the
    integral specialisation of detail/axis/container.hpp and detail/axis.hpp.
    These axes are always built with [epsilon = 0, is_circle = false]
    (module/axis.cpp:219-224, temporal_axis.hpp:57-59).
    Simplification: unbounded integers instead of int64_t. *)
From Verif Require Import Base MathModel AxisModel.
Open Scope Z_scope.

(** container.hpp:222-366 Irregular<int64_t> and 541-583 Regular<int64_t>; [step2]
    is the field [step_2_]. *)
Inductive icontainer : Type :=
| IIrr (asc : bool) (pts : list Z)
| IReg (asc : bool) (size start step step2 : Z).

(** container.hpp:301, 469. *)
Definition i_size (c : icontainer) : Z :=
  match c with IIrr _ pts => zlen pts | IReg _ n _ _ _ => n end.

(** detail/axis.hpp:134-140 with container.hpp:278-281, 432-435: checked access. *)
Definition i_coordinate_value (c : icontainer) (i : Z) : outcome Z :=
  if (i <? 0) || (i >=? i_size c) then Throw "axis index out of range"
  else match c with
       | IIrr _ pts => match znth pts i with Some v => Ok v | None => UB "read" end
       | IReg _ _ s st _ => Ok (s + i * st)
       end.

(** container.hpp:380-394 and 549-552: constructor of Regular<int64_t>.  C++ [/]
    truncates ([Z.quot]), [>> 1] is the arithmetic shift. *)
Definition i_mk_regular (start stop num : Z) : outcome icontainer :=
  if num =? 0 then Throw "unable to create an empty container."
  else if start =? stop then Throw "unable to create a container with a single value."
  else
    let step := if num =? 1 then stop - start else Z.quot (stop - start) (num - 1) in
    let asc := if num <? 2 then true else start <? start + step in
    Ok (IReg asc num start step (Z.shiftr step 1)).

(** detail/axis.hpp:581-604 for integers, epsilon = 0: [is_same(a,b,0)] is
    [abs(a-b) <= 0] (math.hpp:270-275). *)
Fixpoint i_all_steps (inc : Z) (l : list Z) : bool :=
  match l with
  | a :: ((b :: _) as t) => (Z.abs (b - a - inc) <=? 0) && i_all_steps inc t
  | _ => true
  end.
Definition i_is_evenly_spaced (l : list Z) : bool :=
  match l with
  | a :: _ :: _ =>
      let inc := Z.quot (last l 0 - a) (zlen l - 1) in
      if Z.abs inc <=? 0 then false else i_all_steps inc l
  | _ => false
  end.

(** container.hpp:60 and 265-275 [is_monotonic()] for Irregular<int64_t>. *)
Fixpoint i_adjacent_equal (l : list Z) : bool :=
  match l with a :: ((b :: _) as t) => (a =? b) || i_adjacent_equal t | _ => false end.
Fixpoint i_sorted (asc : bool) (l : list Z) : bool :=
  match l with
  | a :: ((b :: _) as t) => negb (if asc then b <? a else a <? b) && i_sorted asc t
  | _ => true
  end.

(** detail/axis.hpp:68-86, 498-521, 558-572: the constructor from values. *)
Definition int_axis_of_values (l : list Z) : outcome icontainer :=
  if i_is_evenly_spaced l then i_mk_regular (hd 0 l) (last l 0) (zlen l)
  else if zlen l =? 0 then Throw "unable to create an empty container."
  else
    let asc := match l with a :: b :: _ => a <? b | _ => true end in
    if negb (i_adjacent_equal l) && i_sorted asc l then Ok (IIrr asc l)
    else Throw "axis values are not ordered".

(** container.hpp:259-262, 425-429: [flip]; Regular<int64_t> does not override
    it, so [step_2_] keeps its value. *)
Definition i_flip (c : icontainer) : icontainer :=
  match c with
  | IIrr a pts => IIrr (negb a) (rev pts)
  | IReg a n s st s2 => IReg (negb a) n (s + (n - 1) * st) (- st) s2
  end.

(** container.hpp:578-582, [round]. *)
Definition i_round (step2 num den : Z) : Z :=
  if num >? 0 then Z.quot (num + step2) den else Z.quot (num - step2) den.

(** container.hpp:555-571 and, for the irregular container, 316-365 (only
    comparisons and differences: the rational model is exact on integers);
    detail/axis.hpp:293-304 with [is_circle_ = false]. *)
Definition i_find_index (c : icontainer) (x : Z) (bounded : bool) : outcome Z :=
  match c with
  | IIrr a pts => irr_find_index a (map inject_Z pts) (inject_Z x) bounded
  | IReg _ n s st s2 =>
      let index := i_round s2 (x - s) st in
      Ok (if index <? 0 then (if bounded then 0 else -1)
          else if index >=? n then (if bounded then n - 1 else -1)
          else index)
  end.

Definition i_asc (c : icontainer) : bool := match c with IIrr a _ => a | IReg a _ _ _ _ => a end.

(** detail/axis.hpp:315-355, [find_indexes] with [is_circle_ = false]. *)
Definition i_find_indexes (c : icontainer) (x : Z) : outcome (option (Z * Z)) :=
  let length := i_size c in
  olet i0 := i_find_index c x false in
  if i0 =? -1 then Ok None
  else
    olet v := i_coordinate_value c i0 in
    let delta := x - v in
    let '(i0, i1) :=
      if delta =? 0 then (if i0 =? length - 1 then (i0 - 1, i0) else (i0, i0 + 1))
      else if delta <? 0 then ((if i_asc c then i0 - 1 else i0 + 1), i0)
      else (i0, (if i_asc c then i0 + 1 else i0 - 1)) in
    Ok (if (i0 >=? 0) && (i0 <? length) && (i1 >=? 0) && (i1 <? length)
        then Some (i0, i1) else None).

(** ** Specification vocabulary *)
(** [a[i]] yields [v]. *)
Definition i_at (c : icontainer) (i v : Z) : Prop := i_coordinate_value c i = Ok v.

(** [i] is the last of the indexes whose coordinates are nearest to [x]. *)
Definition i_nearest_last (c : icontainer) (x i : Z) : Prop :=
  exists v, i_at c i v /\
    forall j w, i_at c j w ->
      Z.abs (x - v) <= Z.abs (x - w) /\ (i < j -> Z.abs (x - v) < Z.abs (x - w)).

Definition i_inside (c : icontainer) (x : Z) : Prop :=
  exists i v j w, i_at c i v /\ i_at c j w /\ v <= x <= w.

Definition i_brackets (c : icontainer) (x i0 i1 : Z) : Prop :=
  exists v0 v1, i_at c i0 v0 /\ i_at c i1 v1 /\ (i1 = i0 + 1 \/ i0 = i1 + 1) /\
    (v0 <= x <= v1 \/ v1 <= x <= v0).
