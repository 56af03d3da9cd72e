(** Model of detail/axis/container.hpp, detail/axis.hpp and axis.hpp for
    [T = double], with exact rational arithmetic.  *)
From Verif Require Import Base MathModel.
Open Scope Z_scope.

(** detail/axis/container.hpp: the three containers.
    - [CUndef]: class Undefined (133-216)
    - [CIrr]: class Irregular (222-366), [points_] and [is_ascending_]
    - [CReg]: class Regular for floating types (503-538) with the fields of
      AbstractRegular (371-490): [is_ascending_], [size_], [start_], [step_] and
      [inv_step_]. *)
Inductive container : Type :=
| CUndef
| CIrr (asc : bool) (pts : list Q)
| CReg (asc : bool) (size : Z) (start step inv_step : Q).

(** container.hpp:190, 301, 469 [size()]. *)
Definition c_size (c : container) : Z :=
  match c with
  | CUndef => 0
  | CIrr _ pts => zlen pts
  | CReg _ n _ _ _ => n
  end.

(** container.hpp:165, 278-281, 432-435 [coordinate_value(index)].  [None]: the
    undefined container (NaN) or a read outside the vector. *)
Definition c_value (c : container) (i : Z) : option Q :=
  match c with
  | CUndef => None
  | CIrr _ pts => znth pts i
  | CReg _ _ start step _ => Some (start + inject_Z i * step)%Q
  end.

Definition c_asc (c : container) : bool :=
  match c with CUndef => true | CIrr a _ => a | CReg a _ _ _ _ => a end.

(** container.hpp:124-126 [calculate_is_ascending] on the two first values. *)
Definition calc_ascending (size : Z) (v0 v1 : option Q) : bool :=
  if size <? 2 then true
  else match v0, v1 with Some a, Some b => Qltb a b | _, _ => true end.

(** container.hpp:228-233, constructor of Irregular. *)
Definition mk_irregular (pts : list Q) : outcome container :=
  if zlen pts =? 0 then Throw "unable to create an empty container."
  else Ok (CIrr (calc_ascending (zlen pts) (znth pts 0) (znth pts 1)) pts).

(** container.hpp:380-394 and 508-511, constructor of Regular<double>.  [num] is
    a floating value in C++ always converted from an integer size. *)
Definition mk_regular (start stop : Q) (num : Z) : outcome container :=
  if num =? 0 then Throw "unable to create an empty container."
  else if Qeq_bool start stop then Throw "unable to create a container with a single value."
  else
    let step := (if num =? 1 then stop - start else (stop - start) / inject_Z (num - 1))%Q in
    let asc := calc_ascending num (Some (start + inject_Z 0 * step)%Q)
                                  (Some (start + inject_Z 1 * step)%Q) in
    Ok (CReg asc num start step (1 / step)%Q).

(** container.hpp:259-262 and 425-429, 530-533 [flip()]. *)
Definition c_flip (c : container) : container :=
  match c with
  | CUndef => CUndef
  | CIrr a pts => CIrr (negb a) (rev pts)
  | CReg a n start step inv =>
      CReg (negb a) n (start + inject_Z (n - 1) * step)%Q (- step)%Q (- inv)%Q
  end.

(** [std::adjacent_find(start, end) != end]: two equal neighbours exist. *)
Fixpoint has_adjacent_equal (l : list Q) : bool :=
  match l with
  | a :: ((b :: _) as t) => Qeq_bool a b || has_adjacent_equal t
  | _ => false
  end.

(** [std::is_sorted(start, end, cmp)]: no element [b] following [a] with
    [cmp(b, a)]. *)
Fixpoint is_sorted (cmp : Q -> Q -> bool) (l : list Q) : bool :=
  match l with
  | a :: ((b :: _) as t) => negb (cmp b a) && is_sorted cmp t
  | _ => true
  end.

(** [std::less] / [std::greater]. *)
Definition cmp_of (asc : bool) : Q -> Q -> bool :=
  if asc then Qltb else fun a b => Qltb b a.

(** container.hpp:60 and 265-275 [is_monotonic()]. *)
Definition c_is_monotonic (c : container) : bool :=
  match c with
  | CIrr a pts => negb (has_adjacent_equal pts) && is_sorted (cmp_of a) pts
  | _ => true
  end.

(** container.hpp:291-298, 449-456 [min_value()], [max_value()]. *)
Definition c_min (c : container) : option Q :=
  c_value c (if c_asc c then 0 else c_size c - 1).
Definition c_max (c : container) : option Q :=
  c_value c (if c_asc c then c_size c - 1 else 0).

(** [std::lower_bound(begin, end, x, cmp)] as the index of the first element [e]
    for which [cmp(e, x)] is false (the partition point the C++ standard
    guarantees on a partitioned range; Irregular axes are partitioned because
    they are monotonic). *)
Fixpoint lower_bound (cmp : Q -> Q -> bool) (l : list Q) (x : Q) : Z :=
  match l with
  | [] => 0
  | e :: t => if cmp e x then 1 + lower_bound cmp t x else 0
  end.

(** container.hpp:339-365, Irregular::find_index with comparator. *)
Definition irr_find_index (asc : bool) (pts : list Q) (x : Q) (bounded : bool) : outcome Z :=
  let cmp := cmp_of asc in
  let size := zlen pts in
  let it := lower_bound cmp pts x in
  if it =? 0 then
    match znth pts 0 with
    | None => UB "dereference of begin() of an empty vector"
    | Some e => if cmp x e then Ok (if bounded then 0 else -1) else Ok 0
    end
  else if it =? size then
    match znth pts (it - 1) with
    | None => UB "dereference before begin()"
    | Some e => if cmp e x then Ok (if bounded then size - 1 else -1) else Ok (size - 1)
    end
  else
    match znth pts (it - 1), znth pts it with
    | Some a, Some b =>
        Ok (if Qltb (Qabs (x - a)) (Qabs (x - b)) then it - 1 else it)
    | _, _ => UB "out of range"
    end.

(** container.hpp:514-527, Regular<double>::find_index. *)
Definition reg_find_index (n : Z) (start inv_step : Q) (x : Q) (bounded : bool) : Z :=
  let index := round_away ((x - start) * inv_step) in
  if index <? 0 then (if bounded then 0 else -1)
  else if index >=? n then (if bounded then n - 1 else -1)
  else index.

Definition c_find_index (c : container) (x : Q) (bounded : bool) : outcome Z :=
  match c with
  | CUndef => Ok (-1)                                    (* container.hpp:205-209 *)
  | CIrr a pts => irr_find_index a pts x bounded         (* 316-323 *)
  | CReg _ n start _ inv => Ok (reg_find_index n start inv x bounded)
  end.

(** detail/axis.hpp:40, 473-481: the Axis object.  [a_circle = None] is the fill
    value (NaN) meaning "not an angle". *)
Record axis : Type := mk_axis {
  a_is_circle : bool;
  a_circle : option Q;
  a_cont : container
}.

(** detail/axis.hpp:189-191. *)
Definition is_angle (a : axis) : bool :=
  match a_circle a with Some _ => true | None => false end.

(** detail/axis.hpp:524-555 [normalize_longitude]: is the vector strictly
    monotonic in the direction given by its two first values? *)
Fixpoint strictly_monotone_dir (asc : bool) (l : list Q) : bool :=
  match l with
  | a :: ((b :: _) as t) =>
      (if asc then Qltb a b else Qltb b a) && strictly_monotone_dir asc t
  | _ => true
  end.

Definition first_ascending (l : list Q) : bool :=
  match l with a :: b :: _ => Qltb a b | _ => true end.

(** The unwrapping loop, lines 542-551: [prev] is [result[ix-1]]. *)
Fixpoint unwrap (asc : bool) (circle : Q) (cross : bool) (prev : Q) (l : list Q) : list Q :=
  match l with
  | [] => []
  | x :: t =>
      let cross' := if cross then true
                    else if asc then Qltb x prev else Qltb prev x in
      let x' := if cross' then (if asc then x + circle else x - circle)%Q else x in
      x' :: unwrap asc circle cross' x' t
  end.

Definition normalize_longitude (circle : Q) (l : list Q) : list Q :=
  let asc := first_ascending l in
  if strictly_monotone_dir asc l then l
  else match l with [] => [] | x :: t => x :: unwrap asc circle false x t end.

(** detail/axis.hpp:581-604 [is_evenly_spaced]. *)
Fixpoint all_steps_same (inc epsilon : Q) (l : list Q) : bool :=
  match l with
  | a :: ((b :: _) as t) => is_same (b - a) inc epsilon && all_steps_same inc epsilon t
  | _ => true
  end.

Definition is_evenly_spaced (l : list Q) (epsilon : Q) : bool :=
  match l with
  | a :: _ :: _ =>
      let inc := ((last l 0 - a) / inject_Z (zlen l - 1))%Q in
      if Qle_bool (Qabs inc) epsilon then false
      else all_steps_same inc epsilon l
  | _ => false
  end.

(** detail/axis.hpp:498-521 [compute_properties]: returns [is_circle_].  The
    single-point irregular axis divides by zero: increment is NaN or infinite,
    see lines 515-518; back = front there so increment = 0/0 = NaN and the
    comparison is false. *)
Definition compute_is_circle (circle : option Q) (c : container) (epsilon : Q) : bool :=
  match circle with
  | None => false
  | Some circ =>
      match c with
      | CUndef => false
      | CReg _ n _ step _ => is_same (Qabs (step * inject_Z n)) circ epsilon
      | CIrr _ pts =>
          if zlen pts =? 1 then false
          else match c_min c, c_max c, znth pts 0, znth pts (zlen pts - 1) with
               | Some mn, Some mx, Some front, Some back =>
                   let inc := ((back - front) / inject_Z (zlen pts - 1))%Q in
                   Qle_bool (Qabs ((mx - mn) - circ)) inc
               | _, _, _, _ => false
               end
      end
  end.

Definition finish_axis (circle : option Q) (epsilon : Q) (c : container) : outcome axis :=
  if c_size c =? 0 then Throw "unable to create an empty axis."
  else if negb (c_is_monotonic c) then Throw "axis values are not ordered"
  else Ok (mk_axis (compute_is_circle circle c epsilon) circle c).

(** detail/axis.hpp:558-572 [initialize_from_values]. *)
Definition init_from_values (circle : option Q) (l : list Q) (epsilon : Q) : outcome axis :=
  olet c := (if is_evenly_spaced l epsilon
             then mk_regular (hd 0%Q l) (last l 0%Q) (zlen l)
             else mk_irregular l) in
  finish_axis circle epsilon c.

(** detail/axis.hpp:68-86: the constructor reachable from Python
    [Axis(values, epsilon, is_circle)] (module/axis.cpp init_core_axis). *)
Definition axis_of_values (l : list Q) (epsilon : Q) (is_circle : bool) : outcome axis :=
  let circle := if is_circle then Some (360%Q) else None in
  init_from_values circle
    (if is_circle then normalize_longitude 360 l else l) epsilon.

(** detail/axis.hpp:54-60: constructor (start, stop, num, epsilon, is_circle). *)
Definition axis_regular (start stop : Q) (num : Z) (epsilon : Q) (is_circle : bool)
  : outcome axis :=
  let circle := if is_circle then Some (360%Q) else None in
  olet c := mk_regular start stop num in
  finish_axis circle epsilon c.

(** detail/axis.hpp:134-140 [coordinate_value]: checked access. *)
Definition coordinate_value (a : axis) (i : Z) : outcome Q :=
  if (i <? 0) || (i >=? c_size (a_cont a)) then Throw "axis index out of range"
  else match c_value (a_cont a) i with Some v => Ok v | None => UB "read" end.

(** detail/axis.hpp:147-153 and container.hpp:284-288, 438-446 [slice]. *)
Definition slice (a : axis) (start count : Z) : outcome (list Q) :=
  if (start <? 0) || (start + count >? c_size (a_cont a)) then Throw "axis index out of range"
  else match a_cont a with
       | CUndef => UB "undefined axis"
       | CIrr _ pts => Ok (firstn (Z.to_nat count) (skipn (Z.to_nat start) pts))
       | CReg _ _ s st _ =>
           Ok (map (fun k => (s + inject_Z (start + Z.of_nat k) * st)%Q)
                   (seq 0 (Z.to_nat count)))
       end.

(** detail/axis.hpp:211 [flip]. *)
Definition flip (a : axis) : axis := mk_axis (a_is_circle a) (a_circle a) (c_flip (a_cont a)).

(** detail/axis.hpp:251-266 [normalize_coordinate]. *)
Definition normalize_coordinate_min (a : axis) (x mn : Q) : Q :=
  match a_circle a with
  | Some circ =>
      if Qle_bool (mn + circ) x || Qltb x mn then normalize_angle x mn circ else x
  | None => x
  end.

Definition normalize_coordinate (a : axis) (x : Q) : Q :=
  match c_min (a_cont a) with
  | Some mn => normalize_coordinate_min a x mn
  | None => x   (* undefined axis: NaN comparisons are false, x unchanged *)
  end.

(** detail/axis.hpp:276-279 [find_index]. *)
Definition find_index (a : axis) (x : Q) (bounded : bool) : outcome Z :=
  c_find_index (a_cont a) (normalize_coordinate a x) bounded.

(** detail/axis.hpp:293-304 [find_nearest_index]; this is what the Python method
    [Axis.find_index] calls (axis.hpp:126-143). *)
Definition find_nearest_index (a : axis) (x : Q) (bounded : bool) : outcome Z :=
  let x := normalize_coordinate a x in
  olet r := c_find_index (a_cont a) x bounded in
  if (r =? -1) && a_is_circle a then
    match c_max (a_cont a), c_min (a_cont a) with
    | Some mx, Some mn =>
        Ok (if Qltb (x - mx) (mn + 360 - x) then c_size (a_cont a) - 1 else 0)
    | _, _ => UB "undefined axis"
    end
  else Ok r.

(** detail/axis.hpp:315-355 [find_indexes(coordinate)]. *)
Definition find_indexes (a : axis) (x : Q) : outcome (option (Z * Z)) :=
  let x := normalize_coordinate a x in
  let length := c_size (a_cont a) in
  olet i0 := find_index a x false in
  if i0 =? -1 then
    Ok (if a_is_circle a then Some (length - 1, 0) else None)
  else
    match c_value (a_cont a) i0 with
    | None => UB "out of range"
    | Some v =>
        let delta := (x - v)%Q in
        let asc := c_asc (a_cont a) in
        let '(i0, i1) :=
          if Qeq_bool delta 0 then
            (if i0 =? length - 1 then (i0 - 1, i0) else (i0, i0 + 1))
          else if Qltb delta 0 then
            let j := if asc then i0 - 1 else i0 + 1 in
            (if a_is_circle a then (rem_int j length, i0) else (j, i0))
          else
            let j := if asc then i0 + 1 else i0 - 1 in
            (if a_is_circle a then (i0, rem_int j length) else (i0, j)) in
        Ok (if (i0 >=? 0) && (i0 <? length) && (i1 >=? 0) && (i1 <? length)
            then Some (i0, i1) else None)
    end.

(** detail/axis.hpp:24-29 boundary modes. *)
Inductive boundary : Type := kExpand | kWrap | kSym | kUndef.

(** detail/axis.hpp:397-416: index [shift] places before [i0]; [None] for
    [return {}]. *)
Definition window_before (is_circle : bool) (b : boundary) (len i0 shift : Z) : option Z :=
  let before := i0 - shift in
  if before <? 0 then
    if is_circle then Some (rem_int before len)
    else match b with
         | kExpand => Some 0
         | kWrap => Some (rem_int (len + before) len)
         | kSym => Some (rem_int (- before) len)
         | kUndef => None
         end
  else Some before.

(** detail/axis.hpp:417-436: index [shift] places after [i1]. *)
Definition window_after (is_circle : bool) (b : boundary) (len i1 shift : Z) : option Z :=
  let after := i1 + shift in
  if after >=? len then
    if is_circle then Some (rem_int after len)
    else match b with
         | kExpand => Some (len - 1)
         | kWrap => Some (rem_int after len)
         | kSym => Some (len - 2 - rem_int (after - len) len)
         | kUndef => None
         end
  else Some after.

(** detail/axis.hpp:392-440: the loop [while (shift < size)].  The two halves of
    [result] are grown outwards: [l] holds indexes size-shift.. and [r] the
    indexes ..size+shift-1. *)
Fixpoint window_loop (n : nat) (is_circle : bool) (b : boundary) (len i0 i1 shift : Z)
         (l r : list Z) : option (list Z) :=
  match n with
  | O => Some (l ++ r)
  | S n' =>
      match window_before is_circle b len i0 shift, window_after is_circle b len i1 shift with
      | Some before, Some after =>
          window_loop n' is_circle b len i0 i1 (shift + 1) (before :: l) (r ++ [after])
      | _, _ => None
      end
  end.

(** detail/axis.hpp:367-442 [find_indexes(coordinate, size, boundary)]; the empty
    vector ("no window") is [[]].  Simplification: [size << 1] does not overflow
    (size < 2^31). *)
Definition find_indexes_window (a : axis) (x : Q) (size : Z) (b : boundary)
  : outcome (list Z) :=
  if size =? 0 then Throw "The size must not be zero."
  else
    olet indexes := find_indexes a x in
    match indexes with
    | None =>
        if size =? 1 then
          match c_value (a_cont a) 0 with
          | Some v => Ok (if Qeq_bool x v then [0; 0] else [])
          | None => Ok []   (* undefined axis: x == NaN is false *)
          end
        else Ok []
    | Some (i0, i1) =>
        match window_loop (Z.to_nat (size - 1)) (a_is_circle a) b (c_size (a_cont a))
                          i0 i1 1 [i0] [i1] with
        | Some w => Ok w
        | None => Ok []
        end
    end.

(** axis.hpp:198-230 [getstate]: the pickled tuple. *)
Inductive axis_state : Type :=
| StUndef
| StIrr (values : list Q) (is_circle : bool)
| StReg (front back : Q) (size : Z) (is_circle : bool).

Definition getstate (a : axis) : axis_state :=
  match a_cont a with
  | CUndef => StUndef
  | CIrr _ pts => StIrr pts (a_is_circle a)
  | CReg _ n start step _ =>
      StReg start (start + inject_Z (n - 1) * step)%Q n (a_is_circle a)
  end.

(** detail/axis.hpp:466-469: protected constructor used by [setstate]. *)
Definition axis_of_container (c : container) (is_circle : bool) : axis :=
  mk_axis is_circle (if is_circle then Some (360%Q) else None) c.

(** axis.hpp:234-260 [setstate]. *)
Definition setstate (s : axis_state) : outcome axis :=
  match s with
  | StUndef => Ok (mk_axis false None CUndef)
  | StIrr values circ => olet c := mk_irregular values in Ok (axis_of_container c circ)
  | StReg front back n circ =>
      olet c := mk_regular front back n in Ok (axis_of_container c circ)
  end.

(** detail/axis.hpp:229-231 and container.hpp:326-332, 474-481 [operator==]. *)
Fixpoint list_Qeqb (l1 l2 : list Q) : bool :=
  match l1, l2 with
  | [], [] => true
  | a :: t1, b :: t2 => Qeq_bool a b && list_Qeqb t1 t2
  | _, _ => false
  end.

Definition c_eqb (c1 c2 : container) : bool :=
  match c1, c2 with
  | CUndef, CUndef => true
  | CIrr _ p1, CIrr _ p2 => list_Qeqb p1 p2
  | CReg _ n1 s1 st1 _, CReg _ n2 s2 st2 _ =>
      Qeq_bool st1 st2 && Qeq_bool s1 s2 && (n1 =? n2)
  | _, _ => false
  end.

Definition axis_eqb (a b : axis) : bool :=
  c_eqb (a_cont a) (a_cont b) && Bool.eqb (a_is_circle a) (a_is_circle b).

(** module/axis.cpp:44-56: Python [Axis.flip(inplace)]; the copy is made through
    the pickled state. *)
Definition py_flip (inplace : bool) (a : axis) : outcome axis :=
  if inplace then Ok (flip a)
  else olet c := setstate (getstate a) in Ok (flip c).

(** detail/axis.hpp:217-223 [increment]. *)
Definition increment (a : axis) : outcome Q :=
  match a_cont a with
  | CReg _ _ _ step _ => Ok step
  | _ => Throw "this axis is not regular."
  end.

(** detail/axis.hpp:177-179 [is_regular]. *)
Definition is_regular (a : axis) : bool :=
  match a_cont a with CReg _ _ _ _ _ => true | _ => false end.

(** detail/axis.hpp:206-208 [is_ascending]. *)
Definition is_ascending (a : axis) : bool := c_asc (a_cont a).
