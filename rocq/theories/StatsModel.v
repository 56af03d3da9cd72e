(** Model of the descriptive statistics:
    include/pyinterp/detail/math/descriptive_statistics.hpp,
    include/pyinterp/descriptive_statistics.hpp,
    include/pyinterp/detail/numpy.hpp (reduced_properties, unravel).

    Numbers are exact rationals, plus [NaN] for every result that is not a finite
    number (in particular divisions by zero).  *)
From Verif Require Import Base.
Open Scope Z_scope.

Inductive num := N (q : Q) | NaN.
Arguments N q%Q_scope.
Definition nadd (a b : num) : num := match a, b with N x, N y => N (x + y) | _, _ => NaN end.
Definition nsub (a b : num) : num := match a, b with N x, N y => N (x - y) | _, _ => NaN end.
Definition nmul (a b : num) : num := match a, b with N x, N y => N (x * y) | _, _ => NaN end.
Definition ndiv (a b : num) : num :=
  match a, b with N x, N y => if Qeq_bool y 0 then NaN else N (x / y) | _, _ => NaN end.
(** Comparisons with NaN are false. *)
Definition nlt (a b : num) : bool := match a, b with N x, N y => Qltb x y | _, _ => false end.
Definition nle (a b : num) : bool := match a, b with N x, N y => Qle_bool x y | _, _ => false end.
Definition neq0 (a : num) : bool := match a with N x => Qeq_bool x 0 | NaN => false end.

Declare Scope num_scope.
Delimit Scope num_scope with num.
Infix "+" := nadd : num_scope.
Infix "-" := nsub : num_scope.
Infix "*" := nmul : num_scope.
Infix "/" := ndiv : num_scope.

(** descriptive_statistics.hpp:16-26. *)
Record acc := Acc {
  a_count : Z; a_sow : num; a_mean : num; a_min : num; a_max : num; a_sum : num;
  a_mom2 : num; a_mom3 : num; a_mom4 : num }.

(** :46-48, [memset 0]. *)
Definition acc_empty : acc := Acc 0 (N 0) (N 0) (N 0) (N 0) (N 0) (N 0) (N 0) (N 0).

(** :205-209. *)
Definition acc_single (value weight : num) : acc :=
  let wv := (weight * value)%num in
  Acc 1 weight value wv wv wv (N 0) (N 0) (N 0).

(** :51-83. *)
Definition acc_push (a : acc) (value : num) : acc :=
  let r := a_sow a in
  if neq0 r then acc_single value (N 1)
  else
    let sow := (a_sow a + N 1)%num in
    let inv_n := (N 1 / sow)%num in
    let delta := (value - a_mean a)%num in
    let A := (delta * inv_n)%num in
    let mean := (a_mean a + A)%num in
    let mom4 := (a_mom4 a + A * (A * A * delta * r * (sow * (sow - N 3) + N 3)
                                 + N 6 * A * a_mom2 a - N 4 * a_mom3 a))%num in
    let B := (value - mean)%num in
    let mom3 := (a_mom3 a + A * (B * delta * (sow - N 2) - N 3 * a_mom2 a))%num in
    let mom2 := (a_mom2 a + delta * B)%num in
    Acc (a_count a + 1) sow mean
        (if nlt value (a_min a) then value else a_min a)
        (if nlt value (a_min a) then a_max a else if nlt (a_max a) value then value else a_max a)
        (a_sum a + value)%num mom2 mom3 mom4.

(** :153-200. *)
Definition acc_merge (a b : acc) : acc :=
  let w := (a_sow a + a_sow b)%num in
  let delta := (a_mean b - a_mean a)%num in
  let delta_w := (delta / w)%num in
  let delta2_w2 := (delta_w * delta_w)%num in
  let w2 := (a_sow a * a_sow a)%num in
  let ww := (a_sow a * a_sow b)%num in
  let rhs_w2 := (a_sow b * a_sow b)%num in
  Acc (a_count a + a_count b) w
      (a_mean a + a_sow b * delta_w)%num
      (if nlt (a_min b) (a_min a) then a_min b else a_min a)
      (if nlt (a_max a) (a_max b) then a_max b else a_max a)
      (a_sum a + a_sum b)%num
      (a_mom2 a + (a_mom2 b + ww * delta * delta_w))%num
      (a_mom3 a + (a_mom3 b + ww * (a_sow a - a_sow b) * delta * delta2_w2
                   + N 3 * (a_sow a * a_mom2 b - a_sow b * a_mom2 a) * delta_w))%num
      (a_mom4 a + (a_mom4 b + ww * (w2 - ww + rhs_w2) * delta * delta_w * delta2_w2
                   + N 6 * (w2 * a_mom2 b + rhs_w2 * a_mom2 a) * delta2_w2
                   + N 4 * (a_sow a * a_mom3 b - a_sow b * a_mom3 a) * delta_w))%num.

(** :86-92. *)
Definition acc_push_weighted (a : acc) (value weight : num) : acc :=
  if neq0 (a_sow a) then acc_single value weight else acc_merge a (acc_single value weight).

(** :110-130, :145-150. *)
Definition acc_get_mean (a : acc) : num := if a_count a =? 0 then NaN else a_mean a.
Definition acc_get_min (a : acc) : num := if a_count a =? 0 then NaN else a_min a.
Definition acc_get_max (a : acc) : num := if a_count a =? 0 then NaN else a_max a.
Definition acc_variance (a : acc) (ddof : Z) : num :=
  let cardinal := (a_sow a - N (inject_Z ddof))%num in
  if nle cardinal (N 0) then NaN else (a_mom2 a / cardinal)%num.
Definition acc_kurtosis (a : acc) : num :=
  if neq0 (a_mom2 a) then NaN
  else (a_sow a * a_mom4 a / (a_mom2 a * a_mom2 a) - N 3)%num.

(** include/pyinterp/descriptive_statistics.hpp:167-183 and :187-206: statistics of a
    whole array; a NaN value ([None]) is skipped. *)
Definition push_all (values : list (option Q)) : acc :=
  fold_left (fun a v => match v with Some x => acc_push a (N x) | None => a end) values acc_empty.
Definition push_all_weighted (values : list (option Q * Q)) : acc :=
  fold_left (fun a v => match fst v with Some x => acc_push_weighted a (N x) (N (snd v)) | None => a end)
            values acc_empty.

(** :125-132, the wrapper's [+=] (element by element). *)
Fixpoint merge_cells (a b : list acc) : list acc :=
  match a, b with
  | x :: a', y :: b' => acc_merge x y :: merge_cells a' b'
  | _, _ => []
  end.

(* ------------------------------------------------------------------ *)
(** * Reduction of axes (detail/numpy.hpp) *)

(** numpy.hpp:72, [std::find]. *)
Definition is_axis (axes : list Z) (ix : Z) : bool := existsb (Z.eqb ix) axes.

(** numpy.hpp:66-81: kept dimensions ([-1] for a reduced one), with the final 1. *)
Fixpoint adjusted_dims (shape : list Z) (axes : list Z) (ix : Z) : list Z :=
  match shape with
  | [] => [1]
  | dim :: t => (if is_axis axes ix then -1 else dim) :: adjusted_dims t axes (ix + 1)
  end.
Fixpoint reduced_shape (shape : list Z) (axes : list Z) (ix : Z) : list Z :=
  match shape with
  | [] => []
  | dim :: t => if is_axis axes ix then reduced_shape t axes (ix + 1)
                else dim :: reduced_shape t axes (ix + 1)
  end.
Definition zprod (l : list Z) : Z := fold_right Z.mul 1 l.

(** numpy.hpp:84-90: the vector has one more element than the array has dimensions. *)
Fixpoint adjusted_strides (dims : list Z) : list Z :=
  match dims with
  | [] => []
  | [_] => []
  | d :: t => (if d =? -1 then 0 else Z.abs (zprod t)) :: adjusted_strides t
  end.

(** numpy.hpp:37-44; dividing by a null stride is undefined. *)
Fixpoint unravel (index : Z) (strides : list Z) : outcome (list Z) :=
  match strides with
  | [] => Ok []
  | s :: t =>
      if s =? 0 then UB "division by zero"
      else
        let q := Z.quot index s in
        olet r := unravel (index - q * s) t in
        Ok (q :: r)
  end.

Definition dot (a b : list Z) : Z := fold_right Z.add 0 (map (fun p => fst p * snd p) (combine a b)).

(** descriptive_statistics.hpp:223-230, one element ([result[jx]] checked). *)
Definition push_cell (strides adj : list Z) (cells : list acc) (ix : Z) (value : option Q) (weight : Q)
  : outcome (list acc) :=
  match value with
  | None => Ok cells
  | Some x =>
      olet indexes := unravel ix strides in
      let jx := dot indexes adj in
      match znth cells jx with
      | Some a => Ok (set_nth (Z.to_nat jx) (acc_push_weighted a (N x) (N weight)) cells)
      | None => UB "result index out of range"
      end
  end.
Fixpoint push_reduced (strides adj : list Z) (cells : list acc) (ix : Z) (values : list (option Q * Q))
  : outcome (list acc) :=
  match values with
  | [] => Ok cells
  | (v, w) :: t => olet cells' := push_cell strides adj cells ix v w in
                   push_reduced strides adj cells' (ix + 1) t
  end.

(** descriptive_statistics.hpp:59-70 with numpy.hpp:47-92; [strides] are those of the
    array, in elements; [check_axis_bounds] (numpy.hpp:18-33) dereferences the end of an
    empty list of axes. *)
Definition stats_reduce (shape strides axes : list Z) (values : list (option Q * Q)) : outcome (list acc) :=
  match axes with
  | [] => UB "minmax_element of an empty list"
  | _ =>
    if existsb (fun a => a <? 0) axes || existsb (fun a => zlen shape - 1 <? a) axes
    then Throw "axis is out of bounds"
    else
      let rs := reduced_shape shape axes 0 in
      let adj := adjusted_strides (adjusted_dims shape axes 0) in
      push_reduced strides adj (repeat acc_empty (Z.to_nat (zprod rs))) 0 values
  end.
