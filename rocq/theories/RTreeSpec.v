(** Specification vocabulary for the spatial index. *)
From Coq Require Import Reals Permutation Sorted.
From Verif Require Import Base WindowModel RTreeModel.
Open Scope R_scope.

(** [chosen] are k nearest items of the bag [t] (all of them if there are fewer), nearest first. *)
Definition k_nearest (t : list item) (p : point) (k : nat) (chosen : list item) : Prop :=
  length chosen = Nat.min k (length t) /\
  StronglySorted (fun i j => dist p (fst i) <= dist p (fst j)) chosen /\
  exists others, Permutation t (chosen ++ others) /\
    forall i j, In i chosen -> In j others -> dist p (fst i) <= dist p (fst j).
(** The contract of the nearest-neighbour iterator of Boost. *)
Definition knn_contract (knn : list item -> point -> nat -> list item) : Prop := forall t p k, k_nearest t p k (knn t p k).

(** The query is in the smallest box containing the points. *)
Definition in_box (l : list point) (p : point) : Prop :=
  forall f, In f [px; py; pz] -> exists q q', In q l /\ In q' l /\ f q <= f p /\ f p <= f q'.

Definition in_radius (radius : option R) (d : R) : Prop := forall r, radius = Some r -> d <= r.

(** [m] is the mean of the values weighted by [w]. *)
Definition sum_of (f : item -> R) (l : list item) : R := fold_right (fun i s => f i + s) 0 l.
Definition weighted_mean (w : item -> R) (l : list item) (m : R) : Prop :=
  sum_of w l <> 0 /\ m * sum_of w l = sum_of (fun i => w i * snd i) l.
(** [m] is between the smallest and the largest value. *)
Definition between_values (l : list item) (m : R) : Prop :=
  exists i j, In i l /\ In j l /\ snd i <= m <= snd j.

(** Operations on the contents, and the rows that an index should hold after them. *)
Inductive operation : Type :=
  | Pack (rows : list (list R)) (values : list R)
  | Insert (rows : list (list R)) (values : list R)
  | Clear
  | Pickle.
Definition held (h : list (list R * R)) (o : operation) : list (list R * R) :=
  match o with
  | Pack rows values => combine rows values
  | Insert rows values => h ++ combine rows values
  | Clear => []
  | Pickle => h
  end.
Definition well_formed (o : operation) : Prop :=
  match o with
  | Pack rows values | Insert rows values => length rows = length values /\ Forall (fun r => length r = 2%nat \/ length r = 3%nat) rows
  | _ => True
  end.
Definition apply_op (to_ecef : spheroid -> point -> point) (t : rtree) (o : operation) : outcome rtree :=
  match o with
  | Pack rows values => packing to_ecef t rows values
  | Insert rows values => insert to_ecef t rows values
  | Clear => Ok (clear t)
  | Pickle => setstate (getstate t)
  end.
Fixpoint run (to_ecef : spheroid -> point -> point) (t : rtree) (h : list operation) : outcome rtree :=
  match h with
  | [] => Ok t
  | o :: r => olet t := apply_op to_ecef t o in run to_ecef t r
  end.
(** The point of a row: the altitude is zero when the row has two columns. *)
Definition row_point (row : list R) : point := (nth 0 row 0, nth 1 row 0, nth 2 row 0).
