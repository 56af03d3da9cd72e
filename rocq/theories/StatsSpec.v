(** Textbook statistics of weighted samples, independent of the model of the code. *)
From Verif Require Import Base.
Open Scope Q_scope.

(** A sample: value and weight. *)
Definition sample : Type := Q * Q.

(** [total f l] is the sum of [f value * weight]. *)
Fixpoint total (f : Q -> Q) (l : list sample) : Q :=
  match l with
  | [] => 0
  | (v, w) :: t => w * f v + total f t
  end.
Definition weight (l : list sample) : Q := total (fun _ => 1) l.
Definition mean (l : list sample) : Q := total (fun v => v) l / weight l.
(** Sum of the weighted powers of the deviations from the mean. *)
Definition moment (k : Z) (l : list sample) : Q := total (fun v => (v - mean l) ^ k) l.

(** Extreme elements of a list. *)
Definition is_least (m : Q) (l : list Q) : Prop := (exists x, In x l /\ x == m) /\ forall x, In x l -> m <= x.
Definition is_greatest (m : Q) (l : list Q) : Prop := (exists x, In x l /\ x == m) /\ forall x, In x l -> x <= m.

(** Position of an element in a C-ordered array. *)
Open Scope Z_scope.
Fixpoint in_shape (shape index : list Z) : Prop :=
  match shape, index with
  | [], [] => True
  | d :: s, i :: r => 0 <= i < d /\ in_shape s r
  | _, _ => False
  end.
Fixpoint size_of (shape : list Z) : Z :=
  match shape with [] => 1 | d :: s => d * size_of s end.
Fixpoint position (shape index : list Z) : Z :=
  match shape, index with
  | d :: s, i :: r => i * size_of s + position s r
  | _, _ => 0
  end.
(** The components of a list whose rank is not among the [axes]. *)
Fixpoint keep (axes : list Z) (rank : Z) (l : list Z) : list Z :=
  match l with
  | [] => []
  | x :: t => if in_dec Z.eq_dec rank axes then keep axes (rank + 1) t else x :: keep axes (rank + 1) t
  end.
(** Strides (in elements) of a C-ordered array. *)
Fixpoint c_strides (shape : list Z) : list Z :=
  match shape with [] => [] | _ :: s => size_of s :: c_strides s end.

(** All the multi-indexes of an array, in C order. *)
Fixpoint indices (shape : list Z) : list (list Z) :=
  match shape with
  | [] => [[]]
  | d :: s => flat_map (fun i => map (cons i) (indices s)) (map Z.of_nat (seq 0 (Z.to_nat d)))
  end.

(** Samples that are not NaN. *)
Definition defined (l : list (option Q * Q)) : list sample :=
  flat_map (fun s => match fst s with Some v => [(v, snd s)] | None => [] end) l.
Definition positive_weights (l : list sample) : Prop := forall s, In s l -> (0 < snd s)%Q.
