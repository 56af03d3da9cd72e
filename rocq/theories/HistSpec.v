(** Specification vocabulary for the streaming histogram. *)
From Verif Require Import Base HistModel.
Open Scope Q_scope.

(** The samples (value, weight) that a history contains. *)
Fixpoint pushed (h : history) : list (Q * Q) :=
  match h with
  | New _ => []
  | Push h v w => pushed h ++ [(v, w)]
  | Merge h o => pushed h ++ pushed o
  | Resize h _ => pushed h
  end.

(** The current maximum number of bins. *)
Fixpoint budget (h : history) : Z :=
  match h with
  | New n => n
  | Push h _ _ => budget h
  | Merge h _ => budget h
  | Resize _ n => n
  end.

(** Histories a careful user produces: at least one bin, positive weights, and values
    that are not astronomically large (so that differences do not overflow). *)
Definition moderate (v : Q) : Prop := Qabs v <= dbl_max * (1 # 4096).
Fixpoint careful (h : history) : Prop :=
  match h with
  | New n => (1 <= n)%Z
  | Push h v w => careful h /\ 0 < w /\ moderate v
  | Merge h o => careful h /\ careful o
  | Resize h n => careful h /\ (1 <= n)%Z
  end.

(** Sum of [f value * weight]. *)
Fixpoint sum_over (f : Q -> Q) (l : list (Q * Q)) : Q :=
  match l with [] => 0 | (v, w) :: t => f v * w + sum_over f t end.

Fixpoint ascending (l : list Q) : Prop :=
  match l with
  | a :: ((b :: _) as t) => a <= b /\ ascending t
  | _ => True
  end.

Definition least (m : Q) (l : list Q) : Prop := (exists x, In x l /\ x == m) /\ forall x, In x l -> m <= x.
Definition greatest (m : Q) (l : list Q) : Prop := (exists x, In x l /\ x == m) /\ forall x, In x l -> x <= m.
