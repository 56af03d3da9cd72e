(** Independent vocabulary: a period is the set of instants from [begin] to [last]
    inclusive; a list of periods covers the union. *)
From Verif Require Import Base PeriodModel.
Open Scope Z_scope.

(** The instant [t] belongs to the period. *)
Definition covers (p : period) (t : Z) : Prop := p_begin p <= t <= p_last p.
(** The period holds at least one instant. *)
Definition nonempty (p : period) : Prop := exists t, covers p t.
(** The instant belongs to one of the periods. *)
Definition covered (l : list period) (t : Z) : Prop := exists p, In p l /\ covers p t.
(** All instants of [p] precede all instants of [q]. *)
Definition precedes (p q : period) : Prop := forall t u, covers p t -> covers q u -> t < u.
(** Non-empty periods in chronological order, pairwise disjoint. *)
Definition chronological (l : list period) : Prop :=
  (forall p, In p l -> nonempty p) /\
  forall l1 p l2 q l3, l = l1 ++ p :: l2 ++ q :: l3 -> precedes p q.
(** Non-empty periods ordered by their beginning (overlaps allowed). *)
Definition ordered_by_begin (l : list period) : Prop :=
  (forall p, In p l -> nonempty p) /\
  forall l1 p l2 q l3, l = l1 ++ p :: l2 ++ q :: l3 -> p_begin p <= p_begin q.
(** Dates in chronological order. *)
Definition sorted_dates (d : list Z) : Prop :=
  forall l1 a l2 b l3, d = l1 ++ a :: l2 ++ b :: l3 -> a <= b.
(** [flag i] is exactly the truth of a predicate of the [i]th date. *)
Definition flags_exactly (P : Z -> Prop) (dates : list Z) (flags : list bool) : Prop :=
  Forall2 (fun d f => f = true <-> P d) dates flags.
