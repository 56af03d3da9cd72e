(** Specification vocabulary for interpolator objects. *)
From Verif Require Import Base InterpModel InterpSpec Interp1dModel.
Open Scope nat_scope.

(** [used packets kind sizes o]: [o] is an interpolator of that kind, new or already called
    any number of times, on data sets with strictly increasing abscissae whose number of
    points satisfies [sizes]. (Every call, for a value or a derivative, starts by
    [compute_coefficients]; a data set of a wrong size is refused before the object is
    changed.) *)
Inductive used (packets : nat -> nat -> list nat) (kind : string) (sizes : nat -> Prop) : interpolator -> Prop :=
| used_new : forall o, factory_1d kind = Ok o -> used packets kind sizes o
| used_again : forall o xa ya o', used packets kind sizes o -> increasing xa -> sizes (length xa) ->
    compute_coefficients packets o xa ya = Ok o' -> used packets kind sizes o'.
Definition any_size (n : nat) : Prop := True.

(** Vectorised loops treat every cell once, in order. *)
Definition all_cells (packets : nat -> nat -> list nat) : Prop := forall from n, list_sum (packets from n) = n.

(** [f] passes through the data points. *)
Definition passes (f : Q -> outcome (option Q)) (xa ya : list Q) : Prop :=
  forall i x, i < length xa -> (x == at_ xa i)%Q -> exists v, f x = Ok (Some v) /\ (v == at_ ya i)%Q.

(** The points lie on the line [a + b x]. *)
Definition on_line (a b : Q) (xa ya : list Q) : Prop :=
  forall i, i < length xa -> (at_ ya i == a + b * at_ xa i)%Q.

(** [f'] is the derivative of [f] inside every cell (both ends included): the rate of change
    differs from it by at most a constant times the distance. *)
Definition derivative_of (f f' : Q -> outcome (option Q)) (xa : list Q) : Prop :=
  forall i x, in_cell xa x i -> exists v v' K, f x = Ok (Some v) /\ f' x = Ok (Some v') /\
    forall y, in_cell xa y i -> exists w, f y = Ok (Some w) /\ (Qabs (w - v - v' * (y - x)) <= K * ((y - x) * (y - x)))%Q.
