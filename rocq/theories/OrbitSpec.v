(** Specification vocabulary for the orbit tools: nothing here refers to the model. *)
From Coq Require Import List ZArith QArith Sorted Lia.
Import ListNotations.

(** The latitude number [i], and the place before [i] on the closed track of [n] points. *)
Definition at_ (lat : list Q) (i : nat) : Q := nth i lat 0%Q.
Definition before (n i : nat) : nat := match i with O => (n - 1)%nat | S k => k end.

(** The track goes north (south) when it reaches point [i]. *)
Definition northward (lat : list Q) (i : nat) : Prop :=
  (at_ lat (before (length lat) i) < at_ lat i)%Q.
Definition southward (lat : list Q) (i : nat) : Prop :=
  (at_ lat i < at_ lat (before (length lat) i))%Q.

(** Point [i] is the first one after a southern (northern) turning point of the track. *)
Definition after_south (lat : list Q) (i : nat) : Prop :=
  northward lat i /\ ~ northward lat (before (length lat) i).
Definition after_north (lat : list Q) (i : nat) : Prop :=
  southward lat i /\ ~ southward lat (before (length lat) i).

(** No two consecutive points have the same latitude. *)
Definition never_level (lat : list Q) : Prop :=
  forall i, (i < length lat)%nat -> ~ (at_ lat (before (length lat) i) == at_ lat i)%Q.

(** The times increase strictly. *)
Definition increasing (time : list Z) : Prop :=
  forall i j, (i < j)%nat -> (j < length time)%nat ->
  (nth i time 0 < nth j time 0)%Z.

(** From point [i] to point [j] (excluded) the track keeps going in the same direction. *)
Definition monotone_on (lat : list Q) (i j : nat) : Prop :=
  (forall m, (i <= m < j)%nat -> northward lat m) \/
  (forall m, (i <= m < j)%nat -> southward lat m).
