(** Specification of the crossovers, independent of the code: tracks on the cylinder
    longitude x latitude, where longitudes are taken modulo 360. *)
From Coq Require Import List ZArith QArith Qabs.
Import ListNotations.
Open Scope Q_scope.

(** Same longitude, modulo a whole number of turns. *)
Definition same_lon (x y : Q) : Prop := exists k : Z, x == y + inject_Z k * 360.

Definition at_ (u : list Q) (i : nat) : Q := nth i u 0.

(** The track goes always eastward, or always westward, by less than 180 degrees from a
    point to the next. *)
Definition eastward (u : list Q) : Prop :=
  forall i, (S i < length u)%nat -> 0 < at_ u (S i) - at_ u i < 180.
Definition westward (u : list Q) : Prop :=
  forall i, (S i < length u)%nat -> 0 < at_ u i - at_ u (S i) < 180.

(** [u] is the list of longitudes [lon] unrolled: the same longitudes modulo 360, without
    jump at the seam. *)
Definition unrolled (lon u : list Q) : Prop :=
  length lon = length u /\
  (forall i, (i < length u)%nat -> same_lon (at_ lon i) (at_ u i)) /\
  (eastward u \/ westward u).

(** All the values are within a window of less than 360 degrees. *)
Definition within_turn (u : list Q) : Prop := forall x y, In x u -> In y u -> x - y < 360.

(** Point of parameter [s] of segment number [i]. *)
Definition along (u : list Q) (i : nat) (s : Q) : Q := at_ u i + s * (at_ u (S i) - at_ u i).
(** [i] is a segment of a track of [n] points, [s] a parameter on it. *)
Definition on_segment (n i : nat) (s : Q) : Prop := (S i < n)%nat /\ 0 <= s <= 1.

(** [(x, y)] is on the polygonal line of coordinates [us], [vs] of the plane. *)
Definition on_line (us vs : list Q) (p : Q * Q) : Prop :=
  exists i s, on_segment (length us) i s /\ fst p == along us i s /\ snd p == along vs i s.
(** [(x, y)] is on the same line drawn on the cylinder: the longitude counts modulo 360. *)
Definition on_track (us vs : list Q) (p : Q * Q) : Prop :=
  exists i s, on_segment (length us) i s /\ same_lon (fst p) (along us i s) /\ snd p == along vs i s.

(** Square of the distance in the plane. *)
Definition square_distance (p q : Q * Q) : Q :=
  (fst p - fst q) * (fst p - fst q) + (snd p - snd q) * (snd p - snd q).
(** [i] is the position of the point of [l] nearest to [p], the first one if several are
    at the same distance. *)
Definition first_nearest (l : list (Q * Q)) (p : Q * Q) (i : nat) : Prop :=
  (i < length l)%nat /\
  forall j, (j < length l)%nat ->
    square_distance (nth i l (0, 0)) p <= square_distance (nth j l (0, 0)) p /\
    ((j < i)%nat -> square_distance (nth i l (0, 0)) p < square_distance (nth j l (0, 0)) p).

(** [g] is the point [p] of the plane with its longitude brought to [-180, 180). *)
Definition geographic (p g : Q * Q) : Prop :=
  same_lon (fst g) (fst p) /\ -(180) <= fst g < 180 /\ snd g = snd p.

(** The point [k] of the track of coordinates [lon], [lat]. *)
Definition point_of (lon lat : list Q) (k : nat) : Q * Q := (at_ lon k, at_ lat k).

Section Report.
  Variables (distance : Q * Q -> Q * Q -> Q) (predicate : Q).
  Variables (lon1 lat1 lon2 lat2 : list Q) (n1 n2 : list (Q * Q)).

  (** [a] is what must be reported for the intersection [p] of the lines [n1], [n2]. *)
  Definition reported (p : Q * Q) (a : (Q * Q) * (nat * nat)) : Prop :=
    let '(g, (i, j)) := a in
    geographic p g /\ first_nearest n1 p i /\ first_nearest n2 p j /\
    distance g (point_of lon1 lat1 i) <= predicate /\ distance g (point_of lon2 lat2 j) <= predicate.
  (** Nothing must be reported for [p]: one of the two nearest points is too far. *)
  Definition too_far (p : Q * Q) : Prop :=
    exists g i j, geographic p g /\ first_nearest n1 p i /\ first_nearest n2 p j /\
      (predicate < distance g (point_of lon1 lat1 i) \/ predicate < distance g (point_of lon2 lat2 j)).
  (** The report of a list of points, in order. *)
  Inductive listed : list (Q * Q) -> list ((Q * Q) * (nat * nat)) -> Prop :=
  | listed_nil : listed [] []
  | listed_keep : forall p t a r, reported p a -> listed t r -> listed (p :: t) (a :: r)
  | listed_skip : forall p t r, too_far p -> listed t r -> listed (p :: t) r.
End Report.

(** Same coordinates. *)
Definition same_place (p q : Q * Q) : Prop := fst p == fst q /\ snd p == snd q.
