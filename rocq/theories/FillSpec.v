(** Specification vocabulary for gap filling. *)
From Verif Require Import Base.
Open Scope Z_scope.

(** Position [i] of the line is defined ([false] in the mask of undefined values). *)
Definition defined_at (mask : list bool) (i : nat) : Prop := nth_error mask i = Some false.
(** [i] lies in the gap between the neighbouring defined positions [a] and [b]. *)
Definition gap (mask : list bool) (a i b : nat) : Prop :=
  (a < i < b)%nat /\ defined_at mask a /\ defined_at mask b /\ forall k, (a < k < b)%nat -> ~ defined_at mask k.
Definition first_defined (mask : list bool) (f : nat) : Prop :=
  defined_at mask f /\ forall k, (k < f)%nat -> ~ defined_at mask k.
Definition last_defined (mask : list bool) (l : nat) : Prop :=
  defined_at mask l /\ forall k, (l < k)%nat -> ~ defined_at mask k.

(** Mirror image of an index about both ends of [0, size): period 2 (size - 1). *)
Definition mirror (size i : Z) : Z :=
  let r := i mod (2 * (size - 1)) in if r <? size then r else 2 * (size - 1) - r.

(** At least two positions of the line are defined. *)
Definition two_defined (mask : list bool) : Prop :=
  exists a b, (a < b)%nat /\ defined_at mask a /\ defined_at mask b.
(** The same for row [i] of a matrix mask with [nc] columns. *)
Definition row_two_defined (mask : nat -> nat -> bool) (nc i : nat) : Prop :=
  exists a b, (a < b < nc)%nat /\ mask i a = false /\ mask i b = false.
(** The value at [i] of the straight line through [(a, xa)] and [(b, xb)]. *)
Definition on_line (xa xb : Q) (a i b : nat) : Q :=
  (xa + (xb - xa) * (inject_Z (Z.of_nat i - Z.of_nat a) / inject_Z (Z.of_nat b - Z.of_nat a)))%Q.
