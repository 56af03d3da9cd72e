(** Specification vocabulary for angles, spheroids and coordinates. *)
From Coq Require Import Reals.
From Verif Require Import Base RTreeModel.
Open Scope R_scope.

(** The angle, in degrees, as an angle in radians. *)
Definition angle_of (degrees : R) : R := degrees * PI / 180.
(** [theta] is the direction of the point (x, y), in degrees, counted from the x axis and between -180
    (excluded) and 180. *)
Definition direction (x y theta : R) : Prop :=
  -180 < theta <= 180 /\ exists rho, 0 < rho /\ x = rho * cos (angle_of theta) /\ y = rho * sin (angle_of theta).
(** A spheroid: semi-major axis and flattening. *)
Definition valid_spheroid (s : spheroid) : Prop := 0 < s_a s /\ s_f s < 1.
Definition minor (s : spheroid) : R := s_a s * (1 - s_f s).
Definition on_surface (s : spheroid) (p : point) : Prop := (px p ^ 2 + py p ^ 2) / s_a s ^ 2 + pz p ^ 2 / minor s ^ 2 = 1.
(** The same longitude up to whole turns. *)
Definition same_meridian (l l' : R) : Prop := exists k : Z, l = l' + IZR k * 360.
