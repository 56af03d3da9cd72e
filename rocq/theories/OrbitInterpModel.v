(** Model of [pyinterp.orbit.interpolate] (src/pyinterp/orbit.py:23-92).

    Simplification: exact reals (see GeodesyModel.v); NaN is [None].  [core.interpolate1d] (C63) on the axis
    [xp - xp[0]] at the coordinates [xi - xp[0]] is a parameter, from the values at the nodes to the values at
    [xi]; the conversion [wgs.ecef_to_lla] is one too, GeodesyModel.ecef_to_lla in the code. *)
From Coq Require Import Reals List.
From Verif Require Import Base WindowModel RTreeModel GeodesyModel.
Import ListNotations.
Open Scope R_scope.

Section Interpolate.
  Variable to_lla : point -> option point.
  Variable interp : list R -> list (option R).
  Variable s : spheroid.

  (** orbit.py:48. *)
  Definition stretch : R := s_a s / semi_minor_axis s.
  (** orbit.py:49-53. *)
  Definition ecef (height : R) (lon lat : list R) : list point :=
    map (fun p => lla_to_ecef s (fst p, snd p, height)) (combine lon lat).
  (** orbit.py:55. *)
  Definition radius (p : point) : R := sqrt (px p * px p + py p * py p + pz p * pz p * stretch * stretch).
  (** orbit.py:85-88, one element. *)
  Definition position (x y z r : R) : option point :=
    rbind (rdiv r (sqrt (x * x + y * y + z * z))) (fun r => Some (x * r, y * r, z * (r * (1 / stretch)))).
  (** orbit.py:85-90, one element. *)
  Definition element (e : option R * option R * option R * option R) : option (R * R) :=
    let '(x, y, z, r) := e in
    rbind x (fun x => rbind y (fun y => rbind z (fun z => rbind r (fun r =>
      rbind (position x y z r) (fun q => rbind (to_lla q) (fun p => Some (px p, py p))))))).
  (** orbit.py:23-92: longitude and latitude at each [xi]. *)
  Definition interpolate (height : R) (lon lat : list R) : list (option (R * R)) :=
    let p := ecef height lon lat in
    map element (combine (combine (combine (interp (map px p)) (interp (map py p))) (interp (map pz p))) (interp (map radius p))).
End Interpolate.
