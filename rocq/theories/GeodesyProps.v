(** Theorems about angles, spheroids and coordinates (C75 to C79). *)
From Coq Require Import Reals Ratan Lra Lia Psatz Permutation.
From Verif Require Import Base WindowModel WindowProofs RTreeModel RTreeSpec RTreeProofs GeodesyModel GeodesySpec GeodesyProofs.
Open Scope R_scope.

(** * C75 trigonometric functions of degrees *)
Theorem C75_degrees : forall x, sind x = sin (angle_of x) /\ cosd x = cos (angle_of x) /\ sincosd x = (sin (angle_of x), cos (angle_of x)).
Proof. intro x. split; [apply sind_spec|]. split; [apply cosd_spec|apply sincosd_spec]. Qed.
Print Assumptions C75_degrees.
Theorem C75_tangent : forall x, (cos (angle_of x) <> 0 -> tand x = Some (tan (angle_of x))) /\ (cos (angle_of x) = 0 -> tand x = None).
Proof.
  intro x. unfold tand. rewrite sincosd_spec. split; intro H; [apply Reqb_false in H|apply Reqb_true in H]; rewrite H; reflexivity.
Qed.
(** Exact values: a whole number of quarter turns gives exactly 0, 1 or -1 (the reduction has no rest). *)
Theorem C75_quarters : forall k : Z, sincosd (IZR k * 90) = match (k mod 4)%Z with 0%Z => (0, 1) | 1%Z => (1, 0) | 2%Z => (0, -1) | _ => (-1, 0) end /\
  fst (remquo (IZR k * 90) 90) = 0.
Proof.
  intro k. assert (E : rint_even (IZR k * 90 / 90) = k).
  { replace (IZR k * 90 / 90) with (IZR k) by field. unfold rint_even. assert (I : Int_part (IZR k) = k).
    { destruct (base_Int_part (IZR k)) as [A B]. apply le_IZR in A. assert (X : IZR (Int_part (IZR k)) > IZR k - 1) by lra. rewrite <- minus_IZR in X. apply Rgt_lt, lt_IZR in X. lia. }
    rewrite I. assert (Z : Rltb (IZR k - IZR k) (1 / 2) = true) by (apply Rltb_true; lra). rewrite Z. reflexivity. }
  unfold sincosd, remquo. rewrite E. cbn [fst]. rewrite quotient_mod4. replace (IZR k * 90 - IZR k * 90) with 0 by ring. split; [|reflexivity].
  replace (radians 0) with 0 by (unfold radians; field). rewrite sin_0, cos_0. destruct (mod4_cases k) as [J|[J|[J|J]]]; rewrite J; f_equal; ring.
Qed.
(** The argument given to the functions of the C library is at most 45 degrees. *)
Theorem C75_reduced : forall x, -45 <= fst (remquo x 90) <= 45.
Proof. intro x. cbn [remquo fst]. pose proof (rint_even_near (x / 90)). lra. Qed.

(** * C76 direction of a vector *)
Theorem C76_atan2 : forall x y, x <> 0 \/ y <> 0 -> direction x y (atan2d y x).
Proof. exact atan2d_spec. Qed.
Print Assumptions C76_atan2.
Theorem C76_inverse : forall theta rho, -180 < theta <= 180 -> 0 < rho -> atan2d (rho * sind theta) (rho * cosd theta) = theta.
Proof.
  intros theta rho T R. rewrite sind_spec, cosd_spec. eapply direction_unique; [apply atan2d_spec|split; [exact T|exists rho; auto]].
  pose proof (sin2_cos2 (angle_of theta)) as I. unfold Rsqr in I. destruct (Req_dec (rho * cos (angle_of theta)) 0) as [E|E]; [right|left; exact E]. intro F. assert (cos (angle_of theta) = 0) by nra. assert (sin (angle_of theta) = 0) by nra. rewrite H, H0 in I. lra.
Qed.
Theorem C76_atan : forall x, -90 < atand x < 90 /\ tan (angle_of (atand x)) = x.
Proof.
  intro x. assert (D : direction 1 x (atand x)) by (apply atan2d_spec; left; lra). destruct D as (B & r & R & X & Y). set (t := atand x) in *.
  assert (C : 0 < cos (angle_of t)) by (apply (Rmult_lt_reg_l r); [exact R|rewrite <- X; lra]). split; [|unfold tan; rewrite Y; apply (Rmult_eq_reg_l (r * cos (angle_of t))); [rewrite <- X at 2; field; lra|nra]].
  pose proof PI_RGT_0 as P. split; apply Rnot_le_lt; intro H.
  - assert (cos (angle_of t) <= 0); [|lra]. rewrite <- cos_neg. apply cos_le_0; unfold angle_of; nra.
  - assert (cos (angle_of t) <= 0); [|lra]. apply cos_le_0; unfold angle_of; nra.
Qed.

(** * C77 geodetic to Cartesian coordinates *)
Lemma minor_eq : forall s, semi_minor_axis s = minor s.
Proof. reflexivity. Qed.
Lemma e2_eq : forall s, valid_spheroid s -> first_eccentricity_squared s = 1 - (1 - s_f s) ^ 2.
Proof. intros s [A F]. unfold first_eccentricity_squared, semi_minor_axis, sqr. field. lra. Qed.
Definition vertical (s : spheroid) (lat : R) : R := s_a s / sqrt (1 - first_eccentricity_squared s * sqr (sin (angle_of lat))).
Lemma unit : forall t, sin t * sin t + cos t * cos t = 1.
Proof. intro t. pose proof (sin2_cos2 t) as I. unfold Rsqr in I. exact I. Qed.
Lemma root_pos : forall s lat, valid_spheroid s -> 0 < 1 - first_eccentricity_squared s * sqr (sin (angle_of lat)).
Proof.
  intros s lat V. rewrite (e2_eq s V). destruct V as [A F]. pose proof (unit (angle_of lat)) as U. unfold sqr. set (si := sin _) in *. set (co := cos _) in *.
  replace (1 - (1 - (1 - s_f s) ^ 2) * (si * si)) with (co * co + ((1 - s_f s) * si) ^ 2) by (replace (co * co) with (1 - si * si) by lra; ring).
  destruct (Req_dec si 0) as [Z|Z]; [rewrite Z in *; nra|]. assert (0 < ((1 - s_f s) * si) ^ 2) by (replace (((1 - s_f s) * si) ^ 2) with (Rsqr ((1 - s_f s) * si)) by (unfold Rsqr; ring); apply Rsqr_pos_lt; apply Rmult_integral_contrapositive; split; lra). nra.
Qed.
Lemma vertical_pos : forall s lat, valid_spheroid s -> 0 < vertical s lat.
Proof. intros s lat V. unfold vertical. apply Rdiv_lt_0_compat; [apply V|apply sqrt_lt_R0, root_pos; exact V]. Qed.
Lemma vertical_sq : forall s lat, valid_spheroid s -> vertical s lat * vertical s lat * (1 - first_eccentricity_squared s * sqr (sin (angle_of lat))) = s_a s * s_a s.
Proof.
  intros s lat V. pose proof (root_pos s lat V) as P. unfold vertical. set (g := 1 - _) in *. pose proof (sqrt_sqrt g ltac:(lra)) as S. pose proof (sqrt_lt_R0 g P) as Q. set (r := sqrt g) in *. rewrite <- S. field. lra.
Qed.
Lemma ecef_eq : forall s lon lat alt, lla_to_ecef s (lon, lat, alt) =
  ((vertical s lat + alt) * cos (angle_of lat) * cos (angle_of lon), (vertical s lat + alt) * cos (angle_of lat) * sin (angle_of lon), (vertical s lat * (1 - first_eccentricity_squared s) + alt) * sin (angle_of lat)).
Proof. intros. unfold lla_to_ecef, vertical. cbn [px py pz fst snd]. rewrite !sincosd_spec. reflexivity. Qed.

(** At altitude zero: the point of the spheroid on the meridian [lon] whose normal makes the angle
    [lat] with the equator. *)
Theorem C77_surface : forall s lon lat, valid_spheroid s -> on_surface s (lla_to_ecef s (lon, lat, 0)).
Proof.
  intros s lon lat V. rewrite ecef_eq. unfold on_surface. cbn [px py pz fst snd]. pose proof (vertical_sq s lat V) as N. pose proof (unit (angle_of lon)) as U. pose proof (unit (angle_of lat)) as U'. rewrite (e2_eq s V) in *. unfold minor, sqr in *. destruct V as [A F].
  set (n := vertical s lat) in *. set (cl := cos (angle_of lon)) in *. set (sl := sin (angle_of lon)) in *. set (c := cos (angle_of lat)) in *. set (si := sin (angle_of lat)) in *. set (q := 1 - s_f s) in *. set (a := s_a s) in *.
  assert (Q : 0 < q) by (unfold q; lra).
  replace ((((n + 0) * c * cl) ^ 2 + ((n + 0) * c * sl) ^ 2) / a ^ 2 + ((n * (1 - (1 - q ^ 2)) + 0) * si) ^ 2 / (a * q) ^ 2) with (n * n * (c * c * (sl * sl + cl * cl) + q ^ 2 * (si * si)) / (a * a)) by (field; split; lra).
  rewrite U. replace (c * c * 1 + q ^ 2 * (si * si)) with (1 - (1 - q ^ 2) * (si * si)) by (replace (c * c) with (1 - si * si) by lra; ring). rewrite N. field. lra.
Qed.
Print Assumptions C77_surface.
Theorem C77_normal : forall s lon lat, valid_spheroid s ->
  let p := lla_to_ecef s (lon, lat, 0) in exists k, 0 < k /\
  px p / s_a s ^ 2 = k * (cos (angle_of lat) * cos (angle_of lon)) /\ py p / s_a s ^ 2 = k * (cos (angle_of lat) * sin (angle_of lon)) /\ pz p / minor s ^ 2 = k * sin (angle_of lat).
Proof.
  intros s lon lat V. cbn zeta. rewrite ecef_eq. cbn [px py pz fst snd]. pose proof (vertical_pos s lat V) as P. rewrite (e2_eq s V). destruct V as [A F]. exists (vertical s lat / s_a s ^ 2). split; [apply Rdiv_lt_0_compat; [exact P|nra]|].
  unfold minor. repeat split; field; repeat split; lra.
Qed.
(** The altitude is counted along the normal: two points of a same vertical are at the distance of their
    altitudes. *)
Theorem C77_altitude : forall s lon lat h h', dist (lla_to_ecef s (lon, lat, h)) (lla_to_ecef s (lon, lat, h')) = Rabs (h - h').
Proof.
  intros s lon lat h h'. rewrite !ecef_eq. unfold dist. cbn [px py pz fst snd]. pose proof (unit (angle_of lon)) as U. pose proof (unit (angle_of lat)) as U'.
  set (n := vertical s lat). set (e := first_eccentricity_squared s). set (cl := cos (angle_of lon)) in *. set (sl := sin (angle_of lon)) in *. set (c := cos (angle_of lat)) in *. set (si := sin (angle_of lat)) in *.
  rewrite <- sqrt_Rsqr_abs. f_equal. unfold Rsqr.
  transitivity ((h - h') * (h - h') * (c * c * (sl * sl + cl * cl) + si * si)); [ring|]. rewrite U. replace (c * c * 1 + si * si) with 1 by lra. ring.
Qed.
Print Assumptions C77_altitude.
(** Whole turns do not matter; different positions of the surface are different points. *)
Theorem C77_turns : forall s lon lat alt k, lla_to_ecef s (lon + IZR k * 360, lat, alt) = lla_to_ecef s (lon, lat, alt).
Proof.
  intros s lon lat alt k. rewrite !ecef_eq. assert (E : angle_of (lon + IZR k * 360) = angle_of lon + 2 * IZR k * PI) by (unfold angle_of; field). rewrite E, sin_turns, cos_turns. reflexivity.
Qed.
Theorem C77_injective : forall s lon lat lon' lat', valid_spheroid s -> -90 < lat < 90 -> -90 < lat' < 90 -> -180 < lon <= 180 -> -180 < lon' <= 180 ->
  lla_to_ecef s (lon, lat, 0) = lla_to_ecef s (lon', lat', 0) -> lon = lon' /\ lat = lat'.
Proof.
  intros s lon lat lon' lat' V L L' M M' E. rewrite !ecef_eq in E. injection E as EX EY EZ. rewrite !Rplus_0_r in *.
  pose proof (vertical_pos s lat V) as P. pose proof (vertical_pos s lat' V) as P'. pose proof PI_RGT_0 as PI0.
  assert (C : 0 < cos (angle_of lat)) by (apply cos_gt_0; unfold angle_of; nra). assert (C' : 0 < cos (angle_of lat')) by (apply cos_gt_0; unfold angle_of; nra).
  rewrite (e2_eq s V) in EZ. destruct V as [A F]. set (n := vertical s lat) in *. set (n' := vertical s lat') in *.
  set (x := n * cos (angle_of lat) * cos (angle_of lon)) in *. set (y := n * cos (angle_of lat) * sin (angle_of lon)) in *.
  assert (NP : 0 < n * cos (angle_of lat)) by (apply Rmult_lt_0_compat; assumption). assert (NP' : 0 < n' * cos (angle_of lat')) by (apply Rmult_lt_0_compat; assumption).
  assert (LON : lon = lon') by (apply (direction_unique x y); split; auto; [exists (n * cos (angle_of lat)); auto|exists (n' * cos (angle_of lat')); auto]).
  split; [exact LON|]. subst lon'.
  assert (W : n * cos (angle_of lat) = n' * cos (angle_of lat')).
  { pose proof (unit (angle_of lon)) as U. set (u := n * cos (angle_of lat)) in *. set (v := n' * cos (angle_of lat')) in *. assert (u * u = v * v).
    { transitivity (x * x + y * y); [unfold x, y; replace (u * u) with (u * u * (sin (angle_of lon) * sin (angle_of lon) + cos (angle_of lon) * cos (angle_of lon))) by (rewrite U; ring); ring|].
      rewrite EX, EY. replace (v * v) with (v * v * (sin (angle_of lon) * sin (angle_of lon) + cos (angle_of lon) * cos (angle_of lon))) by (rewrite U; ring). ring. }
    nra. }
  assert (Q : 1 - (1 - (1 - s_f s) ^ 2) <> 0) by (assert (0 < (1 - s_f s) ^ 2) by (apply pow_lt; lra); lra).
  assert (S : n * sin (angle_of lat) = n' * sin (angle_of lat')) by (apply (Rmult_eq_reg_r (1 - (1 - (1 - s_f s) ^ 2))); [lra|exact Q]).
  apply (direction_unique (n * cos (angle_of lat)) (n * sin (angle_of lat))); (split; [lra|]); [exists n; auto|exists n'; auto].
Qed.
Print Assumptions C77_injective.
Example C77_ex : valid_spheroid wgs84.
Proof. unfold valid_spheroid, wgs84. cbn [s_a s_f]. lra. Qed.

(** * C78 Cartesian to geodetic coordinates *)
(** The longitude is exact for every spheroid. *)
Theorem C78_longitude : forall s t lon lat alt r, valid_spheroid s -> -180 < lon <= 180 -> -90 < lat < 90 -> 0 < vertical s lat + alt ->
  ecef_to_lla t (lla_to_ecef s (lon, lat, alt)) = Some r -> px r = lon.
Proof.
  intros s t lon lat alt r V M L P E. rewrite ecef_eq in E. unfold ecef_to_lla in E. cbn [px py pz fst snd] in E.
  destruct (olson _ _ _) as [o|]; cbn [rbind] in E; [|discriminate]. injection E as <-. cbn [px fst snd].
  pose proof PI_RGT_0 as PI0. assert (C : 0 < cos (angle_of lat)) by (apply cos_gt_0; unfold angle_of; nra). rewrite <- sind_spec, <- (cosd_spec lon). apply C76_inverse; [exact M|]. apply Rmult_lt_0_compat; assumption.
Qed.
Print Assumptions C78_longitude.
(** The other two coordinates only depend on the distance to the axis and on z; changing the sign of z
    changes the sign of the latitude. *)
Theorem C78_meridian : forall t x y x' y' z r, x * x + y * y = x' * x' + y' * y' -> ecef_to_lla t (x, y, z) = Some r ->
  exists r', ecef_to_lla t (x', y', z) = Some r' /\ py r' = py r /\ pz r' = pz r.
Proof.
  intros t x y x' y' z r D E. unfold ecef_to_lla in *. cbn [px py pz fst snd] in *. replace (sqr x' + sqr y') with (sqr x + sqr y) by (unfold sqr; exact D).
  destruct (olson _ _ _) as [o|]; cbn [rbind] in *; [|discriminate]. injection E as <-. eexists. split; [reflexivity|]. split; reflexivity.
Qed.
Lemma degrees_opp : forall u, degrees (- u) = - degrees u.
Proof. intro u. unfold degrees, Rdiv. ring. Qed.
Theorem C78_symmetric : forall t x y z r, 0 < z -> ecef_to_lla t (x, y, z) = Some r -> ecef_to_lla t (x, y, - z) = Some (px r, - py r, pz r).
Proof.
  intros t x y z r Z E. unfold ecef_to_lla, olson in *. cbn [px py pz fst snd] in *. rewrite Rabs_Ropp. replace (sqr (- z)) with (sqr z) by (unfold sqr; ring).
  destruct (rdiv 1 _) as [i|] in *; cbn [rbind] in *; [|discriminate]. destruct (if Rltb (3 / 10) _ then _ else _) as [[[a b] c] d] in *. assert (F : Rltb z 0 = false) by (apply Rltb_false; lra). assert (T : Rltb (- z) 0 = true) by (apply Rltb_true; lra). rewrite F in E. rewrite T. cbn [rbind fst snd] in *. injection E as <-. cbn [px py pz fst snd]. rewrite degrees_opp. reflexivity.
Qed.
Theorem C78_centre : forall t, ecef_to_lla t (0, 0, 0) = None.
Proof.
  intro t. unfold ecef_to_lla, olson. cbn [px py pz fst snd]. unfold rdiv. assert (E : Reqb (sqr 0 + sqr 0 + sqr 0) 0 = true) by (apply Reqb_true; unfold sqr; ring). rewrite E. reflexivity.
Qed.

Lemma sqrt_inv : forall r, 0 < r -> sqrt (1 / (r * r)) = 1 / r.
Proof. intros r R. replace (1 / (r * r)) with ((1 / r)²) by (unfold Rsqr; field; lra). apply sqrt_Rsqr. left. apply Rdiv_lt_0_compat; lra. Qed.
Lemma pos_sq : forall r, 0 < r -> 0 < r * r.
Proof. intros. apply Rmult_lt_0_compat; assumption. Qed.

(** In the plane of the equator and on the axis the conversion is exact, whatever the spheroid. *)
Theorem C78_equator_partial : forall s lon alt, valid_spheroid s -> -180 < lon <= 180 -> - s_a s < alt ->
  ecef_to_lla s (lla_to_ecef s (lon, 0, alt)) = Some (lon, 0, alt).
Proof.
  intros s lon alt V M H. assert (S0 : sin (angle_of 0) = 0) by (unfold angle_of; transitivity (sin 0); [f_equal; field|exact sin_0]). assert (C0 : cos (angle_of 0) = 1) by (unfold angle_of; transitivity (cos 0); [f_equal; field|exact cos_0]).
  assert (N : vertical s 0 = s_a s) by (unfold vertical; rewrite S0; unfold sqr; replace (1 - _ * (0 * 0)) with 1 by ring; rewrite sqrt_1; field).
  pose proof (C78_longitude s s lon 0 alt) as LON. rewrite ecef_eq in *. rewrite N, S0, C0 in *. pose proof (unit (angle_of lon)) as U. destruct V as [A F]. set (r := s_a s + alt) in *. assert (R : 0 < r) by (unfold r; lra).
  unfold ecef_to_lla in *. cbn [px py pz fst snd] in *. rewrite Rmult_0_r in *.
  assert (W2 : sqr (r * 1 * cos (angle_of lon)) + sqr (r * 1 * sin (angle_of lon)) = r * r).
  { unfold sqr. transitivity (r * r * (sin (angle_of lon) * sin (angle_of lon) + cos (angle_of lon) * cos (angle_of lon))); [ring|rewrite U; ring]. }
  rewrite W2 in *.
  assert (O : olson s (r * r) 0 = Some (0, alt)).
  2: { rewrite O in *. cbn [rbind fst snd] in *. specialize (LON _ (conj A F) M ltac:(lra) R eq_refl). cbn [px fst snd] in LON. rewrite LON. f_equal. f_equal. f_equal. unfold degrees, Rdiv. ring. }
  clear LON W2. unfold olson. rewrite sqrt_square by lra. replace (r * r + sqr 0) with (r * r) by (unfold sqr; ring). pose proof (pos_sq r R) as RR. rewrite rdiv_some by lra. cbn [rbind].
  replace (r * r * (1 / (r * r))) with 1 by (field; lra). assert (T : Rltb (3 / 10) 1 = true) by (apply Rltb_true; lra). rewrite T. rewrite Rabs_R0.
  match goal with |- context [0 * ?I * ?B] => replace (0 * I * B) with 0 by ring end. replace (1 - 0 * 0) with 1 by ring. rewrite sqrt_1, asin_0. replace (1 - _ * (0 * 0)) with 1 by ring. rewrite sqrt_1.
  assert (Z : Rltb 0 0 = false) by (apply Rltb_false; lra). rewrite Z. replace (1 * (0 - _ * 0) - 0 * _) with 0 by ring. unfold Rdiv. rewrite !Rmult_0_l. f_equal. unfold r. f_equal; [ring|field].
Qed.
Print Assumptions C78_equator_partial.
Lemma angle_m90 : angle_of (-90) = - (PI / 2).
Proof. unfold angle_of. field. Qed.
Lemma atan2d_00 : atan2d 0 0 = 0.
Proof.
  unfold atan2d. assert (Z : Rltb (Rabs 0) (Rabs 0) = false) by (apply Rltb_false; lra). rewrite Z. assert (Z' : Rltb 0 0 = false) by (apply Rltb_false; lra). rewrite Z'. unfold std_atan2. assert (Z'' : Reqb 0 0 = true) by (apply Reqb_true; reflexivity). rewrite Z''. unfold degrees, Rdiv. ring.
Qed.
Lemma curvature_pole : forall s, valid_spheroid s -> (1 - first_eccentricity_squared s) * (s_a s / sqrt (1 - first_eccentricity_squared s)) = minor s.
Proof.
  intros s V. rewrite (e2_eq s V). destruct V as [A F]. replace (1 - (1 - (1 - s_f s) ^ 2)) with ((1 - s_f s) * (1 - s_f s)) by ring. rewrite sqrt_square by lra. unfold minor. field. lra.
Qed.
Theorem C78_poles_partial : forall s lon alt (north : bool), valid_spheroid s -> - minor s < alt ->
  let lat := if north then 90 else -90 in ecef_to_lla s (lla_to_ecef s (lon, lat, alt)) = Some (0, lat, alt).
Proof.
  intros s lon alt north V H. cbn zeta. set (sg := if north then 1 else -1). set (lat := if north then 90 else -90).
  assert (SC : sin (angle_of lat) = sg /\ cos (angle_of lat) = 0).
  { unfold lat, sg. destruct north; [rewrite angle_90; split; [exact sin_PI2|exact cos_PI2]|rewrite angle_m90, sin_neg, cos_neg, sin_PI2, cos_PI2; split; lra]. }
  destruct SC as [S C]. assert (SS : sg * sg = 1) by (unfold sg; destruct north; lra).
  assert (N : vertical s lat = s_a s / sqrt (1 - first_eccentricity_squared s)) by (unfold vertical, sqr; rewrite S, SS, Rmult_1_r; reflexivity).
  pose proof (curvature_pole s V) as CP. rewrite ecef_eq. rewrite N, S, C. unfold ecef_to_lla. cbn [px py pz fst snd].
  replace ((_ + alt) * 0 * cos _) with 0 by ring. replace ((_ + alt) * 0 * sin _) with 0 by ring. rewrite atan2d_00.
  replace (s_a s / sqrt (1 - first_eccentricity_squared s) * (1 - first_eccentricity_squared s)) with (minor s) by (rewrite <- CP; ring). set (r := minor s + alt) in *. assert (R : 0 < r) by (unfold r; lra).
  assert (O : olson s (sqr 0 + sqr 0) (r * sg) = Some (angle_of lat, alt)); [|rewrite O; cbn [rbind fst snd]; rewrite degrees_angle; reflexivity].
  unfold olson. replace (sqr 0 + sqr 0) with 0 by (unfold sqr; ring). rewrite sqrt_0. replace (0 + sqr (r * sg)) with (r * r) by (unfold sqr; replace (r * sg * (r * sg)) with (r * r * (sg * sg)) by ring; rewrite SS; ring).
  pose proof (pos_sq r R) as RR. rewrite rdiv_some by lra. cbn [rbind]. replace (0 * (1 / (r * r))) with 0 by ring. assert (T : Rltb (3 / 10) 0 = false) by (apply Rltb_false; lra). rewrite T.
  match goal with |- context [acos (0 * ?I * ?B)] => replace (0 * I * B) with 0 by ring end. rewrite acos_0. replace (1 - 0 * 0) with 1 by ring. rewrite sqrt_1, !Rmult_1_r, CP.
  assert (AB : Rabs (r * sg) = r) by (unfold sg; destruct north; [rewrite Rabs_right; lra|rewrite Rabs_left; lra]). rewrite AB.
  replace (0 * (r - minor s) - 1 * (0 - _ * 0)) with 0 by ring. match goal with |- context [0 / ?X] => replace (0 / X) with 0 by (unfold Rdiv; ring) end. rewrite Rplus_0_r. f_equal. unfold r. f_equal; [|unfold Rdiv; ring]. unfold sg, lat. destruct north.
  - assert (Z : Rltb ((minor s + alt) * 1) 0 = false) by (apply Rltb_false; unfold r in R; lra). rewrite Z. symmetry. exact angle_90.
  - assert (Z : Rltb ((minor s + alt) * -1) 0 = true) by (apply Rltb_true; unfold r in R; lra). rewrite Z. symmetry. exact angle_m90.
Qed.
Print Assumptions C78_poles_partial.

(** On a sphere the conversions are inverse of each other. *)
Theorem C78_sphere_partial : forall a lon lat alt, 0 < a -> -180 < lon <= 180 -> -90 < lat < 90 -> - a < alt ->
  ecef_to_lla (Spheroid a 0) (lla_to_ecef (Spheroid a 0) (lon, lat, alt)) = Some (lon, lat, alt).
Proof.
  intros a lon lat alt A M L H. set (sp := Spheroid a 0). assert (V : valid_spheroid sp) by (split; cbn; lra).
  assert (E0 : first_eccentricity_squared sp = 0) by (rewrite (e2_eq sp V); cbn [sp s_f]; ring).
  assert (N : vertical sp lat = a) by (unfold vertical; rewrite E0; replace (1 - 0 * _) with 1 by ring; rewrite sqrt_1; cbn [sp s_a]; field).
  pose proof (C78_longitude sp sp lon lat alt) as LON. rewrite ecef_eq in *. rewrite N, E0 in *. replace (a * (1 - 0) + alt) with (a + alt) in * by ring.
  set (r := a + alt) in *. assert (R : 0 < r) by (unfold r; lra). pose proof PI_RGT_0 as PI0.
  assert (C : 0 < cos (angle_of lat)) by (apply cos_gt_0; unfold angle_of; nra). pose proof (unit (angle_of lon)) as U. pose proof (unit (angle_of lat)) as U'.
  assert (W2 : sqr (r * cos (angle_of lat) * cos (angle_of lon)) + sqr (r * cos (angle_of lat) * sin (angle_of lon)) = (r * cos (angle_of lat)) * (r * cos (angle_of lat))).
  { unfold sqr. transitivity (r * cos (angle_of lat) * (r * cos (angle_of lat)) * (sin (angle_of lon) * sin (angle_of lon) + cos (angle_of lon) * cos (angle_of lon))); [ring|rewrite U; ring]. }
  unfold ecef_to_lla in *. cbn [px py pz fst snd] in *. rewrite W2 in *.
  assert (O : olson sp (r * cos (angle_of lat) * (r * cos (angle_of lat))) (r * sin (angle_of lat)) = Some (angle_of lat, alt)).
  2: { rewrite O in *. cbn [rbind fst snd] in *. rewrite degrees_angle in *. specialize (LON _ V M L R eq_refl). cbn [px fst snd] in LON. rewrite LON. reflexivity. }
  clear LON W2. set (c := cos (angle_of lat)) in *. set (si := sin (angle_of lat)) in *. unfold olson. rewrite E0. cbn [sp s_a].
  assert (AS : Rabs (r * si) = r * Rabs si) by (rewrite Rabs_mult, (Rabs_right r) by lra; reflexivity). rewrite AS.
  assert (SB : Rabs si * Rabs si = si * si) by (rewrite <- Rabs_mult; apply Rabs_right; nra).
  assert (S01 : 0 <= Rabs si <= 1) by (split; [apply Rabs_pos|]; pose proof (Rabs_pos si); nra).
  assert (LA : asin (Rabs si) = Rabs (angle_of lat) /\ acos c = Rabs (angle_of lat)).
  { assert (B : - (PI / 2) < angle_of lat < PI / 2) by (unfold angle_of; nra). unfold si, c. destruct (Rlt_le_dec (angle_of lat) 0) as [G|G].
    - rewrite (Rabs_left (angle_of lat)) by lra. split; [|rewrite <- cos_neg; apply acos_cos; lra]. rewrite Rabs_left; [|rewrite <- (Ropp_involutive (sin _)), <- sin_neg; assert (0 < sin (- angle_of lat)) by (apply sin_gt_0; lra); lra]. rewrite <- sin_neg. apply asin_sin. lra.
    - rewrite (Rabs_right (angle_of lat)) by lra. split; [|apply acos_cos; lra]. rewrite Rabs_right; [apply asin_sin; lra|]. apply Rle_ge, sin_ge_0; lra. }
  assert (SG : (if Rltb (r * si) 0 then - Rabs (angle_of lat) else Rabs (angle_of lat)) = angle_of lat).
  { destruct (Rltb (r * si) 0) eqn:G; [apply Rltb_true in G|apply Rltb_false in G].
    - assert (si < 0) by (apply (Rmult_lt_reg_l r); lra). rewrite Rabs_left; [ring|]. apply Rnot_le_lt. intro Q. assert (0 <= si) by (apply sin_ge_0; unfold angle_of in *; nra). lra.
    - assert (0 <= si) by (apply (Rmult_le_reg_l r); lra). rewrite Rabs_right; [ring|]. apply Rle_ge, Rnot_lt_le. intro Q. assert (QQ : 0 < sin (- angle_of lat)) by (apply sin_gt_0; unfold angle_of in *; nra). rewrite sin_neg in QQ. change (sin (angle_of lat)) with si in QQ. lra. }
  rewrite sqrt_square by (apply Rmult_le_pos; lra).
  assert (R2 : r * c * (r * c) + sqr (r * si) = r * r) by (unfold sqr; replace (r * c * (r * c) + r * si * (r * si)) with (r * r * (si * si + c * c)) by ring; rewrite U'; ring).
  rewrite R2. pose proof (pos_sq r R) as RR. rewrite rdiv_some by lra. cbn [rbind]. rewrite (sqrt_inv r R).
  replace (r * c * (r * c) * (1 / (r * r))) with (c * c) by (field; lra).
  match goal with |- context [if Rltb (3 / 10) (c * c) then ?A else ?B] => assert (BR : (if Rltb (3 / 10) (c * c) then A else B) = (Rabs si, c, si * si, Rabs (angle_of lat))) end.
  { destruct (Rltb (3 / 10) (c * c)).
    - replace (r * Rabs si * (1 / r) * (1 + _)) with (Rabs si) by (field; lra). rewrite (proj1 LA), SB. replace (1 - si * si) with (c * c) by lra. rewrite sqrt_square by lra. reflexivity.
    - replace (r * c * (1 / r) * (1 - _)) with c by (field; lra). rewrite (proj2 LA). replace (1 - c * c) with (si * si) by lra. rewrite <- SB, sqrt_square by lra. reflexivity. }
  rewrite BR. clear BR. replace (1 - 0 * (si * si)) with 1 by ring. rewrite sqrt_1. replace (a / 1) with a by field.
  assert (MZ : c * (r * Rabs si - (1 - 0) * a * Rabs si) - Rabs si * (r * c - a * c) = 0) by ring. rewrite MZ.
  replace (0 / _) with 0 by (unfold Rdiv; ring). rewrite Rplus_0_r, SG. f_equal. f_equal.
  replace (c * (r * c - a * c) + Rabs si * (r * Rabs si - (1 - 0) * a * Rabs si) + 0 * 0 * (1 / 2)) with ((r - a) * (c * c + Rabs si * Rabs si)) by ring. rewrite SB. replace (c * c + si * si) with 1 by lra. unfold r. ring.
Qed.
Print Assumptions C78_sphere_partial.
