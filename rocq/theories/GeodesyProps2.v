(** Theorems about the spheroid (C79) and about the box test of the index of geodetic positions (C71). *)
From Coq Require Import Reals Ratan Lra Lia Psatz Permutation.
From Verif Require Import Base WindowModel WindowProofs RTreeModel RTreeSpec RTreeProofs RTreeProps GeodesyModel GeodesySpec GeodesyProofs GeodesyProps.
Open Scope R_scope.

(** An oblate spheroid or a sphere. *)
Definition oblate (s : spheroid) : Prop := 0 < s_a s /\ 0 <= s_f s < 1.
Lemma oblate_valid : forall s, oblate s -> valid_spheroid s.
Proof. intros s [A F]. split; lra. Qed.
Lemma minor_bounds : forall s, oblate s -> 0 < minor s <= s_a s.
Proof. intros s [A F]. unfold minor. split; [apply Rmult_lt_0_compat; lra|nra]. Qed.

Lemma div_le : forall x y z, 0 < z -> x <= y * z -> x / z <= y.
Proof. intros x y z Z H. apply (Rmult_le_reg_r z); [exact Z|]. unfold Rdiv. rewrite Rmult_assoc, Rinv_l by lra. lra. Qed.
Lemma le_div : forall x y z, 0 < z -> y * z <= x -> y <= x / z.
Proof. intros x y z Z H. apply (Rmult_le_reg_r z); [exact Z|]. unfold Rdiv. rewrite Rmult_assoc, Rinv_l by lra. lra. Qed.

(** * C79 the spheroid *)
Theorem C79_eccentricity : forall s, oblate s ->
  0 <= first_eccentricity_squared s < 1 /\ 0 <= second_eccentricity_squared s /\
  (1 - first_eccentricity_squared s) * (1 + second_eccentricity_squared s) = 1 /\
  semi_minor_axis s = axis_ratio s * s_a s /\ axis_ratio s ^ 2 = 1 - first_eccentricity_squared s /\
  0 <= linear_eccentricity s /\ linear_eccentricity s ^ 2 + semi_minor_axis s ^ 2 = s_a s ^ 2.
Proof.
  intros s O. pose proof (minor_bounds s O) as B. pose proof (oblate_valid s O) as V. unfold second_eccentricity_squared, axis_ratio, linear_eccentricity. rewrite !(e2_eq s V). rewrite !minor_eq. destruct O as [A F]. unfold sqr.
  assert (D : 0 <= s_a s * s_a s - minor s * minor s) by nra.
  split; [nra|]. split; [apply Rmult_le_pos; [exact D|left; apply Rinv_0_lt_compat; nra]|]. split; [unfold minor; field; split; lra|]. split; [field; lra|]. split; [unfold minor; field; lra|]. split; [apply sqrt_pos|].
  pose proof (sqrt_sqrt _ D) as S. set (q := sqrt _) in *. replace (q ^ 2) with (q * q) by ring. rewrite S. ring.
Qed.
Print Assumptions C79_eccentricity.
(** The polar radius of curvature is the length of the normal at the pole; the product of the two radii
    of curvature is that of the axes. *)
Theorem C79_curvature : forall s, oblate s -> vertical s 90 = polar_radius_of_curvature s /\
  polar_radius_of_curvature s * equatorial_radius_of_curvature s = s_a s * semi_minor_axis s /\
  equatorial_radius_of_curvature s <= semi_minor_axis s <= s_a s /\ s_a s <= polar_radius_of_curvature s.
Proof.
  intros s O. pose proof (minor_bounds s O) as B. pose proof (oblate_valid s O) as V. unfold polar_radius_of_curvature, equatorial_radius_of_curvature. rewrite minor_eq. split; [|split; [unfold sqr; field; lra|]].
  - unfold vertical. rewrite angle_90, sin_PI2, (e2_eq s V). replace (1 - (1 - (1 - s_f s) ^ 2) * sqr 1) with ((1 - s_f s) * (1 - s_f s)) by (unfold sqr; ring). destruct O as [A F]. rewrite sqrt_square by lra. unfold minor, sqr. field. lra.
  - unfold sqr. destruct O as [A F]. split; [split; [apply div_le; nra|apply B]|apply le_div; nra].
Qed.
Print Assumptions C79_curvature.

(** atanh, from the mean value theorem. *)
Lemma atanh_deriv : forall c, -1 < c < 1 -> derivable_pt_lim (fun e => (ln (1 + e) - ln (1 - e)) / 2) c (1 / (1 - c * c)).
Proof.
  intros c C.
  assert (D1 : derivable_pt_lim (fun e => ln (1 + e)) c (/ (1 + c) * 1)).
  { apply (derivable_pt_lim_comp (fun e => 1 + e) ln); [|apply derivable_pt_lim_ln; lra]. assert (X : derivable_pt_lim (fun e => 1 + e) c (0 + 1)); [|rewrite Rplus_0_l in X; exact X]. exact (derivable_pt_lim_plus (fun _ => 1) id c 0 1 (derivable_pt_lim_const 1 c) (derivable_pt_lim_id c)). }
  assert (D2 : derivable_pt_lim (fun e => ln (1 - e)) c (/ (1 - c) * -1)).
  { apply (derivable_pt_lim_comp (fun e => 1 - e) ln); [|apply derivable_pt_lim_ln; lra]. replace (-1) with (0 - 1) by ring. exact (derivable_pt_lim_minus (fun _ => 1) id c 0 1 (derivable_pt_lim_const 1 c) (derivable_pt_lim_id c)). }
  pose proof (derivable_pt_lim_minus _ _ _ _ _ D1 D2) as D. pose proof (derivable_pt_lim_scal _ (/ 2) _ _ D) as E. replace (1 / (1 - c * c)) with (/ 2 * (/ (1 + c) * 1 - / (1 - c) * -1)) by (field; split; nra).
  intros eps P. destruct (E eps P) as (delta & H). exists delta. intros h N S. specialize (H h N S). unfold mult_real_fct, minus_fct in H.
  replace (((ln (1 + (c + h)) - ln (1 - (c + h))) / 2 - (ln (1 + c) - ln (1 - c)) / 2)) with (/ 2 * (ln (1 + (c + h)) - ln (1 - (c + h))) - / 2 * (ln (1 + c) - ln (1 - c))) by field. exact H.
Qed.
Lemma atanh_bounds : forall e, 0 < e < 1 -> e < (ln (1 + e) - ln (1 - e)) / 2 < e / (1 - e * e).
Proof.
  intros e E. destruct (MVT_cor2 (fun e => (ln (1 + e) - ln (1 - e)) / 2) (fun c => 1 / (1 - c * c)) 0 e) as (c & M & C); [lra|intros c C; apply atanh_deriv; lra|].
  cbn beta in M. replace ((ln (1 + 0) - ln (1 - 0)) / 2) with 0 in M by (rewrite Rplus_0_r, Rminus_0_r, ln_1; field). rewrite !Rminus_0_r in M. rewrite M.
  assert (CC : 0 < c * c < e * e) by nra. assert (EE : e * e < 1) by nra. split.
  - apply (Rmult_lt_reg_r (1 - c * c)); [lra|]. replace (1 / (1 - c * c) * e * (1 - c * c)) with e by (field; lra). nra.
  - assert (I : / (1 - c * c) < / (1 - e * e)) by (apply Rinv_lt_contravar; [apply Rmult_lt_0_compat; lra|lra]). unfold Rdiv. rewrite Rmult_1_l. nra.
Qed.

Lemma cube_lt : forall x y, 0 < x < y -> x ^ 3 < y ^ 3.
Proof. intros x y H. assert (x * x < y * y) by nra. assert (x * (x * x) < y * (y * y)) by (apply Rmult_le_0_lt_compat; nra). lra. Qed.
(** Every mean of the radii is between the two axes. *)
Theorem C79_mean_radii : forall s, oblate s -> semi_minor_axis s <= mean_radius s <= s_a s /\
  semi_minor_axis s <= volumetric_radius s <= s_a s /\ volumetric_radius s ^ 3 = s_a s ^ 2 * semi_minor_axis s.
Proof.
  intros s O. pose proof (minor_bounds s O) as B. unfold mean_radius, volumetric_radius. rewrite minor_eq. set (b := minor s) in *. set (a := s_a s) in *. split; [lra|].
  assert (P : 0 < sqr a * b) by (unfold sqr; apply Rmult_lt_0_compat; [apply Rmult_lt_0_compat|]; lra).
  assert (C : Rpower (sqr a * b) (1 / 3) ^ 3 = a ^ 2 * b).
  { rewrite <- Rpower_pow by (apply exp_pos). rewrite Rpower_mult. replace (1 / 3 * INR 3) with 1 by (cbn; field). rewrite Rpower_1 by exact P. unfold sqr. ring. }
  assert (Q : 0 < Rpower (sqr a * b) (1 / 3)) by apply exp_pos. set (v := Rpower _ _) in *. split; [|exact C].
  split; apply Rnot_lt_le; intro H.
  - assert (v ^ 3 < b ^ 3) by (apply cube_lt; lra). assert (b * b <= a * a) by nra. assert (b * (b * b) <= b * (a * a)) by (apply Rmult_le_compat_l; lra). lra.
  - assert (a ^ 3 < v ^ 3) by (apply cube_lt; lra). assert (a * a * b <= a * a * a) by (apply Rmult_le_compat_l; nra). lra.
Qed.
Lemma authalic_eq : forall s, 0 < s_a s -> 0 < s_f s < 1 -> exists e, 0 < e < 1 /\ first_eccentricity_squared s = e * e /\
  authalic_radius s = Some (sqrt ((sqr (s_a s) + sqr (minor s) * ((ln (1 + e) - ln (1 - e)) / 2 / e)) * (1 / 2))).
Proof.
  intros s A F. assert (O : oblate s) by (split; lra). pose proof (minor_bounds s O) as B. assert (B' : minor s < s_a s) by (unfold minor; nra). pose proof (C79_eccentricity s O) as (_ & _ & _ & _ & _ & E0 & E). rewrite minor_eq in E.
  exists (linear_eccentricity s / s_a s). unfold authalic_radius. rewrite minor_eq. set (l := linear_eccentricity s) in *. set (a := s_a s) in *. set (b := minor s) in *.
  assert (L : 0 < l) by (destruct E0 as [E0|E0]; [exact E0|exfalso; rewrite <- E0 in E; nra]). assert (LA : l < a) by nra. split; [|split].
  - split; [apply Rdiv_lt_0_compat; lra|]. apply (Rmult_lt_reg_r a); [lra|]. unfold Rdiv. rewrite Rmult_assoc, Rinv_l by lra. lra.
  - unfold first_eccentricity_squared. change (semi_minor_axis s) with (minor s). fold a b. unfold sqr. replace (a * a - b * b) with (l * l) by (rewrite <- (Rplus_0_r (l * l)); lra). field. lra.
  - rewrite rdiv_some by lra. cbn [rbind]. f_equal. f_equal. f_equal. f_equal.
    assert (X : ln ((a + l) / b) = (ln (1 + l / a) - ln (1 - l / a)) / 2).
    { assert (P1 : 0 < 1 + l / a) by (assert (0 < l / a) by (apply Rdiv_lt_0_compat; lra); lra). assert (P2 : 0 < 1 - l / a) by (replace (1 - l / a) with ((a - l) / a) by (field; lra); apply Rdiv_lt_0_compat; lra).
      assert (Y : (a + l) / b * ((a + l) / b) * (1 - l / a) = 1 + l / a).
      { replace ((a + l) / b * ((a + l) / b) * (1 - l / a)) with ((a + l) * (a * a - l * l) / (b * b * a)) by (field; lra). replace (a * a - l * l) with (b * b) by lra. field. lra. }
      assert (Q : 0 < (a + l) / b) by (apply Rdiv_lt_0_compat; lra). rewrite <- Y. rewrite ln_mult by (try apply Rmult_lt_0_compat; assumption). rewrite ln_mult by assumption. field. }
    rewrite X. unfold sqr. field. lra.
Qed.
Theorem C79_authalic : forall s, 0 < s_a s -> 0 < s_f s < 1 -> exists r, authalic_radius s = Some r /\ semi_minor_axis s < r < s_a s.
Proof.
  intros s A F. destruct (authalic_eq s A F) as (e & E & E2 & X). eexists. split; [exact X|]. rewrite minor_eq. pose proof (atanh_bounds e E) as [L U]. set (t := (ln (1 + e) - ln (1 - e)) / 2) in *.
  assert (O : oblate s) by (split; lra). pose proof (minor_bounds s O) as B. assert (B' : minor s < s_a s) by (unfold minor; nra).
  assert (BE : sqr (minor s) = sqr (s_a s) * (1 - e * e)) by (rewrite <- E2; unfold first_eccentricity_squared; change (semi_minor_axis s) with (minor s); unfold sqr; field; lra). set (a := s_a s) in *. set (b := minor s) in *.
  assert (T1 : 1 < t / e) by (apply (Rmult_lt_reg_r e); [lra|]; unfold Rdiv; rewrite Rmult_assoc, Rinv_l by lra; lra).
  assert (T2 : (1 - e * e) * (t / e) < 1).
  { assert (EE : e * e < 1) by nra. apply (Rmult_lt_reg_r (e / (1 - e * e))); [apply Rdiv_lt_0_compat; lra|]. replace ((1 - e * e) * (t / e) * (e / (1 - e * e))) with t by (field; lra). lra. }
  assert (SB : 0 < sqr b) by (unfold sqr; nra). assert (SA : 0 < sqr a) by (unfold sqr; nra). assert (SAB : sqr b < sqr a) by (unfold sqr; nra).
  assert (M : sqr b < (sqr a + sqr b * (t / e)) * (1 / 2) < sqr a) by (split; [nra|]; rewrite BE; nra).
  set (m := (sqr a + sqr b * (t / e)) * (1 / 2)) in *. clearbody m. split; [rewrite <- (sqrt_square b) by lra|rewrite <- (sqrt_square a) by lra]; apply sqrt_lt_1; unfold sqr in *; lra.
Qed.
Print Assumptions C79_authalic.
(** For a sphere the authalic radius, which is the radius, is not a number (0 / 0). *)
Theorem C79_authalic_sphere_refuted : forall a, 0 < a -> authalic_radius (Spheroid a 0) = None.
Proof.
  intros a A. unfold authalic_radius, linear_eccentricity, semi_minor_axis. cbn [s_a s_f]. replace (sqr a - sqr (a * (1 - 0))) with 0 by (unfold sqr; ring). rewrite sqrt_0. unfold rdiv. assert (Z : Reqb 0 0 = true) by (apply Reqb_true; reflexivity). rewrite Z. reflexivity.
Qed.
(** The geocentric radius at a latitude is the distance from the centre of the spheroid to its points
    of that latitude, and is between the two axes. *)
Theorem C79_geocentric : forall s lon lat, oblate s -> geocentric_radius s lat = dist (0, 0, 0) (lla_to_ecef s (lon, lat, 0)) /\
  semi_minor_axis s <= geocentric_radius s lat <= s_a s.
Proof.
  intros s lon lat O. pose proof (minor_bounds s O) as B. pose proof (oblate_valid s O) as V. pose proof (root_pos s lat V) as RP. pose proof (vertical_sq s lat V) as N. rewrite ecef_eq. unfold geocentric_radius, dist. cbn [px py pz fst snd]. rewrite sind_spec, cosd_spec, minor_eq. pose proof (unit (angle_of lon)) as U. pose proof (unit (angle_of lat)) as U'.
  rewrite (e2_eq s V) in *. unfold sqr in *. destruct O as [A F]. set (n := vertical s lat) in *. set (cl := cos (angle_of lon)) in *. set (sl := sin (angle_of lon)) in *. set (c := cos (angle_of lat)) in *. set (si := sin (angle_of lat)) in *. set (q := 1 - s_f s) in *. set (a := s_a s) in *.
  assert (BQ : minor s = a * q) by reflexivity. rewrite BQ in *. assert (Q : 0 < q <= 1) by (unfold q; lra).
  set (g := 1 - (1 - q ^ 2) * (si * si)) in *. assert (G : g = c * c + q * q * (si * si)) by (unfold g; replace (c * c) with (1 - si * si) by lra; ring).
  assert (X : (a * a * c * (a * a * c) + a * q * (a * q) * si * (a * q * (a * q) * si)) / (a * c * (a * c) + a * q * si * (a * q * si)) = a * a * (c * c + q ^ 4 * (si * si)) / g).
  { replace (a * c * (a * c) + a * q * si * (a * q * si)) with (a * a * g) by (rewrite G; ring). field. lra. }
  assert (S0 : 0 <= si * si <= 1) by nra. assert (Q2 : 0 < q * q <= 1) by nra. assert (Q4 : q ^ 4 = q * q * (q * q)) by ring. rewrite X. split; [|].
  - f_equal. transitivity (n * n * (c * c * (sl * sl + cl * cl) + q ^ 4 * (si * si))); [rewrite U; replace (n * n) with (a * a / g) by (rewrite <- N; field; lra); field; lra|ring].
  - assert (M : a * q * (a * q) <= a * a * (c * c + q ^ 4 * (si * si)) / g <= a * a).
    { replace (a * a * (c * c + q ^ 4 * (si * si)) / g) with (a * a * ((c * c + q ^ 4 * (si * si)) / g)) by (field; lra). assert (0 < a * a) by nra.
      assert (q * q <= (c * c + q ^ 4 * (si * si)) / g <= 1); [|nra]. rewrite Q4. split; [apply le_div; [lra|]; rewrite G; nra|apply div_le; [lra|]; rewrite G; nra]. }
    set (m := a * a * (c * c + q ^ 4 * (si * si)) / g) in *. clearbody m. split; [rewrite <- (sqrt_square (a * q)) by lra|rewrite <- (sqrt_square a) by lra]; apply sqrt_le_1; try apply Rle_0_sqr; unfold Rsqr; try lra; nra.
Qed.
Print Assumptions C79_geocentric.

(** * C71 the box test *)
(** The box of the neighbours is a box of Cartesian coordinates: at longitude 0 and latitude 0 (as at
    the other extreme points of the axes) no query is inside the box of its neighbours, whatever the
    neighbours, except those at this very place. *)
Theorem C71_within_geodetic_refuted : forall knn s t k, knn_contract knn -> oblate s ->
  (forall i, In i t -> exists lon lat, -180 < lon <= 180 /\ -90 <= lat <= 90 /\ ~ (lon = 0 /\ lat = 0) /\ fst i = lla_to_ecef s (lon, lat, 0)) ->
  query_within knn t (lla_to_ecef s (0, 0, 0)) k = [].
Proof.
  intros knn s t k K O T. pose proof (oblate_valid s O) as V. unfold query_within. assert (H : covered (map fst (knn t (lla_to_ecef s (0, 0, 0)) k)) (lla_to_ecef s (0, 0, 0)) = false); [|rewrite H; reflexivity].
  apply covered_false. intro B. destruct (B px (or_introl eq_refl)) as (_ & q & _ & I & _ & L). apply in_map_iff in I as (i & <- & I).
  destruct (K t (lla_to_ecef s (0, 0, 0)) k) as (_ & _ & o & P & _). assert (J : In i t) by (eapply Permutation_in; [apply Permutation_sym; exact P|apply in_or_app; left; exact I]).
  destruct (T i J) as (lon & lat & LO & LA & NZ & E). rewrite E in L. clear T I J P B E.
  assert (Z : lla_to_ecef s (0, 0, 0) = (s_a s, 0, 0)).
  { rewrite ecef_eq. assert (S0 : sin (angle_of 0) = 0) by (unfold angle_of; transitivity (sin 0); [f_equal; field|exact sin_0]). assert (C0 : cos (angle_of 0) = 1) by (unfold angle_of; transitivity (cos 0); [f_equal; field|exact cos_0]).
    unfold vertical. rewrite S0, C0. unfold sqr. replace (1 - _ * (0 * 0)) with 1 by ring. rewrite sqrt_1. f_equal; [f_equal|]; field. }
  pose proof (C77_surface s lon lat V) as S. unfold on_surface in S. pose proof (minor_bounds s O) as MB. destruct O as [A F]. rewrite Z in L. unfold px at 1 in L. cbn [fst] in L.
  set (p := lla_to_ecef s (lon, lat, 0)) in *.
  assert (S' : (px p ^ 2 + py p ^ 2) * minor s ^ 2 + pz p ^ 2 * s_a s ^ 2 = s_a s ^ 2 * minor s ^ 2) by (rewrite <- (Rmult_1_l (s_a s ^ 2 * _)), <- S; field; lra).
  assert (PX : s_a s * s_a s <= px p * px p) by nra. assert (MM : 0 < minor s * minor s) by nra. assert (AA : 0 < s_a s * s_a s) by nra.
  assert (X1 : s_a s * s_a s * (minor s * minor s) <= px p * px p * (minor s * minor s)) by (apply Rmult_le_compat_r; lra).
  assert (X2 : 0 <= py p * py p * (minor s * minor s)) by (apply Rmult_le_pos; [apply Rle_0_sqr|lra]). assert (X3 : 0 <= pz p * pz p * (s_a s * s_a s)) by (apply Rmult_le_pos; [apply Rle_0_sqr|lra]).
  assert (PY0 : py p = 0) by (assert (Y : py p * py p * (minor s * minor s) = 0) by lra; apply Rmult_integral in Y as [Y|Y]; [apply Rmult_integral in Y as [Y|Y]; exact Y|lra]).
  assert (PZ0 : pz p = 0) by (assert (Y : pz p * pz p * (s_a s * s_a s) = 0) by lra; apply Rmult_integral in Y as [Y|Y]; [apply Rmult_integral in Y as [Y|Y]; exact Y|lra]).
  assert (PX0 : px p = s_a s) by (assert (Y : px p * px p = s_a s * s_a s) by (apply (Rmult_eq_reg_r (minor s * minor s)); lra); nra).
  assert (PE : p = lla_to_ecef s (0, 0, 0)) by (rewrite Z; destruct p as [[u v] w]; cbn [px py pz fst snd] in *; subst; reflexivity).
  apply NZ. assert (LB : -90 < lat < 90).
  { assert (C : cos (angle_of lat) <> 0). { intro C. unfold p in PX0. rewrite ecef_eq in PX0. unfold px in PX0. cbn [fst] in PX0. rewrite C in PX0. lra. }
    split; apply Rnot_le_lt; intro G; apply C; [replace lat with (-90) by lra; rewrite angle_m90, cos_neg; exact cos_PI2|replace lat with 90 by lra; rewrite angle_90; exact cos_PI2]. }
  exact (C77_injective s lon lat 0 0 V LB ltac:(lra) LO ltac:(lra) PE).
Qed.
Print Assumptions C71_within_geodetic_refuted.
(** For example with four neighbours all around the query. *)
Example C71_within_geodetic_ex : forall i, In i (map (fun q => (lla_to_ecef wgs84 (fst q, snd q, 0), 1)) [(-1, -1); (-1, 1); (1, -1); (1, 1)]) ->
  exists lon lat, -180 < lon <= 180 /\ -90 <= lat <= 90 /\ ~ (lon = 0 /\ lat = 0) /\ fst i = lla_to_ecef wgs84 (lon, lat, 0).
Proof. intros i I. apply in_map_iff in I as ([lon lat] & <- & I). exists lon, lat. cbn [fst snd]. destruct I as [I|[I|[I|[I|[]]]]]; injection I as <- <-; (repeat split; try lra). Qed.
Example C79_ex : oblate wgs84 /\ 0 < s_f wgs84 < 1.
Proof. unfold oblate, wgs84. cbn [s_a s_f]. lra. Qed.
