(** C98: where the pixels of a swath are. *)
From Coq Require Import Reals Lra Lia.
From Verif Require Import Base BaseProofs WindowModel WindowProofs RTreeModel GeodesyModel GeodesySpec GeodesyProps GeodesyProps2 SwathModel.
Open Scope R_scope.

(** Specification: cross product and rotation of the vector [v] by the angle [t] about the unit
    axis [k], by the right-hand rule (Rodrigues' formula). *)
Definition cross (a b : point) : point :=
  (py a * pz b - pz a * py b, pz a * px b - px a * pz b, px a * py b - py a * px b).
Definition rotate_about (k : point) (t : R) (v : point) : point :=
  vadd (vadd (vscale (cos t) v) (vscale (sin t) (cross k v)))
       (vscale ((1 - cos t) * vdot k v) k).
Definition unit_vector (k : point) : Prop := vdot k k = 1.

Lemma point_eq (a b : point) : px a = px b -> py a = py b -> pz a = pz b -> a = b.
Proof. destruct a as [[x y] z], b as [[x' y'] z']. unfold px, py, pz. simpl. congruence. Qed.

Lemma norm_sq_pos v : 0 < vdot v v -> norm v * norm v = vdot v v /\ 0 < norm v.
Proof.
  intro H. unfold norm. split; [apply sqrt_sqrt; lra|apply sqrt_lt_R0; auto].
Qed.

Lemma vdot_nonneg v : 0 <= vdot v v.
Proof. unfold vdot. nra. Qed.

Lemma vdot_zero v : vdot v v = 0 -> v = origin.
Proof.
  unfold vdot. intro H. apply point_eq; unfold origin, px, py, pz in *; simpl; nra.
Qed.

Lemma normalized_unit v : v <> origin -> unit_vector (normalized v).
Proof.
  intro N. unfold normalized. destruct (Rltb 0 (vdot v v)) eqn:E.
  - apply Rltb_true in E. destruct (norm_sq_pos v E) as [A B]. unfold unit_vector.
    replace (vdot (vscale (1 / norm v) v) (vscale (1 / norm v) v)) with (vdot v v / (norm v * norm v)).
    + rewrite A. field. lra.
    + unfold vdot, vscale, px, py, pz. simpl. field. lra.
  - exfalso. apply N. apply vdot_zero. apply Rltb_false in E. pose proof (vdot_nonneg v). lra.
Qed.

Lemma normalized_scale c v :
  0 < c -> v <> origin -> normalized (vscale c v) = normalized v.
Proof.
  intros Hc N. unfold normalized.
  assert (P : 0 < vdot v v).
  { pose proof (vdot_nonneg v). destruct (Req_dec (vdot v v) 0) as [Z|]; [|lra]. exfalso. apply N. now apply vdot_zero. }
  assert (E : vdot (vscale c v) (vscale c v) = c * c * vdot v v).
  { unfold vdot, vscale, px, py, pz. simpl. ring. }
  assert (P2 : 0 < vdot (vscale c v) (vscale c v)) by (rewrite E; apply Rmult_lt_0_compat; nra).
  destruct (Rltb 0 (vdot (vscale c v) (vscale c v))) eqn:E1; [|apply Rltb_false in E1; lra].
  destruct (Rltb 0 (vdot v v)) eqn:E2; [|apply Rltb_false in E2; lra].
  assert (NN : norm (vscale c v) = c * norm v).
  { unfold norm. rewrite E. rewrite sqrt_mult by nra. rewrite sqrt_square by lra. reflexivity. }
  destruct (norm_sq_pos v P) as [_ NP].
  apply point_eq; unfold vscale, px, py, pz in *; simpl; rewrite NN; field; lra.
Qed.

Lemma rotation_is_rotation theta dir v :
  apply3 (rotation_3d_matrix (- theta) dir) v = rotate_about (normalized dir) theta v /\
  apply3 (transpose3 (rotation_3d_matrix (- theta) dir)) v = rotate_about (normalized dir) (- theta) v.
Proof.
  set (k := normalized dir). unfold rotation_3d_matrix. fold k.
  split; apply point_eq; unfold apply3, transpose3, angle_axis, rotate_about, vdot, vscale, vadd, cross, px, py, pz; simpl;
    rewrite ?sin_neg, ?cos_neg; ring.
Qed.

Lemma angle_form jx d g r : - (INR jx * d + g) / r = - ((INR jx * d + g) / r).
Proof. unfold Rdiv. ring. Qed.

(** The pixels are the nadir point turned about the direction of travel [k], to the right by
    the angle [distance / radius], to the left by the opposite angle; whatever the length of
    the direction vector. *)
Theorem C98_pixels : forall loc dir radius delta_ac half_gap jx,
  let k := normalized dir in
  let angle := (INR jx * delta_ac + half_gap) / radius in
  pixel_right loc dir radius delta_ac half_gap jx = rotate_about k angle loc /\
  pixel_left loc dir radius delta_ac half_gap jx = rotate_about k (- angle) loc /\
  (dir <> origin -> unit_vector k).
Proof.
  intros loc dir radius d g jx. cbn zeta. unfold pixel_right, pixel_left. rewrite angle_form.
  destruct (rotation_is_rotation ((INR jx * d + g) / radius) dir loc) as [A B].
  split; [exact A|]. split; [exact B|]. apply normalized_unit.
Qed.

(** A rotation keeps the distance to the Earth's centre and the component along the track,
    and the two sides are symmetric; the right side is on the right of the travel. *)
Theorem C98_rotation : forall k t v,
  unit_vector k ->
  let q := rotate_about k t v in
  let q' := rotate_about k (- t) v in
  vdot q q = vdot v v /\ vdot q' q' = vdot v v /\
  vdot q k = vdot v k /\ vdot q' k = vdot v k /\
  vdot (vsub q v) (vsub q v) = vdot (vsub q' v) (vsub q' v) /\
  vdot q (cross k v) = sin t * vdot (cross k v) (cross k v) /\
  vdot q' (cross k v) = - vdot q (cross k v).
Proof.
  intros k t v U. cbn zeta. unfold unit_vector in U.
  pose proof (sin2_cos2 t) as SC. unfold Rsqr in SC.
  set (q := rotate_about k t v). set (q' := rotate_about k (- t) v).
  destruct k as [[k0 k1] k2], v as [[v0 v1] v2].
  unfold vdot, px, py, pz in U. simpl in U.
  assert (Q : q = rotate_about (k0, k1, k2) t (v0, v1, v2)) by reflexivity.
  assert (Q' : q' = rotate_about (k0, k1, k2) (- t) (v0, v1, v2)) by reflexivity.
  unfold rotate_about, vdot, vadd, vscale, cross, px, py, pz in Q, Q'. simpl in Q, Q'.
  rewrite sin_neg, cos_neg in Q'.
  set (s := sin t) in *. set (c := cos t) in *.
  assert (HS : s * s = 1 - c * c) by lra.
  assert (HK : k2 * k2 = 1 - k0 * k0 - k1 * k1) by lra.
  unfold vdot, vsub, cross, px, py, pz. rewrite Q, Q'. simpl. clear Q Q' q q'.
  set (kv := k0 * v0 + k1 * v1 + k2 * v2).
  assert (CK : k0 * (k1 * v2 - k2 * v1) + k1 * (k2 * v0 - k0 * v2) + k2 * (k0 * v1 - k1 * v0) = 0) by ring.
  assert (CV : v0 * (k1 * v2 - k2 * v1) + v1 * (k2 * v0 - k0 * v2) + v2 * (k0 * v1 - k1 * v0) = 0) by ring.
  set (w0 := k1 * v2 - k2 * v1) in *. set (w1 := k2 * v0 - k0 * v2) in *. set (w2 := k0 * v1 - k1 * v0) in *.
  assert (WW : w0 * w0 + w1 * w1 + w2 * w2 = (v0 * v0 + v1 * v1 + v2 * v2) - kv * kv).
  { transitivity ((k0 * k0 + k1 * k1 + k2 * k2) * (v0 * v0 + v1 * v1 + v2 * v2) - kv * kv).
    - unfold w0, w1, w2, kv. ring.
    - rewrite U. ring. }
  assert (KV : k0 * v0 + k1 * v1 + k2 * v2 = kv) by reflexivity.
  clearbody w0 w1 w2 kv.
  assert (N : forall e, e = 1 \/ e = -1 ->
    (c * v0 + e * s * w0 + (1 - c) * kv * k0) * (c * v0 + e * s * w0 + (1 - c) * kv * k0) +
    (c * v1 + e * s * w1 + (1 - c) * kv * k1) * (c * v1 + e * s * w1 + (1 - c) * kv * k1) +
    (c * v2 + e * s * w2 + (1 - c) * kv * k2) * (c * v2 + e * s * w2 + (1 - c) * kv * k2) =
    v0 * v0 + v1 * v1 + v2 * v2).
  { intros e He. assert (EE : e * e = 1) by (destruct He; subst; ring).
    transitivity (c * c * (v0 * v0 + v1 * v1 + v2 * v2) + (e * e) * (s * s) * (w0 * w0 + w1 * w1 + w2 * w2)
      + (1 - c) * (1 - c) * kv * kv * (k0 * k0 + k1 * k1 + k2 * k2)
      + 2 * c * e * s * (v0 * w0 + v1 * w1 + v2 * w2)
      + 2 * c * (1 - c) * kv * (k0 * v0 + k1 * v1 + k2 * v2)
      + 2 * e * s * (1 - c) * kv * (k0 * w0 + k1 * w1 + k2 * w2)); [ring|].
    rewrite EE, HS, WW, U, CV, KV, CK. ring. }
  assert (N1 := N 1 (or_introl eq_refl)). assert (N2 := N (-1) (or_intror eq_refl)).
  assert (K0 : forall e, (c * v0 + e * w0 + (1 - c) * kv * k0) * k0 + (c * v1 + e * w1 + (1 - c) * kv * k1) * k1 +
     (c * v2 + e * w2 + (1 - c) * kv * k2) * k2 = v0 * k0 + v1 * k1 + v2 * k2).
  { intro e. transitivity (c * (k0 * v0 + k1 * v1 + k2 * v2) + e * (k0 * w0 + k1 * w1 + k2 * w2) + (1 - c) * kv * (k0 * k0 + k1 * k1 + k2 * k2)); [ring|].
    rewrite CK, U, KV. rewrite <- KV. ring. }
  assert (P0 : forall e, (c * v0 + e * w0 + (1 - c) * kv * k0) * v0 + (c * v1 + e * w1 + (1 - c) * kv * k1) * v1 +
     (c * v2 + e * w2 + (1 - c) * kv * k2) * v2 = c * (v0 * v0 + v1 * v1 + v2 * v2) + (1 - c) * kv * kv).
  { intro e. transitivity (c * (v0 * v0 + v1 * v1 + v2 * v2) + e * (v0 * w0 + v1 * w1 + v2 * w2) + (1 - c) * kv * (k0 * v0 + k1 * v1 + k2 * v2)); [ring|].
    rewrite CV, KV. ring. }
  assert (W0 : forall e, (c * v0 + e * w0 + (1 - c) * kv * k0) * w0 + (c * v1 + e * w1 + (1 - c) * kv * k1) * w1 +
     (c * v2 + e * w2 + (1 - c) * kv * k2) * w2 = e * (w0 * w0 + w1 * w1 + w2 * w2)).
  { intro e. transitivity (c * (v0 * w0 + v1 * w1 + v2 * w2) + e * (w0 * w0 + w1 * w1 + w2 * w2) + (1 - c) * kv * (k0 * w0 + k1 * w1 + k2 * w2)); [ring|].
    rewrite CV, CK. ring. }
  replace (-1 * s) with (- s) in N2 by ring. replace (1 * s) with s in N1 by ring.
  pose proof (P0 s) as PP. pose proof (P0 (- s)) as PP'.
  repeat split.
  - exact N1.
  - exact N2.
  - apply K0.
  - apply K0.
  - set (a0 := c * v0 + s * w0 + (1 - c) * kv * k0) in *. set (a1 := c * v1 + s * w1 + (1 - c) * kv * k1) in *.
    set (a2 := c * v2 + s * w2 + (1 - c) * kv * k2) in *.
    set (b0 := c * v0 + - s * w0 + (1 - c) * kv * k0) in *. set (b1 := c * v1 + - s * w1 + (1 - c) * kv * k1) in *.
    set (b2 := c * v2 + - s * w2 + (1 - c) * kv * k2) in *.
    clearbody a0 a1 a2 b0 b1 b2. nra.
  - apply W0.
  - rewrite !W0. ring.
Qed.

(** When the direction of travel is perpendicular to the position, the angle between the
    nadir and the pixel is the angle asked for. *)
Theorem C98_angle : forall k t v,
  unit_vector k -> vdot k v = 0 -> vdot (rotate_about k t v) v = cos t * vdot v v.
Proof.
  intros k t v U O. unfold rotate_about. rewrite O.
  unfold vdot, vadd, vscale, cross, px, py, pz in *. simpl in *. ring.
Qed.

(** So on the sphere through the nadir the pixel is at the distance asked for: angle times
    radius, the radius used being the distance to the Earth's centre. *)
Theorem C98_distance : forall s lon lat delta_ac half_gap jx, oblate s ->
  let p := lla_to_ecef s (lon, lat, 0) in
  let radius := geocentric_radius s lat in
  0 < radius /\ norm p = radius /\
  (INR jx * delta_ac + half_gap) / radius * norm p = INR jx * delta_ac + half_gap.
Proof.
  intros s lon lat d g jx O. cbn zeta.
  destruct (C79_geocentric s lon lat O) as [A [B _]].
  pose proof (minor_bounds s O) as M. rewrite minor_eq in B.
  assert (E : norm (lla_to_ecef s (lon, lat, 0)) = geocentric_radius s lat).
  { rewrite A. unfold norm, dist. f_equal. unfold vdot, px, py, pz. simpl. ring. }
  split; [lra|]. split; [exact E|]. rewrite E. field. lra.
Qed.

(** The layout of a row: pixel [jx] of the right side is the column [half_swath + jx], of the
    left side the column [half_swath - 1 - jx]. *)
Lemma swath_row_nth loc dir r d g h j :
  (j < h)%nat ->
  nth (h + j) (swath_row loc dir r d g h) origin = pixel_right loc dir r d g j /\
  nth (h - 1 - j) (swath_row loc dir r d g h) origin = pixel_left loc dir r d g j /\
  length (swath_row loc dir r d g h) = (2 * h)%nat.
Proof.
  intro Hj. unfold swath_row.
  set (f := fun kx => if (kx <? h)%nat then pixel_left loc dir r d g (h - kx - 1) else pixel_right loc dir r d g (kx - h)).
  assert (G : forall k, (k < 2 * h)%nat -> nth k (map f (seq 0 (2 * h))) origin = f k).
  { intros k Hk. rewrite (nth_indep _ origin (f 0%nat)) by (rewrite map_length, seq_length; auto).
    rewrite map_nth, seq_nth by auto. reflexivity. }
  split; [|split].
  - rewrite G by lia. unfold f. destruct (Nat.ltb_spec (h + j) h); [lia|]. f_equal. lia.
  - rewrite G by lia. unfold f. destruct (Nat.ltb_spec (h - 1 - j) h); [|lia]. f_equal. lia.
  - rewrite map_length, seq_length. reflexivity.
Qed.

(** The direction of travel at the point [i]: from the previous point to the next one (at the
    ends: that of the neighbour). *)
Definition travel (s : spheroid) (lon lat : list R) (i : nat) : point :=
  let n := length lat in
  let at_ k := lla_to_ecef s (nth k lon 0, nth k lat 0, 0) in
  let m := Nat.min (Nat.max i 1) (n - 2) in
  vsub (at_ (S m)) (at_ (m - 1)%nat).

Theorem C98_swath : forall lon lat delta_ac half_gap h s,
  oblate s -> length lon = length lat -> (3 <= length lat)%nat ->
  exists m, calculate_swath lon lat delta_ac half_gap h s = Ok m /\
  length m = length lat /\
  forall i, (i < length lat)%nat -> travel s lon lat i <> origin ->
    length (nth i m []) = (2 * h)%nat /\
    forall j, (j < h)%nat ->
      let p := lla_to_ecef s (nth i lon 0, nth i lat 0, 0) in
      let k := normalized (travel s lon lat i) in
      let angle := (INR j * delta_ac + half_gap) / geocentric_radius s (nth i lat 0) in
      let lonlat q := match ecef_to_lla s q with Some l => Some (px l, py l) | None => None end in
      nth (h + j) (nth i m []) None = lonlat (rotate_about k angle p) /\
      nth (h - 1 - j) (nth i m []) None = lonlat (rotate_about k (- angle) p).
Proof.
  intros lon lat d g h s O L L3. unfold calculate_swath. rewrite L, Nat.eqb_refl. cbn [negb].
  set (location := map _ (combine lon lat)).
  assert (LL : length location = length lat).
  { unfold location. rewrite map_length, combine_length. lia. }
  assert (NL : forall i, (i < length lat)%nat -> nth i location origin = lla_to_ecef s (nth i lon 0, nth i lat 0, 0)).
  { intros i Hi. unfold location.
    set (f := fun p : R * R => lla_to_ecef s (fst p, snd p, 0)).
    rewrite (nth_indep _ origin (f (0, 0))) by (rewrite map_length, combine_length; lia).
    rewrite (map_nth f). rewrite combine_nth by auto. reflexivity. }
  unfold satellite_direction. rewrite LL. destruct (Nat.ltb_spec (length lat) 3); [lia|].
  cbn [obind]. eexists. split; [reflexivity|].
  split; [rewrite map_length, seq_length; reflexivity|].
  intros i Hi TN.
  set (F := fun ix => map _ (swath_row (nth ix location origin) _ _ d g h)).
  assert (E : nth i (map F (seq 0 (length lat))) [] = F i).
  { rewrite (nth_indep _ [] (F 0%nat)) by (rewrite map_length, seq_length; auto).
    rewrite map_nth, seq_nth by auto. reflexivity. }
  rewrite E. unfold F.
  set (dirs := map (fun i0 => direction_row location (Nat.min (Nat.max i0 1) (length lat - 2))) (seq 0 (length lat))).
  assert (ND : nth i dirs origin = direction_row location (Nat.min (Nat.max i 1) (length lat - 2))).
  { unfold dirs. set (fd := fun i0 => direction_row location (Nat.min (Nat.max i0 1) (length lat - 2))).
    rewrite (nth_indep _ origin (fd 0%nat)) by (rewrite map_length, seq_length; auto).
    rewrite map_nth, seq_nth by auto. reflexivity. }
  set (m := Nat.min (Nat.max i 1) (length lat - 2)) in *.
  assert (Hm : (1 <= m <= length lat - 2)%nat) by (unfold m; lia).
  assert (KD : normalized (nth i dirs origin) = normalized (travel s lon lat i)).
  { rewrite ND. unfold direction_row. rewrite !NL by lia.
    unfold travel in *. fold m in TN |- *. apply normalized_scale; auto.
    destruct (C98_distance s (nth m lon 0) (nth m lat 0) 0 0 0 O) as [A [B _]].
    rewrite B. apply Rdiv_lt_0_compat; lra. }
  assert (KN : nth i dirs origin <> origin).
  { intro C. apply TN. apply vdot_zero.
    destruct (Req_dec (vdot (travel s lon lat i) (travel s lon lat i)) 0) as [|Z]; auto. exfalso.
    assert (U : unit_vector (normalized (travel s lon lat i))) by (apply normalized_unit; auto).
    rewrite <- KD, C in U. unfold unit_vector, normalized in U.
    destruct (Rltb 0 (vdot origin origin)); unfold vdot, vscale, origin, px, py, pz in U; simpl in U; lra. }
  split; [rewrite map_length; unfold swath_row; rewrite map_length, seq_length; reflexivity|].
  intros j Hj. cbn zeta.
  set (lonlat := fun q => match ecef_to_lla s q with Some l => Some (px l, py l) | None => None end).
  destruct (swath_row_nth (nth i location origin) (nth i dirs origin) (geocentric_radius s (nth i lat 0)) d g h j Hj) as [A [B C]].
  assert (G : forall k, (k < 2 * h)%nat ->
     nth k (map lonlat (swath_row (nth i location origin) (nth i dirs origin) (geocentric_radius s (nth i lat 0)) d g h)) None
     = lonlat (nth k (swath_row (nth i location origin) (nth i dirs origin) (geocentric_radius s (nth i lat 0)) d g h) origin)).
  { intros k Hk. rewrite (nth_indep _ None (lonlat origin)) by (rewrite map_length, C; auto). apply (map_nth lonlat). }
  rewrite !G by lia. rewrite A, B.
  destruct (C98_pixels (nth i location origin) (nth i dirs origin) (geocentric_radius s (nth i lat 0)) d g j) as [P1 [P2 _]].
  cbn zeta in P1, P2. rewrite P1, P2, KD, NL by auto. split; reflexivity.
Qed.

(** Fewer than three points: the directions are read without having been written. *)
Theorem C98_short_refuted : forall lon lat delta_ac half_gap h s,
  length lon = length lat -> (length lat < 3)%nat ->
  exists w, calculate_swath lon lat delta_ac half_gap h s = UB w.
Proof.
  intros lon lat d g h s L H. unfold calculate_swath. rewrite L, Nat.eqb_refl. cbn [negb].
  unfold satellite_direction. rewrite map_length, combine_length, L, Nat.min_id.
  destruct (Nat.ltb_spec (length lat) 3); [|lia]. simpl. eauto.
Qed.

(** A satellite that does not move between the previous and the next point: the pixels are
    not turned at all, they all lie on the vertical of the nadir. *)
Theorem C98_motionless_refuted : forall loc radius delta_ac half_gap jx,
  let c := cos ((INR jx * delta_ac + half_gap) / radius) in
  pixel_right loc origin radius delta_ac half_gap jx = vscale c loc /\
  pixel_left loc origin radius delta_ac half_gap jx = vscale c loc.
Proof.
  intros loc radius d g jx. cbn zeta.
  destruct (C98_pixels loc origin radius d g jx) as [P1 [P2 _]]. cbn zeta in *.
  assert (N : normalized origin = origin).
  { unfold normalized. destruct (Rltb 0 (vdot origin origin)) eqn:E; auto.
    apply Rltb_true in E. unfold vdot, origin, px, py, pz in E. simpl in E. lra. }
  rewrite P1, P2, N. unfold rotate_about. rewrite cos_neg.
  split; apply point_eq; unfold vadd, vscale, cross, vdot, origin, px, py, pz; simpl; ring.
Qed.

(** Non-vacuity: three points on the equator of the unit sphere, going east. *)
Example C98_example :
  oblate (Spheroid 1 0) /\
  travel (Spheroid 1 0) [0; 90; 180] [0; 0; 0] 1 <> origin.
Proof.
  split; [split; simpl; lra|]. unfold travel. cbn [length nth Nat.max Nat.min Nat.sub].
  rewrite !ecef_eq. intro C.
  assert (P : px (vsub (lla_to_ecef (Spheroid 1 0) (180, 0, 0)) (lla_to_ecef (Spheroid 1 0) (0, 0, 0))) = 0).
  { rewrite !ecef_eq. rewrite C. reflexivity. }
  rewrite !ecef_eq in P. unfold vsub, px in P. simpl in P.
  unfold angle_of in P. replace (0 * PI / 180) with 0 in P by field. replace (180 * PI / 180) with PI in P by field.
  rewrite cos_0, cos_PI in P.
  assert (V : 0 < vertical (Spheroid 1 0) 0) by (apply vertical_pos; split; simpl; lra).
  lra.
Qed.
