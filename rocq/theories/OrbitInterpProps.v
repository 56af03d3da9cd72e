(** Theorems about the interpolation of an orbit (C131). *)
From Coq Require Import Reals Ratan List Lra Lia Psatz.
From Verif Require Import Base WindowModel WindowProofs RTreeModel RTreeSpec GeodesyModel GeodesySpec GeodesyProofs GeodesyProps OrbitInterpModel.
Import ListNotations.
Open Scope R_scope.

(** The coordinate of number [j] is the node of number [k]: there, the interpolation of any values gives the value of
    the node (for the interpolation used here, see C63 and C48). *)
Definition at_node (interp : list R -> list (option R)) (j k : nat) : Prop :=
  forall d v, nth_error d k = Some v -> nth_error (interp d) j = Some (Some v).
(** The interpolation is linear in the values: at each coordinate either no value, or a combination of the values. *)
Fixpoint dot (w d : list R) : R := match w, d with a :: w, x :: d => a * x + dot w d | _, _ => 0 end.
Definition linear (interp : list R -> list (option R)) : Prop := forall j,
  (forall d, nth_error (interp d) j = None) \/ (forall d, nth_error (interp d) j = Some None) \/
  exists w, forall d, nth_error (interp d) j = Some (Some (dot w d)).
(** The given positions. *)
Definition given (lon lat : list R) (k : nat) (lo la : R) : Prop := nth_error lon k = Some lo /\ nth_error lat k = Some la.

Lemma nth_combine {A B} : forall (a : list A) (b : list B) j x y, nth_error a j = Some x -> nth_error b j = Some y -> nth_error (combine a b) j = Some (x, y).
Proof.
  induction a as [|u a IH]; intros [|v b] [|j] x y H K; cbn in *; try discriminate; [congruence|]. apply IH; assumption.
Qed.
Lemma nth_map {A B} (f : A -> B) l j x : nth_error l j = Some x -> nth_error (map f l) j = Some (f x).
Proof. intro H. rewrite nth_error_map, H. reflexivity. Qed.
Lemma given_ecef s h lon lat k lo la : given lon lat k lo la -> nth_error (ecef s h lon lat) k = Some (lla_to_ecef s (lo, la, h)).
Proof. intros [A B]. unfold ecef. rewrite (nth_map _ _ _ (lo, la)); [reflexivity|]. apply nth_combine; assumption. Qed.
Lemma node_value to_lla interp s h lon lat j k lo la : at_node interp j k -> given lon lat k lo la ->
  let p := lla_to_ecef s (lo, la, h) in
  nth_error (interpolate to_lla interp s h lon lat) j =
    Some (rbind (position s (px p) (py p) (pz p) (radius s p)) (fun q => rbind (to_lla q) (fun r => Some (px r, py r)))).
Proof.
  intros N G p. assert (E := given_ecef s h lon lat k lo la G). unfold interpolate.
  rewrite (nth_map _ _ _ (Some (px p), Some (py p), Some (pz p), Some (radius s p))); [reflexivity|].
  repeat apply nth_combine; apply N; apply nth_map; exact E.
Qed.

(** ** At the nodes *)
Lemma stretch_pos s : valid_spheroid s -> 0 < stretch s /\ stretch s * (1 - s_f s) = 1.
Proof.
  intros [A F]. unfold stretch, semi_minor_axis. split; [apply Rdiv_lt_0_compat; [exact A|apply Rmult_lt_0_compat; lra]|field; lra].
Qed.
Lemma norm_pos x y z : 0 < x * x + y * y + z * z -> Reqb (sqrt (x * x + y * y + z * z)) 0 = false.
Proof. intro H. apply Reqb_false. apply Rgt_not_eq, sqrt_lt_R0, H. Qed.
Lemma radius_norm s p : valid_spheroid s -> pz p = 0 \/ s_f s = 0 -> radius s p = sqrt (px p * px p + py p * py p + pz p * pz p).
Proof.
  intros V Z. unfold radius. f_equal. destruct Z as [Z|Z]; [rewrite Z; ring|]. destruct (stretch_pos s V) as [_ E]. rewrite Z in E.
  assert (stretch s = 1) as -> by lra. ring.
Qed.
Lemma position_same s p : valid_spheroid s -> 0 < px p * px p + py p * py p + pz p * pz p -> pz p = 0 \/ s_f s = 0 ->
  position s (px p) (py p) (pz p) (radius s p) = Some (px p, py p, pz p).
Proof.
  intros V N Z. unfold position, rdiv. rewrite (norm_pos _ _ _ N), (radius_norm s p V Z). cbn [rbind].
  assert (P := sqrt_lt_R0 _ N). set (m := sqrt _) in *. destruct (stretch_pos s V) as [S0 S1].
  replace (m / m) with 1 by (field; lra). f_equal. f_equal; [f_equal; ring|].
  destruct Z as [Z|Z]; [rewrite Z; ring|]. rewrite Z in S1. assert (stretch s = 1) as -> by lra. field.
Qed.
Lemma point_eta (p : point) : (px p, py p, pz p) = p.
Proof. destruct p as [[x y] z]. reflexivity. Qed.

(** The longitude of a given position is kept, whatever the spheroid. *)
Theorem C131_longitudes : forall interp s h lon lat j k lo la, valid_spheroid s -> at_node interp j k -> given lon lat k lo la ->
  -180 < lo <= 180 -> -90 < la < 90 -> 0 < vertical s la + h ->
  exists la', nth_error (interpolate (ecef_to_lla s) interp s h lon lat) j = Some (Some (lo, la')).
Proof.
  intros interp s h lon lat j k lo la V N G M L H. rewrite (node_value _ _ _ _ _ _ _ _ _ _ N G). rewrite ecef_eq. cbn [px py pz fst snd].
  pose proof PI_RGT_0 as PI0. assert (C : 0 < cos (angle_of la)) by (apply cos_gt_0; unfold angle_of; nra).
  set (n := (vertical s la + h) * cos (angle_of la)). assert (NP : 0 < n) by (apply Rmult_lt_0_compat; assumption).
  set (z := (_ + h) * sin (angle_of la)). pose proof (unit (angle_of lo)) as U.
  assert (P2 : 0 < n * cos (angle_of lo) * (n * cos (angle_of lo)) + n * sin (angle_of lo) * (n * sin (angle_of lo)) + z * z).
  { replace (n * cos (angle_of lo) * (n * cos (angle_of lo)) + n * sin (angle_of lo) * (n * sin (angle_of lo))) with (n * n) by (transitivity (n * n * 1); [ring|rewrite <- U; ring]). nra. }
  unfold position, rdiv. rewrite (norm_pos _ _ _ P2). cbn [rbind]. set (q := radius s _ / _).
  assert (QP : 0 < q).
  { unfold q. apply Rdiv_lt_0_compat; [|apply sqrt_lt_R0; exact P2]. apply sqrt_lt_R0. cbn [px py pz fst snd]. destruct (stretch_pos s V) as [S0 _].
    replace (n * cos (angle_of lo) * (n * cos (angle_of lo)) + n * sin (angle_of lo) * (n * sin (angle_of lo))) with (n * n) by (transitivity (n * n * 1); [ring|rewrite <- U; ring]).
    assert (0 <= z * z * stretch s * stretch s) by (replace (z * z * stretch s * stretch s) with (Rsqr (z * stretch s)) by (unfold Rsqr; ring); apply Rle_0_sqr). nra. }
  assert (R0 : 0 < n * q) by (apply Rmult_lt_0_compat; assumption).
  unfold ecef_to_lla. cbn [px py pz fst snd].
  replace (n * cos (angle_of lo) * q) with (n * q * cosd lo) by (rewrite cosd_spec; ring).
  replace (n * sin (angle_of lo) * q) with (n * q * sind lo) by (rewrite sind_spec; ring). rewrite (C76_inverse lo (n * q) M R0).
  unfold olson at 1. assert (W : Reqb (sqr (n * q * cosd lo) + sqr (n * q * sind lo) + sqr (z * (q * (1 / stretch s)))) 0 = false).
  { apply Reqb_false. rewrite sind_spec, cosd_spec. unfold sqr. set (t := z * _).
    replace (n * q * cos (angle_of lo) * (n * q * cos (angle_of lo)) + n * q * sin (angle_of lo) * (n * q * sin (angle_of lo))) with (n * q * (n * q)) by (transitivity (n * q * (n * q) * 1); [ring|rewrite <- U; ring]). nra. }
  unfold rdiv. rewrite W. cbn [rbind]. destruct (if Rltb (3 / 10) _ then _ else _) as [[[a b] c] d]. cbn [rbind px py pz fst snd]. eexists. reflexivity.
Qed.
Print Assumptions C131_longitudes.

(** On a sphere the given positions are found again. *)
Theorem C131_sphere : forall interp a h lon lat j k lo la, 0 < a -> at_node interp j k -> given lon lat k lo la ->
  -180 < lo <= 180 -> -90 < la < 90 -> - a < h ->
  let s := Spheroid a 0 in nth_error (interpolate (ecef_to_lla s) interp s h lon lat) j = Some (Some (lo, la)).
Proof.
  intros interp a h lon lat j k lo la A N G M L H s. assert (V : valid_spheroid s) by (split; cbn; lra).
  rewrite (node_value _ _ _ _ _ _ _ _ _ _ N G). set (p := lla_to_ecef s (lo, la, h)).
  assert (B := C78_sphere_partial a lo la h A M L H). fold s p in B.
  rewrite position_same; [|exact V| |right; reflexivity].
  - cbn [rbind]. rewrite point_eta, B. reflexivity.
  - apply Rnot_le_lt. intro Z. assert (X : px p * px p + py p * py p + pz p * pz p = 0) by (pose proof (Rle_0_sqr (px p)); pose proof (Rle_0_sqr (py p)); pose proof (Rle_0_sqr (pz p)); unfold Rsqr in *; lra).
    assert (px p = 0 /\ py p = 0 /\ pz p = 0) as (X1 & X2 & X3) by (pose proof (Rle_0_sqr (px p)); pose proof (Rle_0_sqr (py p)); pose proof (Rle_0_sqr (pz p)); unfold Rsqr in *; repeat split; apply Rsqr_0_uniq; unfold Rsqr; lra).
    rewrite <- (point_eta p), X1, X2, X3, C78_centre in B. discriminate.
Qed.
Print Assumptions C131_sphere.

(** Longitudes are taken up to whole turns: an orbit crossing the antimeridian is interpolated as any other one. *)
Theorem C131_turns : forall to_lla interp s h lon lon' lat, Forall2 (fun l l' => exists k, l' = l + IZR k * 360) lon lon' ->
  interpolate to_lla interp s h lon' lat = interpolate to_lla interp s h lon lat.
Proof.
  intros to_lla interp s h lon lon' lat F. unfold interpolate. replace (ecef s h lon' lat) with (ecef s h lon lat); [reflexivity|].
  unfold ecef. revert lat. induction F as [|l l' lon lon' [k ->] F IH]; intros [|a lat]; try reflexivity.
  cbn [combine map fst snd]. rewrite C77_turns. f_equal. apply IH.
Qed.
Print Assumptions C131_turns.

(** At the equator and at the poles the given position is found again, on every spheroid. *)
Theorem C131_equator : forall interp s h lon lat j k lo, valid_spheroid s -> at_node interp j k -> given lon lat k lo 0 ->
  -180 < lo <= 180 -> - s_a s < h ->
  nth_error (interpolate (ecef_to_lla s) interp s h lon lat) j = Some (Some (lo, 0)).
Proof.
  intros interp s h lon lat j k lo V N G M H. rewrite (node_value _ _ _ _ _ _ _ _ _ _ N G). set (p := lla_to_ecef s (lo, 0, h)).
  assert (B := C78_equator_partial s lo h V M H). fold p in B.
  assert (Z : pz p = 0).
  { unfold p. rewrite ecef_eq. cbn [pz snd]. replace (angle_of 0) with 0 by (unfold angle_of; field). rewrite sin_0. ring. }
  rewrite position_same; [|exact V| |left; exact Z].
  - cbn [rbind]. rewrite point_eta, B. reflexivity.
  - apply Rnot_le_lt. intro Q.
    assert (px p = 0 /\ py p = 0) as (X1 & X2) by (rewrite Z in Q; pose proof (Rle_0_sqr (px p)); pose proof (Rle_0_sqr (py p)); unfold Rsqr in *; split; apply Rsqr_0_uniq; unfold Rsqr; lra).
    rewrite <- (point_eta p), X1, X2, Z, C78_centre in B. discriminate.
Qed.
Print Assumptions C131_equator.
Theorem C131_poles : forall interp s h lon lat j k lo (north : bool), valid_spheroid s -> at_node interp j k ->
  let la := if north then 90 else -90 in given lon lat k lo la -> - minor s < h ->
  nth_error (interpolate (ecef_to_lla s) interp s h lon lat) j = Some (Some (0, la)).
Proof.
  intros interp s h lon lat j k lo north V N la G H. rewrite (node_value _ _ _ _ _ _ _ _ _ _ N G). set (p := lla_to_ecef s (lo, la, h)).
  assert (B := C78_poles_partial s lo h north V H). cbn zeta in B. fold la p in B.
  assert (XY : px p = 0 /\ py p = 0).
  { assert (C : cos (angle_of la) = 0) by (unfold la; destruct north; [rewrite angle_90|rewrite angle_m90, cos_neg]; exact cos_PI2).
    unfold p. rewrite ecef_eq. cbn [px py fst snd]. rewrite C. split; ring. }
  destruct XY as [X Y].
  assert (Z : pz p <> 0) by (intro Z; rewrite <- (point_eta p), X, Y, Z, C78_centre in B; discriminate).
  assert (Q : position s (px p) (py p) (pz p) (radius s p) = Some p).
  { destruct (stretch_pos s V) as [S0 _]. unfold position, rdiv, radius. rewrite X, Y.
    replace (0 * 0 + 0 * 0 + pz p * pz p) with (Rsqr (pz p)) by (unfold Rsqr; ring).
    replace (0 * 0 + 0 * 0 + pz p * pz p * stretch s * stretch s) with (Rsqr (pz p * stretch s)) by (unfold Rsqr; ring).
    rewrite !sqrt_Rsqr_abs. assert (A := Rabs_no_R0 _ Z). rewrite (proj2 (Reqb_false _ _) A). cbn [rbind]. rewrite Rabs_mult, (Rabs_pos_eq (stretch s)) by lra.
    transitivity (Some (0, 0, pz p)); [|f_equal; rewrite <- (point_eta p) at 2; rewrite X, Y; reflexivity].
    f_equal. f_equal; [f_equal; ring|]. field. split; lra. }
  rewrite Q. cbn [rbind]. rewrite B. reflexivity.
Qed.
Print Assumptions C131_poles.

Lemma flattened n h h' g m : 0 < n -> 0 <= h -> 0 < g < 1 -> 1 <= m -> n * g ^ 2 + h' = (n * g ^ 2 + h) * (m * g) ->
  (n + h') * (n + h') = (n + h) * m * ((n + h) * m) -> False.
Proof.
  intros N H G M Z D. assert (g2 : 0 < g ^ 2 < 1) by (cbn [pow]; nra). set (t := g ^ 2) in *. clearbody t.
  assert (P : 0 < n * t) by (apply Rmult_lt_0_compat; lra). assert (B : 0 < (n * t + h) * m) by (apply Rmult_lt_0_compat; lra).
  assert (L : (n * t + h) * (m * g) < (n * t + h) * m) by nra. assert (L0 : 0 < (n * t + h) * (m * g)) by (apply Rmult_lt_0_compat; [lra|apply Rmult_lt_0_compat; lra]).
  assert (D2 : (n + h') = (n + h) * m \/ (n + h') = - ((n + h) * m)).
  { assert (X : (n + h' - (n + h) * m) * (n + h' + (n + h) * m) = 0) by lra. apply Rmult_integral in X. destruct X; [left|right]; lra. }
  assert (T : n * t < n) by nra. assert (Y : 0 <= n * (1 - t) * (m - 1)) by (apply Rmult_le_pos; [apply Rmult_le_pos; lra|lra]).
  assert (K : 0 < (n + h) * m) by (apply Rmult_lt_0_compat; lra).
  destruct D2 as [D2|D2]; lra.
Qed.
(** Elsewhere, on a flattened spheroid, the latitude of a given position is NOT found again, however exact the
    conversion from Cartesian coordinates: the third coordinate is divided by the ratio of the axes (orbit.py:88)
    without having been multiplied by it before the interpolation. *)
Theorem C131_latitudes_refuted : forall to_lla interp s h lon lat j k lo la, 0 < s_a s -> 0 < s_f s < 1 ->
  (forall q p, to_lla q = Some p -> lla_to_ecef s p = q) ->
  at_node interp j k -> given lon lat k lo la -> 0 < la < 90 \/ -90 < la < 0 -> 0 <= h ->
  forall lo', nth_error (interpolate to_lla interp s h lon lat) j <> Some (Some (lo', la)).
Proof.
  intros to_lla interp s h lon lat j k lo la A F EX N G L H lo' E. rewrite (node_value _ _ _ _ _ _ _ _ _ _ N G) in E.
  assert (V : valid_spheroid s) by (split; lra). injection E as E. set (p := lla_to_ecef s (lo, la, h)) in *.
  destruct (position s (px p) (py p) (pz p) (radius s p)) as [q|] eqn:Q; cbn [rbind] in E; [|discriminate].
  destruct (to_lla q) as [r|] eqn:T; cbn [rbind] in E; [|discriminate]. injection E as E1 E2. apply EX in T.
  rewrite <- (point_eta r), E1, E2 in T. set (h' := pz r) in *. rewrite ecef_eq in T. clear EX.
  pose proof PI_RGT_0 as PI0. assert (C : 0 < cos (angle_of la)) by (apply cos_gt_0; unfold angle_of; nra).
  assert (SN : sin (angle_of la) <> 0).
  { destruct L as [L|L]; [apply Rgt_not_eq, sin_gt_0; unfold angle_of; nra|]. apply Rlt_not_eq. rewrite <- (Ropp_involutive (angle_of la)), sin_neg.
    apply Ropp_lt_gt_0_contravar. apply sin_gt_0; unfold angle_of; nra. }
  pose proof (vertical_pos s la V) as NP. rewrite (e2_eq s V) in T. replace (1 - (1 - (1 - s_f s) ^ 2)) with ((1 - s_f s) ^ 2) in T by ring.
  unfold position, rdiv in Q. unfold p, radius in Q. rewrite ecef_eq in Q. rewrite (e2_eq s V) in Q. replace (1 - (1 - (1 - s_f s) ^ 2)) with ((1 - s_f s) ^ 2) in Q by ring.
  cbn [px py pz fst snd] in Q. clear p. destruct (stretch_pos s V) as [M0 M1]. set (g := 1 - s_f s) in *. set (mz := stretch s) in *.
  set (c := cos (angle_of la)) in *. set (si := sin (angle_of la)) in *. set (n := vertical s la) in *. set (cl := cos (angle_of lo)) in *. set (sl := sin (angle_of lo)) in *.
  set (cl' := cos (angle_of lo')) in *. set (sl' := sin (angle_of lo')) in *.
  assert (U : sl * sl + cl * cl = 1) by apply unit. assert (U' : sl' * sl' + cl' * cl' = 1) by apply unit.
  set (w := (n + h) * c) in *. set (z := (n * g ^ 2 + h) * si) in *.
  replace (w * cl * (w * cl) + w * sl * (w * sl)) with (w * w) in Q by (transitivity (w * w * 1); [ring|rewrite <- U; ring]).
  destruct (Reqb (sqrt (w * w + z * z)) 0) eqn:R0; cbn [rbind] in Q; [discriminate|]. injection Q as Q. rewrite <- Q in T. clear Q R0 E1 E2.
  set (m := sqrt (w * w + z * z * mz * mz) / sqrt (w * w + z * z)) in *. injection T as T1 T2 T3.
  assert (G0 : 0 < g < 1) by (unfold g; lra).
  assert (W0 : 0 < w) by (unfold w; apply Rmult_lt_0_compat; [lra|exact C]).
  assert (Mz1 : 1 < mz) by nra.
  assert (m1 : 1 <= m).
  { unfold m. assert (P := sqrt_lt_R0 (w * w + z * z) ltac:(clearbody z w; nra)). apply Rmult_le_reg_r with (sqrt (w * w + z * z)); [exact P|].
    unfold Rdiv. rewrite Rmult_assoc, Rinv_l by lra. rewrite Rmult_1_l, Rmult_1_r. clearbody z w mz. assert (ZZ : 0 <= z * z) by nra. assert (MM : 1 <= mz * mz) by nra.
    assert (ZM : z * z <= z * z * (mz * mz)) by nra. rewrite Rmult_assoc with (r2 := mz). apply sqrt_le_1; nra. }
  assert (IZ : 1 / mz = g) by (apply (Rmult_eq_reg_l mz); [field_simplify; lra|lra]). rewrite IZ in T3.
  (* the distances to the axis *)
  assert (D : ((n + h') * c) * ((n + h') * c) = (w * m) * (w * m)).
  { transitivity (((n + h') * c * cl') * ((n + h') * c * cl') + ((n + h') * c * sl') * ((n + h') * c * sl')).
    - transitivity (((n + h') * c) * ((n + h') * c) * 1); [ring|rewrite <- U'; ring].
    - rewrite T1, T2. transitivity (w * m * (w * m) * 1); [rewrite <- U; ring|ring]. }
  assert (Z : (n * g ^ 2 + h') = (n * g ^ 2 + h) * (m * g)).
  { apply (Rmult_eq_reg_r si); [|exact SN]. transitivity ((n * (g * (g * 1)) + h') * si); [ring|]. rewrite T3. unfold z. ring. }
  apply (flattened n h h' g m NP H G0 m1 Z). apply (Rmult_eq_reg_r (c * c)); [|apply Rgt_not_eq, Rmult_lt_0_compat; exact C].
  transitivity (((n + h') * c) * ((n + h') * c)); [ring|]. rewrite D. unfold w. ring.
Qed.
Print Assumptions C131_latitudes_refuted.

(** Turning the whole orbit around the axis of the Earth turns the interpolated positions, and nothing else. *)
Lemma nth_combine_inv {A B} : forall (a : list A) (b : list B) j x y, nth_error (combine a b) j = Some (x, y) -> nth_error a j = Some x /\ nth_error b j = Some y.
Proof.
  induction a as [|u a IH]; intros [|v b] [|j] x y H; cbn in *; try discriminate; [split; congruence|]. apply IH; assumption.
Qed.
Lemma olson_pole s z o : olson s (sqr 0 + sqr 0) z = Some o -> fst o = if Rltb z 0 then - (PI / 2) else PI / 2.
Proof.
  intro O. unfold olson in O. replace (sqr 0 + sqr 0) with 0 in O by (unfold sqr; ring). destruct (rdiv 1 (0 + sqr z)) as [i|]; cbn [rbind] in O; [|discriminate].
  replace (0 * i) with 0 in O by ring. assert (F : Rltb (3 / 10) 0 = false) by (apply Rltb_false; lra). rewrite F in O. rewrite sqrt_0 in O.
  injection O as <-. cbn [fst]. match goal with |- context [acos ?t] => replace t with 0 by ring end. rewrite acos_0.
  match goal with |- context [PI / 2 + ?t] => replace t with 0 end; [rewrite Rplus_0_r; reflexivity|]. unfold Rdiv. ring.
Qed.
Definition turn (d : R) (p : point) : point := (cos d * px p - sin d * py p, sin d * px p + cos d * py p, pz p).
Lemma ecef_turn s h d : forall lon lat, ecef s h (map (fun l => l + d) lon) lat = map (turn (angle_of d)) (ecef s h lon lat).
Proof.
  intro lon. unfold ecef. induction lon as [|l lon IH]; intros [|a lat]; try reflexivity. cbn [map combine fst snd]. f_equal; [|apply IH].
  rewrite !ecef_eq. unfold turn. cbn [px py pz fst snd]. rewrite angle_plus, cos_plus, sin_plus. f_equal. f_equal; ring.
Qed.
Lemma dot_turn d w : forall p : list point,
  dot w (map px (map (turn d) p)) = cos d * dot w (map px p) - sin d * dot w (map py p) /\
  dot w (map py (map (turn d) p)) = sin d * dot w (map px p) + cos d * dot w (map py p) /\
  dot w (map pz (map (turn d) p)) = dot w (map pz p).
Proof.
  induction w as [|a w IH]; intro p; [cbn; repeat split; ring|]. destruct p as [|q p]; [cbn; repeat split; ring|].
  destruct (IH p) as (A & B & C). cbn [map dot]. rewrite A, B, C. unfold turn. cbn [px py pz fst snd]. repeat split; ring.
Qed.
Lemma turn_norm d x y : (cos d * x - sin d * y) * (cos d * x - sin d * y) + (sin d * x + cos d * y) * (sin d * x + cos d * y) = x * x + y * y.
Proof. pose proof (unit d) as U. transitivity ((sin d * sin d + cos d * cos d) * (x * x + y * y)); [ring|rewrite U; ring]. Qed.
Lemma radius_turn s d p : radius s (turn d p) = radius s p.
Proof. unfold radius, turn. cbn [px py pz fst snd]. rewrite turn_norm. reflexivity. Qed.
Lemma turn_direction d x y t : direction x y t -> exists k : Z, direction (cos (angle_of d) * x - sin (angle_of d) * y) (sin (angle_of d) * x + cos (angle_of d) * y) (t + d + IZR k * 360).
Proof.
  intros (T & rho & R0 & X & Y). set (u := t + d).
  (* a whole number of turns brings u into the interval *)
  exists (- (up ((u - 180) / 360) - 1 + (if Req_EM_T (IZR (up ((u - 180) / 360)) - (u - 180) / 360) 1 then 0 else 1)))%Z.
  pose proof (archimed ((u - 180) / 360)) as [A B]. set (n := up ((u - 180) / 360)) in *.
  assert (E : forall j : Z, cos (angle_of (u + IZR j * 360)) = cos (angle_of u) /\ sin (angle_of (u + IZR j * 360)) = sin (angle_of u)).
  { intro j. assert (Q : angle_of (u + IZR j * 360) = angle_of u + 2 * IZR j * PI) by (unfold angle_of; field). rewrite Q, sin_turns, cos_turns. split; reflexivity. }
  split.
  - rewrite opp_IZR. destruct (Req_EM_T (IZR n - (u - 180) / 360) 1) as [E1|E1]; rewrite plus_IZR, minus_IZR; unfold u in *; lra.
  - exists rho. split; [exact R0|]. destruct (E (- (n - 1 + (if Req_EM_T (IZR n - (u - 180) / 360) 1 then 0 else 1)))%Z) as [-> ->].
    unfold u. rewrite angle_plus, cos_plus, sin_plus, X, Y. split; ring.
Qed.
Theorem C131_rotation : forall interp s h lon lat d j lo la, linear interp ->
  nth_error (interpolate (ecef_to_lla s) interp s h lon lat) j = Some (Some (lo, la)) ->
  exists lo', nth_error (interpolate (ecef_to_lla s) interp s h (map (fun l => l + d) lon) lat) j = Some (Some (lo', la)) /\
    (-90 < la < 90 -> same_meridian lo' (lo + d)).
Proof.
  intros interp s h lon lat d j lo la LIN E. unfold interpolate in *. rewrite ecef_turn. set (p := ecef s h lon lat) in *. clearbody p.
  rewrite nth_error_map in E. destruct (nth_error (combine _ _) j) as [[[[x y] z] r]|] eqn:N; cbn [option_map] in E; [|discriminate].
  apply nth_combine_inv in N as [N Nr]. apply nth_combine_inv in N as [N Nz]. apply nth_combine_inv in N as [Nx Ny].
  destruct (LIN j) as [K|[K|[w K]]]; [rewrite K in Nx; discriminate|rewrite K in Nx; injection Nx as <-; cbn in E; discriminate|].
  rewrite K in Nx, Ny, Nz, Nr. injection Nx as <-. injection Ny as <-. injection Nz as <-. injection Nr as <-.
  destruct (dot_turn (angle_of d) w p) as (A & B & C).
  assert (RR : map (radius s) (map (turn (angle_of d)) p) = map (radius s) p).
  { rewrite map_map. apply map_ext. intro q. apply radius_turn. }
  rewrite nth_error_map. rewrite (nth_combine _ _ j (Some (dot w (map px (map (turn (angle_of d)) p))), Some (dot w (map py (map (turn (angle_of d)) p))), Some (dot w (map pz (map (turn (angle_of d)) p)))) (Some (dot w (map (radius s) p)))).
  2:{ repeat apply nth_combine; apply K. }
  2:{ rewrite RR. apply K. }
  cbn [option_map]. rewrite A, B, C. cbn [element rbind] in E |- *. set (X := dot w (map px p)) in *. set (Y := dot w (map py p)) in *. set (Z0 := dot w (map pz p)) in *. set (R0 := dot w (map (radius s) p)) in *.
  unfold position in *. rewrite turn_norm. destruct (rdiv R0 _) as [k|]; cbn [rbind] in *; [|discriminate].
  destruct (ecef_to_lla s (X * k, Y * k, Z0 * (k * (1 / stretch s)))) as [r|] eqn:T; cbn [rbind] in E; [|discriminate]. injection E as E1 E2.
  destruct (C78_meridian s (X * k) (Y * k) ((cos (angle_of d) * X - sin (angle_of d) * Y) * k) ((sin (angle_of d) * X + cos (angle_of d) * Y) * k) (Z0 * (k * (1 / stretch s))) r) as (r' & T' & P1 & P2).
  { transitivity (k * k * (X * X + Y * Y)); [ring|]. rewrite <- (turn_norm (angle_of d) X Y). ring. }
  { exact T. }
  rewrite T'. cbn [rbind]. exists (px r'). rewrite P1, E2. split; [reflexivity|]. intro NP.
  unfold ecef_to_lla in T, T'. destruct (olson _ _ _) as [o|] eqn:O in T; cbn [rbind] in T; [|discriminate]. destruct (olson _ _ _) as [o'|] in T'; cbn [rbind] in T'; [|discriminate].
  injection T as T. injection T' as T'. cbn [px py fst snd] in T, T', O. assert (XY : X * k <> 0 \/ Y * k <> 0).
  { destruct (Req_dec (X * k) 0) as [HX|HX]; [|left; exact HX]. destruct (Req_dec (Y * k) 0) as [HY|HY]; [|right; exact HY]. exfalso.
    rewrite HX, HY in O. rewrite <- E2, <- T in NP. cbn [py fst snd] in NP. apply olson_pole in O. rewrite O in NP. destruct (Rltb _ _) in NP; unfold degrees in NP; pose proof PI_RGT_0; [replace (- (PI / 2) * 180 / PI) with (-90) in NP by (field; lra)|replace (PI / 2 * 180 / PI) with 90 in NP by (field; lra)]; lra. }
  rewrite <- E1, <- T, <- T'. cbn [px py fst snd].
  assert (D1 := atan2d_spec _ _ XY). destruct (turn_direction d _ _ _ D1) as [q D2].
  exists q. symmetry. apply (direction_unique _ _ _ _ D2).
  replace ((cos (angle_of d) * X - sin (angle_of d) * Y) * k) with (cos (angle_of d) * (X * k) - sin (angle_of d) * (Y * k)) by ring.
  replace ((sin (angle_of d) * X + cos (angle_of d) * Y) * k) with (sin (angle_of d) * (X * k) + cos (angle_of d) * (Y * k)) by ring.
  apply atan2d_spec. apply Classical_Prop.not_and_or. intros [H1 H2].
  assert (S := turn_norm (angle_of d) (X * k) (Y * k)). rewrite H1, H2 in S. destruct XY as [XY|XY]; apply XY; apply Rsqr_0_uniq; unfold Rsqr; nra.
Qed.
Print Assumptions C131_rotation.

Example C131_ex : let interp := fun d : list R => [nth_error d 1] in
  at_node interp 0 1 /\ given [10; 20] [30; 40] 1 20 40 /\
  nth_error (interpolate (ecef_to_lla (Spheroid 6371000 0)) interp (Spheroid 6371000 0) 800000 [10; 20] [30; 40]) 0 = Some (Some (20, 40)) /\
  0 < s_a wgs84 /\ 0 < s_f wgs84 < 1.
Proof.
  intro interp. assert (A : at_node interp 0 1) by (intros d v H; unfold interp; rewrite H; reflexivity).
  assert (G : given [10; 20] [30; 40] 1 20 40) by (split; reflexivity). split; [exact A|]. split; [exact G|]. split.
  - apply (C131_sphere interp 6371000 800000 _ _ 0 1 20 40); auto; lra.
  - cbn [wgs84 s_a s_f]. lra.
Qed.
