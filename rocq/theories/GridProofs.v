(** Interpolation in grids: lemmas. *)
From Verif Require Import Base BaseProofs MathModel AxisModel IntAxisModel AxisSpec AxisProofs AxisProofs2 AxisProofs5 GridModel GridSpec.
Open Scope Z_scope.

Lemma axis_at_ok : forall a i, wf (a_cont a) -> 0 <= i < len a -> axis_at a i = Ok (fval (a_cont a) i).
Proof. intros a i W H. unfold axis_at. rewrite (wf_value _ i W) by (unfold len in H; exact H). reflexivity. Qed.
Lemma new_grid2_inv : forall ax ay arr g, new_grid2 ax ay arr = Ok g ->
  g = Grid2 ax ay arr /\ nd_shape arr = [len ax; len ay] /\ a_is_circle ay = false.
Proof.
  intros ax ay arr g H. unfold new_grid2, new_grid2_dim, check_ndim in H. destruct (Nat.eqb_spec (length (nd_shape arr)) 2) as [N|N]; cbn [obind] in H; [|discriminate].
  destruct (nd_shape arr) as [|n0 [|n1 [|]]] eqn:E; cbn in N; try discriminate. unfold check_shape in H. rewrite E in H. cbn [nth_error] in H.
  destruct (Z.eqb_spec (c_size (a_cont ax)) n0); cbn [obind] in H; [|discriminate]. destruct (Z.eqb_spec (c_size (a_cont ay)) n1); cbn [obind] in H; [|discriminate].
  destruct (a_is_circle ay) eqn:C; cbn [obind] in H; [discriminate|]. injection H as <-. subst. auto.
Qed.
Lemma grid_value2 : forall arr n m i j, nd_shape arr = [n; m] -> 0 <= i < n -> 0 <= j < m -> grid_value arr [i; j] = Ok (nd_cell arr [i; j]).
Proof.
  intros arr n m i j E H H'. unfold grid_value. rewrite E. cbn [in_shape].
  destruct (Z.leb_spec 0 i), (Z.ltb_spec i n), (Z.leb_spec 0 j), (Z.ltb_spec j m); try lia. reflexivity.
Qed.
(** What is evaluated when the two pairs of indexes are found. *)
Lemma biv_found : forall d c ax ay arr g f be x y i0 i1 j0 j1, axis_ok ax -> axis_ok ay -> 1 < len ax -> 1 < len ay -> new_grid2 ax ay arr = Ok g ->
  find_indexes ax x = Ok (Some (i0, i1)) -> find_indexes ay y = Ok (Some (j0, j1)) ->
  bivariate d c g f be x y = Ok (evaluate d c f (Point (normalize_coordinate_min ax x (fval (a_cont ax) i0)) y)
     (Point (fval (a_cont ax) i0) (fval (a_cont ay) j0)) (Point (fval (a_cont ax) i1) (fval (a_cont ay) j1))
     (nd_cell arr [i0; j0]) (nd_cell arr [i0; j1]) (nd_cell arr [i1; j0]) (nd_cell arr [i1; j1])).
Proof.
  intros d c ax ay arr g f be x y i0 i1 j0 j1 OX OY LX LY G FX FY. apply new_grid2_inv in G as (-> & S & _).
  destruct (find_indexes_range ax x i0 i1 OX LX FX) as [A0 A1]. destruct (find_indexes_range ay y j0 j1 OY LY FY) as [B0 B1].
  unfold bivariate. cbn [g2_x g2_y g2_array]. rewrite FX. cbn [obind]. rewrite FY. cbn [obind].
  rewrite !axis_at_ok by (try apply OX; try apply OY; assumption). cbn [obind]. rewrite !(grid_value2 arr _ _ _ _ S) by assumption. reflexivity.
Qed.
Lemma biv_missing : forall d c ax ay arr g f be x y, new_grid2 ax ay arr = Ok g ->
  (exists r, find_indexes ax x = Ok r) -> (exists r, find_indexes ay y = Ok r) -> (find_indexes ax x = Ok None \/ find_indexes ay y = Ok None) ->
  bivariate d c g f be x y = if be then Throw "out of bounds" else Ok None.
Proof.
  intros d c ax ay arr g f be x y G (rx & FX) (ry & FY) H. apply new_grid2_inv in G as (-> & _). unfold bivariate. cbn [g2_x g2_y]. rewrite FX, FY in *. cbn [obind].
  destruct rx as [[? ?]|], ry as [[? ?]|]; auto. destruct H; congruence.
Qed.

(** ** Bilinear *)
Lemma lerp_ends : forall x0 x1 v0 v1, ~ (x0 == x1)%Q -> (lerp x0 x1 v0 v1 x0 == v0)%Q /\ (lerp x0 x1 v0 v1 x1 == v1)%Q.
Proof. intros. unfold lerp. split; field; lra. Qed.
Lemma bilinear_bilerp : forall p p0 p1 q00 q01 q10 q11, ~ (px p0 == px p1)%Q -> ~ (py p0 == py p1)%Q ->
  exists v, bilinear p p0 p1 (Some q00) (Some q01) (Some q10) (Some q11) = Some v /\
    (v == bilerp (px p0) (px p1) (py p0) (py p1) q00 q01 q10 q11 (px p) (py p))%Q.
Proof.
  intros p p0 p1 q00 q01 q10 q11 NX NY. unfold bilinear.
  destruct (Qeq_bool (px p1 - px p0) 0) eqn:E1; [apply Qeq_bool_iff in E1; exfalso; apply NX; lra|].
  destruct (Qeq_bool (py p1 - py p0) 0) eqn:E2; [apply Qeq_bool_iff in E2; exfalso; apply NY; lra|]. cbn [orb].
  eexists. split; [reflexivity|]. unfold bilerp, lerp. field. split; intro H; [apply NY|apply NX]; lra.
Qed.
Lemma ratio_unit : forall x0 x1 x, between x0 x1 x -> ~ (x0 == x1)%Q -> (0 <= (x - x0) / (x1 - x0) <= 1)%Q.
Proof.
  intros x0 x1 x B N. assert (E : ((x - x0) / (x1 - x0) == (x0 - x) / (x0 - x1))%Q) by (field; split; lra).
  destruct B as [B|B].
  - assert (0 < x1 - x0)%Q by lra. split; [apply Qle_shift_div_l; [assumption|lra]|apply Qle_shift_div_r; [assumption|lra]].
  - rewrite E. assert (0 < x0 - x1)%Q by lra. split; [apply Qle_shift_div_l; [assumption|lra]|apply Qle_shift_div_r; [assumption|lra]].
Qed.
Lemma lerp_bounds : forall x0 x1 v0 v1 x lo hi, between x0 x1 x -> ~ (x0 == x1)%Q -> (lo <= v0)%Q -> (lo <= v1)%Q -> (v0 <= hi)%Q -> (v1 <= hi)%Q ->
  (lo <= lerp x0 x1 v0 v1 x <= hi)%Q.
Proof.
  intros x0 x1 v0 v1 x lo hi B N L0 L1 H0 H1. pose proof (ratio_unit x0 x1 x B N) as R. unfold lerp. set (t := ((x - x0) / (x1 - x0))%Q) in *. nra.
Qed.
Lemma bilerp_bounds : forall x0 x1 y0 y1 q00 q01 q10 q11 x y lo hi, between x0 x1 x -> between y0 y1 y -> ~ (x0 == x1)%Q -> ~ (y0 == y1)%Q ->
  (forall q, In q [q00; q01; q10; q11] -> lo <= q <= hi)%Q -> (lo <= bilerp x0 x1 y0 y1 q00 q01 q10 q11 x y <= hi)%Q.
Proof.
  intros x0 x1 y0 y1 q00 q01 q10 q11 x y lo hi BX BY NX NY H. unfold bilerp.
  pose proof (H q00 ltac:(cbn; tauto)). pose proof (H q01 ltac:(cbn; tauto)). pose proof (H q10 ltac:(cbn; tauto)). pose proof (H q11 ltac:(cbn; tauto)).
  assert (A : (lo <= lerp x0 x1 q00 q10 x <= hi)%Q) by (apply lerp_bounds; auto; lra). assert (B : (lo <= lerp x0 x1 q01 q11 x <= hi)%Q) by (apply lerp_bounds; auto; lra).
  apply lerp_bounds; auto; lra.
Qed.
Lemma extreme : forall l : list Q, l <> [] -> exists lo hi, In lo l /\ In hi l /\ forall q, In q l -> (lo <= q <= hi)%Q.
Proof.
  induction l as [|a l IH]; [congruence|]. intros _. destruct l as [|b l].
  - exists a, a. cbn. split; [tauto|]. split; [tauto|]. intros q [->|[]]. lra.
  - destruct IH as (lo & hi & L & H & B); [congruence|].
    exists (if Qlt_le_dec a lo then a else lo), (if Qlt_le_dec hi a then a else hi). split; [destruct (Qlt_le_dec a lo); [left; reflexivity|right; exact L]|].
    split; [destruct (Qlt_le_dec hi a); [left; reflexivity|right; exact H]|].
    intros q [<-|Q]; [destruct (Qlt_le_dec a lo), (Qlt_le_dec hi a); try lra|]. specialize (B q Q). destruct (Qlt_le_dec a lo), (Qlt_le_dec hi a); lra.
Qed.
Lemma bilerp_within : forall x0 x1 y0 y1 q00 q01 q10 q11 x y v, between x0 x1 x -> between y0 y1 y -> ~ (x0 == x1)%Q -> ~ (y0 == y1)%Q ->
  (v == bilerp x0 x1 y0 y1 q00 q01 q10 q11 x y)%Q -> within [q00; q01; q10; q11] v.
Proof.
  intros x0 x1 y0 y1 q00 q01 q10 q11 x y v BX BY NX NY E. destruct (extreme [q00; q01; q10; q11]) as (lo & hi & L & H & B); [congruence|].
  pose proof (bilerp_bounds x0 x1 y0 y1 q00 q01 q10 q11 x y lo hi BX BY NX NY B). split; [exists lo|exists hi]; (split; [assumption|rewrite E; lra]).
Qed.
Lemma bilerp_surface : forall x0 x1 y0 y1 q00 q01 q10 q11 x y a b c d, ~ (x0 == x1)%Q -> ~ (y0 == y1)%Q ->
  (q00 == a + b * x0 + c * y0 + d * x0 * y0)%Q -> (q01 == a + b * x0 + c * y1 + d * x0 * y1)%Q ->
  (q10 == a + b * x1 + c * y0 + d * x1 * y0)%Q -> (q11 == a + b * x1 + c * y1 + d * x1 * y1)%Q ->
  (bilerp x0 x1 y0 y1 q00 q01 q10 q11 x y == a + b * x + c * y + d * x * y)%Q.
Proof. intros x0 x1 y0 y1 q00 q01 q10 q11 x y a b c d NX NY E0 E1 E2 E3. unfold bilerp, lerp. rewrite E0, E1, E2, E3. field. split; lra. Qed.

(** ** Cells of an axis *)
Lemma fval_neq : forall a i j, wf (a_cont a) -> 0 <= i < len a -> 0 <= j < len a -> i <> j -> ~ (fval (a_cont a) i == fval (a_cont a) j)%Q.
Proof.
  intros a i j W Hi Hj N. unfold len in *. destruct (Z.lt_trichotomy i j) as [H|[H|H]]; [|lia|].
  - pose proof (wf_mono _ W i j ltac:(lia) ltac:(lia)) as M. destruct (c_asc (a_cont a)); lra.
  - pose proof (wf_mono _ W j i ltac:(lia) ltac:(lia)) as M. destruct (c_asc (a_cont a)); lra.
Qed.
Lemma cell_brackets : forall a x i0 i1, wf (a_cont a) -> brackets a x i0 i1 -> 0 <= i0 < len a /\ 0 <= i1 < len a /\ i0 <> i1 /\ cell a x i0 i1 (fval (a_cont a) i0) (fval (a_cont a) i1).
Proof.
  intros a x i0 i1 W (v0 & v1 & H0 & H1 & A & B). pose proof H0 as H0'. pose proof H1 as H1'. apply at_index_iff in H0' as [R0 E0]; [|exact W]. apply at_index_iff in H1' as [R1 E1]; [|exact W].
  subst. split; [exact R0|]. split; [exact R1|]. split; [lia|]. unfold cell. auto.
Qed.
(** A node seen from a cell that contains it is one of its ends. *)
Lemma cell_node : forall a x i v i0 i1, wf (a_cont a) -> at_index a i v -> (x == v)%Q -> cell a x i0 i1 (fval (a_cont a) i0) (fval (a_cont a) i1) -> i = i0 \/ i = i1.
Proof.
  intros a x i v i0 i1 W Hi E (H0 & H1 & A & B). apply at_index_iff in Hi as [Ri ->]; [|exact W]. apply at_index_iff in H0 as [R0 _]; [|exact W]. apply at_index_iff in H1 as [R1 _]; [|exact W].
  destruct (Z.eq_dec i i0); [auto|]. destruct (Z.eq_dec i i1); [auto|]. exfalso. unfold between in B. unfold len in *.
  assert (M : forall p q, 0 <= p -> p < q -> q < c_size (a_cont a) -> if c_asc (a_cont a) then (fval (a_cont a) p < fval (a_cont a) q)%Q else (fval (a_cont a) q < fval (a_cont a) p)%Q) by (intros; apply (wf_mono _ W); lia).
  destruct (Z.lt_trichotomy i (Z.min i0 i1)) as [C|[C|C]]; [|lia|].
  - pose proof (M i i0 ltac:(lia) ltac:(lia) ltac:(lia)). pose proof (M i i1 ltac:(lia) ltac:(lia) ltac:(lia)). destruct (c_asc (a_cont a)); lra.
  - pose proof (M i0 i ltac:(lia) ltac:(lia) ltac:(lia)). pose proof (M i1 i ltac:(lia) ltac:(lia) ltac:(lia)). destruct (c_asc (a_cont a)); lra.
Qed.
Lemma plain_indexes : forall a x, axis_ok a -> 1 < len a -> is_angle a = false -> inside a x -> exists i0 i1, find_indexes a x = Ok (Some (i0, i1)) /\ brackets a x i0 i1.
Proof.
  intros a x OK L A I. assert (Hc : a_circle a = None) by (unfold is_angle in A; destruct (a_circle a); [discriminate|reflexivity]).
  destruct (find_indexes_plain a x OK L Hc) as ([[i0 i1]|] & E & P); [|tauto]. exists i0, i1. split; [exact E|apply P].
Qed.
Lemma plain_none : forall a x, axis_ok a -> 1 < len a -> is_angle a = false -> ~ inside a x -> find_indexes a x = Ok None.
Proof.
  intros a x OK L A I. assert (Hc : a_circle a = None) by (unfold is_angle in A; destruct (a_circle a); [discriminate|reflexivity]).
  destruct (find_indexes_plain a x OK L Hc) as ([[i0 i1]|] & E & P); [|exact E]. exfalso. apply I. destruct P as ((v0 & v1 & H0 & H1 & _ & [B|B]) & _); [exists i0, v0, i1, v1|exists i1, v1, i0, v0]; tauto.
Qed.
Lemma no_angle_min : forall a x m, is_angle a = false -> normalize_coordinate_min a x m = x.
Proof. intros a x m H. unfold normalize_coordinate_min. unfold is_angle in H. destruct (a_circle a); [discriminate|reflexivity]. Qed.
