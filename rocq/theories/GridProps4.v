(** Theorems about 3-D and 4-D interpolation (property C55). *)
From Verif Require Import Base BaseProofs MathModel AxisModel IntAxisModel IntAxisProofs AxisSpec AxisProofs AxisProofs2 AxisProofs5 GridModel GridSpec GridProofs GridProofs2 GridProofs3 GridProofs4 GridProps GridProps2.
Open Scope Z_scope.

(** * C55 *)
Definition taxi0 (p q : point) : Q := (Qabs (px p - px q) + Qabs (py p - py q))%Q.
(** The two methods along the last axis. *)
Theorem C55_methods : forall z z0 z1, ~ (z0 == z1)%Q ->
  (forall a b, exists v, linear_z z z0 z1 (Some a) (Some b) = Some v /\ (v == lerp z0 z1 a b z)%Q) /\
  (forall a b, (a = None \/ b = None) -> linear_z z z0 z1 a b = None) /\
  (forall a b, (Qabs (z - z0) < Qabs (z - z1))%Q -> nearest_z z z0 z1 a b = a) /\
  (forall a b, (Qabs (z - z1) <= Qabs (z - z0))%Q -> nearest_z z z0 z1 a b = b).
Proof.
  intros z z0 z1 N. unfold linear_z, nearest_z. cbv zeta. destruct (Qeq_bool (z1 - z0) 0) eqn:E; [apply Qeq_bool_iff in E; exfalso; apply N; lra|].
  assert (SQ : forall p q, (0 <= p)%Q -> (0 <= q)%Q -> (p < q)%Q -> (p * p < q * q)%Q) by (intros; nra).
  assert (AB : forall a, (Qabs a * Qabs a == a * a)%Q) by (intro a; destruct (Qlt_le_dec a 0); [rewrite Qabs_neg by lra|rewrite Qabs_pos by lra]; ring).
  assert (A0 : ((z0 - z) * (z0 - z) == Qabs (z - z0) * Qabs (z - z0))%Q) by (rewrite AB; ring). assert (A1 : ((z1 - z) * (z1 - z) == Qabs (z - z1) * Qabs (z - z1))%Q) by (rewrite AB; ring).
  pose proof (Qabs_nonneg (z - z0)). pose proof (Qabs_nonneg (z - z1)).
  split; [|split; [|split]].
  - intros a b. eexists. split; [reflexivity|]. unfold lerp. assert (T : ((z1 - z) / (z1 - z0) + (z - z0) / (z1 - z0) == 1)%Q) by (field; lra). rewrite T. field. lra.
  - intros a b [->| ->]; [reflexivity|destruct a; reflexivity].
  - intros a b H1. specialize (SQ _ _ H H0 H1). destruct (Qltb_spec ((z0 - z) * (z0 - z)) ((z1 - z) * (z1 - z))); [reflexivity|exfalso; lra].
  - intros a b H1. destruct (Qltb_spec ((z0 - z) * (z0 - z)) ((z1 - z) * (z1 - z))) as [Q|Q]; [exfalso|reflexivity].
    destruct (Qlt_le_dec (Qabs (z - z1)) (Qabs (z - z0))) as [Q'|Q']; [specialize (SQ _ _ H0 H Q'); lra|]. assert (EQ : (Qabs (z - z1) == Qabs (z - z0))%Q) by lra. rewrite EQ in A1. lra.
Qed.
Print Assumptions C55_methods.
Theorem C55_method_names : (exists f, z_method "linear" = Ok f /\ f = linear_z) /\ (exists f, z_method "nearest" = Ok f /\ f = nearest_z) /\
  forall name, name <> "linear"%string -> name <> "nearest"%string -> exists w, z_method name = Throw w.
Proof.
  split; [eexists; split; reflexivity|]. split; [eexists; split; reflexivity|]. intros name N M. unfold z_method.
  destruct (String.eqb_spec name "linear"); [congruence|]. destruct (String.eqb_spec name "nearest"); [congruence|]. eauto.
Qed.
Print Assumptions C55_method_names.
(** 3-D = the interpolation of the 2-D answers at the two levels around [z], for every
    bivariate interpolator, every position and whether or not errors are raised. *)
Theorem C55_levels : forall d c ax ay az arr g method zf z, new_grid3 ax ay az arr = Ok g -> reachable ax -> reachable ay -> 1 < len ax -> 1 < len ay ->
  z_usable az -> z_coordinate az z -> z_inside az z -> z_method method = Ok zf ->
  exists k0 k1 z0 z1, z_cell az z k0 k1 z0 z1 /\ forall k, new_grid2 ax ay (g2_array (level g k)) = Ok (level g k) /\
    forall f be x y, trivariate d c g f zf be x y z =
      (olet r0 := bivariate d c (level g k0) f be x y in olet r1 := bivariate d c (level g k1) f be x y in Ok (zf z z0 z1 r0 r1)).
Proof.
  intros d c ax ay az arr g method zf z G RX RY LX LY U C I M. destruct (z_find_in az z U C I) as (k0 & k1 & z0 & z1 & F & CC). exists k0, k1, z0, z1. split; [exact CC|].
  intro k. split; [eapply level_grid; exact G|]. intros f be x y.
  assert (S : strict zf). { unfold z_method in M. destruct (String.eqb method "linear"); [injection M as <-; exact linear_strict|]. destruct (String.eqb method "nearest"); [injection M as <-; exact nearest_strict|discriminate]. }
  destruct CC as (Z0 & Z1 & _). apply (tri_levels d c ax ay az arr g f zf be x y z k0 k1 z0 z1 G (reachable_ok _ RX) (reachable_ok _ RY) LX LY U S F Z0 Z1).
Qed.
Print Assumptions C55_levels.
Theorem C55_outside : forall d c ax ay az arr g f zf be x y z, new_grid3 ax ay az arr = Ok g -> reachable ax -> reachable ay -> 1 < len ax -> 1 < len ay ->
  z_usable az -> z_coordinate az z -> ~ z_inside az z -> trivariate d c g f zf be x y z = if be then Throw "out of bounds" else Ok None.
Proof.
  intros d c ax ay az arr g f zf be x y z G RX RY LX LY U C I. pose proof (z_find_out az z U C I) as FZ. apply new_grid3_inv in G as (-> & _). unfold trivariate. cbn [g3_x g3_y g3_z].
  destruct (find_indexes_total ax x (reachable_ok _ RX) LX) as (rx & ->). destruct (find_indexes_total ay y (reachable_ok _ RY) LY) as (ry & ->). rewrite FZ. cbn [obind].
  destruct rx as [[? ?]|], ry as [[? ?]|]; reflexivity.
Qed.
Print Assumptions C55_outside.
(** 4-D = the interpolation of the 3-D answers at the two values around [u]. *)
Theorem C55_hyper_levels : forall d c ax ay az au arr g zf method uf z u, new_grid4 ax ay az au arr = Ok g -> reachable ax -> reachable ay -> reachable au -> 1 < len ax -> 1 < len ay -> 1 < len au ->
  is_angle au = false -> z_usable az -> z_coordinate az z -> inside au u -> z_method method = Ok uf ->
  exists h0 h1 u0 u1, cell au u h0 h1 u0 u1 /\ forall h, new_grid3 ax ay az (g3_array (hyper_level g h)) = Ok (hyper_level g h) /\
    forall f be x y, quadrivariate d c g f zf uf be x y z u =
      (olet r0 := trivariate d c (hyper_level g h0) f zf be x y z in olet r1 := trivariate d c (hyper_level g h1) f zf be x y z in Ok (uf u u0 u1 r0 r1)).
Proof.
  intros d c ax ay az au arr g zf method uf z u G RX RY RU LX LY LU AU U C I M. pose proof (reachable_ok _ RU) as OU. destruct (plain_indexes au u OU LU AU I) as (h0 & h1 & F & B).
  destruct (cell_brackets au u h0 h1 (proj1 OU) B) as (T0 & T1 & _ & CC). exists h0, h1, (fval (a_cont au) h0), (fval (a_cont au) h1). split; [exact CC|].
  intro h. split; [eapply hyper_level_grid; exact G|]. intros f be x y.
  assert (S : strict uf). { unfold z_method in M. destruct (String.eqb method "linear"); [injection M as <-; exact linear_strict|]. destruct (String.eqb method "nearest"); [injection M as <-; exact nearest_strict|discriminate]. }
  destruct CC as (U0 & U1 & _). apply (quad_levels d c ax ay az au arr g f zf uf be x y z u h0 h1 _ _ G (reachable_ok _ RX) (reachable_ok _ RY) OU LX LY LU U C S F U0 U1).
Qed.
Print Assumptions C55_hyper_levels.
Theorem C55_hyper_outside : forall d c ax ay az au arr g f zf uf be x y z u, new_grid4 ax ay az au arr = Ok g -> reachable ax -> reachable ay -> reachable au -> 1 < len ax -> 1 < len ay -> 1 < len au ->
  is_angle au = false -> z_usable az -> z_coordinate az z -> ~ inside au u -> quadrivariate d c g f zf uf be x y z u = if be then Throw "out of bounds" else Ok None.
Proof.
  intros d c ax ay az au arr g f zf uf be x y z u G RX RY RU LX LY LU AU U C I. pose proof (plain_none au u (reachable_ok _ RU) LU AU I) as FU. apply new_grid4_inv in G as (-> & _). unfold quadrivariate. cbn [g4_x g4_y g4_z g4_u].
  destruct (find_indexes_total ax x (reachable_ok _ RX) LX) as (rx & ->). destruct (find_indexes_total ay y (reachable_ok _ RY) LY) as (ry & ->).
  assert (FZ : exists rz, z_find_indexes az z = Ok rz).
  { destruct (find_indexes_total ax x (reachable_ok _ RX) LX). destruct az as [a|ca]; cbn [z_find_indexes]; [apply find_indexes_total; [apply reachable_ok, U|apply U]|].
    destruct U as (L & l & As & U). destruct (i_find_indexes_spec ca (Qfloor z) (i_wf_usable ca l As U) L) as (r & F & _). eauto. }
  destruct FZ as (rz & ->). rewrite FU. cbn [obind]. destruct rx as [[? ?]|], ry as [[? ?]|], rz as [[? ?]|]; reflexivity.
Qed.
Print Assumptions C55_hyper_outside.

(** Consequences for trilinear interpolation of a full grid: never beyond the values of the
    eight corners, exact at the nodes, exact on surfaces linear in each variable. *)
Definition full3 (ax ay : axis) (az : zaxis) (arr : ndarray) : Prop :=
  forall i j k, 0 <= i < len ax -> 0 <= j < len ay -> 0 <= k < z_size az -> exists q, nd_cell arr [i; j; k] = Some q.
Lemma z_cell_neq : forall az z k0 k1 z0 z1, z_usable az -> z_cell az z k0 k1 z0 z1 -> ~ (z0 == z1)%Q.
Proof.
  intros [a|ca] z k0 k1 z0 z1 (L & U) (H0 & H1 & Ad & _); cbn [z_at_index] in *.
  - pose proof (reachable_ok _ (proj1 U)) as OK. apply at_index_iff in H0 as [R0 ->]; [|apply OK]. apply at_index_iff in H1 as [R1 ->]; [|apply OK]. apply fval_neq; try apply OK; auto; lia.
  - destruct U as (l & As & U). pose proof (i_wf_usable ca l As U) as W. destruct H0 as (t0 & H0 & ->), H1 as (t1 & H1 & ->). apply i_at_iff in H0 as [R0 ->]. apply i_at_iff in H1 as [R1 ->].
    intro E. apply (proj1 (inject_Z_injective _ _)) in E. destruct (Z.lt_trichotomy k0 k1) as [Q|[Q|Q]]; [|lia|].
    + pose proof (i_mono ca W k0 k1 ltac:(lia) ltac:(lia)) as M. rewrite E in M. destruct (i_asc ca); lia.
    + pose proof (i_mono ca W k1 k0 ltac:(lia) ltac:(lia)) as M. rewrite E in M. destruct (i_asc ca); lia.
Qed.
Lemma z_cell_node : forall az z k v k0 k1 z0 z1, z_usable az -> z_at_index az k v -> (z == v)%Q -> z_cell az z k0 k1 z0 z1 -> k = k0 \/ k = k1.
Proof.
  intros [a|ca] z k v k0 k1 z0 z1 (L & U) Hk E (H0 & H1 & Ad & B); cbn [z_at_index] in *.
  - pose proof (reachable_ok _ (proj1 U)) as OK. apply (cell_node a z k v k0 k1 (proj1 OK) Hk E). pose proof H0 as H0'. pose proof H1 as H1'. apply at_index_iff in H0' as [_ ->]; [|apply OK]. apply at_index_iff in H1' as [_ ->]; [|apply OK]. unfold cell. auto.
  - destruct U as (l & As & U). pose proof (i_wf_usable ca l As U) as W. destruct H0 as (t0 & H0 & ->), H1 as (t1 & H1 & ->), Hk as (t & Hk & ->). apply i_at_iff in H0 as [R0 ->]. apply i_at_iff in H1 as [R1 ->]. apply i_at_iff in Hk as [Rk ->].
    assert (B' : iv ca k0 <= iv ca k <= iv ca k1 \/ iv ca k1 <= iv ca k <= iv ca k0) by (unfold between in B; rewrite E in B; rewrite <- !Zle_Qle in B; exact B).
    destruct (Z.eq_dec k k0); [auto|]. destruct (Z.eq_dec k k1); [auto|]. exfalso.
    assert (M : forall p q, 0 <= p -> p < q -> q < i_size ca -> if i_asc ca then iv ca p < iv ca q else iv ca q < iv ca p) by (intros; apply (i_mono ca W); lia).
    destruct (Z.lt_trichotomy k (Z.min k0 k1)) as [C|[C|C]]; [|lia|].
    + pose proof (M k k0 ltac:(lia) ltac:(lia) ltac:(lia)). pose proof (M k k1 ltac:(lia) ltac:(lia) ltac:(lia)). destruct (i_asc ca); lia.
    + pose proof (M k0 k ltac:(lia) ltac:(lia) ltac:(lia)). pose proof (M k1 k ltac:(lia) ltac:(lia) ltac:(lia)). destruct (i_asc ca); lia.
Qed.
Lemma level_full : forall ax ay az arr g k, new_grid3 ax ay az arr = Ok g -> full3 ax ay az arr -> 0 <= k < z_size az -> full ax ay (g2_array (level g k)).
Proof. intros ax ay az arr g k G F R i j Hi Hj. apply new_grid3_inv in G as (-> & _). cbn. apply F; assumption. Qed.
Lemma level_cell : forall ax ay az arr g i j k, new_grid3 ax ay az arr = Ok g -> nd_cell (g2_array (level g k)) [i; j] = nd_cell arr [i; j; k].
Proof. intros ax ay az arr g i j k G. apply new_grid3_inv in G as (-> & _). reflexivity. Qed.
Theorem C55_bounded : forall d c ax ay az arr g be x y z, new_grid3 ax ay az arr = Ok g -> reachable ax -> reachable ay -> 1 < len ax -> 1 < len ay -> is_angle ax = false -> is_angle ay = false ->
  z_usable az -> z_coordinate az z -> inside ax x -> inside ay y -> z_inside az z -> full3 ax ay az arr ->
  exists v l, trivariate d c g Bilinear linear_z be x y z = Ok (Some v) /\ within l v /\
    forall q, In q l -> exists i j k i' j' k' a0 a1 b0 b1 c0 c1, nd_cell arr [i; j; k] = Some q /\
       (cell ax x i i' a0 a1 \/ cell ax x i' i a0 a1) /\ (cell ay y j j' b0 b1 \/ cell ay y j' j b0 b1) /\ (z_cell az z k k' c0 c1 \/ z_cell az z k' k c0 c1).
Proof.
  intros d c ax ay az arr g be x y z G RX RY LX LY AX AY U ZC IX IY IZ F.
  destruct (C55_levels d c ax ay az arr g "linear" linear_z z G RX RY LX LY U ZC IZ eq_refl) as (k0 & k1 & z0 & z1 & CZ & H). destruct (H k0) as (G0 & E). destruct (H k1) as (G1 & _). specialize (E Bilinear be x y). clear H.
  pose proof CZ as (Z0 & Z1 & _ & BZ). destruct (z_range az k0 z0 U Z0) as [T0 _]. destruct (z_range az k1 z1 U Z1) as [T1 _]. pose proof (z_cell_neq az z k0 k1 z0 z1 U CZ) as NZ.
  destruct (C52_bounded d c ax ay _ _ be x y G0 RX RY LX LY AX AY IX IY (level_full ax ay az arr g k0 G F T0)) as (v & i0 & i1 & j0 & j1 & x0 & x1 & y0 & y1 & p00 & p01 & p10 & p11 & V & CX & CY & P0 & P1 & P2 & P3 & W).
  destruct (C52_bounded d c ax ay _ _ be x y G1 RX RY LX LY AX AY IX IY (level_full ax ay az arr g k1 G F T1)) as (v' & i0' & i1' & j0' & j1' & x0' & x1' & y0' & y1' & q00 & q01 & q10 & q11 & V' & CX' & CY' & Q0 & Q1 & Q2 & Q3 & W').
  rewrite V, V' in E. cbn [obind] in E. destruct (proj1 (C55_methods z z0 z1 NZ) v v') as (r & R & L). rewrite R in E.
  exists r, ([p00; p01; p10; p11] ++ [q00; q01; q10; q11]). split; [exact E|].
  pose proof (fun i j k => level_cell ax ay az arr g i j k G) as LC. rewrite LC in P0. rewrite LC in P1. rewrite LC in P2. rewrite LC in P3. rewrite LC in Q0. rewrite LC in Q1. rewrite LC in Q2. rewrite LC in Q3. split.
  - destruct W as [(a & A1 & A2) (b & B1 & B2)]. destruct W' as [(a' & A1' & A2') (b' & B1' & B2')].
    assert (LB : forall lo hi, (lo <= a)%Q -> (lo <= a')%Q -> (b <= hi)%Q -> (b' <= hi)%Q -> (lo <= r <= hi)%Q) by (intros; rewrite L; apply lerp_bounds; auto; lra).
    split.
    + destruct (Qlt_le_dec a a'); [exists a|exists a']; (split; [apply in_or_app; auto|]); [apply (LB a (if Qlt_le_dec b b' then b' else b))|apply (LB a' (if Qlt_le_dec b b' then b' else b))]; destruct (Qlt_le_dec b b'); lra.
    + destruct (Qlt_le_dec b b'); [exists b'|exists b]; (split; [apply in_or_app; auto|]); [apply (LB (if Qlt_le_dec a a' then a else a') b')|apply (LB (if Qlt_le_dec a a' then a else a') b)]; destruct (Qlt_le_dec a a'); lra.
  - intros q I. apply in_app_or in I as [I|I]; cbn in I; destruct I as [<-|[<-|[<-|[<-|[]]]]].
    + exists i0, j0, k0, i1, j1, k1, x0, x1, y0, y1, z0, z1. auto 8.
    + exists i0, j1, k0, i1, j0, k1, x0, x1, y0, y1, z0, z1. auto 8.
    + exists i1, j0, k0, i0, j1, k1, x0, x1, y0, y1, z0, z1. auto 8.
    + exists i1, j1, k0, i0, j0, k1, x0, x1, y0, y1, z0, z1. auto 8.
    + exists i0', j0', k1, i1', j1', k0, x0', x1', y0', y1', z0, z1. auto 8.
    + exists i0', j1', k1, i1', j0', k0, x0', x1', y0', y1', z0, z1. auto 8.
    + exists i1', j0', k1, i0', j1', k0, x0', x1', y0', y1', z0, z1. auto 8.
    + exists i1', j1', k1, i0', j0', k0, x0', x1', y0', y1', z0, z1. auto 8.
Qed.
Print Assumptions C55_bounded.
Theorem C55_nodes : forall d c ax ay az arr g be x y z i j k xi yj zk, new_grid3 ax ay az arr = Ok g -> reachable ax -> reachable ay -> 1 < len ax -> 1 < len ay -> is_angle ax = false -> is_angle ay = false ->
  z_usable az -> z_coordinate az z -> full3 ax ay az arr -> at_index ax i xi -> at_index ay j yj -> z_at_index az k zk -> (x == xi)%Q -> (y == yj)%Q -> (z == zk)%Q ->
  exists v q, trivariate d c g Bilinear linear_z be x y z = Ok (Some v) /\ nd_cell arr [i; j; k] = Some q /\ (v == q)%Q.
Proof.
  intros d c ax ay az arr g be x y z i j k xi yj zk G RX RY LX LY AX AY U ZC F HX HY HZ EX EY EZ.
  assert (IZ : z_inside az z) by (exists k, zk, k, zk; repeat split; auto; lra).
  destruct (C55_levels d c ax ay az arr g "linear" linear_z z G RX RY LX LY U ZC IZ eq_refl) as (k0 & k1 & z0 & z1 & CZ & H). destruct (H k0) as (G0 & E). destruct (H k1) as (G1 & _). specialize (E Bilinear be x y). clear H.
  pose proof CZ as (Z0 & Z1 & _ & BZ). destruct (z_range az k0 z0 U Z0) as [T0 E0]. destruct (z_range az k1 z1 U Z1) as [T1 E1]. pose proof (z_cell_neq az z k0 k1 z0 z1 U CZ) as NZ.
  destruct (C52_nodes d c ax ay _ _ be x y i j xi yj G0 RX RY LX LY AX AY (level_full ax ay az arr g k0 G F T0) HX HY EX EY) as (v & q & V & Q & VQ).
  destruct (C52_nodes d c ax ay _ _ be x y i j xi yj G1 RX RY LX LY AX AY (level_full ax ay az arr g k1 G F T1) HX HY EX EY) as (v' & q' & V' & Q' & VQ').
  rewrite V, V' in E. cbn [obind] in E. destruct (proj1 (C55_methods z z0 z1 NZ) v v') as (r & R & L). rewrite R in E. rewrite (level_cell ax ay az arr g _ _ _ G) in Q. rewrite (level_cell ax ay az arr g _ _ _ G) in Q'.
  destruct (z_range az k zk U HZ) as [_ Ek].
  destruct (z_cell_node az z k zk k0 k1 z0 z1 U HZ EZ CZ) as [->| ->].
  - exists r, q. split; [exact E|]. split; [exact Q|]. assert (zk = z0) by congruence. subst zk. rewrite L, <- VQ. unfold lerp. rewrite EZ. field. lra.
  - exists r, q'. split; [exact E|]. split; [exact Q'|]. assert (zk = z1) by congruence. subst zk. rewrite L, <- VQ'. unfold lerp. rewrite EZ. field. lra.
Qed.
Print Assumptions C55_nodes.

(** An undefined level makes the answer undefined, even on the other level. *)
Theorem C55_undefined_level : forall d c ax ay az arr g f z k0 k1 z0 z1 be x y, new_grid3 ax ay az arr = Ok g -> reachable ax -> reachable ay -> 1 < len ax -> 1 < len ay -> z_usable az ->
  z_find_indexes az z = Ok (Some (k0, k1)) -> z_cell az z k0 k1 z0 z1 ->
  bivariate d c (level g k0) f be x y = Ok None \/ bivariate d c (level g k1) f be x y = Ok None ->
  (forall k, exists r, bivariate d c (level g k) f be x y = Ok r) -> trivariate d c g f linear_z be x y z = Ok None.
Proof.
  intros d c ax ay az arr g f z k0 k1 z0 z1 be x y G RX RY LX LY U FZ CZ H T. pose proof CZ as (Z0 & Z1 & _).
  rewrite (tri_levels d c ax ay az arr g f linear_z be x y z k0 k1 z0 z1 G (reachable_ok _ RX) (reachable_ok _ RY) LX LY U linear_strict FZ Z0 Z1).
  destruct (T k0) as (r0 & E0), (T k1) as (r1 & E1). rewrite E0, E1 in *. cbn [obind]. f_equal.
  apply (C55_methods z z0 z1 (z_cell_neq az z k0 k1 z0 z1 U CZ)). destruct H as [H|H]; injection H as ->; auto.
Qed.
Print Assumptions C55_undefined_level.

(** A concrete grid: three longitudes, three latitudes, times 0, 10, 20, 30. *)
Definition times : icontainer := match int_axis_of_values [0; 10; 20; 30] with Ok c => c | _ => IIrr true [] end.
Lemma times_usable : z_usable (ZTime times).
Proof.
  split; [reflexivity|]. exists [0; 10; 20; 30]. split; [|left; reflexivity].
  intros i j a b Hi Hj Hij. assert (Ri := znth_Some _ _ _ Hi). assert (Rj := znth_Some _ _ _ Hj). unfold zlen in *; simpl in *.
  assert (D : i = 0 \/ i = 1 \/ i = 2 \/ i = 3) by lia. assert (D' : j = 0 \/ j = 1 \/ j = 2 \/ j = 3) by lia.
  destruct D as [->|[->|[->| ->]]], D' as [->|[->|[->| ->]]]; try lia; vm_compute in Hi, Hj; injection Hi as <-; injection Hj as <-; lia.
Qed.
Definition ramp3 : ndarray := NdArray [3; 3; 4] (fun i => match i with [i; j; k] => Some (inject_Z (i + 10 * j + 100 * k)) | _ => None end).
Example C55_ex : exists g, new_grid3 ax3 ax3 (ZTime times) ramp3 = Ok g /\ z_usable (ZTime times) /\ z_coordinate (ZTime times) 14 /\ z_inside (ZTime times) 14 /\ full3 ax3 ax3 (ZTime times) ramp3 /\
  exists v, trivariate taxi0 taxi0 g Bilinear linear_z true (1 # 2) (3 # 2) 14 = Ok (Some v) /\ (v == 155 + (1 # 2))%Q.
Proof.
  eexists. split; [reflexivity|]. split; [exact times_usable|]. split; [exists 14; reflexivity|].
  split; [exists 1, (inject_Z 10), 2, (inject_Z 20); split; [exists 10; split; reflexivity|]; split; [exists 20; split; reflexivity|]; change (inject_Z 10) with 10%Q; change (inject_Z 20) with 20%Q; lra|].
  split; [intros i j k _ _ _; eexists; reflexivity|].
  assert (V : exists v, trivariate taxi0 taxi0 (Grid3 ax3 ax3 (ZTime times) ramp3) Bilinear linear_z true (1 # 2) (3 # 2) 14 = Ok (Some v) /\ Qred v = (311 # 2)%Q) by (vm_compute; eexists; split; reflexivity).
  destruct V as (v & V & E). exists v. split; [exact V|]. pose proof (Qred_correct v) as Q. rewrite E in Q. rewrite <- Q. reflexivity.
Qed.
