(** 3-D and 4-D grids: lemmas. *)
From Verif Require Import Base BaseProofs MathModel MathProofs AxisModel IntAxisModel IntAxisProofs AxisSpec AxisProofs AxisProofs2 AxisProofs5 GridModel GridSpec GridProofs GridProofs2 GridProofs3.
Open Scope Z_scope.

Lemma find_indexes_total : forall a x, axis_ok a -> 1 < len a -> exists r, find_indexes a x = Ok r.
Proof.
  intros a x OK L. assert (N : normalize_coordinate a (normalize_coordinate a x) = normalize_coordinate a x).
  { destruct (proj1 (proj2 OK)) as [C|C]; [rewrite !normalize_none by exact C; reflexivity|]. apply (normalize_angle_axis a x (proj1 OK) C). }
  destruct (find_indexes_spec a x _ OK L eq_refl N) as (r & H & _). eauto.
Qed.
Lemma i_wf_usable : forall c l, i_ascending l -> (int_axis_of_values l = Ok c \/ exists c', int_axis_of_values l = Ok c' /\ c = i_flip c') -> i_wf c.
Proof.
  intros c l A [H|(c' & H & ->)]; [apply (int_axis_wf l c H (or_introl A))|]. apply i_flip_wf. apply (int_axis_wf l c' H (or_introl A)).
Qed.
Lemma i_at_range : forall c k t, i_at c k t -> 0 <= k < i_size c.
Proof. intros c k t H. apply i_at_iff in H. tauto. Qed.
Lemma z_range : forall az k v, z_usable az -> z_at_index az k v -> 0 <= k < z_size az /\ z_at az k = Ok v.
Proof.
  intros [a|c] k v (L & U) H; cbn [z_at_index z_size z_at] in *.
  - pose proof (reachable_ok _ (proj1 U)) as OK. apply at_index_iff in H as [R ->]; [|apply OK]. split; [exact R|]. apply axis_at_ok; [apply OK|exact R].
  - destruct H as (t & H & ->). split; [eapply i_at_range; exact H|]. rewrite H. reflexivity.
Qed.
Lemma z_find_in : forall az z, z_usable az -> z_coordinate az z -> z_inside az z -> exists k0 k1 z0 z1, z_find_indexes az z = Ok (Some (k0, k1)) /\ z_cell az z k0 k1 z0 z1.
Proof.
  intros [a|c] z (L & U) C I; cbn [z_find_indexes z_size z_coordinate] in *.
  - destruct U as [R A]. pose proof (reachable_ok _ R) as OK. destruct (plain_indexes a z OK L A I) as (k0 & k1 & F & B). destruct (cell_brackets a z k0 k1 (proj1 OK) B) as (_ & _ & _ & CC).
    exists k0, k1, (fval (a_cont a) k0), (fval (a_cont a) k1). split; [exact F|exact CC].
  - destruct U as (l & As & U). pose proof (i_wf_usable c l As U) as W. destruct C as (t & ->). rewrite Qfloor_Z. destruct (i_find_indexes_spec c t W L) as (r & F & H).
    destruct r as [[k0 k1]|].
    + destruct H as (v0 & v1 & H0 & H1 & Ad & B). exists k0, k1, (inject_Z v0), (inject_Z v1). split; [exact F|].
      unfold z_cell. split; [exists v0; auto|]. split; [exists v1; auto|]. split; [exact Ad|]. unfold between. rewrite <- !Zle_Qle. exact B.
    + exfalso. apply H. destruct I as (k & v & m & w & (v' & A1 & ->) & (w' & A2 & ->) & B1 & B2). rewrite <- Zle_Qle in B1, B2. exists k, v', m, w'. auto.
Qed.
Lemma z_find_out : forall az z, z_usable az -> z_coordinate az z -> ~ z_inside az z -> z_find_indexes az z = Ok None.
Proof.
  intros [a|c] z (L & U) C I; cbn [z_find_indexes z_size z_coordinate] in *.
  - destruct U as [R A]. pose proof (reachable_ok _ R) as OK. apply plain_none; auto.
  - destruct U as (l & As & U). pose proof (i_wf_usable c l As U) as W. destruct C as (t & ->). rewrite Qfloor_Z. destruct (i_find_indexes_spec c t W L) as (r & F & H).
    destruct r as [[k0 k1]|]; [exfalso|exact F]. apply I. destruct H as (v0 & v1 & H0 & H1 & Ad & [B|B]).
    + exists k0, (inject_Z v0), k1, (inject_Z v1). rewrite <- !Zle_Qle. split; [exists v0; auto|]. split; [exists v1; auto|]. exact B.
    + exists k1, (inject_Z v1), k0, (inject_Z v0). rewrite <- !Zle_Qle. split; [exists v1; auto|]. split; [exists v0; auto|]. exact B.
Qed.
Lemma new_grid3_inv : forall ax ay az arr g, new_grid3 ax ay az arr = Ok g ->
  g = Grid3 ax ay az arr /\ nd_shape arr = [len ax; len ay; z_size az] /\ a_is_circle ay = false.
Proof.
  intros ax ay az arr g H. unfold new_grid3, new_grid3_dim, new_grid2_dim, check_ndim in H. destruct (Nat.eqb_spec (length (nd_shape arr)) 3) as [N|N]; cbn [obind] in H; [|discriminate].
  destruct (nd_shape arr) as [|n0 [|n1 [|n2 [|]]]] eqn:E; cbn in N; try discriminate. unfold check_shape in H. rewrite E in H. cbn [nth_error] in H.
  destruct (Z.eqb_spec (c_size (a_cont ax)) n0); cbn [obind] in H; [|discriminate]. destruct (Z.eqb_spec (c_size (a_cont ay)) n1); cbn [obind] in H; [|discriminate].
  destruct (a_is_circle ay) eqn:C; cbn [obind] in H; [discriminate|]. destruct (Z.eqb_spec (z_size az) n2); cbn [obind] in H; [|discriminate].
  destruct (z_is_circle az) eqn:C'; cbn [obind] in H; [discriminate|]. injection H as <-. subst. auto.
Qed.
Lemma new_grid4_inv : forall ax ay az au arr g, new_grid4 ax ay az au arr = Ok g ->
  g = Grid4 ax ay az au arr /\ nd_shape arr = [len ax; len ay; z_size az; len au] /\ a_is_circle ay = false /\ z_is_circle az = false.
Proof.
  intros ax ay az au arr g H. unfold new_grid4, new_grid3_dim, new_grid2_dim, check_ndim in H. destruct (Nat.eqb_spec (length (nd_shape arr)) 4) as [N|N]; cbn [obind] in H; [|discriminate].
  destruct (nd_shape arr) as [|n0 [|n1 [|n2 [|n3 [|]]]]] eqn:E; cbn in N; try discriminate. unfold check_shape in H. rewrite E in H. cbn [nth_error] in H.
  destruct (Z.eqb_spec (c_size (a_cont ax)) n0); cbn [obind] in H; [|discriminate]. destruct (Z.eqb_spec (c_size (a_cont ay)) n1); cbn [obind] in H; [|discriminate].
  destruct (a_is_circle ay) eqn:C; cbn [obind] in H; [discriminate|]. destruct (Z.eqb_spec (z_size az) n2); cbn [obind] in H; [|discriminate].
  destruct (z_is_circle az) eqn:C'; cbn [obind] in H; [discriminate|]. destruct (Z.eqb_spec (c_size (a_cont au)) n3); cbn [obind] in H; [|discriminate].
  destruct (a_is_circle au) eqn:C''; cbn [obind] in H; [discriminate|]. injection H as <-. subst. auto.
Qed.
Lemma level_grid : forall ax ay az arr g k, new_grid3 ax ay az arr = Ok g -> new_grid2 ax ay (g2_array (level g k)) = Ok (level g k).
Proof.
  intros ax ay az arr g k H. apply new_grid3_inv in H as (-> & S & C). unfold new_grid2, new_grid2_dim, check_ndim, check_shape, level. cbn [g3_x g3_y g3_array g2_array nd_shape]. rewrite S. cbn [firstn length Nat.eqb obind nth_error].
  unfold len. rewrite !Z.eqb_refl. cbn [obind]. rewrite C. reflexivity.
Qed.
Lemma hyper_level_grid : forall ax ay az au arr g k, new_grid4 ax ay az au arr = Ok g -> new_grid3 ax ay az (g3_array (hyper_level g k)) = Ok (hyper_level g k).
Proof.
  intros ax ay az au arr g k H. apply new_grid4_inv in H as (-> & S & C & C'). unfold new_grid3, new_grid3_dim, new_grid2_dim, check_ndim, check_shape, hyper_level. cbn [g4_x g4_y g4_z g4_array g3_array nd_shape]. rewrite S. cbn [firstn length Nat.eqb obind nth_error].
  unfold len. rewrite !Z.eqb_refl. cbn [obind]. rewrite C. cbn [obind]. rewrite C'. reflexivity.
Qed.
Lemma grid_value3 : forall arr n m l i j k, nd_shape arr = [n; m; l] -> 0 <= i < n -> 0 <= j < m -> 0 <= k < l -> grid_value arr [i; j; k] = Ok (nd_cell arr [i; j; k]).
Proof.
  intros arr n m l i j k E H H' H''. unfold grid_value. rewrite E. cbn [in_shape].
  destruct (Z.leb_spec 0 i), (Z.ltb_spec i n), (Z.leb_spec 0 j), (Z.ltb_spec j m), (Z.leb_spec 0 k), (Z.ltb_spec k l); try lia. reflexivity.
Qed.
Lemma grid_value4 : forall arr n m l o i j k h, nd_shape arr = [n; m; l; o] -> 0 <= i < n -> 0 <= j < m -> 0 <= k < l -> 0 <= h < o -> grid_value arr [i; j; k; h] = Ok (nd_cell arr [i; j; k; h]).
Proof.
  intros arr n m l o i j k h E H H' H'' H3. unfold grid_value. rewrite E. cbn [in_shape].
  destruct (Z.leb_spec 0 i), (Z.ltb_spec i n), (Z.leb_spec 0 j), (Z.ltb_spec j m), (Z.leb_spec 0 k), (Z.ltb_spec k l), (Z.leb_spec 0 h), (Z.ltb_spec h o); try lia. reflexivity.
Qed.
(** Both methods have no answer without the two values. *)
Definition strict (zf : Q -> Q -> Q -> option Q -> option Q -> option Q) : Prop := forall z z0 z1, zf z z0 z1 None None = None.
Lemma linear_strict : strict linear_z.
Proof. intros z z0 z1. unfold linear_z. cbv zeta. destruct (Qeq_bool (z1 - z0) 0); [destruct (Qeq_bool z z0)|]; reflexivity. Qed.
Lemma nearest_strict : strict nearest_z.
Proof. intros z z0 z1. unfold nearest_z. cbv zeta. destruct (Qltb _ _); reflexivity. Qed.

Lemma tri_levels : forall d c ax ay az arr g f zf be x y z k0 k1 z0 z1, new_grid3 ax ay az arr = Ok g -> axis_ok ax -> axis_ok ay -> 1 < len ax -> 1 < len ay -> z_usable az -> strict zf ->
  z_find_indexes az z = Ok (Some (k0, k1)) -> z_at_index az k0 z0 -> z_at_index az k1 z1 ->
  trivariate d c g f zf be x y z =
    (olet r0 := bivariate d c (level g k0) f be x y in olet r1 := bivariate d c (level g k1) f be x y in Ok (zf z z0 z1 r0 r1)).
Proof.
  intros d c ax ay az arr g f zf be x y z k0 k1 z0 z1 G OX OY LX LY U S FZ Z0 Z1. destruct (z_range az k0 z0 U Z0) as [T0 E0]. destruct (z_range az k1 z1 U Z1) as [T1 E1].
  apply new_grid3_inv in G as (-> & Sh & C). unfold trivariate, bivariate, level. cbn [g3_x g3_y g3_z g3_array g2_x g2_y g2_array].
  destruct (find_indexes_total ax x OX LX) as (rx & FX). destruct (find_indexes_total ay y OY LY) as (ry & FY). rewrite FX, FY, FZ. cbn [obind].
  destruct rx as [[i0 i1]|]; [|destruct be; cbn [obind]; [reflexivity|rewrite S; reflexivity]]. destruct ry as [[j0 j1]|]; [|destruct be; cbn [obind]; [reflexivity|rewrite S; reflexivity]].
  destruct (find_indexes_range ax x i0 i1 OX LX FX) as [R0 R1]. destruct (find_indexes_range ay y j0 j1 OY LY FY) as [S0 S1].
  rewrite !axis_at_ok by (try apply OX; try apply OY; assumption). cbn [obind]. rewrite E0, E1. cbn [obind]. rewrite !(grid_value3 arr _ _ _ _ _ _ Sh) by assumption. cbn [obind].
  rewrite !(grid_value2 _ (len ax) (len ay)) by (try assumption; cbn [nd_shape]; rewrite Sh; reflexivity). cbn [obind nd_cell app]. reflexivity.
Qed.
Lemma quad_levels : forall d c ax ay az au arr g f zf uf be x y z u h0 h1 u0 u1, new_grid4 ax ay az au arr = Ok g -> axis_ok ax -> axis_ok ay -> axis_ok au -> 1 < len ax -> 1 < len ay -> 1 < len au -> z_usable az -> z_coordinate az z -> strict uf ->
  find_indexes au u = Ok (Some (h0, h1)) -> at_index au h0 u0 -> at_index au h1 u1 ->
  quadrivariate d c g f zf uf be x y z u =
    (olet r0 := trivariate d c (hyper_level g h0) f zf be x y z in olet r1 := trivariate d c (hyper_level g h1) f zf be x y z in Ok (uf u u0 u1 r0 r1)).
Proof.
  intros d c ax ay az au arr g f zf uf be x y z u h0 h1 u0 u1 G OX OY OU LX LY LU U ZC S FU U0 U1.
  apply at_index_iff in U0 as [T0 ->]; [|apply OU]. apply at_index_iff in U1 as [T1 ->]; [|apply OU].
  apply new_grid4_inv in G as (-> & Sh & C). unfold quadrivariate, trivariate, hyper_level. cbn [g4_x g4_y g4_z g4_u g4_array g3_x g3_y g3_z g3_array].
  destruct (find_indexes_total ax x OX LX) as (rx & FX). destruct (find_indexes_total ay y OY LY) as (ry & FY).
  assert (FZ : exists rz, z_find_indexes az z = Ok rz /\ match rz with Some (k0, k1) => exists z0 z1, z_at_index az k0 z0 /\ z_at_index az k1 z1 | None => True end).
  { destruct az as [a|ca]; cbn [z_find_indexes z_at_index] in *.
    - destruct U as (L & R & _). pose proof (reachable_ok _ R) as OK. destruct (find_indexes_total a z OK L) as (rz & F). exists rz. split; [exact F|]. destruct rz as [[k0 k1]|]; [|exact I].
      destruct (find_indexes_range a z k0 k1 OK L F) as [Q0 Q1]. exists (fval (a_cont a) k0), (fval (a_cont a) k1). split; apply at_index_iff; auto; apply OK.
    - destruct U as (L & l & As & U). pose proof (i_wf_usable ca l As U) as W. destruct (i_find_indexes_spec ca (Qfloor z) W L) as (r & F & H). exists r. split; [exact F|]. destruct r as [[k0 k1]|]; [|exact I].
      destruct H as (v0 & v1 & A & B & _). exists (inject_Z v0), (inject_Z v1). split; [exists v0|exists v1]; auto. }
  destruct FZ as (rz & FZ & HZ). rewrite FX, FY, FZ, FU. cbn [obind].
  destruct rx as [[i0 i1]|]; [|destruct be; cbn [obind]; [reflexivity|rewrite S; reflexivity]]. destruct ry as [[j0 j1]|]; [|destruct be; cbn [obind]; [reflexivity|rewrite S; reflexivity]].
  destruct rz as [[k0 k1]|]; [|destruct be; cbn [obind]; [reflexivity|rewrite S; reflexivity]]. destruct HZ as (z0 & z1 & Z0 & Z1). destruct (z_range az k0 z0 U Z0) as [V0 E0]. destruct (z_range az k1 z1 U Z1) as [V1 E1].
  destruct (find_indexes_range ax x i0 i1 OX LX FX) as [R0 R1]. destruct (find_indexes_range ay y j0 j1 OY LY FY) as [S0 S1].
  rewrite !axis_at_ok by (try apply OX; try apply OY; try apply OU; assumption). cbn [obind]. rewrite E0, E1. cbn [obind]. rewrite !(grid_value4 arr _ _ _ _ _ _ _ _ Sh) by assumption. cbn [obind].
  rewrite !(grid_value3 _ (len ax) (len ay) (z_size az)) by (try assumption; cbn [nd_shape]; rewrite Sh; reflexivity). cbn [obind nd_cell app]. reflexivity.
Qed.
