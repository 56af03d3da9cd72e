(** Theorems about bivariate interpolation on angular longitudes (property C53). *)
From Verif Require Import Base BaseProofs MathModel AxisModel AxisSpec AxisProofs AxisProofs2 AxisProofs5 GridModel GridSpec GridProofs GridProofs2 GridProps.
Open Scope Z_scope.

(** The angle [x] is covered by the axis: one of its representatives is between its ends. *)
Definition covered (a : axis) (x : Q) : Prop := exists z, same_angle z x /\ inside a z.
(** * C53 *)
(** Ascending angular axis: in a cell, the bilinear interpolation at the representative of the
    angle that is in the cell. *)
Theorem C53_cells_partial : forall d c ax ay arr g be x y, new_grid2 ax ay arr = Ok g -> reachable ax -> reachable ay -> 1 < len ax -> 1 < len ay ->
  is_angle ax = true -> is_ascending ax = true -> is_angle ay = false -> covered ax x -> inside ay y ->
  exists z i0 i1 j0 j1 x0 x1 y0 y1, same_angle z x /\ cell ax z i0 i1 x0 x1 /\ cell ay y j0 j1 y0 y1 /\
    match nd_cell arr [i0; j0], nd_cell arr [i0; j1], nd_cell arr [i1; j0], nd_cell arr [i1; j1] with
    | Some q00, Some q01, Some q10, Some q11 =>
        exists v, bivariate d c g Bilinear be x y = Ok (Some v) /\ (v == bilerp x0 x1 y0 y1 q00 q01 q10 q11 z y)%Q
    | _, _, _, _ => bivariate d c g Bilinear be x y = Ok None
    end.
Proof.
  intros d c ax ay arr g be x y G RX RY LX LY AX AS AY CX IY. pose proof (reachable_ok _ RX) as OX. pose proof (reachable_ok _ RY) as OY.
  destruct (covered_found ax x OX LX AX CX) as (z' & Z1 & Z2 & Z3). destruct (angle_found ax x z' OX LX AX Z1 Z2 Z3) as (i0 & i1 & FX & BZ).
  destruct (plain_indexes ay y OY LY AY IY) as (j0 & j1 & FY & BY). destruct (cell_brackets ay y j0 j1 (proj1 OY) BY) as (S0 & S1 & M & CY).
  destruct (angle_cell ax x i0 i1 OX LX AX AS FX) as (SZ & R0 & R1 & N & H). set (z := normalize_coordinate_min ax x (fval (a_cont ax) i0)) in *.
  assert (C : cell ax z i0 i1 (fval (a_cont ax) i0) (fval (a_cont ax) i1)).
  { destruct H as [H|(C & E0 & E1 & B0 & B1)]; [exact H|exfalso]. apply inside_iff in Z2; [|exact OX].
    pose proof (wf_size _ (proj1 OX)). pose proof (lo_hi _ 0 (proj1 OX) ltac:(lia)).
    assert ((z == z')%Q) by (apply (same_angle_unique z z' (lo (a_cont ax))); [eapply same_angle_trans; [exact SZ|apply same_angle_sym; exact Z1]|lra|lra]). lra. }
  exists z, i0, i1, j0, j1, (fval (a_cont ax) i0), (fval (a_cont ax) i1), (fval (a_cont ay) j0), (fval (a_cont ay) j1). split; [exact SZ|]. split; [exact C|]. split; [exact CY|].
  pose proof (fval_neq ax i0 i1 (proj1 OX) R0 R1 N) as NX. pose proof (fval_neq ay j0 j1 (proj1 OY) S0 S1 M) as NY.
  rewrite (biv_found d c ax ay arr g Bilinear be x y i0 i1 j0 j1 OX OY LX LY G FX FY). fold z. cbn [evaluate].
  destruct (nd_cell arr [i0; j0]) as [q00|] eqn:E00, (nd_cell arr [i0; j1]) as [q01|] eqn:E01, (nd_cell arr [i1; j0]) as [q10|] eqn:E10, (nd_cell arr [i1; j1]) as [q11|] eqn:E11;
    try (unfold bilinear; destruct (_ || _); reflexivity).
  destruct (bilinear_bilerp (Point z y) (Point (fval (a_cont ax) i0) (fval (a_cont ay) j0)) (Point (fval (a_cont ax) i1) (fval (a_cont ay) j1)) q00 q01 q10 q11 NX NY) as (v & -> & V). exists v. auto.
Qed.
Print Assumptions C53_cells_partial.

(** What is computed between the last longitude and the first one: the line through the last
    longitude and the first one taken *without* a turn. *)
Theorem C53_seam_formula : forall d c ax ay arr g be x y, new_grid2 ax ay arr = Ok g -> reachable ax -> reachable ay -> 1 < len ax -> 1 < len ay ->
  a_is_circle ax = true -> is_ascending ax = true -> is_angle ay = false -> ~ covered ax x -> inside ay y -> full ax ay arr ->
  exists z x0 x1 j0 j1 y0 y1 q00 q01 q10 q11 v, same_angle z x /\ at_index ax (len ax - 1) x0 /\ at_index ax 0 x1 /\ (x0 < z)%Q /\ (z < x1 + 360)%Q /\ cell ay y j0 j1 y0 y1 /\
    nd_cell arr [len ax - 1; j0] = Some q00 /\ nd_cell arr [len ax - 1; j1] = Some q01 /\ nd_cell arr [0; j0] = Some q10 /\ nd_cell arr [0; j1] = Some q11 /\
    bivariate d c g Bilinear be x y = Ok (Some v) /\ (v == bilerp x0 x1 y0 y1 q00 q01 q10 q11 z y)%Q.
Proof.
  intros d c ax ay arr g be x y G RX RY LX LY CI AS AY NC IY F. pose proof (reachable_ok _ RX) as OX. pose proof (reachable_ok _ RY) as OY. pose proof (proj2 (proj2 OX) CI) as Hc.
  assert (AX : is_angle ax = true) by (unfold is_angle; rewrite Hc; reflexivity).
  destruct (normalize_angle_axis ax x (proj1 OX) Hc) as ((N1 & N2) & N3 & N4).
  assert (B : (hi (a_cont ax) < normalize_coordinate ax x)%Q).
  { destruct (Qlt_le_dec (hi (a_cont ax)) (normalize_coordinate ax x)) as [Q|Q]; [exact Q|exfalso]. apply NC. exists (normalize_coordinate ax x). split; [exact N3|]. apply inside_iff; auto. }
  pose proof (beyond_last ax x OX LX CI AS B) as FX. destruct (angle_cell ax x _ _ OX LX AX AS FX) as (SZ & R0 & R1 & N & H).
  destruct (plain_indexes ay y OY LY AY IY) as (j0 & j1 & FY & BY). destruct (cell_brackets ay y j0 j1 (proj1 OY) BY) as (S0 & S1 & M & CY).
  set (z := normalize_coordinate_min ax x (fval (a_cont ax) (len ax - 1))) in *.
  assert (Eh : hi (a_cont ax) = fval (a_cont ax) (len ax - 1)) by (unfold hi, len; unfold is_ascending in AS; rewrite AS; reflexivity).
  assert (El : lo (a_cont ax) = fval (a_cont ax) 0) by (unfold lo, len; unfold is_ascending in AS; rewrite AS; reflexivity).
  assert (Hz : (hi (a_cont ax) < z /\ z < lo (a_cont ax) + 360)%Q).
  { destruct H as [(_ & _ & _ & B')|(_ & _ & _ & B' & B'')]; [exfalso|split; assumption]. apply NC. exists z. split; [exact SZ|]. apply inside_iff; [exact OX|].
    unfold between in B'. pose proof (lo_hi _ _ (proj1 OX) R0). pose proof (lo_hi _ _ (proj1 OX) R1). lra. }
  destruct (F (len ax - 1) j0 R0 S0) as (q00 & E00), (F (len ax - 1) j1 R0 S1) as (q01 & E01), (F 0 j0 R1 S0) as (q10 & E10), (F 0 j1 R1 S1) as (q11 & E11).
  pose proof (fval_neq ax _ _ (proj1 OX) R0 R1 N) as NX. pose proof (fval_neq ay j0 j1 (proj1 OY) S0 S1 M) as NY.
  pose proof (biv_found d c ax ay arr g Bilinear be x y _ _ j0 j1 OX OY LX LY G FX FY) as V. fold z in V. cbn [evaluate] in V. rewrite E00, E01, E10, E11 in V.
  destruct (bilinear_bilerp (Point z y) (Point (fval (a_cont ax) (len ax - 1)) (fval (a_cont ay) j0)) (Point (fval (a_cont ax) 0) (fval (a_cont ay) j1)) q00 q01 q10 q11 NX NY) as (v & Ev & Q).
  rewrite Ev in V. exists z, (fval (a_cont ax) (len ax - 1)), (fval (a_cont ax) 0), j0, j1, (fval (a_cont ay) j0), (fval (a_cont ay) j1), q00, q01, q10, q11, v.
  split; [exact SZ|]. split; [apply at_index_iff; [apply OX|auto]|]. split; [apply at_index_iff; [apply OX|auto]|]. split; [rewrite <- Eh; apply Hz|]. split; [rewrite <- El; apply Hz|].
  split; [exact CY|]. auto 10.
Qed.
Print Assumptions C53_seam_formula.
(** That answer is the expected one (with the first longitude one turn further) only when
    the values interpolated along the last and the first meridians are equal. *)
Theorem C53_seam_wrong : forall x0 x1 y0 y1 q00 q01 q10 q11 z y, (x1 < x0)%Q -> (x0 < z)%Q -> (z < x1 + 360)%Q ->
  (bilerp x0 x1 y0 y1 q00 q01 q10 q11 z y == bilerp x0 (x1 + 360) y0 y1 q00 q01 q10 q11 z y)%Q <-> (lerp y0 y1 q00 q01 y == lerp y0 y1 q10 q11 y)%Q.
Proof.
  intros x0 x1 y0 y1 q00 q01 q10 q11 z y L A B. set (u := ((y - y0) / (y1 - y0))%Q).
  set (t := ((z - x0) / (x1 - x0))%Q). set (t' := ((z - x0) / (x1 + 360 - x0))%Q).
  assert (E : (bilerp x0 x1 y0 y1 q00 q01 q10 q11 z y - bilerp x0 (x1 + 360) y0 y1 q00 q01 q10 q11 z y == (t - t') * (lerp y0 y1 q10 q11 y - lerp y0 y1 q00 q01 y))%Q).
  { unfold bilerp, lerp. fold u t t'. ring. }
  assert (T : (t < 0)%Q). { unfold t. assert (Q : ((z - x0) / (x1 - x0) == - ((z - x0) / (x0 - x1)))%Q) by (field; split; lra). rewrite Q. assert (0 < (z - x0) / (x0 - x1))%Q by (apply Qlt_shift_div_l; lra). lra. }
  assert (T' : (0 < t')%Q) by (unfold t'; apply Qlt_shift_div_l; lra).
  split; intro H.
  - assert (P : ((t - t') * (lerp y0 y1 q10 q11 y - lerp y0 y1 q00 q01 y) == 0)%Q) by (rewrite <- E, H; ring). apply Qmult_integral in P as [P|P]; lra.
  - assert (P : ((t - t') * (lerp y0 y1 q10 q11 y - lerp y0 y1 q00 q01 y) == 0)%Q) by (rewrite H; ring). rewrite P in E. lra.
Qed.
Print Assumptions C53_seam_wrong.
(** Longitudes 0, 90, 180, 270 whose values are 0, 90, 180, 270: at 315 the answer is 315,
    outside the range of the four corners (135 is expected). *)
Definition ax4 : axis := match axis_of_values [0; 90; 180; 270]%Q (1 # 1000000) true with Ok a => a | _ => mk_axis false None CUndef end.
Lemma ax4_reachable : reachable ax4.
Proof. apply (reach_values [0; 90; 180; 270]%Q (1 # 1000000) true); [lra|vm_compute; reflexivity]. Qed.
Definition turn4 : ndarray := NdArray [4; 3] (fun i => match i with [i; _] => Some (inject_Z (90 * i)) | _ => None end).
Theorem C53_seam_refuted : exists ax ay arr g, new_grid2 ax ay arr = Ok g /\ reachable ax /\ reachable ay /\ a_is_circle ax = true /\ is_ascending ax = true /\ full ax ay arr /\
  forall d c, exists v, bivariate d c g Bilinear true 315 1 = Ok (Some v) /\ (v == 315)%Q /\ forall i j q, 0 <= i < len ax -> 0 <= j < len ay -> nd_cell arr [i; j] = Some q -> (q < v)%Q.
Proof.
  exists ax4, ax3, turn4, (Grid2 ax4 ax3 turn4). split; [reflexivity|]. split; [exact ax4_reachable|]. split; [exact ax3_reachable|]. split; [reflexivity|]. split; [reflexivity|].
  split; [intros i j _ _; eexists; reflexivity|]. intros d c.
  assert (V : exists v, bivariate d c (Grid2 ax4 ax3 turn4) Bilinear true 315 1 = Ok (Some v) /\ Qred v = 315%Q) by (vm_compute; eexists; split; reflexivity).
  destruct V as (v & V & E). exists v. split; [exact V|]. pose proof (Qred_correct v) as Q. rewrite E in Q. split; [lra|]. intros i j q Hi Hj Hq. change (len ax4) with 4 in Hi.
  unfold turn4 in Hq. cbn [nd_cell] in Hq. injection Hq as <-. assert (90 * i <= 270) by lia. assert (inject_Z (90 * i) <= inject_Z 270)%Q by (rewrite <- Zle_Qle; lia). change (inject_Z 270) with 270%Q in H0. apply Qle_lt_trans with 270%Q; [exact H0|]. rewrite <- Q. reflexivity.
Qed.
Print Assumptions C53_seam_refuted.
(** Descending longitudes: the answer at the last node of the axis is not its value. *)
Definition ax4d : axis := flip ax4.
Lemma ax4d_reachable : reachable ax4d.
Proof. apply reach_flip. exact ax4_reachable. Qed.
Theorem C53_descending_refuted : exists ax ay arr g xn, new_grid2 ax ay arr = Ok g /\ reachable ax /\ reachable ay /\ a_is_circle ax = true /\ is_ascending ax = false /\ at_index ax 3 xn /\ (xn == 0)%Q /\
  nd_cell arr [3; 1] = Some 270%Q /\ forall d c, exists v, bivariate d c g Bilinear true 0 1 = Ok (Some v) /\ (v == - 90)%Q.
Proof.
  assert (A : exists xn, at_index ax4d 3 xn /\ Qred xn = 0%Q) by (vm_compute; eexists; split; reflexivity). destruct A as (xn & A & EA).
  exists ax4d, ax3, turn4, (Grid2 ax4d ax3 turn4), xn. split; [reflexivity|]. split; [exact ax4d_reachable|]. split; [exact ax3_reachable|]. split; [reflexivity|]. split; [reflexivity|].
  split; [exact A|]. split; [pose proof (Qred_correct xn) as Q; rewrite EA in Q; lra|]. split; [reflexivity|]. intros d c.
  assert (V : exists v, bivariate d c (Grid2 ax4d ax3 turn4) Bilinear true 0 1 = Ok (Some v) /\ Qred v = (-90 # 1)%Q) by (vm_compute; eexists; split; reflexivity).
  destruct V as (v & V & E). exists v. split; [exact V|]. pose proof (Qred_correct v) as Q. rewrite E in Q. lra.
Qed.
Print Assumptions C53_descending_refuted.
