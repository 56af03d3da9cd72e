(** Theorems about bivariate interpolation (properties C52 and C53). *)
From Verif Require Import Base BaseProofs MathModel AxisModel AxisSpec AxisProofs AxisProofs2 AxisProofs5 GridModel GridSpec GridProofs.
Open Scope Z_scope.

(** * C52 bilinear interpolation *)
(** Inside the two axes the answer is the bilinear interpolation of the four corners of a
    cell that contains the point, missing as soon as one of them is missing. *)
Theorem C52_bilinear : forall d c ax ay arr g be x y, new_grid2 ax ay arr = Ok g -> reachable ax -> reachable ay -> 1 < len ax -> 1 < len ay ->
  is_angle ax = false -> is_angle ay = false -> inside ax x -> inside ay y ->
  exists i0 i1 j0 j1 x0 x1 y0 y1, cell ax x i0 i1 x0 x1 /\ cell ay y j0 j1 y0 y1 /\
    match nd_cell arr [i0; j0], nd_cell arr [i0; j1], nd_cell arr [i1; j0], nd_cell arr [i1; j1] with
    | Some q00, Some q01, Some q10, Some q11 =>
        exists v, bivariate d c g Bilinear be x y = Ok (Some v) /\ (v == bilerp x0 x1 y0 y1 q00 q01 q10 q11 x y)%Q
    | _, _, _, _ => bivariate d c g Bilinear be x y = Ok None
    end.
Proof.
  intros d c ax ay arr g be x y G RX RY LX LY AX AY IX IY. pose proof (reachable_ok _ RX) as OX. pose proof (reachable_ok _ RY) as OY.
  destruct (plain_indexes ax x OX LX AX IX) as (i0 & i1 & FX & BX). destruct (plain_indexes ay y OY LY AY IY) as (j0 & j1 & FY & BY).
  destruct (cell_brackets ax x i0 i1 (proj1 OX) BX) as (R0 & R1 & N & CX). destruct (cell_brackets ay y j0 j1 (proj1 OY) BY) as (S0 & S1 & M & CY).
  exists i0, i1, j0, j1, (fval (a_cont ax) i0), (fval (a_cont ax) i1), (fval (a_cont ay) j0), (fval (a_cont ay) j1). split; [exact CX|]. split; [exact CY|].
  pose proof (fval_neq ax i0 i1 (proj1 OX) R0 R1 N) as NX. pose proof (fval_neq ay j0 j1 (proj1 OY) S0 S1 M) as NY.
  rewrite (biv_found d c ax ay arr g Bilinear be x y i0 i1 j0 j1 OX OY LX LY G FX FY). rewrite no_angle_min by exact AX. cbn [evaluate].
  destruct (nd_cell arr [i0; j0]) as [q00|] eqn:E00, (nd_cell arr [i0; j1]) as [q01|] eqn:E01, (nd_cell arr [i1; j0]) as [q10|] eqn:E10, (nd_cell arr [i1; j1]) as [q11|] eqn:E11;
    try (unfold bilinear; destruct (_ || _); reflexivity).
  destruct (bilinear_bilerp (Point x y) (Point (fval (a_cont ax) i0) (fval (a_cont ay) j0)) (Point (fval (a_cont ax) i1) (fval (a_cont ay) j1)) q00 q01 q10 q11 NX NY) as (v & -> & V). exists v. auto.
Qed.
Print Assumptions C52_bilinear.

(** All the values of the grid are defined. *)
Definition full (ax ay : axis) (arr : ndarray) : Prop := forall i j, 0 <= i < len ax -> 0 <= j < len ay -> exists q, nd_cell arr [i; j] = Some q.
Lemma full_bilinear : forall d c ax ay arr g be x y, new_grid2 ax ay arr = Ok g -> reachable ax -> reachable ay -> 1 < len ax -> 1 < len ay ->
  is_angle ax = false -> is_angle ay = false -> inside ax x -> inside ay y -> full ax ay arr ->
  exists i0 i1 j0 j1 q00 q01 q10 q11 v, let x0 := fval (a_cont ax) i0 in let x1 := fval (a_cont ax) i1 in let y0 := fval (a_cont ay) j0 in let y1 := fval (a_cont ay) j1 in
    cell ax x i0 i1 x0 x1 /\ cell ay y j0 j1 y0 y1 /\ ~ (x0 == x1)%Q /\ ~ (y0 == y1)%Q /\
    nd_cell arr [i0; j0] = Some q00 /\ nd_cell arr [i0; j1] = Some q01 /\ nd_cell arr [i1; j0] = Some q10 /\ nd_cell arr [i1; j1] = Some q11 /\
    bivariate d c g Bilinear be x y = Ok (Some v) /\ (v == bilerp x0 x1 y0 y1 q00 q01 q10 q11 x y)%Q.
Proof.
  intros d c ax ay arr g be x y G RX RY LX LY AX AY IX IY F. pose proof (reachable_ok _ RX) as OX. pose proof (reachable_ok _ RY) as OY.
  destruct (C52_bilinear d c ax ay arr g be x y G RX RY LX LY AX AY IX IY) as (i0 & i1 & j0 & j1 & x0 & x1 & y0 & y1 & CX & CY & H).
  pose proof CX as (X0 & X1 & XA & _). apply at_index_iff in X0 as [R0 ->]; [|apply OX]. apply at_index_iff in X1 as [R1 ->]; [|apply OX].
  pose proof CY as (Y0 & Y1 & YA & _). apply at_index_iff in Y0 as [S0 ->]; [|apply OY]. apply at_index_iff in Y1 as [S1 ->]; [|apply OY].
  destruct (F i0 j0 R0 S0) as (q00 & E00), (F i0 j1 R0 S1) as (q01 & E01), (F i1 j0 R1 S0) as (q10 & E10), (F i1 j1 R1 S1) as (q11 & E11). rewrite E00, E01, E10, E11 in H. destruct H as (v & V & E).
  exists i0, i1, j0, j1, q00, q01, q10, q11, v. cbv zeta. split; [exact CX|]. split; [exact CY|]. split; [apply fval_neq; try apply OX; auto; lia|]. split; [apply fval_neq; try apply OY; auto; lia|]. auto 10.
Qed.
(** At a node: its value. *)
Theorem C52_nodes : forall d c ax ay arr g be x y i j xi yj, new_grid2 ax ay arr = Ok g -> reachable ax -> reachable ay -> 1 < len ax -> 1 < len ay ->
  is_angle ax = false -> is_angle ay = false -> full ax ay arr -> at_index ax i xi -> at_index ay j yj -> (x == xi)%Q -> (y == yj)%Q ->
  exists v q, bivariate d c g Bilinear be x y = Ok (Some v) /\ nd_cell arr [i; j] = Some q /\ (v == q)%Q.
Proof.
  intros d c ax ay arr g be x y i j xi yj G RX RY LX LY AX AY F HX HY EX EY.
  assert (IX : inside ax x) by (exists i, xi, i, xi; repeat split; auto; lra). assert (IY : inside ay y) by (exists j, yj, j, yj; repeat split; auto; lra).
  destruct (full_bilinear d c ax ay arr g be x y G RX RY LX LY AX AY IX IY F) as (i0 & i1 & j0 & j1 & q00 & q01 & q10 & q11 & v & CX & CY & NX & NY & E00 & E01 & E10 & E11 & V & E).
  pose proof (reachable_ok _ RX) as OX. pose proof (reachable_ok _ RY) as OY. cbv zeta in *.
  pose proof (cell_node ax x i xi i0 i1 (proj1 OX) HX EX CX) as KX. pose proof (cell_node ay y j yj j0 j1 (proj1 OY) HY EY CY) as KY.
  apply at_index_iff in HX as [_ ->]; [|apply OX]. apply at_index_iff in HY as [_ ->]; [|apply OY]. exists v.
  set (x0 := fval (a_cont ax) i0) in *. set (x1 := fval (a_cont ax) i1) in *. set (y0 := fval (a_cont ay) j0) in *. set (y1 := fval (a_cont ay) j1) in *.
  destruct KX as [->| ->], KY as [->| ->]; eexists; (split; [exact V|]); (split; [eassumption|]); rewrite E; unfold bilerp, lerp; fold x0 x1 y0 y1 in EX, EY; rewrite EX, EY; field; split; lra.
Qed.
Print Assumptions C52_nodes.
(** Never beyond the values of the corners. *)
Theorem C52_bounded : forall d c ax ay arr g be x y, new_grid2 ax ay arr = Ok g -> reachable ax -> reachable ay -> 1 < len ax -> 1 < len ay ->
  is_angle ax = false -> is_angle ay = false -> inside ax x -> inside ay y -> full ax ay arr ->
  exists v i0 i1 j0 j1 x0 x1 y0 y1 q00 q01 q10 q11, bivariate d c g Bilinear be x y = Ok (Some v) /\ cell ax x i0 i1 x0 x1 /\ cell ay y j0 j1 y0 y1 /\
    nd_cell arr [i0; j0] = Some q00 /\ nd_cell arr [i0; j1] = Some q01 /\ nd_cell arr [i1; j0] = Some q10 /\ nd_cell arr [i1; j1] = Some q11 /\ within [q00; q01; q10; q11] v.
Proof.
  intros d c ax ay arr g be x y G RX RY LX LY AX AY IX IY F.
  destruct (full_bilinear d c ax ay arr g be x y G RX RY LX LY AX AY IX IY F) as (i0 & i1 & j0 & j1 & q00 & q01 & q10 & q11 & v & CX & CY & NX & NY & E00 & E01 & E10 & E11 & V & E). cbv zeta in *.
  exists v, i0, i1, j0, j1, (fval (a_cont ax) i0), (fval (a_cont ax) i1), (fval (a_cont ay) j0), (fval (a_cont ay) j1), q00, q01, q10, q11.
  split; [exact V|]. split; [exact CX|]. split; [exact CY|]. repeat (split; [assumption|]). eapply bilerp_within; [apply CX|apply CY|exact NX|exact NY|exact E].
Qed.
Print Assumptions C52_bounded.
(** Surfaces [a + b x + c y + e x y] are reproduced exactly, whatever the axes. *)
Theorem C52_surfaces : forall d c ax ay arr g be x y ka kb kc ke, new_grid2 ax ay arr = Ok g -> reachable ax -> reachable ay -> 1 < len ax -> 1 < len ay ->
  is_angle ax = false -> is_angle ay = false -> inside ax x -> inside ay y ->
  (forall i j xi yj, at_index ax i xi -> at_index ay j yj -> exists q, nd_cell arr [i; j] = Some q /\ (q == ka + kb * xi + kc * yj + ke * xi * yj)%Q) ->
  exists v, bivariate d c g Bilinear be x y = Ok (Some v) /\ (v == ka + kb * x + kc * y + ke * x * y)%Q.
Proof.
  intros d c ax ay arr g be x y ka kb kc ke G RX RY LX LY AX AY IX IY S. pose proof (reachable_ok _ RX) as OX. pose proof (reachable_ok _ RY) as OY.
  assert (F : full ax ay arr).
  { intros i j Hi Hj. destruct (S i j (fval (a_cont ax) i) (fval (a_cont ay) j)) as (q & E & _); [apply at_index_iff; [apply OX|auto]|apply at_index_iff; [apply OY|auto]|]. exists q. exact E. }
  destruct (full_bilinear d c ax ay arr g be x y G RX RY LX LY AX AY IX IY F) as (i0 & i1 & j0 & j1 & q00 & q01 & q10 & q11 & v & CX & CY & NX & NY & E00 & E01 & E10 & E11 & V & E). cbv zeta in *.
  exists v. split; [exact V|]. rewrite E. pose proof CX as (X0 & X1 & _). pose proof CY as (Y0 & Y1 & _).
  apply bilerp_surface; auto.
  - destruct (S i0 j0 _ _ X0 Y0) as (q & Eq & Q). rewrite E00 in Eq. injection Eq as ->. exact Q.
  - destruct (S i0 j1 _ _ X0 Y1) as (q & Eq & Q). rewrite E01 in Eq. injection Eq as ->. exact Q.
  - destruct (S i1 j0 _ _ X1 Y0) as (q & Eq & Q). rewrite E10 in Eq. injection Eq as ->. exact Q.
  - destruct (S i1 j1 _ _ X1 Y1) as (q & Eq & Q). rewrite E11 in Eq. injection Eq as ->. exact Q.
Qed.
Print Assumptions C52_surfaces.
(** Outside: an exception when asked for, otherwise a missing value; for every interpolator. *)
Theorem C52_outside : forall d c ax ay arr g f be x y, new_grid2 ax ay arr = Ok g -> reachable ax -> reachable ay -> 1 < len ax -> 1 < len ay ->
  is_angle ax = false -> is_angle ay = false -> (~ inside ax x \/ ~ inside ay y) ->
  bivariate d c g f be x y = if be then Throw "out of bounds" else Ok None.
Proof.
  intros d c ax ay arr g f be x y G RX RY LX LY AX AY H. pose proof (reachable_ok _ RX) as OX. pose proof (reachable_ok _ RY) as OY.
  assert (T : forall a z, axis_ok a -> 1 < len a -> is_angle a = false -> exists r, find_indexes a z = Ok r).
  { intros a z OK L A. assert (Hc : a_circle a = None) by (unfold is_angle in A; destruct (a_circle a); [discriminate|reflexivity]). destruct (find_indexes_plain a z OK L Hc) as (r & E & _). eauto. }
  eapply biv_missing; eauto. destruct H; [left|right]; apply plain_none; auto.
Qed.
Print Assumptions C52_outside.

(** A point that coincides with a node is missing when another corner of the cell is. *)
Definition ax3 : axis := match axis_of_values [0; 1; 2]%Q (1 # 1000000) false with Ok a => a | _ => mk_axis false None CUndef end.
Lemma ax3_reachable : reachable ax3.
Proof. apply (reach_values [0; 1; 2]%Q (1 # 1000000) false); [lra|vm_compute; reflexivity]. Qed.
Definition holed : ndarray := NdArray [3; 3] (fun i => match i with [2; _] => None | [i; j] => Some (inject_Z (i + 10 * j)) | _ => None end).
Theorem C52_node_beside_missing_refuted : exists ax ay arr g x y q, new_grid2 ax ay arr = Ok g /\ reachable ax /\ reachable ay /\ at_index ax 1 x /\ at_index ay 1 y /\
  nd_cell arr [1; 1] = Some q /\ forall d c, bivariate d c g Bilinear false x y = Ok None.
Proof.
  exists ax3, ax3, holed, (Grid2 ax3 ax3 holed). do 3 eexists. split; [reflexivity|]. split; [exact ax3_reachable|]. split; [exact ax3_reachable|].
  split; [vm_compute; reflexivity|]. split; [vm_compute; reflexivity|]. split; [reflexivity|]. intros. vm_compute. reflexivity.
Qed.
Print Assumptions C52_node_beside_missing_refuted.
Definition ramp : ndarray := NdArray [3; 3] (fun i => match i with [i; j] => Some (inject_Z (i + 10 * j)) | _ => None end).
Lemma ax3_inside : forall x, (0 <= x)%Q -> (x <= 2)%Q -> inside ax3 x.
Proof.
  assert (A : exists v, at_index ax3 0 v /\ Qred v = 0%Q) by (eexists; split; [vm_compute; reflexivity|vm_compute; reflexivity]).
  assert (B : exists v, at_index ax3 2 v /\ Qred v = 2%Q) by (eexists; split; [vm_compute; reflexivity|vm_compute; reflexivity]).
  destruct A as (v & A & E), B as (w & B & F). intros x H H'. exists 0, v, 2, w. pose proof (Qred_correct v) as V. pose proof (Qred_correct w) as W. rewrite E in V. rewrite F in W. split; [exact A|]. split; [exact B|]. split; lra.
Qed.
Lemma ramp_full : full ax3 ax3 ramp.
Proof. intros i j _ _. eexists. reflexivity. Qed.
Example C52_ex : exists v, new_grid2 ax3 ax3 ramp = Ok (Grid2 ax3 ax3 ramp) /\ inside ax3 (1 # 2) /\ inside ax3 (3 # 2) /\ is_angle ax3 = false /\ 1 < len ax3 /\ full ax3 ax3 ramp /\
  bivariate (fun _ _ => 0%Q) (fun _ _ => 0%Q) (Grid2 ax3 ax3 ramp) Bilinear true (1 # 2) (3 # 2) = Ok (Some v) /\ (v == 31 # 2)%Q.
Proof.
  assert (V : exists v, bivariate (fun _ _ => 0%Q) (fun _ _ => 0%Q) (Grid2 ax3 ax3 ramp) Bilinear true (1 # 2) (3 # 2) = Ok (Some v) /\ Qred v = (31 # 2)%Q) by (vm_compute; eexists; split; reflexivity).
  destruct V as (v & V & E). exists v. split; [reflexivity|]. split; [apply ax3_inside; lra|]. split; [apply ax3_inside; lra|]. split; [reflexivity|]. split; [reflexivity|].
  split; [exact ramp_full|]. split; [exact V|]. rewrite <- (Qred_correct v), E. reflexivity.
Qed.
