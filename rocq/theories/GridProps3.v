(** Theorems about inverse distance weighting and nearest neighbour in grids (property C54). *)
From Verif Require Import Base BaseProofs MathModel AxisModel AxisSpec AxisProofs AxisProofs2 AxisProofs5 GridModel GridSpec GridProofs GridProofs2 GridProofs3 GridProps GridProps2.
Open Scope Z_scope.

(** * C54 *)
(** Whatever the axes (also across the seam of a circular longitude), the answer is the
    inverse distance weighting of the four points of the grid around the position. *)
Theorem C54_idw : forall d c ax ay arr g be x y e, new_grid2 ax ay arr = Ok g -> reachable ax -> reachable ay -> 1 < len ax -> 1 < len ay ->
  reached ax x -> is_angle ay = false -> inside ay y ->
  exists r z i0 i1 j0 j1 x0 x1 y0 y1, bivariate d c g (InverseDistanceWeighting e) be x y = Ok r /\
    around ax x z i0 i1 /\ at_index ax i0 x0 /\ at_index ax i1 x1 /\ cell ay y j0 j1 y0 y1 /\
    idw_spec d e (1 # 4503599627370496) (Point z y)
      [(Point x0 y0, nd_cell arr [i0; j0]); (Point x0 y1, nd_cell arr [i0; j1]); (Point x1 y0, nd_cell arr [i1; j0]); (Point x1 y1, nd_cell arr [i1; j1])] r.
Proof.
  intros d c ax ay arr g be x y e G RX RY LX LY RR AY IY. pose proof (reachable_ok _ RX) as OX. pose proof (reachable_ok _ RY) as OY.
  destruct (reached_indexes ax x OX LX RR) as (i0 & i1 & FX & AX). destruct (plain_indexes ay y OY LY AY IY) as (j0 & j1 & FY & BY). destruct (cell_brackets ay y j0 j1 (proj1 OY) BY) as (S0 & S1 & M & CY).
  destruct (find_indexes_range ax x i0 i1 OX LX FX) as [R0 R1].
  do 10 eexists. split; [apply (biv_found d c ax ay arr g (InverseDistanceWeighting e) be x y i0 i1 j0 j1 OX OY LX LY G FX FY)|]. split; [exact AX|].
  split; [apply at_index_iff; [apply OX|split; [exact R0|reflexivity]]|]. split; [apply at_index_iff; [apply OX|split; [exact R1|reflexivity]]|]. split; [exact CY|]. apply idw_loop_spec.
Qed.
Print Assumptions C54_idw.
(** The nearest interpolator: the value of a nearest one of these four points. *)
Theorem C54_nearest : forall d c ax ay arr g be x y, new_grid2 ax ay arr = Ok g -> reachable ax -> reachable ay -> 1 < len ax -> 1 < len ay ->
  reached ax x -> is_angle ay = false -> inside ay y ->
  exists r z i0 i1 j0 j1 x0 x1 y0 y1, bivariate d c g Nearest be x y = Ok r /\
    around ax x z i0 i1 /\ at_index ax i0 x0 /\ at_index ax i1 x1 /\ cell ay y j0 j1 y0 y1 /\
    nearest_spec c (Point z y)
      [(Point x0 y0, nd_cell arr [i0; j0]); (Point x0 y1, nd_cell arr [i0; j1]); (Point x1 y0, nd_cell arr [i1; j0]); (Point x1 y1, nd_cell arr [i1; j1])] r.
Proof.
  intros d c ax ay arr g be x y G RX RY LX LY RR AY IY. pose proof (reachable_ok _ RX) as OX. pose proof (reachable_ok _ RY) as OY.
  destruct (reached_indexes ax x OX LX RR) as (i0 & i1 & FX & AX). destruct (plain_indexes ay y OY LY AY IY) as (j0 & j1 & FY & BY). destruct (cell_brackets ay y j0 j1 (proj1 OY) BY) as (S0 & S1 & M & CY).
  destruct (find_indexes_range ax x i0 i1 OX LX FX) as [R0 R1].
  do 10 eexists. split; [apply (biv_found d c ax ay arr g Nearest be x y i0 i1 j0 j1 OX OY LX LY G FX FY)|]. split; [exact AX|].
  split; [apply at_index_iff; [apply OX|split; [exact R0|reflexivity]]|]. split; [apply at_index_iff; [apply OX|split; [exact R1|reflexivity]]|]. split; [exact CY|].
  cbn [evaluate corners]. apply (nearest_loop_spec c _ _ [] _ _ []); intros ? ? [].
Qed.
Print Assumptions C54_nearest.
(** At a node (a point at distance 0 from itself and at more than epsilon from the others):
    its value, even if the other points of the cell are undefined. *)
Theorem C54_node : forall d c ax ay arr g be x y e i j xi yj, new_grid2 ax ay arr = Ok g -> reachable ax -> reachable ay -> 1 < len ax -> 1 < len ay ->
  is_angle ax = false -> is_angle ay = false -> at_index ax i xi -> at_index ay j yj -> (x == xi)%Q -> (y == yj)%Q ->
  (forall p q, (px p == px q)%Q -> (py p == py q)%Q -> (d p q == 0)%Q) ->
  (forall k l xk yl, at_index ax k xk -> at_index ay l yl -> (k <> i \/ l <> j) -> (1 # 4503599627370496 < d (Point x y) (Point xk yl))%Q) ->
  bivariate d c g (InverseDistanceWeighting e) be x y = Ok (nd_cell arr [i; j]).
Proof.
  intros d c ax ay arr g be x y e i j xi yj G RX RY LX LY AX AY HX HY EX EY D0 DF. pose proof (reachable_ok _ RX) as OX. pose proof (reachable_ok _ RY) as OY.
  assert (IX : inside ax x) by (exists i, xi, i, xi; repeat split; auto; lra). assert (IY : inside ay y) by (exists j, yj, j, yj; repeat split; auto; lra).
  destruct (C54_idw d c ax ay arr g be x y e G RX RY LX LY) as (r & z & i0 & i1 & j0 & j1 & x0 & x1 & y0 & y1 & V & AR & X0 & X1 & CY & S); [unfold reached; rewrite AX; exact IX|exact AY|exact IY|].
  unfold around in AR. rewrite AX in AR. destruct AR as (-> & BX). rewrite V. f_equal. destruct S as [S _].
  destruct (cell_brackets ax x i0 i1 (proj1 OX) BX) as (R0 & R1 & N & CX). pose proof CY as (Y0 & Y1 & YA & YB).
  pose proof (cell_node ax x i xi i0 i1 (proj1 OX) HX EX CX) as KX.
  assert (KY : j = j0 \/ j = j1) by (apply (cell_node ay y j yj j0 j1 (proj1 OY) HY EY); apply at_index_iff in Y0 as [T0 ->]; [|apply OY]; apply at_index_iff in Y1 as [T1 ->]; [|apply OY]; exact CY).
  assert (EQ : forall a k v w, axis_ok a -> at_index a k v -> at_index a k w -> v = w) by (intros a k v w _ A B; unfold at_index in A, B; congruence).
  assert (M : j0 <> j1) by lia.
  destruct KX as [->| ->], KY as [->| ->].
  - rewrite (EQ ax i0 x0 xi OX X0 HX) in *. rewrite (EQ ay j0 y0 yj OY Y0 HY) in *. apply (S [] (Point xi yj) (nd_cell arr [i0; j0]) _ eq_refl); [rewrite D0 by (cbn; lra); lra|intros ? ? []].
  - rewrite (EQ ax i0 x0 xi OX X0 HX) in *. rewrite (EQ ay j1 y1 yj OY Y1 HY) in *. apply (S [_] (Point xi yj) (nd_cell arr [i0; j1]) _ eq_refl); [rewrite D0 by (cbn; lra); lra|].
    intros s q [E|[]]. injection E as <- <-. apply (DF i0 j0); auto.
  - rewrite (EQ ax i1 x1 xi OX X1 HX) in *. rewrite (EQ ay j0 y0 yj OY Y0 HY) in *. apply (S [_; _] (Point xi yj) (nd_cell arr [i1; j0]) _ eq_refl); [rewrite D0 by (cbn; lra); lra|].
    intros s q [E|[E|[]]]; injection E as <- <-; [apply (DF i0 j0)|apply (DF i0 j1)]; auto.
  - rewrite (EQ ax i1 x1 xi OX X1 HX) in *. rewrite (EQ ay j1 y1 yj OY Y1 HY) in *. apply (S [_; _; _] (Point xi yj) (nd_cell arr [i1; j1]) _ eq_refl); [rewrite D0 by (cbn; lra); lra|].
    intros s q [E|[E|[E|[]]]]; injection E as <- <-; [apply (DF i0 j0)|apply (DF i0 j1)|apply (DF i1 j0)]; auto.
Qed.
Print Assumptions C54_node.
(** A distance that meets these hypotheses, and the answers with it across the seam. *)
Definition taxi (p q : point) : Q := (Qabs (px p - px q) + Qabs (py p - py q))%Q.
Definition axi : axis := match axis_of_values [0; 1; 3]%Q (1 # 1000000) false with Ok a => a | _ => mk_axis false None CUndef end.
Lemma axi_reachable : reachable axi.
Proof. apply (reach_values [0; 1; 3]%Q (1 # 1000000) false); [lra|vm_compute; reflexivity]. Qed.
Example C54_ex : reached ax4 315 /\ inside ax3 1 /\
  bivariate taxi taxi (Grid2 ax4 ax3 turn4) Nearest true 300 1 = Ok (Some 270%Q) /\
  new_grid2 axi axi ramp = Ok (Grid2 axi axi ramp) /\
  exists v, bivariate taxi taxi (Grid2 axi axi ramp) (InverseDistanceWeighting 1) true (1 # 2) (1 # 2) = Ok (Some v) /\ (v == 11 # 2)%Q.
Proof.
  split; [unfold reached; cbn; left; reflexivity|]. split; [apply ax3_inside; lra|]. split; [vm_compute; reflexivity|]. split; [reflexivity|].
  assert (V : exists v, bivariate taxi taxi (Grid2 axi axi ramp) (InverseDistanceWeighting 1) true (1 # 2) (1 # 2) = Ok (Some v) /\ Qred v = (11 # 2)%Q) by (vm_compute; eexists; split; reflexivity).
  destruct V as (v & V & E). exists v. split; [exact V|]. pose proof (Qred_correct v) as Q. rewrite E in Q. rewrite <- Q. reflexivity.
Qed.
