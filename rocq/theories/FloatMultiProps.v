(** Theorems about the trivariate and quadrivariate interpolations in the arithmetic of the machine (property C136). *)
From Coq Require Import ZArith Reals Lra Psatz.
From Flocq Require Import Core BinarySingleNaN.
From Verif Require Import Base FloatAxisModel FloatAxisProofs FloatAxisProps FloatGridModel FloatGridProofs FloatGridProps FloatMultiModel FloatMultiProofs.
Open Scope R_scope.

Lemma node_bracket : forall a n k c, axis_of a n -> (0 <= k < n)%Z -> finite c = true -> real c = real (f_value a k) ->
  exists i0 i1, f_find_indexes a c = Ok (Some (i0, i1)) /\ bracket a n c i0 i1 /\ cell1 c (f_value a i0) (f_value a i1) /\
    exists b : bool, real c = (if b then real (f_value a i1) else real (f_value a i0)) /\ k = if b then i1 else i0.
Proof.
    intros a n k c GA K F E. pose proof GA as (start & stop & h & G & B).
    assert (BT : between (real (f_value a 0)) (real c) (real (f_value a (n - 1)))).
    { rewrite E. pose proof (C134_ordered _ _ _ _ _ G B) as O. pose proof (h_pos _ _ _ _ (widen _ _ _ _ G)) as HP.
      assert (O1 : forall i j, (0 <= i)%Z -> (i <= j < n)%Z -> 0 <= (real (f_value a j) - real (f_value a i)) * h).
      { intros i j I J. destruct (Z.eq_dec i j) as [->|NE]; [lra|]. assert (Q := O i j I ltac:(lia)). lra. }
      pose proof (O1 0%Z k ltac:(lia) ltac:(lia)) as A1. pose proof (O1 k (n - 1)%Z ltac:(lia) ltac:(lia)) as A2.
      unfold between. destruct (Rtotal_order h 0) as [P|[P|P]]; [right|rewrite P, Rabs_R0 in HP; lra|left]; split.
      - destruct (Rle_or_lt (real (f_value a (n - 1))) (real (f_value a k))) as [L|L]; [exact L|]. exfalso. assert (0 < (real (f_value a (n - 1)) - real (f_value a k)) * - h) by (apply Rmult_lt_0_compat; lra). lra.
      - destruct (Rle_or_lt (real (f_value a k)) (real (f_value a 0))) as [L|L]; [exact L|]. exfalso. assert (0 < (real (f_value a k) - real (f_value a 0)) * - h) by (apply Rmult_lt_0_compat; lra). lra.
      - destruct (Rle_or_lt (real (f_value a 0)) (real (f_value a k))) as [L|L]; [exact L|]. exfalso. assert (0 < (real (f_value a 0) - real (f_value a k)) * h) by (apply Rmult_lt_0_compat; lra). lra.
      - destruct (Rle_or_lt (real (f_value a k)) (real (f_value a (n - 1)))) as [L|L]; [exact L|]. exfalso. assert (0 < (real (f_value a k) - real (f_value a (n - 1))) * h) by (apply Rmult_lt_0_compat; lra). lra. }
    destruct (find_indexes_ok _ _ _ _ _ _ G B F BT) as (i0 & i1 & FE & R0 & R1 & AD & BB & UN).
    assert (BR : bracket a n c i0 i1) by (repeat split; tauto).
    exists i0, i1. split; [exact FE|]. split; [exact BR|]. split; [apply (cell_ok a n); auto|]. destruct (UN k K E) as [Q|Q]; [exists false|exists true]; (split; [rewrite E, Q; reflexivity|exact Q]).
Qed.

(** The exact linear interpolation between the points [x0] and [x1] is [mix x x0 x1 v0 v1 = (v0 (x1 - x) + v1 (x - x0)) / (x1 - x0)];
    the exact multilinear interpolation is made of them. *)
Definition exact2 (x x0 x1 y y0 y1 : R) (v : bool -> bool -> R) : R :=
  mix y y0 y1 (mix x x0 x1 (v false false) (v true false)) (mix x x0 x1 (v false true) (v true true)).
Definition exact3 (x x0 x1 y y0 y1 z z0 z1 : R) (v : bool -> bool -> bool -> R) : R :=
  mix z z0 z1 (exact2 x x0 x1 y y0 y1 (fun a b => v a b false)) (exact2 x x0 x1 y y0 y1 (fun a b => v a b true)).
Definition exact4 (x x0 x1 y y0 y1 z z0 z1 u u0 u1 : R) (v : bool -> bool -> bool -> bool -> R) : R :=
  mix u u0 u1 (exact3 x x0 x1 y y0 y1 z z0 z1 (fun a b c => v a b c false)) (exact3 x x0 x1 y y0 y1 z z0 z1 (fun a b c => v a b c true)).
(** One of the two points of a bracket. *)
Definition pick {A} (b : bool) (x0 x1 : A) : A := if b then x1 else x0.

(** ** One cell *)
Lemma tri_node : forall x y z x0 y0 z0 x1 y1 z1 q000 q010 q100 q110 q001 q011 q101 q111 (bx by' bz : bool),
  cell1 x x0 x1 -> cell1 y y0 y1 -> cell1 z z0 z1 ->
  finite q000 = true -> finite q010 = true -> finite q100 = true -> finite q110 = true -> finite q001 = true -> finite q011 = true -> finite q101 = true -> finite q111 = true ->
  real x = (if bx then real x1 else real x0) -> real y = (if by' then real y1 else real y0) -> real z = (if bz then real z1 else real z0) ->
  let r := f_trilinear x y z x0 y0 z0 x1 y1 z1 q000 q010 q100 q110 q001 q011 q101 q111 in
  finite r = true /\ real r = real (pick bz (pick by' (pick bx q000 q100) (pick bx q010 q110)) (pick by' (pick bx q001 q101) (pick bx q011 q111))).
Proof.
  intros x y z x0 y0 z0 x1 y1 z1 q000 q010 q100 q110 q001 q011 q101 q111 bx by' bz CX CY CZ F1 F2 F3 F4 F5 F6 F7 F8 EX EY EZ r. unfold r, f_trilinear. cbv zeta.
  destruct (bilinear_node x y x0 y0 x1 y1 q000 q010 q100 q110 bx by' CX CY F1 F2 F3 F4 EX EY) as (A & B).
  destruct (bilinear_node x y x0 y0 x1 y1 q001 q011 q101 q111 bx by' CX CY F5 F6 F7 F8 EX EY) as (C & D).
  destruct (linear_node z z0 z1 _ _ bz CZ A C EZ) as (G & H). split; [exact G|]. rewrite H. destruct bz; [rewrite D|rewrite B]; destruct bx, by'; reflexivity.
Qed.
Lemma exact2_bound : forall x y x0 y0 x1 y1 v Q, cell1 x x0 x1 -> cell1 y y0 y1 -> (forall a b, Rabs (v a b) <= Q) ->
  Rabs (exact2 (real x) (real x0) (real x1) (real y) (real y0) (real y1) v) <= Q.
Proof. intros. unfold exact2. repeat (apply mix_bound; auto). Qed.
Lemma exact3_bound : forall x y z x0 y0 z0 x1 y1 z1 v Q, cell1 x x0 x1 -> cell1 y y0 y1 -> cell1 z z0 z1 -> (forall a b c, Rabs (v a b c) <= Q) ->
  Rabs (exact3 (real x) (real x0) (real x1) (real y) (real y0) (real y1) (real z) (real z0) (real z1) v) <= Q.
Proof. intros. unfold exact3. apply mix_bound; auto; apply exact2_bound; auto. Qed.

(** The values of the corners, by the side of each axis. *)
Definition corners3 (q000 q010 q100 q110 q001 q011 q101 q111 : b64) (a b c : bool) : R :=
  real (pick c (pick b (pick a q000 q100) (pick a q010 q110)) (pick b (pick a q001 q101) (pick a q011 q111))).
Lemma tri_close : forall x y z x0 y0 z0 x1 y1 z1 q000 q010 q100 q110 q001 q011 q101 q111 Q,
  cell1 x x0 x1 -> cell1 y y0 y1 -> cell1 z z0 z1 ->
  finite q000 = true -> finite q010 = true -> finite q100 = true -> finite q110 = true -> finite q001 = true -> finite q011 = true -> finite q101 = true -> finite q111 = true ->
  (forall a b c, Rabs (corners3 q000 q010 q100 q110 q001 q011 q101 q111 a b c) <= Q) -> Q <= bpow radix2 980 ->
  let r := f_trilinear x y z x0 y0 z0 x1 y1 z1 q000 q010 q100 q110 q001 q011 q101 q111 in
  finite r = true /\ Rabs (real r - exact3 (real x) (real x0) (real x1) (real y) (real y0) (real y1) (real z) (real z0) (real z1) (corners3 q000 q010 q100 q110 q001 q011 q101 q111)) <= 180 * U * Q + 32 * tiny.
Proof.
  intros x y z x0 y0 z0 x1 y1 z1 q000 q010 q100 q110 q001 q011 q101 q111 Q CX CY CZ F1 F2 F3 F4 F5 F6 F7 F8 V LQ r. unfold r, f_trilinear. cbv zeta.
  pose proof (V false false false) as V1. pose proof (V false true false) as V2. pose proof (V true false false) as V3. pose proof (V true true false) as V4.
  pose proof (V false false true) as V5. pose proof (V false true true) as V6. pose proof (V true false true) as V7. pose proof (V true true true) as V8.
  unfold corners3, pick in V1, V2, V3, V4, V5, V6, V7, V8.
  assert (LQ' : Q <= bpow radix2 990) by (eapply Rle_trans; [exact LQ|]; apply bpow_le; discriminate).
  destruct (bilinear_close x y x0 y0 x1 y1 q000 q010 q100 q110 Q CX CY F1 F2 F3 F4 V1 V2 V3 V4 LQ') as (A & B).
  destruct (bilinear_close x y x0 y0 x1 y1 q001 q011 q101 q111 Q CX CY F5 F6 F7 F8 V5 V6 V7 V8 LQ') as (C & D).
  rewrite (bilinear_mix _ _ _ _ _ _ _ _ _ _ (cell_nz _ _ _ CX) (cell_nz _ _ _ CY)) in B.
  rewrite (bilinear_mix _ _ _ _ _ _ _ _ _ _ (cell_nz _ _ _ CX) (cell_nz _ _ _ CY)) in D.
  pose proof U_pos as UP. pose proof tiny_pos as TP. pose proof tiny_U as TU. assert (US : U <= / 1000000000) by (rewrite UR; lra).
  assert (Q0 : 0 <= Q) by (pose proof (Rabs_pos (real q000)); lra). assert (UQ : 0 <= U * Q) by (apply Rmult_le_pos; lra).
  assert (UQS : U * Q <= / 1000000000 * Q) by (apply Rmult_le_compat_r; lra).
  destruct (stack_close z z0 z1 _ _ _ _ (128 * U * Q + 16 * tiny) Q CZ A C B D) as (G & H).
  - apply (exact2_bound x y x0 y0 x1 y1 (fun a b => corners3 q000 q010 q100 q110 q001 q011 q101 q111 a b false)); auto.
  - apply (exact2_bound x y x0 y0 x1 y1 (fun a b => corners3 q000 q010 q100 q110 q001 q011 q101 q111 a b true)); auto.
  - replace (bpow radix2 990) with (1024 * bpow radix2 980) by (change 1024 with (bpow radix2 10); rewrite <- bpow_plus; reflexivity).
    assert (1 <= bpow radix2 980) by (change 1 with (bpow radix2 0); apply bpow_le; discriminate). lra.
  - split; [exact G|]. eapply Rle_trans; [exact H|].
    assert (U * (128 * (U * Q) + 16 * tiny) <= / 1000000000 * (128 * (U * Q) + 16 * tiny)) by (apply Rmult_le_compat_r; lra). lra.
Qed.

(** ** Grids *)
(** At a node of the grid the result is the value of the node, exactly. *)
Theorem C136_nodes_3d : forall g nx ny nz kx ky kz x y z, axis_of (g3_x g) nx -> axis_of (g3_y g) ny -> axis_of (g3_z g) nz ->
  (forall i j k, (0 <= i < nx)%Z -> (0 <= j < ny)%Z -> (0 <= k < nz)%Z -> finite (g3_value g i j k) = true) ->
  (0 <= kx < nx)%Z -> (0 <= ky < ny)%Z -> (0 <= kz < nz)%Z -> finite x = true -> finite y = true -> finite z = true ->
  real x = real (f_value (g3_x g) kx) -> real y = real (f_value (g3_y g) ky) -> real z = real (f_value (g3_z g) kz) ->
  exists r, f_trivariate g x y z = Ok (Some r) /\ finite r = true /\ real r = real (g3_value g kx ky kz).
Proof.
  intros g nx ny nz kx ky kz x y z GX GY GZ FV KX KY KZ FX FY FZ EX EY EZ.
  destruct (node_bracket _ _ _ _ GX KX FX EX) as (i0 & i1 & FI & (I0 & I1 & _) & CI & bx & TX & PX).
  destruct (node_bracket _ _ _ _ GY KY FY EY) as (j0 & j1 & FJ & (J0 & J1 & _) & CJ & by' & TY & PY).
  destruct (node_bracket _ _ _ _ GZ KZ FZ EZ) as (k0 & k1 & FK & (K0 & K1 & _) & CK & bz & TZ & PZ).
  unfold f_trivariate. rewrite FI, FJ, FK. cbn [obind]. eexists. split; [reflexivity|]. cbv zeta.
  destruct (tri_node x y z _ _ _ _ _ _ (g3_value g i0 j0 k0) (g3_value g i0 j1 k0) (g3_value g i1 j0 k0) (g3_value g i1 j1 k0)
    (g3_value g i0 j0 k1) (g3_value g i0 j1 k1) (g3_value g i1 j0 k1) (g3_value g i1 j1 k1) bx by' bz CI CJ CK) as (A & E); auto.
  split; [exact A|]. rewrite E. subst kx ky kz. destruct bx, by', bz; reflexivity.
Qed.
Print Assumptions C136_nodes_3d.

Theorem C136_nodes_4d : forall g nx ny nz nu kx ky kz ku x y z u, axis_of (g4_x g) nx -> axis_of (g4_y g) ny -> axis_of (g4_z g) nz -> axis_of (g4_u g) nu ->
  (forall i j k l, (0 <= i < nx)%Z -> (0 <= j < ny)%Z -> (0 <= k < nz)%Z -> (0 <= l < nu)%Z -> finite (g4_value g i j k l) = true) ->
  (0 <= kx < nx)%Z -> (0 <= ky < ny)%Z -> (0 <= kz < nz)%Z -> (0 <= ku < nu)%Z -> finite x = true -> finite y = true -> finite z = true -> finite u = true ->
  real x = real (f_value (g4_x g) kx) -> real y = real (f_value (g4_y g) ky) -> real z = real (f_value (g4_z g) kz) -> real u = real (f_value (g4_u g) ku) ->
  exists r, f_quadrivariate g x y z u = Ok (Some r) /\ finite r = true /\ real r = real (g4_value g kx ky kz ku).
Proof.
  intros g nx ny nz nu kx ky kz ku x y z u GX GY GZ GU FV KX KY KZ KU FX FY FZ FU EX EY EZ EU.
  destruct (node_bracket _ _ _ _ GX KX FX EX) as (i0 & i1 & FI & (I0 & I1 & _) & CI & bx & TX & PX).
  destruct (node_bracket _ _ _ _ GY KY FY EY) as (j0 & j1 & FJ & (J0 & J1 & _) & CJ & by' & TY & PY).
  destruct (node_bracket _ _ _ _ GZ KZ FZ EZ) as (k0 & k1 & FK & (K0 & K1 & _) & CK & bz & TZ & PZ).
  destruct (node_bracket _ _ _ _ GU KU FU EU) as (l0 & l1 & FL & (L0 & L1 & _) & CL & bu & TU & PU).
  unfold f_quadrivariate. rewrite FI, FJ, FK, FL. cbn [obind]. eexists. split; [reflexivity|]. cbv zeta.
  assert (TRI : forall l, (0 <= l < nu)%Z -> let r := f_trilinear x y z (f_value (g4_x g) i0) (f_value (g4_y g) j0) (f_value (g4_z g) k0) (f_value (g4_x g) i1) (f_value (g4_y g) j1) (f_value (g4_z g) k1)
    (g4_value g i0 j0 k0 l) (g4_value g i0 j1 k0 l) (g4_value g i1 j0 k0 l) (g4_value g i1 j1 k0 l) (g4_value g i0 j0 k1 l) (g4_value g i0 j1 k1 l) (g4_value g i1 j0 k1 l) (g4_value g i1 j1 k1 l) in
    finite r = true /\ real r = real (g4_value g kx ky kz l)).
  { intros l L. cbv zeta. destruct (tri_node x y z _ _ _ _ _ _ (g4_value g i0 j0 k0 l) (g4_value g i0 j1 k0 l) (g4_value g i1 j0 k0 l) (g4_value g i1 j1 k0 l)
      (g4_value g i0 j0 k1 l) (g4_value g i0 j1 k1 l) (g4_value g i1 j0 k1 l) (g4_value g i1 j1 k1 l) bx by' bz CI CJ CK) as (A & E); auto.
    split; [exact A|]. rewrite E. subst kx ky kz. destruct bx, by', bz; reflexivity. }
  destruct (TRI l0 L0) as (A0 & B0). destruct (TRI l1 L1) as (A1 & B1).
  destruct (linear_node u _ _ _ _ bu CL A0 A1 TU) as (A & E). split; [exact A|]. rewrite E. destruct bu; [rewrite B1|rewrite B0]; subst ku; reflexivity.
Qed.
Print Assumptions C136_nodes_4d.

Definition B45 (Q : R) : R := bpow radix2 (-45) * Q + bpow radix2 (-1064).
Lemma B45_eq : forall Q, B45 Q = 256 * U * Q + 64 * tiny.
Proof.
  intros Q. unfold B45. f_equal.
  - f_equal. change 256 with (bpow radix2 8). rewrite U_eq, <- bpow_plus. reflexivity.
  - unfold tiny. change 64 with (bpow radix2 6). rewrite <- bpow_plus. reflexivity.
Qed.

(** Everywhere in the grid the result is finite and close to the exact multilinear interpolation, in the cell of the coordinates,
    of the computed points and of the values: the error is a few units in the last place of the largest value (2^-45). *)
Theorem C136_close_3d : forall g nx ny nz Q x y z, axis_of (g3_x g) nx -> axis_of (g3_y g) ny -> axis_of (g3_z g) nz ->
  (forall i j k, (0 <= i < nx)%Z -> (0 <= j < ny)%Z -> (0 <= k < nz)%Z -> finite (g3_value g i j k) = true /\ Rabs (real (g3_value g i j k)) <= Q) -> Q <= bpow radix2 980 ->
  inside (g3_x g) nx x -> inside (g3_y g) ny y -> inside (g3_z g) nz z ->
  exists i0 i1 j0 j1 k0 k1 r, bracket (g3_x g) nx x i0 i1 /\ bracket (g3_y g) ny y j0 j1 /\ bracket (g3_z g) nz z k0 k1 /\
    f_trivariate g x y z = Ok (Some r) /\ finite r = true /\
    let p k := real (f_value (g3_x g) k) in let q k := real (f_value (g3_y g) k) in let s k := real (f_value (g3_z g) k) in
    Rabs (real r - exact3 (real x) (p i0) (p i1) (real y) (q j0) (q j1) (real z) (s k0) (s k1)
      (fun a b c => real (g3_value g (pick a i0 i1) (pick b j0 j1) (pick c k0 k1)))) <= bpow radix2 (-45) * Q + bpow radix2 (-1064).
Proof.
  intros g nx ny nz Q x y z GX GY GZ V LQ IX IY IZ.
  destruct (C135_find_indexes _ _ _ GX IX) as (i0 & i1 & FI & BI). destruct (C135_find_indexes _ _ _ GY IY) as (j0 & j1 & FJ & BJ). destruct (C135_find_indexes _ _ _ GZ IZ) as (k0 & k1 & FK & BK).
  pose proof (cell_ok _ _ _ _ _ GX (proj1 IX) BI) as CI. pose proof (cell_ok _ _ _ _ _ GY (proj1 IY) BJ) as CJ. pose proof (cell_ok _ _ _ _ _ GZ (proj1 IZ) BK) as CK.
  pose proof BI as (I0 & I1 & _). pose proof BJ as (J0 & J1 & _). pose proof BK as (K0 & K1 & _).
  assert (IN : forall n u v (b : bool), (0 <= u < n)%Z -> (0 <= v < n)%Z -> (0 <= pick b u v < n)%Z) by (intros n u v [|] H1 H2; assumption).
  assert (V' : forall a b c : bool, finite (g3_value g (pick a i0 i1) (pick b j0 j1) (pick c k0 k1)) = true /\ Rabs (real (g3_value g (pick a i0 i1) (pick b j0 j1) (pick c k0 k1))) <= Q) by (intros a b c; apply V; apply IN; assumption).
  unfold f_trivariate. rewrite FI, FJ, FK. cbn [obind]. exists i0, i1, j0, j1, k0, k1. eexists. split; [exact BI|]. split; [exact BJ|]. split; [exact BK|]. split; [reflexivity|]. cbv zeta.
  destruct (tri_close x y z (f_value (g3_x g) i0) (f_value (g3_y g) j0) (f_value (g3_z g) k0) (f_value (g3_x g) i1) (f_value (g3_y g) j1) (f_value (g3_z g) k1)
    (g3_value g i0 j0 k0) (g3_value g i0 j1 k0) (g3_value g i1 j0 k0) (g3_value g i1 j1 k0) (g3_value g i0 j0 k1) (g3_value g i0 j1 k1) (g3_value g i1 j0 k1) (g3_value g i1 j1 k1) Q CI CJ CK) as (A & E).
  - apply (V' false false false). - apply (V' false true false). - apply (V' true false false). - apply (V' true true false).
  - apply (V' false false true). - apply (V' false true true). - apply (V' true false true). - apply (V' true true true).
  - intros a b c. pose proof (proj2 (V' a b c)) as H. destruct a, b, c; exact H.
  - exact LQ.
  - split; [exact A|]. cbv zeta in E. fold (B45 Q). rewrite B45_eq. pose proof tiny_pos. pose proof U_pos.
    assert (Q0 : 0 <= Q) by (pose proof (proj2 (V' true true true)) as H1; pose proof (Rabs_pos (real (g3_value g (pick true i0 i1) (pick true j0 j1) (pick true k0 k1)))); lra).
    assert (0 <= U * Q) by (apply Rmult_le_pos; lra).
    apply Rle_trans with (180 * U * Q + 32 * tiny); [exact E|]. lra.
Qed.
Print Assumptions C136_close_3d.

Theorem C136_close_4d : forall g nx ny nz nu Q x y z u, axis_of (g4_x g) nx -> axis_of (g4_y g) ny -> axis_of (g4_z g) nz -> axis_of (g4_u g) nu ->
  (forall i j k l, (0 <= i < nx)%Z -> (0 <= j < ny)%Z -> (0 <= k < nz)%Z -> (0 <= l < nu)%Z -> finite (g4_value g i j k l) = true /\ Rabs (real (g4_value g i j k l)) <= Q) -> Q <= bpow radix2 980 ->
  inside (g4_x g) nx x -> inside (g4_y g) ny y -> inside (g4_z g) nz z -> inside (g4_u g) nu u ->
  exists i0 i1 j0 j1 k0 k1 l0 l1 r, bracket (g4_x g) nx x i0 i1 /\ bracket (g4_y g) ny y j0 j1 /\ bracket (g4_z g) nz z k0 k1 /\ bracket (g4_u g) nu u l0 l1 /\
    f_quadrivariate g x y z u = Ok (Some r) /\ finite r = true /\
    let p k := real (f_value (g4_x g) k) in let q k := real (f_value (g4_y g) k) in let s k := real (f_value (g4_z g) k) in let t k := real (f_value (g4_u g) k) in
    Rabs (real r - exact4 (real x) (p i0) (p i1) (real y) (q j0) (q j1) (real z) (s k0) (s k1) (real u) (t l0) (t l1)
      (fun a b c d => real (g4_value g (pick a i0 i1) (pick b j0 j1) (pick c k0 k1) (pick d l0 l1)))) <= bpow radix2 (-45) * Q + bpow radix2 (-1064).
Proof.
  intros g nx ny nz nu Q x y z u GX GY GZ GU V LQ IX IY IZ IU.
  destruct (C135_find_indexes _ _ _ GX IX) as (i0 & i1 & FI & BI). destruct (C135_find_indexes _ _ _ GY IY) as (j0 & j1 & FJ & BJ). destruct (C135_find_indexes _ _ _ GZ IZ) as (k0 & k1 & FK & BK). destruct (C135_find_indexes _ _ _ GU IU) as (l0 & l1 & FL & BL).
  pose proof (cell_ok _ _ _ _ _ GX (proj1 IX) BI) as CI. pose proof (cell_ok _ _ _ _ _ GY (proj1 IY) BJ) as CJ. pose proof (cell_ok _ _ _ _ _ GZ (proj1 IZ) BK) as CK. pose proof (cell_ok _ _ _ _ _ GU (proj1 IU) BL) as CL.
  pose proof BI as (I0 & I1 & _). pose proof BJ as (J0 & J1 & _). pose proof BK as (K0 & K1 & _). pose proof BL as (L0 & L1 & _).
  assert (IN : forall n u v (b : bool), (0 <= u < n)%Z -> (0 <= v < n)%Z -> (0 <= pick b u v < n)%Z) by (intros n u' v [|] H1 H2; assumption).
  assert (V' : forall a b c d : bool, finite (g4_value g (pick a i0 i1) (pick b j0 j1) (pick c k0 k1) (pick d l0 l1)) = true /\ Rabs (real (g4_value g (pick a i0 i1) (pick b j0 j1) (pick c k0 k1) (pick d l0 l1))) <= Q) by (intros a b c d; apply V; apply IN; assumption).
  unfold f_quadrivariate. rewrite FI, FJ, FK, FL. cbn [obind]. exists i0, i1, j0, j1, k0, k1, l0, l1. eexists. split; [exact BI|]. split; [exact BJ|]. split; [exact BK|]. split; [exact BL|]. split; [reflexivity|]. cbv zeta.
  assert (TRI : forall d : bool, let l := pick d l0 l1 in let r := f_trilinear x y z (f_value (g4_x g) i0) (f_value (g4_y g) j0) (f_value (g4_z g) k0) (f_value (g4_x g) i1) (f_value (g4_y g) j1) (f_value (g4_z g) k1)
    (g4_value g i0 j0 k0 l) (g4_value g i0 j1 k0 l) (g4_value g i1 j0 k0 l) (g4_value g i1 j1 k0 l) (g4_value g i0 j0 k1 l) (g4_value g i0 j1 k1 l) (g4_value g i1 j0 k1 l) (g4_value g i1 j1 k1 l) in
    finite r = true /\ Rabs (real r - exact3 (real x) (real (f_value (g4_x g) i0)) (real (f_value (g4_x g) i1)) (real y) (real (f_value (g4_y g) j0)) (real (f_value (g4_y g) j1)) (real z) (real (f_value (g4_z g) k0)) (real (f_value (g4_z g) k1))
      (fun a b c => real (g4_value g (pick a i0 i1) (pick b j0 j1) (pick c k0 k1) l))) <= 180 * U * Q + 32 * tiny).
  { intros d. cbv zeta. set (l := pick d l0 l1).
    destruct (tri_close x y z (f_value (g4_x g) i0) (f_value (g4_y g) j0) (f_value (g4_z g) k0) (f_value (g4_x g) i1) (f_value (g4_y g) j1) (f_value (g4_z g) k1)
      (g4_value g i0 j0 k0 l) (g4_value g i0 j1 k0 l) (g4_value g i1 j0 k0 l) (g4_value g i1 j1 k0 l) (g4_value g i0 j0 k1 l) (g4_value g i0 j1 k1 l) (g4_value g i1 j0 k1 l) (g4_value g i1 j1 k1 l) Q CI CJ CK) as (A & E).
    - apply (V' false false false d). - apply (V' false true false d). - apply (V' true false false d). - apply (V' true true false d).
    - apply (V' false false true d). - apply (V' false true true d). - apply (V' true false true d). - apply (V' true true true d).
    - intros a b c. pose proof (proj2 (V' a b c d)) as H. fold l in H. destruct a, b, c; exact H.
    - exact LQ.
    - split; [exact A|exact E]. }
  destruct (TRI false) as (A0 & E0). destruct (TRI true) as (A1 & E1). clear TRI. cbn [pick] in A0, E0, A1, E1.
  pose proof U_pos as UP. pose proof tiny_pos as TP. pose proof tiny_U as TU. assert (US : U <= / 1000000000) by (rewrite UR; lra).
  assert (Q0 : 0 <= Q) by (pose proof (proj2 (V' true true true true)) as H1; pose proof (Rabs_pos (real (g4_value g (pick true i0 i1) (pick true j0 j1) (pick true k0 k1) (pick true l0 l1)))); lra).
  assert (UQ : 0 <= U * Q) by (apply Rmult_le_pos; lra). assert (UQS : U * Q <= / 1000000000 * Q) by (apply Rmult_le_compat_r; lra).
  destruct (stack_close u _ _ _ _ _ _ _ Q CL A0 A1 E0 E1) as (G & H).
  - apply exact3_bound; auto. intros a b c. apply (V' a b c false).
  - apply exact3_bound; auto. intros a b c. apply (V' a b c true).
  - replace (bpow radix2 990) with (1024 * bpow radix2 980) by (change 1024 with (bpow radix2 10); rewrite <- bpow_plus; reflexivity).
    assert (1 <= bpow radix2 980) by (change 1 with (bpow radix2 0); apply bpow_le; discriminate). lra.
  - split; [exact G|]. fold (B45 Q). rewrite B45_eq. eapply Rle_trans; [exact H|].
    assert (U * (180 * (U * Q) + 32 * tiny) <= / 1000000000 * (180 * (U * Q) + 32 * tiny)) by (apply Rmult_le_compat_r; lra). lra.
Qed.
Print Assumptions C136_close_4d.

(** ** Dates *)
Lemma of_Z_rnd : forall n, (Z.abs n <= 2 ^ 64)%Z -> finite (b_of_Z n) = true /\ real (b_of_Z n) = rnd (IZR n).
Proof.
  intros n N. assert (F : F2R (Float radix2 n 0) = IZR n) by (unfold F2R; cbn; ring).
  pose proof (@binary_normalize_correct 53 1024 b64_prec b64_emax mode_NE n 0 false) as C. cbn [round_mode] in C. rewrite F in C.
  rewrite rnd_bound in C. { destruct C as (R & FF & _). split; [exact FF|exact R]. }
  rewrite <- abs_IZR. apply Rle_trans with (IZR (2 ^ 64)); [apply IZR_le; exact N|]. rewrite (IZR_Zpower radix2 64 ltac:(discriminate) : IZR (2 ^ 64) = bpow radix2 64). apply bpow_le. discriminate.
Qed.
(** Linear interpolation between two dates: exact at the dates, close to the exact interpolation between them. *)
Theorem C136_dates : forall x x0 x1 y0 y1 Q, x0 <> x1 -> (x0 <= x <= x1 \/ x1 <= x <= x0)%Z -> (Z.abs (x1 - x0) < 2 ^ 63)%Z ->
  finite y0 = true -> finite y1 = true -> Rabs (real y0) <= Q -> Rabs (real y1) <= Q -> Q <= bpow radix2 990 ->
  exists r, f_linear_date x x0 x1 y0 y1 = Ok r /\ finite r = true /\
    Rabs (real r - mix (IZR x) (IZR x0) (IZR x1) (real y0) (real y1)) <= bpow radix2 (-45) * Q + bpow radix2 (-1064) /\
    (x = x0 -> real r = real y0) /\ (x = x1 -> real r = real y1).
Proof.
  intros x x0 x1 y0 y1 Q NE BT LT F0 F1 B0 B1 LQ.
  assert (FIT : forall a b, (Z.abs (a - b) < 2 ^ 63)%Z -> i64_minus a b = Ok (a - b)%Z).
  { intros a b H. unfold i64_minus. destruct ((- 2 ^ 63 <=? a - b)%Z && (a - b <? 2 ^ 63)%Z)%bool eqn:G; [reflexivity|]. exfalso. apply Bool.andb_false_iff in G. destruct G as [G|G]; [apply Z.leb_gt in G|apply Z.ltb_ge in G]; lia. }
  assert (LIM : forall n, (Z.abs n < 2 ^ 63)%Z -> (Z.abs n <= 2 ^ 64)%Z) by (intros n H; eapply Z.le_trans; [apply Z.lt_le_incl; exact H|discriminate]).
  destruct (of_Z_rnd (x1 - x0) (LIM _ LT)) as (Fd & Ed). destruct (of_Z_rnd (x1 - x)) as (Fn & En). { apply LIM. lia. } destruct (of_Z_rnd (x - x0)) as (Fm & Em). { apply LIM. lia. }
  assert (D1 : 1 <= Rabs (IZR (x1 - x0))) by (rewrite <- abs_IZR; apply IZR_le; lia).
  assert (LO : bpow radix2 (-900) <= Rabs (IZR (x1 - x0))). { eapply Rle_trans; [|exact D1]. change 1 with (bpow radix2 0). apply bpow_le. discriminate. }
  assert (AN : Rabs (IZR (x1 - x)) <= Rabs (IZR (x1 - x0))) by (rewrite <- !abs_IZR; apply IZR_le; lia).
  assert (AM : Rabs (IZR (x - x0)) <= Rabs (IZR (x1 - x0))) by (rewrite <- !abs_IZR; apply IZR_le; lia).
  assert (GN : 0 <= IZR (x1 - x) * IZR (x1 - x0)) by (rewrite <- mult_IZR; apply IZR_le; nia).
  assert (GM : 0 <= IZR (x - x0) * IZR (x1 - x0)) by (rewrite <- mult_IZR; apply IZR_le; nia).
  destruct (quot_ok _ _ _ _ Fn En Ed LO AN GN) as (NZ & A & B & C & T0 & T1). destruct (quot_ok _ _ _ _ Fm Em Ed LO AM GM) as (_ & A' & B' & C' & U0 & U1).
  unfold f_linear_date. rewrite FIT by lia. cbn [obind]. destruct (b_eqb (b_of_Z (x1 - x0)) (b_of_Z 0)) eqn:Z0.
  { exfalso. destruct of_0 as (FZ & EZ). unfold b_eqb in Z0. rewrite (Beqb_correct 53 1024 _ _ Fd FZ), EZ in Z0. destruct (Req_bool_spec (real (b_of_Z (x1 - x0))) 0); [contradiction|discriminate]. }
  rewrite !FIT by lia. cbn [obind]. fold (mixed (b_div (b_of_Z (x1 - x)) (b_of_Z (x1 - x0))) (b_div (b_of_Z (x - x0)) (b_of_Z (x1 - x0))) y0 y1).
  assert (DZ : IZR x1 - IZR x0 <> 0). { rewrite <- minus_IZR. apply IZR_neq. lia. }
  eexists. split; [reflexivity|]. set (t := b_div (b_of_Z (x1 - x)) (b_of_Z (x1 - x0))) in *. set (u := b_div (b_of_Z (x - x0)) (b_of_Z (x1 - x0))) in *.
  set (o := (IZR x - IZR x0) / (IZR x1 - IZR x0)).
  assert (OE : IZR (x - x0) / IZR (x1 - x0) = o) by (unfold o; rewrite !minus_IZR; reflexivity).
  assert (OE' : IZR (x1 - x) / IZR (x1 - x0) = 1 - o) by (unfold o; rewrite !minus_IZR; field; exact DZ).
  assert (OB : 0 <= o <= 1).
  { rewrite <- OE. split.
    - assert (0 <= IZR (x - x0) * IZR (x1 - x0) / (IZR (x1 - x0) * IZR (x1 - x0))).
      { apply Rmult_le_pos; [exact GM|]. left. apply Rinv_0_lt_compat. rewrite <- mult_IZR. apply IZR_lt. nia. }
      replace (IZR (x - x0) / IZR (x1 - x0)) with (IZR (x - x0) * IZR (x1 - x0) / (IZR (x1 - x0) * IZR (x1 - x0))) by (field; apply IZR_neq; lia). exact H.
    - eapply Rle_trans; [apply Rle_abs|]. unfold Rdiv. rewrite Rabs_mult, Rabs_inv. apply (Rmult_le_reg_r (Rabs (IZR (x1 - x0)))); [lra|]. rewrite Rmult_assoc, Rinv_l by lra. lra. }
  assert (WU : weight u o 8) by (rewrite <- OE; split; [exact A'|]; split; [exact B'|]; split; [rewrite OE; exact OB|exact C']).
  assert (WT : weight t (1 - o) 8) by (rewrite <- OE'; split; [exact A|]; split; [exact B|]; split; [rewrite OE'; lra|exact C]).
  destruct (mixed_ok t u y0 y1 o Q WT WU F0 F1 B0 B1 LQ) as (FR & ER). split; [exact FR|]. split; [|split].
  - rewrite (mix_weights _ _ _ _ _ DZ). fold o. fold (B45 Q). rewrite B45_eq. eapply Rle_trans; [exact ER|]. pose proof tiny_pos. pose proof U_pos.
    assert (0 <= Q) by (pose proof (Rabs_pos (real y0)); lra). assert (0 <= U * Q) by (apply Rmult_le_pos; lra). lra.
  - intros E. apply (mixed_unit t u y0 y1 false); auto; red; cbn [negb]; [apply T1; rewrite E; reflexivity|apply U0; rewrite E, Z.sub_diag; reflexivity].
  - intros E. apply (mixed_unit t u y0 y1 true); auto; red; cbn [negb]; [apply T0; rewrite E, Z.sub_diag; reflexivity|apply U1; rewrite E; reflexivity].
Qed.
Print Assumptions C136_dates.
(** Two dates more than 2^63 units apart: the difference overflows. *)
Theorem C136_dates_refuted : exists x x0 x1 y0 y1, (x0 <= x <= x1)%Z /\ (- 2 ^ 63 <= x0 /\ x1 < 2 ^ 63)%Z /\ exists w, f_linear_date x x0 x1 y0 y1 = UB w.
Proof.
  exists 0%Z, (- 2 ^ 62 - 1)%Z, (2 ^ 62)%Z, (b_of_Z 0), (b_of_Z 0). split; [split; discriminate|]. split; [split; [discriminate|reflexivity]|]. eexists. reflexivity.
Qed.
Print Assumptions C136_dates_refuted.

(** A grid of the theorems: every degree, values i + j + k. *)
Theorem C136_ex : exists g, axis_of (g3_x g) 360 /\ axis_of (g3_y g) 360 /\ axis_of (g3_z g) 360 /\
  (forall i j k, (0 <= i < 360)%Z -> (0 <= j < 360)%Z -> (0 <= k < 360)%Z -> finite (g3_value g i j k) = true /\ Rabs (real (g3_value g i j k)) <= 2000) /\
  inside (g3_x g) 360 (b_of_Z 3).
Proof.
  destruct C135_ex as (g & GX & _ & _ & IN & _). exists (FGrid3 (g_x g) (g_x g) (g_x g) (fun i j k => b_of_Z (i + j + k))). cbn [g3_x g3_y g3_z g3_value].
  repeat (split; [exact GX|]). split; [|exact IN]. intros i j k I J K. destruct (of_Z_ok (i + j + k)) as (F & E). { rewrite Z.abs_eq by lia. change (2 ^ 53)%Z with 9007199254740992%Z. lia. }
  split; [exact F|]. rewrite E. rewrite <- abs_IZR. apply IZR_le. lia.
Qed.
