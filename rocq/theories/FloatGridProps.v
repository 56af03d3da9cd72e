(** Theorems about the bilinear interpolation in the arithmetic of the machine (property C135).

    [real x] is the real number a finite binary64 stands for. *)
From Coq Require Import ZArith Reals Lra Psatz.
From Flocq Require Import Core BinarySingleNaN.
From Verif Require Import Base FloatAxisModel FloatAxisProofs FloatAxisProps FloatGridModel FloatGridProofs.
Open Scope R_scope.

(** [a]: an axis of [n] evenly spaced points, far from the limits of binary64. *)
Definition axis_of (a : faxis) (n : Z) : Prop := exists start stop h, reasonable start stop n h /\ f_regular start stop n = Ok a.
(** [c]: a number between the first and the last points of the axis. *)
Definition inside (a : faxis) (n : Z) (c : b64) : Prop := finite c = true /\ between (real (f_value a 0)) (real c) (real (f_value a (n - 1))).
(** The values of the grid: numbers, of absolute value at most [Q]. *)
Definition values_in (g : fgrid) (nx ny : Z) (Q : R) : Prop :=
  forall i j, (0 <= i < nx)%Z -> (0 <= j < ny)%Z -> finite (g_value g i j) = true /\ Rabs (real (g_value g i j)) <= Q.
(** [i0] and [i1]: two consecutive points of the axis, [c] is between them. *)
Definition bracket (a : faxis) (n : Z) (c : b64) (i0 i1 : Z) : Prop :=
  (0 <= i0 < n)%Z /\ (0 <= i1 < n)%Z /\ (i1 = i0 + 1 \/ i0 = i1 + 1)%Z /\ between (real (f_value a i0)) (real c) (real (f_value a i1)).

(** find_indexes: the computed points of the answer are on both sides of the coordinate, despite the rounding; no answer for a
    coordinate outside the computed points. *)
Theorem C135_find_indexes : forall a n c, axis_of a n -> inside a n c ->
  exists i0 i1, f_find_indexes a c = Ok (Some (i0, i1)) /\ bracket a n c i0 i1.
Proof.
  intros a n c (start & stop & h & G & B) (F & BT). destruct (find_indexes_ok _ _ _ _ _ _ G B F BT) as (i0 & i1 & E & R0 & R1 & A & C & _).
  exists i0, i1. split; [exact E|]. repeat split; tauto.
Qed.
Print Assumptions C135_find_indexes.

Theorem C135_outside : forall start stop n h a c, reasonable start stop n h -> f_regular start stop n = Ok a -> finite c = true ->
  Rabs (real c - real start) <= IZR (2 ^ 60) * Rabs h -> ~ inside a n c ->
  f_find_indexes a c = Ok None /\
  (forall g y i, g_x g = a -> f_find_indexes (g_y g) y = Ok i -> f_bivariate g c y = Ok None) /\
  (forall g x i, g_y g = a -> f_find_indexes (g_x g) x = Ok i -> f_bivariate g x c = Ok None).
Proof.
  intros start stop n h a c G B F H NI. assert (E : f_find_indexes a c = Ok None).
  { apply (find_indexes_none start stop n h); auto. intros BT. apply NI. split; auto. }
  split; [exact E|]. split; intros g z i GE FE; unfold f_bivariate; rewrite GE, FE, E; cbn [obind]; [|destruct i as [[? ?]|]]; reflexivity.
Qed.
Print Assumptions C135_outside.

(** ** Cells *)
Lemma cell_ok : forall a n c i0 i1, axis_of a n -> finite c = true -> bracket a n c i0 i1 -> cell1 c (f_value a i0) (f_value a i1).
Proof.
  intros a n c i0 i1 (start & stop & h & G & B) F (R0 & R1 & AD & BT). pose proof (widen _ _ _ _ G) as GW. destruct (built _ _ _ _ _ GW B) as (W & ST & SZ & SH).
  pose proof (r_size _ _ _ _ G) as N. change (2 ^ 44)%Z with 17592186044416%Z in N. destruct (step_bounds _ _ SH) as [S1 S2].
  pose proof (r_low _ _ _ _ G) as LO. pose proof (r_high _ _ _ _ G) as HI. pose proof U_pos as UP.
  destruct (point_ok a i0 W) as (F0 & x & EX & BX). { rewrite Z.abs_eq by lia. change (2 ^ 46)%Z with 70368744177664%Z. lia. }
  destruct (point_ok a i1 W) as (F1 & y & EY & BY). { rewrite Z.abs_eq by lia. change (2 ^ 46)%Z with 70368744177664%Z. lia. }
  set (s := real (f_step a)) in *.
  assert (AB : forall v k, Rabs (v - IZR k) <= / 16 -> IZR k - / 16 <= v <= IZR k + / 16).
  { intros v k H. pose proof (Rle_abs (v - IZR k)). pose proof (Rle_abs (- (v - IZR k))). rewrite Rabs_Ropp in H1. lra. }
  apply AB in BX. apply AB in BY.
  assert (D : / 2 <= Rabs (y - x) <= 2).
  { destruct AD as [->| ->]; rewrite plus_IZR in *; [rewrite Rabs_pos_eq by lra|rewrite Rabs_left by lra]; lra. }
  assert (E : Rabs (real (f_value a i1) - real (f_value a i0)) = Rabs (y - x) * Rabs s).
  { rewrite EX, EY, <- Rabs_mult. f_equal. ring. }
  pose proof (h_pos _ _ _ _ GW) as HP.
  assert (SL : / 2 * Rabs h <= Rabs s) by (eapply Rle_trans; [|exact S1]; apply Rmult_le_compat_r; [lra|rewrite UR; lra]).
  assert (SU : Rabs s <= 2 * Rabs h) by (eapply Rle_trans; [exact S2|]; apply Rmult_le_compat_r; [lra|rewrite UR; lra]).
  constructor; auto.
  - rewrite E. replace (bpow radix2 (-900)) with (/ 1024 * bpow radix2 (-890)) by (change (/ 1024) with (bpow radix2 (-10)); rewrite <- bpow_plus; reflexivity).
    assert (/ 2 * Rabs s <= Rabs (y - x) * Rabs s) by (apply Rmult_le_compat_r; [apply Rabs_pos|lra]). lra.
  - rewrite E. replace (bpow radix2 900) with (1024 * bpow radix2 890) by (change 1024 with (bpow radix2 10); rewrite <- bpow_plus; reflexivity).
    assert (Rabs (y - x) * Rabs s <= 2 * Rabs s) by (apply Rmult_le_compat_r; [apply Rabs_pos|lra]). pose proof (bpow_gt_0 radix2 890). lra.
Qed.

(** At a node of the grid the result is the value of the node, exactly. *)
Theorem C135_nodes : forall g nx ny kx ky x y, axis_of (g_x g) nx -> axis_of (g_y g) ny ->
  (forall i j, (0 <= i < nx)%Z -> (0 <= j < ny)%Z -> finite (g_value g i j) = true) ->
  (0 <= kx < nx)%Z -> (0 <= ky < ny)%Z -> finite x = true -> finite y = true ->
  real x = real (f_value (g_x g) kx) -> real y = real (f_value (g_y g) ky) ->
  exists r, f_bivariate g x y = Ok (Some r) /\ finite r = true /\ real r = real (g_value g kx ky).
Proof.
  intros g nx ny kx ky x y GX GY FV KX KY FX FY EX EY.
  assert (IN : forall a n k c, axis_of a n -> (0 <= k < n)%Z -> finite c = true -> real c = real (f_value a k) ->
    exists i0 i1, f_find_indexes a c = Ok (Some (i0, i1)) /\ bracket a n c i0 i1 /\ cell1 c (f_value a i0) (f_value a i1) /\ (k = i0 \/ k = i1)).
  { intros a n k c GA K F E. pose proof GA as (start & stop & h & G & B).
    assert (BT : between (real (f_value a 0)) (real c) (real (f_value a (n - 1)))).
    { rewrite E. pose proof (C134_ordered _ _ _ _ _ G B) as O. pose proof (h_pos _ _ _ _ (widen _ _ _ _ G)) as HP.
      assert (O1 : forall i j, (0 <= i)%Z -> (i <= j < n)%Z -> 0 <= (real (f_value a j) - real (f_value a i)) * h).
      { intros i j I J. destruct (Z.eq_dec i j) as [->|NE]; [lra|]. assert (Q := O i j I ltac:(lia)). lra. }
      pose proof (O1 0%Z k ltac:(lia) ltac:(lia)) as A1. pose proof (O1 k (n - 1)%Z ltac:(lia) ltac:(lia)) as A2.
      unfold between. destruct (Rtotal_order h 0) as [P|[P|P]]; [right|rewrite P, Rabs_R0 in HP; lra|left]; split.
      - destruct (Rle_or_lt (real (f_value a (n - 1))) (real (f_value a k))) as [L|L]; [exact L|]. exfalso. assert (0 < (real (f_value a (n - 1)) - real (f_value a k)) * - h) by (apply Rmult_lt_0_compat; lra). lra.
      - destruct (Rle_or_lt (real (f_value a k)) (real (f_value a 0))) as [L|L]; [exact L|]. exfalso. assert (0 < (real (f_value a k) - real (f_value a 0)) * - h) by (apply Rmult_lt_0_compat; lra). lra.
      - destruct (Rle_or_lt (real (f_value a 0)) (real (f_value a k))) as [L|L]; [exact L|]. exfalso. assert (0 < (real (f_value a 0) - real (f_value a k)) * h) by (apply Rmult_lt_0_compat; lra). lra.
      - destruct (Rle_or_lt (real (f_value a k)) (real (f_value a (n - 1)))) as [L|L]; [exact L|]. exfalso. assert (0 < (real (f_value a k) - real (f_value a (n - 1))) * h) by (apply Rmult_lt_0_compat; lra). lra. }
    destruct (find_indexes_ok _ _ _ _ _ _ G B F BT) as (i0 & i1 & FE & R0 & R1 & AD & BB & UN).
    assert (BR : bracket a n c i0 i1) by (repeat split; tauto).
    exists i0, i1. split; [exact FE|]. split; [exact BR|]. split; [apply (cell_ok a n); auto|]. apply UN; auto. }
  destruct (IN _ _ _ _ GX KX FX EX) as (i0 & i1 & FI & BI & CI & KI). destruct (IN _ _ _ _ GY KY FY EY) as (j0 & j1 & FJ & BJ & CJ & KJ).
  destruct BI as (I0 & I1 & AI & _). destruct BJ as (J0 & J1 & AJ & _).
  unfold f_bivariate. rewrite FI, FJ. cbn [obind]. eexists. split; [reflexivity|].
  assert (TX : exists b : bool, real x = (if b then real (f_value (g_x g) i1) else real (f_value (g_x g) i0)) /\ kx = if b then i1 else i0).
  { destruct KI as [Q|Q]; [exists false|exists true]; split; auto; rewrite EX; subst kx; reflexivity. }
  assert (TY : exists b : bool, real y = (if b then real (f_value (g_y g) j1) else real (f_value (g_y g) j0)) /\ ky = if b then j1 else j0).
  { destruct KJ as [Q|Q]; [exists false|exists true]; split; auto; rewrite EY; subst ky; reflexivity. }
  destruct TX as (bx & TX & KX'). destruct TY as (by' & TY & KY').
  destruct (bilinear_node x y _ _ _ _ (g_value g i0 j0) (g_value g i0 j1) (g_value g i1 j0) (g_value g i1 j1) bx by' CI CJ) as (A & E); auto.
  split; [exact A|]. rewrite E. subst kx ky. destruct bx, by'; reflexivity.
Qed.
Print Assumptions C135_nodes.

(** Everywhere in the grid the result is finite and close to the exact bilinear interpolation, in the cell of the coordinates, of
    the computed points and of the values: the error is a few units in the last place of the largest value (2^-46). *)
Theorem C135_close : forall g nx ny Q x y, axis_of (g_x g) nx -> axis_of (g_y g) ny -> values_in g nx ny Q -> Q <= bpow radix2 990 ->
  inside (g_x g) nx x -> inside (g_y g) ny y ->
  exists i0 i1 j0 j1 r, bracket (g_x g) nx x i0 i1 /\ bracket (g_y g) ny y j0 j1 /\
    f_bivariate g x y = Ok (Some r) /\ finite r = true /\
    let p k := real (f_value (g_x g) k) in let q k := real (f_value (g_y g) k) in let v i j := real (g_value g i j) in
    Rabs (real r - (v i0 j0 * (p i1 - real x) * (q j1 - real y) + v i1 j0 * (real x - p i0) * (q j1 - real y) +
                    v i0 j1 * (p i1 - real x) * (real y - q j0) + v i1 j1 * (real x - p i0) * (real y - q j0)) / ((p i1 - p i0) * (q j1 - q j0)))
      <= bpow radix2 (-46) * Q + bpow radix2 (-1066).
Proof.
  intros g nx ny Q x y GX GY V LQ IX IY. destruct (C135_find_indexes _ _ _ GX IX) as (i0 & i1 & FI & BI). destruct (C135_find_indexes _ _ _ GY IY) as (j0 & j1 & FJ & BJ).
  pose proof (cell_ok _ _ _ _ _ GX (proj1 IX) BI) as CI. pose proof (cell_ok _ _ _ _ _ GY (proj1 IY) BJ) as CJ.
  pose proof BI as (I0 & I1 & _). pose proof BJ as (J0 & J1 & _).
  destruct (V i0 j0 I0 J0) as (F00 & B00). destruct (V i0 j1 I0 J1) as (F01 & B01). destruct (V i1 j0 I1 J0) as (F10 & B10). destruct (V i1 j1 I1 J1) as (F11 & B11).
  pose proof (bilinear_close x y _ _ _ _ (g_value g i0 j0) (g_value g i0 j1) (g_value g i1 j0) (g_value g i1 j1) Q CI CJ) as H. cbv zeta in H. destruct H as (FR & E); auto.
  unfold f_bivariate. rewrite FI, FJ. cbn [obind]. exists i0, i1, j0, j1. eexists. split; [exact BI|]. split; [exact BJ|]. split; [reflexivity|]. split; [exact FR|].
  cbv zeta. eapply Rle_trans; [exact E|]. right. f_equal.
  - f_equal. replace 128 with (bpow radix2 7) by reflexivity. rewrite U_eq, <- bpow_plus. reflexivity.
  - unfold tiny. replace 16 with (bpow radix2 4) by reflexivity. rewrite <- bpow_plus. reflexivity.
Qed.
Print Assumptions C135_close.

(** The result stays within the values of the grid, up to the same error. *)
Theorem C135_range : forall g nx ny Q x y lo hi, axis_of (g_x g) nx -> axis_of (g_y g) ny -> values_in g nx ny Q -> Q <= bpow radix2 990 ->
  inside (g_x g) nx x -> inside (g_y g) ny y -> (forall i j, (0 <= i < nx)%Z -> (0 <= j < ny)%Z -> lo <= real (g_value g i j) <= hi) ->
  exists r, f_bivariate g x y = Ok (Some r) /\ finite r = true /\
    lo - (bpow radix2 (-46) * Q + bpow radix2 (-1066)) <= real r <= hi + (bpow radix2 (-46) * Q + bpow radix2 (-1066)).
Proof.
  intros g nx ny Q x y lo hi GX GY V LQ IX IY BV. destruct (C135_close g nx ny Q x y GX GY V LQ IX IY) as (i0 & i1 & j0 & j1 & r & BI & BJ & E & F & D).
  exists r. split; [exact E|]. split; [exact F|]. cbv zeta in D.
  pose proof (cell_ok _ _ _ _ _ GX (proj1 IX) BI) as CI. pose proof (cell_ok _ _ _ _ _ GY (proj1 IY) BJ) as CJ.
  pose proof (ratio_weight _ _ _ CI) as (_ & _ & T & _). pose proof (ratio_weight _ _ _ CJ) as (_ & _ & S & _).
  destruct BI as (I0 & I1 & _). destruct BJ as (J0 & J1 & _).
  pose proof (BV i0 j0 I0 J0) as V00. pose proof (BV i0 j1 I0 J1) as V01. pose proof (BV i1 j0 I1 J0) as V10. pose proof (BV i1 j1 I1 J1) as V11.
  set (eps := bpow radix2 (-46) * Q + bpow radix2 (-1066)) in *.
  set (p0 := real (f_value (g_x g) i0)) in *. set (p1 := real (f_value (g_x g) i1)) in *. set (q0 := real (f_value (g_y g) j0)) in *. set (q1 := real (f_value (g_y g) j1)) in *.
  set (t := (real x - p0) / (p1 - p0)) in *. set (s := (real y - q0) / (q1 - q0)) in *.
  set (v00 := real (g_value g i0 j0)) in *. set (v01 := real (g_value g i0 j1)) in *. set (v10 := real (g_value g i1 j0)) in *. set (v11 := real (g_value g i1 j1)) in *.
  assert (EQ : (v00 * (p1 - real x) * (q1 - real y) + v10 * (real x - p0) * (q1 - real y) + v01 * (p1 - real x) * (real y - q0) + v11 * (real x - p0) * (real y - q0)) / ((p1 - p0) * (q1 - q0)) =
    (1 - t) * (1 - s) * v00 + t * (1 - s) * v10 + (1 - t) * s * v01 + t * s * v11).
  { pose proof (bpow_gt_0 radix2 (-900)). pose proof (c_low _ _ _ CI) as L1. pose proof (c_low _ _ _ CJ) as L2. fold p0 p1 in L1. fold q0 q1 in L2. unfold t, s. field.
    split; intros Z; rewrite Z, Rabs_R0 in *; lra. }
  rewrite EQ in D. set (e := (1 - t) * (1 - s) * v00 + t * (1 - s) * v10 + (1 - t) * s * v01 + t * s * v11) in *.
  assert (W1 : 0 <= (1 - t) * (1 - s)) by (apply Rmult_le_pos; lra). assert (W2 : 0 <= t * (1 - s)) by (apply Rmult_le_pos; lra).
  assert (W3 : 0 <= (1 - t) * s) by (apply Rmult_le_pos; lra). assert (W4 : 0 <= t * s) by (apply Rmult_le_pos; lra).
  assert (K : forall w v, 0 <= w -> lo <= v <= hi -> w * lo <= w * v <= w * hi) by (intros w v HW HV; split; apply Rmult_le_compat_l; lra).
  pose proof (K _ _ W1 V00) as K1. pose proof (K _ _ W2 V10) as K2. pose proof (K _ _ W3 V01) as K3. pose proof (K _ _ W4 V11) as K4.
  assert (LE : lo <= e <= hi).
  { unfold e. replace lo with ((1 - t) * (1 - s) * lo + t * (1 - s) * lo + (1 - t) * s * lo + t * s * lo) by ring.
    replace hi with ((1 - t) * (1 - s) * hi + t * (1 - s) * hi + (1 - t) * s * hi + t * s * hi) at 2 by ring. lra. }
  pose proof (Rle_abs (real r - e)) as A1. pose proof (Rle_abs (- (real r - e))) as A2. rewrite Rabs_Ropp in A2. lra.
Qed.
Print Assumptions C135_range.

(** A constant field is not kept, and the result can exceed the largest value: 0.1 everywhere on the points 0 and 1 of both axes
    gives 0.10000000000000003 at (0.1, 0.1). *)
Lemma constant_computed : match f_regular (b_of_Z 0) (b_of_Z 1) 2 with
  | Ok a => match f_bivariate (FGrid a a (fun _ _ => near 1 10)) (near 1 10) (near 1 10) with
    | Ok (Some r) => finite r && finite (near 1 10) && b_ltb (near 1 10) r && finite (f_value a 0) && finite (f_value a 1) && negb (b_ltb (near 1 10) (f_value a 0)) && negb (b_ltb (f_value a 1) (near 1 10))
    | _ => false end
  | _ => false end = true.
Proof. vm_compute. reflexivity. Qed.
Lemma axis_01 : reasonable (b_of_Z 0) (b_of_Z 1) 2 1.
Proof.
  destruct of_0 as (F0 & E0). destruct of_1 as (F1 & E1). constructor; auto.
  - split; discriminate.
  - rewrite E0, E1. change (2 - 1)%Z with 1%Z. lra.
  - rewrite Rabs_R1. change 1 with (bpow radix2 0). apply bpow_le. discriminate.
  - rewrite Rabs_R1. change 1 with (bpow radix2 0). apply bpow_le. discriminate.
  - rewrite E0, Rabs_R0, Rabs_R1. change (2 ^ 44)%Z with 17592186044416%Z. lra.
Qed.
Theorem C135_constant_refuted : exists g v x y r, axis_of (g_x g) 2 /\ axis_of (g_y g) 2 /\ inside (g_x g) 2 x /\ inside (g_y g) 2 y /\
  (forall i j, g_value g i j = v) /\ finite v = true /\ f_bivariate g x y = Ok (Some r) /\ finite r = true /\ real v < real r.
Proof.
  pose proof constant_computed as P. destruct (C134_points _ _ _ _ axis_01) as (a & B & _). revert P. rewrite B.
  destruct (f_bivariate _ _ _) as [[r|]|w|w] eqn:E; [|discriminate|discriminate|discriminate]. intros P.
  repeat (apply andb_prop in P; destruct P as [P ?]). repeat match goal with H : negb _ = true |- _ => apply negb_true_iff in H end.
  assert (AX : axis_of a 2) by (exists (b_of_Z 0), (b_of_Z 1), 1; split; [exact axis_01|exact B]).
  assert (IN : inside a 2 (near 1 10)).
  { split; [assumption|]. change (2 - 1)%Z with 1%Z. left. unfold b_ltb in *. rewrite Bltb_correct in * by assumption.
    split; [destruct (Rlt_bool_spec (real (near 1 10)) (real (f_value a 0)))|destruct (Rlt_bool_spec (real (f_value a 1)) (real (near 1 10)))]; try discriminate; assumption. }
  exists (FGrid a a (fun _ _ => near 1 10)), (near 1 10), (near 1 10), (near 1 10), r. repeat (split; try assumption); try reflexivity; try apply IN.
  unfold b_ltb in *. match goal with H : Bltb (near 1 10) r = true |- _ => rewrite Bltb_correct in H by assumption; destruct (Rlt_bool_spec (real (near 1 10)) (real r)); [assumption|discriminate] end.
Qed.
Print Assumptions C135_constant_refuted.

(** A grid of the theorems: every degree, values i + j. *)
Theorem C135_ex : exists g, axis_of (g_x g) 360 /\ axis_of (g_y g) 360 /\ values_in g 360 360 1000 /\ inside (g_x g) 360 (b_of_Z 3) /\
  ~ inside (g_x g) 360 (b_of_Z 200).
Proof.
  destruct C134_ex as (G & _). destruct (C134_points _ _ _ _ G) as (a & B & SZ & FR & PT).
  assert (AX : axis_of a 360) by (exists (b_of_Z (-180)), (b_of_Z 179), 1; auto).
  exists (FGrid a a (fun i j => b_of_Z (i + j))). cbn [g_x g_y g_value].
  destruct (of_Z_ok (-180)) as (_ & E1); [discriminate|]. destruct (of_Z_ok 3) as (F3 & E3); [discriminate|]. destruct (of_Z_ok 200) as (F4 & E4); [discriminate|].
  assert (AB : forall v k e, Rabs (v - k) <= e -> k - e <= v <= k + e).
  { intros v k e H. pose proof (Rle_abs (v - k)). pose proof (Rle_abs (- (v - k))). rewrite Rabs_Ropp in H1. lra. }
  destruct (PT 0%Z ltac:(lia)) as (_ & P0). destruct (PT 359%Z ltac:(lia)) as (_ & P9). rewrite E1, Rabs_R1 in *. rewrite (Rabs_left (-180)) in * by lra.
  apply AB in P0. apply AB in P9.
  assert (SM : bpow radix2 (-49) <= / 1000000) by (change (bpow radix2 (-49)) with (/ 562949953421312); lra). pose proof (bpow_gt_0 radix2 (-49)).
  repeat (split; [exact AX|]). split; [|split].
  - intros i j I J. cbn [g_value]. destruct (of_Z_ok (i + j)) as (F & E). { rewrite Z.abs_eq by lia. change (2 ^ 53)%Z with 9007199254740992%Z. lia. }
    split; [exact F|]. rewrite E. rewrite <- abs_IZR. apply IZR_le. lia.
  - split; [exact F3|]. rewrite E3. change (360 - 1)%Z with 359%Z. left. lra.
  - intros (_ & BT). rewrite E4 in BT. change (360 - 1)%Z with 359%Z in BT. destruct BT as [[? ?]|[? ?]]; lra.
Qed.
