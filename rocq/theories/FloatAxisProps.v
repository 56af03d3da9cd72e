(** Theorems about evenly spaced axes in the arithmetic of the machine (property C134).

    [real x] is the real number a finite binary64 stands for; the statements compare what the axis answers with the exact
    points [start + i h], where [h = (stop - start) / (n - 1)] is the exact step. *)
From Coq Require Import ZArith Reals Lra Psatz.
From Flocq Require Import Core BinarySingleNaN.
From Verif Require Import Base FloatAxisModel FloatAxisProofs.
Open Scope R_scope.

(** Axes far from the limits of binary64: from 2 to 2^44 points, a first point at most 2^44 steps from zero. *)
Record reasonable (start stop : b64) (n : Z) (h : R) : Prop := Reasonable {
  r_start : finite start = true; r_stop : finite stop = true; r_size : (2 <= n <= 2 ^ 44)%Z;
  r_step : h = (real stop - real start) / IZR (n - 1);
  r_low : bpow radix2 (-890) <= Rabs h; r_high : Rabs h <= bpow radix2 890;
  r_near : Rabs (real start) <= IZR (2 ^ 44) * Rabs h }.
(** The same with a margin, for the proofs. *)
Record wide (start stop : b64) (n : Z) (h : R) : Prop := Wide {
  g_start : finite start = true; g_stop : finite stop = true; g_size : (2 <= n <= 2 ^ 45)%Z;
  g_step : h = (real stop - real start) / IZR (n - 1);
  g_low : bpow radix2 (-899) <= Rabs h; g_high : Rabs h <= bpow radix2 899;
  g_near : Rabs (real start) <= IZR (2 ^ 45) * Rabs h }.
Lemma widen : forall start stop n h, reasonable start stop n h -> wide start stop n h.
Proof.
  intros start stop n h [A B C D E F G]. constructor; auto.
  - change (2 ^ 44)%Z with 17592186044416%Z in C. change (2 ^ 45)%Z with 35184372088832%Z. lia.
  - eapply Rle_trans; [|exact E]. apply bpow_le. discriminate.
  - eapply Rle_trans; [exact F|]. apply bpow_le. discriminate.
  - eapply Rle_trans; [exact G|]. apply Rmult_le_compat_r; [apply Rabs_pos|]. apply IZR_le. discriminate.
Qed.

Lemma built : forall start stop n h a, wide start stop n h -> f_regular start stop n = Ok a ->
  well a /\ f_start a = start /\ f_size a = n /\ Rabs (real (f_step a) - h) <= 8 * U * Rabs h.
Proof.
  intros start stop n h a [FS FT N E L Hh NR] B.
  destruct (regular_ok start stop n h FS FT ltac:(change (2 ^ 45)%Z with 35184372088832%Z in N; change (2 ^ 46)%Z with 70368744177664%Z; lia)) as (a' & B' & W); auto.
  - rewrite E. field. apply IZR_neq. lia.
  - rewrite B in B'. injection B' as <-. exact W.
Qed.
Lemma h_pos : forall start stop n h, wide start stop n h -> 0 < Rabs h.
Proof. intros start stop n h [_ _ _ _ L _ _]. eapply Rlt_le_trans; [apply bpow_gt_0|exact L]. Qed.
Lemma step_bounds : forall s h, Rabs (s - h) <= 8 * U * Rabs h -> (1 - 8 * U) * Rabs h <= Rabs s <= (1 + 8 * U) * Rabs h.
Proof.
  intros s h H. split.
  - assert (Rabs h <= Rabs s + Rabs (h - s)) by (replace h with (s + (h - s)) at 1 by ring; apply Rabs_triang).
    rewrite (Rabs_minus_sym h s) in H0. lra.
  - replace s with (h + (s - h)) by ring. eapply Rle_trans; [apply Rabs_triang|]. lra.
Qed.
Lemma U2 : 16 * U = bpow radix2 (-49). Proof. change (bpow radix2 (-49)) with (/ 562949953421312). unfold U. lra. Qed.
Lemma UR : U = / 9007199254740992. Proof. reflexivity. Qed.

Lemma points_wide : forall start stop n h, wide start stop n h ->
  exists a, f_regular start stop n = Ok a /\ f_size a = n /\ f_front a = start /\
  forall i, (0 <= i < n)%Z -> finite (f_value a i) = true /\
    Rabs (real (f_value a i) - (real start + IZR i * h)) <= bpow radix2 (-49) * (Rabs (real start) + (IZR i + 1) * Rabs h).
Proof.
  intros start stop n h G. pose proof G as [FS FT N E L Hh NR].
  destruct (regular_ok start stop n h FS FT ltac:(change (2 ^ 45)%Z with 35184372088832%Z in N; change (2 ^ 46)%Z with 70368744177664%Z; lia)) as (a & B & _); auto. { rewrite E. field. apply IZR_neq. lia. }
  destruct (built _ _ _ _ _ G B) as (W & ST & SZ & SH). exists a. split; [exact B|]. split; [exact SZ|]. split; [exact ST|].
  intros i I. destruct (point_error a i W) as (F & x & EX & BX). { rewrite Z.abs_eq by lia. change (2 ^ 45)%Z with 35184372088832%Z in *. change (2 ^ 46)%Z with 70368744177664%Z. lia. }
  split; [exact F|]. rewrite EX, ST. set (s := real (f_step a)) in *.
  assert (I0 : 0 <= IZR i) by (apply IZR_le; lia).
  replace (real start + x * s - (real start + IZR i * h)) with ((x - IZR i) * s + IZR i * (s - h)) by ring.
  eapply Rle_trans; [apply Rabs_triang|]. rewrite !Rabs_mult, (Rabs_pos_eq (IZR i)) by exact I0.
  pose proof (step_pos a W) as TP. fold s in TP. pose proof U_pos.
  rewrite (Rabs_pos_eq (IZR i)) in BX by exact I0. rewrite ST in BX. fold s in BX.
  assert (Rabs (x - IZR i) * Rabs s <= 2 * U * (Rabs (real start) + (IZR i + 2) * Rabs s)).
  { eapply Rle_trans; [apply Rmult_le_compat_r; [lra|exact BX]|]. right. field. lra. }
  assert (IZR i * Rabs (s - h) <= IZR i * (8 * U * Rabs h)) by (apply Rmult_le_compat_l; assumption).
  destruct (step_bounds _ _ SH) as [_ S2]. fold s in S2. pose proof (h_pos _ _ _ _ G) as HP.
  assert (Rabs s <= 1.1 * Rabs h).
  { eapply Rle_trans; [exact S2|]. apply Rmult_le_compat_r; [lra|]. rewrite UR. lra. }
  assert ((IZR i + 2) * Rabs s <= (IZR i + 2) * (1.1 * Rabs h)) by (apply Rmult_le_compat_l; lra).
  rewrite <- U2. assert (0 <= Rabs (real start)) by apply Rabs_pos. assert (0 <= IZR i * Rabs h) by (apply Rmult_le_pos; lra).
  assert (2 * U * (Rabs (real start) + (IZR i + 2) * Rabs s) <= 2 * U * (Rabs (real start) + (IZR i + 2) * (1.1 * Rabs h))) by (apply Rmult_le_compat_l; lra).
  assert (0 <= U * Rabs (real start)) by (apply Rmult_le_pos; lra).
  assert (0 <= U * (IZR i * Rabs h)) by (apply Rmult_le_pos; lra).
  assert (0 <= U * Rabs h) by (apply Rmult_le_pos; lra). lra.
Qed.

(** The axis is built; its first point is [start], the others are the exact ones up to a few units in the last place (2^-49). *)
Theorem C134_points : forall start stop n h, reasonable start stop n h ->
  exists a, f_regular start stop n = Ok a /\ f_size a = n /\ f_front a = start /\
  forall i, (0 <= i < n)%Z -> finite (f_value a i) = true /\
    Rabs (real (f_value a i) - (real start + IZR i * h)) <= bpow radix2 (-49) * (Rabs (real start) + (IZR i + 1) * Rabs h).
Proof. intros start stop n h G. apply points_wide, widen, G. Qed.
Print Assumptions C134_points.

(** The points are in the order of the axis: no two points collapse. *)
Theorem C134_ordered : forall start stop n h a, reasonable start stop n h -> f_regular start stop n = Ok a ->
  forall i j, (0 <= i)%Z -> (i < j < n)%Z -> (real (f_value a j) - real (f_value a i)) * h > 0.
Proof.
  intros start stop n h a G B i j I J. destruct (built _ _ _ _ _ (widen _ _ _ _ G) B) as (W & ST & SZ & SH).
  pose proof (r_size _ _ _ _ G) as N. change (2 ^ 44)%Z with 17592186044416%Z in N.
  destruct (point_ok a i W) as (_ & x & EX & BX). { rewrite Z.abs_eq by lia. change (2 ^ 46)%Z with 70368744177664%Z. lia. }
  destruct (point_ok a j W) as (_ & y & EY & BY). { rewrite Z.abs_eq by lia. change (2 ^ 46)%Z with 70368744177664%Z. lia. }
  rewrite EX, EY. replace (_ + y * _ - (_ + x * _)) with ((y - x) * real (f_step a)) by ring.
  pose proof (h_pos _ _ _ _ (widen _ _ _ _ G)) as HP. set (s := real (f_step a)) in *.
  assert (D : 1 <= IZR j - IZR i) by (rewrite <- minus_IZR; apply IZR_le; lia).
  assert (YX : 0 < y - x).
  { pose proof (Rle_abs (IZR j - y)). pose proof (Rle_abs (x - IZR i)). rewrite Rabs_minus_sym in BY. lra. }
  assert (SHP : 0 < s * h).
  { assert (Rabs (s * h - h * h) <= 8 * U * (h * h)).
    { replace (s * h - h * h) with ((s - h) * h) by ring. rewrite Rabs_mult.
      replace (8 * U * (h * h)) with (8 * U * Rabs h * Rabs h).
      - apply Rmult_le_compat_r; [lra|exact SH].
      - rewrite Rmult_assoc, <- Rabs_mult. rewrite (Rabs_pos_eq (h * h)) by nra. reflexivity. }
    assert (0 < h * h). { replace (h * h) with (Rabs h * Rabs h) by (rewrite <- Rabs_mult; apply Rabs_pos_eq; nra). nra. }
    pose proof (Rle_abs (-(s * h - h * h))). rewrite Rabs_Ropp in H1.
    assert (8 * U * (h * h) <= / 2 * (h * h)) by (apply Rmult_le_compat_r; [lra|rewrite UR; lra]). lra. }
  replace ((y - x) * s * h) with ((y - x) * (s * h)) by ring. apply Rmult_gt_0_compat; assumption.
Qed.
Print Assumptions C134_ordered.

(** find_index: the nearest point of the exact axis, up to a tiny fraction of a step. [x]: position of the coordinate in exact
    steps.  Below the first index, beyond the last one: -1, or the end when [bounded]. *)
Theorem C134_find_index : forall start stop n h a c bounded, reasonable start stop n h -> f_regular start stop n = Ok a ->
  finite c = true -> let x := (real c - real start) / h in Rabs x <= IZR (2 ^ 61) ->
  exists r, Rabs (IZR r - x) <= / 2 + bpow radix2 (-48) * (Rabs x + 1) /\
    f_find_index a c bounded = Ok (if (r <? 0)%Z then if bounded then 0%Z else (-1)%Z else if (n <=? r)%Z then if bounded then (n - 1)%Z else (-1)%Z else r).
Proof.
  intros start stop n h a c bounded G B FC x X. destruct (built _ _ _ _ _ (widen _ _ _ _ G) B) as (W & ST & SZ & SH).
  pose proof (h_pos _ _ _ _ (widen _ _ _ _ G)) as HP. set (s := real (f_step a)) in *. pose proof (step_nonzero a W) as SNZ. fold s in SNZ.
  assert (HZ : h <> 0) by (intros Z; rewrite Z, Rabs_R0 in HP; lra).
  set (y := (real c - real start) / s). pose proof U_pos as UP.
  assert (YX : Rabs (y - x) <= 16 * U * Rabs x).
  { apply (abs_scale s); [exact SNZ|]. replace (s * (y - x)) with (x * (h - s)) by (unfold y, x; field; split; assumption).
    rewrite Rabs_mult, (Rabs_minus_sym h s). destruct (step_bounds _ _ SH) as [S1 _]. fold s in S1.
    apply Rle_trans with (Rabs x * (8 * U * Rabs h)); [apply Rmult_le_compat_l; [apply Rabs_pos|exact SH]|].
    replace (16 * U * Rabs x * Rabs s) with (Rabs x * (8 * U * (2 * Rabs s))) by ring.
    apply Rmult_le_compat_l; [apply Rabs_pos|]. apply Rmult_le_compat_l; [lra|].
    assert (/ 2 * Rabs h <= (1 - 8 * U) * Rabs h) by (apply Rmult_le_compat_r; [lra|rewrite UR; lra]). lra. }
  pose proof (Rabs_pos x) as PX.
  assert (YA : Rabs y <= 2 * Rabs x).
  { replace y with (x + (y - x)) by ring. eapply Rle_trans; [apply Rabs_triang|].
    assert (16 * U * Rabs x <= 1 * Rabs x) by (apply Rmult_le_compat_r; [lra|rewrite UR; lra]). lra. }
  destruct (index_ok a c y W FC) as (r & R & D).
  { rewrite ST. unfold y. fold s. field. exact SNZ. }
  { eapply Rle_trans; [exact YA|]. replace (IZR (2 ^ 62)) with (2 * IZR (2 ^ 61)) by (rewrite <- mult_IZR; reflexivity). lra. }
  exists r. split.
  - replace (IZR r - x) with ((IZR r - y) + (y - x)) by ring. eapply Rle_trans; [apply Rabs_triang|].
    replace (bpow radix2 (-48)) with (2 * (16 * U)) by (rewrite U2; change (bpow radix2 (-49)) with (/ 562949953421312); change (bpow radix2 (-48)) with (/ 281474976710656); lra).
    assert (8 * U * (Rabs y + 1) <= 8 * U * (2 * Rabs x + 1)) by (apply Rmult_le_compat_l; lra).
    assert (0 <= U * Rabs x) by (apply Rmult_le_pos; lra). lra.
  - unfold f_find_index. fold (raw a c). rewrite R. cbn [obind]. rewrite SZ. destruct (r <? 0)%Z; [reflexivity|]. destruct (n <=? r)%Z; reflexivity.
Qed.
Print Assumptions C134_find_index.

(** Every point of the axis is found at its own index. *)
Theorem C134_own_points : forall start stop n h a bounded, reasonable start stop n h -> f_regular start stop n = Ok a ->
  forall i, (0 <= i < n)%Z -> f_find_index a (f_value a i) bounded = Ok i.
Proof.
  intros start stop n h a bounded G B i I. destruct (built _ _ _ _ _ (widen _ _ _ _ G) B) as (W & ST & SZ & SH).
  pose proof (r_size _ _ _ _ G) as N. change (2 ^ 44)%Z with 17592186044416%Z in N. assert (IA : (Z.abs i <= 2 ^ 46)%Z) by (change (2 ^ 46)%Z with 70368744177664%Z; lia).
  destruct (point_ok a i W IA) as (F & x & EX & BX).
  unfold f_find_index. fold (raw a (f_value a i)). rewrite (index_near a (f_value a i) x i W F EX IA); [|lra].
  cbn [obind]. rewrite SZ. destruct (i <? 0)%Z eqn:A; [apply Z.ltb_lt in A; lia|]. destruct (n <=? i)%Z eqn:C; [apply Z.leb_le in C; lia|reflexivity].
Qed.
Print Assumptions C134_own_points.

(** ** Reversed axes *)
Lemma flip_well : forall start stop n h a, reasonable start stop n h -> f_regular start stop n = Ok a -> well (f_flip a).
Proof.
  intros start stop n h a G B. pose proof (widen _ _ _ _ G) as GW. destruct (built _ _ _ _ _ GW B) as (W & ST & SZ & SH).
  pose proof (r_size _ _ _ _ G) as N. change (2 ^ 44)%Z with 17592186044416%Z in N. pose proof U_pos as UP.
  destruct (point_ok a (n - 1) W) as (F & x & EX & BX). { rewrite Z.abs_eq by lia. change (2 ^ 46)%Z with 70368744177664%Z. lia. }
  pose proof (h_pos _ _ _ _ GW) as HP. destruct (step_bounds _ _ SH) as [S1 S2]. pose proof (step_pos a W) as TP.
  pose proof (r_near _ _ _ _ G) as NR. change (2 ^ 44)%Z with 17592186044416%Z in NR.
  constructor; cbn [f_flip f_start f_step f_inv f_size]; unfold f_back, b_opp; rewrite ?SZ.
  - exact F.
  - rewrite is_finite_Bopp. apply (w_step a W).
  - rewrite is_finite_Bopp. apply (w_inv a W).
  - change (2 ^ 46)%Z with 70368744177664%Z. lia.
  - rewrite B2R_Bopp, Rabs_Ropp. apply (w_low a W).
  - rewrite B2R_Bopp, Rabs_Ropp. apply (w_high a W).
  - rewrite B2R_Bopp, Rabs_Ropp. rewrite EX, ST. eapply Rle_trans; [apply Rabs_triang|]. rewrite Rabs_mult.
    change (2 ^ 46)%Z with 70368744177664%Z.
    assert (Rabs x <= 17592186044417).
    { replace x with (IZR (n - 1) + (x - IZR (n - 1))) by ring. eapply Rle_trans; [apply Rabs_triang|].
      rewrite (Rabs_pos_eq (IZR (n - 1))) by (apply IZR_le; lia). assert (IZR (n - 1) <= 17592186044415) by (apply IZR_le; lia). lra. }
    assert (/ 2 * Rabs h <= Rabs (real (f_step a))).
    { eapply Rle_trans; [|exact S1]. apply Rmult_le_compat_r; [lra|rewrite UR; lra]. }
    assert (Rabs x * Rabs (real (f_step a)) <= 17592186044417 * Rabs (real (f_step a))) by (apply Rmult_le_compat_r; lra). lra.
  - rewrite !B2R_Bopp. replace (- real (f_inv a) * - real (f_step a) - 1) with (real (f_inv a) * real (f_step a) - 1) by ring. apply (w_one a W).
Qed.

(** After [flip], the points of the axis as it was are found at the opposite indices; the new points are the old ones up to a few
    units in the last place, and they are found at their own indices. *)
Theorem C134_flip : forall start stop n h a, reasonable start stop n h -> f_regular start stop n = Ok a ->
  forall i bounded, (0 <= i < n)%Z ->
    f_find_index (f_flip a) (f_value a i) bounded = Ok (n - 1 - i)%Z /\
    f_find_index (f_flip a) (f_value (f_flip a) i) bounded = Ok i /\
    Rabs (real (f_value (f_flip a) (n - 1 - i)) - real (f_value a i)) <= bpow radix2 (-49) * (Rabs (real start) + (IZR n + 1) * Rabs h).
Proof.
  intros start stop n h a G B i bounded I. pose proof (widen _ _ _ _ G) as GW. destruct (built _ _ _ _ _ GW B) as (W & ST & SZ & SH).
  pose proof (flip_well _ _ _ _ _ G B) as WF.
  pose proof (r_size _ _ _ _ G) as N. change (2 ^ 44)%Z with 17592186044416%Z in N. pose proof U_pos as UP.
  assert (L1 : (Z.abs (n - 1) <= 2 ^ 46)%Z) by (rewrite Z.abs_eq by lia; change (2 ^ 46)%Z with 70368744177664%Z; lia).
  assert (L2 : (Z.abs i <= 2 ^ 46)%Z) by (rewrite Z.abs_eq by lia; change (2 ^ 46)%Z with 70368744177664%Z; lia).
  assert (L3 : (Z.abs (n - 1 - i) <= 2 ^ 46)%Z) by (rewrite Z.abs_eq by lia; change (2 ^ 46)%Z with 70368744177664%Z; lia).
  destruct (point_ok a (n - 1) W L1) as (_ & x & EX & BX). destruct (point_ok a i W L2) as (Fi & y & EY & BY).
  destruct (point_ok (f_flip a) i WF L2) as (Ff & z & EZ & BZ).
  assert (SF : f_start (f_flip a) = f_value a (n - 1)) by (cbn [f_flip f_start]; unfold f_back; rewrite SZ; reflexivity).
  assert (SS : real (f_step (f_flip a)) = - real (f_step a)) by (cbn [f_flip f_step]; unfold b_opp; apply B2R_Bopp).
  assert (SN : f_size (f_flip a) = n) by (cbn [f_flip f_size]; exact SZ).
  split; [|split].
  - unfold f_find_index. fold (raw (f_flip a) (f_value a i)).
    rewrite (index_near (f_flip a) (f_value a i) (x - y) (n - 1 - i) WF Fi); [|rewrite SF, SS, EX, EY; ring|exact L3|].
    + cbn [obind]. rewrite SN. destruct (n - 1 - i <? 0)%Z eqn:A; [apply Z.ltb_lt in A; lia|].
      destruct (n <=? n - 1 - i)%Z eqn:C; [apply Z.leb_le in C; lia|reflexivity].
    + rewrite minus_IZR. replace (x - y - (IZR (n - 1) - IZR i)) with ((x - IZR (n - 1)) + - (y - IZR i)) by ring.
      eapply Rle_trans; [apply Rabs_triang|]. rewrite Rabs_Ropp. lra.
  - unfold f_find_index. fold (raw (f_flip a) (f_value (f_flip a) i)).
    rewrite (index_near (f_flip a) (f_value (f_flip a) i) z i WF Ff EZ L2); [|lra].
    cbn [obind]. rewrite SN. destruct (i <? 0)%Z eqn:A; [apply Z.ltb_lt in A; lia|]. destruct (n <=? i)%Z eqn:C; [apply Z.leb_le in C; lia|reflexivity].
  - clear x EX BX y EY BY z EZ BZ.
    destruct (point_error a (n - 1) W L1) as (_ & x & EX & BX). destruct (point_error a i W L2) as (_ & y & EY & BY).
    destruct (point_error (f_flip a) (n - 1 - i) WF L3) as (_ & z & EZ & BZ).
    rewrite EZ, SF, SS, EX, EY. set (s := real (f_step a)) in *.
    replace (real (f_start a) + x * s + z * - s - (real (f_start a) + y * s)) with ((x - IZR (n - 1)) * s - (z - IZR (n - 1 - i)) * s - (y - IZR i) * s).
    2:{ rewrite !minus_IZR. ring. }
    rewrite SS, Rabs_Ropp in BZ. fold s in BZ. rewrite SF, EX, ST in BZ. rewrite ST in BX, BY. fold s in BX, BY.
    pose proof (step_pos a W) as TP. fold s in TP. set (T := Rabs s) in *.
    set (sg := Rabs (real start)) in *. assert (SG : 0 <= sg) by apply Rabs_pos.
    rewrite (Rabs_pos_eq (IZR (n - 1))) in BX by (apply IZR_le; lia). rewrite (Rabs_pos_eq (IZR i)) in BY by (apply IZR_le; lia).
    rewrite (Rabs_pos_eq (IZR (n - 1 - i))) in BZ by (apply IZR_le; lia).
    pose proof (h_pos _ _ _ _ GW) as HP. destruct (step_bounds _ _ SH) as [_ S2]. fold s in S2. fold T in S2.
    assert (T11 : T <= 1.01 * Rabs h). { eapply Rle_trans; [exact S2|]. apply Rmult_le_compat_r; [lra|rewrite UR; lra]. }
    assert (M : forall u k q, Rabs u <= 2 * U * (q / T + k + 2) -> Rabs (u * s) <= 2 * U * (q + (k + 2) * T)).
    { intros u k q H. rewrite Rabs_mult. fold T. eapply Rle_trans; [apply Rmult_le_compat_r; [lra|exact H]|]. right. field. lra. }
    apply M in BX, BY. pose proof (M _ _ _ BZ) as BZ'.
    assert (NN : 2 <= IZR n) by (apply IZR_le; lia). assert (I0 : 0 <= IZR i) by (apply IZR_le; lia). rewrite !minus_IZR in *.
    assert (XS : Rabs (real start + x * s) <= sg + (IZR n - 1) * T + 2 * U * (sg + (IZR n - 1 + 2) * T)).
    { replace (real start + x * s) with (real start + (IZR n - 1) * s + (x - (IZR n - 1)) * s) by ring.
      eapply Rle_trans; [apply Rabs_triang|]. apply Rplus_le_compat; [|exact BX].
      eapply Rle_trans; [apply Rabs_triang|]. rewrite Rabs_mult, (Rabs_pos_eq (IZR n - 1)) by lra. fold sg; fold T. lra. }
    assert (0 <= IZR n * T) by (apply Rmult_le_pos; lra).
    assert (XS2 : Rabs (real start + x * s) <= 1.1 * sg + 1.1 * (IZR n * T)).
    { eapply Rle_trans; [exact XS|].
      assert (2 * U * (sg + (IZR n - 1 + 2) * T) <= / 100 * (sg + (IZR n - 1 + 2) * T)).
      { apply Rmult_le_compat_r; [|rewrite UR; lra]. assert (0 <= (IZR n - 1 + 2) * T) by (apply Rmult_le_pos; lra). lra. }
      assert (2 * T <= IZR n * T) by (apply Rmult_le_compat_r; lra). lra. }
    unfold Rminus at 1 2. eapply Rle_trans; [apply Rabs_triang|]. eapply Rle_trans; [apply Rplus_le_compat_r; apply Rabs_triang|].
    rewrite !Rabs_Ropp.
    assert (Q : Rabs ((x - (IZR n - 1)) * s) + Rabs ((z - (IZR n - 1 - IZR i)) * s) + Rabs ((y - IZR i) * s) <=
      2 * U * (sg + (IZR n - 1 + 2) * T + (1.1 * sg + 1.1 * (IZR n * T) + (IZR n - 1 - IZR i + 2) * T) + (sg + (IZR i + 2) * T))).
    { assert (2 * U * (Rabs (real start + x * s) + (IZR n - 1 - IZR i + 2) * T) <= 2 * U * (1.1 * sg + 1.1 * (IZR n * T) + (IZR n - 1 - IZR i + 2) * T)) by (apply Rmult_le_compat_l; lra).
      lra. }
    eapply Rle_trans; [exact Q|]. rewrite <- U2.
    assert (IZR n * T <= IZR n * (1.01 * Rabs h)) by (apply Rmult_le_compat_l; lra).
    apply Rle_trans with (2 * U * (8 * (sg + (IZR n + 1) * Rabs h))); [|lra]. apply Rmult_le_compat_l; [lra|]. lra.
Qed.
Print Assumptions C134_flip.

(** ** Copies *)
(** The copy made by pickle exists, has the same number of points and the same first point, its points are those of the original
    up to a few units in the last place, and it finds the points of the original at their indices. *)
Theorem C134_pickle : forall start stop n h a, reasonable start stop n h -> f_regular start stop n = Ok a ->
  exists b, f_setstate (f_getstate a) = Ok b /\ f_size b = n /\ f_front b = f_front a /\
  forall i bounded, (0 <= i < n)%Z ->
    f_find_index b (f_value a i) bounded = Ok i /\ f_find_index b (f_value b i) bounded = Ok i /\
    Rabs (real (f_value b i) - real (f_value a i)) <= bpow radix2 (-46) * (Rabs (real start) + IZR n * Rabs h).
Proof.
  intros start stop n h a G B. pose proof (widen _ _ _ _ G) as GW. destruct (built _ _ _ _ _ GW B) as (W & ST & SZ & SH).
  destruct (C134_points _ _ _ _ G) as (a' & B' & _ & _ & PA). rewrite B in B'. injection B' as <-.
  pose proof (r_size _ _ _ _ G) as N. change (2 ^ 44)%Z with 17592186044416%Z in N. pose proof U_pos as UP.
  assert (L1 : (Z.abs (n - 1) <= 2 ^ 46)%Z) by (rewrite Z.abs_eq by lia; change (2 ^ 46)%Z with 70368744177664%Z; lia).
  destruct (point_ok a (n - 1) W L1) as (FB & X & EX & BX).
  set (s := real (f_step a)) in *. set (k := IZR (n - 1)) in *. assert (K1 : 1 <= k) by (apply IZR_le; lia).
  assert (KN : k = IZR n - 1) by (unfold k; rewrite minus_IZR; reflexivity).
  assert (K2 : k <= 17592186044415) by (unfold k; apply IZR_le; lia).
  set (g := (real (f_back a) - real start) / k).
  assert (FBK : f_back a = f_value a (n - 1)) by (unfold f_back; rewrite SZ; reflexivity).
  assert (GX : g = X / k * s). { unfold g. rewrite FBK, EX, ST. field. lra. }
  pose proof (h_pos _ _ _ _ GW) as HP. destruct (step_bounds _ _ SH) as [S1 S2]. pose proof (step_pos a W) as TP. fold s in S1, S2, TP.
  pose proof (step_nonzero a W) as SNZ. fold s in SNZ.
  assert (XK : 15 / 16 <= X / k <= 17 / 16).
  { assert (X - k <= / 16) by (eapply Rle_trans; [apply Rle_abs|exact BX]).
    assert (k - X <= / 16) by (eapply Rle_trans; [apply Rle_abs|rewrite Rabs_minus_sym; exact BX]).
    split; apply (Rmult_le_reg_r k); try lra; unfold Rdiv at 2; rewrite ?Rmult_assoc, ?Rinv_l by lra; try lra.
    unfold Rdiv at 1. rewrite Rmult_assoc, Rinv_l by lra. lra. }
  assert (AG : Rabs g = X / k * Rabs s) by (rewrite GX, Rabs_mult, (Rabs_pos_eq (X / k)) by lra; reflexivity).
  assert (GH : 0.9 * Rabs h <= Rabs g <= 1.1 * Rabs h).
  { assert (SA : 0.99 * Rabs h <= Rabs s) by (eapply Rle_trans; [|exact S1]; apply Rmult_le_compat_r; [lra|rewrite UR; lra]).
    assert (SB : Rabs s <= 1.01 * Rabs h) by (eapply Rle_trans; [exact S2|]; apply Rmult_le_compat_r; [lra|rewrite UR; lra]).
    rewrite AG. split.
    - apply Rle_trans with (15 / 16 * (0.99 * Rabs h)); [lra|]. apply Rmult_le_compat; lra.
    - apply Rle_trans with (17 / 16 * (1.01 * Rabs h)); [|lra]. apply Rmult_le_compat; lra. }
  assert (GB : wide start (f_back a) n g).
  { constructor.
    - apply (r_start _ _ _ _ G).
    - rewrite FBK. exact FB.
    - change (2 ^ 45)%Z with 35184372088832%Z. lia.
    - reflexivity.
    - apply Rle_trans with (bpow radix2 (-890) * / 2); [change (/ 2) with (bpow radix2 (-1)); rewrite <- bpow_plus; apply bpow_le; discriminate|].
      pose proof (r_low _ _ _ _ G). lra.
    - apply Rle_trans with (bpow radix2 890 * 2); [pose proof (r_high _ _ _ _ G); lra|]. change 2 with (bpow radix2 1). rewrite <- bpow_plus. apply bpow_le. discriminate.
    - pose proof (r_near _ _ _ _ G) as NR. change (2 ^ 44)%Z with 17592186044416%Z in NR. change (2 ^ 45)%Z with 35184372088832%Z. lra. }
  destruct (points_wide _ _ _ _ GB) as (b & BB & SZB & STB & PB). destruct (built _ _ _ _ _ GB BB) as (WB & _ & _ & SHB).
  exists b. split; [unfold f_setstate, f_getstate, f_front; rewrite ST, SZ; exact BB|]. split; [exact SZB|].
  split; [rewrite STB; unfold f_front; symmetry; exact ST|].
  intros i bounded I. assert (L2 : (Z.abs i <= 2 ^ 46)%Z) by (rewrite Z.abs_eq by lia; change (2 ^ 46)%Z with 70368744177664%Z; lia).
  assert (I0 : 0 <= IZR i) by (apply IZR_le; lia). assert (IK : IZR i <= k) by (unfold k; apply IZR_le; lia).
  assert (IN : forall c y, finite c = true -> real c = real (f_start b) + y * real (f_step b) -> Rabs (y - IZR i) <= / 4 -> f_find_index b c bounded = Ok i).
  { intros c y FC EC BC. unfold f_find_index. fold (raw b c). rewrite (index_near b c y i WB FC EC L2 BC). cbn [obind]. rewrite SZB.
    destruct (i <? 0)%Z eqn:A; [apply Z.ltb_lt in A; lia|]. destruct (n <=? i)%Z eqn:C; [apply Z.leb_le in C; lia|reflexivity]. }
  assert (STB' : f_start b = start) by exact STB.
  split; [|split].
  - destruct (point_ok a i W L2) as (Fi & y & EY & BY). fold s in EY. set (t := real (f_step b)) in *.
    pose proof (step_nonzero b WB) as TNZ. fold t in TNZ.
    apply (IN _ (y * s / t)); [exact Fi|rewrite STB', EY, ST; field; exact TNZ|].
    assert (GNZ : g <> 0) by (intros Z; rewrite Z, Rabs_R0 in GH; lra).
    (* y s / t = (y k / X) (g / t) *)
    set (dl := g / t - 1).
    assert (DL : Rabs dl <= 16 * U).
    { apply (abs_scale t); [exact TNZ|]. replace (t * dl) with (g - t) by (unfold dl; field; exact TNZ). rewrite Rabs_minus_sym.
      eapply Rle_trans; [exact SHB|]. destruct (step_bounds _ _ SHB) as [T1 _]. fold t in T1.
      assert (/ 2 * Rabs g <= Rabs t) by (eapply Rle_trans; [|exact T1]; apply Rmult_le_compat_r; [lra|rewrite UR; lra]).
      assert (8 * U * Rabs g <= 8 * U * (2 * Rabs t)) by (apply Rmult_le_compat_l; lra). lra. }
    set (rho := X / k) in *.
    assert (YE : y * s / t - IZR i = (y / rho - IZR i) + y / rho * dl).
    { unfold dl. rewrite GX. field. split; [exact TNZ|lra]. }
    assert (KR : k * (rho - 1) = X - k) by (unfold rho; field; lra).
    assert (RI : Rabs (IZR i * (rho - 1)) <= / 16).
    { rewrite Rabs_mult, (Rabs_pos_eq (IZR i)) by exact I0. eapply Rle_trans; [apply Rmult_le_compat_r; [apply Rabs_pos|exact IK]|].
      rewrite <- (Rabs_pos_eq k) by lra. rewrite <- Rabs_mult, KR. exact BX. }
    assert (YR : Rabs (y / rho - IZR i) <= 0.14).
    { apply (abs_scale rho); [lra|]. replace (rho * (y / rho - IZR i)) with ((y - IZR i) - IZR i * (rho - 1)) by (field; lra).
      unfold Rminus at 1. eapply Rle_trans; [apply Rabs_triang|]. rewrite Rabs_Ropp, (Rabs_pos_eq rho) by lra. lra. }
    assert (YA : Rabs (y / rho) <= 17592186044416).
    { replace (y / rho) with (IZR i + (y / rho - IZR i)) by ring. eapply Rle_trans; [apply Rabs_triang|]. rewrite (Rabs_pos_eq (IZR i)) by exact I0. lra. }
    rewrite YE. eapply Rle_trans; [apply Rabs_triang|]. rewrite Rabs_mult.
    assert (Rabs (y / rho) * Rabs dl <= 17592186044416 * (16 * U)) by (apply Rmult_le_compat; try apply Rabs_pos; assumption).
    rewrite UR in H. lra.
  - destruct (point_ok b i WB L2) as (Fi & y & EY & BY). apply (IN _ y); [exact Fi|exact EY|lra].
  - destruct (PA i I) as [_ P1]. destruct (PB i I) as [_ P2]. destruct (PA (n - 1)%Z ltac:(lia)) as [_ P3].
    replace (real (f_value b i) - real (f_value a i)) with
      ((real (f_value b i) - (real start + IZR i * g)) - (real (f_value a i) - (real start + IZR i * h)) + IZR i * (g - h)) by ring.
    eapply Rle_trans; [apply Rabs_triang|]. unfold Rminus at 1. eapply Rle_trans; [apply Rplus_le_compat_r; apply Rabs_triang|]. rewrite Rabs_Ropp.
    rewrite <- FBK in P3. fold k in P3.
    assert (GE : Rabs (IZR i * (g - h)) <= bpow radix2 (-49) * (Rabs (real start) + (k + 1) * Rabs h)).
    { eapply Rle_trans; [|exact P3]. replace (real (f_back a) - (real start + k * h)) with (k * (g - h)) by (unfold g; field; lra).
      rewrite !Rabs_mult, (Rabs_pos_eq (IZR i)), (Rabs_pos_eq k) by lra. apply Rmult_le_compat_r; [apply Rabs_pos|exact IK]. }
    replace (bpow radix2 (-46)) with (8 * bpow radix2 (-49)) by (change 8 with (bpow radix2 3); rewrite <- bpow_plus; reflexivity).
    set (e := bpow radix2 (-49)) in *. assert (EP : 0 < e) by apply bpow_gt_0.
    assert (0 <= Rabs (real start)) by apply Rabs_pos.
    assert ((IZR i + 1) * Rabs g <= IZR n * (1.1 * Rabs h)) by (apply Rmult_le_compat; try apply Rabs_pos; lra).
    assert ((IZR i + 1) * Rabs h <= IZR n * Rabs h) by (apply Rmult_le_compat_r; lra).
    assert (0 <= IZR n * Rabs h) by (apply Rmult_le_pos; lra).
    replace (k + 1) with (IZR n) in GE by lra.
    apply Rle_trans with (e * (Rabs (real start) + IZR n * (1.1 * Rabs h)) + e * (Rabs (real start) + IZR n * Rabs h) + e * (Rabs (real start) + IZR n * Rabs h)).
    { apply Rplus_le_compat; [|exact GE]. apply Rplus_le_compat.
      - eapply Rle_trans; [exact P2|]. apply Rmult_le_compat_l; lra.
      - eapply Rle_trans; [exact P1|]. apply Rmult_le_compat_l; lra. }
    rewrite <- !Rmult_plus_distr_l. rewrite (Rmult_comm 8 e), Rmult_assoc. apply Rmult_le_compat_l; lra.
Qed.
Print Assumptions C134_pickle.

(** ** Coordinates far from the axis *)
Lemma minus_fin : forall x y, finite (b_minus x y) = true -> finite x = true -> finite y = true ->
  Rabs (real (b_minus x y) - (real x - real y)) <= U * Rabs (real x - real y) + tiny.
Proof.
  intros x y F X Y. pose proof (@Bminus_correct 53 1024 b64_prec b64_emax mode_NE x y X Y) as H. cbn [round_mode] in H.
  destruct (Rlt_bool _ _) in H.
  - destruct H as (E & _). unfold b_minus. rewrite E. apply rnd_error.
  - destruct H as (E & _). exfalso. unfold b_minus in F. destruct (Bminus mode_NE x y); discriminate.
Qed.
Lemma mult_fin : forall x y, finite (b_mult x y) = true ->
  Rabs (real (b_mult x y) - real x * real y) <= U * Rabs (real x * real y) + tiny.
Proof.
  intros x y F. pose proof (@Bmult_correct 53 1024 b64_prec b64_emax mode_NE x y) as H. cbn [round_mode] in H.
  destruct (Rlt_bool _ _) in H.
  - destruct H as (E & _). unfold b_mult. rewrite E. apply rnd_error.
  - exfalso. unfold b_mult in F. destruct (Bmult mode_NE x y); try discriminate.
Qed.
Lemma raw_parts : forall a c, finite (raw a c) = true -> finite (b_minus c (f_start a)) = true /\ finite (f_inv a) = true.
Proof.
  intros a c. unfold raw, b_mult. destruct (b_minus c (f_start a)) as [| | |? ? ? ?], (f_inv a) as [| | |? ? ? ?]; cbn; intros H; split; try reflexivity; try discriminate.
Qed.
Lemma minus_parts : forall c y, finite (b_minus c y) = true -> finite y = true -> finite c = true.
Proof. intros c y. unfold b_minus. destruct c as [| | |? ? ? ?], y as [| | |? ? ? ?]; cbn; intros H; try reflexivity; try discriminate. Qed.

(** find_index of NaN, of an infinite number, or of a coordinate further than 2^64 steps from the first point is undefined
    behaviour, instead of -1 or the end of the axis: the conversion to an integer overflows. *)
Theorem C134_far_refuted : forall start stop n h a c bounded, reasonable start stop n h -> f_regular start stop n = Ok a ->
  (finite c = false \/ IZR (2 ^ 64) * Rabs h <= Rabs (real c - real start)) -> exists w, f_find_index a c bounded = UB w.
Proof.
  intros start stop n h a c bounded G B FAR. pose proof (widen _ _ _ _ G) as GW. destruct (built _ _ _ _ _ GW B) as (W & ST & SZ & SH).
  unfold f_find_index. fold (raw a c). destruct (to_int64 (std_round (raw a c))) as [r|w|w] eqn:R; [|unfold to_int64 in R; destruct (std_round (raw a c)); [destruct (_ && _)%bool in R|]; discriminate|exists w; reflexivity].
  exfalso. assert (F : finite (raw a c) = true).
  { unfold to_int64 in R. destruct (raw a c) as [| | |? ? ? ?]; cbn in R; try discriminate; reflexivity. }
  destruct (std_round_ok _ F) as (r' & R' & D). rewrite R' in R. cbn [to_int64] in R.
  destruct ((- 2 ^ 63 <=? r')%Z && (r' <? 2 ^ 63)%Z)%bool eqn:K; [|discriminate]. clear R. apply andb_prop in K. destruct K as [K1 K2].
  apply Z.leb_le in K1. apply Z.ltb_lt in K2. assert (RA : Rabs (IZR r') <= IZR (2 ^ 63)) by (rewrite <- abs_IZR; apply IZR_le; lia).
  change (2 ^ 63)%Z with 9223372036854775808%Z in RA. change (2 ^ 64)%Z with 18446744073709551616%Z in FAR.
  assert (QA : Rabs (real (raw a c)) <= 9223372036854775809).
  { replace (real (raw a c)) with (IZR r' + (real (raw a c) - IZR r')) by ring. eapply Rle_trans; [apply Rabs_triang|]. rewrite (Rabs_minus_sym (real _)). lra. }
  destruct (raw_parts _ _ F) as (F1 & F2). pose proof (minus_parts _ _ F1 (w_start a W)) as FC.
  destruct FAR as [N|FAR]; [congruence|].
  pose proof (minus_fin _ _ F1 FC (w_start a W)) as E1. pose proof (mult_fin _ _ F) as E2. fold (raw a c) in E2. rewrite ST in *.
  pose proof (step_pos a W) as TP. pose proof (step_nonzero a W) as SNZ. pose proof U_pos as UP. pose proof tiny_U as TU.
  set (s := real (f_step a)) in *. set (d := real (b_minus c start)) in *. set (V := real (f_inv a)) in *. set (X := real c - real start) in *.
  pose proof (w_one a W) as WO. fold s V in WO. destruct (step_bounds _ _ SH) as [S1 S2]. fold s in S1, S2.
  pose proof (h_pos _ _ _ _ GW) as HP.
  assert (SB : Rabs s <= 1.01 * Rabs h) by (eapply Rle_trans; [exact S2|]; apply Rmult_le_compat_r; [lra|rewrite UR; lra]).
  assert (XT : 18000000000000000000 * Rabs s <= Rabs X) by lra.
  pose proof (tiny_UT (Rabs s) (w_low a W)) as TT.
  assert (DX : 0.99 * Rabs X <= Rabs d).
  { assert (Rabs X <= Rabs d + Rabs (d - X)) by (replace X with (d + - (d - X)) at 1 by ring; eapply Rle_trans; [apply Rabs_triang|rewrite Rabs_Ropp; lra]).
    assert (U * Rabs X <= 0.001 * Rabs X) by (apply Rmult_le_compat_r; [apply Rabs_pos|rewrite UR; lra]).
    assert (U * Rabs s <= 1 * Rabs s) by (apply Rmult_le_compat_r; [lra|rewrite UR; lra]). lra. }
  assert (DV : 10000000000000000000 <= Rabs (d * V)).
  { apply (Rmult_le_reg_r (Rabs s)); [exact TP|]. rewrite <- Rabs_mult. replace (d * V * s) with (d + d * (V * s - 1)) by ring.
    assert (Rabs d <= Rabs (d + d * (V * s - 1)) + Rabs (d * (V * s - 1))).
    { replace d with ((d + d * (V * s - 1)) + - (d * (V * s - 1))) at 1 by ring. eapply Rle_trans; [apply Rabs_triang|rewrite Rabs_Ropp; lra]. }
    rewrite (Rabs_mult d (V * s - 1)) in H.
    assert (Rabs d * Rabs (V * s - 1) <= Rabs d * 0.01) by (apply Rmult_le_compat_l; [apply Rabs_pos|rewrite UR in WO; lra]). lra. }
  assert (Rabs (d * V) <= Rabs (real (raw a c)) + Rabs (real (raw a c) - d * V)).
  { replace (d * V) with (real (raw a c) + - (real (raw a c) - d * V)) at 1 by ring. eapply Rle_trans; [apply Rabs_triang|rewrite Rabs_Ropp; lra]. }
  assert (U * Rabs (d * V) <= 0.001 * Rabs (d * V)) by (apply Rmult_le_compat_r; [apply Rabs_pos|rewrite UR; lra]).
  rewrite UR in TU. lra.
Qed.
Print Assumptions C134_far_refuted.

(** ** What is not preserved *)
(** The binary64 nearest to p / q. *)
Definition near (p q : Z) : b64 := b_div (b_of_Z p) (b_of_Z q).
(** The copy of the axis [0.3, 0.9, 1.5, 2.1] made by pickle is not equal to it. *)
Lemma pickle_computed : match f_regular (near 3 10) (near 21 10) 4 with
  | Ok a => match f_setstate (f_getstate a) with Ok b => f_equal_axes a a && negb (f_equal_axes a b) | _ => false end
  | _ => false end = true.
Proof. vm_compute. reflexivity. Qed.
Theorem C134_pickle_refuted : exists start stop n a b, f_regular start stop n = Ok a /\ f_setstate (f_getstate a) = Ok b /\
  f_equal_axes a a = true /\ f_equal_axes a b = false.
Proof.
  exists (near 3 10), (near 21 10), 4%Z. pose proof pickle_computed as P. revert P.
  case (f_regular (near 3 10) (near 21 10) 4); [intros a|discriminate|discriminate].
  destruct (f_setstate (f_getstate a)) as [b|w|w] eqn:B; [|discriminate|discriminate].
  intros P. exists a, b. apply andb_prop in P. destruct P as [P1 P2]. apply negb_true_iff in P2. auto.
Qed.
Print Assumptions C134_pickle_refuted.
(** Flipping the axis [-0.9, 1.1] twice gives an axis that is not equal to it. *)
Lemma flip_computed : match f_regular (near (-9) 10) (near 11 10) 2 with
  | Ok a => negb (f_equal_axes a (f_flip (f_flip a))) | _ => false end = true.
Proof. vm_compute. reflexivity. Qed.
Theorem C134_flip_twice_refuted : exists start stop n a, f_regular start stop n = Ok a /\ f_equal_axes a (f_flip (f_flip a)) = false.
Proof.
  exists (near (-9) 10), (near 11 10), 2%Z. pose proof flip_computed as P. revert P.
  case (f_regular (near (-9) 10) (near 11 10) 2); [intros a|discriminate|discriminate].
  intros P. exists a. apply negb_true_iff in P. auto.
Qed.
Print Assumptions C134_flip_twice_refuted.
(** The last point of the axis [-2, -0.9] is not -0.9. *)
Lemma last_computed : match f_regular (near (-2) 1) (near (-9) 10) 2 with
  | Ok a => negb (b_eqb (f_back a) (near (-9) 10)) | _ => false end = true.
Proof. vm_compute. reflexivity. Qed.
Theorem C134_last_refuted : exists start stop n a, f_regular start stop n = Ok a /\ b_eqb (f_back a) stop = false.
Proof.
  exists (near (-2) 1), (near (-9) 10), 2%Z. pose proof last_computed as P. revert P.
  case (f_regular (near (-2) 1) (near (-9) 10) 2); [intros a|discriminate|discriminate].
  intros P. exists a. apply negb_true_iff in P. auto.
Qed.
Print Assumptions C134_last_refuted.

(** An axis of the theorems: every degree from -180 to 179. *)
Theorem C134_ex : reasonable (b_of_Z (-180)) (b_of_Z 179) 360 1 /\
  (exists a, f_regular (b_of_Z (-180)) (b_of_Z 179) 360 = Ok a /\ f_find_index a (near 79 2) false = Ok 220%Z /\
     f_find_index a (near (-361) 2) false = Ok (-1)%Z).
Proof.
  split.
  - destruct (of_Z_ok (-180)) as (F1 & E1); [discriminate|]. destruct (of_Z_ok 179) as (F2 & E2); [discriminate|].
    constructor; try assumption.
    + split; discriminate.
    + rewrite E1, E2. change (360 - 1)%Z with 359%Z. lra.
    + rewrite Rabs_R1. change 1 with (bpow radix2 0). apply bpow_le. discriminate.
    + rewrite Rabs_R1. change 1 with (bpow radix2 0). apply bpow_le. discriminate.
    + rewrite E1, Rabs_R1, Rabs_left by lra. change (2 ^ 44)%Z with 17592186044416%Z. lra.
  - assert (P : match f_regular (b_of_Z (-180)) (b_of_Z 179) 360 with
      | Ok a => match f_find_index a (near 79 2) false, f_find_index a (near (-361) 2) false with Ok i, Ok j => (i =? 220)%Z && (j =? -1)%Z | _, _ => false end
      | _ => false end = true) by (vm_compute; reflexivity).
    revert P. case (f_regular (b_of_Z (-180)) (b_of_Z 179) 360); [intros a|discriminate|discriminate].
    destruct (f_find_index a (near 79 2) false) as [i|w|w] eqn:A; try discriminate.
    destruct (f_find_index a (near (-361) 2) false) as [j|w|w] eqn:B; try discriminate.
    intros P. apply andb_prop in P. destruct P as [P1 P2]. apply Z.eqb_eq in P1, P2. subst. exists a. auto.
Qed.
