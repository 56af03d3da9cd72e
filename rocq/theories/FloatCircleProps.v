(** Theorems about longitudes in the arithmetic of the machine (property C137). *)
From Coq Require Import ZArith Reals Lra Psatz.
From Flocq Require Import Core BinarySingleNaN.
From Verif Require Import Base FloatAxisModel FloatAxisProofs FloatAxisProps FloatGridModel FloatGridProofs FloatGridProps FloatCircleModel FloatCircleProofs.
Open Scope R_scope.

(** The model of [std::remainder] is exact: [x] less a multiple of [y], at most half of [y]. *)
Theorem C137_remainder : forall x y, finite x = true -> finite y = true -> 0 < real y ->
  finite (b_std_remainder x y) = true /\ exists n, real (b_std_remainder x y) = real x - IZR n * real y /\ 2 * Rabs (real (b_std_remainder x y)) <= real y.
Proof. exact std_remainder_ok. Qed.
Print Assumptions C137_remainder.

(** Normalisation: between the origin and the rounded sum of the origin and 360, this limit included; the error is about that of
    the two additions. *)
Theorem C137_normalize : forall x mn, finite x = true -> finite mn = true -> Rabs (real x) <= bpow radix2 940 -> Rabs (real mn) <= bpow radix2 940 ->
  let r := b_normalize_angle x mn circle in
  finite r = true /\ real mn <= real r <= real (b_plus mn circle) /\
  exists turns, Rabs (real r - (real x - 360 * IZR turns)) <= bpow radix2 (-52) * (Rabs (real x) + Rabs (real mn) + 400).
Proof.
  intros x mn FX FM BX BM r. destruct (normalize_ok x mn FX FM BX BM) as (F & L & H & n & E). split; [exact F|]. split; [split; assumption|].
  exists n. replace (bpow radix2 (-52)) with (2 * U) by (rewrite U_eq; change 2 with (bpow radix2 1); rewrite <- bpow_plus; reflexivity). exact E.
Qed.
Print Assumptions C137_normalize.

Lemma axis_value : forall a n k, axis_of a n -> (0 <= k < n)%Z -> finite (f_value a k) = true /\ Rabs (real (f_value a k)) <= bpow radix2 940.
Proof.
  intros a n k (start & stop & h & G & B) K. destruct (C134_points _ _ _ _ G) as (a' & B' & _ & _ & P). rewrite B in B'. injection B' as <-.
  destruct (P k K) as (F & E). split; [exact F|]. pose proof (r_size _ _ _ _ G) as N. pose proof (r_near _ _ _ _ G) as NR. pose proof (r_high _ _ _ _ G) as HI.
  change (2 ^ 44)%Z with 17592186044416%Z in *. assert (K1 : 0 <= IZR k <= 17592186044416) by (split; apply IZR_le; lia).
  pose proof (Rabs_pos h) as HP. pose proof (Rabs_pos (real start)) as SP.
  assert (KH : 0 <= IZR k * Rabs h <= 17592186044416 * Rabs h) by (split; [apply Rmult_le_pos; lra|apply Rmult_le_compat_r; lra]).
  assert (E1 : Rabs (real start + IZR k * h) <= Rabs (real start) + IZR k * Rabs h).
  { eapply Rle_trans; [apply Rabs_triang|]. rewrite Rabs_mult, (Rabs_pos_eq (IZR k)) by lra. lra. }
  assert (E2 : Rabs (real (f_value a k)) <= Rabs (real (f_value a k) - (real start + IZR k * h)) + Rabs (real start + IZR k * h)).
  { replace (real (f_value a k)) with ((real (f_value a k) - (real start + IZR k * h)) + (real start + IZR k * h)) at 1 by ring. apply Rabs_triang. }
  assert (E3 : bpow radix2 (-49) * (Rabs (real start) + (IZR k + 1) * Rabs h) <= Rabs (real start) + (IZR k + 1) * Rabs h).
  { apply Rle_trans with (1 * (Rabs (real start) + (IZR k + 1) * Rabs h)); [|lra]. apply Rmult_le_compat_r; [|change 1 with (bpow radix2 0); apply bpow_le; discriminate].
    apply Rplus_le_le_0_compat; [lra|]. apply Rmult_le_pos; lra. }
  apply Rle_trans with (bpow radix2 50 * bpow radix2 890); [|rewrite <- bpow_plus; right; reflexivity].
  change (bpow radix2 50) with 1125899906842624. lra.
Qed.
Lemma asc_order : forall a n i j, axis_of a n -> f_ascending a = true -> (0 <= i)%Z -> (i < j < n)%Z -> real (f_value a i) < real (f_value a j).
Proof.
  intros a n i j GA A I J. pose proof GA as (start & stop & h & G & B). pose proof (C134_ordered _ _ _ _ _ G B) as O.
  destruct (built _ _ _ _ _ (widen _ _ _ _ G) B) as (_ & _ & SZ & _). pose proof (r_size _ _ _ _ G) as N.
  unfold f_ascending in A. rewrite SZ in A. destruct (Z.ltb_spec n 2) as [H|H]; [lia|].
  apply ltb_iff in A; try (apply (axis_value a n); [exact GA|lia]).
  assert (O1 := O 0%Z 1%Z ltac:(lia) ltac:(lia)). assert (O2 := O i j I J).
  assert (HP : 0 < h). { destruct (Rle_or_lt h 0) as [L|L]; [|exact L]. exfalso. assert (0 <= (real (f_value a 1) - real (f_value a 0)) * - h) by (apply Rmult_le_pos; lra). lra. }
  destruct (Rle_or_lt (real (f_value a j)) (real (f_value a i))) as [L|L]; [|exact L]. exfalso.
  assert (0 <= (real (f_value a i) - real (f_value a j)) * h) by (apply Rmult_le_pos; lra). lra.
Qed.
Lemma asc_next : forall a c i0 i1, f_ascending a = true -> f_find_indexes a c = Ok (Some (i0, i1)) -> (i1 = i0 + 1)%Z.
Proof.
  intros a c i0 i1 A H. unfold f_find_indexes in H. destruct (f_find_index a c false) as [i| |]; cbn [obind] in H; try discriminate. rewrite A in H.
  destruct (i =? -1)%Z; [discriminate|]. destruct (b_eqb _ _); [destruct (i =? f_size a - 1)%Z|destruct (b_ltb _ _)];
    match type of H with (if ?b then _ else _) = _ => destruct b; [injection H as <- <-; lia|discriminate] end.
Qed.
Lemma asc_cell : forall a n c, axis_of a n -> f_ascending a = true -> inside a n c ->
  exists i, f_find_indexes a c = Ok (Some (i, i + 1)%Z) /\ (0 <= i)%Z /\ (i + 1 < n)%Z /\ real (f_value a i) <= real c <= real (f_value a (i + 1)).
Proof.
  intros a n c G A I. destruct (C135_find_indexes _ _ _ G I) as (i0 & i1 & F & R0 & R1 & _ & BT). pose proof (asc_next _ _ _ _ A F) as ->.
  exists i0. split; [exact F|]. split; [lia|]. split; [lia|]. pose proof (asc_order a n i0 (i0 + 1) G A ltac:(lia) ltac:(lia)). destruct BT; lra.
Qed.
Lemma c_min_asc : forall a, f_ascending (c_axis a) = true -> c_min a = f_value (c_axis a) 0.
Proof. intros a A. unfold c_min. rewrite A. reflexivity. Qed.

(** In the range of an ascending axis nothing is normalised: the results are those of an axis that is not an angle (C135). *)
Theorem C137_in_range : forall g n x y, let a := c_axis (cg_x g) in
  axis_of a n -> f_ascending a = true -> inside a n x -> real x < real (b_plus (f_value a 0) circle) ->
  c_find_indexes (cg_x g) x = f_find_indexes a x /\
  c_bivariate g x y = f_bivariate (FGrid a (cg_y g) (cg_value g)) x y.
Proof.
  intros g n x y a G A I HI. pose proof I as (FX & BT). destruct (asc_cell _ _ _ G A I) as (i & F & I0 & I1 & LO & UP).
  assert (N : c_normalize (cg_x g) x = x).
  { unfold c_normalize. rewrite (c_min_asc _ A). fold a. destruct (axis_value a n 0 G ltac:(lia)) as (F0 & B0). apply normalize_id; auto.
    destruct (Z.eq_dec i 0) as [->|NZ]; [exact LO|]. pose proof (asc_order a n 0 i G A ltac:(lia) ltac:(lia)). lra. }
  assert (E : c_find_indexes (cg_x g) x = f_find_indexes a x).
  { fold a in F. rewrite F. apply c_find_indexes_id; auto. }
  split; [exact E|]. unfold c_bivariate, f_bivariate. rewrite E. cbn [g_x g_y g_value]. rewrite F. cbn [obind].
  destruct (f_find_indexes (cg_y g) y) as [[[j0 j1]|]| |]; cbn [obind]; try reflexivity.
  fold a. replace (c_normalize_from (cg_x g) x (f_value a i)) with x; [reflexivity|]. symmetry.
  destruct (axis_value a n i G ltac:(lia)) as (Fi & Bi). destruct (axis_value a n 0 G ltac:(lia)) as (F0 & B0). apply normalize_id; auto.
  eapply Rlt_le_trans; [exact HI|]. destruct of_circle as (FC & EC).
  assert (BB : forall v, Rabs v <= bpow radix2 940 -> Rabs (v + 360) <= bpow radix2 1000).
  { intros v H. eapply Rle_trans; [apply Rabs_triang|]. rewrite (Rabs_pos_eq 360) by lra. apply Rle_trans with (2 * bpow radix2 940).
    - assert (360 <= bpow radix2 940). { apply Rle_trans with (bpow radix2 9); [change (bpow radix2 9) with 512; lra|apply bpow_le; discriminate]. } lra.
    - change 2 with (bpow radix2 1). rewrite <- bpow_plus. apply bpow_le. discriminate. }
  destruct (plus_rnd _ circle F0 FC) as (_ & ->); [rewrite EC; apply BB; exact B0|]. destruct (plus_rnd _ circle Fi FC) as (_ & ->); [rewrite EC; apply BB; exact Bi|].
  apply rnd_le. rewrite EC. destruct (Z.eq_dec i 0) as [->|NZ]; [lra|]. pose proof (asc_order a n 0 i G A ltac:(lia) ltac:(lia)). lra.
Qed.
Print Assumptions C137_in_range.

(** A longitude any number of turns away, in the cell [i] of an ascending axis, not too close to its limits: the result is, up to a few
    units in the last place of the largest value, the exact interpolation at a longitude [z] that differs from the given one by
    whole turns and by the rounding of the normalisation. *)
Theorem C137_turns : forall g nx ny Q x y i turns, let a := c_axis (cg_x g) in let b := cg_y g in
  axis_of a nx -> f_ascending a = true -> c_angle (cg_x g) = true -> axis_of b ny -> inside b ny y ->
  values_in (FGrid a b (cg_value g)) nx ny Q -> Q <= bpow radix2 990 ->
  finite x = true -> Rabs (real x) <= bpow radix2 940 -> (0 <= i)%Z -> (i + 1 < nx)%Z -> real (f_value a (i + 1)) <= real (f_value a 0) + 360 ->
  let e := bpow radix2 (-50) * (Rabs (real x) + Rabs (real (f_value a 0)) + Rabs (real (f_value a i)) + 400) in
  real (f_value a i) + e <= real x - 360 * IZR turns <= real (f_value a (i + 1)) - e ->
  exists r z j0 j1, c_bivariate g x y = Ok (Some r) /\ finite r = true /\ Rabs (z - (real x - 360 * IZR turns)) <= e /\ bracket b ny y j0 j1 /\
    Rabs (real r - exact_bilinear z (real y) (real (f_value a i)) (real (f_value b j0)) (real (f_value a (i + 1))) (real (f_value b j1))
       (real (cg_value g i j0)) (real (cg_value g i j1)) (real (cg_value g (i + 1) j0)) (real (cg_value g (i + 1) j1))) <= bpow radix2 (-46) * Q + bpow radix2 (-1066).
Proof.
  intros g nx ny Q x y i turns a b GA A ANG GB IY V LQ FX BX I0 I1 LIM e Z.
  destruct (axis_value a nx 0 GA ltac:(lia)) as (F0 & B0). destruct (axis_value a nx i GA ltac:(lia)) as (Fi & Bi). destruct (axis_value a nx (i + 1) GA ltac:(lia)) as (Fj & Bj).
  pose proof U_pos as UP. pose proof (Rabs_pos (real x)) as PX. pose proof (Rabs_pos (real (f_value a 0))) as P0. pose proof (Rabs_pos (real (f_value a i))) as Pi.
  assert (E8 : bpow radix2 (-50) = 8 * U) by (rewrite U_eq; change 8 with (bpow radix2 3); rewrite <- bpow_plus; reflexivity).
  assert (M0 : 0 <= U * Rabs (real x)) by (apply Rmult_le_pos; lra). assert (M1 : 0 <= U * Rabs (real (f_value a 0))) by (apply Rmult_le_pos; lra).
  assert (M2 : 0 <= U * Rabs (real (f_value a i))) by (apply Rmult_le_pos; lra).
  assert (D0 : 4 * delta x (f_value a 0) <= e) by (unfold delta, e; rewrite E8; lra).
  assert (Di : 4 * delta x (f_value a i) <= e) by (unfold delta, e; rewrite E8; lra).
  assert (O : real (f_value a 0) <= real (f_value a i)).
  { destruct (Z.eq_dec i 0) as [->|NZ]; [lra|]. pose proof (asc_order a nx 0 i GA A ltac:(lia) ltac:(lia)). lra. }
  set (z0 := real x - 360 * IZR turns) in *.
  destruct (normalize_turns (cg_x g) x (f_value a 0) turns e ANG FX F0 BX B0 D0) as (FR & RR & RE); [fold z0; lra|]. fold z0 in RE.
  destruct (normalize_turns (cg_x g) x (f_value a i) turns e ANG FX Fi BX Bi Di) as (FS & RS & SE); [fold z0; lra|]. fold z0 in SE.
  assert (NZ : c_normalize (cg_x g) x = c_normalize_from (cg_x g) x (f_value a 0)) by (unfold c_normalize; rewrite (c_min_asc _ A); reflexivity).
  set (r0 := c_normalize_from (cg_x g) x (f_value a 0)) in *. set (s := c_normalize_from (cg_x g) x (f_value a i)) in *.
  assert (AB : forall u v, Rabs u <= v -> - v <= u <= v).
  { intros u v H. pose proof (Rle_abs u). pose proof (Rle_abs (- u)) as H'. rewrite Rabs_Ropp in H'. lra. }
  pose proof (AB _ _ RE) as RB. pose proof (AB _ _ SE) as SB.
  assert (PD : 0 < delta x (f_value a 0)) by (unfold delta; apply Rmult_lt_0_compat; lra). assert (PDi : 0 < delta x (f_value a i)) by (unfold delta; apply Rmult_lt_0_compat; lra).
  assert (CR : real (f_value a i) < real r0 < real (f_value a (i + 1))) by lra.
  assert (IN : inside a nx r0).
  { split; [exact FR|]. left. split; [lra|]. destruct (Z.eq_dec (i + 1) (nx - 1)) as [<-|NE]; [lra|]. pose proof (asc_order a nx (i + 1) (nx - 1) GA A ltac:(lia) ltac:(lia)). lra. }
  destruct (asc_cell _ _ _ GA A IN) as (k & FK & K0 & K1 & KB).
  assert (k = i) as ->.
  { destruct (Z.lt_trichotomy k i) as [L|[L|L]]; [exfalso|exact L|exfalso].
    - destruct (Z.eq_dec (k + 1) i) as [EQ|NE]; [rewrite EQ in KB; lra|]. pose proof (asc_order a nx (k + 1) i GA A ltac:(lia) ltac:(lia)). lra.
    - destruct (Z.eq_dec (i + 1) k) as [EQ|NE]; [rewrite EQ in CR; lra|]. pose proof (asc_order a nx (i + 1) k GA A ltac:(lia) ltac:(lia)). lra. }
  assert (NN : c_normalize (cg_x g) r0 = r0).
  { unfold c_normalize. rewrite (c_min_asc _ A). fold a. apply normalize_id; auto; lra. }
  assert (FI : c_find_indexes (cg_x g) x = Ok (Some (i, i + 1)%Z)).
  { rewrite <- (c_find_indexes_id (cg_x g) r0 (i, i + 1)%Z NN FK). unfold c_find_indexes, c_find_index. rewrite NZ, !NN. reflexivity. }
  destruct (C135_find_indexes _ _ _ GB IY) as (j0 & j1 & FJ & BJ). pose proof (cell_ok _ _ _ _ _ GB (proj1 IY) BJ) as CJ.
  assert (CI : cell1 s (f_value a i) (f_value a (i + 1))).
  { apply (cell_ok a nx); auto. split; [lia|]. split; [lia|]. split; [left; lia|]. left. lra. }
  pose proof BJ as (J0 & J1 & _).
  destruct (V i j0 ltac:(lia) J0) as (F00 & B00). destruct (V i j1 ltac:(lia) J1) as (F01 & B01). destruct (V (i + 1)%Z j0 ltac:(lia) J0) as (F10 & B10). destruct (V (i + 1)%Z j1 ltac:(lia) J1) as (F11 & B11).
  cbn [g_value] in *.
  pose proof (bilinear_close s y _ _ _ _ (cg_value g i j0) (cg_value g i j1) (cg_value g (i + 1) j0) (cg_value g (i + 1) j1) Q CI CJ) as H. cbv zeta in H. destruct H as (FF & HE); auto.
  unfold c_bivariate. rewrite FI. fold b. rewrite FJ. cbn [obind]. fold a. fold s.
  eexists. exists (real s), j0, j1. split; [reflexivity|]. split; [exact FF|]. split; [|split; [exact BJ|]].
  - eapply Rle_trans; [exact SE|]. lra.
  - eapply Rle_trans; [exact HE|]. right. f_equal.
    + f_equal. replace 128 with (bpow radix2 7) by reflexivity. rewrite U_eq, <- bpow_plus. reflexivity.
    + unfold tiny. replace 16 with (bpow radix2 4) by reflexivity. rewrite <- bpow_plus. reflexivity.
Qed.
Print Assumptions C137_turns.

Lemma ok_inj : forall (A : Type) (x y : A), Ok x = Ok y -> x = y.
Proof. intros A x y H. exact (f_equal (fun o => match o with Ok v => v | _ => x end) H). Qed.

(** The last cell of a circle: the answer is the last and the first points, from any number of turns away.  An axis that is not a
    full circle has no answer there. *)
Lemma outside_next : forall a n x, f_size (c_axis a) = n -> (2 <= n)%Z -> f_ascending (c_axis a) = true -> c_normalize a (c_normalize a x) = c_normalize a x ->
  f_find_indexes (c_axis a) (c_normalize a x) = Ok None -> c_find_indexes a x = Ok (if c_circle a then Some ((n - 1)%Z, 0%Z) else None).
Proof.
  intros a n x SZ N A I H. unfold c_find_indexes, c_find_index. rewrite I. set (z := c_normalize a x) in *. unfold f_find_indexes in H. rewrite A in *. rewrite SZ in *.
  assert (RG : forall i, f_find_index (c_axis a) z false = Ok i -> i = (-1)%Z \/ (0 <= i < n)%Z).
  { intros i E. unfold f_find_index in E. destruct (to_int64 _) as [j| |]; cbn [obind] in E; try discriminate. rewrite SZ in E.
    destruct (Z.ltb_spec j 0); [apply ok_inj in E; auto|]. destruct (Z.leb_spec n j); [apply ok_inj in E; auto|]. apply ok_inj in E. subst j. right. lia. }
  destruct (f_find_index (c_axis a) z false) as [i| |]; cbn [obind] in *; try discriminate. destruct (RG i eq_refl) as [->|R]; [reflexivity|].
  destruct (Z.eqb_spec i (-1)) as [E|E]; [lia|]. clear RG.
  assert (OK : forall i j : Z, (0 <= i < n)%Z -> (0 <= j < n)%Z -> ((0 <=? i)%Z && (i <? n)%Z && (0 <=? j)%Z && (j <? n)%Z)%bool = true) by lia.
  destruct (b_eqb (b_minus z (f_value (c_axis a) i)) (b_of_Z 0)).
  - exfalso. destruct (Z.eqb_spec i (n - 1)); rewrite OK in H by lia; discriminate.
  - destruct (b_ltb (b_minus z (f_value (c_axis a) i)) (b_of_Z 0)).
    + destruct (Z.eq_dec i 0) as [->|NZ]; [|exfalso; rewrite OK in H by lia; discriminate]. destruct (c_circle a); [|reflexivity].
      replace ((0 - 1) mod n)%Z with (n - 1)%Z by (replace (0 - 1)%Z with (n - 1 + (-1) * n)%Z by ring; rewrite Z.mod_add by lia; symmetry; apply Z.mod_small; lia).
      rewrite OK by lia. reflexivity.
    + destruct (Z.eq_dec i (n - 1)) as [->|NZ]; [|exfalso; rewrite OK in H by lia; discriminate]. destruct (c_circle a).
      * replace (n - 1 + 1)%Z with n by ring. rewrite Z.mod_same by lia. rewrite OK by lia. reflexivity.
      * replace (((0 <=? n - 1) && (n - 1 <? n) && (0 <=? n - 1 + 1) && (n - 1 + 1 <? n))%Z%bool) with false by lia. reflexivity.
Qed.
Theorem C137_seam : forall a n x turns, let v k := real (f_value (c_axis a) k) in
  axis_of (c_axis a) n -> f_ascending (c_axis a) = true -> c_angle a = true -> 1 <= IZR (2 ^ 48) * (v 1%Z - v 0%Z) ->
  finite x = true -> Rabs (real x) <= bpow radix2 940 ->
  let e := bpow radix2 (-50) * (Rabs (real x) + Rabs (v 0%Z) + 400) in
  v (n - 1)%Z + e <= real x - 360 * IZR turns <= v 0%Z + 360 - e ->
  c_find_indexes a x = Ok (if c_circle a then Some ((n - 1)%Z, 0%Z) else None).
Proof.
  intros a n x turns v GA A ANG ST FX BX e Z. pose proof GA as (start & stop & h & G & B). pose proof (widen _ _ _ _ G) as GW.
  destruct (built _ _ _ _ _ GW B) as (W & SS & SZ & SH). pose proof (r_size _ _ _ _ G) as N. change (2 ^ 44)%Z with 17592186044416%Z in N.
  destruct (axis_value _ n 0 GA ltac:(lia)) as (F0 & B0). pose proof U_pos as UP. pose proof (Rabs_pos (real x)) as PX. pose proof (Rabs_pos (v 0%Z)) as P0.
  assert (E8 : bpow radix2 (-50) = 8 * U) by (rewrite U_eq; change 8 with (bpow radix2 3); rewrite <- bpow_plus; reflexivity).
  assert (M0 : 0 <= U * Rabs (real x)) by (apply Rmult_le_pos; lra). assert (M1 : 0 <= U * Rabs (v 0%Z)) by (apply Rmult_le_pos; lra).
  assert (D0 : 4 * delta x (f_value (c_axis a) 0) <= e) by (unfold delta, e; fold (v 0%Z); rewrite E8; lra).
  assert (PD : 0 < delta x (f_value (c_axis a) 0)) by (unfold delta; fold (v 0%Z); apply Rmult_lt_0_compat; lra).
  pose proof (asc_order _ n 0 (n - 1) GA A ltac:(lia) ltac:(lia)) as O. fold (v 0%Z) (v (n - 1)%Z) in O.
  destruct (normalize_turns a x (f_value (c_axis a) 0) turns e ANG FX F0 BX B0 D0) as (FR & RR & RE); [fold (v 0%Z); lra|].
  assert (NZ : c_normalize a x = c_normalize_from a x (f_value (c_axis a) 0)) by (unfold c_normalize; rewrite (c_min_asc _ A); reflexivity).
  rewrite <- NZ in FR, RR, RE. set (z := c_normalize a x) in *. fold (v 0%Z) in RR.
  pose proof (Rle_abs (real z - (real x - 360 * IZR turns))) as R1. pose proof (Rle_abs (- (real z - (real x - 360 * IZR turns)))) as R2. rewrite Rabs_Ropp in R2.
  apply (outside_next a n x SZ); [lia|exact A| |].
  { fold z. unfold c_normalize. rewrite (c_min_asc _ A). apply normalize_id; auto; fold (v 0%Z); lra. }
  fold z. apply (find_indexes_none start stop n h); auto.
  - destruct (step_bounds _ _ SH) as [S1 S2]. pose proof (h_pos _ _ _ _ GW) as HP. set (s := real (f_step (c_axis a))) in *.
    destruct (point_ok (c_axis a) 0 W) as (_ & y0 & Y0 & A0); [discriminate|]. destruct (point_ok (c_axis a) 1 W) as (_ & y1 & Y1 & A1); [discriminate|].
    rewrite SS in Y0, Y1. fold s in Y0, Y1. fold (v 0%Z) in Y0. fold (v 1%Z) in Y1.
    assert (AB : forall u v, Rabs u <= v -> - v <= u <= v).
    { intros p q H. pose proof (Rle_abs p). pose proof (Rle_abs (- p)) as H'. rewrite Rabs_Ropp in H'. lra. }
    apply AB in A0, A1. pose proof (Rabs_pos s) as SP.
    assert (V1 : v 1%Z - v 0%Z <= 2 * Rabs s).
    { rewrite Y0, Y1. replace (real start + y1 * s - (real start + y0 * s)) with ((y1 - y0) * s) by ring. eapply Rle_trans; [apply Rle_abs|]. rewrite Rabs_mult.
      apply Rmult_le_compat_r; [exact SP|]. rewrite Rabs_pos_eq by lra. lra. }
    assert (HS : Rabs s <= 2 * Rabs h). { assert ((1 + 8 * U) * Rabs h <= 2 * Rabs h) by (apply Rmult_le_compat_r; [lra|rewrite UR; lra]). lra. }
    assert (V0 : Rabs (v 0%Z - real start) <= Rabs s).
    { rewrite Y0. replace (real start + y0 * s - real start) with (y0 * s) by ring. rewrite Rabs_mult. apply Rle_trans with (1 * Rabs s); [|lra]. apply Rmult_le_compat_r; [exact SP|]. apply Rabs_le. lra. }
    assert (Q : Rabs (real z - real start) <= 360 + Rabs s).
    { replace (real z - real start) with ((real z - v 0%Z) + (v 0%Z - real start)) by ring. eapply Rle_trans; [apply Rabs_triang|]. rewrite (Rabs_pos_eq (real z - v 0%Z)) by lra. lra. }
    eapply Rle_trans; [exact Q|]. change (2 ^ 48)%Z with 281474976710656%Z in ST. change (2 ^ 60)%Z with 1152921504606846976%Z. lra.
  - intros [H|H]; fold (v 0%Z) (v (n - 1)%Z) in H; lra.
Qed.
Print Assumptions C137_seam.

(** ** Refutations
    [north]: axis 0, 1, … 359 of longitudes; [peak j]: a grid of zeros but for ones at the longitude [j]. *)
Definition north (start stop : b64) (n : Z) : outcome caxis :=
  obind (f_regular start stop n) (fun a => Ok (c_make a true (near 1 1000000))).
Definition peak (start stop : b64) (n j : Z) : outcome cgrid :=
  obind (north start stop n) (fun x => obind (f_regular (b_of_Z 0) (b_of_Z 1) 2) (fun y =>
    Ok (CGrid x y (fun i _ => if (i =? j)%Z then b_of_Z 1 else b_of_Z 0)))).
Definition answer (start stop : b64) (n j : Z) (x : b64) : option b64 :=
  match obind (peak start stop n j) (fun g => c_bivariate g x (b_of_Z 0)) with Ok r => r | _ => None end.
Definition larger (r : option b64) (bound : Z) : bool := match r with Some v => finite v && b_ltb (b_of_Z bound) v | None => false end.

Lemma below_computed : larger (answer (b_of_Z 0) (b_of_Z 359) 360 1 (near (-1) 1000000000000000)) 359 = true.
Proof. vm_compute. reflexivity. Qed.
Lemma far_computed : larger (answer (near 5 100) (near 35995 100) 3600 1526 (near 51255 100)) 3599 = true.
Proof. vm_compute. reflexivity. Qed.
Lemma larger_spec : forall start stop n j x bound, (Z.abs bound <= 2 ^ 53)%Z -> larger (answer start stop n j x) bound = true ->
  exists g r, peak start stop n j = Ok g /\ c_bivariate g x (b_of_Z 0) = Ok (Some r) /\ finite r = true /\ IZR bound < real r.
Proof.
  intros start stop n j x bound B H. unfold answer in H. destruct (peak start stop n j) as [g| |]; cbn [obind] in H; try discriminate.
  destruct (c_bivariate g x (b_of_Z 0)) as [[r|]| |] eqn:E; try discriminate. cbn [larger] in H. apply andb_prop in H as [F L].
  exists g, r. split; [reflexivity|]. split; [exact E|]. split; [exact F|]. destruct (of_Z_ok bound B) as (FB & EB). rewrite <- EB. apply ltb_iff; auto.
Qed.
Lemma peak_values : forall start stop n j g i k, peak start stop n j = Ok g -> 0 <= real (cg_value g i k) <= 1.
Proof.
  intros start stop n j g i k H. unfold peak, north in H. destruct (f_regular start stop n) as [a| |]; cbn [obind] in H; try discriminate.
  destruct (f_regular (b_of_Z 0) (b_of_Z 1) 2) as [b| |]; cbn [obind] in H; try discriminate. apply ok_inj in H. subst g. cbn [cg_value].
  destruct of_0 as (_ & E0). destruct of_1 as (_ & E1). destruct (i =? j)%Z; rewrite ?E0, ?E1; lra.
Qed.

(** A longitude just below the first one: it is normalised to the first longitude plus 360, and the interpolation extrapolates the
    first cell by 360 degrees.  Full globe, values between 0 and 1, result greater than 359. *)
Theorem C137_below_refuted : exists g x r, peak (b_of_Z 0) (b_of_Z 359) 360 1 = Ok g /\ (forall i k, 0 <= real (cg_value g i k) <= 1) /\
  - (1 / 10 ^ 14) <= real x < 0 /\ c_bivariate g x (b_of_Z 0) = Ok (Some r) /\ finite r = true /\ 359 < real r.
Proof.
  destruct (larger_spec _ _ _ _ _ 359%Z ltac:(discriminate) below_computed) as (g & r & G & C & F & L).
  exists g, (near (-1) 1000000000000000), r. split; [exact G|]. split; [intros; eapply peak_values; exact G|]. split; [|auto].
  assert (X : b_ltb (near (-1) 1000000000000000) (b_of_Z 0) = true) by (vm_compute; reflexivity).
  assert (FX : finite (near (-1) 1000000000000000) = true) by (vm_compute; reflexivity).
  split.
  - destruct (of_Z_ok 1000000000000000 ltac:(discriminate)) as (F2 & E2). destruct (of_Z_ok (-1) ltac:(discriminate)) as (F3 & E3).
    clear - E2 E3 F2 F3. unfold near.
    destruct (div_ok (b_of_Z (-1)) (b_of_Z 1000000000000000)) as (_ & E); auto; try (rewrite E2; lra).
    { rewrite E2, E3. rewrite Rabs_left by lra. apply Rle_trans with (bpow radix2 0); [change (bpow radix2 0) with 1; lra|apply bpow_le; discriminate]. }
    rewrite E2, E3 in E. rewrite (Rabs_left (-1 / 1000000000000000)) in E by lra. pose proof tiny_U as TU. pose proof UR as UV.
    set (v := real (b_div _ _)) in *. pose proof (Rle_abs (- (v - -1 / 1000000000000000))) as H. rewrite Rabs_Ropp in H. unfold U in *. lra.
  - destruct of_0 as (F0 & <-). apply ltb_iff; auto.
Qed.
Print Assumptions C137_below_refuted.

(** The same one turn away, in the middle of the globe: the longitude is at (about) a point of the axis; normalised to this point by
    the search and, by the other rounding, to the point plus 360 by the interpolation.  The exact answer is at most 1. *)
Theorem C137_far_refuted : exists g x r, peak (near 5 100) (near 35995 100) 3600 1526 = Ok g /\ (forall i k, 0 <= real (cg_value g i k) <= 1) /\
  finite x = true /\ 512 < real x < 513 /\ c_bivariate g x (b_of_Z 0) = Ok (Some r) /\ finite r = true /\ 3599 < real r.
Proof.
  destruct (larger_spec _ _ _ _ _ 3599%Z ltac:(discriminate) far_computed) as (g & r & G & C & F & L).
  exists g, (near 51255 100), r. split; [exact G|]. split; [intros; eapply peak_values; exact G|].
  assert (FX : finite (near 51255 100) = true) by (vm_compute; reflexivity). split; [exact FX|]. split; [|auto].
  assert (X1 : b_ltb (b_of_Z 512) (near 51255 100) = true) by (vm_compute; reflexivity). assert (X2 : b_ltb (near 51255 100) (b_of_Z 513) = true) by (vm_compute; reflexivity).
  destruct (of_Z_ok 512 ltac:(discriminate)) as (F1 & <-). destruct (of_Z_ok 513 ltac:(discriminate)) as (F2 & <-). split; apply ltb_iff; auto.
Qed.
Print Assumptions C137_far_refuted.

(** Cases that meet the hypotheses: the axis 0, 1, … 359; 370.5 is one turn away in the cell of 10. *)
Lemma ex_computed : match north (b_of_Z 0) (b_of_Z 359) 360 with
  | Ok a => (f_ascending (c_axis a) && c_angle a && c_circle a && b_eqb (f_value (c_axis a) 0) (b_of_Z 0) && b_eqb (f_value (c_axis a) 10) (b_of_Z 10) &&
             b_eqb (f_value (c_axis a) 11) (b_of_Z 11) && finite (f_value (c_axis a) 0) && finite (f_value (c_axis a) 10) && finite (f_value (c_axis a) 11) &&
             match c_find_indexes a (near 741 2) with Ok (Some (i, j)) => (i =? 10)%Z && (j =? 11)%Z | _ => false end)%bool
  | _ => false end = true.
Proof. vm_compute. reflexivity. Qed.
Theorem C137_ex : exists a, north (b_of_Z 0) (b_of_Z 359) 360 = Ok a /\ axis_of (c_axis a) 360 /\ f_ascending (c_axis a) = true /\ c_angle a = true /\ c_circle a = true /\
  let x := near 741 2 in let v k := real (f_value (c_axis a) k) in
  finite x = true /\ Rabs (real x) <= bpow radix2 940 /\ v 11%Z <= v 0%Z + 360 /\
  (let e := bpow radix2 (-50) * (Rabs (real x) + Rabs (v 0%Z) + Rabs (v 10%Z) + 400) in v 10%Z + e <= real x - 360 * IZR 1 <= v 11%Z - e) /\
  c_find_indexes a x = Ok (Some (10, 11)%Z).
Proof.
  destruct C134_ex as (_ & _). pose proof ex_computed as P. unfold north in *.
  assert (RS : reasonable (b_of_Z 0) (b_of_Z 359) 360 1).
  { destruct (of_Z_ok 0 ltac:(discriminate)) as (F0 & E0). destruct (of_Z_ok 359 ltac:(discriminate)) as (F1 & E1).
    constructor; auto; try (rewrite E0, E1); rewrite ?E0, ?Rabs_R0, ?Rabs_R1; try lra; try (split; discriminate).
    - change (360 - 1)%Z with 359%Z. field.
    - apply Rle_trans with (bpow radix2 0); [apply bpow_le; discriminate|right; reflexivity].
    - apply Rle_trans with (bpow radix2 0); [right; reflexivity|apply bpow_le; discriminate].
    }
  destruct (f_regular (b_of_Z 0) (b_of_Z 359) 360) as [f| |] eqn:G; cbn [obind] in *; try discriminate.
  exists (c_make f true (near 1 1000000)). split; [reflexivity|]. set (a := c_make f true (near 1 1000000)) in *.
  repeat match goal with H : (_ && _)%bool = true |- _ => apply andb_prop in H; destruct H end.
  assert (FX : finite (near 741 2) = true) by (vm_compute; reflexivity).
  assert (EX : real (near 741 2) = 741 / 2).
  { unfold near. destruct (of_Z_ok 741 ltac:(discriminate)) as (F0 & E0). destruct (of_Z_ok 2 ltac:(discriminate)) as (F1 & E1).
    destruct (div_rnd (b_of_Z 741) (b_of_Z 2) F0) as (_ & ->); rewrite ?E0, ?E1; try lra.
    - rewrite Rabs_pos_eq by lra. apply Rle_trans with (bpow radix2 9); [change (bpow radix2 9) with 512; lra|apply bpow_le; discriminate].
    - apply round_generic; [apply valid_rnd_N|]. apply generic_format_FLT. exists (Float radix2 741 (-1)); [unfold F2R; cbn; lra| |]; cbn; lia. }
  assert (VAL : forall v n, (Z.abs n <= 2 ^ 53)%Z -> finite v = true -> b_eqb v (b_of_Z n) = true -> real v = IZR n).
  { intros v n N F E. destruct (of_Z_ok n N) as (Fn & En). unfold b_eqb in E. rewrite (Beqb_correct 53 1024 _ _ F Fn), En in E. destruct (Req_bool_spec (real v) (IZR n)); [assumption|discriminate]. }
  assert (V0 : real (f_value (c_axis a) 0) = 0) by (apply (VAL _ 0%Z); auto; discriminate).
  assert (V10 : real (f_value (c_axis a) 10) = 10) by (apply (VAL _ 10%Z); auto; discriminate).
  assert (V11 : real (f_value (c_axis a) 11) = 11) by (apply (VAL _ 11%Z); auto; discriminate).
  split; [exists (b_of_Z 0), (b_of_Z 359), 1; split; [exact RS|exact G]|]. repeat split; auto.
  - rewrite EX, Rabs_pos_eq by lra. apply Rle_trans with (bpow radix2 9); [change (bpow radix2 9) with 512; lra|apply bpow_le; discriminate].
  - rewrite V0, V11. lra.
  - rewrite EX, V0, V10, Rabs_R0, !Rabs_pos_eq by lra. change (bpow radix2 (-50)) with (/ 1125899906842624). lra.
  - rewrite EX, V0, V10, V11, Rabs_R0, !Rabs_pos_eq by lra. change (bpow radix2 (-50)) with (/ 1125899906842624). lra.
  - match goal with H : match c_find_indexes a _ with _ => _ end = true |- _ => revert H end. case (c_find_indexes a (near 741 2)); [intros [[i j]|]|discriminate|discriminate]; [|discriminate].
    intros H'. apply andb_prop in H'. destruct H' as [E1 E2]. apply Z.eqb_eq in E1, E2. subst. reflexivity.
Qed.
Print Assumptions C137_ex.
