(** Lemmas about FloatCircleModel.v. *)
From Coq Require Import ZArith Reals Lra Psatz.
From Flocq Require Import Core Digits BinarySingleNaN.
From Verif Require Import Base FloatAxisModel FloatAxisProofs FloatGridModel FloatGridProofs FloatCircleModel.
Open Scope R_scope.

Lemma bounded_limits : forall m e, SpecFloat.bounded 53 1024 m e = true -> (Z.pos m < 2 ^ 53 /\ -1074 <= e)%Z.
Proof.
  intros m e B. unfold SpecFloat.bounded in B. apply andb_prop in B as [B _]. unfold SpecFloat.canonical_mantissa in B. apply Zeq_bool_eq in B.
  unfold SpecFloat.fexp, SpecFloat.emin in B. rewrite Zpos_digits2_pos in B.
  pose proof (Zdigits_correct radix2 (Z.pos m)) as D. rewrite Z.abs_eq in D by lia. set (d := Zdigits radix2 (Z.pos m)) in *.
  assert (L : (d <= 53)%Z) by lia. split; [|lia]. apply Z.lt_le_trans with (radix2 ^ d)%Z; [apply D|].
  apply (Z.pow_le_mono_r 2); lia.
Qed.
Lemma nearest_even_spec : forall a b, (0 < b)%Z -> (2 * Z.abs (a - nearest_even a b * b) <= b)%Z.
Proof.
  intros a b B. unfold nearest_even. pose proof (Z.div_mod a b ltac:(lia)) as D. pose proof (Z.mod_pos_bound a b B) as M.
  set (q := (a / b)%Z) in *. set (r := (a mod b)%Z) in *.
  destruct (Z.ltb_spec (2 * r) b) as [H1|H1]; [replace (a - q * b)%Z with r by lia; lia|].
  destruct (Z.ltb_spec b (2 * r)) as [H2|H2]; [replace (a - (q + 1) * b)%Z with (r - b)%Z by lia; lia|].
  destruct (Z.even q); [replace (a - q * b)%Z with r by lia; lia|replace (a - (q + 1) * b)%Z with (r - b)%Z by lia; lia].
Qed.
(** No multiple is nearer, zero in particular. *)
Lemma nearest_le : forall a b q, (0 < b)%Z -> (2 * Z.abs (a - q * b) <= b)%Z -> (Z.abs (a - q * b) <= Z.abs a)%Z.
Proof.
  intros a b q B H. destruct (Z.eq_dec q 0) as [->|N]; [lia|].
  assert (b <= Z.abs (q * b))%Z by (rewrite Z.abs_mul, (Z.abs_eq b) by lia; nia). lia.
Qed.

Lemma F2R_shift : forall m e e0, (e0 <= e)%Z -> F2R (Float radix2 m e) = F2R (Float radix2 (m * 2 ^ (e - e0)) e0).
Proof. intros m e e0 H. apply (F2R_change_exp radix2 e0 m e H). Qed.

Lemma std_remainder_ok : forall x y, finite x = true -> finite y = true -> 0 < real y ->
  finite (b_std_remainder x y) = true /\ exists n, real (b_std_remainder x y) = real x - IZR n * real y /\ 2 * Rabs (real (b_std_remainder x y)) <= real y.
Proof.
  intros x y FX FY Y. destruct y as [| | |s' m' e' B']; cbn in Y; try lra; try discriminate.
  destruct x as [s| | |s m e B]; try discriminate.
  - split; [reflexivity|]. exists 0%Z. cbn [b_std_remainder]. cbn [B2R]. rewrite Rabs_R0. split; [ring|]. destruct s'; cbn in *; lra.
  - destruct s'.
    { exfalso. rewrite F2R_cond_Zopp in Y. cbn [cond_Ropp] in Y. pose proof (F2R_gt_0 radix2 (Float radix2 (Z.pos m') e') ltac:(reflexivity)). lra. }
    unfold b_std_remainder. set (e0 := Z.min e e'). set (a0 := if s then Z.neg m else Z.pos m). set (a := (a0 * 2 ^ (e - e0))%Z). set (b := (Z.pos m' * 2 ^ (e' - e0))%Z). cbv zeta.
    fold a0. change ((if s then Z.neg m else Z.pos m) * 2 ^ (e - e0))%Z with a. change (Z.pos m' * 2 ^ (e' - e0))%Z with b.
    destruct (bounded_limits _ _ B) as [M1 E1]. destruct (bounded_limits _ _ B') as [M2 E2].
    assert (BP : (0 < b)%Z) by (unfold b; apply Z.mul_pos_pos; [lia|apply Z.pow_pos_nonneg; lia]).
    pose proof (nearest_even_spec a b BP) as NE. set (q := nearest_even a b) in *. pose proof (nearest_le a b q BP NE) as NL.
    assert (RB : (Z.abs (a - q * b) < 2 ^ 53)%Z).
    { destruct (Z.le_ge_cases e e') as [H|H].
      - assert (EA : a = a0) by (unfold a, e0; rewrite Z.min_l by lia; rewrite Z.sub_diag, Z.pow_0_r; ring). rewrite EA in NL at 2. unfold a0 in NL. destruct s; lia.
      - assert (EB : b = Z.pos m') by (unfold b, e0; rewrite Z.min_r by lia; rewrite Z.sub_diag, Z.pow_0_r; ring). lia. }
    pose proof (@binary_normalize_correct 53 1024 b64_prec b64_emax mode_NE (a - q * b) e0 s) as C. cbn zeta in C.
    assert (FM : generic_format radix2 (FLT_exp (3 - 1024 - 53) 53) (F2R (Float radix2 (a - q * b) e0))).
    { apply generic_format_FLT. exists (Float radix2 (a - q * b) e0); [reflexivity| |]; cbn [Fnum Fexp]; [exact RB|unfold e0; lia]. }
    cbn [round_mode] in C. unfold SpecFloat.emin, FLT_exp in *.
    assert (RV : rnd (F2R (Float radix2 (a - q * b) e0)) = F2R (Float radix2 (a - q * b) e0)) by (apply round_generic; [apply valid_rnd_N|exact FM]).
    assert (XE : real (B754_finite s m e B) = F2R (Float radix2 a e0)).
    { cbn [B2R]. unfold a. rewrite <- F2R_shift by (unfold e0; lia). destruct s; reflexivity. }
    assert (YE : real (B754_finite false m' e' B') = F2R (Float radix2 b e0)).
    { cbn [B2R]. unfold b. rewrite <- F2R_shift by (unfold e0; lia). reflexivity. }
    assert (RE : F2R (Float radix2 (a - q * b) e0) = real (B754_finite s m e B) - IZR q * real (B754_finite false m' e' B')).
    { rewrite XE, YE. unfold F2R. cbn [Fnum Fexp]. rewrite minus_IZR, mult_IZR. ring. }
    assert (RA : 2 * Rabs (F2R (Float radix2 (a - q * b) e0)) <= real (B754_finite false m' e' B')).
    { rewrite YE. unfold F2R. cbn [Fnum Fexp]. rewrite Rabs_mult, <- abs_IZR, (Rabs_pos_eq (bpow radix2 e0)) by apply bpow_ge_0.
      rewrite <- Rmult_assoc. apply Rmult_le_compat_r; [apply bpow_ge_0|]. rewrite <- mult_IZR. apply IZR_le. exact NE. }
    assert (LT : Rabs (F2R (Float radix2 (a - q * b) e0)) < bpow radix2 1024).
    { pose proof (abs_B2R_lt_emax 53 1024 (B754_finite false m' e' B')) as L. rewrite Rabs_pos_eq in L by (cbn [B2R]; apply Rlt_le; exact Y).
      pose proof (Rabs_pos (F2R (Float radix2 (a - q * b) e0))). lra. }
    change (round radix2 _ ZnearestE (F2R {| Fnum := a - q * b; Fexp := e0 |})) with (rnd (F2R (Float radix2 (a - q * b) e0))) in C.
    rewrite RV, Rlt_bool_true in C by exact LT. destruct C as (CR & CF & _).
    split; [exact CF|]. exists q. rewrite CR. split; [exact RE|exact RA].
Qed.

(** Monotonic operations. *)
Lemma ltb_iff : forall x y, finite x = true -> finite y = true -> (b_ltb x y = true <-> real x < real y).
Proof. intros x y X Y. unfold b_ltb. rewrite (Bltb_correct 53 1024 _ _ X Y). destruct (Rlt_bool_spec (real x) (real y)); split; intros; try discriminate; try lra; reflexivity. Qed.
Lemma leb_iff : forall x y, finite x = true -> finite y = true -> (b_leb x y = true <-> real x <= real y).
Proof. intros x y X Y. unfold b_leb. rewrite (Bleb_correct 53 1024 _ _ X Y). destruct (Rle_bool_spec (real x) (real y)); split; intros; try discriminate; try lra; reflexivity. Qed.
Lemma of_circle : finite circle = true /\ real circle = 360. Proof. apply (of_Z_ok 360). discriminate. Qed.
Lemma rnd_Z : forall n, (Z.abs n <= 2 ^ 53)%Z -> rnd (IZR n) = IZR n.
Proof. intros n H. destruct (of_Z_ok n H) as (_ & E). rewrite <- E. apply rnd_id. Qed.
Lemma big_1000 : forall r n, (n <= 1000)%Z -> r <= bpow radix2 n -> r <= bpow radix2 1000.
Proof. intros r n N H. eapply Rle_trans; [exact H|]. apply bpow_le. exact N. Qed.

Lemma remainder_ok : forall x y, finite x = true -> y = circle ->
  finite (b_remainder x y) = true /\ 0 <= real (b_remainder x y) <= 360 /\
  exists n, Rabs (real (b_remainder x y) - (real x - 360 * IZR n)) <= U * 360 + tiny.
Proof.
  intros x y FX ->. destruct of_circle as (FC & EC). destruct of_0 as (F0 & E0). pose proof U_pos as UP. pose proof tiny_pos as TP.
  destruct (std_remainder_ok x circle FX FC ltac:(rewrite EC; lra)) as (F & n & E & B). rewrite EC in E, B.
  unfold b_remainder. set (r := b_std_remainder x circle) in *. cbv zeta.
  assert (AB : - (180) <= real r <= 180). { pose proof (Rle_abs (real r)). pose proof (Rle_abs (- real r)) as H'. rewrite Rabs_Ropp in H'. lra. }
  destruct (b_ltb r (b_of_Z 0)) eqn:L.
  - apply ltb_iff in L; auto. rewrite E0 in L. destruct (plus_rnd r circle F FC) as (G & R).
    { rewrite EC, Rabs_pos_eq by lra. apply (big_1000 _ 9); [discriminate|]. change (bpow radix2 9) with 512. lra. }
    rewrite EC in R. split; [exact G|]. rewrite R. split.
    + split; [rewrite <- rnd_0; apply rnd_le; lra|]. apply Rle_trans with (rnd 360); [apply rnd_le; lra|right; apply (rnd_Z 360); discriminate].
    + exists (n - 1)%Z. replace (real x - 360 * IZR (n - 1)) with (real r + 360) by (rewrite E, minus_IZR; ring).
      eapply Rle_trans; [apply rnd_error|]. rewrite Rabs_pos_eq by lra. apply Rplus_le_compat_r. apply Rmult_le_compat_l; lra.
  - assert (~ real r < real (b_of_Z 0)). { intros H. apply ltb_iff in H; auto. congruence. } rewrite E0 in H.
    split; [exact F|]. split; [lra|]. exists n. replace (real r - (real x - 360 * IZR n)) with 0 by (rewrite E; ring). rewrite Rabs_R0.
    assert (0 <= U * 360) by (apply Rmult_le_pos; lra). lra.
Qed.

Lemma normalize_ok : forall x mn, finite x = true -> finite mn = true -> Rabs (real x) <= bpow radix2 940 -> Rabs (real mn) <= bpow radix2 940 ->
  let r := b_normalize_angle x mn circle in
  finite r = true /\ real mn <= real r /\ real r <= real (b_plus mn circle) /\
  exists n, Rabs (real r - (real x - 360 * IZR n)) <= 2 * U * (Rabs (real x) + Rabs (real mn) + 400).
Proof.
  intros x mn FX FM BX BM r. destruct of_circle as (FC & EC). pose proof U_pos as UP. pose proof tiny_pos as TP. pose proof tiny_U as TU.
  assert (AB : Rabs (real x - real mn) <= Rabs (real x) + Rabs (real mn)) by (eapply Rle_trans; [apply Rabs_triang|]; rewrite Rabs_Ropp; lra).
  assert (P901 : Rabs (real x) + Rabs (real mn) + 400 <= bpow radix2 1000).
  { apply Rle_trans with (4 * bpow radix2 940).
    - assert (400 <= bpow radix2 940). { apply Rle_trans with (bpow radix2 9); [change (bpow radix2 9) with 512; lra|apply bpow_le; discriminate]. } lra.
    - change 4 with (bpow radix2 2). rewrite <- bpow_plus. apply bpow_le. discriminate. }
  pose proof (Rabs_pos (real x)) as PX. pose proof (Rabs_pos (real mn)) as PM.
  destruct (minus_rnd x mn FX FM) as (FD & ED); [lra|].
  destruct (remainder_ok (b_minus x mn) circle FD eq_refl) as (FR & BR & n & ER). unfold r, b_normalize_angle.
  set (d := b_minus x mn) in *. set (q := b_remainder d circle) in *.
  assert (AQ : Rabs (real q + real mn) <= 360 + Rabs (real mn)) by (eapply Rle_trans; [apply Rabs_triang|]; rewrite (Rabs_pos_eq (real q)) by lra; lra).
  destruct (plus_rnd q mn FR FM) as (FS & ES); [lra|].
  destruct (plus_rnd mn circle FM FC) as (FP & EP). { rewrite EC. eapply Rle_trans; [apply Rabs_triang|]. rewrite (Rabs_pos_eq 360) by lra. lra. }
  split; [exact FS|]. rewrite ES, EP, EC. split; [|split].
  - rewrite <- (rnd_id mn) at 1. apply rnd_le. lra.
  - apply rnd_le. lra.
  - exists n. pose proof (rnd_error (real x - real mn)) as E1. rewrite <- ED in E1. pose proof (rnd_error (real q + real mn)) as E2.
    replace (rnd (real q + real mn) - (real x - 360 * IZR n)) with
      ((rnd (real q + real mn) - (real q + real mn)) + (real q - (real d - 360 * IZR n)) + (real d - (real x - real mn))) by ring.
    eapply Rle_trans; [apply Rabs_triang|]. apply Rle_trans with ((U * (360 + Rabs (real mn)) + tiny) + (U * 360 + tiny) + (U * (Rabs (real x) + Rabs (real mn)) + tiny)).
    + apply Rplus_le_compat.
      * eapply Rle_trans; [apply Rabs_triang|]. apply Rplus_le_compat; [|exact ER]. eapply Rle_trans; [exact E2|]. apply Rplus_le_compat_r. apply Rmult_le_compat_l; lra.
      * eapply Rle_trans; [exact E1|]. apply Rplus_le_compat_r. apply Rmult_le_compat_l; lra.
    + assert (0 <= U * Rabs (real x)) by (apply Rmult_le_pos; lra). lra.
Qed.

(** Coordinates that are already in the range are left alone. *)
Lemma normalize_id : forall a x mn, finite x = true -> finite mn = true -> Rabs (real mn) <= bpow radix2 940 -> real mn <= real x -> real x < real (b_plus mn circle) ->
  c_normalize_from a x mn = x.
Proof.
  intros a x mn FX FM BM LO HI. destruct of_circle as (FC & EC).
  destruct (plus_rnd mn circle FM FC) as (FP & EP).
  { rewrite EC. eapply Rle_trans; [apply Rabs_triang|]. rewrite (Rabs_pos_eq 360) by lra. apply Rle_trans with (2 * bpow radix2 940).
    - assert (360 <= bpow radix2 940). { apply Rle_trans with (bpow radix2 9); [change (bpow radix2 9) with 512; lra|apply bpow_le; discriminate]. } lra.
    - change 2 with (bpow radix2 1). rewrite <- bpow_plus. apply bpow_le. discriminate. }
  unfold c_normalize_from. replace (b_leb (b_plus mn circle) x) with false.
  2:{ symmetry. destruct (b_leb (b_plus mn circle) x) eqn:E; [|reflexivity]. apply leb_iff in E; auto. lra. }
  replace (b_ltb x mn) with false. 2:{ symmetry. destruct (b_ltb x mn) eqn:E; [|reflexivity]. apply ltb_iff in E; auto. lra. }
  rewrite Bool.andb_false_r. reflexivity.
Qed.
Lemma c_find_indexes_id : forall a x p, c_normalize a x = x -> f_find_indexes (c_axis a) x = Ok (Some p) -> c_find_indexes a x = Ok (Some p).
Proof.
  intros a x p N H. unfold c_find_indexes, c_find_index. rewrite !N. unfold f_find_indexes in H.
  destruct (f_find_index (c_axis a) x false) as [i| |]; cbn [obind] in *; try discriminate.
  destruct (i =? -1)%Z eqn:E; [discriminate|].
  destruct (b_eqb (b_minus x (f_value (c_axis a) i)) (b_of_Z 0)); [exact H|].
  destruct (b_ltb (b_minus x (f_value (c_axis a) i)) (b_of_Z 0)).
  - set (j := if f_ascending (c_axis a) then (i - 1)%Z else (i + 1)%Z) in *.
    destruct (((0 <=? j) && (j <? f_size (c_axis a)) && (0 <=? i) && (i <? f_size (c_axis a)))%Z%bool) eqn:Q; [|discriminate].
    replace (if c_circle a then (j mod f_size (c_axis a))%Z else j) with j; [rewrite Q; exact H|].
    destruct (c_circle a); [|reflexivity]. symmetry. apply Z.mod_small. lia.
  - set (j := if f_ascending (c_axis a) then (i + 1)%Z else (i - 1)%Z) in *.
    destruct (((0 <=? i) && (i <? f_size (c_axis a)) && (0 <=? j) && (j <? f_size (c_axis a)))%Z%bool) eqn:Q; [|discriminate].
    replace (if c_circle a then (j mod f_size (c_axis a))%Z else j) with j; [rewrite Q; exact H|].
    destruct (c_circle a); [|reflexivity]. symmetry. apply Z.mod_small. lia.
Qed.

(** What a longitude that is not too near the limits of the range becomes. *)
Definition delta (x mn : b64) : R := 2 * U * (Rabs (real x) + Rabs (real mn) + 400).
Lemma normalize_turns : forall a x mn k e, c_angle a = true -> finite x = true -> finite mn = true ->
  Rabs (real x) <= bpow radix2 940 -> Rabs (real mn) <= bpow radix2 940 -> 4 * delta x mn <= e ->
  real mn + e <= real x - 360 * IZR k <= real mn + 360 - e ->
  let r := c_normalize_from a x mn in
  finite r = true /\ real mn <= real r < real (b_plus mn circle) /\ Rabs (real r - (real x - 360 * IZR k)) <= delta x mn.
Proof.
  intros a x mn k e A FX FM BX BM EE Z r. destruct of_circle as (FC & EC). pose proof U_pos as UP. pose proof tiny_pos as TP. pose proof tiny_U as TU.
  pose proof (Rabs_pos (real x)) as PX. pose proof (Rabs_pos (real mn)) as PM.
  assert (DP : 0 < delta x mn) by (unfold delta; apply Rmult_lt_0_compat; lra).
  destruct (normalize_ok x mn FX FM BX BM) as (FN & LN & HN & n & EN). fold (delta x mn) in EN.
  destruct (plus_rnd mn circle FM FC) as (FP & EP).
  { rewrite EC. eapply Rle_trans; [apply Rabs_triang|]. rewrite (Rabs_pos_eq 360) by lra. apply Rle_trans with (2 * bpow radix2 940).
    - assert (360 <= bpow radix2 940). { apply Rle_trans with (bpow radix2 9); [change (bpow radix2 9) with 512; lra|apply bpow_le; discriminate]. } lra.
    - change 2 with (bpow radix2 1). rewrite <- bpow_plus. apply bpow_le. discriminate. }
  assert (PE : Rabs (real (b_plus mn circle) - (real mn + 360)) <= delta x mn).
  { rewrite EP, EC. eapply Rle_trans; [apply rnd_error|]. unfold delta. apply Rle_trans with (U * (Rabs (real mn) + 360) + tiny).
    - apply Rplus_le_compat_r. apply Rmult_le_compat_l; [lra|]. eapply Rle_trans; [apply Rabs_triang|]. rewrite (Rabs_pos_eq 360) by lra. lra.
    - assert (0 <= U * Rabs (real x)) by (apply Rmult_le_pos; lra). assert (0 <= U * Rabs (real mn)) by (apply Rmult_le_pos; lra). lra. }
  assert (EX : finite r = true /\ real mn <= real r <= real (b_plus mn circle) /\ exists n, Rabs (real r - (real x - 360 * IZR n)) <= delta x mn).
  { unfold r, c_normalize_from. rewrite A. cbn [andb]. destruct (b_leb (b_plus mn circle) x) eqn:H1; cbn [orb].
    - split; [exact FN|]. split; [split; assumption|]. exists n. exact EN.
    - destruct (b_ltb x mn) eqn:H2.
      + split; [exact FN|]. split; [split; assumption|]. exists n. exact EN.
      + assert (N1 : ~ real (b_plus mn circle) <= real x). { intros H. apply leb_iff in H; auto. congruence. }
        assert (N2 : ~ real x < real mn). { intros H. apply ltb_iff in H; auto. congruence. }
        split; [exact FX|]. split; [split; lra|]. exists 0%Z. replace (real x - (real x - 360 * 0)) with 0 by ring. rewrite Rabs_R0. lra. }
  clearbody r. clear n EN HN LN FN. destruct EX as (FR & RR & n & EN).
  assert (AB : forall u v, Rabs u <= v -> - v <= u <= v).
  { intros u v H. pose proof (Rle_abs u). pose proof (Rle_abs (- u)) as H'. rewrite Rabs_Ropp in H'. lra. }
  apply AB in PE. pose proof (AB _ _ EN) as EB.
  assert (n = k) as ->.
  { destruct (Z.lt_trichotomy n k) as [L|[L|L]]; [exfalso|exact L|exfalso].
    - assert (IZR n <= IZR k - 1) by (rewrite <- minus_IZR; apply IZR_le; lia). lra.
    - assert (IZR k + 1 <= IZR n) by (rewrite <- plus_IZR; apply IZR_le; lia). lra. }
  split; [exact FR|]. split; [|exact EN]. lra.
Qed.
