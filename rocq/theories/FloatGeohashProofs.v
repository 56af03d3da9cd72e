(** Lemmas about FloatGeohashModel.v. *)
From Coq Require Import ZArith QArith Qround Qreals Reals Lra Psatz.
From Flocq Require Import Core BinarySingleNaN Relative.
From Verif Require Import Base GeohashModel FloatAxisModel FloatAxisProofs FloatGridModel FloatGridProofs FloatCircleModel FloatCircleProofs FloatStatsProofs FloatGeohashModel.
Open Scope R_scope.

(** The rational number of a binary64 number. *)
Definition b2q (x : b64) : Q :=
  match x with
  | B754_finite s m e _ =>
      let n := if s then Z.neg m else Z.pos m in
      if (0 <=? e)%Z then inject_Z (n * 2 ^ e) else (n # Z.to_pos (2 ^ (- e)))
  | _ => 0%Q
  end.
Lemma b2q_ok : forall x, Q2R (b2q x) = real x.
Proof.
  intros [s|s| |s m e B]; cbn [b2q B2R]; try (unfold Q2R; cbn; lra).
  replace (cond_Zopp s (Z.pos m)) with (if s then Z.neg m else Z.pos m) by (destruct s; reflexivity).
  set (n := if s then Z.neg m else Z.pos m). unfold F2R. cbn [Fnum Fexp]. destruct (0 <=? e)%Z eqn:E.
  - apply Z.leb_le in E. unfold Q2R, inject_Z. cbn [Qnum Qden]. rewrite mult_IZR, (IZR_Zpower radix2 e E : IZR (2 ^ e) = bpow radix2 e). field.
  - apply Z.leb_gt in E. assert (P : (0 < 2 ^ (- e))%Z) by (apply Z.pow_pos_nonneg; lia).
    unfold Q2R. cbn [Qnum Qden]. rewrite Z2Pos.id by exact P.
    replace e with (- - e)%Z at 2 by lia. rewrite bpow_opp. rewrite (IZR_Zpower radix2 (- e) ltac:(lia) : IZR (2 ^ (- e)) = bpow radix2 (- e)). reflexivity.
Qed.

Definition floor_of (v : Z) (x : R) : Prop := IZR v <= x < IZR v + 1.
Lemma floor_unique : forall v w x, floor_of v x -> floor_of w x -> v = w.
Proof.
  intros v w x [A B] [C D]. assert (v < w + 1)%Z by (apply lt_IZR; rewrite plus_IZR; lra). assert (w < v + 1)%Z by (apply lt_IZR; rewrite plus_IZR; lra). lia.
Qed.
Lemma Qfloor_of : forall q, floor_of (Qfloor q) (Q2R q).
Proof.
  intros q. pose proof (Qfloor_le q) as A. pose proof (Qlt_floor q) as B. apply Qle_Rle in A. apply Qlt_Rlt in B.
  assert (I : forall z, Q2R (inject_Z z) = IZR z) by (intros z; unfold Q2R, inject_Z; cbn; field). rewrite I in A, B. rewrite plus_IZR in B. split; lra.
Qed.
Lemma trunc_ok : forall x, finite x = true -> 0 <= real x -> exists v, trunc_b64 x = Some v /\ floor_of v (real x).
Proof.
  intros [s|s| |s m e B] F P; try discriminate.
  - exists 0%Z. split; [reflexivity|]. unfold floor_of. cbn. lra.
  - destruct s.
    { exfalso. cbn in P. assert (F2R (Float radix2 (Z.neg m) e) < 0) by (apply F2R_lt_0; reflexivity). lra. }
    eexists. split; [reflexivity|]. unfold floor_of. cbn [B2R cond_Zopp]. unfold F2R. cbn [Fnum Fexp]. destruct (0 <=? e)%Z eqn:E.
    + apply Z.leb_le in E. rewrite mult_IZR, (IZR_Zpower radix2 e E : IZR (2 ^ e) = bpow radix2 e). lra.
    + apply Z.leb_gt in E. assert (Q : (0 < 2 ^ (- e))%Z) by (apply Z.pow_pos_nonneg; lia).
      replace (bpow radix2 e) with (/ IZR (2 ^ (- e))).
      2:{ rewrite (IZR_Zpower radix2 (- e) ltac:(lia) : IZR (2 ^ (- e)) = bpow radix2 (- e)). rewrite <- bpow_opp. f_equal. lia. }
      set (d := (2 ^ (- e))%Z) in *. set (v := (Z.pos m / d)%Z).
      assert (D1 : (v * d <= Z.pos m)%Z) by (unfold v; rewrite Z.mul_comm; apply Z.mul_div_le; lia).
      assert (D2 : (Z.pos m < (v + 1) * d)%Z) by (unfold v; pose proof (Z.mul_succ_div_gt (Z.pos m) d Q); lia).
      apply IZR_le in D1. apply IZR_lt in D2. rewrite mult_IZR in D1, D2. rewrite plus_IZR in D2. apply IZR_lt in Q.
      split.
      * apply (Rmult_le_reg_r (IZR d)); [exact Q|]. field_simplify; lra.
      * apply (Rmult_lt_reg_r (IZR d)); [exact Q|]. field_simplify; lra.
Qed.

(** ** The portable conversion *)
Definition half (n : Z) : Prop := n = 90%Z \/ n = 180%Z.
Definition gap : R := bpow radix2 (-40).
Definition p32 : R := 4294967296.
Lemma twice : forall n, half n -> finite (b_mult (b_of_Z 2) (b_of_Z n)) = true /\ real (b_mult (b_of_Z 2) (b_of_Z n)) = 2 * IZR n.
Proof.
  intros n H. destruct (of_Z_ok 2) as (F2 & E2); [discriminate|]. assert (N : (Z.abs n <= 2 ^ 53)%Z) by (destruct H; subst; discriminate).
  assert (N2 : (Z.abs (2 * n) <= 2 ^ 53)%Z) by (destruct H; subst; discriminate).
  destruct (of_Z_ok n N) as (F & E). destruct (of_Z_ok (2 * n) N2) as (F' & E').
  destruct (mult_exact (b_of_Z 2) (b_of_Z n) (b_of_Z (2 * n)) F2 F) as (G & R); [rewrite E2, E, E', mult_IZR; reflexivity|].
  split; [exact G|]. rewrite R, E', mult_IZR. reflexivity.
Qed.
Lemma small_1000 : forall r, Rabs r <= 1000 -> Rabs r <= bpow radix2 1000.
Proof. intros r H. apply (big_1000 _ 10); [discriminate|]. change (bpow radix2 10) with 1024. lra. Qed.
Definition part (x : b64) (n : Z) : b64 := b_div (b_plus x (b_of_Z n)) (b_mult (b_of_Z 2) (b_of_Z n)).
(** Monotonic. *)
Lemma part_rnd : forall x n, half n -> finite x = true -> Rabs (real x) <= 200 ->
  finite (part x n) = true /\ real (part x n) = rnd (rnd (real x + IZR n) / (2 * IZR n)) /\ Rabs (rnd (real x + IZR n)) <= 400.
Proof.
  intros x n H F B. assert (N : (Z.abs n <= 2 ^ 53)%Z) by (destruct H; subst; discriminate). destruct (of_Z_ok n N) as (FN & EN).
  destruct (twice n H) as (FT & ET). assert (HN : 90 <= IZR n <= 180) by (destruct H; subst; lra).
  assert (B1 : Rabs (real x + IZR n) <= 400) by (apply Rabs_le; apply Rabs_le_inv in B; lra).
  destruct (plus_rnd x (b_of_Z n) F FN) as (FP & EP). { rewrite EN. apply small_1000. lra. } rewrite EN in EP.
  assert (B2 : Rabs (rnd (real x + IZR n)) <= 400).
  { apply rnd_abs_le; [|exact B1]. replace 400 with (real (b_of_Z 400)); [apply fmt|]. apply (of_Z_ok 400). discriminate. }
  destruct (div_rnd (b_plus x (b_of_Z n)) (b_mult (b_of_Z 2) (b_of_Z n)) FP) as (FD & ED).
  { rewrite ET. lra. }
  { rewrite ET, EP. apply small_1000. unfold Rdiv. rewrite Rabs_mult. rewrite (Rabs_pos_eq (/ _)) by (left; apply Rinv_0_lt_compat; lra).
    assert (/ (2 * IZR n) <= 1) by (rewrite <- Rinv_1; apply Rinv_le_contravar; lra). assert (0 < / (2 * IZR n)) by (apply Rinv_0_lt_compat; lra). nra. }
  rewrite ET, EP in ED. auto.
Qed.
Lemma part_mono : forall x y n, half n -> finite x = true -> finite y = true -> Rabs (real x) <= 200 -> Rabs (real y) <= 200 ->
  real x <= real y -> real (part x n) <= real (part y n).
Proof.
  intros x y n H FX FY BX BY L. destruct (part_rnd x n H FX BX) as (_ & -> & _). destruct (part_rnd y n H FY BY) as (_ & -> & _).
  apply rnd_le. assert (0 < / (2 * IZR n)) by (apply Rinv_0_lt_compat; destruct H; subst; lra). unfold Rdiv. apply Rmult_le_compat_r; [lra|]. apply rnd_le. lra.
Qed.
(** The greatest number considered: n - 2^-40. *)
Definition last (n : Z) : b64 := b_minus (b_of_Z n) (b_div (b_of_Z 1) (b_of_Z (2 ^ 40))).
Lemma last_ok : forall n, half n -> finite (last n) = true /\ real (last n) = IZR n - gap /\ b_ltb (part (last n) n) (b_of_Z 1) = true.
Proof.
  intros n H. destruct of_1 as (F1 & E1). destruct (of_Z_ok (2 ^ 40)) as (F4 & E4); [discriminate|].
  assert (G : gap = / IZR (2 ^ 40)) by reflexivity.
  assert (N : (Z.abs n <= 2 ^ 53)%Z) by (destruct H; subst; discriminate). destruct (of_Z_ok n N) as (FN & EN).
  assert (X : finite (b_div (b_of_Z 1) (b_of_Z (2 ^ 40))) = true /\ real (b_div (b_of_Z 1) (b_of_Z (2 ^ 40))) = gap).
  { destruct (div_rnd (b_of_Z 1) (b_of_Z (2 ^ 40)) F1) as (F & E). { rewrite E4. apply IZR_neq. discriminate. }
    { rewrite E1, E4. apply small_1000. unfold Rdiv. rewrite Rmult_1_l, <- G. unfold gap. rewrite Rabs_pos_eq by apply bpow_ge_0. apply Rle_trans with (bpow radix2 0); [apply bpow_le; discriminate|cbn; lra]. }
    split; [exact F|]. rewrite E, E1, E4. unfold Rdiv. rewrite Rmult_1_l, <- G. apply rnd_same. apply fmt_bpow. discriminate. }
  destruct X as (FX & EX).
  assert (FMT : exists z : b64, finite z = true /\ real z = IZR n - gap).
  { destruct H; subst.
    - exists (@B754_finite 53 1024 false 6333186975989696 (-46) eq_refl). split; [reflexivity|]. unfold gap. cbn. unfold F2R. cbn. lra.
    - exists (@B754_finite 53 1024 false 6333186975989728 (-45) eq_refl). split; [reflexivity|]. unfold gap. cbn. unfold F2R. cbn. lra. }
  destruct FMT as (z & FZ & EZ).
  destruct (minus_exact (b_of_Z n) (b_div (b_of_Z 1) (b_of_Z (2 ^ 40))) z FN FX) as (FL & EL); [rewrite EN, EX, EZ; reflexivity|].
  split; [exact FL|]. split; [rewrite <- EZ; exact EL|]. destruct H; subst; vm_compute; reflexivity.
Qed.
Lemma part_0 : forall n, half n -> real (part (b_of_Z (- n)) n) = 0.
Proof. intros n [-> | ->]; vm_compute; reflexivity. Qed.
Lemma gap_small : 0 < gap < / 1000.
Proof. unfold gap. cbn. lra. Qed.

Lemma part_bounds : forall x n, half n -> finite x = true -> - IZR n <= real x <= IZR n - gap -> 0 <= real (part x n) < 1.
Proof.
  intros x n H F B. assert (HN : 90 <= IZR n <= 180) by (destruct H; subst; lra). pose proof gap_small as G.
  destruct (last_ok n H) as (FL & EL & BL). destruct of_1 as (F1 & E1).
  assert (BX : Rabs (real x) <= 200) by (apply Rabs_le; lra).
  assert (N : (Z.abs (- n) <= 2 ^ 53)%Z) by (destruct H; subst; discriminate). destruct (of_Z_ok (- n) N) as (FN & EN).
  assert (A1 : Rabs (real (b_of_Z (- n))) <= 200) by (rewrite EN, opp_IZR; apply Rabs_le; lra).
  assert (A2 : Rabs (real (last n)) <= 200) by (rewrite EL; apply Rabs_le; lra). split.
  - rewrite <- (part_0 n H). apply part_mono; auto. rewrite EN, opp_IZR. lra.
  - destruct (part_rnd (last n) n H FL A2) as (FP & _). apply ltb_iff in BL; auto. rewrite E1 in BL. eapply Rle_lt_trans; [|exact BL].
    apply part_mono; auto. rewrite EL. lra.
Qed.

Lemma part_near : forall x n, half n -> finite x = true -> - IZR n <= real x <= IZR n -> Rabs (real (part x n) * (2 * IZR n) - IZR n - real x) <= 1024 * U.
Proof.
  intros x n H F B. assert (HN : 90 <= IZR n <= 180) by (destruct H; subst; lra).
  assert (BX : Rabs (real x) <= 200) by (apply Rabs_le; lra). destruct (part_rnd x n H F BX) as (_ & E & _).
  pose proof (rnd_error (real x + IZR n)) as E1. set (s := rnd (real x + IZR n)) in *. pose proof (rnd_error (s / (2 * IZR n))) as E2. rewrite <- E in E2.
  set (q := real (part x n)) in *. set (t := s / (2 * IZR n)) in *. assert (ES : s = t * (2 * IZR n)) by (unfold t; field; lra).
  pose proof U_pos as UP. pose proof tiny_pos as TP.
  assert (TU : tiny <= U / 1000). { unfold tiny. rewrite U_eq. apply Rle_trans with (bpow radix2 (-63)); [apply bpow_le; discriminate|]. cbn. lra. }
  rewrite (Rabs_pos_eq (real x + IZR n)) in E1 by lra.
  assert (E1' : Rabs (s - (real x + IZR n)) <= 361 * U). { eapply Rle_trans; [exact E1|]. assert (U * (real x + IZR n) <= U * 360) by (apply Rmult_le_compat_l; lra). lra. }
  apply Rabs_le_inv in E1'. assert (U1 : U < / 1000000) by (unfold U; lra).
  assert (T1 : Rabs t <= 101 / 100).
  { unfold t, Rdiv. apply Rabs_le. assert (I : / (2 * IZR n) * (2 * IZR n) = 1) by (field; lra). assert (0 < / (2 * IZR n)) by (apply Rinv_0_lt_compat; lra).
    assert (-1 <= s <= 2 * IZR n + 1) by lra. split; apply (Rmult_le_reg_r (2 * IZR n)); try lra; rewrite Rmult_assoc, I; lra. }
  assert (E2' : Rabs (q - t) <= 102 / 100 * U). { eapply Rle_trans; [exact E2|]. assert (U * Rabs t <= U * (101 / 100)) by (apply Rmult_le_compat_l; lra). lra. }
  apply Rabs_le_inv in E2'. apply Rabs_le.
  assert (- (102 / 100 * U) * 360 <= (q - t) * (2 * IZR n) <= 102 / 100 * U * 360). { split; nra. }
  split; nra.
Qed.

Lemma floor_range : forall v x, floor_of v x -> 0 <= x < p32 -> (0 <= v < 4294967296)%Z.
Proof.
  intros v x [A B] [C D]. unfold p32 in D. split.
  - assert (-1 < v)%Z; [|lia]. apply lt_IZR. lra.
  - apply lt_IZR. lra.
Qed.
Lemma fmt_scale : forall x k, (0 <= k)%Z -> inF x -> inF (x * bpow radix2 k).
Proof.
  intros x k K H. apply FLT_format_generic in H; [|reflexivity]. destruct H as [f E M X]. apply generic_format_FLT.
  exists (Float radix2 (Fnum f) (Fexp f + k)); [|exact M|cbn [Fexp]; lia]. rewrite E. unfold F2R. cbn [Fnum Fexp]. rewrite bpow_plus. ring.
Qed.
Lemma times_p32 : forall q, finite q = true -> 0 <= real q < 1 -> finite (b_mult q (b_of_Z 4294967296)) = true /\ real (b_mult q (b_of_Z 4294967296)) = real q * p32.
Proof.
  intros q F B. destruct (of_Z_ok 4294967296) as (F2 & E2); [discriminate|]. destruct (mult_rnd q (b_of_Z 4294967296) F F2) as (G & E).
  { rewrite E2. apply (big_1000 _ 40); [discriminate|]. rewrite Rabs_pos_eq by nra. change (bpow radix2 40) with 1099511627776. nra. }
  split; [exact G|]. rewrite E, E2. unfold p32. apply round_generic; [apply valid_rnd_N|]. change 4294967296 with (bpow radix2 32).
  apply fmt_scale; [discriminate|apply fmt].
Qed.
Lemma encode_range_float : forall x n, half n -> finite x = true -> - IZR n <= real x <= IZR n - gap ->
  exists v, f_encode_range x (b_of_Z n) = Ok v /\ (0 <= v < 4294967296)%Z /\ floor_of v (real (part x n) * p32).
Proof.
  intros x n H F B. pose proof gap_small as G. assert (HN : 90 <= IZR n <= 180) by (destruct H; subst; lra).
  assert (N : (Z.abs n <= 2 ^ 53)%Z) by (destruct H; subst; discriminate). destruct (of_Z_ok n N) as (FN & EN).
  assert (BX : Rabs (real x) <= 200) by (apply Rabs_le; lra). destruct (part_rnd x n H F BX) as (FP & _). pose proof (part_bounds x n H F B) as PB.
  destruct (times_p32 _ FP PB) as (FT & ET). unfold f_encode_range.
  replace (b_leb (b_of_Z n) x) with false.
  2:{ symmetry. apply Bool.not_true_is_false. intro C. apply leb_iff in C; auto. rewrite EN in C. lra. }
  change (b_div (b_plus x (b_of_Z n)) (b_mult (b_of_Z 2) (b_of_Z n))) with (part x n).
  destruct (trunc_ok _ FT) as (v & TV & FV). { rewrite ET. unfold p32. nra. } rewrite ET in FV.
  assert (R : (0 <= v < 4294967296)%Z). { eapply floor_range; [exact FV|]. unfold p32. nra. }
  exists v. split; [|auto]. unfold to_uint32. rewrite TV. replace ((0 <=? v) && (v <? 4294967296))%Z%bool with true; [reflexivity|].
  symmetry. apply andb_true_intro. split; [apply Z.leb_le|apply Z.ltb_lt]; lia.
Qed.

(** ** The conversion with the bits of the mantissa *)
Lemma shrq_ok : forall y, finite y = true -> 1 <= real y < 2 -> floor_of (f_shrq y mod 2 ^ 32) ((real y - 1) * p32).
Proof.
  intros [s|s| |s m e B] F R; try discriminate; try (cbn in R; lra).
  destruct s. { exfalso. cbn in R. assert (F2R (Float radix2 (Z.neg m) e) < 0) by (apply F2R_lt_0; reflexivity). lra. }
  cbn [B2R cond_Zopp] in R. unfold F2R in R. cbn [Fnum Fexp] in R.
  destruct (bounded_limits m e B) as (M1 & E1). assert (M1' : IZR (Z.pos m) < bpow radix2 53) by (change (bpow radix2 53) with (IZR (2 ^ 53)); apply IZR_lt; exact M1).
  assert (EL : (-53 < e)%Z).
  { apply (lt_bpow radix2). apply (Rmult_lt_reg_l (bpow radix2 53)); [apply bpow_gt_0|]. rewrite <- bpow_plus. change (bpow radix2 (53 + -53)) with 1.
    eapply Rle_lt_trans; [apply R|]. apply Rmult_lt_compat_r; [apply bpow_gt_0|exact M1']. }
  assert (EU : e = (-52)%Z).
  { destruct (Z.eq_dec e (-52)) as [|N]; [assumption|exfalso]. assert (L : (-51 <= e)%Z) by lia.
    assert (M2 : (2 ^ 52 <= Z.pos m)%Z).
    { pose proof B as C. unfold SpecFloat.bounded in C. apply andb_prop in C as [C _]. unfold SpecFloat.canonical_mantissa in C. apply Zeq_bool_eq in C.
      unfold SpecFloat.fexp, SpecFloat.emin in C. rewrite Zpos_digits2_pos in C.
      pose proof (Zdigits_correct radix2 (Z.pos m)) as D. rewrite Z.abs_eq in D by lia. assert (DD : Zdigits radix2 (Z.pos m) = 53%Z) by lia. rewrite DD in D. apply D. }
    apply IZR_le in M2. change (IZR (2 ^ 52)) with (bpow radix2 52) in M2. assert (bpow radix2 52 * bpow radix2 (-51) <= IZR (Z.pos m) * bpow radix2 e).
    { apply Rmult_le_compat; try apply bpow_ge_0; [exact M2|]. apply bpow_le. exact L. }
    rewrite <- bpow_plus in H. change (bpow radix2 (52 + -51)) with 2 in H. lra. }
  subst e. change (bpow radix2 (-52)) with (/ 4503599627370496) in R.
  assert (M2 : (2 ^ 52 <= Z.pos m)%Z). { apply le_IZR. change (IZR (2 ^ 52)) with 4503599627370496. lra. }
  unfold f_shrq, bits_b64, sign_bit. rewrite (proj2 (Z.ltb_ge _ _) M2). change (-52 + 1075)%Z with 1023%Z. rewrite Z.shiftr_div_pow2 by lia.
  unfold F2R, B2R, cond_Zopp. cbn [Fnum Fexp].
  set (k := (Z.pos m - 2 ^ 52)%Z). assert (K : (0 <= k < 2 ^ 52)%Z) by (unfold k; lia).
  assert (V : ((0 + (1023 * 2 ^ 52 + k)) / 2 ^ 20 mod 2 ^ 32 = k / 2 ^ 20)%Z).
  { replace (0 + (1023 * 2 ^ 52 + k))%Z with (k + 1023 * 2 ^ 32 * 2 ^ 20)%Z by lia. rewrite Z.div_add by lia. rewrite Z.mod_add by lia. apply Z.mod_small.
    split; [apply Z.div_pos; lia|]. apply Z.div_lt_upper_bound; lia. }
  unfold F2R. cbn [Fnum Fexp]. rewrite V. change (bpow radix2 (-52)) with (/ 4503599627370496).
  assert (PM : IZR (Z.pos m) = IZR k + 4503599627370496). { unfold k. rewrite minus_IZR. change (IZR (2 ^ 52)) with 4503599627370496. lra. }
  change (B2R (B754_finite false m (-52) B)) with (IZR (Z.pos m) * / 4503599627370496). rewrite PM.
  set (v := (k / 2 ^ 20)%Z).
  assert (D1 : (v * 2 ^ 20 <= k)%Z) by (unfold v; rewrite Z.mul_comm; apply Z.mul_div_le; lia).
  assert (D2 : (k < (v + 1) * 2 ^ 20)%Z) by (unfold v; pose proof (Z.mul_succ_div_gt k (2 ^ 20) ltac:(lia)); lia).
  apply IZR_le in D1. apply IZR_lt in D2. rewrite mult_IZR in D1, D2. rewrite plus_IZR in D2. change (IZR (2 ^ 20)) with 1048576 in D1, D2. unfold floor_of, p32. lra.
Qed.

(** The literal of each coordinate. *)
Definition lit_of (n : Z) : b64 := if (n =? 90)%Z then lit_lat else lit_lon.
Lemma lit_ok : forall n, half n -> finite (lit_of n) = true /\ 0 < real (lit_of n) < / 100 /\ Rabs (real (lit_of n) * (2 * IZR n) - 1) <= U.
Proof.
  intros n [-> | ->]; (split; [reflexivity|]); unfold lit_of; cbn [Z.eqb Pos.eqb lit_lat lit_lon B2R cond_Zopp]; unfold F2R; cbn [Fnum Fexp].
  - change (bpow radix2 (-60)) with (/ 1152921504606846976). split; [lra|]. unfold U. apply Rabs_le. lra.
  - change (bpow radix2 (-61)) with (/ 2305843009213693952). split; [lra|]. unfold U. apply Rabs_le. lra.
Qed.
Definition shifted (x : b64) (n : Z) : b64 := b_plus lit_3_2 (b_mult x (lit_of n)).
Lemma real_3_2 : finite lit_3_2 = true /\ real lit_3_2 = 3 / 2.
Proof. split; [reflexivity|]. cbn. unfold F2R. cbn. lra. Qed.
Lemma shifted_rnd : forall x n, half n -> finite x = true -> Rabs (real x) <= 200 ->
  finite (shifted x n) = true /\ real (shifted x n) = rnd (3 / 2 + rnd (real x * real (lit_of n))).
Proof.
  intros x n H F B. destruct (lit_ok n H) as (FL & BL & _). destruct real_3_2 as (F3 & E3).
  assert (B1 : Rabs (real x * real (lit_of n)) <= 2). { rewrite Rabs_mult, (Rabs_pos_eq (real (lit_of n))) by lra. nra. }
  destruct (mult_rnd x (lit_of n) F FL) as (FM & EM). { apply small_1000. lra. }
  assert (B2 : Rabs (rnd (real x * real (lit_of n))) <= 2).
  { apply rnd_abs_le; [|exact B1]. change 2 with (bpow radix2 1). apply fmt_bpow. discriminate. }
  destruct (plus_rnd lit_3_2 (b_mult x (lit_of n)) F3 FM) as (FP & EP).
  { rewrite E3, EM. apply small_1000. apply Rabs_le_inv in B2. apply Rabs_le. lra. }
  split; [exact FP|]. unfold shifted. rewrite EP, E3, EM. reflexivity.
Qed.
Lemma shifted_mono : forall x y n, half n -> finite x = true -> finite y = true -> Rabs (real x) <= 200 -> Rabs (real y) <= 200 ->
  real x <= real y -> real (shifted x n) <= real (shifted y n).
Proof.
  intros x y n H FX FY BX BY L. destruct (shifted_rnd x n H FX BX) as (_ & ->). destruct (shifted_rnd y n H FY BY) as (_ & ->).
  destruct (lit_ok n H) as (_ & BL & _). apply rnd_le. apply Rplus_le_compat_l. apply rnd_le. apply Rmult_le_compat_r; lra.
Qed.
Lemma shifted_ends : forall n, half n -> b_leb (b_of_Z 1) (shifted (b_of_Z (- n)) n) = true /\ b_ltb (shifted (last n) n) (b_of_Z 2) = true.
Proof. intros n [-> | ->]; vm_compute; split; reflexivity. Qed.
Lemma shifted_bounds : forall x n, half n -> finite x = true -> - IZR n <= real x <= IZR n - gap -> 1 <= real (shifted x n) < 2.
Proof.
  intros x n H F B. assert (HN : 90 <= IZR n <= 180) by (destruct H; subst; lra). pose proof gap_small as G.
  destruct (last_ok n H) as (FL & EL & _). destruct (shifted_ends n H) as (B1 & B2). destruct of_1 as (F1 & E1). destruct (of_Z_ok 2) as (F2 & E2); [discriminate|].
  assert (BX : Rabs (real x) <= 200) by (apply Rabs_le; lra).
  assert (N : (Z.abs (- n) <= 2 ^ 53)%Z) by (destruct H; subst; discriminate). destruct (of_Z_ok (- n) N) as (FN & EN).
  assert (A1 : Rabs (real (b_of_Z (- n))) <= 200) by (rewrite EN, opp_IZR; apply Rabs_le; lra).
  assert (A2 : Rabs (real (last n)) <= 200) by (rewrite EL; apply Rabs_le; lra).
  destruct (shifted_rnd _ n H FN A1) as (G1 & _). destruct (shifted_rnd _ n H FL A2) as (G2 & _).
  apply leb_iff in B1; auto. apply ltb_iff in B2; auto. rewrite E1 in B1. rewrite E2 in B2. split.
  - eapply Rle_trans; [exact B1|]. apply shifted_mono; auto. rewrite EN, opp_IZR. lra.
  - eapply Rle_lt_trans; [|exact B2]. apply shifted_mono; auto. rewrite EL. lra.
Qed.
Lemma shifted_near : forall x n, half n -> finite x = true -> - IZR n <= real x <= IZR n -> Rabs ((real (shifted x n) - 3 / 2) * (2 * IZR n) - real x) <= 2048 * U.
Proof.
  intros x n H F B. assert (HN : 90 <= IZR n <= 180) by (destruct H; subst; lra). assert (BX : Rabs (real x) <= 200) by (apply Rabs_le; lra).
  destruct (shifted_rnd x n H F BX) as (_ & E). destruct (lit_ok n H) as (_ & BL & EL). rewrite E.
  pose proof U_pos as UP. pose proof tiny_pos as TP. assert (U1 : U < / 1000000) by (unfold U; lra).
  assert (TU : tiny <= U / 1000). { unfold tiny. rewrite U_eq. apply Rle_trans with (bpow radix2 (-63)); [apply bpow_le; discriminate|]. cbn. lra. }
  set (c := real (lit_of n)) in *. set (N2 := 2 * IZR n) in *. set (w := real x * c).
  apply Rabs_le_inv in EL. assert (N2B : 180 <= N2 <= 360) by (unfold N2; lra).
  assert (WB : Rabs (w * N2 - real x) <= 180 * U).
  { unfold w. replace (real x * c * N2 - real x) with (real x * (c * N2 - 1)) by ring. rewrite Rabs_mult. apply Rmult_le_compat; try apply Rabs_pos; apply Rabs_le; lra. }
  apply Rabs_le_inv in WB. assert (W1 : Rabs w <= 51 / 100). { apply Rabs_le. unfold N2 in *. split; nra. }
  pose proof (rnd_error w) as E1. set (t := rnd w) in *. assert (E1' : Rabs (t - w) <= 52 / 100 * U).
  { eapply Rle_trans; [exact E1|]. assert (U * Rabs w <= U * (51 / 100)) by (apply Rmult_le_compat_l; lra). lra. }
  apply Rabs_le_inv in E1'. apply Rabs_le_inv in W1. pose proof (rnd_error (3 / 2 + t)) as E2. rewrite (Rabs_pos_eq (3 / 2 + t)) in E2 by lra.
  set (y := rnd (3 / 2 + t)) in *. assert (E2' : Rabs (y - (3 / 2 + t)) <= 21 / 10 * U).
  { eapply Rle_trans; [exact E2|]. assert (U * (3 / 2 + t) <= U * (204 / 100)) by (apply Rmult_le_compat_l; lra). lra. }
  apply Rabs_le_inv in E2'. assert (T : - (3 * U) <= y - 3 / 2 - w <= 3 * U) by lra.
  replace ((y - 3 / 2) * N2 - real x) with ((y - 3 / 2 - w) * N2 + (w * N2 - real x)) by ring.
  apply Rabs_le. assert (- (3 * U * 360) <= (y - 3 / 2 - w) * N2 <= 3 * U * 360) by (split; nra). lra.
Qed.
