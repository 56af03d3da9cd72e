(** Geohashes of points given by binary64 numbers (property C139). *)
From Coq Require Import ZArith QArith Qround Qreals Reals Lra Psatz.
From Flocq Require Import Core BinarySingleNaN.
From Flocq Require Sterbenz.
From Verif Require Import Base GeohashModel GeohashSpec GeohashProofs GeohashProofs3 GeohashProofs4 FloatAxisModel FloatAxisProofs FloatGridModel FloatGridProofs
  FloatCircleModel FloatCircleProofs FloatStatsProofs FloatGeohashModel FloatGeohashProofs.
From Verif Require GeohashProps.
Open Scope R_scope.

(** About 2.3e-13 degrees. *)
Definition eps : R := / 4398046511104.
(** A coordinate between [-limit] and [limit]: the limit itself, or at least [2^-40] (9e-13) degrees below. *)
Definition coordinate (limit : Z) (x : b64) : Prop :=
  finite x = true /\ - IZR limit <= real x /\ (real x <= IZR limit - / 1099511627776 \/ real x = IZR limit).

Lemma gap_eq : gap = / 1099511627776. Proof. reflexivity. Qed.
Lemma Q2R_Z : forall z, Q2R (inject_Z z) = IZR z. Proof. intros z. unfold Q2R, inject_Z. cbn. field. Qed.
(** An exact coordinate with the same index. *)
Lemma witness_Q : forall n q v, half n -> finite q = true -> 0 <= real q < 1 -> floor_of v (real q * p32) ->
  forall p : Q, (p == b2q q)%Q ->
  let x' := (p * (2 * inject_Z n) - inject_Z n)%Q in
  (- inject_Z n <= x')%Q /\ (x' <= inject_Z n)%Q /\ qidx x' (inject_Z n) 32 = v /\ Q2R x' = real q * (2 * IZR n) - IZR n.
Proof.
  intros n q v H F B V p P x'. assert (HN : 90 <= IZR n <= 180) by (destruct H; subst; lra).
  assert (HQ : (90 <= inject_Z n /\ inject_Z n <= 180)%Q) by (destruct H; subst; split; discriminate).
  assert (E : Q2R p = real q) by (rewrite (Qeq_eqR _ _ P); apply b2q_ok).
  assert (B1 : (0 <= p)%Q) by (apply Rle_Qle; rewrite E; change (Q2R 0) with (Q2R (inject_Z 0)); rewrite Q2R_Z; apply B).
  assert (B2 : (p < 1)%Q) by (apply Rlt_Qlt; rewrite E; change (Q2R 1) with (Q2R (inject_Z 1)); rewrite Q2R_Z; apply B).
  assert (L : (x' < inject_Z n)%Q) by (unfold x'; nra).
  split; [unfold x'; nra|]. split; [apply Qlt_le_weak; exact L|]. split.
  - unfold qidx. replace (Qle_bool (inject_Z n) x') with false.
    2:{ symmetry. apply Bool.not_true_is_false. intro C. apply Qle_bool_iff in C. apply (Qlt_not_le _ _ L). exact C. }
    set (z := ((x' + inject_Z n) / (2 * inject_Z n) * inject_Z (2 ^ 32))%Q).
    assert (EZ : (z == p * inject_Z (2 ^ 32))%Q). { unfold z, x'. field. intro C. lra. }
    apply (floor_unique _ _ (real q * p32)); [|exact V]. pose proof (Qfloor_of z) as W. rewrite (Qeq_eqR _ _ EZ) in W.
    rewrite Q2R_mult, E, Q2R_Z in W. exact W.
  - unfold x', Qminus. rewrite Q2R_plus, Q2R_opp, !Q2R_mult, E, Q2R_Z. change (Q2R 2) with (Q2R (inject_Z 2)). rewrite Q2R_Z. ring.
Qed.
Lemma witness_limit : forall n, half n -> (- inject_Z n <= inject_Z n)%Q /\ (inject_Z n <= inject_Z n)%Q /\ qidx (inject_Z n) (inject_Z n) 32 = 4294967295%Z /\ Q2R (inject_Z n) = IZR n.
Proof. intros n H. split; [destruct H; subst; discriminate|]. split; [apply Qle_refl|]. split; [destruct H; subst; reflexivity|apply Q2R_Z]. Qed.
Lemma eps_U : eps = 2048 * U. Proof. unfold eps, U. lra. Qed.

Lemma portable_witness : forall n x, half n -> coordinate n x ->
  exists x' : Q, f_encode_range x (b_of_Z n) = Ok (qidx x' (inject_Z n) 32) /\ (- inject_Z n <= x')%Q /\ (x' <= inject_Z n)%Q /\ Rabs (Q2R x' - real x) <= eps.
Proof.
  intros n x H (F & B1 & B2). pose proof U_pos as UP. rewrite <- gap_eq in B2. pose proof gap_small as G. destruct B2 as [B2|B2].
  - destruct (encode_range_float x n H F) as (v & E & _ & FV); [lra|]. assert (HN : 90 <= IZR n <= 180) by (destruct H; subst; lra).
    destruct (part_rnd x n H F) as (FP & _). { apply Rabs_le. lra. } pose proof (part_bounds x n H F ltac:(lra)) as PB.
    destruct (witness_Q n (part x n) v H FP PB FV _ (Qeq_refl _)) as (A & C & D & W).
    eexists. split; [rewrite D; exact E|]. split; [exact A|]. split; [exact C|]. rewrite W. pose proof (part_near x n H F ltac:(lra)). rewrite eps_U. lra.
  - exists (inject_Z n). destruct (witness_limit n H) as (A & C & D & W). rewrite D. split.
    { unfold f_encode_range. assert (N : (Z.abs n <= 2 ^ 53)%Z) by (destruct H; subst; discriminate). destruct (of_Z_ok n N) as (FN & EN).
      replace (b_leb (b_of_Z n) x) with true; [reflexivity|]. symmetry. apply leb_iff; auto. lra. }
    split; [exact A|]. split; [exact C|]. rewrite W, B2, Rminus_eq_0, Rabs_R0, eps_U. lra.
Qed.
Lemma bmi2_witness : forall n x, half n -> coordinate n x ->
  exists x' : Q, (f_mantissa x (b_of_Z n) (lit_of n) mod 2 ^ 32 = qidx x' (inject_Z n) 32)%Z /\ (- inject_Z n <= x')%Q /\ (x' <= inject_Z n)%Q /\ Rabs (Q2R x' - real x) <= eps.
Proof.
  intros n x H (F & B1 & B2). pose proof U_pos as UP. rewrite <- gap_eq in B2. pose proof gap_small as G.
  assert (N : (Z.abs n <= 2 ^ 53)%Z) by (destruct H; subst; discriminate). destruct (of_Z_ok n N) as (FN & EN). destruct B2 as [B2|B2].
  - assert (HN : 90 <= IZR n <= 180) by (destruct H; subst; lra).
    destruct (shifted_rnd x n H F) as (FP & _). { apply Rabs_le. lra. } pose proof (shifted_bounds x n H F ltac:(lra)) as PB.
    pose proof (shrq_ok _ FP PB) as FV.
    destruct of_1 as (F1 & E1).
    (* the exact number y - 1 *)
    assert (SUB : exists q : b64, finite q = true /\ real q = real (shifted x n) - 1).
    { exists (b_minus (shifted x n) (b_of_Z 1)). assert (SF : inF (real (shifted x n) - 1)).
      { rewrite <- E1. apply Sterbenz.sterbenz; [apply rnd_valid|apply FLT_exp_monotone|apply fmt|apply fmt|]. rewrite E1. lra. }
      destruct (minus_rnd (shifted x n) (b_of_Z 1) FP F1) as (FM & EM). { rewrite E1. apply small_1000. apply Rabs_le. lra. }
      split; [exact FM|]. rewrite EM, E1. apply rnd_same. exact SF. }
    destruct SUB as (q & FQ & EQ). rewrite <- EQ in FV.
    destruct (witness_Q n q _ H FQ ltac:(lra) FV _ (Qeq_refl _)) as (A & C & D & W).
    eexists. split; [rewrite D|]. { unfold f_mantissa. replace (b_eqb x (b_of_Z n)) with false; [reflexivity|]. symmetry. apply Bool.not_true_is_false. intro K.
      unfold b_eqb in K. rewrite (Beqb_correct 53 1024 _ _ F FN), EN in K. destruct (Req_bool_spec (real x) (IZR n)); [lra|discriminate]. }
    split; [exact A|]. split; [exact C|]. rewrite W. pose proof (shifted_near x n H F ltac:(lra)) as NR. rewrite eps_U.
    replace (real q * (2 * IZR n) - IZR n - real x) with ((real (shifted x n) - 3 / 2) * (2 * IZR n) - real x) by (rewrite EQ; field). exact NR.
  - exists (inject_Z n). destruct (witness_limit n H) as (A & C & D & W). rewrite D. split.
    { unfold f_mantissa. replace (b_eqb x (b_of_Z n)) with true; [reflexivity|]. symmetry. unfold b_eqb. rewrite (Beqb_correct 53 1024 _ _ F FN), EN.
      apply Req_bool_true. exact B2. }
    split; [exact A|]. split; [exact C|]. rewrite W, B2, Rminus_eq_0, Rabs_R0, eps_U. lra.
Qed.

(** The code of a point is the code, in exact arithmetic, of a point of the Earth at most 2.3e-13 degrees away in longitude and
    in latitude. *)
Theorem C139_near_partial : forall bmi2 lon lat, coordinate 180 lon -> coordinate 90 lat ->
  exists pt, in_closed earth (p_lon pt) (p_lat pt) /\ Rabs (Q2R (p_lon pt) - real lon) <= eps /\ Rabs (Q2R (p_lat pt) - real lat) <= eps /\
    forall p, f_gh_encode bmi2 lon lat p = gh_encode bmi2 pt p.
Proof.
  intros bmi2 lon lat HO HA. assert (h180 : half 180) by (right; reflexivity). assert (h90 : half 90) by (left; reflexivity). destruct bmi2.
  - destruct (bmi2_witness 180 lon h180 HO) as (x & EX & X1 & X2 & NX). destruct (bmi2_witness 90 lat h90 HA) as (y & EY & Y1 & Y2 & NY).
    exists (Point x y). cbn [p_lon p_lat]. assert (R : in_range (Point x y)) by (repeat split; assumption).
    split; [repeat split; assumption|]. split; [exact NX|]. split; [exact NY|]. intros p. unfold f_gh_encode, gh_encode. rewrite encoder_ok by exact R.
    cbn [p_lon p_lat]. unfold f_encoder, f_encode_bmi2. rewrite !pdepq_spread. change lit_lat with (lit_of 90). change lit_lon with (lit_of 180).
    rewrite EX, EY. unfold interleave. rewrite Z.lor_comm. reflexivity.
  - destruct (portable_witness 180 lon h180 HO) as (x & EX & X1 & X2 & NX). destruct (portable_witness 90 lat h90 HA) as (y & EY & Y1 & Y2 & NY).
    exists (Point x y). cbn [p_lon p_lat]. assert (R : in_range (Point x y)) by (repeat split; assumption).
    split; [repeat split; assumption|]. split; [exact NX|]. split; [exact NY|]. intros p. unfold f_gh_encode, gh_encode. rewrite encoder_ok by exact R.
    cbn [p_lon p_lat]. unfold f_encoder, f_encode_portable. rewrite EX, EY. reflexivity.
Qed.
Print Assumptions C139_near_partial.

(** Therefore the point is in the cell of its code, or at most 2.3e-13 degrees from it. *)
Theorem C139_cell_partial : forall bmi2 lon lat p, coordinate 180 lon -> coordinate 90 lat -> (1 <= p <= 64)%nat ->
  exists h, f_gh_encode bmi2 lon lat (Z.of_nat p) = Ok h /\ is_code (Z.of_nat p) h /\
    Q2R (west (cell_of p h)) - eps <= real lon <= Q2R (east (cell_of p h)) + eps /\
    Q2R (south (cell_of p h)) - eps <= real lat <= Q2R (north (cell_of p h)) + eps.
Proof.
  intros bmi2 lon lat p HO HA HP. destruct (C139_near_partial bmi2 lon lat HO HA) as (pt & IE & NO & NA & E).
  destruct (GeohashProps.C28_contains bmi2 pt p HP IE) as (h & EH & IC & (I1 & I2 & I3 & I4) & _). exists h. split; [rewrite E; exact EH|]. split; [exact IC|].
  apply Qle_Rle in I1, I2, I3, I4. apply Rabs_le_inv in NO, NA. lra.
Qed.
Print Assumptions C139_cell_partial.

(** A coarser code is the beginning of the finer one. *)
Theorem C139_prefix : forall bmi2 lon lat p q h, (1 <= p <= q)%Z -> (q <= 64)%Z -> f_gh_encode bmi2 lon lat q = Ok h ->
  f_gh_encode bmi2 lon lat p = Ok (Z.shiftr h (q - p)).
Proof.
  intros bmi2 lon lat p q h P Q. unfold f_gh_encode. destruct (f_encoder bmi2 lat lon) as [w| |]; cbn [obind]; try discriminate.
  destruct (Z.eqb_spec q 64) as [E|N].
  - intros H. assert (w = h) by congruence. subst. destruct (Z.eqb_spec p 64) as [->|]; [rewrite Z.shiftr_0_r; reflexivity|].
    replace ((1 <=? p) && (p <? 64))%Z%bool with true; [reflexivity|]. symmetry. apply andb_true_intro. split; [apply Z.leb_le|apply Z.ltb_lt]; lia.
  - replace ((1 <=? q) && (q <? 64))%Z%bool with true by (symmetry; apply andb_true_intro; split; [apply Z.leb_le|apply Z.ltb_lt]; lia).
    intros H. assert (EH : Z.shiftr w (64 - q) = h) by congruence. subst h. replace (p =? 64)%Z with false by (symmetry; apply Z.eqb_neq; lia).
    replace ((1 <=? p) && (p <? 64))%Z%bool with true by (symmetry; apply andb_true_intro; split; [apply Z.leb_le|apply Z.ltb_lt]; lia).
    rewrite Z.shiftr_shiftr by lia. do 2 f_equal. lia.
Qed.
Print Assumptions C139_prefix.

(** ** Decoding: the corner of a cell is exact, and its code is the index of the cell *)
Lemma fmt_dyadic : forall k, (Z.abs k < 2 ^ 53)%Z -> inF (IZR k * bpow radix2 (-32)).
Proof.
  intros k H. apply generic_format_FLT. exists (Float radix2 k (-32)); [unfold F2R; reflexivity|exact H|cbn [Fexp]; lia].
Qed.
Lemma dyadic_small : forall k, (Z.abs k < 2 ^ 53)%Z -> Rabs (IZR k * bpow radix2 (-32)) <= bpow radix2 1000.
Proof.
  intros k H. apply (big_1000 _ 53); [discriminate|]. rewrite Rabs_mult, (Rabs_pos_eq (bpow radix2 (-32))) by apply bpow_ge_0. rewrite <- abs_IZR.
  assert (A : IZR (Z.abs k) <= bpow radix2 53) by (change (bpow radix2 53) with (IZR (2 ^ 53)); apply IZR_le; lia).
  assert (B : bpow radix2 (-32) <= 1) by (change 1 with (bpow radix2 0); apply bpow_le; discriminate).
  pose proof (bpow_ge_0 radix2 (-32)). pose proof (IZR_le _ _ (Z.abs_nonneg k)). nra.
Qed.
Lemma inverse_ok : finite (b_div (b_of_Z 1) (b_of_Z 4294967296)) = true /\ real (b_div (b_of_Z 1) (b_of_Z 4294967296)) = bpow radix2 (-32).
Proof.
  destruct of_1 as (F1 & E1). destruct (of_Z_ok 4294967296) as (F2 & E2); [discriminate|].
  assert (I : 1 / 4294967296 = bpow radix2 (-32)) by (cbn; lra).
  destruct (div_rnd (b_of_Z 1) (b_of_Z 4294967296) F1) as (F & E). { rewrite E2. lra. } { rewrite E1, E2. apply small_1000. apply Rabs_le. lra. }
  split; [exact F|]. rewrite E, E1, E2, I. apply rnd_same. apply fmt_bpow. discriminate.
Qed.
Lemma decode_exact : forall n v, half n -> (0 <= v < 2 ^ 32 - 1)%Z ->
  finite (f_decode_range v (b_of_Z n)) = true /\ real (f_decode_range v (b_of_Z n)) = 2 * IZR n * (IZR v / 2 ^ 32) - IZR n.
Proof.
  intros n v H V. change (2 ^ 32)%Z with 4294967296%Z in V. destruct inverse_ok as (FI & EI). destruct (twice n H) as (FT & ET).
  assert (N : (Z.abs n <= 2 ^ 53)%Z) by (destruct H; subst; discriminate). destruct (of_Z_ok n N) as (FN & EN).
  assert (HN : (90 <= n <= 180)%Z) by (destruct H; subst; lia).
  assert (VV : (Z.abs v < 2 ^ 53)%Z) by (change (2 ^ 53)%Z with 9007199254740992%Z; lia). destruct (of_Z_ok v ltac:(lia)) as (FV & EV).
  destruct (mult_rnd (b_of_Z v) _ FV FI) as (F1 & E1). { rewrite EV, EI. apply dyadic_small. exact VV. } rewrite EV, EI, (rnd_same _ (fmt_dyadic v VV)) in E1.
  assert (V2 : (Z.abs (2 * n * v) < 2 ^ 53)%Z) by (change (2 ^ 53)%Z with 9007199254740992%Z; nia).
  assert (X2 : 2 * IZR n * (IZR v * bpow radix2 (-32)) = IZR (2 * n * v) * bpow radix2 (-32)) by (rewrite !mult_IZR; ring).
  destruct (mult_rnd _ _ FT F1) as (F2 & E2). { rewrite ET, E1, X2. apply dyadic_small. exact V2. } rewrite ET, E1, X2, (rnd_same _ (fmt_dyadic _ V2)) in E2.
  assert (V3 : (Z.abs (2 * n * v - n * 4294967296) < 2 ^ 53)%Z) by (change (2 ^ 53)%Z with 9007199254740992%Z; nia).
  assert (B32 : 4294967296 * bpow radix2 (-32) = 1) by (cbn; lra).
  assert (X3 : IZR (2 * n * v) * bpow radix2 (-32) - IZR n = IZR (2 * n * v - n * 4294967296) * bpow radix2 (-32)).
  { rewrite minus_IZR, (mult_IZR n 4294967296), Rmult_minus_distr_r. rewrite Rmult_assoc, B32. ring. }
  destruct (minus_rnd _ _ F2 FN) as (F3 & E3). { rewrite E2, EN, X3. apply dyadic_small. exact V3. }
  unfold f_decode_range. replace (v =? 4294967295)%Z with false by (symmetry; apply Z.eqb_neq; lia). split; [exact F3|].
  rewrite E3, E2, EN, X3, (rnd_same _ (fmt_dyadic _ V3)), <- X3, !mult_IZR. change (bpow radix2 (-32)) with (/ 4294967296). field.
Qed.
(** In the portable conversion, for each coordinate ([limit] 90 or 180). *)
Theorem C139_decode : forall limit v, (limit = 90 \/ limit = 180)%Z -> (0 <= v < 2 ^ 32)%Z ->
  let x := f_decode_range v (b_of_Z limit) in
  finite x = true /\
  real x = (if (v =? 2 ^ 32 - 1)%Z then IZR limit else - IZR limit + 2 * IZR limit * (IZR v / 2 ^ 32)) /\
  f_encode_range x (b_of_Z limit) = Ok v.
Proof.
  intros n v H V x. assert (HN : 90 <= IZR n <= 180) by (destruct H; subst; lra).
  assert (N : (Z.abs n <= 2 ^ 53)%Z) by (destruct H; subst; discriminate). destruct (of_Z_ok n N) as (FN & EN).
  destruct (Z.eqb_spec v (2 ^ 32 - 1)) as [E|E].
  - subst v. unfold x. change (f_decode_range (2 ^ 32 - 1) (b_of_Z n)) with (b_of_Z n). split; [exact FN|]. split; [exact EN|].
    unfold f_encode_range. replace (b_leb (b_of_Z n) (b_of_Z n)) with true; [reflexivity|]. symmetry. apply leb_iff; auto. lra.
  - destruct (decode_exact n v H ltac:(lia)) as (F & R). fold x in F, R. split; [exact F|]. split; [rewrite R; ring|].
    change (2 ^ 32)%Z with 4294967296%Z in V, E. assert (VR : 0 <= IZR v <= 4294967294) by (split; apply IZR_le; lia).
    assert (B : - IZR n <= real x <= IZR n - gap). { rewrite R, gap_eq. replace (2 ^ 32) with 4294967296 by lra. split; nra. }
    destruct (encode_range_float x n H F B) as (w & EW & _ & FW). rewrite EW. f_equal. apply (floor_unique _ _ _ FW).
    destruct (part_rnd x n H F) as (_ & EP & _). { apply Rabs_le. pose proof gap_small. lra. }
    assert (VV : (Z.abs v < 2 ^ 53)%Z) by (change (2 ^ 53)%Z with 9007199254740992%Z; lia).
    assert (V2 : (Z.abs (2 * n * v) < 2 ^ 53)%Z) by (change (2 ^ 53)%Z with 9007199254740992%Z; destruct H; subst; lia).
    assert (S : real x + IZR n = IZR (2 * n * v) * bpow radix2 (-32)). { rewrite R, !mult_IZR. change (bpow radix2 (-32)) with (/ 4294967296). field. }
    rewrite S, (rnd_same _ (fmt_dyadic _ V2)) in EP.
    assert (Q : IZR (2 * n * v) * bpow radix2 (-32) / (2 * IZR n) = IZR v * bpow radix2 (-32)) by (rewrite !mult_IZR; field; lra).
    rewrite Q, (rnd_same _ (fmt_dyadic _ VV)) in EP. rewrite EP. unfold floor_of, p32. change (bpow radix2 (-32)) with (/ 4294967296). split; lra.
Qed.
Print Assumptions C139_decode.

(** The numbers: a longitude with no rounding problem, and the one just below the limit of the theorem. *)
Definition lon_ex : b64 := @B754_finite 53 1024 false 7730941132800000 (-46) eq_refl.
Theorem C139_example : coordinate 180 lon_ex /\ coordinate 90 (b_of_Z 45) /\ coordinate 180 (last 180) /\ coordinate 90 (b_of_Z 90).
Proof.
  unfold coordinate. split; [|split; [|split]].
  - split; [reflexivity|]. unfold lon_ex. cbn [B2R cond_Zopp]. unfold F2R. cbn [Fnum Fexp]. change (bpow radix2 (-46)) with (/ 70368744177664). split; [lra|left; lra].
  - destruct (of_Z_ok 45) as (F & E); [discriminate|]. rewrite E. split; [exact F|]. split; [lra|left; lra].
  - destruct (last_ok 180) as (F & E & _); [right; reflexivity|]. rewrite E, gap_eq. split; [exact F|]. split; [lra|left; lra].
  - destruct (of_Z_ok 90) as (F & E); [discriminate|]. rewrite E. split; [exact F|]. split; [lra|right; lra].
Qed.

(** The full statement (the point is in the cell of its code) is false with rounding: -1e-20 degrees (about) of latitude and
    longitude have the code of the cell of the north east, which begins at zero. *)
Definition minus_small : b64 := b_opp (b_div (b_of_Z 1) (b_of_Z (2 ^ 70))).
Definition code_is (o : outcome Z) (h : Z) : bool := match o with Ok v => (v =? h)%Z | _ => false end.
Theorem C139_boundary_refuted : real minus_small < 0 /\
  forall bmi2, exists h, f_gh_encode bmi2 minus_small minus_small 2 = Ok h /\ (west (cell_of 2 h) == 0 /\ south (cell_of 2 h) == 0)%Q.
Proof.
  split.
  - assert (H : (is_finite minus_small && b_ltb minus_small (b_of_Z 0))%bool = true) by (vm_compute; reflexivity). apply andb_prop in H as [F H].
    destruct of_0 as (F0 & E0). pose proof (proj1 (ltb_iff _ _ F F0) H) as L. rewrite E0 in L. exact L.
  - intros bmi2. exists 3%Z. split; [|split; reflexivity].
    assert (H : code_is (f_gh_encode bmi2 minus_small minus_small 2) 3 = true) by (destruct bmi2; vm_compute; reflexivity).
    unfold code_is in H. destruct (f_gh_encode bmi2 minus_small minus_small 2); try discriminate. apply Z.eqb_eq in H. congruence.
Qed.
Print Assumptions C139_boundary_refuted.

(** Without the limit of 2^-40: the latitude just below 90 has no code with the portable conversion (the conversion to an unsigned
    integer is undefined), and the code of a cell of the south pole with the other one. *)
Definition below_90 : b64 := @B754_finite 53 1024 false 6333186975989759 (-46) eq_refl.
Theorem C139_pole_refuted : real below_90 < 90 /\ (exists w, f_gh_encode false (b_of_Z 0) below_90 64 = UB w) /\
  (exists h, f_gh_encode true (b_of_Z 0) below_90 2 = Ok h /\ (south (cell_of 2 h) == -90 /\ north (cell_of 2 h) == 0)%Q).
Proof.
  split.
  { unfold below_90. cbn [B2R cond_Zopp]. unfold F2R. cbn [Fnum Fexp]. change (bpow radix2 (-46)) with (/ 70368744177664). lra. }
  split.
  - assert (H : match f_gh_encode false (b_of_Z 0) below_90 64 with UB _ => true | _ => false end = true) by (vm_compute; reflexivity).
    destruct (f_gh_encode false (b_of_Z 0) below_90 64); try discriminate. eauto.
  - exists 2%Z. split; [|split; reflexivity].
    assert (H : code_is (f_gh_encode true (b_of_Z 0) below_90 2) 2 = true) by (vm_compute; reflexivity).
    unfold code_is in H. destruct (f_gh_encode true (b_of_Z 0) below_90 2); try discriminate. apply Z.eqb_eq in H. congruence.
Qed.
Print Assumptions C139_pole_refuted.
