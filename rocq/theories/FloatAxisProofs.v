(** Lemmas about FloatAxisModel.v: errors of the rounded operations. *)
From Coq Require Import ZArith Reals Lra Psatz.
From Flocq Require Import Core BinarySingleNaN Relative.
From Verif Require Import Base FloatAxisModel.
Open Scope R_scope.

Notation rnd := (round radix2 (FLT_exp (3 - 1024 - 53) 53) ZnearestE).
(** Half an ulp of 1. *)
Definition U : R := / 9007199254740992.
(** A tiny number. *)
Definition tiny : R := bpow radix2 (-1070).

Lemma U_pos : 0 < U. Proof. unfold U. lra. Qed.
Lemma U_bpow : U = / 2 * bpow radix2 (- 53 + 1).
Proof. unfold U. change (bpow radix2 (-53 + 1)) with (/ 4503599627370496). lra. Qed.
Lemma tiny_pos : 0 < tiny. Proof. apply bpow_gt_0. Qed.
Lemma U_eq : U = bpow radix2 (-53). Proof. reflexivity. Qed.

Lemma rnd_error : forall x, Rabs (rnd x - x) <= U * Rabs x + tiny.
Proof.
  intros x. destruct (error_N_FLT radix2 (3 - 1024 - 53) 53 eq_refl (fun t => negb (Z.even t)) x) as (eps & eta & A & B & _ & E).
  change (3 - 1024 - 53)%Z with (-1074)%Z in *.
  rewrite E. replace (x * (1 + eps) + eta - x) with (x * eps + eta) by ring.
  eapply Rle_trans; [apply Rabs_triang|]. rewrite Rabs_mult. rewrite U_bpow.
  apply Rplus_le_compat; [rewrite Rmult_comm; apply Rmult_le_compat_r; [apply Rabs_pos|exact A]|].
  eapply Rle_trans; [exact B|]. unfold tiny.
  apply Rle_trans with (bpow radix2 (-1074)).
  - pose proof (bpow_gt_0 radix2 (-1074)). lra.
  - apply bpow_le. discriminate.
Qed.
Lemma rnd_bound : forall x, Rabs x <= bpow radix2 1000 -> Rlt_bool (Rabs (rnd x)) (bpow radix2 1024) = true.
Proof.
  intros x X. apply Rlt_bool_true. apply Rle_lt_trans with (bpow radix2 1001).
  - apply abs_round_le_generic; [apply FLT_exp_valid; reflexivity|apply valid_rnd_N| |].
    + apply generic_format_bpow. unfold FLT_exp. cbn. lia.
    + eapply Rle_trans; [exact X|]. apply bpow_le. discriminate.
  - apply bpow_lt. reflexivity.
Qed.

Lemma plus_ok : forall x y, finite x = true -> finite y = true -> Rabs (real x + real y) <= bpow radix2 1000 ->
  finite (b_plus x y) = true /\ Rabs (real (b_plus x y) - (real x + real y)) <= U * Rabs (real x + real y) + tiny.
Proof.
  intros x y X Y B. pose proof (@Bplus_correct 53 1024 b64_prec b64_emax mode_NE x y X Y) as H.
  cbn [round_mode] in H. rewrite rnd_bound in H by exact B. destruct H as (E & F & _).
  unfold b_plus. split; [exact F|]. rewrite E. apply rnd_error.
Qed.
Lemma minus_ok : forall x y, finite x = true -> finite y = true -> Rabs (real x - real y) <= bpow radix2 1000 ->
  finite (b_minus x y) = true /\ Rabs (real (b_minus x y) - (real x - real y)) <= U * Rabs (real x - real y) + tiny.
Proof.
  intros x y X Y B. pose proof (@Bminus_correct 53 1024 b64_prec b64_emax mode_NE x y X Y) as H.
  cbn [round_mode] in H. rewrite rnd_bound in H by exact B. destruct H as (E & F & _).
  unfold b_minus. split; [exact F|]. rewrite E. apply rnd_error.
Qed.
Lemma mult_ok : forall x y, finite x = true -> finite y = true -> Rabs (real x * real y) <= bpow radix2 1000 ->
  finite (b_mult x y) = true /\ Rabs (real (b_mult x y) - (real x * real y)) <= U * Rabs (real x * real y) + tiny.
Proof.
  intros x y X Y B. pose proof (@Bmult_correct 53 1024 b64_prec b64_emax mode_NE x y) as H.
  cbn [round_mode] in H. rewrite rnd_bound in H by exact B. destruct H as (E & F & _).
  unfold b_mult. split; [rewrite F, X, Y; reflexivity|]. rewrite E. apply rnd_error.
Qed.
Lemma div_ok : forall x y, finite x = true -> real y <> 0 -> Rabs (real x / real y) <= bpow radix2 1000 ->
  finite (b_div x y) = true /\ Rabs (real (b_div x y) - (real x / real y)) <= U * Rabs (real x / real y) + tiny.
Proof.
  intros x y X Y B. pose proof (@Bdiv_correct 53 1024 b64_prec b64_emax mode_NE x y Y) as H.
  cbn [round_mode] in H. rewrite rnd_bound in H by exact B. destruct H as (E & F & _).
  unfold b_div. split; [rewrite F; exact X|]. rewrite E. apply rnd_error.
Qed.
Lemma of_Z_ok : forall n, (Z.abs n <= 2 ^ 53)%Z -> finite (b_of_Z n) = true /\ real (b_of_Z n) = IZR n.
Proof.
  intros n H. pose proof (@binary_normalize_correct 53 1024 b64_prec b64_emax mode_NE n 0 false) as C. cbn zeta in C.
  assert (F : F2R (Float radix2 n 0) = IZR n) by (unfold F2R; cbn; ring). rewrite F in C.
  assert (R : rnd (IZR n) = IZR n).
  { apply round_generic; [apply valid_rnd_N|]. destruct (Z.eq_dec (Z.abs n) (2 ^ 53)) as [E|E].
    - assert (G : generic_format radix2 (FLT_exp (3 - 1024 - 53) 53) (IZR (2 ^ 53))).
      { change (IZR (2 ^ 53)) with (bpow radix2 53). apply generic_format_bpow. unfold FLT_exp. cbn. lia. }
      destruct (Z.abs_spec n) as [[_ A]|[_ A]]; rewrite A in E; [rewrite E; exact G|].
      replace n with (- 2 ^ 53)%Z by lia. rewrite opp_IZR. apply generic_format_opp. exact G.
    - rewrite <- F. apply generic_format_FLT. eapply FLT_spec; [reflexivity| |cbn; lia]. cbn [Fnum]. cbn. lia. }
  change (round radix2 (SpecFloat.fexp 53 1024) (round_mode mode_NE) (IZR n)) with (rnd (IZR n)) in C.
  rewrite R in C. rewrite Rlt_bool_true in C.
  - destruct C as (E & G & _). unfold b_of_Z. split; [exact G|exact E].
  - rewrite <- abs_IZR. apply Rle_lt_trans with (IZR (2 ^ 53)); [apply IZR_le; exact H|].
    change (IZR (2 ^ 53)) with (bpow radix2 53). apply bpow_lt. reflexivity.
Qed.

(** std::round. *)
Lemma std_round_ok : forall x, finite x = true -> exists r, std_round x = Some r /\ Rabs (IZR r - real x) <= / 2.
Proof.
  intros [s|s| |s m e B] H; try discriminate.
  - exists 0%Z. split; [reflexivity|]. cbn. rewrite Rminus_0_r, Rabs_R0. lra.
  - unfold std_round. set (v := if (0 <=? e)%Z then _ else _).
    exists (if s then - v else v)%Z. split; [reflexivity|].
    assert (V : Rabs (IZR v - F2R (Float radix2 (Zpos m) e)) <= / 2).
    { unfold v, F2R. cbn [Fnum Fexp]. destruct (0 <=? e)%Z eqn:E.
      - apply Z.leb_le in E. rewrite mult_IZR. rewrite (IZR_Zpower radix2 e E : IZR (2 ^ e) = bpow radix2 e).
        rewrite Rminus_eq_0, Rabs_R0. lra.
      - apply Z.leb_gt in E. set (k := (- e)%Z). assert (K : (0 < k)%Z) by (unfold k; lia).
        replace (1 - e)%Z with (k + 1)%Z by (unfold k; lia). rewrite Z.pow_add_r by lia. change (2 ^ 1)%Z with 2%Z.
        set (p := (2 ^ k)%Z). assert (P : (0 < p)%Z) by (apply Z.pow_pos_nonneg; lia).
        assert (BP : bpow radix2 e = / IZR p).
        { replace e with (- k)%Z by (unfold k; lia). rewrite bpow_opp. f_equal. symmetry. apply (IZR_Zpower radix2 k). lia. }
        rewrite BP. set (q := ((2 * Zpos m + p) / (p * 2))%Z).
        assert (D1 : (q * (p * 2) <= 2 * Zpos m + p)%Z) by (unfold q; rewrite Z.mul_comm; apply Z.mul_div_le; lia).
        assert (D2 : (2 * Zpos m + p < (q + 1) * (p * 2))%Z) by (unfold q; pose proof (Z.mul_succ_div_gt (2 * Zpos m + p) (p * 2) ltac:(lia)) as W; fold q in W; lia).
        apply IZR_le in D1. apply IZR_lt in D2. rewrite ?plus_IZR, ?mult_IZR, ?plus_IZR in D1. rewrite !mult_IZR, !plus_IZR, !mult_IZR in D2.
        assert (P' : 0 < IZR p) by (apply IZR_lt; exact P).
        assert (M : IZR (Zpos m) = IZR (Zpos m) * / IZR p * IZR p) by (field; lra).
        set (M' := IZR (Zpos m) * / IZR p) in *. rewrite M in D1, D2.
        assert (IZR q * 2 <= 2 * M' + 1) by (apply (Rmult_le_reg_r (IZR p)); [exact P'|lra]).
        assert (2 * M' + 1 < (IZR q + 1) * 2) by (apply (Rmult_lt_reg_r (IZR p)); [exact P'|lra]).
        apply Rabs_le. split; lra. }
    cbn [B2R]. destruct s; cbn [cond_Zopp]; [|exact V].
    change (Z.neg m) with (- Zpos m)%Z. rewrite F2R_Zopp, opp_IZR.
    replace (- IZR v - - F2R (Float radix2 (Z.pos m) e)) with (- (IZR v - F2R (Float radix2 (Z.pos m) e))) by ring.
    rewrite Rabs_Ropp. exact V.
Qed.

(** ** The raw index *)
Definition raw (a : faxis) (c : b64) : b64 := b_mult (b_minus c (f_start a)) (f_inv a).
(** The numbers of the axis are far from the limits of binary64, the first point is at most 2^46 steps away from zero, and the
    inverse of the step is correct. *)
Record well (a : faxis) : Prop := Well {
  w_start : finite (f_start a) = true; w_step : finite (f_step a) = true; w_inv : finite (f_inv a) = true;
  w_size : (1 <= f_size a <= 2 ^ 46)%Z;
  w_low : bpow radix2 (-900) <= Rabs (real (f_step a)); w_high : Rabs (real (f_step a)) <= bpow radix2 900;
  w_near : Rabs (real (f_start a)) <= IZR (2 ^ 46) * Rabs (real (f_step a));
  w_one : Rabs (real (f_inv a) * real (f_step a) - 1) <= 2 * U }.

Lemma tiny_U : tiny <= U.
Proof. rewrite U_eq. apply bpow_le. discriminate. Qed.
Lemma tiny_UT : forall T, bpow radix2 (-900) <= T -> tiny <= U * T.
Proof.
  intros T H. apply Rle_trans with (U * bpow radix2 (-900)); [|apply Rmult_le_compat_l; [left; apply U_pos|exact H]].
  rewrite U_eq, <- bpow_plus. apply bpow_le. discriminate.
Qed.
Lemma step_pos : forall a, well a -> 0 < Rabs (real (f_step a)).
Proof. intros a W. eapply Rlt_le_trans; [apply bpow_gt_0|apply (w_low a W)]. Qed.
Lemma step_nonzero : forall a, well a -> real (f_step a) <> 0.
Proof. intros a W E. pose proof (step_pos a W) as P. rewrite E, Rabs_R0 in P. lra. Qed.
Lemma scaled : forall T n, (0 <= n <= 100)%Z -> T <= bpow radix2 900 -> IZR (2 ^ n) * T <= bpow radix2 1000.
Proof.
  intros T n N H. rewrite (IZR_Zpower radix2 n ltac:(lia) : IZR (2 ^ n) = bpow radix2 n). apply Rle_trans with (bpow radix2 n * bpow radix2 900).
  - apply Rmult_le_compat_l; [apply bpow_ge_0|exact H].
  - rewrite <- bpow_plus. apply bpow_le. lia.
Qed.
Lemma abs_scale : forall s e b, s <> 0 -> Rabs (s * e) <= b * Rabs s -> Rabs e <= b.
Proof.
  intros s e b S H. rewrite Rabs_mult in H. assert (0 < Rabs s) by (apply Rabs_pos_lt; exact S).
  apply (Rmult_le_reg_l (Rabs s)); [assumption|]. lra.
Qed.

(** [x]: the position of the coordinate, in steps from the first point. *)
Lemma raw_ok : forall a c x, well a -> finite c = true -> real c = real (f_start a) + x * real (f_step a) -> Rabs x <= IZR (2 ^ 62) ->
  finite (raw a c) = true /\ Rabs (real (raw a c) - x) <= 8 * U * (Rabs x + 1).
Proof.
  intros a c x W C X B. pose proof (step_pos a W) as TP. pose proof (step_nonzero a W) as SZ.
  pose proof U_pos as UP. assert (US : U <= / 1000000) by (unfold U; lra).
  set (s := real (f_step a)) in *. set (T := Rabs s) in *.
  destruct (minus_ok c (f_start a)) as (F1 & E1); [exact C|apply (w_start a W)| |].
  { rewrite X. replace (_ + x * s - _) with (x * s) by ring. rewrite Rabs_mult. fold T.
    eapply Rle_trans; [apply Rmult_le_compat_r; [left; exact TP|exact B]|]. apply scaled; [lia|apply (w_high a W)]. }
  rewrite X in E1. replace (real (f_start a) + x * s - real (f_start a)) with (x * s) in E1 by ring.
  set (d := real (b_minus c (f_start a))) in *.
  set (D := d / s). assert (Dd : d = s * D) by (unfold D; field; exact SZ).
  assert (ED : Rabs (D - x) <= U * (Rabs x + 1)).
  { apply (abs_scale s); [exact SZ|]. replace (s * (D - x)) with (d - x * s) by (rewrite Dd; ring).
    eapply Rle_trans; [exact E1|]. rewrite Rabs_mult. fold T. pose proof (tiny_UT T (w_low a W)). lra. }
  pose proof (w_one a W) as WO. fold s in WO. set (V := real (f_inv a) * s) in *.
  assert (AD : Rabs D <= Rabs x + U * (Rabs x + 1)).
  { replace D with (x + (D - x)) by ring. eapply Rle_trans; [apply Rabs_triang|]. lra. }
  assert (AV : Rabs V <= 1 + 2 * U).
  { replace V with (1 + (V - 1)) by ring. eapply Rle_trans; [apply Rabs_triang|]. rewrite Rabs_R1. lra. }
  pose proof (Rabs_pos x) as PX. pose proof (Rabs_pos D) as PD. pose proof (Rabs_pos V) as PV.
  assert (DV : d * real (f_inv a) = D * V) by (rewrite Dd; unfold V; ring).
  assert (AD2 : Rabs D <= 2 * (Rabs x + 1)) by nra.
  assert (ADV : Rabs (D * V) <= Rabs D * (1 + 2 * U)) by (rewrite Rabs_mult; apply Rmult_le_compat_l; assumption).
  destruct (mult_ok (b_minus c (f_start a)) (f_inv a)) as (F2 & E2); [exact F1|apply (w_inv a W)| |].
  { fold d. rewrite DV. eapply Rle_trans; [exact ADV|].
    apply Rle_trans with (IZR (2 ^ 62) * 8); [|change 8 with (bpow radix2 3); rewrite (IZR_Zpower radix2 62 ltac:(lia) : IZR (2 ^ 62) = bpow radix2 62); rewrite <- bpow_plus; apply bpow_le; discriminate].
    assert (1 <= IZR (2 ^ 62)) by (apply IZR_le; discriminate). nra. }
  fold d in E2. rewrite DV in E2. split; [exact F2|]. unfold raw.
  set (q := real (b_mult _ _)) in *.
  replace (q - x) with ((q - D * V) + D * (V - 1) + (D - x)) by ring.
  eapply Rle_trans; [apply Rabs_triang|]. eapply Rle_trans; [apply Rplus_le_compat_r; apply Rabs_triang|].
  rewrite Rabs_mult. assert (Rabs D * Rabs (V - 1) <= Rabs D * (2 * U)) by (apply Rmult_le_compat_l; assumption).
  pose proof tiny_U. assert (U * Rabs (D * V) <= U * (Rabs D * (1 + 2 * U))) by (apply Rmult_le_compat_l; [lra|assumption]).
  assert (Rabs D * U <= (Rabs x + U * (Rabs x + 1)) * U) by (apply Rmult_le_compat_r; lra).
  assert (U * U <= U * / 1000000) by (apply Rmult_le_compat_l; lra).
  assert (Rabs D * U * U <= 2 * (Rabs x + 1) * (U * / 1000000)).
  { rewrite Rmult_assoc. apply Rmult_le_compat; try assumption. nra. }
  assert (U * (Rabs x + 1) * U <= (Rabs x + 1) * (U * / 1000000)).
  { replace (U * (Rabs x + 1) * U) with ((Rabs x + 1) * (U * U)) by ring. apply Rmult_le_compat_l; lra. }
  nra.
Qed.

(** The index before the comparison with the bounds. *)
Lemma index_ok : forall a c x, well a -> finite c = true -> real c = real (f_start a) + x * real (f_step a) -> Rabs x <= IZR (2 ^ 62) ->
  exists r, to_int64 (std_round (raw a c)) = Ok r /\ Rabs (IZR r - x) <= / 2 + 8 * U * (Rabs x + 1).
Proof.
  intros a c x W C X B. destruct (raw_ok a c x W C X B) as (F & E).
  destruct (std_round_ok _ F) as (r & R & D). exists r.
  assert (K : Rabs (IZR r - x) <= / 2 + 8 * U * (Rabs x + 1)).
  { replace (IZR r - x) with ((IZR r - real (raw a c)) + (real (raw a c) - x)) by ring. eapply Rle_trans; [apply Rabs_triang|]. lra. }
  split; [|exact K]. rewrite R. cbn [to_int64].
  assert (Rabs (IZR r) <= IZR (2 ^ 62) + 10000).
  { replace (IZR r) with (x + (IZR r - x)) by ring. eapply Rle_trans; [apply Rabs_triang|].
    assert (8 * U * (Rabs x + 1) <= 8 * U * (IZR (2 ^ 62) + 1)) by (apply Rmult_le_compat_l; [pose proof U_pos; lra|lra]).
    assert (8 * U * (IZR (2 ^ 62) + 1) <= 4098) by (unfold U; change (2 ^ 62)%Z with 4611686018427387904%Z; lra). lra. }
  assert (Z.abs r <= 2 ^ 62 + 10000)%Z by (apply le_IZR; rewrite abs_IZR, plus_IZR; assumption).
  destruct ((- 2 ^ 63 <=? r)%Z && (r <? 2 ^ 63)%Z) eqn:G; [reflexivity|].
  apply andb_false_iff in G. destruct G as [G|G]; [apply Z.leb_gt in G|apply Z.ltb_ge in G]; lia.
Qed.
(** Not far from a point: the index of this point. *)
Lemma index_near : forall a c x i, well a -> finite c = true -> real c = real (f_start a) + x * real (f_step a) ->
  (Z.abs i <= 2 ^ 46)%Z -> Rabs (x - IZR i) <= / 4 -> to_int64 (std_round (raw a c)) = Ok i.
Proof.
  intros a c x i W C X I N.
  assert (AI : Rabs (IZR i) <= IZR (2 ^ 46)) by (rewrite <- abs_IZR; apply IZR_le; exact I).
  assert (AX : Rabs x <= IZR (2 ^ 46) + 1).
  { replace x with (IZR i + (x - IZR i)) by ring. eapply Rle_trans; [apply Rabs_triang|]. lra. }
  destruct (index_ok a c x W C X) as (r & R & E).
  { eapply Rle_trans; [exact AX|]. rewrite <- plus_IZR. apply IZR_le. discriminate. }
  rewrite R. f_equal.
  assert (8 * U * (Rabs x + 1) <= 8 * U * (IZR (2 ^ 46) + 2)) by (apply Rmult_le_compat_l; [pose proof U_pos; lra|lra]).
  assert (8 * U * (IZR (2 ^ 46) + 2) <= / 8) by (unfold U; change (2 ^ 46)%Z with 70368744177664%Z; lra).
  assert (Rabs (IZR (r - i)) < 1).
  { rewrite minus_IZR. replace (IZR r - IZR i) with ((IZR r - x) + (x - IZR i)) by ring. eapply Rle_lt_trans; [apply Rabs_triang|]. lra. }
  rewrite <- abs_IZR in H1. apply lt_IZR in H1. lia.
Qed.

(** ** The points *)
Lemma point_error : forall a i, well a -> (Z.abs i <= 2 ^ 46)%Z ->
  finite (f_value a i) = true /\ exists x, real (f_value a i) = real (f_start a) + x * real (f_step a) /\ Rabs (x - IZR i) <= 2 * U * (Rabs (real (f_start a)) / Rabs (real (f_step a)) + Rabs (IZR i) + 2).
Proof.
  intros a i W I. pose proof (step_pos a W) as TP. pose proof (step_nonzero a W) as SZ. pose proof U_pos as UP.
  set (s := real (f_step a)) in *. set (T := Rabs s) in *.
  assert (AI : Rabs (IZR i) <= IZR (2 ^ 46)) by (rewrite <- abs_IZR; apply IZR_le; exact I).
  destruct (of_Z_ok i) as (FI & EI); [eapply Z.le_trans; [exact I|discriminate]|].
  pose proof (tiny_UT T (w_low a W)) as TU. pose proof (Rabs_pos (IZR i)) as PI.
  assert (BIG : IZR (2 ^ 47) * T <= bpow radix2 1000) by (apply scaled; [lia|apply (w_high a W)]).
  change (2 ^ 46)%Z with 70368744177664%Z in *. change (2 ^ 47)%Z with 140737488355328%Z in *.
  destruct (mult_ok (b_of_Z i) (f_step a)) as (F1 & E1); [exact FI|apply (w_step a W)| |].
  { rewrite EI. fold s. rewrite Rabs_mult. fold T. nra. }
  rewrite EI in E1. fold s in E1. set (m := real (b_mult (b_of_Z i) (f_step a))) in *.
  set (M := m / s). assert (Mm : m = s * M) by (unfold M; field; exact SZ).
  assert (EM : Rabs (M - IZR i) <= U * (Rabs (IZR i) + 1)).
  { apply (abs_scale s); [exact SZ|]. replace (s * (M - IZR i)) with (m - IZR i * s) by (rewrite Mm; ring).
    eapply Rle_trans; [exact E1|]. rewrite Rabs_mult. fold T. lra. }
  assert (US : U = / 9007199254740992) by reflexivity.
  assert (AM : Rabs M <= 70368744177665).
  { replace M with (IZR i + (M - IZR i)) by ring. eapply Rle_trans; [apply Rabs_triang|].
    assert (U * (Rabs (IZR i) + 1) <= U * 70368744177665) by (apply Rmult_le_compat_l; lra). rewrite US in *. lra. }
  pose proof (w_near a W) as WN. fold s in WN. fold T in WN. change (2 ^ 46)%Z with 70368744177664%Z in WN.
  assert (AS : Rabs (real (f_start a) + m) <= 140737488355328.5 * T + 0.5 * T).
  { eapply Rle_trans; [apply Rabs_triang|]. rewrite Mm, Rabs_mult. fold T.
    assert (T * Rabs M <= T * 70368744177665) by (apply Rmult_le_compat_l; lra). lra. }
  assert (BIG2 : IZR (2 ^ 48) * T <= bpow radix2 1000) by (apply scaled; [lia|apply (w_high a W)]).
  change (2 ^ 48)%Z with 281474976710656%Z in BIG2.
  destruct (plus_ok (f_start a) (b_mult (b_of_Z i) (f_step a))) as (F2 & E2); [apply (w_start a W)|exact F1|fold m; lra|].
  fold m in E2. unfold f_value. split; [exact F2|].
  set (v := real (b_plus _ _)) in *.
  exists ((v - real (f_start a)) / s). split; [field; exact SZ|].
  apply (abs_scale s); [exact SZ|].
  replace (s * ((v - real (f_start a)) / s - IZR i)) with ((v - (real (f_start a) + m)) + s * (M - IZR i)).
  2:{ rewrite Mm. field. exact SZ. }
  eapply Rle_trans; [apply Rabs_triang|]. rewrite (Rabs_mult s). fold T.
  set (sigma := Rabs (real (f_start a)) / T). assert (ST : Rabs (real (f_start a)) = sigma * T) by (unfold sigma; field; lra).
  assert (AM2 : Rabs M <= Rabs (IZR i) + U * (Rabs (IZR i) + 1)).
  { replace M with (IZR i + (M - IZR i)) by ring. eapply Rle_trans; [apply Rabs_triang|]. lra. }
  assert (U * (Rabs (IZR i) + 1) <= 1).
  { assert (U * (Rabs (IZR i) + 1) <= U * 70368744177665) by (apply Rmult_le_compat_l; lra). rewrite US in *. lra. }
  assert (T * Rabs (M - IZR i) <= T * (U * (Rabs (IZR i) + 1))) by (apply Rmult_le_compat_l; lra).
  assert (Rabs (real (f_start a) + m) <= sigma * T + T * (Rabs (IZR i) + 1)).
  { eapply Rle_trans; [apply Rabs_triang|]. rewrite ST, Mm, Rabs_mult. fold T. apply Rplus_le_compat_l. apply Rmult_le_compat_l; lra. }
  assert (U * Rabs (real (f_start a) + m) <= U * (sigma * T + T * (Rabs (IZR i) + 1))) by (apply Rmult_le_compat_l; lra).
  assert (0 <= sigma * T) by (rewrite <- ST; apply Rabs_pos).
  assert (0 <= U * (sigma * T)) by (apply Rmult_le_pos; lra).
  assert (0 <= U * T) by (apply Rmult_le_pos; lra).
  lra.
Qed.
Lemma point_ok : forall a i, well a -> (Z.abs i <= 2 ^ 46)%Z ->
  finite (f_value a i) = true /\ exists x, real (f_value a i) = real (f_start a) + x * real (f_step a) /\ Rabs (x - IZR i) <= / 16.
Proof.
  intros a i W I. destruct (point_error a i W I) as (F & x & E & B). split; [exact F|]. exists x. split; [exact E|].
  eapply Rle_trans; [exact B|]. pose proof (step_pos a W) as TP. pose proof (w_near a W) as WN.
  assert (AI : Rabs (IZR i) <= IZR (2 ^ 46)) by (rewrite <- abs_IZR; apply IZR_le; exact I).
  assert (Rabs (real (f_start a)) / Rabs (real (f_step a)) <= IZR (2 ^ 46)).
  { apply (Rmult_le_reg_r (Rabs (real (f_step a)))); [exact TP|]. unfold Rdiv. rewrite Rmult_assoc, Rinv_l by lra. lra. }
  change (2 ^ 46)%Z with 70368744177664%Z in *. unfold U. lra.
Qed.

(** ** Construction *)
Lemma b_eqb_false : forall x y, finite x = true -> finite y = true -> real x <> real y -> b_eqb x y = false.
Proof.
  intros x y X Y N. unfold b_eqb. rewrite (Beqb_correct 53 1024 x y X Y). destruct (Req_bool_spec (real x) (real y)); [contradiction|reflexivity].
Qed.
(** The limits for [regular]: [h] is the exact step. *)
Lemma regular_ok : forall start stop n h, finite start = true -> finite stop = true -> (2 <= n <= 2 ^ 46)%Z ->
  real stop - real start = IZR (n - 1) * h -> bpow radix2 (-899) <= Rabs h -> Rabs h <= bpow radix2 899 ->
  Rabs (real start) <= IZR (2 ^ 45) * Rabs h ->
  exists a, f_regular start stop n = Ok a /\ well a /\ f_start a = start /\ f_size a = n /\ Rabs (real (f_step a) - h) <= 8 * U * Rabs h.
Proof.
  intros start stop n h FS FT N E L Hh NR. pose proof U_pos as UP. assert (US : U = / 9007199254740992) by reflexivity.
  set (A := Rabs h) in *. assert (AP : 0 < A) by (eapply Rlt_le_trans; [apply bpow_gt_0|exact L]).
  assert (HZ : h <> 0) by (intros Z; unfold A in AP; rewrite Z, Rabs_R0 in AP; lra).
  assert (TU : tiny <= U * A). { apply tiny_UT. eapply Rle_trans; [|exact L]. apply bpow_le. discriminate. }
  set (k := IZR (n - 1)) in *. assert (K1 : 1 <= k) by (apply IZR_le; lia).
  assert (K2 : k <= IZR (2 ^ 46)) by (apply IZR_le; lia).
  assert (KA : Rabs k = k) by (apply Rabs_pos_eq; lra).
  assert (NE : real start <> real stop).
  { intros Z. rewrite Z in E. rewrite Rminus_eq_0 in E. symmetry in E. apply Rmult_integral in E. destruct E; lra. }
  destruct (minus_ok stop start FT FS) as (F1 & E1).
  { rewrite E, Rabs_mult, KA. fold A. apply Rle_trans with (IZR (2 ^ 46) * A); [apply Rmult_le_compat_r; lra|].
    apply scaled; [lia|]. eapply Rle_trans; [exact Hh|]. apply bpow_le. discriminate. }
  rewrite E in E1. rewrite Rabs_mult, KA in E1. fold A in E1.
  destruct (of_Z_ok n) as (F2 & E2); [change (2 ^ 46)%Z with 70368744177664%Z in N; change (2 ^ 53)%Z with 9007199254740992%Z; lia|].
  destruct (of_Z_ok 1) as (F3 & E3); [discriminate|].
  assert (KM : finite (b_minus (b_of_Z n) (b_of_Z 1)) = true /\ real (b_minus (b_of_Z n) (b_of_Z 1)) = k).
  { pose proof (@Bminus_correct 53 1024 b64_prec b64_emax mode_NE _ _ F2 F3) as H. cbn [round_mode] in H.
    rewrite E2, E3 in H. rewrite <- minus_IZR in H. fold k in H.
    assert (RK : rnd k = k).
    { destruct (of_Z_ok (n - 1)) as (F4 & E4); [change (2 ^ 46)%Z with 70368744177664%Z in N; change (2 ^ 53)%Z with 9007199254740992%Z; lia|].
      fold k in E4. rewrite <- E4. apply round_generic; [apply valid_rnd_N|]. apply (generic_format_B2R 53 1024). }
    rewrite rnd_bound in H. 2:{ rewrite KA. eapply Rle_trans; [exact K2|]. change (IZR (2 ^ 46)) with (bpow radix2 46). apply bpow_le. discriminate. }
    destruct H as (E4 & F4 & _). split; [exact F4|]. etransitivity; [exact E4|]. exact RK. }
  destruct KM as (F4 & E4).
  set (w := real (b_minus stop start)) in *.
  assert (WK : Rabs (w / k - h) <= U * A + U * A).
  { apply (abs_scale k); [lra|]. replace (k * (w / k - h)) with (w - k * h) by (field; lra). eapply Rle_trans; [exact E1|]. rewrite KA. nra. }
  assert (AW : Rabs (w / k) <= 2 * A).
  { replace (w / k) with (h + (w / k - h)) by ring. eapply Rle_trans; [apply Rabs_triang|]. fold A. rewrite US in *. lra. }
  assert (H1000 : 2 * A <= bpow radix2 900).
  { change 2 with (bpow radix2 1). apply Rle_trans with (bpow radix2 1 * bpow radix2 899); [apply Rmult_le_compat_l; [apply bpow_ge_0|exact Hh]|].
    rewrite <- bpow_plus. apply bpow_le. discriminate. }
  assert (B9 : bpow radix2 900 <= bpow radix2 1000) by (apply bpow_le; discriminate).
  destruct (div_ok (b_minus stop start) (b_minus (b_of_Z n) (b_of_Z 1))) as (F5 & E5); [exact F1|rewrite E4; lra|rewrite E4; fold w; lra|].
  rewrite E4 in E5. fold w in E5. set (st := b_div (b_minus stop start) (b_minus (b_of_Z n) (b_of_Z 1))) in *.
  assert (SH : Rabs (real st - h) <= 8 * U * A).
  { replace (real st - h) with ((real st - w / k) + (w / k - h)) by ring. eapply Rle_trans; [apply Rabs_triang|].
    assert (U * Rabs (w / k) <= U * (2 * A)) by (apply Rmult_le_compat_l; lra). assert (0 < U * A) by (apply Rmult_lt_0_compat; assumption). lra. }
  assert (SL : A * / 2 <= Rabs (real st) <= 2 * A).
  { split.
    - assert (Rabs h <= Rabs (real st) + Rabs (h - real st)) by (replace h with (real st + (h - real st)) at 1 by ring; apply Rabs_triang).
      rewrite (Rabs_minus_sym h) in H. fold A in H. rewrite US in *. lra.
    - replace (real st) with (h + (real st - h)) by ring. eapply Rle_trans; [apply Rabs_triang|]. fold A. rewrite US in *. lra. }
  assert (SL9 : bpow radix2 (-900) <= Rabs (real st)).
  { eapply Rle_trans; [|apply SL]. change (bpow radix2 (-900)) with (bpow radix2 (-899 + -1)). rewrite bpow_plus. change (bpow radix2 (-1)) with (/ 2).
    apply Rmult_le_compat_r; [lra|exact L]. }
  assert (STZ : real st <> 0). { intros Z. rewrite Z, Rabs_R0 in SL9. pose proof (bpow_gt_0 radix2 (-900)). lra. }
  assert (IB : Rabs (1 / real st) <= bpow radix2 900).
  { unfold Rdiv. rewrite Rmult_1_l, Rabs_inv. replace (bpow radix2 900) with (/ bpow radix2 (-900)).
    - apply Rinv_le_contravar; [apply bpow_gt_0|exact SL9].
    - rewrite <- bpow_opp. reflexivity. }
  destruct (div_ok (b_of_Z 1) st) as (F6 & E6); [exact F3|exact STZ|rewrite E3; lra|]. rewrite E3 in E6.
  unfold f_regular. destruct (n =? 0)%Z eqn:N0; [apply Z.eqb_eq in N0; lia|]. rewrite (b_eqb_false _ _ FS FT NE).
  destruct (n =? 1)%Z eqn:N1; [apply Z.eqb_eq in N1; lia|].
  exists (FAxis n start st (b_div (b_of_Z 1) st)). split; [reflexivity|]. split; [|split; [reflexivity|split; [reflexivity|exact SH]]].
  constructor; cbn [f_start f_step f_inv f_size].
  - exact FS.
  - rewrite F5. reflexivity.
  - exact F6.
  - lia.
  - exact SL9.
  - lra.
  - eapply Rle_trans; [exact NR|]. replace (IZR (2 ^ 46)) with (IZR (2 ^ 45) * 2) by (rewrite <- mult_IZR; reflexivity).
    rewrite Rmult_assoc. apply Rmult_le_compat_l; [apply IZR_le; discriminate|]. lra.
  - apply (Rmult_le_reg_r (Rabs (/ real st))); [apply Rabs_pos_lt, Rinv_neq_0_compat; exact STZ|].
    rewrite <- Rabs_mult. replace ((real (b_div (b_of_Z 1) st) * real st - 1) * / real st) with (real (b_div (b_of_Z 1) st) - 1 / real st) by (field; exact STZ).
    eapply Rle_trans; [exact E6|]. unfold Rdiv. rewrite Rmult_1_l.
    assert (tiny <= U * Rabs (/ real st)); [|lra].
    rewrite Rabs_inv. apply tiny_UT. apply Rle_trans with (/ bpow radix2 900); [rewrite <- bpow_opp; right; reflexivity|].
    apply Rinv_le_contravar; lra.
Qed.
