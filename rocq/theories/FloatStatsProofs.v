(** Lemmas about FloatStatsModel.v. *)
From Coq Require Import ZArith Reals Lra Psatz List.
From Flocq Require Import Core Plus_error BinarySingleNaN.
From Verif Require Import Base FloatAxisModel FloatAxisProofs FloatGridModel FloatGridProofs FloatCircleModel FloatCircleProofs FloatStatsModel.
Import ListNotations.
Open Scope R_scope.

Notation inF := (generic_format radix2 (FLT_exp (3 - 1024 - 53) 53)).

(** One step of the mean does not leave the interval between the mean and the sample: the quotient is at most half of the distance. *)
Lemma rnd_same : forall x, inF x -> rnd x = x.
Proof. intros x H. apply round_generic; [apply valid_rnd_N|exact H]. Qed.
Lemma rnd_opp : forall x, rnd (- x) = - rnd x.
Proof. intros x. apply round_NE_opp. Qed.
Lemma rnd_nonpos : forall x, x <= 0 -> rnd x <= 0.
Proof. intros x H. apply Rle_trans with (rnd 0); [apply rnd_le; exact H|right; apply rnd_0]. Qed.
Lemma small_minus : forall x m, inF x -> inF m -> Rabs (x - m) <= bpow radix2 (-1021) -> inF (x - m).
Proof.
  intros x m X M H. unfold Rminus. apply (@FLT_format_plus_small radix2 (3 - 1024 - 53) 53 b64_prec); [exact X|apply generic_format_opp; exact M|exact H].
Qed.
Lemma step_up : forall x m t, inF x -> inF m -> m <= x -> 0 <= t <= rnd (x - m) / 2 -> m <= rnd (m + rnd t) <= x.
Proof.
  intros x m t X M L T. pose proof U_pos as UP. pose proof tiny_pos as TP.
  assert (T0 : 0 <= rnd t) by (rewrite <- rnd_0; apply rnd_le; lra).
  assert (TU : rnd t <= x - m).
  { destruct (Rle_or_lt (x - m) (bpow radix2 (-1021))) as [S|S].
    - rewrite rnd_same in T by (apply small_minus; auto; rewrite Rabs_pos_eq; lra).
      apply Rle_trans with (rnd (x - m)); [apply rnd_le; lra|]. rewrite rnd_same; [lra|]. apply small_minus; auto. rewrite Rabs_pos_eq; lra.
    - pose proof (rnd_error (x - m)) as E1. pose proof (rnd_error (rnd (x - m) / 2)) as E2. rewrite (Rabs_pos_eq (x - m)) in E1 by lra.
      rewrite (Rabs_pos_eq (rnd (x - m) / 2)) in E2 by lra.
      pose proof (Rle_abs (rnd (x - m) - (x - m))) as A1. pose proof (Rle_abs (rnd (rnd (x - m) / 2) - rnd (x - m) / 2)) as A2.
      assert (B1 : rnd t <= rnd (rnd (x - m) / 2)) by (apply rnd_le; lra).
      assert (TS : tiny <= / 16 * (x - m)).
      { apply Rle_trans with (/ 16 * bpow radix2 (-1021)); [|lra]. change (/ 16) with (bpow radix2 (-4)). rewrite <- bpow_plus. apply bpow_le. discriminate. }
      set (y := x - m) in *. assert (UY : U * y <= / 16 * y) by (apply Rmult_le_compat_r; [lra|rewrite U_eq; change (/ 16) with (bpow radix2 (-4)); apply bpow_le; discriminate]).
      assert (R1 : rnd y <= (1 + / 8) * y) by lra.
      assert (U2 : U * (rnd y / 2) <= / 16 * (rnd y / 2)) by (apply Rmult_le_compat_r; [lra|rewrite U_eq; change (/ 16) with (bpow radix2 (-4)); apply bpow_le; discriminate]).
      lra. }
  split.
  - rewrite <- (rnd_same m M) at 1. apply rnd_le. lra.
  - apply Rle_trans with (rnd x); [apply rnd_le; lra|right; apply rnd_same; exact X].
Qed.
Lemma step_down : forall x m t, inF x -> inF m -> x <= m -> rnd (x - m) / 2 <= t <= 0 -> x <= rnd (m + rnd t) <= m.
Proof.
  intros x m t X M L T. assert (H : - m <= rnd (- m + rnd (- t)) <= - x).
  { apply step_up; try apply generic_format_opp; auto; [lra|]. replace (- x - - m) with (- (x - m)) by ring. rewrite rnd_opp. lra. }
  rewrite (rnd_opp t) in H. replace (- m + - rnd t) with (- (m + rnd t)) in H by ring. rewrite rnd_opp in H. lra.
Qed.

Definition small (x : b64) : Prop := finite x = true /\ Rabs (real x) <= bpow radix2 400.
Lemma small_bounds : forall x, small x -> - bpow radix2 400 <= real x <= bpow radix2 400.
Proof. intros x (_ & H). pose proof (Rle_abs (real x)). pose proof (Rle_abs (- real x)) as H'. rewrite Rabs_Ropp in H'. lra. Qed.
Lemma fmt_bpow : forall e, (-1074 <= e)%Z -> inF (bpow radix2 e).
Proof. intros e H. apply generic_format_bpow. unfold FLT_exp. lia. Qed.
Lemma rnd_abs_le : forall x y, inF y -> Rabs x <= y -> Rabs (rnd x) <= y.
Proof. intros x y Y H. apply abs_round_le_generic; [apply rnd_valid|apply valid_rnd_N|exact Y|exact H]. Qed.

Lemma delta_ok : forall x m, small x -> small m ->
  finite (b_minus x m) = true /\ real (b_minus x m) = rnd (real x - real m) /\ Rabs (real (b_minus x m)) <= bpow radix2 401.
Proof.
  intros x m X M. pose proof (small_bounds x X) as BX. pose proof (small_bounds m M) as BM.
  assert (B : Rabs (real x - real m) <= bpow radix2 401). { change (bpow radix2 401) with (bpow radix2 (1 + 400)). rewrite bpow_plus. change (bpow radix2 1) with 2. apply Rabs_le. lra. }
  destruct (minus_rnd x m (proj1 X) (proj1 M)) as (F & E). { eapply Rle_trans; [exact B|]. apply bpow_le. discriminate. }
  split; [exact F|]. split; [exact E|]. rewrite E. apply rnd_abs_le; [apply fmt_bpow; discriminate|exact B].
Qed.
(** The new mean, from any factor between 0 and one half. *)
Lemma mean_ok : forall x m a t, small x -> small m -> finite a = true -> real a = rnd (rnd (real x - real m) * t) -> 0 <= t <= / 2 ->
  finite (b_plus m a) = true /\ (real m <= real (b_plus m a) <= real x \/ real x <= real (b_plus m a) <= real m).
Proof.
  intros x m a t X M FA EA T. pose proof (small_bounds x X) as BX. pose proof (small_bounds m M) as BM.
  set (d := rnd (real x - real m)) in *.
  assert (B4 : 0 < bpow radix2 400) by apply bpow_gt_0.
  assert (H : Rabs (real m + real a) <= bpow radix2 1000 /\ (real m <= rnd (real m + real a) <= real x \/ real x <= rnd (real m + real a) <= real m)).
  { assert (AB : Rabs (real a) <= bpow radix2 401).
    { rewrite EA. apply rnd_abs_le; [apply fmt_bpow; discriminate|]. rewrite Rabs_mult, (Rabs_pos_eq t) by lra. apply Rle_trans with (Rabs d * 1); [apply Rmult_le_compat_l; [apply Rabs_pos|lra]|].
      rewrite Rmult_1_r. apply rnd_abs_le; [apply fmt_bpow; discriminate|]. change (bpow radix2 401) with (bpow radix2 (1 + 400)). rewrite bpow_plus. change (bpow radix2 1) with 2. apply Rabs_le. lra. }
    split.
    - eapply Rle_trans; [apply Rabs_triang|]. apply Rle_trans with (bpow radix2 400 + bpow radix2 401); [apply Rplus_le_compat; [apply M|exact AB]|].
      change (bpow radix2 401) with (bpow radix2 (1 + 400)). rewrite bpow_plus. change (bpow radix2 1) with 2.
      apply Rle_trans with (bpow radix2 2 * bpow radix2 400); [change (bpow radix2 2) with 4; lra|]. rewrite <- bpow_plus. apply bpow_le. discriminate.
    - rewrite EA. destruct (Rle_or_lt (real m) (real x)) as [L|L]; [left|right].
      + apply step_up; try apply fmt; auto. fold d. assert (D : 0 <= d) by (unfold d; rewrite <- rnd_0; apply rnd_le; lra). split; [apply Rmult_le_pos; lra|].
        assert (d * t <= d * / 2) by (apply Rmult_le_compat_l; lra). lra.
      + apply step_down; try apply fmt; try lra. fold d. assert (D : d <= 0) by (unfold d; rewrite <- rnd_0; apply rnd_le; lra).
        assert (- d * t <= - d * / 2) by (apply Rmult_le_compat_l; lra). assert (0 <= - d * t) by (apply Rmult_le_pos; lra). lra. }
  destruct H as (B & H). destruct (plus_rnd m a (proj1 M) FA B) as (F & E). split; [exact F|]. rewrite E. exact H.
Qed.
(** The increment of the second moment: two factors of the same sign. *)
Lemma product_ok : forall a b ka kb, finite a = true -> finite b = true -> 0 <= real a * real b -> Rabs (real a) <= bpow radix2 ka -> Rabs (real b) <= bpow radix2 kb ->
  (0 <= ka + kb <= 1000)%Z -> finite (b_mult a b) = true /\ 0 <= real (b_mult a b) <= bpow radix2 (ka + kb).
Proof.
  intros a b ka kb FA FB P BA BB K. assert (B : Rabs (real a * real b) <= bpow radix2 (ka + kb)).
  { rewrite Rabs_mult, bpow_plus. apply Rmult_le_compat; try apply Rabs_pos; assumption. }
  destruct (mult_rnd a b FA FB) as (F & E). { eapply Rle_trans; [exact B|]. apply bpow_le. lia. }
  split; [exact F|]. split; [rewrite E, <- rnd_0; apply rnd_le; exact P|]. eapply Rle_trans; [apply Rle_abs|]. rewrite E. apply rnd_abs_le; [apply fmt_bpow; lia|exact B].
Qed.
(** The sum of [n] terms at most [T = 2^860]. *)
Definition T : R := bpow radix2 860.
Lemma fmt_T : forall n, (0 <= n <= 2 ^ 53)%Z -> inF (IZR n * T).
Proof.
  intros n N. destruct (Z.eq_dec n (2 ^ 53)) as [->|NE].
  - rewrite (IZR_Zpower radix2 53 ltac:(discriminate) : IZR (2 ^ 53) = bpow radix2 53). unfold T. rewrite <- bpow_plus. apply fmt_bpow. discriminate.
  - apply generic_format_FLT. exists (Float radix2 n 860); [reflexivity| |]; cbn [Fnum Fexp]; [|discriminate]. rewrite Z.abs_eq by lia. change (radix2 ^ 53)%Z with (2 ^ 53)%Z. lia.
Qed.
Lemma sum_T : forall s p n, finite s = true -> finite p = true -> (0 <= n < 2 ^ 53)%Z -> 0 <= real s <= IZR n * T -> 0 <= real p <= T ->
  finite (b_plus s p) = true /\ 0 <= real (b_plus s p) <= IZR (n + 1) * T.
Proof.
  intros s p n FS FP N S P. assert (B : 0 <= real s + real p <= IZR (n + 1) * T) by (rewrite plus_IZR; lra).
  assert (TB : IZR (n + 1) * T <= bpow radix2 913).
  { change (bpow radix2 913) with (bpow radix2 (53 + 860)). rewrite bpow_plus. apply Rmult_le_compat_r; [apply bpow_ge_0|].
    rewrite <- (IZR_Zpower radix2 53 ltac:(discriminate) : IZR (2 ^ 53) = bpow radix2 53). apply IZR_le. lia. }
  destruct (plus_rnd s p FS FP) as (F & E). { rewrite Rabs_pos_eq by lra. eapply Rle_trans; [apply B|]. eapply Rle_trans; [exact TB|]. apply bpow_le. discriminate. }
  split; [exact F|]. rewrite E. split; [rewrite <- rnd_0; apply rnd_le; lra|]. apply Rle_trans with (rnd (IZR (n + 1) * T)); [apply rnd_le; apply B|right; apply rnd_same; apply fmt_T; lia].
Qed.
Lemma T_bound : forall k, (k <= 860)%Z -> bpow radix2 k <= T. Proof. intros k H. apply bpow_le. exact H. Qed.

(** ** The invariant: [vs], the samples so far. *)
Record stats_of (vs : list b64) (s : fstat) : Prop := StatsOf {
  so_count : fs_count s = Z.of_nat (length vs); so_some : (1 <= Z.of_nat (length vs) <= 2 ^ 53)%Z;
  so_weights : finite (fs_weights s) = true /\ real (fs_weights s) = IZR (Z.of_nat (length vs));
  so_mean : finite (fs_mean s) = true /\ real (fs_min s) <= real (fs_mean s) <= real (fs_max s);
  so_min : finite (fs_min s) = true /\ (exists v, In v vs /\ real (fs_min s) = real v) /\ (forall v, In v vs -> real (fs_min s) <= real v);
  so_max : finite (fs_max s) = true /\ (exists v, In v vs /\ real (fs_max s) = real v) /\ (forall v, In v vs -> real v <= real (fs_max s));
  so_mom2 : finite (fs_mom2 s) = true /\ 0 <= real (fs_mom2 s) <= IZR (Z.of_nat (length vs)) * T }.
Lemma mean_small : forall vs s, Forall small vs -> stats_of vs s -> small (fs_mean s).
Proof.
  intros vs s V [_ _ _ (FM & BM) (_ & (v & IV & EV) & _) (_ & (w & IW & EW) & _) _]. rewrite Forall_forall in V.
  pose proof (small_bounds v (V v IV)). pose proof (small_bounds w (V w IW)). split; [exact FM|]. apply Rabs_le. lra.
Qed.
Lemma first_ok : forall v, small v -> stats_of [v] (fs_first v (b_of_Z 1)).
Proof.
  intros v V. destruct of_1 as (F1 & E1). destruct of_0 as (F0 & E0).
  destruct (mult_exact (b_of_Z 1) v v F1 (proj1 V)) as (FM & EM); [rewrite E1; ring|].
  constructor; cbn [fs_first fs_count fs_weights fs_mean fs_min fs_max fs_mom2 length]; auto.
  - cbn. lia.
  - split; [apply V|]. rewrite EM. lra.
  - split; [exact FM|]. rewrite EM. split; [exists v; split; [left; reflexivity|reflexivity]|]. intros w [->|[]]. lra.
  - split; [exact FM|]. rewrite EM. split; [exists v; split; [left; reflexivity|reflexivity]|]. intros w [->|[]]. lra.
  - split; [exact F0|]. rewrite E0. cbn. pose proof (bpow_gt_0 radix2 860). unfold T. lra.
Qed.
Lemma weights_ok : forall vs s, stats_of vs s -> (Z.of_nat (length vs) < 2 ^ 53)%Z ->
  b_eqb (fs_weights s) (b_of_Z 0) = false /\ finite (b_plus (fs_weights s) (b_of_Z 1)) = true /\
  real (b_plus (fs_weights s) (b_of_Z 1)) = IZR (Z.of_nat (length vs) + 1).
Proof.
  intros vs s [_ N (F & E) _ _ _ _] L. destruct of_1 as (F1 & E1). destruct of_0 as (F0 & E0). split.
  - apply b_eqb_false; auto. rewrite E, E0. apply IZR_neq. lia.
  - destruct (of_Z_ok (Z.of_nat (length vs) + 1)) as (F2 & E2); [lia|]. rewrite <- E2. apply plus_exact; auto. rewrite E, E1, E2, plus_IZR. reflexivity.
Qed.
(** The new limits. *)
Lemma limits_ok : forall vs s v mn mx, stats_of vs s -> finite v = true ->
  mn = (if b_ltb v (fs_min s) then v else fs_min s) -> (mx = (if b_ltb (fs_max s) v then v else fs_max s)) ->
  (finite mn = true /\ (exists w, In w (vs ++ [v]) /\ real mn = real w) /\ (forall w, In w (vs ++ [v]) -> real mn <= real w)) /\
  (finite mx = true /\ (exists w, In w (vs ++ [v]) /\ real mx = real w) /\ (forall w, In w (vs ++ [v]) -> real w <= real mx)) /\
  real mn <= real (fs_min s) /\ real mn <= real v /\ real (fs_max s) <= real mx /\ real v <= real mx.
Proof.
  intros vs s v mn mx [_ _ _ _ (F1 & (a & IA & EA) & LA) (F2 & (b & IB & EB) & LB) _] FV -> ->.
  assert (L1 : forall x y, finite x = true -> finite y = true -> b_ltb x y = false -> real y <= real x).
  { intros x y X Y H. destruct (Rle_or_lt (real y) (real x)) as [Q|Q]; [exact Q|]. apply ltb_iff in Q; auto. congruence. }
  destruct (b_ltb v (fs_min s)) eqn:H1.
  - apply ltb_iff in H1; auto. split; [|destruct (b_ltb (fs_max s) v) eqn:H2].
    + split; [exact FV|]. split; [exists v; split; [apply in_or_app; right; left; reflexivity|reflexivity]|]. intros w W. apply in_app_or in W as [W|[<-|[]]]; [|lra]. specialize (LA w W). lra.
    + apply ltb_iff in H2; auto. split; [|lra]. split; [exact FV|]. split; [exists v; split; [apply in_or_app; right; left; reflexivity|reflexivity]|]. intros w W. apply in_app_or in W as [W|[<-|[]]]; [|lra]. specialize (LB w W). lra.
    + apply L1 in H2; auto. split; [|lra]. split; [exact F2|]. split; [exists b; split; [apply in_or_app; auto|exact EB]|]. intros w W. apply in_app_or in W as [W|[<-|[]]]; [|lra]. specialize (LB w W). lra.
  - apply L1 in H1; auto. split; [|destruct (b_ltb (fs_max s) v) eqn:H2].
    + split; [exact F1|]. split; [exists a; split; [apply in_or_app; auto|exact EA]|]. intros w W. apply in_app_or in W as [W|[<-|[]]]; [|lra]. specialize (LA w W). lra.
    + apply ltb_iff in H2; auto. split; [|lra]. split; [exact FV|]. split; [exists v; split; [apply in_or_app; right; left; reflexivity|reflexivity]|]. intros w W. apply in_app_or in W as [W|[<-|[]]]; [|lra]. specialize (LB w W). lra.
    + apply L1 in H2; auto. split; [|lra]. split; [exact F2|]. split; [exists b; split; [apply in_or_app; auto|exact EB]|]. intros w W. apply in_app_or in W as [W|[<-|[]]]; [|lra]. specialize (LB w W). lra.
Qed.
Lemma half_rnd : rnd (/ 2) = / 2. Proof. change (/ 2) with (bpow radix2 (-1)). apply rnd_same. apply fmt_bpow. discriminate. Qed.

Lemma push_ok : forall vs s v, Forall small vs -> stats_of vs s -> small v -> (Z.of_nat (length vs) < 2 ^ 53)%Z -> stats_of (vs ++ [v]) (fs_push s v).
Proof.
  intros vs s v V G SV L. pose proof (mean_small vs s V G) as SM. destruct (weights_ok vs s G L) as (NZ & FW & EW). destruct of_1 as (F1 & E1).
  unfold fs_push. rewrite NZ. set (w := b_plus (fs_weights s) (b_of_Z 1)) in *. pose proof (so_some _ _ G) as N.
  assert (W2 : 2 <= real w) by (rewrite EW; apply IZR_le; lia).
  assert (Q : 0 <= 1 / real w <= / 2). { unfold Rdiv. rewrite Rmult_1_l. split; [left; apply Rinv_0_lt_compat; lra|]. apply Rinv_le; lra. }
  destruct (div_rnd (b_of_Z 1) w F1) as (FI & EI); [lra| |].
  { rewrite E1, Rabs_pos_eq by lra. apply Rle_trans with (bpow radix2 0); [change (bpow radix2 0) with 1; lra|apply bpow_le; discriminate]. }
  rewrite E1 in EI. set (i := b_div (b_of_Z 1) w) in *.
  assert (BI : 0 <= real i <= / 2) by (rewrite EI; split; [rewrite <- rnd_0; apply rnd_le; lra|apply Rle_trans with (rnd (/ 2)); [apply rnd_le; lra|right; apply half_rnd]]).
  destruct (delta_ok v (fs_mean s) SV SM) as (FD & ED & BD). set (d := b_minus v (fs_mean s)) in *.
  destruct (mult_rnd d i FD FI) as (FA & EA).
  { rewrite Rabs_mult, (Rabs_pos_eq (real i)) by lra. apply Rle_trans with (Rabs (real d) * 1); [apply Rmult_le_compat_l; [apply Rabs_pos|lra]|]. rewrite Rmult_1_r. eapply Rle_trans; [exact BD|]. apply bpow_le. discriminate. }
  rewrite ED in EA. destruct (mean_ok v (fs_mean s) (b_mult d i) (real i) SV SM FA EA BI) as (FM & BM). set (m := b_plus (fs_mean s) (b_mult d i)) in *.
  assert (SM' : small m). { split; [exact FM|]. pose proof (small_bounds _ SV). pose proof (small_bounds _ SM). apply Rabs_le. lra. }
  destruct (delta_ok v m SV SM') as (FB & EB & BB). set (b := b_minus v m) in *.
  destruct (product_ok d b 401 401 FD FB) as (FP & BP); auto; [|split; discriminate|].
  { rewrite ED, EB. destruct BM as [BM|BM].
    - apply Rmult_le_pos; rewrite <- rnd_0; apply rnd_le; lra.
    - assert (rnd (real v - real (fs_mean s)) <= 0) by (apply rnd_nonpos; lra). assert (rnd (real v - real m) <= 0) by (apply rnd_nonpos; lra).
      replace (rnd (real v - real (fs_mean s)) * rnd (real v - real m)) with (- rnd (real v - real (fs_mean s)) * - rnd (real v - real m)) by ring. apply Rmult_le_pos; lra. }
  assert (LN : Z.of_nat (length (vs ++ [v])) = (Z.of_nat (length vs) + 1)%Z) by (rewrite app_length, Nat2Z.inj_add; reflexivity).
  assert (EMX : (if b_ltb v (fs_min s) then fs_max s else if b_ltb (fs_max s) v then v else fs_max s) = (if b_ltb (fs_max s) v then v else fs_max s)).
  { destruct (b_ltb v (fs_min s)) eqn:H1; [|reflexivity]. destruct (b_ltb (fs_max s) v) eqn:H2; [|reflexivity]. exfalso. destruct G as [_ _ _ (FFM & MM) (FMN & _) (FMX & _) _].
    apply ltb_iff in H1; [|apply SV|exact FMN]. apply ltb_iff in H2; [|exact FMX|apply SV]. lra. }
  rewrite EMX. destruct (limits_ok vs s v _ _ G (proj1 SV) eq_refl eq_refl) as (PMN & PMX & L1 & L2 & L3 & L4).
  pose proof (so_mean _ _ G) as (_ & MM). pose proof (so_mom2 _ _ G) as (FMM & BMM).
  destruct (sum_T (fs_mom2 s) (b_mult d b) (Z.of_nat (length vs))) as (FS & BS); auto; [lia|split; [apply BP|eapply Rle_trans; [apply BP|apply T_bound; discriminate]]|].
  constructor; cbn [fs_count fs_weights fs_mean fs_min fs_max fs_mom2]; rewrite ?LN; auto.
  - rewrite (so_count _ _ G). reflexivity.
  - lia.
  - split; [exact FM|]. lra.
Qed.

Lemma push1_ok : forall vs s v, Forall small vs -> stats_of vs s -> small v -> (Z.of_nat (length vs) < 2 ^ 53)%Z -> stats_of (vs ++ [v]) (fs_push_weighted s v (b_of_Z 1)).
Proof.
  intros vs s v V G SV L. pose proof (mean_small vs s V G) as SM. destruct (weights_ok vs s G L) as (NZ & FW & EW). destruct of_1 as (F1 & E1). destruct of_0 as (F0 & E0).
  unfold fs_push_weighted. rewrite NZ. unfold fs_merge. cbn [fs_first fs_count fs_weights fs_mean fs_min fs_max fs_mom2 fs_sum].
  set (w := b_plus (fs_weights s) (b_of_Z 1)) in *. pose proof (so_some _ _ G) as N. pose proof (so_weights _ _ G) as (FWS & EWS).
  destruct (mult_exact (b_of_Z 1) v v F1 (proj1 SV)) as (FV1 & EV1); [rewrite E1; ring|]. set (v1 := b_mult (b_of_Z 1) v) in *.
  assert (W2 : 2 <= real w) by (rewrite EW; apply IZR_le; lia).
  assert (Q : 0 <= / real w <= / 2). { split; [left; apply Rinv_0_lt_compat; lra|]. apply Rinv_le; lra. }
  destruct (delta_ok v (fs_mean s) SV SM) as (FD & ED & BD). set (d := b_minus v (fs_mean s)) in *.
  assert (BQ : Rabs (real d / real w) <= bpow radix2 401).
  { unfold Rdiv. rewrite Rabs_mult, (Rabs_pos_eq (/ real w)) by lra. apply Rle_trans with (Rabs (real d) * 1); [apply Rmult_le_compat_l; [apply Rabs_pos|lra]|]. lra. }
  destruct (div_rnd d w FD) as (FA & EA); [lra|eapply Rle_trans; [exact BQ|]; apply bpow_le; discriminate|]. set (q := b_div d w) in *.
  assert (BA : Rabs (real q) <= bpow radix2 401) by (rewrite EA; apply rnd_abs_le; [apply fmt_bpow; discriminate|exact BQ]).
  destruct (mult_exact (b_of_Z 1) q q F1 FA) as (FQ1 & EQ1); [rewrite E1; ring|]. set (q1 := b_mult (b_of_Z 1) q) in *.
  assert (EQ : real q1 = rnd (rnd (real v - real (fs_mean s)) * / real w)) by (rewrite EQ1, EA, ED; reflexivity).
  destruct (mean_ok v (fs_mean s) q1 (/ real w) SV SM FQ1 EQ Q) as (FM & BM). set (m := b_plus (fs_mean s) q1) in *.
  destruct (mult_exact (fs_weights s) (b_of_Z 1) (fs_weights s) FWS F1) as (FWW & EWW); [rewrite E1; ring|]. set (ww := b_mult (fs_weights s) (b_of_Z 1)) in *.
  assert (BW : 0 <= real ww <= bpow radix2 53).
  { rewrite EWW, EWS. split; [apply IZR_le; lia|]. rewrite <- (IZR_Zpower radix2 53 ltac:(discriminate) : IZR (2 ^ 53) = bpow radix2 53). apply IZR_le. lia. }
  assert (B1 : Rabs (real ww * real d) <= bpow radix2 454).
  { rewrite Rabs_mult, (Rabs_pos_eq (real ww)) by lra. change (bpow radix2 454) with (bpow radix2 (53 + 401)). rewrite bpow_plus. apply Rmult_le_compat; try apply Rabs_pos; lra. }
  destruct (mult_rnd ww d FWW FD) as (FX & EX); [eapply Rle_trans; [exact B1|]; apply bpow_le; discriminate|]. set (x := b_mult ww d) in *.
  destruct (product_ok x q 454 401 FX FA) as (FP & BP); auto; [|rewrite EX; apply rnd_abs_le; [apply fmt_bpow; discriminate|exact B1]|split; discriminate|].
  { rewrite EX, EA. destruct (Rle_or_lt 0 (real d)) as [D|D].
    - apply Rmult_le_pos; rewrite <- rnd_0; apply rnd_le; [apply Rmult_le_pos; lra|]. unfold Rdiv. apply Rmult_le_pos; lra.
    - assert (P1 : 0 <= real ww * - real d) by (apply Rmult_le_pos; lra). assert (P2 : 0 <= - real d * / real w) by (apply Rmult_le_pos; lra).
      assert (rnd (real ww * real d) <= 0) by (apply rnd_nonpos; lra).
      assert (rnd (real d / real w) <= 0) by (apply rnd_nonpos; unfold Rdiv; lra).
      replace (rnd (real ww * real d) * rnd (real d / real w)) with (- rnd (real ww * real d) * - rnd (real d / real w)) by ring. apply Rmult_le_pos; lra. }
  destruct (plus_exact (b_of_Z 0) (b_mult x q) (b_mult x q) F0 FP) as (FZ & EZ); [rewrite E0; ring|]. set (z := b_plus (b_of_Z 0) (b_mult x q)) in *.
  assert (LN : Z.of_nat (length (vs ++ [v])) = (Z.of_nat (length vs) + 1)%Z) by (rewrite app_length, Nat2Z.inj_add; reflexivity).
  destruct (limits_ok vs s v1 _ _ G FV1 eq_refl eq_refl) as (PMN & PMX & L1 & L2 & L3 & L4).
  assert (TR : forall r, (exists a, In a (vs ++ [v1]) /\ r = real a) -> exists a, In a (vs ++ [v]) /\ r = real a).
  { intros r (a & I & E). apply in_app_or in I as [I|[<-|[]]]; [exists a; split; [apply in_or_app; auto|exact E]|]. exists v. split; [apply in_or_app; right; left; reflexivity|]. rewrite E, EV1. reflexivity. }
  assert (TA : forall P : R -> Prop, (forall a, In a (vs ++ [v1]) -> P (real a)) -> forall a, In a (vs ++ [v]) -> P (real a)).
  { intros P H a I. apply in_app_or in I as [I|[<-|[]]]; [apply H; apply in_or_app; auto|]. rewrite <- EV1. apply H. apply in_or_app; right; left; reflexivity. }
  pose proof (so_mean _ _ G) as (_ & MM). pose proof (so_mom2 _ _ G) as (FMM & BMM). rewrite EV1 in L2, L4.
  destruct (sum_T (fs_mom2 s) z (Z.of_nat (length vs))) as (FS & BS); auto; [lia|rewrite EZ; split; [apply BP|eapply Rle_trans; [apply BP|apply T_bound; discriminate]]|].
  constructor; cbn [fs_count fs_weights fs_mean fs_min fs_max fs_mom2]; rewrite ?LN; auto.
  - rewrite (so_count _ _ G). reflexivity.
  - lia.
  - split; [exact FM|]. lra.
  - destruct PMN as (A & B & C). split; [exact A|]. split; [apply TR; exact B|]. apply (TA (fun r => _ <= r)). exact C.
  - destruct PMX as (A & B & C). split; [exact A|]. split; [apply TR; exact B|]. apply (TA (fun r => r <= _)). exact C.
Qed.
