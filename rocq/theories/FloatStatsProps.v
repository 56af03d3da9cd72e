(** Theorems about the descriptive statistics in the arithmetic of the machine (property C138). *)
From Coq Require Import ZArith Reals Lra Psatz List.
From Flocq Require Import Core BinarySingleNaN.
From Verif Require Import Base FloatAxisModel FloatAxisProofs FloatAxisProps FloatGridModel FloatGridProofs FloatCircleModel FloatCircleProofs FloatStatsModel FloatStatsProofs.
Import ListNotations.
Open Scope R_scope.

(** The samples: the values of the array that are not NaN. *)
Definition samples (values : list b64) : list b64 := filter (fun v => negb (is_nan_b64 v)) values.
(** NaN, or finite and of absolute value at most 2^400. *)
Definition acceptable (v : b64) : Prop := is_nan_b64 v = true \/ (finite v = true /\ Rabs (real v) <= bpow radix2 400).
(** What the user reads. *)
Record correct (vs : list b64) (s : fstat) : Prop := Correct {
  k_count : fs_count s = Z.of_nat (length vs);
  k_weights : finite (fs_weights s) = true /\ real (fs_weights s) = IZR (Z.of_nat (length vs));
  k_min : finite (fs_min s) = true /\ (exists v, In v vs /\ real (fs_min s) = real v) /\ (forall v, In v vs -> real (fs_min s) <= real v);
  k_max : finite (fs_max s) = true /\ (exists v, In v vs /\ real (fs_max s) = real v) /\ (forall v, In v vs -> real v <= real (fs_max s));
  k_mean : finite (fs_mean s) = true /\ real (fs_min s) <= real (fs_mean s) <= real (fs_max s);
  k_variance : forall ddof, (0 <= ddof < Z.of_nat (length vs))%Z -> exists v, fs_variance s ddof = Some v /\ finite v = true /\ 0 <= real v }.

Lemma stats_correct : forall vs s, stats_of vs s -> correct vs s.
Proof.
  intros vs s [A N B C D E F]. constructor; auto. intros ddof H. destruct B as (FW & EW). destruct F as (FM & BM). destruct of_0 as (F0 & E0).
  destruct (of_Z_ok ddof) as (FD & ED); [lia|]. destruct (of_Z_ok (Z.of_nat (length vs) - ddof)) as (FC & EC); [lia|].
  destruct (minus_exact (fs_weights s) (b_of_Z ddof) (b_of_Z (Z.of_nat (length vs) - ddof)) FW FD) as (FF & EE). { rewrite EW, ED, EC, minus_IZR. reflexivity. }
  unfold fs_variance. cbv zeta. set (c := b_minus (fs_weights s) (b_of_Z ddof)) in *. rewrite EC in EE.
  assert (C1 : 1 <= real c) by (rewrite EE; apply IZR_le; lia).
  replace (b_leb c (b_of_Z 0)) with false. 2:{ symmetry. destruct (b_leb c (b_of_Z 0)) eqn:Q; [|reflexivity]. apply leb_iff in Q; auto. lra. }
  assert (TB : IZR (Z.of_nat (length vs)) * T <= bpow radix2 913).
  { change (bpow radix2 913) with (bpow radix2 (53 + 860)). rewrite bpow_plus. apply Rmult_le_compat_r; [apply bpow_ge_0|].
    rewrite <- (IZR_Zpower radix2 53 ltac:(discriminate) : IZR (2 ^ 53) = bpow radix2 53). apply IZR_le. lia. }
  assert (I : 0 <= / real c <= 1). { split; [left; apply Rinv_0_lt_compat; lra|]. rewrite <- Rinv_1. apply Rinv_le; lra. }
  assert (QB : 0 <= real (fs_mom2 s) / real c <= bpow radix2 913).
  { unfold Rdiv. split; [apply Rmult_le_pos; lra|]. apply Rle_trans with (real (fs_mom2 s) * 1); [apply Rmult_le_compat_l; lra|lra]. }
  destruct (div_rnd (fs_mom2 s) c FM) as (FV & EV); [lra|rewrite Rabs_pos_eq by lra; eapply Rle_trans; [apply QB|]; apply bpow_le; discriminate|].
  exists (b_div (fs_mom2 s) c). split; [reflexivity|]. split; [exact FV|]. rewrite EV, <- rnd_0. apply rnd_le. lra.
Qed.

Definition run (push : fstat -> b64 -> fstat) (s : fstat) (values : list b64) : fstat := fold_left (fun s v => if is_nan_b64 v then s else push s v) values s.
Definition keeps (push : fstat -> b64 -> fstat) : Prop :=
  forall vs s v, Forall small vs -> stats_of vs s -> small v -> (Z.of_nat (length vs) < 2 ^ 53)%Z -> stats_of (vs ++ [v]) (push s v).
Lemma run_next : forall push, keeps push -> forall values vs s, Forall acceptable values -> Forall small vs -> stats_of vs s -> (Z.of_nat (length (vs ++ samples values)) <= 2 ^ 53)%Z ->
  stats_of (vs ++ samples values) (run push s values).
Proof.
  intros push push_next. induction values as [|v l IH]; intros vs s AC V G L; [cbn [samples filter run fold_left]; rewrite app_nil_r; exact G|].
  inversion AC as [|? ? AV AL]; subst. unfold run, samples in *. cbn [filter fold_left] in *. destruct (is_nan_b64 v) eqn:E; cbn [negb] in *.
  - apply IH; auto.
  - destruct AV as [AV|AV]; [congruence|]. change (vs ++ v :: ?l) with (vs ++ [v] ++ l). rewrite app_assoc. apply IH; auto.
    + apply Forall_app. split; [exact V|]. constructor; [exact AV|constructor].
    + apply push_next; auto. rewrite app_length in L. cbn [length] in L. lia.
    + rewrite <- app_assoc. exact L.
Qed.
Lemma run_ok : forall push, (forall v, push fs_clear v = fs_first v (b_of_Z 1)) -> keeps push -> forall values, Forall acceptable values -> samples values <> [] -> (Z.of_nat (length (samples values)) <= 2 ^ 53)%Z ->
  stats_of (samples values) (run push fs_clear values).
Proof.
  intros push push_first push_next. induction values as [|v l IH]; intros AC NE L; [contradiction NE; reflexivity|].
  inversion AC as [|? ? AV AL]; subst. unfold run, samples in *. cbn [filter fold_left] in *. destruct (is_nan_b64 v) eqn:E; cbn [negb] in *.
  - apply IH; auto.
  - destruct AV as [AV|AV]; [congruence|]. rewrite push_first. apply (run_next push push_next l [v]); auto. apply first_ok. exact AV.
Qed.
Lemma clear_first : b_eqb (fs_weights fs_clear) (b_of_Z 0) = true. Proof. vm_compute. reflexivity. Qed.
Lemma push_clear : forall v, fs_push fs_clear v = fs_first v (b_of_Z 1).
Proof. intros v. unfold fs_push. rewrite clear_first. reflexivity. Qed.
Lemma push1_clear : forall v, fs_push_weighted fs_clear v (b_of_Z 1) = fs_first v (b_of_Z 1).
Proof. intros v. unfold fs_push_weighted. rewrite clear_first. reflexivity. Qed.
Lemma array_ok : forall values, Forall acceptable values -> samples values <> [] -> (Z.of_nat (length (samples values)) <= 2 ^ 53)%Z -> stats_of (samples values) (fs_array values).
Proof. apply (run_ok fs_push); [|exact push_ok]. exact push_clear. Qed.
Lemma axis_ok : forall values, Forall acceptable values -> samples values <> [] -> (Z.of_nat (length (samples values)) <= 2 ^ 53)%Z -> stats_of (samples values) (fs_axis values).
Proof. apply (run_ok (fun s v => fs_push_weighted s v (b_of_Z 1))); [|exact push1_ok]. exact push1_clear. Qed.

(** The statistics of a whole array, without weights: the count and the limits are exact; the mean is between the limits and the
    variance is a number, not negative, whatever the rounding. *)
Theorem C138_array : forall values, Forall acceptable values -> samples values <> [] -> (Z.of_nat (length (samples values)) <= 2 ^ 53)%Z ->
  correct (samples values) (fs_array values).
Proof. intros. apply stats_correct. apply array_ok; assumption. Qed.
Print Assumptions C138_array.
(** The same for a cell of a reduced array (another algorithm). *)
Theorem C138_axis : forall values, Forall acceptable values -> samples values <> [] -> (Z.of_nat (length (samples values)) <= 2 ^ 53)%Z ->
  correct (samples values) (fs_axis values).
Proof. intros. apply stats_correct. apply axis_ok; assumption. Qed.
Print Assumptions C138_axis.

(** ** Equal values: the mean is exactly the value, the variance exactly zero. *)
Lemma zero_product : forall a b, finite a = true -> finite b = true -> real a = 0 -> finite (b_mult a b) = true /\ real (b_mult a b) = 0.
Proof. intros a b A B E. destruct of_0 as (F0 & E0). rewrite <- E0. apply mult_exact; auto. rewrite E, E0. ring. Qed.
Lemma same_mean : forall vs s c, stats_of vs s -> (forall v, In v vs -> real v = c) -> real (fs_mean s) = c.
Proof. intros vs s c [_ _ _ (_ & B) (_ & (v & I & E) & _) (_ & (w & J & F) & _) _] H. rewrite (H v I) in E. rewrite (H w J) in F. lra. Qed.
Lemma same_delta : forall x m, small x -> small m -> real x = real m -> finite (b_minus x m) = true /\ real (b_minus x m) = 0.
Proof. intros x m X M E. destruct (delta_ok x m X M) as (F & R & _). split; [exact F|]. rewrite R, E, Rminus_eq_0. apply rnd_0. Qed.
Lemma push_flat : forall vs s v c, Forall small vs -> stats_of vs s -> small v -> (Z.of_nat (length vs) < 2 ^ 53)%Z ->
  (forall w, In w (vs ++ [v]) -> real w = c) -> real (fs_mom2 s) = 0 -> real (fs_mom2 (fs_push s v)) = 0 /\ real (fs_mom2 (fs_push_weighted s v (b_of_Z 1))) = 0.
Proof.
  intros vs s v c V G SV L H Z. destruct of_0 as (F0 & E0). destruct of_1 as (F1 & E1). pose proof (mean_small vs s V G) as SM.
  assert (EM : real (fs_mean s) = c) by (apply (same_mean vs); [exact G|intros w W; apply H; apply in_or_app; auto]).
  assert (EV : real v = c) by (apply H; apply in_or_app; right; left; reflexivity).
  destruct (same_delta v (fs_mean s) SV SM) as (FD & ED); [rewrite EM, EV; reflexivity|].
  destruct (weights_ok vs s G L) as (NZ & FW & EW). pose proof (so_some _ _ G) as N. pose proof (so_mom2 _ _ G) as (FM & _). pose proof (so_weights _ _ G) as (FWS & EWS).
  pose proof (push_ok vs s v V G SV L) as GP.
  assert (VV : Forall small (vs ++ [v])) by (apply Forall_app; split; [exact V|constructor; [exact SV|constructor]]).
  pose proof (mean_small _ _ VV GP) as SP. pose proof (same_mean _ _ c GP H) as EP. split.
  - unfold fs_push in *. rewrite NZ in *. cbn [fs_mom2 fs_mean] in *.
    destruct (same_delta v _ SV SP) as (FB & EB); [rewrite EP, EV; reflexivity|].
    destruct (zero_product _ _ FD FB ED) as (FZ & EZ). destruct (plus_exact (fs_mom2 s) _ (fs_mom2 s) FM FZ) as (_ & ->); [rewrite EZ; ring|exact Z].
  - unfold fs_push_weighted. rewrite NZ. unfold fs_merge. cbn [fs_first fs_count fs_weights fs_mean fs_min fs_max fs_mom2 fs_sum].
    destruct (mult_exact (fs_weights s) (b_of_Z 1) (fs_weights s) FWS F1) as (FWW & EWW); [rewrite E1; ring|].
    destruct (mult_exact (b_mult (fs_weights s) (b_of_Z 1)) (b_minus v (fs_mean s)) (b_of_Z 0) FWW FD) as (FX & EX); [rewrite ED, E0; ring|]. rewrite E0 in EX.
    assert (W2 : 2 <= real (b_plus (fs_weights s) (b_of_Z 1))) by (rewrite EW; apply IZR_le; lia).
    destruct (div_rnd (b_minus v (fs_mean s)) (b_plus (fs_weights s) (b_of_Z 1)) FD) as (FQ & EQ); [lra| |].
    { rewrite ED. unfold Rdiv. rewrite Rmult_0_l, Rabs_R0. apply bpow_ge_0. }
    destruct (zero_product _ _ FX FQ EX) as (FP & EPP). destruct (plus_exact (b_of_Z 0) _ (b_of_Z 0) F0 FP) as (FY & EY); [rewrite EPP; ring|]. rewrite E0 in EY.
    destruct (plus_exact (fs_mom2 s) _ (fs_mom2 s) FM FY) as (_ & ->); [rewrite EY; ring|exact Z].
Qed.
Lemma run_flat : forall push c, (forall v, push fs_clear v = fs_first v (b_of_Z 1)) ->
  (forall vs s v, Forall small vs -> stats_of vs s -> small v -> (Z.of_nat (length vs) < 2 ^ 53)%Z -> stats_of (vs ++ [v]) (push s v)) ->
  (forall vs s v, Forall small vs -> stats_of vs s -> small v -> (Z.of_nat (length vs) < 2 ^ 53)%Z ->
     (forall w, In w (vs ++ [v]) -> real w = c) -> real (fs_mom2 s) = 0 -> real (fs_mom2 (push s v)) = 0) ->
  forall values, Forall acceptable values -> samples values <> [] -> (Z.of_nat (length (samples values)) <= 2 ^ 53)%Z -> (forall v, In v (samples values) -> real v = c) ->
  real (fs_mom2 (fold_left (fun s v => if is_nan_b64 v then s else push s v) values fs_clear)) = 0.
Proof.
  intros push c P1 P2 P3.
  assert (NX : forall l vs s, Forall acceptable l -> Forall small vs -> stats_of vs s -> (Z.of_nat (length (vs ++ samples l)) <= 2 ^ 53)%Z ->
    (forall v, In v (vs ++ samples l) -> real v = c) -> real (fs_mom2 s) = 0 -> real (fs_mom2 (fold_left (fun s v => if is_nan_b64 v then s else push s v) l s)) = 0).
  { induction l as [|v l IH]; intros vs s AC V G L H Z; [exact Z|]. inversion AC as [|? ? AV AL]; subst. unfold samples in *. cbn [filter fold_left] in *.
    destruct (is_nan_b64 v) eqn:E; cbn [negb] in *; [apply (IH vs); auto|]. destruct AV as [AV|AV]; [congruence|].
    assert (LV : (Z.of_nat (length vs) < 2 ^ 53)%Z) by (rewrite app_length in L; cbn [length] in L; lia).
    assert (HV : forall w, In w (vs ++ [v]) -> real w = c). { intros w W. apply H. apply in_app_or in W as [W|[<-|[]]]; apply in_or_app; [auto|right; left; reflexivity]. }
    apply (IH (vs ++ [v])); auto.
    - apply Forall_app. split; [exact V|]. constructor; [exact AV|constructor].
    - rewrite <- app_assoc. exact L.
    - rewrite <- app_assoc. exact H.
    - apply (P3 vs); auto. }
  induction values as [|v l IH]; intros AC NE L H; [contradiction NE; reflexivity|].
  inversion AC as [|? ? AV AL]; subst. unfold samples in *. cbn [filter fold_left] in *. destruct (is_nan_b64 v) eqn:E; cbn [negb] in *; [apply IH; auto|].
  destruct AV as [AV|AV]; [congruence|]. rewrite P1. destruct of_0 as (_ & E0).
  exact (NX l [v] (fs_first v (b_of_Z 1)) AL (Forall_cons v AV (Forall_nil small)) (first_ok v AV) L H E0).
Qed.
Theorem C138_constant : forall values c, Forall acceptable values -> samples values <> [] -> (Z.of_nat (length (samples values)) <= 2 ^ 53)%Z ->
  (forall v, In v (samples values) -> real v = c) -> forall s, s = fs_array values \/ s = fs_axis values ->
  real (fs_mean s) = c /\ forall ddof, (0 <= ddof < Z.of_nat (length (samples values)))%Z -> exists v, fs_variance s ddof = Some v /\ finite v = true /\ real v = 0.
Proof.
  intros values c AC NE L H s S0.
  assert (G : stats_of (samples values) s) by (destruct S0 as [->| ->]; [apply array_ok|apply axis_ok]; assumption).
  assert (Z : real (fs_mom2 s) = 0).
  { destruct S0 as [->| ->].
    - exact (run_flat fs_push c push_clear push_ok (fun vs s v V G SV L H Z => proj1 (push_flat vs s v c V G SV L H Z)) values AC NE L H).
    - exact (run_flat (fun s v => fs_push_weighted s v (b_of_Z 1)) c push1_clear push1_ok (fun vs s v V G SV L H Z => proj2 (push_flat vs s v c V G SV L H Z)) values AC NE L H). }
  split; [apply (same_mean (samples values)); auto|]. intros ddof D. destruct (k_variance _ _ (stats_correct _ _ G) ddof D) as (v & E & F & _).
  exists v. split; [exact E|]. split; [exact F|]. unfold fs_variance in E. cbv zeta in E. set (k := b_minus (fs_weights s) (b_of_Z ddof)) in *.
  destruct (b_leb k (b_of_Z 0)) eqn:Q; [discriminate|]. injection E as <-.
  pose proof (so_some _ _ G) as N. pose proof (so_weights _ _ G) as (FW & EW). destruct (of_Z_ok ddof) as (FD & ED); [lia|]. destruct (of_Z_ok (Z.of_nat (length (samples values)) - ddof)) as (FC & EC); [lia|].
  destruct (minus_exact (fs_weights s) (b_of_Z ddof) (b_of_Z (Z.of_nat (length (samples values)) - ddof)) FW FD) as (FF & EE). { rewrite EW, ED, EC, minus_IZR. reflexivity. }
  fold k in FF, EE. rewrite EC in EE. assert (1 <= real k) by (rewrite EE; apply IZR_le; lia). pose proof (so_mom2 _ _ G) as (FM & _).
  destruct (div_rnd (fs_mom2 s) k FM) as (_ & ->); [lra| |]; rewrite Z; unfold Rdiv; rewrite Rmult_0_l; [rewrite Rabs_R0; apply bpow_ge_0|apply rnd_0].
Qed.
Print Assumptions C138_constant.

(** ** The mean is close to the exact mean: the error grows at most as the number of samples. *)
Definition total (vs : list b64) : R := fold_right (fun v r => real v + r) 0 vs.
Lemma total_app : forall vs v, total (vs ++ [v]) = total vs + real v.
Proof. induction vs as [|w l IH]; intros v; cbn [total fold_right app] in *; [ring|]. fold (total l) (total (l ++ [v])). rewrite IH. ring. Qed.
Lemma within : forall x y b, Rabs (x - y) <= b -> - b <= x - y <= b.
Proof. intros x y b H. pose proof (Rle_abs (x - y)). pose proof (Rle_abs (- (x - y))) as H'. rewrite Rabs_Ropp in H'. lra. Qed.
Lemma mean_err : forall (v m V w t d a : R), Rabs v <= V -> Rabs m <= V -> 0 <= w <= / 2 -> 0 <= t <= / 2 -> Rabs (t - w) <= U + tiny ->
  d = rnd (v - m) -> a = rnd (d * t) -> Rabs (rnd (m + a) - (m + (v - m) * w)) <= 32 * U * V + 32 * tiny.
Proof.
  intros v m V w t d a BV BM W T0 TW ED EA. pose proof U_pos as UP. pose proof tiny_pos as TP. pose proof tiny_U as TU. pose proof (Rabs_pos v) as VP.
  assert (US : U <= / 1000) by (rewrite UR; lra). assert (UV : 0 <= U * V) by (apply Rmult_le_pos; lra). assert (UVS : U * V <= / 1000 * V) by (apply Rmult_le_compat_r; lra).
  assert (UT : U * tiny <= / 1000 * tiny) by (apply Rmult_le_compat_r; lra). assert (UT0 : 0 <= U * tiny) by (apply Rmult_le_pos; lra).
  assert (B1 : Rabs (v - m) <= 2 * V) by (eapply Rle_trans; [apply Rabs_triang|]; rewrite Rabs_Ropp; lra).
  assert (E1 : Rabs (d - (v - m)) <= 2 * (U * V) + tiny).
  { rewrite ED. eapply Rle_trans; [apply rnd_error|]. apply Rplus_le_compat_r. apply Rle_trans with (U * (2 * V)); [apply Rmult_le_compat_l; lra|lra]. }
  assert (BD : Rabs d <= 3 * V + tiny).
  { replace d with ((d - (v - m)) + (v - m)) by ring. eapply Rle_trans; [apply Rabs_triang|]. lra. }
  assert (BDT : Rabs (d * t) <= 2 * V + tiny).
  { rewrite Rabs_mult, (Rabs_pos_eq t) by lra. apply Rle_trans with (Rabs d * / 2); [apply Rmult_le_compat_l; [apply Rabs_pos|lra]|lra]. }
  assert (E2 : Rabs (d * t - (v - m) * w) <= 8 * (U * V) + 3 * tiny).
  { replace (d * t - (v - m) * w) with (d * (t - w) + (d - (v - m)) * w) by ring. eapply Rle_trans; [apply Rabs_triang|]. rewrite !Rabs_mult, (Rabs_pos_eq w) by lra.
    assert (P1 : Rabs d * Rabs (t - w) <= (3 * V + tiny) * (2 * U)) by (apply Rmult_le_compat; try apply Rabs_pos; lra).
    assert (P2 : Rabs (d - (v - m)) * w <= (2 * (U * V) + tiny) * / 2) by (apply Rmult_le_compat; try apply Rabs_pos; lra). lra. }
  assert (E3 : Rabs (a - d * t) <= 2 * (U * V) + 2 * tiny).
  { rewrite EA. eapply Rle_trans; [apply rnd_error|]. assert (U * Rabs (d * t) <= U * (2 * V + tiny)) by (apply Rmult_le_compat_l; lra). lra. }
  assert (BA : Rabs (m + a) <= 4 * V + 4 * tiny).
  { replace (m + a) with (m + (a - d * t) + d * t) by ring. eapply Rle_trans; [apply Rabs_triang|]. assert (Rabs (m + (a - d * t)) <= Rabs m + Rabs (a - d * t)) by apply Rabs_triang. lra. }
  assert (E4 : Rabs (rnd (m + a) - (m + a)) <= 4 * (U * V) + 2 * tiny).
  { eapply Rle_trans; [apply rnd_error|]. assert (U * Rabs (m + a) <= U * (4 * V + 4 * tiny)) by (apply Rmult_le_compat_l; lra). lra. }
  replace (rnd (m + a) - (m + (v - m) * w)) with ((rnd (m + a) - (m + a)) + ((a - d * t) + (d * t - (v - m) * w))) by ring.
  eapply Rle_trans; [apply Rabs_triang|]. assert (Rabs ((a - d * t) + (d * t - (v - m) * w)) <= Rabs (a - d * t) + Rabs (d * t - (v - m) * w)) by apply Rabs_triang. lra.
Qed.
Definition near_mean (V : R) (vs : list b64) (s : fstat) : Prop :=
  (forall v, In v vs -> Rabs (real v) <= V) ->
  Rabs (real (fs_mean s) - total vs / IZR (Z.of_nat (length vs))) <= IZR (Z.of_nat (length vs)) * (32 * U * V + 32 * tiny).
(** Both ways of adding a sample: the new mean is [rnd (m + rnd (rnd (v - m) * t))] with [t] close to the inverse of the number of samples. *)
Lemma new_mean : forall vs s v, Forall small vs -> stats_of vs s -> small v -> (Z.of_nat (length vs) < 2 ^ 53)%Z ->
  let n := IZR (Z.of_nat (length vs) + 1) in let d := rnd (real v - real (fs_mean s)) in
  (exists t, 0 <= t <= / 2 /\ Rabs (t - / n) <= U + tiny /\ real (fs_mean (fs_push s v)) = rnd (real (fs_mean s) + rnd (d * t))) /\
  real (fs_mean (fs_push_weighted s v (b_of_Z 1))) = rnd (real (fs_mean s) + rnd (d * / n)).
Proof.
  intros vs s v V G SV L n d. pose proof (mean_small vs s V G) as SM. destruct (weights_ok vs s G L) as (NZ & FW & EW). destruct of_1 as (F1 & E1). pose proof (so_some _ _ G) as N.
  pose proof U_pos as UP. pose proof tiny_pos as TP.
  assert (N2 : 2 <= n) by (unfold n; apply IZR_le; lia). assert (Q : 0 <= / n <= / 2). { split; [left; apply Rinv_0_lt_compat; lra|]. apply Rinv_le; lra. }
  assert (BIG : forall m a, small m -> Rabs a <= bpow radix2 401 -> Rabs (real m + a) <= bpow radix2 1000).
  { intros m a M B. eapply Rle_trans; [apply Rabs_triang|]. apply Rle_trans with (bpow radix2 400 + bpow radix2 401); [apply Rplus_le_compat; [apply M|exact B]|].
    change (bpow radix2 401) with (bpow radix2 (1 + 400)). rewrite bpow_plus. change (bpow radix2 1) with 2.
    apply Rle_trans with (bpow radix2 2 * bpow radix2 400); [change (bpow radix2 2) with 4; pose proof (bpow_gt_0 radix2 400); lra|]. rewrite <- bpow_plus. apply bpow_le. discriminate. }
  destruct (delta_ok v (fs_mean s) SV SM) as (FD & ED & BD). fold d in ED.
  assert (BDT : forall t, 0 <= t <= / 2 -> Rabs (d * t) <= bpow radix2 401).
  { intros t T0. rewrite <- ED, Rabs_mult, (Rabs_pos_eq t) by lra. apply Rle_trans with (Rabs (real (b_minus v (fs_mean s))) * 1); [apply Rmult_le_compat_l; [apply Rabs_pos|lra]|lra]. }
  assert (L401 : bpow radix2 401 <= bpow radix2 1000) by (apply bpow_le; discriminate).
  split.
  - unfold fs_push. rewrite NZ. cbn [fs_mean]. set (w := b_plus (fs_weights s) (b_of_Z 1)) in *. fold n in EW.
    destruct (div_rnd (b_of_Z 1) w F1) as (FI & EI); [lra| |].
    { rewrite E1, EW. unfold Rdiv. rewrite Rmult_1_l, Rabs_pos_eq by lra. apply Rle_trans with (bpow radix2 0); [change (bpow radix2 0) with 1; lra|apply bpow_le; discriminate]. }
    rewrite E1, EW in EI. unfold Rdiv in EI. rewrite Rmult_1_l in EI. set (i := b_div (b_of_Z 1) w) in *.
    assert (BI : 0 <= real i <= / 2) by (rewrite EI; split; [rewrite <- rnd_0; apply rnd_le; lra|apply Rle_trans with (rnd (/ 2)); [apply rnd_le; lra|right; apply half_rnd]]).
    exists (real i). split; [exact BI|]. split.
    + rewrite EI. eapply Rle_trans; [apply rnd_error|]. rewrite Rabs_pos_eq by lra. apply Rplus_le_compat_r. apply Rle_trans with (U * 1); [apply Rmult_le_compat_l; lra|lra].
    + destruct (mult_rnd (b_minus v (fs_mean s)) i FD FI) as (FA & EA); [rewrite ED; eapply Rle_trans; [apply BDT; exact BI|exact L401]|]. rewrite ED in EA.
      destruct (plus_rnd (fs_mean s) (b_mult (b_minus v (fs_mean s)) i) (proj1 SM) FA) as (_ & ->); [|rewrite EA; reflexivity].
      apply BIG; [exact SM|]. rewrite EA. apply rnd_abs_le; [apply fmt_bpow; discriminate|apply BDT; exact BI].
  - unfold fs_push_weighted. rewrite NZ. unfold fs_merge. cbn [fs_first fs_weights fs_mean]. set (w := b_plus (fs_weights s) (b_of_Z 1)) in *. fold n in EW.
    destruct (div_rnd (b_minus v (fs_mean s)) w FD) as (FA & EA); [lra|unfold Rdiv; rewrite ED, EW; eapply Rle_trans; [apply BDT; exact Q|exact L401]|].
    unfold Rdiv in EA. rewrite ED, EW in EA.
    destruct (mult_exact (b_of_Z 1) (b_div (b_minus v (fs_mean s)) w) (b_div (b_minus v (fs_mean s)) w) F1 FA) as (FQ & EQ); [rewrite E1; ring|]. rewrite EA in EQ.
    destruct (plus_rnd (fs_mean s) _ (proj1 SM) FQ) as (_ & ->); [|rewrite EQ; reflexivity].
    apply BIG; [exact SM|]. rewrite EQ. apply rnd_abs_le; [apply fmt_bpow; discriminate|apply BDT; exact Q].
Qed.
Lemma near_next : forall V vs s v s', Forall small vs -> stats_of vs s -> small v -> (Z.of_nat (length vs) < 2 ^ 53)%Z -> near_mean V vs s ->
  (s' = fs_push s v \/ s' = fs_push_weighted s v (b_of_Z 1)) -> near_mean V (vs ++ [v]) s'.
Proof.
  intros V vs s v s' VS G SV L NM S' BV. pose proof (so_some _ _ G) as N. pose proof (new_mean vs s v VS G SV L) as H. cbv zeta in H.
  rewrite app_length, total_app, Nat2Z.inj_add. change (Z.of_nat (length [v])) with 1%Z.
  set (n := IZR (Z.of_nat (length vs) + 1)) in *. assert (EN : n = IZR (Z.of_nat (length vs)) + 1) by (unfold n; rewrite plus_IZR; reflexivity).
  assert (N1 : 1 <= IZR (Z.of_nat (length vs))) by (apply IZR_le; lia). set (k := IZR (Z.of_nat (length vs))) in *.
  assert (BV' : forall w, In w vs -> Rabs (real w) <= V) by (intros w W; apply BV; apply in_or_app; auto).
  assert (Bv : Rabs (real v) <= V) by (apply BV; apply in_or_app; right; left; reflexivity).
  assert (Bm : Rabs (real (fs_mean s)) <= V).
  { destruct G as [_ _ _ (_ & MM) (_ & (a & IA & EA) & _) (_ & (b & IB & EB) & _) _]. pose proof (within (real a) 0 V) as WA. pose proof (within (real b) 0 V) as WB.
    rewrite Rminus_0_r in WA, WB. specialize (WA (BV' a IA)). specialize (WB (BV' b IB)). apply Rabs_le. lra. }
  specialize (NM BV'). fold k in NM. pose proof U_pos as UP. pose proof tiny_pos as TP. pose proof (Rabs_pos (real v)).
  assert (Q : 0 <= / n <= / 2). { split; [left; apply Rinv_0_lt_compat; lra|]. apply Rinv_le; lra. }
  assert (ST : Rabs (real (fs_mean s') - (real (fs_mean s) + (real v - real (fs_mean s)) * / n)) <= 32 * U * V + 32 * tiny).
  { destruct H as ((t & T0 & TE & H1) & H2). destruct S' as [->| ->].
    - rewrite H1. exact (mean_err _ _ V (/ n) t _ _ Bv Bm Q T0 TE eq_refl eq_refl).
    - rewrite H2. refine (mean_err _ _ V (/ n) (/ n) _ _ Bv Bm Q Q _ eq_refl eq_refl). rewrite Rminus_eq_0, Rabs_R0. lra. }
  replace (real (fs_mean s') - (total vs + real v) / n) with
    ((real (fs_mean s') - (real (fs_mean s) + (real v - real (fs_mean s)) * / n)) + (real (fs_mean s) - total vs / k) * (k / n)) by (rewrite EN; field; lra).
  eapply Rle_trans; [apply Rabs_triang|]. rewrite EN, Rmult_plus_distr_r, Rmult_1_l, Rplus_comm. apply Rplus_le_compat; [|rewrite <- EN; exact ST].
  rewrite <- EN. rewrite Rabs_mult. assert (KN : 0 <= k / n <= 1). { unfold Rdiv. split; [apply Rmult_le_pos; lra|]. apply (Rmult_le_reg_r n); [lra|]. rewrite Rmult_assoc, Rinv_l by lra. lra. }
  rewrite (Rabs_pos_eq (k / n)) by lra. eapply Rle_trans; [|exact NM]. rewrite <- (Rmult_1_r (Rabs (real (fs_mean s) - total vs / k))) at 2. apply Rmult_le_compat_l; [apply Rabs_pos|lra].
Qed.
Lemma near_first : forall V v, 0 <= V -> near_mean V [v] (fs_first v (b_of_Z 1)).
Proof.
  intros V v P _. cbn [fs_first fs_mean length total fold_right]. change (IZR (Z.of_nat 1)) with 1. pose proof U_pos. pose proof tiny_pos.
  replace (real v - (real v + 0) / 1) with 0 by field. rewrite Rabs_R0. assert (0 <= U * V) by (apply Rmult_le_pos; lra). lra.
Qed.
Lemma run_near : forall V push, 0 <= V -> (forall v, push fs_clear v = fs_first v (b_of_Z 1)) -> keeps push ->
  (forall s v, push s v = fs_push s v \/ push s v = fs_push_weighted s v (b_of_Z 1)) ->
  forall values, Forall acceptable values -> samples values <> [] -> (Z.of_nat (length (samples values)) <= 2 ^ 53)%Z -> near_mean V (samples values) (run push fs_clear values).
Proof.
  intros V push VP P1 P2 P3.
  assert (NX : forall l vs s, Forall acceptable l -> Forall small vs -> stats_of vs s -> (Z.of_nat (length (vs ++ samples l)) <= 2 ^ 53)%Z ->
    near_mean V vs s -> near_mean V (vs ++ samples l) (run push s l)).
  { induction l as [|v l IH]; intros vs s AC VS G L NM; [cbn [samples filter run fold_left]; rewrite app_nil_r; exact NM|]. inversion AC as [|? ? AV AL]; subst. unfold run, samples in *. cbn [filter fold_left] in *.
    destruct (is_nan_b64 v) eqn:E; cbn [negb] in *; [apply IH; auto|]. destruct AV as [AV|AV]; [congruence|].
    assert (LV : (Z.of_nat (length vs) < 2 ^ 53)%Z) by (rewrite app_length in L; cbn [length] in L; lia).
    change (vs ++ v :: ?l) with (vs ++ [v] ++ l). rewrite app_assoc. apply IH; auto.
    - apply Forall_app. split; [exact VS|]. constructor; [exact AV|constructor].
    - rewrite <- app_assoc. exact L.
    - apply (near_next V vs s v); auto. }
  induction values as [|v l IH]; intros AC NE L; [contradiction NE; reflexivity|].
  inversion AC as [|? ? AV AL]; subst. unfold run, samples in *. cbn [filter fold_left] in *. destruct (is_nan_b64 v) eqn:E; cbn [negb] in *; [apply IH; auto|].
  destruct AV as [AV|AV]; [congruence|]. rewrite P1.
  exact (NX l [v] (fs_first v (b_of_Z 1)) AL (Forall_cons v AV (Forall_nil small)) (first_ok v AV) L (near_first V v VP)).
Qed.
Theorem C138_mean_close : forall values V, Forall acceptable values -> samples values <> [] -> (Z.of_nat (length (samples values)) <= 2 ^ 53)%Z ->
  (forall v, In v (samples values) -> Rabs (real v) <= V) -> forall s, s = fs_array values \/ s = fs_axis values ->
  let n := IZR (Z.of_nat (length (samples values))) in
  Rabs (real (fs_mean s) - fold_right (fun v r => real v + r) 0 (samples values) / n) <= n * (bpow radix2 (-48) * V + bpow radix2 (-1065)).
Proof.
  intros values V AC NE L BV s S0 n.
  assert (VP : 0 <= V). { destruct (samples values) as [|v l] eqn:E; [congruence|]. eapply Rle_trans; [apply Rabs_pos|apply (BV v); left; reflexivity]. }
  assert (H : near_mean V (samples values) s).
  { destruct S0 as [->| ->].
    - exact (run_near V fs_push VP push_clear push_ok (fun s v => or_introl eq_refl) values AC NE L).
    - exact (run_near V (fun s v => fs_push_weighted s v (b_of_Z 1)) VP push1_clear push1_ok (fun s v => or_intror eq_refl) values AC NE L). }
  specialize (H BV). fold n in H. change (fold_right (fun v r => real v + r) 0 (samples values)) with (total (samples values)). eapply Rle_trans; [exact H|]. right. f_equal. f_equal.
  - f_equal. replace 32 with (bpow radix2 5) by reflexivity. rewrite U_eq, <- bpow_plus. reflexivity.
  - unfold tiny. replace 32 with (bpow radix2 5) by reflexivity. rewrite <- bpow_plus. reflexivity.
Qed.
Print Assumptions C138_mean_close.

(** ** Refutations *)
Definition scaled_by (m e : Z) : b64 := @binary_normalize 53 1024 b64_prec b64_emax mode_NE m e false.
(** With weights the mean can leave the interval of the samples: 0 with the weight 2^-60 and 3 with the weight 187. *)
Lemma weighted_computed : let s := fs_push_weighted (fs_push_weighted fs_clear (b_of_Z 0) (scaled_by 1 (-60))) (b_of_Z 3) (b_of_Z 187) in
  (finite (fs_mean s) && b_ltb (b_of_Z 3) (fs_mean s))%bool = true.
Proof. vm_compute. reflexivity. Qed.
Theorem C138_weighted_refuted : exists w1 w2 : b64, finite w1 = true /\ finite w2 = true /\ 0 < real w1 /\ 0 < real w2 /\
  let s := fs_push_weighted (fs_push_weighted fs_clear (b_of_Z 0) w1) (b_of_Z 3) w2 in finite (fs_mean s) = true /\ 3 < real (fs_mean s).
Proof.
  exists (scaled_by 1 (-60)), (b_of_Z 187). destruct (of_Z_ok 187 ltac:(discriminate)) as (F & E). destruct (of_Z_ok 3 ltac:(discriminate)) as (F3 & E3). destruct of_0 as (F0 & E0).
  assert (FW : finite (scaled_by 1 (-60)) = true) by (vm_compute; reflexivity).
  split; [exact FW|]. split; [exact F|]. split; [|split; [rewrite E; lra|]].
  - rewrite <- E0. apply ltb_iff; auto.
  - pose proof weighted_computed as H. revert H. cbv zeta.
    generalize (fs_push_weighted (fs_push_weighted fs_clear (b_of_Z 0) (scaled_by 1 (-60))) (b_of_Z 3) (b_of_Z 187)). intros s H. apply andb_prop in H as [H1 H2].
    split; [exact H1|]. rewrite <- E3. apply ltb_iff; auto.
Qed.
Print Assumptions C138_weighted_refuted.
(** Without the limit on the values: the mean of 2^1023 and its opposite is infinite. *)
Theorem C138_large_refuted : exists v w : b64, finite v = true /\ finite w = true /\ finite (fs_mean (fs_array [v; w])) = false.
Proof.
  exists (scaled_by 1 1023), (scaled_by (-1) 1023). split; [vm_compute; reflexivity|]. split; [vm_compute; reflexivity|].
  assert (H : negb (finite (fs_mean (fs_array [scaled_by 1 1023; scaled_by (-1) 1023]))) = true) by (vm_compute; reflexivity).
  apply Bool.negb_true_iff. exact H.
Qed.
Print Assumptions C138_large_refuted.

(** An array that meets the hypotheses. *)
Lemma ex_stats_computed : let s := fs_array [b_of_Z 1; B754_nan; b_of_Z 2; b_of_Z 6] in
  (b_eqb (fs_mean s) (b_of_Z 3) && match fs_variance s 1 with Some v => b_eqb v (b_of_Z 7) | None => false end)%bool = true.
Proof. vm_compute. reflexivity. Qed.
Theorem C138_ex : let values := [b_of_Z 1; B754_nan; b_of_Z 2; b_of_Z 6] in
  Forall acceptable values /\ samples values <> [] /\ (Z.of_nat (length (samples values)) <= 2 ^ 53)%Z /\
  b_eqb (fs_mean (fs_array values)) (b_of_Z 3) = true.
Proof.
  cbv zeta. assert (A : forall n, (Z.abs n <= 2 ^ 53)%Z -> acceptable (b_of_Z n)).
  { intros n N. right. destruct (of_Z_ok n N) as (F & E). split; [exact F|]. rewrite E, <- abs_IZR. apply Rle_trans with (IZR (2 ^ 53)); [apply IZR_le; exact N|].
    rewrite (IZR_Zpower radix2 53 ltac:(discriminate) : IZR (2 ^ 53) = bpow radix2 53). apply bpow_le. discriminate. }
  split.
  { apply Forall_cons; [apply A; discriminate|]. apply Forall_cons; [left; reflexivity|]. apply Forall_cons; [apply A; discriminate|]. apply Forall_cons; [apply A; discriminate|apply Forall_nil]. }
  assert (L : length (samples [b_of_Z 1; B754_nan; b_of_Z 2; b_of_Z 6]) = 3%nat) by (vm_compute; reflexivity).
  split; [intros E; rewrite E in L; discriminate|]. split; [rewrite L; discriminate|].
  pose proof ex_stats_computed as H. cbv zeta in H. apply andb_prop in H as [H _]. exact H.
Qed.
Print Assumptions C138_ex.
