(** Lemmas about the window functions. *)
From Verif Require Import Base WindowModel.
From Coq Require Import Reals Lra Lia Psatz.
Open Scope R_scope.

Lemma Rleb_true : forall x y, Rleb x y = true <-> x <= y.
Proof. intros x y. unfold Rleb. destruct (Rle_dec x y); split; intros; auto; discriminate. Qed.
Lemma Rleb_false : forall x y, Rleb x y = false <-> y < x.
Proof. intros x y. unfold Rleb. destruct (Rle_dec x y); split; intros; try discriminate; auto; lra. Qed.
Lemma Rltb_true : forall x y, Rltb x y = true <-> x < y.
Proof. intros x y. unfold Rltb. destruct (Rlt_dec x y); split; intros; auto; discriminate. Qed.
Lemma Rltb_false : forall x y, Rltb x y = false <-> y <= x.
Proof. intros x y. unfold Rltb. destruct (Rlt_dec x y); split; intros; try discriminate; auto; lra. Qed.
Lemma Reqb_true : forall x y, Reqb x y = true <-> x = y.
Proof. intros x y. unfold Reqb. destruct (Req_EM_T x y); split; intros; auto; discriminate. Qed.
Lemma Reqb_false : forall x y, Reqb x y = false <-> x <> y.
Proof. intros x y. unfold Reqb. destruct (Req_EM_T x y); split; intros; auto; try discriminate. contradiction. Qed.
Lemma rdiv_some : forall x y, y <> 0 -> rdiv x y = Some (x / y).
Proof. intros x y H. unfold rdiv. apply Reqb_false in H. rewrite H. reflexivity. Qed.

(** The angle and the cosine *)
Lemma angle : forall d r, r <> 0 -> PI * (d + r) / r = PI * ((d + r) / r).
Proof. intros. unfold Rdiv. ring. Qed.
Lemma cos_ratio : forall d r, r <> 0 -> cos (PI * ((d + r) / r)) = - cos (PI * (d / r)).
Proof. intros d r H. replace (PI * ((d + r) / r)) with (PI * (d / r) + PI) by (field; exact H). apply neg_cos. Qed.
Lemma cos_twice : forall x, cos (2 * PI * x) = 2 * cos (PI * x) * cos (PI * x) - 1.
Proof. intro x. rewrite Rmult_assoc. apply cos_2a_cos. Qed.
Lemma cos_thrice : forall x, cos (3 * PI * x) = 4 * cos (PI * x) ^ 3 - 3 * cos (PI * x).
Proof.
  intro x. replace (3 * PI * x) with (2 * (PI * x) + PI * x) by ring. rewrite cos_plus, cos_2a_cos, sin_2a.
  pose proof (sin2_cos2 (PI * x)) as S. unfold Rsqr in S. set (c := cos (PI * x)) in *. set (s := sin (PI * x)) in *.
  replace (s * s) with (1 - c * c) by lra. replace (2 * s * c * s) with (2 * (s * s) * c) by ring. replace (s * s) with (1 - c * c) by lra. ring.
Qed.
Lemma cos_four : forall x, cos (4 * PI * x) = 8 * cos (PI * x) ^ 4 - 8 * cos (PI * x) ^ 2 + 1.
Proof. intro x. replace (4 * PI * x) with (2 * (2 * PI * x)) by ring. rewrite cos_2a_cos, cos_twice. ring. Qed.

Lemma frac : forall d r, 0 < r -> 0 <= d <= r -> 0 <= d / r <= 1.
Proof.
  intros d r R D. split.
  - apply Rmult_le_pos; [lra|left; apply Rinv_0_lt_compat; exact R].
  - apply (Rmult_le_reg_r r); [exact R|]. unfold Rdiv. rewrite Rmult_assoc, Rinv_l by lra. lra.
Qed.
Lemma frac_le : forall d d' r, 0 < r -> d <= d' -> d / r <= d' / r.
Proof. intros d d' r R D. apply Rmult_le_compat_r; [left; apply Rinv_0_lt_compat; exact R|exact D]. Qed.
Lemma frac_gt : forall d r, 0 < r -> r < d -> 1 < d / r.
Proof. intros d r R D. apply (Rmult_lt_reg_r r); [exact R|]. unfold Rdiv. rewrite Rmult_assoc, Rinv_l by lra. lra. Qed.

(** The opposite of the cosine of the angle goes from -1 to 1 when the distance goes from 0 to the radius. *)
Lemma u_bounds : forall t, -1 <= - cos (PI * t) <= 1.
Proof. intro t. pose proof (COS_bound (PI * t)). lra. Qed.
Lemma u_mono : forall t t', 0 <= t -> t <= t' -> t' <= 1 -> - cos (PI * t) <= - cos (PI * t').
Proof.
  intros t t' A B C. pose proof PI_RGT_0 as P. apply Ropp_le_contravar. destruct B as [B| ->]; [|lra]. left. apply cos_decreasing_1; try (apply Rmult_le_pos; lra).
  - replace PI with (PI * 1) at 2 by ring. apply Rmult_le_compat_l; lra.
  - replace PI with (PI * 1) at 2 by ring. apply Rmult_le_compat_l; lra.
  - apply Rmult_lt_compat_l; lra.
Qed.

(** The polynomials in the cosine *)
Definition p_hamming u := 53836 / 100000 - 46164 / 100000 * u.
Definition p_blackman u := 7938 / 18608 - 9240 / 18608 * u + 1430 / 18608 * (2 * u * u - 1).
Definition p_nuttall u := 3635819 / 10000000 - 4891775 / 10000000 * u + 1365995 / 10000000 * (2 * u * u - 1).
Definition p_harris u := 35875 / 100000 - 48829 / 100000 * u + 14128 / 100000 * (2 * u * u - 1) - 1168 / 100000 * (4 * u ^ 3 - 3 * u).
Definition p_flat u := 21557895 / 100000000 - 41663158 / 100000000 * u + 277263158 / 1000000000 * (2 * u * u - 1) - 83578947 / 1000000000 * (4 * u ^ 3 - 3 * u) + 6947368 / 1000000000 * (8 * u ^ 4 - 8 * u ^ 2 + 1).

Definition uu d r := - cos (PI * (d / r)).
Lemma hamming_in : forall d r, 0 < r -> d <= r -> hamming d r = Some (p_hamming (uu d r)).
Proof. intros d r R D. unfold hamming. apply Rleb_true in D. rewrite D, rdiv_some by lra. cbn [rbind]. rewrite angle, cos_ratio by lra. reflexivity. Qed.
Lemma blackman_in : forall d r, 0 < r -> d <= r -> blackman d r = Some (p_blackman (uu d r)).
Proof. intros d r R D. unfold blackman. apply Rleb_true in D. rewrite D, rdiv_some by lra. cbn [rbind]. rewrite cos_twice, cos_ratio by lra. reflexivity. Qed.
Lemma nuttall_in : forall d r, 0 < r -> d <= r -> nuttall d r = Some (p_nuttall (uu d r)).
Proof. intros d r R D. unfold nuttall. apply Rleb_true in D. rewrite D, rdiv_some by lra. cbn [rbind]. rewrite cos_twice, cos_ratio by lra. reflexivity. Qed.
Lemma harris_in : forall d r, 0 < r -> d <= r -> blackman_harris d r = Some (p_harris (uu d r)).
Proof. intros d r R D. unfold blackman_harris. apply Rleb_true in D. rewrite D, rdiv_some by lra. cbn [rbind]. rewrite cos_twice, cos_thrice, cos_ratio by lra. reflexivity. Qed.
Lemma flat_in : forall d r, 0 < r -> d <= r -> flat_top d r = Some (p_flat (uu d r)).
Proof. intros d r R D. unfold flat_top. apply Rleb_true in D. rewrite D, rdiv_some by lra. cbn [rbind]. rewrite cos_four, cos_twice, cos_thrice, cos_ratio by lra. reflexivity. Qed.

Lemma p_hamming_dec : forall u v, u <= v -> p_hamming v <= p_hamming u.
Proof. intros u v H. unfold p_hamming. lra. Qed.
Lemma p_blackman_dec : forall u v, -1 <= u -> u <= v -> v <= 1 -> p_blackman v <= p_blackman u.
Proof. intros u v A H B. unfold p_blackman. assert (0 <= (v - u) * (2 - (u + v))) by (apply Rmult_le_pos; lra). nra. Qed.
Lemma p_harris_dec : forall u v, -1 <= u -> u <= v -> v <= 1 -> p_harris v <= p_harris u.
Proof.
  intros u v A H B. unfold p_harris.
  assert (E : (35875 / 100000 - 48829 / 100000 * u + 14128 / 100000 * (2 * u * u - 1) - 1168 / 100000 * (4 * u ^ 3 - 3 * u)) -
              (35875 / 100000 - 48829 / 100000 * v + 14128 / 100000 * (2 * v * v - 1) - 1168 / 100000 * (4 * v ^ 3 - 3 * v)) =
              (v - u) * ((48829 - 3504) / 100000 - 28256 / 100000 * (u + v) + 4672 / 100000 * (u * u + u * v + v * v))) by field.
  assert (P : 0 <= (48829 - 3504) / 100000 - 28256 / 100000 * (u + v) + 4672 / 100000 * (u * u + u * v + v * v)).
  { assert (0 <= (1 - u) * (1 - v)) by (apply Rmult_le_pos; lra). nra. }
  assert (0 <= (v - u) * ((48829 - 3504) / 100000 - 28256 / 100000 * (u + v) + 4672 / 100000 * (u * u + u * v + v * v))) by (apply Rmult_le_pos; lra). lra.
Qed.
Lemma p_nuttall_bounds : forall u, -1 <= u <= 1 -> 0 <= p_nuttall u <= 1.
Proof.
  intros u H. unfold p_nuttall. split; [|nra].
  assert (0 <= (u - 895 / 1000) ^ 2) by apply pow2_ge_0. nra.
Qed.
Lemma by_dec : forall p : R -> R, (forall u v, -1 <= u -> u <= v -> v <= 1 -> p v <= p u) -> 0 <= p 1 -> p (-1) <= 1 -> forall u, -1 <= u <= 1 -> 0 <= p u <= 1.
Proof. intros p D A B u U. split; [apply Rle_trans with (p 1); [exact A|apply D; lra]|apply Rle_trans with (p (-1)); [apply D; lra|exact B]]. Qed.

(** sinc *)
Lemma sin_le : forall x, 0 <= x -> sin x <= x.
Proof.
  intros x X. destruct (Rle_dec x 4) as [L|L].
  - destruct (pre_sin_bound x 0 X L) as [_ U]. eapply Rle_trans; [exact U|]. unfold sin_approx, sin_term. cbn -[pow INR fact].
    change (fact 1) with 1%nat. change (fact 3) with 6%nat. change (fact 5) with 120%nat.
    replace (INR 1) with 1 by (cbn; ring). replace (INR 6) with 6 by (cbn; ring). replace (INR 120) with 120 by (rewrite INR_IZR_INZ; cbn; reflexivity).
    assert (0 <= x ^ 3) by (apply pow_le; exact X). assert (x * x <= 16) by nra.
    assert (x ^ 5 <= 16 * x ^ 3) by (replace (x ^ 5) with ((x * x) * x ^ 3) by ring; apply Rmult_le_compat_r; lra).
    replace ((-1) ^ 0) with 1 by ring. replace ((-1) ^ 1) with (-1) by ring. replace ((-1) ^ 2) with 1 by ring. replace (x ^ 1) with x by ring. lra.
  - pose proof (SIN_bound x). lra.
Qed.
Lemma sinc_bounds : forall x, 0 <= x -> -1 <= sinc x <= 1.
Proof.
  intros x X. unfold sinc. destruct (Reqb x 0) eqn:E; [lra|]. apply Reqb_false in E.
  pose proof PI_RGT_0 as P. assert (Y : 0 < PI * x) by (apply Rmult_lt_0_compat; lra). set (y := PI * x) in *.
  assert (S : -1 * y <= sin y <= 1 * y).
  { split; [|rewrite Rmult_1_l; apply sin_le; lra]. destruct (Rle_dec y 1).
    - assert (0 <= sin y) by (apply sin_ge_0; [lra|pose proof PI2_1; lra]). lra.
    - pose proof (SIN_bound y). lra. }
  split; (apply (Rmult_le_reg_r y); [exact Y|]); unfold Rdiv; rewrite (Rmult_assoc _ (/ y)), Rinv_l by lra; lra.
Qed.
Lemma mul_unit : forall a b, -1 <= a <= 1 -> -1 <= b <= 1 -> -1 <= a * b <= 1.
Proof. intros a b A B. split; nra. Qed.

(** Parzen *)
Lemma parzen_low : forall t, 0 <= t <= 1 -> 0 <= 1 - 6 * t ^ 2 * (1 - t) <= 1.
Proof.
  intros t T. assert (0 <= t ^ 2 * (1 - t)) by (apply Rmult_le_pos; [apply pow2_ge_0|lra]). split; [|lra].
  assert (0 <= (t - 2 / 3) ^ 2 * (t + 1 / 3)) by (apply Rmult_le_pos; [apply pow2_ge_0|lra]). nra.
Qed.
Lemma cube_bounds : forall s, 0 <= s <= 1 / 2 -> 0 <= 2 * s ^ 3 <= 1.
Proof. intros s S. assert (0 <= s ^ 3) by (apply pow_le; lra). assert (s ^ 3 <= (1 / 2) ^ 3) by (apply pow_incr; lra). split; lra. Qed.
