(** Theorems about the covariance functions (C100) and the kriging (C101). *)
From Coq Require Import Reals Lra Lia Permutation.
From Verif Require Import Base WindowModel WindowProofs RTreeModel RTreeSpec RTreeProofs RbfModel RbfSpec
  QuadForm KernelProofs KernelProofs2 KernelProofs3 LinSolve RbfProofs RbfProps RbfProps2 KrigingSpec.
Open Scope R_scope.

Lemma sqrt3_pos : 0 < sqrt 3. Proof. apply sqrt_lt_R0. lra. Qed.
Lemma sqrt5_pos : 0 < sqrt 5. Proof. apply sqrt_lt_R0. lra. Qed.
Lemma sqrt5_sq : sqrt 5 * sqrt 5 = 5. Proof. apply sqrt_sqrt. lra. Qed.

(** ** Six functions are the documented ones. *)
Theorem C100_documented : forall c sigma lambda d, 0 < lambda ->
  match c with Cauchy | Spherical | CLinear => False | _ => True end ->
  cov_of c sigma lambda d = documented c sigma lambda d.
Proof.
  intros c sigma lambda d Hl H. destruct c; try contradiction; cbn [cov_of documented]; cbv zeta.
  - f_equal; [ring|]. f_equal. field. lra.
  - replace (- sqrt 3 * (d / lambda)) with (- (sqrt 3 * d / lambda)) by (field; lra).
    replace (sqrt 3 * (d / lambda)) with (sqrt 3 * d / lambda) by (field; lra). ring.
  - replace (- sqrt 5 * (d / lambda)) with (- (sqrt 5 * d / lambda)) by (field; lra).
    replace (sqrt 5 * (d / lambda)) with (sqrt 5 * d / lambda) by (field; lra).
    replace (5 / 3 * (d / lambda * (d / lambda))) with (5 * d ^ 2 / (3 * lambda ^ 2)) by (field; lra). ring.
  - replace (- sqrt 3 * d / lambda) with (- (sqrt 3 * d / lambda)) by (field; lra). ring.
  - f_equal; [ring|]. f_equal. field. lra.
  - f_equal; [ring|]. f_equal. field. lra.
Qed.
(** Two pairs of functions are the same. *)
Theorem C100_synonyms : forall sigma lambda d, 0 < lambda ->
  cov_of WhittleMatern sigma lambda d = cov_of Matern32 sigma lambda d /\
  cov_of Exponential sigma lambda d = cov_of Matern12 sigma lambda d.
Proof. intros sigma lambda d H. rewrite !C100_documented by (exact I || exact H). split; reflexivity. Qed.

(** The three others are not the documented ones: half the range away, with sigma = 1. *)
Theorem C100_documented_refuted : forall lambda, 0 < lambda ->
  cov_of Cauchy 1 lambda (lambda / 2) = 4 / 5 /\ documented Cauchy 1 lambda (lambda / 2) = 2 / 3 /\
  cov_of Spherical 1 lambda (lambda / 2) = 5 / 16 /\ documented Spherical 1 lambda (lambda / 2) = 7 / 16 /\
  documented Spherical 1 lambda lambda = 1 /\
  cov_of CLinear 1 lambda (lambda / 2) = lambda / 2 /\ documented CLinear 1 lambda (lambda / 2) = 1 / 2.
Proof.
  intros l Hl. cbn [cov_of documented].
  assert (L1 : Rltb l (l / 2) = false) by (apply Rltb_false; lra). rewrite L1.
  assert (L2 : Rleb (l / 2 / l) 1 = true) by (apply Rleb_true; replace (l / 2 / l) with (1 / 2) by (field; lra); lra).
  rewrite L2.
  assert (L3 : Rleb (l / l) 1 = true) by (apply Rleb_true; replace (l / l) with 1 by (field; lra); lra). rewrite L3.
  repeat split; try (field; lra).
Qed.

(** ** The shape of the functions *)
(** (1 + p u + q u²) exp (- u) decreases when 0 <= p <= 1, 2 q <= p. *)
Lemma pexp_decreasing : forall p q u v, 0 <= p <= 1 -> 0 <= q -> 2 * q <= p -> (p < 1 \/ 2 * q < 1) ->
  p + 2 * q <= 2 -> 0 <= u < v -> pexp p q v < pexp p q u.
Proof.
  intros p q u v Hp Hq H1 H2 H3 Huv.
  destruct (MVT_cor2 (pexp p q) (fun u => (p + q * (2 * u)) * exp (- u) + (1 + p * u + q * (u * u)) * - exp (- u)) u v) as (c & E & Hc).
  - lra.
  - intros c _. apply deriv_pexp.
  - assert (Ng : (p + q * (2 * c)) * exp (- c) + (1 + p * c + q * (c * c)) * - exp (- c) < 0).
    { replace ((p + q * (2 * c)) * exp (- c) + (1 + p * c + q * (c * c)) * - exp (- c))
        with (- (exp (- c) * ((1 - p) + (p - 2 * q) * c + q * (c * c)))) by ring.
      pose proof (exp_pos (- c)) as Ep.
      assert (Pos : 0 < (1 - p) + (p - 2 * q) * c + q * (c * c)).
      { assert (0 <= (p - 2 * q) * c) by (apply Rmult_le_pos; lra).
        assert (0 <= q * (c * c)) by (apply Rmult_le_pos; nra).
        destruct H2 as [H2|H2]; [lra|].
        destruct (Rlt_le_dec p 1); [lra|]. assert (p = 1) by lra. subst p.
        assert (0 < (1 - 2 * q) * c) by (apply Rmult_lt_0_compat; lra). lra. }
      nra. }
    nra.
Qed.
Definition shape (c : covariance) (u : R) : R :=
  match c with
  | Matern12 | Exponential => exp (- u)
  | Matern32 | WhittleMatern => pexp 1 0 (sqrt 3 * u)
  | Matern52 => pexp 1 (1 / 3) (sqrt 5 * u)
  | Cauchy => / (1 + u ^ 2)
  | CGaussian => exp (- u ^ 2)
  | Spherical => if Rltb 1 u then 0 else 1 - 3 / 2 * u + 1 / 2 * u ^ 3
  | CLinear => 0
  end.
Lemma cov_shape : forall c sigma lambda r, 0 < lambda -> c <> CLinear ->
  cov_of c sigma lambda r = sigma * sigma * shape c (/ lambda * r).
Proof.
  intros c sigma lambda r Hl Hc.
  destruct c; try contradiction; cbn [cov_of shape]; cbv zeta; unfold pexp.
  - f_equal. f_equal. field. lra.
  - f_equal. replace (- sqrt 3 * (r / lambda)) with (- (sqrt 3 * (/ lambda * r))) by (field; lra).
    f_equal. unfold Rdiv. ring.
  - f_equal. replace (- sqrt 5 * (r / lambda)) with (- (sqrt 5 * (/ lambda * r))) by (field; lra). f_equal.
    replace (1 / 3 * (sqrt 5 * (/ lambda * r) * (sqrt 5 * (/ lambda * r)))) with (1 / 3 * ((sqrt 5 * sqrt 5) * (/ lambda * r * (/ lambda * r)))) by ring.
    rewrite sqrt5_sq. unfold Rdiv. ring.
  - replace (- sqrt 3 * r / lambda) with (- (sqrt 3 * (/ lambda * r))) by (field; lra).
    unfold Rdiv. ring.
  - unfold Rdiv. f_equal. f_equal. ring.
  - f_equal. f_equal. field. lra.
  - destruct (Rltb lambda r) eqn:E.
    + apply Rltb_true in E. assert (E' : Rltb 1 (/ lambda * r) = true).
      { apply Rltb_true. apply (Rmult_lt_reg_l lambda); [lra|]. rewrite <- Rmult_assoc, Rinv_r by lra. lra. }
      rewrite E'. lra.
    + apply Rltb_false in E. assert (E' : Rltb 1 (/ lambda * r) = false).
      { apply Rltb_false. apply (Rmult_le_reg_l lambda); [lra|]. rewrite <- Rmult_assoc, Rinv_r by lra. lra. }
      rewrite E'. unfold Rdiv. ring.
  - f_equal. f_equal. field. lra.
Qed.
Lemma shape_0 : forall c, c <> CLinear -> shape c 0 = 1.
Proof.
  intros c Hc. destruct c; try contradiction; cbn [shape]; unfold pexp; rewrite ?Rmult_0_r, ?Ropp_0, ?exp_0; try ring.
  - replace (1 + 0 ^ 2) with 1 by ring. apply Rinv_1.
  - assert (E : Rltb 1 0 = false) by (apply Rltb_false; lra). rewrite E. ring.
  - replace (- 0 ^ 2) with 0 by ring. apply exp_0.
Qed.
Lemma shape_decreasing : forall c u v, c <> CLinear -> c <> Spherical \/ v <= 1 -> 0 <= u < v -> shape c v < shape c u.
Proof.
  intros c u v Hc Hs Huv. pose proof sqrt3_pos. pose proof sqrt5_pos.
  assert (S2 : u ^ 2 < v ^ 2) by nra.
  destruct c; try contradiction; cbn [shape].
  - apply exp_increasing. lra.
  - apply pexp_decreasing; try lra. nra.
  - apply pexp_decreasing; try lra. nra.
  - apply pexp_decreasing; try lra. nra.
  - apply Rinv_lt_contravar; [|lra]. pose proof (pow2_ge_0 u). nra.
  - apply exp_increasing. lra.
  - destruct Hs as [Hs|Hs]; [contradiction|].
    assert (E : Rltb 1 u = false) by (apply Rltb_false; lra). assert (E' : Rltb 1 v = false) by (apply Rltb_false; lra).
    rewrite E, E'.
    assert (T : 0 < (v - u) * (3 - (v * v + u * v + u * u))) by (apply Rmult_lt_0_compat; nra). nra.
  - apply exp_increasing. lra.
Qed.
Lemma shape_pos : forall c u, c <> CLinear -> 0 <= u -> 0 <= shape c u /\ (c <> Spherical \/ u < 1 -> 0 < shape c u).
Proof.
  intros c u Hc Hu. pose proof sqrt3_pos. pose proof sqrt5_pos.
  assert (G : forall x, 0 < x -> 0 <= x /\ (c <> Spherical \/ u < 1 -> 0 < x)) by (intros; split; intros; lra).
  destruct c; try contradiction; cbn [shape]; unfold pexp.
  - apply G, exp_pos.
  - apply G. apply Rmult_lt_0_compat; [nra|apply exp_pos].
  - apply G. apply Rmult_lt_0_compat; [|apply exp_pos]. pose proof (Rmult_le_pos _ _ (Rlt_le _ _ H0) Hu). nra.
  - apply G. apply Rmult_lt_0_compat; [nra|apply exp_pos].
  - apply G. apply Rinv_0_lt_compat. nra.
  - apply G, exp_pos.
  - destruct (Rltb 1 u) eqn:E.
    + apply Rltb_true in E. split; [lra|]. intros [D|D]; [contradiction|lra].
    + apply Rltb_false in E. assert (T : 1 - 3 / 2 * u + 1 / 2 * u ^ 3 = (1 - u) * (1 - u) * (2 + u) / 2) by field. rewrite T.
      split; [assert (0 <= (1 - u) * (1 - u) * (2 + u)) by (apply Rmult_le_pos; [apply Rle_0_sqr|lra]); lra|].
      intros [D|D]; [contradiction|]. assert (0 < (1 - u) * (1 - u) * (2 + u)) by (apply Rmult_lt_0_compat; [apply Rmult_lt_0_compat|]; lra). lra.
  - apply G, exp_pos.
Qed.

(** Symmetric; largest (sigma²) for equal points only; positive; decreasing with the distance. *)
Theorem C100_symmetric : forall c sigma lambda p q, cov c sigma lambda p q = cov c sigma lambda q p.
Proof. intros. unfold cov. rewrite dist_sym. reflexivity. Qed.
Theorem C100_maximum : forall c sigma lambda p q, 0 < sigma -> 0 < lambda -> c <> CLinear ->
  cov c sigma lambda p p = sigma * sigma /\
  0 <= cov c sigma lambda p q <= sigma * sigma /\
  (p <> q -> cov c sigma lambda p q < sigma * sigma).
Proof.
  intros c sigma lambda p q Hs Hl Hc.
  assert (S2 : 0 < sigma * sigma) by nra. assert (Il : 0 < / lambda) by (apply Rinv_0_lt_compat, Hl).
  assert (E0 : cov c sigma lambda p p = sigma * sigma).
  { unfold cov. rewrite cov_shape by assumption. rewrite dist_same, Rmult_0_r, shape_0 by exact Hc. ring. }
  assert (Lt : p <> q -> cov c sigma lambda p q < sigma * sigma).
  { intros N. apply dist_pos in N. unfold cov. rewrite cov_shape by assumption.
    assert (Pu : 0 < / lambda * dist p q) by (apply Rmult_lt_0_compat; assumption).
    assert (shape c (/ lambda * dist p q) < 1); [|nra].
    destruct (Rle_lt_dec (/ lambda * dist p q) 1) as [L|G].
    - rewrite <- (shape_0 c Hc). apply shape_decreasing; auto. lra.
    - assert (Dec : c = Spherical \/ c <> Spherical) by (destruct c; auto; right; discriminate).
      destruct Dec as [->|Ns].
      + cbn [shape]. assert (E : Rltb 1 (/ lambda * dist p q) = true) by (apply Rltb_true; exact G). rewrite E. lra.
      + rewrite <- (shape_0 c Hc). apply shape_decreasing; auto. lra. }
  split; [exact E0|]. split; [|exact Lt]. split.
  - unfold cov. rewrite cov_shape by assumption. apply Rmult_le_pos; [lra|]. apply shape_pos; [exact Hc|].
    apply Rmult_le_pos; [lra|apply dist_nonneg].
  - destruct (dist_nonneg p q) as [D|D].
    + left. apply Lt. intros ->. rewrite dist_same in D. lra.
    + rewrite <- E0. unfold cov. rewrite dist_same, D. lra.
Qed.
Theorem C100_decreasing : forall c sigma lambda r s, 0 < sigma -> 0 < lambda -> c <> CLinear -> 0 <= r < s ->
  (c <> Spherical \/ s <= lambda -> cov_of c sigma lambda s < cov_of c sigma lambda r) /\
  (c = Spherical -> lambda <= s -> cov_of c sigma lambda s = 0).
Proof.
  intros c sigma lambda r s Hs Hl Hc Hr. assert (Il : 0 < / lambda) by (apply Rinv_0_lt_compat, Hl). split.
  - intros H. rewrite !cov_shape by assumption. apply Rmult_lt_compat_l; [nra|]. apply shape_decreasing; [exact Hc| |].
    + destruct H as [H|H]; [left; exact H|right]. apply (Rmult_le_reg_l lambda); [lra|].
      rewrite <- Rmult_assoc, Rinv_r by lra. lra.
    + split; [apply Rmult_le_pos; lra|apply Rmult_lt_compat_l; lra].
  - intros -> H. cbn [cov_of]. destruct (Rltb lambda s) eqn:E; [reflexivity|]. apply Rltb_false in E.
    assert (s = lambda) by lra. subst s. field. lra.
Qed.
(** Two points of the "linear" function: the further apart, the larger the covariance; it is not
    bounded by sigma², and a point has no variance. *)
Theorem C100_linear_refuted : forall sigma lambda p q, 0 < sigma ->
  cov CLinear sigma lambda p p = 0 /\
  (p <> q -> cov CLinear sigma lambda p p < cov CLinear sigma lambda p q) /\
  (1 < dist p q -> sigma * sigma < cov CLinear sigma lambda p q).
Proof.
  intros sigma lambda p q Hs. unfold cov. cbn [cov_of]. rewrite dist_same. repeat split.
  - ring.
  - intros N. apply dist_pos in N. assert (0 < sigma * sigma) by nra. nra.
  - intros D. assert (0 < sigma * sigma) by nra. nra.
Qed.
(** The variances of the combinations of the values at distinct points are positive. *)
Lemma covariances_square : forall c sigma lambda xk, square (length xk) (covariances c sigma lambda xk).
Proof.
  intros. unfold covariances. split; [apply map_length|]. rewrite Forall_map. apply Forall_forall. intros; apply map_length.
Qed.
Lemma covariances_row : forall c sigma lambda xk i, (i < length xk)%nat ->
  nth i (covariances c sigma lambda xk) [] = map (fun q => cov c sigma lambda (nd xk i) q) xk.
Proof. intros. unfold covariances. rewrite (nth_map_lt _ _ i (0, 0, 0)) by exact H. reflexivity. Qed.
Lemma covariances_entry : forall c sigma lambda xk i j, (i < length xk)%nat -> (j < length xk)%nat ->
  entry (covariances c sigma lambda xk) i j = cov c sigma lambda (nd xk i) (nd xk j).
Proof. intros. unfold entry. rewrite covariances_row by exact H. rewrite (nth_map_lt _ _ j (0, 0, 0)) by exact H0. reflexivity. Qed.
Lemma covariances_symmetric : forall c sigma lambda xk, symmetric (length xk) (covariances c sigma lambda xk).
Proof.
  intros c sigma lambda xk i j Hi Hj. fold (entry (covariances c sigma lambda xk) i j) (entry (covariances c sigma lambda xk) j i).
  rewrite !covariances_entry by assumption. apply C100_symmetric.
Qed.
Theorem C100_positive_definite : forall c sigma lambda xk, 0 < sigma -> 0 < lambda -> regular_covariance c -> NoDup xk ->
  positive_definite (length xk) (covariances c sigma lambda xk).
Proof.
  intros c sigma lambda xk Hs Hl Hc ND. apply PD_positive_definite; [apply covariances_square|].
  assert (Il : 0 < / lambda) by (apply Rinv_0_lt_compat, Hl). pose proof sqrt3_pos. pose proof sqrt5_pos.
  assert (S2 : 0 < sigma * sigma) by nra.
  set (n := length xk). pose proof (NoDup_distinct xk ND) as D. fold n in D.
  apply (PD_ext n (fun i j => sigma * sigma * shape c (/ lambda * dist (nd xk i) (nd xk j)))).
  - intros i j Hi Hj. rewrite covariances_entry by assumption. unfold cov. symmetry. apply cov_shape; [exact Hl|].
    intros ->. exact Hc.
  - apply PD_scal; [exact S2|].
    destruct c; try contradiction; cbn [shape].
    + apply kernel_exponential; assumption.
    + apply (PD_ext n (fun i j => pexp 1 0 (sqrt 3 * / lambda * dist (nd xk i) (nd xk j)))).
      * intros. rewrite Rmult_assoc. reflexivity.
      * apply kernel_matern32; [exact D|]. apply Rmult_lt_0_compat; assumption.
    + apply (PD_ext n (fun i j => pexp 1 (1 / 3) (sqrt 5 * / lambda * dist (nd xk i) (nd xk j)))).
      * intros. rewrite Rmult_assoc. reflexivity.
      * apply kernel_matern52; [exact D|]. apply Rmult_lt_0_compat; assumption.
    + apply (PD_ext n (fun i j => pexp 1 0 (sqrt 3 * / lambda * dist (nd xk i) (nd xk j)))).
      * intros. rewrite Rmult_assoc. reflexivity.
      * apply kernel_matern32; [exact D|]. apply Rmult_lt_0_compat; assumption.
    + apply kernel_cauchy; assumption.
    + apply kernel_exponential; assumption.
    + apply kernel_gaussian; assumption.
Qed.
Example C100_positive_definite_ex : NoDup [(0, 0, 0); (1, 0, 0); (2, 0, 0)] /\ regular_covariance Matern32.
Proof.
  split; [|exact I]. repeat (constructor; [cbn; intros H; repeat destruct H as [H|H]; try contradiction; injection H; intros; lra|]).
  constructor.
Qed.
