(** Positive definiteness of the Matern kernels, and the kernels as functions of the distance.
    Auxiliary mathematics; nothing here models code. *)
From Coq Require Import Reals Lra Lia Arith Ranalysis.
From Verif Require Import Base WindowModel RTreeModel RTreeProofs QuadForm KernelProofs KernelProofs2.
Open Scope R_scope.

Lemma sqrt_inf : forall g b, 0 <= b -> limit_inf g 0 -> limit_inf (fun t => g (sqrt (t + b))) 0.
Proof.
  intros g b Hb H e He. destruct (H e He) as [M HM]. exists (Rmax M 0 * Rmax M 0 + 1).
  intros t Ht. apply HM. assert (0 <= Rmax M 0) by apply Rmax_r. assert (M <= Rmax M 0) by apply Rmax_l.
  apply Rle_lt_trans with (Rmax M 0); [assumption|].
  rewrite <- (sqrt_square (Rmax M 0)) by assumption. apply sqrt_lt_1; nra.
Qed.

Lemma shift_PD : forall n x a g h, distinct n x -> 0 <= a ->
  (forall u, 0 < u -> derivable_pt_lim g u (- (u * h u))) ->
  (forall u, continuity_pt g u) -> limit_inf g 0 ->
  (forall b, 0 < b -> PD n (fun i j => h (sqrt (b + sqd (x i) (x j))))) ->
  PD n (fun i j => g (sqrt (a + sqd (x i) (x j)))).
Proof.
  intros n x a g h D Ha Dg Cg Lg Ph.
  apply (PD_integral n
    (fun t i j => g (sqrt (a + sqd (x i) (x j))) - g (sqrt (t + (a + sqd (x i) (x j)))))
    (fun t i j => 1 / 2 * h (sqrt ((t + a) + sqd (x i) (x j))))).
  - intros t i j Ht _ _. pose proof (sqd_nonneg (x i) (x j)) as P.
    replace (t + a + sqd (x i) (x j)) with (t + (a + sqd (x i) (x j))) by lra.
    set (b := a + sqd (x i) (x j)) in *. assert (Pb : 0 < t + b) by (unfold b; lra).
    assert (Rb : 0 < sqrt (t + b)) by (apply sqrt_lt_R0, Pb).
    eapply deriv_eq; [apply (derivable_pt_lim_minus (fun _ => g (sqrt b)) (fun t => g (sqrt (t + b))))|].
    + apply derivable_pt_lim_const.
    + apply (derivable_pt_lim_comp (fun t => sqrt (t + b)) g); [|apply Dg, Rb].
      apply (derivable_pt_lim_comp (fun t => t + b) sqrt); [|apply derivable_pt_lim_sqrt, Pb].
      apply (derivable_pt_lim_plus id (fun _ => b)); [apply derivable_pt_lim_id|apply derivable_pt_lim_const].
    + field. lra.
  - intros i j _ _. pose proof (sqd_nonneg (x i) (x j)) as P.
    set (b := a + sqd (x i) (x j)) in *. apply continuous_lim0.
    + apply (continuity_pt_minus (fun _ => g (sqrt b)) (fun t => g (sqrt (t + b)))).
      * apply continuity_pt_const. intros ? ?. reflexivity.
      * apply (continuity_pt_comp (fun t => sqrt (t + b)) g); [|apply Cg].
        apply (continuity_pt_comp (fun t => t + b) sqrt).
        -- apply derivable_continuous_pt. exists (1 + 0).
           apply (derivable_pt_lim_plus id (fun _ => b)); [apply derivable_pt_lim_id|apply derivable_pt_lim_const].
        -- apply continuity_pt_sqrt. unfold b. lra.
    + rewrite Rplus_0_l. lra.
  - intros i j _ _. pose proof (sqd_nonneg (x i) (x j)) as P.
    set (b := a + sqd (x i) (x j)) in *.
    apply (inf_ext (fun t => g (sqrt b) + -1 * g (sqrt (t + b))) _ (g (sqrt b) + -1 * 0)).
    + intros; lra.
    + lra.
    + apply inf_const_plus, inf_scal, sqrt_inf; [unfold b; lra|exact Lg].
  - intros t Ht. apply (PD_scal n (1 / 2) (fun i j => h (sqrt ((t + a) + sqd (x i) (x j))))); [lra|].
    apply Ph. lra.
Qed.

(** (1 + u) exp (-u) and (1 + u + u^2 / 3) exp (-u). *)
Lemma deriv_exp_neg : forall u, derivable_pt_lim (fun u => exp (- u)) u (- exp (- u)).
Proof.
  intros. apply (deriv_ext (fun u => exp (- (u * 1)))); [intros; f_equal; lra|].
  eapply deriv_eq; [apply deriv_exp_lin|]. rewrite Rmult_1_r. lra.
Qed.
Lemma deriv_poly : forall p q u, derivable_pt_lim (fun u => 1 + p * u + q * (u * u)) u (p + q * (2 * u)).
Proof.
  intros. eapply deriv_eq.
  - apply (derivable_pt_lim_plus (fun u => 1 + p * u) (fun u => q * (u * u))).
    + apply (derivable_pt_lim_plus (fun _ => 1) (fun u => p * u)); [apply derivable_pt_lim_const|].
      apply (derivable_pt_lim_scal id), derivable_pt_lim_id.
    + apply (derivable_pt_lim_scal (fun u => u * u)), (derivable_pt_lim_mult id id); apply derivable_pt_lim_id.
  - unfold id. lra.
Qed.
Definition pexp (p q u : R) : R := (1 + p * u + q * (u * u)) * exp (- u).
Lemma deriv_pexp : forall p q u, derivable_pt_lim (pexp p q) u
  ((p + q * (2 * u)) * exp (- u) + (1 + p * u + q * (u * u)) * - exp (- u)).
Proof.
  intros. unfold pexp.
  apply (derivable_pt_lim_mult (fun u => 1 + p * u + q * (u * u)) (fun u => exp (- u)));
    [apply deriv_poly|apply deriv_exp_neg].
Qed.
Lemma pexp_continuous : forall p q u, continuity_pt (pexp p q) u.
Proof. intros. apply derivable_continuous_pt. eexists. apply deriv_pexp. Qed.
Lemma pexp_inf : forall p q, 0 <= p <= 1 -> 0 <= q <= 1 -> limit_inf (pexp p q) 0.
Proof.
  intros p q Hp Hq e He. exists (Rmax 1 (192 / e)). intros u Hu.
  assert (H1 : 1 <= Rmax 1 (192 / e)) by apply Rmax_l.
  assert (H2 : 192 / e <= Rmax 1 (192 / e)) by apply Rmax_r.
  assert (U : 1 < u) by lra. rewrite Rminus_0_r.
  assert (B : (u / 4) ^ 3 < exp u).
  { replace u with (u / 4 + (u / 4 + (u / 4 + u / 4))) at 2 by lra. rewrite !exp_plus.
    pose proof (exp_ineq1 (u / 4) ltac:(lra)) as E. set (v := exp (u / 4)) in *.
    assert (V : u / 4 < v) by lra. assert (V1 : 1 < v) by lra.
    assert ((u / 4) * (u / 4) < v * v) by nra.
    assert ((u / 4) * (u / 4) * (u / 4) < v * v * v) by nra.
    assert (0 < v * v * v) by nra.
    cbn. nra. }
  unfold pexp. rewrite Rabs_pos_eq; [|apply Rmult_le_pos; [nra|left; apply exp_pos]].
  rewrite exp_Ropp.
  apply Rmult_lt_reg_r with (exp u); [apply exp_pos|].
  rewrite Rmult_assoc, Rinv_l, Rmult_1_r by (pose proof (exp_pos u); lra).
  assert (C : 1 + p * u + q * (u * u) <= 3 * (u * u)) by nra.
  assert (W : 192 < e * u).
  { assert (W : 192 / e < u) by lra. apply Rmult_lt_compat_l with (r := e) in W; [|exact He].
    replace (e * (192 / e)) with 192 in W by (field; lra). exact W. }
  assert (K : 3 * (u * u) < e * (u / 4) ^ 3).
  { replace (e * (u / 4) ^ 3) with (e * u * (u * u) / 64) by field.
    assert (0 < u * u) by nra. apply Rmult_lt_compat_r with (r := u * u) in W; [|assumption]. lra. }
  apply Rmult_lt_compat_l with (r := e) in B; [|exact He]. lra.
Qed.

Theorem matern32_PD : forall n x a, distinct n x -> 0 <= a ->
  PD n (fun i j => pexp 1 0 (sqrt (a + sqd (x i) (x j)))).
Proof.
  intros n x a D Ha. apply (shift_PD n x a (pexp 1 0) (fun u => exp (- u))); auto.
  - intros u _. eapply deriv_eq; [apply deriv_pexp|]. lra.
  - apply pexp_continuous.
  - apply pexp_inf; lra.
  - intros b Hb. apply exp_sqrt_PD; [exact D|lra].
Qed.
Theorem matern52_PD : forall n x a, distinct n x -> 0 <= a ->
  PD n (fun i j => pexp 1 (1 / 3) (sqrt (a + sqd (x i) (x j)))).
Proof.
  intros n x a D Ha. apply (shift_PD n x a (pexp 1 (1 / 3)) (fun u => 1 / 3 * pexp 1 0 u)); auto.
  - intros u _. eapply deriv_eq; [apply deriv_pexp|]. unfold pexp. lra.
  - apply pexp_continuous.
  - apply pexp_inf; lra.
  - intros b Hb. apply (PD_scal n (1 / 3) (fun i j => pexp 1 0 (sqrt (b + sqd (x i) (x j))))); [lra|].
    apply matern32_PD; [exact D|lra].
Qed.

(** ** Kernels of the distance, with a scale *)
Definition scaled (k : R) (x : nat -> point) (i : nat) : point := (k * px (x i), k * py (x i), k * pz (x i)).
Lemma scaled_distinct : forall n k x, k <> 0 -> distinct n x -> distinct n (scaled k x).
Proof.
  intros n k x Hk D i j Hi Hj Ne E. apply (D i j Hi Hj Ne). unfold scaled in E. injection E as E1 E2 E3.
  apply Rmult_eq_reg_l in E1, E2, E3; try exact Hk.
  destruct (x i) as [[? ?] ?], (x j) as [[? ?] ?]. unfold px, py, pz in *. cbn in *. congruence.
Qed.
Lemma scaled_sqd : forall k x i j, sqd (scaled k x i) (scaled k x j) = (k * dist (x i) (x j)) ^ 2.
Proof.
  intros. replace ((k * dist (x i) (x j)) ^ 2) with (k * k * (dist (x i) (x j) * dist (x i) (x j))) by ring.
  rewrite dist_sq. unfold sqd, scaled, px, py, pz. cbn. lra.
Qed.
Lemma scaled_sqrt : forall k x i j, 0 <= k -> sqrt (0 + sqd (scaled k x i) (scaled k x j)) = k * dist (x i) (x j).
Proof.
  intros k x i j Hk. rewrite Rplus_0_l, scaled_sqd. apply sqrt_pow2.
  apply Rmult_le_pos; [exact Hk|apply dist_nonneg].
Qed.

Section Distance.
  Variables (n : nat) (x : nat -> point) (k : R).
  Hypothesis D : distinct n x.
  Hypothesis Hk : 0 < k.
  Notation r i j := (dist (x i) (x j)).

  Lemma kernel_gaussian : PD n (fun i j => exp (- (k * r i j) ^ 2)).
  Proof using D Hk.
    apply (PD_ext n (fun i j => exp (- (1 * sqd (scaled k x i) (scaled k x j))))).
    - intros. rewrite scaled_sqd. f_equal. lra.
    - apply gaussian_PD; [apply scaled_distinct; [lra|exact D]|lra].
  Qed.
  Lemma kernel_cauchy : PD n (fun i j => / (1 + (k * r i j) ^ 2)).
  Proof using D Hk.
    apply (PD_ext n (fun i j => / (1 + sqd (scaled k x i) (scaled k x j)))).
    - intros. rewrite scaled_sqd. reflexivity.
    - apply cauchy_PD; [apply scaled_distinct; [lra|exact D]|lra].
  Qed.
  Lemma kernel_inverse_multiquadric : PD n (fun i j => / sqrt ((k * r i j) ^ 2 + 1)).
  Proof using D Hk.
    apply (PD_ext n (fun i j => / sqrt (1 + sqd (scaled k x i) (scaled k x j)))).
    - intros. rewrite scaled_sqd. f_equal. f_equal. lra.
    - apply inverse_sqrt_PD; [apply scaled_distinct; [lra|exact D]|lra].
  Qed.
  Lemma kernel_exponential : PD n (fun i j => exp (- (k * r i j))).
  Proof using D Hk.
    apply (PD_ext n (fun i j => exp (- sqrt (0 + sqd (scaled k x i) (scaled k x j))))).
    - intros. rewrite scaled_sqrt by lra. reflexivity.
    - apply exp_sqrt_PD; [apply scaled_distinct; [lra|exact D]|lra].
  Qed.
  Lemma kernel_matern32 : PD n (fun i j => pexp 1 0 (k * r i j)).
  Proof using D Hk.
    apply (PD_ext n (fun i j => pexp 1 0 (sqrt (0 + sqd (scaled k x i) (scaled k x j))))).
    - intros. rewrite scaled_sqrt by lra. reflexivity.
    - apply matern32_PD; [apply scaled_distinct; [lra|exact D]|lra].
  Qed.
  Lemma kernel_matern52 : PD n (fun i j => pexp 1 (1 / 3) (k * r i j)).
  Proof using D Hk.
    apply (PD_ext n (fun i j => pexp 1 (1 / 3) (sqrt (0 + sqd (scaled k x i) (scaled k x j))))).
    - intros. rewrite scaled_sqrt by lra. reflexivity.
    - apply matern52_PD; [apply scaled_distinct; [lra|exact D]|lra].
  Qed.
  Lemma kernel_multiquadric : forall c, sumn n c = 0 -> nonzero n c ->
    quad n c (fun i j => sqrt ((k * r i j) ^ 2 + 1)) < 0.
  Proof using D Hk.
    intros c Z N.
    rewrite (quad_ext n c c _ (fun i j => sqrt (1 + sqd (scaled k x i) (scaled k x j)))).
    - apply sqrt_negative; auto; [apply scaled_distinct; [lra|exact D]|lra].
    - reflexivity.
    - intros. rewrite scaled_sqd. f_equal. lra.
  Qed.
  Lemma kernel_linear : forall c, sumn n c = 0 -> nonzero n c -> quad n c (fun i j => r i j) < 0.
  Proof using D.
    intros c Z N.
    rewrite (quad_ext n c c _ (fun i j => sqrt (0 + sqd (x i) (x j)))).
    - apply sqrt_negative; auto. lra.
    - reflexivity.
    - intros. rewrite Rplus_0_l. reflexivity.
  Qed.
End Distance.

(** ** Matrices negative on the vectors of null sum have no kernel *)
Lemma negative_injective : forall n K c, symm n K ->
  (forall c, sumn n c = 0 -> nonzero n c -> quad n c K < 0) ->
  (forall i, (i < n)%nat -> 0 <= K i i) ->
  ((exists i, (i < n)%nat /\ 0 < K i i) \/ (2 <= n)%nat) ->
  (forall i, (i < n)%nat -> sumn n (fun j => K i j * c j) = 0) -> forall i, (i < n)%nat -> c i = 0.
Proof.
  intros n K c Sy Neg Dg Enough Z. destruct (nonzero_dec n c) as [N|Z']; [|exact Z']. exfalso.
  assert (Q : quad n c K = 0).
  { rewrite quad_row. apply sumn_0. intros i Hi. rewrite Z by exact Hi. lra. }
  destruct (Req_dec (sumn n c) 0) as [S0|S0]; [specialize (Neg c S0 N); lra|].
  set (y := fun i => c i / sumn n c).
  assert (Sy1 : sumn n y = 1).
  { unfold y. rewrite (sumn_ext n _ (fun i => c i * / sumn n c)) by reflexivity.
    rewrite sumn_scal_r. field. exact S0. }
  assert (Zy : forall i, (i < n)%nat -> sumn n (fun j => K i j * y j) = 0).
  { intros i Hi. unfold y. rewrite (sumn_ext n _ (fun j => (K i j * c j) * / sumn n c)) by (intros; unfold Rdiv; ring).
    rewrite sumn_scal_r, Z by exact Hi. lra. }
  (* for every index p, the vector e_p - y is null and K p p = 0 *)
  assert (E : forall p, (p < n)%nat -> K p p = 0 /\ forall i, (i < n)%nat -> y i = if (i =? p)%nat then 1 else 0).
  { intros p Hp. set (e := fun i => if (i =? p)%nat then 1 else 0).
    assert (Se : sumn n e = 1).
    { rewrite (sumn_single n p); [unfold e; rewrite Nat.eqb_refl; reflexivity|exact Hp|].
      intros i Hi Ne. unfold e. destruct (Nat.eqb_spec i p); [lia|reflexivity]. }
    assert (Qv : quad n (fun i => e i - y i) K = K p p).
    { rewrite quad_row.
      rewrite (sumn_ext n _ (fun i => e i * K i p - y i * K i p)).
      - rewrite sumn_minus. rewrite (sumn_single n p); [|exact Hp|].
        + unfold e. rewrite Nat.eqb_refl.
          rewrite (sumn_ext n _ (fun i => K p i * y i)) by (intros i Hi; rewrite (Sy i p) by assumption; ring).
          rewrite Zy by exact Hp. lra.
        + intros i Hi Ne. unfold e. destruct (Nat.eqb_spec i p); [lia|lra].
      - intros i Hi.
        rewrite (sumn_ext n _ (fun j => K i j * e j - K i j * y j)) by (intros; ring).
        rewrite sumn_minus, (Zy i Hi). rewrite (sumn_single n p); [|exact Hp|].
        + unfold e at 2. rewrite Nat.eqb_refl. ring.
        + intros j Hj Ne. unfold e. destruct (Nat.eqb_spec j p); [lia|lra]. }
    assert (Sv : sumn n (fun i => e i - y i) = 0) by (rewrite sumn_minus, Se, Sy1; lra).
    destruct (nonzero_dec n (fun i => e i - y i)) as [M|M].
    - specialize (Neg _ Sv M). specialize (Dg p Hp). lra.
    - split.
      + rewrite <- Qv. apply quad_zero, M.
      + intros i Hi. specialize (M i Hi). cbv beta in M. unfold e in M. lra. }
  destruct Enough as [[p [Hp P]]|H2].
  - destruct (E p Hp) as [E0 _]. lra.
  - destruct (E 0%nat ltac:(lia)) as [_ A]. destruct (E 1%nat ltac:(lia)) as [_ B].
    specialize (A 0%nat ltac:(lia)). specialize (B 0%nat ltac:(lia)). cbn in A, B. lra.
Qed.
