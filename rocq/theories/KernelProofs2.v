(** Positive definiteness of the kernels that are mixtures of Gaussian kernels: Cauchy, inverse
    multiquadric, exponential and Matern kernels; conditional definiteness of the linear and
    multiquadric kernels.  Auxiliary mathematics; nothing here models code. *)
From Coq Require Import Reals Lra Lia Arith Ranalysis.
From Verif Require Import Base WindowModel RTreeModel RTreeProofs QuadForm KernelProofs.
Open Scope R_scope.

Lemma deriv_eq : forall f t a b, derivable_pt_lim f t a -> a = b -> derivable_pt_lim f t b.
Proof. intros. subst. assumption. Qed.
Lemma deriv_ext : forall f g t a, (forall x, f x = g x) -> derivable_pt_lim f t a -> derivable_pt_lim g t a.
Proof.
  intros f g t a E H e He. destruct (H e He) as [d Hd]. exists d. intros h H1 H2.
  rewrite <- !E. apply Hd; assumption.
Qed.
Lemma deriv_id_scal : forall b t, derivable_pt_lim (fun t => t * b) t b.
Proof.
  intros. apply (deriv_ext (fun t => b * t)); [intros; lra|].
  eapply deriv_eq; [apply (derivable_pt_lim_scal id), derivable_pt_lim_id|]. lra.
Qed.
Lemma deriv_exp_lin : forall b t, derivable_pt_lim (fun t => exp (- (t * b))) t (- b * exp (- (t * b))).
Proof.
  intros. apply (deriv_ext (comp exp (fun t => - (t * b)))); [reflexivity|].
  eapply deriv_eq; [apply derivable_pt_lim_comp; [|apply derivable_pt_lim_exp]|].
  - apply (derivable_pt_lim_opp (fun t => t * b)), deriv_id_scal.
  - lra.
Qed.

Lemma exp_neg_bound : forall x, 0 < x -> exp (- x) < / x.
Proof.
  intros x H. rewrite exp_Ropp. apply Rinv_lt_contravar.
  - apply Rmult_lt_0_compat; [exact H|apply exp_pos].
  - pose proof (exp_ineq1 x ltac:(lra)). lra.
Qed.
Lemma exp_lin_inf : forall b, 0 < b -> limit_inf (fun t => exp (- (t * b))) 0.
Proof.
  intros b Hb e He. exists (/ (e * b)). intros t Ht. rewrite Rminus_0_r.
  assert (P : 0 < / (e * b)) by (apply Rinv_0_lt_compat, Rmult_lt_0_compat; assumption).
  rewrite Rabs_pos_eq by (left; apply exp_pos).
  assert (Pt : 0 < t * b) by (apply Rmult_lt_0_compat; lra).
  eapply Rlt_trans; [apply exp_neg_bound, Pt|].
  apply Rmult_lt_reg_l with (t * b); [exact Pt|]. rewrite Rinv_r by lra.
  apply Rmult_lt_compat_r with (r := e * b) in Ht; [|apply Rmult_lt_0_compat; assumption].
  rewrite Rinv_l in Ht by (pose proof (Rmult_lt_0_compat e b He Hb); lra). lra.
Qed.
Lemma inf_const_plus : forall k f l, limit_inf f l -> limit_inf (fun t => k + f t) (k + l).
Proof.
  intros k f l H e He. destruct (H e He) as [M HM]. exists M. intros t Ht. specialize (HM t Ht).
  replace (k + f t - (k + l)) with (f t - l) by lra. exact HM.
Qed.
Lemma inf_ext : forall f g l l', (forall t, f t = g t) -> l = l' -> limit_inf f l -> limit_inf g l'.
Proof.
  intros f g l l' E -> H e He. destruct (H e He) as [M HM]. exists M. intros t Ht.
  rewrite <- E. apply HM, Ht.
Qed.

(** ** 1 / (a + d^2) *)
Theorem cauchy_PD : forall n x a, distinct n x -> 0 < a -> PD n (fun i j => / (a + sqd (x i) (x j))).
Proof.
  intros n x a D Ha.
  assert (P : forall i j, 0 < a + sqd (x i) (x j)) by (intros; pose proof (sqd_nonneg (x i) (x j)); lra).
  apply (PD_integral n (fun t i j => / (a + sqd (x i) (x j)) + - / (a + sqd (x i) (x j)) * exp (- (t * (a + sqd (x i) (x j)))))
                       (fun t i j => exp (- (t * (a + sqd (x i) (x j)))))).
  - intros t i j Ht _ _. specialize (P i j). set (b := a + sqd (x i) (x j)) in *.
    eapply deriv_eq; [apply (derivable_pt_lim_plus (fun _ => / b) (fun t => - / b * exp (- (t * b))))|].
    + apply derivable_pt_lim_const.
    + apply (derivable_pt_lim_scal (fun t => exp (- (t * b)))), deriv_exp_lin.
    + field. lra.
  - intros i j _ _. specialize (P i j). set (b := a + sqd (x i) (x j)) in *.
    eapply derivable_lim0.
    + apply (derivable_pt_lim_plus (fun _ => / b) (fun t => - / b * exp (- (t * b)))).
      * apply derivable_pt_lim_const.
      * apply (derivable_pt_lim_scal (fun t => exp (- (t * b)))), deriv_exp_lin.
    + rewrite Rmult_0_l, Ropp_0, exp_0. lra.
  - intros i j _ _. specialize (P i j). set (b := a + sqd (x i) (x j)) in *.
    eapply inf_ext; [intros; reflexivity| |apply inf_const_plus, inf_scal, exp_lin_inf, P]. lra.
  - intros t Ht.
    apply (PD_ext n (fun i j => exp (- (t * a)) * exp (- (t * sqd (x i) (x j))))).
    + intros. rewrite <- exp_plus. f_equal. lra.
    + apply PD_scal; [apply exp_pos|]. apply gaussian_PD; assumption.
Qed.

(** ** arctan *)
Lemma deriv_atan_lin : forall k u, derivable_pt_lim (fun u => atan (u * k)) u (k / (1 + (u * k) ^ 2)).
Proof.
  intros. apply (deriv_ext (comp atan (fun u => u * k))); [reflexivity|].
  eapply deriv_eq; [apply derivable_pt_lim_comp; [apply deriv_id_scal|apply derivable_pt_lim_atan]|].
  unfold Rsqr. replace ((u * k) ^ 2) with (u * k * (u * k)) by ring. lra.
Qed.
Lemma atan_lt_id : forall x, 0 < x -> 0 < atan x < x.
Proof.
  intros x H. destruct (MVT_cor2 atan (fun x => / (1 + x ^ 2)) 0 x H) as [c [E [H1 H2]]].
  - intros c _. eapply deriv_eq; [apply derivable_pt_lim_atan|reflexivity].
  - rewrite atan_0 in E. assert (P : 1 < 1 + c ^ 2) by nra.
    assert (Q : 0 < / (1 + c ^ 2)) by (apply Rinv_0_lt_compat; lra).
    assert (Q' : / (1 + c ^ 2) < 1) by (rewrite <- Rinv_1; apply Rinv_lt_contravar; lra).
    nra.
Qed.
Lemma atan_inf : forall k, 0 < k -> limit_inf (fun u => atan (u * k)) (PI / 2).
Proof.
  intros k Hk e He. exists (/ (e * k)). intros u Hu.
  assert (P : 0 < / (e * k)) by (apply Rinv_0_lt_compat, Rmult_lt_0_compat; assumption).
  assert (Pu : 0 < u * k) by (apply Rmult_lt_0_compat; lra).
  assert (Pi : 0 < / (u * k)) by (apply Rinv_0_lt_compat, Pu).
  pose proof (atan_inv (/ (u * k)) Pi) as E. rewrite Rinv_inv in E. rewrite E.
  destruct (atan_lt_id (/ (u * k)) Pi) as [A B].
  assert (C : / (u * k) < e).
  { apply Rmult_lt_reg_l with (u * k); [exact Pu|]. rewrite Rinv_r by lra.
    apply Rmult_lt_compat_r with (r := e * k) in Hu; [|apply Rmult_lt_0_compat; assumption].
    rewrite Rinv_l in Hu by (pose proof (Rmult_lt_0_compat e k He Hk); lra). lra. }
  apply Rabs_def1; lra.
Qed.

(** ** 1 / sqrt (a + d^2) *)
Theorem inverse_sqrt_PD : forall n x a, distinct n x -> 0 < a -> PD n (fun i j => / sqrt (a + sqd (x i) (x j))).
Proof.
  intros n x a D Ha.
  assert (P : forall i j, 0 < a + sqd (x i) (x j)) by (intros; pose proof (sqd_nonneg (x i) (x j)); lra).
  assert (R : forall i j, 0 < sqrt (a + sqd (x i) (x j))) by (intros; apply sqrt_lt_R0, P).
  apply (PD_ext n (fun i j => (2 / PI) * (/ sqrt (a + sqd (x i) (x j)) * (PI / 2)))).
  { intros. field. split; [pose proof (R i j); lra|apply PI_neq0]. }
  apply PD_scal; [apply Rdiv_lt_0_compat; [lra|apply PI_RGT_0]|].
  apply (PD_integral n (fun u i j => / sqrt (a + sqd (x i) (x j)) * atan (u * / sqrt (a + sqd (x i) (x j))))
                       (fun u i j => / ((u * u + a) + sqd (x i) (x j)))).
  - intros u i j Hu _ _. specialize (P i j). specialize (R i j).
    assert (E : sqrt (a + sqd (x i) (x j)) ^ 2 = a + sqd (x i) (x j)) by (cbn; rewrite Rmult_1_r; apply sqrt_sqrt; lra).
    set (b := sqrt (a + sqd (x i) (x j))) in *.
    eapply deriv_eq; [apply (derivable_pt_lim_scal (fun u => atan (u * / b))), deriv_atan_lin|].
    replace (u * u + a + sqd (x i) (x j)) with (u * u + b ^ 2) by lra. field.
    split; [nra|lra].
  - intros i j _ _. set (b := sqrt (a + sqd (x i) (x j))).
    eapply derivable_lim0; [apply (derivable_pt_lim_scal (fun u => atan (u * / b))), deriv_atan_lin|].
    rewrite Rmult_0_l, atan_0. lra.
  - intros i j _ _. specialize (R i j). apply inf_scal, atan_inf, Rinv_0_lt_compat, R.
  - intros u Hu. apply cauchy_PD; [exact D|]. nra.
Qed.

(** ** sqrt (a + d^2): negative on the vectors of null sum *)
Theorem sqrt_negative : forall n x a c, distinct n x -> 0 <= a -> sumn n c = 0 -> nonzero n c ->
  quad n c (fun i j => sqrt (a + sqd (x i) (x j))) < 0.
Proof.
  intros n x a c D Ha Z N.
  assert (G : 0 < quad n c (fun i j => (- (PI / 2)) * sqrt (a + sqd (x i) (x j)))).
  2: { rewrite quad_scal in G. pose proof PI_RGT_0. nra. }
  apply (quad_integral n c
           (fun u i j => (- sqrt (a + sqd (x i) (x j))) * atan (u * / sqrt (a + sqd (x i) (x j))))
           (fun u i j => - 1 + u * u * / ((u * u + a) + sqd (x i) (x j)))).
  - intros u i j Hu _ _.
    assert (P : 0 <= a + sqd (x i) (x j)) by (pose proof (sqd_nonneg (x i) (x j)); lra).
    assert (E : sqrt (a + sqd (x i) (x j)) ^ 2 = a + sqd (x i) (x j)) by (cbn; rewrite Rmult_1_r; apply sqrt_sqrt, P).
    assert (Rb : 0 <= sqrt (a + sqd (x i) (x j))) by apply sqrt_pos.
    set (b := sqrt (a + sqd (x i) (x j))) in *.
    replace (u * u + a + sqd (x i) (x j)) with (u * u + b ^ 2) by lra.
    eapply deriv_eq; [apply (derivable_pt_lim_scal (fun u => atan (u * / b))), deriv_atan_lin|].
    destruct (Req_dec b 0) as [E0|E0].
    + rewrite E0. rewrite Ropp_0, Rmult_0_l. replace (u * u + 0 ^ 2) with (u * u) by ring. field. lra.
    + field. split; [nra|exact E0].
  - intros i j _ _. set (b := sqrt (a + sqd (x i) (x j))).
    eapply derivable_lim0; [apply (derivable_pt_lim_scal (fun u => atan (u * / b))), deriv_atan_lin|].
    rewrite Rmult_0_l, atan_0. lra.
  - intros i j _ _.
    assert (Rb : 0 <= sqrt (a + sqd (x i) (x j))) by apply sqrt_pos.
    set (b := sqrt (a + sqd (x i) (x j))) in *.
    destruct Rb as [Rb|Rb].
    + eapply inf_ext; [intros; reflexivity| |apply inf_scal, atan_inf, Rinv_0_lt_compat, Rb]. lra.
    + intros e He. exists 0. intros t _. rewrite <- Rb.
      replace (- 0 * atan (t * / 0) - - (PI / 2) * 0) with 0 by ring. rewrite Rabs_R0. exact He.
  - intros u Hu. rewrite quad_plus, quad_const, quad_scal, Z.
    assert (0 < quad n c (fun i j => / ((u * u + a) + sqd (x i) (x j)))) by (apply cauchy_PD; [exact D|nra|exact N]).
    assert (0 < u * u) by nra. nra.
Qed.

(** ** Schoenberg: from a kernel negative on the vectors of null sum to its exponential *)
Section Schoenberg.
  Variables (n : nat) (psi : nat -> nat -> R).
  Hypothesis Sy : symm (S n) psi.
  Hypothesis Neg : forall c, sumn (S n) c = 0 -> nonzero (S n) c -> quad (S n) c psi < 0.

  (** The last index is the reference point. *)
  Definition gram (i j : nat) : R := psi i n + psi n j - psi i j - psi n n.

  Definition centred (c : nat -> R) (i : nat) : R := if (i =? n)%nat then c i - sumn (S n) c else c i.
  Lemma centred_sum : forall c, sumn (S n) (centred c) = 0.
  Proof.
    intros c. cbn [sumn]. unfold centred at 2. rewrite Nat.eqb_refl.
    rewrite (sumn_ext n (centred c) c); [cbn; lra|].
    intros i Hi. unfold centred. destruct (Nat.eqb_spec i n); [lia|reflexivity].
  Qed.
  Lemma quad_gram : forall c, quad (S n) c gram = - quad (S n) (centred c) psi.
  Proof using Sy.
    intros c. set (s := sumn (S n) c).
    assert (E : forall i j, (i < S n)%nat -> (j < S n)%nat -> True) by auto.
    (* both sides as sums over the first n indices and the last one *)
    assert (A : quad (S n) c gram = 2 * s * sumn (S n) (fun i => c i * psi i n) - quad (S n) c psi - s * s * psi n n).
    { rewrite (quad_ext (S n) c c gram
        (fun i j => (psi i n * 1 + 1 * psi n j) + (-1 * psi i j + - psi n n))) by (intros; unfold gram; lra).
      rewrite quad_plus, quad_plus, quad_plus, quad_const, (quad_scal _ _ (-1)). fold s.
      assert (X : quad (S n) c (fun i _ => psi i n * 1) = s * sumn (S n) (fun i => c i * psi i n)).
      { rewrite quad_row. unfold s. rewrite Rmult_comm, sumn_mult. apply sumn_ext; intros i Hi.
        rewrite <- sumn_scal. apply sumn_ext; intros. lra. }
      assert (Y : quad (S n) c (fun _ j => 1 * psi n j) = s * sumn (S n) (fun i => c i * psi i n)).
      { rewrite quad_row. unfold s. rewrite sumn_mult. apply sumn_ext; intros i Hi.
        rewrite <- sumn_scal. apply sumn_ext; intros j Hj. rewrite (Sy n j) by lia. lra. }
      rewrite X, Y. lra. }
    rewrite A. rewrite (quad_S n (centred c)), (quad_S n c).
    unfold s. clear A E.
    rewrite (quad_ext n (centred c) c psi psi);
      [|intros i Hi; unfold centred; destruct (Nat.eqb_spec i n); [lia|reflexivity]|reflexivity].
    rewrite (sumn_ext n (fun j => centred c j * (psi j n + psi n j)) (fun j => 2 * (c j * psi j n)))
      by (intros i Hi; unfold centred; destruct (Nat.eqb_spec i n); [lia|]; rewrite (Sy n i) by lia; lra).
    rewrite (sumn_ext n (fun j => c j * (psi j n + psi n j)) (fun j => 2 * (c j * psi j n)))
      by (intros i Hi; rewrite (Sy n i) by lia; lra).
    rewrite sumn_scal. unfold centred. rewrite Nat.eqb_refl. cbn [sumn].
    set (p := sumn n c). set (q := sumn n (fun i => c i * psi i n)). lra.
  Qed.

  Lemma gram_symm : symm (S n) gram.
  Proof using Sy. intros i j Hi Hj. unfold gram. rewrite (Sy i n), (Sy n j), (Sy i j) by lia. lra. Qed.
  Lemma gram_PSD : PSD (S n) gram.
  Proof using Sy Neg.
    intros c. rewrite quad_gram. destruct (nonzero_dec (S n) (centred c)) as [N|Z].
    - specialize (Neg _ (centred_sum c) N). lra.
    - rewrite quad_zero by exact Z. lra.
  Qed.

  Lemma schoenberg_PD : PD (S n) (fun i j => exp (- psi i j)).
  Proof using Sy Neg.
    apply (PD_ext (S n) (fun i j => exp (psi n n) * (exp (- psi i n) * exp (- psi j n) * exp (gram i j)))).
    { intros i j Hi Hj. rewrite <- !exp_plus. f_equal. unfold gram. rewrite (Sy n j) by lia. lra. }
    apply PD_scal; [apply exp_pos|].
    apply (PD_weights (S n) (fun i => exp (- psi i n))).
    { intros i _. pose proof (exp_pos (- psi i n)). lra. }
    intros c N. pose proof (quad_exp_ge (S n) c gram 2) as G.
    specialize (G (fun k => PSD_power (S n) gram k gram_symm gram_PSD c)).
    eapply Rlt_le_trans; [|exact G]. clear G. change (sumn 2) with (fun f : nat -> R => 0 + f 0%nat + f 1%nat).
    cbv beta. cbn [fact plus Nat.mul Nat.add]. change (INR 1) with 1.
    rewrite (quad_ext (S n) c c (fun i j => gram i j ^ 0) (fun _ _ => 1)) by (intros; reflexivity).
    rewrite (quad_ext (S n) c c (fun i j => gram i j ^ 1) gram) by (intros; cbn; lra).
    rewrite quad_const, quad_gram. rewrite Rinv_1.
    pose proof (Rle_0_sqr (sumn (S n) c)) as Sq. unfold Rsqr in Sq.
    destruct (nonzero_dec (S n) (centred c)) as [M|Z].
    - specialize (Neg _ (centred_sum c) M). lra.
    - rewrite (quad_zero (S n) (centred c)) by exact Z.
      assert (T : sumn (S n) c <> 0).
      { intros T. destruct N as [i [Hi Hc]]. apply Hc. specialize (Z i Hi). unfold centred in Z.
        rewrite T in Z. destruct (i =? n)%nat; lra. }
      assert (0 < sumn (S n) c * sumn (S n) c) by (apply Rsqr_pos_lt in T; exact T). lra.
  Qed.
End Schoenberg.

(** ** exp (- sqrt (a + d^2)) *)
Theorem exp_sqrt_PD : forall n x a, distinct n x -> 0 <= a -> PD n (fun i j => exp (- sqrt (a + sqd (x i) (x j)))).
Proof.
  intros [|n] x a D Ha; [intros c [i [Hi _]]; lia|].
  apply (schoenberg_PD n (fun i j => sqrt (a + sqd (x i) (x j)))).
  - intros i j _ _. rewrite (sqd_sym (x i)). reflexivity.
  - intros c Z N. apply sqrt_negative; assumption.
Qed.
