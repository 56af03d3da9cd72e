(** Positive definiteness of the kernels used by the radial basis functions and the kriging, for
    any number of distinct points of the space.  Auxiliary mathematics; nothing here models
    code. *)
From Coq Require Import Reals Lra Lia Arith.
From Verif Require Import Base WindowModel RTreeModel RTreeProofs QuadForm.
Open Scope R_scope.

Definition inner (p q : point) : R := px p * px q + py p * py q + pz p * pz q.
(** The square of the distance. *)
Definition sqd (p q : point) : R := (px p - px q) ^ 2 + (py p - py q) ^ 2 + (pz p - pz q) ^ 2.
Definition distinct (n : nat) (x : nat -> point) : Prop :=
  forall i j, (i < n)%nat -> (j < n)%nat -> i <> j -> x i <> x j.

Lemma sqd_nonneg : forall p q, 0 <= sqd p q.
Proof.
  intros. unfold sqd. pose proof (pow2_ge_0 (px p - px q)). pose proof (pow2_ge_0 (py p - py q)).
  pose proof (pow2_ge_0 (pz p - pz q)). lra.
Qed.
Lemma sqd_sym : forall p q, sqd p q = sqd q p.
Proof. intros. unfold sqd. lra. Qed.
Lemma sqd_same : forall p, sqd p p = 0.
Proof. intros. unfold sqd. lra. Qed.
Lemma sqd_zero : forall p q, sqd p q = 0 -> p = q.
Proof.
  intros [[a b] c] [[a' b'] c'] H. unfold sqd, px, py, pz in H. cbn in H.
  pose proof (Rle_0_sqr (a - a')) as H1. pose proof (Rle_0_sqr (b - b')) as H2.
  pose proof (Rle_0_sqr (c - c')) as H3. unfold Rsqr in *.
  assert (E1 : a - a' = 0) by (apply Rsqr_0_uniq; unfold Rsqr; lra).
  assert (E2 : b - b' = 0) by (apply Rsqr_0_uniq; unfold Rsqr; lra).
  assert (E3 : c - c' = 0) by (apply Rsqr_0_uniq; unfold Rsqr; lra).
  replace a' with a by lra. replace b' with b by lra. replace c' with c by lra. reflexivity.
Qed.
Lemma dist_sqd : forall p q, dist p q = sqrt (sqd p q).
Proof. reflexivity. Qed.
Lemma dist_sq : forall p q, dist p q * dist p q = sqd p q.
Proof. intros. rewrite dist_sqd. apply sqrt_sqrt, sqd_nonneg. Qed.

(** ** Powers of the inner product *)
Definition ip (x : nat -> point) (k : nat) (i j : nat) : R := inner (x i) (x j) ^ k.

Lemma quad_ip_S : forall n x k c, quad n c (ip x (S k)) =
  quad n (fun i => c i * px (x i)) (ip x k) + quad n (fun i => c i * py (x i)) (ip x k)
  + quad n (fun i => c i * pz (x i)) (ip x k).
Proof.
  intros. rewrite <- !quad_weights, <- !quad_plus. apply quad_ext; intros; [reflexivity|].
  unfold ip. cbn [pow]. unfold inner. lra.
Qed.
Lemma ip_PSD : forall n x k, PSD n (ip x k).
Proof.
  intros n x k. induction k as [|k IH]; intros c.
  - rewrite (quad_ext n c c _ (fun _ _ => 1)) by (intros; reflexivity). apply PSD_const. lra.
  - rewrite quad_ip_S. pose proof (IH (fun i => c i * px (x i))).
    pose proof (IH (fun i => c i * py (x i))). pose proof (IH (fun i => c i * pz (x i))). lra.
Qed.

(** The coefficients annihilated by all the powers. *)
Definition null (n : nat) (x : nat -> point) (c : nat -> R) : Prop := forall k, quad n c (ip x k) = 0.

Lemma null_sum : forall n x c, null n x c -> sumn n c = 0.
Proof.
  intros n x c H. specialize (H 0%nat).
  rewrite (quad_ext n c c _ (fun _ _ => 1)) in H by (intros; reflexivity).
  rewrite quad_const in H. nra.
Qed.
Lemma null_coord : forall n x c, null n x c ->
  null n x (fun i => c i * px (x i)) /\ null n x (fun i => c i * py (x i)) /\ null n x (fun i => c i * pz (x i)).
Proof.
  intros n x c H. repeat split; intros k; specialize (H (S k)); rewrite quad_ip_S in H;
    pose proof (ip_PSD n x k (fun i => c i * px (x i)));
    pose proof (ip_PSD n x k (fun i => c i * py (x i)));
    pose proof (ip_PSD n x k (fun i => c i * pz (x i))); lra.
Qed.
Lemma null_plus : forall n x c d, null n x c -> null n x d -> null n x (fun i => c i + d i).
Proof.
  intros n x c d Hc Hd k. pose proof (parallelogram n c d (ip x k)) as P. rewrite (Hc k), (Hd k) in P.
  pose proof (ip_PSD n x k (fun i => c i + d i)). pose proof (ip_PSD n x k (fun i => c i - d i)). lra.
Qed.
Lemma null_scal : forall n x a c, null n x c -> null n x (fun i => a * c i).
Proof. intros n x a c H k. rewrite quad_homog, (H k). lra. Qed.
Lemma null_ext : forall n x c d, (forall i, c i = d i) -> null n x c -> null n x d.
Proof.
  intros n x c d E H k. rewrite <- (H k). apply quad_ext; intros; [symmetry; apply E|reflexivity].
Qed.
(** An affine factor. *)
Lemma null_affine : forall n x c (a : point) b, null n x c -> null n x (fun i => c i * (inner (x i) a + b)).
Proof.
  intros n x c a b H. destruct (null_coord n x c H) as [Hx [Hy Hz]].
  apply (null_ext n x (fun i => ((px a * (c i * px (x i)) + py a * (c i * py (x i)))
                                 + pz a * (c i * pz (x i))) + b * c i)).
  - intros i. unfold inner. lra.
  - repeat apply null_plus; apply null_scal; assumption.
Qed.

(** The product, over the points other than [k], of an affine function null at the point and
    positive at [k]. *)
Definition diffp (p q : point) : point := (px p - px q, py p - py q, pz p - pz q).
Fixpoint lagrange (x : nat -> point) (k m : nat) (p : point) : R :=
  match m with
  | O => 1
  | S m' => lagrange x k m' p *
      (if (m' =? k)%nat then 1 else inner p (diffp (x k) (x m')) - inner (x m') (diffp (x k) (x m')))
  end.
Lemma lagrange_null : forall n x c k m, null n x c -> null n x (fun i => c i * lagrange x k m (x i)).
Proof.
  intros n x c k m H. induction m as [|m IH]; cbn [lagrange].
  - apply (null_ext n x c); [intros; lra|exact H].
  - destruct (m =? k)%nat.
    + apply (null_ext n x (fun i => c i * lagrange x k m (x i))); [intros; lra|exact IH].
    + apply (null_ext n x (fun i => (c i * lagrange x k m (x i)) *
          (inner (x i) (diffp (x k) (x m)) + - inner (x m) (diffp (x k) (x m))))); [intros; lra|].
      apply null_affine, IH.
Qed.
Lemma lagrange_zero : forall x k m i, (i < m)%nat -> i <> k -> lagrange x k m (x i) = 0.
Proof.
  intros x k m i Hi Ne. induction m as [|m IH]; [lia|]. cbn [lagrange].
  destruct (Nat.eq_dec i m) as [->|Ne'].
  - destruct (Nat.eqb_spec m k); [lia|]. lra.
  - rewrite IH by lia. lra.
Qed.
Lemma lagrange_pos : forall n x k m, distinct n x -> (k < n)%nat -> (m <= n)%nat ->
  0 < lagrange x k m (x k).
Proof.
  intros n x k m D Hk Hm. induction m as [|m IH]; cbn [lagrange]; [lra|].
  apply Rmult_lt_0_compat; [apply IH; lia|].
  destruct (Nat.eqb_spec m k) as [E|Ne]; [lra|].
  assert (P : 0 < sqd (x k) (x m)).
  { destruct (sqd_nonneg (x k) (x m)) as [P|E]; [exact P|]. exfalso.
    apply (D k m); try lia. apply sqd_zero. auto. }
  unfold sqd in P. unfold inner, diffp, px, py, pz in *. cbn in *. lra.
Qed.
Lemma null_zero : forall n x c, distinct n x -> null n x c -> forall i, (i < n)%nat -> c i = 0.
Proof.
  intros n x c D H k Hk. pose proof (null_sum n x _ (lagrange_null n x c k n H)) as E.
  rewrite (sumn_single n k) in E; [|exact Hk|].
  - pose proof (lagrange_pos n x k n D Hk ltac:(lia)). nra.
  - intros i Hi Ne. rewrite lagrange_zero by assumption. lra.
Qed.

Lemma exp_inner_PD : forall n x, distinct n x -> PD n (fun i j => exp (inner (x i) (x j))).
Proof.
  intros n x D c N.
  assert (G : forall k, 0 <= quad n c (fun i j => inner (x i) (x j) ^ k)) by (intros; apply ip_PSD).
  destruct (Rlt_le_dec 0 (quad n c (fun i j => exp (inner (x i) (x j))))) as [L|L]; [exact L|exfalso].
  destruct N as [i [Hi Hc]]. apply Hc. apply (null_zero n x c D); [|exact Hi].
  intros k. pose proof (quad_exp_ge n c (fun i j => inner (x i) (x j)) (S k) G) as B.
  assert (F : forall k, 0 < / INR (fact k)) by (intros; apply Rinv_0_lt_compat, INR_fact_lt_0).
  assert (Z : / INR (fact k) * quad n c (fun i j => inner (x i) (x j) ^ k) = 0).
  { apply (sumn_pos_zero (S k) (fun k => / INR (fact k) * quad n c (fun i j => inner (x i) (x j) ^ k)));
      [|lra|lia].
    intros p Hp. apply Rmult_le_pos; [left; apply F|apply G]. }
  specialize (F k). change (quad n c (ip x k) = 0). unfold ip. nra.
Qed.

(** ** The Gaussian kernel *)
Theorem gaussian_PD : forall n x t, distinct n x -> 0 < t -> PD n (fun i j => exp (- (t * sqd (x i) (x j)))).
Proof.
  intros n x t D Ht.
  set (a := sqrt (2 * t)). assert (Ha : a * a = 2 * t) by (apply sqrt_sqrt; lra).
  assert (Pa : 0 < a) by (apply sqrt_lt_R0; lra).
  set (y := fun i => (a * px (x i), a * py (x i), a * pz (x i))).
  assert (Dy : distinct n y).
  { intros i j Hi Hj Ne E. apply (D i j Hi Hj Ne). unfold y in E. injection E as E1 E2 E3.
    apply Rmult_eq_reg_l in E1, E2, E3; try lra.
    destruct (x i) as [[? ?] ?], (x j) as [[? ?] ?]. unfold px, py, pz in *. cbn in *. congruence. }
  apply (PD_ext n (fun i j => exp (- (t * inner (x i) (x i))) * exp (- (t * inner (x j) (x j)))
                              * exp (inner (y i) (y j)))).
  - intros i j _ _. rewrite <- !exp_plus. f_equal. unfold inner, sqd, y, px, py, pz. cbn.
    replace (a * fst (fst (x i)) * (a * fst (fst (x j))) + a * snd (fst (x i)) * (a * snd (fst (x j)))
             + a * snd (x i) * (a * snd (x j)))
      with ((a * a) * (fst (fst (x i)) * fst (fst (x j)) + snd (fst (x i)) * snd (fst (x j))
             + snd (x i) * snd (x j))) by lra.
    rewrite Ha. lra.
  - apply (PD_weights n (fun i => exp (- (t * inner (x i) (x i))))).
    + intros i _. pose proof (exp_pos (- (t * inner (x i) (x i)))). lra.
    + apply exp_inner_PD, Dy.
Qed.

(** ** Kernels obtained from the derivative with respect to a parameter *)
Definition limit_inf (f : R -> R) (l : R) : Prop :=
  forall e, 0 < e -> exists M, forall t, M < t -> Rabs (f t - l) < e.
Definition limit_0 (f : R -> R) : Prop :=
  forall e, 0 < e -> exists d, 0 < d /\ forall t, 0 < t -> t < d -> Rabs (f t) < e.

Lemma increasing_limit : forall f f' l,
  (forall t, 0 < t -> derivable_pt_lim f t (f' t)) -> (forall t, 0 < t -> 0 < f' t) ->
  limit_0 f -> limit_inf f l -> 0 < l.
Proof.
  intros f f' l D P L0 Linf.
  assert (Inc : forall a b, 0 < a -> a < b -> f a < f b).
  { intros a b Ha Hab. destruct (MVT_cor2 f f' a b Hab) as [c [E [H1 H2]]].
    - intros c H1. apply D. lra.
    - pose proof (P c ltac:(lra)). nra. }
  assert (H1 : 0 <= f (1 / 2)).
  { destruct (Rle_lt_dec 0 (f (1 / 2))) as [H|H]; [exact H|exfalso].
    destruct (L0 (- f (1 / 2)) ltac:(lra)) as [d [Hd B]].
    set (t := Rmin (d / 2) (1 / 4)).
    assert (Ht : 0 < t) by (apply Rmin_pos; lra).
    assert (t <= d / 2) by apply Rmin_l. assert (t <= 1 / 4) by apply Rmin_r.
    pose proof (Inc t (1 / 2) Ht ltac:(lra)). specialize (B t Ht ltac:(lra)).
    apply Rabs_def2 in B. lra. }
  pose proof (Inc (1 / 2) 1 ltac:(lra) ltac:(lra)) as H2.
  destruct (Rlt_le_dec 0 l) as [H|H]; [exact H|exfalso].
  destruct (Linf (f 1) ltac:(lra)) as [M B].
  set (t := Rmax (M + 1) 2). assert (M + 1 <= t) by apply Rmax_l. assert (2 <= t) by apply Rmax_r.
  specialize (B t ltac:(lra)). pose proof (Inc 1 t ltac:(lra) ltac:(lra)).
  apply Rabs_def2 in B. lra.
Qed.

Lemma sumn_deriv : forall n (f : nat -> R -> R) f' t,
  (forall i, (i < n)%nat -> derivable_pt_lim (f i) t (f' i)) ->
  derivable_pt_lim (fun t => sumn n (fun i => f i t)) t (sumn n f').
Proof.
  induction n; intros f f' t H; cbn.
  - apply derivable_pt_lim_const.
  - apply (derivable_pt_lim_plus (fun t => sumn n (fun i => f i t)) (f n));
      [apply IHn; intros; apply H; lia|apply H; lia].
Qed.
Lemma sumn_inf : forall n (f : nat -> R -> R) l, (forall i, (i < n)%nat -> limit_inf (f i) (l i)) ->
  limit_inf (fun t => sumn n (fun i => f i t)) (sumn n l).
Proof.
  induction n; intros f l H e He; cbn.
  - exists 0. intros. rewrite Rminus_0_r, Rabs_R0. exact He.
  - destruct (IHn f l ltac:(intros; apply H; lia) (e / 2) ltac:(lra)) as [M HM].
    destruct (H n ltac:(lia) (e / 2) ltac:(lra)) as [M' HM'].
    exists (Rmax M M'). intros t Ht.
    specialize (HM t ltac:(eapply Rle_lt_trans; [apply Rmax_l|apply Ht])).
    specialize (HM' t ltac:(eapply Rle_lt_trans; [apply Rmax_r|apply Ht])).
    apply Rabs_def2 in HM, HM'. apply Rabs_def1; lra.
Qed.
Lemma sumn_lim0 : forall n (f : nat -> R -> R), (forall i, (i < n)%nat -> limit_0 (f i)) ->
  limit_0 (fun t => sumn n (fun i => f i t)).
Proof.
  induction n; intros f H e He; cbn.
  - exists 1. split; [lra|]. intros. rewrite Rabs_R0. exact He.
  - destruct (IHn f ltac:(intros; apply H; lia) (e / 2) ltac:(lra)) as [d [Hd B]].
    destruct (H n ltac:(lia) (e / 2) ltac:(lra)) as [d' [Hd' B']].
    exists (Rmin d d'). split; [apply Rmin_pos; assumption|]. intros t Ht Ht'.
    specialize (B t Ht ltac:(eapply Rlt_le_trans; [apply Ht'|apply Rmin_l])).
    specialize (B' t Ht ltac:(eapply Rlt_le_trans; [apply Ht'|apply Rmin_r])).
    apply Rabs_def2 in B, B'. apply Rabs_def1; lra.
Qed.
Lemma inf_scal : forall k f l, limit_inf f l -> limit_inf (fun t => k * f t) (k * l).
Proof.
  intros k f l H e He. pose proof (Rabs_pos k).
  destruct (H (e / (Rabs k + 1)) ltac:(apply Rdiv_lt_0_compat; lra)) as [M HM].
  exists M. intros t Ht. specialize (HM t Ht).
  replace (k * f t - k * l) with (k * (f t - l)) by lra. rewrite Rabs_mult.
  apply Rle_lt_trans with ((Rabs k + 1) * Rabs (f t - l)); [pose proof (Rabs_pos (f t - l)); nra|].
  apply Rmult_lt_compat_l with (r := Rabs k + 1) in HM; [|lra].
  replace ((Rabs k + 1) * (e / (Rabs k + 1))) with e in HM by (field; lra). exact HM.
Qed.
Lemma lim0_scal : forall k f, limit_0 f -> limit_0 (fun t => k * f t).
Proof.
  intros k f H e He. pose proof (Rabs_pos k).
  destruct (H (e / (Rabs k + 1)) ltac:(apply Rdiv_lt_0_compat; lra)) as [d [Hd B]].
  exists d. split; [exact Hd|]. intros t Ht Ht'. specialize (B t Ht Ht'). rewrite Rabs_mult.
  apply Rle_lt_trans with ((Rabs k + 1) * Rabs (f t)); [pose proof (Rabs_pos (f t)); nra|].
  apply Rmult_lt_compat_l with (r := Rabs k + 1) in B; [|lra].
  replace ((Rabs k + 1) * (e / (Rabs k + 1))) with e in B by (field; lra). exact B.
Qed.

Lemma quad_integral : forall n c (K K' : R -> nat -> nat -> R) L,
  (forall t i j, 0 < t -> (i < n)%nat -> (j < n)%nat -> derivable_pt_lim (fun t => K t i j) t (K' t i j)) ->
  (forall i j, (i < n)%nat -> (j < n)%nat -> limit_0 (fun t => K t i j)) ->
  (forall i j, (i < n)%nat -> (j < n)%nat -> limit_inf (fun t => K t i j) (L i j)) ->
  (forall t, 0 < t -> 0 < quad n c (K' t)) -> 0 < quad n c L.
Proof.
  intros n c K K' L D L0 Li P.
  apply (increasing_limit (fun t => quad n c (K t)) (fun t => quad n c (K' t))).
  - intros t Ht. unfold quad.
    apply (sumn_deriv n (fun i t => sumn n (fun j => c i * c j * K t i j))). intros i Hi.
    apply (sumn_deriv n (fun j t => c i * c j * K t i j)). intros j Hj.
    apply (derivable_pt_lim_scal (fun t => K t i j)). apply D; assumption.
  - exact P.
  - unfold quad. apply (sumn_lim0 n (fun i t => sumn n (fun j => c i * c j * K t i j))). intros i Hi.
    apply (sumn_lim0 n (fun j t => c i * c j * K t i j)). intros j Hj. apply lim0_scal, L0; assumption.
  - unfold quad. apply (sumn_inf n (fun i t => sumn n (fun j => c i * c j * K t i j))). intros i Hi.
    apply (sumn_inf n (fun j t => c i * c j * K t i j)). intros j Hj. apply inf_scal, Li; assumption.
Qed.
Lemma PD_integral : forall n (K K' : R -> nat -> nat -> R) L,
  (forall t i j, 0 < t -> (i < n)%nat -> (j < n)%nat -> derivable_pt_lim (fun t => K t i j) t (K' t i j)) ->
  (forall i j, (i < n)%nat -> (j < n)%nat -> limit_0 (fun t => K t i j)) ->
  (forall i j, (i < n)%nat -> (j < n)%nat -> limit_inf (fun t => K t i j) (L i j)) ->
  (forall t, 0 < t -> PD n (K' t)) -> PD n L.
Proof.
  intros n K K' L D L0 Li P c N. apply (quad_integral n c K K' L D L0 Li).
  intros t Ht. apply P; assumption.
Qed.

(** A function continuous at 0, null there. *)
Lemma continuous_lim0 : forall f, continuity_pt f 0 -> f 0 = 0 -> limit_0 f.
Proof.
  intros f H Z e He. destruct (H e He) as [d [Hd B]]. exists d. split; [exact Hd|].
  intros t Ht Ht'. specialize (B t). cbn in B. unfold R_dist in B. rewrite Z, !Rminus_0_r in B.
  apply B. split; [split; [exact I|lra]|]. rewrite Rabs_pos_eq; lra.
Qed.
Lemma derivable_lim0 : forall f l, derivable_pt_lim f 0 l -> f 0 = 0 -> limit_0 f.
Proof.
  intros f l H Z. apply continuous_lim0; [|exact Z]. apply derivable_continuous_pt.
  exists l. exact H.
Qed.
