(** Finite sums and quadratic forms over the reals: positive (semi)definite kernels, the
    decomposition in squares, products and exponentials of kernels.  Auxiliary mathematics for
    the radial basis functions and the kriging; nothing here models code. *)
From Coq Require Import Reals Lra Lia Arith.
Open Scope R_scope.

Fixpoint sumn (n : nat) (f : nat -> R) : R :=
  match n with O => 0 | S k => sumn k f + f k end.

Lemma sumn_ext : forall n f g, (forall i, (i < n)%nat -> f i = g i) -> sumn n f = sumn n g.
Proof.
  induction n; intros f g H; cbn; [reflexivity|].
  rewrite (IHn f g) by (intros; apply H; lia). rewrite H by lia. reflexivity.
Qed.
Lemma sumn_0 : forall n f, (forall i, (i < n)%nat -> f i = 0) -> sumn n f = 0.
Proof.
  induction n; intros f H; cbn; [reflexivity|].
  rewrite IHn by (intros; apply H; lia). rewrite H by lia. lra.
Qed.
Lemma sumn_plus : forall n f g, sumn n (fun i => f i + g i) = sumn n f + sumn n g.
Proof. induction n; intros; cbn; [lra|]. rewrite IHn. lra. Qed.
Lemma sumn_scal : forall n k f, sumn n (fun i => k * f i) = k * sumn n f.
Proof. induction n; intros; cbn; [lra|]. rewrite IHn. lra. Qed.
Lemma sumn_scal_r : forall n k f, sumn n (fun i => f i * k) = sumn n f * k.
Proof. induction n; intros; cbn; [lra|]. rewrite IHn. lra. Qed.
Lemma sumn_minus : forall n f g, sumn n (fun i => f i - g i) = sumn n f - sumn n g.
Proof. induction n; intros; cbn; [lra|]. rewrite IHn. lra. Qed.
Lemma sumn_swap : forall n m f,
  sumn n (fun i => sumn m (fun j => f i j)) = sumn m (fun j => sumn n (fun i => f i j)).
Proof.
  induction n; intros; cbn.
  - symmetry. apply sumn_0. reflexivity.
  - rewrite IHn. rewrite <- sumn_plus. reflexivity.
Qed.
Lemma sumn_nonneg : forall n f, (forall i, (i < n)%nat -> 0 <= f i) -> 0 <= sumn n f.
Proof.
  induction n; intros f H; cbn; [lra|].
  pose proof (IHn f ltac:(intros; apply H; lia)). pose proof (H n ltac:(lia)). lra.
Qed.
Lemma sumn_pos_zero : forall n f, (forall i, (i < n)%nat -> 0 <= f i) -> sumn n f <= 0 ->
  forall i, (i < n)%nat -> f i = 0.
Proof.
  induction n; intros f H Z i Hi; [lia|]. cbn in Z.
  pose proof (sumn_nonneg n f ltac:(intros; apply H; lia)).
  pose proof (H n ltac:(lia)).
  destruct (Nat.eq_dec i n) as [->|Ne]; [lra|].
  apply IHn; [intros; apply H; lia|lra|lia].
Qed.
Lemma sumn_le : forall n f g, (forall i, (i < n)%nat -> f i <= g i) -> sumn n f <= sumn n g.
Proof.
  induction n; intros f g H; cbn; [lra|].
  pose proof (IHn f g ltac:(intros; apply H; lia)). pose proof (H n ltac:(lia)). lra.
Qed.
Lemma sumn_mult : forall n m f g,
  sumn n f * sumn m g = sumn n (fun i => sumn m (fun j => f i * g j)).
Proof.
  intros. rewrite <- sumn_scal_r. apply sumn_ext. intros. rewrite <- sumn_scal. reflexivity.
Qed.
(** A sum with one term that counts. *)
Lemma sumn_single : forall n k f, (k < n)%nat -> (forall i, (i < n)%nat -> i <> k -> f i = 0) ->
  sumn n f = f k.
Proof.
  induction n; intros k f Hk H; [lia|]. cbn.
  destruct (Nat.eq_dec k n) as [->|Ne].
  - rewrite sumn_0; [lra|]. intros. apply H; lia.
  - rewrite (IHn k f) by (try lia; intros; apply H; lia). rewrite (H n) by lia. lra.
Qed.

(** The quadratic form of a matrix. *)
Definition quad (n : nat) (c : nat -> R) (K : nat -> nat -> R) : R :=
  sumn n (fun i => sumn n (fun j => c i * c j * K i j)).

Lemma quad_ext : forall n c c' K K', (forall i, (i < n)%nat -> c i = c' i) ->
  (forall i j, (i < n)%nat -> (j < n)%nat -> K i j = K' i j) -> quad n c K = quad n c' K'.
Proof.
  intros. unfold quad. apply sumn_ext; intros. apply sumn_ext; intros.
  rewrite H, H, H0 by assumption. reflexivity.
Qed.
Lemma quad_plus : forall n c K K', quad n c (fun i j => K i j + K' i j) = quad n c K + quad n c K'.
Proof.
  intros. unfold quad. rewrite <- sumn_plus. apply sumn_ext; intros.
  rewrite <- sumn_plus. apply sumn_ext; intros. lra.
Qed.
Lemma quad_scal : forall n c k K, quad n c (fun i j => k * K i j) = k * quad n c K.
Proof.
  intros. unfold quad. rewrite <- sumn_scal. apply sumn_ext; intros.
  rewrite <- sumn_scal. apply sumn_ext; intros. lra.
Qed.
Lemma quad_weights : forall n c g K,
  quad n c (fun i j => g i * g j * K i j) = quad n (fun i => c i * g i) K.
Proof. intros. unfold quad. apply sumn_ext; intros. apply sumn_ext; intros. lra. Qed.
Lemma quad_const : forall n c k, quad n c (fun _ _ => k) = k * (sumn n c * sumn n c).
Proof.
  intros. unfold quad. rewrite sumn_mult, <- sumn_scal. apply sumn_ext; intros.
  rewrite <- sumn_scal. apply sumn_ext; intros. lra.
Qed.
Lemma quad_sum : forall m n c (K : nat -> nat -> nat -> R),
  quad n c (fun i j => sumn m (fun k => K k i j)) = sumn m (fun k => quad n c (K k)).
Proof.
  induction m; intros; cbn.
  - unfold quad. apply sumn_0; intros. apply sumn_0; intros. lra.
  - rewrite quad_plus, IHm. reflexivity.
Qed.
Lemma quad_row : forall n c K, quad n c K = sumn n (fun i => c i * sumn n (fun j => K i j * c j)).
Proof.
  intros. unfold quad. apply sumn_ext; intros. rewrite <- sumn_scal.
  apply sumn_ext; intros. lra.
Qed.
Lemma parallelogram : forall n c d K,
  quad n (fun i => c i + d i) K + quad n (fun i => c i - d i) K = 2 * quad n c K + 2 * quad n d K.
Proof.
  intros. unfold quad. rewrite <- !sumn_scal, <- !sumn_plus. apply sumn_ext; intros.
  rewrite <- !sumn_scal, <- !sumn_plus. apply sumn_ext; intros. lra.
Qed.
Lemma quad_homog : forall n a c K, quad n (fun i => a * c i) K = a * a * quad n c K.
Proof.
  intros. unfold quad. rewrite <- sumn_scal. apply sumn_ext; intros.
  rewrite <- sumn_scal. apply sumn_ext; intros. lra.
Qed.

Definition nonzero (n : nat) (c : nat -> R) : Prop := exists i, (i < n)%nat /\ c i <> 0.
Definition PSD (n : nat) (K : nat -> nat -> R) : Prop := forall c, 0 <= quad n c K.
Definition PD (n : nat) (K : nat -> nat -> R) : Prop := forall c, nonzero n c -> 0 < quad n c K.
Definition symm (n : nat) (K : nat -> nat -> R) : Prop :=
  forall i j, (i < n)%nat -> (j < n)%nat -> K i j = K j i.

Lemma nonzero_dec : forall n c, nonzero n c \/ forall i, (i < n)%nat -> c i = 0.
Proof.
  induction n; intros c; [right; intros; lia|].
  destruct (IHn c) as [[i [Hi Hc]]|Z].
  - left. exists i. split; [lia|exact Hc].
  - destruct (Req_dec (c n) 0) as [E|E].
    + right. intros i Hi. destruct (Nat.eq_dec i n) as [->|]; [exact E|]. apply Z. lia.
    + left. exists n. split; [lia|exact E].
Qed.
Lemma quad_zero : forall n c K, (forall i, (i < n)%nat -> c i = 0) -> quad n c K = 0.
Proof.
  intros. unfold quad. apply sumn_0; intros. apply sumn_0; intros. rewrite H by assumption. lra.
Qed.
Lemma PD_PSD : forall n K, PD n K -> PSD n K.
Proof.
  intros n K H c. destruct (nonzero_dec n c) as [N|Z].
  - left. apply H, N.
  - rewrite quad_zero by exact Z. lra.
Qed.
Lemma PD_ext : forall n K K', (forall i j, (i < n)%nat -> (j < n)%nat -> K i j = K' i j) ->
  PD n K -> PD n K'.
Proof.
  intros n K K' E H c N. rewrite <- (quad_ext n c c K K'); auto.
Qed.
Lemma PSD_ext : forall n K K', (forall i j, (i < n)%nat -> (j < n)%nat -> K i j = K' i j) ->
  PSD n K -> PSD n K'.
Proof. intros n K K' E H c. rewrite <- (quad_ext n c c K K'); auto. Qed.
Lemma PD_scal : forall n k K, 0 < k -> PD n K -> PD n (fun i j => k * K i j).
Proof. intros n k K Hk H c N. rewrite quad_scal. apply Rmult_lt_0_compat; auto. Qed.
Lemma PD_weights : forall n g K, (forall i, (i < n)%nat -> g i <> 0) -> PD n K ->
  PD n (fun i j => g i * g j * K i j).
Proof.
  intros n g K Hg H c [i [Hi Hc]]. rewrite quad_weights. apply H. exists i. split; [exact Hi|].
  apply Rmult_integral_contrapositive_currified; auto.
Qed.
Lemma PSD_weights : forall n g K, PSD n K -> PSD n (fun i j => g i * g j * K i j).
Proof. intros n g K H c. rewrite quad_weights. apply H. Qed.
Lemma PSD_plus : forall n K L, PSD n K -> PSD n L -> PSD n (fun i j => K i j + L i j).
Proof. intros n K L H H' c. rewrite quad_plus. specialize (H c). specialize (H' c). lra. Qed.
Lemma PSD_const : forall n k, 0 <= k -> PSD n (fun _ _ => k).
Proof. intros n k H c. rewrite quad_const. apply Rmult_le_pos; [exact H|]. nra. Qed.

(** A positive definite matrix has no kernel. *)
Lemma PD_injective : forall n K c, PD n K ->
  (forall i, (i < n)%nat -> sumn n (fun j => K i j * c j) = 0) -> forall i, (i < n)%nat -> c i = 0.
Proof.
  intros n K c H Z. destruct (nonzero_dec n c) as [N|Z']; [|exact Z'].
  exfalso. specialize (H c N). rewrite quad_row in H. rewrite sumn_0 in H; [lra|].
  intros i Hi. rewrite Z by exact Hi. lra.
Qed.

(** ** Decomposition of a positive semidefinite matrix *)
Lemma quad_S : forall n c K, quad (S n) c K =
  quad n c K + c n * sumn n (fun j => c j * (K j n + K n j)) + c n * c n * K n n.
Proof.
  intros. unfold quad. cbn [sumn]. rewrite sumn_plus.
  rewrite (sumn_ext n (fun i => c i * c n * K i n) (fun i => c n * (c i * K i n))) by (intros; lra).
  rewrite (sumn_ext n (fun j => c n * c j * K n j) (fun i => c n * (c i * K n i))) by (intros; lra).
  rewrite !sumn_scal.
  rewrite (sumn_ext n (fun j => c j * (K j n + K n j)) (fun j => c j * K j n + c j * K n j)) by (intros; lra).
  rewrite sumn_plus. lra.
Qed.

Lemma PSD_restrict : forall n K, PSD (S n) K -> PSD n K.
Proof.
  intros n K H c. specialize (H (fun i => if (i <? n)%nat then c i else 0)).
  rewrite quad_S in H. rewrite Nat.ltb_irrefl in H.
  replace (quad n (fun i => if (i <? n)%nat then c i else 0) K) with (quad n c K) in H.
  - lra.
  - apply quad_ext; intros; [|reflexivity]. destruct (Nat.ltb_spec i n); [reflexivity|lia].
Qed.

Lemma PSD_diag : forall n K, PSD (S n) K -> 0 <= K n n.
Proof.
  intros n K H. specialize (H (fun i => if (i =? n)%nat then 1 else 0)).
  rewrite quad_S in H. rewrite Nat.eqb_refl in H.
  rewrite quad_zero, sumn_0 in H.
  - lra.
  - intros i Hi. destruct (Nat.eqb_spec i n); [lia|lra].
  - intros i Hi. destruct (Nat.eqb_spec i n); [lia|reflexivity].
Qed.

(** The value of the form for a vector with two components. *)
Lemma PSD_null_row : forall n K, symm (S n) K -> PSD (S n) K -> K n n = 0 ->
  forall j, (j < n)%nat -> K n j = 0.
Proof.
  intros n K Sy H Z j Hj.
  assert (A : forall x, 0 <= K j j + 2 * x * K n j).
  { intros x. specialize (H (fun i => if (i =? n)%nat then x else if (i =? j)%nat then 1 else 0)).
    rewrite quad_S in H. rewrite Nat.eqb_refl, Z in H.
    assert (E : quad n (fun i => if (i =? n)%nat then x else if (i =? j)%nat then 1 else 0) K = K j j).
    { unfold quad. rewrite (sumn_single n j); [|exact Hj|].
      - rewrite (sumn_single n j); [|exact Hj|].
        + destruct (Nat.eqb_spec j n); [lia|]. rewrite Nat.eqb_refl. lra.
        + intros i Hi Ne. destruct (Nat.eqb_spec i n); [lia|]. destruct (Nat.eqb_spec i j); [lia|]. lra.
      - intros i Hi Ne. apply sumn_0. intros k Hk. destruct (Nat.eqb_spec i n); [lia|].
        destruct (Nat.eqb_spec i j); [lia|]. lra. }
    rewrite E in H.
    rewrite (sumn_single n j) in H; [|exact Hj|].
    - destruct (Nat.eqb_spec j n); [lia|]. rewrite Nat.eqb_refl in H.
      rewrite (Sy j n) in H by lia. lra.
    - intros i Hi Ne. destruct (Nat.eqb_spec i n); [lia|]. destruct (Nat.eqb_spec i j); [lia|]. lra. }
  destruct (Req_dec (K n j) 0) as [E|E]; [exact E|].
  specialize (A (- (K j j + 1) / (2 * K n j))).
  replace (2 * (- (K j j + 1) / (2 * K n j)) * K n j) with (- (K j j + 1)) in A by (field; exact E).
  lra.
Qed.

Lemma decompose : forall n K, symm n K -> PSD n K ->
  exists (d : nat -> R) (v : nat -> nat -> R), (forall k, (k < n)%nat -> 0 <= d k) /\
    forall i j, (i < n)%nat -> (j < n)%nat -> K i j = sumn n (fun k => d k * v k i * v k j).
Proof.
  induction n as [|n IH]; intros K Sy H.
  - exists (fun _ => 0), (fun _ _ => 0). split; intros; lia.
  - pose proof (PSD_diag n K H) as Dg.
    destruct (Req_dec (K n n) 0) as [Z|Z].
    + pose proof (PSD_null_row n K Sy H Z) as Row.
      destruct (IH K) as [d [v [Hd Hv]]].
      { intros i j Hi Hj. apply Sy; lia. } { apply PSD_restrict, H. }
      exists (fun k => if (k <? n)%nat then d k else 0), (fun k i => if (i <? n)%nat then v k i else 0).
      split.
      { intros k Hk. destruct (Nat.ltb_spec k n); [apply Hd; assumption|lra]. }
      intros i j Hi Hj. cbn [sumn]. rewrite Nat.ltb_irrefl, !Rmult_0_l, Rplus_0_r.
      destruct (Nat.ltb_spec i n) as [Li|Li]; [destruct (Nat.ltb_spec j n) as [Lj|Lj]|].
      * rewrite Hv by assumption. apply sumn_ext; intros k Hk.
        destruct (Nat.ltb_spec k n); [reflexivity|lia].
      * replace j with n by lia. rewrite (Sy i n) by lia. rewrite Row by exact Li.
        symmetry. apply sumn_0; intros. lra.
      * replace i with n by lia. replace (K n j) with 0.
        { symmetry. apply sumn_0; intros. lra. }
        destruct (Nat.eq_dec j n) as [->|Ne]; [lra|]. symmetry. apply Row. lia.
    + assert (P : 0 < K n n) by lra.
      destruct (IH (fun i j => K i j - K i n * K n j / K n n)) as [d [v [Hd Hv]]].
      { intros i j Hi Hj. rewrite (Sy i j), (Sy i n), (Sy n j) by lia. field. exact Z. }
      { intros c.
        specialize (H (fun i => if (i <? n)%nat then c i else - sumn n (fun j => c j * K n j) / K n n)).
        rewrite quad_S in H. rewrite Nat.ltb_irrefl in H.
        rewrite (quad_ext n _ c K K) in H;
          [|intros i Hi; destruct (Nat.ltb_spec i n); [reflexivity|lia]|reflexivity].
        set (s := sumn n (fun j => c j * K n j)) in *.
        rewrite (sumn_ext n _ (fun j => 2 * (c j * K n j))) in H
          by (intros i Hi; destruct (Nat.ltb_spec i n); [|lia]; rewrite (Sy i n) by lia; lra).
        rewrite sumn_scal in H. fold s in H.
        rewrite (quad_ext n c c _ (fun i j => K i j + (- / K n n) * (K n i * K n j * 1)))
          by (intros; try reflexivity; rewrite (Sy i n) by lia; field; exact Z).
        rewrite quad_plus, quad_scal, quad_weights, quad_const. fold s.
        replace (quad n c K + - / K n n * (1 * (s * s))) with
          (quad n c K + - s / K n n * (2 * s) + - s / K n n * (- s / K n n) * K n n) by (field; exact Z).
        exact H. }
      exists (fun k => if (k <? n)%nat then d k else / K n n),
             (fun k i => if (k <? n)%nat then (if (i <? n)%nat then v k i else 0) else K n i).
      split.
      { intros k Hk. destruct (Nat.ltb_spec k n); [apply Hd; assumption|]. left. apply Rinv_0_lt_compat, P. }
      intros i j Hi Hj. cbn [sumn]. rewrite Nat.ltb_irrefl.
      destruct (Nat.ltb_spec i n) as [Li|Li]; [destruct (Nat.ltb_spec j n) as [Lj|Lj]|].
      * rewrite (sumn_ext n _ (fun k => d k * v k i * v k j))
          by (intros k Hk; destruct (Nat.ltb_spec k n); [reflexivity|lia]).
        rewrite <- Hv by assumption. rewrite (Sy i n) by lia. field. exact Z.
      * replace j with n by lia. rewrite (Sy i n) by lia. rewrite sumn_0; [field; exact Z|].
        intros k Hk. destruct (Nat.ltb_spec k n); [|lia]. lra.
      * replace i with n by lia. rewrite sumn_0; [field; exact Z|].
        intros k Hk. destruct (Nat.ltb_spec k n); [|lia]. lra.
Qed.

(** ** The product of two kernels (Schur) *)
Lemma PSD_product : forall n K L, symm n K -> PSD n K -> PSD n L ->
  PSD n (fun i j => K i j * L i j).
Proof.
  intros n K L Sy HK HL c. destruct (decompose n K Sy HK) as [d [v [Hd Hv]]].
  rewrite (quad_ext n c c _ (fun i j => sumn n (fun k => d k * (v k i * v k j * L i j)))).
  - rewrite quad_sum. apply sumn_nonneg. intros k Hk. rewrite quad_scal, quad_weights.
    apply Rmult_le_pos; [apply Hd, Hk|apply HL].
  - reflexivity.
  - intros i j Hi Hj. rewrite (Hv i j Hi Hj), <- sumn_scal_r. apply sumn_ext; intros. lra.
Qed.
Lemma PSD_power : forall n K k, symm n K -> PSD n K -> PSD n (fun i j => K i j ^ k).
Proof.
  intros n K k Sy H. induction k as [|k IH]; cbn.
  - apply PSD_const. lra.
  - apply PSD_product; assumption.
Qed.

(** ** Limits *)
Lemma sumn_cv : forall n (u : nat -> nat -> R) l, (forall i, (i < n)%nat -> Un_cv (u i) (l i)) ->
  Un_cv (fun m => sumn n (fun i => u i m)) (sumn n l).
Proof.
  induction n; intros u l H; cbn.
  - intros e He. exists 0%nat. intros. unfold R_dist. rewrite Rminus_0_r, Rabs_R0. exact He.
  - apply CV_plus; [apply IHn; intros; apply H; lia|apply H; lia].
Qed.
Lemma cv_scal : forall u l k, Un_cv u l -> Un_cv (fun m => k * u m) (k * l).
Proof.
  intros u l k H. apply CV_mult; [|exact H].
  intros e He. exists 0%nat. intros. unfold R_dist. rewrite Rminus_diag_eq by reflexivity.
  rewrite Rabs_R0. exact He.
Qed.
Lemma quad_cv : forall n c (U : nat -> nat -> nat -> R) K,
  (forall i j, (i < n)%nat -> (j < n)%nat -> Un_cv (U i j) (K i j)) ->
  Un_cv (fun m => quad n c (fun i j => U i j m)) (quad n c K).
Proof.
  intros n c U K H. unfold quad.
  apply (sumn_cv n (fun i m => sumn n (fun j => c i * c j * U i j m))). intros i Hi.
  apply (sumn_cv n (fun j m => c i * c j * U i j m)). intros j Hj.
  apply cv_scal, H; assumption.
Qed.
Lemma cv_ge : forall u l b N, Un_cv u l -> (forall m, (N <= m)%nat -> b <= u m) -> b <= l.
Proof.
  intros u l b N H Hb. destruct (Rle_lt_dec b l) as [L|L]; [exact L|exfalso].
  destruct (H (b - l) ltac:(lra)) as [M HM].
  specialize (HM (max M N) ltac:(lia)). specialize (Hb (max M N) ltac:(lia)).
  unfold R_dist in HM. apply Rabs_def2 in HM. lra.
Qed.

(** ** The exponential of a kernel *)
Lemma exp_cv : forall x, Un_cv (fun m => sumn (S m) (fun k => / INR (fact k) * x ^ k)) (exp x).
Proof.
  intros x. unfold exp. destruct (exist_exp x) as [l Hl]. cbn.
  unfold exp_in, infinite_sum in Hl. intros e He. destruct (Hl e He) as [N HN]. exists N.
  intros m Hm. specialize (HN m Hm). change (R_dist (sumn (S m) (fun k => / INR (fact k) * x ^ k)) l < e).
  replace (sumn (S m) (fun k => / INR (fact k) * x ^ k)) with (sum_f_R0 (fun i => / INR (fact i) * x ^ i) m).
  - exact HN.
  - clear. induction m as [|m IH]; cbn [sum_f_R0 sumn] in *; [lra|]. rewrite IH. reflexivity.
Qed.
Lemma quad_exp : forall n c K,
  Un_cv (fun m => sumn (S m) (fun k => / INR (fact k) * quad n c (fun i j => K i j ^ k)))
        (quad n c (fun i j => exp (K i j))).
Proof.
  intros n c K.
  pose proof (quad_cv n c (fun i j m => sumn (S m) (fun k => / INR (fact k) * K i j ^ k))
                (fun i j => exp (K i j)) (fun i j _ _ => exp_cv (K i j))) as H.
  intros e He. destruct (H e He) as [N HN]. exists N. intros m Hm. specialize (HN m Hm).
  rewrite quad_sum in HN.
  rewrite (sumn_ext (S m) _ (fun k => / INR (fact k) * quad n c (fun i j => K i j ^ k))) in HN
    by (intros; apply quad_scal).
  exact HN.
Qed.
(** The form of the exponential is at least the sum of any of its terms. *)
Lemma quad_exp_ge : forall n c K N, (forall k, 0 <= quad n c (fun i j => K i j ^ k)) ->
  sumn N (fun k => / INR (fact k) * quad n c (fun i j => K i j ^ k))
    <= quad n c (fun i j => exp (K i j)).
Proof.
  intros n c K N H. apply (cv_ge _ _ _ N (quad_exp n c K)). intros m Hm.
  assert (G : forall p q, sumn p (fun k => / INR (fact k) * quad n c (fun i j => K i j ^ k)) <=
                          sumn (q + p) (fun k => / INR (fact k) * quad n c (fun i j => K i j ^ k))).
  { intros p q. induction q as [|q IH]; cbn [sumn plus]; [lra|].
    assert (0 <= / INR (fact (q + p)) * quad n c (fun i j => K i j ^ (q + p))); [|lra].
    apply Rmult_le_pos; [|apply H]. left. apply Rinv_0_lt_compat, INR_fact_lt_0. }
  replace (S m) with ((S m - N) + N)%nat by lia. apply G.
Qed.
Lemma PSD_exp : forall n K, symm n K -> PSD n K -> PSD n (fun i j => exp (K i j)).
Proof.
  intros n K Sy H c. pose proof (quad_exp_ge n c K 0) as G. cbn in G. apply G.
  intros k. apply PSD_power; assumption.
Qed.
