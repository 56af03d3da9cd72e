(** Lemmas about the radial basis functions. *)
From Coq Require Import Reals Lra Lia Permutation.
From Verif Require Import Base WindowModel WindowProofs RTreeModel RTreeSpec RTreeProofs RbfModel RbfSpec
  QuadForm KernelProofs KernelProofs2 KernelProofs3 LinSolve.
Open Scope R_scope.

Definition nd (xk : list point) (i : nat) : point := nth i xk (0, 0, 0).
Lemma NoDup_distinct : forall xk, NoDup xk -> distinct (length xk) (nd xk).
Proof.
  intros xk H i j Hi Hj Ne E. apply Ne. unfold nd in E.
  apply (NoDup_nth xk (0, 0, 0)) in E; auto.
Qed.

(** ** The matrices *)
Lemma nth_map_lt : forall {A B} (f : A -> B) l i d d', (i < length l)%nat -> nth i (map f l) d' = f (nth i l d).
Proof.
  intros A B f l i d d' H. rewrite (nth_indep (map f l) d' (f d)) by (rewrite map_length; exact H). apply map_nth.
Qed.
Section Matrix.
  Variable P : Type.
  Variable distance : P -> P -> R.
  Variable d0 : P.

  Lemma system_square : forall f e smooth xk, square (length xk) (system P distance f e smooth xk).
  Proof.
    intros. unfold system. set (A := map (map (phi f e)) (distance_matrix P distance xk xk)).
    assert (SA : square (length xk) A).
    { unfold A, distance_matrix. split.
      - rewrite !map_length. reflexivity.
      - rewrite !Forall_map. apply Forall_forall. intros q _. rewrite !map_length. reflexivity. }
    destruct (Reqb smooth 0); [exact SA|]. destruct SA as [L F]. unfold minus_diagonal. split.
    - rewrite map_length, combine_length, seq_length, Nat.min_id. exact L.
    - rewrite Forall_map. rewrite Forall_forall in *. intros [i row] H. apply in_combine_r in H.
      cbn. rewrite map_length, combine_length, seq_length, Nat.min_id. apply F, H.
  Qed.
  Lemma system_entry : forall f e xk i j, (i < length xk)%nat -> (j < length xk)%nat ->
    entry (system P distance f e 0 xk) i j = phi f e (distance (nth i xk d0) (nth j xk d0)).
  Proof.
    intros f e xk i j Hi Hj. unfold system. assert (E : Reqb 0 0 = true) by (apply Reqb_true; reflexivity).
    rewrite E. unfold entry, distance_matrix.
    rewrite (nth_map_lt _ _ i []) by (rewrite map_length; exact Hi).
    rewrite (nth_map_lt _ _ i d0) by exact Hi.
    rewrite (nth_map_lt _ _ j 0) by (rewrite map_length; exact Hj).
    rewrite (nth_map_lt _ _ j d0) by exact Hj. reflexivity.
  Qed.
  Lemma system_row : forall f e xk i, (i < length xk)%nat ->
    nth i (system P distance f e 0 xk) [] = map (fun c => phi f e (distance (nth i xk d0) c)) xk.
  Proof.
    intros f e xk i Hi. unfold system. assert (E : Reqb 0 0 = true) by (apply Reqb_true; reflexivity).
    rewrite E. unfold distance_matrix.
    rewrite (nth_map_lt _ _ i []) by (rewrite map_length; exact Hi).
    rewrite (nth_map_lt _ _ i d0) by exact Hi. rewrite map_map. reflexivity.
  Qed.
End Matrix.

(** The matrix has no kernel for the four functions, for distinct nodes. *)
Definition regular (f : radial) (n : nat) : Prop :=
  match f with
  | RGaussian | InverseMultiquadric | Multiquadric => True
  | RLinear => (2 <= n)%nat
  | Cubic | ThinPlate => False
  end.
Lemma dist_same : forall p, dist p p = 0.
Proof. intros. rewrite dist_sqd, sqd_same. apply sqrt_0. Qed.
Lemma square_abs : forall e r, (Rabs e * r) ^ 2 = (e * r) ^ 2.
Proof.
  intros. replace ((Rabs e * r) ^ 2) with (Rabs e ^ 2 * r ^ 2) by ring. rewrite pow2_abs. ring.
Qed.
Lemma system_nonsingular : forall f e xk, NoDup xk -> regular f (length xk) -> e <> 0 ->
  nonsingular (length xk) (system point dist f e 0 xk).
Proof.
  intros f e xk ND Rg He. apply kernel_nonsingular; [apply system_square|].
  set (n := length xk). pose proof (NoDup_distinct xk ND) as D. fold n in D.
  assert (Pe : 0 < Rabs e) by (apply Rabs_pos_lt, He).
  assert (En : forall i j, (i < n)%nat -> (j < n)%nat ->
    entry (system point dist f e 0 xk) i j = phi f e (dist (nd xk i) (nd xk j)))
    by (intros; apply system_entry; assumption).
  intros c Z.
  assert (Z' : forall i, (i < n)%nat -> sumn n (fun j => phi f e (dist (nd xk i) (nd xk j)) * c j) = 0).
  { intros i Hi. rewrite <- (Z i Hi). apply sumn_ext. intros j Hj. rewrite En by assumption. reflexivity. }
  destruct f; cbn [regular] in Rg; try contradiction; cbn [phi] in Z'.
  - apply (PD_injective n (fun i j => rgaussian (dist (nd xk i) (nd xk j)) e)); [|exact Z'].
    apply (PD_ext n (fun i j => exp (- (Rabs e * dist (nd xk i) (nd xk j)) ^ 2))).
    + intros. rewrite square_abs. reflexivity.
    + apply kernel_gaussian; assumption.
  - apply (PD_injective n (fun i j => inverse_multiquadric (dist (nd xk i) (nd xk j)) e)); [|exact Z'].
    apply (PD_ext n (fun i j => / sqrt ((Rabs e * dist (nd xk i) (nd xk j)) ^ 2 + 1))).
    + intros. rewrite square_abs. unfold inverse_multiquadric, multiquadric, Rdiv. rewrite Rmult_1_l. reflexivity.
    + apply kernel_inverse_multiquadric; assumption.
  - apply (negative_injective n (fun i j => dist (nd xk i) (nd xk j))).
    + intros i j _ _. apply dist_sym.
    + intros; apply kernel_linear; assumption.
    + intros i _. rewrite dist_same. lra.
    + right. exact Rg.
    + exact Z'.
  - destruct n as [|m] eqn:En0; [intros; lia|]. rewrite <- En0 in *.
    apply (negative_injective n (fun i j => multiquadric (dist (nd xk i) (nd xk j)) e)).
    + intros i j _ _. rewrite dist_sym. reflexivity.
    + intros b S0 N. rewrite (quad_ext n b b _ (fun i j => sqrt ((Rabs e * dist (nd xk i) (nd xk j)) ^ 2 + 1))).
      * apply kernel_multiquadric; assumption.
      * reflexivity.
      * intros. rewrite square_abs. reflexivity.
    + intros i _. apply sqrt_pos.
    + left. exists 0%nat. split; [lia|]. rewrite dist_same. unfold multiquadric.
      apply sqrt_lt_R0. nra.
    + exact Z'.
Qed.

(** ** The interpolant as a sum over the nodes *)
Fixpoint blend {P} (distance : P -> P -> R) (f : radial) (e : R) (l : list (P * R)) (q : P) : R :=
  match l with
  | [] => 0
  | (c, w) :: t => phi f e (distance q c) * w + blend distance f e t q
  end.
Lemma blend_dotl : forall P (distance : P -> P -> R) f e xk w q, length w = length xk ->
  dotl (map (fun c => phi f e (distance q c)) xk) w = blend distance f e (combine xk w) q.
Proof.
  intros P distance f e xk. induction xk as [|c xk IH]; intros [|v w] q H; cbn in *; try lia; [reflexivity|].
  rewrite IH by lia. reflexivity.
Qed.
Lemma blend_perm : forall P (distance : P -> P -> R) f e l l' q, Permutation l l' ->
  blend distance f e l q = blend distance f e l' q.
Proof.
  intros P distance f e l l' q H. induction H; cbn.
  - reflexivity.
  - destruct x. rewrite IHPermutation. reflexivity.
  - destruct x, y. lra.
  - congruence.
Qed.

Lemma interpolate_eq : forall P (distance : P -> P -> R) solve f eps smooth xk yk xi e,
  (adjustable f = true -> scale eps (distance_matrix P distance xk xk) = Some e) ->
  (adjustable f = false -> e = 1) ->
  length (solve (system P distance f e smooth xk) yk) = length xk ->
  interpolate P distance solve f eps smooth xk yk xi =
  Some (map (blend distance f e (combine xk (solve (system P distance f e smooth xk) yk))) xi).
Proof.
  intros P distance solve f eps smooth xk yk xi e H1 H2 L. unfold interpolate.
  assert (E : (if adjustable f then scale eps (distance_matrix P distance xk xk) else Some 1) = Some e).
  { destruct (adjustable f); [apply H1; reflexivity|rewrite H2 by reflexivity; reflexivity]. }
  rewrite E. f_equal. unfold mat_vec, distance_matrix. rewrite !map_map. apply map_ext. intros q.
  rewrite map_map. apply blend_dotl. exact L.
Qed.
Lemma solution_blend : forall P (distance : P -> P -> R) d0 f e xk yk w, length w = length xk ->
  (solution (length xk) (system P distance f e 0 xk) yk w <->
   forall i, (i < length xk)%nat -> blend distance f e (combine xk w) (nth i xk d0) = nth i yk 0).
Proof.
  intros P distance d0 f e xk yk w L. unfold solution. split.
  - intros [_ H] i Hi. rewrite <- (H i Hi), (system_row P distance d0) by exact Hi.
    symmetry. apply blend_dotl, L.
  - intros H. split; [exact L|]. intros i Hi. rewrite (system_row P distance d0) by exact Hi.
    rewrite blend_dotl by exact L. apply H, Hi.
Qed.

(** ** The default scale *)
(** The distances of all the pairs. *)
Fixpoint pair_distances {P} (distance : P -> P -> R) (l : list P) : list R :=
  match l with
  | [] => []
  | p :: t => map (distance p) t ++ pair_distances distance t
  end.
Definition total (l : list R) : R := fold_right Rplus 0 l.
Lemma total_app : forall a b, total (a ++ b) = total a + total b.
Proof. intros a b. unfold total. induction a; cbn; [lra|]. rewrite IHa. lra. Qed.
Lemma fold_add : forall {A} (g : A -> R) l s, fold_left (fun s x => s + g x) l s = s + total (map g l).
Proof. intros A g l. unfold total. induction l; intros s; cbn; [lra|]. rewrite IHl. cbn. lra. Qed.
Lemma map_seq_nth : forall {A B} (f : A -> B) (d : A) l, map (fun i => f (nth i l d)) (seq 0 (length l)) = map f l.
Proof.
  intros A B f d l. induction l as [|a l IH]; [reflexivity|]. cbn [length seq map nth]. f_equal.
  rewrite <- seq_shift, map_map. exact IH.
Qed.
Lemma pair_total : forall P (distance : P -> P -> R) (d0 : P) l,
  total (map (fun ix => total (map (fun jx => distance (nth ix l d0) (nth jx l d0)) (seq (S ix) (length l - S ix))))
             (seq 0 (length l - 1))) = total (pair_distances distance l).
Proof.
  intros P distance d0 l. induction l as [|p t IH]; [reflexivity|].
  destruct t as [|q t']; [reflexivity|]. set (t := q :: t') in *.
  assert (Lt : length t = S (length t')) by reflexivity.
  change (pair_distances distance (p :: t)) with (map (distance p) t ++ pair_distances distance t).
  rewrite total_app, <- IH.
  replace (length (p :: t) - 1)%nat with (S (length t - 1)) by (cbn [length]; lia).
  cbn [seq map]. change (total (?a :: ?b)) with (a + total b). f_equal.
  - f_equal. replace (length (p :: t) - 1)%nat with (length t) by (cbn [length]; lia).
    rewrite <- seq_shift, map_map. cbn [nth]. apply map_seq_nth.
  - f_equal. rewrite <- (seq_shift (length t - 1) 0), map_map. apply map_ext_in. intros ix Hix. apply in_seq in Hix.
    f_equal. rewrite <- seq_shift, map_map. cbn [length].
    replace (S (length t) - S (S ix))%nat with (length t - S ix)%nat by lia. reflexivity.
Qed.
Lemma pair_count : forall P (distance : P -> P -> R) l,
  INR (length (pair_distances distance l)) = INR (length l) * (INR (length l) - 1) * (1 / 2).
Proof.
  intros P distance l. induction l as [|p t IH]; cbn [pair_distances length].
  - cbn. lra.
  - rewrite app_length, map_length, plus_INR, IH, S_INR. lra.
Qed.
Lemma average_pairs : forall P (distance : P -> P -> R) (d0 : P) l,
  average (distance_matrix P distance l l) =
  rdiv (total (pair_distances distance l)) (INR (length (pair_distances distance l))).
Proof.
  intros P distance d0 l. unfold average.
  assert (L : length (distance_matrix P distance l l) = length l) by (unfold distance_matrix; apply map_length).
  rewrite L, <- pair_count with (distance := distance). f_equal. rewrite <- (pair_total P distance d0).
  transitivity (0 + total (map (fun ix => total (map (fun jx => distance (nth ix l d0) (nth jx l d0))
                  (seq (S ix) (length l - S ix)))) (seq 0 (length l - 1)))); [|lra].
  rewrite <- fold_add.
  assert (G : forall is s, (forall i, In i is -> (i < length l)%nat) ->
    fold_left (fun s ix => fold_left (fun s jx => s + nth jx (nth ix (distance_matrix P distance l l) []) 0)
                 (seq (S ix) (length l - S ix)) s) is s =
    fold_left (fun s ix => s + total (map (fun jx => distance (nth ix l d0) (nth jx l d0)) (seq (S ix) (length l - S ix)))) is s).
  { induction is as [|i is IH]; intros s H; cbn [fold_left]; [reflexivity|].
    rewrite fold_add. rewrite IH by (intros; apply H; right; assumption). f_equal. f_equal. f_equal.
    apply map_ext_in. intros jx Hj. apply in_seq in Hj.
    assert (Hi : (i < length l)%nat) by (apply H; left; reflexivity).
    unfold distance_matrix. rewrite (nth_map_lt _ _ i d0) by exact Hi.
    rewrite (nth_map_lt _ _ jx d0) by lia. reflexivity. }
  apply G. intros i Hi. apply in_seq in Hi. lia.
Qed.
Lemma total_pos : forall l, l <> [] -> Forall (fun d => 0 < d) l -> 0 < total l.
Proof.
  intros l Ne H. destruct H as [|d l Hd H]; [contradiction|]. unfold total. cbn.
  assert (0 <= fold_right Rplus 0 l); [|lra]. clear Ne. induction H; cbn; lra.
Qed.
Lemma dist_pos : forall p q, p <> q -> 0 < dist p q.
Proof.
  intros p q H. rewrite dist_sqd. apply sqrt_lt_R0. destruct (sqd_nonneg p q) as [L|E]; [exact L|].
  exfalso. apply H, sqd_zero. auto.
Qed.
Lemma pairs_pos : forall l, NoDup l -> Forall (fun d => 0 < d) (pair_distances dist l).
Proof.
  intros l H. induction H as [|p t Hp H IH]; cbn; [constructor|]. apply Forall_app. split; [|exact IH].
  rewrite Forall_map. apply Forall_forall. intros q Hq. apply dist_pos. intros ->. contradiction.
Qed.
Lemma scale_regular : forall eps xk, NoDup xk ->
  match eps with Some e => e <> 0 | None => (2 <= length xk)%nat end ->
  exists e, scale eps (distance_matrix point dist xk xk) = Some e /\ e <> 0.
Proof.
  intros [e|] xk ND H; cbn [scale].
  - exists (1 / e). split; [apply rdiv_some, H|]. apply Rmult_integral_contrapositive_currified; [lra|].
    apply Rinv_neq_0_compat, H.
  - rewrite (average_pairs point dist (0, 0, 0)).
    destruct xk as [|p [|q t]]; cbn [length] in H; try lia.
    set (l := pair_distances dist (p :: q :: t)).
    assert (Ne : l <> []) by (unfold l; cbn; discriminate).
    assert (Pl : 0 < INR (length l)).
    { destruct l; [contradiction|]. apply lt_0_INR. cbn. lia. }
    assert (Pt : 0 < total l) by (apply total_pos; [exact Ne|apply pairs_pos, ND]).
    rewrite rdiv_some by lra. cbn [rbind].
    assert (Pa : 0 < total l / INR (length l)) by (apply Rdiv_lt_0_compat; assumption).
    rewrite rdiv_some by lra. eexists. split; [reflexivity|].
    apply Rmult_integral_contrapositive_currified; [lra|]. apply Rinv_neq_0_compat. lra.
Qed.
