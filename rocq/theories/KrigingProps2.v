(** Theorems about the kriging (C101). *)
From Coq Require Import Reals Lra Lia Permutation.
From Verif Require Import Base WindowModel WindowProofs RTreeModel RTreeSpec RTreeProofs RbfModel RbfSpec
  QuadForm KernelProofs LinSolve RbfProofs RbfProps RbfProps2 KrigingSpec KrigingProps.
Open Scope R_scope.

Theorem C101_contract_ex : knn_contract brute /\ ldlt_contract gauss_ldlt.
Proof. split; [apply brute_contract|apply gauss_ldlt_ok]. Qed.

(** ** The parameters are checked, whatever the points. *)
Theorem C101_parameters : forall knn solve t p c sigma lambda radius k within,
  (sigma <= 0 -> kriging_query knn solve t p c sigma lambda radius k within = Throw "sigma must be greater than 0") /\
  (0 < sigma -> lambda <= 0 -> kriging_query knn solve t p c sigma lambda radius k within = Throw "alpha must be greater than 0") /\
  (0 < sigma -> 0 < lambda -> exists r, kriging_query knn solve t p c sigma lambda radius k within = Ok r).
Proof.
  intros. unfold kriging_query, kriging_new. split; [|split].
  - intros H. apply Rleb_true in H. rewrite H. reflexivity.
  - intros H1 H2. apply Rleb_false in H1. apply Rleb_true in H2. rewrite H1, H2. reflexivity.
  - intros H1 H2. apply Rleb_false in H1. apply Rleb_false in H2. rewrite H1, H2. cbn [obind].
    destruct (nearest knn t p radius k within); eexists; reflexivity.
Qed.

(** The weights: the only solution when the covariances are positive definite. *)
Definition targets (c : covariance) (sigma lambda : R) (xk : list point) (q : point) : list R :=
  map (fun p => cov c sigma lambda q p) xk.
Lemma kriging_weights : forall solve c sigma lambda xk q, ldlt_contract solve ->
  positive_definite (length xk) (covariances c sigma lambda xk) ->
  let w := solve (covariances c sigma lambda xk) (targets c sigma lambda xk q) in
  solution (length xk) (covariances c sigma lambda xk) (targets c sigma lambda xk q) w /\
  forall w', solution (length xk) (covariances c sigma lambda xk) (targets c sigma lambda xk q) w' -> w' = w.
Proof.
  intros solve c sigma lambda xk q LD PD w.
  pose proof (covariances_square c sigma lambda xk) as SQ.
  destruct (LD _ _ (targets c sigma lambda xk q) SQ (map_length _ _)) as (L & S1 & _).
  specialize (S1 (covariances_symmetric _ _ _ _) PD). split; [exact S1|].
  intros w' [L' H']. apply (positive_definite_nonsingular _ _ SQ PD); auto.
  intros i Hi. rewrite H' by exact Hi. symmetry. apply S1, Hi.
Qed.
Definition unit_vector (n j : nat) : list R := map (fun i => if (i =? j)%nat then 1 else 0) (seq 0 n).
Lemma dotl_unit : forall l j, (j < length l)%nat -> dotl l (unit_vector (length l) j) = nth j l 0.
Proof.
  intros l j Hj. unfold unit_vector.
  assert (G : forall l k j, (j < length l)%nat ->
    dotl l (map (fun i => if (i =? k + j)%nat then 1 else 0) (seq k (length l))) = nth j l 0).
  { clear. intros l. induction l as [|a l IH]; intros k j Hj; cbn [length] in Hj; [lia|].
    cbn [length seq map dotl]. destruct j as [|j].
    - replace (k + 0)%nat with k by lia. rewrite Nat.eqb_refl. cbn [nth].
      assert (Z : forall m k, (k > m)%nat -> dotl l (map (fun i => if (i =? m)%nat then 1 else 0) (seq k (length l))) = 0).
      { clear. induction l as [|b l IH]; intros m k H; cbn [length seq map dotl]; [reflexivity|].
        rewrite IH by lia. destruct (Nat.eqb_spec k m); [lia|]. lra. }
      rewrite Z by lia. lra.
    - cbn [nth]. destruct (Nat.eqb_spec k (k + S j)); [lia|]. specialize (IH (S k) j ltac:(lia)).
      replace (S k + j)%nat with (k + S j)%nat in IH by lia. rewrite IH. lra. }
  apply (G l 0%nat j Hj).
Qed.
Lemma kriging_at : forall solve c sigma lambda xk yk j, ldlt_contract solve ->
  positive_definite (length xk) (covariances c sigma lambda xk) -> length yk = length xk -> (j < length xk)%nat ->
  kriging solve c sigma lambda xk yk (nd xk j) = nth j yk 0.
Proof.
  intros solve c sigma lambda xk yk j LD PD Ly Hj.
  destruct (kriging_weights solve c sigma lambda xk (nd xk j) LD PD) as [_ U].
  unfold kriging. fold (covariances c sigma lambda xk). fold (targets c sigma lambda xk (nd xk j)).
  rewrite <- (U (unit_vector (length xk) j)).
  - rewrite <- Ly. apply dotl_unit. lia.
  - split; [unfold unit_vector; rewrite map_length, seq_length; reflexivity|]. intros i Hi.
    rewrite covariances_row by exact Hi. unfold targets.
    rewrite <- (map_length (fun q => cov c sigma lambda (nd xk i) q) xk). rewrite dotl_unit by (rewrite map_length; exact Hj).
    rewrite !(nth_map_lt _ _ _ (0, 0, 0)) by assumption. apply C100_symmetric.
Qed.

(** ** At a node, the result is the value of the node, for the seven positive definite functions. *)
Theorem C101_nodes : forall knn solve t q v c sigma lambda radius k within, knn_contract knn -> ldlt_contract solve ->
  regular_covariance c -> 0 < sigma -> 0 < lambda ->
  NoDup (map fst t) -> In (q, v) t -> (1 <= k)%nat -> in_radius radius 0 ->
  exists n, kriging_query knn solve t q c sigma lambda radius k within = Ok (Some v, n) /\ (1 <= n)%Z.
Proof.
  intros knn solve t q v c sigma lambda radius k within K LD Hc Hs Hl ND I Hk Rd.
  destruct (nearest_self knn t q v radius k within K ND I Hk Rd) as (NDn & In' & _).
  unfold kriging_query, kriging_new. assert (E1 : Rleb sigma 0 = false) by (apply Rleb_false; exact Hs).
  assert (E2 : Rleb lambda 0 = false) by (apply Rleb_false; exact Hl). rewrite E1, E2. cbn [obind].
  set (n := nearest knn t q radius k within) in *. clearbody n. unfold item in *.
  destruct (In_nth n (q, v) (q, v) In') as (j & Hj & Ej).
  assert (E : kriging solve c sigma lambda (map fst n) (map snd n) q = v).
  { assert (Hj' : (j < length (map fst n))%nat) by (rewrite map_length; exact Hj).
    assert (Eq : nd (map fst n) j = q).
    { unfold nd. rewrite (nth_map_lt _ _ j (q, v)) by exact Hj. rewrite Ej. reflexivity. }
    assert (PDn := C100_positive_definite c sigma lambda (map fst n) Hs Hl Hc NDn).
    pose proof (kriging_at solve c sigma lambda (map fst n) (map snd n) j LD PDn) as H.
    rewrite Eq in H. rewrite H; [|rewrite !map_length; reflexivity|exact Hj'].
    rewrite (nth_map_lt _ _ j (q, v)) by exact Hj. rewrite Ej. reflexivity. }
  exists (zlen n). rewrite E. split; [destruct n; [contradiction|reflexivity]|].
  unfold zlen. destruct n; [contradiction|cbn [length]; lia].
Qed.

(** The spherical function: proved when the nodes are further apart than the range. *)
Theorem C101_spherical_partial : forall solve sigma lambda xk yk j, ldlt_contract solve -> 0 < sigma -> 0 < lambda ->
  NoDup xk -> (forall p q, In p xk -> In q xk -> p <> q -> lambda < dist p q) ->
  length yk = length xk -> (j < length xk)%nat ->
  kriging solve Spherical sigma lambda xk yk (nd xk j) = nth j yk 0.
Proof.
  intros solve sigma lambda xk yk j LD Hs Hl ND Far Ly Hj.
  apply kriging_at; auto. apply PD_positive_definite; [apply covariances_square|].
  assert (S2 : 0 < sigma * sigma) by nra.
  intros b (i & Hi & Ni).
  rewrite (quad_ext _ b b _ (fun i j => if (i =? j)%nat then sigma * sigma else 0)).
  - rewrite quad_row. apply Rlt_le_trans with (sumn (length xk) (fun i => b i * b i * (sigma * sigma))).
    + assert (NN : forall k, (k < length xk)%nat -> 0 <= b k * b k * (sigma * sigma)).
      { intros k Hk. apply Rmult_le_pos; [|lra]. apply Rle_0_sqr. }
      destruct (Rlt_le_dec 0 (sumn (length xk) (fun i => b i * b i * (sigma * sigma)))) as [G|G]; [exact G|exfalso].
      pose proof (sumn_pos_zero _ _ NN G i Hi) as Z. cbv beta in Z.
      assert (0 < b i * b i * (sigma * sigma)); [|lra].
      apply Rmult_lt_0_compat; [|lra]. apply Rsqr_pos_lt, Ni.
    + right. apply sumn_ext. intros k Hk. rewrite (sumn_single _ k); [rewrite Nat.eqb_refl; ring|exact Hk|].
      intros m Hm Nm. destruct (Nat.eqb_spec k m); [lia|ring].
  - reflexivity.
  - intros k m Hk Hm. rewrite covariances_entry by assumption. destruct (Nat.eqb_spec k m) as [->|N].
    + destruct (C100_maximum Spherical sigma lambda (nd xk m) (nd xk m) Hs Hl ltac:(discriminate)) as [E _]. exact E.
    + unfold cov. cbn [cov_of]. assert (E : Rltb lambda (dist (nd xk k) (nd xk m)) = true).
      { apply Rltb_true, Far; [apply nth_In; exact Hk|apply nth_In; exact Hm|]. apply (NoDup_distinct xk ND); assumption. }
      rewrite E. reflexivity.
Qed.

(** ** The result is linear in the values, whatever the solver and the function. *)
Theorem C101_superposition : forall solve c sigma lambda xk y z q a b, length y = length z ->
  kriging solve c sigma lambda xk (combination a b y z) q =
  a * kriging solve c sigma lambda xk y q + b * kriging solve c sigma lambda xk z q.
Proof.
  intros solve c sigma lambda xk y z q a b L. unfold kriging. set (w := solve _ _). clearbody w.
  revert z w L. induction y as [|u y IH]; intros [|v z] [|e w] L; cbn in *; try lia; try lra.
  fold (combination a b y z). rewrite IH by lia. lra.
Qed.
(** The magnitude parameter has no effect on the result. *)
Lemma dotl_scal : forall k l m, dotl (map (fun a => k * a) l) m = k * dotl l m.
Proof. intros k l. induction l as [|a l IH]; intros [|b m]; cbn; try lra. rewrite IH. lra. Qed.
Theorem C101_sigma : forall solve c sigma sigma' lambda xk yk q, ldlt_contract solve -> regular_covariance c ->
  0 < sigma -> 0 < sigma' -> 0 < lambda -> NoDup xk ->
  kriging solve c sigma lambda xk yk q = kriging solve c sigma' lambda xk yk q.
Proof.
  intros solve c sigma sigma' lambda xk yk q LD Hc Hs Hs' Hl ND.
  destruct (kriging_weights solve c sigma lambda xk q LD (C100_positive_definite _ _ _ _ Hs Hl Hc ND)) as [S1 _].
  destruct (kriging_weights solve c sigma' lambda xk q LD (C100_positive_definite _ _ _ _ Hs' Hl Hc ND)) as [_ U].
  unfold kriging. fold (covariances c sigma lambda xk) (covariances c sigma' lambda xk).
  fold (targets c sigma lambda xk q) (targets c sigma' lambda xk q). f_equal. apply U.
  set (w := solve (covariances c sigma lambda xk) (targets c sigma lambda xk q)) in *.
  destruct S1 as [L H]. split; [exact L|]. intros i Hi. specialize (H i Hi).
  rewrite covariances_row in H |- * by exact Hi. unfold targets in *.
  rewrite (nth_map_lt _ _ i (0, 0, 0)) in H by exact Hi. rewrite (nth_map_lt _ _ i (0, 0, 0)) by exact Hi.
  assert (Ck : forall p r, cov c sigma' lambda p r = (sigma' * sigma' / (sigma * sigma)) * cov c sigma lambda p r).
  { intros p r. unfold cov. assert (c <> CLinear) by (intros ->; exact Hc). rewrite !cov_shape by assumption. field. lra. }
  rewrite (map_ext _ (fun r => (sigma' * sigma' / (sigma * sigma)) * cov c sigma lambda (nd xk i) r)) by (intros; apply Ck).
  rewrite <- (map_map (fun r => cov c sigma lambda (nd xk i) r) (fun a => (sigma' * sigma' / (sigma * sigma)) * a)).
  rewrite dotl_scal, H, Ck. reflexivity.
Qed.
(** Only the distances matter. *)
Theorem C101_isometry : forall solve c sigma lambda xk yk q move,
  (forall p r, dist (move p) (move r) = dist p r) ->
  kriging solve c sigma lambda (map move xk) yk (move q) = kriging solve c sigma lambda xk yk q.
Proof.
  intros solve c sigma lambda xk yk q move H. unfold kriging. f_equal. f_equal.
  - rewrite map_map. apply map_ext. intros p. rewrite map_map. apply map_ext. intros r. unfold cov. rewrite H. reflexivity.
  - rewrite map_map. apply map_ext. intros r. unfold cov. rewrite H. reflexivity.
Qed.

(** ** "Universal" kriging: the constants are not reproduced. One node: the result is the value
    scaled by a factor that decreases with the distance; all the nodes at [v] do not give [v]. *)
Theorem C101_constant_refuted : forall knn solve p v q sigma lambda radius k, knn_contract knn -> ldlt_contract solve ->
  0 < sigma -> 0 < lambda -> (1 <= k)%nat -> in_radius radius (dist q p) ->
  kriging_query knn solve [(p, v)] q Matern12 sigma lambda radius k false =
  Ok (Some (v * exp (- dist q p / lambda)), 1%Z).
Proof.
  intros knn solve p v q sigma lambda radius k K LD Hs Hl Hk Rd.
  unfold kriging_query, kriging_new. assert (E1 : Rleb sigma 0 = false) by (apply Rleb_false; exact Hs).
  assert (E2 : Rleb lambda 0 = false) by (apply Rleb_false; exact Hl). rewrite E1, E2. cbn [obind].
  rewrite (one_item knn p v q radius k false K Hk Rd (or_introl eq_refl)).
  assert (ND : NoDup [p]) by (repeat constructor; intros []).
  destruct (kriging_weights solve Matern12 sigma lambda [p] q LD
              (C100_positive_definite Matern12 sigma lambda [p] Hs Hl I ND)) as [[L H] _].
  cbn [map fst snd]. unfold kriging. fold (covariances Matern12 sigma lambda [p]). fold (targets Matern12 sigma lambda [p] q).
  set (w := solve _ _) in *. clearbody w. destruct w as [|w [|? ?]]; cbn in L; try lia.
  specialize (H 0%nat (le_n 1)). cbn [covariances targets map nth dotl] in H. unfold cov in H. rewrite dist_same in H.
  cbn [cov_of] in H. replace (- 0 / lambda) with 0 in H by (field; lra). rewrite exp_0 in H.
  assert (Ew : w = exp (- dist q p / lambda)).
  { apply (Rmult_eq_reg_l (sigma * sigma)); [lra|]. assert (0 < sigma * sigma) by nra. lra. }
  cbn [dotl]. rewrite Ew, Rplus_0_r. reflexivity.
Qed.
(** The linear function: the matrix has a null diagonal and the result is always 0, even at the nodes. *)
Theorem C101_linear_refuted : forall knn solve t q sigma lambda radius k within, ldlt_contract solve ->
  0 < sigma -> 0 < lambda ->
  kriging_query knn solve t q CLinear sigma lambda radius k within =
  Ok (match nearest knn t q radius k within with [] => None | _ => Some 0 end, zlen (nearest knn t q radius k within)).
Proof.
  intros knn solve t q sigma lambda radius k within LD Hs Hl.
  unfold kriging_query, kriging_new. assert (E1 : Rleb sigma 0 = false) by (apply Rleb_false; exact Hs).
  assert (E2 : Rleb lambda 0 = false) by (apply Rleb_false; exact Hl). rewrite E1, E2. cbn [obind].
  set (n := nearest knn t q radius k within). clearbody n.
  assert (E : kriging solve CLinear sigma lambda (map fst n) (map snd n) q = 0).
  { unfold kriging. fold (covariances CLinear sigma lambda (map fst n)). set (xk := map fst n).
    destruct (LD _ _ (map (fun p => cov CLinear sigma lambda q p) xk) (covariances_square CLinear sigma lambda xk) (map_length _ _)) as (_ & _ & Z).
    rewrite Z; [apply dotl_repeat_0|]. intros i Hi. fold (entry (covariances CLinear sigma lambda xk) i i).
    rewrite covariances_entry by assumption. unfold cov. cbn [cov_of]. rewrite dist_same. ring. }
  rewrite E. destruct n; reflexivity.
Qed.
(** With an index in geodetic coordinates, the altitude of the third column is dropped by
    [universal_kriging], while all the other queries use it. *)
Theorem C101_altitude_refuted : forall to_ecef t lon lat alt, t_ecef t = false ->
  kriging_convert to_ecef t [lon; lat; alt] = kriging_convert to_ecef t [lon; lat] /\
  kriging_convert to_ecef t [lon; lat; alt] = convert to_ecef t [lon; lat; 0] /\
  convert to_ecef t [lon; lat; alt] = Ok (to_ecef (t_spheroid t) (lon, lat, alt)).
Proof. intros to_ecef t lon lat alt E. unfold kriging_convert, convert. rewrite E. repeat split. Qed.
(** In Cartesian coordinates, the points are the same. *)
Theorem C101_ecef_convert : forall to_ecef t row, t_ecef t = true -> kriging_convert to_ecef t row = convert to_ecef t row.
Proof. intros to_ecef t row E. unfold kriging_convert, convert. rewrite E. reflexivity. Qed.

(** ** The neighbours used and their number *)
Theorem C101_neighbours : forall knn solve t p c sigma lambda radius k within, knn_contract knn -> 0 < sigma -> 0 < lambda ->
  exists used, selected t p radius k within used /\
    (used = [] -> kriging_query knn solve t p c sigma lambda radius k within = Ok (None, 0%Z)) /\
    (used <> [] -> kriging_query knn solve t p c sigma lambda radius k within =
       Ok (Some (kriging solve c sigma lambda (map fst used) (map snd used) p), Z.of_nat (length used))).
Proof.
  intros knn solve t p c sigma lambda radius k within K Hs Hl. exists (nearest knn t p radius k within).
  split; [apply nearest_selected; exact K|]. unfold kriging_query, kriging_new.
  assert (E1 : Rleb sigma 0 = false) by (apply Rleb_false; exact Hs).
  assert (E2 : Rleb lambda 0 = false) by (apply Rleb_false; exact Hl). rewrite E1, E2. cbn [obind]. split.
  - intros ->. reflexivity.
  - intros N. destruct (nearest knn t p radius k within); [contradiction|reflexivity].
Qed.
Print Assumptions C101_neighbours.
