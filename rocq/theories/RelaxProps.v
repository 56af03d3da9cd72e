(** C45, C46: Gauss-Seidel relaxation and its multi-threaded version. *)
From Verif Require Import Base BaseProofs RelaxModel RelaxSpec RelaxProofs RelaxPar.
Open Scope Z_scope.

(** ** C45 *)

(** A grid without undefined value is left alone. *)
Theorem C45_no_nan : forall nx ny fg circle k eps relax first g, (forall p, inside nx ny p -> g p <> None) ->
  gauss_seidel nx ny fg circle k eps relax first g = Ok (g, 0%nat, 0%Q).
Proof.
  intros nx ny fg circle k eps relax first g H. unfold gauss_seidel.
  assert (E : has_nan nx ny g = false); [|rewrite E; reflexivity]. unfold has_nan.
  destruct (existsb (nan_mask g) (cells nx ny)) eqn:X; [|reflexivity]. apply existsb_exists in X. destruct X as (p & I & M).
  apply in_cells in I. specialize (H p I). unfold nan_mask in M. destruct (g p); congruence.
Qed.

Lemma has_nan_true : forall nx ny g p, inside nx ny p -> g p = None -> has_nan nx ny g = true.
Proof. intros nx ny g p I N. unfold has_nan. apply existsb_exists. exists p. split; [apply in_cells; exact I|]. unfold nan_mask. rewrite N. reflexivity. Qed.

Lemma initial_defined : forall fg nx g p v, g p = Some v -> initial fg nx g p = v.
Proof. intros [|] nx g p v E; unfold initial, guess_zero, guess_zonal; rewrite E; reflexivity. Qed.

(** The common shape of the runs on a grid with undefined values. *)
Lemma gs_run : forall nx ny fg circle k eps relax first g (P : grid -> Prop), valid_shape nx ny circle -> (first <= 1)%nat ->
  P (initial fg nx g) ->
  (forall h h' m, P h -> sweep nx ny circle relax (nan_mask g) first h = Ok (h', m) -> P h') ->
  (exists p, inside nx ny p /\ g p = None) ->
  exists r it m, gauss_seidel nx ny fg circle k eps relax first g = Ok (fun p => Some (r p), it, m) /\ P r /\
    (it <= k)%nat /\
    ((k = 0%nat /\ it = 0%nat /\ m = 0%Q /\ r = initial fg nx g) \/
     (exists h, P h /\ sweep nx ny circle relax (nan_mask g) first h = Ok (r, m) /\ ((m < eps)%Q \/ it = k) /\ (0 < it)%nat)).
Proof.
  intros nx ny fg circle k eps relax first g P Hv Hf P0 PS (p & I & N). unfold gauss_seidel. rewrite (has_nan_true nx ny g p I N).
  destruct (iterate_ok (sweep nx ny circle relax (nan_mask g) first) eps P) with (k := k) (g := initial fg nx g) (it := 0%nat) (m := 0%Q) as (r & it & m & E & Pr & B & C).
  - intros h Ph. destruct (sweep_total nx ny circle relax (nan_mask g) first Hv h) as (h' & m & E & Pm). exists h', m. split; [exact E|]. split; [exact Pm|]. apply (PS h h' m Ph E).
  - exact P0.
  - exists r, it, m. rewrite E. cbn [obind]. split; [reflexivity|]. split; [exact Pr|]. split; [lia|].
    destruct C as [(-> & -> & -> & ->)|(h & Ph & Eh & C & D)]; [left; auto|]. right. exists h. auto.
Qed.

(** Relaxation terminates without error, fills every undefined cell and changes no other
    cell; it performs at most [max_iterations] sweeps, and stops earlier only when the
    reported residual is below the tolerance. *)
Theorem C45_gauss_seidel : forall nx ny fg circle max_iterations eps relax first g,
  valid_shape nx ny circle -> (first <= 1)%nat -> (exists p, inside nx ny p /\ g p = None) ->
  exists r it m, gauss_seidel nx ny fg circle max_iterations eps relax first g = Ok (r, it, m) /\
    (forall p, r p <> None) /\ (forall p v, g p = Some v -> r p = Some v) /\
    (it <= max_iterations)%nat /\ ((m < eps)%Q \/ it = max_iterations) /\ (0 < max_iterations -> 0 < it)%nat.
Proof.
  intros nx ny fg circle k eps relax first g Hv Hf Hn.
  destruct (gs_run nx ny fg circle k eps relax first g (fun h => forall p v, g p = Some v -> h p = v) Hv Hf) as (r & it & m & E & Pr & B & C).
  - intros p v H. apply initial_defined. exact H.
  - intros h h' m Ph E p v H. rewrite (sweep_keep nx ny circle relax (nan_mask g) first Hv Hf h h' m E); [apply Ph; exact H|]. left. unfold nan_mask. rewrite H. reflexivity.
  - exact Hn.
  - exists (fun p => Some (r p)), it, m. split; [exact E|]. split; [discriminate|]. split; [intros p v H; f_equal; apply Pr; exact H|]. split; [exact B|].
    destruct C as [(-> & -> & _)|(h & _ & _ & C & D)]; [split; [right; reflexivity|lia]|]. split; [exact C|lia].
Qed.

Lemma zonal_sum_spec : forall lo hi g iy ixs, (forall ix v, In ix ixs -> g (ix, iy) = Some v -> (lo <= v <= hi)%Q) ->
  let (s, n) := zonal_sum g iy ixs in 0 <= n /\ (lo * inject_Z n <= s)%Q /\ (s <= hi * inject_Z n)%Q.
Proof.
  intros lo hi g iy. induction ixs as [|ix ixs IH]; intro H; cbn [zonal_sum].
  - split; [lia|]. change (inject_Z 0) with 0%Q. split; lra.
  - assert (IH' := IH (fun i v I => H i v (or_intror I))). clear IH. destruct (zonal_sum g iy ixs) as [s n]. destruct IH' as (A & B & C).
    destruct (g (ix, iy)) as [v|] eqn:E; [|auto]. destruct (H ix v (or_introl eq_refl) E). rewrite inject_Z_plus. change (inject_Z 1) with 1%Q. split; [lia|].
    split; nra.
Qed.
Lemma zonal_hull : forall nx ny lo hi g p, inside nx ny p -> (forall q v, inside nx ny q -> g q = Some v -> (lo <= v <= hi)%Q) -> (lo <= 0 <= hi)%Q ->
  (lo <= zonal_guess nx g (snd p) <= hi)%Q.
Proof.
  intros nx ny lo hi g p I H Z. unfold zonal_guess.
  pose proof (zonal_sum_spec lo hi g (snd p) (seq 0 nx)) as S. destruct (zonal_sum g (snd p) (seq 0 nx)) as [s n].
  destruct S as (A & B & C). { intros ix v Ii E. apply in_seq in Ii. apply (H (ix, snd p) v); [split; [cbn; lia|apply I]|exact E]. }
  destruct (Z.eqb_spec n 0); [exact Z|]. assert (P : (0 < inject_Z n)%Q) by (change 0%Q with (inject_Z 0); rewrite <- Zlt_Qlt; lia).
  split; [apply Qle_shift_div_l; assumption|apply Qle_shift_div_r; assumption].
Qed.

(** Maximum principle: with a relaxation factor in [0, 1] no value leaves an interval that
    contains the defined values and 0 (the value used where nothing is known). *)
Theorem C45_hull : forall nx ny fg circle max_iterations eps relax first g r it m lo hi,
  valid_shape nx ny circle -> (first <= 1)%nat -> (0 <= relax <= 1)%Q -> (lo <= 0 <= hi)%Q ->
  (forall p v, inside nx ny p -> g p = Some v -> (lo <= v <= hi)%Q) ->
  gauss_seidel nx ny fg circle max_iterations eps relax first g = Ok (r, it, m) ->
  forall p v, inside nx ny p -> r p = Some v -> (lo <= v <= hi)%Q.
Proof.
  intros nx ny fg circle k eps relax first g r it m lo hi Hv Hf R Z H E p v I V.
  destruct (has_nan nx ny g) eqn:HN.
  - unfold has_nan in HN. apply existsb_exists in HN. destruct HN as (q & Iq & Mq). apply in_cells in Iq.
    destruct (gs_run nx ny fg circle k eps relax first g (within nx ny lo hi) Hv Hf) as (r' & it' & m' & E' & W & _).
    + intros c Ic. destruct (g c) as [w|] eqn:Ec; [rewrite (initial_defined fg nx g c w Ec); apply (H c w Ic Ec)|].
      unfold initial. destruct fg; unfold guess_zero, guess_zonal; rewrite Ec; [exact Z|]. apply (zonal_hull nx ny); assumption.
    + intros h h' m0 Wh Eh. apply (sweep_hull nx ny circle relax (nan_mask g) first Hv lo hi h h' m0 R Wh Eh).
    + exists q. split; [exact Iq|]. unfold nan_mask in Mq. destruct (g q); congruence.
    + rewrite E in E'. assert (r = fun p => Some (r' p)) by congruence. subst r. assert (v = r' p) by congruence. subst v. apply W. exact I.
  - unfold gauss_seidel in E. rewrite HN in E. assert (r = g) by congruence. subst r. apply (H p v I V).
Qed.
(** With the zonal average and at least one defined value in every column, 0 plays no
    role. *)
Theorem C45_hull_zonal : forall nx ny circle max_iterations eps relax first g r it m lo hi,
  valid_shape nx ny circle -> (first <= 1)%nat -> (0 <= relax <= 1)%Q ->
  (forall p v, inside nx ny p -> g p = Some v -> (lo <= v <= hi)%Q) ->
  (forall iy, (iy < ny)%nat -> exists ix v, (ix < nx)%nat /\ g (ix, iy) = Some v) ->
  gauss_seidel nx ny ZonalAverage circle max_iterations eps relax first g = Ok (r, it, m) ->
  forall p v, inside nx ny p -> r p = Some v -> (lo <= v <= hi)%Q.
Proof.
  intros nx ny circle k eps relax first g r it m lo hi Hv Hf R H HC E p v I V.
  destruct (has_nan nx ny g) eqn:HN.
  - unfold has_nan in HN. apply existsb_exists in HN. destruct HN as (q & Iq & Mq). apply in_cells in Iq.
    destruct (gs_run nx ny ZonalAverage circle k eps relax first g (within nx ny lo hi) Hv Hf) as (r' & it' & m' & E' & W & _).
    + intros c Ic. destruct (g c) as [w|] eqn:Ec; [rewrite (initial_defined ZonalAverage nx g c w Ec); apply (H c w Ic Ec)|].
      unfold initial, guess_zonal; rewrite Ec. unfold zonal_guess.
      pose proof (zonal_sum_spec lo hi g (snd c) (seq 0 nx)) as S.
      assert (Pos : 0 < snd (zonal_sum g (snd c) (seq 0 nx))).
      { destruct (HC (snd c) (proj2 Ic)) as (ix & w & Hx & Ew). assert (In ix (seq 0 nx)) by (apply in_seq; lia). clear - H0 Ew.
        assert (NN : forall l, 0 <= snd (zonal_sum g (snd c) l)).
        { induction l as [|a l IH]; cbn [zonal_sum]; [cbn; lia|]. destruct (zonal_sum g (snd c) l) as [s n]. cbn [snd] in IH. destruct (g (a, snd c)); cbn [snd]; lia. }
        induction (seq 0 nx) as [|a l IH]; [destruct H0|]. cbn [zonal_sum]. pose proof (NN l) as N. destruct H0 as [->|H0].
        - destruct (zonal_sum g (snd c) l) as [s n]. rewrite Ew. cbn [snd] in *. lia.
        - specialize (IH H0). destruct (zonal_sum g (snd c) l) as [s n]. cbn [snd] in *. destruct (g (a, snd c)); cbn [snd]; lia. }
      destruct (zonal_sum g (snd c) (seq 0 nx)) as [s n]. cbn [snd] in Pos.
      destruct S as (A & B & C). { intros ix w Ii Ew. apply in_seq in Ii. apply (H (ix, snd c) w); [split; [cbn; lia|apply Ic]|exact Ew]. }
      destruct (Z.eqb_spec n 0); [lia|]. assert (P : (0 < inject_Z n)%Q) by (change 0%Q with (inject_Z 0); rewrite <- Zlt_Qlt; lia).
      split; [apply Qle_shift_div_l; assumption|apply Qle_shift_div_r; assumption].
    + intros h h' m0 Wh Eh. apply (sweep_hull nx ny circle relax (nan_mask g) first Hv lo hi h h' m0 R Wh Eh).
    + exists q. split; [exact Iq|]. unfold nan_mask in Mq. destruct (g q); congruence.
    + rewrite E in E'. assert (r = fun p => Some (r' p)) by congruence. subst r. assert (v = r' p) by congruence. subst v. apply W. exact I.
  - unfold gauss_seidel in E. rewrite HN in E. assert (r = g) by congruence. subst r. apply (H p v I V).
Qed.

(** The reported residual bounds the distance of every filled cell to the mean of its four
    neighbours: [relax * |value - mean| <= (|1 - relax| + relax) * residual]; in particular
    a zero residual means that the discrete Laplace equation holds exactly. *)
Theorem C45_residual : forall nx ny fg circle max_iterations eps relax first g r it m,
  valid_shape nx ny circle -> (first <= 1)%nat -> (0 < relax)%Q -> (0 < it)%nat ->
  gauss_seidel nx ny fg circle max_iterations eps relax first g = Ok (r, it, m) ->
  exists h, (forall p, r p = Some (h p)) /\
    forall p, inside nx ny p -> g p = None ->
      (relax * Qabs (h p - mean4 nx ny circle h p) <= (Qabs (1 - relax) + relax) * m)%Q.
Proof.
  intros nx ny fg circle k eps relax first g r it m Hv Hf R It E.
  destruct (has_nan nx ny g) eqn:HN.
  2: { unfold gauss_seidel in E. rewrite HN in E. assert (it = 0%nat) by congruence. lia. }
  unfold has_nan in HN. apply existsb_exists in HN. destruct HN as (q0 & Iq0 & Mq0). apply in_cells in Iq0.
  destruct (gs_run nx ny fg circle k eps relax first g (fun _ => True) Hv Hf Logic.I (fun _ _ _ _ _ => Logic.I)) as (h & it' & m' & E' & _ & _ & C).
  { exists q0. split; [exact Iq0|]. unfold nan_mask in Mq0. destruct (g q0); congruence. }
  rewrite E in E'. assert (it' = it) by congruence. assert (m' = m) by congruence. assert (r = fun p => Some (h p)) by congruence. subst it' m' r.
  destruct C as [(_ & C & _)|(g0 & _ & S & _)]; [lia|].
  exists h. split; [reflexivity|]. intros p I N.
  apply (sweep_residual nx ny circle relax Hv (nan_mask g) first Hf g0 h m R S p I). unfold nan_mask. rewrite N. reflexivity.
Qed.

(** Non-trivial instance of the hypotheses: a 3 x 3 grid with its centre undefined. *)
Definition demo : cell -> option Q := fun p => if ceqb p (1, 1)%nat then None else Some (inject_Z (Z.of_nat (fst p))).
Example C45_demo : valid_shape 3 3 false /\ (exists p, inside 3 3 p /\ demo p = None) /\
  exists r m, gauss_seidel 3 3 Zero false 10 (1 # 10) 1 0 demo = Ok (r, 2%nat, m) /\ (m == 0)%Q /\
    exists v, r (1, 1)%nat = Some v /\ (v == 1)%Q.
Proof.
  split; [split; [lia|left; lia]|]. split; [exists (1, 1)%nat; split; [split; cbn; lia|reflexivity]|].
  eexists. eexists. split; [reflexivity|]. split; [reflexivity|]. eexists. split; reflexivity.
Qed.

(** Grids with a single column, or a single row that is not a circle, are read out of
    bounds as soon as one cell is undefined. *)
Theorem C45_degenerate_refuted : forall nx ny fg circle max_iterations eps relax first g,
  (ny = 1%nat \/ (nx = 1%nat /\ circle = false)) -> (first <= 1)%nat -> (0 < max_iterations)%nat ->
  (exists p, inside nx ny p /\ g p = None) ->
  exists w, gauss_seidel nx ny fg circle max_iterations eps relax first g = UB w.
Proof.
  intros nx ny fg circle k eps relax first g D Hf Hk (p & I & N). unfold gauss_seidel. rewrite (has_nan_true nx ny g p I N).
  assert (Fail : forall q, inside nx ny q -> exists w, neighbours nx ny circle q = UB w).
  { intros [ix iy] (Ix & Iy). cbn [fst snd] in *. unfold neighbours. cbn [fst snd].
    assert (Cases : forall i m, (exists v, at_index i m = Ok v) \/ exists w, at_index i m = UB w).
    { intros i m. unfold at_index. destruct ((0 <=? i) && (i <? Z.of_nat m)); eauto. }
    destruct D as [->|[-> ->]].
    - destruct (Cases (if Z.of_nat ix =? 0 then if circle then Z.of_nat nx - 1 else 1 else Z.of_nat ix - 1) nx) as [(v & ->)|(w & ->)]; [|eexists; reflexivity]. cbn [obind].
      destruct (Cases (if Z.of_nat ix =? Z.of_nat nx - 1 then if circle then 0 else Z.of_nat nx - 2 else Z.of_nat ix + 1) nx) as [(v' & ->)|(w & ->)]; [|eexists; reflexivity]. cbn [obind].
      assert (iy = 0%nat) by lia. subst iy. eexists. reflexivity.
    - assert (ix = 0%nat) by lia. subst ix. eexists. reflexivity. }
  assert (Loop : forall ps st, Forall (inside nx ny) ps -> ps <> [] -> exists w, cell_loop nx ny circle relax st ps = UB w).
  { intros [|q ps] [h m] F Ne; [congruence|]. inversion F; subst. destruct (Fail q H1) as (w & E). cbn [cell_loop]. unfold cell_fill. rewrite E. eexists. reflexivity. }
  assert (Sw : forall h, exists w, sweep nx ny circle relax (nan_mask g) first h = UB w).
  { intro h. unfold sweep, calculate.
    assert (Emp : forall c, worker_cells nx (nan_mask g) 0 ny c = [] \/ worker_cells nx (nan_mask g) 0 ny c <> []) by (intro c; destruct (worker_cells nx (nan_mask g) 0 ny c); [left|right]; congruence).
    destruct (Emp first) as [E1|E1].
    - rewrite E1. cbn [cell_loop obind]. destruct (Loop (worker_cells nx (nan_mask g) 0 ny (1 - first)) (h, 0%Q)) as (w & E2); [apply worker_inside; lia| |rewrite E2; eexists; reflexivity].
      intro E2. destruct (parity_cases first Hf p) as [C|C].
      + assert (X : In p (worker_cells nx (nan_mask g) 0 ny first)) by (apply in_worker_cells; destruct I; repeat split; auto; try lia; unfold nan_mask; rewrite N; reflexivity). rewrite E1 in X. destruct X.
      + assert (X : In p (worker_cells nx (nan_mask g) 0 ny (1 - first))) by (apply in_worker_cells; destruct I; repeat split; auto; try lia; unfold nan_mask; rewrite N; reflexivity). rewrite E2 in X. destruct X.
    - destruct (Loop (worker_cells nx (nan_mask g) 0 ny first) (h, 0%Q)) as (w & E2); [apply worker_inside; lia|exact E1|]. rewrite E2. eexists. reflexivity. }
  destruct k as [|k]; [lia|]. cbn [iterate]. destruct (Sw (initial fg nx g)) as (w & E). rewrite E. eexists. reflexivity.
Qed.

(** ** C46 *)

(** No data race: a cell written by a thread during a coloured sweep is neither read nor
    written by another one. *)
Theorem C46_race_free : forall nx ny circle mask red_black n t u pt pu,
  valid_shape nx ny circle -> (t < n)%nat -> (u < n)%nat -> t <> u ->
  thread_program nx ny circle mask red_black n t = Ok pt -> thread_program nx ny circle mask red_black n u = Ok pu ->
  forall p, In (Update p) pu -> ~ In (Load p) pt /\ ~ In (Update p) pt.
Proof.
  intros nx ny circle mask c n t u pt pu Hv Ht Hu N Et Eu p W.
  rewrite (thread_program_ok nx ny circle mask n c Hv ltac:(lia)) in Et by exact Ht.
  rewrite (thread_program_ok nx ny circle mask n c Hv ltac:(lia)) in Eu by exact Hu.
  assert (pt = _) by (symmetry; injection Et; exact (fun x => x)). assert (pu = _) by (symmetry; injection Eu; exact (fun x => x)). subst pt pu.
  split; intro R; apply (no_conflict nx ny circle mask n c Hv ltac:(lia) t u p _ Ht Hu N W R); reflexivity.
Qed.

(** Every interleaving of a coloured sweep gives the sequential grid and residual. *)
Theorem C46_sweep_deterministic : forall nx ny circle relax mask n red_black g g' m,
  valid_shape nx ny circle -> (1 <= n)%nat ->
  par_calculate nx ny circle relax mask n red_black g g' m ->
  exists gs ms, calculate nx ny circle relax mask g red_black = Ok (gs, ms) /\ (forall p, g' p = gs p) /\ (m == ms)%Q.
Proof.
  intros nx ny circle relax mask n c g g' m Hv Hn (progs & sched & l' & Hp & He & I & R & Em).
  destruct (cell_loop_ok nx ny circle relax Hv (worker_cells nx mask 0 ny c) g 0%Q (worker_inside _ _ _ _ _ _ (le_n ny))) as (gs & ms & E & _).
  exists gs, ms. split; [exact E|]. destruct (par_seq nx ny circle relax mask n c Hv Hn progs Hp He sched g gs ms I E) as (g2 & l2 & R2 & A & B).
  rewrite R in R2. assert (g' = g2) by congruence. assert (l' = l2) by congruence. subst g2 l2. split; [exact A|]. rewrite Em. exact B.
Qed.
(** Such executions exist. *)
Theorem C46_sweep_exists : forall nx ny circle relax mask n red_black g,
  valid_shape nx ny circle -> (1 <= n)%nat -> exists g' m, par_calculate nx ny circle relax mask n red_black g g' m.
Proof.
  intros nx ny circle relax mask n c g Hv Hn.
  set (progs := fun t => if (t <? n)%nat then flat_map (prog1 nx ny circle) (worker_cells nx mask (fst (band ny n t)) (snd (band ny n t)) c) else []).
  assert (Hp : forall t, (t < n)%nat -> thread_program nx ny circle mask c n t = Ok (progs t)).
  { intros t Ht. unfold progs. destruct (Nat.ltb_spec t n); [|lia]. apply thread_program_ok; assumption. }
  assert (He : forall t, (n <= t)%nat -> progs t = []) by (intros t Ht; unfold progs; destruct (Nat.ltb_spec t n); [lia|reflexivity]).
  pose proof (seq_interleaving nx ny circle mask n c Hv Hn progs Hp He) as I.
  destruct (run_schedule relax (seq_schedule nx ny circle n (worker_cells nx mask 0 ny c)) (g, fun _ => TLocal [] 0%Q)) as [g' l'] eqn:R.
  exists g'. eexists. exists progs, (seq_schedule nx ny circle n (worker_cells nx mask 0 ny c)), l'. repeat split; auto.
Qed.

Lemma calculate_ext : forall nx ny circle relax mask c g h g' m', valid_shape nx ny circle -> (forall p, g p = h p) ->
  calculate nx ny circle relax mask g c = Ok (g', m') -> exists h', calculate nx ny circle relax mask h c = Ok (h', m') /\ forall p, g' p = h' p.
Proof.
  intros. unfold calculate in *. eapply cell_loop_ext; eauto. apply worker_inside. lia.
Qed.
Lemma smax_wd : forall a b c d, (a == b)%Q -> (c == d)%Q -> (smax a c == smax b d)%Q.
Proof. intros a b c d H G. unfold smax. destruct (Qltb_spec a c), (Qltb_spec b d); lra. Qed.

Lemma par_sweep_seq : forall nx ny circle relax mask n first g g' m h, valid_shape nx ny circle -> (1 <= n)%nat ->
  (forall p, g p = h p) -> par_sweep nx ny circle relax mask n first g g' m ->
  exists h' mh, sweep nx ny circle relax mask first h = Ok (h', mh) /\ (forall p, g' p = h' p) /\ (m == mh)%Q.
Proof.
  intros nx ny circle relax mask n first g g' m h Hv Hn EG (g1 & m1 & m2 & P1 & P2 & Em).
  destruct (C46_sweep_deterministic _ _ _ _ _ _ _ _ _ _ Hv Hn P1) as (a1 & b1 & E1 & A1 & B1).
  destruct (C46_sweep_deterministic _ _ _ _ _ _ _ _ _ _ Hv Hn P2) as (a2 & b2 & E2 & A2 & B2).
  destruct (calculate_ext _ _ _ _ _ _ _ _ _ _ Hv EG E1) as (h1 & F1 & C1).
  assert (G1 : forall p, g1 p = h1 p) by (intro p; rewrite A1; apply C1).
  destruct (calculate_ext _ _ _ _ _ _ _ _ _ _ Hv G1 E2) as (h2 & F2 & C2).
  exists h2. eexists. unfold sweep. rewrite F1. cbn [obind]. rewrite F2. cbn [obind]. split; [reflexivity|]. split.
  - intro p. rewrite A2. apply C2.
  - rewrite Em. destruct (Nat.eqb first 0); apply smax_wd; assumption.
Qed.

(** The whole relaxation: for any number of threads and any interleaving in each of its
    sweeps, the result (cells, number of iterations, residual) is the sequential one. *)
Theorem C46_gauss_seidel : forall nx ny circle relax mask n first eps max_iterations g0 r it m,
  valid_shape nx ny circle -> (1 <= n)%nat ->
  par_iterate (par_sweep nx ny circle relax mask n first) eps max_iterations g0 0 0%Q r it m ->
  exists rs ms, iterate (sweep nx ny circle relax mask first) eps max_iterations g0 0 0%Q = Ok (rs, it, ms) /\
    (forall p, r p = rs p) /\ (m == ms)%Q.
Proof.
  intros nx ny circle relax mask n first eps k g0 r it m Hv Hn P.
  assert (Gen : forall k g i m r it m', par_iterate (par_sweep nx ny circle relax mask n first) eps k g i m r it m' ->
    forall h mh, (forall p, g p = h p) -> (m == mh)%Q ->
    exists rs ms, iterate (sweep nx ny circle relax mask first) eps k h i mh = Ok (rs, it, ms) /\ (forall p, r p = rs p) /\ (m' == ms)%Q).
  { clear P. intros k' g i m0 r' it' m' P. induction P; intros h mh Eh Em; cbn [iterate].
    - exists h, mh. auto.
    - destruct (par_sweep_seq _ _ _ _ _ _ _ _ _ _ _ Hv Hn Eh H) as (h' & mh' & E & A & B). rewrite E. cbn [obind].
      destruct (Qltb_spec mh' eps) as [L|L]; [|lra]. exists h', mh'. auto.
    - destruct (par_sweep_seq _ _ _ _ _ _ _ _ _ _ _ Hv Hn Eh H) as (h' & mh' & E & A & B). rewrite E. cbn [obind].
      destruct (Qltb_spec mh' eps) as [L|L]; [exfalso; apply H0; lra|]. apply IHP; assumption. }
  apply (Gen _ _ _ _ _ _ _ P); reflexivity.
Qed.
(** ... and at least one such execution exists from every grid. *)
Theorem C46_gauss_seidel_exists : forall nx ny circle relax mask n first eps max_iterations g0,
  valid_shape nx ny circle -> (1 <= n)%nat ->
  exists r it m, par_iterate (par_sweep nx ny circle relax mask n first) eps max_iterations g0 0 0%Q r it m.
Proof.
  intros nx ny circle relax mask n first eps k g0 Hv Hn. generalize 0%nat as i, 0%Q as m0. revert g0.
  induction k as [|k IH]; intros g0 i m0.
  - exists g0, i, m0. constructor.
  - destruct (C46_sweep_exists nx ny circle relax mask n first g0 Hv Hn) as (g1 & m1 & P1).
    destruct (C46_sweep_exists nx ny circle relax mask n (1 - first) g1 Hv Hn) as (g2 & m2 & P2).
    set (m := if Nat.eqb first 0 then smax m1 m2 else smax m2 m1).
    assert (PS : par_sweep nx ny circle relax mask n first g0 g2 m) by (exists g1, m1, m2; auto).
    destruct (Qlt_le_dec m eps) as [L|L].
    + exists g2, (S i), m. eapply PI_stop; eauto.
    + destruct (IH g2 (S i) m) as (r & it & m' & P). exists r, it, m'. eapply PI_go; eauto. apply Qle_not_lt. exact L.
Qed.
