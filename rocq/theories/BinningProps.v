(** Theorems about the binning classes: C56 (where samples and weights go), C57 (pickling),
    C65 (any history of pushes and merges), C66 (one-dimensional binning), C67 (the operator +). *)
From Verif Require Import Base BaseProofs MathModel AxisModel AxisSpec AxisProofs AxisProofs2 AxisProofs5 StatsModel StatsSpec StatsProofs StatsProofs2 StatsProps BinningModel BinningSpec BinningHistory BinningProofs BinningProofs2 BinningProofs3 BinningProofs4 BinningProofs5.
Open Scope Z_scope.

(** The statistics read in a cell are those of the (value, weight) samples [l]. *)
Definition reads (a : acc) (l : list sample) : Prop :=
  (l = [] -> a_count a = 0 /\ acc_get_mean a = NaN /\ acc_get_min a = NaN /\ acc_get_max a = NaN /\ acc_variance a 0 = NaN) /\
  (l <> [] -> textbook a l).
Lemma reads_of : forall a l e, empty_or a l e -> reads a l /\ (l <> [] -> extremes a e).
Proof.
  intros a l e [[-> ->]|(Hn & M & X)].
  - split; [|congruence]. split; [intros _; repeat split; reflexivity|congruence].
  - split; [split; [congruence|intros _; apply textbook_of; assumption]|]. intros _. eapply extremes_get; [exact Hn|apply M|exact X].
Qed.

(** * C56 simple binning *)
(** Whatever the axes (regular or not, ascending or not, angular or not): every sample whose value is
    not NaN goes to the bin with the nearest centre, including the samples outside the grid, and the
    statistics of each bin are the textbook ones of the samples it received. *)
Theorem C56_simple : forall geo x y wgs xs ys zs, reachable x -> reachable y -> length xs = length ys -> length xs = length zs ->
  exists b, push geo (new_binning x y wgs) xs ys zs true = Ok b /\
    forall i j, 0 <= i < len x -> 0 <= j < len y ->
      exists sel, selects (fun s => in_bin x (fst (fst s)) i /\ in_bin y (snd (fst s)) j) (combine (combine xs ys) zs) sel /\
        let l := defined (map (fun s => (snd s, 1%Q)) sel) in
        reads (b_acc b i j) l /\ (l <> [] -> extremes (b_acc b i j) (map fst l)).
Proof.
  intros geo x y wgs xs ys zs RX RY L1 L2. pose proof (reachable_ok _ RX) as OX. pose proof (reachable_ok _ RY) as OY.
  unfold push, zlen. rewrite <- L1, <- L2, Z.eqb_refl. cbn [negb orb]. destruct (push_nearest_loop (combine (combine xs ys) zs) (new_binning x y wgs) OX OY) as (b & E & G & C).
  exists b. split; [exact E|]. intros i j I J. destruct (holds_push (new_binning x y wgs) [] (combine (combine xs ys) zs) b OX OY (holds_new x y wgs) E) as [_ H]. destruct (same_grid_size _ _ G) as [GR GC].
  destruct (H i j) as (sel & S & X); [rewrite GR; exact I|rewrite GC; exact J|]. destruct G as (GX & GY & _). rewrite GX, GY in S. exists sel. split; [exact S|].
  cbn zeta. replace (map (fun s : Q * Q * option Q => (snd s, 1%Q)) sel) with (map (fun v : option Q => (v, 1%Q)) (map snd sel)) by (rewrite map_map; reflexivity).
  apply reads_of. exact X.
Qed.
Print Assumptions C56_simple.

(** Each coordinate has exactly one bin. *)
Theorem C56_one_bin : forall a x, reachable a -> exists i, 0 <= i < len a /\ forall j, in_bin a x j <-> j = i.
Proof.
  intros a x R. pose proof (reachable_ok _ R) as OK. destruct (find_bounded a x OK) as (i & _ & I & B). exists i. split; [exact I|]. intro j. split; [intro H; eapply in_bin_unique; [apply OK|exact H|exact B]|intros ->; exact B].
Qed.
Print Assumptions C56_one_bin.

(** The counts of all the bins add up to the number of samples that are not NaN. *)
Theorem C56_simple_total : forall geo x y wgs xs ys zs b, reachable x -> reachable y ->
  push geo (new_binning x y wgs) xs ys zs true = Ok b ->
  exists sel, selects has_value (combine (combine xs ys) zs) sel /\
    (grid_sum (len x) (len y) (fun i j => inject_Z (a_count (b_acc b i j))) == inject_Z (zlen sel))%Q.
Proof.
  intros geo x y wgs xs ys zs b RX RY E. pose proof (reachable_ok _ RX) as OX. pose proof (reachable_ok _ RY) as OY. unfold push in E. destruct (negb _ || negb _); [discriminate|].
  destruct (nearest_counts (combine (combine xs ys) zs) (new_binning x y wgs) b OX OY) as (_ & sel & S & C); [intros i j; apply is_N; reflexivity|exact E|].
  exists sel. split; [exact S|]. unfold counts in C. destruct (push_nearest_loop (combine (combine xs ys) zs) (new_binning x y wgs) OX OY) as (b' & E' & G & _). rewrite E' in E. injection E as ->.
  destruct (same_grid_size _ _ G) as [GR GC]. rewrite GR, GC in C. change (b_rows (new_binning x y wgs)) with (len x) in C. change (b_cols (new_binning x y wgs)) with (len y) in C. rewrite C.
  change (grid_sum (len x) (len y) (fun i j : Z => inject_Z (a_count (b_acc (new_binning x y wgs) i j)))) with (grid_sum (len x) (len y) (fun _ _ => 0%Q)). rewrite grid_sum_zero. ring.
Qed.
Print Assumptions C56_simple_total.

(** Arrays of different sizes are refused. *)
Theorem C56_sizes : forall geo b xs ys zs simple, ~ (length xs = length ys /\ length xs = length zs) -> exists w, push geo b xs ys zs simple = Throw w.
Proof.
  intros geo b xs ys zs simple H. unfold push, zlen. destruct (Z.eqb_spec (Z.of_nat (length xs)) (Z.of_nat (length ys))); [|eexists; reflexivity].
  destruct (Z.eqb_spec (Z.of_nat (length xs)) (Z.of_nat (length zs))); [|eexists; reflexivity]. exfalso. apply H. lia.
Qed.

(** On a circular axis the bin is not always the nearest one on the circle: the longitude 350 goes to
    the bin centred on 270 and not to the one centred on 0. *)
Definition quarters : axis := match axis_of_values [0; 90; 180; 270]%Q (1 # 1000000) true with Ok a => a | _ => mk_axis false None CUndef end.
Definition steps : axis := match axis_of_values [0; 1; 3]%Q (1 # 1000000) false with Ok a => a | _ => mk_axis false None CUndef end.
Lemma quarters_reachable : reachable quarters.
Proof. apply (reach_values [0; 90; 180; 270]%Q (1 # 1000000) true); [lra|vm_compute; reflexivity]. Qed.
Lemma steps_reachable : reachable steps.
Proof. apply (reach_values [0; 1; 3]%Q (1 # 1000000) false); [lra|vm_compute; reflexivity]. Qed.
Definition count_at (r : outcome binning) (i j : Z) : Z := match r with Ok b => a_count (b_acc b i j) | _ => -1 end.
Theorem C56_seam_refuted : forall geo, exists b, a_is_circle quarters = true /\
  push geo (new_binning quarters steps None) [350%Q] [0%Q] [Some 7%Q] true = Ok b /\
  a_count (b_acc b 3 0) = 1 /\ a_count (b_acc b 0 0) = 0 /\
  (exists v w, at_index quarters 3 v /\ at_index quarters 0 w /\ (v == 270)%Q /\ (w == 0)%Q) /\ nearest_on_circle quarters 350 0.
Proof.
  intro geo. eexists. split; [vm_compute; reflexivity|]. split; [vm_compute; reflexivity|]. split; [vm_compute; reflexivity|]. split; [vm_compute; reflexivity|].
  split; [eexists; eexists; split; [vm_compute; reflexivity|]; split; [vm_compute; reflexivity|]; split; reflexivity|].
  eexists. split; [vm_compute; reflexivity|]. exists (-1). intros j w m H. assert (R := at_index_range _ _ _ H). change (len quarters) with 4 in R.
  assert (E : (w == 90 * inject_Z j)%Q).
  { assert (C : j = 0 \/ j = 1 \/ j = 2 \/ j = 3) by lia. destruct C as [->|[->|[->| ->]]]; vm_compute in H; injection H as <-; vm_compute; reflexivity. }
  assert (A : (Qabs (350 - 0 + inject_Z (-1) * 360) == 10)%Q) by (vm_compute; reflexivity).
  assert (B : (350 - w + inject_Z m * 360 == inject_Z (350 - 90 * j + 360 * m))%Q).
  { rewrite E. unfold Z.sub. rewrite !inject_Z_plus, inject_Z_opp, !inject_Z_mult. change (inject_Z 350) with 350%Q. change (inject_Z 90) with 90%Q. change (inject_Z 360) with 360%Q. ring. }
  rewrite B. match goal with |- (Qabs ?u <= _)%Q => setoid_replace (Qabs u) with 10%Q by (vm_compute; reflexivity) end.
  change 10%Q with (inject_Z 10). assert (AZ : (Qabs (inject_Z (350 - 90 * j + 360 * m)) == inject_Z (Z.abs (350 - 90 * j + 360 * m)))%Q) by reflexivity.
  rewrite AZ, <- Zle_Qle. lia.
Qed.
Print Assumptions C56_seam_refuted.

Example C56_simple_ex : forall geo,
  let r := push geo (new_binning steps steps None) [0; 2; 9; 1]%Q [0; 0; 1; 1]%Q [Some 5; Some 7; Some 1; None]%Q true in
  count_at r 0 0 = 1 /\ count_at r 2 0 = 1 /\ count_at r 2 1 = 1 /\ count_at r 1 1 = 0.
Proof. intro geo. vm_compute. repeat split. Qed.

(** * C56 linear binning, Cartesian coordinates *)
(** On plain axes, a sample inside the grid is shared between the four bins around it with the bilinear
    weights (shares below 2^-52 or below an area of 1e-12 are dropped), a sample outside is ignored, and
    the statistics of each bin are the textbook ones of its shares. *)
Theorem C56_linear_partial : forall geo x y xs ys zs, reachable x -> reachable y -> 1 < len x -> 1 < len y -> is_angle x = false -> is_angle y = false ->
  length xs = length ys -> length xs = length zs ->
  exists b, push geo (new_binning x y None) xs ys zs false = Ok b /\
    forall i j, exists cs, Forall2 (fun s c => linear_share x y s i j c) (combine (combine xs ys) zs) cs /\
      let l := defined (concat cs) in
      reads (b_acc b i j) l /\ positive_weights l.
Proof.
  intros geo x y xs ys zs RX RY LX LY AX AY L1 L2. pose proof (reachable_ok _ RX) as OX. pose proof (reachable_ok _ RY) as OY.
  unfold push, zlen. rewrite <- L1, <- L2, Z.eqb_refl. cbn [negb orb new_binning b_wgs].
  destruct (push_linear_loop (combine (combine xs ys) zs) (new_binning x y None) OX OY LX LY AX AY) as (b & E & G & C).
  exists b. split; [exact E|]. intros i j. destruct (C i j) as (cs & S & X). exists cs. split; [exact S|].
  assert (P : positive_weights (defined (concat cs))).
  { clear -S. induction S as [|[[u v] z] c l cs H S IH]; [intros t []|]. cbn [concat]. rewrite defined_app. apply positive_app. split; [|exact IH].
    cbn [linear_share] in H. destruct z as [w|]; [|subst c; intros t []]. destruct H as [[_ ->]|(wx & dx & wy & dy & _ & _ & [[_ ->]|(A & _ & q & Q & ->)])]; [intros t []|intros t []|].
    intros t [<-|[]]. cbn [snd]. rewrite Q. lra. }
  split; [|exact P]. cbn zeta. change (b_acc (new_binning x y None) i j) with acc_empty in X. rewrite X.
  change (fold_left push_opt (concat cs) acc_empty) with (push_all_weighted (concat cs)).
  eapply reads_of. apply push_all_weighted_ok. exact P.
Qed.
Print Assumptions C56_linear_partial.

(** The shares of a coordinate are not negative and add up to one. *)
Theorem C56_shares : forall a x, reachable a -> 1 < len a -> inside a x -> is_angle a = false ->
  exists w d, (forall i, share a x i (w i) d) /\ (forall i, 0 <= w i)%Q /\ (qsum (map w (span 0 (len a))) == 1)%Q.
Proof.
  intros a x R L I A. pose proof (reachable_ok _ R) as OK. destruct (plain_find a x OK L A) as [(i0 & i1 & v0 & v1 & _ & E)|[_ N]]; [|contradiction].
  pose proof (ends_neq _ _ _ _ _ _ (proj1 OK) E) as NE. pose proof E as (H0 & H1 & C & B). destruct (frac_unit v0 v1 x B NE) as (U0 & U1 & _).
  set (u0 := ((v1 - x) / (v1 - v0))%Q) in *. set (u1 := ((x - v0) / (v1 - v0))%Q) in *.
  exists (fun i => if i =? i0 then u0 else if i =? i1 then u1 else 0%Q), (Qabs (v1 - v0)). split; [|split].
  - intro i. exists i0, i1, v0, v1. repeat (split; [first [assumption|reflexivity]|]). destruct (i =? i0); [reflexivity|]. destruct (i =? i1); reflexivity.
  - intro i. destruct (i =? i0); [lra|]. destruct (i =? i1); lra.
  - rewrite (qsum_ext _ _ (fun i => (if i =? i0 then u0 else 0) + (if i =? i1 then u1 else 0))%Q).
    + rewrite qsum_add, !qsum_single; try apply span_nodup; try (apply in_span; eapply at_index_range; eassumption). unfold u0, u1. field. lra.
    + intros i _. destruct (Z.eqb_spec i i0), (Z.eqb_spec i i1); try lia; ring.
Qed.
Print Assumptions C56_shares.

(** When no share is dropped, the sums of weights of all the bins add up to the number of samples that
    are not NaN and inside the grid. *)
Theorem C56_linear_total_partial : forall geo x y xs ys zs b, reachable x -> reachable y -> 1 < len x -> 1 < len y -> is_angle x = false -> is_angle y = false ->
  (forall s, In s (combine (combine xs ys) zs) -> no_share_dropped x y s) ->
  push geo (new_binning x y None) xs ys zs false = Ok b ->
  exists sel f, selects (fun s => has_value s /\ inside x (fst (fst s)) /\ inside y (snd (fst s))) (combine (combine xs ys) zs) sel /\
    (forall i j, is (a_sow (b_acc b i j)) (f i j)) /\ (grid_sum (len x) (len y) f == inject_Z (zlen sel))%Q.
Proof.
  intros geo x y xs ys zs b RX RY LX LY AX AY NL E. pose proof (reachable_ok _ RX) as OX. pose proof (reachable_ok _ RY) as OY. unfold push in E. destruct (negb _ || negb _); [discriminate|]. cbn [new_binning b_wgs] in E.
  destruct (linear_sows (combine (combine xs ys) zs) (new_binning x y None) b (fun _ _ => 0%Q) OX OY LX LY AX AY) as (f & sel & H & S & C); [intros i j; apply is_N; reflexivity|exact NL|exact E|].
  exists sel, f. split; [exact S|]. split; [exact H|]. change (b_rows (new_binning x y None)) with (len x) in C. change (b_cols (new_binning x y None)) with (len y) in C. rewrite C, grid_sum_zero. ring.
Qed.
Print Assumptions C56_linear_total_partial.

(** The weights given by a spheroid (whatever the areas): a share that is finite is between 0 and 1. *)
Theorem C56_weights_unit : forall area p p0 p1 w00 w01 w11 w10 w, binning_2d area p p0 p1 = (w00, w01, w11, w10) -> In (N w) [w00; w01; w11; w10] ->
  (forall r, 0 <= calculate_area area r)%Q -> (0 <= w <= 1)%Q.
Proof.
  intros area p p0 p1 w00 w01 w11 w10 w E I NN. unfold binning_2d in E. set (total := calculate_area area [p0; _; p1; _; p0]) in E. assert (T := NN [p0; Point (px p0) (py p1); p1; Point (px p1) (py p0); p0]). fold total in T.
  assert (G : forall ring, (N (normalized_area area ring total) / N total)%num = N w -> (0 <= w <= 1)%Q).
  { intros ring H. unfold ndiv in H. destruct (Qeq_bool total 0) eqn:Z; [discriminate|]. injection H as <-. assert (P : (0 < total)%Q) by (apply Qeq_bool_neq in Z; lra).
    unfold normalized_area. pose proof (NN ring). destruct (Qltb_spec total (calculate_area area ring)) as [A|A]; cbn [orb]; [unfold Qdiv; rewrite Qmult_0_l; lra|].
    destruct (Qltb (Qabs (calculate_area area ring)) tiny); [unfold Qdiv; rewrite Qmult_0_l; lra|]. split; [apply Qle_shift_div_l; lra|apply Qle_shift_div_r; lra]. }
  injection E as <- <- <- <-. destruct I as [I|[I|[I|[I|[]]]]]; eapply G; exact I.
Qed.
Print Assumptions C56_weights_unit.

(** Across the seam of a circular axis the weights are wrong: a sample half-way between 270 and 360
    leaves one sixth of its weight in the bin 0, and nothing in the bin 270. *)
Theorem C56_linear_seam_refuted : forall geo, exists b q, a_is_circle quarters = true /\
  push geo (new_binning quarters steps None) [315%Q] [0%Q] [Some 7%Q] false = Ok b /\
  a_sow (b_acc b 0 0) = N q /\ (q == 1 # 6)%Q /\
  (forall i j, 0 <= i < 4 -> 0 <= j < 3 -> i <> 0 \/ j <> 0 -> a_count (b_acc b i j) = 0).
Proof.
  intro geo. eexists. eexists. split; [vm_compute; reflexivity|]. split; [vm_compute; reflexivity|]. split; [vm_compute; reflexivity|]. split; [vm_compute; reflexivity|].
  intros i j I J H. assert (CI : i = 0 \/ i = 1 \/ i = 2 \/ i = 3) by lia. assert (CJ : j = 0 \/ j = 1 \/ j = 2) by lia.
  destruct CI as [->|[->|[->| ->]]], CJ as [->|[->| ->]]; try (vm_compute; reflexivity). exfalso. lia.
Qed.
Print Assumptions C56_linear_seam_refuted.

(** Very small cells lose their samples: on axes with a step of 1e-7 the sample at the middle of a cell
    is inside the grid, and no bin receives anything. *)
Definition fine : axis := match axis_of_values [0; 1 # 10000000; 3 # 10000000]%Q (1 # 1000000000000) false with Ok a => a | _ => mk_axis false None CUndef end.
Lemma fine_reachable : reachable fine.
Proof. apply (reach_values [0; 1 # 10000000; 3 # 10000000]%Q (1 # 1000000000000) false); [lra|vm_compute; reflexivity]. Qed.
Theorem C56_linear_lost_refuted : forall geo, exists b, inside fine (1 # 20000000) /\
  push geo (new_binning fine fine None) [(1 # 20000000)%Q] [(1 # 20000000)%Q] [Some 7%Q] false = Ok b /\
  (forall i j, 0 <= i < 3 -> 0 <= j < 3 -> a_count (b_acc b i j) = 0).
Proof.
  intro geo. eexists. split; [|split; [vm_compute; reflexivity|]].
  - exists 0, 0%Q, 1, (1 # 10000000)%Q. split; [vm_compute; reflexivity|]. split; [vm_compute; reflexivity|]. split; vm_compute; discriminate.
  - intros i j I J. assert (CI : i = 0 \/ i = 1 \/ i = 2) by lia. assert (CJ : j = 0 \/ j = 1 \/ j = 2) by lia.
    destruct CI as [->|[->| ->]], CJ as [->|[->| ->]]; vm_compute; reflexivity.
Qed.
Print Assumptions C56_linear_lost_refuted.

(** A linear case: the sample (2, 1/2) of the cell [1, 3] x [0, 1] gives one quarter to each corner. *)
Example C56_linear_ex : forall geo, exists b,
  push geo (new_binning steps steps None) [2%Q] [(1 # 2)%Q] [Some 7%Q] false = Ok b /\
  forall i j, (i = 1 \/ i = 2) -> (j = 0 \/ j = 1) -> a_count (b_acc b i j) = 1 /\ exists q, a_sow (b_acc b i j) = N q /\ (q == 1 # 4)%Q.
Proof.
  intro geo. eexists. split; [vm_compute; reflexivity|]. intros i j [->| ->] [->| ->]; split; try (vm_compute; reflexivity); eexists; split; vm_compute; reflexivity.
Qed.
