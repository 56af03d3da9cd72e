(** Theorems about the binning classes: C57 (pickling), C65 (any history of pushes and merges),
    C66 (one-dimensional binning), C67 (the operator +). *)
From Verif Require Import Base BaseProofs MathModel AxisModel AxisSpec AxisProofs AxisProofs2 AxisProofs5 StatsModel StatsSpec StatsProofs StatsProofs2 StatsProps BinningModel BinningSpec BinningHistory BinningProofs BinningProofs2 BinningProofs3 BinningProofs4 BinningProofs5 BinningProps.
Open Scope Z_scope.

(** * C57 pickling *)
(** Without a spheroid a restored binning has equal axes and the same cells... *)
Theorem C57_pickle_partial : forall b, reachable (b_x b) -> reachable (b_y b) -> picklable (b_x b) -> picklable (b_y b) -> b_wgs b = None ->
  exists c, b_setstate (b_getstate b) = Ok c /\ axis_eqb (b_x c) (b_x b) = true /\ axis_eqb (b_y c) (b_y b) = true /\
    is_angle (b_x c) = is_angle (b_x b) /\ is_angle (b_y c) = is_angle (b_y b) /\ b_wgs c = None /\
    len (b_x c) = len (b_x b) /\ len (b_y c) = len (b_y b) /\ forall i j, b_acc c i j = b_acc b i j.
Proof.
  intros b RX RY PX PY PW. destruct (restore_axis (b_x b) (b_x b) (reachable_ok _ RX) (axis_eqb_refl _) eq_refl eq_refl PX) as (cx & SX & OKX & EX & LX & AX & _).
  destruct (restore_axis (b_y b) (b_y b) (reachable_ok _ RY) (axis_eqb_refl _) eq_refl eq_refl PY) as (cy & SY & OKY & EY & LY & AY & _).
  unfold b_setstate, b_getstate. cbn [bs_x bs_y bs_wgs bs_rows bs_cols bs_acc]. rewrite SX. cbn [obind]. rewrite SY. cbn [obind]. rewrite PW.
  pose proof LX as LX'. pose proof LY as LY'. unfold len in LX', LY'. unfold b_rows, b_cols. rewrite LX', LY', !Z.eqb_refl. cbn [negb orb]. eexists. split; [reflexivity|]. cbn [b_x b_y b_acc b_wgs]. auto 12.
Qed.
Print Assumptions C57_pickle_partial.

(** ... and behaves like the original: the same samples give the same statistics. *)
Theorem C57_same_pushes_partial : forall geo b c xs ys zs b' c', reachable (b_x b) -> reachable (b_y b) -> picklable (b_x b) -> picklable (b_y b) -> b_wgs b = None ->
  b_setstate (b_getstate b) = Ok c -> push geo b xs ys zs true = Ok b' -> push geo c xs ys zs true = Ok c' ->
  forall i j, b_acc c' i j = b_acc b' i j.
Proof.
  intros geo b c xs ys zs b' c' RX RY PX PY PW S E F i j. destruct (restore_axis (b_x b) (b_x b) (reachable_ok _ RX) (axis_eqb_refl _) eq_refl eq_refl PX) as (cx & SX & OKX & EX & LX & AX & _).
  destruct (restore_axis (b_y b) (b_y b) (reachable_ok _ RY) (axis_eqb_refl _) eq_refl eq_refl PY) as (cy & SY & OKY & EY & LY & AY & _).
  unfold b_setstate, b_getstate in S. cbn [bs_x bs_y bs_wgs bs_rows bs_cols bs_acc] in S. rewrite SX in S. cbn [obind] in S. rewrite SY in S. cbn [obind] in S. rewrite PW in S. destruct (negb _ || negb _) in S; [discriminate|]. injection S as <-.
  unfold push in E, F. destruct (negb _ || negb _); [discriminate|].
  destruct (push_nearest_loop (combine (combine xs ys) zs) b (reachable_ok _ RX) (reachable_ok _ RY)) as (b2 & E2 & _ & C). rewrite E2 in E. injection E as ->.
  destruct (push_nearest_loop (combine (combine xs ys) zs) (Binning cx cy (b_acc b) None) OKX OKY) as (c2 & F2 & _ & D). rewrite F2 in F. injection F as ->.
  destruct (C i j) as (sel & S1 & ->). destruct (D i j) as (sel' & S2 & ->). cbn [b_x b_y b_acc] in *.
  replace sel' with sel; [reflexivity|]. eapply selects_fun; [exact S1|]. eapply selects_iff; [|exact S2]. intros [[u v] z]. unfold of_bin. cbn [fst snd].
  rewrite (axis_eqb_bins _ _ EX AX u i), (axis_eqb_bins _ _ EY AY v j). reflexivity.
Qed.
Print Assumptions C57_same_pushes_partial.

(** With a spheroid, restoring is undefined behaviour (a write through an empty optional). *)
Theorem C57_spheroid_refuted : forall b s, b_wgs b = Some s -> reachable (b_x b) -> reachable (b_y b) -> picklable (b_x b) -> picklable (b_y b) ->
  exists w, b_setstate (b_getstate b) = UB w.
Proof.
  intros b s W RX RY PX PY. destruct (restore_axis (b_x b) (b_x b) (reachable_ok _ RX) (axis_eqb_refl _) eq_refl eq_refl PX) as (cx & SX & _).
  destruct (restore_axis (b_y b) (b_y b) (reachable_ok _ RY) (axis_eqb_refl _) eq_refl eq_refl PY) as (cy & SY & _).
  unfold b_setstate, b_getstate. cbn [bs_x bs_y bs_wgs bs_rows bs_cols bs_acc]. rewrite SX. cbn [obind]. rewrite SY. cbn [obind]. rewrite W. eexists. reflexivity.
Qed.
Print Assumptions C57_spheroid_refuted.
(** With an angular axis that does not cover the circle, the restored binning puts the angle 365 in
    another bin than the original. *)
Definition quadrant : axis := match axis_of_values [0; 10; 30]%Q (1 # 1000000) true with Ok a => a | _ => mk_axis false None CUndef end.
Theorem C57_quadrant_refuted : forall geo, exists c b' c', reachable quadrant /\
  b_setstate (b_getstate (new_binning quadrant steps None)) = Ok c /\
  push geo (new_binning quadrant steps None) [365%Q] [0%Q] [Some 7%Q] true = Ok b' /\ push geo c [365%Q] [0%Q] [Some 7%Q] true = Ok c' /\
  a_count (b_acc b' 1 0) = 1 /\ a_count (b_acc c' 1 0) = 0 /\ a_count (b_acc c' 2 0) = 1.
Proof.
  intro geo. eexists. eexists. eexists. split; [apply (reach_values [0; 10; 30]%Q (1 # 1000000) true); [lra|vm_compute; reflexivity]|].
  repeat (split; [vm_compute; reflexivity|]). vm_compute. reflexivity.
Qed.
Print Assumptions C57_quadrant_refuted.
Lemma picklable_steps : picklable steps.
Proof. split; [left; reflexivity|intro H; vm_compute in H; discriminate]. Qed.
Lemma picklable_quarters : picklable quarters.
Proof. split; [right; vm_compute; reflexivity|intros _; vm_compute; reflexivity]. Qed.
Example C57_ex : exists c, b_setstate (b_getstate (new_binning quarters steps None)) = Ok c.
Proof.
  destruct (C57_pickle_partial (new_binning quarters steps None) quarters_reachable steps_reachable picklable_quarters picklable_steps eq_refl) as (c & H & _). exists c. exact H.
Qed.

(** * C65 any history of pushes, merges, clears and pickling round trips *)
(** Whatever the order of the operations, each bin reads the textbook statistics of the samples pushed
    since the last clear of the objects merged together, each sample in its bin, once. *)
Theorem C65_history : forall geo x y wgs h, reachable x -> reachable y -> same_sizes h ->
  (restores h = true -> picklable x /\ picklable y /\ wgs = None) ->
  exists b, run geo x y wgs h = Ok b /\
    forall i j, 0 <= i < len x -> 0 <= j < len y ->
      exists sel, selects (fun s => in_bin x (fst (fst s)) i /\ in_bin y (snd (fst s)) j) (samples_of h) sel /\
        let l := defined (map (fun s => (snd s, 1%Q)) sel) in
        reads (b_acc b i j) l /\ (l <> [] -> extremes (b_acc b i j) (map fst l)).
Proof.
  intros geo x y wgs h RX RY SS PK. destruct (history_ok geo x y wgs h (reachable_ok _ RX) (reachable_ok _ RY) SS PK) as (b & E & G & H).
  exists b. split; [exact E|]. intros i j I J. destruct G as (_ & EX & AX & _ & _ & EY & AY & _). destruct (axis_eqb_values _ _ EX) as [LX _]. destruct (axis_eqb_values _ _ EY) as [LY _].
  destruct (H i j) as (sel & S & X); [unfold b_rows; unfold len in *; lia|unfold b_cols; unfold len in *; lia|]. exists sel. split.
  - eapply selects_iff; [|exact S]. intros [[u v] z]. unfold of_bin. cbn [fst snd]. rewrite (axis_eqb_bins _ _ EX AX u i), (axis_eqb_bins _ _ EY AY v j). reflexivity.
  - cbn zeta. replace (map (fun s : Q * Q * option Q => (snd s, 1%Q)) sel) with (map (fun v : option Q => (v, 1%Q)) (map snd sel)) by (rewrite map_map; reflexivity). apply reads_of. exact X.
Qed.
Print Assumptions C65_history.
Example C65_ex : forall geo, exists b,
  run geo quarters steps None (Merge (Restore (Push (Clear (Push Fresh [1%Q] [2%Q] [Some 3%Q])) [90; 80]%Q [3; 1]%Q [Some 4; None]%Q)) (Push Fresh [455%Q] [9%Q] [Some 6%Q])) = Ok b /\
  exists m, acc_get_mean (b_acc b 1 2) = N m /\ (m == 5)%Q /\ a_count (b_acc b 1 2) = 2.
Proof. intro geo. eexists. split; [vm_compute; reflexivity|]. eexists. split; [vm_compute; reflexivity|]. split; vm_compute; reflexivity. Qed.

(** Pushing in several times is pushing once the concatenated arrays (nearest or linear binning). *)
Theorem C65_incremental : forall geo b xs ys zs xs' ys' zs' simple, length xs = length ys -> length xs = length zs -> length xs' = length ys' -> length xs' = length zs' ->
  push geo b (xs ++ xs') (ys ++ ys') (zs ++ zs') simple = olet b' := push geo b xs ys zs simple in push geo b' xs' ys' zs' simple.
Proof.
  intros geo b xs ys zs xs' ys' zs' simple L1 L2 L3 L4. unfold push, zlen. rewrite !app_length, <- L1, <- L2, <- L3, <- L4, !Z.eqb_refl. cbn [negb orb].
  rewrite combine_app, combine_app, push_loop_app by (rewrite ?combine_length; lia).
  assert (W : forall step l b b', (forall b s b', step b s = Ok b' -> b_wgs b' = b_wgs b) -> push_loop step b l = Ok b' -> b_wgs b' = b_wgs b).
  { intros step l. induction l as [|s l IH]; intros b0 b1 H E; cbn [push_loop] in E; [injection E as <-; reflexivity|]. destruct (step b0 s) as [c|w|w] eqn:S; cbn [obind] in E; try discriminate. rewrite (IH _ _ H E). eapply H; exact S. }
  assert (N : forall b s b', push_nearest1 b s = Ok b' -> b_wgs b' = b_wgs b).
  { intros b0 [[u v] z] b1 E. unfold push_nearest1 in E. destruct z as [q|]; [|congruence]. destruct (find_index (b_x b0) u true); cbn [obind] in E; try discriminate. destruct (find_index (b_y b0) v true); cbn [obind] in E; try discriminate.
    destruct (negb _ && negb _) in E; [|congruence]. destruct (cell_update _ _ _ _ _ _) in E; cbn [obind] in E; try discriminate. injection E as <-. reflexivity. }
  assert (U : forall b i j v w b', update_acc b i j v w = Ok b' -> b_wgs b' = b_wgs b).
  { intros b0 i j v w b1 E. unfold update_acc in E. destruct (is_almost_zero w); [congruence|]. destruct (cell_update _ _ _ _ _ _) in E; cbn [obind] in E; try discriminate. injection E as <-. reflexivity. }
  assert (LN : forall area b s b', push_linear1 area b s = Ok b' -> b_wgs b' = b_wgs b).
  { intros area b0 [[u v] z] b1 E. unfold push_linear1 in E. destruct z as [q|]; [|congruence]. destruct (find_indexes (b_x b0) u) as [[[? ?]|]|?|?]; cbn [obind] in E; try discriminate; destruct (find_indexes (b_y b0) v) as [[[? ?]|]|?|?]; cbn [obind] in E; try discriminate; try congruence.
    destruct (axis_at (b_x b0) z) ; cbn [obind] in E; try discriminate. destruct (axis_at (b_y b0) z1) ; cbn [obind] in E; try discriminate. destruct (axis_at (b_x b0) z0) ; cbn [obind] in E; try discriminate. destruct (axis_at (b_y b0) z2) ; cbn [obind] in E; try discriminate.
    destruct (binning_2d _ _ _ _) as [[[w0 w1] w2] w3].
    destruct (update_acc b0 _ _ _ _) as [c0|?|?] eqn:E0 in E; cbn [obind] in E; try discriminate. destruct (update_acc c0 _ _ _ _) as [c1|?|?] eqn:E1 in E; cbn [obind] in E; try discriminate. destruct (update_acc c1 _ _ _ _) as [c2|?|?] eqn:E2 in E; cbn [obind] in E; try discriminate.
    rewrite (U _ _ _ _ _ _ E), (U _ _ _ _ _ _ E2), (U _ _ _ _ _ _ E1). eapply U; exact E0. }
  destruct simple; [reflexivity|]. destruct (push_loop _ b _) as [b'|w|w] eqn:E; cbn [obind]; try reflexivity.
  replace (b_wgs b') with (b_wgs b); [reflexivity|]. symmetry. eapply W; [|exact E]. destruct (b_wgs b); intros ? ? ?; apply LN.
Qed.
Print Assumptions C65_incremental.

(** Merging two linear binnings: each bin reads the statistics of the shares received by both. *)
Theorem C65_merge_linear : forall geo x y xs ys zs xs' ys' zs', reachable x -> reachable y -> 1 < len x -> 1 < len y -> is_angle x = false -> is_angle y = false ->
  length xs = length ys -> length xs = length zs -> length xs' = length ys' -> length xs' = length zs' ->
  exists b c d, push geo (new_binning x y None) xs ys zs false = Ok b /\ push geo (new_binning x y None) xs' ys' zs' false = Ok c /\ add_in_place b c = Ok d /\
    forall i j, 0 <= i < len x -> 0 <= j < len y -> exists cs,
      Forall2 (fun s c => linear_share x y s i j c) (combine (combine xs ys) zs ++ combine (combine xs' ys') zs') cs /\ reads (b_acc d i j) (defined (concat cs)).
Proof.
  intros geo x y xs ys zs xs' ys' zs' RX RY LX LY AX AY L1 L2 L3 L4. pose proof (reachable_ok _ RX) as OX. pose proof (reachable_ok _ RY) as OY.
  unfold push, zlen. rewrite <- L1, <- L2, <- L3, <- L4, !Z.eqb_refl. cbn [negb orb new_binning b_wgs].
  destruct (push_linear_loop (combine (combine xs ys) zs) (new_binning x y None) OX OY LX LY AX AY) as (b & E & G & C).
  destruct (push_linear_loop (combine (combine xs' ys') zs') (new_binning x y None) OX OY LX LY AX AY) as (c & F & K & D).
  exists b, c. destruct G as (G1 & G2 & G3), K as (K1 & K2 & K3). cbn [new_binning b_x b_y b_wgs] in *.
  eexists. split; [exact E|]. split; [exact F|]. split; [unfold add_in_place; rewrite G1, G2, G3, K1, K2, K3, !axis_eqb_refl; cbn [negb orb wgs_differ]; reflexivity|].
  intros i j I J. destruct (C i j) as (cs & S & X). destruct (D i j) as (ds & T & Y). exists (cs ++ ds). split; [apply Forall2_app; assumption|].
  assert (P : forall l cs, Forall2 (fun s c => linear_share x y s i j c) l cs -> positive_weights (defined (concat cs))).
  { clear. intros l cs S. induction S as [|[[u v] z] c l cs H S IH]; [intros t []|]. cbn [concat]. rewrite defined_app. apply positive_app. split; [|exact IH].
    cbn [linear_share] in H. destruct z as [w|]; [|subst c; intros t []]. destruct H as [[_ ->]|(wx & dx & wy & dy & _ & _ & [[_ ->]|(A & _ & q & Q & ->)])]; [intros t []|intros t []|].
    intros t [<-|[]]. cbn [snd]. rewrite Q. lra. }
  cbn [with_acc b_acc b_rows b_cols b_x b_y]. replace (in_matrix (b_rows b) (b_cols b) i j) with true by (symmetry; apply in_matrix_iff; unfold b_rows, b_cols; rewrite G1, G2; auto).
  rewrite concat_app, defined_app. eapply reads_of. rewrite X, Y. cbn [new_binning b_acc].
  pose proof (P _ _ S) as PS. pose proof (P _ _ T) as PT. apply merge_cell_ok; [exact PS|exact PT|apply (push_all_weighted_ok (concat cs)); exact PS|apply (push_all_weighted_ok (concat ds)); exact PT|intros ->; reflexivity|intros ->; reflexivity].
Qed.
Print Assumptions C65_merge_linear.

(** Grids that differ in size or in a coordinate, and different spheroids, are refused; nothing is merged. *)
Theorem C65_incompatible : forall b c,
  (len (b_x b) <> len (b_x c) \/ len (b_y b) <> len (b_y c) \/
   (exists i v w, at_index (b_x b) i v /\ at_index (b_x c) i w /\ ~ (v == w)%Q) \/
   (exists i v w, at_index (b_y b) i v /\ at_index (b_y c) i w /\ ~ (v == w)%Q) \/
   (b_wgs b = None /\ b_wgs c <> None) \/ (b_wgs b <> None /\ b_wgs c = None) \/
   (exists s t, b_wgs b = Some s /\ b_wgs c = Some t /\ ~ (semi_major s == semi_major t /\ flattening s == flattening t)%Q)) ->
  exists w, add_in_place b c = Throw w.
Proof.
  intros b c H. unfold add_in_place.
  assert (D : forall a a' i v w, axis_eqb a a' = true -> at_index a i v -> at_index a' i w -> (v == w)%Q).
  { intros a a' i v w E A B. destruct (proj2 (axis_eqb_values _ _ E) i v A) as (w' & W & Q). unfold at_index in *. rewrite W in B. injection B as <-. symmetry. exact Q. }
  destruct (axis_eqb (b_x b) (b_x c)) eqn:EX; [|eexists; reflexivity]. destruct (axis_eqb (b_y b) (b_y c)) eqn:EY; [|eexists; reflexivity]. cbn [negb orb].
  destruct H as [H|[H|[(i & v & w & A & B & N)|[(i & v & w & A & B & N)|[[A B]|[[A B]|(s & t & A & B & N)]]]]]].
  - exfalso. apply H. apply (axis_eqb_values _ _ EX).
  - exfalso. apply H. apply (axis_eqb_values _ _ EY).
  - exfalso. apply N. exact (D _ _ _ _ _ EX A B).
  - exfalso. apply N. exact (D _ _ _ _ _ EY A B).
  - rewrite A. destruct (b_wgs c); [eexists; reflexivity|congruence].
  - rewrite B. destruct (b_wgs b); [eexists; reflexivity|congruence].
  - rewrite A, B. cbn [wgs_differ]. destruct (spheroid_eqb s t) eqn:E; [|eexists; reflexivity]. exfalso. apply N. unfold spheroid_eqb in E. apply andb_true_iff in E as [E1 E2]. apply Qeq_bool_iff in E1, E2. auto.
Qed.
Print Assumptions C65_incompatible.
(** Two grids that differ only in whether the x axis is an angle are merged, although they put the same
    coordinate in different bins. *)
Definition plain_quadrant : axis := match axis_of_values [0; 10; 30]%Q (1 # 1000000) false with Ok a => a | _ => mk_axis false None CUndef end.
Theorem C65_angle_refuted : forall geo, exists b c d, reachable quadrant /\ reachable plain_quadrant /\
  push geo (new_binning quadrant steps None) [365%Q] [0%Q] [Some 7%Q] true = Ok b /\ push geo (new_binning plain_quadrant steps None) [365%Q] [0%Q] [Some 7%Q] true = Ok c /\
  add_in_place b c = Ok d /\ a_count (b_acc d 1 0) = 1 /\ a_count (b_acc d 2 0) = 1.
Proof.
  intro geo. eexists. eexists. eexists. split; [apply (reach_values [0; 10; 30]%Q (1 # 1000000) true); [lra|vm_compute; reflexivity]|].
  split; [apply (reach_values [0; 10; 30]%Q (1 # 1000000) false); [lra|vm_compute; reflexivity]|]. repeat (split; [vm_compute; reflexivity|]). vm_compute. reflexivity.
Qed.
Print Assumptions C65_angle_refuted.

(** * C66 one-dimensional binning *)
(** The samples whose coordinate is in the range go to the bin with the nearest centre, with their
    weights (1 by default); the others, and the NaN values, are ignored. *)
Theorem C66_push_partial : forall x range xs z weights, reachable x -> (length xs <= length z)%nat ->
  (forall w, weights = Some w -> (length xs <= length w)%nat /\ forall q, In q w -> (0 < q)%Q) ->
  exists b0 b, new_binning1 x range = Ok b0 /\ push1 b0 xs z weights = Ok b /\
    forall i, 0 <= i < len x -> exists sel,
      selects (fun s => ((b1_min b0 <= fst s) /\ (fst s <= b1_max b0))%Q /\ in_bin x (fst s) i)
        (combine xs (combine z (match weights with Some w => w | None => map (fun _ => 1%Q) z end))) sel /\
      let l := defined (map snd sel) in
      reads (b_acc (b1_base b) i 0) l.
Proof.
  intros x range xs z weights R LZ HW. pose proof (reachable_ok _ R) as OK. destruct (new_binning1_ok x range OK) as (b0 & E & BX & BC & BA & _).
  set (ws := match weights with Some w => w | None => map (fun _ => 1%Q) z end).
  assert (LW : (length xs <= length ws)%nat) by (unfold ws; destruct weights as [w|]; [apply (HW w eq_refl)|rewrite map_length; exact LZ]).
  assert (PW : forall q, In q ws -> (0 < q)%Q).
  { unfold ws. destruct weights as [w|]; [apply (HW w eq_refl)|]. intros q Q. apply in_map_iff in Q as (? & <- & _). reflexivity. }
  rewrite <- BX in OK.
  destruct (push1_loop_ok xs b0 0 z weights z ws OK BC LZ LW) as (b & F & G & _ & _ & C).
  { intros k Hk. unfold znth. replace (0 + Z.of_nat k <? 0) with false by lia. rewrite Z.add_0_l, Nat2Z.id. reflexivity. }
  { intros k Hk. unfold ws. destruct weights as [w|]; [unfold znth; replace (0 + Z.of_nat k <? 0) with false by lia; rewrite Z.add_0_l, Nat2Z.id; reflexivity|].
    destruct (nth_error z k) as [v|] eqn:N; [apply map_nth_error with (f := fun _ => 1%Q) in N; exact N|apply nth_error_None in N; lia]. }
  exists b0, b. split; [exact E|]. split; [exact F|]. intros i I. destruct (C i) as (sel & S & X). rewrite BX in S. exists sel. split; [exact S|]. cbn zeta. rewrite X, BA.
  assert (P : positive_weights (defined (map snd sel))).
  { assert (Q : forall s, In s sel -> (0 < snd (snd s))%Q).
    { intros s Hs. apply PW. assert (IN : In s (combine xs (combine z ws))). { clear -S Hs. induction S; cbn in *; [contradiction|destruct Hs as [->|Hs]; auto|auto]. }
      destruct s as [a [v q]]. apply in_combine_r in IN. apply in_combine_r in IN. exact IN. }
    clear -Q. induction sel as [|[a [v q]] sel IH]; [intros t []|]. cbn [map snd]. change ((v, q) :: map snd sel) with ([(v, q)] ++ map snd sel). rewrite defined_app. apply positive_app. split; [|apply IH; intros s Hs; apply Q; right; exact Hs].
    destruct v; [|intros t []]. intros t [<-|[]]. apply (Q (a, (Some q0, q))). left. reflexivity. }
  eapply reads_of. apply (push_all_weighted_ok (map snd sel)). exact P.
Qed.
Print Assumptions C66_push_partial.
(** The default range is that of the bin centres. *)
Theorem C66_range : forall x range b, reachable x -> new_binning1 x range = Ok b ->
  match range with
  | Some (lo, hi) => b1_min b = lo /\ b1_max b = hi
  | None => (exists i, at_index x i (b1_min b)) /\ (exists i, at_index x i (b1_max b)) /\ forall i v, at_index x i v -> (b1_min b <= v)%Q /\ (v <= b1_max b)%Q
  end.
Proof.
  intros x range b R E. pose proof (reachable_ok _ R) as OK. destruct (new_binning1_ok x range OK) as (b0 & E0 & _ & _ & _ & M). rewrite E0 in E. injection E as ->.
  destruct range as [[l h]|]; [injection M as -> ->; auto|]. injection M as -> ->.
  split; [eexists; apply at_lo, OK|]. split; [eexists; apply at_hi, OK|]. intros i v H. apply at_index_iff in H as [H ->]; [|apply OK]. apply lo_hi; [apply OK|exact H].
Qed.
Print Assumptions C66_range.
(** An array of values (or of weights) shorter than the coordinates is read beyond its end. *)
Theorem C66_short_values_refuted : exists b, new_binning1 steps None = Ok b /\ exists w, push1 b [0; 1]%Q [Some 5%Q] None = UB w.
Proof. eexists. split; [vm_compute; reflexivity|]. eexists. vm_compute. reflexivity. Qed.
Theorem C66_short_weights_refuted : exists b, new_binning1 steps None = Ok b /\ exists w, push1 b [0; 1]%Q [Some 5; Some 6]%Q (Some [1%Q]) = UB w.
Proof. eexists. split; [vm_compute; reflexivity|]. eexists. vm_compute. reflexivity. Qed.
(** On a circular axis the range is compared with the angle as it was given: with the default range the
    samples of the last cell are lost, and so is any angle given in another turn. *)
Theorem C66_circle_refuted : exists b c, new_binning1 quarters None = Ok b /\ push1 b [-90; 300]%Q [Some 5; Some 6]%Q None = Ok c /\
  a_is_circle quarters = true /\ in_bin quarters (-90) 3 /\ in_bin quarters 300 3 /\ forall i, 0 <= i < 4 -> a_count (b_acc (b1_base c) i 0) = 0.
Proof.
  eexists. eexists. split; [vm_compute; reflexivity|]. split; [vm_compute; reflexivity|]. split; [vm_compute; reflexivity|].
  assert (G : forall u, find_index quarters u true = Ok 3 -> in_bin quarters u 3).
  { intros u H. destruct (find_bounded quarters u (reachable_ok _ quarters_reachable)) as (i & E & _ & B). rewrite H in E. injection E as <-. exact B. }
  split; [apply G; vm_compute; reflexivity|]. split; [apply G; vm_compute; reflexivity|].
  intros i I. assert (CI : i = 0 \/ i = 1 \/ i = 2 \/ i = 3) by lia. destruct CI as [->|[->|[->| ->]]]; vm_compute; reflexivity.
Qed.
Print Assumptions C66_circle_refuted.
(** A restored object has the same bins, the same range and the same statistics. *)
Theorem C66_pickle : forall b, reachable (b_x (b1_base b)) -> picklable (b_x (b1_base b)) -> b_cols (b1_base b) = 1 ->
  exists c, b1_setstate (b1_getstate b) = Ok c /\ axis_eqb (b_x (b1_base c)) (b_x (b1_base b)) = true /\ is_angle (b_x (b1_base c)) = is_angle (b_x (b1_base b)) /\
    b1_min c = b1_min b /\ b1_max c = b1_max b /\ forall i, b_acc (b1_base c) i 0 = b_acc (b1_base b) i 0.
Proof.
  intros b RX PX BC. destruct (restore_axis (b_x (b1_base b)) (b_x (b1_base b)) (reachable_ok _ RX) (axis_eqb_refl _) eq_refl eq_refl PX) as (cx & SX & OKX & EX & LX & AX & _).
  unfold b1_setstate, b1_getstate. cbn [b1s_x b1s_rows b1s_cols b1s_acc b1s_range]. rewrite SX. cbn [obind]. unfold b_rows. unfold len in LX. rewrite LX, BC, !Z.eqb_refl. cbn [negb orb].
  destruct (new_binning1_ok cx (Some (b1_min b, b1_max b)) OKX) as (c0 & E & BX & _ & _ & M). rewrite E. cbn [obind]. injection M as M1 M2.
  eexists. split; [reflexivity|]. cbn [b1_base with_acc b_x b_acc b1_min b1_max]. rewrite BX, M1, M2. auto 8.
Qed.
Print Assumptions C66_pickle.
Example C66_ex : exists b0 b, new_binning1 steps None = Ok b0 /\ push1 b0 [0; 2; 9]%Q [Some 5; Some 7; Some 1]%Q (Some [1; 2; 1]%Q) = Ok b /\
  a_count (b_acc (b1_base b) 0 0) = 1 /\ a_count (b_acc (b1_base b) 2 0) = 1.
Proof. eexists. eexists. split; [vm_compute; reflexivity|]. split; [vm_compute; reflexivity|]. split; vm_compute; reflexivity. Qed.

(** * C67 the Python operator + *)
(** [a + b] leaves every object other than [a] unchanged, and its value is that of [a += b]... *)
Theorem C67_value_partial : forall (I : Type) (iadd : I -> I -> outcome I) h self other h' r, py_add iadd h self other = Ok (h', r) ->
  exists a b c, nth_error h self = Some a /\ nth_error h other = Some b /\ iadd a b = Ok c /\ nth_error h' r = Some c /\
    forall k, k <> self -> nth_error h' k = nth_error h k.
Proof.
  intros I iadd h self other h' r E. unfold py_add, copy_copy in E. destruct (nth_error h self) as [a|] eqn:A; [|discriminate]. destruct (nth_error h other) as [b|] eqn:B; [|discriminate].
  destruct (iadd a b) as [c|w|w] eqn:F; cbn [obind] in E; try discriminate. injection E as <- <-. exists a, b, c. repeat (split; [first [assumption|reflexivity]|]).
  split; [apply nth_error_set_nth_eq; apply nth_error_Some; congruence|intros k K; apply nth_error_set_nth_neq; congruence].
Qed.
Print Assumptions C67_value_partial.
(** ... but it modifies [a]: after [c = a + b] the objects [a] and [c] share their state, so the left
    operand of a sum has become the sum. *)
Theorem C67_left_operand_refuted : forall (I : Type) (iadd : I -> I -> outcome I) h self other h' r, py_add iadd h self other = Ok (h', r) ->
  r = self /\ nth_error h' self = nth_error h' r.
Proof.
  intros I iadd h self other h' r E. unfold py_add, copy_copy in E. destruct (nth_error h self) as [a|] eqn:A; [|discriminate]. destruct (nth_error h other) as [b|] eqn:B; [|discriminate].
  destruct (iadd a b) as [c|w|w] eqn:F; cbn [obind] in E; try discriminate. injection E as <- <-. auto.
Qed.
Print Assumptions C67_left_operand_refuted.
(** For instance [x + y] doubles the count of [x] when [x] and [y] hold one sample each in the same bin. *)
Theorem C67_count_refuted : forall geo, exists a h r a',
  push geo (new_binning steps steps None) [0%Q] [0%Q] [Some 5%Q] true = Ok a /\ a_count (b_acc a 0 0) = 1 /\
  py_add add_in_place [a; a] 0%nat 1%nat = Ok (h, r) /\ nth_error h 0%nat = Some a' /\ a_count (b_acc a' 0 0) = 2.
Proof. intro geo. eexists. eexists. eexists. eexists. repeat (split; [vm_compute; reflexivity|]). vm_compute. reflexivity. Qed.
Print Assumptions C67_count_refuted.
