(** C129 Arrays of points interpolated by splines and bicubic functions. *)
From Verif Require Import Base BaseProofs AxisModel GridModel GridSpec ThreadModel ThreadProofs ThreadProps VectorProps Interp1dSpec InterpProps FrameModel FrameSpec FrameProofs FrameProofs6 FrameProps FrameProps2
  GridVecModel GridVecProps SplineArrayModel.
Open Scope Z_scope.
Ltac Zify.zify_post_hook ::= idtac.

Lemma skip_skip {P} : forall a b (l : list P), skipn b (skipn a l) = skipn (b + a) l.
Proof. induction a as [|a IH]; intros b l; [rewrite Nat.add_0_r; reflexivity|]. destruct l; [rewrite !skipn_nil; reflexivity|]. rewrite Nat.add_succ_r. cbn [skipn]. apply IH. Qed.
(** The ranges cut the points into consecutive parts. *)
Lemma parts_concat {P} (ps : list P) : forall l a, 0 <= a -> chained a (zlen ps) l -> concat (map (part ps) l) = skipn (Z.to_nat a) ps.
Proof.
  unfold zlen. induction l as [|[s e] t IH]; intros a Ha C; cbn [chained map concat] in *.
  - subst a. rewrite Nat2Z.id, skipn_all. reflexivity.
  - destruct C as (-> & L & C). rewrite (IH e) by (auto; lia). unfold part. cbn [fst snd].
    replace (Z.to_nat e) with (Z.to_nat (e - a) + Z.to_nat a)%nat by lia. rewrite <- skip_skip.
    apply firstn_skipn.
Qed.
Lemma split_points {P} (ps : list P) num hw : usual num hw ->
  exists l, dispatch_ranges (zlen ps) num hw = Ok l /\ concat (map (part ps) l) = ps.
Proof.
  intro U. destruct (dispatch_some (zlen ps) num hw U) as [l E]. exists l. split; [exact E|]. destruct U as [Hn Hh].
  rewrite (parts_concat ps l 0 ltac:(lia)); [reflexivity|]. apply (dispatch_ranges_ok (zlen ps) num hw l); auto; [unfold zlen|]; lia.
Qed.
Lemma F2_index {A B} (R : A -> B -> Prop) l m : Forall2 R l m <-> length l = length m /\ forall i a b, nth_error l i = Some a -> nth_error m i = Some b -> R a b.
Proof.
  split.
  - intro F. split; [exact (Forall2_length' F)|]. intros i a b. apply (Forall2_nth' F).
  - revert m. induction l as [|a l IH]; intros [|b m] [L H]; try discriminate L; [constructor|]. constructor; [apply (H 0%nat); reflexivity|].
    apply IH. split; [cbn in L; lia|]. intros i. apply (H (S i)).
Qed.
Lemma nth_combine {A B} (l : list A) (m : list B) i : nth_error (combine l m) i =
  match nth_error l i, nth_error m i with Some a, Some b => Some (a, b) | _, _ => None end.
Proof.
  revert m i. induction l as [|a l IH]; intros [|b m] [|i]; cbn; try reflexivity; [destruct (nth_error l i); reflexivity|apply IH].
Qed.
Lemma nth_at a i n : length (ar_data a) = n -> (i < n)%nat -> nth_error (ar_data a) i = Some (ar_at a (Z.of_nat i)).
Proof. intros L H. unfold ar_at. rewrite Nat2Z.id. apply nth_error_nth'. lia. Qed.
Lemma checked n l : Forall (vector n) l -> check_arrays l = Ok tt.
Proof.
  intro F. unfold check_arrays, check_array_ndim. replace (forallb _ l) with true.
  2:{ symmetry. apply forallb_forall. intros a I. rewrite Forall_forall in F. destruct (F a I) as [-> _]. reflexivity. }
  cbn [obind]. destruct F as [|a l [Sa _] F]; [reflexivity|]. cbn [check_ndarray_shape]. replace (forallb _ l) with true; [reflexivity|].
  symmetry. apply forallb_forall. intros b I. rewrite Forall_forall in F. destruct (F b I) as [Sb _]. rewrite Sa, Sb. cbn. rewrite Z.eqb_refl. reflexivity.
Qed.
Lemma shape_eqb_iff a b : shape_eqb a b = true <-> a = b.
Proof.
  revert b. induction a as [|n a IH]; intros [|m b]; cbn; try (split; congruence). rewrite andb_true_iff, IH, Z.eqb_eq.
  split; [intros [-> ->]; reflexivity|intro E; injection E; auto].
Qed.
Lemma mismatch_throws l : mismatched l -> exists w, check_arrays l = Throw w.
Proof.
  intro M. unfold check_arrays, check_array_ndim. destruct (forallb _ l) eqn:E; [|eexists; reflexivity]. cbn [obind].
  rewrite forallb_forall in E. destruct l as [|a l]; [destruct M as [(a & [] & _)|(a & b & [] & _)]|]. cbn [check_ndarray_shape].
  destruct (forallb _ l) eqn:E2; [|eexists; reflexivity]. exfalso. rewrite forallb_forall in E2.
  assert (All : forall b, In b (a :: l) -> ar_shape b = ar_shape a).
  { intros b [->|I]; [reflexivity|]. specialize (E2 b I). apply shape_eqb_iff in E2. congruence. }
  destruct M as [(b & I & H)|(b & c & Ib & Ic & H)].
  - specialize (E b I). apply Z.eqb_eq in E. unfold zlen in E. lia.
  - apply H. rewrite (All b Ib), (All c Ic). reflexivity.
Qed.

(** What is refused, before any point is looked at: whatever the points, even without points. *)
Lemma dispatch_nonempty size num hw l : usual num hw -> 0 <= size -> dispatch_ranges size num hw = Ok l -> l <> [].
Proof.
  intros [Hn Hh] Hs E N. subst l. destruct (C33_partition size num hw Hs Hn Hh) as (l & E' & L & _). assert (l = []) by congruence. subst l.
  cbn in L. destruct (num =? 0) eqn:Z0; [lia|]. apply Z.eqb_neq in Z0. lia.
Qed.
Theorem C129_refused : forall pk m x y z u nx ny fm s be num hw,
  (is_ascending (mesh_x m) = false \/ is_ascending (mesh_y m) = false \/ ~ In fm models \/ ~ In s boundaries \/
   (z = None /\ (forall g, m <> Mesh2 g)) \/ (u = None /\ exists g, m = Mesh4 g) \/
   mismatched (match m with Mesh2 _ => [x; y] | Mesh3 _ => x :: y :: match z with Some z => [z] | None => [] end
                          | Mesh4 _ => x :: y :: match z, u with Some z, Some u => [z; u] | _, _ => [] end end)) ->
  exists w, py_bicubic pk m x y z u nx ny fm s be num hw = Throw w.
Proof.
  intros pk m x y z u nx ny fm s be num hw H. unfold py_bicubic, py_checks.
  destruct (is_ascending (mesh_x m)) eqn:Ax; cbn [negb]; [|eexists; reflexivity].
  destruct (is_ascending (mesh_y m)) eqn:Ay; cbn [negb]; [|eexists; reflexivity].
  assert (K : forall t l, known t l = false \/ (known t l = true /\ In t l)).
  { intros t l. unfold known. destruct (existsb _ l) eqn:E; [right|left; reflexivity]. split; [reflexivity|]. apply existsb_exists in E as (t' & I & E). apply String.eqb_eq in E. subst. exact I. }
  destruct (K fm models) as [Kf|[Kf If]]; rewrite Kf; cbn [negb]; [eexists; reflexivity|].
  destruct (K s ["expand"; "wrap"; "sym"; "undef"]%string) as [Ks|[Ks Is]]; rewrite Ks; cbn [negb obind]; [eexists; reflexivity|].
  destruct H as [H|[H|[H|[H|[[-> H]|[[-> [g ->]]|H]]]]]].
  - discriminate.
  - discriminate.
  - contradiction.
  - exfalso. apply H. cbn in Is |- *. intuition.
  - destruct m as [g|g|g]; [specialize (H g); congruence|eexists; reflexivity|eexists; reflexivity].
  - destruct z; eexists; reflexivity.
  - destruct m as [g|g|g]; [|destruct z as [z|]; [|eexists; reflexivity]|destruct z as [z|]; [destruct u as [u|]; [|eexists; reflexivity]|eexists; reflexivity]];
      destruct (mismatch_throws _ H) as [w E]; exists w; unfold array2, array3, array4; rewrite E; reflexivity.
Qed.
Print Assumptions C129_refused.

Lemma in_models fm : In fm models -> In (String.eqb fm "bicubic", fm) kinds.
Proof. intro H. cbn in H. repeat (destruct H as [<-|H]; [cbn; tauto|]). destruct H. Qed.
Lemma checks_pass ax ay fm : is_ascending ax = true -> is_ascending ay = true -> In fm models -> py_checks ax ay fm "undef" = Ok tt.
Proof.
  intros A1 A2 I. unfold py_checks. rewrite A1, A2. cbn [negb]. replace (known fm models) with true; [reflexivity|].
  symmetry. unfold known. apply existsb_exists. exists fm. split; [exact I|apply String.eqb_refl].
Qed.

(** The answer for arrays: whatever the number of threads, the element i is what the interpolation of the
    point i alone gives; an exception for one of the points is an exception for the whole call. *)
Theorem C129_grid2 : forall pk g x y z u nx ny fm be num hw n l, all_cells pk -> In fm models -> usable_grid g -> (1 <= nx)%nat -> (1 <= ny)%nat -> no_overlap (g2_x g) nx ->
  (fm = "c_spline_periodic"%string -> (2 <= nx)%nat /\ (2 <= ny)%nat) -> is_ascending (g2_x g) = true -> is_ascending (g2_y g) = true ->
  vector n x -> vector n y -> usual num hw ->
  py_bicubic pk (Mesh2 g) x y z u nx ny fm "undef" be num hw = Ok l <->
  length l = n /\ forall i, (i < n)%nat -> exists v, nth_error l i = Some v /\
    at_point pk (String.eqb fm "bicubic", fm) g nx ny "undef" be (ar_at x (Z.of_nat i)) (ar_at y (Z.of_nat i)) = Ok [v].
Proof.
  intros pk g x y z u nx ny fm be num hw n l P K U Hx Hy O S A1 A2 Vx Vy Us. unfold py_bicubic. cbn [mesh_x mesh_y]. rewrite checks_pass by assumption. cbn [obind].
  unfold array2. rewrite (checked n) by auto. change (parse_boundary "undef") with (Ok kUndef). cbn [obind].
  assert (Lp : length (points2 x y) = n) by (unfold points2; rewrite combine_length; destruct Vx as [_ ->], Vy as [_ ->]; lia).
  destruct (split_points (points2 x y) num hw Us) as (rs & E & C). replace (ar_size x) with (zlen (points2 x y)) by (unfold ar_size, zlen; destruct Vx as [_ ->]; rewrite Lp; reflexivity).
  rewrite E. cbn [obind]. change (String.eqb fm "bicubic") with (fst (String.eqb fm "bicubic", fm)). change fm with (snd (String.eqb fm "bicubic", fm)) at 2.
  rewrite (C81_schedule pk (String.eqb fm "bicubic", fm) g nx ny be _ l P (in_models fm K) U Hx Hy O S), C, F2_index, Lp. cbn [fst snd].
  assert (N : forall i, (i < n)%nat -> nth_error (points2 x y) i = Some (ar_at x (Z.of_nat i), ar_at y (Z.of_nat i))).
  { intros i Hi. unfold points2. rewrite nth_combine, (nth_at x i n), (nth_at y i n); auto; [apply Vy|apply Vx]. }
  split; intros [L H]; (split; [auto|]).
  - intros i Hi. destruct (nth_error l i) as [v|] eqn:Ev; [|apply nth_error_None in Ev; lia]. exists v. split; [reflexivity|]. exact (H i _ v (N i Hi) Ev).
  - intros i p v Np Nv. assert (Hi : (i < n)%nat) by (rewrite <- Lp; apply nth_error_Some; congruence). destruct (H i Hi) as (v' & Nv' & Ev). rewrite (N i Hi) in Np. injection Np as <-. cbn [fst snd]. congruence.
Qed.
Print Assumptions C129_grid2.
Theorem C129_grid3 : forall pk g x y z u nx ny fm be num hw n l, all_cells pk -> In fm models -> usable_grid3 g -> (1 <= nx)%nat -> (1 <= ny)%nat -> no_overlap (g3_x g) nx ->
  (fm = "c_spline_periodic"%string -> (2 <= nx)%nat /\ (2 <= ny)%nat) -> is_ascending (g3_x g) = true -> is_ascending (g3_y g) = true ->
  vector n x -> vector n y -> vector n z -> (forall i, (i < n)%nat -> z_coordinate (g3_z g) (ar_at z (Z.of_nat i))) -> usual num hw ->
  py_bicubic pk (Mesh3 g) x y (Some z) u nx ny fm "undef" be num hw = Ok l <->
  length l = n /\ forall i, (i < n)%nat -> exists v, nth_error l i = Some v /\
    at_point3 pk (String.eqb fm "bicubic", fm) g nx ny "undef" be (ar_at x (Z.of_nat i)) (ar_at y (Z.of_nat i)) (ar_at z (Z.of_nat i)) = Ok [v].
Proof.
  intros pk g x y z u nx ny fm be num hw n l P K U Hx Hy O S A1 A2 Vx Vy Vz Cz Us. unfold py_bicubic. cbn [mesh_x mesh_y]. rewrite checks_pass by assumption. cbn [obind].
  unfold array3. rewrite (checked n) by auto. change (parse_boundary "undef") with (Ok kUndef). cbn [obind].
  assert (Lp : length (points3 x y z) = n) by (unfold points3, points2; rewrite !combine_length; destruct Vx as [_ ->], Vy as [_ ->], Vz as [_ ->]; lia).
  assert (N : forall i, (i < n)%nat -> nth_error (points3 x y z) i = Some (ar_at x (Z.of_nat i), ar_at y (Z.of_nat i), ar_at z (Z.of_nat i))).
  { intros i Hi. unfold points3, points2. rewrite !nth_combine, (nth_at x i n), (nth_at y i n), (nth_at z i n); auto; [apply Vz|apply Vy|apply Vx]. }
  destruct (split_points (points3 x y z) num hw Us) as (rs & E & C). replace (ar_size x) with (zlen (points3 x y z)) by (unfold ar_size, zlen; destruct Vx as [_ ->]; rewrite Lp; reflexivity).
  rewrite E. cbn [obind]. change (String.eqb fm "bicubic") with (fst (String.eqb fm "bicubic", fm)). change fm with (snd (String.eqb fm "bicubic", fm)) at 2.
  rewrite (C84_schedule pk (String.eqb fm "bicubic", fm) g nx ny be _ l P (in_models fm K) U Hx Hy O S), C, F2_index, Lp; cbn [fst snd].
  2:{ rewrite C. intros x0 y0 z0 I. apply In_nth_error in I as [i Ni]. assert (Hi : (i < n)%nat) by (rewrite <- Lp; apply nth_error_Some; congruence).
      rewrite (N i Hi) in Ni. injection Ni as _ _ <-. apply Cz. exact Hi. }
  split; intros [L H]; (split; [auto|]).
  - intros i Hi. destruct (nth_error l i) as [v|] eqn:Ev; [|apply nth_error_None in Ev; lia]. exists v. split; [reflexivity|]. exact (H i _ v (N i Hi) Ev).
  - intros i p v Np Nv. assert (Hi : (i < n)%nat) by (rewrite <- Lp; apply nth_error_Some; congruence). destruct (H i Hi) as (v' & Nv' & Ev). rewrite (N i Hi) in Np. injection Np as <-. cbn [fst snd]. congruence.
Qed.
Print Assumptions C129_grid3.
Theorem C129_grid4 : forall pk g x y z u nx ny fm be num hw n l, all_cells pk -> In fm models -> usable_grid4 g -> (1 <= nx)%nat -> (1 <= ny)%nat -> no_overlap (g4_x g) nx ->
  (fm = "c_spline_periodic"%string -> (2 <= nx)%nat /\ (2 <= ny)%nat) -> is_ascending (g4_x g) = true -> is_ascending (g4_y g) = true ->
  vector n x -> vector n y -> vector n z -> vector n u -> (forall i, (i < n)%nat -> z_coordinate (g4_z g) (ar_at z (Z.of_nat i))) -> usual num hw ->
  py_bicubic pk (Mesh4 g) x y (Some z) (Some u) nx ny fm "undef" be num hw = Ok l <->
  length l = n /\ forall i, (i < n)%nat -> exists v, nth_error l i = Some v /\
    at_point4 pk (String.eqb fm "bicubic", fm) g nx ny "undef" be (ar_at x (Z.of_nat i)) (ar_at y (Z.of_nat i)) (ar_at z (Z.of_nat i)) (ar_at u (Z.of_nat i)) = Ok [v].
Proof.
  intros pk g x y z u nx ny fm be num hw n l P K U Hx Hy O S A1 A2 Vx Vy Vz Vu Cz Us. unfold py_bicubic. cbn [mesh_x mesh_y]. rewrite checks_pass by assumption. cbn [obind].
  unfold array4. rewrite (checked n) by auto. change (parse_boundary "undef") with (Ok kUndef). cbn [obind].
  assert (Lp : length (points4 x y z u) = n) by (unfold points4, points3, points2; rewrite !combine_length; destruct Vx as [_ ->], Vy as [_ ->], Vz as [_ ->], Vu as [_ ->]; lia).
  assert (N : forall i, (i < n)%nat -> nth_error (points4 x y z u) i = Some (ar_at x (Z.of_nat i), ar_at y (Z.of_nat i), ar_at z (Z.of_nat i), ar_at u (Z.of_nat i))).
  { intros i Hi. unfold points4, points3, points2. rewrite !nth_combine, (nth_at x i n), (nth_at y i n), (nth_at z i n), (nth_at u i n); auto; [apply Vu|apply Vz|apply Vy|apply Vx]. }
  destruct (split_points (points4 x y z u) num hw Us) as (rs & E & C). replace (ar_size x) with (zlen (points4 x y z u)) by (unfold ar_size, zlen; destruct Vx as [_ ->]; rewrite Lp; reflexivity).
  rewrite E. cbn [obind]. change (String.eqb fm "bicubic") with (fst (String.eqb fm "bicubic", fm)). change fm with (snd (String.eqb fm "bicubic", fm)) at 2.
  rewrite (C84_hyper_schedule pk (String.eqb fm "bicubic", fm) g nx ny be _ l P (in_models fm K) U Hx Hy O S), C, F2_index, Lp; cbn [fst snd].
  2:{ rewrite C. intros x0 y0 z0 u0 I. apply In_nth_error in I as [i Ni]. assert (Hi : (i < n)%nat) by (rewrite <- Lp; apply nth_error_Some; congruence).
      rewrite (N i Hi) in Ni. injection Ni as _ _ <- _. apply Cz. exact Hi. }
  split; intros [L H]; (split; [auto|]).
  - intros i Hi. destruct (nth_error l i) as [v|] eqn:Ev; [|apply nth_error_None in Ev; lia]. exists v. split; [reflexivity|]. exact (H i _ v (N i Hi) Ev).
  - intros i p v Np Nv. assert (Hi : (i < n)%nat) by (rewrite <- Lp; apply nth_error_Some; congruence). destruct (H i Hi) as (v' & Nv' & Ev). rewrite (N i Hi) in Np. injection Np as <-. congruence.
Qed.
Print Assumptions C129_grid4.
(** Hence the number of threads and the machine do not matter. *)
Theorem C129_threads : forall pk nx ny fm be num hw num' hw' n x y l, all_cells pk -> In fm models -> (1 <= nx)%nat -> (1 <= ny)%nat ->
  (fm = "c_spline_periodic"%string -> (2 <= nx)%nat /\ (2 <= ny)%nat) -> usual num hw -> usual num' hw' -> vector n x -> vector n y ->
  (forall g z u, usable_grid g -> no_overlap (g2_x g) nx -> is_ascending (g2_x g) = true -> is_ascending (g2_y g) = true ->
    py_bicubic pk (Mesh2 g) x y z u nx ny fm "undef" be num hw = Ok l -> py_bicubic pk (Mesh2 g) x y z u nx ny fm "undef" be num' hw' = Ok l) /\
  (forall g z u, usable_grid3 g -> no_overlap (g3_x g) nx -> is_ascending (g3_x g) = true -> is_ascending (g3_y g) = true -> vector n z ->
    (forall i, (i < n)%nat -> z_coordinate (g3_z g) (ar_at z (Z.of_nat i))) ->
    py_bicubic pk (Mesh3 g) x y (Some z) u nx ny fm "undef" be num hw = Ok l -> py_bicubic pk (Mesh3 g) x y (Some z) u nx ny fm "undef" be num' hw' = Ok l) /\
  (forall g z u, usable_grid4 g -> no_overlap (g4_x g) nx -> is_ascending (g4_x g) = true -> is_ascending (g4_y g) = true -> vector n z -> vector n u ->
    (forall i, (i < n)%nat -> z_coordinate (g4_z g) (ar_at z (Z.of_nat i))) ->
    py_bicubic pk (Mesh4 g) x y (Some z) (Some u) nx ny fm "undef" be num hw = Ok l -> py_bicubic pk (Mesh4 g) x y (Some z) (Some u) nx ny fm "undef" be num' hw' = Ok l).
Proof.
  intros pk nx ny fm be num hw num' hw' n x y l P K Hx Hy S U U' Vx Vy. split; [|split].
  - intros g z u G O A1 A2. rewrite (C129_grid2 pk g x y z u nx ny fm be num hw n l), (C129_grid2 pk g x y z u nx ny fm be num' hw' n l) by assumption. auto.
  - intros g z u G O A1 A2 Vz Cz. rewrite (C129_grid3 pk g x y z u nx ny fm be num hw n l), (C129_grid3 pk g x y z u nx ny fm be num' hw' n l) by assumption. auto.
  - intros g z u G O A1 A2 Vz Vu Cz. rewrite (C129_grid4 pk g x y z u nx ny fm be num hw n l), (C129_grid4 pk g x y z u nx ny fm be num' hw' n l) by assumption. auto.
Qed.
Print Assumptions C129_threads.
(** Instance: two points of the grid of C80_C82_ex by two threads, and a model that does not exist. *)
Example C129_ex : let x := Array [2] [3 # 2; 1 # 2]%Q in let y := Array [2] [1; 1]%Q in
  vector 2 x /\ vector 2 y /\ usable_grid (Grid2 ax4' ax4' squares) /\ is_ascending ax4' = true /\ usual 2 8 /\
  (exists v, py_bicubic whole (Mesh2 (Grid2 ax4' ax4' squares)) x y None None 2 2 "steffen" "undef" false 2 8 = Ok [Some v; None] /\ Qred v = (49 # 4)%Q) /\
  exists w, py_bicubic whole (Mesh2 (Grid2 ax4' ax4' squares)) x y None None 2 2 "bilinear" "undef" false 2 8 = Throw w.
Proof.
  cbv zeta. split; [split; reflexivity|]. split; [split; reflexivity|]. split; [apply squares_usable|]. split; [reflexivity|]. split; [split; lia|].
  split; [vm_compute; eexists; split; reflexivity|eexists; reflexivity].
Qed.
