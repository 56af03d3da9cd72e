(** Theorems about the radial basis functions (C99). *)
From Coq Require Import Reals Lra Lia Permutation.
From Verif Require Import Base WindowModel WindowProofs RTreeModel RTreeSpec RTreeProofs RbfModel RbfSpec
  QuadForm KernelProofs KernelProofs2 KernelProofs3 LinSolve RbfProofs.
Open Scope R_scope.

(** Both contracts are met. *)
Theorem C99_contracts_ex : knn_contract brute /\ lu_contract gauss_solve.
Proof. split; [apply brute_contract|apply gauss_lu]. Qed.

(** The functions whose systems are always regular; the parameters they need. *)
Definition well_posed (f : radial) (epsilon : option R) (n : nat) : Prop :=
  match f with
  | RGaussian | InverseMultiquadric | Multiquadric =>
      match epsilon with Some e => e <> 0 | None => (2 <= n)%nat end
  | RLinear => (2 <= n)%nat
  | Cubic | ThinPlate => False
  end.

Lemma well_posed_scale : forall f eps xk, NoDup xk -> well_posed f eps (length xk) ->
  exists e, e <> 0 /\ regular f (length xk) /\
    (adjustable f = true -> scale eps (distance_matrix point dist xk xk) = Some e) /\
    (adjustable f = false -> e = 1).
Proof.
  intros f eps xk ND W.
  destruct f; cbn [well_posed] in W; try contradiction;
    try (destruct (scale_regular eps xk ND W) as (e & E & Ne); exists e; repeat split; auto; discriminate).
  exists 1. repeat split; auto; try lra; try discriminate.
Qed.

(** The weights. *)
Lemma weights : forall solve f e xk yk, lu_contract solve -> NoDup xk -> regular f (length xk) -> e <> 0 ->
  length yk = length xk ->
  let w := solve (system point dist f e 0 xk) yk in
  length w = length xk /\ solution (length xk) (system point dist f e 0 xk) yk w /\
  forall w', solution (length xk) (system point dist f e 0 xk) yk w' -> w' = w.
Proof.
  intros solve f e xk yk LU ND Rg He Ly w.
  pose proof (system_square point dist f e 0 xk) as SQ.
  pose proof (system_nonsingular f e xk ND Rg He) as NS.
  destruct (LU _ _ yk SQ Ly) as (L & S1 & _).
  assert (SW : solution (length xk) (system point dist f e 0 xk) yk w) by (apply S1, nonsingular_solvable; assumption).
  split; [exact L|]. split; [exact SW|]. intros w' [L' H']. apply NS; auto.
  intros i Hi. rewrite H' by exact Hi. symmetry. apply SW, Hi.
Qed.

Lemma combine_map_both : forall {A B} (f g : A -> B) l, combine (map f l) (map g l) = map (fun x => (f x, g x)) l.
Proof. intros A B f g l. induction l; cbn; congruence. Qed.
Lemma total_perm : forall l m, Permutation l m -> total l = total m.
Proof. intros l m H. unfold total. induction H; cbn; try lra. Qed.
Lemma pairs_perm : forall l m, Permutation l m -> total (pair_distances dist l) = total (pair_distances dist m).
Proof.
  intros l m H. induction H as [|x l m H IH|x y l|l m o H1 IH1 H2 IH2]; cbn [pair_distances map app].
  - reflexivity.
  - rewrite !total_app, IH. f_equal. apply total_perm, Permutation_map, H.
  - assert (C : forall a t, total (a :: t) = a + total t) by reflexivity.
    rewrite !C, !total_app, (dist_sym y x). lra.
  - congruence.
Qed.
Lemma average_perm : forall xk xk', Permutation xk xk' ->
  average (distance_matrix point dist xk xk) = average (distance_matrix point dist xk' xk').
Proof.
  intros xk xk' H. rewrite !(average_pairs point dist (0, 0, 0)), (pairs_perm _ _ H), !pair_count, (Permutation_length H). reflexivity.
Qed.

(** ** The interpolant takes the given values at the nodes. *)
Theorem C99_interpolation : forall solve f eps xk yk, lu_contract solve -> NoDup xk -> length yk = length xk ->
  well_posed f eps (length xk) ->
  interpolate point dist solve f eps 0 xk yk xk = Some yk.
Proof.
  intros solve f eps xk yk LU ND Ly W.
  destruct (well_posed_scale f eps xk ND W) as (e & He & Rg & H1 & H2).
  destruct (weights solve f e xk yk LU ND Rg He Ly) as (L & S1 & _).
  rewrite (interpolate_eq _ _ _ _ _ _ _ _ _ e H1 H2 L). f_equal.
  rewrite solution_blend with (d0 := (0, 0, 0)) in S1 by exact L.
  apply list_eq_nth; [rewrite map_length; auto|]. rewrite map_length. intros i Hi.
  rewrite (nth_map_lt _ _ i (0, 0, 0)) by exact Hi. apply S1, Hi.
Qed.

Lemma dist_zero : forall p q, dist p q <= 0 -> p = q.
Proof.
  intros p q H. rewrite dist_sqd in H. destruct (sqd_nonneg p q) as [L|E]; [apply sqrt_lt_R0 in L; lra|].
  apply sqd_zero. auto.
Qed.

Lemma NoDup_left : forall {A} (a b : list A), NoDup (a ++ b) -> NoDup a.
Proof.
  intros A a b H. induction a as [|x a IH]; [constructor|]. cbn in H. apply NoDup_cons_iff in H. destruct H as [Ha Hb].
  constructor; [|apply IH; assumption]. intros Hx. apply Ha, in_or_app. left. exact Hx.
Qed.
Lemma nearest_self : forall knn t q v radius k within, knn_contract knn -> NoDup (map fst t) -> In (q, v) t ->
  (1 <= k)%nat -> in_radius radius 0 ->
  let n := nearest knn t q radius k within in
  NoDup (map fst n) /\ In (q, v) n /\ incl n t.
Proof.
  intros knn t q v radius k within K ND I Hk Rd n.
  destruct (K t q k) as (L & _ & others & Pm & Far).
  assert (NDc : NoDup (map fst (knn t q k))).
  { apply (Permutation_map fst) in Pm. rewrite map_app in Pm. apply (Permutation_NoDup Pm) in ND.
    exact (NoDup_left _ _ ND). }
  assert (Ic : In (q, v) (knn t q k)).
  { pose proof (Permutation_in _ Pm I) as J. apply in_app_or in J. destruct J as [J|J]; [exact J|].
    assert (Lt : (1 <= length t)%nat) by (destruct t; [contradiction|cbn; lia]).
    destruct (knn t q k) as [|i c] eqn:Ec; [unfold item in *; cbn in L; lia|].
    assert (D : dist q (fst i) <= 0).
    { specialize (Far i (q, v) (or_introl eq_refl) J). cbn [fst] in Far. rewrite dist_same in Far. exact Far. }
    apply dist_zero in D. exfalso.
    apply (Permutation_map fst) in Pm. apply (Permutation_NoDup Pm) in ND. cbn in ND. apply NoDup_cons_iff in ND.
    destruct ND as [Ha _]. apply Ha. rewrite map_app. apply in_or_app. right. rewrite <- D.
    change q with (fst (q, v)). apply in_map, J. }
  set (g := filter (fun i => within_radius radius (dist q (fst i))) (knn t q k)).
  assert (Ig : In (q, v) g).
  { apply filter_In. split; [exact Ic|]. cbn [fst]. rewrite dist_same. apply within_radius_spec, Rd. }
  assert (Cv : covered (map fst g) q = true).
  { apply covered_spec. intros f _. exists q, q. repeat split; try lra; change q with (fst (q, v)) at 1; apply in_map, Ig. }
  assert (En : n = g).
  { unfold n, nearest. fold g. rewrite Cv. destruct within; reflexivity. }
  rewrite En. split; [|split; [exact Ig|]].
  - unfold g. revert NDc. generalize (knn t q k). intros l H. induction l as [|x l IH]; cbn; [constructor|].
    cbn in H. apply NoDup_cons_iff in H. destruct H as [Ha Hb].
    destruct (within_radius radius (dist q (fst x))); [|apply IH; assumption].
    cbn. constructor; [|apply IH; assumption]. intros J. apply Ha. apply in_map_iff in J. destruct J as (y & <- & J).
    apply filter_In in J. apply in_map, J.
  - intros x J. apply filter_In in J. apply (Permutation_in x (Permutation_sym Pm)). apply in_or_app. left. apply J.
Qed.

Theorem C99_nodes : forall knn solve t q v f eps radius k within, knn_contract knn -> lu_contract solve ->
  NoDup (map fst t) -> In (q, v) t -> (1 <= k)%nat -> in_radius radius 0 ->
  let result := rbf_query knn solve t q f eps 0 radius k within in
  (1 <= snd result)%Z /\
  (well_posed f eps (Z.to_nat (snd result)) -> fst result = Some v).
Proof.
  intros knn solve t q v f eps radius k within K LU ND I Hk Rd result.
  destruct (nearest_self knn t q v radius k within K ND I Hk Rd) as (NDn & In' & _).
  unfold rbf_query in result. set (n := nearest knn t q radius k within) in *.
  assert (Er : result = (match interpolate point dist solve f eps 0 (map fst n) (map snd n) [q] with
                         | Some (v :: _) => Some v | _ => None end, zlen n)).
  { unfold result. destruct n; [contradiction|reflexivity]. }
  rewrite Er. clearbody result n. unfold item in *. cbn [fst snd]. split; [unfold zlen; destruct n; [contradiction|cbn [length]; lia]|].
  unfold zlen. rewrite Nat2Z.id. intros W.
  replace (length n) with (length (map fst n)) in W by apply map_length.
  assert (Ly : length (map snd n) = length (map fst n)) by (rewrite !map_length; reflexivity).
  pose proof (C99_interpolation solve f eps (map fst n) (map snd n) LU NDn Ly W) as E.
  destruct (In_nth n (q, v) (q, v) In') as (i & Hi & Ei).
  destruct (well_posed_scale f eps (map fst n) NDn W) as (e & He & Rg & H1 & H2).
  destruct (weights solve f e (map fst n) (map snd n) LU NDn Rg He Ly) as (L & _ & _).
  rewrite (interpolate_eq _ _ _ _ _ _ _ _ _ e H1 H2 L) in E. rewrite (interpolate_eq _ _ _ _ _ _ _ _ _ e H1 H2 L). cbn [map]. f_equal.
  injection E as E. apply (f_equal (fun l => nth i l 0)) in E.
  rewrite (nth_map_lt _ _ i (fst (q, v))) in E by (rewrite map_length; exact Hi).
  rewrite (nth_map_lt _ _ i (q, v)) in E by exact Hi.
  rewrite (nth_map_lt _ n i (q, v) 0) in E by exact Hi. rewrite !Ei in E. exact E.
Qed.
Example C99_nodes_ex : let t := [((0, 0, 0), 5); ((1, 0, 0), 7); ((0, 2, 0), -3)] in
  NoDup (map fst t) /\ In ((1, 0, 0), 7) t /\ in_radius None 0 /\ well_posed Multiquadric None 3 /\ well_posed RLinear None 2.
Proof.
  cbn. repeat split; try (intros ? [=]); try lia; auto.
  repeat constructor; cbn; intros H; repeat destruct H as [H|H]; try contradiction; injection H; lra.
Qed.

(** ** Superposition: the interpolant is a linear function of the values. *)
Definition combination (a b : R) (y z : list R) : list R := map (fun yz => a * fst yz + b * snd yz) (combine y z).
Lemma dotl_combination : forall a b r y z, length y = length r -> length z = length r ->
  dotl r (combination a b y z) = a * dotl r y + b * dotl r z.
Proof.
  intros a b r. induction r as [|c r IH]; intros [|u y] [|v z] Hy Hz; cbn in *; try lia; try lra.
  fold (combination a b y z). rewrite IH by lia. lra.
Qed.
Lemma combination_length : forall a b y z, length y = length z -> length (combination a b y z) = length z.
Proof. intros. unfold combination. rewrite map_length, combine_length. lia. Qed.
Lemma combination_nth : forall a b y z i, length y = length z ->
  nth i (combination a b y z) 0 = a * nth i y 0 + b * nth i z 0.
Proof.
  intros a b y. induction y as [|u y IH]; intros [|v z] i H; cbn in *; try lia; destruct i; cbn; try lra.
  apply IH. lia.
Qed.
Theorem C99_superposition : forall solve f eps xk y z xi a b, lu_contract solve -> NoDup xk ->
  length y = length xk -> length z = length xk -> well_posed f eps (length xk) ->
  exists u v, interpolate point dist solve f eps 0 xk y xi = Some u /\
    interpolate point dist solve f eps 0 xk z xi = Some v /\
    interpolate point dist solve f eps 0 xk (combination a b y z) xi = Some (combination a b u v).
Proof.
  intros solve f eps xk y z xi a b LU ND Ly Lz W.
  destruct (well_posed_scale f eps xk ND W) as (e & He & Rg & H1 & H2).
  assert (Lc : length (combination a b y z) = length xk) by (rewrite combination_length; lia).
  destruct (weights solve f e xk y LU ND Rg He Ly) as (L1 & S1 & _).
  destruct (weights solve f e xk z LU ND Rg He Lz) as (L2 & S2 & _).
  destruct (weights solve f e xk _ LU ND Rg He Lc) as (L3 & _ & U).
  rewrite (interpolate_eq _ _ _ _ _ _ _ y _ e H1 H2 L1), (interpolate_eq _ _ _ _ _ _ _ z _ e H1 H2 L2),
    (interpolate_eq _ _ _ _ _ _ _ (combination a b y z) _ e H1 H2 L3).
  eexists. eexists. split; [reflexivity|]. split; [reflexivity|]. f_equal.
  set (w1 := solve _ y) in *. set (w2 := solve _ z) in *.
  rewrite <- (U (combination a b w1 w2)).
  - unfold combination at 2. rewrite combine_map_both. rewrite map_map. apply map_ext. intros q. cbn [fst snd].
    rewrite <- !blend_dotl by (try rewrite combination_length; lia).
    apply dotl_combination; rewrite map_length; assumption.
  - destruct S1 as [_ S1], S2 as [_ S2]. split; [rewrite combination_length; lia|]. intros i Hi.
    rewrite combination_nth by lia. rewrite <- (S1 i Hi), <- (S2 i Hi). apply dotl_combination.
    + rewrite (square_row (length xk)); [exact L1|apply system_square|exact Hi].
    + rewrite (square_row (length xk)); [exact L2|apply system_square|exact Hi].
Qed.

(** ** The order of the nodes does not matter. *)
Theorem C99_order : forall solve f eps xk yk xk' yk' xi, lu_contract solve -> NoDup xk ->
  length yk = length xk -> length yk' = length xk' -> Permutation (combine xk yk) (combine xk' yk') ->
  well_posed f eps (length xk) ->
  interpolate point dist solve f eps 0 xk yk xi = interpolate point dist solve f eps 0 xk' yk' xi.
Proof.
  intros solve f eps xk yk xk' yk' xi LU ND Ly Ly' Pm W.
  assert (F : forall (a : list point) (b : list R), length b = length a -> map fst (combine a b) = a).
  { induction a as [|x a IH]; intros [|u b] H; cbn in *; try lia; [reflexivity|]. rewrite IH by lia. reflexivity. }
  assert (Px : Permutation xk xk').
  { rewrite <- (F xk yk Ly), <- (F xk' yk' Ly'). apply Permutation_map, Pm. }
  pose proof (Permutation_NoDup Px ND) as ND'. pose proof (Permutation_length Px) as Lx.
  assert (W' : well_posed f eps (length xk')) by (rewrite <- Lx; exact W).
  destruct (well_posed_scale f eps xk ND W) as (e & He & Rg & H1 & H2).
  destruct (well_posed_scale f eps xk' ND' W') as (e' & He' & Rg' & H1' & H2').
  assert (Ee : e' = e).
  { destruct (adjustable f); [|rewrite H2, H2' by reflexivity; reflexivity].
    specialize (H1 eq_refl). specialize (H1' eq_refl). destruct eps as [ep|]; cbn [scale] in H1, H1'; [congruence|].
    rewrite (average_perm xk xk') in H1 by exact Px. congruence. }
  subst e'.
  destruct (weights solve f e xk yk LU ND Rg He Ly) as (L & S1 & _).
  destruct (weights solve f e xk' yk' LU ND' Rg' He Ly') as (L' & _ & U').
  rewrite (interpolate_eq _ _ _ _ _ _ _ _ _ e H1 H2 L), (interpolate_eq _ _ _ _ _ _ _ _ _ e H1' H2' L').
  set (w := solve (system point dist f e 0 xk) yk) in *. f_equal. apply map_ext. intros q.
  assert (Ex : exists w', length w' = length xk' /\ Permutation (combine (combine xk yk) w) (combine (combine xk' yk') w')).
  { assert (E : combine xk yk = map fst (combine (combine xk yk) w)).
    { symmetry. assert (G : forall (a : list (point * R)) (b : list R), length b = length a -> map fst (combine a b) = a).
      { induction a as [|x a IH]; intros [|u b] H; cbn in *; try lia; [reflexivity|]. rewrite IH by lia. reflexivity. }
      apply G. rewrite combine_length. lia. }
    rewrite E in Pm. apply Permutation_sym, Permutation_map_inv in Pm. destruct Pm as (l3 & E3 & P3).
    exists (map snd l3). split.
    - rewrite map_length. apply Permutation_length in P3. rewrite !combine_length in P3. lia.
    - rewrite E3. replace (combine (map fst l3) (map snd l3)) with l3; [exact P3|].
      clear. induction l3 as [|[a b] l IH]; cbn; congruence. }
  destruct Ex as (w' & Lw' & Pw).
  assert (T : forall (a : list point) (b c : list R), length b = length a -> length c = length a ->
    map (fun t => (fst (fst t), snd t)) (combine (combine a b) c) = combine a c).
  { clear. induction a as [|x a IH]; intros [|u b] [|v c] H H'; cbn in *; try lia; [reflexivity|]. rewrite IH by lia. reflexivity. }
  assert (Pc : Permutation (combine xk w) (combine xk' w')).
  { rewrite <- (T xk yk w), <- (T xk' yk' w') by lia. apply Permutation_map, Pw. }
  rewrite (blend_perm _ _ _ _ _ _ q Pc). f_equal. f_equal. apply U'.
  apply (solution_blend point dist (0, 0, 0) f e xk' yk' w' Lw').
  rewrite (solution_blend point dist (0, 0, 0)) in S1 by exact L.
  assert (All : Forall (fun t => blend dist f e (combine xk w) (fst (fst t)) = snd (fst t)) (combine (combine xk yk) w)).
  { apply Forall_forall. intros [[x y] u] H. apply in_combine_l in H.
    destruct (In_nth _ _ ((0, 0, 0), 0) H) as (i & Hi & Ei). rewrite combine_length in Hi.
    pose proof (eq_trans (eq_sym (combine_nth xk yk i (0, 0, 0) 0 (eq_sym Ly))) Ei) as Ep. injection Ep as <- <-. cbn [fst snd]. apply S1. lia. }
  apply (Permutation_Forall Pw) in All. intros i Hi. rewrite Forall_forall in All.
  assert (Hn : In (nth i xk' (0, 0, 0), nth i yk' 0, nth i w' 0) (combine (combine xk' yk') w')).
  { replace (nth i xk' (0, 0, 0), nth i yk' 0, nth i w' 0) with (nth i (combine (combine xk' yk') w') ((0, 0, 0), 0, 0)).
    - apply nth_In. rewrite !combine_length. lia.
    - etransitivity; [apply (combine_nth (combine xk' yk') w' i ((0, 0, 0), 0) 0); rewrite combine_length; lia|].
      f_equal. apply (combine_nth xk' yk' i (0, 0, 0) 0). symmetry. exact Ly'. }
  specialize (All _ Hn). cbn [fst snd] in All. rewrite <- (blend_perm _ _ _ _ _ _ _ Pc). exact All.
Qed.

(** ** Only the distances matter: translations, rotations and symmetries change nothing, whatever the
    function, the smoothing and the solver. *)
Theorem C99_isometry : forall P P' (distance : P -> P -> R) (distance' : P' -> P' -> R) (move : P -> P')
    solve f eps smooth xk yk xi,
  (forall p q, distance' (move p) (move q) = distance p q) ->
  interpolate P' distance' solve f eps smooth (map move xk) yk (map move xi) =
  interpolate P distance solve f eps smooth xk yk xi.
Proof.
  intros P P' distance distance' move solve f eps smooth xk yk xi H.
  assert (D : forall l m, distance_matrix P' distance' (map move l) (map move m) = distance_matrix P distance l m).
  { intros l m. unfold distance_matrix. rewrite map_map. apply map_ext. intros q. rewrite map_map. apply map_ext. intros c. apply H. }
  unfold interpolate, system. rewrite !D. reflexivity.
Qed.
Example C99_isometry_ex : forall p q : point,
  dist (1 + py p, 2 - px p, pz p) (1 + py q, 2 - px q, pz q) = dist p q.
Proof. intros p q. unfold dist. f_equal. cbn [px py pz fst snd]. unfold px, py, pz. cbn [fst snd]. ring. Qed.

(** ** The default scale is the mean of the distances of all the pairs of nodes. *)
Theorem C99_default_epsilon : forall solve f smooth xk yk xi, NoDup xk -> (2 <= length xk)%nat ->
  exists m, m * INR (length (pair_distances dist xk)) = total (pair_distances dist xk) /\ 0 < m /\
  interpolate point dist solve f None smooth xk yk xi = interpolate point dist solve f (Some m) smooth xk yk xi.
Proof.
  intros solve f smooth xk yk xi ND L2.
  set (l := pair_distances dist xk).
  assert (Ne : l <> []) by (unfold l; destruct xk as [|p [|q t]]; cbn in *; try lia; discriminate).
  assert (Pl : 0 < INR (length l)) by (destruct l; [contradiction|apply lt_0_INR; cbn; lia]).
  assert (Pt : 0 < total l) by (apply total_pos; [exact Ne|apply pairs_pos, ND]).
  exists (total l / INR (length l)). split; [field; lra|]. split; [apply Rdiv_lt_0_compat; assumption|].
  unfold interpolate. cbn [scale]. rewrite (average_pairs point dist (0, 0, 0)). fold l.
  rewrite rdiv_some by lra. reflexivity.
Qed.
