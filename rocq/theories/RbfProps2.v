(** Theorems about the radial basis functions (C99): the functions themselves and the cases in
    which the interpolation fails. *)
From Coq Require Import Reals Lra Lia Permutation.
From Verif Require Import Base WindowModel WindowProofs RTreeModel RTreeSpec RTreeProofs RbfModel RbfSpec
  QuadForm KernelProofs LinSolve RbfProofs RbfProps.
Open Scope R_scope.

(** ** The functions *)
Lemma multiquadric_sq : forall r e, multiquadric r e * multiquadric r e = (e * r) * (e * r) + 1 /\ 1 <= multiquadric r e.
Proof.
  intros r e. unfold multiquadric.
  assert (H : 0 <= (e * r) ^ 2) by apply pow2_ge_0.
  split; [rewrite sqrt_sqrt by lra; ring|]. rewrite <- sqrt_1 at 1. apply sqrt_le_1; lra.
Qed.
Theorem C99_functions : forall e r, 0 <= r ->
  1 <= phi Multiquadric e r /\ phi Multiquadric e r * phi Multiquadric e r = 1 + (e * r) * (e * r) /\
  0 < phi InverseMultiquadric e r <= 1 /\ phi InverseMultiquadric e r * phi Multiquadric e r = 1 /\
  phi RGaussian e r = exp (- ((e * r) * (e * r))) /\ 0 < phi RGaussian e r <= 1 /\
  phi RLinear e r = r /\ phi Cubic e r = r * r * r /\
  (0 < r -> phi ThinPlate e r = r * r * ln r) /\ phi ThinPlate e 0 = 0.
Proof.
  intros e r Hr. destruct (multiquadric_sq r e) as [M1 M2].
  assert (S : 0 <= (e * r) * (e * r)) by nra.
  assert (EG : rgaussian r e = exp (- ((e * r) * (e * r)))) by (unfold rgaussian; f_equal; ring).
  cbn [phi]. repeat split.
  - exact M2.
  - lra.
  - unfold inverse_multiquadric. apply Rdiv_lt_0_compat; lra.
  - unfold inverse_multiquadric. apply (Rmult_le_reg_r (multiquadric r e)); [lra|].
    unfold Rdiv. rewrite Rmult_assoc, Rinv_l by lra. lra.
  - unfold inverse_multiquadric. field. lra.
  - exact EG.
  - rewrite EG. apply exp_pos.
  - rewrite EG, <- exp_0. destruct S as [S|S]; [left; apply exp_increasing; lra|right; f_equal; lra].
  - ring.
  - intros P. unfold thin_plate. assert (E : Reqb r 0 = false) by (apply Reqb_false; lra). rewrite E. ring.
  - unfold thin_plate. assert (E : Reqb 0 0 = true) by (apply Reqb_true; reflexivity). rewrite E. reflexivity.
Qed.
(** The two decreasing functions and the two increasing ones. *)
Theorem C99_monotone : forall e r s, e <> 0 -> 0 <= r < s ->
  phi RGaussian e s < phi RGaussian e r /\ phi InverseMultiquadric e s < phi InverseMultiquadric e r /\
  phi Multiquadric e r < phi Multiquadric e s /\ phi Cubic e r < phi Cubic e s.
Proof.
  intros e r s He Hs. assert (E2 : 0 < e * e) by nra. assert (R2 : r * r < s * s) by nra.
  assert (Q : (e * r) ^ 2 < (e * s) ^ 2) by nra.
  assert (M : multiquadric r e < multiquadric s e).
  { unfold multiquadric. apply sqrt_lt_1; pose proof (pow2_ge_0 (e * r)); pose proof (pow2_ge_0 (e * s)); lra. }
  destruct (multiquadric_sq r e) as [_ M1]. cbn [phi]. repeat split.
  - unfold rgaussian. apply exp_increasing. lra.
  - unfold inverse_multiquadric, Rdiv. rewrite !Rmult_1_l. apply Rinv_lt_contravar; [nra|exact M].
  - exact M.
  - nra.
Qed.

Lemma one_item : forall knn p v q radius k within, knn_contract knn -> (1 <= k)%nat -> in_radius radius (dist q p) ->
  within = false \/ p = q -> nearest knn [(p, v)] q radius k within = [(p, v)].
Proof.
  intros knn p v q radius k within K Hk Rd W.
  destruct (K [(p, v)] q k) as (L & _ & others & Pm & _).
  assert (E : knn [(p, v)] q k = [(p, v)]).
  { cbn [length] in L. assert (M : Nat.min k 1 = 1%nat) by lia. rewrite M in L. clear M.
    destruct (knn [(p, v)] q k) as [|i [|j l]]; cbn in L; try lia.
    pose proof (Permutation_length Pm) as PL. destruct others; [|rewrite app_length in PL; cbn in PL; lia].
    cbn in Pm. apply Permutation_length_1_inv in Pm. injection Pm as <-. reflexivity. }
  unfold nearest. rewrite E. cbn [filter fst].
  assert (Wr : within_radius radius (dist q p) = true) by (apply within_radius_spec, Rd). rewrite Wr.
  destruct within; [|reflexivity]. destruct W as [W|W]; [discriminate|]. subst q.
  assert (C : covered [p] p = true).
  { apply covered_spec. intros f _. exists p, p. repeat split; try (left; reflexivity); lra. }
  cbn [map fst]. rewrite C. reflexivity.
Qed.

(** ** One neighbour: the default parameters give NaN (but a count of one), and the functions that
    vanish at zero give zero, even at the node. *)
Theorem C99_one_neighbour_refuted : forall knn solve p v q f eps radius k, knn_contract knn -> lu_contract solve ->
  (1 <= k)%nat -> in_radius radius (dist q p) ->
  (adjustable f = true -> rbf_query knn solve [(p, v)] q f None 0 radius k false = (None, 1%Z)) /\
  (adjustable f = false -> rbf_query knn solve [(p, v)] q f eps 0 radius k false = (Some 0, 1%Z)).
Proof.
  intros knn solve p v q f eps radius k K LU Hk Rd.
  assert (E := one_item knn p v q radius k false K Hk Rd (or_introl eq_refl)).
  assert (Z0 : Reqb 0 0 = true) by (apply Reqb_true; reflexivity).
  split; intros A; unfold rbf_query; rewrite E; cbn [map fst snd]; unfold interpolate; rewrite A; f_equal.
  - cbn [scale]. unfold average. cbn [distance_matrix map length fold_left seq Nat.sub].
    replace (INR 1 * (INR 1 - 1) * (1 / 2)) with 0 by (cbn; lra).
    unfold rdiv. rewrite Z0. reflexivity.
  - set (A1 := system point dist f 1 0 [p]).
    assert (EA : A1 = [[0]]).
    { unfold A1, system. rewrite Z0. cbn [distance_matrix map]. rewrite dist_same.
      destruct f; cbn in A; try discriminate; cbn [phi]; [|reflexivity|].
      - replace (0 ^ 3) with 0 by ring. reflexivity.
      - unfold thin_plate. rewrite Z0. reflexivity. }
    destruct (LU 1%nat A1 [v]) as (_ & _ & N).
    { rewrite EA. split; [reflexivity|]. repeat constructor. }
    { reflexivity. }
    rewrite N by (rewrite EA; repeat constructor). cbn. f_equal. lra.
Qed.

(** ** Thin plates: two nodes at a distance of one, any values: zero everywhere. *)
Theorem C99_thin_plate_refuted : forall solve p q y z xi eps, lu_contract solve -> dist p q = 1 ->
  interpolate point dist solve ThinPlate eps 0 [p; q] [y; z] xi = Some (map (fun _ => 0) xi).
Proof.
  intros solve p q y z xi eps LU D. unfold interpolate. cbn [adjustable].
  set (A := system point dist ThinPlate 1 0 [p; q]).
  assert (Z0 : Reqb 0 0 = true) by (apply Reqb_true; reflexivity).
  assert (Z1 : Reqb 1 0 = false) by (apply Reqb_false; lra).
  assert (EA : A = [[0; 0]; [0; 0]]).
  { unfold A, system. rewrite Z0. cbn [distance_matrix map]. rewrite !dist_same, D, (dist_sym q p), D.
    cbn [phi]. unfold thin_plate. rewrite Z0, Z1, ln_1. rewrite Rmult_0_r. reflexivity. }
  destruct (LU 2%nat A [y; z]) as (_ & _ & N).
  { rewrite EA. split; [reflexivity|]. repeat constructor. }
  { reflexivity. }
  rewrite N by (rewrite EA; repeat constructor). f_equal. unfold mat_vec. rewrite map_map.
  unfold distance_matrix. rewrite map_map. apply map_ext. intros r. cbn. lra.
Qed.
Example C99_thin_plate_ex : dist (0, 0, 0) (1, 0, 0) = 1.
Proof.
  unfold dist, px, py, pz. cbn [fst snd]. replace (_ + _) with 1 by ring. apply sqrt_1.
Qed.

(** ** Cubic: four distinct nodes of a plane and values that no weights interpolate. *)
Lemma cubic_root : exists x, 1 <= x <= 4 /\ (1 + x ^ 2) ^ 3 = 16 * x ^ 3.
Proof.
  destruct (IVT (fun x => (1 + x ^ 2) ^ 3 - 16 * x ^ 3) 1 4) as (z & Hz & E).
  - reg.
  - lra.
  - lra.
  - lra.
  - exists z. split; [exact Hz|lra].
Qed.
Lemma dist_value : forall p q d, 0 <= d -> (px p - px q) ^ 2 + (py p - py q) ^ 2 + (pz p - pz q) ^ 2 = d * d -> dist p q = d.
Proof. intros p q d H E. unfold dist. rewrite E. apply sqrt_square, H. Qed.
Theorem C99_cubic_refuted : exists xk yk, NoDup xk /\ length xk = 4%nat /\ length yk = 4%nat /\
  (forall p, In p xk -> pz p = 0) /\
  forall solve eps, lu_contract solve -> interpolate point dist solve Cubic eps 0 xk yk xk <> Some yk.
Proof.
  destruct cubic_root as (x & Hx & E).
  set (d := sqrt (1 + x ^ 2)).
  assert (Hd : 0 < d) by (apply sqrt_lt_R0; nra).
  assert (Dd : d * d = 1 + x ^ 2) by (apply sqrt_sqrt; nra).
  set (s := d ^ 3 / 4).
  set (a := (x, 0, 0)). set (b := (- x, 0, 0)). set (c := (0, 1, 0)). set (e := (0, - 1, 0)).
  assert (Dab : dist a b = 2 * x) by (apply dist_value; [lra|unfold a, b, px, py, pz; cbn [fst snd]; ring]).
  assert (Dce : dist c e = 2) by (apply dist_value; [lra|unfold c, e, px, py, pz; cbn [fst snd]; ring]).
  assert (Dac : dist a c = d) by (apply dist_value; [lra|rewrite Dd; unfold a, c, px, py, pz; cbn [fst snd]; ring]).
  assert (Dae : dist a e = d) by (apply dist_value; [lra|rewrite Dd; unfold a, e, px, py, pz; cbn [fst snd]; ring]).
  assert (Dbc : dist b c = d) by (apply dist_value; [lra|rewrite Dd; unfold b, c, px, py, pz; cbn [fst snd]; ring]).
  assert (Dbe : dist b e = d) by (apply dist_value; [lra|rewrite Dd; unfold b, e, px, py, pz; cbn [fst snd]; ring]).
  exists [a; b; c; e], [1; 1; - s; - s].
  split; [|split; [reflexivity|split; [reflexivity|split]]].
  - unfold a, b, c, e.
    repeat (constructor; [cbn; intros H; repeat destruct H as [H|H]; try contradiction; injection H; intros; lra|]).
    constructor.
  - intros p Hp. unfold a, b, c, e in Hp. cbn in Hp. repeat destruct Hp as [<-|Hp]; try reflexivity. contradiction.
  - intros solve eps LU I. unfold interpolate in I. cbn [adjustable] in I. apply (f_equal (fun o => match o with Some l => l | None => [] end)) in I.
    set (w := solve _ _) in I.
    assert (Lw : length w = 4%nat).
    { unfold w. edestruct LU as (L & _); [|reflexivity|exact L].
      apply (system_square point dist Cubic 1 0 [a; b; c; e]). }
    clearbody w. destruct w as [|w1 [|w2 [|w3 [|w4 [|? ?]]]]]; cbn [length] in Lw; try lia. clear Lw.
    unfold mat_vec in I. cbn [distance_matrix map dotl phi] in I.
    rewrite !dist_same in I.
    rewrite (dist_sym b a), (dist_sym c a), (dist_sym c b), (dist_sym e a), (dist_sym e b), (dist_sym e c),
      Dab, Dce, Dac, Dae, Dbc, Dbe in I.
    injection I as I1 I2 I3 I4.
    assert (K1 : (2 * x) ^ 3 = 2 * s * d ^ 3).
    { unfold s. replace (2 * (d ^ 3 / 4) * d ^ 3) with ((d * d) ^ 3 / 2) by field. rewrite Dd, E. field. }
    assert (K2 : 2 * d ^ 3 = s * 2 ^ 3) by (unfold s; field).
    set (A := (2 * x) ^ 3) in *. set (B := d ^ 3) in *.
    assert (J12 : A * (w1 + w2) + 2 * B * (w3 + w4) = 2).
    { replace 2 with (1 + 1) at 2 by lra. etransitivity; [|exact (f_equal2 Rplus I1 I2)]. unfold A, B. ring. }
    assert (J34 : 2 * B * (w1 + w2) + 2 ^ 3 * (w3 + w4) = - 2 * s).
    { replace (- 2 * s) with (- s + - s) by lra. etransitivity; [|exact (f_equal2 Rplus I3 I4)]. unfold A, B. ring. }
    clearbody A B s. clear - J12 J34 K1 K2.
    assert (J : 2 = - 2 * s * s).
    { assert (H : s * (2 * B * (w1 + w2) + 2 ^ 3 * (w3 + w4)) = A * (w1 + w2) + 2 * B * (w3 + w4)).
      { rewrite K1, K2. replace (2 * s * B) with (s * (2 * B)) by ring. rewrite K2. ring. }
      rewrite J12, J34 in H. lra. }
    nra.
Qed.

(** ** Smoothing: the sign is wrong for a positive definite function. With one node and a gaussian
    function, the value at the node is v / (1 - smooth) (0 when [smooth] is one); the documented
    behaviour ("increasing the smoothness of the approximation") is v / (1 + smooth). *)
Theorem C99_smooth_refuted : forall knn solve p v e smooth radius k within, knn_contract knn -> lu_contract solve ->
  (1 <= k)%nat -> in_radius radius 0 -> e <> 0 -> 0 < smooth ->
  exists r, rbf_query knn solve [(p, v)] p RGaussian (Some e) smooth radius k within = (Some r, 1%Z) /\
    (smooth <> 1 -> r = v / (1 - smooth)) /\ (smooth = 1 -> r = 0).
Proof.
  intros knn solve p v e smooth radius k within K LU Hk Rd He Hs.
  assert (E : nearest knn [(p, v)] p radius k within = [(p, v)]).
  { apply one_item; auto. rewrite dist_same. exact Rd. }
  unfold rbf_query. rewrite E. cbn [map fst snd]. unfold interpolate. cbn [adjustable scale].
  rewrite rdiv_some by exact He.
  assert (Zs : Reqb smooth 0 = false) by (apply Reqb_false; lra).
  set (A := system point dist RGaussian (1 / e) smooth [p]).
  assert (P0 : rgaussian 0 (1 / e) = 1).
  { unfold rgaussian. replace (- (1 / e * 0) ^ 2) with 0 by (field; exact He). apply exp_0. }
  assert (EA : A = [[1 - smooth]]).
  { unfold A, system. rewrite Zs. cbn [distance_matrix map]. rewrite dist_same. cbn [phi]. rewrite P0. reflexivity. }
  cbn [distance_matrix map phi]. rewrite dist_same, P0. fold A.
  destruct (LU 1%nat A [v]) as (L & S1 & N).
  { rewrite EA. split; [reflexivity|]. repeat constructor. }
  { reflexivity. }
  destruct (solve A [v]) as [|w [|? ?]] eqn:Ew; cbn in L; try lia.
  cbn [mat_vec map dotl]. eexists. split; [reflexivity|]. split; intros H.
  - destruct S1 as [_ S1].
    { exists [v / (1 - smooth)]. split; [reflexivity|]. intros i Hi. assert (i = 0%nat) by lia. subst i.
      rewrite EA. cbn. field. lra. }
    specialize (S1 0%nat (le_n 1)). rewrite EA in S1. cbn in S1. rewrite <- S1. field. lra.
  - subst smooth. rewrite EA in N. replace (1 - 1) with 0 in N by lra.
    specialize (N (Forall_cons _ (Forall_cons _ eq_refl (Forall_nil _)) (Forall_nil _))). cbn in N. injection N as ->. lra.
Qed.

(** ** The neighbours used and their number *)
Lemma filter_split {A} (f : A -> bool) l : Permutation l (filter f l ++ filter (fun x => negb (f x)) l).
Proof.
  induction l as [|x l IH]; [constructor|]. cbn [filter]. destruct (f x); cbn [negb app].
  - apply perm_skip. exact IH.
  - apply Permutation_cons_app. exact IH.
Qed.
Lemma nearest_selected : forall knn t p radius k within, knn_contract knn ->
  selected t p radius k within (nearest knn t p radius k within).
Proof.
  intros knn t p radius k within K. exists (knn t p k).
  exists (filter (fun i => within_radius radius (dist p (fst i))) (knn t p k)).
  exists (filter (fun i => negb (within_radius radius (dist p (fst i)))) (knn t p k)).
  split; [apply K|]. split; [apply filter_split|].
  split; [intros i Hi; apply filter_In in Hi as [_ Hi]; apply within_radius_spec; exact Hi|].
  split; [intros i Hi; apply filter_In in Hi as [_ Hi]; rewrite <- within_radius_spec; destruct (within_radius _ _); [discriminate|intro; discriminate]|].
  unfold nearest. set (kept := filter _ _). destruct within; [|left; split; [left; reflexivity|reflexivity]].
  destruct (covered (map fst kept) p) eqn:E.
  - left. split; [right; apply covered_spec; exact E|reflexivity].
  - right. split; [reflexivity|]. split; [|reflexivity]. apply covered_false. exact E.
Qed.
(** The result is the interpolation of the selected neighbours only, the second component is their
    number, and without neighbour the result is missing. *)
Theorem C99_neighbours : forall knn solve t p f eps smooth radius k within, knn_contract knn ->
  exists used, selected t p radius k within used /\
    (used = [] -> rbf_query knn solve t p f eps smooth radius k within = (None, 0%Z)) /\
    (used <> [] -> rbf_query knn solve t p f eps smooth radius k within =
       (match interpolate point dist solve f eps smooth (map fst used) (map snd used) [p] with Some (v :: _) => Some v | _ => None end,
        Z.of_nat (length used))).
Proof.
  intros knn solve t p f eps smooth radius k within K. exists (nearest knn t p radius k within).
  split; [apply nearest_selected; exact K|]. unfold rbf_query. split.
  - intros ->. reflexivity.
  - intros N. destruct (nearest knn t p radius k within); [contradiction|reflexivity].
Qed.
Print Assumptions C99_neighbours.
