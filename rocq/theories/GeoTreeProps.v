(** Theorems about the spatial index on a spheroid (C109 to C112). *)
From Coq Require Import Reals Lra Psatz Permutation Sorted Lia.
From Verif Require Import Base WindowModel WindowProofs RTreeModel RTreeSpec RTreeProofs GeoTreeModel GeoTreeSpec GeoTreeProofs.
Open Scope R_scope.

(** * C109 the contents *)
(** After any history the index holds exactly the positions and values given since the last packing
    or clear, each at the longitude of [-180, 180[ of its meridian, and the spheroid is unchanged. *)
Theorem C109_contents : forall wgs h, Forall g_fits h ->
  exists t, g_run (new_geotree wgs) h = Ok t /\ gt_a t = gt_a (new_geotree wgs) /\ gt_b t = gt_b (new_geotree wgs) /\
    g_size t = zlen (fold_left g_held h []) /\
    Forall2 (fun given i => meridian (fst (fst given)) (fst (fst i)) /\ snd (fst i) = snd (fst given) /\ snd i = snd given) (fold_left g_held h []) (gt_items t).
Proof.
  intros wgs h F.
  assert (G : forall h t acc, Forall g_fits h -> gt_items t = map put_down acc -> exists t', g_run t h = Ok t' /\ gt_a t' = gt_a t /\ gt_b t' = gt_b t /\ gt_items t' = map put_down (fold_left g_held h acc)).
  { clear. induction h as [|o h IH]; intros t acc F I; cbn [g_run fold_left]; [exists t; auto|]. inversion F as [|? ? F1 F2]; subst. destruct o as [lon lat values|lon lat values| |]; cbn [g_apply g_fits g_held] in *.
    - unfold g_packing. rewrite same_size_true by apply F1. cbn [obind]. destruct (IH (GeoTree (gt_a t) (gt_b t) (combine (places lon lat) values)) (triples lon lat values) F2) as (t' & R & A & B & J); [apply combine_places|]. exists t'. auto.
    - unfold g_insert. rewrite same_size_true by apply F1. cbn [obind]. destruct (IH (GeoTree (gt_a t) (gt_b t) (gt_items t ++ combine (places lon lat) values)) (acc ++ triples lon lat values) F2) as (t' & R & A & B & J).
      { cbn [gt_items]. rewrite I, combine_places, map_app. reflexivity. } exists t'. auto.
    - cbn [obind]. destruct (IH (g_clear t) [] F2 eq_refl) as (t' & R & A & B & J). exists t'. auto.
    - rewrite pickle_same. cbn [obind]. apply IH; assumption. }
  destruct (G h (new_geotree wgs) [] F eq_refl) as (t & R & A & B & J). exists t. split; [exact R|]. split; [exact A|]. split; [exact B|]. rewrite J. split; [unfold g_size, zlen; rewrite J, map_length; reflexivity|].
  clear. induction (fold_left g_held h []) as [|[[x y] v] l IH]; cbn [map]; constructor; [|exact IH]. cbn [put_down fst snd]. split; [apply normalize_spec|]. split; reflexivity.
Qed.
Print Assumptions C109_contents.
(** Arrays of different sizes are refused. *)
Theorem C109_sizes : forall t lon lat values, ~ (length lon = length lat /\ length lon = length values) ->
  (exists w, g_packing t lon lat values = Throw w) /\ (exists w, g_insert t lon lat values = Throw w).
Proof. intros t lon lat values H. unfold g_packing, g_insert. rewrite same_size_false by exact H. eauto. Qed.
(** The convention used for the longitudes does not matter. *)
Theorem C109_longitudes : forall h h' t, Forall2 same_operation h h' -> g_run t h' = g_run t h.
Proof.
  assert (L : forall lon lon', Forall2 same_meridian lon lon' -> length lon' = length lon /\ forall lat, places lon' lat = places lon lat).
  { induction 1 as [|x y lon lon' S F [IL IH]]; [auto|]. split; [cbn [length]; lia|]. intros [|z lat]; cbn [places]; [reflexivity|]. rewrite (place_same x y z S), IH. reflexivity. }
  assert (Z : forall lon lon' lat values, length lon' = length lon -> same_size lon' lat values = same_size lon lat values) by (intros; unfold same_size, zlen; rewrite H; reflexivity).
  intros h h' t F. revert t. induction F as [|o o' h h' S F IH]; intro t; cbn [g_run]; [reflexivity|].
  assert (E : g_apply t o' = g_apply t o).
  { destruct o as [lon lat values|lon lat values| |], o' as [lon' lat' values'|lon' lat' values'| |]; cbn [same_operation] in S; try contradiction; try reflexivity; destruct S as (M & -> & ->); destruct (L _ _ M) as [LL LP]; cbn [g_apply]; unfold g_packing, g_insert; rewrite (Z lon lon'), LP by exact LL; reflexivity. }
  rewrite E. destruct (g_apply t o); cbn [obind]; auto.
Qed.
Print Assumptions C109_longitudes.
Theorem C109_ex : let h := [GPack [359; -10; 190] [0; 1; 2] [7; 8; 9]; GInsert [180] [3] [10]; GPickle] in let h' := [GPack [-1; 350; -170] [0; 1; 2] [7; 8; 9]; GInsert [-180] [3] [10]; GPickle] in
  Forall g_fits h /\ Forall2 same_operation h h'.
Proof.
  cbv zeta. split.
  - repeat constructor.
  - assert (M : forall x y n, y = x + 360 * IZR n -> same_meridian x y) by (intros x y n E; exists n; exact E).
    constructor; [|constructor; [|constructor; [exact I|constructor]]]; (split; [|split; reflexivity]).
    + constructor; [apply (M _ _ (-1)%Z); lra|]. constructor; [apply (M _ _ 1%Z); lra|]. constructor; [apply (M _ _ (-1)%Z); lra|constructor].
    + constructor; [apply (M _ _ (-1)%Z); lra|constructor].
Qed.

(** * C110 the neighbours *)
Theorem C110_contract_ex : forall distance, geo_contract distance (g_brute (distance default_radii)).
Proof. intros distance t p k. apply g_brute_nearest. Qed.
Lemma row_length : forall distance knn around t within k lon lat, geo_contract distance knn -> length (g_query_row distance knn around t within k lon lat) = k.
Proof.
  intros distance knn around t within k lon lat K. unfold g_query_row, g_neighbours. rewrite app_length, repeat_length. destruct (K (gt_items t) (place lon lat) k) as [L _].
  assert (B : (length (knn (gt_items t) (place lon lat) k) <= k)%nat) by (rewrite L; lia). destruct within; [destruct (around _ _)|]; rewrite ?map_length; cbn [length]; lia.
Qed.
(** With the default spheroid, or another one that orders the stored points in the same way as seen
    from the position: the k nearest points, in increasing order of distance. *)
Definition same_order (distance : R * R -> gpoint -> gpoint -> R) (t : geotree) (p : gpoint) : Prop :=
  forall i j, In i (gt_items t) -> In j (gt_items t) -> distance default_radii p (fst i) <= distance default_radii p (fst j) -> distance (gt_a t, gt_b t) p (fst i) <= distance (gt_a t, gt_b t) p (fst j).
Lemma same_order_default : forall distance t p, (gt_a t, gt_b t) = default_radii -> same_order distance t p.
Proof. intros distance t p E i j _ _ H. rewrite E. exact H. Qed.
Lemma same_order_nearest : forall distance t p k chosen, same_order distance t p -> g_k_nearest (distance default_radii) (gt_items t) p k chosen -> g_k_nearest (distance (gt_a t, gt_b t)) (gt_items t) p k chosen.
Proof.
  intros distance t p k chosen O (L & S & others & P & N). assert (I : forall i, In i chosen -> In i (gt_items t)) by (intros i Hi; apply (Permutation_in _ (Permutation_sym P)), in_or_app; left; exact Hi).
  assert (J : forall i, In i others -> In i (gt_items t)) by (intros i Hi; apply (Permutation_in _ (Permutation_sym P)), in_or_app; right; exact Hi).
  split; [exact L|]. split.
  - clear L P N. induction S as [|i l S IH F]; constructor; [apply IH; intros; apply I; right; assumption|]. rewrite Forall_forall in *. intros j Hj. apply O; [apply I; left; reflexivity|apply I; right; exact Hj|apply F; exact Hj].
  - exists others. split; [exact P|]. intros i j Hi Hj. apply O; auto.
Qed.
Theorem C110_query : forall distance knn around t within k lon lat, geo_contract distance knn ->
  exists p, meridian lon (fst p) /\ snd p = lat /\
  exists chosen, g_k_nearest (distance default_radii) (gt_items t) p k chosen /\
    (same_order distance t p -> g_k_nearest (distance (gt_a t, gt_b t)) (gt_items t) p k chosen) /\
    let row := map (fun i => (distance (gt_a t, gt_b t) p (fst i), snd i)) chosen ++ repeat (-1, -1) (k - length chosen) in
    length row = k /\
    (within = false \/ around (map fst chosen) p = true -> g_query_row distance knn around t within k lon lat = row) /\
    (within = true -> around (map fst chosen) p = false -> g_query_row distance knn around t within k lon lat = repeat (-1, -1) k).
Proof.
  intros distance knn around t within k lon lat K. exists (place lon lat). split; [apply normalize_spec|]. split; [reflexivity|]. exists (knn (gt_items t) (place lon lat) k). pose proof (K (gt_items t) (place lon lat) k) as C.
  split; [exact C|]. split; [intro O; apply same_order_nearest; assumption|]. cbv zeta. destruct C as [L _].
  assert (B : (length (knn (gt_items t) (place lon lat) k) <= k)%nat) by (rewrite L; lia). unfold gitem in *.
  split; [rewrite app_length, map_length, repeat_length; lia|]. unfold g_query_row, g_neighbours. split.
  - intro H. assert (E : (if within then if around (map fst (knn (gt_items t) (place lon lat) k)) (place lon lat) then map (g_row distance t (place lon lat)) (knn (gt_items t) (place lon lat) k) else [] else map (g_row distance t (place lon lat)) (knn (gt_items t) (place lon lat) k)) = map (g_row distance t (place lon lat)) (knn (gt_items t) (place lon lat) k)).
    { destruct within; [|reflexivity]. destruct H as [H|H]; [discriminate|]. rewrite H. reflexivity. }
    rewrite E, map_length. reflexivity.
  - intros -> H. rewrite H. cbn [length app]. f_equal. lia.
Qed.
Print Assumptions C110_query.
(** The convention used for the longitude of the position does not matter, for any of the methods. *)
Theorem C110_longitudes : forall distance knn around t lon lon' lat, same_meridian lon lon' ->
  (forall within k, g_query_row distance knn around t within k lon' lat = g_query_row distance knn around t within k lon lat) /\
  (forall radius k p within, g_idw distance knn around t radius k p within lon' lat = g_idw distance knn around t radius k p within lon lat) /\
  (forall w radius k within, g_window distance knn around t w radius k within lon' lat = g_window distance knn around t w radius k within lon lat) /\
  (forall radius k within, g_selected distance knn around t radius k within lon' lat = g_selected distance knn around t radius k within lon lat).
Proof.
  intros distance knn around t lon lon' lat M. pose proof (place_same lon lon' lat M) as E. unfold g_query_row, g_idw, g_window, g_selected. rewrite E. repeat split; reflexivity.
Qed.
(** The arrays of positions: one answer for each, in order; arrays of different sizes are refused. *)
Theorem C110_arrays : forall A (f : R -> R -> A) lon lat, 
  (length lon <> length lat -> exists w, vectorised f lon lat = Throw w) /\
  (length lon = length lat -> exists l, vectorised f lon lat = Ok l /\ length l = length lon /\
     forall n x y, nth_error lon n = Some x -> nth_error lat n = Some y -> nth_error l n = Some (f x y)).
Proof.
  intros A f lon lat. unfold vectorised, zlen. split; intro H.
  - destruct (Z.eqb_spec (Z.of_nat (length lon)) (Z.of_nat (length lat))); [lia|eauto].
  - rewrite H, Z.eqb_refl. eexists. split; [reflexivity|]. split; [rewrite map_length, combine_length; lia|].
    revert lat H. induction lon as [|a lon IH]; intros [|b lat] H [|n] x y X Y; cbn [length nth_error combine map] in *; try discriminate; [injection X as ->; injection Y as ->; reflexivity|]. apply (IH lat); [lia|assumption|assumption].
Qed.

(** ** Another spheroid *)
Lemma place_in : forall x y, -180 <= x < 180 -> place x y = (x, y).
Proof. intros x y B. unfold place. f_equal. apply (meridian_unique x); [apply normalize_spec|]. split; [exact B|]. exists 0%Z. lra. Qed.
Lemma radian_0 : radian 0 = 0.
Proof. unfold radian. lra. Qed.
(** From the origin of the coordinates to a point of its meridian at 45 degrees, and to a point of the equator. *)
Lemma to_north : forall a b, 0 < a -> andoyer (a, b) (0, 0) (0, 45) = a * (PI / 4 - (a - b) / a * (PI / 8 + 3 / 4)).
Proof.
  intros a b A. unfold andoyer. cbn [fst snd]. replace (0 - 0) with 0 by ring. rewrite !radian_0. replace (radian 45) with (PI / 4) by (unfold radian; lra). rewrite sin_0, cos_0.
  replace (0 * sin (PI / 4) + 1 * cos (PI / 4) * 1) with (cos (PI / 4)) by ring. pose proof PI_RGT_0. rewrite acos_cos by lra.
  assert (S : sin (PI / 4) = cos (PI / 4)) by (rewrite sin_PI4, cos_PI4; reflexivity). rewrite S. set (r := cos (PI / 4)).
  assert (Q : r * r = 1 / 2). { unfold r. pose proof (sin2_cos2 (PI / 4)) as T. unfold Rsqr in T. rewrite S in T. lra. }
  assert (N : 1 - r <> 0) by nra. assert (M : 1 + r <> 0) by nra.
  assert (E : (PI / 4 + 3 * r) / (1 - r) * (0 - r) ^ 2 + (PI / 4 - 3 * r) / (1 + r) * (0 + r) ^ 2 = PI / 2 + 3).
  { replace ((0 - r) ^ 2) with (1 / 2) by (rewrite <- Q; ring). replace ((0 + r) ^ 2) with (1 / 2) by (rewrite <- Q; ring).
    apply (Rmult_eq_reg_l ((1 - r) * (1 + r))); [|nra]. transitivity ((PI / 4 + 3 * r) * (1 + r) * (1 / 2) + (PI / 4 - 3 * r) * (1 - r) * (1 / 2)); [field; auto|]. replace ((1 - r) * (1 + r)) with (1 / 2) by (replace ((1 - r) * (1 + r)) with (1 - r * r) by ring; rewrite Q; lra).
    replace ((PI / 4 + 3 * r) * (1 + r) * (1 / 2) + (PI / 4 - 3 * r) * (1 - r) * (1 / 2)) with (PI / 4 + 3 * (r * r)) by field. rewrite Q. lra. }
  rewrite E. field. lra.
Qed.
Lemma to_east : forall a b x, 0 < a -> 0 < x <= 180 -> andoyer (a, b) (0, 0) (x, 0) = a * (x * PI / 180).
Proof.
  intros a b x A X. unfold andoyer. cbn [fst snd]. replace (x - 0) with x by ring. rewrite !radian_0, sin_0, cos_0. replace (0 * 0 + 1 * 1 * cos (radian x)) with (cos (radian x)) by ring.
  pose proof PI_RGT_0. rewrite acos_cos by (unfold radian; split; nra). replace ((0 - 0) ^ 2) with 0 by ring. replace ((0 + 0) ^ 2) with 0 by ring. rewrite !Rmult_0_r. unfold radian. lra.
Qed.
(** On a sphere of the radius of the Earth: two points, north and east of the position. *)
Definition sphere : spheroid := Spheroid 6378137 0.
Definition two_points : geotree := GeoTree 6378137 6378137 [((0, 45), 1); ((449 / 10, 0), 2)].
Lemma two_points_made : g_run (new_geotree (Some sphere)) [GPack [0; 449 / 10] [45; 0] [1; 2]] = Ok two_points.
Proof.
  cbn [g_run g_apply]. unfold g_packing. rewrite same_size_true by reflexivity. cbn [obind places combine]. rewrite !place_in by lra. unfold new_geotree, two_points, sphere. cbn [gt_a gt_b s_a s_f]. replace (6378137 * (1 - 0)) with 6378137 by ring. reflexivity.
Qed.
Lemma pi_bounds : 3 < PI <= 4.
Proof. pose proof PI2_3_2. pose proof PI_4. lra. Qed.
Lemma default_order : andoyer default_radii (0, 0) (0, 45) < andoyer default_radii (0, 0) (449 / 10, 0).
Proof.
  unfold default_radii. assert (A : 0 < s_a wgs84) by (cbn [s_a wgs84]; lra). rewrite to_north, to_east by lra. apply Rmult_lt_compat_l; [exact A|].
  replace ((s_a wgs84 - s_a wgs84 * (1 - s_f wgs84)) / s_a wgs84) with (s_f wgs84) by (field; lra).
  assert (F : 1 / 300 < s_f wgs84). { cbn [s_f wgs84]. apply Rmult_lt_compat_l; [lra|]. apply Rinv_lt_contravar; lra. }
  pose proof pi_bounds. nra.
Qed.
Lemma sphere_order : andoyer (6378137, 6378137) (0, 0) (449 / 10, 0) < andoyer (6378137, 6378137) (0, 0) (0, 45).
Proof. rewrite to_north, to_east by lra. replace ((6378137 - 6378137) / 6378137) with 0 by (field; lra). pose proof pi_bounds. lra. Qed.
Lemma two_points_first : forall knn, geo_contract andoyer knn -> knn (gt_items two_points) (0, 0) 1%nat = [((0, 45), 1)] /\ knn (gt_items two_points) (0, 0) 2%nat = gt_items two_points.
Proof.
  intros knn K. pose proof default_order as O. split.
  - destruct (K (gt_items two_points) (0, 0) 1%nat) as (L & _ & others & P & N). cbn [gt_items two_points length Nat.min] in *. destruct (knn _ _ 1%nat) as [|i [|]] eqn:E; cbn [length] in L; try discriminate.
    assert (Lo : length others = 1%nat) by (apply Permutation_length in P; cbn [app length] in P; lia). destruct others as [|j [|]]; cbn [length] in Lo; try discriminate. cbn [app] in P.
    specialize (N i j (or_introl eq_refl) (or_introl eq_refl)). apply Permutation_length_2 in P as [[<- <-]|[<- <-]]; [reflexivity|]. cbn [fst] in N. exfalso. lra.
  - destruct (K (gt_items two_points) (0, 0) 2%nat) as (L & S & others & P & _). cbn [gt_items two_points length Nat.min] in *. destruct (knn _ _ 2%nat) as [|i [|j [|]]] eqn:E; cbn [length] in L; try discriminate.
    assert (Lo : length others = 0%nat) by (apply Permutation_length in P; cbn [app length] in P; lia). destruct others; [|discriminate]. cbn [app] in P.
    apply StronglySorted_inv in S as [_ F]. inversion F as [|? ? F1 _]; subst. apply Permutation_length_2 in P as [[<- <-]|[<- <-]]; [reflexivity|]. cbn [fst] in F1. exfalso. lra.
Qed.
(** The nearest neighbour is not always the nearest one, and the distances are not always in order:
    on a sphere, the point at 45 degrees to the north is returned, although the point at 44.9 degrees
    to the east is nearer; with k = 2 it comes second. *)
Theorem C110_spheroid_refuted : forall knn around, geo_contract andoyer knn ->
  g_run (new_geotree (Some sphere)) [GPack [0; 449 / 10] [45; 0] [1; 2]] = Ok two_points /\
  let north := andoyer (6378137, 6378137) (0, 0) (0, 45) in let east := andoyer (6378137, 6378137) (0, 0) (449 / 10, 0) in
  east < north /\ g_query_row andoyer knn around two_points false 1 0 0 = [(north, 1)] /\ g_query_row andoyer knn around two_points false 2 0 0 = [(north, 1); (east, 2)].
Proof.
  intros knn around K. split; [apply two_points_made|]. cbv zeta. split; [apply sphere_order|]. destruct (two_points_first knn K) as [E1 E2]. unfold g_query_row, g_neighbours. rewrite place_in by lra. rewrite E1, E2. split; reflexivity.
Qed.
Print Assumptions C110_spheroid_refuted.

(** * C111 the interpolations *)
Lemma nonneg_rows : forall distance t p l, (forall q, 0 <= distance (gt_a t, gt_b t) p q) -> forall r, In r (map (g_row distance t p) l) -> 0 <= fst r.
Proof. intros distance t p l D r H. apply in_map_iff in H as (i & <- & _). apply D. Qed.
(** Inverse distance weighting: whatever the spheroid, the mean of the values, weighted by the inverse of
    the power p of the distances on this spheroid, of the neighbours not further than the radius; the
    value of a neighbour nearer than one micrometre. *)
Theorem C111_idw : forall distance knn around t radius k p within lon lat, geo_contract distance knn -> (forall q q', 0 <= distance (gt_a t, gt_b t) q q') ->
  exists pt, meridian lon (fst pt) /\ snd pt = lat /\
  exists chosen, g_k_nearest (distance default_radii) (gt_items t) pt k chosen /\ (same_order distance t pt -> g_k_nearest (distance (gt_a t, gt_b t)) (gt_items t) pt k chosen) /\
    let rows := map (fun i => (distance (gt_a t, gt_b t) pt (fst i), snd i)) chosen in
    let answer := g_idw distance knn around t radius k p within lon lat in
    (within = true -> around (map fst chosen) pt = false -> answer = (None, 0%Z)) /\
    (within = false \/ around (map fst chosen) pt = true ->
      (forall d v before after, rows = before ++ (d, v) :: after -> d < 1 / 1000000 -> (forall r, In r before -> 1 / 1000000 <= fst r) -> answer = (Some v, Z.of_nat k)) /\
      ((forall r, In r rows -> 1 / 1000000 <= fst r) -> exists used, (forall r, In r used <-> In r rows /\ in_radius radius (fst r)) /\
        (used = [] -> answer = (None, 0%Z)) /\
        (used <> [] -> exists m, answer = (Some m, zlen used) /\ mean_of (fun r => 1 / fst r ^ p) used m /\ between_them used m))).
Proof.
  intros distance knn around t radius k p within lon lat K D. exists (place lon lat). split; [apply normalize_spec|]. split; [reflexivity|]. exists (knn (gt_items t) (place lon lat) k). pose proof (K (gt_items t) (place lon lat) k) as C.
  split; [exact C|]. split; [intro O; apply same_order_nearest; assumption|]. cbv zeta. unfold g_idw, g_neighbours. split.
  - intros -> H. rewrite H. cbn [idw_loop]. assert (Z : Reqb 0 0 = true) by (apply Reqb_true; reflexivity). rewrite Z. reflexivity.
  - intro H. set (n := knn (gt_items t) (place lon lat) k) in *. set (rows := map (fun i => (distance (gt_a t, gt_b t) (place lon lat) (fst i), snd i)) n).
    assert (E : (if within then if around (map fst n) (place lon lat) then map (g_row distance t (place lon lat)) n else [] else map (g_row distance t (place lon lat)) n) = rows).
    { destruct within; [|reflexivity]. destruct H as [H|H]; [discriminate|]. rewrite H. reflexivity. }
    rewrite E. split.
    + intros d v before after Er Dd B. rewrite Er. clear -Dd B. generalize 0 at 1. generalize 0 at 1. generalize 0%Z. induction before as [|[e u] before IH]; intros z s r; cbn [app idw_loop].
      * apply Rltb_true in Dd. rewrite Dd. reflexivity.
      * assert (Eb : Rltb e (1 / 1000000) = false) by (apply Rltb_false; specialize (B (e, u) (or_introl eq_refl)); cbn [fst] in B; lra). rewrite Eb. destruct (within_radius radius e); apply IH; intros; apply B; right; assumption.
    + intro F. exists (filter (fun r => within_radius radius (fst r)) rows). split; [intro r; rewrite filter_In, within_radius_spec; reflexivity|]. apply (idw_rows k p radius rows F).
Qed.
Print Assumptions C111_idw.
(** Window functions: the same with the weights of the window, provided that the spheroid orders the
    stored points as the default one does. *)
Theorem C111_window_partial : forall distance knn around t w radius k within lon lat, geo_contract distance knn -> (forall q q', 0 <= distance (gt_a t, gt_b t) q q') ->
  exists pt, meridian lon (fst pt) /\ snd pt = lat /\
  (same_order distance t pt -> exists chosen, g_k_nearest (distance (gt_a t, gt_b t)) (gt_items t) pt k chosen /\
    let rows := map (fun i => (distance (gt_a t, gt_b t) pt (fst i), snd i)) chosen in
    let answer := g_window distance knn around t w radius k within lon lat in
    (within = true -> around (map fst chosen) pt = false -> answer = (None, 0%Z)) /\
    (within = false \/ around (map fst chosen) pt = true -> forall r wt,
      (radius = Some r \/ radius = None /\ exists x, In x rows /\ fst x = r /\ forall y, In y rows -> fst y <= r) ->
      (forall x, In x rows -> fst x <= r -> w (fst x) r = Some (wt x)) ->
      exists used, (forall x, In x used <-> In x rows /\ fst x <= r) /\
        (total wt used = 0 -> answer = (None, 0%Z)) /\
        (total wt used <> 0 -> exists m, answer = (Some m, zlen used) /\ mean_of wt used m /\ ((forall x, In x used -> 0 <= wt x) -> between_them used m)))).
Proof.
  intros distance knn around t w radius k within lon lat K D. exists (place lon lat). split; [apply normalize_spec|]. split; [reflexivity|]. intro O. exists (knn (gt_items t) (place lon lat) k).
  assert (C := same_order_nearest _ _ _ _ _ O (K (gt_items t) (place lon lat) k)). split; [exact C|]. cbv zeta. unfold g_window, g_neighbours. split.
  - intros -> H. rewrite H. cbn [window_loop last fst]. assert (Z : Reqb 0 0 = true) by (apply Reqb_true; reflexivity). rewrite Z. reflexivity.
  - intros H r wt RR WT. set (n := knn (gt_items t) (place lon lat) k) in *. set (rows := map (fun i => (distance (gt_a t, gt_b t) (place lon lat) (fst i), snd i)) n) in *.
    assert (E : (if within then if around (map fst n) (place lon lat) then map (g_row distance t (place lon lat)) n else [] else map (g_row distance t (place lon lat)) n) = rows).
    { destruct within; [|reflexivity]. destruct H as [H|H]; [discriminate|]. rewrite H. reflexivity. }
    rewrite E. exists (filter (fun x => Rleb (fst x) r) rows). split; [intro x; rewrite filter_In, Rleb_true; reflexivity|].
    assert (S : StronglySorted (fun x y : R * R => fst x <= fst y) rows).
    { destruct C as (_ & S & _). clear -S. unfold rows. induction S as [|i l S IH F]; cbn [map]; constructor; [exact IH|]. rewrite Forall_forall in *. intros x X. apply in_map_iff in X as (j & <- & X). cbn [fst]. apply F. exact X. }
    apply (window_rows w radius rows r wt (nonneg_rows distance t _ n (D _)) S RR WT).
Qed.
Print Assumptions C111_window_partial.
(** Otherwise a neighbour nearer than the radius may be ignored: no value is found within the distance of
    the point to the east, at which that point lies. *)
Theorem C111_window_refuted : forall knn around, geo_contract andoyer knn ->
  let east := andoyer (6378137, 6378137) (0, 0) (449 / 10, 0) in
  In (east, 2) (g_query_row andoyer knn around two_points false 2 0 0) /\
  g_window andoyer knn around two_points (fun _ _ => Some 1) (Some east) 2 false 0 0 = (None, 0%Z).
Proof.
  intros knn around K. cbv zeta. destruct (C110_spheroid_refuted knn around K) as (_ & L & _ & Q). cbv zeta in *. rewrite Q. split; [right; left; reflexivity|].
  unfold g_window, g_neighbours. rewrite place_in by lra. rewrite (proj2 (two_points_first knn K)). unfold two_points, g_row, g_distance. cbn [gt_items map fst snd gt_a gt_b window_loop within_radius].
  assert (F : Rleb (andoyer (6378137, 6378137) (0, 0) (0, 45)) (andoyer (6378137, 6378137) (0, 0) (449 / 10, 0)) = false) by (apply Rleb_false; exact L). rewrite F.
  assert (Z : Reqb 0 0 = true) by (apply Reqb_true; reflexivity). rewrite Z. reflexivity.
Qed.
(** The points given to the radial basis functions. *)
Theorem C111_selected : forall distance knn around t radius k within lon lat, geo_contract distance knn ->
  exists pt, meridian lon (fst pt) /\ snd pt = lat /\
  exists chosen used, g_k_nearest (distance default_radii) (gt_items t) pt k chosen /\ (forall i, In i used <-> In i chosen /\ in_radius radius (distance (gt_a t, gt_b t) pt (fst i))) /\
    (within = false \/ around (map fst used) pt = true -> g_selected distance knn around t radius k within lon lat = used) /\
    (within = true -> around (map fst used) pt = false -> g_selected distance knn around t radius k within lon lat = []).
Proof.
  intros distance knn around t radius k within lon lat K. exists (place lon lat). split; [apply normalize_spec|]. split; [reflexivity|]. exists (knn (gt_items t) (place lon lat) k), (filter (fun i => within_radius radius (g_distance distance t (place lon lat) (fst i))) (knn (gt_items t) (place lon lat) k)).
  split; [apply K|]. split; [intro i; rewrite filter_In, within_radius_spec; reflexivity|]. unfold g_selected. split.
  - intros [-> |H]; [reflexivity|]. rewrite H. destruct within; reflexivity.
  - intros -> H. rewrite H. reflexivity.
Qed.

(** * C112 copies *)
Lemma write_same : forall s r l, (r < length s)%nat -> nth r (write s r l) [] = l.
Proof. induction s as [|a s IH]; intros [|r] l L; cbn [length write nth] in *; try lia; auto. apply IH. lia. Qed.
Lemma write_other : forall s r q l, r <> q -> nth q (write s r l) [] = nth q s [].
Proof. induction s as [|a s IH]; intros [|r] [|q] l N; cbn [write nth]; auto; try congruence. Qed.
Lemma write_length : forall s r l, length (write s r l) = length s.
Proof. induction s as [|a s IH]; intros [|r] l; cbn [write length]; auto. Qed.
Lemma change_length : forall s o c, length (o_change s o c) = length s.
Proof. intros s o c. unfold o_change. destruct (change_tree _ c); auto. apply write_length. Qed.
(** [copy.copy]: whatever is done afterwards to any of the two objects, they hold the same points: what is
    inserted in one is in the other. *)
Theorem C112_copy : forall s o s' o' todo, o_copy s o = (s', o') ->
  let after := fold_left (fun s (b : bool * change) => o_change s (if fst b then o else o') (snd b)) todo s' in
  contents after o' = contents after o.
Proof. intros s o s' o' todo H. injection H as <- <-. reflexivity. Qed.
(** A pickled object, or a deep copy, holds the same points and values, then lives its own life. *)
Theorem C112_pickle : forall s o, (o_tree o < length s)%nat -> exists s' o', o_pickle s o = Ok (s', o') /\ contents s' o' = contents s o /\ contents s' o = contents s o /\
  forall todo, (contents (fold_left (fun s c => o_change s o' c) todo s') o = contents s o) /\ (contents (fold_left (fun s c => o_change s o c) todo s') o' = contents s o).
Proof.
  intros s o L. unfold o_pickle. rewrite pickle_same. cbn [obind]. eexists. eexists. split; [reflexivity|].
  set (s' := s ++ [gt_items (contents s o)]). set (o' := GObject (gt_a (contents s o)) (gt_b (contents s o)) (length s)).
  assert (E : contents s' o' = contents s o). { unfold contents, s', o'. cbn [o_a o_b o_tree gt_a gt_b gt_items contents]. rewrite app_nth2, Nat.sub_diag by lia. reflexivity. }
  assert (E' : contents s' o = contents s o). { unfold contents, s'. rewrite app_nth1 by exact L. reflexivity. }
  split; [exact E|]. split; [exact E'|]. intro todo.
  assert (G : forall a b, o_tree a <> o_tree b -> forall todo s, contents (fold_left (fun s c => o_change s a c) todo s) b = contents s b).
  { clear. intros a b N. induction todo as [|c todo IH]; intro s; cbn [fold_left]; [reflexivity|]. rewrite IH. unfold o_change. destruct (change_tree (contents s a) c); try reflexivity. unfold contents. rewrite write_other by exact N. reflexivity. }
  split; [rewrite G by (cbn [o_tree o']; lia); exact E'|rewrite G by (cbn [o_tree o']; lia); exact E].
Qed.
(** An accepted change is seen through the object, and through its copies. *)
Theorem C112_change : forall s o c t, (o_tree o < length s)%nat -> change_tree (contents s o) c = Ok t -> contents (o_change s o c) o = t.
Proof.
  intros s o c t L H. assert (R : gt_a t = o_a o /\ gt_b t = o_b o).
  { destruct c; cbn [change_tree] in H; [unfold g_packing in H|unfold g_insert in H|]; try (destruct (same_size _ _ _); [|discriminate]); injection H as <-; auto. }
  unfold o_change. rewrite H. unfold contents. rewrite write_same by exact L. destruct t as [a b l]. cbn [gt_a gt_b gt_items] in *. destruct R as [-> ->]. reflexivity.
Qed.
Theorem C112_ex : let s := [[((0, 0), 1)]] in let o := GObject 1 1 0 in
  contents (o_change s o (CInsert [90] [0] [2])) (snd (o_copy s o)) = GeoTree 1 1 [((0, 0), 1); ((90, 0), 2)].
Proof.
  cbv zeta. cbn [o_copy snd]. apply C112_change; [cbn; lia|]. cbn [change_tree contents]. unfold g_insert. rewrite same_size_true by reflexivity. cbn [gt_items contents o_a o_b o_tree gt_a gt_b nth places combine app]. rewrite place_in by lra. reflexivity.
Qed.
