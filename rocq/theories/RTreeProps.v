(** Theorems about the spatial index (C70 to C74). *)
From Coq Require Import Reals Lra Psatz Permutation Sorted Lia.
From Verif Require Import Base WindowModel WindowProofs WindowProps RTreeModel RTreeSpec RTreeProofs.
Open Scope R_scope.

(** The iterator contract is satisfiable: a brute force search fulfils it. *)
Theorem C71_contract_ex : knn_contract brute.
Proof. exact brute_contract. Qed.

(** * C70 the contents *)
Definition stored_point (to_ecef : spheroid -> point -> point) (t : rtree) (row : list R) : point :=
  if t_ecef t then row_point row else to_ecef (t_spheroid t) (row_point row).
Lemma convert_all_ok : forall to_ecef t rows, Forall (fun r => length r = 2%nat \/ length r = 3%nat) rows ->
  convert_all to_ecef t rows = Ok (map (stored_point to_ecef t) rows).
Proof.
  intros to_ecef t rows F. induction F as [|r rows L F IH]; [reflexivity|]. cbn [convert_all map]. rewrite IH. unfold stored_point at 1.
  destruct r as [|x [|y [|z [|u r]]]]; try (cbn in L; lia); cbn [convert obind]; reflexivity.
Qed.
Lemma combine_map : forall {A B C} (f : A -> C) (l : list A) (v : list B), combine (map f l) v = map (fun rv => (f (fst rv), snd rv)) (combine l v).
Proof. intros A B C f l. induction l as [|x l IH]; intros [|y v]; cbn [map combine]; try reflexivity. rewrite IH. reflexivity. Qed.
Lemma combine_split : forall {A B} (l : list (A * B)), combine (map fst l) (map snd l) = l.
Proof. intros A B l. induction l as [|[x y] l IH]; cbn [map combine fst snd]; [reflexivity|]. rewrite IH. reflexivity. Qed.

(** Whatever the sequence of packings, insertions, clears and pickling round trips: the index holds
    exactly the rows given since the last packing or clear, with their values, at the same places;
    a tree of Cartesian coordinates is not pickled. *)
Theorem C70_contents_partial : forall to_ecef wgs ecef t h, new_rtree wgs ecef = Ok t -> Forall well_formed h -> (ecef = true -> ~ In Pickle h) ->
  exists t', run to_ecef t h = Ok t' /\ t_ecef t' = ecef /\ t_spheroid t' = t_spheroid t /\
    t_items t' = map (fun rv => (stored_point to_ecef t (fst rv), snd rv)) (fold_left held h []) /\
    size t' = zlen (fold_left held h []).
Proof.
  intros to_ecef wgs ecef t h N W P.
  assert (E0 : t_ecef t = ecef /\ t_items t = []) by (unfold new_rtree in N; destruct wgs, ecef; inversion N; subst; auto). destruct E0 as [E0 I0].
  assert (G : forall h t1 acc, Forall well_formed h -> (ecef = true -> ~ In Pickle h) -> t_ecef t1 = ecef -> t_spheroid t1 = t_spheroid t ->
    t_items t1 = map (fun rv => (stored_point to_ecef t (fst rv), snd rv)) acc ->
    exists t', run to_ecef t1 h = Ok t' /\ t_ecef t' = ecef /\ t_spheroid t' = t_spheroid t /\
      t_items t' = map (fun rv => (stored_point to_ecef t (fst rv), snd rv)) (fold_left held h acc)).
  { clear N W P h. induction h as [|o h IH]; intros t1 acc W P E S I; [exists t1; auto|]. inversion W as [|? ? WO WH]; subst. cbn [run fold_left].
    assert (SP : forall r, stored_point to_ecef t1 r = stored_point to_ecef t r) by (intro r; unfold stored_point; rewrite E, S; reflexivity).
    assert (PH : t_ecef t = true -> ~ In Pickle h) by (intros X Y; exact (P X (or_intror Y))).
    destruct o as [rows values|rows values| |]; cbn [apply_op held].
    - destruct WO as [L F]. unfold packing, zlen. rewrite L, Z.eqb_refl. cbn [negb]. rewrite (convert_all_ok _ _ _ F). cbn [obind]. apply IH; cbn [t_ecef t_spheroid t_items]; try assumption.
      rewrite combine_map. apply map_ext. intros [r v]. cbn [fst snd]. rewrite SP. reflexivity.
    - destruct WO as [L F]. unfold insert, zlen. rewrite L, Z.eqb_refl. cbn [negb]. rewrite (convert_all_ok _ _ _ F). cbn [obind]. apply IH; cbn [t_ecef t_spheroid t_items]; try assumption.
      rewrite I, map_app, combine_map. f_equal. apply map_ext. intros [r v]. cbn [fst snd]. rewrite SP. reflexivity.
    - cbn [obind]. apply IH; cbn [clear t_ecef t_spheroid t_items]; auto.
    - unfold setstate, getstate, zlen. rewrite !map_length, Z.eqb_refl. cbn [negb new_rtree]. rewrite E. destruct (t_ecef t) eqn:EC; [exfalso; apply P; [reflexivity|left; reflexivity]|].
      cbn [obind t_spheroid t_ecef]. apply IH; cbn [t_ecef t_spheroid t_items]; auto. rewrite combine_split. exact I. }
  destruct (G h t [] W P E0 eq_refl) as (t' & R & A & B & C); [rewrite I0; reflexivity|]. exists t'. split; [exact R|]. split; [exact A|]. split; [exact B|]. split; [exact C|]. unfold size, zlen. rewrite C, map_length. reflexivity.
Qed.
Print Assumptions C70_contents_partial.
Example C70_ex : let h := [Insert [[9; 9]] [7]; Pack [[1; 2]; [3; 4]] [5; 6]; Pickle; Insert [[0; 1; 2]] [8]] in
  Forall well_formed h /\ fold_left held h [] = [([1; 2], 5); ([3; 4], 6); ([0; 1; 2], 8)] /\
  exists t, new_rtree None false = Ok t.
Proof. cbn zeta. split; [repeat (apply Forall_cons || apply Forall_nil || (split; [reflexivity|])); cbn; auto|]. split; [reflexivity|]. eexists. reflexivity. Qed.

(** Badly shaped arrays are refused. *)
Theorem C70_shapes : forall to_ecef t rows values, length rows <> length values \/ Exists (fun r => length r <> 2%nat /\ length r <> 3%nat) rows ->
  (exists w, packing to_ecef t rows values = Throw w) /\ (exists w, insert to_ecef t rows values = Throw w).
Proof.
  intros to_ecef t rows values H. unfold packing, insert, zlen. destruct (Z.eqb_spec (Z.of_nat (length rows)) (Z.of_nat (length values))) as [L|L]; cbn [negb]; [|split; eexists; reflexivity].
  destruct H as [H|H]; [lia|]. assert (C : exists w, convert_all to_ecef t rows = Throw w).
  { clear L. induction H as [r rows [A B]|r rows H [w IH]].
    - destruct r as [|x [|y [|z [|u r]]]]; cbn in A, B; try lia; eexists; reflexivity.
    - cbn [convert_all]. destruct r as [|x [|y [|z [|u r]]]]; cbn [convert obind]; try (eexists; reflexivity); rewrite IH; eexists; reflexivity. }
  destruct C as [w C]. rewrite C. split; eexists; reflexivity.
Qed.
(** An index of Cartesian coordinates cannot be pickled: restoring its state always fails. *)
Theorem C70_ecef_pickle_refuted : forall wgs t to_ecef h t', new_rtree wgs true = Ok t -> run to_ecef t h = Ok t' ->
  exists w, setstate (getstate t') = Throw w.
Proof.
  intros wgs t to_ecef h t' N R. assert (E : t_ecef t = true) by (unfold new_rtree in N; destruct wgs; inversion N; reflexivity). clear N. revert t E R. induction h as [|o h IH]; intros t E R; cbn [run] in R.
  - injection R as <-. unfold setstate, getstate, zlen. rewrite !map_length, Z.eqb_refl. cbn [negb]. rewrite E. eexists. reflexivity.
  - destruct (apply_op to_ecef t o) as [t1|w|w] eqn:A; cbn [obind] in R; try discriminate. apply (IH t1); [|exact R]. destruct o; cbn [apply_op] in A.
    + unfold packing in A. destruct (negb _); [discriminate|]. destruct (convert_all to_ecef t rows); cbn in A; inversion A. exact E.
    + unfold insert in A. destruct (negb _); [discriminate|]. destruct (convert_all to_ecef t rows); cbn in A; inversion A. exact E.
    + inversion A. exact E.
    + unfold setstate, getstate, zlen in A. rewrite !map_length, Z.eqb_refl in A. cbn [negb] in A. rewrite E in A. discriminate.
Qed.
(** [bounds]: for stored positions with only negative longitudes (or latitudes, or altitudes), the upper
    bound is a positive number. *)
Theorem C70_bounds_refuted : forall to_lla t, t_items t <> [] -> (forall i, In i (t_items t) -> px (to_lla (t_spheroid t) (fst i)) <= 0) ->
  exists lo hi, bounds to_lla t = Some (lo, hi) /\ 0 < px hi /\ forall i, In i (t_items t) -> px (to_lla (t_spheroid t) (fst i)) < px hi.
Proof.
  intros to_lla t NE H. unfold bounds. destruct (t_items t) as [|i0 l0] eqn:I; [contradiction|]. rewrite <- I in *. eexists. eexists. split; [reflexivity|]. cbn [px fst snd].
  set (l := map px (map (fun i => to_lla (t_spheroid t) (fst i)) (t_items t))).
  assert (F : forall x, In x l -> x <= 0). { intros x X. unfold l in X. rewrite map_map in X. apply in_map_iff in X as (i & <- & X). apply H. exact X. }
  assert (P : 0 < / IZR (2 ^ 1022)) by (apply Rinv_0_lt_compat, IZR_lt; reflexivity).
  assert (E : highest l = / IZR (2 ^ 1022)).
  { unfold highest. set (e := / IZR (2 ^ 1022)) in *. clearbody e. clear -F P. induction l as [|x l IH]; [reflexivity|]. cbn [fold_left]. rewrite Rmax_left; [apply IH; intros y Y; apply F; right; exact Y|]. specialize (F x (or_introl eq_refl)). lra. }
  rewrite E. split; [exact P|]. intros i X. specialize (H i X). lra.
Qed.

(** * C71 nearest neighbours *)
(** [query]: a row holds the distances and values of k nearest stored items, nearest first, every
    other stored item being at least as far; then (-1, -1) for the items that do not exist. With
    [within], the row is filled only if the query is in the box of these items. *)
Theorem C71_query : forall knn t p k within, knn_contract knn -> exists chosen, k_nearest t p k chosen /\
  let row := map (fun i => (dist p (fst i), snd i)) chosen ++ repeat (-1, -1) (k - length chosen) in
  length row = k /\
  (within = false \/ in_box (map fst chosen) p -> query_row knn t p k within = row) /\
  (within = true -> ~ in_box (map fst chosen) p -> query_row knn t p k within = repeat (-1, -1) k).
Proof.
  intros knn t p k within K. exists (knn t p k). pose proof (K t p k) as C. split; [exact C|]. cbn zeta. destruct C as [L _]. split; [|split].
  - rewrite app_length, map_length, repeat_length. unfold item in *. lia.
  - intro H. unfold query_row, neighbours, query_within, query. destruct within.
    + destruct H as [H|H]; [discriminate|]. apply covered_spec in H. rewrite H, map_length. reflexivity.
    + rewrite map_length. reflexivity.
  - intros -> H. unfold query_row, neighbours, query_within. apply covered_false in H. rewrite H. cbn [app length]. rewrite Nat.sub_0_r. reflexivity.
Qed.
Print Assumptions C71_query.
(** No distance of a row is smaller than that of an item left out, and the distances increase. *)
Theorem C71_sorted : forall knn t p k n m d v d' v', knn_contract knn -> (n < m)%nat -> nth_error (query knn t p k) n = Some (d, v) -> nth_error (query knn t p k) m = Some (d', v') -> 0 <= d <= d'.
Proof.
  intros knn t p k n m d v d' v' K L A B. destruct (K t p k) as (_ & S & _). unfold query in *. rewrite nth_error_map in A, B.
  unfold item in *. destruct (nth_error (knn t p k) n) as [i|] eqn:I; [|discriminate]. destruct (nth_error (knn t p k) m) as [j|] eqn:J; [|discriminate]. cbn in A, B. injection A as <- _. injection B as <- _. split; [apply dist_nonneg|].
  revert n m i j L I J. induction S as [|x l S IH F]; intros n m i j L I J; [destruct n; discriminate|]. destruct m as [|m]; [lia|]. cbn in J. destruct n as [|n].
  - cbn in I. injection I as <-. rewrite Forall_forall in F. apply F. eapply nth_error_In. exact J.
  - cbn in I. apply (IH n m); [lia|exact I|exact J].
Qed.
(** The distances are Euclidean distances. *)
Theorem C71_distance : forall x y z x' y' z', let d := dist (x, y, z) (x', y', z') in 0 <= d /\ d * d = (x' - x) * (x' - x) + (y' - y) * (y' - y) + (z' - z) * (z' - z).
Proof.
  intros x y z x' y' z'. cbn zeta. split; [apply dist_nonneg|]. unfold dist, px, py, pz. cbn [fst snd]. rewrite sqrt_sqrt; [ring|].
  pose proof (pow2_ge_0 (x - x')). pose proof (pow2_ge_0 (y - y')). pose proof (pow2_ge_0 (z - z')). lra.
Qed.
(** [query_ball]: exactly the stored items at most at the given distance. *)
Theorem C71_ball : forall t p r d v, In (d, v) (query_ball t p r) <-> exists q, In (q, v) t /\ d = dist p q /\ d <= r.
Proof.
  intros t p r d v. unfold query_ball. rewrite in_map_iff. split.
  - intros ([q u] & E & I). cbn in E. injection E as <- <-. apply filter_In in I as [I L]. apply Rleb_true in L. cbn [fst] in L. exists q. rewrite dist_sym in L. auto.
  - intros (q & I & -> & L). exists (q, v). split; [reflexivity|]. apply filter_In. split; [exact I|]. apply Rleb_true. cbn [fst]. rewrite dist_sym. exact L.
Qed.
(** The box is not the convex hull: a query accepted by [within] may be outside the segment joining its
    only two neighbours. *)
Theorem C71_within_refuted : forall knn, knn_contract knn ->
  let t := [((0, 0, 0), 1); ((1, 1, 0), 2)] in let p := (1, 0, 0) in
  ~ in_box [] p /\ query_within knn t p 2 <> [] /\
  ~ exists s, 0 <= s <= 1 /\ px p = s * 1 /\ py p = s * 1 /\ pz p = 0.
Proof.
  intros knn K t p. split; [intro B; destruct (B px (or_introl eq_refl)) as (q & _ & [] & _)|]. split.
  - destruct (K t p 2%nat) as (L & _ & o & P & _). cbn [t length Nat.min] in L. assert (O : o = []). { apply Permutation_length in P. rewrite app_length, L in P. cbn [t length] in P. destruct o; [reflexivity|cbn in P; lia]. }
    subst o. rewrite app_nil_r in P. unfold query_within.
    assert (B : in_box (map fst (knn t p 2%nat)) p).
    { assert (A0 : In (0, 0, 0) (map fst (knn t p 2%nat))) by (apply in_map_iff; exists ((0, 0, 0), 1); split; [reflexivity|]; eapply Permutation_in; [exact P|left; reflexivity]).
      assert (A1 : In (1, 1, 0) (map fst (knn t p 2%nat))) by (apply in_map_iff; exists ((1, 1, 0), 2); split; [reflexivity|]; eapply Permutation_in; [exact P|right; left; reflexivity]).
      intros f [<-|[<-|[<-|[]]]]; exists (0, 0, 0), (1, 1, 0); cbn [px py pz p fst snd]; repeat split; try assumption; lra. }
    apply covered_spec in B. rewrite B. intro E. apply map_eq_nil in E. rewrite E in L. discriminate.
  - intros (s & S & A & B & _). cbn [px py p fst snd] in A, B. lra.
Qed.

(** * C72 inverse distance weighting *)
(** The value at a stored position, else the mean of the values of the k nearest items at most at the
    radius, weighted by the power of the inverse of the distance: it lies between them; the number of
    values used is returned; no value (NaN, 0) if there are none or if [within] is not satisfied. *)
Theorem C72_idw : forall knn t pt radius k p within, knn_contract knn -> exists chosen, k_nearest t pt k chosen /\
  (within = true -> ~ in_box (map fst chosen) pt -> idw knn t pt radius k p within = (None, 0%Z)) /\
  (within = false \/ in_box (map fst chosen) pt ->
    (forall i rest, chosen = i :: rest -> dist pt (fst i) < 1 / 1000000 -> idw knn t pt radius k p within = (Some (snd i), Z.of_nat k)) /\
    ((forall i, In i chosen -> 1 / 1000000 <= dist pt (fst i)) -> exists used,
      (forall i, In i used <-> In i chosen /\ in_radius radius (dist pt (fst i))) /\
      (used = [] -> idw knn t pt radius k p within = (None, 0%Z)) /\
      (used <> [] -> exists m, idw knn t pt radius k p within = (Some m, zlen used) /\
        weighted_mean (fun i => 1 / dist pt (fst i) ^ p) used m /\ between_values used m))).
Proof.
  intros knn t pt radius k p within K. exists (knn t pt k). pose proof (K t pt k) as C. split; [exact C|]. split.
  - intros -> H. unfold idw, neighbours, query_within. apply covered_false in H. rewrite H. cbn [idw_loop]. assert (Z : Reqb 0 0 = true) by (apply Reqb_true; reflexivity). rewrite Z. reflexivity.
  - intro H. assert (E : neighbours knn within t pt k = map (row_of pt) (knn t pt k)).
    { unfold neighbours, query_within, query. destruct within; [|reflexivity]. destruct H as [H|H]; [discriminate|]. apply covered_spec in H. rewrite H. reflexivity. }
    unfold idw. rewrite E. split.
    + intros i rest EQ D. rewrite EQ. cbn [map row_of idw_loop]. apply Rltb_true in D. rewrite D. reflexivity.
    + intro F. exists (filter (fun i => within_radius radius (dist pt (fst i))) (knn t pt k)). split.
      * intro i. rewrite filter_In, within_radius_spec. reflexivity.
      * pose proof (idw_loop_far k p radius pt (knn t pt k) [] 0%Z F eq_refl) as L. cbn zeta in L. cbn [app] in L. change (sum_of (fun i => idw_weight pt p i * snd i) []) with 0 in L. change (sum_of (idw_weight pt p) []) with 0 in L. set (used := filter _ _) in *.
        assert (U : forall i, In i used -> 0 < idw_weight pt p i) by (intros i I; apply filter_In in I as [I _]; apply idw_weight_pos, F; exact I). rewrite L. split.
        -- intro N. rewrite N. cbn [sum_of fold_right]. assert (Z : Reqb 0 0 = true) by (apply Reqb_true; reflexivity). rewrite Z. reflexivity.
        -- intro N. pose proof (sum_pos _ _ U N) as P. assert (Z : Reqb (sum_of (idw_weight pt p) used) 0 = false) by (apply Reqb_false; lra). rewrite Z. eexists. split; [reflexivity|].
           assert (W : weighted_mean (idw_weight pt p) used (sum_of (fun i => idw_weight pt p i * snd i) used / sum_of (idw_weight pt p) used)) by (split; [lra|field; lra]).
           split; [exact W|]. apply (mean_between (idw_weight pt p)); [intros i I; left; apply U; exact I|exact W].
Qed.
Print Assumptions C72_idw.
(** Close to a stored position the number returned is k, whatever the number of items: here one item
    and nine neighbours "used". *)
Theorem C72_count_refuted : forall knn radius p, knn_contract knn -> let t := [((0, 0, 0), 5)] in
  idw knn t (0, 0, 0) radius 9 p false = (Some 5, 9%Z).
Proof.
  intros knn radius p K t. destruct (K t (0, 0, 0) 9%nat) as (L & _ & o & P & _). cbn [t length Nat.min] in L.
  assert (O : o = []). { apply Permutation_length in P. rewrite app_length, L in P. cbn in P. destruct o; [reflexivity|cbn in P; lia]. }
  subst o. rewrite app_nil_r in P. apply Permutation_length_1_inv in P. unfold idw, neighbours, query. rewrite P. cbn [map idw_loop fst snd].
  assert (D : dist (0, 0, 0) (0, 0, 0) = 0) by (unfold dist, px, py, pz; cbn [fst snd]; replace (_ + _) with 0 by ring; apply sqrt_0).
  rewrite D. assert (X : Rltb 0 (1 / 1000000) = true) by (apply Rltb_true; lra). rewrite X. reflexivity.
Qed.

(** * C73 window functions *)
(** For a window whose weights are non-negative numbers on the neighbours (radius given, or the distance
    of the furthest neighbour): the mean of the values weighted by the window, between them, and the
    number of neighbours at most at the radius; (NaN, 0) when all the weights are null. *)
Theorem C73_window : forall knn t pt w radius k within, knn_contract knn -> exists chosen, k_nearest t pt k chosen /\
  (within = true -> ~ in_box (map fst chosen) pt -> window_function knn t pt w radius k within = (None, 0%Z)) /\
  (within = false \/ in_box (map fst chosen) pt -> forall r wt,
    (radius = Some r \/ radius = None /\ exists i, In i chosen /\ dist pt (fst i) = r /\ forall j, In j chosen -> dist pt (fst j) <= r) ->
    (forall i, In i chosen -> dist pt (fst i) <= r -> w (dist pt (fst i)) r = Some (wt i)) ->
    exists used,
      (forall i, In i used <-> In i chosen /\ dist pt (fst i) <= r) /\
      (sum_of wt used = 0 -> window_function knn t pt w radius k within = (None, 0%Z)) /\
      (sum_of wt used <> 0 -> exists m, window_function knn t pt w radius k within = (Some m, zlen used) /\ weighted_mean wt used m /\
        ((forall i, In i used -> 0 <= wt i) -> between_values used m))).
Proof.
  intros knn t pt w radius k within K. exists (knn t pt k). pose proof (K t pt k) as C. split; [exact C|]. split.
  - intros -> H. unfold window_function, neighbours, query_within. apply covered_false in H. rewrite H. cbn [window_loop last fst].
    assert (Z : Reqb 0 0 = true) by (apply Reqb_true; reflexivity). rewrite Z. reflexivity.
  - intros H r wt RR WT. assert (E : neighbours knn within t pt k = map (row_of pt) (knn t pt k)).
    { unfold neighbours, query_within, query. destruct within; [|reflexivity]. destruct H as [H|H]; [discriminate|]. apply covered_spec in H. rewrite H. reflexivity. }
    destruct C as (_ & S & _). set (l := knn t pt k) in *.
    assert (FAR : (match radius with Some r => r | None => fst (last (map (row_of pt) l) (0, 0)) end) = r).
    { destruct RR as [-> |(-> & i & I & D & M)]; [reflexivity|]. destruct l as [|x l0] eqn:EL; [destruct I|]. assert (NE : x :: l0 <> []) by discriminate. destruct (exists_last NE) as (l1 & y & EY). rewrite EY, map_app. cbn [map]. rewrite last_last. cbn [row_of fst].
      rewrite EY in *. apply Rle_antisym; [apply M, in_or_app; right; left; reflexivity|]. rewrite <- D. apply in_app_or in I as [I|[<-|[]]]; [|lra]. apply (proj2 (sorted_app _ _ _ S)); [exact I|left; reflexivity]. }
    assert (PX : prefix radius pt l = filter (fun i => Rleb (dist pt (fst i)) r) l).
    { rewrite prefix_filter by exact S. apply filter_ext_in. intros i I. destruct RR as [-> |(-> & j & _ & _ & M)]; [reflexivity|]. cbn [within_radius]. symmetry. apply Rleb_true, M. exact I. }
    exists (prefix radius pt l). split; [intro i; rewrite PX, filter_In, Rleb_true; reflexivity|].
    assert (WP : forall i, In i (prefix radius pt l) -> w (dist pt (fst i)) r = Some (wt i)) by (intros i I; rewrite PX in I; apply filter_In in I as [I L]; apply Rleb_true in L; apply WT; assumption).
    pose proof (window_loop_spec w r radius pt l [] 0%Z wt eq_refl WP) as L. cbn zeta in L. cbn [app] in L. change (sum_of (fun i => wt i * snd i) []) with 0 in L. change (sum_of wt []) with 0 in L.
    unfold window_function. rewrite E, FAR, L. set (used := prefix radius pt l) in *. split.
    + intro Z. apply Reqb_true in Z. rewrite Z. reflexivity.
    + intro NZ. pose proof NZ as NZ'. apply Reqb_false in NZ'. rewrite NZ'. eexists. split; [reflexivity|].
      assert (M : weighted_mean wt used (sum_of (fun i => wt i * snd i) used / sum_of wt used)) by (split; [exact NZ|field; exact NZ]). split; [exact M|]. intro P. apply (mean_between wt); assumption.
Qed.
Print Assumptions C73_window.
(** With the windows of C58, a positive radius and the accepted arguments the weights are numbers of [0, 1]. *)
Theorem C73_python : forall knn t pt w arg f r k, knn_contract knn -> python_weight w arg = Ok f ->
  w <> FlatTop -> (w = Gaussian -> arg <> Some 0) -> (w = Lanczos -> arg <> None) -> 0 < r ->
  exists used, (forall i, In i used -> In i t /\ dist pt (fst i) <= r) /\
    ((exists m, window_function knn t pt f (Some r) k false = (Some m, zlen used) /\ between_values used m) \/
     window_function knn t pt f (Some r) k false = (None, 0%Z)).
Proof.
  intros knn t pt w arg f r k K E I G LZ R. destruct (C73_window knn t pt f (Some r) k false K) as (chosen & CH & _ & H).
  assert (W : forall d, 0 <= d <= r -> exists v, f d r = Some v /\ 0 <= v <= 1).
  { intros d D. assert (J : w = Lanczos \/ In w [Blackman; BlackmanHarris; Boxcar; Gaussian; Hamming; Nuttall] \/ In w [Parzen; ParzenSWOT]) by (destruct w; cbn; auto 12; contradiction). destruct J as [-> |[J|J]].
    - destruct arg as [a|]; [|exfalso; apply LZ; reflexivity]. exact (C58_lanczos_inside_partial a f d r E R D).
    - destruct (C58_windows_partial w arg f d r E J G R (proj1 D)) as (v & V & B & _). exists v. auto.
    - exact (C58_parzen_partial w arg f d r E J R D). }
  set (wt := fun i : item => match f (dist pt (fst i)) r with Some v => v | None => 0 end).
  destruct (H (or_introl eq_refl) r wt (or_introl eq_refl)) as (used & U & Z & NZ).
  { intros i _ L. destruct (W (dist pt (fst i)) (conj (dist_nonneg _ _) L)) as (v & V & _). unfold wt. rewrite V. reflexivity. }
  exists used. split.
  - intros i X. apply U in X as [X L]. split; [|exact L]. destruct CH as (_ & _ & o & P & _). eapply Permutation_in; [apply Permutation_sym; exact P|]. apply in_or_app. left. exact X.
  - destruct (Req_dec (sum_of wt used) 0) as [S|S]; [right; apply Z; exact S|left]. destruct (NZ S) as (m & M & _ & B). exists m. split; [exact M|]. apply B. intros i X. apply U in X as [_ L].
    destruct (W (dist pt (fst i)) (conj (dist_nonneg _ _) L)) as (v & V & VB). unfold wt. rewrite V. lra.
Qed.
Print Assumptions C73_python.

(** The flat top window leaves the range of the values: here the two values are 0 and 1. *)
Theorem C73_flat_top_refuted : forall knn f, knn_contract knn -> python_weight FlatTop None = Ok f ->
  let t := [((0, 0, 0), 0); ((1, 0, 0), 1)] in
  exists m, window_function knn t (0, 0, 0) f (Some 1) 2 false = (Some m, 2%Z) /\ m < 0.
Proof.
  intros knn f K E t. injection E as <-. set (p := (0, 0, 0)). set (f := fun d r => weight FlatTop d r (arg_value None)).
  destruct (K t p 2%nat) as (L & S & o & P & _). cbn [t length Nat.min] in L.
  assert (O : o = []). { apply Permutation_length in P. rewrite app_length in P. unfold item in *. rewrite L in P. cbn in P. destruct o; [reflexivity|cbn in P; lia]. }
  subst o. rewrite app_nil_r in P.
  assert (D0 : dist p (0, 0, 0) = 0) by (unfold dist, p, px, py, pz; cbn [fst snd]; replace (_ + _) with 0 by ring; apply sqrt_0).
  assert (D1 : dist p (1, 0, 0) = 1) by (unfold dist, p, px, py, pz; cbn [fst snd]; replace (_ + _) with 1 by ring; apply sqrt_1).
  assert (Q : knn t p 2%nat = t).
  { apply Permutation_length_2_inv in P as [P|P]; [exact P|exfalso]. rewrite P in S. apply StronglySorted_inv in S as [_ S]. inversion S as [|? ? B _]; subst. cbn [fst] in B. lra. }
  unfold window_function, neighbours, query. rewrite Q. cbn [t map fst snd last]. rewrite D0, D1. cbn [window_loop].
  assert (A0 : within_radius (Some 1) 0 = true) by (apply Rleb_true; lra). assert (A1 : within_radius (Some 1) 1 = true) by (apply Rleb_true; lra). rewrite A0, A1.
  assert (U0 : - cos (PI * (0 / 1)) = -1) by (replace (0 / 1) with 0 by field; rewrite Rmult_0_r, cos_0; ring).
  assert (U1 : - cos (PI * (1 / 1)) = 1) by (replace (1 / 1) with 1 by field; rewrite Rmult_1_r, cos_PI; ring).
  cbn [weight]. rewrite !flat_in by lra. unfold uu. rewrite U0, U1. unfold p_flat.
  match goal with |- context [Reqb ?x 0] => assert (N : Reqb x 0 = false) by (apply Reqb_false; lra); rewrite N end. eexists. split; [reflexivity|].
  apply (Rmult_lt_reg_r (10000 / 10000)); [lra|].
  match goal with |- ?a / ?b * _ < _ => assert (0 < b) by lra; assert (a < 0) by lra; assert (0 < / b) by (apply Rinv_0_lt_compat; assumption) end. unfold Rdiv. nra.
Qed.
(** Lanczos without argument never gives a value. *)
Theorem C73_lanczos_default_refuted : exists f, python_weight Lanczos None = Ok f /\
  forall knn t pt radius k within, fst (window_function knn t pt f radius k within) = None.
Proof.
  destruct C58_lanczos_default_refuted as (f & F & H). exists f. split; [exact F|]. intros knn t pt radius k within. unfold window_function. set (l := neighbours knn within t pt k). set (far := match radius with Some r => r | None => _ end). clearbody l far.
  assert (G : forall l s n, (s = None \/ exists a, s = Some (a, 0)) -> let '(s', _) := window_loop f far radius l s n in s' = None \/ exists a, s' = Some (a, 0)).
  { clear l. induction l as [|[d v] l IH]; intros s n S; cbn [window_loop]; [exact S|]. destruct (within_radius radius d); [|exact S]. apply IH. destruct S as [-> |[a ->]]; [left; reflexivity|].
    destruct (H d far) as [E|E]; rewrite E; [right|left; reflexivity]. exists (a + v * 0). f_equal. f_equal. ring. }
  specialize (G l (Some (0, 0)) 0%Z (or_intror (ex_intro _ 0 eq_refl))). destruct (window_loop f far radius l (Some (0, 0)) 0%Z) as [s n]. destruct G as [-> |[a ->]]; [reflexivity|].
  assert (Z : Reqb 0 0 = true) by (apply Reqb_true; reflexivity). rewrite Z. reflexivity.
Qed.

(** * C74 the neighbours as coordinates and values *)
(** [value]: the k nearest items at most at the radius, nearest first, then missing values; with [within]
    nothing when the query is not in their box. *)
Theorem C74_value : forall knn t p radius k within, knn_contract knn -> exists chosen, k_nearest t p k chosen /\
  exists used, (forall i, In i used <-> In i chosen /\ in_radius radius (dist p (fst i))) /\
    StronglySorted (fun i j => dist p (fst i) <= dist p (fst j)) used /\ (length used <= k)%nat /\
    (within = false \/ in_box (map fst used) p -> value_row knn t p radius k within = map Some used ++ repeat None (k - length used)) /\
    (within = true -> ~ in_box (map fst used) p -> value_row knn t p radius k within = repeat None k).
Proof.
  intros knn t p radius k within K. exists (knn t p k). pose proof (K t p k) as C. split; [exact C|]. destruct C as (L & S & _).
  exists (filter (fun i => within_radius radius (dist (fst i) p)) (knn t p k)). set (used := filter _ _). split; [|split; [|split; [|split]]].
  - intro i. unfold used. rewrite filter_In, within_radius_spec, dist_sym. reflexivity.
  - unfold used. clear L. induction S as [|x l S IH F]; [constructor|]. cbn [filter]. destruct (within_radius _ _); [|exact IH]. constructor; [exact IH|]. rewrite Forall_forall in *. intros y Y. apply filter_In in Y as [Y _]. apply F. exact Y.
  - assert (G : forall (f : item -> bool) l, (length (filter f l) <= length l)%nat) by (intros f l; induction l as [|x l IH]; cbn [filter length]; [lia|destruct (f x); cbn [length]; lia]).
    pose proof (G (fun i => within_radius radius (dist (fst i) p)) (knn t p k)) as GG. unfold used, item in *. lia.
  - intro H. unfold value_row, value. fold used. destruct within; [|reflexivity]. destruct H as [H|H]; [discriminate|]. apply covered_spec in H. rewrite H. reflexivity.
  - intros -> H. unfold value_row, value. fold used. apply covered_false in H. rewrite H. cbn [map app length]. rewrite Nat.sub_0_r. reflexivity.
Qed.
Print Assumptions C74_value.
(** The selection used by the radial basis functions and by kriging is the same. *)
Theorem C74_nearest : forall knn t p radius k within, nearest knn t p radius k within = value knn t p radius k within.
Proof. intros knn t p radius k within. unfold nearest, value. replace (filter (fun i => within_radius radius (dist p (fst i))) (knn t p k)) with (filter (fun i => within_radius radius (dist (fst i) p)) (knn t p k)); [reflexivity|]. apply filter_ext. intro i. rewrite dist_sym. reflexivity. Qed.
