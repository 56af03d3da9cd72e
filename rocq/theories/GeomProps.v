(** Theorems about line strings, polygons and boxes (properties C87, C88 and C89). *)
From Verif Require Import Base BaseProofs GeomModel.
Open Scope Z_scope.

(** * Specification: sum of the lengths of the segments *)
(** Length of the first [n] segments of a line. *)
Definition path_length {P : Type} (distance : P -> P -> Q) (l : list P) (d : P) (n : nat) : Q :=
  fold_right Qplus 0%Q (map (fun i => distance (nth i l d) (nth (S i) l d)) (seq 0 n)).

(** * C87 curvilinear distance *)
Lemma path_length_S {P} (dist : P -> P -> Q) l d n :
  (path_length dist l d (S n) == path_length dist l d n + dist (nth n l d) (nth (S n) l d))%Q.
Proof.
  unfold path_length. rewrite seq_S, map_app, fold_right_app. cbn [map fold_right Nat.add].
  generalize (dist (nth n l d) (nth (S n) l d)). intro q.
  induction (map (fun i => dist (nth i l d) (nth (S i) l d)) (seq 0 n)) as [|x t IH]; cbn [fold_right].
  - ring.
  - rewrite IH. ring.
Qed.
Lemma curvilinear_from_length {P} (dist : P -> P -> Q) l : forall p t, length (curvilinear_from dist p t l) = length l.
Proof. induction l as [|a l IH]; intros; [reflexivity|]. cbn. f_equal. apply IH. Qed.
Lemma curvilinear_from_nth {P} (dist : P -> P -> Q) d l : forall p total n, (n < length l)%nat ->
  (nth n (curvilinear_from dist p total l) 0 == total + path_length dist (p :: l) d (S n))%Q.
Proof.
  induction l as [|a l IH]; intros p total n L; [cbn in L; lia|]. cbn [curvilinear_from].
  destruct n as [|n].
  - cbn [nth]. unfold path_length. cbn. ring.
  - cbn [nth]. rewrite IH by (cbn in L; lia).
    assert (E : forall m, (path_length dist (p :: a :: l) d (S m) == dist p a + path_length dist (a :: l) d m)%Q).
    { induction m as [|m IHm]; [unfold path_length; cbn; ring|].
      rewrite path_length_S, IHm, (path_length_S dist (a :: l)). cbn [nth]. ring. }
    rewrite (E (S n)). ring.
Qed.

(** One value per point; value number [k] is the sum of the lengths of the first [k]
    segments (0 for the first point). *)
Theorem C87_sum_of_segments : forall (P : Type) (distance : P -> P -> Q) (l : list P) (d : P),
  length (curvilinear_distance distance l) = length l /\
  forall k, (k < length l)%nat ->
    (nth k (curvilinear_distance distance l) 0 == path_length distance l d k)%Q.
Proof.
  intros P dist l d. destruct l as [|p l]; [split; [reflexivity|intros k L; cbn in L; lia]|].
  cbn [curvilinear_distance]. split; [cbn [length]; f_equal; apply curvilinear_from_length|].
  intros [|k] L; [reflexivity|]. cbn [nth]. rewrite (curvilinear_from_nth dist d) by (cbn in L; lia). ring.
Qed.
Print Assumptions C87_sum_of_segments.

(** When distances are not negative, the values never decrease; with the triangle
    inequality, the value at a point is at least its distance to any earlier point plus
    the value there: a curve is not shorter than its chord. *)
Theorem C87_monotone : forall (P : Type) (distance : P -> P -> Q) (l : list P) (d : P),
  (forall a b, (0 <= distance a b)%Q) ->
  forall i j, (i <= j)%nat -> (j < length l)%nat ->
  (nth i (curvilinear_distance distance l) 0 <= nth j (curvilinear_distance distance l) 0)%Q.
Proof.
  intros P dist l d Pos i j Hij L. destruct (C87_sum_of_segments P dist l d) as [_ H].
  rewrite !H by lia. clear H L. induction Hij as [|j Hij IH]; [lra|].
  rewrite path_length_S. pose proof (Pos (nth j l d) (nth (S j) l d)). lra.
Qed.
Print Assumptions C87_monotone.
Theorem C87_chord : forall (P : Type) (distance : P -> P -> Q) (l : list P) (d : P),
  (forall a, (distance a a == 0)%Q) -> (forall a b c, (distance a c <= distance a b + distance b c)%Q) ->
  forall i j, (i <= j)%nat -> (j < length l)%nat ->
  (distance (nth i l d) (nth j l d) <=
   nth j (curvilinear_distance distance l) 0 - nth i (curvilinear_distance distance l) 0)%Q.
Proof.
  intros P dist l d Z T i j Hij L. destruct (C87_sum_of_segments P dist l d) as [_ H].
  rewrite !H by lia. clear H L. induction Hij as [|j Hij IH].
  - pose proof (Z (nth i l d)). lra.
  - rewrite path_length_S. pose proof (T (nth i l d) (nth j l d) (nth (S j) l d)). lra.
Qed.
Print Assumptions C87_chord.

(** The vectorised search of the closest point answers each point separately... *)
Theorem C87_closest_each : forall closest lon lat, length lon = length lat ->
  closest_points closest lon lat =
    Ok (map (fun p => fst (closest p)) (combine lon lat), map (fun p => Some (snd (closest p))) (combine lon lat)).
Proof.
  intros closest lon lat E.
  assert (H : forall c s, (s + c = length lon)%nat ->
    closest_loop closest lon lat s c = Ok (map closest (skipn s (combine lon lat)))).
  { induction c as [|c IH]; intros s L; cbn [closest_loop].
    - rewrite skipn_all2; [reflexivity|]. rewrite combine_length. lia.
    - unfold closest_body.
      destruct (nth_error lon s) as [x|] eqn:Ex; [|apply nth_error_None in Ex; lia].
      destruct (nth_error lat s) as [y|] eqn:Ey; [|apply nth_error_None in Ey; lia]. cbn [obind].
      rewrite IH by lia. cbn [obind].
      assert (S : skipn s (combine lon lat) = (x, y) :: skipn (S s) (combine lon lat)).
      { clear -Ex Ey. revert lon lat Ex Ey. induction s as [|s IH]; intros [|a lon] [|b lat] Ex Ey; try discriminate.
        - cbn in *. congruence.
        - cbn in Ex, Ey. cbn [combine skipn]. rewrite (IH lon lat) by assumption. reflexivity. }
      rewrite S. reflexivity. }
  unfold closest_points. rewrite (H (length lon) 0%nat) by lia. cbn [obind skipn].
  rewrite !map_map. replace (length lat - length lon)%nat with 0%nat by lia. cbn [repeat]. rewrite app_nil_r. reflexivity.
Qed.
Print Assumptions C87_closest_each.

(** ... but arrays of different sizes are not rejected: with fewer latitudes the arrays
    are accessed out of bounds, with more the end of the answer is never written. *)
Theorem C87_closest_sizes_refuted : forall closest lon lat,
  ((length lat < length lon)%nat -> exists w, closest_points closest lon lat = UB w) /\
  ((length lon < length lat)%nat -> exists xs ys, closest_points closest lon lat = Ok (xs, ys) /\ In None ys).
Proof.
  intros closest lon lat.
  assert (G : forall c s, (s + c = length lon)%nat ->
    ((s <= length lat)%nat -> (length lat < length lon)%nat -> exists w, closest_loop closest lon lat s c = UB w) /\
    ((length lon < length lat)%nat -> exists r, closest_loop closest lon lat s c = Ok r)).
  { induction c as [|c IH]; intros s L; cbn [closest_loop]; (split; [intros B D|intros D]).
    - lia.
    - eexists. reflexivity.
    - unfold closest_body. destruct (nth_error lon s) as [x|] eqn:Ex; [|apply nth_error_None in Ex; lia].
      destruct (nth_error lat s) as [y|] eqn:Ey; [|cbn [obind]; eexists; reflexivity]. cbn [obind].
      assert (s < length lat)%nat by (apply nth_error_Some; congruence).
      destruct (proj1 (IH (S s) ltac:(lia)) ltac:(lia) D) as [w ->]. cbn [obind]. eexists. reflexivity.
    - unfold closest_body. destruct (nth_error lon s) as [x|] eqn:Ex; [|apply nth_error_None in Ex; lia].
      destruct (nth_error lat s) as [y|] eqn:Ey; [|apply nth_error_None in Ey; lia]. cbn [obind].
      destruct (proj2 (IH (S s) ltac:(lia)) D) as [r ->]. cbn [obind]. eexists. reflexivity. }
  split; intro H; unfold closest_points.
  - destruct (proj1 (G (length lon) 0%nat ltac:(lia)) ltac:(lia) H) as [w ->]. eexists. reflexivity.
  - destruct (proj2 (G (length lon) 0%nat ltac:(lia)) H) as [r ->]. cbn [obind]. eexists _, _. split; [reflexivity|].
    apply in_or_app. right. destruct (length lat - length lon)%nat eqn:E; [lia|left; reflexivity].
Qed.
Print Assumptions C87_closest_sizes_refuted.

Example C87_ex : curvilinear_distance (fun a b => Qabs (a - b)) [1; 4; 2]%Q = [0; 0 + 3; 0 + 3 + 2]%Q /\
  closest_points (fun p => (fst p, 0%Q)) [1%Q] [2; 3]%Q = Ok ([1%Q], [Some 0%Q; None]).
Proof. split; reflexivity. Qed.

(** * C88 round trips of the geometries *)
Section RoundTrips.
  Context {V : Type}.

  Lemma ring_round (l : list (gpoint V)) : ring_from_geojson (ring_coordinates l) = Ok l.
  Proof. induction l as [|[x y] l IH]; [reflexivity|]. cbn. unfold ring_coordinates in IH. rewrite IH. reflexivity. Qed.
  Lemma line_arrays_round (l : list (gpoint V)) : line_of_arrays (map fst l) (map snd l) = Ok l.
  Proof.
    unfold line_of_arrays. rewrite !map_length, Nat.eqb_refl. f_equal.
    induction l as [|[x y] l IH]; [reflexivity|]. cbn. f_equal. exact IH.
  Qed.

  (** Line strings: pickling, GeoJSON; building from arrays and reading the points back. *)
  Theorem C88_line : forall l : list (gpoint V),
    line_setstate (line_getstate l) = Ok l /\ line_from_geojson (line_to_geojson l) = Ok l.
  Proof. intro l. split; [apply line_arrays_round|apply ring_round]. Qed.
  Theorem C88_line_items : forall lon lat : list V,
    (length lon <> length lat -> exists w, line_of_arrays lon lat = Throw w) /\
    (length lon = length lat -> exists l, line_of_arrays lon lat = Ok l /\ length l = length lon /\
      (forall i x y, nth_error lon i = Some x -> nth_error lat i = Some y -> line_getitem l i = Ok (x, y)) /\
      (forall i, (length lon <= i)%nat -> exists w, line_getitem l i = Throw w)).
  Proof.
    intros lon lat. unfold line_of_arrays. destruct (Nat.eqb_spec (length lon) (length lat)) as [E|E].
    - split; [congruence|]. intros _. exists (combine lon lat). split; [reflexivity|].
      assert (L : length (combine lon lat) = length lon) by (rewrite combine_length; lia).
      split; [exact L|]. split.
      + clear E L. intros i x y Hx Hy. unfold line_getitem, gpoint in *.
        assert (N : nth_error (combine lon lat) i = Some (x, y)).
        { revert i lat Hx Hy. induction lon as [|a lon IH]; intros [|i] [|b lat] Hx Hy; try discriminate.
          - cbn in *. congruence.
          - cbn in *. apply IH; assumption. }
        unfold gpoint in *. rewrite N. reflexivity.
      + intros i Hi. unfold line_getitem, gpoint in *. replace (nth_error (combine lon lat) i) with (@None (V * V)).
        * eexists. reflexivity.
        * symmetry. apply nth_error_None. lia.
    - split; [intros _; eexists; reflexivity|congruence].
  Qed.
  (** Crossover objects. *)
  Theorem C88_crossover : forall c : list (gpoint V) * list (gpoint V), crossover_setstate (crossover_getstate c) = Ok c.
  Proof.
    intros [a b]. unfold crossover_setstate, crossover_getstate. cbn [fst snd].
    rewrite !(proj1 (C88_line _)). reflexivity.
  Qed.

  (** Polygons: the inner rings without points are lost, everything else comes back. *)
  Definition not_empty {A} (l : list A) : bool := match l with [] => false | _ => true end.
  Lemma inners_round (l : list (list (gpoint V))) :
    inners_from_geojson (map ring_coordinates l) = Ok (filter not_empty l).
  Proof.
    induction l as [|r l IH]; [reflexivity|]. destruct r as [|p r]; [exact IH|].
    cbn [map filter not_empty]. change (ring_coordinates (p :: r)) with (point_coordinates p :: ring_coordinates r).
    cbn [inners_from_geojson]. change (point_coordinates p :: ring_coordinates r) with (ring_coordinates (p :: r)).
    rewrite ring_round. cbn [obind]. rewrite IH. reflexivity.
  Qed.
  Theorem C88_polygon : forall p : polygon V,
    polygon_setstate (polygon_getstate p) = Ok (Polygon (outer p) (filter not_empty (inners p))) /\
    polygon_from_geojson (polygon_coordinates p) = polygon_setstate (polygon_getstate p) /\
    ((forall r, In r (inners p) -> r <> []) -> polygon_setstate (polygon_getstate p) = Ok p).
  Proof.
    intros [o i]. cbn [outer inners].
    assert (E : polygon_setstate (polygon_getstate (Polygon o i)) = Ok (Polygon o (filter not_empty i))).
    { unfold polygon_setstate, polygon_getstate, polygon_coordinates, polygon_from_geojson. cbn [outer inners].
      rewrite ring_round. cbn [obind]. rewrite inners_round. reflexivity. }
    split; [exact E|]. split; [reflexivity|]. intro H. rewrite E. do 2 f_equal.
    induction i as [|r i IH]; [reflexivity|]. cbn [filter]. destruct r as [|p r]; [exfalso; apply (H []); [left; reflexivity|reflexivity]|].
    cbn [not_empty]. f_equal. apply IH; [|intros s Hs; apply H; right; exact Hs].
    unfold polygon_setstate, polygon_getstate, polygon_coordinates, polygon_from_geojson. cbn [outer inners].
    rewrite ring_round. cbn [obind]. rewrite inners_round. reflexivity.
  Qed.
  Theorem C88_multipolygon : forall m : list (polygon V),
    multi_from_geojson (multi_coordinates m) = Ok (map (fun p => Polygon (outer p) (filter not_empty (inners p))) m) /\
    ((forall p r, In p m -> In r (inners p) -> r <> []) -> multi_from_geojson (multi_coordinates m) = Ok m).
  Proof.
    intro m. assert (E : multi_from_geojson (multi_coordinates m) = Ok (map (fun p => Polygon (outer p) (filter not_empty (inners p))) m)).
    { induction m as [|p m IH]; [reflexivity|]. cbn [multi_coordinates map multi_from_geojson].
      destruct (C88_polygon p) as (H & G & _). rewrite G, H. cbn [obind]. unfold multi_coordinates in IH. rewrite IH. reflexivity. }
    split; [exact E|]. intro H. rewrite E. f_equal. clear E. induction m as [|p m IH]; [reflexivity|]. cbn [map]. f_equal.
    - destruct (C88_polygon p) as (A & _ & B). rewrite A in B.
      specialize (B ltac:(intros r Hr; apply (H p r); [left; reflexivity|exact Hr])). congruence.
    - apply IH. intros q r Hq Hr. apply (H q r); [right; exact Hq|exact Hr].
  Qed.
  (** GeoJSON points that do not have exactly two coordinates are rejected. *)
  Theorem C88_bad_point : forall (data : list (list V)) c, In c data -> length c <> 2%nat ->
    exists w, line_from_geojson data = Throw w.
  Proof.
    intros data c Hc L. unfold line_from_geojson. induction data as [|d t IH]; [destruct Hc|]. cbn [ring_from_geojson].
    destruct (point_from_geojson d) as [p|w|w] eqn:E; cbn [obind].
    - destruct Hc as [->|Hc]; [destruct c as [|x [|y [|z c]]]; cbn in E, L; try discriminate; lia|].
      destruct (IH Hc) as [w ->]. eexists. reflexivity.
    - eexists. reflexivity.
    - destruct d as [|x [|y [|z d]]]; cbn in E; discriminate.
  Qed.
End RoundTrips.
Print Assumptions C88_line.
Print Assumptions C88_line_items.
Print Assumptions C88_crossover.
Print Assumptions C88_polygon.
Print Assumptions C88_multipolygon.
Print Assumptions C88_bad_point.

(** A polygon with an empty inner ring does not come back equal. *)
Theorem C88_empty_ring_refuted : exists p : polygon Z, polygon_setstate (polygon_getstate p) <> Ok p.
Proof. exists (Polygon [(0, 0)] [[]]). intro H. discriminate H. Qed.

Example C88_ex :
  polygon_setstate (polygon_getstate (Polygon [(0, 0); (0, 10); (10, 10); (0, 0)] [[(1, 1); (1, 2); (2, 2); (1, 1)]])) =
    Ok (Polygon [(0, 0); (0, 10); (10, 10); (0, 0)] [[(1, 1); (1, 2); (2, 2); (1, 1)]]) /\
  polygon_from_geojson (V := Z) [] = Ok (Polygon [] []).
Proof. split; reflexivity. Qed.

(** * C89 boxes *)
Lemma box_make_cases mn mx :
  ((-(180) <= fst mn)%Q /\ (fst mn <= fst mx)%Q /\ (fst mx <= 180)%Q /\ box_make mn mx = Ok (GBox mn mx)) \/
  (~ ((-(180) <= fst mn)%Q /\ (fst mn <= fst mx)%Q /\ (fst mx <= 180)%Q) /\ exists w, box_make mn mx = Throw w).
Proof.
  assert (C : forall a b : Q, (Qltb a b = true /\ (a < b)%Q) \/ (Qltb a b = false /\ (b <= a)%Q)).
  { intros a b. unfold Qltb. destruct (Qle_bool b a) eqn:E; cbn.
    - right. split; [reflexivity|]. apply Qle_bool_iff; exact E.
    - left. split; [reflexivity|]. apply Qnot_le_lt. intro G. apply Qle_bool_iff in G. congruence. }
  unfold box_make.
  destruct (C 180%Q (fst mn)) as [[-> A]|[-> A]]; cbn [orb]; [right; split; [lra|eexists; reflexivity]|].
  destruct (C 180%Q (fst mx)) as [[-> B]|[-> B]]; cbn [orb]; [right; split; [lra|eexists; reflexivity]|].
  destruct (C (fst mn) (-(180))%Q) as [[-> D]|[-> D]]; cbn [orb]; [right; split; [lra|eexists; reflexivity]|].
  destruct (C (fst mx) (-(180))%Q) as [[-> E]|[-> E]]; cbn [orb]; [right; split; [lra|eexists; reflexivity]|].
  destruct (C (fst mx) (fst mn)) as [[-> F]|[-> F]]; [right; split; [lra|eexists; reflexivity]|].
  left. repeat split; assumption.
Qed.

(** [Box(a, b)] never fails on longitudes of [-180, 180], whatever their order, and the
    corners are then ordered in longitude; it fails on any other longitude. *)
Theorem C89_new : forall a b : Q * Q,
  ((-(180) <= fst a <= 180)%Q -> (-(180) <= fst b <= 180)%Q ->
    exists bx, box_new a b = Ok bx /\ (fst (min_corner bx) <= fst (max_corner bx))%Q /\
      ((min_corner bx = a /\ max_corner bx = b) \/ (min_corner bx = b /\ max_corner bx = a))) /\
  (~ (-(180) <= fst a <= 180)%Q \/ ~ (-(180) <= fst b <= 180)%Q -> exists w, box_new a b = Throw w).
Proof.
  intros a b. unfold box_new, Qltb. destruct (Qle_bool (fst a) (fst b)) eqn:E; cbn [negb].
  - apply Qle_bool_iff in E. destruct (box_make_cases a b) as [(A & B & C & ->)|(N & w & ->)].
    + split; [intros; exists (GBox a b); auto|]. intros [H|H]; exfalso; apply H; lra.
    + split; [intros H J; exfalso; apply N; lra|]. intros _. eexists. reflexivity.
  - assert (E' : (fst b < fst a)%Q) by (apply Qnot_le_lt; intro G; apply Qle_bool_iff in G; congruence).
    destruct (box_make_cases b a) as [(A & B & C & ->)|(N & w & ->)].
    + split; [intros; exists (GBox b a); auto|]. intros [H|H]; exfalso; apply H; lra.
    + split; [intros H J; exfalso; apply N; lra|]. intros _. eexists. reflexivity.
Qed.
Print Assumptions C89_new.

(** Pickling a box brings it back if and only if its longitudes are ordered and within
    [-180, 180]; otherwise loading raises an exception. *)
Theorem C89_pickle : forall b : gbox,
  (box_setstate (box_getstate b) = Ok b <->
    (-(180) <= fst (min_corner b))%Q /\ (fst (min_corner b) <= fst (max_corner b))%Q /\ (fst (max_corner b) <= 180)%Q) /\
  (box_setstate (box_getstate b) <> Ok b -> exists w, box_setstate (box_getstate b) = Throw w).
Proof.
  intros [mn mx]. unfold box_setstate, box_getstate. cbn [fst snd min_corner max_corner].
  destruct (box_make_cases mn mx) as [(A & B & C & ->)|(N & w & ->)].
  - split; [split; auto|congruence].
  - split; [split; [discriminate|intro H; contradiction]|]. intros _. eexists. reflexivity.
Qed.
Print Assumptions C89_pickle.
Corollary C89_new_pickle : forall a b bx, box_new a b = Ok bx -> box_setstate (box_getstate bx) = Ok bx.
Proof.
  intros a b bx H. apply (proj1 (C89_pickle bx)). unfold box_new in H.
  destruct (Qltb (fst b) (fst a)); [destruct (box_make_cases b a) as [(A & B & C & E)|(N & w & E)]|
    destruct (box_make_cases a b) as [(A & B & C & E)|(N & w & E)]]; rewrite E in H; try discriminate;
    injection H as <-; auto.
Qed.
Print Assumptions C89_new_pickle.

(** A corner assigned through the property is not checked, so that the box can no longer
    be loaded once pickled; the same happens to an envelope that crosses the antimeridian,
    whose eastern longitude exceeds 180. *)
Theorem C89_setter_refuted : exists a b bx w, box_new a b = Ok bx /\
  box_setstate (box_getstate (box_set_max bx (190%Q, 10%Q))) = Throw w.
Proof. exists (170, 0)%Q, (175, 10)%Q. eexists _, _. split; [vm_compute; reflexivity|vm_compute; reflexivity]. Qed.

(** The two corners are exchanged as a whole: a box given by its eastern and western
    corners can end up with a southern latitude above the northern one, and covers none of
    the points between its corners. *)
Theorem C89_latitudes_refuted : exists bx,
  box_new (10, 0)%Q (-(10), 20)%Q = Ok bx /\ (snd (max_corner bx) < snd (min_corner bx))%Q /\
  forall p, box_covers bx p = false.
Proof.
  eexists. split; [vm_compute; reflexivity|]. split; [reflexivity|]. intros [x y]. unfold box_covers.
  cbn [min_corner max_corner fst snd]. apply not_true_is_false. intro H.
  apply andb_true_iff in H. destruct H as [H1 H2]. apply andb_true_iff in H1. destruct H1 as [_ H1].
  apply Qle_bool_iff in H1, H2. lra.
Qed.
Print Assumptions C89_latitudes_refuted.

(** A GeoJSON box has four numbers: west, south, east, north. *)
Theorem C89_geojson : forall data : list Q,
  (length data <> 4%nat -> exists w, box_from_geojson data = Throw w) /\
  (forall w s e n, data = [w; s; e; n] -> (-(180) <= w)%Q -> (w <= e)%Q -> (e <= 180)%Q ->
     box_from_geojson data = Ok (GBox (w, s) (e, n))).
Proof.
  intro data. split.
  - intro L. destruct data as [|a [|b [|c [|d [|e t]]]]]; cbn in L; try lia; eexists; reflexivity.
  - intros w s e n -> A B C. cbn. destruct (box_make_cases (w, s) (e, n)) as [(_ & _ & _ & ->)|(N & _)]; [reflexivity|].
    exfalso. apply N. cbn. auto.
Qed.
Print Assumptions C89_geojson.
Example C89_ex : box_new (20, -(5))%Q (-(20), 5)%Q = Ok (GBox (-(20), 5)%Q (20, -(5))%Q) /\
  box_from_geojson [-(20); -(5); 20; 5]%Q = Ok (GBox (-(20), -(5))%Q (20, 5)%Q).
Proof. split; vm_compute; reflexivity. Qed.
