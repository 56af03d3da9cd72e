(** Linear binning: lemmas. *)
From Verif Require Import Base BaseProofs MathModel AxisModel AxisSpec AxisProofs AxisProofs2 AxisProofs5 StatsModel StatsSpec StatsProofs StatsProofs2 BinningModel BinningSpec BinningProofs.
Open Scope Z_scope.

(** ** Areas *)
Lemma calc_area : forall area r s, (area r == s)%Q -> (area (rev r) == - s)%Q -> (calculate_area area r == Qabs s)%Q.
Proof.
  intros area r s A B. unfold calculate_area. destruct (Qltb_spec (area r) 0) as [H|H].
  - rewrite B. rewrite Qabs_neg by lra. reflexivity.
  - rewrite A in *. rewrite Qabs_pos by lra. reflexivity.
Qed.
Lemma cart : forall r s, (ring_sum r == s * 2)%Q -> (cartesian_area r == s)%Q.
Proof. intros r s H. unfold cartesian_area. rewrite H. field. Qed.
Ltac ring_area := apply calc_area; apply cart; cbn [rev app ring_sum px py]; ring.
Lemma total_area_ok : forall x0 y0 x1 y1, (calculate_area cartesian_area [Point x0 y0; Point x0 y1; Point x1 y1; Point x1 y0; Point x0 y0] == Qabs ((x1 - x0) * (y1 - y0)))%Q.
Proof. intros. ring_area. Qed.
Lemma area_a_ok : forall x y x0 y1, (calculate_area cartesian_area [Point x y; Point x0 y; Point x0 y1; Point x y1; Point x y] == Qabs ((x - x0) * (y1 - y)))%Q.
Proof. intros. ring_area. Qed.
Lemma area_b_ok : forall x y x1 y1, (calculate_area cartesian_area [Point x y; Point x y1; Point x1 y1; Point x1 y; Point x y] == Qabs ((x1 - x) * (y1 - y)))%Q.
Proof. intros. ring_area. Qed.
Lemma area_c_ok : forall x y x0 y0, (calculate_area cartesian_area [Point x y; Point x y0; Point x0 y0; Point x0 y; Point x y] == Qabs ((x - x0) * (y - y0)))%Q.
Proof. intros. ring_area. Qed.
Lemma area_d_ok : forall x y x1 y0, (calculate_area cartesian_area [Point x y; Point x1 y; Point x1 y0; Point x y0; Point x y] == Qabs ((x1 - x) * (y - y0)))%Q.
Proof. intros. ring_area. Qed.

(** A sub-area as a share of the cell. *)
Definition kept (D W q : Q) : Prop := if Qltb (W * D) tiny then (q == 0)%Q else (q == W)%Q.
Lemma share_ok : forall area ring total D W, (0 < D)%Q -> (0 <= W)%Q -> (W <= 1)%Q -> (total == D)%Q -> (calculate_area area ring == W * D)%Q ->
  exists q, (N (normalized_area area ring total) / N total)%num = N q /\ kept D W q.
Proof.
  intros area ring total D W HD W0 W1 T A. unfold ndiv. destruct (Qeq_bool total 0) eqn:Z; [apply Qeq_bool_iff in Z; lra|].
  eexists. split; [reflexivity|]. unfold normalized_area, kept. assert (P : (0 <= W * D)%Q) by nra. assert (L : (W * D <= D)%Q) by nra.
  destruct (Qltb_spec total (calculate_area area ring)) as [H|_]; [lra|]. cbn [orb].
  destruct (Qltb_spec (Qabs (calculate_area area ring)) tiny) as [H|H]; rewrite A, Qabs_pos in H by exact P;
    destruct (Qltb_spec (W * D) tiny) as [K|K]; try lra.
  - unfold Qdiv. ring.
  - rewrite A, T. field. lra.
Qed.
Lemma frac_unit : forall v0 v1 x, ((v0 <= x /\ x <= v1) \/ (v1 <= x /\ x <= v0))%Q -> ~ (v0 == v1)%Q ->
  (0 <= (v1 - x) / (v1 - v0) <= 1)%Q /\ (0 <= (x - v0) / (v1 - v0) <= 1)%Q /\
  (Qabs (v1 - x) == (v1 - x) / (v1 - v0) * Qabs (v1 - v0))%Q /\ (Qabs (x - v0) == (x - v0) / (v1 - v0) * Qabs (v1 - v0))%Q.
Proof.
  intros v0 v1 x B N.
  assert (E1 : ((v1 - x) / (v1 - v0) == (x - v1) / (v0 - v1))%Q) by (field; split; lra).
  assert (E2 : ((x - v0) / (v1 - v0) == (v0 - x) / (v0 - v1))%Q) by (field; split; lra).
  destruct B as [B|B].
  - assert (P : (0 < v1 - v0)%Q) by lra. rewrite !Qabs_pos by lra.
    split; [split; [apply Qle_shift_div_l|apply Qle_shift_div_r]; lra|]. split; [split; [apply Qle_shift_div_l|apply Qle_shift_div_r]; lra|]. split; field; lra.
  - assert (P : (0 < v0 - v1)%Q) by lra. rewrite !Qabs_neg by lra. rewrite E1, E2.
    split; [split; [apply Qle_shift_div_l|apply Qle_shift_div_r]; lra|]. split; [split; [apply Qle_shift_div_l|apply Qle_shift_div_r]; lra|]. split; field; lra.
Qed.
Lemma weights_ok : forall x y x0 y0 x1 y1,
  ((x0 <= x /\ x <= x1) \/ (x1 <= x /\ x <= x0))%Q -> ~ (x0 == x1)%Q -> ((y0 <= y /\ y <= y1) \/ (y1 <= y /\ y <= y0))%Q -> ~ (y0 == y1)%Q ->
  let D := (Qabs (x1 - x0) * Qabs (y1 - y0))%Q in
  let u0 := ((x1 - x) / (x1 - x0))%Q in let u1 := ((x - x0) / (x1 - x0))%Q in
  let v0 := ((y1 - y) / (y1 - y0))%Q in let v1 := ((y - y0) / (y1 - y0))%Q in
  exists q00 q01 q11 q10, binning_2d cartesian_area (Point x y) (Point x0 y0) (Point x1 y1) = (N q00, N q01, N q11, N q10) /\
    kept D (u0 * v0) q00 /\ kept D (u0 * v1) q01 /\ kept D (u1 * v1) q11 /\ kept D (u1 * v0) q10.
Proof.
  intros x y x0 y0 x1 y1 BX NX BY NY D u0 u1 v0 v1.
  destruct (frac_unit x0 x1 x BX NX) as (U0 & U1 & UA & UB). destruct (frac_unit y0 y1 y BY NY) as (V0 & V1 & VA & VB). fold u0 u1 in U0, U1, UA, UB. fold v0 v1 in V0, V1, VA, VB.
  assert (PX : (0 < Qabs (x1 - x0))%Q) by (apply Qabs_case; intro; lra). assert (PY : (0 < Qabs (y1 - y0))%Q) by (apply Qabs_case; intro; lra).
  assert (PD : (0 < D)%Q) by (unfold D; nra).
  set (total := calculate_area cartesian_area [Point x0 y0; Point x0 y1; Point x1 y1; Point x1 y0; Point x0 y0]).
  assert (T : (total == D)%Q) by (unfold total; rewrite total_area_ok, Qabs_Qmult; reflexivity).
  assert (R : forall u v, (0 <= u <= 1 -> 0 <= v <= 1 -> 0 <= u * v /\ u * v <= 1)%Q) by (intros; split; nra).
  assert (X : forall a b u v, (Qabs a == u * Qabs (x1 - x0) -> Qabs b == v * Qabs (y1 - y0) -> Qabs (a * b) == u * v * D)%Q).
  { intros a b u v A B. rewrite Qabs_Qmult, A, B. unfold D. ring. }
  unfold binning_2d. cbn [px py]. fold total.
  destruct (share_ok cartesian_area [Point x y; Point x y1; Point x1 y1; Point x1 y; Point x y] total D (u0 * v0)) as (q00 & E00 & K00); [exact PD|apply R; assumption|apply R; assumption|exact T|rewrite area_b_ok; apply X; assumption|].
  destruct (share_ok cartesian_area [Point x y; Point x1 y; Point x1 y0; Point x y0; Point x y] total D (u0 * v1)) as (q01 & E01 & K01); [exact PD|apply R; assumption|apply R; assumption|exact T|rewrite area_d_ok; apply X; assumption|].
  destruct (share_ok cartesian_area [Point x y; Point x y0; Point x0 y0; Point x0 y; Point x y] total D (u1 * v1)) as (q11 & E11 & K11); [exact PD|apply R; assumption|apply R; assumption|exact T|rewrite area_c_ok; apply X; assumption|].
  destruct (share_ok cartesian_area [Point x y; Point x0 y; Point x0 y1; Point x y1; Point x y] total D (u1 * v0)) as (q10 & E10 & K10); [exact PD|apply R; assumption|apply R; assumption|exact T|rewrite area_a_ok; apply X; assumption|].
  exists q00, q01, q11, q10. rewrite E00, E01, E11, E10. auto.
Qed.

(** ** One update *)
Definition contribution (v q : Q) : list (option Q * Q) := if Qltb (Qabs q) epsilon then [] else [(Some v, q)].
Lemma update_acc_ok : forall b i j v q, 0 <= i < b_rows b -> 0 <= j < b_cols b ->
  exists b', update_acc b i j v (N q) = Ok b' /\ same_grid b b' /\
    forall k l, b_acc b' k l = fold_left push_opt (if (k =? i) && (l =? j) then contribution v q else []) (b_acc b k l).
Proof.
  intros b i j v q I J. unfold update_acc, is_almost_zero, contribution. destruct (Qltb (Qabs q) epsilon) eqn:E.
  - exists b. split; [reflexivity|]. split; [apply same_grid_refl|]. intros k l. destruct ((k =? i) && (l =? j)); reflexivity.
  - rewrite cell_update_ok by assumption. cbn [obind]. eexists. split; [reflexivity|]. split; [repeat split|].
    intros k l. cbn [with_acc b_acc]. unfold upd. destruct (Z.eqb_spec k i) as [->|]; [destruct (Z.eqb_spec l j) as [->|]|]; reflexivity.
Qed.
Lemma same_grid_size : forall b b', same_grid b b' -> b_rows b' = b_rows b /\ b_cols b' = b_cols b.
Proof. intros b b' (A & B & _). unfold b_rows, b_cols. rewrite A, B. auto. Qed.

(** What the four updates of a sample add to each cell. *)
Definition four (i0 i1 j0 j1 : Z) (v q00 q01 q11 q10 : Q) (k l : Z) : list (option Q * Q) :=
  if k =? i0 then (if l =? j0 then contribution v q00 else if l =? j1 then contribution v q01 else [])
  else if k =? i1 then (if l =? j1 then contribution v q11 else if l =? j0 then contribution v q10 else [])
  else [].
Lemma four_updates : forall b i0 i1 j0 j1 v q00 q01 q11 q10, i0 <> i1 -> j0 <> j1 ->
  0 <= i0 < b_rows b -> 0 <= i1 < b_rows b -> 0 <= j0 < b_cols b -> 0 <= j1 < b_cols b ->
  exists b', (olet b := update_acc b i0 j0 v (N q00) in olet b := update_acc b i0 j1 v (N q01) in
              olet b := update_acc b i1 j1 v (N q11) in update_acc b i1 j0 v (N q10)) = Ok b' /\ same_grid b b' /\
    forall k l, b_acc b' k l = fold_left push_opt (four i0 i1 j0 j1 v q00 q01 q11 q10 k l) (b_acc b k l).
Proof.
  intros b i0 i1 j0 j1 v q00 q01 q11 q10 NI NJ I0 I1 J0 J1.
  destruct (update_acc_ok b i0 j0 v q00 I0 J0) as (b1 & E1 & G1 & C1). rewrite E1. cbn [obind]. destruct (same_grid_size _ _ G1) as [S1 T1].
  destruct (update_acc_ok b1 i0 j1 v q01 ltac:(lia) ltac:(lia)) as (b2 & E2 & G2 & C2). rewrite E2. cbn [obind]. destruct (same_grid_size _ _ G2) as [S2 T2].
  destruct (update_acc_ok b2 i1 j1 v q11 ltac:(lia) ltac:(lia)) as (b3 & E3 & G3 & C3). rewrite E3. cbn [obind]. destruct (same_grid_size _ _ G3) as [S3 T3].
  destruct (update_acc_ok b3 i1 j0 v q10 ltac:(lia) ltac:(lia)) as (b4 & E4 & G4 & C4). rewrite E4. exists b4. split; [reflexivity|].
  split; [eapply same_grid_trans; [exact G1|]; eapply same_grid_trans; [exact G2|]; eapply same_grid_trans; eassumption|].
  intros k l. rewrite C4, C3, C2, C1. unfold four.
  destruct (Z.eqb_spec k i0), (Z.eqb_spec k i1), (Z.eqb_spec l j0), (Z.eqb_spec l j1); try (exfalso; congruence); reflexivity.
Qed.

(** ** One sample *)
Definition ends (a : axis) (x : Q) (i0 i1 : Z) (v0 v1 : Q) : Prop :=
  at_index a i0 v0 /\ at_index a i1 v1 /\ (i1 = i0 + 1 \/ i0 = i1 + 1) /\ ((v0 <= x /\ x <= v1)%Q \/ (v1 <= x /\ x <= v0)%Q).
Lemma ends_neq : forall a x i0 i1 v0 v1, wf (a_cont a) -> ends a x i0 i1 v0 v1 -> ~ (v0 == v1)%Q.
Proof.
  intros a x i0 i1 v0 v1 W (A & B & C & _). apply at_index_iff in A as [RA ->]; [|exact W]. apply at_index_iff in B as [RB ->]; [|exact W]. unfold len in *.
  destruct C as [->| ->].
  - pose proof (wf_mono _ W i0 (i0 + 1) ltac:(lia) ltac:(lia)) as M. destruct (c_asc (a_cont a)); lra.
  - pose proof (wf_mono _ W i1 (i1 + 1) ltac:(lia) ltac:(lia)) as M. destruct (c_asc (a_cont a)); lra.
Qed.
Lemma ends_inside : forall a x i0 i1 v0 v1, ends a x i0 i1 v0 v1 -> inside a x.
Proof. intros a x i0 i1 v0 v1 (A & B & _ & [C|C]); [exists i0, v0, i1, v1|exists i1, v1, i0, v0]; tauto. Qed.
Lemma axis_at_ok : forall a i v, at_index a i v -> axis_at a i = Ok v.
Proof.
  intros a i v H. unfold at_index, coordinate_value in H. unfold axis_at. rewrite Z.geb_leb in H.
  destruct (Z.ltb_spec i 0), (Z.leb_spec (c_size (a_cont a)) i); cbn [orb] in H; try discriminate.
  destruct (Z.leb_spec 0 i), (Z.ltb_spec i (c_size (a_cont a))); try lia. cbn [andb]. destruct (c_value (a_cont a) i); congruence.
Qed.
Lemma at_index_range : forall a i v, at_index a i v -> 0 <= i < len a.
Proof.
  intros a i v H. unfold at_index, coordinate_value in H. rewrite Z.geb_leb in H. unfold len.
  destruct (Z.ltb_spec i 0), (Z.leb_spec (c_size (a_cont a)) i); cbn [orb] in H; try discriminate. lia.
Qed.
Lemma plain_find : forall a x, axis_ok a -> 1 < len a -> is_angle a = false ->
  (exists i0 i1 v0 v1, find_indexes a x = Ok (Some (i0, i1)) /\ ends a x i0 i1 v0 v1) \/ (find_indexes a x = Ok None /\ ~ inside a x).
Proof.
  intros a x OK L A. assert (Hc : a_circle a = None) by (unfold is_angle in A; destruct (a_circle a); [discriminate|reflexivity]).
  destruct (find_indexes_plain a x OK L Hc) as ([[i0 i1]|] & E & P); [left|right; auto].
  destruct P as ((v0 & v1 & H) & _). exists i0, i1, v0, v1. split; [exact E|exact H].
Qed.

(** The sample falls in a cell: its four updates. *)
Lemma push_linear_found : forall b x y v i0 i1 x0 x1 j0 j1 y0 y1, axis_ok (b_x b) -> axis_ok (b_y b) -> is_angle (b_x b) = false ->
  find_indexes (b_x b) x = Ok (Some (i0, i1)) -> find_indexes (b_y b) y = Ok (Some (j0, j1)) ->
  ends (b_x b) x i0 i1 x0 x1 -> ends (b_y b) y j0 j1 y0 y1 ->
  let D := (Qabs (x1 - x0) * Qabs (y1 - y0))%Q in
  let u0 := ((x1 - x) / (x1 - x0))%Q in let u1 := ((x - x0) / (x1 - x0))%Q in
  let v0 := ((y1 - y) / (y1 - y0))%Q in let v1 := ((y - y0) / (y1 - y0))%Q in
  exists q00 q01 q11 q10 b', push_linear1 cartesian_area b (x, y, Some v) = Ok b' /\ same_grid b b' /\
    kept D (u0 * v0) q00 /\ kept D (u0 * v1) q01 /\ kept D (u1 * v1) q11 /\ kept D (u1 * v0) q10 /\
    forall k l, b_acc b' k l = fold_left push_opt (four i0 i1 j0 j1 v q00 q01 q11 q10 k l) (b_acc b k l).
Proof.
  intros b x y v i0 i1 x0 x1 j0 j1 y0 y1 OX OY AX FX FY EX EY D u0 u1 v0 v1.
  pose proof (ends_neq _ _ _ _ _ _ (proj1 OX) EX) as NX. pose proof (ends_neq _ _ _ _ _ _ (proj1 OY) EY) as NY.
  destruct EX as (X0 & X1 & XC & XB), EY as (Y0 & Y1 & YC & YB).
  destruct (weights_ok x y x0 y0 x1 y1 XB NX YB NY) as (q00 & q01 & q11 & q10 & E & K00 & K01 & K11 & K10). fold D u0 u1 v0 v1 in K00, K01, K11, K10.
  pose proof (at_index_range _ _ _ X0). pose proof (at_index_range _ _ _ X1). pose proof (at_index_range _ _ _ Y0). pose proof (at_index_range _ _ _ Y1).
  destruct (four_updates b i0 i1 j0 j1 v q00 q01 q11 q10) as (b' & U & G & C); [lia|lia|exact H|exact H0|exact H1|exact H2|].
  exists q00, q01, q11, q10, b'. split; [|auto 10].
  unfold push_linear1. rewrite FX. cbn [obind]. rewrite FY. cbn [obind]. rewrite (axis_at_ok _ _ _ X0). cbn [obind]. rewrite (axis_at_ok _ _ _ Y0). cbn [obind].
  rewrite (axis_at_ok _ _ _ X1). cbn [obind]. rewrite (axis_at_ok _ _ _ Y1). cbn [obind]. rewrite AX. rewrite E. exact U.
Qed.

Lemma contribution_share : forall v D W q d1 d2, (0 <= W)%Q -> kept D W q -> (D == d1 * d2)%Q -> let c := contribution v q in
  (((W < 1 # 4503599627370496)%Q \/ (W * (d1 * d2) < 1 # 1000000000000)%Q) /\ c = []) \/
  ((1 # 4503599627370496 <= W)%Q /\ (1 # 1000000000000 <= W * (d1 * d2))%Q /\ exists w, (w == W)%Q /\ c = [(Some v, w)]).
Proof.
  intros v D W q d1 d2 W0 K ED c. unfold kept in K. rewrite <- ED. unfold c, contribution. destruct (Qltb_spec (W * D) tiny) as [T|T].
  - left. split; [right; exact T|]. destruct (Qltb_spec (Qabs q) epsilon) as [E|E]; [reflexivity|]. exfalso. rewrite K in E. vm_compute in E. apply E. reflexivity.
  - destruct (Qltb_spec (Qabs q) epsilon) as [E|E]; rewrite K, Qabs_pos in E by exact W0.
    + left. split; [left; exact E|reflexivity].
    + right. split; [apply Qnot_lt_le; exact E|]. split; [apply Qnot_lt_le; exact T|]. exists q. auto.
Qed.

Lemma push_linear1_ok : forall b s, axis_ok (b_x b) -> axis_ok (b_y b) -> 1 < len (b_x b) -> 1 < len (b_y b) -> is_angle (b_x b) = false -> is_angle (b_y b) = false ->
  exists b', push_linear1 cartesian_area b s = Ok b' /\ same_grid b b' /\
    forall i j, exists c, linear_share (b_x b) (b_y b) s i j c /\ b_acc b' i j = fold_left push_opt c (b_acc b i j).
Proof.
  intros b [[x y] z] OX OY LX LY AX AY. destruct z as [v|].
  2:{ exists b. split; [reflexivity|]. split; [apply same_grid_refl|]. intros i j. exists []. split; reflexivity. }
  destruct (plain_find _ x OX LX AX) as [(i0 & i1 & x0 & x1 & FX & EX)|[FX NX]], (plain_find _ y OY LY AY) as [(j0 & j1 & y0 & y1 & FY & EY)|[FY NY]].
  2-4: exists b; split; [unfold push_linear1; rewrite FX; cbn [obind]; rewrite FY; reflexivity|]; split; [apply same_grid_refl|];
       intros i j; exists []; split; [left; tauto|reflexivity].
  destruct (push_linear_found b x y v i0 i1 x0 x1 j0 j1 y0 y1 OX OY AX FX FY EX EY) as (q00 & q01 & q11 & q10 & b' & E & G & K00 & K01 & K11 & K10 & C).
  set (u0 := ((x1 - x) / (x1 - x0))%Q) in *. set (u1 := ((x - x0) / (x1 - x0))%Q) in *. set (v0 := ((y1 - y) / (y1 - y0))%Q) in *. set (v1 := ((y - y0) / (y1 - y0))%Q) in *.
  set (dx := Qabs (x1 - x0)) in *. set (dy := Qabs (y1 - y0)) in *.
  pose proof (ends_neq _ _ _ _ _ _ (proj1 OX) EX) as NX. pose proof (ends_neq _ _ _ _ _ _ (proj1 OY) EY) as NY.
  pose proof EX as (X0 & X1 & XC & XB). pose proof EY as (Y0 & Y1 & YC & YB).
  destruct (frac_unit x0 x1 x XB NX) as (U0 & U1 & _). destruct (frac_unit y0 y1 y YB NY) as (V0 & V1 & _). fold u0 u1 in U0, U1. fold v0 v1 in V0, V1.
  exists b'. split; [exact E|]. split; [exact G|]. intros i j. exists (four i0 i1 j0 j1 v q00 q01 q11 q10 i j). split; [|apply C].
  right.
  exists (if i =? i0 then u0 else if i =? i1 then u1 else 0%Q), dx, (if j =? j0 then v0 else if j =? j1 then v1 else 0%Q), dy.
  split; [exists i0, i1, x0, x1; repeat (split; [first [assumption|reflexivity]|]); destruct (i =? i0); [reflexivity|]; destruct (i =? i1); reflexivity|].
  split; [exists j0, j1, y0, y1; repeat (split; [first [assumption|reflexivity]|]); destruct (j =? j0); [reflexivity|]; destruct (j =? j1); reflexivity|].
  assert (Z0 : forall w : Q, (w == 0)%Q -> ((w < 1 # 4503599627370496)%Q \/ (w * (dx * dy) < 1 # 1000000000000)%Q) /\ @nil (option Q * Q) = []) by (intros w Hw; split; [left; rewrite Hw; reflexivity|reflexivity]).
  unfold four. destruct (Z.eqb_spec i i0) as [->|NI0]; [|destruct (Z.eqb_spec i i1) as [->|NI1]].
  - destruct (Z.eqb_spec j j0) as [->|NJ0]; [|destruct (Z.eqb_spec j j1) as [->|NJ1]].
    + eapply contribution_share; [|exact K00|reflexivity]. nra.
    + eapply contribution_share; [|exact K01|reflexivity]. nra.
    + left. apply Z0. ring.
  - destruct (Z.eqb_spec j j0) as [->|NJ0]; [|destruct (Z.eqb_spec j j1) as [->|NJ1]].
    + destruct (Z.eqb_spec j0 j1); [lia|]. eapply contribution_share; [|exact K10|reflexivity]. nra.
    + eapply contribution_share; [|exact K11|reflexivity]. nra.
    + left. apply Z0. ring.
  - left. apply Z0. ring.
Qed.
Lemma push_linear_loop : forall l b, axis_ok (b_x b) -> axis_ok (b_y b) -> 1 < len (b_x b) -> 1 < len (b_y b) -> is_angle (b_x b) = false -> is_angle (b_y b) = false ->
  exists b', push_loop (push_linear1 cartesian_area) b l = Ok b' /\ same_grid b b' /\
    forall i j, exists cs, Forall2 (fun s c => linear_share (b_x b) (b_y b) s i j c) l cs /\ b_acc b' i j = fold_left push_opt (concat cs) (b_acc b i j).
Proof.
  induction l as [|s l IH]; intros b OX OY LX LY AX AY; cbn [push_loop].
  - exists b. split; [reflexivity|]. split; [apply same_grid_refl|]. intros i j. exists []. split; [constructor|reflexivity].
  - destruct (push_linear1_ok b s OX OY LX LY AX AY) as (b1 & E1 & G1 & C1). rewrite E1. cbn [obind]. pose proof G1 as (GX & GY & GW).
    destruct (IH b1) as (b2 & E2 & G2 & C2); try (rewrite ?GX, ?GY; assumption). exists b2. split; [exact E2|]. split; [eapply same_grid_trans; eassumption|].
    intros i j. destruct (C1 i j) as (c & S1 & H1). destruct (C2 i j) as (cs & S2 & H2). rewrite GX, GY in S2. exists (c :: cs). split; [constructor; assumption|].
    rewrite H2, H1. cbn [concat]. rewrite fold_left_app. reflexivity.
Qed.
