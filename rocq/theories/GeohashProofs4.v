(** Cells contain their points; decoding; neighbours. *)
From Verif Require Import Base BaseProofs GeohashModel GeohashSpec GeohashProofs GeohashProofs2 GeohashProofs3.
Open Scope Z_scope.

(** Edge number [a] among [2^n] subdivisions of [-r, r]. *)
Definition edge (r : Q) (n a : Z) : Q := (- r + 2 * r * inject_Z a / inject_Z (2 ^ n))%Q.

Lemma edge_frac : forall r n a, (edge r n a == - r + 2 * r * (inject_Z a / inject_Z (2 ^ n)))%Q.
Proof. intros. unfold edge, Qdiv. ring. Qed.

Lemma edge_scale : forall r n a x, (0 < r)%Q -> 0 <= n ->
  (edge r n a <= x <-> inject_Z a <= (x + r) / (2 * r) * inject_Z (2 ^ n))%Q.
Proof.
  intros r n a x Hr Hn. pose proof (inject_pow_pos n Hn) as P. set (M := inject_Z (2 ^ n)) in *.
  unfold edge. fold M.
  assert (E1 : (2 * r * inject_Z a / M * M == 2 * r * inject_Z a)%Q) by (field; lra).
  assert (E2 : ((x + r) / (2 * r) * M * (2 * r) == (x + r) * M)%Q) by (field; lra).
  set (u := (2 * r * inject_Z a / M)%Q) in *. set (v := ((x + r) / (2 * r) * M)%Q) in *.
  split; intros H.
  - apply Qmult_le_r with (2 * r)%Q; [lra|]. rewrite E2. nra.
  - assert (u * M <= (x + r) * M)%Q by (rewrite E1, <- E2; nra).
    apply Qmult_le_r in H0; [lra|assumption].
Qed.

Lemma edge_mono : forall r n a b, (0 < r)%Q -> 0 <= n -> a <= b -> (edge r n a <= edge r n b)%Q.
Proof.
  intros r n a b Hr Hn H. rewrite !edge_frac. pose proof (inject_pow_pos n Hn) as P.
  assert (inject_Z a / inject_Z (2 ^ n) <= inject_Z b / inject_Z (2 ^ n))%Q.
  { unfold Qdiv. apply Qmult_le_compat_r; [rewrite <- Zle_Qle; assumption|]. apply Qinv_le_0_compat. lra. }
  nra.
Qed.

Lemma edge_lt : forall r n a b, (0 < r)%Q -> 0 <= n -> a < b -> (edge r n a < edge r n b)%Q.
Proof.
  intros r n a b Hr Hn H. apply Qnot_le_lt. intro C.
  rewrite !edge_frac in C. pose proof (inject_pow_pos n Hn) as P.
  assert (L : (inject_Z a / inject_Z (2 ^ n) < inject_Z b / inject_Z (2 ^ n))%Q).
  { unfold Qdiv. apply Qmult_lt_compat_r; [apply Qinv_lt_0_compat; assumption|rewrite <- Zlt_Qlt; assumption]. }
  nra.
Qed.

Lemma edge_max : forall r n, 0 <= n -> (edge r n (2 ^ n) == r)%Q.
Proof. intros r n Hn. pose proof (inject_pow_pos n Hn) as P. unfold edge. field. lra. Qed.
Lemma edge_0 : forall r n, (edge r n 0 == - r)%Q.
Proof. intros. unfold edge, Qdiv. change (inject_Z 0) with 0%Q. ring. Qed.

Lemma edge_le_r : forall r n a, (0 < r)%Q -> 0 <= n -> a <= 2 ^ n -> (edge r n a <= r)%Q.
Proof. intros. apply Qle_trans with (edge r n (2 ^ n)); [apply edge_mono; assumption|]. apply Qle_lteq. right. apply edge_max. assumption. Qed.
Lemma edge_ge_r : forall r n a, (0 < r)%Q -> 0 <= n -> 0 <= a -> (- r <= edge r n a)%Q.
Proof. intros. apply Qle_trans with (edge r n 0); [|apply edge_mono; assumption]. apply Qle_lteq. right. symmetry. apply edge_0. Qed.

Lemma Qle_bool_false : forall x y, (y < x)%Q -> Qle_bool x y = false.
Proof. intros. apply not_true_is_false. intro C. apply Qle_bool_iff in C. lra. Qed.

(** [qidx] is the index of the subdivision containing [x]. *)
Lemma qidx_in : forall x r n, (0 < r)%Q -> (- r <= x)%Q -> (x <= r)%Q -> 0 <= n ->
  (edge r n (qidx x r n) <= x /\ x <= edge r n (qidx x r n + 1) /\
   (x < r -> x < edge r n (qidx x r n + 1)))%Q.
Proof.
  intros x r n Hr H1 H2 Hn. unfold qidx. destruct (Qle_bool r x) eqn:E.
  - apply Qle_bool_iff in E. replace (2 ^ n - 1 + 1) with (2 ^ n) by lia.
    pose proof (edge_max r n Hn). split; [|split].
    + apply Qle_trans with r; [apply edge_le_r; try assumption; lia|assumption].
    + lra.
    + intros; lra.
  - assert (L : (x < r)%Q) by (apply Qnot_le_lt; intro C; apply Qle_bool_iff in C; congruence).
    set (y := ((x + r) / (2 * r) * inject_Z (2 ^ n))%Q).
    destruct (Qfloor_bounds y) as [A B].
    assert (C : (x < edge r n (Qfloor y + 1))%Q).
    { apply Qnot_le_lt. intro C. apply edge_scale in C; try assumption. fold y in C. lra. }
    split; [|split; [lra|intros; assumption]].
    apply edge_scale; assumption.
Qed.

Lemma qidx_unique : forall x r n a, (0 < r)%Q -> 0 <= n -> (edge r n a <= x)%Q -> (x < edge r n (a + 1))%Q ->
  a < 2 ^ n -> qidx x r n = a.
Proof.
  intros x r n a Hr Hn H1 H2 Ha. unfold qidx.
  pose proof (edge_le_r r n (a + 1) Hr Hn ltac:(lia)).
  rewrite Qle_bool_false by lra. apply Qfloor_char.
  - apply edge_scale; assumption.
  - apply Qnot_le_lt. intro C. apply edge_scale in C; try assumption. lra.
Qed.

Lemma grid_cell_edges : forall p a b,
  same_cell (grid_cell p a b)
    (Cell (edge 180 (lonb p) a) (edge 180 (lonb p) (a + 1)) (edge 90 (latb p) b) (edge 90 (latb p) (b + 1))).
Proof. intros. unfold same_cell, grid_cell, edge; cbn [west east south north]. unfold Qdiv. repeat split; ring. Qed.

Lemma same_cell_trans : forall a b c, same_cell a b -> same_cell b c -> same_cell a c.
Proof. unfold same_cell. intros a b c (A&B&C&D) (E&F&G&H). repeat split; etransitivity; eassumption. Qed.
Lemma same_cell_sym : forall a b, same_cell a b -> same_cell b a.
Proof. unfold same_cell. intros a b (A&B&C&D). repeat split; symmetry; assumption. Qed.

Lemma cell_of_edges : forall p h,
  same_cell (cell_of p h)
    (Cell (edge 180 (lonb (Z.of_nat p)) (lonx p h)) (edge 180 (lonb (Z.of_nat p)) (lonx p h + 1))
          (edge 90 (latb (Z.of_nat p)) (latx p h)) (edge 90 (latb (Z.of_nat p)) (latx p h + 1))).
Proof. intros. eapply same_cell_trans; [apply cell_of_grid|apply grid_cell_edges]. Qed.

(** C28 *)
Lemma encode_contains : forall bmi2 pt p h, in_range pt -> (1 <= p <= 64)%nat ->
  gh_encode bmi2 pt (Z.of_nat p) = Ok h ->
  is_code (Z.of_nat p) h /\ in_closed (cell_of p h) (p_lon pt) (p_lat pt) /\
  ((p_lon pt < 180)%Q -> (p_lat pt < 90)%Q -> in_half_open (cell_of p h) (p_lon pt) (p_lat pt)).
Proof.
  intros bmi2 pt p h Hr Hp He. destruct (gh_encode_ok bmi2 pt p Hr Hp) as (h' & E & C & LO & LA).
  rewrite E in He. assert (h' = h) by congruence. subst h'. clear He. destruct Hr as (R1 & R2 & R3 & R4).
  pose proof (bits_nonneg p) as (_ & B1 & B2).
  destruct (qidx_in (p_lon pt) 180 _ ltac:(reflexivity) R1 R2 B1) as (X1 & X2 & X3).
  destruct (qidx_in (p_lat pt) 90 _ ltac:(reflexivity) R3 R4 B2) as (Y1 & Y2 & Y3).
  rewrite <- LO in X1, X2, X3. rewrite <- LA in Y1, Y2, Y3.
  destruct (cell_of_edges p h) as (W & Ea & S & N). cbn [west east south north] in *.
  split; [assumption|]. unfold in_closed, in_half_open. split.
  - rewrite W, Ea, S, N. auto.
  - intros L1 L2. rewrite W, Ea, S, N. auto.
Qed.

Lemma cell_inj_idx : forall r n a b, (0 < r)%Q -> 0 <= n -> forall x,
  (edge r n a <= x /\ x < edge r n (a + 1) -> edge r n b <= x /\ x < edge r n (b + 1) -> a = b)%Q.
Proof.
  intros r n a b Hr Hn x [A1 A2] [B1 B2].
  destruct (Z.lt_trichotomy a b) as [L|[L|L]]; [exfalso|assumption|exfalso].
  - pose proof (edge_mono r n (a + 1) b Hr Hn ltac:(lia)). lra.
  - pose proof (edge_mono r n (b + 1) a Hr Hn ltac:(lia)). lra.
Qed.

(** The half-open cells of one level do not overlap. *)
Lemma cell_unique : forall p h h' lon lat, is_code (Z.of_nat p) h -> is_code (Z.of_nat p) h' ->
  in_half_open (cell_of p h) lon lat -> in_half_open (cell_of p h') lon lat -> h = h'.
Proof.
  intros p h h' lon lat C C' H H'.
  destruct (cell_of_edges p h) as (W & Ea & S & N). destruct (cell_of_edges p h') as (W' & Ea' & S' & N').
  cbn [west east south north] in *. unfold in_half_open in *. rewrite W, Ea, S, N in H. rewrite W', Ea', S', N' in H'.
  destruct H as (H1 & H2 & H3 & H4), H' as (H1' & H2' & H3' & H4').
  pose proof (bits_nonneg p) as (_ & B1 & B2).
  apply (idx_inj p); try assumption.
  - eapply (cell_inj_idx 180); [reflexivity|exact B1| |]; split; eassumption.
  - eapply (cell_inj_idx 90); [reflexivity|exact B2| |]; split; eassumption.
Qed.

(** Encoding a point of a half-open cell gives the code of the cell. *)
Lemma encode_of_cell : forall bmi2 p h pt, (1 <= p <= 64)%nat -> is_code (Z.of_nat p) h ->
  in_half_open (cell_of p h) (p_lon pt) (p_lat pt) -> gh_encode bmi2 pt (Z.of_nat p) = Ok h.
Proof.
  intros bmi2 p h pt Hp C H. pose proof H as Hin.
  destruct (cell_of_edges p h) as (W & Ea & S & N). cbn [west east south north] in *.
  unfold in_half_open in H. rewrite W, Ea, S, N in H. destruct H as (H1 & H2 & H3 & H4).
  pose proof (bits_nonneg p) as (_ & B1 & B2). pose proof (lonx_range p h). pose proof (latx_range p h).
  pose proof (edge_ge_r 180 (lonb (Z.of_nat p)) (lonx p h) ltac:(reflexivity) B1 ltac:(lia)).
  pose proof (edge_ge_r 90 (latb (Z.of_nat p)) (latx p h) ltac:(reflexivity) B2 ltac:(lia)).
  pose proof (edge_le_r 180 (lonb (Z.of_nat p)) (lonx p h + 1) ltac:(reflexivity) B1 ltac:(lia)).
  pose proof (edge_le_r 90 (latb (Z.of_nat p)) (latx p h + 1) ltac:(reflexivity) B2 ltac:(lia)).
  assert (R : in_range pt) by (unfold in_range; repeat split; lra).
  destruct (gh_encode_ok bmi2 pt p R Hp) as (h' & E & C' & LO & LA).
  rewrite E. f_equal. apply (idx_inj p); try assumption.
  - rewrite LO. apply qidx_unique; try assumption; try reflexivity. lia.
  - rewrite LA. apply qidx_unique; try assumption; try reflexivity. lia.
Qed.

(** C29 *)
Lemma gh_encode_prefix : forall bmi2 pt p q h, (1 <= p)%nat -> (p <= q)%nat -> (q <= 64)%nat ->
  gh_encode bmi2 pt (Z.of_nat q) = Ok h ->
  gh_encode bmi2 pt (Z.of_nat p) = Ok (Z.shiftr h (Z.of_nat q - Z.of_nat p)).
Proof.
  intros bmi2 pt p q h Hp Hpq Hq. unfold gh_encode.
  destruct (encoder bmi2 (p_lat pt) (p_lon pt)) as [r|w|w]; cbn [obind]; try discriminate.
  destruct (Z.eqb_spec (Z.of_nat q) 64) as [E|E].
  - intros H; injection H as <-. destruct (Z.eqb_spec (Z.of_nat p) 64).
    + replace (Z.of_nat q - Z.of_nat p) with 0 by lia. rewrite Z.shiftr_0_r. reflexivity.
    + replace ((1 <=? Z.of_nat p) && (Z.of_nat p <? 64)) with true
        by (symmetry; apply andb_true_iff; split; [apply Z.leb_le|apply Z.ltb_lt]; lia).
      rewrite E. reflexivity.
  - replace ((1 <=? Z.of_nat q) && (Z.of_nat q <? 64)) with true
        by (symmetry; apply andb_true_iff; split; [apply Z.leb_le|apply Z.ltb_lt]; lia).
    intros H. assert (Hh : h = Z.shiftr r (64 - Z.of_nat q)) by congruence. subst h. destruct (Z.eqb_spec (Z.of_nat p) 64); [lia|].
    replace ((1 <=? Z.of_nat p) && (Z.of_nat p <? 64)) with true
        by (symmetry; apply andb_true_iff; split; [apply Z.leb_le|apply Z.ltb_lt]; lia).
    f_equal. rewrite Z.shiftr_shiftr by lia. f_equal. lia.
Qed.

Lemma sub_cell_refl : forall c, sub_cell c c.
Proof. intros. unfold sub_cell. repeat split; apply Qle_refl. Qed.
Lemma sub_cell_trans : forall a b c, sub_cell a b -> sub_cell b c -> sub_cell a c.
Proof. unfold sub_cell. intros a b c (A&B&C&D) (E&F&G&H). repeat split; lra. Qed.

Lemma cell_of_wf : forall p h, (west (cell_of p h) < east (cell_of p h) /\ south (cell_of p h) < north (cell_of p h))%Q.
Proof.
  induction p as [|n IH]; intros h; [split; reflexivity|]. specialize (IH (h / 2)). destruct IH as [A B].
  cbn [cell_of]. unfold split_lon, split_lat. destruct (Nat.even n), (Z.odd h); cbn [west east south north]; unfold Qdiv; change (/ 2)%Q with (1 # 2)%Q; split; lra.
Qed.

Lemma cell_of_parent : forall n h, sub_cell (cell_of (S n) h) (cell_of n (h / 2)).
Proof.
  intros n h. pose proof (cell_of_wf n (h / 2)) as [A B]. cbn [cell_of].
  unfold sub_cell, split_lon, split_lat.
  destruct (Nat.even n), (Z.odd h); cbn [west east south north]; unfold Qdiv; change (/ 2)%Q with (1 # 2)%Q; repeat split; lra.
Qed.

Lemma cell_of_ancestor : forall k p h, sub_cell (cell_of (p + k) h) (cell_of p (Z.shiftr h (Z.of_nat k))).
Proof.
  induction k as [|k IH]; intros p h.
  - rewrite Nat.add_0_r, Z.shiftr_0_r. apply sub_cell_refl.
  - rewrite Nat.add_succ_r. eapply sub_cell_trans; [apply cell_of_parent|].
    replace (Z.shiftr h (Z.of_nat (S k))) with (Z.shiftr (h / 2) (Z.of_nat k)); [apply IH|].
    rewrite Nat2Z.inj_succ, <- Z.add_1_l, <- Z.shiftr_shiftr by lia. f_equal.
    rewrite Z.shiftr_div_pow2 by lia. reflexivity.
Qed.

(* ------------------------------------------------------------------ *)
(** C30: decoding *)

Lemma box_cell_of : forall bmi2 p h, (1 <= p <= 64)%nat ->
  ~ last_col (Z.of_nat p) h -> ~ last_row (Z.of_nat p) h ->
  exists b, bounding_box bmi2 h (Z.of_nat p) = Ok b /\ same_cell (cell_of_box b) (cell_of p h).
Proof.
  intros bmi2 p h Hp HC HR. destruct (bounding_box_ok bmi2 p h Hp HC HR) as (b & E & S).
  exists b. split; [assumption|]. eapply same_cell_trans; [exact S|]. apply same_cell_sym, cell_of_grid.
Qed.

Lemma no_last : forall p h, (p <= 62)%nat -> ~ last_col (Z.of_nat p) h /\ ~ last_row (Z.of_nat p) h.
Proof. intros p h Hp. unfold last_col, last_row, lonb, latb. split; intros [H _]; Z.div_mod_to_equations; lia. Qed.

Lemma centroid_inside : forall b c, same_cell (cell_of_box b) c -> (west c < east c)%Q -> (south c < north c)%Q ->
  (p_lon (centroid b) == (west c + east c) / 2 /\ p_lat (centroid b) == (south c + north c) / 2)%Q /\
  in_half_open c (p_lon (centroid b)) (p_lat (centroid b)).
Proof.
  intros b c (W & E & S & N) H1 H2. unfold cell_of_box in *. cbn [west east south north] in *.
  assert (A : (p_lon (centroid b) == (west c + east c) / 2)%Q).
  { unfold centroid. cbn [p_lon]. rewrite W, E. reflexivity. }
  assert (B : (p_lat (centroid b) == (south c + north c) / 2)%Q).
  { unfold centroid. cbn [p_lat]. rewrite S, N. reflexivity. }
  split; [split; assumption|]. unfold in_half_open. rewrite A, B.
  repeat split; [apply Qle_shift_div_l|apply Qlt_shift_div_r|apply Qle_shift_div_l|apply Qlt_shift_div_r]; lra.
Qed.

Lemma power10_pos : forall m, (0 < power10 m)%Q.
Proof.
  intros m. unfold power10. destruct (Z.leb_spec 0 m); [|reflexivity].
  change 0%Q with (inject_Z 0). rewrite <- Zlt_Qlt. apply Z.pow_pos_nonneg; lia.
Qed.

Lemma mdp_from : forall fuel m x, (0 < max_decimal_power_from fuel m x)%Q /\
  ((power10 (m - Z.of_nat fuel) <= x)%Q -> (max_decimal_power_from fuel m x <= x)%Q).
Proof.
  induction fuel as [|f IH]; intros m x; cbn [max_decimal_power_from].
  - split; [apply power10_pos|]. replace (m - Z.of_nat 0) with m by lia. auto.
  - destruct (Qle_bool (power10 m) x) eqn:E.
    + split; [apply power10_pos|]. intros _. apply Qle_bool_iff; assumption.
    + replace (m - Z.of_nat (S f)) with (m - 1 - Z.of_nat f) by lia. apply IH.
Qed.

Lemma mdp_bounds : forall x, ((1 # 10000000000) <= x)%Q ->
  (0 < max_decimal_power x /\ max_decimal_power x <= x)%Q.
Proof.
  intros x H. unfold max_decimal_power. destruct (mdp_from 30 20 x) as [A B]. split; [assumption|].
  apply B. exact H.
Qed.

Lemma ceil_step : forall a x, (0 < x)%Q -> (a <= inject_Z (Qceiling (a / x)) * x /\ inject_Z (Qceiling (a / x)) * x < a + x)%Q.
Proof.
  intros a x Hx. pose proof (Qle_ceiling (a / x)) as A. pose proof (Qceiling_lt (a / x)) as B.
  assert (E : (a / x * x == a)%Q) by (field; lra).
  unfold Z.sub in B. rewrite inject_Z_plus in B. change (inject_Z (- (1))) with (-1)%Q in B.
  set (c := inject_Z (Qceiling (a / x))) in *. set (q := (a / x)%Q) in *.
  pose proof (Qmult_le_compat_r _ _ x A ltac:(lra)). pose proof (Qmult_lt_compat_r _ _ x Hx B).
  split; lra.
Qed.

Lemma box_round_inside : forall b c, same_cell (cell_of_box b) c ->
  ((1 # 10000000000) <= east c - west c)%Q -> ((1 # 10000000000) <= north c - south c)%Q ->
  in_half_open c (p_lon (box_round b)) (p_lat (box_round b)).
Proof.
  intros b c (W & E & S & N) H1 H2. unfold cell_of_box in *. cbn [west east south north] in *.
  unfold box_round, box_delta. cbv zeta. cbn [p_lon p_lat].
  set (dx := (p_lon (max_corner b) - p_lon (min_corner b))%Q).
  set (dy := (p_lat (max_corner b) - p_lat (min_corner b))%Q).
  assert (Dx : ((1 # 10000000000) <= dx)%Q) by (unfold dx; lra).
  assert (Dy : ((1 # 10000000000) <= dy)%Q) by (unfold dy; lra).
  destruct (mdp_bounds dx Dx) as [X1 X2]. destruct (mdp_bounds dy Dy) as [Y1 Y2].
  destruct (ceil_step (p_lon (min_corner b)) _ X1) as [A1 A2].
  destruct (ceil_step (p_lat (min_corner b)) _ Y1) as [B1 B2].
  unfold in_half_open, dx, dy in *. repeat split; lra.
Qed.

Lemma cell_size : forall p h,
  (east (cell_of p h) - west (cell_of p h) == 360 / inject_Z (2 ^ lonb (Z.of_nat p)) /\
   north (cell_of p h) - south (cell_of p h) == 180 / inject_Z (2 ^ latb (Z.of_nat p)))%Q.
Proof.
  intros p h. destruct (cell_of_grid p h) as (W & E & S & N). unfold grid_cell in *. cbn [west east south north] in *.
  pose proof (bits_nonneg p) as (_ & B1 & B2). pose proof (inject_pow_pos _ B1). pose proof (inject_pow_pos _ B2).
  rewrite W, E, S, N, !inject_Z_plus. split; field; lra.
Qed.

Lemma cell_size_min : forall p h, (p <= 64)%nat ->
  ((1 # 10000000000) <= east (cell_of p h) - west (cell_of p h) /\
   (1 # 10000000000) <= north (cell_of p h) - south (cell_of p h))%Q.
Proof.
  intros p h Hp. destruct (cell_size p h) as [A B]. rewrite A, B.
  assert (K : forall n, 0 <= n <= 32 -> (0 < inject_Z (2 ^ n) /\ inject_Z (2 ^ n) <= 4294967296)%Q).
  { intros n Hn. split; [apply inject_pow_pos; lia|]. change 4294967296%Q with (inject_Z (2 ^ 32)).
    rewrite <- Zle_Qle. apply Z.pow_le_mono_r; lia. }
  destruct (K (lonb (Z.of_nat p))) as [K1 K2]; [unfold lonb; Z.div_mod_to_equations; lia|].
  destruct (K (latb (Z.of_nat p))) as [K3 K4]; [unfold latb; Z.div_mod_to_equations; lia|].
  split; apply Qle_shift_div_l; lra.
Qed.

Lemma decode_encode : forall bmi2 p h round, (1 <= p <= 64)%nat -> is_code (Z.of_nat p) h ->
  ~ last_col (Z.of_nat p) h -> ~ last_row (Z.of_nat p) h ->
  exists pt, gh_decode bmi2 h (Z.of_nat p) round = Ok pt /\
    in_half_open (cell_of p h) (p_lon pt) (p_lat pt) /\
    (round = false ->
      (p_lon pt == (west (cell_of p h) + east (cell_of p h)) / 2 /\
       p_lat pt == (south (cell_of p h) + north (cell_of p h)) / 2)%Q) /\
    forall bmi2', gh_encode bmi2' pt (Z.of_nat p) = Ok h.
Proof.
  intros bmi2 p h round Hp Hc HC HR. destruct (box_cell_of bmi2 p h Hp HC HR) as (b & E & S).
  destruct (cell_of_wf p h) as [L1 L2]. destruct (centroid_inside b _ S L1 L2) as [C1 C2].
  pose proof (cell_size_min p h ltac:(lia)) as [M1 M2].
  pose proof (box_round_inside b _ S M1 M2) as RI.
  unfold gh_decode. rewrite E. cbn [obind].
  exists (if round then box_round b else centroid b). split; [reflexivity|].
  assert (I : in_half_open (cell_of p h) (p_lon (if round then box_round b else centroid b))
             (p_lat (if round then box_round b else centroid b))) by (destruct round; assumption).
  split; [assumption|]. split.
  - intros ->. assumption.
  - intros b'. apply encode_of_cell; assumption.
Qed.
