(** Encoding and decoding of coordinates in terms of columns and rows. *)
From Verif Require Import Base BaseProofs GeohashModel GeohashSpec GeohashProofs GeohashProofs2.
Open Scope Z_scope.

Lemma Qfloor_char : forall (x : Q) n, (inject_Z n <= x)%Q -> (x < inject_Z (n + 1))%Q -> Qfloor x = n.
Proof.
  intros x n H1 H2. apply Z.le_antisymm.
  - assert (inject_Z (Qfloor x) < inject_Z (n + 1))%Q
      by (eapply Qle_lt_trans; [apply Qfloor_le|assumption]).
    rewrite <- Zlt_Qlt in H. lia.
  - apply Qfloor_resp_le in H1. rewrite Qfloor_Z in H1. assumption.
Qed.

Lemma Qfloor_bounds : forall x, (inject_Z (Qfloor x) <= x /\ x < inject_Z (Qfloor x + 1))%Q.
Proof. intros. split; [apply Qfloor_le|apply Qlt_floor]. Qed.

(** Number of the [2^n]-th of [-r, r] containing [x]; the last one contains [r] and
    everything above. *)
Definition qidx (x r : Q) (n : Z) : Z :=
  if Qle_bool r x then 2 ^ n - 1 else Qfloor ((x + r) / (2 * r) * inject_Z (2 ^ n)).

Lemma qfrac_bounds : forall x r, (0 < r -> -r <= x -> x < r -> 0 <= (x + r) / (2 * r) /\ (x + r) / (2 * r) < 1)%Q.
Proof.
  intros x r Hr H1 H2. split.
  - apply Qle_shift_div_l; lra.
  - apply Qlt_shift_div_r; lra.
Qed.

Lemma Qfloor_scale_range : forall y n, (0 <= y)%Q -> (y < 1)%Q -> 0 <= n ->
  0 <= Qfloor (y * inject_Z (2 ^ n)) < 2 ^ n.
Proof.
  intros y n H0 H1 Hn. pose proof (inject_pow_pos n Hn) as P.
  set (M := inject_Z (2 ^ n)) in *.
  destruct (Qfloor_bounds (y * M)%Q) as [A B].
  split.
  - change 0 with (Qfloor (inject_Z 0)). apply Qfloor_resp_le. change (inject_Z 0) with 0%Q. nra.
  - assert (inject_Z (Qfloor (y * M)) < M)%Q by nra.
    unfold M in H. rewrite <- Zlt_Qlt in H. assumption.
Qed.

Lemma qidx_range : forall x r n, (0 < r)%Q -> (- r <= x)%Q -> 0 <= n -> 0 <= qidx x r n < 2 ^ n.
Proof.
  intros x r n Hr Hx Hn. unfold qidx. assert (0 < 2 ^ n) by (apply Z.pow_pos_nonneg; lia).
  destruct (Qle_bool r x) eqn:E; [lia|].
  assert (x < r)%Q by (apply Qnot_le_lt; intro C; apply Qle_bool_iff in C; congruence).
  destruct (qfrac_bounds x r Hr Hx H0). apply Qfloor_scale_range; assumption.
Qed.

Lemma Qfloor_pow_div : forall y k, 0 <= k ->
  Qfloor (y * inject_Z (2 ^ k)) / 2 ^ k = Qfloor y.
Proof.
  intros y k Hk. assert (P : 0 < 2 ^ k) by (apply Z.pow_pos_nonneg; lia).
  pose proof (inject_pow_pos k Hk) as PQ.
  destruct (Qfloor_bounds y) as [A B]. destruct (Qfloor_bounds (y * inject_Z (2 ^ k))) as [C D].
  set (m := Qfloor y) in *. set (f := Qfloor (y * inject_Z (2 ^ k))) in *.
  assert (L1 : m * 2 ^ k <= f).
  { assert (inject_Z (m * 2 ^ k) < inject_Z (f + 1))%Q by (rewrite inject_Z_mult; nra).
    rewrite <- Zlt_Qlt in H. lia. }
  assert (L2 : f < (m + 1) * 2 ^ k).
  { rewrite Zlt_Qlt, inject_Z_mult. nra. }
  symmetry. apply Z.div_unique with (f - m * 2 ^ k); [left; nia|lia].
Qed.

Lemma qidx_coarsen : forall x r n m, (0 < r)%Q -> 0 <= n -> n <= m ->
  qidx x r m / 2 ^ (m - n) = qidx x r n.
Proof.
  intros x r n m Hr Hn Hm. unfold qidx.
  assert (0 < 2 ^ (m - n)) by (apply Z.pow_pos_nonneg; lia).
  assert (E : 2 ^ m = 2 ^ n * 2 ^ (m - n)) by (rewrite <- Z.pow_add_r by lia; f_equal; lia).
  destruct (Qle_bool r x).
  - rewrite E. symmetry. apply Z.div_unique with (2 ^ (m - n) - 1); [left; lia|lia].
  - rewrite <- (Qfloor_pow_div ((x + r) / (2 * r) * inject_Z (2 ^ n)) (m - n)) by lia.
    f_equal. apply Qfloor_comp. rewrite E, inject_Z_mult. ring.
Qed.

Lemma encode_range_ok : forall x r, (0 < r)%Q -> (- r <= x)%Q -> encode_range x r = Ok (qidx x r 32).
Proof.
  intros x r Hr Hx. unfold encode_range, qidx.
  destruct (Qle_bool r x) eqn:E; [reflexivity|].
  assert (L : (x < r)%Q) by (apply Qnot_le_lt; intro C; apply Qle_bool_iff in C; congruence).
  destruct (qfrac_bounds x r Hr Hx L) as [A B].
  set (p := ((x + r) / (2 * r) * 4294967296)%Q).
  change ((x + r) / (2 * r) * inject_Z (2 ^ 32))%Q with p.
  assert (T : Qtrunc p = Qfloor p).
  { unfold Qtrunc. replace (Qle_bool 0 p) with true; [reflexivity|]. symmetry. apply Qle_bool_iff.
    unfold p. nra. }
  rewrite T. pose proof (Qfloor_scale_range _ 32 A B ltac:(lia)) as R.
  change (inject_Z (2 ^ 32)) with 4294967296%Q in R. fold p in R. change (2 ^ 32) with 4294967296 in R.
  replace ((0 <=? Qfloor p) && (Qfloor p <? 4294967296)) with true; [reflexivity|].
  symmetry. apply andb_true_iff. split; [apply Z.leb_le|apply Z.ltb_lt]; lia.
Qed.

(** The mantissa trick computes the same number. *)
Lemma mantissa_ok : forall x r c, (0 < r)%Q -> (- r <= x)%Q -> (x <= r)%Q -> (c * (2 * r) == 1)%Q ->
  exists m, (if Qeq_bool x r then Ok 0x3FFFFFFFFFF else mantissa32 ((3 # 2) + x * c)) = Ok m
            /\ m mod 2 ^ 32 = qidx x r 32.
Proof.
  intros x r c Hr H1 H2 Hc. unfold qidx. destruct (Qeq_bool x r) eqn:E.
  - apply Qeq_bool_eq in E. exists 0x3FFFFFFFFFF. split; [reflexivity|].
    replace (Qle_bool r x) with true; [reflexivity|]. symmetry. apply Qle_bool_iff. lra.
  - assert (L : (x < r)%Q).
    { destruct (Qlt_le_dec x r); [assumption|]. exfalso.
      assert (x == r)%Q by lra. apply Qeq_eq_bool in H. congruence. }
    replace (Qle_bool r x) with false
      by (symmetry; apply not_true_is_false; intro C; apply Qle_bool_iff in C; lra).
    destruct (qfrac_bounds x r Hr H1 L) as [A B].
    assert (Ev : ((3 # 2) + x * c == 1 + (x + r) / (2 * r))%Q).
    { assert (c == 1 / (2 * r))%Q by (field_simplify_eq; [lra|lra]). rewrite H. field. lra. }
    exists (Qfloor ((x + r) / (2 * r) * inject_Z (2 ^ 32))). split.
    + unfold mantissa32.
      replace (Qle_bool 1 ((3 # 2) + x * c) && Qltb ((3 # 2) + x * c) 2) with true.
      * f_equal. apply Qfloor_comp. rewrite Ev. change (inject_Z (2 ^ 32)) with 4294967296%Q. ring.
      * symmetry. apply andb_true_iff. split; [apply Qle_bool_iff; lra|].
        unfold Qltb. apply negb_true_iff. apply not_true_is_false. intro C. apply Qle_bool_iff in C. lra.
    + apply Z.mod_small. apply Qfloor_scale_range; [assumption|assumption|lia].
Qed.

Definition in_range (pt : point) : Prop :=
  (-180 <= p_lon pt /\ p_lon pt <= 180 /\ -90 <= p_lat pt /\ p_lat pt <= 90)%Q.

Lemma encoder_ok : forall bmi2 pt, in_range pt ->
  encoder bmi2 (p_lat pt) (p_lon pt)
  = Ok (interleave (qidx (p_lat pt) 90 32) (qidx (p_lon pt) 180 32)).
Proof.
  intros bmi2 [lon lat] (H1 & H2 & H3 & H4). cbn [p_lon p_lat] in *.
  destruct bmi2; cbn [encoder].
  - unfold encode_bmi2.
    destruct (mantissa_ok lat 90 (1 # 180)) as (a & Ea & Ma); [lra|lra|lra|reflexivity|].
    destruct (mantissa_ok lon 180 (1 # 360)) as (b & Eb & Mb); [lra|lra|lra|reflexivity|].
    rewrite Ea, Eb. cbn [obind]. f_equal. rewrite !pdepq_spread. rewrite Ma, Mb.
    unfold interleave. apply Z.lor_comm.
  - unfold encode_portable. rewrite !encode_range_ok by lra. reflexivity.
Qed.

Lemma gh_encode_ok : forall bmi2 pt p, in_range pt -> (1 <= p <= 64)%nat ->
  exists h, gh_encode bmi2 pt (Z.of_nat p) = Ok h /\ is_code (Z.of_nat p) h /\
    lonx p h = qidx (p_lon pt) 180 (lonb (Z.of_nat p)) /\
    latx p h = qidx (p_lat pt) 90 (latb (Z.of_nat p)).
Proof.
  intros bmi2 pt p Hr Hp. pose proof Hr as (H1 & H2 & H3 & H4).
  assert (Rla : 0 <= qidx (p_lat pt) 90 32 < 2 ^ 32) by (apply qidx_range; [lra|lra|lia]).
  assert (Rlo : 0 <= qidx (p_lon pt) 180 32 < 2 ^ 32) by (apply qidx_range; [lra|lra|lia]).
  destruct (code_of_interleave p _ _ Hp Rla Rlo) as (C & LA & LO).
  exists (Z.shiftr (interleave (qidx (p_lat pt) 90 32) (qidx (p_lon pt) 180 32)) (64 - Z.of_nat p)).
  split; [|split; [assumption|]].
  - unfold gh_encode. rewrite encoder_ok by assumption. cbn [obind].
    destruct (Z.eqb_spec (Z.of_nat p) 64) as [E|E].
    + rewrite E. reflexivity.
    + replace ((1 <=? Z.of_nat p) && (Z.of_nat p <? 64)) with true; [reflexivity|].
      symmetry. apply andb_true_iff. split; [apply Z.leb_le|apply Z.ltb_lt]; lia.
  - rewrite LA, LO. split; apply qidx_coarsen; try reflexivity; unfold lonb, latb; Z.div_mod_to_equations; lia.
Qed.

(* ------------------------------------------------------------------ *)
(** Decoding *)

Definition cell_of_box (b : box) : cell :=
  Cell (p_lon (min_corner b)) (p_lon (max_corner b)) (p_lat (min_corner b)) (p_lat (max_corner b)).

Lemma decode_range_scaled : forall a n r, 0 <= n <= 32 -> a * 2 ^ (32 - n) <> 2 ^ 32 - 1 ->
  (decode_range (a * 2 ^ (32 - n)) r == - r + 2 * r * inject_Z a / inject_Z (2 ^ n))%Q.
Proof.
  intros a n r Hn H. unfold decode_range. change 4294967295 with (2 ^ 32 - 1).
  destruct (Z.eqb_spec (a * 2 ^ (32 - n)) (2 ^ 32 - 1)); [contradiction|].
  pose proof (inject_pow_pos n ltac:(lia)). pose proof (inject_pow_pos (32 - n) ltac:(lia)).
  assert (E : (inject_Z (2 ^ (32 - n)) * inject_Z (2 ^ n) == 4294967296)%Q).
  { rewrite <- inject_Z_mult, <- Z.pow_add_r by lia. replace (32 - n + n) with 32 by lia. reflexivity. }
  rewrite inject_Z_mult.
  assert (E2 : (inject_Z (2 ^ (32 - n)) * (1 # 4294967296) == 1 / inject_Z (2 ^ n))%Q).
  { field_simplify_eq; [|lra]. lra. }
  rewrite <- (Qmult_assoc (inject_Z a)), E2. field. lra.
Qed.

Lemma not_max_index : forall a n, 0 <= n <= 32 -> 0 <= a < 2 ^ n -> (n = 32 -> a <> 2 ^ 32 - 1) ->
  a * 2 ^ (32 - n) <> 2 ^ 32 - 1.
Proof.
  intros a n Hn Ha H C. destruct (Z.eq_dec n 32) as [->|].
  - change (2 ^ (32 - 32)) with 1 in C. apply H; lia.
  - replace (32 - n) with (31 - n + 1) in C by lia. rewrite Z.pow_add_r in C by lia.
    change (2 ^ 1) with 2 in C. change (2 ^ 32) with (2 * 2 ^ 31) in C. lia.
Qed.

Lemma inv_power2_eq : forall n, 0 <= n -> (inv_power2 n == 1 / inject_Z (2 ^ n))%Q.
Proof.
  intros n Hn. unfold inv_power2. assert (0 < 2 ^ n) by (apply Z.pow_pos_nonneg; lia).
  unfold Qeq, Qdiv, Qinv, Qmult, inject_Z. cbn [Qnum Qden].
  destruct (2 ^ n); try lia. cbn. lia.
Qed.

Lemma errors_eq : forall p, (1 <= p <= 64)%nat ->
  (fst (error_with_precision (Z.of_nat p)) == 360 / inject_Z (2 ^ lonb (Z.of_nat p)) /\
   snd (error_with_precision (Z.of_nat p)) == 180 / inject_Z (2 ^ latb (Z.of_nat p)))%Q.
Proof.
  intros p Hp. unfold error_with_precision. cbn [fst snd].
  assert (E : Z.shiftr (Z.of_nat p) 1 = latb (Z.of_nat p)) by (rewrite Z.shiftr_div_pow2 by lia; reflexivity).
  rewrite E. change (Z.of_nat p - latb (Z.of_nat p)) with (lonb (Z.of_nat p)).
  pose proof (bits_nonneg p) as (_ & B1 & B2).
  pose proof (inject_pow_pos _ B1). pose proof (inject_pow_pos _ B2).
  rewrite !inv_power2_eq by assumption. split; field; lra.
Qed.

(** Longitudes and latitudes of the grid lines are in range. *)
Lemma grid_bounds : forall a n, 0 <= n -> 0 <= a < 2 ^ n ->
  (0 <= inject_Z a / inject_Z (2 ^ n) /\ inject_Z a / inject_Z (2 ^ n) < inject_Z (a + 1) / inject_Z (2 ^ n)
   /\ inject_Z (a + 1) / inject_Z (2 ^ n) <= 1)%Q.
Proof.
  intros a n Hn Ha. pose proof (inject_pow_pos n Hn) as P.
  repeat split.
  - apply Qle_shift_div_l; [assumption|]. rewrite Qmult_0_l. change 0%Q with (inject_Z 0). rewrite <- Zle_Qle. lia.
  - apply Qlt_shift_div_l; [assumption|]. unfold Qdiv. rewrite <- Qmult_assoc, (Qmult_comm (/ _)), Qmult_inv_r, Qmult_1_r by lra.
    rewrite <- Zlt_Qlt. lia.
  - apply Qle_shift_div_r; [assumption|]. rewrite Qmult_1_l, <- Zle_Qle. lia.
Qed.

Lemma Qltb_false : forall x y, (y <= x)%Q -> Qltb x y = false.
Proof. intros. unfold Qltb. apply negb_false_iff. apply Qle_bool_iff. assumption. Qed.
Lemma Qltb_true : forall x y, (x < y)%Q -> Qltb x y = true.
Proof. intros. unfold Qltb. apply negb_true_iff, not_true_is_false. intro C. apply Qle_bool_iff in C. lra. Qed.

Lemma make_box_ok : forall a b, (-180 <= p_lon a -> p_lon a <= p_lon b -> p_lon b <= 180)%Q ->
  (-180 <= p_lon a)%Q -> (p_lon a <= p_lon b)%Q -> make_box a b = Ok (Box a b).
Proof.
  intros a b H H1 H2. specialize (H H1 H2). unfold make_box.
  rewrite !Qltb_false by lra. reflexivity.
Qed.

(** Cells of the last column (63, 64 bits) or last row (64 bits) whose 32-bit
    coordinate is the marker 0xFFFFFFFF. *)
Definition last_col (p : Z) (h : Z) : Prop := lonb p = 32 /\ lonx (Z.to_nat p) h = 2 ^ 32 - 1.
Definition last_row (p : Z) (h : Z) : Prop := latb p = 32 /\ latx (Z.to_nat p) h = 2 ^ 32 - 1.

Lemma deinterleaver_code : forall bmi2 p h, (1 <= p <= 64)%nat ->
  deinterleaver bmi2 (shl64 h (64 - Z.of_nat p)) =
  (latx p h * 2 ^ (32 - latb (Z.of_nat p)), lonx p h * 2 ^ (32 - lonb (Z.of_nat p))).
Proof.
  intros [] p h Hp; cbn [deinterleaver]; rewrite ?deinterleave_bmi2_eq; apply deinterleave_code; assumption.
Qed.

Lemma bb_unfold : forall bmi2 p h, (1 <= p <= 64)%nat ->
  bounding_box bmi2 h (Z.of_nat p) =
  let lat := decode_range (latx p h * 2 ^ (32 - latb (Z.of_nat p))) 90 in
  let lon := decode_range (lonx p h * 2 ^ (32 - lonb (Z.of_nat p))) 180 in
  make_box (Point lon lat) (Point (lon + fst (error_with_precision (Z.of_nat p)))
                                  (lat + snd (error_with_precision (Z.of_nat p)))).
Proof.
  intros bmi2 p h Hp. unfold bounding_box.
  replace ((1 <=? Z.of_nat p) && (Z.of_nat p <=? 64)) with true
    by (symmetry; apply andb_true_iff; split; apply Z.leb_le; lia).
  rewrite deinterleaver_code by assumption. cbv zeta.
  destruct (error_with_precision (Z.of_nat p)) as [a b]. reflexivity.
Qed.

Lemma bits_le_32 : forall p, (1 <= p <= 64)%nat ->
  0 <= latb (Z.of_nat p) <= 32 /\ 0 <= lonb (Z.of_nat p) <= 32.
Proof. intros. unfold latb, lonb. Z.div_mod_to_equations. lia. Qed.

Lemma bounding_box_ok : forall bmi2 p h, (1 <= p <= 64)%nat ->
  ~ last_col (Z.of_nat p) h -> ~ last_row (Z.of_nat p) h ->
  exists b, bounding_box bmi2 h (Z.of_nat p) = Ok b /\
            same_cell (cell_of_box b) (grid_cell (Z.of_nat p) (lonx p h) (latx p h)).
Proof.
  intros bmi2 p h Hp HC HR. rewrite bb_unfold by assumption. cbv zeta.
  pose proof (bits_le_32 p Hp) as [B1 B2].
  pose proof (latx_range p h) as R1. pose proof (lonx_range p h) as R2.
  unfold last_col, last_row in HC, HR. rewrite Nat2Z.id in HC, HR.
  pose proof (decode_range_scaled (latx p h) _ 90 B1 (not_max_index _ _ B1 R1 ltac:(intros ? ?; apply HR; split; assumption))) as D1.
  pose proof (decode_range_scaled (lonx p h) _ 180 B2 (not_max_index _ _ B2 R2 ltac:(intros ? ?; apply HC; split; assumption))) as D2.
  destruct (errors_eq p Hp) as [E1 E2].
  set (dla := decode_range (latx p h * _) 90) in *. set (dlo := decode_range (lonx p h * _) 180) in *.
  set (e1 := fst (error_with_precision (Z.of_nat p))) in *. set (e2 := snd (error_with_precision (Z.of_nat p))) in *.
  pose proof (grid_bounds (lonx p h) (lonb (Z.of_nat p)) ltac:(lia) R2) as (G1 & G2 & G3).
  pose proof (inject_pow_pos _ (proj1 B1)) as P1. pose proof (inject_pow_pos _ (proj1 B2)) as P2.
  assert (Elo : (dlo + e1 == -180 + 360 * inject_Z (lonx p h + 1) / inject_Z (2 ^ lonb (Z.of_nat p)))%Q).
  { rewrite D2, E1, inject_Z_plus. field. lra. }
  assert (Ela : (dla + e2 == -90 + 180 * inject_Z (latx p h + 1) / inject_Z (2 ^ latb (Z.of_nat p)))%Q).
  { rewrite D1, E2, inject_Z_plus. field. lra. }
  assert (A1 : (-180 <= dlo)%Q) by (rewrite D2; unfold Qdiv in *; lra).
  assert (A2 : (dlo <= dlo + e1)%Q) by (rewrite Elo, D2; unfold Qdiv in *; lra).
  assert (A3 : (dlo + e1 <= 180)%Q) by (rewrite Elo; unfold Qdiv in *; lra).
  eexists. split.
  - apply make_box_ok; cbn [p_lon]; [intros _ _; exact A3|exact A1|exact A2].
  - unfold same_cell, cell_of_box, grid_cell. cbn [p_lon p_lat min_corner max_corner west east south north].
    repeat split; [|assumption| |assumption].
    + rewrite D2. unfold Qdiv. ring.
    + rewrite D1. unfold Qdiv. ring.
Qed.

(** The last column at 63 and 64 bits: the box reaches past 180 degrees. *)
Lemma bounding_box_last_col : forall bmi2 p h, (1 <= p <= 64)%nat -> last_col (Z.of_nat p) h ->
  exists w, bounding_box bmi2 h (Z.of_nat p) = Throw w.
Proof.
  intros bmi2 p h Hp [L1 L2]. rewrite Nat2Z.id in L2. rewrite bb_unfold by assumption. cbv zeta.
  rewrite L1, L2. change (2 ^ (32 - 32)) with 1. rewrite Z.mul_1_r.
  destruct (errors_eq p Hp) as [E1 _]. rewrite L1 in E1.
  set (e1 := fst (error_with_precision (Z.of_nat p))) in *.
  change (decode_range (2 ^ 32 - 1) 180) with 180%Q.
  unfold make_box. cbn [p_lon].
  replace (Qltb 180 (180 + e1)) with true.
  - rewrite orb_true_r. cbn [orb]. eexists. reflexivity.
  - symmetry. apply Qltb_true. rewrite E1. reflexivity.
Qed.
