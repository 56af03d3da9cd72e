(** Neighbours. *)
From Verif Require Import Base BaseProofs GeohashModel GeohashSpec GeohashProofs GeohashProofs2 GeohashProofs3 GeohashProofs4.
Open Scope Z_scope.

(** Centre of the subdivision number [a]. *)
Definition mid (r : Q) (n a : Z) : Q := (edge r n a + r / inject_Z (2 ^ n))%Q.

Lemma edge_succ : forall r n a, 0 <= n -> (edge r n (a + 1) == edge r n a + 2 * r / inject_Z (2 ^ n))%Q.
Proof. intros r n a Hn. pose proof (inject_pow_pos n Hn). unfold edge. rewrite inject_Z_plus. field. lra. Qed.

Lemma mid_inside : forall r n a, (0 < r)%Q -> 0 <= n -> (edge r n a <= mid r n a /\ mid r n a < edge r n (a + 1))%Q.
Proof.
  intros r n a Hr Hn. pose proof (inject_pow_pos n Hn) as P. rewrite edge_succ by assumption. unfold mid.
  assert (0 < r / inject_Z (2 ^ n))%Q by (apply Qlt_shift_div_l; lra).
  assert (E : (2 * r / inject_Z (2 ^ n) == 2 * (r / inject_Z (2 ^ n)))%Q) by (field; lra).
  rewrite E. split; lra.
Qed.

Lemma qidx_mid : forall x r n a, (0 < r)%Q -> 0 <= n -> 0 <= a < 2 ^ n -> (x == mid r n a)%Q ->
  (- r <= x)%Q /\ (x < r)%Q /\ qidx x r n = a.
Proof.
  intros x r n a Hr Hn Ha E. destruct (mid_inside r n a Hr Hn) as [A B].
  pose proof (edge_ge_r r n a Hr Hn ltac:(lia)). pose proof (edge_le_r r n (a + 1) Hr Hn ltac:(lia)).
  split; [lra|split; [lra|]]. apply qidx_unique; try assumption; try lia; lra.
Qed.

(** Value handed to [shrq] at the centre of subdivision [a]. *)
Lemma mantissa_arg : forall x r c n a, (0 < r)%Q -> 0 <= n -> (c * (2 * r) == 1)%Q -> (x == mid r n a)%Q ->
  ((3 # 2) + x * c == 1 + (inject_Z a + (1 # 2)) / inject_Z (2 ^ n))%Q.
Proof.
  intros x r c n a Hr Hn Hc E. pose proof (inject_pow_pos n Hn) as P.
  assert (Ec : (c == 1 / (2 * r))%Q) by (field_simplify_eq; [lra|lra]).
  rewrite E, Ec. unfold mid, edge. field. split; lra.
Qed.

Lemma Qeq_bool_false : forall x y, ~ (x == y)%Q -> Qeq_bool x y = false.
Proof. intros x y H. apply not_true_is_false. intro C. apply Qeq_bool_eq in C. contradiction. Qed.

Lemma mantissa_mid_wrap : forall x r c n a, (0 < r)%Q -> 0 <= n <= 31 -> (c * (2 * r) == 1)%Q ->
  -1 <= a <= 2 ^ n -> (x == mid r n a)%Q ->
  exists m, (if Qeq_bool x r then Ok 0x3FFFFFFFFFF else mantissa32 ((3 # 2) + x * c)) = Ok m
            /\ (m mod 2 ^ 32) / 2 ^ (32 - n) = a mod 2 ^ n.
Proof.
  intros x r c n a Hr Hn Hc Ha Ex.
  pose proof (inject_pow_pos n ltac:(lia)) as P.
  assert (Mp : 0 < 2 ^ n) by (apply Z.pow_pos_nonneg; lia).
  assert (Sp : 2 ^ 32 = 2 ^ n * 2 ^ (32 - n)) by (rewrite <- Z.pow_add_r by lia; f_equal; lia).
  assert (Kp : 2 ^ (32 - n) = 2 * 2 ^ (31 - n)) by (rewrite <- Z.pow_succ_r by lia; f_equal; lia).
  assert (Kp' : 0 < 2 ^ (31 - n)) by (apply Z.pow_pos_nonneg; lia).
  assert (SQ : (inject_Z (2 ^ n) * inject_Z (2 ^ (32 - n)) == 4294967296)%Q)
    by (rewrite <- inject_Z_mult, <- Sp; reflexivity).
  pose proof (inject_pow_pos (32 - n) ltac:(lia)) as PK.
  assert (M1 : (1 <= inject_Z (2 ^ n))%Q) by (change 1%Q with (inject_Z 1); rewrite <- Zle_Qle; lia).
  destruct (Z_lt_ge_dec a 0) as [L|L].
  - assert (a = -1) by lia. subst a.
    pose proof (mantissa_arg x r c n (-1) Hr ltac:(lia) Hc Ex) as V.
    assert (Hne : ~ (x == r)%Q).
    { intro C. destruct (mid_inside r n (-1) Hr ltac:(lia)) as [_ B].
      pose proof (edge_le_r r n (-1 + 1) Hr ltac:(lia) ltac:(lia)). lra. }
    rewrite Qeq_bool_false by assumption. change (inject_Z (-1)) with (-1)%Q in V.
    set (v := ((3 # 2) + x * c)%Q) in *.
    assert (V2 : (v == 1 - (1 # 2) / inject_Z (2 ^ n))%Q) by (rewrite V; field; lra).
    assert (F1 : (0 < (1 # 2) / inject_Z (2 ^ n))%Q) by (apply Qlt_shift_div_l; lra).
    assert (F2 : ((1 # 2) / inject_Z (2 ^ n) <= 1 # 2)%Q) by (apply Qle_shift_div_r; lra).
    exists (2 ^ 32 - 2 ^ (32 - n)). split.
    + unfold mantissa32. rewrite (Qle_bool_false 1 v), (Qle_bool_false 2 v) by lra. cbn [andb].
      replace (Qle_bool (1 # 2) v && Qltb v 1) with true.
      * f_equal. assert (E : ((v * 2 - 1) * 4294967296 == inject_Z (2 ^ 32 - 2 ^ (32 - n)))%Q).
        { replace (2 ^ 32 - 2 ^ (32 - n)) with (2 ^ 32 + - 2 ^ (32 - n)) by lia. rewrite inject_Z_plus, inject_Z_opp.
          change (inject_Z (2 ^ 32)) with 4294967296%Q. rewrite V2, <- SQ. field. lra. }
        rewrite (Qfloor_comp _ _ E). apply Qfloor_Z.
      * symmetry. apply andb_true_iff. split; [apply Qle_bool_iff; lra|apply Qltb_true; lra].
    + rewrite Z.mod_small by nia. symmetry.
      replace ((-1) mod 2 ^ n) with (2 ^ n - 1).
      * apply Z.div_unique with 0; nia.
      * apply Z.mod_unique with (-1); lia.
  - destruct (Z.eq_dec a (2 ^ n)) as [->|Hn2].
    + pose proof (mantissa_arg x r c n (2 ^ n) Hr ltac:(lia) Hc Ex) as V.
      assert (Hne : ~ (x == r)%Q).
      { intro C. pose proof (edge_max r n ltac:(lia)). unfold mid in Ex.
        assert (0 < r / inject_Z (2 ^ n))%Q by (apply Qlt_shift_div_l; lra). lra. }
      rewrite Qeq_bool_false by assumption. set (v := ((3 # 2) + x * c)%Q) in *.
      assert (V2 : (v == 2 + (1 # 2) / inject_Z (2 ^ n))%Q) by (rewrite V; field; lra).
      assert (F1 : (0 < (1 # 2) / inject_Z (2 ^ n))%Q) by (apply Qlt_shift_div_l; lra).
      assert (F2 : ((1 # 2) / inject_Z (2 ^ n) <= 1 # 2)%Q) by (apply Qle_shift_div_r; lra).
      exists (Qfloor ((v / 2 - 1) * 4294967296)). split.
      * unfold mantissa32. rewrite (Qltb_false v 2) by lra. rewrite andb_false_r.
        replace (Qle_bool 2 v && Qltb v 4) with true; [reflexivity|].
        symmetry. apply andb_true_iff. split; [apply Qle_bool_iff; lra|apply Qltb_true; lra].
      * rewrite Z.mod_same by lia.
        assert (E : ((v / 2 - 1) * 4294967296 == inject_Z (2 ^ (32 - n)) / 4)%Q).
        { rewrite V2, <- SQ. field. lra. }
        rewrite (Qfloor_comp _ _ E).
        destruct (Qfloor_bounds (inject_Z (2 ^ (32 - n)) / 4)) as [A B].
        assert (Q4 : (0 <= inject_Z (2 ^ (32 - n)) / 4 /\ inject_Z (2 ^ (32 - n)) / 4 < inject_Z (2 ^ (32 - n)))%Q).
        { unfold Qdiv. change (/ 4)%Q with (1 # 4)%Q. lra. }
        assert (L1 : 0 <= Qfloor (inject_Z (2 ^ (32 - n)) / 4)).
        { change 0 with (Qfloor (inject_Z 0)). apply Qfloor_resp_le. apply Q4. }
        assert (L2 : Qfloor (inject_Z (2 ^ (32 - n)) / 4) < 2 ^ (32 - n)).
        { rewrite Zlt_Qlt. lra. }
        rewrite Z.mod_small by nia. apply Z.div_small. lia.
    + destruct (qidx_mid x r n a Hr ltac:(lia) ltac:(lia) Ex) as (X1 & X2 & X3).
      destruct (mantissa_ok x r c Hr X1 ltac:(lra) Hc) as (m & E1 & E2).
      exists m. split; [assumption|]. rewrite E2, qidx_coarsen by (try assumption; lia).
      rewrite X3. symmetry. apply Z.mod_small. lia.
Qed.

(** Portable conversion at the same centres: clamped to the east and north. *)
Lemma encode_range_mid : forall x r n a, (0 < r)%Q -> 0 <= n <= 31 -> 0 <= a <= 2 ^ n -> (x == mid r n a)%Q ->
  exists m, encode_range x r = Ok m /\ 0 <= m < 2 ^ 32 /\ m / 2 ^ (32 - n) = Z.min a (2 ^ n - 1).
Proof.
  intros x r n a Hr Hn Ha Ex. assert (Mp : 0 < 2 ^ n) by (apply Z.pow_pos_nonneg; lia).
  exists (qidx x r 32). destruct (mid_inside r n a Hr ltac:(lia)) as [A B].
  pose proof (edge_ge_r r n a Hr ltac:(lia) ltac:(lia)).
  split; [apply encode_range_ok; lra|]. split; [apply qidx_range; lra || lia|].
  rewrite qidx_coarsen by (try assumption; lia).
  destruct (Z.eq_dec a (2 ^ n)) as [->|Hne].
  - rewrite Z.min_r by lia. unfold qidx. replace (Qle_bool r x) with true; [reflexivity|].
    symmetry. apply Qle_bool_iff. pose proof (edge_max r n ltac:(lia)). lra.
  - rewrite Z.min_l by lia. apply qidx_mid; try assumption; lia.
Qed.

Lemma encode_range_low_UB : forall x r n, (0 < r)%Q -> 0 <= n <= 31 -> (x == mid r n (-1))%Q ->
  exists w, encode_range x r = UB w.
Proof.
  intros x r n Hr Hn Ex. unfold encode_range.
  pose proof (inject_pow_pos n ltac:(lia)) as P.
  destruct (mid_inside r n (-1) Hr ltac:(lia)) as [_ B]. change (-1 + 1) with 0 in B. rewrite edge_0 in B.
  rewrite Qle_bool_false by lra.
  set (p := ((x + r) / (2 * r) * 4294967296)%Q).
  assert (Ep : (p == - (2147483648 / inject_Z (2 ^ n)))%Q).
  { unfold p. rewrite Ex. unfold mid, edge. change (inject_Z (-1)) with (-1)%Q. field. split; lra. }
  assert (Hp : (p <= -1)%Q).
  { rewrite Ep. assert (1 <= 2147483648 / inject_Z (2 ^ n))%Q; [|lra].
    apply Qle_shift_div_l; [assumption|]. rewrite Qmult_1_l. change 2147483648%Q with (inject_Z (2 ^ 31)).
    rewrite <- Zle_Qle. apply Z.pow_le_mono_r; lia. }
  assert (T : Qtrunc p < 0).
  { unfold Qtrunc. rewrite Qle_bool_false by lra.
    assert (1 <= Qfloor (- p)); [|lia]. change 1 with (Qfloor (inject_Z 1)). apply Qfloor_resp_le.
    change (inject_Z 1) with 1%Q. lra. }
  replace (0 <=? Qtrunc p) with false by (symmetry; apply Z.leb_gt; assumption).
  cbn [andb]. eexists. reflexivity.
Qed.

Lemma gh_encode_code : forall bmi2 pt p la lo, (1 <= p <= 64)%nat ->
  0 <= la < 2 ^ 32 -> 0 <= lo < 2 ^ 32 ->
  encoder bmi2 (p_lat pt) (p_lon pt) = Ok (interleave la lo) ->
  exists h, gh_encode bmi2 pt (Z.of_nat p) = Ok h /\ is_code (Z.of_nat p) h /\
    lonx p h = lo / 2 ^ (32 - lonb (Z.of_nat p)) /\ latx p h = la / 2 ^ (32 - latb (Z.of_nat p)).
Proof.
  intros bmi2 pt p la lo Hp Hla Hlo E. destruct (code_of_interleave p _ _ Hp Hla Hlo) as (C & LA & LO).
  eexists. split; [|split; [exact C|split; [exact LO|exact LA]]].
  unfold gh_encode. rewrite E. cbn [obind]. destruct (Z.eqb_spec (Z.of_nat p) 64) as [E'|E'].
  - rewrite E'. reflexivity.
  - replace ((1 <=? Z.of_nat p) && (Z.of_nat p <? 64)) with true; [reflexivity|].
    symmetry. apply andb_true_iff. split; [apply Z.leb_le|apply Z.ltb_lt]; lia.
Qed.

Lemma bits_le_31 : forall p, (1 <= p <= 62)%nat -> 0 <= lonb (Z.of_nat p) <= 31 /\ 0 <= latb (Z.of_nat p) <= 31.
Proof. intros. unfold latb, lonb. Z.div_mod_to_equations. lia. Qed.

(** Encoding the centre of the cell (column [a], row [b]), one step outside included. *)
Lemma encode_mid_bmi2 : forall pt p a b, (1 <= p <= 62)%nat ->
  -1 <= a <= 2 ^ lonb (Z.of_nat p) -> -1 <= b <= 2 ^ latb (Z.of_nat p) ->
  (p_lon pt == mid 180 (lonb (Z.of_nat p)) a)%Q -> (p_lat pt == mid 90 (latb (Z.of_nat p)) b)%Q ->
  exists h, gh_encode true pt (Z.of_nat p) = Ok h /\ is_code (Z.of_nat p) h /\
    lonx p h = a mod 2 ^ lonb (Z.of_nat p) /\ latx p h = b mod 2 ^ latb (Z.of_nat p).
Proof.
  intros pt p a b Hp Ha Hb Elo Ela. destruct (bits_le_31 p Hp) as [B1 B2].
  destruct (mantissa_mid_wrap (p_lat pt) 90 (1 # 180) _ b ltac:(reflexivity) B2 ltac:(reflexivity) Hb Ela) as (m & M1 & M2).
  destruct (mantissa_mid_wrap (p_lon pt) 180 (1 # 360) _ a ltac:(reflexivity) B1 ltac:(reflexivity) Ha Elo) as (k & K1 & K2).
  assert (Em : encoder true (p_lat pt) (p_lon pt) = Ok (interleave (m mod 2 ^ 32) (k mod 2 ^ 32))).
  { cbn [encoder]. unfold encode_bmi2. rewrite M1, K1. cbn [obind]. rewrite !pdepq_spread.
    f_equal. unfold interleave. apply Z.lor_comm. }
  destruct (gh_encode_code true pt p (m mod 2 ^ 32) (k mod 2 ^ 32) ltac:(lia)) as (h & E & C & LO & LA);
    [apply Z.mod_pos_bound; lia|apply Z.mod_pos_bound; lia|exact Em|].
  exists h. rewrite LO, LA. auto.
Qed.

Lemma encode_mid_portable : forall pt p a b, (1 <= p <= 62)%nat ->
  0 <= a <= 2 ^ lonb (Z.of_nat p) -> 0 <= b <= 2 ^ latb (Z.of_nat p) ->
  (p_lon pt == mid 180 (lonb (Z.of_nat p)) a)%Q -> (p_lat pt == mid 90 (latb (Z.of_nat p)) b)%Q ->
  exists h, gh_encode false pt (Z.of_nat p) = Ok h /\ is_code (Z.of_nat p) h /\
    lonx p h = Z.min a (2 ^ lonb (Z.of_nat p) - 1) /\ latx p h = Z.min b (2 ^ latb (Z.of_nat p) - 1).
Proof.
  intros pt p a b Hp Ha Hb Elo Ela. destruct (bits_le_31 p Hp) as [B1 B2].
  destruct (encode_range_mid (p_lat pt) 90 _ b ltac:(reflexivity) B2 Hb Ela) as (m & M1 & M2 & M3).
  destruct (encode_range_mid (p_lon pt) 180 _ a ltac:(reflexivity) B1 Ha Elo) as (k & K1 & K2 & K3).
  assert (Em : encoder false (p_lat pt) (p_lon pt) = Ok (interleave m k)).
  { cbn [encoder]. unfold encode_portable. rewrite M1, K1. reflexivity. }
  destruct (gh_encode_code false pt p m k ltac:(lia) M2 K2 Em) as (h & E & C & LO & LA).
  exists h. rewrite LO, LA. auto.
Qed.

Lemma oseq_forall2 : forall {A B : Type} (R : B -> A -> Prop) (f : B -> outcome A) l,
  Forall (fun d => exists a, f d = Ok a /\ R d a) l ->
  exists r, oseq (map f l) = Ok r /\ Forall2 R l r.
Proof.
  intros A B R f l H. induction H as [|d l [a [E Ha]] _ [r [IH1 IH2]]].
  - exists []. split; [reflexivity|constructor].
  - exists (a :: r). cbn [map oseq]. rewrite E. cbn [obind]. rewrite IH1. split; [reflexivity|constructor; assumption].
Qed.

(** The list of centres encoded by [neighbors]. *)
Lemma neighbors_unfold : forall bmi2 p h, (1 <= p <= 62)%nat ->
  exists lon lat dx dy,
    gh_neighbors bmi2 h (Z.of_nat p) =
      oseq (map (fun d => gh_encode bmi2 (Point (lon + inject_Z (fst d) * dx) (lat + inject_Z (snd d) * dy)) (Z.of_nat p))
                compass) /\
    forall i j, (lon + inject_Z i * dx == mid 180 (lonb (Z.of_nat p)) (lonx p h + i) /\
                 lat + inject_Z j * dy == mid 90 (latb (Z.of_nat p)) (latx p h + j))%Q.
Proof.
  intros bmi2 p h Hp. destruct (no_last p h ltac:(lia)) as [HC HR].
  destruct (bounding_box_ok bmi2 p h ltac:(lia) HC HR) as (b & E & S).
  exists (p_lon (centroid b)), (p_lat (centroid b)), (fst (box_delta b)), (snd (box_delta b)). split.
  - unfold gh_neighbors. rewrite E. cbn [obind]. destruct (box_delta b) as [dx dy]. reflexivity.
  - intros i j. destruct S as (W & Ea & So & N). unfold cell_of_box, grid_cell in *. cbn [west east south north] in *.
    destruct (bits_le_31 p Hp) as [B1 B2].
    pose proof (inject_pow_pos _ (proj1 B1)). pose proof (inject_pow_pos _ (proj1 B2)).
    unfold centroid, box_delta, mid, edge. cbn [p_lon p_lat fst snd].
    rewrite W, Ea, So, N. rewrite !inject_Z_plus. change (inject_Z 1) with 1%Q. split; field; lra.
Qed.

Definition in_compass (d : Z * Z) : Prop := -1 <= fst d <= 1 /\ -1 <= snd d <= 1.
Lemma compass_in : Forall in_compass compass.
Proof. unfold compass, in_compass. repeat constructor; cbn; lia. Qed.

(** BMI2: columns and rows wrap around. *)
Lemma neighbors_bmi2 : forall p h, (1 <= p <= 62)%nat ->
  exists l, gh_neighbors true h (Z.of_nat p) = Ok l /\
    Forall2 (fun d g => is_code (Z.of_nat p) g /\
       lonx p g = (lonx p h + fst d) mod 2 ^ lonb (Z.of_nat p) /\
       latx p g = (latx p h + snd d) mod 2 ^ latb (Z.of_nat p)) compass l.
Proof.
  intros p h Hp. destruct (neighbors_unfold true p h Hp) as (lon & lat & dx & dy & E & M). rewrite E.
  pose proof (lonx_range p h). pose proof (latx_range p h).
  apply oseq_forall2. eapply Forall_impl; [|apply compass_in]. intros [i j] [Hi Hj]. cbn [fst snd] in *.
  destruct (M i j) as [M1 M2]. apply encode_mid_bmi2; cbn [p_lon p_lat]; try assumption; lia.
Qed.

(** Portable: away from the western column and the southern row, clamped. *)
Lemma neighbors_portable : forall p h, (1 <= p <= 62)%nat -> 0 < lonx p h -> 0 < latx p h ->
  exists l, gh_neighbors false h (Z.of_nat p) = Ok l /\
    Forall2 (fun d g => is_code (Z.of_nat p) g /\
       lonx p g = Z.min (lonx p h + fst d) (2 ^ lonb (Z.of_nat p) - 1) /\
       latx p g = Z.min (latx p h + snd d) (2 ^ latb (Z.of_nat p) - 1)) compass l.
Proof.
  intros p h Hp H1 H2. destruct (neighbors_unfold false p h Hp) as (lon & lat & dx & dy & E & M). rewrite E.
  pose proof (lonx_range p h). pose proof (latx_range p h).
  apply oseq_forall2. eapply Forall_impl; [|apply compass_in]. intros [i j] [Hi Hj]. cbn [fst snd] in *.
  destruct (M i j) as [M1 M2]. apply encode_mid_portable; cbn [p_lon p_lat]; try assumption; lia.
Qed.

Lemma shifted_of_idx : forall p h g i j,
  lonx p g = lonx p h + i -> latx p g = latx p h + j -> shifted (cell_of p h) (cell_of p g) i j.
Proof.
  intros p h g i j Hi Hj. destruct (cell_of_grid p h) as (W & E & S & N). destruct (cell_of_grid p g) as (W' & E' & S' & N').
  unfold grid_cell in *. cbn [west east south north] in *.
  pose proof (bits_nonneg p) as (_ & B1 & B2). pose proof (inject_pow_pos _ B1). pose proof (inject_pow_pos _ B2).
  unfold shifted. rewrite W, E, S, N, W', E', S', N'. rewrite Hi, Hj, !inject_Z_plus.
  repeat split; field; lra.
Qed.

Definition interior (p : nat) (h : Z) : Prop :=
  0 < lonx p h < 2 ^ lonb (Z.of_nat p) - 1 /\ 0 < latx p h < 2 ^ latb (Z.of_nat p) - 1.

Lemma Forall2_impl : forall {A B : Type} (P Q : A -> B -> Prop) l m,
  (forall a b, In a l -> P a b -> Q a b) -> Forall2 P l m -> Forall2 Q l m.
Proof.
  intros A B P Q l m H F. induction F; constructor.
  - apply H; [left; reflexivity|assumption].
  - apply IHF. intros. apply H; [right; assumption|assumption].
Qed.

Lemma neighbors_interior : forall bmi2 p h, (1 <= p <= 62)%nat -> interior p h ->
  exists l, gh_neighbors bmi2 h (Z.of_nat p) = Ok l /\
    Forall2 (fun d g => is_code (Z.of_nat p) g /\ shifted (cell_of p h) (cell_of p g) (fst d) (snd d)) compass l.
Proof.
  intros bmi2 p h Hp [I1 I2].
  pose proof compass_in as CI. rewrite Forall_forall in CI.
  destruct bmi2.
  - destruct (neighbors_bmi2 p h Hp) as (l & E & F). exists l. split; [assumption|].
    eapply Forall2_impl; [|exact F]. intros [i j] g Hin (C & L1 & L2). specialize (CI _ Hin). destruct CI as [Ci Cj].
    cbn [fst snd] in *. split; [assumption|]. apply shifted_of_idx.
    + rewrite L1. apply Z.mod_small. lia.
    + rewrite L2. apply Z.mod_small. lia.
  - destruct (neighbors_portable p h Hp ltac:(lia) ltac:(lia)) as (l & E & F). exists l. split; [assumption|].
    eapply Forall2_impl; [|exact F]. intros [i j] g Hin (C & L1 & L2). specialize (CI _ Hin). destruct CI as [Ci Cj].
    cbn [fst snd] in *. split; [assumption|]. apply shifted_of_idx.
    + rewrite L1. apply Z.min_l. lia.
    + rewrite L2. apply Z.min_l. lia.
Qed.
