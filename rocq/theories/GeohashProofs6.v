(** Enumeration of the cells of a box. *)
From Verif Require Import Base BaseProofs GeohashModel GeohashSpec GeohashProofs GeohashProofs2 GeohashProofs3 GeohashProofs4 GeohashProofs5.
From Coq Require Import Sorted.
Open Scope Z_scope.

(** The code of the cell at column [a], row [b]. *)
Fixpoint code_at (p : nat) (a b : Z) : Z :=
  match p with
  | O => 0
  | S n => if Nat.even n then 2 * code_at n (a / 2) b + Z.b2z (Z.odd a)
           else 2 * code_at n a (b / 2) + Z.b2z (Z.odd b)
  end.

Lemma code_at_ok : forall p a b, 0 <= a < 2 ^ lonb (Z.of_nat p) -> 0 <= b < 2 ^ latb (Z.of_nat p) ->
  is_code (Z.of_nat p) (code_at p a b) /\ lonx p (code_at p a b) = a /\ latx p (code_at p a b) = b.
Proof.
  induction p as [|n IH]; intros a b Ha Hb.
  - unfold is_code. cbn in *. lia.
  - pose proof (lat_lon_bits_succ n) as L. pose proof (bits_nonneg n).
    assert (S : forall q c, is_code (Z.of_nat n) q ->
              is_code (Z.of_nat (S n)) (2 * q + Z.b2z c) /\ (2 * q + Z.b2z c) / 2 = q /\ Z.odd (2 * q + Z.b2z c) = c).
    { intros q c Hc. split; [|split].
      - unfold is_code in *. rewrite Nat2Z.inj_succ, Z.pow_succ_r by lia. destruct c; cbn [Z.b2z]; lia.
      - destruct c; cbn [Z.b2z]; Z.div_mod_to_equations; lia.
      - rewrite Z.odd_add, Z.odd_mul. destruct c; reflexivity. }
    cbn [lonx latx code_at]. destruct (Nat.even n) eqn:Ev; destruct L as (E1 & E2 & _ & _); rewrite E1 in Ha; rewrite E2 in Hb.
    + rewrite Z.pow_add_r in Ha by lia. change (2 ^ 1) with 2 in Ha.
      destruct (IH (a / 2) b) as (Hq & Q1 & Q2); [Z.div_mod_to_equations; lia|lia|].
      destruct (S _ (Z.odd a) Hq) as (S1 & S2 & S3).
      rewrite S2, S3, Q1, Q2. split; [assumption|]. split; [|reflexivity]. symmetry. apply code_split.
    + rewrite Z.pow_add_r in Hb by lia. change (2 ^ 1) with 2 in Hb.
      destruct (IH a (b / 2)) as (Hq & Q1 & Q2); [lia|Z.div_mod_to_equations; lia|].
      destruct (S _ (Z.odd b) Hq) as (S1 & S2 & S3).
      rewrite S2, S3, Q1, Q2. split; [assumption|]. split; [reflexivity|]. symmetry. apply code_split.
Qed.

Lemma code_at_idx : forall p h, is_code (Z.of_nat p) h -> code_at p (lonx p h) (latx p h) = h.
Proof.
  intros p h Hc. destruct (code_at_ok p _ _ (lonx_range p h) (latx_range p h)) as (A & B & C).
  apply (idx_inj p); assumption.
Qed.

(** Encoding the centre of an existing cell. *)
Lemma encode_mid : forall bmi2 pt p a b, (1 <= p <= 64)%nat ->
  0 <= a < 2 ^ lonb (Z.of_nat p) -> 0 <= b < 2 ^ latb (Z.of_nat p) ->
  (p_lon pt == mid 180 (lonb (Z.of_nat p)) a)%Q -> (p_lat pt == mid 90 (latb (Z.of_nat p)) b)%Q ->
  gh_encode bmi2 pt (Z.of_nat p) = Ok (code_at p a b).
Proof.
  intros bmi2 pt p a b Hp Ha Hb E1 E2. pose proof (bits_nonneg p) as (_ & B1 & B2).
  destruct (qidx_mid _ 180 _ a ltac:(reflexivity) B1 Ha E1) as (X1 & X2 & X3).
  destruct (qidx_mid _ 90 _ b ltac:(reflexivity) B2 Hb E2) as (Y1 & Y2 & Y3).
  destruct (gh_encode_ok bmi2 pt p) as (h & E & C & LO & LA); [unfold in_range; repeat split; lra|assumption|].
  rewrite E. f_equal. rewrite <- (code_at_idx p h C). congruence.
Qed.

Lemma qidx_mono : forall x y r n, (0 < r)%Q -> (- r <= x)%Q -> (x <= y)%Q -> 0 <= n -> qidx x r n <= qidx y r n.
Proof.
  intros x y r n Hr H1 H2 Hn.
  destruct (Qlt_le_dec y r) as [L|L].
  - destruct (qidx_in x r n Hr H1 ltac:(lra) Hn) as (A1 & _ & A3). destruct (qidx_in y r n Hr ltac:(lra) ltac:(lra) Hn) as (B1 & _ & B3).
    specialize (B3 L). destruct (Z_lt_ge_dec (qidx y r n) (qidx x r n)) as [C|C]; [exfalso|lia].
    pose proof (edge_mono r n (qidx y r n + 1) (qidx x r n) Hr Hn ltac:(lia)). lra.
  - assert (E : qidx y r n = 2 ^ n - 1).
    { unfold qidx. replace (Qle_bool r y) with true; [reflexivity|]. symmetry. apply Qle_bool_iff. assumption. }
    rewrite E. pose proof (qidx_range x r n Hr H1 Hn). lia.
Qed.

Lemma edge_eq_inj : forall r n a b, (0 < r)%Q -> 0 <= n -> (edge r n a == edge r n b)%Q -> a = b.
Proof.
  intros r n a b Hr Hn H. destruct (Z.lt_trichotomy a b) as [L|[L|L]]; [exfalso|assumption|exfalso].
  - pose proof (edge_lt r n a b Hr Hn L). lra.
  - pose proof (edge_lt r n b a Hr Hn L). lra.
Qed.

Lemma round_to_size_ok : forall x k, 0 <= k -> (x == inject_Z k)%Q -> round_to_size x = Ok k.
Proof.
  intros x k Hk E. unfold round_to_size.
  assert (0 <= x)%Q by (rewrite E; change 0%Q with (inject_Z 0); rewrite <- Zle_Qle; assumption).
  replace (Qle_bool 0 x) with true by (symmetry; apply Qle_bool_iff; assumption).
  assert (F : Qfloor (x + (1 # 2)) = k).
  { apply Qfloor_char; rewrite E; [lra|]. rewrite inject_Z_plus. change (inject_Z 1) with 1%Q. lra. }
  rewrite F. destruct (Z.leb_spec 0 k); [reflexivity|lia].
Qed.

Lemma grid_steps : forall r n a b e, (0 < r)%Q -> 0 <= n -> a <= b -> (e == 2 * r / inject_Z (2 ^ n))%Q ->
  ((edge r n b - edge r n a) / e == inject_Z (b - a))%Q.
Proof.
  intros r n a b e Hr Hn Hab E. pose proof (inject_pow_pos n Hn). rewrite E. unfold edge, Z.sub.
  rewrite inject_Z_plus, inject_Z_opp. field. split; lra.
Qed.

Definition wf_box (b : box) : Prop :=
  in_range (min_corner b) /\ in_range (max_corner b) /\
  (p_lon (min_corner b) <= p_lon (max_corner b))%Q /\ (p_lat (min_corner b) <= p_lat (max_corner b))%Q.

(** Number of columns and rows enumerated. *)
Definition ncols (b : box) (p : nat) : Z :=
  qidx (p_lon (max_corner b)) 180 (lonb (Z.of_nat p)) - qidx (p_lon (min_corner b)) 180 (lonb (Z.of_nat p))
  + (if Qeq_bool (p_lon (max_corner b)) 180 then 1 else 0).
Definition nrows (b : box) (p : nat) : Z :=
  qidx (p_lat (max_corner b)) 90 (latb (Z.of_nat p)) - qidx (p_lat (min_corner b)) 90 (latb (Z.of_nat p))
  + (if Qeq_bool (p_lat (max_corner b)) 90 then 1 else 0).
Definition one_cell (b : box) (p : nat) : Prop :=
  qidx (p_lon (max_corner b)) 180 (lonb (Z.of_nat p)) = qidx (p_lon (min_corner b)) 180 (lonb (Z.of_nat p)) /\
  qidx (p_lat (max_corner b)) 90 (latb (Z.of_nat p)) = qidx (p_lat (min_corner b)) 90 (latb (Z.of_nat p)).

Definition sw_code (b : box) (p : nat) : Z :=
  code_at p (qidx (p_lon (min_corner b)) 180 (lonb (Z.of_nat p))) (qidx (p_lat (min_corner b)) 90 (latb (Z.of_nat p))).

Lemma gh_encode_code_at : forall bmi2 pt p, in_range pt -> (1 <= p <= 64)%nat ->
  gh_encode bmi2 pt (Z.of_nat p) =
  Ok (code_at p (qidx (p_lon pt) 180 (lonb (Z.of_nat p))) (qidx (p_lat pt) 90 (latb (Z.of_nat p)))).
Proof.
  intros bmi2 pt p Hr Hp. destruct (gh_encode_ok bmi2 pt p Hr Hp) as (h & E & C & LO & LA).
  rewrite E. f_equal. rewrite <- LO, <- LA. symmetry. apply code_at_idx. assumption.
Qed.

Lemma box_of_code_at : forall bmi2 p a b, (1 <= p <= 62)%nat ->
  0 <= a < 2 ^ lonb (Z.of_nat p) -> 0 <= b < 2 ^ latb (Z.of_nat p) ->
  exists bx, bounding_box bmi2 (code_at p a b) (Z.of_nat p) = Ok bx /\
    same_cell (cell_of_box bx)
      (Cell (edge 180 (lonb (Z.of_nat p)) a) (edge 180 (lonb (Z.of_nat p)) (a + 1))
            (edge 90 (latb (Z.of_nat p)) b) (edge 90 (latb (Z.of_nat p)) (b + 1))).
Proof.
  intros bmi2 p a b Hp Ha Hb. destruct (code_at_ok p a b Ha Hb) as (C & LO & LA).
  destruct (no_last p (code_at p a b) ltac:(lia)) as [N1 N2].
  destruct (box_cell_of bmi2 p (code_at p a b) ltac:(lia) N1 N2) as (bx & E & S).
  exists bx. split; [assumption|]. eapply same_cell_trans; [exact S|].
  pose proof (cell_of_edges p (code_at p a b)) as K. rewrite LO, LA in K. exact K.
Qed.

Lemma grid_properties_ok : forall bmi2 b p, (1 <= p <= 62)%nat -> wf_box b ->
  (one_cell b p /\ grid_properties bmi2 b (Z.of_nat p) = Ok (sw_code b p, 1, 1)) \/
  (~ one_cell b p /\ grid_properties bmi2 b (Z.of_nat p) = Ok (sw_code b p, ncols b p, nrows b p)).
Proof.
  intros bmi2 b p Hp (R1 & R2 & L1 & L2). pose proof (bits_nonneg p) as (_ & B1 & B2).
  pose proof R1 as (r1 & r2 & r3 & r4). pose proof R2 as (s1 & s2 & s3 & s4).
  unfold grid_properties. rewrite !gh_encode_code_at by (try assumption; lia).
  unfold sw_code, ncols, nrows, one_cell.
  pose proof (qidx_range (p_lon (min_corner b)) 180 _ ltac:(reflexivity) r1 B1) as Ra0.
  pose proof (qidx_range (p_lat (min_corner b)) 90 _ ltac:(reflexivity) r3 B2) as Rb0.
  pose proof (qidx_range (p_lon (max_corner b)) 180 _ ltac:(reflexivity) s1 B1) as Ra1.
  pose proof (qidx_range (p_lat (max_corner b)) 90 _ ltac:(reflexivity) s3 B2) as Rb1.
  pose proof (qidx_mono _ _ 180 _ ltac:(reflexivity) r1 L1 B1) as Ma.
  pose proof (qidx_mono _ _ 90 _ ltac:(reflexivity) r3 L2 B2) as Mb.
  set (a0 := qidx (p_lon (min_corner b)) 180 _) in *. set (b0 := qidx (p_lat (min_corner b)) 90 _) in *.
  set (a1 := qidx (p_lon (max_corner b)) 180 _) in *. set (b1 := qidx (p_lat (max_corner b)) 90 _) in *.
  destruct (box_of_code_at bmi2 p a0 b0 Hp Ra0 Rb0) as (bx0 & E0 & S0).
  destruct (box_of_code_at bmi2 p a1 b1 Hp Ra1 Rb1) as (bx1 & E1 & S1).
  cbn [obind]. rewrite E0. cbn [obind]. rewrite E1. cbn [obind].
  destruct S0 as (W0 & X0 & Y0 & N0). destruct S1 as (W1 & X1 & Y1 & N1).
  unfold cell_of_box in *. cbn [west east south north] in *.
  destruct (box_eqb bx0 bx1) eqn:Eb.
  - left. split; [|reflexivity]. unfold box_eqb, point_eqb in Eb.
    apply andb_true_iff in Eb. destruct Eb as [Eb _]. apply andb_true_iff in Eb. destruct Eb as [Eb1 Eb2].
    apply Qeq_bool_eq in Eb1. apply Qeq_bool_eq in Eb2.
    split; symmetry; [apply (edge_eq_inj 180 (lonb (Z.of_nat p)))|apply (edge_eq_inj 90 (latb (Z.of_nat p)))]; try assumption; try reflexivity; lra.
  - right. split.
    + intros [C1 C2]. rewrite C1 in *. rewrite C2 in *.
      assert (box_eqb bx0 bx1 = true); [|congruence].
      unfold box_eqb, point_eqb. rewrite !(Qeq_eq_bool) by lra. reflexivity.
    + destruct (errors_eq p ltac:(lia)) as [Er1 Er2].
      destruct (error_with_precision (Z.of_nat p)) as [elon elat]. cbn [fst snd] in *.
      rewrite (round_to_size_ok _ (a1 - a0)); [|lia|].
      2:{ rewrite W0, W1. apply grid_steps; try reflexivity; try assumption. }
      rewrite (round_to_size_ok _ (b1 - b0)); [|lia|].
      2:{ rewrite Y0, Y1. apply grid_steps; try reflexivity; try assumption. }
      reflexivity.
Qed.

Lemma oseq_map_ok : forall {A B : Type} (f : A -> outcome B) (g : A -> B) l,
  (forall a, In a l -> f a = Ok (g a)) -> oseq (map f l) = Ok (map g l).
Proof.
  intros A B f g l. induction l as [|a l IH]; intros H; [reflexivity|].
  cbn [map oseq]. rewrite H by (left; reflexivity). cbn [obind]. rewrite IH by (intros; apply H; right; assumption).
  reflexivity.
Qed.

Lemma in_zrange : forall n i, In i (zrange n) <-> 0 <= i < n.
Proof.
  intros n i. unfold zrange. rewrite in_map_iff. split.
  - intros (k & <- & H). apply in_seq in H. lia.
  - intros H. exists (Z.to_nat i). split; [lia|]. apply in_seq. lia.
Qed.

Lemma flat_map_map : forall {A B C : Type} (f : A -> B -> C) (l : list A) (m : list B),
  flat_map (fun a => map (f a) m) l = map (fun ab => f (fst ab) (snd ab)) (list_prod l m).
Proof.
  intros A B C f l m. induction l as [|a l IH]; [reflexivity|].
  cbn [flat_map list_prod]. rewrite map_app, map_map, IH. reflexivity.
Qed.

(** The cells of columns [a0 .. a0+nc-1] and rows [b0 .. b0+nr-1], row by row. *)
Definition block (p : nat) (a0 b0 nc nr : Z) : list Z :=
  flat_map (fun j => map (fun i => code_at p (a0 + i) (b0 + j)) (zrange nc)) (zrange nr).

Lemma enumerate_ok : forall bmi2 p a0 b0 nc nr elon elat lon0 lat0, (1 <= p <= 62)%nat ->
  0 <= a0 -> a0 + nc <= 2 ^ lonb (Z.of_nat p) -> 0 <= b0 -> b0 + nr <= 2 ^ latb (Z.of_nat p) ->
  (elon == 360 / inject_Z (2 ^ lonb (Z.of_nat p)))%Q -> (elat == 180 / inject_Z (2 ^ latb (Z.of_nat p)))%Q ->
  (lon0 == mid 180 (lonb (Z.of_nat p)) a0)%Q -> (lat0 == mid 90 (latb (Z.of_nat p)) b0)%Q ->
  oseq (flat_map (fun lat => map (fun lon =>
     gh_encode bmi2 (Point (lon0 + inject_Z lon * elon) (lat0 + inject_Z lat * elat)) (Z.of_nat p))
     (zrange nc)) (zrange nr)) = Ok (block p a0 b0 nc nr).
Proof.
  intros bmi2 p a0 b0 nc nr elon elat lon0 lat0 Hp Ha Hn Hb Hr E1 E2 M1 M2.
  unfold block. rewrite !flat_map_map. apply oseq_map_ok. intros [j i] Hin. cbn [fst snd].
  apply in_prod_iff in Hin. rewrite !in_zrange in Hin.
  pose proof (bits_nonneg p) as (_ & B1 & B2). pose proof (inject_pow_pos _ B1). pose proof (inject_pow_pos _ B2).
  apply encode_mid; try lia; cbn [p_lon p_lat].
  - rewrite M1, E1. unfold mid, edge. rewrite inject_Z_plus. field. lra.
  - rewrite M2, E2. unfold mid, edge. rewrite inject_Z_plus. field. lra.
Qed.

Lemma qidx_top : forall r n, qidx r r n = 2 ^ n - 1.
Proof. intros. unfold qidx. replace (Qle_bool r r) with true; [reflexivity|]. symmetry. apply Qle_bool_iff. apply Qle_refl. Qed.

Lemma qidx_top' : forall x r n, (x == r)%Q -> qidx x r n = 2 ^ n - 1.
Proof. intros. unfold qidx. replace (Qle_bool r x) with true; [reflexivity|]. symmetry. apply Qle_bool_iff. lra. Qed.

Lemma bounding_boxes_block : forall bmi2 b p, (1 <= p <= 62)%nat -> wf_box b ->
  (one_cell b p /\ bounding_boxes bmi2 b (Z.of_nat p) = Ok [sw_code b p]) \/
  (~ one_cell b p /\ bounding_boxes bmi2 b (Z.of_nat p) =
     Ok (block p (qidx (p_lon (min_corner b)) 180 (lonb (Z.of_nat p)))
                 (qidx (p_lat (min_corner b)) 90 (latb (Z.of_nat p))) (ncols b p) (nrows b p))).
Proof.
  intros bmi2 b p Hp Hw. pose proof Hw as ((r1 & r2 & r3 & r4) & (s1 & s2 & s3 & s4) & L1 & L2).
  pose proof (bits_nonneg p) as (_ & B1 & B2).
  pose proof (qidx_range (p_lon (min_corner b)) 180 _ ltac:(reflexivity) r1 B1) as Ra0.
  pose proof (qidx_range (p_lat (min_corner b)) 90 _ ltac:(reflexivity) r3 B2) as Rb0.
  pose proof (qidx_range (p_lon (max_corner b)) 180 _ ltac:(reflexivity) s1 B1) as Ra1.
  pose proof (qidx_range (p_lat (max_corner b)) 90 _ ltac:(reflexivity) s3 B2) as Rb1.
  pose proof (qidx_mono _ _ 180 _ ltac:(reflexivity) r1 L1 B1) as Ma.
  pose proof (qidx_mono _ _ 90 _ ltac:(reflexivity) r3 L2 B2) as Mb.
  assert (Hnc : 0 <= ncols b p /\ qidx (p_lon (min_corner b)) 180 (lonb (Z.of_nat p)) + ncols b p <= 2 ^ lonb (Z.of_nat p)).
  { unfold ncols. destruct (Qeq_bool (p_lon (max_corner b)) 180); lia. }
  assert (Hnr : 0 <= nrows b p /\ qidx (p_lat (min_corner b)) 90 (latb (Z.of_nat p)) + nrows b p <= 2 ^ latb (Z.of_nat p)).
  { unfold nrows. destruct (Qeq_bool (p_lat (max_corner b)) 90); lia. }
  destruct (code_at_ok p _ _ Ra0 Rb0) as (C & LO & LA).
  fold (sw_code b p) in C, LO, LA.
  destruct (no_last p (sw_code b p) ltac:(lia)) as [N1 N2].
  destruct (decode_encode bmi2 p (sw_code b p) false ltac:(lia) C N1 N2) as (pt & D & _ & Mid & _).
  destruct (Mid eq_refl) as [Mlon Mlat].
  destruct (cell_of_edges p (sw_code b p)) as (W & Ea & S & N). cbn [west east south north] in *.
  rewrite LO in W, Ea. rewrite LA in S, N.
  pose proof (inject_pow_pos _ B1) as P1. pose proof (inject_pow_pos _ B2) as P2.
  assert (M1 : (p_lon pt == mid 180 (lonb (Z.of_nat p)) (qidx (p_lon (min_corner b)) 180 (lonb (Z.of_nat p))))%Q).
  { rewrite Mlon, W, Ea. rewrite edge_succ by assumption. unfold mid. field. lra. }
  assert (M2 : (p_lat pt == mid 90 (latb (Z.of_nat p)) (qidx (p_lat (min_corner b)) 90 (latb (Z.of_nat p))))%Q).
  { rewrite Mlat, S, N. rewrite edge_succ by assumption. unfold mid. field. lra. }
  destruct (errors_eq p ltac:(lia)) as [Er1 Er2].
  unfold bounding_boxes. destruct (error_with_precision (Z.of_nat p)) as [elon elat]. cbn [fst snd] in Er1, Er2.
  destruct (grid_properties_ok bmi2 b p Hp Hw) as [[O G]|[O G]]; [left|right]; (split; [exact O|]); rewrite G; cbn [obind];
    rewrite D; cbn [obind].
  - rewrite (enumerate_ok bmi2 p _ _ 1 1 elon elat _ _ Hp (proj1 Ra0) ltac:(lia) (proj1 Rb0) ltac:(lia) Er1 Er2 M1 M2).
    unfold block, sw_code. change (zrange 1) with [0]. cbn [flat_map map app]. rewrite !Z.add_0_r. reflexivity.
  - apply enumerate_ok; try assumption; try lia.
Qed.

(* ------------------------------------------------------------------ *)
(** What the enumeration contains and in which order. *)

Definition row_major (p : nat) (h g : Z) : Prop :=
  (south (cell_of p h) < south (cell_of p g))%Q \/
  ((south (cell_of p h) == south (cell_of p g))%Q /\ (west (cell_of p h) < west (cell_of p g))%Q).

Lemma row_major_idx : forall p h g,
  latx p h < latx p g \/ (latx p h = latx p g /\ lonx p h < lonx p g) -> row_major p h g.
Proof.
  intros p h g H. destruct (cell_of_edges p h) as (W & _ & S & _). destruct (cell_of_edges p g) as (W' & _ & S' & _).
  cbn [west east south north] in *. pose proof (bits_nonneg p) as (_ & B1 & B2).
  unfold row_major. rewrite W, S, W', S'. destruct H as [H|[H1 H2]].
  - left. apply edge_lt; try assumption; reflexivity.
  - right. rewrite H1. split; [reflexivity|]. apply edge_lt; try assumption; reflexivity.
Qed.

Lemma StronglySorted_app : forall {A : Type} (R : A -> A -> Prop) l m,
  StronglySorted R l -> StronglySorted R m -> (forall x y, In x l -> In y m -> R x y) -> StronglySorted R (l ++ m).
Proof.
  intros A R l m Hl Hm H. induction Hl as [|a l Hs IH Hf]; [assumption|]. cbn. constructor.
  - apply IH. intros. apply H; [right; assumption|assumption].
  - apply Forall_app. split; [assumption|]. apply Forall_forall. intros y Hy. apply H; [left; reflexivity|assumption].
Qed.

Lemma StronglySorted_map : forall {A B : Type} (f : A -> B) (R : B -> B -> Prop) (S : A -> A -> Prop) l,
  (forall x y, In x l -> In y l -> S x y -> R (f x) (f y)) -> StronglySorted S l -> StronglySorted R (map f l).
Proof.
  intros A B f R S l H Hs. induction Hs as [|a l Hs IH Hf]; [constructor|]. cbn. constructor.
  - apply IH. intros. apply H; try (right; assumption). assumption.
  - rewrite Forall_forall in *. intros y Hy. apply in_map_iff in Hy. destruct Hy as (x & <- & Hx).
    apply H; [left; reflexivity|right; assumption|apply Hf; assumption].
Qed.

Lemma seq_sorted : forall n s, StronglySorted lt (seq s n).
Proof.
  induction n as [|n IH]; intros s; [constructor|]. cbn. constructor; [apply IH|].
  apply Forall_forall. intros x Hx. apply in_seq in Hx. lia.
Qed.
Lemma zrange_sorted : forall n, StronglySorted Z.lt (zrange n).
Proof. intros. unfold zrange. eapply StronglySorted_map; [|apply seq_sorted]. intros; lia. Qed.

Lemma StronglySorted_flat_map : forall {A B : Type} (f : A -> list B) (R : B -> B -> Prop) (S : A -> A -> Prop) l,
  (forall x, In x l -> StronglySorted R (f x)) ->
  (forall x y u v, In x l -> In y l -> S x y -> In u (f x) -> In v (f y) -> R u v) ->
  StronglySorted S l -> StronglySorted R (flat_map f l).
Proof.
  intros A B f R S l H1 H2 Hs. induction Hs as [|a l Hs IH Hf]; [constructor|]. cbn [flat_map].
  apply StronglySorted_app.
  - apply H1. left; reflexivity.
  - apply IH; [intros; apply H1; right; assumption|].
    intros x y u v Hx Hy. apply H2; right; assumption.
  - intros x y Hx Hy. apply in_flat_map in Hy. destruct Hy as (b & Hb & Hy).
    rewrite Forall_forall in Hf. eapply H2; [left; reflexivity|right; exact Hb|apply Hf; assumption|assumption|assumption].
Qed.

Lemma in_block : forall p a0 b0 nc nr h,
  0 <= a0 -> a0 + nc <= 2 ^ lonb (Z.of_nat p) -> 0 <= b0 -> b0 + nr <= 2 ^ latb (Z.of_nat p) ->
  (In h (block p a0 b0 nc nr) <->
   is_code (Z.of_nat p) h /\ a0 <= lonx p h < a0 + nc /\ b0 <= latx p h < b0 + nr).
Proof.
  intros p a0 b0 nc nr h Ha Hn Hb Hr. unfold block. rewrite in_flat_map. split.
  - intros (j & Hj & H). apply in_map_iff in H. destruct H as (i & <- & Hi). rewrite in_zrange in *.
    destruct (code_at_ok p (a0 + i) (b0 + j)) as (C & LO & LA); [lia|lia|]. rewrite LO, LA. split; [assumption|lia].
  - intros (C & H1 & H2). exists (latx p h - b0). rewrite in_zrange. split; [lia|].
    apply in_map_iff. exists (lonx p h - a0). rewrite in_zrange. split; [|lia].
    replace (a0 + (lonx p h - a0)) with (lonx p h) by lia. replace (b0 + (latx p h - b0)) with (latx p h) by lia.
    apply code_at_idx. assumption.
Qed.

Lemma block_sorted : forall p a0 b0 nc nr,
  0 <= a0 -> a0 + nc <= 2 ^ lonb (Z.of_nat p) -> 0 <= b0 -> b0 + nr <= 2 ^ latb (Z.of_nat p) ->
  StronglySorted (row_major p) (block p a0 b0 nc nr).
Proof.
  intros p a0 b0 nc nr Ha Hn Hb Hr. unfold block.
  apply StronglySorted_flat_map with (S := Z.lt); [| |apply zrange_sorted].
  - intros j Hj. rewrite in_zrange in Hj. apply StronglySorted_map with (S := Z.lt); [|apply zrange_sorted].
    intros x y Hx Hy L. rewrite in_zrange in *. apply row_major_idx. right.
    destruct (code_at_ok p (a0 + x) (b0 + j)) as (_ & LO & LA); [lia|lia|].
    destruct (code_at_ok p (a0 + y) (b0 + j)) as (_ & LO' & LA'); [lia|lia|]. lia.
  - intros x y u v Hx Hy L Hu Hv. apply in_map_iff in Hu, Hv. destruct Hu as (i & <- & Hi). destruct Hv as (k & <- & Hk).
    rewrite in_zrange in *. apply row_major_idx. left.
    destruct (code_at_ok p (a0 + i) (b0 + x)) as (_ & LO & LA); [lia|lia|].
    destruct (code_at_ok p (a0 + k) (b0 + y)) as (_ & LO' & LA'); [lia|lia|]. lia.
Qed.

Lemma row_major_irrefl : forall p h, ~ row_major p h h.
Proof. intros p h [H|[_ H]]; revert H; apply Qlt_irrefl. Qed.

Lemma StronglySorted_NoDup : forall {A : Type} (R : A -> A -> Prop) l, (forall x, ~ R x x) ->
  StronglySorted R l -> NoDup l.
Proof.
  intros A R l H Hs. induction Hs as [|a l Hs IH Hf]; constructor; [|assumption].
  intros C. rewrite Forall_forall in Hf. exact (H a (Hf a C)).
Qed.

(** Which columns are enumerated, in terms of the eastern edge of the cell. *)
Lemma col_range : forall w e r n a (top : bool), (0 < r)%Q -> 0 <= n -> (- r <= w)%Q -> (w < r)%Q -> (w <= e)%Q -> (e <= r)%Q ->
  top = Qeq_bool e r -> 0 <= a < 2 ^ n ->
  (qidx w r n <= a < qidx w r n + (qidx e r n - qidx w r n + (if top then 1 else 0)) <->
   (w < edge r n (a + 1) /\ edge r n (a + 1) <= e)%Q).
Proof.
  intros w e r n a top Hr Hn H1 H2 H3 H4 Ht Ha.
  destruct (qidx_in w r n Hr H1 ltac:(lra) Hn) as (A1 & _ & A3). specialize (A3 H2).
  destruct (qidx_in e r n Hr ltac:(lra) H4 Hn) as (B1 & B2 & B3).
  assert (Lw : qidx w r n <= a <-> (w < edge r n (a + 1))%Q).
  { split; intros H.
    - pose proof (edge_mono r n (qidx w r n + 1) (a + 1) Hr Hn ltac:(lia)). lra.
    - destruct (Z_lt_ge_dec a (qidx w r n)) as [C|C]; [exfalso|lia].
      pose proof (edge_mono r n (a + 1) (qidx w r n) Hr Hn ltac:(lia)). lra. }
  assert (Le : a < qidx e r n + (if top then 1 else 0) <-> (edge r n (a + 1) <= e)%Q).
  { subst top. destruct (Qeq_bool e r) eqn:E.
    - apply Qeq_bool_eq in E. rewrite (qidx_top' e r n E). split; intros; [|lia].
      pose proof (edge_le_r r n (a + 1) Hr Hn ltac:(lia)). lra.
    - assert (L : (e < r)%Q).
      { destruct (Qlt_le_dec e r); [assumption|]. assert (e == r)%Q by lra. apply Qeq_eq_bool in H. congruence. }
      specialize (B3 L). split; intros H.
      + pose proof (edge_mono r n (a + 1) (qidx e r n) Hr Hn ltac:(lia)). lra.
      + destruct (Z_lt_ge_dec a (qidx e r n)) as [C|C]; [lia|exfalso].
        pose proof (edge_mono r n (qidx e r n + 1) (a + 1) Hr Hn ltac:(lia)). lra. }
  rewrite <- Lw, <- Le. lia.
Qed.

Lemma bounding_boxes_content : forall bmi2 b p l, (1 <= p <= 62)%nat -> wf_box b ->
  (p_lon (min_corner b) < 180)%Q -> (p_lat (min_corner b) < 90)%Q ->
  bounding_boxes bmi2 b (Z.of_nat p) = Ok l -> ~ one_cell b p ->
  forall h, In h l <->
    is_code (Z.of_nat p) h /\
    (p_lon (min_corner b) < east (cell_of p h) /\ east (cell_of p h) <= p_lon (max_corner b))%Q /\
    (p_lat (min_corner b) < north (cell_of p h) /\ north (cell_of p h) <= p_lat (max_corner b))%Q.
Proof.
  intros bmi2 b p l Hp Hw Hlon Hlat E No h.
  destruct (bounding_boxes_block bmi2 b p Hp Hw) as [[O _]|[_ E']]; [contradiction|].
  rewrite E' in E. assert (El : l = block p (qidx (p_lon (min_corner b)) 180 (lonb (Z.of_nat p)))
                 (qidx (p_lat (min_corner b)) 90 (latb (Z.of_nat p))) (ncols b p) (nrows b p)) by congruence.
  pose proof Hw as ((r1 & r2 & r3 & r4) & (s1 & s2 & s3 & s4) & L1 & L2).
  pose proof (bits_nonneg p) as (_ & B1 & B2).
  pose proof (qidx_range (p_lon (min_corner b)) 180 _ ltac:(reflexivity) r1 B1) as Ra0.
  pose proof (qidx_range (p_lat (min_corner b)) 90 _ ltac:(reflexivity) r3 B2) as Rb0.
  pose proof (qidx_range (p_lon (max_corner b)) 180 _ ltac:(reflexivity) s1 B1) as Ra1.
  pose proof (qidx_range (p_lat (max_corner b)) 90 _ ltac:(reflexivity) s3 B2) as Rb1.
  subst l. rewrite in_block; try lia.
  2:{ unfold ncols. destruct (Qeq_bool (p_lon (max_corner b)) 180); lia. }
  2:{ unfold nrows. destruct (Qeq_bool (p_lat (max_corner b)) 90); lia. }
  unfold ncols, nrows.
  rewrite (col_range _ _ 180 _ _ _ ltac:(reflexivity) B1 r1 Hlon L1 s2 eq_refl (lonx_range p h)).
  rewrite (col_range _ _ 90 _ _ _ ltac:(reflexivity) B2 r3 Hlat L2 s4 eq_refl (latx_range p h)).
  destruct (cell_of_edges p h) as (_ & Ea & _ & N). cbn [west east south north] in *. rewrite Ea, N. tauto.
Qed.

Lemma bounding_boxes_sorted : forall bmi2 b p, (1 <= p <= 62)%nat -> wf_box b ->
  exists l, bounding_boxes bmi2 b (Z.of_nat p) = Ok l /\ StronglySorted (row_major p) l.
Proof.
  intros bmi2 b p Hp Hw.
  pose proof Hw as ((r1 & r2 & r3 & r4) & (s1 & s2 & s3 & s4) & L1 & L2).
  pose proof (bits_nonneg p) as (_ & B1 & B2).
  pose proof (qidx_range (p_lon (min_corner b)) 180 _ ltac:(reflexivity) r1 B1) as Ra0.
  pose proof (qidx_range (p_lat (min_corner b)) 90 _ ltac:(reflexivity) r3 B2) as Rb0.
  pose proof (qidx_range (p_lon (max_corner b)) 180 _ ltac:(reflexivity) s1 B1) as Ra1.
  pose proof (qidx_range (p_lat (max_corner b)) 90 _ ltac:(reflexivity) s3 B2) as Rb1.
  destruct (bounding_boxes_block bmi2 b p Hp Hw) as [[_ E]|[_ E]]; eexists; (split; [exact E|]).
  - constructor; constructor.
  - apply block_sorted; try lia.
    + unfold ncols. destruct (Qeq_bool (p_lon (max_corner b)) 180); lia.
    + unfold nrows. destruct (Qeq_bool (p_lat (max_corner b)) 90); lia.
Qed.
