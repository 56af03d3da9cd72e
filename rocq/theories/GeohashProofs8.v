(** Bridges between row/column numbers and the borders of the cells. *)
From Verif Require Import Base BaseProofs GeohashModel GeohashSpec GeohashProofs GeohashProofs2 GeohashProofs3
  GeohashProofs4 GeohashProofs5 GeohashProofs6 GeohashProofs7.
Open Scope Z_scope.

Lemma in_range_earth : forall pt, in_range pt <-> in_closed earth (p_lon pt) (p_lat pt).
Proof. intros. unfold in_range, in_closed, earth; cbn [west east south north]. tauto. Qed.

Lemma last_col_east : forall p h, (east (cell_of p h) < 180)%Q -> lonx p h < 2 ^ lonb (Z.of_nat p) - 1.
Proof.
  intros p h H. destruct (cell_of_edges p h) as (_ & E & _ & _). cbn [west east south north] in E.
  pose proof (bits_nonneg p) as B. pose proof (lonx_range p h) as R.
  destruct (Z.eq_dec (lonx p h + 1) (2 ^ lonb (Z.of_nat p))) as [L|L]; [|lia].
  rewrite L in E. pose proof (edge_max 180 (lonb (Z.of_nat p)) ltac:(lia)). exfalso. lra.
Qed.
Lemma last_row_north : forall p h, (north (cell_of p h) < 90)%Q -> latx p h < 2 ^ latb (Z.of_nat p) - 1.
Proof.
  intros p h H. destruct (cell_of_edges p h) as (_ & _ & _ & E). cbn [west east south north] in E.
  pose proof (bits_nonneg p) as B. pose proof (latx_range p h) as R.
  destruct (Z.eq_dec (latx p h + 1) (2 ^ latb (Z.of_nat p))) as [L|L]; [|lia].
  rewrite L in E. pose proof (edge_max 90 (latb (Z.of_nat p)) ltac:(lia)). exfalso. lra.
Qed.
Lemma first_col_west : forall p h, (-180 < west (cell_of p h))%Q -> 0 < lonx p h.
Proof.
  intros p h H. destruct (cell_of_edges p h) as (E & _ & _ & _). cbn [west east south north] in E.
  pose proof (lonx_range p h) as R. destruct (Z.eq_dec (lonx p h) 0) as [L|L]; [|lia].
  rewrite L in E. pose proof (edge_0 180 (lonb (Z.of_nat p))). exfalso. lra.
Qed.
Lemma first_row_south : forall p h, (-90 < south (cell_of p h))%Q -> 0 < latx p h.
Proof.
  intros p h H. destruct (cell_of_edges p h) as (_ & _ & E & _). cbn [west east south north] in E.
  pose proof (latx_range p h) as R. destruct (Z.eq_dec (latx p h) 0) as [L|L]; [|lia].
  rewrite L in E. pose proof (edge_0 90 (latb (Z.of_nat p))). exfalso. lra.
Qed.

(** Precision at most 62, or away from the last column and row. *)
Definition no_top (p : nat) (h : Z) : Prop :=
  (p <= 62)%nat \/ ((east (cell_of p h) < 180)%Q /\ (north (cell_of p h) < 90)%Q).
Lemma no_top_ok : forall p h, no_top p h -> ~ last_col (Z.of_nat p) h /\ ~ last_row (Z.of_nat p) h.
Proof.
  intros p h [H|[H1 H2]]; [apply no_last; assumption|].
  apply last_col_east in H1. apply last_row_north in H2. unfold last_col, last_row. rewrite Nat2Z.id.
  split; intros [E F]; rewrite E in *; lia.
Qed.

(** Row and column arithmetic modulo the number of columns. *)
Lemma wrap_of_idx : forall p h g i j, -1 <= i <= 1 -> (1 <= p)%nat ->
  0 < latx p h < 2 ^ latb (Z.of_nat p) - 1 -> -1 <= j <= 1 ->
  lonx p g = (lonx p h + i) mod 2 ^ lonb (Z.of_nat p) ->
  latx p g = (latx p h + j) mod 2 ^ latb (Z.of_nat p) ->
  shifted_wrap (cell_of p h) (cell_of p g) i j.
Proof.
  intros p h g i j Hi Hp Hr Hj Eo Ea.
  pose proof (bits_nonneg p) as B. pose proof (lonx_range p h) as Ro.
  assert (P : 0 < 2 ^ lonb (Z.of_nat p)) by (apply Z.pow_pos_nonneg; lia).
  rewrite (Z.mod_small (latx p h + j)) in Ea by lia.
  set (k := - ((lonx p h + i) / 2 ^ lonb (Z.of_nat p))).
  assert (Eo' : lonx p g = lonx p h + i + k * 2 ^ lonb (Z.of_nat p)).
  { rewrite Eo. unfold k. pose proof (Z.div_mod (lonx p h + i) (2 ^ lonb (Z.of_nat p)) ltac:(lia)). lia. }
  exists k.
  pose proof (shifted_of_idx p h g (i + k * 2 ^ lonb (Z.of_nat p)) j ltac:(lia) Ea) as (S1 & S2 & S3 & S4).
  destruct (cell_size p h) as [W _].
  assert (K : (inject_Z (i + k * 2 ^ lonb (Z.of_nat p)) * (east (cell_of p h) - west (cell_of p h)) ==
              inject_Z i * (east (cell_of p h) - west (cell_of p h)) + 360 * inject_Z k)%Q).
  { rewrite inject_Z_plus, inject_Z_mult.
    rewrite Qmult_plus_distr_l. rewrite W at 2. pose proof (inject_pow_pos (lonb (Z.of_nat p)) ltac:(lia)). field. lra. }
  rewrite K in S1, S2. repeat split; [rewrite S1|rewrite S2|exact S3|exact S4]; ring.
Qed.
