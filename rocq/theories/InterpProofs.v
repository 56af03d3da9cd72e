(** Lemmas about the one-dimensional interpolators. *)
From Verif Require Import Base BaseProofs InterpModel InterpSpec.
Open Scope nat_scope.

Lemma ofor_inv : forall (S : Type) (P : nat -> S -> Prop) (f : nat -> S -> outcome S) n from s,
  P from s ->
  (forall i s, from <= i < from + n -> P i s -> exists s', f i s = Ok s' /\ P (Datatypes.S i) s') ->
  exists s', ofor from n f s = Ok s' /\ P (from + n) s'.
Proof.
  intros S P f. induction n as [|n IH]; intros from s H0 Hs; cbn [ofor].
  - exists s. rewrite Nat.add_0_r. auto.
  - destruct (Hs from s ltac:(lia) H0) as (s1 & E & H1). rewrite E. cbn [obind].
    destruct (IH (Datatypes.S from) s1 H1) as (s' & E' & H'); [intros i t Hi; apply Hs; lia|].
    exists s'. split; [exact E'|]. replace (from + Datatypes.S n) with (Datatypes.S from + n) by lia. exact H'.
Qed.
Lemma odown_inv : forall (S : Type) (P : nat -> S -> Prop) (f : nat -> S -> outcome S) n s,
  P n s ->
  (forall i s, i < n -> P (Datatypes.S i) s -> exists s', f i s = Ok s' /\ P i s') ->
  exists s', odown n f s = Ok s' /\ P 0 s'.
Proof.
  intros S P f. induction n as [|n IH]; intros s H0 Hs; cbn [odown]; [eauto|].
  destruct (Hs n s ltac:(lia) H0) as (s1 & E & H1). rewrite E. cbn [obind]. apply IH; [exact H1|]. intros i t Hi. apply Hs. lia.
Qed.

Lemma oat_ok : forall l i, i < length l -> oat l i = Ok (at_ l i).
Proof. intros l i H. unfold oat, at_. rewrite (nth_error_nth' l 0%Q H). reflexivity. Qed.
Lemma odiv_ok : forall a b, ~ (b == 0)%Q -> odiv a b = Ok (a / b)%Q.
Proof. intros a b H. unfold odiv. destruct (Qeq_bool b 0) eqn:E; [apply Qeq_bool_eq in E; contradiction|reflexivity]. Qed.
Lemma bwrite_ok : forall b i v, i < bsize b -> exists b', bwrite b i v = Ok b' /\ bsize b' = bsize b /\ bread b' i = Ok v /\
  forall k, k <> i -> bread b' k = bread b k.
Proof.
  intros b i v H. unfold bwrite. destruct (Nat.ltb_spec i (bsize b)); [|lia]. eexists. split; [reflexivity|]. split; [reflexivity|]. unfold bread; cbn [bsize bget].
  split; [destruct (Nat.ltb_spec i (bsize b)); [rewrite Nat.eqb_refl; reflexivity|lia]|]. intros k Hk.
  destruct (Nat.eqb_spec k i); [congruence|reflexivity].
Qed.
Lemma mwrite_ok : forall a i j v, i < msize a -> j < msize a -> exists a', mwrite a i j v = Ok a' /\ msize a' = msize a /\ mread a' i j = Ok v /\
  forall k l, ~ (k = i /\ l = j) -> mread a' k l = mread a k l.
Proof.
  intros a i j v Hi Hj. unfold mwrite. destruct (Nat.ltb_spec i (msize a)); [|lia]. destruct (Nat.ltb_spec j (msize a)); [|lia]. cbn [andb].
  eexists. split; [reflexivity|]. split; [reflexivity|]. unfold mread; cbn [msize mget]. split.
  - destruct (Nat.ltb_spec i (msize a)); [|lia]. destruct (Nat.ltb_spec j (msize a)); [|lia]. cbn [andb]. rewrite !Nat.eqb_refl. reflexivity.
  - intros k l H1. destruct (Nat.eqb_spec k i), (Nat.eqb_spec l j); cbn [andb]; try reflexivity. exfalso. apply H1. auto.
Qed.

(** ** search *)
Lemma increasing_lt : forall xa i j, increasing xa -> i < j -> j < length xa -> (at_ xa i < at_ xa j)%Q.
Proof.
  intros xa i j I. induction j as [|j IH]; intros H1 H2; [lia|].
  destruct (Nat.eq_dec i j) as [->|N]; [apply I; exact H2|]. eapply Qlt_trans; [apply IH; lia|apply I; exact H2].
Qed.
Lemma increasing_le : forall xa i j, increasing xa -> i <= j -> j < length xa -> (at_ xa i <= at_ xa j)%Q.
Proof. intros xa i j I H1 H2. destruct (Nat.eq_dec i j) as [->|N]; [apply Qle_refl|]. apply Qlt_le_weak, increasing_lt; auto; lia. Qed.

Lemma lower_bound_spec : forall xa x, increasing xa -> forall fuel first len, len <= fuel -> first + len <= length xa ->
  (forall k, k < first -> (at_ xa k < x)%Q) -> (forall k, first + len <= k -> k < length xa -> (x <= at_ xa k)%Q) ->
  exists it, lower_bound_from fuel xa x first len = Ok it /\ it <= length xa /\
    (forall k, k < it -> (at_ xa k < x)%Q) /\ (forall k, it <= k -> k < length xa -> (x <= at_ xa k)%Q).
Proof.
  intros xa x I. induction fuel as [|fuel IH]; intros first len Hf Hl Hlo Hhi; cbn [lower_bound_from].
  - exists first. split; [reflexivity|]. split; [lia|]. split; [exact Hlo|]. intros k H1. apply Hhi. lia.
  - destruct (Nat.eqb_spec len 0) as [->|N].
    + exists first. split; [reflexivity|]. split; [lia|]. split; [exact Hlo|]. intros k H1. apply Hhi. lia.
    + assert (Hd : len / 2 < len) by (apply Nat.div_lt; lia). rewrite oat_ok by lia. cbn [obind].
      unfold Qltb. destruct (Qle_bool x (at_ xa (first + len / 2))) eqn:C; cbn [negb].
      * apply Qle_bool_iff in C. apply IH; [lia|lia|exact Hlo|]. intros k H1 H2. eapply Qle_trans; [exact C|]. apply increasing_le; auto.
      * assert (C' : (at_ xa (first + len / 2) < x)%Q). { destruct (Qlt_le_dec (at_ xa (first + len / 2)) x) as [L|L]; [exact L|]. apply Qle_bool_iff in L. congruence. }
        apply IH; [lia|lia| |].
        -- intros k H1. eapply Qle_lt_trans; [apply (increasing_le xa k (first + len / 2)); auto; lia|exact C'].
        -- intros k H1. apply Hhi. lia.
Qed.

Lemma Qltb_iff : forall a b, Qltb a b = true <-> (a < b)%Q.
Proof.
  intros a b. unfold Qltb. destruct (Qle_bool b a) eqn:E; cbn; split; intro H; try congruence.
  - apply Qle_bool_iff in E. lra.
  - destruct (Qlt_le_dec a b) as [L|L]; [exact L|]. apply Qle_bool_iff in L. congruence.
Qed.

Lemma search_cell : forall xa x i, increasing xa -> in_cell xa x i -> search xa x = Ok (Some (i, S i)).
Proof.
  intros xa x i I (Hn & Hhi & Hlo). unfold search.
  destruct (lower_bound_spec xa x I (S (length xa)) 0 (length xa)) as (it & E & Hit & A & B); try lia.
  rewrite E. cbn [obind]. clear E. destruct Hlo as [Hlo|[-> Hlo]].
  - assert (it = S i).
    { destruct (Nat.lt_trichotomy it (S i)) as [L|[L|L]]; [|exact L|].
      - specialize (B i ltac:(lia) ltac:(lia)). lra.
      - specialize (A (S i) L). lra. }
    subst it. destruct (Nat.eqb_spec (S i) (length xa)); [lia|]. cbn [Nat.eqb]. replace (S i - 1) with i by lia. rewrite !oat_ok by lia. cbn [obind].
    rewrite (proj2 (Qltb_iff _ _) Hlo), (proj2 (Qle_bool_iff _ _) Hhi). reflexivity.
  - assert (it = 0). { destruct it as [|it]; [reflexivity|]. specialize (A 0 ltac:(lia)). lra. }
    subst it. destruct (Nat.eqb_spec 0 (length xa)); [lia|]. cbn [Nat.eqb]. rewrite oat_ok by lia. cbn [obind].
    apply Qeq_bool_iff in Hlo. rewrite Hlo. reflexivity.
Qed.
Lemma search_outside : forall xa x, increasing xa -> 2 <= length xa -> outside xa x -> search xa x = Ok None.
Proof.
  intros xa x I Hn [H|H]; unfold search; destruct (lower_bound_spec xa x I (S (length xa)) 0 (length xa)) as (it & E & Hit & A & B); try lia;
  rewrite E; cbn [obind]; clear E.
  - assert (it = 0). { destruct it as [|it]; [reflexivity|]. specialize (A 0 ltac:(lia)). lra. } subst it.
    destruct (Nat.eqb_spec 0 (length xa)); [lia|]. cbn [Nat.eqb]. rewrite oat_ok by lia. cbn [obind].
    destruct (Qeq_bool (at_ xa 0) x) eqn:C; [apply Qeq_bool_eq in C; lra|reflexivity].
  - assert (it = length xa). { destruct (Nat.eq_dec it (length xa)) as [C|C]; [exact C|]. specialize (B (length xa - 1) ltac:(lia) ltac:(lia)). lra. }
    subst it. rewrite Nat.eqb_refl. reflexivity.
Qed.
(** Every abscissa is outside or in exactly one cell. *)
Lemma cell_exists : forall xa x, increasing xa -> 2 <= length xa -> outside xa x \/ exists i, in_cell xa x i.
Proof.
  intros xa x I Hn. destruct (lower_bound_spec xa x I (S (length xa)) 0 (length xa)) as (it & _ & Hit & A & B); try lia.
  destruct (Nat.eq_dec it (length xa)) as [->|N].
  - left. right. apply A. lia.
  - destruct it as [|i].
    + specialize (B 0 ltac:(lia) ltac:(lia)). destruct (Qlt_le_dec x (at_ xa 0)) as [L|L]; [left; left; exact L|].
      right. exists 0. split; [lia|]. split; [|right; split; [reflexivity|lra]]. pose proof (I 0 ltac:(lia)). lra.
    + right. exists i. split; [lia|]. split; [apply B; lia|]. left. apply A. lia.
Qed.
Lemma cell_step : forall xa x i, increasing xa -> in_cell xa x i -> (at_ xa i <= x <= at_ xa (S i))%Q /\ (0 < at_ xa (S i) - at_ xa i)%Q.
Proof. intros xa x i I (Hn & H1 & H2). pose proof (I i Hn). split; [|lra]. destruct H2 as [H2|[_ H2]]; lra. Qed.
Lemma node_cell : forall xa i, increasing xa -> i < length xa -> 2 <= length xa ->
  exists j, in_cell xa (at_ xa i) j /\ (i = S j \/ (i = 0 /\ j = 0)).
Proof.
  intros xa i I H H2. destruct i as [|j].
  - exists 0. split; [|auto]. split; [lia|]. split; [apply Qlt_le_weak, I; lia|]. right. split; [reflexivity|apply Qeq_refl].
  - exists j. split; [|auto]. split; [lia|]. split; [apply Qle_refl|]. left. apply I. exact H.
Qed.
Lemma check_ok : forall m xa ya, data m xa ya -> check_sizes m xa ya = Ok tt.
Proof.
  intros m xa ya (H1 & H2 & _). unfold check_sizes. rewrite H1, Nat.eqb_refl. cbn [negb]. destruct (Nat.ltb_spec (length ya) m); [lia|reflexivity].
Qed.

(** ** Linear *)
Lemma linear_cell : forall xa ya x i, data 2 xa ya -> in_cell xa x i ->
  linear xa ya x = Ok (Some (at_ ya i + chord xa ya i * (x - at_ xa i))%Q) /\ linear_derivative xa ya x = Ok (Some (chord xa ya i)).
Proof.
  intros xa ya x i D C. unfold linear, linear_derivative, linear_interp, linear_deriv, linear_min_size. rewrite (check_ok _ _ _ D). cbn [obind]. destruct D as (L & N & I).
  rewrite (search_cell xa x i I C). cbn [obind]. destruct (cell_step xa x i I C) as [_ P]. destruct C as (Hn & _).
  rewrite !oat_ok by lia. cbn [obind]. rewrite odiv_ok by lra. split; reflexivity.
Qed.

(** ** Steffen *)
Lemma copysign_sgn : forall y, steffen_copysign 1 y = sgn y.
Proof.
  intro y. unfold steffen_copysign, sgn. change (Qltb 1 0) with false. change (Qltb 0 1) with true. cbn [andb orb].
  destruct (Qlt_le_dec y 0) as [L|L].
  - rewrite (proj2 (Qltb_iff _ _) L). reflexivity.
  - destruct (Qltb y 0) eqn:E; [apply Qltb_iff in E; lra|reflexivity].
Qed.
Lemma steffen_compute_ok : forall st xa ya, data 3 xa ya ->
  exists yp, steffen_compute st xa ya = Ok yp /\ forall i, i < length xa -> bread yp i = Ok (steffen_slope xa ya i).
Proof.
  intros st xa ya D. pose proof D as (L & N & I). unfold steffen_compute, steffen_min_size. rewrite (check_ok _ _ _ D). cbn [obind].
  set (yp0 := if bsize st <? length xa then bresize (length xa) else st).
  assert (S0 : length xa <= bsize yp0). { unfold yp0. destruct (Nat.ltb_spec (bsize st) (length xa)); [cbn; lia|lia]. } clearbody yp0.
  pose proof (I 0 ltac:(lia)) as P0. rewrite !oat_ok by lia. cbn [obind]. rewrite odiv_ok by lra. cbn [obind].
  destruct (bwrite_ok yp0 0 ((at_ ya 1 - at_ ya 0) / (at_ xa 1 - at_ xa 0))%Q ltac:(lia)) as (yp1 & E1 & Z1 & R1 & _). rewrite E1. cbn [obind].
  destruct (ofor_inv buf (fun i yp => bsize yp = bsize yp0 /\ forall k, k < i -> bread yp k = Ok (steffen_slope xa ya k)) (steffen_step xa ya) (length xa - 2) 1 yp1) as (yp2 & E2 & Z2 & R2).
  { split; [exact Z1|]. intros k Hk. assert (k = 0) by lia. subst k. rewrite R1. reflexivity. }
  { intros i yp Hi [Zp Rp]. unfold steffen_step. rewrite !oat_ok by lia. cbn [obind].
    pose proof (I i ltac:(lia)) as P1. pose proof (I (i - 1) ltac:(lia)) as P2. replace (S (i - 1)) with i in P2 by lia. replace (i + 1) with (S i) by lia.
    rewrite !odiv_ok by lra. cbn [obind]. rewrite odiv_ok by lra. cbn [obind].
    match goal with |- context [bwrite yp i ?v] => destruct (bwrite_ok yp i v ltac:(lia)) as (yp' & E & Z & R & O) end.
    exists yp'. split; [exact E|]. split; [lia|]. intros k Hk. destruct (Nat.eq_dec k i) as [->|Nk]; [|rewrite O by exact Nk; apply Rp; lia].
    rewrite R. unfold steffen_slope. destruct (Nat.eqb_spec i 0); [lia|]. destruct (Nat.eqb_spec i (length xa - 1)); [lia|].
    rewrite !copysign_sgn. unfold chord. replace (S (i - 1)) with i by lia. reflexivity. }
  rewrite E2. cbn [obind]. replace (1 + (length xa - 2)) with (length xa - 1) in R2 by lia.
  pose proof (I (length xa - 2) ltac:(lia)) as P3. replace (S (length xa - 2)) with (length xa - 1) in P3 by lia.
  rewrite odiv_ok by lra. cbn [obind].
  match goal with |- context [bwrite yp2 ?j ?v] => destruct (bwrite_ok yp2 j v ltac:(lia)) as (yp3 & E3 & Z3 & R3 & O3) end.
  exists yp3. split; [exact E3|]. intros k Hk. destruct (Nat.eq_dec k (length xa - 1)) as [->|Nk].
  - rewrite R3. unfold steffen_slope. destruct (Nat.eqb_spec (length xa - 1) 0); [lia|]. rewrite Nat.eqb_refl. unfold chord. replace (S (length xa - 2)) with (length xa - 1) by lia. reflexivity.
  - rewrite O3 by exact Nk. apply R2. lia.
Qed.
Lemma steffen_result : forall st xa ya x i, data 3 xa ya -> in_cell xa x i ->
  exists st' v v', steffen st xa ya x = Ok (st', Some v) /\ steffen_derivative st xa ya x = Ok (st', Some v') /\
    (v == hermite (at_ xa i) (at_ xa (S i)) (at_ ya i) (at_ ya (S i)) (steffen_slope xa ya i) (steffen_slope xa ya (S i)) x)%Q /\
    (v' == hermite' (at_ xa i) (at_ xa (S i)) (at_ ya i) (at_ ya (S i)) (steffen_slope xa ya i) (steffen_slope xa ya (S i)) x)%Q.
Proof.
  intros st xa ya x i D C. destruct (steffen_compute_ok st xa ya D) as (yp & E & R). unfold steffen, steffen_derivative. rewrite E. cbn [obind].
  destruct D as (L & N & I). unfold steffen_interp, steffen_deriv. rewrite (search_cell xa x i I C). cbn [obind].
  destruct (cell_step xa x i I C) as [_ P]. pose proof (proj1 C) as Hn. unfold steffen_cell. rewrite !oat_ok by lia. cbn [obind]. rewrite odiv_ok by lra. cbn [obind].
  rewrite !R by lia. cbn [obind]. rewrite !odiv_ok by lra. cbn [obind]. rewrite !odiv_ok by lra. cbn [obind].
  do 3 eexists. split; [reflexivity|]. split; [reflexivity|]. unfold hermite, hermite'. split; field; lra.
Qed.

(** Slopes allowed by the limiter over a cell of slope [s]. *)
Definition limited (s p : Q) : Prop :=
  ((0 <= s -> 0 <= p <= 2 * s) /\ (s <= 0 -> 2 * s <= p <= 0))%Q.
Lemma limited_chord : forall s, limited s s.
Proof. intro s. split; intro H; split; lra. Qed.
Lemma sgn_cases : forall q, (q < 0 /\ sgn q = -1 \/ 0 <= q /\ sgn q = 1)%Q.
Proof. intro q. unfold sgn. destruct (Qlt_le_dec q 0); auto. Qed.
Lemma limited_min : forall a b c, (0 <= c)%Q ->
  limited a ((sgn a + sgn b) * Qmin (Qabs a) (Qmin (Qabs b) c))%Q /\ limited b ((sgn a + sgn b) * Qmin (Qabs a) (Qmin (Qabs b) c))%Q.
Proof.
  intros a b c Hc. set (m := Qmin (Qabs a) (Qmin (Qabs b) c)).
  assert (M1 : (m <= Qabs a)%Q) by apply Q.le_min_l.
  assert (M2 : (m <= Qabs b)%Q) by (eapply Qle_trans; [apply Q.le_min_r|apply Q.le_min_l]).
  assert (M0 : (0 <= m)%Q). { apply Q.min_glb; [apply Qabs_nonneg|]. apply Q.min_glb; [apply Qabs_nonneg|exact Hc]. }
  clearbody m. destruct (sgn_cases a) as [[A ->]|[A ->]], (sgn_cases b) as [[B ->]|[B ->]];
  [rewrite Qabs_neg in M1 by lra|rewrite Qabs_neg in M1 by lra|rewrite Qabs_pos in M1 by lra|rewrite Qabs_pos in M1 by lra];
  [rewrite Qabs_neg in M2 by lra|rewrite Qabs_pos in M2 by lra|rewrite Qabs_neg in M2 by lra|rewrite Qabs_pos in M2 by lra]; split; split; intro H; split; lra.
Qed.
Lemma steffen_limited : forall xa ya i, data 3 xa ya -> S i < length xa ->
  limited (chord xa ya i) (steffen_slope xa ya i) /\ limited (chord xa ya i) (steffen_slope xa ya (S i)).
Proof.
  intros xa ya i (L & N & I) Hi. split; unfold steffen_slope.
  - destruct (Nat.eqb_spec i 0) as [->|H0]; [apply limited_chord|]. destruct (Nat.eqb_spec i (length xa - 1)); [lia|].
    cbv zeta. apply limited_min. apply Qmult_le_0_compat; [lra|apply Qabs_nonneg].
  - destruct (Nat.eqb_spec (S i) 0); [lia|]. destruct (Nat.eqb_spec (S i) (length xa - 1)) as [E|E].
    + replace (length xa - 2) with i by lia. apply limited_chord.
    + replace (S i - 1) with i by lia. cbv zeta. apply limited_min. apply Qmult_le_0_compat; [lra|apply Qabs_nonneg].
Qed.

(** Monotony of the Hermite cubic when its slopes are limited. *)
Lemma combine_nonneg : forall s p0 p1 d1 d2 d3, (0 <= s -> 0 <= p0 <= 2 * s -> 0 <= p1 <= 2 * s ->
  0 <= d1 -> 0 <= d1 + 2 * d2 -> 0 <= d1 + 2 * d3 -> 0 <= d1 + 2 * d2 + 2 * d3 -> 0 <= s * d1 + p0 * d2 + p1 * d3)%Q.
Proof.
  intros s p0 p1 d1 d2 d3 Hs [A1 A2] [B1 B2] H1 H2 H3 H4.
  assert (X : (p0 * d2 >= Qmin 0 (2 * s * d2))%Q).
  { destruct (Qlt_le_dec d2 0).
    - eapply Qle_trans; [apply Q.le_min_r|]. nra.
    - eapply Qle_trans; [apply Q.le_min_l|]. nra. }
  destruct (Qlt_le_dec d2 0) as [C|C], (Qlt_le_dec d3 0) as [E|E].
  - assert (2 * s * d2 <= p0 * d2)%Q by nra. assert (2 * s * d3 <= p1 * d3)%Q by nra. assert (0 <= s * (d1 + 2 * d2 + 2 * d3))%Q by nra. lra.
  - assert (2 * s * d2 <= p0 * d2)%Q by nra. assert (0 <= p1 * d3)%Q by nra. assert (0 <= s * (d1 + 2 * d2))%Q by nra. lra.
  - assert (0 <= p0 * d2)%Q by nra. assert (2 * s * d3 <= p1 * d3)%Q by nra. assert (0 <= s * (d1 + 2 * d3))%Q by nra. lra.
  - assert (0 <= p0 * d2)%Q by nra. assert (0 <= p1 * d3)%Q by nra. assert (0 <= s * d1)%Q by nra. lra.
Qed.
Lemma Qsq_nonneg : forall a, (0 <= a * a)%Q.
Proof. intro a. destruct (Qlt_le_dec a 0); nra. Qed.
Lemma unit_cubic_monotone : forall s p0 p1 t u, (0 <= s -> 0 <= p0 <= 2 * s -> 0 <= p1 <= 2 * s -> 0 <= t -> t <= u -> u <= 1 ->
  s * (3 * t * t - 2 * t * t * t) + p0 * (t * t * t - 2 * t * t + t) + p1 * (t * t * t - t * t) <=
  s * (3 * u * u - 2 * u * u * u) + p0 * (u * u * u - 2 * u * u + u) + p1 * (u * u * u - u * u))%Q.
Proof.
  intros s p0 p1 t u Hs H0 H1 Ht Htu Hu.
  assert (G : (0 <= s * ((3 * u * u - 2 * u * u * u) - (3 * t * t - 2 * t * t * t)) + p0 * ((u * u * u - 2 * u * u + u) - (t * t * t - 2 * t * t + t)) + p1 * ((u * u * u - u * u) - (t * t * t - t * t)))%Q); [|lra].
  apply combine_nonneg; auto.
  - setoid_replace ((3 * u * u - 2 * u * u * u) - (3 * t * t - 2 * t * t * t))%Q with ((u - t) * (u * (1 - u) * 2 + t * (1 - t) * 2 + (u + t - 2 * u * t) + 0))%Q by ring.
    apply Qmult_le_0_compat; [lra|]. assert (0 <= u * (1 - u))%Q by nra. assert (0 <= t * (1 - t))%Q by nra. assert (0 <= u + t - 2 * u * t)%Q by nra. lra.
  - match goal with |- (0 <= ?e)%Q => setoid_replace e with ((u - t) * (2 - u - t))%Q by ring end. apply Qmult_le_0_compat; lra.
  - match goal with |- (0 <= ?e)%Q => setoid_replace e with ((u - t) * (u + t))%Q by ring end. apply Qmult_le_0_compat; lra.
  - match goal with |- (0 <= ?e)%Q => setoid_replace e with ((u - t) * (2 * (u * u + u * t + t * t) - 3 * (u + t) + 2))%Q by ring end. apply Qmult_le_0_compat; [lra|].
    pose proof (Qsq_nonneg (u - t)). pose proof (Qsq_nonneg (u + t - 1)). lra.
Qed.
Lemma hermite_unit : forall x0 x1 y0 y1 p0 p1 x, (0 < x1 - x0)%Q ->
  (hermite x0 x1 y0 y1 p0 p1 x == y0 + (x1 - x0) * ((y1 - y0) / (x1 - x0) * (3 * ((x - x0) / (x1 - x0)) * ((x - x0) / (x1 - x0)) - 2 * ((x - x0) / (x1 - x0)) * ((x - x0) / (x1 - x0)) * ((x - x0) / (x1 - x0)))
   + p0 * (((x - x0) / (x1 - x0)) * ((x - x0) / (x1 - x0)) * ((x - x0) / (x1 - x0)) - 2 * ((x - x0) / (x1 - x0)) * ((x - x0) / (x1 - x0)) + ((x - x0) / (x1 - x0)))
   + p1 * (((x - x0) / (x1 - x0)) * ((x - x0) / (x1 - x0)) * ((x - x0) / (x1 - x0)) - ((x - x0) / (x1 - x0)) * ((x - x0) / (x1 - x0)))))%Q.
Proof. intros. unfold hermite. cbv zeta. field. lra. Qed.
Lemma hermite_monotone_up : forall x0 x1 y0 y1 p0 p1 x x', (0 < x1 - x0)%Q -> (x0 <= x)%Q -> (x <= x')%Q -> (x' <= x1)%Q ->
  (0 <= (y1 - y0) / (x1 - x0))%Q -> (0 <= p0 <= 2 * ((y1 - y0) / (x1 - x0)))%Q -> (0 <= p1 <= 2 * ((y1 - y0) / (x1 - x0)))%Q ->
  (hermite x0 x1 y0 y1 p0 p1 x <= hermite x0 x1 y0 y1 p0 p1 x')%Q.
Proof.
  intros x0 x1 y0 y1 p0 p1 x x' P A B C S P0 P1. rewrite !hermite_unit by exact P.
  apply Qplus_le_r. apply Qmult_le_l; [exact P|]. apply unit_cubic_monotone; auto.
  - apply Qle_shift_div_l; [exact P|]. lra.
  - apply Qle_shift_div_l; [exact P|]. setoid_replace ((x - x0) / (x1 - x0) * (x1 - x0))%Q with (x - x0)%Q by (field; lra). lra.
  - apply Qle_shift_div_r; [exact P|]. lra.
Qed.
Lemma hermite_opp : forall x0 x1 y0 y1 p0 p1 x, (0 < x1 - x0)%Q -> (hermite x0 x1 (- y0) (- y1) (- p0) (- p1) x == - hermite x0 x1 y0 y1 p0 p1 x)%Q.
Proof. intros. unfold hermite. cbv zeta. field. lra. Qed.
Lemma hermite_ends : forall x0 x1 y0 y1 p0 p1, (0 < x1 - x0)%Q -> (hermite x0 x1 y0 y1 p0 p1 x0 == y0)%Q /\ (hermite x0 x1 y0 y1 p0 p1 x1 == y1)%Q.
Proof. intros. unfold hermite. cbv zeta. split; field; lra. Qed.
Lemma hermite'_ends : forall x0 x1 y0 y1 p0 p1, (0 < x1 - x0)%Q -> (hermite' x0 x1 y0 y1 p0 p1 x0 == p0)%Q /\ (hermite' x0 x1 y0 y1 p0 p1 x1 == p1)%Q.
Proof. intros. unfold hermite'. cbv zeta. split; field; lra. Qed.
Instance hermite_proper : Proper (Qeq ==> Qeq ==> Qeq ==> Qeq ==> Qeq ==> Qeq ==> Qeq ==> Qeq) hermite.
Proof. intros a a' A b b' B c c' C d d' D e e' E f f' F g g' G. unfold hermite. cbv zeta. rewrite A, B, C, D, E, F, G. reflexivity. Qed.
Instance hermite'_proper : Proper (Qeq ==> Qeq ==> Qeq ==> Qeq ==> Qeq ==> Qeq ==> Qeq ==> Qeq) hermite'.
Proof. intros a a' A b b' B c c' C d d' D e e' E f f' F g g' G. unfold hermite'. cbv zeta. rewrite A, B, C, D, E, F, G. reflexivity. Qed.
Lemma hermite_limited : forall x0 x1 y0 y1 p0 p1 x x', (0 < x1 - x0)%Q -> (x0 <= x)%Q -> (x <= x')%Q -> (x' <= x1)%Q ->
  limited ((y1 - y0) / (x1 - x0)) p0 -> limited ((y1 - y0) / (x1 - x0)) p1 ->
  ((y0 <= y1 -> hermite x0 x1 y0 y1 p0 p1 x <= hermite x0 x1 y0 y1 p0 p1 x') /\
   (y1 <= y0 -> hermite x0 x1 y0 y1 p0 p1 x' <= hermite x0 x1 y0 y1 p0 p1 x))%Q.
Proof.
  intros x0 x1 y0 y1 p0 p1 x x' P A B C [U0 D0] [U1 D1]. split; intro Y.
  - assert (S : (0 <= (y1 - y0) / (x1 - x0))%Q) by (apply Qle_shift_div_l; [exact P|lra]). apply hermite_monotone_up; auto.
  - assert (S : ((y1 - y0) / (x1 - x0) <= 0)%Q) by (apply Qle_shift_div_r; [exact P|lra]).
    specialize (D0 S). specialize (D1 S). pose proof (hermite_opp x0 x1 y0 y1 p0 p1 x P) as O. pose proof (hermite_opp x0 x1 y0 y1 p0 p1 x' P) as O'.
    assert (M : (hermite x0 x1 (- y0) (- y1) (- p0) (- p1) x <= hermite x0 x1 (- y0) (- y1) (- p0) (- p1) x')%Q).
    { assert (E : ((- y1 - - y0) / (x1 - x0) == - ((y1 - y0) / (x1 - x0)))%Q) by (field; lra).
      apply hermite_monotone_up; auto; rewrite ?E; lra. }
    lra.
Qed.
