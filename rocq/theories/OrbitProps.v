(** Theorems on the orbit tools: C90 (rearrangement), C91 (start of the passes),
    C92 (absolute pass numbers), C93 (durations and iteration), C94 (points of a pass). *)
From Verif Require Import Base BaseProofs MathModel OrbitModel OrbitSpec OrbitProofs OrbitProofs2.
From Coq Require Import Sorted Lqa ZifyBool.
Open Scope Z_scope.

(** ** C90 *)

(** As soon as the ephemeris holds two southern turning points, it is returned unchanged,
    wherever it starts: the test "already starting from pass 1" always succeeds. *)
Theorem C90_unchanged : forall cycle lon lat time i j,
  (i < length lat)%nat -> (j < length lat)%nat -> i <> j ->
  after_south lat i -> after_south lat j ->
  rearrange_orbit cycle lon lat time = Ok (lon, lat, time).
Proof.
  intros cycle lon lat time i j Hi Hj N Ai Aj. unfold rearrange_orbit.
  assert (Ii : In i (south_turns lat)) by (apply south_turns_In; auto).
  assert (Ij : In j (south_turns lat)) by (apply south_turns_In; auto).
  destruct (south_turns lat) as [|a l] eqn:E; [inversion Ii|].
  pose proof (spread_mean a l) as M.
  destruct (Nat.ltb_spec a (int_mean (a :: l))) as [|C]; [reflexivity|].
  exfalso. apply (Nat.lt_irrefl a). eapply Nat.lt_le_trans; [apply M|exact C].
  - intros ->. destruct Ii as [<-|[]]. destruct Ij as [<-|[]]. congruence.
  - intros x Hx. eapply south_turns_spread; eauto.
Qed.

(** With a single southern turn, the orbit is rotated so as to start there; the times are
    counted from there, modulo the cycle. *)
Theorem C90_single_turn : forall cycle lon lat time i,
  0 < cycle -> length lon = length lat -> length time = length lat ->
  (i < length lat)%nat -> after_south lat i ->
  (forall j, (j < length lat)%nat -> after_south lat j -> j = i) ->
  exists lon' lat' time',
    rearrange_orbit cycle lon lat time = Ok (lon', lat', time') /\
    length lon' = length lat /\ length lat' = length lat /\ length time' = length lat /\
    (forall m, (m < length lat)%nat ->
       nth m lon' 0%Q = nth ((m + i) mod length lat) lon 0%Q /\
       nth m lat' 0%Q = nth ((m + i) mod length lat) lat 0%Q /\
       nth m time' 0 = (nth ((m + i) mod length lat) time 0 - nth i time 0) mod cycle) /\
    nth 0 time' 0 = 0 /\
    (forall t, In t time' -> 0 <= t < cycle) /\
    (increasing time -> nth (length lat - 1) time 0 - nth 0 time 0 < cycle -> increasing time').
Proof.
  intros cycle lon lat time i Hc L1 L2 Hi Ai U.
  assert (E : south_turns lat = [i]).
  { assert (Ii : In i (south_turns lat)) by (apply south_turns_In; auto).
    pose proof (where_sorted (south_mask (dy_of lat))) as W. fold (south_turns lat) in W.
    assert (G : forall x, In x (south_turns lat) -> x = i).
    { intros x Hx. apply south_turns_In in Hx. apply U; tauto. }
    destruct (south_turns lat) as [|a [|b l]]; [inversion Ii| |].
    - f_equal. apply G. now left.
    - exfalso. inversion W as [|? ? _ F]; subst. inversion F as [|? ? F1 _]; subst.
      pose proof (G a (or_introl eq_refl)). pose proof (G b (or_intror (or_introl eq_refl))). lia. }
  assert (IM : int_mean [i] = i) by (unfold int_mean; simpl; rewrite Nat.add_0_r; apply Nat.div_1_r).
  unfold rearrange_orbit. rewrite E, IM, Nat.ltb_irrefl. cbn [last].
  assert (H0 : hd 0 (rotate i time) = nth i time 0).
  { rewrite <- (Nat.add_0_l i) at 2. rewrite <- (Nat.add_0_l i) at 1.
    replace (hd 0 (rotate (0 + i) time)) with (nth 0 (rotate i time) 0) by (simpl; destruct (rotate i time); reflexivity).
    rewrite rotate_nth by lia. destruct (Nat.ltb_spec (0 + i) (length time)); [reflexivity|lia]. }
  rewrite H0.
  set (time' := map (fun t => (t - nth i time 0) mod cycle) (rotate i time)).
  assert (B : forall t, In t time' -> 0 <= t < cycle).
  { intros t Ht. unfold time' in Ht. apply in_map_iff in Ht. destruct Ht as [u [<- _]].
    apply Z.mod_pos_bound. auto. }
  assert (X : existsb (fun t => t <? 0) time' = false).
  { apply not_true_is_false. intro C. apply existsb_exists in C. destruct C as [t [Ht C]].
    specialize (B t Ht). lia. }
  assert (MODi : forall m, (m < length lat)%nat ->
    ((if (m + i <? length lat)%nat then m + i else m + i - length lat) = (m + i) mod length lat)%nat).
  { intros m Hm. destruct (Nat.ltb_spec (m + i) (length lat)).
    - symmetry. apply Nat.mod_small. auto.
    - replace (m + i)%nat with (m + i - length lat + 1 * length lat)%nat at 2 by lia.
      rewrite Nat.mod_add by lia. symmetry. apply Nat.mod_small. lia. }
  assert (LT : length time' = length lat) by (unfold time'; now rewrite map_length, rotate_length).
  assert (NT : forall m, (m < length lat)%nat ->
     nth m time' 0 = (nth ((m + i) mod length lat) time 0 - nth i time 0) mod cycle).
  { intros m Hm. unfold time'.
    rewrite (nth_indep _ 0 ((fun t => (t - nth i time 0) mod cycle) 0)) by (rewrite map_length, rotate_length; lia).
    rewrite (map_nth (fun t => (t - nth i time 0) mod cycle)).
    rewrite rotate_nth by lia. rewrite L2, MODi by auto. reflexivity. }
  rewrite X. do 3 eexists. split; [reflexivity|].
  rewrite !rotate_length. split; [lia|]. split; [lia|]. split; [exact LT|].
  split; [|split; [|split; [exact B|]]].
  - intros m Hm. split; [|split].
    + rewrite rotate_nth by lia. now rewrite L1, MODi.
    + rewrite rotate_nth by lia. now rewrite MODi.
    + apply NT; auto.
  - rewrite NT by lia. rewrite Nat.add_0_l, Nat.mod_small by lia. now rewrite Z.sub_diag.
  - intros I Hd a b Hab Hb. rewrite LT in Hb. rewrite !NT by lia.
    assert (V : forall m, (m < length lat)%nat ->
      (nth ((m + i) mod length lat) time 0 - nth i time 0) mod cycle =
      if (m + i <? length lat)%nat then nth (m + i) time 0 - nth i time 0
      else nth (m + i - length lat) time 0 - nth i time 0 + cycle).
    { intros m Hm. rewrite <- MODi by auto.
      assert (LE : forall p q, (p <= q)%nat -> (q < length lat)%nat -> nth p time 0 <= nth q time 0).
      { intros p q H1 H2. destruct (Nat.eq_dec p q) as [->|]; [lia|].
        specialize (I p q ltac:(lia) ltac:(lia)). lia. }
      destruct (Nat.ltb_spec (m + i) (length lat)).
      - apply Z.mod_small. pose proof (LE i (m + i)%nat ltac:(lia) ltac:(lia)).
        pose proof (LE (m + i)%nat (length lat - 1)%nat ltac:(lia) ltac:(lia)).
        pose proof (LE 0%nat i ltac:(lia) ltac:(lia)). lia.
      - assert (LTi : nth (m + i - length lat) time 0 < nth i time 0) by (apply I; lia).
        pose proof (LE 0%nat (m + i - length lat)%nat ltac:(lia) ltac:(lia)).
        pose proof (LE i (length lat - 1)%nat ltac:(lia) ltac:(lia)).
        rewrite <- (Z_mod_plus_full _ 1). rewrite Z.mul_1_l. apply Z.mod_small. lia. }
    rewrite !V by lia.
    destruct (Nat.ltb_spec (a + i) (length lat)), (Nat.ltb_spec (b + i) (length lat)); try lia.
    + pose proof (I (a + i)%nat (b + i)%nat ltac:(lia) ltac:(lia)). lia.
    + assert (nth (a + i) time 0 <= nth (length lat - 1) time 0).
      { destruct (Nat.eq_dec (a + i) (length lat - 1)) as [->|]; [lia|].
        pose proof (I (a + i)%nat (length lat - 1)%nat ltac:(lia) ltac:(lia)). lia. }
      assert (nth 0 time 0 <= nth (b + i - length lat) time 0).
      { destruct (Nat.eq_dec (b + i - length lat) 0) as [->|]; [lia|].
        pose proof (I 0%nat (b + i - length lat)%nat ltac:(lia) ltac:(lia)). lia. }
      lia.
    + pose proof (I (a + i - length lat)%nat (b + i - length lat)%nat ltac:(lia) ltac:(lia)). lia.
Qed.

(** An exception is raised exactly when all the latitudes are equal (or there is none). *)
Theorem C90_constant_latitude : forall cycle lon lat time,
  0 < cycle ->
  (rearrange_orbit cycle lon lat time = Throw "IndexError" <->
   forall i, (i < length lat)%nat -> (at_ lat i == at_ lat 0)%Q).
Proof.
  intros cycle lon lat time Hc. unfold rearrange_orbit.
  destruct (south_turns lat) as [|a l] eqn:E.
  - split; auto. intros _. apply level_all. apply no_south_turn. auto.
  - split.
    + destruct (Nat.ltb _ _); [discriminate|]. destruct (existsb _ _); discriminate.
    + intro H. exfalso. assert (In a (south_turns lat)) by (rewrite E; now left).
      apply south_turns_In in H0. destruct H0 as [Ha [A _]]. unfold northward in A.
      pose proof (H a Ha). pose proof (H _ (before_lt _ _ Ha)). lra.
Qed.

(** An orbit that starts in the middle of an ascending pass and goes on for two revolutions:
    it is not rearranged. *)
Definition mid_pass : list Q := [3; 4; 3; 2; 1; 0; 1; 2; 3; 4; 3; 2; 1; 0; 1; 2]%Q.
Theorem C90_rearranged_refuted : forall cycle lon time,
  after_south mid_pass 6 /\ after_south mid_pass 14 /\ ~ after_south mid_pass 0 /\
  ~ after_south mid_pass 1 /\
  rearrange_orbit cycle lon mid_pass time = Ok (lon, mid_pass, time).
Proof.
  intros. assert (A : after_south mid_pass 6) by (split; [|intro C]; unfold northward, at_ in *; simpl in *; lra).
  assert (B : after_south mid_pass 14) by (split; [|intro C]; unfold northward, at_ in *; simpl in *; lra).
  split; [exact A|]. split; [exact B|]. split; [|split].
  - intros [_ C]. apply C. unfold northward, at_. simpl. lra.
  - intros [_ C]. apply C. unfold northward, at_. simpl. lra.
  - apply (C90_unchanged cycle lon mid_pass time 6 14); auto; simpl; lia.
Qed.

(** Non-vacuity of [C90_single_turn]. *)
Example C90_single_example :
  rearrange_orbit 100 [10; 20; 30; 40; 50]%Q [1; 2; 3; 0; 0]%Q [0; 20; 40; 60; 80]
  = Ok ([10; 20; 30; 40; 50]%Q, [1; 2; 3; 0; 0]%Q, [0; 20; 40; 60; 80]) /\
  rearrange_orbit 100 [10; 20; 30; 40]%Q [3; 1; 2; 4]%Q [0; 20; 40; 60]
  = Ok ([30; 40; 10; 20]%Q, [2; 4; 3; 1]%Q, [0; 20; 60; 80]).
Proof. split; reflexivity. Qed.

(** ** C91 *)

(** The start times of the passes: the first time of the orbit, then the times of all the
    points that follow a turning point, except the first of them; in increasing order. *)
Definition turn (lat : list Q) (i : nat) : Prop :=
  (i < length lat)%nat /\ (after_south lat i \/ after_north lat i).

Theorem C91_pass_starts : forall lon lat time x o,
  build_orbit lon lat time x = Ok o -> length time = length lat -> increasing time ->
  StronglySorted Z.lt (o_pass_time o) /\
  nth 0 (o_pass_time o) 0 = nth 0 time 0 /\
  (forall t, In t (o_pass_time o) <->
     t = nth 0 time 0 \/
     exists i, turn lat i /\ (exists j, turn lat j /\ (j < i)%nat) /\ t = nth i time 0) /\
  (forall l, NoDup l -> (forall i, In i l <-> turn lat i) ->
     passes_per_cycle o = Z.of_nat (length l)).
Proof.
  intros lon lat time x o B L I.
  pose proof (build_sorted _ _ _ _ _ B L I) as S.
  destruct (build_pass_time _ _ _ _ _ B L I) as [E [_ [_ [_ [_ N]]]]].
  destruct (build_inv _ _ _ _ _ B) as [a [l [T _]]].
  assert (SS : StronglySorted lt (a :: l)) by (rewrite <- T; apply turns_sorted).
  split; [exact S|]. split; [now rewrite E|]. split.
  - intro t. rewrite E. unfold take, starts. rewrite T. cbn [tl map In].
    rewrite in_map_iff. inversion SS as [|? ? _ F]; subst. rewrite Forall_forall in F.
    assert (TI : forall i, turn lat i <-> In i (a :: l)) by (intro i; rewrite <- T, turns_In; reflexivity).
    split.
    + intros [<-|[i [<- Hi]]]; [now left|right]. exists i.
      split; [apply TI; now right|]. split; [|reflexivity]. exists a. split; [apply TI; now left|auto].
    + intros [->|[i [Ti [[j [Tj Hj]] ->]]]]; [now left|right]. exists i. split; auto.
      apply TI in Ti. destruct Ti as [<-|Hi]; auto. exfalso.
      apply TI in Tj. destruct Tj as [<-|Hj']; [lia|]. specialize (F j Hj'). lia.
  - intros m ND H. unfold passes_per_cycle, zlen. f_equal. rewrite E. unfold take.
    rewrite map_length. unfold starts. rewrite T. cbn [tl length].
    change (Datatypes.S (length l)) with (length (a :: l)). rewrite <- T.
    assert (NT : NoDup (turns lat)).
    { generalize (turns_sorted lat). generalize (turns lat). clear.
      intros k0 W. induction W as [|b k W IH F]; constructor; auto.
      intro C. rewrite Forall_forall in F. specialize (F b C). lia. }
    assert (EQ : forall i, In i (turns lat) <-> In i m) by (intro i; rewrite turns_In; symmetry; apply H).
    apply Nat.le_antisymm; apply NoDup_incl_length; auto; intros i; apply EQ.
Qed.

(** Without level steps the number of passes is even. *)
Theorem C91_even : forall lon lat time x o,
  build_orbit lon lat time x = Ok o -> length time = length lat -> increasing time ->
  never_level lat -> Z.even (passes_per_cycle o) = true.
Proof.
  intros lon lat time x o B L I N.
  destruct (build_pass_time _ _ _ _ _ B L I) as [E _].
  destruct (build_inv _ _ _ _ _ B) as [a [l [T _]]].
  unfold passes_per_cycle, zlen. rewrite E. unfold take, starts. rewrite map_length, T.
  cbn [tl length]. change (S (length l)) with (length (a :: l)). rewrite <- T.
  pose proof (turns_even lat N) as V. apply Nat.even_spec in V. destruct V as [k ->].
  rewrite Nat2Z.inj_mul. apply Z.even_mul.
Qed.

(** The index at which the pass number [k] starts, and at which it ends. *)
Definition starts_at (o : orbit) (k : Z) (i : nat) : Prop :=
  (i < length (o_time o))%nat /\ nth i (o_time o) 0 = nth (Z.to_nat (k - 1)) (o_pass_time o) 0.
Definition ends_before (o : orbit) (k : Z) (j : nat) : Prop :=
  (k < passes_per_cycle o /\ starts_at o (k + 1) j) \/
  (k = passes_per_cycle o /\ j = length (o_time o)).

Lemma starts_at_nth lat time i m :
  length time = length lat -> increasing time -> (0 < length lat)%nat ->
  (m < length (starts lat))%nat -> (i < length time)%nat ->
  nth i time 0 = nth m (take 0 time (starts lat)) 0 -> i = nth m (starts lat) 0%nat.
Proof.
  intros L I N Hm Hi E. unfold take in E.
  rewrite (nth_indep (map _ _) 0 (nth 0 time 0)) in E by (rewrite map_length; auto).
  rewrite (map_nth (fun i => nth i time 0)) in E.
  assert (Hs : (nth m (starts lat) 0 < length time)%nat).
  { rewrite L. apply starts_lt; auto. apply nth_In. auto. }
  destruct (Nat.lt_trichotomy i (nth m (starts lat) 0%nat)) as [C|[C|C]]; auto; exfalso.
  - specialize (I _ _ C Hs). lia.
  - specialize (I _ _ C Hi). lia.
Qed.

Lemma nat_sorted_nth_lt l i j :
  StronglySorted lt l -> (i < j)%nat -> (j < length l)%nat -> (nth i l 0 < nth j l 0)%nat.
Proof.
  intro S. revert i j. induction S as [|a l S IH F]; intros i j Hij Hj; [simpl in Hj; lia|].
  destruct j as [|j]; [lia|]. simpl in Hj. destruct i as [|i].
  - simpl. rewrite Forall_forall in F. apply F. apply nth_In. lia.
  - simpl. apply IH; lia.
Qed.

Lemma no_start_between l m x :
  StronglySorted lt l -> (m < length l)%nat -> (nth m l 0 < x)%nat ->
  (S m < length l -> x < nth (S m) l 0)%nat -> ~ In x l.
Proof.
  intros S Hm H1 H2 C. apply (In_nth _ _ 0%nat) in C. destruct C as [k [Hk <-]].
  destruct (Nat.lt_trichotomy k m) as [K|[K|K]].
  - pose proof (nat_sorted_nth_lt l k m S K Hm). lia.
  - subst. lia.
  - destruct (Nat.eq_dec k (Datatypes.S m)) as [->|].
    + specialize (H2 Hk). lia.
    + pose proof (nat_sorted_nth_lt l (Datatypes.S m) k S ltac:(lia) Hk). specialize (H2 ltac:(lia)). lia.
Qed.

(** Without level steps, every pass but the first goes in one direction only; so does the
    first one if the orbit starts at a turning point. *)
Theorem C91_monotone : forall lon lat time x o k i j,
  build_orbit lon lat time x = Ok o -> length time = length lat -> increasing time ->
  never_level lat -> 1 <= k <= passes_per_cycle o ->
  starts_at o k i -> ends_before o k j ->
  (1 < k -> monotone_on lat i j) /\
  (k = 1 -> turn lat 0 \/ turn lat 1 -> i = 0%nat /\ monotone_on lat 1 j).
Proof.
  intros lon lat time x o k i j B L I N Hk [Hi Ei] Hj.
  destruct (build_pass_time _ _ _ _ _ B L I) as [E [E2 [_ [_ [_ N0]]]]].
  destruct (build_inv _ _ _ _ _ B) as [a [l [T _]]].
  assert (LP : passes_per_cycle o = Z.of_nat (length (starts lat))).
  { unfold passes_per_cycle, zlen. rewrite E. unfold take. now rewrite map_length. }
  rewrite E2 in *. rewrite E in *.
  set (m := Z.to_nat (k - 1)).
  assert (Ii : i = nth m (starts lat) 0%nat) by (apply (starts_at_nth lat time); auto; lia).
  assert (Jj : ((S m < length (starts lat) /\ j = nth (S m) (starts lat) 0) \/
               (S m = length (starts lat) /\ j = length lat))%nat).
  { destruct Hj as [[H1 [H2 H3]]|[H1 H2]].
    - left. split; [lia|]. rewrite E in H3. rewrite E2 in H2, H3.
      replace (Z.to_nat (k + 1 - 1)) with (S m) in H3 by lia.
      apply (starts_at_nth lat time); auto; lia.
    - right. split; [lia|]. rewrite H2. rewrite E2. lia. }
  assert (Hm : (m < length (starts lat))%nat) by lia.
  assert (SS := starts_sorted lat).
  assert (Hij : (i < j <= length lat)%nat).
  { destruct Jj as [[H1 ->]|[H1 ->]]; rewrite Ii.
    - split; [apply nat_sorted_nth_lt; auto; lia|].
      apply Nat.lt_le_incl. apply starts_lt; auto. apply nth_In; auto.
    - split; auto. apply starts_lt; auto. apply nth_In; auto. }
  assert (NB : forall y, (i < y < j)%nat -> ~ In y (starts lat)).
  { intros y Hy. apply (no_start_between _ m); auto; [lia|].
    intro H. destruct Jj as [[_ ->]|[H1 _]]; lia. }
  assert (S1 : StronglySorted lt (a :: l)) by (rewrite <- T; apply turns_sorted).
  inversion S1 as [|? ? _ F]; subst a0 l0. rewrite Forall_forall in F.
  split.
  - intro K1. apply between_turns; auto. intros y Hy C. apply (NB y Hy).
    unfold starts. rewrite T in C |- *. cbn [tl]. destruct C as [<-|C]; [|now right].
    exfalso. assert (Il : In i l).
    { rewrite Ii. unfold starts. rewrite T. cbn [tl].
      destruct m as [|m'] eqn:Em; [lia|]. cbn [nth]. apply nth_In.
      unfold starts in Hm. rewrite T in Hm. cbn [tl length] in Hm. lia. }
    specialize (F i Il). lia.
  - intros -> TT. assert (m = 0)%nat by lia. subst m. rewrite H in *.
    assert (I0 : i = 0%nat) by (rewrite Ii; reflexivity). split; auto.
    assert (A1 : (a <= 1)%nat).
    { assert (In 0%nat (a :: l) \/ In 1%nat (a :: l)) as [[->|C]|[->|C]]; try lia.
      - rewrite <- T, !turns_In. exact TT.
      - specialize (F _ C). lia.
      - specialize (F _ C). lia. }
    destruct (Nat.eq_dec j 1) as [->|].
    { left. intros; lia. }
    apply between_turns; auto; [lia|]. intros y Hy C. apply (NB y ltac:(lia)).
    unfold starts. rewrite T in C |- *. cbn [tl]. destruct C as [<-|C]; [lia|now right].
Qed.

(** An ephemeris with one level step (points 2 and 3): an extra pass starts in the middle of
    the ascending one, and the number of passes is odd. *)
Definition plateau : list Q := [0; 1; 2; 2; 3; 4; 3; 2; 1]%Q.
Theorem C91_level_refuted : forall lon x,
  exists o, build_orbit lon plateau [0; 1; 2; 3; 4; 5; 6; 7; 8] x = Ok o /\
  o_pass_time o = [0; 4; 6] /\ northward plateau 2 /\ northward plateau 4 /\ northward plateau 5.
Proof.
  intros. eexists. split; [reflexivity|]. split; [reflexivity|].
  repeat split; unfold northward, at_; simpl; lra.
Qed.

(** An orbit that starts in the middle of a pass: its first pass goes north then south. *)
Theorem C91_mid_pass_refuted : forall lon x,
  exists o, build_orbit lon mid_pass [0; 1; 2; 3; 4; 5; 6; 7; 8; 9; 10; 11; 12; 13; 14; 15] x = Ok o /\
  starts_at o 1 0 /\ ends_before o 1 6 /\ northward mid_pass 1 /\ southward mid_pass 2 /\
  ~ monotone_on mid_pass 1 6.
Proof.
  intros. eexists. split; [reflexivity|].
  assert (A : northward mid_pass 1) by (unfold northward, at_; simpl; lra).
  assert (B : southward mid_pass 2) by (unfold southward, at_; simpl; lra).
  split; [split; [simpl; lia|reflexivity]|].
  split; [left; split; [reflexivity|split; [simpl; lia|reflexivity]]|].
  split; auto. split; auto. intros [H|H].
  - specialize (H 2%nat ltac:(lia)). unfold northward, southward in *. lra.
  - specialize (H 1%nat ltac:(lia)). unfold northward, southward in *. lra.
Qed.

(** Non-vacuity: an orbit of two revolutions that starts at a southern turning point. *)
Definition two_rev : list Q := [0; 1; 2; 3; 4; 3; 2; 1; 0; 1; 2; 3; 4; 3; 2; 1]%Q.
Definition two_time : list Z := [0; 1; 2; 3; 4; 5; 6; 7; 8; 9; 10; 11; 12; 13; 14; 15].
Lemma two_time_increasing : increasing two_time.
Proof.
  assert (S : StronglySorted Z.lt two_time) by (repeat constructor).
  intros i j H1 H2. now apply sorted_nth_lt.
Qed.
Lemma two_rev_never_level : never_level two_rev.
Proof.
  intros i Hi. unfold two_rev in Hi. simpl in Hi.
  do 16 (destruct i as [|i]; [unfold at_; simpl; lra|]). lia.
Qed.
Example C91_example :
  exists o, build_orbit two_rev two_rev two_time two_rev = Ok o /\
  o_pass_time o = [0; 5; 9; 13] /\ never_level two_rev /\ increasing two_time /\ turn two_rev 1.
Proof.
  eexists. split; [reflexivity|]. split; [reflexivity|].
  split; [apply two_rev_never_level|]. split; [apply two_time_increasing|].
  split; [simpl; lia|]. left. split; [|intro C]; unfold northward, at_ in *; simpl in *; lra.
Qed.

(** ** C92 *)
Theorem C92_decode_encode : forall o number,
  0 < passes_per_cycle o -> 1 <= number ->
  exists c p, decode_pass o number = Ok (c, p) /\ 1 <= c /\ 1 <= p <= passes_per_cycle o /\
  encode_pass o c p = Ok number.
Proof.
  intros o number Hn H. set (n := passes_per_cycle o) in *.
  unfold decode_pass, encode_pass. fold n. destruct (Z.eqb_spec n 0); [lia|].
  do 2 eexists. split; [reflexivity|].
  rewrite Z.quot_div_nonneg by lia.
  pose proof (Z.mod_pos_bound (number - 1) n Hn) as M.
  pose proof (Z.div_pos (number - 1) n ltac:(lia) Hn) as P.
  split; [lia|]. split; [lia|].
  replace ((1 <=? (number - 1) mod n + 1) && ((number - 1) mod n + 1 <=? n)) with true by lia.
  cbn [negb]. f_equal. pose proof (Z.div_mod (number - 1) n ltac:(lia)). nia.
Qed.

Theorem C92_encode_decode : forall o c p,
  1 <= c -> 1 <= p <= passes_per_cycle o ->
  exists number, encode_pass o c p = Ok number /\ 1 <= number /\ decode_pass o number = Ok (c, p).
Proof.
  intros o c p Hc Hp. set (n := passes_per_cycle o) in *.
  unfold decode_pass, encode_pass. fold n.
  replace ((1 <=? p) && (p <=? n)) with true by lia. cbn [negb].
  eexists. split; [reflexivity|]. split; [nia|].
  destruct (Z.eqb_spec n 0); [lia|].
  replace ((c - 1) * n + p - 1) with (p - 1 + (c - 1) * n) by ring.
  rewrite Z.quot_div_nonneg by nia.
  rewrite Z.div_add, Z_mod_plus_full by lia.
  rewrite Z.div_small, Z.mod_small by lia. do 2 f_equal; lia.
Qed.

(** The numbers follow the passes: the next number is the next pass, or the first pass of
    the next cycle. *)
Theorem C92_next : forall o number c p,
  0 < passes_per_cycle o -> 1 <= number -> decode_pass o number = Ok (c, p) ->
  decode_pass o (number + 1) =
  Ok (if p =? passes_per_cycle o then (c + 1, 1) else (c, p + 1)).
Proof.
  intros o number c p Hn H. set (n := passes_per_cycle o) in *.
  unfold decode_pass. fold n. destruct (Z.eqb_spec n 0); [lia|]. intros [= <- <-].
  rewrite !Z.quot_div_nonneg by lia.
  replace (number + 1 - 1) with number by ring.
  pose proof (Z.div_mod (number - 1) n ltac:(lia)) as D.
  pose proof (Z.mod_pos_bound (number - 1) n Hn) as M.
  set (q := (number - 1) / n) in *. set (r := (number - 1) mod n) in *.
  destruct (Z.eqb_spec (r + 1) n) as [E|E].
  - replace number with (0 + (q + 1) * n) by nia.
    rewrite Z.div_add, Z_mod_plus_full, Z.div_0_l, Z.mod_0_l by lia. do 2 f_equal; lia.
  - replace number with (r + 1 + q * n) by nia.
    rewrite Z.div_add, Z_mod_plus_full, Z.div_small, Z.mod_small by lia. do 2 f_equal; lia.
Qed.

Theorem C92_encode_rejects : forall o c p,
  ~ (1 <= p <= passes_per_cycle o) -> encode_pass o c p = Throw "ValueError".
Proof.
  intros o c p H. unfold encode_pass.
  replace ((1 <=? p) && (p <=? passes_per_cycle o)) with false by lia. reflexivity.
Qed.

(** Numbers below 1 are accepted, and (unless they denote a first pass) decoded into the
    cycle after theirs: encoding the answer gives another number. *)
Theorem C92_nonpositive_refuted : forall o number,
  2 <= passes_per_cycle o -> number <= 0 -> (number - 1) mod passes_per_cycle o <> 0 ->
  exists c p, decode_pass o number = Ok (c, p) /\
  encode_pass o c p = Ok (number + passes_per_cycle o).
Proof.
  intros o number Hn H Hm. set (n := passes_per_cycle o) in *.
  unfold decode_pass, encode_pass. fold n. destruct (Z.eqb_spec n 0); [lia|].
  do 2 eexists. split; [reflexivity|].
  pose proof (Z.mod_pos_bound (number - 1) n ltac:(lia)) as M.
  replace ((1 <=? (number - 1) mod n + 1) && ((number - 1) mod n + 1 <=? n)) with true by lia.
  cbn [negb]. f_equal.
  pose proof (Z.div_mod (number - 1) n ltac:(lia)) as D.
  assert (Q : Z.quot (number - 1) n = (number - 1) / n + 1).
  { set (q := (number - 1) / n) in *. set (r := (number - 1) mod n) in *.
    assert (q < 0) by nia.
    replace (number - 1) with (- ((- q - 1) * n + (n - r))) by nia.
    rewrite Z.quot_opp_l by lia. rewrite Z.quot_div_nonneg by nia.
    rewrite Z.add_comm, Z.div_add, Z.div_small by lia. lia. }
  rewrite Q. nia.
Qed.

Example C92_example :
  let o := mk_orbit [] [] [0; 5; 9; 13] [] [] in
  decode_pass o 7 = Ok (2, 3) /\ encode_pass o 2 3 = Ok 7 /\
  decode_pass o 0 = Ok (1, 4) /\ encode_pass o 1 4 = Ok 4.
Proof. repeat split. Qed.

(** ** C93 *)
Section C93.
  Variables (lon lat x : list Q) (time : list Z) (o : orbit).
  Hypothesis B : build_orbit lon lat time x = Ok o.
  Hypothesis L : length time = length lat.
  Hypothesis I : increasing time.
  Hypothesis L2 : (2 <= length time)%nat.

  (** The time of one whole turn of the pass list: the time span plus one step. *)
  Definition turn_time : Z := nth (length time - 1) time 0 - nth 0 time 0 + (nth 1 time 0 - nth 0 time 0).

  Lemma c93_facts :
    o_time o = time /\ 0 < passes_per_cycle o /\ o_pass_time o <> [] /\
    nth 0 (o_pass_time o) 0 = nth 0 time 0 /\
    (forall k, (k < length (o_pass_time o))%nat -> nth k (o_pass_time o) 0 <= nth (length time - 1) time 0).
  Proof using B L I L2.
    destruct (build_pass_time _ _ _ _ _ B L I) as [E [E2 [_ [_ [_ N0]]]]].
    assert (NE : o_pass_time o <> []) by (rewrite E; unfold take, starts; simpl; discriminate).
    repeat split; auto.
    - unfold passes_per_cycle, zlen. destruct (o_pass_time o); [congruence|simpl; lia].
    - rewrite E. reflexivity.
    - intros k Hk. rewrite E in Hk |- *. unfold take in *. rewrite map_length in Hk.
      rewrite (nth_indep _ 0 (nth 0 time 0)) by (rewrite map_length; auto).
      rewrite (map_nth (fun i => nth i time 0)).
      assert (Hs : (nth k (starts lat) 0 < length time)%nat).
      { rewrite L. apply starts_lt; auto. apply nth_In; auto. }
      destruct (Nat.eq_dec (nth k (starts lat) 0%nat) (length time - 1)) as [->|]; [lia|].
      assert (nth (nth k (starts lat) 0%nat) time 0 < nth (length time - 1) time 0) by (apply I; lia).
      lia.
  Qed.

  (** Every pass has a positive duration; other numbers are rejected. *)
  Theorem C93_pass_duration : forall k,
    (1 <= k <= passes_per_cycle o -> exists d, pass_duration o k = Ok d /\ 0 < d) /\
    (~ (1 <= k <= passes_per_cycle o) -> pass_duration o k = Throw "ValueError").
  Proof using B L I L2.
    intro k. split; [|apply pass_duration_out].
    intro Hk. destruct c93_facts as [E2 [Hn [NE [P0 PL]]]].
    rewrite pass_duration_dur by (rewrite ?E2; auto). eexists. split; [reflexivity|].
    rewrite E2. unfold dur. unfold passes_per_cycle, zlen in *.
    destruct (Z.eqb_spec k (Z.of_nat (length (o_pass_time o)))).
    - specialize (PL (length (o_pass_time o) - 1)%nat ltac:(lia)).
      pose proof (I 0%nat 1%nat ltac:(lia) ltac:(lia)). lia.
    - pose proof (sorted_nth_lt _ (Z.to_nat (k - 1)) (Z.to_nat k) (build_sorted _ _ _ _ _ B L I)
        ltac:(lia) ltac:(lia)). lia.
  Qed.

  Lemma c93_dur : exists D, (forall k, 1 <= k <= passes_per_cycle o -> pass_duration o k = Ok (D k)) /\
    (forall k, 1 <= k <= passes_per_cycle o -> 0 < D k) /\
    zsum D 1 (Z.to_nat (passes_per_cycle o)) = turn_time.
  Proof using B L I L2.
    destruct c93_facts as [E2 [Hn [NE [P0 PL]]]].
    exists (dur (o_pass_time o) time).
    assert (A : forall k, 1 <= k <= passes_per_cycle o -> pass_duration o k = Ok (dur (o_pass_time o) time k)).
    { intros k Hk. rewrite <- E2. apply pass_duration_dur; rewrite ?E2; auto. }
    split; [exact A|]. split.
    - intros k Hk. destruct (proj1 (C93_pass_duration k) Hk) as [d [H1 H2]].
      rewrite A in H1 by auto. congruence.
    - unfold passes_per_cycle, zlen. rewrite Nat2Z.id. rewrite dur_sum by auto.
      rewrite P0. unfold turn_time. lia.
  Qed.

  (** The sum of the durations of all the passes. *)
  Theorem C93_total : forall ds,
    length ds = Z.to_nat (passes_per_cycle o) ->
    (forall k, 1 <= k <= passes_per_cycle o -> pass_duration o k = Ok (nth (Z.to_nat (k - 1)) ds 0)) ->
    fold_right Z.add 0 ds = turn_time.
  Proof using B L I L2.
    intros ds Ld H. destruct c93_dur as [D [HD [_ S]]]. rewrite <- S, <- Ld. clear S.
    assert (G : forall ds a, (forall i, (i < length ds)%nat -> nth i ds 0 = D (a + Z.of_nat i)) ->
       fold_right Z.add 0 ds = zsum D a (length ds)).
    { clear. induction ds as [|d ds IH]; intros a H; [reflexivity|]. simpl.
      rewrite (IH (a + 1)).
      - specialize (H 0%nat ltac:(simpl; lia)). simpl in H. rewrite Z.add_0_r in H. lia.
      - intros i Hi. specialize (H (S i) ltac:(simpl; lia)). cbn [nth] in H. rewrite H. f_equal. lia. }
    apply G. intros i Hi.
    specialize (H (1 + Z.of_nat i) ltac:(lia)). rewrite HD in H by lia.
    replace (Z.to_nat (1 + Z.of_nat i - 1)) with i in H by lia. congruence.
  Qed.

  (** [cycle_duration()] is not that sum: when the times start at zero (the usual case) it is
      one step short. *)
  Theorem C93_cycle_duration_refuted :
    nth 0 time 0 = 0 ->
    exists c, cycle_duration o = Ok c /\ turn_time = c + nth 1 time 0 /\ c < turn_time.
  Proof using B L I L2.
    intro Z0. destruct c93_facts as [E2 _]. unfold cycle_duration. rewrite E2.
    rewrite (py_nth_last time 0) by (intro C; rewrite C in L2; simpl in L2; lia).
    eexists. split; [reflexivity|]. unfold turn_time. rewrite Z0.
    pose proof (I 0%nat 1%nat ltac:(lia) ltac:(lia)). lia.
  Qed.

  (** The iteration stops; it yields the passes in order from the number asked for, each at
      the date of the previous one plus its duration, exactly while the date is not after
      the last date. *)
  Theorem C93_iterate : forall now first last number,
    first <> 0 -> last <> 0 -> 1 <= number ->
    exists l, (exists t0, forall turns, (t0 <= turns)%nat ->
        iterate o turns now (Some first) (Some last) number = (l, Finished)) /\
      (l <> [] <-> first <= last) /\
      (forall c p d, nth_error l 0 = Some (c, p, d) -> d = first) /\
      (forall k c p d, nth_error l k = Some (c, p, d) ->
         d <= last /\ decode_pass o (number + Z.of_nat k) = Ok (c, p) /\
         exists w, pass_duration o p = Ok w /\ 0 < w /\
           (forall c' p' d', nth_error l (S k) = Some (c', p', d') -> d' = d + w) /\
           (nth_error l (S k) = None -> last < d + w)) /\
      (forall k c p d, nth_error l (k + Z.to_nat (passes_per_cycle o)) = Some (c, p, d) ->
         exists d0, nth_error l k = Some (c - 1, p, d0) /\ d = d0 + turn_time).
  Proof using B L I L2.
    intros now first last number F0 L0 N1.
    destruct c93_facts as [E2 [Hn [NE [P0 PL]]]]. destruct c93_dur as [D [HD [HDp SM]]].
    set (n := passes_per_cycle o) in *.
    assert (CY : exists c, cycle_duration o = Ok c).
    { unfold cycle_duration. rewrite E2.
      rewrite (py_nth_last time 0) by (intro C; rewrite C in L2; simpl in L2; lia). eauto. }
    destruct CY as [cy CY].
    set (t0 := S (Z.to_nat (last - first + 1))).
    destruct (loop_spec o n eq_refl Hn D HD HDp t0 first last number ltac:(lia)) as [l [Q0 [Q1 [Q2 Q3]]]].
    exists l.
    assert (NTH : forall k v, nth_error l k = Some v <-> (k < length l)%nat /\ v = nth k l (0,0,0)).
    { intros k v. split.
      - intro H. split; [apply nth_error_Some; congruence|]. now apply nth_error_nth with (d := (0,0,0)) in H.
      - intros [H ->]. now apply nth_error_nth'. }
    assert (DEC : forall m, 1 <= m -> decode_pass o m = Ok (Z.quot (m - 1) n + 1, (m - 1) mod n + 1)).
    { intros m _. apply decode_ok; auto. }
    split; [|split; [|split; [|split]]].
    - exists t0. intros turns Ht. unfold iterate. rewrite CY. cbn [date_or].
      destruct (Z.eqb_spec first 0); [lia|]. destruct (Z.eqb_spec last 0); [lia|].
      destruct (loop_spec o n eq_refl Hn D HD HDp turns first last number ltac:(lia)) as [l' [R0 [R1 [R2 R3]]]].
      rewrite R0. f_equal.
      assert (LL : length l' = length l).
      { destruct (Nat.lt_trichotomy (length l') (length l)) as [C|[C|C]]; auto; exfalso.
        - specialize (Q2 _ C). lia.
        - specialize (R2 _ C). lia. }
      apply nth_ext with (d := (0,0,0)) (d' := (0,0,0)); auto.
      intros k Hk. rewrite R1, Q1 by lia. reflexivity.
    - split.
      + intro H. specialize (Q2 0%nat). unfold adate in Q2. cbn [zsum] in Q2.
        assert (0 < length l)%nat by (destruct l; simpl; [congruence|lia]). specialize (Q2 H0). lia.
      + intros H C. rewrite C in Q3. unfold adate in Q3. cbn [length zsum] in Q3. lia.
    - intros c p d H. apply NTH in H. destruct H as [H E]. rewrite Q1 in E by auto.
      inversion E; subst. unfold adate. cbn [zsum]. lia.
    - intros k c p d H. apply NTH in H. destruct H as [H E]. rewrite Q1 in E by auto.
      injection E as Ec Ep Ed. split; [rewrite Ed; apply Q2; auto|]. split.
      { rewrite DEC by lia. now rewrite Ec, Ep. }
      assert (Pp : 1 <= p <= n).
      { rewrite Ep. pose proof (Z.mod_pos_bound (number + Z.of_nat k - 1) n Hn). lia. }
      exists (D p). split; [apply HD; auto|]. split; [apply HDp; auto|].
      assert (ST : adate n D first number (S k) = d + D p).
      { rewrite Ed, Ep. unfold adate. rewrite zsum_snoc. unfold adur at 2.
        replace (number + Z.of_nat k - 1) with (number + Z.of_nat k - 1) by reflexivity. lia. }
      split.
      + intros c' p' d' H'. apply NTH in H'. destruct H' as [H' E']. rewrite Q1 in E' by auto.
        injection E' as _ _ Ed'. rewrite Ed'. exact ST.
      + intro H'. apply nth_error_None in H'. assert (length l = S k) by lia.
        rewrite <- ST. rewrite <- H0. exact Q3.
    - intros k c p d H. apply NTH in H. destruct H as [H E]. rewrite Q1 in E by auto.
      injection E as Ec Ep Ed. eexists. split.
      + apply NTH. split; [lia|]. rewrite Q1 by lia. f_equal.
        f_equal.
        * rewrite Ec. rewrite !Z.quot_div_nonneg by lia.
          replace (number + Z.of_nat (k + Z.to_nat n) - 1) with (number + Z.of_nat k - 1 + 1 * n) by lia.
          rewrite Z.div_add by lia. lia.
        * rewrite Ep.
          replace (number + Z.of_nat (k + Z.to_nat n) - 1) with (number + Z.of_nat k - 1 + 1 * n) by lia.
          now rewrite Z_mod_plus_full.
      + rewrite Ed. rewrite adate_period by auto. rewrite SM. lia.
  Qed.

  (** A first date equal to the epoch (1970-01-01) is taken for a missing one: the iteration
      starts now. *)
  Theorem C93_epoch_refuted : forall now last number turns,
    0 < now <= last -> last <> 0 -> 1 <= number ->
    exists c p rest e,
      iterate o (S turns) now (Some 0) (Some last) number = ((c, p, now) :: rest, e) /\ now <> 0.
  Proof using B L I L2.
    intros now last number turns H L0 N1.
    destruct c93_facts as [E2 [Hn [NE [P0 PL]]]]. destruct c93_dur as [D [HD [HDp SM]]].
    assert (CY : exists c, cycle_duration o = Ok c).
    { unfold cycle_duration. rewrite E2.
      rewrite (py_nth_last time 0) by (intro C; rewrite C in L2; simpl in L2; lia). eauto. }
    destruct CY as [cy CY]. unfold iterate. rewrite CY.
    assert (D1 : date_or (Some 0) now = now) by reflexivity.
    assert (D2 : forall z, date_or (Some last) z = last).
    { intro z. unfold date_or. destruct (Z.eqb_spec last 0); [lia|reflexivity]. }
    rewrite D1, D2. rewrite (loop_step o _ eq_refl Hn D HD) by lia.
    destruct (iterate_loop o turns _ last (number + 1)) as [l e].
    do 4 eexists. split; [reflexivity|lia].
  Qed.
End C93.

(** [orbit_duration] needs two passes. *)
Theorem C93_orbit_duration : forall o c,
  cycle_duration o = Ok c ->
  (passes_per_cycle o < 2 -> orbit_duration o = Throw "OverflowError") /\
  (2 <= passes_per_cycle o -> 0 <= c ->
   exists d, orbit_duration o = Ok d /\
     d * (passes_per_cycle o / 2) <= c < (d + 1000) * (passes_per_cycle o / 2)).
Proof.
  intros o c H. unfold orbit_duration. rewrite H. cbn [obind].
  assert (P : 0 <= passes_per_cycle o) by (unfold passes_per_cycle, zlen; lia).
  split.
  - intro N. rewrite Z.div_small by lia. reflexivity.
  - intros N C. set (q := passes_per_cycle o / 2).
    assert (1 <= q) by (apply Z.div_le_lower_bound; lia).
    destruct (Z.eqb_spec q 0); [lia|]. eexists. split; [reflexivity|].
    rewrite Z.quot_div_nonneg by (try apply Z.div_pos; lia).
    rewrite Z.div_div by lia.
    pose proof (Z.div_mod c (1000 * q) ltac:(lia)) as E.
    pose proof (Z.mod_pos_bound c (1000 * q) ltac:(lia)). nia.
Qed.

Example C93_example :
  exists o, build_orbit two_rev two_rev two_time two_rev = Ok o /\
  pass_duration o 1 = Ok 5 /\ pass_duration o 4 = Ok 3 /\ cycle_duration o = Ok 15 /\
  iterate o 9 0 (Some 100) (Some 116) 3 =
    ([(1, 3, 100); (1, 4, 104); (2, 1, 107); (2, 2, 112); (2, 3, 116)], Finished) /\
  orbit_duration o = Ok 0.
Proof. eexists. split; [reflexivity|]. repeat split; reflexivity. Qed.

(** ** C94 *)
Section C94.
  Variables (lon lat x : list Q) (time : list Z) (o : orbit).
  Hypothesis B : build_orbit lon lat time x = Ok o.
  Hypothesis L : length time = length lat.
  Hypothesis I : increasing time.

  Lemma c94_facts :
    o_time o = time /\ 0 < passes_per_cycle o /\ o_pass_time o <> [] /\
    nth 0 (o_pass_time o) 0 = nth 0 time 0.
  Proof using B L I.
    destruct (build_pass_time _ _ _ _ _ B L I) as [E [E2 [_ [_ [_ N0]]]]].
    assert (NE : o_pass_time o <> []) by (rewrite E; unfold take, starts; simpl; discriminate).
    repeat split; auto.
    - unfold passes_per_cycle, zlen. destruct (o_pass_time o); [congruence|simpl; lia].
    - rewrite E. reflexivity.
  Qed.

  (** Every point of the orbit belongs to one and only one pass. *)
  Theorem C94_partition : forall i, (i < length time)%nat ->
    exists k, (1 <= k <= passes_per_cycle o /\ exists l, pass_indexes o k = Ok l /\ In i l) /\
    forall k', 1 <= k' <= passes_per_cycle o -> (exists l, pass_indexes o k' = Ok l /\ In i l) -> k' = k.
  Proof using B L I.
    intros i Hi. destruct c94_facts as [E2 [Hn [NE P0]]].
    assert (G : nth 0 (o_pass_time o) 0 <= nth i time 0).
    { rewrite P0. destruct i as [|i]; [lia|]. pose proof (I 0%nat (S i) ltac:(lia) Hi). lia. }
    destruct (in_pass_exists _ _ NE G) as [k [Hk P]]. exists k. split.
    - split; [exact Hk|]. destruct (pass_indexes_ok o k Hk) as [l [El [_ Il]]].
      exists l. split; auto. apply Il. rewrite E2. auto.
    - intros k' Hk' [l' [El' Il']].
      destruct (pass_indexes_ok o k' Hk') as [l'' [E'' [_ I'']]].
      assert (l'' = l') by congruence. subst l''. apply I'' in Il'. rewrite E2 in Il'.
      eapply in_pass_unique; [apply (build_sorted _ _ _ _ _ B L I)|exact Hk'|exact Hk|apply Il'|exact P].
  Qed.

  (** The points of the pass [k]: those between its start and the start of the next one. *)
  Theorem C94_points : forall k, 1 <= k <= passes_per_cycle o ->
    exists l, pass_indexes o k = Ok l /\ StronglySorted lt l /\
    forall i, In i l <-> (i < length time)%nat /\
      nth (Z.to_nat (k - 1)) (o_pass_time o) 0 <= nth i time 0 /\
      (k < passes_per_cycle o -> nth i time 0 < nth (Z.to_nat k) (o_pass_time o) 0).
  Proof using B L I.
    intros k Hk. destruct c94_facts as [E2 _]. destruct (pass_indexes_ok o k Hk) as [l H].
    exists l. rewrite E2 in H. exact H.
  Qed.

  (** The pass number 0 is silently empty, a negative number designates the passes from the
      end, a number too large raises [IndexError]. *)
  Theorem C94_number_refuted :
    (forall eq bbox, calculate_pass eq 0 o bbox = Ok None) /\
    (forall k, - passes_per_cycle o < k < 0 ->
       pass_indexes o k = pass_indexes o (passes_per_cycle o + k) /\
       1 <= passes_per_cycle o + k < passes_per_cycle o) /\
    (forall k, passes_per_cycle o < k -> pass_indexes o k = Throw "IndexError").
  Proof using B L I.
    destruct c94_facts as [E2 [Hn [NE P0]]].
    set (n := passes_per_cycle o) in *.
    assert (Ln : zlen (o_pass_time o) = n) by reflexivity.
    split; [|split].
    - intros eq bbox. unfold calculate_pass, pass_indexes. fold n.
      destruct (Z.eqb_spec (0 - 1) (n - 1)); [lia|].
      rewrite (py_nth_neg _ (0 - 1) 0) by lia. rewrite (py_nth_pos _ (0 - 1 + 1) 0) by lia.
      cbn [obind].
      replace (where_ _) with (@nil nat); [reflexivity|].
      symmetry. rewrite E2.
      match goal with |- ?w = [] => destruct w as [|i w'] eqn:W; [reflexivity|] end. exfalso.
      assert (Hi : In i (i :: w')) by now left. rewrite <- W in Hi. apply where_map_In in Hi.
      destruct Hi as [_ Hi]. apply andb_true_iff in Hi.
      change (Z.to_nat (0 - 1 + 1)) with 0%nat in Hi.
      assert (nth 0 (o_pass_time o) 0 <= nth (Z.to_nat (0 - 1 + zlen (o_pass_time o))) (o_pass_time o) 0).
      { apply sorted_nth_le; [apply (build_sorted _ _ _ _ _ B L I)|lia|unfold zlen in *; lia]. }
      lia.
    - intros k Hk. split; [|lia]. unfold pass_indexes. fold n.
      destruct (Z.eqb_spec (k - 1) (n - 1)); [lia|]. destruct (Z.eqb_spec (n + k - 1) (n - 1)); [lia|].
      rewrite (py_nth_neg _ (k - 1) 0) by lia. rewrite (py_nth_neg _ (k - 1 + 1) 0) by lia.
      rewrite (py_nth_pos _ (n + k - 1) 0) by lia. rewrite (py_nth_pos _ (n + k - 1 + 1) 0) by lia.
      rewrite Ln. replace (k - 1 + n) with (n + k - 1) by lia.
      replace (k - 1 + 1 + n) with (n + k - 1 + 1) by lia. reflexivity.
    - intros k Hk. unfold pass_indexes. fold n. destruct (Z.eqb_spec (k - 1) (n - 1)); [lia|].
      destruct (Z.eq_dec k (n + 1)) as [->|].
      + rewrite (py_nth_out _ (n + 1 - 1)) by lia. reflexivity.
      + rewrite (py_nth_out _ (k - 1)) by lia. reflexivity.
  Qed.
End C94.

(** The answer of [calculate_pass] when the equator can be computed: the points of the pass,
    all of them or those in the box; [None] when the pass has fewer than 5 points or none in
    the box. *)
Theorem C94_pass : forall eq k o bbox l,
  (forall a b c, eq a b c = Ok tt) -> pass_indexes o k = Ok l ->
  let pick (A : Type) (d : A) (v : list A) := map (fun i => nth i v d) in
  let inside i := match bbox with
                  | None => true
                  | Some f => f (nth i (o_lon o) 0%Q, nth i (o_lat o) 0%Q)
                  end in
  let kept := filter inside l in
  exists r, calculate_pass eq k o bbox = Ok r /\
  ((length l < 5)%nat \/ kept = [] -> r = None) /\
  ((5 <= length l)%nat -> kept <> [] ->
   r = Some (mk_pass (pick Q 0%Q (o_lon o) kept) (pick Q 0%Q (o_lat o) kept)
                     (pick Z 0 (o_time o) kept) (pick Q 0%Q (o_x_al o) kept))).
Proof.
  intros eq k o bbox l HE HL. cbn zeta. unfold calculate_pass. rewrite HL. cbn [obind].
  destruct (Nat.ltb_spec (length l) 5) as [S|S].
  { eexists. split; [reflexivity|]. split; [auto|lia]. }
  destruct bbox as [f|].
  - set (inside := fun i => f (nth i (o_lon o) 0%Q, nth i (o_lat o) 0%Q)).
    assert (M : map f (combine (take 0%Q (o_lon o) l) (take 0%Q (o_lat o) l)) = map inside l).
    { clear. unfold take. induction l as [|a l IH]; simpl; [reflexivity|]. now rewrite IH. }
    rewrite M.
    assert (SEL : forall (A : Type) (d : A) v, select (map inside l) (take d v l) = take d v (filter inside l)).
    { clear. intros A d v. unfold take. induction l as [|a l IH]; simpl; [reflexivity|].
      destruct (inside a); simpl; now rewrite IH. }
    assert (FN : forallb negb (map inside l) = true <-> filter inside l = []).
    { clear. induction l as [|a l IH]; simpl; [tauto|]. destruct (inside a); simpl; [|tauto].
      split; discriminate. }
    destruct (forallb negb (map inside l)).
    + eexists. split; [reflexivity|]. split; auto. intros _ C. exfalso. apply C. now apply FN.
    + rewrite HE. cbn [obind]. eexists. split; [reflexivity|]. rewrite !SEL. split.
      * intros [C|C]; [lia|]. apply FN in C. discriminate.
      * intros. reflexivity.
  - assert (F : filter (fun _ : nat => true) l = l).
    { clear. induction l; simpl; congruence. }
    rewrite F, HE. cbn [obind]. eexists. split; [reflexivity|]. split.
    + intros [C|C]; [lia|]. rewrite C in S. simpl in S. lia.
    + intros. reflexivity.
Qed.

Example C94_example :
  exists o, build_orbit two_rev two_rev two_time two_rev = Ok o /\
  pass_indexes o 1 = Ok [0; 1; 2; 3; 4]%nat /\ pass_indexes o 4 = Ok [13; 14; 15]%nat /\
  pass_indexes o (-1) = Ok [9; 10; 11; 12]%nat /\ pass_indexes o 3 = Ok [9; 10; 11; 12]%nat /\
  calculate_pass (fun _ _ _ => Ok tt) 1 o (Some (fun p => Qle_bool 3 (snd p))) =
    Ok (Some (mk_pass [3; 4]%Q [3; 4]%Q [3; 4] [3; 4]%Q)).
Proof. eexists. split; [reflexivity|]. repeat split; reflexivity. Qed.
