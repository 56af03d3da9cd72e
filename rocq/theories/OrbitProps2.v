(** Theorems on the orbit tools: C95 (crossing of the equator), C96 (across track distances,
    mask and central pixel of a swath), C97 (ephemeris that starts near the equator). *)
From Verif Require Import Base BaseProofs MathModel OrbitModel OrbitSpec OrbitProofs OrbitProofs2 OrbitProps.
From Coq Require Import Sorted Lqa ZifyBool.
Open Scope Z_scope.

(** ** C95 *)
Lemma argmin_from_spec l i best v :
  (forall x, In x l -> v <= x)%Q /\ argmin_from l i best v = best \/
  exists j, (j < length l)%nat /\ argmin_from l i best v = (i + j)%nat /\ (nth j l 0 < v)%Q /\
    (forall x, In x l -> nth j l 0 <= x)%Q /\ (forall k, (k < j)%nat -> nth j l 0 < nth k l 0)%Q.
Proof.
  revert i best v; induction l as [|h t IH]; intros i best v.
  - left. split; [intros x []|reflexivity].
  - simpl. destruct (Qltb h v) eqn:E.
    + apply Qltb_iff in E. right. destruct (IH (S i) i h) as [[A B]|[j [J1 [J2 [J3 [J4 J5]]]]]].
      * exists 0%nat. rewrite B. repeat split; try lia; auto.
        intros x [<-|Hx]; [apply Qle_refl|auto].
      * exists (S j). rewrite J2. split; [lia|]. split; [lia|]. split; [simpl; lra|]. split.
        -- simpl. intros x [<-|Hx]; [lra|auto].
        -- intros [|k] Hk; simpl; [exact J3|]. apply J5. lia.
    + assert (E' : (v <= h)%Q).
      { apply Qnot_lt_le. intro C. apply Qltb_iff in C. congruence. }
      destruct (IH (S i) best v) as [[A B]|[j [J1 [J2 [J3 [J4 J5]]]]]].
      * left. split; auto. intros x [<-|Hx]; auto.
      * right. exists (S j). rewrite J2. split; [lia|]. split; [lia|]. split; [exact J3|]. split.
        -- intros x [<-|Hx]; [simpl; lra|simpl; auto].
        -- intros [|k] Hk; simpl; [lra|]. apply J5. lia.
Qed.

Lemma argmin_spec l :
  l <> [] -> let i := argmin l in (i < length l)%nat /\
  (forall j, (j < length l)%nat -> nth i l 0 <= nth j l 0)%Q /\
  (forall j, (j < i)%nat -> nth i l 0 < nth j l 0)%Q.
Proof.
  destruct l as [|h t]; [congruence|]. intros _. cbn zeta. unfold argmin.
  destruct (argmin_from_spec t 1 0 h) as [[A B]|[j [J1 [J2 [J3 [J4 J5]]]]]].
  - rewrite B. split; [simpl; lia|]. split; [|lia]. intros [|j] Hj; [apply Qle_refl|].
    simpl. apply A. apply nth_In. simpl in Hj. lia.
  - rewrite J2. cbn [length]. split; [lia|]. change (1 + j)%nat with (S j). split.
    + intros [|k] Hk; [simpl; lra|]. simpl. apply J4. apply nth_In. lia.
    + intros [|k] Hk; simpl; [exact J3|]. apply J5. lia.
Qed.

Lemma slice2 {A} i (l : list A) d :
  (S i < length l)%nat -> slice i (S i) l = [nth i l d; nth (S i) l d].
Proof.
  intro H. unfold slice. replace (S (S i) - i)%nat with 2%nat by lia.
  revert l H; induction i as [|i IH]; intros [|a l] H; simpl in H; try lia.
  - destruct l as [|b l]; simpl in *; [lia|reflexivity].
  - change (skipn (S i) (a :: l)) with (skipn i l). rewrite IH by lia. reflexivity.
Qed.

Lemma slice_empty {A} (l : list A) : slice 1 0 l = [].
Proof. reflexivity. Qed.

(** The nearest point to the equator. *)
Definition nearest_equator (lat : list Q) (i : nat) : Prop :=
  (i < length lat)%nat /\
  (forall j, (j < length lat)%nat -> Qabs (at_ lat i) <= Qabs (at_ lat j))%Q.

Lemma abs_nth lat i : nth i (map Qabs lat) 0%Q = Qabs (at_ lat i).
Proof.
  unfold at_. change 0%Q with (Qabs 0) at 1. apply (map_nth Qabs).
Qed.

Lemma argmin_abs lat :
  lat <> [] -> let i := argmin (map Qabs lat) in nearest_equator lat i /\
  (forall j, (j < i)%nat -> Qabs (at_ lat i) < Qabs (at_ lat j))%Q.
Proof.
  intro N. cbn zeta. destruct (argmin_spec (map Qabs lat)) as [A [B C]].
  { destruct lat; simpl; congruence. }
  cbn zeta in *. rewrite map_length in *. split; [split; auto|].
  - intros j Hj. specialize (B j Hj). now rewrite !abs_nth in B.
  - intros j Hj. specialize (C j Hj). now rewrite !abs_nth in C.
Qed.

(** Whatever the pass (two points at least), two consecutive points are retained, except
    when the nearest point to the equator is the first one and the equator is crossed (or
    touched) between the first two points: then an [IndexError] is raised. *)
Theorem C95_segment : forall lon lat,
  length lon = length lat -> (2 <= length lat)%nat ->
  (nearest_equator lat 0 /\ (at_ lat 0 * at_ lat 1 <= 0)%Q ->
     equator_segment lon lat = Throw "IndexError") /\
  (~ (nearest_equator lat 0 /\ (at_ lat 0 * at_ lat 1 <= 0)%Q) ->
     exists i, (S i < length lat)%nat /\
     equator_segment lon lat =
       Ok (Some [(nth i lon 0%Q, at_ lat i); (nth (S i) lon 0%Q, at_ lat (S i))])).
Proof.
  intros lon lat L L2. unfold equator_segment.
  destruct (Nat.ltb_spec (length lon) 2); [lia|].
  assert (NE : lat <> []) by (intro C; rewrite C in L2; simpl in L2; lia).
  destruct (argmin_abs lat NE) as [[A B] C]. cbn zeta in *.
  unfold equator_pair. set (i1 := argmin (map Qabs lat)) in *.
  change (nth ?k lat 0%Q) with (at_ lat k).
  assert (OKS : forall i, (S i < length lat)%nat ->
    (let (i0, i2) := (i, S i) in let lon1 := slice i0 i2 lon in let lat1 := slice i0 i2 lat in
     olet _ := py_nth lon1 0 in olet _ := py_nth lon1 1 in Ok (Some (combine lon1 lat1))) =
    Ok (Some [(nth i lon 0%Q, at_ lat i); (nth (S i) lon 0%Q, at_ lat (S i))])).
  { intros i Hi. cbn zeta iota. rewrite (slice2 i lon 0%Q) by lia. rewrite (slice2 i lat 0%Q) by lia. reflexivity. }
  split.
  - intros [[_ N0] P].
    assert (I0 : i1 = 0%nat).
    { destruct (Nat.eq_dec i1 0) as [|E]; auto. exfalso. specialize (C 0%nat ltac:(lia)).
      specialize (N0 i1 A). lra. }
    rewrite I0. cbn [Nat.ltb Nat.leb].
    destruct (Qltb 0 (at_ lat 1 * at_ lat 0)) eqn:E.
    { apply Qltb_iff in E. exfalso. rewrite Qmult_comm in E. lra. }
    rewrite !slice_empty. reflexivity.
  - intro H0. destruct (Nat.ltb_spec 0 i1) as [H1|H1].
    + destruct (Qltb 0 (at_ lat (i1 - 1) * at_ lat i1)).
      * destruct (Nat.ltb_spec i1 (length lat - 1)).
        -- exists i1. split; [lia|]. apply OKS. lia.
        -- exists (i1 - 1)%nat. split; [lia|]. specialize (OKS (i1 - 1)%nat ltac:(lia)).
           replace (S (i1 - 1)) with i1 in * by lia. exact OKS.
      * exists (i1 - 1)%nat. split; [lia|]. specialize (OKS (i1 - 1)%nat ltac:(lia)).
           replace (S (i1 - 1)) with i1 in * by lia. exact OKS.
    + assert (I0 : i1 = 0%nat) by lia. rewrite I0 in *.
      destruct (Qltb 0 (at_ lat 1 * at_ lat 0)) eqn:E.
      * destruct (Nat.ltb_spec 0 (length lat - 1)); [|lia]. exists 0%nat. split; [lia|]. apply OKS. lia.
      * exfalso. apply H0. split; [split; auto|]. rewrite Qmult_comm. apply Qnot_lt_le. intro Q.
        apply Qltb_iff in Q. congruence.
Qed.

Lemma Qabs_neg_eq a : (a <= 0)%Q -> (Qabs a == - a)%Q. Proof. apply Qabs_neg. Qed.
Lemma Qabs_pos_eq a : (0 <= a)%Q -> (Qabs a == a)%Q. Proof. apply Qabs_pos. Qed.

(** The track goes in one direction, and crosses (or touches) the equator between two points:
    the two points retained are on either side of the equator. *)
Definition one_way (lat : list Q) : Prop :=
  (forall i j, (i < j)%nat -> (j < length lat)%nat -> (at_ lat i < at_ lat j)%Q) \/
  (forall i j, (i < j)%nat -> (j < length lat)%nat -> (at_ lat j < at_ lat i)%Q).

Lemma product_signs a b : (a * b <= 0)%Q -> ((a <= 0 /\ 0 <= b) \/ (0 <= a /\ b <= 0))%Q.
Proof.
  intro H. destruct (Qlt_le_dec 0 a) as [A|A], (Qlt_le_dec 0 b) as [B|B]; try (left; split; lra); try (right; split; lra).
  - exfalso. assert (0 < a * b)%Q by nra. lra.
  - destruct (Qlt_le_dec a 0) as [A'|A'], (Qlt_le_dec b 0) as [B'|B']; try (left; split; lra); try (right; split; lra).
    exfalso. assert (0 < a * b)%Q by nra. lra.
Qed.

Lemma abs_grow lat j :
  one_way lat -> (S j < length lat)%nat -> (at_ lat j * at_ lat (S j) <= 0)%Q ->
  (forall k, (k < j)%nat -> Qabs (at_ lat j) < Qabs (at_ lat k))%Q /\
  (forall k, (S j < k)%nat -> (k < length lat)%nat -> Qabs (at_ lat (S j)) < Qabs (at_ lat k))%Q /\
  (forall k, (k < j)%nat -> 0 <= at_ lat k * at_ lat j)%Q.
Proof.
  intros M Hj P. destruct M as [M|M].
  - pose proof (M j (S j) ltac:(lia) Hj) as J.
    assert (S1 : (at_ lat j <= 0 /\ 0 <= at_ lat (S j))%Q) by (destruct (product_signs _ _ P); lra).
    repeat split.
    + intros k Hk. pose proof (M k j Hk ltac:(lia)). rewrite (Qabs_neg_eq (at_ lat j)), (Qabs_neg_eq (at_ lat k)) by lra. lra.
    + intros k Hk Hk2. pose proof (M (S j) k Hk Hk2). rewrite (Qabs_pos_eq (at_ lat (S j))), (Qabs_pos_eq (at_ lat k)) by lra. lra.
    + intros k Hk. pose proof (M k j Hk ltac:(lia)). nra.
  - pose proof (M j (S j) ltac:(lia) Hj) as J.
    assert (S1 : (0 <= at_ lat j /\ at_ lat (S j) <= 0)%Q) by (destruct (product_signs _ _ P); lra).
    repeat split.
    + intros k Hk. pose proof (M k j Hk ltac:(lia)). rewrite (Qabs_pos_eq (at_ lat j)), (Qabs_pos_eq (at_ lat k)) by lra. lra.
    + intros k Hk Hk2. pose proof (M (S j) k Hk Hk2). rewrite (Qabs_neg_eq (at_ lat (S j))), (Qabs_neg_eq (at_ lat k)) by lra. lra.
    + intros k Hk. pose proof (M k j Hk ltac:(lia)). nra.
Qed.

Theorem C95_crossing : forall lon lat j,
  length lon = length lat -> one_way lat -> (S j < length lat)%nat ->
  (at_ lat j * at_ lat (S j) <= 0)%Q ->
  ~ (j = 0%nat /\ (Qabs (at_ lat 0) <= Qabs (at_ lat 1))%Q) ->
  exists i, (S i < length lat)%nat /\ (at_ lat i * at_ lat (S i) <= 0)%Q /\
  equator_segment lon lat =
    Ok (Some [(nth i lon 0%Q, at_ lat i); (nth (S i) lon 0%Q, at_ lat (S i))]).
Proof.
  intros lon lat j L M Hj P H0. unfold equator_segment.
  destruct (Nat.ltb_spec (length lon) 2); [lia|].
  assert (NE : lat <> []) by (intro C; rewrite C in Hj; simpl in Hj; lia).
  destruct (argmin_abs lat NE) as [[A B] C]. cbn zeta in *.
  destruct (abs_grow lat j M Hj P) as [G1 [G2 G3]].
  unfold equator_pair. set (i1 := argmin (map Qabs lat)) in *.
  change (nth ?k lat 0%Q) with (at_ lat k).
  assert (OKS : forall i, (S i < length lat)%nat ->
    (let (i0, i2) := (i, S i) in let lon1 := slice i0 i2 lon in let lat1 := slice i0 i2 lat in
     olet _ := py_nth lon1 0 in olet _ := py_nth lon1 1 in Ok (Some (combine lon1 lat1))) =
    Ok (Some [(nth i lon 0%Q, at_ lat i); (nth (S i) lon 0%Q, at_ lat (S i))])).
  { intros i Hi. cbn zeta iota. rewrite (slice2 i lon 0%Q) by lia. rewrite (slice2 i lat 0%Q) by lia. reflexivity. }
  assert (W : i1 = j \/ i1 = S j).
  { destruct (Nat.lt_trichotomy i1 j) as [K|[K|K]]; auto.
    - specialize (G1 i1 K). specialize (B j ltac:(lia)). lra.
    - destruct (Nat.eq_dec i1 (S j)); auto. exfalso.
      specialize (G2 i1 ltac:(lia) A). specialize (B (S j) Hj). lra. }
  destruct W as [W|W]; rewrite W in *.
  - destruct j as [|j'].
    { exfalso. apply H0. split; [reflexivity|]. apply B. lia. }
    destruct (Nat.ltb_spec 0 (S j')); [|lia]. replace (S j' - 1)%nat with j' by lia.
    destruct (Qltb 0 (at_ lat j' * at_ lat (S j'))) eqn:E.
    + destruct (Nat.ltb_spec (S j') (length lat - 1)); [|lia].
      exists (S j'). split; [lia|]. split; auto.
    + exists j'. split; [lia|]. split; [|apply OKS; lia].
      apply Qnot_lt_le. intro Q. apply Qltb_iff in Q. congruence.
  - destruct (Nat.ltb_spec 0 (S j)); [|lia]. replace (S j - 1)%nat with j by lia.
    destruct (Qltb 0 (at_ lat j * at_ lat (S j))) eqn:E.
    { apply Qltb_iff in E. lra. }
    exists j. split; auto.
Qed.

(** A pass cut by a box just south of the equator: the crossing lies between its first two
    points, nearer to the first, and the call fails. *)
Theorem C95_first_point_refuted :
  one_way [-(1 # 10); 3 # 10; 7 # 10; 11 # 10; 15 # 10]%Q /\
  equator_segment [10; 20; 30; 40; 50]%Q [-(1 # 10); 3 # 10; 7 # 10; 11 # 10; 15 # 10]%Q
  = Throw "IndexError".
Proof.
  split; [|reflexivity]. left. intros i j H1 H2. simpl in H2.
  do 5 (destruct j as [|j]; [do 5 (destruct i as [|i]; [try lia; unfold at_; simpl; lra|]); lia|]). lia.
Qed.

Example C95_example :
  equator_segment [10; 20; 30; 40; 50]%Q [-(9 # 10); -(5 # 10); -(1 # 10); 3 # 10; 7 # 10]%Q
  = Ok (Some [(30, -(1 # 10)); (40, 3 # 10)]%Q).
Proof. reflexivity. Qed.

(** ** C96 *)
Lemma py_int_floor q :
  (0 <= q)%Q -> (inject_Z (py_int q) <= q < inject_Z (py_int q + 1))%Q /\ 0 <= py_int q.
Proof.
  intro Q0. unfold py_int. assert (N0 : 0 <= Qnum q) by (unfold Qle in Q0; simpl in Q0; lia).
  rewrite Z.quot_div_nonneg by lia.
  pose proof (Z.div_mod (Qnum q) (Z.pos (Qden q)) ltac:(lia)) as D.
  pose proof (Z.mod_pos_bound (Qnum q) (Z.pos (Qden q)) ltac:(lia)) as R.
  repeat split; [| |apply Z.div_pos; lia].
  - unfold Qle. simpl. nia.
  - unfold Qlt. simpl. nia.
Qed.

Section C96.
  Variables ac_res al_res half_swath half_gap : option Q.
  (** The arguments in effect (documented defaults: 2, 2, 70 and 2 km). *)
  Let ac := num_or ac_res 2.
  Let al := num_or al_res 2.
  Let hs := num_or half_swath 70.
  Let hg := num_or half_gap 2.
  Let n := Z.to_nat (half_swath_size ac_res half_swath half_gap).

  Lemma side_nth (f : nat -> Q) j :
    (j < n)%nat ->
    let x := map f (seq 0 n) in
    nth (n + j) (map Qopp (rev x) ++ x) 0%Q = f j /\
    nth (n - 1 - j) (map Qopp (rev x) ++ x) 0%Q = (- f j)%Q /\
    length (map Qopp (rev x) ++ x) = (2 * n)%nat.
  Proof.
    intros Hj x. assert (Lx : length x = n) by (unfold x; rewrite map_length, seq_length; reflexivity).
    assert (Nx : forall k, (k < n)%nat -> nth k x 0%Q = f k).
    { intros k Hk. unfold x. rewrite (nth_indep _ 0%Q (f 0%nat)) by (rewrite map_length, seq_length; auto).
      rewrite map_nth, seq_nth by auto. reflexivity. }
    assert (Lr : length (map Qopp (rev x)) = n) by (rewrite map_length, rev_length; auto).
    split; [|split].
    - rewrite app_nth2 by lia. rewrite Lr. replace (n + j - n)%nat with j by lia. auto.
    - rewrite app_nth1 by lia.
      rewrite (nth_indep _ 0%Q (Qopp 0)) by lia. rewrite (map_nth Qopp).
      rewrite rev_nth by lia. rewrite Lx. replace (n - S (n - 1 - j))%nat with j by lia. now rewrite Nx.
    - rewrite app_length, Lr, Lx. lia.
  Qed.

  Lemma x_ac_nth j : (j < n)%nat ->
    (nth (n + j) (swath_x_ac ac_res al_res half_swath half_gap) 0 == (inject_Z (Z.of_nat j) * al + hg) * 1000)%Q /\
    (nth (n - 1 - j) (swath_x_ac ac_res al_res half_swath half_gap) 0 == - ((inject_Z (Z.of_nat j) * al + hg) * 1000))%Q /\
    length (swath_x_ac ac_res al_res half_swath half_gap) = (2 * n)%nat.
  Proof.
    intro Hj. unfold swath_x_ac. fold n al hg.
    destruct (side_nth (fun i => inject_Z (Z.of_nat i) * al + hg)%Q j Hj) as [A [B C]]. cbn zeta in *.
    set (v := map Qopp _ ++ _) in *.
    assert (G : forall k, (k < length v)%nat -> nth k (map (fun v => v * 1000)%Q v) 0%Q = (nth k v 0 * 1000)%Q).
    { intros k Hk. rewrite (nth_indep _ 0%Q ((fun v => v * 1000)%Q 0%Q)) by (rewrite map_length; auto).
      apply (map_nth (fun v => v * 1000)%Q). }
    rewrite !G by lia. rewrite A, B, map_length. split; [reflexivity|]. split; [ring|auto].
  Qed.

  Lemma ground_nth j : (j < n)%nat ->
    (nth (n + j) (swath_ground ac_res half_swath half_gap) 0 == (inject_Z (Z.of_nat j) * ac + hg) * 1000)%Q /\
    (nth (n - 1 - j) (swath_ground ac_res half_swath half_gap) 0 == - ((inject_Z (Z.of_nat j) * ac + hg) * 1000))%Q /\
    length (swath_ground ac_res half_swath half_gap) = (2 * n)%nat.
  Proof.
    intro Hj. unfold swath_ground. fold n ac hg.
    destruct (side_nth (fun i => inject_Z (Z.of_nat i) * (ac * 1000) + hg * 1000)%Q j Hj) as [A [B C]]. cbn zeta in *.
    rewrite A, B. split; [ring|]. split; [ring|auto].
  Qed.

  (** The row of across track distances: symmetric about the track, the first pixel at the
      half gap, the next ones spaced by the ALONG track resolution. *)
  Theorem C96_x_ac : forall j, (j < n)%nat ->
    (nth (n + j) (swath_x_ac ac_res al_res half_swath half_gap) 0 == (hg + inject_Z (Z.of_nat j) * al) * 1000)%Q /\
    (nth (n - 1 - j) (swath_x_ac ac_res al_res half_swath half_gap) 0
     == - nth (n + j) (swath_x_ac ac_res al_res half_swath half_gap) 0)%Q /\
    length (swath_x_ac ac_res al_res half_swath half_gap) = (2 * n)%nat.
  Proof.
    intros j Hj. destruct (x_ac_nth j Hj) as [A [B C]]. rewrite A, B. split; [ring|]. split; [ring|auto].
  Qed.

  (** It is the position of the pixels on the ground when the two resolutions are equal. *)
  Theorem C96_consistent : (ac == al)%Q -> forall i, (i < 2 * n)%nat ->
    (nth i (swath_x_ac ac_res al_res half_swath half_gap) 0 == nth i (swath_ground ac_res half_swath half_gap) 0)%Q.
  Proof.
    intros E i Hi. destruct (Nat.lt_ge_cases i n) as [H|H].
    - destruct (x_ac_nth (n - 1 - i) ltac:(lia)) as [_ [A _]].
      destruct (ground_nth (n - 1 - i) ltac:(lia)) as [_ [B _]].
      replace (n - 1 - (n - 1 - i))%nat with i in * by lia. rewrite A, B, E. reflexivity.
    - destruct (x_ac_nth (i - n) ltac:(lia)) as [A _].
      destruct (ground_nth (i - n) ltac:(lia)) as [B _].
      replace (n + (i - n))%nat with i in * by lia. rewrite A, B, E. reflexivity.
  Qed.

  (** Otherwise the distances announced are wrong for every pixel but the first of each side. *)
  Theorem C96_resolution_refuted : ~ (ac == al)%Q -> forall j, (0 < j < n)%nat ->
    ~ (nth (n + j) (swath_x_ac ac_res al_res half_swath half_gap) 0 == nth (n + j) (swath_ground ac_res half_swath half_gap) 0)%Q.
  Proof.
    intros E j Hj C. destruct (x_ac_nth j ltac:(lia)) as [A _]. destruct (ground_nth j ltac:(lia)) as [B _].
    rewrite A, B in C. apply E.
    assert (P : (0 < inject_Z (Z.of_nat j))%Q) by (change 0%Q with (inject_Z 0); rewrite <- Zlt_Qlt; lia).
    assert (D : (inject_Z (Z.of_nat j) * ac == inject_Z (Z.of_nat j) * al)%Q) by lra.
    apply Qmult_inj_l in D; auto. lra.
  Qed.

  (** The last pixel on the ground is the last one within the half swath. *)
  Theorem C96_extent : (0 < ac)%Q -> (hg <= hs)%Q ->
    (0 < n)%nat /\ (hg + inject_Z (Z.of_nat (n - 1)) * ac <= hs)%Q /\ (hs < hg + inject_Z (Z.of_nat n) * ac)%Q.
  Proof.
    intros Hac Hh. set (q := ((hs - hg) / ac)%Q).
    assert (Q0 : (0 <= q)%Q) by (apply Qle_shift_div_l; lra).
    assert (QE : (q * ac == hs - hg)%Q) by (unfold q; field; lra).
    assert (F : (inject_Z (py_int q) <= q < inject_Z (py_int q + 1))%Q /\ 0 <= py_int q).
    { apply py_int_floor. exact Q0. }
    destruct F as [[F1 F2] F3].
    assert (Nn : Z.of_nat n = py_int q + 1).
    { unfold n, half_swath_size. fold ac hs hg. fold q. rewrite Z2Nat.id; lia. }
    split; [lia|]. replace (Z.of_nat (n - 1)) with (py_int q) by lia. rewrite Nn. split; nra.
  Qed.
End C96.

(** A null gap (or a null resolution ...) cannot be asked for: zero stands for the default. *)
Theorem C96_zero_gap_refuted : forall ac_res al_res half_swath,
  let n := Z.to_nat (half_swath_size ac_res half_swath (Some 0%Q)) in
  (0 < n)%nat ->
  (nth n (swath_x_ac ac_res al_res half_swath (Some 0%Q)) 0 == 2000)%Q.
Proof.
  intros ac_res al_res half_swath n Hn.
  destruct (C96_x_ac ac_res al_res half_swath (Some 0%Q) 0 Hn) as [A _]. fold n in A.
  rewrite Nat.add_0_r in A. rewrite A. unfold num_or. simpl. ring.
Qed.

(** The mask: 1 where the distance is within the bounds, NaN elsewhere; same shape. *)
Theorem C96_mask : forall lo hi x_ac i j,
  (i < length x_ac)%nat -> (j < length (nth i x_ac []))%nat ->
  let d := Qabs (nth j (nth i x_ac []) 0%Q) in
  let r := swath_mask lo hi x_ac in
  length r = length x_ac /\ length (nth i r []) = length (nth i x_ac []) /\
  ((lo <= d <= hi)%Q -> nth j (nth i r []) None = Some 1%Q) /\
  (~ (lo <= d <= hi)%Q -> nth j (nth i r []) None = None).
Proof.
  intros lo hi x_ac i j Hi Hj. cbn zeta. unfold swath_mask. rewrite map_length.
  set (g := fun x => if Qle_bool lo (Qabs x) && Qle_bool (Qabs x) hi then Some 1%Q else None).
  assert (E : nth i (map (map g) x_ac) [] = map g (nth i x_ac [])).
  { change (@nil (option Q)) with (map g []). rewrite (map_nth (map g)). reflexivity. }
  rewrite E, map_length. split; auto. split; auto.
  rewrite (nth_indep _ None (g 0%Q)) by (rewrite map_length; auto). rewrite (map_nth g).
  unfold g. set (d := Qabs (nth j (nth i x_ac []) 0%Q)).
  destruct (Qle_bool lo d) eqn:A, (Qle_bool d hi) eqn:B; cbn [andb]; split; intro H; auto;
    try (exfalso; apply H; rewrite <- !Qle_bool_iff; auto); destruct H as [H1 H2];
    apply Qle_bool_iff in H1; apply Qle_bool_iff in H2; congruence.
Qed.

(** The central pixel: one more column, in the middle, holding the nadir values; the others
    keep their order. *)
Theorem C96_central_pixel : forall (A : Type) (d : A) (array : list (list A)) fill w i,
  (forall r, In r array -> length r = (2 * w)%nat) -> length fill = length array ->
  (i < length array)%nat ->
  let row := nth i array [] in
  let row' := nth i (insert_central array fill) [] in
  length (insert_central array fill) = length array /\
  length row' = (2 * w + 1)%nat /\
  nth w row' d = nth i fill d /\
  (forall j, (j < w)%nat -> nth j row' d = nth j row d) /\
  (forall j, (w <= j < 2 * w)%nat -> nth (S j) row' d = nth j row d).
Proof.
  intros A d array fill w i HR HF Hi. cbn zeta.
  assert (E : insert_central array fill = map2 (insert_row w) array fill).
  { destruct array as [|r a]; [simpl in Hi; lia|]. unfold insert_central.
    rewrite (HR r (or_introl eq_refl)). do 2 f_equal.
    replace (S (2 * w)) with (1 + w * 2)%nat by lia. rewrite Nat.div_add by lia. reflexivity. }
  rewrite E. split; [rewrite map2_length; auto|].
  assert (Lr : length (nth i array []) = (2 * w)%nat) by (apply HR; apply nth_In; auto).
  rewrite (map2_nth (insert_row w) array fill [] d []) by auto.
  set (row := nth i array []) in *. unfold insert_row.
  assert (Lf : length (firstn w row) = w) by (rewrite firstn_length; lia).
  split; [|split; [|split]].
  - rewrite app_length. cbn [length]. rewrite Lf, skipn_length. lia.
  - rewrite app_nth2 by lia. rewrite Lf, Nat.sub_diag. reflexivity.
  - intros j Hj. rewrite app_nth1 by lia. apply nth_firstn; auto.
  - intros j Hj. rewrite app_nth2 by lia. rewrite Lf.
    replace (S j - w)%nat with (S (j - w)) by lia. cbn [nth]. rewrite nth_skipn. f_equal. lia.
Qed.

Example C96_example :
  swath_x_ac (Some 5%Q) (Some 2%Q) (Some 12%Q) (Some 2%Q) = [-6000; -4000; -2000; 2000; 4000; 6000]%Q /\
  swath_ground (Some 5%Q) (Some 12%Q) (Some 2%Q) = [-12000; -7000; -2000; 2000; 7000; 12000]%Q /\
  insert_central [[1; 2; 3; 4]; [5; 6; 7; 8]] [0; 9] = [[1; 2; 0; 3; 4]; [5; 6; 9; 7; 8]].
Proof. repeat split. Qed.

(** ** C97 *)

(** Of an ephemeris that starts between the latitudes -40 and 40, only the turning points
    are kept (all but the first of them): the rest of the track is lost. *)
Theorem C97_only_turns : forall lat (A : Type) (d : A) (l : list A),
  lat <> [] -> (-(40) <= at_ lat 0 <= 40)%Q ->
  exists idx, trim_start d lat l = map (fun i => nth i l d) idx /\
  StronglySorted lt idx /\
  forall i, In i idx <-> turn lat i /\ exists j, turn lat j /\ (j < i)%nat.
Proof.
  intros lat A d l N H. destruct lat as [|y lat]; [congruence|].
  unfold at_ in H. cbn [nth] in H. unfold trim_start.
  replace (Qle_bool (-(40)) y) with true by (symmetry; apply Qle_bool_iff; tauto).
  replace (Qle_bool y 40) with true by (symmetry; apply Qle_bool_iff; tauto).
  cbn [andb]. set (la := y :: lat). exists (tl (turns la)). split; [reflexivity|].
  pose proof (turns_sorted la) as S.
  assert (TI : forall i, turn la i <-> In i (turns la)) by (intro i; rewrite turns_In; reflexivity).
  destruct (turns la) as [|a t].
  - split; [constructor|]. intro i. cbn [tl]. split; [intros []|]. intros [C _]. apply TI in C. inversion C.
  - inversion S as [|? ? S' F]; subst. cbn [tl]. split; auto. rewrite Forall_forall in F. intro i. split.
    + intro Hi. split; [apply TI; now right|]. exists a. split; [apply TI; now left|auto].
    + intros [Ti [j [Tj Hj]]]. apply TI in Ti. destruct Ti as [<-|]; auto. exfalso.
      apply TI in Tj. destruct Tj as [<-|C]; [lia|]. specialize (F j C). lia.
Qed.

Theorem C97_track_lost_refuted :
  trim_start 0%Q mid_pass mid_pass = [1; 3; 1]%Q /\ length mid_pass = 16%nat /\
  trim_start 0 mid_pass two_time = [6; 10; 14].
Proof. repeat split. Qed.

(** An ephemeris that starts elsewhere is left alone. *)
Theorem C97_untouched : forall lat (A : Type) (d : A) (l : list A),
  ~ (-(40) <= at_ lat 0 <= 40)%Q -> trim_start d lat l = l.
Proof.
  intros [|y lat] A d l H; [reflexivity|]. unfold at_ in H. cbn [nth] in H. unfold trim_start.
  destruct (Qle_bool (-(40)) y) eqn:E1, (Qle_bool y 40) eqn:E2; auto. exfalso. apply H.
  split; now apply Qle_bool_iff.
Qed.
