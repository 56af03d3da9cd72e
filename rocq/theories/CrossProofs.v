(** Normalisation of the longitudes of two tracks. *)
From Verif Require Import Base BaseProofs MathModel MathProofs CrossModel CrossSpec.
Open Scope Q_scope.

Lemma Qltb_cases a b : (Qltb a b = true /\ a < b) \/ (Qltb a b = false /\ b <= a).
Proof.
  unfold Qltb. destruct (Qle_bool b a) eqn:E; cbn.
  - right. split; [reflexivity|]. apply Qle_bool_iff; assumption.
  - left. split; [reflexivity|]. apply Qnot_le_lt. intro H. apply Qle_bool_iff in H. congruence.
Qed.
Ltac qltb a b := let H := fresh in destruct (Qltb_cases a b) as [[H ?]|[H ?]]; rewrite H in *; clear H.

Lemma same_lon_refl x : same_lon x x.
Proof. exists 0%Z. change (inject_Z 0) with 0. ring. Qed.
Lemma same_lon_sym x y : same_lon x y -> same_lon y x.
Proof. intros [k H]. exists (- k)%Z. rewrite inject_Z_opp, H. ring. Qed.
Lemma same_lon_trans x y z : same_lon x y -> same_lon y z -> same_lon x z.
Proof. intros [k H] [j J]. exists (k + j)%Z. rewrite inject_Z_plus, H, J. ring. Qed.
Lemma same_lon_eq x y : x == y -> same_lon x y.
Proof. intro H. exists 0%Z. change (inject_Z 0) with 0. rewrite H. ring. Qed.
Lemma same_lon_turn x k : same_lon (x + inject_Z k * 360) x.
Proof. exists k. ring. Qed.
Lemma same_lon_close x y : same_lon x y -> -(360) < x - y -> x - y < 360 -> x == y.
Proof.
  intros [k H] L U. assert (-1 < k < 1)%Z.
  { split.
    - apply Z.lt_nge. intro G. assert (D : inject_Z k <= inject_Z (-1)) by (rewrite <- Zle_Qle; lia).
      change (inject_Z (-1)) with (-(1)) in D. lra.
    - apply Z.lt_nge. intro G. assert (D : inject_Z 1 <= inject_Z k) by (rewrite <- Zle_Qle; lia).
      change (inject_Z 1) with 1 in D. lra. }
  assert (k = 0)%Z by lia. subst k. change (inject_Z 0) with 0 in H. lra.
Qed.
Global Instance same_lon_comp : Proper (Qeq ==> Qeq ==> iff) same_lon.
Proof.
  intros a b H c d J. unfold same_lon. split; intros [k E]; exists k.
  - rewrite <- H, <- J. exact E.
  - rewrite H, J. exact E.
Qed.

Definition upl (c x : Q) : Q := if Qltb x c then x + 360 else x.
Definition downl (c x : Q) : Q := if Qltb c x then x - 360 else x.
Lemma upl_window c x : x - c < 360 -> c - x < 360 -> c <= upl c x /\ upl c x < c + 360.
Proof. intros. unfold upl. qltb x c; lra. Qed.
Lemma upl_same c x : same_lon (upl c x) x.
Proof. unfold upl. qltb x c; [exists 1%Z; change (inject_Z 1) with 1; ring|apply same_lon_refl]. Qed.
Lemma downl_window c a x : a <= c -> c < a + 360 -> a <= x -> x < a + 360 -> c - 360 < downl c x /\ downl c x <= c.
Proof. intros. unfold downl. qltb c x; lra. Qed.
Lemma downl_same c x : same_lon (downl c x) x.
Proof. unfold downl. qltb c x; [exists (-1)%Z; change (inject_Z (-1)) with (-(1)); ring|apply same_lon_refl]. Qed.

(** A value congruent to [u] and a value [u + 360 k], both in the same window. *)
Lemma in_window_eq x u k : same_lon x u -> -(360) < x - (u + inject_Z k * 360) -> x - (u + inject_Z k * 360) < 360 -> x == u + inject_Z k * 360.
Proof.
  intros H L U. apply same_lon_close; [|assumption|assumption].
  eapply same_lon_trans; [exact H|]. apply same_lon_sym, same_lon_turn.
Qed.

(** The heart of the function: what the two shifts do, when the first crossing is the
    western end of track 1 up to whole turns. *)
Lemma two_shifts w1 e1 w2 e2 E1 E2 c1 c2 K :
  w1 <= e1 -> w2 <= e2 -> e1 - w1 < 360 -> e2 - w2 < 360 -> e1 - w2 < 360 -> e2 - w1 < 360 ->
  c1 == w1 + inject_Z K * 360 ->
  same_lon E1 e1 -> same_lon E2 e2 -> E1 - c1 < 360 -> c1 - E1 < 360 -> E2 - c1 < 360 -> c1 - E2 < 360 ->
  upl c1 E1 <= c2 -> upl c1 E2 <= c2 -> (c2 == upl c1 E1 \/ c2 == upl c1 E2) ->
  exists k2, (forall x u, same_lon x u -> w1 <= u -> u <= e1 -> x - c1 < 360 -> c1 - x < 360 ->
               downl c2 (upl c1 x) == u + inject_Z K * 360) /\
    (forall x u, same_lon x u -> w2 <= u -> u <= e2 -> x - c1 < 360 -> c1 - x < 360 ->
               downl c2 (upl c1 x) == u + inject_Z k2 * 360) /\
    (k2 = K \/ (k2 = (K + 1)%Z /\ e2 < w1)).
Proof.
  intros W1 W2 S1 S2 S3 S4 C1 M1 M2 B1 B1' B2 B2' G1 G2 G.
  destruct (upl_window c1 E1 B1 B1') as [V1 V1'].
  destruct (upl_window c1 E2 B2 B2') as [V2 V2'].
  assert (X1 : upl c1 E1 == e1 + inject_Z K * 360).
  { apply in_window_eq; [eapply same_lon_trans; [apply upl_same|exact M1]|lra|lra]. }
  assert (Y2 : same_lon (upl c1 E2) e2) by (eapply same_lon_trans; [apply upl_same|exact M2]).
  assert (D : forall x u k, same_lon x u -> x - c1 < 360 -> c1 - x < 360 -> c2 - 360 < u + inject_Z k * 360 ->
    u + inject_Z k * 360 <= c2 -> downl c2 (upl c1 x) == u + inject_Z k * 360).
  { intros x u k M A A' L U. destruct (upl_window c1 x A A') as [P P'].
    destruct (downl_window c2 c1 (upl c1 x)) as [R R']; [lra|destruct G; lra|lra|lra|].
    apply in_window_eq; [|lra|lra]. eapply same_lon_trans; [apply downl_same|].
    eapply same_lon_trans; [apply upl_same|exact M]. }
  destruct (Qlt_le_dec e2 w1) as [L|L].
  - (* all of track 2 is west of track 1 *)
    exists (K + 1)%Z.
    assert (X2 : upl c1 E2 == e2 + inject_Z (K + 1) * 360).
    { apply in_window_eq; [exact Y2| |]; rewrite inject_Z_plus; change (inject_Z 1) with 1; lra. }
    rewrite inject_Z_plus in X2. change (inject_Z 1) with 1 in X2.
    assert (C2 : c2 == e2 + inject_Z K * 360 + 360) by (destruct G; lra).
    split; [|split; [|right; split; [reflexivity|exact L]]].
    + intros x u M A A' B B'. apply D; [exact M|lra|lra|lra|lra].
    + intros x u M A A' B B'. apply D; [exact M|lra|lra| |]; rewrite inject_Z_plus; change (inject_Z 1) with 1; lra.
  - exists K.
    assert (X2 : upl c1 E2 == e2 + inject_Z K * 360) by (apply in_window_eq; [exact Y2|lra|lra]).
    split; [|split; [|left; reflexivity]]; intros x u M A A' B B'; apply D; try assumption; destruct G; lra.
Qed.

(** * Directions *)
Lemma clamp180_cases d : (d < -(180) /\ clamp180 d = -(180)) \/ (180 < d /\ clamp180 d = 180) \/ (-(180) <= d <= 180 /\ clamp180 d = d).
Proof.
  unfold clamp180. qltb d (-(180)).
  - left. split; [assumption|]. qltb 180 (-(180)); [lra|reflexivity].
  - qltb 180 d; [right; left|right; right]; repeat split; try assumption.
Qed.

Lemma retro_of x1 x2 x3 u1 u2 u3 :
  same_lon x1 u1 -> same_lon x2 u2 -> same_lon x3 u3 ->
  (forall a b, In a [x1; x2; x3] -> In b [x1; x2; x3] -> a - b < 360) ->
  (0 < u2 - u1 < 180 /\ 0 < u3 - u2 < 180 -> is_retrograde x1 x2 x3 = false) /\
  (0 < u1 - u2 < 180 /\ 0 < u2 - u3 < 180 -> is_retrograde x1 x2 x3 = true).
Proof.
  intros M1 M2 M3 W.
  pose proof (W x1 x2 ltac:(cbn; tauto) ltac:(cbn; tauto)). pose proof (W x2 x1 ltac:(cbn; tauto) ltac:(cbn; tauto)).
  pose proof (W x2 x3 ltac:(cbn; tauto) ltac:(cbn; tauto)). pose proof (W x3 x2 ltac:(cbn; tauto) ltac:(cbn; tauto)).
  pose proof (W x1 x3 ltac:(cbn; tauto) ltac:(cbn; tauto)). pose proof (W x3 x1 ltac:(cbn; tauto) ltac:(cbn; tauto)).
  assert (Dif : forall a b ua ub, same_lon a ua -> same_lon b ub -> a - b < 360 -> b - a < 360 ->
    (0 < ua - ub < 180 -> a - b == ua - ub \/ a - b == ua - ub - 360) ).
  { intros a b ua ub [ka Ea] [kb Eb] L L' R.
    assert (Ek : a - b == ua - ub + inject_Z (ka - kb) * 360) by (unfold Z.sub; rewrite inject_Z_plus, inject_Z_opp; lra).
    set (k := (ka - kb)%Z) in *. assert (k < 1)%Z.
    { apply Z.lt_nge. intro Q. assert (D : inject_Z 1 <= inject_Z k) by (rewrite <- Zle_Qle; lia).
      change (inject_Z 1) with 1 in D. lra. }
    assert (-2 < k)%Z.
    { apply Z.lt_nge. intro Q. assert (D : inject_Z k <= inject_Z (-2)) by (rewrite <- Zle_Qle; lia).
      change (inject_Z (-2)) with (-(2)) in D. lra. }
    assert (k = 0 \/ k = -1)%Z as [->| ->] by lia.
    - left. change (inject_Z 0) with 0 in Ek. lra.
    - right. change (inject_Z (-1)) with (-(1)) in Ek. lra. }
  assert (Abs180 : forall d, Qeq_bool (Qabs d) 180 = true -> d == 180 \/ d == -(180)).
  { intros d E. apply Qeq_bool_iff in E. revert E. apply Qabs_case; intros; lra. }
  assert (Abs180' : forall d, -(180) < d < 180 -> Qeq_bool (Qabs d) 180 = false).
  { intros d E. destruct (Qeq_bool (Qabs d) 180) eqn:A; [|reflexivity]. apply Abs180 in A. lra. }
  assert (AbsP : Qeq_bool (Qabs 180) 180 = true) by reflexivity.
  assert (AbsM : Qeq_bool (Qabs (-(180))) 180 = true) by reflexivity.
  unfold is_retrograde. split; intros [S1 S2].
  - pose proof (Dif x2 x1 u2 u1 M2 M1 ltac:(lra) ltac:(lra) S1) as R1.
    pose proof (Dif x3 x2 u3 u2 M3 M2 ltac:(lra) ltac:(lra) S2) as R2.
    destruct (clamp180_cases (x1 - x2)) as [[C ->]|[[C ->]|[C ->]]].
    + exfalso. destruct R1; lra.
    + rewrite AbsP. destruct (clamp180_cases (x2 - x3)) as [[C' ->]|[[C' ->]|[C' ->]]].
      * reflexivity.
      * exfalso. destruct R1, R2; lra.
      * qltb 0 (x2 - x3); [exfalso; destruct R2; lra|reflexivity].
    + destruct R1 as [R1|R1]; [|exfalso; lra]. rewrite Abs180' by lra. qltb 0 (x1 - x2); [lra|reflexivity].
  - pose proof (Dif x1 x2 u1 u2 M1 M2 ltac:(lra) ltac:(lra) S1) as R1.
    pose proof (Dif x2 x3 u2 u3 M2 M3 ltac:(lra) ltac:(lra) S2) as R2.
    destruct (clamp180_cases (x1 - x2)) as [[C ->]|[[C ->]|[C ->]]].
    + rewrite AbsM. destruct (clamp180_cases (x2 - x3)) as [[C' ->]|[[C' ->]|[C' ->]]].
      * exfalso. destruct R1, R2; lra.
      * reflexivity.
      * qltb 0 (x2 - x3); [reflexivity|exfalso; destruct R2; lra].
    + exfalso. destruct R1; lra.
    + destruct R1 as [R1|R1]; [|exfalso; lra]. rewrite Abs180' by lra. qltb 0 (x1 - x2); [reflexivity|lra].
Qed.

Lemma at_in u i : (i < length u)%nat -> In (at_ u i) u.
Proof. intro. apply nth_In. assumption. Qed.
Lemma in_at u x : In x u -> exists i, (i < length u)%nat /\ at_ u i = x.
Proof. intro H. destruct (In_nth u x 0 H) as (i & L & E). exists i. split; assumption. Qed.

Lemma eastward_le u : eastward u -> forall j i, (i <= j)%nat -> (j < length u)%nat -> at_ u i <= at_ u j.
Proof.
  intros M j. induction j as [|j IH]; intros i L B.
  - assert (i = 0)%nat by lia. subst. lra.
  - destruct (Nat.eq_dec i (S j)) as [->|N]; [lra|].
    pose proof (IH i ltac:(lia) ltac:(lia)). pose proof (M j ltac:(lia)). lra.
Qed.
Lemma westward_le u : westward u -> forall j i, (i <= j)%nat -> (j < length u)%nat -> at_ u j <= at_ u i.
Proof.
  intros M j. induction j as [|j IH]; intros i L B.
  - assert (i = 0)%nat by lia. subst. lra.
  - destruct (Nat.eq_dec i (S j)) as [->|N]; [lra|].
    pose proof (IH i ltac:(lia) ltac:(lia)). pose proof (M j ltac:(lia)). lra.
Qed.

(** Positions of the two ends of a track. *)
Definition west_ix (r : bool) (n : nat) : nat := if r then (n - 1)%nat else 0%nat.
Definition east_ix (r : bool) (n : nat) : nat := if r then 0%nat else (n - 1)%nat.

Lemma ends u (r : bool) : (0 < length u)%nat -> (if r then westward u else eastward u) ->
  forall i, (i < length u)%nat -> at_ u (west_ix r (length u)) <= at_ u i /\ at_ u i <= at_ u (east_ix r (length u)).
Proof.
  intros L M i B. destruct r; cbn [west_ix east_ix]; split.
  - apply westward_le; [assumption|lia|lia].
  - apply westward_le; [assumption|lia|lia].
  - apply eastward_le; [assumption|lia|lia].
  - apply eastward_le; [assumption|lia|lia].
Qed.

Definition lons (l : line) : list Q := map fst l.
Lemma lons_length l : length (lons l) = length l.
Proof. apply map_length. Qed.
Lemma lon_at_lons l i : lon_at l i = at_ (lons l) i.
Proof. unfold lon_at, lon_of, at_, lons. change 0%Q with (fst (0, 0)%Q). rewrite map_nth. reflexivity. Qed.
Lemma front_lons l : front_lon l = at_ (lons l) 0.
Proof. unfold front_lon. rewrite <- lon_at_lons. unfold lon_at. destruct l; reflexivity. Qed.
Lemma last_nth {A} (l : list A) d : last l d = nth (length l - 1) l d.
Proof.
  induction l as [|a l IH]; [reflexivity|]. destruct l as [|b l]; [reflexivity|].
  change (last (a :: b :: l) d) with (last (b :: l) d). rewrite IH. cbn [length].
  replace (S (S (length l)) - 1)%nat with (S (S (length l) - 1)) by lia. reflexivity.
Qed.
Lemma back_lons l : back_lon l = at_ (lons l) (length (lons l) - 1).
Proof. unfold back_lon. rewrite last_nth, <- lon_at_lons, lons_length. reflexivity. Qed.

Lemma lons_up c l : lons (map (shift_up c) l) = map (upl c) (lons l).
Proof. unfold lons. rewrite !map_map. apply map_ext. intros [x y]. unfold shift_up, upl. cbn [fst]. destruct (Qltb x c); reflexivity. Qed.
Lemma lons_down c l : lons (map (shift_down c) l) = map (downl c) (lons l).
Proof. unfold lons. rewrite !map_map. apply map_ext. intros [x y]. unfold shift_down, downl. cbn [fst]. destruct (Qltb c x); reflexivity. Qed.
Lemma lats_up c l : map snd (map (shift_up c) l) = map snd l.
Proof. rewrite !map_map. apply map_ext. intros [x y]. unfold shift_up. cbn [fst]. destruct (Qltb x c); reflexivity. Qed.
Lemma lats_down c l : map snd (map (shift_down c) l) = map snd l.
Proof. rewrite !map_map. apply map_ext. intros [x y]. unfold shift_down. cbn [fst]. destruct (Qltb c x); reflexivity. Qed.
Lemma at_map f u i : (i < length u)%nat -> at_ (map f u) i = f (at_ u i).
Proof. intro L. unfold at_. rewrite nth_indep with (d' := f 0) by (rewrite map_length; exact L). apply map_nth. Qed.

Lemma Qmin_cpp_spec a b : Qmin_cpp a b = a \/ Qmin_cpp a b = b.
Proof. unfold Qmin_cpp. destruct (Qltb b a); auto. Qed.
Lemma Qmax_cpp_spec a b : a <= Qmax_cpp a b /\ b <= Qmax_cpp a b /\ (Qmax_cpp a b = a \/ Qmax_cpp a b = b).
Proof. unfold Qmax_cpp. qltb a b; repeat split; auto; lra. Qed.

Lemma first_crossing_spec r1 r2 l1 l2 :
  first_crossing r1 r2 l1 l2 = at_ (lons l1) (west_ix r1 (length (lons l1))) \/
  first_crossing r1 r2 l1 l2 = at_ (lons l2) (west_ix r2 (length (lons l2))).
Proof.
  unfold first_crossing, west_ix.
  destruct r1, r2; rewrite <- ?back_lons, <- ?front_lons.
  - apply Qmin_cpp_spec.
  - apply Qmin_cpp_spec.
  - apply Qmin_cpp_spec.
  - left. destruct (Qmin_cpp_spec (front_lon l1) (front_lon l1)); assumption.
Qed.
Lemma second_crossing_spec r1 r2 l1 l2 :
  second_crossing r1 r2 l1 l2 =
  Qmax_cpp (at_ (lons l1) (east_ix r1 (length (lons l1)))) (at_ (lons l2) (east_ix r2 (length (lons l2)))).
Proof.
  unfold second_crossing, east_ix. destruct r1, r2; rewrite <- ?back_lons, <- ?front_lons; reflexivity.
Qed.

Lemma retro_track l u : (3 <= length l)%nat -> unrolled (lons l) u -> within_turn (lons l) ->
  exists r : bool, is_retrograde (lon_at l 0) (lon_at l 1) (lon_at l 2) = r /\ (if r then westward u else eastward u).
Proof.
  intros L (Len & M & Dir) W. rewrite lons_length in Len. rewrite !lon_at_lons.
  destruct (retro_of (at_ (lons l) 0) (at_ (lons l) 1) (at_ (lons l) 2) (at_ u 0) (at_ u 1) (at_ u 2)) as [Fw Bw];
    try (apply M; lia).
  { assert (forall i, (i < 3)%nat -> In (at_ (lons l) i) (lons l)) by (intros; apply at_in; rewrite lons_length; lia).
    intros a b Ha Hb. apply W; cbn in Ha, Hb;
      [destruct Ha as [<-|[<-|[<-|[]]]]|destruct Hb as [<-|[<-|[<-|[]]]]]; apply H; lia. }
  destruct Dir as [E|E].
  - exists false. split; [|exact E]. apply Fw. split; apply E; lia.
  - exists true. split; [|exact E]. apply Bw. split; apply E; lia.
Qed.

(** The normalised tracks are the unrolled ones, each moved by a whole number of turns. *)
Lemma normalize_unrolled l1 l2 n1 n2 u1 u2 :
  normalize_line_strings l1 l2 = Ok (n1, n2) ->
  unrolled (lons l1) u1 -> unrolled (lons l2) u2 -> within_turn (lons l1 ++ lons l2) -> within_turn (u1 ++ u2) ->
  exists k1 k2 : Z,
    length n1 = length l1 /\ length n2 = length l2 /\ map snd n1 = map snd l1 /\ map snd n2 = map snd l2 /\
    (forall i, (i < length u1)%nat -> at_ (lons n1) i == at_ u1 i + inject_Z k1 * 360) /\
    (forall i, (i < length u2)%nat -> at_ (lons n2) i == at_ u2 i + inject_Z k2 * 360) /\
    (k1 = k2 \/ (k2 = (k1 + 1)%Z /\ forall a b, In a u1 -> In b u2 -> b < a) \/
                (k1 = (k2 + 1)%Z /\ forall a b, In a u1 -> In b u2 -> a < b)).
Proof.
  intros N H1 H2 W U. unfold normalize_line_strings in N.
  destruct (((length l1 <? 3) || (length l2 <? 3))%nat) eqn:E3; [discriminate|].
  apply orb_false_iff in E3. destruct E3 as [T1 T2]. apply Nat.ltb_ge in T1, T2.
  assert (W1 : within_turn (lons l1)) by (intros x y A B; apply W; apply in_or_app; auto).
  assert (W2 : within_turn (lons l2)) by (intros x y A B; apply W; apply in_or_app; auto).
  destruct (retro_track l1 u1 T1 H1 W1) as (r1 & R1 & D1).
  destruct (retro_track l2 u2 T2 H2 W2) as (r2 & R2 & D2).
  cbv zeta in N. rewrite R1, R2 in N. clear R1 R2.
  set (c1 := first_crossing r1 r2 l1 l2) in *.
  set (m1 := map (shift_up c1) l1) in *. set (m2 := map (shift_up c1) l2) in *.
  set (c2 := second_crossing r1 r2 m1 m2) in *. injection N as <- <-.
  destruct H1 as (Len1 & M1 & _). destruct H2 as (Len2 & M2 & _).
  assert (P1 : (0 < length u1)%nat) by (rewrite <- Len1, lons_length; lia).
  assert (P2 : (0 < length u2)%nat) by (rewrite <- Len2, lons_length; lia).
  pose proof (ends u1 r1 P1 D1) as En1. pose proof (ends u2 r2 P2 D2) as En2.
  assert (Iw : forall r n, (0 < n)%nat -> (west_ix r n < n)%nat) by (intros [] ? ?; cbn; lia).
  assert (Ie : forall r n, (0 < n)%nat -> (east_ix r n < n)%nat) by (intros [] ? ?; cbn; lia).
  set (w1 := at_ u1 (west_ix r1 (length u1))) in *. set (e1 := at_ u1 (east_ix r1 (length u1))) in *.
  set (w2 := at_ u2 (west_ix r2 (length u2))) in *. set (e2 := at_ u2 (east_ix r2 (length u2))) in *.
  assert (Iw1 : In w1 u1) by (apply at_in; auto). assert (Ie1 : In e1 u1) by (apply at_in; auto).
  assert (Iw2 : In w2 u2) by (apply at_in; auto). assert (Ie2 : In e2 u2) by (apply at_in; auto).
  assert (S1 : e1 - w1 < 360) by (apply U; apply in_or_app; auto).
  assert (S2 : e2 - w2 < 360) by (apply U; apply in_or_app; auto).
  assert (S3 : e1 - w2 < 360) by (apply U; apply in_or_app; auto).
  assert (S4 : e2 - w1 < 360) by (apply U; apply in_or_app; auto).
  assert (Q1 : w1 <= e1) by (apply (En1 _ (Ie r1 _ P1))). assert (Q2 : w2 <= e2) by (apply (En2 _ (Ie r2 _ P2))).
  set (E1 := at_ (lons l1) (east_ix r1 (length u1))). set (E2 := at_ (lons l2) (east_ix r2 (length u2))).
  assert (ME1 : same_lon E1 e1) by (apply M1; auto). assert (ME2 : same_lon E2 e2) by (apply M2; auto).
  assert (X2 : c2 = Qmax_cpp (upl c1 E1) (upl c1 E2)).
  { unfold c2. rewrite second_crossing_spec. unfold m1, m2. rewrite !lons_up, !map_length, Len1, Len2.
    rewrite !at_map by (rewrite ?Len1, ?Len2; auto). reflexivity. }
  destruct (Qmax_cpp_spec (upl c1 E1) (upl c1 E2)) as (G1 & G2 & G3). rewrite <- X2 in G1, G2, G3.
  pose proof (first_crossing_spec r1 r2 l1 l2) as X1. fold c1 in X1. rewrite Len1, Len2 in X1.
  assert (Ic1 : In c1 (lons l1 ++ lons l2)).
  { apply in_or_app. destruct X1 as [-> | ->]; [left|right]; apply at_in; rewrite ?Len1, ?Len2; auto. }
  assert (B1 : forall i, (i < length u1)%nat -> at_ (lons l1) i - c1 < 360 /\ c1 - at_ (lons l1) i < 360).
  { intros i L. assert (In (at_ (lons l1) i) (lons l1 ++ lons l2)) by (apply in_or_app; left; apply at_in; lia).
    split; apply W; assumption. }
  assert (B2 : forall i, (i < length u2)%nat -> at_ (lons l2) i - c1 < 360 /\ c1 - at_ (lons l2) i < 360).
  { intros i L. assert (In (at_ (lons l2) i) (lons l1 ++ lons l2)) by (apply in_or_app; right; apply at_in; lia).
    split; apply W; assumption. }
  assert (R : exists k1 k2 : Z,
    (forall x u, same_lon x u -> w1 <= u -> u <= e1 -> x - c1 < 360 -> c1 - x < 360 -> downl c2 (upl c1 x) == u + inject_Z k1 * 360) /\
    (forall x u, same_lon x u -> w2 <= u -> u <= e2 -> x - c1 < 360 -> c1 - x < 360 -> downl c2 (upl c1 x) == u + inject_Z k2 * 360) /\
    (k1 = k2 \/ (k2 = (k1 + 1)%Z /\ e2 < w1) \/ (k1 = (k2 + 1)%Z /\ e1 < w2))).
  { pose proof (B1 _ (Ie r1 _ P1)) as BE1. pose proof (B2 _ (Ie r2 _ P2)) as BE2. fold E1 in BE1. fold E2 in BE2.
    destruct X1 as [X1|X1].
    - destruct (M1 _ (Iw r1 _ P1)) as [K HK]. rewrite <- X1 in HK. fold w1 in HK.
      destruct (two_shifts w1 e1 w2 e2 E1 E2 c1 c2 K) as (k2 & A & B & C); try assumption; try tauto.
      { destruct G3 as [-> | ->]; [left|right]; reflexivity. }
      exists K, k2. split; [exact A|]. split; [exact B|]. destruct C as [->|C]; auto.
    - destruct (M2 _ (Iw r2 _ P2)) as [K HK]. rewrite <- X1 in HK. fold w2 in HK.
      destruct (two_shifts w2 e2 w1 e1 E2 E1 c1 c2 K) as (k1 & A & B & C); try assumption; try tauto.
      { destruct G3 as [-> | ->]; [right|left]; reflexivity. }
      exists k1, K. split; [exact B|]. split; [exact A|]. destruct C as [->|C]; auto. }
  destruct R as (k1 & k2 & A & B & C). exists k1, k2.
  split; [unfold m1; rewrite !map_length; reflexivity|]. split; [unfold m2; rewrite !map_length; reflexivity|].
  split; [unfold m1; rewrite lats_down, lats_up; reflexivity|].
  split; [unfold m2; rewrite lats_down, lats_up; reflexivity|].
  split; [|split].
  - intros i L. unfold m1. rewrite lons_down, lons_up. rewrite !at_map by (rewrite ?map_length; lia).
    destruct (En1 i L), (B1 i L). apply A; auto.
  - intros i L. unfold m2. rewrite lons_down, lons_up. rewrite !at_map by (rewrite ?map_length; lia).
    destruct (En2 i L), (B2 i L). apply B; auto.
  - assert (Bd1 : forall a, In a u1 -> w1 <= a <= e1) by (intros a Ha; apply in_at in Ha; destruct Ha as (i & L & <-); apply En1; exact L).
    assert (Bd2 : forall a, In a u2 -> w2 <= a <= e2) by (intros a Ha; apply in_at in Ha; destruct Ha as (i & L & <-); apply En2; exact L).
    destruct C as [C|[[C D]|[C D]]]; [left; exact C|right; left|right; right]; (split; [exact C|]);
      intros a b Ha Hb; pose proof (Bd1 a Ha); pose proof (Bd2 b Hb); lra.
Qed.
