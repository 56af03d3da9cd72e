(** Binning: conservation of the weights, merging, one-dimensional binning. *)
From Verif Require Import Base BaseProofs MathModel AxisModel AxisSpec AxisProofs AxisProofs2 AxisProofs5 StatsModel StatsSpec StatsProofs StatsProofs2 BinningModel BinningSpec BinningProofs BinningProofs2.
Open Scope Z_scope.

(** ** Sums of weights *)
Lemma sow_push : forall a v q, is (a_sow a) q -> is (a_sow (acc_push a (N v))) (q + 1).
Proof.
  intros a v q H. unfold acc_push. rewrite (is_eq0 _ _ H). destruct (Qeq_bool q 0) eqn:E.
  - apply Qeq_bool_iff in E. cbn. apply is_N. rewrite E. reflexivity.
  - cbn [a_sow]. is_tac.
Qed.
Lemma sow_push_weighted : forall a v w q, is (a_sow a) q -> is (a_sow (acc_push_weighted a (N v) (N w))) (q + w).
Proof.
  intros a v w q H. unfold acc_push_weighted. rewrite (is_eq0 _ _ H). destruct (Qeq_bool q 0) eqn:E.
  - apply Qeq_bool_iff in E. cbn. apply is_N. rewrite E. ring.
  - cbn [a_sow acc_merge acc_single]. is_tac.
Qed.
Lemma count_push : forall a v, is (a_sow a) (inject_Z (a_count a)) -> is (a_sow (acc_push a (N v))) (inject_Z (a_count (acc_push a (N v)))) /\ a_count (acc_push a (N v)) = a_count a + 1.
Proof.
  intros a v H. assert (C : a_count (acc_push a (N v)) = a_count a + 1).
  { unfold acc_push. rewrite (is_eq0 _ _ H). destruct (Qeq_bool (inject_Z (a_count a)) 0) eqn:E; [|reflexivity].
    apply Qeq_bool_iff in E. cbn. change 0%Q with (inject_Z 0) in E. apply (proj1 (inject_Z_injective _ _)) in E. lia. }
  split; [|exact C]. rewrite C, inject_Z_plus. apply sow_push. exact H.
Qed.

(** Simple binning: one more in exactly one bin. *)
Definition well_counted (b : binning) : Prop := forall i j, is (a_sow (b_acc b i j)) (inject_Z (a_count (b_acc b i j))).
Definition counts (b : binning) : Q := grid_sum (b_rows b) (b_cols b) (fun i j => inject_Z (a_count (b_acc b i j))).
Lemma nearest1_counts : forall b s b', axis_ok (b_x b) -> axis_ok (b_y b) -> well_counted b -> push_nearest1 b s = Ok b' ->
  well_counted b' /\ (counts b' == counts b + match snd s with Some _ => 1 | None => 0 end)%Q.
Proof.
  intros b [[x y] z] b' OX OY WC E. unfold push_nearest1 in E. destruct z as [v|]; [|injection E as <-; split; [exact WC|cbn [snd]; ring]].
  destruct (find_bounded _ x OX) as (ix & EX & RX & BX). destruct (find_bounded _ y OY) as (iy & EY & RY & BY). rewrite EX in E. cbn [obind] in E. rewrite EY in E. cbn [obind] in E.
  destruct (Z.eqb_spec ix (-1)); [lia|]. destruct (Z.eqb_spec iy (-1)); [lia|]. cbn [negb andb] in E.
  rewrite cell_update_ok in E by (unfold b_rows, b_cols, len in *; assumption). cbn [obind] in E. injection E as <-. cbn [snd]. split.
  - intros i j. cbn [with_acc b_acc]. unfold upd. destruct ((i =? ix) && (j =? iy)); [apply count_push; apply WC|apply WC].
  - unfold counts. cbn [with_acc b_acc]. set (m := upd (b_acc b) ix iy (acc_push (b_acc b ix iy) (N v))).
    change (b_rows (with_acc b m)) with (b_rows b). change (b_cols (with_acc b m)) with (b_cols b).
    pose proof (grid_sum_single (b_rows b) (b_cols b) ix iy 1%Q RX RY) as S1.
    apply Qeq_trans with (grid_sum (b_rows b) (b_cols b) (fun i j => inject_Z (a_count (b_acc b i j)) + (if (i =? ix) && (j =? iy) then 1 else 0)))%Q; [|rewrite grid_sum_add, S1; reflexivity].
    apply grid_sum_ext. intros i j _ _. unfold m, upd.
    destruct (Z.eqb_spec i ix) as [->|]; [destruct (Z.eqb_spec j iy) as [->|]|]; cbn [andb]; [|ring|ring].
    destruct (count_push (b_acc b ix iy) v (WC _ _)) as [_ ->]. rewrite inject_Z_plus. reflexivity.
Qed.
Lemma nearest_counts : forall l b b', axis_ok (b_x b) -> axis_ok (b_y b) -> well_counted b -> push_loop push_nearest1 b l = Ok b' ->
  well_counted b' /\ exists sel, selects has_value l sel /\ (counts b' == counts b + inject_Z (zlen sel))%Q.
Proof.
  induction l as [|s l IH]; intros b b' OX OY WC E; cbn [push_loop] in E.
  - injection E as <-. split; [exact WC|]. exists []. split; [constructor|]. unfold zlen. cbn [length]. change (inject_Z (Z.of_nat 0)) with 0%Q. ring.
  - destruct (push_nearest1_ok b s OX OY) as (b1 & E1 & (GX & GY & GW) & _). rewrite E1 in E. cbn [obind] in E.
    destruct (nearest1_counts b s b1 OX OY WC E1) as [W1 C1]. destruct (IH b1 b') as (W2 & sel & S & C2); [rewrite GX; exact OX|rewrite GY; exact OY|exact W1|exact E|].
    split; [exact W2|]. destruct s as [[x y] z]. cbn [snd] in C1. destruct z as [v|].
    + exists ((x, y, Some v) :: sel). split; [constructor; [discriminate|exact S]|]. rewrite C2, C1. unfold zlen. cbn [length]. rewrite Nat2Z.inj_succ. unfold Z.succ. rewrite inject_Z_plus. ring.
    + exists sel. split; [constructor 3; [intro H; apply H; reflexivity|exact S]|]. rewrite C2, C1. ring.
Qed.

(** Linear binning: every sample inside the grid has a total weight of one. *)
Notation no_loss := no_share_dropped.
Definition sows (b : binning) (f : Z -> Z -> Q) : Prop := forall i j, is (a_sow (b_acc b i j)) (f i j).
Lemma sow_contribution : forall v q a f, is (a_sow a) f ->
  is (a_sow (fold_left push_opt (contribution v q) a)) (f + if Qltb (Qabs q) epsilon then 0 else q).
Proof.
  intros v q a f H. unfold contribution. destruct (Qltb (Qabs q) epsilon); cbn [fold_left].
  - eapply is_eq; [exact H|ring].
  - unfold push_opt. cbn [fst snd]. apply sow_push_weighted. exact H.
Qed.
Lemma kept_exact : forall D W q, kept D W q -> ((W == 0)%Q \/ ((1 # 4503599627370496 <= W)%Q /\ (1 # 1000000000000 <= W * D)%Q)) -> (0 < D)%Q ->
  ((if Qltb (Qabs q) epsilon then 0 else q) == W)%Q.
Proof.
  intros D W q K H PD. unfold kept in K. destruct H as [H|[H1 H2]].
  - destruct (Qltb_spec (W * D) tiny) as [T|T]; [|exfalso; apply T; rewrite H; setoid_replace (0 * D)%Q with 0%Q by ring; reflexivity].
    destruct (Qltb_spec (Qabs q) epsilon); [rewrite H; reflexivity|rewrite K, H; reflexivity].
  - destruct (Qltb_spec (W * D) tiny) as [T|T]; [exfalso; unfold tiny in T; lra|]. destruct (Qltb_spec (Qabs q) epsilon) as [E|E]; [|exact K].
    exfalso. rewrite K, Qabs_pos in E by lra. unfold epsilon in E. lra.
Qed.
Lemma linear1_sows : forall b s b' f, axis_ok (b_x b) -> axis_ok (b_y b) -> 1 < len (b_x b) -> 1 < len (b_y b) -> is_angle (b_x b) = false -> is_angle (b_y b) = false ->
  sows b f -> no_loss (b_x b) (b_y b) s -> push_linear1 cartesian_area b s = Ok b' ->
  exists f', sows b' f' /\
   (((has_value s /\ inside (b_x b) (fst (fst s)) /\ inside (b_y b) (snd (fst s))) /\ (grid_sum (b_rows b) (b_cols b) f' == grid_sum (b_rows b) (b_cols b) f + 1)%Q) \/
    (~ (has_value s /\ inside (b_x b) (fst (fst s)) /\ inside (b_y b) (snd (fst s))) /\ (grid_sum (b_rows b) (b_cols b) f' == grid_sum (b_rows b) (b_cols b) f)%Q)).
Proof.
  intros b [[x y] z] b' f OX OY LX LY AX AY HS NL E. cbn [fst snd] in *. destruct z as [v|].
  2:{ injection E as <-. exists f. split; [exact HS|]. right. split; [intros [H _]; apply H; reflexivity|reflexivity]. }
  destruct (plain_find _ x OX LX AX) as [(i0 & i1 & x0 & x1 & FX & EX)|[FX NX]], (plain_find _ y OY LY AY) as [(j0 & j1 & y0 & y1 & FY & EY)|[FY NY]].
  2-4: unfold push_linear1 in E; rewrite FX in E; cbn [obind] in E; rewrite FY in E; injection E as <-; exists f; split; [exact HS|]; right; split; [tauto|reflexivity].
  destruct (push_linear_found b x y v i0 i1 x0 x1 j0 j1 y0 y1 OX OY AX FX FY EX EY) as (q00 & q01 & q11 & q10 & b2 & E2 & G & K00 & K01 & K11 & K10 & C).
  rewrite E2 in E. injection E as ->.
  pose proof (ends_neq _ _ _ _ _ _ (proj1 OX) EX) as NX. pose proof (ends_neq _ _ _ _ _ _ (proj1 OY) EY) as NY.
  pose proof EX as (X0 & X1 & XC & XB). pose proof EY as (Y0 & Y1 & YC & YB).
  assert (SX0 : share (b_x b) x i0 ((x1 - x) / (x1 - x0)) (Qabs (x1 - x0))) by (exists i0, i1, x0, x1; repeat (split; [first [assumption|reflexivity]|]); rewrite Z.eqb_refl; reflexivity).
  assert (SX1 : share (b_x b) x i1 ((x - x0) / (x1 - x0)) (Qabs (x1 - x0))) by (exists i0, i1, x0, x1; repeat (split; [first [assumption|reflexivity]|]); destruct (Z.eqb_spec i1 i0); [lia|]; rewrite Z.eqb_refl; reflexivity).
  assert (SY0 : share (b_y b) y j0 ((y1 - y) / (y1 - y0)) (Qabs (y1 - y0))) by (exists j0, j1, y0, y1; repeat (split; [first [assumption|reflexivity]|]); rewrite Z.eqb_refl; reflexivity).
  assert (SY1 : share (b_y b) y j1 ((y - y0) / (y1 - y0)) (Qabs (y1 - y0))) by (exists j0, j1, y0, y1; repeat (split; [first [assumption|reflexivity]|]); destruct (Z.eqb_spec j1 j0); [lia|]; rewrite Z.eqb_refl; reflexivity).
  set (u0 := ((x1 - x) / (x1 - x0))%Q) in *. set (u1 := ((x - x0) / (x1 - x0))%Q) in *. set (v0 := ((y1 - y) / (y1 - y0))%Q) in *. set (v1 := ((y - y0) / (y1 - y0))%Q) in *.
  assert (U : (u0 + u1 == 1)%Q) by (unfold u0, u1; field; lra). assert (V : (v0 + v1 == 1)%Q) by (unfold v0, v1; field; lra).
  set (dx := Qabs (x1 - x0)) in *. set (dy := Qabs (y1 - y0)) in *.
  assert (PX : (0 < dx)%Q) by (unfold dx; apply Qabs_case; intro; lra). assert (PY : (0 < dy)%Q) by (unfold dy; apply Qabs_case; intro; lra). assert (PD : (0 < dx * dy)%Q) by nra.
  pose proof (kept_exact _ _ _ K00 (NL _ _ _ _ _ _ SX0 SY0) PD) as Q00. pose proof (kept_exact _ _ _ K01 (NL _ _ _ _ _ _ SX0 SY1) PD) as Q01.
  pose proof (kept_exact _ _ _ K11 (NL _ _ _ _ _ _ SX1 SY1) PD) as Q11. pose proof (kept_exact _ _ _ K10 (NL _ _ _ _ _ _ SX1 SY0) PD) as Q10.
  set (p00 := (if Qltb (Qabs q00) epsilon then 0 else q00)%Q) in *. set (p01 := (if Qltb (Qabs q01) epsilon then 0 else q01)%Q) in *.
  set (p11 := (if Qltb (Qabs q11) epsilon then 0 else q11)%Q) in *. set (p10 := (if Qltb (Qabs q10) epsilon then 0 else q10)%Q) in *.
  pose proof (at_index_range _ _ _ X0). pose proof (at_index_range _ _ _ X1). pose proof (at_index_range _ _ _ Y0). pose proof (at_index_range _ _ _ Y1).
  set (at_ := fun (a c : Z) (w : Q) (i j : Z) => if (i =? a) && (j =? c) then w else 0%Q).
  exists (fun i j => f i j + ((at_ i0 j0 p00 i j + at_ i0 j1 p01 i j) + (at_ i1 j1 p11 i j + at_ i1 j0 p10 i j)))%Q. split.
  - intros i j. rewrite C. unfold four, at_.
    destruct (Z.eqb_spec i i0), (Z.eqb_spec i i1), (Z.eqb_spec j j0), (Z.eqb_spec j j1); try (exfalso; lia); cbn [andb];
      (eapply is_eq; [first [apply sow_contribution; apply HS|cbn [fold_left]; apply HS]|]); unfold p00, p01, p11, p10; ring.
  - left. split; [split; [discriminate|]; split; [eapply ends_inside; exact EX|eapply ends_inside; exact EY]|].
    rewrite !grid_sum_add. unfold at_. unfold b_rows, b_cols. fold (len (b_x b)) (len (b_y b)). rewrite !grid_sum_single by assumption. rewrite Q00, Q01, Q11, Q10.
    assert (P : (u0 * v0 + u0 * v1 + (u1 * v1 + u1 * v0) == (u0 + u1) * (v0 + v1))%Q) by ring. rewrite P, U, V. ring.
Qed.
Lemma linear_sows : forall l b b' f, axis_ok (b_x b) -> axis_ok (b_y b) -> 1 < len (b_x b) -> 1 < len (b_y b) -> is_angle (b_x b) = false -> is_angle (b_y b) = false ->
  sows b f -> (forall s, In s l -> no_loss (b_x b) (b_y b) s) -> push_loop (push_linear1 cartesian_area) b l = Ok b' ->
  exists f' sel, sows b' f' /\ selects (fun s => has_value s /\ inside (b_x b) (fst (fst s)) /\ inside (b_y b) (snd (fst s))) l sel /\
    (grid_sum (b_rows b) (b_cols b) f' == grid_sum (b_rows b) (b_cols b) f + inject_Z (zlen sel))%Q.
Proof.
  induction l as [|s l IH]; intros b b' f OX OY LX LY AX AY HS NL E; cbn [push_loop] in E.
  - injection E as <-. exists f, []. split; [exact HS|]. split; [constructor|]. unfold zlen. cbn [length]. change (inject_Z (Z.of_nat 0)) with 0%Q. ring.
  - destruct (push_linear1_ok b s OX OY LX LY AX AY) as (b1 & E1 & G1 & _). rewrite E1 in E. cbn [obind] in E. pose proof G1 as (GX & GY & GW). destruct (same_grid_size _ _ G1) as [RS CS].
    destruct (linear1_sows b s b1 f OX OY LX LY AX AY HS (NL s (or_introl eq_refl)) E1) as (f1 & H1 & D1).
    destruct (IH b1 b' f1) as (f2 & sel & H2 & S & D2); try (rewrite ?GX, ?GY; assumption); [intros t T; rewrite GX, GY; apply NL; right; exact T|].
    rewrite GX, GY in S. rewrite RS, CS in D2. destruct D1 as [[P D1]|[P D1]].
    + exists f2, (s :: sel). split; [exact H2|]. split; [constructor; assumption|]. rewrite D2, D1. unfold zlen. cbn [length]. rewrite Nat2Z.inj_succ. unfold Z.succ. rewrite inject_Z_plus. ring.
    + exists f2, sel. split; [exact H2|]. split; [constructor 3; assumption|]. rewrite D2, D1. reflexivity.
Qed.

(** ** Several pushes *)
Lemma push_loop_app : forall step l m b, push_loop step b (l ++ m) = olet b' := push_loop step b l in push_loop step b' m.
Proof.
  induction l as [|s l IH]; intros m b; cbn [app push_loop]; [reflexivity|]. destruct (step b s) as [b'|w|w]; cbn [obind]; [apply IH|reflexivity|reflexivity].
Qed.
Lemma combine_app : forall (A B : Type) (l1 l2 : list A) (m1 m2 : list B), length l1 = length m1 -> combine (l1 ++ l2) (m1 ++ m2) = combine l1 m1 ++ combine l2 m2.
Proof. induction l1 as [|a l1 IH]; intros l2 [|b m1] m2 H; cbn in *; try discriminate; [reflexivity|]. rewrite IH by lia. reflexivity. Qed.
