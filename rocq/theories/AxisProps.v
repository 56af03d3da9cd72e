(** Theorems about coordinate axes (properties C01 to C11). *)
From Verif Require Import Base BaseProofs MathModel MathModelFloat MathProofs AxisModel AxisSpec AxisProofs AxisProofs2
  AxisProofs3 AxisProofs4 AxisProofs5 AxisProofs6 IntAxisModel IntAxisProofs.
From Coq Require Import Floats.SpecFloat.
Open Scope Z_scope.

(** * C01 integer remainder *)
(** The remainder is congruent to the dividend, has the sign of the divisor and is
    smaller than it; this determines it. *)
Theorem C01_integer_remainder : forall x y, y <> 0 ->
  (exists k, x = k * y + rem_int x y) /\
  ((0 < y /\ 0 <= rem_int x y < y) \/ (y < 0 /\ y < rem_int x y <= 0)) /\
  (forall r, (exists k, x = k * y + r) -> ((0 < y /\ 0 <= r < y) \/ (y < 0 /\ y < r <= 0)) ->
     r = rem_int x y).
Proof.
  intros x y Hy. rewrite (rem_int_mod x y Hy). split; [|split].
  - exists (x / y). rewrite (Z.mul_comm (x / y)). apply Z.div_mod. auto.
  - destruct (Z.lt_ge_cases 0 y).
    + left. split; auto. apply Z.mod_pos_bound; auto.
    + right. assert (y < 0) by lia. split; auto. apply Z.mod_neg_bound; auto.
  - intros r [k ->] H. symmetry. rewrite Z.add_comm, Z.mod_add by auto.
    destruct H as [[H1 H2]|[H1 H2]]; [apply Z.mod_small; lia|].
    rewrite <- (Z.opp_involutive r), <- (Z.opp_involutive y), Z.mod_opp_opp by lia.
    rewrite Z.mod_small by lia. ring.
Qed.
Print Assumptions C01_integer_remainder.
Example C01_ex : rem_int (-3) 360 = 357 /\ rem_int 7 (-5) = -3. Proof. split; reflexivity. Qed.

(** * C02 angle normalisation *)
Theorem C02_normalize_angle : forall x mn c, (0 < c)%Q ->
  let y := normalize_angle x mn c in
  (mn <= y)%Q /\ (y < mn + c)%Q /\
  (exists k : Z, (y == x + inject_Z k * c)%Q) /\
  (forall z, (mn <= z)%Q -> (z < mn + c)%Q -> (exists k : Z, (z == x + inject_Z k * c)%Q) -> (z == y)%Q) /\
  (normalize_angle y mn c == y)%Q.
Proof.
  intros x mn c Hc y. destruct (normalize_angle_spec x mn c Hc) as (A & B & k & K). fold y in A, B, K.
  repeat split; auto.
  - exists k; auto.
  - intros z Z1 Z2 [m Hm]. apply (turn_unique z y mn c (m - k) Hc); [split|split|]; auto.
    unfold Z.sub. rewrite inject_Z_plus, inject_Z_opp. lra.
  - apply normalize_angle_in_place; auto.
Qed.
Print Assumptions C02_normalize_angle.
Example C02_ex : (normalize_angle (-190) (-180) 360 == 170)%Q. Proof. vm_compute. reflexivity. Qed.

(** In binary64 the advertised half-open range [min, circle + min[ is violated:
    a tiny negative angle is returned as 360 exactly. *)
Theorem C02_half_open_binary64_refuted :
  let x := S754_finite true 4503599627370496 (-152) (* -2^-100 *) in
  b64_normalize_angle x (b64_of_Z 0) (b64_of_Z 360) = b64_of_Z 360.
Proof. vm_compute. reflexivity. Qed.
Print Assumptions C02_half_open_binary64_refuted.

(** * C04, C05 nearest index on non-angular axes *)
(** Whatever the axis (regular or not, ascending or descending, flipped or
    restored), find_index returns the last nearest index; -1 only when the bounded
    option is off and the coordinate is outside the axis. *)
Theorem C04_C05_find_index_nearest : forall a x bounded,
  reachable a -> is_angle a = false ->
  exists r, find_nearest_index a x bounded = Ok r /\
    ((r = -1 /\ bounded = false /\ ~ inside a x) \/ nearest_last a x r).
Proof.
  intros a x b R H. apply find_nearest_plain. apply reachable_ok; auto.
  unfold is_angle in H. destruct (a_circle a); [discriminate|auto].
Qed.
Print Assumptions C04_C05_find_index_nearest.

(** Regular axis: -1 exactly from half an increment beyond an end. *)
Theorem C04_regular_outside : forall a x v0 inc,
  reachable a -> is_angle a = false -> increment a = Ok inc -> at_index a 0 v0 ->
  find_nearest_index a x false = Ok (-1) <->
  ((x - v0) / inc <= - (1#2) \/ inject_Z (len a) - (1#2) <= (x - v0) / inc)%Q.
Proof.
  intros a x v0 inc R H Hi H0. apply regular_outside; auto. apply reachable_ok; auto.
  unfold is_angle in H. destruct (a_circle a); [discriminate|auto].
Qed.
Print Assumptions C04_regular_outside.

(** Irregular axis: -1 exactly outside the range of values. *)
Theorem C05_irregular_outside : forall a x,
  reachable a -> is_angle a = false -> is_regular a = false ->
  find_nearest_index a x false = Ok (-1) <-> ~ inside a x.
Proof.
  intros a x R H Hr. apply irregular_outside; auto. apply reachable_ok; auto.
  unfold is_angle in H. destruct (a_circle a); [discriminate|auto].
Qed.
Print Assumptions C05_irregular_outside.

(** Non-vacuity: a descending regular axis and an irregular one. *)
Example C04_ex : exists a, axis_of_values [20; 10; 0; -10]%Q (1#1000000) false = Ok a /\
  reachable a /\ is_regular a = true /\ is_ascending a = false /\
  find_nearest_index a 14 false = Ok 1 /\ find_nearest_index a 26 false = Ok (-1) /\
  find_nearest_index a (-99) true = Ok 3.
Proof.
  eexists. split; [vm_compute; reflexivity|]. split; [|vm_compute; repeat split].
  eapply (reach_values [20; 10; 0; -10]%Q (1#1000000) false); [discriminate|vm_compute; reflexivity].
Qed.
Example C05_ex : exists a, axis_of_values [0; 1; 5; 25]%Q (1#1000000) false = Ok a /\
  reachable a /\ is_regular a = false /\
  find_nearest_index a 3 false = Ok 2 /\ find_nearest_index a 26 false = Ok (-1).
Proof.
  eexists. split; [vm_compute; reflexivity|]. split; [|vm_compute; repeat split].
  eapply (reach_values [0; 1; 5; 25]%Q (1#1000000) false); [discriminate|vm_compute; reflexivity].
Qed.

(** ** Circular axes: nearest on the circle for ascending axes *)
Theorem C05_nearest_on_circle_regular_partial : forall a x inc,
  reachable a -> a_is_circle a = true -> is_ascending a = true ->
  increment a = Ok inc -> (inc * inject_Z (len a) == 360)%Q ->
  exists r, find_nearest_index a x false = Ok r /\ nearest_on_circle a x r.
Proof. intros. eapply nearest_circle_regular; eauto. apply reachable_ok; auto. Qed.
Print Assumptions C05_nearest_on_circle_regular_partial.

Theorem C05_nearest_on_circle_irregular_partial : forall a x first final,
  reachable a -> a_is_circle a = true -> is_ascending a = true -> is_regular a = false ->
  at_index a 0 first -> at_index a (len a - 1) final -> (final - first <= 360)%Q ->
  exists r, find_nearest_index a x false = Ok r /\ nearest_on_circle a x r.
Proof.
  intros a x u v R Hc Ha Hr Hu Hv Hd. assert (OK := reachable_ok _ R).
  apply nearest_circle_irregular; auto.
  apply at_index_iff in Hu, Hv; try apply OK. destruct Hu as [_ ->], Hv as [_ ->].
  unfold lo, hi. unfold is_ascending in Ha. rewrite Ha. exact Hd.
Qed.
Print Assumptions C05_nearest_on_circle_irregular_partial.

Definition deg360 : list Q := map (fun k => inject_Z (Z.of_nat k)) (seq 0 360).
Definition lon_axis (l : list Q) : axis :=
  match axis_of_values l (1#1000000) true with Ok a => a | _ => mk_axis false None CUndef end.

Lemma lon_reachable l : (match axis_of_values l (1#1000000) true with Ok _ => true | _ => false end) = true ->
  reachable (lon_axis l).
Proof.
  unfold lon_axis. destruct (axis_of_values l (1#1000000) true) eqn:E; try discriminate.
  intros _. eapply reach_values; [|exact E]. discriminate.
Qed.

Example C05_circle_ex : reachable (lon_axis deg360) /\ a_is_circle (lon_axis deg360) = true /\
  is_ascending (lon_axis deg360) = true /\
  (exists inc, increment (lon_axis deg360) = Ok inc /\ (inc * inject_Z (len (lon_axis deg360)) == 360)%Q) /\
  find_nearest_index (lon_axis deg360) (3599#10) false = Ok 0.
Proof.
  split; [apply lon_reachable; vm_compute; reflexivity|]. split; [vm_compute; reflexivity|].
  split; [vm_compute; reflexivity|]. split; [|vm_compute; reflexivity].
  eexists. split; [vm_compute; reflexivity|vm_compute; reflexivity].
Qed.
Example C05_circle_irregular_ex :
  let a := lon_axis [0; 90; 200; 300]%Q in
  reachable a /\ a_is_circle a = true /\ is_ascending a = true /\ is_regular a = false /\
  find_nearest_index a 340 false = Ok 0 /\ find_nearest_index a 320 false = Ok 3.
Proof. split; [apply lon_reachable; vm_compute; reflexivity|vm_compute; repeat split]. Qed.

(** Descending circular axes: the index returned beyond the seam is not nearest
    (0 degree is at distance 0.1, the returned point at distance 0.9). *)
Theorem C05_circle_descending_refuted : exists a x r,
  reachable a /\ a_is_circle a = true /\ is_ascending a = false /\
  find_nearest_index a x false = Ok r /\ ~ nearest_on_circle a x r.
Proof.
  exists (lon_axis (rev deg360)), (3599#10)%Q, 0.
  split; [apply lon_reachable; vm_compute; reflexivity|].
  split; [vm_compute; reflexivity|]. split; [vm_compute; reflexivity|]. split; [vm_compute; reflexivity|].
  intros (v & Hv & k & H).
  assert (Ev : (v == 359)%Q) by (vm_compute in Hv; injection Hv as <-; reflexivity).
  destruct (Z.lt_ge_cases k 0) as [K|K].
  - assert (X : exists w, at_index (lon_axis (rev deg360)) 0 w /\ (w == 359)%Q)
      by (eexists; split; [vm_compute; reflexivity|reflexivity]).
    destruct X as (w & Hw & Ew). specialize (H 0 w 0 Hw).
    rewrite Ev, Ew in H. assert (T := turn_le k ltac:(lia)). change (inject_Z 0) with 0%Q in H.
    rewrite Qabs_neg in H by lra. rewrite Qabs_pos in H by lra. lra.
  - assert (X : exists w, at_index (lon_axis (rev deg360)) 359 w /\ (w == 0)%Q)
      by (eexists; split; [vm_compute; reflexivity|reflexivity]).
    destruct X as (w & Hw & Ew). specialize (H 359 w (-1) Hw).
    rewrite Ev, Ew in H. assert (T := inject_Z_le _ _ K). change (inject_Z 0) with 0%Q in T.
    change (inject_Z (-1)) with (-(1))%Q in H.
    rewrite Qabs_pos in H by lra. rewrite Qabs_neg in H by lra. lra.
Qed.
Print Assumptions C05_circle_descending_refuted.

(** With [bounded = true] (used by binning) the wrap is ignored on ascending
    circular axes too. *)
Theorem C05_circle_bounded_refuted : exists a x,
  reachable a /\ a_is_circle a = true /\ is_ascending a = true /\
  find_nearest_index a x false = Ok 0 /\ nearest_on_circle a x 0 /\
  find_nearest_index a x true = Ok 359.
Proof.
  exists (lon_axis deg360), (3599#10)%Q. destruct C05_circle_ex as (A & B & C & (inc & D & E) & F).
  repeat split; auto.
  destruct (C05_nearest_on_circle_regular_partial _ (3599#10)%Q inc A B C D E) as (r & Hr & H).
  rewrite F in Hr. injection Hr as <-. auto.
Qed.
Print Assumptions C05_circle_bounded_refuted.

(** * C06 bracketing on non-angular axes *)
Theorem C06_find_indexes_brackets : forall a x,
  reachable a -> 1 < len a -> is_angle a = false ->
  exists r, find_indexes a x = Ok r /\
  match r with
  | Some (i0, i1) => brackets a x i0 i1 /\
      (is_ascending a = true -> i1 = i0 + 1 /\
       exists v0 v1, at_index a i0 v0 /\ at_index a i1 v1 /\ (v0 <= x /\ x <= v1)%Q)
  | None => ~ inside a x
  end.
Proof.
  intros a x R Hl H. assert (OK := reachable_ok _ R).
  assert (Hc : a_circle a = None) by (unfold is_angle in H; destruct (a_circle a); [discriminate|auto]).
  destruct (find_indexes_plain a x OK Hl Hc) as (r & E & P). exists r. split; auto.
  destruct r as [[i0 i1]|]; auto. destruct P as [P1 P2]. split; auto. intro Ha. specialize (P2 Ha).
  split; auto. destruct P1 as (u & v & Hu & Hv & [Q1|Q1] & _); auto.
  exfalso. destruct P2 as (v0 & v1 & H0 & H1 & L1 & L2).
  apply at_index_iff in H0, H1; try apply OK. destruct H0 as [H0 ->], H1 as [H1 ->].
  assert (M := wf_mono _ (proj1 OK) i1 i0 ltac:(lia) ltac:(unfold len in *; lia)).
  unfold is_ascending in Ha. rewrite Ha in M. lra.
Qed.
Print Assumptions C06_find_indexes_brackets.

(** Inside the axis a pair is always found. *)
Theorem C06_find_indexes_total_inside : forall a x,
  reachable a -> 1 < len a -> is_angle a = false -> inside a x ->
  exists i0 i1, find_indexes a x = Ok (Some (i0, i1)) /\ brackets a x i0 i1.
Proof.
  intros a x R Hl H I. destruct (C06_find_indexes_brackets a x R Hl H) as ([[i0 i1]|] & E & P); [|tauto].
  exists i0, i1. split; auto. apply P.
Qed.
Print Assumptions C06_find_indexes_total_inside.

(** Beyond an end no pair is found. *)
Theorem C06_find_indexes_none_outside : forall a x,
  reachable a -> 1 < len a -> is_angle a = false -> ~ inside a x -> find_indexes a x = Ok None.
Proof.
  intros a x R Hl H I. destruct (C06_find_indexes_brackets a x R Hl H) as ([[i0 i1]|] & E & P); auto.
  exfalso. apply I. destruct P as ((v0 & v1 & A & B & _ & [C|C]) & _);
    [exists i0, v0, i1, v1|exists i1, v1, i0, v0]; tauto.
Qed.
Print Assumptions C06_find_indexes_none_outside.

(** The documented order self[i0] <= x <= self[i1] fails on a descending axis. *)
Theorem C06_documented_order_refuted : exists a x i0 i1 v0 v1,
  reachable a /\ find_indexes a x = Ok (Some (i0, i1)) /\ at_index a i0 v0 /\ at_index a i1 v1 /\
  ~ (v0 <= x /\ x <= v1)%Q.
Proof.
  destruct C04_ex as (a & E & R & _). vm_compute in E. injection E as <-.
  eexists _, 20%Q, 0, 1, _, _. split; [exact R|]. split; [vm_compute; reflexivity|].
  split; [vm_compute; reflexivity|]. split; [vm_compute; reflexivity|].
  intros [H1 H2]. vm_compute in H2. apply H2. reflexivity.
Qed.
Print Assumptions C06_documented_order_refuted.

(** * C07 circular and angular axes *)
Theorem C07_circle_find_indexes : forall a x,
  reachable a -> 1 < len a -> a_is_circle a = true ->
  exists y i0 i1, same_angle y x /\ find_indexes a x = Ok (Some (i0, i1)) /\
     (brackets a y i0 i1 \/ seam a y i0 i1).
Proof. intros. apply find_indexes_circle; auto. apply reachable_ok; auto. Qed.
Print Assumptions C07_circle_find_indexes.

(** An angular axis that does not close the circle: a pair brackets the angle, none
    means no representative of the angle in the first turn is inside the axis. *)
Theorem C07_angle_find_indexes : forall a x,
  reachable a -> 1 < len a -> is_angle a = true -> a_is_circle a = false ->
  exists y r, same_angle y x /\ find_indexes a x = Ok r /\
  match r with
  | Some (i0, i1) => brackets a y i0 i1
  | None => forall z lowest, (forall j w, at_index a j w -> (lowest <= w)%Q) ->
      same_angle z x -> inside a z -> (z < lowest + 360)%Q -> False
  end.
Proof.
  intros a x R Hl Ha Hc. assert (OK := reachable_ok _ R).
  assert (C : a_circle a = Some 360%Q).
  { unfold is_angle in Ha. destruct OK as (_ & [C|C] & _); rewrite C in Ha; [discriminate|auto]. }
  destruct (find_indexes_angle a x OK Hl C Hc) as (y & r & S & E & P). exists y, r. split; auto. split; auto.
  destruct r as [[i0 i1]|]; auto. intros z l Hlow Sz Iz Lz. apply (P z Sz). split; auto.
  assert (X : (l <= lo (a_cont a))%Q).
  { apply (Hlow (if c_asc (a_cont a) then 0 else c_size (a_cont a) - 1)).
    apply at_index_iff; [apply OK|]. split; auto. unfold len in *. destruct (c_asc (a_cont a)); lia. }
  lra.
Qed.
Print Assumptions C07_angle_find_indexes.

Example C07_ex : find_indexes (lon_axis deg360) (-(1#2)) = Ok (Some (359, 0)) /\
  find_indexes (lon_axis deg360) (7201#10) = Ok (Some (0, 1)) /\ 1 < len (lon_axis deg360).
Proof. vm_compute. repeat split. Qed.

(** * C08 index windows *)
Theorem C08_window_indexes_valid : forall a x size b w,
  reachable a -> 1 < len a -> 1 <= size ->
  (b = kSym -> a_is_circle a = false -> size <= len a) ->
  find_indexes_window a x size b = Ok w ->
  (w = [] \/ zlen w = 2 * size) /\ forall i, In i w -> 0 <= i < len a.
Proof. intros a x size b w R. apply window_range. apply reachable_ok; auto. Qed.
Print Assumptions C08_window_indexes_valid.

(** Content of the window: the positions around the bracketing pair, each one
    redirected by the boundary rule; refused as a whole if one is refused. *)
Theorem C08_window_content : forall a x size b i0 i1,
  reachable a -> 1 < len a -> 1 <= size <= len a ->
  find_indexes a x = Ok (Some (i0, i1)) ->
  find_indexes_window a x size b =
  Ok match all_some (map (redirect (a_is_circle a) b (len a))
                         (span (i0 - (size - 1)) size ++ span i1 size)) with
     | Some w => w | None => [] end.
Proof. intros a x size b i0 i1 R. apply window_spec. apply reachable_ok; auto. Qed.
Print Assumptions C08_window_content.

(** On an ascending non-angular axis the window is the 2*size consecutive
    positions centred on the bracket. *)
Theorem C08_window_ascending : forall a x size b i0 i1,
  reachable a -> 1 < len a -> is_angle a = false -> is_ascending a = true -> 1 <= size <= len a ->
  find_indexes a x = Ok (Some (i0, i1)) ->
  find_indexes_window a x size b =
  Ok match all_some (map (redirect false b (len a)) (span (i0 - (size - 1)) (2 * size))) with
     | Some w => w | None => [] end.
Proof.
  intros a x size b i0 i1 R Hl Hang Ha Hs Hf. rewrite (C08_window_content a x size b i0 i1 R Hl Hs Hf).
  destruct (C06_find_indexes_brackets a x R Hl Hang) as (r & E & P). rewrite Hf in E. injection E as <-.
  destruct P as [_ P]. destruct (P Ha) as [-> _].
  assert (Hc : a_is_circle a = false).
  { destruct (reachable_ok a R) as (_ & _ & C). unfold is_angle in Hang.
    destruct (a_is_circle a); auto. rewrite C in Hang by auto. discriminate. }
  rewrite Hc. replace (2 * size) with (size + size) by ring.
  rewrite span_app by lia. replace (i0 - (size - 1) + size) with (i0 + 1) by ring. reflexivity.
Qed.
Print Assumptions C08_window_ascending.

Definition small_axis : axis :=
  match axis_of_values [0; 1; 2; 3]%Q (1#1000000) false with Ok a => a | _ => mk_axis false None CUndef end.
Lemma small_axis_reachable : reachable small_axis.
Proof. eapply (reach_values [0; 1; 2; 3]%Q (1#1000000) false); [discriminate|vm_compute; reflexivity]. Qed.
Example C08_ex : find_indexes_window small_axis (1#2) 3 kSym = Ok [2; 1; 0; 1; 2; 3] /\
  find_indexes_window small_axis (1#2) 3 kWrap = Ok [2; 3; 0; 1; 2; 3] /\
  find_indexes_window small_axis (1#2) 3 kExpand = Ok [0; 0; 0; 1; 2; 3] /\
  find_indexes_window small_axis (1#2) 3 kUndef = Ok [].
Proof. vm_compute. repeat split. Qed.

(** The symmetric rule produces the index -1 as soon as the half size exceeds the
    number of points. *)
Theorem C08_symmetric_window_refuted : exists a x size w,
  reachable a /\ size = len a + 1 /\ find_indexes_window a x size kSym = Ok w /\ In (-1) w.
Proof.
  exists small_axis, (5#2)%Q, 5. eexists. split; [apply small_axis_reachable|].
  split; [reflexivity|]. split; [vm_compute; reflexivity|]. simpl. tauto.
Qed.
Print Assumptions C08_symmetric_window_refuted.

(** On a descending axis the window repeats the same two indexes instead of
    moving away from the coordinate. *)
Theorem C08_descending_window_refuted : exists a x,
  reachable a /\ is_ascending a = false /\ len a = 4 /\
  find_indexes_window a x 2 kUndef = Ok [1; 2; 1; 2].
Proof.
  exists (flip small_axis), (13#10)%Q. split; [constructor; apply small_axis_reachable|].
  vm_compute. repeat split.
Qed.
Print Assumptions C08_descending_window_refuted.

(** * C09 flip *)
Theorem C09_flip_reverses : forall a, reachable a ->
  len (flip a) = len a /\ is_ascending (flip a) = negb (is_ascending a) /\
  a_is_circle (flip a) = a_is_circle a /\ is_angle (flip a) = is_angle a /\
  (forall i v, at_index a i v -> exists w, at_index (flip a) (len a - 1 - i) w /\ (w == v)%Q) /\
  (forall i v, at_index a i v -> exists w, at_index (flip (flip a)) i w /\ (w == v)%Q).
Proof.
  intros a R. assert (OK := reachable_ok _ R).
  split; [unfold len; simpl; apply flip_size|].
  split. { unfold is_ascending; simpl. destruct OK as (W & _). destruct (a_cont a); auto. destruct W. }
  split; auto. split; auto. split; [intros; apply flip_at; auto|].
  intros i v H. destruct (flip_at a i v OK H) as (w & Hw & E).
  destruct (flip_at (flip a) _ w (reachable_ok _ (reach_flip _ R)) Hw) as (u & Hu & E').
  exists u. split; [|lra].
  replace (len (flip a)) with (len a) in Hu by (unfold len; simpl; symmetry; apply flip_size).
  replace (len a - 1 - (len a - 1 - i)) with i in Hu by ring. exact Hu.
Qed.
Print Assumptions C09_flip_reverses.

(** The search stays right after any number of flips (closure of [reachable]). *)
Theorem C09_flip_find_index : forall a x bounded, reachable a -> is_angle a = false ->
  exists r, find_nearest_index (flip a) x bounded = Ok r /\
    ((r = -1 /\ bounded = false /\ ~ inside a x) \/ nearest_last (flip a) x r).
Proof.
  intros a x bounded R H.
  destruct (C04_C05_find_index_nearest (flip a) x bounded (reach_flip _ R) H) as (r & E & [(A & B & C)|P]);
    exists r; (split; [auto|]); [left|right; auto].
  split; auto. split; auto. intro I. apply C. rewrite (inside_iff a) in I by (apply reachable_ok; auto).
  assert (OK := reachable_ok _ R). assert (W := proj1 OK). assert (Hn := wf_size _ W).
  apply inside_iff; [apply reachable_ok; constructor; auto|].
  assert (V := fun i => flip_value (a_cont a) i W).
  unfold lo, hi in *. simpl a_cont. rewrite flip_size.
  replace (c_asc (c_flip (a_cont a))) with (negb (c_asc (a_cont a))) by (destruct (a_cont a); auto; destruct W).
  assert (V0 := V 0 ltac:(lia)). assert (V1 := V (c_size (a_cont a) - 1) ltac:(lia)).
  replace (c_size (a_cont a) - 1 - 0) with (c_size (a_cont a) - 1) in V0 by ring.
  replace (c_size (a_cont a) - 1 - (c_size (a_cont a) - 1)) with 0 in V1 by ring.
  destruct (c_asc (a_cont a)); cbn [negb]; lra.
Qed.
Print Assumptions C09_flip_find_index.
Example C09_ex : exists v w, at_index small_axis 1 v /\ at_index (flip small_axis) 2 w /\ (v == w)%Q /\
  is_ascending (flip small_axis) = false.
Proof. eexists. eexists. split; [vm_compute; reflexivity|]. split; [vm_compute; reflexivity|]. vm_compute. auto. Qed.

(** * C10 pickling *)
Theorem C10_pickle_roundtrip : forall a,
  reachable a -> is_regular a = false \/ 1 < len a ->
  (is_angle a = true -> a_is_circle a = true) ->
  exists b, setstate (getstate a) = Ok b /\ len b = len a /\ axis_eqb b a = true /\
    a_is_circle b = a_is_circle a /\ is_angle b = is_angle a /\ is_regular b = is_regular a /\
    (1 < len a -> is_ascending b = is_ascending a) /\
    (forall i v, at_index a i v -> exists w, at_index b i w /\ (w == v)%Q).
Proof. intros a R. apply pickle_roundtrip. apply reachable_ok; auto. Qed.
Print Assumptions C10_pickle_roundtrip.
Example C10_ex : exists b, setstate (getstate (lon_axis deg360)) = Ok b /\ axis_eqb b (lon_axis deg360) = true.
Proof. eexists. split; vm_compute; reflexivity. Qed.

(** Without the two side conditions the property fails: a one-point regular axis
    cannot be restored... *)
Theorem C10_single_point_regular_refuted : exists a,
  axis_regular 0 1 1 (1#1000000) false = Ok a /\ reachable a /\
  setstate (getstate a) = Throw "unable to create a container with a single value.".
Proof.
  eexists. split; [vm_compute; reflexivity|]. split; [|vm_compute; reflexivity].
  eapply (reach_regular 0 1 1 (1#1000000) false); [lia|vm_compute; reflexivity].
Qed.
Print Assumptions C10_single_point_regular_refuted.

(** ... and an angular axis which does not close the circle is restored as a plain
    axis: the angle 365 is found before and not after.  [flip(inplace=False)] goes
    through the same copy. *)
Theorem C10_angle_lost_refuted : exists a b c,
  reachable a /\ is_angle a = true /\ setstate (getstate a) = Ok b /\ is_angle b = false /\
  find_nearest_index a 365 false = Ok 5 /\ find_nearest_index b 365 false = Ok (-1) /\
  py_flip false a = Ok c /\ is_angle c = false /\ axis_eqb a b = true.
Proof.
  set (l := map (fun k => inject_Z (Z.of_nat k)) (seq 0 20)).
  exists (lon_axis l). eexists. eexists.
  split; [apply lon_reachable; vm_compute; reflexivity|]. split; [vm_compute; reflexivity|].
  split; [vm_compute; reflexivity|]. vm_compute. repeat split.
Qed.
Print Assumptions C10_angle_lost_refuted.

(** * C11 constructors *)
Theorem C11_regular_constructor : forall start stop num eps circ,
  1 < num ->
  (axis_regular start stop num eps circ = Throw "unable to create a container with a single value." /\
   (start == stop)%Q) \/
  (exists a inc v0 vn, axis_regular start stop num eps circ = Ok a /\ ~ (start == stop)%Q /\
    len a = num /\ is_regular a = true /\ increment a = Ok inc /\
    at_index a 0 v0 /\ (v0 == start)%Q /\ at_index a (num - 1) vn /\ (vn == stop)%Q /\
    forall i u v, at_index a i u -> at_index a (i + 1) v -> (v - u == inc)%Q).
Proof.
  intros s e n eps circ Hn. unfold axis_regular, mk_regular.
  destruct (Z.eqb_spec n 0); [lia|]. destruct (Qeqb_spec s e) as [H|H]; [left; auto|right].
  destruct (Z.eqb_spec n 1); [lia|]. cbn [obind]. unfold finish_axis. cbn [c_size c_is_monotonic negb].
  destruct (Z.eqb_spec n 0); [lia|].
  assert (NZ : (0 < inject_Z (n - 1))%Q) by (change 0%Q with (inject_Z 0); apply inject_Z_lt; lia).
  eexists _, _, _, _. split; [reflexivity|]. split; auto. split; [reflexivity|]. split; [reflexivity|].
  split; [reflexivity|].
  assert (AT : forall c i, 0 <= i < c_size c -> forall b q v, c_value c i = Some v -> at_index (mk_axis b q c) i v).
  { intros c i Hi b q v Hv. unfold at_index, coordinate_value. cbn [a_cont].
    destruct (Z.ltb_spec i 0); [lia|]. rewrite Z.geb_leb. destruct (Z.leb_spec (c_size c) i); [lia|].
    cbn [orb]. rewrite Hv. reflexivity. }
  split; [apply AT; [simpl; lia|reflexivity]|].
  split; [change (inject_Z 0) with 0%Q; ring|].
  split; [apply AT; [simpl; lia|reflexivity]|].
  split; [field; lra|].
  intros i u v Hu Hv. unfold at_index, coordinate_value in Hu, Hv. cbn [a_cont c_size c_value] in Hu, Hv.
  destruct ((i <? 0) || (i >=? n)); [discriminate|]. destruct ((i + 1 <? 0) || (i + 1 >=? n)); [discriminate|].
  injection Hu as <-. injection Hv as <-. rewrite inject_Z_plus. change (inject_Z 1) with 1%Q. ring.
Qed.
Print Assumptions C11_regular_constructor.

Theorem C11_regular_empty : forall start stop eps circ,
  axis_regular start stop 0 eps circ = Throw "unable to create an empty container.".
Proof. reflexivity. Qed.
Print Assumptions C11_regular_empty.

(** Axis(values): exactly the non-empty strictly monotonic sequences are accepted. *)
Theorem C11_values_accepted : forall l eps, (0 <= eps)%Q -> (eps < 1)%Q ->
  (exists a, axis_of_values l eps false = Ok a) <->
  l <> [] /\ (strictly_ascending l \/ strictly_descending l).
Proof. exact axis_of_values_accepts. Qed.
Print Assumptions C11_values_accepted.

(** The stored axis deviates from the given values by at most i*eps*S at index i,
    where S >= 1 bounds the gaps; not at all when it is kept as given. *)
Theorem C11_values_stored : forall l eps a S, (0 <= eps)%Q -> (1 <= S)%Q ->
  axis_of_values l eps false = Ok a ->
  (forall i u v, znth l i = Some u -> znth l (i + 1) = Some v -> (Qabs (v - u) <= S)%Q) ->
  len a = zlen l /\
  forall i v, znth l i = Some v ->
    exists w, at_index a i w /\ (Qabs (v - w) <= inject_Z i * (eps * S))%Q /\
      (is_regular a = false -> w = v).
Proof. intros l eps a S H1 H2 H3 H4. exact (axis_of_values_drift l eps false a S H1 H2 H3 H4). Qed.
Print Assumptions C11_values_stored.

(** With epsilon = 0 every value is stored exactly. *)
Theorem C11_values_exact : forall l a,
  axis_of_values l 0 false = Ok a ->
  len a = zlen l /\ forall i v, znth l i = Some v -> exists w, at_index a i w /\ (w == v)%Q.
Proof.
  intros l a H.
  assert (B : exists S, (1 <= S)%Q /\ forall i u v, znth l i = Some u -> znth l (i + 1) = Some v -> (Qabs (v - u) <= S)%Q).
  { clear H. induction l as [|e t [S [H1 H2]]].
    - exists 1%Q. split; [lra|]. intros i u v Hu. apply znth_Some in Hu. unfold zlen in Hu; simpl in Hu; lia.
    - destruct t as [|f t'].
      + exists 1%Q. split; [lra|]. intros i u v Hu Hv. apply znth_Some in Hu. apply znth_Some in Hv.
        unfold zlen in *; simpl in *; lia.
      + exists (S + Qabs (f - e))%Q. assert (N := Qabs_nonneg (f - e)). split; [lra|].
        intros i u v Hu Hv. assert (Hi := znth_Some _ _ _ Hu). destruct (Z.eq_dec i 0) as [->|].
        * unfold znth in Hu, Hv. simpl in Hu, Hv. injection Hu as <-. injection Hv as <-. lra.
        * rewrite znth_cons in Hu by lia. rewrite znth_cons in Hv by lia.
          specialize (H2 (i - 1) u v Hu). replace (i - 1 + 1) with (i + 1 - 1) in H2 by ring.
          specialize (H2 Hv). lra. }
  destruct B as (S & B1 & B2).
  destruct (axis_of_values_drift l 0 false a S ltac:(lra) B1 H B2) as [A1 A2]. split; auto.
  intros i v Hi. destruct (A2 i v Hi) as (w & Hw & D & _). exists w. split; auto.
  assert (E : (inject_Z i * (0 * S) == 0)%Q) by ring. rewrite E in D.
  apply Qabs_Qle_condition in D. lra.
Qed.
Print Assumptions C11_values_exact.

(** The default tolerance accumulates: nine values whose gaps alternate around
    one by epsilon are replaced by points deviating by four epsilon. *)
Theorem C11_tolerance_accumulates_refuted : exists l a v w,
  axis_of_values l (1#1000000) false = Ok a /\ znth l 4 = Some v /\ at_index a 4 w /\
  (Qabs (v - w) == 4 * (1#1000000))%Q.
Proof.
  set (e := (1#1000000)%Q).
  exists [0; 1 + e; 2 + 2*e; 3 + 3*e; 4 + 4*e; 5 + 3*e; 6 + 2*e; 7 + e; 8]%Q.
  eexists. eexists. eexists. split; [vm_compute; reflexivity|]. split; [reflexivity|].
  split; [vm_compute; reflexivity|]. vm_compute. reflexivity.
Qed.
Print Assumptions C11_tolerance_accumulates_refuted.

(** Longitudes: unwrapping adds whole turns only... *)
Theorem C11_longitudes_same_angles : forall l, Forall2 same_angle (normalize_longitude 360 l) l.
Proof. exact normalize_longitude_angles. Qed.
Print Assumptions C11_longitudes_same_angles.

(** ... and two ascending runs (e.g. 0..180 then -180..-1) become one: the second run
    is shifted by one turn. *)
Theorem C11_longitudes_two_runs : forall x l1 y l2,
  strictly_ascending (x :: l1) -> l1 <> [] -> (y < last (x :: l1) 0)%Q ->
  normalize_longitude 360 ((x :: l1) ++ y :: l2) =
  (x :: l1) ++ map (fun z => z + 360)%Q (y :: l2).
Proof.
  intros x l1 y l2 H1 H2 H3. unfold normalize_longitude.
  assert (Fa : first_ascending ((x :: l1) ++ y :: l2) = true).
  { destruct l1 as [|z t]; [congruence|]. simpl. assert (X := H1 0 1 x z eq_refl eq_refl ltac:(lia)).
    destruct (Qltb_spec x z); auto; exfalso; lra. }
  rewrite Fa.
  assert (Nm : strictly_monotone_dir true ((x :: l1) ++ y :: l2) = false).
  { clear H1 H2 Fa. revert x H3. induction l1 as [|z t IH]; intros x H3.
    - simpl in H3. simpl. destruct (Qltb_spec x y); auto; exfalso; lra.
    - assert (H4 : (y < last (z :: t) 0)%Q) by exact H3. specialize (IH z H4).
      change (strictly_monotone_dir true ((x :: z :: t) ++ y :: l2))
        with (Qltb x z && strictly_monotone_dir true ((z :: t) ++ y :: l2)).
      rewrite IH. apply andb_false_r. }
  rewrite Nm. cbn [app]. f_equal. apply (unwrap_run true x l1 l2 y); auto.
  intros a b t1 t2 E. apply (H1 (zlen t1) (zlen t1 + 1)); rewrite ?E.
  - unfold znth, zlen. destruct (Z.ltb_spec (Z.of_nat (length t1)) 0); [lia|]. rewrite Nat2Z.id.
    rewrite nth_error_app2 by lia. rewrite Nat.sub_diag. reflexivity.
  - unfold znth, zlen. destruct (Z.ltb_spec (Z.of_nat (length t1) + 1) 0); [lia|].
    rewrite nth_error_app2 by lia. replace (Z.to_nat (Z.of_nat (length t1) + 1) - length t1)%nat with 1%nat by lia. reflexivity.
  - lia.
Qed.
Print Assumptions C11_longitudes_two_runs.
Example C11_lon_ex : normalize_longitude 360 [0; 90; 180; -90]%Q = [0; 90; 180; -90 + 360]%Q.
Proof. reflexivity. Qed.

(** * C03 integer and temporal axes *)
(** Ascending values: find_index is the (last) nearest index; -1 (or the end when
    bounded) exactly when regular and half a step beyond an end, irregular and
    outside. *)
Theorem C03_int_find_index_partial : forall l c x bounded,
  int_axis_of_values l = Ok c -> i_ascending l ->
  exists r, i_find_index c x bounded = Ok r /\
    (i_nearest_last c x r \/ ~ i_inside c x /\ (bounded = false -> r = -1) /\ (bounded = true -> r = 0 \/ r = i_size c - 1)).
Proof.
  intros l c x bounded Hc Ha. assert (W := int_axis_wf l c Hc (or_introl Ha)).
  destruct c as [a pts|a n s st s2].
  - destruct (i_irr_find a pts x bounded W) as (r & E & [(-> & B & I)|H] & _); eexists; (split; [exact E|]).
    + right. split; auto. split; auto. congruence.
    + left; auto.
  - destruct (i_reg_find a n s st s2 x bounded W) as (r & E & H). exists r. split; auto.
    destruct W as (Hn & _ & Hst).
    destruct (Z.leb_spec (2 * ((x - s) * Z.sgn st)) (- Z.abs st)) as [A|A].
    { right. split; [|destruct bounded; split; intros; try discriminate; auto].
      intros (i & v & j & w & Hi & Hj & L).
      apply i_at_iff in Hi, Hj. destruct Hi as [Hi ->], Hj as [Hj ->]. cbn [i_size iv] in *.
      destruct a; [rewrite Z.sgn_pos in A by auto|rewrite Z.sgn_neg in A by auto]; nia. }
    destruct (Z.leb_spec ((2 * n - 1) * Z.abs st) (2 * ((x - s) * Z.sgn st))) as [B|B]; auto.
    right. split; [|destruct bounded; split; intros; try discriminate; auto].
    intros (i & v & j & w & Hi & Hj & L).
    apply i_at_iff in Hi, Hj. destruct Hi as [Hi ->], Hj as [Hj ->]. cbn [i_size iv] in *.
    destruct a.
    + rewrite Z.sgn_pos, (Z.abs_eq st) in B by lia. assert (j * st <= (n - 1) * st) by nia. nia.
    + rewrite Z.sgn_neg, (Z.abs_neq st) in B by lia. assert ((n - 1) * st <= i * st) by nia. nia.
Qed.
Print Assumptions C03_int_find_index_partial.

(** Inside the axis the answer is always the nearest index, also after flipping an
    axis built from ascending values. *)
Theorem C03_int_inside_partial : forall l c x bounded,
  int_axis_of_values l = Ok c -> i_ascending l -> i_inside c x ->
  (exists r, i_find_index c x bounded = Ok r /\ i_nearest_last c x r) /\
  (exists r, i_find_index (i_flip c) x bounded = Ok r /\ i_nearest_last (i_flip c) x r).
Proof.
  intros l c x bounded Hc Ha Hi. assert (W := int_axis_wf l c Hc (or_introl Ha)).
  assert (G : forall d, i_wf d -> i_inside d x -> exists r, i_find_index d x bounded = Ok r /\ i_nearest_last d x r).
  { clear. intros d W Hi. destruct d as [a pts|a n s st s2].
    - destruct (i_irr_find a pts x bounded W) as (r & E & [(-> & B & I)|H] & _); [tauto|]. exists r; auto.
    - destruct (i_reg_find a n s st s2 x bounded W) as (r & E & H). exists r. split; auto.
      destruct W as (Hn & _ & Hst).
      destruct Hi as (i & v & j & w & Hi & Hj & L).
      apply i_at_iff in Hi, Hj. destruct Hi as [Hi ->], Hj as [Hj ->]. cbn [i_size iv] in *.
      destruct (Z.leb_spec (2 * ((x - s) * Z.sgn st)) (- Z.abs st)) as [A|A].
      { exfalso. destruct a; [rewrite Z.sgn_pos in A by auto|rewrite Z.sgn_neg in A by auto]; nia. }
      destruct (Z.leb_spec ((2 * n - 1) * Z.abs st) (2 * ((x - s) * Z.sgn st))) as [B|B]; auto.
      exfalso. destruct a.
      + rewrite Z.sgn_pos, (Z.abs_eq st) in B by lia. assert (j * st <= (n - 1) * st) by nia. nia.
      + rewrite Z.sgn_neg, (Z.abs_neq st) in B by lia. assert ((n - 1) * st <= i * st) by nia. nia. }
  split; [apply G; auto|]. apply G; [apply i_flip_wf; auto|].
  destruct Hi as (i & v & j & w & Hi & Hj & L).
  exists (i_size c - 1 - i), v, (i_size c - 1 - j), w.
  split; [apply i_flip_at; auto|]. split; [apply i_flip_at; auto|]. auto.
Qed.
Print Assumptions C03_int_inside_partial.

(** Values are stored exactly. *)
Theorem C03_int_values : forall l c, int_axis_of_values l = Ok c ->
  i_size c = zlen l /\ forall i v, znth l i = Some v -> i_at c i v.
Proof. exact int_axis_values. Qed.
Print Assumptions C03_int_values.

(** Bracketing on ascending integer axes and their flip. *)
Theorem C03_int_find_indexes_partial : forall l c x,
  int_axis_of_values l = Ok c -> i_ascending l -> 1 < i_size c ->
  (exists r, i_find_indexes c x = Ok r /\
     match r with Some (i0, i1) => i_brackets c x i0 i1 | None => ~ i_inside c x end) /\
  (exists r, i_find_indexes (i_flip c) x = Ok r /\
     match r with Some (i0, i1) => i_brackets (i_flip c) x i0 i1 | None => ~ i_inside (i_flip c) x end).
Proof.
  intros l c x Hc Ha Hs. assert (W := int_axis_wf l c Hc (or_introl Ha)). split.
  - apply i_find_indexes_spec; auto.
  - apply i_find_indexes_spec; [apply i_flip_wf; auto|].
    destruct c; cbn [i_flip i_size] in *; rewrite ?zlen_rev; auto.
Qed.
Print Assumptions C03_int_find_indexes_partial.

Example C03_ex : exists c, int_axis_of_values [0; 10; 20; 30] = Ok c /\ i_ascending [0; 10; 20; 30] /\
  i_inside c 14 /\ i_find_index c 15 false = Ok 2 /\ i_find_index c (-5) false = Ok (-1) /\
  i_find_index (i_flip c) 14 false = Ok 2.
Proof.
  eexists. split; [vm_compute; reflexivity|]. split; [|split; [|vm_compute; repeat split]].
  - intros i j a b Hi Hj Hij. assert (Ri := znth_Some _ _ _ Hi). assert (Rj := znth_Some _ _ _ Hj).
    unfold zlen in *; simpl in *.
    assert (D : i = 0 \/ i = 1 \/ i = 2 \/ i = 3) by lia.
    assert (D' : j = 0 \/ j = 1 \/ j = 2 \/ j = 3) by lia.
    destruct D as [->|[->|[->| ->]]], D' as [->|[->|[->| ->]]]; try lia; vm_compute in Hi, Hj; 
      injection Hi as <-; injection Hj as <-; lia.
  - exists 0, 0, 3, 30. repeat split; lia.
Qed.

(** Descending integer axes (a reversed time axis): the half step has the wrong
    sign, the index returned is not the nearest, and the bracket does not enclose
    the coordinate. *)
Theorem C03_int_descending_refuted : exists c x,
  int_axis_of_values [0; -10; -20] = Ok c /\ i_inside c x /\
  i_find_index c x false = Ok 0 /\ ~ i_nearest_last c x 0 /\
  i_find_indexes c x = Ok (Some (1, 0)) /\ ~ i_brackets c x 1 0.
Proof.
  eexists. exists (-14). split; [vm_compute; reflexivity|].
  split. { exists 2, (-20), 0, 0. repeat split; lia. }
  split; [vm_compute; reflexivity|]. split.
  { intros (v & Hv & H). vm_compute in Hv. injection Hv as <-.
    specialize (H 1 (-10) eq_refl). lia. }
  split; [vm_compute; reflexivity|].
  intros (v0 & v1 & H0 & H1 & _ & H). vm_compute in H0, H1. injection H0 as <-. injection H1 as <-. lia.
Qed.
Print Assumptions C03_int_descending_refuted.
