(** C122: axes as Python sequences, their comparison and their copies. *)
From Verif Require Import Base BaseProofs MathModel AxisModel AxisSpec AxisProofs AxisProofs2 AxisProofs3 AxisProofs6 IntAxisModel IntAxisProofs DateModel DateProps XarrayModel AxisProps TemporalModel TemporalProps.
Open Scope Z_scope.
Ltac Zify.zify_post_hook ::= idtac.

(** ** Specification: the slices of the Python language reference *)
Definition the_step (s : pyslice) : Z := match s_step s with None => 1 | Some k => k end.
(** The bounds, for a sequence of [n] items: counted from the end when they are negative, then brought
    back to the sequence. *)
Definition bound (n : Z) (forwards : bool) (x : Z) : Z :=
  let y := if x <? 0 then x + n else x in
  if forwards then Z.max 0 (Z.min n y) else Z.max (-1) (Z.min (n - 1) y).
Definition first_index (n : Z) (s : pyslice) : Z :=
  let f := 0 <? the_step s in
  match s_start s with Some x => bound n f x | None => if f then 0 else n - 1 end.
Definition last_bound (n : Z) (s : pyslice) : Z :=
  let f := 0 <? the_step s in
  match s_stop s with Some x => bound n f x | None => if f then n else -1 end.
(** [m] is a position of the slice, and [i] the index it stands for. *)
Definition slice_index (n : Z) (s : pyslice) (m i : Z) : Prop :=
  0 <= m /\ i = first_index n s + m * the_step s /\
  (if 0 <? the_step s then i < last_bound n s else last_bound n s < i).

(** ** Lemmas *)
Lemma i64_u64 z : 0 <= z < 2 ^ 63 -> as_i64 (as_u64 z) = z.
Proof.
  intro H. unfold as_i64, as_u64. rewrite Z.mod_mod by lia. rewrite Z.mod_small by (change (2 ^ 64) with (2 * 2 ^ 63); lia).
  destruct (Z.ltb_spec z (2 ^ 63)); lia.
Qed.
Lemma u64_add a b : as_u64 (as_u64 a + as_u64 b) = as_u64 (a + b).
Proof. unfold as_u64. rewrite <- Zplus_mod. reflexivity. Qed.

Lemma slice_loop_ok {A} (get : Z -> outcome A) (size step : Z) : size <= ssize_max ->
  (forall i, 0 <= i < size -> exists v, get i = Ok v) ->
  forall n start, (forall m, (m < n)%nat -> 0 <= start + Z.of_nat m * step < size) ->
  exists r, slice_loop get n (as_u64 start) (as_u64 step) = Ok r /\ length r = n /\
    forall m, (m < n)%nat -> exists v, nth_error r m = Some v /\ get (start + Z.of_nat m * step) = Ok v.
Proof.
  intros Hs Hget. induction n as [|n IH]; intros start H.
  { exists []. split; auto. split; auto. intros; lia. }
  assert (H0 := H 0%nat ltac:(lia)). cbn [Z.of_nat Z.mul] in H0. rewrite Z.add_0_r in H0.
  cbn [slice_loop]. rewrite i64_u64 by (unfold ssize_max in Hs; lia).
  destruct (Hget start H0) as (v & Ev). rewrite Ev. cbn [obind]. rewrite u64_add.
  destruct (IH (start + step)) as (r & Er & Lr & Hr).
  { intros m Hm. assert (X := H (S m) ltac:(lia)). rewrite Nat2Z.inj_succ in X. nia. }
  rewrite Er. cbn [obind]. exists (v :: r). split; auto. split; [cbn [length]; lia|].
  intros [|m] Hm.
  - exists v. cbn [nth_error Z.of_nat]. split; auto. rewrite Z.mul_0_l, Z.add_0_r. auto.
  - destruct (Hr m ltac:(lia)) as (w & Ew & Gw). exists w. cbn [nth_error]. split; auto.
    rewrite <- Gw. f_equal. lia.
Qed.

Lemma quot_count a k m : 0 < k -> 0 < a -> 0 <= m -> (m < Z.quot (a - 1) k + 1 <-> m * k < a).
Proof.
  intros Hk Ha Hm. rewrite Z.quot_div_nonneg by lia.
  assert (D := Z.div_mod (a - 1) k ltac:(lia)). assert (M := Z.mod_pos_bound (a - 1) k Hk).
  set (q := (a - 1) / k) in *. clearbody q. set (r := (a - 1) mod k) in *. clearbody r.
  split; intro H; nia.
Qed.

(** The bounds computed by CPython, within a [Py_ssize_t], designate the same items. *)
Lemma slice_indices_ok n s : 0 <= n <= ssize_max -> the_step s <> 0 ->
  exists start stop step cnt, slice_indices n s = Ok (start, stop, step, cnt) /\
   (0 < step <-> 0 < the_step s) /\ (the_step s = step \/ (n <= Z.abs step /\ n <= Z.abs (the_step s))) /\
   start = first_index n s /\ stop = last_bound n s /\
   (if 0 <? the_step s then 0 <= start <= n /\ 0 <= stop <= n else -1 <= start < n /\ -1 <= stop < n) /\
   0 <= cnt /\ forall m, 0 <= m -> (m < cnt <-> if 0 <? step then start + m * step < stop else stop < start + m * step).
Proof.
  intros Hn Hk. unfold slice_indices.
  set (raw := match s_step s with None => 1 | Some k => clip k end).
  assert (R : (raw = the_step s \/ (ssize_max <= Z.abs raw /\ ssize_max <= Z.abs (the_step s))) /\ (0 < raw <-> 0 < the_step s) /\ raw <> 0
    /\ - ssize_max - 1 <= raw <= ssize_max).
  { unfold raw, the_step in *. destruct (s_step s) as [k|]; [|unfold ssize_max; lia]. unfold clip, ssize_max in *. lia. }
  clearbody raw. destruct R as (R1 & R2 & R3 & R4).
  destruct (Z.eqb_spec raw 0); [tauto|]. set (step := Z.max raw (- ssize_max)).
  assert (T : (the_step s = step \/ (n <= Z.abs step /\ n <= Z.abs (the_step s))) /\ (0 < step <-> 0 < the_step s) /\ step <> 0).
  { unfold step, ssize_max in *. lia. }
  clearbody step. destruct T as (T1 & T2 & T3). clear raw R1 R2 R3 R4 n0.
  unfold first_index, last_bound.
  assert (C : (0 <? the_step s) = negb (step <? 0)).
  { destruct (Z.ltb_spec 0 (the_step s)), (Z.ltb_spec step 0); cbn; lia. }
  rewrite C.
  set (adj := adjust_index n step).
  assert (Adj : forall x, adj (clip x) = bound n (negb (step <? 0)) x).
  { intro x. unfold adj, adjust_index, bound, clip. cbv zeta. unfold ssize_max in *. destruct (Z.ltb_spec step 0); cbn [negb];
      repeat (match goal with |- context [Z.ltb ?a ?b] => destruct (Z.ltb_spec a b) | |- context [Z.geb ?a ?b] => destruct (Z.geb_spec a b) end); lia. }
  assert (Adj' : forall x, -1 <= bound n (negb (step <? 0)) x /\ bound n (negb (step <? 0)) x <= n /\
     (step < 0 -> bound n (negb (step <? 0)) x < n) /\ (0 < step -> 0 <= bound n (negb (step <? 0)) x)).
  { intro x. unfold bound. destruct (Z.ltb_spec step 0); cbn [negb]; destruct (x <? 0); lia. }
  cbv zeta in *. fold adj.
  set (start := match s_start s with None => if negb (step <? 0) then 0 else n - 1 | Some x => bound n (negb (step <? 0)) x end).
  set (stop := match s_stop s with None => if negb (step <? 0) then n else -1 | Some x => bound n (negb (step <? 0)) x end).
  replace (adj match s_start s with None => if step <? 0 then ssize_max else 0 | Some i => clip i end) with start.
  2:{ unfold start. destruct (s_start s); [symmetry; apply Adj|]. unfold adj, adjust_index, ssize_max in *. cbv zeta. destruct (Z.ltb_spec step 0); cbn [negb];
      repeat (match goal with |- context [Z.ltb ?a ?b] => destruct (Z.ltb_spec a b) | |- context [Z.geb ?a ?b] => destruct (Z.geb_spec a b) end); lia. }
  replace (adj match s_stop s with None => if step <? 0 then - ssize_max - 1 else ssize_max | Some i => clip i end) with stop.
  2:{ unfold stop. destruct (s_stop s); [symmetry; apply Adj|]. unfold adj, adjust_index, ssize_max in *. cbv zeta. destruct (Z.ltb_spec step 0); cbn [negb];
      repeat (match goal with |- context [Z.ltb ?a ?b] => destruct (Z.ltb_spec a b) | |- context [Z.geb ?a ?b] => destruct (Z.geb_spec a b) end); lia. }
  assert (B1 : if negb (step <? 0) then 0 <= start <= n else -1 <= start < n).
  { unfold start. destruct (s_start s) as [x|]; [generalize (Adj' x)|]; destruct (Z.ltb_spec step 0); cbn [negb]; lia. }
  assert (B2 : if negb (step <? 0) then 0 <= stop <= n else -1 <= stop < n).
  { unfold stop. destruct (s_stop s) as [x|]; [generalize (Adj' x)|]; destruct (Z.ltb_spec step 0); cbn [negb]; lia. }
  clearbody start stop. clear adj Adj Adj'.
  eexists start, stop, step, _. split; [reflexivity|]. split; auto. split; auto. split; auto. split; auto.
  assert (C2 : (0 <? step) = negb (step <? 0)) by (destruct (Z.ltb_spec 0 step), (Z.ltb_spec step 0); cbn; lia).
  rewrite C2. destruct (Z.ltb_spec step 0) as [L|G]; cbn [negb] in *.
  - split; auto. destruct (Z.ltb_spec stop start).
    + split. { assert (0 <= Z.quot (start - stop - 1) (- step)) by (apply Z.quot_pos; lia). lia. }
      intros m Hm. rewrite quot_count by lia. lia.
    + split; [lia|]. intros m Hm. nia.
  - split; auto. destruct (Z.ltb_spec start stop).
    + split. { assert (0 <= Z.quot (stop - start - 1) step) by (apply Z.quot_pos; lia). lia. }
      intros m Hm. rewrite quot_count by lia. lia.
    + split; [lia|]. intros m Hm. nia.
Qed.

Lemma slice_values_ok {A} (get : Z -> outcome A) n s : 0 <= n <= ssize_max ->
  (forall i, 0 <= i < n -> exists v, get i = Ok v) -> the_step s <> 0 ->
  exists r, slice_values get n s = Ok r /\
    (forall m v, znth r m = Some v -> exists i, slice_index n s m i /\ 0 <= i < n /\ get i = Ok v) /\
    (forall m i, slice_index n s m i -> 0 <= i < n /\ exists v, znth r m = Some v /\ get i = Ok v).
Proof.
  intros Hn Hget Hk. destruct (slice_indices_ok n s Hn Hk) as (start & stop & step & cnt & E & T2 & T1 & E1 & E2 & B & Hc & C).
  unfold slice_values. rewrite E. cbn [obind].
  assert (Sgn : (0 <? step) = (0 <? the_step s)) by (destruct (Z.ltb_spec 0 step), (Z.ltb_spec 0 (the_step s)); lia).
  rewrite Sgn in C.
  (* the step which CPython clips only matters for the first item *)
  assert (Same : forall m, 0 <= m -> (m < cnt <-> if 0 <? the_step s then start + m * the_step s < stop else stop < start + m * the_step s)
     /\ (m < cnt -> start + m * step = start + m * the_step s)).
  { intros m Hm. destruct T1 as [->|[A1 A2]]. { rewrite <- Sgn in *. split; [apply C; auto|auto]. }
    rewrite C by auto. destruct (Z.ltb_spec 0 (the_step s)); (destruct (Z.eq_dec m 0) as [->|Nz]; [rewrite !Z.mul_0_l; tauto|]); (split; [split; intro|intro]); exfalso; nia. }
  destruct (slice_loop_ok get n step ltac:(lia) Hget (Z.to_nat cnt) start) as (r & Er & Lr & Hr).
  { intros m Hm. assert (X := proj1 (C (Z.of_nat m) ltac:(lia)) ltac:(lia)).
    destruct (Z.ltb_spec 0 (the_step s)); nia. }
  exists r. split; auto. split.
  - intros m v Hv. assert (R := znth_Some _ _ _ Hv). unfold zlen in R. rewrite Lr in R.
    destruct (Hr (Z.to_nat m) ltac:(lia)) as (w & Ew & Gw). rewrite Z2Nat.id in Gw by lia.
    assert (w = v). { unfold znth in Hv. destruct (m <? 0); [discriminate|]. congruence. } subst w.
    destruct (Same m ltac:(lia)) as [S1 S2]. rewrite S2 in Gw by lia. exists (start + m * the_step s).
    assert (S3 := proj1 S1 ltac:(lia)).
    split. { split; [lia|]. rewrite <- E1, <- E2. auto. }
    split; auto. destruct (Z.ltb_spec 0 (the_step s)); nia.
  - intros m i (Hm & Hi & Hb). rewrite <- E1 in Hi. rewrite <- E2 in Hb.
    destruct (Same m Hm) as [S1 S2]. assert (L : m < cnt) by (apply S1; subst i; auto).
    split. { destruct (Z.ltb_spec 0 (the_step s)); subst i; nia. }
    destruct (Hr (Z.to_nat m) ltac:(lia)) as (w & Ew & Gw). rewrite Z2Nat.id in Gw by lia.
    exists w. rewrite S2 in Gw by lia. subst i. split; auto.
    unfold znth. destruct (Z.ltb_spec m 0); [lia|auto].
Qed.

Lemma slice_zero {A} (get : Z -> outcome A) n s : the_step s = 0 -> slice_values get n s = Throw "slice step cannot be zero".
Proof.
  intro H. unfold slice_values, slice_indices. unfold the_step in H. destruct (s_step s) as [k|]; [|discriminate].
  subst k. reflexivity.
Qed.

Lemma a_get_at a i : 0 <= i < len a -> exists v, a_get a i = Ok v /\ at_index a i v.
Proof.
  intro H. unfold a_get, at_index, coordinate_value, len in *.
  destruct (Z.ltb_spec i 0); [lia|]. destruct (Z.geb_spec i (c_size (a_cont a))); [lia|]. cbn [orb].
  destruct (a_cont a) as [|b pts|b m st sp iv]; cbn [c_value c_size] in *; [lia| |eexists; split; reflexivity].
  destruct (znth_in_range pts i) as (v & ->); [auto|]. eexists; split; reflexivity.
Qed.
Lemma i_get_at c i : 0 <= i < i_size c -> exists v, i_get c i = Ok v /\ i_at c i v.
Proof.
  intro H. unfold i_get, i_at, i_coordinate_value.
  destruct (Z.ltb_spec i 0); [lia|]. destruct (Z.geb_spec i (i_size c)); [lia|]. cbn [orb].
  destruct c as [b pts|b m st sp iv]; cbn [i_size] in *; [|eexists; split; reflexivity].
  destruct (znth_in_range pts i) as (v & ->); [auto|]. eexists; split; reflexivity.
Qed.

(** ** C122 *)
(** [axis[start:stop:step]] is the slice of the sequence of the values of the axis; a null step is
    refused. *)
Theorem C122_slice : forall a s, 0 <= len a <= 2 ^ 63 - 1 ->
  (the_step s = 0 -> exists w, a_slice a s = Throw w) /\
  (the_step s <> 0 -> exists r, a_slice a s = Ok r /\
     forall m v, znth r m = Some v <-> exists i, slice_index (len a) s m i /\ at_index a i v).
Proof.
  intros a s Hn. split. { intro H. eexists. apply slice_zero; auto. }
  intro Hk. destruct (slice_values_ok (a_get a) (len a) s Hn) as (r & E & H1 & H2); auto.
  { intros i Hi. destruct (a_get_at a i Hi) as (v & Ev & _). eauto. }
  exists r. split; auto. intros m v. split.
  - intro Hv. destruct (H1 m v Hv) as (i & Si & Ri & Gi). exists i. split; auto.
    destruct (a_get_at a i Ri) as (w & Ew & Aw). congruence.
  - intros (i & Si & Ai). destruct (H2 m i Si) as (Ri & w & Hw & Gw).
    destruct (a_get_at a i Ri) as (w' & Ew & Aw). unfold at_index in *. congruence.
Qed.
Print Assumptions C122_slice.

Theorem C122_slice_int : forall c s, 0 <= i_size c <= 2 ^ 63 - 1 ->
  (the_step s = 0 -> exists w, i_slice c s = Throw w) /\
  (the_step s <> 0 -> exists r, i_slice c s = Ok r /\
     forall m v, znth r m = Some v <-> exists i, slice_index (i_size c) s m i /\ i_at c i v).
Proof.
  intros c s Hn. split. { intro H. eexists. apply slice_zero; auto. }
  intro Hk. destruct (slice_values_ok (i_get c) (i_size c) s Hn) as (r & E & H1 & H2); auto.
  { intros i Hi. destruct (i_get_at c i Hi) as (v & Ev & _). eauto. }
  exists r. split; auto. intros m v. split.
  - intro Hv. destruct (H1 m v Hv) as (i & Si & Ri & Gi). exists i. split; auto.
    destruct (i_get_at c i Ri) as (w & Ew & Aw). congruence.
  - intros (i & Si & Ai). destruct (H2 m i Si) as (Ri & w & Hw & Gw).
    destruct (i_get_at c i Ri) as (w' & Ew & Aw). unfold i_at in *. congruence.
Qed.
Print Assumptions C122_slice_int.

(** [axis[i]]: the value for an index of the axis, IndexError beyond, TypeError for an index which is
    negative or does not fit in 64 bits. *)
Theorem C122_item : forall a c i,
  (0 <= len a <= 2 ^ 63 - 1 ->
   (0 <= i < len a -> exists v, a_item a i = Ok v /\ at_index a i v) /\
   (len a <= i < 2 ^ 64 -> a_item a i = Throw "axis index out of range") /\
   (i < 0 \/ 2 ^ 64 <= i -> a_item a i = Throw "TypeError")) /\
  (0 <= i_size c <= 2 ^ 63 - 1 ->
   (0 <= i < i_size c -> exists v, i_item c i = Ok v /\ i_at c i v) /\
   (i_size c <= i < 2 ^ 64 -> i_item c i = Throw "axis index out of range") /\
   (i < 0 \/ 2 ^ 64 <= i -> i_item c i = Throw "TypeError")).
Proof.
  intros a c i.
  assert (G : forall (A : Type) (value : Z -> outcome A) n, 0 <= n <= ssize_max ->
    (forall j, j < 0 \/ n <= j -> value j = Throw "axis index out of range") ->
    (0 <= i < n -> item value i = value i) /\
    (n <= i < 2 ^ 64 -> item value i = Throw "axis index out of range") /\
    (i < 0 \/ 2 ^ 64 <= i -> item value i = Throw "TypeError")).
  { intros A value n Hn Hv. unfold item. unfold ssize_max in Hn. change (2 ^ 64) with (2 * 2 ^ 63).
    split; [|split]; intro H.
    - destruct (Z.ltb_spec i 0); [lia|]. destruct (Z.leb_spec (2 * 2 ^ 63) i); [lia|]. cbn [orb].
      unfold as_i64. change (2 ^ 64) with (2 * 2 ^ 63). rewrite Z.mod_small by lia.
      destruct (Z.ltb_spec i (2 ^ 63)); [reflexivity|lia].
    - destruct (Z.ltb_spec i 0); [lia|]. destruct (Z.leb_spec (2 * 2 ^ 63) i); [lia|]. cbn [orb].
      apply Hv. unfold as_i64. change (2 ^ 64) with (2 * 2 ^ 63). rewrite Z.mod_small by lia.
      destruct (Z.ltb_spec i (2 ^ 63)); lia.
    - destruct (Z.ltb_spec i 0); [reflexivity|]. destruct (Z.leb_spec (2 * 2 ^ 63) i); [reflexivity|lia]. }
  split; intro Hn.
  - destruct (G Q (coordinate_value a) (len a) Hn) as (G1 & G2 & G3).
    { intros j Hj. unfold coordinate_value, len in *. destruct (Z.ltb_spec j 0); [reflexivity|].
      destruct (Z.geb_spec j (c_size (a_cont a))); [reflexivity|lia]. }
    split; [|split; auto]. intro H. unfold a_item. rewrite G1 by auto.
    destruct (a_get_at a i H) as (v & _ & Av). exists v. split; auto.
  - destruct (G Z (i_coordinate_value c) (i_size c) Hn) as (G1 & G2 & G3).
    { intros j Hj. unfold i_coordinate_value. destruct (Z.ltb_spec j 0); [reflexivity|].
      destruct (Z.geb_spec j (i_size c)); [reflexivity|lia]. }
    split; [|split; auto]. intro H. unfold i_item. rewrite G1 by auto.
    destruct (i_get_at c i H) as (v & _ & Av). exists v. split; auto.
Qed.
Print Assumptions C122_item.

Lemma iterate_ok {A} (get : Z -> outcome A) n : 0 <= n ->
  (forall i, 0 <= i < n -> exists v, get i = Ok v) -> get n = Throw "axis index out of range" ->
  forall k i fuel, 0 <= i -> i + Z.of_nat k = n -> (k < fuel)%nat ->
  exists l, iterate get fuel i = Some (Ok l) /\ length l = k /\
    forall j, (j < k)%nat -> exists v, nth_error l j = Some v /\ get (i + Z.of_nat j) = Ok v.
Proof.
  intros Hn Hget Hend. induction k as [|k IH]; intros i fuel Hi Hik Hf; destruct fuel as [|fuel]; try lia; cbn [iterate].
  - replace i with n by lia. rewrite Hend. rewrite String.eqb_refl. exists []. split; auto. split; auto. intros; lia.
  - destruct (Hget i ltac:(lia)) as (v & Ev). rewrite Ev.
    destruct (IH (i + 1) fuel ltac:(lia) ltac:(lia) ltac:(lia)) as (l & El & Ll & Hl). rewrite El.
    exists (v :: l). split; auto. split; [cbn [length]; lia|]. intros [|j] Hj.
    + exists v. cbn [nth_error Z.of_nat]. rewrite Z.add_0_r. auto.
    + destruct (Hl j ltac:(lia)) as (w & Ew & Gw). exists w. cbn [nth_error]. split; auto. rewrite <- Gw. f_equal. lia.
Qed.

(** [list(axis)]: the values in order; the iteration ends. *)
Theorem C122_list : forall a c,
  (0 <= len a <= 2 ^ 63 - 1 -> exists fuel l, iterate (a_item a) fuel 0 = Some (Ok l) /\ zlen l = len a /\
     forall i v, znth l i = Some v -> at_index a i v) /\
  (forall l, 0 < zlen l <= 2 ^ 63 - 1 -> int_axis_of_values l = Ok c ->
     exists fuel, iterate (i_item c) fuel 0 = Some (Ok l)).
Proof.
  intros a c. split.
  - intro Hn. assert (B := fun i => proj1 (C122_item a (IIrr true []) i) Hn).
    destruct (iterate_ok (a_item a) (len a) ltac:(lia)) with (k := Z.to_nat (len a)) (i := 0) (fuel := S (Z.to_nat (len a)))
      as (l & E & L & H); try lia.
    { intros i Hi. destruct (proj1 (B i) Hi) as (v & Ev & _). eauto. }
    { apply (B (len a)). unfold ssize_max in Hn. lia. }
    exists (S (Z.to_nat (len a))), l. split; auto. split; [unfold zlen; lia|].
    intros i v Hv. assert (R := znth_Some _ _ _ Hv). unfold zlen in R. rewrite L in R.
    destruct (H (Z.to_nat i) ltac:(lia)) as (w & Ew & Gw). rewrite Z.add_0_l, Z2Nat.id in Gw by lia.
    assert (w = v). { unfold znth in Hv. destruct (i <? 0); [discriminate|]. congruence. } subst w.
    destruct (proj1 (B i) ltac:(lia)) as (w & Ew2 & Aw). congruence.
  - intros l Hl Hc. destruct (int_axis_values _ _ Hc) as [Es V].
    assert (B := fun i => proj2 (C122_item (flip (mk_axis false None (CIrr true []))) c i) ltac:(lia)).
    destruct (iterate_ok (i_item c) (i_size c) ltac:(lia)) with (k := length l) (i := 0) (fuel := S (length l))
      as (m & E & L & H); try (unfold zlen in *; lia).
    { intros i Hi. destruct (proj1 (B i) Hi) as (v & Ev & _). eauto. }
    { apply (B (i_size c)). unfold ssize_max in Hl. lia. }
    exists (S (length l)). rewrite E. do 2 f_equal.
    apply nth_ext with (d := 0) (d' := 0); [lia|]. intros j Hj. rewrite L in Hj.
    destruct (H j Hj) as (w & Ew & Gw). rewrite Z.add_0_l in Gw.
    destruct (proj1 (B (Z.of_nat j)) ltac:(unfold zlen in *; lia)) as (w' & Ew' & Aw).
    apply (axis_at l c _ _ Hc) in Aw. unfold znth in Aw. destruct (Z.ltb_spec (Z.of_nat j) 0); [lia|].
    rewrite Nat2Z.id in Aw. rewrite (nth_error_nth _ _ _ Ew), (nth_error_nth _ _ _ Aw). congruence.
Qed.
Print Assumptions C122_list.

Lemma find_nearest_total a x bounded : reachable a -> exists i, find_nearest_index a x bounded = Ok i.
Proof.
  intro R. assert (OK := reachable_ok _ R). assert (W := proj1 OK). unfold find_nearest_index. cbv zeta.
  destruct (c_find_spec (a_cont a) (normalize_coordinate a x) bounded W) as (r & -> & _). cbn [obind].
  destruct ((r =? -1) && a_is_circle a); [|eexists; reflexivity].
  assert (Hn := wf_size _ W).
  assert (V : forall i, 0 <= i < c_size (a_cont a) -> exists v, c_value (a_cont a) i = Some v).
  { intros i Hi. destruct (a_get_at a i Hi) as (v & Ev & _). unfold a_get in Ev. destruct (c_value (a_cont a) i); [eauto|discriminate]. }
  unfold c_max, c_min. destruct (V 0 ltac:(lia)) as (v0 & E0), (V (c_size (a_cont a) - 1) ltac:(lia)) as (v1 & E1).
  destruct (c_asc (a_cont a)); rewrite E0, E1; eexists; reflexivity.
Qed.

(** [find_index] and [find_indexes] of an Axis of numbers answer, for each coordinate of a vector, what
    the search of that coordinate gives (C04 to C07); other arrays are refused. *)
Theorem C122_find : forall a l bounded,
  (forall ndim, ndim <> 1 -> (exists w, a_find_index a ndim l bounded = Throw w) /\ exists w, a_find_indexes a ndim l = Throw w) /\
  (reachable a -> exists rows, a_find_index a 1 l bounded = Ok rows /\ zlen rows = zlen l /\
     forall j x, znth l j = Some x -> exists i, znth rows j = Some i /\ find_nearest_index a x bounded = Ok i) /\
  (reachable a -> 1 < len a -> is_angle a = false -> exists rows, a_find_indexes a 1 l = Ok rows /\ zlen rows = zlen l /\
     forall j x, znth l j = Some x -> exists p, znth rows j = Some p /\
       ((p = (-1, -1) /\ ~ inside a x) \/ brackets a x (fst p) (snd p))).
Proof.
  intros a l bounded. split; [|split].
  - intros ndim H. unfold a_find_index, a_find_indexes. destruct (Z.eqb_spec ndim 1); [tauto|]. cbn [negb]. split; eexists; reflexivity.
  - intro R. unfold a_find_index. change (negb (1 =? 1)) with false. cbn iota.
    destruct (each_exists (fun x => find_nearest_index a x bounded) (fun x i => find_nearest_index a x bounded = Ok i) l) as (rows & E & F).
    { intros x _. destruct (find_nearest_total a x bounded R) as (i & Hi). eauto. }
    exists rows. split; auto. apply (Forall2_znth _ _ _ F).
  - intros R Hl Ha. unfold a_find_indexes. change (negb (1 =? 1)) with false. cbn iota.
    destruct (each_exists (fun x => olet r := find_indexes a x in Ok (row r))
      (fun x p => (p = (-1, -1) /\ ~ inside a x) \/ brackets a x (fst p) (snd p)) l) as (rows & E & F).
    { intros x _. destruct (C06_find_indexes_brackets a x R Hl Ha) as (r & Er & P). rewrite Er. cbn [obind].
      eexists. split; [reflexivity|]. destruct r as [[i0 i1]|]; cbn [row fst snd]; tauto. }
    exists rows. split; auto. apply (Forall2_znth _ _ _ F).
Qed.
Print Assumptions C122_find.

(** *** Comparison *)
Lemma list_Zeqb_eq l1 : forall l2, list_Zeqb l1 l2 = true <-> l1 = l2.
Proof.
  induction l1 as [|a l1 IH]; intros [|b l2]; cbn [list_Zeqb]; try (split; [discriminate|discriminate]); [tauto|].
  rewrite andb_true_iff, IH, Z.eqb_eq. split; [intros [-> ->]; auto|intro E; injection E; auto].
Qed.

(** Axes that Python obtains from dates: built, flipped, unpickled. *)
Inductive i_reachable : icontainer -> Prop :=
| ir_values l c : int_axis_of_values l = Ok c -> i_reachable c
| ir_flip c : i_reachable c -> i_reachable (i_flip c)
| ir_pickle c d : i_reachable c -> i_pickle c = Ok d -> i_reachable d.

(** [==] between two axes of integers: equal only if their values are; and it is the equality of the
    values for the axes built from them. *)
Theorem C122_eq_int : forall c d,
  (i_reachable c -> i_reachable d -> i_eqb c d = true -> i_size c = i_size d /\ forall i v, i_at c i v <-> i_at d i v) /\
  (forall l m, int_axis_of_values l = Ok c -> int_axis_of_values m = Ok d -> (i_eqb c d = true <-> l = m)).
Proof.
  assert (G : forall c d, i_eqb c d = true -> i_size c = i_size d /\ forall i v, i_at c i v <-> i_at d i v).
  { intros c d E. destruct c as [a p|a n s st s2], d as [b q|b n' s' st' s2']; cbn [i_eqb] in E; try discriminate.
    - apply list_Zeqb_eq in E. subst q. split; auto. intros. unfold i_at, i_coordinate_value. cbn [i_size]. tauto.
    - rewrite !andb_true_iff, !Z.eqb_eq in E. destruct E as [[-> ->] ->]. split; auto.
      intros. unfold i_at, i_coordinate_value. cbn [i_size]. tauto. }
  intros c d. split; [intros _ _; apply G|]. intros l m Hl Hm. split.
  - intro E. destruct (G c d E) as [Es V].
    assert (L : zlen l = zlen m). { destruct (int_axis_values _ _ Hl), (int_axis_values _ _ Hm). lia. }
    apply nth_ext with (d := 0) (d' := 0); [unfold zlen in L; lia|]. intros j Hj.
    assert (X : znth l (Z.of_nat j) = Some (nth j l 0)).
    { unfold znth. destruct (Z.ltb_spec (Z.of_nat j) 0); [lia|]. rewrite Nat2Z.id. apply nth_error_nth'; auto. }
    apply (axis_at l c _ _ Hl) in X. apply V in X. apply (axis_at m d _ _ Hm) in X.
    unfold znth in X. destruct (Z.ltb_spec (Z.of_nat j) 0); [lia|]. rewrite Nat2Z.id in X.
    symmetry. apply nth_error_nth. auto.
  - intros ->. assert (c = d) by congruence. subst d. destruct c as [a p|a n s st s2]; cbn [i_eqb].
    + apply list_Zeqb_eq; auto.
    + rewrite !Z.eqb_refl. reflexivity.
Qed.
Print Assumptions C122_eq_int.

(** The comparison of temporal axes ignores their unit and their kind: the axis of the first days of
    1970 equals an axis of durations of a few seconds. *)
Theorem C122_eq_refuted : exists t u,
  temporal_axis (dates kDatetime64 kDay [0; 1; 2]) = Ok t /\ temporal_axis (dates kTimedelta64 kSecond [0; 1; 2]) = Ok u /\
  t_eqb t u = true.
Proof. eexists _, _. split; [vm_compute; reflexivity|]. split; [vm_compute; reflexivity|vm_compute; reflexivity]. Qed.
Print Assumptions C122_eq_refuted.

(** *** Copies *)
Lemma pickle_built l c : int_axis_of_values l = Ok c -> i_pickle c = Ok c.
Proof.
  unfold int_axis_of_values. destruct (i_is_evenly_spaced l) eqn:Ev.
  - unfold i_mk_regular. destruct (Z.eqb_spec (zlen l) 0); [discriminate|].
    destruct (Z.eqb_spec (hd 0 l) (last l 0)) as [|Ne]; [discriminate|].
    assert (Hn : 2 <= zlen l).
    { destruct l as [|a [|b t]]; cbn in Ev; try discriminate. unfold zlen. cbn [length]. lia. }
    destruct (Z.eqb_spec (zlen l) 1); [lia|]. set (st := Z.quot (last l 0 - hd 0 l) (zlen l - 1)).
    assert (Hst : st <> 0).
    { destruct l as [|a [|b t]]; cbn [i_is_evenly_spaced] in Ev; try discriminate.
      destruct (Z.leb_spec (Z.abs (Z.quot (last (a :: b :: t) 0 - a) (zlen (a :: b :: t) - 1))) 0); [discriminate|].
      change (hd 0 (a :: b :: t)) with a in st. unfold st. lia. }
    clearbody st. intro E. assert (Ec := f_equal (fun o => match o with Ok z => z | _ => c end) E). cbv beta iota in Ec. clear E.
    subst c. cbn [i_pickle]. unfold i_mk_regular. destruct (Z.eqb_spec (zlen l) 0); [lia|].
    destruct (Z.eqb_spec (hd 0 l) (hd 0 l + (zlen l - 1) * st)); [nia|].
    destruct (Z.eqb_spec (zlen l) 1); [lia|].
    replace (hd 0 l + (zlen l - 1) * st - hd 0 l) with (st * (zlen l - 1)) by ring. rewrite Z.quot_mul by lia. reflexivity.
  - destruct (Z.eqb_spec (zlen l) 0); [discriminate|]. destruct (negb _ && _); [|discriminate].
    intro E. assert (Ec := f_equal (fun o => match o with Ok z => z | _ => c end) E). cbv beta iota in Ec. clear E.
    subst c. cbn [i_pickle]. destruct (Z.eqb_spec (zlen l) 0); [lia|]. reflexivity.
Qed.

Lemma pickle_kind t : dtype_parse (dtype_string (t_kind t) (t_res t)) = Ok (t_kind t, t_res t).
Proof. apply C25_round_trip. Qed.

(** A temporal axis built from dates survives pickling unchanged, unit included; [flip] gives the same
    axis on a copy and in place: the dates in the other order, in the same unit. *)
Theorem C122_copies : forall k r l t, temporal_axis (dates k r l) = Ok t ->
  t_pickle t = Ok t /\ t_flip false t = t_flip true t /\
  exists u, t_flip true t = Ok u /\ t_kind u = k /\ t_res u = r /\ i_size (t_cont u) = zlen l /\
    forall i v, znth (rev l) i = Some v <-> i_at (t_cont u) i v.
Proof.
  intros k r l t Ht. destruct (axis_dates _ _ _ _ Ht) as (Ec & Ek & Er).
  assert (P : t_pickle t = Ok t).
  { unfold t_pickle. rewrite (pickle_built _ _ Ec). cbn [obind]. rewrite pickle_kind. cbn [obind]. destruct t; reflexivity. }
  split; auto. split. { unfold t_flip. rewrite P. reflexivity. }
  eexists. split; [reflexivity|]. cbn [t_kind t_res t_cont]. split; auto. split; auto.
  assert (Es := proj1 (int_axis_values _ _ Ec)).
  assert (Fs : forall c, i_size (i_flip c) = i_size c) by (intros [a p|a n s st s2]; cbn [i_flip i_size]; rewrite ?zlen_rev; auto).
  split. { rewrite Fs. auto. }
  intros i v. split.
  - intro H. assert (R := znth_Some _ _ _ H). rewrite zlen_rev in R. rewrite znth_rev in H by auto.
    apply (axis_at l _ _ _ Ec) in H. apply i_flip_at in H. rewrite Es in H.
    replace (zlen l - 1 - (zlen l - 1 - i)) with i in H by ring. exact H.
  - intro H. assert (R := proj1 (proj1 (i_at_iff _ _ _) H)). rewrite Fs, Es in R.
    rewrite znth_rev by auto. apply (axis_at l _ _ _ Ec).
    assert (X : exists w, i_at (t_cont t) (zlen l - 1 - i) w).
    { destruct (znth_in_range l (zlen l - 1 - i)) as (w & Hw); [lia|]. exists w. apply (axis_at l _ _ _ Ec). auto. }
    destruct X as (w & Hw). assert (Y := i_flip_at _ _ _ Hw). rewrite Es in Y.
    replace (zlen l - 1 - (zlen l - 1 - i)) with i in Y by ring. unfold i_at in *. congruence.
Qed.
Print Assumptions C122_copies.

(** An axis flipped in place does not survive: the copy equals it, but answers otherwise. *)
Theorem C122_copies_refuted : exists t u w, temporal_axis (dates kDatetime64 kSecond [-20; -10; 0]) = Ok t /\
  t_flip true t = Ok u /\ t_pickle u = Ok w /\ t_eqb u w = true /\
  t_find_index (fun _ _ _ x => x) false u (dates kDatetime64 kSecond [-14]) false = Ok [1] /\
  t_find_index (fun _ _ _ x => x) false w (dates kDatetime64 kSecond [-14]) false = Ok [0].
Proof. eexists _, _, _. repeat split; vm_compute; reflexivity. Qed.
Print Assumptions C122_copies_refuted.

Example C122_ex : exists c, int_axis_of_values [10; 20; 40; 50; 60] = Ok c /\
  i_slice c (PySlice (Some (-2)) None (Some (-2))) = Ok [50; 20] /\
  i_slice c (PySlice (Some 1) (Some (-1)) None) = Ok [20; 40; 50] /\
  i_slice c (PySlice None None (Some (10 ^ 30))) = Ok [10] /\
  iterate (i_item c) 9 0 = Some (Ok [10; 20; 40; 50; 60]).
Proof. eexists. split; [vm_compute; reflexivity|]. repeat split; vm_compute; reflexivity. Qed.
