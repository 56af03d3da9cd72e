From Verif Require Import Base BaseProofs MathModel MathProofs AxisModel AxisSpec AxisProofs.
Open Scope Z_scope.

Lemma c_min_max_value c : wf c ->
  c_min c = Some (fval c (if c_asc c then 0 else c_size c - 1)) /\
  c_max c = Some (fval c (if c_asc c then c_size c - 1 else 0)).
Proof.
  intro W. assert (H := wf_size c W). unfold c_min, c_max.
  split; destruct (c_asc c); apply wf_value; auto; lia.
Qed.

Definition lo (c : container) : Q := fval c (if c_asc c then 0 else c_size c - 1).
Definition hi (c : container) : Q := fval c (if c_asc c then c_size c - 1 else 0).

Lemma lo_hi c i : wf c -> 0 <= i < c_size c -> (lo c <= fval c i <= hi c)%Q.
Proof.
  intros W Hi. assert (M := wf_mono c W). unfold lo, hi. split.
  - destruct (c_asc c).
    + destruct (Z.eq_dec i 0) as [->|]; [apply Qle_refl|]. apply Qlt_le_weak. apply M; lia.
    + destruct (Z.eq_dec i (c_size c - 1)) as [->|]; [apply Qle_refl|]. apply Qlt_le_weak. apply M; lia.
  - destruct (c_asc c).
    + destruct (Z.eq_dec i (c_size c - 1)) as [->|]; [apply Qle_refl|]. apply Qlt_le_weak. apply M; lia.
    + destruct (Z.eq_dec i 0) as [->|]; [apply Qle_refl|]. apply Qlt_le_weak. apply M; lia.
Qed.

(** Normalisation on a well-formed axis. *)
Lemma normalize_none a x : a_circle a = None -> normalize_coordinate a x = x.
Proof.
  intro H. unfold normalize_coordinate, normalize_coordinate_min. rewrite H.
  destruct (c_min (a_cont a)); auto.
Qed.

Lemma normalize_angle_axis a x : wf (a_cont a) -> a_circle a = Some 360%Q ->
  let y := normalize_coordinate a x in
  (lo (a_cont a) <= y /\ y < lo (a_cont a) + 360)%Q /\ same_angle y x /\
  normalize_coordinate a y = y.
Proof.
  intros W H. unfold normalize_coordinate. destruct (c_min_max_value _ W) as [-> _].
  fold (lo (a_cont a)). unfold normalize_coordinate_min. rewrite H.
  set (mn := lo (a_cont a)). cbn zeta.
  assert (A : forall y, (mn <= y)%Q -> (y < mn + 360)%Q ->
     (if Qle_bool (mn + 360) y || Qltb y mn then normalize_angle y mn 360 else y) = y).
  { intros y H1 H2. destruct (Qleb_spec (mn + 360) y); [exfalso; lra|].
    destruct (Qltb_spec y mn); [exfalso; lra|]. reflexivity. }
  destruct (Qleb_spec (mn + 360) x) as [B|B]; simpl.
  - destruct (normalize_angle_spec x mn 360 ltac:(lra)) as (H1 & H2 & k & Hk).
    split; [split; auto|]. split. { exists k. exact Hk. } apply A; auto.
  - destruct (Qltb_spec x mn) as [C|C].
    + destruct (normalize_angle_spec x mn 360 ltac:(lra)) as (H1 & H2 & k & Hk).
      split; [split; auto|]. split. { exists k. exact Hk. } apply A; auto.
    + split; [split; auto; lra|]. split. { exists 0. change (inject_Z 0) with 0%Q. lra. }
      apply A; lra.
Qed.

(** The pair computation of [find_indexes] once the coordinate is normalised. *)
Definition pair_of (is_circle asc : bool) (length i0 : Z) (delta : Q) : option (Z * Z) :=
  let '(i0, i1) :=
    if Qeq_bool delta 0 then
      (if i0 =? length - 1 then (i0 - 1, i0) else (i0, i0 + 1))
    else if Qltb delta 0 then
      let j := if asc then i0 - 1 else i0 + 1 in
      (if is_circle then (rem_int j length, i0) else (j, i0))
    else
      let j := if asc then i0 + 1 else i0 - 1 in
      (if is_circle then (i0, rem_int j length) else (i0, j)) in
  if (i0 >=? 0) && (i0 <? length) && (i1 >=? 0) && (i1 <? length)
  then Some (i0, i1) else None.

Lemma in_range_test i0 i1 n :
  (i0 >=? 0) && (i0 <? n) && (i1 >=? 0) && (i1 <? n) = true <->
  0 <= i0 < n /\ 0 <= i1 < n.
Proof.
  rewrite !andb_true_iff, !Z.geb_leb, !Z.leb_le, !Z.ltb_lt. lia.
Qed.

Lemma nearest_neighbours c x r : wf c -> nearestF (fval c) (c_size c) x r ->
  (forall j, 0 <= j < c_size c -> j <> r ->
     (fval c r < x -> fval c j <= x -> fval c j < fval c r)%Q /\
     (x < fval c r -> x <= fval c j -> fval c r < fval c j)%Q).
Proof.
  intros W [Hr H] j Hj Hne. destruct (H j Hj) as [H1 _].
  assert (Hd : ~ (fval c j == fval c r)%Q).
  { intro E. assert (M := wf_mono c W).
    destruct (Z.lt_trichotomy j r) as [L|[L|L]]; [|lia|].
    - assert (X := M j r ltac:(lia) ltac:(lia)). destruct (c_asc c); lra.
    - assert (X := M r j ltac:(lia) ltac:(lia)). destruct (c_asc c); lra. }
  split; intros A B.
  - rewrite (Qabs_pos (x - fval c r)), (Qabs_pos (x - fval c j)) in H1 by lra.
    destruct (Q_dec (fval c j) (fval c r)) as [[?|?]|?]; auto; try lra; tauto.
  - rewrite (Qabs_neg (x - fval c r)), (Qabs_neg (x - fval c j)) in H1 by lra.
    destruct (Q_dec (fval c j) (fval c r)) as [[?|?]|?]; auto; try lra; tauto.
Qed.

(** What [pair_of] returns, given a nearest index. *)
Lemma pair_of_spec c (circ : bool) x r : wf c -> 1 < c_size c ->
  nearestF (fval c) (c_size c) x r ->
  match pair_of circ (c_asc c) (c_size c) r (x - fval c r) with
  | Some (i0, i1) =>
      0 <= i0 < c_size c /\ 0 <= i1 < c_size c /\
      (((i1 = i0 + 1 \/ i0 = i1 + 1) /\
       (((fval c i0 <= x /\ x <= fval c i1) \/ (fval c i1 <= x /\ x <= fval c i0))%Q) /\
       (c_asc c = true -> (fval c i0 <= x /\ x <= fval c i1)%Q))
       \/
       (circ = true /\ ((i0 = 0 /\ i1 = c_size c - 1) \/ (i0 = c_size c - 1 /\ i1 = 0)) /\
        ((x < lo c)%Q \/ (hi c < x)%Q)))
  | None => circ = false /\ ((x < lo c)%Q \/ (hi c < x)%Q)
  end.
Proof.
  intros W Hn N. assert (M := wf_mono c W). assert (NN := nearest_neighbours c x r W N).
  destruct N as [Hr _]. unfold pair_of.
  set (n := c_size c) in *. set (f := fval c) in *.
  assert (LH : forall i, 0 <= i < n -> (lo c <= f i <= hi c)%Q) by (intros; apply lo_hi; auto).
  destruct (Qeqb_spec (x - f r) 0) as [E|E].
  - (* exact hit *)
    assert (Hx : (x == f r)%Q) by lra.
    destruct (Z.eqb_spec r (n - 1)) as [R|R].
    + destruct (in_range_test (r - 1) r n) as [_ ->]; [|lia].
      split; [lia|]. split; [lia|]. left. split; [lia|].
      assert (X := M (r - 1) r ltac:(lia) ltac:(lia)). fold f in X; cbv iota in X.
      destruct (c_asc c); split; try (intros; lra); try discriminate.
    + destruct (in_range_test r (r + 1) n) as [_ ->]; [|lia].
      split; [lia|]. split; [lia|]. left. split; [lia|].
      assert (X := M r (r + 1) ltac:(lia) ltac:(lia)). fold f in X; cbv iota in X.
      destruct (c_asc c); split; try (intros; lra); try discriminate.
  - destruct (Qltb_spec (x - f r) 0) as [L|L].
    + (* the found point is after x *)
      assert (Hx : (x < f r)%Q) by lra.
      destruct (c_asc c) eqn:A; cbn zeta.
      * (* ascending: other neighbour is r-1 *)
        destruct (Z.eq_dec r 0) as [R|R].
        -- assert (Hlo : (x < lo c)%Q) by (unfold lo; rewrite A; fold f; rewrite <- R; auto).
           destruct circ.
           ++ rewrite R. assert (rem_int (0 - 1) n = n - 1) as ->.
              { rewrite rem_int_mod by lia. symmetry. apply Z.mod_unique with (q := -1); lia. }
              destruct (in_range_test (n - 1) 0 n) as [_ ->]; [|lia].
              split; [lia|]. split; [lia|]. right. split; [auto|]. split; [lia|auto].
           ++ destruct ((r - 1 >=? 0) && (r - 1 <? n) && (r >=? 0) && (r <? n)) eqn:T.
              { apply in_range_test in T. lia. }
              split; auto.
        -- assert ((if circ then (rem_int (r - 1) n, r) else (r - 1, r)) = (r - 1, r)) as ->
             by (destruct circ; auto; rewrite rem_int_small by lia; auto).
           destruct (in_range_test (r - 1) r n) as [_ ->]; [|lia].
           split; [lia|]. split; [lia|]. left. split; [lia|].
           destruct (NN (r - 1) ltac:(lia) ltac:(lia)) as [_ NB].
           assert (X := M (r - 1) r ltac:(lia) ltac:(lia)). fold f in X; cbv iota in X.
           assert (f (r - 1)%Z <= x)%Q.
           { destruct (Qlt_le_dec x (f (r-1)%Z)) as [Q|]; auto. exfalso.
             specialize (NB Hx ltac:(lra)). lra. }
           split; intros; lra.
      * destruct (Z.eq_dec r (n - 1)) as [R|R].
        -- assert (Hlo : (x < lo c)%Q) by (unfold lo; rewrite A; fold n f; rewrite <- R; auto).
           destruct circ.
           ++ rewrite R. assert (rem_int (n - 1 + 1) n = 0) as ->.
              { rewrite rem_int_mod by lia. symmetry. apply Z.mod_unique with (q := 1); lia. }
              destruct (in_range_test 0 (n - 1) n) as [_ ->]; [|lia].
              split; [lia|]. split; [lia|]. right. split; [auto|]. split; [lia|auto].
           ++ destruct ((r + 1 >=? 0) && (r + 1 <? n) && (r >=? 0) && (r <? n)) eqn:T.
              { apply in_range_test in T. lia. }
              split; auto.
        -- assert ((if circ then (rem_int (r + 1) n, r) else (r + 1, r)) = (r + 1, r)) as ->
             by (destruct circ; auto; rewrite rem_int_small by lia; auto).
           destruct (in_range_test (r + 1) r n) as [_ ->]; [|lia].
           split; [lia|]. split; [lia|]. left. split; [lia|].
           destruct (NN (r + 1) ltac:(lia) ltac:(lia)) as [_ NB].
           assert (X := M r (r + 1) ltac:(lia) ltac:(lia)). fold f in X; cbv iota in X.
           assert (f (r + 1)%Z <= x)%Q.
           { destruct (Qlt_le_dec x (f (r+1)%Z)) as [Q|]; auto. exfalso.
             specialize (NB Hx ltac:(lra)). lra. }
           split; [left; lra|discriminate].
    + (* the found point is before x *)
      assert (Hx : (f r < x)%Q) by (destruct (Q_dec x (f r)) as [[?|?]|?]; lra).
      destruct (c_asc c) eqn:A; cbn zeta.
      * destruct (Z.eq_dec r (n - 1)) as [R|R].
        -- assert (Hhi : (hi c < x)%Q) by (unfold hi; rewrite A; fold n f; rewrite <- R; auto).
           destruct circ.
           ++ rewrite R. assert (rem_int (n - 1 + 1) n = 0) as ->.
              { rewrite rem_int_mod by lia. symmetry. apply Z.mod_unique with (q := 1); lia. }
              destruct (in_range_test (n - 1) 0 n) as [_ ->]; [|lia].
              split; [lia|]. split; [lia|]. right. split; [auto|]. split; [lia|auto].
           ++ destruct ((r >=? 0) && (r <? n) && (r + 1 >=? 0) && (r + 1 <? n)) eqn:T.
              { apply in_range_test in T. lia. }
              split; auto.
        -- assert ((if circ then (r, rem_int (r + 1) n) else (r, r + 1)) = (r, r + 1)) as ->
             by (destruct circ; auto; rewrite rem_int_small by lia; auto).
           destruct (in_range_test r (r + 1) n) as [_ ->]; [|lia].
           split; [lia|]. split; [lia|]. left. split; [lia|].
           destruct (NN (r + 1) ltac:(lia) ltac:(lia)) as [NB _].
           assert (X := M r (r + 1) ltac:(lia) ltac:(lia)). fold f in X; cbv iota in X.
           assert (x <= f (r + 1)%Z)%Q.
           { destruct (Qlt_le_dec (f (r+1)%Z) x) as [Q|]; auto. exfalso.
             specialize (NB Hx ltac:(lra)). lra. }
           split; intros; lra.
      * destruct (Z.eq_dec r 0) as [R|R].
        -- assert (Hhi : (hi c < x)%Q) by (unfold hi; rewrite A; fold n f; rewrite <- R; auto).
           destruct circ.
           ++ rewrite R. assert (rem_int (0 - 1) n = n - 1) as ->.
              { rewrite rem_int_mod by lia. symmetry. apply Z.mod_unique with (q := -1); lia. }
              destruct (in_range_test 0 (n - 1) n) as [_ ->]; [|lia].
              split; [lia|]. split; [lia|]. right. split; [auto|]. split; [lia|auto].
           ++ destruct ((r >=? 0) && (r <? n) && (r - 1 >=? 0) && (r - 1 <? n)) eqn:T.
              { apply in_range_test in T. lia. }
              split; auto.
        -- assert ((if circ then (r, rem_int (r - 1) n) else (r, r - 1)) = (r, r - 1)) as ->
             by (destruct circ; auto; rewrite rem_int_small by lia; auto).
           destruct (in_range_test r (r - 1) n) as [_ ->]; [|lia].
           split; [lia|]. split; [lia|]. left. split; [lia|].
           destruct (NN (r - 1) ltac:(lia) ltac:(lia)) as [NB _].
           assert (X := M (r - 1) r ltac:(lia) ltac:(lia)). fold f in X; cbv iota in X.
           assert (x <= f (r - 1)%Z)%Q.
           { destruct (Qlt_le_dec (f (r-1)%Z) x) as [Q|]; auto. exfalso.
             specialize (NB Hx ltac:(lra)). lra. }
           split; [left; lra|discriminate].
Qed.

(** [find_indexes] on a well-formed axis with at least two points. *)
Lemma find_indexes_spec a x y :
  axis_ok a -> 1 < len a -> y = normalize_coordinate a x -> normalize_coordinate a y = y ->
  let c := a_cont a in
  exists r, find_indexes a x = Ok r /\
  match r with
  | Some (i0, i1) =>
      0 <= i0 < len a /\ 0 <= i1 < len a /\
      (((i1 = i0 + 1 \/ i0 = i1 + 1) /\
       (((fval c i0 <= y /\ y <= fval c i1) \/ (fval c i1 <= y /\ y <= fval c i0))%Q) /\
       (c_asc c = true -> (fval c i0 <= y /\ y <= fval c i1)%Q))
       \/
       (a_is_circle a = true /\ ((i0 = 0 /\ i1 = len a - 1) \/ (i0 = len a - 1 /\ i1 = 0)) /\
        ((y < lo c)%Q \/ (hi c < y)%Q)))
  | None => a_is_circle a = false /\ ((y < lo c)%Q \/ (hi c < y)%Q)
  end.
Proof.
  intros (W & C1 & C2) Hn Hy Hyy c. unfold find_indexes. rewrite <- Hy.
  unfold find_index. rewrite Hyy.
  destruct (c_find_spec c y false W) as (r & Hr & H). fold c. rewrite Hr. cbn [obind].
  unfold len in *. fold c in Hn, W |- *.
  destruct H as [(-> & _ & H & _)|N].
  - simpl (-1 =? -1). cbv iota.
    assert (O : ((y < lo c)%Q \/ (hi c < y)%Q)).
    { assert (O := H (or_introl Hn)). unfold out_of_ends in O. unfold lo, hi.
      destruct (c_asc c); tauto. }
    destruct (a_is_circle a) eqn:EC.
    + exists (Some (c_size c - 1, 0)). split; auto. split; [lia|]. split; [lia|]. right.
      split; auto. 
    + exists None. auto.
  - destruct (Z.eqb_spec r (-1)) as [E|E]. { destruct N as [N _]. lia. }
    rewrite (wf_value c r W) by apply N.
    assert (P := pair_of_spec c (a_is_circle a) y r W Hn N).
    exists (pair_of (a_is_circle a) (c_asc c) (c_size c) r (y - fval c r)).
    split; [unfold pair_of; cbv zeta; match goal with |- (let (_, _) := ?p in _) = _ => destruct p end; reflexivity|]. exact P.
Qed.

(** ** Statements in terms of the public vocabulary *)
Lemma inside_iff a y : axis_ok a -> inside a y <-> (lo (a_cont a) <= y /\ y <= hi (a_cont a))%Q.
Proof.
  intros (W & _). assert (Hn := wf_size _ W). split.
  - intros (i & v & j & w & Hi & Hj & A & B).
    apply at_index_iff in Hi, Hj; auto. destruct Hi as [Hi ->], Hj as [Hj ->].
    assert (X := lo_hi _ i W Hi). assert (Y := lo_hi _ j W Hj). lra.
  - intros [A B].
    exists (if c_asc (a_cont a) then 0 else c_size (a_cont a) - 1), (lo (a_cont a)),
           (if c_asc (a_cont a) then c_size (a_cont a) - 1 else 0), (hi (a_cont a)).
    split; [|split; [|split; auto]].
    + apply at_index_iff; auto. split; [|reflexivity]. unfold len. destruct (c_asc _); lia.
    + apply at_index_iff; auto. split; [|reflexivity]. unfold len. destruct (c_asc _); lia.
Qed.

Lemma find_indexes_plain a x :
  axis_ok a -> 1 < len a -> a_circle a = None ->
  exists r, find_indexes a x = Ok r /\
  match r with
  | Some (i0, i1) => brackets a x i0 i1 /\
      (c_asc (a_cont a) = true ->
       exists v0 v1, at_index a i0 v0 /\ at_index a i1 v1 /\ (v0 <= x /\ x <= v1)%Q)
  | None => ~ inside a x
  end.
Proof.
  intros OK Hn Hc. assert (Hc' : a_is_circle a = false).
  { destruct OK as (_ & _ & C2). destruct (a_is_circle a); auto. specialize (C2 eq_refl). congruence. }
  destruct (find_indexes_spec a x x OK Hn) as (r & Hr & H); try (rewrite normalize_none; auto; fail).
  exists r. split; auto. assert (W := proj1 OK). destruct r as [[i0 i1]|].
  - destruct H as (H0 & H1 & [(A & B & C)|(X & _)]); [|congruence].
    assert (A0 : at_index a i0 (fval (a_cont a) i0)) by (apply at_index_iff; auto).
    assert (A1 : at_index a i1 (fval (a_cont a) i1)) by (apply at_index_iff; auto).
    split.
    + exists (fval (a_cont a) i0), (fval (a_cont a) i1). auto.
    + intro Asc. exists (fval (a_cont a) i0), (fval (a_cont a) i1). auto.
  - destruct H as [_ H]. rewrite inside_iff by auto. intros [A B]. lra.
Qed.

Lemma find_indexes_angle a x :
  axis_ok a -> 1 < len a -> a_circle a = Some 360%Q -> a_is_circle a = false ->
  exists y r, same_angle y x /\ find_indexes a x = Ok r /\
  match r with
  | Some (i0, i1) => brackets a y i0 i1
  | None => forall z, same_angle z x -> ~ (inside a z /\ (z < lo (a_cont a) + 360)%Q)
  end.
Proof.
  intros OK Hn Hc Hci. assert (W := proj1 OK).
  destruct (normalize_angle_axis a x W Hc) as ((N1 & N2) & N3 & N4).
  set (y := normalize_coordinate a x) in *.
  destruct (find_indexes_spec a x y OK Hn eq_refl N4) as (r & Hr & H).
  exists y, r. split; auto. split; auto. destruct r as [[i0 i1]|].
  - destruct H as (H0 & H1 & [(A & B & C)|(X & _)]); [|congruence].
    exists (fval (a_cont a) i0), (fval (a_cont a) i1).
    split; [apply at_index_iff; auto|]. split; [apply at_index_iff; auto|]. auto.
  - destruct H as [_ H]. intros z Hz [I Iz]. apply inside_iff in I; auto.
    assert (E : (z == y)%Q).
    { destruct N3 as [k Hk], Hz as [k' Hk'].
      apply (turn_unique z y (lo (a_cont a)) 360 (k' - k)); try lra.
      unfold Z.sub. rewrite inject_Z_plus, inject_Z_opp. lra. }
    lra.
Qed.

Lemma find_indexes_circle a x :
  axis_ok a -> 1 < len a -> a_is_circle a = true ->
  exists y i0 i1, same_angle y x /\ find_indexes a x = Ok (Some (i0, i1)) /\
     (brackets a y i0 i1 \/ seam a y i0 i1).
Proof.
  intros OK Hn Hci. assert (W := proj1 OK). assert (Hc := proj2 (proj2 OK) Hci).
  destruct (normalize_angle_axis a x W Hc) as ((N1 & N2) & N3 & N4).
  set (y := normalize_coordinate a x) in *.
  destruct (find_indexes_spec a x y OK Hn eq_refl N4) as (r & Hr & H).
  destruct r as [[i0 i1]|]; [|destruct H; congruence].
  exists y, i0, i1. split; auto. split; auto.
  destruct H as (H0 & H1 & [(A & B & C)|(_ & A & B)]).
  - left. exists (fval (a_cont a) i0), (fval (a_cont a) i1).
    split; [apply at_index_iff; auto|]. split; [apply at_index_iff; auto|]. auto.
  - right. split; auto. exists (lo (a_cont a)), (hi (a_cont a)).
    assert (L : forall i, 0 <= i < len a -> at_index a i (fval (a_cont a) i))
      by (intros; apply at_index_iff; auto).
    assert (L0 := L 0 ltac:(unfold len in *; lia)). assert (Ln := L (len a - 1) ltac:(unfold len in *; lia)).
    split; [|split; [|lra]].
    + unfold lo, hi. change (c_size (a_cont a)) with (len a).
      destruct A as [[-> ->]|[-> ->]]; destruct (c_asc (a_cont a)); auto.
    + intros j w Hj. apply at_index_iff in Hj; auto. destruct Hj as [Hj ->]. apply lo_hi; auto.
Qed.
