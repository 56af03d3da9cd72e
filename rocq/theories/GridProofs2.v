(** Interpolation in grids with an angular longitude: lemmas. *)
From Verif Require Import Base BaseProofs MathModel MathProofs AxisModel IntAxisModel AxisSpec AxisProofs AxisProofs2 AxisProofs5 GridModel GridSpec GridProofs.
Open Scope Z_scope.

Lemma norm_min_angle : forall a x m, a_circle a = Some 360%Q ->
  (m <= normalize_coordinate_min a x m /\ normalize_coordinate_min a x m < m + 360)%Q /\ same_angle (normalize_coordinate_min a x m) x.
Proof.
  intros a x m H. unfold normalize_coordinate_min. rewrite H.
  destruct (Qleb_spec (m + 360) x) as [B|B]; cbn [orb].
  - destruct (normalize_angle_spec x m 360 ltac:(lra)) as (H1 & H2 & k & Hk). split; [auto|]. exists k. exact Hk.
  - destruct (Qltb_spec x m) as [C|C].
    + destruct (normalize_angle_spec x m 360 ltac:(lra)) as (H1 & H2 & k & Hk). split; [auto|]. exists k. exact Hk.
    + split; [lra|]. exists 0. change (inject_Z 0) with 0%Q. lra.
Qed.
Lemma same_angle_sym : forall x y, same_angle x y -> same_angle y x.
Proof. intros x y [k H]. exists (- k). rewrite inject_Z_opp. lra. Qed.
Lemma same_angle_trans : forall x y z, same_angle x y -> same_angle y z -> same_angle x z.
Proof. intros x y z [k H] [k' H']. exists (k + k'). rewrite inject_Z_plus. lra. Qed.
Lemma same_angle_unique : forall x y m, same_angle x y -> (m <= x /\ x < m + 360)%Q -> (m <= y /\ y < m + 360)%Q -> (x == y)%Q.
Proof. intros x y m [k H] A B. apply (turn_unique x y m 360 k); lra. Qed.
Lemma angle_circle : forall a, axis_ok a -> is_angle a = true -> a_circle a = Some 360%Q.
Proof. intros a (_ & [C|C] & _) H; [|exact C]. unfold is_angle in H. rewrite C in H. discriminate. Qed.

(** In a cell of an ascending angular axis, or beyond its last longitude. *)
Lemma beyond_last : forall a x, axis_ok a -> 1 < len a -> a_is_circle a = true -> is_ascending a = true -> (hi (a_cont a) < normalize_coordinate a x)%Q ->
  find_indexes a x = Ok (Some (len a - 1, 0)).
Proof.
  intros a x OK L C A B. pose proof (proj1 OK) as W. pose proof (proj2 (proj2 OK) C) as Hc. destruct (normalize_angle_axis a x W Hc) as ((N1 & N2) & N3 & N4).
  set (y := normalize_coordinate a x) in *. unfold find_indexes. fold y. unfold find_index. rewrite N4.
  destruct (c_find_spec (a_cont a) y false W) as (r & Hr & H). rewrite Hr. cbn [obind]. rewrite C. unfold len in *. set (n := c_size (a_cont a)) in *.
  destruct (Z.eqb_spec r (-1)) as [E|E]; [reflexivity|]. destruct H as [(E' & _)|[R N]]; [congruence|]. rewrite (wf_value _ r W) by exact R.
  unfold is_ascending in A. unfold hi in B. rewrite A in B. fold n in B.
  assert (R' : r = n - 1).
  { destruct (Z.eq_dec r (n - 1)); [assumption|exfalso]. destruct (N (n - 1) ltac:(lia)) as [N' _].
    pose proof (wf_mono _ W r (n - 1) ltac:(lia) ltac:(fold n; lia)) as M. rewrite A in M.
    rewrite (Qabs_pos (y - fval (a_cont a) r)), (Qabs_pos (y - fval (a_cont a) (n - 1))) in N' by lra. lra. }
  subst r. destruct (Qeq_bool (y - fval (a_cont a) (n - 1)) 0) eqn:Q0; [apply Qeq_bool_iff in Q0; exfalso; lra|].
  destruct (Qltb_spec (y - fval (a_cont a) (n - 1)) 0); [exfalso; lra|]. rewrite A. replace (n - 1 + 1) with n by lia.
  assert (Rm : rem_int n n = 0) by (unfold rem_int; rewrite Z.rem_same by lia; reflexivity). rewrite Rm.
  destruct (Z.geb_spec (n - 1) 0); [|lia]. destruct (Z.ltb_spec (n - 1) n); [|lia]. destruct (Z.geb_spec 0 0); [|lia]. destruct (Z.ltb_spec 0 n); [|lia]. reflexivity.
Qed.
Lemma angle_cell : forall a x i0 i1, axis_ok a -> 1 < len a -> is_angle a = true -> is_ascending a = true -> find_indexes a x = Ok (Some (i0, i1)) ->
  let z := normalize_coordinate_min a x (fval (a_cont a) i0) in
  same_angle z x /\ 0 <= i0 < len a /\ 0 <= i1 < len a /\ i0 <> i1 /\
  (cell a z i0 i1 (fval (a_cont a) i0) (fval (a_cont a) i1) \/
   (a_is_circle a = true /\ i0 = len a - 1 /\ i1 = 0 /\ (hi (a_cont a) < z)%Q /\ (z < lo (a_cont a) + 360)%Q)).
Proof.
  intros a x i0 i1 OK L An A F z. pose proof (proj1 OK) as W. pose proof (angle_circle a OK An) as Hc. destruct (normalize_angle_axis a x W Hc) as ((N1 & N2) & N3 & N4).
  set (y := normalize_coordinate a x) in *. destruct (norm_min_angle a x (fval (a_cont a) i0) Hc) as (Z1 & Z2). fold z in Z1, Z2. split; [exact Z2|].
  assert (YZ : same_angle z y) by (eapply same_angle_trans; [exact Z2|apply same_angle_sym; exact N3]).
  destruct (find_indexes_spec a x y OK L eq_refl N4) as (r & Hr & H). rewrite F in Hr. injection Hr as <-. destruct H as (H0 & H1 & H). split; [exact H0|]. split; [exact H1|].
  pose proof (lo_hi _ i0 W H0) as LH.
  destruct H as [(Ad & B & B')|(C & _ & O)].
  - split; [lia|]. left. specialize (B' A). assert (E : (z == y)%Q) by (apply (same_angle_unique z y (fval (a_cont a) i0) YZ); [exact Z1|lra]).
    unfold cell. split; [apply at_index_iff; auto|]. split; [apply at_index_iff; auto|]. split; [exact Ad|]. left. rewrite E. exact B'.
  - assert (B : (hi (a_cont a) < y)%Q) by (destruct O; [exfalso; lra|assumption]). pose proof (beyond_last a x OK L C A B) as F'. rewrite F in F'. injection F' as -> ->. split; [lia|].
    right. assert (Eh : hi (a_cont a) = fval (a_cont a) (len a - 1)) by (unfold hi, len; unfold is_ascending in A; rewrite A; reflexivity).
    assert (E : (z == y)%Q) by (apply (same_angle_unique z y (fval (a_cont a) (len a - 1)) YZ); [exact Z1|lra]).
    split; [exact C|]. split; [reflexivity|]. split; [reflexivity|]. rewrite E. split; [exact B|lra].
Qed.
Lemma angle_found : forall a x z, axis_ok a -> 1 < len a -> is_angle a = true -> same_angle z x -> inside a z -> (z < lo (a_cont a) + 360)%Q -> exists i0 i1, find_indexes a x = Ok (Some (i0, i1)) /\ brackets a z i0 i1.
Proof.
  intros a x z OK L An Hz I B. pose proof (proj1 OK) as W. pose proof (angle_circle a OK An) as Hc. destruct (normalize_angle_axis a x W Hc) as ((N1 & N2) & N3 & N4).
  set (y := normalize_coordinate a x) in *. destruct (find_indexes_spec a x y OK L eq_refl N4) as (r & Hr & H). apply inside_iff in I; [|exact OK].
  assert (E : (z == y)%Q) by (apply (same_angle_unique z y (lo (a_cont a))); [eapply same_angle_trans; [exact Hz|apply same_angle_sym; exact N3]|lra|lra]).
  destruct r as [[i0 i1]|]; [|destruct H as [_ H]; exfalso; lra].
  destruct H as (H0 & H1 & [(Ad & Bk & _)|(_ & _ & O)]); [|exfalso; lra]. exists i0, i1. split; [exact Hr|].
  exists (fval (a_cont a) i0), (fval (a_cont a) i1). split; [apply at_index_iff; auto|]. split; [apply at_index_iff; auto|]. split; [exact Ad|]. rewrite E. exact Bk.
Qed.
Lemma covered_found : forall a x, axis_ok a -> 1 < len a -> is_angle a = true -> (exists z, same_angle z x /\ inside a z) ->
  exists z, same_angle z x /\ inside a z /\ (z < lo (a_cont a) + 360)%Q.
Proof.
  intros a x OK L An (z & Hz & I). pose proof (proj1 OK) as W. pose proof (angle_circle a OK An) as Hc. destruct (normalize_angle_axis a x W Hc) as ((N1 & N2) & N3 & N4).
  set (y := normalize_coordinate a x) in *. apply inside_iff in I; [|exact OK]. assert (S : same_angle z y) by (eapply same_angle_trans; [exact Hz|apply same_angle_sym; exact N3]).
  exists y. split; [exact N3|]. split; [|exact N2]. apply inside_iff; [exact OK|]. split; [exact N1|].
  destruct (Qlt_le_dec z (lo (a_cont a) + 360)) as [Q|Q]; [|lra]. assert ((z == y)%Q) by (apply (same_angle_unique z y (lo (a_cont a)) S); lra). lra.
Qed.
