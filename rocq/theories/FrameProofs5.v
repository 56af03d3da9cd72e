(** Points on the nodes of the grid; the layers of 3-D and 4-D grids. *)
From Verif Require Import Base BaseProofs MathModel MathProofs AxisModel IntAxisModel IntAxisProofs AxisSpec AxisProofs AxisProofs2 AxisProofs5 InterpModel InterpSpec Interp1dModel Interp1dSpec.
From Verif Require Import InterpProofs InterpProofs5 GridModel GridSpec GridProofs GridProofs2 GridProofs4 GridProps4 FrameModel FrameSpec FrameProofs FrameProofs2 FrameProofs3.
Open Scope nat_scope.

(** *** Nodes *)
Lemma window_node a x size s i v : usable a -> 1 <= size -> no_overlap a size -> FrameSpec.window a x size s -> at_index a i v -> same_place a x v ->
  exists k, (k = size - 1 \/ k = size) /\ node a s k = i /\ (abscissa a s x == coord a s k)%Q.
Proof.
  intros U H1 NO W Hi Sx. assert (L := u_len a U). assert (Un := window_unrolled a U x size s H1 NO W). assert (Fi := fits a x size s H1 NO W).
  apply (u_at a U) in Hi as [Hi ->].
  destruct W as (z & i0 & Sz & C & Es & Fit). destruct (cell_bounds a U z i0 C) as (B0 & Z0 & Zi & ZA & _).
  assert (Ez : (z == fval (a_cont a) i)%Q).
  { unfold same_place in Sx, Sz. destruct (is_angle a) eqn:Ang; [|rewrite Sz; exact Sx].
    apply (same_angle_unique z (fval (a_cont a) i) (fval (a_cont a) 0)).
    - eapply same_angle_trans; eauto.
    - split; [exact Z0|apply ZA; reflexivity].
    - assert (N := u_narrow a U Ang). assert (X := u_mono_le a U i (len a - 1) ltac:(lia) ltac:(lia)). assert (Y := u_mono_le a U 0 i ltac:(lia) ltac:(lia)). split; lra. }
  assert (K : exists k, (k = size - 1 \/ k = size) /\ node a s k = i).
  { destruct C as [(v & w & Hv & Hw & A & B)|(C & -> & v & w & Hv & Hw & A & B)]; rewrite (u_at a U) in Hv, Hw; destruct Hv as [Hv ->], Hw as [Hw ->].
    - assert (Hle : (i0 <= i)%Z). { destruct (Z_le_gt_dec i0 i) as [|G]; [assumption|]. assert (X := u_mono a U i i0 ltac:(lia) ltac:(lia)). lra. }
      assert (Hge : (i <= i0 + 1)%Z). { destruct (Z_le_gt_dec i (i0 + 1)) as [|G]; [assumption|]. assert (X := u_mono a U (i0 + 1) i ltac:(lia) ltac:(lia)). destruct B as [B|[_ B]]; lra. }
      destruct (Z.eq_dec i i0) as [->|Ne]; [exists (size - 1)|exists size]; split; auto; unfold node; subst s; rewrite Z.mod_small by lia; lia.
    - exfalso. assert (X := u_mono_le a U i (len a - 1) ltac:(lia) ltac:(lia)). lra. }
  destruct K as (k & Hk & <-). exists k. split; [exact Hk|]. split; [reflexivity|].
  destruct Un as (_ & _ & _ & Sa & _). unfold same_place in Sa, Sx. unfold abscissa in *. destruct (is_angle a) eqn:Ang.
  - destruct (normalize_angle_spec x (coord a s 0) 360 ltac:(lra)) as (A & B & _).
    assert (C0 : (coord a s 0 == fval (a_cont a) (node a s 0))%Q).
    { unfold coord. rewrite Ang. destruct (normalize_angle_spec (fval (a_cont a) (node a s 0)) (fval (a_cont a) (node a s 0)) 360 ltac:(lra)) as (A' & B' & t & T).
      apply (same_angle_unique _ _ (fval (a_cont a) (node a s 0))); [exists t; exact T|split; assumption|split; lra]. }
    assert (Ck : same_angle (coord a s k) (fval (a_cont a) (node a s k)) /\ (fval (a_cont a) (node a s 0) <= coord a s k < fval (a_cont a) (node a s 0) + 360)%Q).
    { unfold coord. rewrite Ang. destruct (normalize_angle_spec (fval (a_cont a) (node a s k)) (fval (a_cont a) (node a s 0)) 360 ltac:(lra)) as (A' & B' & t & T). split; [exists t; exact T|split; assumption]. }
    destruct Ck as [Ck1 Ck2]. apply (same_angle_unique _ _ (coord a s 0)).
    + eapply same_angle_trans; [exact Sa|]. eapply same_angle_trans; [exact Sx|]. apply same_angle_sym. exact Ck1.
    + split; [exact A|exact B].
    + rewrite C0. exact Ck2.
  - unfold coord. rewrite Ang. exact Sx.
Qed.

(** *** The window along z or u *)
Lemma real_window a z b r : axis_ok a -> (1 < len a)%Z -> is_angle a = false -> find_indexes a z = Ok r ->
  find_indexes_window a z 1 b = Ok match r with Some (i, j) => [i; j] | None => [] end.
Proof.
  intros OK L A F. unfold find_indexes_window. change (1 =? 0)%Z with false. cbv iota. rewrite F. cbn [obind]. destruct r as [[i j]|]; [reflexivity|].
  change (1 =? 1)%Z with true. cbv iota. destruct (c_value (a_cont a) 0) as [v|] eqn:V; [|reflexivity]. destruct (Qeqb_spec z v) as [E|E]; [exfalso|reflexivity].
  assert (I : inside a z). { assert (Av : at_index a 0 v) by (apply at_index_iff; [apply OK|]; split; [lia|]; rewrite wf_value in V by (try apply OK; unfold len in L; lia); congruence). exists 0%Z, v, 0%Z, v. repeat split; auto; rewrite E; apply Qle_refl. }
  destruct (plain_indexes a z OK L A I) as (i0 & i1 & G & _). congruence.
Qed.
Lemma z_window_find az z b r : z_usable az -> z_coordinate az z -> z_find_indexes az z = Ok r ->
  z_window az z b = Ok match r with Some (i, j) => [i; j] | None => [] end.
Proof.
  intros U C F. assert (Us := U). assert (Fo := z_find_in az z Us C). destruct az as [a|c]; cbn [z_window z_find_indexes] in *.
  - destruct U as (L & R & A). eapply real_window; eauto. apply reachable_ok, R.
  - rewrite F. cbn [obind]. destruct r as [[i j]|]; [reflexivity|]. destruct U as (L & l & As & U). cbn [z_size] in L.
    assert (W := i_wf_usable c l As U). destruct C as (t & ->). rewrite Qfloor_Z in *.
    destruct (i_coordinate_value c 0) as [v|w|w] eqn:V.
    + cbn [obind]. destruct (Z.eqb_spec t v) as [->|E]; [exfalso|reflexivity].
      destruct Fo as (k0 & k1 & z0 & z1 & F' & _); [|congruence]. exists 0%Z, (inject_Z v), 0%Z, (inject_Z v). split; [exists v; auto|]. split; [exists v; auto|]. split; apply Qle_refl.
    + exfalso. assert (X := proj2 (i_at_iff c 0 (iv c 0))). unfold i_at in X. rewrite X in V by (split; [lia|reflexivity]). discriminate.
    + exfalso. assert (X := proj2 (i_at_iff c 0 (iv c 0))). unfold i_at in X. rewrite X in V by (split; [lia|reflexivity]). discriminate.
Qed.

(** *** 3-D *)
Lemma level_usable g k : usable_grid3 g -> usable_grid (level g k).
Proof.
  intros (Ux & Uy & Py & _ & G). unfold usable_grid. assert (H := level_grid _ _ _ _ _ k G). cbn [level g2_x g2_y g2_array] in *. auto.
Qed.
Lemma hyper_usable g k : usable_grid4 g -> usable_grid3 (hyper_level g k).
Proof.
  intros (Ux & Uy & Py & Uz & _ & G). unfold usable_grid3. assert (H := hyper_level_grid _ _ _ _ _ _ k G). cbn [hyper_level g3_x g3_y g3_z g3_array] in *. auto.
Qed.
Definition pair_of {A B C} (f : A -> B -> C) (a : option A) (b : option B) : option C := match a, b with Some a, Some b => Some (f a b) | _, _ => None end.
Section Load3.
  Variables (g : grid3) (x y z : Q) (nx ny : nat) (sx sy k0 k1 : Z) (z0 z1 : Q) (b : boundary) (be : bool).
  Hypotheses (U : usable_grid3 g) (Hx : 1 <= nx) (Hy : 1 <= ny) (Ox : no_overlap (g3_x g) nx).
  Hypotheses (Wx : FrameSpec.window (g3_x g) x nx sx) (Wy : FrameSpec.window (g3_y g) y ny sy).
  Hypotheses (Wz : z_window (g3_z g) z b = Ok [k0; k1]) (Z0 : z_at_index (g3_z g) k0 z0) (Z1 : z_at_index (g3_z g) k1 z1).
  Let F q := Frame2 (XS (g3_x g) nx sx) (YS (g3_y g) ny sy) q.
  Lemma load3_ok : load_frame3 g x y z nx ny b be =
    Ok (pair_of (fun q0 q1 => ((z0, F q0), (z1, F q1))) (layer nx ny (value_at (level g k0) sx sy)) (layer nx ny (value_at (level g k1) sx sy))).
  Proof.
    assert (Us := U). destruct U as (Ux & Uy & Py & Uz & G). destruct (new_grid3_inv _ _ _ _ _ G) as (_ & Sh & _).
    destruct (z_range _ _ _ Uz Z0) as [R0 E0]. destruct (z_range _ _ _ Uz Z1) as [R1 E1].
    unfold load_frame3. rewrite Wz, (window_indexes _ Uy y ny sy b Hy (Oy _ ny Uy Py) Wy), (window_indexes _ Ux x nx sx b Hx Ox Wx). cbn [obind].
    assert (L : forall k, (0 <= k < z_size (g3_z g))%Z -> frame_layer (g3_array g) (map (node (g3_x g) sx) (seq 0 (2 * nx))) (map (node (g3_y g) sy) (seq 0 (2 * ny))) [k] = Ok (layer nx ny (value_at (level g k) sx sy))).
    { intros k Hk. apply layer_ok. intros i j Hi Hj. rewrite (grid_value3 _ _ _ _ _ _ _ Sh) by (try apply node_range; auto). reflexivity. }
    assert (L0 := L k0 R0). assert (L1 := L k1 R1). assert (Fi := first_ok (g3_x g) nx sx Hx). assert (Xs := xs_ok (g3_x g) nx sx Ux _ eq_refl). assert (Ys := ys_ok (g3_y g) ny sy Uy Py).
    destruct (map_seq_nil (node (g3_x g) sx) nx Hx) as (h & t & Ex). destruct (map_seq_nil (node (g3_y g) sy) ny Hy) as (h' & t' & Ey).
    rewrite Ex, Ey in *. rewrite Fi. cbn [obind]. rewrite (u_axis_at _ Ux) by (apply node_range; exact Ux). cbn [obind]. rewrite Ys. cbn [obind two]. rewrite E0, E1. cbn [obind]. rewrite Xs. cbn [obind]. rewrite L0, L1. cbn [obind].
    unfold pair_of, F. destruct (layer nx ny (value_at (level g k0) sx sy)), (layer nx ny (value_at (level g k1) sx sy)); reflexivity.
  Qed.
End Load3.
Section Load4.
  Variables (g : grid4) (x y z u : Q) (nx ny : nat) (sx sy k0 k1 l0 l1 : Z) (z0 z1 u0 u1 : Q) (b : boundary) (be : bool).
  Hypotheses (U : usable_grid4 g) (Hx : 1 <= nx) (Hy : 1 <= ny) (Ox : no_overlap (g4_x g) nx).
  Hypotheses (Wx : FrameSpec.window (g4_x g) x nx sx) (Wy : FrameSpec.window (g4_y g) y ny sy).
  Hypotheses (Wz : z_window (g4_z g) z b = Ok [k0; k1]) (Z0 : z_at_index (g4_z g) k0 z0) (Z1 : z_at_index (g4_z g) k1 z1).
  Hypotheses (Wu : find_indexes_window (g4_u g) u 1 b = Ok [l0; l1]) (U0 : at_index (g4_u g) l0 u0) (U1 : at_index (g4_u g) l1 u1).
  Let F q := Frame2 (XS (g4_x g) nx sx) (YS (g4_y g) ny sy) q.
  Let V k l := layer nx ny (value_at (level (hyper_level g l) k) sx sy).
  Lemma load4_ok : load_frame4 g x y z u nx ny b be =
    Ok (pair_of (fun a c => ((z0, z1), (u0, u1), (F (fst a), F (snd a), F (fst c), F (snd c)))) (pair_of pair (V k0 l0) (V k1 l0)) (pair_of pair (V k0 l1) (V k1 l1))).
  Proof.
    assert (Us := U). destruct U as (Ux & Uy & Py & Uz & (Ru & Lu & Au) & G). destruct (new_grid4_inv _ _ _ _ _ _ G) as (_ & Sh & _).
    destruct (z_range _ _ _ Uz Z0) as [R0 E0]. destruct (z_range _ _ _ Uz Z1) as [R1 E1]. assert (OU := reachable_ok _ Ru).
    apply at_index_iff in U0 as [S0 ->]; [|apply OU]. apply at_index_iff in U1 as [S1 ->]; [|apply OU].
    unfold load_frame4. rewrite Wu. cbn [obind]. rewrite Wz, (window_indexes _ Uy y ny sy b Hy (Oy _ ny Uy Py) Wy), (window_indexes _ Ux x nx sx b Hx Ox Wx). cbn [obind].
    assert (L : forall k l, (0 <= k < z_size (g4_z g))%Z -> (0 <= l < len (g4_u g))%Z -> frame_layer (g4_array g) (map (node (g4_x g) sx) (seq 0 (2 * nx))) (map (node (g4_y g) sy) (seq 0 (2 * ny))) [k; l] = Ok (V k l)).
    { intros k l Hk Hl. apply layer_ok. intros i j Hi Hj. rewrite (grid_value4 _ _ _ _ _ _ _ _ _ Sh) by (try apply node_range; auto). reflexivity. }
    assert (L00 := L k0 l0 R0 S0). assert (L10 := L k1 l0 R1 S0). assert (L01 := L k0 l1 R0 S1). assert (L11 := L k1 l1 R1 S1).
    assert (Fi := first_ok (g4_x g) nx sx Hx). assert (Xs := xs_ok (g4_x g) nx sx Ux _ eq_refl). assert (Ys := ys_ok (g4_y g) ny sy Uy Py).
    destruct (map_seq_nil (node (g4_x g) sx) nx Hx) as (h & t & Ex). destruct (map_seq_nil (node (g4_y g) sy) ny Hy) as (h' & t' & Ey).
    rewrite Ex, Ey in *. rewrite Fi. cbn [obind]. rewrite (u_axis_at _ Ux) by (apply node_range; exact Ux). cbn [obind]. rewrite Ys. cbn [obind two]. rewrite E0, E1. cbn [obind].
    rewrite !axis_at_ok by (try apply OU; assumption). cbn [obind]. rewrite Xs. cbn [obind]. rewrite L00, L10, L01, L11. cbn [obind].
    unfold pair_of, F. destruct (V k0 l0), (V k1 l0), (V k0 l1), (V k1 l1); reflexivity.
  Qed.
End Load4.

(** Outside. *)
Lemma inside_dec a z : axis_ok a -> inside a z \/ ~ inside a z.
Proof. intro OK. rewrite (inside_iff a z OK). destruct (Qlt_le_dec z (lo (a_cont a))); [right; lra|]. destruct (Qlt_le_dec (hi (a_cont a)) z); [right; lra|left; auto]. Qed.
Lemma load3_outside g x y z nx ny be : usable_grid3 g -> 1 <= nx -> 1 <= ny -> no_overlap (g3_x g) nx -> z_coordinate (g3_z g) z ->
  ~ ((exists s, FrameSpec.window (g3_x g) x nx s) /\ (exists s, FrameSpec.window (g3_y g) y ny s) /\ z_inside (g3_z g) z) ->
  load_frame3 g x y z nx ny kUndef be = if be then Throw "Unable to frame the value" else Ok None.
Proof.
  intros (Ux & Uy & Py & Uz & _) Hx Hy O Cz NW. unfold load_frame3.
  assert (Dz : exists l, z_window (g3_z g) z kUndef = Ok l /\ (l = [] \/ z_inside (g3_z g) z)).
  { assert (T : exists r, z_find_indexes (g3_z g) z = Ok r).
    { destruct (g3_z g) as [a|ca]; cbn [z_find_indexes]; [apply find_indexes_total; [apply reachable_ok, Uz|apply Uz]|].
      destruct Uz as (L & l & As & Uz). destruct (i_find_indexes_spec ca (Qfloor z) (i_wf_usable ca l As Uz) L) as (r & F & _). eauto. }
    destruct T as (r & T). rewrite (z_window_find _ _ kUndef r Uz Cz T). eexists. split; [reflexivity|]. destruct r as [[i j]|]; [right|left; reflexivity].
    assert (X := fun N => z_find_out _ z Uz Cz N). destruct (g3_z g) as [a|ca]; cbn [z_find_indexes] in *.
    - destruct (inside_dec a z (reachable_ok _ (proj1 (proj2 Uz)))) as [I|I]; [exact I|]. rewrite (X I) in T. discriminate.
    - destruct Uz as (L & l & As & Uz). destruct Cz as (t & ->). rewrite Qfloor_Z in *. destruct (i_find_indexes_spec ca t (i_wf_usable ca l As Uz) L) as (r & F & H). rewrite T in F. injection F as <-.
      destruct H as (v0 & v1 & H0 & H1 & Ad & [B|B]).
      + exists i, (inject_Z v0), j, (inject_Z v1). rewrite <- !Zle_Qle. split; [exists v0; auto|]. split; [exists v1; auto|]. exact B.
      + exists j, (inject_Z v1), i, (inject_Z v0). rewrite <- !Zle_Qle. split; [exists v1; auto|]. split; [exists v0; auto|]. exact B. }
  destruct Dz as (l & -> & Dz). cbn [obind].
  assert (Dx : exists l, find_indexes_window (g3_x g) x (Z.of_nat nx) kUndef = Ok l /\ (l = [] \/ exists s, FrameSpec.window (g3_x g) x nx s)).
  { destruct (window_dec (g3_x g) x nx Ux Hx) as [(sx & Wx)|Wx]; [rewrite (window_indexes _ Ux x nx sx kUndef Hx O Wx)|rewrite (no_window _ Ux x nx Hx Wx)]; eauto. }
  assert (Dy : exists l, find_indexes_window (g3_y g) y (Z.of_nat ny) kUndef = Ok l /\ (l = [] \/ exists s, FrameSpec.window (g3_y g) y ny s)).
  { destruct (window_dec (g3_y g) y ny Uy Hy) as [(sx & Wx)|Wx]; [rewrite (window_indexes _ Uy y ny sx kUndef Hy (Oy _ ny Uy Py) Wx)|rewrite (no_window _ Uy y ny Hy Wx)]; eauto. }
  destruct Dx as (lx & -> & Dx), Dy as (ly & -> & Dy). cbn [obind].
  destruct lx; [reflexivity|]. destruct ly; [reflexivity|]. destruct l; [reflexivity|]. exfalso. apply NW. destruct Dx, Dy, Dz; try discriminate. auto.
Qed.
