(** 3-D and 4-D grids: the two layers, or the four, are interpolated separately. *)
From Verif Require Import Base BaseProofs MathModel MathProofs AxisModel IntAxisModel IntAxisProofs AxisSpec AxisProofs AxisProofs2 AxisProofs5 InterpModel InterpSpec Interp1dModel Interp1dSpec.
From Verif Require Import InterpProofs InterpProofs5 GridModel GridSpec GridProofs GridProofs2 GridProofs4 GridProps4 FrameModel FrameSpec FrameProofs FrameProofs2 FrameProofs3 FrameProofs5.
Open Scope nat_scope.

Lemma load3_cases g x y z nx ny be : usable_grid3 g -> 1 <= nx -> 1 <= ny -> no_overlap (g3_x g) nx -> z_coordinate (g3_z g) z ->
  (~ ((exists s, FrameSpec.window (g3_x g) x nx s) /\ (exists s, FrameSpec.window (g3_y g) y ny s) /\ z_inside (g3_z g) z) /\
   load_frame3 g x y z nx ny kUndef be = if be then Throw "Unable to frame the value" else Ok None) \/
  exists sx sy k0 k1 z0 z1, FrameSpec.window (g3_x g) x nx sx /\ FrameSpec.window (g3_y g) y ny sy /\ z_cell (g3_z g) z k0 k1 z0 z1 /\ z_find_indexes (g3_z g) z = Ok (Some (k0, k1)) /\
    load_frame3 g x y z nx ny kUndef be =
    Ok (pair_of (fun q0 q1 => ((z0, Frame2 (XS (g3_x g) nx sx) (YS (g3_y g) ny sy) q0), (z1, Frame2 (XS (g3_x g) nx sx) (YS (g3_y g) ny sy) q1)))
         (layer nx ny (value_at (level g k0) sx sy)) (layer nx ny (value_at (level g k1) sx sy))).
Proof.
  intros U Hx Hy O C. assert (Us := U). destruct Us as (Ux & Uy & Py & Uz & _).
  destruct (window_dec (g3_x g) x nx Ux Hx) as [(sx & Wx)|Wx]; [|left; split; [tauto|apply load3_outside; auto; tauto]].
  destruct (window_dec (g3_y g) y ny Uy Hy) as [(sy & Wy)|Wy]; [|left; split; [tauto|apply load3_outside; auto; tauto]].
  assert (Dz : z_inside (g3_z g) z \/ ~ z_inside (g3_z g) z).
  { destruct (g3_z g) as [a|c]; [apply inside_dec, reachable_ok, Uz|]. assert (F := z_find_in (ZTime c) z Uz C). assert (N := z_find_out (ZTime c) z Uz C).
    destruct Uz as (L & l & As & Uz). destruct C as (t & ->). cbn [z_find_indexes] in *. rewrite Qfloor_Z in *. destruct (i_find_indexes_spec c t (i_wf_usable c l As Uz) L) as (r & Fr & H). rewrite Fr in *.
    destruct r as [[i j]|].
    - left. destruct H as (v0 & v1 & H0 & H1 & Ad & [B|B]).
      + exists i, (inject_Z v0), j, (inject_Z v1). rewrite <- !Zle_Qle. split; [exists v0; auto|]. split; [exists v1; auto|]. exact B.
      + exists j, (inject_Z v1), i, (inject_Z v0). rewrite <- !Zle_Qle. split; [exists v1; auto|]. split; [exists v0; auto|]. exact B.
    - right. intro I. destruct (F I) as (? & ? & ? & ? & E & _). discriminate. }
  destruct Dz as [I|I]; [|left; split; [tauto|apply load3_outside; auto; tauto]].
  right. destruct (z_find_in _ z Uz C I) as (k0 & k1 & z0 & z1 & F & CC). exists sx, sy, k0, k1, z0, z1. split; [exact Wx|]. split; [exact Wy|]. split; [exact CC|]. split; [exact F|].
  destruct CC as (Z0 & Z1 & _). apply load3_ok; auto. exact (z_window_find _ _ kUndef _ Uz C F).
Qed.
Lemma load4_cases g x y z u nx ny be : usable_grid4 g -> 1 <= nx -> 1 <= ny -> no_overlap (g4_x g) nx -> z_coordinate (g4_z g) z ->
  (~ ((exists s, FrameSpec.window (g4_x g) x nx s) /\ (exists s, FrameSpec.window (g4_y g) y ny s) /\ z_inside (g4_z g) z /\ inside (g4_u g) u) /\
   load_frame4 g x y z u nx ny kUndef be = if be then Throw "Unable to frame the value" else Ok None) \/
  exists sx sy k0 k1 z0 z1 l0 l1 u0 u1, FrameSpec.window (g4_x g) x nx sx /\ FrameSpec.window (g4_y g) y ny sy /\ z_cell (g4_z g) z k0 k1 z0 z1 /\ z_find_indexes (g4_z g) z = Ok (Some (k0, k1)) /\
    cell (g4_u g) u l0 l1 u0 u1 /\ find_indexes (g4_u g) u = Ok (Some (l0, l1)) /\
    let F q := Frame2 (XS (g4_x g) nx sx) (YS (g4_y g) ny sy) q in
    let V k l := layer nx ny (value_at (level (hyper_level g l) k) sx sy) in
    load_frame4 g x y z u nx ny kUndef be =
    Ok (pair_of (fun a c => ((z0, z1), (u0, u1), (F (fst a), F (snd a), F (fst c), F (snd c)))) (pair_of pair (V k0 l0) (V k1 l0)) (pair_of pair (V k0 l1) (V k1 l1))).
Proof.
  intros U Hx Hy O C. assert (Us := U). destruct Us as (Ux & Uy & Py & Uz & (Ru & Lu & Au) & _). assert (OU := reachable_ok _ Ru).
  destruct (load3_cases (hyper_level g 0) x y z nx ny be (hyper_usable g 0 U) Hx Hy O C) as [(N & E)|(sx & sy & k0 & k1 & z0 & z1 & Wx & Wy & CC & F & E)]; cbn [hyper_level g3_x g3_y g3_z] in *.
  - left. split; [tauto|]. assert (Dz : exists r, z_window (g4_z g) z kUndef = Ok r). { clear E. 
      assert (T : exists r, z_find_indexes (g4_z g) z = Ok r).
      { destruct (g4_z g) as [a|ca]; cbn [z_find_indexes]; [apply find_indexes_total; [apply reachable_ok, Uz|apply Uz]|].
        destruct Uz as (L & l & As & Uz). destruct (i_find_indexes_spec ca (Qfloor z) (i_wf_usable ca l As Uz) L) as (r & F & _). eauto. }
      destruct T as (r & T). rewrite (z_window_find _ _ kUndef r Uz C T). eauto. }
    unfold load_frame4. unfold load_frame3 in E. cbn [g3_x g3_y g3_z] in E. destruct Dz as (lz & Ez). rewrite Ez in *. cbn [obind] in E.
    destruct (find_indexes_total _ u OU Lu) as (r & Fu). rewrite (real_window _ u kUndef r OU Lu Au Fu). cbn [obind].
    assert (Dx : exists l, find_indexes_window (g4_x g) x (Z.of_nat nx) kUndef = Ok l /\ (l = [] \/ exists s, FrameSpec.window (g4_x g) x nx s)).
    { destruct (window_dec (g4_x g) x nx Ux Hx) as [(sx & Wx)|Wx]; [rewrite (window_indexes _ Ux x nx sx kUndef Hx O Wx)|rewrite (no_window _ Ux x nx Hx Wx)]; eauto. }
    assert (Dy : exists l, find_indexes_window (g4_y g) y (Z.of_nat ny) kUndef = Ok l /\ (l = [] \/ exists s, FrameSpec.window (g4_y g) y ny s)).
    { destruct (window_dec (g4_y g) y ny Uy Hy) as [(sx & Wx)|Wx]; [rewrite (window_indexes _ Uy y ny sx kUndef Hy (Oy _ ny Uy Py) Wx)|rewrite (no_window _ Uy y ny Hy Wx)]; eauto. }
    destruct Dx as (lx & Ex & Dx), Dy as (ly & Ey & Dy). rewrite Ex, Ey in *. cbn [obind] in *. destruct lx as [|hx tx]; [reflexivity|]. destruct ly as [|hy ty]; [reflexivity|]. destruct lz as [|hz tz]; [reflexivity|].
    exfalso. apply N. destruct Dx as [Dx|Dx]; [discriminate|]. destruct Dy as [Dy|Dy]; [discriminate|]. split; [exact Dx|]. split; [exact Dy|].
    destruct (load3_cases (hyper_level g 0) x y z nx ny be (hyper_usable g 0 U) Hx Hy O C) as [(N' & _)|(? & ? & k0 & k1 & z0 & z1 & _ & _ & CC & _)].
    + exfalso. clear N. assert (Nz : ~ z_inside (g4_z g) z) by (intro; apply N'; auto). rewrite (z_window_find _ _ kUndef _ Uz C (z_find_out _ z Uz C Nz)) in Ez. discriminate.
    + cbn [hyper_level g3_z] in CC. destruct CC as (Z0 & Z1 & _ & [[B1 B2]|[B1 B2]]); [exists k0, z0, k1, z1|exists k1, z1, k0, z0]; auto.
  - destruct (inside_dec (g4_u g) u OU) as [I|I].
    + right. destruct (plain_indexes _ u OU Lu Au I) as (l0 & l1 & Fu & B). destruct (cell_brackets _ u l0 l1 (proj1 OU) B) as (_ & _ & _ & CU).
      exists sx, sy, k0, k1, z0, z1, l0, l1, (fval (a_cont (g4_u g)) l0), (fval (a_cont (g4_u g)) l1). do 6 (split; [assumption|]). cbv zeta. destruct CC as (Z0 & Z1 & _). destruct CU as (U0 & U1 & _).
      apply load4_ok; auto; [exact (z_window_find _ _ kUndef _ Uz C F)|exact (real_window _ u kUndef _ OU Lu Au Fu)].
    + left. split; [tauto|]. assert (Fu := plain_none _ u OU Lu Au I). unfold load_frame4. rewrite (real_window _ u kUndef _ OU Lu Au Fu). cbn [obind].
      rewrite (z_window_find _ _ kUndef _ Uz C F). cbn [obind]. rewrite (window_indexes _ Uy y ny sy kUndef Hy (Oy _ ny Uy Py) Wy), (window_indexes _ Ux x nx sx kUndef Hx O Wx). cbn [obind].
      destruct (map_seq_nil (node (g4_x g) sx) nx Hx) as (h & t & ->). destruct (map_seq_nil (node (g4_y g) sy) ny Hy) as (h' & t' & ->). reflexivity.
Qed.
Lemma cell_differ az z k0 k1 z0 z1 : z_usable az -> z_cell az z k0 k1 z0 z1 -> ~ (z0 == z1)%Q.
Proof.
  intros U (Z0 & Z1 & A & _). destruct az as [a|c]; cbn [z_at_index] in *.
  - destruct U as (L & R & _). assert (OK := reachable_ok _ R). apply at_index_iff in Z0 as [R0 ->]; [|apply OK]. apply at_index_iff in Z1 as [R1 ->]; [|apply OK]. apply fval_neq; auto; [apply OK|lia].
  - destruct U as (L & l & As & U). assert (W := i_wf_usable c l As U). destruct Z0 as (t0 & Z0 & ->), Z1 as (t1 & Z1 & ->). intro E. rewrite inject_Z_injective in E. apply i_at_iff in Z0 as [R0 E0], Z1 as [R1 E1]. assert (M := i_mono c W). assert (M0 := M k0 k1). assert (M1 := M k1 k0). destruct (i_asc c); destruct (Z.lt_total k0 k1) as [?|[?|?]]; lia.
Qed.

Section Steps.
  Variable pk : nat -> nat -> list nat.
  Hypothesis P : all_cells pk.
  Variables (k : bool * string) (nx ny : nat).
  Hypotheses (Hx : 1 <= nx) (Hy : 1 <= ny) (S : it_steady k nx ny).
  (** What [interpolate2] returns does not depend on the object. *)
  Lemma run_step it0 it x y f : frame_ok nx ny f -> it_used pk k nx ny it0 -> it_used pk k nx ny it ->
    match interpolate2 pk it x y f with
    | Ok (it', v) => res (interpolate2 pk it0 x y f) = Ok v /\ it_used pk k nx ny it'
    | Throw w => res (interpolate2 pk it0 x y f) = Throw w
    | UB w => res (interpolate2 pk it0 x y f) = UB w
    end.
  Proof.
    intros F U0 U. destruct (interp_steady pk P k nx ny it it0 x y f Hx Hy S F U U0) as [R N].
    destruct (interpolate2 pk it x y f) as [[it' v]|w|w]; rewrite <- R; auto. split; [reflexivity|eapply N; reflexivity].
  Qed.

  Lemma step3_steady g be it1 it2 p : usable_grid3 g -> no_overlap (g3_x g) nx -> z_coordinate (g3_z g) (snd p) -> it_used pk k nx ny it1 -> it_used pk k nx ny it2 ->
    res (step3 pk g nx ny kUndef be it1 p) = res (step3 pk g nx ny kUndef be it2 p) /\ forall it' v, step3 pk g nx ny kUndef be it1 p = Ok (it', v) -> it_used pk k nx ny it'.
  Proof.
    intros U O C U1 U2. destruct p as [[x y] z]. cbn [snd] in C. cbn [step3].
    destruct (load3_cases g x y z nx ny be U Hx Hy O C) as [(_ & ->)|(sx & sy & k0 & k1 & z0 & z1 & Wx & Wy & _ & _ & ->)].
    - destruct be; cbn; split; try discriminate; auto. intros it' v [= <- _]. exact U1.
    - cbn [obind]. destruct (layer nx ny (value_at (level g k0) sx sy)) as [q0|] eqn:L0, (layer nx ny (value_at (level g k1) sx sy)) as [q1|] eqn:L1; cbn [pair_of]; try (split; [reflexivity|]; intros it' v [= <- _]; exact U1).
      apply layer_inv in L0 as (w0 & _ & ->). apply layer_inv in L1 as (w1 & _ & ->). erewrite abscissa_ok by eauto. cbn [obind].
      assert (F0 := frame_window_ok (level g k0) nx ny x y sx sy w0 (level_usable g k0 U) Hx Hy O Wx Wy). assert (F1 := frame_window_ok (level g k1) nx ny x y sx sy w1 (level_usable g k1 U) Hx Hy O Wx Wy). cbn [level g2_x g2_y] in F0, F1.
      set (f0 := Frame2 _ _ (map (col nx w0) _)) in *. set (f1 := Frame2 _ _ (map (col nx w1) _)) in *. set (X := abscissa _ _ _).
      assert (A := run_step it2 it1 X y f0 F0 U2 U1). assert (B := run_step it2 it2 X y f0 F0 U2 U2).
      destruct (interpolate2 pk it1 X y f0) as [[a1 v1]|m|m], (interpolate2 pk it2 X y f0) as [[a2 v2]|m'|m']; cbn in A, B; cbn [obind]; try (destruct A; discriminate); try discriminate; try (split; [cbn; congruence|discriminate]).
      destruct A as [A V1], B as [_ V2]. injection A as <-.
      assert (A := run_step a2 a1 X y f1 F1 V2 V1). assert (B := run_step a2 a2 X y f1 F1 V2 V2).
      destruct (interpolate2 pk a1 X y f1) as [[b1 w2]|m|m], (interpolate2 pk a2 X y f1) as [[b2 w3]|m'|m']; cbn in A, B; cbn [obind]; try (destruct A; discriminate); try discriminate; try (split; [cbn; congruence|discriminate]).
      destruct A as [A W1]. injection A as <-. split; [reflexivity|]. intros it' v [= <- _]. exact W1.
  Qed.
  Lemma step3_levels g be it it0 x y z k0 k1 z0 z1 v0 v1 : usable_grid3 g -> no_overlap (g3_x g) nx -> z_coordinate (g3_z g) z -> z_find_indexes (g3_z g) z = Ok (Some (k0, k1)) -> z_cell (g3_z g) z k0 k1 z0 z1 ->
    it_used pk k nx ny it -> it_used pk k nx ny it0 ->
    res (step2 pk (level g k0) nx ny kUndef be it0 (x, y)) = Ok v0 -> res (step2 pk (level g k1) nx ny kUndef be it0 (x, y)) = Ok v1 ->
    res (step3 pk g nx ny kUndef be it (x, y, z)) = Ok (linear_z z z0 z1 v0 v1).
  Proof.
    intros U O C Fz CC U1 U0 E0 E1. assert (Uz := proj1 (proj2 (proj2 (proj2 U)))). assert (D := cell_differ _ _ _ _ _ _ Uz CC).
    destruct (C55_methods z z0 z1 D) as (_ & Mn & _). cbn [step3].
    destruct (load3_cases g x y z nx ny be U Hx Hy O C) as [(N & ->)|(sx & sy & k0' & k1' & z0' & z1' & Wx & Wy & CC' & F' & ->)].
    - assert (N' : ~ ((exists s, FrameSpec.window (g3_x g) x nx s) /\ exists s, FrameSpec.window (g3_y g) y ny s)).
      { intros [A B]. apply N. split; [exact A|]. split; [exact B|]. destruct CC as (Z0 & Z1 & _ & [[B1 B2]|[B1 B2]]); [exists k0, z0, k1, z1|exists k1, z1, k0, z0]; auto. }
      rewrite (step_outside pk (level g k0) nx ny (level_usable g k0 U) Hx Hy O be it0 x y N') in E0. rewrite (step_outside pk (level g k1) nx ny (level_usable g k1 U) Hx Hy O be it0 x y N') in E1.
      destruct be; [discriminate|]. cbn in *. injection E0 as <-. injection E1 as <-. rewrite Mn by auto. reflexivity.
    - rewrite Fz in F'. injection F' as <- <-.
      assert (Ez : z0' = z0 /\ z1' = z1). { destruct CC as (A0 & A1 & _), CC' as (B0 & B1 & _). apply z_range in A0 as [_ A0], A1 as [_ A1], B0 as [_ B0], B1 as [_ B1]; auto. split; congruence. } destruct Ez as [-> ->].
      rewrite (step_window pk (level g k0) nx ny (level_usable g k0 U) Hx Hy O kUndef be it0 x y sx sy Wx Wy) in E0. rewrite (step_window pk (level g k1) nx ny (level_usable g k1 U) Hx Hy O kUndef be it0 x y sx sy Wx Wy) in E1. cbn [level g2_x g2_y] in E0, E1.
      fold (level g k0) in E0. fold (level g k1) in E1. cbn [obind].
      destruct (layer nx ny (value_at (level g k0) sx sy)) as [q0|] eqn:L0, (layer nx ny (value_at (level g k1) sx sy)) as [q1|] eqn:L1; cbn [pair_of]; try (cbn in E0, E1; cbn; f_equal; symmetry; apply Mn; first [left; congruence|right; congruence]).
      apply layer_inv in L0 as (w0 & _ & ->). apply layer_inv in L1 as (w1 & _ & ->). erewrite abscissa_ok by eauto. cbn [obind].
      assert (F0 := frame_window_ok (level g k0) nx ny x y sx sy w0 (level_usable g k0 U) Hx Hy O Wx Wy). assert (F1 := frame_window_ok (level g k1) nx ny x y sx sy w1 (level_usable g k1 U) Hx Hy O Wx Wy). cbn [level g2_x g2_y] in F0, F1.
      set (f0 := Frame2 _ _ (map (col nx w0) _)) in *. set (f1 := Frame2 _ _ (map (col nx w1) _)) in *. set (X := abscissa _ _ _) in *.
      assert (A := run_step it0 it X y f0 F0 U0 U1). destruct (interpolate2 pk it X y f0) as [[a1 y1]|m|m]; [|congruence|congruence]. destruct A as [A V1]. cbn [obind].
      assert (B := run_step it0 a1 X y f1 F1 U0 V1). destruct (interpolate2 pk a1 X y f1) as [[b1 y2]|m|m]; [|congruence|congruence]. destruct B as [B _]. cbn. congruence.
  Qed.

  Lemma step4_steady g be it1 it2 p : usable_grid4 g -> no_overlap (g4_x g) nx -> z_coordinate (g4_z g) (snd (fst p)) -> it_used pk k nx ny it1 -> it_used pk k nx ny it2 ->
    res (step4 pk g nx ny kUndef be it1 p) = res (step4 pk g nx ny kUndef be it2 p) /\ forall it' v, step4 pk g nx ny kUndef be it1 p = Ok (it', v) -> it_used pk k nx ny it'.
  Proof.
    intros U O C U1 U2. destruct p as [[[x y] z] u]. cbn [snd fst] in C. cbn [step4].
    destruct (load4_cases g x y z u nx ny be U Hx Hy O C) as [(_ & ->)|(sx & sy & k0 & k1 & z0 & z1 & l0 & l1 & u0 & u1 & Wx & Wy & _ & _ & _ & _ & E)].
    - destruct be; cbn; split; try discriminate; auto. intros it' v [= <- _]. exact U1.
    - rewrite E. clear E. cbn [obind]. set (V := fun k l => layer nx ny (value_at (level (hyper_level g l) k) sx sy)). fold (V k0 l0) (V k1 l0) (V k0 l1) (V k1 l1).
      destruct (V k0 l0) as [q00|] eqn:L00, (V k1 l0) as [q10|] eqn:L10, (V k0 l1) as [q01|] eqn:L01, (V k1 l1) as [q11|] eqn:L11; cbn [pair_of fst snd]; try (split; [reflexivity|]; intros it' v [= <- _]; exact U1).
      apply layer_inv in L00 as (w00 & _ & ->). apply layer_inv in L10 as (w10 & _ & ->). apply layer_inv in L01 as (w01 & _ & ->). apply layer_inv in L11 as (w11 & _ & ->).
      erewrite abscissa_ok by eauto. cbn [obind].
      assert (F : forall w, frame_ok nx ny (Frame2 (XS (g4_x g) nx sx) (YS (g4_y g) ny sy) (map (col nx w) (seq 0 (2 * ny))))).
      { intro w. exact (frame_window_ok (level (hyper_level g 0) 0) nx ny x y sx sy w (level_usable _ 0 (hyper_usable g 0 U)) Hx Hy O Wx Wy). }
      set (X := abscissa _ _ _). assert (F00 := F w00). assert (F10 := F w10). assert (F01 := F w01). assert (F11 := F w11). clear F.
      set (f00 := Frame2 _ _ (map (col nx w00) _)) in *. set (f10 := Frame2 _ _ (map (col nx w10) _)) in *. set (f01 := Frame2 _ _ (map (col nx w01) _)) in *. set (f11 := Frame2 _ _ (map (col nx w11) _)) in *. clearbody f00 f10 f01 f11.
      assert (A := run_step it2 it1 X y f00 F00 U2 U1). assert (B := run_step it2 it2 X y f00 F00 U2 U2).
      destruct (interpolate2 pk it1 X y f00) as [[a1 v1]|m|m], (interpolate2 pk it2 X y f00) as [[a2 v2]|m'|m']; cbn in A, B; cbn [obind]; try (destruct A; discriminate); try discriminate; try (split; [cbn; congruence|discriminate]).
      destruct A as [A V1], B as [_ V2]. injection A as <-.
      assert (A := run_step a2 a1 X y f10 F10 V2 V1). assert (B := run_step a2 a2 X y f10 F10 V2 V2).
      destruct (interpolate2 pk a1 X y f10) as [[b1 y1]|m|m], (interpolate2 pk a2 X y f10) as [[b2 y2]|m'|m']; cbn in A, B; cbn [obind]; try (destruct A; discriminate); try discriminate; try (split; [cbn; congruence|discriminate]).
      destruct A as [A W1], B as [_ W2]. injection A as <-.
      assert (A := run_step b2 b1 X y f01 F01 W2 W1). assert (B := run_step b2 b2 X y f01 F01 W2 W2).
      destruct (interpolate2 pk b1 X y f01) as [[c1 s1]|m|m], (interpolate2 pk b2 X y f01) as [[c2 s2]|m'|m']; cbn in A, B; cbn [obind]; try (destruct A; discriminate); try discriminate; try (split; [cbn; congruence|discriminate]).
      destruct A as [A X1], B as [_ X2]. injection A as <-.
      assert (A := run_step c2 c1 X y f11 F11 X2 X1). assert (B := run_step c2 c2 X y f11 F11 X2 X2).
      destruct (interpolate2 pk c1 X y f11) as [[d1 t1]|m|m], (interpolate2 pk c2 X y f11) as [[d2 t2]|m'|m']; cbn in A, B; cbn [obind]; try (destruct A; discriminate); try discriminate; try (split; [cbn; congruence|discriminate]).
      destruct A as [A Y1]. injection A as <-. split; [reflexivity|]. intros it' v [= <- _]. exact Y1.
  Qed.
  Lemma step4_levels g be it it0 x y z u l0 l1 u0 u1 v0 v1 : usable_grid4 g -> no_overlap (g4_x g) nx -> z_coordinate (g4_z g) z -> find_indexes (g4_u g) u = Ok (Some (l0, l1)) -> cell (g4_u g) u l0 l1 u0 u1 ->
    it_used pk k nx ny it -> it_used pk k nx ny it0 ->
    res (step3 pk (hyper_level g l0) nx ny kUndef be it0 (x, y, z)) = Ok v0 -> res (step3 pk (hyper_level g l1) nx ny kUndef be it0 (x, y, z)) = Ok v1 ->
    res (step4 pk g nx ny kUndef be it (x, y, z, u)) = Ok (linear_z u u0 u1 v0 v1).
  Proof.
    intros U O C Fu CU U1 U0 E0 E1. assert (Us := U). destruct Us as (Ux & Uy & Py & Uz & (Ru & Lu & Au) & G). assert (OU := reachable_ok _ Ru).
    assert (D : ~ (u0 == u1)%Q). { destruct CU as (A0 & A1 & A & _). apply at_index_iff in A0 as [R0 ->]; [|apply OU]. apply at_index_iff in A1 as [R1 ->]; [|apply OU]. apply fval_neq; auto; [apply OU|lia]. }
    destruct (C55_methods u u0 u1 D) as (_ & Mn & _). cbn [step4]. cbn [step3] in E0, E1.
    destruct (load4_cases g x y z u nx ny be U Hx Hy O C) as [(N & ->)|(sx & sy & k0 & k1 & z0 & z1 & l0' & l1' & u0' & u1' & Wx & Wy & CC & Fz & CU' & Fu' & E)].
    - assert (N' : forall l, load_frame3 (hyper_level g l) x y z nx ny kUndef be = if be then Throw "Unable to frame the value" else Ok None).
      { intro l. apply (load3_outside (hyper_level g l)); auto; [apply hyper_usable; exact U|]. cbn [hyper_level g3_x g3_y g3_z]. intros (A & B & I). apply N. split; [exact A|]. split; [exact B|]. split; [exact I|].
        destruct CU as (Z0 & Z1 & _ & [[B1 B2]|[B1 B2]]); [exists l0, u0, l1, u1|exists l1, u1, l0, u0]; auto. }
      rewrite N' in E0, E1. destruct be; [discriminate|]. cbn in *. injection E0 as <-. injection E1 as <-. rewrite Mn by auto. reflexivity.
    - rewrite Fu in Fu'. injection Fu' as <- <-.
      assert (Eu : u0' = u0 /\ u1' = u1). { destruct CU as (A0 & A1 & _), CU' as (B0 & B1 & _). apply at_index_iff in A0 as [_ ->], A1 as [_ ->], B0 as [_ ->], B1 as [_ ->]; try apply OU. auto. } destruct Eu as [-> ->].
      cbv zeta in E. rewrite E. clear E. cbn [obind]. destruct CC as (Z0 & Z1 & _).
      assert (L3 : forall l, load_frame3 (hyper_level g l) x y z nx ny kUndef be = _) by (intro l; exact (load3_ok (hyper_level g l) x y z nx ny sx sy k0 k1 z0 z1 kUndef be (hyper_usable g l U) Hx Hy O Wx Wy (z_window_find _ _ kUndef _ Uz C Fz) Z0 Z1)).
      rewrite L3 in E0, E1. clear L3. cbn [obind hyper_level g3_x g3_y] in E0, E1.
      fold (hyper_level g l0) in E0. fold (hyper_level g l1) in E1.
      set (V := fun k l => layer nx ny (value_at (level (hyper_level g l) k) sx sy)). fold (V k0 l0) (V k1 l0) (V k0 l1) (V k1 l1). fold (V k0 l0) (V k1 l0) in E0. fold (V k0 l1) (V k1 l1) in E1.
      destruct (V k0 l0) as [q00|] eqn:L00, (V k1 l0) as [q10|] eqn:L10, (V k0 l1) as [q01|] eqn:L01, (V k1 l1) as [q11|] eqn:L11; cbn [pair_of fst snd] in *; try (cbn in E0, E1; cbn; f_equal; symmetry; apply Mn; first [left; congruence|right; congruence]).
      apply layer_inv in L00 as (w00 & _ & ->). apply layer_inv in L10 as (w10 & _ & ->). apply layer_inv in L01 as (w01 & _ & ->). apply layer_inv in L11 as (w11 & _ & ->).
      erewrite abscissa_ok in E0, E1 |- * by eauto. cbn [obind] in *.
      assert (F : forall w, frame_ok nx ny (Frame2 (XS (g4_x g) nx sx) (YS (g4_y g) ny sy) (map (col nx w) (seq 0 (2 * ny))))).
      { intro w. exact (frame_window_ok (level (hyper_level g 0) 0) nx ny x y sx sy w (level_usable _ 0 (hyper_usable g 0 U)) Hx Hy O Wx Wy). }
      set (X := abscissa _ _ _) in *. assert (F00 := F w00). assert (F10 := F w10). assert (F01 := F w01). assert (F11 := F w11). clear F.
      set (f00 := Frame2 _ _ (map (col nx w00) _)) in *. set (f10 := Frame2 _ _ (map (col nx w10) _)) in *. set (f01 := Frame2 _ _ (map (col nx w01) _)) in *. set (f11 := Frame2 _ _ (map (col nx w11) _)) in *. clearbody f00 f10 f01 f11.
      assert (T0 : exists a b, res (interpolate2 pk it0 X y f00) = Ok a /\ res (interpolate2 pk it0 X y f10) = Ok b /\ v0 = linear_z z z0 z1 a b).
      { assert (A := run_step it0 it0 X y f00 F00 U0 U0). destruct (interpolate2 pk it0 X y f00) as [[a1 y1]|m|m]; try discriminate. destruct A as [A V1]. cbn [obind] in E0.
        assert (B := run_step it0 a1 X y f10 F10 U0 V1). destruct (interpolate2 pk a1 X y f10) as [[b1 y2]|m|m]; try discriminate. destruct B as [B _]. exists y1, y2. cbn in E0. split; [reflexivity|]. split; [exact B|congruence]. }
      assert (T1 : exists a b, res (interpolate2 pk it0 X y f01) = Ok a /\ res (interpolate2 pk it0 X y f11) = Ok b /\ v1 = linear_z z z0 z1 a b).
      { assert (A := run_step it0 it0 X y f01 F01 U0 U0). destruct (interpolate2 pk it0 X y f01) as [[a1 y1]|m|m]; try discriminate. destruct A as [A V1]. cbn [obind] in E1.
        assert (B := run_step it0 a1 X y f11 F11 U0 V1). destruct (interpolate2 pk a1 X y f11) as [[b1 y2]|m|m]; try discriminate. destruct B as [B _]. exists y1, y2. cbn in E1. split; [reflexivity|]. split; [exact B|congruence]. }
      destruct T0 as (a00 & a10 & R00 & R10 & ->), T1 as (a01 & a11 & R01 & R11 & ->). clear E0 E1.
      assert (A := run_step it0 it X y f00 F00 U0 U1). destruct (interpolate2 pk it X y f00) as [[i1 r1]|m|m]; [|congruence|congruence]. destruct A as [A V1]. cbn [obind].
      assert (B := run_step it0 i1 X y f10 F10 U0 V1). destruct (interpolate2 pk i1 X y f10) as [[i2 r2]|m|m]; [|congruence|congruence]. destruct B as [B V2]. cbn [obind].
      assert (A' := run_step it0 i2 X y f01 F01 U0 V2). destruct (interpolate2 pk i2 X y f01) as [[i3 r3]|m|m]; [|congruence|congruence]. destruct A' as [A' V3]. cbn [obind].
      assert (B' := run_step it0 i3 X y f11 F11 U0 V3). destruct (interpolate2 pk i3 X y f11) as [[i4 r4]|m|m]; [|congruence|congruence]. destruct B' as [B' _]. cbn. congruence.
  Qed.
End Steps.
