(** C83, C84: what happens near the edges, and grids in three and four dimensions. *)
From Verif Require Import Base BaseProofs MathModel MathProofs AxisModel IntAxisModel AxisSpec IntAxisProofs AxisProofs AxisProofs2 AxisProofs5 InterpModel InterpSpec Interp1dModel Interp1dSpec.
From Verif Require Import InterpProofs InterpProofs5 InterpProofs7 InterpProps Interp1dProps GridModel GridSpec GridProofs GridProofs2 GridProofs4 GridProps GridProps4 FrameModel FrameSpec FrameProofs FrameProofs2 FrameProofs3 FrameProofs4 FrameProofs5 FrameProofs6 FrameProps.
Open Scope nat_scope.

(** *** C84 *)
Lemma point_step3 pk k g nx ny s b be x y z : In k kinds -> parse_boundary s = Ok b ->
  exists it, it_used pk k nx ny it /\ at_point3 pk k g nx ny s be x y z = olet v := res (step3 pk g nx ny b be it (x, y, z)) in Ok [v].
Proof.
  intros K B. destruct (new_used pk k nx ny K) as (it & E & U). exists it. split; [exact U|]. unfold at_point3, interpolate_grid3. rewrite B. cbn [obind]. unfold workers. cbn [omap]. rewrite E. cbn [obind worker].
  destruct (step3 pk g nx ny b be it (x, y, z)) as [[it' v]|w|w]; reflexivity.
Qed.
Lemma point_step4 pk k g nx ny s b be x y z u : In k kinds -> parse_boundary s = Ok b ->
  exists it, it_used pk k nx ny it /\ at_point4 pk k g nx ny s be x y z u = olet v := res (step4 pk g nx ny b be it (x, y, z, u)) in Ok [v].
Proof.
  intros K B. destruct (new_used pk k nx ny K) as (it & E & U). exists it. split; [exact U|]. unfold at_point4, interpolate_grid4. rewrite B. cbn [obind]. unfold workers. cbn [omap]. rewrite E. cbn [obind worker].
  destruct (step4 pk g nx ny b be it (x, y, z, u)) as [[it' v]|w|w]; reflexivity.
Qed.
(** Linear between two layers: missing if one of the two values is. *)
Definition between_layers (z z0 z1 : Q) (v0 v1 v : option Q) : Prop :=
  match v0, v1 with
  | Some a, Some b => exists w, v = Some w /\ (w == lerp z0 z1 a b z)%Q
  | _, _ => v = None
  end.
Lemma linear_between z z0 z1 v0 v1 : ~ (z0 == z1)%Q -> between_layers z z0 z1 v0 v1 (linear_z z z0 z1 v0 v1).
Proof. intro D. destruct (C55_methods z z0 z1 D) as (A & B & _). destruct v0 as [a|], v1 as [b|]; cbn [between_layers]; auto. Qed.

Theorem C84_layers : forall pk k g nx ny z, all_cells pk -> In k kinds -> usable_grid3 g -> 1 <= nx -> 1 <= ny -> no_overlap (g3_x g) nx ->
  (snd k = "c_spline_periodic"%string -> 2 <= nx /\ 2 <= ny) -> z_coordinate (g3_z g) z -> z_inside (g3_z g) z ->
  exists k0 k1 z0 z1, z_cell (g3_z g) z k0 k1 z0 z1 /\ forall be x y v0 v1,
    at_point pk k (level g k0) nx ny "undef" be x y = Ok [v0] -> at_point pk k (level g k1) nx ny "undef" be x y = Ok [v1] ->
    exists v, at_point3 pk k g nx ny "undef" be x y z = Ok [v] /\ between_layers z z0 z1 v0 v1 v.
Proof.
  intros pk k g nx ny z P K U Hx Hy O S C I. assert (Uz := proj1 (proj2 (proj2 (proj2 U)))). destruct (z_find_in _ z Uz C I) as (k0 & k1 & z0 & z1 & F & CC).
  exists k0, k1, z0, z1. split; [exact CC|]. intros be x y v0 v1 E0 E1. assert (D := cell_differ _ _ _ _ _ _ Uz CC).
  destruct (point_step3 pk k g nx ny "undef" kUndef be x y z K eq_refl) as (it & U1 & ->).
  destruct (point_step pk k (level g k0) nx ny "undef" kUndef be x y K eq_refl) as (it0 & U0 & N0 & E0'). destruct (point_step pk k (level g k1) nx ny "undef" kUndef be x y K eq_refl) as (it1 & _ & N1 & E1').
  rewrite N0 in N1. injection N1 as <-. rewrite E0' in E0. rewrite E1' in E1.
  destruct (res (step2 pk (level g k0) nx ny kUndef be it0 (x, y))) as [r0|w|w] eqn:R0; try discriminate. destruct (res (step2 pk (level g k1) nx ny kUndef be it0 (x, y))) as [r1|w|w] eqn:R1; try discriminate.
  cbn in E0, E1. injection E0 as <-. injection E1 as <-.
  rewrite (step3_levels pk P k nx ny Hx Hy S g be it it0 x y z k0 k1 z0 z1 r0 r1 U O C F CC U1 U0 R0 R1). cbn [obind]. eexists. split; [reflexivity|]. apply linear_between. exact D.
Qed.
Print Assumptions C84_layers.
Theorem C84_hyper_layers : forall pk k g nx ny z u, all_cells pk -> In k kinds -> usable_grid4 g -> 1 <= nx -> 1 <= ny -> no_overlap (g4_x g) nx ->
  (snd k = "c_spline_periodic"%string -> 2 <= nx /\ 2 <= ny) -> z_coordinate (g4_z g) z -> inside (g4_u g) u ->
  exists l0 l1 u0 u1, cell (g4_u g) u l0 l1 u0 u1 /\ forall be x y v0 v1,
    at_point3 pk k (hyper_level g l0) nx ny "undef" be x y z = Ok [v0] -> at_point3 pk k (hyper_level g l1) nx ny "undef" be x y z = Ok [v1] ->
    exists v, at_point4 pk k g nx ny "undef" be x y z u = Ok [v] /\ between_layers u u0 u1 v0 v1 v.
Proof.
  intros pk k g nx ny z u P K U Hx Hy O S C I. assert (Us := U). destruct Us as (_ & _ & _ & Uz & (Ru & Lu & Au) & _). assert (OU := reachable_ok _ Ru).
  destruct (plain_indexes _ u OU Lu Au I) as (l0 & l1 & F & B). destruct (cell_brackets _ u l0 l1 (proj1 OU) B) as (_ & _ & _ & CC).
  eexists l0, l1, _, _. split; [exact CC|]. intros be x y v0 v1 E0 E1.
  assert (D : ~ (fval (a_cont (g4_u g)) l0 == fval (a_cont (g4_u g)) l1)%Q). { destruct CC as (A0 & A1 & A & _). apply at_index_iff in A0 as [R0 _]; [|apply OU]. apply at_index_iff in A1 as [R1 _]; [|apply OU]. apply fval_neq; auto; [apply OU|lia]. }
  destruct (point_step4 pk k g nx ny "undef" kUndef be x y z u K eq_refl) as (it & U1 & ->).
  destruct (point_step3 pk k (hyper_level g l0) nx ny "undef" kUndef be x y z K eq_refl) as (it0 & U0 & E0'). destruct (point_step3 pk k (hyper_level g l1) nx ny "undef" kUndef be x y z K eq_refl) as (it1 & U1' & E1').
  rewrite E0' in E0. rewrite E1' in E1.
  destruct (step3_steady pk P k nx ny Hx Hy S (hyper_level g l1) be it1 it0 (x, y, z) (hyper_usable g l1 U) O C U1' U0) as [Same _]. rewrite Same in E1.
  destruct (res (step3 pk (hyper_level g l0) nx ny kUndef be it0 (x, y, z))) as [r0|w|w] eqn:R0; try discriminate. destruct (res (step3 pk (hyper_level g l1) nx ny kUndef be it0 (x, y, z))) as [r1|w|w] eqn:R1; try discriminate.
  cbn in E0, E1. injection E0 as <-. injection E1 as <-.
  rewrite (step4_levels pk P k nx ny Hx Hy S g be it it0 x y z u l0 l1 _ _ r0 r1 U O C F CC U1 U0 R0 R1). cbn [obind]. eexists. split; [reflexivity|]. apply linear_between. exact D.
Qed.
Print Assumptions C84_hyper_layers.

Theorem C84_outside : forall pk k g nx ny be x y z, In k kinds -> usable_grid3 g -> 1 <= nx -> 1 <= ny -> no_overlap (g3_x g) nx -> z_coordinate (g3_z g) z ->
  ~ ((exists s, FrameSpec.window (g3_x g) x nx s) /\ (exists s, FrameSpec.window (g3_y g) y ny s) /\ z_inside (g3_z g) z) ->
  at_point3 pk k g nx ny "undef" be x y z = if be then Throw "Unable to frame the value" else Ok [None].
Proof.
  intros pk k g nx ny be x y z K U Hx Hy O C N. destruct (point_step3 pk k g nx ny "undef" kUndef be x y z K eq_refl) as (it & _ & ->). cbn [step3].
  rewrite (load3_outside g x y z nx ny be U Hx Hy O C N). destruct be; reflexivity.
Qed.
Print Assumptions C84_outside.
Theorem C84_hyper_outside : forall pk k g nx ny be x y z u, In k kinds -> usable_grid4 g -> 1 <= nx -> 1 <= ny -> no_overlap (g4_x g) nx -> z_coordinate (g4_z g) z ->
  ~ ((exists s, FrameSpec.window (g4_x g) x nx s) /\ (exists s, FrameSpec.window (g4_y g) y ny s) /\ z_inside (g4_z g) z /\ inside (g4_u g) u) ->
  at_point4 pk k g nx ny "undef" be x y z u = if be then Throw "Unable to frame the value" else Ok [None].
Proof.
  intros pk k g nx ny be x y z u K U Hx Hy O C N. destruct (point_step4 pk k g nx ny "undef" kUndef be x y z u K eq_refl) as (it & _ & ->). cbn [step4].
  destruct (load4_cases g x y z u nx ny be U Hx Hy O C) as [(_ & ->)|(sx & sy & k0 & k1 & z0 & z1 & l0 & l1 & u0 & u1 & Wx & Wy & CZ & _ & CU & _)]; [destruct be; reflexivity|].
  exfalso. apply N. split; [eauto|]. split; [eauto|]. split.
  - destruct CZ as (Z0 & Z1 & _ & [[B1 B2]|[B1 B2]]); [exists k0, z0, k1, z1|exists k1, z1, k0, z0]; auto.
  - destruct CU as (Z0 & Z1 & _ & [[B1 B2]|[B1 B2]]); [exists l0, u0, l1, u1|exists l1, u1, l0, u0]; auto.
Qed.
Print Assumptions C84_hyper_outside.

Lemma F2_impl {A B : Type} (R R' : A -> B -> Prop) l l' : (forall a b, R a b -> R' a b) -> Forall2 R l l' -> Forall2 R' l l'.
Proof. intros H F. induction F; constructor; auto. Qed.
Lemma omap_single {Pt : Type} (f : Pt -> outcome (list (option Q))) ps : (forall p r, f p = Ok r -> exists v, r = [v]) -> forall l,
  omap (fun p => olet r := f p in match r with [v] => Ok v | _ => UB ""%string end) ps = Ok l <-> Forall2 (fun p v => f p = Ok [v]) ps l.
Proof.
  intro L1. induction ps as [|p t IH]; intro l; cbn [omap].
  - split; [intros [= <-]; constructor|]. intro F. inversion F. reflexivity.
  - split.
    + intro E. apply obind_inv in E as (v & E & E'). apply obind_inv in E as (r & E & Ev). apply obind_inv in E' as (r' & E' & El). injection El as <-.
      destruct (L1 p r E) as (v' & ->). injection Ev as ->. constructor; [exact E|]. apply IH. exact E'.
    + intro F. inversion F as [|p' v t' l' E F']; subst. rewrite E. cbn [obind]. rewrite (proj2 (IH l') F'). reflexivity.
Qed.
Theorem C84_schedule : forall pk k g nx ny be parts l, all_cells pk -> In k kinds -> usable_grid3 g -> 1 <= nx -> 1 <= ny -> no_overlap (g3_x g) nx ->
  (snd k = "c_spline_periodic"%string -> 2 <= nx /\ 2 <= ny) -> (forall x y z, In (x, y, z) (concat parts) -> z_coordinate (g3_z g) z) ->
  interpolate_grid3 pk (fst k) g nx ny (snd k) "undef" be parts = Ok l <->
  Forall2 (fun p v => at_point3 pk k g nx ny "undef" be (fst (fst p)) (snd (fst p)) (snd p) = Ok [v]) (concat parts) l.
Proof.
  intros pk k g nx ny be parts l P K U Hx Hy O S C. unfold interpolate_grid3 at 1. change (parse_boundary "undef") with (Ok kUndef). cbn [obind].
  rewrite (workers_alone pk (step3 pk g nx ny kUndef be) k nx ny K (fun p => z_coordinate (g3_z g) (snd p))).
  2:{ intros it1 it2 p G U1 U2. apply (step3_steady pk P k nx ny Hx Hy S g be it1 it2 p U O G U1 U2). }
  2:{ intros [[x y] z] H. exact (C x y z H). }
  assert (A : forall p, workers (fst k) (snd k) (step3 pk g nx ny kUndef be) [[p]] = at_point3 pk k g nx ny "undef" be (fst (fst p)) (snd (fst p)) (snd p)) by (intros [[x y] z]; reflexivity).
  rewrite (omap_single (fun p => workers (fst k) (snd k) (step3 pk g nx ny kUndef be) [[p]])).
  - split; intro F; (eapply F2_impl; [|exact F]); cbv beta; intros p v E; [rewrite <- A|rewrite A]; exact E.
  - intros p r. rewrite A. destruct (point_step3 pk k g nx ny "undef" kUndef be (fst (fst p)) (snd (fst p)) (snd p) K eq_refl) as (it & _ & ->). destruct (res _); cbn; try discriminate. intros [= <-]. eauto.
Qed.
Print Assumptions C84_schedule.
Theorem C84_hyper_schedule : forall pk k g nx ny be parts l, all_cells pk -> In k kinds -> usable_grid4 g -> 1 <= nx -> 1 <= ny -> no_overlap (g4_x g) nx ->
  (snd k = "c_spline_periodic"%string -> 2 <= nx /\ 2 <= ny) -> (forall x y z u, In (x, y, z, u) (concat parts) -> z_coordinate (g4_z g) z) ->
  interpolate_grid4 pk (fst k) g nx ny (snd k) "undef" be parts = Ok l <->
  Forall2 (fun p v => let '(x, y, z, u) := p in at_point4 pk k g nx ny "undef" be x y z u = Ok [v]) (concat parts) l.
Proof.
  intros pk k g nx ny be parts l P K U Hx Hy O S C. unfold interpolate_grid4 at 1. change (parse_boundary "undef") with (Ok kUndef). cbn [obind].
  rewrite (workers_alone pk (step4 pk g nx ny kUndef be) k nx ny K (fun p => z_coordinate (g4_z g) (snd (fst p)))).
  2:{ intros it1 it2 p G U1 U2. apply (step4_steady pk P k nx ny Hx Hy S g be it1 it2 p U O G U1 U2). }
  2:{ intros [[[x y] z] u] H. exact (C x y z u H). }
  rewrite (omap_single (fun p => workers (fst k) (snd k) (step4 pk g nx ny kUndef be) [[p]])).
  - split; intro F; (eapply F2_impl; [|exact F]); cbn; intros [[[x y] z] u] v E; exact E.
  - intros [[[x y] z] u] r. change (workers (fst k) (snd k) (step4 pk g nx ny kUndef be) [[(x, y, z, u)]]) with (at_point4 pk k g nx ny "undef" be x y z u).
    destruct (point_step4 pk k g nx ny "undef" kUndef be x y z u K eq_refl) as (it & _ & ->). destruct (res _); cbn; try discriminate. intros [= <-]. eauto.
Qed.
Print Assumptions C84_hyper_schedule.

(** *** Examples *)
Definition ax4' : axis := axis_values [0; 1; 2; 3]%Q false.
Definition lon4 : axis := axis_values [0; 90; 180; 270]%Q true.
Lemma ax4_usable : usable ax4'.
Proof.
  split; [apply (reach_values [0; 1; 2; 3]%Q (1 # 1000000) false); [lra|reflexivity]|]. split; [reflexivity|]. split; [reflexivity|]. intro H. discriminate.
Qed.
Lemma lon4_usable : usable lon4.
Proof.
  split; [apply (reach_values [0; 90; 180; 270]%Q (1 # 1000000) true); [lra|reflexivity]|]. split; [reflexivity|]. split; [reflexivity|].
  intros _ i j v w Hi Hj. unfold at_index in Hi, Hj.
  assert (B : forall k u, coordinate_value lon4 k = Ok u -> (0 <= u <= 270)%Q).
  { intros k u H. assert (Hk : (0 <= k < 4)%Z). { unfold coordinate_value in H. cbn in H. destruct (Z.ltb_spec k 0); [discriminate|]. cbn in H. rewrite Z.geb_leb in H. destruct (Z.leb_spec 4 k); [discriminate|lia]. }
    assert (D : (k = 0 \/ k = 1 \/ k = 2 \/ k = 3)%Z) by lia. destruct D as [->|[->|[->| ->]]]; vm_compute in H; injection H as <-; vm_compute; split; discriminate. }
  assert (V := B i v Hi). assert (W := B j w Hj). lra.
Qed.
Definition squares : ndarray := NdArray [4; 4]%Z (fun l => match l with [i; j] => Some (inject_Z (i * i + 10 * j)) | _ => None end).
Lemma squares_usable : usable_grid (Grid2 ax4' ax4' squares) /\ usable_grid (Grid2 lon4 ax4' squares).
Proof. split; (split; [first [exact ax4_usable|exact lon4_usable]|]; split; [exact ax4_usable|]; split; reflexivity). Qed.
Lemma ax4_window x : (1 <= x)%Q -> (x < 2)%Q -> FrameSpec.window ax4' x 2 0.
Proof.
  intros A B. exists x, 1%Z. split; [unfold same_place; cbn; reflexivity|]. split; [|split; [reflexivity|]; right; cbn; lia]. left. do 2 eexists. split; [vm_compute; reflexivity|]. split; [vm_compute; reflexivity|]. split; [lra|]. left. lra.
Qed.
Lemma lon4_window : FrameSpec.window lon4 350 2 2.
Proof.
  exists 350%Q, 3%Z. split; [exists 0%Z; reflexivity|]. split; [|split; [reflexivity|left; reflexivity]]. right. split; [reflexivity|]. split; [reflexivity|].
  do 2 eexists. split; [vm_compute; reflexivity|]. split; [vm_compute; reflexivity|]. split; reflexivity.
Qed.
Lemma ax4_inside x : (0 <= x)%Q -> (x <= 3)%Q -> inside ax4' x.
Proof. intros A B. exists 0%Z. eexists. exists 3%Z. eexists. split; [vm_compute; reflexivity|]. split; [vm_compute; reflexivity|]. lra. Qed.
Definition square_values (nx : Z) (i j : nat) : Q := inject_Z ((nx + Z.of_nat i) mod 4 * ((nx + Z.of_nat i) mod 4) + 10 * (Z.of_nat j mod 4)).
(** C80-C82: a window in the middle of a grid, and one across the seam of a circle. *)
Example C80_C82_ex : usable_grid (Grid2 ax4' ax4' squares) /\ usable_grid (Grid2 lon4 ax4' squares) /\ no_overlap ax4' 2 /\ no_overlap lon4 2 /\
  FrameSpec.window ax4' (3 # 2) 2 0 /\ FrameSpec.window ax4' 1 2 0 /\ FrameSpec.window lon4 350 2 2 /\
  window_values (Grid2 ax4' ax4' squares) 2 2 0 0 (square_values 0) /\ window_values (Grid2 lon4 ax4' squares) 2 2 2 0 (square_values 2) /\
  (exists v, at_point whole (false, "steffen"%string) (Grid2 ax4' ax4' squares) 2 2 "undef" true (3 # 2) 1 = Ok [Some v] /\ Qred v = (49 # 4)%Q) /\
  (exists v, at_point whole (true, "bilinear"%string) (Grid2 lon4 ax4' squares) 2 2 "undef" true 350 1 = Ok [Some v] /\ Qred v = 11%Q) /\
  at_point whole (false, "linear"%string) (Grid2 ax4' ax4' squares) 2 2 "undef" false (1 # 2) 1 = Ok [None] /\
  ~ (exists s, FrameSpec.window ax4' (1 # 2) 2 s).
Proof.
  split; [apply squares_usable|]. split; [apply squares_usable|]. split; [intro H; discriminate|]. split; [intros _; cbn; lia|].
  split; [apply ax4_window; lra|]. split; [apply ax4_window; lra|]. split; [exact lon4_window|].
  split; [intros i j _ _; reflexivity|]. split; [intros i j _ _; reflexivity|].
  split; [vm_compute; eexists; split; reflexivity|]. split; [vm_compute; eexists; split; reflexivity|]. split; [vm_compute; reflexivity|].
  intros (s & z & i & S & C & -> & [H|H]); [discriminate|]. unfold same_place in S. cbn in S. cbn in H. assert (i = 1%Z) by lia. subst i.
  destruct C as [(v & w & V & _ & L & _)|(H' & _)]; [|discriminate]. vm_compute in V. injection V as <-. lra.
Qed.

(** *** C83: near the edges with [boundary] other than "undef", and angular ordinates *)
(** "sym": the window is mirrored, its abscissas go down and up again, and the point is not found
    in it: NaN for a point inside the grid, in the middle of values that are all defined. *)
Theorem C83_sym_refuted : exists pk g x y, all_cells pk /\ usable_grid g /\ is_angle (g2_x g) = false /\ inside (g2_x g) x /\ inside (g2_y g) y /\
  (forall i j, exists v, nd_cell (g2_array g) [i; j] = Some v) /\
  at_point pk (false, "linear"%string) g 3 2 "sym" true x y = Ok [None] /\
  exists w, at_point pk (true, "bilinear"%string) g 3 2 "sym" true x y = Throw w.
Proof.
  exists whole, (Grid2 ax4' ax4' squares), (1 # 2)%Q, (3 # 2)%Q. split; [intros f n; cbn; lia|]. split; [apply squares_usable|]. split; [reflexivity|].
  split; [apply ax4_inside; lra|]. split; [apply ax4_inside; lra|].
  split; [intros i j; eexists; reflexivity|]. split; [vm_compute; reflexivity|]. eexists. vm_compute. reflexivity.
Qed.
Print Assumptions C83_sym_refuted.
(** "wrap" on an axis that is not a circle: likewise. *)
Theorem C83_wrap_refuted : exists pk g x y, all_cells pk /\ usable_grid g /\ is_angle (g2_x g) = false /\ inside (g2_x g) x /\ inside (g2_y g) y /\
  (forall i j, exists v, nd_cell (g2_array g) [i; j] = Some v) /\
  at_point pk (false, "linear"%string) g 3 2 "wrap" true x y = Ok [None] /\
  exists w, at_point pk (true, "bilinear"%string) g 3 2 "wrap" true x y = Throw w.
Proof.
  exists whole, (Grid2 ax4' ax4' squares), (1 # 2)%Q, (3 # 2)%Q. split; [intros f n; cbn; lia|]. split; [apply squares_usable|]. split; [reflexivity|].
  split; [apply ax4_inside; lra|]. split; [apply ax4_inside; lra|].
  split; [intros i j; eexists; reflexivity|]. split; [vm_compute; reflexivity|]. eexists. vm_compute. reflexivity.
Qed.
Print Assumptions C83_wrap_refuted.
Definition part4 : axis := axis_values [0; 10; 20; 30]%Q true.
Lemma part4_usable : usable part4.
Proof.
  split; [apply (reach_values [0; 10; 20; 30]%Q (1 # 1000000) true); [lra|reflexivity]|]. split; [reflexivity|]. split; [reflexivity|].
  intros _ i j v w Hi Hj. unfold at_index in Hi, Hj.
  assert (B : forall k u, coordinate_value part4 k = Ok u -> (0 <= u <= 30)%Q).
  { intros k u H. assert (Hk : (0 <= k < 4)%Z). { unfold coordinate_value in H. cbn in H. destruct (Z.ltb_spec k 0); [discriminate|]. cbn in H. rewrite Z.geb_leb in H. destruct (Z.leb_spec 4 k); [discriminate|lia]. }
    assert (D : (k = 0 \/ k = 1 \/ k = 2 \/ k = 3)%Z) by lia. destruct D as [->|[->|[->| ->]]]; vm_compute in H; injection H as <-; vm_compute; split; discriminate. }
  assert (V := B i v Hi). assert (W := B j w Hj). lra.
Qed.
(** The ordinates of a grid may be angles, and are then searched modulo 360, but the value
    interpolated is not brought back into the window: an ordinate one turn further is lost,
    whereas an abscissa is not. *)
Theorem C83_angular_ordinate_refuted : exists pk g y v, all_cells pk /\ usable (g2_x g) /\ usable (g2_y g) /\ is_angle (g2_y g) = true /\
  new_grid2 (g2_x g) (g2_y g) (g2_array g) = Ok g /\
  at_point pk (false, "linear"%string) g 1 1 "undef" true (3 # 2) y = Ok [Some v] /\
  at_point pk (false, "linear"%string) g 1 1 "undef" true (3 # 2) (y + 360) = Ok [None].
Proof.
  assert (V : exists v, at_point whole (false, "linear"%string) (Grid2 ax4' part4 squares) 1 1 "undef" true (3 # 2) 15 = Ok [Some v]) by (vm_compute; eexists; reflexivity). destruct V as (v & V).
  exists whole, (Grid2 ax4' part4 squares), 15%Q, v. split; [intros f n; cbn; lia|]. split; [exact ax4_usable|]. split; [exact part4_usable|]. split; [reflexivity|]. split; [reflexivity|].
  split; [exact V|]. vm_compute. reflexivity.
Qed.
Print Assumptions C83_angular_ordinate_refuted.
(** "expand" on the first point of the axis: the window repeats it and the answer is 0/0, NaN in
    the code, although the value is stored in the grid. *)
Theorem C83_expand_node_refuted : exists pk g x y, all_cells pk /\ usable_grid g /\ at_index (g2_x g) 0 x /\ inside (g2_y g) y /\
  (forall i j, exists v, nd_cell (g2_array g) [i; j] = Some v) /\
  at_point pk (false, "linear"%string) g 2 2 "expand" true x y = UB "division by zero".
Proof.
  exists whole, (Grid2 ax4' ax4' squares), (match coordinate_value ax4' 0 with Ok v => v | _ => 0%Q end), (3 # 2)%Q. split; [intros f n; cbn; lia|]. split; [apply squares_usable|]. split; [reflexivity|].
  split; [apply ax4_inside; lra|]. split; [intros i j; eexists; reflexivity|]. vm_compute. reflexivity.
Qed.
Print Assumptions C83_expand_node_refuted.

(** C84 *)
Definition ramp4' : ndarray := NdArray [4; 4; 4]%Z (fun l => match l with [i; j; k] => Some (inject_Z (i * i + 10 * j + 100 * k)) | _ => None end).
Example C84_ex : usable_grid3 (Grid3 ax4' ax4' (ZTime times) ramp4') /\ z_coordinate (ZTime times) 14 /\ z_inside (ZTime times) 14 /\
  exists v, at_point3 whole (false, "linear"%string) (Grid3 ax4' ax4' (ZTime times) ramp4') 1 1 "undef" true (3 # 2) 1 14 = Ok [Some v] /\ (v == 305 # 2)%Q.
Proof.
  split; [split; [exact ax4_usable|]; split; [exact ax4_usable|]; split; [reflexivity|]; split; [exact times_usable|reflexivity]|]. split; [exists 14%Z; reflexivity|].
  split; [exists 1%Z, (inject_Z 10), 2%Z, (inject_Z 20); split; [exists 10%Z; split; reflexivity|]; split; [exists 20%Z; split; reflexivity|]; change (inject_Z 10) with 10%Q; change (inject_Z 20) with 20%Q; lra|].
  assert (V : exists v, at_point3 whole (false, "linear"%string) (Grid3 ax4' ax4' (ZTime times) ramp4') 1 1 "undef" true (3 # 2) 1 14 = Ok [Some v] /\ Qred v = (305 # 2)%Q) by (vm_compute; eexists; split; reflexivity).
  destruct V as (v & V & E). exists v. split; [exact V|]. rewrite <- (Qred_correct v), E. reflexivity.
Qed.
