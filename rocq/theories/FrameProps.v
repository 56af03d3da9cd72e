(** C80-C82: spline and bicubic interpolation of a 2-D grid. *)
From Verif Require Import Base BaseProofs MathModel MathProofs AxisModel AxisSpec AxisProofs AxisProofs2 InterpModel InterpSpec Interp1dModel Interp1dSpec.
From Verif Require Import InterpProofs InterpProofs5 InterpProofs7 Interp1dProps GridModel GridSpec GridProofs FrameModel FrameSpec FrameProofs FrameProofs2 FrameProofs3 FrameProofs4 FrameProofs5.
Open Scope nat_scope.

Definition boundaries : list string := ["undef"; "expand"; "sym"; "wrap"]%string.

Lemma point_step pk k g nx ny s b be x y : In k kinds -> parse_boundary s = Ok b ->
  exists it, it_used pk k nx ny it /\ new_interp2 (fst k) (snd k) = Ok it /\ at_point pk k g nx ny s be x y = olet v := res (step2 pk g nx ny b be it (x, y)) in Ok [v].
Proof.
  intros K B. destruct (new_used pk k nx ny K) as (it & E & U). exists it. split; [exact U|]. split; [exact E|]. unfold at_point, interpolate_grid2. rewrite B. cbn [obind]. unfold workers. cbn [omap]. rewrite E. cbn [obind worker].
  destruct (step2 pk g nx ny b be it (x, y)) as [[it' v]|w|w]; reflexivity.
Qed.
Lemma parse_in s : In s boundaries -> exists b, parse_boundary s = Ok b.
Proof. intro H. cbn [boundaries In] in H. repeat (destruct H as [<-|H]; [eexists; reflexivity|]). destruct H. Qed.

(** *** C80: which cells of the grid are used *)
(** No window around the point: the answer is NaN, or an exception if [bounds_error] is set. *)
Theorem C80_outside : forall pk k g nx ny be x y, In k kinds -> usable_grid g -> 1 <= nx -> 1 <= ny -> no_overlap (g2_x g) nx ->
  ~ ((exists s, FrameSpec.window (g2_x g) x nx s) /\ exists s, FrameSpec.window (g2_y g) y ny s) ->
  at_point pk k g nx ny "undef" be x y = if be then Throw "Unable to frame the value" else Ok [None].
Proof.
  intros pk k g nx ny be x y K U Hx Hy O N. destruct (point_step pk k g nx ny "undef" kUndef be x y K eq_refl) as (it & _ & _ & ->).
  rewrite (step_outside pk g nx ny U Hx Hy O be it x y N). destruct be; reflexivity.
Qed.
Print Assumptions C80_outside.
(** One of the values of the window is missing: the answer is NaN. *)
Theorem C80_missing : forall pk k g nx ny s be x y sx sy i j, In k kinds -> usable_grid g -> 1 <= nx -> 1 <= ny -> no_overlap (g2_x g) nx -> In s boundaries ->
  FrameSpec.window (g2_x g) x nx sx -> FrameSpec.window (g2_y g) y ny sy ->
  i < 2 * nx -> j < 2 * ny -> value_at g sx sy i j = None ->
  at_point pk k g nx ny s be x y = Ok [None].
Proof.
  intros pk k g nx ny s be x y sx sy i j K U Hx Hy O B Wx Wy Hi Hj M. destruct (parse_in s B) as (b & Eb). destruct (point_step pk k g nx ny s b be x y K Eb) as (it & _ & _ & ->).
  rewrite (step_window pk g nx ny U Hx Hy O b be it x y sx sy Wx Wy). rewrite (layer_missing nx ny _ i j Hi Hj M). reflexivity.
Qed.
Print Assumptions C80_missing.
(** Only the values of the window count: another grid on the same axes with the same values
    there gives the same answer, and then neither [boundary] nor [bounds_error] matters. *)
Theorem C80_local : forall pk k g g' nx ny s s' be be' x y sx sy, In k kinds -> usable_grid g -> usable_grid g' -> 1 <= nx -> 1 <= ny -> no_overlap (g2_x g) nx ->
  In s boundaries -> In s' boundaries -> g2_x g' = g2_x g -> g2_y g' = g2_y g ->
  FrameSpec.window (g2_x g) x nx sx -> FrameSpec.window (g2_y g) y ny sy ->
  (forall i j, i < 2 * nx -> j < 2 * ny -> value_at g sx sy i j = value_at g' sx sy i j) ->
  at_point pk k g nx ny s be x y = at_point pk k g' nx ny s' be' x y.
Proof.
  intros pk k g g' nx ny s s' be be' x y sx sy K U U' Hx Hy O B B' Ex Ey Wx Wy V. destruct (parse_in s B) as (b & Eb). destruct (parse_in s' B') as (b' & Eb').
  destruct (point_step pk k g nx ny s b be x y K Eb) as (it & _ & E & ->). destruct (point_step pk k g' nx ny s' b' be' x y K Eb') as (it' & _ & E' & ->). rewrite E in E'. injection E' as <-.
  rewrite (step_window pk g nx ny U Hx Hy O b be it x y sx sy Wx Wy). rewrite <- Ex in O, Wx. rewrite <- Ey in Wy. rewrite (step_window pk g' nx ny U' Hx Hy O b' be' it x y sx sy Wx Wy).
  rewrite Ex, Ey, (layer_ext nx ny _ _ V). reflexivity.
Qed.
Print Assumptions C80_local.

(** *** C81: the spline functions *)
Lemma window_value pk k g nx ny s b be x y sx sy q : In k kinds -> usable_grid g -> 1 <= nx -> 1 <= ny -> no_overlap (g2_x g) nx -> parse_boundary s = Ok b ->
  FrameSpec.window (g2_x g) x nx sx -> FrameSpec.window (g2_y g) y ny sy -> window_values g nx ny sx sy q ->
  exists it, it_used pk k nx ny it /\ new_interp2 (fst k) (snd k) = Ok it /\
    at_point pk k g nx ny s be x y = olet v := res (interpolate2 pk it (abscissa (g2_x g) sx x) y (Frame2 (XS (g2_x g) nx sx) (YS (g2_y g) ny sy) (map (col nx q) (seq 0 (2 * ny))))) in Ok [v].
Proof.
  intros K U Hx Hy O B Wx Wy V. destruct (point_step pk k g nx ny s b be x y K B) as (it & I & E & ->). exists it. split; [exact I|]. split; [exact E|].
  rewrite (step_window pk g nx ny U Hx Hy O b be it x y sx sy Wx Wy). rewrite (layer_values nx ny _ q V). reflexivity.
Qed.
(** Curves of the kind along x through the points of every column of the window, then a curve of
    the kind along y through the values of the former at x. *)
Theorem C81_spline : forall pk kind g nx ny s be x y sx sy q, In kind ["linear"; "steffen"; "c_spline"]%string -> usable_grid g -> 1 <= nx -> 1 <= ny -> no_overlap (g2_x g) nx -> In s boundaries ->
  needs kind <= 2 * nx -> needs kind <= 2 * ny ->
  FrameSpec.window (g2_x g) x nx sx -> FrameSpec.window (g2_y g) y ny sy -> window_values g nx ny sx sy q ->
  exists xs ys z v w, unrolled (g2_x g) x nx sx xs z /\ unrolled (g2_y g) y ny sy ys y /\
    at_point pk (false, kind) g nx ny s be x y = Ok [Some v] /\ length w = 2 * ny /\
    (forall j, j < 2 * ny -> on_curve kind xs (col nx q j) z (at_ w j)) /\ on_curve kind ys w y v.
Proof.
  intros pk kind g nx ny s be x y sx sy q K U Hx Hy O B Nx Ny Wx Wy V. destruct (parse_in s B) as (b & Eb).
  assert (K' : In (false, kind) kinds) by (cbn in K |- *; intuition (subst; auto)).
  destruct (window_value pk (false, kind) g nx ny s b be x y sx sy q K' U Hx Hy O Eb Wx Wy V) as (it & I & E & ->).
  assert (Us := U). destruct Us as (Ux & Uy & Py & _). destruct (frame_facts (g2_x g) (g2_y g) x y nx ny sx sy Ux Uy Py Hx Hy O Wx Wy) as [Fx Fy].
  assert (Ix := Fx). destruct Ix as (Lx & Ix & _ & _ & Bx). assert (Iy := Fy). destruct Iy as (Ly & Iy & _ & _ & By).
  destruct it as [ox oy| |st]; [|cbn in I; discriminate|cbn in I; destruct I as [I _]; discriminate]. destruct I as (_ & I1 & I2). cbn [snd] in I1, I2.
  destruct (spline_value pk nx ny _ _ _ _ q Hx Hy Ix Iy Lx Ly Bx By kind ox oy K Nx Ny I1 I2) as (it' & v & w & R & Lw & Cx & Cy & _).
  exists (XS (g2_x g) nx sx), (YS (g2_y g) ny sy), (abscissa (g2_x g) sx x), v, w. split; [exact Fx|]. split; [exact Fy|]. rewrite R. cbn [res obind]. auto.
Qed.
Print Assumptions C81_spline.
(** At a point of the grid, whose window is complete, the answer is the value stored there. *)
Lemma spline_exact : forall pk kind g nx ny s be x y sx sy i j vx vy q, In kind ["linear"; "steffen"; "c_spline"]%string -> usable_grid g -> 1 <= nx -> 1 <= ny -> no_overlap (g2_x g) nx -> In s boundaries ->
  needs kind <= 2 * nx -> needs kind <= 2 * ny ->
  FrameSpec.window (g2_x g) x nx sx -> FrameSpec.window (g2_y g) y ny sy -> window_values g nx ny sx sy q ->
  at_index (g2_x g) i vx -> same_place (g2_x g) x vx -> at_index (g2_y g) j vy -> (y == vy)%Q ->
  exists v w, nd_cell (g2_array g) [i; j] = Some v /\ at_point pk (false, kind) g nx ny s be x y = Ok [Some w] /\ (w == v)%Q.
Proof.
  intros pk kind g nx ny s be x y sx sy i j vx vy q K U Hx Hy O B Nx Ny Wx Wy V Ax Sx Ay Sy. destruct (parse_in s B) as (b & Eb).
  assert (K' : In (false, kind) kinds) by (cbn in K |- *; intuition (subst; auto)).
  destruct (window_value pk (false, kind) g nx ny s b be x y sx sy q K' U Hx Hy O Eb Wx Wy V) as (it & I & E & ->).
  assert (Us := U). destruct Us as (Ux & Uy & Py & _). destruct (frame_facts (g2_x g) (g2_y g) x y nx ny sx sy Ux Uy Py Hx Hy O Wx Wy) as [Fx Fy].
  assert (Ix := Fx). destruct Ix as (Lx & Ix & _ & _ & Bx). assert (Iy := Fy). destruct Iy as (Ly & Iy & _ & _ & By).
  destruct it as [ox oy| |st]; [|cbn in I; discriminate|cbn in I; destruct I as [I _]; discriminate]. destruct I as (_ & I1 & I2). cbn [snd] in I1, I2.
  destruct (spline_value pk nx ny _ _ _ _ q Hx Hy Ix Iy Lx Ly Bx By kind ox oy K Nx Ny I1 I2) as (it' & v & w & R & _ & _ & _ & EX).
  assert (Sy' : same_place (g2_y g) y vy) by (unfold same_place; rewrite Py; exact Sy).
  destruct (window_node (g2_x g) x nx sx i vx Ux Hx O Wx Ax Sx) as (kx & Hkx & Nkx & Ekx). destruct (window_node (g2_y g) y ny sy j vy Uy Hy (Oy _ ny Uy Py) Wy Ay Sy') as (ky & Hky & Nky & Eky).
  assert (Lkx : kx < 2 * nx) by lia. assert (Lky : ky < 2 * ny) by lia. assert (Vk := V kx ky Lkx Lky). unfold value_at in Vk. rewrite Nkx, Nky in Vk.
  exists (q kx ky), v. split; [exact Vk|]. rewrite R. cbn [res obind]. split; [reflexivity|]. apply EX; auto.
  - unfold XS. rewrite at_map by exact Lkx. exact Ekx.
  - unfold YS. rewrite at_map by exact Lky. unfold abscissa in Eky. rewrite Py in Eky. exact Eky.
Qed.
Theorem C81_exact : forall pk kind g nx ny s be x y sx sy i j vx vy q, In kind ["linear"; "steffen"; "c_spline"]%string -> usable_grid g -> 1 <= nx -> 1 <= ny -> no_overlap (g2_x g) nx -> In s boundaries ->
  needs kind <= 2 * nx -> needs kind <= 2 * ny ->
  FrameSpec.window (g2_x g) x nx sx -> FrameSpec.window (g2_y g) y ny sy -> window_values g nx ny sx sy q ->
  at_index (g2_x g) i vx -> same_place (g2_x g) x vx -> at_index (g2_y g) j vy -> (y == vy)%Q ->
  exists v w, nd_cell (g2_array g) [i; j] = Some v /\ at_point pk (false, kind) g nx ny s be x y = Ok [Some w] /\ (w == v)%Q.
Proof. exact spline_exact. Qed.
Print Assumptions C81_exact.
(** Too few points in the window for the kind: an exception, not a value. *)
Theorem C81_small_window_throws : forall pk kind g nx ny s be x y sx sy q, In kind (map snd (filter (fun k => negb (fst k)) kinds)) -> usable_grid g -> 1 <= nx -> 1 <= ny -> no_overlap (g2_x g) nx -> In s boundaries ->
  FrameSpec.window (g2_x g) x nx sx -> FrameSpec.window (g2_y g) y ny sy -> window_values g nx ny sx sy q -> 2 * nx < min_points kind ->
  exists m, at_point pk (false, kind) g nx ny s be x y = Throw m.
Proof.
  intros pk kind g nx ny s be x y sx sy q K U Hx Hy O B Wx Wy V N. destruct (parse_in s B) as (b & Eb).
  assert (K' : In (false, kind) kinds) by (cbn in K |- *; intuition (subst; auto)).
  destruct (window_value pk (false, kind) g nx ny s b be x y sx sy q K' U Hx Hy O Eb Wx Wy V) as (it & I & E & ->).
  cbn [fst snd new_interp2] in E. apply obind_inv in E as (ox & F & E). rewrite F in E. cbn [obind] in E. injection E as <-. cbn [interpolate2]. unfold spline2d. cbn [fr_x fr_q].
  destruct (map_seq_nil (col nx q) ny Hy) as (c & t & Ec). rewrite Ec. cbn [spline_columns].
  assert (Lc : length c = 2 * nx). { assert (H : In c (map (col nx q) (seq 0 (2 * ny)))) by (rewrite Ec; left; reflexivity). apply in_map_iff in H as (j & <- & _). unfold col. rewrite map_length, seq_length. reflexivity. }
  assert (Lx : length (XS (g2_x g) nx sx) = 2 * nx) by (unfold XS; rewrite map_length, seq_length; reflexivity).
  destruct (too_few pk kind ox (XS (g2_x g) nx sx) c (abscissa (g2_x g) sx x) F) as (m & T); [congruence|lia|]. rewrite <- call_res in T.
  destruct (call pk ox (XS (g2_x g) nx sx) c (abscissa (g2_x g) sx x)) as [[o v]|w|w]; try discriminate. exists w. reflexivity.
Qed.
Print Assumptions C81_small_window_throws.

(** The answers do not depend on how the points are shared out between the threads, nor on the
    other points. *)
Theorem C81_schedule : forall pk k g nx ny be parts l, all_cells pk -> In k kinds -> usable_grid g -> 1 <= nx -> 1 <= ny -> no_overlap (g2_x g) nx ->
  (snd k = "c_spline_periodic"%string -> 2 <= nx /\ 2 <= ny) ->
  interpolate_grid2 pk (fst k) g nx ny (snd k) "undef" be parts = Ok l <->
  Forall2 (fun p v => at_point pk k g nx ny "undef" be (fst p) (snd p) = Ok [v]) (concat parts) l.
Proof.
  intros pk k g nx ny be parts l P K U Hx Hy O S. unfold interpolate_grid2 at 1. cbn [parse_boundary obind String.eqb].
  change (parse_boundary "undef") with (Ok kUndef). cbn [obind].
  rewrite (workers_alone pk (step2 pk g nx ny kUndef be) k nx ny K (fun _ => True)); [| |auto].
  2:{ intros it1 it2 p _ U1 U2. apply (step_steady pk P g nx ny be k it1 it2 p U Hx Hy O S U1 U2). }
  assert (A : forall p, workers (fst k) (snd k) (step2 pk g nx ny kUndef be) [[p]] = at_point pk k g nx ny "undef" be (fst p) (snd p)) by (intros [x y]; reflexivity).
  assert (L1 : forall p r, at_point pk k g nx ny "undef" be (fst p) (snd p) = Ok r -> exists v, r = [v]).
  { intros [x y] r E. destruct (point_step pk k g nx ny "undef" kUndef be x y K eq_refl) as (it & _ & _ & E'). cbn [fst snd] in E. rewrite E' in E. destruct (res _); cbn in E; try discriminate. injection E as <-. eauto. }
  generalize (concat parts). clear parts. intro ps. revert l. induction ps as [|p t IH]; intro l; cbn [omap].
  - split; [intros [= <-]; constructor|]. intro F. inversion F. reflexivity.
  - rewrite A. split.
    + intro E. apply obind_inv in E as (v & E & E'). apply obind_inv in E as (r & E & Ev). apply obind_inv in E' as (r' & E' & El). injection El as <-.
      destruct (L1 p r E) as (v' & ->). injection Ev as ->. constructor; [exact E|]. apply IH. exact E'.
    + intro F. inversion F as [|p' v t' l' E F']; subst. rewrite E. cbn [obind]. rewrite (proj2 (IH l') F'). reflexivity.
Qed.
Print Assumptions C81_schedule.

(** *** C82: the bicubic functions *)
(** On the rectangle of the grid around the point: the bicubic polynomial with the values of the
    grid at the corners and the slopes of natural cubic splines through the window. *)
Theorem C82_bicubic : forall pk g nx ny s be x y sx sy q, usable_grid g -> 2 <= nx -> 2 <= ny -> no_overlap (g2_x g) nx -> In s boundaries ->
  FrameSpec.window (g2_x g) x nx sx -> FrameSpec.window (g2_y g) y ny sy -> window_values g nx ny sx sy q ->
  exists xs ys z v zx zy zxy, unrolled (g2_x g) x nx sx xs z /\ unrolled (g2_y g) y ny sy ys y /\
    at_point pk (true, "bicubic"%string) g nx ny s be x y = Ok [Some v] /\
    (forall j, j < 2 * ny -> natural_slopes xs (col nx q j) (fun i => zx i j)) /\
    (forall i, i < 2 * nx -> natural_slopes ys (row ny q i) (zy i)) /\
    (forall j, j < 2 * ny -> natural_slopes xs (col nx zy j) (fun i => zxy i j)) /\
    (v == patch_of xs ys q zx zy zxy (nx - 1) (ny - 1) z y)%Q.
Proof.
  intros pk g nx ny s be x y sx sy q U Hx Hy O B Wx Wy V. destruct (parse_in s B) as (b & Eb). assert (Hx1 : 1 <= nx) by lia. assert (Hy1 : 1 <= ny) by lia.
  assert (K' : In (true, "bicubic"%string) kinds) by (cbn; intuition auto).
  destruct (window_value pk _ g nx ny s b be x y sx sy q K' U Hx1 Hy1 O Eb Wx Wy V) as (it & I & E & ->).
  assert (Us := U). destruct Us as (Ux & Uy & Py & _). destruct (frame_facts (g2_x g) (g2_y g) x y nx ny sx sy Ux Uy Py Hx1 Hy1 O Wx Wy) as [Fx Fy].
  assert (Ix := Fx). destruct Ix as (Lx & Ix & _ & _ & Bx). assert (Iy := Fy). destruct Iy as (Ly & Iy & _ & _ & By).
  cbn in E. injection E as <-. destruct I as (_ & I).
  destruct (bicubic_value pk nx ny _ _ _ _ q Hx1 Hy1 Ix Iy Lx Ly Bx By cspline_init Hx Hy I) as (it' & v & zx & zy & zxy & R & Zx & Zy & Zxy & Ev).
  exists (XS (g2_x g) nx sx), (YS (g2_y g) ny sy), (abscissa (g2_x g) sx x), v, zx, zy, zxy. split; [exact Fx|]. split; [exact Fy|]. rewrite R. cbn [res obind]. auto 6.
Qed.
Print Assumptions C82_bicubic.
Theorem C82_exact : forall pk g nx ny s be x y sx sy i j vx vy q, usable_grid g -> 2 <= nx -> 2 <= ny -> no_overlap (g2_x g) nx -> In s boundaries ->
  FrameSpec.window (g2_x g) x nx sx -> FrameSpec.window (g2_y g) y ny sy -> window_values g nx ny sx sy q ->
  at_index (g2_x g) i vx -> same_place (g2_x g) x vx -> at_index (g2_y g) j vy -> (y == vy)%Q ->
  exists v w, nd_cell (g2_array g) [i; j] = Some v /\ at_point pk (true, "bicubic"%string) g nx ny s be x y = Ok [Some w] /\ (w == v)%Q.
Proof.
  intros pk g nx ny s be x y sx sy i j vx vy q U Hx Hy O B Wx Wy V Ax Sx Ay Sy. destruct (parse_in s B) as (b & Eb). assert (Hx1 : 1 <= nx) by lia. assert (Hy1 : 1 <= ny) by lia.
  assert (K' : In (true, "bicubic"%string) kinds) by (cbn; intuition auto).
  destruct (window_value pk _ g nx ny s b be x y sx sy q K' U Hx1 Hy1 O Eb Wx Wy V) as (it & I & E & ->).
  assert (Us := U). destruct Us as (Ux & Uy & Py & _). destruct (frame_facts (g2_x g) (g2_y g) x y nx ny sx sy Ux Uy Py Hx1 Hy1 O Wx Wy) as [Fx Fy].
  assert (Ix := Fx). destruct Ix as (Lx & Ix & _ & _ & Bx). assert (Iy := Fy). destruct Iy as (Ly & Iy & _ & _ & By).
  cbn in E. injection E as <-. destruct I as (_ & I).
  destruct (bicubic_value pk nx ny _ _ _ _ q Hx1 Hy1 Ix Iy Lx Ly Bx By cspline_init Hx Hy I) as (it' & v & zx & zy & zxy & R & _ & _ & _ & Ev).
  assert (Sy' : same_place (g2_y g) y vy) by (unfold same_place; rewrite Py; exact Sy).
  destruct (window_node (g2_x g) x nx sx i vx Ux Hx1 O Wx Ax Sx) as (kx & Hkx & Nkx & Ekx). destruct (window_node (g2_y g) y ny sy j vy Uy Hy1 (Oy _ ny Uy Py) Wy Ay Sy') as (ky & Hky & Nky & Eky).
  assert (Lkx : kx < 2 * nx) by lia. assert (Lky : ky < 2 * ny) by lia. assert (Vk := V kx ky Lkx Lky). unfold value_at in Vk. rewrite Nkx, Nky in Vk.
  exists (q kx ky), v. split; [exact Vk|]. rewrite R. cbn [res obind]. split; [reflexivity|]. rewrite Ev. apply patch_nodes; auto; try lia.
  - unfold XS. rewrite at_map by exact Lkx. exact Ekx.
  - unfold YS. rewrite at_map by exact Lky. unfold abscissa in Eky. rewrite Py in Eky. exact Eky.
Qed.
Print Assumptions C82_exact.
(** "bilinear": the bilinear interpolation of the four values around the point. *)
Theorem C82_bilinear : forall pk g nx ny s be x y sx sy q, usable_grid g -> 1 <= nx -> 1 <= ny -> no_overlap (g2_x g) nx -> In s boundaries ->
  FrameSpec.window (g2_x g) x nx sx -> FrameSpec.window (g2_y g) y ny sy -> window_values g nx ny sx sy q ->
  exists xs ys z v, unrolled (g2_x g) x nx sx xs z /\ unrolled (g2_y g) y ny sy ys y /\
    at_point pk (true, "bilinear"%string) g nx ny s be x y = Ok [Some v] /\
    (v == bilerp (at_ xs (nx - 1)) (at_ xs nx) (at_ ys (ny - 1)) (at_ ys ny) (q (nx - 1)%nat (ny - 1)%nat) (q (nx - 1)%nat ny) (q nx (ny - 1)%nat) (q nx ny) z y)%Q.
Proof.
  intros pk g nx ny s be x y sx sy q U Hx Hy O B Wx Wy V. destruct (parse_in s B) as (b & Eb).
  assert (K' : In (true, "bilinear"%string) kinds) by (cbn; intuition auto).
  destruct (window_value pk _ g nx ny s b be x y sx sy q K' U Hx Hy O Eb Wx Wy V) as (it & I & E & ->).
  assert (Us := U). destruct Us as (Ux & Uy & Py & _). destruct (frame_facts (g2_x g) (g2_y g) x y nx ny sx sy Ux Uy Py Hx Hy O Wx Wy) as [Fx Fy].
  assert (Ix := Fx). destruct Ix as (Lx & Ix & _ & _ & Bx). assert (Iy := Fy). destruct Iy as (Ly & Iy & _ & _ & By).
  cbn in E. injection E as <-. destruct (bilinear_value pk nx ny _ _ _ _ q Hx Hy Ix Iy Lx Ly Bx By) as (v & R & Ev).
  exists (XS (g2_x g) nx sx), (YS (g2_y g) ny sy), (abscissa (g2_x g) sx x), v. split; [exact Fx|]. split; [exact Fy|]. rewrite R. cbn [res obind]. auto.
Qed.
Print Assumptions C82_bilinear.
(** With a single point on each side of x, or of y, the bicubic functions throw: 2 points make
    no natural spline. *)
Lemma slopes_throw st xs l t : length xs < 4 -> exists m, cspline_all st xs (l :: t) = Throw m.
Proof.
  intro H. cbn [cspline_all]. unfold cspline_slopes, cspline_compute, cspline_min_size. destruct (check_cases 4 xs l) as [(m & ->)|(_ & _ & H')]; [exists m; reflexivity|lia].
Qed.
Theorem C82_small_window_throws : forall pk g nx ny s be x y sx sy q, usable_grid g -> 1 <= nx -> 1 <= ny -> nx = 1 \/ ny = 1 -> In s boundaries -> no_overlap (g2_x g) nx ->
  FrameSpec.window (g2_x g) x nx sx -> FrameSpec.window (g2_y g) y ny sy -> window_values g nx ny sx sy q ->
  exists m, at_point pk (true, "bicubic"%string) g nx ny s be x y = Throw m.
Proof.
  intros pk g nx ny s be x y sx sy q U Hx Hy N B O Wx Wy V. destruct (parse_in s B) as (b & Eb).
  assert (K' : In (true, "bicubic"%string) kinds) by (cbn; intuition auto).
  destruct (window_value pk _ g nx ny s b be x y sx sy q K' U Hx Hy O Eb Wx Wy V) as (it & I & E & ->). cbn in E. injection E as <-. destruct I as [_ I].
  destruct (frame_window_ok g nx ny x y sx sy q U Hx Hy O Wx Wy) as (Ix & _ & Lx & Ly & _). cbn [fr_x fr_y fr_q] in *.
  set (xs := XS (g2_x g) nx sx) in *. set (ys := YS (g2_y g) ny sy) in *. clearbody xs ys. cbn [interpolate2 fr_x fr_y fr_q]. unfold bicubic_compute. rewrite (check2_ok nx ny q xs ys Hx Hy Lx Ly). cbn [obind].
  destruct (Nat.eq_dec nx 1) as [N1|N1].
  - destruct (map_seq_nil (col nx q) ny Hy) as (c & t & Ec). rewrite Ec. destruct (slopes_throw cspline_init xs c t) as (m & ->); [lia|]. exists m. reflexivity.
  - destruct (all_value pk xs (map (col nx q) (seq 0 (2 * ny)))) with (st := cspline_init) as (s1 & zx & E1 & _); [|exact I|].
    { intros c Hc. apply in_map_iff in Hc as (j & <- & _). unfold col. split; [rewrite map_length, seq_length; exact Lx|]. split; [lia|exact Ix]. }
    rewrite E1. cbn [obind]. rewrite Lx, (omap_ok _ (row ny q)) by (intros i Hi; apply in_seq in Hi; apply mat_row_col; lia). cbn [obind].
    destruct (map_seq_nil (row ny q) nx Hx) as (c & t & Ec). rewrite Ec. destruct (slopes_throw s1 ys c t) as (m & ->); [lia|]. exists m. reflexivity.
Qed.
Print Assumptions C82_small_window_throws.
