(** The windows of a grid, and the points interpolated one after the other. *)
From Verif Require Import Base BaseProofs MathModel AxisModel AxisSpec AxisProofs InterpModel InterpSpec Interp1dModel Interp1dSpec.
From Verif Require Import MathProofs InterpProofs5 InterpProofs GridModel GridSpec GridProofs FrameModel FrameSpec FrameProofs FrameProofs2.
Open Scope nat_scope.

Lemma omap_map {A B C : Type} (f : B -> outcome C) (g : A -> B) l : omap f (map g l) = omap (fun x => f (g x)) l.
Proof. induction l as [|x t IH]; cbn; auto. rewrite IH. reflexivity. Qed.
Lemma map_seq_nil {A} (g : nat -> A) n : 1 <= n -> exists h t, map g (seq 0 (2 * n)) = h :: t.
Proof. intro H. destruct (2 * n) eqn:E; [lia|]. cbn. eauto. Qed.

Definition layer (nx ny : nat) (c : nat -> nat -> option Q) : option (list (list Q)) :=
  without_nan (map without_nan (map (fun j => map (fun i => c i j) (seq 0 (2 * nx))) (seq 0 (2 * ny)))).
Lemma layer_values nx ny c q : (forall i j, i < 2 * nx -> j < 2 * ny -> c i j = Some (q i j)) -> layer nx ny c = Some (map (col nx q) (seq 0 (2 * ny))).
Proof.
  intro H. unfold layer. rewrite <- (without_nan2 (map (col nx q) (seq 0 (2 * ny)))). f_equal. f_equal. rewrite map_map. apply map_ext_in. intros j Hj. apply in_seq in Hj.
  unfold col. rewrite map_map. apply map_ext_in. intros i Hi. apply in_seq in Hi. apply H; lia.
Qed.
Lemma layer_missing nx ny c i j : i < 2 * nx -> j < 2 * ny -> c i j = None -> layer nx ny c = None.
Proof.
  intros Hi Hj H. unfold layer. apply without_nan_none. rewrite map_map. apply in_map_iff. exists j. split; [|apply in_seq; lia].
  apply without_nan_none. apply in_map_iff. exists i. split; [exact H|apply in_seq; lia].
Qed.
Lemma layer_inv nx ny c F : layer nx ny c = Some F -> exists q, (forall i j, i < 2 * nx -> j < 2 * ny -> c i j = Some (q i j)) /\ F = map (col nx q) (seq 0 (2 * ny)).
Proof.
  intro H. set (q := fun i j => match c i j with Some v => v | None => 0%Q end).
  assert (A : forall i j, i < 2 * nx -> j < 2 * ny -> c i j = Some (q i j)).
  { intros i j Hi Hj. unfold q. destruct (c i j) eqn:E; [reflexivity|]. rewrite (layer_missing nx ny c i j Hi Hj E) in H. discriminate. }
  exists q. split; [exact A|]. rewrite (layer_values nx ny c q A) in H. congruence.
Qed.
Lemma layer_ext nx ny c c' : (forall i j, i < 2 * nx -> j < 2 * ny -> c i j = c' i j) -> layer nx ny c = layer nx ny c'.
Proof.
  intro H. unfold layer. f_equal. f_equal. apply map_ext_in. intros j Hj. apply in_seq in Hj. apply map_ext_in. intros i Hi. apply in_seq in Hi. apply H; lia.
Qed.

(** *** Loading *)
Section Load.
  Variables (ax ay : axis) (x y : Q) (nx ny : nat) (sx sy : Z).
  Hypotheses (Ux : usable ax) (Uy : usable ay) (Py : is_angle ay = false) (Hx : 1 <= nx) (Hy : 1 <= ny).
  Hypotheses (Ox : no_overlap ax nx) (Wx : FrameSpec.window ax x nx sx) (Wy : FrameSpec.window ay y ny sy).
  Let XI := map (node ax sx) (seq 0 (2 * nx)).
  Let YI := map (node ay sy) (seq 0 (2 * ny)).
  Definition XS := map (coord ax sx) (seq 0 (2 * nx)).
  Definition YS := map (coord ay sy) (seq 0 (2 * ny)).
  Lemma Oy : no_overlap ay ny.
  Proof. intro C. destruct (u_plain ay Uy Py) as [_ C']. congruence. Qed.
  Lemma xs_ok x0 : x0 = fval (a_cont ax) (node ax sx 0) -> omap (frame_x ax x0) XI = Ok XS.
  Proof using Ux.
    intros ->. unfold XI, XS. rewrite omap_map. apply omap_ok. intros k _. unfold frame_x, coord. rewrite (u_axis_at ax Ux) by (apply node_range; exact Ux). cbn [obind]. destruct (is_angle ax); reflexivity.
  Qed.
  Lemma ys_ok : omap (axis_at ay) YI = Ok YS.
  Proof using Uy Py.
    unfold YI, YS. rewrite omap_map. apply omap_ok. intros k _. unfold coord. rewrite Py. rewrite (u_axis_at ay Uy) by (apply node_range; exact Uy). reflexivity.
  Qed.
  Lemma layer_ok arr rest c : (forall i j, i < 2 * nx -> j < 2 * ny -> grid_value arr (node ax sx i :: node ay sy j :: rest) = Ok (c i j)) ->
    frame_layer arr XI YI rest = Ok (layer nx ny c).
  Proof using.
    clear Hx Hy Ox Wx Wy Ux Uy Py.
    intro H. unfold frame_layer. rewrite (omap_ok _ (fun jy => match frame_column arr XI rest jy with Ok l => l | _ => [] end)).
    - cbn [obind]. unfold layer. do 3 f_equal. unfold YI. rewrite map_map. apply map_ext_in. intros j Hj. apply in_seq in Hj.
      unfold frame_column, XI. rewrite omap_map. rewrite (omap_ok _ (fun i => c i j)); [reflexivity|]. intros i Hi. apply in_seq in Hi. apply H; lia.
    - intros jy Hj. unfold YI in Hj. apply in_map_iff in Hj as (j & <- & Hj). apply in_seq in Hj.
      unfold frame_column, XI. rewrite omap_map. rewrite (omap_ok _ (fun i => c i j)); [reflexivity|]. intros i Hi. apply in_seq in Hi. apply H; lia.
  Qed.
  Lemma first_ok : first_index XI = Ok (node ax sx 0).
  Proof using Hx. unfold XI. clear -Hx. destruct nx; [lia|]. reflexivity. Qed.
  Lemma abscissa_ok ys q : frame_abscissa ax (Frame2 XS ys q) x = Ok (abscissa ax sx x).
  Proof using Hx.
    clear -Hx.
    unfold frame_abscissa, abscissa. destruct (is_angle ax) eqn:A; [|reflexivity]. cbn [fr_x]. rewrite (oat_ok XS 0) by (unfold XS; rewrite map_length, seq_length; lia).
    cbn [obind]. unfold XS. rewrite at_map by lia. reflexivity.
  Qed.
  Lemma load2_ok arr b be c : (forall i j, i < 2 * nx -> j < 2 * ny -> grid_value arr [node ax sx i; node ay sy j] = Ok (c i j)) ->
    load_frame2 (Grid2 ax ay arr) x y nx ny b be = Ok match layer nx ny c with Some q => Some (Frame2 XS YS q) | None => None end.
  Proof.
    intro H. unfold load_frame2. cbn [g2_x g2_y g2_array]. rewrite (window_indexes ay Uy y ny sy b Hy Oy Wy), (window_indexes ax Ux x nx sx b Hx Ox Wx). cbn [obind].
    fold XI YI. assert (E := layer_ok arr [] c H). assert (F := first_ok). assert (G := xs_ok _ eq_refl). assert (K := ys_ok).
    destruct (map_seq_nil (node ax sx) nx Hx) as (h & t & Ex). destruct (map_seq_nil (node ay sy) ny Hy) as (h' & t' & Ey). fold XI in Ex. fold YI in Ey.
    rewrite Ex, Ey in *. rewrite F. cbn [obind]. rewrite (u_axis_at ax Ux) by (apply node_range; exact Ux). cbn [obind]. rewrite K. cbn [obind]. rewrite G. cbn [obind]. rewrite E. reflexivity.
  Qed.
  Lemma frame_facts : unrolled ax x nx sx XS (abscissa ax sx x) /\ unrolled ay y ny sy YS y.
  Proof.
    split; [apply window_unrolled; auto|]. assert (E := window_unrolled ay Uy y ny sy Hy Oy Wy). unfold abscissa in E. rewrite Py in E. exact E.
  Qed.
End Load.


Lemma window_dec a x size : usable a -> 1 <= size -> (exists s, FrameSpec.window a x size s) \/ ~ (exists s, FrameSpec.window a x size s).
Proof.
  intros U H. destruct (asc_find a U x) as (z & r & S & Hr & P). destruct r as [[i0 i1]|].
  - destruct P as (C & _). destruct (a_is_circle a) eqn:Ci; [left; exists (i0 - Z.of_nat size + 1)%Z, z, i0; auto|].
    destruct (Z_le_dec 0 (i0 - Z.of_nat size + 1)) as [L|L]; [destruct (Z_le_dec (i0 - Z.of_nat size + 1 + 2 * Z.of_nat size) (len a)) as [L'|L']|].
    + left. exists (i0 - Z.of_nat size + 1)%Z, z, i0. auto 10.
    + right. intros (s & z' & i & S' & C' & -> & [F|F]); [congruence|]. destruct (cell_place a U z z' i0 i (place_trans a z z' x S S') C C') as [_ <-]. lia.
    + right. intros (s & z' & i & S' & C' & -> & [F|F]); [congruence|]. destruct (cell_place a U z z' i0 i (place_trans a z z' x S S') C C') as [_ <-]. lia.
  - right. intros (s & W). assert (no_overlap a size) by (intro; destruct P; congruence). assert (E := window_indexes a U x size s kUndef H H0 W).
    assert (G := window_unrolled a U x size s H H0 W). destruct W as (z' & i & S' & C & _). destruct P as (Ci & O & Y).
    destruct (cell_bounds a U z' i C) as (_ & Z1 & _ & Z3 & Z4). destruct (Z4 Ci) as [_ Z5].
    assert (Ez : (z' == z)%Q). { assert (S'' := place_trans a z' z x S' S). unfold same_place in S''. destruct (is_angle a) eqn:Ang; [|exact S''].
      destruct S'' as [k Hk]. specialize (Y eq_refl). specialize (Z3 eq_refl). apply (turn_unique z' z (fval (a_cont a) 0) 360 k); auto; lra. }
    fold (len a) in *. lra.
Qed.
Lemma load2_outside g x y nx ny be : usable_grid g -> 1 <= nx -> 1 <= ny -> no_overlap (g2_x g) nx ->
  ~ ((exists s, FrameSpec.window (g2_x g) x nx s) /\ exists s, FrameSpec.window (g2_y g) y ny s) ->
  load_frame2 g x y nx ny kUndef be = if be then Throw "Unable to frame the value" else Ok None.
Proof.
  intros (Ux & Uy & Py & _) Hx Hy O NW. unfold load_frame2.
  destruct (window_dec (g2_y g) y ny Uy Hy) as [(sy & Wy)|Wy].
  - rewrite (window_indexes _ Uy y ny sy kUndef Hy (Oy _ ny Uy Py) Wy). cbn [obind]. destruct (window_dec (g2_x g) x nx Ux Hx) as [Wx|Wx]; [exfalso; eauto|].
    rewrite (no_window _ Ux x nx Hx Wx). reflexivity.
  - rewrite (no_window _ Uy y ny Hy Wy). cbn [obind]. destruct (window_dec (g2_x g) x nx Ux Hx) as [(sx & Wx)|Wx].
    + rewrite (window_indexes _ Ux x nx sx kUndef Hx O Wx). cbn [obind]. destruct (map_seq_nil (node (g2_x g) sx) nx Hx) as (h & t & ->). reflexivity.
    + rewrite (no_window _ Ux x nx Hx Wx). reflexivity.
Qed.

(** The values of the grid. *)
Lemma grid_cells g : usable_grid g -> forall sx sy i j, grid_value (g2_array g) [node (g2_x g) sx i; node (g2_y g) sy j] = Ok (value_at g sx sy i j).
Proof.
  intros (Ux & Uy & Py & G) sx sy i j. destruct (new_grid2_inv _ _ _ _ G) as (_ & S & _). unfold value_at. eapply grid_value2; [exact S| |]; apply node_range; auto.
Qed.
(** *** One point *)
Section Step.
  Variable pk : nat -> nat -> list nat.
  Hypothesis P : all_cells pk.
  Variables (g : grid2) (nx ny : nat).
  Hypotheses (U : usable_grid g) (Hx : 1 <= nx) (Hy : 1 <= ny) (Ox : no_overlap (g2_x g) nx).
  Lemma step_window b be it x y sx sy : FrameSpec.window (g2_x g) x nx sx -> FrameSpec.window (g2_y g) y ny sy ->
    step2 pk g nx ny b be it (x, y) =
    match layer nx ny (value_at g sx sy) with
    | None => Ok (it, None)
    | Some q => interpolate2 pk it (abscissa (g2_x g) sx x) y (Frame2 (XS (g2_x g) nx sx) (YS (g2_y g) ny sy) q)
    end.
  Proof.
    intros Wx Wy. assert (C := grid_cells g U sx sy). destruct U as (Ux & Uy & Py & _). unfold step2.
    assert (L := load2_ok (g2_x g) (g2_y g) x y nx ny sx sy Ux Uy Py Hx Hy Ox Wx Wy (g2_array g) b be (value_at g sx sy) (fun i j _ _ => C i j)).
    destruct g as [ax ay arr]. cbn [g2_x g2_y g2_array] in *. rewrite L. cbn [obind]. destruct (layer nx ny _); [|reflexivity].
    erewrite abscissa_ok by eauto. reflexivity.
  Qed.
  Lemma step_outside be it x y : ~ ((exists s, FrameSpec.window (g2_x g) x nx s) /\ exists s, FrameSpec.window (g2_y g) y ny s) ->
    step2 pk g nx ny kUndef be it (x, y) = if be then Throw "Unable to frame the value" else Ok (it, None).
  Proof. intro NW. unfold step2. rewrite load2_outside by auto. destruct be; reflexivity. Qed.
End Step.

(** *** Earlier points do not matter *)
Section Steady.
  Variable pk : nat -> nat -> list nat.
  Hypothesis P : all_cells pk.
  Definition it_used (k : bool * string) (nx ny : nat) (it : interp2) : Prop :=
    match it with
    | ISpline2 ox oy => fst k = false /\ used pk (snd k) (fun m => m = 2 * nx) ox /\ used pk (snd k) (fun m => m = 2 * ny) oy
    | IBilinear2 => k = (true, "bilinear"%string)
    | IBicubic2 st => k = (true, "bicubic"%string) /\ cs_used pk st
    end.
  Definition it_steady (k : bool * string) (nx ny : nat) : Prop := snd k = "c_spline_periodic"%string -> 2 <= nx /\ 2 <= ny.
  Lemma new_used k nx ny : In k kinds -> exists it, new_interp2 (fst k) (snd k) = Ok it /\ it_used k nx ny it.
  Proof.
    intro H. unfold kinds in H. cbn [map app In] in H.
    repeat (destruct H as [<-|H]; [eexists; split; [reflexivity|]; repeat split; first [apply used_new; reflexivity|apply cs_init|reflexivity]|]). destruct H.
  Qed.
  Definition frame_ok (nx ny : nat) (f : frame2) : Prop :=
    increasing (fr_x f) /\ increasing (fr_y f) /\ length (fr_x f) = 2 * nx /\ length (fr_y f) = 2 * ny /\
    length (fr_q f) = 2 * ny /\ forall c, In c (fr_q f) -> length c = 2 * nx.
  Lemma interp_steady k nx ny it1 it2 x y f : 1 <= nx -> 1 <= ny -> it_steady k nx ny -> frame_ok nx ny f -> it_used k nx ny it1 -> it_used k nx ny it2 ->
    res (interpolate2 pk it1 x y f) = res (interpolate2 pk it2 x y f) /\
    forall it' v, interpolate2 pk it1 x y f = Ok (it', v) -> it_used k nx ny it'.
  Proof.
    intros Hx Hy S (Ix & Iy & Lx & Ly & Lq & Lc) U1 U2.
    assert (Sx : steady (snd k) (2 * nx)) by (intro E; specialize (S E); lia). assert (Sy : steady (snd k) (2 * ny)) by (intro E; specialize (S E); lia).
    destruct it1 as [ox1 oy1| |st1], it2 as [ox2 oy2| |st2]; cbn [it_used] in U1, U2; try (exfalso; destruct k; cbn in *; intuition congruence).
    - destruct U1 as (F & X1 & Y1), U2 as (_ & X2 & Y2). cbn [interpolate2]. unfold spline2d.
      destruct (columns_steady pk P (snd k) (2 * nx) (fr_x f) x Sx Ix Lx (fr_q f) ox1 ox2 Lc X1 X2) as [R N].
      assert (N2 := proj2 (columns_steady pk P (snd k) (2 * nx) (fr_x f) x Sx Ix Lx (fr_q f) ox2 ox1 Lc X2 X1)).
      destruct (spline_columns pk ox1 (fr_x f) x (fr_q f)) as [[a1 c1]|w|w], (spline_columns pk ox2 (fr_x f) x (fr_q f)) as [[a2 c2]|w'|w']; cbn in R; try discriminate; cbn [obind]; try (split; [cbn; congruence|discriminate]).
      injection R as <-. destruct (N a1 c1 eq_refl) as [V1 Lc1]. destruct (N2 a2 c1 eq_refl) as [V2 _].
      destruct (without_nan c1) as [cc|] eqn:W.
      + assert (Lcc : length cc = 2 * ny). { apply without_nan_inv in W. rewrite W, map_length in Lc1. lia. }
        assert (V := value_steady pk P (snd k) (2 * ny) oy1 oy2 (fr_y f) cc y Y1 Y2 Sy Iy Ly Lcc). rewrite <- !call_res in V.
        destruct (call pk oy1 (fr_y f) cc y) as [[b1 v1]|w|w] eqn:E1, (call pk oy2 (fr_y f) cc y) as [[b2 v2]|w'|w'] eqn:E2; cbn in V; try discriminate; cbn [obind res]; try (split; [cbn; congruence|discriminate]).
        injection V as <-. split; [reflexivity|]. intros it' v [= <- <-]. cbn [it_used]. split; [exact F|]. split; [exact V1|]. eapply call_used; [exact Y1|exact Iy|exact Ly|exact E1].
      + cbn [obind]. split; [reflexivity|]. intros it' v [= <- <-]. cbn [it_used]. auto.
    - cbn [interpolate2]. split; [reflexivity|]. intros it' v E. apply obind_inv in E as (r & _ & E). injection E as <- _. exact U1.
    - destruct U1 as (-> & X1), U2 as (_ & X2). cbn [interpolate2].
      assert (Nx : fr_x f <> []) by (intro E; rewrite E in Lx; cbn in Lx; lia). assert (Ny : fr_y f <> []) by (intro E; rewrite E in Ly; cbn in Ly; lia).
      destruct (compute_steady pk P st1 st2 (fr_x f) (fr_y f) (fr_q f) Ix Iy Nx Ny X1 X2) as [R N].
      destruct (bicubic_compute st1 (fr_x f) (fr_y f) (fr_q f)) as [[a1 d1]|w|w], (bicubic_compute st2 (fr_x f) (fr_y f) (fr_q f)) as [[a2 d2]|w'|w']; cbn in R; try discriminate; cbn [obind]; try (split; [cbn; congruence|discriminate]).
      injection R as <-. destruct (bicubic_interp d1 (fr_x f) (fr_y f) (fr_q f) x y) as [v|w|w]; cbn [obind]; try (split; [reflexivity|discriminate]).
      split; [reflexivity|]. intros it' v' [= <- <-]. cbn. split; [reflexivity|]. eapply N. reflexivity.
  Qed.

  Lemma frame_window_ok g nx ny x y sx sy q : usable_grid g -> 1 <= nx -> 1 <= ny -> no_overlap (g2_x g) nx ->
    FrameSpec.window (g2_x g) x nx sx -> FrameSpec.window (g2_y g) y ny sy ->
    frame_ok nx ny (Frame2 (XS (g2_x g) nx sx) (YS (g2_y g) ny sy) (map (col nx q) (seq 0 (2 * ny)))).
  Proof.
    intros (Ux & Uy & Py & _) Hx Hy Ox Wx Wy. destruct (frame_facts (g2_x g) (g2_y g) x y nx ny sx sy Ux Uy Py Hx Hy Ox Wx Wy) as ((L1 & I1 & _) & (L2 & I2 & _)).
    repeat split; cbn [fr_x fr_y fr_q]; auto.
    - rewrite map_length, seq_length. reflexivity.
    - intros c Hc. apply in_map_iff in Hc as (j & <- & _). unfold col. rewrite map_length, seq_length. reflexivity.
  Qed.
  Lemma step_steady g nx ny be k it1 it2 p : usable_grid g -> 1 <= nx -> 1 <= ny -> no_overlap (g2_x g) nx -> it_steady k nx ny -> it_used k nx ny it1 -> it_used k nx ny it2 ->
    res (step2 pk g nx ny kUndef be it1 p) = res (step2 pk g nx ny kUndef be it2 p) /\ forall it' v, step2 pk g nx ny kUndef be it1 p = Ok (it', v) -> it_used k nx ny it'.
  Proof.
    intros U Hx Hy Ox S U1 U2. destruct p as [x y].
    destruct (window_dec (g2_x g) x nx (proj1 U) Hx) as [(sx & Wx)|Wx]; [destruct (window_dec (g2_y g) y ny (proj1 (proj2 U)) Hy) as [(sy & Wy)|Wy]|].
    - rewrite !(step_window pk g nx ny U Hx Hy Ox kUndef be _ x y sx sy Wx Wy). destruct (layer nx ny (value_at g sx sy)) as [F|] eqn:L.
      + apply layer_inv in L as (q & _ & ->). apply interp_steady; auto. eapply frame_window_ok; eauto.
      + split; [reflexivity|]. intros it' v [= <- _]. exact U1.
    - rewrite !(step_outside pk g nx ny U Hx Hy Ox be _ x y) by tauto. destruct be; cbn; split; try discriminate; auto. intros it' v [= <- _]. exact U1.
    - rewrite !(step_outside pk g nx ny U Hx Hy Ox be _ x y) by tauto. destruct be; cbn; split; try discriminate; auto. intros it' v [= <- _]. exact U1.
  Qed.

  (** Any function of this form. *)
  Section Workers.
    Context {Pt : Type} (step : interp2 -> Pt -> outcome (interp2 * option Q)) (k : bool * string) (nx ny : nat).
    Hypothesis K : In k kinds.
    Variable good : Pt -> Prop.
    Hypothesis ST : forall it1 it2 p, good p -> it_used k nx ny it1 -> it_used k nx ny it2 ->
      res (step it1 p) = res (step it2 p) /\ forall it' v, step it1 p = Ok (it', v) -> it_used k nx ny it'.
    Lemma worker_alone it0 : it_used k nx ny it0 -> forall l it, (forall p, In p l -> good p) -> it_used k nx ny it -> worker step it l = omap (fun p => res (step it0 p)) l.
    Proof.
      intro U0. induction l as [|p t IH]; intros it G U; [reflexivity|]. cbn [worker omap]. destruct (ST it it0 p (G p (or_introl eq_refl)) U U0) as [R N].
      destruct (step it p) as [[it' v]|w|w] eqn:E; cbn [obind] in *; rewrite <- R; cbn [obind res]; [|reflexivity|reflexivity].
      rewrite (IH it' (fun p H => G p (or_intror H)) (N it' v eq_refl)). reflexivity.
    Qed.
    Lemma omap_concat {A B : Type} (f : A -> outcome B) parts : (olet r := omap (omap f) parts in Ok (concat r)) = omap f (concat parts).
    Proof.
      assert (App : forall l1 l2, omap f (l1 ++ l2) = olet a := omap f l1 in olet b := omap f l2 in Ok (a ++ b)).
      { induction l1 as [|x t IH]; intro l2; cbn [app omap]; [cbn; destruct (omap f l2); reflexivity|]. destruct (f x); cbn [obind]; auto. rewrite IH. destruct (omap f t); cbn [obind]; auto. destruct (omap f l2); reflexivity. }
      induction parts as [|p t IH]; [reflexivity|]. cbn [omap concat]. rewrite App, <- IH. destruct (omap f p); cbn [obind]; auto. destruct (omap (omap f) t); reflexivity.
    Qed.
    Lemma workers_alone parts : (forall p, In p (concat parts) -> good p) ->
      workers (fst k) (snd k) step parts = omap (fun p => olet r := workers (fst k) (snd k) step [[p]] in match r with [v] => Ok v | _ => UB "" end) (concat parts).
    Proof.
      intro G. destruct (new_used k nx ny K) as (it & E & U). rewrite <- omap_concat. unfold workers.
      assert (A : forall part, (forall p, In p part -> good p) -> (olet it := new_interp2 (fst k) (snd k) in worker step it part) = omap (fun p => res (step it p)) part).
      { intros part Gp. rewrite E. cbn [obind]. apply worker_alone; auto. }
      assert (Gp : forall part p, In part parts -> In p part -> good p) by (intros part p H1 H2; apply G, in_concat; eauto).
      rewrite (omap_ext _ (omap (fun p => res (step it p))) parts) by (intros part Hp; apply A; eauto).
      f_equal. apply omap_ext. intros part Hp. apply omap_ext. intros p Hq. cbn [omap]. rewrite A by (intros p' [<-|[]]; eauto). cbn [omap]. destruct (res (step it p)); reflexivity.
    Qed.
    Lemma alone_step it0 p : good p -> it_used k nx ny it0 -> workers (fst k) (snd k) step [[p]] = olet v := res (step it0 p) in Ok [v].
    Proof.
      intros G U0. destruct (new_used k nx ny K) as (it & E & U). unfold workers. cbn [omap]. rewrite E. cbn [obind]. rewrite (worker_alone it0 U0 [p] it) by (auto; intros p' [<-|[]]; exact G). cbn [omap]. destruct (res (step it0 p)); reflexivity.
    Qed.
  End Workers.
End Steady.
