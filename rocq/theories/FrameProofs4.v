(** The values computed in a window. *)
From Verif Require Import Base BaseProofs MathModel MathProofs AxisModel AxisSpec AxisProofs AxisProofs2 InterpModel InterpSpec Interp1dModel Interp1dSpec.
From Verif Require Import InterpProofs InterpProofs2 InterpProofs3 InterpProofs4 InterpProofs5 InterpProofs6 InterpProps GridModel GridSpec GridProofs GridProofs2 FrameModel FrameSpec FrameProofs FrameProofs2 FrameProofs3.
Open Scope nat_scope.

#[export] Instance hermite_proper : Proper (Qeq ==> Qeq ==> Qeq ==> Qeq ==> Qeq ==> Qeq ==> Qeq ==> Qeq) hermite.
Proof. unfold hermite. repeat intro. rewrite H, H0, H1, H2, H3, H4, H5. reflexivity. Qed.
Lemma poly_patch x0 x1 y0 y1 z00 z10 z01 z11 zx00 zx10 zx01 zx11 zy00 zy10 zy01 zy11 zxy00 zxy10 zxy01 zxy11 x y : (0 < x1 - x0)%Q -> (0 < y1 - y0)%Q ->
  (bicubic_poly ((x - x0) / (x1 - x0)) ((y - y0) / (y1 - y0)) z00 z01 z10 z11 (zx00 * (x1 - x0)) (zx01 * (x1 - x0)) (zx10 * (x1 - x0)) (zx11 * (x1 - x0))
    (zy00 * (y1 - y0)) (zy01 * (y1 - y0)) (zy10 * (y1 - y0)) (zy11 * (y1 - y0))
    (zxy00 * ((x1 - x0) * (y1 - y0))) (zxy01 * ((x1 - x0) * (y1 - y0))) (zxy10 * ((x1 - x0) * (y1 - y0))) (zxy11 * ((x1 - x0) * (y1 - y0)))
   == patch x0 x1 y0 y1 z00 z10 z01 z11 zx00 zx10 zx01 zx11 zy00 zy10 zy01 zy11 zxy00 zxy10 zxy01 zxy11 x y)%Q.
Proof.
  intros Hx Hy. unfold bicubic_poly, patch, hermite. cbv zeta. set (t := ((x - x0) / (x1 - x0))%Q). set (u := ((y - y0) / (y1 - y0))%Q). set (dx := (x1 - x0)%Q). set (dy := (y1 - y0)%Q). ring.
Qed.

(** The cell found, and the cell in the middle of the window. *)
Lemma found_cell xs x m : increasing xs -> S m < length xs -> (at_ xs m <= x <= at_ xs (S m))%Q ->
  exists i, in_cell xs x i /\ (i = m \/ (S i = m /\ (x == at_ xs m)%Q)).
Proof.
  intros I L [A B]. destruct (Qlt_le_dec (at_ xs m) x) as [C|C].
  - exists m. split; [split; [exact L|]; split; [exact B|left; exact C]|auto].
  - assert (E : (x == at_ xs m)%Q) by lra. destruct m as [|i].
    + exists 0. split; [|auto]. split; [exact L|]. split; [exact B|]. right. split; [reflexivity|symmetry; exact E].
    + exists i. split; [|right; auto]. assert (X := I i ltac:(lia)). split; [lia|]. split; [lra|left; lra].
Qed.
Lemma hermite_cells xs x m i (v p : nat -> Q) : increasing xs -> S m < length xs -> (i = m \/ (S i = m /\ (x == at_ xs m)%Q)) ->
  (hermite (at_ xs i) (at_ xs (S i)) (v i) (v (S i)) (p i) (p (S i)) x == hermite (at_ xs m) (at_ xs (S m)) (v m) (v (S m)) (p m) (p (S m)) x)%Q.
Proof.
  intros I L [->|[<- E]]; [reflexivity|]. rewrite !E. assert (A := I i ltac:(lia)). assert (B := I (S i) L).
  rewrite (proj2 (hermite_ends (at_ xs i) (at_ xs (S i)) _ _ _ _ ltac:(lra))). rewrite (proj1 (hermite_ends (at_ xs (S i)) (at_ xs (S (S i))) _ _ _ _ ltac:(lra))). reflexivity.
Qed.
Lemma patch_cells xs ys z zx zy zxy x y i j m n : increasing xs -> increasing ys -> S m < length xs -> S n < length ys ->
  (i = m \/ (S i = m /\ (x == at_ xs m)%Q)) -> (j = n \/ (S j = n /\ (y == at_ ys n)%Q)) ->
  (patch_of xs ys z zx zy zxy i j x y == patch_of xs ys z zx zy zxy m n x y)%Q.
Proof.
  intros Ix Iy Lx Ly Hi Hj. unfold patch_of, patch.
  rewrite (hermite_cells xs x m i (fun i => z i j) (fun i => zx i j) Ix Lx Hi), (hermite_cells xs x m i (fun i => z i (S j)) (fun i => zx i (S j)) Ix Lx Hi),
    (hermite_cells xs x m i (fun i => zy i j) (fun i => zxy i j) Ix Lx Hi), (hermite_cells xs x m i (fun i => zy i (S j)) (fun i => zxy i (S j)) Ix Lx Hi).
  set (H := fun (f g : nat -> nat -> Q) j => hermite (at_ xs m) (at_ xs (S m)) (f m j) (f (S m) j) (g m j) (g (S m) j) x).
  exact (hermite_cells ys y n j (H z zx) (H zy zxy) Iy Ly Hj).
Qed.
Lemma patch_nodes xs ys z zx zy zxy x y i j m n : increasing xs -> increasing ys -> S m < length xs -> S n < length ys ->
  (i = m \/ i = S m) -> (j = n \/ j = S n) -> (x == at_ xs i)%Q -> (y == at_ ys j)%Q -> (patch_of xs ys z zx zy zxy m n x y == z i j)%Q.
Proof.
  intros Ix Iy Lx Ly Hi Hj Ex Ey. unfold patch_of, patch. assert (A := Ix m Lx). assert (B := Iy n Ly).
  destruct Hj as [-> | ->]; rewrite !Ey; rewrite ?(proj1 (hermite_ends (at_ ys n) (at_ ys (S n)) _ _ _ _ ltac:(lra))), ?(proj2 (hermite_ends (at_ ys n) (at_ ys (S n)) _ _ _ _ ltac:(lra)));
  destruct Hi as [-> | ->]; rewrite !Ex; rewrite ?(proj1 (hermite_ends (at_ xs m) (at_ xs (S m)) _ _ _ _ ltac:(lra))), ?(proj2 (hermite_ends (at_ xs m) (at_ xs (S m)) _ _ _ _ ltac:(lra))); reflexivity.
Qed.

(** Matrices given by their columns. *)
Lemma nth_error_map_seq {A} (g : nat -> A) n j : j < n -> nth_error (map g (seq 0 n)) j = Some (g j).
Proof. intro H. rewrite nth_error_map. rewrite (nth_error_nth' (seq 0 n) 0) by (rewrite seq_length; exact H). rewrite seq_nth by exact H. reflexivity. Qed.
Lemma mat_at_cols (l : list (list Q)) i j n : j < length l -> (forall c, In c l -> length c = n) -> i < n -> mat_at l i j = Ok (at_ (nth j l []) i).
Proof.
  intros Hj Hc Hi. unfold mat_at. rewrite (nth_error_nth' l [] Hj). apply oat_ok. rewrite (Hc (nth j l [])); [exact Hi|]. apply nth_In. exact Hj.
Qed.
Lemma mat_at_col nx ny q i j : i < 2 * nx -> j < 2 * ny -> mat_at (map (col nx q) (seq 0 (2 * ny))) i j = Ok (q i j).
Proof.
  intros Hi Hj. unfold mat_at. rewrite nth_error_map_seq by exact Hj. unfold col. rewrite oat_ok by (rewrite map_length, seq_length; exact Hi). rewrite at_map by exact Hi. reflexivity.
Qed.
Lemma mat_row_col nx ny q i : i < 2 * nx -> mat_row (map (col nx q) (seq 0 (2 * ny))) i = Ok (row ny q i).
Proof.
  intro Hi. unfold mat_row, row. rewrite omap_map. apply omap_ok. intros j _. unfold col. rewrite oat_ok by (rewrite map_length, seq_length; exact Hi). rewrite at_map by exact Hi. reflexivity.
Qed.
Lemma check2_ok nx ny q xs ys : 1 <= nx -> 1 <= ny -> length xs = 2 * nx -> length ys = 2 * ny -> check_sizes2 xs ys (map (col nx q) (seq 0 (2 * ny))) = Ok tt.
Proof.
  intros Hx Hy Lx Ly. unfold check_sizes2. assert (F : forallb (fun c => length c =? length xs) (map (col nx q) (seq 0 (2 * ny))) = true).
  { apply forallb_forall. intros c Hc. apply in_map_iff in Hc as (j & <- & _). unfold col. rewrite map_length, seq_length, Lx. apply Nat.eqb_refl. }
  rewrite F, map_length, seq_length, Ly, Nat.eqb_refl, Lx. destruct (Nat.ltb_spec (2 * nx) 2); [lia|]. destruct (Nat.ltb_spec (2 * ny) 2); [lia|]. reflexivity.
Qed.
Lemma Forall2_nth_at {A B} (R : A -> B -> Prop) l l' d d' j : Forall2 R l l' -> j < length l -> R (nth j l d) (nth j l' d').
Proof. intro F. revert j. induction F; intros j Hj; cbn in *; [lia|]. destruct j; auto. apply IHF. lia. Qed.
Lemma F2_length {A B} (R : A -> B -> Prop) l l' : Forall2 R l l' -> length l = length l'.
Proof. induction 1; cbn; congruence. Qed.
Lemma nth_map_seq {A} (g : nat -> A) n j d : j < n -> nth j (map g (seq 0 n)) d = g j.
Proof. intro H. rewrite (nth_indep _ d (g 0)) by (rewrite map_length, seq_length; exact H). rewrite map_nth, seq_nth by exact H. reflexivity. Qed.

Section Values.
  Variable pk : nat -> nat -> list nat.
  Hypothesis P : all_cells pk.
  Variables (nx ny : nat) (xs ys : list Q) (x y : Q) (q : nat -> nat -> Q).
  Hypotheses (Hx : 1 <= nx) (Hy : 1 <= ny) (Ix : increasing xs) (Iy : increasing ys) (Lx : length xs = 2 * nx) (Ly : length ys = 2 * ny).
  Hypotheses (Bx : (at_ xs (nx - 1) <= x <= at_ xs nx)%Q) (By : (at_ ys (ny - 1) <= y <= at_ ys ny)%Q).
  Let F := Frame2 xs ys (map (col nx q) (seq 0 (2 * ny))).
  Lemma in_x : ~ outside xs x.
  Proof.
    assert (Ix' := increasing_le xs). intros [O|O].
    - specialize (Ix' 0 (nx - 1) Ix ltac:(lia) ltac:(lia)). lra.
    - specialize (Ix' nx (length xs - 1) Ix ltac:(lia) ltac:(lia)). lra.
  Qed.
  Lemma in_y : ~ outside ys y.
  Proof.
    assert (Iy' := increasing_le ys). intros [O|O].
    - specialize (Iy' 0 (ny - 1) Iy ltac:(lia) ltac:(lia)). lra.
    - specialize (Iy' ny (length ys - 1) Iy ltac:(lia) ltac:(lia)). lra.
  Qed.
  Lemma spline_value kind ox oy : In kind ["linear"; "steffen"; "c_spline"]%string -> needs kind <= 2 * nx -> needs kind <= 2 * ny ->
    used pk kind (fun m => m = 2 * nx) ox -> used pk kind (fun m => m = 2 * ny) oy ->
    exists it v w, interpolate2 pk (ISpline2 ox oy) x y F = Ok (it, Some v) /\ length w = 2 * ny /\
      (forall j, j < 2 * ny -> on_curve kind xs (col nx q j) x (at_ w j)) /\ on_curve kind ys w y v /\
      (forall i j, i < 2 * nx -> j < 2 * ny -> (x == at_ xs i)%Q -> (y == at_ ys j)%Q -> (v == q i j)%Q).
  Proof.
    intros K Nx Ny Ux Uy. cbn [interpolate2]. unfold spline2d, F. cbn [fr_x fr_y fr_q].
    destruct (columns_value pk kind (2 * nx) xs x (map (col nx q) (seq 0 (2 * ny))) K Nx Ix Lx in_x) with (o := ox) as (ox' & w & E & _ & W).
    { intros c Hc. apply in_map_iff in Hc as (j & <- & _). unfold col. rewrite map_length, seq_length. reflexivity. } { exact Ux. }
    rewrite E. cbn [obind]. rewrite without_nan_some.
    assert (Lw : length w = 2 * ny). { assert (X := F2_length _ _ _ W). rewrite map_length, seq_length in X. congruence. }
    assert (D : data (needs kind) ys w) by (split; [congruence|]; split; [lia|exact Iy]).
    destruct (curve_value pk kind _ oy ys w y K Uy D in_y) as (v & V & OC). rewrite <- call_res in V.
    destruct (call pk oy ys w y) as [[oy' v']|m|m] eqn:C; try discriminate. cbn in V. injection V as ->. cbn [obind].
    assert (Wj : forall j, j < 2 * ny -> on_curve kind xs (col nx q j) x (at_ w j) /\ forall i, i < 2 * nx -> (x == at_ xs i)%Q -> (at_ w j == at_ (col nx q j) i)%Q).
    { intros j Hj. assert (X := Forall2_nth_at _ _ _ [] 0%Q j W). rewrite map_length, seq_length in X. specialize (X Hj). cbv beta in X. rewrite nth_map_seq in X by exact Hj. exact X. }
    do 2 eexists. exists w. split; [reflexivity|]. split; [exact Lw|]. split; [intros j Hj; apply Wj; exact Hj|]. split; [exact OC|].
    intros i j Hi Hj Ex Ey. destruct (curve_passes pk kind _ oy ys w K Uy D j y ltac:(lia) Ey) as (v' & V' & Q). rewrite <- call_res, C in V'. cbn in V'. injection V' as <-.
    rewrite Q. rewrite (proj2 (Wj j Hj) i Hi Ex). unfold col. rewrite at_map by exact Hi. reflexivity.
  Qed.
  Lemma bicubic_value st : 2 <= nx -> 2 <= ny -> cs_used pk st ->
    exists it v zx zy zxy, interpolate2 pk (IBicubic2 st) x y F = Ok (it, Some v) /\
      (forall j, j < 2 * ny -> natural_slopes xs (col nx q j) (fun i => zx i j)) /\
      (forall i, i < 2 * nx -> natural_slopes ys (row ny q i) (zy i)) /\
      (forall j, j < 2 * ny -> natural_slopes xs (col nx zy j) (fun i => zxy i j)) /\
      (v == patch_of xs ys q zx zy zxy (nx - 1) (ny - 1) x y)%Q.
  Proof.
    intros Nx Ny U. cbn [interpolate2]. unfold F. cbn [fr_x fr_y fr_q]. unfold bicubic_compute. rewrite check2_ok by auto. cbn [obind].
    destruct (all_value pk xs (map (col nx q) (seq 0 (2 * ny)))) with (st := st) as (s1 & zx & E1 & U1 & Z1).
    { intros c Hc. apply in_map_iff in Hc as (j & <- & _). unfold col. split; [rewrite map_length, seq_length; exact Lx|]. split; [lia|exact Ix]. } { exact U. }
    rewrite E1. cbn [obind]. rewrite (omap_ok _ (row ny q)) by (intros i Hi; apply in_seq in Hi; apply mat_row_col; lia). cbn [obind]. rewrite Lx, Ly.
    destruct (all_value pk ys (map (row ny q) (seq 0 (2 * nx)))) with (st := s1) as (s2 & zy & E2 & U2 & Z2).
    { intros c Hc. apply in_map_iff in Hc as (j & <- & _). unfold row. split; [rewrite map_length, seq_length; exact Ly|]. split; [lia|exact Iy]. } { exact U1. }
    rewrite E2. cbn [obind]. rewrite without_nan2.
    assert (Lzy : length zy = 2 * nx). { assert (X := F2_length _ _ _ Z2). rewrite map_length, seq_length in X. congruence. }
    set (fzy := fun i j => at_ (nth i zy []) j).
    assert (Ry : forall i, i < 2 * nx -> length (nth i zy []) = 2 * ny /\ natural_slopes ys (row ny q i) (fzy i)).
    { intros i Hi. assert (X := Forall2_nth_at _ _ _ [] [] i Z2). rewrite map_length, seq_length in X. specialize (X Hi). cbv beta in X. rewrite nth_map_seq, Ly in X by exact Hi. exact X. }
    assert (Cy : columns_of (2 * ny) zy = Ok (map (col nx fzy) (seq 0 (2 * ny)))).
    { unfold columns_of. apply omap_ok. intros j Hj. apply in_seq in Hj. assert (Ez : zy = map (fun i => nth i zy []) (seq 0 (2 * nx))).
      { rewrite <- Lzy. clear. induction zy as [|c t IH]; [reflexivity|]. cbn [length seq map nth]. f_equal. rewrite <- seq_shift, map_map. exact IH. }
      rewrite Ez at 1. rewrite omap_map. unfold col. apply omap_ok. intros i Hi. apply in_seq in Hi. apply oat_ok. rewrite (proj1 (Ry i ltac:(lia))). lia. }
    rewrite Cy. cbn [obind].
    destruct (all_value pk xs (map (col nx fzy) (seq 0 (2 * ny)))) with (st := s2) as (s3 & zxy & E3 & U3 & Z3).
    { intros c Hc. apply in_map_iff in Hc as (j & <- & _). unfold col. split; [rewrite map_length, seq_length; exact Lx|]. split; [lia|exact Ix]. } { exact U2. }
    rewrite E3. cbn [obind]. rewrite !without_nan2.
    assert (Lzx : length zx = 2 * ny). { assert (X := F2_length _ _ _ Z1). rewrite map_length, seq_length in X. congruence. }
    assert (Lzxy : length zxy = 2 * ny). { assert (X := F2_length _ _ _ Z3). rewrite map_length, seq_length in X. congruence. }
    set (fzx := fun i j => at_ (nth j zx []) i). set (fzxy := fun i j => at_ (nth j zxy []) i).
    assert (Rx : forall j, j < 2 * ny -> length (nth j zx []) = 2 * nx /\ natural_slopes xs (col nx q j) (fun i => fzx i j)).
    { intros j Hj. assert (X := Forall2_nth_at _ _ _ [] [] j Z1). rewrite map_length, seq_length in X. specialize (X Hj). cbv beta in X. rewrite nth_map_seq, Lx in X by exact Hj. exact X. }
    assert (Rxy : forall j, j < 2 * ny -> length (nth j zxy []) = 2 * nx /\ natural_slopes xs (col nx fzy j) (fun i => fzxy i j)).
    { intros j Hj. assert (X := Forall2_nth_at _ _ _ [] [] j Z3). rewrite map_length, seq_length in X. specialize (X Hj). cbv beta in X. rewrite nth_map_seq, Lx in X by exact Hj. exact X. }
    assert (Mx : forall i j, i < 2 * nx -> j < 2 * ny -> mat_at zx i j = Ok (fzx i j)).
    { intros i j Hi Hj. unfold mat_at. rewrite (nth_error_nth' zx []) by lia. apply oat_ok. rewrite (proj1 (Rx j Hj)). exact Hi. }
    assert (Mxy : forall i j, i < 2 * nx -> j < 2 * ny -> mat_at zxy i j = Ok (fzxy i j)).
    { intros i j Hi Hj. unfold mat_at. rewrite (nth_error_nth' zxy []) by lia. apply oat_ok. rewrite (proj1 (Rxy j Hj)). exact Hi. }
    assert (My : forall i j, i < 2 * nx -> j < 2 * ny -> mat_at zy j i = Ok (fzy i j)).
    { intros i j Hi Hj. unfold mat_at. rewrite (nth_error_nth' zy []) by lia. apply oat_ok. rewrite (proj1 (Ry i Hi)). exact Hj. }
    unfold bicubic_interp. replace nx with (S (nx - 1)) in Bx at 2 by lia. replace ny with (S (ny - 1)) in By at 2 by lia.
    destruct (found_cell xs x (nx - 1) Ix ltac:(lia) Bx) as (i & Ci & Hi). destruct (found_cell ys y (ny - 1) Iy ltac:(lia) By) as (j & Cj & Hj).
    rewrite (search_cell xs x i Ix Ci), (search_cell ys y j Iy Cj). cbn [obind].
    assert (Li := proj1 Ci). assert (Lj := proj1 Cj). rewrite Lx in Li. rewrite Ly in Lj.
    rewrite !(oat_ok xs) by lia. rewrite !(oat_ok ys) by lia. cbn [obind]. rewrite !mat_at_col by lia. cbn [obind].
    assert (Px := Ix i ltac:(lia)). assert (Py := Iy j ltac:(lia)). rewrite !odiv_ok by lra. cbn [obind].
    rewrite !Mx, !My, !Mxy by lia. cbn [obind].
    do 2 eexists. exists fzx, fzy, fzxy. split; [reflexivity|]. split; [intros; apply Rx; auto|]. split; [intros; apply Ry; auto|]. split; [intros; apply Rxy; auto|].
    rewrite poly_patch by lra. apply (patch_cells xs ys q fzx fzy fzxy x y i j (nx - 1) (ny - 1)); auto; lia.
  Qed.
  Lemma bilinear_value : exists v, interpolate2 pk IBilinear2 x y F = Ok (IBilinear2, Some v) /\
    (v == bilerp (at_ xs (nx - 1)) (at_ xs nx) (at_ ys (ny - 1)) (at_ ys ny) (q (nx - 1)%nat (ny - 1)%nat) (q (nx - 1)%nat ny) (q nx (ny - 1)%nat) (q nx ny) x y)%Q.
  Proof.
    cbn [interpolate2]. unfold F. cbn [fr_x fr_y fr_q]. unfold bilinear2. rewrite check2_ok by auto. cbn [obind].
    assert (Ex : nx = S (nx - 1)) by lia. assert (Ey : ny = S (ny - 1)) by lia. set (m := nx - 1) in *. set (n := ny - 1) in *. rewrite Ex in Bx at 1. rewrite Ey in By at 1.
    destruct (found_cell xs x m Ix ltac:(lia) Bx) as (i & Ci & Hi). destruct (found_cell ys y n Iy ltac:(lia) By) as (j & Cj & Hj).
    rewrite (search_cell xs x i Ix Ci), (search_cell ys y j Iy Cj). cbn [obind].
    assert (Li := proj1 Ci). assert (Lj := proj1 Cj). rewrite Lx in Li. rewrite Ly in Lj.
    rewrite !(oat_ok xs) by lia. rewrite !(oat_ok ys) by lia. cbn [obind].
    assert (Px := Ix i ltac:(lia)). assert (Py := Iy j ltac:(lia)). rewrite !odiv_ok by lra. cbn [obind]. rewrite !mat_at_col by lia. cbn [obind].
    eexists. split; [reflexivity|]. clearbody m n. rewrite Ex, Ey.
    assert (LE : forall l z (I : increasing l) m i (v : nat -> Q), S m < length l -> (i = m \/ (S i = m /\ (z == at_ l m)%Q)) -> (lerp (at_ l i) (at_ l (S i)) (v i) (v (S i)) z == lerp (at_ l m) (at_ l (S m)) (v m) (v (S m)) z)%Q).
    { clear. intros l z I m i v L [->|[<- E]]; [reflexivity|]. assert (A := I i ltac:(lia)). assert (B := I (S i) L). unfold lerp. rewrite !E. field. split; lra. }
    transitivity (bilerp (at_ xs i) (at_ xs (S i)) (at_ ys j) (at_ ys (S j)) (q i j) (q i (S j)) (q (S i) j) (q (S i) (S j)) x y).
    { unfold bilerp, lerp. ring. }
    unfold bilerp. assert (A := LE xs x Ix m i (fun i => q i j) ltac:(lia) Hi). assert (B := LE xs x Ix m i (fun i => q i (S j)) ltac:(lia) Hi). cbv beta in A, B.
    set (H := fun j => lerp (at_ xs m) (at_ xs (S m)) (q m j) (q (S m) j) x). assert (C := LE ys y Iy n j H ltac:(lia) Hj).
    unfold H in C. rewrite <- C. unfold lerp at 1 4. rewrite A, B. reflexivity.
  Qed.
End Values.
