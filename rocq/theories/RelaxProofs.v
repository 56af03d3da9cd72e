(** Lemmas about the sequential relaxation. *)
From Coq Require FinFun.
From Verif Require Import Base BaseProofs RelaxModel RelaxSpec.
Open Scope Z_scope.

Lemma ceqb_spec : forall p q, reflect (p = q) (ceqb p q).
Proof.
  intros [a b] [c d]. unfold ceqb; cbn [fst snd]. destruct (Nat.eqb_spec a c), (Nat.eqb_spec b d); cbn; constructor; congruence.
Qed.
Lemma upd_same : forall g p v, upd g p v p = v.
Proof. intros. unfold upd. destruct (ceqb_spec p p); congruence. Qed.
Lemma upd_other : forall g p q v, q <> p -> upd g p v q = g q.
Proof. intros. unfold upd. destruct (ceqb_spec q p); congruence. Qed.

Lemma at_index_ok : forall i n k, i = Z.of_nat k -> (k < n)%nat -> at_index i n = Ok k.
Proof.
  intros i n k -> H. unfold at_index. destruct (Z.leb_spec 0 (Z.of_nat k)); [|lia]. destruct (Z.ltb_spec (Z.of_nat k) (Z.of_nat n)); [|lia].
  cbn. rewrite Nat2Z.id. reflexivity.
Qed.

Lemma neighbours_ok : forall nx ny circle p, valid_shape nx ny circle -> inside nx ny p ->
  neighbours nx ny circle p = Ok [west nx circle p; east nx circle p; south p; north ny p].
Proof.
  intros nx ny circle [ix iy] (Hy & Hx) (Ix & Iy). cbn [fst snd] in *. unfold neighbours; cbn [fst snd].
  assert (W : exists x0, west nx circle (ix, iy) = (x0, iy) /\ (x0 < nx)%nat /\
     Z.of_nat x0 = (if Z.of_nat ix =? 0 then (if circle then Z.of_nat nx - 1 else 1) else Z.of_nat ix - 1)).
  { unfold west; cbn [fst snd]. destruct ix as [|i].
    - destruct circle; eexists; split; try reflexivity; split; try lia; cbn; lia.
    - eexists; split; [reflexivity|]. split; [lia|]. destruct (Z.eqb_spec (Z.of_nat (S i)) 0); lia. }
  assert (E : exists x1, east nx circle (ix, iy) = (x1, iy) /\ (x1 < nx)%nat /\
     Z.of_nat x1 = (if Z.of_nat ix =? Z.of_nat nx - 1 then (if circle then 0 else Z.of_nat nx - 2) else Z.of_nat ix + 1)).
  { unfold east; cbn [fst snd]. destruct (Nat.eqb_spec (S ix) nx); destruct (Z.eqb_spec (Z.of_nat ix) (Z.of_nat nx - 1)); try lia.
    - destruct circle; eexists; split; try reflexivity; split; try lia.
    - eexists; split; [reflexivity|]. split; lia. }
  assert (So : exists y0, south (ix, iy) = (ix, y0) /\ (y0 < ny)%nat /\ Z.of_nat y0 = (if Z.of_nat iy =? 0 then 1 else Z.of_nat iy - 1)).
  { unfold south; cbn [fst snd]. destruct iy as [|j]; (eexists; split; [reflexivity|]); (split; [lia|]); [reflexivity|]. destruct (Z.eqb_spec (Z.of_nat (S j)) 0); lia. }
  assert (N : exists y1, north ny (ix, iy) = (ix, y1) /\ (y1 < ny)%nat /\ Z.of_nat y1 = (if Z.of_nat iy =? Z.of_nat ny - 1 then Z.of_nat ny - 2 else Z.of_nat iy + 1)).
  { unfold north; cbn [fst snd]. destruct (Nat.eqb_spec (S iy) ny); destruct (Z.eqb_spec (Z.of_nat iy) (Z.of_nat ny - 1)); try lia; eexists; split; try reflexivity; split; lia. }
  destruct W as (x0 & -> & ? & W), E as (x1 & -> & ? & E), So as (y0 & -> & ? & So), N as (y1 & -> & ? & N).
  rewrite <- W, <- E, <- So, <- N. rewrite !(at_index_ok _ _ _ eq_refl) by assumption. reflexivity.
Qed.
Lemma west_inside : forall nx ny circle p, valid_shape nx ny circle -> inside nx ny p -> inside nx ny (west nx circle p).
Proof.
  intros nx ny circle [ix iy] (Hy & Hx) (Ix & Iy). cbn [fst snd] in *. unfold west; cbn [fst snd].
  destruct ix; [destruct circle|]; split; cbn; try lia.
Qed.
Lemma east_inside : forall nx ny circle p, valid_shape nx ny circle -> inside nx ny p -> inside nx ny (east nx circle p).
Proof.
  intros nx ny circle [ix iy] (Hy & Hx) (Ix & Iy). cbn [fst snd] in *. unfold east; cbn [fst snd].
  destruct (Nat.eqb_spec (S ix) nx); [destruct circle|]; split; cbn; lia.
Qed.
Lemma south_inside : forall nx ny circle p, valid_shape nx ny circle -> inside nx ny p -> inside nx ny (south p).
Proof.
  intros nx ny circle [ix iy] (Hy & Hx) (Ix & Iy). cbn [fst snd] in *. unfold south; cbn [fst snd].
  destruct iy; split; cbn; lia.
Qed.
Lemma north_inside : forall nx ny circle p, valid_shape nx ny circle -> inside nx ny p -> inside nx ny (north ny p).
Proof.
  intros nx ny circle [ix iy] (Hy & Hx) (Ix & Iy). cbn [fst snd] in *. unfold north; cbn [fst snd].
  destruct (Nat.eqb_spec (S iy) ny); split; cbn; lia.
Qed.

Lemma in_worker_cells : forall nx mask a b c p, In p (worker_cells nx mask a b c) <->
  (fst p < nx)%nat /\ (a <= snd p < b)%nat /\ mask p = true /\ ((fst p + snd p) mod 2 = c)%nat.
Proof.
  intros nx mask a b c [ix iy]. unfold worker_cells. rewrite filter_In, in_flat_map. unfold selected. cbn [fst snd]. split.
  - intros ((x & Hx & Hy) & S). apply in_map_iff in Hy. destruct Hy as (y & E & Hy). apply in_seq in Hx, Hy.
    assert (x = ix) by congruence. assert (y = iy) by congruence. subst x y. apply andb_prop in S. destruct S as [S1 S2]. apply Nat.eqb_eq in S2.
    repeat split; try lia; assumption.
  - intros (Hx & Hy & M & C). split.
    + exists ix. split; [apply in_seq; lia|]. apply in_map_iff. exists iy. split; [reflexivity|]. apply in_seq. lia.
    + rewrite M. cbn. apply Nat.eqb_eq. exact C.
Qed.
Lemma in_cells : forall nx ny p, In p (cells nx ny) <-> inside nx ny p.
Proof.
  intros nx ny [ix iy]. unfold cells, inside. rewrite in_flat_map. cbn [fst snd]. split.
  - intros (x & Hx & Hy). apply in_map_iff in Hy. destruct Hy as (y & E & Hy). apply in_seq in Hx, Hy. assert (x = ix) by congruence. assert (y = iy) by congruence. subst. lia.
  - intros (Hx & Hy). exists ix. split; [apply in_seq; lia|]. apply in_map_iff. exists iy. split; [reflexivity|apply in_seq; lia].
Qed.

Lemma smax_l : forall a b, (a <= smax a b)%Q.
Proof. intros. unfold smax. destruct (Qltb a b) eqn:E; [apply Qltb_true in E; lra|lra]. Qed.
Lemma smax_r : forall a b, (b <= smax a b)%Q.
Proof. intros. unfold smax. destruct (Qltb a b) eqn:E; [lra|]. apply Qltb_false in E. exact E. Qed.
Lemma smax_or : forall a b, smax a b = a \/ smax a b = b.
Proof. intros. unfold smax. destruct (Qltb a b); auto. Qed.

Section Seq.
  Variables (nx ny : nat) (circle : bool) (relax : Q).
  Hypothesis Hv : valid_shape nx ny circle.
  Notation m4 := (mean4 nx ny circle).

  (** One cell. *)
  Definition new_value (g : grid) (p : cell) : Q := (g p + residual relax (g (west nx circle p)) (g (east nx circle p)) (g (south p)) (g (north ny p)) (g p))%Q.
  Definition res (g : grid) (p : cell) : Q := residual relax (g (west nx circle p)) (g (east nx circle p)) (g (south p)) (g (north ny p)) (g p).
  Lemma cell_fill_ok : forall g m p, inside nx ny p ->
    cell_fill nx ny circle relax (g, m) p = Ok (upd g p (g p + res g p)%Q, smax m (Qabs (res g p))).
  Proof. intros g m p H. unfold cell_fill. rewrite (neighbours_ok nx ny circle p Hv H). reflexivity. Qed.
  Lemma res_mean : forall g p, (res g p == (m4 g p - g p) * relax)%Q.
  Proof. intros. unfold res, residual, mean4. change (inject_Z 4) with 4%Q. field. Qed.

  (** A list of cells of the grid. *)
  Lemma cell_loop_ok : forall ps g m, Forall (inside nx ny) ps -> exists g' m', cell_loop nx ny circle relax (g, m) ps = Ok (g', m') /\
    (m <= m')%Q /\
    (forall q, ~ In q ps -> g' q = g q).
  Proof.
    induction ps as [|p ps IH]; intros g m F; cbn [cell_loop].
    - exists g, m. split; [reflexivity|]. split; [lra|auto].
    - inversion F; subst. rewrite cell_fill_ok by assumption. cbn [obind].
      destruct (IH (upd g p (g p + res g p)%Q) (smax m (Qabs (res g p))) H2) as (g' & m' & E & Lm & K). exists g', m'. split; [exact E|]. split.
      + pose proof (smax_l m (Qabs (res g p))). lra.
      + intros q N. rewrite K by (intro; apply N; right; assumption). apply upd_other. intro; apply N; left; congruence.
  Qed.

  (** Hull. *)
  Lemma relax_hull : forall lo hi g p, (0 <= relax <= 1)%Q -> inside nx ny p -> within nx ny lo hi g -> within nx ny lo hi (upd g p (g p + res g p)%Q).
  Proof.
    intros lo hi g p R I W q Iq. destruct (ceqb_spec q p) as [->|N]; [|rewrite upd_other by exact N; apply W; exact Iq].
    rewrite upd_same. rewrite res_mean. pose proof (W p I) as P. unfold mean4.
    pose proof (W _ (west_inside nx ny circle p Hv I)) as A. pose proof (W _ (east_inside nx ny circle p Hv I)) as B.
    pose proof (W _ (south_inside nx ny circle p Hv I)) as C. pose proof (W _ (north_inside nx ny circle p Hv I)) as D.
    set (a := g (west nx circle p)) in *. set (b := g (east nx circle p)) in *. set (c := g (south p)) in *. set (d := g (north ny p)) in *. set (x := g p) in *.
    clearbody a b c d x. change (inject_Z 4) with 4%Q.
    setoid_replace ((a + b + c + d) / 4)%Q with ((1 # 4) * (a + b + c + d))%Q by field.
    split; nra.
  Qed.
  Lemma loop_hull : forall lo hi, (0 <= relax <= 1)%Q -> forall ps g m g' m', Forall (inside nx ny) ps -> within nx ny lo hi g ->
    cell_loop nx ny circle relax (g, m) ps = Ok (g', m') -> within nx ny lo hi g'.
  Proof.
    intros lo hi R. induction ps as [|p ps IH]; intros g m g' m' F W E; cbn [cell_loop] in E.
    - assert (g' = g) by congruence. subst. exact W.
    - inversion F; subst. rewrite cell_fill_ok in E by assumption. cbn [obind] in E.
      eapply IH; [exact H2| |exact E]. apply relax_hull; assumption.
  Qed.

  (** The maximum residual bounds each change; distinct cells. *)
  Lemma loop_bound : forall ps g m g' m', NoDup ps -> Forall (inside nx ny) ps -> (0 <= m)%Q ->
    cell_loop nx ny circle relax (g, m) ps = Ok (g', m') -> forall q, (Qabs (g' q - g q) <= m')%Q.
  Proof.
    induction ps as [|p ps IH]; intros g m g' m' N F M E q; cbn [cell_loop] in E.
    - assert (g' = g) by congruence. assert (m' = m) by congruence. subst. setoid_replace (g q - g q)%Q with 0%Q by ring. exact M.
    - inversion F; subst. inversion N as [|? ? Np N']; subst. rewrite cell_fill_ok in E by assumption. cbn [obind] in E.
      pose proof (smax_l m (Qabs (res g p))) as S1. pose proof (smax_r m (Qabs (res g p))) as S2.
      assert (M0 : (0 <= smax m (Qabs (res g p)))%Q) by lra.
      destruct (ceqb_spec q p) as [->|Nq].
      + destruct (cell_loop_ok ps (upd g p (g p + res g p)%Q) (smax m (Qabs (res g p))) H2) as (g2 & m2 & E2 & L2 & K2).
        rewrite E in E2. assert (g' = g2) by congruence. assert (m' = m2) by congruence. subst g2 m2.
        rewrite (K2 p Np), upd_same. setoid_replace (g p + res g p - g p)%Q with (res g p) by ring. lra.
      + specialize (IH _ _ _ _ N' H2 M0 E q). rewrite upd_other in IH by exact Nq. exact IH.
  Qed.

  (** Residual zero: nothing changes and every cell of the list is relaxed. *)
  Lemma loop_zero : forall ps g m g' m', Forall (inside nx ny) ps -> (0 <= m)%Q -> (m' == 0)%Q ->
    cell_loop nx ny circle relax (g, m) ps = Ok (g', m') ->
    (forall q, (g' q == g q)%Q) /\ (~ (relax == 0)%Q -> forall p, In p ps -> (g p == m4 g p)%Q).
  Proof.
    assert (MExt : forall g g', (forall q, (g' q == g q)%Q) -> forall p, (m4 g' p == m4 g p)%Q).
    { intros g g' H p. unfold mean4. rewrite !H. reflexivity. }
    induction ps as [|p ps IH]; intros g m g' m' F M Z E; cbn [cell_loop] in E.
    - assert (g' = g) by congruence. subst. split; [reflexivity|]. intros _ p [].
    - inversion F; subst. rewrite cell_fill_ok in E by assumption. cbn [obind] in E.
      destruct (cell_loop_ok ps (upd g p (g p + res g p)%Q) (smax m (Qabs (res g p))) H2) as (g2 & m2 & E2 & L2 & _).
      rewrite E in E2. assert (m' = m2) by congruence. subst m2.
      pose proof (smax_l m (Qabs (res g p))) as S1. pose proof (smax_r m (Qabs (res g p))) as S2. pose proof (Qabs_nonneg (res g p)) as P.
      assert (R0 : (res g p == 0)%Q).
      { pose proof (Qle_Qabs (res g p)). pose proof (Qle_Qabs (- res g p)). rewrite Qabs_opp in H0. lra. }
      assert (U : forall q, (upd g p (g p + res g p)%Q q == g q)%Q).
      { intro q. destruct (ceqb_spec q p) as [->|Nq]; [rewrite upd_same, R0; ring|rewrite upd_other by exact Nq; reflexivity]. }
      assert (M0 : (0 <= smax m (Qabs (res g p)))%Q) by lra. destruct (IH _ _ _ _ H2 M0 Z E) as [A B]. split.
      + intro q. rewrite A. apply U.
      + intros Nr q [<-|Iq].
        * rewrite res_mean in R0. apply Qmult_integral in R0. destruct R0 as [R0|R0]; [lra|contradiction].
        * rewrite <- U. rewrite (B Nr q Iq). apply MExt. exact U.
  Qed.
End Seq.

Lemma NoDup_flat_map_pairs : forall (ys : list nat) (xs : list nat), NoDup xs -> NoDup ys ->
  NoDup (flat_map (fun ix => map (fun iy => (ix, iy)) ys) xs).
Proof.
  intros ys xs Nx Ny. induction Nx as [|x xs Hx Nx IH]; cbn [flat_map]; [constructor|].
  assert (N1 : NoDup (map (fun iy => (x, iy)) ys)) by (apply FinFun.Injective_map_NoDup; [intros a b E; congruence|exact Ny]).
  revert N1. assert (D : forall p, In p (map (fun iy => (x, iy)) ys) -> ~ In p (flat_map (fun ix => map (fun iy => (ix, iy)) ys) xs)).
  { intros p H G. apply in_map_iff in H. destruct H as (y & <- & _). apply in_flat_map in G. destruct G as (x' & Hx' & G).
    apply in_map_iff in G. destruct G as (y' & E & _). apply Hx. congruence. }
  revert D. generalize (map (fun iy => (x, iy)) ys) as l. induction l as [|p l IHl]; intros D N1; [exact IH|].
  cbn [app]. inversion N1; subst. constructor.
  - intro C. apply in_app_or in C. destruct C as [C|C]; [contradiction|]. apply (D p); [left; reflexivity|exact C].
  - apply IHl; [|assumption]. intros q Hq. apply D. right; exact Hq.
Qed.
Lemma NoDup_worker : forall nx mask a b c, NoDup (worker_cells nx mask a b c).
Proof. intros. unfold worker_cells. apply NoDup_filter. apply NoDup_flat_map_pairs; apply seq_NoDup. Qed.
Lemma worker_inside : forall nx ny mask a b c, (b <= ny)%nat -> Forall (inside nx ny) (worker_cells nx mask a b c).
Proof. intros. apply Forall_forall. intros p Hp. apply in_worker_cells in Hp. unfold inside. lia. Qed.

Section Sweep.
  Variables (nx ny : nat) (circle : bool) (relax : Q) (mask : cell -> bool) (first : nat).
  Hypothesis Hv : valid_shape nx ny circle.
  Hypothesis Hf : (first <= 1)%nat.
  Notation m4 := (mean4 nx ny circle).

  Lemma parity_cases : forall p : cell, ((fst p + snd p) mod 2 = first \/ (fst p + snd p) mod 2 = 1 - first)%nat.
  Proof.
    intro p. assert ((fst p + snd p) mod 2 < 2)%nat by (apply Nat.mod_upper_bound; lia).
    destruct first as [|[|k]]; lia.
  Qed.

  Lemma sweep_spec : forall g, exists g1 m1 g2 m2 m,
    calculate nx ny circle relax mask g first = Ok (g1, m1) /\
    calculate nx ny circle relax mask g1 (1 - first) = Ok (g2, m2) /\
    sweep nx ny circle relax mask first g = Ok (g2, m) /\ (0 <= m1)%Q /\ (0 <= m2)%Q /\ (m1 <= m)%Q /\ (m2 <= m)%Q /\ (m = m1 \/ m = m2).
  Proof.
    intro g. unfold sweep, calculate.
    destruct (cell_loop_ok nx ny circle relax Hv (worker_cells nx mask 0 ny first) g 0%Q (worker_inside _ _ _ _ _ _ (le_n ny))) as (g1 & m1 & E1 & L1 & K1).
    destruct (cell_loop_ok nx ny circle relax Hv (worker_cells nx mask 0 ny (1 - first)) g1 0%Q (worker_inside _ _ _ _ _ _ (le_n ny))) as (g2 & m2 & E2 & L2 & K2).
    exists g1, m1, g2, m2, (if Nat.eqb first 0 then smax m1 m2 else smax m2 m1).
    rewrite E1. cbn [obind]. rewrite E2. cbn [obind]. do 5 (split; [auto|]).
    destruct (Nat.eqb first 0).
    - split; [apply smax_l|]. split; [apply smax_r|apply smax_or].
    - split; [apply smax_r|]. split; [apply smax_l|]. destruct (smax_or m2 m1); auto.
  Qed.

  Lemma sweep_total : forall g, exists g' m, sweep nx ny circle relax mask first g = Ok (g', m) /\ (0 <= m)%Q.
  Proof. intro g. destruct (sweep_spec g) as (g1 & m1 & g2 & m2 & m & _ & _ & E & A & B & C & D & _). exists g2, m. split; [exact E|lra]. Qed.

  Lemma sweep_keep : forall g g' m, sweep nx ny circle relax mask first g = Ok (g', m) ->
    forall p, (mask p = false \/ ~ inside nx ny p) -> g' p = g p.
  Proof.
    intros g g' m E p H. destruct (sweep_spec g) as (g1 & m1 & g2 & m2 & m' & E1 & E2 & E3 & _).
    rewrite E in E3. assert (g' = g2) by congruence. subst g2. unfold calculate in E1, E2.
    destruct (cell_loop_ok nx ny circle relax Hv _ g 0%Q (worker_inside nx ny mask 0 ny first (le_n ny))) as (a1 & b1 & F1 & _ & K1).
    destruct (cell_loop_ok nx ny circle relax Hv _ g1 0%Q (worker_inside nx ny mask 0 ny (1 - first) (le_n ny))) as (a2 & b2 & F2 & _ & K2).
    rewrite E1 in F1. rewrite E2 in F2. assert (g1 = a1) by congruence. assert (g' = a2) by congruence. subst a1 a2.
    assert (N : forall c, ~ In p (worker_cells nx mask 0 ny c)).
    { intros c I. apply in_worker_cells in I. destruct I as (A & B & M & _). destruct H as [H|H]; [congruence|apply H; split; lia]. }
    rewrite K2, K1 by apply N. reflexivity.
  Qed.
  Lemma sweep_hull : forall lo hi g g' m, (0 <= relax <= 1)%Q -> within nx ny lo hi g ->
    sweep nx ny circle relax mask first g = Ok (g', m) -> within nx ny lo hi g'.
  Proof.
    intros lo hi g g' m R W E. destruct (sweep_spec g) as (g1 & m1 & g2 & m2 & m' & E1 & E2 & E3 & _).
    rewrite E in E3. assert (g' = g2) by congruence. subst g2. unfold calculate in E1, E2.
    pose proof (worker_inside nx ny mask 0 ny first (le_n ny)) as I1. pose proof (worker_inside nx ny mask 0 ny (1 - first) (le_n ny)) as I2.
    apply (loop_hull nx ny circle relax Hv lo hi R _ _ _ _ _ I2) with (2 := E2).
    apply (loop_hull nx ny circle relax Hv lo hi R _ _ _ _ _ I1) with (2 := E1). exact W.
  Qed.
  (** Every cell changes by at most the returned residual. *)
  Lemma sweep_bound : forall g g' m, sweep nx ny circle relax mask first g = Ok (g', m) ->
    forall p, (Qabs (g' p - g p) <= m)%Q.
  Proof.
    intros g g' m E p. destruct (sweep_spec g) as (g1 & m1 & g2 & m2 & m' & E1 & E2 & E3 & P1 & P2 & L1 & L2 & _).
    rewrite E in E3. assert (g' = g2) by congruence. assert (m = m') by congruence. subst g2 m'. unfold calculate in E1, E2.
    pose proof (worker_inside nx ny mask 0 ny first (le_n ny)) as I1. pose proof (worker_inside nx ny mask 0 ny (1 - first) (le_n ny)) as I2.
    pose proof (loop_bound nx ny circle relax Hv _ _ _ _ _ (NoDup_worker _ _ _ _ _) I1 (Qle_refl 0) E1 p) as B1.
    pose proof (loop_bound nx ny circle relax Hv _ _ _ _ _ (NoDup_worker _ _ _ _ _) I2 (Qle_refl 0) E2 p) as B2.
    destruct (cell_loop_ok nx ny circle relax Hv _ g 0%Q I1) as (a1 & b1 & F1 & _ & K1).
    destruct (cell_loop_ok nx ny circle relax Hv _ g1 0%Q I2) as (a2 & b2 & F2 & _ & K2).
    rewrite E1 in F1. rewrite E2 in F2. assert (g1 = a1) by congruence. assert (g' = a2) by congruence. subst a1 a2.
    destruct (parity_cases p) as [C|C].
    - assert (g' p = g1 p). { apply K2. intro I. apply in_worker_cells in I. destruct I as (_ & _ & _ & I). rewrite I in C. destruct first as [|[|k]]; lia. }
      rewrite H. lra.
    - assert (g1 p = g p). { apply K1. intro I. apply in_worker_cells in I. destruct I as (_ & _ & _ & I). rewrite I in C. destruct first as [|[|k]]; lia. }
      rewrite <- H. lra.
  Qed.
  (** A null residual means that the undefined cells satisfy the discrete equation. *)
  Lemma sweep_zero : forall g g' m, ~ (relax == 0)%Q -> sweep nx ny circle relax mask first g = Ok (g', m) -> (m == 0)%Q ->
    (forall p, (g' p == g p)%Q) /\ forall p, inside nx ny p -> mask p = true -> (g' p == m4 g' p)%Q.
  Proof.
    intros g g' m Nr E Z. destruct (sweep_spec g) as (g1 & m1 & g2 & m2 & m' & E1 & E2 & E3 & P1 & P2 & L1 & L2 & _).
    rewrite E in E3. assert (g' = g2) by congruence. assert (m = m') by congruence. subst g2 m'. unfold calculate in E1, E2.
    pose proof (worker_inside nx ny mask 0 ny first (le_n ny)) as I1. pose proof (worker_inside nx ny mask 0 ny (1 - first) (le_n ny)) as I2.
    assert (Z1 : (m1 == 0)%Q) by lra. assert (Z2 : (m2 == 0)%Q) by lra.
    destruct (loop_zero nx ny circle relax Hv _ _ _ _ _ I1 (Qle_refl 0) Z1 E1) as [A1 B1].
    destruct (loop_zero nx ny circle relax Hv _ _ _ _ _ I2 (Qle_refl 0) Z2 E2) as [A2 B2].
    assert (MExt : forall g g' : grid, (forall q, (g' q == g q)%Q) -> forall p, (m4 g' p == m4 g p)%Q).
    { intros h h' H p. unfold mean4. rewrite !H. reflexivity. }
    assert (S : forall p, (g' p == g p)%Q) by (intro p; rewrite A2; apply A1).
    split; [exact S|]. intros p I M. destruct (parity_cases p) as [C|C].
    - rewrite S, (MExt _ _ S). apply (B1 Nr). apply in_worker_cells. destruct I. repeat split; auto; lia.
    - rewrite A2, (MExt _ _ A2). apply (B2 Nr). apply in_worker_cells. destruct I. repeat split; auto; lia.
  Qed.
End Sweep.

(** Iteration. *)
Lemma iterate_ok : forall step eps (P : grid -> Prop), (forall g, P g -> exists g' m, step g = Ok (g', m) /\ (0 <= m)%Q /\ P g') ->
  forall k g it m, P g -> exists g' it' m', iterate step eps k g it m = Ok (g', it', m') /\ P g' /\
    (it <= it' <= it + k)%nat /\
    ((k = 0%nat /\ it' = it /\ m' = m /\ g' = g) \/
     (exists h, P h /\ step h = Ok (g', m') /\ ((m' < eps)%Q \/ it' = (it + k)%nat) /\ (it < it')%nat)).
Proof.
  intros step eps P H. induction k as [|k IH]; intros g it m Pg; cbn [iterate].
  - exists g, it, m. split; [reflexivity|]. split; [exact Pg|]. split; [lia|]. left; auto.
  - destruct (H g Pg) as (g1 & m1 & E & Pm & P1). rewrite E. cbn [obind]. destruct (Qltb m1 eps) eqn:L.
    + exists g1, (S it), m1. split; [reflexivity|]. split; [exact P1|]. split; [lia|]. right. exists g. split; [exact Pg|]. split; [exact E|]. split; [left; apply Qltb_true; exact L|lia].
    + destruct (IH g1 (S it) m1 P1) as (g' & it' & m' & E' & P' & B & C). exists g', it', m'. split; [exact E'|]. split; [exact P'|]. split; [lia|].
      right. destruct C as [(-> & -> & -> & ->)|(h & Ph & Eh & C & D)].
      * exists g. split; [exact Pg|]. split; [exact E|]. split; [right; lia|lia].
      * exists h. split; [exact Ph|]. split; [exact Eh|]. split; [destruct C; [left; assumption|right; lia]|lia].
Qed.

(** The residual certifies the discrete Laplace equation. *)
Section Residual.
  Variables (nx ny : nat) (circle : bool) (relax : Q).
  Hypothesis Hv : valid_shape nx ny circle.
  Notation m4 := (mean4 nx ny circle).

  Lemma loop_at : forall ps g m g' m' p, NoDup ps -> Forall (inside nx ny) ps -> (0 <= m)%Q -> In p ps ->
    cell_loop nx ny circle relax (g, m) ps = Ok (g', m') ->
    exists h, g' p = (h p + res nx ny circle relax h p)%Q /\ (Qabs (res nx ny circle relax h p) <= m')%Q /\
      forall q, (Qabs (g' q - h q) <= m')%Q /\ (~ In q ps -> g' q = h q).
  Proof.
    induction ps as [|c ps IH]; intros g m g' m' p N F M I E; [destruct I|]. cbn [cell_loop] in E.
    inversion F as [|? ? Ic F']; subst. inversion N as [|? ? Nc N']; subst. rewrite (cell_fill_ok nx ny circle relax Hv) in E by assumption. cbn [obind] in E.
    set (r := res nx ny circle relax g c) in *.
    pose proof (smax_l m (Qabs r)) as S1. pose proof (smax_r m (Qabs r)) as S2.
    assert (M0 : (0 <= smax m (Qabs r))%Q) by lra.
    destruct (ceqb_spec c p) as [->|Ncp].
    - exists g. destruct (cell_loop_ok nx ny circle relax Hv ps (upd g p (g p + r)%Q) (smax m (Qabs r)) F') as (g2 & m2 & E2 & L2 & K2).
      rewrite E in E2. assert (g' = g2) by congruence. assert (m' = m2) by congruence. subst g2 m2.
      assert (Gp : g' p = (g p + r)%Q) by (rewrite (K2 p Nc), upd_same; reflexivity).
      split; [exact Gp|]. split; [fold r; lra|]. intro q. split.
      + destruct (ceqb_spec q p) as [->|Nq].
        * rewrite Gp. setoid_replace (g p + r - g p)%Q with r by ring. lra.
        * pose proof (loop_bound nx ny circle relax Hv ps _ _ _ _ N' F' M0 E q) as B. rewrite upd_other in B by exact Nq. exact B.
      + intro Nq. rewrite K2 by (intro; apply Nq; right; assumption). apply upd_other. intro; apply Nq; left; congruence.
    - destruct I as [I|I]; [contradiction|]. destruct (IH _ _ _ _ p N' F' M0 I E) as (h & A & B & C). exists h. split; [exact A|]. split; [exact B|].
      intro q. split; [apply C|]. intro Nq. apply C. intro; apply Nq; right; assumption.
  Qed.
  Lemma mean_close : forall (g h : grid) p e, (forall q, (Qabs (g q - h q) <= e)%Q) -> (Qabs (m4 g p - m4 h p) <= e)%Q.
  Proof.
    intros g h p e H. unfold mean4. change (inject_Z 4) with 4%Q.
    pose proof (H (west nx circle p)) as A. pose proof (H (east nx circle p)) as B. pose proof (H (south p)) as C. pose proof (H (north ny p)) as D.
    apply Qabs_Qle_condition in A, B, C, D. apply Qabs_Qle_condition.
    setoid_replace ((g (west nx circle p) + g (east nx circle p) + g (south p) + g (north ny p)) / 4 -
      (h (west nx circle p) + h (east nx circle p) + h (south p) + h (north ny p)) / 4)%Q with
      ((1 # 4) * ((g (west nx circle p) - h (west nx circle p)) + (g (east nx circle p) - h (east nx circle p)) + (g (south p) - h (south p)) + (g (north ny p) - h (north ny p))))%Q by field.
    split; lra.
  Qed.
  Lemma certify : forall (g h : grid) p m, (0 < relax)%Q -> g p = (h p + res nx ny circle relax h p)%Q -> (Qabs (res nx ny circle relax h p) <= m)%Q ->
    (Qabs (m4 g p - m4 h p) <= m)%Q -> (relax * Qabs (g p - m4 g p) <= (Qabs (1 - relax) + relax) * m)%Q.
  Proof.
    intros g h p m R G B C. rewrite G.
    assert (Hr : (res nx ny circle relax h p == (m4 h p - h p) * relax)%Q) by apply res_mean.
    set (r := res nx ny circle relax h p) in *. clearbody r. set (u := m4 h p) in *. set (w := m4 g p) in *. set (x := h p) in *. clearbody u w x.
    setoid_replace (relax * Qabs (x + r - w))%Q with (Qabs (relax * (x + r - w)))%Q by (rewrite Qabs_Qmult, (Qabs_pos relax) by lra; reflexivity).
    setoid_replace (relax * (x + r - w))%Q with (- ((1 - relax) * r) + relax * (u - w))%Q by (rewrite Hr; ring).
    eapply Qle_trans; [apply Qabs_triangle|]. rewrite Qabs_opp, !Qabs_Qmult, (Qabs_pos relax) by lra.
    setoid_replace (Qabs (u - w))%Q with (Qabs (w - u))%Q by (rewrite <- Qabs_opp; apply Qabs_wd; ring).
    pose proof (Qabs_nonneg (1 - relax)) as P. set (a := Qabs (1 - relax)) in *. clearbody a.
    assert (a * Qabs r <= a * m)%Q by (rewrite !(Qmult_comm a); apply Qmult_le_compat_r; assumption).
    assert (relax * Qabs (w - u) <= relax * m)%Q by (rewrite !(Qmult_comm relax); apply Qmult_le_compat_r; [assumption|lra]). lra.
  Qed.
  Lemma sweep_residual : forall mask first, (first <= 1)%nat -> forall g g' m, (0 < relax)%Q -> sweep nx ny circle relax mask first g = Ok (g', m) ->
    forall p, inside nx ny p -> mask p = true -> (relax * Qabs (g' p - m4 g' p) <= (Qabs (1 - relax) + relax) * m)%Q.
  Proof.
    intros mask first Hf g g' m R E p I Mp.
    destruct (sweep_spec nx ny circle relax mask first Hv g) as (g1 & m1 & g2 & m2 & m' & E1 & E2 & E3 & P1 & P2 & L1 & L2 & _).
    rewrite E in E3. assert (g' = g2) by congruence. assert (m = m') by congruence. subst g2 m'. unfold calculate in E1, E2.
    pose proof (worker_inside nx ny mask 0 ny first (le_n ny)) as I1. pose proof (worker_inside nx ny mask 0 ny (1 - first) (le_n ny)) as I2.
    destruct (cell_loop_ok nx ny circle relax Hv _ g 0%Q I1) as (a1 & b1 & F1 & _ & K1).
    destruct (cell_loop_ok nx ny circle relax Hv _ g1 0%Q I2) as (a2 & b2 & F2 & _ & K2).
    rewrite E1 in F1. rewrite E2 in F2. assert (g1 = a1) by congruence. assert (g' = a2) by congruence. subst a1 a2.
    assert (Not : forall q : cell, ((fst q + snd q) mod 2 = first)%nat -> ~ In q (worker_cells nx mask 0 ny (1 - first))).
    { intros q Eq J. apply in_worker_cells in J. destruct J as (_ & _ & _ & J). rewrite J in Eq. destruct first as [|[|k]]; lia. }
    assert (Not' : forall q : cell, ((fst q + snd q) mod 2 = 1 - first)%nat -> ~ In q (worker_cells nx mask 0 ny first)).
    { intros q Eq J. apply in_worker_cells in J. destruct J as (_ & _ & _ & J). rewrite J in Eq. destruct first as [|[|k]]; lia. }
    destruct I as [Ix Iy]. destruct (parity_cases first Hf p) as [C|C].
    - assert (Ip : In p (worker_cells nx mask 0 ny first)) by (apply in_worker_cells; repeat split; auto; lia).
      destruct (loop_at _ _ _ _ _ p (NoDup_worker _ _ _ _ _) I1 (Qle_refl 0) Ip E1) as (h & A & B & D).
      apply (certify g' h p m R); [rewrite (K2 p (Not p C)); exact A|lra|]. apply mean_close. intro q. destruct (parity_cases first Hf q) as [Cq|Cq].
      + rewrite (K2 q (Not q Cq)). destruct (D q) as [D1 _]. lra.
      + destruct (D q) as [_ D2]. rewrite <- (D2 (Not' q Cq)).
        pose proof (loop_bound nx ny circle relax Hv _ _ _ _ _ (NoDup_worker _ _ _ _ _) I2 (Qle_refl 0) E2 q). lra.
    - assert (Ip : In p (worker_cells nx mask 0 ny (1 - first))) by (apply in_worker_cells; repeat split; auto; lia).
      destruct (loop_at _ _ _ _ _ p (NoDup_worker _ _ _ _ _) I2 (Qle_refl 0) Ip E2) as (h & A & B & D).
      apply (certify g' h p m R A); [lra|]. apply mean_close. intro q. destruct (D q) as [D1 _]. lra.
  Qed.
End Residual.
