(** Periodic cubic spline: lemmas. *)
From Verif Require Import Base BaseProofs InterpModel InterpSpec InterpProofs InterpProofs3.
Open Scope nat_scope.

Fixpoint psum (f : nat -> Q) (n : nat) : Q := match n with O => 0%Q | S k => (psum f k + f k)%Q end.
Lemma osum_ok : forall n f g, (forall i, i < n -> f i = Ok (g i)) -> osum n f = Ok (psum g n).
Proof.
  intros n f g H. unfold osum. destruct (ofor_inv Q (fun i s => s = psum g i) (fun i s => olet v := f i in Ok (s + v)%Q) n 0 0%Q eq_refl) as (s & E & Hs).
  - intros i s Hi ->. rewrite H by lia. cbn [obind]. eexists. split; reflexivity.
  - rewrite E, Hs. reflexivity.
Qed.

Section Cyclic.
  Variables xa ya : list Q.
  Let n := length xa.
  Let m := n - 1.
  Definition ee (k : nat) : Q := (at_ xa (k + 2) - at_ xa (k + 1))%Q.
  Definition pd (k : nat) : Q := if k =? m - 1 then (2 * ((at_ xa (n - 2 + 1) - at_ xa (n - 2)) + (at_ xa 1 - at_ xa 0)))%Q else dgn xa k.
  Definition prhs (k : nat) : Q :=
    if k =? m - 1 then (3 * ((at_ ya 1 - at_ ya 0) * inverse_or_0 (at_ xa 1 - at_ xa 0) - (at_ ya (n - 2 + 1) - at_ ya (n - 2)) * inverse_or_0 (at_ xa (n - 2 + 1) - at_ xa (n - 2))))%Q
    else rhs xa ya k.
  Fixpoint cyc (k : nat) : Q * Q * Q :=
    match k with
    | O => (pd 0, ee 0 / pd 0, (at_ xa 1 - at_ xa 0) / pd 0)%Q
    | S k' => let '(a, g, d) := cyc k' in
              let a' := (pd k - ee k' * g)%Q in (a', ee k / a', (- d * ee k') / a')%Q
    end.
  Definition cal k : Q := fst (fst (cyc k)).
  Definition cga k : Q := snd (fst (cyc k)).
  Definition cde k : Q := snd (cyc k).
  Definition g2 : Q := ((ee (m - 2) - ee (m - 3) * cde (m - 3)) / cal (m - 2))%Q.
  Definition al1 : Q := (pd (m - 1) - psum (fun i => cal i * cde i * cde i) (m - 2) - cal (m - 2) * g2 * g2)%Q.
  Fixpoint zz (k : nat) : Q := match k with O => prhs 0 | S k' => (prhs k - zz k' * cga k')%Q end.
  Definition zlast : Q := (prhs (m - 1) - psum (fun i => cde i * zz i) (m - 2) - g2 * zz (m - 2))%Q.
  Definition clast : Q := (zlast / al1)%Q.
  Fixpoint pback (j : nat) : Q :=
    match j with
    | O => (zz (m - 2) / cal (m - 2) - g2 * clast)%Q
    | S j' => (zz (m - 3 - j') / cal (m - 3 - j') - cga (m - 3 - j') * pback j' - cde (m - 3 - j') * clast)%Q
    end.
  Definition pmoment (i : nat) : Q := if i =? 0 then clast else if i =? m then clast else pback (m - 1 - i).

  Hypothesis I : increasing xa.
  Hypothesis N4 : 4 <= length xa.

  Lemma ee_pos : forall k, k < m - 1 -> (0 < ee k)%Q.
  Proof. intros k H. unfold ee. pose proof (I (S k) ltac:(lia)). replace (k + 2) with (S (S k)) by lia. replace (k + 1) with (S k) by lia. lra. Qed.
  Lemma cyc_succ : forall k, cal (S k) = (pd (S k) - ee k * cga k)%Q /\ cga (S k) = (ee (S k) / cal (S k))%Q /\ cde (S k) = ((- cde k * ee k) / cal (S k))%Q.
  Proof. intro k. unfold cal, cga, cde. cbn [cyc]. destruct (cyc k) as [[a g] d]. cbn [fst snd]. auto. Qed.
  Lemma cga_eq : forall k, cga k = (ee k / cal k)%Q.
  Proof. intros [|k]; [reflexivity|]. apply cyc_succ. Qed.
  Let ff k := (cal k * cde k)%Q.
  Lemma pd_in : forall k, k < m - 1 -> (pd k == 2 * (step_ xa k + step_ xa (S k)))%Q.
  Proof. intros k Hk. unfold pd. destruct (Nat.eqb_spec k (m - 1)); [lia|]. unfold dgn, step_. replace (k + 2) with (S (S k)) by lia. replace (k + 1) with (S k) by lia. reflexivity. Qed.
  Lemma ee_step : forall k, ee k = step_ xa (S k).
  Proof. intro k. unfold ee, step_. replace (k + 2) with (S (S k)) by lia. replace (k + 1) with (S k) by lia. reflexivity. Qed.
  Lemma cyc_inv : forall k, k < m - 1 ->
    (0 < cal k)%Q /\ (ee k + Qabs (ff k) < cal k)%Q /\
    (Qabs (ff k) + step_ xa (m - 1) < pd (m - 1) - psum (fun i => cal i * cde i * cde i) k)%Q.
  Proof.
    assert (H0 : (0 < step_ xa 0)%Q) by (apply step_pos; auto; lia).
    assert (Hm : (0 < step_ xa (m - 1))%Q) by (apply step_pos; auto; fold n; lia).
    assert (PM : (pd (m - 1) == 2 * (step_ xa (m - 1) + step_ xa 0))%Q).
    { unfold pd. rewrite Nat.eqb_refl. unfold step_. replace (S (m - 1)) with (n - 2 + 1) by lia. replace (m - 1) with (n - 2) by lia. reflexivity. }
    induction k as [|k IH]; intro Hk.
    - assert (P1 : (0 < step_ xa 1)%Q) by (apply step_pos; auto; fold n; lia).
      assert (E0 : (cal 0 == 2 * (step_ xa 0 + step_ xa 1))%Q) by (apply pd_in; lia).
      assert (F0 : (ff 0 == step_ xa 0)%Q). { unfold ff, cde, cal. cbn [cyc fst snd]. change (pd 0) with (cal 0). unfold step_. field. lra. }
      rewrite F0, E0, ee_step. rewrite Qabs_pos by lra. rewrite PM. cbn [psum]. split; [lra|]. split; lra.
    - destruct (IH ltac:(lia)) as (A & B & C). destruct (cyc_succ k) as (E1 & E2 & E3).
      assert (Pk : (0 < step_ xa (S k))%Q) by (apply step_pos; auto; fold n; lia).
      assert (Pk2 : (0 < step_ xa (S (S k)))%Q) by (apply step_pos; auto; fold n; lia).
      rewrite ee_step in B. rewrite cga_eq, ee_step in E1.
      set (F := Qabs (ff k)) in *. assert (HF : (0 <= F)%Q) by apply Qabs_nonneg.
      assert (Ga : (step_ xa (S k) * (step_ xa (S k) / cal k) + F * (step_ xa (S k) / cal k) < step_ xa (S k))%Q).
      { setoid_replace (step_ xa (S k) * (step_ xa (S k) / cal k) + F * (step_ xa (S k) / cal k))%Q with (step_ xa (S k) * ((step_ xa (S k) + F) / cal k))%Q by (field; lra).
        assert ((step_ xa (S k) + F) / cal k < 1)%Q by (apply Qlt_shift_div_r; lra). nra. }
      assert (Gp : (0 < step_ xa (S k) / cal k)%Q) by (apply Qlt_shift_div_l; lra).
      pose proof (pd_in (S k) Hk) as PD.
      assert (A' : (0 < cal (S k))%Q). { rewrite E1, PD. nra. }
      assert (FS : (ff (S k) == - (ff k * (step_ xa (S k) / cal k)))%Q).
      { unfold ff at 1. rewrite E3, ee_step. unfold ff. field. lra. }
      assert (FA : (Qabs (ff (S k)) == F * (step_ xa (S k) / cal k))%Q).
      { rewrite FS, Qabs_opp, Qabs_Qmult. rewrite (Qabs_pos (step_ xa (S k) / cal k)) by lra. reflexivity. }
      split; [exact A'|]. split.
      + rewrite FA, ee_step, E1, PD. nra.
      + rewrite FA. cbn [psum].
        assert (Sq : (cal k * cde k * cde k == F * (F / cal k))%Q).
        { setoid_replace (cal k * cde k * cde k)%Q with (ff k * ff k / cal k)%Q by (unfold ff; field; lra).
          assert (FF : (F * F == ff k * ff k)%Q). { unfold F. rewrite <- Qabs_Qmult. apply Qabs_pos. apply Qsq_nonneg. }
          setoid_replace (F * (F / cal k))%Q with (F * F / cal k)%Q by (field; lra). rewrite FF. reflexivity. }
        rewrite Sq.
        assert (K : (F * (F / cal k) + F * (step_ xa (S k) / cal k) <= F)%Q).
        { setoid_replace (F * (F / cal k) + F * (step_ xa (S k) / cal k))%Q with (F * ((step_ xa (S k) + F) / cal k))%Q by (field; lra).
          assert ((step_ xa (S k) + F) / cal k < 1)%Q by (apply Qlt_shift_div_r; lra). nra. }
        lra.
  Qed.
  Lemma cal_pos : forall k, k < m - 1 -> (0 < cal k)%Q.
  Proof. intros k H. apply (cyc_inv k H). Qed.
  Lemma al1_pos : (0 < al1)%Q.
  Proof.
    destruct (cyc_inv (m - 2) ltac:(lia)) as (A & B & C). unfold al1.
    assert (G : (cal (m - 2) * g2 == ee (m - 2) + ff (m - 2))%Q).
    { unfold g2, ff. destruct (cyc_succ (m - 3)) as (E1 & E2 & E3). replace (S (m - 3)) with (m - 2) in * by lia. rewrite E3. field. lra. }
    set (g := (ee (m - 2) + ff (m - 2))%Q) in *.
    assert (Eg : (cal (m - 2) * g2 * g2 == g * g / cal (m - 2))%Q). { rewrite <- G. field. lra. }
    rewrite Eg. assert (Ep : (0 < ee (m - 2))%Q) by (apply ee_pos; lia).
    assert (Ab : (Qabs g <= ee (m - 2) + Qabs (ff (m - 2)))%Q).
    { unfold g. eapply Qle_trans; [apply Qabs_triangle|]. rewrite (Qabs_pos (ee (m - 2))) by lra. lra. }
    assert (G0 : (0 <= Qabs g)%Q) by apply Qabs_nonneg.
    assert (GG : (g * g == Qabs g * Qabs g)%Q). { rewrite <- Qabs_Qmult. symmetry. apply Qabs_pos. apply Qsq_nonneg. }
    assert (K : (g * g / cal (m - 2) <= Qabs g)%Q). { rewrite GG. apply Qle_shift_div_r; [exact A|]. nra. }
    rewrite ee_step in Ab. replace (S (m - 2)) with (m - 1) in Ab by lia. lra.
  Qed.
  Lemma al2_neq : ~ (cal (m - 2) == 0)%Q.
  Proof. pose proof (cal_pos (m - 2) ltac:(lia)). lra. Qed.

  (** The back substitution solves the cyclic system. *)
  Lemma pm_last : pmoment m = clast.
  Proof. unfold pmoment. destruct (Nat.eqb_spec m 0); [lia|]. rewrite Nat.eqb_refl. reflexivity. Qed.
  Lemma pm_m1 : (pmoment (m - 1) == zz (m - 2) / cal (m - 2) - g2 * clast)%Q.
  Proof. unfold pmoment. destruct (Nat.eqb_spec (m - 1) 0); [lia|]. destruct (Nat.eqb_spec (m - 1) m); [lia|]. rewrite Nat.sub_diag. reflexivity. Qed.
  Lemma pm_in : forall k, k < m - 2 -> (pmoment (S k) == zz k / cal k - cga k * pmoment (S (S k)) - cde k * clast)%Q.
  Proof.
    intros k Hk. unfold pmoment at 1. destruct (Nat.eqb_spec (S k) 0); [lia|]. destruct (Nat.eqb_spec (S k) m); [lia|].
    replace (m - 1 - S k) with (S (m - 3 - k)) by lia. cbn [pback]. replace (m - 3 - (m - 3 - k)) with k by lia.
    unfold pmoment. destruct (Nat.eqb_spec (S (S k)) 0); [lia|]. destruct (Nat.eqb_spec (S (S k)) m); [lia|]. replace (m - 1 - S (S k)) with (m - 3 - k) by lia. reflexivity.
  Qed.
  (** [alpha(k) x(k) = z(k) - e(k) x(k+1) - alpha(k) delta(k) x(last)]. *)
  Lemma pm_scaled : forall k, k < m - 2 -> (cal k * pmoment (S k) == zz k - ee k * pmoment (S (S k)) - ff k * clast)%Q.
  Proof. intros k Hk. rewrite (pm_in k Hk), cga_eq. unfold ff. pose proof (cal_pos k ltac:(lia)). field. lra. Qed.
  Lemma row_first : (pd 0 * pmoment 1 + ee 0 * pmoment 2 + (at_ xa 1 - at_ xa 0) * clast == prhs 0)%Q.
  Proof.
    pose proof (pm_scaled 0 ltac:(lia)) as E. pose proof (cal_pos 0 ltac:(lia)) as P. change (cal 0) with (pd 0) in *. cbn [zz] in E.
    assert (F : (ff 0 == at_ xa 1 - at_ xa 0)%Q). { unfold ff, cde, cal. cbn [cyc fst snd]. field. lra. } rewrite F in E. lra.
  Qed.
  Lemma row_mid : forall k, S k < m - 2 -> (ee k * pmoment (S k) + pd (S k) * pmoment (S (S k)) + ee (S k) * pmoment (S (S (S k))) == prhs (S k))%Q.
  Proof.
    intros k Hk. pose proof (pm_scaled (S k) Hk) as E. destruct (cyc_succ k) as (E1 & E2 & E3). pose proof (cal_pos k ltac:(lia)) as P. pose proof (cal_pos (S k) ltac:(lia)) as P'.
    assert (F : (ff (S k) == - cde k * ee k)%Q). { unfold ff. rewrite E3. field. lra. } rewrite F in E. cbn [zz] in E.
    rewrite (pm_in k ltac:(lia)). assert (Ec : (ee k * (zz k / cal k) == zz k * cga k)%Q) by (rewrite cga_eq; field; lra). rewrite E1 in E.
    lra.
  Qed.
  Lemma row_m2 : (ee (m - 3) * pmoment (m - 2) + pd (m - 2) * pmoment (m - 1) + ee (m - 2) * clast == prhs (m - 2))%Q.
  Proof.
    pose proof pm_m1 as E. destruct (cyc_succ (m - 3)) as (E1 & E2 & E3). replace (S (m - 3)) with (m - 2) in * by lia. pose proof (cal_pos (m - 3) ltac:(lia)) as P. pose proof (cal_pos (m - 2) ltac:(lia)) as P'.
    pose proof (pm_in (m - 3) ltac:(lia)) as X. replace (S (S (m - 3))) with (m - 1) in X by lia. replace (S (m - 3)) with (m - 2) in X by lia. rewrite X.
    assert (Ec : (ee (m - 3) * (zz (m - 3) / cal (m - 3)) == zz (m - 3) * cga (m - 3))%Q) by (rewrite cga_eq; field; lra).
    assert (Z : zz (m - 2) = (prhs (m - 2) - zz (m - 3) * cga (m - 3))%Q). { replace (m - 2) with (S (m - 3)) by lia. reflexivity. }
    assert (E' : (cal (m - 2) * pmoment (m - 1) == zz (m - 2) - (ee (m - 2) - ee (m - 3) * cde (m - 3)) * clast)%Q). { rewrite E. unfold g2. field. lra. }
    rewrite Z, E1 in E'. lra.
  Qed.
  Lemma psum_telescope : forall j, j < m - 1 ->
    (psum (fun i => ff i * (pmoment (S i) + cga i * pmoment (S (S i)))) j == (at_ xa 1 - at_ xa 0) * pmoment 1 - ff j * pmoment (S j))%Q.
  Proof.
    induction j as [|j IH]; intro Hj; cbn [psum].
    - pose proof (cal_pos 0 ltac:(lia)) as P. assert (F : (ff 0 == at_ xa 1 - at_ xa 0)%Q). { unfold ff, cde, cal in *. cbn [cyc fst snd] in *. field. lra. } rewrite F. ring.
    - rewrite IH by lia. destruct (cyc_succ j) as (E1 & E2 & E3). pose proof (cal_pos j ltac:(lia)) as P. pose proof (cal_pos (S j) ltac:(lia)) as P'.
      assert (F : (ff (S j) == - (ff j * cga j))%Q). { unfold ff. rewrite E3, cga_eq. field. lra. } rewrite F. ring.
  Qed.
  Lemma psum_ext : forall f g k, (forall i, i < k -> (f i == g i)%Q) -> (psum f k == psum g k)%Q.
  Proof. intros f g. induction k as [|k IH]; intro H; cbn [psum]; [reflexivity|]. rewrite IH by (intros; apply H; lia). rewrite (H k) by lia. reflexivity. Qed.
  Lemma psum_split : forall f g c k, (psum (fun i => f i + g i * c) k == psum f k + psum g k * c)%Q.
  Proof. intros f g c. induction k as [|k IH]; cbn [psum]; [ring|]. rewrite IH. ring. Qed.
  Lemma row_last : (ee (m - 2) * pmoment (m - 1) + pd (m - 1) * clast + (at_ xa 1 - at_ xa 0) * pmoment 1 == prhs (m - 1))%Q.
  Proof.
    assert (Tl : (psum (fun i => cde i * zz i) (m - 2) == psum (fun i => ff i * (pmoment (S i) + cga i * pmoment (S (S i)))) (m - 2) + psum (fun i => cal i * cde i * cde i) (m - 2) * clast)%Q).
    { rewrite <- psum_split. apply psum_ext. intros i Hi. pose proof (pm_in i Hi) as E. pose proof (cal_pos i ltac:(lia)) as P. rewrite E. unfold ff. field. lra. }
    rewrite (psum_telescope (m - 2)) in Tl by lia. replace (S (m - 2)) with (m - 1) in Tl by lia.
    assert (Zl : (al1 * clast == zlast)%Q). { unfold clast. pose proof al1_pos. field. lra. }
    unfold zlast in Zl. rewrite Tl in Zl. unfold al1 in Zl.
    pose proof (cal_pos (m - 2) ltac:(lia)) as P.
    assert (G : (cal (m - 2) * g2 == ee (m - 2) + ff (m - 2))%Q).
    { unfold g2, ff. destruct (cyc_succ (m - 3)) as (E1 & E2 & E3). replace (S (m - 3)) with (m - 2) in * by lia. rewrite E3. field. lra. }
    assert (Zm : (zz (m - 2) == cal (m - 2) * pmoment (m - 1) + cal (m - 2) * g2 * clast)%Q). { rewrite pm_m1. field. lra. }
    assert (GZ : (g2 * zz (m - 2) == (ee (m - 2) + ff (m - 2)) * pmoment (m - 1) + cal (m - 2) * g2 * g2 * clast)%Q).
    { rewrite Zm, <- G. ring. }
    rewrite GZ in Zl. lra.
  Qed.

  (** In terms of the nodes. *)
  Lemma prhs_in : forall k, S (S k) < n -> (prhs k == 3 * (chord xa ya (S k) - chord xa ya k))%Q.
  Proof. intros k Hk. unfold prhs. destruct (Nat.eqb_spec k (m - 1)); [lia|]. apply rhs_chord; auto. Qed.
  Lemma pmoments_solve : forall k, S (S k) < n ->
    (step_ xa k * pmoment k + 2 * (step_ xa k + step_ xa (S k)) * pmoment (S k) + step_ xa (S k) * pmoment (S (S k)) == 3 * (chord xa ya (S k) - chord xa ya k))%Q.
  Proof.
    intros k Hk. rewrite <- prhs_in by exact Hk. destruct (Nat.eq_dec k 0) as [->|K0].
    - pose proof row_first as R. rewrite (pd_in 0) in R by lia. rewrite ee_step in R. change (pmoment 0) with clast. unfold step_ in *. lra.
    - destruct (Nat.eq_dec k (m - 2)) as [->|K2].
      + pose proof row_m2 as R. rewrite (pd_in (m - 2)) in R by lia. rewrite !ee_step in R. replace (S (m - 3)) with (m - 2) in R by lia. replace (S (m - 2)) with (m - 1) in * by lia. replace (S (m - 1)) with m by lia. rewrite pm_last. lra.
      + destruct k as [|k]; [lia|]. pose proof (row_mid k ltac:(lia)) as R. rewrite (pd_in (S k)) in R by lia. rewrite !ee_step in R. lra.
  Qed.
  Lemma pmoment_period : pmoment m = pmoment 0.
  Proof. rewrite pm_last. reflexivity. Qed.
  Lemma pmoments_close :
    (step_ xa (m - 1) * pmoment (m - 1) + 2 * (step_ xa (m - 1) + step_ xa 0) * pmoment 0 + step_ xa 0 * pmoment 1 == 3 * (chord xa ya 0 - chord xa ya (m - 1)))%Q.
  Proof.
    pose proof row_last as R. rewrite ee_step in R. replace (S (m - 2)) with (m - 1) in R by lia. change (pmoment 0) with clast.
    assert (PM : (pd (m - 1) == 2 * (step_ xa (m - 1) + step_ xa 0))%Q).
    { unfold pd. rewrite Nat.eqb_refl. unfold step_. replace (S (m - 1)) with (n - 2 + 1) by lia. replace (m - 1) with (n - 2) by lia. reflexivity. }
    assert (PR : (prhs (m - 1) == 3 * (chord xa ya 0 - chord xa ya (m - 1)))%Q).
    { unfold prhs. rewrite Nat.eqb_refl. unfold chord. pose proof (I 0 ltac:(lia)) as P. pose proof (I (n - 2) ltac:(fold n; lia)) as P'. replace (m - 1) with (n - 2) by lia. replace (S (n - 2)) with (n - 2 + 1) in * by lia. rewrite !inverse_ok by lra. field. lra. }
    rewrite PM, PR in R. unfold step_ in *. lra.
  Qed.
End Cyclic.

Definition prow_ok (xa ya : list Q) (A : mat) (b : buf) (k : nat) : Prop :=
  mread A k k = Ok (dgn xa k) /\ mread A k (k + 1) = Ok (ee xa k) /\ mread A (k + 1) k = Ok (ee xa k) /\ bread b k = Ok (rhs xa ya k).
Lemma prows_ok : forall xa ya A b m, length xa = length ya -> m = length xa - 1 -> 4 <= length xa -> msize A = m -> bsize b = m ->
  exists A' b', ofor 0 (length xa - 2) (pspline_row xa ya) (A, b) = Ok (A', b') /\ msize A' = m /\ bsize b' = m /\ forall k, k < m - 1 -> prow_ok xa ya A' b' k.
Proof.
  intros xa ya A b m L Hm H4 HA Hb.
  destruct (ofor_inv (mat * buf) (fun i Ab => msize (fst Ab) = m /\ bsize (snd Ab) = m /\ forall k, k < i -> prow_ok xa ya (fst Ab) (snd Ab) k) (pspline_row xa ya) (length xa - 2) 0 (A, b)) as ([A' b'] & E & ZA & Zb & R).
  { cbn. split; [exact HA|]. split; [exact Hb|]. intros k Hk. lia. }
  { intros i [A1 b1] Hi (ZA & Zb & R). cbn [fst snd] in *. unfold pspline_row. rewrite !oat_ok by lia. cbn [obind].
    destruct (mwrite_ok A1 (i + 1) i (ee xa i) ltac:(lia) ltac:(lia)) as (A2 & E2 & Z2 & R2 & O2). unfold ee in E2. rewrite E2. cbn [obind].
    destruct (mwrite_ok A2 i i (dgn xa i) ltac:(lia) ltac:(lia)) as (A3 & E3 & Z3 & R3 & O3). unfold dgn in E3. rewrite E3. cbn [obind].
    destruct (mwrite_ok A3 i (i + 1) (ee xa i) ltac:(lia) ltac:(lia)) as (A4 & E4 & Z4 & R4 & O4). unfold ee in E4. rewrite E4. cbn [obind].
    destruct (bwrite_ok b1 i (rhs xa ya i) ltac:(lia)) as (b2 & Eb & Zb2 & Rb2 & Ob2). unfold rhs in Eb. rewrite Eb. cbn [obind].
    exists (A4, b2). split; [reflexivity|]. cbn [fst snd]. split; [lia|]. split; [lia|]. intros k Hk. destruct (Nat.eq_dec k i) as [->|Nk].
    - split; [rewrite O4 by lia; exact R3|]. split; [exact R4|]. split; [rewrite O4, O3 by lia; exact R2|exact Rb2].
    - destruct (R k ltac:(lia)) as (K1 & K2 & K3 & K4). split; [rewrite O4, O3, O2 by lia; exact K1|]. split; [rewrite O4, O3, O2 by lia; exact K2|]. split; [rewrite O4, O3, O2 by lia; exact K3|]. rewrite Ob2 by exact Nk. exact K4. }
  cbn [fst snd] in *. exists A', b'. split; [exact E|]. split; [exact ZA|]. split; [exact Zb|]. intros k Hk. apply R. lia.
Qed.
(** The buffers have the sizes of the largest call. *)
Definition pspline_inv (st : pspline_state) : Prop :=
  bsize (psx st) = 0 \/
  (2 <= bsize (psx st) /\ msize (psA st) = bsize (psx st) - 1 /\ bsize (psb st) = bsize (psx st) - 1 /\ bsize (ps_alpha st) = bsize (psx st) - 1 /\
   bsize (ps_gamma st) = bsize (psx st) - 1 /\ bsize (ps_delta st) = bsize (psx st) - 1 /\ bsize (psc st) = bsize (psx st) /\ bsize (psz st) = bsize (psx st)).
Lemma solve_cyclic_ok : forall xa ya A b x al ga de c z m, increasing xa -> 4 <= length xa -> m = length xa - 1 ->
  msize A = m -> bsize b = m -> bsize x = length xa -> bsize al = m -> bsize ga = m -> bsize de = m -> bsize c = length xa -> bsize z = length xa ->
  (forall k, k < m -> mread A k k = Ok (pd xa k) /\ bread b k = Ok (prhs xa ya k)) ->
  (forall k, k < m - 1 -> mread A k (k + 1) = Ok (ee xa k) /\ mread A (k + 1) k = Ok (ee xa k)) ->
  mread A (m - 1) 0 = Ok (at_ xa 1 - at_ xa 0)%Q ->
  exists x' al' ga' de' c' z', solve_cyclic A b x al ga de c z = Ok (x', al', ga', de', c', z') /\
    bsize x' = length xa /\ bsize al' = m /\ bsize ga' = m /\ bsize de' = m /\ bsize c' = length xa /\ bsize z' = length xa /\
    forall i, 1 <= i < length xa -> bread x' i = Ok (pmoment xa ya i).
Proof.
  intros xa ya A b x al ga de c z m I N4 Hm ZA Zb Zx Zal Zga Zde Zc Zz RD RO RC.
  pose proof (cal_pos xa I N4) as CP. rewrite <- Hm in CP. unfold solve_cyclic. rewrite ZA.
  destruct (Nat.eqb_spec m 1); [lia|]. destruct (RD 0 ltac:(lia)) as [-> _]. cbn [obind].
  destruct (bwrite_ok al 0 (pd xa 0) ltac:(lia)) as (al1_ & Ea1 & Za1 & Ra1 & _). rewrite Ea1. cbn [obind].
  destruct (RO 0 ltac:(lia)) as [R01 _]. cbn [Nat.add] in R01. rewrite R01. cbn [obind]. assert (P0 : (0 < pd xa 0)%Q) by (apply (CP 0); lia). rewrite odiv_ok by lra. cbn [obind].
  destruct (bwrite_ok ga 0 (ee xa 0 / pd xa 0)%Q ltac:(lia)) as (ga1 & Eg1 & Zg1 & Rg1 & _). rewrite Eg1. cbn [obind].
  rewrite RC. cbn [obind]. rewrite odiv_ok by lra. cbn [obind].
  destruct (bwrite_ok de 0 ((at_ xa 1 - at_ xa 0) / pd xa 0)%Q ltac:(lia)) as (de1 & Ed1 & Zd1 & Rd1 & _). rewrite Ed1. cbn [obind].
  destruct (Nat.eqb_spec m 2); [lia|].
  destruct (ofor_inv (buf * buf * buf) (fun i s => bsize (fst (fst s)) = m /\ bsize (snd (fst s)) = m /\ bsize (snd s) = m /\
      forall k, k < i -> bread (fst (fst s)) k = Ok (cal xa k) /\ bread (snd (fst s)) k = Ok (cga xa k) /\ bread (snd s) k = Ok (cde xa k)) (cyclic_step A) (m - 2 - 1) 1 (al1_, ga1, de1)) as ([[al2 ga2] de2] & E & Z1 & Z2 & Z3 & R).
  { cbn [fst snd]. split; [lia|]. split; [lia|]. split; [lia|]. intros k Hk. assert (k = 0) by lia. subst k. rewrite Ra1, Rg1, Rd1. auto. }
  { intros i [[al2 ga2] de2] Hi (Z1 & Z2 & Z3 & R). cbn [fst snd] in *. unfold cyclic_step. destruct (RD i ltac:(lia)) as [-> _]. cbn [obind].
    destruct i as [|i]; [lia|]. replace (S i - 1) with i by lia. destruct (RO i ltac:(lia)) as [_ Lo]. replace (i + 1) with (S i) in Lo by lia. rewrite Lo. cbn [obind].
    destruct (R i ltac:(lia)) as (_ & Rg & Rd). rewrite Rg. cbn [obind]. destruct (cyc_succ xa i) as (C1 & C2 & C3). rewrite <- C1.
    destruct (bwrite_ok al2 (S i) (cal xa (S i)) ltac:(lia)) as (al3 & Ea & Za & Ra & Oa). rewrite Ea. cbn [obind].
    destruct (RO (S i) ltac:(lia)) as [-> _]. cbn [obind]. rewrite Ra. cbn [obind]. pose proof (CP (S i) ltac:(lia)) as P. rewrite odiv_ok by lra. cbn [obind]. rewrite <- C2.
    destruct (bwrite_ok ga2 (S i) (cga xa (S i)) ltac:(lia)) as (ga3 & Eg & Zg & Rg3 & Og). rewrite Eg. cbn [obind]. rewrite Rd. cbn [obind]. rewrite odiv_ok by lra. cbn [obind]. rewrite <- C3.
    destruct (bwrite_ok de2 (S i) (cde xa (S i)) ltac:(lia)) as (de3 & Ed & Zd & Rd3 & Od). rewrite Ed. cbn [obind].
    exists (al3, ga3, de3). split; [reflexivity|]. cbn [fst snd]. split; [lia|]. split; [lia|]. split; [lia|]. intros k Hk. destruct (Nat.eq_dec k (S i)) as [->|Nk]; [auto|].
    rewrite Oa, Og, Od by exact Nk. apply R. lia. }
  rewrite E. cbn [obind]. clear E. cbn [fst snd] in *. replace (1 + (m - 2 - 1)) with (m - 2) in R by lia.
  rewrite (osum_ok (m - 2) _ (fun i => cal xa i * cde xa i * cde xa i)%Q).
  2:{ intros i Hi. destruct (R i Hi) as (-> & _ & ->). reflexivity. }
  cbn [obind]. destruct (RD (m - 2) ltac:(lia)) as [-> _]. cbn [obind]. destruct (RO (m - 3) ltac:(lia)) as [_ Lo]. replace (m - 3 + 1) with (m - 2) in Lo by lia. rewrite Lo. cbn [obind].
  destruct (R (m - 3) ltac:(lia)) as (_ & -> & Rd3). cbn [obind].
  destruct (cyc_succ xa (m - 3)) as (C1 & _). replace (S (m - 3)) with (m - 2) in C1 by lia. rewrite <- C1.
  destruct (bwrite_ok al2 (m - 2) (cal xa (m - 2)) ltac:(lia)) as (al3 & Ea3 & Za3 & Ra3 & Oa3). rewrite Ea3. cbn [obind].
  destruct (RO (m - 2) ltac:(lia)) as [Up _]. replace (m - 2 + 1) with (m - 1) in Up by lia. rewrite Up. cbn [obind]. rewrite Rd3. cbn [obind]. rewrite Ra3. cbn [obind].
  pose proof (CP (m - 2) ltac:(lia)) as P2. rewrite odiv_ok by lra. cbn [obind].
  assert (G2 : ((ee xa (m - 2) - ee xa (m - 3) * cde xa (m - 3)) / cal xa (m - 2))%Q = g2 xa) by (unfold g2; rewrite <- Hm; reflexivity). rewrite G2.
  destruct (bwrite_ok ga2 (m - 2) (g2 xa) ltac:(lia)) as (ga3 & Eg3 & Zg3 & Rg3 & Og3). rewrite Eg3. cbn [obind].
  destruct (RD (m - 1) ltac:(lia)) as [-> _]. cbn [obind]. rewrite Rg3. cbn [obind].
  assert (A1 : (pd xa (m - 1) - psum (fun i => cal xa i * cde xa i * cde xa i) (m - 2) - cal xa (m - 2) * g2 xa * g2 xa)%Q = al1 xa) by (unfold al1; rewrite <- Hm; reflexivity). rewrite A1.
  destruct (bwrite_ok al3 (m - 1) (al1 xa) ltac:(lia)) as (al4 & Ea4 & Za4 & Ra4 & Oa4). rewrite Ea4. cbn [obind].
  destruct (RD 0 ltac:(lia)) as [_ ->]. cbn [obind]. destruct (bwrite_ok z 0 (prhs xa ya 0) ltac:(lia)) as (z1 & Ez1 & Zz1 & Rz1 & _). rewrite Ez1. cbn [obind].
  match goal with |- context [ofor 1 (m - 1 - 1) ?f z1] => destruct (ofor_inv buf (fun i zb => bsize zb = length xa /\ forall k, k < i -> bread zb k = Ok (zz xa ya k)) f (m - 1 - 1) 1 z1) as (z2 & Ez2 & Zz2 & Rz2) end.
  { split; [lia|]. intros k Hk. assert (k = 0) by lia. subst k. exact Rz1. }
  { intros i zb Hi [Zb' Rb']. destruct (RD i ltac:(lia)) as [_ ->]. cbn [obind]. destruct i as [|i]; [lia|]. replace (S i - 1) with i by lia. rewrite Rb' by lia. cbn [obind]. rewrite Og3 by lia. destruct (R i ltac:(lia)) as (_ & -> & _). cbn [obind].
    match goal with |- context [bwrite zb ?j ?v] => destruct (bwrite_ok zb j v ltac:(lia)) as (zb' & E & Z & Rw & O) end. exists zb'. split; [exact E|]. split; [lia|]. intros k Hk. destruct (Nat.eq_dec k (S i)) as [->|Nk]; [rewrite Rw; reflexivity|]. rewrite O by exact Nk. apply Rb'. lia. }
  rewrite Ez2. cbn [obind]. replace (1 + (m - 1 - 1)) with (m - 1) in Rz2 by lia.
  rewrite (osum_ok (m - 2) _ (fun i => cde xa i * zz xa ya i)%Q).
  2:{ intros i Hi. destruct (R i Hi) as (_ & _ & ->). cbn [obind]. rewrite Rz2 by lia. reflexivity. }
  cbn [obind]. destruct (RD (m - 1) ltac:(lia)) as [_ ->]. cbn [obind]. rewrite (Rz2 (m - 2)) by lia. cbn [obind].
  assert (ZL : (prhs xa ya (m - 1) - psum (fun i => cde xa i * zz xa ya i) (m - 2) - g2 xa * zz xa ya (m - 2))%Q = zlast xa ya) by (unfold zlast; rewrite <- Hm; reflexivity). rewrite ZL.
  destruct (bwrite_ok z2 (m - 1) (zlast xa ya) ltac:(lia)) as (z3 & Ez3 & Zz3 & Rz3 & Oz3). rewrite Ez3. cbn [obind].
  assert (ALP : (0 < al1 xa)%Q) by (apply (al1_pos xa I N4)).
  set (CV := fun k => if k =? m - 1 then clast xa ya else (zz xa ya k / cal xa k)%Q).
  match goal with |- context [ofor 0 m ?f c] => destruct (ofor_inv buf (fun i cb => bsize cb = length xa /\ forall k, k < i -> bread cb k = Ok (CV k)) f m 0 c) as (c2 & Ec2 & Zc2 & Rc2) end.
  { split; [exact Zc|]. intros k Hk. lia. }
  { intros i cb Hi [Zcb Rcb]. unfold CV. destruct (Nat.eq_dec i (m - 1)) as [->|Ni].
    - rewrite Rz3. cbn [obind]. rewrite Ra4. cbn [obind]. rewrite odiv_ok by lra. cbn [obind]. fold (clast xa ya).
      match goal with |- context [bwrite cb ?j ?v] => destruct (bwrite_ok cb j v ltac:(lia)) as (cb' & E & Z & Rw & O) end. exists cb'. split; [exact E|]. split; [lia|]. intros k Hk.
      destruct (Nat.eq_dec k (m - 1)) as [->|Nk]; [rewrite Rw, Nat.eqb_refl; reflexivity|]. rewrite O by exact Nk. apply Rcb. lia.
    - rewrite Oz3 by exact Ni. rewrite Rz2 by lia. cbn [obind]. rewrite Oa4 by exact Ni.
      assert (Rai : bread al3 i = Ok (cal xa i)). { destruct (Nat.eq_dec i (m - 2)) as [->|N2']; [exact Ra3|]. rewrite Oa3 by exact N2'. apply R. lia. }
      rewrite Rai. cbn [obind]. pose proof (CP i ltac:(lia)) as Pi. rewrite odiv_ok by lra. cbn [obind].
      match goal with |- context [bwrite cb ?j ?v] => destruct (bwrite_ok cb j v ltac:(lia)) as (cb' & E & Z & Rw & O) end. exists cb'. split; [exact E|]. split; [lia|]. intros k Hk.
      destruct (Nat.eq_dec k i) as [->|Nk]; [rewrite Rw; destruct (Nat.eqb_spec i (m - 1)); [lia|reflexivity]|]. rewrite O by exact Nk. apply Rcb. lia. }
  rewrite Ec2. cbn [obind]. cbn [Nat.add] in Rc2. assert (CVl : CV (m - 1) = clast xa ya) by (unfold CV; rewrite Nat.eqb_refl; reflexivity).
  assert (CVi : forall k, k < m - 1 -> CV k = (zz xa ya k / cal xa k)%Q) by (intros k Hk; unfold CV; destruct (Nat.eqb_spec k (m - 1)); [lia|reflexivity]). clearbody CV.
  rewrite (Rc2 (m - 1)) by lia. cbn [obind]. rewrite CVl.
  destruct (bwrite_ok x (S (m - 1)) (clast xa ya) ltac:(lia)) as (x1 & Ex1 & Zx1 & Rx1 & Ox1). rewrite Ex1. cbn [obind]. rewrite (Rc2 (m - 2)) by lia. cbn [obind].
  rewrite (CVi (m - 2)) by lia.
  match goal with |- context [bwrite x1 ?j ?v] => destruct (bwrite_ok x1 j v ltac:(lia)) as (x2 & Ex2 & Zx2 & Rx2 & Ox2) end. rewrite Ex2. cbn [obind].
  assert (PB0 : (zz xa ya (m - 2) / cal xa (m - 2) - g2 xa * clast xa ya)%Q = pback xa ya 0) by (cbn [pback]; rewrite <- Hm; reflexivity).
  match goal with |- context [odown (m - 2) ?f x2] => destruct (odown_inv buf (fun i xb => bsize xb = length xa /\ bread xb (S (m - 1)) = Ok (clast xa ya) /\ forall k, i <= k < m - 1 -> bread xb (S k) = Ok (pback xa ya (m - 2 - k))) f (m - 2) x2) as (x3 & Ex3 & Zx3 & RL & RX) end.
  { split; [lia|]. split; [rewrite Ox2 by lia; exact Rx1|]. intros k Hk. assert (k = m - 2) by lia. subst k. rewrite Rx2, Nat.sub_diag. rewrite PB0. reflexivity. }
  { intros i xb Hi (Zxb & RL & RX). rewrite (Rc2 i) by lia. cbn [obind]. rewrite CVi by lia. rewrite Og3 by lia. destruct (R i ltac:(lia)) as (_ & -> & ->). cbn [obind].
    replace (i + 1) with (S i) by lia. rewrite (RX (S i)) by lia. cbn [obind]. rewrite RL. cbn [obind].
    match goal with |- context [bwrite xb ?j ?v] => destruct (bwrite_ok xb j v ltac:(lia)) as (xb' & E & Z & Rw & O) end. exists xb'. split; [exact E|]. split; [lia|]. split; [rewrite O by lia; exact RL|].
    intros k Hk. destruct (Nat.eq_dec k i) as [->|Nk].
    - rewrite Rw. replace (m - 2 - i) with (S (m - 3 - i)) by lia. cbn [pback]. rewrite <- Hm. replace (m - 3 - (m - 3 - i)) with i by lia. replace (m - 2 - S i) with (m - 3 - i) by lia. reflexivity.
    - rewrite O by lia. apply RX. lia. }
  rewrite Ex3. cbn [obind]. do 6 eexists. split; [reflexivity|]. split; [lia|]. split; [lia|]. split; [lia|]. split; [lia|]. split; [lia|]. split; [lia|].
  intros i Hi. unfold pmoment. rewrite <- Hm. destruct (Nat.eqb_spec i 0); [lia|]. destruct (Nat.eqb_spec i m) as [->|Nm].
  - replace m with (S (m - 1)) at 1 by lia. exact RL.
  - destruct i as [|i]; [lia|]. rewrite RX by lia. do 2 f_equal. lia.
Qed.
Lemma pspline_compute_ok : forall st xa ya, pspline_inv st -> bsize (psx st) <= length xa -> data 4 xa ya ->
  exists st', pspline_compute st xa ya = Ok st' /\ pspline_inv st' /\ bsize (psx st') = length xa /\
    forall i, i < length xa -> bread (psx st') i = Ok (pmoment xa ya i).
Proof.
  intros st xa ya Inv Hle D. pose proof D as (L & N & I). assert (D2 : data 2 xa ya) by (split; [exact L|]; split; [lia|exact I]).
  unfold pspline_compute, pspline_min_size. rewrite (check_ok _ _ _ D2). cbn [obind].
  set (st0 := if bsize (psx st) <? length xa then _ else st).
  set (m := length xa - 1).
  assert (S0 : bsize (psx st0) = length xa /\ msize (psA st0) = m /\ bsize (psb st0) = m /\ bsize (ps_alpha st0) = m /\ bsize (ps_gamma st0) = m /\ bsize (ps_delta st0) = m /\ bsize (psc st0) = length xa /\ bsize (psz st0) = length xa).
  { unfold st0. destruct (Nat.ltb_spec (bsize (psx st)) (length xa)) as [E|E]; [cbn; repeat split; lia|].
    destruct Inv as [Z|(I1 & I2 & I3 & I4 & I5 & I6 & I7 & I8)]; [lia|]. assert (Ez : bsize (psx st) = length xa) by lia. rewrite Ez in *. repeat split; auto. }
  destruct S0 as (Sx & SA & Sb & Sal & Sga & Sde & Sc & Sz). clearbody st0.
  destruct (prows_ok xa ya (psA st0) (psb st0) m L eq_refl N SA Sb) as (A & b & E & ZA & Zb & R). rewrite E. cbn [obind]. clear E.
  rewrite !oat_ok by lia. cbn [obind].
  destruct (mwrite_ok A (length xa - 2) 0 (at_ xa 1 - at_ xa 0)%Q ltac:(lia) ltac:(lia)) as (A1 & E1 & Z1 & R1 & O1). rewrite E1. cbn [obind].
  destruct (mwrite_ok A1 (length xa - 2) (length xa - 2) (pd xa (m - 1)) ltac:(lia) ltac:(lia)) as (A2 & E2 & Z2 & R2 & O2).
  assert (Epd : pd xa (m - 1) = (2 * (at_ xa (length xa - 2 + 1) - at_ xa (length xa - 2) + (at_ xa 1 - at_ xa 0)))%Q) by (unfold pd; fold m; rewrite Nat.eqb_refl; reflexivity).
  rewrite Epd in E2. rewrite E2. cbn [obind].
  destruct (mwrite_ok A2 0 (length xa - 2) (at_ xa 1 - at_ xa 0)%Q ltac:(lia) ltac:(lia)) as (A3 & E3 & Z3 & R3 & O3). rewrite E3. cbn [obind].
  destruct (bwrite_ok b (length xa - 2) (prhs xa ya (m - 1)) ltac:(lia)) as (b1 & Eb & Zb1 & Rb1 & Ob1).
  assert (Erh : prhs xa ya (m - 1) = (3 * ((at_ ya 1 - at_ ya 0) * inverse_or_0 (at_ xa 1 - at_ xa 0) - (at_ ya (length xa - 2 + 1) - at_ ya (length xa - 2)) * inverse_or_0 (at_ xa (length xa - 2 + 1) - at_ xa (length xa - 2))))%Q) by (unfold prhs; fold m; rewrite Nat.eqb_refl; reflexivity).
  rewrite Erh in Eb. rewrite Eb. cbn [obind].
  destruct (solve_cyclic_ok xa ya A3 b1 (psx st0) (ps_alpha st0) (ps_gamma st0) (ps_delta st0) (psc st0) (psz st0) m I N eq_refl) as (x & al & ga & de & c & z & Es & Y1 & Y2 & Y3 & Y4 & Y5 & Y6 & RX); try lia.
  { intros k Hk. destruct (Nat.eq_dec k (m - 1)) as [->|Nk].
    - replace (m - 1) with (length xa - 2) at 1 2 by lia. rewrite O3 by lia. rewrite R2. split; [reflexivity|]. replace (m - 1) with (length xa - 2) at 1 by lia. exact Rb1.
    - destruct (R k ltac:(lia)) as (K1 & K2 & K3 & K4). rewrite O3, O2, O1, Ob1 by lia. rewrite K1, K4. unfold pd, prhs. fold m. destruct (Nat.eqb_spec k (m - 1)); [lia|]. auto. }
  { intros k Hk. destruct (R k ltac:(lia)) as (K1 & K2 & K3 & K4). rewrite !O3, !O2, !O1 by lia. auto. }
  { replace (m - 1) with (length xa - 2) by lia. rewrite O3, O2 by lia. exact R1. }
  rewrite Es. cbn [obind]. rewrite RX by lia. cbn [obind].
  destruct (bwrite_ok x 0 (pmoment xa ya m) ltac:(lia)) as (x' & Ex & Zx' & Rx0 & Ox0). rewrite Ex. cbn [obind].
  eexists. split; [reflexivity|]. cbn [psx psA psb ps_alpha ps_gamma ps_delta psc psz]. split; [right; cbn; repeat split; lia|]. split; [lia|].
  intros i Hi. destruct i as [|i].
  - rewrite Rx0. f_equal. apply pmoment_period. exact N.
  - rewrite Ox0 by lia. apply RX. lia.
Qed.
