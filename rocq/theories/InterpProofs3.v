(** Natural cubic spline: lemmas. *)
From Verif Require Import Base BaseProofs InterpModel InterpSpec InterpProofs.
Open Scope nat_scope.

Definition step_ (xa : list Q) (k : nat) : Q := (at_ xa (S k) - at_ xa k)%Q.
Lemma step_pos : forall xa k, increasing xa -> S k < length xa -> (0 < step_ xa k)%Q.
Proof. intros xa k I H. unfold step_. pose proof (I k H). lra. Qed.

(** ** From second derivatives to a smooth spline *)
(** [X i] is half the second derivative at node [i]. *)
Definition piece (xa ya : list Q) (X : nat -> Q) (i : nat) : Q * Q * Q * Q :=
  let dx := (at_ xa (S i) - at_ xa i)%Q in
  (at_ ya i, (at_ ya (S i) - at_ ya i) / dx - dx * (X (S i) + 2 * X i) * (1 # 3), X i, (X (S i) - X i) / (3 * dx))%Q.
Lemma pieces_smooth : forall xa ya X, increasing xa ->
  (forall k, S (S k) < length xa ->
     (step_ xa k * X k + 2 * (step_ xa k + step_ xa (S k)) * X (S k) + step_ xa (S k) * X (S (S k)) == 3 * (chord xa ya (S k) - chord xa ya k))%Q) ->
  smooth_spline xa ya (piece xa ya X).
Proof.
  intros xa ya X I R. split.
  - intros i Hi. pose proof (I i Hi) as P. unfold piece, cubic. cbv zeta. split; field; lra.
  - intros i Hi. pose proof (I i ltac:(lia)) as P. pose proof (I (S i) Hi) as P'. specialize (R i Hi). unfold step_, chord in R. split.
    + unfold piece, cubic'. cbv zeta.
      match goal with |- (?a == ?b)%Q => cut (3 * a == 3 * b)%Q; [lra|] end.
      transitivity (3 * ((at_ ya (S i) - at_ ya i) / (at_ xa (S i) - at_ xa i)) + (at_ xa (S i) - at_ xa i) * (2 * X (S i) + X i))%Q; [field; lra|].
      transitivity (3 * ((at_ ya (S (S i)) - at_ ya (S i)) / (at_ xa (S (S i)) - at_ xa (S i))) - (at_ xa (S (S i)) - at_ xa (S i)) * (X (S (S i)) + 2 * X (S i)))%Q; [|field; lra]. lra.
    + unfold piece, cubic''. cbv zeta. field. lra.
Qed.
Lemma piece_ends : forall xa ya X i, increasing xa -> S i < length xa ->
  (cubic'' (at_ xa i) (piece xa ya X i) (at_ xa i) == 2 * X i)%Q /\ (cubic'' (at_ xa i) (piece xa ya X i) (at_ xa (S i)) == 2 * X (S i))%Q /\
  (cubic' (at_ xa i) (piece xa ya X i) (at_ xa i) == chord xa ya i - step_ xa i * (X (S i) + 2 * X i) * (1 # 3))%Q /\
  (cubic' (at_ xa i) (piece xa ya X i) (at_ xa (S i)) == chord xa ya i + step_ xa i * (2 * X (S i) + X i) * (1 # 3))%Q.
Proof. intros xa ya X i I H. pose proof (I i H) as P. unfold piece, cubic', cubic'', chord, step_. cbv zeta. repeat split; field; lra. Qed.
(** Evaluation of the spline from the buffer of second derivatives. *)
Lemma cspline_eval : forall xs xa ya X x i, length xa = length ya -> increasing xa -> (forall k, k < length xa -> bread xs k = Ok (X k)) -> in_cell xa x i ->
  exists v v', cspline_interp xs xa ya x = Ok (Some v) /\ cspline_deriv xs xa ya x = Ok (Some v') /\
    (v == cubic (at_ xa i) (piece xa ya X i) x)%Q /\ (v' == cubic' (at_ xa i) (piece xa ya X i) x)%Q.
Proof.
  intros xs xa ya X x i L I R C. unfold cspline_interp, cspline_deriv. rewrite (search_cell xa x i I C). cbn [obind].
  destruct (cell_step xa x i I C) as [_ P]. pose proof (proj1 C) as Hn. unfold cspline_cell. rewrite !oat_ok by lia. cbn [obind].
  rewrite !R by lia. cbn [obind]. unfold cspline_coefficients. rewrite !odiv_ok by lra. cbn [obind]. rewrite ?odiv_ok by lra. cbn [obind].
  do 2 eexists. split; [reflexivity|]. split; [reflexivity|]. unfold piece, cubic, cubic'. cbv zeta. split; ring.
Qed.
Lemma cspline_eval_outside : forall xs xa ya x, increasing xa -> 2 <= length xa -> outside xa x ->
  cspline_interp xs xa ya x = Ok None /\ cspline_deriv xs xa ya x = Ok None.
Proof. intros xs xa ya x I N O. unfold cspline_interp, cspline_deriv. rewrite (search_outside xa x I N O). split; reflexivity. Qed.

(** ** The tridiagonal system *)
Definition rhs (xa ya : list Q) (k : nat) : Q :=
  (3 * ((at_ ya (k + 2) - at_ ya (k + 1)) * inverse_or_0 (at_ xa (k + 2) - at_ xa (k + 1)) - (at_ ya (k + 1) - at_ ya k) * inverse_or_0 (at_ xa (k + 1) - at_ xa k)))%Q.
Lemma inverse_ok : forall h, (0 < h)%Q -> inverse_or_0 h = (1 / h)%Q.
Proof. intros h H. unfold inverse_or_0. destruct (Qeq_bool h 0) eqn:E; [apply Qeq_bool_eq in E; lra|reflexivity]. Qed.
Lemma rhs_chord : forall xa ya k, increasing xa -> S (S k) < length xa -> (rhs xa ya k == 3 * (chord xa ya (S k) - chord xa ya k))%Q.
Proof.
  intros xa ya k I H. unfold rhs, chord. pose proof (I k ltac:(lia)) as P. pose proof (I (S k) H) as P'. replace (k + 2) with (S (S k)) by lia. replace (k + 1) with (S k) by lia.
  rewrite !inverse_ok by lra. field. lra.
Qed.
Definition dgn (xa : list Q) (k : nat) : Q := (2 * ((at_ xa (k + 1) - at_ xa k) + (at_ xa (k + 2) - at_ xa (k + 1))))%Q.
Definition off (xa : list Q) (k : nat) : Q := (at_ xa (k + 1) - at_ xa k)%Q.
Definition row_ok (xa ya : list Q) (m : nat) (A : mat) (b : buf) (k : nat) : Prop :=
  (0 < k -> mread A k (k - 1) = Ok (off xa k)) /\ mread A k k = Ok (dgn xa k) /\
  (k < m - 1 -> mread A k (k + 1) = Ok (at_ xa (k + 2) - at_ xa (k + 1))%Q) /\ bread b k = Ok (rhs xa ya k).
Lemma rows_ok : forall xa ya A b m, length xa = length ya -> m = length xa - 2 -> 4 <= length xa -> msize A = m -> bsize b = m ->
  exists A' b', ofor 0 m (cspline_row (length xa) xa ya) (A, b) = Ok (A', b') /\ msize A' = m /\ bsize b' = m /\ forall k, k < m -> row_ok xa ya m A' b' k.
Proof.
  intros xa ya A b m L Hm H4 HA Hb.
  destruct (ofor_inv (mat * buf) (fun i Ab => msize (fst Ab) = m /\ bsize (snd Ab) = m /\ forall k, k < i -> row_ok xa ya m (fst Ab) (snd Ab) k) (cspline_row (length xa) xa ya) m 0 (A, b)) as ([A' b'] & E & ZA & Zb & R).
  { cbn. split; [exact HA|]. split; [exact Hb|]. intros k Hk. lia. }
  { intros i [A1 b1] Hi (ZA & Zb & R). cbn [fst snd] in *. unfold cspline_row. rewrite !oat_ok by lia. cbn [obind].
    assert (S1 : exists A2, (if 0 <? i then mwrite A1 i (i - 1) (at_ xa (i + 1) - at_ xa i) else Ok A1) = Ok A2 /\ msize A2 = m /\ (0 < i -> mread A2 i (i - 1) = Ok (off xa i)) /\ forall k l, k <> i -> mread A2 k l = mread A1 k l).
    { destruct (Nat.ltb_spec 0 i).
      - destruct (mwrite_ok A1 i (i - 1) (at_ xa (i + 1) - at_ xa i)%Q ltac:(lia) ltac:(lia)) as (A2 & E2 & Z2 & R2 & O2). exists A2. split; [exact E2|]. split; [lia|]. split; [intros _; exact R2|]. intros k l Hk. apply O2. intros [? _]. lia.
      - exists A1. split; [reflexivity|]. split; [exact ZA|]. split; [lia|]. reflexivity. }
    destruct S1 as (A2 & -> & Z2 & R2 & O2). cbn [obind].
    destruct (mwrite_ok A2 i i (dgn xa i) ltac:(lia) ltac:(lia)) as (A3 & E3 & Z3 & R3 & O3). unfold dgn in E3. rewrite E3. cbn [obind].
    assert (S2 : exists A4, (if i <? length xa - 3 then mwrite A3 i (i + 1) (at_ xa (i + 2) - at_ xa (i + 1)) else Ok A3) = Ok A4 /\ msize A4 = m /\ (i < m - 1 -> mread A4 i (i + 1) = Ok (at_ xa (i + 2) - at_ xa (i + 1))%Q) /\ forall k l, ~ (k = i /\ l = i + 1) -> mread A4 k l = mread A3 k l).
    { destruct (Nat.ltb_spec i (length xa - 3)).
      - destruct (mwrite_ok A3 i (i + 1) (at_ xa (i + 2) - at_ xa (i + 1))%Q ltac:(lia) ltac:(lia)) as (A4 & E4 & Z4 & R4 & O4). exists A4. split; [exact E4|]. split; [lia|]. split; [intros _; exact R4|exact O4].
      - exists A3. split; [reflexivity|]. split; [lia|]. split; [lia|]. reflexivity. }
    destruct S2 as (A4 & -> & Z4 & R4 & O4). cbn [obind].
    destruct (bwrite_ok b1 i (rhs xa ya i) ltac:(lia)) as (b2 & Eb & Zb2 & Rb2 & Ob2). unfold rhs in Eb. rewrite Eb. cbn [obind].
    exists (A4, b2). split; [reflexivity|]. cbn [fst snd]. split; [lia|]. split; [lia|]. intros k Hk. destruct (Nat.eq_dec k i) as [->|Nk].
    - split; [|split; [|split]].
      + intro P. rewrite O4 by lia. rewrite O3 by lia. apply R2. exact P.
      + rewrite O4 by lia. exact R3.
      + exact R4.
      + exact Rb2.
    - destruct (R k ltac:(lia)) as (K1 & K2 & K3 & K4). split; [|split; [|split]].
      + intro P. rewrite O4, O3, O2 by lia. auto.
      + rewrite O4, O3, O2 by lia. auto.
      + intro P. rewrite O4, O3, O2 by lia. auto.
      + rewrite Ob2 by exact Nk. exact K4. }
  exists A', b'. split; [exact E|]. split; [exact ZA|]. split; [exact Zb|]. intros k Hk. apply R. lia.
Qed.

(** Forward elimination, as functions of the row. *)
Section Thomas.
  Variables xa ya : list Q.
  Let m := length xa - 2.
  Fixpoint thomas (k : nat) : Q * Q :=
    match k with
    | O => ((at_ xa 2 - at_ xa 1) * (1 / dgn xa 0), rhs xa ya 0 * (1 / dgn xa 0))%Q
    | S k' => let '(c, d) := thomas k' in
              ((at_ xa (k + 2) - at_ xa (k + 1)) * (1 / (dgn xa k - off xa k * c)), (rhs xa ya k - off xa k * d) * (1 / (dgn xa k - off xa k * c)))%Q
    end.
  Definition pivot (k : nat) : Q := match k with O => dgn xa 0 | S k' => (dgn xa k - off xa k * fst (thomas k'))%Q end.
  Definition tlast : Q := ((rhs xa ya (m - 1) - off xa (m - 1) * snd (thomas (m - 2))) / (dgn xa (m - 1) - off xa (m - 1) * fst (thomas (m - 2))))%Q.
  Fixpoint back (j : nat) : Q :=
    match j with
    | O => tlast
    | S j' => (snd (thomas (m - 2 - j')) - fst (thomas (m - 2 - j')) * back j')%Q
    end.
  Definition moment (i : nat) : Q := if Nat.eqb i 0 then 0%Q else if Nat.eqb i (m + 1) then 0%Q else back (m - i).
  Hypothesis I : increasing xa.
  Hypothesis L4 : 4 <= length xa.
  Lemma pivots : forall k, k < m -> (0 < pivot k)%Q /\ (k < m -> (0 <= fst (thomas k) <= 1)%Q).
  Proof.
    induction k as [|k IH]; intro Hk.
    - pose proof (I 0 ltac:(lia)). pose proof (I 1 ltac:(lia)). cbn [pivot thomas fst]. unfold dgn. cbn [Nat.add]. split; [lra|]. intros _.
      setoid_replace ((at_ xa 2 - at_ xa 1) * (1 / (2 * (at_ xa 1 - at_ xa 0 + (at_ xa 2 - at_ xa 1)))))%Q with ((at_ xa 2 - at_ xa 1) / (2 * (at_ xa 1 - at_ xa 0 + (at_ xa 2 - at_ xa 1))))%Q by (field; lra).
      split; [apply Qle_shift_div_l; lra|apply Qle_shift_div_r; lra].
    - destruct (IH ltac:(lia)) as [_ C]. specialize (C ltac:(lia)). pose proof (I (S k) ltac:(lia)) as P. pose proof (I (S (S k)) ltac:(lia)) as P'.
      assert (D : (at_ xa (S k + 2) - at_ xa (S k + 1) < pivot (S k))%Q).
      { cbn [pivot]. unfold dgn, off. replace (S k + 2) with (S (S (S k))) by lia. replace (S k + 1) with (S (S k)) by lia. nra. }
      replace (S k + 2) with (S (S (S k))) in D by lia. replace (S k + 1) with (S (S k)) in D by lia.
      split; [lra|]. intros _. cbn [thomas]. destruct (thomas k) as [c d] eqn:T. cbn [fst] in *. assert (Ep : pivot (S k) = (dgn xa (S k) - off xa (S k) * c)%Q) by (cbn [pivot]; rewrite T; reflexivity).
      rewrite <- Ep. replace (S k + 2) with (S (S (S k))) by lia. replace (S k + 1) with (S (S k)) by lia.
      setoid_replace ((at_ xa (S (S (S k))) - at_ xa (S (S k))) * (1 / pivot (S k)))%Q with ((at_ xa (S (S (S k))) - at_ xa (S (S k))) / pivot (S k))%Q by (field; lra).
      split; [apply Qle_shift_div_l; lra|apply Qle_shift_div_r; lra].
  Qed.
  Lemma thomas_eqs : forall k, k < m -> (pivot k * fst (thomas k) == at_ xa (k + 2) - at_ xa (k + 1))%Q /\
    (pivot k * snd (thomas k) == rhs xa ya k - (match k with O => 0 | S k' => off xa k * snd (thomas k') end))%Q.
  Proof.
    intros k Hk. destruct (pivots k Hk) as [P _]. destruct k as [|k].
    - cbn [thomas fst snd pivot] in *. cbn [Nat.add]. split; field; lra.
    - cbn [pivot] in *. cbn [thomas]. destruct (thomas k) as [c d]. cbn [fst snd] in *. split; field; lra.
  Qed.
  Lemma back_rel : forall k, S k < m -> (back (m - 1 - k) == snd (thomas k) - fst (thomas k) * back (m - 1 - S k))%Q.
  Proof. intros k Hk. replace (m - 1 - k) with (S (m - 2 - k)) by lia. cbn [back]. replace (m - 2 - (m - 2 - k)) with k by lia. replace (m - 1 - S k) with (m - 2 - k) by lia. reflexivity. Qed.
  Lemma moment_back : forall k, k < m -> moment (S k) = back (m - 1 - k).
  Proof. intros k Hk. unfold moment. destruct (Nat.eqb_spec (S k) 0); [lia|]. destruct (Nat.eqb_spec (S k) (m + 1)); [lia|]. f_equal. lia. Qed.
  Lemma moment_rel : forall k, k < m -> (moment (S k) == (if k =? m - 1 then tlast else snd (thomas k) - fst (thomas k) * moment (S (S k))))%Q.
  Proof.
    intros k Hk. rewrite moment_back by exact Hk. destruct (Nat.eqb_spec k (m - 1)) as [->|N].
    - replace (m - 1 - (m - 1)) with 0 by lia. reflexivity.
    - rewrite (moment_back (S k)) by lia. apply back_rel. lia.
  Qed.
  (** [pivot k * X(k+1) + u(k) X(k+2) = rhs(k) - l(k) d(k-1)]. *)
  Lemma reduced_row : forall k, k < m ->
    (pivot k * moment (S k) + (at_ xa (k + 2) - at_ xa (k + 1)) * moment (S (S k)) == rhs xa ya k - (match k with O => 0 | S k' => off xa k * snd (thomas k') end))%Q.
  Proof.
    intros k Hk. rewrite (moment_rel k Hk). destruct (pivots k Hk) as [P _]. destruct (Nat.eqb_spec k (m - 1)) as [E|N].
    - assert (Z : moment (S (S k)) = 0%Q). { unfold moment. destruct (Nat.eqb_spec (S (S k)) 0); [lia|]. destruct (Nat.eqb_spec (S (S k)) (m + 1)); [reflexivity|lia]. } rewrite Z.
      destruct k as [|k]; [lia|]. unfold tlast. rewrite <- E. replace (m - 2) with k by lia. cbn [pivot] in *. field. lra.
    - destruct (thomas_eqs k Hk) as [T1 T2]. rewrite <- T1, <- T2. ring.
  Qed.
  Lemma moments_solve : forall k, S (S k) < length xa ->
    (step_ xa k * moment k + 2 * (step_ xa k + step_ xa (S k)) * moment (S k) + step_ xa (S k) * moment (S (S k)) == 3 * (chord xa ya (S k) - chord xa ya k))%Q.
  Proof.
    intros k Hk. rewrite <- rhs_chord by (auto; lia). assert (Hm : k < m) by lia. pose proof (reduced_row k Hm) as R. unfold step_.
    destruct k as [|k].
    - change (moment 0) with 0%Q. cbn [pivot] in R. unfold dgn in R. cbn [Nat.add] in R. lra.
    - cbn [pivot] in R. pose proof (moment_rel k ltac:(lia)) as E. destruct (Nat.eqb_spec k (m - 1)); [lia|]. rewrite E. unfold dgn, off in *.
      replace (S k + 2) with (S (S (S k))) in * by lia. replace (S k + 1) with (S (S k)) in * by lia. lra.
  Qed.
End Thomas.

Lemma thomas_step_ok : forall xa ya A b m i c d, increasing xa -> 4 <= length xa -> m = length xa - 2 -> (forall k, k < m -> row_ok xa ya m A b k) ->
  1 <= i < m - 1 -> bsize c = m -> bsize d = m ->
  (forall k, k < i -> bread c k = Ok (fst (thomas xa ya k)) /\ bread d k = Ok (snd (thomas xa ya k))) ->
  exists c' d', thomas_step A b i (c, d) = Ok (c', d') /\ bsize c' = m /\ bsize d' = m /\
   (forall k, k < S i -> bread c' k = Ok (fst (thomas xa ya k)) /\ bread d' k = Ok (snd (thomas xa ya k))).
Proof.
  intros xa ya A b m i c d I L4 Hm R Hi Zc Zd H. unfold thomas_step. destruct (R i ltac:(lia)) as (R1 & R2 & R3 & R4). rewrite R1, R2, R3, R4 by lia. cbn [obind].
  destruct (H (i - 1) ltac:(lia)) as [-> ->]. cbn [obind].
  destruct (pivots xa ya I L4 i ltac:(lia)) as [P _]. destruct i as [|i]; [lia|]. replace (S i - 1) with i in * by lia. cbn [pivot] in P. rewrite odiv_ok by lra. cbn [obind].
  destruct (bwrite_ok c (S i) ((at_ xa (S i + 2) - at_ xa (S i + 1)) * (1 / (dgn xa (S i) - off xa (S i) * fst (thomas xa ya i))))%Q ltac:(lia)) as (c' & Ec & Zc' & Rc & Oc). rewrite Ec. cbn [obind].
  destruct (bwrite_ok d (S i) ((rhs xa ya (S i) - off xa (S i) * snd (thomas xa ya i)) * (1 / (dgn xa (S i) - off xa (S i) * fst (thomas xa ya i))))%Q ltac:(lia)) as (d' & Ed & Zd' & Rd & Od). rewrite Ed. cbn [obind].
  exists c', d'. split; [reflexivity|]. split; [lia|]. split; [lia|]. intros k Hk. destruct (Nat.eq_dec k (S i)) as [->|Nk].
  - rewrite Rc, Rd. cbn [thomas]. destruct (thomas xa ya i). cbn [fst snd]. auto.
  - rewrite Oc, Od by exact Nk. apply H. lia.
Qed.
(** Sizes and borders of the buffers that a history of calls can produce. *)
Definition cspline_inv (st : cspline_state) : Prop :=
  bsize (csx st) = 0 \/
  (4 <= bsize (csx st) /\ msize (csA st) = bsize (csx st) - 2 /\ bsize (csb st) = bsize (csx st) - 2 /\ bsize (csc st) = bsize (csx st) - 2 /\ bsize (csd st) = bsize (csx st) - 2 /\
   bread (csx st) 0 = Ok 0%Q /\ bread (csx st) (bsize (csx st) - 1) = Ok 0%Q).
Lemma cspline_compute_ok : forall st xa ya, cspline_inv st -> data 4 xa ya ->
  exists st', cspline_compute st xa ya = Ok st' /\ cspline_inv st' /\ forall i, i < length xa -> bread (csx st') i = Ok (moment xa ya i).
Proof.
  intros st xa ya Inv D. pose proof D as (L & N & I). unfold cspline_compute, cspline_min_size. rewrite (check_ok _ _ _ D). cbn [obind].
  set (n := length xa) in *. set (m := n - 2) in *.
  set (st0 := if negb (bsize (csx st) =? n) then _ else st).
  assert (S0 : bsize (csx st0) = n /\ msize (csA st0) = m /\ bsize (csb st0) = m /\ bsize (csc st0) = m /\ bsize (csd st0) = m /\ bread (csx st0) 0 = Ok 0%Q /\ bread (csx st0) (n - 1) = Ok 0%Q).
  { unfold st0. destruct (Nat.eqb_spec (bsize (csx st)) n) as [E|E]; cbn [negb].
    - destruct Inv as [Z|(I1 & I2 & I3 & I4 & I5 & I6 & I7)]; [lia|]. rewrite E in *. repeat split; auto; try lia.
    - assert (Zr : forall k, k < n -> bread (bzero (bresize n)) k = Ok 0%Q) by (intros k Hk; unfold bread; cbn [bsize bzero bresize bget]; destruct (Nat.ltb_spec k n); [reflexivity|lia]).
      cbn [csx csA csb csc csd]. repeat split; try reflexivity; apply Zr; lia. }
  destruct S0 as (Sx & SA & Sb & Sc & Sd & B0 & B1). clearbody st0. clear Inv st.
  destruct (rows_ok xa ya (csA st0) (csb st0) m L eq_refl ltac:(lia) SA Sb) as (A & b & E & ZA & Zb & R). fold n in E. rewrite E. cbn [obind]. clear E.
  unfold solve_tridiagonal. rewrite ZA. destruct (R 0 ltac:(lia)) as (_ & R2 & R3 & R4). rewrite R2. cbn [obind].
  destruct (pivots xa ya I ltac:(lia) 0 ltac:(lia)) as [P0 _]. cbn [pivot] in P0. rewrite odiv_ok by lra. cbn [obind]. cbn [Nat.add] in R3. rewrite R3 by lia. cbn [obind].
  destruct (bwrite_ok (csc st0) 0 ((at_ xa 2 - at_ xa 1) * (1 / dgn xa 0))%Q ltac:(lia)) as (c1 & Ec1 & Zc1 & Rc1 & _). rewrite Ec1. cbn [obind]. rewrite R4. cbn [obind].
  destruct (bwrite_ok (csd st0) 0 (rhs xa ya 0 * (1 / dgn xa 0))%Q ltac:(lia)) as (d1 & Ed1 & Zd1 & Rd1 & _). rewrite Ed1. cbn [obind].
  destruct (ofor_inv (buf * buf) (fun i cd => bsize (fst cd) = m /\ bsize (snd cd) = m /\ forall k, k < i -> bread (fst cd) k = Ok (fst (thomas xa ya k)) /\ bread (snd cd) k = Ok (snd (thomas xa ya k))) (thomas_step A b) (m - 2) 1 (c1, d1)) as ([c d] & E & Zc & Zd & T).
  { cbn [fst snd]. split; [lia|]. split; [lia|]. intros k Hk. assert (k = 0) by lia. subst k. rewrite Rc1, Rd1. auto. }
  { intros i [c d] Hi (Zc & Zd & T). cbn [fst snd] in *. destruct (thomas_step_ok xa ya A b m i c d I ltac:(lia) eq_refl R ltac:(lia) Zc Zd T) as (c' & d' & E & Zc' & Zd' & T'). exists (c', d'). auto. }
  cbn [fst snd] in *. rewrite E. cbn [obind]. clear E. replace (1 + (m - 2)) with (m - 1) in T by lia.
  destruct (R (m - 1) ltac:(lia)) as (Q1 & Q2 & _ & Q4). replace (m - 1 - 1) with (m - 2) in Q1 by lia. rewrite Q1, Q2, Q4 by lia. cbn [obind].
  destruct (T (m - 2) ltac:(lia)) as [-> ->]. cbn [obind].
  destruct (pivots xa ya I ltac:(lia) (m - 1) ltac:(lia)) as [PL _].
  assert (PL' : (0 < dgn xa (m - 1) - off xa (m - 1) * fst (thomas xa ya (m - 2)))%Q). { replace (m - 1) with (S (m - 2)) in PL |- * by lia. exact PL. }
  rewrite odiv_ok by lra. cbn [obind]. fold (tlast xa ya). change ((rhs xa ya (m - 1) - off xa (m - 1) * snd (thomas xa ya (m - 2))) / (dgn xa (m - 1) - off xa (m - 1) * fst (thomas xa ya (m - 2))))%Q with (tlast xa ya).
  destruct (bwrite_ok d (m - 1) (tlast xa ya) ltac:(lia)) as (d2 & Ed2 & Zd2 & Rd2 & Od2). rewrite Ed2. cbn [obind].
  destruct (bwrite_ok (csx st0) (S (m - 1)) (tlast xa ya) ltac:(lia)) as (x1 & Ex1 & Zx1 & Rx1 & Ox1). rewrite Ex1. cbn [obind].
  match goal with |- context [odown (m - 1) ?f x1] => destruct (odown_inv buf (fun i x => bsize x = n /\ bread x 0 = Ok 0%Q /\ bread x (n - 1) = Ok 0%Q /\ forall k, i <= k < m -> bread x (S k) = Ok (back xa ya (m - 1 - k))) f (m - 1) x1) as (x2 & Ex2 & Zx2 & X0 & XN & RX) end.
  { split; [lia|]. rewrite !Ox1 by lia. split; [exact B0|]. split; [exact B1|]. intros k Hk. assert (k = m - 1) by lia. subst k. rewrite Rx1. rewrite Nat.sub_diag. reflexivity. }
  { intros i x Hi (Zx & X0 & XN & RX). rewrite Od2 by lia. destruct (T i ltac:(lia)) as [Tc Td]. rewrite Tc, Td. cbn [obind]. replace (i + 1) with (S i) by lia. rewrite (RX (S i)) by lia. cbn [obind].
    match goal with |- context [bwrite x ?j ?v] => destruct (bwrite_ok x j v ltac:(lia)) as (x' & E & Z & Rw & O) end. exists x'. split; [exact E|]. split; [lia|]. rewrite !O by lia. split; [exact X0|]. split; [exact XN|].
    intros k Hk. destruct (Nat.eq_dec k i) as [->|Nk].
    - rewrite Rw. replace (m - 1 - i) with (S (m - 2 - i)) by lia. cbn [back]. fold n m. replace (m - 2 - (m - 2 - i)) with i by lia. replace (m - 1 - S i) with (m - 2 - i) by lia. reflexivity.
    - rewrite O by lia. apply RX. lia. }
  rewrite Ex2. cbn [obind]. eexists. split; [reflexivity|]. cbn [csx]. split.
  - right. cbn. rewrite Zx2. fold m. repeat split; auto; try lia.
  - intros i Hi. unfold moment. fold n m. destruct (Nat.eqb_spec i 0) as [->|H0]; [exact X0|]. destruct (Nat.eqb_spec i (m + 1)) as [->|H1].
    + replace (m + 1) with (n - 1) by lia. exact XN.
    + destruct i as [|i]; [lia|]. rewrite RX by lia. do 2 f_equal. lia.
Qed.
