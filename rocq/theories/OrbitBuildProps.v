(** Theorems about the construction of an orbit (C133). *)
From Verif Require Import Base BaseProofs MathModel OrbitModel OrbitSpec OrbitProofs OrbitProofs2 OrbitProps OrbitBuildModel.
From Coq Require Import Sorted Lqa ZifyBool Qround.
Open Scope Z_scope.

(** ** Specification *)
(** The values never decrease along the list. *)
Definition q_nondecreasing (l : list Q) : Prop := forall i, (S i < length l)%nat -> (at_ l i <= at_ l (S i))%Q.
(** What is used of the geodesic functions: a distance for every point, starting anywhere and never decreasing (C87); one
    position for every coordinate wanted (C63). *)
Definition along_track (curvilinear : list Q -> list Q -> list Q) : Prop := forall lon lat, length lon = length lat ->
  length (curvilinear lon lat) = length lon /\ q_nondecreasing (curvilinear lon lat).
Definition one_each (interp : nat -> list Q -> list Q -> list Q -> list Q -> outcome (list Q * list Q)) : Prop :=
  forall h lon lat xp xi lon' lat', interp h lon lat xp xi = Ok (lon', lat') -> length lon' = length xi /\ length lat' = length xi.

(** ** numpy.interp *)
(** Between two consecutive coordinates, the slope is at least [s]. *)
Fixpoint steep (s x0 f0 : Q) (xs fs : list Q) : Prop :=
  match xs, fs with
  | x1 :: xs, f1 :: fs => (x0 <= x1 /\ s * (x1 - x0) <= f1 - f0)%Q /\ steep s x1 f1 xs fs
  | [], [] => True
  | _, _ => False
  end.
Lemma steep_of s xs : forall fs x0 f0, length xs = length fs ->
  q_nondecreasing (x0 :: xs) ->
  (forall i, (S i < length (x0 :: xs))%nat -> s * (at_ (x0 :: xs) (S i) - at_ (x0 :: xs) i) <= at_ (f0 :: fs) (S i) - at_ (f0 :: fs) i)%Q ->
  steep s x0 f0 xs fs.
Proof.
  induction xs as [|x1 xs IH]; intros [|f1 fs] x0 f0 L N H; cbn [length] in L; try lia; [exact I|]. cbn [steep]. split.
  - split; [exact (N 0%nat ltac:(cbn [length]; lia))|exact (H 0%nat ltac:(cbn [length]; lia))].
  - apply IH; [lia| |].
    + intros i Hi. apply (N (S i)). cbn [length] in *. lia.
    + intros i Hi. apply (H (S i)). cbn [length] in *. lia.
Qed.
Lemma line_at x0 x1 f0 f1 x : (x0 <= x -> x < x1 -> exists w, 0 <= w /\ 0 <= 1 - w /\ x - x0 == w * (x1 - x0) /\
   f0 + (f1 - f0) / (x1 - x0) * (x - x0) == f0 + w * (f1 - f0))%Q.
Proof.
  intros A B. assert (P : (0 < x1 - x0)%Q) by lra. exists ((x - x0) / (x1 - x0))%Q. split; [|split; [|split]].
  - apply Qle_shift_div_l; [exact P|]. lra.
  - assert ((x - x0) / (x1 - x0) <= 1)%Q by (apply Qle_shift_div_r; [exact P|]; lra). lra.
  - field. lra.
  - field. lra.
Qed.
Lemma segments_low s xs : forall fs x0 f0 x, steep s x0 f0 xs fs -> (0 <= s)%Q -> (x0 <= x)%Q -> (f0 <= np_segments x x0 f0 xs fs)%Q.
Proof.
  induction xs as [|x1 xs IH]; intros [|f1 fs] x0 f0 x ST S0 X; try contradiction; [apply Qle_refl|]. cbn [steep np_segments] in *.
  destruct ST as [[A B] ST]. assert (F : (f0 <= f1)%Q) by nra. destruct (Qltb_spec x x1) as [L|L].
  - destruct (line_at x0 x1 f0 f1 x X L) as (w & W0 & W1 & _ & ->). nra.
  - eapply Qle_trans; [exact F|]. apply IH; assumption.
Qed.
Lemma segments_high s xs : forall fs x0 f0 x, steep s x0 f0 xs fs -> (0 <= s)%Q -> (x0 <= x)%Q -> (np_segments x x0 f0 xs fs <= last fs f0)%Q.
Proof.
  assert (G : forall xs fs x0 f0, steep s x0 f0 xs fs -> (0 <= s)%Q -> (f0 <= last fs f0)%Q).
  { clear. induction xs as [|x1 xs IH]; intros [|f1 fs] x0 f0 ST S0; try contradiction; [apply Qle_refl|]. destruct ST as [[A B] ST].
    assert (F : (f0 <= f1)%Q) by nra. specialize (IH _ _ _ ST S0). destruct fs as [|f2 fs]; [exact F|].
    change (last (f1 :: f2 :: fs) f0) with (last (f2 :: fs) f0). rewrite (OrbitProofs.last_nth (f2 :: fs) f0). rewrite (OrbitProofs.last_nth (f2 :: fs) f1) in IH.
    rewrite (nth_indep _ f0 f1) by (cbn [length]; lia). lra. }
  induction xs as [|x1 xs IH]; intros [|f1 fs] x0 f0 x ST S0 X; try contradiction; [apply Qle_refl|].
  assert (E : forall d, last (f1 :: fs) d = last fs f1).
  { intro d. clear. revert f1 d. induction fs as [|a fs IH]; intros f1 d; [reflexivity|]. change (last (f1 :: a :: fs) d) with (last (a :: fs) d). rewrite (IH a d), (IH a f1). reflexivity. }
  rewrite E. cbn [steep np_segments] in *. destruct ST as [[A B] ST]. assert (F : (f0 <= f1)%Q) by nra. destruct (Qltb_spec x x1) as [L|L].
  - destruct (line_at x0 x1 f0 f1 x X L) as (w & W0 & W1 & _ & ->). specialize (G _ _ _ _ ST S0). nra.
  - apply IH; assumption.
Qed.
Lemma segments_steep s xs : forall fs x0 f0 x y, steep s x0 f0 xs fs -> (0 <= s)%Q -> (x0 <= x)%Q -> (x <= y)%Q -> (y <= last xs x0)%Q ->
  (s * (y - x) <= np_segments y x0 f0 xs fs - np_segments x x0 f0 xs fs)%Q.
Proof.
  induction xs as [|x1 xs IH]; intros [|f1 fs] x0 f0 x y ST S0 X XY Y; try contradiction.
  - cbn [last np_segments] in *. assert (E : (y - x == 0)%Q) by lra. rewrite E. lra.
  - assert (E : forall d, last (x1 :: xs) d = last xs x1).
    { intro d. clear. revert x1 d. induction xs as [|a fs IH]; intros f1 d; [reflexivity|]. change (last (f1 :: a :: fs) d) with (last (a :: fs) d). rewrite (IH a d), (IH a f1). reflexivity. }
    rewrite E in Y. cbn [steep np_segments] in *. destruct ST as [[A B] ST].
    destruct (Qltb_spec x x1) as [L|L]; destruct (Qltb_spec y x1) as [L'|L']; [| |lra|apply IH; assumption].
    + destruct (line_at x0 x1 f0 f1 x X L) as (w & W0 & W1 & WE & ->). destruct (line_at x0 x1 f0 f1 y ltac:(lra) L') as (v & V0 & V1 & VE & ->).
      assert (P : (0 < x1 - x0)%Q) by lra. assert (WV : (w <= v)%Q) by (apply (Qmult_lt_0_le_reg_r _ _ _ P); lra).
      assert (D : (y - x == (v - w) * (x1 - x0))%Q) by lra. rewrite D.
      assert (M : ((v - w) * (s * (x1 - x0)) <= (v - w) * (f1 - f0))%Q) by (assert (V : (0 <= v - w)%Q) by lra; rewrite !(Qmult_comm (v - w)); apply Qmult_le_compat_r; [exact B|exact V]).
      lra.
    + destruct (line_at x0 x1 f0 f1 x X L) as (w & W0 & W1 & WE & ->).
      specialize (IH fs x1 f1 x1 y ST S0 (Qle_refl _) L' Y).
      assert (Z1 : (np_segments x1 x1 f1 xs fs == f1)%Q \/ (f1 <= np_segments x1 x1 f1 xs fs)%Q) by (right; eapply segments_low; [exact ST|exact S0|apply Qle_refl]).
      assert (Z2 : (f1 <= np_segments x1 x1 f1 xs fs)%Q) by (destruct Z1; lra).
      assert (D : (x1 - x == (1 - w) * (x1 - x0))%Q) by lra.
      assert (M : ((1 - w) * (s * (x1 - x0)) <= (1 - w) * (f1 - f0))%Q) by (rewrite !(Qmult_comm (1 - w)); apply Qmult_le_compat_r; [exact B|exact W1]).
      assert (N : (s * (y - x) == s * (y - x1) + (1 - w) * (s * (x1 - x0)))%Q) by (rewrite <- (Qplus_0_r (y - x)); setoid_replace (y - x + 0)%Q with ((y - x1) + (x1 - x))%Q by ring; rewrite D; ring).
      rewrite N. lra.
Qed.
(** The value between two coordinates, and on the last one. *)
Lemma segments_at xs : forall fs x0 f0 x i, length xs = length fs -> q_nondecreasing (x0 :: xs) -> (S i < length (x0 :: xs))%nat ->
  (at_ (x0 :: xs) i <= x)%Q -> (x < at_ (x0 :: xs) (S i))%Q ->
  np_segments x x0 f0 xs fs =
  (at_ (f0 :: fs) i + (at_ (f0 :: fs) (S i) - at_ (f0 :: fs) i) / (at_ (x0 :: xs) (S i) - at_ (x0 :: xs) i) * (x - at_ (x0 :: xs) i))%Q.
Proof.
  induction xs as [|x1 xs IH]; intros [|f1 fs] x0 f0 x i L N I A B; cbn [length] in *; try lia. cbn [np_segments]. destruct i as [|i].
  - destruct (Qltb_spec x x1) as [C|C]; [reflexivity|]. unfold at_ in B. cbn [nth] in B. lra.
  - destruct (Qltb_spec x x1) as [C|C].
    + exfalso. assert (x1 <= at_ (x0 :: x1 :: xs) (S i))%Q; [|lra]. clear - N I. induction i as [|i IHi]; [apply Qle_refl|].
      eapply Qle_trans; [apply IHi; lia|]. apply N. cbn [length]. lia.
    + refine (IH fs x1 f1 x i _ _ _ A B); [lia| |lia]. intros j J. apply (N (S j)). cbn [length] in *. lia.
Qed.

(** ** Truncation, ranges *)
Lemma py_int_floor q : (0 <= q)%Q -> py_int q = Qfloor q.
Proof. intro H. destruct q as [n d]. unfold py_int, Qfloor. cbn [Qnum Qden]. apply Z.quot_div_nonneg; [|lia]. unfold Qle in H. cbn in H. lia. Qed.
Lemma floor_le q : (inject_Z (Qfloor q) <= q)%Q.
Proof. apply Qfloor_le. Qed.
Lemma floor_gt q : (q < inject_Z (Qfloor q) + 1)%Q.
Proof. assert (H := Qlt_floor q). rewrite inject_Z_plus in H. exact H. Qed.
Lemma floor_mono a b : (a <= b)%Q -> Qfloor a <= Qfloor b.
Proof. apply Qfloor_resp_le. Qed.
Lemma floor_step a b : (1 <= b - a)%Q -> Qfloor a < Qfloor b.
Proof.
  intro H. assert (A := floor_le a). assert (B := floor_gt b).
  assert (X : (inject_Z (Qfloor a) < inject_Z (Qfloor b))%Q) by lra. rewrite <- Zlt_Qlt in X. exact X.
Qed.
Lemma z_range_nth n k : (k < Z.to_nat n)%nat -> nth k (z_range n) 0 = Z.of_nat k.
Proof.
  intro H. unfold z_range. rewrite (nth_indep _ 0 (Z.of_nat 0)) by (rewrite map_length, seq_length; exact H). rewrite (map_nth Z.of_nat), seq_nth by exact H. reflexivity.
Qed.
Lemma z_range_length n : length (z_range n) = Z.to_nat n.
Proof. unfold z_range. rewrite map_length, seq_length. reflexivity. Qed.
Lemma q_arange_nth a b s k : (k < length (q_arange a b s))%nat -> at_ (q_arange a b s) k = (a + inject_Z (Z.of_nat k) * s)%Q.
Proof.
  unfold q_arange. rewrite map_length. intro H. unfold at_. rewrite (nth_indep _ 0%Q ((fun k => a + inject_Z k * s)%Q 0)) by (rewrite map_length; exact H).
  rewrite (map_nth (fun k => a + inject_Z k * s)%Q). rewrite z_range_nth; [reflexivity|]. rewrite z_range_length in H. exact H.
Qed.
Lemma q_arange_below a b s k : (0 < s)%Q -> (k < length (q_arange a b s))%nat -> (at_ (q_arange a b s) k < b)%Q.
Proof.
  intros S0 H. rewrite (q_arange_nth _ _ _ _ H). unfold q_arange in H. rewrite map_length, z_range_length in H.
  assert (K : Z.of_nat k + 1 <= Qceiling ((b - a) / s)) by lia.
  assert (C : (inject_Z (Z.of_nat k) < (b - a) / s)%Q).
  { destruct (Qlt_le_dec (inject_Z (Z.of_nat k)) ((b - a) / s)) as [L|L]; [exact L|]. exfalso.
    apply Qceiling_resp_le in L. rewrite Qceiling_Z in L. lia. }
  assert (M : (inject_Z (Z.of_nat k) * s < (b - a) / s * s)%Q) by (apply Qmult_lt_compat_r; assumption).
  assert (E : ((b - a) / s * s == b - a)%Q) by (field; lra). lra.
Qed.
Lemma q_arange_reaches a b s : (0 < s)%Q -> (b <= a + inject_Z (zlen (q_arange a b s)) * s)%Q.
Proof.
  intros S0. unfold zlen, q_arange. rewrite map_length, z_range_length. assert (C := Qle_ceiling ((b - a) / s)).
  assert (M : (Qceiling ((b - a) / s) <= Z.of_nat (Z.to_nat (Qceiling ((b - a) / s))))%Z) by lia. rewrite Zle_Qle in M.
  assert (N : ((b - a) / s * s <= inject_Z (Z.of_nat (Z.to_nat (Qceiling ((b - a) / s)))) * s)%Q) by (apply Qmult_le_compat_r; [eapply Qle_trans; eassumption|lra]).
  assert (E : ((b - a) / s * s == b - a)%Q) by (field; lra). lra.
Qed.

(** ** The resampling along the track *)
(** The distance between two points asked for by the user: 2 km by default. *)
Definition resolution (res : option Q) (step : Q) : Prop := match res with Some r => (0 < r)%Q /\ step = r | None => step = 2%Q end.
Lemma resolution_num res step : resolution res step -> num_or res 2 = step /\ (0 < step)%Q.
Proof.
  destruct res as [r|]; cbn [resolution num_or].
  - intros [A ->]. split; [|exact A]. destruct (Qeq_bool r 0) eqn:E; [|reflexivity]. apply Qeq_bool_iff in E. lra.
  - intros ->. split; [reflexivity|lra].
Qed.
Lemma py_nth_ok {A} (l : list A) (i : Z) v d : py_nth l i = Ok v ->
  v = nth (Z.to_nat (if i <? 0 then i + zlen l else i)) l d /\ 0 <= (if i <? 0 then i + zlen l else i) < zlen l.
Proof.
  unfold py_nth, zlen. cbv zeta. destruct (Z.ltb_spec (if i <? 0 then i + Z.of_nat (length l) else i) 0) as [H|H]; [discriminate|].
  destruct (nth_error l _) as [w|] eqn:E; [|discriminate]. intros [= ->].
  split; [symmetry; apply nth_error_nth; exact E|]. assert (nth_error l (Z.to_nat (if i <? 0 then i + Z.of_nat (length l) else i)) <> None) by congruence.
  apply nth_error_Some in H0. lia.
Qed.
Lemma at_map f (l : list Q) i : (i < length l)%nat -> at_ (map f l) i = f (at_ l i).
Proof. intro H. unfold at_. rewrite (nth_indep _ 0%Q (f 0%Q)) by (rewrite map_length; exact H). apply (map_nth f). Qed.
Lemma at_removelast (l : list Q) i : (S i < length l)%nat -> at_ (removelast l) i = at_ l i.
Proof. intro H. apply removelast_nth. lia. Qed.
Lemma removelast_len {A} (l : list A) : length (removelast l) = (length l - 1)%nat.
Proof. induction l as [|a [|b l] IH]; [reflexivity|reflexivity|]. change (removelast (a :: b :: l)) with (a :: removelast (b :: l)). cbn [length] in *. lia. Qed.

Section Finish.
  Variable interp : nat -> list Q -> list Q -> list Q -> list Q -> outcome (list Q * list Q).
  Variable curvilinear : list Q -> list Q -> list Q.
  Hypothesis H1 : one_each interp.
  Hypothesis H2 : along_track curvilinear.
  Variables (lon lat : list Q) (time : list Z) (res : option Q) (step : Q) (o : orbit).
  Hypothesis L1 : length lon = length lat.
  Hypothesis L2 : length time = length lat.
  Hypothesis R : resolution res step.
  Hypothesis F : finish interp curvilinear lon lat time res = Ok o.
  (** kilometers *)
  Let d := map (fun v => v * (1 # 1000))%Q (curvilinear lon lat).
  Let n := length lat.
  Let at_x v := match removelast d, map inject_Z (removelast time) with x0 :: xs, f0 :: fs => np_segments v x0 f0 xs fs | _, _ => 0%Q end.

  Lemma d_len : length d = n.
  Proof. unfold d, n. rewrite map_length. destruct (H2 lon lat L1) as [E _]. lia. Qed.
  Lemma d_mono : q_nondecreasing d.
  Proof.
    intros i Hi. assert (E := d_len). unfold d in *. rewrite map_length in *. rewrite !at_map by lia. destruct (H2 lon lat L1) as [_ N].
    specialize (N i Hi). lra.
  Qed.
  Lemma finish_shape : (2 <= n)%nat /\ o_x_al o = q_arange (at_ d 0) (at_ d (n - 2)) step /\
    build_orbit (o_lon o) (o_lat o) (o_time o) (o_x_al o) = Ok o /\ length (o_lon o) = length (o_x_al o) /\ length (o_lat o) = length (o_x_al o) /\
    o_time o = map py_int (map at_x (o_x_al o)).
  Proof.
    assert (E := d_len). destruct (resolution_num _ _ R) as [RN RP]. revert F. unfold finish. fold d. rewrite RN.
    destruct (py_nth d 0) as [d0|w|w] eqn:P0; cbn [obind]; try discriminate. destruct (py_nth d (-2)) as [d2|w|w] eqn:P2; cbn [obind]; try discriminate.
    destruct (py_nth_ok _ _ _ 0%Q P0) as [V0 B0]. destruct (py_nth_ok _ _ _ 0%Q P2) as [V2 B2]. cbn [Z.ltb Z.compare] in V0, B0, V2, B2. unfold zlen in *. rewrite E in *.
    assert (N2 : (2 <= n)%nat) by lia.
    assert (D0 : d0 = at_ d 0) by exact V0. assert (D2 : d2 = at_ d (n - 2)) by (rewrite V2; unfold at_; f_equal; lia). clear V0 V2. subst d0 d2.
    destruct (interp 10 (removelast lon) (removelast lat) (removelast d) _) as [[lon1 lat1]|w|w] eqn:I; cbn [obind]; try discriminate.
    destruct (H1 _ _ _ _ _ _ _ I) as [G1 G2]. unfold np_interp.
    destruct (removelast d) as [|x0 xs] eqn:RD; cbn [obind]; [discriminate|]. destruct (map inject_Z (removelast time)) as [|f0 fs] eqn:RT; cbn [obind]; [discriminate|].
    destruct (negb _) eqn:LL; cbn [obind]; [discriminate|]. intro B.
    assert (X0 : x0 = at_ d 0).
    { rewrite <- (at_removelast d 0) by lia. rewrite RD. reflexivity. }
    assert (OX : o_x_al o = q_arange (at_ d 0) (at_ d (n - 2)) step /\ o_lon o = lon1 /\ o_lat o = lat1 /\
       o_time o = map py_int (map (fun v => if Qltb v x0 then f0 else np_segments v x0 f0 xs fs) (q_arange (at_ d 0) (at_ d (n - 2)) step))).
    { revert B. unfold build_orbit. destruct (calculate_pass_time _ _) as [pt|w|w]; cbn [obind]; try discriminate. intros [= <-]. cbn. repeat split. }
    destruct OX as (OX & -> & -> & OT). split; [exact N2|]. split; [exact OX|]. split; [rewrite OX, OT; exact B|]. split; [rewrite OX; exact G1|]. split; [rewrite OX; exact G2|].
    rewrite OT, OX. f_equal. apply map_ext_in. intros v Hv. unfold at_x.
    destruct (Qltb_spec v x0) as [C|C]; [|reflexivity]. exfalso. apply (In_nth _ _ 0%Q) in Hv. destruct Hv as (k & K & <-).
    change (at_ (q_arange (at_ d 0) (at_ d (n - 2)) step) k < x0)%Q in C. rewrite (q_arange_nth _ _ _ _ K) in C. rewrite X0 in C.
    assert (0 <= inject_Z (Z.of_nat k))%Q by (rewrite <- (Zle_Qle 0); lia). nra.
  Qed.

  (** The points are [step] kilometers apart from the first point of the ephemeris, up to the last but one of its points,
      not included; every field has one value for each of them. *)
  Lemma points : length (o_lon o) = length (o_x_al o) /\ length (o_lat o) = length (o_x_al o) /\ length (o_time o) = length (o_x_al o) /\
    (forall k, (k < length (o_x_al o))%nat ->
       at_ (o_x_al o) k = (at_ d 0 + inject_Z (Z.of_nat k) * step)%Q /\ (at_ (o_x_al o) k < at_ d (n - 2))%Q) /\
    (at_ d (n - 2) <= at_ d 0 + inject_Z (zlen (o_x_al o)) * step)%Q.
  Proof.
    destruct finish_shape as (N2 & OX & B & A1 & A2 & OT). destruct (resolution_num _ _ R) as [_ RP].
    split; [exact A1|]. split; [exact A2|]. split; [rewrite OT, !map_length; reflexivity|]. split.
    - intros k K. rewrite OX in *. split; [apply q_arange_nth; exact K|]. apply q_arange_below; assumption.
    - rewrite OX. apply q_arange_reaches. exact RP.
  Qed.

  (** *** Times *)
  Hypothesis T0 : 0 <= nth 0 time 0.
  Section Slope.
    Variable s : Q.
    Hypothesis S0 : (0 <= s)%Q.
    Hypothesis SL : forall i, (S (S i) < n)%nat -> (s * (at_ d (S i) - at_ d i) <= inject_Z (nth (S i) time 0%Z) - inject_Z (nth i time 0%Z))%Q.
    Lemma lists : exists x0 xs f0 fs, removelast d = x0 :: xs /\ map inject_Z (removelast time) = f0 :: fs /\ steep s x0 f0 xs fs /\
      x0 = at_ d 0 /\ f0 = inject_Z (nth 0 time 0%Z) /\ last xs x0 = at_ d (n - 2) /\ last fs f0 = inject_Z (nth (n - 2) time 0%Z).
    Proof.
      destruct finish_shape as (N2 & _). assert (E := d_len).
      assert (Ld : length (removelast d) = (n - 1)%nat) by (rewrite removelast_len, E; reflexivity).
      assert (Lt : length (map inject_Z (removelast time)) = (n - 1)%nat) by (rewrite map_length, removelast_len, L2; reflexivity).
      assert (AT : forall i, (i < n - 1)%nat -> at_ (map inject_Z (removelast time)) i = inject_Z (nth i time 0%Z)).
      { intros i Hi. unfold at_. change 0%Q with (inject_Z 0). rewrite (map_nth inject_Z), removelast_nth by lia. reflexivity. }
      assert (AD : forall i, (i < n - 1)%nat -> at_ (removelast d) i = at_ d i) by (intros i Hi; apply at_removelast; lia).
      destruct (removelast d) as [|x0 xs] eqn:RD; [cbn [length] in Ld; lia|]. destruct (map inject_Z (removelast time)) as [|f0 fs] eqn:RT; [cbn [length] in Lt; lia|].
      exists x0, xs, f0, fs. split; [reflexivity|]. split; [reflexivity|]. split; [|split; [|split; [|split]]].
      - apply steep_of; [cbn [length] in Ld, Lt; lia| |].
        + intros i Hi. rewrite Ld in Hi. rewrite !AD by lia. apply d_mono. lia.
        + intros i Hi. rewrite Ld in Hi. rewrite !AD, !AT by lia. apply SL. lia.
      - exact (AD 0%nat ltac:(lia)).
      - exact (AT 0%nat ltac:(lia)).
      - rewrite <- (AD (n - 2)%nat) by lia. replace (n - 2)%nat with (length xs) by (cbn [length] in Ld; lia). clear.
        destruct (exists_last (l := x0 :: xs)) as (l & a & E); [discriminate|]. assert (E2 := E). apply (f_equal (@length Q)) in E2. rewrite app_length in E2. cbn [length] in E2.
        unfold at_. rewrite E. rewrite app_nth2 by lia. replace (length xs - length l)%nat with 0%nat by lia.
        destruct xs as [|x1 xs]; [destruct l; [injection E as ->; reflexivity|destruct l; discriminate]|]. destruct l as [|b l]; [discriminate|].
        injection E as -> E. rewrite E. rewrite last_last. reflexivity.
      - rewrite <- (AT (n - 2)%nat) by lia. replace (n - 2)%nat with (length fs) by (cbn [length] in Lt; lia). clear.
        destruct (exists_last (l := f0 :: fs)) as (l & a & E); [discriminate|]. assert (E2 := E). apply (f_equal (@length Q)) in E2. rewrite app_length in E2. cbn [length] in E2.
        unfold at_. rewrite E. rewrite app_nth2 by lia. replace (length fs - length l)%nat with 0%nat by lia.
        destruct fs as [|x1 xs]; [destruct l; [injection E as ->; reflexivity|destruct l; discriminate]|]. destruct l as [|b l]; [discriminate|].
        injection E as -> E. rewrite E. rewrite last_last. reflexivity.
    Qed.
    Lemma time_at k : (k < length (o_x_al o))%nat ->
      nth k (o_time o) 0 = Qfloor (at_x (at_ (o_x_al o) k)) /\ (inject_Z (nth 0 time 0%Z) <= at_x (at_ (o_x_al o) k))%Q /\
      (at_x (at_ (o_x_al o) k) <= inject_Z (nth (n - 2) time 0%Z))%Q.
    Proof.
      intro K. destruct finish_shape as (N2 & OX & B & A1 & A2 & OT). destruct points as (_ & _ & _ & PT & _). destruct (PT k K) as [PX PB].
      destruct (resolution_num _ _ R) as [_ RP].
      destruct lists as (x0 & xs & f0 & fs & E1 & E2 & ST & X0 & F0 & LX & LF).
      assert (KX : (x0 <= at_ (o_x_al o) k)%Q).
      { rewrite PX, X0. assert (0 <= inject_Z (Z.of_nat k))%Q by (rewrite <- (Zle_Qle 0); lia). nra. }
      assert (LO : (inject_Z (nth 0 time 0%Z) <= at_x (at_ (o_x_al o) k))%Q).
      { unfold at_x. rewrite E1, E2, <- F0. eapply segments_low; [exact ST|exact S0|exact KX]. }
      split; [|split; [exact LO|]].
      - rewrite OT. rewrite map_map. rewrite (nth_indep _ 0 ((fun x => py_int (at_x x)) 0%Q)) by (rewrite map_length; exact K). rewrite (map_nth (fun x => py_int (at_x x))).
        apply py_int_floor. eapply Qle_trans; [|exact LO]. rewrite <- (Zle_Qle 0). exact T0.
      - unfold at_x. rewrite E1, E2, <- LF. eapply segments_high; [exact ST|exact S0|exact KX].
    Qed.
    Lemma time_steps i j : (i <= j)%nat -> (j < length (o_x_al o))%nat ->
      (s * (at_ (o_x_al o) j - at_ (o_x_al o) i) <= at_x (at_ (o_x_al o) j) - at_x (at_ (o_x_al o) i))%Q.
    Proof.
      intros IJ J. destruct points as (_ & _ & _ & PT & _). destruct (PT i ltac:(lia)) as [PX PB]. destruct (PT j J) as [QX QB].
      destruct (resolution_num _ _ R) as [_ RP]. destruct lists as (x0 & xs & f0 & fs & E1 & E2 & ST & X0 & F0 & LX & LF).
      unfold at_x. rewrite E1, E2. assert (I0 : (0 <= inject_Z (Z.of_nat i))%Q) by (rewrite <- (Zle_Qle 0); lia).
      assert (IJQ : (inject_Z (Z.of_nat i) <= inject_Z (Z.of_nat j))%Q) by (rewrite <- Zle_Qle; lia).
      apply segments_steep; [exact ST|exact S0| | |rewrite LX; lra].
      - rewrite PX, X0. nra.
      - rewrite PX, QX. nra.
    Qed.
  End Slope.
End Finish.

(** The points are a given distance apart (in kilometers), from the first point of the ephemeris up to its last but one
    point, not included; every field has one value for each of them. *)
Theorem C133_points : forall interp curvilinear lon lat time res step o,
  one_each interp -> along_track curvilinear -> length lon = length lat -> length time = length lat -> resolution res step ->
  finish interp curvilinear lon lat time res = Ok o ->
  let km i := (at_ (curvilinear lon lat) i * (1 # 1000))%Q in
  let m := length (o_x_al o) in
  length (o_lon o) = m /\ length (o_lat o) = m /\ length (o_time o) = m /\
  (forall k, (k < m)%nat -> (at_ (o_x_al o) k == km 0%nat + inject_Z (Z.of_nat k) * step)%Q /\ (at_ (o_x_al o) k < km (length lat - 2)%nat)%Q) /\
  (km (length lat - 2)%nat <= km 0%nat + inject_Z (Z.of_nat m) * step)%Q.
Proof.
  intros interp curvilinear lon lat time res step o H1 H2 L1 L2 R F km m.
  destruct (points interp curvilinear H1 H2 lon lat time res step o L1 L2 R F) as (A & B & C & D & E).
  destruct (finish_shape interp curvilinear H1 H2 lon lat time res step o L1 L2 R F) as (N2 & _).
  destruct (H2 lon lat L1) as [G _]. rewrite !at_map in * by lia. unfold zlen in E. split; [exact A|]. split; [exact B|]. split; [exact C|]. split; [|exact E].
  intros k K. destruct (D k K) as [D1 D2]. rewrite D1 in *. split; [reflexivity|exact D2].
Qed.
Print Assumptions C133_points.

(** The times lie between those of the first and of the last but one points of the ephemeris and never decrease; they increase
    strictly when the satellite takes at least a nanosecond to go over each step. *)
Theorem C133_times : forall interp curvilinear lon lat time res step o,
  one_each interp -> along_track curvilinear -> length lon = length lat -> length time = length lat -> resolution res step ->
  finish interp curvilinear lon lat time res = Ok o -> increasing time -> 0 <= nth 0 time 0 ->
  (forall i j, (i <= j)%nat -> (j < length (o_time o))%nat ->
     nth 0 time 0 <= nth i (o_time o) 0 <= nth j (o_time o) 0 /\ nth j (o_time o) 0 <= nth (length lat - 2) time 0) /\
  ((forall i, (S (S i) < length lat)%nat ->
      (at_ (curvilinear lon lat) (S i) - at_ (curvilinear lon lat) i) * (1 # 1000) <= step * (inject_Z (nth (S i) time 0%Z) - inject_Z (nth i time 0%Z)))%Q ->
   increasing (o_time o)).
Proof.
  intros interp curvilinear lon lat time res step o H1 H2 L1 L2 R F I T0.
  destruct (finish_shape interp curvilinear H1 H2 lon lat time res step o L1 L2 R F) as (N2 & _).
  destruct (points interp curvilinear H1 H2 lon lat time res step o L1 L2 R F) as (_ & _ & LT & PT & _).
  destruct (H2 lon lat L1) as [G _]. destruct (resolution_num _ _ R) as [_ RP].
  assert (S0 : forall i, (S (S i) < length lat)%nat -> (0 * (at_ (map (fun v => v * (1 # 1000))%Q (curvilinear lon lat)) (S i) - at_ (map (fun v => v * (1 # 1000))%Q (curvilinear lon lat)) i) <= inject_Z (nth (S i) time 0%Z) - inject_Z (nth i time 0%Z))%Q).
  { intros i Hi. assert (X := I i (S i) ltac:(lia) ltac:(lia)). rewrite Zlt_Qlt in X. lra. }
  split.
  - intros i j IJ J. rewrite LT in J.
    destruct (time_at interp curvilinear H1 H2 lon lat time res step o L1 L2 R F T0 0%Q (Qle_refl _) S0 i ltac:(lia)) as (Ei & Li & Ui).
    destruct (time_at interp curvilinear H1 H2 lon lat time res step o L1 L2 R F T0 0%Q (Qle_refl _) S0 j J) as (Ej & Lj & Uj).
    assert (ST := time_steps interp curvilinear H1 H2 lon lat time res step o L1 L2 R F 0%Q (Qle_refl _) S0 i j IJ J).
    rewrite Ei, Ej. split; [split|].
    + apply floor_mono in Li. rewrite Qfloor_Z in Li. exact Li.
    + apply floor_mono. rewrite Qmult_0_l in ST. match type of ST with (0 <= ?a - ?b)%Q => generalize dependent a; generalize dependent b end. intros; lra.
    + apply floor_mono in Uj. rewrite Qfloor_Z in Uj. exact Uj.
  - intros SL i j IJ J. rewrite LT in J.
    assert (SP : (0 <= / step)%Q) by (apply Qlt_le_weak, Qinv_lt_0_compat; exact RP).
    assert (S1 : forall i, (S (S i) < length lat)%nat -> (/ step * (at_ (map (fun v => v * (1 # 1000))%Q (curvilinear lon lat)) (S i) - at_ (map (fun v => v * (1 # 1000))%Q (curvilinear lon lat)) i) <= inject_Z (nth (S i) time 0%Z) - inject_Z (nth i time 0%Z))%Q).
    { intros k Hk. specialize (SL k Hk). rewrite !at_map by lia. set (a := at_ (curvilinear lon lat) (S k)) in *. set (b := at_ (curvilinear lon lat) k) in *.
      setoid_replace (/ step * (a * (1 # 1000) - b * (1 # 1000)))%Q with (((a - b) * (1 # 1000)) / step)%Q by (field; lra).
      apply Qle_shift_div_r; [exact RP|]. eapply Qle_trans; [exact SL|]. rewrite Qmult_comm. apply Qle_refl. }
    destruct (time_at interp curvilinear H1 H2 lon lat time res step o L1 L2 R F T0 _ SP S1 i ltac:(lia)) as (Ei & Li & Ui).
    destruct (time_at interp curvilinear H1 H2 lon lat time res step o L1 L2 R F T0 _ SP S1 j J) as (Ej & Lj & Uj).
    assert (ST := time_steps interp curvilinear H1 H2 lon lat time res step o L1 L2 R F _ SP S1 i j ltac:(lia) J).
    rewrite Ei, Ej. apply floor_step. eapply Qle_trans; [|exact ST]. destruct (PT i ltac:(lia)) as [-> _]. destruct (PT j J) as [-> _].
    match goal with |- (1 <= / step * (?a + ?x * step - (?a + ?y * step)))%Q => setoid_replace (/ step * (a + x * step - (a + y * step)))%Q with (x - y)%Q by (field; lra) end.
    rewrite <- (Qplus_le_l _ _ (inject_Z (Z.of_nat i))). setoid_replace (inject_Z (Z.of_nat j) - inject_Z (Z.of_nat i) + inject_Z (Z.of_nat i))%Q with (inject_Z (Z.of_nat j)) by ring.
    change 1%Q with (inject_Z 1). rewrite <- inject_Z_plus, <- Zle_Qle. lia.
Qed.
Print Assumptions C133_times.

(** Between two points of the ephemeris, the time is the linear interpolation, truncated to the nanosecond. *)
Theorem C133_interpolated : forall interp curvilinear lon lat time res step o,
  one_each interp -> along_track curvilinear -> length lon = length lat -> length time = length lat -> resolution res step ->
  finish interp curvilinear lon lat time res = Ok o -> increasing time -> 0 <= nth 0 time 0 ->
  let km i := (at_ (curvilinear lon lat) i * (1 # 1000))%Q in
  let t i := inject_Z (nth i time 0) in
  forall k i, (k < length (o_time o))%nat -> (S (S i) < length lat)%nat -> (km i <= at_ (o_x_al o) k)%Q -> (at_ (o_x_al o) k < km (S i))%Q ->
  exists v, ((v - t i) * (km (S i) - km i) == (t (S i) - t i) * (at_ (o_x_al o) k - km i))%Q /\
            (inject_Z (nth k (o_time o) 0%Z) <= v)%Q /\ (v < inject_Z (nth k (o_time o) 0%Z) + 1)%Q.
Proof.
  intros interp curvilinear lon lat time res step o H1 H2 L1 L2 R F I T0 km t k i K Hi A B.
  destruct (points interp curvilinear H1 H2 lon lat time res step o L1 L2 R F) as (_ & _ & LT & _). rewrite LT in K.
  destruct (H2 lon lat L1) as [G _]. assert (DL : length (map (fun v => v * (1 # 1000))%Q (curvilinear lon lat)) = length lat) by (rewrite map_length; lia).
  assert (DM : q_nondecreasing (map (fun v => v * (1 # 1000))%Q (curvilinear lon lat))) by (eapply d_mono; eassumption).
  assert (S0 : forall i, (S (S i) < length lat)%nat -> (0 * (at_ (map (fun v => v * (1 # 1000))%Q (curvilinear lon lat)) (S i) - at_ (map (fun v => v * (1 # 1000))%Q (curvilinear lon lat)) i) <= inject_Z (nth (S i) time 0%Z) - inject_Z (nth i time 0%Z))%Q).
  { intros j Hj. assert (X := I j (S j) ltac:(lia) ltac:(lia)). rewrite Zlt_Qlt in X. lra. }
  destruct (time_at interp curvilinear H1 H2 lon lat time res step o L1 L2 R F T0 0%Q (Qle_refl _) S0 k K) as (E & _).
  rewrite E. match type of E with _ = Qfloor ?v => exists v end. split; [|split; [apply floor_le|apply floor_gt]].
  set (d := map (fun v => v * (1 # 1000))%Q (curvilinear lon lat)) in *.
  assert (AD : forall j, (j < length lat - 1)%nat -> at_ (removelast d) j = km j).
  { intros j Hj. rewrite at_removelast by lia. unfold d. rewrite at_map by lia. reflexivity. }
  assert (AT : forall j, (j < length lat - 1)%nat -> at_ (map inject_Z (removelast time)) j = t j).
  { intros j Hj. unfold at_. change 0%Q with (inject_Z 0). rewrite (map_nth inject_Z), removelast_nth by lia. reflexivity. }
  assert (LD : length (removelast d) = (length lat - 1)%nat) by (rewrite removelast_len; lia).
  assert (LI : length (map inject_Z (removelast time)) = (length lat - 1)%nat) by (rewrite map_length, removelast_len; lia).
  assert (ND : q_nondecreasing (removelast d)).
  { intros j Hj. rewrite LD in Hj. rewrite !at_removelast by lia. apply DM. lia. }
  destruct (removelast d) as [|x0 xs]; [cbn [length] in LD; lia|]. destruct (map inject_Z (removelast time)) as [|f0 fs]; [cbn [length] in LI; lia|].
  rewrite (segments_at xs fs x0 f0 (at_ (o_x_al o) k) i); [|cbn [length] in LD, LI; lia|exact ND|rewrite LD; lia|rewrite AD by lia; exact A|rewrite AD by lia; exact B].
  rewrite !AD, !AT by lia. field. lra.
Qed.
Print Assumptions C133_interpolated.

(** The positions are those of the interpolation, along the track, of the points of the ephemeris but the last. *)
Theorem C133_positions : forall interp curvilinear lon lat time res o,
  finish interp curvilinear lon lat time res = Ok o ->
  interp 10%nat (removelast lon) (removelast lat) (removelast (map (fun v => v * (1 # 1000))%Q (curvilinear lon lat))) (o_x_al o) = Ok (o_lon o, o_lat o).
Proof.
  intros interp curvilinear lon lat time res o F. unfold finish in F.
  destruct (py_nth _ 0) as [a|w|w]; cbn [obind] in F; try discriminate. destruct (py_nth _ (-2)) as [b|w|w]; cbn [obind] in F; try discriminate.
  destruct (interp _ _ _ _ _) as [[u v]|w|w] eqn:E; cbn [obind] in F; try discriminate. destruct (np_interp _ _ _) as [t|w|w]; cbn [obind] in F; try discriminate.
  unfold build_orbit in F. destruct (calculate_pass_time _ _); cbn [obind] in F; try discriminate. injection F as <-. cbn [o_x_al o_lon o_lat]. exact E.
Qed.
Print Assumptions C133_positions.

(** A resolution of zero is that by default (2 km). *)
Theorem C133_zero_resolution : forall interp curvilinear lon lat time,
  finish interp curvilinear lon lat time (Some 0%Q) = finish interp curvilinear lon lat time None /\
  finish interp curvilinear lon lat time (Some 2%Q) = finish interp curvilinear lon lat time None.
Proof. intros. split; reflexivity. Qed.
Print Assumptions C133_zero_resolution.

(** ** The preparation of the ephemeris *)
Lemma sorted_increasing l : StronglySorted Z.lt l -> increasing l.
Proof.
  induction 1 as [|a l H IH F]; intros i j IJ J; [cbn [length] in J; lia|]. destruct j as [|j]; [lia|]. cbn [length] in J. destruct i as [|i].
  - cbn [nth]. rewrite Forall_forall in F. apply F. apply nth_In. lia.
  - cbn [nth]. apply IH; lia.
Qed.
Lemma take_len {A} (d : A) l ix : length (take d l ix) = length ix.
Proof. apply map_length. Qed.
Lemma z_arange_increasing a b s : 0 < s -> increasing (z_arange a b s).
Proof.
  intros S0 i j IJ J. unfold z_arange in *. rewrite map_length, z_range_length in J.
  rewrite !(nth_indep _ 0 ((fun k => a + k * s) 0)) by (rewrite map_length, z_range_length; lia). rewrite !(map_nth (fun k => a + k * s)), !z_range_nth by lia. nia.
Qed.
Lemma z_arange_in a b s t : 0 < s -> In t (z_arange a b s) -> a <= t < b.
Proof.
  intros S0 H. unfold z_arange in H. apply in_map_iff in H as (k & <- & H). unfold z_range in H. apply in_map_iff in H as (m & <- & H). apply in_seq in H.
  assert (K : Z.of_nat m < - ((a - b) / s)) by lia. assert (D := Z.mul_div_le (a - b) s S0). assert (E := Z.mod_pos_bound (a - b) s S0). assert (G := Z.div_mod (a - b) s ltac:(lia)). nia.
Qed.
Lemma increasing_first l t : increasing l -> In t l -> nth 0 l 0 <= t.
Proof.
  intros I H. apply (In_nth _ _ 0) in H as (k & K & <-). destruct k as [|k]; [lia|]. specialize (I 0%nat (S k) ltac:(lia) K). lia.
Qed.
Lemma take_in {A} (d : A) l ix x : (forall i, In i ix -> (i < length l)%nat) -> In x (take d l ix) -> In x l.
Proof. intros H I. unfold take in I. apply in_map_iff in I as (i & <- & I). apply nth_In. apply H. exact I. Qed.
Lemma trim_len {A B} (d : A) (e : B) lat l m : length l = length m -> length (trim_start d lat l) = length (trim_start e lat m).
Proof. intro H. unfold trim_start. destruct lat; [exact H|]. destruct (_ && _); [|exact H]. rewrite !take_len. reflexivity. Qed.
Lemma tl_sorted (l : list nat) : StronglySorted lt l -> StronglySorted lt (tl l).
Proof. intro H. destruct H; [constructor|exact H]. Qed.
Lemma trim_increasing lat time : length time = length lat -> increasing time -> increasing (trim_start 0 lat time).
Proof.
  intros L I. unfold trim_start. destruct lat as [|y lt] eqn:E; [exact I|]. destruct (_ && _); [|exact I]. rewrite <- E in *.
  apply sorted_increasing. apply take_sorted; [exact I|apply tl_sorted; unfold turns; apply where_sorted|].
  intros i H. assert (H' : In i (turns lat)) by (destruct (turns lat); [contradiction|right; exact H]). apply turns_In in H'. lia.
Qed.
Lemma trim_in lat time t : length time = length lat -> In t (trim_start 0 lat time) -> In t time.
Proof.
  intros L. unfold trim_start. destruct lat as [|y lt] eqn:E; [auto|]. destruct (_ && _); [|auto]. rewrite <- E in *. apply take_in.
  intros i H. assert (H' : In i (turns lat)) by (destruct (turns lat); [contradiction|right; exact H]). apply turns_In in H'. lia.
Qed.

(** The ephemeris that is kept: one longitude, one latitude and one time for each point, increasing times that belong to
    the span of the ephemeris given, before the end of the cycle. *)
Theorem C133_prepared : forall normalize interp lon lat time cycle lon1 lat1 time1,
  one_each interp -> length lon = length lat -> length time = length lat -> increasing time ->
  prepare normalize interp lon lat time cycle = Ok (lon1, lat1, time1) ->
  length lon1 = length lat1 /\ length time1 = length lat1 /\ increasing time1 /\
  (forall t, In t time1 -> nth 0 time 0 <= t <= last time 0 /\ (forall c, cycle = Some c -> t < c)).
Proof.
  intros normalize interp lon lat time cycle lon1 lat1 time1 H1 L1 L2 I. unfold prepare.
  destruct (py_nth lat 0) as [y|w|w]; cbn [obind]; try discriminate.
  set (lon' := trim_start 0%Q lat lon). set (lat' := trim_start 0%Q lat lat). set (time' := trim_start 0 lat time).
  assert (A1 : length lon' = length lat') by (apply trim_len; exact L1). assert (A2 : length time' = length lat') by (apply trim_len; exact L2).
  assert (I' : increasing time') by (apply trim_increasing; assumption).
  assert (B' : forall t, In t time' -> nth 0 time 0 <= t <= last time 0).
  { intros t H. apply trim_in in H; [|exact L2]. split; [apply increasing_first; assumption|]. apply (In_nth _ _ 0) in H as (k & K & <-).
    rewrite OrbitProofs.last_nth. destruct (Nat.eq_dec k (length time - 1)) as [->|N]; [lia|]. specialize (I k (length time - 1)%nat ltac:(lia) ltac:(lia)). lia. }
  clearbody lon' lat' time'.
  assert (R : forall x, resample interp (map normalize lon') lat' time' = Ok x ->
    length (fst (fst x)) = length (snd (fst x)) /\ length (snd x) = length (snd (fst x)) /\ increasing (snd x) /\ forall t, In t (snd x) -> nth 0 time 0 <= t <= last time 0).
  { intros x. unfold resample. destruct ((2 <=? length time')%nat && _) eqn:C.
    - destruct (interp _ _ _ _ _) as [[u v]|w|w] eqn:EI; cbn [obind]; try discriminate. intros [= <-]. cbn [fst snd].
      destruct (H1 _ _ _ _ _ _ _ EI) as [G1 G2]. rewrite map_length in G1, G2. split; [lia|]. split; [lia|]. split; [apply z_arange_increasing; unfold half_second; lia|].
      intros t H. apply z_arange_in in H; [|unfold half_second; lia]. apply andb_true_iff in C as [C _]. apply Nat.leb_le in C.
      destruct time' as [|a tt] eqn:ET; [cbn [length] in C; lia|]. rewrite <- ET in *. cbn [hd] in H.
      assert (X : In a time') by (rewrite ET; left; reflexivity). assert (Y : In (last time' 0) time') by (rewrite OrbitProofs.last_nth; apply nth_In; lia).
      rewrite ET in H at 1. cbn [hd] in H. specialize (B' _ X) as BX. specialize (B' _ Y) as BY. lia.
    - intros [= <-]. cbn [fst snd]. rewrite map_length. auto. }
  destruct (resample interp (map normalize lon') lat' time') as [[[u v] t1]|w|w]; cbn [obind]; try discriminate.
  destruct (R _ eq_refl) as (G1 & G2 & G3 & G4). cbn [fst snd] in *. intros [= E]. unfold cut in E. destruct cycle as [c|].
  - injection E as <- <- <-. rewrite !take_len. split; [reflexivity|]. split; [reflexivity|].
    assert (W : forall i, In i (where_ (map (fun t => t <? c) t1)) -> (i < length t1)%nat /\ nth i t1 0 < c).
    { intros i H. rewrite where_In in H. destruct (Nat.ltb_spec i (length t1)) as [K|K].
      - split; [exact K|]. rewrite (nth_indep _ false ((fun t => t <? c) 0)) in H by (rewrite map_length; exact K). rewrite (map_nth (fun t => t <? c)) in H. lia.
      - rewrite nth_overflow in H by (rewrite map_length; exact K). discriminate. }
    split.
    + apply sorted_increasing. apply take_sorted; [exact G3|apply where_sorted|]. intros i H. apply W. exact H.
    + intros t H. split.
      * apply G4. apply take_in in H; [exact H|]. intros i J. apply W. exact J.
      * intros c' [= <-]. unfold take in H. apply in_map_iff in H as (i & <- & H). apply W. exact H.
  - injection E as <- <- <-. split; [exact G1|]. split; [exact G2|]. split; [exact G3|]. intros t H. split; [apply G4; exact H|discriminate].
Qed.
Print Assumptions C133_prepared.

(** ** The rearrangement in the cycle *)
Lemma rearrange_inv lon lat time lon' lat' time' : (2 <= length lat)%nat -> length time = length lat ->
  rearrange lon lat time = Ok (lon', lat', time') ->
  rearrange_orbit (last time 0 + nth 1 time 0 - nth 0 time 0) lon lat time = Ok (lon', lat', time').
Proof.
  intros N L H. unfold rearrange in H.
  destruct (py_nth time (-1)) as [a|w|w] eqn:A; cbn [obind] in H; try discriminate. destruct (py_nth time 1) as [b|w|w] eqn:B; cbn [obind] in H; try discriminate.
  destruct (py_nth time 0) as [c|w|w] eqn:C; cbn [obind] in H; try discriminate.
  destruct (py_nth_ok _ _ _ 0 A) as [-> _]. destruct (py_nth_ok _ _ _ 0 B) as [-> _]. destruct (py_nth_ok _ _ _ 0 C) as [-> _].
  cbn [Z.ltb Z.compare] in H. unfold zlen in H. rewrite OrbitProofs.last_nth. replace (Z.to_nat (-1 + Z.of_nat (length time))) with (length time - 1)%nat in H by lia. exact H.
Qed.
Lemma rearrange_two lon lat time r : length time = length lat -> rearrange lon lat time = Ok r -> (2 <= length lat)%nat.
Proof.
  intros L H. unfold rearrange in H. destruct (py_nth time (-1)) as [a|w|w]; cbn [obind] in H; try discriminate.
  destruct (py_nth time 1) as [b|w|w] eqn:B; cbn [obind] in H; try discriminate. destruct (py_nth_ok _ _ _ 0 B) as [_ X]. cbn in X. unfold zlen in X. lia.
Qed.

(** The times still increase after the rearrangement. *)
Theorem C133_rearranged : forall lon lat time lon' lat' time',
  length lon = length lat -> length time = length lat -> increasing time -> 0 <= nth 0 time 0 ->
  rearrange lon lat time = Ok (lon', lat', time') ->
  length lon' = length lat /\ length lat' = length lat /\ length time' = length lat /\ increasing time' /\ 0 <= nth 0 time' 0.
Proof.
  intros lon lat time lon' lat' time' L1 L2 I T0 H. assert (N := rearrange_two _ _ _ _ L2 H). apply rearrange_inv in H; [|exact N|exact L2].
  assert (T1 : nth 0 time 0 < nth 1 time 0) by (apply I; lia).
  assert (TN : nth 0 time 0 < nth (length lat - 1) time 0) by (apply I; lia).
  rewrite OrbitProofs.last_nth, L2 in H. set (cyc := nth (length lat - 1) time 0 + nth 1 time 0 - nth 0 time 0) in *. assert (CP : 0 < cyc) by (unfold cyc; lia).
  assert (Q1 := south_turns_In lat). assert (Q2 := where_sorted (south_mask (dy_of lat))). fold (south_turns lat) in Q2.
  destruct (south_turns lat) as [|i [|j l]] eqn:E.
  - unfold rearrange_orbit in H. rewrite E in H. discriminate.
  - assert (A : (i < length lat)%nat /\ after_south lat i) by (apply Q1; left; reflexivity).
    destruct (C90_single_turn cyc lon lat time i CP L1 L2 (proj1 A) (proj2 A)) as (u & v & w & R & LA & LB & LC & _ & W0 & _ & INC).
    { intros k K AK. assert (X : In k [i]) by (apply Q1; split; assumption). destruct X as [X|[]]. congruence. }
    rewrite R in H. injection H as <- <- <-. split; [exact LA|]. split; [exact LB|]. split; [exact LC|]. split; [|lia]. apply INC; [exact I|]. unfold cyc. lia.
  - assert (A : (i < length lat)%nat /\ after_south lat i) by (apply Q1; left; reflexivity).
    assert (B : (j < length lat)%nat /\ after_south lat j) by (apply Q1; right; left; reflexivity).
    assert (IJ : i <> j) by (inversion Q2 as [|? ? _ F]; subst; inversion F; subst; lia).
    rewrite (C90_unchanged cyc lon lat time i j (proj1 A) (proj1 B) IJ (proj2 A) (proj2 B)) in H. injection H as <- <- <-. repeat split; auto.
Qed.
Print Assumptions C133_rearranged.

(** Where the end of the ephemeris is followed by its beginning, the step is the second TIME of the ephemeris... *)
Theorem C133_seam : forall lon lat time lon' lat' time' i,
  length lon = length lat -> length time = length lat -> increasing time -> 0 <= nth 0 time 0 ->
  (i < length lat)%nat -> after_south lat i -> (forall j, (j < length lat)%nat -> after_south lat j -> j = i) -> (0 < i)%nat ->
  rearrange lon lat time = Ok (lon', lat', time') ->
  nth (length lat - i) time' 0 - nth (length lat - 1 - i) time' 0 = nth 1 time 0 /\
  (forall m, (S m < length lat - i)%nat -> nth (S m) time' 0 - nth m time' 0 = nth (S m + i) time 0 - nth (m + i) time 0).
Proof.
  intros lon lat time lon' lat' time' i L1 L2 I T0 Hi Ai U I0 H. assert (N := rearrange_two _ _ _ _ L2 H). apply rearrange_inv in H; [|exact N|exact L2].
  assert (T1 : nth 0 time 0 < nth 1 time 0) by (apply I; lia).
  assert (TN : nth 0 time 0 < nth (length lat - 1) time 0) by (apply I; lia).
  rewrite OrbitProofs.last_nth, L2 in H. set (cyc := nth (length lat - 1) time 0 + nth 1 time 0 - nth 0 time 0) in *. assert (CP : 0 < cyc) by (unfold cyc; lia).
  destruct (C90_single_turn cyc lon lat time i CP L1 L2 Hi Ai U) as (u & v & w & R & _ & _ & _ & W & _). rewrite R in H. injection H as <- <- <-.
  assert (LE : forall p q, (p <= q)%nat -> (q < length lat)%nat -> nth p time 0 <= nth q time 0).
  { intros p q A B. destruct (Nat.eq_dec p q) as [->|]; [lia|]. specialize (I p q ltac:(lia) ltac:(lia)). lia. }
  assert (V : forall m, (m + i < length lat)%nat -> nth m w 0 = nth (m + i) time 0 - nth i time 0).
  { intros m Hm. destruct (W m ltac:(lia)) as (_ & _ & ->). rewrite Nat.mod_small by exact Hm. apply Z.mod_small.
    assert (A := LE i (m + i)%nat ltac:(lia) Hm). assert (B := LE (m + i)%nat (length lat - 1)%nat ltac:(lia) ltac:(lia)). assert (C := LE 0%nat i ltac:(lia) Hi). unfold cyc. lia. }
  split.
  - rewrite (V (length lat - 1 - i)%nat) by lia. replace (length lat - 1 - i + i)%nat with (length lat - 1)%nat by lia.
    destruct (W (length lat - i)%nat ltac:(lia)) as (_ & _ & ->). replace (length lat - i + i)%nat with (0 + 1 * length lat)%nat by lia. rewrite Nat.mod_add by lia. rewrite Nat.mod_small by lia.
    assert (B := LE i (length lat - 1)%nat ltac:(lia) ltac:(lia)). assert (A := I 0%nat i I0 ltac:(lia)).
    rewrite <- (Z_mod_plus_full _ 1), Z.mul_1_l, Z.mod_small; unfold cyc; lia.
  - intros m Hm. rewrite !V by lia. lia.
Qed.
Print Assumptions C133_seam.
(** ... which is the first step of the ephemeris only if it starts at the time zero: otherwise the satellite stands still, at
    this place of the orbit, during the time of the first point of the ephemeris. *)
Corollary C133_seam_refuted : forall lon lat time lon' lat' time' i,
  length lon = length lat -> length time = length lat -> increasing time -> 0 < nth 0 time 0 ->
  (i < length lat)%nat -> after_south lat i -> (forall j, (j < length lat)%nat -> after_south lat j -> j = i) -> (0 < i)%nat ->
  rearrange lon lat time = Ok (lon', lat', time') ->
  nth (length lat - i) time' 0 - nth (length lat - 1 - i) time' 0 = (nth 1 time 0 - nth 0 time 0) + nth 0 time 0 /\
  nth (length lat - i) time' 0 - nth (length lat - 1 - i) time' 0 <> nth 1 time 0 - nth 0 time 0.
Proof.
  intros lon lat time lon' lat' time' i L1 L2 I T0 Hi Ai U I0 H.
  destruct (C133_seam lon lat time lon' lat' time' i L1 L2 I ltac:(lia) Hi Ai U I0 H) as [E _]. rewrite E. lia.
Qed.
Print Assumptions C133_seam_refuted.

(** ** The whole construction *)
Theorem C133_orbit : forall normalize interp curvilinear lon lat time cycle res step o,
  one_each interp -> along_track curvilinear -> length lon = length lat -> length time = length lat -> increasing time -> 0 <= nth 0 time 0 ->
  resolution res step -> calculate_orbit normalize interp curvilinear lon lat time cycle res = Ok o ->
  let m := length (o_x_al o) in
  length (o_lon o) = m /\ length (o_lat o) = m /\ length (o_time o) = m /\
  (forall i j, (i <= j)%nat -> (j < m)%nat -> 0 <= nth i (o_time o) 0 <= nth j (o_time o) 0 /\
     (at_ (o_x_al o) j - at_ (o_x_al o) i == inject_Z (Z.of_nat (j - i)) * step)%Q) /\
  exists starts, calculate_pass_time (o_lat o) (o_time o) = Ok starts /\ o_pass_time o = sort_z starts.
Proof.
  intros normalize interp curvilinear lon lat time cycle res step o H1 H2 L1 L2 I T0 R H m. unfold calculate_orbit in H.
  destruct (prepare normalize interp lon lat time cycle) as [[[lon1 lat1] time1]|w|w] eqn:P; cbn [obind] in H; try discriminate.
  destruct (rearrange lon1 lat1 time1) as [[[lon2 lat2] time2]|w|w] eqn:RA; cbn [obind] in H; try discriminate.
  destruct (C133_prepared _ _ _ _ _ _ _ _ _ H1 L1 L2 I P) as (A1 & A2 & A3 & A4).
  assert (N := rearrange_two _ _ _ _ A2 RA).
  assert (T1 : 0 <= nth 0 time1 0) by (destruct (A4 (nth 0 time1 0)) as [X _]; [apply nth_In; lia|]; lia).
  destruct (C133_rearranged _ _ _ _ _ _ A1 A2 A3 T1 RA) as (B1 & B2 & B3 & B4 & B5).
  assert (E1 : length lon2 = length lat2) by lia. assert (E2 : length time2 = length lat2) by lia.
  destruct (C133_points _ _ _ _ _ _ _ _ H1 H2 E1 E2 R H) as (C1 & C2 & C3 & C4 & _).
  destruct (C133_times _ _ _ _ _ _ _ _ H1 H2 E1 E2 R H B4 B5) as [D _].
  split; [exact C1|]. split; [exact C2|]. split; [exact C3|]. split.
  - intros i j IJ J. destruct (D i j IJ ltac:(lia)) as [D1 _]. split; [lia|]. destruct (C4 i ltac:(lia)) as [-> _]. destruct (C4 j J) as [-> _].
    rewrite Nat2Z.inj_sub by lia. unfold Zminus. rewrite inject_Z_plus, inject_Z_opp. ring.
  - destruct (finish_shape interp curvilinear H1 H2 lon2 lat2 time2 res step o E1 E2 R H) as (_ & _ & B & _).
    unfold build_orbit in B. destruct (calculate_pass_time _ _) as [pt|w|w]; cbn [obind] in B; try discriminate. exists pt. split; [reflexivity|].
    injection B as B. rewrite <- B at 1. cbn. congruence.
Qed.
Print Assumptions C133_orbit.

(** A track of ten points with one southern turning point, a kilometer apart, resampled every 500 m. *)
Definition ex_interp (h : nat) (lon lat xp xi : list Q) : outcome (list Q * list Q) :=
  Ok (map (fun x => nth (Z.to_nat (Qfloor x)) lon 0%Q) xi, map (fun x => nth (Z.to_nat (Qfloor x)) lat 0%Q) xi).
Definition ex_curvilinear (lon lat : list Q) : list Q := map (fun i => inject_Z (1000 * Z.of_nat i)) (seq 0 (length lon)).
Definition ex_lat : list Q := [-45; -60; -45; 0; 45; 60; 50; 30; 0; -30]%Q.
Definition ex_time : list Z := [0; 100; 200; 300; 400; 500; 600; 700; 800; 900].
Example C133_ex :
  one_each ex_interp /\ along_track ex_curvilinear /\ increasing ex_time /\ resolution (Some (1 # 2)) (1 # 2) /\
  exists o, calculate_orbit (fun x => x) ex_interp ex_curvilinear (map inject_Z ex_time) ex_lat ex_time None (Some (1 # 2)) = Ok o /\
  o_time o = [0; 50; 100; 150; 200; 250; 300; 350; 400; 450; 500; 550; 600; 650; 700; 750] /\
  after_south ex_lat 2.
Proof.
  split; [|split; [|split; [|split]]].
  - intros h lon lat xp xi a b [= <- <-]. rewrite !map_length. auto.
  - intros lon lat L. unfold ex_curvilinear. split; [rewrite map_length, seq_length; reflexivity|]. intros i Hi. rewrite map_length, seq_length in Hi.
    assert (A : forall k, (k < length lon)%nat -> at_ (map (fun i => inject_Z (1000 * Z.of_nat i)) (seq 0 (length lon))) k = inject_Z (1000 * Z.of_nat k)).
    { intros k K. unfold at_. rewrite (nth_indep _ 0%Q ((fun i => inject_Z (1000 * Z.of_nat i)) 0%nat)) by (rewrite map_length, seq_length; lia).
      rewrite (map_nth (fun i => inject_Z (1000 * Z.of_nat i))), seq_nth by lia. reflexivity. }
    rewrite !A by lia. rewrite <- Zle_Qle. lia.
  - apply sorted_increasing. repeat constructor.
  - split; [reflexivity|reflexivity].
  - eexists. split; [vm_compute; reflexivity|]. split; [reflexivity|]. split; [|intro C]; unfold northward, at_, before in *; simpl in *; lra.
Qed.
