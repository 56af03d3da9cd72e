(** Interpolation of arrays of points in grids (C124). *)
From Verif Require GeohashModel DateModel TemporalModel TemporalProps.
From Verif Require Import Base BaseProofs MathModel MathProofs AxisModel IntAxisModel IntAxisProofs AxisSpec AxisProofs AxisProofs2 AxisProofs5
  GridModel GridSpec GridProofs GridProofs2 GridProofs3 GridProofs4 GridProps GridProps2 GridProps4 ThreadModel ThreadProofs ThreadProps VectorModel VectorProps GridVecModel.
Open Scope Z_scope.
Ltac Zify.zify_post_hook ::= idtac.

(** * Specification *)
(** One-dimensional arrays of [n] elements. *)
Definition vector (n : nat) (a : array) : Prop := ar_shape a = [Z.of_nat n] /\ length (ar_data a) = n.
(** What a call answers for [n] points, when [inside i] means that the point [i] is in the domain of the
    axes and [single i] is the value of the interpolation of this point alone. *)
Definition answers (n : nat) (inside : nat -> Prop) (single : nat -> option Q -> Prop) (bounds_error : bool) (r : outcome (list (option Q))) : Prop :=
  ((bounds_error = false \/ forall i, (i < n)%nat -> inside i) ->
     exists l, r = Ok l /\ length l = n /\
       forall i, (i < n)%nat -> exists v, nth_error l i = Some v /\ single i v /\ (~ inside i -> v = None)) /\
  (bounds_error = true -> (exists i, (i < n)%nat /\ ~ inside i) -> exists w, r = Throw w).
(** A call that is refused whatever the threads do. *)
Definition refused (f : outcome (list (option Q)) -> Prop) : Prop := (exists r, f r) /\ forall r, f r -> exists w, r = Throw w.
(** Arrays that are not all one-dimensional and of the same size. *)
Definition mismatched (l : list array) : Prop :=
  (exists a, In a l /\ length (ar_shape a) <> 1%nat) \/ (exists a b, In a l /\ In b l /\ ar_shape a <> ar_shape b).

(** * Proofs *)
Lemma found_reached : forall a x i0 i1, axis_ok a -> 1 < len a -> find_indexes a x = Ok (Some (i0, i1)) -> reached a x.
Proof.
  intros a x i0 i1 OK L F. unfold reached. destruct (is_angle a) eqn:An.
  - pose proof (proj1 OK) as W. pose proof (angle_circle a OK An) as Hc. destruct (normalize_angle_axis a x W Hc) as ((N1 & N2) & N3 & N4).
    destruct (find_indexes_spec a x _ OK L eq_refl N4) as (r & Hr & H). rewrite F in Hr. apply (f_equal (fun o => match o with Ok v => v | _ => None end)) in Hr. subst r.
    destruct H as (H0 & H1 & [(Ad & Bk & _)|(C & _)]); [right|left; exact C].
    exists (normalize_coordinate a x). split; [exact N3|].
    assert (A : forall i, 0 <= i < len a -> at_index a i (fval (a_cont a) i)) by (intros; apply at_index_iff; auto).
    unfold inside. destruct Bk as [B|B]; [exists i0, (fval (a_cont a) i0), i1, (fval (a_cont a) i1)|exists i1, (fval (a_cont a) i1), i0, (fval (a_cont a) i0)]; intuition auto.
  - assert (Hc : a_circle a = None) by (unfold is_angle in An; destruct (a_circle a); [discriminate|reflexivity]).
    destruct (find_indexes_plain a x OK L Hc) as (r & E & H). rewrite F in E. apply (f_equal (fun o => match o with Ok v => v | _ => None end)) in E. subst r.
    destruct H as ((v0 & v1 & A0 & A1 & _ & B) & _). destruct B as [B|B]; [exists i0, v0, i1, v1|exists i1, v1, i0, v0]; intuition auto.
Qed.
Lemma found_or_not : forall a x, axis_ok a -> 1 < len a ->
  (exists i0 i1, find_indexes a x = Ok (Some (i0, i1)) /\ 0 <= i0 < len a /\ 0 <= i1 < len a /\ reached a x) \/ (find_indexes a x = Ok None /\ ~ reached a x).
Proof.
  intros a x OK L. destruct (find_indexes_total a x OK L) as ([[i0 i1]|] & F).
  - left. exists i0, i1. split; [exact F|]. destruct (find_indexes_range a x i0 i1 OK L F). repeat split; try lia. eapply found_reached; eauto.
  - right. split; [exact F|]. intro R. destruct (reached_indexes a x OK L R) as (i0 & i1 & F' & _). rewrite F in F'. discriminate.
Qed.
Lemma z_found_or_not : forall az z, z_usable az -> z_coordinate az z ->
  (exists k0 k1 z0 z1, z_find_indexes az z = Ok (Some (k0, k1)) /\ 0 <= k0 < z_size az /\ 0 <= k1 < z_size az /\ z_at az k0 = Ok z0 /\ z_at az k1 = Ok z1 /\ z_inside az z) \/
  (z_find_indexes az z = Ok None /\ ~ z_inside az z).
Proof.
  intros az z U C. assert (T : exists r, z_find_indexes az z = Ok r).
  { destruct az as [a|ca]; cbn [z_find_indexes]; [apply find_indexes_total; [apply reachable_ok, U|apply U]|].
    destruct U as (L & l & As & U). destruct (i_find_indexes_spec ca (Qfloor z) (i_wf_usable ca l As U) L) as (r & F & _). eauto. }
  assert (D : z_inside az z \/ ~ z_inside az z).
  { destruct az as [a|ca].
    - assert (E : z_inside (ZReal a) z <-> inside a z) by (unfold z_inside, inside, z_at_index; tauto). rewrite E, inside_iff by apply reachable_ok, U. 
      destruct (Qlt_le_dec z (lo (a_cont a))), (Qlt_le_dec (hi (a_cont a)) z); lra.
    - destruct T as (r & F). cbn [z_find_indexes] in F. destruct C as (t & ->). rewrite Qfloor_Z in F. destruct U as (L & l & As & U).
      destruct (i_find_indexes_spec ca t (i_wf_usable ca l As U) L) as (r' & F' & H). destruct r' as [[k0 k1]|].
      + left. destruct H as (v0 & v1 & H0 & H1 & Ad & [B|B]).
        * exists k0, (inject_Z v0), k1, (inject_Z v1). rewrite <- !Zle_Qle. split; [exists v0; auto|]. split; [exists v1; auto|]. exact B.
        * exists k1, (inject_Z v1), k0, (inject_Z v0). rewrite <- !Zle_Qle. split; [exists v1; auto|]. split; [exists v0; auto|]. exact B.
      + right. intros (k & v & m & w & (v' & A1 & ->) & (w' & A2 & ->) & B1 & B2). apply H. rewrite <- Zle_Qle in B1, B2. exists k, v', m, w'. auto. }
  destruct D as [D|D]; [left|right; split; [apply z_find_out; auto|exact D]].
  destruct (z_find_in az z U C D) as (k0 & k1 & z0 & z1 & F & A0 & A1 & _). apply z_range in A0; [|exact U]. apply z_range in A1; [|exact U].
  exists k0, k1, z0, z1. intuition auto.
Qed.

(** One point. *)
Definition one (point : bool -> outcome (option Q)) (inside : Prop) : Prop :=
  ((exists v, forall be, point be = Ok v) /\ inside) \/ (~ inside /\ point false = Ok None /\ exists w, point true = Throw w).
Lemma single2 : forall d c ax ay arr g f x y, new_grid2 ax ay arr = Ok g -> reachable ax -> reachable ay -> 1 < len ax -> 1 < len ay ->
  one (fun be => bivariate d c g f be x y) (reached ax x /\ reached ay y).
Proof.
  intros d c ax ay arr g f x y G RX RY LX LY. pose proof (reachable_ok _ RX) as OX. pose proof (reachable_ok _ RY) as OY.
  destruct (found_or_not ax x OX LX) as [(i0 & i1 & FX & _ & _ & HX)|[FX HX]].
  - destruct (found_or_not ay y OY LY) as [(j0 & j1 & FY & _ & _ & HY)|[FY HY]].
    + left. split; [|tauto]. eexists. intro be. exact (biv_found d c ax ay arr g f be x y i0 i1 j0 j1 OX OY LX LY G FX FY).
    + right. split; [tauto|]. split; [|eexists]; rewrite (biv_missing d c ax ay arr g f _ x y G); eauto.
  - right. split; [tauto|]. pose proof (find_indexes_total ay y OY LY). split; [|eexists]; rewrite (biv_missing d c ax ay arr g f _ x y G); eauto.
Qed.
Lemma single3 : forall d c ax ay az arr g f zf x y z, new_grid3 ax ay az arr = Ok g -> reachable ax -> reachable ay -> 1 < len ax -> 1 < len ay -> z_usable az -> z_coordinate az z ->
  one (fun be => trivariate d c g f zf be x y z) (reached ax x /\ reached ay y /\ z_inside az z).
Proof.
  intros d c ax ay az arr g f zf x y z G RX RY LX LY U C. pose proof (reachable_ok _ RX) as OX. pose proof (reachable_ok _ RY) as OY.
  apply new_grid3_inv in G as (-> & S & _). unfold one, trivariate. cbn [g3_x g3_y g3_z g3_array].
  destruct (found_or_not ax x OX LX) as [(i0 & i1 & FX & I0 & I1 & HX)|[FX HX]], (found_or_not ay y OY LY) as [(j0 & j1 & FY & J0 & J1 & HY)|[FY HY]],
    (z_found_or_not az z U C) as [(k0 & k1 & z0 & z1 & FZ & K0 & K1 & Z0 & Z1 & HZ)|[FZ HZ]]; rewrite FX, FY, FZ; cbn [obind];
    try (right; split; [tauto|split; [reflexivity|eexists; reflexivity]]).
  left. split; [|tauto]. eexists. intro be. rewrite !axis_at_ok by (try apply OX; try apply OY; assumption). rewrite Z0, Z1. cbn [obind].
  rewrite !(grid_value3 arr _ _ _ _ _ _ S) by assumption. cbn [obind]. reflexivity.
Qed.
Lemma single4 : forall d c ax ay az au arr g f zf uf x y z u, new_grid4 ax ay az au arr = Ok g -> reachable ax -> reachable ay -> reachable au ->
  1 < len ax -> 1 < len ay -> 1 < len au -> z_usable az -> z_coordinate az z ->
  one (fun be => quadrivariate d c g f zf uf be x y z u) (reached ax x /\ reached ay y /\ z_inside az z /\ reached au u).
Proof.
  intros d c ax ay az au arr g f zf uf x y z u G RX RY RU LX LY LU U C. pose proof (reachable_ok _ RX) as OX. pose proof (reachable_ok _ RY) as OY. pose proof (reachable_ok _ RU) as OU.
  apply new_grid4_inv in G as (-> & S & _). unfold one, quadrivariate. cbn [g4_x g4_y g4_z g4_u g4_array].
  destruct (found_or_not ax x OX LX) as [(i0 & i1 & FX & I0 & I1 & HX)|[FX HX]], (found_or_not ay y OY LY) as [(j0 & j1 & FY & J0 & J1 & HY)|[FY HY]],
    (z_found_or_not az z U C) as [(k0 & k1 & z0 & z1 & FZ & K0 & K1 & Z0 & Z1 & HZ)|[FZ HZ]],
    (found_or_not au u OU LU) as [(h0 & h1 & FU & H0 & H1 & HU)|[FU HU]]; rewrite FX, FY, FZ, FU; cbn [obind];
    try (right; split; [tauto|split; [reflexivity|eexists; reflexivity]]).
  left. split; [|tauto]. eexists. intro be. rewrite !axis_at_ok by (try apply OX; try apply OY; try apply OU; assumption). rewrite Z0, Z1. cbn [obind].
  rewrite !(grid_value4 arr _ _ _ _ _ _ _ _ S) by assumption. cbn [obind]. reflexivity.
Qed.

(** The loop. *)
Lemma oseq_ok : forall (A : Type) (l : list (outcome A)) (m : list A), Forall2 (fun o v => o = Ok v) l m -> GeohashModel.oseq l = Ok m.
Proof. intros A l m H. induction H as [|o v l m -> _ IH]; [reflexivity|]. cbn [GeohashModel.oseq obind]. rewrite IH. reflexivity. Qed.
Lemma filled_ok : forall l n (v : Z -> outcome (option Q) -> Prop), values_of n v l -> (forall i r, v i r -> exists x, r = Ok x) ->
  exists m, filled l = Ok m /\ zlen m = n /\ forall i, 0 <= i < n -> exists x, nth_error m (Z.to_nat i) = Some x /\ v i (Ok x).
Proof.
  intros l n v [Hl Hv] Hok. 
  set (m := map (fun o => match o with Some (Ok x) => x | _ => None end) l). exists m. split; [|split].
  - unfold filled. apply oseq_ok. unfold m. clear m. 
    assert (A : forall o, In o l -> exists x, o = Some (Ok x)).
    { intros o I. apply In_nth_error in I as [k K]. assert (k < length l)%nat by (apply nth_error_Some; congruence).
      destruct (Hv (Z.of_nat k)) as (r & N & V); [unfold zlen in Hl; lia|]. rewrite Nat2Z.id in N. destruct (Hok _ _ V) as [x ->]. exists x. congruence. }
    clear - A. induction l as [|o l IH]; [constructor|]. cbn [map]. constructor; [|apply IH; intros; apply A; right; assumption].
    destruct (A o (or_introl eq_refl)) as [x ->]. reflexivity.
  - unfold m, zlen. rewrite map_length. exact Hl.
  - intros i Hi. destruct (Hv i Hi) as (r & N & V). destruct (Hok _ _ V) as [x ->]. exists x. split; [|exact V]. unfold m. rewrite nth_error_map, N. reflexivity.
Qed.
Lemma loop_spec : forall point size num hw, 0 <= size -> usual num hw ->
  (exists r, loop point size num hw r) /\
  forall r, loop point size num hw r ->
    ((forall i, 0 <= i < size -> exists v, point i = Ok v) ->
       exists l, r = Ok l /\ zlen l = size /\ forall i, 0 <= i < size -> exists v, nth_error l (Z.to_nat i) = Some v /\ point i = Ok v) /\
    ((exists i w, 0 <= i < size /\ point i = Throw w) -> exists w, r = Throw w).
Proof.
  intros point size num hw Hs U. split.
  - destruct (run_exists _ (fun ix => element (point ix)) size num hw Hs U) as [r R]. eexists. constructor. exact R.
  - intros r' L. inversion L as [r R E]. subst r'. clear L. split.
    + intro G. destruct (run_values _ _ _ _ _ _ Hs U R) as (l & -> & V).
      { intros i Hi. destruct (G i Hi) as [v E]. exists (Ok v). unfold element. rewrite E. reflexivity. }
      assert (V' : values_of size (fun i o => 0 <= i < size /\ element (point i) = inl o) l).
      { destruct V as [VL VV]. split; [exact VL|]. intros i Hi. destruct (VV i Hi) as (x & N & B). eauto. }
      destruct (filled_ok l size _ V') as (m & F & Hm & Vm).
      { intros i o (Hi & E). destruct (G i Hi) as [v E']. unfold element in E. rewrite E' in E. injection E as <-. eauto. }
      exists m. cbn [obind]. split; [exact F|]. split; [exact Hm|]. intros i Hi. destruct (Vm i Hi) as (x & N & _ & E). exists x. split; [exact N|].
      destruct (G i Hi) as [v E']. rewrite E' in *. unfold element in E. injection E as <-. reflexivity.
    + intros (i & w & Hi & E). destruct (run_throws _ _ _ _ _ _ Hs U R) as (w' & _ & -> & _); [|exists w'; reflexivity].
      exists i, w. split; [exact Hi|]. unfold element. rewrite E. reflexivity.
Qed.
(** From one point to all of them. *)
Lemma loop_answers : forall (point : bool -> Z -> outcome (option Q)) (inside : nat -> Prop) (n : nat) be num hw, usual num hw ->
  (forall i, (i < n)%nat -> one (fun be => point be (Z.of_nat i)) (inside i)) ->
  (exists r, loop (point be) (Z.of_nat n) num hw r) /\
  forall r, loop (point be) (Z.of_nat n) num hw r -> answers n inside (fun i v => point false (Z.of_nat i) = Ok v) be r.
Proof.
  intros point inside n be num hw U One. destruct (loop_spec (point be) (Z.of_nat n) num hw ltac:(lia) U) as [Ex H]. split; [exact Ex|].
  intros r L. destruct (H r L) as [A B]. split.
  - intro D. destruct A as (l & E & Hl & V).
    { intros i Hi. destruct (One (Z.to_nat i) ltac:(lia)) as [[[v Ev] _]|(O & F & _)]; rewrite Z2Nat.id in * by lia; [exists v; apply Ev|].
      destruct D as [->|D]; [eauto|]. exfalso. apply O, D. lia. }
    exists l. split; [exact E|]. split; [unfold zlen in Hl; lia|]. intros i Hi. destruct (V (Z.of_nat i) ltac:(lia)) as (v & N & P). rewrite Nat2Z.id in N. exists v. split; [exact N|].
    destruct (One i Hi) as [[[v' Ev] I]|(O & F & (w & T))].
    + rewrite Ev in *. split; [exact P|tauto].
    + destruct be; [rewrite T in P; discriminate|]. split; [exact P|]. intros _. rewrite F in P. congruence.
  - intros -> (i & Hi & O). apply B. destruct (One i Hi) as [[_ I]|(_ & _ & (w & T))]; [tauto|]. exists (Z.of_nat i), w. split; [lia|exact T].
Qed.
Lemma shape_eqb_spec : forall a b, shape_eqb a b = true <-> a = b.
Proof.
  induction a as [|n a IH]; intros [|m b]; cbn [shape_eqb]; try (split; [discriminate|congruence]); [tauto|].
  rewrite andb_true_iff, Z.eqb_eq, IH. split; [intros [-> ->]; reflexivity|]. intro E. injection E as -> ->. auto.
Qed.
Lemma check_refused : forall l, mismatched l -> exists w, check_arrays l = Throw w.
Proof.
  intros l M. unfold check_arrays, check_array_ndim. destruct (forallb _ l) eqn:F; cbn [obind]; [|eexists; reflexivity].
  rewrite forallb_forall in F. destruct M as [(a & I & E)|(a & b & Ia & Ib & E)].
  - exfalso. apply F in I. unfold zlen in I. apply Z.eqb_eq in I. lia.
  - unfold check_ndarray_shape. destruct l as [|h t]; [destruct Ia|]. destruct (forallb _ t) eqn:G; [exfalso|eexists; reflexivity].
    rewrite forallb_forall in G. assert (K : forall x, In x (h :: t) -> ar_shape x = ar_shape h).
    { intros x [<-|I]; [reflexivity|]. symmetry. apply shape_eqb_spec, G, I. }
    apply E. rewrite (K a Ia), (K b Ib). reflexivity.
Qed.
Lemma check_ok : forall n l, (forall a, In a l -> vector n a) -> check_arrays l = Ok tt.
Proof.
  intros n l H. unfold check_arrays, check_array_ndim. replace (forallb _ l) with true.
  - cbn [obind]. unfold check_ndarray_shape. destruct l as [|h t]; [reflexivity|]. replace (forallb _ t) with true; [reflexivity|]. symmetry. apply forallb_forall.
    intros x I. apply shape_eqb_spec. rewrite (proj1 (H h (or_introl eq_refl))), (proj1 (H x (or_intror I))). reflexivity.
  - symmetry. apply forallb_forall. intros x I. rewrite (proj1 (H x I)). reflexivity.
Qed.
Lemma ar_at_nth : forall n a i p, vector n a -> nth_error (ar_data a) i = Some p -> ar_at a (Z.of_nat i) = p.
Proof. intros n a i p _ E. unfold ar_at. rewrite Nat2Z.id. apply nth_error_nth. exact E. Qed.
Lemma nth_ar_at : forall n a i, vector n a -> (i < n)%nat -> nth_error (ar_data a) i = Some (ar_at a (Z.of_nat i)).
Proof. intros n a i [_ L] Hi. unfold ar_at. rewrite Nat2Z.id. apply nth_error_nth'. lia. Qed.
Lemma answers_weaken : forall n (I I' : nat -> Prop) (S S' : nat -> option Q -> Prop) be r, (forall i, (i < n)%nat -> (I i <-> I' i)) -> (forall i v, (i < n)%nat -> S i v -> S' i v) ->
  answers n I S be r -> answers n I' S' be r.
Proof.
  intros n I I' S S' be r HI HS [A B]. split.
  - intro D. destruct A as (l & E & Hl & V); [destruct D as [D|D]; [left; exact D|right; intros i Hi; apply HI; auto]|].
    exists l. split; [exact E|]. split; [exact Hl|]. intros i Hi. destruct (V i Hi) as (v & N & P & O). exists v. split; [exact N|]. split; [auto|]. intro X. apply O. rewrite (HI i Hi). exact X.
  - intros Eb (i & Hi & O). apply B; [exact Eb|]. exists i. split; [exact Hi|]. rewrite (HI i Hi). exact O.
Qed.

(** * C124 *)
(** [bivariate(grid, x, y, ...)]: whatever the number of threads and their schedule, the element [i] of the
    answer is the interpolation of the point [(x[i], y[i])] alone, missing if this point is outside the
    axes; with [bounds_error] a point outside raises an exception; arrays of other shapes are refused. *)
Theorem C124_bivariate : forall d c ax ay arr g f be x y num hw, new_grid2 ax ay arr = Ok g -> reachable ax -> reachable ay -> 1 < len ax -> 1 < len ay -> usual num hw ->
  (mismatched [x; y] -> refused (bivariate_array d c g x y f be num hw)) /\
  forall n, vector n x -> vector n y ->
    (exists r, bivariate_array d c g x y f be num hw r) /\
    forall r, bivariate_array d c g x y f be num hw r ->
      answers n
        (fun i => forall p q, nth_error (ar_data x) i = Some p -> nth_error (ar_data y) i = Some q -> reached ax p /\ reached ay q)
        (fun i v => forall p q, nth_error (ar_data x) i = Some p -> nth_error (ar_data y) i = Some q -> bivariate d c g f false p q = Ok v) be r.
Proof.
  intros d c ax ay arr g f be x y num hw G RX RY LX LY U. unfold bivariate_array, bivariate_start. split.
  - intro M. destruct (check_refused _ M) as [w E]. rewrite E. cbn [obind call]. split; eauto.
  - intros n VX VY. rewrite (check_ok n) by (intros a [<-|[<-|[]]]; assumption). cbn [obind call]. unfold ar_size, zlen. rewrite (proj2 VX).
    destruct (loop_answers (fun be ix => bivariate d c g f be (ar_at x ix) (ar_at y ix)) (fun i => reached ax (ar_at x (Z.of_nat i)) /\ reached ay (ar_at y (Z.of_nat i))) n be num hw U) as [Ex H].
    { intros i _. eapply single2; eauto. }
    split; [exact Ex|]. intros r L. eapply answers_weaken; [| |exact (H r L)].
    + intros i Hi. rewrite (nth_ar_at n x i VX Hi), (nth_ar_at n y i VY Hi). split; [intros K p q; congruence|]. intro K. apply K; reflexivity.
    + intros i v _ E p q P R. cbv beta in E. rewrite (ar_at_nth n x i p VX P), (ar_at_nth n y i q VY R) in E. exact E.
Qed.
Print Assumptions C124_bivariate.
(** The same for 3-D grids, with the name of the method along the third axis ([linear] by default). *)
Theorem C124_trivariate : forall d c ax ay az arr g f zm be x y z num hw, new_grid3 ax ay az arr = Ok g -> reachable ax -> reachable ay -> 1 < len ax -> 1 < len ay -> z_usable az ->
  (forall t, In t (ar_data z) -> z_coordinate az t) -> usual num hw ->
  (mismatched [x; y; z] \/ (exists m, zm = Some m /\ m <> "linear"%string /\ m <> "nearest"%string) -> refused (trivariate_array d c g x y z f zm be num hw)) /\
  forall n zf, vector n x -> vector n y -> vector n z -> z_method (match zm with Some m => m | None => "linear" end) = Ok zf ->
    (exists r, trivariate_array d c g x y z f zm be num hw r) /\
    forall r, trivariate_array d c g x y z f zm be num hw r ->
      answers n
        (fun i => forall p q t, nth_error (ar_data x) i = Some p -> nth_error (ar_data y) i = Some q -> nth_error (ar_data z) i = Some t ->
           reached ax p /\ reached ay q /\ z_inside az t)
        (fun i v => forall p q t, nth_error (ar_data x) i = Some p -> nth_error (ar_data y) i = Some q -> nth_error (ar_data z) i = Some t ->
           trivariate d c g f zf false p q t = Ok v) be r.
Proof.
  intros d c ax ay az arr g f zm be x y z num hw G RX RY LX LY UZ CZ U. unfold trivariate_array, trivariate_start. split.
  - intros [M|(m & -> & N1 & N2)].
    + destruct (check_refused _ M) as [w E]. rewrite E. cbn [obind call]. split; eauto.
    + destruct (check_arrays [x; y; z]) as [[]|w|w] eqn:E; cbn [obind].
      * unfold method_or_linear, z_method. apply String.eqb_neq in N1, N2. rewrite N1, N2. cbn [obind call]. split; eauto.
      * cbn [call]. split; eauto.
      * exfalso. clear -E. unfold check_arrays, check_array_ndim, check_ndarray_shape in E. repeat (destruct (forallb _ _) in E; cbn [obind] in E; try discriminate).
  - intros n zf VX VY VZ M. rewrite (check_ok n) by (intros a [<-|[<-|[<-|[]]]]; assumption). cbn [obind]. unfold method_or_linear. rewrite M. cbn [obind call]. unfold ar_size, zlen. rewrite (proj2 VX).
    destruct (loop_answers (fun be ix => trivariate d c g f zf be (ar_at x ix) (ar_at y ix) (ar_at z ix))
      (fun i => reached ax (ar_at x (Z.of_nat i)) /\ reached ay (ar_at y (Z.of_nat i)) /\ z_inside az (ar_at z (Z.of_nat i))) n be num hw U) as [Ex H].
    { intros i Hi. eapply single3; eauto. apply CZ. eapply nth_error_In. apply (nth_ar_at n z i VZ Hi). }
    split; [exact Ex|]. intros r L. eapply answers_weaken; [| |exact (H r L)].
    + intros i Hi. rewrite (nth_ar_at n x i VX Hi), (nth_ar_at n y i VY Hi), (nth_ar_at n z i VZ Hi). split; [intros K p q t; congruence|]. intro K. apply K; reflexivity.
    + intros i v _ E p q t P R T. cbv beta in E. rewrite (ar_at_nth n x i p VX P), (ar_at_nth n y i q VY R), (ar_at_nth n z i t VZ T) in E. exact E.
Qed.
Print Assumptions C124_trivariate.
(** The same for 4-D grids. *)
Theorem C124_quadrivariate : forall d c ax ay az au arr g f zm um be x y z u num hw, new_grid4 ax ay az au arr = Ok g -> reachable ax -> reachable ay -> reachable au ->
  1 < len ax -> 1 < len ay -> 1 < len au -> z_usable az ->
  (forall t, In t (ar_data z) -> z_coordinate az t) -> usual num hw ->
  (mismatched [x; y; z; u] \/ (exists m, (zm = Some m \/ um = Some m) /\ m <> "linear"%string /\ m <> "nearest"%string) -> refused (quadrivariate_array d c g x y z u f zm um be num hw)) /\
  forall n zf uf, vector n x -> vector n y -> vector n z -> vector n u ->
    z_method (match zm with Some m => m | None => "linear" end) = Ok zf -> z_method (match um with Some m => m | None => "linear" end) = Ok uf ->
    (exists r, quadrivariate_array d c g x y z u f zm um be num hw r) /\
    forall r, quadrivariate_array d c g x y z u f zm um be num hw r ->
      answers n
        (fun i => forall p q t s, nth_error (ar_data x) i = Some p -> nth_error (ar_data y) i = Some q -> nth_error (ar_data z) i = Some t -> nth_error (ar_data u) i = Some s ->
           reached ax p /\ reached ay q /\ z_inside az t /\ reached au s)
        (fun i v => forall p q t s, nth_error (ar_data x) i = Some p -> nth_error (ar_data y) i = Some q -> nth_error (ar_data z) i = Some t -> nth_error (ar_data u) i = Some s ->
           quadrivariate d c g f zf uf false p q t s = Ok v) be r.
Proof.
  intros d c ax ay az au arr g f zm um be x y z u num hw G RX RY RU LX LY LU UZ CZ U. unfold quadrivariate_array, quadrivariate_start. split.
  - intro M. assert (E : exists w, (olet _ := check_arrays [x; y; z; u] in olet zf := z_method (method_or_linear zm) in olet uf := z_method (method_or_linear um) in
        Ok (fun ix => quadrivariate d c g f zf uf be (ar_at x ix) (ar_at y ix) (ar_at z ix) (ar_at u ix))) = Throw w).
    { destruct M as [M|(m & D & N1 & N2)].
      - destruct (check_refused _ M) as [w E]. rewrite E. eexists. reflexivity.
      - destruct (check_arrays [x; y; z; u]) as [[]|w|w] eqn:E; cbn [obind]; [|eexists; reflexivity|].
        + apply String.eqb_neq in N1, N2. assert (K : z_method m = Throw "unknown interpolation method") by (unfold z_method; rewrite N1, N2; reflexivity).
          assert (K' : forall n, (exists h, z_method n = Ok h) \/ exists w, z_method n = Throw w).
          { intro n. unfold z_method. destruct (String.eqb n "linear"); [left; eexists; reflexivity|]. destruct (String.eqb n "nearest"); [left|right]; eexists; reflexivity. }
          destruct D as [-> | ->]; cbn [method_or_linear]; [rewrite K; eexists; reflexivity|].
          destruct (K' (method_or_linear zm)) as [[h ->]|[w ->]]; cbn [obind]; [rewrite K|]; eexists; reflexivity.
        + exfalso. clear -E. unfold check_arrays, check_array_ndim, check_ndarray_shape in E. repeat (destruct (forallb _ _) in E; cbn [obind] in E; try discriminate). }
    destruct E as [w E]. rewrite E. cbn [call]. split; eauto.
  - intros n zf uf VX VY VZ VU M N. rewrite (check_ok n) by (intros a [<-|[<-|[<-|[<-|[]]]]]; assumption). cbn [obind]. unfold method_or_linear. rewrite M, N. cbn [obind call]. unfold ar_size, zlen. rewrite (proj2 VX).
    destruct (loop_answers (fun be ix => quadrivariate d c g f zf uf be (ar_at x ix) (ar_at y ix) (ar_at z ix) (ar_at u ix))
      (fun i => reached ax (ar_at x (Z.of_nat i)) /\ reached ay (ar_at y (Z.of_nat i)) /\ z_inside az (ar_at z (Z.of_nat i)) /\ reached au (ar_at u (Z.of_nat i))) n be num hw U) as [Ex H].
    { intros i Hi. eapply single4; eauto. apply CZ. eapply nth_error_In. apply (nth_ar_at n z i VZ Hi). }
    split; [exact Ex|]. intros r L. eapply answers_weaken; [| |exact (H r L)].
    + intros i Hi. rewrite (nth_ar_at n x i VX Hi), (nth_ar_at n y i VY Hi), (nth_ar_at n z i VZ Hi), (nth_ar_at n u i VU Hi). split; [intros K p q t s; congruence|]. intro K. apply K; reflexivity.
    + intros i v _ E p q t s P R T S'. cbv beta in E. rewrite (ar_at_nth n x i p VX P), (ar_at_nth n y i q VY R), (ar_at_nth n z i t VZ T), (ar_at_nth n u i s VU S') in E. exact E.
Qed.
Print Assumptions C124_quadrivariate.

(** The answer does not depend on the number of threads, on the machine, on the schedule: the same array,
    or an exception both times. *)
Lemma nth_error_ext : forall A (l m : list A), (forall k, nth_error l k = nth_error m k) -> l = m.
Proof.
  intros A l. induction l as [|a l IH]; intros [|b m] H; [reflexivity|discriminate (H O)|discriminate (H O)|].
  pose proof (H O) as E. cbn in E. injection E as ->. f_equal. apply IH. intro k. exact (H (S k)).
Qed.
Lemma answers_same : forall n (inside : nat -> Prop) (single : nat -> option Q -> Prop) be r1 r2, (forall i, (i < n)%nat -> inside i \/ ~ inside i) ->
  (forall i v w, (i < n)%nat -> single i v -> single i w -> v = w) -> answers n inside single be r1 -> answers n inside single be r2 ->
  (exists l, r1 = Ok l /\ r2 = Ok l) \/ (exists w1 w2, r1 = Throw w1 /\ r2 = Throw w2).
Proof.
  intros n inside single be r1 r2 D F [A1 B1] [A2 B2].
  assert (C : (be = false \/ forall i, (i < n)%nat -> inside i) \/ (be = true /\ exists i, (i < n)%nat /\ ~ inside i)).
  { destruct be; [|left; left; reflexivity]. assert (K : (forall i, (i < n)%nat -> inside i) \/ exists i, (i < n)%nat /\ ~ inside i).
    { clear - D. induction n as [|n IH]; [left; intros; lia|]. destruct IH as [K|(i & Hi & O)]; [intros; apply D; lia| |right; exists i; split; [lia|exact O]].
      destruct (D n ltac:(lia)) as [I|O]; [left|right; exists n; split; [lia|exact O]]. intros i Hi. destruct (Nat.eq_dec i n) as [->|]; [exact I|apply K; lia]. }
    destruct K as [K|K]; [left; right; exact K|right; auto]. }
  destruct C as [C|[Eb C]].
  - left. destruct (A1 C) as (l1 & -> & L1 & V1), (A2 C) as (l2 & -> & L2 & V2). exists l1. split; [reflexivity|]. f_equal.
    apply nth_error_ext. intro i. destruct (Nat.lt_ge_cases i n) as [Hi|Hi].
    + destruct (V1 i Hi) as (v & -> & S1 & _), (V2 i Hi) as (w & -> & S2 & _). f_equal. eapply F; eauto.
    + rewrite (proj2 (nth_error_None l1 i)), (proj2 (nth_error_None l2 i)) by lia. reflexivity.
  - right. destruct (B1 Eb C) as [w1 ->], (B2 Eb C) as [w2 ->]. eauto.
Qed.
Theorem C124_threads : forall d c ax ay arr g f be x y n num1 hw1 num2 hw2 r1 r2, new_grid2 ax ay arr = Ok g -> reachable ax -> reachable ay -> 1 < len ax -> 1 < len ay ->
  usual num1 hw1 -> usual num2 hw2 -> vector n x -> vector n y ->
  bivariate_array d c g x y f be num1 hw1 r1 -> bivariate_array d c g x y f be num2 hw2 r2 ->
  (exists l, r1 = Ok l /\ r2 = Ok l) \/ (be = true /\ exists w1 w2, r1 = Throw w1 /\ r2 = Throw w2).
Proof.
  intros d c ax ay arr g f be x y n num1 hw1 num2 hw2 r1 r2 G RX RY LX LY U1 U2 VX VY H1 H2.
  destruct (proj2 (C124_bivariate d c ax ay arr g f be x y num1 hw1 G RX RY LX LY U1) n VX VY) as [_ K1].
  destruct (proj2 (C124_bivariate d c ax ay arr g f be x y num2 hw2 G RX RY LX LY U2) n VX VY) as [_ K2].
  specialize (K1 r1 H1). specialize (K2 r2 H2).
  assert (T : (exists l, r1 = Ok l /\ r2 = Ok l) \/ (exists w1 w2, r1 = Throw w1 /\ r2 = Throw w2)).
  { eapply answers_same; [| |exact K1|exact K2].
    - intros i Hi. cbv beta. rewrite (nth_ar_at n x i VX Hi), (nth_ar_at n y i VY Hi).
      destruct (single2 d c ax ay arr g f (ar_at x (Z.of_nat i)) (ar_at y (Z.of_nat i)) G RX RY LX LY) as [[_ I]|(O & _)]; [left; intros; congruence|].
      right. intro K. apply O, K; reflexivity.
    - intros i v w Hi S1 S2. cbv beta in S1, S2. rewrite (nth_ar_at n x i VX Hi), (nth_ar_at n y i VY Hi) in S1, S2. specialize (S1 _ _ eq_refl eq_refl). specialize (S2 _ _ eq_refl eq_refl). congruence. }
  destruct T as [T|T]; [left; exact T|]. destruct be; [right; auto|]. exfalso. destruct K1 as [A _]. destruct (A (or_introl eq_refl)) as (l & E & _). destruct T as (w1 & _ & T & _). congruence.
Qed.
Print Assumptions C124_threads.
(** Points interpolated in two calls, or in one call for all of them. *)
Theorem C124_chunks : forall d c ax ay arr g f x y x1 y1 x2 y2 n1 n2 num hw l l1 l2, new_grid2 ax ay arr = Ok g -> reachable ax -> reachable ay -> 1 < len ax -> 1 < len ay ->
  usual num hw -> vector n1 x1 -> vector n1 y1 -> vector n2 x2 -> vector n2 y2 -> vector (n1 + n2) x -> vector (n1 + n2) y ->
  ar_data x = ar_data x1 ++ ar_data x2 -> ar_data y = ar_data y1 ++ ar_data y2 ->
  bivariate_array d c g x y f false num hw (Ok l) -> bivariate_array d c g x1 y1 f false num hw (Ok l1) -> bivariate_array d c g x2 y2 f false num hw (Ok l2) ->
  l = l1 ++ l2.
Proof.
  intros d c ax ay arr g f x y x1 y1 x2 y2 n1 n2 num hw l l1 l2 G RX RY LX LY U VX1 VY1 VX2 VY2 VX VY EX EY H H1 H2.
  assert (K : forall x y n l, vector n x -> vector n y -> bivariate_array d c g x y f false num hw (Ok l) -> length l = n /\
    forall i, (i < n)%nat -> exists v, nth_error l i = Some v /\ forall p q, nth_error (ar_data x) i = Some p -> nth_error (ar_data y) i = Some q -> bivariate d c g f false p q = Ok v).
  { clear - G RX RY LX LY U. intros x y n l VX VY H. destruct (proj2 (C124_bivariate d c ax ay arr g f false x y num hw G RX RY LX LY U) n VX VY) as [_ K].
    destruct (K _ H) as [A _]. destruct (A (or_introl eq_refl)) as (l' & E & L & V). assert (l' = l) by congruence. subst l'. split; [exact L|]. intros i Hi. destruct (V i Hi) as (v & N & S1 & _). eauto. }
  destruct (K _ _ _ _ VX VY H) as [L V], (K _ _ _ _ VX1 VY1 H1) as [L1 V1], (K _ _ _ _ VX2 VY2 H2) as [L2 V2].
  apply nth_error_ext. intro i. destruct (Nat.lt_ge_cases i n1) as [Hi|Hi]; [|destruct (Nat.lt_ge_cases i (n1 + n2)) as [Hi2|Hi2]].
  - rewrite nth_error_app1 by lia. destruct (V i ltac:(lia)) as (v & -> & S), (V1 i Hi) as (w & -> & S1). f_equal.
    rewrite EX, EY in S. rewrite !nth_error_app1 in S by (rewrite ?(proj2 VX1), ?(proj2 VY1); lia).
    rewrite (nth_ar_at n1 x1 i VX1 Hi), (nth_ar_at n1 y1 i VY1 Hi) in S, S1. specialize (S _ _ eq_refl eq_refl). specialize (S1 _ _ eq_refl eq_refl). congruence.
  - rewrite nth_error_app2 by lia. rewrite L1. destruct (V i ltac:(lia)) as (v & -> & S), (V2 (i - n1)%nat ltac:(lia)) as (w & -> & S2). f_equal.
    rewrite EX, EY in S. rewrite !nth_error_app2 in S by (rewrite ?(proj2 VX1), ?(proj2 VY1); lia). rewrite (proj2 VX1), (proj2 VY1) in S.
    rewrite (nth_ar_at n2 x2 (i - n1) VX2 ltac:(lia)), (nth_ar_at n2 y2 (i - n1) VY2 ltac:(lia)) in S, S2. specialize (S _ _ eq_refl eq_refl). specialize (S2 _ _ eq_refl eq_refl). congruence.
  - rewrite (proj2 (nth_error_None l i)), (proj2 (nth_error_None (l1 ++ l2) i)) by (rewrite ?app_length; lia). reflexivity.
Qed.
Print Assumptions C124_chunks.

(** ** Examples *)
Definition xs : array := Array [3] [1 # 2; 3; 1]%Q.
Definition ys : array := Array [3] [1 # 2; 1; 2]%Q.
Definition grid33 : grid2 := Grid2 ax3 ax3 ramp.
Example ex_grid : new_grid2 ax3 ax3 ramp = Ok grid33.
Proof. reflexivity. Qed.
Example ex_vectors : vector 3 xs /\ vector 3 ys.
Proof. repeat split. Qed.
(** Three points, the second one outside. *)
Example ex_array : forall r, bivariate_array taxi0 taxi0 grid33 xs ys Bilinear false 2 4 r ->
  exists v w, r = Ok [Some v; None; Some w] /\ (v == 11 # 2)%Q /\ (w == 21)%Q.
Proof.
  intros r H. destruct (proj2 (C124_bivariate taxi0 taxi0 ax3 ax3 ramp grid33 Bilinear false xs ys 2 4 ex_grid ax3_reachable ax3_reachable eq_refl eq_refl ltac:(split; lia)) 3%nat ltac:(repeat split) ltac:(repeat split)) as [_ K].
  destruct (K r H) as [A _]. destruct (A (or_introl eq_refl)) as (l & -> & L & V).
  destruct (V 0%nat ltac:(lia)) as (v0 & N0 & S0 & _), (V 1%nat ltac:(lia)) as (v1 & N1 & S1 & _), (V 2%nat ltac:(lia)) as (v2 & N2 & S2 & _).
  destruct l as [|a [|b [|e [|]]]]; try discriminate L. cbn [nth_error] in N0, N1, N2.
  apply (f_equal (fun o => match o with Some v => v | None => None end)) in N0, N1, N2. subst a b e.
  specialize (S0 _ _ eq_refl eq_refl). specialize (S1 _ _ eq_refl eq_refl). specialize (S2 _ _ eq_refl eq_refl). vm_compute in S0, S1, S2.
  apply (f_equal (fun o => match o with Ok v => v | _ => None end)) in S0, S1, S2. subst v0 v1 v2.
  eexists. eexists. split; [reflexivity|]. split; reflexivity.
Qed.
Example ex_bounds : forall r, bivariate_array taxi0 taxi0 grid33 xs ys Bilinear true 2 4 r -> exists w, r = Throw w.
Proof.
  intros r H. destruct (proj2 (C124_bivariate taxi0 taxi0 ax3 ax3 ramp grid33 Bilinear true xs ys 2 4 ex_grid ax3_reachable ax3_reachable eq_refl eq_refl ltac:(split; lia)) 3%nat ltac:(repeat split) ltac:(repeat split)) as [_ K].
  destruct (K r H) as [_ B]. apply B; [reflexivity|]. exists 1%nat. split; [lia|]. intro I. destruct (I _ _ eq_refl eq_refl) as [[i (v & j & w & _ & W & _ & Hw)] _].
  apply at_index_iff in W as [Rw ->]; [|apply (reachable_ok _ ax3_reachable)]. assert (E : j = 0 \/ j = 1 \/ j = 2) by (change (len ax3) with 3 in Rw; lia).
  destruct E as [-> | [-> | ->]]; vm_compute in Hw; apply Hw; reflexivity.
Qed.
Example ex_refused : refused (bivariate_array taxi0 taxi0 grid33 xs (Array [1; 3] [1; 1; 1]%Q) Bilinear false 0 4).
Proof.
  apply (proj1 (C124_bivariate taxi0 taxi0 ax3 ax3 ramp grid33 Bilinear false xs (Array [1; 3] [1; 1; 1]%Q) 0 4 ex_grid ax3_reachable ax3_reachable eq_refl eq_refl ltac:(split; lia))).
  left. exists (Array [1; 3] [1; 1; 1]%Q). split; [right; left; reflexivity|cbn; lia].
Qed.
Definition grid334 : grid3 := Grid3 ax3 ax3 (ZTime times) ramp3.
Example ex_trivariate : forall r, trivariate_array taxi0 taxi0 grid334 xs ys (Array [3] [5; 5; 31]%Q) Bilinear None false 0 4 r ->
  exists v, r = Ok [Some v; None; None] /\ (v == 111 # 2)%Q.
Proof.
  intros r H. assert (CZ : forall t, In t (ar_data (Array [3] [5; 5; 31]%Q)) -> z_coordinate (ZTime times) t).
  { intros t [<-|[<-|[<-|[]]]]; [exists 5|exists 5|exists 31]; reflexivity. }
  destruct (proj2 (C124_trivariate taxi0 taxi0 ax3 ax3 (ZTime times) ramp3 grid334 Bilinear None false xs ys (Array [3] [5; 5; 31]%Q) 0 4 eq_refl ax3_reachable ax3_reachable eq_refl eq_refl times_usable CZ ltac:(split; lia))
    3%nat linear_z ltac:(repeat split) ltac:(repeat split) ltac:(repeat split) eq_refl) as [_ K].
  destruct (K r H) as [A _]. destruct (A (or_introl eq_refl)) as (l & -> & L & V).
  destruct (V 0%nat ltac:(lia)) as (v0 & N0 & S0 & _), (V 1%nat ltac:(lia)) as (v1 & N1 & S1 & _), (V 2%nat ltac:(lia)) as (v2 & N2 & S2 & _).
  destruct l as [|a [|b [|e [|]]]]; try discriminate L. cbn [nth_error] in N0, N1, N2.
  apply (f_equal (fun o => match o with Some v => v | None => None end)) in N0, N1, N2. subst a b e.
  specialize (S0 _ _ _ eq_refl eq_refl eq_refl). specialize (S1 _ _ _ eq_refl eq_refl eq_refl). specialize (S2 _ _ _ eq_refl eq_refl eq_refl). vm_compute in S0, S1, S2.
  apply (f_equal (fun o => match o with Ok v => v | _ => None end)) in S0, S1, S2. subst v0 v1 v2.
  eexists. split; reflexivity.
Qed.

(** Dates in another unit than that of the temporal axis are neither converted nor refused: one minute is
    read as one second, although it is outside the axis. *)
Theorem C124_units_refuted : exists ax ay t arr g,
  TemporalModel.temporal_axis (TemporalProps.dates DateModel.kDatetime64 DateModel.kSecond [0; 10; 20; 30]) = Ok t /\
  new_grid3 ax ay (ZTime (TemporalModel.t_cont t)) arr = Ok g /\ reachable ax /\ reachable ay /\
  TemporalModel.safe_cast (fun _ _ _ x => x) false t (TemporalProps.dates DateModel.kDatetime64 DateModel.kMinute [1]) = Ok ([60], false) /\
  ~ z_inside (ZTime (TemporalModel.t_cont t)) 60 /\
  forall r, trivariate_array taxi0 taxi0 g (Array [1] [1%Q]) (Array [1] [1%Q]) (dates_argument (TemporalProps.dates DateModel.kDatetime64 DateModel.kMinute [1])) Bilinear None true 1 1 r ->
    exists v, r = Ok [Some v].
Proof.
  exists ax3, ax3, (TemporalModel.TAxis times DateModel.kDatetime64 DateModel.kSecond), ramp3, grid334. split; [vm_compute; reflexivity|]. split; [reflexivity|].
  split; [exact ax3_reachable|]. split; [exact ax3_reachable|]. split; [vm_compute; reflexivity|]. split.
  - intros (k & v & j & w & _ & (t & W & ->) & _ & H). cbn [TemporalModel.t_cont] in W. pose proof (i_at_range _ _ _ W) as Rk. unfold i_at in W.
    assert (E : j = 0 \/ j = 1 \/ j = 2 \/ j = 3) by (change (i_size times) with 4 in Rk; lia). 
    assert (T : t <= 30) by (destruct E as [-> | [-> | [-> | ->]]]; vm_compute in W; injection W as <-; lia).
    change 60%Q with (inject_Z 60) in H. rewrite <- Zle_Qle in H. lia.
  - intros r H. assert (CZ : forall t, In t (ar_data (dates_argument (TemporalProps.dates DateModel.kDatetime64 DateModel.kMinute [1]))) -> z_coordinate (ZTime times) t) by (intros t [<-|[]]; exists 1; reflexivity).
    destruct (proj2 (C124_trivariate taxi0 taxi0 ax3 ax3 (ZTime times) ramp3 grid334 Bilinear None true (Array [1] [1%Q]) (Array [1] [1%Q]) _ 1 1 eq_refl ax3_reachable ax3_reachable eq_refl eq_refl times_usable CZ ltac:(split; lia))
      1%nat linear_z ltac:(repeat split) ltac:(repeat split) ltac:(repeat split) eq_refl) as [_ K].
    destruct (K r H) as [A _]. destruct A as (l & -> & L & V).
    { right. intros [|i] Hi; [|lia]. intros p q t P R T. cbn in P, R, T.
      apply (f_equal (fun o => match o with Some v => v | None => 0%Q end)) in P, R, T. subst p q t.
      split; [apply ax3_inside; discriminate|]. split; [apply ax3_inside; discriminate|]. exists 0, 0%Q, 1, 10%Q. split; [exists 0; split; reflexivity|]. split; [exists 10; split; reflexivity|]. split; discriminate. }
    destruct (V 0%nat ltac:(lia)) as (v & N & S & _). destruct l as [|a [|]]; try discriminate L. cbn [nth_error] in N. apply (f_equal (fun o => match o with Some v => v | None => None end)) in N. subst a.
    specialize (S _ _ _ eq_refl eq_refl eq_refl). vm_compute in S. apply (f_equal (fun o => match o with Ok v => v | _ => None end)) in S. subst v. eexists. reflexivity.
Qed.
Print Assumptions C124_units_refuted.
