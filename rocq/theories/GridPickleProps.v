(** Copies of axes answer like the originals (C10), copies of grids interpolate like them (C125). *)
From Coq Require Import Qpower Setoid Morphisms.
From Verif Require Import Base BaseProofs MathModel MathProofs AxisModel IntAxisModel IntAxisProofs AxisSpec AxisProofs AxisProofs2 AxisProofs5
  GridModel GridSpec GridProofs GridProofs2 GridProofs3 GridProofs4 GridProps GridProps2 GridProps4 XarrayModel DateModel TemporalModel GridPickleModel.
From Verif Require TemporalProps TemporalProps2.
Open Scope Z_scope.
Ltac Zify.zify_post_hook ::= idtac.

(** * Specification *)
(** Two numbers, missing or not, that are equal. *)
Definition same_value (a b : option Q) : Prop := match a, b with Some x, Some y => (x == y)%Q | None, None => True | _, _ => False end.
(** Two answers that are the same: equal values, or the same exception. *)
Definition same_answer (a b : outcome (option Q)) : Prop :=
  match a, b with Ok x, Ok y => same_value x y | Throw w, Throw w' => w = w' | UB w, UB w' => w = w' | _, _ => False end.
(** A distance depends on the coordinates of the points only. *)
Definition respects (d : point -> point -> Q) : Prop :=
  forall p p' q q', (px p == px p')%Q -> (py p == py p')%Q -> (px q == px q')%Q -> (py q == py q')%Q -> (d p q == d p' q')%Q.
(** The axes whose kind is kept by their state: an angular axis must be a circle. *)
Definition keeps_kind (a : axis) : Prop := 1 < len a /\ (is_angle a = true -> a_is_circle a = true).

(** * Equivalent axes *)
Global Instance Qltb_comp : Proper (Qeq ==> Qeq ==> eq) Qltb.
Proof. intros a b E c d F. unfold Qltb. rewrite E, F. reflexivity. Qed.
Global Instance round_away_comp : Proper (Qeq ==> eq) round_away.
Proof.
  intros a b E. unfold round_away. rewrite (Qleb_comp _ _ (Qeq_refl 0) _ _ E). assert (E1 : (a + (1 # 2) == b + (1 # 2))%Q) by (rewrite E; reflexivity).
  assert (E2 : (- a + (1 # 2) == - b + (1 # 2))%Q) by (rewrite E; reflexivity). rewrite (Qfloor_comp _ _ E1), (Qfloor_comp _ _ E2). reflexivity.
Qed.
Global Instance round_even_comp : Proper (Qeq ==> eq) round_even.
Proof.
  intros a b E. unfold round_even. rewrite (Qfloor_comp _ _ E). cbv zeta. assert (E1 : (a - inject_Z (Qfloor b) == b - inject_Z (Qfloor b))%Q) by (rewrite E; reflexivity).
  rewrite (Qltb_comp _ _ E1 _ _ (Qeq_refl _)), (Qltb_comp _ _ (Qeq_refl (1 # 2)) _ _ E1). reflexivity.
Qed.
Global Instance rem_Q_comp : Proper (Qeq ==> Qeq ==> Qeq) rem_Q.
Proof.
  intros a b E c d F. unfold rem_Q. assert (S : (std_remainder a c == std_remainder b d)%Q) by (unfold std_remainder; assert (R : (a / c == b / d)%Q) by (rewrite E, F; reflexivity); rewrite (round_even_comp _ _ R), E, F; reflexivity).
  cbv zeta. rewrite (Qltb_comp _ _ S _ _ (Qeq_refl 0)). destruct (Qltb _ 0); [rewrite S, F|]; [reflexivity|exact S].
Qed.
Definition ceq (c d : container) : Prop :=
  match c, d with
  | CUndef, CUndef => True
  | CIrr a p, CIrr b q => a = b /\ p = q
  | CReg a n s st inv, CReg a' n' s' st' inv' => a = a' /\ n = n' /\ (s == s')%Q /\ (st == st')%Q /\ (inv == inv')%Q
  | _, _ => False
  end.
Definition aeq (a b : axis) : Prop := a_is_circle a = a_is_circle b /\ a_circle a = a_circle b /\ ceq (a_cont a) (a_cont b).
Lemma ceq_size : forall c d, ceq c d -> c_size c = c_size d.
Proof. intros [|a p|a n s st i] [|b q|b m t su j] H; cbn in *; try tauto; try (destruct H as [-> ->]; reflexivity). Qed.
Lemma ceq_asc : forall c d, ceq c d -> c_asc c = c_asc d.
Proof. intros [|a p|a n s st i] [|b q|b m t su j] H; cbn in *; tauto. Qed.
Lemma ceq_value : forall c d i, ceq c d -> same_value (c_value c i) (c_value d i).
Proof.
  intros [|a p|a n s st inv] [|b q|b m t su j] i H; cbn in *; try tauto.
  - destruct H as [_ ->]. destruct (znth q i); cbn; [reflexivity|exact I].
  - destruct H as (_ & _ & -> & -> & _). reflexivity.
Qed.
Lemma irr_comp : forall a p x y b, (x == y)%Q -> irr_find_index a p x b = irr_find_index a p y b.
Proof.
  intros a p x y b E. unfold irr_find_index. assert (L : lower_bound (cmp_of a) p x = lower_bound (cmp_of a) p y).
  { induction p as [|e p IH]; [reflexivity|]. cbn [lower_bound]. rewrite IH. replace (cmp_of a e y) with (cmp_of a e x); [reflexivity|]. destruct a; cbn [cmp_of]; rewrite E; reflexivity. }
  rewrite L. cbv zeta. assert (C : forall e, cmp_of a x e = cmp_of a y e /\ cmp_of a e x = cmp_of a e y) by (intro e; destruct a; cbn [cmp_of]; rewrite E; auto).
  destruct (lower_bound (cmp_of a) p y =? 0). { destruct (znth p 0) as [e|]; [|reflexivity]. rewrite (proj1 (C e)). reflexivity. }
  destruct (lower_bound (cmp_of a) p y =? zlen p). { destruct (znth p _) as [e|]; [|reflexivity]. rewrite (proj2 (C e)). reflexivity. }
  destruct (znth p (_ - 1)); [|reflexivity]. destruct (znth p _); [|reflexivity]. rewrite E. reflexivity.
Qed.
Lemma ceq_find : forall c d x y b, ceq c d -> (x == y)%Q -> c_find_index c x b = c_find_index d y b.
Proof.
  intros [|a p|a n s st inv] [|a' q|a' m t su j] x y b H E; cbn [ceq c_find_index] in *; try tauto.
  - destruct H as [-> ->]. apply irr_comp, E.
  - destruct H as (_ & -> & Hs & _ & Hi). unfold reg_find_index. replace (round_away ((y - t) * j)) with (round_away ((x - s) * inv)); [reflexivity|]. rewrite E, Hs, Hi. reflexivity.
Qed.
Lemma norm_min_comp : forall a b x y m n, a_circle a = a_circle b -> (x == y)%Q -> (m == n)%Q -> (normalize_coordinate_min a x m == normalize_coordinate_min b y n)%Q.
Proof.
  intros a b x y m n H E F. unfold normalize_coordinate_min. rewrite <- H. destruct (a_circle a) as [c|]; [|exact E].
  assert (B : (Qle_bool (m + c) x || Qltb x m)%bool = (Qle_bool (n + c) y || Qltb y n)%bool) by (rewrite E, F; reflexivity).
  rewrite B. clear B. destruct (Qle_bool (n + c) y || Qltb y n)%bool; [|exact E]. unfold normalize_angle. rewrite E, F. reflexivity.
Qed.
Lemma norm_comp : forall a b x y, aeq a b -> (x == y)%Q -> (normalize_coordinate a x == normalize_coordinate b y)%Q.
Proof.
  intros a b x y (H1 & H2 & H3) E. unfold normalize_coordinate, c_min. rewrite <- (ceq_size _ _ H3), <- (ceq_asc _ _ H3).
  pose proof (ceq_value _ _ (if c_asc (a_cont a) then 0 else c_size (a_cont a) - 1) H3) as V. unfold same_value in V.
  destruct (c_value (a_cont a) _), (c_value (a_cont b) _); try tauto. apply norm_min_comp; auto.
Qed.
Lemma find_index_comp : forall a b x y bd, aeq a b -> (x == y)%Q -> find_index a x bd = find_index b y bd.
Proof. intros a b x y bd H E. unfold find_index. apply ceq_find; [apply H|]. apply norm_comp; auto. Qed.
Lemma find_indexes_comp : forall a b x y, aeq a b -> (x == y)%Q -> find_indexes a x = find_indexes b y.
Proof.
  intros a b x y H E. unfold find_indexes. pose proof (norm_comp a b x y H E) as N. destruct H as (H1 & H2 & H3). cbv zeta.
  rewrite <- (find_index_comp a b _ _ false (conj H1 (conj H2 H3)) N). destruct (find_index a (normalize_coordinate a x) false) as [i|w|w]; cbn [obind]; [|reflexivity|reflexivity].
  rewrite <- (ceq_size _ _ H3), <- (ceq_asc _ _ H3), <- H1. destruct (i =? -1); [reflexivity|].
  pose proof (ceq_value _ _ i H3) as V. unfold same_value in V. destruct (c_value (a_cont a) i) as [v|], (c_value (a_cont b) i) as [v'|]; try tauto.
  assert (D : (normalize_coordinate a x - v == normalize_coordinate b y - v')%Q) by (rewrite N, V; reflexivity).
  rewrite (Qeqb_comp _ _ D _ _ (Qeq_refl 0)), (Qltb_comp _ _ D _ _ (Qeq_refl 0)). reflexivity.
Qed.
Lemma find_nearest_comp : forall a b x bd, aeq a b -> find_nearest_index a x bd = find_nearest_index b x bd.
Proof.
  intros a b x bd H. unfold find_nearest_index. pose proof (norm_comp a b x x H (Qeq_refl x)) as N. destruct H as (H1 & H2 & H3). cbv zeta.
  rewrite <- (ceq_find _ _ _ _ bd H3 N). destruct (c_find_index _ _ _) as [r|w|w]; cbn [obind]; [|reflexivity|reflexivity]. rewrite <- H1. destruct (_ && _)%bool; [|reflexivity].
  unfold c_max, c_min. rewrite <- (ceq_size _ _ H3), <- (ceq_asc _ _ H3).
  pose proof (ceq_value _ _ (if c_asc (a_cont a) then c_size (a_cont a) - 1 else 0) H3) as V. pose proof (ceq_value _ _ (if c_asc (a_cont a) then 0 else c_size (a_cont a) - 1) H3) as W.
  unfold same_value in V, W. destruct (c_value (a_cont a) (if c_asc (a_cont a) then c_size (a_cont a) - 1 else 0)), (c_value (a_cont b) (if c_asc (a_cont a) then c_size (a_cont a) - 1 else 0)); try tauto.
  destruct (c_value (a_cont a) _), (c_value (a_cont b) _); try tauto. rewrite N, V, W. reflexivity.
Qed.
Lemma window_comp : forall a b x n m, aeq a b -> find_indexes_window a x n m = find_indexes_window b x n m.
Proof.
  intros a b x n m H. unfold find_indexes_window. rewrite (find_indexes_comp a b x x H (Qeq_refl x)). destruct (n =? 0); [reflexivity|].
  destruct (find_indexes b x) as [[[i j]|]|w|w]; cbn [obind]; [|destruct (n =? 1); [|reflexivity]|reflexivity|reflexivity].
  - rewrite (proj1 H), (ceq_size _ _ (proj2 (proj2 H))). reflexivity.
  - pose proof (ceq_value _ _ 0 (proj2 (proj2 H))) as V. unfold same_value in V. destruct (c_value (a_cont a) 0), (c_value (a_cont b) 0); try tauto.
    rewrite (Qeqb_comp _ _ (Qeq_refl x) _ _ V). reflexivity.
Qed.
Lemma copy_aeq : forall a, axis_ok a -> keeps_kind a -> exists b, axis_copy a = Ok b /\ aeq a b.
Proof.
  intros a OK (L & K). pose proof (proj1 OK) as W. unfold axis_copy, getstate, len in *.
  assert (HC : a_circle a = if a_is_circle a then Some 360%Q else None).
  { unfold is_angle in K. destruct OK as (_ & C1 & C2). destruct (a_is_circle a); [apply C2; reflexivity|]. destruct (a_circle a); [discriminate (K eq_refl)|reflexivity]. }
  destruct (a_cont a) as [|asc pts|asc n s st inv] eqn:E; [destruct W| |]; cbn [c_size] in L.
  - cbn [setstate]. unfold mk_irregular. destruct W as [Hn M]. destruct (Z.eqb_spec (zlen pts) 0); [lia|]. cbn [obind]. eexists. split; [reflexivity|].
    split; [reflexivity|]. split; [exact HC|]. rewrite E. cbn [axis_of_container a_cont ceq]. split; [|reflexivity]. unfold calc_ascending.
    destruct (Z.ltb_spec (zlen pts) 2); [lia|].
    destruct (znth_in_range pts 0 ltac:(lia)) as [u Hu]. destruct (znth_in_range pts 1 ltac:(lia)) as [v Hv].
    rewrite Hu, Hv. assert (X := M 0 1 ltac:(lia) ltac:(lia)). unfold fval in X; cbn [c_value] in X. rewrite Hu, Hv in X. destruct (Qltb_spec u v); destruct asc; auto; lra.
  - cbn [setstate]. destruct W as (Hn & Hst & Hinv & Hpos). specialize (Hpos L). unfold mk_regular. destruct (Z.eqb_spec n 0); [lia|].
    assert (NZ : (0 < inject_Z (n - 1))%Q) by (change 0%Q with (inject_Z 0); apply inject_Z_lt; lia).
    destruct (Qeqb_spec s (s + inject_Z (n - 1) * st)) as [Q1|Q1]. { exfalso. destruct asc; nra. }
    destruct (Z.eqb_spec n 1); [lia|]. cbn [obind]. set (st' := ((s + inject_Z (n - 1) * st - s) / inject_Z (n - 1))%Q).
    assert (Est : (st' == st)%Q) by (unfold st'; field; lra).
    eexists. split; [reflexivity|]. split; [reflexivity|]. split; [exact HC|]. rewrite E. cbn [axis_of_container a_cont ceq].
    split. { unfold calc_ascending. destruct (Z.ltb_spec n 2); [lia|]. destruct (Qltb_spec (s + inject_Z 0 * st') (s + inject_Z 1 * st')) as [q|q]; cbn [inject_Z] in q; change (inject_Z 0) with 0%Q in q; change (inject_Z 1) with 1%Q in q; destruct asc; auto; lra. }
    split; [reflexivity|]. split; [reflexivity|]. split; [symmetry; exact Est|]. rewrite Est. assert (~ (st == 0)%Q) by exact Hst. 
    setoid_replace inv with (inv * st * / st)%Q by (field; assumption). rewrite Hinv. reflexivity.
Qed.

(** * C10 *)
(** A copy of an axis answers every question like the original. *)
Theorem C10_same_answers : forall a, reachable a -> 1 < len a -> (is_angle a = true -> a_is_circle a = true) ->
  exists b, setstate (getstate a) = Ok b /\ forall x,
    (forall bounded, find_nearest_index b x bounded = find_nearest_index a x bounded) /\
    find_indexes b x = find_indexes a x /\
    (forall size mode, find_indexes_window b x size mode = find_indexes_window a x size mode).
Proof.
  intros a R L K. destruct (copy_aeq a (reachable_ok _ R) (conj L K)) as (b & E & H). exists b. split; [exact E|]. intro x.
  split; [intro bd; symmetry; apply find_nearest_comp, H|]. split; [symmetry; apply find_indexes_comp; [exact H|reflexivity]|]. intros n m. symmetry. apply window_comp, H.
Qed.
Print Assumptions C10_same_answers.

(** * Interpolation on equivalent axes *)
Definition orel {A : Type} (R : A -> A -> Prop) (a b : outcome A) : Prop :=
  match a, b with Ok x, Ok y => R x y | Throw w, Throw w' => w = w' | UB w, UB w' => w = w' | _, _ => False end.
Lemma orel_bind : forall (A B : Type) (R : A -> A -> Prop) (S : B -> B -> Prop) x y (f g : A -> outcome B),
  orel R x y -> (forall a b, R a b -> orel S (f a) (g b)) -> orel S (obind x f) (obind y g).
Proof. intros A B R S [x|w|w] [y|v|v] f g H K; cbn in *; auto; tauto. Qed.
Lemma orel_refl : forall (A : Type) (x : outcome A), orel eq x x.
Proof. intros A [x|w|w]; reflexivity. Qed.
Lemma orel_eq : forall (A : Type) (x y : outcome A), x = y -> orel eq x y.
Proof. intros A x y ->. apply orel_refl. Qed.
Definition peq (p q : point) : Prop := (px p == px q)%Q /\ (py p == py q)%Q.
Lemma axis_at_comp : forall a b i, aeq a b -> orel Qeq (axis_at a i) (axis_at b i).
Proof.
  intros a b i H. unfold axis_at. pose proof (ceq_value _ _ i (proj2 (proj2 H))) as V. unfold same_value in V.
  destruct (c_value (a_cont a) i), (c_value (a_cont b) i); cbn; tauto.
Qed.
Lemma same_refl : forall v, same_value v v.
Proof. intros [v|]; cbn; [reflexivity|exact I]. Qed.
Lemma nan2_comp : forall f a b a' b', Proper (Qeq ==> Qeq ==> Qeq) f -> same_value a a' -> same_value b b' -> same_value (nan2 f a b) (nan2 f a' b').
Proof. intros f [a|] [b|] [a'|] [b'|] P H K; cbn in *; try tauto. rewrite H, K. reflexivity. Qed.
Lemma bilinear_comp : forall p p0 p1 p' p0' p1' q00 q01 q10 q11, peq p p' -> peq p0 p0' -> peq p1 p1' ->
  same_value (bilinear p p0 p1 q00 q01 q10 q11) (bilinear p' p0' p1' q00 q01 q10 q11).
Proof.
  intros p p0 p1 p' p0' p1' q00 q01 q10 q11 [A1 A2] [B1 B2] [C1 C2]. unfold bilinear. cbv zeta.
  assert (D1 : (px p1 - px p0 == px p1' - px p0')%Q) by (rewrite C1, B1; reflexivity). assert (D2 : (py p1 - py p0 == py p1' - py p0')%Q) by (rewrite C2, B2; reflexivity).
  rewrite (Qeqb_comp _ _ D1 _ _ (Qeq_refl 0)), (Qeqb_comp _ _ D2 _ _ (Qeq_refl 0)). destruct (Qeq_bool (px p1' - px p0') 0 || Qeq_bool (py p1' - py p0') 0)%bool; [exact I|].
  destruct q00, q01, q10, q11; cbn [same_value]; try exact I. rewrite D1, D2, A1, A2, B1, B2. reflexivity.
Qed.
Lemma idw_comp : forall d e p p' l l' w w' wu wu', respects d -> peq p p' -> Forall2 (fun a b => peq (fst a) (fst b) /\ snd a = snd b) l l' -> (w == w')%Q -> same_value wu wu' ->
  same_value (idw_loop d e p l w wu) (idw_loop d e p' l' w' wu').
Proof.
  intros d e p p' l l' w w' wu wu' D P F. revert w w' wu wu'. induction F as [|[c q] [c' q'] l l' [C V] _ IH]; intros w w' wu wu' W U; cbn [idw_loop fst snd] in *.
  - apply nan2_comp; [intros ? ? H ? ? K; rewrite H, K; reflexivity|exact U|exact W].
  - subst q'. assert (E : (d p c == d p' c')%Q) by (apply D; [apply P|apply P|apply C|apply C]). cbv zeta. rewrite (Qleb_comp _ _ E _ _ (Qeq_refl epsilon)).
    destruct (Qle_bool (d p' c') epsilon); [apply same_refl|]. assert (G : (1 / Qpower (d p c) e == 1 / Qpower (d p' c') e)%Q) by (rewrite E; reflexivity).
    apply IH; [rewrite W, G; reflexivity|]. apply nan2_comp; [intros ? ? H ? ? K; rewrite H, K; reflexivity|exact U|].
    apply nan2_comp; [intros ? ? H ? ? K; rewrite H, K; reflexivity|apply same_refl|exact G].
Qed.
Lemma nearest_comp : forall c p p' l l' m m' q, respects c -> peq p p' -> Forall2 (fun a b => peq (fst a) (fst b) /\ snd a = snd b) l l' -> (m == m')%Q ->
  nearest_loop c p l (m, q) = nearest_loop c p' l' (m', q).
Proof.
  intros c p p' l l' m m' q D P F. revert m m' q. induction F as [|[s v] [s' v'] l l' [C V] _ IH]; intros m m' q W; cbn [nearest_loop fst snd] in *; [reflexivity|].
  subst v'. assert (E : (c p s == c p' s')%Q) by (apply D; [apply P|apply P|apply C|apply C]). rewrite (Qltb_comp _ _ E _ _ W). destruct (Qltb (c p' s') m'); apply IH; assumption.
Qed.
Lemma evaluate_comp : forall d c f p p0 p1 p' p0' p1' q00 q01 q10 q11, respects d -> respects c -> peq p p' -> peq p0 p0' -> peq p1 p1' ->
  same_value (evaluate d c f p p0 p1 q00 q01 q10 q11) (evaluate d c f p' p0' p1' q00 q01 q10 q11).
Proof.
  intros d c f p p0 p1 p' p0' p1' q00 q01 q10 q11 D C A B K. destruct f as [|e|]; cbn [evaluate].
  - apply bilinear_comp; assumption.
  - apply idw_comp; [exact D|exact A| |reflexivity|reflexivity]. unfold corners. destruct B, K. repeat constructor; cbn; assumption.
  - unfold corners. destruct A as [A1 A2], B as [B1 B2], K as [K1 K2]. rewrite (nearest_comp c p p' _ [(Point (px p0') (py p1'), q01); (Point (px p1') (py p0'), q10); (Point (px p1') (py p1'), q11)] _ (c p' (Point (px p0') (py p0'))) q00).
    + apply same_refl.
    + exact C.
    + split; assumption.
    + repeat constructor; cbn; assumption.
    + apply C; cbn; assumption.
Qed.
Definition zf_comp (zf : Q -> Q -> Q -> option Q -> option Q -> option Q) : Prop := forall z z0 z1 z0' z1' a b a' b',
  (z0 == z0')%Q -> (z1 == z1')%Q -> same_value a a' -> same_value b b' -> same_value (zf z z0 z1 a b) (zf z z0' z1' a' b').
Lemma method_comp : forall m zf, z_method m = Ok zf -> zf_comp zf.
Proof.
  intros m zf M. unfold z_method in M. destruct (String.eqb m "linear"); [|destruct (String.eqb m "nearest"); [|discriminate]]; injection M as <-; intros z z0 z1 z0' z1' a b a' b' E0 E1 A B.
  - unfold linear_z. cbv zeta. assert (D : (z1 - z0 == z1' - z0')%Q) by (rewrite E0, E1; reflexivity). rewrite (Qeqb_comp _ _ D _ _ (Qeq_refl 0)), (Qeqb_comp _ _ (Qeq_refl z) _ _ E0).
    destruct (Qeq_bool (z1' - z0') 0); [destruct (Qeq_bool z z0'); [exact A|exact I]|]. destruct a, a'; cbn [same_value] in A; try tauto; destruct b, b'; cbn [same_value] in B; try tauto; cbn [nan2 same_value]; try exact I.
    rewrite D, E0, E1, A, B. reflexivity.
  - unfold nearest_z. cbv zeta. assert (D0 : ((z0 - z) * (z0 - z) == (z0' - z) * (z0' - z))%Q) by (rewrite E0; reflexivity). assert (D1 : ((z1 - z) * (z1 - z) == (z1' - z) * (z1' - z))%Q) by (rewrite E1; reflexivity).
    rewrite (Qltb_comp _ _ D0 _ _ D1). destruct (Qltb _ _); assumption.
Qed.
Lemma biv_comp : forall d c x x' y y' arr f be u v, respects d -> respects c -> aeq x x' -> aeq y y' ->
  same_answer (bivariate d c (Grid2 x y arr) f be u v) (bivariate d c (Grid2 x' y' arr) f be u v).
Proof.
  intros d c x x' y y' arr f be u v D C X Y. unfold bivariate. cbn [g2_x g2_y g2_array]. rewrite (find_indexes_comp x x' u u X (Qeq_refl u)), (find_indexes_comp y y' v v Y (Qeq_refl v)).
  change (orel same_value ?a ?b) with (same_answer a b).
  eapply (orel_bind _ _ eq same_value); [apply orel_refl|]. intros xi _ <-. eapply (orel_bind _ _ eq same_value); [apply orel_refl|]. intros yi _ <-.
  destruct xi as [[i0 i1]|], yi as [[j0 j1]|]; try (destruct be; [reflexivity|exact I]).
  eapply (orel_bind _ _ Qeq same_value); [apply axis_at_comp, X|]. intros x0 x0' X0. eapply (orel_bind _ _ Qeq same_value); [apply axis_at_comp, Y|]. intros y0 y0' Y0.
  eapply (orel_bind _ _ Qeq same_value); [apply axis_at_comp, X|]. intros x1 x1' X1. eapply (orel_bind _ _ Qeq same_value); [apply axis_at_comp, Y|]. intros y1 y1' Y1.
  do 4 (eapply (orel_bind _ _ eq same_value); [apply orel_refl|]; intros ? _ <-). cbn [orel].
  apply evaluate_comp; [exact D|exact C| | |]; split; cbn [px py]; auto; [|reflexivity]. apply norm_min_comp; [apply X|reflexivity|exact X0].
Qed.
Inductive zeq : zaxis -> zaxis -> Prop := zeq_real : forall a b, aeq a b -> zeq (ZReal a) (ZReal b) | zeq_time : forall c, zeq (ZTime c) (ZTime c).
Lemma z_at_comp : forall z z' i, zeq z z' -> orel Qeq (z_at z i) (z_at z' i).
Proof. intros z z' i [a b H|c]; [apply axis_at_comp, H|]. destruct (z_at (ZTime c) i); cbn; reflexivity. Qed.
Lemma z_find_comp : forall z z' t, zeq z z' -> z_find_indexes z t = z_find_indexes z' t.
Proof. intros z z' t [a b H|c]; [|reflexivity]. apply find_indexes_comp; [exact H|reflexivity]. Qed.
Ltac step_eq := eapply (orel_bind _ _ eq same_value); [apply orel_refl|]; intros ? _ <-.
Ltac step_at H := eapply (orel_bind _ _ Qeq same_value); [first [apply axis_at_comp, H | apply z_at_comp, H]|]; intros ? ? ?.
Lemma cell_comp : forall d c f zf p p0 p1 p' p0' p1' z z0 z1 z0' z1' a b e g h i j k, respects d -> respects c -> zf_comp zf -> peq p p' -> peq p0 p0' -> peq p1 p1' -> (z0 == z0')%Q -> (z1 == z1')%Q ->
  same_value (trivariate_cell d c f zf p p0 p1 z z0 z1 a b e g h i j k) (trivariate_cell d c f zf p' p0' p1' z z0' z1' a b e g h i j k).
Proof. intros. unfold trivariate_cell. cbv zeta. match goal with H : zf_comp _ |- _ => apply H end; auto; apply evaluate_comp; assumption. Qed.
Lemma tri_comp : forall d c x x' y y' z z' arr f m zf be u v w, respects d -> respects c -> z_method m = Ok zf -> aeq x x' -> aeq y y' -> zeq z z' ->
  same_answer (trivariate d c (Grid3 x y z arr) f zf be u v w) (trivariate d c (Grid3 x' y' z' arr) f zf be u v w).
Proof.
  intros d c x x' y y' z z' arr f m zf be u v w D C M X Y Zq. pose proof (method_comp m zf M) as ZC. unfold trivariate. cbn [g3_x g3_y g3_z g3_array].
  rewrite (find_indexes_comp x x' u u X (Qeq_refl u)), (find_indexes_comp y y' v v Y (Qeq_refl v)), (z_find_comp z z' w Zq).
  eapply (orel_bind _ _ eq same_value); [apply orel_refl|]. intros xi _ <-. eapply (orel_bind _ _ eq same_value); [apply orel_refl|]. intros yi _ <-. eapply (orel_bind _ _ eq same_value); [apply orel_refl|]. intros zi _ <-.
  destruct xi as [[i0 i1]|], yi as [[j0 j1]|], zi as [[k0 k1]|]; try (destruct be; [reflexivity|exact I]).
  step_at X. step_at Y. step_at Zq. step_at X. step_at Y. step_at Zq. do 8 step_eq. cbn [orel].
  apply cell_comp; auto; split; cbn [px py]; auto; [|reflexivity]. apply norm_min_comp; [apply X|reflexivity|assumption].
Qed.
Lemma quad_comp : forall d c x x' y y' z z' h h' arr f m zf n uf be u v w s, respects d -> respects c -> z_method m = Ok zf -> z_method n = Ok uf -> aeq x x' -> aeq y y' -> zeq z z' -> aeq h h' ->
  same_answer (quadrivariate d c (Grid4 x y z h arr) f zf uf be u v w s) (quadrivariate d c (Grid4 x' y' z' h' arr) f zf uf be u v w s).
Proof.
  intros d c x x' y y' z z' h h' arr f m zf n uf be u v w s D C M N X Y Zq H. pose proof (method_comp m zf M) as ZC. pose proof (method_comp n uf N) as UC. unfold quadrivariate. cbn [g4_x g4_y g4_z g4_u g4_array].
  rewrite (find_indexes_comp x x' u u X (Qeq_refl u)), (find_indexes_comp y y' v v Y (Qeq_refl v)), (z_find_comp z z' w Zq), (find_indexes_comp h h' s s H (Qeq_refl s)).
  eapply (orel_bind _ _ eq same_value); [apply orel_refl|]. intros xi _ <-. eapply (orel_bind _ _ eq same_value); [apply orel_refl|]. intros yi _ <-. eapply (orel_bind _ _ eq same_value); [apply orel_refl|]. intros zi _ <-.
  eapply (orel_bind _ _ eq same_value); [apply orel_refl|]. intros ui _ <-.
  destruct xi as [[i0 i1]|], yi as [[j0 j1]|], zi as [[k0 k1]|], ui as [[h0 h1]|]; try (destruct be; [reflexivity|exact I]).
  step_at X. step_at Y. step_at Zq. step_at X. step_at Y. step_at Zq. cbv zeta. do 16 step_eq. step_at H. step_at H. cbn [orel].
  apply UC; auto; apply cell_comp; auto; split; cbn [px py]; auto; try reflexivity; apply norm_min_comp; try apply X; try reflexivity; assumption.
Qed.

(** * C125 *)
(** The axis along which a 3-D or 4-D grid is copied faithfully: numbers whose kind is kept, or dates given
    in an array (not reversed in place afterwards). *)
Definition z_kept (az : zaxis) : Prop :=
  match az with ZReal a => reachable a /\ keeps_kind a | ZTime c => exists l, int_axis_of_values l = Ok c end.
Lemma z_copy_eq : forall az, z_kept az -> exists az', z_copy az = Ok az' /\ zeq az az' /\ z_size az' = z_size az /\ z_is_circle az' = z_is_circle az.
Proof.
  intros [a|c] K; cbn [z_kept z_copy] in *.
  - destruct K as [R K]. destruct (copy_aeq a (reachable_ok _ R) K) as (b & -> & H). cbn [obind]. eexists. split; [reflexivity|]. split; [constructor; exact H|].
    cbn [z_size z_is_circle]. split; [symmetry; apply ceq_size, H|symmetry; apply H].
  - destruct K as [l K]. rewrite (TemporalProps2.pickle_built l c K). cbn [obind]. eexists. split; [reflexivity|]. split; [constructor|]. auto.
Qed.
(** A copy of a 2-D grid gives the same answer as the grid for every point, every interpolator and both
    values of [bounds_error]. *)
Theorem C125_grid2 : forall ax ay arr g, new_grid2 ax ay arr = Ok g -> reachable ax -> reachable ay -> keeps_kind ax -> keeps_kind ay ->
  exists g', grid2_copy g = Ok g' /\ g2_array g' = arr /\
    forall d c f be x y, respects d -> respects c -> same_answer (bivariate d c g f be x y) (bivariate d c g' f be x y).
Proof.
  intros ax ay arr g G RX RY KX KY. destruct (copy_aeq ax (reachable_ok _ RX) KX) as (bx & EX & HX). destruct (copy_aeq ay (reachable_ok _ RY) KY) as (b & EY & HY).
  assert (N : new_grid2 bx b arr = Ok (Grid2 bx b arr)).
  { unfold new_grid2, new_grid2_dim in *. rewrite <- (ceq_size _ _ (proj2 (proj2 HX))), <- (ceq_size _ _ (proj2 (proj2 HY))), <- (proj1 HY).
    destruct (check_ndim arr 2) as [[]|?|?]; cbn [obind] in *; try discriminate G. destruct (check_shape arr 0 _) as [[]|?|?]; cbn [obind] in *; try discriminate G.
    destruct (check_shape arr 1 _) as [[]|?|?]; cbn [obind] in *; try discriminate G. destruct (a_is_circle ay); cbn [obind] in *; try discriminate G. reflexivity. }
  apply new_grid2_inv in G as (-> & _). exists (Grid2 bx b arr). unfold grid2_copy. cbn [g2_x g2_y g2_array]. rewrite EX. cbn [obind]. rewrite EY. cbn [obind]. split; [exact N|]. split; [reflexivity|].
  intros d c f be x y D C. apply biv_comp; assumption.
Qed.
Print Assumptions C125_grid2.
Theorem C125_grid3 : forall ax ay az arr g, new_grid3 ax ay az arr = Ok g -> reachable ax -> reachable ay -> keeps_kind ax -> keeps_kind ay -> z_kept az ->
  exists g', grid3_copy g = Ok g' /\ g3_array g' = arr /\
    forall d c f m zf be x y z, respects d -> respects c -> z_method m = Ok zf -> same_answer (trivariate d c g f zf be x y z) (trivariate d c g' f zf be x y z).
Proof.
  intros ax ay az arr g G RX RY KX KY KZ. destruct (copy_aeq ax (reachable_ok _ RX) KX) as (bx & EX & HX). destruct (copy_aeq ay (reachable_ok _ RY) KY) as (b & EY & HY).
  destruct (z_copy_eq az KZ) as (bz & EZ & HZ & SZ & CZ).
  assert (N : new_grid3 bx b bz arr = Ok (Grid3 bx b bz arr)).
  { unfold new_grid3, new_grid3_dim, new_grid2_dim in *. rewrite <- (ceq_size _ _ (proj2 (proj2 HX))), <- (ceq_size _ _ (proj2 (proj2 HY))), <- (proj1 HY), SZ, CZ.
    destruct (check_ndim arr 3) as [[]|?|?]; cbn [obind] in *; try discriminate G. destruct (check_shape arr 0 _) as [[]|?|?]; cbn [obind] in *; try discriminate G.
    destruct (check_shape arr 1 _) as [[]|?|?]; cbn [obind] in *; try discriminate G. destruct (a_is_circle ay); cbn [obind] in *; try discriminate G.
    destruct (check_shape arr 2 _) as [[]|?|?]; cbn [obind] in *; try discriminate G. destruct (z_is_circle az); cbn [obind] in *; try discriminate G. reflexivity. }
  apply new_grid3_inv in G as (-> & _). exists (Grid3 bx b bz arr). unfold grid3_copy. cbn [g3_x g3_y g3_z g3_array]. rewrite EX. cbn [obind]. rewrite EY. cbn [obind]. rewrite EZ. cbn [obind]. split; [exact N|]. split; [reflexivity|].
  intros d c f m zf be x y z D C M. eapply tri_comp; eassumption.
Qed.
Print Assumptions C125_grid3.
Theorem C125_grid4 : forall ax ay az au arr g, new_grid4 ax ay az au arr = Ok g -> reachable ax -> reachable ay -> reachable au -> keeps_kind ax -> keeps_kind ay -> keeps_kind au -> z_kept az ->
  exists g', grid4_copy g = Ok g' /\ g4_array g' = arr /\
    forall d c f m zf n uf be x y z u, respects d -> respects c -> z_method m = Ok zf -> z_method n = Ok uf ->
      same_answer (quadrivariate d c g f zf uf be x y z u) (quadrivariate d c g' f zf uf be x y z u).
Proof.
  intros ax ay az au arr g G RX RY RU KX KY KU KZ. destruct (copy_aeq ax (reachable_ok _ RX) KX) as (bx & EX & HX). destruct (copy_aeq ay (reachable_ok _ RY) KY) as (b & EY & HY).
  destruct (copy_aeq au (reachable_ok _ RU) KU) as (bu & EU & HU). destruct (z_copy_eq az KZ) as (bz & EZ & HZ & SZ & CZ).
  assert (N : new_grid4 bx b bz bu arr = Ok (Grid4 bx b bz bu arr)).
  { unfold new_grid4, new_grid3_dim, new_grid2_dim in *. rewrite <- (ceq_size _ _ (proj2 (proj2 HX))), <- (ceq_size _ _ (proj2 (proj2 HY))), <- (ceq_size _ _ (proj2 (proj2 HU))), <- (proj1 HY), <- (proj1 HU), SZ, CZ.
    destruct (check_ndim arr 4) as [[]|?|?]; cbn [obind] in *; try discriminate G. destruct (check_shape arr 0 _) as [[]|?|?]; cbn [obind] in *; try discriminate G.
    destruct (check_shape arr 1 _) as [[]|?|?]; cbn [obind] in *; try discriminate G. destruct (a_is_circle ay); cbn [obind] in *; try discriminate G.
    destruct (check_shape arr 2 _) as [[]|?|?]; cbn [obind] in *; try discriminate G. destruct (z_is_circle az); cbn [obind] in *; try discriminate G.
    destruct (check_shape arr 3 _) as [[]|?|?]; cbn [obind] in *; try discriminate G. destruct (a_is_circle au); cbn [obind] in *; try discriminate G. reflexivity. }
  apply new_grid4_inv in G as (-> & _). exists (Grid4 bx b bz bu arr). unfold grid4_copy. cbn [g4_x g4_y g4_z g4_u g4_array].
  rewrite EX. cbn [obind]. rewrite EY. cbn [obind]. rewrite EZ. cbn [obind]. rewrite EU. cbn [obind]. split; [exact N|]. split; [reflexivity|].
  intros d c f m zf n uf be x y z u D C M M'. eapply quad_comp; eassumption.
Qed.
Print Assumptions C125_grid4.

(** The copy of a temporal grid has the same numbers on its temporal axis, but they are not dates any more:
    the unit is lost and dates cannot be converted with [grid.z]. *)
Theorem C125_dates_refuted : forall g t g', tg_z g = PyTemporalAxis t -> tgrid3_copy g = Ok g' ->
  (exists c, tg_z g' = PyAxisInt64 c /\ i_pickle (t_cont t) = Ok c) /\ forall calendar strict a, exists w, py_safe_cast calendar strict (tg_z g') a = Throw w.
Proof.
  intros [x y z arr] t g' E H. cbn [tg_z] in E. subst z. unfold tgrid3_copy, grid3_copy, core_grid in H. cbn [g3_x g3_y g3_z g3_array tg_x tg_y tg_z tg_array py_cont z_copy] in H.
  destruct (axis_copy x) as [bx|?|?]; cbn [obind] in H; try discriminate H. destruct (axis_copy y) as [b|?|?]; cbn [obind] in H; try discriminate H.
  destruct (i_pickle (t_cont t)) as [c|?|?] eqn:P; cbn [obind] in H; try discriminate H. destruct (new_grid3 bx b (ZTime c) arr) as [g|?|?] eqn:N; cbn [obind] in H; try discriminate H.
  apply new_grid3_inv in N as (-> & _). cbn [g3_z g3_x g3_y g3_array] in H. assert (G : g' = TGrid3 bx b (PyAxisInt64 c) arr) by congruence. subst g'. cbn [tg_z]. split; [eauto|].
  intros. eexists. reflexivity.
Qed.
Print Assumptions C125_dates_refuted.
(** ** Examples *)
Definition seconds : taxis := TAxis times kDatetime64 kSecond.
Definition dated : tgrid3 := TGrid3 ax3 ax3 (PyTemporalAxis seconds) ramp3.
Example ex_dated : temporal_axis (TemporalProps.dates kDatetime64 kSecond [0; 10; 20; 30]) = Ok seconds /\ new_grid3 ax3 ax3 (ZTime times) ramp3 = Ok (core_grid dated) /\
  (exists g', tgrid3_copy dated = Ok g') /\
  py_safe_cast (fun _ _ _ x => x) false (tg_z dated) (TemporalProps.dates kDatetime64 kMillisecond [5000]) = Ok [5].
Proof. split; [vm_compute; reflexivity|]. split; [reflexivity|]. split; [eexists; vm_compute; reflexivity|vm_compute; reflexivity]. Qed.
Lemma taxi_respects : respects taxi0.
Proof. intros p p' q q' H1 H2 H3 H4. unfold taxi0. rewrite H1, H2, H3, H4. reflexivity. Qed.
Example ex_kept : keeps_kind ax3 /\ keeps_kind ax4 /\ z_kept (ZTime times) /\ respects taxi0.
Proof.
  split; [split; [reflexivity|discriminate]|]. split; [split; [reflexivity|vm_compute; auto]|]. split; [exists [0; 10; 20; 30]; reflexivity|exact taxi_respects].
Qed.
Example ex_copy : exists g', grid2_copy (Grid2 ax4 ax3 turn4) = Ok g' /\
  exists v, bivariate taxi0 taxi0 g' Bilinear false 45 1 = Ok (Some v) /\ (v == 45)%Q.
Proof. eexists. split; [vm_compute; reflexivity|]. eexists. split; [vm_compute; reflexivity|reflexivity]. Qed.

(** Longitudes which do not close the circle: the point 361 is interpolated before and outside after. *)
Definition lon20 : axis := match axis_of_values [0; 10; 20]%Q (1 # 1000000) true with Ok a => a | _ => mk_axis false None CUndef end.
Theorem C125_angle_refuted : exists ax ay arr g g' v, new_grid2 ax ay arr = Ok g /\ reachable ax /\ reachable ay /\ 1 < len ax /\ 1 < len ay /\ grid2_copy g = Ok g' /\
  bivariate taxi0 taxi0 g Bilinear false 365 1 = Ok (Some v) /\ bivariate taxi0 taxi0 g' Bilinear false 365 1 = Ok None.
Proof.
  exists lon20, ax3, ramp, (Grid2 lon20 ax3 ramp). eexists. eexists. split; [reflexivity|].
  split; [apply (reach_values [0; 10; 20]%Q (1 # 1000000) true); [discriminate|vm_compute; reflexivity]|]. split; [exact ax3_reachable|]. split; [reflexivity|]. split; [reflexivity|].
  split; [vm_compute; reflexivity|]. split; vm_compute; reflexivity.
Qed.
Print Assumptions C125_angle_refuted.
(** A temporal axis reversed in place (a grid made with [increasing_axes='inplace'] does it, [flip(inplace=True)]
    also): the grid and its copy disagree. *)
Definition curved : ndarray := NdArray [3; 3; 4] (fun i => match i with [i; j; k] => Some (inject_Z (k * k)) | _ => None end).
Theorem C125_flipped_refuted : exists ax ay c arr g g' v v', new_grid3 ax ay (ZTime (i_flip c)) arr = Ok g /\ reachable ax /\ reachable ay /\ int_axis_of_values [0; 10; 20; 30] = Ok c /\ grid3_copy g = Ok g' /\
  trivariate taxi0 taxi0 g Bilinear linear_z false 1 1 16 = Ok (Some v) /\ trivariate taxi0 taxi0 g' Bilinear linear_z false 1 1 16 = Ok (Some v') /\ (v == 11 # 5)%Q /\ (v' == 7 # 5)%Q.
Proof.
  exists ax3, ax3, times, curved. eexists. eexists. eexists. eexists. split; [reflexivity|]. split; [exact ax3_reachable|]. split; [exact ax3_reachable|]. split; [reflexivity|].
  split; [vm_compute; reflexivity|]. split; [vm_compute; reflexivity|]. split; [vm_compute; reflexivity|]. split; reflexivity.
Qed.
Print Assumptions C125_flipped_refuted.
