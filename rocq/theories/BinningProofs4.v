(** Binning: merging and one-dimensional binning. *)
From Verif Require Import Base BaseProofs MathModel AxisModel AxisSpec AxisProofs AxisProofs2 AxisProofs5 StatsModel StatsSpec StatsProofs StatsProofs2 BinningModel BinningSpec BinningHistory BinningProofs BinningProofs2 BinningProofs3.
Open Scope Z_scope.

Lemma zlen_pos' : forall {A : Type} (l : list A), l <> [] -> 0 < zlen l.
Proof. intros A [|x l] H; [congruence|]. unfold zlen. cbn [length]. lia. Qed.
Lemma merge_cell_ok : forall a b l m el em, positive_weights l -> positive_weights m -> empty_or a l el -> empty_or b m em -> (l = [] -> el = []) -> (m = [] -> em = []) ->
  empty_or (merge_cell a b) (l ++ m) (el ++ em).
Proof.
  intros a b l m el em Pl Pm [[-> ->]|(Nl & Ml & Xl)] [[-> ->]|(Nm & Mm & Xm)] E1 E2.
  - left. split; reflexivity.
  - right. rewrite (E1 eq_refl). cbn [app]. unfold merge_cell. destruct Mm as (C & Mm). pose proof (zlen_pos' m Nm). cbn [acc_empty a_count]. destruct (Z.eqb_spec (a_count b) 0); [lia|]. cbn [Z.eqb negb andb]. split; [exact Nm|]. split; [split; [exact C|exact Mm]|exact Xm].
  - right. rewrite (E2 eq_refl), !app_nil_r. unfold merge_cell. destruct Ml as (C & Ml). pose proof (zlen_pos' l Nl). cbn [acc_empty a_count]. destruct (Z.eqb_spec (a_count a) 0); [lia|]. cbn [Z.eqb negb andb]. split; [exact Nl|]. split; [split; [exact C|exact Ml]|exact Xl].
  - right. split; [intro H; apply app_eq_nil in H; tauto|]. unfold merge_cell. pose proof Ml as (Cl & _). pose proof Mm as (Cm & _). pose proof (zlen_pos' l Nl). pose proof (zlen_pos' m Nm).
    destruct (Z.eqb_spec (a_count a) 0); [lia|]. destruct (Z.eqb_spec (a_count b) 0); [lia|]. cbn [negb andb].
    pose proof (weight_pos l Pl Nl). pose proof (weight_pos m Pm Nm). split; [apply moments_merge; try assumption; lra|apply extremes_merge; assumption].
Qed.
Lemma selects_app : forall (A : Type) (P : A -> Prop) l m sl sm, selects P l sl -> selects P m sm -> selects P (l ++ m) (sl ++ sm).
Proof. intros A P l m sl sm H K. induction H; cbn [app]; [exact K|constructor 2; assumption|constructor 3; assumption]. Qed.
Lemma selects_fun : forall (A : Type) (P : A -> Prop) l s1 s2, selects P l s1 -> selects P l s2 -> s1 = s2.
Proof.
  intros A P l s1 s2 H. revert s2. induction H as [|s l sel Hs H IH|s l sel Hs H IH]; intros s2 K; inversion K; subst; try contradiction; [reflexivity|f_equal; auto|auto].
Qed.
Lemma in_matrix_iff : forall r c i j, in_matrix r c i j = true <-> 0 <= i < r /\ 0 <= j < c.
Proof. intros r c i j. unfold in_matrix. rewrite !andb_true_iff, !Z.leb_le, !Z.ltb_lt. lia. Qed.

(** The values of some samples, with unit weights. *)
Definition unit_values (sel : list sample3) : list sample := unit_samples (map snd sel).
Lemma unit_values_app : forall l m, unit_values (l ++ m) = unit_values l ++ unit_values m.
Proof. intros l m. unfold unit_values, unit_samples. rewrite !map_app. unfold defined. apply flat_map_app. Qed.
Lemma empty_or_push_values : forall vs a l, positive_weights l -> Forall (fun s => snd s = 1%Q) l -> empty_or a l (map fst l) ->
  empty_or (fold_left push_value vs a) (l ++ unit_samples vs) (map fst (l ++ unit_samples vs)).
Proof.
  induction vs as [|[x|] vs IH]; intros a l P F S; cbn [fold_left].
  - unfold unit_samples; cbn. rewrite app_nil_r. exact S.
  - change (unit_samples (Some x :: vs)) with ([(x, 1%Q)] ++ unit_samples vs). rewrite app_assoc. apply IH.
    + intros s Hs. apply in_app_or in Hs. destruct Hs as [Hs|[<-|[]]]; [auto|reflexivity].
    + apply Forall_app. split; [exact F|constructor; [reflexivity|constructor]].
    + right. apply push_ok; assumption.
  - apply IH; assumption.
Qed.
(** A binning whose cells hold the statistics of the samples [l]. *)
Definition holds (b : binning) (l : list sample3) : Prop :=
  forall i j, 0 <= i < b_rows b -> 0 <= j < b_cols b ->
    exists sel, selects (of_bin (b_x b) (b_y b) i j) l sel /\ empty_or (b_acc b i j) (unit_values sel) (map fst (unit_values sel)).
Lemma holds_push : forall b l m b', axis_ok (b_x b) -> axis_ok (b_y b) -> holds b l -> push_loop push_nearest1 b m = Ok b' -> same_grid b b' /\ holds b' (l ++ m).
Proof.
  intros b l m b' OX OY H E. destruct (push_nearest_loop m b OX OY) as (b2 & E2 & G & C). rewrite E2 in E. injection E as ->. split; [exact G|].
  intros i j I J. destruct (same_grid_size _ _ G) as [GR GC]. destruct (H i j) as (sl & S1 & X1); [lia|lia|]. destruct (C i j) as (sm & S2 & X2). destruct G as (GX & GY & _). rewrite GX, GY. exists (sl ++ sm). split; [apply selects_app; assumption|].
  rewrite unit_values_app, X2. apply empty_or_push_values; [apply unit_positive|apply unit_positive|exact X1].
Qed.
Lemma holds_new : forall x y w, holds (new_binning x y w) [].
Proof. intros x y w i j _ _. exists []. split; [constructor|]. left. split; reflexivity. Qed.
(** ** Equal axes have the same bins *)
Definition same_values (a a' : axis) : Prop := len a = len a' /\ forall i v, at_index a i v -> exists w, at_index a' i w /\ (w == v)%Q.
Lemma list_eqb_nth : forall p p', list_Qeqb p p' = true -> length p = length p' /\ forall k v, nth_error p k = Some v -> exists w, nth_error p' k = Some w /\ (w == v)%Q.
Proof.
  induction p as [|u p IH]; intros [|w p'] E; cbn [list_Qeqb] in E; try discriminate.
  - split; [reflexivity|]. intros [|k] v H; discriminate.
  - apply andb_true_iff in E as [E1 E2]. apply Qeq_bool_iff in E1. destruct (IH p' E2) as [L H]. split; [cbn; lia|].
    intros [|k] v K; cbn [nth_error] in *; [injection K as <-; exists w; split; [reflexivity|symmetry; exact E1]|]. apply H. exact K.
Qed.
Lemma list_eqb_sym : forall p p', list_Qeqb p p' = true -> list_Qeqb p' p = true.
Proof.
  induction p as [|u p IH]; intros [|w p'] E; cbn [list_Qeqb] in *; try discriminate; [reflexivity|]. apply andb_true_iff in E as [E1 E2]. apply andb_true_iff. split; [|auto].
  apply Qeq_bool_iff in E1. apply Qeq_bool_iff. symmetry. exact E1.
Qed.
Lemma axis_eqb_sym : forall a a', axis_eqb a a' = true -> axis_eqb a' a = true.
Proof.
  intros a a' E. unfold axis_eqb in *. apply andb_true_iff in E as [E C]. apply andb_true_iff. split; [|destruct (a_is_circle a), (a_is_circle a'); exact C].
  destruct (a_cont a) as [|s p|s n f st inv], (a_cont a') as [|s' p'|s' n' f' st' inv']; cbn [c_eqb] in *; try discriminate; [reflexivity|apply list_eqb_sym; exact E|].
  apply andb_true_iff in E as [E E3]. apply andb_true_iff in E as [E1 E2]. apply Qeq_bool_iff in E1, E2. apply andb_true_iff. split; [apply andb_true_iff; split; apply Qeq_bool_iff; symmetry; assumption|lia].
Qed.
Lemma axis_eqb_values : forall a a', axis_eqb a a' = true -> same_values a a'.
Proof.
  intros a a' E. unfold axis_eqb in E. apply andb_true_iff in E as [E _]. unfold same_values, len, at_index, coordinate_value.
  destruct (a_cont a) as [|s p|s n f st inv], (a_cont a') as [|s' p'|s' n' f' st' inv']; cbn [c_eqb c_size c_value] in *; try discriminate.
  - split; [reflexivity|]. intros i v H. destruct ((i <? 0) || (i >=? 0)); discriminate.
  - destruct (list_eqb_nth p p' E) as [L H]. unfold zlen. rewrite L. split; [reflexivity|]. intros i v K. destruct ((i <? 0) || (i >=? Z.of_nat (length p'))) eqn:R; [discriminate|].
    unfold znth in *. apply orb_false_iff in R as [R _]. rewrite R in *. destruct (nth_error p (Z.to_nat i)) as [q|] eqn:Q; [|discriminate]. injection K as <-. destruct (H _ _ Q) as (w & -> & W). exists w. auto.
  - apply andb_true_iff in E as [E E3]. apply andb_true_iff in E as [E1 E2]. apply Qeq_bool_iff in E1, E2. apply Z.eqb_eq in E3. subst n'. split; [reflexivity|].
    intros i v K. destruct ((i <? 0) || (i >=? n)); [discriminate|]. injection K as <-. eexists. split; [reflexivity|]. rewrite E1, E2. reflexivity.
Qed.
Lemma same_values_bins : forall a a', same_values a a' -> same_values a' a -> is_angle a = is_angle a' -> forall x i, in_bin a x i -> in_bin a' x i.
Proof.
  intros a a' [_ H] [_ K] HA x i (r & R & v & Hv & N). exists r. split.
  - rewrite <- HA. destruct (is_angle a); [|exact R]. destruct R as [R (low & (k & Hk) & L & B)]. split; [exact R|]. destruct (H _ _ Hk) as (w & Hw & E).
    exists w. split; [eauto|]. split; [|split; rewrite E; apply B]. intros j u Hu. destruct (K _ _ Hu) as (u' & Hu' & E'). rewrite E, <- E'. apply (L _ _ Hu').
  - destruct (H _ _ Hv) as (w & Hw & E). exists w. split; [exact Hw|]. intros j u Hu. destruct (K _ _ Hu) as (u' & Hu' & E'). destruct (N _ _ Hu') as [N1 N2]. rewrite E, <- E'. auto.
Qed.
Lemma axis_eqb_bins : forall a a', axis_eqb a a' = true -> is_angle a = is_angle a' -> forall x i, in_bin a x i <-> in_bin a' x i.
Proof.
  intros a a' E HA x i. pose proof (axis_eqb_values _ _ E) as V. pose proof (axis_eqb_values _ _ (axis_eqb_sym _ _ E)) as V'. split; intro H; eapply same_values_bins; eauto.
Qed.
Lemma selects_iff : forall (A : Type) (P R : A -> Prop) l sel, (forall x, P x <-> R x) -> selects P l sel -> selects R l sel.
Proof. intros A P R l sel H S. induction S as [|s l sel Hs S IH|s l sel Hs S IH]; [constructor|constructor 2; [apply H; exact Hs|exact IH]|constructor 3; [intro X; apply Hs, H, X|exact IH]]. Qed.
Lemma holds_merge : forall b c l m b', is_angle (b_x b) = is_angle (b_x c) -> is_angle (b_y b) = is_angle (b_y c) -> holds b l -> holds c m -> add_in_place b c = Ok b' ->
  same_grid b b' /\ holds b' (l ++ m).
Proof.
  intros b c l m b' AX AY Hb Hc E. unfold add_in_place in E. destruct (axis_eqb (b_x b) (b_x c)) eqn:EX; [|discriminate]. destruct (axis_eqb (b_y b) (b_y c)) eqn:EY; [|discriminate]. cbn [negb orb] in E.
  destruct (wgs_differ (b_wgs b) (b_wgs c)); [discriminate|]. injection E as <-. split; [repeat split|].
  assert (RC : b_rows c = b_rows b /\ b_cols c = b_cols b) by (unfold b_rows, b_cols; split; symmetry; [apply (axis_eqb_values _ _ EX)|apply (axis_eqb_values _ _ EY)]).
  intros i j I J. change (0 <= i < b_rows b) in I. change (0 <= j < b_cols b) in J. cbn [with_acc b_acc b_x b_y].
  replace (in_matrix (b_rows b) (b_cols b) i j) with true by (symmetry; apply in_matrix_iff; auto).
  destruct (Hb i j I J) as (sl & S1 & X1). destruct (Hc i j) as (sm & S2 & X2); [lia|lia|]. exists (sl ++ sm). split.
  - apply selects_app; [exact S1|]. eapply selects_iff; [|exact S2]. intros [[x y] z]. unfold of_bin. cbn [fst snd].
    rewrite (axis_eqb_bins _ _ EX AX x i), (axis_eqb_bins _ _ EY AY y j). reflexivity.
  - rewrite unit_values_app, map_app. apply merge_cell_ok; [apply unit_positive|apply unit_positive|exact X1|exact X2|intros ->; reflexivity|intros ->; reflexivity].
Qed.

(** ** Equality of axes is transitive *)
Lemma list_eqb_trans : forall p q r, list_Qeqb p q = true -> list_Qeqb q r = true -> list_Qeqb p r = true.
Proof.
  induction p as [|a p IH]; intros [|b q] [|c r] E F; cbn [list_Qeqb] in *; try discriminate; [reflexivity|]. apply andb_true_iff in E as [E1 E2], F as [F1 F2].
  apply andb_true_iff. split; [|eauto]. apply Qeq_bool_iff in E1, F1. apply Qeq_bool_iff. rewrite E1. exact F1.
Qed.
Lemma axis_eqb_trans : forall a b c, axis_eqb a b = true -> axis_eqb b c = true -> axis_eqb a c = true.
Proof.
  intros a b c E F. unfold axis_eqb in *. apply andb_true_iff in E as [E C], F as [F D]. apply andb_true_iff. split; [|destruct (a_is_circle a), (a_is_circle b), (a_is_circle c); auto].
  destruct (a_cont a) as [|s p|s n f st inv], (a_cont b) as [|s' p'|s' n' f' st' inv'], (a_cont c) as [|s2 p2|s2 n2 f2 st2 inv2]; cbn [c_eqb] in *; try discriminate; [reflexivity|eapply list_eqb_trans; eassumption|].
  apply andb_true_iff in E as [E E3], F as [F F3]. apply andb_true_iff in E as [E1 E2], F as [F1 F2]. apply Qeq_bool_iff in E1, E2, F1, F2.
  apply andb_true_iff. split; [apply andb_true_iff; split; apply Qeq_bool_iff; [rewrite E1; exact F1|rewrite E2; exact F2]|lia].
Qed.
Lemma axis_eqb_refl : forall a, axis_eqb a a = true.
Proof.
  intros a. unfold axis_eqb. rewrite eqb_reflx, andb_true_r. destruct (a_cont a) as [|s p|s n f st inv]; cbn [c_eqb]; [reflexivity| |].
  - induction p as [|q p IH]; [reflexivity|]. cbn [list_Qeqb]. rewrite IH, andb_true_r. apply Qeq_bool_iff. reflexivity.
  - rewrite Z.eqb_refl, andb_true_r. apply andb_true_iff. split; apply Qeq_bool_iff; reflexivity.
Qed.
Lemma spheroid_eqb_refl : forall s, spheroid_eqb s s = true.
Proof. intro s. unfold spheroid_eqb. apply andb_true_iff. split; apply Qeq_bool_iff; reflexivity. Qed.
Lemma wgs_same : forall w, wgs_differ w w = false.
Proof. intros [s|]; [|reflexivity]. cbn. rewrite spheroid_eqb_refl. reflexivity. Qed.

(** ** Histories *)
Section History.
  Variables (geo : spheroid -> list point -> Q) (x y : axis) (wgs : option spheroid).
  (** The grid of the binning is the one it was created with. *)
  Definition on_grid (b : binning) : Prop :=
    axis_ok (b_x b) /\ axis_eqb (b_x b) x = true /\ is_angle (b_x b) = is_angle x /\ is_regular (b_x b) = is_regular x /\
    axis_ok (b_y b) /\ axis_eqb (b_y b) y = true /\ is_angle (b_y b) = is_angle y /\ is_regular (b_y b) = is_regular y /\ b_wgs b = wgs.
  Lemma restore_axis : forall a b, axis_ok b -> axis_eqb b a = true -> is_angle b = is_angle a -> is_regular b = is_regular a -> picklable a ->
    exists c, setstate (getstate b) = Ok c /\ axis_ok c /\ axis_eqb c b = true /\ len c = len b /\ is_angle c = is_angle b /\ is_regular c = is_regular b.
  Proof.
    intros a b OK E HA HR [P1 P2]. pose proof (axis_eqb_values _ _ E) as [L _].
    assert (Q1 : is_regular b = false \/ 1 < len b) by (rewrite HR, L; exact P1).
    assert (Q2 : is_angle b = true -> a_is_circle b = true).
    { intro H. rewrite HA in H. specialize (P2 H). unfold axis_eqb in E. apply andb_true_iff in E as [_ E]. apply eqb_prop in E. congruence. }
    destruct (pickle_roundtrip b OK Q1 Q2) as (c & S & Lc & Ec & Cc & Ac & Rc & _). exists c. split; [exact S|]. split; [|auto].
    eapply pickle_ok; eauto.
  Qed.
  Lemma holds_same : forall b c l, axis_eqb (b_x c) (b_x b) = true -> axis_eqb (b_y c) (b_y b) = true -> is_angle (b_x c) = is_angle (b_x b) -> is_angle (b_y c) = is_angle (b_y b) ->
    b_acc c = b_acc b -> holds b l -> holds c l.
  Proof.
    intros b c l EX EY AX AY EA H i j I J. unfold b_rows, b_cols in *. pose proof (proj1 (axis_eqb_values _ _ EX)) as LX. pose proof (proj1 (axis_eqb_values _ _ EY)) as LY. unfold len in *.
    destruct (H i j) as (sel & S & X); [unfold b_rows; lia|unfold b_cols; lia|]. exists sel. rewrite EA. split; [|exact X]. eapply selects_iff; [|exact S].
    intros [[u v] z]. unfold of_bin. cbn [fst snd]. rewrite (axis_eqb_bins _ _ EX AX u i), (axis_eqb_bins _ _ EY AY v j). reflexivity.
  Qed.
  Lemma history_ok : forall h, axis_ok x -> axis_ok y -> same_sizes h -> (restores h = true -> picklable x /\ picklable y /\ wgs = None) ->
    exists b, run geo x y wgs h = Ok b /\ on_grid b /\ holds b (samples_of h).
  Proof.
    intros h OX OY. induction h as [|h IH xs ys zs|h IH h' IH'|h IH|h IH]; intros SS PK; cbn [run samples_of same_sizes restores] in *.
    - eexists. split; [reflexivity|]. split; [|apply holds_new]. unfold on_grid. cbn [new_binning b_x b_y b_wgs]. auto 12 using axis_eqb_refl.
    - destruct SS as (SS & L1 & L2). destruct (IH SS PK) as (b & E & G & H). rewrite E. cbn [obind]. pose proof G as (GX & _ & _ & _ & GY & _).
      unfold push, zlen. rewrite <- L1, <- L2, Z.eqb_refl. cbn [negb orb].
      destruct (push_nearest_loop (combine (combine xs ys) zs) b GX GY) as (b' & E' & _ & _). destruct (holds_push b _ _ b' GX GY H E') as [(SX & SY & SW) H'].
      exists b'. split; [exact E'|]. split; [|exact H']. unfold on_grid in *. rewrite SX, SY, SW. exact G.
    - destruct SS as [S1 S2]. destruct (IH S1) as (b & E & G & H); [intro R; apply PK; rewrite R; reflexivity|]. destruct (IH' S2) as (c & F & K & H'); [intro R; apply PK; rewrite R; apply orb_true_r|].
      rewrite E. cbn [obind]. rewrite F. cbn [obind]. destruct G as (G1 & G2 & G3 & G4 & G5 & G6 & G7 & G8 & G9), K as (K1 & K2 & K3 & K4 & K5 & K6 & K7 & K8 & K9).
      assert (EX : axis_eqb (b_x b) (b_x c) = true) by (eapply axis_eqb_trans; [exact G2|apply axis_eqb_sym; exact K2]).
      assert (EY : axis_eqb (b_y b) (b_y c) = true) by (eapply axis_eqb_trans; [exact G6|apply axis_eqb_sym; exact K6]).
      destruct (add_in_place b c) as [b'|w|w] eqn:A; [|exfalso; unfold add_in_place in A; rewrite EX, EY, G9, K9, wgs_same in A; discriminate|exfalso; unfold add_in_place in A; rewrite EX, EY, G9, K9, wgs_same in A; discriminate].
      destruct (holds_merge b c _ _ b' ltac:(congruence) ltac:(congruence) H H' A) as [(SX & SY & SW) HM]. exists b'. split; [reflexivity|]. split; [|exact HM].
      unfold on_grid. rewrite SX, SY, SW. auto 12.
    - destruct (IH SS PK) as (b & E & G & H). rewrite E. cbn [obind]. eexists. split; [reflexivity|]. split; [exact G|]. intros i j _ _. exists []. split; [constructor|]. left. split; reflexivity.
    - destruct (PK eq_refl) as (PX & PY & PW). destruct (IH SS (fun _ => PK eq_refl)) as (b & E & G & H). rewrite E. cbn [obind].
      destruct G as (G1 & G2 & G3 & G4 & G5 & G6 & G7 & G8 & G9).
      destruct (restore_axis x (b_x b) G1 G2 G3 G4 PX) as (cx & SX & OKX & EX & LX & AX & RX). destruct (restore_axis y (b_y b) G5 G6 G7 G8 PY) as (cy & SY & OKY & EY & LY & AY & RY).
      unfold b_setstate, b_getstate. cbn [bs_x bs_y bs_wgs bs_rows bs_cols bs_acc]. rewrite SX. cbn [obind]. rewrite SY. cbn [obind]. rewrite G9, PW. unfold b_rows, b_cols. unfold len in LX, LY. rewrite LX, LY, !Z.eqb_refl. cbn [negb orb].
      eexists. split; [reflexivity|]. split.
      + unfold on_grid. cbn [b_x b_y b_wgs]. rewrite AX, AY, RX, RY, PW. repeat (split; [first [assumption|eapply axis_eqb_trans; eassumption|congruence]|]). reflexivity.
      + eapply holds_same; [| | | | |exact H]; cbn [b_x b_y b_acc]; auto.
  Qed.
End History.
