(** Theorems about the descriptive statistics (properties C35, C36, C37).

    [is x q] (StatsProofs.v) says that the number [x] computed by the code is the rational
    [q]; the textbook quantities [weight], [mean], [moment], [total], [is_least] and
    [is_greatest] are those of StatsSpec.v. *)
From Verif Require Import Base BaseProofs StatsModel StatsSpec StatsProofs StatsProofs2.
From Coq Require Import Permutation.
Open Scope Z_scope.

(** What a user reads from an accumulator, against the textbook. *)
Definition textbook (a : acc) (l : list sample) : Prop :=
  a_count a = zlen l /\
  is (a_sow a) (weight l) /\
  is (acc_get_mean a) (mean l) /\
  is (a_sum a) (total (fun v => v) l) /\
  (forall ddof, (inject_Z ddof < weight l)%Q -> is (acc_variance a ddof) (moment 2 l / (weight l - inject_Z ddof))) /\
  (forall ddof, (weight l <= inject_Z ddof)%Q -> acc_variance a ddof = NaN) /\
  (~ (moment 2 l == 0)%Q -> is (acc_kurtosis a) (weight l * moment 4 l / (moment 2 l * moment 2 l) - 3)) /\
  ((moment 2 l == 0)%Q -> acc_kurtosis a = NaN) /\
  (* the two terms of the skewness  sqrt(weight) * third moment / second moment^1.5 *)
  is (a_mom2 a) (moment 2 l) /\ is (a_mom3 a) (moment 3 l).

Definition extremes (a : acc) (l : list Q) : Prop :=
  exists lo hi, is (acc_get_min a) lo /\ is (acc_get_max a) hi /\ is_least lo l /\ is_greatest hi l.

Lemma zlen_pos : forall {A : Type} (l : list A), l <> [] -> 0 < zlen l.
Proof. intros A [|x l] H; [congruence|]. unfold zlen. cbn [length]. lia. Qed.

Lemma textbook_of : forall a l, l <> [] -> moments_of a l -> textbook a l.
Proof.
  intros a l Hn (M0 & M1 & M2 & M3 & M4 & M5 & M6). pose proof (zlen_pos l Hn) as P.
  repeat split; try assumption.
  - unfold acc_get_mean. replace (a_count a =? 0) with false by lia. exact M2.
  - intros ddof H. unfold acc_variance.
    assert (C : is (a_sow a - N (inject_Z ddof))%num (weight l - inject_Z ddof)) by is_tac.
    destruct C as (c & C1 & C2). rewrite C1. unfold nle. destruct (Qle_bool c 0) eqn:E; [apply Qle_bool_iff in E; lra|].
    apply is_div; [exact M4|apply is_N; exact C2|]. lra.
  - intros ddof H. unfold acc_variance.
    assert (C : is (a_sow a - N (inject_Z ddof))%num (weight l - inject_Z ddof)) by is_tac.
    destruct C as (c & C1 & C2). rewrite C1. unfold nle. replace (Qle_bool c 0) with true; [reflexivity|].
    symmetry. apply Qle_bool_iff. lra.
  - intros H. unfold acc_kurtosis. rewrite (is_eq0 _ _ M4).
    destruct (Qeq_bool (moment 2 l) 0) eqn:E; [apply Qeq_bool_iff in E; contradiction|].
    assert (~ (moment 2 l * moment 2 l == 0)%Q) by (intro C; apply Qmult_integral in C; tauto). is_tac.
  - intros H. unfold acc_kurtosis. rewrite (is_eq0 _ _ M4). apply Qeq_bool_iff in H. rewrite H. reflexivity.
Qed.
Lemma extremes_get : forall a (l : list sample) s, l <> [] -> a_count a = zlen l -> extremes_of a s -> extremes a s.
Proof.
  intros a l s Hn C (lo & hi & A & B & D & E). pose proof (zlen_pos l Hn). exists lo, hi.
  unfold acc_get_min, acc_get_max. replace (a_count a =? 0) with false by lia. auto.
Qed.

(** * C35 descriptive statistics are the textbook ones *)
(** Without weights (NaN values are skipped): everything, extremes included. *)
Theorem C35_statistics : forall values,
  let l := defined (map (fun v => (v, 1%Q)) values) in
  l <> [] -> textbook (push_all values) l /\ extremes (push_all values) (map fst l).
Proof.
  intros values l Hn. destruct (push_all_ok values) as [[E _]|(_ & M & X)]; [contradiction|].
  split; [apply textbook_of; assumption|]. eapply extremes_get; [exact Hn|apply M|exact X].
Qed.
Print Assumptions C35_statistics.

(** With positive weights: the same; the extremes are those of weight * value. *)
Theorem C35_weighted : forall values, positive_weights (defined values) -> defined values <> [] ->
  textbook (push_all_weighted values) (defined values) /\
  extremes (push_all_weighted values) (map (fun s => (snd s * fst s)%Q) (defined values)).
Proof.
  intros values P Hn. destruct (push_all_weighted_ok values P) as [[E _]|(_ & M & X)]; [contradiction|].
  split; [apply textbook_of; assumption|]. eapply extremes_get; [exact Hn|apply M|exact X].
Qed.
Print Assumptions C35_weighted.

(** No data: the count is null and mean, extremes and variance are NaN. *)
Theorem C35_no_data : forall values, defined values = [] ->
  let a := push_all_weighted values in
  a_count a = 0 /\ acc_get_mean a = NaN /\ acc_get_min a = NaN /\ acc_get_max a = NaN /\ acc_variance a 0 = NaN.
Proof.
  intros values E a. unfold a. destruct (push_all_weighted_ok values) as [[_ ->]|(H & _)]; [rewrite E; intros s []| |contradiction].
  repeat split; reflexivity.
Qed.

(** The minimum and maximum of weighted data are not those of the data. *)
Theorem C35_weighted_extremes_refuted : exists values,
  positive_weights (defined values) /\ defined values <> [] /\
  ~ extremes (push_all_weighted values) (map fst (defined values)).
Proof.
  exists [(Some 5%Q, 2%Q)]. split; [intros s [<-|[]]; reflexivity|]. split; [discriminate|].
  intros (lo & hi & (q & A1 & A2) & _ & ((x & [X|[]] & X2) & _) & _). vm_compute in A1. cbn in X. subst x.
  assert (q = (10 # 1)%Q) by congruence. subst q. rewrite <- A2 in X2. discriminate X2.
Qed.

(** A sample of null weight pushed first is not counted. *)
Theorem C35_null_weight_refuted :
  a_count (push_all_weighted [(Some 1%Q, 0%Q); (Some 2%Q, 1%Q)]) = 1.
Proof. reflexivity. Qed.

Example C35_ex : let a := push_all_weighted [(Some 1%Q, 2%Q); (None, 7%Q); (Some 4%Q, 1%Q)] in
  a_count a = 2 /\ is (acc_get_mean a) 2 /\ is (acc_variance a 0) 2 /\ is (acc_get_max a) 4.
Proof. cbn zeta. repeat split; eexists; (split; [vm_compute; reflexivity|reflexivity]). Qed.

(** * C36 merging *)
(** [a += b] gives the statistics of the concatenation as soon as one operand has data. *)
Lemma merge_moments : forall x y, positive_weights (defined x) -> positive_weights (defined y) ->
  defined x ++ defined y <> [] ->
  moments_of (acc_merge (push_all_weighted x) (push_all_weighted y)) (defined x ++ defined y).
Proof.
  intros x y Px Py Hn.
  destruct (push_all_weighted_ok x Px) as [[Ex Ax]|(Nx & Mx & Xx)], (push_all_weighted_ok y Py) as [[Ey Ay]|(Ny & My & Xy)].
  - rewrite Ex, Ey in Hn. contradiction.
  - rewrite Ex, Ax. cbn [app]. pose proof (weight_pos _ Py Ny) as W. set (l := defined y) in *.
    destruct My as (M0 & M1 & M2 & M3 & M4 & M5 & M6). unfold moments_of, acc_merge, acc_empty; cbn [a_count a_sow a_mean a_sum a_mom2 a_mom3 a_mom4].
    assert (D : ~ (0 + weight l == 0)%Q) by lra.
    split; [lia|]. repeat split; (eapply is_eq; [is_tac|]); field; lra.
  - rewrite Ey, Ay, app_nil_r. pose proof (weight_pos _ Px Nx) as W. set (l := defined x) in *.
    destruct Mx as (M0 & M1 & M2 & M3 & M4 & M5 & M6). unfold moments_of, acc_merge, acc_empty; cbn [a_count a_sow a_mean a_sum a_mom2 a_mom3 a_mom4].
    assert (D : ~ (weight l + 0 == 0)%Q) by lra.
    split; [lia|]. repeat split; (eapply is_eq; [is_tac|]); field; lra.
  - pose proof (weight_pos _ Px Nx). pose proof (weight_pos _ Py Ny). apply moments_merge; try assumption; lra.
Qed.

Lemma defined_app : forall x y, defined (x ++ y) = defined x ++ defined y.
Proof. intros. unfold defined. apply flat_map_app. Qed.
Lemma positive_app : forall x y, positive_weights (x ++ y) <-> positive_weights x /\ positive_weights y.
Proof.
  intros x y. unfold positive_weights. split.
  - intro H. split; intros s Hs; apply H; apply in_or_app; auto.
  - intros [H1 H2] s Hs. apply in_app_or in Hs. destruct Hs; auto.
Qed.

Theorem C36_merge : forall x y, positive_weights (defined (x ++ y)) -> defined (x ++ y) <> [] ->
  textbook (acc_merge (push_all_weighted x) (push_all_weighted y)) (defined (x ++ y)) /\
  (defined x <> [] -> defined y <> [] ->
   extremes (acc_merge (push_all_weighted x) (push_all_weighted y)) (map (fun s => (snd s * fst s)%Q) (defined (x ++ y)))).
Proof.
  intros x y P Hn. rewrite defined_app in *. apply positive_app in P. destruct P as [Px Py].
  pose proof (merge_moments x y Px Py Hn) as M. split; [apply textbook_of; assumption|].
  intros Nx Ny. eapply extremes_get; [exact Hn|apply M|]. rewrite map_app. apply extremes_merge.
  - destruct (push_all_weighted_ok x Px) as [[E _]|(_ & _ & X)]; [contradiction|exact X].
  - destruct (push_all_weighted_ok y Py) as [[E _]|(_ & _ & X)]; [contradiction|exact X].
Qed.
Print Assumptions C36_merge.

(** Any number of chunks, each with data, accumulated in turn. *)
Theorem C36_chunks : forall first rest,
  (forall c, In c (first :: rest) -> positive_weights (defined c) /\ defined c <> []) ->
  let a := fold_left acc_merge (map push_all_weighted rest) (push_all_weighted first) in
  let l := defined (concat (first :: rest)) in
  textbook a l /\ extremes a (map (fun s => (snd s * fst s)%Q) l).
Proof.
  intros first rest H a l.
  assert (G : forall rest b m, positive_weights m -> m <> [] -> moments_of b m -> extremes_of b (map (fun s => (snd s * fst s)%Q) m) ->
    (forall c, In c rest -> positive_weights (defined c) /\ defined c <> []) ->
    let a := fold_left acc_merge (map push_all_weighted rest) b in
    moments_of a (m ++ defined (concat rest)) /\ extremes_of a (map (fun s => (snd s * fst s)%Q) (m ++ defined (concat rest)))).
  { clear. induction rest as [|c rest IH]; intros b m Pm Nm M X H; cbn [map fold_left concat]; [cbn; rewrite app_nil_r; auto|].
    destruct (H c (or_introl eq_refl)) as [Pc Nc]. rewrite defined_app, app_assoc.
    destruct (push_all_weighted_ok c Pc) as [[E _]|(_ & Mc & Xc)]; [contradiction|].
    pose proof (weight_pos _ Pm Nm). pose proof (weight_pos _ Pc Nc). apply IH.
    - apply positive_app; auto.
    - intro E. apply app_eq_nil in E. tauto.
    - apply moments_merge; try assumption; lra.
    - rewrite map_app. apply extremes_merge; assumption.
    - intros d Hd. apply H. right; exact Hd. }
  destruct (H first (or_introl eq_refl)) as [P0 N0].
  destruct (push_all_weighted_ok first P0) as [[E _]|(_ & M0 & X0)]; [contradiction|].
  destruct (G rest _ _ P0 N0 M0 X0) as [M X]; [intros c Hc; apply H; right; exact Hc|].
  assert (L : l = defined first ++ defined (concat rest)) by (unfold l; cbn [concat]; apply defined_app).
  rewrite L. assert (Nl : defined first ++ defined (concat rest) <> []) by (intro C; apply app_eq_nil in C; tauto).
  split; [apply textbook_of; assumption|]. eapply extremes_get; [exact Nl|apply M|exact X].
Qed.
Print Assumptions C36_chunks.

(** The order of the samples does not matter: the textbook quantities are unchanged. *)
Lemma total_perm : forall f l m, Permutation l m -> (total f l == total f m)%Q.
Proof. induction 1 as [|[v w] l m _ IH|[v w] [v' w'] l|l m n _ IH1 _ IH2]; cbn [total]; try reflexivity; [rewrite IH; reflexivity|ring|rewrite IH1; exact IH2]. Qed.
Lemma total_ext : forall f g l, (forall v, f v == g v)%Q -> (total f l == total g l)%Q.
Proof. intros f g l H. induction l as [|[v w] l IH]; cbn [total]; [reflexivity|]. rewrite IH, H. reflexivity. Qed.
Theorem C36_order : forall x y, Permutation (defined x) (defined y) -> positive_weights (defined x) -> defined x <> [] ->
  let a := push_all_weighted x in let b := push_all_weighted y in
  a_count a = a_count b /\
  exists w m s v2 v3 v4,
    is (a_sow a) w /\ is (a_sow b) w /\ is (a_mean a) m /\ is (a_mean b) m /\ is (a_sum a) s /\ is (a_sum b) s /\
    is (a_mom2 a) v2 /\ is (a_mom2 b) v2 /\ is (a_mom3 a) v3 /\ is (a_mom3 b) v3 /\ is (a_mom4 a) v4 /\ is (a_mom4 b) v4.
Proof.
  intros x y Pm P Hn a b.
  assert (Py : positive_weights (defined y)) by (intros s Hs; apply P; eapply Permutation_in; [symmetry; exact Pm|exact Hs]).
  assert (Ny : defined y <> []) by (intro E; rewrite E in Pm; apply Permutation_sym, Permutation_nil in Pm; contradiction).
  destruct (push_all_weighted_ok x P) as [[E _]|(_ & (A0 & A1 & A2 & A3 & A4 & A5 & A6) & _)]; [contradiction|].
  destruct (push_all_weighted_ok y Py) as [[E _]|(_ & (B0 & B1 & B2 & B3 & B4 & B5 & B6) & _)]; [contradiction|].
  assert (W : (weight (defined x) == weight (defined y))%Q) by (apply total_perm; exact Pm).
  assert (Mn : (mean (defined x) == mean (defined y))%Q).
  { unfold mean. rewrite W. rewrite (total_perm _ _ _ Pm). reflexivity. }
  assert (Mk : forall k, (moment k (defined x) == moment k (defined y))%Q).
  { intro k. unfold moment. rewrite (total_perm _ _ _ Pm). apply total_ext. intro v. rewrite Mn. reflexivity. }
  split.
  - unfold a, b. rewrite A0, B0. unfold zlen. rewrite (Permutation_length Pm). reflexivity.
  - exists (weight (defined x)), (mean (defined x)), (total (fun v => v) (defined x)), (moment 2 (defined x)), (moment 3 (defined x)), (moment 4 (defined x)).
    unfold a, b. repeat split; try assumption.
    + eapply is_eq; [exact B1|]. symmetry. exact W.
    + eapply is_eq; [exact B2|]. symmetry. exact Mn.
    + eapply is_eq; [exact B3|]. symmetry. apply total_perm; exact Pm.
    + eapply is_eq; [exact B4|]. symmetry. apply Mk.
    + eapply is_eq; [exact B5|]. symmetry. apply Mk.
    + eapply is_eq; [exact B6|]. symmetry. apply Mk.
Qed.
Print Assumptions C36_order.

(** With an empty operand the extremes become wrong (its fields are null). *)
Theorem C36_empty_extremes_refuted :
  let data := push_all [Some 3%Q; Some 5%Q] in
  is (acc_get_min (acc_merge data acc_empty)) 0 /\ is (acc_get_min (acc_merge acc_empty data)) 0 /\
  is (acc_get_max (acc_merge (push_all [Some (-3)%Q]) acc_empty)) 0.
Proof. cbn zeta. repeat split; eexists; (split; [vm_compute; reflexivity|reflexivity]). Qed.

(** Merging two empty operands produces NaN, and everything merged or pushed later is lost. *)
Theorem C36_empty_empty_refuted : forall b v,
  let poisoned := acc_merge acc_empty acc_empty in
  a_mean (acc_merge poisoned b) = NaN /\ a_mom2 (acc_merge poisoned b) = NaN /\
  acc_get_mean (acc_merge poisoned (push_all [Some v])) = NaN.
Proof. intros b v poisoned. repeat split; reflexivity. Qed.

Example C36_ex : let x := [(Some 1%Q, 1%Q); (Some 2%Q, 3%Q)] in let y := [(Some 7%Q, 2%Q)] in
  positive_weights (defined (x ++ y)) /\ defined x <> [] /\ defined y <> [] /\
  is (a_mean (acc_merge (push_all_weighted x) (push_all_weighted y))) (7 # 2).
Proof.
  cbn zeta. split; [intros s [<-|[<-|[<-|[]]]]; reflexivity|]. split; [discriminate|]. split; [discriminate|].
  eexists; (split; [vm_compute; reflexivity|reflexivity]).
Qed.

(** * C37 reduction along axes *)
(** Each cell of the result holds the statistics of exactly the elements whose index, with
    the reduced axes removed, is the index of the cell. *)
Theorem C37_reduction : forall shape axes (value : list Z -> option Q * Q),
  Forall (fun d => 0 <= d) shape -> axes <> [] -> Forall (fun a => 0 <= a < zlen shape) axes ->
  exists cells, stats_reduce shape (c_strides shape) axes (map value (indices shape)) = Ok cells /\
    zlen cells = size_of (keep axes 0 shape) /\
    forall k, in_shape (keep axes 0 shape) k ->
      znth cells (position (keep axes 0 shape) k) =
      Some (push_all_weighted (map value
              (filter (fun i => if list_eq_dec Z.eq_dec (keep axes 0 i) k then true else false) (indices shape)))).
Proof. exact stats_reduce_ok. Qed.
Print Assumptions C37_reduction.

(** [indices] is the list of all the indexes in the shape, in C order and without repetition. *)
Theorem C37_indices : forall shape, Forall (fun d => 0 <= d) shape ->
  zlen (indices shape) = size_of shape /\
  forall n i, nth_error (indices shape) n = Some i <-> (in_shape shape i /\ position shape i = Z.of_nat n).
Proof.
  intros shape H. destruct (indices_spec shape H) as [C L]. split; [exact L|].
  assert (G : forall l p n i, consecutive shape p l -> nth_error l n = Some i -> in_shape shape i /\ position shape i = p + Z.of_nat n).
  { induction l as [|j l IH]; intros p n i Hc E; destruct n; cbn in *; try discriminate.
    - assert (i = j) by congruence. subst. destruct Hc as (A & B & _). split; [exact A|lia].
    - destruct Hc as (_ & _ & D). destruct (IH _ _ _ D E). split; [assumption|lia]. }
  intros n i. split; [intro E; destruct (G _ _ _ _ C E); split; [assumption|lia]|].
  intros [A B]. pose proof (position_range _ _ A). destruct (nth_error (indices shape) n) as [j|] eqn:E.
  - destruct (G _ _ _ _ C E) as [A' B']. f_equal. eapply position_inj; try eassumption. lia.
  - apply nth_error_None in E. unfold zlen in L. lia.
Qed.
Print Assumptions C37_indices.

(** Axes out of range are refused. *)
Theorem C37_bad_axis : forall shape strides axes values a, In a axes -> ~ (0 <= a < zlen shape) ->
  exists w, stats_reduce shape strides axes values = Throw w.
Proof.
  intros shape strides axes values a Hin Hb. unfold stats_reduce. destruct axes as [|a0 t] eqn:E; [destruct Hin|]. rewrite <- E in *.
  replace (existsb (fun a : Z => a <? 0) axes || existsb (fun a : Z => zlen shape - 1 <? a) axes) with true; [eauto|].
  symmetry. apply orb_true_iff. destruct (Z_lt_dec a 0); [left|right]; apply existsb_exists; exists a; split; try assumption; lia.
Qed.

(** An empty selection of axes is undefined behaviour. *)
Theorem C37_no_axes_refuted : forall shape strides values, exists w, stats_reduce shape strides [] values = UB w.
Proof. intros. eexists. reflexivity. Qed.

(** The strides of the array are used to recover the indexes.  NumPy flags as C-contiguous
    any array whose dimensions of size 1 carry arbitrary strides: a 1x4 array obtained by
    transposing 4x1 has strides (1, 1) and all its values fall in the first cell; with a
    null stride ([numpy.newaxis]) the division by zero is undefined behaviour. *)
Theorem C37_unit_dimension_refuted :
  let data := map (fun v => (Some v, 1%Q)) [1; 2; 3; 4]%Q in
  (exists cells, stats_reduce [1; 4] [1; 1] [0] data = Ok cells /\ map a_count cells = [4; 0; 0; 0]) /\
  (exists w, stats_reduce [1; 4] [0; 1] [0] data = UB w).
Proof.
  cbn zeta. split.
  - eexists. split; [vm_compute; reflexivity|reflexivity].
  - eexists. vm_compute. reflexivity.
Qed.

Example C37_ex : exists cells, stats_reduce [2; 3] (c_strides [2; 3]) [0] (map (fun v => (Some v, 1%Q)) [1; 2; 3; 4; 5; 6]%Q) = Ok cells /\
  map a_count cells = [2; 2; 2] /\ is (a_sum (nth 1 cells acc_empty)) 7.
Proof. eexists. split; [vm_compute; reflexivity|]. split; [reflexivity|]. eexists; (split; [vm_compute; reflexivity|reflexivity]). Qed.
