(** C113: fill.matrix and fill.vector; C114: fill.gauss_seidel. *)
From Coq Require Import Reals Permutation.
From Verif Require Import Base RelaxModel FillPyModel.
From Coq Require Import Lra.
Local Open Scope Z_scope.

(** * C113 *)
Lemma setn_same : forall A (l : list A) n v, (n < length l)%nat -> nth_error (set_nth n v l) n = Some v.
Proof. induction l as [|x l IH]; intros [|n] v L; cbn [length set_nth nth_error] in *; try lia; auto. apply IH. lia. Qed.
Lemma setn_other : forall A (l : list A) n k v, n <> k -> nth_error (set_nth n v l) k = nth_error l k.
Proof. induction l as [|x l IH]; intros [|n] [|k] v L; cbn [set_nth nth_error]; try lia; auto. Qed.
Lemma nth_lt : forall A (l : list A) n x, nth_error l n = Some x -> (n < length l)%nat.
Proof. intros A l n x H. apply nth_error_Some. congruence. Qed.
Lemma nth_last : forall A (l : list A) x, nth_error (l ++ [x]) (length l) = Some x.
Proof. intros. rewrite nth_error_app2, Nat.sub_diag by lia. reflexivity. Qed.

(** What is expected of a function that fills an array: the array answered is filled; it is the array
    given, changed alone, when [in_place], and a new one otherwise, the others being unchanged. *)
Definition fills {D : Type} (m : list (farray D)) (a : nat) (in_place : bool) (filled : D) (r : list (farray D) * outcome nat) : Prop :=
  exists m' b, r = (m', Ok b) /\ option_map f_data (nth_error m' b) = Some filled /\
    (if in_place then b = a /\ forall k, k <> a -> nth_error m' k = nth_error m k
     else b = length m /\ forall k, (k < length m)%nat -> nth_error m' k = nth_error m k).
Definition is_number (v : fillvalue) : Prop := match v with FVFloat _ | FVInt _ => True | FVDate _ => False end.

Theorem C113_matrix_partial : forall D cm m a (x : farray D) v in_place, nth_error m a = Some x -> f_dims x = 2 -> f_type x = TF64 -> is_number v ->
  in_place = false \/ f_writeable x = true ->
  fills m a in_place (cm TF64 v (f_data x)) (py_matrix D cm m a v in_place).
Proof.
  intros D cm m a x v in_place A Dm T V W. unfold py_matrix. rewrite A, Dm, T. cbn [Z.eqb Pos.eqb negb ftype_eqb]. pose proof (nth_lt _ _ _ _ A) as L.
  assert (AV : accepts_value TF64 v = true) by (destruct v; [reflexivity|reflexivity|contradiction]).
  destruct in_place; cbn [then_ np_copy]; unfold call_core.
  - rewrite A, T, AV. destruct W as [W|W]; [discriminate|]. rewrite W. cbn [ftype_eqb andb orb negb then_]. exists (set_nth a (set_data D x (cm TF64 v (f_data x))) m), a. split; [reflexivity|]. rewrite setn_same by exact L. split; [reflexivity|]. split; [reflexivity|]. intros k K. apply setn_other. auto.
  - rewrite nth_last. cbn [f_type f_writeable f_contiguous f_data]. rewrite T, AV. cbn [ftype_eqb andb orb negb then_]. eexists. exists (length m). split; [reflexivity|]. rewrite setn_same by (rewrite app_length; cbn; lia). split; [reflexivity|]. split; [reflexivity|]. intros k K. rewrite setn_other by lia. apply nth_error_app1. exact K.
Qed.
(** Refuted for float32: the function always ends with an exception, and the array given has then been
    filled if it is to be filled in place. *)
Theorem C113_matrix_float32_refuted : forall D cm m a (x : farray D) v in_place, nth_error m a = Some x -> f_dims x = 2 -> f_type x = TF32 -> is_number v ->
  exists m', py_matrix D cm m a v in_place = (m', Throw "TypeError") /\
    (in_place = true -> f_writeable x = true -> option_map f_data (nth_error m' a) = Some (cm TF32 v (f_data x))).
Proof.
  intros D cm m a x v in_place A Dm T V. unfold py_matrix. rewrite A, Dm, T. cbn [Z.eqb Pos.eqb negb ftype_eqb]. pose proof (nth_lt _ _ _ _ A) as L.
  assert (AV : accepts_value TF32 v = true) by (destruct v; [reflexivity|reflexivity|contradiction]).
  destruct in_place; unfold np_copy, call_core.
  - rewrite A, T, AV. destruct (f_writeable x); cbn [ftype_eqb andb orb negb then_].
    + rewrite setn_same by exact L. unfold set_data at 1. cbn [f_type]. rewrite T. cbn [ftype_eqb andb then_]. eexists. split; [reflexivity|]. intros _ _. rewrite setn_same by exact L. reflexivity.
    + eexists. split; [reflexivity|]. intros _ E. discriminate E.
  - rewrite nth_last. cbn [f_type f_writeable f_contiguous f_data]. rewrite T, AV. cbn [ftype_eqb andb orb negb then_]. rewrite setn_same by (rewrite app_length; cbn; lia). unfold set_data at 1. cbn [f_type ftype_eqb andb then_]. eexists. split; [reflexivity|]. intro E. discriminate E.
Qed.
(** Other arrays are refused without effect. *)
Theorem C113_matrix_refused : forall D cm m a (x : farray D) v, nth_error m a = Some x ->
  (f_dims x <> 2 -> forall in_place, py_matrix D cm m a v in_place = (m, Throw "ValueError")) /\
  (f_dims x = 2 -> f_type x <> TF32 -> f_type x <> TF64 \/ f_writeable x = false \/ ~ is_number v -> py_matrix D cm m a v true = (m, Throw "TypeError")).
Proof.
  intros D cm m a x v A. unfold py_matrix. rewrite A. split.
  - intros N in_place. destruct (Z.eqb_spec (f_dims x) 2); [contradiction|reflexivity].
  - intros -> T32 H. cbn [Z.eqb Pos.eqb negb]. assert (F : ftype_eqb (f_type x) TF32 = false) by (destruct (f_type x); auto; contradiction). rewrite F. cbn [then_]. unfold call_core. rewrite A.
    assert (E : (ftype_eqb (f_type x) TF64 && f_writeable x && (negb false || f_contiguous x) && accepts_value TF64 v)%bool = false).
    { destruct H as [H|[H|H]]; [destruct (f_type x); auto; contradiction|rewrite H, andb_false_r; reflexivity|]. destruct v; cbn in H; try tauto. cbn [accepts_value]. apply andb_false_r. }
    rewrite E. reflexivity.
Qed.

(** The fill value that goes with the type. *)
Definition suits (t : ftype) (v : fillvalue) : Prop :=
  match t, v with TF32, FVFloat _ | TF32, FVInt _ | TF64, FVFloat _ | TF64, FVInt _ | TI64, FVInt _ | TDate, FVDate _ => True | _, _ => False end.
Definition vector_filled {D : Type} (cv : ftype -> fillvalue -> D -> D) (t : ftype) (v : fillvalue) (d : D) : D :=
  match t, v with TDate, FVDate n => cv TI64 (FVInt n) d | _, _ => cv t v d end.
Theorem C113_vector_partial : forall D cv m a (x : farray D) v in_place, nth_error m a = Some x -> f_dims x = 1 -> suits (f_type x) v ->
  in_place = false \/ f_writeable x = true /\ f_contiguous x = true ->
  fills m a in_place (vector_filled cv (f_type x) v (f_data x)) (py_vector D cv m a v in_place).
Proof.
  intros D cv m a x v in_place A Dm V W. unfold py_vector. rewrite A, Dm. cbn [Z.eqb Pos.eqb negb]. pose proof (nth_lt _ _ _ _ A) as L.
  assert (IN : forall d, fills m a true d (set_nth a (set_data D x d) m, Ok a)).
  { intro d. exists (set_nth a (set_data D x d) m), a. split; [reflexivity|]. rewrite setn_same by exact L. split; [reflexivity|]. split; [reflexivity|]. intros k K. apply setn_other. auto. }
  assert (OUT : forall y d, f_data y = d -> fills m a false d (set_nth (length m) y (m ++ [FArray (f_type x) 1 true true (f_data x)]), Ok (length m))).
  { intros y d E. eexists. exists (length m). split; [reflexivity|]. rewrite setn_same by (rewrite app_length; cbn; lia). cbn [option_map]. rewrite E. split; [reflexivity|]. split; [reflexivity|]. intros k K. rewrite setn_other by lia. apply nth_error_app1. exact K. }
  destruct in_place.
  - destruct W as [W|[W C]]; [discriminate|]. unfold call_core, call_dates. rewrite A, W, C. destruct (f_type x) eqn:T; destruct v as [q|n|n]; try contradiction V; apply IN.
  - unfold np_copy. cbn beta iota zeta. unfold call_core, call_dates. rewrite nth_last, Dm. destruct (f_type x) eqn:T; destruct v as [q|n|n]; try contradiction V; cbn [f_type f_writeable f_contiguous f_data ftype_eqb negb andb orb accepts_value as_view then_ vector_filled]; apply OUT; reflexivity.
Qed.
(** Refuted: the default fill value (NaN) is not accepted with dates nor with integers, and a vector whose
    elements are not contiguous is not filled in place; nothing is modified. *)
Theorem C113_vector_default_refuted : forall D cv m a (x : farray D), nth_error m a = Some x -> f_dims x = 1 ->
  (f_type x = TDate -> py_vector D cv m a (FVFloat None) true = (m, Throw "AttributeError")) /\
  (f_type x = TI64 -> py_vector D cv m a (FVFloat None) true = (m, Throw "TypeError")).
Proof.
  intros D cv m a x A Dm. unfold py_vector. rewrite A, Dm. cbn [Z.eqb Pos.eqb negb]. split; intros ->; unfold call_core, call_dates; rewrite A; cbn [as_view then_]; [reflexivity|]. cbn [accepts_value]. rewrite andb_false_r. reflexivity.
Qed.
Theorem C113_vector_strided_refuted : forall D cv m a (x : farray D) v, nth_error m a = Some x -> f_dims x = 1 -> suits (f_type x) v -> f_contiguous x = false ->
  py_vector D cv m a v true = (m, Throw "TypeError").
Proof.
  intros D cv m a x v A Dm V C. unfold py_vector. rewrite A, Dm. cbn [Z.eqb Pos.eqb negb]. unfold call_core, call_dates. rewrite A, C. destruct (f_type x) eqn:T; destruct v as [q|n|n]; try contradiction V; cbn [as_view]; rewrite ?andb_false_r; cbn [ftype_eqb andb orb negb]; rewrite ?andb_false_r; reflexivity.
Qed.
Print Assumptions C113_vector_partial.
Theorem C113_ex : let x := FArray TF64 2 true true [Some 1; None]%Q in
  fills [x] 0 false [None] (py_matrix _ (fun _ _ _ => [None]) [x] 0 (FVFloat None) false) /\
  fills [FArray TDate 1 true true [3; 0; 5]] 0 true [3; 4; 5] (py_vector _ (fun _ _ _ => [3; 4; 5]) [FArray TDate 1 true true [3; 0; 5]] 0 (FVDate 0) true).
Proof.
  cbv zeta. split.
  - apply (C113_matrix_partial _ (fun _ _ _ => [None]) _ _ (FArray TF64 2 true true [Some 1; None]%Q)); try reflexivity; try exact I. left. reflexivity.
  - apply (C113_vector_partial _ (fun _ _ _ => [3; 4; 5]) _ _ (FArray TDate 1 true true [3; 0; 5])); try reflexivity; try exact I. right. split; reflexivity.
Qed.

(** * C114 *)
(** The default relaxation factor is between 0 and 2 excluded, for all the sizes; it is between 1 and 2 as
    soon as the grid has four rows and four columns; and the two formulas agree on square grids. *)
Open Scope R_scope.
Definition mean_size (nx ny : nat) : R := INR nx * INR ny * sqrt (2 / (INR nx ^ 2 + INR ny ^ 2)).
Lemma mean_size_sqr : forall nx ny, (1 <= nx)%nat -> (1 <= ny)%nat -> 0 < mean_size nx ny /\ mean_size nx ny * mean_size nx ny = 2 * (INR nx * INR ny) * (INR nx * INR ny) / (INR nx ^ 2 + INR ny ^ 2).
Proof.
  intros nx ny Hx Hy. apply le_INR in Hx, Hy. cbn [INR] in Hx, Hy. unfold mean_size. assert (P : 0 < INR nx ^ 2 + INR ny ^ 2) by nra.
  assert (Q : 0 < 2 / (INR nx ^ 2 + INR ny ^ 2)) by (apply Rdiv_lt_0_compat; lra). split.
  - apply Rmult_lt_0_compat; [nra|]. apply sqrt_lt_R0. exact Q.
  - replace (INR nx * INR ny * sqrt (2 / (INR nx ^ 2 + INR ny ^ 2)) * (INR nx * INR ny * sqrt (2 / (INR nx ^ 2 + INR ny ^ 2)))) with ((INR nx * INR ny) * (INR nx * INR ny) * (sqrt (2 / (INR nx ^ 2 + INR ny ^ 2)) * sqrt (2 / (INR nx ^ 2 + INR ny ^ 2)))) by ring.
    rewrite sqrt_sqrt by lra. field. lra.
Qed.
Lemma mean_size_square : forall n, (1 <= n)%nat -> mean_size n n = INR n.
Proof.
  intros n Hn. destruct (mean_size_sqr n n Hn Hn) as [P E]. apply le_INR in Hn. cbn [INR] in Hn.
  replace (2 * (INR n * INR n) * (INR n * INR n) / (INR n ^ 2 + INR n ^ 2)) with (INR n * INR n) in E by (field; nra). nra.
Qed.
Lemma PI_lt_4 : PI < 4.
Proof. destruct (PI_ineq 1) as [_ H]. unfold tg_alt, PI_tg in H. cbn [Nat.mul Nat.add sum_f_R0 pow INR] in H. lra. Qed.
Theorem C114_relaxation : forall nx ny, (1 <= nx)%nat -> (1 <= ny)%nat ->
  default_relaxation nx ny = 2 / (1 + PI / mean_size nx ny) /\
  0 < default_relaxation nx ny < 2 /\ ((4 <= nx)%nat -> (4 <= ny)%nat -> 1 < default_relaxation nx ny).
Proof.
  intros nx ny Hx Hy. destruct (mean_size_sqr nx ny Hx Hy) as [P E].
  assert (F : default_relaxation nx ny = 2 / (1 + PI / mean_size nx ny)).
  { unfold default_relaxation. destruct (Nat.eqb_spec nx ny) as [<-|N]; [rewrite mean_size_square by exact Hx|]; reflexivity. }
  split; [exact F|]. rewrite F. pose proof PI_RGT_0 as PI0.
  assert (Q : 0 < PI / mean_size nx ny) by (apply Rdiv_lt_0_compat; assumption).
  assert (G : forall q, 0 < q -> 0 < 2 / (1 + q) < 2).
  { intros q Hq. split; [apply Rdiv_lt_0_compat; lra|]. apply (Rmult_lt_reg_r (1 + q)); [lra|]. unfold Rdiv. rewrite Rmult_assoc, Rinv_l by lra. lra. }
  split; [apply G; exact Q|]. intros Bx By. apply le_INR in Bx, By. cbn [INR] in Bx, By.
  assert (S4 : 4 <= mean_size nx ny).
  { assert (H16 : 16 <= mean_size nx ny * mean_size nx ny).
    { rewrite E. apply (Rmult_le_reg_r (INR nx ^ 2 + INR ny ^ 2)); [nra|]. unfold Rdiv. rewrite Rmult_assoc, Rinv_l by nra. assert (16 <= INR nx * INR nx) by nra. assert (16 <= INR ny * INR ny) by nra. nra. }
    nra. }
  assert (QL : PI / mean_size nx ny < 1).
  { apply (Rmult_lt_reg_r (mean_size nx ny)); [lra|]. unfold Rdiv. rewrite Rmult_assoc, Rinv_l by lra. pose proof PI_lt_4. lra. }
  apply (Rmult_lt_reg_r (1 + PI / mean_size nx ny)); [lra|]. unfold Rdiv at 2. rewrite Rmult_assoc, Rinv_l by lra. lra.
Qed.
Close Scope R_scope.
Print Assumptions C114_relaxation.

(** ** The slices of a grid of three dimensions *)
Lemma Qltb_true : forall x y, Qltb x y = true <-> (x < y)%Q.
Proof. intros. unfold Qltb. rewrite negb_true_iff. split; intro H; [apply Qnot_le_lt; intro L; apply Qle_bool_iff in L; congruence|]. destruct (Qle_bool y x) eqn:E; [|reflexivity]. apply Qle_bool_iff in E. exfalso. apply (Qlt_not_le _ _ H E). Qed.
Lemma py_max_le : forall l m e, (py_max m l <= e)%Q <-> (m <= e)%Q /\ forall r, In r l -> (r <= e)%Q.
Proof.
  induction l as [|a l IH]; intros m e; cbn [py_max].
  - split; [intro H; split; [exact H|intros r []]|intros [H _]; exact H].
  - rewrite IH. destruct (Qltb m a) eqn:E.
    + apply Qltb_true in E. split; intros [A B]; (split; [|intros r H]).
      * apply Qle_trans with a; [apply Qlt_le_weak|]; assumption.
      * destruct H as [<-|H]; auto.
      * apply B. left. reflexivity.
      * apply B. right. exact H.
    + assert (L : (a <= m)%Q) by (apply Qnot_lt_le; intro H; apply Qltb_true in H; congruence). split; intros [A B]; (split; [exact A|intros r H]).
      * destruct H as [<-|H]; [apply Qle_trans with m; assumption|auto].
      * apply B. right. exact H.
Qed.
Lemma collect_ok : forall task res order, (forall iz, In iz order -> exists f n, task iz = Ok (f, n, res iz)) -> collect task order = Ok (map res order).
Proof.
  intros task res. induction order as [|iz order IH]; intro H; cbn [collect map]; [reflexivity|]. destruct (H iz (or_introl eq_refl)) as (f & n & ->). cbn [obind]. rewrite IH by (intros k K; apply H; right; exact K). reflexivity.
Qed.
Lemma collect_in : forall task order l, collect task order = Ok l -> forall iz, In iz order -> exists f n r, task iz = Ok (f, n, r) /\ In r l.
Proof.
  intros task. induction order as [|k order IH]; intros l H iz I; cbn [collect] in H; [contradiction|]. destruct (task k) as [[[f n] r]| |] eqn:T; cbn [obind] in H; try discriminate. destruct (collect task order) as [rest| |] eqn:C; cbn [obind] in H; try discriminate.
  assert (L : l = r :: rest) by congruence. subst l. destruct I as [<-|I]; [exists f, n, r; split; [exact T|left; reflexivity]|]. destruct (IH rest eq_refl iz I) as (f' & n' & r' & A & B). exists f', n', r'. split; [exact A|right; exact B].
Qed.
Lemma collect_out : forall task order l, collect task order = Ok l -> forall r, In r l -> exists iz f n, In iz order /\ task iz = Ok (f, n, r).
Proof.
  intros task. induction order as [|k order IH]; intros l H r I; cbn [collect] in H; [injection H as <-; contradiction|]. destruct (task k) as [[[f n] r0]| |] eqn:T; cbn [obind] in H; try discriminate. destruct (collect task order) as [rest| |] eqn:C; cbn [obind] in H; try discriminate.
  assert (L : l = r0 :: rest) by congruence. subst l. destruct I as [<-|I]; [exists k, f, n; split; [left; reflexivity|exact T]|]. destruct (IH rest eq_refl r I) as (iz & f' & n' & A & B). exists iz, f', n'. split; [right; exact A|exact B].
Qed.

(** Each slice is filled exactly as a grid of two dimensions, the flag says whether all the slices have
    converged, and neither depends on the order in which the slices are completed. *)
Theorem C114_slices : forall nx ny nz fg circle mi epsilon relax first g order, (1 <= nz)%nat -> Permutation order (seq 0 nz) ->
  forall converged filled, py_gauss_seidel3 nx ny nz fg circle mi epsilon relax first g order = Ok (converged, filled) ->
  (forall iz, (iz < nz)%nat -> exists c, py_gauss_seidel2 nx ny fg circle mi epsilon relax first (g iz) = Ok (c, filled iz)) /\
  (converged = true <-> forall iz, (iz < nz)%nat -> exists f, py_gauss_seidel2 nx ny fg circle mi epsilon relax first (g iz) = Ok (true, f)).
Proof.
  intros nx ny nz fg circle mi epsilon relax first g order NZ P converged filled H. unfold py_gauss_seidel3 in H.
  set (task := fun iz => gauss_seidel nx ny fg circle (iterations mi nx ny) epsilon relax first (g iz)) in *. cbn zeta in H. fold task in H.
  destruct (collect task order) as [l| |] eqn:C; cbn [obind] in H; try discriminate. destruct l as [|r rest] eqn:EL; [discriminate|]. rewrite <- EL in C.
  assert (E : converged = Qle_bool (py_max r rest) epsilon /\ filled = (fun iz => if (iz <? nz)%nat then match task iz with Ok (f, _, _) => f | _ => g iz end else g iz)) by (injection H as <- <-; auto). destruct E as [-> ->].
  assert (IN : forall iz, (iz < nz)%nat <-> In iz order).
  { intro iz. split; intro I. - apply (Permutation_in _ (Permutation_sym P)). apply in_seq. lia. - apply (Permutation_in _ P) in I. apply in_seq in I. lia. }
  assert (T2 : forall iz f n q, task iz = Ok (f, n, q) -> py_gauss_seidel2 nx ny fg circle mi epsilon relax first (g iz) = Ok (Qle_bool q epsilon, f)).
  { intros iz f n q T. unfold py_gauss_seidel2. fold (task iz). change (gauss_seidel nx ny fg circle (iterations mi nx ny) epsilon relax first (g iz)) with (task iz). rewrite T. reflexivity. }
  split.
  - intros iz I. apply IN in I as J. destruct (collect_in _ _ _ C iz J) as (f & n & q & T & _). exists (Qle_bool q epsilon). rewrite (T2 _ _ _ _ T), T. destruct (Nat.ltb_spec iz nz); [reflexivity|lia].
  - rewrite Qle_bool_iff, py_max_le. split.
    + intros [A B] iz I. apply IN in I. destruct (collect_in _ _ _ C iz I) as (f & n & q & T & J). exists f. rewrite (T2 _ _ _ _ T). assert (L : (q <= epsilon)%Q) by (rewrite EL in J; destruct J as [<-|J]; auto). apply Qle_bool_iff in L. rewrite L. reflexivity.
    + intro A. assert (B : forall q, In q l -> (q <= epsilon)%Q).
      { intros q J. destruct (collect_out _ _ _ C q J) as (iz & f & n & I & T). apply IN in I. destruct (A iz I) as (f' & E). rewrite (T2 _ _ _ _ T) in E. apply Qle_bool_iff. congruence. }
      rewrite EL in B. split; [apply B; left; reflexivity|intros q J; apply B; right; exact J].
Qed.
(** The order of completion plays no part, and the call succeeds as soon as each slice does. *)
Theorem C114_order : forall nx ny nz fg circle mi epsilon relax first g order order', (1 <= nz)%nat -> Permutation order (seq 0 nz) -> Permutation order' (seq 0 nz) ->
  (forall iz, (iz < nz)%nat -> exists r, py_gauss_seidel2 nx ny fg circle mi epsilon relax first (g iz) = Ok r) ->
  exists converged filled filled', py_gauss_seidel3 nx ny nz fg circle mi epsilon relax first g order = Ok (converged, filled) /\
    py_gauss_seidel3 nx ny nz fg circle mi epsilon relax first g order' = Ok (converged, filled') /\ forall iz p, filled iz p = filled' iz p.
Proof.
  intros nx ny nz fg circle mi epsilon relax first g order order' NZ P P' A.
  assert (T : forall iz, (iz < nz)%nat -> exists f n q, gauss_seidel nx ny fg circle (iterations mi nx ny) epsilon relax first (g iz) = Ok (f, n, q)).
  { intros iz I. destruct (A iz I) as [r R]. unfold py_gauss_seidel2 in R. destruct (gauss_seidel _ _ _ _ _ _ _ _ _) as [[[f n] q]| |]; try discriminate. eauto. }
  set (task := fun iz => gauss_seidel nx ny fg circle (iterations mi nx ny) epsilon relax first (g iz)) in *.
  set (res := fun iz => match task iz with Ok (_, _, q) => q | _ => 0%Q end).
  assert (K : forall o, Permutation o (seq 0 nz) -> collect task o = Ok (map res o)).
  { intros o Po. apply collect_ok. intros iz I. apply (Permutation_in _ Po) in I. apply in_seq in I. destruct (T iz ltac:(lia)) as (f & n & q & E). exists f, n. unfold res. change (task iz = Ok (f, n, q)) in E. rewrite E. reflexivity. }
  assert (NE : forall o, Permutation o (seq 0 nz) -> exists a t, map res o = a :: t).
  { intros o Po. destruct o as [|a t]; [|cbn; eauto]. apply Permutation_length in Po. rewrite seq_length in Po. cbn in Po. lia. }
  destruct (NE _ P) as (a & t & E1). destruct (NE _ P') as (a' & t' & E2).
  assert (M : Permutation (a :: t) (a' :: t')) by (rewrite <- E1, <- E2; apply Permutation_map; apply Permutation_trans with (seq 0 nz); [exact P|apply Permutation_sym; exact P']).
  assert (B : Qle_bool (py_max a t) epsilon = Qle_bool (py_max a' t') epsilon).
  { apply eq_true_iff_eq. rewrite !Qle_bool_iff, !py_max_le. split; intros [X Y]; split.
    - assert (In a' (a :: t)) by (apply (Permutation_in _ (Permutation_sym M)); left; reflexivity). destruct H as [<-|H]; auto.
    - intros r R. assert (In r (a :: t)) by (apply (Permutation_in _ (Permutation_sym M)); right; exact R). destruct H as [<-|H]; auto.
    - assert (In a (a' :: t')) by (apply (Permutation_in _ M); left; reflexivity). destruct H as [<-|H]; auto.
    - intros r R. assert (In r (a' :: t')) by (apply (Permutation_in _ M); right; exact R). destruct H as [<-|H]; auto. }
  unfold py_gauss_seidel3. fold task. rewrite (K _ P), (K _ P'), E1, E2. cbn [obind]. eexists. eexists. eexists. split; [reflexivity|]. rewrite B. split; [reflexivity|]. intros. reflexivity.
Qed.
Print Assumptions C114_order.
(** Refuted: with no iteration at all, the function always says that it has converged. *)
Theorem C114_no_iteration_refuted : forall nx ny fg circle epsilon relax first g, (0 <= epsilon)%Q ->
  exists f, py_gauss_seidel2 nx ny fg circle (Some 0%nat) epsilon relax first g = Ok (true, f).
Proof.
  intros nx ny fg circle epsilon relax first g E. assert (B : Qle_bool 0 epsilon = true) by (apply Qle_bool_iff; exact E). unfold py_gauss_seidel2, gauss_seidel, iterations. destruct (has_nan nx ny g); cbn [iterate obind]; rewrite B; eauto.
Qed.
Definition two_slices (iz : nat) (p : cell) : option Q := if (Nat.eqb iz 0 && ceqb p (0, 0)%nat)%bool then None else Some 1%Q.
Theorem C114_ex : Permutation [1; 0]%nat (seq 0 2) /\
  exists filled v, py_gauss_seidel3 2 2 2 Zero false None (1 # 10) 1 0 two_slices [1; 0]%nat = Ok (true, filled) /\ filled 0%nat (0, 0)%nat = Some v /\ (v == 1)%Q.
Proof.
  split; [apply perm_swap|]. eexists. eexists. split; [vm_compute; reflexivity|]. split; [reflexivity|]. vm_compute. reflexivity.
Qed.
