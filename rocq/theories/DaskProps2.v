(** Theorems about the delayed computations (C123): descriptive statistics and streaming histograms of
    dask arrays. *)
From Verif Require Import Base BaseProofs StatsModel StatsSpec StatsProofs StatsProofs2 StatsProps HistModel HistSpec HistProofs HistProofs2 HistProps DaskModel DaskSpec DaskProofs.
From Coq Require Import Permutation.
Open Scope Z_scope.

(** The samples of a block, without [axis]. *)
Definition block_samples (b : list (option Q) * option (list Q)) : list (option Q * Q) :=
  match snd b with None => map (fun v => (v, 1%Q)) (fst b) | Some w => combine (fst b) w end.
(** One weight per value. *)
Definition weighted_ok (b : list (option Q) * option (list Q)) : Prop := match snd b with None => True | Some w => length w = length (fst b) end.
Definition products (l : list sample) : list Q := map (fun s => (snd s * fst s)%Q) l.

Lemma least_map : forall m (l : list sample), Forall (fun s => snd s = 1%Q) l -> is_least m (map fst l) -> is_least m (products l).
Proof.
  intros m l U [(x & X & E) G]. rewrite Forall_forall in U. split.
  - apply in_map_iff in X as ((v, w) & <- & I). cbn [fst] in *. pose proof (U _ I) as W. cbn in W. subst w. exists (1 * v)%Q. split; [apply in_map_iff; exists (v, 1%Q); auto|]. rewrite E. ring.
  - intros y Y. apply in_map_iff in Y as ((v, w) & <- & I). pose proof (U _ I) as W. cbn in W. subst w. cbn [fst snd]. rewrite Qmult_1_l. apply G. apply in_map_iff. exists (v, 1%Q). auto.
Qed.
Lemma greatest_map : forall m (l : list sample), Forall (fun s => snd s = 1%Q) l -> is_greatest m (map fst l) -> is_greatest m (products l).
Proof.
  intros m l U [(x & X & E) G]. rewrite Forall_forall in U. split.
  - apply in_map_iff in X as ((v, w) & <- & I). cbn [fst] in *. pose proof (U _ I) as W. cbn in W. subst w. exists (1 * v)%Q. split; [apply in_map_iff; exists (v, 1%Q); auto|]. rewrite E. ring.
  - intros y Y. apply in_map_iff in Y as ((v, w) & <- & I). pose proof (U _ I) as W. cbn in W. subst w. cbn [fst snd]. rewrite Qmult_1_l. apply G. apply in_map_iff. exists (v, 1%Q). auto.
Qed.
Lemma stats_flat_ok : forall b, weighted_ok b -> positive_weights (defined (block_samples b)) -> defined (block_samples b) <> [] ->
  exists a, stats_flat (fst b) (snd b) = Ok ([1], [a]) /\ moments_of a (defined (block_samples b)) /\ extremes_of a (products (defined (block_samples b))).
Proof.
  intros [v [w|]] W P N; cbn [weighted_ok fst snd block_samples stats_flat] in *.
  - unfold zlen. rewrite W, Z.eqb_refl. eexists. split; [reflexivity|]. destruct (push_all_weighted_ok _ P) as [[E _]|(_ & M & X)]; [contradiction|]. auto.
  - eexists. split; [reflexivity|]. destruct (push_all_ok v) as [[E _]|(_ & M & X)]; [contradiction|]. split; [exact M|]. destruct (unit_positive v) as [_ U].
    destruct X as (lo & hi & A & B & C & D). exists lo, hi. split; [exact A|]. split; [exact B|]. split; [apply least_map|apply greatest_map]; assumption.
Qed.

(** * DescriptiveStatistics of a dask array, without axis *)
Theorem C123_statistics : forall blocks w, blocks <> [] -> Forall weighted_ok blocks ->
  Forall (fun b => positive_weights (defined (block_samples b)) /\ defined (block_samples b) <> []) blocks -> tree_of (length blocks) w ->
  exists h a, delayed_stats blocks = Ok h /\ returns (core_add stats_iadd) h w ([1], [a]) /\
    let l := defined (concat (map block_samples blocks)) in textbook a l /\ extremes a (map (fun s => (snd s * fst s)%Q) l).
Proof.
  intros blocks w NB W D T. rewrite Forall_forall in W, D.
  set (P := fun (s : statistics) (l : list sample) => exists a, s = ([1], [a]) /\ l <> [] /\ positive_weights l /\ moments_of a l /\ extremes_of a (products l)).
  destruct (map_blocks_ok _ _ _ (fun b => stats_flat (fst b) (snd b)) (fun b => defined (block_samples b)) P blocks) as (h & E & L & PB).
  { intros b Hb. destruct (D b Hb) as [Pb Nb]. destruct (stats_flat_ok b (W b Hb) Pb Nb) as (a & Ea & M & X). rewrite Ea. eexists. split; [reflexivity|]. exists a. auto. }
  rewrite <- L in T. destruct (tree_inv _ _ (core_add_sound _ stats_iadd) _ P h (map (fun b => defined (block_samples b)) blocks) w) as (r & R & a & -> & Nl & Pl & M & X); [rewrite map_length; congruence|exact PB| |exact T|].
  { intros s t l m (a & -> & Nl & Pl & Ml & Xl) (b & -> & Nm & Pm & Mm & Xm). unfold stats_iadd. cbn [fst snd]. destruct (list_eq_dec Z.eq_dec [1] [1]) as [_|F]; [|congruence]. cbn [merge_cells]. eexists. split; [reflexivity|].
    exists (acc_merge a b). pose proof (weight_pos _ Pl Nl). pose proof (weight_pos _ Pm Nm). split; [reflexivity|]. split; [intro F; apply app_eq_nil in F; tauto|]. split; [apply positive_app; auto|].
    split; [apply moments_merge; try assumption; lra|]. unfold products. rewrite map_app. apply extremes_merge; assumption. }
  assert (C : forall bl : list (list (option Q) * option (list Q)), concat (map (fun b => defined (block_samples b)) bl) = defined (concat (map block_samples bl))).
  { clear. induction bl as [|b t IH]; [reflexivity|]. cbn [map concat]. rewrite IH, defined_app. reflexivity. }
  rewrite C in *. exists h, a. split; [exact E|]. split; [exact R|]. cbn zeta. split; [apply textbook_of; assumption|]. eapply extremes_get; [exact Nl|apply M|exact X].
Qed.
Print Assumptions C123_statistics.

Lemma returns_pair : forall (I : Type) (iadd : I -> I -> outcome I) a b c, iadd a b = Ok c -> returns (core_add iadd) [a; b] (Sum (Ref 0) (Ref 1)) c.
Proof.
  intros I iadd a b c E. apply (value_returns iadd _ (core_add_sound _ iadd)).
  - split; [cbn; constructor; [intros [F|[]]; discriminate F|constructor; [intros []|constructor]]|cbn; intros i [<-|[<-|[]]]; lia].
  - cbn [value nth_error obind]. exact E.
Qed.
(** A block without data: the minimum of values that are all above 3 becomes 0, and with two such blocks
    the mean is lost. *)
Theorem C123_missing_refuted :
  (exists h a, delayed_stats [([Some 3; Some 5]%Q, None); ([None], None)] = Ok h /\ returns (core_add stats_iadd) h (Sum (Ref 0) (Ref 1)) ([1], [a]) /\ is (acc_get_min a) 0) /\
  (exists h a, delayed_stats [([None], None); ([None], None); ([Some 3; Some 5]%Q, None)] = Ok h /\ returns (core_add stats_iadd) h (Sum (Sum (Ref 0) (Ref 1)) (Ref 2)) ([1], [a]) /\ acc_get_mean a = NaN).
Proof.
  split; eexists; eexists; (split; [reflexivity|]); split.
  - apply returns_pair. reflexivity.
  - eexists. split; [vm_compute; reflexivity|reflexivity].
  - apply (value_returns stats_iadd _ (core_add_sound _ stats_iadd)).
    + split; [cbn; repeat (constructor; [cbn; intuition discriminate|]); constructor|cbn; intros i [<-|[<-|[<-|[]]]]; lia].
    + reflexivity.
  - reflexivity.
Qed.

(** * With an axis *)
(** The rows [from], ..., [from + n - 1] of an array whose elements are [value index], as one block. *)
Definition interval (from n : Z) : list Z := map (fun i => from + Z.of_nat i) (seq 0 (Z.to_nat n)).
Definition shifted (from : Z) (index : list Z) : list Z := match index with [] => [] | r :: k => from + r :: k end.
Definition slab (rest : list Z) (value : list Z -> option Q * Q) (from n : Z) : Z * list (option Q * Q) :=
  (n, map (fun i => value (shifted from i)) (indices (n :: rest))).
Fixpoint slabs (rest : list Z) (value : list Z -> option Q * Q) (from : Z) (sizes : list Z) : list (Z * list (option Q * Q)) :=
  match sizes with [] => [] | n :: t => slab rest value from n :: slabs rest value (from + n) t end.
(** The elements of the rows [rows] that fall in the cell [k]. *)
Definition of_rows (rest axes : list Z) (k : list Z) (rows : list Z) : list (list Z) :=
  filter (fun i => if list_eq_dec Z.eq_dec (keep axes 0 i) k then true else false) (flat_map (fun i => map (cons i) (indices rest)) rows).

Lemma of_rows_app : forall rest axes k r s, of_rows rest axes k (r ++ s) = of_rows rest axes k r ++ of_rows rest axes k s.
Proof. intros. unfold of_rows. rewrite flat_map_app. apply filter_app. Qed.
Lemma map_ext_in_filter : forall (A B : Type) (f : A -> bool) (g h : A -> B) l, (forall a, In a l -> g a = h a) -> map g (filter f l) = map h (filter f l).
Proof. intros A B f g h l H. apply map_ext_in. intros a Ha. apply filter_In in Ha. apply H. tauto. Qed.
Lemma slab_rows : forall rest axes (value : list Z -> option Q * Q) from n k, In 0 axes -> 0 <= n ->
  map (fun i => value (shifted from i)) (filter (fun i => if list_eq_dec Z.eq_dec (keep axes 0 i) k then true else false) (indices (n :: rest))) =
  map value (of_rows rest axes k (interval from n)).
Proof.
  intros rest axes value from n k A N. unfold of_rows, interval. cbn [indices].
  generalize (seq 0 (Z.to_nat n)) as l. induction l as [|i l IH]; [reflexivity|]. cbn [map flat_map]. rewrite !filter_app, !map_app, IH. f_equal. clear IH l.
  induction (indices rest) as [|j t IH]; [reflexivity|]. cbn [map filter].
  assert (K : forall x, keep axes 0 (x :: j) = keep axes 1 j) by (intro x; cbn [keep]; destruct (in_dec Z.eq_dec 0 axes); [reflexivity|contradiction]). rewrite !K.
  destruct (list_eq_dec Z.eq_dec (keep axes 1 j) k); cbn [map]; rewrite IH; reflexivity.
Qed.
Lemma keep_first : forall axes x rest, In 0 axes -> keep axes 0 (x :: rest) = keep axes 1 rest.
Proof. intros axes x rest A. cbn [keep]. destruct (in_dec Z.eq_dec 0 axes); [reflexivity|contradiction]. Qed.
Lemma interval_app : forall from n m, 0 <= n -> 0 <= m -> interval from (n + m) = interval from n ++ interval (from + n) m.
Proof.
  intros from n m N M. unfold interval. rewrite Z2Nat.inj_add by lia. rewrite seq_app, map_app. f_equal. cbn [plus].
  replace (seq (Z.to_nat n) (Z.to_nat m)) with (map (fun i => (Z.to_nat n + i)%nat) (seq 0 (Z.to_nat m))).
  - rewrite map_map. apply map_ext. intro i. lia.
  - assert (G : forall j k s, map (fun i => (k + i)%nat) (seq s j) = seq (k + s) j) by (clear; induction j as [|j IH]; intros k s; [reflexivity|]; cbn [seq map]; f_equal; rewrite IH; f_equal; lia). rewrite G, Nat.add_0_r. reflexivity.
Qed.
Fixpoint zsum (l : list Z) : Z := match l with [] => 0 | x :: t => x + zsum t end.
Fixpoint row_blocks (from : Z) (sizes : list Z) : list (list Z) := match sizes with [] => [] | n :: t => interval from n :: row_blocks (from + n) t end.
Lemma row_blocks_concat : forall sizes from, Forall (fun n => 0 <= n) sizes -> concat (row_blocks from sizes) = interval from (zsum sizes).
Proof.
  induction sizes as [|n t IH]; intros from H; [reflexivity|]. inversion H; subst. cbn [row_blocks concat zsum]. rewrite IH by assumption. rewrite interval_app; [reflexivity|assumption|].
  clear -H3. induction H3 as [|x l X H IH]; cbn [zsum]; lia.
Qed.

(** The blocks are slabs of rows that share the array, the first axis is reduced, every cell has data in
    every slab: each cell holds the statistics of the elements of the whole array that fall in it. *)
Theorem C123_axis : forall rest axes (value : list Z -> option Q * Q) sizes w, Forall (fun d => 0 <= d) rest -> Forall (fun n => 0 <= n) sizes -> sizes <> [] ->
  In 0 axes -> Forall (fun a => 0 <= a < zlen rest + 1) axes ->
  (forall i v, fst (value i) = Some v -> (0 < snd (value i))%Q) ->
  (forall k rows, in_shape (keep axes 1 rest) k -> In rows (row_blocks 0 sizes) -> defined (map value (of_rows rest axes k rows)) <> []) ->
  tree_of (length sizes) w ->
  exists h cells, delayed_stats_axis rest axes (slabs rest value 0 sizes) = Ok h /\
    returns (core_add stats_iadd) h w (keep axes 0 (zsum sizes :: rest), cells) /\ zlen cells = size_of (keep axes 0 (zsum sizes :: rest)) /\
    forall k, in_shape (keep axes 0 (zsum sizes :: rest)) k -> exists a, znth cells (position (keep axes 0 (zsum sizes :: rest)) k) = Some a /\
      let l := defined (map value (filter (fun i => if list_eq_dec Z.eq_dec (keep axes 0 i) k then true else false) (indices (zsum sizes :: rest)))) in
      textbook a l /\ extremes a (map (fun s => (snd s * fst s)%Q) l).
Proof.
  intros rest axes value sizes w HR HS NS A0 AX PW DT T.
  set (out := keep axes 1 rest) in *.
  assert (PL : forall l, positive_weights (defined (map value l))).
  { intros l s Hs. unfold defined in Hs. apply in_flat_map in Hs as (x & X & Y). apply in_map_iff in X as (i & <- & _). destruct (fst (value i)) as [v|] eqn:E; [|destruct Y]. destruct Y as [<-|[]]. cbn [snd]. eapply PW. exact E. }
  set (P := fun (s : statistics) (rows : list Z) => exists cells, s = (out, cells) /\ zlen cells = size_of out /\
    forall k, in_shape out k -> exists a, znth cells (position out k) = Some a /\ let l := defined (map value (of_rows rest axes k rows)) in l <> [] /\ moments_of a l /\ extremes_of a (products l)).
  assert (MB : forall sizes from, Forall (fun n => 0 <= n) sizes -> (forall k rows, in_shape out k -> In rows (row_blocks from sizes) -> defined (map value (of_rows rest axes k rows)) <> []) ->
    exists h, delayed_stats_axis rest axes (slabs rest value from sizes) = Ok h /\ length h = length sizes /\ forall i b c, nth_error h i = Some b -> nth_error (row_blocks from sizes) i = Some c -> P b c).
  { clear T NS DT HS sizes. induction sizes as [|n t IH]; intros from HS DT.
    - exists []. split; [reflexivity|]. split; [reflexivity|]. intros [|i] b c X; discriminate.
    - inversion HS as [|? ? HN HT]; subst. destruct (IH (from + n) HT) as (h & E & L & Q); [intros k rows Hk Hr; apply DT; [exact Hk|right; exact Hr]|].
      unfold delayed_stats_axis. cbn [slabs map_blocks]. fold (delayed_stats_axis rest axes). unfold stats_axis at 1. cbn [fst snd slab].
      destruct (stats_reduce_ok (n :: rest) axes (fun i => value (shifted from i))) as (cells & EC & LC & GC); [constructor; assumption|intros ->; destruct A0|eapply Forall_impl; [|exact AX]; intros a Ha; unfold zlen in *; cbn [length]; lia|].
      rewrite EC. cbn [obind]. unfold delayed_stats_axis in E. rewrite E. cbn [obind]. eexists. split; [reflexivity|]. split; [cbn; lia|].
      intros [|i] b c X Y; cbn [nth_error row_blocks] in X, Y; [|exact (Q i b c X Y)]. assert (b = (reduced_shape (n :: rest) axes 0, cells)) by congruence. assert (c = interval from n) by congruence. subst b c. clear X Y.
      rewrite keep_first in LC, GC by exact A0. fold out in LC, GC. exists cells. rewrite reduced_shape_keep, keep_first by exact A0. split; [reflexivity|]. split; [exact LC|].
      intros k Hk. eexists. split; [apply GC; exact Hk|].
      pose proof (slab_rows rest axes value from n k A0 HN) as SR. unfold same_index. rewrite SR. cbn zeta.
      specialize (DT k (interval from n) Hk (or_introl eq_refl)). destruct (push_all_weighted_ok (map value (of_rows rest axes k (interval from n))) (PL _)) as [[F _]|(_ & M & X)]; [contradiction|]. auto. }
  destruct (MB sizes 0 HS DT) as (h & E & L & PB). rewrite <- L in T.
  assert (LB : length (row_blocks 0 sizes) = length h) by (rewrite L; clear; generalize 0 as f; induction sizes as [|n t IH]; intro f; cbn; auto).
  destruct (tree_inv _ _ (core_add_sound _ stats_iadd) _ P h (row_blocks 0 sizes) w) as (r & R & cells & -> & LC & GC); [exact LB|exact PB| |exact T|].
  { intros s t l m (ca & -> & La & Ga) (cb & -> & Lb & Gb). unfold stats_iadd. cbn [fst snd]. destruct (list_eq_dec Z.eq_dec out out) as [_|F]; [|congruence]. eexists. split; [reflexivity|].
    assert (MC : forall a b, length a = length b -> length (merge_cells a b) = length a /\ forall i x y, nth_error a i = Some x -> nth_error b i = Some y -> nth_error (merge_cells a b) i = Some (acc_merge x y)).
    { clear. induction a as [|x a IH]; intros [|y b] Lab; try discriminate Lab; cbn [merge_cells length]; [split; [reflexivity|intros [|i] ? ? X; discriminate]|].
      destruct (IH b) as [I1 I2]; [cbn in Lab; lia|]. split; [lia|]. intros [|i] u v U V; cbn in U, V |- *; [congruence|auto]. }
    destruct (MC ca cb) as [M1 M2]; [unfold zlen in *; lia|]. exists (merge_cells ca cb). split; [reflexivity|]. split; [unfold zlen in *; lia|].
    intros k Hk. destruct (Ga k Hk) as (x & X1 & X2 & X3 & X4). destruct (Gb k Hk) as (y & Y1 & Y2 & Y3 & Y4). exists (acc_merge x y). cbn zeta in *.
    split.
    - unfold znth in *. destruct (position out k <? 0); [discriminate|]. apply M2; assumption.
    - rewrite of_rows_app, map_app, defined_app. pose proof (weight_pos _ (PL (of_rows rest axes k l)) X2). pose proof (weight_pos _ (PL (of_rows rest axes k m)) Y2).
      split; [intro F; apply app_eq_nil in F; tauto|]. split; [apply moments_merge; try assumption; lra|]. unfold products. rewrite map_app. apply extremes_merge; assumption. }
  exists h, cells. split; [exact E|]. rewrite keep_first by exact A0. fold out. split; [exact R|]. split; [exact LC|].
  intros k Hk. destruct (GC k Hk) as (a & X1 & X2 & X3 & X4). exists a. split; [exact X1|]. cbn zeta. rewrite row_blocks_concat in X2, X3, X4 by exact HS.
  assert (IE : of_rows rest axes k (interval 0 (zsum sizes)) = filter (fun i => if list_eq_dec Z.eq_dec (keep axes 0 i) k then true else false) (indices (zsum sizes :: rest))).
  { unfold of_rows, interval. cbn [indices]. reflexivity. }
  rewrite IE in X2, X3, X4. split; [apply textbook_of; assumption|]. eapply extremes_get; [exact X2|apply X3|exact X4].
Qed.
Print Assumptions C123_axis.
(** When the first axis is kept, the rows of different slabs are merged although they should be different
    cells, or the addition fails when the slabs have different sizes. *)
Theorem C123_axis_refuted : let value := fun i : list Z => (Some (inject_Z (nth 0 i 0)), 1%Q) in
  (exists cells, stats_axis [1] [1] (slab [1] value 0 2) = Ok ([2], cells) /\ map a_count cells = [1; 1]) /\
  (exists h cells, delayed_stats_axis [1] [1] (slabs [1] value 0 [1; 1]) = Ok h /\ returns (core_add stats_iadd) h (Sum (Ref 0) (Ref 1)) ([1], cells) /\ map a_count cells = [2]) /\
  (exists h, delayed_stats_axis [1] [1] (slabs [1] value 0 [2; 1]) = Ok h /\ core_add stats_iadd h 0 1 = Throw "incompatible shapes").
Proof.
  cbn zeta. split; [eexists; split; [vm_compute; reflexivity|reflexivity]|]. split.
  - eexists. eexists. split; [vm_compute; reflexivity|]. split; [apply returns_pair; reflexivity|reflexivity].
  - eexists. split; [vm_compute; reflexivity|reflexivity].
Qed.

(** * StreamingHistogram of a dask array *)
Theorem C123_streaming : forall lg bin_count blocks w, small_log lg -> blocks <> [] -> 1 <= match bin_count with Some n => n | None => 100 end ->
  Forall weighted_ok blocks -> (forall v q, In (v, q) (defined (concat (map block_samples blocks))) -> (0 < q)%Q /\ moderate v) -> tree_of (length blocks) w ->
  exists h r, delayed_stream lg bin_count blocks = Ok h /\ returns (core_add (hist_merge lg)) h w r /\
    let l := defined (concat (map block_samples blocks)) in let n := match bin_count with Some n => n | None => 100 end in
    h_count r = zlen l /\ zlen (h_bins r) <= n /\ ascending (map bvalue (h_bins r)) /\
    (sum_of_weights r == weight l)%Q /\ (l <> [] -> exists m, hist_mean r = Some m /\ (m == mean l)%Q) /\
    (zlen l <= n -> Permutation (h_bins r) l) /\
    (l <> [] -> Forall (fun s => snd s = 1%Q) l -> exists m, hist_get_min r = Some m /\ is_least m (map fst l)).
Proof.
  intros lg bin_count blocks w SL NB HN W D T. set (n := match bin_count with Some n => n | None => 100 end) in *.
  assert (C : forall bl : list (list (option Q) * option (list Q)), concat (map (fun b => defined (block_samples b)) bl) = defined (concat (map block_samples bl))).
  { clear. induction bl as [|b t IH]; [reflexivity|]. cbn [map concat]. rewrite IH, defined_app. reflexivity. }
  rewrite <- C in D. rewrite Forall_forall in W.
  set (P := fun (s : hist) (l : list sample) => exists hst, run lg hst = Ok s /\ careful hst /\ pushed hst = l /\ budget hst = n /\ (zlen l <= n -> roomy hst)).
  assert (SP : forall t hst s, run lg hst = Ok s -> careful hst -> budget hst = n -> (zlen (pushed hst) <= n -> roomy hst) -> (forall v q, In (v, q) (defined t) -> (0 < q)%Q /\ moderate v) ->
    exists s', stream_push lg s t = Ok s' /\ P s' (pushed hst ++ defined t)).
  { clear -SL. induction t as [|[[v|] q] t IH]; intros hst s E Ca B Ro Hd; cbn [stream_push defined flat_map fst snd app].
    - exists s. split; [reflexivity|]. exists hst. rewrite app_nil_r. auto.
    - assert (Hv : (0 < q)%Q /\ moderate v) by (apply Hd; left; reflexivity). assert (Ca' : careful (Push hst v q)) by (cbn [careful]; tauto).
      destruct (run_inv lg _ SL Ca') as (s1 & E1 & _). pose proof E1 as E1'. cbn [run] in E1'. rewrite E in E1'. cbn [obind] in E1'. rewrite E1'. cbn [obind].
      destruct (IH (Push hst v q) s1 E1 Ca' B) as (s2 & E2 & P2); [cbn [pushed roomy]; intro Z1; unfold zlen in *; rewrite app_length in Z1; cbn [length] in Z1; split; [apply Ro; lia|lia]|intros u p Hu; apply Hd; right; exact Hu|].
      exists s2. split; [exact E2|]. cbn [pushed] in P2. rewrite <- app_assoc in P2. exact P2.
    - destruct (IH hst s E Ca B Ro) as (s2 & E2 & P2); [intros u p Hu; apply Hd; exact Hu|]. exists s2. auto. }
  destruct (map_blocks_ok _ _ _ (fun b => stream_flat lg bin_count (fst b) (snd b)) (fun b => defined (block_samples b)) P blocks) as (h & E & L & PB).
  { intros b Hb. pose proof (W b Hb) as Wb. assert (Cn : careful (New n)) by exact HN. destruct (run_inv lg _ SL Cn) as (s0 & E0 & _).
    destruct (SP (block_samples b) (New n) s0 E0 Cn eq_refl (fun _ => I)) as (s1 & E1 & P1).
    { intros v q Hv. apply D. apply in_concat. eexists. split; [apply in_map_iff; exists b; split; [reflexivity|exact Hb]|exact Hv]. }
    exists s1. split; [|exact P1]. unfold stream_flat. cbn [run] in E0. fold n. rewrite E0. cbn [obind]. unfold block_samples, weighted_ok in *. destruct (snd b) as [wl|]; [|exact E1]. unfold zlen. rewrite Wb, Z.eqb_refl. exact E1. }
  rewrite <- L in T. destruct (tree_inv _ _ (core_add_sound _ (hist_merge lg)) _ P h (map (fun b => defined (block_samples b)) blocks) w) as (r & R & hst & Er & Ca & Pu & Bu & Ro); [rewrite map_length; congruence|exact PB| |exact T|].
  { intros a b l m (ha & A1 & A2 & A3 & A4 & A5) (hb & B1 & B2 & B3 & B4 & B5). assert (Cm : careful (Merge ha hb)) by (split; assumption).
    destruct (run_inv lg _ SL Cm) as (s & Es & _). exists s. split; [cbn [run] in Es; rewrite A1, B1 in Es; exact Es|]. exists (Merge ha hb). split; [exact Es|]. split; [exact Cm|]. cbn [pushed budget roomy]. split; [rewrite A3, B3; reflexivity|]. split; [exact A4|].
    intro Z1. rewrite A3, B3, A4. unfold zlen in *. rewrite app_length in Z1. change (list (Q * Q)) with (list sample) in *. change (@length (Q * Q)) with (@length sample) in *. split; [apply A5; lia|]. split; [apply B5; lia|lia]. }
  exists h, r. split; [exact E|]. split; [exact R|]. rewrite C in *. cbn zeta. set (l := defined (concat (map block_samples blocks))) in *.
  assert (SO : forall f (l : list sample), (sum_over f l == total f l)%Q) by (clear; induction l as [|[v q] l IH]; cbn [sum_over total]; [reflexivity|]; rewrite IH; ring).
  destruct (C38_budget_sorted lg hst SL Ca) as (s1 & E1 & X1 & X2 & _). assert (s1 = r) by congruence. subst s1.
  destruct (C39_conservation lg hst SL Ca) as (s2 & E2 & Y1 & Y2 & Y3). assert (s2 = r) by congruence. subst s2. rewrite Pu in *. rewrite Bu in *.
  split; [exact Y1|]. split; [exact X1|]. split; [exact X2|]. split; [rewrite Y2; apply SO|]. split; [intro Nl; destruct (Y3 Nl) as (m & M1 & M2); exists m; split; [exact M1|]; rewrite M2; unfold mean, weight; rewrite !SO; reflexivity|].
  split; [intro Z1; destruct (C39_exact lg hst SL Ca (Ro Z1)) as (s3 & E3 & P3); assert (s3 = r) by congruence; subst s3; rewrite Pu in P3; exact P3|].
  intros Nl U. destruct (C40_minimum lg hst SL Ca) as (s4 & m & E4 & M4 & L4); [rewrite Pu; exact Nl|rewrite Pu; exact U|]. assert (s4 = r) by congruence. subst s4. exists m. split; [exact M4|]. rewrite Pu in L4. exact L4.
Qed.
Print Assumptions C123_streaming.

(** A concrete case: three blocks (one with weights, one with a missing value), added in either order. *)
Example C123_ex2 : let blocks := [([Some 3; None]%Q, None); ([Some 5]%Q, Some [2%Q]); ([Some 1; Some 9]%Q, None)] in
  Forall weighted_ok blocks /\ Forall (fun b => positive_weights (defined (block_samples b)) /\ defined (block_samples b) <> []) blocks /\
  tree_of 3 (Sum (Ref 0) (Sum (Ref 1) (Ref 2))) /\ tree_of 3 (Sum (Sum (Ref 0) (Ref 1)) (Ref 2)).
Proof.
  cbn zeta. split; [repeat constructor|]. split; [repeat constructor; try discriminate; intros s Hs; repeat (destruct Hs as [<-|Hs]; [reflexivity|]); destruct Hs|]. split; reflexivity.
Qed.
(** An array of 3 rows and 2 columns in slabs of 2 rows and 1 row, reduced along the rows. *)
Example C123_ex3 : let value := fun i : list Z => (Some (inject_Z (2 * nth 0 i 0 + nth 1 i 0)), 1%Q) in
  exists h a b, delayed_stats_axis [2] [0] (slabs [2] value 0 [2; 1]) = Ok h /\ returns (core_add stats_iadd) h (Sum (Ref 0) (Ref 1)) ([2], [a; b]) /\
    a_count a = 3 /\ is (acc_get_mean a) 2 /\ is (acc_get_mean b) 3.
Proof.
  cbn zeta. eexists. eexists. eexists. split; [vm_compute; reflexivity|]. split; [apply returns_pair; reflexivity|]. split; [reflexivity|].
  split; eexists; (split; [vm_compute; reflexivity|reflexivity]).
Qed.
