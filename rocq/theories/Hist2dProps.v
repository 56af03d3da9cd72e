(** Theorems about the grid of streaming histograms (C68, C69). *)
From Verif Require Import Base BaseProofs AxisModel AxisSpec AxisProofs AxisProofs2 AxisProofs5 HistModel HistSpec HistProofs HistProofs2 HistProps HistSerModel HistSerProofs Hist2dModel Hist2dSpec BinningModel BinningSpec BinningHistory BinningProofs BinningProofs4 Hist2dProofs BinningProps BinningProps2.
From Coq Require Import Permutation.
Open Scope Z_scope.

(** * C68 any history of a grid of histograms *)
(** Whatever the sequence of pushes, merges, clears and restores (values far from the largest double, at
    least one bin per cell): everything succeeds and each cell summarises exactly the values pushed since
    the last clear whose nearest centres are those of the cell. *)
Theorem C68_history : forall lg x y bin_count h, small_log lg -> reachable x -> reachable y ->
  (forall n, bin_count = Some n -> 1 <= n) -> same_sizes h -> moderate_values h ->
  (restores h = true -> picklable x /\ picklable y) ->
  exists g, run2 lg x y bin_count h = Ok g /\
    forall i j, 0 <= i < len x -> 0 <= j < len y -> exists sel,
      selects (fun s => in_bin x (fst (fst s)) i /\ in_bin y (snd (fst s)) j) (samples_of h) sel /\
      summary (match bin_count with Some n => n | None => 100 end) (g_cells g i j) (values sel).
Proof.
  intros lg x y bin_count h L RX RY N SS MV PK.
  assert (NL : 1 <= limit bin_count) by (unfold limit; destruct bin_count as [n|]; [auto|lia]).
  destruct (history2_ok lg L x y bin_count h (reachable_ok _ RX) (reachable_ok _ RY) NL SS MV PK) as (g & E & G & H). exists g. split; [exact E|].
  intros i j I J. destruct G as (_ & EX & AX & _ & _ & EY & AY & _). destruct (axis_eqb_values _ _ EX) as [LX _]. destruct (axis_eqb_values _ _ EY) as [LY _].
  destruct (H i j) as (sel & S & X); [unfold g_rows; unfold len in *; lia|unfold g_cols; unfold len in *; lia|]. exists sel. split.
  - eapply selects_iff; [|exact S]. intros [[u v] z]. unfold of_cell. cbn [fst snd]. rewrite (axis_eqb_bins _ _ EX AX u i), (axis_eqb_bins _ _ EY AY v j). reflexivity.
  - eapply summary_of; [exact L|exact X].
Qed.
Print Assumptions C68_history.
Example C68_ex : let h := BinningSpec.Merge (Restore (BinningSpec.Push (Clear (BinningSpec.Push Fresh [1%Q] [2%Q] [Some 3%Q])) [90; 80]%Q [3; 1]%Q [Some 4; None]%Q)) (BinningSpec.Push Fresh [455%Q] [9%Q] [Some 6%Q]) in
  same_sizes h /\ moderate_values h /\ (olet g := run2 (fun _ => 0%Q) quarters steps (Some 5) h in Ok (h_count (g_cells g 1 2), h_count (g_cells g 0 2))) = Ok (2, 0).
Proof.
  cbn zeta. split; [repeat split|]. split.
  - assert (M : forall q, (Qabs q <= 10)%Q -> moderate q) by (intros q Hq; eapply Qle_trans; [exact Hq|]; apply Qle_bool_iff; vm_compute; reflexivity).
    assert (K : forall l : list (option Q), Forall (fun z => match z with Some q => (Qabs q <= 10)%Q | None => True end) l -> forall v, In (Some v) l -> moderate v).
    { intros l F v I. rewrite Forall_forall in F. apply M. exact (F _ I). }
    cbn [moderate_values]. split; [split; [split; [exact Logic.I|]|]|split; [exact Logic.I|]]; apply K; repeat constructor; vm_compute; discriminate.
  - vm_compute. reflexivity.
Qed.

(** Merging grids that differ in size or in a coordinate is refused. *)
Theorem C68_incompatible : forall lg g g',
  (len (g_x g) <> len (g_x g') \/ len (g_y g) <> len (g_y g') \/
   (exists i v w, at_index (g_x g) i v /\ at_index (g_x g') i w /\ ~ (v == w)%Q) \/
   (exists i v w, at_index (g_y g) i v /\ at_index (g_y g') i w /\ ~ (v == w)%Q)) ->
  exists w, add2 lg g g' = Throw w.
Proof.
  intros lg b c H. unfold add2.
  assert (D : forall a a' i v w, axis_eqb a a' = true -> at_index a i v -> at_index a' i w -> (v == w)%Q).
  { intros a a' i v w E A B. destruct (proj2 (axis_eqb_values _ _ E) i v A) as (w' & W & Q). unfold at_index in *. rewrite W in B. injection B as <-. symmetry. exact Q. }
  destruct (axis_eqb (g_x b) (g_x c)) eqn:EX; [|eexists; reflexivity]. destruct (axis_eqb (g_y b) (g_y c)) eqn:EY; [|eexists; reflexivity]. exfalso.
  destruct H as [H|[H|[(i & v & w & A & B & N)|(i & v & w & A & B & N)]]].
  - apply H. apply (axis_eqb_values _ _ EX).
  - apply H. apply (axis_eqb_values _ _ EY).
  - apply N. exact (D _ _ _ _ _ EX A B).
  - apply N. exact (D _ _ _ _ _ EY A B).
Qed.
Theorem C68_sizes : forall lg g xs ys zs, ~ (length xs = length ys /\ length xs = length zs) -> exists w, push2 lg g xs ys zs = Throw w.
Proof.
  intros lg g xs ys zs H. unfold push2, zlen. destruct (Z.eqb_spec (Z.of_nat (length xs)) (Z.of_nat (length ys))); [|eexists; reflexivity].
  destruct (Z.eqb_spec (Z.of_nat (length xs)) (Z.of_nat (length zs))); [|eexists; reflexivity]. exfalso. apply H. lia.
Qed.
(** A grid of histograms with no bin: the first push is undefined behaviour. *)
Theorem C68_zero_bins_refuted : forall lg, exists w, (olet g := new_hist2 lg steps steps (Some 0) in push2 lg g [0%Q] [0%Q] [Some 5%Q]) = UB w.
Proof.
  intro lg. eexists. unfold new_hist2, hist_resize, trim. cbn [h_bins hist_new h_weighted h_bin_count h_count h_min h_max length trim_loop zlen]. change (0 <? zlen (A := bin) []) with false. cbn [obind].
  unfold push2. change (negb (zlen [0%Q] =? zlen [0%Q]) || negb (zlen [0%Q] =? zlen [Some 5%Q])) with false. cbn [combine push2_loop push2_1].
  change (find_index (g_x (Hist2 steps steps _)) 0 true) with (find_index steps 0 true). change (find_index (g_y (Hist2 steps steps _)) 0 true) with (find_index steps 0 true).
  replace (find_index steps 0 true) with (Ok 0 : outcome Z) by (vm_compute; reflexivity). cbn [obind negb andb Z.eqb].
  change (in_matrix _ _ 0 0) with true. cbn [g_cells]. unfold hist_push. cbn [h_bins update_bins obind h_weighted h_bin_count h_count trim length trim_loop]. change (0 <? zlen (A := bin) [(5%Q, 1%Q)]) with true. reflexivity.
Qed.

(** * C69 the exported bins and the serialized grid *)
(** [histograms]: every cell has the same number of entries, its own bins first, in order, and then
    only missing values of null weight; the number of entries is the largest number of bins. *)
Lemma bins_count_spec : forall g, 0 <= bins_count g /\ (forall i j, 0 <= i < g_rows g -> 0 <= j < g_cols g -> zlen (h_bins (g_cells g i j)) <= bins_count g) /\
  (bins_count g = 0 \/ exists i j, 0 <= i < g_rows g /\ 0 <= j < g_cols g /\ bins_count g = zlen (h_bins (g_cells g i j))).
Proof.
  intro g. unfold bins_count.
  assert (G : forall l m, let r := fold_left (fun m ij => Z.max m (zlen (h_bins (g_cells g (fst ij) (snd ij))))) l m in
    m <= r /\ (forall i j, In (i, j) l -> zlen (h_bins (g_cells g i j)) <= r) /\ (r = m \/ exists i j, In (i, j) l /\ r = zlen (h_bins (g_cells g i j)))).
  { induction l as [|[a b] l IH]; intro m; cbn zeta; cbn [fold_left fst snd].
    - split; [lia|]. split; [intros i j []|left; reflexivity].
    - destruct (IH (Z.max m (zlen (h_bins (g_cells g a b))))) as (A & B & C). split; [lia|]. split.
      + intros i j [E|I]; [injection E as <- <-; lia|apply B; exact I].
      + destruct C as [C|(i & j & I & C)]; [|right; exists i, j; split; [right; exact I|exact C]].
        destruct (Z.max_spec m (zlen (h_bins (g_cells g a b)))) as [[_ X]|[_ X]]; [right; exists a, b; split; [left; reflexivity|lia]|left; lia]. }
  destruct (G (all_cells (g_rows g) (g_cols g)) 0) as (A & B & C). split; [exact A|]. split; [intros i j I J; apply B, in_all_cells; auto|].
  destruct C as [C|(i & j & I & C)]; [left; exact C|right]. exists i, j. apply in_all_cells in I as [I J]. auto.
Qed.
Theorem C69_histograms : forall g, exists n,
  (forall i j, 0 <= i < g_rows g -> 0 <= j < g_cols g ->
     zlen (histograms g i j) = n /\
     forall k, (nth_error (histograms g i j) k = match nth_error (h_bins (g_cells g i j)) k with
       | Some b => Some (Some (bvalue b), bweight b)
       | None => if Z.of_nat k <? n then Some (None, 0%Q) else None end)) /\
  (n = 0 \/ exists i j, 0 <= i < g_rows g /\ 0 <= j < g_cols g /\ n = zlen (h_bins (g_cells g i j))).
Proof.
  intro g. destruct (bins_count_spec g) as (P & M & C). exists (bins_count g). split; [|exact C]. intros i j I J. specialize (M i j I J). unfold histograms, padded. set (n := bins_count g) in *. set (l := h_bins (g_cells g i j)) in *. split.
  - unfold zlen in *. rewrite app_length, map_length, repeat_length. lia.
  - intro k. unfold zlen in *. destruct (nth_error l k) as [b|] eqn:E.
    + rewrite nth_error_app1 by (rewrite map_length; apply nth_error_Some; congruence). rewrite nth_error_map, E. reflexivity.
    + apply nth_error_None in E. rewrite nth_error_app2 by (rewrite map_length; exact E). rewrite map_length.
      destruct (Z.ltb_spec (Z.of_nat k) n) as [K|K]; [apply nth_error_repeat; lia|apply nth_error_None; rewrite repeat_length; lia].
Qed.
Print Assumptions C69_histograms.

(** The bytes of a grid restore exactly its cells; cut anywhere, they are refused; so are the bytes of
    a grid of another shape. *)
Theorem C69_roundtrip : forall tsz rows cols l, (0 < tsz)%nat -> 0 <= rows < 2 ^ 63 -> 0 <= cols < 2 ^ 63 -> zlen l = rows * cols ->
  Forall (well_formed tsz) l -> Forall (addressable tsz) l -> load_matrix tsz rows cols (dump_matrix tsz rows cols l) = Ok l.
Proof.
  intros tsz rows cols l T R C Z W A. unfold load_matrix, dump_matrix. rewrite (get_ok 8) by apply le_zlen. cbn [obind]. rewrite (get_ok 8) by apply le_zlen. cbn [obind].
  rewrite !le_round8 by (change (2 ^ 64) with (2 * 2 ^ 63); lia). rewrite !Z.eqb_refl. cbn [negb orb]. rewrite <- Z. unfold zlen. rewrite Nat2Z.id.
  pose proof (load_items_ok tsz T l [] W A) as E. rewrite app_nil_r in E. exact E.
Qed.
Print Assumptions C69_roundtrip.
Theorem C69_truncated : forall tsz rows cols l n, (0 < tsz)%nat -> 0 <= rows < 2 ^ 63 -> 0 <= cols < 2 ^ 63 -> zlen l = rows * cols ->
  Forall (well_formed tsz) l -> Forall (addressable tsz) l -> (n < length (dump_matrix tsz rows cols l))%nat ->
  load_matrix tsz rows cols (firstn n (dump_matrix tsz rows cols l)) = Throw "invalid state".
Proof.
  intros tsz rows cols l n T R C Z W A Hn. unfold load_matrix, dump_matrix in *.
  destruct (get_cut 8 _ _ n (le_zlen 8 rows) Hn) as [[L E]|(L & E & H)]; rewrite E; cbn [obind]; [reflexivity|].
  destruct (get_cut 8 _ _ _ (le_zlen 8 cols) H) as [[L' E']|(L' & E' & H')]; rewrite E'; cbn [obind]; [reflexivity|].
  rewrite !le_round8 by (change (2 ^ 64) with (2 * 2 ^ 63); lia). rewrite !Z.eqb_refl. cbn [negb orb]. rewrite <- Z. unfold zlen. rewrite Nat2Z.id.
  apply load_items_cut; assumption.
Qed.
Print Assumptions C69_truncated.
Theorem C69_other_shape : forall tsz rows cols rows' cols' l rest, 0 <= rows < 2 ^ 63 -> 0 <= cols < 2 ^ 63 -> rows <> rows' \/ cols <> cols' ->
  load_matrix tsz rows' cols' (dump_matrix tsz rows cols l ++ rest) = Throw "invalid state".
Proof.
  intros tsz rows cols rows' cols' l rest R C D. unfold load_matrix, dump_matrix. rewrite <- !app_assoc. rewrite (get_ok 8) by apply le_zlen. cbn [obind]. rewrite (get_ok 8) by apply le_zlen. cbn [obind].
  rewrite !le_round8 by (change (2 ^ 64) with (2 * 2 ^ 63); lia). destruct (Z.eqb_spec rows rows'); [|reflexivity]. destruct (Z.eqb_spec cols cols'); [|reflexivity]. lia.
Qed.
(** A forged size is undefined behaviour. *)
Theorem C69_forged_refuted : exists data w, load_matrix 8 1 1 data = UB w.
Proof. exists (le_bytes 8 1 ++ le_bytes 8 1 ++ le_bytes 8 (2 ^ 63)). eexists. vm_compute. reflexivity. Qed.
Example C69_ex : let h := RawHist false 100 2 4607182418800017408 4611686018427387904 [(4607182418800017408, 4607182418800017408)] in
  load_matrix 8 1 2 (dump_matrix 8 1 2 [h; h]) = Ok [h; h].
Proof. vm_compute. reflexivity. Qed.
