(** Theorems about the delayed computations (C123): binning and grids of histograms.

    A user gives chunked arrays to [push_delayed]; the result must not depend on the chunks, on the tree
    of additions or on the scheduling, and be what [push] gives on the whole arrays. *)
From Verif Require Import Base BaseProofs MathModel AxisModel AxisSpec AxisProofs AxisProofs2 AxisProofs5 StatsModel StatsSpec StatsProofs StatsProofs2 StatsProps BinningModel BinningSpec BinningHistory BinningProofs BinningProofs2 BinningProofs3 BinningProofs4 BinningProofs5 BinningProps BinningProps2 HistModel HistSpec HistProofs HistProofs2 HistProps Hist2dModel Hist2dSpec Hist2dProofs DaskModel DaskSpec DaskProofs.
Open Scope Z_scope.

(** The samples of a chunk, and its validity. *)
Definition samples3 (c : list Q * list Q * list (option Q)) : list (Q * Q * option Q) := combine (combine (fst (fst c)) (snd (fst c))) (snd c).
Definition regular3 (c : list Q * list Q * list (option Q)) : Prop := length (fst (fst c)) = length (snd (fst c)) /\ length (fst (fst c)) = length (snd c).

Lemma push_ok_sizes : forall geo b c simple, regular3 c -> push geo b (fst (fst c)) (snd (fst c)) (snd c) simple =
  push_loop (if simple then push_nearest1 else match b_wgs b with None => push_linear1 cartesian_area | Some wgs => push_linear1 (geo wgs) end) b (samples3 c).
Proof. intros geo b c simple [L1 L2]. unfold push, zlen. rewrite <- L1, <- L2, Z.eqb_refl. reflexivity. Qed.
Lemma add_same : forall b c, b_x c = b_x b -> b_y c = b_y b -> b_wgs c = b_wgs b -> exists d, add_in_place b c = Ok d /\ b_x d = b_x b /\ b_y d = b_y b /\ b_wgs d = b_wgs b /\
  forall i j, 0 <= i < len (b_x b) -> 0 <= j < len (b_y b) -> b_acc d i j = merge_cell (b_acc b i j) (b_acc c i j).
Proof.
  intros b c EX EY EW. unfold add_in_place. rewrite EX, EY, EW, !axis_eqb_refl, wgs_same. cbn [negb orb]. eexists. split; [reflexivity|]. repeat (split; [reflexivity|]).
  intros i j Hi Hj. cbn [with_acc b_acc]. replace (in_matrix (b_rows b) (b_cols b) i j) with true by (symmetry; apply in_matrix_iff; auto). reflexivity.
Qed.

(** * Binning2D, nearest bins *)
Theorem C123_binning2d : forall geo self chunks w, reachable (b_x (o_instance self)) -> reachable (b_y (o_instance self)) ->
  Forall regular3 chunks -> tree_of (length chunks) w ->
  exists h r, push_delayed2 geo self true chunks = Ok h /\ returns (py_add (typed_iadd add_in_place)) h w r /\
    b_x (o_instance r) = b_x (o_instance self) /\ b_y (o_instance r) = b_y (o_instance self) /\ b_wgs (o_instance r) = b_wgs (o_instance self) /\
    forall i j, 0 <= i < len (b_x (o_instance self)) -> 0 <= j < len (b_y (o_instance self)) ->
      exists sel, selects (fun s => in_bin (b_x (o_instance self)) (fst (fst s)) i /\ in_bin (b_y (o_instance self)) (snd (fst s)) j) (concat (map samples3 chunks)) sel /\
        let l := defined (map (fun s => (snd s, 1%Q)) sel) in
        reads (b_acc (o_instance r) i j) l /\ (l <> [] -> extremes (b_acc (o_instance r) i j) (map fst l)).
Proof.
  intros geo self chunks w RX RY F T. set (x := b_x (o_instance self)) in *. set (y := b_y (o_instance self)) in *. set (wgs := b_wgs (o_instance self)) in *.
  pose proof (reachable_ok _ RX) as OX. pose proof (reachable_ok _ RY) as OY.
  set (P := fun (a : py_object binning) (l : list (Q * Q * option Q)) => o_dtype a = Float64 /\ b_x (o_instance a) = x /\ b_y (o_instance a) = y /\ b_wgs (o_instance a) = wgs /\ holds (o_instance a) l).
  rewrite Forall_forall in F.
  destruct (map_blocks_ok _ _ _ (block2 geo self true) samples3 P chunks) as (h & E & L & PB).
  { intros [[xs ys] zs] Hc. pose proof (F _ Hc) as R. unfold block2. fold x y wgs. pose proof (push_ok_sizes geo (new_binning x y wgs) (xs, ys, zs) true R) as PS. cbn [fst snd] in PS. rewrite PS.
    destruct (push_nearest_loop (samples3 (xs, ys, zs)) (new_binning x y wgs) OX OY) as (b & E & G & _). rewrite E. cbn [obind]. eexists. split; [reflexivity|].
    destruct (holds_push (new_binning x y wgs) [] (samples3 (xs, ys, zs)) b OX OY (holds_new x y wgs) E) as [(G1 & G2 & G3) H]. unfold P. cbn [o_dtype o_instance]. auto. }
  rewrite <- L in T. destruct (tree_inv _ _ (py_add_sound _ (typed_iadd add_in_place)) _ P h (map samples3 chunks) w) as (r & R & PR); [rewrite map_length; congruence|exact PB| |exact T|].
  { intros a b l m (A1 & A2 & A3 & A4 & A5) (B1 & B2 & B3 & B4 & B5). unfold typed_iadd. rewrite A1, B1. cbn [same_dtype negb].
    destruct (add_same (o_instance a) (o_instance b)) as (d & Ed & D1 & D2 & D3 & _); try congruence. rewrite Ed. cbn [obind]. eexists. split; [reflexivity|]. unfold P. cbn [o_dtype o_instance].
    destruct (holds_merge (o_instance a) (o_instance b) l m d) as [_ HM]; [congruence|congruence|exact A5|exact B5|exact Ed|]. repeat (split; [congruence|]). exact HM. }
  destruct PR as (P1 & P2 & P3 & P4 & P5). exists h, r. split; [exact E|]. split; [exact R|]. repeat (split; [assumption|]).
  intros i j Hi Hj. destruct (P5 i j) as (sel & S & X); [unfold b_rows; rewrite P2; exact Hi|unfold b_cols; rewrite P3; exact Hj|]. rewrite P2, P3 in S. exists sel. split; [exact S|].
  cbn zeta. replace (map (fun s : Q * Q * option Q => (snd s, 1%Q)) sel) with (map (fun v : option Q => (v, 1%Q)) (map snd sel)) by (rewrite map_map; reflexivity). apply reads_of. exact X.
Qed.
Print Assumptions C123_binning2d.

(** * Binning2D, linear binning on plain axes *)
Lemma shares_positive : forall x y i j l cs, Forall2 (fun s c => linear_share x y s i j c) l cs -> positive_weights (defined (concat cs)).
Proof.
  intros x y i j l cs S. induction S as [|[[u v] z] c l cs H S IH]; [intros t []|]. cbn [concat]. rewrite defined_app. apply positive_app. split; [|exact IH].
  cbn [linear_share] in H. destruct z as [w|]; [|subst c; intros t []]. destruct H as [[_ ->]|(wx & dx & wy & dy & _ & _ & [[_ ->]|(A & _ & q & Hq & ->)])]; [intros t []|intros t []|].
  intros t [<-|[]]. cbn [snd]. rewrite Hq. lra.
Qed.
Theorem C123_linear : forall geo self chunks w, let x := b_x (o_instance self) in let y := b_y (o_instance self) in
  reachable x -> reachable y -> 1 < len x -> 1 < len y -> is_angle x = false -> is_angle y = false -> b_wgs (o_instance self) = None ->
  Forall regular3 chunks -> tree_of (length chunks) w ->
  exists h r, push_delayed2 geo self false chunks = Ok h /\ returns (py_add (typed_iadd add_in_place)) h w r /\
    forall i j, 0 <= i < len x -> 0 <= j < len y -> exists cs,
      Forall2 (fun s c => linear_share x y s i j c) (concat (map samples3 chunks)) cs /\ reads (b_acc (o_instance r) i j) (defined (concat cs)).
Proof.
  intros geo self chunks w x y RX RY LX LY AX AY W F T. fold x y. pose proof (reachable_ok _ RX) as OX. pose proof (reachable_ok _ RY) as OY.
  set (P := fun (a : py_object binning) (l : list (Q * Q * option Q)) => o_dtype a = Float64 /\ b_x (o_instance a) = x /\ b_y (o_instance a) = y /\ b_wgs (o_instance a) = None /\
    forall i j, 0 <= i < len x -> 0 <= j < len y -> exists cs, Forall2 (fun s c => linear_share x y s i j c) l cs /\ empty_or (b_acc (o_instance a) i j) (defined (concat cs)) (map (fun s => (snd s * fst s)%Q) (defined (concat cs)))).
  rewrite Forall_forall in F.
  destruct (map_blocks_ok _ _ _ (block2 geo self false) samples3 P chunks) as (h & E & L & PB).
  { intros [[xs ys] zs] Hc. pose proof (F _ Hc) as R. unfold block2. fold x y. rewrite W. pose proof (push_ok_sizes geo (new_binning x y None) (xs, ys, zs) false R) as PS. cbn [fst snd] in PS. rewrite PS. change (b_wgs (new_binning x y None)) with (@None spheroid).
    destruct (push_linear_loop (samples3 (xs, ys, zs)) (new_binning x y None) OX OY LX LY AX AY) as (b & E & (G1 & G2 & G3) & C). rewrite E. cbn [obind]. eexists. split; [reflexivity|].
    unfold P. cbn [o_dtype o_instance]. repeat (split; [first [reflexivity|assumption]|]). intros i j _ _. destruct (C i j) as (cs & S & X). exists cs. split; [exact S|]. rewrite X.
    apply (push_all_weighted_ok (concat cs)). eapply shares_positive. exact S. }
  rewrite <- L in T. destruct (tree_inv _ _ (py_add_sound _ (typed_iadd add_in_place)) _ P h (map samples3 chunks) w) as (r & R & PR); [rewrite map_length; congruence|exact PB| |exact T|].
  { intros a b l m (A1 & A2 & A3 & A4 & A5) (B1 & B2 & B3 & B4 & B5). unfold typed_iadd. rewrite A1, B1. cbn [same_dtype negb].
    destruct (add_same (o_instance a) (o_instance b)) as (d & Ed & D1 & D2 & D3 & D4); try congruence. rewrite Ed. cbn [obind]. eexists. split; [reflexivity|]. unfold P. cbn [o_dtype o_instance].
    repeat (split; [congruence|]). intros i j Hi Hj. destruct (A5 i j Hi Hj) as (cs & S & X). destruct (B5 i j Hi Hj) as (ds & U & Y). exists (cs ++ ds). split; [apply Forall2_app; assumption|].
    rewrite D4 by (rewrite ?A2, ?A3; assumption). rewrite concat_app, defined_app, map_app. apply merge_cell_ok; [eapply shares_positive; exact S|eapply shares_positive; exact U|exact X|exact Y|intros ->; reflexivity|intros ->; reflexivity]. }
  destruct PR as (_ & P2 & P3 & _ & P5). exists h, r. split; [exact E|]. split; [exact R|]. intros i j Hi Hj. destruct (P5 i j Hi Hj) as (cs & S & X). exists cs. split; [exact S|]. eapply reads_of. exact X.
Qed.
Print Assumptions C123_linear.

(** The result is always a double precision object: for a single precision binning its type differs from
    that of [self], and adding it to [self] is refused. *)
Theorem C123_dtype_refuted : forall geo b simple chunks h, push_delayed2 geo (PyObject Float32 b) simple chunks = Ok h -> forall r, In r h ->
  o_dtype r = Float64 /\ exists e, typed_iadd add_in_place (PyObject Float32 b) r = Throw e.
Proof.
  intros geo b simple chunks. unfold push_delayed2. induction chunks as [|[[xs ys] zs] chunks IH]; intros h E r Hr; cbn [map_blocks] in E; [injection E as <-; destruct Hr|].
  unfold block2 in E at 1. destruct (push _ _ _ _ _ _) as [b'|?|?] in E; cbn [obind] in E; try discriminate. destruct (map_blocks _ _) as [t|?|?] eqn:Et in E; cbn [obind] in E; try discriminate.
  assert (Eh : h = PyObject Float64 b' :: t) by congruence. subst h. destruct Hr as [<-|Hr]; [|exact (IH t Et r Hr)]. split; [reflexivity|]. eexists. reflexivity.
Qed.
Print Assumptions C123_dtype_refuted.

(** * Binning1D *)
Definition samples1 (c : list Q * list (option Q) * option (list Q)) : list (Q * (option Q * Q)) :=
  let '(xs, z, weights) := c in combine xs (combine z (match weights with Some w => w | None => map (fun _ => 1%Q) z end)).
Definition regular1 (c : list Q * list (option Q) * option (list Q)) : Prop :=
  let '(xs, z, weights) := c in length xs = length z /\ forall w, weights = Some w -> length xs = length w /\ forall q, In q w -> (0 < q)%Q.
(** With the default range: the samples in the range of the bin centres go to the nearest centre, with
    their weights, as with [push] (C66). *)
Theorem C123_binning1d_partial : forall self chunks w, let x := b_x (b1_base (o_instance self)) in reachable x ->
  Forall regular1 chunks -> tree_of (length chunks) w ->
  exists b0 h r, new_binning1 x None = Ok b0 /\ push_delayed1 self chunks = Ok h /\ returns (py_add (typed_iadd iadd1)) h w r /\
    b1_min (o_instance r) = b1_min b0 /\ b1_max (o_instance r) = b1_max b0 /\
    forall i, 0 <= i < len x -> exists sel,
      selects (fun s => ((b1_min b0 <= fst s) /\ (fst s <= b1_max b0))%Q /\ in_bin x (fst s) i) (concat (map samples1 chunks)) sel /\
      reads (b_acc (b1_base (o_instance r)) i 0) (defined (map snd sel)).
Proof.
  intros self chunks w x RX F T. pose proof (reachable_ok _ RX) as OX. destruct (new_binning1_ok x None OX) as (b0 & E0 & BX & BC & BA & _).
  assert (BW : b_wgs (b1_base b0) = None) by (unfold new_binning1 in E0; destruct (axis_regular 0 1 1 0 false); cbn [obind] in E0; try discriminate; destruct (c_min (a_cont x)), (c_max (a_cont x)); try discriminate; injection E0 as <-; reflexivity).
  set (P := fun (a : py_object binning1) (l : list (Q * (option Q * Q))) => o_dtype a = Float64 /\ same_grid (b1_base b0) (b1_base (o_instance a)) /\ b1_min (o_instance a) = b1_min b0 /\ b1_max (o_instance a) = b1_max b0 /\
    forall i, 0 <= i < len x -> exists sel, selects (in_range_bin x (b1_min b0) (b1_max b0) i) l sel /\ positive_weights (defined (map snd sel)) /\
      empty_or (b_acc (b1_base (o_instance a)) i 0) (defined (map snd sel)) (map (fun s => (snd s * fst s)%Q) (defined (map snd sel)))).
  rewrite Forall_forall in F.
  destruct (map_blocks_ok _ _ _ (block1 self) samples1 P chunks) as (h & E & L & PB).
  { intros [[xs z] weights] Hc. pose proof (F _ Hc) as [LZ HW]. unfold block1. fold x. rewrite E0. cbn [obind].
    set (ws := match weights with Some w => w | None => map (fun _ => 1%Q) z end).
    assert (LW : (length xs <= length ws)%nat) by (unfold ws; destruct weights as [u|]; [rewrite (proj1 (HW u eq_refl)); lia|rewrite map_length; lia]).
    assert (PW : forall q, In q ws -> (0 < q)%Q).
    { unfold ws. destruct weights as [u|]; [apply (HW u eq_refl)|]. intros q Hq. apply in_map_iff in Hq as (? & <- & _). reflexivity. }
    pose proof OX as OX'. rewrite <- BX in OX'.
    destruct (push1_loop_ok xs b0 0 z weights z ws OX' BC ltac:(lia) LW) as (b & Fb & G & M1 & M2 & C).
    { intros k Hk. unfold znth. replace (0 + Z.of_nat k <? 0) with false by lia. rewrite Z.add_0_l, Nat2Z.id. reflexivity. }
    { intros k Hk. unfold ws. destruct weights as [u|]; [unfold znth; replace (0 + Z.of_nat k <? 0) with false by lia; rewrite Z.add_0_l, Nat2Z.id; reflexivity|].
      destruct (nth_error z k) as [v|] eqn:N; [apply map_nth_error with (f := fun _ => 1%Q) in N; exact N|apply nth_error_None in N; lia]. }
    unfold push1. rewrite Fb. cbn [obind]. eexists. split; [reflexivity|]. unfold P. cbn [o_dtype o_instance]. split; [reflexivity|]. split; [exact G|]. split; [exact M1|]. split; [exact M2|].
    intros i Hi. destruct (C i) as (sel & S & X). rewrite BX in S. exists sel. split; [exact S|]. rewrite X, BA.
    assert (PP : positive_weights (defined (map snd sel))).
    { assert (Q0 : forall s, In s sel -> (0 < snd (snd s))%Q).
      { intros s Hs. apply PW. assert (IN : In s (combine xs (combine z ws))). { clear -S Hs. induction S; cbn in *; [contradiction|destruct Hs as [->|Hs]; auto|auto]. }
        destruct s as [a [v q]]. apply in_combine_r in IN. apply in_combine_r in IN. exact IN. }
      clear -Q0. induction sel as [|[a [v q]] sel IH]; [intros t []|]. cbn [map snd]. change ((v, q) :: map snd sel) with ([(v, q)] ++ map snd sel). rewrite defined_app. apply positive_app. split; [|apply IH; intros s Hs; apply Q0; right; exact Hs].
      destruct v; [|intros t []]. intros t [<-|[]]. apply (Q0 (a, (Some q0, q))). left. reflexivity. }
    split; [exact PP|]. apply (push_all_weighted_ok (map snd sel)). exact PP. }
  rewrite <- L in T. destruct (tree_inv _ _ (py_add_sound _ (typed_iadd iadd1)) _ P h (map samples1 chunks) w) as (r & R & PR); [rewrite map_length; congruence|exact PB| |exact T|].
  { intros a b l m (A1 & (A2 & A3 & A4) & A5 & A6 & A7) (B1 & (B2 & B3 & B4) & B5 & B6 & B7). unfold typed_iadd, iadd1. rewrite A1, B1. cbn [same_dtype negb].
    destruct (add_same (b1_base (o_instance a)) (b1_base (o_instance b))) as (d & Ed & D1 & D2 & D3 & D4); try congruence. rewrite Ed. cbn [obind]. eexists. split; [reflexivity|]. unfold P. cbn [o_dtype o_instance b1_base b1_min b1_max].
    split; [congruence|]. split; [unfold same_grid; repeat split; congruence|]. split; [exact A5|]. split; [exact A6|].
    intros i Hi. destruct (A7 i Hi) as (sl & S & PS & X). destruct (B7 i Hi) as (sm & U & PU & Y). exists (sl ++ sm). split; [apply selects_app; assumption|].
    rewrite map_app, defined_app, map_app. split; [apply positive_app; auto|]. rewrite D4; [|rewrite A2, BX; exact Hi|rewrite A3; unfold b_cols in BC; unfold len; lia].
    apply merge_cell_ok; [exact PS|exact PU|exact X|exact Y|intros ->; reflexivity|intros ->; reflexivity]. }
  destruct PR as (_ & _ & P3 & P4 & P5). exists b0, h, r. split; [exact E0|]. split; [exact E|]. split; [exact R|]. split; [exact P3|]. split; [exact P4|].
  intros i Hi. destruct (P5 i Hi) as (sel & S & _ & X). exists sel. split; [exact S|]. eapply reads_of. exact X.
Qed.
Print Assumptions C123_binning1d_partial.
(** The range given to the constructor is lost: with the range [0, 1] the sample at 3 is ignored by
    [push], and counted by [push_delayed], whatever the chunks. *)
Theorem C123_range_refuted : exists b d h r, new_binning1 BinningProps.steps (Some (0, 1)%Q) = Ok b /\
  push1 b [3%Q] [Some 5%Q] None = Ok d /\ a_count (b_acc (b1_base d) 2 0) = 0 /\
  push_delayed1 (PyObject Float64 b) [([3%Q], [Some 5%Q], None)] = Ok h /\ returns (py_add (typed_iadd iadd1)) h (Ref 0) r /\ a_count (b_acc (b1_base (o_instance r)) 2 0) = 1 /\
  (b1_max (o_instance r) == 3)%Q.
Proof.
  eexists. eexists. eexists. eexists. split; [vm_compute; reflexivity|]. split; [vm_compute; reflexivity|]. split; [vm_compute; reflexivity|]. split; [vm_compute; reflexivity|].
  split; [|split; [|]]; [intros n h' w' H; inversion H as [|? ? ? ? St]; subst; [split; [apply Nat.le_refl|right; eexists; split; reflexivity]|inversion St]|vm_compute; reflexivity|vm_compute; reflexivity].
Qed.
Print Assumptions C123_range_refuted.

(** * Histogram2D *)
(** Each cell summarises the values of all the chunks, with at most 100 bins: what [push] gives when
    [bin_counts] is not set (C68). *)
Theorem C123_histogram2d_partial : forall lg self chunks w, let x := g_x (o_instance self) in let y := g_y (o_instance self) in small_log lg ->
  reachable x -> reachable y -> Forall regular3 chunks -> Forall (fun c => forall v, In (Some v) (snd c) -> moderate v) chunks -> tree_of (length chunks) w ->
  exists h r, push_delayed_h lg self chunks = Ok h /\ returns (py_add (typed_iadd (add2 lg))) h w r /\
    o_dtype r = o_dtype self /\ g_x (o_instance r) = x /\ g_y (o_instance r) = y /\
    forall i j, 0 <= i < len x -> 0 <= j < len y -> exists sel,
      selects (fun s => in_bin x (fst (fst s)) i /\ in_bin y (snd (fst s)) j) (concat (map samples3 chunks)) sel /\
      summary 100 (g_cells (o_instance r) i j) (values sel).
Proof.
  intros lg self chunks w x y SL RX RY F M T. pose proof (reachable_ok _ RX) as OX. pose proof (reachable_ok _ RY) as OY.
  set (P := fun (a : py_object hist2) (l : list (Q * Q * option Q)) => o_dtype a = o_dtype self /\ g_x (o_instance a) = x /\ g_y (o_instance a) = y /\ holds2 lg 100 (o_instance a) l).
  rewrite Forall_forall in F, M.
  destruct (map_blocks_ok _ _ _ (block_h lg self) samples3 P chunks) as (h & E & L & PB).
  { intros [[xs ys] zs] Hc. pose proof (F _ Hc) as [L1 L2]. pose proof (M _ Hc) as MZ. cbn [fst snd] in *. unfold block_h. fold x y. cbn [new_hist2 obind]. unfold push2, zlen. rewrite <- L1, <- L2, Z.eqb_refl. cbn [negb orb].
    assert (H0 : holds2 lg 100 (Hist2 x y (fun _ _ => hist_new)) []).
    { intros i j _ _. exists []. split; [constructor|]. destruct (cell_new lg 100 ltac:(lia)) as (c & _ & -> & K). exact K. }
    destruct (push2_loop_ok lg SL 100 (combine (combine xs ys) zs) (Hist2 x y (fun _ _ => hist_new)) [] OX OY H0) as (g & Eg & G1 & G2 & H).
    { intros [[a b] z] v Hs Hv. apply MZ. cbn [snd] in Hv. subst z. apply in_combine_r in Hs. exact Hs. }
    rewrite Eg. cbn [obind]. eexists. split; [reflexivity|]. unfold P. cbn [o_dtype o_instance]. auto. }
  rewrite <- L in T. destruct (tree_inv _ _ (py_add_sound _ (typed_iadd (add2 lg))) _ P h (map samples3 chunks) w) as (r & R & PR); [rewrite map_length; congruence|exact PB| |exact T|].
  { intros a b l m (A1 & A2 & A3 & A4) (B1 & B2 & B3 & B4). unfold typed_iadd. rewrite A1, B1. replace (same_dtype (o_dtype self) (o_dtype self)) with true by (destruct (o_dtype self); reflexivity). cbn [negb].
    destruct (holds2_merge lg SL 100 (o_instance a) (o_instance b) l m) as (d & Ed & D1 & D2 & D3); try (rewrite ?A2, ?A3, ?B2, ?B3; first [apply axis_eqb_refl|reflexivity]); try assumption. rewrite Ed. cbn [obind]. eexists. split; [reflexivity|]. unfold P. cbn [o_dtype o_instance].
    split; [reflexivity|]. split; [congruence|]. split; [congruence|exact D3]. }
  destruct PR as (P1 & P2 & P3 & P4). exists h, r. split; [exact E|]. split; [exact R|]. split; [exact P1|]. split; [exact P2|]. split; [exact P3|].
  intros i j Hi Hj. destruct (P4 i j) as (sel & S & X); [unfold g_rows; rewrite P2; exact Hi|unfold g_cols; rewrite P3; exact Hj|]. unfold of_cell in S. rewrite P2, P3 in S. exists sel. split; [exact S|]. eapply summary_of; [exact SL|exact X].
Qed.
Print Assumptions C123_histogram2d_partial.
(** The number of bins given to the constructor is lost: a grid created with one bin per cell returns two
    bins for two values. *)
Theorem C123_bin_counts_refuted : exists g d h r, new_hist2 (fun _ => 0%Q) BinningProps.steps BinningProps.steps (Some 1) = Ok g /\
  push2 (fun _ => 0%Q) g [0; 0]%Q [0; 0]%Q [Some 5; Some 7]%Q = Ok d /\ zlen (h_bins (g_cells d 0 0)) = 1 /\
  push_delayed_h (fun _ => 0%Q) (PyObject Float64 g) [([0; 0]%Q, [0; 0]%Q, [Some 5; Some 7]%Q)] = Ok h /\
  returns (py_add (typed_iadd (add2 (fun _ => 0%Q)))) h (Ref 0) r /\ zlen (h_bins (g_cells (o_instance r) 0 0)) = 2.
Proof.
  eexists. eexists. eexists. eexists. split; [vm_compute; reflexivity|]. split; [vm_compute; reflexivity|]. split; [vm_compute; reflexivity|]. split; [vm_compute; reflexivity|].
  split; [intros n h' w' H; inversion H as [|? ? ? ? St]; subst; [split; [apply Nat.le_refl|right; eexists; split; reflexivity]|inversion St]|vm_compute; reflexivity].
Qed.
Print Assumptions C123_bin_counts_refuted.

(** Three chunks, added in one of the two possible trees. *)
Example C123_ex : forall geo, let self := PyObject Float64 (new_binning quarters BinningProps.steps None) in
  let chunks := [([90%Q], [3%Q], [Some 4%Q]); ([80; 450]%Q, [1; 9]%Q, [None; Some 6]%Q); ([91%Q], [3%Q], [Some 8%Q])] in
  Forall regular3 chunks /\ tree_of (length chunks) (Sum (Ref 0) (Sum (Ref 1) (Ref 2))) /\
  (exists h r, push_delayed2 geo self true chunks = Ok h /\ returns (py_add (typed_iadd add_in_place)) h (Sum (Ref 0) (Sum (Ref 1) (Ref 2))) r) /\
  (olet h := push_delayed2 geo self true chunks in olet r := value (typed_iadd add_in_place) h (Sum (Ref 0) (Sum (Ref 1) (Ref 2))) in Ok (a_count (b_acc (o_instance r) 1 2))) = Ok 3.
Proof.
  intros geo self chunks. assert (F : Forall regular3 chunks) by repeat constructor. split; [exact F|]. split; [reflexivity|]. split.
  - destruct (C123_binning2d geo self chunks (Sum (Ref 0) (Sum (Ref 1) (Ref 2))) quarters_reachable steps_reachable F eq_refl) as (h & r & E & R & _). exists h, r. auto.
  - vm_compute. reflexivity.
Qed.
