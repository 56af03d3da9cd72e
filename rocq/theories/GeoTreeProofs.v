(** Lemmas about the spatial index on a spheroid. *)
From Coq Require Import Reals Lra Psatz Permutation Sorted Lia.
From Verif Require Import Base WindowModel WindowProofs RTreeModel RTreeSpec RTreeProofs GeoTreeModel GeoTreeSpec.
Open Scope R_scope.

(** ** Longitudes *)
Lemma rint_even_near : forall q, -1 / 2 <= q - IZR (rint_even q) <= 1 / 2.
Proof.
  intro q. unfold rint_even. destruct (base_Int_part q) as [A B]. cbv zeta. destruct (Rltb (q - IZR (Int_part q)) (1 / 2)) eqn:E; [apply Rltb_true in E; lra|]. apply Rltb_false in E.
  destruct (Rltb (1 / 2) (q - IZR (Int_part q))) eqn:F; [apply Rltb_true in F; rewrite plus_IZR; lra|]. apply Rltb_false in F. destruct (Z.even _); [|rewrite plus_IZR]; lra.
Qed.
Lemma remainder_spec : forall x y, 0 < y -> 0 <= r_remainder x y < y /\ exists n, r_remainder x y = x + y * IZR n.
Proof.
  intros x y Y. unfold r_remainder. pose proof (rint_even_near (x / y)) as N. set (m := rint_even (x / y)) in *. cbv zeta. set (r := x - IZR m * y).
  assert (E : x / y * y = x) by (field; lra). assert (B : - y / 2 <= r <= y / 2) by (unfold r; split; nra).
  destruct (Rltb r 0) eqn:S; [apply Rltb_true in S|apply Rltb_false in S].
  - split; [lra|]. exists (1 - m)%Z. rewrite minus_IZR. unfold r. ring.
  - split; [lra|]. exists (- m)%Z. rewrite opp_IZR. unfold r. ring.
Qed.
Lemma normalize_spec : forall x, meridian x (r_normalize x (-180) 360).
Proof.
  intro x. unfold r_normalize. destruct (remainder_spec (x - -180) 360 ltac:(lra)) as [A [n E]]. split; [lra|]. exists n. rewrite E. ring.
Qed.
Lemma meridian_unique : forall x m m', meridian x m -> meridian x m' -> m = m'.
Proof.
  intros x m m' [B [n E]] [B' [n' E']]. assert (D : m - m' = 360 * IZR (n - n')) by (rewrite minus_IZR; lra).
  assert (n - n' = 0)%Z. { apply Z.le_antisymm; apply Znot_gt_le; intro G; [assert (H : 1 <= IZR (n - n')) by (apply IZR_le; lia)|assert (H : IZR (n - n') <= -1) by (apply IZR_le; lia)]; lra. }
  rewrite H in D. cbn in D. lra.
Qed.
Lemma same_meridian_sym : forall x y, same_meridian x y -> same_meridian y x.
Proof. intros x y [n E]. exists (- n)%Z. rewrite opp_IZR. lra. Qed.
Lemma same_meridian_trans : forall x y z, same_meridian x y -> same_meridian y z -> same_meridian x z.
Proof. intros x y z [n E] [m F]. exists (n + m)%Z. rewrite plus_IZR. lra. Qed.
Lemma place_same : forall x y lat, same_meridian x y -> place y lat = place x lat.
Proof.
  intros x y lat S. unfold place. f_equal. apply (meridian_unique x); [|apply normalize_spec]. destruct (normalize_spec y) as [B T]. split; [exact B|]. apply (same_meridian_trans _ y); assumption.
Qed.

(** ** Contents *)
Lemma places_spec : forall lon lat, places lon lat = map (fun p => place (fst p) (snd p)) (combine lon lat).
Proof. induction lon as [|x lon IH]; intros [|y lat]; cbn [places combine map fst snd]; auto. rewrite IH. reflexivity. Qed.
Lemma combine_map {A B C} : forall (f : A -> B) (l : list A) (m : list C), combine (map f l) m = map (fun p => (f (fst p), snd p)) (combine l m).
Proof. induction l as [|a l IH]; intros [|c m]; cbn [map combine fst snd]; auto. rewrite IH. reflexivity. Qed.
Lemma unzip : forall {A B} (l : list (A * B)), combine (map fst l) (map snd l) = l.
Proof. induction l as [|[a b] l IH]; cbn [map combine fst snd]; [reflexivity|]. rewrite IH. reflexivity. Qed.
Definition put_down (p : R * R * R) : gitem := (place (fst (fst p)) (snd (fst p)), snd p).
Lemma combine_places : forall lon lat values, combine (places lon lat) values = map put_down (triples lon lat values).
Proof. intros. rewrite places_spec, combine_map. reflexivity. Qed.
Lemma same_size_true : forall lon lat values, length lon = length lat -> length lon = length values -> same_size lon lat values = true.
Proof. intros lon lat values E F. unfold same_size, zlen. rewrite <- E, <- F, Z.eqb_refl. reflexivity. Qed.
Lemma same_size_false : forall lon lat values, ~ (length lon = length lat /\ length lon = length values) -> same_size lon lat values = false.
Proof. intros lon lat values H. unfold same_size, zlen. destruct (Z.eqb_spec (Z.of_nat (length lon)) (Z.of_nat (length lat))), (Z.eqb_spec (Z.of_nat (length lon)) (Z.of_nat (length values))); try reflexivity. exfalso. apply H. lia. Qed.
Lemma pickle_same : forall t, g_setstate (g_getstate t) = Ok t.
Proof. intros [a b l]. unfold g_setstate, g_getstate, zlen. cbn [gt_a gt_b gt_items]. rewrite !map_length, Z.eqb_refl, unzip. reflexivity. Qed.

(** ** Rows: pairs of a distance and a value *)
Definition as_item (r : R * R) : item := ((fst r, 0, 0), snd r).
Lemma as_item_dist : forall r, 0 <= fst r -> dist (0, 0, 0) (fst (as_item r)) = fst r.
Proof.
  intros r H. unfold dist, as_item, px, py, pz. cbn [fst snd]. replace ((0 - fst r) ^ 2 + (0 - 0) ^ 2 + (0 - 0) ^ 2) with (fst r * fst r) by ring. apply sqrt_square. exact H.
Qed.
Lemma rows_items : forall l, (forall r, In r l -> 0 <= fst r) -> map (row_of (0, 0, 0)) (map as_item l) = l.
Proof.
  induction l as [|[d v] l IH]; intro H; cbn [map]; [reflexivity|]. rewrite IH by (intros r Hr; apply H; right; exact Hr). f_equal. unfold row_of. rewrite (as_item_dist (d, v)) by (apply (H (d, v)); left; reflexivity). reflexivity.
Qed.
Lemma total_items : forall f g l, (forall r, In r l -> g (as_item r) = f r) -> sum_of g (map as_item l) = total f l.
Proof. induction l as [|r l IH]; intro H; cbn [map sum_of fold_right total]; [reflexivity|]. unfold sum_of in IH. rewrite IH by (intros; apply H; right; assumption). rewrite (H r (or_introl eq_refl)). reflexivity. Qed.
Lemma filter_map {A B} : forall (f : A -> B) (p : B -> bool) (q : A -> bool) l, (forall a, In a l -> p (f a) = q a) -> filter p (map f l) = map f (filter q l).
Proof.
  induction l as [|a l IH]; intro H; cbn [map filter]; [reflexivity|]. rewrite (H a (or_introl eq_refl)), IH by (intros; apply H; right; assumption). destruct (q a); reflexivity.
Qed.
Lemma mean_between_them : forall w l m, (forall i, In i l -> 0 <= w i) -> mean_of w l m -> between_them l m.
Proof.
  intros w l m W [N E].
  assert (M : weighted_mean (fun i => w (px (fst i), snd i)) (map as_item l) m).
  { split; [rewrite (total_items w) by (intros [d v] _; reflexivity); exact N|]. rewrite (total_items w) by (intros [d v] _; reflexivity). rewrite (total_items (fun i => w i * snd i)) by (intros [d v] _; reflexivity). exact E. }
  assert (W' : forall i, In i (map as_item l) -> 0 <= w (px (fst i), snd i)) by (intros i I; apply in_map_iff in I as ([d v] & <- & I); apply (W (d, v) I)).
  destruct (mean_between _ _ _ W' M) as (i & j & I & J & B).
  apply in_map_iff in I as (r & <- & I). apply in_map_iff in J as (s & <- & J). exists r, s. auto.
Qed.
(** The inverse distance weighting of rows. *)
Lemma idw_rows : forall k p radius l, (forall r, In r l -> 1 / 1000000 <= fst r) ->
  let used := filter (fun r => within_radius radius (fst r)) l in
  (used = [] -> idw_loop k p radius l 0 0 0%Z = (None, 0%Z)) /\
  (used <> [] -> exists m, idw_loop k p radius l 0 0 0%Z = (Some m, zlen used) /\ mean_of (fun r => 1 / fst r ^ p) used m /\ between_them used m).
Proof.
  intros k p radius l H used. assert (P : forall r, In r l -> 0 <= fst r) by (intros r Hr; specialize (H r Hr); lra).
  pose proof (idw_loop_far k p radius (0, 0, 0) (map as_item l) [] 0%Z) as L. cbn zeta in L. cbn [app] in L. change (sum_of (fun i => idw_weight (0, 0, 0) p i * snd i) []) with 0 in L. change (sum_of (idw_weight (0, 0, 0) p) []) with 0 in L.
  rewrite rows_items in L by exact P. rewrite (filter_map as_item _ (fun r => within_radius radius (fst r))) in L by (intros r Hr; rewrite as_item_dist by (apply P; exact Hr); reflexivity). fold used in L.
  assert (U : forall r, In r used -> In r l) by (intros r Hr; apply filter_In in Hr; apply Hr).
  rewrite L; clear L; [|intros i I; apply in_map_iff in I as (r & <- & I); rewrite as_item_dist by (apply P; exact I); apply H; exact I|reflexivity].
  rewrite (total_items (fun r => 1 / fst r ^ p)) by (intros r Hr; unfold idw_weight; rewrite as_item_dist by (apply P, U; exact Hr); reflexivity).
  rewrite (total_items (fun r => 1 / fst r ^ p * snd r)) by (intros r Hr; unfold idw_weight; rewrite as_item_dist by (apply P, U; exact Hr); reflexivity).
  assert (W : forall r, In r used -> 0 < 1 / fst r ^ p) by (intros r Hr; apply Rdiv_lt_0_compat; [lra|]; apply pow_lt; specialize (H r (U r Hr)); lra).
  split; intro E.
  - rewrite E. cbn [total fold_right]. assert (Z : Reqb 0 0 = true) by (apply Reqb_true; reflexivity). rewrite Z. reflexivity.
  - assert (T : 0 < total (fun r => 1 / fst r ^ p) used).
    { clearbody used. clear -W E. induction used as [|r l IH]; [contradiction|]. cbn [total fold_right]. pose proof (W r (or_introl eq_refl)). destruct l as [|s l]; [cbn [fold_right]; lra|].
      assert (0 < total (fun r => 1 / fst r ^ p) (s :: l)) by (apply IH; [intros; apply W; right; assumption|discriminate]). unfold total in *. lra. }
    assert (Z : Reqb (total (fun r => 1 / fst r ^ p) used) 0 = false) by (apply Reqb_false; lra). rewrite Z. eexists. split; [unfold zlen; rewrite map_length; reflexivity|].
    assert (M : mean_of (fun r => 1 / fst r ^ p) used (total (fun r => 1 / fst r ^ p * snd r) used / total (fun r => 1 / fst r ^ p) used)) by (split; [lra|field; lra]).
    split; [exact M|]. apply (mean_between_them (fun r => 1 / fst r ^ p)); [intros; left; apply W; assumption|exact M].
Qed.
(** The window function of rows whose distances increase. *)
Lemma sorted_rows : forall l, (forall r, In r l -> 0 <= fst r) -> StronglySorted (fun r s => fst r <= fst s) l ->
  StronglySorted (fun i j => dist (0, 0, 0) (fst i) <= dist (0, 0, 0) (fst j)) (map as_item l).
Proof.
  induction l as [|r l IH]; intros P S; cbn [map]; [constructor|]. apply StronglySorted_inv in S as [S F]. constructor; [apply IH; [intros; apply P; right; assumption|exact S]|].
  rewrite Forall_forall in *. intros i I. apply in_map_iff in I as (s & <- & I). rewrite !as_item_dist by (apply P; cbn; auto). apply F. exact I.
Qed.
Definition row_window (w : R -> R -> option R) (radius : option R) (l : list (R * R)) : option R * Z :=
  let far := match radius with Some r => r | None => fst (last l (0, 0)) end in
  let '(sums, n) := window_loop w far radius l (Some (0, 0)) 0%Z in
  match sums with
  | None => (None, n)
  | Some (result, total) => if Reqb total 0 then (None, 0%Z) else (Some (result / total), n)
  end.
Lemma window_rows : forall w radius l r wt, (forall x, In x l -> 0 <= fst x) -> StronglySorted (fun x y => fst x <= fst y) l ->
  (radius = Some r \/ radius = None /\ exists x, In x l /\ fst x = r /\ forall y, In y l -> fst y <= r) ->
  (forall x, In x l -> fst x <= r -> w (fst x) r = Some (wt x)) ->
  let used := filter (fun x => Rleb (fst x) r) l in
  (total wt used = 0 -> row_window w radius l = (None, 0%Z)) /\
  (total wt used <> 0 -> exists m, row_window w radius l = (Some m, zlen used) /\ mean_of wt used m /\ ((forall x, In x used -> 0 <= wt x) -> between_them used m)).
Proof.
  intros w radius l r wt P S RR WT used.
  assert (FAR : (match radius with Some r => r | None => fst (last l (0, 0)) end) = r).
  { destruct RR as [-> |(-> & i & I & D & M)]; [reflexivity|]. destruct l as [|x l0] eqn:EL; [destruct I|]. assert (NE : x :: l0 <> []) by discriminate. destruct (exists_last NE) as (l1 & y & EY). rewrite EY, last_last.
    rewrite EY in *. apply Rle_antisym; [apply M, in_or_app; right; left; reflexivity|]. rewrite <- D. apply in_app_or in I as [I|[<-|[]]]; [|lra]. apply (proj2 (sorted_app _ _ _ S)); [exact I|left; reflexivity]. }
  assert (PX : prefix radius (0, 0, 0) (map as_item l) = map as_item used).
  { rewrite prefix_filter by (apply sorted_rows; assumption). apply filter_map. intros x X. rewrite as_item_dist by (apply P; exact X). destruct RR as [-> |(-> & j & _ & _ & M)]; [reflexivity|]. cbn [within_radius]. symmetry. apply Rleb_true, M. exact X. }
  set (wt' := fun i : item => wt (px (fst i), snd i)).
  assert (WP : forall i, In i (prefix radius (0, 0, 0) (map as_item l)) -> w (dist (0, 0, 0) (fst i)) r = Some (wt' i)).
  { intros i I. rewrite PX in I. apply in_map_iff in I as ([d v] & <- & I). apply filter_In in I as [I L]. apply Rleb_true in L. rewrite as_item_dist by (apply P; exact I). apply (WT (d, v)); assumption. }
  pose proof (window_loop_spec w r radius (0, 0, 0) (map as_item l) [] 0%Z wt' eq_refl WP) as L. cbn zeta in L. cbn [app] in L. change (sum_of (fun i => wt' i * snd i) []) with 0 in L. change (sum_of wt' []) with 0 in L.
  rewrite rows_items, PX in L by exact P. rewrite (total_items wt wt') in L by (intros [d v] _; reflexivity). rewrite (total_items (fun x => wt x * snd x)) in L by (intros [d v] _; reflexivity).
  unfold row_window. rewrite FAR, L. split; intro Z.
  - apply Reqb_true in Z. rewrite Z. reflexivity.
  - pose proof Z as NZ. apply Reqb_false in NZ. rewrite NZ. eexists. split; [unfold zlen; rewrite map_length; reflexivity|].
    assert (M : mean_of wt used (total (fun i => wt i * snd i) used / total wt used)) by (split; [exact Z|field; exact Z]). split; [exact M|]. intro Q. apply (mean_between_them wt); assumption.
Qed.

(** ** A brute force iterator *)
Section Brute.
  Variable d : gpoint -> gpoint -> R.
  Fixpoint g_ins (p : gpoint) (i : gitem) (l : list gitem) : list gitem :=
    match l with [] => [i] | j :: t => if Rle_dec (d p (fst i)) (d p (fst j)) then i :: j :: t else j :: g_ins p i t end.
  Definition g_sorted (p : gpoint) (l : list gitem) : list gitem := fold_right (g_ins p) [] l.
  Definition g_brute (t : list gitem) (p : gpoint) (k : nat) : list gitem := firstn k (g_sorted p t).
  Lemma g_ins_perm : forall p i l, Permutation (i :: l) (g_ins p i l).
  Proof. intros p i l. induction l as [|j t IH]; cbn [g_ins]; [auto|]. destruct (Rle_dec _ _); [auto|]. eapply perm_trans; [apply perm_swap|]. constructor. exact IH. Qed.
  Lemma g_sorted_perm : forall p l, Permutation l (g_sorted p l).
  Proof. intros p l. induction l as [|i l IH]; [constructor|]. cbn [g_sorted fold_right]. eapply perm_trans; [|apply g_ins_perm]. constructor. exact IH. Qed.
  Lemma g_ins_sorted : forall p i l, StronglySorted (fun i j => d p (fst i) <= d p (fst j)) l -> StronglySorted (fun i j => d p (fst i) <= d p (fst j)) (g_ins p i l).
  Proof.
    intros p i l. induction l as [|j t IH]; cbn [g_ins]; intro S; [repeat constructor|]. apply StronglySorted_inv in S as [S F]. destruct (Rle_dec _ _) as [L|L].
    - constructor; [constructor; assumption|]. constructor; [exact L|]. eapply Forall_impl; [|exact F]. intros a A. cbn in *. lra.
    - constructor; [apply IH; exact S|]. rewrite Forall_forall in *. intros a A. apply (Permutation_in _ (Permutation_sym (g_ins_perm p i t))) in A. destruct A as [<-|A]; [lra|apply F; exact A].
  Qed.
  Lemma g_sorted_sorted : forall p l, StronglySorted (fun i j => d p (fst i) <= d p (fst j)) (g_sorted p l).
  Proof. intros p l. induction l as [|i l IH]; [constructor|]. cbn [g_sorted fold_right]. apply g_ins_sorted. exact IH. Qed.
  Lemma g_brute_nearest : forall t p k, g_k_nearest d t p k (g_brute t p k).
  Proof.
    intros t p k. unfold g_k_nearest, g_brute. pose proof (g_sorted_perm p t) as P. pose proof (g_sorted_sorted p t) as S. rewrite <- (firstn_skipn k (g_sorted p t)) in S. destruct (sorted_app _ _ _ S) as [A B]. split; [|split].
    - rewrite firstn_length, (Permutation_length P). reflexivity.
    - exact A.
    - exists (skipn k (g_sorted p t)). rewrite firstn_skipn. split; [exact P|exact B].
  Qed.
End Brute.
