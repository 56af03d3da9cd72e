(** Lemmas about the spatial index. *)
From Coq Require Import Reals Lra Psatz Permutation Sorted Lia.
From Verif Require Import Base WindowModel WindowProofs RTreeModel RTreeSpec.
Open Scope R_scope.

(** ** An iterator that fulfils the contract *)
Fixpoint ins (p : point) (i : item) (l : list item) : list item :=
  match l with [] => [i] | j :: t => if Rle_dec (dist p (fst i)) (dist p (fst j)) then i :: l else j :: ins p i t end.
Definition sorted_by (p : point) (l : list item) : list item := fold_right (ins p) [] l.
Definition brute (t : list item) (p : point) (k : nat) : list item := firstn k (sorted_by p t).
Lemma ins_perm : forall p i l, Permutation (i :: l) (ins p i l).
Proof. intros p i l. induction l as [|j t IH]; cbn [ins]; [auto|]. destruct (Rle_dec _ _); [auto|]. eapply perm_trans; [apply perm_swap|]. constructor. exact IH. Qed.
Lemma sorted_perm : forall p l, Permutation l (sorted_by p l).
Proof. intros p l. induction l as [|i l IH]; [constructor|]. cbn [sorted_by fold_right]. eapply perm_trans; [|apply ins_perm]. constructor. exact IH. Qed.
Lemma ins_sorted : forall p i l, StronglySorted (fun i j => dist p (fst i) <= dist p (fst j)) l -> StronglySorted (fun i j => dist p (fst i) <= dist p (fst j)) (ins p i l).
Proof.
  intros p i l. induction l as [|j t IH]; cbn [ins]; intro S; [repeat constructor|]. apply StronglySorted_inv in S as [S F]. destruct (Rle_dec _ _) as [L|L].
  - constructor; [constructor; assumption|]. constructor; [exact L|]. eapply Forall_impl; [|exact F]. intros a A. cbn in *. lra.
  - constructor; [apply IH; exact S|]. rewrite Forall_forall in *. intros a A. apply (Permutation_in _ (Permutation_sym (ins_perm p i t))) in A. destruct A as [<-|A]; [lra|apply F; exact A].
Qed.
Lemma sorted_sorted : forall p l, StronglySorted (fun i j => dist p (fst i) <= dist p (fst j)) (sorted_by p l).
Proof. intros p l. induction l as [|i l IH]; [constructor|]. cbn [sorted_by fold_right]. apply ins_sorted. exact IH. Qed.
Lemma sorted_app : forall {A} (R : A -> A -> Prop) a b, StronglySorted R (a ++ b) -> StronglySorted R a /\ forall x y, In x a -> In y b -> R x y.
Proof.
  intros A R a. induction a as [|x a IH]; intros b S; [split; [constructor|intros x y []]|]. cbn in S. apply StronglySorted_inv in S as [S F]. destruct (IH b S) as [P Q]. rewrite Forall_forall in F. split.
  - constructor; [exact P|]. rewrite Forall_forall. intros y Y. apply F, in_or_app. left. exact Y.
  - intros u y [<-|U] Y; [apply F, in_or_app; right; exact Y|apply Q; assumption].
Qed.
Lemma brute_contract : knn_contract brute.
Proof.
  intros t p k. unfold k_nearest, brute. pose proof (sorted_perm p t) as P. pose proof (sorted_sorted p t) as S. rewrite <- (firstn_skipn k (sorted_by p t)) in S. destruct (sorted_app _ _ _ S) as [A B]. split; [|split].
  - rewrite firstn_length, (Permutation_length P). reflexivity.
  - exact A.
  - exists (skipn k (sorted_by p t)). rewrite firstn_skipn. split; [exact P|exact B].
Qed.

(** ** Boxes *)
Lemma span_spec : forall f l lo hi, span f l = Some (lo, hi) -> (exists q, In q l /\ f q = lo) /\ (exists q, In q l /\ f q = hi) /\ forall q, In q l -> lo <= f q <= hi.
Proof.
  intros f l. induction l as [|q t IH]; cbn [span]; intros lo hi E; [discriminate|]. destruct (span f t) as [[a b]|] eqn:S.
  - injection E as <- <-. destruct (IH a b eq_refl) as ((qa & A & EA) & (qb & B & EB) & C). split; [|split].
    + destruct (Rle_dec (f q) a) as [L|L]; [rewrite Rmin_left by exact L; exists q; split; [left; reflexivity|reflexivity]|rewrite Rmin_right by lra; exists qa; split; [right; exact A|exact EA]].
    + destruct (Rle_dec (f q) b) as [L|L]; [rewrite Rmax_right by exact L; exists qb; split; [right; exact B|exact EB]|rewrite Rmax_left by lra; exists q; split; [left; reflexivity|reflexivity]].
    + intros x [<-|X]; [split; [apply Rmin_l|apply Rmax_l]|]. specialize (C x X). split; [eapply Rle_trans; [apply Rmin_r|lra]|eapply Rle_trans; [|apply Rmax_r]; lra].
  - injection E as <- <-. destruct t as [|x t]; [|cbn in S; destruct (span f t) as [[? ?]|]; discriminate]. split; [|split]; try (exists q; split; [left; reflexivity|reflexivity]). intros x [<-|[]]. lra.
Qed.
Lemma in_span_spec : forall f l p, in_span f l p = true <-> exists q q', In q l /\ In q' l /\ f q <= f p /\ f p <= f q'.
Proof.
  intros f l p. unfold in_span. destruct (span f l) as [[lo hi]|] eqn:S.
  - destruct (span_spec f l lo hi S) as ((a & A & EA) & (b & B & EB) & C). rewrite Bool.andb_true_iff, !Rleb_true. split.
    + intros [X Y]. exists a, b. subst. auto.
    + intros (q & q' & Q & Q' & X & Y). pose proof (C q Q). pose proof (C q' Q'). lra.
  - split; [discriminate|]. intros (q & _ & Q & _). destruct l as [|x l]; [destruct Q|]. cbn in S. destruct (span f l) as [[? ?]|]; discriminate.
Qed.
Lemma covered_spec : forall l p, covered l p = true <-> in_box l p.
Proof.
  intros l p. unfold covered, in_box. rewrite !Bool.andb_true_iff, !in_span_spec. split.
  - intros [[A B] C] f [<-|[<-|[<-|[]]]]; assumption.
  - intro H. split; [split|]; apply H; cbn; auto.
Qed.
Lemma covered_false : forall l p, covered l p = false <-> ~ in_box l p.
Proof. intros l p. rewrite <- covered_spec. destruct (covered l p); split; congruence. Qed.

Lemma within_radius_spec : forall radius d, within_radius radius d = true <-> in_radius radius d.
Proof.
  intros [r|] d; unfold within_radius, in_radius.
  - rewrite Rleb_true. split; [intros H x E; injection E as <-; exact H|intro H; apply H; reflexivity].
  - split; [intros _ x E; discriminate|reflexivity].
Qed.

(** ** Weighted means *)
Lemma sum_app : forall f a b, sum_of f (a ++ b) = sum_of f a + sum_of f b.
Proof. intros f a b. unfold sum_of. induction a as [|x a IH]; cbn [app fold_right]; [ring|]. rewrite IH. ring. Qed.
Lemma sum_nonneg : forall w l, (forall i, In i l -> 0 <= w i) -> 0 <= sum_of w l.
Proof. intros w l. induction l as [|x l IH]; intro H; cbn [sum_of fold_right]; [lra|]. pose proof (H x (or_introl eq_refl)). pose proof (IH (fun i I => H i (or_intror I))). unfold sum_of in *. lra. Qed.
Lemma mean_between : forall w l m, (forall i, In i l -> 0 <= w i) -> weighted_mean w l m -> between_values l m.
Proof.
  intros w l m W [N E].
  assert (P : 0 < sum_of w l) by (pose proof (sum_nonneg w l W); lra).
  destruct (Classical_Prop.classic (exists i, In i l /\ snd i <= m)) as [(i & I & LI)|NO].
  - destruct (Classical_Prop.classic (exists j, In j l /\ m <= snd j)) as [(j & J & LJ)|NO]; [exists i, j; auto|exfalso].
    assert (H : forall l, (forall i, In i l -> 0 <= w i) -> (forall i, In i l -> snd i < m) -> sum_of (fun i => w i * snd i) l <= m * sum_of w l /\ (0 < sum_of w l -> sum_of (fun i => w i * snd i) l < m * sum_of w l)).
    { clear. intros l. induction l as [|x l IH]; intros W H; cbn [sum_of fold_right]; [split; [lra|lra]|]. destruct (IH (fun i I => W i (or_intror I)) (fun i I => H i (or_intror I))) as [A B].
      pose proof (W x (or_introl eq_refl)) as WX. pose proof (H x (or_introl eq_refl)) as HX. unfold sum_of in *. set (S := fold_right _ 0 l) in *. set (V := fold_right (fun i s => w i * snd i + s) 0 l) in *. split; [nra|]. intro P.
      destruct (Rle_lt_or_eq_dec 0 (w x) WX) as [Q|Q]; [|rewrite <- Q in *; specialize (B ltac:(lra)); nra].
      assert (w x * snd x < w x * m) by (apply Rmult_lt_compat_l; assumption). nra. }
    assert (K : forall i, In i l -> snd i < m) by (intros x X; destruct (Rlt_dec (snd x) m); [assumption|exfalso; apply NO; exists x; split; [exact X|lra]]).
    destruct (H l W K) as [_ B]. specialize (B P). lra.
  - exfalso.
    assert (H : forall l, (forall i, In i l -> 0 <= w i) -> (forall i, In i l -> m < snd i) -> m * sum_of w l <= sum_of (fun i => w i * snd i) l /\ (0 < sum_of w l -> m * sum_of w l < sum_of (fun i => w i * snd i) l)).
    { clear. intros l. induction l as [|x l IH]; intros W H; cbn [sum_of fold_right]; [split; [lra|lra]|]. destruct (IH (fun i I => W i (or_intror I)) (fun i I => H i (or_intror I))) as [A B].
      pose proof (W x (or_introl eq_refl)) as WX. pose proof (H x (or_introl eq_refl)) as HX. unfold sum_of in *. set (S := fold_right _ 0 l) in *. set (V := fold_right (fun i s => w i * snd i + s) 0 l) in *. split; [nra|]. intro P.
      destruct (Rle_lt_or_eq_dec 0 (w x) WX) as [Q|Q]; [|rewrite <- Q in *; specialize (B ltac:(lra)); nra].
      assert (w x * m < w x * snd x) by (apply Rmult_lt_compat_l; assumption). nra. }
    assert (K : forall i, In i l -> m < snd i) by (intros x X; destruct (Rlt_dec m (snd x)); [assumption|exfalso; apply NO; exists x; split; [exact X|lra]]).
    destruct (H l W K) as [_ B]. specialize (B P). lra.
Qed.

(** ** Distances *)
Lemma dist_nonneg : forall p q, 0 <= dist p q.
Proof. intros. apply sqrt_pos. Qed.
Lemma dist_sym : forall p q, dist p q = dist q p.
Proof. intros p q. unfold dist. f_equal. ring. Qed.

(** ** The loop of the inverse distance weighting *)
Definition row_of (p : point) (i : item) : R * R := (dist p (fst i), snd i).
Definition idw_weight (pt : point) (p : nat) (i : item) : R := 1 / dist pt (fst i) ^ p.
Lemma idw_loop_far : forall k p radius pt l acc n,
  (forall i, In i l -> 1 / 1000000 <= dist pt (fst i)) -> n = Z.of_nat (length acc) ->
  let used := acc ++ filter (fun i => within_radius radius (dist pt (fst i))) l in
  idw_loop k p radius (map (row_of pt) l) (sum_of (fun i => idw_weight pt p i * snd i) acc) (sum_of (idw_weight pt p) acc) n =
  if Reqb (sum_of (idw_weight pt p) used) 0 then (None, 0%Z)
  else (Some (sum_of (fun i => idw_weight pt p i * snd i) used / sum_of (idw_weight pt p) used), Z.of_nat (length used)).
Proof.
  intros k p radius pt l. induction l as [|i l IH]; intros acc n F N; cbn zeta; cbn [map idw_loop filter].
  - rewrite app_nil_r. subst n. reflexivity.
  - unfold row_of at 1. assert (NF : Rltb (dist pt (fst i)) (1 / 1000000) = false) by (apply Rltb_false, F; left; reflexivity). rewrite NF.
    assert (F' : forall i, In i l -> 1 / 1000000 <= dist pt (fst i)) by (intros j J; apply F; right; exact J).
    destruct (within_radius radius (dist pt (fst i))).
    + specialize (IH (acc ++ [i]) (n + 1)%Z F'). cbn zeta in IH. rewrite <- app_assoc in IH. cbn [app] in IH. rewrite <- IH.
      * rewrite !sum_app. cbn [sum_of fold_right]. unfold idw_weight. f_equal; ring.
      * rewrite app_length. cbn [length]. lia.
    + apply IH; assumption.
Qed.
Lemma idw_weight_pos : forall pt p i, 1 / 1000000 <= dist pt (fst i) -> 0 < idw_weight pt p i.
Proof. intros pt p i H. unfold idw_weight. apply Rdiv_lt_0_compat; [lra|]. apply pow_lt. lra. Qed.
Lemma sum_pos : forall w l, (forall i, In i l -> 0 < w i) -> l <> [] -> 0 < sum_of w l.
Proof.
  intros w l H N. destruct l as [|x l]; [contradiction|]. cbn [sum_of fold_right]. pose proof (H x (or_introl eq_refl)).
  pose proof (sum_nonneg w l (fun i I => Rlt_le _ _ (H i (or_intror I)))). unfold sum_of in *. lra.
Qed.

(** ** The loop of the window functions *)
Fixpoint prefix (radius : option R) (pt : point) (l : list item) : list item :=
  match l with [] => [] | i :: t => if within_radius radius (dist pt (fst i)) then i :: prefix radius pt t else [] end.
Lemma prefix_filter : forall radius pt l, StronglySorted (fun i j => dist pt (fst i) <= dist pt (fst j)) l ->
  prefix radius pt l = filter (fun i => within_radius radius (dist pt (fst i))) l.
Proof.
  intros radius pt l. induction l as [|i l IH]; intro S; [reflexivity|]. apply StronglySorted_inv in S as [S F]. cbn [prefix filter]. destruct (within_radius radius (dist pt (fst i))) eqn:W; [f_equal; apply IH; exact S|].
  symmetry. clear IH S. induction l as [|j l IH]; [reflexivity|]. cbn [filter]. inversion F as [|? ? A B]; subst. assert (X : within_radius radius (dist pt (fst j)) = false).
  { destruct radius as [r|]; [|discriminate]. cbn in *. apply Rleb_false in W. apply Rleb_false. lra. }
  rewrite X. apply IH. exact B.
Qed.
Lemma window_loop_spec : forall w far radius pt l acc n wt, n = Z.of_nat (length acc) ->
  (forall i, In i (prefix radius pt l) -> w (dist pt (fst i)) far = Some (wt i)) ->
  window_loop w far radius (map (row_of pt) l) (Some (sum_of (fun i => wt i * snd i) acc, sum_of wt acc)) n =
  (let used := acc ++ prefix radius pt l in Some (sum_of (fun i => wt i * snd i) used, sum_of wt used), Z.of_nat (length (acc ++ prefix radius pt l))).
Proof.
  intros w far radius pt l. induction l as [|i l IH]; intros acc n wt N H; cbn [map window_loop prefix] in *.
  - cbn zeta. rewrite app_nil_r. subst n. reflexivity.
  - unfold row_of at 1. destruct (within_radius radius (dist pt (fst i))) eqn:W.
    + rewrite (H i (or_introl eq_refl)). specialize (IH (acc ++ [i]) (n + 1)%Z wt). rewrite <- !app_assoc in IH. cbn [app] in IH. rewrite <- IH; [|rewrite app_length; cbn [length]; lia|intros j J; apply H; right; exact J].
      rewrite !sum_app. cbn [sum_of fold_right]. f_equal. f_equal. f_equal; ring.
    + cbn zeta. rewrite app_nil_r. subst n. reflexivity.
Qed.
